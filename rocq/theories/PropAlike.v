(** Introspection (C45) and metrics (C47) do not change executions: for every schedule, whatever the loaders do,
    with sub-graphs included. *)
From Verif Require Import Base Val Types Query QuerySpec QueryProof Graph Queue Result Engine EngineSpec CostSpec Validate ValidateSpec PropValidate
  PropEngine GraphExt GraphRename Introspect PropIntroGraph Transform PropTransform Telemetry PropTelemetry EngineSim.

Lemma wf_requires g gn name l r : well_formed (g_items g) -> node_of g gn -> find_field gn name = Some (GL l) -> req_true l = Some r ->
  is_Some (find_field gn r).
Proof.
  intros (_ & Hroot & Hnodes) Hn Hf Hr. assert (gl_requires l = Some r) as Hreq.
  { unfold req_true in Hr. destruct (gl_requires l) as [[|c r0]|]; congruence. }
  assert (r ∈ map gi_name (gn_fields gn) /\ NoDup (map gi_name (gn_fields gn))) as [Hin Hnd].
  { apply find_field_elem in Hf as [Hx _]. destruct Hn as [->|[n Hn]].
    - pose proof (root_fields_eq (g_items g)) as Hre. change (g_root (Graph (g_items g) [])) with (g_root g) in Hre. rewrite <-Hre in Hroot.
      destruct Hroot as [Hnd Hl]. specialize (Hl _ Hx). rewrite Hreq in Hl. split; [apply Hl|done].
    - apply find_node_elem in Hn as [Hi Hnn]. destruct (Hnodes _ _ Hi Hnn) as [Hnd Hl]. specialize (Hl _ Hx). rewrite Hreq in Hl. split; [apply Hl|done]. }
  apply elem_of_list_fmap in Hin as (x & -> & Hx). eexists. by apply find_field_unique.
Qed.

(** ** Introspection *)
Section ext.
  Context `{Hasher} (E : env) (g g' : graph).
  Hypothesis (He : extends g g') (Hwf : well_formed (g_items g)).
  Hypothesis (Hnest : nested (e_sgs E)) (Hused : uses_below (length (e_sgs E)) g).
  Lemma id_alike : env_alike E E (fun f => f).
  Proof. by split. Qed.
  Lemma ssim_id d sg : sg < d -> ssim E E (fun f => f) d sg sg.
  Proof.
    revert sg. induction d as [|d IH]; intros sg Hlt; [lia|]. cbn [ssim]. destruct (e_sgs E !! sg) as [[G node]|] eqn:Es; [|done].
    split; [done|]. split; [done|]. intros gn name x Hn Hx. destruct (fkey_of x) as [|a] eqn:Ek; [done|]. apply IH.
    destruct x as [f|]; [|done]. cbn in Ek. destruct (gf_func f) as [|sg' rq pr] eqn:Ef; [done|]. injection Ek as ->.
    pose proof (Hnest _ _ _ Es _ _ _ _ _ _ Hn Hx Ef). lia.
  Qed.
  Notation D := (length (e_sgs E)).
  Definition idK (k k' : fkey) : Prop := k' = k /\ ks E E (fun f => f) D k k'.
  Lemma idK_item gn name x : node_of g gn -> find_field gn name = Some x -> idK (fkey_of x) (fkey_of x).
  Proof.
    intros Hn Hx. split; [done|]. destruct (fkey_of x) as [|a] eqn:Ek; [done|]. cbn. apply ssim_id.
    destruct x as [f|]; [|done]. cbn in Ek. destruct (gf_func f) as [|sg' rq pr] eqn:Ef; [done|]. injection Ek as ->. by eapply Hused.
  Qed.
  Lemma ext_flook gn gn' n : node_of g gn -> node_extends gn gn' -> is_Some (find_field gn n) -> flook idK gn gn' n.
  Proof.
    intros Hn [_ Hx] [x Ex]. unfold flook. rewrite Ex, (Hx _ _ Ex). split; [split_and!; try done; by destruct x|]. by eapply idK_item.
  Qed.
  Lemma ext_isim q : forall gn gn' q', node_of g gn -> node_extends gn gn' -> init_item g gn q = Ok q' ->
    isim (fun f => f) (ks E E (fun f => f) D) g g' idK gn gn' q'.
  Proof.
    induction q as [nm o a|nm sub ord o a IH] using qitem_ind'; intros gn gn' q' Hn Hx Hi; cbn [init_item q_name] in Hi.
    - destruct (find_field gn nm) as [x|] eqn:Ex; [|done].
      assert (exists o', q' = QF nm o' a) as [o' ->].
      { destruct (gi_opts x); [injection Hi as <-; eauto|]. destruct (get_options _ _); [injection Hi as <-; eauto|done]. }
      cbn [isim q_name]. pose proof (ext_flook gn gn' nm Hn Hx ltac:(eauto)) as Hf. rewrite Ex, (proj2 Hx _ _ Ex). by destruct x.
    - destruct (find_field gn nm) as [x|] eqn:Ex; [|done].
      assert (exists sub' o', q' = QL nm sub' ord o' a /\ match x with GL l => match find_node g (gl_node l) with
        | None => False | Some gn' => mapR (init_item g gn') sub = Ok sub' end | GF _ => True end) as (sub' & o' & -> & Hsub).
      { destruct x as [f|l].
        - destruct (gi_opts (GF f)); [injection Hi as <-; eauto|]. destruct (get_options _ _); [injection Hi as <-; eauto|done].
        - destruct (find_node g (gl_node l)) as [m|]; [|done]. destruct (mapR (init_item g m) sub) as [sub'|]; [|done].
          destruct (gi_opts (GL l)); [injection Hi as <-; eauto|]. destruct (get_options _ _); [injection Hi as <-; eauto|done]. }
      pose proof (ext_flook gn gn' nm Hn Hx ltac:(eauto)) as Hf. cbn [isim q_name]. rewrite Ex, (proj2 Hx _ _ Ex). destruct x as [f|l]; [done|].
      split; [by destruct l|]. split.
      + intros r Hr. apply ext_flook; [done|done|]. by eapply wf_requires.
      + destruct (find_node g (gl_node l)) as [m|] eqn:Em; [|done]. destruct (ex_nodes _ _ He _ _ Em) as (m' & -> & Hm). split; [apply Hm|].
        exists idK. split; [split; [|by intros k k' [_ ?]]|].
        * intros b b' c c' [-> _] [-> _]. done.
        * apply foldr_in. intros y Hy. apply mapR_ok in Hsub. apply elem_of_list_lookup in Hy as [i Hi'].
          destruct (Forall2_lookup_r _ _ _ _ _ Hsub Hi') as (z & Hz & Hzy). rewrite Forall_forall in IH.
          eapply (IH z); [by eapply elem_of_list_lookup_2|right; by eexists|done|done].
  Qed.
  Lemma ext_nsim q q' : init_options g q = Ok q' -> nsim (fun f => f) (ks E E (fun f => f) D) g g' (g_root g) (g_root g') q'.
  Proof.
    unfold init_options. destruct (mapR _ (qfields q)) as [l|] eqn:El; [|done]. intros [= <-]. split; [apply He|]. exists idK. split.
    { split; [|by intros k k' [_ ?]]. intros b b' c c' [-> _] [-> _]. done. }
    cbn [qfields]. intros y Hy. apply mapR_ok in El. apply elem_of_list_lookup in Hy as [i Hi'].
    destruct (Forall2_lookup_r _ _ _ _ _ El Hi') as (z & Hz & Hzy). eapply (ext_isim z); [by left|apply He|done].
  Qed.
  Lemma ext_denorm q : forall gn gn' q' idx ref pn, node_extends gn gn' -> init_item g gn q = Ok q' -> denorm g' idx gn' ref pn q' = denorm g idx gn ref pn q'.
  Proof.
    induction q as [nm o a|nm sub ord o a IH] using qitem_ind'; intros gn gn' q' idx ref pn Hx Hi; cbn [init_item q_name] in Hi.
    - destruct (find_field gn nm) as [x|] eqn:Ex; [|done].
      assert (exists o', q' = QF nm o' a) as [o' ->].
      { destruct (gi_opts x); [injection Hi as <-; eauto|]. destruct (get_options _ _); [injection Hi as <-; eauto|done]. }
      cbn [denorm q_name]. by rewrite Ex, (proj2 Hx _ _ Ex).
    - destruct (find_field gn nm) as [x|] eqn:Ex; [|done].
      assert (exists sub' o', q' = QL nm sub' ord o' a /\ match x with GL l => match find_node g (gl_node l) with
        | None => False | Some gn' => mapR (init_item g gn') sub = Ok sub' end | GF _ => True end) as (sub' & o' & -> & Hsub).
      { destruct x as [f|l].
        - destruct (gi_opts (GF f)); [injection Hi as <-; eauto|]. destruct (get_options _ _); [injection Hi as <-; eauto|done].
        - destruct (find_node g (gl_node l)) as [m|]; [|done]. destruct (mapR (init_item g m) sub) as [sub'|]; [|done].
          destruct (gi_opts (GL l)); [injection Hi as <-; eauto|]. destruct (get_options _ _); [injection Hi as <-; eauto|done]. }
      cbn [denorm q_name]. rewrite Ex, (proj2 Hx _ _ Ex), (ex_types _ _ He). destruct x as [f|l]; [done|].
      destruct (find_node g (gl_node l)) as [m|] eqn:Em; [|done]. destruct (ex_nodes _ _ He _ _ Em) as (m' & -> & Hm).
      assert (forall ref pn, mapR (denorm g' idx m' ref pn) sub' = mapR (denorm g idx m ref pn) sub') as Hobj.
      { intros rf p. apply mapR_ext, Forall_forall. intros y Hy. apply mapR_ok in Hsub. apply elem_of_list_lookup in Hy as [i Hi'].
        destruct (Forall2_lookup_r _ _ _ _ _ Hsub Hi') as (z & Hz & Hzy). rewrite Forall_forall in IH.
        eapply (IH z); [by eapply elem_of_list_lookup_2|done|done]. }
      destruct (proxy_get _ _ _ _) as [r|]; [|done]. cbn zeta. destruct (gl_enum l), r as [[]| |]; try done; try by rewrite Hobj.
      erewrite mapR_ext; [done|]. apply Forall_forall. intros y _. by rewrite Hobj.
  Qed.
  Lemma ext_denormalize q q' idx : init_options g q = Ok q' -> denormalize g' idx q' = denormalize g idx q'.
  Proof.
    unfold init_options. destruct (mapR _ (qfields q)) as [l|] eqn:El; [|done]. intros [= <-]. unfold denormalize, denorm_node. cbn [qfields].
    assert (forall pn, mapR (denorm g' idx (g_root g') ROOT pn) l = mapR (denorm g idx (g_root g) ROOT pn) l) as Hm.
    { intros pn. apply mapR_ext, Forall_forall. intros y Hy. apply mapR_ok in El. apply elem_of_list_lookup in Hy as [i Hi'].
      destruct (Forall2_lookup_r _ _ _ _ _ El Hi') as (z & Hz & Hzy). eapply ext_denorm; [apply He|done]. }
    by rewrite Hm.
  Qed.
End ext.

(** C45: former queries are executed as before - the same outcomes, the same calls of loaders - for every schedule and
    whatever the loaders do; results are read as before. *)
Theorem C45_same_executions `{Hasher} (E : env) L g g' q q' fuel sched r :
  well_formed (g_items g) -> add_introspection L g = Ok g' -> nested (e_sgs E) -> uses_below (length (e_sgs E)) g ->
  init_options g q = Ok q' -> execute E fuel g q sched r <-> execute E fuel g' q sched r.
Proof.
  intros Hwf Hadd Hnest Hused Hi. pose proof (C45_extends L g g' Hadd) as He.
  apply (sim_execute E E (fun f => f) (id_alike E) (length (e_sgs E)) (le_n _) (le_n _)).
  - by rewrite Hi; apply (ext_init_options g g' He).
  - intros q2 Hq. by eapply ext_nsim.
Qed.
Theorem C45_same_calls `{Hasher} (E : env) L g g' q q' fuel sched log :
  well_formed (g_items g) -> add_introspection L g = Ok g' -> nested (e_sgs E) -> uses_below (length (e_sgs E)) g ->
  init_options g q = Ok q' -> exec_log E fuel g q sched log <-> exec_log E fuel g' q sched log.
Proof.
  intros Hwf Hadd Hnest Hused Hi. pose proof (C45_extends L g g' Hadd) as He.
  rewrite (sim_log E E (fun f => f) (id_alike E) (length (e_sgs E)) (le_n _) (le_n _) g g' q); [| |].
  - assert (forall l, map (rename_call (fun f => f)) l = l) as Hm by (intros l; induction l as [|[]]; cbn; [done|]; unfold rename_call at 1; cbn; congruence).
    setoid_rewrite Hm. naive_solver.
  - by rewrite Hi; apply (ext_init_options g g' He).
  - intros q2 Hq. by eapply ext_nsim.
Qed.
Theorem C45_same_reading `{Hasher} L g g' q q' idx :
  add_introspection L g = Ok g' -> init_options g q = Ok q' -> denormalize g' idx q' = denormalize g idx q'.
Proof. intros Hadd. apply ext_denormalize. by eapply C45_extends. Qed.

(** ** Metrics *)
(** Fields are asked for as fields: what the validator asks for (cf. [asks_fields_valid] below) *)
Fixpoint asks_fields (g : graph) (gn : gnode) (q : qitem) {struct q} : Prop :=
  match find_field gn (q_name q), q with
  | Some (GL _), QF _ _ _ => False
  | Some (GL l), QL _ sub _ _ _ => match find_node g (gl_node l) with Some m => foldr (fun x P => asks_fields g m x /\ P) True sub | None => True end
  | _, _ => True
  end.
(** The links of the graph require fields *)
Definition links_require_fields (g : graph) : Prop :=
  forall gn name l r k, node_of g gn -> find_field gn name = Some (GL l) -> gl_requires l = Some r -> find_field gn r <> Some (GL k).
(** The numbers of the loaders of a graph *)
Definition loaders_below (base : N) (G : graph) : Prop :=
  forall gn name x f, node_of G gn -> find_field gn name = Some x -> fkey_of x = KPlain f -> (f < base)%N.

Lemma asks_fields_valid_item fuel g q : forall gn, check_item fuel g gn q = Ok [] -> asks_fields g gn q.
Proof.
  induction q as [nm o a|nm sub ord o a IH] using qitem_ind'; intros gn; cbn [check_item asks_fields q_name].
  - by destruct (find_field gn nm) as [[]|].
  - destruct (find_field gn nm) as [[|l]|]; [done| |done]. destruct (find_node g (gl_node l)) as [m|]; [|done].
    destruct (check_options _ _ _ _ _ _) as [errs|]; [|done].
    destruct (check_node (check_item fuel g m) (gn_name m) sub) as [errs2|] eqn:Ec; [|done].
    intros Hnil. assert (errs2 = []) as -> by (injection Hnil as Hnil; by apply app_eq_nil in Hnil as [_ ?]). clear Hnil.
    apply foldr_in. intros y Hy. rewrite Forall_forall in IH. apply IH; [done|]. clear IH. revert Ec. unfold check_node. generalize (@nil (str * qitem)).
    revert y Hy. induction sub as [|z sub IHs]; intros y Hy seen; [by apply elem_of_nil in Hy|].
    match goal with |- (let '(_, _) := ?a in _) = _ -> _ => destruct a as [errs3 seen'] end. destruct (check_item fuel g m z) as [e2|] eqn:Ez; [|done].
    match goal with |- match ?a with _ => _ end = _ -> _ => destruct a as [errs4|] eqn:Ea end; [|done].
    intros Hnil. injection Hnil as Hnil. apply app_eq_nil in Hnil as [-> Hnil]. apply app_eq_nil in Hnil as [-> ->].
    apply elem_of_cons in Hy as [->|Hy]; [done|]. by eapply IHs.
Qed.
Lemma asks_fields_valid fuel g q x : validate fuel g q = Ok [] -> x ∈ qfields q -> asks_fields g (g_root g) x.
Proof.
  intros Hv Hx. apply (asks_fields_valid_item fuel). revert Hv. unfold validate, check_node. generalize (@nil (str * qitem)).
  revert x Hx. induction (qfields q) as [|z sub IHs]; intros y Hy seen; [by apply elem_of_nil in Hy|].
  match goal with |- (let '(_, _) := ?a in _) = _ -> _ => destruct a as [errs3 seen'] end. destruct (check_item fuel g (g_root g) z) as [e2|] eqn:Ez; [|done].
  match goal with |- match ?a with _ => _ end = _ -> _ => destruct a as [errs4|] eqn:Ea end; [|done].
  intros Hnil. injection Hnil as Hnil. apply app_eq_nil in Hnil as [-> Hnil]. apply app_eq_nil in Hnil as [-> ->].
  apply elem_of_cons in Hy as [->|Hy]; [done|]. by eapply IHs.
Qed.

Section wrapped.
  Context `{Hasher} (base : N) (E : env) (g g' : graph) (T : list wrapper).
  Notation sbase := (length (e_sgs E)).
  Notation u := (unwrap base T).
  Notation E' := (metrics_env base T E).
  Hypothesis (Hinst : instrument base sbase g = Ok (g', T)).
  Hypothesis (Hnest : nested (e_sgs E)) (Hused : uses_below sbase g).
  Hypothesis (Hbase : forall sg G node, e_sgs E !! sg = Some (G, node) -> loaders_below base G).
  Hypothesis (Hreq : links_require_fields g).
  Lemma metrics_alike : env_alike E E' u.
  Proof. by split. Qed.
  Lemma ssim_metrics d sg : sg < sbase -> sg < d -> ssim E E' u d sg sg.
  Proof.
    revert sg. induction d as [|d IH]; intros sg Hs Hlt; [lia|]. cbn [ssim]. cbn [metrics_env e_sgs]. rewrite lookup_app_l by done.
    destruct (e_sgs E !! sg) as [[G node]|] eqn:Es; [|done].
    split; [done|]. split; [done|]. intros gn name x Hn Hx. destruct (fkey_of x) as [f|a] eqn:Ek.
    - unfold unwrap, wrapper_of. pose proof (Hbase _ _ _ Es _ _ _ _ Hn Hx Ek) as Hb. by rewrite (proj2 (N.ltb_lt _ _) Hb).
    - destruct x as [f|]; [|done]. cbn in Ek. destruct (gf_func f) as [|sg' rq pr] eqn:Ef; [done|]. injection Ek as ->.
      pose proof (Hnest _ _ _ Es _ _ _ _ _ _ Hn Hx Ef). apply IH; lia.
  Qed.
  Context (st : wstate).
  Hypothesis (HT : ws_table st = T) (Hgood : good (loads g) st).
  Hypothesis Hns : Forall2 (node_wrapped base sbase st) (g_items g) (g_items g').
  (** a function and its wrapper *)
  Definition wK (k k' : fkey) : Prop :=
    match k with KSub a => a < sbase | KPlain _ => True end /\
    exists i, dget k (ws_cache st) = Some i /\ k' = match k with KPlain _ => KPlain (wfunc base i) | KSub _ => KSub (wsub sbase i) end.
  Lemma wK_ok : keys_ok (ks E E' u sbase) wK.
  Proof.
    split.
    - intros a a' b b' (_ & i & Hi & ->) (_ & j & Hj & ->). destruct (Hgood _ _ Hi) as (w & Hw & Hwf & _), (Hgood _ _ Hj) as (w2 & Hw2 & Hwf2 & _).
      split; [intros ->; assert (i = j) as -> by congruence; done|]. intros Heq. assert (i = j) as ->; [|congruence].
      destruct a, b; try done; injection Heq; unfold wfunc, wsub; lia.
    - intros k k' (Hk & i & Hi & ->). destruct (Hgood _ _ Hi) as (w & Hw & Hwf & _). destruct k as [f|a]; cbn.
      + unfold unwrap. rewrite wrapper_wfunc, <-HT, Hw, Hwf. done.
      + rewrite HT in Hw. pose proof (ssim_metrics sbase a Hk Hk) as Hs. destruct sbase as [|d] eqn:Ed; [lia|]. cbn [ssim] in Hs |- *. revert Hs.
        cbn [metrics_env e_sgs]. rewrite lookup_app_l by lia. rewrite lookup_app_r by (unfold wsub; lia). unfold wsub.
        replace (S d + i - length (e_sgs E)) with i by lia. rewrite list_lookup_fmap, Hw. cbn. unfold wrapped_sub. rewrite Hwf.
        destruct (lookup_lt_is_Some_2 (e_sgs E) a) as [p ->]; [lia|]. done.
  Qed.
  Lemma wrapped_field n n' k : node_wrapped base sbase st n n' -> option_Forall2 (item_wrapped base sbase st (gn_name n)) (find_field n k) (find_field n' k).
  Proof.
    intros [_ Hf]. unfold find_field, fields_map. apply dupdate_get_Forall2.
    apply Forall2_fmap_2. eapply Forall2_impl; [exact Hf|]. intros x y Hxy. split; [|done]. by destruct x as [f|l], Hxy as (i & _ & ->).
  Qed.
  (** the same members, whatever the node is called *)
  Definition nwrapped (n n' : gnode) : Prop :=
    gn_name n' = gn_name n /\ forall k, option_Forall2 (fun x x' => exists nm, item_wrapped base sbase st nm x x') (find_field n k) (find_field n' k).
  Lemma wrapped_node k : option_Forall2 nwrapped (find_node g k) (find_node g' k).
  Proof.
    assert (option_Forall2 (node_wrapped base sbase st) (find_node g k) (find_node g' k)) as Ho.
    { unfold find_node, nodes_map. apply dupdate_get_Forall2.
      pose proof Hns as Hns2. clear -Hns2. induction Hns2 as [|n n' l l' Hn _ IH]; [constructor|]. cbn. rewrite (proj1 Hn).
      destruct (gn_name n); [|exact IH]. constructor; [done|exact IH]. }
    destruct Ho as [n n' Hn|]; constructor. split; [apply Hn|]. intros k0. destruct (wrapped_field n n' k0 Hn); constructor. eauto.
  Qed.
  Lemma wrapped_root : nwrapped (g_root g) (g_root g').
  Proof.
    split; [done|]. intros k. unfold find_field, fields_map. apply dupdate_get_Forall2. apply Forall2_fmap_2.
    assert (Forall2 (fun x x' => exists nm, item_wrapped base sbase st nm x x') (gn_fields (g_root g)) (gn_fields (g_root g'))) as Hf.
    { unfold g_root. cbn [gn_fields]. pose proof Hns as Hns2. clear -Hns2. induction Hns2 as [|n n' l l' [Hn Hf] _ IH]; [constructor|]. cbn [List.filter]. rewrite Hn.
      destruct (gn_name n); [done|]. cbn [map concat]. apply Forall2_app; [|done]. eapply Forall2_impl; [exact Hf|]. eauto. }
    eapply Forall2_impl; [exact Hf|]. intros x y [nm Hxy]. split; [by destruct x as [f|l], Hxy as (i & _ & ->)|eauto].
  Qed.
  Lemma wrapped_flook gn gn' n : node_of g gn -> nwrapped gn gn' -> (forall l, find_field gn n <> Some (GL l)) -> flook wK gn gn' n.
  Proof.
    intros Hn [_ Hx] Hl. unfold flook. specialize (Hx n). destruct (find_field gn n) as [x|] eqn:Ex; inversion Hx as [y x' [nm Hxx] E1 E2|E2]; subst; [|done].
    destruct x as [f|l]; [|by specialize (Hl l)]. destruct Hxx as (i & Hi & ->). split.
    - split_and!; try done; cbn; by destruct (gf_func f).
    - split; [|exists i; split; [done|]].
      + cbn. destruct (gf_func f) as [|a rq pr] eqn:Ef; [done|]. by eapply Hused.
      + cbn. by destruct (gf_func f).
  Qed.
  Lemma wrapped_isim q : forall gn gn' q', node_of g gn -> nwrapped gn gn' -> asks_fields g gn q -> init_item g gn q = Ok q' ->
    isim u (ks E E' u sbase) g g' wK gn gn' q'.
  Proof.
    induction q as [nm o a|nm sub ord o a IH] using qitem_ind'; intros gn gn' q' Hn Hx Ha Hi; cbn [init_item q_name] in Hi; cbn [asks_fields q_name] in Ha.
    - destruct (find_field gn nm) as [x|] eqn:Ex; [|done].
      assert (exists o', q' = QF nm o' a) as [o' ->].
      { destruct (gi_opts x); [injection Hi as <-; eauto|]. destruct (get_options _ _); [injection Hi as <-; eauto|done]. }
      cbn [isim q_name]. assert (flook wK gn gn' nm) as Hf. { apply wrapped_flook; [done|done|]. intros l El. rewrite Ex in El. injection El as ->. done. }
      rewrite Ex. destruct x; [|done]. by destruct (find_field gn' nm) as [[]|].
    - destruct (find_field gn nm) as [x|] eqn:Ex; [|done].
      assert (exists sub' o', q' = QL nm sub' ord o' a /\ match x with GL l => match find_node g (gl_node l) with
        | None => False | Some gn' => mapR (init_item g gn') sub = Ok sub' end | GF _ => True end) as (sub' & o' & -> & Hsub).
      { destruct x as [f|l].
        - destruct (gi_opts (GF f)); [injection Hi as <-; eauto|]. destruct (get_options _ _); [injection Hi as <-; eauto|done].
        - destruct (find_node g (gl_node l)) as [m|]; [|done]. destruct (mapR (init_item g m) sub) as [sub'|]; [|done].
          destruct (gi_opts (GL l)); [injection Hi as <-; eauto|]. destruct (get_options _ _); [injection Hi as <-; eauto|done]. }
      cbn [isim q_name]. destruct x as [f|l].
      + assert (flook wK gn gn' nm) as Hf. { apply wrapped_flook; [done|done|]. congruence. }
        rewrite Ex. by destruct (find_field gn' nm) as [[]|].
      + pose proof (proj2 Hx nm) as Ho. rewrite Ex in Ho |- *. inversion Ho as [y x' [nn Hxx] E1 E2|]. subst y. destruct Hxx as (i & Hi' & ->). split_and!.
        * unfold lsame. cbn. unfold unwrap. rewrite wrapper_wfunc, <-HT, Hi'. by destruct l.
        * intros r Hr. apply wrapped_flook; [done|done|]. intros l2 Hl2. apply (Hreq gn nm l r l2); [done|done| |done].
          unfold req_true in Hr. by destruct (gl_requires l) as [[|c r0]|].
        * pose proof (wrapped_node (gl_node l)) as Hm. destruct (find_node g (gl_node l)) as [m|] eqn:Em; [|done].
          inversion Hm as [y m' Hmm E3 E4|]. subst y. split; [apply Hmm|]. exists wK. split; [apply wK_ok|].
          apply foldr_in. intros y Hy. apply mapR_ok in Hsub. apply elem_of_list_lookup in Hy as [j Hj].
          destruct (Forall2_lookup_r _ _ _ _ _ Hsub Hj) as (z & Hz & Hzy). rewrite Forall_forall in IH. rewrite foldr_in in Ha.
          apply elem_of_list_lookup_2 in Hz. eapply (IH z); [done|right; by eexists|done|by apply Ha|done].
  Qed.
End wrapped.
Lemma instrument_alike `{Hasher} base E g g' T q q' : instrument base (length (e_sgs E)) g = Ok (g', T) -> nested (e_sgs E) -> uses_below (length (e_sgs E)) g ->
  (forall sg G node, e_sgs E !! sg = Some (G, node) -> loaders_below base G) -> links_require_fields g ->
  (forall x, x ∈ qfields q -> asks_fields g (g_root g) x) -> init_options g q = Ok q' ->
  nsim (unwrap base T) (ks E (metrics_env base T E) (unwrap base T) (length (e_sgs E))) g g' (g_root g) (g_root g') q'.
Proof.
  intros Hinst Hnest Hused Hbase Hreq Ha Hi. pose proof Hinst as Hinst2. apply instrument_inv in Hinst2 as (st & HT & Hg & Hns & _).
  unfold init_options in Hi. destruct (mapR _ (qfields q)) as [l|] eqn:El; [|done]. injection Hi as <-. split; [done|]. exists (wK base E st).
  split; [by apply (wK_ok base E g g' T)|]. cbn [qfields]. intros y Hy. apply mapR_ok in El. apply elem_of_list_lookup in Hy as [i Hi'].
  destruct (Forall2_lookup_r _ _ _ _ _ El Hi') as (z & Hz & Hzy). apply elem_of_list_lookup_2 in Hz.
  eapply (wrapped_isim base E g g' T); [done..|by left|by apply (wrapped_root base E g g')|by apply Ha|done].
Qed.
(** C47: queries are executed over the instrumented graph as over the original: the same outcomes for every schedule,
    whatever the loaders do, sub-graphs included. *)
Theorem C47_same_executions `{Hasher} base E g g' T q fuel sched r :
  instrument base (length (e_sgs E)) g = Ok (g', T) -> nested (e_sgs E) -> uses_below (length (e_sgs E)) g ->
  (forall sg G node, e_sgs E !! sg = Some (G, node) -> loaders_below base G) -> links_require_fields g ->
  (forall x, x ∈ qfields q -> asks_fields g (g_root g) x) ->
  execute E fuel g q sched r <-> execute (metrics_env base T E) fuel g' q sched r.
Proof.
  intros Hinst Hnest Hused Hbase Hreq Ha.
  apply (sim_execute E (metrics_env base T E) (unwrap base T) (metrics_alike base E T) (length (e_sgs E))).
  - done.
  - cbn. rewrite app_length. lia.
  - by apply (renamed_init_options (unwrap base T)), (instrument_renamed base (length (e_sgs E))).
  - intros q' Hq. by eapply instrument_alike.
Qed.
(** C47: and the same calls of the same loaders are made, in the same order. *)
Theorem C47_same_calls `{Hasher} base E g g' T q fuel sched log :
  instrument base (length (e_sgs E)) g = Ok (g', T) -> nested (e_sgs E) -> uses_below (length (e_sgs E)) g ->
  (forall sg G node, e_sgs E !! sg = Some (G, node) -> loaders_below base G) -> links_require_fields g ->
  (forall x, x ∈ qfields q -> asks_fields g (g_root g) x) ->
  exec_log E fuel g q sched log <-> exists log', exec_log (metrics_env base T E) fuel g' q sched log' /\ log = map (unwrap_call base T) log'.
Proof.
  intros Hinst Hnest Hused Hbase Hreq Ha.
  apply (sim_log E (metrics_env base T E) (unwrap base T) (metrics_alike base E T) (length (e_sgs E))).
  - done.
  - cbn. rewrite app_length. lia.
  - by apply (renamed_init_options (unwrap base T)), (instrument_renamed base (length (e_sgs E))).
  - intros q' Hq. by eapply instrument_alike.
Qed.
(** C47: valid queries ask for fields as fields *)
Theorem C47_valid_query_asks_fields g q fuel x : validate fuel g q = Ok [] -> x ∈ qfields q -> asks_fields g (g_root g) x.
Proof. apply asks_fields_valid. Qed.

(** C47: results are read as before. *)
Lemma renamed_denorm `{Hasher} u g g' q : graph_renamed u g g' -> forall gn gn' idx ref pn, node_renamed u gn gn' ->
  denorm g' idx gn' ref pn q = denorm g idx gn ref pn q.
Proof.
  intros Hg. induction q as [nm o a|nm sub ord o a IH] using qitem_ind'; intros gn gn' idx ref pn Hn; cbn [denorm q_name];
    pose proof (renamed_field u gn gn' nm Hn) as Hf; inversion Hf as [x x' Hx E1 E2|E1 E2]; try done.
  destruct (proxy_get _ _ _ _) as [r|]; [|done]. destruct x as [f|l], x' as [f'|l']; try done; cbn in Hx.
  - unfold gf_ty. destruct Hx as (_ & -> & _). by rewrite (proj2 Hg).
  - assert (gl_node l' = gl_node l) as -> by by rewrite Hx. assert (gl_enum l' = gl_enum l) as -> by by rewrite Hx.
    pose proof (renamed_node u g g' Hg (gl_node l)) as Hm. inversion Hm as [m m' Hmm E3 E4|E3 E4]; [|done].
    assert (forall ref pn, mapR (denorm g' idx m' ref pn) sub = mapR (denorm g idx m ref pn) sub) as Hobj.
    { intros rf p. apply mapR_ext, Forall_forall. intros y Hy. rewrite Forall_forall in IH. by apply IH. }
    cbn zeta. destruct (gl_enum l), r as [[]| |]; try done; try by rewrite Hobj.
    erewrite mapR_ext; [done|]. apply Forall_forall. intros y _. by rewrite Hobj.
Qed.
Theorem C47_same_reading `{Hasher} base sbase g g' T idx q : instrument base sbase g = Ok (g', T) -> denormalize g' idx q = denormalize g idx q.
Proof.
  intros Hi. apply instrument_renamed in Hi. unfold denormalize, denorm_node.
  assert (mapR (denorm g' idx (g_root g') ROOT q) (qfields q) = mapR (denorm g idx (g_root g) ROOT q) (qfields q)) as ->; [|done].
  apply mapR_ext, Forall_forall. intros y _. eapply renamed_denorm; [exact Hi|]. by apply renamed_root.
Qed.

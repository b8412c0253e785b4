(** Theorems about metrics (C47): hiku/telemetry/prometheus.py. *)
From Verif Require Import Base Val Types Query QuerySpec Graph Queue Result Engine EngineSpec Validate ValidateSpec PropValidate PropEngine Transform PropTransform Telemetry GraphRename.

Section proof.
  Context (base : N) (sbase : nat).
  (** who uses a function *)
  Context (P : option str -> fkey -> Prop).
  Definition kind_of (key : fkey) : wkind := match key with KSub _ => WSub | KPlain _ => WField end.
  Definition good (st : wstate) : Prop := forall key k, dget key (ws_cache st) = Some k ->
    exists w, ws_table st !! k = Some w /\ wr_func w = key /\ wr_kind w = kind_of key /\
      exists node, P node key /\ wr_node w = node_label node.
  Definition ext (st st' : wstate) : Prop :=
    (exists t, ws_table st' = ws_table st ++ t) /\
    forall key k, dget key (ws_cache st) = Some k -> dget key (ws_cache st') = Some k.
  Lemma ext_refl st : ext st st.
  Proof. split; [exists []; by rewrite app_nil_r|done]. Qed.
  Lemma ext_trans a b c : ext a b -> ext b c -> ext a c.
  Proof. intros [[t Ht] H1] [[t' Ht'] H2]. split; [|auto]. exists (t ++ t'). by rewrite Ht', Ht, app_assoc. Qed.
  Lemma ext_lookup a b k w : ext a b -> ws_table a !! k = Some w -> ws_table b !! k = Some w.
  Proof. intros [[t ->] _] Hk. by apply lookup_app_l_Some. Qed.
  Definition wrapped_func (k : nat) (f : ffunc) : ffunc :=
    match f with FPlain _ => FPlain (wfunc base k) | FChecked _ rq pr => FChecked (wsub sbase k) rq pr end.
  Definition item_wrapped (st : wstate) (node : option str) (x x' : gitem) : Prop :=
    match x with
    | GF f => exists k, dget (fkey_of (GF f)) (ws_cache st) = Some k /\
                x' = GF (GField (gf_name f) (gf_type f) (wrapped_func k (gf_func f)) (gf_opts f))
    | GL l => exists k, ws_table st !! k = Some (Wrapper (WLink (gl_name l)) (node_label node) (KPlain (gl_func l))) /\
                x' = GL (GLink (gl_name l) (gl_enum l) (gl_node l) (wfunc base k) (gl_requires l) (gl_opts l))
    end.
  Lemma wrapped_mono a b node x x' : ext a b -> item_wrapped a node x x' -> item_wrapped b node x x'.
  Proof.
    intros He. destruct x as [f|l]; intros (k & Hk & ->); exists k; (split; [|done]).
    - by apply He.
    - by eapply ext_lookup.
  Qed.
  Lemma new_ext st w c : ext st (WState (ws_table st ++ [w]) (ws_cache st)) /\
    (dget c (ws_cache st) = None -> ext st (WState (ws_table st ++ [w]) (dset c (length (ws_table st)) (ws_cache st)))).
  Proof.
    split; [split; [by eexists|done]|]. intros Hc. split; [by eexists|]. cbn. intros key k Hk. rewrite dget_dset.
    destruct (decide _) as [->|]; [congruence|done].
  Qed.
  Definition used (node : option str) (x : gitem) : Prop := match x with GF f => P node (fkey_of (GF f)) | GL _ => True end.
  Lemma wrap_item_ok node x st : good st -> used node x -> exists x' st', wrap_item base sbase node x st = Ok (x', st') /\
    good st' /\ ext st st' /\ item_wrapped st' node x x'.
  Proof.
    intros Hg Hu. destruct x as [f|l]; cbn [wrap_item].
    - unfold wrap_field. rewrite visit_field_id. destruct (dget (fkey_of (GF f)) (ws_cache st)) as [k|] eqn:Ek.
      + eexists _, _. split; [reflexivity|]. split; [done|]. split; [apply ext_refl|]. by exists k.
      + cbn [new_wrapper]. eexists _, _. split; [reflexivity|]. cbn [ws_table ws_cache]. split_and!.
        * intros key k. cbn. rewrite dget_dset. destruct (decide _) as [->|Hne].
          -- intros [= <-]. eexists. split; [apply list_lookup_middle; done|]. split; [done|]. split; [done|]. by exists node.
          -- intros Hk. destruct (Hg _ _ Hk) as (w & Hw & ?). exists w. split; [by apply lookup_app_l_Some|done].
        * by apply new_ext.
        * exists (length (ws_table st)). split; [|done]. cbn. by rewrite dget_dset, decide_True.
    - unfold wrap_link. rewrite visit_link_id. cbn [new_wrapper]. eexists _, _. split; [reflexivity|]. split_and!.
      + intros key k Hk. destruct (Hg _ _ Hk) as (w & Hw & ?). exists w. split; [by apply lookup_app_l_Some|done].
      + by apply (new_ext st _ (KPlain 0)).
      + exists (length (ws_table st)). split; [|done]. cbn. by apply list_lookup_middle.
  Qed.
  Lemma wrap_items_ok node fs st : good st -> Forall (used node) fs -> exists fs' st', wrap_items base sbase node fs st = Ok (fs', st') /\
    good st' /\ ext st st' /\ Forall2 (item_wrapped st' node) fs fs'.
  Proof.
    unfold wrap_items. intros Hg Hus. assert (forall acc, exists fs' st',
      foldR (fun acc x => match wrap_item base sbase node x acc.2 with
                          | Ok (x', st') => Ok (acc.1 ++ [x'], st') | Err e => Err e end) (acc, st) fs = Ok (acc ++ fs', st') /\
      good st' /\ ext st st' /\ Forall2 (item_wrapped st' node) fs fs') as Ha; [|apply (Ha [])].
    revert st Hg. induction Hus as [|x fs Hu Hus IH]; intros st Hg acc.
    - exists [], st. cbn. rewrite app_nil_r. split; [done|]. split; [done|]. split; [apply ext_refl|constructor].
    - destruct (wrap_item_ok node x st Hg Hu) as (x' & st1 & Hx & Hg1 & He1 & Hw1). cbn [foldR]. cbn [snd]. rewrite Hx. cbn [fst].
      destruct (IH st1 Hg1 (acc ++ [x'])) as (fs' & st2 & Hf & Hg2 & He2 & Hw2). exists (x' :: fs'), st2.
      rewrite Hf, <-app_assoc. split; [done|]. split; [done|]. split; [by eapply ext_trans|]. constructor; [|done].
      by eapply wrapped_mono.
  Qed.
  Definition node_wrapped (st : wstate) (n n' : gnode) : Prop :=
    gn_name n' = gn_name n /\ Forall2 (item_wrapped st (gn_name n)) (gn_fields n) (gn_fields n').
  Lemma wrap_nodes_ok ns st : good st -> Forall (fun n => Forall (used (gn_name n)) (gn_fields n)) ns -> exists ns' st', wrap_nodes base sbase ns st = Ok (ns', st') /\
    good st' /\ ext st st' /\ Forall2 (node_wrapped st') ns ns'.
  Proof.
    unfold wrap_nodes. intros Hg Hus. assert (forall acc, exists ns' st',
      foldR (fun acc n => match wrap_items base sbase (gn_name n) (gn_fields n) acc.2 with
                        | Ok (fs, st') => Ok (acc.1 ++ [GNode (gn_name n) fs], st') | Err e => Err e end) (acc, st) ns = Ok (acc ++ ns', st') /\
      good st' /\ ext st st' /\ Forall2 (node_wrapped st') ns ns') as Ha; [|apply (Ha [])].
    revert st Hg. induction Hus as [|x fs Hu Hus IH]; intros st Hg acc.
    - exists [], st. cbn. rewrite app_nil_r. split; [done|]. split; [done|]. split; [apply ext_refl|constructor].
    - destruct (wrap_items_ok (gn_name x) (gn_fields x) st Hg Hu) as (x' & st1 & Hx & Hg1 & He1 & Hw1). cbn [foldR]. cbn [snd]. rewrite Hx. cbn [fst].
      destruct (IH st1 Hg1 (acc ++ [GNode (gn_name x) x'])) as (fs' & st2 & Hf & Hg2 & He2 & Hw2). eexists (_ :: fs'), st2.
      rewrite Hf, <-app_assoc. split; [done|]. split; [done|]. split; [by eapply ext_trans|]. constructor; [|done].
      split; [done|]. cbn. eapply Forall2_impl; [exact Hw1|]. intros. by eapply wrapped_mono.
  Qed.
  Lemma wrapped_shape st node x x' : item_wrapped st node x x' -> shape_item x' = shape_item x.
  Proof. by destruct x as [f|l]; intros (k & _ & ->). Qed.
  Lemma nodes_shape st ns ns' : Forall2 (node_wrapped st) ns ns' -> map shape_node ns' = map shape_node ns.
  Proof.
    induction 1 as [|n n' l l' [Hn Hf] _ IH]; [done|]. cbn. rewrite IH. f_equal. unfold shape_node. rewrite Hn. f_equal.
    clear -Hf. induction Hf as [|x y l k Hxy _ IH]; [done|]. cbn. by rewrite IH, (wrapped_shape _ _ _ _ Hxy).
  Qed.
  Lemma good_init : good (WState [] []).
  Proof. intros key k Hk. done. Qed.
End proof.
Section proof2.
  Context (base : N) (sbase : nat).
  (** The node has a field loaded by the function. *)
  Definition loads (g : graph) (node : option str) (key : fkey) : Prop :=
    exists n f, n ∈ g_items g /\ gn_name n = node /\ GF f ∈ gn_fields n /\ fkey_of (GF f) = key.
  Lemma loads_used g : Forall (fun n => Forall (used (loads g) (gn_name n)) (gn_fields n)) (g_items g).
  Proof.
    apply Forall_forall. intros n Hn. apply Forall_forall. intros [f|l] Hx; [|done]. exists n, f. done.
  Qed.
  (** What is known of an instrumented graph *)
  Lemma instrument_inv g g' T : instrument base sbase g = Ok (g', T) ->
    exists st, ws_table st = T /\ good (loads g) st /\ Forall2 (node_wrapped base sbase st) (g_items g) (g_items g') /\ g_dtypes g' = g_dtypes g.
  Proof.
    unfold instrument. destruct (wrap_nodes_ok base sbase (loads g) (g_items g) _ (good_init _) (loads_used g)) as (ns & st & -> & Hg & _ & Hw).
    unfold new_graph. destruct (gvalidate ns); [|done]. intros [= <- <-]. by exists st.
  Qed.
  Lemma lookup_wrapped g g' st i n n' a x x' : Forall2 (node_wrapped base sbase st) (g_items g) (g_items g') ->
    g_items g !! i = Some n -> g_items g' !! i = Some n' -> gn_fields n !! a = Some x -> gn_fields n' !! a = Some x' ->
    item_wrapped base sbase st (gn_name n) x x'.
  Proof.
    intros Hns Hn Hn' Hx Hx'. rewrite Forall2_lookup in Hns. specialize (Hns i). rewrite Hn, Hn' in Hns.
    inversion Hns as [y y' Hw|]; subst. destruct Hw as [_ Hw].
    rewrite Forall2_lookup in Hw. specialize (Hw a). rewrite Hx, Hx' in Hw. by inversion Hw.
  Qed.
  (** C47: every graph can be instrumented; it keeps its nodes, fields, links, types and options. *)
  Theorem C47_instrumented g : well_formed (g_items g) ->
    exists g' T, instrument base sbase g = Ok (g', T) /\ shape g' = shape g.
  Proof.
    intros Hw. unfold instrument. destruct (wrap_nodes_ok base sbase (loads g) (g_items g) _ (good_init _) (loads_used g)) as (ns & st & -> & Hg & _ & Hns).
    apply nodes_shape in Hns. assert (new_graph ns (g_dtypes g) = Ok (Graph ns (g_dtypes g))) as ->.
    { apply C25_accepted_iff_well_formed. rewrite <-shape_wf, Hns. by apply shape_wf. }
    eexists _, _. split; [reflexivity|]. unfold shape. cbn. by rewrite Hns.
  Qed.
  Lemma wrapper_wfunc T k : wrapper_of base T (wfunc base k) = T !! k.
  Proof.
    unfold wrapper_of, wfunc. destruct (base + N.of_nat k <? base)%N eqn:E; [apply N.ltb_lt in E; lia|]. f_equal. lia.
  Qed.
  Lemma instrument_renamed g g' T : instrument base sbase g = Ok (g', T) -> graph_renamed (unwrap base T) g g'.
  Proof.
    intros Hi. apply instrument_inv in Hi as (st & <- & Hg & Hns & Hd). split; [|done].
    eapply Forall2_impl; [exact Hns|]. intros n n' [Hn Hf]. split; [done|]. eapply Forall2_impl; [exact Hf|].
    intros x x' Hx. destruct x as [f|l]; destruct Hx as (k & Hk & ->); cbn [item_renamed].
    - cbn. split_and!; try done. destruct (Hg _ _ Hk) as (w & Hw & Hfun & _). cbn in Hfun. destruct (gf_func f) as [h|sg rq pr]; cbn; [|done].
      unfold unwrap. by rewrite wrapper_wfunc, Hw, Hfun.
    - cbn. unfold unwrap. rewrite wrapper_wfunc, Hk. cbn. by destruct l.
  Qed.
  (** C47: fields are loaded together in the instrumented graph exactly if they are in the original. *)
  Theorem C47_batching_kept g g' T i j n m n' m' a b f h f' h' :
    instrument base sbase g = Ok (g', T) ->
    g_items g !! i = Some n -> g_items g' !! i = Some n' -> gn_fields n !! a = Some (GF f) -> gn_fields n' !! a = Some (GF f') ->
    g_items g !! j = Some m -> g_items g' !! j = Some m' -> gn_fields m !! b = Some (GF h) -> gn_fields m' !! b = Some (GF h') ->
    fkey_of (GF f') = fkey_of (GF h') <-> fkey_of (GF f) = fkey_of (GF h).
  Proof.
    intros Hi Hn Hn' Hf Hf' Hm Hm' Hh Hh'. apply instrument_inv in Hi as (st & <- & Hg & Hns & _).
    assert (forall i n n' a f f', g_items g !! i = Some n -> g_items g' !! i = Some n' -> gn_fields n !! a = Some (GF f) -> gn_fields n' !! a = Some (GF f') ->
      exists k, dget (fkey_of (GF f)) (ws_cache st) = Some k /\ gf_func f' = wrapped_func base sbase k (gf_func f)) as Hall.
    { clear -Hns. intros i n n' a f f' Hn Hn' Hf Hf'. destruct (lookup_wrapped _ _ _ _ _ _ _ _ _ Hns Hn Hn' Hf Hf') as (k & Hk & Heq).
      injection Heq as ->. by exists k. }
    destruct (Hall i n n' a f f') as (k & Hk & Hfk); [done..|]. destruct (Hall j m m' b h h') as (k2 & Hk2 & Hhk); [done..|].
    destruct (Hg _ _ Hk) as (w & Hw & Hwf & _), (Hg _ _ Hk2) as (w2 & Hw2 & Hwf2 & _).
    assert (fkey_of (GF f') = match gf_func f with FPlain _ => KPlain (wfunc base k) | FChecked _ _ _ => KSub (wsub sbase k) end) as E1.
    { cbn. rewrite Hfk. by destruct (gf_func f). }
    assert (fkey_of (GF h') = match gf_func h with FPlain _ => KPlain (wfunc base k2) | FChecked _ _ _ => KSub (wsub sbase k2) end) as E2.
    { cbn. rewrite Hhk. by destruct (gf_func h). }
    rewrite E1, E2. split.
    - intros Heq. assert (k = k2) as ->; [|congruence].
      destruct (gf_func f), (gf_func h); try done; injection Heq; unfold wfunc, wsub; lia.
    - intros Heq. assert (k = k2) as -> by congruence. cbn in Heq. by destruct (gf_func f), (gf_func h).
  Qed.

  Section results.
    Context `{Hasher} (E : env) (g g' : graph) (T : list wrapper).
    Hypothesis Hinst : instrument base sbase g = Ok (g', T).
    Lemma metrics_serves D : serves E D -> serves (metrics_env base T E) (renamed_data (unwrap base T) D).
    Proof. intros Hs n c. exact (Hs n (unwrap_call base T c)). Qed.
    (** C47: the instrumented graph gives the same results. *)
    Theorem C47_same_results_partial (D : data) (q q' : qnode) fuel fuel' sched sched' r r' :
      init_options g q = Ok q' -> serves E D -> respects_options D -> supported g q' -> links_ok g (plain_value D) D q' ->
      execute E (S fuel) g q sched r -> execute (metrics_env base T E) (S fuel') g' q sched' r' ->
      exists idx idx', r = Ok (idx, q') /\ r' = Ok (idx', q') /\ denormalize g' idx' q' = denormalize g idx q'.
    Proof.
      intros Hi Hs Hr Hsup Hl H1 H2. pose proof (instrument_renamed _ _ _ Hinst) as Hren.
      pose proof (C04_result_independent_of_schedule_partial E g D q q' Hi Hs Hr Hsup Hl _ _ _ H1) as (idx & -> & E1).
      pose proof (C04_result_independent_of_schedule_partial (metrics_env base T E) g' (renamed_data (unwrap base T) D) q q'
        (eq_trans (renamed_init_options _ _ _ Hren q) Hi) (metrics_serves _ Hs) (renamed_respects _ _ Hr)
        (renamed_supported _ _ _ Hren q' Hsup) (renamed_links_ok _ _ _ Hren q' D Hl) _ _ _ H2) as (idx' & -> & E2).
      exists idx, idx'. split; [done|]. split; [done|]. rewrite E1, E2. by apply renamed_resolve_query.
    Qed.
    (** C47: the same queries are valid. *)
    Theorem C47_same_validation fuel q : validate fuel g' q = validate fuel g q.
    Proof. by eapply renamed_validate, instrument_renamed. Qed.
    (** C47: a loader called through its wrapper gets the same arguments, with the context or without,
        and its outcome is the outcome. *)
    Theorem C47_transparent n c :
      e_oracle (metrics_env base T E) n c = e_oracle E n (unwrap_call base T c) /\
      c_args (unwrap_call base T c) = c_args c /\ c_ctx (unwrap_call base T c) = c_ctx c /\
      e_ctx (metrics_env base T E) (c_func c) = e_ctx E (c_func (unwrap_call base T c)).
    Proof. done. Qed.
    (** C47: a call of the loader of a field is observed once for every field asked for; a call of the
        loader of a link once, under the names of the node and of the link. *)
    Theorem C47_field_observed_partial i n n' a f f' k ctx qfs ids c :
      g_items g !! i = Some n -> g_items g' !! i = Some n' -> gn_fields n !! a = Some (GF f) -> gn_fields n' !! a = Some (GF f') ->
      gf_func f' = FPlain k ->
      exists node, loads g node (fkey_of (GF f)) /\
      observed base T E c (Call k ctx (AFields qfs ids)) =
        match e_oracle E c (unwrap_call base T (Call k ctx (AFields qfs ids))) with
        | Raise _ => [] | _ => map (fun q => (match node with Some x => x | None => s "Root" end, q_name q)) qfs end.
    Proof.
      intros Hn Hn' Hf Hf' Hk. apply instrument_inv in Hinst as (st & <- & Hg & Hns & _).
      destruct (lookup_wrapped _ _ _ _ _ _ _ _ _ Hns Hn Hn' Hf Hf') as (k0 & Hk0 & Heq). injection Heq as ->. cbn in Hk.
      destruct (Hg _ _ Hk0) as (w & Hw0 & Hwf & Hwk & node & Hl & Hnode). exists node. split; [done|].
      unfold fkey_of in Hwk. destruct (gf_func f) as [h|]; [|done]. cbn in Hk. injection Hk as <-.
      unfold observed. cbn [c_func c_args metrics_env e_oracle]. rewrite wrapper_wfunc, Hw0, Hwk, Hnode.
      unfold node_label, root_name, kind_of. by destruct (e_oracle E c _).
    Qed.
    (** C47: in particular under the name of the node, if no other node uses the loader. *)
    Theorem C47_field_observed_own_partial i n n' a f f' k ctx qfs ids c :
      g_items g !! i = Some n -> g_items g' !! i = Some n' -> gn_fields n !! a = Some (GF f) -> gn_fields n' !! a = Some (GF f') ->
      gf_func f' = FPlain k -> (forall node, loads g node (fkey_of (GF f)) -> node = gn_name n) ->
      observed base T E c (Call k ctx (AFields qfs ids)) =
        match e_oracle E c (unwrap_call base T (Call k ctx (AFields qfs ids))) with
        | Raise _ => [] | _ => map (fun q => (match gn_name n with Some x => x | None => s "Root" end, q_name q)) qfs end.
    Proof.
      intros Hn Hn' Hf Hf' Hk Ho. destruct (C47_field_observed_partial i n n' a f f' k ctx qfs ids c) as (node & Hl & ->); [done..|].
      by rewrite (Ho _ Hl).
    Qed.
    Theorem C47_link_observed i n n' a l l' ctx args c :
      g_items g !! i = Some n -> g_items g' !! i = Some n' -> gn_fields n !! a = Some (GL l) -> gn_fields n' !! a = Some (GL l') ->
      observed base T E c (Call (gl_func l') ctx args) =
        match e_oracle E c (unwrap_call base T (Call (gl_func l') ctx args)) with
        | Raise _ => [] | _ => [(match gn_name n with Some x => x | None => s "Root" end, gl_name l)] end.
    Proof.
      intros Hn Hn' Hf Hf'. apply instrument_inv in Hinst as (st & <- & Hg & Hns & _).
      destruct (lookup_wrapped _ _ _ _ _ _ _ _ _ Hns Hn Hn' Hf Hf') as (k & Hk & Heq). injection Heq as ->. cbn [gl_func]. unfold observed. cbn [c_func c_args metrics_env e_oracle]. rewrite wrapper_wfunc, Hk. cbn.
      by destruct (e_oracle E c _).
    Qed.
  End results.
End proof2.

(** False of the code: a function which loads fields of two nodes is observed under the name of
    the first of them only. *)
Theorem C47_shared_function_refuted base sbase : exists g g' T n f k,
  well_formed (g_items g) /\ instrument base sbase g = Ok (g', T) /\
  find_node g' (s "b") = Some n /\ find_field n (s "y") = Some (GF f) /\ gf_func f = FPlain k /\
  forall E c, observed base T E c (Call k false (AFields [QF (s "y") None None] (Some [VInt 1]))) =
    match e_oracle E c (Call 5 false (AFields [QF (s "y") None None] (Some [VInt 1]))) with
    | Raise _ => [] | _ => [(s "a", s "y")] end.
Proof.
  set (g := Graph [GNode (Some (s "a")) [GF (GField (s "x") None (FPlain 5) [])]; GNode (Some (s "b")) [GF (GField (s "y") None (FPlain 5) [])]] []).
  assert (well_formed (g_items g)) as Hw by (apply gvalidate_wf; vm_compute; reflexivity).
  exists g, (Graph [GNode (Some (s "a")) [GF (GField (s "x") None (FPlain (wfunc base 0)) [])]; GNode (Some (s "b")) [GF (GField (s "y") None (FPlain (wfunc base 0)) [])]] []),
    [Wrapper WField (s "a") (KPlain 5)], (GNode (Some (s "b")) [GF (GField (s "y") None (FPlain (wfunc base 0)) [])]),
    (GField (s "y") None (FPlain (wfunc base 0)) []), (wfunc base 0).
  split; [done|]. split_and!; try reflexivity. intros E c. unfold observed. cbn [c_func c_args metrics_env e_oracle].
  rewrite wrapper_wfunc. unfold unwrap_call, unwrap. cbn [c_func c_ctx c_args]. rewrite wrapper_wfunc. cbn [lookup list_lookup wr_func wr_kind wr_node].
  by destruct (e_oracle E c _).
Qed.
(** Example: the graph of ExEngine *)
From Verif Require Import Examples ExEngine.
#[local] Existing Instance ex_hasher.
Theorem C47_example : exists g' T, instrument 1000 10 ex_graph = Ok (g', T) /\ well_formed (g_items ex_graph) /\
  Nat.leb 2 (length T) = true /\ graph_renamed (unwrap 1000 T) ex_graph g' /\
  let E' := metrics_env 1000 T (ex_env false) in
  match start E' g' ex_query with
  | Ok x => match run_rounds E' sched3 x with
            | Some y => match w_wfs y.1 !! 0 with Some v => denormalize g' (wf_index v) ex_query' = Ok ex_result | None => False end
            | None => False end
  | Err _ => False
  end.
Proof.
  destruct (instrument 1000 10 ex_graph) as [[g' T]|] eqn:Ei; [|by vm_compute in Ei].
  exists g', T. split; [done|]. split; [apply gvalidate_wf; vm_compute; reflexivity|].
  split; [|split; [by eapply instrument_renamed|]]; vm_compute in Ei; injection Ei as <- <-; vm_compute; reflexivity.
Qed.

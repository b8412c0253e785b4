(** C47: what is observed of an execution over an instrumented graph. *)
From stdpp Require Import relations.
From Verif Require Import Base Val Types Query QuerySpec QueryProof Graph Queue QueueSpec Result Engine EngineSpec CallSpec CostSpec Validate ValidateSpec PropValidate
  PropEngine GraphExt GraphRename Transform PropTransform Telemetry PropTelemetry PropIntroGraph EngineSim PropAlike PropCalls QueueProof EngineLog.

Lemma asks_init g q : forall gn q', asks_fields g gn q -> init_item g gn q = Ok q' -> asks_fields g gn q'.
Proof.
  induction q as [nm o a|nm sub ord o a IH] using qitem_ind'; intros gn q' Ha Hi; cbn [init_item q_name] in Hi; cbn [asks_fields q_name] in Ha.
  - destruct (find_field gn nm) as [x|] eqn:Ex; [|done].
    assert (exists o', q' = QF nm o' a) as [o' ->].
    { destruct (gi_opts x); [injection Hi as <-; eauto|]. destruct (get_options _ _); [injection Hi as <-; eauto|done]. }
    cbn [asks_fields q_name]. by rewrite Ex.
  - destruct (find_field gn nm) as [x|] eqn:Ex; [|done].
    assert (exists sub' o', q' = QL nm sub' ord o' a /\ match x with GL l => match find_node g (gl_node l) with
      | None => False | Some gn' => mapR (init_item g gn') sub = Ok sub' end | GF _ => True end) as (sub' & o' & -> & Hsub).
    { destruct x as [f|l].
      - destruct (gi_opts (GF f)); [injection Hi as <-; eauto|]. destruct (get_options _ _); [injection Hi as <-; eauto|done].
      - destruct (find_node g (gl_node l)) as [m|]; [|done]. destruct (mapR (init_item g m) sub) as [sub'|]; [|done].
        destruct (gi_opts (GL l)); [injection Hi as <-; eauto|]. destruct (get_options _ _); [injection Hi as <-; eauto|done]. }
    cbn [asks_fields q_name]. rewrite Ex. destruct x as [f|l]; [done|]. destruct (find_node g (gl_node l)) as [m|]; [|done].
    rewrite foldr_in in Ha |- *. intros y Hy. apply mapR_ok in Hsub. apply elem_of_list_lookup in Hy as [i Hi'].
    destruct (Forall2_lookup_r _ _ _ _ _ Hsub Hi') as (z & Hz & Hzy). apply elem_of_list_lookup_2 in Hz. rewrite Forall_forall in IH. eapply IH; eauto.
Qed.
Lemma item_of_node g gn x : node_of g gn -> x ∈ gn_fields gn -> exists n, n ∈ g_items g /\ x ∈ gn_fields n.
Proof.
  intros [->|[m Hm]] Hx; [apply root_elem in Hx as (n & ? & _ & ?); eauto|]. apply find_node_elem in Hm as [? _]. eauto.
Qed.
Section observed.
  Context `{Hasher} (base : N) (E : env) (g g' : graph) (T : list wrapper) (q0 : qnode) (fuelv : nat).
  Notation sbase := (length (e_sgs E)).
  Notation E' := (metrics_env base T E).
  Hypothesis (Hinst : instrument base sbase g = Ok (g', T)).
  Hypothesis (Hbase : forall sg G node, e_sgs E !! sg = Some (G, node) -> loaders_below base G).
  Hypothesis (Hreq : links_require_fields g).
  Hypothesis (Hvalid : validate fuelv g q0 = Ok []).
  Definition own (G : graph) (gn : gnode) (n : qnode) : Prop :=
    (G = g' /\ node_of g' gn /\ forall q, q ∈ qfields n -> asks_fields g' gn q) \/
    ((exists sg node, e_sgs E' !! sg = Some (G, node)) /\ node_of G gn).
  Lemma needed_own G gn n : needed E' g' q0 G gn n -> own G gn n.
  Proof.
    induction 1 as [q' Hi|G gn n q l gm Hn IH Hq Hm|G gn n sg fs G' node this gm Hn IH Ht Hs Hd Hm|G gn n sg fs G' node Hn IH Ht Hs].
    - left. split; [done|]. split; [by left|]. intros y Hy. rewrite <-(C47_same_validation _ _ _ _ _ Hinst) in Hvalid.
      unfold init_options in Hi. destruct (mapR _ (qfields q0)) as [l|] eqn:El; [|done]. injection Hi as <-. cbn in Hy.
      apply mapR_ok in El. apply elem_of_list_lookup in Hy as [i Hi']. destruct (Forall2_lookup_r _ _ _ _ _ El Hi') as (z & Hz & Hzy).
      apply elem_of_list_lookup_2 in Hz. eapply asks_init; [|exact Hzy]. by eapply asks_fields_valid.
    - destruct IH as [(-> & Hno & Ha)|[Hs Hno]]; [left|right; split; [done|right; by eexists]].
      split; [done|]. split; [right; by eexists|]. apply elem_of_list_omap in Hq as (z & Hz & Hzq). destruct z as [|nm sub ord o a] eqn:Ez; [done|].
      destruct (find_field gn (q_name (QL nm sub ord o a))) as [[|k]|] eqn:Ef; try done. injection Hzq as -> <-.
      specialize (Ha _ Hz). cbn [asks_fields] in Ha. rewrite Ef, Hm in Ha. cbn [q_node qfields]. by rewrite foldr_in in Ha.
    - right. split; [by eexists _, _|right; by eexists].
    - right. split; [by eexists _, _|by left].
  Qed.
  Lemma sub_loader sg G node gn x f : e_sgs E' !! sg = Some (G, node) -> node_of G gn -> x ∈ gn_fields gn -> find_field gn (gi_name x) = Some x ->
    fkey_of x = KPlain f -> (f < base)%N.
  Proof.
    intros Hs Hn Hx Hf Hk. cbn [metrics_env e_sgs] in Hs. apply lookup_app_Some in Hs as [Hs|[_ Hs]].
    - by eapply Hbase.
    - rewrite list_lookup_fmap in Hs. destruct (T !! _) as [w|]; [|done]. cbn in Hs. injection Hs as Hs. unfold wrapped_sub in Hs.
      assert (forall n, node_of (Graph [] []) n -> forall z, z ∉ gn_fields n) as Hempty.
      { intros n0 [->|[? Hd]] z Hz; [by apply elem_of_nil in Hz|done]. }
      destruct (wr_func w) as [|a]; [injection Hs as <- <-; by destruct (Hempty _ Hn x)|].
      destruct (e_sgs E !! a) as [[]|] eqn:Ea; injection Hs as <- <-; [by eapply Hbase|by destruct (Hempty _ Hn x)].
  Qed.
  Lemma found_item gn n x : find_field gn n = Some x -> x ∈ gn_fields gn /\ find_field gn (gi_name x) = Some x.
  Proof. intros Hf. pose proof (find_field_elem _ _ _ Hf) as [Hin <-]. done. Qed.
  (** A member of the instrumented graph is the wrapped member of the original *)
  Lemma own_item gn' x' : node_of g' gn' -> x' ∈ gn_fields gn' ->
    exists i a n n' x, g_items g !! i = Some n /\ g_items g' !! i = Some n' /\ gn_fields n !! a = Some x /\ gn_fields n' !! a = Some x'.
  Proof.
    intros Hn Hx. destruct (item_of_node _ _ _ Hn Hx) as (n' & Hn' & Hx'). pose proof Hinst as Hi. apply instrument_inv in Hi as (st & _ & _ & Hns & _).
    apply elem_of_list_lookup in Hn' as [i Hi]. destruct (Forall2_lookup_r _ _ _ _ _ Hns Hi) as (n & Hni & _ & Hf).
    apply elem_of_list_lookup in Hx' as [a Ha]. destruct (Forall2_lookup_r _ _ _ _ _ Hf Ha) as (x & Hxa & _). by exists i, a, n, n', x.
  Qed.
  Lemma renamed_require gn' name l' r k : node_of g' gn' -> find_field gn' name = Some (GL l') -> gl_requires l' = Some r -> find_field gn' r <> Some (GL k).
  Proof.
    intros Hn Hf Hr Hk. pose proof (instrument_renamed _ _ _ _ _ Hinst) as Hren.
    assert (exists gn, node_of g gn /\ node_renamed (unwrap base T) gn gn') as (gn & Hgn & Hnr).
    { destruct Hn as [->|[m Hm]]; [exists (g_root g); split; [by left|by apply renamed_root]|].
      pose proof (renamed_node _ _ _ Hren m) as Ho. rewrite Hm in Ho. inversion Ho as [n n' Hnn E1 E2|]; subst. exists n. split; [right; by eexists|done]. }
    pose proof (renamed_field _ _ _ name Hnr) as Ho. rewrite Hf in Ho. inversion Ho as [y y' Hy E1 E2|]; subst. destruct y as [|l]; [done|]. cbn in Hy.
    pose proof (renamed_field _ _ _ r Hnr) as Ho2. rewrite Hk in Ho2. inversion Ho2 as [z z' Hz E3 E4|]; subst z'. destruct z as [|k2]; [done|].
    apply (Hreq gn name l r k2 Hgn); [done| |done]. by rewrite Hy.
  Qed.

  (** Every call of a loader of the graph is observed once for every requested field - calls of links once for the
      link - unless the loader raised. *)
  Theorem C47_every_call_observed fuel sched x y k c :
    start E' g' q0 = Ok x -> rounds E' fuel sched x y -> w_log y.1 !! k = Some c ->
    (c_func c < base)%N \/
    exists n f, n ∈ g_items g /\ f ∈ gn_fields n /\ fkey_of f = KPlain (unwrap base T (c_func c)) /\
      let label := match gn_name n with Some name => name | None => s "Root" end in
      match e_oracle E k (unwrap_call base T c), c_args c with
      | Raise _, _ => observed base T E k c = []
      | _, AFields qfs _ => qfs <> [] /\ observed base T E k c = map (fun q => (label, q_name q)) qfs
      | _, ALink _ _ => observed base T E k c = [(label, gi_name f)]
      end.
  Proof.
    intros Hx Hr Hc. destruct (C52_only_needed_calls _ _ _ _ _ _ _ _ Hx Hr (elem_of_list_lookup_2 _ _ _ Hc)) as (G & gn & n & Hn & _ & Ha).
    apply needed_own in Hn. destruct c as [cf cc ca]. cbn [c_func c_args] in *. destruct ca as [qfs ids|rq o].
    - destruct Ha as (fields & -> & [Hne Ht] & _). destruct fields as [|[go q1] fields]; [done|]. destruct (Ht go q1 ltac:(left)) as (Hq & Hf & Hk).
      destruct (found_item _ _ _ Hf) as [Hin Hff]. destruct Hn as [(-> & Hno & Hask)|[(sg & node & Hs) Hno]]; [|left; by eapply sub_loader].
      right. assert (exists f', go = GF f') as [f' ->].
      { destruct go as [f'|l']; [by eexists|]. exfalso. apply elem_of_list_In, in_flat_map in Hq as (z & Hz%elem_of_list_In & Hq).
        pose proof (Hask _ Hz) as Hza. destruct z as [nm o a|nm sub ord o a].
        - destruct Hq as [<-|[]]. cbn [asks_fields q_name] in *. by rewrite Hf in Hza.
        - destruct (find_field gn (q_name (QL nm sub ord o a))) as [[|l]|] eqn:Ez.
          + destruct Hq as [<-|[]]. congruence.
          + destruct (gl_requires l) as [r|] eqn:Er; [|done]. destruct Hq as [<-|[]]. by eapply (renamed_require gn _ l r l').
          + destruct Hq as [<-|[]]. congruence. }
      destruct (own_item _ _ Hno Hin) as (i & a & m & m' & x0 & H1 & H2 & H3 & H4).
      assert (exists f, x0 = GF f) as [f ->].
      { pose proof Hinst as Hi. apply instrument_inv in Hi as (st & _ & _ & Hns & _).
        pose proof (lookup_wrapped _ _ _ _ _ _ _ _ _ _ _ Hns H1 H2 H3 H4) as Hw. destruct x0 as [f|]; [by eexists|]. by destruct Hw as (? & _ & ?). }
      assert (gf_func f' = FPlain cf) as Hcf. { cbn in Hk. destruct (gf_func f'); [by injection Hk as ->|done]. }
      destruct (C47_field_observed_partial base sbase E g g' T Hinst i m m' a f f' cf cc (map snd ((GF f', q1) :: fields)) ids k H1 H2 H3 H4 Hcf) as (node & Hl & Hob).
      destruct Hl as (n2 & f2 & Hn2 & Hnode & Hf2 & Hk2). exists n2, (GF f2). split; [done|]. split; [done|].
      assert (fkey_of (GF f) = KPlain (unwrap base T cf)) as Hku.
      { pose proof (instrument_renamed _ _ _ _ _ Hinst) as [Hren _]. destruct (Forall2_lookup_lr _ _ _ _ _ _ Hren H1 H2) as [_ Hff2].
        pose proof (Forall2_lookup_lr _ _ _ _ _ _ Hff2 H3 H4) as (_ & _ & _ & Hfun). rewrite Hcf in Hfun. cbn.
        destruct (gf_func f) as [h|]; [by rewrite Hfun|done]. }
      split; [by rewrite Hk2|]. cbn zeta. rewrite Hob, Hnode. by destruct (e_oracle E k _).
    - destruct Ha as (l' & q1 & Hl & Hfun & _ & _). apply elem_of_list_omap in Hl as (z & Hz & Hzq). destruct z as [|nm sub ord oo aa]; [done|].
      destruct (find_field gn _) as [[|k2]|] eqn:Ef; try done. injection Hzq as -> <-. destruct (found_item _ _ _ Ef) as [Hin Hff].
      destruct Hn as [(-> & Hno & Hask)|[(sg & node & Hs) Hno]]; [|left; eapply sub_loader; [done..|]; cbn; by rewrite Hfun].
      right. destruct (own_item _ _ Hno Hin) as (i & a & m & m' & x0 & H1 & H2 & H3 & H4).
      assert (exists l, x0 = GL l) as [l ->].
      { pose proof Hinst as Hi. apply instrument_inv in Hi as (st & _ & _ & Hns & _).
        pose proof (lookup_wrapped _ _ _ _ _ _ _ _ _ _ _ Hns H1 H2 H3 H4) as Hw. destruct x0 as [|l]; [|by eexists]. by destruct Hw as (? & _ & ?). }
      exists m, (GL l). split; [by eapply elem_of_list_lookup_2|]. split; [by eapply elem_of_list_lookup_2|].
      assert (fkey_of (GL l) = KPlain (unwrap base T cf)) as Hku.
      { pose proof (instrument_renamed _ _ _ _ _ Hinst) as [Hren _]. destruct (Forall2_lookup_lr _ _ _ _ _ _ Hren H1 H2) as [_ Hff2].
        pose proof (Forall2_lookup_lr _ _ _ _ _ _ Hff2 H3 H4) as Hl2. cbn in Hl2. rewrite Hl2. cbn. by rewrite Hfun. }
      split; [done|]. rewrite <-Hfun. rewrite (C47_link_observed base sbase E g g' T Hinst i m m' a l l' cc (ALink rq o) k H1 H2 H3 H4).
      cbn zeta. by destruct (e_oracle E k _).
  Qed.

  (** Every time the result of a sub-graph which computes members of the graph is taken, the fields computed are
      observed, each once, under the name of a node with a member computed by this sub-graph - unless computing raises. *)
  Theorem C47_every_subgraph_observed x z p k w gn qfs ids w' procs :
    start E' g' q0 = Ok x -> rtc (qstep (run_cb E')) (x, PIdle) (z, p) -> EvFire k (CbStoreSub w gn qfs ids w' procs) ∈ q_trace z.2 ->
    (exists v, w_wfs z.1 !! w = Some v /\ wf_graph v = g') -> (forall sg node, e_sgs E' !! sg <> Some (g', node)) ->
    exists n f, n ∈ g_items g /\ f ∈ gn_fields n /\
      (exists q f0 sg0 rq pr, q ∈ qfs /\ find_field gn (q_name q) = Some (GF f0) /\ gf_func f0 = FChecked sg0 rq pr /\
         exists sg, fkey_of f = KSub sg /\ e_sgs E' !! sg0 = Some (default (Graph [] [], []) (e_sgs E !! sg))) /\ qfs <> [] /\
      let label := match gn_name n with Some name => name | None => s "Root" end in
      forall y, observed_sub base sbase T E (CbStoreSub w gn qfs ids w' procs) y =
        match result_proc E' w' procs y with Ok _ => map (fun q => (label, q_name q)) qfs | Err _ => [] end.
  Proof.
    intros Hx Hr Hev Hw Hnot. apply (lcfg_rtc E' g' q0) in Hr as (js & Hl & _).
    2: { by apply lcfg_start. }
    pose proof (li_fired _ _ _ _ _ Hl _ _ Hev) as (G & n & HG & Hn & _ & sg & fields & -> & Ht & _ & _).
    assert (G = g') as ->. { destruct Hw as (v & Hv & Hvg), HG as (v' & Hv' & Hvg'). cbn [fst] in Hv'. rewrite Hv in Hv'. injection Hv' as <-. by rewrite <-Hvg, <-Hvg'. }
    apply needed_own in Hn. destruct Ht as [Hne Ht]. destruct fields as [|[go q1] fields]; [done|]. destruct (Ht go q1 ltac:(left)) as (Hq & Hf & Hk).
    destruct (found_item _ _ _ Hf) as [Hin Hff]. destruct Hn as [(_ & Hno & Hask)|[(sg1 & node1 & Hs) Hno]]; [|by destruct (Hnot sg1 node1)].
    destruct (own_item _ _ Hno Hin) as (i & a & m & m' & x0 & H1 & H2 & H3 & H4).
    pose proof Hinst as Hi. apply instrument_inv in Hi as (st & HT & Hg & Hns & _).
    pose proof (lookup_wrapped _ _ _ _ _ _ _ _ _ _ _ Hns H1 H2 H3 H4) as Hw0. destruct x0 as [f|l]; [|destruct Hw0 as (? & _ & ->); done].
    destruct Hw0 as (k0 & Hk0 & ->). destruct (Hg _ _ Hk0) as (wr & Hwr & Hwf & Hwk & node & (n2 & f2 & Hn2 & Hnode & Hf2 & Hk2) & Hlab).
    cbn in Hk. destruct (gf_func f) as [h|sg1 rq pr] eqn:Egf; [done|]. cbn in Hk. injection Hk as <-.
    assert (fkey_of (GF f) = KSub sg1) as Hkf by (cbn; by rewrite Egf).
    assert (e_sgs E' !! wsub sbase k0 = Some (default (Graph [] [], []) (e_sgs E !! sg1))) as Hsg.
    { cbn [metrics_env e_sgs]. unfold wsub. rewrite lookup_app_r by (apply Nat.le_add_r). rewrite Nat.add_comm, Nat.add_sub.
      rewrite list_lookup_fmap, <-HT, Hwr. cbn.
      unfold wrapped_sub. rewrite Hwf, Hkf. by destruct (e_sgs E !! sg1). }
    exists n2, (GF f2). split; [done|]. split; [done|]. split.
    { exists q1, (GField (gf_name f) (gf_type f) (wrapped_func base sbase k0 (FChecked sg1 rq pr)) (gf_opts f)), (wsub sbase k0), rq, pr. cbn [map snd]. split; [left|]. split; [done|]. split; [done|].
      exists sg1. split; [by rewrite Hk2|done]. }
    split; [done|]. cbn zeta. intros y. unfold observed_sub. destruct (result_proc _ _ _ _); [|done]. unfold sub_of. cbn [map snd]. rewrite Hf. cbn [gf_func wrapped_func].
    unfold sub_wrapper_of, wsub. destruct (_ <? _)%nat eqn:El; [apply Nat.ltb_lt in El; lia|]. rewrite Nat.add_comm, Nat.add_sub. by rewrite <-HT, Hwr, Hlab, <-Hnode.
  Qed.
End observed.
Print Assumptions C47_every_call_observed.
Print Assumptions C47_every_subgraph_observed.

(** ** Example: the graph over a sub-graph of ExSubWf *)
From Verif Require Import Examples ExEngine ExSub ExSubCheck ExSubWf.
#[local] Existing Instance ex_hasher.
Definition taken (x : st) : list cb := flat_map (fun e => match e with EvFire _ (CbStoreSub a b c d e f) => [CbStoreSub a b c d e f] | _ => [] end) (q_trace x.2).
Lemma taken_fired x c : c ∈ taken x -> (exists k, EvFire k c ∈ q_trace x.2) /\ exists a b c1 d e f, c = CbStoreSub a b c1 d e f.
Proof.
  unfold taken. intros Hc%elem_of_list_In. apply in_flat_map in Hc as (e & He%elem_of_list_In & Hc). destruct e as [| | | |k0 c0|]; try done. destruct c0; try done. destruct Hc as [<-|[]]. split; [by eexists|by eexists _, _, _, _, _, _].
Qed.
Definition obs_check (E : env) (g : graph) (q : qnode) : option (list (list (str * str))) :=
  match instrument 1000 1 g with
  | Ok (g', T) =>
      match start (metrics_env 1000 T E) g' q with
      | Ok x => match run_all (metrics_env 1000 T E) 30 x with
                | Some (_, y) => Some (map (fun c => observed_sub 1000 1 T E c y) (taken y))
                | None => None end
      | Err _ => None end
  | Err _ => None end.
Definition obs_found (E : env) (g : graph) (q : qnode) (o : list (str * str)) : Prop :=
  exists g' T x y, instrument 1000 1 g = Ok (g', T) /\ start (metrics_env 1000 T E) g' q = Ok x /\
    rtc (qstep (run_cb (metrics_env 1000 T E))) (x, PIdle) (y, PIdle) /\
    exists k c, EvFire k c ∈ q_trace y.2 /\ (exists a b c1 d e f, c = CbStoreSub a b c1 d e f) /\ observed_sub 1000 1 T E c y = o.
Lemma obs_by E g q o l : obs_check E g q = Some (o :: l) -> obs_found E g q o.
Proof.
  unfold obs_check, obs_found. intros Ho.
  destruct (instrument 1000 1 g) as [[g' T]|]; [|done]. destruct (start _ g' _) as [x|] eqn:Ex; [|done]. destruct (run_all _ _ _) as [[sched y]|] eqn:Er; [|done].
  exists g', T, x, y. split; [done|]. split; [done|]. split.
  - eapply PropTrace.rounds_steps. eapply (run_all_rounds _ 30 [] x x sched y); [constructor|exact Er].
  - injection Ho as Ho. destruct (taken y) as [|c l'] eqn:Et; [done|]. cbn [map] in Ho. injection Ho as Ho _. destruct (taken_fired y c) as [[k Hk] Hc]; [rewrite Et; left|]. by exists k, c.
Qed.
Theorem C47_observed_sub_example : obs_found sub_env sound_graph sound_query [(s "user", s "label"); (s "user", s "stamp"); (s "user", s "label")].
Proof. apply (obs_by _ _ _ _ [[(s "user", s "label")]]). vm_compute. reflexivity. Qed.

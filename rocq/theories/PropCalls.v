(** C51: the context; C52: only what the query asks for is loaded. *)
From stdpp Require Import relations.
From Verif Require Import Base Val Query QuerySpec Graph Queue QueueSpec QueueProof Result Engine EngineSpec SplitProof EngineDisc CallSpec EngineLog PropTrace Context.

Lemma find_field_in gn n x : find_field gn n = Some x -> x ∈ gn_fields gn.
Proof.
  unfold find_field, fields_map. intros Hx. apply dget_of_pairs_Some in Hx. apply elem_of_list_fmap in Hx as (y & Hy & Hin). injection Hy as _ ->. done.
Qed.
Lemma find_node_in g n gn : find_node g n = Some gn -> gn ∈ g_items g.
Proof.
  unfold find_node, nodes_map. intros Hx. apply dget_of_pairs_Some in Hx. apply elem_of_list_omap in Hx as (y & Hin & Hy). destruct (gn_name y); [|done]. by injection Hy as _ ->.
Qed.

Section thms.
  Context `{Hasher} (E : env) (g : graph) (q : qnode).

  (** C52: at every moment of every execution, whatever the loaders return and in whatever order the calls
      finish, each call made so far is one which the query takes: of the function of members asked for (or
      required by links asked for) of a node which the query reaches, for at least one object; or of a link
      asked for, with the options of the query and the values it requires. *)
  Theorem C52_only_needed_calls fuel sched x y c :
    start E g q = Ok x -> rounds E fuel sched x y -> c ∈ w_log y.1 -> call_needed E g q c.
  Proof.
    intros Hx Hr Hc. apply rounds_steps in Hr. apply (lcfg_rtc E g q) in Hr as (js & [Hl _] & _).
    - rewrite Forall_forall in Hl. by apply Hl.
    - by apply lcfg_start.
  Qed.
  (** C52: also between the callbacks of a round, in particular up to the one which raises *)
  Theorem C52_only_needed_calls_inside x z p c :
    start E g q = Ok x -> rtc (qstep (run_cb E)) (x, PIdle) (z, p) -> c ∈ w_log z.1 -> call_needed E g q c.
  Proof.
    intros Hx Hr Hc. apply (lcfg_rtc E g q) in Hr as (js & [Hl _] & _).
    - rewrite Forall_forall in Hl. by apply Hl.
    - by apply lcfg_start.
  Qed.

  Lemma needed_loaders G gn n : needed E g q G gn n ->
    (forall f, all_loaders E G f -> all_loaders E g f) /\ (forall go, go ∈ gn_fields gn -> exists gn', gn' ∈ g_items G /\ go ∈ gn_fields gn').
  Proof.
    assert (forall G go, go ∈ gn_fields (g_root G) -> exists gn', gn' ∈ g_items G /\ go ∈ gn_fields gn') as Hroot.
    { intros G0 go Hin. unfold g_root in Hin. cbn in Hin. apply elem_of_list_In, in_concat in Hin as (l & Hl & Hin).
      apply in_map_iff in Hl as (gn' & <- & Hgn). apply filter_In in Hgn as [Hgn _]. exists gn'. by rewrite !elem_of_list_In. }
    assert (forall G name gn' go, find_node G name = Some gn' -> go ∈ gn_fields gn' -> exists gn', gn' ∈ g_items G /\ go ∈ gn_fields gn') as Hnode.
    { intros G0 name gn' go Hf Hin. exists gn'. split; [by eapply find_node_in|done]. }
    assert (forall G gn n sg fields, together gn n (KSub sg) fields -> (forall go, go ∈ gn_fields gn -> exists gn', gn' ∈ g_items G /\ go ∈ gn_fields gn') -> subgraphs_of G sg) as Hsub.
    { intros G0 gn0 n0 sg fields [Hne Ht] Hin. destruct fields as [|[go q'] fields]; [done|]. destruct (Ht go q') as (_ & Hf & Hk); [left|].
      apply find_field_in in Hf. destruct (Hin _ Hf) as (gn' & Hgn & Hgo). by exists gn', go. }
    induction 1 as [q' Hq|G gn n ql l gn' Hn [IH1 IH2] Hl Hf|G gn n sg fields G' node this gn' Hn [IH1 IH2] Ht Hg Hd Hf|G gn n sg fields G' node Hn [IH1 IH2] Ht Hg].
    - split; [done|]. apply Hroot.
    - split; [done|]. intros go. by eapply Hnode.
    - split; [|intros go; by eapply Hnode]. intros f Hf'. apply IH1. eapply al_sub; [by eapply Hsub|done|done].
    - split; [|apply Hroot]. intros f Hf'. apply IH1. eapply al_sub; [by eapply Hsub|done|done].
  Qed.
  (** C52: so only functions of the graph and of the sub-graphs it refers to are called *)
  Theorem C52_only_loaders_of_graph fuel sched x y c :
    start E g q = Ok x -> rounds E fuel sched x y -> c ∈ w_log y.1 -> all_loaders E g (c_func c).
  Proof.
    intros Hx Hr Hc. destruct (C52_only_needed_calls _ _ _ _ _ Hx Hr Hc) as (G & gn & n & Hn & _ & Ha).
    destruct (needed_loaders _ _ _ Hn) as [Hsub Hin]. apply Hsub, al_own.
    assert (exists go, go ∈ gn_fields gn /\ fkey_of go = KPlain (c_func c)) as (go & Hgo & Hk).
    { destruct (c_args c) as [qfs ids|rq o].
      - destruct Ha as (fields & _ & [Hne Ht] & _). destruct fields as [|[go q'] fields]; [done|]. destruct (Ht go q') as (_ & Hf & Hk); [left|].
        exists go. split; [by eapply find_field_in|done].
      - destruct Ha as (l & ql & Hl & Hf & _). exists (GL l). cbn. rewrite Hf. split; [|done].
        apply elem_of_list_omap in Hl as (q' & _ & Hl). destruct q'; [done|]. destruct (find_field gn _) as [[]|] eqn:Eff; try done. injection Hl as -> _. by eapply find_field_in. }
    destruct (Hin _ Hgo) as (gn' & Hgn & Hgo'). by exists gn', go.
  Qed.
  (** C52: no loader of fields is called for no object or for no field *)
  Theorem C52_never_for_nothing fuel sched x y c qfs ids :
    start E g q = Ok x -> rounds E fuel sched x y -> c ∈ w_log y.1 -> c_args c = AFields qfs ids -> qfs <> [] /\ ids <> Some [].
  Proof.
    intros Hx Hr Hc Ha. destruct (C52_only_needed_calls _ _ _ _ _ Hx Hr Hc) as (G & gn & n & _ & _ & Hm). rewrite Ha in Hm.
    destruct Hm as (fields & -> & [Hne _] & Ho). split; [by destruct fields|]. unfold objects in Ho. destruct (gn_name gn); [destruct Ho as (? & ? & ->)|subst]; done.
  Qed.

  (** C51: the context is the first argument of a loader exactly when the loader is marked; no loader gets it elsewhere *)
  Theorem C51_passed_iff_marked ctx fuel sched x y c :
    start E g q = Ok x -> rounds E fuel sched x y -> c ∈ w_log y.1 ->
    if e_ctx E (c_func c)
    then exists args, received ctx c = PaContext (new_context ctx) :: args /\ forall d, PaContext d ∉ args
    else forall d, PaContext d ∉ received ctx c.
  Proof.
    intros Hx Hr Hc. destruct (C52_only_needed_calls _ _ _ _ _ Hx Hr Hc) as (G & gn & n & _ & Hm & _). rewrite <-Hm.
    assert (forall d, PaContext d ∉ match c_args c with
      | AFields qfs None => [PaFields qfs]
      | AFields qfs (Some ids) => [PaFields qfs; PaIds ids]
      | ALink rq o => match rq with Some r => [PaReqs r] | None => [] end ++ match o with Some o => [PaOptions o] | None => [] end
      end) as Hno.
    { intros d. destruct (c_args c) as [qfs [ids|]|[rq|] [o|]]; rewrite elem_of_list_In; cbn; naive_solver. }
    unfold received. destruct (c_ctx c); cbn [app]; eauto.
  Qed.
  (** C51: for fields the other arguments are the fields and, for nodes, the identifiers *)
  Theorem C51_field_arguments ctx fuel sched x y c qfs ids :
    start E g q = Ok x -> rounds E fuel sched x y -> c ∈ w_log y.1 -> c_args c = AFields qfs (Some ids) -> e_ctx E (c_func c) = true ->
    received ctx c = [PaContext (new_context ctx); PaFields qfs; PaIds ids].
  Proof.
    intros Hx Hr Hc Ha Hm. destruct (C52_only_needed_calls _ _ _ _ _ Hx Hr Hc) as (G & gn & n & _ & Hm' & _).
    unfold received. by rewrite Hm', Hm, Ha.
  Qed.
End thms.

(** C51: the context holds exactly what was given: each key with its value, any other key is a KeyError;
    without a context there are no keys *)
Theorem C51_given_keys d k v : NoDup (map fst d) -> context_getitem (new_context (Some d)) k = Ok v <-> (k, v) ∈ d.
Proof.
  intros Hn. unfold context_getitem, new_context. destruct (dget k d) as [w|] eqn:Eg.
  - split.
    + intros [= <-]. by apply dget_Some_elem.
    + intros Hin. apply dget_NoDup in Hin; [|done]. rewrite Hin in Eg. by injection Eg as ->.
  - split; [done|]. intros Hin. apply dget_NoDup in Hin; [|done]. by rewrite Hin in Eg.
Qed.
Theorem C51_other_keys ctx k : k ∉ context_iter (new_context ctx) <-> context_getitem (new_context ctx) k = Err KeyError.
Proof.
  unfold context_iter, context_getitem. destruct (dget k (new_context ctx)) eqn:Eg.
  - split; [|done]. intros Hk. exfalso. apply Hk. apply dget_is_Some. by rewrite Eg.
  - split; [done|]. intros _ [x Hx]%dget_is_Some. by rewrite Eg in Hx.
Qed.
Theorem C51_no_context k : context_getitem (new_context None) k = Err KeyError /\ context_len (new_context None) = 0.
Proof. done. Qed.
Theorem C51_same_length ctx : context_len (new_context ctx) = length (context_iter (new_context ctx)).
Proof. unfold context_len, context_iter, dkeys. by rewrite map_length. Qed.

(** Example: the execution of ExEngine; the loader 12 is marked, the others are not *)
From Verif Require Import Examples ExEngine.
#[local] Existing Instance ex_hasher.
Theorem C51_example : exists c c', c ∈ w_log (ex_end (take 7 sched2)).1 /\ c' ∈ w_log (ex_end (take 7 sched2)).1 /\
  e_ctx (ex_env false) (c_func c) = true /\ e_ctx (ex_env false) (c_func c') = false /\
  received (Some [(VStr (s "user"), VInt 1)]) c = [PaContext [(VStr (s "user"), VInt 1)]].
Proof.
  exists (Call 12 true (ALink None None)), (Call 14 false (ALink None None)).
  split; [|split; [|by split_and!]]; rewrite elem_of_list_In; vm_compute; tauto.
Qed.
Theorem C52_example : start (ex_env false) ex_graph ex_query = Ok ex_start /\ rounds (ex_env false) ex_fuel (take 7 sched2) ex_start (ex_end (take 7 sched2)) /\
  Nat.leb 8 (length (w_log (ex_end (take 7 sched2)).1)) = true.
Proof. split; [exact ex_started|]. split; [exact ex_rounds|]. vm_compute. reflexivity. Qed.

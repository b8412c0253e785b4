(** The theorems about sub-graphs applied to a concrete graph ([ExSub]), and what is false of sub-graphs: finding 10
    (C40) and options of sub-graph queries (C11). *)
From Verif Require Import Base Val Types Query QuerySpec QueryProof Graph Queue QueueSpec Result Engine EngineSpec Examples ExEngine CostSpec SubSpec SubPathSpec ExSub ExSubCheck PropBound PropSub PropSubExpr.
#[local] Existing Instance ex_hasher.

Lemma run_all_executes E n : forall x sched y, run_all E n x = Some (sched, y) -> executes (run_cb E) ex_fuel sched x (Ok y).
Proof.
  induction n as [|n IH]; intros x sched y; cbn [run_all]; destruct (q_futures x.2) as [|f fs] eqn:Ef; try done.
  - intros [= <- <-]. by constructor.
  - intros [= <- <-]. by constructor.
  - destruct (progress (run_cb E) ex_fuel [f] x) as [z|] eqn:Ep; [|done]. destruct (run_all E n z) as [[s2 z2]|] eqn:Ez; [|done]. intros [= <- <-].
    eapply ex_step; [done|apply NoDup_singleton| |exact Ep|by apply IH].
    intros f' ->%elem_of_list_singleton. rewrite Ef. left.
Qed.
Example sub_executes : exists sched idx, execute sub_env ex_fuel high_graph sub_query sched (Ok (idx, sub_query')).
Proof.
  destruct (run_all sub_env 30 sub_start) as [[sched y]|] eqn:E.
  - assert (match w_wfs y.1 !! 0 with Some _ => True | None => False end) as Hw.
    { assert (match run_all sub_env 30 sub_start with Some (_, y) => match w_wfs y.1 !! 0 with Some _ => true | None => false end | None => false end = true) as Ht
        by (vm_compute; reflexivity). rewrite E in Ht. by destruct (w_wfs y.1 !! 0). }
    destruct (w_wfs y.1 !! 0) as [v|] eqn:Ev; [|exact (False_ind _ Hw)].
    assert (execute sub_env ex_fuel high_graph sub_query sched (Ok (wf_index v, wf_query v))) as He.
    { eapply exec_ok; [exact sub_started|eapply run_all_executes; exact E|exact Ev]. }
    destruct (C04_result sub_env sub_data _ _ _ sub_init sub_respects sub_reads sub_serves sub_all_supported sub_all_data _ _ _ _ He) as [Hq _].
    exists sched, (wf_index v). rewrite <-Hq. exact He.
  - exfalso. assert (match run_all sub_env 30 sub_start with Some _ => true | None => false end = true) as Ht by (vm_compute; reflexivity).
    rewrite E in Ht. discriminate Ht.
Qed.

(** The result of this query, whatever the order of events *)
Definition tv (v : val) : vtree := TP (PRaw (IVal v)).
Definition user_val (n : Z) : val := VTuple [VStr (s "user"); VInt n].
Definition stamp_val : val := VTuple [VInt 40; user_val 1; VStr (s "noon"); VInt 8].
Definition sub_result : vtree :=
  TO [(s "users", TL (map (fun n => TO
    [(s "id", tv (VInt n)); (s "label", tv (user_val n)); (s "stamp", tv stamp_val);
     (s "chief", TO [(s "label", tv (user_val 1)); (s "clock", tv (VStr (s "noon")))])]) [5%Z; 6%Z]))].
Example C04_sub_example fuel sched r :
  max_work sub_env high_graph sub_query' < fuel -> execute sub_env fuel high_graph sub_query sched r ->
  exists idx, r = Ok (idx, sub_query') /\ denormalize high_graph idx sub_query' = Ok sub_result.
Proof.
  intros Hw He.
  destruct (C04_every_execution sub_env sub_data _ _ _ sub_init sub_respects sub_reads sub_serves sub_all_supported sub_all_data fuel sched r) as (idx & Hr & Hd); try done.
  - apply sub_nested.
  - apply C05_example.
  - exists idx. split; [done|]. rewrite Hd. vm_compute. reflexivity.
Qed.

(** C40 for the field [stamp] of the second user, and for [clock] of its chief *)
Definition second_user : list pstep := [PKey (s "users"); PIdx 1].
Definition users_items : list qitem := match qfields sub_query' with [QL _ sub _ _ _] => sub | _ => [] end.
Example sub_leads :
  leads high_graph (sub_value sub_env sub_data) sub_data high_root None sub_query' second_user high_user (Some (VInt 6)) (QN users_items false) /\
  QF (s "stamp") (Some [(s "fmt", VInt 8)]) None ∈ users_items.
Proof.
  split.
  - apply (ld_many high_graph (sub_value sub_env sub_data) sub_data high_root None sub_query' (s "users") users_items false None None
      (GLink (s "users") Many (s "user") 30 None []) high_user 1 (VInt 6) [] high_user (Some (VInt 6)) (QN users_items false));
      [vm_compute; left|vm_compute; reflexivity|vm_compute; reflexivity|vm_compute; reflexivity|vm_compute; reflexivity|apply ld_here].
  - vm_compute. right. right. left.
Qed.
Example C40_example fuel sched idx q2 t : execute sub_env fuel high_graph sub_query sched (Ok (idx, q2)) -> denormalize high_graph idx q2 = Ok t ->
  vget t [PKey (s "users"); PIdx 1; PKey (s "stamp")] = Some (tv stamp_val).
Proof.
  intros He Ht. destruct sub_leads as (Hl & Hq).
  destruct (C40_value sub_env sub_data high_graph sub_respects sub_reads sub_serves _ _ _ _ _ _ _ _ _ _ _ _ _ _
    (GField (s "stamp") None (FChecked 0 reqs_stamp 2) [GOption (s "fmt") None (VInt 8)]) 0 reqs_stamp 2%N low_graph (s "user") low_user
    sub_init sub_all_supported sub_all_data He Ht Hl Hq) as (v & Hv & Hx); [vm_compute; reflexivity|reflexivity|reflexivity|vm_compute; reflexivity|].
  vm_compute in Hv. injection Hv as <-. exact Hx.
Qed.


(** The same field of the same user in another query *)
Definition users_items2 : list qitem := match qfields sub_query2' with [QL _ sub _ _ _] => sub | _ => [] end.
Example sub_leads2 :
  leads high_graph (sub_value sub_env sub_data) sub_data high_root None sub_query2' second_user high_user (Some (VInt 6)) (QN users_items2 false) /\
  QF (s "stamp") (Some [(s "fmt", VInt 8)]) None ∈ users_items2.
Proof.
  split.
  - apply (ld_many high_graph (sub_value sub_env sub_data) sub_data high_root None sub_query2' (s "users") users_items2 false None None
      (GLink (s "users") Many (s "user") 30 None []) high_user 1 (VInt 6) [] high_user (Some (VInt 6)) (QN users_items2 false));
      [vm_compute; left|vm_compute; reflexivity|vm_compute; reflexivity|vm_compute; reflexivity|vm_compute; reflexivity|apply ld_here].
  - vm_compute. right. left.
Qed.
Example C40_independent_example fuel1 sched1 idx1 r1 t1 fuel2 sched2 idx2 r2 t2 :
  execute sub_env fuel1 high_graph sub_query sched1 (Ok (idx1, r1)) -> denormalize high_graph idx1 r1 = Ok t1 ->
  execute sub_env fuel2 high_graph sub_query2 sched2 (Ok (idx2, r2)) -> denormalize high_graph idx2 r2 = Ok t2 ->
  exists v, vget t1 (second_user ++ [PKey (s "stamp")]) = Some v /\ vget t2 (second_user ++ [PKey (s "stamp")]) = Some v.
Proof.
  intros He1 Ht1 He2 Ht2. destruct sub_leads as (Hl1 & Hq1), sub_leads2 as (Hl2 & Hq2).
  apply (C40_independent sub_env sub_data high_graph sub_respects sub_reads sub_serves _ _ _ _ _ _ _ _ _ _ _ _ _ _ _ _ _ _ _ _ _ _ _ _ _
    (GField (s "stamp") None (FChecked 0 reqs_stamp 2) [GOption (s "fmt") None (VInt 8)]) 0 reqs_stamp 2%N low_graph (s "user") low_user
    sub_init sub_all_supported sub_all_data sub_init2 sub_all_supported2 sub_all_data2 He1 Ht1 He2 Ht2 Hl1 Hq1 Hl2 Hq2);
    [reflexivity|vm_compute; reflexivity|reflexivity|reflexivity|vm_compute; reflexivity].
Qed.

(** Other loaders of the high-level graph: the values of expressions stay *)
Definition other_data : data := {|
  d_field := fun f i n o => if (f =? 23)%N then VStr (s "other") else d_field sub_data f i n o;
  d_link := fun f a o => if (f =? 32)%N then VInt 9 else d_link sub_data f a o |}.
Example sub_own : forall m, own_loader sub_env low_graph m -> agree_on sub_data other_data m.
Proof.
  assert (forall G m, own_loader sub_env G m -> G = low_graph -> (m =? 23)%N = false /\ (forall a o, d_link sub_data m a o = d_link other_data m a o)) as Hm.
  { induction 1 as [G gn name f m Hn Hf Hm|G gn name l Hn Hf|G gn name f sg rq pr G' node m Hn Hf Hc Hs Ho IH]; intros ->.
    all: assert (gn ∈ [low_root; low_user]) as Hgn
      by (destruct Hn as [->|[n Hn]]; [vm_compute; left|]; apply dget_Some_elem, elem_of_list_In in Hn; vm_compute in Hn;
          destruct Hn as [Hn|[]]; injection Hn as <- <-; right; left).
    all: apply dget_Some_elem, elem_of_list_In in Hf;
      apply elem_of_cons in Hgn as [->|[->|[]%not_elem_of_nil]%elem_of_cons]; vm_compute in Hf;
      repeat destruct Hf as [Hf|Hf]; try done; injection Hf as <- <-; try done; try (injection Hm as <-); (split; [reflexivity|intros; reflexivity]). }
  intros m Ho. destruct (Hm _ _ Ho eq_refl) as [H1 H2]. split; [|exact H2]. intros i n o. cbn. by rewrite H1.
Qed.
Example C40_own_example j os :
  expr_result sub_env sub_data (field_val sub_env sub_data 0) low_graph low_user reqs_stamp 2 j os =
  expr_result sub_env other_data (field_val sub_env other_data 0) low_graph low_user reqs_stamp 2 j os.
Proof. apply (C40_own_data sub_env sub_data other_data 0 low_graph low_user); [apply sub_own|right; exists (s "user"); vm_compute; reflexivity]. Qed.

(** C40 fails when none of the expressions requested together uses [this] (finding 10): the same field is served or not
    depending on what else is requested.  hiku/sources/graph.py:115 reads [reqs.fields_map[THIS]]. *)
Theorem C40_no_this_refuted :
  execute sub_env ex_fuel high_graph clock_query [[0]] (Err KeyError) /\
  (forall fuel sched r, max_work sub_env high_graph sub_query' < fuel -> execute sub_env fuel high_graph sub_query sched r ->
     exists idx, r = Ok (idx, sub_query') /\ denormalize high_graph idx sub_query' = Ok sub_result).
Proof.
  split; [|intros fuel sched r; apply C04_sub_example].
  destruct (start sub_env high_graph clock_query) as [x|e] eqn:Ex.
  - eapply exec_err; [exact Ex|]. apply ex_fail; [done|apply NoDup_singleton| |].
    + intros f ->%elem_of_list_singleton.
      assert (match start sub_env high_graph clock_query with Ok x => match q_futures x.2 with 0 :: _ => true | _ => false end | _ => false end = true) as Ht
        by (vm_compute; reflexivity).
      rewrite Ex in Ht. destruct (q_futures x.2) as [|[|]]; try done. left.
    + assert (match start sub_env high_graph clock_query with Ok x => match progress (run_cb sub_env) ex_fuel [0] x with Err KeyError => true | _ => false end | _ => false end = true) as Ht
        by (vm_compute; reflexivity).
      rewrite Ex in Ht. destruct (progress (run_cb sub_env) ex_fuel [0] x) as [|[]]; done.
  - exfalso. assert (match start sub_env high_graph clock_query with Ok x => true | _ => false end = true) as Ht by (vm_compute; reflexivity).
    rewrite Ex in Ht. discriminate Ht.
Qed.

(** ** Options declared in a sub-graph *)
(** As [low_graph], the field [age] with an option [unit] which has a default *)
Definition unit_opt : goption := GOption (s "unit") None (VInt 3).
Definition opt_age : gfield := GField (s "age") None (FPlain 21) [unit_opt].
Definition opt_user : gnode := GNode (Some (s "user"))
  [GF (GField (s "name") None (FPlain 24) []); GF opt_age;
   GF (GField (s "boss_id") None (FPlain 22) []);
   GL (GLink (s "boss") One (s "user") 31 (Some (s "boss_id")) [])].
Definition opt_graph : graph := Graph [opt_user; low_root] [].
Definition opt_env : env := Env [(opt_graph, s "user")] (fun _ => oracle_of sub_data) (fun _ => false) sub_proc false.
(** C11 does not hold for sub-graphs: the loader of a field of a sub-graph is called without the default of an option the
    field declares.  hiku/sources/graph.py:96-130 starts the query of the sub-graph without InitOptions (which
    hiku/engine.py:426 applies to the queries of users). *)
Theorem C11_subgraph_refuted :
  exists sched x y c,
    start opt_env high_graph sub_query = Ok x /\ rounds opt_env ex_fuel sched x y /\ c ∈ w_log y.1 /\
    c_func c = 21%N /\ find_field opt_user (s "age") = Some (GF opt_age) /\ unit_opt ∈ gf_opts opt_age /\
    exists ids, c_args c = AFields [QF (s "age") None None] ids.
Proof.
  destruct (start opt_env high_graph sub_query) as [x|e] eqn:Ex.
  2: { exfalso. assert (match start opt_env high_graph sub_query with Ok x => true | _ => false end = true) as Ht by (vm_compute; reflexivity).
       rewrite Ex in Ht. discriminate Ht. }
  destruct (run_all opt_env 30 x) as [[sched y]|] eqn:Er.
  2: { exfalso. assert (match start opt_env high_graph sub_query with Ok x => match run_all opt_env 30 x with Some _ => true | None => false end | _ => false end = true) as Ht
       by (vm_compute; reflexivity). rewrite Ex, Er in Ht. discriminate Ht. }
  exists sched, x, y.
  assert (match start opt_env high_graph sub_query with Ok x => match run_all opt_env 30 x with
    Some (_, y) => existsb (fun c => (c_func c =? 21)%N && match c_args c with AFields [QF n None None] _ => bool_decide (n = s "age") | _ => false end) (w_log y.1)
    | None => false end | _ => false end = true) as Ht by (vm_compute; reflexivity).
  rewrite Ex, Er in Ht. apply existsb_exists in Ht as (c & Hc & Hb). exists c. split; [done|].
  split; [by apply (run_all_rounds opt_env 30 [] x x sched y); [constructor|]|]. split; [by apply elem_of_list_In|].
  apply andb_true_iff in Hb as [H1 H2]. split; [by apply N.eqb_eq|]. split; [vm_compute; reflexivity|]. split; [left|].
  destruct (c_args c) as [[|[n [|] [|]|] [|]] ids|]; try done. apply bool_decide_eq_true_1 in H2 as ->. eauto.
Qed.

Print Assumptions C04_result.
Print Assumptions C04_every_execution.
Print Assumptions C05_no_failure.
Print Assumptions C05_never_stuck.
Print Assumptions C07_link_arguments.
Print Assumptions C40_value.
Print Assumptions C40_independent.
Print Assumptions C40_own_data.
Print Assumptions C40_no_this_refuted.
Print Assumptions C11_subgraph_refuted.

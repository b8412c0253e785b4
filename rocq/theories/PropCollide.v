(** Colliding keys of the index (C03) make results wrong and dependent on scheduling (C04). *)
From Verif Require Import Base Val Types Query QuerySpec Graph Queue QueueSpec Result Engine EngineSpec Examples ExEngine.
#[local] Existing Instance ex_hasher.

(** Running a given schedule *)
Fixpoint run_sched (E : env) (sched : list (list nat)) (x : st) : option st :=
  match sched with
  | [] => match q_futures x.2 with [] => Some x | _ => None end
  | d :: sched =>
      if bool_decide (d <> []) && bool_decide (NoDup d) && forallb (fun f => bool_decide (f ∈ q_futures x.2)) d
      then match progress (run_cb E) ex_fuel d x with Ok y => run_sched E sched y | Err _ => None end
      else None
  end.
Lemma run_sched_ok E sched : forall x y, run_sched E sched x = Some y -> executes (run_cb E) ex_fuel sched x (Ok y).
Proof.
  induction sched as [|d sched IH]; intros x y; cbn [run_sched].
  - destruct (q_futures x.2) eqn:Ef; [|done]. intros [= <-]. by constructor.
  - destruct (bool_decide (d <> []) && bool_decide (NoDup d) && _) eqn:Eb; [|done]. rewrite !andb_true_iff in Eb. destruct Eb as [[H1 H2] H3].
    destruct (progress (run_cb E) ex_fuel d x) as [z|e] eqn:Ep; [|done]. intros Hr.
    eapply ex_step; [by eapply bool_decide_eq_true_1|by eapply bool_decide_eq_true_1| |exact Ep|by apply IH].
    intros f Hf%elem_of_list_In. rewrite forallb_forall in H3. by eapply bool_decide_eq_true_1, H3.
Qed.
(** The result of an execution with a given schedule *)
Definition result_of (E : env) (g : graph) (q : qnode) (sched : list (list nat)) : option (res vtree) :=
  match start E g q with
  | Ok x => match run_sched E sched x with
            | Some y => match w_wfs y.1 !! 0 with Some v => Some (denormalize g (wf_index v) (wf_query v)) | None => None end
            | None => None
            end
  | Err _ => None
  end.
Lemma result_of_ok E g q sched r : result_of E g q sched = Some r ->
  exists idx q', execute E ex_fuel g q sched (Ok (idx, q')) /\ denormalize g idx q' = r.
Proof.
  unfold result_of. destruct (start E g q) as [x|e] eqn:Ex; [|done]. destruct (run_sched E sched x) as [y|] eqn:Ey; [|done].
  destruct (w_wfs y.1 !! 0) as [v|] eqn:Ev; [|done]. intros [= <-]. exists (wf_index v), (wf_query v). split; [|done].
  eapply exec_ok; [exact Ex|by apply run_sched_ok|exact Ev].
Qed.

(** [Node('user', [Field('f', options=[Option('k')])])], two links of the root lead to the user 5 *)
Definition coll_graph : graph := Graph
  [GNode (Some (s "user")) [GF (GField (s "f") None (FPlain 1) [GOption (s "k") None VNothing])];
   GNode None [GL (GLink (s "a") One (s "user") 2 None []); GL (GLink (s "b") One (s "user") 3 None [])]] [].
(** The field is what the option says *)
Definition coll_data : data := {|
  d_field := fun f i n o => match dget (s "k") (opt_dict o) with Some v => v | None => VNone end;
  d_link := fun f a o => VInt 5 |}.
Definition coll_env : env := Env [] (fun _ => oracle_of coll_data) (fun _ => false) (fun _ _ _ _ => Err TypeError) false.
Definition coll_query : qnode :=
  QN [QL (s "a") [QF (s "f") (Some [(s "k", VInt (-1))]) None] false None None;
      QL (s "b") [QF (s "f") (Some [(s "k", VInt (-2))]) None] false None None] false.
Definition coll_result (x y : Z) : vtree :=
  TO [(s "a", TO [(s "f", TP (PRaw (IVal (VInt x))))]); (s "b", TO [(s "f", TP (PRaw (IVal (VInt y))))])].
(** C04 fails for options with equal hashes, as -1 and -2 in CPython: both requests share a slot of the index, and the one
    which is stored last is the result of both.  Two orders of events give two results, none of them the one of
    resolving the query. *)
Theorem C04_collision_refuted :
  resolve_query coll_graph (plain_value coll_data) coll_data coll_query = Ok (coll_result (-1) (-2)) /\
  (exists idx q', execute coll_env ex_fuel coll_graph coll_query [[0]; [1]; [2]; [3]] (Ok (idx, q')) /\
     denormalize coll_graph idx q' = Ok (coll_result (-2) (-2))) /\
  (exists idx q', execute coll_env ex_fuel coll_graph coll_query [[0]; [1]; [3]; [2]] (Ok (idx, q')) /\
     denormalize coll_graph idx q' = Ok (coll_result (-1) (-1))).
Proof.
  split; [vm_compute; reflexivity|]. split; apply result_of_ok; vm_compute; reflexivity.
Qed.
Print Assumptions C04_collision_refuted.

(** Instance of C63: a loader which answers differently at every call. *)
From Verif Require Import Base Val Types Query QuerySpec QueryProof Graph Queue Result PropResult Engine EngineSpec Examples ExEngine CallSpec ProvSpec PropProv
  MoreSpec SameSpec ViewSpec PropView.
#[local] Existing Instance ex_hasher.
#[local] Existing Instance ExEngine.qitem_eq_dec.
#[local] Existing Instance ExEngine.qnode_eq_dec.

(** The links [a] and [b] of the root lead to the same object of the node [X]; its field [x] is the number of the call *)
Definition vw_field : gitem := GF (GField (s "x") (Some TInt) (FPlain 2) []).
Definition vw_other : gitem := GF (GField (s "y") (Some TInt) (FPlain 2) []).
Definition vw_graph : graph :=
  Graph [GNode (Some (s "X")) [vw_field; vw_other];
         GNode None [GL (GLink (s "a") One (s "X") 0 None []); GL (GLink (s "b") Maybe (s "X") 1 None [])]] [].
Definition vw_oracle (n : nat) (c : call) : outcome :=
  match c_args c with
  | ALink _ _ => Ret (VInt 7)
  | AFields qs ids => Ret (VList [VList (map (fun _ => VInt (Z.of_nat n)) qs)])
  end.
Definition vw_env : env := Env [] vw_oracle (fun _ => false) (fun _ _ _ _ => Err KeyError) false.
(** [{a {x} b {y, again: x}}] *)
Definition vw_query : qnode :=
  QN [QL (s "a") [QF (s "x") None None] false None None;
      QL (s "b") [QF (s "y") None None; QF (s "x") None (Some (s "again"))] false None None] false.
Definition vw_start : st := match start vw_env vw_graph vw_query with Ok x => x | Err _ => (World [] [], q_empty) end.
Definition vw_end (sched : list (list nat)) : st := match run_rounds vw_env sched vw_start with Some y => y | None => vw_start end.
Definition vw_index (sched : list (list nat)) : index := match w_wfs (vw_end sched).1 !! 0 with Some v => wf_index v | None => [] end.
Definition vw_ends (sched : list (list nat)) : bool :=
  match run_rounds vw_env sched vw_start with
  | Some y => match q_futures y.2, w_wfs y.1 with
              | [], v :: _ => bool_decide (wf_query v = vw_query)
              | _, _ => false
              end
  | None => false
  end.
Lemma vw_started : start vw_env vw_graph vw_query = Ok vw_start.
Proof.
  unfold vw_start. destruct (start vw_env vw_graph vw_query) as [x|e] eqn:E; [done|]. exfalso.
  assert (match start vw_env vw_graph vw_query with Ok _ => true | Err _ => false end = true) as Ht by (vm_compute; reflexivity). by rewrite E in Ht.
Qed.
Lemma vw_execute sched : vw_ends sched = true -> execute vw_env ex_fuel vw_graph vw_query sched (Ok (vw_index sched, vw_query)) /\
  exec_log vw_env ex_fuel vw_graph vw_query sched (w_log (vw_end sched).1).
Proof.
  intros He. unfold vw_ends in He. destruct (run_rounds vw_env sched vw_start) as [y|] eqn:Er; [|done].
  assert (vw_end sched = y) as Hend by (unfold vw_end; by rewrite Er).
  destruct (q_futures y.2) eqn:Ef; [|done]. destruct (w_wfs y.1) as [|v vs] eqn:Ew; [done|].
  apply bool_decide_eq_true_1 in He. split.
  - unfold vw_index. rewrite Hend, Ew. cbn. assert (execute vw_env ex_fuel vw_graph vw_query sched (Ok (wf_index v, wf_query v))) as Hx by (eapply exec_ok; [exact vw_started|by apply run_rounds_executes|by rewrite Ew]).
    rewrite He in Hx. exact Hx.
  - rewrite Hend. exists vw_start, y. split; [exact vw_started|]. split; [by apply run_rounds_executes|done].
Qed.
Lemma vw_clear : clear_query vw_graph vw_query.
Proof.
  split; [apply (bool_decide_unpack _); vm_compute; exact I|]. intros q Hq. apply elem_of_list_In in Hq. vm_compute in Hq.
  repeat destruct Hq as [<-|Hq]; try done; vm_compute; repeat split; apply (bool_decide_unpack _); vm_compute; exact I.
Qed.
Definition vw_x : gnode := GNode (Some (s "X")) [vw_field; vw_other].
Definition vw_tree (n : Z) : vtree :=
  TO [(s "a", TO [(s "x", TP (PRaw (IVal (VInt n))))]);
      (s "b", TO [(s "y", TP (PRaw (IVal (VInt 3)))); (s "again", TP (PRaw (IVal (VInt n))))])].
Lemma vw_places sched n : denormalize vw_graph (vw_index sched) vw_query = Ok (vw_tree n) ->
  proxy_get (vw_index sched) ROOT vw_query (s "a") = Ok (PProxy (s "X", VInt 7) (QN [QF (s "x") None None] false)) ->
  proxy_get (vw_index sched) ROOT vw_query (s "b") = Ok (PProxy (s "X", VInt 7) (QN [QF (s "y") None None; QF (s "x") None (Some (s "again"))] false)) ->
  place vw_graph (vw_index sched) vw_query (vw_tree n) vw_x (s "X", VInt 7) (QN [QF (s "x") None None] false) (TO [(s "x", TP (PRaw (IVal (VInt n))))]) /\
  place vw_graph (vw_index sched) vw_query (vw_tree n) vw_x (s "X", VInt 7) (QN [QF (s "y") None None; QF (s "x") None (Some (s "again"))] false)
    (TO [(s "y", TP (PRaw (IVal (VInt 3)))); (s "again", TP (PRaw (IVal (VInt n))))]).
Proof.
  intros Ht Ha Hb. split.
  - eapply (pl_one _ _ _ _ (g_root vw_graph) ROOT vw_query _ (QL (s "a") [QF (s "x") None None] false None None)); [apply pl_root|left|reflexivity|reflexivity|exact Ha|reflexivity].
  - eapply (pl_one _ _ _ _ (g_root vw_graph) ROOT vw_query _ (QL (s "b") [QF (s "y") None None; QF (s "x") None (Some (s "again"))] false None None));
      [apply pl_root|right; left|reflexivity|reflexivity|exact Hb|reflexivity].
Qed.
(** The number of the call is shown: which call was answered last depends on the schedule, but it is shown at both places. *)
Theorem C63_example sched n : (sched, n) ∈ [([[0];[1];[2];[3]], 3%Z); ([[0];[1];[3];[2]], 2%Z)] ->
  execute vw_env ex_fuel vw_graph vw_query sched (Ok (vw_index sched, vw_query)) /\ clear_query vw_graph vw_query /\
  denormalize vw_graph (vw_index sched) vw_query = Ok (vw_tree n) /\
  (exists log, exec_log vw_env ex_fuel vw_graph vw_query sched log /\ length (List.filter (fun c => (c_func c =? 2)%N) log) = 2) /\
  exists pn1 pn2 d1 d2 f1 f2, place vw_graph (vw_index sched) vw_query (vw_tree n) vw_x (s "X", VInt 7) pn1 (TO d1) /\
    place vw_graph (vw_index sched) vw_query (vw_tree n) vw_x (s "X", VInt 7) pn2 (TO d2) /\ f1 ∈ qfields pn1 /\ f2 ∈ qfields pn2 /\
    covered vw_graph vw_x f1 f2 /\ result_key f1 <> result_key f2 /\ dget (result_key f1) d1 = dget (result_key f2) d2.
Proof.
  intros Hs.
  assert (vw_ends sched = true) as He by (apply elem_of_cons in Hs as [[= -> ->]|Hs]; [|apply elem_of_list_singleton in Hs; injection Hs as -> ->]; vm_compute; reflexivity).
  assert (denormalize vw_graph (vw_index sched) vw_query = Ok (vw_tree n)) as Ht
    by (apply elem_of_cons in Hs as [[= -> ->]|Hs]; [|apply elem_of_list_singleton in Hs; injection Hs as -> ->]; vm_compute; reflexivity).
  assert (proxy_get (vw_index sched) ROOT vw_query (s "a") = Ok (PProxy (s "X", VInt 7) (QN [QF (s "x") None None] false))) as Ha
    by (apply elem_of_cons in Hs as [[= -> ->]|Hs]; [|apply elem_of_list_singleton in Hs; injection Hs as -> ->]; vm_compute; reflexivity).
  assert (proxy_get (vw_index sched) ROOT vw_query (s "b") = Ok (PProxy (s "X", VInt 7) (QN [QF (s "y") None None; QF (s "x") None (Some (s "again"))] false))) as Hb
    by (apply elem_of_cons in Hs as [[= -> ->]|Hs]; [|apply elem_of_list_singleton in Hs; injection Hs as -> ->]; vm_compute; reflexivity).
  assert (length (List.filter (fun c => (c_func c =? 2)%N) (w_log (vw_end sched).1)) = 2) as Hlog
    by (apply elem_of_cons in Hs as [[= -> ->]|Hs]; [|apply elem_of_list_singleton in Hs; injection Hs as -> ->]; vm_compute; reflexivity).
  destruct (vw_execute sched He) as [Hx Hl]. split; [exact Hx|]. split; [exact vw_clear|]. split; [exact Ht|]. split; [eexists; split; [exact Hl|exact Hlog]|].
  destruct (vw_places sched n Ht Ha Hb) as [P1 P2]. eexists _, _, _, _, _, _. split; [exact P1|]. split; [exact P2|]. split; [left|]. split; [right; left|].
  assert (covered vw_graph vw_x (QF (s "x") None None) (QF (s "x") None (Some (s "again")))) as Hcv by (apply cv_field; apply sv_refl).
  split; [exact Hcv|]. split; [done|reflexivity].
Qed.
Print Assumptions C63_example.

(** C55: examples, and what the code does not guarantee. *)
From Verif Require Import Base Val Query Graph Queue Result Engine EngineSpec Examples ExEngine Async AsyncProof PropAsync.

(** An execution with these events reaches a state for which [P] holds. *)
Definition reaches `{Hasher} (E : env) (fuel : nat) (g : graph) (q : qnode) (evs : list aev) (P : ast -> Prop) : Prop :=
  exists a0 a, async_execute E g q = Ok a0 /\ asteps E fuel a0 evs = Some a /\ P a.
Definition reach_check `{Hasher} (E : env) (fuel : nat) (g : graph) (q : qnode) (evs : list aev) (P : ast -> bool) : bool :=
  match async_execute E g q with
  | Ok a0 => match asteps E fuel a0 evs with Some a => P a | None => false end
  | Err _ => false
  end.
Lemma reach_by `{Hasher} E fuel g q evs (P : ast -> bool) (Q : ast -> Prop) :
  reach_check E fuel g q evs P = true -> (forall a, P a = true -> Q a) -> reaches E fuel g q evs Q.
Proof.
  unfold reach_check, reaches. destruct (async_execute E g q) as [a0|]; [|done].
  destruct (asteps E fuel a0 evs) as [a|] eqn:Ea; [|done]. intros HP HQ. exists a0, a. split; [done|]. split; [done|auto].
Qed.
Definition ph_code (a : ast) : nat * option exn :=
  match a_ph a with ANew => (0, None) | AWait => (1, None) | AGather => (2, None) | AEnd (Ok _) => (3, None) | AEnd (Err e) => (4, Some e) end.
Lemma ph_code_gather a : ph_code a = (2, None) -> a_ph a = AGather.
Proof. unfold ph_code. destruct (a_ph a) as [| | |[|]]; done. Qed.
Lemma ph_code_err a e : ph_code a = (4, Some e) -> ended a (Err e).
Proof. unfold ph_code, ended. destruct (a_ph a) as [| | |[|]]; try done. by intros [= ->]. Qed.

#[local] Existing Instance ex_hasher.
(** The example: eight rounds, then the cancellation; at that point several calls are pending. *)
Definition ex_async : list aev := Enter :: map Report (take 3 sched2) ++ [Cancel].
Ltac checked := repeat match goal with
  | Hx : (_ && _) = true |- _ => apply andb_true_iff in Hx as [? ?]
  | Hx : bool_decide _ = true |- _ => apply bool_decide_eq_true_1 in Hx
  end.
Theorem C55_example : reaches (ex_env false) ex_fuel ex_graph ex_query ex_async
  (fun a => a_ph a = AGather /\ length (calls_made a) = 6 /\ a_asked a = [0; 1; 5] /\ a_gone a = []).
Proof.
  eapply (reach_by _ _ _ _ _ (fun a => bool_decide (ph_code a = (2, None)) && bool_decide (length (calls_made a) = 6) &&
    bool_decide (a_asked a = [0; 1; 5]) && bool_decide (a_gone a = []))).
  - vm_compute. reflexivity.
  - intros a Ha. checked. split; [by apply ph_code_gather|done].
Qed.
(** All tasks return in spite of the request: the execution ends with CancelledError. *)
Theorem C55_example_end : reaches (ex_env false) ex_fuel ex_graph ex_query
  (ex_async ++ [Finish 5 None; Cancel; Finish 0 None; Finish 1 None])
  (fun a => ended a (Err Cancelled) /\ a_gone a = [5; 0; 1]).
Proof.
  eapply (reach_by _ _ _ _ _ (fun a => bool_decide (ph_code a = (4, Some Cancelled)) && bool_decide (a_gone a = [5; 0; 1]))).
  - vm_compute. reflexivity.
  - intros a Ha. checked. split; [by apply ph_code_err|done].
Qed.

(** The execution may end while calls whose cancellation was requested are still running:
    [gather] ends with the first of them. *)
Theorem C55_tasks_ended_refuted : exists `(Hasher) E fuel g q evs,
  reaches E fuel g q evs (fun a => ended a (Err Cancelled) /\ exists n, n ∈ a_asked a /\ n ∉ a_gone a).
Proof.
  exists ex_hasher, (ex_env false), ex_fuel, ex_graph, ex_query, (ex_async ++ [Finish 1 (Some Cancelled)]).
  eapply (reach_by _ _ _ _ _ (fun a => bool_decide (ph_code a = (4, Some Cancelled)) && bool_decide (0 ∈ a_asked a) && bool_decide (0 ∉ a_gone a))).
  - vm_compute. reflexivity.
  - intros a Ha. checked. split; [by apply ph_code_err|]. by exists 0.
Qed.
(** Another exception may replace CancelledError. *)
Theorem C55_cancelled_error_refuted : exists `(Hasher) E fuel g q evs e,
  Cancel ∈ evs /\ e <> Cancelled /\ reaches E fuel g q evs (fun a => ended a (Err e)).
Proof.
  exists ex_hasher, (ex_env false), ex_fuel, ex_graph, ex_query, (ex_async ++ [Finish 0 None; Finish 1 (Some (UserErr 7))]), (UserErr 7).
  split; [apply elem_of_app; left; apply elem_of_cons; right; apply elem_of_app; right; left|]. split; [done|].
  eapply (reach_by _ _ _ _ _ (fun a => bool_decide (ph_code a = (4, Some (UserErr 7))))).
  - vm_compute. reflexivity.
  - intros a Ha. checked. by apply ph_code_err.
Qed.
(** The coroutine may be cancelled before it gets its first turn: the loaders were called
    already, and the cancellation of none of them is requested. *)
Theorem C55_not_awaited_refuted : exists `(Hasher) E fuel g q,
  reaches E fuel g q [Cancel] (fun a => ended a (Err Cancelled) /\ made a 0 /\ a_asked a = []).
Proof.
  exists ex_hasher, (ex_env false), ex_fuel, ex_graph, ex_query.
  eapply (reach_by _ _ _ _ _ (fun a => bool_decide (ph_code a = (4, Some Cancelled)) && bool_decide (0 < length (calls_made a)) && bool_decide (a_asked a = []))).
  - vm_compute. reflexivity.
  - intros a Ha. checked. split; [by apply ph_code_err|done].
Qed.
(** When a loader fails the execution ends with its exception, and the other calls are
    neither awaited nor cancelled. *)
Definition failing_env : env :=
  Env [] (fun n c => if Nat.eqb n 3 then Raise (UserErr 1) else oracle_of ex_data c) (fun f => (f =? 12)%N) (fun _ _ _ _ => Err KeyError) false.
Theorem C55_failure_leaves_calls_refuted : exists `(Hasher) E fuel g q evs n,
  n ∉ reported evs /\
  reaches E fuel g q evs (fun a => ended a (Err (UserErr 1)) /\ made a n /\ n ∉ a_asked a).
Proof.
  exists ex_hasher, failing_env, ex_fuel, ex_graph, ex_query, [Enter; Report [3]], 0.
  split; [apply (bool_decide_unpack _); vm_compute; exact I|].
  eapply (reach_by _ _ _ _ _ (fun a => bool_decide (ph_code a = (4, Some (UserErr 1))) && bool_decide (0 < length (calls_made a)) && bool_decide (0 ∉ a_asked a))).
  - vm_compute. reflexivity.
  - intros a Ha. checked. split; [by apply ph_code_err|done].
Qed.
(** A loader which was cancelled by somebody else cancels the others. *)
Definition cancelling_env : env :=
  Env [] (fun n c => if Nat.eqb n 3 then Raise Cancelled else oracle_of ex_data c) (fun f => (f =? 12)%N) (fun _ _ _ _ => Err KeyError) false.
Theorem C55_cancelled_loader_example :
  reaches cancelling_env ex_fuel ex_graph ex_query [Enter; Report [2; 3]] (fun a => a_ph a = AGather /\ a_asked a = [0; 1; 4]).
Proof.
  eapply (reach_by _ _ _ _ _ (fun a => bool_decide (ph_code a = (2, None)) && bool_decide (a_asked a = [0; 1; 4]))).
  - vm_compute. reflexivity.
  - intros a Ha. checked. split; [by apply ph_code_gather|done].
Qed.
(** A result, after all calls have ended. *)
Theorem C55_result_example : reaches (ex_env false) ex_fuel ex_graph ex_query (Enter :: map Report sched2)
  (fun a => (exists v, ended a (Ok v)) /\ length (calls_made a) = length (concat sched2) /\ 6 < length (calls_made a)).
Proof.
  eapply (reach_by _ _ _ _ _ (fun a => bool_decide (ph_code a = (3, None)) && bool_decide (length (calls_made a) = length (concat sched2)) &&
    bool_decide (6 < length (calls_made a)))).
  - vm_compute. reflexivity.
  - intros a Ha. checked. split; [|done]. revert H. unfold ph_code, ended. destruct (a_ph a) as [| | |[v|]] eqn:Ep; try done. intros _. by exists v.
Qed.

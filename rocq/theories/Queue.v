(** hiku/executors/queue.py: the task queue, and the executors' loops
    (sync.py:15-18, threads.py:12-16, asyncio.py:19-30). *)
From Verif Require Export Base.

(** Futures and task sets are numbered in the order of their creation. *)
Inductive ckey : Set := KF (f : nat) | KT (t : nat).
Global Instance ckey_eq_dec : EqDecision ckey.
Proof. solve_decision. Defined.

(** Ghost history of the queue: not part of the code, only observed by theorems. *)
Inductive qev (C : Type) : Type :=
| EvSubmit (ts fut : nat)
| EvFork (parent : option nat) (ts : nat)
| EvAdd (k : ckey) (c : C)
| EvDone (fut : nat)              (* its callbacks are about to be popped *)
| EvFire (k : ckey) (c : C)       (* a callback is about to run *)
| EvComplete (ts : nat).          (* the task set is removed *)
Arguments EvSubmit {C}. Arguments EvFork {C}. Arguments EvAdd {C}.
Arguments EvDone {C}. Arguments EvFire {C}. Arguments EvComplete {C}.

(** queue.py:22-26 *)
Record queue (C : Type) := MkQ {
  q_futs : dict nat (list nat);
  q_forks : dict nat (list nat);
  q_cbs : dict ckey (list C);
  q_nfut : nat;
  q_nts : nat;
  q_trace : list (qev C);
}.
Arguments MkQ {C}. Arguments q_futs {C}. Arguments q_forks {C}. Arguments q_cbs {C}.
Arguments q_nfut {C}. Arguments q_nts {C}. Arguments q_trace {C}.

Section queue.
  Context {C W : Type}.
  Notation queue := (queue C).

  Definition q_empty : queue := MkQ [] [] [] 0 0 [].

  (** queue.py:55-58 [submit], without the call of the executor *)
  Definition q_submit (ts : nat) (q : queue) : res (nat * queue) :=
    match dget ts (q_futs q) with
    | None => Err KeyError
    | Some l =>
        let f := q_nfut q in
        Ok (f, MkQ (dset ts (l ++ [f]) (q_futs q)) (q_forks q) (q_cbs q) (S f) (q_nts q)
                   (q_trace q ++ [EvSubmit ts f]))
    end.

  (** queue.py:60-66 [fork] *)
  Definition q_fork (from : option nat) (q : queue) : res (nat * queue) :=
    let t := q_nts q in
    let futs := dset t [] (q_futs q) in
    let forks := dset t [] (q_forks q) in
    match from with
    | None => Ok (t, MkQ futs forks (q_cbs q) (q_nfut q) (S t) (q_trace q ++ [EvFork None t]))
    | Some p =>
        match dget p forks with
        | None => Err KeyError
        | Some l => Ok (t, MkQ futs (dset p (l ++ [t]) forks) (q_cbs q) (q_nfut q) (S t)
                               (q_trace q ++ [EvFork (Some p) t]))
        end
    end.

  (** queue.py:68-69 [add_callback] *)
  Definition q_add (k : ckey) (c : C) (q : queue) : queue :=
    MkQ (q_futs q) (q_forks q) (dappend k c (q_cbs q)) (q_nfut q) (q_nts q) (q_trace q ++ [EvAdd k c]).

  Definition q_emit (e : qev C) (q : queue) : queue :=
    MkQ (q_futs q) (q_forks q) (q_cbs q) (q_nfut q) (q_nts q) (q_trace q ++ [e]).

  (** [self._callbacks.pop(k, [])] *)
  Definition q_pop (k : ckey) (q : queue) : list C * queue :=
    (match dget k (q_cbs q) with Some l => l | None => [] end,
     MkQ (q_futs q) (q_forks q) (ddel k (q_cbs q)) (q_nfut q) (q_nts q) (q_trace q)).

  (** queue.py:33-34 *)
  Definition q_difference (done : list nat) (q : queue) : queue :=
    MkQ (map (fun p => (p.1, List.filter (fun f => negb (bool_decide (f ∈ done))) p.2)) (q_futs q))
        (q_forks q) (q_cbs q) (q_nfut q) (q_nts q) (q_trace q).

  (** queue.py:50-53 *)
  Definition q_complete (t : nat) (q : queue) : queue :=
    MkQ (ddel t (q_futs q))
        (map (fun p => (p.1, List.filter (fun x => negb (Nat.eqb x t)) p.2)) (ddel t (q_forks q)))
        (q_cbs q) (q_nfut q) (q_nts q) (q_trace q ++ [EvComplete t]).

  (** queue.py:28-30 [__futures__] *)
  Definition q_futures (q : queue) : list nat := concat (map snd (q_futs q)).

  (** queue.py:41-43.  [self._forks[ts]] always has the keys of [self._futures]; a missing
      key (KeyError in Python) is proved impossible in QueueProof.v. *)
  Definition q_completed (q : queue) : list nat :=
    map fst (List.filter (fun p => match p.2 with [] => true | _ => false end
                         && match dget p.1 (q_forks q) with Some [] => true | _ => false end) (q_futs q)).

  (** What a callback does to the world and to the queue: an arbitrary function. *)
  Variable run : C -> W * queue -> res (W * queue).

  Definition fire (k : ckey) (x : W * queue) (c : C) : res (W * queue) :=
    run c (x.1, q_emit (EvFire k c) x.2).

  (** queue.py:36-38, one future *)
  Definition fire_fut (x : W * queue) (f : nat) : res (W * queue) :=
    let '(cs, q) := q_pop (KF f) (q_emit (EvDone f) x.2) in
    foldR (fire (KF f)) (x.1, q) cs.

  (** queue.py:47-53, one completed task set *)
  Definition fire_ts (x : W * queue) (t : nat) : res (W * queue) :=
    let '(cs, q) := q_pop (KT t) x.2 in
    match foldR (fire (KT t)) (x.1, q) cs with
    | Ok y => Ok (y.1, q_complete t y.2)
    | Err e => Err e
    end.

  (** queue.py:40-53, the [while True] loop *)
  Fixpoint complete_loop (fuel : nat) (x : W * queue) : res (W * queue) :=
    match q_completed x.2 with
    | [] => Ok x
    | ts => match fuel with
            | O => Err OutOfFuel
            | S k => match foldR fire_ts x ts with Ok y => complete_loop k y | Err e => Err e end
            end
    end.

  (** queue.py:32-53 [progress] *)
  Definition progress (fuel : nat) (done : list nat) (x : W * queue) : res (W * queue) :=
    match foldR fire_fut (x.1, q_difference done x.2) done with
    | Ok y => complete_loop fuel y
    | Err e => Err e
    end.

  (** The executors call [progress] with some of the pending futures while there are any
      (sync: all of them; threads and asyncio: those finished first). A run is the list of
      the reported sets; it is admissible when each set is a non-empty duplicate-free list of
      pending futures. *)
  Inductive executes (fuel : nat) : list (list nat) -> W * queue -> res (W * queue) -> Prop :=
  | ex_stop x : q_futures x.2 = [] -> executes fuel [] x (Ok x)
  | ex_fail done x e :
      done <> [] -> NoDup done -> (forall f, f ∈ done -> f ∈ q_futures x.2) ->
      progress fuel done x = Err e -> executes fuel [done] x (Err e)
  | ex_step done sched x y r :
      done <> [] -> NoDup done -> (forall f, f ∈ done -> f ∈ q_futures x.2) ->
      progress fuel done x = Ok y -> executes fuel sched y r ->
      executes fuel (done :: sched) x r.
End queue.

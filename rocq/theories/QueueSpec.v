(** Specification vocabulary for the task queue: programs which use its public operations,
    the discipline they have to follow, and the history of what happened. *)
From Verif Require Import Base Queue.

Section spec.
  Context {C : Type}.
  Notation queue := (queue C).

  (** The operations a callback may perform on the queue. *)
  Inductive qop := OSubmit (t : nat) | OFork (p : option nat) | OAdd (k : ckey) (c : C).
  Definition apply_op (q : queue) (o : qop) : res queue :=
    match o with
    | OSubmit t => match q_submit t q with Ok p => Ok p.2 | Err e => Err e end
    | OFork p => match q_fork p q with Ok p => Ok p.2 | Err e => Err e end
    | OAdd k c => Ok (q_add k c q)
    end.

  (** [uses A q q']: a sequence of operations, each permitted by [A], leads from [q] to [q']. *)
  Inductive uses (A : queue -> qop -> Prop) : queue -> queue -> Prop :=
  | uses_nil q : uses A q q
  | uses_op q o q1 q2 : A q o -> apply_op q o = Ok q1 -> uses A q1 q2 -> uses A q q2.

  (** A task set still has unfinished futures or forks. *)
  Definition busy (q : queue) (t : nat) : Prop :=
    (exists f l, dget t (q_futs q) = Some (f :: l)) \/ (exists f l, dget t (q_forks q) = Some (f :: l)).
  Definition alive (q : queue) (t : nat) : Prop := t ∈ dkeys (q_futs q).

  (** The discipline.  [lim = None]: initial code and callbacks of futures may use every task
      set which exists.  [lim = Some n]: callbacks of a task set may only use task sets which
      still have unfinished work, or those they have created ([n] is the number of the first
      task set created by the callback).  Callbacks are added to unfinished futures and to
      usable task sets only. *)
  Definition usable (lim : option nat) (q : queue) (t : nat) : Prop :=
    alive q t /\ match lim with None => True | Some n => n <= t \/ busy q t end.
  Definition disciplined (lim : option nat) (q : queue) (o : qop) : Prop :=
    match o with
    | OSubmit t => usable lim q t
    | OFork None => True
    | OFork (Some p) => usable lim q p
    | OAdd (KF f) _ => f ∈ q_futures q
    | OAdd (KT t) _ => usable lim q t
    end.
  Definition lim_of (k : ckey) (q : queue) : option nat :=
    match k with KF _ => None | KT _ => Some (q_nts q) end.

  (** Callbacks added and fired under a key, in order. *)
  Definition added (k : ckey) (tr : list (qev C)) : list C :=
    omap (fun e => match e with EvAdd k' c => if decide (k = k') then Some c else None | _ => None end) tr.
  Definition fired (k : ckey) (tr : list (qev C)) : list C :=
    omap (fun e => match e with EvFire k' c => if decide (k = k') then Some c else None | _ => None end) tr.
  Definition pending (k : ckey) (q : queue) : list C :=
    match dget k (q_cbs q) with Some l => l | None => [] end.

  (** In the history [tr], callbacks fire only when what they wait for is finished. *)
  Definition fires_after_completion (tr : list (qev C)) : Prop :=
    (forall t1 t2 f c, tr = t1 ++ EvFire (KF f) c :: t2 -> EvDone f ∈ t1) /\
    (forall t1 t2 t c, tr = t1 ++ EvFire (KT t) c :: t2 ->
       (forall f, EvSubmit t f ∈ t1 -> EvDone f ∈ t1) /\
       (forall t', EvFork (Some t) t' ∈ t1 -> EvComplete t' ∈ t1)).

  Context {W : Type}.
  (** Every callback only uses the public operations ... *)
  Definition api_program (run : C -> W * queue -> res (W * queue)) : Prop :=
    forall c x y, run c x = Ok y -> uses (fun _ _ => True) x.2 y.2.
  (** ... and follows the discipline. *)
  Definition disciplined_program (run : C -> W * queue -> res (W * queue)) : Prop :=
    forall k c w q y, run c (w, q_emit (EvFire k c) q) = Ok y ->
      uses (disciplined (lim_of k q)) (q_emit (EvFire k c) q) y.2.
End spec.

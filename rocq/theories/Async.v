(** hiku/executors/asyncio.py: the asyncio executor as seen by the event loop, with
    cancellation.

    Modelled: [process] (lines 19-30), a coroutine which is suspended at its two [await]s,
    and the tasks made by [submit] (line 17).  [asyncio.wait], [Task.cancel] and
    [asyncio.gather] (without [return_exceptions]) are modelled after their documentation:
    [wait] returns when some of the tasks are finished; [Task.cancel] only requests
    cancellation, and the task may end in any way afterwards; [gather] ends with the first
    exception of a task, or when all of them have returned.
    Simplifications: what happens between a wake-up of the coroutine and its resumption is
    not modelled (a cancellation which arrives there behaves as one that arrived earlier);
    [submit] never gets a non-awaitable (lines 14-16). *)
From Verif Require Import Base Val Query Graph Queue Result Engine.

(** asyncio.CancelledError.  Exceptions which hiku does not raise itself are [UserErr n];
    this one is number 0. *)
Definition Cancelled : exn := UserErr 0.

(** ** queue.py:32-53 [progress], with the state in which it is left by an exception.
    A callback which raises does so before it changes anything (the exceptions that matter
    here come out of [fut.result()], engine.py:347-350, and of compiled expressions). *)
Section left.
  Context {A X : Type} (f : X -> A -> X * option exn).
  Fixpoint foldX (x : X) (l : list A) : X * option exn :=
    match l with
    | [] => (x, None)
    | a :: l => match f x a with (y, None) => foldX y l | r => r end
    end.
End left.
Section progress.
  Context {C W : Type} (run : C -> W * queue C -> res (W * queue C)).
  Notation st := (W * queue C)%type.

  Definition fireX (k : ckey) (x : st) (c : C) : st * option exn :=
    match fire run k x c with Ok y => (y, None) | Err e => (x, Some e) end.
  (** queue.py:36-38 *)
  Definition fire_futX (x : st) (f : nat) : st * option exn :=
    let '(cs, q) := q_pop (KF f) (q_emit (EvDone f) x.2) in foldX (fireX (KF f)) (x.1, q) cs.
  (** queue.py:47-53 *)
  Definition fire_tsX (x : st) (t : nat) : st * option exn :=
    let '(cs, q) := q_pop (KT t) x.2 in
    match foldX (fireX (KT t)) (x.1, q) cs with
    | (y, None) => ((y.1, q_complete t y.2), None)
    | r => r
    end.
  (** queue.py:40-53 *)
  Fixpoint loopX (fuel : nat) (x : st) : st * option exn :=
    match q_completed x.2 with
    | [] => (x, None)
    | ts => match fuel with
            | O => (x, Some OutOfFuel)
            | S k => match foldX fire_tsX x ts with (y, None) => loopX k y | r => r end
            end
    end.
  Definition progressX (fuel : nat) (done : list nat) (x : st) : st * option exn :=
    match foldX fire_futX (x.1, q_difference done x.2) done with
    | (y, None) => loopX fuel y
    | r => r
    end.
End progress.

(** ** The coroutine [process] *)
(** What the event loop does: it starts the coroutine (it is awaited, or its task gets its
    first turn), resumes it because the tasks [done] are finished, cancels it, or a task
    whose cancellation was requested ends: it returns, or raises. *)
Inductive aev := Enter | Report (done : list nat) | Cancel | Finish (n : nat) (raised : option exn).

(** Where the coroutine is: not started, in [await wait(...)] (line 22), in
    [await gather(...)] (line 29), or ended. *)
Inductive aph := ANew | AWait | AGather | AEnd (r : res (index * qnode)).

(** The engine's state; the phase; the tasks whose cancellation was requested; those of them
    which have ended since. *)
Record ast := Ast { a_st : st; a_ph : aph; a_asked : list nat; a_gone : list nat }.

Section machine.
  Context `{Hasher} (E : env) (fuel : nat).

  (** [workflow.result()], line 25 (engine.py:296-298) *)
  Definition wf_result (x : st) : res (index * qnode) :=
    match w_wfs x.1 !! 0 with Some v => Ok (wf_index v, wf_query v) | None => Err KeyError end.
  (** lines 21-25: the test of the [while] loop *)
  Definition test_loop (x : st) : ast :=
    match q_futures x.2 with
    | [] => Ast x (AEnd (wf_result x)) [] []
    | _ => Ast x AWait [] []
    end.
  (** lines 26-30 *)
  Definition clean_up (x : st) : ast :=
    match q_futures x.2 with
    | [] => Ast x (AEnd (Err Cancelled)) [] []
    | fs => Ast x AGather fs []
    end.

  (** [None]: the event cannot happen in this state. *)
  Definition astep (a : ast) (ev : aev) : option ast :=
    match ev, a_ph a with
    | Enter, ANew => Some (test_loop (a_st a))
    | Cancel, ANew => Some (Ast (a_st a) (AEnd (Err Cancelled)) [] [])
    | Report done, AWait =>
        if bool_decide (done <> [] /\ NoDup done /\ Forall (fun f => f ∈ q_futures (a_st a).2) done) then
          match progressX (run_cb E) fuel done (a_st a) with
          | (x, None) => Some (test_loop x)
          | (x, Some e) => if bool_decide (e = Cancelled) then Some (clean_up x)
                           else Some (Ast x (AEnd (Err e)) [] [])
          end
        else None
    | Cancel, AWait => Some (clean_up (a_st a))
    | Cancel, AGather => Some a     (* requests the same cancellations once more *)
    | Finish n o, AGather =>
        if bool_decide (n ∈ a_asked a /\ n ∉ a_gone a) then
          let gone := a_gone a ++ [n] in
          match o with
          | Some e => Some (Ast (a_st a) (AEnd (Err e)) (a_asked a) gone)
          | None => if bool_decide (Forall (fun f => f ∈ gone) (a_asked a))
                    then Some (Ast (a_st a) (AEnd (Err Cancelled)) (a_asked a) gone)  (* line 30 *)
                    else Some (Ast (a_st a) AGather (a_asked a) gone)
          end
        else None
    | _, _ => None
    end.
  Fixpoint asteps (a : ast) (evs : list aev) : option ast :=
    match evs with
    | [] => Some a
    | ev :: evs => match astep a ev with Some b => asteps b evs | None => None end
    end.

  (** engine.py:423-431 with this executor: loaders are called and their tasks created
      before [process] is called; the coroutine is returned to the user. *)
  Definition async_execute (g : graph) (q : qnode) : res ast :=
    match start E g q with Ok x => Ok (Ast x ANew [] []) | Err e => Err e end.
End machine.

(** ** Specification vocabulary *)
(** The tasks whose end was reported to the coroutine. *)
Definition reported (evs : list aev) : list nat :=
  concat (omap (fun ev => match ev with Report d => Some d | _ => None end) evs).
(** The loader calls which were made. *)
Definition calls_made (a : ast) : list call := w_log (a_st a).1.
(** The number of a call which was made. *)
Definition made (a : ast) (n : nat) : Prop := n < length (calls_made a).
(** The coroutine has ended, with this outcome. *)
Definition ended (a : ast) (r : res (index * qnode)) : Prop := a_ph a = AEnd r.

(** Theorems about the task queue (C14, C15): hiku/executors/queue.py. *)
From stdpp Require Import relations.
From Verif Require Import Base Queue QueueSpec QueueProof.

Section thms.
  Context {C W : Type} (run : C -> W * queue C -> res (W * queue C)).

  (** C14: whatever the callbacks do with the queue, and whatever the schedule, at the end the
      callbacks registered under a key are, in registration order, those which were fired
      followed by those still registered: none is fired twice, skipped or reordered. *)
  Theorem C14_exactly_once_in_order (A : queue C -> qop -> Prop) fuel sched (x y : W * queue C) :
    api_program run -> uses A q_empty x.2 -> executes run fuel sched x (Ok y) ->
    forall k, added k (q_trace y.2) = fired k (q_trace y.2) ++ pending k y.2.
  Proof.
    intros Hapi Hu He k. apply executes_steps in He as [Hr _].
    pose proof (once_uses _ _ _ _ Hu once_empty) as H0.
    destruct (once_rtc run _ _ Hapi Hr H0) as [_ H1]. by apply H1.
  Qed.

  Lemma disc_good : disciplined_program run -> forall a, cfg_good run a.
  Proof.
    intros Hd [[w q] p]. unfold cfg_good; simpl. destruct (phase_cur p) as [[k [|c cs]]|]; try done.
    intros y Hf. unfold fire in Hf; simpl in Hf. by apply Hd in Hf.
  Qed.

  (** C14: callbacks of a future fire after it was reported as done; callbacks of a task set
      fire only when all its futures are done and all the sets forked from it complete. *)
  Theorem C14_fires_after_completion fuel sched (x y : W * queue C) :
    disciplined_program run -> uses (disciplined None) q_empty x.2 ->
    executes run fuel sched x (Ok y) -> fires_after_completion (q_trace y.2).
  Proof.
    intros Hd Hu He. apply executes_steps in He as [Hr _].
    destruct (disc_uses _ _ _ _ _ _ Hu disc_empty) as [H0 _]; [done|].
    assert (cfg_disc (x, PIdle)) as Hc by by split.
    eapply disc_rtc in Hc; [|intros; by apply disc_good|exact Hr].
    destruct Hc as [Hc _]. apply Hc.
  Qed.

  (** C15: when the executor stops after at least one round, nothing is left in the queue. *)
  Theorem C15_drained fuel sched (x y : W * queue C) :
    disciplined_program run -> uses (disciplined None) q_empty x.2 ->
    executes run fuel sched x (Ok y) -> sched <> [] ->
    q_futs y.2 = [] /\ q_forks y.2 = [] /\ q_cbs y.2 = [].
  Proof.
    intros Hd Hu He Hs. pose proof (executes_idle _ _ _ _ _ He Hs) as Hi.
    apply executes_steps in He as [Hr Hf].
    destruct (disc_uses _ _ _ _ _ _ Hu disc_empty) as [H0 _]; [done|].
    assert (cfg_disc (x, PIdle)) as Hc by by split.
    eapply disc_rtc in Hc; [|intros; by apply disc_good|exact Hr].
    destruct Hc as [Hc _]. by apply drained.
  Qed.

  Lemma disc_api : disciplined_program run ->
    forall k c w q y, run c (w, q_emit (EvFire k c) q) = Ok y ->
      uses (fun _ _ => True) (q_emit (EvFire k c) q) y.2.
  Proof.
    intros Hd k c w q y Hr. apply Hd in Hr. induction Hr; econstructor; eauto.
  Qed.

  (** C15: so every registered callback has run, exactly once and in order. *)
  Theorem C15_all_fired fuel sched (x y : W * queue C) :
    api_program run -> disciplined_program run -> uses (disciplined None) q_empty x.2 ->
    executes run fuel sched x (Ok y) -> sched <> [] ->
    forall k, fired k (q_trace y.2) = added k (q_trace y.2).
  Proof.
    intros Ha Hd Hu He Hs k. rewrite (C14_exactly_once_in_order _ _ _ _ _ Ha Hu He).
    destruct (C15_drained _ _ _ _ Hd Hu He Hs) as (_ & _ & Hc).
    unfold pending. rewrite Hc. simpl. by rewrite app_nil_r.
  Qed.

  (** C14: the futures reported as done are exactly those of the schedule, each once. *)
  Definition dones (tr : list (qev C)) : list nat :=
    omap (fun e => match e with EvDone f => Some f | _ => None end) tr.
  Lemma dones_app t1 t2 : dones (t1 ++ t2) = dones t1 ++ dones t2.
  Proof. unfold dones. by rewrite omap_app. Qed.
  Lemma uses_dones A q q' : uses A q q' -> dones (q_trace q') = dones (q_trace q).
  Proof.
    induction 1 as [q|q o q1 q2 _ Ho _ IH]; [done|]. rewrite IH. clear IH.
    destruct o as [t|p|k c]; simpl in Ho.
    - unfold q_submit in Ho. destruct (dget t _); simplify_eq/=. rewrite dones_app. simpl. by rewrite app_nil_r.
    - unfold q_fork in Ho. destruct p as [p|]; [destruct (dget p _)|]; simplify_eq/=; rewrite dones_app; simpl; by rewrite app_nil_r.
    - simplify_eq/=. rewrite dones_app. simpl. by rewrite app_nil_r.
  Qed.
  Lemma dones_fire k cs : api_program run -> forall x y,
    foldR (fire run k) x cs = Ok y -> dones (q_trace y.2) = dones (q_trace x.2).
  Proof.
    intros Ha. induction cs as [|c cs IH]; intros x y; simpl; [by intros [= <-]|].
    destruct (fire run k x c) as [z|] eqn:Ez; [|done]. intros Hy. rewrite (IH _ _ Hy).
    unfold fire in Ez. apply Ha in Ez. simpl in Ez. rewrite (uses_dones _ _ _ Ez). simpl. rewrite dones_app.
    simpl. by rewrite app_nil_r.
  Qed.
  Lemma dones_ts ts : api_program run -> forall x y,
    foldR (fire_ts run) x ts = Ok y -> dones (q_trace y.2) = dones (q_trace x.2).
  Proof.
    intros Ha. induction ts as [|t ts IH]; intros x y; simpl; [by intros [= <-]|].
    destruct (fire_ts run x t) as [z|] eqn:Ez; [|done]. intros Hy. rewrite (IH _ _ Hy).
    unfold fire_ts in Ez. destruct (q_pop _ _) as [cs q] eqn:Ep. unfold q_pop in Ep. simplify_eq.
    destruct (foldR _ _ _) as [w|] eqn:Ew; simplify_eq/=. rewrite dones_app; simpl. rewrite app_nil_r.
    by rewrite (dones_fire _ _ Ha _ _ Ew).
  Qed.
  Lemma dones_loop fuel : api_program run -> forall x y,
    complete_loop run fuel x = Ok y -> dones (q_trace y.2) = dones (q_trace x.2).
  Proof.
    intros Ha. induction fuel as [|k IH]; intros x y; simpl; destruct (q_completed x.2) as [|t ts] eqn:Ec;
      try by intros [= <-].
    destruct (foldR (fire_ts run) x (t :: ts)) as [z|] eqn:Ez; simpl in Ez; rewrite Ez; [|done].
    intros Hy. rewrite (IH _ _ Hy). by apply (dones_ts (t :: ts) Ha).
  Qed.
  Lemma dones_futs d : api_program run -> forall x y,
    foldR (fire_fut run) x d = Ok y -> dones (q_trace y.2) = dones (q_trace x.2) ++ d.
  Proof.
    intros Ha. induction d as [|f d IH]; intros x y; simpl; [intros [= <-]; by rewrite app_nil_r|].
    destruct (fire_fut run x f) as [z|] eqn:Ez; [|done]. intros Hy. rewrite (IH _ _ Hy).
    unfold fire_fut in Ez. destruct (q_pop _ _) as [cs q] eqn:Ep. unfold q_pop in Ep. simplify_eq.
    rewrite (dones_fire _ _ Ha _ _ Ez). simpl. rewrite dones_app. simpl. by rewrite <-app_assoc.
  Qed.
  Theorem C14_reported_futures fuel sched (x y : W * queue C) :
    api_program run -> executes run fuel sched x (Ok y) ->
    dones (q_trace y.2) = dones (q_trace x.2) ++ concat sched.
  Proof.
    intros Ha He. remember (Ok y) as r eqn:Er. revert y Er.
    induction He as [x Hx|dn x e H1 H2 H3 Hp|dn sched x z r H1 H2 H3 Hp He IH]; intros y Er.
    - simplify_eq. simpl. by rewrite app_nil_r.
    - done.
    - rewrite (IH _ Er). simpl. rewrite app_assoc. f_equal.
      unfold progress in Hp. destruct (foldR _ _ _) as [w|] eqn:Ew; [|done].
      rewrite (dones_loop _ Ha _ _ Hp). by rewrite (dones_futs _ Ha _ _ Ew).
  Qed.
End thms.

(** Non-vacuity: a program with two futures, a forked set and callbacks on all of them. *)
Definition ex_run (c : nat) (x : unit * queue nat) : res (unit * queue nat) :=
  match c with
  | 0 => Ok x
  | 1 => (* a callback which forks a set, submits to it and waits for it *)
      match q_fork (Some 0) x.2 with
      | Ok (t, q) => match q_submit t q with
                     | Ok (f, q) => Ok (x.1, q_add (KT t) 0 (q_add (KF f) 0 q))
                     | Err e => Err e end
      | Err e => Err e
      end
  | _ => Err (UserErr 0)
  end.
Definition ex_q0 : res (queue nat) :=
  match q_fork None q_empty with
  | Ok (t, q) => match q_submit t q with
                 | Ok (f, q) => match q_submit t q with
                                | Ok (f2, q) => Ok (q_add (KF f) 1 (q_add (KF f) 0 q))
                                | Err e => Err e end
                 | Err e => Err e end
  | Err e => Err e
  end.
Example ex_queue_runs : exists q, ex_q0 = Ok q /\
  exists y, executes ex_run 5 [[0]; [2]; [1]] (tt, q) (Ok y) /\
    fired (KF 0) (q_trace y.2) = [0; 1] /\ fired (KT 1) (q_trace y.2) = [0].
Proof.
  eexists. split; [vm_compute; reflexivity|]. eexists. split.
  - eapply ex_step; [discriminate| apply NoDup_singleton | intros f ->%elem_of_list_singleton; left | vm_compute; reflexivity |].
    eapply ex_step; [discriminate| apply NoDup_singleton | intros f ->%elem_of_list_singleton; right; left | vm_compute; reflexivity |].
    eapply ex_step; [discriminate| apply NoDup_singleton | intros f ->%elem_of_list_singleton; left | vm_compute; reflexivity |].
    by apply ex_stop.
  - by split.
Qed.
(** The program is not disciplined in every state, but a variant which checks that set 0 still
    has work, as the engine's callbacks do by construction, is. *)
Definition ex_run_d (c : nat) (x : unit * queue nat) : res (unit * queue nat) :=
  match c with
  | 0 => Ok x
  | 1 => match dget 0 (q_futs x.2) with
         | Some (_ :: _) => ex_run 1 x
         | _ => Err (UserErr 1)
         end
  | _ => Err (UserErr 0)
  end.
Example ex_disciplined : disciplined_program ex_run_d /\ api_program ex_run_d.
Proof.
  assert (forall lim c x y, (match lim with None => True | Some n => n <= q_nts x.2 end) ->
    ex_run_d c x = Ok y -> uses (disciplined lim) x.2 y.2) as Hd.
  { intros lim c [w q] y Hl Hr. unfold ex_run_d, ex_run in Hr. cbn [fst snd] in *.
    destruct c as [|[|c]]; [simplify_eq; constructor| |done].
    destruct (dget 0 (q_futs q)) as [[|f l]|] eqn:E0; try done.
    destruct (q_fork (Some 0) q) as [[t q1]|] eqn:E1; [|done].
    destruct (q_submit t q1) as [[f1 q2]|] eqn:E2; simplify_eq/=.
    assert (usable lim q 0) as Hu.
    { split; [apply dget_is_Some; eauto|]. destruct lim; [right; left; eauto|done]. }
    unfold q_fork in E1. destruct (dget 0 (dset (q_nts q) [] (q_forks q))) as [fl|] eqn:E3; simplify_eq/=.
    unfold q_submit in E2; simpl in E2. rewrite dget_dset_eq in E2. simplify_eq/=.
    eapply (uses_op _ _ (OFork (Some 0))); [exact Hu|simpl; unfold q_fork; by rewrite E3|].
    eapply (uses_op _ _ (OSubmit (q_nts q))).
    { split; [unfold alive; simpl; rewrite <-dget_is_Some, dget_dset_eq; eauto|]. destruct lim; [by left|done]. }
    { simpl. unfold q_submit; simpl. by rewrite dget_dset_eq. }
    eapply (uses_op _ _ (OAdd (KF (q_nfut q)) 0)); [|reflexivity|].
    { simpl. unfold q_futures; simpl. apply elem_of_list_In, in_concat. exists [q_nfut q].
      split; [|by left]. apply elem_of_list_In, elem_of_list_fmap. exists (q_nts q, [q_nfut q]). split; [done|].
      apply dget_Some_elem. by rewrite dget_dset_eq. }
    eapply (uses_op _ _ (OAdd (KT (q_nts q)) 0)); [|reflexivity|constructor].
    split; [unfold alive; simpl; rewrite <-dget_is_Some, dget_dset_eq; eauto|]. destruct lim; [by left|done]. }
  split.
  - intros k c w q y Hr. apply (Hd (lim_of k q)) in Hr; [exact Hr|]. destruct k; simpl; [done|lia].
  - intros c x y Hr. apply (Hd None) in Hr; [|done]. induction Hr; econstructor; eauto.
Qed.

(** C15 fails for programs which do not follow the discipline: a callback of a task set which
    submits to that same set loses the new future together with its callbacks. *)
Definition lossy_run (c : nat) (x : unit * queue nat) : res (unit * queue nat) :=
  match c with
  | 1 => match q_submit 0 x.2 with
         | Ok (f, q) => Ok (x.1, q_add (KF f) 2 q)
         | Err e => Err e end
  | _ => Ok x
  end.
Definition lossy_q : queue nat := MkQ [(0, [0])] [(0, [])] [(KT 0, [1])] 1 1 [EvFork None 0; EvSubmit 0 0; EvAdd (KT 0) 1].
Theorem C15_undisciplined_refuted :
  exists (run : nat -> unit * queue nat -> res (unit * queue nat)) x y,
    api_program run /\ uses (disciplined None) q_empty x.2 /\ executes run 5 [[0]] x (Ok y) /\
    added (KF 1) (q_trace y.2) = [2] /\ fired (KF 1) (q_trace y.2) = [].
Proof.
  exists lossy_run, (tt, lossy_q). eexists. split; [|split; [|split]].
  - intros c [w q] y. unfold lossy_run; simpl. destruct c as [|[|c]]; try (intros [= <-]; constructor).
    destruct (q_submit 0 q) as [[f q1]|] eqn:E; [|done]. intros [= <-]. simpl.
    eapply (uses_op _ _ (OSubmit 0)); [done|simpl; by rewrite E|].
    eapply (uses_op _ _ (OAdd (KF f) 2)); [done|done|constructor].
  - simpl. eapply (uses_op _ _ (OFork None)); [done|vm_compute; reflexivity|].
    eapply (uses_op _ _ (OSubmit 0)); [split; [left|done]|vm_compute; reflexivity|].
    eapply (uses_op _ _ (OAdd (KT 0) 1)); [split; [left|done]|vm_compute; reflexivity|].
    constructor.
  - eapply ex_step; [discriminate| apply NoDup_singleton | intros f ->%elem_of_list_singleton; left | vm_compute; reflexivity |].
    by apply ex_stop.
  - by split.
Qed.

Print Assumptions C14_exactly_once_in_order.
Print Assumptions C14_fires_after_completion.
Print Assumptions C14_reported_futures.
Print Assumptions C15_drained.
Print Assumptions C15_all_fired.
Print Assumptions C15_undisciplined_refuted.

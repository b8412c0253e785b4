(** C55: cancellation of executions by the asyncio executor (hiku/executors/asyncio.py). *)
From stdpp Require Import relations.
From Verif Require Import Base Val Query Graph Queue QueueSpec QueueProof PropQueue Result Engine EngineSpec EngineApi EngineDisc PropTrace PropBound Async AsyncProof.

Section props.
  Context `{Hasher} (E : env) (fuel : nat) (g : graph) (q : qnode).
  Notation steps := (asteps E fuel).

  Lemma asteps_app a l1 l2 : steps a (l1 ++ l2) = match steps a l1 with Some b => steps b l2 | None => None end.
  Proof. revert a. induction l1 as [|ev l1 IH]; intros a; cbn [asteps app]; [done|]. destruct (astep E fuel a ev); [apply IH|done]. Qed.
  Lemma reported_snoc evs ev : reported (evs ++ [ev]) = reported evs ++ match ev with Report d => d | _ => [] end.
  Proof.
    unfold reported. rewrite omap_app, concat_app. f_equal. destruct ev; cbn; by rewrite ?app_nil_r.
  Qed.
  Lemma reported_reports sched : reported (Enter :: map Report sched) = concat sched.
  Proof.
    unfold reported. cbn. induction sched as [|d l IH]; [done|]. cbn. by rewrite IH.
  Qed.

  (** What is known about the states of an execution *)
  Record winv (x : st) (evs : list aev) (y : st) : Prop := {
    wi_inv : ainv E (y, PIdle) (reported evs);
    wi_evs : exists sched, evs = Enter :: map Report sched /\ rounds E fuel sched x y;
  }.
  Definition inv (x : st) (evs : list aev) (a : ast) : Prop :=
    match a_ph a with
    | ANew => evs = [] /\ a_st a = x
    | AWait => winv x evs (a_st a) /\ q_futures (a_st a).2 <> []
    | AGather => (exists p, ainv E (a_st a, p) (reported evs)) /\ a_asked a = q_futures (a_st a).2 /\
                 (exists n, n ∈ a_asked a /\ n ∉ a_gone a)
    | AEnd (Ok v) => winv x evs (a_st a) /\ q_futures (a_st a).2 = [] /\ wf_result (a_st a) = Ok v
    | AEnd (Err _) => True
    end.
  Lemma inv_test x evs y : winv x evs y -> inv x evs (test_loop y).
  Proof.
    intros Hw. unfold test_loop, inv. destruct (q_futures y.2) eqn:Ef; cbn.
    - by destruct (wf_result y) eqn:Er.
    - by rewrite Ef.
  Qed.
  Lemma inv_clean x evs y p : ainv E (y, p) (reported evs) -> inv x evs (clean_up y).
  Proof.
    intros Ha. unfold clean_up, inv. destruct (q_futures y.2) as [|n l] eqn:Ef; cbn; [done|].
    split; [eauto|]. split; [done|]. exists n. split; [left|apply not_elem_of_nil].
  Qed.
  Lemma not_all_gone (l gone : list nat) : ~ Forall (fun f => f ∈ gone) l -> exists n, n ∈ l /\ n ∉ gone.
  Proof.
    intros Hn. induction l as [|n l IH]; [by destruct Hn|]. destruct (decide (n ∈ gone)).
    - destruct IH as (m & ? & ?); [intros Hl; apply Hn; by constructor|]. exists m. split; [by right|done].
    - exists n. split; [left|done].
  Qed.
  Lemma inv_step x evs a ev b : start E g q = Ok x -> inv x evs a -> astep E fuel a ev = Some b -> inv x (evs ++ [ev]) b.
  Proof.
    intros Hx Hi Hs. destruct a as [y ph asked gone]. unfold astep in Hs. unfold inv in Hi. cbn [a_st a_ph a_asked a_gone] in *.
    destruct ev as [|dl| |n o], ph as [| | |r]; try done.
    - injection Hs as <-. destruct Hi as [-> ->]. apply inv_test. split.
      + exact (start_ainv E g q x Hx).
      + exists []. split; [done|constructor].
    - case_bool_decide as Hd; [|done]. destruct Hd as (D1 & D2 & D3). rewrite Forall_forall in D3. destruct Hi as [[Hi (sched & He & Hr)] Hf].
      destruct (progressX (run_cb E) fuel dl y) as [z o] eqn:Ep. pose proof (progressX_res (run_cb E) fuel dl y) as Er. rewrite Ep in Er.
      destruct (ainv_round E fuel _ _ _ _ _ Hi D1 D2 D3 Ep) as (p & Ha & Hn).
      rewrite <-(reported_snoc evs (Report dl)) in Ha. destruct o as [e|]; cbn in Er.
      + case_bool_decide; injection Hs as <-; [by eapply inv_clean|done].
      + injection Hs as <-. rewrite (Hn eq_refl) in Ha. apply inv_test. split; [done|]. exists (sched ++ [dl]). split.
        * rewrite He, map_app. done.
        * by eapply rd_snoc.
    - injection Hs as <-. done.
    - injection Hs as <-. destruct Hi as [[Hi _] _]. eapply inv_clean. rewrite reported_snoc, app_nil_r. exact Hi.
    - injection Hs as <-. unfold inv. cbn. destruct Hi as ([p Hi] & H1 & H2). rewrite reported_snoc, app_nil_r. eauto.
    - case_bool_decide as Hd; [|done]. destruct Hi as ([p Hi] & H1 & _). cbn zeta in Hs. destruct o as [e|]; [by injection Hs as <-|].
      case_bool_decide as Hg; injection Hs as <-; [done|]. unfold inv. cbn. rewrite reported_snoc, app_nil_r.
      split; [eauto|]. split; [done|]. by apply not_all_gone.
  Qed.
  Lemma inv_steps x : start E g q = Ok x -> forall evs evs0 a b, inv x evs0 a -> steps a evs = Some b -> inv x (evs0 ++ evs) b.
  Proof.
    intros Hx. induction evs as [|ev evs IH]; intros evs0 a b Hi; cbn [asteps].
    - intros [= <-]. by rewrite app_nil_r.
    - destruct (astep E fuel a ev) as [c|] eqn:Es; [|done]. intros Hb. apply (IH (evs0 ++ [ev])) in Hb; [|by eapply inv_step].
      by rewrite <-app_assoc in Hb.
  Qed.
  Lemma reach_inv a0 evs a : async_execute E g q = Ok a0 -> steps a0 evs = Some a ->
    exists x, start E g q = Ok x /\ a0 = Ast x ANew [] [] /\ inv x evs a.
  Proof.
    unfold async_execute. destruct (start E g q) as [x|] eqn:Ex; [|done]. intros [= <-] Hs. exists x. split; [done|]. split; [done|].
    eapply (inv_steps x Ex evs []); [|exact Hs]. done.
  Qed.

  (** A coroutine which is not cancelled ends as the execution with the same reports does. *)
  Lemma reports_steps y sched r : executes (run_cb E) fuel sched y r -> r <> Err Cancelled ->
    forall z, a_ph z <> ANew -> z = test_loop y ->
    exists a, steps z (map Report sched) = Some a /\
      match r with Ok w => a = Ast w (AEnd (wf_result w)) [] [] | Err e => ended a (Err e) end.
  Proof.
    induction 1 as [y Hy|dl y e D1 D2 D3 Hp|dl sched y w r D1 D2 D3 Hp He IH]; intros Hc z Hz ->.
    - eexists. split; [reflexivity|]. unfold test_loop. by rewrite Hy.
    - cbn [map asteps]. assert (test_loop y = Ast y AWait [] []) as ->.
      { unfold test_loop. destruct (q_futures y.2) eqn:Ef; [|done]. destruct dl as [|f dl]; [done|]. by pose proof (D3 f ltac:(left)) as Hf; apply not_elem_of_nil in Hf. }
      unfold astep. cbn [a_ph a_st]. rewrite bool_decide_true by (split; [done|]; split; [done|by apply Forall_forall]).
      pose proof (progressX_res (run_cb E) fuel dl y) as Er. rewrite Hp in Er. destruct (progressX _ _ _ _) as [z1 [e'|]]; [|done]. injection Er as ->.
      rewrite bool_decide_false by (intros ->; done). eexists. split; [reflexivity|done].
    - cbn [map asteps]. assert (test_loop y = Ast y AWait [] []) as ->.
      { unfold test_loop. destruct (q_futures y.2) eqn:Ef; [|done]. destruct dl as [|f dl]; [done|]. by pose proof (D3 f ltac:(left)) as Hf; apply not_elem_of_nil in Hf. }
      unfold astep. cbn [a_ph a_st]. rewrite bool_decide_true by (split; [done|]; split; [done|by apply Forall_forall]).
      pose proof (progressX_res (run_cb E) fuel dl y) as Er. rewrite Hp in Er. destruct (progressX _ _ _ _) as [z1 [e'|]]; [done|]. injection Er as ->.
      apply IH; [done| |done]. unfold test_loop. by destruct (q_futures w.2).
  Qed.
  Theorem C55_same_as_execute sched r :
    execute E fuel g q sched r -> r <> Err Cancelled -> forall a0, async_execute E g q = Ok a0 ->
    exists a, steps a0 (Enter :: map Report sched) = Some a /\ ended a r.
  Proof.
    intros He Hc a0 Ha. unfold async_execute in Ha.
    destruct He as [e Hx|x sched e Hx He|x sched y v Hx He Hv]; rewrite Hx in Ha; [done|injection Ha as <-..]; cbn [asteps astep a_ph a_st].
    - destruct (reports_steps _ _ _ He ltac:(intros [= ->]; by apply Hc) (test_loop x)) as (a & Ha & Hend); [unfold test_loop; by destruct (q_futures x.2)|done|]. exists a. by split.
    - destruct (reports_steps _ _ _ He ltac:(done) (test_loop x)) as (a & Ha & Hend); [unfold test_loop; by destruct (q_futures x.2)|done|]. exists a. split; [done|].
      rewrite Hend. unfold ended, wf_result. cbn. by rewrite Hv.
  Qed.
  Lemma rounds_executes sched x y r : rounds E fuel sched x y -> forall sched2, executes (run_cb E) fuel sched2 y r -> executes (run_cb E) fuel (sched ++ sched2) x r.
  Proof.
    induction 1 as [x|sched dn x y z Hr IH H1 H2 H3 Hp]; intros sched2 He; [done|]. rewrite <-app_assoc. apply IH. cbn. by eapply ex_step.
  Qed.
  (** A result is returned only by a coroutine which was awaited, was never cancelled and was
      told about finished loaders only; it is the result of the execution. *)
  Theorem C55_result_only_uncancelled a0 evs a v :
    async_execute E g q = Ok a0 -> steps a0 evs = Some a -> ended a (Ok v) ->
    exists sched, evs = Enter :: map Report sched /\ execute E fuel g q sched (Ok v).
  Proof.
    intros H0 Hs He. destruct (reach_inv _ _ _ H0 Hs) as (x & Hx & _ & Hi). unfold inv in Hi. unfold ended in He. rewrite He in Hi.
    destruct Hi as ([_ (sched & Hev & Hr)] & Hf & Hv). exists sched. split; [done|].
    unfold wf_result in Hv. destruct (w_wfs (a_st a).1 !! 0) as [w|] eqn:Ew; [|done]. injection Hv as <-.
    eapply exec_ok; [exact Hx| |exact Ew]. rewrite <-(app_nil_r sched). eapply rounds_executes; [exact Hr|]. by constructor.
  Qed.

  (** No loader is running when a result is returned: the end of every call which was made was
      reported. *)
  Theorem C55_result_after_all_calls a0 evs a v :
    async_execute E g q = Ok a0 -> steps a0 evs = Some a -> ended a (Ok v) ->
    forall n, made a n -> n ∈ reported evs.
  Proof.
    intros H0 Hs He n Hm. destruct (reach_inv _ _ _ H0 Hs) as (x & Hx & _ & Hi). unfold inv in Hi. unfold ended in He. rewrite He in Hi.
    destruct Hi as ([Ha _] & Hf & _). destruct (decide (n ∈ reported evs)) as [Hn|Hn]; [done|]. exfalso.
    pose proof (proj2 (ainv_pending E _ _ Ha n) (conj Hm Hn)) as Hp. cbn in Hp. rewrite Hf in Hp. by apply elem_of_nil in Hp.
  Qed.
  (** Cancelling a coroutine which waits for loaders asks for the cancellation of tasks ... *)
  Theorem C55_cancel a0 evs a :
    async_execute E g q = Ok a0 -> steps a0 evs = Some a -> a_ph a = AWait ->
    exists b, astep E fuel a Cancel = Some b /\ a_ph b = AGather /\ calls_made b = calls_made a.
  Proof.
    intros H0 Hs Hp. destruct (reach_inv _ _ _ H0 Hs) as (x & Hx & _ & Hi). unfold inv in Hi. rewrite Hp in Hi. destruct Hi as [_ Hf].
    exists (clean_up (a_st a)). unfold astep. rewrite Hp. unfold clean_up, calls_made. destruct (q_futures (a_st a).2); [done|]. done.
  Qed.
  (** ... and so does a loader which was cancelled, when its end is reported: if the queue
      raises CancelledError, tasks are cancelled unless nothing is left. *)
  Theorem C55_cancelled_loader a dl :
    a_ph a = AWait ->
    dl <> [] -> NoDup dl -> (forall f, f ∈ dl -> f ∈ q_futures (a_st a).2) ->
    progress (run_cb E) fuel dl (a_st a) = Err Cancelled ->
    exists b, astep E fuel a (Report dl) = Some b /\ (a_ph b = AGather \/ ended b (Err Cancelled)).
  Proof.
    intros Hp D1 D2 D3 He. unfold astep. rewrite Hp. rewrite bool_decide_true by (split; [done|]; split; [done|by apply Forall_forall]).
    pose proof (progressX_res (run_cb E) fuel dl (a_st a)) as Er. rewrite He in Er. destruct (progressX _ _ _ _) as [z1 [e'|]]; [|done]. injection Er as ->.
    rewrite bool_decide_true by done. eexists. split; [reflexivity|]. unfold clean_up. destruct (q_futures z1.2); [by right|by left].
  Qed.
  (** The tasks whose cancellation is requested are exactly those of the calls which were made
      and whose end was not reported. *)
  Theorem C55_every_pending_call a0 evs a :
    async_execute E g q = Ok a0 -> steps a0 evs = Some a -> a_ph a = AGather ->
    forall n, n ∈ a_asked a <-> made a n /\ n ∉ reported evs.
  Proof.
    intros H0 Hs Hp n. destruct (reach_inv _ _ _ H0 Hs) as (x & Hx & _ & Hi). unfold inv in Hi. rewrite Hp in Hi.
    destruct Hi as ([p Hi] & -> & _). exact (ainv_pending E _ _ Hi n).
  Qed.

  (** From then on no loader is called, no result is returned, ... *)
  Lemma gather_step a ev b : a_ph a = AGather -> astep E fuel a ev = Some b ->
    a_st b = a_st a /\ a_asked b = a_asked a /\
    (a_ph b = AGather \/ ended b (Err Cancelled) /\ (forall n, n ∈ a_asked a -> n ∈ a_gone b) /\ (exists n, ev = Finish n None) \/
     exists n e, ev = Finish n (Some e) /\ ended b (Err e)) /\
    match ev with Finish n _ => n ∈ a_asked a /\ n ∉ a_gone a /\ a_gone b = a_gone a ++ [n] | _ => a_gone b = a_gone a end.
  Proof.
    intros Hp Hs. unfold astep in Hs. rewrite Hp in Hs. destruct ev as [|dl| |n o]; try done.
    - injection Hs as <-. split; [done|]. split; [done|]. split; [by left|done].
    - case_bool_decide as Hd; [|done]. cbn zeta in Hs. destruct o as [e|].
      + injection Hs as <-. split; [done|]. split; [done|]. split; [right; right; by exists n, e|]. destruct Hd as [Hd1 Hd2]; split; [done|split; [done|reflexivity]].
      + case_bool_decide as Hg; injection Hs as <-; (split; [done|]; split; [done|]; split; [|destruct Hd as [Hd1 Hd2]; split; [done|split; [done|reflexivity]]]).
        * right; left. rewrite Forall_forall in Hg. split; [done|]. split; [exact Hg|eauto].
        * by left.
  Qed.
  Lemma end_step a r ev : a_ph a = AEnd r -> astep E fuel a ev = None.
  Proof. intros Hp. unfold astep. rewrite Hp. by destruct ev. Qed.
  Lemma gather_steps evs : forall a b, a_ph a = AGather -> steps a evs = Some b ->
    a_st b = a_st a /\ a_asked b = a_asked a /\
    (a_ph b = AGather \/ ended b (Err Cancelled) /\ (forall n, n ∈ a_asked a -> n ∈ a_gone b) \/
     exists n e, Finish n (Some e) ∈ evs /\ ended b (Err e)) /\
    a_gone b = a_gone a ++ omap (fun ev => match ev with Finish n _ => Some n | _ => None end) evs /\
    (NoDup (a_gone a) -> NoDup (a_gone b)) /\ (forall n, n ∈ a_gone b -> n ∈ a_gone a \/ n ∈ a_asked a) /\
    (a_ph b = AGather -> forall n e, Finish n (Some e) ∉ evs).
  Proof.
    induction evs as [|ev evs IH]; intros a b Hp; cbn [asteps].
    - intros [= <-]. split; [done|]. split; [done|]. split; [by left|]. cbn. rewrite app_nil_r. split; [done|]. split; [done|]. split; [by left|]. intros _ n e Hx. by apply not_elem_of_nil in Hx.
    - destruct (astep E fuel a ev) as [c|] eqn:Es; [|done]. destruct (gather_step _ _ _ Hp Es) as (H1 & H2 & H3 & H4).
      assert (a_gone c = a_gone a ++ omap (fun ev => match ev with Finish n _ => Some n | _ => None end) [ev]) as H5.
      { destruct ev; cbn; rewrite ?app_nil_r; [done..|]. by destruct H4 as (_ & _ & ->). }
      assert (NoDup (a_gone a) -> NoDup (a_gone c)) as H6.
      { intros Hn. destruct ev; [by rewrite H4..|]. destruct H4 as (_ & Hg & ->). apply NoDup_app. split; [done|]. split; [|apply NoDup_singleton].
        intros m Hm ->%elem_of_list_singleton. done. }
      assert (forall n, n ∈ a_gone c -> n ∈ a_gone a \/ n ∈ a_asked a) as H7.
      { intros n. destruct ev; [rewrite H4; by left..|]. destruct H4 as (Ha & _ & ->). intros [?| ->]%elem_snoc; [by left|by right]. }
      intros Hb. assert (a_ph c = AGather \/ evs = [] /\ b = c) as [Hg|[-> ->]].
      { destruct H3 as [?|[(He & _)|(n & e & _ & He)]]; [by left|right..]; (destruct evs as [|ev' evs]; [by injection Hb as <-|]; cbn [asteps] in Hb; by rewrite (end_step _ _ _ He) in Hb). }
      + destruct (IH _ _ Hg Hb) as (I1 & I2 & I3 & I4 & I5 & I6 & I7). split; [congruence|]. split; [congruence|]. rewrite H2 in I3, I6. split; [|split; [|split; [|split]]].
        * destruct I3 as [?|[?|(n & e & Hx & ?)]]; [by left|by right; left|right; right]. exists n, e. split; [by right|done].
        * rewrite I4, H5, <-app_assoc. f_equal. cbn. by destruct ev.
        * auto.
        * intros n Hn. destruct (I6 n Hn) as [?|?]; [by apply H7|by right].
        * intros Hpb n e [<-|Hx]%elem_of_cons; [|by apply (I7 Hpb n e)]. destruct H3 as [Hc|[(_ & _ & m & Hm)|(m & e' & Hm & He)]].
          -- clear -Hp Es Hc. unfold astep in Es. rewrite Hp in Es. case_bool_decide; [|done]. cbn zeta in Es. by injection Es as <-.
          -- done.
          -- unfold ended in He. by rewrite Hg in He.
      + split; [done|]. split; [done|]. split; [|split; [done|split; [done|split; [done|]]]].
        * destruct H3 as [?|[(? & ? & _)|(n & e & -> & ?)]]; [by left|by right; left|right; right]. exists n, e. split; [left|done].
        * intros Hpb n e Hx. apply elem_of_list_singleton in Hx. subst ev. clear -Hp Es Hpb. unfold astep in Es. rewrite Hp in Es. case_bool_decide; [|done]. cbn zeta in Es. by injection Es as <-.
  Qed.
  Theorem C55_no_more_calls a evs b :
    a_ph a = AGather -> steps a evs = Some b ->
    calls_made b = calls_made a /\ a_asked b = a_asked a /\ forall v, ~ ended b (Ok v).
  Proof.
    intros Hp Hs. destruct (gather_steps _ _ _ Hp Hs) as (H1 & H2 & H3 & _). split; [unfold calls_made; by rewrite H1|]. split; [done|].
    intros v Hv. unfold ended in *. destruct H3 as [Hx|[[Hx _]|(n & e & _ & Hx)]]; congruence.
  Qed.
  (** ... and the outcome is CancelledError, or the exception of a task. *)
  Theorem C55_outcome a evs b r :
    a_ph a = AGather -> steps a evs = Some b -> ended b r ->
    r = Err Cancelled \/ exists n e, n ∈ a_asked a /\ Finish n (Some e) ∈ evs /\ r = Err e.
  Proof.
    intros Hp Hs He. destruct (gather_steps _ _ _ Hp Hs) as (H1 & H2 & H3 & H4 & _ & H6 & _). unfold ended in *.
    destruct H3 as [Hx|[[Hx _]|(n & e & Hn & Hx)]].
    - congruence.
    - left. congruence.
    - right. exists n, e. split; [|split; [done|congruence]].
      revert Hn Hs Hp. clear. revert a. induction evs as [|ev evs IH]; intros a Hn; [by apply not_elem_of_nil in Hn|]. cbn [asteps].
      destruct (astep E fuel a ev) as [c|] eqn:Es; [|done]. intros Hb Hp. destruct (gather_step _ _ _ Hp Es) as (H1 & H2 & H3 & H4).
      apply elem_of_cons in Hn as [<-|Hn]; [by destruct H4|]. rewrite <-H2. apply IH; [done..|].
      destruct H3 as [?|[(He & _)|(m & e' & _ & He)]]; [done|exfalso..]; (destruct evs as [|ev' evs]; [by apply not_elem_of_nil in Hn|]; cbn [asteps] in Hb; by rewrite (end_step _ _ _ He) in Hb).
  Qed.
  Theorem C55_cancelled_error a evs b r :
    a_ph a = AGather -> steps a evs = Some b -> ended b r ->
    (forall n e, Finish n (Some e) ∈ evs -> e = Cancelled) -> r = Err Cancelled.
  Proof.
    intros Hp Hs He Hc. destruct (C55_outcome _ _ _ _ Hp Hs He) as [?|(n & e & _ & Hn & ->)]; [done|]. by rewrite (Hc n e Hn).
  Qed.
  (** The coroutine ends when its tasks do: while it has not ended some task is still running,
      all of them may end, and none ends twice. *)
  Theorem C55_ends a evs b :
    a_ph a = AGather -> a_gone a = [] -> steps a evs = Some b ->
    length (omap (fun ev => match ev with Finish n _ => Some n | _ => None end) evs) <= length (a_asked a).
  Proof.
    intros Hp Hg Hs. destruct (gather_steps _ _ _ Hp Hs) as (_ & _ & _ & H4 & H5 & H6 & _). rewrite Hg in *. cbn in H4. rewrite <-H4.
    assert (NoDup (a_gone b)) as Hn by (apply H5; constructor).
    apply submseteq_length, NoDup_submseteq; [done|]. intros n Hx. destruct (H6 n Hx) as [Hy|?]; [by apply not_elem_of_nil in Hy|done].
  Qed.
  Theorem C55_not_stuck a0 evs a :
    async_execute E g q = Ok a0 -> steps a0 evs = Some a -> a_ph a = AGather ->
    (exists n, n ∈ a_asked a /\ n ∉ a_gone a) /\
    forall n o, n ∈ a_asked a -> n ∉ a_gone a -> is_Some (astep E fuel a (Finish n o)).
  Proof.
    intros H0 Hs Hp. destruct (reach_inv _ _ _ H0 Hs) as (x & Hx & _ & Hi). unfold inv in Hi. rewrite Hp in Hi. split; [by apply Hi|].
    intros n o Hn Hg. unfold astep. rewrite Hp. rewrite bool_decide_true by done. cbn zeta. destruct o; [eauto|]. case_bool_decide; eauto.
  Qed.
  (** If no task raises, the coroutine ends only when all of them have ended. *)
  Theorem C55_waits_for_tasks a evs b r :
    a_ph a = AGather -> steps a evs = Some b -> ended b r -> (forall n e, Finish n (Some e) ∉ evs) ->
    forall n, n ∈ a_asked a -> n ∈ a_gone b.
  Proof.
    intros Hp Hs He Hf. destruct (gather_steps _ _ _ Hp Hs) as (_ & _ & H3 & _). unfold ended in *. destruct H3 as [Hx|[[_ Hx]|(n & e & Hn & _)]].
    - congruence.
    - done.
    - by destruct (Hf n e).
  Qed.
End props.

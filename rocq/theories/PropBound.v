(** C05, C06 for every graph, with sub-graphs, links of every kind, loaders which may raise or answer anything:
    executions end, within a bound computed from the query and the graph (CostSpec.v). *)
From stdpp Require Import relations.
From Verif Require Import Base Val Query QuerySpec QueryProof Graph Queue QueueSpec QueueProof PropQueue Result Engine EngineApi EngineSpec SplitProof EngineDisc CallSpec EngineLog CostSpec EngineBound EngineTerm PropTrace.

(** ** The executor's loop: every turn completes task sets *)
Section loop.
  Context `{Hasher} (E : env).
  (** at least [k] more task sets were completed *)
  Definition more (k : nat) (a b : queue cb) : Prop :=
    q_nts a + length (q_futs b) + k <= q_nts b + length (q_futs a).
  Lemma more_refl a : more 0 a a.
  Proof. unfold more. lia. Qed.
  Lemma more_trans k l a b c : more k a b -> more l b c -> more (k + l) a c.
  Proof. unfold more. lia. Qed.
  Lemma length_dset {V} (k : nat) (v : V) d : length (dset k v d) <= S (length d).
  Proof. induction d as [|[k' v'] d IH]; cbn; [lia|]. destruct (decide (k = k')); cbn; lia. Qed.
  Lemma length_dset_in {V} (k : nat) (v v' : V) d : dget k d = Some v' -> length (dset k v d) = length d.
  Proof. induction d as [|[k' w'] d IH]; cbn; [done|]. destruct (decide (k = k')); cbn; [done|]. intros Hk. by rewrite IH. Qed.
  Lemma length_ddel {V} (k : nat) (d : dict nat V) : k ∈ dkeys d -> length (ddel k d) < length d.
  Proof.
    assert (forall d : dict nat V, length (ddel k d) <= length d) as Hle by (intros d0; induction d0 as [|[k' v'] d0 IH]; cbn; [lia|]; destruct (decide (k = k')); cbn; lia).
    induction d as [|[k' v'] d IH]; cbn; [by intros ?%not_elem_of_nil|]. intros [->|Hk]%elem_of_cons.
    - rewrite decide_True by done. specialize (Hle d). lia.
    - specialize (IH Hk). specialize (Hle d). destruct (decide (k = k')); cbn; lia.
  Qed.
  Lemma more_uses A a b : uses A a b -> more 0 a b.
  Proof.
    induction 1 as [|q o q1 q2 _ Ho _ IH]; [apply more_refl|]. eapply (more_trans 0 0); [|exact IH]. clear IH. destruct o as [t|p|k c]; cbn in Ho.
    - unfold q_submit in Ho. destruct (dget t _) as [l|] eqn:Et; [|done]. cbn in Ho. injection Ho as <-. unfold more. cbn. rewrite (length_dset_in _ _ _ _ Et). lia.
    - unfold more. unfold q_fork in Ho. pose proof (length_dset (q_nts q) [] (q_futs q)).
      destruct p as [p|]; [destruct (dget p _); [|done]|]; cbn in Ho; injection Ho as <-; cbn; lia.
    - injection Ho as <-. unfold more. cbn. lia.
  Qed.
  Lemma more_fire k x c y : fire (run_cb E) k x c = Ok y -> more 0 x.2 y.2.
  Proof. intros Hf. apply (run_cb_api E) in Hf. apply more_uses in Hf. exact Hf. Qed.
  Lemma more_step a b : dcfg E a -> qstep (run_cb E) a b -> more 0 a.1.2 b.1.2.
  Proof.
    intros Hd Hs.
    destruct Hs as [x dn H1 H2 H3|x f d cs q Hpop|x f c1 cs d y Hf|x f d|x|x Hq|x t ts cs q Hpop|x t c1 cs ts y Hf|x t ts|x|x Hq]; cbn; try apply more_refl.
    - unfold more. cbn. rewrite map_length. lia.
    - unfold q_pop in Hpop. injection Hpop as <- <-. unfold more. cbn. lia.
    - by eapply more_fire.
    - unfold q_pop in Hpop. injection Hpop as <- <-. unfold more. cbn. lia.
    - by eapply more_fire.
    - destruct Hd as [[Hd _] _ _]. destruct (di_ct _ _ _ _ Hd t eq_refl) as [Ha _]. cbn in Ha. apply length_ddel in Ha. unfold more. cbn. lia.
  Qed.
  Lemma more_rtc a b : dcfg E a -> rtc (qstep (run_cb E)) a b -> more 0 a.1.2 b.1.2.
  Proof.
    intros Ha Hr. induction Hr as [|x y z Hxy _ IH]; [apply more_refl|]. eapply (more_trans 0 0); [by eapply more_step|]. apply IH. by eapply dcfg_step.
  Qed.
  Lemma more_turn x y : dcfg E (x, PLoop) -> q_completed x.2 <> [] -> foldR (fire_ts (run_cb E)) x (q_completed x.2) = Ok y ->
    rtc (qstep (run_cb E)) (x, PLoop) (y, PLoop) /\ more 1 x.2 y.2.
  Proof.
    intros Hd Hq Hy.
    pose proof (fold_ts (run_cb E) (q_completed x.2) x _ Hy) as H1. cbn in H1.
    assert (rtc (qstep (run_cb E)) (x, PLoop) (y, PLoop)) as Hs.
    { eapply rtc_l; [by apply qs_sets|]. etrans; [exact H1|]. apply rtc_once, qs_again. }
    split; [done|]. destruct (q_completed x.2) as [|t ts] eqn:Ec; [done|]. cbn [foldR] in Hy.
    assert (qstep (run_cb E) (x, PLoop) (x, PT None (t :: ts))) as S0 by (rewrite <-Ec; apply qs_sets; by rewrite Ec).
    destruct (fire_ts (run_cb E) x t) as [z|] eqn:Ez; [|done]. pose proof (fold_ts (run_cb E) ts z _ Hy) as H2. cbn in H2.
    unfold fire_ts in Ez. destruct (q_pop (KT t) x.2) as [cs q] eqn:Ep. destruct (foldR _ _ cs) as [v|] eqn:Ev; [|done]. injection Ez as <-.
    pose proof (fold_firet (run_cb E) t cs ts _ _ Ev) as H3. cbn in H3.
    assert (dcfg E (x, PT None (t :: ts))) as D1 by by eapply dcfg_step.
    assert (qstep (run_cb E) (x, PT None (t :: ts)) ((x.1, q), PT (Some (t, cs)) ts)) as S2 by by apply qs_popt.
    assert (dcfg E ((x.1, q), PT (Some (t, cs)) ts)) as D2 by by eapply dcfg_step.
    pose proof (dcfg_rtc _ _ _ D2 H3) as D3.
    assert (dcfg E ((v.1, q_complete t v.2), PT None ts)) as D4 by (eapply dcfg_step; [exact D3|apply qs_endt]).
    pose proof (more_step _ _ D1 S2) as M1. pose proof (more_rtc _ _ D2 H3) as M2. pose proof (more_rtc _ _ D4 H2) as M4.
    assert (more 1 v.2 (q_complete t v.2)) as M3.
    { destruct D3 as [[Hdv _] _ _]. destruct (di_ct _ _ _ _ Hdv t eq_refl) as [Ha _]. cbn in Ha. apply length_ddel in Ha. unfold more. cbn. lia. }
    cbn in M1, M2, M4. unfold more in *. cbn in *. lia.
  Qed.
  Lemma loop_fuel fuel x e : dcfg E (x, PLoop) -> complete_loop (run_cb E) fuel x = Err e ->
    (exists z, rtc (qstep (run_cb E)) (x, PLoop) z /\ qfail (run_cb E) z e) \/
    (exists y, rtc (qstep (run_cb E)) (x, PLoop) (y, PLoop) /\ q_completed y.2 <> [] /\ more fuel x.2 y.2).
  Proof.
    revert x. induction fuel as [|k IH]; intros x Hd; cbn [complete_loop]; destruct (q_completed x.2) as [|t ts] eqn:Ec; try done.
    - intros _. right. exists x. split; [apply rtc_refl|]. split; [by rewrite Ec|apply more_refl].
    - rewrite <-Ec. destruct (foldR (fire_ts (run_cb E)) x (q_completed x.2)) as [y|e'] eqn:Ey.
      + intros He. destruct (more_turn x y Hd) as [Hr Hm]; [by rewrite Ec|done|]. destruct (IH y (dcfg_rtc _ _ _ Hd Hr) He) as [(z & Hz & Hf)|(z & Hz & Hc & Hmz)].
        * left. exists z. split; [by etrans|done].
        * right. exists z. split; [by etrans|]. split; [done|]. exact (more_trans 1 k _ _ _ Hm Hmz).
      + intros [= ->]. left. pose proof (fold_ts (run_cb E) (q_completed x.2) x _ Ey) as (z & Hz & Hf). exists z. split; [|done].
        eapply rtc_l; [|exact Hz]. apply qs_sets. by rewrite Ec.
  Qed.
  Lemma progress_fuel fuel dn x e : dcfg E (x, PIdle) -> dn <> [] -> NoDup dn -> (forall f, f ∈ dn -> f ∈ q_futures x.2) ->
    progress (run_cb E) fuel dn x = Err e ->
    (exists z, rtc (qstep (run_cb E)) (x, PIdle) z /\ qfail (run_cb E) z e) \/
    (exists y, rtc (qstep (run_cb E)) (x, PIdle) (y, PLoop) /\ q_completed y.2 <> [] /\ more fuel x.2 y.2).
  Proof.
    intros Hd H1 H2 H3. unfold progress.
    assert (qstep (run_cb E) (x, PIdle) ((x.1, q_difference dn x.2), PF None dn)) as Hs by by constructor.
    destruct (foldR (fire_fut _) _ dn) as [y|e'] eqn:Ey.
    - pose proof (fold_fut (run_cb E) _ _ _ Ey) as Hf. cbn in Hf.
      assert (rtc (qstep (run_cb E)) (x, PIdle) (y, PLoop)) as Hl.
      { eapply rtc_l; [done|]. etrans; [done|]. apply rtc_once, qs_loop. }
      intros He. destruct (loop_fuel fuel y e (dcfg_rtc _ _ _ Hd Hl) He) as [(z & Hz & Hq)|(z & Hz & Hc & Hm)].
      + left. exists z. split; [by etrans|done].
      + right. exists z. split; [by etrans|]. split; [done|]. pose proof (more_rtc _ _ Hd Hl) as M. exact (more_trans 0 fuel _ _ _ M Hm).
    - intros [= ->]. left. pose proof (fold_fut (run_cb E) _ _ _ Ey) as (z & Hz & Hq). exists z. split; [by eapply rtc_l|done].
  Qed.
  (** the futures reported so far *)
  Lemma rounds_dones fuel sched x y : rounds E fuel sched x y -> dones (q_trace y.2) = dones (q_trace x.2) ++ concat sched.
  Proof.
    induction 1 as [x|sched dn x y z Hr IH H1 H2 H3 Hp]; [by rewrite app_nil_r|].
    rewrite concat_app. cbn [concat]. rewrite app_nil_r, app_assoc, <-IH.
    unfold progress in Hp. destruct (foldR _ _ _) as [v|] eqn:Ev; [|done].
    rewrite (dones_loop _ _ (run_cb_api E) _ _ Hp). by rewrite (dones_futs _ _ (run_cb_api E) _ _ Ev).
  Qed.
  Lemma elem_dones f (tr : list (qev cb)) : f ∈ dones tr <-> EvDone f ∈ tr.
  Proof.
    unfold dones. rewrite elem_of_list_omap. split.
    - intros (ev & Hev & Hx). destruct ev; try done. by injection Hx as ->.
    - intros Hf. by exists (EvDone f).
  Qed.
  Lemma uses_no_dones A q : uses A q_empty q -> dones (C:=cb) (q_trace q) = [].
  Proof. intros Hu. by rewrite (uses_dones _ _ _ Hu). Qed.
  Lemma rounds_nodup fuel g q sched x y : start E g q = Ok x -> rounds E fuel sched x y ->
    NoDup (concat sched) /\ forall f, f ∈ concat sched -> f < length (w_log y.1).
  Proof.
    intros Hx Hr. destruct (start_dcfg E g q x Hx) as [Hd0 Hu].
    assert (forall z s, rounds E fuel s x z -> past z.2 /\ dcfg E (z, PIdle)) as Hall.
    { intros z s Hz. apply rounds_steps in Hz. split; [|by eapply dcfg_rtc].
      eapply (past_rtc E (x, PIdle) (z, PIdle)); [done| |intros; apply not_elem_of_nil|done].
      simpl. eapply past_uses; [exact Hu|]. intros f' Hf'. by apply not_elem_of_nil in Hf'. }
    assert (forall z s, rounds E fuel s x z -> forall f, f ∈ concat s -> EvDone f ∈ q_trace z.2) as Hdn.
    { intros z s Hz f Hf. apply elem_dones. rewrite (rounds_dones _ _ _ _ Hz). apply elem_of_app. by right. }
    split.
    - clear -Hall Hdn Hr Hx. induction Hr as [x|sched dn x y z Hr IH H1 H2 H3 Hp]; [constructor|].
      rewrite concat_app. cbn [concat]. rewrite app_nil_r. apply NoDup_app. split; [by apply IH|]. split; [|done].
      intros f Hf Hf'. destruct (Hall _ _ Hr) as [Hpast _]. apply (Hpast f); [by eapply Hdn|]. by apply H3.
    - intros f Hf. destruct (Hall _ _ Hr) as [Hpast Hd]. destruct Hd as [_ Hp _]. pose proof (p_nfut _ _ _ _ Hp) as Hn. cbn in Hn. rewrite <-Hn. apply Hpast. by eapply Hdn.
  Qed.
  Lemma rounds_length fuel sched x y : rounds E fuel sched x y -> length sched <= length (concat sched).
  Proof.
    induction 1 as [x|sched dn x y z Hr IH H1 H2 H3 Hp]; [done|]. rewrite concat_app, !app_length. cbn. rewrite app_nil_r. destruct dn; [done|]. cbn. lia.
  Qed.
  Lemma nodup_below (l : list nat) n : NoDup l -> (forall f, f ∈ l -> f < n) -> length l <= n.
  Proof.
    intros Hn Hl. rewrite <-(seq_length n 0). apply submseteq_length, NoDup_submseteq; [done|]. intros f Hf. apply elem_of_seq. specialize (Hl f Hf). lia.
  Qed.
End loop.

(** Loaders and post-processing functions do not raise the model's own [OutOfFuel], which stands for no Python
    exception. *)
Definition no_fuel_exn (E : env) : Prop :=
  (forall n c, e_oracle E n c <> Raise OutOfFuel) /\ (forall p t r o, e_proc E p t r o <> Err OutOfFuel).

Section thms.
  Context `{Hasher} (E : env) (g : graph) (q q' : qnode).
  Hypothesis Hnest : nested (e_sgs E).
  Hypothesis Hi : init_options g q = Ok q'.

  Lemma steps_bound u x z p : start E g q = Ok x -> rtc (qstep (run_cb E)) (x, PIdle) (z, p) ->
    length (w_log z.1) + u * q_nts z.2 <= u + max_cost u E g q'.
  Proof.
    intros Hx Hr. pose proof (price_covers u E Hnest) as Hpr. cbn zeta in Hpr.
    pose proof (start_bcfg E u _ Hpr g q q' x Hx Hi) as Hb. apply (bcfg_rtc E u _ Hpr _ _ _ Hr) in Hb. destruct Hb as [_ _ Ht]. unfold total in Ht. cbn in Ht.
    unfold max_cost. lia.
  Qed.

  (** C06: at every moment of every execution, up to a failing callback included, the number of loader calls is at
      most the bound of the query, whatever the loaders answer. *)
  Theorem C06_number_of_calls x z p :
    start E g q = Ok x -> rtc (qstep (run_cb E)) (x, PIdle) (z, p) -> length (w_log z.1) <= max_calls E g q'.
  Proof. intros Hx Hr. pose proof (steps_bound 0 x z p Hx Hr). unfold max_calls. lia. Qed.

  (** C05: the executor makes at most so many rounds. *)
  Theorem C05_rounds_bounded fuel sched x y :
    start E g q = Ok x -> rounds E fuel sched x y ->
    length sched <= length (concat sched) /\ length (concat sched) <= length (w_log y.1) /\ length (w_log y.1) <= max_calls E g q'.
  Proof.
    intros Hx Hr. split; [by eapply rounds_length|]. split.
    - destruct (rounds_nodup E fuel g q sched x y Hx Hr). by apply nodup_below.
    - eapply C06_number_of_calls; [done|]. by eapply rounds_steps.
  Qed.

  Hypothesis Hfx : no_fuel_exn E.
  Lemma fail_fuel x z : start E g q = Ok x -> rtc (qstep (run_cb E)) (x, PIdle) z -> ~ qfail (run_cb E) z OutOfFuel.
  Proof.
    intros Hx Hr Hf. pose proof (price_covers 1 E Hnest) as Hpr. cbn zeta in Hpr.
    pose proof (start_bcfg E 1 _ Hpr g q q' x Hx Hi) as Hb. apply (bcfg_rtc E 1 _ Hpr _ _ _ Hr) in Hb. destruct Hb as [Hv Hc _].
    assert (lcfg E g q z) as (js & _ & Hok).
    { eapply lcfg_rtc; [|exact Hr]. by apply lcfg_start. }
    destruct Hfx as [Ho Hpc].
    assert (forall k y c, fire (run_cb E) k y c = Err OutOfFuel -> valid y -> cvalid y c -> cb_ok E g q js y c -> False) as Hrun.
    { intros k y c He Hvy Hcy Hoy. refine (nof_run_cb E 1 _ Hpr Hnest Ho Hpc g q js c (y.1, q_emit (EvFire k c) y.2) _ _ _ He); try done. }
    destruct Hf as [y f c cs d e He|y t c cs ts e He].
    - apply Forall_cons in Hc as [Hc _]. eapply Hrun; [exact He|exact Hv|exact Hc|]. apply Hok. left.
    - apply Forall_cons in Hc as [Hc _]. eapply Hrun; [exact He|exact Hv|exact Hc|]. apply Hok. left.
  Qed.
  Lemma progress_not_fuel fuel sched x y dn : max_work E g q' < fuel ->
    start E g q = Ok x -> rounds E fuel sched x y -> dn <> [] -> NoDup dn -> (forall f, f ∈ dn -> f ∈ q_futures y.2) ->
    progress (run_cb E) fuel dn y <> Err OutOfFuel.
  Proof.
    intros Hfu Hx Hr H1 H2 H3 Hp. destruct (start_dcfg E g q x Hx) as [Hd0 Hu]. apply rounds_steps in Hr as Hs.
    assert (dcfg E (y, PIdle)) as Hd by by eapply dcfg_rtc.
    destruct (progress_fuel E fuel dn y _ Hd H1 H2 H3 Hp) as [(z & Hz & Hf)|(z & Hz & Hc & Hm)].
    - eapply (fail_fuel x z Hx); [by etrans|done].
    - pose proof (steps_bound 1 x z PLoop Hx) as Hb. rewrite Nat.mul_1_l in Hb. specialize (Hb (rtc_transitive _ _ _ Hs Hz)).
      apply more_uses in Hu. pose proof (more_rtc E _ _ Hd0 Hs) as Hm2. cbn in Hm2.
      assert (q_futs z.2 <> []) as Hne by (intros Hne; apply Hc; unfold q_completed; by rewrite Hne).
      unfold more, max_work in *. cbn in Hu. destruct (q_futs z.2); [done|]. cbn in Hm. lia.
  Qed.
  Lemma executes_rounds' fuel sched sched2 x y r :
    rounds E fuel sched x y -> executes (run_cb E) fuel sched2 y r -> executes (run_cb E) fuel (sched ++ sched2) x r.
  Proof.
    intros Hr. revert sched2 r. induction Hr as [x|sched dn x y z Hr IH H1 H2 H3 Hp]; intros sched2 r He; [done|].
    rewrite <-app_assoc. apply IH. simpl. by eapply ex_step.
  Qed.
  Lemma executes_split fuel sched x e : executes (run_cb E) fuel sched x (Err e) ->
    exists sched0 dn y, sched = sched0 ++ [dn] /\ rounds E fuel sched0 x y /\ dn <> [] /\ NoDup dn /\ (forall f, f ∈ dn -> f ∈ q_futures y.2) /\ progress (run_cb E) fuel dn y = Err e.
  Proof.
    intros He.
    assert (forall s0 x0, rounds E fuel s0 x0 x -> exists sched0 dn y, s0 ++ sched = sched0 ++ [dn] /\ rounds E fuel sched0 x0 y /\ dn <> [] /\ NoDup dn /\ (forall f, f ∈ dn -> f ∈ q_futures y.2) /\ progress (run_cb E) fuel dn y = Err e) as Hg.
    { remember (Err e) as r eqn:Er. induction He as [x Hx|dn x e' H1 H2 H3 Hp|dn sched x z r H1 H2 H3 Hp He IH]; intros s0 x0 Hr; [done| |].
      - injection Er as ->. exists s0, dn, x. done.
      - destruct (IH Er (s0 ++ [dn]) x0) as (s1 & d1 & y & Heq & Hrest); [by eapply rd_snoc|]. exists s1, d1, y. split; [|done]. rewrite <-Heq. by rewrite <-app_assoc. }
    destruct (Hg [] x) as (s0 & dn & y & Heq & Hrest); [constructor|]. by exists s0, dn, y.
  Qed.

  (** C05: with this much fuel the executor's inner loop (queue.py:40-53) ends by itself: the model's fuel is never
      exhausted, so its results are those of the unbounded loop. *)
  Theorem C05_loops_end fuel sched r : max_work E g q' < fuel -> execute E fuel g q sched r -> r <> Err OutOfFuel.
  Proof.
    intros Hfu He. destruct He as [e He|x sched e Hx He|x sched y v Hx He Hv]; [| |done].
    - intros [= ->]. pose proof (price_covers 1 E Hnest) as Hpr. cbn zeta in Hpr. destruct Hfx as [Ho Hpc]. by eapply (nof_start E 1 _ Hpr Hnest Ho).
    - intros [= ->]. destruct (executes_split _ _ _ _ He) as (s0 & dn & y & _ & Hr & H1 & H2 & H3 & Hp).
      by eapply (progress_not_fuel fuel s0 x y dn).
  Qed.

  (** C05: an execution which was begun in any way comes to its end in whatever way it is continued: it can be
      continued to an end, and C05_rounds_bounded limits every continuation. *)
  Theorem C05_terminates fuel sched x y : max_work E g q' < fuel ->
    start E g q = Ok x -> rounds E fuel sched x y ->
    exists sched2 r, execute E fuel g q (sched ++ sched2) r /\ r <> Err OutOfFuel.
  Proof.
    intros Hfu Hx Hr.
    assert (forall n sched y, rounds E fuel sched x y -> max_calls E g q' - length sched <= n ->
      exists sched2 r, executes (run_cb E) fuel (sched ++ sched2) x r) as Hm.
    { clear sched y Hr.
      assert (forall sched y f fs, rounds E fuel sched x y -> q_futures y.2 = f :: fs ->
        (exists z, rounds E fuel (sched ++ [[f]]) x z) \/ exists e, executes (run_cb E) fuel (sched ++ [[f]]) x (Err e)) as Hone.
      { intros sched y f fs Hr Hf. assert (forall f', f' ∈ [f] -> f' ∈ q_futures y.2) as H3 by (intros f' ->%elem_of_list_singleton; rewrite Hf; left).
        destruct (progress (run_cb E) fuel [f] y) as [z|e] eqn:Hp.
        - left. exists z. eapply rd_snoc; [exact Hr|done|apply NoDup_singleton|exact H3|exact Hp].
        - right. exists e. eapply executes_rounds'; [exact Hr|]. apply ex_fail; [done|apply NoDup_singleton|exact H3|exact Hp]. }
      induction n as [|n IH]; intros sched y Hr Hn; (destruct (q_futures y.2) as [|f fs] eqn:Ef;
        [exists [], (Ok y); rewrite app_nil_r; rewrite <-(app_nil_r sched); eapply executes_rounds'; [exact Hr|by apply ex_stop]|]);
        (destruct (Hone _ _ _ _ Hr Ef) as [[z Hz]|[e He]]; [|by exists [[f]], (Err e)]);
        pose proof (C05_rounds_bounded _ _ _ _ Hx Hz) as Hb; rewrite app_length in Hb; cbn in Hb.
      - lia.
      - destruct (IH _ _ Hz) as (s2 & r & Hs2); [rewrite app_length; cbn; lia|]. exists ([f] :: s2), r. by rewrite <-app_assoc in Hs2. }
    destruct (Hm _ sched y Hr (le_n _)) as (s2 & r & He). exists s2.
    assert (exists r', execute E fuel g q (sched ++ s2) r') as [r' Hr']; [|exists r'; split; [done|]; by eapply C05_loops_end].
    destruct r as [z|e]; [|eexists; by eapply exec_err].
    apply executes_steps in He as Hs. destruct Hs as [Hs _].
    assert (exists v, w_wfs z.1 !! 0 = Some v) as [v Hv]; [|eexists; by eapply exec_ok].
    assert (0 < length (w_wfs z.1)) as H0; [|destruct (w_wfs z.1); cbn in *; [lia|eauto]].
    pose proof (price_covers 1 E Hnest) as Hpr. cbn zeta in Hpr.
    pose proof (start_bcfg E 1 _ Hpr g q q' x Hx Hi) as Hb. revert Hb.
    assert (0 < length (w_wfs x.1)) as H0.
    { unfold start in Hx. rewrite Hi in Hx. cbn [q_fork q_empty q_futs q_forks q_cbs q_nfut q_nts q_trace dset app] in Hx.
      apply (pot_process_node E 1 _ Hpr _ _ _ _ _ _ _ g) in Hx; [|done]. destruct Hx as (_ & (l & Hl) & _); [constructor|].
      unfold gs in Hl. cbn in Hl. destruct (w_wfs x.1); [done|]. cbn. lia. }
    revert H0. generalize (1 + costs g (price 1 (e_sgs E) (length (e_sgs E))) (g_root g) (qfields q')). intros B H0 Hb.
    change (0 < length (w_wfs (z, @PIdle cb).1.1)). change (0 < length (w_wfs (x, @PIdle cb).1.1)) in H0.
    assert (bcfg E 1 (price 1 (e_sgs E) (length (e_sgs E))) B (z, @PIdle cb) /\ 0 < length (w_wfs (z, @PIdle cb).1.1)) as [_ Hz]; [|exact Hz].
    eapply (rtc_inv (run_cb E) (fun a => bcfg E 1 (price 1 (e_sgs E) (length (e_sgs E))) B a /\ 0 < length (w_wfs a.1.1))); [|exact Hs|by split].
    clear -Hpr. intros a b [Hb H0] Hab. split; [by eapply (bcfg_step E 1 _ Hpr)|].
    assert (forall k (y : st) c0 z, valid y -> cvalid y c0 -> fire (run_cb E) k y c0 = Ok z -> 0 < length (w_wfs y.1) -> 0 < length (w_wfs z.1)) as Hfire.
    { clear -Hpr. intros k y c0 z Hv Hc Hf Hy. unfold fire in Hf. apply (pot_run_cb E 1 _ Hpr) in Hf; [|exact Hc].
      destruct (Hf (valid_queue y _ eq_refl Hv)) as (_ & (l & Hl) & _). unfold gs in Hl. apply (f_equal length) in Hl.
      rewrite app_length, !map_length in Hl. cbn in Hl. lia. }
    destruct Hb as [Hv Hc _].
    destruct Hab as [y dn H1 H2 H3|y f d cs q0 Hpop|y f c1 cs d y1 Hf|y f d|y|y Hq|y t ts cs q0 Hpop|y t c1 cs ts y1 Hf|y t ts|y|y Hq]; cbn in *; try done.
    - apply Forall_cons in Hc as [Hc _]. eapply Hfire; [exact Hv|exact Hc|exact Hf|done].
    - apply Forall_cons in Hc as [Hc _]. eapply Hfire; [exact Hv|exact Hc|exact Hf|done].
  Qed.
End thms.

(** The bound of the query alone, where no field is defined by a sub-graph. *)
Definition no_subgraphs (g : graph) : Prop :=
  forall gn name f sg rq pr, node_of g gn -> find_field gn name = Some (GF f) -> gf_func f <> FChecked sg rq pr.
Theorem C05_bound_of_query E g q : no_subgraphs g -> max_calls E g q <= calls_bound q.
Proof.
  intros Hno. unfold max_calls, max_cost, calls_bound, costs.
  set (pr := price 0 (e_sgs E) (length (e_sgs E))).
  assert (forall gn name go, node_of g gn -> find_field gn name = Some go -> load_cost pr go = 1) as Hload.
  { intros gn name [f|l] Hgn Hf; cbn; [|done]. destruct (gf_func f) as [n|sg rq p] eqn:Ef; [done|]. by destruct (Hno _ _ _ sg rq p Hgn Hf). }
  assert (forall it gn, node_of g gn -> cost g pr gn it <= calls_item it) as Hc.
  { intros it. induction it as [nm o a|nm sub ord o a IH] using qitem_ind'; intros gn Hgn; cbn [cost calls_item q_name].
    - destruct (find_field gn nm) as [go|] eqn:Ef; [|lia]. by rewrite (Hload _ _ _ Hgn Ef).
    - destruct (find_field gn nm) as [[f|l]|] eqn:Ef; [rewrite (Hload _ _ _ Hgn Ef); lia| |lia].
      assert (match req_true l with Some r => match find_field gn r with Some go' => load_cost pr go' | None => 0 end | None => 0 end <= 1) as H1.
      { destruct (req_true l) as [r|]; [|lia]. destruct (find_field gn r) as [go|] eqn:Er; [|lia]. by rewrite (Hload _ _ _ Hgn Er). }
      assert (match find_node g (gl_node l) with Some gn' => list_sum (map (cost g pr gn') sub) | None => 0 end <= list_sum (map calls_item sub)) as H2; [|lia].
      destruct (find_node g (gl_node l)) as [gn'|] eqn:En; [|lia]. apply sum_le. intros it Hit. rewrite Forall_forall in IH. apply IH; [done|]. right; eauto. }
  apply sum_le. intros it _. apply Hc. by left.
Qed.

(** Example: a graph with a sub-graph; 10 loader calls in 10 rounds, at most 12 are possible. *)
From Verif Require Import Examples ExEngine ExSub.
#[local] Existing Instance ex_hasher.
Theorem C05_example :
  nested (e_sgs sub_env) /\ init_options high_graph sub_query = Ok sub_query' /\ no_fuel_exn sub_env /\
  start sub_env high_graph sub_query = Ok sub_start /\ rounds sub_env ex_fuel sub_run.1 sub_start sub_run.2 /\
  (length sub_run.1 =? 10) = true /\ (length (w_log sub_run.2.1) =? 10) = true /\
  (max_calls sub_env high_graph sub_query' =? 12) = true /\ (max_work sub_env high_graph sub_query' <? ex_fuel) = true.
Proof.
  split; [exact sub_nested|]. split; [exact sub_init|]. split.
  { split.
    - intros n c. cbn. unfold oracle_of. destruct (c_args c) as [? []|[[]|] ?]; done.
    - assert (forall A B (r : res A) (f : A -> res B), nof r -> (forall a, nof (f a)) -> nof (bindr r f)) as Hb.
      { intros A B r f Hr Hf. unfold bindr. destruct r as [a|e]; [apply Hf|]. intros [= ->]. by apply Hr. }
      assert (forall k t, nof (tree_get k t)) as Hg by (intros k [] ; cbn; try done; by apply nof_from_opt).
      assert (forall t, nof (tree_val t)) as Hv by (intros [[]| | |]; done).
      intros p t r o. change (nof (sub_proc p t r o)). unfold sub_proc.
      destruct (p =? 1)%N; [|destruct (p =? 2)%N]; repeat (apply Hb; [auto|intros ?]); auto; done. }
  split; [exact sub_started|]. split; [apply sub_rounds|]. by repeat (split; [vm_compute; reflexivity|]).
Qed.

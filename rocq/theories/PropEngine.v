(** Theorems about the execution of queries (C04 - C07): hiku/engine.py. *)
From stdpp Require Import relations.
From Verif Require Import Base Val Query QuerySpec QueryProof Graph Queue QueueSpec QueueProof PropQueue Result Engine EngineApi EngineSpec SplitProof EngineProof Examples.

Lemma calls_item_eq q : calls_item q = wt_item q.
Proof. reflexivity. Qed.
Lemma calls_bound_eq q : calls_bound q = wt_items (qfields q).
Proof. reflexivity. Qed.

Section thms.
  Context `{Hasher} (E : env) (g : graph) (D : data) (q q' : qnode).
  Hypothesis Hinit : init_options g q = Ok q'.
  Hypothesis Hserve : serves E D.
  Hypothesis Hresp : respects_options D.
  Hypothesis Hsup : supported g q'.
  Hypothesis Hlinks : links_ok g (plain_value D) D q'.
  Notation cinv := (cinv E g q' D (calls_bound q')).

  Lemma start_ok' : exists x, start E g q = Ok x /\ cinv (x, PIdle) /\ ndones (q_trace x.2) = 0.
  Proof. by eapply start_ok. Qed.

  (** C04: whatever the order and grouping in which finished calls are reported, an execution
      which has come to its end gives the result found by following the query from object
      to object. *)
  Theorem C04_result_independent_of_schedule_partial fuel sched r :
    execute E (S fuel) g q sched r ->
    exists idx, r = Ok (idx, q') /\ denormalize g idx q' = resolve_query g (plain_value D) D q'.
  Proof.
    destruct start_ok' as (x0 & Hx0 & Hc & _).
    assert (forall sched x r, executes (run_cb E) (S fuel) sched x r -> cinv (x, PIdle) ->
      exists y idx, r = Ok y /\ w_wfs y.1 = [Wf g q' 0 idx] /\ denormalize g idx q' = resolve_query g (plain_value D) D q') as Hmain.
    { clear sched r. intros sched x r He. remember (S fuel) as k eqn:Ek.
      induction He as [x Hf|dn x e H1 H2 H3 Hp|dn sched x y r H1 H2 H3 Hp He IH]; intros Hx; subst k.
      - destruct (final_ok E g q' D _ Hresp Hsup x Hx Hf) as (idx & Hw & Hd). eauto.
      - destruct (progress_ok E g q' D _ Hserve Hresp Hsup Hlinks fuel dn x Hx H1 H2 H3) as (y & Hy & _). congruence.
      - destruct (progress_ok E g q' D _ Hserve Hresp Hsup Hlinks fuel dn x Hx H1 H2 H3) as (y' & Hy & Hcy & _).
        rewrite Hp in Hy. injection Hy as <-. by apply IH. }
    intros He. destruct He as [e He|x sched e He Hx|x sched y v He Hx Hv].
    - congruence.
    - rewrite Hx0 in He. injection He as <-. apply Hmain in Hx as (y & idx & Hy & _); done.
    - rewrite Hx0 in He. injection He as <-. apply Hmain in Hx as (y' & idx & Hy & Hw & Hd); [|done].
      injection Hy as <-. rewrite Hw in Hv. injection Hv as <-. eauto.
  Qed.

  Theorem C04_same_result_for_all_schedules_partial fuel1 fuel2 sched1 sched2 r1 r2 :
    execute E (S fuel1) g q sched1 r1 -> execute E (S fuel2) g q sched2 r2 ->
    exists idx1 idx2, r1 = Ok (idx1, q') /\ r2 = Ok (idx2, q') /\ denormalize g idx1 q' = denormalize g idx2 q'.
  Proof.
    intros H1 H2. apply C04_result_independent_of_schedule_partial in H1 as (idx1 & -> & E1), H2 as (idx2 & -> & E2).
    exists idx1, idx2. split; [done|]. split; [done|]. congruence.
  Qed.

  (** This result exists: nothing is raised (records in field values aside, see C17). *)
  Theorem C04_result_exists_partial :
    (forall q0, q0 ∈ qfields q' -> only_links_nested g (g_root g) q0) ->
    exists t, resolve_query g (plain_value D) D q' = Ok t.
  Proof.
    intros Hs.
    assert (forall q0 gn n i, visited g q' gn n -> q0 ∈ qfields n -> only_links_nested g gn q0 ->
      exists t, resolve g (plain_value D) D gn i q0 = Ok (result_key q0, t)) as Hm.
    { intros q0. induction q0 as [nm o a|nm sub ord o a IH] using qitem_ind'; intros gn n i Hv Hq Ho.
      - pose proof (sp_items _ _ Hsup _ _ _ Hv Hq) as Hsp. simpl in *.
        destruct (find_field gn nm) as [[f|l]|]; [eauto|by destruct Hsp|done].
      - pose proof (sp_items _ _ Hsup _ _ _ Hv Hq) as Hsp. simpl in Ho, Hsp |- *.
        destruct (find_field gn nm) as [[f|l]|] eqn:Ef; [done| |done].
        destruct Hsp as (_ & [gn' Hn] & _). rewrite Hn in Ho |- *.
        set (q0 := QL nm sub ord o a) in *.
        assert (forall j, exists ps, mapR (resolve g (plain_value D) D gn' (Some j)) sub = Ok ps) as Hobj.
        { intros j. assert (visited g q' gn' (QN sub ord)) as Hv' by by apply (vis_link g q' gn n q0 l gn').
          assert (forall q1, q1 ∈ sub -> only_links_nested g gn' q1) as Ho'.
          { clear -Ho. induction sub as [|q1 sub IHs]; intros q2 Hq2; [by apply not_elem_of_nil in Hq2|].
            simpl in Ho. destruct Ho as [Ho1 Ho2]. apply elem_of_cons in Hq2 as [->|Hq2]; [done|]. by apply IHs. }
          assert (forall l, (forall q1, q1 ∈ l -> q1 ∈ sub) -> exists ps, mapR (resolve g (plain_value D) D gn' (Some j)) l = Ok ps) as Hl.
          { induction l0 as [|q1 l0 IHl]; intros Hin; [by exists []|]. simpl.
            rewrite Forall_forall in IH. destruct (IH q1 (Hin q1 ltac:(left)) gn' (QN sub ord) (Some j) Hv' (Hin q1 ltac:(left)) (Ho' q1 (Hin q1 ltac:(left)))) as (t & ->).
            destruct IHl as (ps & ->); [intros; apply Hin; by right|]. simpl. eauto. }
          by apply Hl. }
        set (v := link_value (plain_value D) D gn i l q0).
        destruct (gl_enum l).
        + destruct v eqn:Ev; rewrite <-?Ev; try (destruct (Hobj v) as (ps & ->); eauto). eauto.
        + destruct (Hobj v) as (ps & ->). eauto.
        + assert (exists ys, mapR (fun j => match mapR (resolve g (plain_value D) D gn' (Some j)) sub with Ok ps => Ok (TO (of_pairs ps)) | Err e => Err e end) (seq_items v) = Ok ys) as (ys & ->); [|eauto].
          induction (seq_items v) as [|j js IHj]; [by exists []|]. simpl. destruct (Hobj j) as (ps & ->).
          destruct IHj as (ys & ->). simpl. eauto. }
    unfold resolve_query.
    assert (forall l, (forall q1, q1 ∈ l -> q1 ∈ qfields q') -> exists ps, mapR (resolve g (plain_value D) D (g_root g) None) l = Ok ps) as Hl.
    { induction l as [|q1 l0 IHl]; intros Hin; [by exists []|]. simpl.
      destruct (Hm q1 (g_root g) q' None (vis_root g q') (Hin q1 ltac:(left)) (Hs q1 (Hin q1 ltac:(left)))) as (t & ->).
      destruct IHl as (ps & ->); [intros; apply Hin; by right|]. simpl. eauto. }
    destruct (Hl (qfields q')) as (ps & ->); eauto.
  Qed.

  Lemma rounds_inv fuel sched x y : start E g q = Ok x -> rounds E (S fuel) sched x y ->
    cinv (y, PIdle) /\ ndones (q_trace y.2) = length (concat sched) /\ length sched <= length (concat sched).
  Proof.
    intros Hx Hr. destruct start_ok' as (x0 & Hx0 & Hc & Hn). rewrite Hx in Hx0. injection Hx0 as <-.
    remember (S fuel) as k eqn:Ek. induction Hr as [x|sched dn x y z Hr IH H1 H2 H3 Hp]; subst k.
    - done.
    - destruct IH as (Hcy & Hny & Hl); [done..|].
      destruct (progress_ok E g q' D _ Hserve Hresp Hsup Hlinks fuel dn y Hcy H1 H2 H3) as (y' & Hy & Hcz & Hz).
      rewrite Hp in Hy. injection Hy as <-. split; [done|]. rewrite concat_app, !app_length. simpl. rewrite app_nil_r.
      split; [lia|]. destruct dn; [done|]. simpl. lia.
  Qed.

  (** C05: the number of rounds of an execution is bounded by the query alone ... *)
  Theorem C05_rounds_bounded_partial fuel sched x y :
    start E g q = Ok x -> rounds E (S fuel) sched x y ->
    length sched <= length (concat sched) /\ length (concat sched) <= calls_bound q'.
  Proof.
    intros Hx Hr. destruct (rounds_inv _ _ _ _ Hx Hr) as (Hc & Hn & Hl). split; [done|].
    destruct Hc as [_ [idx Hi] _ Hct]. simpl in *. pose proof (ei_bound _ _ _ _ _ _ _ _ _ _ Hi) as Hb.
    pose proof (ei_nfut _ _ _ _ _ _ _ _ _ _ Hi) as Hf. lia.
  Qed.

  (** ... and it is never stuck: while calls are unfinished every report of finished calls is
      processed without error. *)
  Theorem C05_never_stuck_partial fuel sched x y done :
    start E g q = Ok x -> rounds E (S fuel) sched x y ->
    done <> [] -> NoDup done -> (forall f, f ∈ done -> f ∈ q_futures y.2) ->
    exists z, progress (run_cb E) (S fuel) done y = Ok z.
  Proof.
    intros Hx Hr H1 H2 H3. destruct (rounds_inv _ _ _ _ Hx Hr) as (Hc & _).
    destruct (progress_ok E g q' D _ Hserve Hresp Hsup Hlinks fuel done y Hc H1 H2 H3) as (z & Hz & _). eauto.
  Qed.

  Lemma executes_rounds fuel sched sched2 x y r :
    rounds E fuel sched x y -> executes (run_cb E) fuel sched2 y r -> executes (run_cb E) fuel (sched ++ sched2) x r.
  Proof.
    intros Hr. revert sched2 r. induction Hr as [x|sched dn x y z Hr IH H1 H2 H3 Hp]; intros sched2 r He; [done|].
    rewrite <-app_assoc. apply IH. simpl. by eapply ex_step.
  Qed.

  (** An execution which was begun in any way can be brought to its end, in any way. *)
  Theorem C05_terminates_partial fuel sched x y :
    start E g q = Ok x -> rounds E (S fuel) sched x y ->
    exists sched2 r, execute E (S fuel) g q (sched ++ sched2) r.
  Proof.
    intros Hx Hr.
    assert (forall n sched y, rounds E (S fuel) sched x y -> calls_bound q' - length sched <= n ->
      exists sched2 z, rounds E (S fuel) (sched ++ sched2) x z /\ q_futures z.2 = []) as Hm.
    { clear sched y Hr. induction n as [|n IH]; intros sched y Hr Hn.
      - exists [], y. rewrite app_nil_r. split; [done|].
        destruct (q_futures y.2) as [|f fs] eqn:Ef; [done|]. exfalso.
        destruct (C05_never_stuck_partial fuel sched x y [f] Hx Hr) as (z & Hz); [done|apply NoDup_singleton| |].
        { intros f' ->%elem_of_list_singleton. rewrite Ef. left. }
        assert (rounds E (S fuel) (sched ++ [[f]]) x z) as Hr'.
        { eapply rd_snoc; [exact Hr|done|apply NoDup_singleton| |done]. intros f' ->%elem_of_list_singleton. rewrite Ef. left. }
        pose proof (C05_rounds_bounded_partial _ _ _ _ Hx Hr') as Hb. rewrite app_length in Hb. simpl in Hb. lia.
      - destruct (q_futures y.2) as [|f fs] eqn:Ef; [exists [], y; by rewrite app_nil_r|].
        destruct (C05_never_stuck_partial fuel sched x y [f] Hx Hr) as (z & Hz); [done|apply NoDup_singleton| |].
        { intros f' ->%elem_of_list_singleton. rewrite Ef. left. }
        assert (rounds E (S fuel) (sched ++ [[f]]) x z) as Hr'.
        { eapply rd_snoc; [exact Hr|done|apply NoDup_singleton| |done]. intros f' ->%elem_of_list_singleton. rewrite Ef. left. }
        destruct (IH _ _ Hr') as (s2 & w & Hw & Hfw); [rewrite app_length; simpl; lia|].
        exists ([f] :: s2), w. rewrite <-app_assoc in Hw. done. }
    destruct (Hm (calls_bound q' - length sched) sched y Hr) as (s2 & z & Hz & Hf); [lia|].
    destruct (rounds_inv _ _ _ _ Hx Hz) as (Hc & _).
    destruct (final_ok E g q' D _ Hresp Hsup z Hc Hf) as (idx & Hw & _).
    exists s2, (Ok (idx, q')). rewrite <-(app_nil_r (sched ++ s2)).
    change idx with (wf_index (Wf g q' 0 idx)). change q' with (wf_query (Wf g q' 0 idx)) at 2.
    eapply exec_ok; [exact Hx| |by rewrite Hw]. eapply executes_rounds; [exact Hz|]. by apply ex_stop.
  Qed.

  (** C06: at every moment the number of loader calls is bounded by the query, whatever the
      amount of data. *)
  Theorem C06_number_of_calls_partial fuel sched x y :
    start E g q = Ok x -> rounds E (S fuel) sched x y -> length (w_log y.1) <= calls_bound q'.
  Proof.
    intros Hx Hr. destruct (rounds_inv _ _ _ _ Hx Hr) as (Hc & _). destruct Hc as [_ [idx Hi] _ _]. simpl in Hi.
    pose proof (ei_bound _ _ _ _ _ _ _ _ _ _ Hi). lia.
  Qed.

  (** C07: a link's loader gets the values of the required field of the objects it is asked
      for, in their order, and the options of the query. *)
  Theorem C07_link_arguments_partial fuel sched x y c rq o :
    start E g q = Ok x -> rounds E (S fuel) sched x y -> c ∈ w_log y.1 -> c_args c = ALink rq o ->
    exists gn n l ql ids,
      visited g q' gn n /\ ql ∈ qfields n /\ find_field gn (q_name ql) = Some (GL l) /\
      c_func c = gl_func l /\ o = (match gl_opts l with [] => None | _ => Some (q_opts ql) end) /\
      match gl_requires l, ids with
      | None, _ => rq = None
      | Some r, None => gn = g_root g /\ rq = Some (ROne (IVal (field_value (plain_value D) gn None r None)))
      | Some r, Some is_ => rq = Some (RList (map (fun i => IVal (field_value (plain_value D) gn (Some i) r None)) is_))
      end.
  Proof.
    intros Hx Hr Hin Ha. destruct (rounds_inv _ _ _ _ Hx Hr) as (Hc & _). destruct Hc as [_ [idx Hi] _ _]. simpl in Hi.
    destruct (ei_log _ _ _ _ _ _ _ _ _ _ Hi _ Hin) as [(gn & qfs & ids & f & _ & Hf & _)|(gn & l & ql & ids & Ho & Hc & n & Hv & Hq & Hl & Hf)].
    - subst c. done.
    - subst c. simpl in *. injection Ha as <- <-. exists gn, n, l, ql, ids. split; [done|]. split; [done|]. split; [done|].
      split; [done|]. split; [done|]. unfold req_arg. destruct (gl_requires l) as [r|]; [|done]. destruct ids as [is_|]; [done|]. done.
  Qed.
End thms.

(** ** The hypotheses are met *)
From Verif Require Import ExEngine.
#[local] Existing Instance ex_hasher.
Example C04_applies eager fuel sched r : execute (ex_env eager) (S fuel) ex_graph ex_query sched r ->
  exists idx, r = Ok (idx, ex_query') /\ denormalize ex_graph idx ex_query' = Ok ex_result.
Proof.
  rewrite <-ex_resolved.
  exact (C04_result_independent_of_schedule_partial _ _ _ _ _ ex_init (ex_serves eager) ex_respects ex_supported ex_links_ok fuel sched r).
Qed.
(** ... by executions which differ *)
Example C04_executions : execute (ex_env false) ex_fuel ex_graph ex_query sched2 (Ok (ex_index sched2, ex_query')) /\
  execute (ex_env false) ex_fuel ex_graph ex_query sched3 (Ok (ex_index sched3, ex_query')) /\ ex_index sched2 <> ex_index sched3.
Proof. split; [apply ex_execute; do 1 right; left|]. split; [apply ex_execute; do 2 right; left|]. vm_compute. discriminate. Qed.
Example C04_exists_applies q0 : q0 ∈ qfields ex_query' -> only_links_nested ex_graph (g_root ex_graph) q0.
Proof.
  intros Hq. apply elem_of_list_In in Hq. vm_compute in Hq. repeat destruct Hq as [Hq|Hq]; try done; subst q0; vm_compute; tauto.
Qed.
Example C05_applies fuel sched x y : start (ex_env false) ex_graph ex_query = Ok x -> rounds (ex_env false) (S fuel) sched x y ->
  length (concat sched) <= 21 /\ length (w_log y.1) <= 21.
Proof.
  change 21 with (calls_bound ex_query').
  intros Hx Hr. split.
  - exact (proj2 (C05_rounds_bounded_partial _ _ _ _ _ ex_init (ex_serves false) ex_respects ex_supported ex_links_ok fuel sched x y Hx Hr)).
  - exact (C06_number_of_calls_partial _ _ _ _ _ ex_init (ex_serves false) ex_respects ex_supported ex_links_ok fuel sched x y Hx Hr).
Qed.
Example C05_rounds_exist : rounds (ex_env false) ex_fuel (take 7 sched2) ex_start (ex_end (take 7 sched2)) /\
  q_futures (ex_end (take 7 sched2)).2 <> [].
Proof. split; [exact ex_rounds|]. vm_compute. discriminate. Qed.
Example C07_call_exists : Call 10 false (ALink (Some (RList (repeat (IVal (VList [VInt 1; VInt 2])) 3))) (Some (Some [(s "first", VInt 10)])))
  ∈ w_log (ex_end (take 7 sched2)).1.
Proof. apply elem_of_list_In. vm_compute. tauto. Qed.

Print Assumptions C04_result_independent_of_schedule_partial.
Print Assumptions C04_same_result_for_all_schedules_partial.
Print Assumptions C04_result_exists_partial.
Print Assumptions C05_rounds_bounded_partial.
Print Assumptions C05_never_stuck_partial.
Print Assumptions C05_terminates_partial.
Print Assumptions C06_number_of_calls_partial.
Print Assumptions C07_link_arguments_partial.

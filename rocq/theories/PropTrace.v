(** Theorems about every execution, whatever the loaders do (C06, C07, C08, C14, C15, C16). *)
From stdpp Require Import relations.
From Verif Require Import Base Val Query QuerySpec Graph Queue QueueSpec QueueProof PropQueue Result Engine EngineSpec EngineApi SplitProof EngineTrace EngineDisc BatchProof.

Section thms.
  Context `{Hasher} (E : env).

  (** C06: when a node is processed for the objects [ids], each loader of a requested or
      required field is called once, with all the fields it serves and all the objects; then
      each link without requirements is called once.  No other call is made. *)
  Theorem C06_one_call_per_loader k w gn qs ids x y :
    process_node E (S k) w gn (QN qs false) ids x = Ok y ->
    (forall q, q ∈ loaded_fields gn qs -> is_Some (loader_of gn q)) ->
    (forall l q, (l, q) ∈ asked_links gn qs -> gl_requires l <> Some []) ->
    w_log y.1 = w_log x.1
      ++ map (fun f => Call f (e_ctx E f) (AFields (List.filter (fun q => bool_decide (loader_of gn q = Some f)) (loaded_fields gn qs)) ids))
             (firsts (omap (loader_of gn) (loaded_fields gn qs)))
      ++ map (fun p => Call (gl_func p.1) (e_ctx E (gl_func p.1)) (ALink None (match gl_opts p.1 with [] => None | _ => Some (q_opts p.2) end)))
             (List.filter (fun p => match gl_requires p.1 with None => true | Some _ => false end) (asked_links gn qs)).
  Proof. apply node_calls. Qed.
  (** ... in [firsts l] every element of [l] occurs once. *)
  Theorem C06_firsts {A} `{EqDecision A} (l : list A) : NoDup (firsts l) /\ forall x, x ∈ firsts l <-> x ∈ l.
  Proof. split; [apply NoDup_firsts|apply elem_firsts]. Qed.

  Section run.
    Context (fuel : nat) (g : graph) (q : qnode) (sched : list (list nat)) (x y : st).
    Hypothesis Hx : start E g q = Ok x.
    Hypothesis Hy : executes (run_cb E) fuel sched x (Ok y).

    (** C07: a link with requirements is scheduled only after the callback which stores its
        required field, for the same objects, has run; that is after the call which loads the
        field has finished. *)
    Theorem C07_after_required t1 t2 k w gn l ql ids :
      q_trace y.2 = t1 ++ EvFire k (CbSched w gn l ql ids) :: t2 ->
      exists r qfs, gl_requires l = Some r /\ QF r None None ∈ qfs /\
        ((exists fut, k = KF fut /\ EvDone fut ∈ t1 /\ EvFire k (CbStore w gn qfs ids fut) ∈ t1) \/
         (exists ts w' procs, k = KT ts /\ EvFire k (CbStoreSub w gn qfs ids w' procs) ∈ t1)).
    Proof.
      intros Ht. destruct (fired_before _ _ _ _ _ _ _ _ _ _ _ Hx Hy Ht) as [(c & r & Hc & Hs & Hr & Hq) Hd].
      apply elem_fired in Hc. exists r, (stored_fields c). split.
      { unfold req_true in Hr. destruct (gl_requires l) as [[|]|]; congruence. }
      split; [done|]. destruct c as [w' gn' qfs ids' fut|w' gn' qfs ids' w'' pr|w' gn' l' q' ids'|w' gn' l' q' ids' fut|w' gn' st' ids']; simpl in *; try done.
      - destruct Hs as (-> & -> & -> & ->). left. exists fut. split; [done|]. split; [by apply Hd|done].
      - destruct Hs as ([ts ->] & -> & -> & ->). right. eauto.
      - by apply not_elem_of_nil in Hq.
    Qed.

    (** C08: the rest of the steps of an ordered node goes on only after the result of the
        step before was stored. *)
    Theorem C08_previous_step_finished t1 t2 k w gn steps ids :
      q_trace y.2 = t1 ++ EvFire k (CbProc w gn steps ids) :: t2 ->
      (exists fut, k = KF fut /\ EvDone fut ∈ t1 /\
         ((exists qfs, EvFire k (CbStore w gn qfs ids fut) ∈ t1) \/
          (exists l ql, EvFire k (CbLink w gn l ql ids fut) ∈ t1))) \/
      (exists ts qfs w' procs, k = KT ts /\ EvFire k (CbStoreSub w gn qfs ids w' procs) ∈ t1).
    Proof.
      intros Ht. destruct (fired_before _ _ _ _ _ _ _ _ _ _ _ Hx Hy Ht) as [(c & Hc & Hs) Hd].
      apply elem_fired in Hc.
      destruct c as [w' gn' qfs ids' fut|w' gn' qfs ids' w'' pr|w' gn' l' q' ids'|w' gn' l' q' ids' fut|w' gn' st' ids']; simpl in *; try done.
      - destruct Hs as (-> & -> & -> & ->). left. exists fut. split; [done|]. split; [by apply Hd|eauto].
      - destruct Hs as ([ts ->] & -> & -> & ->). right. eauto 6.
      - destruct Hs as (-> & -> & -> & ->). left. exists fut. split; [done|]. split; [by apply Hd|eauto].
    Qed.

    (** C14 for the engine, including sub-graphs *)
    Theorem C14_engine_callbacks :
      (forall k, added k (q_trace y.2) = fired k (q_trace y.2) ++ pending k y.2) /\
      fires_after_completion (q_trace y.2).
    Proof.
      split.
      - intros k. by eapply (C14_exactly_once_in_order (run_cb E) _ _ _ _ _ (run_cb_api E) (start_api E _ _ _ Hx)).
      - destruct (exec_dcfg E _ _ _ _ _ _ Hx Hy) as [[[Hd _] _ _] _]. apply Hd.
    Qed.

    (** C15 for the engine, including sub-graphs: all the work registered has been done. *)
    Theorem C15_engine_drained : sched <> [] ->
      q_futs y.2 = [] /\ q_forks y.2 = [] /\ q_cbs y.2 = [] /\
      forall k, fired k (q_trace y.2) = added k (q_trace y.2).
    Proof.
      intros Hs. destruct (exec_dcfg E _ _ _ _ _ _ Hx Hy) as [[[Hd _] _ _] Hf]. simpl in *.
      destruct (drained _ Hd (executes_idle _ _ _ _ _ Hy Hs) Hf) as (H1 & H2 & H3).
      split; [done|]. split; [done|]. split; [done|]. intros k. destruct C14_engine_callbacks as [Ha _].
      rewrite Ha. unfold pending. rewrite H3. simpl. by rewrite app_nil_r.
    Qed.

    (** C16: an execution which gives a result has got an answer from every call it made. *)
    Theorem C16_no_partial_result n c e : w_log y.1 !! n = Some c -> e_oracle E n c <> Raise e.
    Proof.
      intros Hn. destruct (exec_dcfg E _ _ _ _ _ _ Hx Hy) as [[[Hd _] Hp _] Hf]. simpl in *.
      destruct (p_calls _ _ _ _ Hp _ _ Hn) as [Ha|(c' & Hc & _)]; [apply Ha|]. exfalso.
      destruct Hc as [Hc|Hc]; [by apply not_elem_of_nil in Hc|].
      unfold pending in Hc. destruct (dget (KF n) (q_cbs y.2)) eqn:Ek; [|by apply not_elem_of_nil in Hc].
      destruct (di_cbf _ _ _ _ Hd n) as [Hin|Hin].
      - apply dget_is_Some. eauto.
      - rewrite Hf in Hin. by apply not_elem_of_nil in Hin.
      - by apply not_elem_of_nil in Hin.
    Qed.
  End run.

  (** ** Failures *)
  Lemma rounds_steps fuel sched x y : rounds E fuel sched x y -> rtc (qstep (run_cb E)) (x, PIdle) (y, PIdle).
  Proof.
    induction 1 as [x|sched dn x y z Hr IH H1 H2 H3 Hp]; [apply rtc_refl|].
    etrans; [exact IH|]. exact (progress_steps _ _ _ _ (Ok z) H1 H2 H3 Hp).
  Qed.

  (** C16: as soon as a call which raised is reported, the execution raises. *)
  Theorem C16_failure_is_raised fuel g q sched x y done f c e :
    start E g q = Ok x -> rounds E fuel sched x y ->
    done <> [] -> NoDup done -> (forall f, f ∈ done -> f ∈ q_futures y.2) ->
    f ∈ done -> w_log y.1 !! f = Some c -> e_oracle E f c = Raise e ->
    exists e', progress (run_cb E) fuel done y = Err e'.
  Proof.
    intros Hx Hr H1 H2 H3 Hf Hc He. destruct (progress (run_cb E) fuel done y) as [z|e'] eqn:Hp; [|eauto]. exfalso.
    assert (rounds E fuel (sched ++ [done]) x z) as Hr' by by eapply rd_snoc.
    assert (dcfg E (y, PIdle)) as Hdy by (eapply dcfg_rtc; [by eapply start_dcfg|by eapply rounds_steps]).
    assert (dcfg E (z, PIdle)) as Hdz by (eapply dcfg_rtc; [by eapply start_dcfg|by eapply rounds_steps]).
    assert (w_log z.1 !! f = Some c) as Hcz.
    { eapply (dcfg_log_rtc E (y, PIdle) (z, PIdle)); [done| |done]. exact (progress_steps _ _ _ _ (Ok z) H1 H2 H3 Hp). }
    assert (f ∉ q_futures z.2) as Hfz.
    { assert (past z.2) as Hpz.
      { eapply (past_rtc E (x, PIdle) (z, PIdle)); [by eapply start_dcfg| |intros; apply not_elem_of_nil|by eapply rounds_steps].
        simpl. eapply past_uses; [by eapply start_dcfg|]. intros f' Hf'. by apply not_elem_of_nil in Hf'. }
      apply Hpz. assert (EvDone f ∈ q_trace (x.1, q_emit (EvDone f) z.2).2) as _ by (simpl; apply elem_snoc'; by right).
      pose proof (run_cb_api E) as Ha. unfold progress in Hp. destruct (foldR _ _ done) as [u|] eqn:Eu; [|done].
      pose proof (dones_loop _ _ Ha _ _ Hp) as D1. pose proof (dones_futs _ _ Ha _ _ Eu) as D2. simpl in D2.
      assert (f ∈ dones (q_trace z.2)) as Hd. { rewrite D1, D2. apply elem_of_app. by right. }
      unfold dones in Hd. apply elem_of_list_omap in Hd as (ev & Hev & Hx'). destruct ev; try done. by simplify_eq. }
    destruct Hdz as [[Hd _] Hpi _]. simpl in *.
    destruct (p_calls _ _ _ _ Hpi _ _ Hcz) as [Ha|(c' & Hc' & _)]; [by eapply Ha|].
    destruct Hc' as [Hc'|Hc']; [by apply not_elem_of_nil in Hc'|].
    unfold pending in Hc'. destruct (dget (KF f) (q_cbs z.2)) eqn:Ek; [|by apply not_elem_of_nil in Hc'].
    destruct (di_cbf _ _ _ _ Hd f) as [Hin|Hin].
    - apply dget_is_Some. eauto.
    - done.
    - by apply not_elem_of_nil in Hin.
  Qed.

  (** ... namely its exception, when it is the first one to be looked at. *)
  Theorem C16_raises_its_exception fuel g q sched x y done f c e :
    start E g q = Ok x -> rounds E fuel sched x y ->
    NoDup (f :: done) -> (forall f', f' ∈ f :: done -> f' ∈ q_futures y.2) ->
    w_log y.1 !! f = Some c -> e_oracle E f c = Raise e ->
    progress (run_cb E) fuel (f :: done) y = Err e.
  Proof.
    intros Hx Hr H2 H3 Hc He.
    assert (rtc (qstep (run_cb E)) (x, PIdle) (y, PIdle)) as Hs by by eapply rounds_steps.
    assert (dcfg E (y, PIdle)) as Hdy by (eapply dcfg_rtc; [by eapply start_dcfg|done]).
    assert (past y.2) as Hpy.
    { eapply (past_rtc E (x, PIdle) (y, PIdle)); [by eapply start_dcfg| |intros; apply not_elem_of_nil|done].
      simpl. eapply past_uses; [by eapply start_dcfg|]. intros f' Hf'. by apply not_elem_of_nil in Hf'. }
    assert (tinv (y, PIdle)) as (Hg & Hdb & _).
    { eapply tinv_rtc; [|exact Hs]. by eapply start_tinv. }
    simpl in Hg, Hdb.
    assert (added (KF f) (q_trace y.2) = fired (KF f) (q_trace y.2) ++ pending (KF f) y.2) as Ha.
    { pose proof (once_uses _ _ _ _ (start_api E _ _ _ Hx) once_empty) as H0.
      destruct (once_rtc (run_cb E) _ _ (run_cb_api E) Hs H0) as [_ Ho]. by apply Ho. }
    assert (fired (KF f) (q_trace y.2) = []) as Hf0.
    { apply elem_of_nil_inv. intros c1 Hc1. apply elem_fired in Hc1. apply elem_of_list_split in Hc1 as (t1 & t2 & Ht).
      assert (EvDone f ∈ q_trace y.2) as Hdone by (rewrite Ht; apply elem_of_app; left; by eapply Hdb).
      apply (Hpy f Hdone). apply H3. left. }
    rewrite Hf0 in Ha. simpl in Ha.
    destruct Hdy as [_ Hp _]. simpl in Hp.
    destruct (p_calls _ _ _ _ Hp _ _ Hc) as [Hans|(c' & Hc' & _)]; [by destruct (Hans e)|].
    destruct Hc' as [Hc'|Hc']; [by apply not_elem_of_nil in Hc'|].
    destruct (pending (KF f) y.2) as [|c0 cs] eqn:Ep; [by apply not_elem_of_nil in Hc'|].
    pose proof (Hg (KF f) [] c0 cs Ha) as Hgood.
    unfold progress. cbn [foldR]. unfold fire_fut at 1. unfold q_pop. unfold pending in Ep.
    cbn [q_emit q_cbs q_difference fst snd]. rewrite Ep. cbn [foldR]. unfold fire at 1.
    assert (forall q1, run_cb E c0 (y.1, q1) = Err e) as Hrun.
    { intros q1. destruct c0 as [w' gn' qfs ids' fut|w' gn' qfs ids' w'' pr|w' gn' l' q' ids'|w' gn' l' q' ids' fut|w' gn' st' ids']; simpl in Hgood.
      - injection Hgood as <-. unfold run_cb, fut_result. simpl. by rewrite Hc, He.
      - by destruct Hgood.
      - destruct Hgood as (? & ? & Hin & _). by apply not_elem_of_nil in Hin.
      - injection Hgood as <-. unfold run_cb, fut_result. simpl. by rewrite Hc, He.
      - destruct Hgood as (? & Hin & _). by apply not_elem_of_nil in Hin. }
    cbn [fst snd]. by rewrite Hrun.
  Qed.

  (** ** Ordered nodes *)
  Definition plain_step (sp : step) : Prop := match sp with StFields (KSub _) _ => False | _ => True end.
  (** C08: running the steps of an ordered node makes exactly one call, that of the first
      step; the other steps wait for its future, after the callback which stores its result. *)
  Theorem C08_one_step_at_a_time pn w gn sp rest ids x y :
    plain_step sp -> proc_steps E pn w gn (sp :: rest) ids x = Ok y ->
    exists v fut a store,
      w_wfs x.1 !! w = Some v /\
      w_log y.1 = w_log x.1 ++ [a] /\ fut = length (w_log x.1) /\
      match sp with
      | StFields (KPlain f) l => a = Call f (e_ctx E f) (AFields (map snd l) ids) /\ store = CbStore w gn (map snd l) ids fut
      | StLink l q => c_func a = gl_func l /\ store = CbLink w gn l q ids fut
      | _ => False
      end /\
      q_trace y.2 = q_trace x.2 ++ [EvSubmit (wf_ts v) (q_nfut x.2); EvAdd (KF fut) store]
        ++ (match rest with [] => [] | _ => [EvAdd (KF fut) (CbProc w gn rest ids)] end).
  Proof.
    assert (forall f a fut x', submit E w f a x = Ok (fut, x') -> exists v, w_wfs x.1 !! w = Some v /\ fut = length (w_log x.1) /\
      w_log x'.1 = w_log x.1 ++ [Call f (e_ctx E f) a] /\ q_trace x'.2 = q_trace x.2 ++ [EvSubmit (wf_ts v) (q_nfut x.2)]) as Hsub.
    { intros f a fut x' Hs. pose proof (submit_log _ _ _ _ _ _ _ Hs) as Hl. unfold submit, get_wf in Hs.
      destruct (w_wfs x.1 !! w) as [v|]; [|done]. simpl in Hs. exists v. split; [done|].
      unfold q_submit in Hs. destruct (dget (wf_ts v) (q_futs x.2)) as [fs|];
        destruct (e_eager E); try destruct (e_oracle E _ _); try done; by simplify_eq/=. }
    intros Hp Hy. unfold proc_steps in Hy. destruct sp as [[f|sg] l|l q]; [|done|].
    - unfold schedule_fields in Hy. destruct (submit E w f _ x) as [[fut x1]|] eqn:Es; [|done].
      apply Hsub in Es as (v & Hv & -> & Hl & Ht). exists v, (length (w_log x.1)), (Call f (e_ctx E f) (AFields (map snd l) ids)), (CbStore w gn (map snd l) ids (length (w_log x.1))).
      injection Hy as <-. split; [done|]. split; [by destruct rest|]. split; [done|]. split; [done|].
      destruct rest; simpl; rewrite Ht, <-?app_assoc; done.
    - unfold schedule_link in Hy. destruct (get_wf w x) as [v0|]; [|done]. 
      destruct (match req_true l with Some _ => _ | None => _ end) as [rq|]; [|done].
      destruct (submit E w _ _ x) as [[fut x1]|] eqn:Es; [|done].
      apply Hsub in Es as (v & Hv & -> & Hl & Ht). eexists v, (length (w_log x.1)), _, (CbLink w gn l q ids (length (w_log x.1))).
      injection Hy as <-. split; [done|]. split; [destruct rest; exact Hl|]. split; [done|]. split; [done|].
      destruct rest; simpl; rewrite Ht, <-?app_assoc; done.
  Qed.

  (** C08: the steps are the members of the node in their order, a required field before its
      link; fields of one loader which follow each other form one step. *)
  Theorem C08_steps gn qs steps :
    (forall l q, (l, q) ∈ asked_links gn qs -> gl_requires l <> Some []) ->
    group_query gn qs = Ok steps ->
    concat (map step_items steps) = in_turn gn qs /\
    (forall fk l, StFields fk l ∈ steps -> l <> [] /\ forall go q, (go, q) ∈ l -> find_field gn (q_name q) = Some go /\ fkey_of go = fk) /\
    (forall l q, StLink l q ∈ steps -> find_field gn (q_name q) = Some (GL l)) /\
    (forall before k1 l1 k2 l2 after, steps = before ++ StFields k1 l1 :: StFields k2 l2 :: after -> k1 <> k2).
  Proof.
    intros Hne. unfold group_query. destruct (foldR _ _ qs) as [[sts last]|] eqn:Ef; [|done]. intros [= <-]. simpl.
    set (good := fun (acc : group_t) (done : list qitem) =>
      concat (map step_items acc.1) = done /\
      (forall fk l, StFields fk l ∈ acc.1 -> l <> [] /\ forall go q, (go, q) ∈ l -> find_field gn (q_name q) = Some go /\ fkey_of go = fk) /\
      (forall l q, StLink l q ∈ acc.1 -> find_field gn (q_name q) = Some (GL l)) /\
      (forall before k1 l1 k2 l2 after, acc.1 = before ++ StFields k1 l1 :: StFields k2 l2 :: after -> k1 <> k2) /\
      (match acc.2 with
       | Some fk => exists before l, acc.1 = before ++ [StFields fk l]
       | None => forall before k l, acc.1 <> before ++ [StFields k l]
       end)).
    assert (forall acc done q acc', good acc done -> group_field gn acc q = Ok acc' -> good acc' (done ++ [q])) as Hfield.
    { intros acc dn q acc' (G1 & G2 & G3 & G4 & G5). unfold group_field. destruct (find_field gn (q_name q)) as [go|] eqn:Eg; [|done].
      destruct (decide (acc.2 = Some (fkey_of go))) as [Hd|Hd].
      - rewrite Hd in G5. destruct G5 as (before & l & Hb). rewrite Hb, List.rev_app_distr. simpl. rewrite List.rev_involutive. intros [= <-].
        rewrite Hb in *. unfold good. simpl. split; [|split; [|split; [|split]]].
        + rewrite <-G1, !map_app, !concat_app. simpl. rewrite map_app, !app_nil_r, <-app_assoc. done.
        + intros fk l' Hin. apply elem_snoc' in Hin as [Hin|[= -> ->]]; [apply G2; apply elem_snoc'; by left|].
          destruct (G2 (fkey_of go) l) as [_ G2']; [apply elem_snoc'; by right|]. split; [by destruct l|].
          intros go' q' Hin. apply elem_snoc' in Hin as [Hin|[= -> ->]]; [by apply G2'|done].
        + intros l' q' Hin. apply elem_snoc' in Hin as [Hin|?]; [|done]. apply G3. apply elem_snoc'. by left.
        + intros b k1 l1 k2 l2 a Heq. destruct a as [|z a _] using rev_ind.
          * assert (before ++ [StFields (fkey_of go) (l ++ [(go, q)])] = (b ++ [StFields k1 l1]) ++ [StFields k2 l2]) as Heq' by (rewrite Heq, <-app_assoc; done).
            apply app_inj_tail in Heq' as [-> [= <- _]]. apply (G4 b k1 l1 (fkey_of go) l []). by rewrite <-app_assoc.
          * assert (before ++ [StFields (fkey_of go) (l ++ [(go, q)])] = (b ++ StFields k1 l1 :: StFields k2 l2 :: a) ++ [z]) as Heq' by (rewrite Heq, <-app_assoc; done).
            apply app_inj_tail in Heq' as [-> _]. apply (G4 b k1 l1 k2 l2 (a ++ [StFields (fkey_of go) l])). by rewrite <-app_assoc.
        + rewrite Hd. eauto.
      - intros [= <-]. unfold good. simpl. split; [|split; [|split; [|split]]].
        + rewrite <-G1, map_app, concat_app. simpl. done.
        + intros fk l' Hin. apply elem_snoc' in Hin as [Hin|[= -> ->]]; [by apply G2|]. split; [done|].
          intros go' q' [= -> ->]%elem_of_list_singleton. done.
        + intros l' q' Hin. apply elem_snoc' in Hin as [Hin|?]; [|done]. by apply G3.
        + intros b k1 l1 k2 l2 a Heq. destruct a as [|z a _] using rev_ind.
          * assert (acc.1 ++ [StFields (fkey_of go) [(go, q)]] = (b ++ [StFields k1 l1]) ++ [StFields k2 l2]) as Heq' by (rewrite Heq, <-app_assoc; done).
            apply app_inj_tail in Heq' as [Heq' [= <- _]]. destruct acc.2 as [fk|].
            -- destruct G5 as (b' & l' & Hb'). rewrite Hb' in Heq'. apply app_inj_tail in Heq' as [_ [= -> _]]. congruence.
            -- by apply G5 in Heq'.
          * assert (acc.1 ++ [StFields (fkey_of go) [(go, q)]] = (b ++ StFields k1 l1 :: StFields k2 l2 :: a) ++ [z]) as Heq' by (rewrite Heq, <-app_assoc; done).
            apply app_inj_tail in Heq' as [Heq' _]. by eapply G4.
        + eauto. }
    assert (good (sts, last) (in_turn gn qs)) as (G1 & G2 & G3 & G4 & _); [|done].
    revert sts last Ef. induction qs as [|q qs IH] using rev_ind; intros sts last Ef.
    - simpl in Ef. injection Ef as <- <-. unfold good. simpl. split; [done|]. split; [intros ?? Hx; by apply not_elem_of_nil in Hx|].
      split; [intros ?? Hx; by apply not_elem_of_nil in Hx|]. split; [intros [|? ?]; done|intros [|? ?]; done].
    - rewrite foldR_app in Ef. destruct (foldR _ _ qs) as [[st0 la0]|] eqn:E0; [|done].
      assert (asked_links gn (qs ++ [q]) = asked_links gn qs ++ asked_links gn [q]) as Hal by (unfold asked_links; by rewrite omap_app).
      assert (in_turn gn (qs ++ [q]) = in_turn gn qs ++ in_turn gn [q]) as Hit by (unfold in_turn; by rewrite flat_map_app).
      rewrite Hal in Hne. specialize (IH ltac:(intros l q' Hin; apply (Hne l q'); apply elem_of_app; by left) _ _ eq_refl).
      rewrite Hit. simpl in Ef. destruct (group_item gn (st0, la0) q) as [acc|] eqn:Ei; [|done]. injection Ef as ->.
      unfold group_item in Ei. unfold in_turn at 2. simpl. rewrite app_nil_r. destruct q as [n o a|n sub ord o a].
      + by eapply Hfield.
      + simpl in Ei |- *. destruct (find_field gn n) as [[f|l]|] eqn:En; [done| |done].
        assert (gl_requires l <> Some []) as Hl.
        { apply (Hne l (QL n sub ord o a)). apply elem_of_app. right. unfold asked_links. simpl. rewrite En. left. }
        assert (forall acc' dn, good acc' dn -> Ok (acc'.1 ++ [StLink l (QL n sub ord o a)], @None fkey) = Ok (sts, last) -> good (sts, last) (dn ++ [QL n sub ord o a])) as Hlink.
        { intros acc' dn (G1 & G2 & G3 & G4 & G5) [= <- <-]. unfold good. simpl. split; [|split; [|split; [|split]]].
          - rewrite <-G1, map_app, concat_app. done.
          - intros fk l' Hin. apply elem_snoc' in Hin as [Hin|?]; [|done]. by apply G2.
          - intros l' q' Hin. apply elem_snoc' in Hin as [Hin|[= -> ->]]; [by apply G3|done].
          - intros b k1 l1 k2 l2 a' Heq. destruct a' as [|z a' _] using rev_ind.
            + assert (acc'.1 ++ [StLink l (QL n sub ord o a)] = (b ++ [StFields k1 l1]) ++ [StFields k2 l2]) as Heq' by (rewrite Heq, <-app_assoc; done).
              by apply app_inj_tail in Heq' as [_ ?].
            + assert (acc'.1 ++ [StLink l (QL n sub ord o a)] = (b ++ StFields k1 l1 :: StFields k2 l2 :: a') ++ [z]) as Heq' by (rewrite Heq, <-app_assoc; done).
              apply app_inj_tail in Heq' as [Heq' _]. by eapply G4.
          - intros b k l' Heq. by apply app_inj_tail in Heq as [_ ?]. }
        unfold req_true in Ei. destruct (gl_requires l) as [[|c r]|]; [done| |].
        * destruct (group_field gn (st0, la0) (QF (c :: r) None None)) as [acc'|] eqn:Eg; [|done].
          apply (Hfield _ _ _ _ IH) in Eg.
          change (in_turn gn qs ++ [QF (c :: r) None None; QL n sub ord o a]) with (in_turn gn qs ++ [QF (c :: r) None None] ++ [QL n sub ord o a]).
          rewrite app_assoc. by eapply Hlink.
        * by eapply (Hlink (st0, la0)).
  Qed.
End thms.

(** ** The hypotheses are met *)
From Verif Require Import Examples ExEngine.
#[local] Existing Instance ex_hasher.
(** The root of the example: three field loaders (one for two fields), two links of which one
    has requirements. *)
Example C06_applies : exists y,
  process_node (ex_env false) 5 0 (g_root ex_graph) (QN (qfields ex_query') false) None (World [Wf ex_graph ex_query' 0 []] [], MkQ [(0, [])] [(0, [])] [] 0 1 []) = Ok y /\
  (forall q, q ∈ loaded_fields (g_root ex_graph) (qfields ex_query') -> is_Some (loader_of (g_root ex_graph) q)) /\
  (forall l q, (l, q) ∈ asked_links (g_root ex_graph) (qfields ex_query') -> gl_requires l <> Some []) /\
  map c_func (w_log y.1) = [3; 4; 12; 14]%N.
Proof.
  eexists. split; [vm_compute; reflexivity|]. split; [|split; [|vm_compute; reflexivity]].
  - intros q Hq. apply elem_of_list_In in Hq. vm_compute in Hq. repeat destruct Hq as [Hq|Hq]; try done; subst q; vm_compute; eauto.
  - intros l q Hq. apply elem_of_list_In in Hq. vm_compute in Hq. repeat destruct Hq as [Hq|Hq]; try done; inversion Hq; subst; done.
Qed.
Lemma ex_executes : executes (run_cb (ex_env false)) ex_fuel sched2 ex_start (Ok (ex_end sched2)).
Proof. apply run_rounds_executes; vm_compute; reflexivity. Qed.
Definition is_sched (e : qev cb) : bool := match e with EvFire _ (CbSched _ _ _ _ _) => true | _ => false end.
Definition is_proc (e : qev cb) : bool := match e with EvFire _ (CbProc _ _ _ _) => true | _ => false end.
(** Its trace has the events the theorems speak of. *)
Example C07_C08_apply : length (List.filter is_sched (q_trace (ex_end sched2).2)) = 3 /\ length (List.filter is_proc (q_trace (ex_end sched2).2)) = 3.
Proof. split; vm_compute; reflexivity. Qed.
Lemma split_at {A} (p : A -> bool) (l : list A) e rest : List.filter p l = e :: rest -> exists l1 l2, l = l1 ++ e :: l2.
Proof. intros Hf. assert (In e l) as Hi; [|by apply in_split]. apply (proj1 (filter_In p e l)). rewrite Hf. by left. Qed.
Example C15_applies : q_futs (ex_end sched2).2 = [] /\ q_cbs (ex_end sched2).2 = [].
Proof.
  assert (sched2 <> []) as Hs by discriminate.
  exact (let H := C15_engine_drained _ _ _ _ _ _ _ ex_started ex_executes Hs in conj (proj1 H) (proj1 (proj2 (proj2 H)))).
Qed.
(** A loader which raises: the same example, the loader of [users] fails. *)
Definition ex_env_fail : env :=
  Env [] (fun n c => if (c_func c =? 12)%N then Raise (UserErr 5) else oracle_of ex_data c) (fun f => (f =? 12)%N) (fun _ _ _ _ => Err KeyError) false.
Example C16_applies : exists x c, start ex_env_fail ex_graph ex_query = Ok x /\ q_futures x.2 = [0; 1; 2; 3] /\
  w_log x.1 !! 2 = Some c /\ e_oracle ex_env_fail 2 c = Raise (UserErr 5) /\
  progress (run_cb ex_env_fail) ex_fuel [2; 0] x = Err (UserErr 5) /\ exists y, progress (run_cb ex_env_fail) ex_fuel [0; 1] x = Ok y.
Proof.
  eexists _, _. split; [vm_compute; reflexivity|]. repeat (split; [vm_compute; reflexivity|]). vm_compute. eauto.
Qed.
Example C08_applies : exists steps, group_query ex_user (qfields (q_node (QL (s "me") [QF (s "name") None None; QL (s "boss") [QF (s "name") None None] false None None;
                   QF (s "name") None (Some (s "name2"))] true None None))) = Ok steps /\ length steps = 4.
Proof. eexists. split; vm_compute; reflexivity. Qed.

Print Assumptions C06_one_call_per_loader.
Print Assumptions C06_firsts.
Print Assumptions C07_after_required.
Print Assumptions C08_previous_step_finished.
Print Assumptions C14_engine_callbacks.
Print Assumptions C15_engine_drained.
Print Assumptions C16_no_partial_result.
Print Assumptions C16_failure_is_raised.
Print Assumptions C16_raises_its_exception.
Print Assumptions C08_one_step_at_a_time.
Print Assumptions C08_steps.

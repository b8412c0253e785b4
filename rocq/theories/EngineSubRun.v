(** Executions of queries with expressions over sub-graphs: every configuration of the executor's loop. *)
From stdpp Require Import relations.
From Verif Require Import Base Val Query QuerySpec Graph Queue QueueSpec QueueProof Result Engine EngineSpec SplitProof BatchProof EngineDisc SubSpec SubJob EngineSub.

(** While the members of the root are scheduled no task set is forked *)
Section nofork.
  Context `{Hasher} (E : env) (pn : nat -> gnode -> qnode -> option (list val) -> st -> res st).
  Notation same x y := (q_forks y.2 = q_forks x.2).
  Lemma nf_submit w f a x n y : submit E w f a x = Ok (n, y) -> same x y.
  Proof.
    unfold submit. destruct (get_wf w x) as [v|]; [|done]. cbn zeta.
    assert (match q_submit (wf_ts v) x.2 with Ok (_, q') => Ok (length (w_log x.1), (World (w_wfs x.1) (w_log x.1 ++ [Call f (e_ctx E f) a]), q')) | Err e => Err e end
            = Ok (n, y) -> q_forks y.2 = q_forks x.2) as Hq.
    { unfold q_submit. destruct (dget (wf_ts v) _); [|done]. by intros [= <- <-]. }
    destruct (e_eager E); [|done]. by destruct (e_oracle E _ _).
  Qed.
  Lemma nf_fields w gn fk fields x k y : schedule_fields E pn w gn fk fields None x = Ok (k, y) -> same x y.
  Proof.
    unfold schedule_fields. destruct fk as [f|sg]; [|done].
    destruct (submit _ _ _ _ _) as [[n x1]|] eqn:Es; [|done]. intros [= <- <-]. apply nf_submit in Es. cbn. done.
  Qed.
  Lemma nf_link w gn l q ids x k y : schedule_link E w gn l q ids x = Ok (k, y) -> same x y.
  Proof.
    unfold schedule_link. destruct (get_wf w x) as [v|]; [|done]. cbn zeta.
    destruct (match req_true l with None => _ | Some _ => _ end) as [a|]; [|done].
    destruct (submit _ _ _ _ _) as [[n x1]|] eqn:Es; [|done]. intros [= <- <-]. apply nf_submit in Es. cbn. done.
  Qed.
  Lemma nf_body w gn q x y : process_node_body E pn w gn q None x = Ok y -> same x y.
  Proof.
    unfold process_node_body. destruct (qordered q).
    - destruct (group_query gn _) as [[|sp steps]|]; [by intros [= <-]| |done]. unfold proc_steps.
      destruct sp as [fk l|l q'].
      + destruct (schedule_fields _ _ _ _ _ _ _ _) as [[k x1]|] eqn:Ef; [|done]. apply nf_fields in Ef.
        destruct steps; intros [= <-]; done.
      + destruct (schedule_link _ _ _ _ _ _ _) as [[k x1]|] eqn:Ef; [|done]. apply nf_link in Ef.
        destruct steps; intros [= <-]; done.
    - destruct (split_query gn _) as [[fields links]|]; [|done]. cbn zeta.
      destruct (schedule_groups _ _ _ _ _ _ _) as [[td x1]|] eqn:Eg; [|done]. intros Hl.
      assert (same x x1) as H1.
      { clear Hl. unfold schedule_groups in Eg. revert Eg.
        generalize (fold_left (fun (d : dict fkey (list (gitem * qitem))) t => dappend t.1.1 (t.1.2, t.2) d) fields []). intros gs.
        assert (forall a b : dict fkey ckey * st, foldR (fun acc g0 => match schedule_fields E pn w gn g0.1 g0.2 None acc.2 with
                  | Ok (dep, x') => Ok (dset g0.1 dep acc.1, x') | Err e => Err e end) a gs = Ok b -> same a.2 b.2) as Hg; [|intros Hx; apply (Hg _ _ Hx)].
        induction gs as [|[fk its] gs IH]; intros a b; cbn [foldR]; [by intros [= <-]|]. cbn [fst snd].
        destruct (schedule_fields _ _ _ _ _ _ _ _) as [[k x2]|] eqn:Ef; [|done]. apply nf_fields in Ef.
        intros Hr%IH. rewrite Hr. done. }
      rewrite <-H1. clear -Hl. revert x1 Hl. unfold schedule_links. induction links as [|[l q'] links IH]; intros x1; cbn [foldR]; [by intros [= <-]|].
      cbn [fst snd]. destruct (req_true l) as [r|].
      + destruct (dget r _); [|done]. destruct (dget _ td); [|done]. intros Hr%IH. rewrite Hr. done.
      + destruct (schedule_link _ _ _ _ _ _ _) as [[k x2]|] eqn:Ef; [|done]. apply nf_link in Ef. intros Hr%IH. congruence.
  Qed.
End nofork.

Section run.
  Context `{Hasher} (E : env) (D : data) (J0 : job).
  Hypothesis Hresp : respects_options D.
  Hypothesis Hreads : reads_by_name E.
  Hypothesis Hserve : serves_met E D J0.
  Hypothesis Hsup : forall J, reached E J0 J -> jsupported E J.
  Hypothesis Hdata : forall J, mdata E D J0 J.
  Hypothesis Hlev0 : j_level J0 = length (e_sgs E).
  Notation cfg := (st * phase cb)%type.
  Notation einv := (einv E D J0).

  Definition key_of (p : phase cb) : ckey := match p with PF (Some (f, _)) _ => KF f | PT (Some (t, _)) _ => KT t | _ => KF 0 end.
  Definition scinv (a : cfg) : Prop := dcfg E a /\ exists Is, einv Is a.1 (key_of a.2) (curs a.2) no_debt.

  Lemma einv_key Is x k k' debt : einv Is x k [] debt -> einv Is x k' [] debt.
  Proof. intros [H1 H2 H3 H4 H5 H6 H7 H8]. split; try done. intros c Hc. by apply not_elem_of_nil in Hc. Qed.
  Lemma einv_q Is w (q q' : queue cb) k cur debt : einv Is (w, q) k cur debt -> q_cbs q' = q_cbs q -> einv Is (w, q') k cur debt.
  Proof.
    intros [H1 H2 H3 H4 H5 H6 H7 H8] Hq.
    assert (forall k, pending k q' = pending k q) as Hp by (intros; unfold pending; by rewrite Hq).
    split; try done.
    - intros w' I HI. destruct (H2 w' I HI) as [W1 W2 W3 W4 W5]. split; try done.
      eapply covered_mono; [| |exact W5]; [|done]. intros gn i qi [Hx|(c & Hc & Hr)]; apply cov_P; [by left|]. right. exists c. split; [|done].
      destruct Hc as [Hc|[k' Hk]]; [by left|]. right. exists k'. cbn. by rewrite Hp.
    - intros k' c. cbn. rewrite Hp. apply H4.
    - intros k'. cbn. rewrite Hp. apply H6.
  Qed.
  Lemma einv_pop_key Is w (q q' : queue cb) k0 k cs :
    NoDup (dkeys (q_cbs q)) -> einv Is (w, q) k0 [] no_debt -> q_pop k q = (cs, q') -> einv Is (w, q') k cs no_debt.
  Proof.
    intros Hnd [H1 H2 H3 H4 H5 H6 H7 H8] Hpop.
    assert (cs = pending k q) as Hcs by (unfold q_pop in Hpop; by simplify_eq).
    assert (forall k', pending k' q' = if decide (k' = k) then [] else pending k' q) as Hp.
    { intros k'. unfold q_pop in Hpop. simplify_eq. unfold pending. simpl. destruct (decide (k' = k)) as [->|Hne].
      - by rewrite dget_ddel_eq.
      - by rewrite dget_ddel_ne. }
    split; try done.
    - intros w' I HI. destruct (H2 w' I HI) as [W1 W2 W3 W4 W5]. split; try done.
      eapply covered_mono; [| |exact W5]; [|done]. intros gn i qi [Hx|(c & Hc & Hr)]; apply cov_P; [by left|]. right. exists c. split; [|done].
      destruct Hc as [Hc|[k' Hk]]; [by apply not_elem_of_nil in Hc|]. cbn in Hk.
      destruct (decide (k' = k)) as [->|Hne]; [left; by rewrite Hcs|]. right. exists k'. cbn. by rewrite Hp, decide_False.
    - intros k' c. cbn. rewrite Hp. destruct (decide _); [intros Hx; by apply not_elem_of_nil in Hx|]. apply H4.
    - intros c. rewrite Hcs. apply H4.
    - intros k'. cbn. rewrite Hp. destruct (decide _); [done|]. apply H6.
    - rewrite Hcs. apply H6.
  Qed.

  Lemma scinv_fire x p k c cs :
    scinv (x, p) -> phase_cur p = Some (k, c :: cs) -> exists y Is, fire (run_cb E) k x c = Ok y /\ einv Is y k cs no_debt.
  Proof.
    intros [[[Hd _] Hp Hc] [Is Hi]] Hph. cbn [fst snd] in *.
    assert (key_of p = k /\ curs p = c :: cs) as [Hk Hcu].
    { destruct p as [|[[f l]|] d| |[[t l]|] ts]; cbn in Hph; simplify_eq/=; done. }
    rewrite Hk, Hcu in Hi.
    assert (forall c', c' ∈ c :: cs -> exists t, tsof x (cb_wf c') = Some t /\ alive x.2 t /\ (forall u, k = KT u -> in_set x.2 t (KT u))) as Hcc.
    { intros c' Hc'. destruct p as [|[[f l]|] d| |[[u l]|] ts]; cbn in Hph; simplify_eq/=.
      - destruct (Hc c' Hc') as (t & Ht & Ha). exists t. done.
      - destruct (Hc c' Hc') as (t & Ht & Hin). exists t. split; [done|]. pose proof Hin as (l' & Hl & _). split.
        + unfold alive. rewrite (di_keys _ _ _ _ Hd). apply dget_is_Some. eauto.
        + intros u' [= <-]. exact Hin. }
    unfold fire. set (x1 := (x.1, q_emit (EvFire k c) x.2) : st).
    assert (einv Is x1 k (c :: cs) no_debt) as Hi1 by (destruct x; by eapply einv_q).
    destruct (run_cb_spec E D J0 Hresp Hreads Hserve Hsup Hdata Hlev0 Is x1 k c cs Hi1) as (Is' & y & Hy & Hi'); [| |eauto].
    - intros t Ht. destruct (Hcc c ltac:(left)) as (t' & Ht' & Ha & _). assert (t' = t) as -> by (change (tsof x (cb_wf c) = Some t) in Ht; congruence).
      split; [exact Ha|]. change (t ∈ dkeys (q_forks x.2)). rewrite <-(di_keys _ _ _ _ Hd). exact Ha.
    - intros w gn qfs ids w' procs -> c' Hc' Hw.
      destruct (ei_cur _ _ _ _ _ _ _ _ Hi _ ltac:(left)) as (I & n & HI & I' & sg & fields & is_ & HI' & Hk' & _).
      destruct p as [|[[f l]|] d| |[[u l]|] ts]; cbn in Hph; simplify_eq/=; try (rewrite Hk' in Hk; done).
      assert (tsof x (cb_wf c') = Some (wi_ts I')) as Ht.
      { unfold tsof. rewrite (wi_wf _ _ _ _ _ _ _ _ (ei_wf _ _ _ _ _ _ _ _ Hi _ _ HI')). done. }
      destruct (di_ct _ _ _ _ Hd (wi_ts I') eq_refl) as [_ Hnb]. apply Hnb.
      destruct Hc' as [Hc'|[k Hc']].
      + destruct (Hcc c' Hc') as (t & Ht' & _ & Hin). assert (t = wi_ts I') as -> by congruence. eapply (in_set_busy _ _ (KT (wi_ts I'))), Hin. done.
      + destruct (p_link _ _ _ _ Hp k c' Hc') as (t & Ht' & Hin). assert (t = wi_ts I') as -> by congruence.
        destruct Hin as [Hin|(f & _ & Hf & _)]; [by eapply in_set_busy|]. by apply not_elem_of_nil in Hf.
  Qed.

  Lemma scinv_step a b : scinv a -> qstep (run_cb E) a b -> scinv b.
  Proof.
    intros Ha Hs. pose proof Ha as [Hd [Is Hi]]. split; [by eapply dcfg_step|].
    destruct Hd as [[Hdi _] _ _].
    destruct Hs as [x dn H1 H2 H3|x f d cs q Hpop|x f c cs d y Hf|x f d|x|x Hq|x t ts cs q Hpop|x t c cs ts y Hf|x t ts|x|x Hq];
      cbn [fst snd key_of curs done_rem ts_rem cur_ts] in *.
    - exists Is. destruct x as [w q]. by eapply einv_q.
    - exists Is. eapply (einv_pop_key Is x.1 (q_emit (EvDone f) x.2)); [apply Hdi| |exact Hpop]. eapply (einv_q Is x.1 x.2); [|done]. destruct x; exact Hi.
    - destruct (scinv_fire x _ (KF f) c cs Ha eq_refl) as (y' & Is' & Hy & Hi'). rewrite Hf in Hy. injection Hy as <-. eauto.
    - exists Is. by eapply einv_key.
    - exists Is. by eapply einv_key.
    - exists Is. by eapply einv_key.
    - exists Is. eapply (einv_pop_key Is x.1 x.2); [apply Hdi| |exact Hpop]. destruct x; exact Hi.
    - destruct (scinv_fire x _ (KT t) c cs Ha eq_refl) as (y' & Is' & Hy & Hi'). rewrite Hf in Hy. injection Hy as <-. eauto.
    - exists Is. destruct x as [w q]. eapply (einv_q Is w q); [by eapply einv_key|done].
    - exists Is. by eapply einv_key.
    - exists Is. by eapply einv_key.
  Qed.
  Lemma scinv_rtc a b : scinv a -> rtc (qstep (run_cb E)) a b -> scinv b.
  Proof. intros Ha Hr. induction Hr as [|x y z Hxy _ IH]; [done|]. apply IH. by eapply scinv_step. Qed.
  Lemma scinv_no_fail a e : scinv a -> ~ qfail (run_cb E) a e.
  Proof.
    intros Ha Hf. destruct Hf as [x f c cs d e Hx|x t c cs ts e Hx].
    - destruct (scinv_fire x _ (KF f) c cs Ha eq_refl) as (y' & Is' & Hy & _). congruence.
    - destruct (scinv_fire x _ (KT t) c cs Ha eq_refl) as (y' & Is' & Hy & _). congruence.
  Qed.


  Lemma pending_nil (q : queue cb) : q_cbs q = [] -> forall k, pending k q = [].
  Proof. intros Hq k. unfold pending. by rewrite Hq. Qed.

  Lemma scinv_final x : scinv (x, PIdle) -> (forall k, pending k x.2 = []) -> j_this J0 = None ->
    exists I idx, w_wfs x.1 !! 0 = Some (Wf (j_graph J0) (j_query J0) (wi_ts I) idx) /\
      sound E D J0 (wi_ids I) idx /\ covered E D J0 (wi_ids I) idx no_duty.
  Proof.
    intros [_ [Is Hi]] Hp _. destruct (ei_top _ _ _ _ _ _ _ _ Hi) as (I & HI & <-).
    destruct (ei_wf _ _ _ _ _ _ _ _ Hi _ _ HI) as [W1 W2 W3 W4 W5]. exists I, (idx_of x 0). split; [done|]. split; [done|].
    eapply covered_mono; [| |exact W5]; [|done]. intros gn i q [[]|(c & [Hc|[k Hc]] & _)].
    - by apply not_elem_of_nil in Hc.
    - cbn in Hc. rewrite Hp in Hc. by apply not_elem_of_nil in Hc.
  Qed.
End run.

(** ** The beginning of an execution *)
Section start.
  Context `{Hasher} (E : env) (D : data) (g : graph) (q q' : qnode).
  Hypothesis Hinit : init_options g q = Ok q'.
  Hypothesis Hresp : respects_options D.
  Hypothesis Hreads : reads_by_name E.
  Hypothesis Hserve : serves_met E D (top_job E g q').
  Hypothesis Hsup : all_supported E g q'.
  Notation J0 := (top_job E g q').
  Notation scinv := (scinv E D J0).

  Lemma sub_start_ok : exists x, start E g q = Ok x /\ scinv (x, PIdle) /\ (q_futures x.2 = [] -> forall k, pending k x.2 = []).
  Proof.
    unfold start. rewrite Hinit. cbn [q_fork q_empty q_futs q_forks q_cbs q_nfut q_nts q_trace dset app].
    match goal with |- context [process_node E (pn_fuel E) 0 _ _ _ ?z] => set (z0 := z) end.
    set (I0 := Info J0 [] 0).
    assert (einv E D J0 [I0] z0 (KF 0) [] (plus no_debt 0 (g_root g) None (fun q => q ∈ qfields q'))) as Hi.
    { split; try done.
      - intros w I HI. apply list_lookup_singleton_Some in HI as [-> <-]. split; cbn [wi_job wi_ids wi_ts I0 top_job].
        + done.
        + constructor.
        + done.
        + by intros [? ?].
        + split; [|done]. cbn. intros qi Hq. apply cov_P. left. right. split; [done|]. split; [done|]. split; [left|done].
      - by exists I0.
      - intros k c Hc. by apply not_elem_of_nil in Hc.
      - intros c Hc. by apply not_elem_of_nil in Hc.
      - intros c Hc. by apply not_elem_of_nil in Hc. }
    destruct (process_node_spec E D J0 Hresp Hreads Hserve Hsup eq_refl (pn_fuel E) [I0] z0 (KF 0) [] no_debt 0 I0 (g_root g) q' None) as (Is & x & Hx & Hix & _); try done.
    { unfold pn_fuel. cbn. lia. }
    { apply (jv_root J0). }
    { split; left. }
    { split; [done|]. intros i ->%elem_of_list_singleton. apply (mt_root E D J0). }
    assert (start E g q = Ok x) as Hst.
    { unfold start. rewrite Hinit. exact Hx. }
    exists x. split; [done|]. pose proof (start_dcfg E g q x Hst) as [Hd _]. split; [split; [done|by exists Is]|].
    intros Hf. destruct Hd as [[Hd _] Hp _]. cbn [fst snd] in *. intros k. destruct (pending k x.2) as [|c cs] eqn:Ek; [done|]. exfalso.
    destruct (p_link _ _ _ _ Hp k c) as (t & Ht & Hin); [rewrite Ek; left|].
    destruct Hin as [Hin|(f & _ & Hf' & _)]; [|by apply not_elem_of_nil in Hf']. destruct k as [f|u].
    - destruct Hin as (l & Hl & Hin). assert (f ∈ q_futures x.2) as Hq; [|rewrite Hf in Hq; by apply not_elem_of_nil in Hq].
      apply elem_futures; [apply Hd|]. eauto.
    - destruct Hin as (l & Hl & Hin). unfold pn_fuel in Hx. cbn [process_node] in Hx. apply nf_body in Hx. cbn in Hx. rewrite Hx in Hl.
      cbn in Hl. destruct (decide (t = 0)); simplify_eq/=. by apply not_elem_of_nil in Hin.
  Qed.
End start.

(** The engine follows the discipline of the task queue in every execution, with any loaders
    and with sub-graphs; every loader call is consumed by exactly one of its callbacks. *)
From stdpp Require Import relations.
From Verif Require Import Base Val Query Graph Queue QueueSpec QueueProof PropQueue Result Engine EngineApi SplitProof.

Definition cb_wf (c : cb) : nat :=
  match c with
  | CbStore w _ _ _ _ | CbStoreSub w _ _ _ _ _ | CbSched w _ _ _ _ | CbLink w _ _ _ _ _ | CbProc w _ _ _ => w
  end.
Definition tsof (x : st) (w : nat) : option nat := option_map wf_ts (w_wfs x.1 !! w).
(** The future or task set [k] belongs to the task set [t] and is not finished. *)
Definition in_set (q : queue cb) (t : nat) (k : ckey) : Prop :=
  match k with
  | KF f => exists l, dget t (q_futs q) = Some l /\ f ∈ l
  | KT u => exists l, dget t (q_forks q) = Some l /\ u ∈ l
  end.
Definition consumes (c : cb) (n : nat) : Prop :=
  match c with CbStore _ _ _ _ m | CbLink _ _ _ _ _ m => m = n | _ => False end.

Lemma in_set_busy q t k : in_set q t k -> busy q t.
Proof.
  destruct k as [f|u]; intros (l & Hl & Hin); destruct l as [|y l]; try by apply not_elem_of_nil in Hin.
  - left. eauto.
  - right. eauto.
Qed.
Lemma busy_in_set q t : busy q t -> exists k, in_set q t k.
Proof.
  intros [(f & l & Hl)|(u & l & Hl)].
  - exists (KF f), (f :: l). split; [done|left].
  - exists (KT u), (u :: l). split; [done|left].
Qed.

Section mono.
  Context (q : queue cb) (dn tss : list nat) (ct : option nat).
  Hypothesis Hi : disc_inv q dn tss ct.

  Lemma alive_op o q1 t : apply_op q o = Ok q1 -> alive q t -> alive q1 t.
  Proof.
    intros Ho Ha. unfold alive in *. destruct o as [t'|p|k c]; simpl in Ho.
    - unfold q_submit in Ho. destruct (dget t' _) eqn:Et; simplify_eq/=. rewrite dkeys_dset.
      destruct (decide _); [done|]. apply elem_of_app; by left.
    - unfold q_fork in Ho. destruct p as [p|]; [destruct (dget p _)|]; simplify_eq/=; rewrite dkeys_dset;
        (destruct (decide _); [done|]; apply elem_of_app; by left).
    - by simplify_eq/=.
  Qed.
  Lemma in_set_op o q1 t k : apply_op q o = Ok q1 -> in_set q t k -> in_set q1 t k.
  Proof.
    intros Ho Hs.
    assert (is_Some (dget (q_nts q) (q_futs q)) -> False) as Hn1.
    { intros Hx. apply dget_is_Some in Hx. apply (di_nts _ _ _ _ Hi) in Hx. lia. }
    assert (is_Some (dget (q_nts q) (q_forks q)) -> False) as Hn2.
    { intros Hx. apply dget_is_Some in Hx. rewrite <-(di_keys _ _ _ _ Hi) in Hx. apply (di_nts _ _ _ _ Hi) in Hx. lia. }
    destruct o as [t'|p|k' c]; simpl in Ho.
    - unfold q_submit in Ho. destruct (dget t' _) as [l'|] eqn:Et; simplify_eq/=. destruct k as [f|u]; [|done].
      destruct Hs as (l & Hl & Hin). simpl. rewrite dget_dset. destruct (decide (t = t')) as [->|]; [|eauto].
      eexists. split; [done|]. simplify_eq. apply elem_snoc'. by left.
    - assert (exists fk, q1 = MkQ (dset (q_nts q) [] (q_futs q)) fk (q_cbs q) (q_nfut q) (S (q_nts q)) (q_trace q1) /\
        (fk = dset (q_nts q) [] (q_forks q) \/ exists p' l', dget p' (dset (q_nts q) [] (q_forks q)) = Some l' /\ fk = dset p' (l' ++ [q_nts q]) (dset (q_nts q) [] (q_forks q)))) as (fk & -> & Hfk).
      { unfold q_fork in Ho. destruct p as [p|]; [destruct (dget p _) as [l'|] eqn:Ep|]; simplify_eq/=; eexists; split; try done; eauto. }
      destruct k as [f|u]; destruct Hs as (l & Hl & Hin); simpl.
      + rewrite dget_dset. destruct (decide (t = q_nts q)) as [->|]; [exfalso; eauto|]. eauto.
      + assert (dget t (dset (q_nts q) [] (q_forks q)) = Some l) as Hl'.
        { rewrite dget_dset. destruct (decide (t = q_nts q)) as [->|]; [exfalso; eauto|]. done. }
        destruct Hfk as [->|(p' & l' & Hp & ->)]; [eauto|]. rewrite dget_dset. destruct (decide (t = p')) as [->|]; [|eauto].
        simplify_eq. eexists. split; [done|]. apply elem_snoc'. by left.
    - simplify_eq/=. by destruct k.
  Qed.
End mono.

Section uses_mono.
  Context (lim : option nat) (dn tss : list nat) (ct : option nat).
  Lemma uses_mono q q' : uses (disciplined lim) q q' -> disc_inv q dn tss ct -> lim_ok lim q tss ct ->
    (forall t, alive q t -> alive q' t) /\ (forall t k, in_set q t k -> in_set q' t k) /\
    (forall t, usable lim q t -> usable lim q' t).
  Proof.
    induction 1 as [q|q o q1 q2 Ha Ho Hu IH]; intros Hi Hl; [done|].
    destruct (disc_op _ _ _ _ _ _ _ Hi Hl Ha Ho) as [Hi1 Hl1]. destruct (IH Hi1 Hl1) as (A & B & C).
    assert (forall t, alive q t -> alive q1 t) as A1 by (intros t; by apply (alive_op _ _ _ _ Ho)).
    assert (forall t k, in_set q t k -> in_set q1 t k) as B1 by (intros t k; by apply (in_set_op _ _ _ _ Hi _ _ _ _ Ho)).
    split; [auto|]. split; [auto|]. intros t [H1 H2]. apply C. split; [auto|]. destruct lim; [|done].
    destruct H2 as [H2|H2]; [by left|]. right. apply busy_in_set in H2 as [k H2]. by eapply in_set_busy, B1.
  Qed.
End uses_mono.

Section disc.
  Context `{Hasher} (E : env).
  Definition answered (n : nat) (c : call) : Prop := forall e, e_oracle E n c <> Raise e.
  Definition linked (dn : list nat) (x : st) (k : ckey) (c : cb) : Prop :=
    exists t, tsof x (cb_wf c) = Some t /\ (in_set x.2 t k \/ (exists f, k = KF f /\ f ∈ dn /\ alive x.2 t)).
  Record pinv (dn : list nat) (cur : list cb) (x : st) : Prop := {
    p_nfut : q_nfut x.2 = length (w_log x.1);
    p_link : forall k c, c ∈ pending k x.2 -> linked dn x k c;
    p_calls : forall n c, w_log x.1 !! n = Some c ->
      answered n c \/ exists c', (c' ∈ cur \/ c' ∈ pending (KF n) x.2) /\ consumes c' n;
  }.

  Lemma pending_add k c (q : queue cb) k' : pending k' (q_add k c q) = pending k' q ++ (if decide (k' = k) then [c] else []).
  Proof.
    unfold pending, q_add, dappend; simpl. rewrite dget_dset. destruct (decide (k' = k)) as [->|]; [|by rewrite app_nil_r].
    by destruct (dget k (q_cbs q)).
  Qed.

  Section fixed.
    Context (lim : option nat) (dn tss : list nat) (ct : option nat) (cur : list cb).
    Definition okst (x : st) : Prop := disc_inv x.2 dn tss ct /\ lim_ok lim x.2 tss ct /\ pinv dn cur x.
    Record ext (x y : st) : Prop := {
      x_uses : uses (disciplined lim) x.2 y.2;
      x_keep : forall w t, tsof x w = Some t -> tsof y w = Some t;
      x_log : forall n c, w_log x.1 !! n = Some c -> w_log y.1 !! n = Some c;
    }.
    Lemma ext_refl x : ext x x.
    Proof. split; [constructor|done..]. Qed.
    Lemma ext_trans x y z : ext x y -> ext y z -> ext x z.
    Proof.
      intros [U1 K1 L1] [U2 K2 L2]. split; [|auto..]. clear -U1 U2. induction U1; eauto using uses_op.
    Qed.
    Definition can (x : st) (w : nat) : Prop := exists t, tsof x w = Some t /\ usable lim x.2 t.
    Lemma ext_can x y w : okst x -> ext x y -> can x w -> can y w.
    Proof.
      intros (Hi & Hl & _) [U K _] (t & Ht & Hu). exists t. split; [auto|].
      destruct (uses_mono _ _ _ _ _ _ U Hi Hl) as (_ & _ & HU). auto.
    Qed.
    (** the key [k] belongs to the task set of [w], and callbacks may be added to it *)
    Definition dep_in (x : st) (w : nat) (k : ckey) : Prop :=
      exists t, tsof x w = Some t /\ in_set x.2 t k /\ match k with KT u => usable lim x.2 u | _ => True end.
    Lemma ext_dep x y w k : okst x -> ext x y -> dep_in x w k -> dep_in y w k.
    Proof.
      intros (Hi & Hl & _) [U K _] (t & Ht & Hs & Hu). destruct (uses_mono _ _ _ _ _ _ U Hi Hl) as (_ & HS & HU).
      exists t. split; [auto|]. split; [auto|]. destruct k; auto.
    Qed.

    Ltac ec := match goal with Hok : okst ?x, He : ext ?x ?y |- can ?y ?w => refine (ext_can x y w Hok He _); assumption end.
    Ltac ed := match goal with Hok : okst ?x, He : ext ?x ?y |- dep_in ?y ?w ?k => refine (ext_dep x y w k Hok He _); assumption end.
    Lemma linked_ext x y k c : okst x -> ext x y -> linked dn x k c -> linked dn y k c.
    Proof.
      intros (Hi & Hl & _) [U K _] (t & Ht & Hs). destruct (uses_mono _ _ _ _ _ _ U Hi Hl) as (HA & HS & _).
      exists t. split; [auto|]. destruct Hs as [Hs|(f & -> & Hf & Ha)]; [left; auto|]. right. eauto.
    Qed.

    Lemma d_add x k c : okst x -> dep_in x (cb_wf c) k -> okst (add_cb k c x) /\ ext x (add_cb k c x).
    Proof.
      intros Hok (t & Ht & Hs & Hu). pose proof Hok as (Hi & Hl & Hp).
      assert (disciplined lim x.2 (OAdd k c)) as Hd.
      { destruct k as [f|u]; simpl; [|done]. destruct Hs as (l & Hl' & Hin). apply elem_futures; [apply Hi|]. eauto. }
      assert (ext x (add_cb k c x)) as He.
      { split; [|done..]. eapply (uses_op _ _ (OAdd k c)); [exact Hd|done|constructor]. }
      split; [|done]. destruct (disc_op _ _ _ _ _ _ _ Hi Hl Hd eq_refl) as [Hi' Hl']. split; [exact Hi'|]. split; [exact Hl'|].
      destruct Hp as [P1 P2 P3]. split; simpl.
      - done.
      - intros k' c'. rewrite pending_add. rewrite elem_of_app. intros [Hc|Hc].
        + eapply linked_ext; [exact Hok|exact He|auto].
        + destruct (decide (k' = k)) as [->|]; [|by apply not_elem_of_nil in Hc]. apply elem_of_list_singleton in Hc as ->.
          eapply (linked_ext x); [exact Hok|exact He|]. exists t. split; [done|by left].
      - intros n c' Hc'. destruct (P3 _ _ Hc') as [?|(c2 & Hc2 & Hn)]; [by left|]. right. exists c2. split; [|done].
        rewrite pending_add. destruct Hc2; [by left|]. right. apply elem_of_app. by left.
    Qed.

    (** a call together with the callback which consumes it *)
    Lemma d_call w f a x fut x' c :
      submit E w f a x = Ok (fut, x') -> okst x -> can x w -> cb_wf c = w -> consumes c fut ->
      okst (add_cb (KF fut) c x') /\ ext x (add_cb (KF fut) c x') /\ dep_in (add_cb (KF fut) c x') w (KF fut).
    Proof.
      intros Hs Hok (t & Ht & Hu) Hc Hcons. pose proof Hok as (Hi & Hl & Hp). unfold tsof in Ht.
      unfold submit, get_wf in Hs. destruct (w_wfs x.1 !! w) as [v|] eqn:Ev; [|done]. simpl in Ht, Hs. injection Ht as Ht.
      assert (exists f' q', q_submit t x.2 = Ok (f', q') /\ x' = (World (w_wfs x.1) (w_log x.1 ++ [Call f (e_ctx E f) a]), q') /\ fut = length (w_log x.1)) as (f' & q' & Hq & -> & ->).
      { rewrite Ht in Hs. destruct (q_submit t x.2) as [[f' q']|] eqn:Eq.
        - exists f', q'. split; [done|]. destruct (e_eager E); [destruct (e_oracle E _ _)|]; by simplify_eq.
        - destruct (e_eager E); [destruct (e_oracle E _ _)|]; done. }
      set (n := length (w_log x.1)) in *.
      assert (disc_inv q' dn tss ct /\ lim_ok lim q' tss ct /\ uses (disciplined lim) x.2 q') as (Hi1 & Hl1 & Hu1).
      { assert (apply_op x.2 (OSubmit t) = Ok q') as Ho by (simpl; by rewrite Hq).
        assert (disciplined lim x.2 (OSubmit t)) as Hd0 by exact Hu.
        destruct (disc_op _ _ _ _ _ _ _ Hi Hl Hd0 Ho) as [Hi' Hl']. split; [done|]. split; [done|].
        eapply uses_op; [exact Hd0|exact Ho|constructor]. }
      pose proof (p_nfut _ _ _ Hp) as Hnf.
      assert (q_nfut q' = S n /\ (forall k, pending k q' = pending k x.2) /\ in_set q' t (KF n)) as (Hnf' & Hpend & Hin).
      { unfold q_submit in Hq. destruct (dget t (q_futs x.2)) as [l|] eqn:El; [|done]. injection Hq as <- <-. simpl. split; [by rewrite Hnf|].
        split; [done|]. exists (l ++ [n]). rewrite dget_dset_eq. rewrite Hnf. split; [done|]. apply elem_snoc'. by right. }
      set (x1 := (World (w_wfs x.1) (w_log x.1 ++ [Call f (e_ctx E f) a]), q') : st).
      assert (disciplined lim q' (OAdd (KF n) c)) as Hd.
      { simpl. destruct Hin as (l & Hl' & Hin). apply elem_futures; [apply Hi1|]. eauto. }
      assert (ext x (add_cb (KF n) c x1)) as He.
      { split; [|done|].
        - simpl. clear -Hu1 Hd. induction Hu1; eauto using uses_op.
          eapply (uses_op _ _ (OAdd (KF n) c)); [exact Hd|done|constructor].
        - intros m c' Hm. simpl. by apply lookup_app_l_Some. }
      assert (tsof x w = Some t) as Hts by (unfold tsof; rewrite Ev; simpl; congruence).
      assert (dep_in (add_cb (KF n) c x1) w (KF n)) as Hdep.
      { exists t. split; [done|]. split; [exact Hin|done]. }
      split; [|done]. destruct (disc_op _ _ _ _ _ _ _ Hi1 Hl1 Hd eq_refl) as [Hi' Hl']. split; [exact Hi'|]. split; [exact Hl'|].
      destruct Hp as [P1 P2 P3]. split; simpl.
      - by rewrite Hnf', app_length, Nat.add_comm.
      - intros k' c'. rewrite pending_add. rewrite elem_of_app, Hpend. intros [Hc'|Hc'].
        + eapply linked_ext; [exact Hok|exact He|auto].
        + destruct (decide (k' = KF n)) as [->|]; [|by apply not_elem_of_nil in Hc']. apply elem_of_list_singleton in Hc' as ->.
          exists t. rewrite Hc. split; [done|left; exact Hin].
      - intros m c' Hc'. apply lookup_app_Some in Hc' as [Hc'|[Hge Hc']].
        + destruct (P3 _ _ Hc') as [?|(c2 & Hc2 & Hn)]; [by left|]. right. exists c2. split; [|done].
          rewrite pending_add, Hpend. destruct Hc2; [by left|]. right. apply elem_of_app. by left.
        + apply list_lookup_singleton_Some in Hc' as [Hm <-]. assert (m = n) as -> by (unfold n; lia). right. exists c. split; [|done].
          right. rewrite pending_add, decide_True by done. apply elem_snoc'. by right.
    Qed.

    Lemma d_fork w x t1 q1 : tsof x w = Some t1 -> usable lim x.2 t1 -> okst x -> forall t, q_fork (Some t1) x.2 = Ok (t, q1) ->
      okst (x.1, q1) /\ ext x (x.1, q1) /\ dep_in (x.1, q1) w (KT t) /\ usable lim q1 t.
    Proof.
      intros Ht Hu Hok t Hf. pose proof Hok as (Hi & Hl & Hp).
      assert (apply_op x.2 (OFork (Some t1)) = Ok q1) as Ho by (unfold apply_op; by rewrite Hf).
      assert (disciplined lim x.2 (OFork (Some t1))) as Hd by done.
      destruct (disc_op _ _ _ _ _ _ _ Hi Hl Hd Ho) as [Hi1 Hl1].
      assert (ext x (x.1, q1)) as He.
      { split; [|done..]. eapply (uses_op _ _ (OFork (Some t1))); [exact Hd|exact Ho|constructor]. }
      unfold q_fork in Hf. destruct (dget t1 (dset (q_nts x.2) [] (q_forks x.2))) as [l|] eqn:El; [|done]. injection Hf as <- <-.
      assert (usable lim (x.1, MkQ (dset (q_nts x.2) [] (q_futs x.2)) (dset t1 (l ++ [q_nts x.2]) (dset (q_nts x.2) [] (q_forks x.2))) (q_cbs x.2) (q_nfut x.2) (S (q_nts x.2)) (q_trace x.2 ++ [EvFork (Some t1) (q_nts x.2)])).2 (q_nts x.2)) as Hus.
      { split.
        - unfold alive. simpl. apply dget_is_Some. rewrite dget_dset_eq. eauto.
        - destruct lim as [n|]; [|done]. left. destruct Hl as [? _]. done. }
      split; [|split; [done|split; [|exact Hus]]].
      - split; [exact Hi1|]. split; [exact Hl1|]. destruct Hp as [P1 P2 P3]. split; simpl; [done| |done].
        intros k c Hc. eapply (linked_ext x); [exact Hok|exact He|]. by apply P2.
      - exists t1. split; [done|]. split; [|exact Hus]. simpl. eexists. rewrite dget_dset_eq. split; [done|]. apply elem_snoc'. by right.
    Qed.

    Lemma get_wf_ts w x t : tsof x w = Some t -> exists v, get_wf w x = Ok v /\ wf_ts v = t.
    Proof. unfold tsof, get_wf. destruct (w_wfs x.1 !! w) as [v|]; simpl; [|done]. intros [= <-]. eauto. Qed.
    Lemma set_index_ts w idx x w' : tsof (set_index w idx x) w' = tsof x w'.
    Proof.
      unfold tsof, set_index. simpl. destruct (decide (w = w')) as [->|Hne].
      - rewrite list_lookup_alter. by destruct (w_wfs x.1 !! w').
      - by rewrite list_lookup_alter_ne.
    Qed.
    Lemma d_set_index w idx x : okst x -> okst (set_index w idx x) /\ ext x (set_index w idx x).
    Proof.
      intros (Hi & Hl & [P1 P2 P3]). assert (ext x (set_index w idx x)) as He.
      { split; [constructor| |done]. intros w' t. by rewrite set_index_ts. }
      split; [|done]. split; [exact Hi|]. split; [exact Hl|]. split; [done| |done].
      intros k c Hc. destruct (P2 k c Hc) as (t & Ht & Hx). exists t. rewrite set_index_ts. done.
    Qed.

    Section pn.
      Variable pn : nat -> gnode -> qnode -> option (list val) -> st -> res st.
      Hypothesis Hpn : forall w gn q ids x y, pn w gn q ids x = Ok y -> okst x -> can x w -> okst y /\ ext x y.

      Lemma d_process_link w gn l q ids r x y :
        process_link pn w gn l q ids r x = Ok y -> okst x -> can x w -> okst y /\ ext x y.
      Proof.
        unfold process_link. destruct (get_wf w x) as [v|]; [|done]. destruct (store_links _ _ _ _ _ _) as [idx|]; [|done].
        intros Hy Hok Hc. destruct (d_set_index w idx x Hok) as [Hok1 He1].
        destruct (link_result_to_ids _ _ _) as [[|i is_]|]; [by injection Hy as <-| |done].
        destruct (find_node _ _); [|done]. destruct (q_is_link q); [|done].
        apply Hpn in Hy as [Hok2 He2]; [|done|ec]. split; [done|by eapply ext_trans].
      Qed.
      Lemma d_sub_call sg fields ids ts x w' procs y :
        sub_call E pn sg fields ids ts x = Ok (w', procs, y) -> okst x -> usable lim x.2 ts -> okst y /\ ext x y.
      Proof.
        unfold sub_call. destruct (e_sgs E !! sg) as [[g node]|]; [|done]. destruct (mapR _ fields) as [ovs|]; [|done].
        destruct (dget THIS _) as [tq|]; [|done]. destruct (process_link _ _ _ _ _ _ _ _) as [x2|] eqn:E2; [|done].
        destruct (pn _ _ _ _ x2) as [x3|] eqn:E3; [|done]. intros [= <- <- <-] Hok Hu.
        match type of E2 with process_link _ _ _ _ _ _ _ ?z = _ => set (x1 := z) in * end.
        assert (ext x x1) as He1.
        { split; [constructor| |done]. intros w t. unfold tsof. simpl. intros Hw.
          destruct (w_wfs x.1 !! w) as [v|] eqn:Ev; [|done]. by rewrite (lookup_app_l_Some _ _ _ _ Ev). }
        assert (okst x1) as Hok1.
        { pose proof Hok as (Hi & Hl & [P1 P2 P3]). split; [exact Hi|]. split; [exact Hl|]. split; [done| |done].
          intros k c Hc. eapply (linked_ext x); [exact Hok|exact He1|]. by apply P2. }
        assert (can x1 (length (w_wfs x.1))) as Hc1.
        { exists ts. split; [|exact Hu]. unfold tsof. simpl. rewrite lookup_app_r, Nat.sub_diag by lia. done. }
        apply d_process_link in E2 as [Hok2 He2]; [|done|done].
        apply Hpn in E3 as [Hok3 He3]; [|done|ec].
        split; [done|]. eapply ext_trans; [exact He1|]. by eapply ext_trans.
      Qed.
      Lemma d_schedule_fields w gn fk fields ids x d y :
        schedule_fields E pn w gn fk fields ids x = Ok (d, y) -> okst x -> can x w ->
        okst y /\ ext x y /\ dep_in y w d.
      Proof.
        unfold schedule_fields. destruct fk as [f|sg].
        - destruct (submit _ _ _ _ _) as [[fut x1]|] eqn:Es; [|done]. intros [= <- <-] Hok Hc. by eapply d_call.
        - destruct ids as [is_|]; [|done]. intros Hy Hok Hc. pose proof Hc as (t1 & Ht & Hu). destruct (get_wf_ts _ _ _ Ht) as (v & Hv & Hvt).
          rewrite Hv, Hvt in Hy.
          destruct (q_fork (Some t1) x.2) as [[t q1]|] eqn:Ef; [|done].
          destruct (d_fork w x t1 q1 Ht Hu Hok t Ef) as (Hok1 & He1 & Hd1 & Hu1).
          destruct (sub_call _ _ _ _ _ _ _) as [[[w' procs] x2]|] eqn:Ec; [|done].
          apply d_sub_call in Ec as [Hok2 He2]; [|done|exact Hu1].
          injection Hy as <- <-. assert (dep_in x2 w (KT t)) as Hd2 by (ed).
          destruct (d_add x2 (KT t) (CbStoreSub w gn (map snd fields) (Some is_) w' procs) Hok2 Hd2) as [Hok3 He3].
          split; [done|]. split; [eapply ext_trans; [exact He1|]; by eapply ext_trans|]. ed.
      Qed.
      Lemma d_schedule_link w gn l q ids x d y :
        schedule_link E w gn l q ids x = Ok (d, y) -> okst x -> can x w -> okst y /\ ext x y /\ dep_in y w d.
      Proof.
        unfold schedule_link. destruct (get_wf w x) as [v|]; [|done].
        destruct (match req_true l with Some _ => _ | None => _ end) as [a|]; [|done].
        destruct (submit _ _ _ _ _) as [[fut x1]|] eqn:Es; [|done]. intros [= <- <-] Hok Hc. by eapply d_call.
      Qed.
      Lemma d_proc_steps w gn steps ids x y :
        proc_steps E pn w gn steps ids x = Ok y -> okst x -> can x w -> okst y /\ ext x y.
      Proof.
        unfold proc_steps. destruct steps as [|sp rest]; [done|].
        destruct (match sp with StFields _ _ => _ | StLink _ _ => _ end) as [[d x1]|] eqn:Es; [|done]. intros Hy Hok Hc.
        assert (okst x1 /\ ext x x1 /\ dep_in x1 w d) as (Hok1 & He1 & Hd1).
        { destruct sp; [by eapply d_schedule_fields|by eapply d_schedule_link]. }
        destruct rest as [|sp2 rest]; injection Hy as <-; [done|].
        destruct (d_add x1 d (CbProc w gn (sp2 :: rest) ids) Hok1 Hd1) as [Hok2 He2]. split; [done|by eapply ext_trans].
      Qed.
      Lemma d_schedule_groups w gn ids groups : forall x d0 to_dep y,
        foldR (fun acc g => match schedule_fields E pn w gn g.1 g.2 ids acc.2 with
                            | Ok (dep, x') => Ok (dset g.1 dep acc.1, x') | Err e => Err e end) (d0, x) groups = Ok (to_dep, y) ->
        okst x -> can x w -> (forall fk dep, dget fk d0 = Some dep -> dep_in x w dep) ->
        okst y /\ ext x y /\ (forall fk dep, dget fk to_dep = Some dep -> dep_in y w dep).
      Proof.
        induction groups as [|[fk items] groups IH]; intros x d0 to_dep y; simpl.
        - intros [= <- <-] Hok _ Hd. split; [done|]. split; [apply ext_refl|done].
        - destruct (schedule_fields _ _ _ _ _ _ _ _) as [[dep x1]|] eqn:Es; [|done]. intros Hy Hok Hc Hd.
          apply d_schedule_fields in Es as (Hok1 & He1 & Hd1); [|done|done].
          destruct (IH _ _ _ _ Hy Hok1) as (Hok2 & He2 & Hd2).
          + ec.
          + intros fk' dep'. rewrite dget_dset. destruct (decide (fk' = fk)); [by intros [= <-]|]. intros Hx. apply Hd in Hx. ed.
          + split; [done|]. split; [by eapply ext_trans|done].
      Qed.
      Lemma d_process_body w gn q ids x y :
        process_node_body E pn w gn q ids x = Ok y -> okst x -> can x w -> okst y /\ ext x y.
      Proof.
        unfold process_node_body. destruct (qordered q).
        - destruct (group_query _ _) as [[|sp steps]|]; [intros [= <-] Hok _; split; [done|apply ext_refl]|apply d_proc_steps|done].
        - destruct (split_query _ _) as [[fields links]|] eqn:Esp; [|done].
          destruct (schedule_groups _ _ _ _ _ _ _) as [[to_dep x1]|] eqn:Eg; [|done]. intros Hy Hok Hc.
          unfold schedule_groups in Eg. apply d_schedule_groups in Eg as (Hok1 & He1 & Hd1); [|done|done|done].
          assert (can x1 w) as Hc1 by ec.
          assert (okst y /\ ext x1 y) as [Hok2 He2]; [|split; [done|by eapply ext_trans]].
          clear -Hy Hok1 Hd1 Hc1. unfold schedule_links in Hy. revert x1 Hy Hok1 Hd1 Hc1.
          induction links as [|[l lq] links IH]; intros x1; simpl; [intros [= <-]; split; [done|apply ext_refl]|].
          destruct (req_true l) as [r|].
          + destruct (dget r _) as [f|]; [|done]. destruct (dget f _) as [dep|] eqn:Ed; [|done]. intros Hy Hok1 Hd1 Hc1.
            destruct (d_add x1 dep (CbSched w gn l lq ids) Hok1 (Hd1 _ _ Ed)) as [Hok2 He2].
            apply IH in Hy as [Hok3 He3]; [split; [done|by eapply ext_trans]|done| |ec].
            intros fk dep' Hx. apply Hd1 in Hx. eapply (ext_dep x1); done.
          + destruct (schedule_link _ _ _ _ _ _ _) as [[d x2]|] eqn:Es; [|done]. intros Hy Hok1 Hd1 Hc1.
            apply d_schedule_link in Es as (Hok2 & He2 & _); [|done|done].
            apply IH in Hy as [Hok3 He3]; [split; [done|by eapply ext_trans]|done| |ec].
            intros fk dep' Hx. apply Hd1 in Hx. eapply (ext_dep x1); done.
      Qed.
    End pn.
    Lemma d_process_node fuel w gn q ids x y :
      process_node E fuel w gn q ids x = Ok y -> okst x -> can x w -> okst y /\ ext x y.
    Proof.
      revert w gn q ids x y. induction fuel as [|k IH]; intros w gn q ids x y; simpl; [done|].
      apply d_process_body. exact IH.
    Qed.
    Lemma d_store w gn qfs ids r x y : store_result w gn qfs ids r x = Ok y -> okst x -> okst y /\ ext x y.
    Proof.
      unfold store_result. destruct (get_wf w x); [|done]. destruct (store_fields _ _ _ _ _); [|done].
      intros [= <-]. apply d_set_index.
    Qed.
    Lemma d_run_cb c x y : run_cb E c x = Ok y -> okst x -> can x (cb_wf c) -> okst y /\ ext x y.
    Proof.
      destruct c as [w gn qfs ids fut|w gn qfs ids w' procs|w gn l q ids|w gn l q ids fut|w gn steps ids]; unfold run_cb; simpl.
      - destruct (fut_result _ _ _); [|done]. intros Hs Hok _. by eapply d_store.
      - destruct (result_proc _ _ _ _); [|done]. intros Hs Hok _. by eapply d_store.
      - destruct (schedule_link _ _ _ _ _ _ _) as [[d x']|] eqn:Es; [|done]. intros [= <-] Hok Hc.
        by destruct (d_schedule_link _ _ _ _ _ _ _ _ Es Hok Hc) as (? & ? & _).
      - destruct (fut_result _ _ _); [|done]. apply d_process_link. exact (d_process_node (pn_fuel E)).
      - apply d_proc_steps. exact (d_process_node (pn_fuel E)).
    Qed.
  End fixed.

  (** A callback which consumed a call has seen its value. *)
  Lemma run_cb_answered c x y n cl : run_cb E c x = Ok y -> consumes c n -> w_log x.1 !! n = Some cl -> answered n cl.
  Proof.
    intros Hr Hc Hl. destruct c as [w gn qfs ids fut| | |w gn l q ids fut|]; try done; simpl in Hc; subst fut; unfold run_cb, fut_result in Hr;
      rewrite Hl in Hr; intros e He; by rewrite He in Hr.
  Qed.

  (** ** All configurations *)
  Notation cfg := (st * phase cb)%type.
  Definition curs (p : phase cb) : list cb :=
    match p with PF (Some (_, cs)) _ => cs | PT (Some (_, cs)) _ => cs | _ => [] end.
  Record dcfg (a : cfg) : Prop := {
    dc_disc : cfg_disc a;
    dc_pinv : pinv (done_rem a.2) (curs a.2) a.1;
    dc_cur : match a.2 with
             | PF (Some (f, cs)) _ => forall c, c ∈ cs -> exists t, tsof a.1 (cb_wf c) = Some t /\ alive a.1.2 t
             | PT (Some (u, cs)) _ => forall c, c ∈ cs -> exists t, tsof a.1 (cb_wf c) = Some t /\ in_set a.1.2 t (KT u)
             | _ => True
             end;
  }.

  Lemma pinv_emit dn cur x e : pinv dn cur x -> pinv dn cur (x.1, q_emit e x.2).
  Proof. intros [P1 P2 P3]. split; simpl; [done| |done]. intros k c Hc. exact (P2 k c Hc). Qed.

  (** running the callback [c] of the key [k] *)
  Lemma d_fire k lim dn tss ct c cs x y :
    fire (run_cb E) k x c = Ok y ->
    disc_inv (q_emit (EvFire k c) x.2) dn tss ct -> lim_ok lim (q_emit (EvFire k c) x.2) tss ct ->
    pinv dn (c :: cs) x -> can lim (x.1, q_emit (EvFire k c) x.2) (cb_wf c) ->
    pinv dn cs y /\ ext lim (x.1, q_emit (EvFire k c) x.2) y.
  Proof.
    intros Hf Hi Hl Hp Hc. unfold fire in Hf. set (x1 := (x.1, q_emit (EvFire k c) x.2) : st) in *.
    assert (okst lim dn tss ct (c :: cs) x1) as Hok by (split; [exact Hi|split; [exact Hl|by apply pinv_emit]]).
    destruct (d_run_cb _ _ _ _ _ _ _ _ Hf Hok Hc) as [(_ & _ & [P1 P2 P3]) He]. split; [|done]. split; [done|done|].
    intros n cl Hn. destruct (P3 _ _ Hn) as [?|(c' & Hc' & Hcn)]; [by left|].
    rewrite elem_of_cons in Hc'. destruct Hc' as [[->|Hc']|Hc']; [|right; eauto..].
    left. assert (exists cl0, w_log x.1 !! n = Some cl0) as [cl0 Hcl0].
    { destruct c; try done; simpl in Hcn; subst; unfold run_cb, fut_result in Hf; simpl in Hf;
        destruct (w_log x.1 !! n); try done; eauto. }
    assert (cl0 = cl) as ->.
    { pose proof (x_log _ _ _ He n cl0 Hcl0). congruence. }
    eapply run_cb_answered; [exact Hf|exact Hcn|exact Hcl0].
  Qed.

  Lemma linked_keep dn (w : world) (q q' : queue cb) k c :
    (forall t, alive q t -> alive q' t) -> (forall t, in_set q t k -> in_set q' t k) ->
    linked dn (w, q) k c -> linked dn (w, q') k c.
  Proof.
    intros Ha Hs (t & Ht & [Hx|(f & -> & Hf & Hx)]); exists t; (split; [done|]); [left; by apply Hs|]. right. exists f. split; [done|]. split; [done|]. by apply Ha.
  Qed.

  Lemma alive_difference done (q : queue cb) t : alive q t -> alive (q_difference done q) t.
  Proof. unfold alive, dkeys. simpl. by rewrite map_map. Qed.

  Lemma dcfg_step a b : dcfg a -> qstep (run_cb E) a b -> dcfg b.
  Proof.
    intros [[Hd Hdn] Hp Hc] Hs.
    assert (cfg_good (run_cb E) a) as Hgood.
    { destruct a as [x [|[[f [|c cs]]|] dn| |[[t [|c cs]]|] ts]]; unfold cfg_good; simpl in *; try done; intros y Hy.
      - destruct (Hc c ltac:(left)) as (t & Ht & Ha).
        apply (d_fire (KF f) None dn [] None c cs x y Hy) in Hp as [_ He]; [apply He|by apply disc_emit|done|].
        exists t. split; [done|]. split; [exact Ha|done].
      - destruct (Hc c ltac:(left)) as (t1 & Ht & Hs1). pose proof (in_set_busy x.2 t1 (KT t) Hs1) as Hb.
        assert (disc_inv (q_emit (EvFire (KT t) c) x.2) [] ts (Some t)) as Hd1 by by apply disc_emit.
        apply (d_fire (KT t) (Some (q_nts x.2)) [] ts (Some t) c cs x y Hy) in Hp as [_ He]; [apply He|done| |].
        + simpl. split; [done|]. split.
          * intros t' Ht'. apply (di_nts _ _ _ _ Hd). destruct (di_tss _ _ _ _ Hd) as [_ Hx]. by apply Hx.
          * intros t' [= <-]. apply (di_nts _ _ _ _ Hd). by apply (di_ct _ _ _ _ Hd).
        + exists t1. split; [done|]. split; [|by right]. destruct Hs1 as (l & Hl & _).
          unfold alive. simpl. rewrite (di_keys _ _ _ _ Hd). apply dget_is_Some. eauto. }
    pose proof (disc_step _ _ _ (conj Hd Hdn : cfg_disc a) Hgood Hs) as Hd'.
    destruct Hs as [x dn H1 H2 H3|x f d cs q Hpop|x f c cs d y Hf|x f d|x|x Hq|x t ts cs q Hpop|x t c cs ts y Hf|x t ts|x|x Hq];
      simpl in *; split; simpl; try done.
    - (* difference *)
      destruct Hp as [P1 P2 P3]. split; simpl; [done| |done]. intros k c Hck. destruct (P2 k c Hck) as (t & Ht & Hx).
      exists t. split; [done|]. destruct Hx as [Hx|(f & _ & Hf & _)]; [|by apply not_elem_of_nil in Hf].
      destruct k as [f|u]; [|left; exact Hx]. destruct Hx as (l & Hl & Hin).
      assert (alive x.2 t) as Ha by (unfold alive; apply dget_is_Some; eauto).
      destruct (decide (f ∈ dn)) as [Hfd|Hfd].
      + right. exists f. split; [done|]. split; [done|]. by apply alive_difference.
      + left. exists (List.filter (fun f => negb (bool_decide (f ∈ dn))) l). simpl. rewrite dget_map_snd, Hl. split; [done|].
        apply elem_of_list_In, filter_In. split; [by apply elem_of_list_In|]. by rewrite bool_decide_eq_false_2.
    - (* pop of a future *)
      assert (pending (KF f) x.2 = cs /\ (forall k, k <> KF f -> pending k q = pending k x.2) /\ pending (KF f) q = [] /\ q_futs q = q_futs x.2 /\ q_forks q = q_forks x.2 /\ q_nfut q = q_nfut x.2) as (Hcs & Hpd & Hpf & Hqf & Hqk & Hqn).
      { unfold q_pop in Hpop. injection Hpop as <- <-. unfold pending; simpl. split; [done|]. split; [intros k Hk; by rewrite dget_ddel_ne|]. split; [|done].
        rewrite dget_ddel_eq; [done|]. apply Hd. }
      destruct Hp as [P1 P2 P3]. split; simpl; [congruence| |].
      + intros k c Hck. destruct (decide (k = KF f)) as [->|Hne]; [rewrite Hpf in Hck; by apply not_elem_of_nil in Hck|].
        rewrite Hpd in Hck by done. destruct (P2 k c Hck) as (t & Ht & Hx). exists t. split; [done|].
        destruct Hx as [Hx|(f' & -> & Hf' & Ha)].
        * left. destruct k; simpl in *; rewrite ?Hqf, ?Hqk; exact Hx.
        * right. exists f'. split; [done|]. split; [apply elem_of_cons in Hf' as [->|]; done|]. unfold alive in *. simpl. congruence.
      + intros n c Hn. destruct (P3 n c Hn) as [?|(c' & [Hx|Hx] & Hcn)]; [by left|by apply not_elem_of_nil in Hx|].
        right. exists c'. split; [|done]. destruct (decide (KF n = KF f)) as [Hnf|Hne]; [left; rewrite <-Hcs, <-Hnf; exact Hx|]. right. by rewrite Hpd.
    - (* its callbacks *)
      assert (pending (KF f) x.2 = cs /\ q_futs q = q_futs x.2) as (Hcs & Hqf).
      { unfold q_pop in Hpop. injection Hpop as <- <-. done. }
      intros c Hcc. rewrite <-Hcs in Hcc. destruct (p_link _ _ _ Hp _ _ Hcc) as (t & Ht & Hx). exists t. split; [done|].
      unfold alive. simpl. rewrite Hqf. destruct Hx as [(l & Hl & _)|(f' & _ & _ & Ha)]; [apply dget_is_Some; eauto|exact Ha].
    - destruct (Hc c ltac:(left)) as (t & Ht & Ha).
      apply (d_fire (KF f) None d [] None c cs x y Hf) in Hp as [Hp He]; [done|by apply disc_emit|done|].
      exists t. split; [done|]. split; [exact Ha|done].
    - destruct (Hc c ltac:(left)) as (t & Ht & Ha).
      assert (disc_inv (q_emit (EvFire (KF f) c) x.2) d [] None) as Hd1 by by apply disc_emit.
      apply (d_fire (KF f) None d [] None c cs x y Hf) in Hp as [Hp He]; [|done|done|].
      + intros c' Hc'. destruct (Hc c' ltac:(by right)) as (t' & Ht' & Ha'). exists t'. split; [by apply He|].
        destruct (uses_mono _ _ _ _ _ _ (x_uses _ _ _ He) Hd1) as (HA & _); [done|]. by apply HA.
      + exists t. split; [done|]. split; [exact Ha|done].
    - (* pop of a task set *)
      assert (pending (KT t) x.2 = cs /\ (forall k, k <> KT t -> pending k q = pending k x.2) /\ pending (KT t) q = [] /\ q_futs q = q_futs x.2 /\ q_forks q = q_forks x.2 /\ q_nfut q = q_nfut x.2) as (Hcs & Hpd & Hpf & Hqf & Hqk & Hqn).
      { unfold q_pop in Hpop. injection Hpop as <- <-. unfold pending; simpl. split; [done|]. split; [intros k Hk; by rewrite dget_ddel_ne|]. split; [|done].
        rewrite dget_ddel_eq; [done|]. apply Hd. }
      destruct Hp as [P1 P2 P3]. split; simpl; [congruence| |].
      + intros k c Hck. destruct (decide (k = KT t)) as [->|Hne]; [rewrite Hpf in Hck; by apply not_elem_of_nil in Hck|].
        rewrite Hpd in Hck by done. destruct (P2 k c Hck) as (t1 & Ht & Hx). exists t1. split; [done|].
        destruct Hx as [Hx|(f' & -> & Hf' & Ha)].
        * left. destruct k; simpl in *; rewrite ?Hqf, ?Hqk; exact Hx.
        * by apply not_elem_of_nil in Hf'.
      + intros n c Hn. destruct (P3 n c Hn) as [?|(c' & [Hx|Hx] & Hcn)]; [by left|by apply not_elem_of_nil in Hx|].
        right. exists c'. split; [|done]. right. by rewrite Hpd.
    - assert (pending (KT t) x.2 = cs /\ q_forks q = q_forks x.2) as (Hcs & Hqf).
      { unfold q_pop in Hpop. injection Hpop as <- <-. done. }
      intros c Hcc. rewrite <-Hcs in Hcc. destruct (p_link _ _ _ Hp _ _ Hcc) as (t1 & Ht & Hx). exists t1. split; [done|].
      simpl. rewrite Hqf. destruct Hx as [Hx|(f' & Hf' & _)]; [exact Hx|done].
    - destruct (Hc c ltac:(left)) as (t1 & Ht & Hs1). pose proof (in_set_busy x.2 t1 (KT t) Hs1) as Hb.
      assert (disc_inv (q_emit (EvFire (KT t) c) x.2) [] ts (Some t)) as Hd1 by by apply disc_emit.
      apply (d_fire (KT t) (Some (q_nts x.2)) [] ts (Some t) c cs x y Hf) in Hp as [Hp He]; [done|done| |].
      + simpl. split; [done|]. split.
        * intros t' Ht'. apply (di_nts _ _ _ _ Hd). destruct (di_tss _ _ _ _ Hd) as [_ Hx]. by apply Hx.
        * intros t' [= <-]. apply (di_nts _ _ _ _ Hd). by apply (di_ct _ _ _ _ Hd).
      + exists t1. split; [done|]. split; [|by right]. destruct Hs1 as (l & Hl & _).
        unfold alive. simpl. rewrite (di_keys _ _ _ _ Hd). apply dget_is_Some. eauto.
    - destruct (Hc c ltac:(left)) as (t1 & Ht & Hs1). pose proof (in_set_busy x.2 t1 (KT t) Hs1) as Hb.
      assert (disc_inv (q_emit (EvFire (KT t) c) x.2) [] ts (Some t)) as Hd1 by by apply disc_emit.
      assert (lim_ok (Some (q_nts x.2)) (q_emit (EvFire (KT t) c) x.2) ts (Some t)) as Hl1.
      { simpl. split; [done|]. split.
        * intros t' Ht'. apply (di_nts _ _ _ _ Hd). destruct (di_tss _ _ _ _ Hd) as [_ Hx]. by apply Hx.
        * intros t' [= <-]. apply (di_nts _ _ _ _ Hd). by apply (di_ct _ _ _ _ Hd). }
      apply (d_fire (KT t) (Some (q_nts x.2)) [] ts (Some t) c cs x y Hf) in Hp as [Hp He]; [|done|done|].
      + intros c' Hc'. destruct (Hc c' ltac:(by right)) as (t' & Ht' & Ha'). exists t'. split; [by apply He|].
        destruct (uses_mono _ _ _ _ _ _ (x_uses _ _ _ He) Hd1 Hl1) as (_ & HS & _). by apply (HS t' (KT t)).
      + exists t1. split; [done|]. split; [|by right]. destruct Hs1 as (l & Hl & _).
        unfold alive. simpl. rewrite (di_keys _ _ _ _ Hd). apply dget_is_Some. eauto.
    - (* completion of a task set *)
      destruct Hp as [P1 P2 P3]. split; simpl; [done| |done]. intros k c Hck. destruct (P2 k c Hck) as (t1 & Ht & Hx). exists t1. split; [done|].
      destruct Hx as [Hx|(f' & -> & Hf' & Ha)]; [|by apply not_elem_of_nil in Hf']. left.
      destruct (di_ct _ _ _ _ Hd t eq_refl) as [_ Hnb].
      assert (t1 <> t) as Hne by (intros ->; apply Hnb; by eapply in_set_busy).
      destruct k as [f|u]; destruct Hx as (l & Hl & Hin).
      + exists l. simpl. by rewrite dget_ddel_ne.
      + assert (u <> t) as Hut.
        { intros ->. assert (KT t ∈ dkeys (q_cbs x.2)) as Hk.
          { apply dget_is_Some. unfold pending in Hck. destruct (dget (KT t) (q_cbs (q_complete t x.2))) as [l'|] eqn:El; [|by apply not_elem_of_nil in Hck]. simpl in El. eauto. }
          by apply (di_cbt _ _ _ _ Hd) in Hk as [_ Hk]. }
        exists (List.filter (fun x => negb (Nat.eqb x t)) l). simpl. rewrite dget_map_snd, dget_ddel_ne, Hl by done. split; [done|].
        apply elem_of_list_In, filter_In. split; [by apply elem_of_list_In|]. by apply negb_true_iff, Nat.eqb_neq.
  Qed.
  Lemma dcfg_rtc a b : dcfg a -> rtc (qstep (run_cb E)) a b -> dcfg b.
  Proof. intros Ha Hr. induction Hr as [|x y z Hxy _ IH]; [done|]. apply IH. by eapply dcfg_step. Qed.

  Lemma start_dcfg g q x : start E g q = Ok x -> dcfg (x, PIdle) /\ uses (disciplined None) q_empty x.2.
  Proof.
    unfold start. destruct (init_options g q) as [q'|]; [|done].
    cbn [q_fork q_empty q_futs q_forks q_cbs q_nfut q_nts q_trace dset app].
    match goal with |- context [process_node E (pn_fuel E) 0 _ _ _ ?z] => set (z0 := z) end. intros Hx.
    assert (uses (disciplined None) (@q_empty cb) z0.2) as Hu0.
    { eapply (uses_op _ _ (OFork None)); [done|vm_compute; reflexivity|constructor]. }
    destruct (disc_uses _ _ _ _ _ _ Hu0 disc_empty) as [Hd0 _]; [done|].
    assert (okst None [] [] None [] z0) as Hok.
    { split; [done|]. split; [done|]. split; simpl; [done| |].
      - intros k c Hc. by apply not_elem_of_nil in Hc.
      - intros n c Hn. done. }
    apply (d_process_node None [] [] None []) in Hx as [(Hi & Hl & Hp) He]; [|done|].
    - split; [|eapply ext_trans in He; [|apply ext_refl]; destruct He as [He _ _]; clear -Hu0 He; induction Hu0; eauto using uses_op].
      split; simpl; [by split|done|done].
    - exists 0. split; [done|]. split; [left|done].
  Qed.

  Lemma exec_dcfg fuel g q x sched y :
    start E g q = Ok x -> executes (run_cb E) fuel sched x (Ok y) -> dcfg (y, PIdle) /\ q_futures y.2 = [].
  Proof.
    intros Hx He. apply executes_steps in He as [Hr Hf]. split; [|done].
    eapply dcfg_rtc; [|exact Hr]. by eapply start_dcfg.
  Qed.

  (** ** Finished calls stay finished, the log of calls only grows *)
  Lemma dcfg_fire x p k c cs y : dcfg (x, p) -> phase_cur p = Some (k, c :: cs) -> fire (run_cb E) k x c = Ok y ->
    exists lim, ext lim (x.1, q_emit (EvFire k c) x.2) y.
  Proof.
    intros [[Hd Hdn] Hp Hc] Hk Hy.
    destruct p as [|[[f cs']|] dn| |[[t cs']|] ts]; simpl in *; try done; simplify_eq/=.
    - destruct (Hc c ltac:(left)) as (t & Ht & Ha). exists None.
      apply (d_fire (KF f) None dn [] None c cs x y Hy) in Hp as [_ He]; [exact He|by apply disc_emit|done|].
      exists t. split; [done|]. split; [exact Ha|done].
    - destruct (Hc c ltac:(left)) as (t1 & Ht & Hs1). pose proof (in_set_busy x.2 t1 (KT t) Hs1) as Hb.
      assert (disc_inv (q_emit (EvFire (KT t) c) x.2) [] ts (Some t)) as Hd1 by by apply disc_emit.
      exists (Some (q_nts x.2)).
      apply (d_fire (KT t) (Some (q_nts x.2)) [] ts (Some t) c cs x y Hy) in Hp as [_ He]; [exact He|done| |].
      + simpl. split; [done|]. split.
        * intros t' Ht'. apply (di_nts _ _ _ _ Hd). destruct (di_tss _ _ _ _ Hd) as [_ Hx]. by apply Hx.
        * intros t' [= <-]. apply (di_nts _ _ _ _ Hd). by apply (di_ct _ _ _ _ Hd).
      + exists t1. split; [done|]. split; [|by right]. destruct Hs1 as (l & Hl & _).
        unfold alive. simpl. rewrite (di_keys _ _ _ _ Hd). apply dget_is_Some. eauto.
  Qed.
  Lemma dcfg_log a b n c : dcfg a -> qstep (run_cb E) a b -> w_log a.1.1 !! n = Some c -> w_log b.1.1 !! n = Some c.
  Proof.
    intros Ha Hs Hn.
    destruct Hs as [x dn H1 H2 H3|x f d cs q Hpop|x f c1 cs d y Hf|x f d|x|x Hq|x t ts cs q Hpop|x t c1 cs ts y Hf|x t ts|x|x Hq]; simpl in *; try done.
    - destruct (dcfg_fire _ _ _ _ _ _ Ha eq_refl Hf) as [lim He]. by apply (x_log _ _ _ He).
    - destruct (dcfg_fire _ _ _ _ _ _ Ha eq_refl Hf) as [lim He]. by apply (x_log _ _ _ He).
  Qed.
  Lemma dcfg_log_rtc a b n c : dcfg a -> rtc (qstep (run_cb E)) a b -> w_log a.1.1 !! n = Some c -> w_log b.1.1 !! n = Some c.
  Proof. intros Ha Hr. induction Hr as [|x y z Hxy _ IH]; [done|]. intros Hn. apply IH; [by eapply dcfg_step|by eapply dcfg_log]. Qed.

  Definition past (q : queue cb) : Prop := forall f, EvDone f ∈ q_trace q -> f ∉ q_futures q /\ f < q_nfut q.
  Lemma past_uses A q q' : uses A q q' -> past q -> past q'.
  Proof.
    induction 1 as [|q o q1 q2 _ Ho _ IH]; [done|]. intros Hp. apply IH. clear IH. intros f. destruct o as [t|p|k c]; simpl in Ho.
    - unfold q_submit in Ho. destruct (dget t _) as [l|] eqn:Et; simplify_eq/=. intros Hf. apply elem_snoc' in Hf as [Hf|Hf]; [|done].
      destruct (Hp _ Hf) as [H1 H2]. split; [|lia]. unfold q_futures. simpl. rewrite (futures_dset_perm t (q_nfut q) l _ Et).
      intros [->|Hx]%elem_of_cons; [lia|]. by apply H1.
    - assert (q_futs q1 = dset (q_nts q) [] (q_futs q) /\ q_nfut q1 = q_nfut q /\ exists p', q_trace q1 = q_trace q ++ [EvFork p' (q_nts q)]) as (E1 & E2 & p' & E3).
      { unfold q_fork in Ho. destruct p as [p|]; [destruct (dget p _)|]; simplify_eq/=; eauto. }
      rewrite E3. intros Hf. apply elem_snoc' in Hf as [Hf|Hf]; [|done]. destruct (Hp _ Hf) as [H1 H2]. rewrite E2. split; [|done].
      unfold q_futures. rewrite E1. intros Hx. apply H1. unfold q_futures. clear -Hx. revert Hx.
      induction (q_futs q) as [|[t l] d IH]; simpl; [done|]. destruct (decide _); simpl; rewrite ?elem_of_app; [by right|]. intros [?|?]; [by left|right; auto].
    - simplify_eq/=. intros Hf. apply elem_snoc' in Hf as [Hf|Hf]; [|done]. by apply Hp.
  Qed.
  Lemma past_step a b : dcfg a -> past a.1.2 -> (forall f, EvDone f ∈ q_trace a.1.2 -> f ∉ done_rem a.2) -> qstep (run_cb E) a b ->
    past b.1.2 /\ forall f, EvDone f ∈ q_trace b.1.2 -> f ∉ done_rem b.2.
  Proof.
    intros Ha Hp Hr Hs.
    destruct Hs as [x dn H1 H2 H3|x f d cs q Hpop|x f c1 cs d y Hf|x f d|x|x Hq|x t ts cs q Hpop|x t c1 cs ts y Hf|x t ts|x|x Hq]; simpl in *; try done.
    - split.
      + intros f Hf. destruct (Hp f Hf) as [G1 G2]. split; [|done]. intros Hx. apply G1. revert Hx. unfold q_futures. simpl. clear.
        induction (q_futs x.2) as [|[t l] d IH]; simpl; [done|]. rewrite !elem_of_app. intros [Hx|Hx]; [left|right; auto].
        apply elem_of_list_In, filter_In in Hx as [Hx _]. by apply elem_of_list_In.
      + intros f Hf Hx. apply (Hp f Hf). by apply H3.
    - unfold q_pop in Hpop. simpl in Hpop. simplify_eq/=. destruct Ha as [[Hd _] _ _]. simpl in Hd. destruct (di_dn _ _ _ _ Hd) as [Hn Hd']. split.
      + intros f' Hf'. simpl in Hf'. apply elem_snoc' in Hf' as [Hf'|Hf']; [by apply Hp|]. injection Hf' as ->. apply (Hd' f). left.
      + intros f' Hf'. apply elem_snoc' in Hf' as [Hf'|Hf'].
        * intros Hx. apply (Hr _ Hf'). by right.
        * injection Hf' as ->. by apply NoDup_cons in Hn as [? _].
    - destruct (dcfg_fire _ _ _ _ _ _ Ha eq_refl Hf) as [lim [U _ _]]. simpl in U. split.
      + eapply past_uses; [exact U|]. intros f' Hf'. simpl in Hf'. apply elem_snoc' in Hf' as [Hf'|Hf']; [by apply Hp|done].
      + intros f' Hf'. apply Hr. assert (forall e, e ∈ q_trace y.2 -> (forall t f, e <> EvSubmit t f) -> (forall p t, e <> EvFork p t) -> (forall k c, e <> EvAdd k c) -> e ∈ q_trace (q_emit (EvFire (KF f) c1) x.2)) as Hu.
        { clear -U. induction U as [|q o q1 q2 _ Ho _ IH]; [done|]. intros e He N1 N2 N3. specialize (IH e He N1 N2 N3). revert IH.
          destruct o as [t|p|k c]; simpl in Ho.
          - unfold q_submit in Ho. destruct (dget t _); simplify_eq/=. intros [?| ->]%elem_snoc'; [done|by destruct (N1 t (q_nfut q))].
          - unfold q_fork in Ho. destruct p as [p|]; [destruct (dget p _)|]; simplify_eq/=; intros [?| ->]%elem_snoc'; try done; exfalso; by eapply N2.
          - simplify_eq/=. intros [?| ->]%elem_snoc'; [done|]. exfalso; by eapply N3. }
        apply Hu in Hf'; [|done..]. simpl in Hf'. apply elem_snoc' in Hf' as [Hf'|Hf']; done.
    - unfold q_pop in Hpop. simplify_eq/=. split; [exact Hp|]. intros. apply not_elem_of_nil.
    - destruct (dcfg_fire _ _ _ _ _ _ Ha eq_refl Hf) as [lim [U _ _]]. simpl in U. split; [|intros; apply not_elem_of_nil].
      eapply past_uses; [exact U|]. intros f' Hf'. simpl in Hf'. apply elem_snoc' in Hf' as [Hf'|Hf']; [by apply Hp|done].
    - split; [|intros; apply not_elem_of_nil]. intros f Hf. apply elem_snoc' in Hf as [Hf|]; [|done]. destruct (Hp f Hf) as [G1 G2]. split; [|done].
      intros Hx. apply G1. revert Hx. unfold q_futures. simpl. clear. induction (q_futs x.2) as [|[t1 l] d IH]; simpl; [done|].
      destruct (decide _); simpl; rewrite !elem_of_app; [by right|]. intros [?|?]; [by left|right; auto].
  Qed.
  Lemma past_rtc a b : dcfg a -> past a.1.2 -> (forall f, EvDone f ∈ q_trace a.1.2 -> f ∉ done_rem a.2) -> rtc (qstep (run_cb E)) a b -> past b.1.2.
  Proof.
    intros Ha Hp Hr Hs. revert Ha Hp Hr. induction Hs as [|x y z Hxy _ IH]; [done|]. intros Ha Hp Hr.
    destruct (past_step _ _ Ha Hp Hr Hxy) as [Hp' Hr']. apply IH; [by eapply dcfg_step|done|done].
  Qed.
End disc.

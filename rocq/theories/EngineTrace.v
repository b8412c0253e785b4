(** Facts about the order of events in every execution, whatever the loaders return. *)
From stdpp Require Import relations.
From Verif Require Import Base Val Query Graph Queue QueueSpec QueueProof PropQueue Result Engine EngineApi SplitProof.

(** The callback which stores the result waited for under the key [k], for the objects [ids]
    of the node [gn], and the fields it stores. *)
Definition stores (c : cb) (k : ckey) (w : nat) (gn : gnode) (ids : option (list val)) : Prop :=
  match c with
  | CbStore w' gn' _ ids' fut => k = KF fut /\ w' = w /\ gn' = gn /\ ids' = ids
  | CbLink w' gn' _ _ ids' fut => k = KF fut /\ w' = w /\ gn' = gn /\ ids' = ids
  | CbStoreSub w' gn' _ ids' _ _ => (exists t, k = KT t) /\ w' = w /\ gn' = gn /\ ids' = ids
  | _ => False
  end.
Definition stored_fields (c : cb) : list qitem :=
  match c with CbStore _ _ qfs _ _ | CbStoreSub _ _ qfs _ _ _ => qfs | _ => [] end.

Definition good_add (l1 : list cb) (k : ckey) (c : cb) : Prop :=
  match c with
  | CbProc w gn _ ids => exists c', c' ∈ l1 /\ stores c' k w gn ids
  | CbSched w gn l _ ids =>
      exists c' r, c' ∈ l1 /\ stores c' k w gn ids /\ req_true l = Some r /\ QF r None None ∈ stored_fields c'
  | CbStore _ _ _ _ fut | CbLink _ _ _ _ _ fut => k = KF fut
  | CbStoreSub _ _ _ _ _ _ => exists t, k = KT t
  end.

Section trace.
  Context `{Hasher} (E : env).
  Definition ginv (q : queue cb) : Prop :=
    forall k l1 c l2, added k (q_trace q) = l1 ++ c :: l2 -> good_add l1 k c.
  (** [more q q']: the callbacks added before are a prefix of those added now *)
  Definition more (q q' : queue cb) : Prop := forall k, exists l, added k (q_trace q') = added k (q_trace q) ++ l.

  Lemma more_refl q : more q q.
  Proof. intros k. exists []. by rewrite app_nil_r. Qed.
  Lemma more_trans a b c : more a b -> more b c -> more a c.
  Proof. intros H1 H2 k. destruct (H1 k) as [l1 E1], (H2 k) as [l2 E2]. exists (l1 ++ l2). by rewrite E2, E1, app_assoc. Qed.
  Lemma more_in a b k c : more a b -> c ∈ added k (q_trace a) -> c ∈ added k (q_trace b).
  Proof. intros Hm Hc. destruct (Hm k) as [l ->]. apply elem_of_app. by left. Qed.

  Lemma added_snoc k (tr : list (qev cb)) e : added k (tr ++ [e]) = added k tr ++ match e with EvAdd k' c => if decide (k = k') then [c] else [] | _ => [] end.
  Proof. unfold added. rewrite omap_app. simpl. destruct e; try done. by destruct (decide _). Qed.

  Lemma ginv_submit t q f q' : q_submit t q = Ok (f, q') -> ginv q -> ginv q' /\ more q q'.
  Proof.
    unfold q_submit. destruct (dget t _); [|done]. intros [= <- <-] Hg. split.
    - intros k l1 c l2. simpl. rewrite added_snoc, app_nil_r. apply Hg.
    - intros k. exists []. simpl. by rewrite added_snoc.
  Qed.
  Lemma ginv_fork p q t q' : q_fork p q = Ok (t, q') -> ginv q -> ginv q' /\ more q q'.
  Proof.
    intros Hf Hg.
    assert (exists p', q_trace q' = q_trace q ++ [EvFork p' t]) as [p' Hp].
    { unfold q_fork in Hf. destruct p as [p|]; [destruct (dget p _); [|done]|]; injection Hf as <- <-; simpl; eauto. }
    split.
    - intros k l1 c l2. rewrite Hp, added_snoc, app_nil_r. apply Hg.
    - intros k. exists []. by rewrite Hp, added_snoc.
  Qed.
  Lemma ginv_add k c q : ginv q -> good_add (added k (q_trace q)) k c -> ginv (q_add k c q) /\ more q (q_add k c q).
  Proof.
    intros Hg Hc. split.
    - intros k' l1 c' l2. simpl. rewrite added_snoc. destruct (decide (k' = k)) as [->|Hne]; [|rewrite app_nil_r; apply Hg].
      intros Heq. destruct l2 as [|c2 l2] using rev_ind.
      + apply app_inj_tail in Heq as [<- <-]. done.
      + clear IHl2. rewrite app_comm_cons, app_assoc in Heq. apply app_inj_tail in Heq as [Heq _]. by eapply Hg.
    - intros k'. simpl. rewrite added_snoc. eauto.
  Qed.
  Lemma added_add k c (q : queue cb) : c ∈ added k (q_trace (q_add k c q)).
  Proof. simpl. rewrite added_snoc, decide_True by done. apply elem_snoc'. by right. Qed.

  Lemma submit_q w f a x fut x' : submit E w f a x = Ok (fut, x') -> ginv x.2 -> ginv x'.2 /\ more x.2 x'.2.
  Proof.
    unfold submit. destruct (get_wf w x) as [v|]; [|done].
    intros Hs Hg.
    assert (exists f' q', q_submit (wf_ts v) x.2 = Ok (f', q') /\ x'.2 = q') as (f' & q' & Hq & ->).
    { cbn [fst snd] in Hs. destruct (q_submit (wf_ts v) x.2) as [[f' q']|] eqn:Eq.
      - exists f', q'. split; [done|]. destruct (e_eager E); [destruct (e_oracle E _ _)|]; by simplify_eq.
      - destruct (e_eager E); [destruct (e_oracle E _ _)|]; done. }
    by eapply ginv_submit.
  Qed.

  Section pn.
    Variable pn : nat -> gnode -> qnode -> option (list val) -> st -> res st.
    Hypothesis Hpn : forall w gn q ids x y, pn w gn q ids x = Ok y -> ginv x.2 -> ginv y.2 /\ more x.2 y.2.

    Lemma g_process_link w gn l q ids r x y :
      process_link pn w gn l q ids r x = Ok y -> ginv x.2 -> ginv y.2 /\ more x.2 y.2.
    Proof.
      unfold process_link. destruct (get_wf w x) as [v|]; [|done]. destruct (store_links _ _ _ _ _ _) as [idx|]; [|done].
      destruct (link_result_to_ids _ _ _) as [[|i is_]|]; [intros [= <-] Hg; split; [exact Hg|apply more_refl]| |done].
      destruct (find_node _ _); [|done]. destruct (q_is_link q); [|done]. intros Hy Hg. apply Hpn in Hy; [exact Hy|exact Hg].
    Qed.
    Lemma g_sub_call sg fields ids ts x r : sub_call E pn sg fields ids ts x = Ok r -> ginv x.2 -> ginv r.2.2 /\ more x.2 r.2.2.
    Proof.
      unfold sub_call. destruct (e_sgs E !! sg) as [[g node]|]; [|done]. destruct (mapR _ fields) as [ovs|]; [|done].
      destruct (dget THIS _) as [tq|]; [|done]. destruct (process_link _ _ _ _ _ _ _ _) as [x2|] eqn:E2; [|done].
      destruct (pn _ _ _ _ x2) as [x3|] eqn:E3; [|done]. intros [= <-] Hg. simpl.
      eapply g_process_link in E2 as [Hg2 Hm2]; [|done]. eapply Hpn in E3 as [Hg3 Hm3]; [|done].
      split; [done|]. simpl in Hm2. by eapply more_trans.
    Qed.
    Lemma g_schedule_fields w gn fk fields ids x d y :
      schedule_fields E pn w gn fk fields ids x = Ok (d, y) -> ginv x.2 ->
      ginv y.2 /\ more x.2 y.2 /\ exists c, c ∈ added d (q_trace y.2) /\ stores c d w gn ids /\ stored_fields c = map snd fields.
    Proof.
      unfold schedule_fields. destruct fk as [f|sg].
      - destruct (submit _ _ _ _ _) as [[fut x1]|] eqn:Es; [|done]. intros [= <- <-] Hg. apply submit_q in Es as [Hg1 Hm1]; [|done].
        destruct (ginv_add (KF fut) (CbStore w gn (map snd fields) ids fut) x1.2 Hg1) as [Hg2 Hm2]; [done|].
        split; [done|]. split; [by eapply more_trans|]. eexists. split; [apply added_add|]. done.
      - destruct ids as [is_|]; [|done]. destruct (get_wf w x) as [v|]; [|done].
        destruct (q_fork _ _) as [[t q1]|] eqn:Ef; [|done]. destruct (sub_call _ _ _ _ _ _ _) as [[[w' procs] x2]|] eqn:Ec; [|done].
        intros [= <- <-] Hg. apply ginv_fork in Ef as [Hg0 Hm0]; [|done]. apply g_sub_call in Ec as [Hg1 Hm1]; [|done]. simpl in Hg1, Hm1.
        destruct (ginv_add (KT t) (CbStoreSub w gn (map snd fields) (Some is_) w' procs) x2.2 Hg1) as [Hg2 Hm2]; [by exists t|].
        split; [done|]. split; [eapply more_trans; [exact Hm0|]; by eapply more_trans|]. eexists. split; [apply added_add|]. simpl. split; [|done]. split; [by exists t|done].
    Qed.
    Lemma g_schedule_link w gn l q ids x d y :
      schedule_link E w gn l q ids x = Ok (d, y) -> ginv x.2 ->
      ginv y.2 /\ more x.2 y.2 /\ exists c, c ∈ added d (q_trace y.2) /\ stores c d w gn ids.
    Proof.
      unfold schedule_link. destruct (get_wf w x) as [v|]; [|done].
      destruct (match req_true l with Some _ => _ | None => _ end) as [a|]; [|done].
      destruct (submit _ _ _ _ _) as [[fut x1]|] eqn:Es; [|done]. intros [= <- <-] Hg. apply submit_q in Es as [Hg1 Hm1]; [|done].
      destruct (ginv_add (KF fut) (CbLink w gn l q ids fut) x1.2 Hg1) as [Hg2 Hm2]; [done|].
      split; [done|]. split; [by eapply more_trans|]. eexists. split; [apply added_add|]. done.
    Qed.
    Lemma g_proc_steps w gn steps ids x y :
      proc_steps E pn w gn steps ids x = Ok y -> ginv x.2 -> ginv y.2 /\ more x.2 y.2.
    Proof.
      unfold proc_steps. destruct steps as [|sp rest]; [done|].
      destruct (match sp with StFields _ _ => _ | StLink _ _ => _ end) as [[d x1]|] eqn:Es; [|done]. intros Hy Hg.
      assert (ginv x1.2 /\ more x.2 x1.2 /\ exists c, c ∈ added d (q_trace x1.2) /\ stores c d w gn ids) as (Hg1 & Hm1 & c & Hc1 & Hc2).
      { destruct sp.
        - apply g_schedule_fields in Es as (? & ? & c & ? & ? & ?); eauto.
        - apply g_schedule_link in Es; eauto. }
      destruct rest as [|sp2 rest].
      - injection Hy as <-. done.
      - injection Hy as <-. destruct (ginv_add d (CbProc w gn (sp2 :: rest) ids) x1.2 Hg1) as [Hg2 Hm2]; [exists c; done|].
        split; [done|]. by eapply more_trans.
    Qed.

    (** What [split_query] gives when it succeeds *)
    Lemma split_sound gn qs fields links : split_query gn qs = Ok (fields, links) ->
      (forall fk go q, (fk, go, q) ∈ fields -> fk = fkey_of go /\ find_field gn (q_name q) = Some go) /\
      (forall l q r, (l, q) ∈ links -> req_true l = Some r -> exists fk go, (fk, go, QF r None None) ∈ fields).
    Proof.
      unfold split_query. revert fields links. induction qs as [|q qs IH] using rev_ind; intros fields links; simpl.
      - intros [= <- <-]. split; intros ??? Hx; by apply not_elem_of_nil in Hx.
      - rewrite foldR_app. destruct (foldR _ _ qs) as [[f0 l0]|] eqn:Ef; [|done].
        destruct (IH f0 l0 eq_refl) as [H1 H2]. simpl.
        assert (forall q fields', split_field gn (f0, l0) q = Ok fields' ->
          exists go, find_field gn (q_name q) = Some go /\ fields' = (f0 ++ [(fkey_of go, go, q)], l0)) as Hsf.
        { intros q1 fs. unfold split_field. destruct (find_field gn (q_name q1)) as [go|]; [|done]. intros [= <-]. eauto. }
        assert (forall q fs, split_field gn (f0, l0) q = Ok fs ->
          (forall fk go q, (fk, go, q) ∈ fs.1 -> fk = fkey_of go /\ find_field gn (q_name q) = Some go) /\
          (forall l q r, (l, q) ∈ fs.2 -> req_true l = Some r -> exists fk go, (fk, go, QF r None None) ∈ fs.1) /\
          (exists fk go, (fk, go, q) ∈ fs.1)) as Hkeep.
        { intros q1 fs Hq1. apply Hsf in Hq1 as (go & Hgo & ->). simpl. split; [|split].
          - intros fk go' q'. rewrite elem_snoc'. intros [Hx|Hx]; [by apply H1|]. by simplify_eq.
          - intros l q' r Hx Hr. destruct (H2 _ _ _ Hx Hr) as (fk & go' & Hy). exists fk, go'. apply elem_snoc'. by left.
          - eexists _, _. apply elem_snoc'. by right. }
        destruct (split_item gn (f0, l0) q) as [[f1 l1]|] eqn:Ei; [|done]. intros [= <- <-].
        unfold split_item in Ei. destruct q as [n o a|n sub ord o a].
        + destruct (Hkeep _ _ Ei) as (? & ? & _). done.
        + destruct (find_field gn (q_name (QL n sub ord o a))) as [[f|l]|] eqn:En; [|clear En|done].
          * destruct (Hkeep _ _ Ei) as (? & ? & _). done.
          * destruct (req_true l) as [r|] eqn:Er.
            -- destruct (split_field gn (f0, l0) (QF r None None)) as [acc|] eqn:Es; [|done]. injection Ei as <- <-.
               destruct (Hkeep _ _ Es) as (K1 & K2 & K3). split; [done|].
               intros l' q' r'. rewrite elem_snoc'. intros [Hx|Hx]; [by eapply K2|]. simplify_eq. intros Hr'. by simplify_eq.
            -- injection Ei as <- <-. split; [done|]. intros l' q' r'. simpl. rewrite elem_snoc'.
               intros [Hx|Hx]; [by eapply H2|]. simplify_eq. intros Hr'. congruence.
    Qed.

    Lemma g_schedule_groups w gn ids groups : forall x d0 to_dep y,
      foldR (fun acc g => match schedule_fields E pn w gn g.1 g.2 ids acc.2 with
                          | Ok (dep, x') => Ok (dset g.1 dep acc.1, x') | Err e => Err e end) (d0, x) groups = Ok (to_dep, y) ->
      ginv x.2 -> NoDup (dkeys groups) ->
      ginv y.2 /\ more x.2 y.2 /\
      forall fk dep, dget fk to_dep = Some dep ->
        (fk ∉ dkeys groups /\ dget fk d0 = Some dep) \/
        exists items c, (fk, items) ∈ groups /\ c ∈ added dep (q_trace y.2) /\ stores c dep w gn ids /\ stored_fields c = map snd items.
    Proof.
      induction groups as [|[fk items] groups IH]; intros x d0 to_dep y; simpl.
      - intros [= <- <-] Hg _. split; [done|]. split; [apply more_refl|]. intros fk dep Hd. left. split; [apply not_elem_of_nil|done].
      - destruct (schedule_fields _ _ _ _ _ _ _ _) as [[dep x1]|] eqn:Es; [|done]. intros Hy Hg Hnd.
        apply NoDup_cons in Hnd as [Hnew Hnd].
        apply g_schedule_fields in Es as (Hg1 & Hm1 & c & Hc1 & Hc2 & Hc3); [|done].
        destruct (IH _ _ _ _ Hy Hg1 Hnd) as (Hg2 & Hm2 & Hd). split; [done|]. split; [by eapply more_trans|].
        intros fk' dep' Hf. destruct (Hd _ _ Hf) as [[Hn Hg0]|(its & c' & Hi & Hc)].
        + rewrite dget_dset in Hg0. destruct (decide (fk' = fk)) as [->|Hne].
          * injection Hg0 as <-. right. exists items, c. split; [left|]. split; [by eapply more_in|]. done.
          * left. split; [|done]. intros Hx. apply elem_of_cons in Hx as [->|Hx]; done.
        + right. exists its, c'. split; [by right|done].
    Qed.

    Lemma g_process_body w gn q ids x y :
      process_node_body E pn w gn q ids x = Ok y -> ginv x.2 -> ginv y.2 /\ more x.2 y.2.
    Proof.
      unfold process_node_body. destruct (qordered q).
      - destruct (group_query _ _) as [[|sp steps]|]; [intros [= <-] Hg; split; [done|apply more_refl]|apply g_proc_steps|done].
      - destruct (split_query _ _) as [[fields links]|] eqn:Esp; [|done].
        destruct (split_sound _ _ _ _ Esp) as [S1 S2].
        destruct (schedule_groups _ _ _ _ _ _ _) as [[to_dep x1]|] eqn:Eg; [|done]. intros Hy Hg.
        pose proof (group_fold (fun t : fkey * gitem * qitem => t.1.1) (fun t => (t.1.2, t.2)) fields) as (G1 & G2 & G3 & _).
        unfold schedule_groups in Eg. apply g_schedule_groups in Eg as (Hg1 & Hm1 & Hd1); [|done|exact G1].
        assert (forall links', (forall p, p ∈ links' -> p ∈ links) -> forall x2, more x1.2 x2.2 -> ginv x2.2 ->
          schedule_links E w gn ids (of_pairs (map (fun t => (gi_name t.1.2, t.1.1)) fields)) to_dep links' x2 = Ok y ->
          ginv y.2 /\ more x2.2 y.2) as Hl.
        { clear Hy. induction links' as [|[l lq] links' IH]; intros Hin x2 Hm2 Hg2; unfold schedule_links; simpl.
          - intros [= <-]. split; [done|apply more_refl].
          - destruct (req_true l) as [r|] eqn:Er.
            + destruct (dget r _) as [f|] eqn:Ef; [|done]. destruct (dget f to_dep) as [dep|] eqn:Ed; [|done]. intros Hy.
              destruct (Hd1 _ _ Ed) as [[_ Hx]|(items & c & Hi & Hc1 & Hc2 & Hc3)]; [done|].
              destruct (S2 l lq r (Hin _ ltac:(left)) Er) as (fk & go & Hfr).
              destruct (S1 _ _ _ Hfr) as [-> Hgo]. simpl in Hgo.
              apply dget_of_pairs_Some in Ef. apply elem_of_list_fmap in Ef as ([[fk2 go2] q2] & [= Hn ->] & Hin2). simpl in *.
              destruct (S1 _ _ _ Hin2) as [-> Hgo2].
              assert (go2 = go) as ->.
              { pose proof (find_field_name _ _ _ Hgo2). congruence. }
              destruct (ginv_add dep (CbSched w gn l lq ids) x2.2 Hg2) as [Hg3 Hm3].
              { exists c, r. split; [by eapply more_in|]. split; [done|]. split; [done|]. rewrite Hc3.
                apply elem_of_list_fmap. exists (go, QF r None None). split; [done|].
                eapply (group_elem (fun t : fkey * gitem * qitem => t.1.1) (fun t => (t.1.2, t.2))); [exact Hi|]. eauto. }
              eapply (IH ltac:(intros; apply Hin; by right) (add_cb dep (CbSched w gn l lq ids) x2)) in Hy as [Hg4 Hm4]; [split; [done|by eapply more_trans]|by eapply more_trans|done].
            + destruct (schedule_link _ _ _ _ _ _ _) as [[d x3]|] eqn:Es; [|done]. intros Hy.
              apply g_schedule_link in Es as (Hg3 & Hm3 & _); [|done].
              eapply (IH ltac:(intros; apply Hin; by right)) in Hy as [Hg4 Hm4]; [split; [done|by eapply more_trans]|by eapply more_trans|done]. }
        destruct (Hl links ltac:(done) x1 (more_refl _) Hg1 Hy) as [Hg2 Hm2]. split; [done|by eapply more_trans].
    Qed.
  End pn.

  Lemma g_process_node fuel w gn q ids x y :
    process_node E fuel w gn q ids x = Ok y -> ginv x.2 -> ginv y.2 /\ more x.2 y.2.
  Proof.
    revert w gn q ids x y. induction fuel as [|k IH]; intros w gn q ids x y; simpl; [done|].
    apply g_process_body. exact IH.
  Qed.
  Lemma g_store w gn qfs ids r x y : store_result w gn qfs ids r x = Ok y -> ginv x.2 -> ginv y.2.
  Proof.
    unfold store_result. destruct (get_wf w x); [|done]. destruct (store_fields _ _ _ _ _); [|done].
    by intros [= <-].
  Qed.
  Lemma g_run_cb c x y : run_cb E c x = Ok y -> ginv x.2 -> ginv y.2.
  Proof.
    destruct c as [w gn qfs ids fut|w gn qfs ids w' procs|w gn l q ids|w gn l q ids fut|w gn steps ids]; unfold run_cb.
    - destruct (fut_result _ _ _); [|done]. apply g_store.
    - destruct (result_proc _ _ _ _); [|done]. apply g_store.
    - destruct (schedule_link _ _ _ _ _ _ _) as [[d x']|] eqn:Es; [|done]. intros [= <-] Hg. by destruct (g_schedule_link _ _ _ _ _ _ _ _ Es Hg).
    - destruct (fut_result _ _ _); [|done]. intros Hy Hg. by destruct (g_process_link _ (g_process_node _) _ _ _ _ _ _ _ _ Hy Hg).
    - intros Hy Hg. by destruct (g_proc_steps _ (g_process_node _) _ _ _ _ _ _ Hy Hg).
  Qed.
  Lemma g_start g q x : start E g q = Ok x -> ginv x.2.
  Proof.
    unfold start. destruct (init_options g q) as [q'|]; [|done]. destruct (q_fork None q_empty) as [[ts qu]|] eqn:Ef; [|done].
    intros Hx. apply g_process_node in Hx; [apply Hx|]. simpl. apply ginv_fork in Ef; [apply Ef|].
    intros k l1 c l2. by destruct l1.
  Qed.

  (** The same for whole executions *)
  Lemma ginv_emit q e : (forall k c, e <> EvAdd k c) -> ginv q -> ginv (q_emit e q).
  Proof. intros He Hg k l1 c l2. simpl. rewrite added_snoc. destruct e; rewrite ?app_nil_r; try apply Hg. by destruct (He k0 c0). Qed.
  Lemma ginv_trace q q' : q_trace q' = q_trace q -> ginv q -> ginv q'.
  Proof. intros Ht Hg k l1 c l2. rewrite Ht. apply Hg. Qed.
  Definition done_before (tr : list (qev cb)) : Prop :=
    forall t1 t2 f c, tr = t1 ++ EvFire (KF f) c :: t2 -> EvDone f ∈ t1.
  Lemma done_before_snoc tr e : done_before tr -> (forall f c, e = EvFire (KF f) c -> EvDone f ∈ tr) -> done_before (tr ++ [e]).
  Proof.
    intros Hd He t1 t2 f c Heq. destruct t2 as [|e2 t2] using rev_ind.
    - apply app_inj_tail in Heq as [<- ->]. by eapply He.
    - clear IHt2. rewrite app_comm_cons, app_assoc in Heq. apply app_inj_tail in Heq as [Heq _]. by eapply Hd.
  Qed.
  Lemma uses_done_before A q q' : uses A q q' -> done_before (q_trace q) -> done_before (q_trace q').
  Proof.
    induction 1 as [q|q o q1 q2 _ Ho _ IH]; [done|]. intros Hd. apply IH. clear IH.
    destruct o as [t|p|k c]; simpl in Ho.
    - unfold q_submit in Ho. destruct (dget t _); simplify_eq/=. by apply done_before_snoc.
    - unfold q_fork in Ho. destruct p as [p|]; [destruct (dget p _)|]; simplify_eq/=; by apply done_before_snoc.
    - simplify_eq/=. by apply done_before_snoc.
  Qed.
  Lemma uses_trace_ext A (q q' : queue cb) : uses A q q' -> exists l, q_trace q' = q_trace q ++ l.
  Proof.
    induction 1 as [q|q o q1 q2 _ Ho _ [l IH]]; [exists []; by rewrite app_nil_r|].
    assert (exists l0, q_trace q1 = q_trace q ++ l0) as [l0 Hl0].
    { destruct o as [t|p|k c]; simpl in Ho.
      - unfold q_submit in Ho. destruct (dget t _); simplify_eq/=; eauto.
      - unfold q_fork in Ho. destruct p as [p|]; [destruct (dget p _)|]; simplify_eq/=; eauto.
      - simplify_eq/=; eauto. }
    exists (l0 ++ l). by rewrite IH, Hl0, app_assoc.
  Qed.

  Definition tinv (a : st * phase cb) : Prop :=
    ginv a.1.2 /\ done_before (q_trace a.1.2) /\
    match a.2 with PF (Some (f, _)) _ => EvDone f ∈ q_trace a.1.2 | _ => True end.
  Lemma tinv_step a b : tinv a -> qstep (run_cb E) a b -> tinv b.
  Proof.
    intros (Hg & Hd & Hp) Hs.
    assert (forall k x c y, fire (run_cb E) k x c = Ok y -> ginv x.2 -> done_before (q_trace x.2) ->
      (forall f, k = KF f -> EvDone f ∈ q_trace x.2) ->
      ginv y.2 /\ done_before (q_trace y.2) /\ exists l, q_trace y.2 = q_trace x.2 ++ l) as Hfire.
    { intros k x c y Hf Hgx Hdx Hk. unfold fire in Hf. pose proof (run_cb_api E _ _ _ Hf) as Hu.
      split; [|split].
      - eapply g_run_cb; [exact Hf|]. simpl. by apply ginv_emit.
      - eapply uses_done_before; [exact Hu|]. simpl. apply done_before_snoc; [done|]. intros f c' [= -> ->]. by apply Hk.
      - apply uses_trace_ext in Hu as [l Hl]. simpl in Hl. rewrite <-app_assoc in Hl. eauto. }
    destruct Hs as [x dn H1 H2 H3|x f d cs q Hpop|x f c cs d y Hf|x f d|x|x Hq|x t ts cs q Hpop|x t c cs ts y Hf|x t ts|x|x Hq];
      unfold tinv; simpl in *; try done.
    - unfold q_pop in Hpop. injection Hpop as <- <-. simpl. split; [|split].
      + eapply ginv_trace; [|by apply (ginv_emit x.2 (EvDone f))]. done.
      + by apply done_before_snoc.
      + apply elem_snoc'. by right.
    - destruct (Hfire _ _ _ _ Hf Hg Hd) as (A & B & l & C); [by intros f' [= <-]|]. split; [done|]. split; [done|].
      rewrite C. apply elem_of_app. by left.
    - unfold q_pop in Hpop. injection Hpop as <- <-. simpl. done.
    - destruct (Hfire _ _ _ _ Hf Hg Hd) as (A & B & _); done.
    - split; [|split; [|done]].
      + eapply ginv_trace; [|by apply (ginv_emit x.2 (EvComplete t))]. done.
      + by apply done_before_snoc.
  Qed.

  Lemma tinv_rtc a b : tinv a -> rtc (qstep (run_cb E)) a b -> tinv b.
  Proof. intros Ha Hr. induction Hr as [|x y z Hxy _ IH]; [done|]. apply IH. by eapply tinv_step. Qed.

  Lemma start_tinv g q x : start E g q = Ok x -> tinv (x, PIdle).
  Proof.
    intros Hx. split; [by eapply g_start|]. split; [|done]. simpl. eapply uses_done_before; [by eapply start_api|].
    intros [|? ?] ? ? ?; done.
  Qed.
  Lemma exec_tinv fuel g q x sched y :
    start E g q = Ok x -> executes (run_cb E) fuel sched x (Ok y) -> tinv (y, PIdle).
  Proof. intros Hx He. apply executes_steps in He as [Hr _]. eapply tinv_rtc; [|exact Hr]. by eapply start_tinv. Qed.

  Lemma fired_before fuel g q x sched y t1 t2 k c :
    start E g q = Ok x -> executes (run_cb E) fuel sched x (Ok y) ->
    q_trace y.2 = t1 ++ EvFire k c :: t2 -> good_add (fired k t1) k c /\ forall f, k = KF f -> EvDone f ∈ t1.
  Proof.
    intros Hx He Ht. destruct (exec_tinv _ _ _ _ _ _ Hx He) as (Hg & Hd & _). simpl in *. split.
    - pose proof (C14_exactly_once_in_order (run_cb E) _ _ _ _ _ (run_cb_api E) (start_api E _ _ _ Hx) He k) as Ha.
      rewrite Ht in Ha at 2. unfold fired in Ha. rewrite omap_app in Ha. simpl in Ha. rewrite decide_True in Ha by done.
      rewrite <-app_assoc in Ha. simpl in Ha. by apply Hg in Ha.
    - intros f ->. by eapply Hd.
  Qed.
  Lemma elem_fired k (tr : list (qev cb)) c : c ∈ fired k tr -> EvFire k c ∈ tr.
  Proof.
    unfold fired. intros Hc. apply elem_of_list_omap in Hc as (e & He & Hx). destruct e; try done.
    destruct (decide _); [|done]. by simplify_eq.
  Qed.
End trace.

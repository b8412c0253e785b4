(** The engine only uses the public operations of the task queue. *)
From Verif Require Import Base Val Query Graph Queue QueueSpec QueueProof Result Engine.

Section api.
  Context `{Hasher} (E : env).
  Notation T := (fun _ _ => True).
  Notation us x y := (uses (C:=cb) T x.2 y.2).

  Lemma us_trans (q1 q2 q3 : queue cb) : uses T q1 q2 -> uses T q2 q3 -> uses T q1 q3.
  Proof. induction 1; eauto using uses_op. Qed.
  Lemma us_submit w f a (x : st) fut x' : submit E w f a x = Ok (fut, x') -> us x x'.
  Proof.
    unfold submit. destruct (get_wf w x) as [v|]; [|done].
    set (c := Call f (e_ctx E f) a).
    assert (forall r, match q_submit (wf_ts v) x.2 with
            | Ok (_, q') => Ok (length (w_log x.1), (World (w_wfs x.1) (w_log x.1 ++ [c]), q'))
            | Err e => Err e end = Ok r -> us x r.2) as Hq.
    { intros r. destruct (q_submit (wf_ts v) x.2) as [[n q']|] eqn:Eq; [|done]. intros [= <-]. simpl.
      eapply (uses_op _ _ (OSubmit (wf_ts v))); [done|simpl; by rewrite Eq|constructor]. }
    intros Hs. apply (Hq (fut, x')). revert Hs. cbn [fst snd]. destruct (e_eager E); [destruct (e_oracle E _ c)|]; done.
  Qed.
  Lemma us_add k c (x : st) : us x (add_cb k c x).
  Proof. eapply (uses_op _ _ (OAdd k c)); [done|done|constructor]. Qed.

  Section pn.
    Variable pn : nat -> gnode -> qnode -> option (list val) -> st -> res st.
    Hypothesis Hpn : forall w gn q ids x y, pn w gn q ids x = Ok y -> us x y.

    Lemma us_process_link w gn l q ids r x y : process_link pn w gn l q ids r x = Ok y -> us x y.
    Proof.
      unfold process_link. destruct (get_wf w x) as [v|]; [|done]. destruct (store_links _ _ _ _ _ _) as [idx|]; [|done].
      destruct (link_result_to_ids _ _ _) as [[|i is_]|]; [intros [= <-]; constructor| |done].
      destruct (find_node _ _); [|done]. destruct (q_is_link q); [|done]. intros Hy. apply Hpn in Hy. exact Hy.
    Qed.
    Lemma us_sub_call sg fields ids ts x r : sub_call E pn sg fields ids ts x = Ok r -> us x r.2.
    Proof.
      unfold sub_call. destruct (e_sgs E !! sg) as [[g node]|]; [|done]. destruct (mapR _ fields) as [ovs|]; [|done].
      destruct (dget THIS _) as [tq|]; [|done]. destruct (process_link _ _ _ _ _ _ _ _) as [x2|] eqn:E2; [|done].
      apply us_process_link in E2. destruct (pn _ _ _ _ x2) as [x3|] eqn:E3; [|done]. apply Hpn in E3. intros [= <-]. simpl.
      by eapply us_trans.
    Qed.
    Lemma us_schedule_fields w gn fk fields ids x d y : schedule_fields E pn w gn fk fields ids x = Ok (d, y) -> us x y.
    Proof.
      unfold schedule_fields. destruct fk as [f|sg].
      - destruct (submit _ _ _ _ _) as [[fut x1]|] eqn:Es; [|done]. intros [= <- <-]. apply us_submit in Es.
        eapply us_trans; [exact Es|apply us_add].
      - destruct ids as [is_|]; [|done]. destruct (get_wf w x) as [v|]; [|done].
        destruct (q_fork _ _) as [[t q1]|] eqn:Ef; [|done]. destruct (sub_call _ _ _ _ _ _ _) as [[[w' procs] x2]|] eqn:Ec; [|done].
        apply us_sub_call in Ec. simpl in Ec. intros [= <- <-].
        eapply (uses_op _ _ (OFork (Some (wf_ts v)))); [done|unfold apply_op; by rewrite Ef|]. simpl.
        eapply us_trans; [exact Ec|apply us_add].
    Qed.
    Lemma us_schedule_link w gn l q ids x d y : schedule_link E w gn l q ids x = Ok (d, y) -> us x y.
    Proof.
      unfold schedule_link. destruct (get_wf w x) as [v|]; [|done].
      destruct (match req_true l with Some _ => _ | None => _ end) as [a|]; [|done].
      destruct (submit _ _ _ _ _) as [[fut x1]|] eqn:Es; [|done]. intros [= <- <-]. apply us_submit in Es.
      eapply us_trans; [exact Es|apply us_add].
    Qed.
    Lemma us_proc_steps w gn steps ids x y : proc_steps E pn w gn steps ids x = Ok y -> us x y.
    Proof.
      unfold proc_steps. destruct steps as [|sp rest]; [done|].
      destruct (match sp with StFields _ _ => _ | StLink _ _ => _ end) as [[d x1]|] eqn:Es; [|done].
      assert (us x x1) as H1.
      { destruct sp; [by eapply us_schedule_fields|by eapply us_schedule_link]. }
      intros [= <-]. destruct rest; [done|]. eapply us_trans; [exact H1|apply us_add].
    Qed.
    Lemma us_foldR {A} (f : A -> st -> res st) : (forall a x y, f a x = Ok y -> us x y) ->
      forall l x y, foldR (fun x a => f a x) x l = Ok y -> us x y.
    Proof.
      intros Hf. induction l as [|a l IH]; intros x y; simpl; [intros [= <-]; constructor|].
      destruct (f a x) as [z|] eqn:Ez; [|done]. intros Hy. eapply us_trans; [by eapply Hf|by eapply IH].
    Qed.
    Lemma us_process_body w gn q ids x y : process_node_body E pn w gn q ids x = Ok y -> us x y.
    Proof.
      unfold process_node_body. destruct (qordered q).
      - destruct (group_query _ _) as [[|sp steps]|]; [intros [= <-]; constructor|apply us_proc_steps|done].
      - destruct (split_query _ _) as [[fields links]|]; [|done].
        destruct (schedule_groups _ _ _ _ _ _ _) as [[to_dep x1]|] eqn:Eg; [|done].
        assert (us x x1) as H1.
        { clear -Eg Hpn. unfold schedule_groups in Eg. revert Eg. generalize (fold_left (fun (d : dict fkey (list (gitem * qitem))) t => dappend t.1.1 (t.1.2, t.2) d) fields []).
          generalize (@nil (fkey * ckey)). intros d0 l. revert d0 x. induction l as [|g l IH]; intros d0 x; simpl; [intros [= <- <-]; constructor|].
          destruct (schedule_fields _ _ _ _ _ _ _ _) as [[dep x']|] eqn:Es; [|done]. intros Hy.
          eapply us_trans; [by eapply us_schedule_fields|]. by eapply IH. }
        intros Hy. eapply us_trans; [exact H1|]. clear -Hy Hpn. unfold schedule_links in Hy. revert x1 Hy.
        induction links as [|[l lq] links IH]; intros x1; simpl; [intros [= <-]; constructor|].
        destruct (req_true l) as [r|].
        + destruct (dget r _) as [f|]; [|done]. destruct (dget f _) as [dep|]; [|done]. intros Hy. apply IH in Hy.
          eapply us_trans; [|exact Hy]. apply us_add.
        + destruct (schedule_link _ _ _ _ _ _ _) as [[d x']|] eqn:Es; [|done]. intros Hy. apply IH in Hy.
          eapply us_trans; [|exact Hy]. by eapply us_schedule_link.
    Qed.
  End pn.
  Lemma us_process_node fuel w gn q ids x y : process_node E fuel w gn q ids x = Ok y -> us x y.
  Proof.
    revert w gn q ids x y. induction fuel as [|k IH]; intros w gn q ids x y; simpl; [done|].
    apply us_process_body. exact IH.
  Qed.

  Lemma us_store w gn qfs ids r x y : store_result w gn qfs ids r x = Ok y -> us x y.
  Proof.
    unfold store_result. destruct (get_wf w x); [|done]. destruct (store_fields _ _ _ _ _); [|done].
    intros [= <-]. constructor.
  Qed.
  Lemma run_cb_api : api_program (run_cb E).
  Proof.
    intros [w gn qfs ids fut|w gn qfs ids w' procs|w gn l q ids|w gn l q ids fut|w gn steps ids] x y; unfold run_cb.
    - destruct (fut_result _ _ _); [|done]. apply us_store.
    - destruct (result_proc _ _ _ _); [|done]. apply us_store.
    - destruct (schedule_link _ _ _ _ _ _ _) as [[d x']|] eqn:Es; [|done]. intros [= <-]. by eapply us_schedule_link.
    - destruct (fut_result _ _ _); [|done]. apply us_process_link. apply us_process_node.
    - apply us_proc_steps. apply us_process_node.
  Qed.
  Lemma start_api g q x : start E g q = Ok x -> uses T q_empty x.2.
  Proof.
    unfold start. destruct (init_options g q) as [q'|]; [|done]. destruct (q_fork None q_empty) as [[ts qu]|] eqn:Ef; [|done].
    intros Hx. apply us_process_node in Hx. simpl in Hx.
    eapply (uses_op _ _ (OFork None)); [done|unfold apply_op; by rewrite Ef|]. exact Hx.
  Qed.
End api.

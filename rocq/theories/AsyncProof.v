(** Proofs about the asyncio executor. *)
From stdpp Require Import relations.
From Verif Require Import Base Val Query Graph Queue QueueSpec QueueProof PropQueue Result Engine EngineSpec EngineApi EngineDisc PropTrace PropBound Async.

(** ** [progressX] is [progress] *)
Section px.
  Context {C W : Type} (run : C -> W * queue C -> res (W * queue C)).
  Notation st := (W * queue C)%type.
  Definition as_res {X} (r : X * option exn) : res X := match r with (y, None) => Ok y | (_, Some e) => Err e end.
  Lemma foldX_res {A X} (f : X -> A -> X * option exn) (g : X -> A -> res X) :
    (forall x a, as_res (f x a) = g x a) -> forall l x, as_res (foldX f x l) = foldR g x l.
  Proof.
    intros Hf. induction l as [|a l IH]; intros x; cbn; [done|]. rewrite <-Hf. destruct (f x a) as [y [e|]]; cbn; [done|apply IH].
  Qed.
  Lemma fireX_res k x c : as_res (fireX run k x c) = fire run k x c.
  Proof. unfold fireX. by destruct (fire run k x c). Qed.
  Lemma fire_futX_res x f : as_res (fire_futX run x f) = fire_fut run x f.
  Proof. unfold fire_futX, fire_fut. destruct (q_pop _ _) as [cs q]. apply foldX_res. intros; apply fireX_res. Qed.
  Lemma fire_tsX_res x t : as_res (fire_tsX run x t) = fire_ts run x t.
  Proof.
    unfold fire_tsX, fire_ts. destruct (q_pop _ _) as [cs q]. rewrite <-(foldX_res (fireX run (KT t)) (fire run (KT t)) (fireX_res (KT t))).
    by destruct (foldX _ _ cs) as [y [e|]].
  Qed.
  Lemma loopX_res fuel : forall x, as_res (loopX run fuel x) = complete_loop run fuel x.
  Proof.
    induction fuel as [|k IH]; intros x; cbn [loopX complete_loop]; destruct (q_completed x.2) as [|t ts]; try done.
    rewrite <-(foldX_res (fire_tsX run) (fire_ts run) fire_tsX_res).
    destruct (foldX _ _ _) as [y [e|]]; [done|apply IH].
  Qed.
  Lemma progressX_res fuel dl x : as_res (progressX run fuel dl x) = progress run fuel dl x.
  Proof.
    unfold progressX, progress. rewrite <-(foldX_res (fire_futX run) (fire_fut run) fire_futX_res).
    destruct (foldX _ _ _) as [y [e|]]; [done|apply loopX_res].
  Qed.

  (** steps inside one round *)
  Definition istep (a b : st * phase C) : Prop := a.2 <> PIdle /\ qstep run a b.
  Lemma istep_rtc a b : rtc istep a b -> rtc (qstep run) a b.
  Proof. intros Hr. induction Hr as [|a b c [_ Hs] _ IH]; [apply rtc_refl|by eapply rtc_l]. Qed.
  Ltac step c := eapply rtc_l; [split; [done|c]|].
  Lemma firefX_rtc f cs d : forall x y o, foldX (fireX run (KF f)) x cs = (y, o) ->
    exists p, rtc istep (x, PF (Some (f, cs)) d) (y, p) /\ (o = None -> p = PF (Some (f, [])) d).
  Proof.
    induction cs as [|c cs IH]; intros x y o; cbn [foldX].
    - intros [= <- <-]. eexists. split; [apply rtc_refl|done].
    - unfold fireX at 1. destruct (fire run (KF f) x c) as [z|e] eqn:Ef.
      + intros Hy. destruct (IH _ _ _ Hy) as (p & Hp & Hn). exists p. split; [|done]. step ltac:(by apply qs_firef). done.
      + intros [= <- <-]. eexists. split; [apply rtc_refl|done].
  Qed.
  Lemma firetX_rtc t cs ts : forall x y o, foldX (fireX run (KT t)) x cs = (y, o) ->
    exists p, rtc istep (x, PT (Some (t, cs)) ts) (y, p) /\ (o = None -> p = PT (Some (t, [])) ts).
  Proof.
    induction cs as [|c cs IH]; intros x y o; cbn [foldX].
    - intros [= <- <-]. eexists. split; [apply rtc_refl|done].
    - unfold fireX at 1. destruct (fire run (KT t) x c) as [z|e] eqn:Ef.
      + intros Hy. destruct (IH _ _ _ Hy) as (p & Hp & Hn). exists p. split; [|done]. step ltac:(by apply qs_firet). done.
      + intros [= <- <-]. eexists. split; [apply rtc_refl|done].
  Qed.
  Lemma futX_rtc dl : forall x y o, foldX (fire_futX run) x dl = (y, o) ->
    exists p, rtc istep (x, PF None dl) (y, p) /\ (o = None -> p = PF None []).
  Proof.
    induction dl as [|f d IH]; intros x y o; cbn [foldX].
    - intros [= <- <-]. eexists. split; [apply rtc_refl|done].
    - destruct (fire_futX run x f) as [z o1] eqn:Ez. unfold fire_futX in Ez. destruct (q_pop _ _) as [cs q] eqn:Ep.
      destruct (firefX_rtc f cs d _ _ _ Ez) as (p1 & H1 & Hn1).
      assert (rtc istep (x, PF None (f :: d)) (z, p1)) as H2 by (step ltac:(by eapply qs_popf); exact H1).
      destruct o1 as [e|]; [intros Hy; cbn in Hy; injection Hy as <- <-; exists p1; by split|]. rewrite (Hn1 eq_refl) in H2.
      intros Hy. destruct (IH _ _ _ Hy) as (p & Hp & Hn). exists p. split; [|done]. etrans; [exact H2|]. step ltac:(apply qs_endf). done.
  Qed.
  Lemma tsX_rtc ts : forall x y o, foldX (fire_tsX run) x ts = (y, o) ->
    exists p, rtc istep (x, PT None ts) (y, p) /\ (o = None -> p = PT None []).
  Proof.
    induction ts as [|t ts IH]; intros x y o; cbn [foldX].
    - intros [= <- <-]. eexists. split; [apply rtc_refl|done].
    - destruct (fire_tsX run x t) as [z o1] eqn:Ez. unfold fire_tsX in Ez. destruct (q_pop _ _) as [cs q] eqn:Ep.
      destruct (foldX _ _ cs) as [z1 o2] eqn:Ec. destruct (firetX_rtc t cs ts _ _ _ Ec) as (p1 & H1 & Hn1).
      assert (rtc istep (x, PT None (t :: ts)) (z1, p1)) as H2 by (step ltac:(by eapply qs_popt); exact H1).
      destruct o2 as [e|]; simplify_eq; [intros Hy; cbn in Hy; injection Hy as <- <-; exists p1; by split|]. rewrite (Hn1 eq_refl) in H2.
      intros Hy. destruct (IH _ _ _ Hy) as (p & Hp & Hn). exists p. split; [|done]. etrans; [exact H2|]. step ltac:(apply qs_endt). done.
  Qed.
  Lemma loopX_rtc fuel : forall x y o, loopX run fuel x = (y, o) ->
    exists p, rtc istep (x, PLoop) (y, p) /\ (o = None -> p = PIdle).
  Proof.
    induction fuel as [|k IH]; intros x y o; cbn [loopX]; destruct (q_completed x.2) as [|t ts] eqn:Ec.
    - intros [= <- <-]. exists PIdle. split; [|done]. step ltac:(by apply qs_idle). apply rtc_refl.
    - intros [= <- <-]. exists PLoop. split; [apply rtc_refl|done].
    - intros [= <- <-]. exists PIdle. split; [|done]. step ltac:(by apply qs_idle). apply rtc_refl.
    - destruct (foldX _ _ _) as [z o1] eqn:Ez. destruct (tsX_rtc _ _ _ _ Ez) as (p1 & H1 & Hn1).
      assert (rtc istep (x, PLoop) (z, p1)) as H2.
      { step ltac:(apply qs_sets; by rewrite Ec). rewrite Ec. exact H1. }
      destruct o1 as [e|]; [intros Hy; cbn in Hy; injection Hy as <- <-; exists p1; by split|]. rewrite (Hn1 eq_refl) in H2.
      intros Hy. destruct (IH _ _ _ Hy) as (p & Hp & Hn). exists p. split; [|done]. etrans; [exact H2|]. step ltac:(apply qs_again). done.
  Qed.
  Lemma progressX_rtc fuel dl x y o : progressX run fuel dl x = (y, o) ->
    exists p, rtc istep ((x.1, q_difference dl x.2), PF None dl) (y, p) /\ (o = None -> p = PIdle).
  Proof.
    unfold progressX. destruct (foldX _ _ _) as [z o1] eqn:Ez. destruct (futX_rtc _ _ _ _ Ez) as (p1 & H1 & Hn1).
    destruct o1 as [e|]; [intros Hy; cbn in Hy; injection Hy as <- <-; exists p1; by split|]. rewrite (Hn1 eq_refl) in H1.
    intros Hy. destruct (loopX_rtc _ _ _ _ Hy) as (p & Hp & Hn). exists p. split; [|done]. etrans; [exact H1|]. step ltac:(apply qs_loop). done.
  Qed.
End px.

(** ** Every call is pending or was reported *)
Section pend.
  Context `{Hasher} (E : env).
  Notation cfg := (st * phase cb)%type.
  (** every future was submitted to some task set *)
  Definition issued (q : queue cb) : Prop := forall f, f < q_nfut q -> exists t, EvSubmit t f ∈ q_trace q.
  Lemma issued_uses A q q' : uses A q q' -> issued q -> issued q'.
  Proof.
    induction 1 as [|q o q1 q2 _ Ho _ IH]; [done|]. intros Hp. apply IH. clear IH. intros f. destruct o as [t|p|k c]; simpl in Ho.
    - unfold q_submit in Ho. destruct (dget t _) as [l|] eqn:Et; simplify_eq/=. intros Hf.
      destruct (decide (f = q_nfut q)) as [->|]; [exists t; apply elem_snoc; by right|]. destruct (Hp f ltac:(lia)) as [t' Ht']. exists t'. apply elem_snoc. by left.
    - assert (q_nfut q1 = q_nfut q /\ exists e, q_trace q1 = q_trace q ++ [e]) as [E1 [e' E2]].
      { unfold q_fork in Ho. destruct p as [p|]; [destruct (dget p _)|]; simplify_eq/=; eauto. }
      rewrite E1, E2. intros Hf. destruct (Hp f Hf) as [t' Ht']. exists t'. apply elem_snoc. by left.
    - simplify_eq/=. intros Hf. destruct (Hp f Hf) as [t' Ht']. exists t'. apply elem_snoc. by left.
  Qed.
  Lemma issued_emit q e : issued q -> issued (q_emit e q).
  Proof. intros Hi f Hf. destruct (Hi f Hf) as [t Ht]. exists t. cbn. apply elem_snoc. by left. Qed.
  Lemma issued_step a b : qstep (run_cb E) a b -> issued a.1.2 -> issued b.1.2.
  Proof.
    intros Hs Hi. destruct Hs as [x dn H1 H2 H3|x f d cs q Hpop|x f c1 cs d y Hf|x f d|x|x Hq|x t ts cs q Hpop|x t c1 cs ts y Hf|x t ts|x|x Hq]; simpl in *; try done.
    - unfold q_pop in Hpop. simplify_eq/=. exact (issued_emit _ (EvDone f) Hi).
    - unfold fire in Hf. apply run_cb_api in Hf. eapply issued_uses; [exact Hf|]. by apply issued_emit.
    - unfold q_pop in Hpop. simplify_eq/=. exact Hi.
    - unfold fire in Hf. apply run_cb_api in Hf. eapply issued_uses; [exact Hf|]. by apply issued_emit.
    - exact (issued_emit _ (EvComplete t) Hi).
  Qed.

  Local Arguments dones : simpl never.
  (** the futures reported so far: those whose callbacks were called and the rest of the round *)
  Definition told (a : cfg) : list nat := dones (q_trace a.1.2) ++ done_rem a.2.
  Lemma told_istep a b : istep (run_cb E) a b -> told b = told a.
  Proof.
    intros [Hn Hs]. unfold told.
    destruct Hs as [x dn H1 H2 H3|x f d cs q Hpop|x f c1 cs d y Hf|x f d|x|x Hq|x t ts cs q Hpop|x t c1 cs ts y Hf|x t ts|x|x Hq]; cbn in *; try done.
    - unfold q_pop in Hpop. simplify_eq/=. rewrite dones_app. unfold dones at 2; cbn [omap list_omap]. by rewrite <-app_assoc.
    - unfold fire in Hf. apply run_cb_api in Hf. rewrite (uses_dones _ _ _ Hf). cbn. rewrite dones_app. unfold dones at 2; cbn [omap list_omap]. by rewrite app_nil_r.
    - unfold q_pop in Hpop. by simplify_eq/=.
    - unfold fire in Hf. apply run_cb_api in Hf. rewrite (uses_dones _ _ _ Hf). cbn. rewrite dones_app. unfold dones at 2; cbn [omap list_omap]. by rewrite !app_nil_r.
    - rewrite dones_app. unfold dones at 2; cbn [omap list_omap]. by rewrite !app_nil_r.
  Qed.
  Lemma told_rtc a b : rtc (istep (run_cb E)) a b -> told b = told a.
  Proof. intros Hr. induction Hr as [|a b c Hs _ IH]; [done|]. rewrite IH. by apply told_istep. Qed.

  (** The invariant of the executor's loop: all calls are either pending or told. *)
  Record ainv (a : cfg) (rep : list nat) : Prop := {
    ai_dcfg : dcfg E a;
    ai_past : past a.1.2;
    ai_rem : forall f, EvDone f ∈ q_trace a.1.2 -> f ∉ done_rem a.2;
    ai_issued : issued a.1.2;
    ai_told : forall f, f ∈ told a <-> f ∈ rep;
  }.
  Lemma ainv_pending a rep : ainv a rep ->
    forall n, n ∈ q_futures a.1.2 <-> n < length (w_log a.1.1) /\ n ∉ rep.
  Proof.
    intros [[[Hd Hdn] Hp _] Hpast Hrem Hi Ht] n. pose proof (p_nfut _ _ _ _ Hp) as Hn. rewrite <-Hn. split.
    - intros Hf. split; [by apply (di_nfut _ _ _ _ Hd)|]. rewrite <-Ht. unfold told. rewrite elem_of_app. intros [He|He].
      + apply elem_dones in He. by apply (Hpast n He).
      + by apply (proj2 (di_dn _ _ _ _ Hd) n He).
    - intros [Hlt Hr]. destruct (Hi n Hlt) as [t Hs].
      destruct (di_sub _ _ _ _ Hd t n Hs) as [(l & Hl & Hin)|[He|He]].
      + apply elem_futures; [apply (di_nodup _ _ _ _ Hd)|]. eauto.
      + destruct Hr. rewrite <-Ht. apply elem_of_app. left. by apply elem_dones.
      + destruct Hr. rewrite <-Ht. apply elem_of_app. by right.
  Qed.
  Lemma start_ainv g q x : start E g q = Ok x -> ainv (x, PIdle) [].
  Proof.
    intros Hx. destruct (start_dcfg E g q x Hx) as [Hd Hu]. split; cbn.
    - done.
    - eapply past_uses; [exact Hu|]. intros f' Hf'. by apply not_elem_of_nil in Hf'.
    - intros; apply not_elem_of_nil.
    - eapply issued_uses; [exact Hu|]. intros f Hf. cbn in Hf. lia.
    - intros f. unfold told. cbn. rewrite (uses_no_dones _ _ Hu). done.
  Qed.
  Lemma ainv_rtc a b rep : ainv a rep -> rtc (istep (run_cb E)) a b -> ainv b rep.
  Proof.
    intros Ha Hr. induction Hr as [|a b c [Hn Hs] _ IH]; [done|]. apply IH. clear IH. destruct Ha as [H1 H2 H3 H4 H5].
    destruct (past_step _ _ _ H1 H2 H3 Hs) as [Hp' Hr']. split; [by eapply dcfg_step|done|done|by eapply issued_step|].
    intros f. rewrite (told_istep a b); [done|by split].
  Qed.
  Lemma ainv_round fuel x rep dl y o :
    ainv (x, PIdle) rep -> dl <> [] -> NoDup dl -> (forall f, f ∈ dl -> f ∈ q_futures x.2) ->
    progressX (run_cb E) fuel dl x = (y, o) ->
    exists p, ainv (y, p) (rep ++ dl) /\ (o = None -> p = PIdle).
  Proof.
    intros [H1 H2 H3 H4 H5] D1 D2 D3 Hy. destruct (progressX_rtc _ _ _ _ _ _ Hy) as (p & Hp & Hn). exists p. split; [|done].
    eapply ainv_rtc; [|exact Hp]. assert (qstep (run_cb E) (x, PIdle) ((x.1, q_difference dl x.2), PF None dl)) as Hs by by constructor.
    destruct (past_step _ _ _ H1 H2 H3 Hs) as [Hp' Hr']. split; [by eapply dcfg_step|done|done|by eapply issued_step|].
    intros f. unfold told in *. cbn in *. rewrite !elem_of_app. specialize (H5 f). rewrite app_nil_r in H5. by rewrite H5.
  Qed.
End pend.

(** ** Only loaders and compiled expressions raise exceptions which are not hiku's own *)
Definition own {A} (r : res A) : Prop := forall n, r <> Err (UserErr n).
Lemma own_mapR {A B} (f : A -> res B) l : (forall x, own (f x)) -> own (mapR f l).
Proof.
  intros Hf n. induction l as [|x l IH]; cbn; [done|]. specialize (Hf x n). destruct (f x); [|intros [= ->]; done].
  destruct (mapR f l); [done|]. intros [= ->]. done.
Qed.
Lemma own_foldR {A B} (f : B -> A -> res B) l : (forall b x, own (f b x)) -> forall b, own (foldR f b l).
Proof.
  intros Hf. induction l as [|x l IH]; intros b n; cbn; [done|]. pose proof (Hf b x n) as Hx. destruct (f b x); [|intros [= ->]; done]. apply IH.
Qed.
Lemma own_from_opt {A} e (o : option A) : (forall n, e <> UserErr n) -> own (from_opt e o).
Proof. intros He n. destruct o; cbn; [done|]. intros [= ->]. by apply (He n). Qed.
Lemma own_err {A B} (r : res A) e : r = Err e -> own r -> own (Err e : res B).
Proof. intros -> Hn n [= ->]. by apply (Hn n). Qed.
Ltac own_match := repeat match goal with
  | |- own (Ok _) => done
  | |- own (Err _) => (intros ?; done)
  | |- own (match ?r with _ => _ end) => destruct r eqn:?
  | |- own (if ?r then _ else _) => destruct r eqn:?
  end.
Section own.
  Context `{Hasher} (E : env).
  Hypothesis Hlazy : e_eager E = false.
  Lemma own_get_wf w x : own (get_wf w x).
  Proof. by apply own_from_opt. Qed.
  Lemma own_link_ref l v : own (link_ref l v).
  Proof. unfold link_ref. own_match. Qed.
  Lemma own_store_links idx gn l q ids r : own (store_links idx gn l q ids r).
  Proof.
    unfold store_links. destruct (check_store_links gn l ids r) eqn:Ec.
    - destruct (gn_name gn) as [n|].
      + destruct ids; [|done]. apply own_foldR. intros b p. destruct (link_ref l p.2) eqn:El; [done|]. eapply own_err; [exact El|apply own_link_ref].
      + destruct (link_ref l r) eqn:El; [done|]. eapply own_err; [exact El|apply own_link_ref].
    - eapply own_err; [exact Ec|]. unfold check_store_links. own_match.
  Qed.
  Lemma own_link_ids b t r : own (link_result_to_ids b t r).
  Proof. unfold link_result_to_ids. own_match. eapply own_err; [eassumption|]. apply own_mapR. intros x. by apply own_from_opt. Qed.
  Lemma own_store_fields idx gn qfs ids r : own (store_fields idx gn qfs ids r).
  Proof. unfold store_fields. destruct (check_store_fields _ _ _ _) eqn:Ec; [own_match|]. eapply own_err; [exact Ec|]. unfold check_store_fields. own_match. Qed.
  Lemma own_store_result w gn qfs ids r x : own (store_result w gn qfs ids r x).
  Proof.
    unfold store_result. destruct (get_wf w x) eqn:Eg; [|eapply own_err; [exact Eg|apply own_get_wf]].
    destruct (store_fields _ _ _ _ _) eqn:Es; [done|]. eapply own_err; [exact Es|apply own_store_fields].
  Qed.
  Lemma own_submit w f a x : own (submit E w f a x).
  Proof.
    unfold submit. destruct (get_wf w x) as [v|] eqn:Eg; [|eapply own_err; [exact Eg|apply own_get_wf]].
    rewrite Hlazy. destruct (q_submit _ _) as [[? ?]|] eqn:Eq; [done|]. eapply own_err; [exact Eq|]. unfold q_submit. own_match.
  Qed.
  Lemma own_schedule_link w gn l q ids x : own (schedule_link E w gn l q ids x).
  Proof.
    unfold schedule_link. destruct (get_wf w x) as [v|] eqn:Eg; [|eapply own_err; [exact Eg|apply own_get_wf]].
    destruct (match req_true l with Some _ => _ | None => _ end) as [a|] eqn:Er.
    - destruct (submit _ _ _ _ _) as [[? ?]|] eqn:Es; [done|]. eapply own_err; [exact Es|apply own_submit].
    - eapply own_err; [exact Er|]. destruct (req_true l) as [r|]; [|done]. destruct (link_reqs _ _ _ _) eqn:El; [done|]. eapply own_err; [exact El|].
      unfold link_reqs. own_match. eapply own_err; [eassumption|]. apply own_mapR. intros; by apply own_from_opt.
  Qed.
  Lemma own_split gn qs : own (split_query gn qs).
  Proof.
    unfold split_query. apply own_foldR. intros acc q.
    assert (forall acc q, own (split_field gn acc q)) as Hf by (intros; unfold split_field; own_match).
    unfold split_item. own_match; try apply Hf. eapply own_err; [eassumption|]. destruct (req_true _); [apply Hf|done].
  Qed.
  Lemma own_group gn qs : own (group_query gn qs).
  Proof.
    unfold group_query. assert (own (foldR (group_item gn) ([], None) qs)) as Hx; [|destruct (foldR _ _ _) eqn:Ef; [done|intros n [= ->]; by apply (Hx n)]].
    apply own_foldR. intros acc q.
    assert (forall acc q, own (group_field gn acc q)) as Hf by (intros; unfold group_field; cbn zeta; own_match).
    unfold group_item. own_match; try apply Hf. eapply own_err; [eassumption|]. destruct (req_true _); [apply Hf|done].
  Qed.
  Section pn.
    Variable pn : nat -> gnode -> qnode -> option (list val) -> st -> res st.
    Hypothesis Hpn : forall w gn q ids x, own (pn w gn q ids x).
    Lemma own_process_link w gn l q ids r x : own (process_link pn w gn l q ids r x).
    Proof.
      unfold process_link. destruct (get_wf w x) as [v|] eqn:Eg; [|eapply own_err; [exact Eg|apply own_get_wf]].
      destruct (store_links _ _ _ _ _ _) eqn:Es; [|eapply own_err; [exact Es|apply own_store_links]].
      cbn zeta. destruct (link_result_to_ids _ _ _) as [[|]|] eqn:El; [done| |eapply own_err; [exact El|apply own_link_ids]].
      destruct (find_node _ _); [|done]. destruct (q_is_link q); [apply Hpn|done].
    Qed.
    Lemma own_sub_call sg fields ids ts x : own (sub_call E pn sg fields ids ts x).
    Proof.
      unfold sub_call. destruct (e_sgs E !! sg) as [[g node]|]; [|done]. cbn zeta.
      destruct (mapR _ fields) eqn:Em.
      - destruct (dget _ _); [|done]. destruct (process_link _ _ _ _ _ _ _ _) eqn:Ep; [|eapply own_err; [exact Ep|apply own_process_link]].
        destruct (pn _ _ _ _ _) eqn:Ex; [done|]. eapply own_err; [exact Ex|apply Hpn].
      - eapply own_err; [exact Em|]. apply own_mapR. intros p. unfold option_values. apply own_mapR. intros op. destruct (q_opts _); [|done]. by apply own_from_opt.
    Qed.
    Lemma own_schedule_fields w gn fk fields ids x : own (schedule_fields E pn w gn fk fields ids x).
    Proof.
      unfold schedule_fields. cbn zeta. destruct fk as [f|sg].
      - destruct (submit _ _ _ _ _) as [[? ?]|] eqn:Es; [done|]. eapply own_err; [exact Es|apply own_submit].
      - destruct ids; [|done]. destruct (get_wf w x) as [v|] eqn:Eg; [|eapply own_err; [exact Eg|apply own_get_wf]].
        destruct (q_fork _ _) as [[? ?]|] eqn:Eq; [|eapply own_err; [exact Eq|unfold q_fork; own_match]].
        destruct (sub_call _ _ _ _ _ _ _) as [[[? ?] ?]|] eqn:Es; [done|]. eapply own_err; [exact Es|apply own_sub_call].
    Qed.
    Lemma own_proc_steps w gn steps ids x : own (proc_steps E pn w gn steps ids x).
    Proof.
      unfold proc_steps. destruct steps as [|sp rest]; [done|]. destruct sp as [fk l|l q].
      - destruct (schedule_fields _ _ _ _ _ _ _ _) as [[? ?]|] eqn:Es; [done|]. eapply own_err; [exact Es|apply own_schedule_fields].
      - destruct (schedule_link _ _ _ _ _ _ _) as [[? ?]|] eqn:Es; [done|]. eapply own_err; [exact Es|apply own_schedule_link].
    Qed.
    Lemma own_body w gn q ids x : own (process_node_body E pn w gn q ids x).
    Proof.
      unfold process_node_body. destruct (qordered q).
      - destruct (group_query _ _) as [[|]|] eqn:Eg; [done|apply own_proc_steps|]. eapply own_err; [exact Eg|apply own_group].
      - destruct (split_query _ _) as [[fields links]|] eqn:Es; [|eapply own_err; [exact Es|apply own_split]]. cbn zeta.
        destruct (schedule_groups _ _ _ _ _ _ _) as [[? ?]|] eqn:Eg.
        + unfold schedule_links. apply own_foldR. intros b p. destruct (req_true _).
          * destruct (dget _ _); [|done]. destruct (dget _ _); done.
          * destruct (schedule_link _ _ _ _ _ _ _) as [[? ?]|] eqn:El; [done|]. eapply own_err; [exact El|apply own_schedule_link].
        + eapply own_err; [exact Eg|]. unfold schedule_groups. apply own_foldR. intros b p.
          destruct (schedule_fields _ _ _ _ _ _ _ _) as [[? ?]|] eqn:Ef; [done|]. eapply own_err; [exact Ef|apply own_schedule_fields].
    Qed.
  End pn.
  Lemma own_process_node k : forall w gn q ids x, own (process_node E k w gn q ids x).
  Proof. induction k as [|k IH]; intros w gn q ids x; cbn [process_node]; [done|]. by apply own_body. Qed.

  (** A callback which raises an exception that is not hiku's own got it from the loader
      whose result it reads, or from a compiled expression; it has done nothing yet. *)
  Lemma run_cb_raises c x n : run_cb E c x = Err (UserErr n) ->
    (exists m cl, consumes c m /\ w_log x.1 !! m = Some cl /\ e_oracle E m cl = Raise (UserErr n)) \/
    (exists w gn qfs ids w' procs, c = CbStoreSub w gn qfs ids w' procs /\ result_proc E w' procs x = Err (UserErr n)).
  Proof.
    assert (forall m r, (match fut_result E m x with Ok v => r v | Err e => Err e end) = Err (UserErr n) -> (forall v, own (r v : res st)) ->
      exists cl, w_log x.1 !! m = Some cl /\ e_oracle E m cl = Raise (UserErr n)) as Hf.
    { intros m r Hr Ho. destruct (fut_result E m x) as [v|e] eqn:Ef; [by apply Ho in Hr|]. injection Hr as ->. unfold fut_result in Ef.
      destruct (w_log x.1 !! m) as [cl|]; [|done]. exists cl. split; [done|]. destruct (e_oracle E m cl); simplify_eq; done. }
    destruct c as [w gn qfs ids fut|w gn qfs ids w' procs|w gn l q ids|w gn l q ids fut|w gn steps ids]; cbn [run_cb].
    - intros Hr. left. apply Hf in Hr as (cl & H1 & H2); [|intros; apply own_store_result]. by exists fut, cl.
    - intros Hr. right. destruct (result_proc E w' procs x) as [v|e] eqn:Er; [by apply own_store_result in Hr|]. injection Hr as ->. by repeat eexists.
    - destruct (schedule_link _ _ _ _ _ _ _) as [[? ?]|] eqn:Es; [done|]. intros [= ->]. by apply own_schedule_link in Es.
    - intros Hr. left. apply Hf in Hr as (cl & H1 & H2); [|intros; apply own_process_link, own_process_node]. by exists fut, cl.
    - intros Hr. by apply own_proc_steps in Hr; [|apply own_process_node].
  Qed.
End own.

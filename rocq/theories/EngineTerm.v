(** Executions end: the price of sub-graphs is well defined, the engine and the executor's loop do not run out of
    fuel, the number of rounds is bounded. *)
From stdpp Require Import relations.
From Verif Require Import Base Val Query QuerySpec QueryProof Graph Queue QueueSpec QueueProof PropQueue Result Engine EngineApi EngineSpec SplitProof EngineDisc CallSpec EngineLog CostSpec EngineBound.

(** ** Prices *)
Section price.
  Context (u : nat) (sgs : list (graph * str)).
  Hypothesis Hn : nested sgs.
  Lemma price_stable n : forall k1 k2 G, n <= k1 -> n <= k2 -> uses_below n G ->
    (forall gn q, node_of G gn -> cost G (price u sgs k1) gn q = cost G (price u sgs k2) gn q) /\
    (forall node rq, reqs_cost G (price u sgs k1) node rq = reqs_cost G (price u sgs k2) node rq).
  Proof.
    induction (lt_wf n) as [n _ IH]. intros k1 k2 G H1 H2 Hb.
    assert (forall gn name go, node_of G gn -> find_field gn name = Some go -> load_cost (price u sgs k1) go = load_cost (price u sgs k2) go) as Hload.
    { intros gn name [f|l] Hgn Hf; [|done]. cbn. destruct (gf_func f) as [m|sg rq p] eqn:Ef; [done|].
      pose proof (Hb _ _ _ _ _ _ Hgn Hf Ef) as Hlt. destruct k1 as [|k1]; [lia|]. destruct k2 as [|k2]; [lia|]. cbn [price]. f_equal.
      destruct (sgs !! sg) as [[G' node]|] eqn:Es; [|done]. apply (IH sg); [lia|lia|lia|]. exact (Hn _ _ _ Es). }
    assert (forall gn q, node_of G gn -> cost G (price u sgs k1) gn q = cost G (price u sgs k2) gn q) as Hcost.
    { intros gn q. revert gn. induction q as [nm o a|nm sub ord o a IHq] using qitem_ind'; intros gn Hgn; cbn [cost q_name].
      - destruct (find_field gn nm) as [go|] eqn:Ef; [|done]. exact (Hload _ _ _ Hgn Ef).
      - destruct (find_field gn nm) as [[f|l]|] eqn:Ef; [exact (Hload _ _ _ Hgn Ef)| |done]. f_equal.
        + f_equal. destruct (req_true l) as [r|]; [|done]. destruct (find_field gn r) as [go|] eqn:Er; [|done]. exact (Hload _ _ _ Hgn Er).
        + destruct (find_node G (gl_node l)) as [gn'|] eqn:En; [|done]. apply sum_eq. intros q Hq. rewrite Forall_forall in IHq.
          apply IHq; [done|]. right. eauto. }
    split; [done|]. intros node rq. unfold reqs_cost. apply sum_eq. intros r _. destruct (decide _).
    - destruct (find_node G node) as [gn|] eqn:En; [|done]. unfold costs. apply sum_eq. intros q _. apply Hcost. right. eauto.
    - apply Hcost. by left.
  Qed.
End price.
Lemma price_covers `{Hasher} u E : nested (e_sgs E) -> let p := price u (e_sgs E) (length (e_sgs E)) in
  forall sg rq, u + net E p sg rq <= p sg rq.
Proof.
  intros Hn p sg rq. unfold net. destruct (e_sgs E !! sg) as [[G node]|] eqn:Es.
  - pose proof (lookup_lt_Some _ _ _ Es) as Hl. subst p. destruct (length (e_sgs E)) as [|k] eqn:Ek; [lia|].
    assert (price u (e_sgs E) (S k) sg rq = u + reqs_cost G (price u (e_sgs E) k) node rq) as -> by (cbn [price]; by rewrite Es).
    apply Nat.add_le_mono_l, Nat.eq_le_incl. refine (proj2 (price_stable u _ Hn sg _ _ G _ _ _) node rq); [lia|lia|exact (Hn _ _ _ Es)].
  - subst p. destruct (length (e_sgs E)); cbn [price]; [lia|]. rewrite Es. lia.
Qed.

(** ** Nothing in the engine runs out of fuel *)
Definition nof {A} (r : res A) : Prop := r <> Err OutOfFuel.
Lemma nof_mapR {A B} (f : A -> res B) l : (forall x, x ∈ l -> nof (f x)) -> nof (mapR f l).
Proof.
  induction l as [|x l IH]; intros Hl; cbn; [done|]. pose proof (Hl x ltac:(left)) as Hx. unfold nof in *. destruct (f x); [|intros [= ->]; done].
  specialize (IH ltac:(intros; apply Hl; by right)). destruct (mapR f l); [done|]. intros [= ->]. done.
Qed.
Lemma nof_foldR {A B} (f : B -> A -> res B) l : (forall b x, x ∈ l -> nof (f b x)) -> forall b, nof (foldR f b l).
Proof.
  induction l as [|x l IH]; intros Hl b; cbn; [done|]. pose proof (Hl b x ltac:(left)) as Hx. unfold nof in *. destruct (f b x); [|intros [= ->]; done].
  apply IH. intros; apply Hl; by right.
Qed.
Ltac nof_match := repeat match goal with
  | |- nof (Ok _) => done
  | |- nof (Err _) => done
  | |- nof (match ?r with _ => _ end) => destruct r eqn:?
  | |- nof (if ?r then _ else _) => destruct r eqn:?
  end.
Lemma nof_from_opt {A} e (o : option A) : e <> OutOfFuel -> nof (from_opt e o).
Proof. intros He. destruct o; cbn; [done|]. intros [= ->]. done. Qed.
Lemma nof_err {A B} (r : res A) e : r = Err e -> nof r -> nof (Err e : res B).
Proof. intros -> Hn [= ->]. by apply Hn. Qed.

Section nof.
  Context `{Hasher} (E : env) (u : nat) (pr : nat -> qnode -> nat).
  Hypothesis Hpr : forall sg rq, u + net E pr sg rq <= pr sg rq.
  Hypothesis Hnest : nested (e_sgs E).
  Hypothesis Horacle : forall n c, e_oracle E n c <> Raise OutOfFuel.
  Hypothesis Hproc : forall p t r o, nof (e_proc E p t r o).

  Lemma nof_get_wf w x : nof (get_wf w x).
  Proof. by apply nof_from_opt. Qed.
  Lemma nof_link_ref l v : nof (link_ref l v).
  Proof. unfold link_ref. nof_match. Qed.
  Lemma nof_store_links idx gn l q ids r : nof (store_links idx gn l q ids r).
  Proof.
    unfold store_links. destruct (check_store_links gn l ids r) eqn:Ec.
    - destruct (gn_name gn) as [n|].
      + destruct ids; [|done]. apply nof_foldR. intros b p _. destruct (link_ref l p.2) eqn:El; [done|]. eapply nof_err; [exact El|apply nof_link_ref].
      + destruct (link_ref l r) eqn:El; [done|]. eapply nof_err; [exact El|apply nof_link_ref].
    - eapply nof_err; [exact Ec|]. unfold check_store_links. nof_match.
  Qed.
  Lemma nof_link_ids b t r : nof (link_result_to_ids b t r).
  Proof.
    unfold link_result_to_ids. nof_match. eapply nof_err; [eassumption|]. apply nof_mapR. intros x _. by apply nof_from_opt.
  Qed.
  Lemma nof_store_fields idx gn qfs ids r : nof (store_fields idx gn qfs ids r).
  Proof.
    unfold store_fields. destruct (check_store_fields _ _ _ _) eqn:Ec; [nof_match|]. eapply nof_err; [exact Ec|]. unfold check_store_fields. nof_match.
  Qed.
  Lemma nof_store_result w gn qfs ids r x : nof (store_result w gn qfs ids r x).
  Proof.
    unfold store_result. destruct (get_wf w x) eqn:Eg; [|eapply nof_err; [exact Eg|apply nof_get_wf]].
    destruct (store_fields _ _ _ _ _) eqn:Es; [done|]. eapply nof_err; [exact Es|apply nof_store_fields].
  Qed.
  Lemma nof_submit w f a x : nof (submit E w f a x).
  Proof.
    unfold submit. destruct (get_wf w x) as [v|] eqn:Eg; [|eapply nof_err; [exact Eg|apply nof_get_wf]].
    assert (nof (q_submit (wf_ts v) x.2)) as Hq by (unfold q_submit; nof_match).
    assert (nof (match q_submit (wf_ts v) x.2 with Ok (_, q') => Ok (length (w_log x.1), (World (w_wfs x.1) (w_log x.1 ++ [Call f (e_ctx E f) a]), q')) | Err e => Err e end)) as Hq2.
    { destruct (q_submit _ _) as [[? ?]|] eqn:Eq; [done|]. intros [= ->]. by apply Hq. }
    cbn zeta. pose proof (Horacle (length (w_log x.1)) (Call f (e_ctx E f) a)) as Ho.
    destruct (e_eager E); [|exact Hq2]. destruct (e_oracle E _ _); [exact Hq2..|]. intros [= ->]. done.
  Qed.
  Lemma nof_schedule_link w gn l q ids x : nof (schedule_link E w gn l q ids x).
  Proof.
    unfold schedule_link. destruct (get_wf w x) as [v|] eqn:Eg; [|eapply nof_err; [exact Eg|apply nof_get_wf]].
    destruct (match req_true l with Some _ => _ | None => _ end) as [a|] eqn:Er.
    - destruct (submit _ _ _ _ _) as [[? ?]|] eqn:Es; [done|]. eapply nof_err; [exact Es|apply nof_submit].
    - eapply nof_err; [exact Er|]. destruct (req_true l) as [r|]; [|done]. destruct (link_reqs _ _ _ _) eqn:El; [done|]. eapply nof_err; [exact El|].
      unfold link_reqs. nof_match. eapply nof_err; [eassumption|]. apply nof_mapR. intros; by apply nof_from_opt.
  Qed.
  Lemma nof_split gn qs : nof (split_query gn qs).
  Proof.
    unfold split_query. apply nof_foldR. intros acc q _.
    assert (forall acc q, nof (split_field gn acc q)) as Hf by (intros; unfold split_field; nof_match).
    unfold split_item. nof_match; try apply Hf. eapply nof_err; [eassumption|]. destruct (req_true _); [apply Hf|done].
  Qed.
  Lemma nof_group gn qs : nof (group_query gn qs).
  Proof.
    unfold group_query. assert (nof (foldR (group_item gn) ([], None) qs)) as Hx; [|destruct (foldR _ _ _) eqn:Ef; [done|intros [= ->]; by apply Hx]].
    apply nof_foldR. intros acc q _.
    assert (forall acc q, nof (group_field gn acc q)) as Hf by (intros; unfold group_field; cbn zeta; nof_match).
    unfold group_item. nof_match; try apply Hf. eapply nof_err; [eassumption|]. destruct (req_true _); [apply Hf|done].
  Qed.

  (** the sub-graphs used by the nodes of [G] have numbers below [k] *)
  Definition below (k : nat) (G : graph) : Prop :=
    forall gn name f sg rq p, node_of G gn -> find_field gn name = Some (GF f) -> gf_func f = FChecked sg rq p -> sg < length (e_sgs E) -> sg < k.

  Section pn.
    Variable pn : nat -> gnode -> qnode -> option (list val) -> st -> res st.
    Variable k : nat.
    Hypothesis Hpot : forall w gn q ids x y G, pn w gn q ids x = Ok y -> gs x !! w = Some G -> pot E u pr x y (costs G pr gn (qfields q)).
    Hypothesis Hpn : forall sg G node w gn q ids x, e_sgs E !! sg = Some (G, node) -> sg < k -> valid x -> gs x !! w = Some G -> node_of G gn ->
      nof (pn w gn q ids x).

    Lemma nof_process_link w gn l q ids r x G :
      valid x -> gs x !! w = Some G -> (forall gn' n y, find_node G (gl_node l) = Some gn' -> valid y -> gs y !! w = Some G -> nof (pn w gn' (q_node q) n y)) ->
      nof (process_link pn w gn l q ids r x).
    Proof.
      intros Hv HG Hp. unfold process_link. destruct (gs_get_wf _ _ _ HG) as (v & -> & <-).
      destruct (store_links _ _ _ _ _ _) as [idx|] eqn:Es; [|eapply nof_err; [exact Es|apply nof_store_links]].
      destruct (link_result_to_ids _ _ _) as [[|i is_]|] eqn:Ei; [done| |eapply nof_err; [exact Ei|apply nof_link_ids]].
      destruct (find_node _ _) as [gn'|]; [|done]. destruct (q_is_link q); [|done].
      apply Hp; [done| |by rewrite gs_set_index]. exact (proj1 (pot_set_index E u pr w idx x Hv)).
    Qed.
    Lemma nof_sub_call sg fields ids ts x : sg < k \/ length (e_sgs E) <= sg -> valid x -> nof (sub_call E pn sg fields ids ts x).
    Proof.
      intros Hsg Hv. unfold sub_call. destruct (e_sgs E !! sg) as [[G node]|] eqn:Es; [|done].
      assert (sg < k) as Hk by (apply lookup_lt_Some in Es; lia).
      destruct (mapR _ fields) as [ovs|] eqn:Eo.
      2:{ eapply nof_err; [exact Eo|]. apply nof_mapR. intros p _. unfold option_values. apply nof_mapR. intros o _. destruct (q_opts p.2); [by apply nof_from_opt|done]. }
      destruct (dget THIS _) as [tq|]; [|done].
      match goal with |- context [process_link pn _ _ _ _ _ _ ?z] => set (x1 := z) end.
      set (rq := merge (map (fun p => reqs_of p.1) fields)) in *.
      assert (gs x1 !! length (w_wfs x.1) = Some G) as H1.
      { unfold gs, x1. cbn. rewrite map_app, lookup_app_r by (by rewrite map_length). by rewrite map_length, Nat.sub_diag. }
      pose proof (pot_new_wf E u pr x (Wf G rq ts [])) as P1. fold x1 in P1. pose proof (pot_valid _ _ _ _ _ _ P1 Hv) as Hv1.
      destruct (process_link _ _ _ _ _ _ _ _) as [x2|] eqn:E2.
      - pose proof E2 as P2. apply (pot_process_link E u pr pn Hpot _ _ _ _ _ _ _ _ G) in P2; [|done].
        pose proof (pot_valid _ _ _ _ _ _ P2 Hv1) as Hv2. pose proof (pot_at _ _ _ _ _ _ _ _ P2 Hv1 H1) as H2.
        destruct (pn _ _ _ _ x2) as [x3|] eqn:E3; [done|]. eapply nof_err; [exact E3|]. apply (Hpn sg G node); try done. by left.
      - eapply nof_err; [exact E2|]. eapply nof_process_link; [done|exact H1|]. cbn [gl_node]. intros gn' n y Hf Hvy Hy. apply (Hpn sg G node); try done. right. eauto.
    Qed.
    Lemma nof_schedule_fields w gn n fk fields ids x G :
      below k G -> node_of G gn -> fields <> [] -> Forall (member gn n fk) fields -> valid x ->
      nof (schedule_fields E pn w gn fk fields ids x).
    Proof.
      intros Hb Hgn Hne Hm Hv. unfold schedule_fields. destruct fk as [f|sg].
      - destruct (submit _ _ _ _ _) as [[? ?]|] eqn:Es; [done|]. eapply nof_err; [exact Es|apply nof_submit].
      - destruct ids as [is_|]; [|done]. destruct (get_wf w x) as [v|] eqn:Eg; [|eapply nof_err; [exact Eg|apply nof_get_wf]].
        destruct (q_fork _ _) as [[t q1]|] eqn:Ef; [|eapply nof_err; [exact Ef|]; unfold q_fork; nof_match].
        apply (pot_fork E u pr) in Ef. pose proof (pot_valid _ _ _ _ _ _ Ef Hv) as Hv1.
        assert (sg < k \/ length (e_sgs E) <= sg) as Hk.
        { destruct fields as [|[go q] fields]; [done|]. apply Forall_cons in Hm as [(_ & Hf & Hk) _]. cbn in Hf, Hk.
          destruct go as [f|l]; [|done]. cbn in Hk. destruct (gf_func f) as [m|sg' rq p] eqn:Eg2; [done|]. injection Hk as ->.
          destruct (decide (sg < length (e_sgs E))); [left|right; lia]. by eapply Hb. }
        destruct (sub_call _ _ _ _ _ _ _) as [[[w' procs] x2]|] eqn:Ec; [done|]. eapply nof_err; [exact Ec|]. by apply nof_sub_call.
    Qed.
    Lemma nof_proc_steps w gn n steps ids x G :
      below k G -> node_of G gn -> Forall (step_ok gn n) steps -> valid x -> nof (proc_steps E pn w gn steps ids x).
    Proof.
      intros Hb Hgn Hs Hv. unfold proc_steps. destruct steps as [|sp rest]; [done|]. apply Forall_cons in Hs as [Hs _].
      destruct (match sp with StFields _ _ => _ | StLink _ _ => _ end) as [[d x1]|] eqn:Es; [done|]. eapply nof_err; [exact Es|].
      destruct sp; cbn in Hs; [destruct Hs as [Hne Hm]; by eapply nof_schedule_fields|apply nof_schedule_link].
    Qed.
    Lemma nof_groups w gn n ids groups G : below k G -> node_of G gn -> forall x d0,
      Forall (fun p => p.2 <> [] /\ Forall (member gn n p.1) p.2) groups -> valid x -> gs x !! w = Some G ->
      nof (foldR (fun acc g => match schedule_fields E pn w gn g.1 g.2 ids acc.2 with
                          | Ok (dep, x') => Ok (dset g.1 dep acc.1, x') | Err e => Err e end) (d0, x) groups).
    Proof.
      intros Hb Hgn. induction groups as [|[fk items] groups IH]; intros x d0 Hg Hv HG; cbn; [done|]. apply Forall_cons in Hg as [[Hne Hm] Hg].
      destruct (schedule_fields _ _ _ _ _ _ _ _) as [[dep x1]|] eqn:Es; [|eapply nof_err; [exact Es|]; by eapply nof_schedule_fields].
      apply (pot_schedule_fields E u pr pn Hpot _ _ _ _ _ _ _ _ G) in Es; [|done]. apply IH; [done|by eapply pot_valid|by eapply pot_at].
    Qed.
    Lemma nof_links w gn ids to_func to_dep links : forall x, nof (schedule_links E w gn ids to_func to_dep links x).
    Proof.
      unfold schedule_links. intros x. apply nof_foldR. intros b p _. destruct (req_true p.1) as [r|]; [nof_match|].
      destruct (schedule_link _ _ _ _ _ _ _) as [[? ?]|] eqn:Es; [done|]. eapply nof_err; [exact Es|apply nof_schedule_link].
    Qed.
    Lemma nof_body w gn n ids x G : below k G -> node_of G gn -> valid x -> gs x !! w = Some G ->
      nof (process_node_body E pn w gn n ids x).
    Proof.
      intros Hb Hgn Hv HG. unfold process_node_body. destruct (qordered n).
      - destruct (group_query _ _) as [[|sp steps]|] eqn:Eg; [done| |eapply nof_err; [exact Eg|apply nof_group]].
        apply group_query_good in Eg. by eapply nof_proc_steps.
      - destruct (split_query _ _) as [[fields links]|] eqn:Es; [|eapply nof_err; [exact Es|apply nof_split]].
        apply split_query_good in Es as [Hf _]. cbn in Hf. apply groups_ok in Hf.
        destruct (schedule_groups _ _ _ _ _ _ _) as [[to_dep x1]|] eqn:Eg; [apply nof_links|]. eapply nof_err; [exact Eg|].
        unfold schedule_groups. by eapply nof_groups.
    Qed.
  End pn.
  Lemma nof_process_node k : forall w gn n ids x G, below k G -> node_of G gn -> valid x -> gs x !! w = Some G ->
    nof (process_node E (S k) w gn n ids x).
  Proof.
    induction k as [|k IH]; intros w gn n ids x G Hb Hgn Hv HG.
    - cbn [process_node]. apply (nof_body _ 0 (pot_process_node E u pr Hpr 0)) with (G := G); try done. intros; lia.
    - change (nof (process_node_body E (process_node E (S k)) w gn n ids x)).
      apply (nof_body _ (S k) (pot_process_node E u pr Hpr (S k))) with (G := G); try done.
      intros sg G' node w' gn' q ids' x' Hs Hlt Hv' HG' Hgn'. apply IH with (G := G'); try done.
      intros gn2 name f sg2 rq p Hn2 Hf2 Hc2 _. pose proof (Hnest _ _ _ Hs _ _ _ _ _ _ Hn2 Hf2 Hc2). lia.
  Qed.
  Lemma below_all G : below (length (e_sgs E)) G.
  Proof. intros gn name f sg rq p _ _ _ ?. done. Qed.
  Lemma needed_node g q0 G gn n : needed E g q0 G gn n -> node_of G gn.
  Proof. intros Hd. destruct Hd; [by left|right; eauto|right; eauto|by left]. Qed.
  Lemma nof_fut fut x : nof (fut_result E fut x).
  Proof.
    unfold fut_result. destruct (w_log x.1 !! fut) as [c|]; [|done]. pose proof (Horacle fut c). destruct (e_oracle E fut c); [done..|]. intros [= ->]. done.
  Qed.
  Lemma nof_result_proc w procs x : nof (result_proc E w procs x).
  Proof.
    unfold result_proc. destruct (get_wf w x) as [v|] eqn:Eg; [|eapply nof_err; [exact Eg|apply nof_get_wf]].
    destruct (proxy_get _ _ _ _) as [p|] eqn:Ep; [|eapply nof_err; [exact Ep|]; unfold proxy_get; nof_match].
    destruct (match p with PRaw _ => _ | PProxy _ _ => _ | PList _ _ => _ end) as [ts|] eqn:Et; [|eapply nof_err; [exact Et|]; nof_match].
    cbn zeta. match goal with |- nof (match ?r with _ => _ end) => assert (nof r) as Hr; [|destruct r eqn:Er; [done|intros [= ->]; by apply Hr]] end.
    apply nof_mapR. intros t _. match goal with |- nof (match ?r with _ => _ end) => assert (nof r) as Hr; [|destruct r eqn:Er; [done|intros [= ->]; by apply Hr]] end.
    apply nof_mapR. intros; apply Hproc.
  Qed.
  Lemma nof_run_cb g q0 js c x : valid x -> cvalid x c -> cb_ok E g q0 js x c -> nof (run_cb E c x).
  Proof.
    intros Hv Hc Hok. destruct c as [w gn qfs ids fut|w gn qfs ids w' procs|w gn l q ids|w gn l q ids fut|w gn steps ids]; unfold run_cb.
    - destruct (fut_result _ _ _) eqn:Ef; [apply nof_store_result|]. eapply nof_err; [exact Ef|apply nof_fut].
    - destruct (result_proc _ _ _ _) eqn:Ef; [apply nof_store_result|]. eapply nof_err; [exact Ef|apply nof_result_proc].
    - destruct (schedule_link _ _ _ _ _ _ _) as [[? ?]|] eqn:Es; [done|]. eapply nof_err; [exact Es|apply nof_schedule_link].
    - destruct (fut_result _ _ _) eqn:Ef; [|eapply nof_err; [exact Ef|apply nof_fut]].
      destruct Hok as (G & n & (v & Hw & Hvg) & Hn & _). assert (gs x !! w = Some G) as HG by (unfold gs; rewrite list_lookup_fmap, Hw; cbn; by rewrite Hvg).
      eapply nof_process_link; [done|exact HG|]. intros gn' is_ y Hf Hvy Hy. unfold pn_fuel. eapply nof_process_node; [apply below_all| |done|exact Hy]. right; eauto.
    - destruct Hok as (G & n & (v & Hw & Hvg) & Hn & Hs & _). unfold pn_fuel.
      assert (gs x !! w = Some G) as HG by (unfold gs; rewrite list_lookup_fmap, Hw; cbn; by rewrite Hvg).
      apply (nof_proc_steps _ (length (e_sgs E)) (pot_process_node E u pr Hpr _)) with (n := n) (G := G); try done.
      + intros sg G' node w' gn' q ids' x' Hsg Hlt Hv' HG' Hgn'. eapply nof_process_node; [apply below_all|exact Hgn'|done|done].
      + apply below_all.
      + by eapply needed_node.
  Qed.
  Lemma nof_get_options ds o : nof (get_options ds o).
  Proof.
    unfold get_options. match goal with |- nof (match ?r with _ => _ end) => assert (nof r) as Hr; [|destruct r eqn:Er; [done|intros [= ->]; by apply Hr]] end.
    apply nof_mapR. intros op _. nof_match.
  Qed.
  Lemma nof_init_item g q : forall gn, nof (init_item g gn q).
  Proof.
    induction q as [nm o a|nm sub ord o a IH] using qitem_ind'; intros gn; cbn [init_item q_name].
    - destruct (find_field gn nm) as [go|]; [|done]. destruct (gi_opts go) as [|d ds]; [done|]. pose proof (nof_get_options (d :: ds) o) as Hr.
      destruct (get_options _ _) eqn:Eg; [done|]. intros [= ->]; by apply Hr.
    - destruct (find_field gn nm) as [go|]; [|done].
      match goal with |- nof (match ?r with _ => _ end) => assert (nof r) as Hr; [|destruct r eqn:Er; [|intros [= ->]; by apply Hr]] end.
      + destruct go as [f|l]; [done|]. destruct (find_node g (gl_node l)) as [gn'|]; [|done]. apply nof_mapR. intros q Hq. rewrite Forall_forall in IH. by apply IH.
      + destruct (gi_opts go) as [|d ds]; [done|]. pose proof (nof_get_options (d :: ds) o) as Hr2. destruct (get_options _ _) eqn:Eg; [done|]. intros [= ->]; by apply Hr2.
  Qed.
  Lemma nof_start g q : nof (start E g q).
  Proof.
    unfold start. destruct (init_options g q) as [q'|] eqn:Eq.
    - cbn [q_fork q_empty q_futs q_forks q_cbs q_nfut q_nts q_trace dset app]. unfold pn_fuel.
      eapply nof_process_node with (G := g); [apply below_all|by left|constructor|done].
    - eapply nof_err; [exact Eq|]. unfold init_options.
      match goal with |- nof (match ?r with _ => _ end) => assert (nof r) as Hr; [|destruct r eqn:Er; [done|intros [= ->]; by apply Hr]] end.
      apply nof_mapR. intros q1 _. apply nof_init_item.
  Qed.
End nof.

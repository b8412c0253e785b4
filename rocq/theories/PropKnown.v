(** Loaders which know only the objects which exist (C04, C05, C21): hiku/engine.py, hiku/sources/graph.py. *)
From stdpp Require Import relations.
From Verif Require Import Base Val Types Query QuerySpec QueryProof Graph Queue QueueSpec QueueProof Result Engine EngineSpec CostSpec SubSpec SubPathSpec SubJob
  PropOptions Validate ValidateSpec PropValidate PropValExec PropTrace PropBound EngineSubRun PropSub PropSubWf PropSubVal PropSubExpr KnownSpec SubWfSpec.

(** ** How deep sub-graphs are nested does not matter *)
Section level.
  Context (E : env) (D : data).
  Hypothesis Hnest : nested (e_sgs E).
  Lemma level_val b : forall G, uses_below b G -> forall k k', b <= k -> b <= k' ->
    forall gn name f, node_of G gn -> find_field gn name = Some (GF f) -> forall i n o, field_val E D k f i n o = field_val E D k' f i n o.
  Proof.
    induction b as [b IH] using lt_wf_ind. intros G Hu k k' Hk Hk' gn name f Hgn Hf i n o.
    destruct (gf_func f) as [m|sg rq pr] eqn:Hfn.
    - destruct k, k'; cbn; unfold plain_value, field_with; by rewrite Hfn.
    - pose proof (Hu _ _ _ _ _ _ Hgn Hf Hfn) as Hlt. destruct k as [|k]; [lia|]. destruct k' as [|k']; [lia|].
      cbn [field_val]. unfold field_with. rewrite Hfn. destruct (e_sgs E !! sg) as [[G' node]|] eqn:Hsg; [|done].
      destruct i as [j|]; [|done]. destruct (find_node G' node) as [gn'|] eqn:Hn'; [|done].
      assert (forall gn name f, node_of G' gn -> find_field gn name = Some (GF f) -> forall i n o, field_val E D k f i n o = field_val E D k' f i n o) as He.
      { apply (IH sg Hlt G'); [by eapply Hnest|lia|lia]. }
      unfold expr_result. rewrite (tree_ext E D D G' (fun m _ => conj (fun _ _ _ => eq_refl) (fun _ _ => eq_refl)) _ _ He gn'); [|right; eauto].
      by rewrite (tree_ext E D D G' (fun m _ => conj (fun _ _ _ => eq_refl) (fun _ _ => eq_refl)) _ _ He (g_root G')) by by left.
  Qed.
  Lemma level_expr sg G node k k' gn rq pr j os : e_sgs E !! sg = Some (G, node) -> sg <= k -> sg <= k' -> node_of G gn ->
    expr_result E D (field_val E D k) G gn rq pr j os = expr_result E D (field_val E D k') G gn rq pr j os.
  Proof.
    intros Hsg Hk Hk' Hgn.
    assert (forall gn name f, node_of G gn -> find_field gn name = Some (GF f) -> forall i n o, field_val E D k f i n o = field_val E D k' f i n o) as He.
    { apply (level_val sg G); [by eapply Hnest|lia|lia]. }
    unfold expr_result. rewrite (tree_ext E D D G (fun m _ => conj (fun _ _ _ => eq_refl) (fun _ _ => eq_refl)) _ _ He gn) by done.
    by rewrite (tree_ext E D D G (fun m _ => conj (fun _ _ _ => eq_refl) (fun _ _ => eq_refl)) _ _ He (g_root G)) by by left.
  Qed.
  Lemma level_field b G k k' gn i r o : uses_below b G -> b <= k -> b <= k' -> node_of G gn ->
    field_value (field_val E D k) gn i r o = field_value (field_val E D k') gn i r o.
  Proof. intros Hu Hk Hk' Hgn. unfold field_value. destruct (find_field gn r) as [[f|]|] eqn:Hf; [|done..]. by eapply level_val. Qed.
  Lemma level_link b G k k' gn i l q : uses_below b G -> b <= k -> b <= k' -> node_of G gn ->
    link_value (field_val E D k) D gn i l q = link_value (field_val E D k') D gn i l q.
  Proof.
    intros Hu Hk Hk' Hgn. unfold link_value, link_arg. destruct (gl_requires l) as [r|]; [|done]. by rewrite (level_field b G k k').
  Qed.
End level.

Section known.
  Context `{Hasher} (E : env) (D : data) (parts : gfield -> bool) (known : gnode -> val -> Prop) (g : graph) (q : qnode).
  Hypothesis Henv : wf_env E parts.
  Hypothesis Hwf : wf_graph E parts g.
  Hypothesis Hask : asks_ok g q.
  Hypothesis Hserve : serves_known E D known g.
  Notation J0 := (top_job E g q).
  Notation n0 := (length (e_sgs E)).

  Lemma job_known J : reached E J0 J -> knows E D known (j_graph J) /\
    (j_graph J = g \/ exists sg node, e_sgs E !! sg = Some (j_graph J, node)).
  Proof.
    intros Hr. destruct (reached_ok E parts Henv g q Hwf J Hr) as (_ & _ & [->|[[(sg & node & Hsg) _ _ _] _]]).
    - split; [by apply Hserve|by left].
    - split; [by eapply Hserve|right; eauto].
  Qed.
  Lemma job_level J : reached E J0 J -> exists b, b <= j_level J /\ b <= n0 /\ uses_below b (j_graph J).
  Proof.
    intros Hr. destruct (reached_ok E parts Henv g q Hwf J Hr) as (_ & (b & Hb & Hu) & [->|[[(sg & node & Hsg) _ _ _] _]]).
    - exists b. cbn in Hb. auto.
    - destruct (decide (b <= n0)); [exists b; auto|]. exists n0. split; [lia|]. split; [done|].
      intros gn name f sg' rq pr Hno Hf Hfn. pose proof (we_nested _ _ Henv _ _ _ Hsg _ _ _ _ _ _ Hno Hf Hfn). apply lookup_lt_Some in Hsg. lia.
  Qed.
  Lemma job_node J gn n : reached E J0 J -> jvisited J gn n -> node_of (j_graph J) gn.
  Proof.
    intros Hr Hv. destruct (reached_ok E parts Henv g q Hwf J Hr) as (Hw & _ & [->|[Hg _]]); [by apply (top_visited E g q gn n)|by apply (good_visited E parts J gn n)].
  Qed.
  Lemma job_link J gn i l q0 : reached E J0 J -> node_of (j_graph J) gn ->
    link_value (field_val E D (j_level J)) D gn i l q0 = link_value (sub_value E D) D gn i l q0.
  Proof. intros Hr Hno. destruct (job_level J Hr) as (b & H1 & H2 & H3). by apply (level_link E D (we_nested _ _ Henv) b (j_graph J)). Qed.
  Lemma job_field J gn i r o : reached E J0 J -> node_of (j_graph J) gn ->
    field_value (field_val E D (j_level J)) gn i r o = field_value (sub_value E D) gn i r o.
  Proof. intros Hr Hno. destruct (job_level J Hr) as (b & H1 & H2 & H3). by apply (level_field E D (we_nested _ _ Henv) b (j_graph J)). Qed.

  Lemma met_known J gn i n : met E D J0 J gn i n -> known_obj known (j_graph J) gn i.
  Proof.
    induction 1 as [|J gn i n q0 l gn' j Hm IH Hq Hl Hf Hn Hj|J gn i n sg qs J' gn' n' Hm IH Hg Hs Ht|J gn i n sg qs J' Hm IH Hg Hs]; [done| | |done].
    - destruct (met_visited _ _ _ _ _ _ _ Hm) as [Hr Hv]. destruct (job_known J Hr) as [Hk _]. pose proof (job_node J gn n Hr Hv) as Hno.
      rewrite job_link in Hj by done. by apply (kn_links _ _ _ _ Hk gn i q0 l gn').
    - destruct (met_visited _ _ _ _ _ _ _ Hm) as [Hr Hv]. destruct (job_known J Hr) as [Hk _]. pose proof (job_node J gn n Hr Hv) as Hno.
      destruct Hg as (Hne & _ & Hov & _). destruct qs as [|q0 qs']; [done|]. destruct (Hov q0 ltac:(left)) as (f & rq & pr & Hf & Hfn).
      unfold sub_job in Hs. destruct (e_sgs E !! sg) as [[G' node]|] eqn:Hsg; [|done].
      destruct (dget _ _) as [this|]; [|done]. destruct (find_node G' node) as [gn2|] eqn:Hn2; [|done]. destruct (q_is_link this); [|done].
      injection Hs as <-. cbn in Ht. injection Ht as <- <-. cbn. by eapply (kn_exprs _ _ _ _ Hk gn).
  Qed.

  Lemma call_met_for c : call_met E D J0 c -> call_for E D known g c \/ (exists sg G node, e_sgs E !! sg = Some (G, node) /\ call_for E D known G c).
  Proof.
    intros (J & gn & n & ids & Hi & _ & Hc).
    assert (reached E J0 J /\ jvisited J gn n) as [Hr Hv].
    { destruct ids as [[|i is_]|]; cbn in Hi; [by destruct Hi|destruct Hi as [_ Hi]; eapply met_visited, Hi; left|by eapply met_visited]. }
    assert (call_for E D known (j_graph J) c) as Hcf.
    { exists gn, ids. split; [by eapply job_node|]. split.
      - destruct ids as [is_|]; cbn in Hi.
        + destruct Hi as [Hne Hi]. split; [done|]. intros i Hin. exact (met_known J gn (Some i) n (Hi i Hin)).
        + exact (met_known J gn None n Hi).
      - destruct (c_args c) as [qfs ids'|rq o].
        + destruct Hc as (-> & (Hne & _ & Hl & _) & _). done.
        + destruct Hc as (l & q0 & _ & _ & Hf & Hfn & -> & ->). exists l, q0. split; [done|]. split; [done|]. split; [done|].
          destruct (gl_requires l) as [r|]; [|done]. pose proof (job_node J gn n Hr Hv) as Hno. destruct ids as [is_|].
          * do 2 f_equal. apply map_ext. intros i. by rewrite job_field.
          * by rewrite job_field. }
    destruct (job_known J Hr) as [_ [He|(sg & node & Hsg)]]; [left; by rewrite <-He|right; eauto].
  Qed.
  Lemma known_serves : serves_met E D J0.
  Proof. intros k c Hc. by apply (sk_answers _ _ _ _ Hserve), call_met_for. Qed.
  Lemma known_data : met_data E D g q.
  Proof.
    intros J. split.
    - intros gn n i q0 l Hm Hq Hf. destruct (met_visited _ _ _ _ _ _ _ Hm) as [Hr Hv]. destruct (job_known J Hr) as [Hk _]. pose proof (job_node J gn n Hr Hv) as Hno.
      rewrite job_link by done. pose proof (C04_sound_graph E parts Henv g q Hwf Hask J Hr) as Hs. pose proof (js_items _ _ Hs gn n q0 Hv Hq) as Hi. rewrite Hf in Hi.
      destruct Hi as (_ & [gn' Hn] & _). by apply (kn_links _ _ _ _ Hk gn i q0 l gn' Hno (met_known J gn i n Hm)).
    - intros gn n q0 f sg rq pr G' node gn' j Hm Ha Hf Hfn Hsg Hn. destruct (met_visited _ _ _ _ _ _ _ Hm) as [Hr Hv]. destruct (job_known J Hr) as [Hk _].
      pose proof (job_node J gn n Hr Hv) as Hno. destruct (kn_exprs _ _ _ _ Hk gn _ f sg rq pr G' node gn' j Hno (met_known J gn (Some j) n Hm) Hf Hfn Hsg Hn) as [_ Hx].
      destruct (Hx (q_opts q0)) as [v Hval].
      + assert (field_ok J gn f q0) as Hok.
        { eapply asked_field_ok; [by eapply C04_sound_graph| |exact Hf]. exists n. auto. }
        unfold field_ok in Hok. rewrite Hfn in Hok. apply Hok.
      + exists v. rewrite <-Hval. eapply level_expr; [by eapply we_nested|exact Hsg| | |right; eauto].
        * destruct (job_level J Hr) as (b & H1 & H2 & H3). pose proof (H3 _ _ _ _ _ _ Hno Hf Hfn). lia.
        * apply lookup_lt_Some in Hsg. lia.
  Qed.

  (** C04, C05: every execution of a query over sound graphs gives its result, when the loaders answer for the objects
      which they know. *)
  Theorem C04_known_data q0 fuel sched r : init_options g q0 = Ok q ->
    respects_options D -> reads_by_name E -> no_fuel_exn E -> max_work E g q < fuel -> execute E fuel g q0 sched r ->
    exists idx, r = Ok (idx, q) /\ denormalize g idx q = resolve_query g (sub_value E D) D q.
  Proof.
    intros Hi Hr Hrd Hnf Hw He.
    eapply (C04_every_execution_met E D g q0 q Hi Hr Hrd); [|exact known_serves|exact known_data|by eapply we_nested|exact Hnf|exact Hw|exact He].
    by eapply C04_sound_graph.
  Qed.
End known.

(** C21: accepted queries give their results when the loaders answer for the objects which they know *)
Theorem C21_known_data `{Hasher} (E : env) (D : data) (parts : gfield -> bool) (known : gnode -> val -> Prop) (g : graph) (q : qnode) k :
  wf_env E parts -> wf_graph E parts g -> distinct_options g ->
  validate k g q = Ok [] -> (forall q0, q0 ∈ qfields q -> options_proper q0) -> unchecked_query g q ->
  serves_known E D known g -> respects_options D -> reads_by_name E -> no_fuel_exn E ->
  exists q', init_options g q = Ok q' /\
    ((forall gn, no_collision (asked g q' gn)) ->
     forall fuel sched r, max_work E g q' < fuel -> execute E fuel g q sched r ->
       exists idx, r = Ok (idx, q') /\ denormalize g idx q' = resolve_query g (sub_value E D) D q').
Proof.
  intros Hwe Hwg Hd Hv Hp Hu Hs Hr Hrd Hnf. pose proof (C21_accepted_query_fits g k q Hp Hv) as Hf.
  destruct (fits_init g q Hf) as [q' Hi]. exists q'. split; [done|]. intros Hc fuel sched r Hw He.
  pose proof (fits_asks g q Hd Hf q' Hi Hu Hc) as Ha. by eapply (C04_known_data E D parts known g q').
Qed.
(** ... and all executions end *)
Theorem C21_known_data_ends `{Hasher} (E : env) (D : data) (parts : gfield -> bool) (known : gnode -> val -> Prop) (g : graph) (q q' : qnode) k fuel sched x y :
  wf_env E parts -> wf_graph E parts g -> distinct_options g ->
  validate k g q = Ok [] -> (forall q0, q0 ∈ qfields q -> options_proper q0) -> unchecked_query g q ->
  serves_known E D known g -> respects_options D -> reads_by_name E -> no_fuel_exn E ->
  init_options g q = Ok q' -> (forall gn, no_collision (asked g q' gn)) -> max_work E g q' < fuel ->
  start E g q = Ok x -> rounds E fuel sched x y ->
  exists sched2 idx, execute E fuel g q (sched ++ sched2) (Ok (idx, q')).
Proof.
  intros Hwe Hwg Hd Hv Hp Hu Hs Hr Hrd Hnf Hi Hc Hw Hx Hy.
  destruct (C21_known_data E D parts known g q k) as (q2 & Hi2 & Hall); try done. rewrite Hi in Hi2. injection Hi2 as <-.
  destruct (C05_terminates E g q q' (we_nested _ _ Hwe) Hi Hnf fuel sched x y Hw Hx Hy) as (sched2 & r & He & _).
  destruct (Hall Hc fuel (sched ++ sched2) r Hw He) as (idx & -> & _). eauto.
Qed.
(** Loaders which answer for everything know everything *)
Theorem C21_serves_known E D g : serves E D -> data_ok E D g -> env_data_ok E D ->
  serves_known E D (fun _ _ => True) g.
Proof.
  intros Hs Hd He.
  assert (forall G, data_ok E D G -> knows E D (fun _ _ => True) G) as Hk.
  { intros G HG. split.
    - intros gn i q l gn' Hno _ Hf Hn. split; [|done]. by eapply dk_links.
    - intros gn name f sg rq pr G' node gn' j Hno _ Hf Hfn Hsg Hn. split; [done|]. intros o Ho. by eapply (dk_exprs _ _ _ HG _ _ _ _ _ _ _ _ _ (length (e_sgs E))). }
  split; [by apply Hk|intros sg G node Hsg; by eapply Hk, He|]. intros n c _. apply Hs.
Qed.

(** Validated queries of sound graphs, expressions over sub-graphs included (C04, C05, C21). *)
From stdpp Require Import relations.
From Verif Require Import Base Val Types Query QuerySpec QueryProof Graph Queue QueueSpec QueueProof Result Engine EngineSpec CostSpec SubSpec SubJob SubWfSpec
  PropOptions Validate ValidateSpec PropValidate PropValExec PropTrace PropBound EngineSubRun PropSub PropSubWf.

Section data.
  Context `{Hasher} (E : env) (D : data) (parts : gfield -> bool) (g : graph) (q : qnode).
  Hypothesis Henv : wf_env E parts.
  Hypothesis Hwf : wf_graph E parts g.
  Hypothesis Hask : asks_ok g q.
  Hypothesis Hed : env_data_ok E D.
  Hypothesis Hgd : data_ok E D g.
  Theorem C04_sound_data : all_data E D g q.
  Proof.
    intros J Hr. destruct (reached_ok E parts Henv g q Hwf J Hr) as (Hw & Hlv & HJ).
    pose proof (C04_sound_graph E parts Henv g q Hwf Hask J Hr) as Hs.
    assert (data_ok E D (j_graph J)) as Hd.
    { destruct HJ as [->|[[(sg & node & Hsg) _ _ _] _]]; [done|by eapply Hed]. }
    assert (forall gn n, jvisited J gn n -> node_of (j_graph J) gn) as Hno.
    { intros gn n Hv. destruct HJ as [->|[Hg _]]; [by apply (top_visited E g q gn n)|by apply (good_visited E parts J gn n)]. }
    split.
    - intros gn n i it l Hv Hq Hf. by eapply dk_links; [exact Hd|by eapply Hno|].
    - intros gn it f sg rq pr G' node gn' j Ha Hf Hfn Hsg Hn'.
      destruct Ha as (n & Hv & Hq). eapply dk_exprs; [exact Hd|by eapply Hno|exact Hf|exact Hfn|exact Hsg|exact Hn'|].
      assert (field_ok J gn f it) as Hok.
      { eapply asked_field_ok; [exact Hs| |exact Hf]. exists n. auto. }
      unfold field_ok in Hok. rewrite Hfn in Hok. apply Hok.
  Qed.
End data.

(** ** C21 with expressions over sub-graphs *)
Section c21.
  Context (g : graph) (q : qnode).
  Hypothesis Hopts : distinct_options g.
  Hypothesis Hfits : fits_query g q.
  Lemma fits_asks `{Hasher} q' : init_options g q = Ok q' -> unchecked_query g q ->
    (forall gn, no_collision (asked g q' gn)) -> asks_ok g q'.
  Proof.
    intros Hi [U3 U4] Hcoll.
    assert (forall gn q0 q1, normalized g gn q0 q1 -> q_name q1 = q_name q0 /\ result_key q1 = result_key q0 /\ q_is_link q1 = q_is_link q0) as Hsame.
    { intros gn q0 q1 Hno. by inversion Hno; subst. }
    assert (forall gn n', visited g q' gn n' -> exists n, visited g q gn n /\ qordered n' = qordered n /\ Forall2 (normalized g gn) (qfields n) (qfields n')) as Hord.
    { intros gn n' Hv. induction Hv as [|gn n' q1 l gn' Hv IH Hq Hk Hf Hn].
      - exists q. split; [constructor|]. by apply C11_normalized_options.
      - destruct IH as (n & Hvn & _ & Hnm). apply elem_of_list_lookup in Hq as [k Hk']. destruct (Forall2_lookup_r _ _ _ _ _ Hnm Hk') as (q0 & Hq0 & Hno).
        apply elem_of_list_lookup_2 in Hq0.
        inversion Hno as [? nm o a o' go H1 H2 H3|? nm sub ord o a o' f H1 H2 H3|? nm sub sub' ord o a o' l0 gn0 H1 H2 H3 H4 H5]; subst; try done; simpl in *.
        + congruence.
        + rewrite Hf in H1. injection H1 as <-. rewrite Hn in H2. injection H2 as <-. exists (QN sub ord).
          split; [|done]. by apply (vis_link g q gn n (QL nm sub ord o a) l gn'). }
    split.
    - intros gn n' q1 Hv Hq1. destruct (Hord gn n' Hv) as (n & Hvn & Ho & Hnm).
      apply elem_of_list_lookup in Hq1 as [k Hk]. destruct (Forall2_lookup_r _ _ _ _ _ Hnm Hk) as (q0 & Hq0 & Hno).
      apply elem_of_list_lookup_2 in Hq0. destruct (Hsame _ _ _ Hno) as (E1 & E2 & E3). rewrite E1, E3, Ho.
      pose proof (fits_visited g q Hfits gn n Hvn q0 Hq0) as Hfit.
      destruct (find_field gn (q_name q0)) as [[f|l]|] eqn:Ef.
      + split; [|by eapply U3]. intros _ op Hop.
        assert (gf_opts f <> []) as Hne by (intros Hz; rewrite Hz in Hop; by apply not_elem_of_nil in Hop).
        inversion Hno as [? nm o a o' go H1 H2 H3|? nm sub ord o a o' f0 H1 H2 H3|? nm sub sub' ord o a o' l0 gn0 H1 H2 H3 H4 H5]; subst; simpl in *.
        * rewrite Ef in H1. injection H1 as <-. destruct (H3 Hne) as (d' & -> & _ & _ & Hd). destruct (Hd op Hop) as [He _]. cbn. eauto.
        * rewrite Ef in H1. injection H1 as <-. destruct (H3 Hne) as (d' & -> & _ & _ & Hd). destruct (Hd op Hop) as [He _]. cbn. eauto.
        * congruence.
      + destruct q0 as [nm o a|nm sub ord o a]; simpl in Hfit, Ef; [|done].
        destruct Hfit as (f & Hf & _). congruence.
      + destruct q0 as [nm o a|nm sub ord o a]; simpl in Hfit, Ef; [destruct Hfit as (f & Hf & _); congruence|by rewrite Ef in Hfit].
    - intros gn n' Hv. destruct (Hord gn n' Hv) as (n & Hvn & _ & Hnm).
      assert (map result_key (qfields n') = map result_key (qfields n)) as ->; [|by eapply U4].
      clear -Hnm Hsame. induction Hnm as [|x y l l' Hx _ IH]; [done|]. simpl. destruct (Hsame _ _ _ Hx) as (_ & -> & _). by rewrite IH.
    - done.
  Qed.
End c21.

(** C21: over sound graphs - a condition on the graph alone, without regard to queries - a query without validation
    errors can be executed: its options can be completed, and every execution, for every schedule, gives the result of the
    query and raises nothing.  Not checked by validation and needed: no result key twice in a node, no parts of fields
    in ordered nodes, different keys of the index for different requests. *)
Theorem C21_validated_query_gives_result `{Hasher} (E : env) (D : data) (parts : gfield -> bool) (g : graph) (q : qnode) k :
  wf_env E parts -> wf_graph E parts g -> distinct_options g ->
  validate k g q = Ok [] -> (forall q0, q0 ∈ qfields q -> options_proper q0) -> unchecked_query g q ->
  serves E D -> respects_options D -> reads_by_name E -> no_fuel_exn E -> data_ok E D g -> env_data_ok E D ->
  exists q', init_options g q = Ok q' /\
    ((forall gn, no_collision (asked g q' gn)) ->
     forall fuel sched r, max_work E g q' < fuel -> execute E fuel g q sched r ->
       exists idx, r = Ok (idx, q') /\ denormalize g idx q' = resolve_query g (sub_value E D) D q').
Proof.
  intros Hwe Hwg Hd Hv Hp Hu Hs Hr Hrd Hnf Hdo Hed. pose proof (C21_accepted_query_fits g k q Hp Hv) as Hf.
  destruct (fits_init g q Hf) as [q' Hi]. exists q'. split; [done|]. intros Hc fuel sched r Hw He.
  pose proof (fits_asks g q Hd Hf q' Hi Hu Hc) as Ha.
  eapply (C04_every_execution E D g q q' Hi Hr Hrd Hs); [| |by eapply we_nested|exact Hnf|exact Hw|exact He].
  - by eapply C04_sound_graph.
  - by eapply C04_sound_data.
Qed.
(** ... and every execution comes to an end whatever is reported first *)
Theorem C21_validated_query_ends `{Hasher} (E : env) (D : data) (parts : gfield -> bool) (g : graph) (q q' : qnode) k fuel sched x y :
  wf_env E parts -> wf_graph E parts g -> distinct_options g ->
  validate k g q = Ok [] -> (forall q0, q0 ∈ qfields q -> options_proper q0) -> unchecked_query g q ->
  serves E D -> respects_options D -> reads_by_name E -> no_fuel_exn E -> data_ok E D g -> env_data_ok E D ->
  init_options g q = Ok q' -> (forall gn, no_collision (asked g q' gn)) -> max_work E g q' < fuel ->
  start E g q = Ok x -> rounds E fuel sched x y ->
  exists sched2 idx, execute E fuel g q (sched ++ sched2) (Ok (idx, q')).
Proof.
  intros Hwe Hwg Hd Hv Hp Hu Hs Hr Hrd Hnf Hdo Hed Hi Hc Hw Hx Hy.
  destruct (C21_validated_query_gives_result E D parts g q k) as (q2 & Hi2 & Hall); try done. rewrite Hi in Hi2. injection Hi2 as <-.
  destruct (C05_terminates E g q q' (we_nested _ _ Hwe) Hi Hnf fuel sched x y Hw Hx Hy) as (sched2 & r & He & _).
  destruct (Hall Hc fuel (sched ++ sched2) r Hw He) as (idx & -> & _). eauto.
Qed.

(** Ordered nodes (C10), expressions over sub-graphs included. *)
From Verif Require Import Base Val Types Query QuerySpec QueryProof Graph Queue QueueSpec Result Engine EngineSpec CostSpec SubSpec SubJob
  PropOptions PropBound EngineSubRun PropSub PropSubWf PropSubVal KnownSpec PropKnown SubWfSpec.

Lemma init_item_unmark g q : forall gn, init_item g gn (unmark q) = match init_item g gn q with Ok q' => Ok (unmark q') | Err e => Err e end.
Proof.
  induction q as [n o a|n sub ord o a IH] using qitem_ind'; intros gn; cbn [unmark init_item q_name].
  - destruct (find_field gn n) as [go|]; [|done]. destruct (gi_opts go); [done|]. by destruct (get_options _ _).
  - destruct (find_field gn n) as [[f|l]|]; [| |done].
    + cbn [gi_opts]. destruct (gf_opts f); [done|]. by destruct (get_options _ _).
    + destruct (find_node g (gl_node l)) as [gn'|]; [|done].
      assert (mapR (init_item g gn') (map unmark sub) = match mapR (init_item g gn') sub with Ok l => Ok (map unmark l) | Err e => Err e end) as ->.
      { induction IH as [|q sub Hq _ IHs]; [done|]. cbn [map mapR]. rewrite Hq, IHs. destruct (init_item g gn' q) as [q0|]; [|done].
        destruct (mapR (init_item g gn') sub); done. }
      destruct (mapR (init_item g gn') sub); [|done]. cbn [gi_opts]. destruct (gl_opts l); [done|]. by destruct (get_options _ _).
Qed.
Lemma init_options_unmark g q1 q2 q1' : unmarked q1 = unmarked q2 -> init_options g q1 = Ok q1' ->
  exists q2', init_options g q2 = Ok q2' /\ unmarked q1' = unmarked q2'.
Proof.
  assert (forall l, mapR (init_item g (g_root g)) (map unmark l) = match mapR (init_item g (g_root g)) l with Ok l => Ok (map unmark l) | Err e => Err e end) as Hm.
  { induction l as [|q l IHs]; [done|]. cbn [map mapR]. rewrite init_item_unmark, IHs. destruct (init_item g (g_root g) q) as [q0|]; [|done]. destruct (mapR (init_item g (g_root g)) l); done. }
  unfold unmarked, init_options. intros Hu Hi. pose proof (Hm (qfields q1)) as H1. pose proof (Hm (qfields q2)) as H2.
  rewrite Hu in H1. rewrite H1 in H2. destruct (mapR _ (qfields q1)) as [l1|]; [|done]. injection Hi as <-.
  destruct (mapR _ (qfields q2)) as [l2|]; [|done]. injection H2 as H2. eexists. split; [done|]. done.
Qed.

Lemma visited_unmark g q1 q2 gn n : unmarked q1 = unmarked q2 -> visited g q1 gn n -> exists n2, visited g q2 gn n2 /\ unmarked n = unmarked n2.
Proof.
  intros Hu Hv. induction Hv as [|gn n q l gn' Hv IH Hq Hl Hf Hn].
  - exists q2. split; [constructor|done].
  - destruct IH as (n2 & Hv2 & Hu2). unfold unmarked in Hu2.
    assert (unmark q ∈ map unmark (qfields n2)) as Hq2. { rewrite <-Hu2. apply elem_of_list_fmap. by exists q. }
    apply elem_of_list_fmap in Hq2 as (p & Hp & Hp2).
    assert (q_name p = q_name q) as Hpn by (rewrite <-(unmark_name p), <-Hp; apply unmark_name).
    assert (q_is_link p = true) as Hpl by (destruct q, p; done).
    exists (q_node p). split.
    + eapply vis_link; [exact Hv2|exact Hp2|exact Hpl| |exact Hn]. by rewrite Hpn.
    + destruct q, p; try done. by injection Hp.
Qed.
Lemma member_unmark n n2 q : unmarked n = unmarked n2 -> q ∈ qfields n -> exists p, p ∈ qfields n2 /\ unmark q = unmark p.
Proof.
  unfold unmarked. intros Hu Hq. assert (unmark q ∈ map unmark (qfields n2)) as Hq2. { rewrite <-Hu. apply elem_of_list_fmap. by exists q. }
  apply elem_of_list_fmap in Hq2 as (p & Hp & Hp2). eauto.
Qed.
Lemma asked_unmark g q1 q2 gn q : unmarked q1 = unmarked q2 -> asked g q1 gn q -> exists p, asked g q2 gn p /\ unmark q = unmark p.
Proof.
  intros Hu (n & Hv & Hq). destruct (visited_unmark g q1 q2 gn n Hu Hv) as (n2 & Hv2 & Hu2). destruct Hq as [Hq|(q' & l & r & Hq' & Hl & Hf & Hr & ->)].
  - destruct (member_unmark n n2 q Hu2 Hq) as (p & Hp & He). exists p. split; [|done]. exists n2. auto.
  - destruct (member_unmark n n2 q' Hu2 Hq') as (p & Hp & He). exists (QF r None None). split; [|done]. exists n2. split; [done|]. right.
    exists p, l, r. split; [done|]. split; [destruct q', p; done|]. split; [|done]. by rewrite <-(unmark_name p), <-He, unmark_name.
Qed.

(** [q2] selects parts of fields in nodes which are not ordered only (see C10_complex_refuted) *)
Definition parts_unordered (g : graph) (q : qnode) : Prop :=
  forall gn n q0 f, visited g q gn n -> q0 ∈ qfields n -> find_field gn (q_name q0) = Some (GF f) -> q_is_link q0 = true -> qordered n = false.
Lemma asks_unmark `{Hasher} g q1 q2 : unmarked q1 = unmarked q2 -> parts_unordered g q2 -> asks_ok g q1 -> asks_ok g q2.
Proof.
  intros Hu Hp [A1 A2 A3]. symmetry in Hu. split.
  - intros gn n it Hv Hit. destruct (visited_unmark g q2 q1 gn n Hu Hv) as (n1 & Hv1 & Hu1). destruct (member_unmark n n1 it Hu1 Hit) as (p & Hpn & He).
    specialize (A1 gn n1 p Hv1 Hpn).
    assert (q_name p = q_name it) as Hname by (rewrite <-(unmark_name p), <-He; apply unmark_name).
    assert (q_opts p = q_opts it) as Hopts by (rewrite <-(unmark_opts p), <-He; apply unmark_opts).
    rewrite Hname, Hopts in A1. destruct (find_field gn (q_name it)) as [[f|l]|] eqn:Ef; [| |done].
    + split; [apply A1|]. intros Hl. by eapply Hp.
    + destruct it, p; done.
  - intros gn n Hv. destruct (visited_unmark g q2 q1 gn n Hu Hv) as (n1 & Hv1 & Hu1). specialize (A2 gn n1 Hv1). unfold unmarked in Hu1.
    assert (forall l, map result_key l = map result_key (map unmark l)) as Hk.
    { intros l. rewrite map_map. apply map_ext. intros q. by rewrite unmark_key. }
    rewrite Hk in A2 |- *. by rewrite Hu1.
  - intros gn a b Ha Hb Hn Hh. destruct (asked_unmark g q2 q1 gn a Hu Ha) as (a1 & Ha1 & Ea). destruct (asked_unmark g q2 q1 gn b Hu Hb) as (b1 & Hb1 & Eb).
    rewrite <-(unmark_name a), <-(unmark_name b), Ea, Eb, !unmark_name in Hn. rewrite <-(unmark_opts a), <-(unmark_opts b), Ea, Eb, !unmark_opts in Hh |- *.
    by apply (A3 gn a1 b1).
Qed.

(** C10: over sound graphs, a query which can be executed can be executed with any of its nodes marked as ordered, and all
    executions of both, for every schedule, have the same result. *)
Theorem C10_ordered_same_result `{Hasher} (E : env) (D : data) (parts : gfield -> bool) (known : gnode -> val -> Prop) (g : graph) (q1 q2 q1' : qnode) :
  wf_env E parts -> wf_graph E parts g -> unmarked q1 = unmarked q2 ->
  init_options g q1 = Ok q1' -> asks_ok g q1' ->
  serves_known E D known g -> respects_options D -> reads_by_name E -> no_fuel_exn E ->
  exists q2', init_options g q2 = Ok q2' /\
    (parts_unordered g q2' ->
     forall fuel1 fuel2 sched1 sched2 r1 r2, max_work E g q1' < fuel1 -> max_work E g q2' < fuel2 ->
       execute E fuel1 g q1 sched1 r1 -> execute E fuel2 g q2 sched2 r2 ->
       exists idx1 idx2, r1 = Ok (idx1, q1') /\ r2 = Ok (idx2, q2') /\ denormalize g idx1 q1' = denormalize g idx2 q2').
Proof.
  intros Hwe Hwg Hu Hi Ha Hs Hr Hrd Hnf. destruct (init_options_unmark g q1 q2 q1' Hu Hi) as (q2' & Hi2 & Hu').
  exists q2'. split; [done|]. intros Hp fuel1 fuel2 sched1 sched2 r1 r2 Hw1 Hw2 He1 He2.
  pose proof (asks_unmark g q1' q2' Hu' Hp Ha) as Ha2.
  destruct (C04_known_data E D parts known g q1' Hwe Hwg Ha Hs q1 fuel1 sched1 r1 Hi Hr Hrd Hnf Hw1 He1) as (idx1 & -> & E1).
  destruct (C04_known_data E D parts known g q2' Hwe Hwg Ha2 Hs q2 fuel2 sched2 r2 Hi2 Hr Hrd Hnf Hw2 He2) as (idx2 & -> & E2).
  exists idx1, idx2. split; [done|]. split; [done|]. rewrite E1, E2. by apply resolve_query_unmark.
Qed.
Print Assumptions C10_ordered_same_result.

(** ** The hypotheses are met *)
From Verif Require Import Examples ExEngine ExSub ExSubCheck ExSubWf.
#[local] Existing Instance ex_hasher.
(** [sound_query] with its root and the node of [users] ordered *)
Definition sound_ordered : qnode :=
  QN [QL (s "users") [QF (s "id") None None; QF (s "label") None None; QF (s "stamp") None None;
                      QL (s "chief") [QF (s "label") None None] false None None] true None None] true.
Definition sound_ordered' : qnode := match init_options sound_graph sound_ordered with Ok q => q | Err _ => sound_ordered end.
Theorem C10_sub_example fuel1 fuel2 sched1 sched2 r1 r2 :
  max_work sub_env sound_graph sound_query' < fuel1 -> max_work sub_env sound_graph sound_ordered' < fuel2 ->
  execute sub_env fuel1 sound_graph sound_query sched1 r1 -> execute sub_env fuel2 sound_graph sound_ordered sched2 r2 ->
  exists idx1 idx2, r1 = Ok (idx1, sound_query') /\ r2 = Ok (idx2, sound_ordered') /\
    denormalize sound_graph idx1 sound_query' = denormalize sound_graph idx2 sound_ordered'.
Proof.
  intros Hw1 Hw2 He1 He2.
  destruct (C10_ordered_same_result sub_env sub_data whole (fun _ _ => True) sound_graph sound_query sound_ordered sound_query' sub_wf_env sound_wf eq_refl sound_init) as (q2' & Hi & Hall).
  - apply (fits_asks sound_graph sound_query sound_distinct); [|exact sound_init|exact sound_unchecked|exact sound_collisions].
    exact (PropValidate.C21_accepted_query_fits sound_graph 5 sound_query sound_proper sound_valid).
  - exact (C21_serves_known _ _ _ sub_serves sound_data sub_env_data).
  - exact sub_respects.
  - exact sub_reads.
  - exact (proj1 (proj2 (proj2 C05_example))).
  - assert (q2' = sound_ordered') as ->. { unfold sound_ordered'. by rewrite Hi. }
    assert (parts_unordered sound_graph sound_ordered') as Hp.
    { intros gn n q0 f Hv%visited_visits%elem_of_list_In Hq%elem_of_list_In Hf Hl. clear -Hv Hq Hf Hl. vm_compute in Hv.
      repeat destruct Hv as [Hv|Hv]; try done; injection Hv as <- <-; cbn [qfields] in Hq; repeat destruct Hq as [Hq|Hq]; try done; subst q0; done. }
    exact (Hall Hp fuel1 fuel2 sched1 sched2 r1 r2 Hw1 Hw2 He1 He2).
Qed.
Print Assumptions C10_sub_example.

(** C63: an object looks the same wherever it appears in a result. *)
From Verif Require Import Base Val Types Query QuerySpec QueryProof Graph Result PropResult Engine EngineSpec SplitProof
  PropExprBuild RecordSpec PropRecords MoreSpec PropMore SameSpec PropSame ViewSpec.

Lemma denorm_key `{Hasher} g idx gn ref pn q p : denorm g idx gn ref pn q = Ok p -> p.1 = result_key q.
Proof.
  destruct q as [n o a|n sub ord o a]; cbn [denorm]; (destruct (find_field _ _) as [go|]; [|done]); (destruct (proxy_get _ _ _ _) as [r|]; [|done]).
  - by intros [= <-].
  - match goal with |- match ?m with _ => _ end = _ -> _ => destruct m as [y|] end; [|done]. by intros [= <-].
Qed.

Section view.
  Context `{Hasher} (g : graph) (idx : index).
  (** One object, as it is shown for the query of one place and for that of another *)
  Lemma denorm_shown q : forall gn ref pn pn' q' p p', covered g gn q q' -> clear g gn q -> clear g gn q' ->
    NoDup (map result_key (qfields pn)) -> NoDup (map result_key (qfields pn')) -> q ∈ qfields pn -> q' ∈ qfields pn' ->
    denorm g idx gn ref pn q = Ok p -> denorm g idx gn ref pn' q' = Ok p' -> shown g gn q q' p.2 p'.2.
  Proof.
    induction q as [nm o a|nm sub ord o a IH] using qitem_ind'; intros gn ref pn pn' q' p p' Hp Hc Hc' Hk Hk' Hin Hin' Hy Hy'.
    - inversion Hp as [? ? ? o' a' Ho| |]; subst. cbn [denorm q_name] in Hy, Hy'. destruct (find_field gn nm) as [go|] eqn:Ef; [|done].
      rewrite (proj1 (C18_requested_key idx ref pn _ Hk Hin)) in Hy. rewrite (proj1 (C18_requested_key idx ref pn' _ Hk' Hin')) in Hy'. cbn [q_is_link] in Hy, Hy'.
      assert (index_key (QF nm o a) = index_key (QF nm o' a')) as Hi by (apply same_opts_index_key; done). rewrite <-Hi in Hy'.
      destruct (dget (ref.1, ref.2, index_key (QF nm o a)) idx) as [v|]; [|done]. injection Hy as <-. injection Hy' as <-. constructor.
    - rewrite Forall_forall in IH.
      assert (exists sub' ord' o' a', q' = QL nm sub' ord' o' a' /\ same_opts o o') as (sub' & ord' & o' & a' & -> & Ho) by (inversion Hp; subst; by eexists _, _, _, _).
      assert (index_key (QL nm sub ord o a) = index_key (QL nm sub' ord' o' a')) as Hi by (apply same_opts_index_key; done).
      cbn [denorm clear q_name] in Hy, Hy', Hc, Hc'. destruct (find_field gn nm) as [go|] eqn:Ef; [|done].
      rewrite (proj1 (C18_requested_key idx ref pn _ Hk Hin)) in Hy. rewrite (proj1 (C18_requested_key idx ref pn' _ Hk' Hin')) in Hy'. rewrite <-Hi in Hy'. cbn [q_is_link q_node] in Hy, Hy'.
      destruct (dget (ref.1, ref.2, index_key (QL nm sub ord o a)) idx) as [iv|]; [|done]. destruct go as [f|l].
      + destruct (get_type _ _) as [t|]; [|by destruct iv as [| |[|]]].
        destruct iv as [v| |[|]]; try done.
        destruct (denorm_type (QL nm sub ord o a) t v) as [y|] eqn:E1; [|done]. destruct (denorm_type (QL nm sub' ord' o' a') t v) as [y'|] eqn:E2; [|done].
        injection Hy as <-. injection Hy' as <-. cbn. eapply sh_parts; [exact Ef|].
        assert (covered_part (QL nm sub ord o a) (QL nm sub' ord' o' a')) as Hcp by (inversion Hp; subst; [congruence|by constructor]).
        by eapply denorm_type_shown.
      + destruct (find_node g (gl_node l)) as [gn'|] eqn:En; [|by destruct iv as [| |[|]]].
        destruct Hc as [Hnd Hc]. destruct Hc' as [Hnd' Hc']. rewrite all_in in Hc, Hc'.
        assert (forall x, x ∈ sub -> exists x', x' ∈ sub' /\ covered g gn' x x') as Hsub.
        { inversion Hp as [|? ? ? ? ? ? ? ? ? l0 gn0 F1 F2 _ F4|]; subst; [|congruence]. rewrite Ef in F1. injection F1 as <-. rewrite En in F2. by injection F2 as <-. }
        assert (forall r y y', match mapR (denorm g idx gn' r (QN sub ord)) sub with Ok ps => Ok (TO (of_pairs ps)) | Err e => Err e end = Ok y ->
          match mapR (denorm g idx gn' r (QN sub' ord')) sub' with Ok ps => Ok (TO (of_pairs ps)) | Err e => Err e end = Ok y' ->
          shown g gn (QL nm sub ord o a) (QL nm sub' ord' o' a') y y') as Hobj.
        { clear Hy Hy'. intros r y y' H1 H2. destruct (mapR (denorm g idx gn' r (QN sub ord)) sub) as [ps|] eqn:F1; [|done]. destruct (mapR (denorm g idx gn' r (QN sub' ord')) sub') as [ps'|] eqn:F2; [|done].
          injection H1 as <-. injection H2 as <-.
          eapply sh_object; [exact Ef|exact En|intros k Hkk; eapply object_keys; [exact F1|intros q p0; apply denorm_key|exact Hkk]|]. intros x x' Hx Hx' Hxx.
          destruct (object_get _ result_key sub ps x F1 (fun q p0 => denorm_key g idx gn' r (QN sub ord) q p0) Hnd Hx) as (z & Hz & Hd).
          destruct (object_get _ result_key sub' ps' x' F2 (fun q p0 => denorm_key g idx gn' r (QN sub' ord') q p0) Hnd' Hx') as (z' & Hz' & Hd').
          exists z, z'. split; [done|]. split; [done|].
          exact (IH x Hx gn' r (QN sub ord) (QN sub' ord') x' _ _ Hxx (Hc _ Hx) (Hc' _ Hx') Hnd Hnd' Hx Hx' Hz Hz'). }
        destruct (gl_enum l).
        * destruct iv as [v|m i|[|]]; try done.
          -- destruct v; try done. injection Hy as <-. injection Hy' as <-. constructor.
          -- destruct (match mapR _ _ with Ok _ => _ | Err _ => _ end) as [y|] eqn:F1 in Hy; [|done]. destruct (match mapR _ _ with Ok _ => _ | Err _ => _ end) as [y'|] eqn:F2 in Hy'; [|done].
             injection Hy as <-. injection Hy' as <-. by eapply Hobj.
        * destruct iv as [v|m i|[|]]; try done.
          destruct (match mapR _ _ with Ok _ => _ | Err _ => _ end) as [y|] eqn:F1 in Hy; [|done]. destruct (match mapR _ _ with Ok _ => _ | Err _ => _ end) as [y'|] eqn:F2 in Hy'; [|done].
          injection Hy as <-. injection Hy' as <-. by eapply Hobj.
        * destruct iv as [v|m i|[|r refs]]; try done.
          -- injection Hy as <-. injection Hy' as <-. constructor. constructor.
          -- destruct (mapR _ (r :: refs)) as [ys|] eqn:F1 in Hy; [|done]. destruct (mapR _ (r :: refs)) as [ys'|] eqn:F2 in Hy'; [|done].
             injection Hy as <-. injection Hy' as <-. cbn. constructor. eapply list_rel; [exact F1|exact F2|]. intros j y y' _. apply Hobj.
  Qed.

  Definition clear_at (gn : gnode) (n : qnode) : Prop := NoDup (map result_key (qfields n)) /\ forall q, q ∈ qfields n -> clear g gn q.
  Lemma place_denorm q0 t0 gn ref pn t : clear_query g q0 -> denormalize g idx q0 = Ok t0 -> place g idx q0 t0 gn ref pn t ->
    clear_at gn pn /\ denorm_node g idx gn ref pn (qfields pn) = Ok t.
  Proof.
    intros Hc Ht. induction 1 as [|gn ref pn d f l gn' ref' pn' t _ [[Hnd Hcl] IH] Hf Hl Hn Hp Hd|gn ref pn d f l gn' refs pn' ts i ref' t _ [[Hnd Hcl] IH] Hf Hl Hn Hp Hd Hi Hti]; [done|..].
    - unfold denorm_node in IH. destruct (mapR _ (qfields pn)) as [ps|] eqn:Em; [|done]. injection IH as <-.
      destruct (object_get _ result_key _ ps f Em (fun q p0 => denorm_key g idx gn ref pn q p0) Hnd Hf) as (z & Hz & Hdz). rewrite Hdz in Hd. injection Hd as ->.
      specialize (Hcl f Hf). destruct f as [nm o a|nm sub ord o a].
      { rewrite (proj1 (C18_requested_key idx ref pn _ Hnd Hf)) in Hp. cbn [q_is_link] in Hp. by destruct (dget (ref.1, ref.2, index_key (QF nm o a)) idx). }
      cbn [denorm clear q_name] in Hz, Hcl, Hl. rewrite Hl, Hp in Hz. rewrite Hn in Hz. rewrite Hl, Hn in Hcl.
      rewrite (proj1 (C18_requested_key idx ref pn _ Hnd Hf)) in Hp. cbn [q_is_link q_node] in Hp. assert (pn' = QN sub ord) as ->.
      { destruct (dget (ref.1, ref.2, index_key (QL nm sub ord o a)) idx) as [[| |[|]]|]; try done. by injection Hp as <- <-. }
      rewrite all_in in Hcl. split; [exact Hcl|]. unfold denorm_node. cbn [qfields].
      destruct (gl_enum l); [| |done]; destruct (mapR _ sub); try done; by injection Hz as <-.
    - unfold denorm_node in IH. destruct (mapR _ (qfields pn)) as [ps|] eqn:Em; [|done]. injection IH as <-.
      destruct (object_get _ result_key _ ps f Em (fun q p0 => denorm_key g idx gn ref pn q p0) Hnd Hf) as (z & Hz & Hdz). rewrite Hdz in Hd. injection Hd as ->.
      specialize (Hcl f Hf). destruct f as [nm o a|nm sub ord o a].
      { rewrite (proj1 (C18_requested_key idx ref pn _ Hnd Hf)) in Hp. cbn [q_is_link] in Hp. by destruct (dget (ref.1, ref.2, index_key (QF nm o a)) idx). }
      cbn [denorm clear q_name] in Hz, Hcl, Hl. rewrite Hl, Hp in Hz. rewrite Hn in Hz. rewrite Hl, Hn in Hcl.
      rewrite (proj1 (C18_requested_key idx ref pn _ Hnd Hf)) in Hp. cbn [q_is_link q_node] in Hp. assert (pn' = QN sub ord) as ->.
      { destruct (dget (ref.1, ref.2, index_key (QL nm sub ord o a)) idx) as [[| |[|]]|]; try done. by injection Hp as <- <-. }
      rewrite all_in in Hcl. split; [exact Hcl|]. unfold denorm_node. cbn [qfields].
      destruct (gl_enum l); [done..|]. destruct (mapR _ refs) as [ys|] eqn:Er in Hz; [|done]. injection Hz as <-. apply mapR_ok in Er.
      destruct (Forall2_lookup_lr _ _ _ _ _ _ Er Hi Hti). by destruct (mapR _ sub).
  Qed.
End view.

(** ** C63 *)
Section thms.
  Context `{Hasher} (g : graph) (idx : index) (q0 : qnode) (t0 : vtree).
  Hypothesis Hc : clear_query g q0.
  Hypothesis Ht : denormalize g idx q0 = Ok t0.

  (** C63: what two places of a result ask of one object - whatever links lead there, whatever the loaders answered, and
      however often they were called for it - is answered in the same way, under whatever keys, and so on inside. *)
  Theorem C63_same_object_same_answer gn ref pn1 pn2 d1 d2 f1 f2 :
    place g idx q0 t0 gn ref pn1 (TO d1) -> place g idx q0 t0 gn ref pn2 (TO d2) ->
    f1 ∈ qfields pn1 -> f2 ∈ qfields pn2 -> covered g gn f1 f2 ->
    exists v1 v2, dget (result_key f1) d1 = Some v1 /\ dget (result_key f2) d2 = Some v2 /\ shown g gn f1 f2 v1 v2.
  Proof.
    intros H1 H2 Hf1 Hf2 Hcv. destruct (place_denorm _ _ _ _ _ _ _ _ Hc Ht H1) as [[N1 C1] D1]. destruct (place_denorm _ _ _ _ _ _ _ _ Hc Ht H2) as [[N2 C2] D2].
    unfold denorm_node in D1, D2. destruct (mapR _ (qfields pn1)) as [ps1|] eqn:E1; [|done]. destruct (mapR _ (qfields pn2)) as [ps2|] eqn:E2; [|done]. injection D1 as <-. injection D2 as <-.
    destruct (object_get _ result_key _ ps1 f1 E1 (fun q p0 => denorm_key g idx gn ref pn1 q p0) N1 Hf1) as (v1 & V1 & G1).
    destruct (object_get _ result_key _ ps2 f2 E2 (fun q p0 => denorm_key g idx gn ref pn2 q p0) N2 Hf2) as (v2 & V2 & G2).
    exists v1, v2. split; [done|]. split; [done|]. exact (denorm_shown g idx f1 gn ref pn1 pn2 f2 _ _ Hcv (C1 _ Hf1) (C2 _ Hf2) N1 N2 Hf1 Hf2 V1 V2).
  Qed.
  (** C63: places where the same is asked of one object show the same *)
  Theorem C63_same_selection gn ref pn1 pn2 t1 t2 :
    place g idx q0 t0 gn ref pn1 t1 -> place g idx q0 t0 gn ref pn2 t2 -> qfields pn1 = qfields pn2 -> t1 = t2.
  Proof.
    intros H1 H2 Heq. destruct (place_denorm _ _ _ _ _ _ _ _ Hc Ht H1) as [[N1 _] D1]. destruct (place_denorm _ _ _ _ _ _ _ _ Hc Ht H2) as [[N2 _] D2].
    assert (forall q, q ∈ qfields pn1 -> denorm g idx gn ref pn1 q = denorm g idx gn ref pn2 q) as Hd.
    { intros q Hq. pose proof Hq as Hq'. rewrite Heq in Hq'. destruct q as [n o a|n sub ord o a]; cbn [denorm q_name];
      rewrite (proj1 (C18_requested_key idx ref pn1 _ N1 Hq)), (proj1 (C18_requested_key idx ref pn2 _ N2 Hq')); done. }
    unfold denorm_node in D1, D2. rewrite <-Heq in D2. assert (mapR (denorm g idx gn ref pn1) (qfields pn1) = mapR (denorm g idx gn ref pn2) (qfields pn1)) as Hm.
    { clear -Hd. revert Hd. induction (qfields pn1) as [|q qs IH]; intros Hd; [done|]. cbn [mapR]. rewrite (Hd q) by left. rewrite IH; [done|]. intros q' Hq'. apply Hd. by right. }
    rewrite Hm in D1. rewrite D1 in D2. by injection D2.
  Qed.
  (** C63: every object shown for a link is at a place *)
  Theorem C63_every_object_has_a_place gn ref pn d f l gn' :
    place g idx q0 t0 gn ref pn (TO d) -> f ∈ qfields pn -> q_is_link f = true -> find_field gn (q_name f) = Some (GL l) -> find_node g (gl_node l) = Some gn' ->
    exists v, dget (result_key f) d = Some v /\
      ((v = TP (PRaw (IVal VNone)) /\ gl_enum l = Maybe) \/ (exists d' ref', v = TO d' /\ place g idx q0 t0 gn' ref' (q_node f) v) \/
       (exists ts, v = TL ts /\ forall i t, ts !! i = Some t -> exists d' ref', t = TO d' /\ place g idx q0 t0 gn' ref' (q_node f) t)).
  Proof.
    intros H1 Hf Hlk Hl Hn. destruct (place_denorm _ _ _ _ _ _ _ _ Hc Ht H1) as [[N1 _] D1].
    unfold denorm_node in D1. destruct (mapR _ (qfields pn)) as [ps|] eqn:E1; [|done]. injection D1 as <-.
    destruct (object_get _ result_key _ ps f E1 (fun q p0 => denorm_key g idx gn ref pn q p0) N1 Hf) as (v & V & G). exists v. split; [done|].
    destruct f as [|nm sub ord o a]; [done|]. cbn [denorm q_name] in V, Hl. rewrite Hl in V.
    destruct (proxy_get idx ref pn (result_key (QL nm sub ord o a))) as [r|] eqn:Hp; [|done]. rewrite Hn in V.
    pose proof Hp as Hp'. rewrite (proj1 (C18_requested_key idx ref pn _ N1 Hf)) in Hp'. cbn [q_is_link q_node] in Hp'.
    destruct (gl_enum l).
    - destruct r as [[w| |]|ref' pn'|]; try done.
      + destruct w; try done. injection V as <-. by left.
      + right. left. assert (pn' = QN sub ord) as ->. { destruct (dget (ref.1, ref.2, index_key (QL nm sub ord o a)) idx) as [[| |[|]]|]; try done. by injection Hp' as <- <-. }
        destruct (mapR _ sub) as [ys|]; [|done]. injection V as <-. eexists _, ref'. split; [done|]. eapply pl_one; [exact H1|exact Hf|exact Hl|exact Hn|exact Hp|exact G].
    - destruct r as [[w| |]|ref' pn'|]; try done. right. left.
      assert (pn' = QN sub ord) as ->. { destruct (dget (ref.1, ref.2, index_key (QL nm sub ord o a)) idx) as [[| |[|]]|]; try done. by injection Hp' as <- <-. }
      destruct (mapR _ sub) as [ys|]; [|done]. injection V as <-. eexists _, ref'. split; [done|]. eapply pl_one; [exact H1|exact Hf|exact Hl|exact Hn|exact Hp|exact G].
    - right. right. destruct r as [[w|m i|[|]]|ref' pn'|refs pn']; try done.
      + injection V as <-. exists []. by split.
      + assert (pn' = QN sub ord) as ->. { destruct (dget (ref.1, ref.2, index_key (QL nm sub ord o a)) idx) as [[| |[|]]|]; try done. by injection Hp' as <- <-. }
        destruct (mapR _ refs) as [ys|] eqn:Er; [|done]. injection V as <-. exists ys. split; [done|]. intros i t Hi. pose proof Er as Er2. apply mapR_ok in Er.
        destruct (Forall2_lookup_r _ _ _ _ _ Er Hi) as (ref' & Hr & Hx). destruct (mapR _ sub) as [zs|]; [|done]. injection Hx as <-.
        eexists _, ref'. split; [done|]. eapply pl_many; [exact H1|exact Hf|exact Hl|exact Hn|exact Hp|exact G|exact Hr|exact Hi].
  Qed.
End thms.
Print Assumptions C63_same_object_same_answer.
Print Assumptions C63_same_selection.
Print Assumptions C63_every_object_has_a_place.

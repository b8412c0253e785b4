(** C62: the same request has the same answer. *)
From Verif Require Import Base Val Types Query QuerySpec QueryProof Graph Queue QueueSpec Result Engine EngineSpec SplitProof CostSpec SubSpec
  PropOptions Validate ValidateSpec PropValidate PropBound PropSub PropSubVal RecordSpec PropRecords PropIntroList PropExprBuild MoreSpec PropMore SameSpec KnownSpec PropKnown SubWfSpec.
From Verif Require SubJob PropExport.

Lemma object_get {A} (f : A -> res (str * vtree)) (key : A -> str) l ps x :
  mapR f l = Ok ps -> (forall q p, f q = Ok p -> p.1 = key q) -> NoDup (map key l) -> x ∈ l ->
  exists v, f x = Ok (key x, v) /\ dget (key x) (of_pairs ps) = Some v.
Proof.
  intros Hm Hk Hnd Hx. apply mapR_ok in Hm. apply elem_of_list_lookup in Hx as [a Ha].
  destruct (Forall2_lookup_l _ _ _ _ _ Hm Ha) as ([k v] & Hp & Hf). pose proof (Hk _ _ Hf) as Hkk. cbn in Hkk. subst k. exists v. split; [done|].
  apply of_pairs_lookup; [|by eapply elem_of_list_lookup_2].
  assert (map fst ps = map key l) as ->; [|done]. clear -Hm Hk. induction Hm as [|y z l l' Hy _ IH]; [done|]. cbn. by rewrite (Hk _ _ Hy), IH.
Qed.
Lemma object_keys {A} (f : A -> res (str * vtree)) (key : A -> str) l ps k :
  mapR f l = Ok ps -> (forall q p, f q = Ok p -> p.1 = key q) -> k ∈ map fst (of_pairs ps) -> exists x, x ∈ l /\ key x = k.
Proof.
  intros Hm Hk Hin. assert (is_Some (dget k (of_pairs ps))) as [v Hv]. { destruct (dget k (of_pairs ps)) eqn:E; [by eexists|]. by apply dget_None in E. }
  apply dget_of_pairs_Some in Hv. apply mapR_ok in Hm. apply elem_of_list_lookup in Hv as [a Ha]. destruct (Forall2_lookup_r _ _ _ _ _ Hm Ha) as (x & Hx & Hf).
  exists x. split; [by eapply elem_of_list_lookup_2|]. by rewrite <-(Hk _ _ Hf).
Qed.
Lemma list_rel {A} (R : vtree -> vtree -> Prop) (f f' : A -> res vtree) l ys ys' : mapR f l = Ok ys -> mapR f' l = Ok ys' ->
  (forall x y y', x ∈ l -> f x = Ok y -> f' x = Ok y' -> R y y') -> Forall2 R ys ys'.
Proof.
  intros Hm Hm' Hw. apply mapR_ok in Hm, Hm'. revert ys' Hm'. induction Hm as [|x y l ys Hx _ IH]; intros ys' Hm'; inversion Hm'; subst; constructor.
  - eapply Hw; [left|done..].
  - apply IH; [|done]. intros x0 y1 y2 Hin. apply Hw. by right.
Qed.

(** ** Records *)
Lemma denorm_type_shown q : forall q' t v y y', covered_part q q' -> clear_parts q -> clear_parts q' ->
  denorm_type q t v = Ok y -> denorm_type q' t v = Ok y' -> shown_part q q' y y'.
Proof.
  induction q as [nm o a|nm sub ord o a IH] using qitem_ind'; intros q' t v y y' Hp Hc Hc' Hy Hy'; inversion Hp as [|? ? sub' ? ord' ? o' ? a' Hsub]; subst.
  - cbn in Hy, Hy'. injection Hy as <-. injection Hy' as <-. constructor.
  - cbn in Hc, Hc'. destruct Hc as [Hnd Hc]. destruct Hc' as [Hnd' Hc']. rewrite all_in in Hc, Hc'. rewrite Forall_forall in IH. revert v y y' Hy Hy'.
    induction t as [| | | | |rn|t' IHt|t' IHt|a1 IH1 b1 IH2|fs IHfs|args IHargs] using ty_ind'; intros v y y' Hy Hy'; rewrite denorm_link in Hy, Hy'; try done.
    + destruct (decide (v = VNone)) as [->|Hv]; [injection Hy as <-; injection Hy' as <-; constructor|]. eapply IHt; [destruct v; done|destruct v; done].
    + destruct (iter_of v) as [l|]; [|done]. destruct (mapR (denorm_type (QL nm sub ord o a) t') l) as [ys|] eqn:E1; [|done]. destruct (mapR (denorm_type (QL nm sub' ord' o' a') t') l) as [ys'|] eqn:E2; [|done].
      injection Hy as <-. injection Hy' as <-. constructor. eapply list_rel; [exact E1|exact E2|]. intros x y1 y2 _. apply IHt.
    + destruct (mapR _ sub) as [ps|] eqn:E1; [|done]. destruct (mapR _ sub') as [ps'|] eqn:E2; [|done]. injection Hy as <-. injection Hy' as <-.
      match type of E1 with mapR ?f _ = _ => set (F := f) in * end.
      assert (forall q p, F q = Ok p -> p.1 = q_name q) as Hk.
      { intros q p. unfold F. cbv beta. destruct (dget (q_name q) fs); [|done]. destruct (py_getitem v (q_name q)); [|done]. destruct (denorm_type q _ _); [|done]. by intros [= <-]. }
      constructor; [intros k Hin; by eapply object_keys|]. intros x x' Hx Hx' Hxx.
      destruct (object_get F q_name sub ps x E1 Hk Hnd Hx) as (z & Hz & Hd). destruct (object_get F q_name sub' ps' x' E2 Hk Hnd' Hx') as (z' & Hz' & Hd').
      exists z, z'. split; [done|]. split; [done|]. assert (q_name x' = q_name x) as Hn by (by inversion Hxx).
      unfold F in Hz, Hz'. rewrite Hn in Hz'. destruct (dget (q_name x) fs) as [ft|]; [|done]. destruct (py_getitem v (q_name x)) as [fv|]; [|done].
      destruct (denorm_type x ft fv) as [w|] eqn:Ew; [|done]. destruct (denorm_type x' ft fv) as [w'|] eqn:Ew'; [|done].
      injection Hz as ->. injection Hz' as ->. eapply IH; [exact Hx|exact Hxx|by apply Hc|by apply Hc'|exact Ew|exact Ew'].
Qed.

(** ** Options *)
Lemma get_options_same ds o o' r r' : NoDup (map go_name ds) -> same_opts o o' -> get_options ds o = Ok r -> get_options ds o' = Ok r' -> same_opts (Some r) (Some r').
Proof.
  unfold get_options. intros Hnd Hs Hr Hr'. destruct (mapR _ ds) as [ps|] eqn:E1; [|done]. match type of Hr' with match ?m with _ => _ end = _ => destruct m as [ps'|] eqn:E2; [|done] end.
  injection Hr as <-. injection Hr' as <-. apply mapR_ok in E1, E2.
  assert (Forall2 (fun p r : str * val => r.1 = p.1 /\ same_val p.2 r.2) ps ps' /\ map fst ps = map go_name ds /\ map fst ps' = map go_name ds) as (Hf & K1 & K2).
  { clear Hnd. revert ps' E2. induction E1 as [|op p ds ps Hp _ IH]; intros ps' E2; inversion E2 as [|? p' ? ps2 Hp' Hps]; subst; [done|].
    destruct (IH _ Hps) as (Hf & K1 & K2). pose proof (SubJob.same_opts_get o o' (go_name op) Hs) as Hg.
    destruct (dget (go_name op) (opt_dict o)) as [v|], (dget (go_name op) (opt_dict o')) as [v'|]; try done; cbn in Hg.
    - assert (p = (go_name op, v)) as -> by (destruct v; congruence). assert (p' = (go_name op, v')) as -> by (destruct v'; congruence). cbn. rewrite K1, K2. split; [|done]. by constructor.
    - assert (p = (go_name op, go_default op)) as -> by (destruct (go_default op); congruence). assert (p' = (go_name op, go_default op)) as -> by (destruct (go_default op); congruence).
      cbn. rewrite K1, K2. split; [|done]. constructor; [|done]. split; [done|apply sv_refl]. }
  rewrite !of_pairs_NoDup by (unfold dkeys; congruence). unfold same_opts. cbn. by apply PropExport.same_dict.
Qed.

Section resolve.
  Context (g : graph) (fv : gfield -> option val -> str -> opts -> val) (D : data).
  Hypothesis Hopts : distinct_options g.
  Hypothesis Hfv : forall f i n o o', same_opts o o' -> fv f i n o = fv f i n o'.
  Hypothesis Hresp : respects_options D.
  Definition real (gn : gnode) : Prop := gn = g_root g \/ exists m, find_node g m = Some gn.
  Lemma link_value_same gn i l q q' : (gl_opts l <> [] -> same_opts (q_opts q) (q_opts q')) -> link_value fv D gn i l q = link_value fv D gn i l q'.
  Proof. intros Hs. unfold link_value, link_opts. destruct (gl_opts l) eqn:E; [done|]. apply Hresp. by apply Hs. Qed.

  Lemma mapR_mapR {A B C} (f : A -> res B) (h : B -> res C) l l1 l2 : mapR f l = Ok l1 -> mapR h l1 = Ok l2 ->
    mapR (fun x => match f x with Ok y => h y | Err e => Err e end) l = Ok l2.
  Proof.
    intros H1 H2. apply mapR_ok in H1, H2. apply mapR_ok. revert l2 H2. induction H1 as [|x y l l1 Hx _ IH]; intros l2 H2; inversion H2; subst; constructor; [|by apply IH]. by rewrite Hx.
  Qed.
  Lemma resolve_shown q : forall gn i q' q1 q1' p p', real gn -> covered g gn q q' -> clear g gn q -> clear g gn q' ->
    init_item g gn q = Ok q1 -> init_item g gn q' = Ok q1' -> resolve g fv D gn i q1 = Ok p -> resolve g fv D gn i q1' = Ok p' -> shown g gn q q' p.2 p'.2.
  Proof.
    induction q as [nm o a|nm sub ord o a IH] using qitem_ind'; intros gn i q' q1 q1' p p' Hgn Hp Hc Hc' Hi Hi' Hy Hy'.
    - inversion Hp as [? ? ? o' a' Ho| |]; subst. cbn in Hi, Hi'. destruct (find_field gn nm) as [go|] eqn:Ef; [|done].
      assert (exists r r', q1 = QF nm r a /\ q1' = QF nm r' a' /\ same_opts r r') as (r & r' & -> & -> & Hs).
      { pose proof (Hopts gn nm go Hgn Ef) as Hnd. destruct (gi_opts go) as [|d ds]; [injection Hi as <-; injection Hi' as <-; by eexists _, _|].
        destruct (get_options (d :: ds) o) as [r|] eqn:E1; [|done]. destruct (get_options (d :: ds) o') as [r'|] eqn:E2; [|done]. injection Hi as <-. injection Hi' as <-.
        eexists _, _. split; [done|]. split; [done|]. by eapply get_options_same. }
      cbn in Hy, Hy'. rewrite Ef in Hy, Hy'. destruct go as [f|l]; [|done]. injection Hy as <-. injection Hy' as <-. cbn. rewrite (Hfv _ _ _ _ _ Hs). constructor.
    - rewrite Forall_forall in IH.
      assert (exists sub' ord' o' a', q' = QL nm sub' ord' o' a' /\ same_opts o o') as (sub' & ord' & o' & a' & -> & Ho) by (inversion Hp; subst; by eexists _, _, _, _).
      cbn in Hi, Hi'. destruct (find_field gn nm) as [go|] eqn:Ef; [|done].
      destruct (match go with GF _ => Ok sub | GL l => _ end) as [s1|] eqn:E1; [|done]. destruct (match go with GF _ => Ok sub' | GL l => _ end) as [s1'|] eqn:E1'; [|done].
      assert (exists r r', q1 = QL nm s1 ord r a /\ q1' = QL nm s1' ord' r' a' /\ same_opts r r') as (r & r' & -> & -> & Hs).
      { pose proof (Hopts gn nm go Hgn Ef) as Hnd. destruct (gi_opts go) as [|d ds]; [injection Hi as <-; injection Hi' as <-; eexists _, _; repeat split; apply sv_refl|].
        destruct (get_options (d :: ds) o) as [r|] eqn:E3; [|done]. destruct (get_options (d :: ds) o') as [r'|] eqn:E4; [|done]. injection Hi as <-. injection Hi' as <-.
        eexists _, _. split; [done|]. split; [done|]. by eapply get_options_same. }
      clear Hi Hi'. cbn [resolve clear q_name q_opts] in Hy, Hy', Hc, Hc'. rewrite Ef in Hy, Hy', Hc, Hc'. destruct go as [f|l].
      + injection E1 as <-. injection E1' as <-. rewrite <-(Hfv f i nm r r' Hs) in Hy'. destruct (get_type _ _) as [t|]; [|done].
        destruct (denorm_type (QL nm sub ord r a) t _) as [y|] eqn:E1; [|done]. destruct (denorm_type (QL nm sub' ord' r' a') t _) as [y'|] eqn:E2; [|done].
        injection Hy as <-. injection Hy' as <-. cbn. eapply sh_parts; [exact Ef|].
        assert (covered_part (QL nm sub ord o a) (QL nm sub' ord' o' a')) as Hcp. { inversion Hp; subst; [congruence|]. by constructor. }
        assert (denorm_type (QL nm sub ord o a) t (fv f i nm r) = Ok y) as E1' by (by destruct t).
        assert (denorm_type (QL nm sub' ord' o' a') t (fv f i nm r) = Ok y') as E2' by (by destruct t).
        by eapply denorm_type_shown.
      + destruct (find_node g (gl_node l)) as [gn'|] eqn:En; [|done]. destruct Hc as [Hnd Hc]. destruct Hc' as [Hnd' Hc']. rewrite all_in in Hc, Hc'.
        assert (real gn') as Hgn' by (right; by eexists).
        rewrite (link_value_same gn i l (QL nm s1' ord' r' a') (QL nm s1 ord r a)) in Hy' by (intros _; cbn; by apply sv_sym). set (v := link_value _ _ _ _ _ _) in *.
        assert (forall j y y', match mapR (resolve g fv D gn' (Some j)) s1 with Ok ps => Ok (TO (of_pairs ps)) | Err e => Err e end = Ok y ->
          match mapR (resolve g fv D gn' (Some j)) s1' with Ok ps => Ok (TO (of_pairs ps)) | Err e => Err e end = Ok y' ->
          shown g gn (QL nm sub ord o a) (QL nm sub' ord' o' a') y y') as Hobj.
        { clear Hy Hy'. intros j y y' H1 H2. destruct (mapR (resolve g fv D gn' (Some j)) s1) as [ps|] eqn:F1; [|done]. destruct (mapR (resolve g fv D gn' (Some j)) s1') as [ps'|] eqn:F2; [|done].
          injection H1 as <-. injection H2 as <-. pose proof (mapR_mapR _ _ _ _ _ E1 F1) as G1. pose proof (mapR_mapR _ _ _ _ _ E1' F2) as G2.
          match type of G1 with mapR ?f _ = _ => set (F := f) in * end.
          assert (forall q p, F q = Ok p -> p.1 = result_key q) as Hk.
          { intros q p0. unfold F. cbv beta. destruct (init_item g gn' q) as [qi|] eqn:Ei; [|done]. intros Hr. rewrite (resolve_key _ _ _ _ _ _ _ Hr). by apply (init_key g gn' q qi Ei). }
          eapply sh_object; [exact Ef|exact En|intros k Hin; by eapply object_keys|]. intros x x' Hx Hx' Hxx.
          destruct (object_get F result_key sub ps x G1 Hk Hnd Hx) as (z & Hz & Hd). destruct (object_get F result_key sub' ps' x' G2 Hk Hnd' Hx') as (z' & Hz' & Hd').
          exists z, z'. split; [done|]. split; [done|]. unfold F in Hz, Hz'. destruct (init_item g gn' x) as [xi|] eqn:Ex; [|done]. destruct (init_item g gn' x') as [xi'|] eqn:Ex'; [|done].
          exact (IH x Hx gn' (Some j) x' xi xi' _ _ Hgn' Hxx (Hc _ Hx) (Hc' _ Hx') Ex Ex' Hz Hz'). }
        destruct (gl_enum l).
        * destruct (decide (v = VNothing)) as [Hv|Hv]; [rewrite Hv in Hy, Hy'; injection Hy as <-; injection Hy' as <-; constructor|].
          assert (exists y, match mapR (resolve g fv D gn' (Some v)) s1 with Ok ps => Ok (TO (of_pairs ps)) | Err e => Err e end = Ok y /\ p.2 = y) as (y & H1 & ->).
          { destruct v; try done; destruct (mapR _ s1); try done; injection Hy as <-; by eexists. }
          assert (exists y, match mapR (resolve g fv D gn' (Some v)) s1' with Ok ps => Ok (TO (of_pairs ps)) | Err e => Err e end = Ok y /\ p'.2 = y) as (y' & H2 & ->).
          { destruct v; try done; destruct (mapR _ s1'); try done; injection Hy' as <-; by eexists. }
          by eapply Hobj.
        * destruct (match mapR _ s1 with Ok _ => _ | Err _ => _ end) as [y|] eqn:F1; [|done]. destruct (match mapR _ s1' with Ok _ => _ | Err _ => _ end) as [y'|] eqn:F2; [|done].
          injection Hy as <-. injection Hy' as <-. by eapply Hobj.
        * destruct (mapR _ (seq_items v)) as [ys|] eqn:F1; [|done]. match type of Hy' with match match ?m with _ => _ end with _ => _ end = _ => destruct m as [ys'|] eqn:F2; [|done] end.
          injection Hy as <-. injection Hy' as <-. cbn. constructor. eapply list_rel; [exact F1|exact F2|]. intros j y y' _. apply Hobj.
  Qed.
  Lemma resolve_query_shown n n' n1 n1' t t' : clear_query g n -> clear_query g n' -> init_options g n = Ok n1 -> init_options g n' = Ok n1' ->
    resolve_query g fv D n1 = Ok t -> resolve_query g fv D n1' = Ok t' -> shown_query g n n' t t'.
  Proof.
    unfold init_options, resolve_query. intros [Hnd Hc] [Hnd' Hc'] Hi Hi' Ht Ht'.
    destruct (mapR (init_item g (g_root g)) (qfields n)) as [s1|] eqn:E1; [|done]. destruct (mapR (init_item g (g_root g)) (qfields n')) as [s1'|] eqn:E1'; [|done]. injection Hi as <-. injection Hi' as <-. cbn [qfields] in *.
    destruct (mapR _ s1) as [ps|] eqn:F1; [|done]. destruct (mapR _ s1') as [ps'|] eqn:F2; [|done]. injection Ht as <-. injection Ht' as <-.
    pose proof (mapR_mapR _ _ _ _ _ E1 F1) as G1. pose proof (mapR_mapR _ _ _ _ _ E1' F2) as G2. match type of G1 with mapR ?f _ = _ => set (F := f) in * end.
    assert (forall q p, F q = Ok p -> p.1 = result_key q) as Hk.
    { intros q p0. unfold F. cbv beta. destruct (init_item g _ q) as [qi|] eqn:Ei; [|done]. intros Hr. rewrite (resolve_key _ _ _ _ _ _ _ Hr). by apply (init_key g _ q qi Ei). }
    eexists _, _. split; [done|]. split; [done|]. split; [intros k Hin; by eapply object_keys|]. intros x x' Hx Hx' Hxx.
    destruct (object_get F result_key _ ps x G1 Hk Hnd Hx) as (z & Hz & Hd). destruct (object_get F result_key _ ps' x' G2 Hk Hnd' Hx') as (z' & Hz' & Hd').
    exists z, z'. split; [done|]. split; [done|]. unfold F in Hz, Hz'. destruct (init_item g _ x) as [xi|] eqn:Ex; [|done]. destruct (init_item g _ x') as [xi'|] eqn:Ex'; [|done].
    exact (resolve_shown x (g_root g) None x' xi xi' _ _ (or_introl eq_refl) Hxx (Hc _ Hx) (Hc' _ Hx') Ex Ex' Hz Hz').
  Qed.
End resolve.

Lemma field_val_same (E : env) (D : data) k : respects_options D -> reads_by_name E -> forall f i n o o', same_opts o o' -> field_val E D k f i n o = field_val E D k f i n o'.
Proof.
  intros Hresp Hreads f i n o o' Ho. destruct k as [|k]; cbn; unfold plain_value, field_with; destruct (gf_func f) as [m|sg rq pr]; try done; try by apply Hresp.
  destruct (e_sgs E !! sg) as [[G' node]|]; [|done]. destruct i as [j|]; [|done]. destruct (find_node G' node); [|done].
  unfold expr_result. destruct Hreads as [_ Hr]. by rewrite (Hr _ _ _ (given f o) (given f o') (SubJob.given_same f o o' Ho)).
Qed.

(** C62: whatever two accepted queries there are: wherever both ask for the same, both results show the same, whatever the
    keys, the rest of the queries, and the schedules *)
Theorem C62_same_request_same_answer `{Hasher} (E : env) (D : data) (parts : gfield -> bool) (known : gnode -> val -> Prop) (g : graph) (q1 q2 : qnode) k :
  wf_env E parts -> wf_graph E parts g -> distinct_options g ->
  serves_known E D known g -> respects_options D -> reads_by_name E -> no_fuel_exn E ->
  clear_query g q1 -> validate k g q1 = Ok [] -> (forall q0, q0 ∈ qfields q1 -> options_proper q0) -> unchecked_query g q1 -> spelled_out g q1 ->
  clear_query g q2 -> validate k g q2 = Ok [] -> (forall q0, q0 ∈ qfields q2 -> options_proper q0) -> unchecked_query g q2 -> spelled_out g q2 ->
  exists q1' q2', init_options g q1 = Ok q1' /\ init_options g q2 = Ok q2' /\
    ((forall gn, no_collision (asked g q1' gn)) -> typed_values g (known_obj known g) (sub_value E D) q1' ->
     (forall gn, no_collision (asked g q2' gn)) -> typed_values g (known_obj known g) (sub_value E D) q2' ->
     exists t1 t2, shown_query g q1 q2 t1 t2 /\
     (forall fuel sched r, max_work E g q1' < fuel -> execute E fuel g q1 sched r -> exists idx, r = Ok (idx, q1') /\ denormalize g idx q1' = Ok t1) /\
     (forall fuel sched r, max_work E g q2' < fuel -> execute E fuel g q2 sched r -> exists idx, r = Ok (idx, q2') /\ denormalize g idx q2' = Ok t2)).
Proof.
  intros Hwe Hwg Hd Hs Hr Hrd Hnf Hc1 Hv1 Ho1 Hu1 Hsp1 Hc2 Hv2 Ho2 Hu2 Hsp2.
  destruct (C21_validated_query_has_result E D parts known g q1 k) as (q1' & Hi1 & H1); try done.
  destruct (C21_validated_query_has_result E D parts known g q2 k) as (q2' & Hi2 & H2); try done.
  exists q1', q2'. split; [done|]. split; [done|]. intros Hcoll1 Hty1 Hcoll2 Hty2.
  destruct (H1 Hcoll1 Hty1) as (t1 & Ht1 & H1'). destruct (H2 Hcoll2 Hty2) as (t2 & Ht2 & H2').
  exists t1, t2. split; [|done]. eapply (resolve_query_shown g (sub_value E D) D); [done| |done|exact Hc1|exact Hc2|exact Hi1|exact Hi2|exact Ht1|exact Ht2].
  intros. by apply field_val_same.
Qed.

(** ** Merged queries *)
Section vtree_ind.
  Variable P : vtree -> Prop.
  Hypothesis HP : forall p, P (TP p).
  Hypothesis HO : forall d, P (TO d).
  Hypothesis HL : forall l, (forall t, t ∈ l -> P t) -> P (TL l).
  Fixpoint tree_ind (t : vtree) : P t :=
    match t with
    | TP p => HP p
    | TO d => HO d
    | TL l => HL l ((fix go (l : list vtree) : forall t, t ∈ l -> P t :=
        match l with
        | [] => fun t Ht => False_ind _ (not_elem_of_nil t Ht)
        | x :: l' => fun t Ht => match proj1 (elem_of_cons l' t x) Ht with or_introl e => eq_ind_r P (tree_ind x) e | or_intror h => go l' t h end
        end) l)
    end.
End vtree_ind.
Lemma shown_part_within q : forall q' t t', covered_part q q' -> shown_part q q' t t' -> within t t'.
Proof.
  induction q as [nm o a|nm sub ord o a IH] using qitem_ind'; intros q' t; induction t as [p|d|l IHl] using tree_ind; intros t' Hp Hs;
    inversion Hp as [|? ? sub' ? ord' ? o' ? a' Hsub]; subst; inversion Hs as [|? ? l1 l2 Hl|? ? ? ? ? ? ? ? ? d1 d2 Hk Hd]; subst; try constructor.
  - apply Forall2_same_length_lookup. apply Forall2_same_length_lookup in Hl as [Hlen Hl]. split; [done|]. intros i x y Hx Hy. apply IHl; [by eapply elem_of_list_lookup_2|done|by eapply Hl].
  - rewrite Forall_forall in IH. intros k t Ht. destruct (Hk k) as (x & Hx & <-). { apply dget_Some_elem in Ht. apply elem_of_list_fmap. by exists (k, t). }
    destruct (Hsub _ Hx) as (x' & Hx' & Hc). destruct (Hd x x' Hx Hx' Hc) as (v & v' & H1 & H2 & H3). rewrite Ht in H1. injection H1 as <-.
    exists v'. split; [|by eapply IH]. assert (q_name x' = q_name x) as <- by (by inversion Hc). done.
  - apply Forall2_same_length_lookup. apply Forall2_same_length_lookup in Hl as [Hlen Hl]. split; [done|]. intros i x y Hx Hy. apply IHl; [by eapply elem_of_list_lookup_2|done|by eapply Hl].
Qed.
Section kept.
  Context (g : graph).
  Lemma kept_covered q : forall gn q', kept g gn q q' -> covered g gn q q' /\ result_key q = result_key q'.
  Proof.
    induction q as [nm o a|nm sub ord o a IH] using qitem_ind'; intros gn q' Hk; inversion Hk; subst; (split; [|done]).
    - by constructor.
    - rewrite Forall_forall in IH. eapply cv_link; [done..|]. intros x Hx. match goal with h : forall x, x ∈ sub -> _ |- _ => destruct (h x Hx) as (x' & Hx' & Hkx) end.
      exists x'. split; [done|]. by apply IH.
    - by eapply cv_parts.
  Qed.
  Lemma shown_within q : forall gn q' t t', kept g gn q q' -> shown g gn q q' t t' -> within t t'.
  Proof.
    induction q as [nm o a|nm sub ord o a IH] using qitem_ind'; intros gn q' t; induction t as [p|d|l IHl] using tree_ind; intros t' Hp Hs; inversion Hs; subst; try constructor;
      try (inversion Hp; fail); try (by inversion Hp).
    - match goal with h : Forall2 _ _ _ |- _ => rename h into Hl end.
      apply Forall2_same_length_lookup. apply Forall2_same_length_lookup in Hl as [Hlen Hl]. split; [done|]. intros i x y Hx Hy. apply IHl; [by eapply elem_of_list_lookup_2|done|by eapply Hl].
    - eapply shown_part_within; [|done]. inversion Hp; subst; [congruence|by constructor].
    - match goal with hk : forall k, k ∈ map fst d -> _, hd : forall x x', x ∈ sub -> _ |- _ => rename hk into Hk, hd into Hd end.
      rewrite Forall_forall in IH. intros k t Ht. destruct (Hk k) as (x & Hx & <-). { apply dget_Some_elem in Ht. apply elem_of_list_fmap. by exists (k, t). }
      inversion Hp as [|? ? ? ? ? ? ? ? l2 gn2 F1 F2 F3 Hsub|]; subst; [|congruence]. assert (l2 = l) as -> by congruence. assert (gn2 = gn') as -> by congruence.
      destruct (Hsub _ Hx) as (x' & Hx' & Hc). destruct (kept_covered _ _ _ Hc) as [Hcv Hrk]. destruct (Hd x x' Hx Hx' Hcv) as (v & v' & H1 & H2 & H3). rewrite Ht in H1. injection H1 as <-.
      exists v'. split; [|by eapply IH]. by rewrite Hrk.
    - eapply shown_part_within; [|done]. inversion Hp; subst; [congruence|by constructor].
    - match goal with h : Forall2 _ _ _ |- _ => rename h into Hl end.
      apply Forall2_same_length_lookup. apply Forall2_same_length_lookup in Hl as [Hlen Hl]. split; [done|]. intros i x y Hx Hy. apply IHl; [by eapply elem_of_list_lookup_2|done|by eapply Hl].
    - eapply shown_part_within; [|done]. inversion Hp; subst; [congruence|by constructor].
  Qed.
End kept.
Section merged.
  Context `{Hasher} (g : graph).
  Lemma merge_link_in ns q : q ∈ items_of ns -> islink q -> exists f, f ∈ items_of ns /\ islink f /\ merge_key f = merge_key q /\
    copy_node f (merge (subs (merge_key q) (items_of ns))) ∈ qfields (merge ns) /\ nsdepth (subs (merge_key q) (items_of ns)) < nsdepth ns.
  Proof.
    intros Hin Hl. destruct (links_k (merge_key q) (items_of ns)) as [|f fs] eqn:Ef.
    { assert (q ∈ links_k (merge_key q) (items_of ns)) as Hx by by apply elem_of_links_k. rewrite Ef in Hx. by apply not_elem_of_nil in Hx. }
    assert (f ∈ links_k (merge_key q) (items_of ns)) as (Hf & Hfl & Hfk)%elem_of_links_k by (rewrite Ef; left).
    assert (copy_node f (merge (subs (merge_key q) (items_of ns))) ∈ links_k (merge_key q) (mlinks (items_of ns))) as (Hm & _)%elem_of_links_k
      by (rewrite mlinks_k, Ef; left).
    exists f. repeat (split; [done|]). split; [rewrite merge_fields; apply elem_of_app; by right|].
    pose proof (subs_depth (merge_key q) ns (or_intror I)) as Hd. rewrite Ef in Hd. by apply Hd.
  Qed.
  Lemma merge_field_in ns q : q ∈ items_of ns -> ~ islink q -> exists f, f ∈ items_of ns /\ ~ islink f /\ merge_key f = merge_key q /\ f ∈ qfields (merge ns).
  Proof.
    intros Hin Hl. assert (merge_key q ∈ map merge_key (dedupF [] (items_of ns))) as Hk.
    { apply dedupF_keys. split; [apply not_elem_of_nil|]. exists q. split_and!; done. }
    apply elem_of_list_fmap in Hk as (f & Hfk & Hf). pose proof (dedupF_elem _ _ _ Hf) as (Hfi & Hfl & _).
    exists f. split; [done|]. split; [done|]. split; [done|]. rewrite merge_fields. apply elem_of_app. by left.
  Qed.
  Lemma merge_covered_part ns : forall n q, n ∈ ns -> q ∈ qfields n -> exists q', q' ∈ qfields (merge ns) /\ covered_part q q'.
  Proof.
    induction ns as [ns IH] using ns_ind. intros n q Hn Hq.
    assert (q ∈ items_of ns) as Hin by (apply elem_of_items; eauto). destruct q as [nm o a|nm sub ord o a].
    - destruct (merge_field_in ns _ Hin) as (f & Hf & Hfl & Hk & Hm); [done|]. exists f. split; [done|]. destruct f as [n2 o2 a2|]; [|by destruct Hfl].
      unfold merge_key in Hk. cbn in Hk. injection Hk as -> _ _. constructor.
    - destruct (merge_link_in ns _ Hin) as (f & Hf & Hfl & Hk & Hm & Hd); [done|]. eexists. split; [exact Hm|]. destruct f as [|n2 sub2 ord2 o2 a2]; [done|]. cbn [copy_node].
      unfold merge_key in Hk. cbn in Hk. injection Hk as -> _ _. constructor. intros x Hx. eapply (IH _ Hd (QN sub ord)); [|done].
      apply elem_of_list_fmap. exists (QL nm sub ord o a). split; [done|]. by apply elem_of_links_k.
  Qed.
  Lemma merge_kept ns : no_collision (fun q => exists n, n ∈ ns /\ occurs q n) ->
    forall gn n q, n ∈ ns -> q ∈ qfields n -> fits g gn q -> exists q', q' ∈ qfields (merge ns) /\ kept g gn q q'.
  Proof.
    induction ns as [ns IH] using ns_ind. intros Hcoll gn n q Hn Hq Hfit.
    assert (q ∈ items_of ns) as Hin by (apply elem_of_items; eauto).
    assert (forall f, f ∈ items_of ns -> merge_key f = merge_key q -> same_opts (q_opts q) (q_opts f) /\ q_name f = q_name q /\ q_alias f = q_alias q) as Hkey.
    { intros f (m & Hm & Hf)%elem_of_items Hk. unfold merge_key in Hk. injection Hk as K1 K2 K3. split; [|done]. apply Hcoll; [exists n|exists m| |]; [split; [done|by constructor]..|congruence|congruence]. }
    destruct q as [nm o a|nm sub ord o a].
    - destruct (merge_field_in ns _ Hin) as (f & Hf & Hfl & Hk & Hm); [done|]. exists f. split; [done|]. destruct f as [n2 o2 a2|]; [|by destruct Hfl].
      destruct (Hkey _ Hf Hk) as (Hs & Hn2 & Ha2). cbn in Hs, Hn2, Ha2. subst. by constructor.
    - destruct (merge_link_in ns _ Hin) as (f & Hf & Hfl & Hk & Hm & Hd); [done|]. eexists. split; [exact Hm|]. destruct f as [|n2 sub2 ord2 o2 a2]; [done|]. cbn [copy_node].
      destruct (Hkey _ Hf Hk) as (Hs & Hn2 & Ha2). cbn in Hs, Hn2, Ha2. subst.
      assert (QN sub ord ∈ subs (merge_key (QL nm sub ord o a)) (items_of ns)) as Hsub.
      { apply elem_of_list_fmap. exists (QL nm sub ord o a). split; [done|]. by apply elem_of_links_k. }
      cbn [fits] in Hfit. destruct (find_field gn nm) as [[f|l]|] eqn:Ef; [| |done].
      + eapply kp_parts; [exact Ef|done|]. intros x Hx. by eapply merge_covered_part.
      + destruct Hfit as (_ & gn' & En & _ & Hfs). rewrite all_in in Hfs. eapply kp_link; [exact Ef|exact En|done|]. intros x Hx.
        eapply (IH _ Hd); [|exact Hsub|exact Hx|by apply Hfs]. intros x1 x2 (m1 & Hm1 & Ho1) (m2 & Hm2 & Ho2).
        apply elem_of_list_fmap in Hm1 as (f1 & -> & (Hf1 & Hl1 & _)%elem_of_links_k). apply elem_of_list_fmap in Hm2 as (f2 & -> & (Hf2 & Hl2 & _)%elem_of_links_k).
        apply elem_of_items in Hf1 as (k1 & Hk1 & Hf1). apply elem_of_items in Hf2 as (k2 & Hk2 & Hf2).
        apply Hcoll; [exists k1|exists k2]; (split; [done|]); by eapply occ_sub.
  Qed.
End merged.

(** C62: what is merged into a query finds there all that it would have got alone *)
Theorem C62_merged_queries `{Hasher} (E : env) (D : data) (parts : gfield -> bool) (known : gnode -> val -> Prop) (g : graph) (ns : list qnode) (q1 : qnode) k :
  let q2 := merge ns in
  q1 ∈ ns -> no_collision (fun q => exists n, n ∈ ns /\ occurs q n) ->
  wf_env E parts -> wf_graph E parts g -> distinct_options g ->
  serves_known E D known g -> respects_options D -> reads_by_name E -> no_fuel_exn E ->
  clear_query g q1 -> validate k g q1 = Ok [] -> (forall q0, q0 ∈ qfields q1 -> options_proper q0) -> unchecked_query g q1 -> spelled_out g q1 ->
  clear_query g q2 -> validate k g q2 = Ok [] -> (forall q0, q0 ∈ qfields q2 -> options_proper q0) -> unchecked_query g q2 -> spelled_out g q2 ->
  exists q1' q2', init_options g q1 = Ok q1' /\ init_options g q2 = Ok q2' /\
    ((forall gn, no_collision (asked g q1' gn)) -> typed_values g (known_obj known g) (sub_value E D) q1' ->
     (forall gn, no_collision (asked g q2' gn)) -> typed_values g (known_obj known g) (sub_value E D) q2' ->
     exists t1 t2, within t1 t2 /\
     (forall fuel sched r, max_work E g q1' < fuel -> execute E fuel g q1 sched r -> exists idx, r = Ok (idx, q1') /\ denormalize g idx q1' = Ok t1) /\
     (forall fuel sched r, max_work E g q2' < fuel -> execute E fuel g q2 sched r -> exists idx, r = Ok (idx, q2') /\ denormalize g idx q2' = Ok t2)).
Proof.
  intros q2 Hin Hcoll Hwe Hwg Hd Hs Hr Hrd Hnf Hc1 Hv1 Ho1 Hu1 Hsp1 Hc2 Hv2 Ho2 Hu2 Hsp2.
  destruct (C62_same_request_same_answer E D parts known g q1 q2 k) as (q1' & q2' & Hi1 & Hi2 & Hall); try done.
  exists q1', q2'. split; [done|]. split; [done|]. intros H1 H2 H3 H4. destruct (Hall H1 H2 H3 H4) as (t1 & t2 & Hsh & Hex). exists t1, t2. split; [|done].
  pose proof (C21_accepted_query_fits g k q1 Ho1 Hv1) as [_ Hfit]. destruct Hsh as (d & d' & -> & -> & Hk & Hx). constructor. intros kk t Ht.
  destruct (Hk kk) as (x & Hxin & <-). { apply dget_Some_elem in Ht. apply elem_of_list_fmap. by exists (kk, t). }
  destruct (merge_kept g ns Hcoll (g_root g) q1 x Hin Hxin (Hfit _ Hxin)) as (x' & Hx' & Hkp). destruct (kept_covered _ _ _ _ Hkp) as [Hcv Hrk].
  destruct (Hx x x' Hxin Hx' Hcv) as (v & v' & G1 & G2 & G3). rewrite Ht in G1. injection G1 as <-. exists v'. rewrite Hrk. split; [done|]. by eapply shown_within.
Qed.

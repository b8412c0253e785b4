(** C61: asking for more, or in another order, does not change the rest of the result. *)
From Verif Require Import Base Val Types Query QuerySpec QueryProof Graph Queue QueueSpec Result Engine EngineSpec SplitProof CostSpec SubSpec
  PropOptions Validate ValidateSpec PropValidate PropBound PropSub PropSubVal RecordSpec PropRecords PropIntroList PropExprBuild MoreSpec KnownSpec PropKnown SubWfSpec.

Lemma all_in {A} (P : A -> Prop) l : foldr (fun x Q => P x /\ Q) True l <-> forall x, x ∈ l -> P x.
Proof.
  induction l as [|a l IH]; cbn.
  - split; [|done]. intros _ x Hx. by apply elem_of_nil in Hx.
  - rewrite IH. setoid_rewrite elem_of_cons. split; [intros [? ?] x [->|?]; auto|intros Hx; split; auto].
Qed.
Lemma part_result_key q q' : part q q' -> result_key q = result_key q' /\ q_name q = q_name q' /\ q_opts q = q_opts q' /\ q_is_link q = q_is_link q'.
Proof. by intros []. Qed.

(** Objects whose members are computed one by one *)
Lemma object_within (f : qitem -> res (str * vtree)) (key : qitem -> str) sub sub' ps ps' :
  mapR f sub = Ok ps -> mapR f sub' = Ok ps' -> (forall q p, f q = Ok p -> p.1 = key q) -> NoDup (map key sub') ->
  (forall q, q ∈ sub -> exists q', q' ∈ sub' /\ key q = key q' /\ forall p p', f q = Ok p -> f q' = Ok p' -> within p.2 p'.2) ->
  within (TO (of_pairs ps)) (TO (of_pairs ps')).
Proof.
  intros Hm Hm' Hk Hnd Hsub. apply mapR_ok in Hm, Hm'. constructor. intros k t Hd. apply dget_of_pairs_Some in Hd.
  apply elem_of_list_lookup in Hd as [a Ha]. destruct (Forall2_lookup_r _ _ _ _ _ Hm Ha) as (q & Hq & Hf). apply elem_of_list_lookup_2 in Hq.
  destruct (Hsub _ Hq) as (q' & Hq' & Hkk & Hw). apply elem_of_list_lookup in Hq' as [b Hb]. destruct (Forall2_lookup_l _ _ _ _ _ Hm' Hb) as ([k' t'] & Hp' & Hf').
  exists t'. pose proof (Hk _ _ Hf) as H1. pose proof (Hk _ _ Hf') as H2. cbn in H1, H2. split; [|exact (Hw _ _ Hf Hf')].
  assert (k = k') as -> by congruence. apply of_pairs_lookup; [|by eapply elem_of_list_lookup_2].
  assert (map fst ps' = map key sub') as ->; [|done]. clear -Hm' Hk. induction Hm' as [|x y l l' Hx _ IH]; [done|]. cbn. by rewrite (Hk _ _ Hx), IH.
Qed.
Lemma list_within {A} (f f' : A -> res vtree) l ys ys' : mapR f l = Ok ys -> mapR f' l = Ok ys' ->
  (forall x y y', x ∈ l -> f x = Ok y -> f' x = Ok y' -> within y y') -> within (TL ys) (TL ys').
Proof.
  intros Hm Hm' Hw. apply mapR_ok in Hm, Hm'. constructor. revert ys' Hm'. induction Hm as [|x y l ys Hx _ IH]; intros ys' Hm'; inversion Hm'; subst; constructor.
  - eapply Hw; [left|done..].
  - apply IH; [|done]. intros x0 y1 y2 Hin. apply Hw. by right.
Qed.

(** ** Records *)
Lemma denorm_link nm sub ord o a t v : denorm_type (QL nm sub ord o a) t v =
  match t with
  | TSeq t' => match iter_of v with
               | None => Err TypeError
               | Some l => match mapR (denorm_type (QL nm sub ord o a) t') l with Ok ys => Ok (TL ys) | Err e => Err e end
               end
  | TOpt t' => match v with VNone => Ok (TP (PRaw (IVal VNone))) | _ => denorm_type (QL nm sub ord o a) t' v end
  | TRec fs => match mapR (fun f => match dget (q_name f) fs with
                                    | None => Err KeyError
                                    | Some ft => match py_getitem v (q_name f) with
                                                 | Err e => Err e
                                                 | Ok fv => match denorm_type f ft fv with Ok y => Ok (q_name f, y) | Err e => Err e end
                                                 end
                                    end) sub with
               | Ok ps => Ok (TO (of_pairs ps))
               | Err e => Err e
               end
  | _ => Err AssertionError
  end.
Proof. by destruct t. Qed.
Lemma denorm_type_within q : forall q' t v y y', part q q' -> clear_parts q' -> denorm_type q t v = Ok y -> denorm_type q' t v = Ok y' -> within y y'.
Proof.
  induction q as [nm o a|nm sub ord o a IH] using qitem_ind'; intros q' t v y y' Hp Hc Hy Hy'; inversion Hp as [|? ? sub' ? ord' ? ? Hsub]; subst.
  - cbn in Hy, Hy'. injection Hy as <-. injection Hy' as <-. constructor.
  - cbn in Hc. destruct Hc as [Hnd Hc]. rewrite all_in in Hc. rewrite Forall_forall in IH. revert v y y' Hy Hy'.
    induction t as [| | | | |rn|t' IHt|t' IHt|a1 IH1 b1 IH2|fs IHfs|args IHargs] using ty_ind'; intros v y y' Hy Hy'; rewrite denorm_link in Hy, Hy'; try done.
    + destruct (decide (v = VNone)) as [->|Hv]; [injection Hy as <-; injection Hy' as <-; constructor|]. eapply IHt; [destruct v; done|destruct v; done].
    + destruct (iter_of v) as [l|]; [|done]. destruct (mapR _ l) as [ys|] eqn:E1; [|done]. destruct (mapR (denorm_type (QL nm sub' ord' o a) t') l) as [ys'|] eqn:E2; [|done].
      injection Hy as <-. injection Hy' as <-. eapply list_within; [exact E1|exact E2|]. intros x y1 y2 _. apply IHt.
    + destruct (mapR _ sub) as [ps|] eqn:E1; [|done]. destruct (mapR _ sub') as [ps'|] eqn:E2; [|done]. injection Hy as <-. injection Hy' as <-.
      eapply (object_within _ q_name); [exact E1|exact E2| |exact Hnd|].
      * intros q p. cbv beta. destruct (dget (q_name q) fs); [|done]. destruct (py_getitem v (q_name q)); [|done]. destruct (denorm_type q _ _); [|done]. by intros [= <-].
      * intros q Hq. destruct (Hsub _ Hq) as (q' & Hq' & Hpq). exists q'. split; [done|]. apply part_result_key in Hpq as Hpk. destruct Hpk as (_ & Hn & _). split; [done|].
        intros p p'. cbv beta. rewrite <-Hn. destruct (dget (q_name q) fs) as [ft|]; [|done]. destruct (py_getitem v (q_name q)) as [fv|]; [|done].
        destruct (denorm_type q ft fv) as [z|] eqn:Ez; [|done]. destruct (denorm_type q' ft fv) as [z'|] eqn:Ez'; [|done]. intros [= <-] [= <-]. cbn.
        eapply IH; [exact Hq|exact Hpq|by apply Hc|exact Ez|exact Ez'].
Qed.

(** ** Nodes *)
Section resolve.
  Context (g : graph) (fv : gfield -> option val -> str -> opts -> val) (D : data).
  Lemma resolve_key gn i q p : resolve g fv D gn i q = Ok p -> p.1 = result_key q.
  Proof.
    intros Hr. destruct q; cbn in Hr.
    - destruct (find_field _ _) as [[|]|]; try done. by injection Hr as <-.
    - match type of Hr with match ?t with _ => _ end = _ => destruct t; [|done] end. by injection Hr as <-.
  Qed.
  Lemma resolve_within q : forall gn i q' p p', part q q' -> clear g gn q' -> resolve g fv D gn i q = Ok p -> resolve g fv D gn i q' = Ok p' -> within p.2 p'.2.
  Proof.
    induction q as [nm o a|nm sub ord o a IH] using qitem_ind'; intros gn i q' p p' Hp Hc Hy Hy'; inversion Hp as [|? ? sub' ? ord' ? ? Hsub]; subst.
    - cbn in Hy, Hy'. destruct (find_field _ _) as [[|]|]; try done. injection Hy as <-. injection Hy' as <-. constructor.
    - rewrite Forall_forall in IH. cbn [resolve clear q_name q_opts] in Hy, Hy', Hc. destruct (find_field gn nm) as [[f|l]|] eqn:Ef; [| |done].
      + destruct (get_type _ _) as [t|]; [|done]. destruct (denorm_type (QL nm sub ord o a) t _) as [y|] eqn:E1; [|done].
        destruct (denorm_type (QL nm sub' ord' o a) t _) as [y'|] eqn:E2; [|done]. injection Hy as <-. injection Hy' as <-. cbn. by eapply denorm_type_within.
      + destruct (find_node g (gl_node l)) as [gn'|] eqn:En; [|done]. destruct Hc as [Hnd Hc]. rewrite all_in in Hc.
        assert (link_value fv D gn i l (QL nm sub' ord' o a) = link_value fv D gn i l (QL nm sub ord o a)) as Hlv by done. rewrite Hlv in Hy'. clear Hlv.
        set (v := link_value _ _ _ _ _ _) in *.
        assert (forall j y y', match mapR (resolve g fv D gn' (Some j)) sub with Ok ps => Ok (TO (of_pairs ps)) | Err e => Err e end = Ok y ->
          match mapR (resolve g fv D gn' (Some j)) sub' with Ok ps => Ok (TO (of_pairs ps)) | Err e => Err e end = Ok y' -> within y y') as Hobj.
        { clear Hy Hy'. intros j y y' H1 H2. destruct (mapR (resolve g fv D gn' (Some j)) sub) as [ps|] eqn:E1; [|done]. destruct (mapR (resolve g fv D gn' (Some j)) sub') as [ps'|] eqn:E2; [|done]. injection H1 as <-. injection H2 as <-.
          eapply (object_within _ result_key); [exact E1|exact E2|intros q0 p0; apply resolve_key|exact Hnd|].
          intros q0 Hq0. destruct (Hsub _ Hq0) as (q1 & Hq1 & Hpq). exists q1. split; [done|]. split; [by apply part_result_key|].
          intros p0 p1 H1 H2. eapply IH; [exact Hq0|exact Hpq|by apply Hc|exact H1|exact H2]. }
        destruct (gl_enum l).
        * destruct (decide (v = VNothing)) as [Hv|Hv]; [rewrite Hv in Hy, Hy'; injection Hy as <-; injection Hy' as <-; constructor|].
          assert (exists y, match mapR (resolve g fv D gn' (Some v)) sub with Ok ps => Ok (TO (of_pairs ps)) | Err e => Err e end = Ok y /\ p.2 = y) as (y & H1 & ->).
          { destruct v; try done; destruct (mapR _ sub); try done; injection Hy as <-; by eexists. }
          assert (exists y, match mapR (resolve g fv D gn' (Some v)) sub' with Ok ps => Ok (TO (of_pairs ps)) | Err e => Err e end = Ok y /\ p'.2 = y) as (y' & H2 & ->).
          { destruct v; try done; destruct (mapR _ sub'); try done; injection Hy' as <-; by eexists. }
          by eapply Hobj.
        * destruct (match mapR _ sub with Ok _ => _ | Err _ => _ end) as [y|] eqn:E1; [|done]. destruct (match mapR _ sub' with Ok _ => _ | Err _ => _ end) as [y'|] eqn:E2; [|done].
          injection Hy as <-. injection Hy' as <-. by eapply Hobj.
        * destruct (mapR _ (seq_items v)) as [ys|] eqn:E1; [|done]. match type of Hy' with match match ?m with _ => _ end with _ => _ end = _ => destruct m as [ys'|] eqn:E2; [|done] end.
          injection Hy as <-. injection Hy' as <-. cbn. eapply list_within; [exact E1|exact E2|]. intros j y y' _. apply Hobj.
  Qed.
  (** Of the meaning of queries: *)
  Lemma resolve_query_within n n' t t' : part_query n n' -> clear_query g n' -> resolve_query g fv D n = Ok t -> resolve_query g fv D n' = Ok t' -> within t t'.
  Proof.
    unfold resolve_query. intros Hp [Hnd Hc] Ht Ht'. destruct (mapR _ (qfields n)) as [ps|] eqn:E1; [|done]. destruct (mapR _ (qfields n')) as [ps'|] eqn:E2; [|done].
    injection Ht as <-. injection Ht' as <-. eapply (object_within _ result_key); [exact E1|exact E2|intros q0 p0; apply resolve_key|exact Hnd|].
    intros q0 Hq0. destruct (Hp _ Hq0) as (q1 & Hq1 & Hpq). exists q1. split; [done|]. split; [by apply part_result_key|].
    intros p0 p1 H1 H2. eapply resolve_within; [exact Hpq|by apply Hc|exact H1|exact H2].
  Qed.
End resolve.

(** ** Options filled in *)
Lemma mapR_in {A B} (f : A -> res B) l l' x : mapR f l = Ok l' -> x ∈ l -> exists y, f x = Ok y /\ y ∈ l'.
Proof. intros Hm Hx. apply mapR_ok in Hm. apply elem_of_list_lookup in Hx as [k Hk]. destruct (Forall2_lookup_l _ _ _ _ _ Hm Hk) as (y & Hy & Hf). exists y. split; [done|]. by eapply elem_of_list_lookup_2. Qed.
Lemma mapR_from {A B} (f : A -> res B) l l' y : mapR f l = Ok l' -> y ∈ l' -> exists x, f x = Ok y /\ x ∈ l.
Proof. intros Hm Hx. apply mapR_ok in Hm. apply elem_of_list_lookup in Hx as [k Hk]. destruct (Forall2_lookup_r _ _ _ _ _ Hm Hk) as (x & Hy & Hf). exists x. split; [done|]. by eapply elem_of_list_lookup_2. Qed.
Section init.
  Context (g : graph).
  Lemma init_key gn q q1 : init_item g gn q = Ok q1 -> result_key q1 = result_key q /\ q_name q1 = q_name q /\ q_is_link q1 = q_is_link q.
  Proof.
    destruct q as [nm o a|nm sub ord o a]; cbn; destruct (find_field gn nm) as [go|]; try done.
    - destruct (gi_opts go) as [|d ds]; [by intros [= <-]|]. destruct (get_options _ _); [|done]. by intros [= <-].
    - match goal with |- match ?t with _ => _ end = _ -> _ => destruct t; [|done] end. destruct (gi_opts go) as [|d ds]; [by intros [= <-]|]. destruct (get_options _ _); [|done]. by intros [= <-].
  Qed.
  Lemma init_part q : forall gn q' q1 q1', part q q' -> init_item g gn q = Ok q1 -> init_item g gn q' = Ok q1' -> part q1 q1'.
  Proof.
    induction q as [nm o a|nm sub ord o a IH] using qitem_ind'; intros gn q' q1 q1' Hp H1 H2; inversion Hp as [|? ? sub' ? ord' ? ? Hsub]; subst.
    - rewrite H1 in H2. injection H2 as <-. cbn in H1. destruct (find_field gn nm) as [go|]; [|done].
      destruct (gi_opts go) as [|d ds]; [injection H1 as <-; constructor|]. destruct (get_options _ _); [|done]. injection H1 as <-. constructor.
    - rewrite Forall_forall in IH. cbn in H1, H2. destruct (find_field gn nm) as [go|]; [|done].
      destruct (match go with GF _ => Ok sub | GL l => _ end) as [s1|] eqn:E1; [|done]. destruct (match go with GF _ => Ok sub' | GL l => _ end) as [s2|] eqn:E2; [|done].
      assert (forall q, q ∈ s1 -> exists q', q' ∈ s2 /\ part q q') as Hs.
      { destruct go as [f|l]; [injection E1 as <-; injection E2 as <-; exact Hsub|]. destruct (find_node g (gl_node l)) as [gn'|]; [|done].
        intros q Hq. destruct (mapR_from _ _ _ _ E1 Hq) as (q0 & Hq0 & Hin). destruct (Hsub _ Hin) as (q0' & Hin' & Hpq). destruct (mapR_in _ _ _ _ E2 Hin') as (q' & Hq' & Hin2).
        exists q'. split; [done|]. eapply IH; [exact Hin|exact Hpq|exact Hq0|exact Hq']. }
      destruct (gi_opts go) as [|d ds]; [injection H1 as <-; injection H2 as <-; by constructor|]. destruct (get_options _ _); [|done]. injection H1 as <-. injection H2 as <-. by constructor.
  Qed.
  Lemma init_clear q : forall gn q1, clear g gn q -> init_item g gn q = Ok q1 -> clear g gn q1.
  Proof.
    induction q as [nm o a|nm sub ord o a IH] using qitem_ind'; intros gn q1 Hc H1.
    - cbn in H1. destruct (find_field gn nm) as [go|]; [|done]. destruct (gi_opts go) as [|d ds]; [by injection H1 as <-|]. destruct (get_options _ _); [|done]. by injection H1 as <-.
    - rewrite Forall_forall in IH. cbn in H1, Hc. destruct (find_field gn nm) as [go|] eqn:Ef; [|done].
      destruct (match go with GF _ => Ok sub | GL l => _ end) as [s1|] eqn:E1; [|done].
      assert (exists o', q1 = QL nm s1 ord o' a) as [o' ->]. { destruct (gi_opts go) as [|d ds]; [injection H1 as <-; by eexists|]. destruct (get_options _ _); [|done]. injection H1 as <-. by eexists. }
      cbn. rewrite Ef. destruct go as [f|l]; [by injection E1 as <-|]. destruct (find_node g (gl_node l)) as [gn'|]; [|done]. destruct Hc as [Hnd Hc]. rewrite all_in in Hc. split.
      + assert (map result_key s1 = map result_key sub) as ->; [|done]. apply mapR_ok in E1. clear -E1. induction E1 as [|x y l l' Hx _ IH]; [done|]. cbn. rewrite IH. f_equal. by apply (init_key _ _ _ Hx).
      + apply all_in. intros q Hq. destruct (mapR_from _ _ _ _ E1 Hq) as (q0 & Hq0 & Hin). eapply IH; [exact Hin|by apply Hc|exact Hq0].
  Qed.
  Lemma init_query n n' n1 n1' : part_query n n' -> clear_query g n' -> init_options g n = Ok n1 -> init_options g n' = Ok n1' -> part_query n1 n1' /\ clear_query g n1'.
  Proof.
    unfold init_options. intros Hp [Hnd Hc] H1 H2. destruct (mapR _ (qfields n)) as [s1|] eqn:E1; [|done]. destruct (mapR _ (qfields n')) as [s2|] eqn:E2; [|done].
    injection H1 as <-. injection H2 as <-. split; [|split].
    - intros q Hq. destruct (mapR_from _ _ _ _ E1 Hq) as (q0 & Hq0 & Hin). destruct (Hp _ Hin) as (q0' & Hin' & Hpq). destruct (mapR_in _ _ _ _ E2 Hin') as (q' & Hq' & Hin2).
      exists q'. split; [done|]. by eapply init_part.
    - cbn. assert (map result_key s2 = map result_key (qfields n')) as ->; [|done]. apply mapR_ok in E2. clear -E2. induction E2 as [|x y l l' Hx _ IH]; [done|]. cbn. rewrite IH. f_equal. by apply (init_key _ _ _ Hx).
    - intros q Hq. destruct (mapR_from _ _ _ _ E2 Hq) as (q0 & Hq0 & Hin). eapply init_clear; [by apply Hc|exact Hq0].
  Qed.
End init.

(** ** The conditions on queries carry over to those which ask for less *)
Section less.
  Context (g : graph).
  Lemma part_visited n n' gn m : part_query n n' -> visited g n gn m -> exists m', visited g n' gn m' /\ part_query m m'.
  Proof.
    intros Hp Hv. induction Hv as [|gn m q l gn' Hv IH Hq Hk Hf Hn].
    - exists n'. split; [constructor|done].
    - destruct IH as (m' & Hv' & Hpm). destruct (Hpm _ Hq) as (q' & Hq' & Hpq). inversion Hpq as [|nm sub sub' ord ord' o a Hsub]; subst; [done|].
      exists (QN sub' ord'). split; [|exact Hsub]. by apply (vis_link g n' gn m' (QL nm sub' ord' o a) l gn').
  Qed.
  Lemma part_unambiguous sub sub' : (forall q, q ∈ sub -> exists q', q' ∈ sub' /\ part q q') -> unambiguous sub' -> unambiguous sub.
  Proof.
    intros Hs Hu a b Ha Hb Hk. destruct (Hs _ Ha) as (a' & Ha' & Hpa). destruct (Hs _ Hb) as (b' & Hb' & Hpb).
    destruct (part_result_key _ _ Hpa) as (K1 & N1 & O1 & _). destruct (part_result_key _ _ Hpb) as (K2 & N2 & O2 & _).
    rewrite N1, O1, N2, O2. apply Hu; [done|done|congruence].
  Qed.
  Lemma part_proper q : forall q', part q q' -> options_proper q' -> options_proper q.
  Proof.
    induction q as [nm o a|nm sub ord o a IH] using qitem_ind'; intros q' Hp Ho; inversion Hp as [|? ? sub' ? ord' ? ? Hsub]; subst; [done|].
    rewrite Forall_forall in IH. cbn in Ho |- *. destruct Ho as [Ho Hs]. split; [exact Ho|]. rewrite all_in in Hs |- *.
    intros q Hq. destruct (Hsub _ Hq) as (q1 & Hq1 & Hpq). eapply IH; [exact Hq|exact Hpq|by apply Hs].
  Qed.
  Lemma part_fits_part dt q : forall q' fs, part q q' -> fits_part dt fs q' -> fits_part dt fs q.
  Proof.
    induction q as [nm o a|nm sub ord o a IH] using qitem_ind'; intros q' fs Hp Ho; inversion Hp as [|? ? sub' ? ord' ? ? Hsub]; subst; [done|].
    rewrite Forall_forall in IH. cbn [fits_part] in Ho |- *. destruct Ho as (t & fs' & Ht & Hh & Hs). exists t, fs'. split; [done|]. split; [done|]. rewrite all_in in Hs |- *.
    intros q Hq. destruct (Hsub _ Hq) as (q1 & Hq1 & Hpq). eapply IH; [exact Hq|exact Hpq|by apply Hs].
  Qed.
  Lemma part_fits q : forall q' gn, part q q' -> fits g gn q' -> fits g gn q.
  Proof.
    induction q as [nm o a|nm sub ord o a IH] using qitem_ind'; intros q' gn Hp Ho; inversion Hp as [|? ? sub' ? ord' ? ? Hsub]; subst; [done|].
    rewrite Forall_forall in IH. cbn [fits] in Ho |- *. destruct (find_field gn nm) as [[f|l]|]; [| |done].
    - destruct Ho as (Ho & t & fs & Ht & Hh & Hs). split; [done|]. exists t, fs. split; [done|]. split; [done|]. rewrite all_in in Hs |- *.
      intros q Hq. destruct (Hsub _ Hq) as (q1 & Hq1 & Hpq). eapply part_fits_part; [exact Hpq|by apply Hs].
    - destruct Ho as (Ho & gn' & Hn & Hu & Hs). split; [done|]. exists gn'. split; [done|]. split; [by eapply part_unambiguous|]. rewrite all_in in Hs |- *.
      intros q Hq. destruct (Hsub _ Hq) as (q1 & Hq1 & Hpq). eapply IH; [exact Hq|exact Hpq|by apply Hs].
  Qed.
  Lemma part_fits_query n n' : part_query n n' -> fits_query g n' -> fits_query g n.
  Proof.
    intros Hp [Hu Hs]. split; [by eapply part_unambiguous|]. intros q Hq. destruct (Hp _ Hq) as (q1 & Hq1 & Hpq). eapply part_fits; [exact Hpq|by apply Hs].
  Qed.
  Lemma part_spelled_part q : forall q' fs, part q q' -> spelled_part fs q' -> spelled_part fs q.
  Proof.
    induction q as [nm o a|nm sub ord o a IH] using qitem_ind'; intros q' fs Hp Ho; inversion Hp as [|? ? sub' ? ord' ? ? Hsub]; subst; [done|].
    rewrite Forall_forall in IH. cbn [spelled_part] in Ho |- *. destruct (dget nm fs) as [t|]; [|done]. destruct (records_of t) as [fs'|]; [|done]. rewrite all_in in Ho |- *.
    intros q Hq. destruct (Hsub _ Hq) as (q1 & Hq1 & Hpq). eapply IH; [exact Hq|exact Hpq|by apply Ho].
  Qed.
  Lemma part_spelled n n' : part_query n n' -> spelled_out g n' -> spelled_out g n.
  Proof.
    intros Hp Hs gn m q f Hv Hq Hl Hf. destruct (part_visited _ _ _ _ Hp Hv) as (m' & Hv' & Hpm). destruct (Hpm _ Hq) as (q' & Hq' & Hpq).
    inversion Hpq as [|nm sub sub' ord ord' o a Hsub]; subst; [done|]. destruct (Hs gn m' _ f Hv' Hq' eq_refl Hf) as (t & fs & Ht & Hr & Hall). exists t, fs. split; [done|]. split; [done|].
    cbn [qfields q_node] in *. intros q Hq0. destruct (Hsub _ Hq0) as (q1 & Hq1 & Hpq1). eapply part_spelled_part; [exact Hpq1|by apply Hall].
  Qed.
  Lemma part_typed ob fv n n' : part_query n n' -> typed_values g ob fv n' -> typed_values g ob fv n.
  Proof.
    intros Hp Hs gn m q f t i Hv Hob Hq Hl Hf Ht. destruct (part_visited _ _ _ _ Hp Hv) as (m' & Hv' & Hpm). destruct (Hpm _ Hq) as (q' & Hq' & Hpq).
    destruct (part_result_key _ _ Hpq) as (_ & N1 & O1 & L1). rewrite N1, O1. apply (Hs gn m' q' f t i); congruence.
  Qed.
  Lemma part_no_collision `{Hasher} n n' : part_query n n' -> (forall gn, no_collision (asked g n' gn)) -> forall gn, no_collision (asked g n gn).
  Proof.
    intros Hp Hc gn. assert (forall q, asked g n gn q -> exists q', asked g n' gn q' /\ q_name q = q_name q' /\ q_opts q = q_opts q') as Ha.
    { intros q (m & Hv & Hq). destruct (part_visited _ _ _ _ Hp Hv) as (m' & Hv' & Hpm). destruct Hq as [Hq|(q0 & l & r & Hq & Hl & Hf & Hr & ->)].
      - destruct (Hpm _ Hq) as (q' & Hq' & Hpq). destruct (part_result_key _ _ Hpq) as (_ & N1 & O1 & L1). exists q'. split; [|done]. exists m'. split; [done|by left].
      - destruct (Hpm _ Hq) as (q' & Hq' & Hpq). destruct (part_result_key _ _ Hpq) as (_ & N1 & O1 & L1). exists (QF r None None). split; [|done].
        exists m'. split; [done|]. right. exists q', l, r. repeat split; congruence. }
    intros a b H1 H2 Hn Ho. destruct (Ha _ H1) as (a' & H1' & N1 & O1). destruct (Ha _ H2) as (b' & H2' & N2 & O2). rewrite O1, O2. apply (Hc gn a' b'); congruence.
  Qed.
End less.

(** ** C61 *)
(** Who asks for less of an accepted query, is accepted *)
Theorem C61_less_is_accepted (g : graph) (q1 q2 : qnode) k :
  part_query q1 q2 -> (forall q0, q0 ∈ qfields q2 -> options_proper q0) -> validate k g q2 = Ok [] ->
  exists n, forall k', n <= k' -> validate k' g q1 = Ok [].
Proof.
  intros Hp Ho Hv. apply C21_fitting_query_accepted.
  - intros q Hq. destruct (Hp _ Hq) as (q' & Hq' & Hpq). eapply part_proper; [exact Hpq|by apply Ho].
  - eapply part_fits_query; [exact Hp|]. by eapply C21_accepted_query_fits.
Qed.

(** Of two queries, of which the second asks for all that the first does, and perhaps for more, in whatever order: whatever
    the schedules, both executions give results, and all that the first result holds is in the second one, at the same place *)
Theorem C61_asking_for_more `{Hasher} (E : env) (D : data) (parts : gfield -> bool) (known : gnode -> val -> Prop) (g : graph) (q1 q2 : qnode) k :
  wf_env E parts -> wf_graph E parts g -> distinct_options g ->
  serves_known E D known g -> respects_options D -> reads_by_name E -> no_fuel_exn E ->
  part_query q1 q2 -> clear_query g q2 ->
  validate k g q2 = Ok [] -> (forall q0, q0 ∈ qfields q2 -> options_proper q0) -> unchecked_query g q1 -> unchecked_query g q2 -> spelled_out g q2 ->
  exists q1' q2', init_options g q1 = Ok q1' /\ init_options g q2 = Ok q2' /\
    ((forall gn, no_collision (asked g q2' gn)) -> typed_values g (known_obj known g) (sub_value E D) q2' ->
     exists t1 t2, within t1 t2 /\
     (forall fuel sched r, max_work E g q1' < fuel -> execute E fuel g q1 sched r -> exists idx, r = Ok (idx, q1') /\ denormalize g idx q1' = Ok t1) /\
     (forall fuel sched r, max_work E g q2' < fuel -> execute E fuel g q2 sched r -> exists idx, r = Ok (idx, q2') /\ denormalize g idx q2' = Ok t2)).
Proof.
  intros Hwe Hwg Hd Hs Hr Hrd Hnf Hp Hc Hv Ho Hu1 Hu2 Hsp.
  destruct (C61_less_is_accepted g q1 q2 k Hp Ho Hv) as [k1 Hv1]. specialize (Hv1 k1 (le_n _)).
  assert (forall q0, q0 ∈ qfields q1 -> options_proper q0) as Ho1. { intros q Hq. destruct (Hp _ Hq) as (q' & Hq' & Hpq). eapply part_proper; [exact Hpq|by apply Ho]. }
  pose proof (part_spelled g _ _ Hp Hsp) as Hsp1.
  destruct (C21_validated_query_has_result E D parts known g q1 k1) as (q1' & Hi1 & H1); try done.
  destruct (C21_validated_query_has_result E D parts known g q2 k) as (q2' & Hi2 & H2); try done.
  exists q1', q2'. split; [done|]. split; [done|]. intros Hcoll Hty.
  destruct (init_query g q1 q2 q1' q2' Hp Hc Hi1 Hi2) as [Hp' Hc'].
  destruct H1 as (t1 & Ht1 & H1); [by eapply part_no_collision|by eapply part_typed|]. destruct H2 as (t2 & Ht2 & H2); [done..|].
  exists t1, t2. split; [|done]. by eapply resolve_query_within.
Qed.

(** Queries which ask for the same in different orders: results which hold the same at the same places *)
Theorem C61_order_does_not_matter `{Hasher} (E : env) (D : data) (parts : gfield -> bool) (known : gnode -> val -> Prop) (g : graph) (q1 q2 : qnode) k :
  wf_env E parts -> wf_graph E parts g -> distinct_options g ->
  serves_known E D known g -> respects_options D -> reads_by_name E -> no_fuel_exn E ->
  part_query q1 q2 -> part_query q2 q1 -> clear_query g q1 -> clear_query g q2 ->
  validate k g q2 = Ok [] -> (forall q0, q0 ∈ qfields q2 -> options_proper q0) -> unchecked_query g q1 -> unchecked_query g q2 -> spelled_out g q2 ->
  exists q1' q2', init_options g q1 = Ok q1' /\ init_options g q2 = Ok q2' /\
    ((forall gn, no_collision (asked g q2' gn)) -> typed_values g (known_obj known g) (sub_value E D) q2' ->
     exists t1 t2, within t1 t2 /\ within t2 t1 /\
     (forall fuel sched r, max_work E g q1' < fuel -> execute E fuel g q1 sched r -> exists idx, r = Ok (idx, q1') /\ denormalize g idx q1' = Ok t1) /\
     (forall fuel sched r, max_work E g q2' < fuel -> execute E fuel g q2 sched r -> exists idx, r = Ok (idx, q2') /\ denormalize g idx q2' = Ok t2)).
Proof.
  intros Hwe Hwg Hd Hs Hr Hrd Hnf Hp Hp2 Hc1 Hc Hv Ho Hu1 Hu2 Hsp.
  destruct (C61_less_is_accepted g q1 q2 k Hp Ho Hv) as [k1 Hv1]. specialize (Hv1 k1 (le_n _)).
  assert (forall q0, q0 ∈ qfields q1 -> options_proper q0) as Ho1. { intros q Hq. destruct (Hp _ Hq) as (q' & Hq' & Hpq). eapply part_proper; [exact Hpq|by apply Ho]. }
  pose proof (part_spelled g _ _ Hp Hsp) as Hsp1.
  destruct (C21_validated_query_has_result E D parts known g q1 k1) as (q1' & Hi1 & H1); try done.
  destruct (C21_validated_query_has_result E D parts known g q2 k) as (q2' & Hi2 & H2); try done.
  exists q1', q2'. split; [done|]. split; [done|]. intros Hcoll Hty.
  destruct (init_query g q1 q2 q1' q2' Hp Hc Hi1 Hi2) as [Hp' Hc']. destruct (init_query g q2 q1 q2' q1' Hp2 Hc1 Hi2 Hi1) as [Hp2' Hc2'].
  destruct H1 as (t1 & Ht1 & H1); [by eapply part_no_collision|by eapply part_typed|]. destruct H2 as (t2 & Ht2 & H2); [done..|].
  exists t1, t2. split; [exact (resolve_query_within _ _ _ _ _ _ _ Hp' Hc' Ht1 Ht2)|]. split; [exact (resolve_query_within _ _ _ _ _ _ _ Hp2' Hc2' Ht2 Ht1)|done].
Qed.

(** C40: the value of a field defined by an expression over a sub-graph (hiku/sources/graph.py, hiku/engine.py). *)
From stdpp Require Import relations.
From Verif Require Import Base Val Query QuerySpec QueryProof Graph Queue QueueSpec QueueProof Result Engine EngineSpec SplitProof BatchProof EngineDisc CostSpec SubSpec SubJob EngineSub EngineSubRun PropTrace PropBound SubPathSpec PropSub.

Lemma mapR_in {A B} (f : A -> res B) l ys x : mapR f l = Ok ys -> x ∈ l -> exists y, f x = Ok y /\ y ∈ ys.
Proof.
  revert ys; induction l as [|a l IH]; intros ys Hm Hx; [by apply not_elem_of_nil in Hx|]. cbn in Hm.
  destruct (f a) as [b|] eqn:Ea; [|done]. destruct (mapR f l) as [bs|] eqn:El; [|done]. injection Hm as <-.
  apply elem_of_cons in Hx as [->|Hx]; [exists b; split; [done|left]|]. destruct (IH bs eq_refl Hx) as (y & Hy & Hin). exists y. split; [done|by right].
Qed.
Lemma mapR_keys {B} (f : qitem -> res (str * B)) l ys :
  (forall q, q ∈ l -> forall y, f q = Ok y -> y.1 = result_key q) -> mapR f l = Ok ys -> dkeys ys = map result_key l.
Proof.
  revert ys; induction l as [|a l IH]; intros ys Hk Hm; cbn in Hm; [by injection Hm as <-|].
  destruct (f a) as [b|] eqn:Ea; [|done]. destruct (mapR f l) as [bs|] eqn:El; [|done]. injection Hm as <-. cbn.
  unfold dkeys in IH. rewrite (IH bs); [|intros; eapply Hk; [by right|done]|done]. by rewrite (Hk a ltac:(left) b Ea).
Qed.
Lemma mapR_lookup {A B} (f : A -> res B) l ys m x : mapR f l = Ok ys -> l !! m = Some x -> exists y, f x = Ok y /\ ys !! m = Some y.
Proof.
  revert ys m; induction l as [|a l IH]; intros ys m Hm Hx; [done|]. cbn in Hm.
  destruct (f a) as [b|] eqn:Ea; [|done]. destruct (mapR f l) as [bs|] eqn:El; [|done]. injection Hm as <-.
  destruct m as [|m]; cbn in Hx |- *; [injection Hx as ->; eauto|]. by apply IH.
Qed.

Section path.
  Context `{Hasher} (E : env) (J : job) (fv : gfield -> option val -> str -> opts -> val) (D : data).
  Notation g := (j_graph J).
  Hypothesis Hsup : jsupported E J.

  Lemma resolve_key gn i q y : resolve g fv D gn i q = Ok y -> y.1 = result_key q.
  Proof. intros Hr. destruct q; cbn in Hr; match type of Hr with match ?t with _ => _ end = _ => destruct t end; by simplify_eq. Qed.

  Lemma resolve_at gn i n ps q y : jvisited J gn n -> mapR (resolve g fv D gn i) (qfields n) = Ok ps -> q ∈ qfields n ->
    resolve g fv D gn i q = Ok y -> dget (result_key q) (of_pairs ps) = Some y.2.
  Proof.
    intros Hv Hm Hq Hy.
    assert (dkeys ps = map result_key (qfields n)) as Hk by (eapply mapR_keys; [|exact Hm]; intros q1 _ y1; apply resolve_key).
    pose proof (js_keys _ _ Hsup _ _ Hv) as Hnd.
    rewrite of_pairs_NoDup by by rewrite Hk. apply dget_NoDup; [by rewrite Hk|].
    destruct (mapR_in _ _ _ _ Hm Hq) as (y' & Hy' & Hin). rewrite Hy in Hy'. injection Hy' as <-.
    by rewrite <-(resolve_key _ _ _ _ Hy), <-surjective_pairing.
  Qed.

  Lemma resolve_leads gn i n p gn' j n' : leads g fv D gn i n p gn' j n' ->
    jvisited J gn n -> forall ps, mapR (resolve g fv D gn i) (qfields n) = Ok ps ->
    jvisited J gn' n' /\ exists ps', mapR (resolve g fv D gn' j) (qfields n') = Ok ps' /\
      forall k, vget (TO (of_pairs ps)) (p ++ k) = vget (TO (of_pairs ps')) k.
  Proof.
    induction 1 as [gn i n|gn i n nm sub ord o a l gn1 p gn' j n' Hq Hf Hn He Hne Hl IH|gn i n nm sub ord o a l gn1 m k p gn' j n' Hq Hf Hn He Hk Hl IH]; intros Hv ps Hps.
    - split; [done|]. exists ps. done.
    - set (q := QL nm sub ord o a) in *.
      assert (jvisited J gn1 (QN sub ord)) as Hv1 by by apply (jv_link J gn n q l gn1).
      destruct (mapR_in _ _ _ _ Hps Hq) as (y & Hy & _).
      pose proof (resolve_at _ _ _ _ _ _ Hv Hps Hq Hy) as Hg.
      cbn in Hy. rewrite Hf, Hn in Hy. fold q in Hy. set (v := link_value fv D gn i l q) in *.
      assert (exists ps1, mapR (resolve g fv D gn1 (Some v)) sub = Ok ps1 /\ y.2 = TO (of_pairs ps1)) as (ps1 & Hp1 & Hy2).
      { destruct (gl_enum l) eqn:Een; [| |done].
        - destruct v eqn:Ev; try done; (destruct (mapR _ sub) as [ps1|]; [|done]; injection Hy as <-; eauto).
        - destruct (mapR _ sub) as [ps1|]; [|done]. injection Hy as <-. eauto. }
      destruct (IH Hv1 ps1 Hp1) as (Hv' & ps' & Hps' & Hget). split; [done|]. exists ps'. split; [done|]. intros k. cbn [app vget].
      rewrite Hg, Hy2. apply Hget.
    - set (q := QL nm sub ord o a) in *.
      assert (jvisited J gn1 (QN sub ord)) as Hv1 by by apply (jv_link J gn n q l gn1).
      destruct (mapR_in _ _ _ _ Hps Hq) as (y & Hy & _).
      pose proof (resolve_at _ _ _ _ _ _ Hv Hps Hq Hy) as Hg.
      cbn in Hy. rewrite Hf, Hn, He in Hy. fold q in Hy. set (v := link_value fv D gn i l q) in *.
      destruct (mapR _ (seq_items v)) as [ys|] eqn:Ey; [|done]. injection Hy as <-. cbn [snd] in Hg.
      destruct (mapR_lookup _ _ _ _ _ Ey Hk) as (y1 & Hy1 & Hl1).
      destruct (mapR (resolve g fv D gn1 (Some k)) sub) as [ps1|] eqn:Ep1; [|done]. injection Hy1 as <-.
      destruct (IH Hv1 ps1 Ep1) as (Hv' & ps' & Hps' & Hget). split; [done|]. exists ps'. split; [done|]. intros k0. cbn [app vget].
      rewrite Hg, Hl1. apply Hget.
  Qed.

  Lemma resolve_field gn i n p gn' j n' ps nm o a f : leads g fv D gn i n p gn' j n' ->
    jvisited J gn n -> mapR (resolve g fv D gn i) (qfields n) = Ok ps -> QF nm o a ∈ qfields n' -> find_field gn' nm = Some (GF f) ->
    vget (TO (of_pairs ps)) (p ++ [PKey (result_key (QF nm o a))]) = Some (TP (PRaw (IVal (fv f j nm o)))).
  Proof.
    intros Hl Hv Hps Hq Hf. destruct (resolve_leads _ _ _ _ _ _ _ Hl Hv _ Hps) as (Hv' & ps' & Hps' & ->). cbn [vget].
    assert (resolve g fv D gn' j (QF nm o a) = Ok (result_key (QF nm o a), TP (PRaw (IVal (fv f j nm o))))) as Hr by (cbn; by rewrite Hf).
    by rewrite (resolve_at _ _ _ _ _ _ Hv' Hps' Hq Hr).
  Qed.
End path.

Section thms.
  Context `{Hasher} (E : env) (D : data) (g : graph).
  Hypothesis Hresp : respects_options D.
  Hypothesis Hreads : reads_by_name E.
  Hypothesis Hserve : serves E D.
  Notation fv := (sub_value E D).
  Notation low := (field_val E D (pred (length (e_sgs E)))).

  (** C40: in the result of every execution, at the place of an object [j], the value of a field defined by an
      expression is what the expression gives for [j] over its own requirements and options. *)
  Theorem C40_value q q' fuel sched idx q2 t p gn j n nm o a f sg rq pr G node gn' :
    init_options g q = Ok q' -> all_supported E g q' -> all_data E D g q' ->
    execute E fuel g q sched (Ok (idx, q2)) -> denormalize g idx q2 = Ok t ->
    leads g fv D (g_root g) None q' p gn (Some j) n -> QF nm o a ∈ qfields n ->
    find_field gn nm = Some (GF f) -> gf_func f = FChecked sg rq pr -> e_sgs E !! sg = Some (G, node) -> find_node G node = Some gn' ->
    exists v, expr_result E D low G gn' rq pr j (given f o) = Ok v /\
      vget t (p ++ [PKey (result_key (QF nm o a))]) = Some (TP (PRaw (IVal v))).
  Proof.
    intros Hi Hs Hd He Ht Hl Hq Hf Hfn Hsg Hn.
    destruct (C04_result E D g q q' Hi Hresp Hreads Hserve Hs Hd _ _ _ _ He) as [-> Hdn]. rewrite Hdn in Ht.
    unfold resolve_query in Ht. destruct (mapR _ (qfields q')) as [ps|] eqn:Eps; [|done]. injection Ht as <-.
    set (J := top_job E g q'). assert (jsupported E J) as HsJ by (apply Hs; constructor).
    pose proof (resolve_leads E J fv D HsJ _ _ _ _ _ _ _ Hl (jv_root J) _ Eps) as (Hv & _).
    assert (jasked J gn (QF nm o a)) as Ha by (exists n; split; [done|by left]).
    assert (jdata E D J) as HdJ by (apply Hd; constructor).
    destruct (jd_exprs _ _ _ HdJ _ _ _ _ _ _ _ _ _ j Ha Hf Hfn Hsg Hn) as (v & Hv'). exists v. cbn in Hv'. split; [done|].
    rewrite (resolve_field E J fv D HsJ _ _ _ _ _ _ _ _ _ _ _ _ Hl (jv_root J) Eps Hq Hf).
    pose proof (js_items _ _ HsJ _ _ _ Hv Hq) as Hit. cbn in Hit. rewrite Hf in Hit. destruct Hit as [Hok _]. unfold field_ok in Hok. rewrite Hfn in Hok.
    destruct Hok as (_ & Hpos & _). cbn in Hpos. unfold sub_value. destruct (length (e_sgs E)) as [|k] eqn:Ek; [lia|]. cbn [field_val].
    unfold field_with. rewrite Hfn, Hsg, Hn. cbn in Hv'. by rewrite Hv'.
  Qed.

  (** C40: this does not depend on what else is requested: two queries which ask the same field of the same object,
      with the same values for its declared options, get the same value. *)
  Theorem C40_independent q1 q1' q2 q2' fuel1 sched1 idx1 r1 t1 p1 n1 fuel2 sched2 idx2 r2 t2 p2 n2 gn j nm o1 a1 o2 a2 f sg rq pr G node gn' :
    init_options g q1 = Ok q1' -> all_supported E g q1' -> all_data E D g q1' ->
    init_options g q2 = Ok q2' -> all_supported E g q2' -> all_data E D g q2' ->
    execute E fuel1 g q1 sched1 (Ok (idx1, r1)) -> denormalize g idx1 r1 = Ok t1 ->
    execute E fuel2 g q2 sched2 (Ok (idx2, r2)) -> denormalize g idx2 r2 = Ok t2 ->
    leads g fv D (g_root g) None q1' p1 gn (Some j) n1 -> QF nm o1 a1 ∈ qfields n1 ->
    leads g fv D (g_root g) None q2' p2 gn (Some j) n2 -> QF nm o2 a2 ∈ qfields n2 -> given f o1 = given f o2 ->
    find_field gn nm = Some (GF f) -> gf_func f = FChecked sg rq pr -> e_sgs E !! sg = Some (G, node) -> find_node G node = Some gn' ->
    exists v, vget t1 (p1 ++ [PKey (result_key (QF nm o1 a1))]) = Some v /\ vget t2 (p2 ++ [PKey (result_key (QF nm o2 a2))]) = Some v.
  Proof.
    intros Hi1 Hs1 Hd1 Hi2 Hs2 Hd2 He1 Ht1 He2 Ht2 Hl1 Hq1 Hl2 Hq2 Ho Hf Hfn Hsg Hn.
    destruct (C40_value _ _ _ _ _ _ _ _ _ _ _ _ _ _ _ _ _ _ _ _ _ Hi1 Hs1 Hd1 He1 Ht1 Hl1 Hq1 Hf Hfn Hsg Hn) as (v1 & Hv1 & Hx1).
    destruct (C40_value _ _ _ _ _ _ _ _ _ _ _ _ _ _ _ _ _ _ _ _ _ Hi2 Hs2 Hd2 He2 Ht2 Hl2 Hq2 Hf Hfn Hsg Hn) as (v2 & Hv2 & Hx2).
    rewrite Ho, Hv2 in Hv1. injection Hv1 as ->. eauto.
  Qed.
End thms.

(** ** Only the loaders of the sub-graph count *)
Section own.
  Context (E : env) (D D' : data).
  Section graph.
    Context (G : graph).
    Hypothesis Hag : forall m, own_loader E G m -> agree_on D D' m.
    Section fv.
      Context (fv fv' : gfield -> option val -> str -> opts -> val).
      Hypothesis Hfv : forall gn name f, node_of G gn -> find_field gn name = Some (GF f) -> forall i n o, fv f i n o = fv' f i n o.
      Lemma tree_item_ext q : forall gn i, node_of G gn -> tree_item G fv D gn i q = tree_item G fv' D' gn i q.
      Proof.
        induction q as [nm o a|nm sub ord o a IH] using qitem_ind'; intros gn i Hgn; cbn.
        - destruct (find_field gn nm) as [[f|l]|] eqn:Ef; [|done|done]. by rewrite (Hfv _ _ _ Hgn Ef).
        - destruct (find_field gn nm) as [[f|l]|] eqn:Ef; [by rewrite (Hfv _ _ _ Hgn Ef)| |done].
          destruct (find_node G (gl_node l)) as [gn1|] eqn:En; [|done].
          assert (link_value fv D gn i l (QL nm sub ord o a) = link_value fv' D' gn i l (QL nm sub ord o a)) as Hlv.
          { unfold link_value, link_arg. destruct (Hag (gl_func l)) as [_ Hd]; [by eapply ol_link|]. rewrite Hd.
            destruct (gl_requires l) as [r|]; [|done]. unfold field_value. destruct (find_field gn r) as [[f|]|] eqn:Er; [|done..].
            by rewrite (Hfv _ _ _ Hgn Er). }
          assert (forall j, map (tree_item G fv D gn1 (Some j)) sub = map (tree_item G fv' D' gn1 (Some j)) sub) as Hsub.
          { intros j. apply map_ext_in. intros q1 Hq1. rewrite Forall_forall in IH. apply IH; [by apply elem_of_list_In|]. right. eauto. }
          rewrite Hlv. set (v := link_value fv' D' gn i l (QL nm sub ord o a)).
          assert (forall js : list val, map (fun j => PO (of_pairs (map (tree_item G fv D gn1 (Some j)) sub))) js
                 = map (fun j => PO (of_pairs (map (tree_item G fv' D' gn1 (Some j)) sub))) js) as Hobj.
          { intros js. apply map_ext. intros j. by rewrite Hsub. }
          clearbody v. destruct (gl_enum l).
          + destruct v; rewrite ?Hsub; reflexivity.
          + rewrite Hsub. reflexivity.
          + destruct (seq_items v) as [|j0 js]; [done|]. cbn [map]. rewrite Hsub. f_equal. f_equal. f_equal.
            apply map_ext. intros j. by rewrite Hsub.
      Qed.
      Lemma tree_ext gn i qs : node_of G gn -> tree G fv D gn i qs = tree G fv' D' gn i qs.
      Proof. intros Hgn. unfold tree. do 2 f_equal. apply map_ext. intros q. by apply tree_item_ext. Qed.
    End fv.
  End graph.

  Lemma field_val_ext k : forall G, (forall m, own_loader E G m -> agree_on D D' m) ->
    forall gn name f, node_of G gn -> find_field gn name = Some (GF f) -> forall i n o, field_val E D k f i n o = field_val E D' k f i n o.
  Proof.
    induction k as [|k IH]; intros G Hag gn name f Hgn Hf i n o; cbn.
    - unfold plain_value. destruct (gf_func f) as [m|] eqn:Efn; [|done]. apply Hag. by eapply ol_field.
    - unfold field_with. destruct (gf_func f) as [m|sg rq pr] eqn:Efn; [apply Hag; by eapply ol_field|].
      destruct (e_sgs E !! sg) as [[G' node]|] eqn:Esg; [|done]. destruct i as [j|]; [|done].
      destruct (find_node G' node) as [gn'|] eqn:En; [|done]. unfold expr_result.
      assert (forall m, own_loader E G' m -> agree_on D D' m) as Hag' by (intros m Hm; apply Hag; by eapply ol_sub).
      rewrite (tree_ext G' Hag' _ _ (IH G' Hag') gn'); [|right; eauto]. by rewrite (tree_ext G' Hag' _ _ (IH G' Hag') (g_root G')) by by left.
  Qed.

  (** C40: the value of an expression over [G] depends on the loaders of [G] only. *)
  Theorem C40_own_data k G gn' rq pr j os :
    (forall m, own_loader E G m -> agree_on D D' m) -> node_of G gn' ->
    expr_result E D (field_val E D k) G gn' rq pr j os = expr_result E D' (field_val E D' k) G gn' rq pr j os.
  Proof.
    intros Hag Hn. unfold expr_result. rewrite (tree_ext G Hag _ _ (field_val_ext k G Hag) gn' _ _ Hn).
    by rewrite (tree_ext G Hag _ _ (field_val_ext k G Hag) (g_root G)) by by left.
  Qed.
End own.

(** Graphs which differ in the names of loaders only. *)
From Verif Require Import Base Val Types Query QuerySpec QueryProof Graph Queue Result Engine EngineSpec Validate ValidateSpec PropValidate PropEngine GraphExt.

Section rename.
  (** [u f'] is the loader meant by [f']. *)
  Context (u : N -> N).
  Definition item_renamed (x x' : gitem) : Prop :=
    match x, x' with
    | GF f, GF f' => gf_name f' = gf_name f /\ gf_type f' = gf_type f /\ gf_opts f' = gf_opts f /\
                     match gf_func f, gf_func f' with
                     | FPlain n, FPlain n' => u n' = n
                     | FChecked _ rq pr, FChecked _ rq' pr' => rq' = rq /\ pr' = pr
                     | _, _ => False
                     end
    | GL l, GL l' => l = GLink (gl_name l') (gl_enum l') (gl_node l') (u (gl_func l')) (gl_requires l') (gl_opts l')
    | _, _ => False
    end.
  Definition node_renamed (n n' : gnode) : Prop := gn_name n' = gn_name n /\ Forall2 item_renamed (gn_fields n) (gn_fields n').
  Definition graph_renamed (g g' : graph) : Prop := Forall2 node_renamed (g_items g) (g_items g') /\ g_dtypes g' = g_dtypes g.

  Lemma item_renamed_name x x' : item_renamed x x' -> gi_name x' = gi_name x.
  Proof. destruct x, x'; cbn; try done; [by intros []|by intros ->]. Qed.
  Lemma item_renamed_opts x x' : item_renamed x x' -> gi_opts x' = gi_opts x.
  Proof. destruct x, x'; cbn; try done; [by intros (? & ? & ? & _)|by intros ->]. Qed.
  Lemma dget_Forall2 {V V'} (R : V -> V' -> Prop) (d : dict str V) (d' : dict str V') k :
    Forall2 (fun p p' => p'.1 = p.1 /\ R p.2 p'.2) d d' -> option_Forall2 R (dget k d) (dget k d').
  Proof.
    induction 1 as [|[a b] [a' b'] l l' [Ha Hb] _ IH]; [constructor|]. cbn in *. subst a'.
    destruct (decide (k = a)); [by constructor|done].
  Qed.
  Lemma dupdate_get_Forall2 {V V'} (R : V -> V' -> Prop) (l : list (str * V)) (l' : list (str * V')) k :
    Forall2 (fun p p' => p'.1 = p.1 /\ R p.2 p'.2) l l' -> option_Forall2 R (dget k (of_pairs l)) (dget k (of_pairs l')).
  Proof.
    intros Hl. unfold of_pairs. rewrite !dget_dupdate. cbn [dget].
    assert (option_Forall2 R (dget k (reverse l)) (dget k (reverse l'))) as Ho.
    { apply dget_Forall2. rewrite <-!rev_alt || idtac. by apply Forall2_reverse. }
    by destruct Ho; constructor.
  Qed.
  Lemma renamed_field n n' k : node_renamed n n' -> option_Forall2 item_renamed (find_field n k) (find_field n' k).
  Proof.
    intros [_ Hf]. unfold find_field, fields_map. apply dupdate_get_Forall2.
    apply Forall2_fmap_2. eapply Forall2_impl; [exact Hf|]. intros x y Hxy. split; [by apply item_renamed_name|done].
  Qed.
  Context (g g' : graph).
  Hypothesis Hg : graph_renamed g g'.
  Lemma renamed_root : node_renamed (g_root g) (g_root g').
  Proof.
    split; [done|]. destruct Hg as [Hi _]. unfold g_root. cbn [gn_fields].
    induction Hi as [|n n' l l' [Hn Hf] _ IH]; [constructor|]. cbn [List.filter]. rewrite Hn.
    destruct (gn_name n); [done|]. cbn [map concat]. by apply Forall2_app.
  Qed.
  Lemma renamed_node k : option_Forall2 node_renamed (find_node g k) (find_node g' k).
  Proof.
    destruct Hg as [Hi _]. unfold find_node, nodes_map. apply dupdate_get_Forall2.
    induction Hi as [|n n' l l' Hn _ IH]; [constructor|]. cbn. rewrite (proj1 Hn). destruct (gn_name n); [|done].
    constructor; [|done]. done.
  Qed.
  Lemma renamed_init_item n n' q : node_renamed n n' -> init_item g' n' q = init_item g n q.
  Proof.
    revert n n'. induction q as [nm o a|nm sub ord o a IH] using qitem_ind'; intros n n' Hn; cbn [init_item q_name];
      pose proof (renamed_field n n' nm Hn) as Hf; inversion Hf as [x x' Hx E1 E2|E1 E2]; try done.
    - by rewrite (item_renamed_opts _ _ Hx).
    - rewrite (item_renamed_opts _ _ Hx).
      assert (match x' with GL l => match find_node g' (gl_node l) with None => Err KeyError | Some gn' => mapR (init_item g' gn') sub end | GF _ => Ok sub end =
              match x with GL l => match find_node g (gl_node l) with None => Err KeyError | Some gn' => mapR (init_item g gn') sub end | GF _ => Ok sub end) as ->; [|done].
      destruct x as [f|l], x' as [f'|l']; try done. cbn in Hx. rewrite Hx. cbn [gl_node].
      pose proof (renamed_node (gl_node l')) as Hm. inversion Hm as [m m' Hmm E3 E4|]; [|done].
      apply mapR_ext. eapply Forall_impl; [exact IH|]. cbn. intros q Hq. by apply Hq.
  Qed.
  Lemma renamed_init_options q : init_options g' q = init_options g q.
  Proof.
    unfold init_options. assert (mapR (init_item g' (g_root g')) (qfields q) = mapR (init_item g (g_root g)) (qfields q)) as ->; [|done].
    apply mapR_ext, Forall_forall. intros x _. apply renamed_init_item, renamed_root.
  Qed.
  Lemma renamed_check_item fuel n n' q : node_renamed n n' -> check_item fuel g' n' q = check_item fuel g n q.
  Proof.
    revert n n'. induction q as [nm o a|nm sub ord o a IH] using qitem_ind'; intros n n' Hn; cbn [check_item];
      pose proof (renamed_field n n' nm Hn) as Hf; rewrite (proj1 Hn), (proj2 Hg);
      inversion Hf as [x x' Hx E1 E2|E1 E2]; try done;
      destruct x as [f|l], x' as [f'|l']; try done; cbn in Hx.
    - by destruct Hx as (_ & _ & -> & _).
    - by destruct Hx as (_ & -> & -> & _).
    - rewrite Hx. cbn [gl_node gl_opts].
      pose proof (renamed_node (gl_node l')) as Hm. inversion Hm as [m m' Hmm E3 E4|]; [|done].
      rewrite (proj1 Hmm).
      assert (check_node (check_item fuel g' m') (gn_name m) sub = check_node (check_item fuel g m) (gn_name m) sub) as ->; [|done].
      unfold check_node. generalize (@nil (str * qitem)). clear -IH Hmm. induction sub as [|q qs IHq]; intros seen; [done|].
      apply Forall_cons in IH as [Hq IH]. rewrite (Hq _ _ Hmm).
      match goal with |- (let '(_, _) := ?a in _) = _ => destruct a as [errs seen'] end.
      destruct (check_item fuel g m q); [|done]. by rewrite (IHq IH).
  Qed.
  Lemma renamed_validate fuel q : validate fuel g' q = validate fuel g q.
  Proof.
    unfold validate. rewrite (proj1 renamed_root). unfold check_node. generalize (@nil (str * qitem)).
    induction (qfields q) as [|x l IH]; intros seen; [done|]. rewrite (renamed_check_item _ _ _ _ renamed_root).
    match goal with |- (let '(_, _) := ?a in _) = _ => destruct a as [errs seen'] end.
    destruct (check_item fuel g (g_root g) x); [|done]. by rewrite IH.
  Qed.

  Section query.
    Context `{Hasher} (q0 : qnode).
    Lemma renamed_visited gn' n : visited g' q0 gn' n -> exists gn, visited g q0 gn n /\ node_renamed gn gn'.
    Proof.
      induction 1 as [|gn' n q l gm' Hv (gn & Hvis & Hren) Hq Hl Hf Hn].
      - exists (g_root g). split; [constructor|apply renamed_root].
      - pose proof (renamed_field gn gn' (q_name q) Hren) as Ho. rewrite Hf in Ho. inversion Ho as [x x' Hx E1 E2|]; subst.
        destruct x as [|k]; [done|]. cbn in Hx. subst k.
        pose proof (renamed_node (gl_node l)) as Hm. rewrite Hn in Hm. inversion Hm as [m m' Hmm E3 E4|]; subst.
        exists m. split; [|done]. eapply vis_link; [exact Hvis|done|done|by rewrite <-E1|done].
    Qed.
    Lemma renamed_asked gn' q : asked g' q0 gn' q -> exists gn n, visited g q0 gn n /\ node_renamed gn gn' /\ asked g q0 gn q.
    Proof.
      intros (n & Hv & Ha). destruct (renamed_visited _ _ Hv) as (gn & Hvis & Hren). exists gn, n. split; [done|]. split; [done|].
      exists n. split; [done|]. destruct Ha as [Ha|(q' & l & r & Hq & Hl & Hf & Hr & ->)]; [by left|]. right.
      pose proof (renamed_field gn gn' (q_name q') Hren) as Ho. rewrite Hf in Ho. inversion Ho as [x x' Hx E1 E2|]; subst.
      destruct x as [|k]; [done|]. cbn in Hx. eexists q', _, r. split_and!; [done|done|by rewrite <-E1| |done]. by rewrite Hx.
    Qed.
    Lemma node_renamed_inj gn1 n1 gn2 n2 gn' : visited g q0 gn1 n1 -> visited g q0 gn2 n2 ->
      node_renamed gn1 gn' -> node_renamed gn2 gn' -> gn1 = gn2.
    Proof.
      intros H1 H2 [E1 _] [E2 _]. apply visited_node in H1 as [[-> N1]|(x & N1 & F1)], H2 as [[-> N2]|(y & N2 & F2)]; [done|congruence..|].
      rewrite N1 in E1. rewrite N2 in E2. congruence.
    Qed.
    Lemma renamed_supported : supported g q0 -> supported g' q0.
    Proof.
      intros Hsup. split.
      - intros gn' n q Hv Hq. destruct (renamed_visited _ _ Hv) as (gn & Hvis & Hren).
        pose proof (sp_items _ _ Hsup _ _ _ Hvis Hq) as Hi. pose proof (renamed_field gn gn' (q_name q) Hren) as Ho.
        inversion Ho as [x x' Hx E1 E2|E1 E2]; [|by rewrite <-E1 in Hi]. rewrite <-E1 in Hi.
        destruct x as [f|l], x' as [f'|l']; try done; cbn in Hx.
        + destruct Hi as [[k Hk] Hord]. split; [|done]. destruct Hx as (_ & _ & _ & Hx). rewrite Hk in Hx.
          destruct (gf_func f') as [k'|] eqn:Ef; [|done]. by exists k'.
        + rewrite Hx in Hi. cbn in Hi. destruct Hi as (Hl & [m Hm] & Hr). split; [done|]. split.
          * pose proof (renamed_node (gl_node l')) as Ho'. rewrite Hm in Ho'. inversion Ho'; subst. by eexists.
          * destruct (gl_requires l') as [r|]; [|done]. destruct Hr as (? & f & Hf & [k Hk]). split; [done|].
            pose proof (renamed_field gn gn' r Hren) as Hor. rewrite Hf in Hor. inversion Hor as [y y' Hy E3 E4|]; subst.
            destruct y' as [f'|]; [|done]. exists f'. split; [done|]. destruct Hy as (_ & _ & _ & Hy). rewrite Hk in Hy.
            destruct (gf_func f') as [k'|] eqn:Ef; [|done]. by exists k'.
      - intros gn' n Hv. destruct (renamed_visited _ _ Hv) as (gn & Hvis & _). by eapply (sp_keys _ _ Hsup).
      - intros gn' q Ha. destruct (renamed_asked _ _ Ha) as (gn & n & _ & _ & Ha'). by eapply (sp_bracket _ _ Hsup).
      - intros gn' x y Hx Hy. destruct (renamed_asked _ _ Hx) as (gn1 & n1 & V1 & E1 & A1), (renamed_asked _ _ Hy) as (gn2 & n2 & V2 & E2 & A2).
        pose proof (node_renamed_inj _ _ _ _ _ V1 V2 E1 E2) as <-. by apply (sp_coll _ _ Hsup gn1).
      - pose proof (renamed_node (s "__root__")) as Ho. rewrite (sp_root _ _ Hsup) in Ho. by inversion Ho.
    Qed.
    (** the data behind the renamed loaders *)
    Context (D : data).
    Definition renamed_data : data := Data (fun f => d_field D (u f)) (fun f => d_link D (u f)).
    Notation fv := (plain_value D).
    Notation fv' := (plain_value renamed_data).
    Lemma renamed_value f f' i nm o : item_renamed (GF f) (GF f') -> fv' f' i nm o = fv f i nm o.
    Proof.
      intros (_ & _ & _ & Hx). unfold plain_value. destruct (gf_func f), (gf_func f'); try done. cbn. by rewrite Hx.
    Qed.
    Lemma renamed_link_value gn gn' i l l' q : node_renamed gn gn' -> item_renamed (GL l) (GL l') ->
      link_value fv' renamed_data gn' i l' q = link_value fv D gn i l q.
    Proof.
      intros Hn Hl. cbn in Hl. subst l. unfold link_value, link_arg, link_opts. cbn [renamed_data d_link gl_func gl_requires gl_opts].
      assert (match gl_requires l' with Some r => Some (field_value fv' gn' i r None) | None => None end =
              match gl_requires l' with Some r => Some (field_value fv gn i r None) | None => None end) as ->; [|done].
      destruct (gl_requires l') as [r|]; [|done]. f_equal. unfold field_value.
      pose proof (renamed_field gn gn' r Hn) as Ho. inversion Ho as [x x' Hx E1 E2|]; [|done].
      destruct x, x'; try done. by apply renamed_value.
    Qed.
    Lemma renamed_resolve gn gn' i q : node_renamed gn gn' -> resolve g' fv' renamed_data gn' i q = resolve g fv D gn i q.
    Proof.
      revert gn gn' i. induction q as [nm o a|nm sub ord o a IH] using qitem_ind'; intros gn gn' i Hn; cbn [resolve q_name q_opts];
        pose proof (renamed_field gn gn' nm Hn) as Hf; inversion Hf as [x x' Hx E1 E2|E1 E2]; try done;
        destruct x as [f|l], x' as [f'|l']; try done.
      - by rewrite (renamed_value f f').
      - rewrite (renamed_value f f') by done. rewrite (proj2 Hg). unfold gf_ty. by rewrite (proj1 (proj2 Hx)).
      - rewrite (renamed_link_value gn gn' i l l' _ Hn Hx). cbn in Hx.
        assert (gl_node l = gl_node l' /\ gl_enum l = gl_enum l') as [-> ->] by (by rewrite Hx).
        pose proof (renamed_node (gl_node l')) as Hm. inversion Hm as [m m' Hmm E3 E4|]; [|done].
        assert (forall j, mapR (resolve g' fv' renamed_data m' (Some j)) sub = mapR (resolve g fv D m (Some j)) sub) as Hobj.
        { intros j. apply mapR_ext. eapply Forall_impl; [exact IH|]. cbn. intros q Hq. by apply Hq. }
        destruct (gl_enum l').
        + destruct (link_value _ _ _ _ _ _); try done; by rewrite Hobj.
        + by rewrite Hobj.
        + assert (forall l, mapR (fun j => match mapR (resolve g' fv' renamed_data m' (Some j)) sub with Ok ps => Ok (TO (of_pairs ps)) | Err e => Err e end) l =
            mapR (fun j => match mapR (resolve g fv D m (Some j)) sub with Ok ps => Ok (TO (of_pairs ps)) | Err e => Err e end) l) as ->; [|done].
          intros k. apply mapR_ext. apply Forall_forall. intros j _. by rewrite Hobj.
    Qed.
    Lemma renamed_resolve_query : resolve_query g' fv' renamed_data q0 = resolve_query g fv D q0.
    Proof.
      unfold resolve_query.
      assert (mapR (resolve g' fv' renamed_data (g_root g') None) (qfields q0) = mapR (resolve g fv D (g_root g) None) (qfields q0)) as ->; [|done].
      apply mapR_ext. apply Forall_forall. intros q Hq. apply renamed_resolve, renamed_root.
    Qed.
    Lemma renamed_links_ok : links_ok g fv D q0 -> links_ok g' fv' renamed_data q0.
    Proof.
      intros Hl gn' n i q l Hv Hq Hf. destruct (renamed_visited _ _ Hv) as (gn & Hvis & Hren).
      pose proof (renamed_field gn gn' (q_name q) Hren) as Ho. rewrite Hf in Ho. inversion Ho as [x x' Hx E1 E2|]; subst.
      destruct x as [|k]; [done|]. rewrite (renamed_link_value gn gn' i k l q Hren Hx).
      specialize (Hl gn n i q k Hvis Hq (eq_sym E1)). cbn in Hx. rewrite Hx in Hl |- *. exact Hl.
    Qed.
    Lemma renamed_respects : respects_options D -> respects_options renamed_data.
    Proof. intros [H1 H2]. split; cbn; intros; [by apply H1|by apply H2]. Qed.
  End query.
End rename.

(** A graph with more nodes and more fields answers the queries of the smaller one as it does. *)
From Verif Require Import Base Val Types Query QuerySpec QueryProof Graph Queue Result Engine EngineSpec Validate ValidateSpec PropValidate PropEngine.

(** [gn'] has all the members of [gn]. *)
Definition node_extends (gn gn' : gnode) : Prop :=
  gn_name gn' = gn_name gn /\ forall n x, find_field gn n = Some x -> find_field gn' n = Some x.
Record extends (g g' : graph) : Prop := {
  ex_root : node_extends (g_root g) (g_root g');
  ex_nodes : forall n gn, find_node g n = Some gn -> exists gn', find_node g' n = Some gn' /\ node_extends gn gn';
  ex_types : g_dtypes g' = g_dtypes g;
}.
Lemma find_node_name g n gn : find_node g n = Some gn -> gn_name gn = Some n.
Proof.
  unfold find_node, nodes_map, of_pairs. rewrite dget_dupdate. cbn [dget].
  destruct (dget n (reverse _)) as [x|] eqn:Ex; [|done]. intros [= ->]. apply dget_Some_elem in Ex.
  rewrite elem_of_reverse in Ex. apply elem_of_list_omap in Ex as (y & _ & Hy). destruct (gn_name y) eqn:En; [|done].
  by injection Hy as -> ->.
Qed.

Lemma check_node_mono (v v' : qitem -> res (list verr)) nm qs :
  (forall q, q ∈ qs -> v q = Ok [] -> v' q = Ok []) -> check_node v nm qs = Ok [] -> check_node v' nm qs = Ok [].
Proof.
  unfold check_node. generalize (@nil (str * qitem)). induction qs as [|q qs IH]; intros seen Hv; [done|].
  match goal with |- (let '(_, _) := ?a in _) = _ -> _ => destruct a as [errs seen'] end.
  cbv beta iota. destruct (v q) as [errs2|] eqn:Eq; [|done].
  match goal with |- match ?a with _ => _ end = _ -> _ => destruct a as [errs3|] eqn:Ea end; [|done].
  intros Hnil. injection Hnil as Hnil. apply app_eq_nil in Hnil as [-> Hnil]. apply app_eq_nil in Hnil as [-> ->].
  rewrite (Hv q (elem_of_list_here _ _) Eq). rewrite (IH seen'); [done| |exact Ea]. intros x Hx. apply Hv. by right.
Qed.
Section ext.
  Context (g g' : graph).
  Hypothesis He : extends g g'.

  Lemma ext_init_item gn gn' q q' : node_extends gn gn' -> init_item g gn q = Ok q' -> init_item g' gn' q = Ok q'.
  Proof.
    revert gn gn' q'. induction q as [nm o a|nm sub ord o a IH] using qitem_ind'; intros gn gn' q' [Hn Hf]; cbn [init_item q_name].
    - destruct (find_field gn nm) as [x|] eqn:Ex; [|done]. by rewrite (Hf _ _ Ex).
    - destruct (find_field gn nm) as [x|] eqn:Ex; [|done]. rewrite (Hf _ _ Ex). destruct x as [f|l]; [done|].
      destruct (find_node g (gl_node l)) as [gm|] eqn:Em; [|done]. destruct (ex_nodes _ _ He _ _ Em) as (gm' & -> & Hext).
      destruct (mapR (init_item g gm) sub) as [sub'|] eqn:Es; [|done].
      assert (mapR (init_item g' gm') sub = Ok sub') as ->; [|done].
      apply mapR_ok in Es. apply mapR_ok. clear -IH Es Hext. induction Es as [|x y l k Hxy Hl IHl]; constructor.
      + apply Forall_cons in IH as [Hx _]. by eapply Hx.
      + apply IHl. by apply Forall_cons in IH as [_ ?].
  Qed.
  Lemma ext_init_options q q' : init_options g q = Ok q' -> init_options g' q = Ok q'.
  Proof.
    unfold init_options. destruct (mapR _ (qfields q)) as [l|] eqn:El; [|done]. intros [= <-].
    assert (mapR (init_item g' (g_root g')) (qfields q) = Ok l) as ->; [|done].
    apply mapR_ok in El. apply mapR_ok. eapply Forall2_impl; [exact El|]. intros x y Hx.
    eapply ext_init_item; [apply He|done].
  Qed.

  Section query.
    Context `{Hasher} (q0 : qnode).
    Hypothesis Hsup : supported g q0.
    Lemma ext_visited gn' n : visited g' q0 gn' n -> exists gn, visited g q0 gn n /\ node_extends gn gn'.
    Proof.
      induction 1 as [|gn' n q l gm' Hv (gn & Hvis & Hext) Hq Hl Hf Hn].
      - exists (g_root g). split; [constructor|apply He].
      - pose proof (sp_items _ _ Hsup _ _ _ Hvis Hq) as Hi. destruct Hext as [Hname Hfs].
        destruct (find_field gn (q_name q)) as [x|] eqn:Ex; [|done]. pose proof (Hfs _ _ Ex) as Ex'. rewrite Hf in Ex'. injection Ex' as <-.
        destruct Hi as (_ & [gm Hgm] & _). exists gm. destruct (ex_nodes _ _ He _ _ Hgm) as (gm2 & Hgm2 & Hext2).
        rewrite Hn in Hgm2. injection Hgm2 as <-. split; [|done]. by eapply vis_link.
    Qed.
    Lemma visited_node gn n : visited g q0 gn n ->
      gn = g_root g /\ gn_name gn = None \/ exists x, gn_name gn = Some x /\ find_node g x = Some gn.
    Proof.
      destruct 1 as [|gn n q l gm Hv Hq Hl Hf Hn]; [by left|]. right. pose proof (find_node_name _ _ _ Hn). eauto.
    Qed.
    Lemma visited_inj gn1 n1 gn2 n2 gn' : visited g q0 gn1 n1 -> visited g q0 gn2 n2 ->
      node_extends gn1 gn' -> node_extends gn2 gn' -> gn1 = gn2.
    Proof.
      intros H1 H2 [E1 _] [E2 _]. apply visited_node in H1 as [[-> N1]|(x & N1 & F1)], H2 as [[-> N2]|(y & N2 & F2)]; [done|congruence..|].
      rewrite N1 in E1. rewrite N2 in E2. congruence.
    Qed.
    Lemma ext_asked gn' q : asked g' q0 gn' q -> exists gn n, visited g q0 gn n /\ node_extends gn gn' /\ asked g q0 gn q.
    Proof.
      intros (n & Hv & Ha). destruct (ext_visited _ _ Hv) as (gn & Hvis & Hext). exists gn, n. split; [done|]. split; [done|].
      exists n. split; [done|]. destruct Ha as [Ha|(q' & l & r & Hq & Hl & Hf & Hr & ->)]; [by left|]. right.
      exists q', l, r. split_and!; try done. pose proof (sp_items _ _ Hsup _ _ _ Hvis Hq) as Hi.
      destruct (find_field gn (q_name q')) as [x|] eqn:Ex; [|done]. apply Hext in Ex. congruence.
    Qed.
    Lemma ext_supported : find_node g' (s "__root__") = None -> supported g' q0.
    Proof.
      intros Hroot. split; [..|done].
      - intros gn' n q Hv Hq. destruct (ext_visited _ _ Hv) as (gn & Hvis & Hext).
        pose proof (sp_items _ _ Hsup _ _ _ Hvis Hq) as Hi. destruct (find_field gn (q_name q)) as [x|] eqn:Ex; [|done].
        pose proof (proj2 Hext _ _ Ex) as ->. destruct x as [f|l]; [done|]. destruct Hi as (Hl & [gm Hgm] & Hr). split; [done|]. split.
        + destruct (ex_nodes _ _ He _ _ Hgm) as (gm' & -> & _). by eexists.
        + destruct (gl_requires l) as [r|]; [|done]. destruct Hr as (? & f & Hf & ?). split; [done|]. exists f.
          split; [|done]. by apply Hext.
      - intros gn' n Hv. destruct (ext_visited _ _ Hv) as (gn & Hvis & Hext). by eapply (sp_keys _ _ Hsup).
      - intros gn' q Ha. destruct (ext_asked _ _ Ha) as (gn & n & _ & _ & Ha'). by eapply (sp_bracket _ _ Hsup).
      - intros gn' x y Hx Hy. destruct (ext_asked _ _ Hx) as (gn1 & n1 & V1 & E1 & A1), (ext_asked _ _ Hy) as (gn2 & n2 & V2 & E2 & A2).
        pose proof (visited_inj _ _ _ _ _ V1 V2 E1 E2) as <-. by apply (sp_coll _ _ Hsup gn1).
    Qed.

    Context (D : data).
    Notation fv := (plain_value D).
    (** what is asked of the smaller graph has the same value in the larger one *)
    Lemma ext_link_value gn gn' n q l i : visited g q0 gn n -> q ∈ qfields n -> node_extends gn gn' ->
      find_field gn (q_name q) = Some (GL l) -> link_value fv D gn' i l q = link_value fv D gn i l q.
    Proof.
      intros Hv Hq Hext Hf. pose proof (sp_items _ _ Hsup _ _ _ Hv Hq) as Hi. rewrite Hf in Hi. destruct Hi as (_ & _ & Hr).
      unfold link_value, link_arg. destruct (gl_requires l) as [r|]; [|done]. destruct Hr as (_ & f & Hfr & _).
      unfold field_value. rewrite Hfr. by rewrite (proj2 Hext _ _ Hfr).
    Qed.
    Lemma ext_resolve gn gn' n i q : visited g q0 gn n -> q ∈ qfields n -> node_extends gn gn' ->
      resolve g' fv D gn' i q = resolve g fv D gn i q.
    Proof.
      revert gn gn' n i. induction q as [nm o a|nm sub ord o a IH] using qitem_ind'; intros gn gn' n i Hv Hq Hext;
        pose proof (sp_items _ _ Hsup _ _ _ Hv Hq) as Hi; cbn [q_name] in Hi; cbn [resolve q_name].
      - destruct (find_field gn nm) as [x|] eqn:Ex; [|done]. by rewrite (proj2 Hext _ _ Ex).
      - destruct (find_field gn nm) as [x|] eqn:Ex; [|done]. rewrite (proj2 Hext _ _ Ex). destruct x as [f|l].
        + by rewrite (ex_types _ _ He).
        + rewrite (ext_link_value gn gn' n _ l i Hv Hq Hext Ex). destruct Hi as (Hl & [gm Hgm] & Hr). rewrite Hgm.
          destruct (ex_nodes _ _ He _ _ Hgm) as (gm' & -> & Hext').
          assert (visited g q0 gm (QN sub ord)) as Hvm by (exact (vis_link _ _ _ _ _ _ _ Hv Hq eq_refl Ex Hgm)).
          assert (forall j, mapR (resolve g' fv D gm' (Some j)) sub = mapR (resolve g fv D gm (Some j)) sub) as Hobj.
          { intros j. apply mapR_ext. apply Forall_forall. intros x Hx. rewrite Forall_forall in IH.
            eapply IH; [done..|exact Hvm|done|done]. }
          destruct (gl_enum l).
          * destruct (link_value _ _ _ _ _ _); try done; by rewrite Hobj.
          * by rewrite Hobj.
          * assert (forall l, mapR (fun j => match mapR (resolve g' fv D gm' (Some j)) sub with Ok ps => Ok (TO (of_pairs ps)) | Err e => Err e end) l =
              mapR (fun j => match mapR (resolve g fv D gm (Some j)) sub with Ok ps => Ok (TO (of_pairs ps)) | Err e => Err e end) l) as ->; [|done].
            intros k. apply mapR_ext. apply Forall_forall. intros j _. by rewrite Hobj.
    Qed.
    Lemma ext_resolve_query : resolve_query g' fv D q0 = resolve_query g fv D q0.
    Proof.
      unfold resolve_query.
      assert (mapR (resolve g' fv D (g_root g') None) (qfields q0) = mapR (resolve g fv D (g_root g) None) (qfields q0)) as ->; [|done].
      apply mapR_ext. apply Forall_forall. intros q Hq. eapply ext_resolve; [constructor|done|apply He].
    Qed.
    Lemma ext_links_ok : links_ok g fv D q0 -> links_ok g' fv D q0.
    Proof.
      intros Hl gn' n i q l Hv Hq Hf. destruct (ext_visited _ _ Hv) as (gn & Hvis & Hext).
      pose proof (sp_items _ _ Hsup _ _ _ Hvis Hq) as Hi. destruct (find_field gn (q_name q)) as [x|] eqn:Ex; [|done].
      pose proof (proj2 Hext _ _ Ex) as Ex'. rewrite Hf in Ex'. injection Ex' as <-.
      rewrite (ext_link_value gn gn' n q l i Hvis Hq Hext Ex). exact (Hl gn n i q l Hvis Hq Ex).
    Qed.
  End query.

  (** The larger graph gives the same results. *)
  Lemma ext_same_result `{Hasher} (E : env) (D : data) (q q' : qnode) fuel fuel' sched sched' r r' :
    init_options g q = Ok q' -> serves E D -> respects_options D -> supported g q' -> links_ok g (plain_value D) D q' ->
    find_node g' (s "__root__") = None ->
    execute E (S fuel) g q sched r -> execute E (S fuel') g' q sched' r' ->
    exists idx idx', r = Ok (idx, q') /\ r' = Ok (idx', q') /\ denormalize g' idx' q' = denormalize g idx q'.
  Proof.
    intros Hi Hs Hr Hsup Hl Hroot H1 H2.
    pose proof (C04_result_independent_of_schedule_partial E g D q q' Hi Hs Hr Hsup Hl _ _ _ H1) as (idx & -> & E1).
    pose proof (C04_result_independent_of_schedule_partial E g' D q q' (ext_init_options _ _ Hi) Hs Hr
      (ext_supported q' Hsup Hroot) (ext_links_ok q' Hsup D Hl) _ _ _ H2) as (idx' & -> & E2).
    exists idx, idx'. split; [done|]. split; [done|]. rewrite E1, E2. by apply ext_resolve_query.
  Qed.

  (** The larger graph accepts the same queries. *)
  Lemma ext_check_item fuel gn gn' q : node_extends gn gn' -> check_item fuel g gn q = Ok [] -> check_item fuel g' gn' q = Ok [].
  Proof.
    revert gn gn'. induction q as [nm o a|nm sub ord o a IH] using qitem_ind'; intros gn gn' [Hn Hf]; cbn [check_item].
    - destruct (find_field gn nm) as [x|] eqn:Ex; [|done]. rewrite (Hf _ _ Ex). destruct x; [|done]. by rewrite Hn, (ex_types _ _ He).
    - destruct (find_field gn nm) as [x|] eqn:Ex; [|done]. rewrite (Hf _ _ Ex), Hn, (ex_types _ _ He). destruct x as [f|l]; [done|].
      destruct (find_node g (gl_node l)) as [gm|] eqn:Em; [|done]. destruct (ex_nodes _ _ He _ _ Em) as (gm' & -> & Hext).
      destruct (check_options _ _ _ _ _ _) as [errs|]; [|done].
      destruct (check_node (check_item fuel g gm) (gn_name gm) sub) as [errs2|] eqn:Ec; [|done].
      intros Hnil. assert (errs = [] /\ errs2 = []) as [-> ->] by (injection Hnil as Hnil; by apply app_eq_nil in Hnil).
      enough (check_node (check_item fuel g' gm') (gn_name gm') sub = Ok []) as -> by done.
      rewrite (proj1 Hext). eapply check_node_mono; [|exact Ec]. intros x Hx Hc. rewrite Forall_forall in IH. by eapply IH.
  Qed.
  Lemma ext_validate fuel q : validate fuel g q = Ok [] -> validate fuel g' q = Ok [].
  Proof.
    unfold validate. rewrite (proj1 (ex_root _ _ He)). apply check_node_mono. intros x _. apply ext_check_item, He.
  Qed.
End ext.

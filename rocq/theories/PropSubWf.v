(** Sound graphs support every query which asks for existing members (C04, C21, C40). *)
From Verif Require Import Base Val Query QuerySpec QueryProof MergeProof Graph Queue Result Engine EngineSpec CostSpec SubSpec SubJob SubWfSpec.

Section wf.
  Context `{Hasher} (E : env) (parts : gfield -> bool).
  Notation fits := (fits_req parts).

  Lemma fits_foldr G gn sub : foldr (fun q' P => fits G gn q' /\ P) True sub <-> forall q, q ∈ sub -> fits G gn q.
  Proof.
    induction sub as [|q sub IH]; cbn; [split; [intros _ q Hq; by apply not_elem_of_nil in Hq|done]|].
    rewrite IH. setoid_rewrite elem_of_cons. split.
    - intros [H1 H2] q' [->|Hq]; auto.
    - intros Ha. split; [apply Ha; by left|]. intros; apply Ha; by right.
  Qed.
  Lemma fits_head G gn q : fits G gn q ->
    (exists f, find_field gn (q_name q) = Some (GF f) /\ q_is_link q = parts f /\ (is_expr f -> gf_opts f = [])) \/
    (exists l, find_field gn (q_name q) = Some (GL l) /\ q_is_link q = true /\
       forall gn', find_node G (gl_node l) = Some gn' -> forall q', q' ∈ qfields (q_node q) -> fits G gn' q').
  Proof.
    destruct q as [nm o a|nm sub ord o a]; cbn; destruct (find_field gn nm) as [[f|l]|]; try done.
    - intros [? ?]. left. eauto.
    - intros [? ?]. left. eauto.
    - intros Hs. right. exists l. split; [done|]. split; [done|]. intros gn' Hn. by apply fits_foldr, Hs.
  Qed.

  (** ** Merged requirements *)
  Definition good (G : graph) (gn : gnode) (n : qnode) : Prop :=
    qordered n = false /\ exists ns, sublist (qfields n) (qfields (merge ns)) /\ (forall q, q ∈ items_of ns -> bare q) /\
      (forall q, q ∈ items_of ns -> q_name q ∈ map q_name (qfields n) -> fits G gn q).

  Lemma bare_keys (l : list qitem) : (forall q, q ∈ l -> q_opts q = None /\ q_alias q = None) -> NoDup (map merge_key l) -> NoDup (map q_name l).
  Proof.
    induction l as [|q l IH]; cbn; intros Hb Hn; [constructor|]. apply NoDup_cons in Hn as [Hq Hn]. apply NoDup_cons. split.
    - intros (q' & Hq' & Hin)%elem_of_list_fmap. apply Hq. apply elem_of_list_fmap. exists q'. split; [|done].
      destruct (Hb q ltac:(left)) as [H1 H2], (Hb q') as [H3 H4]; [by right|]. unfold merge_key. congruence.
    - apply IH; [|done]. intros q' Hin. apply Hb. by right.
  Qed.
  Lemma sublist_names {A B} (f : A -> B) (l k : list A) : sublist l k -> NoDup (map f k) -> NoDup (map f l).
  Proof.
    intros Hs. induction Hs as [|x l k Hs IH|x l k Hs IH]; cbn; [done| |].
    - intros [H1 H2]%NoDup_cons. apply NoDup_cons. split; [|auto]. intros (y & Hy & Hin)%elem_of_list_fmap. apply H1, elem_of_list_fmap.
      exists y. split; [done|]. eapply elem_of_submseteq; [exact Hin|by apply sublist_submseteq].
    - intros [_ Hn]%NoDup_cons. auto.
  Qed.
  Lemma merged_names ns (l : list qitem) : sublist l (qfields (merge ns)) -> (forall q, q ∈ items_of ns -> bare q) ->
    (forall q q', q ∈ items_of ns -> q' ∈ items_of ns -> q_name q ∈ map q_name l -> q_name q = q_name q' -> q_is_link q = q_is_link q') ->
    NoDup (map q_name l) /\ (forall q, q ∈ l -> q_opts q = None /\ q_alias q = None).
  Proof.
    intros Hs Hb Hk.
    assert (forall q, q ∈ qfields (merge ns) -> q_opts q = None /\ q_alias q = None) as Hbm.
    { intros q (q' & Hq' & Hl)%label_merged. destruct (bare_opts q' (Hb _ Hq')) as [H1 H2]. unfold label_of in Hl. injection Hl as _ _ -> ->. done. }
    assert (forall q, q ∈ l -> q ∈ qfields (merge ns)) as Hsub.
    { intros q Hq. eapply elem_of_submseteq; [exact Hq|by apply sublist_submseteq]. }
    split; [|auto]. rewrite merge_fields in Hs. apply sublist_app_r in Hs as (l1 & l2 & -> & H1 & H2).
    rewrite map_app. apply NoDup_app. split_and!.
    - apply bare_keys; [intros q Hq; apply Hbm, Hsub, elem_of_app; by left|]. eapply sublist_names; [exact H1|apply dedupF_NoDup].
    - intros x (q1 & -> & Hq1)%elem_of_list_fmap (q2 & Hx & Hq2)%elem_of_list_fmap.
      assert (q1 ∈ dedupF [] (items_of ns)) as Hd by (eapply elem_of_submseteq; [exact Hq1|by apply sublist_submseteq]).
      assert (q2 ∈ mlinks (items_of ns)) as Hm by (eapply elem_of_submseteq; [exact Hq2|by apply sublist_submseteq]).
      apply dedupF_elem in Hd as (Hd & Hnl & _). pose proof (mlinks_link _ _ Hm) as Hl.
      destruct (label_merged ns q2) as (q2' & Hq2' & Hlab); [rewrite merge_fields; apply elem_of_app; by right|].
      unfold label_of in Hlab. injection Hlab as L1 L2 _ _. unfold islink in *.
      apply Hnl. rewrite (Hk q1 q2'); [congruence|done|done| |congruence].
      rewrite map_app. apply elem_of_app. left. apply elem_of_list_fmap. eauto.
    - apply bare_keys; [intros q Hq; apply Hbm, Hsub, elem_of_app; by right|]. eapply sublist_names; [exact H2|]. rewrite mlinks_keys. apply NoDup_nub.
  Qed.
  Lemma fits_kind G gn q q' : fits G gn q -> fits G gn q' -> q_name q = q_name q' -> q_is_link q = q_is_link q'.
  Proof.
    intros [(f & H1 & H2 & _)|(l & H1 & H2 & _)]%fits_head [(f' & H3 & H4 & _)|(l' & H3 & H4 & _)]%fits_head He; rewrite He in H1; congruence.
  Qed.
  Lemma good_names G gn n : good G gn n -> NoDup (map q_name (qfields n)) /\ (forall q, q ∈ qfields n -> q_opts q = None /\ q_alias q = None).
  Proof.
    intros (_ & ns & Hs & Hb & Hf). apply (merged_names ns); [done|done|]. intros q q' Hq Hq' Hn He.
    apply (fits_kind G gn); [by apply Hf| |done]. apply Hf; [done|by rewrite <-He].
  Qed.
  Lemma good_item G gn n q : good G gn n -> q ∈ qfields n -> exists q0, q_name q0 = q_name q /\ q_is_link q0 = q_is_link q /\ fits G gn q0.
  Proof.
    intros (_ & ns & Hs & Hb & Hf) Hq. destruct (label_merged ns q) as (q0 & Hq0 & Hl).
    { eapply elem_of_submseteq; [exact Hq|by apply sublist_submseteq]. }
    unfold label_of in Hl. injection Hl as L1 L2 _ _. exists q0. split; [done|]. split; [done|]. apply Hf; [done|]. rewrite <-L2. apply elem_of_list_fmap. eauto.
  Qed.
  Lemma merged_link ns q : q ∈ qfields (merge ns) -> q_is_link q = true ->
    exists f, merge_key f = merge_key q /\ f ∈ items_of ns /\ q_node q = merge (subs (merge_key f) (items_of ns)).
  Proof.
    rewrite merge_fields, elem_of_app. intros [Hq|Hq] Hl.
    - apply dedupF_elem in Hq as (_ & Hn & _). done.
    - unfold mlinks in Hq. apply elem_of_list_fmap in Hq as ([f ss] & -> & Hf). apply elem_of_link_groups in Hf as (fs & Ef & ->).
      assert (f ∈ links_k (merge_key f) (items_of ns)) as (Hin & Hfl & _)%elem_of_links_k by (rewrite Ef; left).
      exists f. split; [by rewrite copy_node_key|]. split; [done|]. by rewrite q_node_copy.
  Qed.
  (** The selections of a merged link are those of the links merged *)
  Lemma merged_sub G gn' ns q : q ∈ qfields (merge ns) -> q_is_link q = true -> (forall q, q ∈ items_of ns -> bare q) ->
    (forall f, f ∈ items_of ns -> q_name f = q_name q -> forall q', q' ∈ qfields (q_node f) -> fits G gn' q') -> good G gn' (q_node q).
  Proof.
    intros Hq Hl Hb Hf. destruct (merged_link ns q Hq Hl) as (f & Hk & Hin & ->).
    assert (forall f2, f2 ∈ links_k (merge_key f) (items_of ns) -> f2 ∈ items_of ns /\ q_name f2 = q_name q) as Hlk.
    { intros f2 (H1 & _ & H2)%elem_of_links_k. split; [done|]. rewrite Hk in H2. unfold merge_key in H2. by injection H2. }
    split.
    - rewrite merge_ordered. destruct (existsb qordered _) eqn:Ex; [|done]. apply existsb_exists in Ex as (m & Hm%elem_of_list_In & Ho).
      apply elem_of_list_fmap in Hm as (f2 & -> & Hf2). destruct (bare_sub f2) as [Ho' _]; [by apply Hb, Hlk|]. congruence.
    - exists (subs (merge_key f) (items_of ns)). split; [done|]. split.
      + intros q' (m & Hm & Hq')%elem_of_items. apply elem_of_list_fmap in Hm as (f2 & -> & Hf2). destruct (bare_sub f2) as [_ Hs]; [by apply Hb, Hlk|]. by apply Hs.
      + intros q' (m & Hm & Hq')%elem_of_items _. apply elem_of_list_fmap in Hm as (f2 & -> & Hf2). destruct (Hlk _ Hf2) as [H1 H2]. by apply (Hf f2).
  Qed.
  Lemma good_link G gn n q l gn' : good G gn n -> q ∈ qfields n -> q_is_link q = true ->
    find_field gn (q_name q) = Some (GL l) -> find_node G (gl_node l) = Some gn' -> good G gn' (q_node q).
  Proof.
    intros (_ & ns & Hs & Hb & Hf) Hq Hl Hfd Hn. eapply (merged_sub G gn' ns); [|done|done|].
    { eapply elem_of_submseteq; [exact Hq|by apply sublist_submseteq]. }
    intros f Hin He q' Hq'. destruct (fits_head G gn f) as [(f0 & H1 & _)|(l' & H1 & _ & H2)].
    - apply Hf; [done|]. rewrite He. apply elem_of_list_fmap. eauto.
    - rewrite He in H1. congruence.
    - rewrite He in H1. rewrite Hfd in H1. injection H1 as <-. by eapply H2.
  Qed.

  (** ** Jobs *)
  Hypothesis Henv : wf_env E parts.


  Record sub_good (J : job) : Prop := {
    sg_env : exists sg node, e_sgs E !! sg = Some (j_graph J, node);
    sg_root : good (j_graph J) (g_root (j_graph J)) (j_root J);
    sg_this : forall gn n, j_this J = Some (gn, n) -> node_of (j_graph J) gn /\ good (j_graph J) gn n;
    sg_query : NoDup (map result_key (qfields (j_query J)));
  }.
  Lemma bare_result_keys (l : list qitem) : (forall q, q ∈ l -> q_opts q = None /\ q_alias q = None) -> map result_key l = map q_name l.
  Proof.
    intros Hb. apply map_ext_in. intros q Hq%elem_of_list_In. destruct (Hb q Hq) as [_ Ha]. unfold result_key. by rewrite Ha.
  Qed.
  Lemma of_this_in rq q q' : q ∈ qfields rq -> q_name q = THIS -> q' ∈ qfields (q_node q) -> q' ∈ of_this rq.
  Proof.
    intros Hq Hn Hq'. unfold of_this. apply elem_of_list_In, in_flat_map. exists q. split; [by apply elem_of_list_In|].
    unfold is_this. rewrite bool_decide_eq_true_2 by done. by apply elem_of_list_In.
  Qed.
  Lemma of_root_in rq q : q ∈ qfields rq -> q_name q <> THIS -> q ∈ of_root rq.
  Proof.
    intros Hq Hn. unfold of_root. apply elem_of_list_In, filter_In. split; [by apply elem_of_list_In|].
    unfold is_this. by rewrite bool_decide_eq_false_2.
  Qed.
  Lemma of_root_elem rq q : q ∈ of_root rq -> q ∈ qfields rq /\ q_name q <> THIS.
  Proof.
    unfold of_root. intros Hq%elem_of_list_In%filter_In. destruct Hq as [Hq Hn]. split; [by apply elem_of_list_In|].
    unfold is_this in Hn. intros He. by rewrite bool_decide_eq_true_2 in Hn.
  Qed.

  (** Expressions computed together: their sub-graph gets a query which it can answer *)
  Lemma sub_job_good J gn n sg qs : wf_graph E parts (j_graph J) -> node_of (j_graph J) gn -> grouped gn n sg qs ->
    exists J', sub_job E J gn sg qs = Some J' /\ sub_good J' /\ j_level J' = pred (j_level J) /\
      exists node, e_sgs E !! sg = Some (j_graph J', node).
  Proof.
    intros Hwf Hno (Hne & _ & Hov & _). set (ns := map (reqs_for gn) qs).
    assert (exists G' node gn', e_sgs E !! sg = Some (G', node) /\ find_node G' node = Some gn' /\ (exists q, q ∈ items_of ns /\ q_name q = THIS) /\
      forall q, q ∈ items_of ns -> bare q /\
        (q_name q = THIS -> q_is_link q = true /\ forall q', q' ∈ qfields (q_node q) -> fits G' gn' q') /\
        (q_name q <> THIS -> fits G' (g_root G') q)) as (G' & node & gn' & Hsg & Hn' & (qt & Hqt & Hqn) & Hall).
    { assert (forall q, q ∈ qs -> exists f rq pr G' node gn', reqs_for gn q = rq /\ gf_func f = FChecked sg rq pr /\ reqs_ok rq /\
        (exists q, q ∈ qfields rq /\ q_name q = THIS) /\ e_sgs E !! sg = Some (G', node) /\ find_node G' node = Some gn' /\
        (forall q, q ∈ of_this rq -> fits G' gn' q) /\ (forall q, q ∈ of_root rq -> fits G' (g_root G') q)) as Hq.
      { intros q (f & rq & pr & Hf & Hfn)%Hov. destruct (wg_exprs _ _ _ Hwf _ _ _ _ _ _ Hno Hf Hfn) as (_ & Hr & Ht & G' & node & gn' & H1 & H2 & H3 & H4).
        exists f, rq, pr, G', node, gn'. split_and!; try done. unfold reqs_for. rewrite Hf. cbn. by rewrite Hfn. }
      destruct qs as [|q0 qs']; [done|]. destruct (Hq q0 ltac:(left)) as (f & rq & pr & G' & node & gn' & Hr0 & _ & _ & (qt & Hqt & Hqn) & Hsg & Hn' & _).
      exists G', node, gn'. split; [done|]. split; [done|]. split.
      - exists qt. split; [|done]. apply elem_of_items. exists rq. split; [|done]. unfold ns. cbn. rewrite Hr0. left.
      - intros q (m & Hm & Hqm)%elem_of_items. apply elem_of_list_fmap in Hm as (q1 & -> & Hq1).
        destruct (Hq q1 Hq1) as (f1 & rq1 & pr1 & G1 & node1 & gn1 & Hr1 & _ & [_ Hok] & _ & Hsg1 & Hn1 & Hth & Hro). rewrite Hr1 in Hqm.
        rewrite Hsg in Hsg1. injection Hsg1 as <- <-. rewrite Hn' in Hn1. injection Hn1 as <-.
        destruct (Hok q Hqm) as [Hb Hl]. split; [done|]. split.
        + intros He. split; [by apply Hl|]. intros q' Hq'. apply Hth. by eapply of_this_in.
        + intros He. apply Hro. by apply of_root_in. }
    assert (forall q, q ∈ items_of ns -> bare q) as Hb by (intros; by apply Hall).
    assert (forall q q', q ∈ items_of ns -> q' ∈ items_of ns -> q_name q ∈ map q_name (qfields (merge ns)) -> q_name q = q_name q' -> q_is_link q = q_is_link q') as Hk.
    { intros q q' Hq Hq' _ He. destruct (decide (q_name q = THIS)) as [Ht|Ht].
      - destruct (Hall q Hq) as (_ & H1 & _), (Hall q' Hq') as (_ & H2 & _). destruct (H1 Ht) as [-> _], (H2 ltac:(congruence)) as [-> _]. done.
      - apply (fits_kind G' (g_root G')); [by apply Hall|apply Hall; [done|congruence]|done]. }
    destruct (merged_names ns (qfields (merge ns)) ltac:(done) Hb Hk) as [Hnd Hbm].
    assert (exists tq, tq ∈ qfields (merge ns) /\ q_name tq = THIS /\ q_is_link tq = true) as (tq & Htq & Htn & Htl).
    { apply elem_of_items in Hqt as (m & Hm & Hqm). destruct (merge_qcov ns m qt Hm) as (tq & Htq & Hc); [|done|].
      - intros m' Hm' q Hq. apply Hb. apply elem_of_items. eauto.
      - exists tq. split; [done|]. inversion Hc; subst. split; [congruence|].
        destruct (Hall qt) as (_ & Hl & _); [apply elem_of_items; eauto|]. destruct (Hl Hqn). congruence. }
    assert (dget THIS (q_fields_map (merge ns)) = Some tq) as Hget.
    { unfold q_fields_map. rewrite <-Htn. rewrite of_pairs_NoDup.
      - apply dget_NoDup; [by rewrite (bare_result_keys _ Hbm) || unfold dkeys; rewrite map_map; cbn|]. apply elem_of_list_fmap. by exists tq.
      - unfold dkeys. rewrite map_map. cbn. done. }
    eexists. split.
    { unfold sub_job. rewrite Hsg. fold ns. rewrite Hget, Hn', Htl. reflexivity. }
    split; [|cbn; eauto]. split; cbn [j_graph j_root j_this j_query].
    - eauto.
    - split; [done|]. exists ns. cbn. split; [apply filter_sublist|]. split; [done|]. intros q Hq (q' & He & Hq')%elem_of_list_fmap.
      apply of_root_elem in Hq' as [_ Ht]. apply Hall; [done|congruence].
    - intros gn1 n1 [= <- <-]. split; [right; eauto|]. apply (merged_sub G' gn' ns); try done. intros f Hf He. apply Hall; [done|congruence].
    - by rewrite (bare_result_keys _ Hbm).
  Qed.

  Lemma good_visited J gn n : wf_graph E parts (j_graph J) -> sub_good J -> jvisited J gn n -> node_of (j_graph J) gn /\ good (j_graph J) gn n.
  Proof.
    intros Hwf Hg. induction 1 as [|gn n Ht|gn n q l gn' Hv [IH1 IH2] Hq Hl Hf Hn].
    - split; [by left|apply Hg].
    - by apply Hg.
    - split; [right; eauto|]. by eapply good_link.
  Qed.

  (** What holds of all the jobs *)
  Definition level_ok (J : job) : Prop := exists b, b <= j_level J /\ uses_below b (j_graph J).
  Lemma expr_ok J gn name f q : wf_graph E parts (j_graph J) -> level_ok J -> node_of (j_graph J) gn -> find_field gn name = Some (GF f) ->
    (is_expr f -> forall op, op ∈ gf_opts f -> is_Some (dget (go_name op) (opt_dict (q_opts q)))) -> field_ok J gn f q.
  Proof.
    intros Hwf (b & Hb & Hu) Hno Hf Ho. unfold field_ok. destruct (gf_func f) as [|sg rq pr] eqn:Hfn; [done|].
    destruct (wg_exprs _ _ _ Hwf _ _ _ _ _ _ Hno Hf Hfn) as (H1 & H2 & _). split; [done|]. split; [|split; [done|apply Ho; unfold is_expr; eauto]].
    pose proof (Hu _ _ _ _ _ _ Hno Hf Hfn). lia.
  Qed.
  Lemma req_ok J gn name l : wf_graph E parts (j_graph J) -> level_ok J -> node_of (j_graph J) gn -> find_field gn name = Some (GL l) ->
    match gl_requires l with
    | Some r => r <> [] /\ exists f, find_field gn r = Some (GF f) /\ field_ok J gn f (QF r None None)
    | None => True
    end.
  Proof.
    intros Hwf Hlv Hno Hf. destruct (gl_requires l) as [r|] eqn:Er; [|done].
    destruct (wg_links _ _ _ Hwf _ _ _ Hno Hf) as [_ Hr]. destruct (Hr r Er) as (Hne & f & Hff & Ho). split; [done|]. exists f. split; [done|].
    eapply expr_ok; try done. intros Hx op Hop. rewrite (Ho Hx) in Hop. by apply not_elem_of_nil in Hop.
  Qed.
  Lemma sub_supported J : wf_graph E parts (j_graph J) -> find_field (g_root (j_graph J)) THIS = None -> level_ok J -> sub_good J -> jsupported E J.
  Proof.
    intros Hwf Hth Hlv Hg.
    assert (forall gn q, jasked J gn q -> node_of (j_graph J) gn /\ (exists it, find_field gn (q_name q) = Some it) /\ q_opts q = None) as Hask.
    { intros gn q (n & Hv & Hq). destruct (good_visited J gn n Hwf Hg Hv) as [Hno Hgood]. split; [done|].
      destruct Hq as [Hq|(q' & l & r & Hq & Hl & Hf & Hr & ->)].
      - destruct (good_names _ _ _ Hgood) as [_ Hb]. destruct (Hb q Hq) as [Ho _]. split; [|done].
        destruct (good_item _ _ _ _ Hgood Hq) as (q0 & He & _ & Hfit). rewrite <-He.
        destruct (fits_head _ _ _ Hfit) as [(f & Hf & _)|(l & Hf & _)]; eauto.
      - pose proof (req_ok J gn _ l Hwf Hlv Hno Hf) as Hrq. rewrite Hr in Hrq. destruct Hrq as (_ & f & Hff & _). cbn. eauto. }
    split.
    - intros gn n q Hv Hq. destruct (good_visited J gn n Hwf Hg Hv) as [Hno Hgood]. destruct (good_item _ _ _ _ Hgood Hq) as (q0 & He & Hl & Hfit).
      destruct (fits_head _ _ _ Hfit) as [(f & Hf & _ & Ho)|(l & Hf & Hl' & _)]; rewrite He in Hf; rewrite Hf.
      + split; [|intros _; apply Hgood]. eapply expr_ok; try done. intros Hx op Hop. rewrite (Ho Hx) in Hop. by apply not_elem_of_nil in Hop.
      + split; [congruence|]. split; [by eapply wg_links|by eapply req_ok].
    - intros gn n Hv. destruct (good_visited J gn n Hwf Hg Hv) as [Hno Hgood]. destruct (good_names _ _ _ Hgood) as [Hnd Hb]. by rewrite (bare_result_keys _ Hb).
    - apply Hg.
    - intros gn q (Hno & (it & Hf) & _)%Hask. by eapply wg_names.
    - intros gn q1 q2 (_ & _ & H1)%Hask (_ & _ & H2)%Hask _ _. rewrite H1, H2. apply sv_refl.
    - apply Hwf.
    - intros _ q (_ & (it & Hf) & _)%Hask He. rewrite He in Hf. congruence.
    - intros gn n sg qs Hv Hgr. destruct (good_visited J gn n Hwf Hg Hv) as [Hno _].
      destruct (sub_job_good J gn n sg qs Hwf Hno Hgr) as (J' & -> & _). by eexists.
  Qed.

  Context (g : graph) (q : qnode).
  Hypothesis Hwf : wf_graph E parts g.
  Hypothesis Hask : asks_ok g q.
  Notation J0 := (top_job E g q).
  Lemma top_visited gn n : jvisited J0 gn n -> visited g q gn n /\ node_of g gn.
  Proof.
    induction 1 as [|gn n Ht|gn n it l gn' Hv [IH1 IH2] Hq Hl Hf Hn]; [split; [constructor|by left]|done|].
    split; [by eapply vis_link|right; eauto].
  Qed.
  Lemma top_level : level_ok J0.
  Proof.
    exists (length (e_sgs E)). split; [done|]. intros gn name f sg rq pr Hno Hf Hfn. cbn in Hno.
    destruct (wg_exprs _ _ _ Hwf _ _ _ _ _ _ Hno Hf Hfn) as (_ & _ & _ & G' & node & gn' & Hsg & _). by eapply lookup_lt_Some.
  Qed.
  Lemma top_supported : jsupported E J0.
  Proof.
    assert (forall gn it, jasked J0 gn it -> asked g q gn it /\ node_of g gn /\ exists x, find_field gn (q_name it) = Some x) as Ha.
    { intros gn it (n & Hv & Hq). destruct (top_visited _ _ Hv) as [Hv' Hno]. split; [exists n; done|]. split; [done|].
      destruct Hq as [Hq|(q' & l & r & Hq & Hl & Hf & Hr & ->)].
      - pose proof (ao_items _ _ Hask _ _ _ Hv' Hq) as Hi. destruct (find_field gn (q_name it)); [eauto|done].
      - pose proof (req_ok J0 gn _ l Hwf top_level Hno Hf) as Hrq. rewrite Hr in Hrq. destruct Hrq as (_ & f & Hff & _). cbn. eauto. }
    split; cbn [j_graph j_query j_this top_job].
    - intros gn n it Hv Hq. destruct (top_visited _ _ Hv) as [Hv' Hno]. pose proof (ao_items _ _ Hask _ _ _ Hv' Hq) as Hi.
      destruct (find_field gn (q_name it)) as [[f|l]|] eqn:Ef; [| |done].
      + destruct Hi as [Ho Hl]. split; [|done]. eapply expr_ok; try done. apply top_level.
      + split; [done|]. split; [by eapply wg_links|]. eapply (req_ok J0); try done. apply top_level.
    - intros gn n [Hv _]%top_visited. by eapply ao_keys.
    - apply (ao_keys _ _ Hask (g_root g)). constructor.
    - intros gn it (_ & Hno & x & Hf)%Ha. by eapply wg_names.
    - intros gn q1 q2 [H1 _]%Ha [H2 _]%Ha. by apply (ao_coll _ _ Hask gn).
    - apply Hwf.
    - intros [? ?]. done.
    - intros gn n sg qs Hv Hgr. destruct (top_visited _ _ Hv) as [_ Hno]. destruct (sub_job_good J0 gn n sg qs Hwf Hno Hgr) as (J' & -> & _). by eexists.
  Qed.

  Lemma reached_ok J : reached E J0 J -> wf_graph E parts (j_graph J) /\ level_ok J /\ (J = J0 \/ (sub_good J /\ find_field (g_root (j_graph J)) THIS = None)).
  Proof.
    induction 1 as [|J gn n sg qs J' Hr (Hw & Hlv & IH) Hv Hgr Hj].
    - split; [done|]. split; [apply top_level|by left].
    - assert (node_of (j_graph J) gn) as Hno.
      { destruct IH as [->|[Hg _]]; [by apply (top_visited gn n)|]. by apply (good_visited J gn n). }
      destruct (sub_job_good J gn n sg qs Hw Hno Hgr) as (J2 & Hj2 & Hg2 & Hl2 & node & Hsg). rewrite Hj in Hj2. injection Hj2 as <-.
      destruct (we_graphs _ _ Henv _ _ _ Hsg) as [Hw' Ht]. split; [done|]. split; [|by right].
      exists sg. split; [|by eapply we_nested].
      destruct Hlv as (b & Hb & Hu). destruct Hgr as (Hne & _ & Hov & _). destruct qs as [|q0 qs]; [done|].
      destruct (Hov q0 ltac:(left)) as (f & rq & pr & Hf & Hfn). pose proof (Hu _ _ _ _ _ _ Hno Hf Hfn). lia.
  Qed.
  Theorem C04_sound_graph : all_supported E g q.
  Proof.
    intros J (Hw & Hlv & [->|[Hg Ht]])%reached_ok; [apply top_supported|by apply sub_supported].
  Qed.
End wf.

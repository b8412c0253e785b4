(** One query of an execution with sub-graphs: the values which belong into its index, and reading them. *)
From stdpp Require Import relations.
From Verif Require Import Base Val Query QuerySpec QueryProof MergeProof Graph Queue QueueSpec QueueProof PropQueue Result Engine EngineApi EngineSpec SplitProof EngineProof BatchProof PropTrace SubSpec.

(** ** Options which mean the same *)
Definition got (a b : option val) : Prop :=
  match a, b with Some v, Some w => same_val v w | None, None => True | _, _ => False end.
Lemma got_refl a : got a a. Proof. destruct a; [apply sv_refl|done]. Qed.
Lemma got_sym a b : got a b -> got b a. Proof. destruct a, b; try done. apply sv_sym. Qed.
Lemma got_trans a b c : got a b -> got b c -> got a c. Proof. destruct a, b, c; try done. apply sv_trans. Qed.
Definition dict_like (v w : val) : Prop :=
  match v, w with
  | VDict d, VDict d' => forall k, got (dget k d) (dget k d')
  | VDict _, _ | _, VDict _ => False
  | _, _ => True
  end.
Lemma dget_opts_val (d : list (str * val)) k :
  dget k (map (fun p => (VStr p.1, p.2)) d) = match k with VStr n => dget n d | _ => None end.
Proof.
  induction d as [|[n v] d IH]; cbn; [by destruct k|]. rewrite IH. destruct k; try (by rewrite decide_False by done).
  destruct (decide (_ = n)) as [->|Hne]; [by rewrite decide_True|]. rewrite decide_False; [done|]. congruence.
Qed.
Lemma dget_perm (d d' : list (str * val)) k : NoDup (map fst d) -> d ≡ₚ d' -> dget k d = dget k d'.
Proof.
  intros Hn Hp. assert (NoDup (map fst d')) as Hn' by by rewrite <-Hp.
  destruct (dget k d) as [v|] eqn:E1.
  - symmetry. apply dget_NoDup; [done|]. apply dget_Some_elem in E1. by rewrite <-Hp.
  - symmetry. apply dget_None. apply dget_None in E1. unfold dkeys in *. by rewrite <-Hp.
Qed.
Lemma same_val_dict v w : same_val v w -> dict_like v w.
Proof.
  induction 1 as [v|v w _ IH|u v w _ IH1 _ IH2|l1 v w l2 _ _|d d' Hn Hp|d1 k v w d2 Hs _].
  - destruct v; cbn; try done. intros k. apply got_refl.
  - destruct v, w; cbn in *; try done. intros k. by apply got_sym.
  - destruct u, v, w; cbn in *; try done. intros k. by eapply got_trans.
  - done.
  - cbn. intros k. rewrite !dget_opts_val. destruct k; try done. rewrite (dget_perm d d') by done. apply got_refl.
  - cbn. intros k'. induction d1 as [|[k1 v1] d1 IH]; cbn.
    + destruct (decide (k' = k)); [done|apply got_refl].
    + destruct (decide (k' = k1)); [apply sv_refl|exact IH].
Qed.
Lemma same_opts_get o o' k : same_opts o o' -> got (dget k (opt_dict o)) (dget k (opt_dict o')).
Proof.
  intros Hs%same_val_dict. cbn in Hs. specialize (Hs (VStr k)). by rewrite !dget_opts_val in Hs.
Qed.
Lemma given_same f o o' : same_opts o o' -> Forall2 same_val (given f o) (given f o').
Proof.
  intros Hs. unfold given. induction (gf_opts f) as [|op ops IH]; cbn; [constructor|]. constructor; [|done].
  pose proof (same_opts_get o o' (go_name op) Hs) as Hg. destruct (dget _ (opt_dict o)), (dget _ (opt_dict o')); try done. apply sv_refl.
Qed.

(** ** Merging requirements *)
Inductive qcov : qitem -> qitem -> Prop :=
| qc q q' : q_name q = q_name q' -> q_opts q = None -> q_opts q' = None -> q_alias q = None -> q_alias q' = None -> q_is_link q = q_is_link q' ->
    (forall s, s ∈ qfields (q_node q) -> exists s', s' ∈ qfields (q_node q') /\ qcov s s') -> qcov q q'.
Lemma bare_opts q : bare q -> q_opts q = None /\ q_alias q = None.
Proof. destruct q; cbn; tauto. Qed.
Lemma bare_foldr sub : foldr (fun q' P => bare q' /\ P) True sub <-> forall q, q ∈ sub -> bare q.
Proof.
  induction sub as [|q sub IH]; cbn; [split; [intros _ q Hq; by apply not_elem_of_nil in Hq|done]|].
  rewrite IH. setoid_rewrite elem_of_cons. split.
  - intros [H1 H2] q' [->|Hq]; auto.
  - intros Ha. split; [apply Ha; by left|]. intros; apply Ha; by right.
Qed.
Lemma bare_sub q : bare q -> qordered (q_node q) = false /\ forall s, s ∈ qfields (q_node q) -> bare s.
Proof.
  destruct q as [n o a|n sub ord o a]; cbn.
  - intros _. split; [done|]. intros s Hs. by apply not_elem_of_nil in Hs.
  - intros (_ & _ & -> & Hs). split; [done|]. by apply bare_foldr.
Qed.
Section merged.
  Context `{Hasher}.
  Lemma label_merged ns q : q ∈ qfields (merge ns) -> exists q', q' ∈ items_of ns /\ label_of q = label_of q'.
  Proof.
    rewrite merge_fields, elem_of_app. intros [Hq|Hq].
    - apply dedupF_elem in Hq as (Hq & _). eauto.
    - unfold mlinks in Hq. apply elem_of_list_fmap in Hq as ([f ss] & -> & Hf). apply elem_of_link_groups in Hf as (fs & Ef & _).
      assert (f ∈ links_k (merge_key f) (items_of ns)) as (Hin & _)%elem_of_links_k by (rewrite Ef; left).
      exists f. cbn. split; [done|]. apply label_copy.
  Qed.
  Lemma merge_qcov ns : forall n q, n ∈ ns -> (forall n, n ∈ ns -> forall q, q ∈ qfields n -> bare q) -> q ∈ qfields n ->
    exists q', q' ∈ qfields (merge ns) /\ qcov q q'.
  Proof.
    induction ns as [ns IH] using ns_ind. intros n q Hn Hb Hq.
    assert (q ∈ items_of ns) as Hin by (apply elem_of_items; eauto).
    assert (forall f, f ∈ items_of ns -> bare f) as Hbi by (intros f (m & Hm & Hf)%elem_of_items; by eapply Hb).
    rewrite merge_fields. destruct (q_is_link q) eqn:El.
    - destruct (links_k (merge_key q) (items_of ns)) as [|f fs] eqn:Ef.
      { assert (q ∈ links_k (merge_key q) (items_of ns)) as Hx by by apply elem_of_links_k. rewrite Ef in Hx. by apply not_elem_of_nil in Hx. }
      assert (f ∈ links_k (merge_key q) (items_of ns)) as (Hf & Hfl & Hfk)%elem_of_links_k by (rewrite Ef; left).
      assert (copy_node f (merge (subs (merge_key q) (items_of ns))) ∈ links_k (merge_key q) (mlinks (items_of ns))) as (Hm & _)%elem_of_links_k
        by (rewrite mlinks_k, Ef; left).
      eexists. split; [apply elem_of_app; right; exact Hm|].
      destruct (bare_opts q (Hbi _ Hin)) as [Ho Ha], (bare_opts f (Hbi _ Hf)) as [Ho' Ha'].
      unfold merge_key in Hfk. injection Hfk as Hnm _ _.
      pose proof (label_copy f (merge (subs (merge_key q) (items_of ns)))) as Hlab. unfold label_of in Hlab. injection Hlab as L1 L2 L3 L4.
      unfold islink in Hfl. constructor; try congruence.
      + rewrite q_node_copy by done. intros t Ht. apply (IH (subs (merge_key q) (items_of ns))) with (n := q_node q); [| | |done].
        * pose proof (subs_depth (merge_key q) ns (or_intror I)) as Hd. rewrite Ef in Hd. by apply Hd.
        * apply elem_of_list_fmap. exists q. split; [done|]. by apply elem_of_links_k.
        * intros m Hm' q2 Hq2. apply elem_of_list_fmap in Hm' as (f2 & -> & (Hf2 & _)%elem_of_links_k).
          destruct (bare_sub f2 (Hbi _ Hf2)) as [_ Hs]. by apply Hs.
    - assert (merge_key q ∈ map merge_key (dedupF [] (items_of ns))) as Hk.
      { apply dedupF_keys. split; [apply not_elem_of_nil|]. exists q. split_and!; [done| |done]. unfold islink. congruence. }
      apply elem_of_list_fmap in Hk as (f & Hfk & Hf). pose proof (dedupF_elem _ _ _ Hf) as (Hfi & Hfl & _).
      exists f. split; [apply elem_of_app; by left|].
      destruct (bare_opts q (Hbi _ Hin)) as [Ho Ha], (bare_opts f (Hbi _ Hfi)) as [Ho' Ha'].
      unfold merge_key in Hfk. injection Hfk as Hnm _ _. constructor; try done.
      + rewrite El. unfold islink in Hfl. by destruct (q_is_link f).
      + destruct q; [|done]. cbn. intros t Ht. by apply not_elem_of_nil in Ht.
  Qed.
End merged.

(** ** One job *)
Definition this_slot : slot := (ROOT.1, ROOT.2, THIS).
Definition oids (ids : option (list val)) : list (option val) :=
  match ids with None => [None] | Some l => map Some l end.
Definition duty : Type := gnode -> option val -> qitem -> Prop.
Definition no_duty : duty := fun _ _ _ => False.
Definition objref (gn : gnode) (i : option val) : str * val :=
  match gn_name gn, i with Some n, Some v => (n, v) | _, _ => ROOT end.
Definition slot_of (gn : gnode) (i : option val) (key : str) : slot :=
  ((objref gn i).1, (objref gn i).2, key).
Definition stored (idx : index) (gn : gnode) (i : option val) (key : str) : Prop :=
  is_Some (dget (slot_of gn i key) idx).
Definition many_result (ids : option (list val)) (l : glink) : bool :=
  match ids, gl_requires l with Some _, Some _ => true | _, _ => false end.

Lemma stored_update idx ps gn i k : stored idx gn i k -> stored (dupdate idx ps) gn i k.
Proof. unfold stored. rewrite dget_dupdate. destruct (dget _ (reverse ps)); [eauto|done]. Qed.
Lemma stored_update_in idx (ps : list (slot * ival)) gn i k v : (slot_of gn i k, v) ∈ ps -> stored (dupdate idx ps) gn i k.
Proof.
  intros Hin. unfold stored. rewrite dget_dupdate. destruct (dget _ (reverse ps)) eqn:Er; [eauto|].
  exfalso. apply dget_None in Er. apply Er. unfold dkeys. apply elem_of_list_fmap. eexists; split; [|by apply elem_of_reverse]. done.
Qed.

Section job.
  Context `{Hasher} (E : env) (D : data) (J0 : job) (J : job) (ids0 : list val).
  Notation g := (j_graph J).
  Notation fv := (field_val E D (j_level J)).
  Hypothesis Hresp : respects_options D.
  Hypothesis Hreads : reads_by_name E.
  Hypothesis Hsup : jsupported E J.
  Notation visited := (jvisited J).
  Notation asked := (jasked J).

  Definition good_obj (gn : gnode) (i : option val) : Prop :=
    match i with None => gn = g_root g | Some _ => exists nm, find_node g nm = Some gn end.
  Definition obj_ids (gn : gnode) (ids : option (list val)) : Prop :=
    match ids with None => gn = g_root g | Some l => l <> [] /\ exists nm, find_node g nm = Some gn end.
  (** The objects of a call are among those met *)
  Definition met_ids (gn : gnode) (n : qnode) (ids : option (list val)) : Prop :=
    obj_ids gn ids /\ forall i, i ∈ oids ids -> met E D J0 J gn i n.
  Lemma obj_ids_ne gn ids : obj_ids gn ids -> oids ids <> [].
  Proof. destruct ids as [[|]|]; simpl; [by intros [? _]|done|done]. Qed.
  Lemma obj_ids_good gn ids i : obj_ids gn ids -> i ∈ oids ids -> good_obj gn i.
  Proof.
    destruct ids as [l|]; simpl.
    - intros [_ Hn] Hi. apply elem_of_list_fmap in Hi as (v & -> & _). done.
    - intros -> ->%elem_of_list_singleton. done.
  Qed.

  Lemma objref_inj gn i gn' i' :
    good_obj gn i -> good_obj gn' i' -> objref gn i = objref gn' i' -> gn = gn' /\ i = i'.
  Proof.
    assert (forall nm gn v, find_node g nm = Some gn -> ROOT <> (nm, v)) as Hroot.
    { intros nm gn2 v Hf Heq. unfold ROOT in Heq. injection Heq as Hn _.
      pose proof (js_root _ _ Hsup) as Hr. rewrite Hn in Hr. congruence. }
    unfold objref. destruct i as [v|], i' as [v'|]; simpl.
    - intros [nm Hn] [nm' Hn']. rewrite (find_node_name _ _ _ Hn), (find_node_name _ _ _ Hn').
      intros [= -> ->]. split; [congruence|done].
    - intros [nm Hn] ->. rewrite (find_node_name _ _ _ Hn). simpl. intros Heq. symmetry in Heq.
      by eapply Hroot in Heq.
    - intros -> [nm Hn]. rewrite (find_node_name _ _ _ Hn). simpl. intros Heq. by eapply Hroot in Heq.
    - by intros -> ->.
  Qed.
  Lemma slot_of_inj gn i k gn' i' k' :
    good_obj gn i -> good_obj gn' i' -> slot_of gn i k = slot_of gn' i' k' -> gn = gn' /\ i = i' /\ k = k'.
  Proof.
    intros Hg Hg'. unfold slot_of. intros [= H1 H2 H3].
    destruct (objref_inj gn i gn' i' Hg Hg'); [by apply injective_projections|]. done.
  Qed.

  Definition ref_value (l : glink) (v : val) : ival :=
    match gl_enum l with
    | Maybe => match v with VNothing => IVal VNone | _ => IRef (gl_node l) v end
    | One => IRef (gl_node l) v
    | Many => IRefs (map (fun i => (gl_node l, i)) (seq_items v))
    end.
  Definition cell (gn : gnode) (i : option val) (q : qitem) : val := field_value fv gn i (q_name q) (q_opts q).
  Definition ideal (gn : gnode) (i : option val) (q : qitem) : ival :=
    match find_field gn (q_name q) with
    | Some (GF f) => IVal (fv f i (q_name q) (q_opts q))
    | Some (GL l) => ref_value l (link_value fv D gn i l q)
    | None => IVal VNone
    end.
  Lemma ideal_cell gn i q f : find_field gn (q_name q) = Some (GF f) -> ideal gn i q = IVal (cell gn i q).
  Proof. intros Hf. unfold ideal, cell, field_value. by rewrite Hf. Qed.

  Lemma fv_same f i n o o' : same_opts o o' -> fv f i n o = fv f i n o'.
  Proof.
    intros Ho. destruct (j_level J) as [|k]; cbn; unfold plain_value, field_with; destruct (gf_func f) as [m|sg rq pr]; try done;
      try by apply Hresp.
    destruct (e_sgs E !! sg) as [[G' node]|]; [|done]. destruct i as [j|]; [|done]. destruct (find_node G' node); [|done].
    unfold expr_result. destruct Hreads as [_ Hr]. by rewrite (Hr _ _ _ (given f o) (given f o') (given_same f o o' Ho)).
  Qed.

  Lemma ideal_same gn i q q' :
    asked gn q -> asked gn q' -> index_key q = index_key q' -> ideal gn i q = ideal gn i q'.
  Proof.
    intros Ha Ha' Hk. unfold index_key in Hk.
    apply index_key_inj in Hk as [Hn Ho]; [|by eapply (js_bracket _ _ Hsup)..].
    pose proof (js_coll _ _ Hsup gn q q' Ha Ha' Hn Ho) as Hs.
    unfold ideal. rewrite Hn. destruct (find_field gn (q_name q')) as [[f|l]|]; [|  |done].
    - f_equal. by apply fv_same.
    - f_equal. unfold link_value, link_opts. destruct (gl_opts l); [done|]. by apply Hresp.
  Qed.

  (** The index: every value is the one which belongs there *)
  Definition this_value (v : ival) : Prop :=
    exists gn n nm, j_this J = Some (gn, n) /\ gn_name gn = Some nm /\ v = IRefs (map (fun i => (nm, i)) ids0).
  Definition sound (idx : index) : Prop :=
    forall k v, dget k idx = Some v ->
      (exists gn i q, asked gn q /\ good_obj gn i /\ k = slot_of gn i (index_key q) /\ v = ideal gn i q) \/
      (k = this_slot /\ this_value v).
  Lemma this_slot_not gn i q : is_Some (j_this J) -> asked gn q -> good_obj gn i -> slot_of gn i (index_key q) <> this_slot.
  Proof.
    intros Ht Ha Hg Heq. assert (this_slot = slot_of (g_root g) None THIS) as Hts.
    { unfold this_slot, slot_of, objref. by destruct (gn_name (g_root g)). }
    rewrite Hts in Heq. apply slot_of_inj in Heq as (-> & -> & Hk); [|done|done].
    assert (index_key_of (q_name q) (q_opts q) = index_key_of THIS None) as Hk' by exact Hk.
    apply index_key_inj in Hk' as [Hn _].
    - by apply (js_this _ _ Hsup Ht q).
    - by eapply (js_bracket _ _ Hsup).
    - apply (bool_decide_unpack _). vm_compute. exact I.
  Qed.
  Lemma sound_get idx gn i q v :
    sound idx -> asked gn q -> good_obj gn i -> dget (slot_of gn i (index_key q)) idx = Some v -> v = ideal gn i q.
  Proof.
    intros Hs Ha Hg Hd. destruct (Hs _ _ Hd) as [(gn' & i' & q' & Ha' & Hg' & Hk & ->)|[Hk (gn' & n & nm & Ht & _)]].
    - apply slot_of_inj in Hk as (-> & -> & Hk); [|done..]. by apply ideal_same.
    - by destruct (this_slot_not gn i q ltac:(eauto) Ha Hg).
  Qed.
  Lemma sound_this idx v : sound idx -> is_Some (j_this J) -> dget this_slot idx = Some v -> this_value v.
  Proof.
    intros Hs Ht Hd. destruct (Hs _ _ Hd) as [(gn' & i' & q' & Ha' & Hg' & Hk & ->)|[Hk Hv]]; [|done].
    symmetry in Hk. by destruct (this_slot_not gn' i' q' Ht Ha' Hg').
  Qed.

  (** Coverage *)
  Inductive cov (idx : index) (P : duty) : gnode -> option val -> qitem -> Prop :=
  | cov_P gn i q : P gn i q -> cov idx P gn i q
  | cov_field gn i q f : stored idx gn i (index_key q) -> find_field gn (q_name q) = Some (GF f) -> cov idx P gn i q
  | cov_link gn i q l gn' :
      stored idx gn i (index_key q) -> q_is_link q = true ->
      find_field gn (q_name q) = Some (GL l) -> find_node g (gl_node l) = Some gn' ->
      (forall j q', j ∈ targets l (link_value fv D gn i l q) -> q' ∈ qfields (q_node q) -> cov idx P gn' (Some j) q') ->
      cov idx P gn i q.
  Lemma cov_mono idx (P : duty) idx' (P' : duty) gn i q :
    (forall gn i q, P gn i q -> cov idx' P' gn i q) ->
    (forall gn i k, stored idx gn i k -> stored idx' gn i k) ->
    cov idx P gn i q -> cov idx' P' gn i q.
  Proof.
    intros HP Hs Hc. induction Hc as [gn i q Hp|gn i q f Hst Hf|gn i q l gn' Hst Hl Hf Hn Hsub IH].
    - auto.
    - eapply cov_field; eauto.
    - eapply cov_link; eauto.
  Qed.
  (** all that is asked of the job *)
  Definition covered (idx : index) (P : duty) : Prop :=
    (forall q, q ∈ qfields (j_root J) -> cov idx P (g_root g) None q) /\
    (forall gn n j q, j_this J = Some (gn, n) -> j ∈ ids0 -> q ∈ qfields n -> cov idx P gn (Some j) q).

  (** Members *)
  Definition lnk (gn : gnode) (n : qnode) (l : glink) (q : qitem) : Prop :=
    visited gn n /\ q ∈ qfields n /\ q_is_link q = true /\ find_field gn (q_name q) = Some (GL l).
  Definition isfld (gn : gnode) (q : qitem) : Prop := asked gn q /\ exists fd, find_field gn (q_name q) = Some (GF fd).
  Definition fld (gn : gnode) (n : qnode) (f : N) (q : qitem) : Prop :=
    visited gn n /\ asked_by gn n q /\ exists fd, find_field gn (q_name q) = Some (GF fd) /\ gf_func fd = FPlain f.
  Definition sfld (gn : gnode) (n : qnode) (sg : nat) (fields : list (gitem * qitem)) : Prop :=
    visited gn n /\ grouped gn n sg (map snd fields) /\
    forall go q, (go, q) ∈ fields -> find_field gn (q_name q) = Some go /\ asked_by gn n q.
  Definition fields_ok (gn : gnode) (n : qnode) (fk : fkey) (fields : list (gitem * qitem)) : Prop :=
    match fk with KPlain f => loaded_together gn n f (map snd fields) /\ forall p, p ∈ fields -> fld gn n f p.2 | KSub sg => sfld gn n sg fields end.
  Definition step_ok (gn : gnode) (n : qnode) (sp : step) : Prop :=
    match sp with StFields fk l => fields_ok gn n fk l | StLink l q => lnk gn n l q end.
  Definition req_arg (gn : gnode) (l : glink) (ids : option (list val)) : option reqs :=
    match gl_requires l with
    | None => None
    | Some r => Some (match ids with
                      | None => ROne (IVal (field_value fv gn None r None))
                      | Some is_ => RList (map (fun i => IVal (field_value fv gn (Some i) r None)) is_)
                      end)
    end.
  Definition field_call (gn : gnode) (n : qnode) (qfs : list qitem) (ids : option (list val)) (f : N) (c : call) : Prop :=
    c = Call f (e_ctx E f) (AFields qfs ids) /\ loaded_together gn n f qfs /\ forall q, q ∈ qfs -> fld gn n f q.
  Definition link_call (gn : gnode) (n : qnode) (l : glink) (q : qitem) (ids : option (list val)) (c : call) : Prop :=
    c = Call (gl_func l) (e_ctx E (gl_func l)) (ALink (req_arg gn l ids) (link_opts l q)) /\ lnk gn n l q.
  Definition job_call (c : call) : Prop :=
    (exists gn n qfs ids f, met_ids gn n ids /\ field_call gn n qfs ids f c) \/
    (exists gn n l q ids, met_ids gn n ids /\ link_call gn n l q ids c).
  Lemma met_ids_met gn n ids : met_ids gn n ids -> ids_met E D J0 J gn n ids.
  Proof.
    intros [Ho Hm]. destruct ids as [l|]; cbn in *.
    - split; [apply Ho|]. intros i Hi. apply Hm. by apply elem_of_list_fmap_1.
    - apply Hm. left.
  Qed.
  Lemma job_call_met c : job_call c -> call_met E D J0 c.
  Proof.
    intros [(gn & n & qfs & ids & f & Hm%met_ids_met & -> & Ht & Hf)|(gn & n & l & q & ids & Hm%met_ids_met & -> & Hv & Hq & Hl & Hf)]; exists J, gn, n, ids; cbn.
    - split; [done|]. split; [done|]. split; [done|]. split; [done|]. intros q Hq. by destruct (Hf q Hq) as (_ & Ha & _).
    - split; [done|]. split; [done|]. exists l, q. split_and!; try done. unfold req_arg. by destruct (gl_requires l), ids.
  Qed.

  Lemma fld_is gn n f q : fld gn n f q -> isfld gn q.
  Proof. intros (Hv & Ha & fd & Hf & _). split; [by exists n|eauto]. Qed.
  Lemma fields_is gn n fk fields q : fields_ok gn n fk fields -> q ∈ map snd fields -> isfld gn q.
  Proof.
    intros Hf ([go q'] & -> & Hin)%elem_of_list_fmap. destruct fk as [f|sg].
    - apply (fld_is _ n f). destruct Hf as [_ Hf]. by apply (Hf (go, q')).
    - destruct Hf as (Hv & (_ & _ & Hg & _) & Hf). destruct (Hf _ _ Hin) as [_ Ha]. split; [by exists n|].
      destruct (Hg q') as (fd & _ & _ & Hfd & _); [|eauto]. apply elem_of_list_fmap. by exists (go, q').
  Qed.

  Lemma lnk_req gn n l q r : lnk gn n l q -> gl_requires l = Some r ->
    r <> [] /\ asked gn (QF r None None) /\ (exists f, find_field gn r = Some (GF f)).
  Proof.
    intros (Hv & Hq & Hl & Hf) Hr. pose proof (js_items _ _ Hsup _ _ _ Hv Hq) as Hs. rewrite Hf, Hr in Hs.
    destruct Hs as (_ & _ & Hne & f & Hfr & _). split; [done|]. split; [|eauto]. exists n. split; [done|]. right. eauto 10.
  Qed.
  Lemma lnk_req_true gn n l q : lnk gn n l q -> req_true l = gl_requires l.
  Proof.
    intros Hl. destruct (gl_requires l) as [r|] eqn:Er.
    - apply req_true_eq; [done|]. by eapply lnk_req.
    - by apply req_true_none.
  Qed.
  Lemma lnk_asked gn n l q : lnk gn n l q -> asked gn q.
  Proof. intros (Hv & Hq & _). exists n. split; [done|by left]. Qed.
  Lemma lnk_ideal gn n i l q : lnk gn n l q -> ideal gn i q = ref_value l (link_value fv D gn i l q).
  Proof. intros (_ & _ & _ & Hf). unfold ideal. by rewrite Hf. Qed.

  Lemma link_reqs_spec idx gn l r ids :
    sound idx -> obj_ids gn ids -> gl_requires l = Some r ->
    asked gn (QF r None None) -> (exists f, find_field gn r = Some (GF f)) ->
    (forall i, i ∈ oids ids -> stored idx gn i r) ->
    exists a, link_reqs idx gn r ids = Ok a /\ req_arg gn l ids = Some a.
  Proof.
    intros Hs Ho Hr Ha [f Hf] Hst. unfold req_arg. rewrite Hr. unfold link_reqs.
    assert (forall i, i ∈ oids ids -> dget (slot_of gn i r) idx = Some (IVal (field_value fv gn i r None))) as Hget.
    { intros i Hi. destruct (Hst i Hi) as [v Hv].
      pose proof (sound_get idx gn i (QF r None None) v Hs Ha (obj_ids_good _ _ _ Ho Hi)) as Hx.
      unfold index_key in Hx. simpl in Hx. rewrite Hv. f_equal. rewrite Hx; [|done]. unfold ideal, field_value. simpl. by rewrite Hf. }
    destruct ids as [is_|]; simpl in *.
    - destruct Ho as [Hne' [nm Hn]]. rewrite (find_node_name _ _ _ Hn) in *.
      assert (mapR (fun i => from_opt KeyError (dget (nm, i, r) idx)) is_
              = Ok (map (fun i => IVal (field_value fv gn (Some i) r None)) is_)) as Hm.
      { clear Hne'. induction is_ as [|i is_ IH]; simpl; [done|].
        assert (dget (nm, i, r) idx = Some (IVal (field_value fv gn (Some i) r None))) as Hi.
        { specialize (Hget (Some i) ltac:(left)). unfold slot_of, objref in Hget.
          rewrite (find_node_name _ _ _ Hn) in Hget. done. }
        rewrite Hi. simpl. rewrite IH; [done| |].
        - intros j Hj. apply Hst. by right.
        - intros j Hj. apply Hget. by right. }
      rewrite Hm. eauto.
    - subst gn. specialize (Hget None ltac:(left)).
      exists (ROne (IVal (field_value fv (g_root g) None r None))). split; [|done].
      change (match dget (slot_of (g_root g) None r) idx with Some v => Ok (ROne v) | None => Err KeyError end
              = Ok (ROne (IVal (field_value fv (g_root g) None r None)))). by rewrite Hget.
  Qed.

  Context (Hserve : serves_met E D J0) (Hdata : mdata E D J0 J).

  Lemma fv_plain fd m i n o : gf_func fd = FPlain m -> fv fd i n o = d_field D m i n o.
  Proof. intros Hm. destruct (j_level J); cbn; unfold plain_value, field_with; by rewrite Hm. Qed.

  (** ** Storing *)
  Definition good_pair (gn : gnode) (ids : option (list val)) (p : slot * ival) : Prop :=
    exists i q, asked gn q /\ good_obj gn i /\ p.1 = slot_of gn i (index_key q) /\ p.2 = ideal gn i q.
  Lemma sound_update idx gn ids ps : sound idx -> Forall (good_pair gn ids) ps -> sound (dupdate idx ps).
  Proof.
    intros Hs Hp k v. rewrite dget_dupdate. destruct (dget k (reverse ps)) as [v'|] eqn:Er; [|apply Hs].
    intros [= <-]. apply dget_Some_elem in Er. rewrite elem_of_reverse in Er. rewrite Forall_forall in Hp.
    destruct (Hp _ Er) as (i & q & ? & ? & ? & ?). simpl in *. left. eauto 10.
  Qed.
  Lemma dupdate_app {K V} `{EqDecision K} (d : dict K V) a b : dupdate d (a ++ b) = dupdate (dupdate d a) b.
  Proof. unfold dupdate. by rewrite fold_left_app. Qed.
  Lemma store_row_eq n d i kvs : store_row n d i kvs = dupdate d (map (fun kv => ((n, i, kv.1), kv.2)) kvs).
  Proof. unfold store_row, dupdate. revert d. induction kvs as [|kv kvs IH]; intros d; simpl; [done|]. apply IH. Qed.

  Lemma seq_fields_ok gn qfs i :
    (forall q, q ∈ qfs -> isfld gn q) ->
    map (fun kv => (slot_of gn i kv.1, kv.2)) (zip (map index_key qfs) (map IVal (map (cell gn i) qfs)))
    = map (fun q => (slot_of gn i (index_key q), ideal gn i q)) qfs.
  Proof.
    intros Hf. rewrite map_map. induction qfs as [|q qfs IH]; simpl; [done|].
    rewrite IH by (intros; apply Hf; by right). f_equal. f_equal.
    destruct (Hf q ltac:(left)) as (_ & fd & Hfd). by rewrite (ideal_cell gn i q fd Hfd).
  Qed.

  Definition field_pairs (gn : gnode) (qfs : list qitem) (ids : option (list val)) : list (slot * ival) :=
    concat (map (fun i => map (fun q => (slot_of gn i (index_key q), ideal gn i q)) qfs) (oids ids)).

  Definition table_of (gn : gnode) (qfs : list qitem) (ids : option (list val)) (r : val) : Prop :=
    match ids with
    | Some is_ => exists rows, seq_of r = Some rows /\ Forall2 (fun i row => seq_of row = Some (map (cell gn (Some i)) qfs)) is_ rows
    | None => seq_of r = Some (map (cell gn None) qfs)
    end.

  Lemma call_table gn n qfs ids f k c r : met_ids gn n ids -> field_call gn n qfs ids f c -> ret_val (e_oracle E k c) = Some r -> table_of gn qfs ids r.
  Proof.
    intros Hm Hfc Hr. destruct (Hserve k c) as (r' & Hr' & Hs); [apply job_call_met; left; eauto 10|]. destruct Hfc as (-> & _ & Hf).
    rewrite Hr in Hr'. injection Hr' as <-. unfold answers in Hs. simpl in Hs.
    assert (forall i, map (fun q => d_field D f i (q_name q) (q_opts q)) qfs = map (cell gn i) qfs) as Hc.
    { intros i. apply map_ext_in. intros q Hq%elem_of_list_In. destruct (Hf q Hq) as (_ & _ & fd & Hfd & Hp).
      unfold cell, field_value. rewrite Hfd. by rewrite (fv_plain fd f). }
    unfold table_of. destruct ids as [is_|].
    - destruct Hs as (rows & Hseq & Hrows). exists rows. split; [done|]. eapply Forall2_impl; [exact Hrows|]. cbn. intros i row Hx.
      by rewrite Hx, Hc.
    - by rewrite Hs, Hc.
  Qed.

  Lemma store_fields_spec idx gn qfs ids r :
    obj_ids gn ids -> (forall q, q ∈ qfs -> isfld gn q) -> table_of gn qfs ids r ->
    store_fields idx gn qfs ids r = Ok (dupdate idx (field_pairs gn qfs ids)).
  Proof.
    intros Ho Hf Hs.
    unfold store_fields, check_store_fields. destruct ids as [is_|]; simpl in Ho, Hs.
    - destruct Ho as [Hne' [nm Hn]]. pose proof (find_node_name _ _ _ Hn) as Hnm. rewrite Hnm.
      destruct Hs as (rows & Hseq & Hrows). rewrite Hseq.
      assert (length rows = length is_) as Hlen by (symmetry; by eapply Forall2_length).
      assert (forallb (rows_ok (length qfs)) rows = true) as Hall.
      { apply forallb_forall. intros row Hin. apply elem_of_list_In in Hin.
        destruct (proj1 (elem_of_list_lookup _ _) Hin) as [k Hk].
        destruct (Forall2_lookup_r _ _ _ _ _ Hrows Hk) as (i & _ & Hx). unfold rows_ok. rewrite Hx, map_length. apply Nat.eqb_refl. }
      rewrite Hlen, Nat.eqb_refl, Hall. simpl. f_equal. clear Hall Hseq Hlen Hne' r.
      unfold field_pairs. simpl. rewrite map_map. revert idx rows Hrows.
      induction is_ as [|i is_ IH]; intros idx rows Hrows; inversion Hrows as [|? row ? rows' Hrow Hrows']; subst; simpl; [done|].
      rewrite Hrow, dupdate_app. rewrite <-(IH _ _ Hrows'). f_equal. rewrite store_row_eq.
      f_equal. rewrite <-(seq_fields_ok gn qfs (Some i) Hf).
      unfold slot_of, objref. rewrite Hnm. done.
    - subst gn. cbn [gn_name g_root]. rewrite Hs, map_length, Nat.eqb_refl. f_equal.
      rewrite store_row_eq. unfold field_pairs. cbn [oids map concat]. rewrite !app_nil_r. f_equal.
      by rewrite <-(seq_fields_ok (g_root g) qfs None Hf).
  Qed.

  Lemma field_pairs_good gn qfs ids : obj_ids gn ids -> (forall q, q ∈ qfs -> isfld gn q) ->
    Forall (good_pair gn ids) (field_pairs gn qfs ids).
  Proof.
    intros Ho Hf. apply Forall_forall. intros p Hp. unfold field_pairs in Hp.
    apply elem_of_list_In, in_concat in Hp as (l & Hl & Hp). apply in_map_iff in Hl as (i & <- & Hi).
    apply in_map_iff in Hp as (q & <- & Hq). exists i, q. apply elem_of_list_In in Hi, Hq. simpl.
    split; [by apply Hf|]. split; [by eapply obj_ids_good|done].
  Qed.
  Lemma field_pairs_in gn qfs ids i q : i ∈ oids ids -> q ∈ qfs ->
    (slot_of gn i (index_key q), ideal gn i q) ∈ field_pairs gn qfs ids.
  Proof.
    intros Hi Hq. unfold field_pairs. apply elem_of_list_In, in_concat. eexists. split.
    - apply in_map_iff. exists i. split; [reflexivity|]. by apply elem_of_list_In.
    - apply in_map_iff. exists q. split; [done|]. by apply elem_of_list_In.
  Qed.

  (** ** Links *)
  Lemma link_ref_spec gn n i l q v : met E D J0 J gn i n -> lnk gn n l q -> v = link_value fv D gn i l q -> link_ref l v = Ok (ref_value l v).
  Proof.
    intros Hm (Hv & Hq & _ & Hf) Hvv. pose proof (md_links _ _ _ _ Hdata gn n i q l Hm Hq Hf) as Hx. rewrite <-Hvv in Hx.
    unfold link_ref, ref_value. destruct (gl_enum l); [by destruct v|by destruct v|].
    destruct Hx as [vs Hvs]. unfold seq_items. rewrite Hvs, (seq_of_iter _ _ Hvs). done.
  Qed.
  Lemma lnk_many gn n i l q : met E D J0 J gn i n -> lnk gn n l q -> gl_enum l = Many -> is_Some (seq_of (link_value fv D gn i l q)).
  Proof. intros Hm (Hv & Hq & _ & Hf) He. pose proof (md_links _ _ _ _ Hdata gn n i q l Hm Hq Hf) as Hx. by rewrite He in Hx. Qed.
  Lemma lnk_one gn n i l q : met E D J0 J gn i n -> lnk gn n l q -> gl_enum l = One -> link_value fv D gn i l q <> VNothing.
  Proof. intros Hm (Hv & Hq & _ & Hf) He. pose proof (md_links _ _ _ _ Hdata gn n i q l Hm Hq Hf) as Hx. by rewrite He in Hx. Qed.
  Lemma link_result gn n l q ids k c r :
    met_ids gn n ids -> link_call gn n l q ids c -> ret_val (e_oracle E k c) = Some r ->
    if many_result ids l then seq_of r = Some (map (fun i => link_value fv D gn i l q) (oids ids))
    else forall i, i ∈ oids ids -> r = link_value fv D gn i l q.
  Proof.
    intros Ho Hlc Hr. destruct (Hserve k c) as (r' & Hr' & Hs); [apply job_call_met; right; eauto 10|]. destruct Hlc as [-> Hl].
    rewrite Hr in Hr'. injection Hr' as <-. unfold answers in Hs. simpl in Hs. unfold many_result, req_arg in *. unfold link_value, link_arg.
    destruct (gl_requires l) as [rq|].
    - destruct ids as [is_|]; simpl in *.
      + rewrite (Hs (map (fun i => field_value fv gn (Some i) rq None) is_)); [|by rewrite map_map]. by rewrite !map_map.
      + intros i ->%elem_of_list_singleton. by apply Hs.
    - destruct ids as [is_|]; intros i _; done.
  Qed.

  Definition link_pairs (gn : gnode) (q : qitem) (ids : option (list val)) : list (slot * ival) :=
    map (fun i => (slot_of gn i (index_key q), ideal gn i q)) (oids ids).

  Lemma store_links_spec idx gn n l q ids k c r :
    met_ids gn n ids -> link_call gn n l q ids c -> ret_val (e_oracle E k c) = Some r ->
    store_links idx gn l q ids r = Ok (dupdate idx (link_pairs gn q ids)).
  Proof.
    intros Hmi Hc Hr. pose proof (link_result _ _ _ _ _ _ _ _ Hmi Hc Hr) as Hres. destruct Hmi as [Ho Hmi]. pose proof (obj_ids_ne _ _ Ho) as Hne. destruct Hc as [_ Hl].
    assert (check_store_links gn l ids r = Ok tt) as Hchk.
    { unfold check_store_links. destruct ids as [is_|]; simpl in Ho.
      - destruct Ho as [Hne' [nm Hn]]. rewrite (find_node_name _ _ _ Hn). unfold many_result in Hres.
        destruct (gl_requires l) as [rq|].
        + rewrite Hres. simpl. rewrite !map_length, Nat.eqb_refl. simpl. destruct (gl_enum l) eqn:Ee; try done.
          replace (forallb is_seq _) with true; [done|]. symmetry. apply forallb_forall. intros v Hv.
          apply in_map_iff in Hv as (i & <- & Hi). unfold is_seq. apply elem_of_list_In in Hi. by destruct (lnk_many gn n i l q (Hmi _ Hi) Hl Ee) as [? ->].
        + destruct (gl_enum l) eqn:Ee; try done. simpl in *. destruct is_ as [|i0 is_]; [done|].
          rewrite (Hres (Some i0)) by left. unfold is_seq. by destruct (lnk_many gn n (Some i0) l q (Hmi _ ltac:(left)) Hl Ee) as [? ->].
      - subst gn. cbn [gn_name g_root]. destruct (gl_enum l) eqn:Ee; try done. simpl in Hres.
        rewrite (Hres None) by left. unfold is_seq. by destruct (lnk_many (g_root g) n None l q (Hmi _ ltac:(left)) Hl Ee) as [? ->]. }
    unfold store_links. rewrite Hchk. clear Hchk. destruct ids as [is_|]; simpl in Ho.
    - destruct Ho as [Hne' [nm Hn]]. pose proof (find_node_name _ _ _ Hn) as Hnm. rewrite Hnm.
      replace (match gl_requires l with Some _ => seq_items r | None => repeat r (length is_) end)
        with (map (fun i => link_value fv D gn (Some i) l q) is_).
      2:{ unfold many_result in Hres. destruct (gl_requires l).
          - unfold seq_items. rewrite Hres. simpl. by rewrite map_map.
          - clear -Hres. simpl in Hres. induction is_ as [|i is_ IH]; simpl; [done|]. f_equal.
            + symmetry. apply Hres. left.
            + apply IH. intros j Hj. apply Hres. by right. }
      clear Hres Hne Hne'. unfold link_pairs. simpl. rewrite map_map. revert idx. induction is_ as [|i is_ IH]; intros idx; simpl; [done|].
      rewrite (link_ref_spec gn n (Some i) l q) by (done || (apply Hmi; left)). rewrite IH by (intros i' Hi'; apply Hmi; by right). f_equal. f_equal. rewrite (lnk_ideal gn n (Some i) l q Hl).
      unfold slot_of, objref. by rewrite Hnm.
    - subst gn. cbn [gn_name g_root]. simpl in Hres. rewrite (link_ref_spec (g_root g) n None l q); [|apply Hmi; left|done|apply Hres; left].
      f_equal. unfold link_pairs. simpl. rewrite (lnk_ideal _ n None l q Hl). rewrite <-(Hres None) by left. done.
  Qed.

  Lemma targets_ids gn n l q ids r :
    lnk gn n l q -> met_ids gn n ids ->
    (if many_result ids l then seq_of r = Some (map (fun i => link_value fv D gn i l q) (oids ids))
     else forall i, i ∈ oids ids -> r = link_value fv D gn i l q) ->
    exists to_ids, link_result_to_ids (many_result ids l) (gl_enum l) r = Ok to_ids /\
      (forall j, j ∈ to_ids <-> exists i, i ∈ oids ids /\ j ∈ targets l (link_value fv D gn i l q)).
  Proof.
    intros Hl [Ho Hmi] Hres. pose proof (obj_ids_ne _ _ Ho) as Hne. unfold link_result_to_ids. destruct (many_result ids l).
    - rewrite (seq_of_iter _ _ Hres). unfold targets.
      destruct (gl_enum l) eqn:Ee.
      + eexists. split; [done|]. intros j. rewrite elem_of_list_In, filter_In, in_map_iff. split.
        * intros [(i & <- & Hi) Hn]. apply elem_of_list_In in Hi. exists i. split; [done|].
          destruct (link_value fv D gn i l q); first [done|left].
        * intros (i & Hi & Hj). assert (j = link_value fv D gn i l q /\ not_nothing j = true) as [-> Hn].
          { destruct (link_value fv D gn i l q); try (apply elem_of_list_singleton in Hj; by subst). by apply not_elem_of_nil in Hj. }
          split; [|done]. exists i. split; [done|]. by apply elem_of_list_In.
      + replace (forallb not_nothing _) with true.
        2:{ symmetry. apply forallb_forall. intros v Hv. apply in_map_iff in Hv as (i & <- & Hi). apply elem_of_list_In in Hi.
            pose proof (lnk_one gn n i l q (Hmi _ Hi) Hl Ee). by destruct (link_value fv D gn i l q). }
        eexists. split; [done|]. intros j. rewrite elem_of_list_fmap. setoid_rewrite elem_of_list_singleton. naive_solver.
      + exists (concat (map (fun i => seq_items (link_value fv D gn i l q)) (oids ids))). split.
        * assert (mapR (fun v => from_opt TypeError (iter_of v)) (map (fun i => link_value fv D gn i l q) (oids ids))
                  = Ok (map (fun i => seq_items (link_value fv D gn i l q)) (oids ids))) as ->; [|done].
          clear Hres Hne Ho. induction (oids ids) as [|i is_ IH]; simpl; [done|].
          destruct (lnk_many gn n i l q (Hmi _ ltac:(left)) Hl Ee) as [vs Hvs]. unfold seq_items at 1. rewrite Hvs, (seq_of_iter _ _ Hvs). simpl.
          rewrite IH; [done|]. intros i' Hi'. apply Hmi. by right.
        * intros j. rewrite elem_of_list_In, in_concat. split.
          -- intros (l0 & Hl0 & Hj). apply in_map_iff in Hl0 as (i & <- & Hi). exists i. by rewrite !elem_of_list_In.
          -- intros (i & Hi & Hj). eexists. split; [|by apply elem_of_list_In].
             apply in_map_iff. exists i. split; [done|]. by apply elem_of_list_In.
    - unfold targets. destruct (oids ids) as [|i0 is_] eqn:Ei; [done|].
      pose proof (Hres i0 ltac:(left)) as Hr0. destruct (gl_enum l) eqn:Ee.
      + exists (match r with VNothing => [] | _ => [r] end). split; [by destruct r|].
        intros j. split.
        * intros Hj. exists i0. split; [left|]. by rewrite <-Hr0.
        * intros (i & Hi & Hj). by rewrite (Hres i Hi).
      + exists [r]. split.
        * pose proof (lnk_one gn n i0 l q (Hmi _ ltac:(left)) Hl Ee) as Hx. rewrite <-Hr0 in Hx. by destruct r.
        * intros j. rewrite elem_of_list_singleton. split.
          -- intros ->. exists i0. split; [left|]. rewrite <-Hr0. left.
          -- intros (i & Hi & ->%elem_of_list_singleton). symmetry. by apply Hres.
      + destruct (lnk_many gn n i0 l q (Hmi _ ltac:(left)) Hl Ee) as [vs Hvs]. rewrite <-Hr0 in Hvs. rewrite (seq_of_iter _ _ Hvs).
        exists vs. split; [done|]. intros j. split.
        * intros Hj. exists i0. split; [left|]. rewrite <-Hr0. unfold seq_items. by rewrite Hvs.
        * intros (i & Hi & Hj). rewrite <-(Hres i Hi) in Hj. unfold seq_items in Hj. by rewrite Hvs in Hj.
  Qed.

  Lemma link_pairs_good gn n l q ids : obj_ids gn ids -> lnk gn n l q -> Forall (good_pair gn ids) (link_pairs gn q ids).
  Proof.
    intros Ho Hl. apply Forall_forall. intros p Hp. apply elem_of_list_fmap in Hp as (i & -> & Hi).
    exists i, q. simpl. split; [by eapply lnk_asked|]. split; [by eapply obj_ids_good|done].
  Qed.


  (** ** The fields which are computed together *)
  Lemma item_ok_supported gn n q : visited gn n -> q ∈ qfields n -> item_ok gn (qordered n) q.
  Proof.
    intros Hv Hq. pose proof (js_items _ _ Hsup _ _ _ Hv Hq) as Hs. unfold item_ok.
    destruct (find_field gn (q_name q)) as [[f|l]|]; [by destruct Hs| |done].
    destruct Hs as (H1 & _ & H3). split; [done|]. destruct (gl_requires l); [|done].
    destruct H3 as (? & f & ? & _). eauto.
  Qed.
  Lemma links_req_ne gn n : visited gn n -> forall l q, (l, q) ∈ asked_links gn (qfields n) -> gl_requires l <> Some [].
  Proof.
    intros Hv l q Hin Hr. unfold asked_links in Hin. apply elem_of_list_omap in Hin as (q' & Hq & Hx).
    destruct q' as [|nm sub ord o a]; [done|].
    destruct (find_field gn _) as [[f|l']|] eqn:Ef; try done. injection Hx as <- <-.
    pose proof (js_items _ _ Hsup _ _ _ Hv Hq) as Hs. rewrite Ef, Hr in Hs. by destruct Hs as (_ & _ & Hne & _).
  Qed.
  Lemma src_asked gn n q : visited gn n -> src gn (qfields n) q -> asked gn q.
  Proof. intros Hv Hs. exists n. split; [done|exact Hs]. Qed.
  Lemma loaded_turn gn qs : sublist (loaded_fields gn qs) (in_turn gn qs).
  Proof.
    unfold loaded_fields, in_turn. induction qs as [|q qs IH]; cbn; [constructor|]. apply sublist_app; [|done].
    destruct q as [nm o a|nm sub ord o a]; cbn; [done|].
    destruct (find_field gn nm) as [[f|l]|]; try done. destruct (gl_requires l); [|constructor; constructor].
    apply sublist_skip. constructor. constructor.
  Qed.
  Lemma turn_loaded gn qs q f : q ∈ in_turn gn qs -> find_field gn (q_name q) = Some (GF f) -> q ∈ loaded_fields gn qs.
  Proof.
    intros Hq Hf. unfold in_turn, loaded_fields in *. apply elem_of_list_In, in_flat_map in Hq as (q0 & H0 & Hq).
    apply elem_of_list_In, in_flat_map. exists q0. split; [done|]. destruct q0 as [nm o a|nm sub ord o a]; cbn in *; [done|].
    destruct (find_field gn nm) as [[f'|l]|] eqn:Ef; [done| |done].
    assert (q <> QL nm sub ord o a) as Hne by (intros ->; cbn in Hf; congruence).
    destruct (gl_requires l); cbn in Hq |- *; [destruct Hq as [Hq|[Hq|[]]]; [by left|by destruct Hne]|].
    destruct Hq as [Hq|[]]. by destruct Hne.
  Qed.
  Lemma filter_sublist {A} (f : A -> bool) (l : list A) : sublist (List.filter f l) l.
  Proof. induction l as [|a l IH]; cbn; [constructor|]. by destruct (f a); constructor. Qed.
  Lemma sublist_map {A B} (f : A -> B) (l k : list A) : sublist l k -> sublist (map f l) (map f k).
  Proof. induction 1; cbn; by constructor. Qed.
  Lemma key_fields gn n fk l :
    visited gn n -> l <> [] -> sublist (map snd l) (in_turn gn (qfields n)) ->
    (forall go q, (go, q) ∈ l -> fk = fkey_of go /\ (exists fd, go = GF fd) /\ find_field gn (q_name q) = Some go /\ src gn (qfields n) q) ->
    (qordered n = false -> forall fd q, q ∈ in_turn gn (qfields n) -> find_field gn (q_name q) = Some (GF fd) -> fk = fkey_of (GF fd) ->
      q ∈ map snd l) ->
    fields_ok gn n fk l.
  Proof.
    intros Hv Hne Hsub Hl Hall. destruct fk as [f|sg]; cbn.
    - assert (forall q fd, find_field gn (q_name q) = Some (GF fd) -> KPlain f = fkey_of (GF fd) <-> loader_of gn q = Some f) as Hlo.
      { intros q fd Hf. unfold loader_of. rewrite Hf. cbn. destruct (gf_func fd); split; congruence. }
      split; [split; [by destruct l|split; [done|split]]|].
      + intros q ([go q'] & -> & Hp)%elem_of_list_fmap. destruct (Hl _ _ Hp) as (Hk & [fd ->] & Hf & Hs). cbn [snd] in *. by apply (Hlo _ fd).
      + intros Ho q Hq Hld. destruct (find_field gn (q_name q)) as [[fd|?]|] eqn:Ef; [|by unfold loader_of in Hld; rewrite Ef in Hld..].
        eapply Hall; [done|done|exact Ef|]. exact (proj2 (Hlo _ fd Ef) Hld).
      + intros [go q] Hp. destruct (Hl _ _ Hp) as (Hk & [fd ->] & Hf & Hs). cbn in *. split; [done|]. split; [exact Hs|].
        exists fd. split; [done|]. destruct (gf_func fd); congruence.
    - split; [done|]. split.
      + split; [by destruct l|]. split; [done|]. split; [|intros Ho q Hq (fd & rq & pr & Hfd & Hfn); eapply Hall; [done|done|exact Hfd|cbn; by rewrite Hfn]]. intros q ([go q'] & -> & Hp)%elem_of_list_fmap.
        destruct (Hl _ _ Hp) as (Hk & [fd ->] & Hf & Hs). cbn in *. destruct (gf_func fd) as [|sg' rq pr] eqn:Eg; [done|].
        injection Hk as ->. exists fd, rq, pr. done.
      + intros go q Hp. destruct (Hl _ _ Hp) as (Hk & _ & Hf & Hs). split; [done|]. exact Hs.
  Qed.
  Lemma split_groups gn n fields links :
    visited gn n -> split_query gn (qfields n) = Ok (fields, links) -> split_ok gn (qfields n) fields links ->
    forall k items, (k, items) ∈ fold_left (fun (d : dict fkey (list (gitem * qitem))) t => dappend t.1.1 (t.1.2, t.2) d) fields [] ->
      fields_ok gn n k items.
  Proof.
    intros Hv Hsq (S1 & _) k items Hin.
    destruct (split_exact _ _ _ _ (links_req_ne _ _ Hv) Hsq) as (He & _).
    destruct (group_fold (fun t : fkey * gitem * qitem => t.1.1) (fun t => (t.1.2, t.2)) fields) as (_ & D2 & _).
    destruct (D2 _ _ Hin) as [Heq Hne]. apply (key_fields gn n); [done|done| | |].
    - rewrite Heq, map_map. etransitivity; [|apply loaded_turn]. rewrite <-He. apply sublist_map, filter_sublist.
    - intros go q Hp. apply (group_elem (fun t : fkey * gitem * qitem => t.1.1) (fun t => (t.1.2, t.2)) _ _ _ _ Hin) in Hp as ([[fk go'] q'] & Ht & Hk & Hx).
      cbn in *. simplify_eq. by apply S1.
    - intros _ fd q Hq Ho Hkk. assert (q ∈ loaded_fields gn (qfields n)) as Hlf by (by eapply turn_loaded).
      rewrite <-He in Hlf. apply elem_of_list_fmap in Hlf as ([[fk go] q2] & -> & Ht). apply elem_of_list_fmap. exists (go, q2). split; [done|].
      apply (group_elem (fun t : fkey * gitem * qitem => t.1.1) (fun t => (t.1.2, t.2)) _ _ _ _ Hin). exists (fk, go, q2). split; [done|]. split; [|done].
      cbn. destruct (S1 _ _ _ Ht) as (-> & _ & Hf & _). cbn in *. rewrite Ho in Hf. by injection Hf as <-.
  Qed.
  Lemma sublist_concat {A} (ls : list (list A)) l : l ∈ ls -> sublist l (concat ls).
  Proof.
    induction 1 as [l ls|l l' ls _ IH]; cbn.
    - rewrite <-(app_nil_r l) at 1. apply sublist_app; [done|apply sublist_nil_l].
    - rewrite <-(app_nil_l l) at 1. apply sublist_app; [apply sublist_nil_l|done].
  Qed.
  Lemma ordered_steps gn n steps :
    visited gn n -> qordered n = true -> group_query gn (qfields n) = Ok steps -> group_ok gn (qfields n) steps ->
    forall sp, sp ∈ steps -> step_ok gn n sp.
  Proof.
    intros Hv Hord Hg (G1 & G2 & _ & _ & _ & G6) [fk l|l q] Hsp; cbn.
    - destruct (C08_steps _ _ _ (links_req_ne _ _ Hv) Hg) as (Hc & _).
      apply (key_fields gn n); [done|by eapply G6| |by apply G1|by rewrite Hord].
      rewrite <-Hc. apply sublist_concat. apply elem_of_list_fmap. by exists (StFields fk l).
    - by destruct (G2 _ _ Hsp) as (H1 & H2 & H3).
  Qed.

  (** ** Reading the result *)
  Lemma denorm_resolve idx gn i q : sound idx -> cov idx no_duty gn i q ->
    forall pn, visited gn pn -> q ∈ qfields pn -> good_obj gn i ->
    denorm g idx gn (objref gn i) pn q = resolve g fv D gn i q.
  Proof.
    intros Hs Hc. induction Hc as [gn i q []|gn i q f Hst Hf|gn i q l gn' Hst Hl Hf Hn Hsub IH]; intros pn Hv Hq Hg.
    - assert (asked gn q) as Ha by (exists pn; split; [done|by left]).
      assert (proxy_get idx (objref gn i) pn (result_key q) = Ok (PRaw (IVal (fv f i (q_name q) (q_opts q))))) as Hpg.
      { unfold proxy_get.
        assert (dget (result_key q) (q_result_map pn) = Some q) as ->.
        { unfold q_result_map. rewrite of_pairs_NoDup.
          - apply dget_NoDup; [|apply elem_of_list_fmap; eauto]. unfold dkeys. rewrite map_map. simpl. by apply (js_keys _ _ Hsup gn).
          - unfold dkeys. rewrite map_map. simpl. by apply (js_keys _ _ Hsup gn). }
        destruct Hst as [v Hst]. pose proof (sound_get _ _ _ _ _ Hs Ha Hg Hst) as ->.
        match goal with |- context [@dget ?a ?b ?c ?k idx] => change (@dget a b c k idx) with (dget (slot_of gn i (index_key q)) idx) end. rewrite Hst. unfold ideal. rewrite Hf. by destruct q. }
      destruct q as [nm o a|nm sub ord o a]; simpl in Hf |- *; rewrite Hf; simpl in Hpg; rewrite Hpg; [done|].
      by destruct (get_type (g_dtypes g) (gf_ty f)).
    - assert (asked gn q) as Ha by (exists pn; split; [done|by left]).
      destruct q as [|nm sub ord o a]; [done|]. set (q := QL nm sub ord o a) in *.
      set (v := link_value fv D gn i l q) in *.
      assert (exists r, proxy_get idx (objref gn i) pn (result_key q) = Ok r /\
        match gl_enum l with
        | Maybe => match v with VNothing => r = PRaw (IVal VNone) | _ => r = PProxy (gl_node l, v) (QN sub ord) end
        | One => r = PProxy (gl_node l, v) (QN sub ord)
        | Many => match seq_items v with [] => r = PRaw (IRefs []) | js => r = PList (map (fun j => (gl_node l, j)) js) (QN sub ord) end
        end) as (r & Hpg & Hr).
      { unfold proxy_get.
        assert (dget (result_key q) (q_result_map pn) = Some q) as ->.
        { unfold q_result_map. rewrite of_pairs_NoDup.
          - apply dget_NoDup; [|apply elem_of_list_fmap; eauto]. unfold dkeys. rewrite map_map. simpl. by apply (js_keys _ _ Hsup gn).
          - unfold dkeys. rewrite map_map. simpl. by apply (js_keys _ _ Hsup gn). }
        destruct Hst as [w Hst]. pose proof (sound_get _ _ _ _ _ Hs Ha Hg Hst) as ->.
        match goal with |- context [@dget ?a ?b ?c ?k idx] => change (@dget a b c k idx) with (dget (slot_of gn i (index_key q)) idx) end. rewrite Hst. unfold ideal. rewrite Hf. fold v. unfold ref_value.
        destruct (gl_enum l).
        - destruct v; eexists; split; reflexivity.
        - eexists; split; reflexivity.
        - destruct (seq_items v); eexists; split; reflexivity. }
      assert (forall j, j ∈ targets l v -> mapR (denorm g idx gn' (gl_node l, j) (QN sub ord)) sub = mapR (resolve g fv D gn' (Some j)) sub) as Hobj.
      { intros j Hj. apply mapR_ext. apply Forall_forall. intros q' Hq'.
        pose proof (IH j q' Hj Hq' (QN sub ord)) as Hx. unfold objref in Hx. rewrite (find_node_name _ _ _ Hn) in Hx.
        apply Hx; [|done|simpl; eauto]. by eapply (jv_link _ gn pn q l). }
      unfold q in Hf, Hpg |- *. simpl in Hf, Hpg |- *. unfold result_key in *. simpl in *. rewrite Hf, Hpg, Hn.
      change (link_value fv D gn i l (QL nm sub ord o a)) with v.
      unfold targets in Hobj. destruct (gl_enum l).
      + assert (v = VNothing \/ v <> VNothing) as [Ev|Ev] by (destruct v; eauto; by right).
        * rewrite Ev in *. by subst r.
        * assert (r = PProxy (gl_node l, v) (QN sub ord)) as -> by (destruct v; done).
          rewrite Hobj; [|destruct v; try done; left]. by destruct v.
      + subst r. rewrite Hobj by left. done.
      + destruct (seq_items v) as [|j js] eqn:Ejs; [by subst r|]. subst r.
        assert (forall js', (forall j, j ∈ js' -> j ∈ seq_items v) ->
          mapR (fun ref' => match mapR (denorm g idx gn' ref' (QN sub ord)) sub with Ok ps => Ok (TO (of_pairs ps)) | Err e => Err e end)
               (map (fun j => (gl_node l, j)) js')
          = mapR (fun j => match mapR (resolve g fv D gn' (Some j)) sub with Ok ps => Ok (TO (of_pairs ps)) | Err e => Err e end) js') as Hm.
        { induction js' as [|j' js' IHj]; intros Hin; simpl; [done|].
          rewrite Hobj; [|rewrite <-Ejs; apply Hin; left]. rewrite IHj; [done|]. intros; apply Hin; by right. }
        rewrite Ejs in Hm. specialize (Hm (j :: js) ltac:(done)). simpl in Hm |- *. by rewrite Hm.
  Qed.

  (** ** What expressions see *)
  Lemma view_tree idx gn i q : sound idx -> cov idx no_duty gn i q ->
    forall pn, visited gn pn -> q ∈ qfields pn -> good_obj gn i ->
    view_item idx (objref gn i) q = tree_item g fv D gn i q.
  Proof.
    intros Hs Hc. induction Hc as [gn i q []|gn i q f Hst Hf|gn i q l gn' Hst Hl Hf Hn Hsub IH]; intros pn Hv Hq Hg.
    - assert (asked gn q) as Ha by (exists pn; split; [done|by left]).
      destruct Hst as [v Hst]. pose proof (sound_get _ _ _ _ _ Hs Ha Hg Hst) as ->. unfold ideal in Hst. rewrite Hf in Hst.
      destruct q as [nm o a|nm sub ord o a]; cbn [view_item tree_item q_name q_opts] in *; rewrite Hf;
        (match goal with |- context [@dget ?a ?b ?c ?k idx] => match type of Hst with ?lhs = _ => change (@dget a b c k idx) with lhs end end);
        by rewrite Hst.
    - assert (asked gn q) as Ha by (exists pn; split; [done|by left]).
      destruct Hst as [v Hst]. pose proof (sound_get _ _ _ _ _ Hs Ha Hg Hst) as ->. unfold ideal in Hst. rewrite Hf in Hst.
      destruct q as [|nm sub ord o a]; [done|]. set (q := QL nm sub ord o a) in *. set (v := link_value fv D gn i l q) in *.
      assert (forall j, j ∈ targets l v -> map (view_item idx (gl_node l, j)) sub = map (tree_item g fv D gn' (Some j)) sub) as Hobj.
      { intros j Hj. apply map_ext_in. intros q' Hq'%elem_of_list_In.
        pose proof (IH j q' Hj Hq' (QN sub ord)) as Hx. unfold objref in Hx. rewrite (find_node_name _ _ _ Hn) in Hx.
        apply Hx; [|done|simpl; eauto]. by eapply (jv_link _ gn pn q l). }
      unfold q in Hf, Hst |- *. cbn [view_item tree_item q_name] in *. rewrite Hf, Hn.
      (match goal with |- context [@dget ?a ?b ?c ?k idx] => match type of Hst with ?lhs = _ => change (@dget a b c k idx) with lhs end end).
      rewrite Hst. f_equal.
      change (link_value fv D gn i l (QL nm sub ord o a)) with v. unfold ref_value, targets in *.
      destruct (gl_enum l).
      + destruct v eqn:Ev; try (cbn [fst snd]; by rewrite Hobj by left). done.
      + by rewrite Hobj by left.
      + destruct (seq_items v) as [|j js]; [done|]. cbn [map]. f_equal. change (map (fun ref' => PO (of_pairs (map (view_item idx ref') sub))) (map (fun i0 => (gl_node l, i0)) (j :: js)) = map (fun j => PO (of_pairs (map (tree_item g fv D gn' (Some j)) sub))) (j :: js)).
        rewrite map_map. apply map_ext_in. intros j' Hj'%elem_of_list_In. by rewrite Hobj.
  Qed.

  Lemma of_pairs_get {A} (f : qitem -> str * A) (qs : list qitem) q :
    NoDup (map result_key qs) -> (forall q, (f q).1 = result_key q) -> q ∈ qs ->
    dget (result_key q) (of_pairs (map f qs)) = Some (f q).2.
  Proof.
    intros Hnd Hk Hq. assert (NoDup (dkeys (map f qs))) as Hn.
    { unfold dkeys. rewrite map_map. rewrite (map_ext _ result_key) by done. done. }
    rewrite of_pairs_NoDup by done. apply dget_NoDup; [done|].
    apply elem_of_list_fmap. exists q. split; [|done]. rewrite <-Hk. by destruct (f q).
  Qed.
  Lemma tree_item_key gn i q : (tree_item g fv D gn i q).1 = result_key q.
  Proof. by destruct q. Qed.
  Lemma qcov_inv q q' : qcov q q' ->
    q_name q = q_name q' /\ q_opts q = None /\ q_opts q' = None /\ result_key q = result_key q' /\ q_is_link q = q_is_link q' /\
    forall s, s ∈ qfields (q_node q) -> exists s', s' ∈ qfields (q_node q') /\ qcov s s'.
  Proof.
    inversion 1 as [? ? Hn Ho Ho' Ha Ha' Hl Hs]; subst. split_and!; try done. unfold result_key. by rewrite Ha, Ha'.
  Qed.

  Lemma covers_tree gn i (qs qs' : list qitem) :
    NoDup (map result_key qs') ->
    (forall q, q ∈ qs -> exists q', q' ∈ qs' /\ result_key q = result_key q' /\ covers (tree_item g fv D gn i q).2 (tree_item g fv D gn i q').2) ->
    covers (tree g fv D gn i qs) (tree g fv D gn i qs').
  Proof.
    intros Hnd Hq. constructor. intros k t Hd. apply dget_of_pairs_Some in Hd. apply elem_of_list_fmap in Hd as (q & Heq & Hin).
    destruct (Hq q Hin) as (q' & Hin' & Hk & Hc).
    assert (k = result_key q) as -> by (rewrite <-(tree_item_key gn i q); by rewrite <-Heq).
    exists (tree_item g fv D gn i q').2. rewrite Hk. split; [|by rewrite <-Heq in Hc].
    apply of_pairs_get; [done|intros; apply tree_item_key|done].
  Qed.

  Lemma tree_item_covers q : forall gn i n' q', visited gn n' -> q' ∈ qfields n' -> qcov q q' ->
    covers (tree_item g fv D gn i q).2 (tree_item g fv D gn i q').2.
  Proof.
    induction q as [nm o a|nm sub ord o a IH] using qitem_ind'; intros gn i n' q' Hv Hq' Hqc;
      pose proof (qcov_inv _ _ Hqc) as (Hn & Ho & Ho' & _ & Hl & Hs); pose proof (js_items _ _ Hsup _ _ _ Hv Hq') as Hit;
      rewrite <-Hn in Hit; cbn [q_name q_opts q_is_link] in *; subst o.
    - destruct q' as [nm' o' a'|]; [|done]. cbn [q_name q_opts] in *. subst nm' o'. cbn.
      destruct (find_field gn nm) as [[f|l]|]; [constructor| |done]. destruct Hit as [? _]. done.
    - destruct q' as [|nm' sub' ord' o' a']; [done|]. cbn [q_name q_opts q_node qfields] in *. subst nm' o'.
      cbn [tree_item q_name q_opts]. destruct (find_field gn nm) as [[f|l]|] eqn:Ef; [constructor| |done].
      destruct Hit as (_ & [gn' Hgn] & _). rewrite Hgn.
      change (link_value fv D gn i l (QL nm sub ord None a)) with (link_value fv D gn i l (QL nm sub' ord' None a')).
      set (v := link_value fv D gn i l (QL nm sub' ord' None a')).
      assert (visited gn' (QN sub' ord')) as Hv'.
      { eapply (jv_link _ gn n' (QL nm sub' ord' None a') l); done. }
      assert (forall j, covers (PO (of_pairs (map (tree_item g fv D gn' (Some j)) sub))) (PO (of_pairs (map (tree_item g fv D gn' (Some j)) sub')))) as Hobj.
      { intros j. apply (covers_tree gn' (Some j) sub sub').
        - by apply (js_keys _ _ Hsup gn' (QN sub' ord')).
        - intros s1 Hs1. destruct (Hs s1 Hs1) as (s2 & Hs2 & Hc). exists s2. split; [done|]. split; [by apply qcov_inv in Hc as (_ & _ & _ & ? & _)|].
          rewrite Forall_forall in IH. by eapply (IH s1 Hs1 gn' (Some j) (QN sub' ord')). }
      cbn [snd]. destruct (gl_enum l).
      + destruct v; try apply Hobj. constructor.
      + apply Hobj.
      + destruct (seq_items v) as [|j js]; [constructor|]. constructor. apply Forall2_fmap. apply Forall_Forall2_diag. apply Forall_forall. intros; apply Hobj.
  Qed.

  Section sub.
    Context (idx : index) (ns : list qnode) (gn' : gnode) (tq : qitem).
    Hypothesis Hsound : sound idx.
    Hypothesis Hcov : covered idx no_duty.
    Hypothesis Hthis : is_Some (dget this_slot idx).
    Hypothesis Hq : j_query J = merge ns.
    Hypothesis Hr : j_root J = QN (of_root (j_query J)) false.
    Hypothesis Ht : j_this J = Some (gn', q_node tq).
    Hypothesis Htq : dget THIS (q_fields_map (j_query J)) = Some tq.
    Hypothesis Htl : q_is_link tq = true.
    Hypothesis Hbare : forall n, n ∈ ns -> forall q, q ∈ qfields n -> bare q.
    Hypothesis Hgn' : exists nm, find_node g nm = Some gn'.
    Hypothesis Hids : ids0 <> [].

    Lemma merged_bare q : q ∈ qfields (j_query J) -> q_opts q = None /\ q_alias q = None.
    Proof.
      rewrite Hq. intros (q' & Hin & Hlab)%label_merged. apply elem_of_items in Hin as (n & Hn & Hin).
      destruct (bare_opts q' (Hbare n Hn q' Hin)). unfold label_of in Hlab. injection Hlab as ? ? ? ?. split; congruence.
    Qed.
    Lemma tq_in : tq ∈ qfields (j_query J) /\ q_name tq = THIS.
    Proof.
      pose proof Htq as Hd. apply dget_of_pairs_Some in Hd. apply elem_of_list_fmap in Hd as (q & [= -> ->] & Hin). done.
    Qed.
    Lemma same_key q q' : q ∈ qfields (j_query J) -> q' ∈ qfields (j_query J) -> result_key q = result_key q' -> q = q'.
    Proof.
      intros H1 H2 Hk. pose proof (js_query _ _ Hsup) as Hnd.
      pose proof (of_pairs_get (fun q => (result_key q, q)) _ q Hnd ltac:(done) H1) as G1.
      pose proof (of_pairs_get (fun q => (result_key q, q)) _ q' Hnd ltac:(done) H2) as G2.
      rewrite Hk in G1. rewrite G1 in G2. cbn in G2. congruence.
    Qed.
    Lemma tq_unique q : q ∈ qfields (j_query J) -> q_name q = THIS -> q = tq.
    Proof.
      intros Hin Hn. destruct tq_in as [Hin' Hn']. apply same_key; [done|done|].
      destruct (merged_bare q Hin) as [_ Ha], (merged_bare tq Hin') as [_ Ha']. unfold result_key. rewrite Ha, Ha'. congruence.
    Qed.
    Lemma view_this j : j ∈ ids0 -> view idx (objref gn' (Some j)) (q_node tq) = tree g fv D gn' (Some j) (qfields (q_node tq)).
    Proof.
      intros Hj. unfold view, tree. f_equal. f_equal. apply map_ext_in. intros q Hin%elem_of_list_In.
      eapply view_tree; [done| |by eapply jv_this|done|done]. by apply (proj2 Hcov gn' (q_node tq)).
    Qed.
    Lemma root_item q : q ∈ qfields (j_query J) -> q_name q <> THIS -> q ∈ qfields (j_root J).
    Proof.
      intros Hin Hn. rewrite Hr. unfold of_root. cbn. apply elem_of_list_In, filter_In. split; [by apply elem_of_list_In|].
      unfold is_this. by rewrite bool_decide_false.
    Qed.
    Lemma view_root q : q ∈ qfields (j_query J) -> q_name q <> THIS -> view_item idx ROOT q = tree_item g fv D (g_root g) None q.
    Proof.
      intros Hin Hn. apply root_item in Hn; [|done].
      rewrite <-(view_tree idx (g_root g) None q Hsound (proj1 Hcov q Hn) (j_root J) (jv_root J) Hn eq_refl).
      unfold objref. by destruct (gn_name (g_root g)).
    Qed.
    Lemma root_covers rqo : rqo ∈ ns -> covers (tree g fv D (g_root g) None (of_root rqo)) (view idx ROOT (j_query J)).
    Proof.
      intros Hin. constructor. intros k t Hd. apply dget_of_pairs_Some in Hd. apply elem_of_list_fmap in Hd as (q & Heq & Hin').
      unfold of_root in Hin'. apply elem_of_list_In, filter_In in Hin' as [Hin' Hnt]. apply elem_of_list_In in Hin'.
      assert (q_name q <> THIS) as Hn. { unfold is_this in Hnt. intros Hx. by rewrite bool_decide_true in Hnt. }
      destruct (merge_qcov ns rqo q Hin Hbare Hin') as (q' & Hin2 & Hc). rewrite <-Hq in Hin2.
      pose proof (qcov_inv _ _ Hc) as (Hnn & _ & _ & Hk & _).
      assert (q_name q' <> THIS) as Hn' by congruence.
      assert (k = result_key q) as -> by (rewrite <-(tree_item_key (g_root g) None q); by rewrite <-Heq).
      exists (view_item idx ROOT q').2. rewrite Hk. split.
      - apply of_pairs_get; [apply (js_query _ _ Hsup)|by intros []|done].
      - rewrite (view_root q' Hin2 Hn'). replace t with (tree_item g fv D (g_root g) None q).2 by by rewrite <-Heq.
        eapply tree_item_covers; [apply jv_root| |done]. by apply root_item.
    Qed.
    Lemma this_covers rqo j : rqo ∈ ns -> j ∈ ids0 ->
      covers (tree g fv D gn' (Some j) (of_this rqo)) (view idx (objref gn' (Some j)) (q_node tq)).
    Proof.
      intros Hin Hj. rewrite (view_this j Hj).
      assert (visited gn' (q_node tq)) as Hv by by eapply jv_this.
      apply covers_tree; [by apply (js_keys _ _ Hsup gn')|].
      intros t Ht'. unfold of_this in Ht'. apply elem_of_list_In, in_flat_map in Ht' as (q & Hq1 & Hq2).
      apply elem_of_list_In in Hq1. destruct (is_this q) eqn:Et; [|done]. apply elem_of_list_In in Hq2.
      unfold is_this in Et. apply bool_decide_eq_true in Et.
      destruct (merge_qcov ns rqo q Hin Hbare Hq1) as (q' & Hin2 & Hc). rewrite <-Hq in Hin2.
      pose proof (qcov_inv _ _ Hc) as (Hnn & _ & _ & _ & _ & Hs).
      assert (q' = tq) as -> by (apply tq_unique; [done|congruence]).
      destruct (Hs t Hq2) as (t' & Ht1 & Ht2). exists t'. split; [done|]. split; [by apply qcov_inv in Ht2 as (_ & _ & _ & ? & _)|].
      by eapply tree_item_covers.
    Qed.
    Lemma expr_row rqo pr os j v : rqo ∈ ns -> j ∈ ids0 -> expr_result E D fv g gn' rqo pr j os = Ok v ->
      e_proc E pr (view idx (objref gn' (Some j)) (q_node tq)) (view idx ROOT (j_query J)) os = Ok v.
    Proof.
      intros Hin Hj Hv. destruct Hreads as [Hm _]. eapply Hm; [| |exact Hv]; [by apply this_covers|by apply root_covers].
    Qed.
    Lemma this_refs : proxy_get idx ROOT (j_query J) THIS = Ok (PList (map (fun j => objref gn' (Some j)) ids0) (q_node tq)).
    Proof.
      destruct tq_in as [Hin Hn]. destruct (merged_bare tq Hin) as [Ho Ha].
      assert (result_key tq = THIS) as Hk by (unfold result_key; by rewrite Ha).
      unfold proxy_get. unfold q_result_map. rewrite <-Hk at 1.
      rewrite (of_pairs_get (fun q => (result_key q, q)) _ tq (js_query _ _ Hsup) ltac:(done) Hin). cbn [snd].
      assert (index_key tq = THIS) as Hik by (unfold index_key, index_key_of; by rewrite Ho, Hn).
      destruct Hthis as [v Hv]. destruct (sound_this idx v Hsound ltac:(eauto) Hv) as (gn2 & n2 & nm & Ht2 & Hnm & Heq).
      rewrite Ht in Ht2. injection Ht2 as <- <-. rewrite Hik.
      (match goal with |- context [@dget ?a ?b ?c ?k idx] => change (@dget a b c k idx) with (dget this_slot idx) end).
      rewrite Hv, Heq. destruct tq as [|nm' sub ord o a]; [done|]. destruct ids0 as [|j js]; [done|]. cbn [map].
      do 2 f_equal. unfold objref. by rewrite Hnm.
    Qed.

    (** the values of the expressions, for all objects *)
    Lemma proc_rows w ts x (rows : val -> list val) (es : list (qnode * N * list val)) :
      w_wfs x.1 !! w = Some (Wf g (j_query J) ts idx) ->
      (forall j, j ∈ ids0 -> Forall2 (fun e v => e.1.1 ∈ ns /\ expr_result E D fv g gn' e.1.1 e.1.2 j e.2 = Ok v) es (rows j)) ->
      result_proc E w (map (fun e => (e.1.2, e.2)) es) x = Ok (VList (map (fun j => VList (rows j)) ids0)).
    Proof.
      intros Hw Hrows. unfold result_proc, get_wf. rewrite Hw. cbn [from_opt wf_index wf_query]. rewrite this_refs, map_map.
      assert (mapR (fun t => match mapR (fun pr => e_proc E pr.1 t (view idx ROOT (j_query J)) pr.2) (map (fun e => (e.1.2, e.2)) es) with
                             | Ok row => Ok (VList row) | Err e => Err e end)
                (map (fun j => view idx (objref gn' (Some j)) (q_node tq)) ids0) = Ok (map (fun j => VList (rows j)) ids0)) as ->; [|done].
      assert (forall js, (forall j, j ∈ js -> j ∈ ids0) ->
        mapR (fun t => match mapR (fun pr => e_proc E pr.1 t (view idx ROOT (j_query J)) pr.2) (map (fun e => (e.1.2, e.2)) es) with
                             | Ok row => Ok (VList row) | Err e => Err e end)
                (map (fun j => view idx (objref gn' (Some j)) (q_node tq)) js) = Ok (map (fun j => VList (rows j)) js)) as Hx; [|by apply Hx].
      induction js as [|j js IH]; intros Hjs; [done|]. cbn [map mapR].
      assert (mapR (fun pr => e_proc E pr.1 (view idx (objref gn' (Some j)) (q_node tq)) (view idx ROOT (j_query J)) pr.2) (map (fun e => (e.1.2, e.2)) es) = Ok (rows j)) as ->.
      { assert (j ∈ ids0) as Hj by (apply Hjs; left). specialize (Hrows j Hj). revert Hrows. generalize (rows j). clear Hw IH.
        induction es as [|[[rqo pr] os] es' IHe]; intros row Hrow; inversion Hrow as [|? v ? row' Hv Hrow']; subst; [done|].
        cbn [map mapR fst snd] in *. destruct Hv as [Hin Hv]. rewrite (expr_row rqo pr os j v Hin Hj Hv), (IHe _ Hrow'). done. }
      rewrite IH; [done|]. intros; apply Hjs; by right.
    Qed.
  End sub.
End job.

(** ** The expressions of a query over a sub-graph *)
Section parent.
  Context `{Hasher} (E : env) (D : data) (J0 J : job).
  Hypothesis Hreads : reads_by_name E.
  Hypothesis Hsup : jsupported E J.
  Hypothesis Hdata : mdata E D J0 J.
  Definition given_go (go : gitem) (o : opts) : list val := match go with GF f => given f o | GL _ => [] end.

  Lemma asked_field_ok gn q f : jasked J gn q -> find_field gn (q_name q) = Some (GF f) -> field_ok J gn f q.
  Proof.
    intros (n & Hv & [Hq|(q' & l & r & Hq & Hl & Hfl & Hr & ->)]) Hf.
    - pose proof (js_items _ _ Hsup _ _ _ Hv Hq) as Hs. rewrite Hf in Hs. apply Hs.
    - pose proof (js_items _ _ Hsup _ _ _ Hv Hq) as Hs. rewrite Hfl, Hr in Hs. destruct Hs as (_ & _ & _ & f' & Hf' & Hok).
      cbn in Hf. rewrite Hf in Hf'. by injection Hf' as <-.
  Qed.
  Lemma sfld_item gn n sg fields go q : sfld J gn n sg fields -> (go, q) ∈ fields ->
    asked_by gn n q /\ find_field gn (q_name q) = Some go /\ exists f rq pr, go = GF f /\ gf_func f = FChecked sg rq pr /\
      is_Some (gn_name gn) /\ 0 < j_level J /\ reqs_ok rq /\
      forall op, op ∈ gf_opts f -> is_Some (dget (go_name op) (opt_dict (q_opts q))).
  Proof.
    intros (Hv & (_ & _ & Hg & _) & Hf) Hin. destruct (Hf _ _ Hin) as [Hfd Ha]. split; [done|]. split; [done|].
    destruct (Hg q) as (f & rq & pr & Hf' & Hfn); [apply elem_of_list_fmap; by exists (go, q)|].
    rewrite Hfd in Hf'. injection Hf' as ->. exists f, rq, pr. split; [done|]. split; [done|].
    pose proof (asked_field_ok _ _ _ (ex_intro _ n (conj Hv Ha)) Hfd) as Hok. unfold field_ok in Hok. by rewrite Hfn in Hok.
  Qed.
  Lemma fields_reqs gn n sg fields : sfld J gn n sg fields -> map (fun p => reqs_of p.1) fields = map (reqs_for gn) (map snd fields).
  Proof.
    intros Hs. rewrite map_map. apply map_ext_in. intros [go q] Hin%elem_of_list_In.
    destruct (sfld_item _ _ _ _ _ _ Hs Hin) as (_ & Hf & _). unfold reqs_for. cbn. by rewrite Hf.
  Qed.
  Lemma fields_bare gn n sg fields : sfld J gn n sg fields ->
    forall m, m ∈ map (reqs_for gn) (map snd fields) -> forall q, q ∈ qfields m -> bare q.
  Proof.
    intros Hs m. rewrite <-(fields_reqs _ _ _ _ Hs). intros ([go q] & -> & Hin)%elem_of_list_fmap q' Hq'.
    destruct (sfld_item _ _ _ _ _ _ Hs Hin) as (_ & _ & f & rq & pr & -> & Hfn & _ & _ & [_ Hr] & _). cbn in Hq'. rewrite Hfn in Hq'.
    by apply Hr.
  Qed.
  Lemma fields_options gn n sg fields : sfld J gn n sg fields ->
    mapR (fun p => option_values p.1 p.2) fields = Ok (map (fun p => given_go p.1 (q_opts p.2)) fields).
  Proof.
    intros Hs. assert (forall p, p ∈ fields -> option_values p.1 p.2 = Ok (given_go p.1 (q_opts p.2))) as Ho.
    { intros [go q] Hin. destruct (sfld_item _ _ _ _ _ _ Hs Hin) as (_ & _ & f & rq & pr & -> & Hfn & _ & _ & _ & Hop).
      cbn. unfold option_values, given. cbn. clear Hfn. induction (gf_opts f) as [|op ops IH]; [done|]. cbn [mapR map].
      destruct (Hop op ltac:(left)) as [v Hv].
      assert (match q_opts q with Some d => from_opt KeyError (dget (go_name op) d) | None => Err TypeError end = Ok v) as ->.
      { destruct (q_opts q); cbn in Hv; [by rewrite Hv|done]. }
      rewrite IH; [|intros; apply Hop; by right]. by rewrite Hv. }
    clear Hs. induction fields as [|p fields IH]; [done|]. cbn [mapR map]. rewrite Ho by left. rewrite IH; [done|].
    intros; apply Ho; by right.
  Qed.
  Lemma sub_job_inv gn sg qs J' : sub_job E J gn sg qs = Some J' ->
    exists G' node gn' tq, e_sgs E !! sg = Some (G', node) /\ find_node G' node = Some gn' /\
      dget THIS (q_fields_map (merge (map (reqs_for gn) qs))) = Some tq /\ q_is_link tq = true /\
      J' = Job G' (merge (map (reqs_for gn) qs)) (QN (of_root (merge (map (reqs_for gn) qs))) false) (Some (gn', q_node tq)) (pred (j_level J)).
  Proof.
    unfold sub_job. destruct (e_sgs E !! sg) as [[G' node]|]; [|done].
    destruct (dget THIS _) as [tq|] eqn:Et; [|done]. destruct (find_node G' node) as [gn'|] eqn:En; [|done].
    destruct (q_is_link tq) eqn:El; [|done]. intros [= <-]. eauto 10.
  Qed.

  Lemma sub_table gn n sg fields J' ids idx w' ts x :
    sfld J gn n sg fields -> sub_job E J gn sg (map snd fields) = Some J' -> jsupported E J' -> respects_options D -> ids <> [] ->
    (forall j, j ∈ ids -> met E D J0 J gn (Some j) n) ->
    w_wfs x.1 !! w' = Some (Wf (j_graph J') (j_query J') ts idx) ->
    sound E D J' ids idx -> covered E D J' ids idx no_duty -> is_Some (dget this_slot idx) ->
    exists r, result_proc E w' (zip (map (fun p => proc_of p.1) fields) (map (fun p => given_go p.1 (q_opts p.2)) fields)) x = Ok r /\
      table_of E D J gn (map snd fields) (Some ids) r.
  Proof.
    intros Hs Hj Hsup' Hresp Hne Hmi Hw Hsound Hcov Hthis.
    destruct (sub_job_inv _ _ _ _ Hj) as (G' & node & gn' & tq & Hsg & Hn' & Htq & Htl & HJ').
    set (es := map (fun p : gitem * qitem => (reqs_of p.1, proc_of p.1, given_go p.1 (q_opts p.2))) fields).
    set (rows := fun j => map (cell E D J gn (Some j)) (map snd fields)).
    exists (VList (map (fun j => VList (rows j)) ids)). split.
    - replace (zip _ _) with (map (fun e : qnode * N * list val => (e.1.2, e.2)) es).
      2:{ unfold es. clear. induction fields as [|p fields IH]; [done|]. cbn. by rewrite IH. }
      apply (proc_rows E D J' ids Hresp Hreads Hsup' idx (map (reqs_for gn) (map snd fields)) gn' tq Hsound Hcov Hthis) with (ts := ts); subst J'; cbn; try done; [by eapply fields_bare|eauto|].
      intros j Hj'. unfold es, rows. rewrite (map_map snd (cell E D J gn (Some j))). apply Forall2_fmap. apply Forall_Forall2_diag. apply Forall_forall. intros [go q] Hin.
      destruct (sfld_item _ _ _ _ _ _ Hs Hin) as (Ha & Hf & f & rq & pr & -> & Hfn & _ & Hlev & _). cbn. rewrite Hfn. split.
      + apply elem_of_list_fmap. exists q. split; [|apply elem_of_list_fmap; by exists (GF f, q)]. unfold reqs_for. rewrite Hf. cbn. by rewrite Hfn.
      + destruct (md_exprs _ _ _ _ Hdata gn n q f sg rq pr G' node gn' j (Hmi j Hj') Ha Hf Hfn Hsg Hn') as [v Hv].
        rewrite Hv. f_equal. unfold cell, field_value. rewrite Hf. destruct (j_level J) as [|k]; [lia|]. cbn in Hv |- *. unfold field_with.
        by rewrite Hfn, Hsg, Hn', Hv.
    - cbn. eexists. split; [done|]. induction ids as [|j js IH] in |- *; constructor; [done|apply IH].
  Qed.
End parent.

(** Theorems about graph transformers (C50). *)
From Verif Require Import Base Val Types Query Graph Validate ValidateSpec PropValidate Transform.

Lemma visit_option_id o : visit_option o = o.
Proof. by destruct o. Qed.
Lemma visit_options_id l : map visit_option l = l.
Proof. induction l as [|o l IH]; [done|]. cbn. by rewrite visit_option_id, IH. Qed.
Lemma visit_field_id f : visit_field f = f.
Proof. destruct f. unfold visit_field. cbn. by rewrite visit_options_id. Qed.
Lemma visit_link_id l : visit_link l = Ok l.
Proof. destruct l as [n [] nd f r os]; cbn; by rewrite visit_options_id. Qed.
Lemma mapR_id {A} (f : A -> res A) l : (forall x, x ∈ l -> f x = Ok x) -> mapR f l = Ok l.
Proof. intros Hf. apply mapR_ok. induction l as [|x l IH]; constructor; [apply Hf; left|apply IH; intros; apply Hf; by right]. Qed.

(** The definitions of a graph without the functions *)
Definition shape_item (x : gitem) : gitem :=
  match x with
  | GF f => GF (GField (gf_name f) (gf_type f) (FPlain 0) (gf_opts f))
  | GL l => GL (GLink (gl_name l) (gl_enum l) (gl_node l) 0 (gl_requires l) (gl_opts l))
  end.
Definition shape_node (n : gnode) : gnode := GNode (gn_name n) (map shape_item (gn_fields n)).
Definition shape (g : graph) : graph := Graph (map shape_node (g_items g)) (g_dtypes g).

Lemma shape_name x : gi_name (shape_item x) = gi_name x.
Proof. by destruct x. Qed.
Lemma shape_names fs : map gi_name (map shape_item fs) = map gi_name fs.
Proof. rewrite map_map. apply map_ext, shape_name. Qed.
Lemma shape_link fs l : GL l ∈ map shape_item fs -> exists l', GL l' ∈ fs /\ gl_node l' = gl_node l /\ gl_requires l' = gl_requires l.
Proof. intros Hl. apply elem_of_list_fmap in Hl as ([f|l'] & Heq & Hin); [done|]. injection Heq as ->. by exists l'. Qed.
Lemma shape_link' fs l : GL l ∈ fs -> exists l', GL l' ∈ map shape_item fs /\ gl_node l' = gl_node l /\ gl_requires l' = gl_requires l.
Proof. intros Hl. eexists. split; [apply elem_of_list_fmap; by exists (GL l)|done]. Qed.
Lemma shape_wf_node ns fs : well_formed_node ns (map shape_item fs) <-> well_formed_node ns fs.
Proof.
  unfold well_formed_node. rewrite shape_names. split; intros [Hd Hl]; (split; [done|]); intros l Hin.
  - apply shape_link' in Hin as (l' & Hin & <- & <-). by apply Hl.
  - apply shape_link in Hin as (l' & Hin & <- & <-). by apply Hl.
Qed.
Lemma shape_names_of items : names_of_nodes (map shape_node items) = names_of_nodes items.
Proof. unfold names_of_nodes. induction items as [|n l IH]; [done|]. cbn. by rewrite IH. Qed.
Lemma shape_roots items : root_fields (map shape_node items) = map shape_item (root_fields items).
Proof.
  unfold root_fields. induction items as [|n l IH]; [done|]. cbn [map flat_map shape_node gn_name gn_fields]. rewrite IH.
  destruct (gn_name n); [done|]. by rewrite map_app.
Qed.
Lemma shape_wf items : well_formed (map shape_node items) <-> well_formed items.
Proof.
  unfold well_formed. rewrite shape_names_of, shape_roots, shape_wf_node. f_equiv. f_equiv. split.
  - intros Hw n x Hn Hx. apply shape_wf_node. apply (Hw (shape_node n) x); [|done]. apply elem_of_list_fmap. by exists n.
  - intros Hw n x Hn Hx. apply elem_of_list_fmap in Hn as (m & -> & Hm). apply shape_wf_node. by apply (Hw m x).
Qed.
Lemma gvalidate_wf items : gvalidate items = [] <-> well_formed items.
Proof.
  rewrite <-(C25_accepted_iff_well_formed items []). unfold new_graph. by destruct (gvalidate items).
Qed.
Lemma blank_shape n : shape_node (blank_node (to_rnode n)) = shape_node n.
Proof.
  destruct n as [nm fs]. unfold shape_node, blank_node, to_rnode. cbn. f_equal. rewrite !map_map. apply map_ext. by intros [f|l].
Qed.
Lemma blank_wf items : well_formed (map blank_node (map to_rnode items)) <-> well_formed items.
Proof.
  rewrite <-shape_wf, <-(shape_wf items), !map_map. 
  erewrite map_ext; [reflexivity|]. intros n. apply blank_shape.
Qed.

Section init.
  Context (post : nat -> option N -> rfield -> res (qnode * N)).
  Lemma init_ritem_shape x y : init_ritem post x = Ok y -> shape_item y = shape_item (blank_item x).
  Proof.
    destruct x as [[nm t f os]|l]; cbn [init_ritem blank_item].
    - unfold init_field. cbn. rewrite visit_options_id. destruct f as [f|sg e|sg].
      + by intros [= <-].
      + destruct (post _ _ _) as [[rq pr]|]; [|done]. by intros [= <-].
      + destruct (post _ _ _) as [[rq pr]|]; [|done]. by intros [= <-].
    - rewrite visit_link_id. by intros [= <-].
  Qed.
  Lemma init_node_shape n n' : init_node post n = Ok n' -> shape_node n' = shape_node (blank_node n).
  Proof.
    unfold init_node. destruct (mapR _ (rn_fields n)) as [fs|] eqn:Ef; [|done]. intros [= <-]. unfold shape_node. cbn. f_equal.
    apply mapR_ok in Ef. induction Ef as [|x y l k Hxy _ IH]; [done|]. cbn. by rewrite IH, (init_ritem_shape _ _ Hxy).
  Qed.
  Lemma make_wf items dt g : make_graph post items dt = Ok g -> well_formed (g_items g) /\ g_dtypes g = dt.
  Proof.
    unfold make_graph. destruct (gvalidate _) eqn:Eg; [|done]. destruct (mapR _ items) as [is_|] eqn:Ei; [|done]. intros [= <-].
    cbn. split; [|done]. apply gvalidate_wf in Eg. rewrite <-shape_wf in Eg |- *.
    assert (map shape_node is_ = map shape_node (map blank_node items)) as ->; [|done].
    clear Eg. apply mapR_ok in Ei. induction Ei as [|x y l k Hxy _ IH]; [done|]. cbn. by rewrite IH, (init_node_shape _ _ Hxy).
  Qed.
  Lemma init_ready x : init_ritem post (to_ritem x) = Ok x.
  Proof.
    destruct x as [[nm t f os]|l]; cbn [init_ritem to_ritem].
    - unfold init_field. cbn. by rewrite visit_options_id.
    - by rewrite visit_link_id.
  Qed.
  Lemma init_node_ready n : init_node post (to_rnode n) = Ok n.
  Proof.
    destruct n as [nm fs]. unfold init_node, to_rnode. cbn [rn_fields rn_name gn_fields gn_name].
    assert (mapR (init_ritem post) (map to_ritem fs) = Ok fs) as ->; [|done].
    apply mapR_ok. induction fs as [|x fs IH]; constructor; [apply init_ready|done].
  Qed.
  Lemma make_ready items dt : well_formed items -> make_graph post (map to_rnode items) dt = Ok (Graph items dt).
  Proof.
    intros Hw. unfold make_graph. rewrite (proj2 (gvalidate_wf _)) by (by apply blank_wf).
    assert (mapR (init_node post) (map to_rnode items) = Ok items) as ->; [|done].
    apply mapR_ok. clear Hw. induction items as [|n l IH]; constructor; [apply init_node_ready|done].
  Qed.
  (** C50: a graph made from the definitions of a graph is that graph: expressions are bound once. *)
  Theorem C50_made_again items dt g : make_graph post items dt = Ok g -> make_graph post (map to_rnode (g_items g)) (g_dtypes g) = Ok g.
  Proof. intros Hg. destruct (make_wf _ _ _ Hg) as [Hw <-]. destruct g. by apply make_ready. Qed.
  (** C50: the transformer which changes nothing gives the same graph. *)
  Theorem C50_identity items dt g : make_graph post items dt = Ok g -> tr_graph post tr_id g = Ok g.
  Proof.
    intros Hg. unfold tr_graph. assert (mapR (tr_gnode tr_id) (g_items g) = Ok (g_items g)) as ->.
    - apply mapR_id. intros n _. unfold tr_gnode. rewrite mapR_id; [by destruct n|]. intros [f|l] _; cbn.
      + by rewrite visit_field_id.
      + by rewrite visit_link_id.
    - by eapply C50_made_again.
  Qed.
  (** C50: a transformer which only changes functions gives a graph, with the same nodes, fields,
      links, types and options. *)
  Definition only_functions (t : transformer) : Prop :=
    (forall nm f, exists h, tr_field t nm f = GField (gf_name f) (gf_type f) h (gf_opts f)) /\
    (forall nm l, exists h, tr_link t nm l = GLink (gl_name l) (gl_enum l) (gl_node l) h (gl_requires l) (gl_opts l)) /\
    (forall n, tr_node t n = n).
  Theorem C50_only_functions t items dt g : make_graph post items dt = Ok g -> only_functions t ->
    exists g', tr_graph post t g = Ok g' /\ shape g' = shape g.
  Proof.
    intros Hg (Hf & Hl & Hn). destruct (make_wf _ _ _ Hg) as [Hw <-]. unfold tr_graph.
    assert (exists is_, mapR (tr_gnode t) (g_items g) = Ok is_ /\ map shape_node is_ = map shape_node (g_items g)) as (is_ & -> & Hs).
    { clear Hw Hg. induction (g_items g) as [|n l IH]; [by exists []|]. destruct IH as (is_ & His & Hs). cbn [mapR]. rewrite His.
      assert (exists fs, mapR (tr_item t (gn_name n)) (gn_fields n) = Ok fs /\ map shape_item fs = map shape_item (gn_fields n)) as (fs & Hfs & Hsf).
      { induction (gn_fields n) as [|x fs IHf]; [by exists []|]. destruct IHf as (fs' & Hfs & Hsf). cbn [mapR]. rewrite Hfs.
        destruct x as [f|k]; cbn [tr_item].
        - rewrite visit_field_id. eexists. split; [reflexivity|]. cbn [map]. rewrite Hsf. f_equal. cbn. f_equal.
          destruct (Hf (gn_name n) f) as [h ->]. done.
        - rewrite visit_link_id. eexists. split; [reflexivity|]. cbn [map]. rewrite Hsf. f_equal. cbn.
          destruct (Hl (gn_name n) k) as [h ->]. done. }
      unfold tr_gnode. rewrite Hfs. eexists. split; [reflexivity|]. cbn [map]. rewrite Hs, Hn. f_equal.
      unfold shape_node. cbn. by rewrite Hsf. }
    assert (well_formed is_) as Hw' by (rewrite <-shape_wf, Hs; by apply shape_wf).
    rewrite (make_ready is_ _ Hw'). eexists. split; [reflexivity|]. unfold shape. cbn. by rewrite Hs.
  Qed.
End init.
(** C50: transformers are applied from left to right; an error of one is the error of all. *)
Theorem C50_apply_composes g ts ts' :
  apply_all g (ts ++ ts') = match apply_all g ts with Ok g' => apply_all g' ts' | Err e => Err e end.
Proof. unfold apply_all. by rewrite foldR_app. Qed.
Theorem C50_apply_none g : apply_all g [] = Ok g.
Proof. done. Qed.
Theorem C50_apply_one g t ts : apply_all g (t :: ts) = match t g with Ok g' => apply_all g' ts | Err e => Err e end.
Proof. unfold apply_all. cbn. by destruct (t g). Qed.
Theorem C50_apply_identities post items dt g n : make_graph post items dt = Ok g -> apply_all g (repeat (tr_graph post tr_id) n) = Ok g.
Proof. intros Hg. induction n as [|n IH]; [done|]. cbn [repeat]. rewrite C50_apply_one. by rewrite (C50_identity _ _ _ _ Hg). Qed.
(** Example: a graph with an expression over a sub-graph *)
Definition ex_post (sg : nat) (e : option N) (f : rfield) : res (qnode * N) :=
  Ok (QN [QL (s "this") [QF (rf_name f) None None] false None None] false, 7%N).
Theorem C50_example : exists g,
  make_graph ex_post [RNode (Some (s "user")) [RF (RField (s "id") (Some TInt) (RReady (FPlain 1)) []);
                                               RF (RField (s "name") (Some TStr) (RSubGraph 0) [GOption (s "o") None VNothing])];
                      RNode None [RL (GLink (s "users") Many (s "user") 2 None [])]] [] = Ok g /\
  (exists f, find_node g (s "user") ≫= (fun n => find_field n (s "name")) = Some (GF f) /\ exists rq, gf_func f = FChecked 0 rq 7) /\
  tr_graph ex_post tr_id g = Ok g.
Proof.
  eexists. split; [vm_compute; reflexivity|]. split; [|vm_compute; reflexivity].
  eexists. split; [vm_compute; reflexivity|]. eexists. reflexivity.
Qed.

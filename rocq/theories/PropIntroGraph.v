(** Theorems about the graph with introspection (C45). *)
From Verif Require Import Base Val Types Query QuerySpec Graph Queue Result Engine EngineSpec Validate ValidateSpec PropValidate GraphExt Examples ExprSpec Introspect IntrospectSpec PropIntrospect.

(** ** What is listed *)
(** Starts with an underscore *)
Definition private (n : str) : Prop := exists r, n = s "_" ++ r.
Lemma private_visible n : visible n = false <-> private n.
Proof.
  unfold private. change (s "_") with [95%N]. split.
  - destruct n as [|c r]; [done|]. unfold visible. intros Hv. exists r. cbn [app]. f_equal.
    destruct c as [|p]; [done|]. repeat (destruct p as [p|p|]; try done).
  - by intros [r ->].
Qed.
(** C45: the fields listed for a node are those which are not private, in the order of definition. *)
Theorem C45_listed_fields S n gn fs :
  dget n (schema_nodes S) = Some gn -> type_fields S (IdObject n) = Ok fs ->
  Forall (fun f => f.1 = n) fs /\ sublist (map snd fs) (map gi_name (gn_fields gn)) /\
  forall x, x ∈ map snd fs <-> x ∈ map gi_name (gn_fields gn) /\ ~ private x.
Proof.
  intros Hn. unfold type_fields. rewrite Hn.
  assert (forall names, Forall (fun f : fident => f.1 = n) (map (fun f => (n, f)) names)) as H1.
  { intros names. apply Forall_fmap, Forall_forall. done. }
  assert (forall names : list str, map snd (map (fun f => (n, f)) names) = names) as H2.
  { intros names. rewrite map_map. apply map_id. }
  intros Hfs. assert (fs = map (fun f => (n, f)) (List.filter visible (map gi_name (gn_fields gn)))) as ->.
  { destruct (map _ (List.filter _ _)); [done|]. by injection Hfs. }
  split; [done|]. rewrite H2. split.
  - clear. induction (map gi_name (gn_fields gn)) as [|x l IH]; [constructor|]. cbn [List.filter].
    destruct (visible x); by constructor.
  - intros x. rewrite elem_of_list_In, filter_In, <-elem_of_list_In, <-private_visible. rewrite not_false_iff_true. done.
Qed.
(** C45: this is asked without an error if there is such a field. *)
Theorem C45_listed_iff_some_public S n gn :
  dget n (schema_nodes S) = Some gn ->
  is_ok (type_fields S (IdObject n)) <-> exists x, x ∈ map gi_name (gn_fields gn) /\ ~ private x.
Proof.
  intros Hn. split.
  - intros [fs Hfs]. destruct (C45_listed_fields S n gn fs Hn Hfs) as (_ & _ & Hx).
    destruct fs as [|f fs].
    + unfold type_fields in Hfs. rewrite Hn in Hfs. by destruct (map _ (List.filter _ _)).
    + exists f.2. apply Hx. left.
  - intros (x & Hx & Hp). unfold type_fields. rewrite Hn.
    destruct (map _ (List.filter _ _)) as [|y l] eqn:El; [|by eexists]. apply map_eq_nil in El.
    assert (In x []) as []. rewrite <-El. apply filter_In. split; [by apply elem_of_list_In|].
    rewrite <-private_visible in Hp. by destruct (visible x).
Qed.
(** It is not so for record types: their private fields are listed. *)
Theorem C45_private_of_records_refuted : exists S fs,
  type_fields S (IdObject (s "Filter")) = Ok fs /\ (s "Filter", s "_secret") ∈ fs /\ coherent S.
Proof.
  exists (Schema (Graph [GNode None [GF (GField (s "x") (Some TInt) (FPlain 1) [])]] [(s "Filter", TRec [(s "_secret", TStr)])]) None).
  eexists. split; [vm_compute; reflexivity|]. split; [left|]. split.
  - intros n gn E. apply dget_Some_elem in E.
    assert (schema_nodes (Schema (Graph [GNode None [GF (GField (s "x") (Some TInt) (FPlain 1) [])]] [(s "Filter", TRec [(s "_secret", TStr)])]) None) =
      [(s "Query", GNode None [GF (GField (s "x") (Some TInt) (FPlain 1) [])])]) as Es by (vm_compute; reflexivity).
    rewrite Es in E. apply elem_of_list_singleton in E as [= -> ->]. cbn [gn_fields].
    split; [eexists; split; [left|vm_compute; reflexivity]|]. intros x Hx%elem_of_list_singleton Hv. subst x. split; [exact I|].
    intros o Ho. by apply elem_of_nil in Ho.
  - intros n fs E. apply dget_Some_elem in E. apply elem_of_list_singleton in E as [= -> ->]. split; [done|]. split.
    + apply (bool_decide_unpack _); vm_compute; exact I.
    + intros k t Hin%elem_of_list_singleton. by injection Hin as -> ->.
  - apply (bool_decide_unpack _); vm_compute; exact I.
Qed.

(** ** The graph with introspection *)
Lemma find_field_elem gn n x : find_field gn n = Some x -> x ∈ gn_fields gn /\ gi_name x = n.
Proof.
  unfold find_field, fields_map, of_pairs. rewrite dget_dupdate. cbn [dget].
  destruct (dget n (reverse _)) as [y|] eqn:Ey; [|done]. intros [= ->]. apply dget_Some_elem in Ey.
  rewrite elem_of_reverse in Ey. apply elem_of_list_fmap in Ey as (y & [= -> ->] & Hy). done.
Qed.
Lemma find_field_unique gn x : NoDup (map gi_name (gn_fields gn)) -> x ∈ gn_fields gn -> find_field gn (gi_name x) = Some x.
Proof.
  intros Hd Hx. unfold find_field, fields_map. rewrite of_pairs_NoDup by (unfold dkeys; by rewrite map_map).
  apply dget_NoDup; [unfold dkeys; by rewrite map_map|]. apply elem_of_list_fmap. by exists x.
Qed.
Lemma find_node_elem g n gn : find_node g n = Some gn -> gn ∈ g_items g /\ gn_name gn = Some n.
Proof.
  intros Hn. split; [|by eapply find_node_name].
  unfold find_node, nodes_map, of_pairs in Hn. rewrite dget_dupdate in Hn. cbn [dget] in Hn.
  destruct (dget n (reverse _)) as [x|] eqn:Ex; [|done]. injection Hn as ->. apply dget_Some_elem in Ex.
  rewrite elem_of_reverse in Ex. apply elem_of_list_omap in Ex as (y & Hin & Hy). destruct (gn_name y) eqn:En; [|done].
  by injection Hy as -> ->.
Qed.
Lemma node_pairs_keys (items : list gnode) :
  dkeys (omap (fun n : gnode => match gn_name n with Some x => Some (x, n) | None => None end) items) = names_of_nodes items.
Proof.
  unfold dkeys, names_of_nodes. induction items as [|n l IH]; [done|]. cbn [flat_map]. rewrite <-IH. cbn. by destruct (gn_name n).
Qed.
Lemma find_node_unique g gn n : NoDup (names_of_nodes (g_items g)) -> gn ∈ g_items g -> gn_name gn = Some n -> find_node g n = Some gn.
Proof.
  intros Hd Hin Hn. unfold find_node, nodes_map. rewrite of_pairs_NoDup by (by rewrite node_pairs_keys).
  apply dget_NoDup; [by rewrite node_pairs_keys|]. apply elem_of_list_omap. exists gn. by rewrite Hn.
Qed.
Section added.
  Context (L : loaders) (g g' : graph).
  Hypothesis Hadd : add_introspection L g = Ok g'.
  Lemma added_eq : g' = Graph (map (add_typename L) (g_items g) ++ intro_items L) (g_dtypes g).
  Proof.
    unfold add_introspection in Hadd. destruct (forallb _ _); [|done]. unfold new_graph in Hadd.
    destruct (gvalidate _); [|done]. by injection Hadd.
  Qed.
  Lemma added_wf : well_formed (g_items g').
  Proof.
    rewrite added_eq. cbn [g_items]. apply (C25_accepted_iff_well_formed _ (g_dtypes g)). rewrite <-added_eq.
    unfold add_introspection in Hadd. by destruct (forallb _ _).
  Qed.
  Lemma added_item n : n ∈ g_items g -> add_typename L n ∈ g_items g'.
  Proof. intros Hn. rewrite added_eq. cbn [g_items]. apply elem_of_app. left. apply elem_of_list_fmap. by exists n. Qed.
  Lemma root_elem (h : graph) x : x ∈ gn_fields (g_root h) <-> exists n, n ∈ g_items h /\ gn_name n = None /\ x ∈ gn_fields n.
  Proof.
    unfold g_root. cbn [gn_fields]. rewrite elem_of_list_In, in_concat. setoid_rewrite in_map_iff. split.
    - intros (l & (n & <- & Hn) & Hx). apply filter_In in Hn as [Hn He]. exists n. split; [by apply elem_of_list_In|].
      split; [by destruct (gn_name n)|by apply elem_of_list_In].
    - intros (n & Hn & He & Hx). exists (gn_fields n). split; [|by apply elem_of_list_In]. exists n. split; [done|].
      apply filter_In. split; [by apply elem_of_list_In|by rewrite He].
  Qed.
  Lemma typename_extends n : add_typename L n ∈ g_items g' -> gn_name n <> None -> node_extends n (add_typename L n).
  Proof.
    intros Hin Hne. split; [done|]. intros x y Hxy. apply find_field_elem in Hxy as [Hy <-].
    destruct (gn_name n) as [nm|] eqn:En; [|done].
    apply find_field_unique; [|apply elem_of_app; by left].
    destruct added_wf as (_ & _ & Hw). apply (Hw (add_typename L n) nm Hin). done.
  Qed.
  (** C45: nothing is taken away, names of fields and of nodes mean what they meant. *)
  Theorem C45_extends : extends g g'.
  Proof.
    split.
    - split; [done|]. intros x y Hxy. apply find_field_elem in Hxy as [Hy <-]. apply find_field_unique.
      + destruct added_wf as (_ & [Hd _] & _). pose proof (root_fields_eq (g_items g')) as Hr.
        change (g_root (Graph (g_items g') [])) with (g_root g') in Hr. by rewrite Hr.
      + apply root_elem in Hy as (n & Hn & He & Hx). apply root_elem. exists (add_typename L n).
        split; [by apply added_item|]. split; [done|]. cbn [gn_fields add_typename]. apply elem_of_app. by left.
    - intros n gn Hgn. apply find_node_elem in Hgn as [Hin Hn]. exists (add_typename L gn). split.
      + apply find_node_unique; [apply added_wf|by apply added_item|done].
      + apply typename_extends; [by apply added_item|]. by rewrite Hn.
    - by rewrite added_eq.
  Qed.
  Lemma added_root : find_node g (s "__root__") = None -> find_node g' (s "__root__") = None.
  Proof.
    intros Hr. destruct (find_node g' (s "__root__")) as [gn|] eqn:Eg; [|done]. apply find_node_elem in Eg as [Hin Hn].
    rewrite added_eq in Hin. cbn [g_items] in Hin. apply elem_of_app in Hin as [Hin|Hin].
    - apply elem_of_list_fmap in Hin as (n & -> & Hin). cbn [add_typename gn_name] in Hn.
      exfalso. assert (is_Some (find_node g (s "__root__"))) as [? ?]; [|congruence].
      unfold find_node, nodes_map, of_pairs. rewrite dget_dupdate. destruct (dget _ (reverse _)) eqn:E; [by eexists|].
      exfalso. apply dget_None in E. apply E. unfold dkeys. apply elem_of_list_fmap. exists (s "__root__", n). split; [done|].
      rewrite elem_of_reverse. apply elem_of_list_omap. exists n. by rewrite Hn.
    - exfalso. unfold intro_items in Hin. rewrite !elem_of_cons, elem_of_nil in Hin.
      destruct Hin as [->|[->|[->|[->|[->|[->|[->|[]]]]]]]]; by vm_compute in Hn.
  Qed.
  (** C45: former queries are answered as before. *)
  Theorem C45_same_results_partial `{Hasher} (E : env) (D : data) (q q' : qnode) fuel fuel' sched sched' r r' :
    init_options g q = Ok q' -> serves E D -> respects_options D -> supported g q' -> links_ok g (plain_value D) D q' ->
    execute E (S fuel) g q sched r -> execute E (S fuel') g' q sched' r' ->
    exists idx idx', r = Ok (idx, q') /\ r' = Ok (idx', q') /\ denormalize g' idx' q' = denormalize g idx q'.
  Proof.
    intros Hi Hs Hr Hsup Hl H1 H2.
    apply (ext_same_result g g' C45_extends E D q q' fuel fuel' sched sched' r r' Hi Hs Hr Hsup Hl); [|done..].
    apply added_root, (sp_root _ _ Hsup).
  Qed.
  (** C45: and they are still valid. *)
  Theorem C45_still_valid fuel q : validate fuel g q = Ok [] -> validate fuel g' q = Ok [].
  Proof. apply ext_validate, C45_extends. Qed.
  (** C45: [__typename] of an object is the name of its node. *)
  Theorem C45_typename (D : data) n gn' i :
    (forall m j f o, d_field D (ld_typename L m) j f o = VStr m) ->
    n ∈ names_of_nodes (g_items g) -> find_node g' n = Some gn' ->
    resolve g' (plain_value D) D gn' i (QF (s "__typename") None None) = Ok (s "__typename", TP (PRaw (IVal (VStr n)))).
  Proof.
    intros HD Hn Hgn. unfold names_of_nodes in Hn. apply elem_of_list_In, in_flat_map in Hn as (gn & Hin%elem_of_list_In & Hx).
    destruct (gn_name gn) as [x|] eqn:En; [|done]. destruct Hx as [->|[]].
    rewrite (find_node_unique g' (add_typename L gn) n) in Hgn; [|apply added_wf|by apply added_item|done]. injection Hgn as <-.
    cbn [resolve q_name].
    assert (find_field (add_typename L gn) (s "__typename") = Some (typename_field L n)) as Hf.
    { change (s "__typename") with (gi_name (typename_field L n)). apply find_field_unique.
      - destruct added_wf as (_ & _ & Hw). apply (Hw (add_typename L gn) n); [by apply added_item|done].
      - unfold add_typename. rewrite En. cbn [gn_fields]. apply elem_of_app. right. left. }
    cbn [result_key q_alias]. rewrite Hf. cbn [typename_field plain_value gf_func]. unfold plain_value. cbn [gf_func]. rewrite HD. done.
  Qed.
End added.
(** The loader of [__typename] gives such data. *)
Theorem C45_typename_rows n ids :
  match ids with
  | Some is_ => exists rows, seq_of (typename_rows n (Some is_)) = Some rows /\ Forall2 (fun _ row => seq_of row = Some [VStr n]) is_ rows
  | None => seq_of (typename_rows n None) = Some [VStr n]
  end.
Proof.
  destruct ids as [is_|]; [|done]. eexists. split; [done|]. induction is_; constructor; auto.
Qed.

(** ** When introspection can be added *)
(** Names which start with two underscores are reserved. *)
Definition reserved (n : str) : Prop := exists r, n = s "__" ++ r.
Definition roots (items : list gnode) : nat := length (List.filter (fun n => match gn_name n with None => true | Some _ => false end) items).
Lemma names_app a b : names_of_nodes (a ++ b) = names_of_nodes a ++ names_of_nodes b.
Proof. apply flat_map_app. Qed.
Lemma roots_app a b : root_fields (a ++ b) = root_fields a ++ root_fields b.
Proof. apply flat_map_app. Qed.
Lemma wf_mono ns ns' fs : (forall n, n ∈ ns -> n ∈ ns') -> well_formed_node ns fs -> well_formed_node ns' fs.
Proof.
  intros Hn [Hd Hl]. split; [done|]. intros l Hin. destruct (Hl l Hin). split; [by apply Hn|done].
Qed.
Section accepted.
  Context (L : loaders) (items : list gnode).
  Lemma typename_names : names_of_nodes (map (add_typename L) items) = names_of_nodes items.
  Proof. unfold names_of_nodes. induction items as [|n l IH]; [done|]. cbn. by rewrite IH. Qed.
  Lemma typename_roots : root_fields (map (add_typename L) items) ≡ₚ
    root_fields items ++ repeat (typename_field L QUERY_ROOT_NAME) (roots items).
  Proof.
    unfold root_fields, roots. induction items as [|n l IH]; [done|]. cbn [map flat_map List.filter add_typename gn_name gn_fields].
    destruct (gn_name n); [exact IH|]. cbn [length repeat]. rewrite IH. cbn [app].
    rewrite <-!app_assoc. f_equiv. cbn [app]. by rewrite <-Permutation_middle.
  Qed.
  Lemma intro_wf n x : n ∈ intro_items L -> gn_name n = Some x -> well_formed_node (names_of_nodes (intro_items L)) (gn_fields n).
  Proof.
    intros Hn Hx. apply gcheck_node_nil. unfold intro_items in Hn. rewrite !elem_of_cons, elem_of_nil in Hn.
    destruct Hn as [->|[->|[->|[->|[->|[->|[->|[]]]]]]]]; vm_compute; reflexivity.
  Qed.
  Lemma wf_app ns fs fs' : well_formed_node ns fs -> NoDup (map gi_name fs') ->
    (forall x, x ∈ map gi_name fs -> x ∉ map gi_name fs') ->
    (forall l, GL l ∈ fs' -> gl_node l ∈ ns /\ gl_requires l = None) -> well_formed_node ns (fs ++ fs').
  Proof.
    intros [Hd Hl] Hd' Hdis Hl'. split.
    - rewrite map_app. apply NoDup_app. done.
    - intros l [Hin|Hin]%elem_of_app.
      + destruct (Hl l Hin) as [Hn Hr]. split; [done|]. destruct (gl_requires l); [|done]. rewrite map_app. apply elem_of_app. by left.
      + destruct (Hl' l Hin) as [Hn ->]. done.
  Qed.
  Lemma wf_perm ns fs fs' : fs ≡ₚ fs' -> well_formed_node ns fs -> well_formed_node ns fs'.
  Proof.
    intros Hp [Hd Hl]. split.
    - by rewrite <-Hp.
    - intros l Hin. rewrite <-Hp in Hin. destruct (Hl l Hin) as [Hn Hr]. split; [done|]. destruct (gl_requires l); [|done].
      by rewrite <-Hp.
  Qed.
  Hypothesis Hwf : well_formed items.
  Hypothesis Hroots : roots items <= 1.
  Hypothesis Hnodes : forall n, n ∈ names_of_nodes items -> ~ reserved n.
  Hypothesis Hfields : forall n x, n ∈ items -> x ∈ gn_fields n -> ~ reserved (gi_name x).
  Lemma typename_reserved : reserved (s "__typename").
  Proof. by exists (s "typename"). Qed.
  Lemma accepted_wf : well_formed (map (add_typename L) items ++ intro_items L).
  Proof.
    destruct Hwf as (H1 & H2 & H3). unfold well_formed. rewrite names_app, typename_names. split_and!.
    - apply NoDup_app. split; [done|]. split.
      + intros x Hx Hi. apply (Hnodes x Hx).
        change (names_of_nodes (intro_items L)) with [s "__Type"; s "__Field"; s "__InputValue"; s "__Directive"; s "__EnumValue"; s "__Schema"] in Hi.
        rewrite !elem_of_cons, elem_of_nil in Hi.
        destruct Hi as [->|[->|[->|[->|[->|[->|[]]]]]]]; eexists; reflexivity.
      + apply (bool_decide_unpack _); vm_compute; exact I.
    - rewrite roots_app. eapply wf_perm; [symmetry; rewrite typename_roots, <-app_assoc; reflexivity|].
      apply wf_app.
      + eapply wf_mono; [|exact H2]. intros n Hn. apply elem_of_app. by left.
      + destruct (roots items) as [|[|]]; [..|lia]; (apply (bool_decide_unpack _); vm_compute; exact I).
      + intros x Hx Hi. apply elem_of_list_fmap in Hx as (y & -> & Hy). unfold root_fields in Hy.
        apply elem_of_list_In, in_flat_map in Hy as (n & Hn%elem_of_list_In & Hy). destruct (gn_name n); [done|]. apply elem_of_list_In in Hy.
        apply (Hfields n y Hn Hy). apply elem_of_list_fmap in Hi as (z & -> & Hz). apply elem_of_app in Hz as [Hz|Hz].
        * apply elem_of_list_In, repeat_spec in Hz as ->. apply typename_reserved.
        * change (root_fields (intro_items L)) with [lnk L (s "__schema") One (s "__Schema") 19 None [];
            lnk L (s "__type") Maybe (s "__Type") 20 None [GOption (s "name") (Some TStr) VNothing]] in Hz.
          rewrite !elem_of_cons, elem_of_nil in Hz. destruct Hz as [->|[->|[]]]; eexists; reflexivity.
      + intros l Hl. apply elem_of_app in Hl as [Hl|Hl]; [by apply elem_of_list_In, repeat_spec in Hl|].
        change (root_fields (intro_items L)) with [lnk L (s "__schema") One (s "__Schema") 19 None [];
            lnk L (s "__type") Maybe (s "__Type") 20 None [GOption (s "name") (Some TStr) VNothing]] in Hl.
        rewrite !elem_of_cons, elem_of_nil in Hl. destruct Hl as [Hl|[Hl|[]]]; injection Hl as ->; (split; [|done]);
          apply elem_of_app; right; apply (bool_decide_unpack _); vm_compute; exact I.
    - intros n x [Hn|Hn]%elem_of_app Hx.
      + apply elem_of_list_fmap in Hn as (m & -> & Hm). cbn [add_typename gn_name gn_fields] in *. apply wf_app.
        * eapply wf_mono; [|by eapply H3]. intros y Hy. apply elem_of_app. by left.
        * apply NoDup_singleton.
        * intros y Hy Hi%elem_of_list_singleton. subst y. apply elem_of_list_fmap in Hy as (z & Hz & Hzin). 
          apply (Hfields m z Hm Hzin). rewrite <-Hz. apply typename_reserved.
        * intros l Hl%elem_of_list_singleton. done.
      + eapply wf_mono; [|by eapply intro_wf]. intros y Hy. apply elem_of_app. by right.
  Qed.
End accepted.
(** A name of GraphQL: letters, digits and underscores, not starting with a digit; a newline behind it is let pass *)
Definition letter (c : N) : Prop := (97 <= c <= 122 \/ 65 <= c <= 90 \/ c = 95)%N.
Definition digit (c : N) : Prop := (48 <= c <= 57)%N.
Definition gql_word (n : str) : Prop := exists c r, n = c :: r /\ letter c /\ Forall (fun x => letter x \/ digit x) r.
Definition gql_name (n : str) : Prop := gql_word n \/ exists w, n = w ++ [10%N] /\ gql_word w.
Definition well_named (g : graph) : Prop :=
  forall n, n ∈ g_items g -> (forall x, gn_name n = Some x -> gql_name x) /\ gn_fields n <> [] /\
    forall x, x ∈ gn_fields n -> gql_name (gi_name x) /\ forall o, o ∈ gi_options x -> gql_name (go_name o).
Lemma word_char_spec c : word_char c = true <-> letter c \/ digit c.
Proof. unfold word_char, letter, digit. rewrite !orb_true_iff, !andb_true_iff, !N.leb_le, N.eqb_eq. tauto. Qed.
Lemma first_char_spec c : word_char c && negb (is_digit c) = true <-> letter c.
Proof.
  rewrite andb_true_iff, word_char_spec, negb_true_iff. unfold is_digit, letter, digit. rewrite andb_false_iff, !N.leb_gt. lia.
Qed.
Lemma all_words r : forallb word_char r = true <-> Forall (fun x => letter x \/ digit x) r.
Proof. rewrite forallb_forall, Forall_forall. setoid_rewrite <-word_char_spec. setoid_rewrite elem_of_list_In. done. Qed.
Lemma words_rev r : forallb word_char (List.rev r) = forallb word_char r.
Proof. induction r as [|c r IH]; [done|]. cbn. rewrite forallb_app, IH. cbn. by rewrite andb_true_r, andb_comm. Qed.
Lemma rest_spec r : match List.rev r with 10%N :: r' => forallb word_char r' | _ => forallb word_char r end = true <->
  forallb word_char r = true \/ exists w, r = w ++ [10%N] /\ forallb word_char w = true.
Proof.
  rewrite <-(words_rev r). assert (forall w, r = w ++ [10%N] <-> List.rev r = 10%N :: List.rev w) as Hw.
  { intros w. split; [intros ->; by rewrite rev_app_distr|]. intros Hr. apply (f_equal (@List.rev N)) in Hr. rewrite rev_involutive in Hr. cbn in Hr. by rewrite rev_involutive in Hr. }
  setoid_rewrite Hw. setoid_rewrite <-words_rev. generalize (List.rev r). clear. intros [|c l]; rewrite ?words_rev.
  - split; [by left|]. intros [?|(w & ? & _)]; done.
  - destruct (decide (c = 10%N)) as [->|Hne].
    + split.
      * intros Hl. right. exists (List.rev l). by rewrite rev_involutive.
      * intros [Hl|(w & [= ->] & Hl)]; [done|done].
    + assert (forall A B : bool, match c with 10%N => A | _ => B end = B) as Hm.
      { intros A B. destruct c as [|p]; [done|]. do 4 (destruct p as [p|p|]; try done). }
      rewrite Hm. split; [by left|]. intros [?|(w & [= ? _] & _)]; done.
Qed.
Lemma valid_name_spec n : valid_name n = true <-> gql_name n.
Proof.
  destruct n as [|c r]; cbn [valid_name].
  - split; [done|]. intros [(? & ? & ? & _)|(w & Hw & c & r & -> & _)]; done.
  - rewrite andb_true_iff, first_char_spec, rest_spec. split.
    + intros [Hc [Hr|(w & -> & Hr)]]; apply all_words in Hr; [left; by exists c, r|]. right. exists (c :: w). split; [done|]. by exists c, w.
    + intros [(c' & r' & [= <- <-] & Hc & Hr)|(w & Hw & c' & r' & -> & Hc & Hr)]; apply all_words in Hr; [split; [done|by left]|].
      injection Hw as <- ->. split; [done|]. right. by exists r'.
Qed.
Lemma valid_nodes_spec g : forallb valid_node (g_items g) = true <-> well_named g.
Proof.
  unfold well_named. rewrite forallb_forall. setoid_rewrite <-elem_of_list_In.
  assert (forall n, valid_node n = true <-> (forall x, gn_name n = Some x -> gql_name x) /\ gn_fields n <> [] /\
    forall x, x ∈ gn_fields n -> gql_name (gi_name x) /\ forall o, o ∈ gi_options x -> gql_name (go_name o)) as Hn.
  { intros n. unfold valid_node. rewrite !andb_true_iff, negb_true_iff, bool_decide_eq_false, forallb_forall. unfold valid_item.
    setoid_rewrite andb_true_iff. setoid_rewrite forallb_forall. setoid_rewrite <-elem_of_list_In. setoid_rewrite valid_name_spec.
    destruct (gn_name n) as [x|].
    - rewrite valid_name_spec. split; [intros [[? ?] ?]; split_and!; try done; by intros ? [= <-]|intros (Hx & ? & ?); split_and!; try done; by apply Hx].
    - split; [by intros [[? ?] ?]|by intros (? & ? & ?)]. }
  setoid_rewrite Hn. done.
Qed.
(** C45: introspection can be added to a graph whose names are GraphQL names and not reserved, with
    one Root at most and members in every node. *)
Theorem C45_accepted L g :
  well_formed (g_items g) -> roots (g_items g) <= 1 ->
  (forall n, n ∈ names_of_nodes (g_items g) -> ~ reserved n) ->
  (forall n x, n ∈ g_items g -> x ∈ gn_fields n -> ~ reserved (gi_name x)) -> well_named g ->
  exists g', add_introspection L g = Ok g'.
Proof.
  intros Hw Hr Hn Hf Hv. unfold add_introspection. rewrite (proj2 (valid_nodes_spec g) Hv).
  eexists. apply C25_accepted_iff_well_formed. by apply accepted_wf.
Qed.
(** C45: and only to such graphs: others are refused *)
Theorem C45_refused L g : ~ well_named g -> add_introspection L g = Err ValueError.
Proof.
  intros Hn. unfold add_introspection. destruct (forallb valid_node (g_items g)) eqn:Ev; [|done]. by apply valid_nodes_spec in Ev.
Qed.
Theorem C45_refused_example : ~ well_named (Graph [GNode (Some (s "empty")) []] []) /\ gql_name (s "user_2") /\ ~ gql_name (s "2nd") /\ ~ gql_name (s "a-b").
Proof.
  split_and!.
  - intros Hw. destruct (Hw _ ltac:(left)) as (_ & Hne & _). done.
  - apply valid_name_spec. reflexivity.
  - by intros Hx%valid_name_spec.
  - by intros Hx%valid_name_spec.
Qed.
(** With two Root items, which together make a valid graph, it can not. *)
Theorem C45_two_roots_refuted L : exists g,
  new_graph (g_items g) (g_dtypes g) = Ok g /\ forallb valid_node (g_items g) = true /\
  (forall n, n ∈ names_of_nodes (g_items g) -> ~ reserved n) /\
  (forall n x, n ∈ g_items g -> x ∈ gn_fields n -> ~ reserved (gi_name x)) /\
  add_introspection L g = Err TypeError.
Proof.
  exists (Graph [GNode None [GF (GField (s "x") None (FPlain 1) [])]; GNode None [GF (GField (s "y") None (FPlain 1) [])]] []).
  split_and!; try (vm_compute; reflexivity).
  - intros n Hn. by apply elem_of_nil in Hn.
  - intros n x Hn Hx [r Hr]. cbn [g_items] in Hn. rewrite !elem_of_cons, elem_of_nil in Hn. destruct Hn as [->|[->|[]]];
      apply elem_of_list_singleton in Hx as ->; vm_compute in Hr; discriminate Hr.
Qed.
(** A name with a newline at its end passes as a GraphQL name. *)
Theorem C45_newline_name_refuted : valid_name (s "name" ++ [10%N]) = true.
Proof. reflexivity. Qed.
(** Example *)
Definition ex_loaders : loaders := Loaders (fun _ => 100%N) (fun n => (200 + n)%N).
Theorem C45_example : exists g', add_introspection ex_loaders ex_query = Ok g' /\ extends ex_query g' /\
  roots (g_items ex_query) = 1 /\
  type_fields (Schema g' None) (IdObject (s "user")) = Ok [(s "user", s "id"); (s "user", s "name")].
Proof.
  destruct (add_introspection ex_loaders ex_query) as [g'|] eqn:Eg; [|by vm_compute in Eg].
  exists g'. split; [done|]. split; [by eapply C45_extends|]. split; [done|].
  rewrite (added_eq _ _ _ Eg). vm_compute. reflexivity.
Qed.

(** Theorems about introspection (C43, C44, C45). *)
From Verif Require Import Base Val Types Query QuerySpec Graph Validate Result Engine EngineSpec ExprSpec Introspect IntrospectSpec.

(** ** C43 *)
Definition is_nn (i : tident) : bool := match i with IdNonNull _ => true | _ => false end.
Lemma type_ident_nn dt input t i : type_ident dt input t = Ok i -> is_nn (bare i) = false.
Proof.
  revert i. induction t using ty_ind'; intros i; cbn [type_ident]; try (by intros [= <-]).
  - destruct input; [|by intros [= <-]]. destruct (bool_decide _); [by intros [= <-]|done].
  - destruct (type_ident dt input t) as [j|]; [|done]. specialize (IHt j eq_refl). destruct j; intros [= <-]; try done.
    by destruct j.
  - destruct (type_ident dt input t) as [j|]; [|done]. by intros [= <-].
Qed.
Lemma bare_bare i : is_nn (bare i) = false -> bare (bare i) = bare i.
Proof. by destruct i as [| | | | |[]]. Qed.
Lemma type_ident_opt dt input t i : type_ident dt input (TOpt t) = Ok i <-> exists j, type_ident dt input t = Ok j /\ i = bare j.
Proof.
  cbn [type_ident]. destruct (type_ident dt input t) as [j|]; [|split; [done|by intros (? & ? & _)]].
  split.
  - intros Hi. exists j. split; [done|]. destruct j; by injection Hi as <-.
  - intros (? & [= <-] & ->). by destruct j.
Qed.
(** C43: the reported type may be null exactly if the declared one may. *)
Theorem C43_nullable_iff_optional dt input t i :
  type_ident dt input t = Ok i -> (forall j, i <> IdNonNull j) <-> nullable t = true.
Proof.
  intros Hi. assert ((forall j, i <> IdNonNull j) <-> is_nn i = false) as ->.
  { destruct i; try (split; [done|done]). split; [intros Hn; exfalso; by eapply Hn|done]. }
  destruct t; cbn [nullable]; try (injection Hi as <-; done).
  - cbn [type_ident] in Hi. destruct input; [|by injection Hi as <-]. destruct (bool_decide _); [by injection Hi as <-|done].
  - apply type_ident_opt in Hi as (j & Hj & ->). split; [done|]. intros _. by eapply type_ident_nn.
  - cbn [type_ident] in Hi. destruct (type_ident dt input t); [|done]. by injection Hi as <-.
  - done.
Qed.
(** C43: it is a list exactly if the declared one is a sequence, of the items declared. *)
Theorem C43_list_iff_sequence dt input t i :
  type_ident dt input t = Ok i ->
  ((exists j, bare i = IdList j) <-> (exists u, unopt t = TSeq u)) /\
  (forall j u, bare i = IdList j -> unopt t = TSeq u -> type_ident dt input u = Ok j).
Proof.
  assert (forall t i, type_ident dt input t = Ok i -> forall u, unopt t = TSeq u -> exists j, bare i = IdList j /\ type_ident dt input u = Ok j) as H1.
  { clear. induction t using ty_ind'; intros i Hi u Hu; try done.
    - apply type_ident_opt in Hi as (j & Hj & ->). destruct (IHt j Hj u Hu) as (k & Hk & ?). exists k.
      rewrite bare_bare; [done|]. by eapply type_ident_nn.
    - injection Hu as <-. cbn [type_ident] in Hi. destruct (type_ident dt input t) as [j|] eqn:E; [|done].
      injection Hi as <-. by exists j. }
  intros Hi. split; [split|].
  - intros [j Hj]. clear H1. revert i j Hi Hj. induction t using ty_ind'; intros i j Hi Hj; try (injection Hi as <-; done).
    + cbn [type_ident] in Hi. destruct input; [|by injection Hi as <-]. destruct (bool_decide _); [by injection Hi as <-|done].
    + apply type_ident_opt in Hi as (k & Hk & ->). rewrite bare_bare in Hj by (by eapply type_ident_nn). by eapply IHt.
    + by exists t.
    + done.
  - intros [u Hu]. destruct (H1 t i Hi u Hu) as (j & ? & ?). eauto.
  - intros j u Hj Hu. destruct (H1 t i Hi u Hu) as (k & Hk & ?). congruence.
Qed.
(** C43: it has the name of the declared scalar or object. *)
Theorem C43_names dt t i : type_ident dt false t = Ok i ->
  match unopt t with
  | TStr => bare i = IdScalar (s "String") | TInt => bare i = IdScalar (s "Int")
  | TFloat => bare i = IdScalar (s "Float") | TBool => bare i = IdScalar (s "Boolean")
  | TRef n => bare i = IdObject n
  | TAny | TMap _ _ | TRec _ => bare i = IdScalar (s "Any")
  | _ => True
  end.
Proof.
  revert i. induction t using ty_ind'; intros i Hi; cbn [unopt]; try (by injection Hi as <-); try done.
  apply type_ident_opt in Hi as (j & Hj & ->). rewrite bare_bare by (by eapply type_ident_nn). by apply IHt.
Qed.
(** C43: following [ofType] a client reads exactly the declared type, with its lists and its non null marks, and
    nothing else. *)
Theorem C43_client_reads dt input t i : type_ident dt input t = Ok i -> client_reads i (gql_type_of input t).
Proof.
  assert (forall n, client_reads (IdNonNull (IdScalar n)) (GNonNull (GName n))) as Hs.
  { intros n. eapply cr_nonnull; [done|done|]. eapply cr_name; done. }
  revert i. induction t using ty_ind'; intros i Hi; cbn [gql_type_of].
  1-5: injection Hi as <-; try apply Hs; eapply cr_name; done.
  all: try (by injection Hi as <-; eapply cr_name).
  all: cbn [type_ident] in Hi; try done.
  - destruct input.
    + destruct (bool_decide _); [|done]. injection Hi as <-. eapply cr_nonnull; [done|done|]. eapply cr_name; done.
    + injection Hi as <-. eapply cr_nonnull; [done|done|]. eapply cr_name; done.
  - destruct (type_ident dt input t) as [j|] eqn:E; [|done]. specialize (IHt j eq_refl). pose proof (type_ident_nn _ _ _ _ E) as Hn.
    destruct j as [n|n|n|n|j|j]; injection Hi as <-; try (by inversion IHt; subst; cbn [nullable_form]; eauto using client_reads).
    all: inversion IHt as [? ? u Hk Ho Hu|? ? u Hk Ho Hu|? k n Hk Hk1 Hk2 Hnm]; subst; try done; cbn [nullable_form].
    injection Ho as <-. exact Hu.
  - destruct (type_ident dt input t) as [j|] eqn:E; [|done]. injection Hi as <-. eapply cr_nonnull; [done|done|]. eapply cr_list; [done|done|]. by apply IHt.
Qed.
Theorem C43_client_reads_once i a b : client_reads i a -> client_reads i b -> a = b.
Proof.
  assert (forall k k' : str, (Ok k : res str) = Ok k' -> k = k') as Hok by (by intros k k' [= ->]).
  assert (s "NON_NULL" <> s "LIST") as Hne by done.
  intros Ha. revert b. induction Ha as [i j t Hk Ho _ IH|i j t Hk Ho _ IH|i k n Hk H1 H2 Hn]; intros b Hb;
    destruct Hb as [i j' t' Hk' Ho' Ht'|i j' t' Hk' Ho' Ht'|i k' n' Hk' H1' H2' Hn']; try (exfalso; rewrite Hk in Hk'; apply Hok in Hk'; congruence).
  - f_equal. apply IH. rewrite Ho in Ho'. by injection Ho' as <-.
  - f_equal. apply IH. rewrite Ho in Ho'. by injection Ho' as <-.
  - rewrite Hn in Hn'. by injection Hn' as <-.
Qed.
Section meaning.
  Context (types : dict str ty).
  Hypothesis Hobj : forall n t, dget n types = Some t -> is_record t = true.
  Lemma ref_not_none n : ~ has_type types (DVal VNone) (TRef n).
  Proof.
    intros Hv. inversion Hv as [| | | | |? ? t E Ht| | | | |]; subst. pose proof (Hobj _ _ E) as Hr.
    destruct t; try done. inversion Ht.
  Qed.
  Lemma gql_bare v i : is_nn (bare i) = false -> gql_value types v (bare i) <-> v = DVal VNone \/ gql_value types v i.
  Proof.
    intros Hn. split.
    - intros Hv. destruct i; try (by right). cbn [bare] in *.
      assert ({v = DVal VNone} + {v <> DVal VNone}) as [->|Hne].
      { destruct v as [[]| | | |]; try (by left); right; done. }
      + by left.
      + right. by constructor.
    - intros [->|Hv].
      + apply gv_null. intros j Hj. by rewrite Hj in Hn.
      + destruct i; try done. cbn [bare]. inversion Hv; subst; try done. exfalso; by eapply H.
  Qed.
  Lemma nn_value v i : gql_value types v (IdNonNull i) <-> gql_value types v i /\ v <> DVal VNone.
  Proof.
    split; [|intros []; by constructor]. intros Hv. inversion Hv as [| | | | | | |? Hn| |]; subst; [|done]. exfalso; by eapply Hn.
  Qed.
  Lemma opt_value v t : has_type types v (TOpt t) <-> v = DVal VNone \/ has_type types v t.
  Proof.
    split; [|intros [->|]; by constructor]. intros Hv. inversion Hv; subst; auto.
  Qed.
  (** C43: the values of the reported type are the values of the declared one. *)
  Theorem C43_same_values dt input t i v :
    type_ident dt input t = Ok i -> tellable t = true -> gql_value types v i <-> has_type types v t.
  Proof.
    revert i v. induction t using ty_ind'; intros i w Hi Ht; try done.
    - injection Hi as <-. split; intros _; constructor.
    - injection Hi as <-. rewrite nn_value. split; [intros [Hv Hn]|intros Hv; split].
      + inversion Hv; subst; try done. constructor.
      + inversion Hv; constructor.
      + by inversion Hv.
    - injection Hi as <-. rewrite nn_value. split; [intros [Hv Hn]|intros Hv; split].
      + inversion Hv; subst; try done. constructor.
      + inversion Hv; constructor.
      + by inversion Hv.
    - injection Hi as <-. rewrite nn_value. split; [intros [Hv Hn]|intros Hv; split].
      + inversion Hv; subst; try done. constructor.
      + inversion Hv; constructor.
      + by inversion Hv.
    - injection Hi as <-. rewrite nn_value. split; [intros [Hv Hn]|intros Hv; split].
      + inversion Hv; subst; try done. constructor.
      + inversion Hv; constructor.
      + by inversion Hv.
    - assert (i = IdNonNull (IdObject n) \/ i = IdNonNull (IdInput n)) as Hi'.
      { cbn [type_ident] in Hi. destruct input; [|injection Hi as <-; by left]. destruct (bool_decide _); [injection Hi as <-; by right|done]. }
      destruct Hi' as [->| ->]; rewrite nn_value; (split; [intros [Hv Hn]|intros Hv; split; [|intros ->; by apply ref_not_none in Hv]]).
      + inversion Hv; subst; try done. by eapply ht_ref.
      + inversion Hv; subst. by eapply gv_object.
      + inversion Hv; subst; try done. by eapply ht_ref.
      + inversion Hv; subst. by eapply gv_input.
    - apply type_ident_opt in Hi as (j & Hj & ->). rewrite gql_bare by (by eapply type_ident_nn).
      rewrite opt_value. rewrite (IHt j w Hj Ht). done.
    - cbn [type_ident] in Hi. destruct (type_ident dt input t) as [j|] eqn:E; [|done]. injection Hi as <-.
      rewrite nn_value. split; [intros [Hv Hn]|intros Hv; split].
      + inversion Hv as [| | | | | | | |l ? Hl|]; subst; [done|]. constructor. intros v Hv'. apply (IHt j); auto.
      + inversion Hv as [| | | | | | | |l ? Hl| |]; subst. constructor. intros v Hv'. apply (IHt j); auto.
      + by inversion Hv.
  Qed.
  (** C43: whatever the type, no value of it is excluded by what is reported. *)
  Theorem C43_no_value_excluded dt input t i v :
    type_ident dt input t = Ok i -> has_type types v t -> gql_value types v i.
  Proof.
    revert i v. induction t using ty_ind'; intros i w Hi; try (by injection Hi as <-; intros; constructor).
    1-5: by apply C43_same_values with (dt := dt) (input := input).
    - apply type_ident_opt in Hi as (j & Hj & ->). rewrite gql_bare by (by eapply type_ident_nn).
      rewrite opt_value. intros [->|Hv]; auto.
    - cbn [type_ident] in Hi. destruct (type_ident dt input t) as [j|] eqn:E; [|done]. injection Hi as <-.
      intros Hv. inversion Hv as [| | | | | | | |l ? Hl| |]; subst. apply nn_value. split; [|done]. constructor. intros v Hv'. auto.
    - done.
  Qed.
End meaning.

(** ** C44 *)
Definition scalar_names : list str := [s "String"; s "Int"; s "Boolean"; s "Float"; s "Any"].
Fixpoint base (t : tident) : tident := match t with IdList t | IdNonNull t => base t | _ => t end.
Section closed.
  Context (S : schema).
  Hypothesis Hco : coherent S.
  Definition fine (t : tident) : Prop :=
    match base t with
    | IdScalar n => n ∈ scalar_names
    | IdObject n => n ∈ dkeys (schema_nodes S) \/ record_type S n
    | IdInput n => record_type S n
    | _ => False
    end.
  Lemma record_listed n : record_type S n ->
    IdObject n ∈ root_schema_types S /\ IdInput n ∈ root_schema_types S.
  Proof.
    intros [fs E]. apply dget_Some_elem in E. unfold root_schema_types.
    assert (forall i, i ∈ [IdObject n; IdInput n] -> i ∈ flat_map (fun '(n, t) => if is_record t then [IdObject n; IdInput n] else []) (sc_types S)) as Hin.
    { intros i Hi. apply elem_of_list_In, in_flat_map. exists (n, TRec fs). split; [by apply elem_of_list_In|]. by apply elem_of_list_In. }
    split; rewrite !elem_of_app; right; right; apply Hin; rewrite !elem_of_cons; auto.
  Qed.
  Lemma fine_listed t : fine t -> named t -> t ∈ root_schema_types S.
  Proof.
    unfold fine. destruct t as [n|n|n|n|t|t]; cbn [base]; try done.
    - intros Hn _. unfold root_schema_types. rewrite !elem_of_app. left. by apply elem_of_list_fmap_1.
    - intros [Hn|Hr] _; [|by apply record_listed]. unfold root_schema_types. rewrite !elem_of_app. right. left.
      by apply elem_of_list_fmap_1.
    - intros Hr _. by apply record_listed.
  Qed.
  Lemma listed_fine t : t ∈ root_schema_types S -> fine t.
  Proof.
    unfold root_schema_types. rewrite !elem_of_app. intros [Ht|[Ht|Ht]].
    - apply elem_of_list_fmap in Ht as (n & -> & Hn). done.
    - apply elem_of_list_fmap in Ht as (n & -> & Hn). by left.
    - apply elem_of_list_In, in_flat_map in Ht as ([n u] & Hin & Ht). destruct u; try done. cbn [is_record] in Ht.
      assert (record_type S n) as Hr.
      { exists fs. apply dget_NoDup; [by apply (co_dict S Hco)|]. by apply elem_of_list_In. }
      destruct Ht as [<-|[<-|[]]]; [by right|done].
  Qed.
  Lemma base_bare i : base (bare i) = base i.
  Proof. by destruct i. Qed.
  Lemma scalar_fine n i : n ∈ scalar_names -> base i = IdScalar n -> fine i.
  Proof. unfold fine. by intros ? ->. Qed.
  Lemma out_ident t : out_type S t -> exists i, type_ident (sc_types S) false t = Ok i /\ fine i.
  Proof.
    induction t using ty_ind'; intros Ho; try done;
      try (eexists; split; [reflexivity|]; eapply scalar_fine; [|reflexivity]; apply (bool_decide_unpack _); vm_compute; exact I).
    - eexists. split; [reflexivity|]. exact Ho.
    - destruct (IHt Ho) as (j & Hj & Hf). exists (bare j). split; [by apply type_ident_opt; exists j|].
      unfold fine. by rewrite base_bare.
    - destruct (IHt Ho) as (j & Hj & Hf). cbn [type_ident]. rewrite Hj. eexists. split; [reflexivity|]. exact Hf.
  Qed.
  Lemma in_ident t : in_type S t -> exists i, type_ident (sc_types S) true t = Ok i /\ fine i.
  Proof.
    induction t using ty_ind'; intros Ho; try done;
      try (eexists; split; [reflexivity|]; eapply scalar_fine; [|reflexivity]; apply (bool_decide_unpack _); vm_compute; exact I).
    - cbn [type_ident]. rewrite bool_decide_eq_true_2; [eexists; split; [reflexivity|exact Ho]|].
      destruct Ho as [fs E]. apply dget_is_Some. by eexists.
    - destruct (IHt Ho) as (j & Hj & Hf). exists (bare j). split; [by apply type_ident_opt; exists j|].
      unfold fine. by rewrite base_bare.
    - destruct (IHt Ho) as (j & Hj & Hf). cbn [type_ident]. rewrite Hj. eexists. split; [reflexivity|]. exact Hf.
  Qed.
  Lemma find_field_visible gn x : x ∈ gn_fields gn ->
    exists y, find_field gn (gi_name x) = Some y /\ y ∈ gn_fields gn /\ gi_name y = gi_name x.
  Proof.
    intros Hx. unfold find_field, fields_map.
    assert (is_Some (dget (gi_name x) (of_pairs (map (fun x => (gi_name x, x)) (gn_fields gn))))) as [y Hy].
    { unfold of_pairs. rewrite dget_dupdate. destruct (dget _ (reverse _)) eqn:E; [by eexists|]. exfalso.
      apply dget_None in E. apply E. unfold dkeys. apply elem_of_list_fmap. exists (gi_name x, x). split; [done|].
      rewrite elem_of_reverse. apply elem_of_list_fmap. by exists x. }
    exists y. split; [done|]. unfold of_pairs in Hy. rewrite dget_dupdate in Hy. cbn [dget] in Hy.
    destruct (dget (gi_name x) (reverse _)) as [z|] eqn:E; [|done]. injection Hy as ->.
    apply dget_Some_elem in E. rewrite elem_of_reverse in E. apply elem_of_list_fmap in E as (z & [= -> ->] & Hz). done.
  Qed.
  Lemma option_found x o : o ∈ gi_options x ->
    exists o', dget (go_name o) (of_pairs (map (fun o => (go_name o, o)) (gi_options x))) = Some o' /\ o' ∈ gi_options x.
  Proof.
    intros Ho. unfold of_pairs. rewrite dget_dupdate. destruct (dget _ (reverse _)) as [z|] eqn:E.
    - exists z. split; [done|]. apply dget_Some_elem in E. rewrite elem_of_reverse in E.
      apply elem_of_list_fmap in E as (z' & [= _ ->] & Hz). done.
    - exfalso. apply dget_None in E. apply E. unfold dkeys. apply elem_of_list_fmap. exists (go_name o, o). split; [done|].
      rewrite elem_of_reverse. apply elem_of_list_fmap. by exists o.
  Qed.
  (** the fields of a fine type *)
  Lemma fine_fields t : fine t -> exists fs, type_fields S t = Ok fs /\
    forall f, f ∈ fs -> (exists i, field_type S f = Ok i /\ fine i) /\
      exists l, field_args S f = Ok l /\ forall a, a ∈ l -> exists i, arg_type S a = Ok i /\ fine i.
  Proof.
    destruct t as [n|n|n|n|t|t]; intros Hf; try (exists []; split; [done|]; intros f Hin; by apply elem_of_nil in Hin).
    cbn [fine base] in Hf. unfold type_fields. destruct (dget n (schema_nodes S)) as [gn|] eqn:E.
    - destruct (co_nodes S Hco _ _ E) as [(x0 & Hx0 & Hv0) Hall].
      destruct (map _ (List.filter visible _)) as [|f0 fs0] eqn:El.
      { exfalso. apply map_eq_nil in El. assert (In (gi_name x0) []) as []. rewrite <- El. apply filter_In.
        split; [|done]. apply in_map. by apply elem_of_list_In. }
      eexists. split; [reflexivity|]. rewrite <- El. clear El. intros f Hin.
      apply elem_of_list_fmap in Hin as (nm & -> & Hin). apply elem_of_list_In, filter_In in Hin as [Hin Hvis].
      apply in_map_iff in Hin as (x & <- & Hx). apply elem_of_list_In in Hx.
      destruct (find_field_visible gn x Hx) as (y & Hy & Hyin & Hyn). rewrite <- Hyn in Hvis.
      destruct (Hall y Hyin Hvis) as [Ho Hos]. unfold field_type, field_args, schema_field. cbn [fst snd]. rewrite E, Hy. cbn [from_opt].
      split; [by apply out_ident|]. eexists. split; [reflexivity|]. intros a Ha.
      apply elem_of_list_fmap in Ha as (o & -> & Hoin). unfold arg_type, schema_field. cbn [fst snd].
      rewrite E, Hyn, Hy. cbn [from_opt]. destruct (option_found y o Hoin) as (o' & -> & Ho').
      destruct (Hos o' Ho') as (u & -> & Hu). by apply in_ident.
    - destruct Hf as [Hf|[fs Hfs]].
      { apply dget_is_Some in Hf as [? Hf]. congruence. }
      destruct (co_types S Hco _ _ Hfs) as (Hne & Hnd & Hall).
      unfold data_fields. rewrite Hfs. cbn [field_types].
      destruct (map _ fs) as [|f0 fs0] eqn:El; [by apply map_eq_nil in El|].
      eexists. split; [reflexivity|]. rewrite <- El. intros f Hin. apply elem_of_list_fmap in Hin as ([k u] & -> & Hin).
      unfold field_type, field_args. cbn [fst snd]. rewrite E. unfold data_fields. rewrite Hfs. cbn [field_types].
      rewrite (dget_NoDup _ _ _ Hnd Hin). split; [apply out_ident; by apply (Hall k)|]. exists []. split; [done|].
      intros a Ha. by apply elem_of_nil in Ha.
  Qed.
  Lemma fine_input t : fine t -> exists l, input_fields S t = Ok l /\ forall a, a ∈ l -> exists i, arg_type S a = Ok i /\ fine i.
  Proof.
    destruct t as [n|n|n|n|t|t]; intros Hf; try (exists []; split; [done|]; intros f Hin; by apply elem_of_nil in Hin).
    destruct Hf as [fs Hfs]. cbn [base] in *. destruct (co_types S Hco _ _ Hfs) as (Hne & Hnd & Hall).
    unfold input_fields, data_fields. rewrite Hfs. cbn [field_types]. eexists. split; [reflexivity|].
    intros a Ha. apply elem_of_list_fmap in Ha as (k & -> & Hk). unfold arg_type, data_fields. rewrite Hfs. cbn [field_types].
    apply dget_is_Some in Hk as [u Hu]. rewrite Hu. apply in_ident. apply (Hall k). by apply dget_Some_elem.
  Qed.
  Lemma query_listed : QUERY_ROOT_NAME ∈ dkeys (schema_nodes S).
  Proof.
    apply dget_is_Some. unfold schema_nodes, of_pairs. rewrite dget_dupdate. destruct (dget _ (reverse _)) eqn:E; [by eexists|].
    exfalso. apply dget_None in E. apply E. unfold dkeys. apply elem_of_list_fmap. exists (QUERY_ROOT_NAME, g_root (sc_query S)).
    split; [done|]. rewrite elem_of_reverse, !elem_of_app, elem_of_list_singleton. auto.
  Qed.
  Lemma mutation_listed : is_Some (sc_mutation S) -> MUTATION_ROOT_NAME ∈ dkeys (schema_nodes S).
  Proof.
    intros [m Hm]. apply dget_is_Some. unfold schema_nodes, of_pairs. rewrite Hm, dget_dupdate.
    destruct (dget _ (reverse _)) eqn:E; [by eexists|].
    exfalso. apply dget_None in E. apply E. unfold dkeys. apply elem_of_list_fmap. exists (MUTATION_ROOT_NAME, g_root m).
    split; [done|]. rewrite elem_of_reverse, !elem_of_app, !elem_of_list_singleton. auto.
  Qed.
  Lemma reported_fine t : reported S t -> fine t.
  Proof.
    induction 1 as [t Ht| |t Ht|t t' Hr IH Ht|t fs f t' Hr IH Hfs Hf Ht|t fs f l a t' Hr IH Hfs Hf Hl Ha Ht|t l a t' Hr IH Hl Ha Ht].
    - by apply listed_fine.
    - left. apply query_listed.
    - unfold root_mutation_type in Ht. destruct (sc_mutation S) eqn:E; [|done]. injection Ht as <-. left.
      apply mutation_listed. by eexists.
    - destruct t; try done; injection Ht as <-; exact IH.
    - destruct (fine_fields t IH) as (fs' & E & Hall). rewrite Hfs in E. injection E as <-.
      destruct (Hall f Hf) as [(i & Hi & ?) _]. rewrite Ht in Hi. by injection Hi as ->.
    - destruct (fine_fields t IH) as (fs' & E & Hall). rewrite Hfs in E. injection E as <-.
      destruct (Hall f Hf) as [_ (l' & El & Hal)]. rewrite Hl in El. injection El as <-.
      destruct (Hal a Ha) as (i & Hi & ?). rewrite Ht in Hi. by injection Hi as ->.
    - destruct (fine_input t IH) as (l' & El & Hal). rewrite Hl in El. injection El as <-.
      destruct (Hal a Ha) as (i & Hi & ?). rewrite Ht in Hi. by injection Hi as ->.
  Qed.
  (** C44: every type which a client comes to by introspection is listed, and everything about it
      can be asked in turn. *)
  Theorem C44_closed_partial t : reported S t -> (named t -> t ∈ root_schema_types S) /\ answered S t.
  Proof.
    intros Hr%reported_fine. split; [by apply fine_listed|]. split.
    - destruct t; try (by destruct Hr); by eexists.
    - destruct t; try (by destruct Hr); by eexists.
    - destruct (fine_fields t Hr) as (fs & E & Hall). exists fs. split; [done|]. intros f Hf.
      destruct (Hall f Hf) as [(i & Hi & _) (l & Hl & Hal)]. split; [by exists i|]. exists l. split; [done|].
      intros a Ha. destruct (Hal a Ha) as (j & Hj & _). by exists j.
    - destruct (fine_input t Hr) as (l & Hl & Hal). exists l. split; [done|].
      intros a Ha. destruct (Hal a Ha) as (j & Hj & _). by exists j.
  Qed.
End closed.

(** *** Example *)
Definition ex_opt (n : str) (t : option ty) : goption := GOption n t VNothing.
Definition ex_query : graph := Graph [
  GNode (Some (s "user")) [GF (GField (s "id") (Some TInt) (FPlain 1) []); GF (GField (s "name") (Some (TOpt TStr)) (FPlain 1) []);
                           GF (GField (s "_secret") (Some (TCall [])) (FPlain 1) [])];
  GNode None [GL (GLink (s "users") Many (s "user") 2 None [ex_opt (s "filter") (Some (TOpt (TRef (s "Filter"))))]);
              GF (GField (s "stats") (Some (TSeq (TRef (s "Filter")))) (FPlain 3) [])]]
  [(s "Filter", TRec [(s "name", TStr); (s "ages", TOpt (TSeq TInt))])].
(** The graph of mutations has the same nodes, and its own root *)
Definition ex_mutation : graph :=
  Graph (firstn 1 (g_items ex_query) ++ [GNode None [GL (GLink (s "addUser") One (s "user") 4 None [])]]) (g_dtypes ex_query).
Definition ex_schema : schema := Schema ex_query (Some ex_mutation).
Theorem C44_example : coherent ex_schema /\
  type_fields ex_schema (IdObject (s "user")) = Ok [(s "user", s "id"); (s "user", s "name")] /\
  field_type ex_schema (s "Query", s "users") = Ok (IdNonNull (IdList (IdNonNull (IdObject (s "user"))))) /\
  field_type ex_schema (s "user", s "name") = Ok (IdScalar (s "String")) /\
  field_args ex_schema (s "Query", s "users") = Ok [ArgField (s "Query") (s "users") (s "filter")] /\
  arg_type ex_schema (ArgField (s "Query") (s "users") (s "filter")) = Ok (IdInput (s "Filter")).
Proof.
  split; [|split_and!; vm_compute; reflexivity].
  assert (forall n, record_type ex_schema (s "Filter") /\ (s "user" ∈ dkeys (schema_nodes ex_schema) \/ record_type ex_schema n)) as Hk.
  { intros n. split; [eexists; vm_compute; reflexivity|]. left. apply (bool_decide_unpack _); vm_compute; exact I. }
  split.
  - intros n gn E. apply dget_Some_elem in E.
    assert (schema_nodes ex_schema = [(s "user", GNode (Some (s "user")) (gn_fields (nth 0 (g_items ex_query) (GNode None []))));
      (s "Query", GNode None (gn_fields (nth 1 (g_items ex_query) (GNode None []))));
      (s "Mutation", GNode None [GL (GLink (s "addUser") One (s "user") 4 None [])])]) as Es by (vm_compute; reflexivity).
    rewrite Es in E. rewrite !elem_of_cons, elem_of_nil in E. cbn [gn_fields nth g_items ex_query] in E.
    destruct E as [[= -> ->]|[[= -> ->]|[[= -> ->]|[]]]]; cbn [gn_fields].
    + split; [eexists; split; [left|vm_compute; reflexivity]|]. intros x Hx Hv. rewrite !elem_of_cons, elem_of_nil in Hx.
      destruct Hx as [->|[->|[->|[]]]]; [..|by vm_compute in Hv]; (split; [exact I|]; intros o Ho; by apply elem_of_nil in Ho).
    + split; [eexists; split; [left|vm_compute; reflexivity]|]. intros x Hx Hv. rewrite !elem_of_cons, elem_of_nil in Hx.
      destruct Hx as [->|[->|[]]].
      * split; [apply (Hk (s "user"))|]. intros o Ho. apply elem_of_list_singleton in Ho as ->. eexists. split; [reflexivity|]. apply (Hk []).
      * split; [right; apply (Hk [])|]. intros o Ho. by apply elem_of_nil in Ho.
    + split; [eexists; split; [left|vm_compute; reflexivity]|]. intros x Hx Hv. apply elem_of_list_singleton in Hx as ->.
      split; [apply (Hk (s "user"))|]. intros o Ho. by apply elem_of_nil in Ho.
  - intros n fs E. apply dget_Some_elem in E. apply elem_of_list_singleton in E as [= -> ->]. split; [done|]. split.
    + apply (bool_decide_unpack _); vm_compute; exact I.
    + intros k t Hin. rewrite !elem_of_cons, elem_of_nil in Hin. destruct Hin as [[= -> ->]|[[= -> ->]|[]]]; done.
  - apply (bool_decide_unpack _); vm_compute; exact I.
Qed.

(** *** Where the claim is false *)
(** A node of the mutation graph which the query graph does not have: it is reported as the type of
    a field but not listed, and asking for its fields raises KeyError. *)
Theorem C44_mutation_node_refuted : exists S t,
  reported S t /\ t = IdObject (s "Receipt") /\ t ∉ root_schema_types S /\ type_fields S t = Err KeyError /\
  gvalidate (g_items (sc_query S)) = [] /\ (forall m, sc_mutation S = Some m -> gvalidate (g_items m) = []).
Proof.
  set (q := Graph [GNode None [GF (GField (s "x") (Some TInt) (FPlain 1) [])]] []).
  set (m := Graph [GNode (Some (s "Receipt")) [GF (GField (s "id") (Some TInt) (FPlain 1) [])];
                   GNode None [GL (GLink (s "buy") One (s "Receipt") 4 None [])]] []).
  exists (Schema q (Some m)), (IdObject (s "Receipt")). split_and!; try (vm_compute; reflexivity).
  - apply (rp_of _ (IdNonNull (IdObject (s "Receipt")))); [|reflexivity].
    apply (rp_field _ (IdObject (s "Mutation")) [(s "Mutation", s "buy")] (s "Mutation", s "buy")).
    + apply rp_mutation. reflexivity.
    + vm_compute. reflexivity.
    + left.
    + vm_compute. reflexivity.
  - intros Hin. apply (bool_decide_pack _) in Hin. vm_compute in Hin. done.
  - intros m' [= <-]. vm_compute. reflexivity.
Qed.

(** A data type which is not a record: it is reported as the type of a field but not listed, and
    asking for its fields raises AttributeError. *)
Theorem C44_alias_refuted : exists S t,
  reported S t /\ t = IdObject (s "Names") /\ t ∉ root_schema_types S /\ type_fields S t = Err AttributeError /\
  gvalidate (g_items (sc_query S)) = [].
Proof.
  set (q := Graph [GNode None [GF (GField (s "x") (Some (TRef (s "Names"))) (FPlain 1) [])]] [(s "Names", TSeq TStr)]).
  exists (Schema q None), (IdObject (s "Names")). split_and!; try (vm_compute; reflexivity).
  - apply (rp_of _ (IdNonNull (IdObject (s "Names")))); [|reflexivity].
    apply (rp_field _ (IdObject (s "Query")) [(s "Query", s "x")] (s "Query", s "x")).
    + apply rp_query.
    + vm_compute. reflexivity.
    + left.
    + vm_compute. reflexivity.
  - intros Hin. apply (bool_decide_pack _) in Hin. vm_compute in Hin. done.
Qed.
(** A record type with a field of the type of a node: it is listed, once as an object and once as an
    input object; asking for the input fields of the latter and their types raises AssertionError. *)
Theorem C44_node_in_record_refuted : exists S t l a,
  t ∈ root_schema_types S /\ input_fields S t = Ok l /\ a ∈ l /\ arg_type S a = Err AssertionError /\
  gvalidate (g_items (sc_query S)) = [].
Proof.
  set (q := Graph [GNode (Some (s "user")) [GF (GField (s "id") (Some TInt) (FPlain 1) [])];
                   GNode None [GF (GField (s "x") (Some (TRef (s "Page"))) (FPlain 1) [])]]
                  [(s "Page", TRec [(s "owner", TRef (s "user"))])]).
  exists (Schema q None), (IdInput (s "Page")), [ArgInput (s "Page") (s "owner")], (ArgInput (s "Page") (s "owner")).
  split_and!; try (vm_compute; reflexivity).
  - apply (bool_decide_unpack _); vm_compute; exact I.
  - left.
Qed.
(** A node all of whose fields are private is listed, but its fields raise TypeError. *)
Theorem C44_private_node_refuted : exists S t,
  t ∈ root_schema_types S /\ type_fields S t = Err TypeError /\ gvalidate (g_items (sc_query S)) = [].
Proof.
  set (q := Graph [GNode (Some (s "user")) [GF (GField (s "_id") (Some TInt) (FPlain 1) [])];
                   GNode None [GF (GField (s "x") (Some TInt) (FPlain 1) [])]] []).
  exists (Schema q None), (IdObject (s "user")). split_and!; try (vm_compute; reflexivity).
  apply (bool_decide_unpack _); vm_compute; exact I.
Qed.
(** An option without a type: asking for the type of the argument raises AttributeError. *)
Theorem C44_untyped_option_refuted : exists S t fs f l a,
  t ∈ root_schema_types S /\ type_fields S t = Ok fs /\ f ∈ fs /\ field_args S f = Ok l /\ a ∈ l /\
  arg_type S a = Err AttributeError /\ gvalidate (g_items (sc_query S)) = [].
Proof.
  set (q := Graph [GNode None [GF (GField (s "x") (Some TInt) (FPlain 1) [ex_opt (s "o") None])]] []).
  exists (Schema q None), (IdObject (s "Query")), [(s "Query", s "x")], (s "Query", s "x"),
    [ArgField (s "Query") (s "x") (s "o")], (ArgField (s "Query") (s "x") (s "o")).
  split_and!; try (vm_compute; reflexivity); try left.
  apply (bool_decide_unpack _); vm_compute; exact I.
Qed.
(** [__type(name)] finds nodes only: a record type which is listed under its name is not found. *)
Theorem C44_type_by_name_refuted : exists S t n,
  t ∈ root_schema_types S /\ type_name t = Ok (Some n) /\ is_ok (type_fields S t) /\ type_link S n = None /\ coherent S.
Proof.
  exists ex_schema, (IdObject (s "Filter")), (s "Filter"). split_and!; try (vm_compute; reflexivity).
  - apply (bool_decide_unpack _); vm_compute; exact I.
  - eexists. vm_compute. reflexivity.
  - apply C44_example.
Qed.
Theorem C44_type_by_name_node_partial S n : n ∈ dkeys (schema_nodes S) <-> type_link S n = Some (IdObject n).
Proof. unfold type_link. case_bool_decide; by split. Qed.
(** A node named Query is hidden by the root. *)
Theorem C44_node_named_query_refuted : exists S f t,
  gvalidate (g_items (sc_query S)) = [] /\ (exists gn, find_node (sc_query S) (s "Query") = Some gn /\ is_Some (find_field gn (s "id"))) /\
  field_type S f = Ok (IdNonNull t) /\ t = IdObject (s "Query") /\ type_fields S t = Ok [(s "Query", s "q")].
Proof.
  set (q := Graph [GNode (Some (s "Query")) [GF (GField (s "id") (Some TInt) (FPlain 1) [])];
                   GNode None [GL (GLink (s "q") One (s "Query") 1 None [])]] []).
  exists (Schema q None), (s "Query", s "q"), (IdObject (s "Query")). split_and!; try (vm_compute; reflexivity).
  eexists. split; [vm_compute; reflexivity|]. eexists. vm_compute. reflexivity.
Qed.
(** *** Example of C43 *)
Theorem C43_example :
  type_ident [] false (TOpt (TSeq (TOpt (TRef (s "user"))))) = Ok (IdList (IdObject (s "user"))) /\
  type_ident [] false (TSeq TInt) = Ok (IdNonNull (IdList (IdNonNull (IdScalar (s "Int"))))) /\
  tellable (TOpt (TSeq (TOpt (TRef (s "user"))))) = true /\
  ~ gql_value [] (DList [DVal VNone]) (IdNonNull (IdList (IdNonNull (IdScalar (s "Int"))))) /\
  gql_value [] (DList [DVal VNone]) (IdList (IdObject (s "user"))).
Proof.
  split_and!; try done.
  - intros Hv. rewrite nn_value in Hv. destruct Hv as [Hv _]. inversion Hv as [| | | | | | | |? ? Hl|]; subst; try done.
    specialize (Hl (DVal VNone) ltac:(left)). rewrite nn_value in Hl. by destruct Hl.
  - constructor. intros v Hv%elem_of_list_singleton. subst. by constructor.
Qed.

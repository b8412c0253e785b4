(** C43, C44: the list of types, the members of types, and the arguments, as a client reads them
    ([kind], [name], [fields], [inputFields], [args], [defaultValue]). *)
From Verif Require Import Base Val Types Query QuerySpec Graph Validate Introspect IntrospectSpec PropIntrospect PropIntroGraph.

(** ** graphql.py:322-352 [input_value_info]: [name] and [defaultValue], the latter before
    [json.dumps]. *)
Definition arg_option (S : schema) (node field name : str) : res goption :=
  match schema_field S (node, field) with
  | Err e => Err e
  | Ok x => from_opt KeyError (dget name (of_pairs (map (fun o => (go_name o, o)) (gi_options x))))
  end.
Definition arg_name (S : schema) (a : aident) : res str :=
  match a with
  | ArgField node field name => match arg_option S node field name with Ok o => Ok (go_name o) | Err e => Err e end
  | ArgInput _ k => Ok k
  | ArgDirective _ => Ok (s "if")
  end.
Definition arg_default (S : schema) (a : aident) : res (option val) :=
  match a with
  | ArgField node field name =>
      match arg_option S node field name with
      | Ok o => Ok (match go_default o with VNothing => None | v => Some v end)
      | Err e => Err e
      end
  | _ => Ok None
  end.

(** ** Specification *)
Definition record (S : schema) (n : str) (fs : list (str * ty)) : Prop := (n, TRec fs) ∈ sc_types S.
Definition object_name (S : schema) (n : str) : Prop :=
  n = s "Query" \/ (n = s "Mutation" /\ is_Some (sc_mutation S)) \/
  (exists gn, gn ∈ g_items (sc_query S) /\ gn_name gn = Some n) \/ (exists fs, record S n fs).
(** A client which follows GraphQL may omit an argument if its type is nullable or it has a default value. *)
Definition client_may_omit (S : schema) (a : aident) : Prop :=
  (exists i, arg_type S a = Ok i /\ forall t, ~ client_reads i (GNonNull t)) \/
  (exists v, arg_default S a = Ok (Some v)).

Lemma dkeys_of_pairs {V} (l : list (str * V)) k : k ∈ dkeys (of_pairs l) <-> k ∈ map fst l.
Proof.
  rewrite <-dget_is_Some. unfold of_pairs. rewrite dget_dupdate. cbn [dget].
  assert (is_Some (dget k (reverse l)) <-> k ∈ map fst l) as <-; [|by destruct (dget k (reverse l))].
  rewrite dget_is_Some. unfold dkeys. rewrite !elem_of_list_fmap. split; intros (p & -> & Hp); exists p; (split; [done|]); by rewrite elem_of_reverse in *.
Qed.
Lemma node_names S n : n ∈ dkeys (schema_nodes S) <->
  n = s "Query" \/ (n = s "Mutation" /\ is_Some (sc_mutation S)) \/ exists gn, gn ∈ g_items (sc_query S) /\ gn_name gn = Some n.
Proof.
  unfold schema_nodes. rewrite dkeys_of_pairs, !map_app, !elem_of_app. cbn [map fst]. rewrite elem_of_list_singleton.
  assert (n ∈ map fst (omap (fun x => match gn_name x with Some y => Some (y, x) | None => None end) (g_items (sc_query S))) <->
    exists gn, gn ∈ g_items (sc_query S) /\ gn_name gn = Some n) as ->.
  { rewrite elem_of_list_fmap. split.
    - intros ([y x] & -> & Hx). apply elem_of_list_omap in Hx as (gn & Hg & Hy). exists gn. split; [done|]. destruct (gn_name gn); [|done]. by injection Hy as -> ->.
    - intros (gn & Hg & Hn). exists (n, gn). split; [done|]. apply elem_of_list_omap. exists gn. split; [done|]. by rewrite Hn. }
  assert (n ∈ map fst match sc_mutation S with Some m => [(MUTATION_ROOT_NAME, g_root m)] | None => [] end <-> n = s "Mutation" /\ is_Some (sc_mutation S)) as ->.
  { destruct (sc_mutation S); cbn [map fst]; [rewrite elem_of_list_singleton|]; split; [by eauto|by intros [? _]| |intros [_ [? ?]]; done]. intros Hx. by apply not_elem_of_nil in Hx. }
  unfold QUERY_ROOT_NAME. tauto.
Qed.

(** C44: the types which are listed, by kind and name. *)
Theorem C44_listed S k x :
  (exists t, t ∈ root_schema_types S /\ type_kind t = Ok k /\ type_name t = Ok (Some x)) <->
  (k = s "SCALAR" /\ x ∈ [s "String"; s "Int"; s "Boolean"; s "Float"; s "Any"]) \/
  (k = s "OBJECT" /\ object_name S x) \/
  (k = s "INPUT_OBJECT" /\ exists n fs, record S n fs /\ x = s "IO" ++ n).
Proof.
  assert (forall t, t ∈ root_schema_types S <->
    (exists n, t = IdScalar n /\ n ∈ [s "String"; s "Int"; s "Boolean"; s "Float"; s "Any"]) \/
    (exists n, t = IdObject n /\ object_name S n) \/ (exists n fs, t = IdInput n /\ record S n fs)) as Ht.
  { intros t. unfold root_schema_types. rewrite !elem_of_app.
    assert (t ∈ map IdScalar [s "String"; s "Int"; s "Boolean"; s "Float"; s "Any"] <-> exists n, t = IdScalar n /\ n ∈ [s "String"; s "Int"; s "Boolean"; s "Float"; s "Any"]) as ->
      by (rewrite elem_of_list_fmap; done).
    assert (t ∈ map IdObject (dkeys (schema_nodes S)) <-> exists n, t = IdObject n /\ n ∈ dkeys (schema_nodes S)) as -> by (rewrite elem_of_list_fmap; done).
    assert (t ∈ flat_map (fun '(n, u) => if is_record u then [IdObject n; IdInput n] else []) (sc_types S) <->
      exists n fs, record S n fs /\ (t = IdObject n \/ t = IdInput n)) as ->.
    { rewrite elem_of_list_In, in_flat_map. split.
      - intros ([n u] & Hu & Hx). destruct u as [| | | | | | | | |fs|]; try done. exists n, fs. split; [by apply elem_of_list_In|]. cbn in Hx. destruct Hx as [<-|[<-|[]]]; auto.
      - intros (n & fs & Hr & Hx). exists (n, TRec fs). split; [by apply elem_of_list_In|]. cbn. destruct Hx as [->| ->]; auto. }
    split.
    - intros [?|[(n & -> & Hn)|(n & fs & Hr & [->| ->])]]; [by left| | |].
      + right; left. exists n. split; [done|]. apply node_names in Hn. unfold object_name. tauto.
      + right; left. exists n. split; [done|]. unfold object_name. eauto.
      + right; right. eauto.
    - intros [?|[(n & -> & Hn)|(n & fs & -> & Hr)]]; [by left| |].
      + unfold object_name in Hn. destruct Hn as [Hn|[Hn|[Hn|(fs & Hr)]]]; [right; left; exists n; split; [done|]; apply node_names; tauto..|]. right; right. exists n, fs. auto.
      + right; right. exists n, fs. auto. }
  assert (forall a b : str, (Ok a : res str) = Ok b -> b = a) as Hk by (by intros a b [= ->]).
  assert (forall a b : str, (Ok (Some a) : res (option str)) = Ok (Some b) -> b = a) as Hn by (by intros a b [= ->]).
  split.
  - intros (t & Hin & H1 & H2). apply Ht in Hin as [(n & -> & Hx)|[(n & -> & Hx)|(n & fs & -> & Hx)]]; cbn [type_kind type_name] in H1, H2; apply Hk in H1; apply Hn in H2; subst.
    + left. done.
    + right; left. done.
    + right; right. split; [done|]. eauto.
  - intros [[-> Hx]|[[-> Hx]|[-> (n & fs & Hr & ->)]]].
    + exists (IdScalar x). split; [apply Ht; left; eauto|done].
    + exists (IdObject x). split; [apply Ht; right; left; eauto|done].
    + exists (IdInput n). split; [apply Ht; right; right; eauto|done].
Qed.

(** C44: the type which is read for a field of a node is the declared one; a field without a
    type is of the type Any. *)
Theorem C44_field_types S n gn name x i :
  dget n (schema_nodes S) = Some gn -> find_field gn name = Some x -> field_type S (n, name) = Ok i ->
  client_reads i (gql_type_of false (gi_type x)).
Proof.
  intros Hn Hx. unfold field_type, schema_field. cbn [fst snd]. rewrite Hn, Hx. cbn [from_opt]. apply C43_client_reads.
Qed.
(** C44: the members of a record: the same names in both forms, with the declared types. *)
Theorem C44_record_fields S n fs :
  dget n (sc_types S) = Some (TRec fs) -> NoDup (dkeys fs) ->
  (dget n (schema_nodes S) = None -> fs <> [] -> type_fields S (IdObject n) = Ok (map (fun p => (n, p.1)) fs)) /\
  input_fields S (IdInput n) = Ok (map (fun p => ArgInput n p.1) fs) /\
  forall k t, (k, t) ∈ fs ->
    (forall i, dget n (schema_nodes S) = None -> field_type S (n, k) = Ok i -> client_reads i (gql_type_of false t)) /\
    arg_name S (ArgInput n k) = Ok k /\ arg_default S (ArgInput n k) = Ok None /\
    forall i, arg_type S (ArgInput n k) = Ok i -> client_reads i (gql_type_of true t).
Proof.
  intros Hn Hd. assert (data_fields S n = Ok fs) as Hf by (unfold data_fields; by rewrite Hn). split; [|split].
  - intros Hs Hne. unfold type_fields. rewrite Hs, Hf. by destruct fs.
  - unfold input_fields. rewrite Hf. unfold dkeys. by rewrite map_map.
  - intros k t Hk. assert (dget k fs = Some t) as Hg by (by apply dget_NoDup). split; [|split; [done|split; [done|]]].
    + intros i Hs. unfold field_type. cbn [fst snd]. rewrite Hs, Hf, Hg. apply C43_client_reads.
    + intros i. cbn [arg_type]. rewrite Hf, Hg. apply C43_client_reads.
Qed.

Lemma arg_type_option S n gn name x o t :
  dget n (schema_nodes S) = Some gn -> find_field gn name = Some x -> NoDup (map go_name (gi_options x)) ->
  o ∈ gi_options x -> go_type o = Some t -> arg_type S (ArgField n name (go_name o)) = type_ident (sc_types S) true t.
Proof.
  intros Hn Hx Hd Ho Ht. cbn [arg_type]. unfold schema_field. cbn [fst snd]. rewrite Hn, Hx. cbn [from_opt].
  rewrite of_pairs_NoDup by (unfold dkeys; rewrite map_map; exact Hd).
  assert (dget (go_name o) (map (fun o => (go_name o, o)) (gi_options x)) = Some o) as ->; [|by rewrite Ht].
  apply dget_NoDup; [unfold dkeys; rewrite map_map; exact Hd|]. apply elem_of_list_fmap. by exists o.
Qed.
(** C44: the arguments of a field are its options, with their names, types and defaults. *)
Theorem C44_arguments S n gn name x :
  dget n (schema_nodes S) = Some gn -> find_field gn name = Some x -> NoDup (map go_name (gi_options x)) ->
  field_args S (n, name) = Ok (map (fun o => ArgField n (gi_name x) (go_name o)) (gi_options x)) /\
  gi_name x = name /\
  forall o, o ∈ gi_options x ->
    arg_name S (ArgField n name (go_name o)) = Ok (go_name o) /\
    arg_default S (ArgField n name (go_name o)) = Ok (match go_default o with VNothing => None | v => Some v end) /\
    forall t i, go_type o = Some t -> arg_type S (ArgField n name (go_name o)) = Ok i -> client_reads i (gql_type_of true t).
Proof.
  intros Hn Hx Hd. assert (schema_field S (n, name) = Ok x) as Hs by (unfold schema_field; cbn [fst snd]; by rewrite Hn, Hx).
  assert (gi_name x = name) as Hname by (by eapply find_field_elem).
  split; [unfold field_args; cbn [fst snd]; by rewrite Hn, Hs|]. split; [done|]. intros o Ho.
  assert (dget (go_name o) (of_pairs (map (fun o => (go_name o, o)) (gi_options x))) = Some o) as Hg.
  { rewrite of_pairs_NoDup.
    - apply dget_NoDup; [unfold dkeys; rewrite map_map; exact Hd|]. apply elem_of_list_fmap. by exists o.
    - unfold dkeys. rewrite map_map. exact Hd. }
  unfold arg_name, arg_default, arg_option. cbn [arg_type]. rewrite Hs, Hg. cbn [from_opt]. split; [done|]. split; [done|].
  intros t i Ht. rewrite Ht. apply C43_client_reads.
Qed.

(** C44: for options whose type is not nullable, a client may omit exactly the arguments which
    queries may omit: validation does not ask for them. *)
Lemma reads_nonnull i : (forall t, ~ client_reads i (GNonNull t)) -> forall t, client_reads i t -> nullable_form t = t.
Proof. intros Hn t Ht. destruct t; [done..|]. by destruct (Hn t). Qed.
Theorem C44_may_omit S n gn name x o t i fuel dt node qname :
  dget n (schema_nodes S) = Some gn -> find_field gn name = Some x -> NoDup (map go_name (gi_options x)) ->
  o ∈ gi_options x -> go_type o = Some t -> nullable t = false ->
  arg_type S (ArgField n name (go_name o)) = Ok i ->
  client_may_omit S (ArgField n name (go_name o)) <->
  check_option fuel dt node qname None o <> Ok [ERequiredOption node qname (go_name o)].
Proof.
  intros Hn Hx Hd Ho Ht Hnull Hi. destruct (C44_arguments S n gn name x Hn Hx Hd) as (_ & _ & Ha). destruct (Ha o Ho) as (_ & Hdef & Hrd).
  unfold check_option. change (opt_dict None) with (@nil (str * val)). cbn [dget]. split.
  - intros [(j & Hj & Hno)|(v & Hv)].
    + exfalso. rewrite Hi in Hj. injection Hj as <-. specialize (Hrd t i Ht Hi). rewrite (arg_type_option S n gn name x o t Hn Hx Hd Ho Ht) in Hi.
      destruct t; try done; cbn [gql_type_of] in Hrd; by eapply Hno.
    + rewrite Hdef in Hv. rewrite Ht. destruct (go_default o) eqn:Eg; try done; destruct (opt_check _ _ _ _); done.
  - intros Hc. right. rewrite Hdef. destruct (go_default o) eqn:Eg; first [by destruct Hc|eexists; reflexivity].
Qed.
(** An option whose type is optional and which has no default: introspection says that it may be
    omitted, validation says that it is required. *)
Theorem C44_may_omit_refuted : exists S a o fuel dt node qname,
  client_may_omit S a /\ arg_name S a = Ok (go_name o) /\ o ∈ gi_options (GL (GLink (s "users") Many (s "user") 2 None [o])) /\
  (exists gn, dget (s "Query") (schema_nodes S) = Some gn /\ find_field gn (s "users") = Some (GL (GLink (s "users") Many (s "user") 2 None [o]))) /\
  coherent S /\ check_option fuel dt node qname None o = Ok [ERequiredOption node qname (go_name o)].
Proof.
  exists ex_schema, (ArgField (s "Query") (s "users") (s "filter")), (ex_opt (s "filter") (Some (TOpt (TRef (s "Filter"))))), 0, [], None, (s "users").
  split; [|split; [vm_compute; reflexivity|split; [left|split; [|split; [apply C44_example|vm_compute; reflexivity]]]]].
  - left. exists (IdInput (s "Filter")). split; [vm_compute; reflexivity|]. intros t Hr. inversion Hr; subst. discriminate.
  - eexists. split; [vm_compute; reflexivity|]. vm_compute. reflexivity.
Qed.
(** *** Example *)
Theorem C44_listed_example :
  object_name ex_schema (s "user") /\ record ex_schema (s "Filter") [(s "name", TStr); (s "ages", TOpt (TSeq TInt))] /\
  input_fields ex_schema (IdInput (s "Filter")) = Ok [ArgInput (s "Filter") (s "name"); ArgInput (s "Filter") (s "ages")] /\
  (exists i, arg_type ex_schema (ArgInput (s "Filter") (s "ages")) = Ok i /\ client_reads i (GList (GNonNull (GName (s "Int"))))).
Proof.
  split; [right; right; left; eexists; split; [left|done]|]. split; [left|]. split; [vm_compute; reflexivity|].
  eexists. split; [vm_compute; reflexivity|]. eapply cr_list; [done|done|]. eapply cr_nonnull; [done|done|]. eapply cr_name; done.
Qed.
(** Two options of the type Integer, one of them with a default: a client may omit that one only. *)
Definition lim_item : gitem := GF (GField (s "top") (Some (TSeq TStr)) (FPlain 1) [GOption (s "limit") (Some TInt) (VInt 10); GOption (s "page") (Some TInt) VNothing]).
Definition lim_schema : schema := Schema (Graph [GNode None [lim_item]] []) None.
Theorem C44_may_omit_example :
  (exists gn, dget (s "Query") (schema_nodes lim_schema) = Some gn /\ find_field gn (s "top") = Some lim_item) /\
  NoDup (map go_name (gi_options lim_item)) /\
  client_may_omit lim_schema (ArgField (s "Query") (s "top") (s "limit")) /\
  ~ client_may_omit lim_schema (ArgField (s "Query") (s "top") (s "page")).
Proof.
  assert (exists gn, dget (s "Query") (schema_nodes lim_schema) = Some gn /\ find_field gn (s "top") = Some lim_item) as Hg
    by (eexists; split; vm_compute; reflexivity).
  assert (NoDup (map go_name (gi_options lim_item))) as Hd by (apply (bool_decide_unpack _); vm_compute; exact I).
  split; [exact Hg|]. split; [exact Hd|]. split.
  - right. eexists. vm_compute. reflexivity.
  - destruct Hg as (gn & Hn & Hx). intros Hc.
    apply (C44_may_omit lim_schema (s "Query") gn (s "top") lim_item (GOption (s "page") (Some TInt) VNothing) TInt (IdNonNull (IdScalar (s "Int"))) 0 [] None (s "top")) in Hc; try done.
    right. left.
Qed.

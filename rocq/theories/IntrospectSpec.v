(** What introspection has to say (specification for C43 - C45). *)
From Verif Require Import Base Val Types Query Graph ExprSpec Introspect.

(** ** The meaning of reported types, as GraphQL defines it *)
Section meaning.
  Context (types : dict str ty).
  Inductive gql_value : dv -> tident -> Prop :=
  | gv_any v : gql_value v (IdScalar (s "Any"))
  | gv_str x : gql_value (DVal (VStr x)) (IdScalar (s "String"))
  | gv_int z : gql_value (DVal (VInt z)) (IdScalar (s "Int"))
  | gv_float m e : gql_value (DVal (VFloat m e)) (IdScalar (s "Float"))
  | gv_bool b : gql_value (DVal (VBool b)) (IdScalar (s "Boolean"))
  | gv_object v n t : dget n types = Some t -> has_type types v t -> gql_value v (IdObject n)
  | gv_input v n t : dget n types = Some t -> has_type types v t -> gql_value v (IdInput n)
  | gv_null i : (forall j, i <> IdNonNull j) -> gql_value (DVal VNone) i
  | gv_list l i : (forall v, v ∈ l -> gql_value v i) -> gql_value (DList l) (IdList i)
  | gv_nonnull v i : gql_value v i -> v <> DVal VNone -> gql_value v (IdNonNull i).
End meaning.
(** Nothing can be told of inner records and mappings, they are reported as [Any]. *)
Fixpoint tellable (t : ty) : bool :=
  match t with TMap _ _ | TRec _ | TCall _ => false | TOpt t | TSeq t => tellable t | _ => true end.
(** A type which may be null: [Any] or optional. *)
Definition nullable (t : ty) : bool :=
  match t with TOpt _ | TAny | TMap _ _ | TRec _ => true | _ => false end.
(** The type without the outer optionals *)
Fixpoint unopt (t : ty) : ty := match t with TOpt t => unopt t | _ => t end.
Definition bare (i : tident) : tident := match i with IdNonNull i => i | _ => i end.

(** ** What a client reads: GraphQL's type reference, from [kind], [name] and [ofType] only *)
Inductive gql_type : Set := GName (n : str) | GList (t : gql_type) | GNonNull (t : gql_type).
Inductive client_reads : tident -> gql_type -> Prop :=
| cr_nonnull i j t : type_kind i = Ok (s "NON_NULL") -> type_of_type i = Some j -> client_reads j t -> client_reads i (GNonNull t)
| cr_list i j t : type_kind i = Ok (s "LIST") -> type_of_type i = Some j -> client_reads j t -> client_reads i (GList t)
| cr_name i k n : type_kind i = Ok k -> k <> s "NON_NULL" -> k <> s "LIST" -> type_name i = Ok (Some n) -> client_reads i (GName n).
(** The type reference which belongs to a declared type: everything is non null unless it is optional or unknown;
    input types have other names. *)
Definition nullable_form (t : gql_type) : gql_type := match t with GNonNull t => t | _ => t end.
Fixpoint gql_type_of (input : bool) (t : ty) : gql_type :=
  match t with
  | TOpt t => nullable_form (gql_type_of input t)
  | TSeq t => GNonNull (GList (gql_type_of input t))
  | TRef n => GNonNull (GName (if input then s "IO" ++ n else n))
  | TStr => GNonNull (GName (s "String"))
  | TInt => GNonNull (GName (s "Int"))
  | TFloat => GNonNull (GName (s "Float"))
  | TBool => GNonNull (GName (s "Boolean"))
  | _ => GName (s "Any")
  end.

(** ** What a client can come to *)
Section reported.
  Context (S : schema).
  Inductive reported : tident -> Prop :=
  | rp_listed t : t ∈ root_schema_types S -> reported t
  | rp_query : reported root_query_type
  | rp_mutation t : root_mutation_type S = Some t -> reported t
  | rp_of t t' : reported t -> type_of_type t = Some t' -> reported t'
  | rp_field t fs f t' : reported t -> type_fields S t = Ok fs -> f ∈ fs -> field_type S f = Ok t' -> reported t'
  | rp_arg t fs f l a t' : reported t -> type_fields S t = Ok fs -> f ∈ fs -> field_args S f = Ok l -> a ∈ l ->
      arg_type S a = Ok t' -> reported t'
  | rp_input t l a t' : reported t -> input_fields S t = Ok l -> a ∈ l -> arg_type S a = Ok t' -> reported t'.
  Definition named (t : tident) : Prop := match t with IdScalar _ | IdObject _ | IdInput _ => True | _ => False end.
  (** Everything about the type can be asked. *)
  Record answered (t : tident) : Prop := {
    an_kind : is_ok (type_kind t);
    an_name : is_ok (type_name t);
    an_fields : exists fs, type_fields S t = Ok fs /\
      forall f, f ∈ fs -> is_ok (field_type S f) /\
        exists l, field_args S f = Ok l /\ forall a, a ∈ l -> is_ok (arg_type S a);
    an_input : exists l, input_fields S t = Ok l /\ forall a, a ∈ l -> is_ok (arg_type S a);
  }.

  (** *** Schemas for which this works *)
  Definition record_type (n : str) : Prop := exists fs, dget n (sc_types S) = Some (TRec fs).
  (** types of results: their references are of nodes of the schema or of records *)
  Fixpoint out_type (t : ty) : Prop :=
    match t with
    | TOpt t | TSeq t => out_type t
    | TRef n => n ∈ dkeys (schema_nodes S) \/ record_type n
    | TCall _ => False
    | _ => True
    end.
  (** types of arguments: their references are of records *)
  Fixpoint in_type (t : ty) : Prop :=
    match t with
    | TOpt t | TSeq t => in_type t
    | TRef n => record_type n
    | TCall _ => False
    | _ => True
    end.
  Record coherent : Prop := {
    co_nodes : forall n gn, dget n (schema_nodes S) = Some gn ->
      (exists x, x ∈ gn_fields gn /\ visible (gi_name x) = true) /\
      forall x, x ∈ gn_fields gn -> visible (gi_name x) = true ->
        out_type (gi_type x) /\ forall o, o ∈ gi_options x -> exists t, go_type o = Some t /\ in_type t;
    co_types : forall n fs, dget n (sc_types S) = Some (TRec fs) ->
      fs <> [] /\ NoDup (dkeys fs) /\ forall k t, (k, t) ∈ fs -> out_type t /\ in_type t;
    co_dict : NoDup (dkeys (sc_types S));
  }.
End reported.

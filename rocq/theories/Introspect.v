(** hiku/introspection/graphql.py: the schema as the introspection loaders see it, and the graph
    with introspection added.  Descriptions are not modelled. *)
From Verif Require Import Base Val Types Query Graph Validate.

(** graphql.py:34-44: identifiers of types, fields and arguments *)
Inductive tident : Set :=
| IdScalar (n : str)
| IdObject (n : str)
| IdDirective (n : str)
| IdInput (n : str)
| IdList (t : tident)
| IdNonNull (t : tident).
Global Instance tident_eq_dec : EqDecision tident.
Proof. solve_decision. Defined.
Definition fident : Type := str * str.                    (* FieldIdent(node, name) *)
Inductive aident :=
| ArgField (node field name : str)                        (* FieldArgIdent *)
| ArgInput (name key : str)                               (* InputObjectFieldIdent *)
| ArgDirective (name : str).                              (* DirectiveArgIdent *)

(** graphql.py:608-613 [SchemaInfo] *)
Record schema := Schema { sc_query : graph; sc_mutation : option graph }.
Definition sc_types (S : schema) : dict str ty := g_dtypes (sc_query S).

Definition QUERY_ROOT_NAME : str := s "Query".
Definition MUTATION_ROOT_NAME : str := s "Mutation".

(** graphql.py:50-93 [TypeIdent] *)
Fixpoint type_ident (dt : dict str ty) (input : bool) (t : ty) : res tident :=
  match t with
  | TAny | TMap _ _ | TRec _ => Ok (IdScalar (s "Any"))
  | TCall _ => Err TypeError
  | TSeq t => match type_ident dt input t with Ok i => Ok (IdNonNull (IdList i)) | Err e => Err e end
  | TOpt t => match type_ident dt input t with
              | Ok (IdNonNull i) => Ok i
              | Ok i => Ok i
              | Err e => Err e
              end
  | TRef n => if input then
                if bool_decide (n ∈ dkeys dt) then Ok (IdNonNull (IdInput n)) else Err AssertionError
              else Ok (IdNonNull (IdObject n))
  | TStr => Ok (IdNonNull (IdScalar (s "String")))
  | TInt => Ok (IdNonNull (IdScalar (s "Int")))
  | TFloat => Ok (IdNonNull (IdScalar (s "Float")))
  | TBool => Ok (IdNonNull (IdScalar (s "Boolean")))
  end.

Section schema.
  Context (S : schema).
  (** graphql.py:134-139 [_nodes_map] *)
  Definition schema_nodes : dict str gnode :=
    of_pairs (omap (fun n => match gn_name n with Some x => Some (x, n) | None => None end) (g_items (sc_query S)) ++
              [(QUERY_ROOT_NAME, g_root (sc_query S))] ++
              match sc_mutation S with Some m => [(MUTATION_ROOT_NAME, g_root m)] | None => [] end).
  Definition is_record (t : ty) : bool := match t with TRec _ => true | _ => false end.
  (** graphql.py:146-151 [type_link]; [None] is [Nothing] *)
  Definition type_link (name : str) : option tident :=
    if bool_decide (name ∈ dkeys schema_nodes) then Some (IdObject name) else None.
  (** graphql.py:154-166 [root_schema_types] *)
  Definition root_schema_types : list tident :=
    map IdScalar [s "String"; s "Int"; s "Boolean"; s "Float"; s "Any"] ++
    map IdObject (dkeys schema_nodes) ++
    flat_map (fun '(n, t) => if is_record t then [IdObject n; IdInput n] else []) (sc_types S).
  (** graphql.py:169-181 *)
  Definition root_query_type : tident := IdObject QUERY_ROOT_NAME.
  Definition root_mutation_type : option tident :=
    match sc_mutation S with Some _ => Some (IdObject MUTATION_ROOT_NAME) | None => None end.
  Definition root_directives : list tident := [IdDirective (s "skip"); IdDirective (s "include")].
  (** graphql.py:184-214 [type_info]: [kind] and [name] *)
  Definition type_kind (t : tident) : res str :=
    match t with
    | IdScalar _ => Ok (s "SCALAR") | IdObject _ => Ok (s "OBJECT") | IdInput _ => Ok (s "INPUT_OBJECT")
    | IdList _ => Ok (s "LIST") | IdNonNull _ => Ok (s "NON_NULL") | IdDirective _ => Err TypeError
    end.
  Definition type_name (t : tident) : res (option str) :=
    match t with
    | IdScalar n | IdObject n => Ok (Some n)
    | IdInput n => Ok (Some (s "IO" ++ n))
    | IdList _ | IdNonNull _ => Ok None
    | IdDirective _ => Err TypeError
    end.
  (** [not f.name.startswith('_')] *)
  Definition visible (name : str) : bool := match name with 95%N :: _ => false | _ => true end.
  (** [type_.__field_types__] *)
  Definition field_types (t : ty) : res (list (str * ty)) :=
    match t with TRec fs => Ok fs | _ => Err AttributeError end.
  Definition data_fields (n : str) : res (list (str * ty)) :=
    match dget n (sc_types S) with None => Err KeyError | Some t => field_types t end.
  (** graphql.py:217-240 [type_fields_link], for one identifier *)
  Definition type_fields (t : tident) : res (list fident) :=
    match t with
    | IdObject n =>
        match (match dget n schema_nodes with
               | Some gn => Ok (map (fun f => (n, f)) (List.filter visible (map gi_name (gn_fields gn))))
               | None => match data_fields n with Ok fs => Ok (map (fun p => (n, p.1)) fs) | Err e => Err e end
               end) with
        | Ok [] => Err TypeError
        | r => r
        end
    | _ => Ok []
    end.
  (** graphql.py:243-249 [type_of_type_link] *)
  Definition type_of_type (t : tident) : option tident :=
    match t with IdNonNull t | IdList t => Some t | _ => None end.
  (** [nodes_map[node].fields_map[name]] *)
  Definition schema_field (f : fident) : res gitem :=
    match dget f.1 schema_nodes with
    | None => Err KeyError
    | Some gn => from_opt KeyError (find_field gn f.2)
    end.
  (** graphql.py:273-285 [field_type_link]; [field.type or Any] *)
  Definition field_type (f : fident) : res tident :=
    match dget f.1 schema_nodes with
    | Some _ => match schema_field f with Ok x => type_ident (sc_types S) false (gi_type x) | Err e => Err e end
    | None => match data_fields f.1 with
              | Err e => Err e
              | Ok fs => match dget f.2 fs with
                         | Some t => type_ident (sc_types S) false t
                         | None => Err KeyError
                         end
              end
    end.
  Definition gi_options (x : gitem) : list goption := match x with GF f => gf_opts f | GL l => gl_opts l end.
  (** graphql.py:288-298 [field_args_link] *)
  Definition field_args (f : fident) : res (list aident) :=
    match dget f.1 schema_nodes with
    | Some _ => match schema_field f with
                | Ok x => Ok (map (fun o => ArgField f.1 (gi_name x) (go_name o)) (gi_options x))
                | Err e => Err e
                end
    | None => Ok []
    end.
  (** graphql.py:301-309 [type_input_object_input_fields_link] *)
  Definition input_fields (t : tident) : res (list aident) :=
    match t with
    | IdInput n => match data_fields n with Ok fs => Ok (map (fun k => ArgInput n k) (dkeys fs)) | Err e => Err e end
    | _ => Ok []
    end.
  (** graphql.py:355-373 [input_value_type_link]; a missing type has no [accept] *)
  Definition arg_type (a : aident) : res tident :=
    match a with
    | ArgField node field name =>
        match schema_field (node, field) with
        | Err e => Err e
        | Ok x => match dget name (of_pairs (map (fun o => (go_name o, o)) (gi_options x))) with
                  | None => Err KeyError
                  | Some o => match go_type o with
                              | Some t => type_ident (sc_types S) true t
                              | None => Err AttributeError
                              end
                  end
        end
    | ArgInput n k =>
        match data_fields n with
        | Err e => Err e
        | Ok fs => match dget k fs with Some t => type_ident (sc_types S) true t | None => Err KeyError end
        end
    | ArgDirective _ => Ok (IdNonNull (IdScalar (s "Boolean")))
    end.
  (** graphql.py:396-397 [directive_args_link] *)
  Definition directive_args (name : str) : list aident := [ArgDirective name].
End schema.

(** ** The graph with introspection *)
(** The loaders: of [__typename] for a name of a type, and those of the graph of introspection. *)
Record loaders := Loaders { ld_typename : str -> N; ld_intro : N -> N }.
Section graph.
  Context (L : loaders).
  Definition fld (name : str) (t : option ty) (f : N) : gitem := GF (GField name t (FPlain (ld_intro L f)) []).
  Definition lnk (name : str) (e : tenum) (to : str) (f : N) (req : option str) (os : list goption) : gitem :=
    GL (GLink name e to (ld_intro L f) req os).
  Definition deprecated : goption := GOption (s "includeDeprecated") (Some TBool) (VBool false).
  (** graphql.py:400-481 [GRAPH] bound to the schema (543-560).  Loaders are numbered: 1 type_info,
      2 type_fields_link, 3 na_many, 4 type_input_object_input_fields_link, 5 type_of_type_link,
      6 field_info, 7 field_args_link, 8 field_type_link, 9 input_value_info,
      10 input_value_type_link, 11 directive_value_info, 12 directive_args_link,
      13 not_implemented, 14 root_schema_types, 15 root_schema_query_type,
      16 root_schema_mutation_type, 17 na_maybe, 18 root_schema_directives, 19 schema_link,
      20 type_link. *)
  Definition intro_items : list gnode := [
    GNode (Some (s "__Type")) [
      fld (s "id") None 1; fld (s "kind") (Some TStr) 1; fld (s "name") (Some TStr) 1; fld (s "description") (Some TStr) 1;
      lnk (s "fields") Many (s "__Field") 2 (Some (s "id")) [deprecated];
      lnk (s "interfaces") Many (s "__Type") 3 (Some (s "id")) [];
      lnk (s "possibleTypes") Many (s "__Type") 3 (Some (s "id")) [];
      lnk (s "enumValues") Many (s "__EnumValue") 3 (Some (s "id")) [deprecated];
      lnk (s "inputFields") Many (s "__InputValue") 4 (Some (s "id")) [];
      lnk (s "ofType") Maybe (s "__Type") 5 (Some (s "id")) []];
    GNode (Some (s "__Field")) [
      fld (s "id") None 6; fld (s "name") (Some TStr) 6; fld (s "description") (Some TStr) 6;
      lnk (s "args") Many (s "__InputValue") 7 (Some (s "id")) [];
      lnk (s "type") One (s "__Type") 8 (Some (s "id")) [];
      fld (s "isDeprecated") (Some TBool) 6; fld (s "deprecationReason") (Some TStr) 6];
    GNode (Some (s "__InputValue")) [
      fld (s "id") None 9; fld (s "name") (Some TStr) 9; fld (s "description") (Some TStr) 9;
      lnk (s "type") One (s "__Type") 10 (Some (s "id")) [];
      fld (s "defaultValue") (Some TStr) 9];
    GNode (Some (s "__Directive")) [
      fld (s "name") (Some TStr) 11; fld (s "description") (Some TStr) 11; fld (s "locations") (Some (TSeq TStr)) 11;
      lnk (s "args") Many (s "__InputValue") 12 (Some (s "name")) []];
    GNode (Some (s "__EnumValue")) [
      fld (s "name") (Some TStr) 13; fld (s "description") (Some TStr) 13;
      fld (s "isDeprecated") (Some TBool) 13; fld (s "deprecationReason") (Some TStr) 13];
    GNode (Some (s "__Schema")) [
      lnk (s "types") Many (s "__Type") 14 None [];
      lnk (s "queryType") One (s "__Type") 15 None [];
      lnk (s "mutationType") Maybe (s "__Type") 16 None [];
      lnk (s "subscriptionType") Maybe (s "__Type") 17 None [];
      lnk (s "directives") Many (s "__Directive") 18 None []];
    GNode None [
      lnk (s "__schema") One (s "__Schema") 19 None [];
      lnk (s "__type") Maybe (s "__Type") 20 None [GOption (s "name") (Some TStr) VNothing]]].
  (** graphql.py:484-540 [ValidateGraph]: [^[_a-zA-Z]\w*$] in ASCII; [$] also matches before
      a newline at the end *)
  Definition word_char (c : N) : bool :=
    ((97 <=? c) && (c <=? 122) || (65 <=? c) && (c <=? 90) || (48 <=? c) && (c <=? 57) || (c =? 95))%N.
  Definition valid_name (n : str) : bool :=
    match n with
    | [] => false
    | c :: r => word_char c && negb (is_digit c) &&
                match List.rev r with 10%N :: r' => forallb word_char r' | _ => forallb word_char r end
    end.
  Definition valid_item (x : gitem) : bool := valid_name (gi_name x) && forallb (fun o => valid_name (go_name o)) (gi_options x).
  Definition valid_node (n : gnode) : bool :=
    match gn_name n with Some x => valid_name x | None => true end &&
    negb (bool_decide (gn_fields n = [])) && forallb valid_item (gn_fields n).
  (** graphql.py:638-653: [__typename] in every node *)
  Definition typename_field (name : str) : gitem := GF (GField (s "__typename") (Some TStr) (FPlain (ld_typename L name)) []).
  Definition add_typename (n : gnode) : gnode :=
    GNode (gn_name n) (gn_fields n ++ [typename_field (match gn_name n with Some x => x | None => QUERY_ROOT_NAME end)]).
  (** graphql.py:655-660 [GraphQLIntrospection.visit_graph] *)
  Definition add_introspection (g : graph) : res graph :=
    if forallb valid_node (g_items g) then new_graph (map add_typename (g_items g) ++ intro_items) (g_dtypes g)
    else Err ValueError.
  (** graphql.py:582-583 [type_name_field_func] *)
  Definition typename_rows (name : str) (ids : option (list val)) : val :=
    match ids with Some is_ => VList (map (fun _ => VList [VStr name]) is_) | None => VList [VStr name] end.
End graph.

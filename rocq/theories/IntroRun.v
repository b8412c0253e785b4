(** hiku/introspection/graphql.py: the loaders of introspection as the engine calls them: identifiers as Python values,
    rows of fields, results of links, what they raise. *)
From Verif Require Import Base Val Types Query Graph Queue Result Engine Introspect PropIntroList.

(** ** Identifiers as values *)
(** An instance of the class [C] of graphql.py:34-44 is [VTag C x] with its only field, or with the tuple of its fields.
    Instances of different classes are different identifiers: the classes take part in the hash (graphql.py:14-24). *)
Fixpoint enc_t (t : tident) : val :=
  match t with
  | IdScalar n => VTag (s "SCALAR") (VStr n)
  | IdObject n => VTag (s "OBJECT") (VStr n)
  | IdDirective n => VTag (s "DIRECTIVE") (VStr n)
  | IdInput n => VTag (s "INPUT_OBJECT") (VStr n)
  | IdList t => VTag (s "LIST") (enc_t t)
  | IdNonNull t => VTag (s "NON_NULL") (enc_t t)
  end.
Definition enc_f (f : fident) : val := VTag (s "FieldIdent") (VTuple [VStr f.1; VStr f.2]).
Definition enc_a (a : aident) : val :=
  match a with
  | ArgField n f x => VTag (s "FieldArgIdent") (VTuple [VStr n; VStr f; VStr x])
  | ArgInput n k => VTag (s "InputObjectFieldIdent") (VTuple [VStr n; VStr k])
  | ArgDirective n => VTag (s "DirectiveArgIdent") (VStr n)
  end.
(** [isinstance(ident, C)] and the fields of [ident] *)
Fixpoint dec_t (v : val) : option tident :=
  match v with
  | VTag c (VStr n) =>
      if bool_decide (c = s "SCALAR") then Some (IdScalar n) else if bool_decide (c = s "OBJECT") then Some (IdObject n)
      else if bool_decide (c = s "DIRECTIVE") then Some (IdDirective n)
      else if bool_decide (c = s "INPUT_OBJECT") then Some (IdInput n) else None
  | VTag c (VTag _ _ as v') =>
      match dec_t v' with
      | None => None
      | Some t => if bool_decide (c = s "LIST") then Some (IdList t) else if bool_decide (c = s "NON_NULL") then Some (IdNonNull t) else None
      end
  | _ => None
  end.
Definition dec_f (v : val) : option fident :=
  match v with
  | VTag c (VTuple [VStr n; VStr f]) => if bool_decide (c = s "FieldIdent") then Some (n, f) else None
  | _ => None
  end.
Definition dec_a (v : val) : option aident :=
  match v with
  | VTag c (VTuple [VStr n; VStr f; VStr x]) => if bool_decide (c = s "FieldArgIdent") then Some (ArgField n f x) else None
  | VTag c (VTuple [VStr n; VStr k]) => if bool_decide (c = s "InputObjectFieldIdent") then Some (ArgInput n k) else None
  | VTag c (VStr n) => if bool_decide (c = s "DirectiveArgIdent") then Some (ArgDirective n) else None
  | _ => None
  end.
Lemma dec_enc_t t : dec_t (enc_t t) = Some t.
Proof. induction t as [| | | |t IH|t IH]; try reflexivity; cbn [enc_t]; destruct t; cbn [enc_t] in *; cbn [dec_t]; cbn [dec_t] in IH; rewrite IH; reflexivity. Qed.
Lemma dec_enc_f f : dec_f (enc_f f) = Some f.
Proof. by destruct f. Qed.
Lemma dec_enc_a a : dec_a (enc_a a) = Some a.
Proof. by destruct a. Qed.

(** What the graph's objects carry besides: the descriptions of nodes, fields and options; and [json.dumps]. *)
Record texts := Texts {
  tx_node : str -> val;
  tx_field : fident -> val;
  tx_option : str -> str -> str -> val;
  tx_json : val -> res val;
}.

Section loaders.
  Context (S : schema) (T : texts).
  Definition in_nodes (n : str) : bool := bool_decide (n ∈ dkeys (schema_nodes S)).
  Definition vopt (x : option str) : val := match x with Some y => VStr y | None => VNone end.
  (** ** Rows of fields: the dict [info] for an identifier *)
  (** graphql.py:184-214 [type_info] *)
  Definition type_info (i : val) : res (list (str * val)) :=
    match dec_t i with
    | Some (IdObject n) => Ok [(s "id", i); (s "kind", VStr (s "OBJECT")); (s "name", VStr n);
                               (s "description", if in_nodes n then tx_node T n else VNone)]
    | Some (IdInput n) => Ok [(s "id", i); (s "kind", VStr (s "INPUT_OBJECT")); (s "name", VStr (s "IO" ++ n)); (s "description", VNone)]
    | Some (IdNonNull _) => Ok [(s "id", i); (s "kind", VStr (s "NON_NULL"))]
    | Some (IdList _) => Ok [(s "id", i); (s "kind", VStr (s "LIST"))]
    | Some (IdScalar n) => Ok [(s "id", i); (s "name", VStr n); (s "kind", VStr (s "SCALAR"))]
    | _ => Err TypeError
    end.
  (** graphql.py:252-270 [field_info] *)
  Definition field_info (i : val) : res (list (str * val)) :=
    match dec_f i with
    | None => Err AttributeError
    | Some f =>
        let info (name : str) (descr : val) :=
          [(s "id", i); (s "name", VStr name); (s "description", descr); (s "isDeprecated", VBool false); (s "deprecationReason", VNone)] in
        if in_nodes f.1 then match schema_field S f with Ok x => Ok (info (gi_name x) (tx_field T f)) | Err e => Err e end
        else Ok (info f.2 VNone)
    end.
  (** graphql.py:312-352 [input_value_info] *)
  Definition arg_descr (n : str) : res val :=
    if bool_decide (n = s "include") then Ok (VStr (s "Included when true."))
    else if bool_decide (n = s "skip") then Ok (VStr (s "Skipped when true.")) else Err KeyError.
  Definition input_value_info (i : val) : res (list (str * val)) :=
    let info (name : str) (descr dflt : val) := [(s "id", i); (s "name", VStr name); (s "description", descr); (s "defaultValue", dflt)] in
    match dec_a i with
    | Some (ArgField node field name) =>
        match arg_option S node field name with
        | Err e => Err e
        | Ok o => match (match go_default o with VNothing => Ok VNone | v => tx_json T v end) with
                  | Ok d => Ok (info (go_name o) (tx_option T node field name) d)
                  | Err e => Err e
                  end
        end
    | Some (ArgInput _ k) => Ok (info k VNone VNone)
    | Some (ArgDirective n) => match arg_descr n with Ok d => Ok (info (s "if") d VNone) | Err e => Err e end
    | None => Err TypeError
    end.
  (** graphql.py:376-393 [directive_value_info] *)
  Definition directive_descr (n : str) : val :=
    if bool_decide (n = s "include") then VStr (s "Directs the executor to include this field or fragment only when the `if` argument is true.")
    else if bool_decide (n = s "skip") then VStr (s "Directs the executor to skip this field or fragment when the `if` argument is true.")
    else VNone.
  Definition directive_value_info (i : val) : res (list (str * val)) :=
    match dec_t i with
    | Some (IdDirective n) => Ok [(s "name", VStr n); (s "description", directive_descr n);
                                  (s "locations", VList (map VStr [s "FIELD"; s "FRAGMENT_SPREAD"; s "INLINE_FRAGMENT"]))]
    | _ => Err AttributeError
    end.
  (** The values of fields by their names: [info.get(f.name)] for types, [info[f.name]] otherwise.  Loaders by number, see
      [intro_items]; 13 is [not_implemented] (graphql.py:117-118); those of links take no [fields]. *)
  Definition row_of (k : N) (i : val) : res (str -> res val) :=
    let strict (r : res (list (str * val))) := match r with Ok d => Ok (fun n => from_opt KeyError (dget n d)) | Err e => Err e end in
    match k with
    | 1%N => match type_info i with Ok d => Ok (fun n => Ok (default VNone (dget n d))) | Err e => Err e end
    | 6%N => strict (field_info i)
    | 9%N => strict (input_value_info i)
    | 11%N => strict (directive_value_info i)
    | 13%N => Err NotImplementedErr
    | _ => Err TypeError
    end.

  (** ** Links *)
  Definition vlist {A} (enc : A -> val) (r : res (list A)) : res val := match r with Ok l => Ok (VList (map enc l)) | Err e => Err e end.
  Definition vone {A} (enc : A -> val) (r : res A) : res val := match r with Ok a => Ok (enc a) | Err e => Err e end.
  Definition vmaybe (o : option tident) : val := match o with Some t => enc_t t | None => VNothing end.
  (** The result of a link for one required value: graphql.py:217-240, 125-129, 301-309, 243-249, 288-298, 273-285,
      355-373, 396-397.  What is no identifier of a type has no fields and is not wrapped. *)
  Definition link_of (k : N) (i : val) : res val :=
    match k with
    | 2%N => match dec_t i with Some t => vlist enc_f (type_fields S t) | None => Ok (VList []) end
    | 3%N => Ok (VList [])
    | 4%N => match dec_t i with Some t => vlist enc_a (input_fields S t) | None => Ok (VList []) end
    | 5%N => Ok (match dec_t i with Some t => vmaybe (type_of_type t) | None => VNothing end)
    | 7%N => match dec_f i with Some f => vlist enc_a (field_args S f) | None => Err AttributeError end
    | 8%N => match dec_f i with Some f => vone enc_t (field_type S f) | None => Err AttributeError end
    | 10%N => match dec_a i with Some a => vone enc_t (arg_type S a) | None => Err TypeError end
    | 12%N => Ok (VList [VTag (s "DirectiveArgIdent") i])
    | _ => Err TypeError
    end.
  (** The result of a link without required values: graphql.py:154-181, 121-122, 142-151 *)
  Definition link_root (k : N) (o : option opts) : res val :=
    match k with
    | 3%N => Ok (VList [])
    | 14%N => Ok (VList (map enc_t (root_schema_types S)))
    | 15%N => Ok (enc_t root_query_type)
    | 16%N => Ok (vmaybe (root_mutation_type S))
    | 17%N => Ok VNothing
    | 18%N => Ok (VList (map enc_t root_directives))
    | 19%N => Ok VNone
    | 20%N => match o with
              | Some d => match dget (s "name") (opt_dict d) with
                          | Some (VStr n) => Ok (vmaybe (type_link S n))
                          | Some _ => Ok VNothing
                          | None => Err KeyError
                          end
              | None => Err TypeError
              end
    | _ => Err TypeError
    end.
  (** Loaders 2 and 20 take [options], 3 may take them *)
  Definition takes_options (k : N) (o : option opts) : bool :=
    match k with 2%N | 20%N => match o with Some _ => true | None => false end | 3%N => true | _ => match o with None => true | Some _ => false end end.

  (** The call of loader number [k], bound to the schema (graphql.py:543-560).  [listify] collects all the rows, the first
      exception goes to the caller. *)
  Definition intro_call (k : N) (a : cargs) : res val :=
    match a with
    | AFields qfs (Some ids) =>
        vlist id (mapR (fun i => match row_of k i with
                                 | Ok row => vlist id (mapR (fun q => row (q_name q)) qfs)
                                 | Err e => Err e
                                 end) ids)
    | AFields _ None => match k with 13%N => Err NotImplementedErr | _ => Err TypeError end
    | ALink (Some (RList l)) o =>
        if takes_options k o then vlist id (mapR (fun v => match v with IVal i => link_of k i | _ => Err TypeError end) l) else Err TypeError
    | ALink (Some (ROne _)) o => Err TypeError
    | ALink None o => if takes_options k o then link_root k o else Err TypeError
    end.
  Definition outcome_of (r : res val) : outcome := match r with Ok v => Ret v | Err e => Raise e end.
  (** graphql.py:582-583 [type_name_field_func]: one value per row, whatever the number of fields *)
  Definition typename_call (n : str) (a : cargs) : res val :=
    match a with AFields _ ids => Ok (typename_rows n ids) | ALink _ _ => Err TypeError end.

  (** The environment runs the loaders of introspection.  The asynchronous variant (graphql.py:28-31, 563-579, 663-683)
      wraps the same functions in coroutines. *)
  Record runs_introspection (L : loaders) (E : env) : Prop := {
    ri_typename : forall m c n, c_func c = ld_typename L n -> e_oracle E m c = outcome_of (typename_call n (c_args c));
    ri_intro : forall m c k, c_func c = ld_intro L k -> e_oracle E m c = outcome_of (intro_call k (c_args c));
    ri_ctx : forall f, (exists n, f = ld_typename L n) \/ (exists k, f = ld_intro L k) -> e_ctx E f = false;
  }.
End loaders.

(** A GraphQL client which asks for the whole schema (specification for C57): the query it sends, what it reads from the
    answer, and what it should come to know. *)
From Verif Require Import Base Val Types Query Graph Queue Result Engine Introspect IntrospectSpec IntroRun IntroRunSpec.

(** ** The query: the standard one, see getIntrospectionQuery of graphql-js; in every object fields before links, in which
    order the reader gives them (hiku/query.py:176-205 [merge]) *)
Definition ask (n : String.string) : qitem := QF (s n) None None.
Definition follow (n : String.string) (o : opts) (sub : list qitem) : qitem := QL (s n) sub false o None.
Arguments ask _%string_scope.
Arguments follow _%string_scope.
Definition deprecated_too : opts := Some [(s "includeDeprecated", VBool true)].
(** [d]: how far [ofType] is followed *)
Fixpoint ask_ref (d : nat) : list qitem :=
  [ask "kind"; ask "name"] ++ match d with O => [] | S d => [follow "ofType" None (ask_ref d)] end.
Definition ask_input (d : nat) : list qitem := [ask "name"; ask "description"; ask "defaultValue"; follow "type" None (ask_ref d)].
Definition ask_field (d : nat) : list qitem :=
  [ask "name"; ask "description"; ask "isDeprecated"; ask "deprecationReason"; follow "args" None (ask_input d); follow "type" None (ask_ref d)].
Definition ask_enum : list qitem := [ask "name"; ask "description"; ask "isDeprecated"; ask "deprecationReason"].
Definition ask_type (d : nat) : list qitem :=
  [ask "kind"; ask "name"; ask "description"; follow "fields" deprecated_too (ask_field d); follow "inputFields" None (ask_input d);
   follow "interfaces" None (ask_ref d); follow "enumValues" deprecated_too ask_enum; follow "possibleTypes" None (ask_ref d)].
Definition ask_directive (d : nat) : list qitem := [ask "name"; ask "description"; ask "locations"; follow "args" None (ask_input d)].
Definition ask_schema (d : nat) : list qitem :=
  [follow "queryType" None [ask "name"]; follow "mutationType" None [ask "name"]; follow "subscriptionType" None [ask "name"];
   follow "types" None (ask_type d); follow "directives" None (ask_directive d)].
Definition standard_query (d : nat) : qnode := QN [follow "__schema" None (ask_schema d)] false.

(** ** What the client reads.  Descriptions, default values and reasons may be None. *)
Record c_input := CInput { ci_name : str; ci_descr : val; ci_type : gql_type; ci_default : val }.
Record c_field := CField { cf_name : str; cf_descr : val; cf_args : list c_input; cf_type : gql_type; cf_deprecated : val; cf_reason : val }.
Record c_type := CType { ct_kind : str; ct_name : str; ct_descr : val; ct_fields : list c_field; ct_inputs : list c_input;
                         ct_interfaces : list gql_type; ct_enum : list str; ct_possible : list gql_type }.
Record c_directive := CDirective { cd_name : str; cd_descr : val; cd_locations : val; cd_args : list c_input }.
Record c_schema := CSchema { cs_query : str; cs_mutation : option str; cs_subscription : option str;
                             cs_types : list c_type; cs_directives : list c_directive }.
Definition key (k : String.string) (t : vtree) : option vtree := match t with TO d => dget (s k) d | _ => None end.
Arguments key _%string_scope.
Definition r_raw (t : vtree) : option val := match t with TP (PRaw (IVal v)) => Some v | _ => None end.
Definition r_str (t : vtree) : option str := match r_raw t with Some (VStr x) => Some x | _ => None end.
Definition r_list {A} (f : vtree -> option A) (t : vtree) : option (list A) := match t with TL l => mapM f l | _ => None end.
Definition r_maybe {A} (f : vtree -> option A) (t : vtree) : option (option A) :=
  match r_raw t with Some VNone => Some None | _ => Some <$> f t end.
Fixpoint r_ref (n : nat) (t : vtree) : option gql_type :=
  k ← key "kind" t ≫= r_str;
  let inner := match n with O => None | S n => key "ofType" t ≫= r_ref n end in
  if bool_decide (k = s "NON_NULL") then GNonNull <$> inner
  else if bool_decide (k = s "LIST") then GList <$> inner
  else GName <$> (key "name" t ≫= r_str).
Definition r_input (n : nat) (t : vtree) : option c_input :=
  x ← key "name" t ≫= r_str; c ← key "description" t ≫= r_raw; ty ← key "type" t ≫= r_ref n; d ← key "defaultValue" t ≫= r_raw;
  Some (CInput x c ty d).
Definition r_field (n : nat) (t : vtree) : option c_field :=
  x ← key "name" t ≫= r_str; c ← key "description" t ≫= r_raw; l ← key "args" t ≫= r_list (r_input n); ty ← key "type" t ≫= r_ref n;
  d ← key "isDeprecated" t ≫= r_raw; w ← key "deprecationReason" t ≫= r_raw; Some (CField x c l ty d w).
Definition r_named (t : vtree) : option str := key "name" t ≫= r_str.
Definition r_type (n : nat) (t : vtree) : option c_type :=
  k ← key "kind" t ≫= r_str; x ← key "name" t ≫= r_str; c ← key "description" t ≫= r_raw; fs ← key "fields" t ≫= r_list (r_field n);
  is_ ← key "inputFields" t ≫= r_list (r_input n); ifs ← key "interfaces" t ≫= r_list (r_ref n);
  es ← key "enumValues" t ≫= r_list r_named; ps ← key "possibleTypes" t ≫= r_list (r_ref n);
  Some (CType k x c fs is_ ifs es ps).
Definition r_directive (n : nat) (t : vtree) : option c_directive :=
  x ← key "name" t ≫= r_str; c ← key "description" t ≫= r_raw; ls ← key "locations" t ≫= r_raw; l ← key "args" t ≫= r_list (r_input n);
  Some (CDirective x c ls l).
Definition r_schema (n : nat) (t : vtree) : option c_schema :=
  t ← key "__schema" t;
  q ← key "queryType" t ≫= r_named; m ← key "mutationType" t ≫= r_maybe r_named; sb ← key "subscriptionType" t ≫= r_maybe r_named;
  ts ← key "types" t ≫= r_list (r_type n); ds ← key "directives" t ≫= r_list (r_directive n); Some (CSchema q m sb ts ds).

(** ** What it should read: the schema as it is declared *)
Section expected.
  Context (S : schema) (T : texts).
  Definition public (x : gitem) : bool := negb (bool_decide (head (gi_name x) = Some 95%N)).
  (** [n]: the name of the type which has the member [x]; descriptions are those which the user gave *)
  Definition e_input (n : str) (x : gitem) (o : goption) : c_input :=
    CInput (go_name o) (tx_option T n (gi_name x) (go_name o)) (gql_type_of true (default TAny (go_type o)))
      (match go_default o with VNothing => VNone | v => or_none (tx_json T v) end).
  Definition e_field (n : str) (x : gitem) : c_field :=
    CField (gi_name x) (tx_field T (n, gi_name x)) (map (e_input n x) (gi_options x)) (gql_type_of false (gi_type x)) (VBool false) VNone.
  Definition plain_type (k n : str) (c : val) (fs : list c_field) (is_ : list c_input) : c_type := CType k n c fs is_ [] [] [].
  (** The nodes of the graph of queries, and the roots *)
  Definition named_nodes : list (str * gnode) :=
    omap (fun gn => match gn_name gn with Some n => Some (n, gn) | None => None end) (g_items (sc_query S)) ++
    [(s "Query", g_root (sc_query S))] ++ match sc_mutation S with Some m => [(s "Mutation", g_root m)] | None => [] end.
  Definition e_node (p : str * gnode) : c_type := plain_type (s "OBJECT") p.1 (tx_node T p.1) (map (e_field p.1) (List.filter public (gn_fields p.2))) [].
  (** A type of records is reported twice, as an object and as an input object *)
  Definition e_record (p : str * ty) : list c_type :=
    match p.2 with
    | TRec fs => [plain_type (s "OBJECT") p.1 VNone (map (fun f => CField f.1 VNone [] (gql_type_of false f.2) (VBool false) VNone) fs) [];
                  plain_type (s "INPUT_OBJECT") (s "IO" ++ p.1) VNone [] (map (fun f => CInput f.1 VNone (gql_type_of true f.2) VNone) fs)]
    | _ => []
    end.
  Definition e_directive (n c ca : String.string) : c_directive :=
    CDirective (s n) (VStr (s c)) (VList (map VStr [s "FIELD"; s "FRAGMENT_SPREAD"; s "INLINE_FRAGMENT"]))
      [CInput (s "if") (VStr (s ca)) (GNonNull (GName (s "Boolean"))) VNone].
  Arguments e_directive _%string_scope _%string_scope _%string_scope.
  Definition e_schema : c_schema :=
    CSchema (s "Query") (match sc_mutation S with Some _ => Some (s "Mutation") | None => None end) None
      (map (fun n => plain_type (s "SCALAR") n VNone [] []) [s "String"; s "Int"; s "Boolean"; s "Float"; s "Any"] ++
       map e_node named_nodes ++ flat_map e_record (sc_types S))
      [e_directive "skip" "Directs the executor to skip this field or fragment when the `if` argument is true." "Skipped when true.";
       e_directive "include" "Directs the executor to include this field or fragment only when the `if` argument is true." "Included when true."].

  (** The names of the types are different, and so are the names of members and options *)
  Record distinct_names : Prop := {
    dn_nodes : NoDup (map fst named_nodes);
    dn_records : forall n t, (n, t) ∈ sc_types S -> n ∉ map fst named_nodes;
    dn_members : forall n gn, (n, gn) ∈ named_nodes -> NoDup (map gi_name (gn_fields gn)) /\
      forall x, x ∈ gn_fields gn -> NoDup (map go_name (gi_options x));
  }.
  (** The declared types: of public members, of their options, of the members of records *)
  Inductive declared : gql_type -> Prop :=
  | dc_member n gn x : (n, gn) ∈ named_nodes -> x ∈ gn_fields gn -> public x = true -> declared (gql_type_of false (gi_type x))
  | dc_option n gn x o t : (n, gn) ∈ named_nodes -> x ∈ gn_fields gn -> public x = true -> o ∈ gi_options x -> go_type o = Some t ->
      declared (gql_type_of true t)
  | dc_record n fs k t b : (n, TRec fs) ∈ sc_types S -> (k, t) ∈ fs -> declared (gql_type_of b t).
  Fixpoint wrapped (t : gql_type) : nat := match t with GName _ => 0 | GList t | GNonNull t => Datatypes.S (wrapped t) end.
  (** The client follows [ofType] far enough *)
  Definition deep_enough (d : nat) : Prop := 1 <= d /\ forall t, declared t -> wrapped t <= d.
End expected.

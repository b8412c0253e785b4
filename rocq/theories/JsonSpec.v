(** What a text of GraphQL says (specification for C65): values of the GraphQL language, section 2.9
    of its specification, without variables and block strings, and which values can be written so.
    Nothing of [json] is used; the text between quotes is that of [EdnTextSpec], where a
    character behind U+FFFF may be written as two escapes of four digits, as the specification of GraphQL
    of 2021 has it; the text of a float is one that Python's [float] reads
    ([float_written]). *)
From Verif Require Import Base Val Edn EdnSpec EdnTextSpec ReadGraphql.

(** Spaces, tabs, ends of lines and commas mean nothing between values. *)
Definition ignored (t : str) : Prop := Forall (fun c => c ∈ s " ," ++ [9; 10; 13]%N) t.
Inductive separated : list str -> str -> Prop :=
| sp_none i : ignored i -> separated [] i
| sp_one i t j : ignored i -> ignored j -> separated [t] (i ++ t ++ j)
| sp_more i t j ts u : ignored i -> ignored j -> j <> [] -> ts <> [] -> separated ts u -> separated (t :: ts) (i ++ t ++ j ++ u).
(** Names: letters, digits and underscores, not beginning with a digit *)
Definition name_start (c : N) : Prop := ascii_alpha c = true \/ c = 95%N.
Definition gql_name (x : str) : Prop :=
  match x with c :: r => name_start c /\ Forall (fun c => name_start c \/ is_digit c = true) r | [] => False end.
(** Decimal numbers, without zeros in front; and integers *)
Inductive decimal : N -> str -> Prop :=
| dc_digit d : (d < 10)%N -> decimal d [(48 + d)%N]
| dc_more n t d : decimal n t -> n <> 0%N -> (d < 10)%N -> decimal (10 * n + d)%N (t ++ [(48 + d)%N]).
Inductive integer : Z -> str -> Prop :=
| in_pos n t : decimal n t -> integer (Z.of_N n) t
| in_neg n t : decimal n t -> integer (- Z.of_N n) (s "-" ++ t).

Section text.
  Context `{PyText}.
  Inductive gql_text : gval -> str -> Prop :=
  | gt_null : gql_text GNull (s "null")
  | gt_true : gql_text (GBool true) (s "true")
  | gt_false : gql_text (GBool false) (s "false")
  | gt_enum x : gql_name x -> x <> s "null" -> x <> s "true" -> x <> s "false" -> gql_text (GEnum x) x
  | gt_int z t : integer z t -> gql_text (GInt z) t
  | gt_float m e t : float_written t m e -> gql_text (GFloat m e) t
  | gt_str t x : json_text t = Some x -> gql_text (GStr x) ([34%N] ++ t ++ [34%N])
  | gt_list l ts u : Forall2 gql_text l ts -> separated ts u -> gql_text (GList l) (s "[" ++ u ++ s "]")
  | gt_obj l ts u : Forall2 (fun p t => gql_name p.1 /\ exists i w, ignored i /\ gql_text p.2 w /\ t = p.1 ++ s ":" ++ i ++ w) l ts ->
      separated ts u -> gql_text (GObj l) (s "{" ++ u ++ s "}").

  (** Values made of None, truth values, integers, floats, strings of characters (any, but halves of
      surrogate pairs, which are no characters), and lists; and the value which a client can send for them: lists instead of tuples, plain strings. *)
  Inductive shows : val -> val -> Prop :=
  | sw_none : shows VNone VNone
  | sw_bool b : shows (VBool b) (VBool b)
  | sw_int z : shows (VInt z) (VInt z)
  | sw_float m e : float_text m e -> shows (VFloat m e) (VFloat m e)
  | sw_str x : Forall unicode x -> shows (VStr x) (VStr x)
  | sw_kw x : Forall unicode x -> shows (VKw x) (VStr x)
  | sw_sym x : Forall unicode x -> shows (VSym x) (VStr x)
  | sw_list l ws : Forall2 shows l ws -> shows (VList l) (VList ws)
  | sw_tuple l ws : Forall2 shows l ws -> shows (VTuple l) (VList ws)
  | sw_vec l ws : Forall2 shows l ws -> shows (VVec l) (VList ws)
  | sw_paren l ws : Forall2 shows l ws -> shows (VParen l) (VList ws)
  | sw_dict : shows (VDict []) (VDict [])
  | sw_map : shows (VMap []) (VDict []).
  (** Without tuples and words a value is shown as it is. *)
  Fixpoint simple (v : val) : Prop :=
    match v with
    | VNone | VBool _ | VInt _ => True
    | VFloat m e => float_text m e
    | VStr x => Forall unicode x
    | VDict d => d = []
    | VList l => (fix all (l : list val) : Prop := match l with [] => True | v :: l' => simple v /\ all l' end) l
    | _ => False
    end.
End text.
(** What can be written as JSON at all *)
Inductive json_key_of : val -> Prop :=
| jk_str x : json_key_of (VStr x) | jk_kw x : json_key_of (VKw x) | jk_sym x : json_key_of (VSym x)
| jk_none : json_key_of VNone | jk_bool b : json_key_of (VBool b) | jk_int z : json_key_of (VInt z)
| jk_float m e : json_key_of (VFloat m e).
Inductive writable : val -> Prop :=
| wr_none : writable VNone
| wr_bool b : writable (VBool b)
| wr_int z : writable (VInt z)
| wr_float m e : writable (VFloat m e)
| wr_str x : writable (VStr x) | wr_kw x : writable (VKw x) | wr_sym x : writable (VSym x)
| wr_list l : Forall writable l -> writable (VList l)
| wr_tuple l : Forall writable l -> writable (VTuple l)
| wr_vec l : Forall writable l -> writable (VVec l)
| wr_paren l : Forall writable l -> writable (VParen l)
| wr_dict d : Forall (fun p => json_key_of p.1 /\ writable p.2) d -> writable (VDict d)
| wr_map d : Forall (fun p => json_key_of p.1 /\ writable p.2) d -> writable (VMap d).

(** ** JSON (RFC 8259): values are None, truth values, numbers, strings, lists, and dictionaries of
    strings (an object is the list of its members as they are written) *)
Definition blank (t : str) : Prop := Forall (fun c => c ∈ [32; 9; 10; 13]%N) t.
Inductive commas : list str -> str -> Prop :=
| cm_none i : blank i -> commas [] i
| cm_one i t j : blank i -> blank j -> commas [t] (i ++ t ++ j)
| cm_more i t j ts u : blank i -> blank j -> ts <> [] -> commas ts u -> commas (t :: ts) (i ++ t ++ j ++ s "," ++ u).
Section is_json.
  Context `{PyText}.
  Inductive json_says : val -> str -> Prop :=
  | js_null : json_says VNone (s "null")
  | js_true : json_says (VBool true) (s "true")
  | js_false : json_says (VBool false) (s "false")
  | js_int z t : integer z t -> json_says (VInt z) t
  | js_float m e t : float_written t m e -> json_says (VFloat m e) t
  | js_str x t : json_text t = Some x -> json_says (VStr x) ([34%N] ++ t ++ [34%N])
  | js_list l ts u : Forall2 json_says l ts -> commas ts u -> json_says (VList l) (s "[" ++ u ++ s "]")
  | js_dict d ts u :
      Forall2 (fun p t => exists x kt i j w, p.1 = VStr x /\ json_text kt = Some x /\ blank i /\ blank j /\ json_says p.2 w /\
                          t = [34%N] ++ kt ++ [34%N] ++ i ++ s ":" ++ j ++ w) d ts ->
      commas ts u -> json_says (VDict d) (s "{" ++ u ++ s "}").
  (** What JSON keeps of a value: lists instead of tuples, plain strings, and keys which are strings:
      those which are not are written out *)
  Inductive key_says : val -> str -> Prop :=
  | ks_str x : Forall unicode x -> key_says (VStr x) x
  | ks_kw x : Forall unicode x -> key_says (VKw x) x
  | ks_sym x : Forall unicode x -> key_says (VSym x) x
  | ks_none : key_says VNone (s "null")
  | ks_true : key_says (VBool true) (s "true")
  | ks_false : key_says (VBool false) (s "false")
  | ks_int z t : integer z t -> key_says (VInt z) t
  | ks_float m e t : float_written t m e -> key_says (VFloat m e) t.
  Inductive json_keeps : val -> val -> Prop :=
  | jk_shows v w : shows v w -> json_keeps v w
  | jk_list l ws : Forall2 json_keeps l ws -> json_keeps (VList l) (VList ws)
  | jk_tuple l ws : Forall2 json_keeps l ws -> json_keeps (VTuple l) (VList ws)
  | jk_vec l ws : Forall2 json_keeps l ws -> json_keeps (VVec l) (VList ws)
  | jk_paren l ws : Forall2 json_keeps l ws -> json_keeps (VParen l) (VList ws)
  | jk_dict d ws : Forall2 (fun p r => exists x, key_says p.1 x /\ r.1 = VStr x /\ json_keeps p.2 r.2) d ws -> json_keeps (VDict d) (VDict ws)
  | jk_map d ws : Forall2 (fun p r => exists x, key_says p.1 x /\ r.1 = VStr x /\ json_keeps p.2 r.2) d ws -> json_keeps (VMap d) (VDict ws).
  (** Every string in the value is made of characters, and floats are written so that Python reads them. *)
  Definition key_fine (k : val) : Prop :=
    match k with
    | VStr x | VKw x | VSym x => Forall unicode x
    | VFloat m e => float_text m e
    | _ => True
    end.
  Inductive fine : val -> Prop :=
  | fi_none : fine VNone
  | fi_bool b : fine (VBool b)
  | fi_int z : fine (VInt z)
  | fi_float m e : float_text m e -> fine (VFloat m e)
  | fi_str x : Forall unicode x -> fine (VStr x)
  | fi_kw x : Forall unicode x -> fine (VKw x)
  | fi_sym x : Forall unicode x -> fine (VSym x)
  | fi_list l : Forall fine l -> fine (VList l)
  | fi_tuple l : Forall fine l -> fine (VTuple l)
  | fi_vec l : Forall fine l -> fine (VVec l)
  | fi_paren l : Forall fine l -> fine (VParen l)
  | fi_dict d : Forall (fun p => key_fine p.1 /\ fine p.2) d -> fine (VDict d)
  | fi_map d : Forall (fun p => key_fine p.1 /\ fine p.2) d -> fine (VMap d).
End is_json.

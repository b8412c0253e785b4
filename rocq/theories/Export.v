(** hiku/export/simple.py, hiku/readers/simple.py, hiku/export/protobuf.py,
    hiku/readers/protobuf.py, hiku/export/graphql.py: writing and reading queries.

    Names of nested option dicts are texts (edn.Keyword and edn.Symbol among them); dicts with
    other keys are not modelled and give [NotImplementedErr]. *)
From Verif Require Export Base Val Query Edn ReadGraphql.

Definition key_of (k : val) : res str := match k with VStr x | VKw x | VSym x => Ok x | _ => Err NotImplementedErr end.

(** ** EDN *)
(** export/simple.py:5-17 [_encode].  bool, int, float and text stay as they are; tuples and
    other objects raise [TypeError]. *)
Fixpoint simple_encode (v : val) : res val :=
  match v with
  | VNone | VBool _ | VInt _ | VFloat _ _ | VStr _ | VKw _ | VSym _ => Ok v
  | VList l => match mapR simple_encode l with Ok l' => Ok (VVec l') | Err e => Err e end
  | VDict d | VMap d =>
      match mapR (fun '(k, w) => match key_of k with
                                 | Err e => Err e
                                 | Ok x => match simple_encode w with Ok w' => Ok (VKw x, w') | Err e => Err e end
                                 end) d with
      | Ok d' => Ok (VMap d')
      | Err e => Err e
      end
  | VSet l => match mapR simple_encode l with Ok l' => Ok (VSet l') | Err e => Err e end
  | _ => Err TypeError
  end.
(** export/simple.py:23-27, 29-33: the name, with options if there are any *)
Definition simple_name (n : str) (o : opts) : res val :=
  match o with
  | None => Ok (VKw n)
  | Some d => match simple_encode (opts_val d) with Ok e => Ok (VParen [VKw n; e]) | Err e => Err e end
  end.
(** export/simple.py:20-40 [Exporter], [export].  Aliases and [ordered] are not looked at. *)
Fixpoint simple_item (q : qitem) : res val :=
  match q with
  | QF n o _ => simple_name n o
  | QL n sub _ o _ =>
      match simple_name n o with
      | Err e => Err e
      | Ok k => match mapR simple_item sub with Ok l => Ok (VMap [(k, VVec l)]) | Err e => Err e end
      end
  end.
Definition simple_export (n : qnode) : res val :=
  match mapR simple_item (qfields n) with Ok l => Ok (VVec l) | Err e => Err e end.

(** readers/simple.py:12-37 [_get_options].  The keywords of an edn.Dict are different. *)
Definition get_options (l : list val) : res (str * list (str * val)) :=
  match l with
  | [VKw n; VMap d] =>
      match mapR (fun '(k, w) => match k with VKw x => Ok (x, w) | _ => Err TypeError end) d with
      | Ok d' => Ok (n, d')
      | Err e => Err e
      end
  | _ => Err TypeError
  end.
(** readers/simple.py:42-44, 47-53: the name and the options of a field or of a link *)
Definition read_name (v : val) : res (str * opts) :=
  match v with
  | VParen l => match get_options l with Ok (n, d) => Ok (n, Some d) | Err e => Err e end
  | VKw n => Ok (n, None)
  | _ => Err TypeError
  end.
Section simple.
  Context `{Hasher}.
  (** readers/simple.py:40-66 [_extract], [transform]; a link's node is merged before the
      link is made *)
  Fixpoint simple_member (v : val) : res (list qitem) :=
    match v with
    | VParen _ | VKw _ => match read_name v with Ok (n, o) => Ok [QF n o None] | Err e => Err e end
    | VMap d =>
        mapR (fun '(k, w) =>
                match read_name k with
                | Err e => Err e
                | Ok (n, o) =>
                    match w with
                    | VVec l =>
                        match mapR simple_member l with
                        | Ok qs => let m := merge [QN (concat qs) false] in Ok (QL n (qfields m) (qordered m) o None)
                        | Err e => Err e
                        end
                    | _ => Err TypeError
                    end
                end) d
    | _ => Err TypeError
    end.
  Definition simple_transform (v : val) : res qnode :=
    match v with
    | VVec l => match mapR simple_member l with Ok qs => Ok (merge [QN (concat qs) false]) | Err e => Err e end
    | _ => Err TypeError
    end.
  (** readers/simple.py:69-84 [read] *)
  Definition simple_read `{PyText} (th : str -> option (val -> res val)) (t : str) : res qnode :=
    match loads th t with Ok v => simple_transform v | Err e => Err e end.
End simple.

(** ** Protocol Buffers *)
(** Messages of hiku/protobuf/query.proto and of google.protobuf.Struct.  Their encoding in
    bytes is not modelled. *)
Inductive pbval := PNull | PNum (v : val) | PStr (x : str) | PBool (b : bool)
                 | PList (l : list pbval) | PStruct (d : list (str * pbval)).
Inductive pbitem :=
| PField (name : str) (o : option (list (str * pbval)))
| PLink (name : str) (node : list pbitem) (o : option (list (str * pbval)))
| PEmpty.
(** What is not fixed by the library: how a number is given back (it is stored as a double);
    in which order the entries of a map come; whether an empty struct counts as set. *)
Class Protobuf := {
  pb_num : val -> val;
  pb_order : list (str * val) -> list (str * val);
  pb_empty_set : bool;
  pb_order_perm : forall d, pb_order d ≡ₚ d;
}.
Section protobuf.
  Context `{Protobuf}.
  (** google.protobuf.json_format.ParseDict into a Struct; other values raise ParseError *)
  Fixpoint pb_value (v : val) : res pbval :=
    match v with
    | VNone => Ok PNull
    | VBool b => Ok (PBool b)
    | VInt _ | VFloat _ _ => Ok (PNum v)
    | VStr x | VKw x | VSym x => Ok (PStr x)
    | VList l => match mapR pb_value l with Ok l' => Ok (PList l') | Err e => Err e end
    | VDict d | VMap d =>
        match mapR (fun '(k, w) => match key_of k with
                                   | Err e => Err e
                                   | Ok x => match pb_value w with Ok w' => Ok (x, w') | Err e => Err e end
                                   end) d with
        | Ok d' => Ok (PStruct d')
        | Err e => Err e
        end
    | _ => Err (UserErr 0)
    end.
  Definition pb_options (o : opts) : res (option (list (str * pbval))) :=
    match o with
    | None => Ok None
    | Some d => match pb_value (opts_val d) with
                | Ok (PStruct d') => Ok (match d' with [] => if pb_empty_set then Some [] else None | _ => Some d' end)
                | Ok _ => Ok None
                | Err e => Err e
                end
    end.
  (** export/protobuf.py:7-39 [Exporter], [export] *)
  Fixpoint pb_item (q : qitem) : res pbitem :=
    match q with
    | QF n o _ => match pb_options o with Ok po => Ok (PField n po) | Err e => Err e end
    | QL n sub _ o _ =>
        match pb_options o with
        | Err e => Err e
        | Ok po => match mapR pb_item sub with Ok l => Ok (PLink n l po) | Err e => Err e end
        end
    end.
  Definition pb_export (n : qnode) : res (list pbitem) := mapR pb_item (qfields n).

  (** google.protobuf.json_format.MessageToDict *)
  Fixpoint pb_back (p : pbval) : val :=
    match p with
    | PNull => VNone
    | PNum v => pb_num v
    | PStr x => VStr x
    | PBool b => VBool b
    | PList l => VList (map pb_back l)
    | PStruct d => opts_val (pb_order (map (fun '(k, w) => (k, pb_back w)) d))
    end.
  Definition pb_back_options (o : option (list (str * pbval))) : opts :=
    match o with None => None | Some d => Some (pb_order (map (fun '(k, w) => (k, pb_back w)) d)) end.
  (** readers/protobuf.py:14-36 [_transform] *)
  Fixpoint pb_read_item (p : pbitem) : res qitem :=
    match p with
    | PField n o => if decide (n = []) then Err TypeError else Ok (QF n (pb_back_options o) None)
    | PLink n node o =>
        if decide (n = []) then Err TypeError
        else match mapR pb_read_item node with Ok l => Ok (QL n l false (pb_back_options o) None) | Err e => Err e end
    | PEmpty => Err TypeError
    end.
  (** readers/protobuf.py:39-40 [transform] *)
  Definition pb_transform `{Hasher} (node : list pbitem) : res qnode :=
    match mapR pb_read_item node with Ok l => Ok (merge [QN l false]) | Err e => Err e end.
End protobuf.

(** ** GraphQL *)
(** export/graphql.py:10-29 [_encode]; numbers are given by their value, edn.Keyword and
    edn.Symbol as text *)
Fixpoint gql_encode (v : val) : res gval :=
  match v with
  | VNone => Ok GNull
  | VBool b => Ok (GBool b)
  | VInt z => Ok (GInt z)
  | VFloat m e => Ok (GFloat m e)
  | VStr x | VKw x | VSym x => Ok (GStr x)
  | VList l => match mapR gql_encode l with Ok l' => Ok (GList l') | Err e => Err e end
  | VDict d | VMap d =>
      match mapR (fun '(k, w) => match key_of k with
                                 | Err e => Err e
                                 | Ok x => match gql_encode w with Ok w' => Ok (x, w') | Err e => Err e end
                                 end) d with
      | Ok d' => Ok (GObj d')
      | Err e => Err e
      end
  | _ => Err TypeError
  end.
(** export/graphql.py:35-38, 46-49: no arguments for absent and for empty options *)
Definition gql_args (o : opts) : res (list (str * gval)) :=
  match o with
  | None => Ok []
  | Some d => mapR (fun '(k, w) => match gql_encode w with Ok w' => Ok (k, w') | Err e => Err e end) d
  end.
(** export/graphql.py:32-72 [Exporter], [export] *)
Fixpoint gql_item (q : qitem) : res sel :=
  match q with
  | QF n o a => match gql_args o with Ok args => Ok (SField a n args [] None) | Err e => Err e end
  | QL n sub _ o a =>
      match gql_args o with
      | Err e => Err e
      | Ok args => match mapR gql_item sub with Ok l => Ok (SField a n args [] (Some l)) | Err e => Err e end
      end
  end.
Definition gql_export (n : qnode) : res (list gdef) :=
  match mapR gql_item (qfields n) with Ok l => Ok [DOp (OpDef OQuery None [] l)] | Err e => Err e end.

(** hiku/validate/query.py and hiku/validate/graph.py *)
From Verif Require Export Base Val Types Query Graph Result.

(** ** validate/query.py *)
(** The messages of the validator, in a structured form.  Nodes are given by their name,
    [None] is the root. *)
Inductive why := WType | WUnknown (keys : list val) | WMissing (keys : list str).
Inductive verr :=
| ENoField (node : option str) (name : str)            (** 'Field "{}" is not implemented in the "{}" node' *)
| ENoLink (node : option str) (name : str)             (** 'Link "{}" is not implemented in the "{}" node' *)
| ELinkAsField (node : option str) (name : str)        (** 'Trying to query "{}.{}" link as it was a field' *)
| EFieldAsNode (node : option str) (name : str)        (** 'Trying to query "{}.{}" simple field as node' *)
| EUnknownOptions (node : option str) (name : str) (opts : list str)
| ERequiredOption (node : option str) (name : str) (opt : str)
| EInvalidOption (node : option str) (name : str) (opt : str) (w : why)
| ESameKey (node : option str) (key : str)             (** 'Found distinct fields with the same resulting name' *)
| EPartUnknown (name : str)                            (** 'Unknown field name "{}"' *)
| EPartOptions                                         (** 'Options are not expected' *)
| EPartIsLink (name : str)                             (** 'Trying to query "{}" link as it was a field' *)
| EPartNotLink (name : str).                           (** '"{}" is not a link' *)

(** Running out of [fuel] is Python's RecursionError: [fuel] is the depth of calls left. *)

(** validate/query.py:14-50 [_AssumeRecord(data_types).visit(t)]; [nested] is [_nested] *)
Fixpoint assume_record (fuel : nat) (dt : dict str ty) (nested : bool) (t : ty) : res (option (list (str * ty))) :=
  match fuel with
  | O => Err OutOfFuel
  | S k =>
      match t with
      | TOpt t' | TSeq t' => if nested then Ok None else assume_record k dt true t'
      | TRec fs => Ok (Some fs)
      | TRef n => match dget n dt with None => Err KeyError | Some t' => assume_record k dt nested t' end
      | _ => Ok None
      end
  end.
Definition assume_record_of (fuel : nat) (dt : dict str ty) (t : option ty) : res (option (list (str * ty))) :=
  match t with None => Ok None | Some t => assume_record fuel dt false t end.

(** What a check of an option value may end with: success, [_OptionError], another exception *)
Inductive chk := COk | CBad (w : why) | CExn (e : exn).
(** Checks made one after another, the first failure ends them *)
Fixpoint chk_all (l : list chk) : chk :=
  match l with
  | [] => COk
  | c :: l' => match c with COk => chk_all l' | _ => c end
  end.
(** [isinstance(v, Mapping)] and its items *)
Definition map_of (v : val) : option (list (val * val)) :=
  match v with VDict d | VMap d => Some d | _ => None end.

(** validate/query.py:89-167 [_OptionTypeValidator(data_types, v).visit(t)].  bool is a
    subclass of int in Python, str and its subclasses are sequences of their characters.
    There is no [visit_callable]. *)
Fixpoint opt_check (fuel : nat) (dt : dict str ty) (t : ty) (v : val) {struct fuel} : chk :=
  match fuel with
  | O => CExn OutOfFuel
  | S k =>
      match t with
      | TAny => COk
      | TBool => match v with VBool _ => COk | _ => CBad WType end
      | TStr => match v with VStr _ | VKw _ | VSym _ => COk | _ => CBad WType end
      | TInt => match v with VInt _ | VBool _ => COk | _ => CBad WType end
      | TFloat => match v with VFloat _ _ => COk | _ => CBad WType end
      | TOpt t' => match v with VNone => COk | _ => opt_check k dt t' v end
      | TSeq t' =>
          match seq_of v with
          | None => CBad WType
          | Some l => chk_all (map (opt_check k dt t') l)
          end
      | TMap tk tv =>
          match map_of v with
          | None => CBad WType
          | Some d => chk_all (flat_map (fun p => [opt_check k dt tk p.1; opt_check k dt tv p.2]) d)
          end
      | TRec fs =>
          match map_of v with
          | None => CBad WType
          | Some d =>
              match List.filter (fun x => negb (bool_decide (x ∈ map (fun p => VStr p.1) fs))) (map fst d) with
              | u :: us => CBad (WUnknown (u :: us))
              | [] =>
                  match List.filter (fun x => negb (bool_decide (VStr x ∈ map fst d))) (map fst fs) with
                  | m :: ms => CBad (WMissing (m :: ms))
                  | [] => chk_all (map (fun p => match dget (VStr p.1) d with
                                                 | Some w => opt_check k dt p.2 w
                                                 | None => CExn KeyError
                                                 end) fs)
                  end
              end
          end
      | TRef n => match dget n dt with None => CExn AssertionError | Some t' => opt_check k dt t' v end
      | TCall _ => CExn AttributeError
      end
  end.

(** validate/query.py:186-203 [_ValidateOptions.visit_option] *)
Definition check_option (fuel : nat) (dt : dict str ty) (node : option str) (name : str) (o : opts) (d : goption)
  : res (list verr) :=
  match (match dget (go_name d) (opt_dict o) with Some v => v | None => go_default d end) with
  | VNothing => Ok [ERequiredOption node name (go_name d)]
  | v =>
      match go_type d with
      | None => Ok []
      | Some t => match opt_check fuel dt t v with
                  | COk => Ok []
                  | CBad w => Ok [EInvalidOption node name (go_name d) w]
                  | CExn e => Err e
                  end
      end
  end.
Definition concatR {A} (l : res (list (list A))) : res (list A) :=
  match l with Ok x => Ok (concat x) | Err e => Err e end.
(** validate/query.py:170-186 [_ValidateOptions(...).visit(obj)] for a field or a link *)
Definition check_options (fuel : nat) (dt : dict str ty) (node : option str) (name : str) (o : opts) (ds : list goption)
  : res (list verr) :=
  match concatR (mapR (check_option fuel dt node name o) ds) with
  | Err e => Err e
  | Ok errs =>
      match List.filter (fun x => negb (bool_decide (x ∈ map go_name ds))) (map fst (opt_dict o)) with
      | [] => Ok errs
      | us => Ok (errs ++ [EUnknownOptions node name us])
      end
  end.

(** validate/query.py:212-246 [_RecordFieldsValidator(data_types, fs, errors).visit(q)] *)
Fixpoint check_part (fuel : nat) (dt : dict str ty) (fs : list (str * ty)) (q : qitem) {struct q} : res (list verr) :=
  match q with
  | QF n o _ =>
      match dget n fs with
      | None => Ok [EPartUnknown n]
      | Some t =>
          match o with
          | Some _ => Ok [EPartOptions]
          | None => match assume_record fuel dt false t with
                    | Err e => Err e
                    | Ok (Some (_ :: _)) => Ok [EPartIsLink n]
                    | Ok _ => Ok []
                    end
          end
      end
  | QL n sub _ _ _ =>
      match dget n fs with
      | None => Err KeyError
      | Some t =>
          match assume_record fuel dt false t with
          | Err e => Err e
          | Ok (Some fs') => concatR (mapR (check_part fuel dt fs') sub)
          | Ok None => Ok [EPartNotLink n]
          end
      end
  end.

(** Python's [a == b] on options *)
Definition opts_eqb (a b : opts) : bool :=
  match a, b with
  | None, None => true
  | Some d, Some d' => py_eqb (opts_val d) (opts_val d')
  | _, _ => false
  end.
(** validate/query.py:249-250 [_field_eq] *)
Definition field_eqb (a b : qitem) : bool := bool_decide (q_name a = q_name b) && opts_eqb (q_opts a) (q_opts b).

(** validate/query.py:312-325 [QueryValidator.visit_node], where [visit] checks a member *)
Definition check_node (visit : qitem -> res (list verr)) (node : option str) (qs : list qitem) : res (list verr) :=
  (fix go (seen : dict str qitem) (qs : list qitem) : res (list verr) :=
     match qs with
     | [] => Ok []
     | q :: qs' =>
         let '(errs, seen') :=
           match dget (result_key q) seen with
           | Some q' => (if field_eqb q q' then [] else [ESameKey node (result_key q)], seen)
           | None => ([], dset (result_key q) q seen)
           end in
         match visit q with
         | Err e => Err e
         | Ok errs2 => match go seen' qs' with Err e => Err e | Ok errs3 => Ok (errs ++ errs2 ++ errs3) end
         end
     end) [] qs.

(** validate/query.py:253-310 [QueryValidator.visit_field], [QueryValidator.visit_link]; the
    top of [self.path] is [gn] *)
Fixpoint check_item (fuel : nat) (g : graph) (gn : gnode) (q : qitem) {struct q} : res (list verr) :=
  match q with
  | QF n o _ =>
      match find_field gn n with
      | None => Ok [ENoField (gn_name gn) n]
      | Some (GL _) => Ok [ELinkAsField (gn_name gn) n]
      | Some (GF f) => check_options fuel (g_dtypes g) (gn_name gn) n o (gf_opts f)
      end
  | QL n sub _ o _ =>
      match find_field gn n with
      | None => Ok [ENoLink (gn_name gn) n]
      | Some (GF f) =>
          match check_options fuel (g_dtypes g) (gn_name gn) n o (gf_opts f) with
          | Err e => Err e
          | Ok errs =>
              match assume_record_of fuel (g_dtypes g) (gf_type f) with
              | Err e => Err e
              | Ok None => Ok (errs ++ [EFieldAsNode (gn_name gn) n])
              | Ok (Some fs) => match concatR (mapR (check_part fuel (g_dtypes g) fs) sub) with
                                | Err e => Err e | Ok errs2 => Ok (errs ++ errs2) end
              end
          end
      | Some (GL l) =>
          match find_node g (gl_node l) with
          | None => Err KeyError
          | Some gn' =>
              match check_options fuel (g_dtypes g) (gn_name gn) n o (gl_opts l) with
              | Err e => Err e
              | Ok errs =>
                  match check_node (check_item fuel g gn') (gn_name gn') sub with
                  | Err e => Err e | Ok errs2 => Ok (errs ++ errs2) end
              end
          end
      end
  end.
(** validate/query.py:328-331 [validate] *)
Definition validate (fuel : nat) (g : graph) (q : qnode) : res (list verr) :=
  check_node (check_item fuel g (g_root g)) (gn_name (g_root g)) (qfields q).

(** ** validate/graph.py *)
Inductive gerr :=
| GMissingNode (node : option str) (link : str) (to : str)     (** 'Link "{}" points to the missing node "{}"' *)
| GMissingField (node : option str) (link : str) (field : str) (** 'Link "{}" requires missing field "{}" ...' *)
| GDupFields (node : option str) (names : list str)            (** 'Duplicated names found in the "{}" node' *)
| GDupNodes (names : list str).                                (** 'Duplicated nodes found in the graph' *)

(** validate/graph.py:65-67 [_get_duplicates]: the names which occur more than once *)
Fixpoint once (l : list str) : list str :=
  match l with [] => [] | x :: l' => x :: List.filter (fun y => negb (bool_decide (x = y))) (once l') end.
Definition duplicates (l : list str) : list str :=
  List.filter (fun x => (1 <? count_occ str_eq_dec l x)%nat) (once l).

Definition node_names (items : list gnode) : list str := omap gn_name items.
(** validate/graph.py:82-107 [GraphValidator.visit_link]; that all the objects have the types
    they must have is taken for granted. *)
Definition gcheck_item (items : list gnode) (gn : gnode) (x : gitem) : list gerr :=
  match x with
  | GF _ => []
  | GL l =>
      (if bool_decide (gl_node l ∈ node_names items) then [] else [GMissingNode (gn_name gn) (gl_name l) (gl_node l)]) ++
      match gl_requires l with
      | Some r => match find_field gn r with Some _ => [] | None => [GMissingField (gn_name gn) (gl_name l) r] end
      | None => []
      end
  end.
(** validate/graph.py:109-131 [GraphValidator.visit_node], [visit_root] *)
Definition gcheck_node (items : list gnode) (gn : gnode) : list gerr :=
  flat_map (gcheck_item items gn) (gn_fields gn) ++
  match duplicates (map gi_name (gn_fields gn)) with [] => [] | ds => [GDupFields (gn_name gn) ds] end.
(** validate/graph.py:136-162 [GraphValidator.visit_graph_items] *)
Definition gvalidate (items : list gnode) : list gerr :=
  gcheck_node items (g_root (Graph items [])) ++
  flat_map (gcheck_node items) (List.filter (fun n => match gn_name n with None => false | Some _ => true end) items) ++
  match duplicates (node_names items) with [] => [] | ds => [GDupNodes ds] end.
(** graph.py:348-355 [Graph.__init__]: [Graph(items, data_types)] or GraphValidationError,
    which is a TypeError *)
Definition new_graph (items : list gnode) (dt : dict str ty) : res graph :=
  match gvalidate items with [] => Ok (Graph items dt) | _ => Err TypeError end.

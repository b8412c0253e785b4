(** What validation is for: queries and option values which fit a graph, well-formed graphs.
    Independent of the validators. *)
From Verif Require Import Base Val Types Query Graph Result EngineSpec.

(** ** Option values *)
(** The items of a sequence in Python's sense: texts are sequences of their characters. *)
Definition seq_items_of (v : val) (l : list val) : Prop := seq_of v = Some l.
Definition mapping_of (v : val) (d : list (val * val)) : Prop := v = VDict d \/ v = VMap d.

(** [v] conforms to the type [t]; [dt] are the data types of the graph.  As everywhere in
    Python a bool is an int, and keywords and symbols are texts. *)
Inductive conforms (dt : dict str ty) : ty -> val -> Prop :=
| cf_any v : conforms dt TAny v
| cf_bool b : conforms dt TBool (VBool b)
| cf_str x : conforms dt TStr (VStr x)
| cf_kw x : conforms dt TStr (VKw x)
| cf_sym x : conforms dt TStr (VSym x)
| cf_int z : conforms dt TInt (VInt z)
| cf_int_bool b : conforms dt TInt (VBool b)
| cf_float m e : conforms dt TFloat (VFloat m e)
| cf_none t : conforms dt (TOpt t) VNone
| cf_some t v : conforms dt t v -> conforms dt (TOpt t) v
| cf_seq t v l : seq_items_of v l -> (forall x, x ∈ l -> conforms dt t x) -> conforms dt (TSeq t) v
| cf_map tk tv v d : mapping_of v d ->
    (forall k x, (k, x) ∈ d -> conforms dt tk k) -> (forall k x, (k, x) ∈ d -> conforms dt tv x) ->
    conforms dt (TMap tk tv) v
| cf_rec fs v d : mapping_of v d ->
    (forall k, k ∈ map fst d <-> exists n, k = VStr n /\ n ∈ map fst fs) ->
    (forall n t x, (n, t) ∈ fs -> dget (VStr n) d = Some x -> conforms dt t x) ->
    conforms dt (TRec fs) v
| cf_ref n t v : dget n dt = Some t -> conforms dt t v -> conforms dt (TRef n) v.

(** Following the references of the type ends, at defined types.  [calls]: callables may
    occur. *)
Inductive finite_ty (dt : dict str ty) (calls : bool) : ty -> Prop :=
| ft_any : finite_ty dt calls TAny
| ft_bool : finite_ty dt calls TBool
| ft_str : finite_ty dt calls TStr
| ft_int : finite_ty dt calls TInt
| ft_float : finite_ty dt calls TFloat
| ft_opt t : finite_ty dt calls t -> finite_ty dt calls (TOpt t)
| ft_seq t : finite_ty dt calls t -> finite_ty dt calls (TSeq t)
| ft_map tk tv : finite_ty dt calls tk -> finite_ty dt calls tv -> finite_ty dt calls (TMap tk tv)
| ft_rec fs : (forall n t, (n, t) ∈ fs -> finite_ty dt calls t) -> finite_ty dt calls (TRec fs)
| ft_call l : calls = true -> finite_ty dt calls (TCall l)
| ft_ref n t : dget n dt = Some t -> finite_ty dt calls t -> finite_ty dt calls (TRef n).

(** ** Queries *)
(** [holds dt t (Some fs)]: values of the type hold records with the fields [fs]: a record,
    an optional record or a sequence of records ([holds dt t None]: they don't). *)
Inductive record_ty (dt : dict str ty) : ty -> option (list (str * ty)) -> Prop :=
| rt_rec fs : record_ty dt (TRec fs) (Some fs)
| rt_ref n t r : dget n dt = Some t -> record_ty dt t r -> record_ty dt (TRef n) r
| rt_other t : match t with TRec _ | TRef _ => False | _ => True end -> record_ty dt t None.
Inductive holds (dt : dict str ty) : ty -> option (list (str * ty)) -> Prop :=
| ho_rec fs : holds dt (TRec fs) (Some fs)
| ho_ref n t r : dget n dt = Some t -> holds dt t r -> holds dt (TRef n) r
| ho_opt t r : record_ty dt t r -> holds dt (TOpt t) r
| ho_seq t r : record_ty dt t r -> holds dt (TSeq t) r
| ho_other t : match t with TRec _ | TRef _ | TOpt _ | TSeq _ => False | _ => True end -> holds dt t None.

Definition given_value (d : goption) (o : opts) : val :=
  match dget (go_name d) (opt_dict o) with Some v => v | None => go_default d end.
(** The options given fit those declared. *)
Definition fits_options (dt : dict str ty) (ds : list goption) (o : opts) : Prop :=
  (forall d, d ∈ ds -> given_value d o <> VNothing /\
     match go_type d with Some t => conforms dt t (given_value d o) | None => True end) /\
  (forall n, n ∈ map fst (opt_dict o) -> n ∈ map go_name ds).

(** A selection inside of a field which holds records *)
Fixpoint fits_part (dt : dict str ty) (fs : list (str * ty)) (q : qitem) {struct q} : Prop :=
  match q with
  | QF n o _ => o = None /\ exists t r, dget n fs = Some t /\ holds dt t r /\ (r = None \/ r = Some [])
  | QL n sub _ _ _ => exists t fs', dget n fs = Some t /\ holds dt t (Some fs') /\ foldr (fun q P => fits_part dt fs' q /\ P) True sub
  end.

(** Two members ask for the same: the same name and equal options *)
Definition same_options (a b : opts) : Prop :=
  match a, b with
  | None, None => True
  | Some d, Some d' => py_eqb (opts_val d) (opts_val d') = true
  | _, _ => False
  end.
Definition unambiguous (qs : list qitem) : Prop :=
  forall a b, a ∈ qs -> b ∈ qs -> result_key a = result_key b -> q_name a = q_name b /\ same_options (q_opts a) (q_opts b).

Fixpoint fits (g : graph) (gn : gnode) (q : qitem) {struct q} : Prop :=
  match q with
  | QF n o _ => exists f, find_field gn n = Some (GF f) /\ fits_options (g_dtypes g) (gf_opts f) o
  | QL n sub _ o _ =>
      match find_field gn n with
      | None => False
      | Some (GF f) =>
          fits_options (g_dtypes g) (gf_opts f) o /\
          exists t fs, gf_type f = Some t /\ holds (g_dtypes g) t (Some fs) /\ foldr (fun q P => fits_part (g_dtypes g) fs q /\ P) True sub
      | Some (GL l) =>
          fits_options (g_dtypes g) (gl_opts l) o /\
          exists gn', find_node g (gl_node l) = Some gn' /\ unambiguous sub /\ foldr (fun q P => fits g gn' q /\ P) True sub
      end
  end.
Definition fits_query (g : graph) (q : qnode) : Prop :=
  unambiguous (qfields q) /\ forall q0, q0 ∈ qfields q -> fits g (g_root g) q0.

(** Links inside of selections of record fields name fields of the records. *)
Fixpoint part_links_known (dt : dict str ty) (fs : list (str * ty)) (q : qitem) {struct q} : Prop :=
  match q with
  | QF _ _ _ => True
  | QL n sub _ _ _ => n ∈ map fst fs /\
      forall t fs', dget n fs = Some t -> holds dt t (Some fs') -> foldr (fun q P => part_links_known dt fs' q /\ P) True sub
  end.
Fixpoint links_known (g : graph) (gn : gnode) (q : qitem) {struct q} : Prop :=
  match q with
  | QF _ _ _ => True
  | QL n sub _ _ _ =>
      match find_field gn n with
      | Some (GF f) => forall t fs, gf_type f = Some t -> holds (g_dtypes g) t (Some fs) ->
          foldr (fun q P => part_links_known (g_dtypes g) fs q /\ P) True sub
      | Some (GL l) => forall gn', find_node g (gl_node l) = Some gn' -> foldr (fun q P => links_known g gn' q /\ P) True sub
      | None => True
      end
  end.

(** The option values of the query are Python values: keys of dicts are distinct. *)
Definition options_of (q : qitem) : val := opts_val (opt_dict (q_opts q)).

(** ** Graphs *)
(** The members of one node: named differently, links lead to nodes of the graph, their
    requirements are members of the same node. *)
Definition well_formed_node (names : list str) (fields : list gitem) : Prop :=
  NoDup (map gi_name fields) /\
  forall l, GL l ∈ fields -> gl_node l ∈ names /\
    match gl_requires l with Some r => r ∈ map gi_name fields | None => True end.
(** All [Root] items together make one node. *)
Definition root_fields (items : list gnode) : list gitem :=
  flat_map (fun n => match gn_name n with None => gn_fields n | Some _ => [] end) items.
Definition names_of_nodes (items : list gnode) : list str :=
  flat_map (fun n => match gn_name n with None => [] | Some x => [x] end) items.
Definition well_formed (items : list gnode) : Prop :=
  NoDup (names_of_nodes items) /\
  well_formed_node (names_of_nodes items) (root_fields items) /\
  forall n x, n ∈ items -> gn_name n = Some x -> well_formed_node (names_of_nodes items) (gn_fields n).

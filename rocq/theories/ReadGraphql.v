(** hiku/readers/graphql.py: from parsed GraphQL documents to queries.  [graphql.language]
    (the parser) is not modelled: documents are given as syntax trees. *)
From Verif Require Export Base Val Query.

(** ** Syntax trees, as far as the reader looks at them *)
(** Values.  Numbers are given by their value, not by their text. *)
Inductive gval :=
| GVar (n : str)
| GNull
| GInt (z : Z)
| GFloat (m e : Z)
| GStr (x : str)
| GBool (b : bool)
| GEnum (x : str)
| GList (l : list gval)
| GObj (l : list (str * gval)).
Record gdir := GDir { gd_name : str; gd_args : list (str * gval) }.
(** Selections: fields, fragment spreads, inline fragments (type conditions are ignored by the
    reader and not modelled). *)
Inductive sel :=
| SField (alias : option str) (name : str) (args : list (str * gval)) (ds : list gdir) (sub : option (list sel))
| SSpread (name : str) (ds : list gdir)
| SInline (ds : list gdir) (sub : list sel).
Definition sel_dirs (x : sel) : list gdir :=
  match x with SField _ _ _ ds _ => ds | SSpread _ ds => ds | SInline ds _ => ds end.
Record vardef := VarDef { vd_name : str; vd_default : option gval; vd_nonnull : bool }.
Inductive optype := OQuery | OMutation | OSubscription.
Record opdef := OpDef { od_type : optype; od_name : option str; od_vars : list vardef; od_sels : list sel }.
(** Definitions of a document; [DOther]: type system definitions, for which visitors have no
    method. *)
Inductive gdef := DOp (o : opdef) | DFrag (name : str) (sels : list sel) | DOther.

(** ** Errors *)
Inductive rerr :=
| RUnknownDef | RNoOperations | RManyOperations | RDupOperation (n : option str) | RUndefOperation (n : str)
| RNotQuery | RDupFragment (n : str) | RNoFragment (n : str) | RCyclic (n : str)
| RUndefVar (n : str) | RNoVar (n : str) | RDirArgs (d : str) | RDirArg (d : str) (arg : str) | RFuel.
(** The class of the exception raised *)
Definition exn_of (e : rerr) : exn :=
  match e with
  | RUnknownDef => AttributeError
  | RUndefOperation _ => ValueError
  | RNoFragment _ => KeyError
  | RFuel => OutOfFuel
  | _ => TypeError
  end.
Inductive rr (A : Type) := ROk (a : A) | RErr (e : rerr).
Global Arguments ROk {A} _. Global Arguments RErr {A} _.
Definition rbind {A B} (x : rr A) (f : A -> rr B) : rr B := match x with ROk a => f a | RErr e => RErr e end.
Definition rmap {A B} (f : A -> rr B) : list A -> rr (list B) :=
  fix go (l : list A) : rr (list B) :=
    match l with [] => ROk [] | x :: l' => rbind (f x) (fun y => rbind (go l') (fun ys => ROk (y :: ys))) end.

(** Python's [bool(v)] *)
Definition truthy (v : val) : bool :=
  match v with
  | VNone => false
  | VBool b => b
  | VInt z => negb (Z.eqb z 0)
  | VFloat m _ => negb (Z.eqb m 0)
  | VStr x | VKw x | VSym x => match x with [] => false | _ => true end
  | VList l | VTuple l | VVec l | VParen l | VSet l => match l with [] => false | _ => true end
  | VDict d | VMap d => match d with [] => false | _ => true end
  | VTag _ _ | VNothing | VObj _ => true
  end.

(** ** OperationGetter (readers/graphql.py:45-76) *)
Fixpoint collect_ops (acc : dict (option str) opdef) (ds : list gdef) : rr (dict (option str) opdef) :=
  match ds with
  | [] => ROk acc
  | DOther :: _ => RErr RUnknownDef
  | DFrag _ _ :: ds' => collect_ops acc ds'
  | DOp o :: ds' =>
      match dget (od_name o) acc with
      | Some _ => RErr (RDupOperation (od_name o))
      | None => collect_ops (dset (od_name o) o acc) ds'
      end
  end.
Definition get_operation (doc : list gdef) (name : option str) : rr opdef :=
  rbind (collect_ops [] doc) (fun ops =>
    match ops with
    | [] => RErr RNoOperations
    | (_, o) :: more =>
        match name with
        | None => match more with [] => ROk o | _ => RErr RManyOperations end
        | Some n => match dget (Some n) ops with Some o' => ROk o' | None => RErr (RUndefOperation n) end
        end
    end).

(** ** FragmentsCollector (readers/graphql.py:79-91) *)
Fixpoint collect_frags (acc : dict str (list sel)) (ds : list gdef) : rr (dict str (list sel)) :=
  match ds with
  | [] => ROk acc
  | DOther :: _ => RErr RUnknownDef
  | DOp _ :: ds' => collect_frags acc ds'
  | DFrag n l :: ds' =>
      match dget n acc with
      | Some _ => RErr (RDupFragment n)
      | None => collect_frags (dset n l acc) ds'
      end
  end.

(** ** SelectionSetVisitMixin (readers/graphql.py:94-204) *)
Section visit.
  Context (vars : dict str val).

  (** readers/graphql.py:107-112, 171-199 [visit_variable], [visit_int_value], ... *)
  Fixpoint visit_value (v : gval) : rr val :=
    match v with
    | GVar n => match dget n vars with Some w => ROk w | None => RErr (RUndefVar n) end
    | GNull => ROk VNone
    | GInt z => ROk (VInt z)
    | GFloat m e => ROk (VFloat m e)
    | GStr x | GEnum x => ROk (VStr x)
    | GBool b => ROk (VBool b)
    | GList l => rbind (rmap visit_value l) (fun ws => ROk (VList ws))
    | GObj l => rbind (rmap (fun '(k, u) => rbind (visit_value u) (fun w => ROk (k, w))) l)
                      (fun ps => ROk (opts_val (of_pairs ps)))
    end.
  (** readers/graphql.py:153-157: the options of a field *)
  Definition visit_args (args : list (str * gval)) : rr opts :=
    match args with
    | [] => ROk None
    | _ => rbind (rmap (fun '(k, u) => rbind (visit_value u) (fun w => ROk (k, w))) args) (fun ps => ROk (Some (of_pairs ps)))
    end.

  (** readers/graphql.py:119-148 [_should_skip] *)
  Definition find_dir (name : str) (ds : list gdir) : option gdir := List.find (fun d => bool_decide (gd_name d = name)) ds.
  Definition cond_value (d : gdir) : rr val :=
    match gd_args d with
    | [(n, v)] => if bool_decide (n = s "if") then visit_value v else RErr (RDirArg (gd_name d) n)
    | _ => RErr (RDirArgs (gd_name d))
    end.
  Definition should_skip (ds : list gdir) : rr bool :=
    match find_dir (s "skip") ds with
    | Some d => rbind (cond_value d) (fun v => ROk (truthy v))
    | None =>
        match find_dir (s "include") ds with
        | Some d => rbind (cond_value d) (fun v => ROk (negb (truthy v)))
        | None => ROk false
        end
    end.

  (** [FragmentsTransformer.cache] *)
  Definition fcache := dict str (list qitem).
  (** readers/graphql.py:114-117, 150-169, 201-216 [visit_selection_set], [visit_field],
      [visit_fragment_spread], [visit_inline_fragment].  Generators are forced right away by
      [list] in all uses.  [frag] is [transform_fragment]; the cache is passed along. *)
  Fixpoint visit_sel (frag : fcache -> str -> rr (list qitem * fcache)) (c : fcache) (x : sel) {struct x}
    : rr (list qitem * fcache) :=
    let visit_sels := fix go (c : fcache) (l : list sel) : rr (list qitem * fcache) :=
      match l with
      | [] => ROk ([], c)
      | y :: l' => rbind (visit_sel frag c y) (fun p => rbind (go p.2 l') (fun p' => ROk (p.1 ++ p'.1, p'.2)))
      end in
    rbind (should_skip (sel_dirs x)) (fun skip =>
      if skip then ROk ([], c) else
      match x with
      | SField alias name args _ sub =>
          rbind (visit_args args) (fun o =>
            match sub with
            | None => ROk ([QF name o alias], c)
            | Some l => rbind (visit_sels c l) (fun p => ROk ([QL name p.1 false o alias], p.2))
            end)
      | SSpread n _ => frag c n
      | SInline _ l => visit_sels c l
      end).
  Definition visit_sels (frag : fcache -> str -> rr (list qitem * fcache)) :=
    fix go (c : fcache) (l : list sel) : rr (list qitem * fcache) :=
      match l with
      | [] => ROk ([], c)
      | y :: l' => rbind (visit_sel frag c y) (fun p => rbind (go p.2 l') (fun p' => ROk (p.1 ++ p'.1, p'.2)))
      end.

  Context (frags : dict str (list sel)).
  (** readers/graphql.py:222-251 [FragmentsTransformer.transform_fragment],
      [visit_fragment_definition].  [pending_fragments] is restored by [finally], so it is an
      argument.  [fuel] bounds the nesting of fragments. *)
  Fixpoint transform_fragment (fuel : nat) (pending : list str) (c : fcache) (n : str) : rr (list qitem * fcache) :=
    match fuel with
    | O => RErr RFuel
    | S k =>
        match dget n frags with
        | None => RErr (RNoFragment n)
        | Some sels =>
            match dget n c with
            | Some r => ROk (r, c)
            | None =>
                if decide (n ∈ pending) then RErr (RCyclic n)
                else rbind (visit_sels (transform_fragment k (n :: pending)) c sels)
                           (fun p => ROk (p.1, dset n p.1 p.2))
            end
        end
    end.
End visit.

(** ** GraphQLTransformer (readers/graphql.py:254-303) *)
(** readers/graphql.py:272-288: values of the variables of an operation.  Defaults are constants:
    a variable in them raises [TypeError], as [query_variables] is None at this point. *)
Definition var_value (given : dict str val) (d : vardef) : rr val :=
  match dget (vd_name d) given with
  | Some v => ROk v
  | None => match vd_default d with
            | Some v => visit_value [] v
            | None => if vd_nonnull d then RErr (RNoVar (vd_name d)) else ROk VNone
            end
  end.
Definition query_variables (given : dict str val) (ds : list vardef) : rr (dict str val) :=
  rbind (rmap (fun d => rbind (var_value given d) (fun v => ROk (vd_name d, v))) ds) (fun ps => ROk (of_pairs ps)).
(** The query before [merge] *)
Definition transform_node (doc : list gdef) (o : opdef) (given : dict str val) : rr qnode :=
  rbind (query_variables given (od_vars o)) (fun vars =>
  rbind (collect_frags [] doc) (fun frags =>
  rbind (visit_sels vars (transform_fragment vars frags (S (length frags)) []) [] (od_sels o)) (fun p =>
  ROk (QN p.1 (match od_type o with OMutation => true | _ => false end))))).
Section read.
  Context `{Hasher}.
  Definition transform (doc : list gdef) (o : opdef) (given : dict str val) : rr qnode :=
    rbind (transform_node doc o given) (fun n => ROk (merge [n])).
  (** readers/graphql.py:306-329 [read], after parsing *)
  Definition read (doc : list gdef) (given : dict str val) (name : option str) : rr qnode :=
    rbind (get_operation doc name) (fun o =>
      match od_type o with OQuery => transform doc o given | _ => RErr RNotQuery end).
  (** readers/graphql.py:353-380 [read_operation]: all the operation types are supported *)
  Definition read_operation (doc : list gdef) (given : dict str val) (name : option str)
    : rr (optype * qnode * option str) :=
    rbind (get_operation doc name) (fun o => rbind (transform doc o given) (fun q => ROk (od_type o, q, od_name o))).
End read.

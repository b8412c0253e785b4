(** hiku/expr/core.py: writing expressions ([S], calls of functions made by [define], [each], [if_],
    [if_some]), and hiku/sources/graph.py: taking them into a graph. *)
From Verif Require Import Base Val Types Query Edn Export Expr.

(** ** Nodes (expr/nodes.py:7-64), before they are checked *)
(** [NdVal]: an object which is not a node *)
Inductive node :=
| NdSym (n : str) | NdKw (n : str) | NdTup (l : list node) | NdList (l : list node) | NdDict (l : list node) | NdVal (v : val).

(** ** Functions made by [define] (expr/core.py:83-127) *)
(** [fn_id]: the identity of the function object [expr] (111-113), by which it is a member of sets;
    [fn_name], [fn_args], [fn_body]: [__def_name__], the types in [__def_type__], [__def_body__] (115-125).
    Bodies are given by a name. *)
Record fn := Fn { fn_id : N; fn_name : str; fn_args : list ty; fn_body : str }.
(** expr/core.py:109 the name of a function: [_name or '{}/{}_{}'.format(fn.__module__, fn.__name__, id(fn))] *)
Definition def_name (given : option str) (module name : str) (id : N) : str :=
  match given with
  | Some (c :: n) => c :: n
  | _ => module ++ s "/" ++ name ++ s "_" ++ N_str id
  end.
(** expr/core.py:72-80 [_query_to_types] *)
Fixpoint item_type (q : qitem) : ty :=
  match q with
  | QF _ _ _ => TAny
  | QL _ sub _ _ _ => TRec (of_pairs (map (fun f => (q_name f, item_type f)) sub))
  end.
Definition query_to_types (q : qnode) : ty := TRec (of_pairs (map (fun f => (q_name f, item_type f)) (qfields q))).
Section define.
  Context `{Hasher} `{PyText}.
  (** expr/core.py:120-122: one requirement of the list *)
  Definition text_arg (r : val) : res ty :=
    match r with
    | VNone => Ok TAny
    | _ => match simple_transform r with Ok q => Ok (query_to_types q) | Err e => Err e end
    end.
  (** expr/core.py:118-122: types of arguments given as a text.  Lists in square brackets and in parentheses;
      texts of other things (which are iterated or refused by Python) are not modelled. *)
  Definition text_args (t : str) : res (list ty) :=
    match loads (fun _ => None) t with
    | Ok (VVec l) | Ok (VParen l) => mapR text_arg l
    | Ok _ => Err NotImplementedErr
    | Err e => Err e
    end.
  (** expr/core.py:118-124: what is given to [define] *)
  Inductive annotation := AText (t : str) | ATypes (l : list ty).
  Definition def_args (a : annotation) : res (list ty) := match a with AText t => text_args t | ATypes l => Ok l end.
End define.
(** expr/core.py:130-201: [each], [if_], [if_some]; their bodies only have a docstring.  The numbers stand
    for their identities. *)
Definition each_fn : fn := Fn 0 (s "each") [TAny; TAny; TAny] (s "each").
Definition if_fn : fn := Fn 1 (s "if") [TAny; TAny; TAny] (s "if_").
Definition if_some_fn : fn := Fn 2 (s "if_some") [TAny; TAny; TAny] (s "if_some").

(** ** Writing expressions *)
(** Objects of which expressions are made: [OHandler] is a [_DotHandler] (25-34) with its node, [OFunc] a [_Func] (22, 112-113),
    [ONode] a node itself. *)
Inductive obj :=
| OHandler (e : node) | OFunc (f : fn) (args : list obj) | OList (l : list obj) | ODict (l : list (str * obj))
| ONode (e : node) | OVal (v : val).
(** Attributes which all Python objects of a class without slots have; [__getattr__] is not called for them. *)
Definition object_attrs : list str :=
  [s "__class__"; s "__delattr__"; s "__dict__"; s "__dir__"; s "__doc__"; s "__eq__"; s "__format__"; s "__ge__"; s "__getattr__";
   s "__getattribute__"; s "__getstate__"; s "__gt__"; s "__hash__"; s "__init__"; s "__init_subclass__"; s "__le__"; s "__lt__"; s "__module__"; s "__ne__";
   s "__new__"; s "__reduce__"; s "__reduce_ex__"; s "__repr__"; s "__setattr__"; s "__sizeof__"; s "__str__"; s "__subclasshook__"; s "__weakref__"].
(** expr/core.py:37-40 [_S.__getattr__] *)
Definition s_attr (n : str) : res obj :=
  if bool_decide (n ∈ object_attrs) then Err NotImplementedErr else Ok (OHandler (NdSym n)).
(** expr/core.py:25-34: an attribute of an object.  A [_DotHandler] has the attribute [obj] (28) itself; a [Symbol]
    has a name.  Other attributes of other objects are not modelled. *)
Definition get_attr (o : obj) (n : str) : res obj :=
  match o with
  | OHandler e =>
      if bool_decide (n ∈ object_attrs) then Err NotImplementedErr
      else if bool_decide (n = s "obj") then Ok (ONode e)
      else Ok (OHandler (NdTup [NdSym (s "get"); e; NdSym n]))
  | ONode (NdSym x) => if bool_decide (n = s "name") then Ok (OVal (VStr x)) else Err AttributeError
  | _ => Err AttributeError
  end.

(** What users write *)
Inductive prog :=
| PSym (n : str)                          (* S.n *)
| PAttr (p : prog) (n : str)              (* p.n *)
| PApp (f : fn) (args : list prog)        (* f(args) for a function f made by define *)
| PEach (x : str) (col body : prog)       (* each(S.x, col, body) *)
| PIf (test th el : prog)                 (* if_(test, th, el) *)
| PIfSome (x : str) (bind th el : prog)   (* if_some([S.x, bind], th, el) *)
| PList (l : list prog)
| PDict (l : list (str * prog))
| PVal (v : val).
(** Evaluation by Python, from left to right *)
Fixpoint run (p : prog) : res obj :=
  match p with
  | PSym n => s_attr n
  | PAttr p n => match run p with Ok o => get_attr o n | Err e => Err e end
  | PApp f args => match mapR run args with Ok l => Ok (OFunc f l) | Err e => Err e end
  | PEach x c b =>
      match s_attr x, run c, run b with
      | Ok x', Ok c', Ok b' => Ok (OFunc each_fn [x'; c'; b'])
      | Err e, _, _ | Ok _, Err e, _ | Ok _, Ok _, Err e => Err e
      end
  | PIf a b c =>
      match run a, run b, run c with
      | Ok a', Ok b', Ok c' => Ok (OFunc if_fn [a'; b'; c'])
      | Err e, _, _ | Ok _, Err e, _ | Ok _, Ok _, Err e => Err e
      end
  | PIfSome x b t e =>
      match s_attr x, run b, run t, run e with
      | Ok x', Ok b', Ok t', Ok e' => Ok (OFunc if_some_fn [OList [x'; b']; t'; e'])
      | Err e, _, _, _ | Ok _, Err e, _, _ | Ok _, Ok _, Err e, _ | Ok _, Ok _, Ok _, Err e => Err e
      end
  | PList l => match mapR run l with Ok l' => Ok (OList l') | Err e => Err e end
  | PDict l =>
      match mapR (fun '(k, p) => match run p with Ok o => Ok (k, o) | Err e => Err e end) l with
      | Ok l' => Ok (ODict l') | Err e => Err e
      end
  | PVal v => Ok (OVal v)
  end.

(** ** Nodes of expressions (expr/core.py:48-69) *)
(** [fn_reg.add] *)
Definition reg_add (f : fn) (reg : list fn) : list fn :=
  if bool_decide (fn_id f ∈ map fn_id reg) then reg else reg ++ [f].
(** expr/core.py:48-63 [_to_expr]; [fn_reg] is passed on *)
Fixpoint to_expr_ (o : obj) (reg : list fn) : node * list fn :=
  let many := fix many (l : list obj) (reg : list fn) : list node * list fn :=
    match l with
    | [] => ([], reg)
    | o :: l' => let '(e, reg1) := to_expr_ o reg in let '(es, reg2) := many l' reg1 in (e :: es, reg2)
    end in
  match o with
  | OHandler e => (e, reg)
  | OFunc f args => let '(es, reg') := many args (reg_add f reg) in (NdTup (NdSym (fn_name f) :: es), reg')
  | OList l => let '(es, reg') := many l reg in (NdList es, reg')
  | ODict l =>
      let '(es, reg') :=
        (fix pairs (l : list (str * obj)) (reg : list fn) : list node * list fn :=
           match l with
           | [] => ([], reg)
           | (k, o) :: l' => let '(e, reg1) := to_expr_ o reg in let '(es, reg2) := pairs l' reg1 in (NdKw k :: e :: es, reg2)
           end) l reg in (NdDict es, reg')
  | ONode e => (e, reg)
  | OVal v => (NdVal v, reg)
  end.
(** expr/core.py:66-69 [to_expr].  The functions are a set, given in any order (theorems take any permutation). *)
Definition to_expr (o : obj) : node * list fn := to_expr_ o [].
(** expr/checker.py:11-12 [fn_types] *)
Definition fn_types (fs : list fn) : list (str * ty) := map (fun f => (fn_name f, TCall (fn_args f))) fs.
(** sources/graph.py:67-68, the environment of the compiled code, of names and bodies *)
Definition fn_bodies (fs : list fn) : dict str str := of_pairs (map (fun f => (fn_name f, fn_body f)) fs).

(** ** Forms *)
(** The checker and the compiler look at tuples by the name of their first symbol (expr/checker.py:78-174,
    expr/compiler.py); [Expr.expr] has one constructor for each form.  [form]: the form of a node; None for tuples and
    dicts which have none (they are refused by the checker's assertions) *)
Fixpoint form (e : node) : option expr :=
  let forms := fix forms (l : list node) : option (list expr) :=
    match l with
    | [] => Some []
    | e :: l' => match form e, forms l' with Some x, Some xs => Some (x :: xs) | _, _ => None end
    end in
  match e with
  | NdSym n => Some (ESym n None)
  | NdKw _ => None
  | NdTup (NdSym f :: args) =>
      if bool_decide (f = s "get") then
        match args with
        | [o; NdSym n] => match form o with Some x => Some (EGet x n None) | None => None end
        | _ => None
        end
      else if bool_decide (f = s "each") then
        match args with
        | [NdSym x; c; b] => match form c, form b with Some c', Some b' => Some (EEach x None c' b') | _, _ => None end
        | _ => None
        end
      else if bool_decide (f = s "if_some") then
        match args with
        | [NdList [NdSym x; b]; t; e] =>
            match form b, form t, form e with Some b', Some t', Some e' => Some (EIfSome x None b' t' e') | _, _, _ => None end
        | _ => None
        end
      else match forms args with Some l => Some (ECall f None l) | None => None end
  | NdTup _ => None
  | NdList l => match forms l with Some l' => Some (EList l') | None => None end
  | NdDict l =>
      match (fix pairs (l : list node) : option (list (str * expr)) :=
               match l with
               | [] => Some []
               | NdKw k :: e :: l' => match form e, pairs l' with Some x, Some xs => Some ((k, x) :: xs) | _, _ => None end
               | _ => None
               end) l with
      | Some l' => Some (EDict l') | None => None
      end
  | NdVal v => Some (EConst v)
  end.

(** ** Fields of graphs *)
Section bound.
  Context `{Hasher}.
  (** sources/graph.py:51-69 [BoundExpr.__postprocess__] with the expression as it was written; [order]: the order in which
      the functions are taken out of the set; nodes without form are refused *)
  Definition bind_obj (order : list fn -> list fn) (types : dict str ty) (fuel : nat) (sub_node : str) (opts : list (str * ty)) (o : obj)
    : res (expr * qnode * (list str * pexpr) * dict str str) :=
    let '(e, reg) := to_expr o in
    match form e with
    | None => Err AssertionError
    | Some x =>
        match bind_field types fuel sub_node (fn_types (order reg)) opts x with
        | Ok r => Ok (r, fn_bodies (order reg))
        | Err e => Err e
        end
    end.
  (** sources/graph.py:103-104 [SubGraph.__postprocess__]: [getattr(S.this, field.name)] *)
  Definition sub_graph_obj (field : str) : res obj := match s_attr THIS with Ok o => get_attr o field | Err e => Err e end.
End bound.

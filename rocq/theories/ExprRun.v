(** Expressions at work: the compiled code called with the results of the sub-graph (hiku/sources/graph.py:15-21,
    51-68), and the environment of the engine made of compiled expressions. *)
From Verif Require Import Base Val Types Query Graph Result Engine.
From Verif Require Expr.

(** What the generated code handles: what can be read from the results of the sub-graph (values, objects, lists of objects),
    functions, and the lists and dictionaries made by the code itself. *)
Inductive pyv :=
| PyT (t : ptree)
| PyF (f : str)
| PyL (l : list pyv)
| PyD (d : list (str * pyv)).
Definition py_val (v : val) : pyv := PyT (PV (IVal v)).
(** [bool(v)] *)
Definition py_true (v : val) : bool :=
  match v with
  | VNone => false
  | VBool b => b
  | VInt z => negb (z =? 0)%Z
  | VFloat m _ => negb (m =? 0)%Z
  | VStr x | VKw x | VSym x => negb (bool_decide (x = []))
  | VList l | VTuple l | VVec l | VParen l | VSet l => negb (Nat.eqb (length l) 0)
  | VDict d | VMap d => negb (Nat.eqb (length d) 0)
  | VTag _ _ | VNothing | VObj _ => true
  end.

Section dom.
  (** The functions of the expressions: [__def_body__] of the functions made by [define] (expr/core.py:78-110) *)
  Context (F : str -> list pyv -> res pyv).
  (** [obj[key]]: result.py:73-101 [Proxy.__getitem__] for objects *)
  Definition py_sub (v : pyv) (k : str) : res pyv :=
    match v with
    | PyT (PO d) => match dget k d with
                    | Some (PX OutOfFuel) => Err AssertionError (* does not occur *)
                    | Some (PX e) => Err e
                    | Some t => Ok (PyT t)
                    | None => Err KeyError
                    end
    | PyT (PV (IVal v)) => match py_getitem v k with Ok w => Ok (py_val w) | Err e => Err e end
    | PyD d => from_opt KeyError (dget k d)
    | _ => Err TypeError
    end.
  (** [for x in obj].  Simplification: of an object (which has [__getitem__] and would be asked for 0) a TypeError. *)
  Definition py_iter (v : pyv) : res (list pyv) :=
    match v with
    | PyT (PLs l) => Ok (map PyT l)
    | PyT (PV (IRefs [])) => Ok []
    | PyT (PV (IVal v)) => match iter_of v with Some l => Ok (map py_val l) | None => Err TypeError end
    | PyL l => Ok l
    | PyD d => Ok (map (fun p => py_val (VStr p.1)) d)
    | _ => Err TypeError
    end.
  Definition py_bool (v : pyv) : bool :=
    match v with
    | PyT (PV (IVal v)) => py_true v
    | PyT (PV (IRefs l)) => negb (Nat.eqb (length l) 0)
    | PyL l => negb (Nat.eqb (length l) 0)
    | PyD d => negb (Nat.eqb (length d) 0)
    | _ => true
    end.
  Definition py_dom : Expr.PyDom := {|
    Expr.D := pyv;
    Expr.d_const := py_val;
    Expr.d_sub := py_sub;
    Expr.d_true := py_bool;
    Expr.d_none := fun v => match v with PyT (PV (IVal VNone)) => true | _ => false end;
    Expr.d_iter := py_iter;
    Expr.d_call := fun f vs => match f with PyF f => F f vs | _ => Err TypeError end;
    Expr.d_list := PyL;
    Expr.d_dict := PyD;
  |}.

  (** The value which is stored.  Simplification: objects of the sub-graph (proxies) in a result are not modelled. *)
  Fixpoint val_of (v : pyv) : res val :=
    match v with
    | PyT (PV (IVal v)) => Ok v
    | PyT (PV (IRefs [])) => Ok (VList [])
    | PyL l => match mapR val_of l with Ok vs => Ok (VList vs) | Err e => Err e end
    | PyD d => match mapR (fun '(k, v) => match val_of v with Ok w => Ok (VStr k, w) | Err e => Err e end) d with
               | Ok vs => Ok (VDict vs)
               | Err e => Err e
               end
    | _ => Err NotImplementedErr
    end.

  (** A compiled expression: the functions it was made with, the names of its arguments and its body
      (sources/graph.py:64-67) *)
  Record proc := Proc { pc_fns : list (str * str); pc_names : list str; pc_body : Expr.pexpr }.
  Definition fn_env (fns : list (str * str)) : pyv := PyD (map (fun '(n, f) => (n, PyF f)) fns).
  (** Values of options: dictionaries, whose order could be told by code, are not modelled. *)
  Fixpoint no_dict (v : val) : bool :=
    match v with
    | VDict _ => false
    | VList l => forallb no_dict l
    | _ => true
    end.
  (** sources/graph.py:18-19 [proc(this, sq_result, *opt_args)] *)
  Definition run_proc (procs : N -> option proc) (pr : N) (this root : ptree) (os : list val) : res val :=
    match procs pr with
    | None => Err NameErr
    | Some p =>
        if forallb no_dict os then
          match @Expr.call_lambda py_dom (pc_names p) (pc_body p) (fn_env (pc_fns p) :: PyT this :: PyT root :: map py_val os) with
          | Ok v => val_of v
          | Err e => Err e
          end
        else Err NotImplementedErr
    end.
End dom.

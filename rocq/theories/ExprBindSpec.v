(** What expressions may look like for their requirements to fit the sub-graph (specification for C53). *)
From Verif Require Import Base Val Types Query Graph Engine CostSpec SubSpec SubWfSpec.
From Verif Require Expr.
Import Expr (EConst, ESym, EGet, EEach, EIfSome, ECall, EList, EDict).

(** The names whose values an expression takes from its surroundings (not the functions it calls) *)
Fixpoint values (e : Expr.expr) : list str :=
  match e with
  | EConst _ => []
  | ESym n _ => [n]
  | EGet o _ _ => values o
  | EEach x _ c b => values c ++ filter (fun n => n <> x) (values b)
  | EIfSome x _ b t e => values b ++ filter (fun n => n <> x) (values t) ++ values e
  | ECall _ _ l | EList l => flat_map values l
  | EDict l => flat_map (fun '(_, e) => values e) l
  end.

(** Records whose members can be told from their types: plain values, records, and sequences of them, or these made
    optional *)
Fixpoint spelled (opt seq : bool) (t : ty) : bool :=
  match t with
  | TBool | TStr | TInt | TFloat => true
  | TRec fs => forallb (fun p => spelled true true p.2) fs
  | TSeq u => seq && spelled false false u
  | TOpt u => opt && spelled false true u
  | _ => false
  end.
(** A parameter of a function: no record at all, or spelled out *)
Fixpoint has_record (t : ty) : bool :=
  match t with TRec _ => true | TSeq u | TOpt u => has_record u | _ => false end.
Definition param_ok (t : ty) : bool := negb (has_record t) || spelled true true t.

(** The record a type stands for: itself, a named one, optional, in a sequence *)
Definition record_of (types : dict str ty) (t : ty) : option (list (str * ty)) :=
  let named u := match u with TRef n => dget n types | _ => Some u end in
  let open u := match u with Some (TOpt v) => named v | _ => u end in
  match open (named t) with
  | Some (TRec fs) => Some fs
  | Some (TSeq i) => match named i with Some (TRec fs) => Some fs | _ => None end
  | _ => None
  end.
(** Fields whose values are records are asked for their parts *)
Definition by_parts (G : graph) (f : gfield) : bool :=
  match gf_type f with Some t => match record_of (g_types G) t with Some _ => true | None => false end | None => false end.
(** No data type of the graph is just another name of a named type *)
Definition no_renaming (G : graph) : Prop := forall n m, dget n (g_types G) <> Some (TRef m).
(** Wherever a function type occurs, its parameters are such *)
Fixpoint params_ok (t : ty) : bool :=
  match t with
  | TCall ts => forallb param_ok ts
  | TOpt u | TSeq u => params_ok u
  | TRec fs => forallb (fun p => params_ok p.2) fs
  | _ => true
  end.

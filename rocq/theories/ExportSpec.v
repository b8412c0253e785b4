(** Specification vocabulary for writing and reading queries. *)
From Verif Require Import Base Val Query QuerySpec.

(** Values which all formats have: null, booleans, numbers, texts, lists, and dicts with
    (different) texts as keys. *)
Inductive json_like : val -> Prop :=
| jl_none : json_like VNone
| jl_bool b : json_like (VBool b)
| jl_int z : json_like (VInt z)
| jl_float m e : json_like (VFloat m e)
| jl_str x : json_like (VStr x)
| jl_list l : Forall json_like l -> json_like (VList l)
| jl_dict (d : list (str * val)) : NoDup (map fst d) -> Forall (fun p => json_like p.2) d -> json_like (opts_val d).
Definition scalar (v : val) : Prop :=
  match v with VNone | VBool _ | VInt _ | VFloat _ _ | VStr _ => True | _ => False end.
(** The options of a member: absent, or a dict with values satisfying [P] *)
Definition options_of (P : val -> Prop) (q : qitem) : Prop :=
  forall d, q_opts q = Some d -> NoDup (map fst d) /\ Forall (fun p => P p.2) d.
(** All the members of a query, at every depth *)
Definition members (P : qitem -> Prop) (n : qnode) : Prop := forall q, occurs q n -> P q.
Definition no_aliases : qnode -> Prop := members (fun q => q_alias q = None).
Definition unordered (n : qnode) : Prop := forall m, level_of m n -> qordered m = false.

(** Queries which differ in nothing but the order of the entries of options and in empty
    options being absent. *)
Inductive same_item : qitem -> qitem -> Prop :=
| si_field n o o' a : same_opts o o' -> same_item (QF n o a) (QF n o' a)
| si_link n sub sub' ord o o' a : same_opts o o' -> Forall2 same_item sub sub' ->
    same_item (QL n sub ord o a) (QL n sub' ord o' a).
Definition same_query (n n' : qnode) : Prop := Forall2 same_item (qfields n) (qfields n') /\ qordered n = qordered n'.

(** What EDN makes of option values: vectors for lists, maps with keywords for dicts *)
Fixpoint edn_value (v : val) : val :=
  match v with
  | VList l => VVec (map edn_value l)
  | VDict d => VMap (map (fun '(k, w) => (match k with VStr x => VKw x | _ => k end, edn_value w)) d)
  | _ => v
  end.
(** A query without its aliases and [ordered] flags, with options as EDN gives them *)
Fixpoint edn_item (q : qitem) : qitem :=
  let o := fun o : opts => match o with Some d => Some (map (fun '(k, w) => (k, edn_value w)) d) | None => None end in
  match q with
  | QF n o' _ => QF n (o o') None
  | QL n sub _ o' _ => QL n (map edn_item sub) false (o o') None
  end.
Definition edn_query (n : qnode) : qnode := QN (map edn_item (qfields n)) false.
(** The numbers in a value *)
Fixpoint numbers (v : val) : list val :=
  match v with
  | VInt _ | VFloat _ _ => [v]
  | VList l => flat_map numbers l
  | VDict d => flat_map (fun '(_, w) => numbers w) d
  | _ => []
  end.

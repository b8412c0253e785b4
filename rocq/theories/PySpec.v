(** What Python does with plain values: specification of the few operations of the language which
    the other specifications use by the model's names.  Only the values themselves are used here. *)
From Verif Require Import Base Val ReadGraphql ReadSpec.

Definition characters (x : str) : list val := map (fun c => VStr [c]) x.
(** Sequences: lists, tuples, their EDN classes, and texts *)
Inductive sequence : val -> list val -> Prop :=
| sq_list l : sequence (VList l) l
| sq_tuple l : sequence (VTuple l) l
| sq_edn_list l : sequence (VVec l) l
| sq_edn_tuple l : sequence (VParen l) l
| sq_str x : sequence (VStr x) (characters x)
| sq_kw x : sequence (VKw x) (characters x)
| sq_sym x : sequence (VSym x) (characters x).
(** What [for] goes through: sequences, sets, and the keys of dictionaries *)
Inductive goes_through : val -> list val -> Prop :=
| gt_seq v l : sequence v l -> goes_through v l
| gt_set l : goes_through (VSet l) l
| gt_dict d ks : Forall2 (fun p k => p.1 = k) d ks -> goes_through (VDict d) ks
| gt_map d ks : Forall2 (fun p k => p.1 = k) d ks -> goes_through (VMap d) ks.
(** What counts as false: None, False, zero, and what is empty *)
Inductive counts_false : val -> Prop :=
| cf_none : counts_false VNone
| cf_false : counts_false (VBool false)
| cf_zero : counts_false (VInt 0)
| cf_float e : counts_false (VFloat 0 e)
| cf_empty v : sequence v [] -> counts_false v
| cf_set : counts_false (VSet [])
| cf_dict : counts_false (VDict [])
| cf_map : counts_false (VMap []).
(** Numbers m * 2^e *)
Inductive number : val -> Z -> Z -> Prop :=
| nb_bool (b : bool) : number (VBool b) (if b then 1 else 0) 0
| nb_int z : number (VInt z) z 0
| nb_float m e : number (VFloat m e) m e.
Inductive tuple : val -> list val -> Prop :=
| tp_tuple l : tuple (VTuple l) l | tp_edn_list l : tuple (VVec l) l | tp_edn_tuple l : tuple (VParen l) l.
Inductive dictionary : val -> list (val * val) -> Prop :=
| dc_dict d : dictionary (VDict d) d | dc_edn d : dictionary (VMap d) d.
(** [a == b] *)
Inductive equal : val -> val -> Prop :=
| eq_none : equal VNone VNone
| eq_number a b m1 e1 m2 e2 k : number a m1 e1 -> number b m2 e2 -> (0 <= e1 + k)%Z -> (0 <= e2 + k)%Z ->
    (m1 * 2 ^ (e1 + k) = m2 * 2 ^ (e2 + k))%Z -> equal a b
| eq_str x : equal (VStr x) (VStr x)
| eq_kw x : equal (VKw x) (VKw x)
| eq_sym x : equal (VSym x) (VSym x)
| eq_list l l' : Forall2 equal l l' -> equal (VList l) (VList l')
| eq_tuple a b l l' : tuple a l -> tuple b l' -> Forall2 equal l l' -> equal a b
| eq_dict a b d d' : dictionary a d -> dictionary b d' -> length d = length d' ->
    (forall p, p ∈ d -> exists p', p' ∈ d' /\ equal p.1 p'.1 /\ equal p.2 p'.2) -> equal a b
| eq_set l l' : length l = length l' -> (forall x, x ∈ l -> exists y, y ∈ l' /\ equal x y) -> equal (VSet l) (VSet l')
| eq_tag n v v' : equal v v' -> equal (VTag n v) (VTag n v')
| eq_nothing : equal VNothing VNothing
| eq_obj n : equal (VObj n) (VObj n).

(** ** What the directives of a selection say (C29): @skip is looked at first, @include only if
    there is no @skip; of several with one name the first counts. *)
Definition first_dir (name : str) (ds : list gdir) (d : gdir) : Prop :=
  exists a b, ds = a ++ d :: b /\ gd_name d = name /\ absent name a.
Definition decisive (ds : list gdir) (d : gdir) : Prop :=
  first_dir (s "skip") ds d \/ (absent (s "skip") ds /\ first_dir (s "include") ds d).
(** The argument of the directive is true ([b]) or false *)
Definition says (vars : dict str val) (d : gdir) (b : bool) : Prop :=
  exists v w, gd_args d = [(s "if", v)] /\ denotes vars v w /\ (b = false <-> counts_false w).
Inductive judged (vars : dict str val) (ds : list gdir) : bool -> Prop :=
| jd_none : absent (s "skip") ds -> absent (s "include") ds -> judged vars ds false
| jd_skip d b : first_dir (s "skip") ds d -> says vars d b -> judged vars ds b
| jd_include d b : absent (s "skip") ds -> first_dir (s "include") ds d -> says vars d b -> judged vars ds (negb b).

(** Python values which occur as option values, identifiers and field values,
    Python's [==] on them, and hiku's hash of options. *)
From Verif Require Import Base.

(** [VFloat m e] is the finite float m * 2^e.  [VObj n] is any other object
    (compared by identity).  [VKw], [VSym], [VVec], [VParen], [VMap], [VSet], [VTag]
    are the classes of hiku/edn.py:27-89; [VDict] keeps insertion order. *)
Inductive val : Type :=
| VNone
| VBool (b : bool)
| VInt (z : Z)
| VFloat (m e : Z)
| VStr (x : str)
| VKw (x : str)
| VSym (x : str)
| VList (l : list val)
| VTuple (l : list val)
| VVec (l : list val)
| VParen (l : list val)
| VDict (d : list (val * val))
| VMap (d : list (val * val))
| VSet (l : list val)
| VTag (name : str) (v : val)
| VNothing
| VObj (n : N).

Section val_ind.
  Variable P : val -> Prop.
  Hypothesis Hnone : P VNone.
  Hypothesis Hbool : forall b, P (VBool b).
  Hypothesis Hint : forall z, P (VInt z).
  Hypothesis Hflt : forall m e, P (VFloat m e).
  Hypothesis Hstr : forall x, P (VStr x).
  Hypothesis Hkw : forall x, P (VKw x).
  Hypothesis Hsym : forall x, P (VSym x).
  Hypothesis Hlist : forall l, Forall P l -> P (VList l).
  Hypothesis Htuple : forall l, Forall P l -> P (VTuple l).
  Hypothesis Hvec : forall l, Forall P l -> P (VVec l).
  Hypothesis Hparen : forall l, Forall P l -> P (VParen l).
  Hypothesis Hdict : forall d, Forall (fun p => P p.1 /\ P p.2) d -> P (VDict d).
  Hypothesis Hmap : forall d, Forall (fun p => P p.1 /\ P p.2) d -> P (VMap d).
  Hypothesis Hset : forall l, Forall P l -> P (VSet l).
  Hypothesis Htag : forall n v, P v -> P (VTag n v).
  Hypothesis Hnothing : P VNothing.
  Hypothesis Hobj : forall n, P (VObj n).
  Fixpoint val_ind' (v : val) : P v :=
    let fl := fix fl (l : list val) : Forall P l :=
      match l with [] => List.Forall_nil _ | v :: l' => List.Forall_cons _ _ _ (val_ind' v) (fl l') end in
    let fd := fix fd (d : list (val * val)) : Forall (fun p => P p.1 /\ P p.2) d :=
      match d with
      | [] => List.Forall_nil _
      | (k, v) :: d' => List.Forall_cons _ (k, v) _ (conj (val_ind' k) (val_ind' v)) (fd d')
      end in
    match v with
    | VNone => Hnone | VBool b => Hbool b | VInt z => Hint z | VFloat m e => Hflt m e
    | VStr x => Hstr x | VKw x => Hkw x | VSym x => Hsym x
    | VList l => Hlist l (fl l) | VTuple l => Htuple l (fl l)
    | VVec l => Hvec l (fl l) | VParen l => Hparen l (fl l)
    | VDict d => Hdict d (fd d) | VMap d => Hmap d (fd d)
    | VSet l => Hset l (fl l) | VTag n v => Htag n v (val_ind' v)
    | VNothing => Hnothing | VObj n => Hobj n
    end.
End val_ind.

Fixpoint val_eq_dec' (v w : val) {struct v} : {v = w} + {v <> w}.
Proof.
  simple refine (let fl : forall l1 l2 : list val, {l1 = l2} + {l1 <> l2} := _ in _).
  { fix fl 1. intros [|x l1] [|y l2]; [left; done|right; done|right; done|].
    destruct (val_eq_dec' x y) as [->|]; [|right; congruence].
    destruct (fl l1 l2) as [->|]; [left; done|right; congruence]. }
  simple refine (let fd : forall l1 l2 : list (val * val), {l1 = l2} + {l1 <> l2} := _ in _).
  { fix fd 1. intros [|[k1 v1] l1] [|[k2 v2] l2]; [left; done|right; done|right; done|].
    destruct (val_eq_dec' k1 k2) as [->|]; [|right; congruence].
    destruct (val_eq_dec' v1 v2) as [->|]; [|right; congruence].
    destruct (fd l1 l2) as [->|]; [left; done|right; congruence]. }
  destruct v, w; try (right; congruence); try (left; reflexivity).
  - destruct (decide (b = b0)) as [->|]; [left|right]; congruence.
  - destruct (decide (z = z0)) as [->|]; [left|right]; congruence.
  - destruct (decide (m = m0)) as [->|], (decide (e = e0)) as [->|]; try (right; congruence). left; done.
  - destruct (decide (x = x0)) as [->|]; [left|right]; congruence.
  - destruct (decide (x = x0)) as [->|]; [left|right]; congruence.
  - destruct (decide (x = x0)) as [->|]; [left|right]; congruence.
  - destruct (fl l l0) as [->|]; [left|right]; congruence.
  - destruct (fl l l0) as [->|]; [left|right]; congruence.
  - destruct (fl l l0) as [->|]; [left|right]; congruence.
  - destruct (fl l l0) as [->|]; [left|right]; congruence.
  - destruct (fd d d0) as [->|]; [left|right]; congruence.
  - destruct (fd d d0) as [->|]; [left|right]; congruence.
  - destruct (fl l l0) as [->|]; [left|right]; congruence.
  - destruct (val_eq_dec' v w) as [->|], (decide (name = name0)) as [->|]; try (right; congruence). left; done.
  - destruct (decide (n = n0)) as [->|]; [left|right]; congruence.
Defined.
Global Instance val_eq_dec : EqDecision val := val_eq_dec'.

(** Python's [a == b].  bool, int and float compare by numeric value; the tuple
    subclasses edn.List and edn.Tuple compare as tuples (edn.py:53-62); dicts compare
    without order; Keyword and Symbol equal only their own class (edn.py:32-47). *)
Definition flt_eqb (m1 e1 m2 e2 : Z) : bool :=
  let e := Z.min e1 e2 in
  Z.eqb (m1 * 2 ^ (e1 - e)) (m2 * 2 ^ (e2 - e)).
Definition num_of (v : val) : option (Z * Z) :=
  match v with
  | VBool b => Some (if b then 1 else 0, 0)%Z
  | VInt z => Some (z, 0%Z)
  | VFloat m e => Some (m, e)
  | _ => None
  end.
Definition tup_of (v : val) : option (list val) :=
  match v with VTuple l | VVec l | VParen l => Some l | _ => None end.
Definition dict_of (v : val) : option (list (val * val)) :=
  match v with VDict d | VMap d => Some d | _ => None end.

Fixpoint py_eqb (a b : val) {struct a} : bool :=
  let eql := fix eql (l1 l2 : list val) : bool :=
    match l1, l2 with
    | [], [] => true
    | x :: l1', y :: l2' => py_eqb x y && eql l1' l2'
    | _, _ => false
    end in
  let sub := fix sub (d1 d2 : list (val * val)) : bool :=
    match d1 with
    | [] => true
    | (k, v) :: d1' => existsb (fun q => py_eqb k q.1 && py_eqb v q.2) d2 && sub d1' d2
    end in
  let subl := fix subl (l1 l2 : list val) : bool :=
    match l1 with [] => true | x :: l1' => existsb (py_eqb x) l2 && subl l1' l2 end in
  match a with
  | VBool _ | VInt _ | VFloat _ _ =>
      match num_of a, num_of b with
      | Some (m1, e1), Some (m2, e2) => flt_eqb m1 e1 m2 e2
      | _, _ => false
      end
  | VTuple l | VVec l | VParen l => match tup_of b with Some l' => eql l l' | None => false end
  | VDict d | VMap d =>
      match dict_of b with
      | Some d' => Nat.eqb (length d) (length d') && sub d d'
      | None => false
      end
  | VList l => match b with VList l' => eql l l' | _ => false end
  | VSet l => match b with VSet l' => Nat.eqb (length l) (length l') && subl l l' | _ => false end
  | VNone => match b with VNone => true | _ => false end
  | VStr x => match b with VStr y => bool_decide (x = y) | _ => false end
  | VKw x => match b with VKw y => bool_decide (x = y) | _ => false end
  | VSym x => match b with VSym y => bool_decide (x = y) | _ => false end
  | VTag n v => match b with VTag n' v' => bool_decide (n = n') && py_eqb v v' | _ => false end
  | VNothing => match b with VNothing => true | _ => false end
  | VObj n => match b with VObj n' => N.eqb n n' | _ => false end
  end.

(** ** Hashing.  CPython's hash of an int is fixed by the language implementation
    (value mod 2^61-1 with the sign kept, -1 reserved); the others are arbitrary
    functions (str hashes are randomized per process). *)
Class Hasher := {
  h_none : Z;
  h_flt : Z -> Z -> Z;
  h_str : str -> Z;
  h_tup : list Z -> Z;        (* hash of a tuple from the hashes of its items *)
  h_set : list Z -> Z;        (* hash of a frozenset from the hashes of its items *)
  h_obj : N -> Z;
}.

Definition M61 : Z := 2305843009213693951.   (* 2^61 - 1 *)
Definition hash_int (z : Z) : Z :=
  let r := (Z.sgn z * (Z.abs z mod M61))%Z in if (r =? -1)%Z then (-2)%Z else r.

(** Stable sort by the text in the first component. *)
Fixpoint ins_fst {A} (p : str * A) (l : list (str * A)) : list (str * A) :=
  match l with
  | [] => [p]
  | q :: l' => if str_leb p.1 q.1 then p :: l else q :: ins_fst p l'
  end.
Definition sort_fst {A} (l : list (str * A)) : list (str * A) := foldr ins_fst [] l.

Section hash.
  Context `{Hasher}.

  (** [hash(obj)].  Simplification: unhashable objects (list, dict, TaggedElement),
      for which Python raises TypeError, get the hash 0 here. *)
  Fixpoint py_hash (v : val) : Z :=
    match v with
    | VNone => h_none
    | VBool b => if b then 1%Z else 0%Z
    | VInt z => hash_int z
    | VFloat m e => h_flt m e
    | VStr x | VKw x | VSym x => h_str x
    | VTuple l | VVec l | VParen l => h_tup (map py_hash l)
    | VSet l => h_set (map py_hash l)
    | VMap d => h_set (map (fun p => h_tup [py_hash p.1; py_hash p.2]) d)
    | VList _ | VDict _ | VTag _ _ => 0%Z
    | VNothing => h_obj 0
    | VObj n => h_obj (N.succ n)
    end.

  Definition key_text (v : val) : str :=
    match v with VStr x | VKw x | VSym x => x | _ => [] end.

  (** [hash(tuple((h1, h2) for ...))] over pairs of ints *)
  Definition hash_pairs (l : list (Z * Z)) : Z :=
    h_tup (map (fun p => h_tup [hash_int p.1; hash_int p.2]) l).

  (** hiku/query.py:54-61 [_compute_hash].  [sorted(obj.items())] is sorted by key text:
      dict keys are taken to be distinct texts (so values are never compared). *)
  Fixpoint compute_hash (v : val) : Z :=
    match v with
    | VDict d | VMap d =>
        hash_pairs (map snd (sort_fst
          (map (fun p => (key_text p.1, (compute_hash p.1, compute_hash p.2))) d)))
    | VList l => h_tup (map hash_int (map compute_hash l))
    | _ => py_hash v
    end.
End hash.

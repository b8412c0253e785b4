(** hiku/types.py *)
From Verif Require Export Base.

(** types.py:23-199.  [TRef n] is TypeRef[n]; [_maybe_typeref] (types.py:201-202) is applied
    by whoever writes the type. *)
Inductive ty : Type :=
| TAny | TBool | TStr | TInt | TFloat
| TRef (n : str)
| TOpt (t : ty)
| TSeq (t : ty)
| TMap (k v : ty)
| TRec (fs : list (str * ty))
| TCall (args : list ty).

Section ty_ind.
  Variable P : ty -> Prop.
  Hypothesis Hany : P TAny.
  Hypothesis Hbool : P TBool.
  Hypothesis Hstr : P TStr.
  Hypothesis Hint : P TInt.
  Hypothesis Hflt : P TFloat.
  Hypothesis Href : forall n, P (TRef n).
  Hypothesis Hopt : forall t, P t -> P (TOpt t).
  Hypothesis Hseq : forall t, P t -> P (TSeq t).
  Hypothesis Hmap : forall k v, P k -> P v -> P (TMap k v).
  Hypothesis Hrec : forall fs, Forall (fun p => P p.2) fs -> P (TRec fs).
  Hypothesis Hcall : forall l, Forall P l -> P (TCall l).
  Fixpoint ty_ind' (t : ty) : P t :=
    match t with
    | TAny => Hany | TBool => Hbool | TStr => Hstr | TInt => Hint | TFloat => Hflt
    | TRef n => Href n
    | TOpt t => Hopt t (ty_ind' t)
    | TSeq t => Hseq t (ty_ind' t)
    | TMap k v => Hmap k v (ty_ind' k) (ty_ind' v)
    | TRec fs => Hrec fs
        ((fix f (l : list (str * ty)) : Forall (fun p => P p.2) l :=
            match l with
            | [] => List.Forall_nil _
            | p :: l' => List.Forall_cons _ p _ (ty_ind' p.2) (f l')
            end) fs)
    | TCall l => Hcall l
        ((fix f (l : list ty) : Forall P l :=
            match l with
            | [] => List.Forall_nil _
            | p :: l' => List.Forall_cons _ p _ (ty_ind' p) (f l')
            end) l)
    end.
End ty_ind.

Fixpoint ty_eq_dec' (t u : ty) {struct t} : {t = u} + {t <> u}.
Proof.
  simple refine (let fl : forall l1 l2 : list ty, {l1 = l2} + {l1 <> l2} := _ in _).
  { fix fl 1. intros [|x l1] [|y l2]; [left; done|right; done|right; done|].
    destruct (ty_eq_dec' x y) as [->|]; [|right; congruence].
    destruct (fl l1 l2) as [->|]; [left; done|right; congruence]. }
  simple refine (let fd : forall l1 l2 : list (str * ty), {l1 = l2} + {l1 <> l2} := _ in _).
  { fix fd 1. intros [|[k1 v1] l1] [|[k2 v2] l2]; [left; done|right; done|right; done|].
    destruct (decide (k1 = k2)) as [->|]; [|right; congruence].
    destruct (ty_eq_dec' v1 v2) as [->|]; [|right; congruence].
    destruct (fd l1 l2) as [->|]; [left; done|right; congruence]. }
  destruct t, u; try (right; congruence); try (left; reflexivity).
  - destruct (decide (n = n0)) as [->|]; [left|right]; congruence.
  - destruct (ty_eq_dec' t u) as [->|]; [left|right]; congruence.
  - destruct (ty_eq_dec' t u) as [->|]; [left|right]; congruence.
  - destruct (ty_eq_dec' t1 u1) as [->|]; [|right; congruence].
    destruct (ty_eq_dec' t2 u2) as [->|]; [left|right]; congruence.
  - destruct (fd fs fs0) as [->|]; [left|right]; congruence.
  - destruct (fl args args0) as [->|]; [left|right]; congruence.
Defined.
Global Instance ty_eq_dec : EqDecision ty := ty_eq_dec'.

(** types.py:294-298 [get_type] *)
Definition get_type (types : dict str ty) (t : ty) : res ty :=
  match t with
  | TRef n => from_opt KeyError (dget n types)
  | _ => Ok t
  end.

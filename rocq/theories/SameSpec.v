(** The same request, in different queries or under different keys (specification for C62). *)
From Verif Require Import Base Val Query QuerySpec Graph Result.

(** Of a value which is a record, [q'] asks for all that [q] asks for.  Parts of records are known by their names. *)
Inductive covered_part : qitem -> qitem -> Prop :=
| cp_field n o a o' a' : covered_part (QF n o a) (QF n o' a')
| cp_parts n sub sub' ord ord' o o' a a' :
    (forall x, x ∈ sub -> exists x', x' ∈ sub' /\ covered_part x x') -> covered_part (QL n sub ord o a) (QL n sub' ord' o' a').

Section same.
  Context (g : graph).
  (** Of an object of the node [gn], [q'] asks for all that [q] asks for: the same member, with the same options, and so on
      inside; under whatever aliases, and in whatever order.  Options are the same up to the order of their keys. *)
  Inductive covered (gn : gnode) : qitem -> qitem -> Prop :=
  | cv_field n o a o' a' : same_opts o o' -> covered gn (QF n o a) (QF n o' a')
  | cv_link n sub sub' ord ord' o o' a a' l gn' :
      find_field gn n = Some (GL l) -> find_node g (gl_node l) = Some gn' -> same_opts o o' ->
      (forall x, x ∈ sub -> exists x', x' ∈ sub' /\ covered gn' x x') -> covered gn (QL n sub ord o a) (QL n sub' ord' o' a')
  | cv_parts n sub sub' ord ord' o o' a a' f :
      find_field gn n = Some (GF f) -> same_opts o o' ->
      (forall x, x ∈ sub -> exists x', x' ∈ sub' /\ covered_part x x') -> covered gn (QL n sub ord o a) (QL n sub' ord' o' a').

  (** ... and under the same keys *)
  Inductive kept (gn : gnode) : qitem -> qitem -> Prop :=
  | kp_field n o o' a : same_opts o o' -> kept gn (QF n o a) (QF n o' a)
  | kp_link n sub sub' ord ord' o o' a l gn' :
      find_field gn n = Some (GL l) -> find_node g (gl_node l) = Some gn' -> same_opts o o' ->
      (forall x, x ∈ sub -> exists x', x' ∈ sub' /\ kept gn' x x') -> kept gn (QL n sub ord o a) (QL n sub' ord' o' a)
  | kp_parts n sub sub' ord ord' o o' a f :
      find_field gn n = Some (GF f) -> same_opts o o' ->
      (forall x, x ∈ sub -> exists x', x' ∈ sub' /\ covered_part x x') -> kept gn (QL n sub ord o a) (QL n sub' ord' o' a).

  (** The tree [t], which is shown for the part [q] of a record, holds nothing which the tree [t'], shown for [q'], does not hold *)
  Inductive shown_part : qitem -> qitem -> vtree -> vtree -> Prop :=
  | sp_leaf q q' p : shown_part q q' (TP p) (TP p)
  | sp_list q q' l l' : Forall2 (shown_part q q') l l' -> shown_part q q' (TL l) (TL l')
  | sp_record n sub sub' ord ord' o o' a a' d d' :
      (forall k, k ∈ map fst d -> exists x, x ∈ sub /\ q_name x = k) ->
      (forall x x', x ∈ sub -> x' ∈ sub' -> covered_part x x' ->
         exists v v', dget (q_name x) d = Some v /\ dget (q_name x') d' = Some v' /\ shown_part x x' v v') ->
      shown_part (QL n sub ord o a) (QL n sub' ord' o' a') (TO d) (TO d').
  (** ... for the member [q] of an object of the node [gn] *)
  Inductive shown (gn : gnode) : qitem -> qitem -> vtree -> vtree -> Prop :=
  | sh_leaf q q' p : shown gn q q' (TP p) (TP p)
  | sh_list q q' l l' : Forall2 (shown gn q q') l l' -> shown gn q q' (TL l) (TL l')
  | sh_object n sub sub' ord ord' o o' a a' l gn' d d' :
      find_field gn n = Some (GL l) -> find_node g (gl_node l) = Some gn' ->
      (forall k, k ∈ map fst d -> exists x, x ∈ sub /\ result_key x = k) ->
      (forall x x', x ∈ sub -> x' ∈ sub' -> covered gn' x x' ->
         exists v v', dget (result_key x) d = Some v /\ dget (result_key x') d' = Some v' /\ shown gn' x x' v v') ->
      shown gn (QL n sub ord o a) (QL n sub' ord' o' a') (TO d) (TO d')
  | sh_parts n sub sub' ord ord' o o' a a' f t t' :
      find_field gn n = Some (GF f) -> shown_part (QL n sub ord o a) (QL n sub' ord' o' a') t t' ->
      shown gn (QL n sub ord o a) (QL n sub' ord' o' a') t t'.
  (** ... for queries *)
  Definition shown_query (n n' : qnode) (t t' : vtree) : Prop :=
    exists d d', t = TO d /\ t' = TO d' /\
      (forall k, k ∈ map fst d -> exists x, x ∈ qfields n /\ result_key x = k) /\
      forall x x', x ∈ qfields n -> x' ∈ qfields n' -> covered (g_root g) x x' ->
        exists v v', dget (result_key x) d = Some v /\ dget (result_key x') d' = Some v' /\ shown (g_root g) x x' v v'.
End same.

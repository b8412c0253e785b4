(** Queries which ask for less, and results which hold less (specification for C61). *)
From Verif Require Import Base Val Query Graph Result.

(** [part q q']: the member [q'] asks for all that [q] asks for: the same field; or the same link (or the same parts of a
    field), with at least these members, in whatever order.  Whether the selections are ordered does not matter. *)
Inductive part : qitem -> qitem -> Prop :=
| pt_field n o a : part (QF n o a) (QF n o a)
| pt_link n sub sub' ord ord' o a :
    (forall q, q ∈ sub -> exists q', q' ∈ sub' /\ part q q') -> part (QL n sub ord o a) (QL n sub' ord' o a).
Definition part_query (n n' : qnode) : Prop := forall q, q ∈ qfields n -> exists q', q' ∈ qfields n' /\ part q q'.

(** [within t t']: all that [t] holds is in [t'], at the same place *)
Inductive within : vtree -> vtree -> Prop :=
| wi_leaf p : within (TP p) (TP p)
| wi_object d d' : (forall k t, dget k d = Some t -> exists t', dget k d' = Some t' /\ within t t') -> within (TO d) (TO d')
| wi_list l l' : Forall2 within l l' -> within (TL l) (TL l').

(** No two members of the query have the same key: of a node, the name or the alias; of a record, the name *)
Fixpoint clear_parts (q : qitem) : Prop :=
  match q with
  | QF _ _ _ => True
  | QL _ sub _ _ _ => NoDup (map q_name sub) /\ foldr (fun q' P => clear_parts q' /\ P) True sub
  end.
Fixpoint clear (g : graph) (gn : gnode) (q : qitem) : Prop :=
  match q with
  | QF _ _ _ => True
  | QL _ sub _ _ _ =>
      match find_field gn (q_name q) with
      | Some (GL l) =>
          match find_node g (gl_node l) with
          | Some gn' => NoDup (map result_key sub) /\ foldr (fun q' P => clear g gn' q' /\ P) True sub
          | None => True
          end
      | _ => clear_parts q
      end
  end.
Definition clear_query (g : graph) (n : qnode) : Prop :=
  NoDup (map result_key (qfields n)) /\ forall q, q ∈ qfields n -> clear g (g_root g) q.

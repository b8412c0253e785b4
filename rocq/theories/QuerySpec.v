(** Specification vocabulary for queries.  Independent of [merge] and of hashing. *)
From Verif Require Import Base Val Query.

(** Two option values are the same up to the order in which dict entries were written. *)
Inductive same_val : val -> val -> Prop :=
| sv_refl v : same_val v v
| sv_sym v w : same_val v w -> same_val w v
| sv_trans u v w : same_val u v -> same_val v w -> same_val u w
| sv_list l1 v w l2 : same_val v w -> same_val (VList (l1 ++ v :: l2)) (VList (l1 ++ w :: l2))
| sv_perm (d d' : list (str * val)) :
    NoDup (map fst d) -> d ≡ₚ d' -> same_val (opts_val d) (opts_val d')
| sv_dict d1 k v w d2 :
    same_val v w -> same_val (VDict (d1 ++ (k, v) :: d2)) (VDict (d1 ++ (k, w) :: d2)).

(** Absent options are the same as empty options. *)
Definition same_opts (o o' : opts) : Prop := same_val (opts_val (opt_dict o)) (opts_val (opt_dict o')).

(** What a query requests: the set of its labelled paths. *)
Record label := Label { lb_link : bool; lb_name : str; lb_opts : opts; lb_alias : option str }.
Definition label_of (q : qitem) : label := Label (q_is_link q) (q_name q) (q_opts q) (q_alias q).
Definition same_label (a b : label) : Prop :=
  lb_link a = lb_link b /\ lb_name a = lb_name b /\ same_opts (lb_opts a) (lb_opts b)
  /\ lb_alias a = lb_alias b.
Definition same_path : list label -> list label -> Prop := Forall2 same_label.

Inductive requests : qnode -> list label -> Prop :=
| req_here n q : q ∈ qfields n -> requests n [label_of q]
| req_sub n q p : q ∈ qfields n -> q_is_link q = true -> requests (q_node q) p ->
    requests n (label_of q :: p).

(** The node reached by a path is marked as ordered. *)
Inductive ordered_at : qnode -> list label -> Prop :=
| ord_here n : qordered n = true -> ordered_at n []
| ord_sub n q p : q ∈ qfields n -> q_is_link q = true -> ordered_at (q_node q) p ->
    ordered_at n (label_of q :: p).

(** [occurs q n]: the member [q] occurs in [n] at some depth. *)
Inductive occurs : qitem -> qnode -> Prop :=
| occ_here n q : q ∈ qfields n -> occurs q n
| occ_sub n l q : l ∈ qfields n -> q_is_link l = true -> occurs q (q_node l) -> occurs q n.

(** [level_of m n]: [m] is [n] or the node of a link occurring in [n]. *)
Inductive level_of : qnode -> qnode -> Prop :=
| lev_here n : level_of n n
| lev_sub n l m : l ∈ qfields n -> q_is_link l = true -> level_of m (q_node l) -> level_of m n.

(** No two different option values in the query have the same hash. *)
Definition no_collision `{Hasher} (P : qitem -> Prop) : Prop :=
  forall q1 q2, P q1 -> P q2 -> q_name q1 = q_name q2 ->
    options_hash (q_opts q1) = options_hash (q_opts q2) ->
    same_opts (q_opts q1) (q_opts q2).

(** The query with the links of every level moved behind its fields, nothing else changed. *)
Definition fields_then_links (l : list qitem) : list qitem :=
  List.filter (fun f => negb (q_is_link f)) l ++ List.filter q_is_link l.
Fixpoint links_last_item (q : qitem) : qitem :=
  match q with
  | QF n o a => QF n o a
  | QL n sub ord o a => QL n (fields_then_links (map links_last_item sub)) ord o a
  end.
Definition links_last (n : qnode) : qnode :=
  QN (fields_then_links (map links_last_item (qfields n))) (qordered n).

(** No level has two members with the same label. *)
Definition no_duplicates (n : qnode) : Prop :=
  forall m i j q1 q2, level_of m n -> qfields m !! i = Some q1 -> qfields m !! j = Some q2 -> i <> j ->
    ~ same_label (label_of q1) (label_of q2).

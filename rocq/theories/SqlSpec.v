(** What SQL loaders have to give (specification for C41, C42), over the table itself. *)
From Verif Require Import Base Val Query Graph Engine Sql.

(** A NULL is [VNone] and equal to nothing in SQL. *)
Definition has_val (r : row) (c : str) (v : val) : Prop := dget c r = Some v /\ v <> VNone.
Global Instance has_val_dec r c v : Decision (has_val r c v).
Proof. apply _. Defined.
Definition matches (q : select) (r : row) : Prop := exists v, v ∈ sel_in q /\ has_val r (sel_col q) v.
Global Instance matches_dec q r : Decision (matches q r).
Proof.
  destruct (decide (Exists (fun v => has_val r (sel_col q) v) (sel_in q))) as [H|H].
  - left. apply Exists_exists in H as (v & ? & ?). by exists v.
  - right. intros (v & ? & ?). apply H, Exists_exists. eauto.
Defined.
Definition cell (r : row) (c : str) : val := match dget c r with Some v => v | None => VNone end.
Definition project (cols : list str) (r : row) : row := map (fun c => (c, cell r c)) cols.
(** The database answers with the selected columns of the matching rows of [tbl], in some order. *)
Definition answers (tbl : list row) (db : database) : Prop :=
  forall q, Permutation (db q) (map (project (sel_cols q)) (filter (matches q) tbl)).
(** Drivers give some rows while there are any. *)
Definition sane (dr : driver) : Prop :=
  match dr with All => True | Buckets size => forall n, n <> 0%nat -> size n <> 0%nat end.
(** All the identifiers of a table differ. *)
Definition unique (tbl : list row) (c : str) : Prop :=
  forall r r' v, r ∈ tbl -> r' ∈ tbl -> has_val r c v -> has_val r' c v -> r = r'.
(** The row for an identifier: its values, [None] for all of them if there is no such row. *)
Definition row_for (tbl : list row) (pk : str) (names : list str) (i : val) (vs : list val) : Prop :=
  (exists r, r ∈ tbl /\ has_val r pk i /\ vs = map (cell r) names) \/
  ((forall r, r ∈ tbl -> ~ has_val r pk i) /\ vs = map (fun _ => VNone) names).
(** What is paired with an identifier in the table *)
Definition targets (tbl : list row) (lq : link_query) (i : val) : list val :=
  map (fun r => cell r (lq_to lq)) (filter (fun r => has_val r (lq_from lq) i) tbl).
(** The values are those which some order of the rows of the table gives. *)
Definition target_for (tbl : list row) (lq : link_query) (t : tenum) (i x : val) : Prop :=
  match t with
  | Many => exists l, x = VList l /\ Permutation l (targets tbl lq i)
  | Maybe => x ∈ targets tbl lq i \/ (targets tbl lq i = [] /\ x = VNothing)
  | One => x ∈ targets tbl lq i
  end.

(** Concrete instances used to show that hypotheses of theorems can be met. *)
From Verif Require Import Base Val Query QuerySpec.

(** A deterministic stand-in for CPython's string and tuple hashes. *)
Definition mix (l : list Z) : Z := fold_left (fun a x => (a * 1000003 + x + 17) mod M61)%Z l 42%Z.
Definition ex_hasher : Hasher := {|
  h_none := 7; h_flt := fun m e => mix [m; e]; h_str := fun x => mix (map Z.of_N x);
  h_tup := mix; h_set := fun l => fold_left Z.add l 3%Z; h_obj := Z.of_N |}.

Fixpoint items_below (q : qitem) : list qitem :=
  q :: match q with QF _ _ _ => [] | QL _ sub _ _ _ => flat_map items_below sub end.
Definition all_items (n : qnode) : list qitem := flat_map items_below (qfields n).

Lemma items_below_occurs q f n : f ∈ qfields n -> q ∈ items_below f -> occurs q n.
Proof.
  revert q n. induction f as [nm o a|nm sub ord o a IH] using qitem_ind'; intros q n Hf Hq; simpl in Hq.
  - apply elem_of_list_singleton in Hq as ->. by constructor.
  - apply elem_of_cons in Hq as [->|Hq]; [by constructor|].
    apply elem_of_list_In, in_flat_map in Hq as (g & Hg & Hq).
    apply elem_of_list_In in Hg, Hq. rewrite Forall_forall in IH.
    eapply occ_sub; [exact Hf|done|]. apply (IH g Hg); done.
Qed.
Lemma occurs_all_items q n : occurs q n -> q ∈ all_items n.
Proof.
  unfold all_items. induction 1 as [n q Hq|n l q Hl Hk Ho IH].
  - apply elem_of_list_In, in_flat_map. exists q. split; [by apply elem_of_list_In|].
    apply elem_of_list_In. destruct q; simpl; left.
  - apply elem_of_list_In, in_flat_map. exists l. split; [by apply elem_of_list_In|].
    apply elem_of_list_In. destruct l as [|nm sub ord o a]; [done|]. simpl. right. done.
Qed.

(** A sufficient check for [no_collision]. *)
Definition no_collision_b `{Hasher} (l : list qitem) : bool :=
  forallb (fun q1 => forallb (fun q2 =>
    negb (bool_decide (q_name q1 = q_name q2)) ||
    negb (bool_decide (options_hash (q_opts q1) = options_hash (q_opts q2))) ||
    bool_decide (q_opts q1 = q_opts q2)) l) l.
Lemma no_collision_check `{Hasher} (P : qitem -> Prop) l :
  (forall q, P q -> q ∈ l) -> no_collision_b l = true -> no_collision P.
Proof.
  unfold no_collision_b. intros HP Hb q1 q2 H1 H2 En Eh.
  rewrite forallb_forall in Hb. specialize (Hb q1 (proj1 (elem_of_list_In _ _) (HP _ H1))).
  rewrite forallb_forall in Hb. specialize (Hb q2 (proj1 (elem_of_list_In _ _) (HP _ H2))).
  rewrite (bool_decide_eq_true_2 _ En), (bool_decide_eq_true_2 _ Eh) in Hb. simpl in Hb.
  apply bool_decide_eq_true_1 in Hb. rewrite Hb. apply sv_refl.
Qed.

(** [[:a (:f {:k 1}) {:l [:b {:m [:c]}]} (:f {:k 2}) {:l [:b2]}]] as two nodes *)
Definition ex_q1 : qnode :=
  QN [QF (s "a") None None; QF (s "f") (Some [(s "k", VInt 1)]) None;
      QL (s "l") [QF (s "b") None None;
                  QL (s "m") [QF (s "c") None None] true None None] false None None;
      QF (s "a") None None] false.
Definition ex_q2 : qnode :=
  QN [QL (s "l") [QF (s "b2") None (Some (s "x"));
                  QL (s "m") [QF (s "d") None None] false None None] false None None;
      QF (s "f") (Some [(s "k", VInt 2)]) None;
      QF (s "f") (Some [(s "k", VInt 1)]) None] true.

(** Properties C01, C02, C03. *)
From Verif Require Import Base Val Query QuerySpec QueryProof MergeProof Examples.

(** C01: [merge] requests exactly the same labelled paths (names, options, aliases at every
    level) as the merged nodes together... *)
Theorem C01_merge_requests `{Hasher} (ns : list qnode) (p : list label) :
  no_collision (fun q => exists n, n ∈ ns /\ occurs q n) ->
  (exists p', same_path p p' /\ requests (merge ns) p') <->
  (exists n p', n ∈ ns /\ same_path p p' /\ requests n p').
Proof. exact (C01_iff ns p). Qed.
Print Assumptions C01_merge_requests.

(** ...marks as ordered exactly the paths which are ordered in one of the nodes... *)
Theorem C01_merge_ordered `{Hasher} (ns : list qnode) (p : list label) :
  no_collision (fun q => exists n, n ∈ ns /\ occurs q n) ->
  (exists p', same_path p p' /\ ordered_at (merge ns) p') <->
  (exists n p', n ∈ ns /\ same_path p p' /\ ordered_at n p').
Proof. exact (C01_ord_iff ns p). Qed.
Print Assumptions C01_merge_ordered.

(** ...and no level of the result has two members with the same label. *)
Theorem C01_merge_unique `{Hasher} (ns : list qnode) : no_duplicates (merge ns).
Proof. exact (merge_level_unique ns). Qed.
Print Assumptions C01_merge_unique.

Example C01_hypothesis_met :
  @no_collision ex_hasher (fun q => exists n, n ∈ [ex_q1; ex_q2] /\ occurs q n).
Proof.
  apply (no_collision_check _ (all_items ex_q1 ++ all_items ex_q2)).
  - intros q (n & [->|[->|[]%elem_of_nil]%elem_of_cons]%elem_of_cons & Ho);
      apply elem_of_app; [left|right]; by apply occurs_all_items.
  - vm_compute. reflexivity.
Qed.
Example C01_example :
  @merge ex_hasher [ex_q1; ex_q2] =
  QN [QF (s "a") None None; QF (s "f") (Some [(s "k", VInt 1)]) None; QF (s "f") (Some [(s "k", VInt 2)]) None;
      QL (s "l") [QF (s "b") None None; QF (s "b2") None (Some (s "x"));
                  QL (s "m") [QF (s "c") None None; QF (s "d") None None] true None None] false None None] true.
Proof. vm_compute. reflexivity. Qed.

(** C02: merging is idempotent, ... *)
Theorem C02_merge_idempotent `{Hasher} (ns : list qnode) : merge [merge ns] = merge ns.
Proof. exact (merge_idem ns). Qed.
Print Assumptions C02_merge_idempotent.

(** ...insensitive to how the query was split into parts which were merged before, ... *)
Theorem C02_merge_split `{Hasher} (nss : list (list qnode)) : merge (map merge nss) = merge (concat nss).
Proof. exact (merge_split nss). Qed.
Print Assumptions C02_merge_split.

(** ...and on a query without duplicates it only moves links behind fields, at every level,
    keeping the order among fields and among links. *)
Theorem C02_merge_moves_links `{Hasher} (n : qnode) :
  no_collision (fun q => occurs q n) -> no_duplicates n -> merge [n] = links_last n.
Proof. exact (merge_no_duplicates n). Qed.
Print Assumptions C02_merge_moves_links.

Example C02_hypotheses_met : exists n,
  @no_collision ex_hasher (fun q => occurs q n) /\ no_duplicates n /\ links_last n <> n /\
  length (qfields n) = 3.
Proof.
  exists (QN [QF (s "a") None None; QL (s "l") [QF (s "b") None None] false None None; QF (s "c") None None] false).
  split; [|split; [|split; [vm_compute; done|done]]].
  - apply (no_collision_check _ (all_items (QN [QF (s "a") None None;
       QL (s "l") [QF (s "b") None None] false None None; QF (s "c") None None] false))).
    + intros q. apply occurs_all_items.
    + vm_compute. reflexivity.
  - intros m i j q1 q2 Hm H1 H2 Hij (El & En & _). simpl in El, En.
    assert (forall l : list qitem, NoDup (map q_name l) -> l !! i = Some q1 -> l !! j = Some q2 -> False) as Hd.
    { intros l Hl Hi Hj. apply Hij. eapply (NoDup_map_inj_lookup q_name); done. }
    inversion Hm as [|? l ? Hin Hl Hm']; subst.
    + eapply Hd; [|exact H1|exact H2]. apply (bool_decide_unpack _). vm_compute. done.
    + apply elem_of_cons in Hin as [->|Hin]; [done|].
      apply elem_of_cons in Hin as [->|Hin].
      * inversion Hm' as [|? l ? Hin Hl' Hm'']; subst.
        -- eapply Hd; [|exact H1|exact H2]. apply (bool_decide_unpack _). vm_compute. done.
        -- apply elem_of_cons in Hin as [->|Hin]; [done|]. by apply elem_of_nil in Hin.
      * apply elem_of_cons in Hin as [->|Hin]; [done|]. by apply elem_of_nil in Hin.
Qed.

(** C03, first half: the slot depends only on the name and on the options up to order. *)
Theorem C03_same_slot `{Hasher} (name : str) (o o' : opts) :
  same_opts o o' -> index_key_of name o = index_key_of name o'.
Proof. exact (same_opts_index_key name o o'). Qed.
Print Assumptions C03_same_slot.
Example C03_same_slot_met :
  same_opts (Some [(s "a", VInt 1); (s "b", VList [opts_val [(s "x", VNone); (s "y", VBool true)]])])
            (Some [(s "b", VList [opts_val [(s "y", VBool true); (s "x", VNone)]]); (s "a", VInt 1)]).
Proof.
  unfold same_opts. simpl. eapply sv_trans.
  - apply sv_perm; [apply (bool_decide_unpack _); vm_compute; done|apply Permutation_swap].
  - apply (sv_dict [] _ _ _ [(VStr (s "a"), VInt 1)]).
    apply (sv_list []). apply sv_perm; [apply (bool_decide_unpack _); vm_compute; done|apply Permutation_swap].
Qed.

(** C03, second half, is false, whatever the hashes of strings and tuples are: *)
Theorem C03_different_options_refuted :
  exists (name : str) (o o' : opts), ~ same_opts o o' /\
    forall H : Hasher, index_key_of name o = index_key_of name o'.
Proof. exact C03_refutation. Qed.
Print Assumptions C03_different_options_refuted.

(** What remains: different names without brackets never share a slot, and different options
    do not unless their hashes collide.  Missing: absence of collisions, which is false. *)
Theorem C03_different_slots_partial `{Hasher} (n n' : str) (o o' : opts) :
  91%N ∉ n -> 91%N ∉ n' -> (n <> n' \/ options_hash o <> options_hash o') ->
  index_key_of n o <> index_key_of n' o'.
Proof. exact (C03_distinct n n' o o'). Qed.
Print Assumptions C03_different_slots_partial.
Example C03_partial_met :
  91%N ∉ s "foo" /\ @options_hash ex_hasher (Some [(s "k", VInt 1)]) <> @options_hash ex_hasher (Some [(s "k", VInt 2)]).
Proof. split; [apply (bool_decide_unpack _); vm_compute; done|vm_compute; discriminate]. Qed.

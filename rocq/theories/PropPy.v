(** The operations of Python used by the specifications are what they should be: iteration and
    sequences (C17-C21, C51-C63), truth and directives (C29), equality of values (C01, C02, C32). *)
From Verif Require Import Base Val ValProof Graph Result Engine ReadGraphql ReadSpec PropRead PySpec.
From Verif Require Expr ExprRun.

Theorem C13_sequences v l : seq_of v = Some l <-> sequence v l.
Proof. split; [destruct v; try done; intros [= <-]; constructor|by destruct 1]. Qed.
Lemma keys_rel (d : list (val * val)) ks : Forall2 (fun p k => p.1 = k) d ks <-> ks = map fst d.
Proof. split; [by induction 1; subst; simpl; f_equal|intros ->; induction d; by constructor]. Qed.
Theorem C18_iteration v l : iter_of v = Some l <-> goes_through v l.
Proof.
  split.
  - destruct v; try done; intros [= <-]; first [by apply gt_seq; constructor|by constructor|by constructor; apply keys_rel].
  - destruct 1 as [v l Hs|l|d ks Hk|d ks Hk]; [by destruct Hs|done|by apply keys_rel in Hk as ->|by apply keys_rel in Hk as ->].
Qed.
Theorem C29_truth v : truthy v = false <-> counts_false v.
Proof.
  split.
  - destruct v as [|b|z|m e|x|x|x|l|l|l|l|d|d|l|n w| |n]; try done; cbn [truthy].
    + intros _. constructor.
    + intros ->. constructor.
    + intros Hz%negb_false_iff%Z.eqb_eq. subst. constructor.
    + intros Hz%negb_false_iff%Z.eqb_eq. subst. constructor.
    + destruct x; [|done]. intros _. apply cf_empty. constructor.
    + destruct x; [|done]. intros _. apply cf_empty. constructor.
    + destruct x; [|done]. intros _. apply cf_empty. constructor.
    + destruct l; [|done]. intros _. apply cf_empty. constructor.
    + destruct l; [|done]. intros _. apply cf_empty. constructor.
    + destruct l; [|done]. intros _. apply cf_empty. constructor.
    + destruct l; [|done]. intros _. apply cf_empty. constructor.
    + destruct d; [|done]. intros _. apply cf_dict.
    + destruct d; [|done]. intros _. apply cf_map.
    + destruct l; [|done]. intros _. apply cf_set.
  - destruct 1 as [| | | |v Hs| | |]; try done. inversion Hs as [| | | |x Hx|x Hx|x Hx]; subst; try done; destruct x; done.
Qed.

(** ** Directives *)
Lemma find_first name ds d : find_dir name ds = Some d <-> first_dir name ds d.
Proof.
  unfold find_dir, first_dir. induction ds as [|x ds IH]; cbn [List.find].
  - split; [done|]. by intros ([|] & b & ? & _).
  - case_bool_decide as Hn; split.
    + intros [= <-]. exists [], ds. split; [done|]. split; [done|]. by intros ? ?%elem_of_nil.
    + intros ([|y a] & b & Heq & Hd & Ha); [by injection Heq as -> _|]. injection Heq as -> ->. by destruct (Ha y); [left|].
    + intros (a & b & -> & Hd & Ha)%IH. exists (x :: a), b. split; [done|]. split; [done|]. intros d' [->|Hd']%elem_of_cons; [done|by apply Ha].
    + intros ([|y a] & b & Heq & Hd & Ha); [by injection Heq as -> _|]. injection Heq as -> ->. apply IH. exists a, b. split; [done|]. split; [done|].
      intros d' Hd'. apply Ha. by right.
Qed.
Lemma find_absent name ds : find_dir name ds = None <-> absent name ds.
Proof.
  split; [|apply absent_find]. intros Hf d Hd Hn. unfold find_dir in Hf. apply elem_of_list_In in Hd. pose proof (find_none _ _ Hf d Hd) as Hx.
  cbn beta in Hx. by apply bool_decide_eq_false_1 in Hx.
Qed.
Lemma says_cond vars d b : says vars d b <-> exists w, cond_value vars d = ROk w /\ truthy w = b.
Proof.
  assert (forall w, (b = false <-> counts_false w) <-> truthy w = b) as Ht.
  { intros w. rewrite <-C29_truth. destruct (truthy w), b; split; intuition congruence. }
  unfold says, cond_value. split.
  - intros (v & w & Ha & Hv & Hb). exists w. rewrite Ha. rewrite bool_decide_eq_true_2 by done. split; [by apply visit_value_ok|by apply Ht].
  - intros (w & Hc & Hb). destruct (gd_args d) as [|[n v] [|? ?]]; try done. case_bool_decide as Hn; [|done]. subst n.
    exists v, w. split; [done|]. split; [by apply visit_value_ok|by apply Ht].
Qed.
(** C29: whether a selection is left out is what its directives say *)
Theorem C29_judged vars ds b : should_skip vars ds = ROk b <-> judged vars ds b.
Proof.
  unfold should_skip. split.
  - destruct (find_dir (s "skip") ds) as [d|] eqn:E1.
    + apply find_first in E1. destruct (cond_value vars d) as [w|] eqn:Ec; [|done]. intros [= <-]. eapply jd_skip; [exact E1|]. apply says_cond. by exists w.
    + apply find_absent in E1. destruct (find_dir (s "include") ds) as [d|] eqn:E2.
      * apply find_first in E2. destruct (cond_value vars d) as [w|] eqn:Ec; [|done]. intros [= <-]. eapply jd_include; [done|exact E2|]. apply says_cond. by exists w.
      * apply find_absent in E2. intros [= <-]. by apply jd_none.
  - destruct 1 as [H1%find_absent H2%find_absent|d b H1%find_first (w & Hc & <-)%says_cond|d b H1%find_absent H2%find_first (w & Hc & <-)%says_cond].
    + by rewrite H1, H2.
    + by rewrite H1, Hc.
    + by rewrite H1, H2, Hc.
Qed.

(** ** Equality *)
Lemma flt_eqb_k m1 e1 m2 e2 : flt_eqb m1 e1 m2 e2 = true <-> exists k, (0 <= e1 + k)%Z /\ (0 <= e2 + k)%Z /\ (m1 * 2 ^ (e1 + k) = m2 * 2 ^ (e2 + k))%Z.
Proof.
  split.
  - intros Hf. exists (- Z.min e1 e2)%Z. split; [lia|]. split; [lia|]. apply (flt_eqb_spec _ _ _ _ (Z.min e1 e2)) in Hf; [|lia..]. by rewrite !Z.add_opp_r.
  - intros (k & H1 & H2 & He). apply (flt_eqb_spec _ _ _ _ (- k)%Z); [lia..|]. by rewrite !Z.sub_opp_r.
Qed.
Lemma num_number a m e : num_of a = Some (m, e) <-> number a m e.
Proof. split; [destruct a; try done; intros [= <- <-]; constructor|by destruct 1]. Qed.
Lemma tup_tuple a l : tup_of a = Some l <-> tuple a l.
Proof. split; [destruct a; try done; intros [= <-]; constructor|by destruct 1]. Qed.
Lemma dict_dictionary a d : dict_of a = Some d <-> dictionary a d.
Proof. split; [destruct a; try done; intros [= <-]; constructor|by destruct 1]. Qed.
Lemma Forall2_iff (R S : val -> val -> Prop) l l' : Forall (fun x => forall y, R x y <-> S x y) l -> Forall2 R l l' <-> Forall2 S l l'.
Proof.
  intros Hf. revert l'. induction Hf as [|x l Hx _ IH]; intros [|y l']; split; intros Hi; inversion Hi; subst; constructor; by (apply Hx + apply IH).
Qed.
(** Cases which cannot be, by the class of the left value *)
Ltac clash := match goal with
  | Hx : number _ _ _ |- _ => by inversion Hx
  | Hx : tuple _ _ |- _ => by inversion Hx
  | Hx : dictionary _ _ |- _ => by inversion Hx end.
Lemma equal_number a b m e : number a m e ->
  match num_of a, num_of b with Some (m1, e1), Some (m2, e2) => flt_eqb m1 e1 m2 e2 | _, _ => false end = true <-> equal a b.
Proof.
  intros Hn. split.
  - destruct (num_of a) as [[m1 e1]|] eqn:E1; [|done]. destruct (num_of b) as [[m2 e2]|] eqn:E2; [|done].
    apply num_number in E1, E2. intros (k & H1 & H2 & H3)%flt_eqb_k. by eapply eq_number.
  - inversion 1 as [|? ? m1 e1 m2 e2 k Ha Hb|x|x|x|l l' Hl|? ? l l' Ha Hb Hl|? ? d d' Ha Hb ? Hd|l l' ? Hl|? ? ? ?| |?]; subst; try (by inversion Hn); try (by inversion Hn; subst; clash).
    apply num_number in Ha, Hb. rewrite Ha, Hb. apply flt_eqb_k. by exists k.
Qed.
Lemma equal_tuple a b l : tuple a l -> Forall (fun x => forall y, py_eqb x y = true <-> equal x y) l ->
  match tup_of b with Some l' => eq_items l l' | None => false end = true <-> equal a b.
Proof.
  intros Hn HF. split.
  - destruct (tup_of b) as [l'|] eqn:E2; [|done]. apply tup_tuple in E2. intros Hl%eq_items_spec. eapply eq_tuple; [exact Hn|exact E2|].
    exact (proj1 (Forall2_iff (fun x y => py_eqb x y = true) equal l l' HF) Hl).
  - inversion 1 as [|? ? m1 e1 m2 e2 k Ha Hb|x|x|x|l1 l' Hl|? ? l1 l' Ha Hb Hl|? ? d d' Ha Hb ? Hd|l1 l' ? Hl|? ? ? ?| |?]; subst; try (by inversion Hn); try (by inversion Hn; subst; clash).
    apply tup_tuple in Ha, Hb. apply tup_tuple in Hn. assert (l1 = l) as -> by congruence. rewrite Hb. apply eq_items_spec. exact (proj2 (Forall2_iff (fun x y => py_eqb x y = true) equal l l' HF) Hl).
Qed.
Lemma equal_dict a b d : dictionary a d -> Forall (fun p => (forall y, py_eqb p.1 y = true <-> equal p.1 y) /\ (forall y, py_eqb p.2 y = true <-> equal p.2 y)) d ->
  match dict_of b with Some d' => Nat.eqb (length d) (length d') && sub_dict d d' | None => false end = true <-> equal a b.
Proof.
  intros Hn HF. rewrite Forall_forall in HF. split.
  - destruct (dict_of b) as [d'|] eqn:E2; [|done]. apply dict_dictionary in E2. intros [Hl%Nat.eqb_eq Hs]%andb_prop. rewrite sub_dict_spec in Hs.
    eapply eq_dict; [exact Hn|exact E2|done|]. intros p Hp. destruct (Hs p Hp) as (q & Hq & H1 & H2). destruct (HF p Hp) as [F1 F2].
    exists q. split; [done|]. split; [by apply F1|by apply F2].
  - inversion 1 as [|? ? m1 e1 m2 e2 k Ha Hb|x|x|x|l1 l' Hl|? ? l1 l' Ha Hb Hl|? ? d1 d' Ha Hb Hlen Hd|l1 l' ? Hl|? ? ? ?| |?]; subst; try (by inversion Hn); try (by inversion Hn; subst; clash).
    apply dict_dictionary in Ha, Hb, Hn. assert (d1 = d) as -> by congruence. rewrite Hb. apply andb_true_intro. split; [by apply Nat.eqb_eq|].
    apply sub_dict_spec. intros p Hp. destruct (Hd p Hp) as (q & Hq & H1 & H2). destruct (HF p Hp) as [F1 F2].
    exists q. split; [done|]. split; [by apply F1|by apply F2].
Qed.
(** C32: the model's equality is Python's *)
Theorem C32_equality a b : py_eqb a b = true <-> equal a b.
Proof.
  revert b. induction a as [|x|z|m e|x|x|x|l IH|l IH|l IH|l IH|d IH|d IH|l IH|n v IH| |n] using val_ind'; intros b; rewrite py_eqb_eq.
  - split; [destruct b; try done; constructor|]. inversion 1; subst; try done; clash.
  - by apply (equal_number _ _ (if x then 1 else 0)%Z 0%Z (nb_bool x)).
  - by apply (equal_number _ _ z 0%Z (nb_int z)).
  - by apply (equal_number _ _ m e (nb_float m e)).
  - split; [destruct b; try done; intros <-%bool_decide_eq_true_1; constructor|]. inversion 1; subst; try clash. by apply bool_decide_eq_true_2.
  - split; [destruct b; try done; intros <-%bool_decide_eq_true_1; constructor|]. inversion 1; subst; try clash. by apply bool_decide_eq_true_2.
  - split; [destruct b; try done; intros <-%bool_decide_eq_true_1; constructor|]. inversion 1; subst; try clash. by apply bool_decide_eq_true_2.
  - split.
    + destruct b as [| | | | | | |l'| | | | | | | | |]; try done. intros Hl%eq_items_spec. apply eq_list. exact (proj1 (Forall2_iff (fun x y => py_eqb x y = true) equal l l' IH) Hl).
    + inversion 1 as [| | | | |l1 l' Hl| | | | | |]; subst; try clash. apply eq_items_spec. exact (proj2 (Forall2_iff (fun x y => py_eqb x y = true) equal l l' IH) Hl).
  - by apply (equal_tuple _ _ l (tp_tuple l)).
  - by apply (equal_tuple _ _ l (tp_edn_list l)).
  - by apply (equal_tuple _ _ l (tp_edn_tuple l)).
  - by apply (equal_dict _ _ d (dc_dict d)).
  - by apply (equal_dict _ _ d (dc_edn d)).
  - rewrite Forall_forall in IH. split.
    + destruct b as [| | | | | | | | | | | | |l'| | |]; try done. intros [Hl%Nat.eqb_eq Hs]%andb_prop. rewrite sub_list_spec in Hs.
      apply eq_set; [done|]. intros x Hx. destruct (Hs x Hx) as (y & Hy & He). exists y. split; [done|]. by apply IH.
    + inversion 1 as [| | | | | | | |l1 l' Hlen Hl| | |]; subst; try clash. apply andb_true_intro. split; [by apply Nat.eqb_eq|]. apply sub_list_spec.
      intros x Hx. destruct (Hl x Hx) as (y & Hy & He). exists y. split; [done|]. by apply IH.
  - split.
    + destruct b; try done. intros [<-%bool_decide_eq_true_1 Hv]%andb_prop. apply eq_tag. by apply IH.
    + inversion 1; subst; try clash. apply andb_true_intro. split; [by apply bool_decide_eq_true_2|by apply IH].
  - split; [destruct b; try done; constructor|]. inversion 1; subst; try done; clash.
  - split; [destruct b; try done; intros <-%N.eqb_eq; constructor|]. inversion 1; subst; try clash. apply N.eqb_refl.
Qed.
(** Examples: 1 == 1.0 == True, a tuple is no list, [{1: "a"} == edn.Dict({1.0: "a"})], and what counts as false *)
Theorem C32_equality_example :
  equal (VBool true) (VFloat 2 (-1)) /\ ~ equal (VList []) (VTuple []) /\
  equal (VDict [(VInt 1, VStr (s "a")); (VStr (s "k"), VNone)]) (VMap [(VStr (s "k"), VNone); (VFloat 4 (-2), VStr (s "a"))]) /\
  counts_false (VStr []) /\ ~ counts_false (VStr (s "0")) /\ goes_through (VDict [(VInt 1, VNone); (VInt 2, VNone)]) [VInt 1; VInt 2].
Proof.
  split_and!.
  - apply C32_equality. vm_compute. reflexivity.
  - intros Hx%C32_equality. done.
  - apply C32_equality. vm_compute. reflexivity.
  - apply C29_truth. done.
  - intros Hx%C29_truth. done.
  - apply C18_iteration. done.
Qed.
(** Example: [@skip(if: $v)] with the list [] as the value of the variable keeps the selection, whatever @include says *)
Theorem C29_judged_example :
  judged [(s "v", VList [])] [GDir (s "other") []; GDir (s "skip") [(s "if", GVar (s "v"))]; GDir (s "include") [(s "if", GBool false)]] false.
Proof. by apply C29_judged. Qed.
Print Assumptions C32_equality.
Print Assumptions C29_judged.
Print Assumptions C18_iteration.

(** What [if] of a compiled expression takes for false: the same, and what is empty among the lists
    and dictionaries which the expression itself makes and the lists of objects it is given. *)
Theorem C53_truth F v :
  (@Expr.d_true (ExprRun.py_dom F) v = false <->
   (exists w, v = ExprRun.py_val w /\ counts_false w) \/ v = ExprRun.PyT (PV (IRefs [])) \/ v = ExprRun.PyL [] \/ v = ExprRun.PyD []).
Proof.
  cbn [Expr.d_true ExprRun.py_dom]. destruct v as [t|f|l|d].
  - destruct t as [i|d|l|e].
    + destruct i as [w|n i|l].
      * change (ExprRun.py_true w = false <-> (exists w0, ExprRun.PyT (PV (IVal w)) = ExprRun.py_val w0 /\ counts_false w0) \/
          ExprRun.PyT (PV (IVal w)) = ExprRun.PyT (PV (IRefs [])) \/ ExprRun.PyT (PV (IVal w)) = ExprRun.PyL [] \/ ExprRun.PyT (PV (IVal w)) = ExprRun.PyD []).
        assert (ExprRun.py_true w = truthy w) as ->.
        { destruct w as [| | | |x|x|x|l|l|l|l|l|l|l| | |]; try done; by first [destruct x | destruct l]. }
        rewrite C29_truth. split; [left; eauto|]. by intros [(w' & [= <-] & ?)|[[=]|[[=]|[=]]]].
      * split; [done|]. by intros [(w & [=] & _)|[[=]|[[=]|[=]]]].
      * destruct l as [|x l]; (split; [|try done]); [intros _; right; by left|done|by intros [(w & [=] & _)|[[=]|[[=]|[=]]]]].
    + split; [done|]. by intros [(w & [=] & _)|[[=]|[[=]|[=]]]].
    + split; [done|]. by intros [(w & [=] & _)|[[=]|[[=]|[=]]]].
    + split; [done|]. by intros [(w & [=] & _)|[[=]|[[=]|[=]]]].
  - split; [done|]. by intros [(w & [=] & _)|[[=]|[[=]|[=]]]].
  - destruct l; [split; [intros _; right; right; by left|done]|]. split; [done|]. by intros [(w & [=] & _)|[[=]|[[=]|[=]]]].
  - destruct d; [split; [intros _; right; right; by right|done]|]. split; [done|]. by intros [(w & [=] & _)|[[=]|[[=]|[=]]]].
Qed.

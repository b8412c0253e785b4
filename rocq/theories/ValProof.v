(** Python's [==] on the values of [Val.v] is an equivalence. *)
From Verif Require Import Base Val.

Lemma flt_eqb_spec m1 e1 m2 e2 e : (e <= e1)%Z -> (e <= e2)%Z ->
  flt_eqb m1 e1 m2 e2 = true <-> (m1 * 2 ^ (e1 - e) = m2 * 2 ^ (e2 - e))%Z.
Proof.
  intros H1 H2. unfold flt_eqb. rewrite Z.eqb_eq. set (m := Z.min e1 e2).
  assert (e <= m)%Z by (unfold m; lia).
  replace (e1 - e)%Z with ((e1 - m) + (m - e))%Z by lia. replace (e2 - e)%Z with ((e2 - m) + (m - e))%Z by lia.
  rewrite !Z.pow_add_r by (unfold m in *; lia). rewrite !Z.mul_assoc.
  split; [by intros ->|]. intros Hm. eapply Z.mul_reg_r; [|exact Hm]. apply Z.pow_nonzero; lia.
Qed.
Lemma flt_eqb_refl m e : flt_eqb m e m e = true.
Proof. apply (flt_eqb_spec _ _ _ _ e); [lia..|done]. Qed.
Lemma flt_eqb_sym m1 e1 m2 e2 : flt_eqb m1 e1 m2 e2 = true -> flt_eqb m2 e2 m1 e1 = true.
Proof. rewrite !(flt_eqb_spec _ _ _ _ (Z.min e1 e2)) by lia. done. Qed.
Lemma flt_eqb_trans m1 e1 m2 e2 m3 e3 : flt_eqb m1 e1 m2 e2 = true -> flt_eqb m2 e2 m3 e3 = true -> flt_eqb m1 e1 m3 e3 = true.
Proof. rewrite !(flt_eqb_spec _ _ _ _ (Z.min e1 (Z.min e2 e3))) by lia. intros ->. done. Qed.

(** [py_eqb] on the components of containers *)
Fixpoint eq_items (l1 l2 : list val) : bool :=
  match l1, l2 with
  | [], [] => true
  | x :: l1', y :: l2' => py_eqb x y && eq_items l1' l2'
  | _, _ => false
  end.
Fixpoint sub_dict (d1 d2 : list (val * val)) : bool :=
  match d1 with
  | [] => true
  | (k, v) :: d1' => existsb (fun q => py_eqb k q.1 && py_eqb v q.2) d2 && sub_dict d1' d2
  end.
Fixpoint sub_list (l1 l2 : list val) : bool :=
  match l1 with [] => true | x :: l1' => existsb (py_eqb x) l2 && sub_list l1' l2 end.

Lemma eq_items_spec l1 l2 : eq_items l1 l2 = true <-> Forall2 (fun x y => py_eqb x y = true) l1 l2.
Proof.
  revert l2. induction l1 as [|x l1 IH]; intros [|y l2]; simpl; try (split; [done|by inversion 1]).
  rewrite andb_true_iff, IH. split; [intros []; by constructor|by inversion 1].
Qed.
Lemma sub_dict_spec d1 d2 : sub_dict d1 d2 = true <->
  forall p, p ∈ d1 -> exists q, q ∈ d2 /\ py_eqb p.1 q.1 = true /\ py_eqb p.2 q.2 = true.
Proof.
  induction d1 as [|[k v] d1 IH]; simpl; [split; [by intros _ p Hp%not_elem_of_nil|done]|].
  rewrite andb_true_iff, IH, existsb_exists. split.
  - intros [(q & Hq & He) Hd] p [->|Hp]%elem_of_cons; [|by apply Hd]. exists q. rewrite andb_true_iff in He.
    split; [by apply elem_of_list_In|done].
  - intros Hd. split; [|intros p Hp; apply Hd; by right]. destruct (Hd (k, v)) as (q & Hq & He); [left|].
    exists q. split; [by apply elem_of_list_In|by rewrite andb_true_iff].
Qed.
Lemma sub_list_spec l1 l2 : sub_list l1 l2 = true <-> forall x, x ∈ l1 -> exists y, y ∈ l2 /\ py_eqb x y = true.
Proof.
  induction l1 as [|x l1 IH]; simpl; [split; [by intros _ p Hp%not_elem_of_nil|done]|].
  rewrite andb_true_iff, IH, existsb_exists. split.
  - intros [(q & Hq & He) Hd] p [->|Hp]%elem_of_cons; [|by apply Hd]. exists q. split; [by apply elem_of_list_In|done].
  - intros Hd. split; [|intros p Hp; apply Hd; by right]. destruct (Hd x) as (q & Hq & He); [left|].
    exists q. split; [by apply elem_of_list_In|done].
Qed.
Lemma py_eqb_eq a b : py_eqb a b =
  match a with
  | VBool _ | VInt _ | VFloat _ _ =>
      match num_of a, num_of b with
      | Some (m1, e1), Some (m2, e2) => flt_eqb m1 e1 m2 e2
      | _, _ => false
      end
  | VTuple l | VVec l | VParen l => match tup_of b with Some l' => eq_items l l' | None => false end
  | VDict d | VMap d =>
      match dict_of b with
      | Some d' => Nat.eqb (length d) (length d') && sub_dict d d'
      | None => false
      end
  | VList l => match b with VList l' => eq_items l l' | _ => false end
  | VSet l => match b with VSet l' => Nat.eqb (length l) (length l') && sub_list l l' | _ => false end
  | VNone => match b with VNone => true | _ => false end
  | VStr x => match b with VStr y => bool_decide (x = y) | _ => false end
  | VKw x => match b with VKw y => bool_decide (x = y) | _ => false end
  | VSym x => match b with VSym y => bool_decide (x = y) | _ => false end
  | VTag n v => match b with VTag n' v' => bool_decide (n = n') && py_eqb v v' | _ => false end
  | VNothing => match b with VNothing => true | _ => false end
  | VObj n => match b with VObj n' => N.eqb n n' | _ => false end
  end.
Proof. destruct a; reflexivity. Qed.

Lemma py_eqb_refl a : py_eqb a a = true.
Proof.
  induction a as [|b|z|m e|x|x|x|l IH|l IH|l IH|l IH|d IH|d IH|l IH|n v IH| |n] using val_ind';
    rewrite py_eqb_eq; try done; try (by apply bool_decide_eq_true_2).
  all: try apply flt_eqb_refl.
  1-4: simpl; apply eq_items_spec; induction IH; by constructor.
  1-2: simpl; rewrite Nat.eqb_refl; apply sub_dict_spec; rewrite Forall_forall in IH; intros p Hp; exists p; split; [done|by apply IH].
  - rewrite Nat.eqb_refl. apply sub_list_spec. rewrite Forall_forall in IH. intros p Hp. exists p. split; [done|by apply IH].
  - rewrite bool_decide_eq_true_2 by done. done.
  - apply N.eqb_refl.
Qed.

Lemma eq_items_trans l1 : Forall (fun a => forall b c, py_eqb a b = true -> py_eqb b c = true -> py_eqb a c = true) l1 ->
  forall l2 l3, eq_items l1 l2 = true -> eq_items l2 l3 = true -> eq_items l1 l3 = true.
Proof.
  intros IH l2 l3. rewrite !eq_items_spec. intros H1. revert l3. induction H1 as [|x y l1 l2 Hx _ IHl]; intros l3 H2; inversion H2; subst; [constructor|].
  inversion IH; subst. constructor; [by eauto|by apply IHl].
Qed.
Lemma sub_dict_trans d1 : Forall (fun p => (forall b c, py_eqb p.1 b = true -> py_eqb b c = true -> py_eqb p.1 c = true) /\
     (forall b c, py_eqb p.2 b = true -> py_eqb b c = true -> py_eqb p.2 c = true)) d1 ->
  forall d2 d3, sub_dict d1 d2 = true -> sub_dict d2 d3 = true -> sub_dict d1 d3 = true.
Proof.
  intros IH d2 d3. rewrite !sub_dict_spec. rewrite Forall_forall in IH. intros H1 H2 p Hp.
  destruct (H1 p Hp) as (q & Hq & E1 & E2), (H2 q Hq) as (r & Hr & E3 & E4). exists r. split; [done|].
  destruct (IH p Hp) as [I1 I2]. eauto.
Qed.
Lemma py_eqb_trans a : forall b c, py_eqb a b = true -> py_eqb b c = true -> py_eqb a c = true.
Proof.
  induction a as [|b|z|m e|x|x|x|l IH|l IH|l IH|l IH|d IH|d IH|l IH|n v IH| |n] using val_ind'; intros b' c H1 H2; rewrite py_eqb_eq in H1; rewrite py_eqb_eq in H2; rewrite py_eqb_eq; revert H1 H2.
  all: try (destruct b'; try done; intros _; by destruct c).
  1-3: simpl; destruct (num_of b') as [[m2 e2]|] eqn:E2; [|done]; destruct b'; try done; destruct (num_of c) as [[m3 e3]|]; try done;
       injection E2 as <- <-; apply flt_eqb_trans.
  1-3: destruct b'; try done; intros ->%bool_decide_eq_true_1; destruct c; done.
  - destruct b'; try done. destruct c; try done. by apply eq_items_trans.
  - destruct b'; try done; simpl; destruct (tup_of c); try done; by apply eq_items_trans.
  - destruct b'; try done; simpl; destruct (tup_of c); try done; by apply eq_items_trans.
  - destruct b'; try done; simpl; destruct (tup_of c); try done; by apply eq_items_trans.
  - destruct b'; try done; simpl; destruct (dict_of c); try done; intros [->%Nat.eqb_eq H1]%andb_true_iff [->%Nat.eqb_eq H2]%andb_true_iff;
      rewrite Nat.eqb_refl; simpl; by eapply sub_dict_trans.
  - destruct b'; try done; simpl; destruct (dict_of c); try done; intros [->%Nat.eqb_eq H1]%andb_true_iff [->%Nat.eqb_eq H2]%andb_true_iff;
      rewrite Nat.eqb_refl; simpl; by eapply sub_dict_trans.
  - destruct b'; try done; destruct c; try done; intros [->%Nat.eqb_eq H1]%andb_true_iff [->%Nat.eqb_eq H2]%andb_true_iff.
    rewrite Nat.eqb_refl. simpl. rewrite sub_list_spec in *. rewrite Forall_forall in IH. intros x Hx.
    destruct (H1 x Hx) as (y & Hy & E1), (H2 y Hy) as (z & Hz & E2). exists z. split; [done|]. by eapply IH.
  - destruct b'; try done; destruct c; try done. intros [->%bool_decide_eq_true_1 H1]%andb_true_iff [->%bool_decide_eq_true_1 H2]%andb_true_iff.
    rewrite bool_decide_eq_true_2 by done. simpl. by eapply IH.
  - destruct b'; try done; destruct c; try done. intros ->%N.eqb_eq ->%N.eqb_eq. apply N.eqb_refl.
Qed.

(** Keys of dicts and members of sets are distinct, everywhere in the value. *)
Fixpoint proper (v : val) : Prop :=
  match v with
  | VList l | VTuple l | VVec l | VParen l => foldr (fun x P => proper x /\ P) True l
  | VDict d | VMap d =>
      ForallOrdPairs (fun a b => py_eqb a b = false) (map fst d) /\
      foldr (fun p P => (proper p.1 /\ proper p.2) /\ P) True d
  | VSet l => ForallOrdPairs (fun a b => py_eqb a b = false) l /\ foldr (fun x P => proper x /\ P) True l
  | VTag _ v => proper v
  | _ => True
  end.

Lemma foldr_conj {A} (P : A -> Prop) l : foldr (fun x Q => P x /\ Q) True l <-> forall x, x ∈ l -> P x.
Proof.
  induction l as [|x l IH]; simpl; [split; [by intros _ x Hx%not_elem_of_nil|done]|]. rewrite IH. split.
  - intros [? ?] y [->|?]%elem_of_cons; auto.
  - intros Hl. split; [apply Hl; left|intros; apply Hl; by right].
Qed.

Lemma pigeonhole {A B} (R : A -> B -> Prop) (l : list A) : forall l' : list B,
  length l = length l' -> (forall a, a ∈ l -> exists b, b ∈ l' /\ R a b) ->
  ForallOrdPairs (fun a1 a2 => forall b, R a1 b -> R a2 b -> False) l ->
  forall b, b ∈ l' -> exists a, a ∈ l /\ R a b.
Proof.
  induction l as [|a l IH]; intros l' Hlen Hr Hinj b Hb.
  - destruct l'; [by apply not_elem_of_nil in Hb|done].
  - destruct (Hr a) as (b0 & Hb0 & Ha); [left|]. apply elem_of_list_split in Hb0 as (l1 & l2 & ->).
    inversion Hinj as [|? ? Ha' Hl]; subst.
    assert (b = b0 \/ b ∈ l1 ++ l2) as [->|Hb'] by (rewrite elem_of_app, elem_of_cons in Hb; rewrite elem_of_app; naive_solver).
    + exists a. split; [left|done].
    + destruct (IH (l1 ++ l2)) with (b := b) as (a' & Ha1 & Ha2); [..|done|exists a'; split; [by right|done]].
      * rewrite app_length in *. simpl in Hlen. lia.
      * intros a' Ha1. destruct (Hr a') as (b' & Hb1 & Hb2); [by right|].
        assert (b' = b0 \/ b' ∈ l1 ++ l2) as [->|Hb3] by (rewrite elem_of_app, elem_of_cons in Hb1; rewrite elem_of_app; naive_solver).
        -- exfalso. rewrite List.Forall_forall in Ha'. eapply Ha'; [by apply elem_of_list_In|done|done].
        -- by exists b'.
      * done.
Qed.
Lemma ordpairs_map {A B} (f : A -> B) (P : B -> B -> Prop) l : ForallOrdPairs P (map f l) -> ForallOrdPairs (fun a b => P (f a) (f b)) l.
Proof.
  induction l as [|x l IH]; simpl; intros Hp; inversion Hp; subst; constructor; auto. by apply List.Forall_map.
Qed.
Lemma ordpairs_impl {A} (P Q : A -> A -> Prop) l : (forall a b, a ∈ l -> b ∈ l -> P a b -> Q a b) -> ForallOrdPairs P l -> ForallOrdPairs Q l.
Proof.
  intros Hpq Hp. induction Hp as [|a l Ha Hp IH]; constructor.
  - rewrite List.Forall_forall in *. intros x Hx. apply Hpq; [left|right; by apply elem_of_list_In|by apply Ha].
  - apply IH. intros. apply Hpq; [by right..|done].
Qed.

Lemma sub_dict_sym d d' : length d = length d' ->
  (forall p, p ∈ d -> (forall b, py_eqb p.1 b = true -> py_eqb b p.1 = true) /\ (forall b, py_eqb p.2 b = true -> py_eqb b p.2 = true)) ->
  ForallOrdPairs (fun a b => py_eqb a b = false) (map fst d) -> sub_dict d d' = true -> sub_dict d' d = true.
Proof.
  intros Hlen IH Hd. rewrite !sub_dict_spec. intros Hs q Hq.
  destruct (pigeonhole (fun p q : val * val => p ∈ d /\ py_eqb p.1 q.1 = true /\ py_eqb p.2 q.2 = true) d d' Hlen) with (b := q) as (p & Hp & _ & E1 & E2).
  - intros p Hp. destruct (Hs p Hp) as (b & ? & ? & ?). eauto.
  - apply ordpairs_map in Hd. eapply ordpairs_impl; [|exact Hd]. intros p1 p2 H1 H2 Hf b (_ & E1 & _) (_ & E2 & _).
    destruct (IH p2 H2) as [I2 _]. pose proof (py_eqb_trans _ _ _ E1 (I2 _ E2)). cbv beta in Hf. congruence.
  - done.
  - destruct (IH p Hp) as [I1 I2]. exists p. auto.
Qed.
Lemma eq_items_sym l l' : (forall x, x ∈ l -> forall b, py_eqb x b = true -> py_eqb b x = true) -> eq_items l l' = true -> eq_items l' l = true.
Proof.
  rewrite !eq_items_spec. intros IH Hl. induction Hl as [|x y l l' Hx _ IHl]; constructor; [apply IH; [left|done]|].
  apply IHl. intros. apply IH; [by right|done].
Qed.
Lemma py_eqb_sym a : forall b, proper a -> py_eqb a b = true -> py_eqb b a = true.
Proof.
  induction a as [|b|z|m e|x|x|x|l IH|l IH|l IH|l IH|d IH|d IH|l IH|n v IH| |n] using val_ind'; intros b' Hp H1; rewrite py_eqb_eq in H1; rewrite py_eqb_eq; revert H1.
  all: try (destruct b'; done).
  all: try (destruct b'; try done; simpl; apply flt_eqb_sym).
  all: try (destruct b'; try done; intros ->%bool_decide_eq_true_1; by apply bool_decide_eq_true_2).
  1-4: simpl in Hp; rewrite foldr_conj in Hp; rewrite Forall_forall in IH; destruct b'; try done; simpl; apply eq_items_sym; intros; apply IH; auto.
  1-2: simpl in Hp; destruct Hp as [Hd Hp]; rewrite (foldr_conj (fun p : val * val => proper p.1 /\ proper p.2)) in Hp; rewrite Forall_forall in IH;
       destruct b'; try done; simpl; intros [E1 E2]%andb_true_iff; apply andb_true_iff; (split; [apply Nat.eqb_eq; symmetry; by apply Nat.eqb_eq|]);
       (apply sub_dict_sym; [by apply Nat.eqb_eq| |done|done]); intros p Hp'; destruct (IH p Hp'), (Hp p Hp'); auto.
  - simpl in Hp. destruct Hp as [Hd Hp]. rewrite foldr_conj in Hp. rewrite Forall_forall in IH. destruct b' as [| | | | | | | | | | | | |l'| | |]; try done.
    intros [E1 E2]%andb_true_iff. apply andb_true_iff. apply Nat.eqb_eq in E1. split; [by apply Nat.eqb_eq|].
    rewrite sub_list_spec in *. intros q Hq.
    destruct (pigeonhole (fun p q : val => p ∈ l /\ py_eqb p q = true) l l' E1) with (b := q) as (p & Hp' & _ & E3).
    + intros p Hp'. destruct (E2 p Hp') as (b & ? & ?). eauto.
    + eapply ordpairs_impl; [|exact Hd]. intros p1 p2 H1 H2 Hf b (_ & F1) (_ & F2).
      pose proof (IH p2 H2 b (Hp _ H2) F2) as F3. pose proof (py_eqb_trans _ _ _ F1 F3). cbv beta in Hf. congruence.
    + done.
    + exists p. auto.
  - destruct b'; try done. intros [->%bool_decide_eq_true_1 H1]%andb_true_iff. rewrite bool_decide_eq_true_2 by done. simpl. by apply IH.
  - destruct b'; try done. intros ->%N.eqb_eq. apply N.eqb_refl.
Qed.

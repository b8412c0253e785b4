(** Theorems about type checks of expressions (C39). *)
From Verif Require Import Base Val Types Query Expr ExprSpec.

Definition is_ref (t : ty) : bool := match t with TRef _ => true | _ => false end.
(** One step of the check, on types which are not references. *)
Definition ok_step (types : dict str ty) (R : ty -> ty -> Prop) (u1 u2 : ty) : Prop :=
  match u2 with
  | TAny => True
  | TBool | TStr | TInt | TFloat => u1 = u2
  | TRef _ => is_ref u1 = true
  | TCall _ => match u1 with TCall _ => True | _ => False end
  | TOpt b => match u1 with TOpt a => R a b | _ => R u1 b end
  | TSeq b => match u1 with TSeq a => R a b | _ => False end
  | TMap b1 b2 => match u1 with TMap a1 a2 => R a1 b1 /\ R a2 b2 | _ => False end
  | TRec f2 => match u1 with
               | TRec f1 => forall key v2, (key, v2) ∈ f2 ->
                   exists v1 w1, dget key f1 = Some v1 /\ get_type types v1 = Ok w1 /\ R w1 v2
               | _ => False
               end
  end.
Lemma check_type_S types k t1 t2 :
  check_type types (S k) t1 t2 = Ok tt <->
  exists u1 u2, get_type types t1 = Ok u1 /\ get_type types t2 = Ok u2 /\
    ok_step types (fun a b => check_type types k a b = Ok tt) u1 u2.
Proof.
  cbn [check_type].
  destruct (get_type types t1) as [u1|]; [|split; [done|intros (? & ? & ? & _); done]].
  destruct (get_type types t2) as [u2|]; [|split; [done|intros (? & ? & _ & ? & _); done]].
  assert (forall P Q : Prop, (P <-> Q) -> P <-> exists v1 v2, Ok u1 = Ok v1 /\ Ok u2 = Ok v2 /\ (v1 = u1 -> v2 = u2 -> Q)) as Hw.
  { intros P Q HPQ. split.
    - intros HP. exists u1, u2. split_and!; [done..|]. intros _ _. by apply HPQ.
    - intros (v1 & v2 & [= <-] & [= <-] & HQ). apply HPQ. by apply HQ. }
  match goal with |- ?P <-> _ => cut (P <-> ok_step types (fun a b => check_type types k a b = Ok tt) u1 u2) end.
  { intros HPQ. split.
    - intros HP. exists u1, u2. split_and!; [done..|]. by apply HPQ.
    - intros (v1 & v2 & [= <-] & [= <-] & HQ). by apply HPQ. }
  clear Hw. destruct u2 as [| | | | |?|b|b|b1 b2|f2|?]; unfold ok_step;
    try (destruct u1; cbn [same_meta is_ref]; split; done).
  - destruct u1 as [| | | | |?|a|a|a1 a2|f1|?]; cbn [same_meta]; try (split; done).
    destruct (check_type types k a1 b1) as [[]|]; [|split; [done|intros [? _]; done]].
    split; [done|]. by intros [_ ?].
  - destruct u1 as [| | | | |?|a|a|a1 a2|f1|?]; cbn [same_meta]; try (split; done).
    induction f2 as [|[key v2] f2 IH].
    { split; [|done]. intros _ key v2 Hin. by apply elem_of_nil in Hin. }
    destruct (dget key f1) as [v1|] eqn:E1.
    2: { split; [done|]. intros Hall. destruct (Hall key v2) as (? & ? & ? & _); [left|]. congruence. }
    destruct (get_type types v1) as [w1|] eqn:E2.
    2: { split; [done|]. intros Hall. destruct (Hall key v2) as (? & ? & ? & ? & _); [left|]. congruence. }
    destruct (check_type types k w1 v2) as [[]|] eqn:E3.
    2: { split; [done|]. intros Hall. destruct (Hall key v2) as (? & ? & ? & ? & ?); [left|]. congruence. }
    split.
    + intros Hgo key' v2' Hin. apply elem_of_cons in Hin as [[= -> ->]|Hin]; [by exists v1, w1|]. by apply IH.
    + intros Hall. apply IH. intros key' v2' Hin. apply Hall. by right.
Qed.
Lemma ok_step_mono types (R R' : ty -> ty -> Prop) u1 u2 : (forall a b, R a b -> R' a b) -> ok_step types R u1 u2 -> ok_step types R' u1 u2.
Proof.
  intros HR. destruct u2, u1; simpl; auto; try tauto.
  - intros [? ?]. auto.
  - intros Hall key v2 Hin. destruct (Hall _ _ Hin) as (v1 & w1 & ? & ? & ?). exists v1, w1. auto.
Qed.
Lemma check_mono types k k' t1 t2 : check_type types k t1 t2 = Ok tt -> k <= k' -> check_type types k' t1 t2 = Ok tt.
Proof.
  revert k' t1 t2. induction k as [|k IH]; intros k' t1 t2; [done|]. intros Hc Hk.
  destruct k' as [|k']; [lia|]. apply check_type_S in Hc as (u1 & u2 & H1 & H2 & H3).
  apply check_type_S. exists u1, u2. split_and!; [done..|]. eapply ok_step_mono; [|exact H3].
  intros a b Hab. apply IH; [done|lia].
Qed.
Lemma has_type_get types v t u : get_type types t = Ok u -> has_type types v t <-> has_type types v u.
Proof.
  destruct t; cbn [get_type]; try by intros [= <-].
  destruct (dget n types) as [t|] eqn:E; [|done]. intros [= <-]. split.
  - intros Hv. inversion Hv; subst. congruence.
  - intros Hv. by eapply ht_ref.
Qed.

(** C39: the check accepts a type only where every value of the first type is of the second. *)
Theorem C39_accepted_types_are_sound types fuel t1 t2 v :
  (forall n m, dget n types <> Some (TRef m)) ->
  check_type types fuel t1 t2 = Ok tt -> has_type types v t1 -> has_type types v t2.
Proof.
  intros Hnr. revert t1 t2 v. induction fuel as [|k IH]; intros t1 t2 v Hc Hv; [done|].
  apply check_type_S in Hc as (u1 & u2 & H1 & H2 & Hs).
  rewrite (has_type_get _ _ _ _ H2). rewrite (has_type_get _ _ _ _ H1) in Hv.
  assert (is_ref u1 = false) as Hr1.
  { destruct t1; try (by injection H1 as <-). cbn [get_type] in H1. destruct (dget n types) eqn:E; [|done].
    injection H1 as <-. destruct t; try done. by apply Hnr in E. }
  destruct u2 as [| | | | |?|b|b|b1 b2|f2|?]; cbn [ok_step] in Hs; subst; try done.
  - constructor.
  - by rewrite Hs in Hr1.
  - destruct u1; try (apply ht_some; by eapply IH). inversion Hv; subst; [constructor|]. apply ht_some. by eapply IH.
  - destruct u1; try done. inversion Hv; subst. constructor. eauto.
  - destruct u1; try done. destruct Hs as [Hs1 Hs2]. inversion Hv; subst. constructor; eauto.
  - destruct u1 as [| | | | |?|?|?|? ?|f1|?]; try done. inversion Hv as [| | | | | | | | | |d fs Hp Hf]; subst. constructor.
    + intros n t E. destruct (Hs n t) as (v1 & w1 & E1 & _); [by apply dget_Some_elem|]. by eapply Hp.
    + intros n t x E Ex. destruct (Hs n t) as (v1 & w1 & E1 & E2 & Hc); [by apply dget_Some_elem|].
      eapply IH; [exact Hc|]. apply (has_type_get _ _ _ _ E2). eauto.
  - destruct u1; try done. inversion Hv.
Qed.

(** ** The check decides the relation *)
Section closed.
  Context (types : dict str ty).
  Hypothesis Hct : closed_types types.
  Local Notation ok k t u := (check_type types k t u = Ok tt).
  Lemma closed_get t : closed types t -> exists u, get_type types t = Ok u /\ closed types u /\ is_ref u = false /\ get_type types u = Ok u.
  Proof.
    intros Hc. destruct t; try (by eexists).
    destruct (Hc n) as [u Hu]; [left|]. cbn [get_type]. rewrite Hu. destruct (Hct _ _ Hu) as [Hcu Hr].
    exists u. split_and!; [done..| |]; (destruct u; try done; exfalso; by eapply Hr).
  Qed.
  Lemma check_left k t u w : get_type types t = Ok w -> get_type types w = Ok w -> ok k t u <-> ok k w u.
  Proof. intros H1 H2. destruct k; [done|]. rewrite !check_type_S, H1, H2. done. Qed.
  Lemma check_right k t u w : get_type types u = Ok w -> get_type types w = Ok w -> ok k t u <-> ok k t w.
  Proof. intros H1 H2. destruct k; [done|]. rewrite !check_type_S, H1, H2. done. Qed.
  Lemma closed_rec fs n t : closed types (TRec fs) -> (n, t) ∈ fs -> closed types t.
  Proof.
    intros Hc Hin m Hm. apply Hc. cbn [refs_in]. apply elem_of_list_In, in_flat_map.
    exists (n, t). split; by apply elem_of_list_In.
  Qed.
  Lemma closed_map k v : closed types (TMap k v) -> closed types k /\ closed types v.
  Proof. intros Hc. split; intros n Hn; apply Hc; cbn [refs_in]; apply elem_of_app; auto. Qed.
  Lemma absorb k : forall t u, ok k TAny u -> closed types t -> ok k t u.
  Proof.
    induction k as [|k IH]; intros t u Hc Hcl; [done|]. apply check_type_S in Hc as (u1 & u2 & [= <-] & H2 & Hs).
    destruct (closed_get t Hcl) as (w & Hw & Hcw & Hrw & Hww).
    apply check_type_S. exists w, u2. split_and!; [done..|].
    destruct u2; try done. cbn [ok_step] in Hs |- *. destruct w; auto.
  Qed.
  Lemma trans_ok n : forall k1 k2 t1 t2 t3, k1 + k2 <= n -> ok k1 t1 t2 -> ok k2 t2 t3 ->
    closed types t1 -> closed types t2 -> closed types t3 -> ok (k1 + k2) t1 t3.
  Proof.
    induction n as [|n IH]; intros k1 k2 t1 t2 t3 Hn H12 H23 C1 C2 C3; [destruct k1; [done|lia]|].
    destruct k1 as [|k1]; [done|]. destruct k2 as [|k2]; [done|].
    pose proof H12 as H12'. pose proof H23 as H23'.
    apply check_type_S in H12 as (u1 & u2 & E1 & E2 & H12). apply check_type_S in H23 as (u2' & u3 & E2' & E3 & H23).
    rewrite E2 in E2'. injection E2' as <-.
    destruct (closed_get t1 C1) as (w1 & Ew1 & Cw1 & Rw1 & Gw1). rewrite E1 in Ew1. injection Ew1 as <-.
    destruct (closed_get t2 C2) as (w2 & Ew2 & Cw2 & Rw2 & Gw2). rewrite E2 in Ew2. injection Ew2 as <-.
    destruct (closed_get t3 C3) as (w3 & Ew3 & Cw3 & Rw3 & Gw3). rewrite E3 in Ew3. injection Ew3 as <-.
    apply (check_right _ _ _ u2 E2 Gw2) in H12'. apply (check_left _ _ _ u1 E1 Gw1) in H12'.
    apply (check_left _ _ _ u2 E2 Gw2) in H23'. apply (check_right _ _ _ u3 E3 Gw3) in H23'.
    apply (check_left _ _ _ u1 E1 Gw1), (check_right _ _ _ u3 E3 Gw3).
    assert (forall c, u3 = TOpt c -> ok (S k1 + k2) u1 c -> (forall a, u1 <> TOpt a) -> ok (S k1 + S k2) u1 u3) as Hopt.
    { intros c -> Hc Hno. replace (S k1 + S k2) with (S (S k1 + k2)) by lia. apply check_type_S.
      exists u1, (TOpt c). split_and!; [done..|]. destruct u1; try exact Hc. exfalso; by eapply Hno. }
    destruct u2 as [| | | | |?|b|b|b1 b2|f2|?]; try done.
    - apply (check_mono _ (S k2)); [|lia]. by apply absorb.
    - simpl in H12. subst u1. apply (check_mono _ (S k2)); [done|lia].
    - simpl in H12. subst u1. apply (check_mono _ (S k2)); [done|lia].
    - simpl in H12. subst u1. apply (check_mono _ (S k2)); [done|lia].
    - simpl in H12. subst u1. apply (check_mono _ (S k2)); [done|lia].
    - destruct u3 as [| | | | |?|c|c|c1 c2|f3|?]; try done.
      { apply (check_mono _ 1); [|lia]. apply check_type_S. by exists u1, TAny. }
      replace (S k1 + S k2) with (S (S (k1 + k2))) by lia. apply check_type_S. exists u1, (TOpt c). split_and!; [done..|].
      cbn [ok_step] in H23. destruct u1 as [| | | | |?|a|a|a1 a2|f1|?]; cbn [ok_step] in H12 |- *;
        (apply (check_mono _ (k1 + k2)); [|lia]); apply (IH _ _ _ b); auto; try lia.
    - destruct u1 as [| | | | |?|?|a|? ?|?|?]; try done. destruct u3 as [| | | | |?|c|c|c1 c2|f3|?]; try done.
      + eapply Hopt; [reflexivity| |done]. apply (IH _ _ _ (TSeq b)); auto; lia.
      + cbn [ok_step] in H12, H23. replace (S k1 + S k2) with (S (S (k1 + k2))) by lia. apply check_type_S.
        exists (TSeq a), (TSeq c). split_and!; [done..|]. cbn [ok_step]. apply (check_mono _ (k1 + k2)); [|lia].
        apply (IH _ _ _ b); auto; lia.
    - destruct u1 as [| | | | |?|?|?|a1 a2|?|?]; try done. destruct u3 as [| | | | |?|c|c|c1 c2|f3|?]; try done.
      + eapply Hopt; [reflexivity| |done]. apply (IH _ _ _ (TMap b1 b2)); auto; lia.
      + cbn [ok_step] in H12, H23. replace (S k1 + S k2) with (S (S (k1 + k2))) by lia. apply check_type_S.
        exists (TMap a1 a2), (TMap c1 c2). split_and!; [done..|]. cbn [ok_step].
        apply closed_map in Cw1 as [? ?]. apply closed_map in Cw2 as [? ?]. apply closed_map in Cw3 as [? ?].
        destruct H12, H23. split; (apply (check_mono _ (k1 + k2)); [|lia]); [apply (IH _ _ _ b1)|apply (IH _ _ _ b2)]; auto; lia.
    - destruct u1 as [| | | | |?|?|?|? ?|f1|?]; try done. destruct u3 as [| | | | |?|c|c|c1 c2|f3|?]; try done.
      + eapply Hopt; [reflexivity| |done]. apply (IH _ _ _ (TRec f2)); auto; lia.
      + cbn [ok_step] in H12, H23. replace (S k1 + S k2) with (S (S (k1 + k2))) by lia. apply check_type_S.
        exists (TRec f1), (TRec f3). split_and!; [done..|]. cbn [ok_step]. intros key v3 Hin.
        destruct (H23 _ _ Hin) as (v2 & y2 & Ev2 & Ey2 & H23c).
        pose proof (dget_Some_elem _ _ _ Ev2) as Hin2.
        destruct (H12 _ _ Hin2) as (v1 & y1 & Ev1 & Ey1 & H12c).
        pose proof (dget_Some_elem _ _ _ Ev1) as Hin1.
        exists v1, y1. split_and!; [done..|]. apply (check_mono _ (k1 + k2)); [|lia].
        destruct (closed_get v1) as (z1 & Z1 & Cz1 & _); [exact (closed_rec _ _ _ Cw1 Hin1)|]. rewrite Ey1 in Z1. injection Z1 as <-.
        destruct (closed_get v2) as (z2 & Z2 & Cz2 & Rz2 & Gz2); [exact (closed_rec _ _ _ Cw2 Hin2)|]. rewrite Ey2 in Z2. injection Z2 as <-.
        apply (IH _ _ _ v2); auto; [lia| |exact (closed_rec _ _ _ Cw2 Hin2)|exact (closed_rec _ _ _ Cw3 Hin)].
        by apply (check_left _ _ _ y2).
    - destruct u1 as [| | | | |?|?|?|? ?|?|?]; try done. destruct u3 as [| | | | |?|c|c|c1 c2|f3|?]; try done.
      eapply Hopt; [reflexivity| |done]. apply (IH _ _ _ (TCall args)); auto; lia.
  Qed.
  (** an optional value can be used where the value is expected only if that is optional *)
  Lemma unwrap k : forall t u, ok k (TOpt t) u -> closed types t -> ok k t u.
  Proof.
    induction k as [|k IH]; intros t u Hc Hcl; [done|]. apply check_type_S in Hc as (u1 & u2 & [= <-] & H2 & Hs).
    destruct (closed_get t Hcl) as (w & Hw & Hcw & Hrw & Hww).
    apply check_type_S. exists w, u2. split_and!; [done..|].
    destruct u2 as [| | | | |?|b|b|b1 b2|f2|?]; try done. cbn [ok_step] in Hs |- *.
    apply (check_left _ _ _ w Hw Hww) in Hs. destruct w; auto.
  Qed.
  Lemma below_check t u : below types t u -> closed types t -> closed types u -> exists k, ok k t u.
  Proof.
    induction 1 as [t|t Hs|l l'|n t u E Hb IH|n t u E Hb IH|t u Hb IH|t u Hb IH|t u Hb IH|tk tv uk uv Hb1 IH1 Hb2 IH2|f1 f2 Hp Hb IH];
      intros C1 C2.
    - destruct (closed_get t C1) as (w & Hw & _). exists 1. apply check_type_S. by exists w, TAny.
    - exists 1. apply check_type_S. by destruct t; try done; eexists _, _.
    - exists 1. apply check_type_S. by eexists _, _.
    - destruct (Hct _ _ E) as [Ct Hr]. destruct (IH Ct C2) as [k Hk]. exists k.
      apply (check_left k _ _ t); [simpl; by rewrite E|destruct t; try done; exfalso; by eapply Hr|done].
    - destruct (Hct _ _ E) as [Cu Hr]. destruct (IH C1 Cu) as [k Hk]. exists k.
      apply (check_right k _ _ u); [simpl; by rewrite E|destruct u; try done; exfalso; by eapply Hr|done].
    - destruct (IH C1 C2) as [k Hk]. exists (S k). apply check_type_S. by eexists _, _.
    - destruct (IH C1 C2) as [k Hk].
      destruct (closed_get t C1) as (w & Hw & Hcw & Hrw & Hww). apply (check_left _ _ _ w Hw Hww) in Hk.
      exists (S k). apply check_type_S. exists w, (TOpt u). split_and!; [done..|]. cbn [ok_step].
      destruct w; try done. by apply unwrap.
    - destruct (IH C1 C2) as [k Hk]. exists (S k). apply check_type_S. by eexists _, _.
    - apply closed_map in C1 as [? ?]. apply closed_map in C2 as [? ?].
      destruct IH1 as [k1 Hk1]; [done..|]. destruct IH2 as [k2 Hk2]; [done..|]. exists (S (k1 + k2)).
      apply check_type_S. eexists _, _. split_and!; [done..|]. cbn [ok_step]. split.
      + apply (check_mono _ k1); [done|lia].
      + apply (check_mono _ k2); [done|lia].
    - assert (forall l : list (str * ty), (forall x, x ∈ l -> x ∈ f2) -> exists k, forall key v2, (key, v2) ∈ l ->
          exists v1 w1, dget key f1 = Some v1 /\ get_type types v1 = Ok w1 /\ ok k w1 v2) as Hl.
      { induction l as [|[key v2] l IHl]; intros Hin.
        { exists 0. intros key v2 Hv. by apply elem_of_nil in Hv. }
        destruct IHl as [k Hk]; [intros x Hx; apply Hin; by right|].
        assert ((key, v2) ∈ f2) as Hin2 by (apply Hin; left).
        destruct (Hp _ _ Hin2) as [v1 E1]. pose proof (dget_Some_elem _ _ _ E1) as Hin1.
        destruct (IH key v1 v2 Hin2 E1) as [k' Hk']; [exact (closed_rec _ _ _ C1 Hin1)|exact (closed_rec _ _ _ C2 Hin2)|].
        destruct (closed_get v1) as (w & Hw & _ & _ & Hww); [exact (closed_rec _ _ _ C1 Hin1)|].
        exists (k + k'). intros key' v2' [[= -> ->]|Hin']%elem_of_cons.
        - exists v1, w. split_and!; [done..|]. apply (check_mono _ k'); [|lia]. by apply (check_left _ _ _ w) in Hk'.
        - destruct (Hk _ _ Hin') as (x & y & ? & ? & ?). exists x, y. split_and!; [done..|].
          apply (check_mono _ k); [done|lia]. }
      destruct (Hl f2 ltac:(auto)) as [k Hk]. exists (S k). apply check_type_S. by eexists _, _.
  Qed.
  Lemma check_below k : forall t u, ok k t u -> below types t u.
  Proof.
    induction k as [|k IH]; intros t u Hc; [done|]. apply check_type_S in Hc as (u1 & u2 & H1 & H2 & Hs).
    assert (is_ref u1 = false) as Hr1.
    { destruct t; try (by injection H1 as <-). cbn [get_type] in H1. destruct (dget n types) eqn:E; [|done].
      injection H1 as <-. destruct (Hct _ _ E) as [_ Hr]. destruct t; try done. exfalso; by eapply Hr. }
    assert (below types u1 u2) as Hb.
    { destruct u2 as [| | | | |?|b|b|b1 b2|f2|?]; cbn [ok_step] in Hs; subst; try (by constructor).
      - by rewrite Hs in Hr1.
      - destruct u1; try (apply bl_some; by apply IH). apply bl_opt. auto.
      - destruct u1; try done. apply bl_seq. auto.
      - destruct u1; try done. destruct Hs. apply bl_map; auto.
      - destruct u1 as [| | | | |?|?|?|? ?|f1|?]; try done. apply bl_rec.
        + intros n v2 Hin. destruct (Hs _ _ Hin) as (v1 & w1 & -> & _). by eexists.
        + intros n v1 v2 Hin E. destruct (Hs _ _ Hin) as (v1' & w1 & E1 & E2 & Hc). rewrite E in E1. injection E1 as <-.
          apply IH in Hc. destruct v1; try (by injection E2 as <-).
          cbn [get_type] in E2. destruct (dget n0 types) eqn:E3; [|done]. injection E2 as <-. by eapply bl_left.
      - destruct u1; try done. constructor. }
    assert (below types u1 u) as Hb2.
    { destruct u; try (by injection H2 as <-). cbn [get_type] in H2. destruct (dget n types) eqn:E; [|done].
      injection H2 as <-. by eapply bl_right. }
    destruct t; try (by injection H1 as <-). cbn [get_type] in H1. destruct (dget n types) eqn:E; [|done].
    injection H1 as <-. by eapply bl_left.
  Qed.
End closed.
(** The check succeeds (with enough stack) exactly on the types related by: everything below
    Any, records by width and depth, a type below its optional, covariant containers. *)
Theorem C39_check_decides_subtyping types t1 t2 :
  closed_types types -> closed types t1 -> closed types t2 ->
  (exists fuel, check_type types fuel t1 t2 = Ok tt) <-> below types t1 t2.
Proof.
  intros Hct H1 H2. split.
  - intros [k Hk]. by eapply check_below.
  - intros Hb. by apply below_check.
Qed.
Theorem C39_transitive types k1 k2 t1 t2 t3 :
  closed_types types -> closed types t1 -> closed types t2 -> closed types t3 ->
  check_type types k1 t1 t2 = Ok tt -> check_type types k2 t2 t3 = Ok tt -> check_type types (k1 + k2) t1 t3 = Ok tt.
Proof. intros Hct C1 C2 C3 H12 H23. by eapply trans_ok. Qed.

(** ** The check ends when the expected type is not recursive *)
Lemma check_rec_loop {E} (P : res unit -> Prop) types (chk : ty -> ty -> res unit) (f1 l : list (str * ty)) (e0 : E) :
  P (Ok tt) -> P (Err TypeError) ->
  (forall key v2 v1 w1, (key, v2) ∈ l -> dget key f1 = Some v1 -> get_type types v1 = Ok w1 -> P (chk w1 v2)) ->
  (forall key v2 v1 e, (key, v2) ∈ l -> dget key f1 = Some v1 -> get_type types v1 = Err e -> P (Err e)) ->
  P ((fix go (l : list (str * ty)) : res unit :=
       match l with
       | [] => Ok tt
       | (key, v2) :: l' =>
           match dget key f1 with
           | None => Err TypeError
           | Some v1 =>
               match get_type types v1 with
               | Err e => Err e
               | Ok w1 => match chk w1 v2 with Ok _ => go l' | Err e => Err e end
               end
           end
       end) l).
Proof.
  intros H0 H1. induction l as [|[key v2] l IH]; intros H2 H3; [done|].
  destruct (dget key f1) as [v1|] eqn:E1; [|done].
  destruct (get_type types v1) as [w1|e] eqn:E2; [|eapply H3; [left|done..]].
  pose proof (H2 key v2 v1 w1 ltac:(left) E1 E2) as Hc. destruct (chk w1 v2) as [[]|]; [|done].
  apply IH.
  - intros key' v2' ? ? Hin. apply (H2 key'). by right.
  - intros key' v2' ? ? Hin. apply (H3 key' v2'). by right.
Qed.
Lemma get_type_not_fuel types t : get_type types t <> Err OutOfFuel.
Proof. destruct t; simpl; try done. by destruct (dget n types). Qed.
Lemma check_not_ref types k t1 t2 w : get_type types t2 = Ok w -> get_type types w = Ok w ->
  check_type types k t1 t2 = check_type types k t1 w.
Proof. intros H1 H2. destruct k; [done|]. cbn [check_type]. by rewrite H1, H2. Qed.
(** C39: whatever type is checked, the check against a type without recursion ends. *)
Theorem C39_terminates types t2 : finite types t2 ->
  exists N, forall fuel t1, N <= fuel -> check_type types fuel t1 t2 <> Err OutOfFuel.
Proof.
  induction 1 as [|t Hs|l|n t E Hf [N IH]|t Hf [N IH]|t Hf [N IH]|tk tv Hf1 [N1 IH1] Hf2 [N2 IH2]|fs Hnd Hf IH].
  - exists 1. intros [|k] t1 Hk; [lia|]. cbn [check_type get_type]. pose proof (get_type_not_fuel types t1).
    destruct (get_type types t1); congruence.
  - exists 1. intros [|k] t1 Hk; [lia|]. cbn [check_type]. pose proof (get_type_not_fuel types t1).
    destruct (get_type types t1) as [u1|]; [|congruence]. destruct t; try done; destruct u1; done.
  - exists 1. intros [|k] t1 Hk; [lia|]. cbn [check_type get_type]. pose proof (get_type_not_fuel types t1).
    destruct (get_type types t1) as [u1|]; [|congruence]. destruct u1; done.
  - exists (S N). intros [|k] t1 Hk; [lia|]. destruct (is_ref t) eqn:Hr.
    + destruct t; try done. cbn [check_type get_type]. rewrite E. pose proof (get_type_not_fuel types t1).
      destruct (get_type types t1) as [u1|]; [|congruence]. destruct u1; done.
    + rewrite (check_not_ref _ _ _ _ t); [apply IH; lia| |by destruct t]. cbn [get_type]. by rewrite E.
  - exists (S N). intros [|k] t1 Hk; [lia|]. cbn [check_type get_type]. pose proof (get_type_not_fuel types t1).
    destruct (get_type types t1) as [u1|]; [|congruence]. destruct u1; cbn [same_meta]; apply IH; lia.
  - exists (S N). intros [|k] t1 Hk; [lia|]. cbn [check_type get_type]. pose proof (get_type_not_fuel types t1).
    destruct (get_type types t1) as [u1|]; [|congruence]. destruct u1; cbn [same_meta]; try done. apply IH; lia.
  - exists (S (N1 + N2)). intros [|k] t1 Hk; [lia|]. cbn [check_type get_type]. pose proof (get_type_not_fuel types t1).
    destruct (get_type types t1) as [u1|]; [|congruence]. destruct u1; cbn [same_meta]; try done.
    pose proof (IH1 k u1_1 ltac:(lia)). destruct (check_type types k u1_1 tk) as [[]|]; [|congruence]. apply IH2; lia.
  - assert (forall l : list (str * ty), (forall x, x ∈ l -> x ∈ fs) -> exists N, forall fuel n t t1, (n, t) ∈ l -> N <= fuel ->
        check_type types fuel t1 t <> Err OutOfFuel) as Hl.
    { induction l as [|[n t] l IHl]; intros Hin.
      { exists 0. intros ? n t t1 Hv. by apply elem_of_nil in Hv. }
      destruct IHl as [N HN]; [intros x Hx; apply Hin; by right|].
      destruct (IH n t) as [N' HN']; [apply Hin; left|].
      exists (N + N'). intros fuel n' t' t1 [[= -> ->]|Hin']%elem_of_cons Hk; [apply HN'; lia|]. eapply HN; [done|lia]. }
    destruct (Hl fs ltac:(auto)) as [N HN]. exists (S N). intros [|k] t1 Hk; [lia|]. cbn [check_type get_type].
    pose proof (get_type_not_fuel types t1). destruct (get_type types t1) as [u1|]; [|congruence].
    destruct u1 as [| | | | |?|?|?|? ?|f1|?]; cbn [same_meta]; try done.
    apply (check_rec_loop (fun r => r <> Err OutOfFuel) types (check_type types k) f1 fs tt); try done.
    + intros key v2 v1 w1 Hin _ _. eapply HN; [done|lia].
    + intros key v2 v1 e _ _ He [= ->]. by apply get_type_not_fuel in He.
Qed.
Lemma check_errors types k : closed_types types -> forall t1 t2, closed types t1 -> closed types t2 ->
  check_type types k t1 t2 = Ok tt \/ check_type types k t1 t2 = Err TypeError \/ check_type types k t1 t2 = Err OutOfFuel.
Proof.
  intros Hct. induction k as [|k IH]; intros t1 t2 C1 C2; [auto|].
  destruct (closed_get types Hct t1 C1) as (w1 & Ew1 & Cw1 & Rw1 & Gw1).
  destruct (closed_get types Hct t2 C2) as (w2 & Ew2 & Cw2 & Rw2 & Gw2).
  cbn [check_type]. rewrite Ew1, Ew2. clear C1 C2 Ew1 Ew2.
  destruct w2 as [| | | | |?|b|b|b1 b2|f2|?]; [auto|destruct w1; auto..| | | | |destruct w1; auto].
  - destruct w1; cbn [same_meta]; apply IH; done.
  - destruct w1; cbn [same_meta]; auto.
  - destruct w1; cbn [same_meta]; auto. apply closed_map in Cw1 as [? ?]. apply closed_map in Cw2 as [? ?].
    destruct (IH w1_1 b1) as [->|[->| ->]]; auto.
  - destruct w1 as [| | | | |?|?|?|? ?|f1|?]; cbn [same_meta]; auto.
    apply (check_rec_loop (fun r => r = Ok tt \/ r = Err TypeError \/ r = Err OutOfFuel) types (check_type types k) f1 f2 tt); auto.
    + intros key v2 v1 w1 Hin E Ew. apply dget_Some_elem in E.
      destruct (closed_get types Hct v1 (closed_rec _ _ _ _ Cw1 E)) as (z & Hz & Cz & _). rewrite Ew in Hz. injection Hz as <-.
      apply IH; [done|]. exact (closed_rec _ _ _ _ Cw2 Hin).
    + intros key v2 v1 e Hin E Ew. apply dget_Some_elem in E.
      destruct (closed_get types Hct v1 (closed_rec _ _ _ _ Cw1 E)) as (z & Hz & Cz & _). congruence.
Qed.
Lemma check_stable types k : forall k' t1 t2, k <= k' -> check_type types k t1 t2 <> Err OutOfFuel ->
  check_type types k' t1 t2 = check_type types k t1 t2.
Proof.
  induction k as [|k IH]; intros k' t1 t2 Hk Hn; [done|]. destruct k' as [|k']; [lia|].
  assert (k <= k') as Hk2 by lia. cbn [check_type] in Hn |- *.
  destruct (get_type types t1) as [u1|]; [|done]. destruct (get_type types t2) as [u2|]; [|done].
  destruct u2 as [| | | | |?|b|b|b1 b2|f2|?]; try done.
  - destruct u1; cbn [same_meta] in *; auto.
  - destruct u1; cbn [same_meta] in *; auto.
  - destruct u1; cbn [same_meta] in *; auto.
    rewrite (IH k' u1_1 b1); [|done|]; destruct (check_type types k u1_1 b1) as [[]|]; auto; congruence.
  - destruct u1 as [| | | | |?|?|?|? ?|f1|?]; cbn [same_meta] in *; auto.
    induction f2 as [|[key v2] f2 IHf]; [done|].
    destruct (dget key f1) as [v1|]; [|done]. destruct (get_type types v1) as [w1|]; [|done].
    rewrite (IH k' w1 v2); [|done|]; destruct (check_type types k w1 v2) as [[]|]; auto; congruence.
Qed.
(** C39: with the stack it needs, the check answers for every type, by the relation, and its only error is TypeError. *)
Theorem C39_check_answers types t2 : closed_types types -> closed types t2 -> finite types t2 ->
  exists N, forall fuel t1, N <= fuel -> closed types t1 ->
    (below types t1 t2 -> check_type types fuel t1 t2 = Ok tt) /\
    (~ below types t1 t2 -> check_type types fuel t1 t2 = Err TypeError).
Proof.
  intros Hct C2 Hf. destruct (C39_terminates types t2 Hf) as [N HN]. exists N. intros fuel t1 Hk C1.
  pose proof (HN fuel t1 Hk) as Hnf.
  destruct (check_errors types fuel Hct t1 t2 C1 C2) as [E|[E|E]]; [| |done].
  - split; [done|]. intros Hb. exfalso. apply Hb. by eapply check_below.
  - split; [|done]. intros Hb. destruct (below_check types Hct _ _ Hb C1 C2) as [k Hk'].
    rewrite <- (check_stable types fuel (k + fuel)); [|lia|done]. apply (check_mono _ k); [done|lia].
Qed.
(** Every type without recursion is accepted where it is expected. *)
Lemma below_refl types t : finite types t -> below types t t.
Proof.
  induction 1 as [|t Hs|l|n t E Hf IH|t Hf IH|t Hf IH|tk tv Hf1 IH1 Hf2 IH2|fs Hnd Hf IH]; try (by constructor).
  - eapply bl_left; [done|]. by eapply bl_right.
  - apply bl_rec.
    + intros n u Hin. apply dget_is_Some. change n with ((n, u).1). by apply elem_of_list_fmap_1.
    + intros n t u Hin E. rewrite (dget_NoDup _ _ _ Hnd Hin) in E. injection E as ->. by eapply IH.
Qed.
(** C39: the check accepts every type where that same type is expected. *)
Theorem C39_reflexive types t : closed_types types -> closed types t -> finite types t ->
  exists N, forall fuel, N <= fuel -> check_type types fuel t t = Ok tt.
Proof.
  intros Hct C Hf. destruct (C39_check_answers types t Hct C Hf) as [N HN]. exists N. intros fuel Hk.
  apply (HN fuel t Hk C). by apply below_refl.
Qed.

(** ** Examples *)
Definition ex_types : dict str ty :=
  [(s "user", TRec [(s "name", TStr); (s "age", TOpt TInt)]); (s "name", TRec [(s "name", TStr)])].
(** The hypotheses hold, the check accepts and rejects. *)
Theorem C39_example :
  closed_types ex_types /\ closed ex_types (TSeq (TRef (s "name"))) /\ finite ex_types (TSeq (TRef (s "name"))) /\
  check_type ex_types 5 (TSeq (TRef (s "user"))) (TSeq (TRef (s "name"))) = Ok tt /\
  check_type ex_types 5 (TSeq (TRef (s "name"))) (TSeq (TRef (s "user"))) = Err TypeError /\
  check_type ex_types 5 (TOpt TInt) TInt = Err TypeError.
Proof.
  split_and!; try (vm_compute; reflexivity).
  - intros n t E. unfold ex_types in E. apply dget_Some_elem in E.
    rewrite !elem_of_cons, elem_of_nil in E. destruct E as [[= -> ->]|[[= -> ->]|[]]];
      (split; [intros m Hm; vm_compute in Hm; by apply elem_of_nil in Hm|done]).
  - intros m Hm. vm_compute in Hm. apply elem_of_list_singleton in Hm as ->. by eexists.
  - apply fin_seq. eapply fin_ref; [vm_compute; reflexivity|]. apply fin_rec.
    + apply (bool_decide_unpack _); vm_compute; exact I.
    + intros n t Hin. apply elem_of_list_singleton in Hin as [= -> ->]. by constructor.
Qed.

(** ** What the check does not do *)
Definition ex_rec : dict str ty := [(s "A", TRec [(s "next", TOpt (TRef (s "A")))])].
(** A type which refers to itself is checked against itself for ever: Python raises RecursionError. *)
Theorem C39_recursive_types_refuted fuel :
  check_type ex_rec fuel (TRef (s "A")) (TRef (s "A")) = Err OutOfFuel.
Proof.
  assert (get_type ex_rec (TRef (s "A")) = Ok (TRec [(s "next", TOpt (TRef (s "A")))])) as Hg by reflexivity.
  assert (forall fuel, check_type ex_rec fuel (TRef (s "A")) (TRef (s "A")) = Err OutOfFuel /\
    check_type ex_rec fuel (TOpt (TRef (s "A"))) (TOpt (TRef (s "A"))) = Err OutOfFuel) as HH; [|apply HH].
  clear fuel. induction fuel as [|k [IH1 IH2]]; [done|]. split.
  - cbn [check_type]. rewrite Hg. cbn [same_meta].
    change (dget (s "next") [(s "next", TOpt (TRef (s "A")))]) with (Some (TOpt (TRef (s "A")))).
    cbn [get_type]. by rewrite IH2.
  - cbn [check_type get_type same_meta]. exact IH1.
Qed.
(** Types defined by references to references are compared only by being references: a string passes for a record. *)
Theorem C39_reference_to_reference_refuted :
  exists types v, check_type types 1 (TRef (s "X")) (TRef (s "Y")) = Ok tt /\
    has_type types v (TRef (s "X")) /\ ~ has_type types v (TRef (s "Y")).
Proof.
  exists [(s "X", TRef (s "T")); (s "Y", TRef (s "R")); (s "T", TStr); (s "R", TRec [(s "name", TStr)])].
  exists (DVal (VStr (s "x"))). split; [vm_compute; reflexivity|]. split.
  - eapply ht_ref; [vm_compute; reflexivity|]. eapply ht_ref; [vm_compute; reflexivity|]. constructor.
  - intros Hv. inversion Hv as [| | | | |? ? ? E Hv2| | | | |]; subst. vm_compute in E. injection E as <-.
    inversion Hv2 as [| | | | |? ? ? E Hv3| | | | |]; subst. vm_compute in E. injection E as <-. inversion Hv3.
Qed.
(** Types of functions are never compared. *)
Theorem C39_function_types_refuted types : check_type types 1 (TCall [TInt]) (TCall [TStr; TStr]) = Ok tt.
Proof. reflexivity. Qed.

(** Theorems about validation (C22 - C26): hiku/validate. *)
From Verif Require Import Base Val ValProof Types Query QuerySpec Graph Result Engine EngineSpec Validate ValidateSpec.

(** ** Fuel *)
(** [ev P]: [P] holds of all great enough recursion depths. *)
Definition ev (P : nat -> Prop) : Prop := exists n, forall k, n <= k -> P k.
Lemma ev_and P Q : ev P -> ev Q -> ev (fun k => P k /\ Q k).
Proof. intros [n Hn] [m Hm]. exists (n `max` m). intros k Hk. split; [apply Hn|apply Hm]; lia. Qed.
Lemma ev_mono (P Q : nat -> Prop) : (forall k, P k -> Q k) -> ev P -> ev Q.
Proof. intros HQ [n Hn]. exists n. auto. Qed.
Lemma ev_const (P : Prop) : P -> ev (fun _ => P).
Proof. intros HP. exists 0. auto. Qed.
Lemma ev_forall {A} (P : A -> nat -> Prop) (l : list A) : (forall x, x ∈ l -> ev (P x)) -> ev (fun k => forall x, x ∈ l -> P x k).
Proof.
  induction l as [|x l IH]; intros Hl; [exists 0; by intros k _ x Hx%not_elem_of_nil|].
  destruct (ev_and _ _ (Hl x ltac:(left)) (IH ltac:(intros; apply Hl; by right))) as [n Hn].
  exists n. intros k Hk y [->|Hy]%elem_of_cons; destruct (Hn k Hk); auto.
Qed.
Lemma ev_S P : ev (fun k => P (S k)) -> ev P.
Proof. intros [n Hn]. exists (S n). intros [|k] Hk; [lia|]. apply Hn. lia. Qed.
Lemma ev_ex P : ev P -> exists k, P k.
Proof. intros [n Hn]. exists n. by apply Hn. Qed.

Definition settled {A} (r r' : res A) : Prop := r <> Err OutOfFuel -> r' = r.
Definition csettled (r r' : chk) : Prop := r <> CExn OutOfFuel -> r' = r.

Lemma mapR_settled {A B} (f f' : A -> res B) (l : list A) : (forall x, x ∈ l -> settled (f x) (f' x)) -> settled (mapR f l) (mapR f' l).
Proof.
  unfold settled. induction l as [|x l IH]; intros Hf Hn; [done|]. simpl in *.
  destruct (f x) as [y|e] eqn:Ex.
  - rewrite (Hf x ltac:(left)) by (rewrite Ex; done). rewrite Ex.
    destruct (mapR f l) as [ys|e] eqn:El.
    + rewrite IH; [done|intros; apply Hf; [by right|done]|done].
    + rewrite IH; [done|intros; apply Hf; [by right|done]|intros [= ->]; done].
  - rewrite (Hf x ltac:(left)) by (rewrite Ex; intros [= ->]; done). by rewrite Ex.
Qed.
Lemma chk_all_settled {A} (f f' : A -> chk) (l : list A) : (forall x, x ∈ l -> csettled (f x) (f' x)) -> csettled (chk_all (map f l)) (chk_all (map f' l)).
Proof.
  unfold csettled. induction l as [|x l IH]; intros Hf Hn; [done|]. simpl in *.
  assert (f x <> CExn OutOfFuel) as Hx by (intros Hx; rewrite Hx in Hn; done).
  rewrite (Hf x ltac:(left) Hx). destruct (f x); [|done..]. apply IH; [|done]. intros; apply Hf; [by right|done].
Qed.
Lemma chk_all_ok (l : list chk) : chk_all l = COk <-> forall c, c ∈ l -> c = COk.
Proof.
  induction l as [|c l IH]; simpl; [split; [by intros _ c Hc%not_elem_of_nil|done]|]. split.
  - destruct c; try done. intros Hl c [->|Hc]%elem_of_cons; [done|]. by apply IH.
  - intros Hl. rewrite (Hl c) by left. apply IH. intros; apply Hl; by right.
Qed.
Lemma chk_all_pairs {A} (f h : A -> chk) l : chk_all (flat_map (fun p => [f p; h p]) l) = chk_all (map (fun p => match f p with COk => h p | c => c end) l).
Proof. induction l as [|x l IH]; [done|]. simpl. destruct (f x); [|done..]. destruct (h x); [done|done..]. Qed.

Section types.
  Context (dt : dict str ty).

  Lemma assume_settled k : forall k' nested t, k <= k' -> settled (assume_record k dt nested t) (assume_record k' dt nested t).
  Proof.
    induction k as [|k IH]; intros k' nested t Hk Hn; [done|]. destruct k' as [|k']; [lia|]. simpl in *.
    destruct t; try done; try (destruct nested; [done|]; apply IH; [lia|done]).
    destruct (dget n dt); [|done]. apply IH; [lia|done].
  Qed.
  Lemma opt_check_settled k : forall k' t v, k <= k' -> csettled (opt_check k dt t v) (opt_check k' dt t v).
  Proof.
    induction k as [|k IH]; intros k' t v Hk Hn; [done|]. destruct k' as [|k']; [lia|]. simpl in *.
    assert (k <= k') as Hk' by lia.
    destruct t; try done.
    - destruct (dget n dt); [|done]. by apply IH.
    - destruct v; try done; by apply IH.
    - destruct (seq_of v) as [l|]; [|done]. apply chk_all_settled; [|done]. intros x _. by apply IH.
    - destruct (map_of v) as [l|]; [|done]. rewrite !chk_all_pairs in *. apply chk_all_settled; [|done]. intros x _ Hx.
      assert (opt_check k dt t1 x.1 <> CExn OutOfFuel) as H1 by (intros H1; rewrite H1 in Hx; done).
      rewrite (IH k' t1 x.1 Hk' H1). destruct (opt_check k dt t1 x.1); [|done..]. by apply IH.
    - destruct (map_of v) as [l|]; [|done]. destruct (List.filter _ _); [|done]. destruct (List.filter _ _); [|done].
      apply chk_all_settled; [|done]. intros x _. destruct (dget _ l); [|done]. by apply IH.
  Qed.

  (** ** Records *)
  Lemma assume_record_ty k : forall t r, assume_record k dt true t = Ok r -> record_ty dt t r.
  Proof.
    induction k as [|k IH]; intros t r; [done|]. simpl. destruct t; try (intros [= <-]; by constructor).
    destruct (dget n dt) eqn:En; [|done]. intros Hr%IH. by econstructor.
  Qed.
  Lemma assume_holds k : forall t r, assume_record k dt false t = Ok r -> holds dt t r.
  Proof.
    induction k as [|k IH]; intros t r; [done|]. simpl. destruct t; try (intros [= <-]; by constructor).
    - destruct (dget n dt) eqn:En; [|done]. intros Hr%IH. by econstructor.
    - intros Hr%assume_record_ty. by constructor.
    - intros Hr%assume_record_ty. by constructor.
  Qed.
  Lemma record_ty_assume t r : record_ty dt t r -> ev (fun k => assume_record k dt true t = Ok r).
  Proof.
    induction 1 as [fs|n t r Hn Hr IH|t Ht]; apply ev_S; simpl.
    - by apply ev_const.
    - by rewrite Hn.
    - exists 0. intros k _. by destruct t.
  Qed.
  Lemma holds_assume t r : holds dt t r -> ev (fun k => assume_record k dt false t = Ok r).
  Proof.
    induction 1 as [fs|n t r Hn Hr IH|t r Hr|t r Hr|t Ht]; apply ev_S; simpl.
    - by apply ev_const.
    - by rewrite Hn.
    - by apply record_ty_assume.
    - by apply record_ty_assume.
    - exists 0. intros k _. by destruct t.
  Qed.
  Lemma holds_det t r r' : holds dt t r -> holds dt t r' -> r = r'.
  Proof.
    intros H1%holds_assume H2%holds_assume. destruct (ev_ex _ (ev_and _ _ H1 H2)) as (k & E1 & E2). congruence.
  Qed.
  Lemma finite_record_ty calls t : finite_ty dt calls t -> exists r, record_ty dt t r.
  Proof.
    induction 1 as [| | | | |t _ IH|t _ IH|tk tv _ _ _ _|fs _ _|l|n t Hn _ IH]; try (exists None; by constructor).
    - eexists. constructor.
    - destruct IH as [r Hr]. exists r. by econstructor.
  Qed.
  Lemma finite_holds calls t : finite_ty dt calls t -> exists r, holds dt t r.
  Proof.
    induction 1 as [| | | | |t Ht IH|t Ht IH|tk tv _ _ _ _|fs _ _|l|n t Hn _ IH]; try (exists None; by constructor).
    - apply finite_record_ty in Ht as [r Hr]. exists r. by constructor.
    - apply finite_record_ty in Ht as [r Hr]. exists r. by constructor.
    - eexists. constructor.
    - destruct IH as [r Hr]. exists r. by econstructor.
  Qed.
  Lemma finite_record_fields calls t r : finite_ty dt calls t -> record_ty dt t r -> forall fs, r = Some fs -> forall n t', (n, t') ∈ fs -> finite_ty dt calls t'.
  Proof.
    intros Hf Hr. induction Hr as [fs|n t r Hn Hr IH|t Ht]; intros fs' Hfs n' t' Hin; [| |done].
    - injection Hfs as <-. inversion Hf as [| | | | | | | |? Hfs| |]; subst. by eapply Hfs.
    - inversion Hf as [| | | | | | | | | |? t0 Hn0 Ht0]; subst. rewrite Hn in Hn0. injection Hn0 as <-. by eapply IH.
  Qed.
  Lemma finite_fields calls t fs : finite_ty dt calls t -> holds dt t (Some fs) -> forall n t', (n, t') ∈ fs -> finite_ty dt calls t'.
  Proof.
    intros Hf Hh. remember (Some fs) as r eqn:Er. revert fs Er.
    induction Hh as [fs|n t r Hn Hr IH|t r Hr|t r Hr|t Ht]; intros fs' Hfs n' t' Hin; [| | | |done].
    - injection Hfs as <-. inversion Hf as [| | | | | | | |? Hfs| |]; subst. by eapply Hfs.
    - inversion Hf as [| | | | | | | | | |? t0 Hn0 Ht0]; subst. rewrite Hn in Hn0. injection Hn0 as <-. by eapply IH.
    - inversion Hf; subst. by eapply finite_record_fields.
    - inversion Hf; subst. by eapply finite_record_fields.
  Qed.

  (** ** C23 *)
  Lemma map_of_mapping v d : map_of v = Some d <-> mapping_of v d.
  Proof. unfold mapping_of. destruct v; simpl; naive_solver. Qed.
  Lemma filter_nil {A} (P : A -> bool) (l : list A) : List.filter P l = [] <-> forall x, x ∈ l -> P x = false.
  Proof.
    induction l as [|x l IH]; simpl; [split; [by intros _ x Hx%not_elem_of_nil|done]|]. split.
    - destruct (P x) eqn:Ex; [done|]. intros Hl y [->|Hy]%elem_of_cons; [done|]. by apply IH.
    - intros Hl. rewrite (Hl x) by left. apply IH. intros; apply Hl; by right.
  Qed.
  Lemma filter_sub_nil {A} `{EqDecision A} (l k : list A) : List.filter (fun x => negb (bool_decide (x ∈ k))) l = [] <-> forall x, x ∈ l -> x ∈ k.
  Proof.
    rewrite filter_nil. split; intros Hl x Hx; specialize (Hl x Hx).
    - apply negb_false_iff, bool_decide_eq_true_1 in Hl. done.
    - apply negb_false_iff. by apply bool_decide_eq_true_2.
  Qed.

  Lemma opt_check_conforms k : forall t v, opt_check k dt t v = COk -> conforms dt t v.
  Proof.
    induction k as [|k IH]; intros t v; [done|]. simpl. destruct t.
    - constructor.
    - destruct v; try done. constructor.
    - destruct v; try done; constructor.
    - destruct v; try done; constructor.
    - destruct v; try done; constructor.
    - destruct (dget n dt) eqn:En; [|done]. intros Hr%IH. by econstructor.
    - destruct v; try (intros Hr%IH; by constructor). constructor.
    - destruct (seq_of v) as [l|] eqn:El; [|done]. rewrite chk_all_ok. intros Hl. econstructor; [exact El|].
      intros x Hx. apply IH, Hl. by apply elem_of_list_fmap_1.
    - destruct (map_of v) as [d|] eqn:Ed; [|done]. rewrite chk_all_ok. intros Hl. apply map_of_mapping in Ed.
      econstructor; [exact Ed|..]; intros x y Hx; apply IH, Hl; apply elem_of_list_In, in_flat_map; exists (x, y);
        (split; [by apply elem_of_list_In|]); simpl; auto.
    - destruct (map_of v) as [d|] eqn:Ed; [|done]. apply map_of_mapping in Ed.
      destruct (List.filter _ (map fst d)) eqn:E1; [|done]. destruct (List.filter _ (map fst fs)) eqn:E2; [|done].
      rewrite filter_sub_nil in E1. rewrite filter_nil in E2. rewrite chk_all_ok. intros Hl. econstructor; [exact Ed|..].
      + intros key. split.
        * intros Hk%E1. apply elem_of_list_fmap in Hk as ([n t] & -> & Hn). exists n. split; [done|]. by apply (elem_of_list_fmap_1 fst) in Hn.
        * intros (n & -> & Hn). specialize (E2 n Hn). apply negb_false_iff, bool_decide_eq_true_1 in E2. done.
      + intros n t x Hn Hx. apply IH, Hl. apply elem_of_list_fmap. exists (n, t). simpl. by rewrite Hx.
    - done.
  Qed.
  Lemma conforms_opt_check t v : conforms dt t v -> ev (fun k => opt_check k dt t v = COk).
  Proof.
    induction 1 as [v|b|x|x|x|z|b|m e|t|t v _ IH|t v l Hl _ IH|tk tv v d Hd _ IHk _ IHv|fs v d Hd Hk _ IH|n t v Hn _ IH]; apply ev_S; simpl; try (by apply ev_const).
    - eapply ev_mono; [|exact IH]. intros k ->. by destruct v.
    - rewrite Hl. eapply ev_mono; [|exact (ev_forall _ l IH)]. intros k Hx. apply chk_all_ok. intros c (x & -> & Hc)%elem_of_list_fmap. by apply Hx.
    - apply map_of_mapping in Hd. rewrite Hd.
      assert (ev (fun k => forall p, p ∈ d -> opt_check k dt tk p.1 = COk /\ opt_check k dt tv p.2 = COk)) as He.
      { apply ev_forall. intros [a b] Hp. apply ev_and; [by eapply IHk|by eapply IHv]. }
      eapply ev_mono; [|exact He]. intros k Hx. apply chk_all_ok. intros c Hc. apply elem_of_list_In, in_flat_map in Hc as (p & Hp%elem_of_list_In & Hc).
      destruct (Hx p Hp) as [E1 E2]. destruct Hc as [<-|[<-|[]]]; done.
    - apply map_of_mapping in Hd. rewrite Hd.
      assert (List.filter (fun x => negb (bool_decide (x ∈ map (fun p => VStr p.1) fs))) (map fst d) = []) as ->.
      { apply filter_sub_nil. intros x (n & -> & (p & -> & Hp)%elem_of_list_fmap)%Hk. apply elem_of_list_fmap. by exists p. }
      assert (List.filter (fun x => negb (bool_decide (VStr x ∈ map fst d))) (map fst fs) = []) as ->.
      { apply filter_nil. intros x Hx. apply negb_false_iff, bool_decide_eq_true_2. apply Hk. eauto. }
      assert (ev (fun k => forall p : str * ty, p ∈ fs -> forall x, dget (VStr p.1) d = Some x -> opt_check k dt p.2 x = COk)) as He.
      { apply ev_forall. intros [n t] Hp. destruct (dget (VStr n) d) as [x|] eqn:Ex.
        - eapply ev_mono; [|exact (IH n t x Hp Ex)]. intros k Hx y. simpl. congruence.
        - exists 0. intros k _ y. simpl. congruence. }
      eapply ev_mono; [|exact He]. intros k Hx. apply chk_all_ok. intros c (p & -> & Hp)%elem_of_list_fmap.
      destruct (dget (VStr p.1) d) as [x|] eqn:Ex; [by apply Hx|]. exfalso.
      assert (VStr p.1 ∈ map fst d) as Hin. { apply Hk. exists p.1. split; [done|]. by apply elem_of_list_fmap_1. }
      apply dget_None in Ex. done.
    - rewrite Hn. done.
  Qed.
  Lemma opt_check_not k t v c : opt_check k dt t v = c -> c <> COk -> c <> CExn OutOfFuel -> ~ conforms dt t v.
  Proof.
    intros Hc H1 H2 Hf%conforms_opt_check. destruct Hf as [n Hn].
    assert (opt_check (k `max` n) dt t v = c) as E1 by (rewrite <-Hc; apply opt_check_settled; [lia|by rewrite Hc]).
    rewrite Hn in E1 by lia. done.
  Qed.
  Lemma opt_check_total t : finite_ty dt false t -> forall v, ev (fun k => opt_check k dt t v = COk \/ exists w, opt_check k dt t v = CBad w).
  Proof.
    assert (forall l : list chk, (forall c, c ∈ l -> c = COk \/ exists w, c = CBad w) -> chk_all l = COk \/ exists w, chk_all l = CBad w) as Hall.
    { induction l as [|c l IH]; intros Hl; [by left|]. simpl. destruct (Hl c ltac:(left)) as [->|[w ->]]; [|eauto].
      apply IH. intros; apply Hl; by right. }
    induction 1 as [| | | | |t _ IH|t _ IH|tk tv _ IHk _ IHv|fs _ IH|l Hl|n t Hn _ IH]; intros v; apply ev_S; simpl; try (apply ev_const; destruct v; eauto; fail).
    - destruct v; try apply IH. apply ev_const. by left.
    - destruct (seq_of v) as [l|]; [|apply ev_const; eauto].
      eapply ev_mono; [|exact (ev_forall _ l (fun x _ => IH x))]. intros k Hx. apply Hall. intros c (x & -> & Hc)%elem_of_list_fmap. by apply Hx.
    - destruct (map_of v) as [d|]; [|apply ev_const; eauto].
      eapply ev_mono; [|exact (ev_forall _ d (fun p _ => ev_and _ _ (IHk p.1) (IHv p.2)))]. intros k Hx. apply Hall.
      intros c Hc. apply elem_of_list_In, in_flat_map in Hc as (p & Hp%elem_of_list_In & Hc).
      destruct (Hx p Hp) as [E1 E2]. destruct Hc as [<-|[<-|[]]]; done.
    - destruct (map_of v) as [d|]; [|apply ev_const; eauto].
      destruct (List.filter _ (map fst d)); [|apply ev_const; eauto]. 
      destruct (List.filter (fun x => negb (bool_decide (VStr x ∈ map fst d))) (map fst fs)) eqn:E2; [|apply ev_const; eauto].
      rewrite filter_nil in E2.
      assert (ev (fun k => forall p : str * ty, p ∈ fs -> forall x, dget (VStr p.1) d = Some x -> opt_check k dt p.2 x = COk \/ exists w, opt_check k dt p.2 x = CBad w)) as He.
      { apply ev_forall. intros [n t] Hp. destruct (dget (VStr n) d) as [x|] eqn:Ex.
        - eapply ev_mono; [|exact (IH n t Hp x)]. intros k Hx y. simpl. intros Ey. rewrite Ex in Ey. injection Ey as <-. done.
        - exists 0. intros k _ y. simpl. congruence. }
      eapply ev_mono; [|exact He]. intros k Hx. apply Hall. intros c (p & -> & Hp)%elem_of_list_fmap.
      destruct (dget (VStr p.1) d) as [x|] eqn:Ex; [by apply Hx|]. exfalso.
      specialize (E2 p.1 (elem_of_list_fmap_1 fst _ _ Hp)). apply negb_false_iff, bool_decide_eq_true_1 in E2. apply dget_None in Ex. done.
    - done.
    - rewrite Hn. apply IH.
  Qed.
End types.

(** C23: an option value is accepted iff it conforms to the declared type.  (For [k] great
    enough: Python's stack is finite.) *)
Theorem C23_accepted_conforms k dt t v : opt_check k dt t v = COk -> conforms dt t v.
Proof. apply opt_check_conforms. Qed.
Theorem C23_conforming_accepted dt t v : conforms dt t v -> exists n, forall k, n <= k -> opt_check k dt t v = COk.
Proof. apply conforms_opt_check. Qed.
Theorem C23_refused_does_not_conform k dt t v w : opt_check k dt t v = CBad w -> ~ conforms dt t v.
Proof. intros Hc. by apply (opt_check_not dt k t v _ Hc). Qed.
(** ... and there is always an answer, if references of the type can be followed to an end. *)
Theorem C23_decided dt t v : finite_ty dt false t ->
  exists n, forall k, n <= k -> opt_check k dt t v = COk \/ exists w, opt_check k dt t v = CBad w.
Proof. intros Ht. by apply opt_check_total. Qed.

(** ** Members with the same result key *)
Definition proper_item (q : qitem) : Prop := proper (opts_val (opt_dict (q_opts q))).
Definition same_request (a b : qitem) : Prop := q_name a = q_name b /\ same_options (q_opts a) (q_opts b).
Lemma field_eqb_spec a b : field_eqb a b = true <-> same_request a b.
Proof.
  unfold field_eqb, same_request, opts_eqb, same_options. rewrite andb_true_iff, bool_decide_eq_true.
  destruct (q_opts a), (q_opts b); naive_solver.
Qed.
Lemma same_request_sym a b : proper_item a -> same_request a b -> same_request b a.
Proof.
  unfold proper_item, same_request, same_options. intros Hp [-> Ho]. split; [done|].
  destruct (q_opts a), (q_opts b); try done. by apply py_eqb_sym.
Qed.
Lemma same_request_trans a b c : same_request a b -> same_request b c -> same_request a c.
Proof.
  unfold same_request, same_options. intros [-> Ho] [-> Ho']. split; [done|].
  destruct (q_opts a), (q_opts b), (q_opts c); try done. by eapply py_eqb_trans.
Qed.
Lemma same_request_refl a : same_request a a.
Proof. split; [done|]. unfold same_options. destruct (q_opts a); [apply py_eqb_refl|done]. Qed.

Fixpoint keys_ok (seen : dict str qitem) (qs : list qitem) : bool :=
  match qs with
  | [] => true
  | q :: qs' => match dget (result_key q) seen with
                | Some q' => field_eqb q q' && keys_ok seen qs'
                | None => keys_ok (dset (result_key q) q seen) qs'
                end
  end.
Lemma keys_ok_spec qs : forall seen, (forall q, q ∈ qs -> proper_item q) -> (forall k q, dget k seen = Some q -> result_key q = k /\ proper_item q) ->
  keys_ok seen qs = true <-> (forall q q', q ∈ qs -> dget (result_key q) seen = Some q' -> same_request q q') /\ unambiguous qs.
Proof.
  induction qs as [|q qs IH]; intros seen Hp Hs; simpl.
  { split; [|done]. split; [intros ? ? Hx; by apply not_elem_of_nil in Hx|intros ? ? Hx; by apply not_elem_of_nil in Hx]. }
  assert (forall q, q ∈ qs -> proper_item q) as Hp' by (intros; apply Hp; by right).
  destruct (dget (result_key q) seen) as [q'|] eqn:Eq.
  - rewrite andb_true_iff, field_eqb_spec, (IH seen Hp' Hs). split.
    + intros (Hq & H1 & H2). split.
      * intros a a' [->|Ha]%elem_of_cons; [rewrite Eq; intros [= <-]; done|by apply H1].
      * assert (forall a, a ∈ qs -> result_key q = result_key a -> same_request q a /\ same_request a q) as Hqa.
        { intros a Ha Hk. rewrite Hk in Eq. assert (same_request a q') by by apply H1. split.
          - eapply same_request_trans; [exact Hq|]. apply same_request_sym; [by apply Hp'|done].
          - eapply same_request_trans; [done|]. apply same_request_sym; [apply Hp; left|done]. }
        intros a b [->|Ha]%elem_of_cons [->|Hb]%elem_of_cons Hk; [apply same_request_refl|by apply Hqa|by apply Hqa|by apply H2].
    + intros [H1 H2]. split; [apply H1; [left|done]|]. split; [intros; apply H1; [by right|done]|].
      intros a b Ha Hb. apply H2; by right.
  - rewrite IH; [|done|].
    2: { intros k a. rewrite dget_dset. destruct (decide (k = result_key q)) as [->|]; [|apply Hs]. intros [= <-]. split; [done|apply Hp; left]. }
    split.
    + intros [H1 H2].
      assert (forall a, a ∈ qs -> result_key a = result_key q -> same_request a q) as Hqa.
      { intros a Ha Hk. apply (H1 a q Ha). by rewrite dget_dset, decide_True. }
      split.
      * intros a a' [->|Ha]%elem_of_cons; [congruence|]. intros Hd. apply (H1 a a' Ha). rewrite dget_dset, decide_False; [done|congruence].
      * intros a b [->|Ha]%elem_of_cons [->|Hb]%elem_of_cons Hk; [apply same_request_refl| | |by apply H2].
        -- apply same_request_sym; [by apply Hp'|]. by apply Hqa.
        -- by apply Hqa.
    + intros [H1 H2]. split; [|intros a b Ha Hb; apply H2; by right].
      intros a a' Ha. rewrite dget_dset. destruct (decide _) as [Hk|Hk].
      * intros [= <-]. apply H2; [by right|left|done].
      * apply H1. by right.
Qed.

Fixpoint check_node_ (visit : qitem -> res (list verr)) (node : option str) (seen : dict str qitem) (qs : list qitem) : res (list verr) :=
  match qs with
  | [] => Ok []
  | q :: qs' =>
      let '(errs, seen') :=
        match dget (result_key q) seen with
        | Some q' => (if field_eqb q q' then [] else [ESameKey node (result_key q)], seen)
        | None => ([], dset (result_key q) q seen)
        end in
      match visit q with
      | Err e => Err e
      | Ok errs2 => match check_node_ visit node seen' qs' with Err e => Err e | Ok errs3 => Ok (errs ++ errs2 ++ errs3) end
      end
  end.
Lemma check_node_eq visit node qs : check_node visit node qs = check_node_ visit node [] qs.
Proof.
  unfold check_node. generalize (@nil (str * qitem)). induction qs as [|q qs IH]; intros seen; [done|]. simpl.
  destruct (dget (result_key q) seen); [|]; by rewrite IH.
Qed.

Definition is_same_key (e : verr) : bool := match e with ESameKey _ _ => true | _ => false end.
(** The messages of [check_node]: those of the members, and [ESameKey] iff keys clash. *)
Lemma check_node_ok visit node qs : forall seen errs, check_node_ visit node seen qs = Ok errs ->
  exists ess, mapR visit qs = Ok ess /\
    forall e, e ∈ errs <-> (exists es, es ∈ ess /\ e ∈ es) \/ (keys_ok seen qs = false /\ e ∈ errs /\ exists k, e = ESameKey node k).
Proof.
  induction qs as [|q qs IH]; intros seen errs; simpl.
  { intros [= <-]. exists []. split; [done|]. intros e. split; [intros Hx; by apply not_elem_of_nil in Hx|].
    intros [(es & Hx & _)|[? _]]; [by apply not_elem_of_nil in Hx|done]. }
  set (p := match dget (result_key q) seen with Some q' => _ | None => _ end).
  destruct p as [es0 seen'] eqn:Ep. destruct (visit q) as [es1|]; [|done].
  destruct (check_node_ visit node seen' qs) as [es2|] eqn:E2; [|done]. intros [= <-].
  destruct (IH _ _ E2) as (ess & Hess & Hes). rewrite Hess. exists (es1 :: ess). split; [done|]. intros e.
  unfold p in Ep. clear p. rewrite !elem_of_app, Hes. clear Hes IH.
  destruct (dget (result_key q) seen) as [q'|].
  - injection Ep as <- <-. destruct (field_eqb q q'); simpl.
    + setoid_rewrite elem_of_cons. setoid_rewrite elem_of_nil. naive_solver.
    + setoid_rewrite elem_of_cons. setoid_rewrite elem_of_nil. naive_solver.
  - injection Ep as <- <-. setoid_rewrite elem_of_cons. setoid_rewrite elem_of_nil. naive_solver.
Qed.
Lemma check_node_clash visit node qs : forall seen errs, check_node_ visit node seen qs = Ok errs -> keys_ok seen qs = false ->
  exists k, ESameKey node k ∈ errs.
Proof.
  induction qs as [|q qs IH]; intros seen errs; simpl; [done|].
  set (p := match dget (result_key q) seen with Some q' => _ | None => _ end).
  destruct p as [es0 seen'] eqn:Ep. destruct (visit q) as [es1|]; [|done].
  destruct (check_node_ visit node seen' qs) as [es2|] eqn:E2; [|done]. intros [= <-]. unfold p in Ep. clear p.
  destruct (dget (result_key q) seen) as [q'|].
  - injection Ep as <- <-. destruct (field_eqb q q'); simpl.
    + intros Hk. destruct (IH _ _ E2 Hk) as [k Hin]. exists k. rewrite elem_of_app. by right.
    + intros _. eexists. left.
  - injection Ep as <- <-. intros Hk. destruct (IH _ _ E2 Hk) as [k Hin]. exists k. rewrite app_nil_l, elem_of_app. by right.
Qed.
Lemma check_node_nil visit node qs seen : check_node_ visit node seen qs = Ok [] <-> keys_ok seen qs = true /\ forall q, q ∈ qs -> visit q = Ok [].
Proof.
  split.
  - intros Hc. split.
    + destruct (keys_ok seen qs) eqn:Ek; [done|]. destruct (check_node_clash _ _ _ _ _ Hc Ek) as [k Hk]. by apply not_elem_of_nil in Hk.
    + destruct (check_node_ok _ _ _ _ _ Hc) as (ess & Hess & Hes). apply mapR_ok in Hess. intros q Hq.
      apply elem_of_list_lookup in Hq as [i Hi]. destruct (Forall2_lookup_l _ _ _ _ _ Hess Hi) as (es & Hes' & Hv). rewrite Hv. f_equal.
      destruct es as [|e es]; [done|]. exfalso. apply (not_elem_of_nil e). apply Hes. left. exists (e :: es). split; [by eapply elem_of_list_lookup_2|left].
  - revert seen. induction qs as [|q qs IH]; intros seen [Hk Hv]; [done|]. simpl in *. rewrite (Hv q) by left.
    destruct (dget (result_key q) seen) as [q'|].
    + apply andb_true_iff in Hk as [-> Hk]. rewrite IH; [done|]. split; [done|]. intros; apply Hv; by right.
    + rewrite IH; [done|]. split; [done|]. intros; apply Hv; by right.
Qed.
Lemma check_node_settled visit visit' node qs : (forall q, q ∈ qs -> settled (visit q) (visit' q)) -> forall seen,
  settled (check_node_ visit node seen qs) (check_node_ visit' node seen qs).
Proof.
  unfold settled. induction qs as [|q qs IH]; intros Hv seen Hn; [done|]. simpl in *.
  destruct (match dget (result_key q) seen with Some q' => _ | None => _ end) as [es0 seen'].
  destruct (visit q) as [es1|e] eqn:E1.
  - rewrite (Hv q ltac:(left)) by (rewrite E1; done). rewrite E1.
    destruct (check_node_ visit node seen' qs) as [es2|e] eqn:E2.
    + rewrite IH; [by rewrite E2|intros; apply Hv; [by right|done]|by rewrite E2].
    + rewrite IH; [by rewrite E2|intros; apply Hv; [by right|done]|rewrite E2; intros [= ->]; done].
  - rewrite (Hv q ltac:(left)) by (rewrite E1; intros [= ->]; done). by rewrite E1.
Qed.
Lemma check_node_total visit node qs : (forall q, q ∈ qs -> exists es, visit q = Ok es) -> forall seen, exists es, check_node_ visit node seen qs = Ok es.
Proof.
  induction qs as [|q qs IH]; intros Hv seen; simpl; [eauto|].
  destruct (match dget (result_key q) seen with Some q' => _ | None => _ end) as [es0 seen'].
  destruct (Hv q ltac:(left)) as [es1 ->]. destruct (IH ltac:(intros; apply Hv; by right) seen') as [es2 ->]. eauto.
Qed.

(** ** Options and parts *)
Lemma concatR_nil {A} (r : res (list (list A))) : concatR r = Ok [] <-> exists l, r = Ok l /\ forall x, x ∈ l -> x = [].
Proof.
  unfold concatR. destruct r as [l|e]; [|split; [done|by intros (? & ? & _)]]. split.
  - intros [= Hl]. exists l. split; [done|]. induction l as [|x l IH]; [by intros x Hx%not_elem_of_nil|]. simpl in Hl.
    apply app_eq_nil in Hl as [-> Hl]. intros y [->|Hy]%elem_of_cons; [done|]. by apply IH.
  - intros (l' & [= <-] & Hl). f_equal. induction l as [|x l IH]; [done|]. simpl. rewrite (Hl x) by left. apply IH. intros; apply Hl; by right.
Qed.
Lemma mapR_nil {A B} (f : A -> res (list B)) (l : list A) : concatR (mapR f l) = Ok [] <-> forall x, x ∈ l -> f x = Ok [].
Proof.
  rewrite concatR_nil. split.
  - intros (r & Hr%mapR_ok & Hn) x Hx. apply elem_of_list_lookup in Hx as [i Hi].
    destruct (Forall2_lookup_l _ _ _ _ _ Hr Hi) as (y & Hy & Hf). rewrite Hf. f_equal. apply Hn. by eapply elem_of_list_lookup_2.
  - intros Hf. exists (map (fun _ => []) l). split; [|by intros x (? & -> & _)%elem_of_list_fmap].
    induction l as [|x l IH]; [done|]. simpl. rewrite (Hf x) by left. rewrite IH; [done|]. intros; apply Hf; by right.
Qed.
Lemma mapR_total {A B} (f : A -> res B) (l : list A) : (forall x, x ∈ l -> exists y, f x = Ok y) -> exists ys, mapR f l = Ok ys.
Proof.
  induction l as [|x l IH]; intros Hf; simpl; [eauto|]. destruct (Hf x ltac:(left)) as [y ->].
  destruct (IH ltac:(intros; apply Hf; by right)) as [ys ->]. eauto.
Qed.
Lemma concatR_settled {A} (r r' : res (list (list A))) : settled r r' -> settled (concatR r) (concatR r').
Proof.
  unfold settled, concatR. intros Hs Hn. destruct r as [l|e]; [by rewrite Hs|]. rewrite Hs; [done|]. intros [= ->]. done.
Qed.

Section options.
  Context (dt : dict str ty) (node : option str) (name : str) (o : opts).

  Lemma check_option_settled k k' d : k <= k' -> settled (check_option k dt node name o d) (check_option k' dt node name o d).
  Proof.
    unfold check_option. intros Hk Hn. set (v := match dget (go_name d) (opt_dict o) with Some v => v | None => go_default d end) in *.
    destruct (go_type d) as [t|]; [|done]. pose proof (opt_check_settled dt k k' t v Hk) as Hs. unfold csettled in Hs.
    destruct v; try done; (rewrite Hs; [done|]); intros Hc; rewrite Hc in Hn; done.
  Qed.
  Lemma check_option_nil k d : check_option k dt node name o d = Ok [] ->
    given_value d o <> VNothing /\ match go_type d with Some t => conforms dt t (given_value d o) | None => True end.
  Proof.
    unfold check_option. change (match dget (go_name d) (opt_dict o) with Some v => v | None => go_default d end) with (given_value d o).
    set (v := given_value d o). intros Hc. split; [by destruct v|]. destruct (go_type d) as [t|]; [|done].
    assert (opt_check k dt t v = COk) as Ho%opt_check_conforms; [|done].
    destruct v; try done; destruct (opt_check k dt t _); done.
  Qed.
  Lemma check_option_ev d : given_value d o <> VNothing -> match go_type d with Some t => conforms dt t (given_value d o) | None => True end ->
    ev (fun k => check_option k dt node name o d = Ok []).
  Proof.
    unfold check_option. change (match dget (go_name d) (opt_dict o) with Some v => v | None => go_default d end) with (given_value d o).
    set (v := given_value d o). intros Hv Hc. destruct (go_type d) as [t|].
    - eapply ev_mono; [|exact (conforms_opt_check _ _ _ Hc)]. cbv beta. intros k Hk. destruct v; try done; by rewrite Hk.
    - exists 0. intros k _. by destruct v.
  Qed.
  Lemma check_option_total d : match go_type d with Some t => finite_ty dt false t | None => True end ->
    ev (fun k => exists es, check_option k dt node name o d = Ok es /\ forall e, e ∈ es -> is_same_key e = false).
  Proof.
    unfold check_option. set (v := match dget (go_name d) (opt_dict o) with Some v => v | None => go_default d end).
    destruct (decide (v = VNothing)) as [->|Hv].
    { intros _. exists 0. intros k _. eexists. split; [done|]. by intros e ->%elem_of_list_singleton. }
    destruct (go_type d) as [t|]; intros Ht.
    - eapply ev_mono; [|exact (opt_check_total dt t Ht v)]. cbv beta. intros k Hk.
      assert (exists es, match opt_check k dt t v with COk => Ok [] | CBad w => Ok [EInvalidOption node name (go_name d) w] | CExn e => Err e end = Ok es /\
        forall e, e ∈ es -> is_same_key e = false) as Hx.
      { destruct Hk as [->|[w ->]]; eexists; (split; [done|]); [by intros e ?%not_elem_of_nil|by intros e ->%elem_of_list_singleton]. }
      destruct v; done.
    - exists 0. intros k _. exists []. split; [by destruct v|by intros e ?%not_elem_of_nil].
  Qed.

  Lemma check_options_settled k k' ds : k <= k' -> settled (check_options k dt node name o ds) (check_options k' dt node name o ds).
  Proof.
    intros Hk. unfold settled, check_options.
    assert (settled (concatR (mapR (check_option k dt node name o) ds)) (concatR (mapR (check_option k' dt node name o) ds))) as Hs.
    { apply concatR_settled, mapR_settled. intros. by apply check_option_settled. }
    unfold settled in Hs. destruct (concatR (mapR (check_option k dt node name o) ds)) as [es|e].
    - by rewrite Hs.
    - intros Hn. rewrite Hs; [done|]. intros [= ->]. done.
  Qed.
  Lemma check_options_eq k ds : check_options k dt node name o ds = Ok [] <->
    (forall d, d ∈ ds -> check_option k dt node name o d = Ok []) /\ (forall n, n ∈ map fst (opt_dict o) -> n ∈ map go_name ds).
  Proof.
    unfold check_options. rewrite <-mapR_nil, <-filter_sub_nil. destruct (concatR _) as [es|e]; [|naive_solver].
    destruct (List.filter _ _) as [|u us].
    - naive_solver.
    - split; [|naive_solver]. intros [= Hx]. by apply app_nil in Hx as [_ Hx].
  Qed.
  Lemma check_options_nil k ds : check_options k dt node name o ds = Ok [] -> fits_options dt ds o.
  Proof. intros [H1 H2]%check_options_eq. split; [|done]. intros d Hd. by eapply check_option_nil, H1. Qed.
  Lemma check_options_ev ds : fits_options dt ds o -> ev (fun k => check_options k dt node name o ds = Ok []).
  Proof.
    intros [H1 H2].
    assert (ev (fun k => forall d, d ∈ ds -> check_option k dt node name o d = Ok [])) as He.
    { apply ev_forall. intros d Hd. destruct (H1 d Hd). by apply check_option_ev. }
    eapply ev_mono; [|exact He]. cbv beta. intros k Hk. by apply check_options_eq.
  Qed.
  Lemma check_options_total ds : (forall d t, d ∈ ds -> go_type d = Some t -> finite_ty dt false t) ->
    ev (fun k => exists es, check_options k dt node name o ds = Ok es).
  Proof.
    intros Hd.
    assert (ev (fun k => forall d, d ∈ ds -> exists es, check_option k dt node name o d = Ok es /\ forall e, e ∈ es -> is_same_key e = false)) as He.
    { apply ev_forall. intros d Hin. apply check_option_total. destruct (go_type d) eqn:Et; [|done]. by eapply Hd. }
    eapply ev_mono; [|exact He]. cbv beta. intros k Hk. unfold check_options.
    destruct (mapR_total (check_option k dt node name o) ds) as [ess ->]; [intros x Hx; destruct (Hk x Hx) as (es & ? & _); eauto|]. simpl.
    destruct (List.filter _ _); eauto.
  Qed.
  Lemma check_options_keys k ds es : check_options k dt node name o ds = Ok es -> forall e, e ∈ es -> is_same_key e = false.
  Proof.
    unfold check_options. destruct (mapR _ ds) as [ess|] eqn:Em; [|done]. simpl.
    assert (forall e, e ∈ concat ess -> is_same_key e = false) as Hc.
    { intros e He. apply elem_of_list_In, in_concat in He as (es' & Hes & He). apply elem_of_list_In in Hes, He.
      apply mapR_ok in Em. apply elem_of_list_lookup in Hes as [i Hi]. destruct (Forall2_lookup_r _ _ _ _ _ Em Hi) as (d & _ & Hd).
      unfold check_option in Hd. revert Hd. set (v := match dget (go_name d) (opt_dict o) with Some v => v | None => go_default d end).
      intros Hd. assert (es' = [] \/ exists e', es' = [e'] /\ is_same_key e' = false) as Hes'.
      { destruct (go_type d) as [t|].
        - destruct v; try (match type of Hd with context [opt_check k dt t ?w] => destruct (opt_check k dt t w) end); try done; injection Hd as <-; eauto.
        - destruct v; injection Hd as <-; eauto. }
      destruct Hes' as [->|(e' & -> & Hk)]; [by apply not_elem_of_nil in He|]. by apply elem_of_list_singleton in He as ->. }
    destruct (List.filter _ _); intros [= <-]; [done|]. intros e [He|He]%elem_of_app; [by apply Hc|]. by apply elem_of_list_singleton in He as ->.
  Qed.
End options.

Section parts.
  Context (dt : dict str ty).
  Lemma check_part_settled k k' q : k <= k' -> forall fs, settled (check_part k dt fs q) (check_part k' dt fs q).
  Proof.
    intros Hk. induction q as [n o a|n sub ord o a IH] using qitem_ind'; intros fs Hn; simpl in *.
    - destruct (dget n fs) as [t|]; [|done]. destruct o; [done|]. rewrite (assume_settled dt k k' false t Hk); [done|].
      intros He. rewrite He in Hn. done.
    - destruct (dget n fs) as [t|]; [|done].
      assert (assume_record k dt false t <> Err OutOfFuel) as Ha by (intros He; rewrite He in Hn; done).
      rewrite (assume_settled dt k k' false t Hk Ha). destruct (assume_record k dt false t) as [[fs'|]|]; [|done..].
      rewrite Forall_forall in IH. revert Hn. apply concatR_settled, mapR_settled. intros q Hq. by apply IH.
  Qed.
  Lemma check_part_nil k q : forall fs, check_part k dt fs q = Ok [] -> fits_part dt fs q.
  Proof.
    induction q as [n o a|n sub ord o a IH] using qitem_ind'; intros fs; simpl.
    - destruct (dget n fs) as [t|] eqn:Et; [|done]. destruct o; [done|]. intros Hc. split; [done|].
      destruct (assume_record k dt false t) as [r|] eqn:Ea; [|done]. apply assume_holds in Ea. exists t, r. split; [done|]. split; [done|].
      destruct r as [[|]|]; [by right|done|by left].
    - destruct (dget n fs) as [t|] eqn:Et; [|done]. destruct (assume_record k dt false t) as [[fs'|]|] eqn:Ea; [|done..].
      rewrite mapR_nil. intros Hs. apply assume_holds in Ea. exists t, fs'. split; [done|]. split; [done|]. apply foldr_conj.
      rewrite Forall_forall in IH. intros q Hq. by apply IH, Hs.
  Qed.
  Lemma check_part_ev q : forall fs, fits_part dt fs q -> ev (fun k => check_part k dt fs q = Ok []).
  Proof.
    induction q as [n o a|n sub ord o a IH] using qitem_ind'; intros fs; cbn [check_part fits_part].
    - intros (-> & t & r & -> & Hh & Hr). eapply ev_mono; [|exact (holds_assume _ _ _ Hh)]. cbv beta. intros k ->. by destruct Hr as [->| ->].
    - intros (t & fs' & -> & Hh & Hs). rewrite foldr_conj in Hs. rewrite Forall_forall in IH.
      assert (ev (fun k => forall q, q ∈ sub -> check_part k dt fs' q = Ok [])) as He by (apply ev_forall; intros; apply IH; auto).
      eapply ev_mono; [|exact (ev_and _ _ (holds_assume _ _ _ Hh) He)]. cbv beta. intros k [-> Hk]. by apply mapR_nil.
  Qed.
  Lemma check_part_total q : forall fs, (forall n t, (n, t) ∈ fs -> finite_ty dt true t) -> part_links_known dt fs q ->
    ev (fun k => exists es, check_part k dt fs q = Ok es).
  Proof.
    induction q as [n o a|n sub ord o a IH] using qitem_ind'; intros fs Hf; cbn [check_part part_links_known].
    - intros _. destruct (dget n fs) as [t|] eqn:Et; [|exists 0; eauto]. destruct o; [exists 0; eauto|].
      destruct (finite_holds dt true t) as [r Hr]; [by eapply Hf, dget_Some_elem|].
      eapply ev_mono; [|exact (holds_assume _ _ _ Hr)]. cbv beta. intros k ->. destruct r as [[|]|]; eauto.
    - intros [Hn Hs]. destruct (dget n fs) as [t|] eqn:Et.
      2: { exfalso. by apply dget_None in Et. }
      assert (finite_ty dt true t) as Hft by by eapply Hf, dget_Some_elem.
      destruct (finite_holds dt true t Hft) as [r Hr]. destruct r as [fs'|].
      + specialize (Hs t fs' eq_refl Hr). rewrite foldr_conj in Hs. rewrite Forall_forall in IH.
        assert (ev (fun k => forall q, q ∈ sub -> exists es, check_part k dt fs' q = Ok es)) as He.
        { apply ev_forall. intros q Hq. apply IH; auto. by eapply finite_fields. }
        eapply ev_mono; [|exact (ev_and _ _ (holds_assume _ _ _ Hr) He)]. cbv beta. intros k [-> Hk].
        destruct (mapR_total (check_part k dt fs') sub Hk) as [ess ->]. simpl. eauto.
      + eapply ev_mono; [|exact (holds_assume _ _ _ Hr)]. cbv beta. intros k ->. eauto.
  Qed.
  Lemma check_part_keys k q : forall fs es, check_part k dt fs q = Ok es -> forall e, e ∈ es -> is_same_key e = false.
  Proof.
    induction q as [n o a|n sub ord o a IH] using qitem_ind'; intros fs es; simpl.
    - destruct (dget n fs) as [t|]; [|intros [= <-] e ->%elem_of_list_singleton; done].
      destruct o; [intros [= <-] e ->%elem_of_list_singleton; done|].
      destruct (assume_record k dt false t) as [[[|]|]|]; [..|done]; intros [= <-] e He; try (by apply not_elem_of_nil in He). by apply elem_of_list_singleton in He as ->.
    - destruct (dget n fs) as [t|]; [|done]. destruct (assume_record k dt false t) as [[fs'|]|]; [| |done].
      + unfold concatR. destruct (mapR _ sub) as [ess|] eqn:Em; [|done]. intros [= <-] e He.
        apply elem_of_list_In, in_concat in He as (es' & Hes & He). apply elem_of_list_In in Hes, He.
        apply mapR_ok in Em. apply elem_of_list_lookup in Hes as [i Hi]. destruct (Forall2_lookup_r _ _ _ _ _ Em Hi) as (q & Hq & Hd).
        rewrite Forall_forall in IH. eapply IH; [by eapply elem_of_list_lookup_2|exact Hd|done].
      + intros [= <-] e ->%elem_of_list_singleton. done.
  Qed.
End parts.

(** ** Queries *)
Fixpoint options_proper (q : qitem) : Prop :=
  proper (options_of q) /\ match q with QF _ _ _ => True | QL _ sub _ _ _ => foldr (fun q P => options_proper q /\ P) True sub end.
Lemma options_proper_item q : options_proper q -> proper_item q.
Proof. destruct q; simpl; by intros [? _]. Qed.
Lemma options_proper_sub n sub ord o a : options_proper (QL n sub ord o a) -> forall q, q ∈ sub -> options_proper q.
Proof. simpl. intros [_ Hs]. by rewrite foldr_conj in Hs. Qed.
Lemma keys_ok_nil qs : (forall q, q ∈ qs -> options_proper q) -> keys_ok [] qs = true <-> unambiguous qs.
Proof.
  intros Hp. rewrite keys_ok_spec; [|intros; by apply options_proper_item, Hp|done]. split; [by intros [_ ?]|]. intros Hu. split; [|done]. done.
Qed.

Section queries.
  Context (g : graph).
  Let dt := g_dtypes g.

  Lemma check_item_settled k k' q : k <= k' -> forall gn, settled (check_item k g gn q) (check_item k' g gn q).
  Proof.
    intros Hk. induction q as [n o a|n sub ord o a IH] using qitem_ind'; intros gn Hn; simpl in *.
    - destruct (find_field gn n) as [[f|l]|]; [|done..]. by apply check_options_settled.
    - destruct (find_field gn n) as [[f|l]|]; [| |done].
      + assert (check_options k (g_dtypes g) (gn_name gn) n o (gf_opts f) <> Err OutOfFuel) as Ha by (intros He; rewrite He in Hn; done).
        rewrite (check_options_settled _ _ _ _ _ _ _ Hk Ha). destruct (check_options k _ _ _ _ _); [|done].
        assert (assume_record_of k (g_dtypes g) (gf_type f) <> Err OutOfFuel) as Hb by (intros He; rewrite He in Hn; done).
        assert (assume_record_of k' (g_dtypes g) (gf_type f) = assume_record_of k (g_dtypes g) (gf_type f)) as ->.
        { unfold assume_record_of in *. destruct (gf_type f); [|done]. by apply assume_settled. }
        destruct (assume_record_of k (g_dtypes g) (gf_type f)) as [[fs|]|]; [|done..].
        assert (concatR (mapR (check_part k (g_dtypes g) fs) sub) <> Err OutOfFuel) as Hc by (intros He; rewrite He in Hn; done).
        assert (settled (concatR (mapR (check_part k (g_dtypes g) fs) sub)) (concatR (mapR (check_part k' (g_dtypes g) fs) sub))) as Hs.
        { apply concatR_settled, mapR_settled. intros. by apply check_part_settled. }
        by rewrite (Hs Hc).
      + destruct (find_node g (gl_node l)) as [gn'|]; [|done].
        assert (check_options k (g_dtypes g) (gn_name gn) n o (gl_opts l) <> Err OutOfFuel) as Ha by (intros He; rewrite He in Hn; done).
        rewrite (check_options_settled _ _ _ _ _ _ _ Hk Ha). destruct (check_options k _ _ _ _ _); [|done].
        assert (check_node (check_item k g gn') (gn_name gn') sub <> Err OutOfFuel) as Hb by (intros He; rewrite He in Hn; done).
        rewrite !check_node_eq in *. rewrite Forall_forall in IH.
        assert (settled (check_node_ (check_item k g gn') (gn_name gn') [] sub) (check_node_ (check_item k' g gn') (gn_name gn') [] sub)) as Hs.
        { apply check_node_settled. intros. by apply IH. }
        by rewrite (Hs Hb).
  Qed.

  Lemma app_ok_nil {A} (x : list A) (r : res (list A)) : match r with Err e => Err e | Ok y => Ok (x ++ y) end = Ok [] -> x = [] /\ r = Ok [].
  Proof. destruct r as [y|]; [|done]. intros [= Hx]. by apply app_nil in Hx as [-> ->]. Qed.

  Lemma check_item_nil k q : forall gn, options_proper q -> check_item k g gn q = Ok [] -> fits g gn q.
  Proof.
    induction q as [n o a|n sub ord o a IH] using qitem_ind'; intros gn Hp; cbn [check_item fits].
    - destruct (find_field gn n) as [[f|l]|]; [|done..]. intros Hc%check_options_nil. by exists f.
    - pose proof (options_proper_sub _ _ _ _ _ Hp) as Hps.
      destruct (find_field gn n) as [[f|l]|]; [| |done].
      + destruct (check_options k (g_dtypes g) (gn_name gn) n o (gf_opts f)) as [es|] eqn:Eo; [|done].
        destruct (assume_record_of k (g_dtypes g) (gf_type f)) as [[fs|]|] eqn:Ea; [| |done].
        * intros [-> Hs]%app_ok_nil. apply check_options_nil in Eo. split; [done|]. rewrite mapR_nil in Hs.
          unfold assume_record_of in Ea. destruct (gf_type f) as [t|]; [|done]. apply assume_holds in Ea.
          exists t, fs. split; [done|]. split; [done|]. apply foldr_conj. intros q Hq. by eapply check_part_nil, Hs.
        * intros [= Hx]. by apply app_nil in Hx as [_ Hx].
      + destruct (find_node g (gl_node l)) as [gn'|]; [|done].
        destruct (check_options k (g_dtypes g) (gn_name gn) n o (gl_opts l)) as [es|] eqn:Eo; [|done].
        intros [-> Hs]%app_ok_nil. apply check_options_nil in Eo. split; [done|]. rewrite check_node_eq in Hs.
        apply check_node_nil in Hs as [Hk Hs]. rewrite keys_ok_nil in Hk by done. exists gn'. split; [done|]. split; [done|].
        apply foldr_conj. rewrite Forall_forall in IH. intros q Hq. apply (IH q Hq); [by apply Hps|by apply Hs].
  Qed.
  Lemma check_item_ev q : forall gn, options_proper q -> fits g gn q -> ev (fun k => check_item k g gn q = Ok []).
  Proof.
    induction q as [n o a|n sub ord o a IH] using qitem_ind'; intros gn Hp; cbn [check_item fits].
    - intros (f & -> & Hf). by apply check_options_ev.
    - pose proof (options_proper_sub _ _ _ _ _ Hp) as Hps.
      destruct (find_field gn n) as [[f|l]|]; [| |done].
      + intros (Ho & t & fs & -> & Hh & Hs). rewrite foldr_conj in Hs.
        assert (ev (fun k => forall q, q ∈ sub -> check_part k (g_dtypes g) fs q = Ok [])) as He by (apply ev_forall; intros; by apply check_part_ev, Hs).
        eapply ev_mono; [|exact (ev_and _ _ (check_options_ev _ (gn_name gn) n _ _ Ho) (ev_and _ _ (holds_assume _ _ _ Hh) He))].
        cbv beta. intros k (-> & Ha & Hk). simpl. rewrite Ha. apply mapR_nil in Hk. by rewrite Hk.
      + intros (Ho & gn' & -> & Hu & Hs). rewrite foldr_conj in Hs. rewrite Forall_forall in IH.
        assert (ev (fun k => forall q, q ∈ sub -> check_item k g gn' q = Ok [])) as He.
        { apply ev_forall. intros q Hq. apply (IH q Hq); [by apply Hps|by apply Hs]. }
        eapply ev_mono; [|exact (ev_and _ _ (check_options_ev _ (gn_name gn) n _ _ Ho) He)].
        cbv beta. intros k (-> & Hk). rewrite check_node_eq.
        assert (check_node_ (check_item k g gn') (gn_name gn') [] sub = Ok []) as ->; [|done].
        apply check_node_nil. split; [by apply keys_ok_nil|done].
  Qed.

  (** The types of the graph end: references of field types and option types to data types
      can be followed to an end, option types hold no callables; links lead to nodes. *)
  Definition types_end : Prop :=
    forall gn, gn = g_root g \/ (exists m, find_node g m = Some gn) -> forall n go, find_field gn n = Some go ->
      (forall d t, d ∈ gi_opts go -> go_type d = Some t -> finite_ty (g_dtypes g) false t) /\
      match go with
      | GF f => match gf_type f with Some t => finite_ty (g_dtypes g) true t | None => True end
      | GL l => is_Some (find_node g (gl_node l))
      end.

  Lemma check_item_total q : types_end -> forall gn, gn = g_root g \/ (exists m, find_node g m = Some gn) -> links_known g gn q ->
    ev (fun k => exists es, check_item k g gn q = Ok es).
  Proof.
    intros Ht. induction q as [n o a|n sub ord o a IH] using qitem_ind'; intros gn Hgn; cbn [check_item links_known].
    - intros _. destruct (find_field gn n) as [[f|l]|] eqn:Ef; [|exists 0; eauto..].
      destruct (Ht gn Hgn n _ Ef) as [Hd _]. by apply check_options_total.
    - destruct (find_field gn n) as [[f|l]|] eqn:Ef; [| |exists 0; eauto].
      + intros Hl. destruct (Ht gn Hgn n _ Ef) as [Hd Hft]. simpl in Hd, Hft.
        pose proof (check_options_total (g_dtypes g) (gn_name gn) n o (gf_opts f) Hd) as Ho.
        destruct (gf_type f) as [t|].
        * destruct (finite_holds _ _ _ Hft) as [[fs|] Hh].
          -- specialize (Hl t fs eq_refl Hh). rewrite foldr_conj in Hl.
             assert (ev (fun k => forall q, q ∈ sub -> exists es, check_part k (g_dtypes g) fs q = Ok es)) as He.
             { apply ev_forall. intros q Hq. apply check_part_total; [by eapply finite_fields|by apply Hl]. }
             eapply ev_mono; [|exact (ev_and _ _ Ho (ev_and _ _ (holds_assume _ _ _ Hh) He))].
             cbv beta. intros k ((es & ->) & Ha & Hk). simpl. rewrite Ha. destruct (mapR_total (check_part k (g_dtypes g) fs) sub Hk) as [ess ->]. simpl. eauto.
          -- eapply ev_mono; [|exact (ev_and _ _ Ho (holds_assume _ _ _ Hh))]. cbv beta. intros k ((es & ->) & Ha). simpl. rewrite Ha. eauto.
        * eapply ev_mono; [|exact Ho]. cbv beta. intros k (es & ->). simpl. eauto.
      + intros Hl. destruct (Ht gn Hgn n _ Ef) as [Hd [gn' Hn]]. simpl in Hd. rewrite Hn. specialize (Hl gn' Hn). rewrite foldr_conj in Hl.
        pose proof (check_options_total (g_dtypes g) (gn_name gn) n o (gl_opts l) Hd) as Ho. rewrite Forall_forall in IH.
        assert (ev (fun k => forall q, q ∈ sub -> exists es, check_item k g gn' q = Ok es)) as He.
        { apply ev_forall. intros q Hq. apply (IH q Hq); [right; by eexists|by apply Hl]. }
        eapply ev_mono; [|exact (ev_and _ _ Ho He)]. cbv beta. intros k ((es & ->) & Hk). rewrite check_node_eq.
        destruct (check_node_total (check_item k g gn') (gn_name gn') sub Hk []) as [es' ->]. eauto.
  Qed.

  (** *** C21: what is accepted *)
  Theorem C21_accepted_query_fits k (q : qnode) :
    (forall q0, q0 ∈ qfields q -> options_proper q0) -> validate k g q = Ok [] -> fits_query g q.
  Proof.
    intros Hp. unfold validate. rewrite check_node_eq, check_node_nil, keys_ok_nil by done. intros [Hu Hs]. split; [done|].
    intros q0 Hq0. eapply check_item_nil; [by apply Hp|by apply Hs].
  Qed.
  Theorem C21_fitting_query_accepted (q : qnode) :
    (forall q0, q0 ∈ qfields q -> options_proper q0) -> fits_query g q -> exists n, forall k, n <= k -> validate k g q = Ok [].
  Proof.
    intros Hp [Hu Hs].
    assert (ev (fun k => forall q0, q0 ∈ qfields q -> check_item k g (g_root g) q0 = Ok [])) as He.
    { apply ev_forall. intros q0 Hq0. apply check_item_ev; [by apply Hp|by apply Hs]. }
    eapply ev_mono; [|exact He]. cbv beta. intros k Hk. unfold validate. rewrite check_node_eq, check_node_nil. split; [by apply keys_ok_nil|done].
  Qed.
  Theorem C21_refused_query_does_not_fit k (q : qnode) e errs :
    (forall q0, q0 ∈ qfields q -> options_proper q0) -> validate k g q = Ok (e :: errs) -> ~ fits_query g q.
  Proof.
    intros Hp Hv Hf. destruct (C21_fitting_query_accepted q Hp Hf) as [n Hn].
    assert (validate (k `max` n) g q = validate k g q) as Hs.
    { unfold validate in *. rewrite !check_node_eq in *. apply check_node_settled; [|by rewrite Hv]. intros. apply check_item_settled. lia. }
    rewrite Hn, Hv in Hs by lia. done.
  Qed.

  (** *** C22: validation ends with a list of messages *)
  Theorem C22_reports_partial (q : qnode) : types_end -> (forall q0, q0 ∈ qfields q -> links_known g (g_root g) q0) ->
    exists n, forall k, n <= k -> exists errs, validate k g q = Ok errs.
  Proof.
    intros Ht Hl.
    assert (ev (fun k => forall q0, q0 ∈ qfields q -> exists es, check_item k g (g_root g) q0 = Ok es)) as He.
    { apply ev_forall. intros q0 Hq0. apply check_item_total; [done|by left|by apply Hl]. }
    eapply ev_mono; [|exact He]. cbv beta. intros k Hk. unfold validate. rewrite check_node_eq. by apply check_node_total.
  Qed.
End queries.

(** ** C24 *)
Section keys.
  Context (g : graph).
  (** The nodes below a member *)
  Inductive below : gnode -> qitem -> gnode -> qnode -> Prop :=
  | bl_here gn q l gn' : q_is_link q = true -> find_field gn (q_name q) = Some (GL l) -> find_node g (gl_node l) = Some gn' ->
      below gn q gn' (q_node q)
  | bl_deep gn q l gn' q1 gn2 n2 : q_is_link q = true -> find_field gn (q_name q) = Some (GL l) -> find_node g (gl_node l) = Some gn' ->
      q1 ∈ qfields (q_node q) -> below gn' q1 gn2 n2 -> below gn q gn2 n2.
  Lemma below_snoc gn q gn1 n1 q1 l gn2 : below gn q gn1 n1 -> q1 ∈ qfields n1 -> q_is_link q1 = true ->
    find_field gn1 (q_name q1) = Some (GL l) -> find_node g (gl_node l) = Some gn2 -> below gn q gn2 (q_node q1).
  Proof.
    induction 1 as [gn q l0 gn' H1 H2 H3|gn q l0 gn' q' gn3 n3 H1 H2 H3 H4 H5 IH]; intros Hq Hk Hf Hn.
    - eapply bl_deep; [done..|]. by econstructor.
    - eapply bl_deep; [done..|]. by apply IH.
  Qed.
  Lemma visited_below q0 gn n : visited g q0 gn n <-> (gn = g_root g /\ n = q0) \/ exists q, q ∈ qfields q0 /\ below (g_root g) q gn n.
  Proof.
    split.
    - induction 1 as [|gn n q l gn' Hv IH Hq Hk Hf Hn]; [by left|]. right. destruct IH as [[-> ->]|(q1 & Hq1 & Hb)].
      + exists q. split; [done|]. by econstructor.
      + exists q1. split; [done|]. by eapply below_snoc.
    - intros [[-> ->]|(q & Hq & Hb)]; [constructor|].
      assert (forall gn0 n0, visited g q0 gn0 n0 -> q ∈ qfields n0 -> below gn0 q gn n -> visited g q0 gn n) as Hm.
      { clear Hq Hb. intros gn0 n0 Hv Hq Hb. revert n0 Hv Hq.
        induction Hb as [gn q l0 gn' H1 H2 H3|gn q l0 gn' q' gn3 n3 H1 H2 H3 H4 H5 IH]; intros n0 Hv Hq.
        - by eapply vis_link.
        - apply (IH (q_node q)); [|done]. by eapply vis_link. }
      apply (Hm (g_root g) q0); [constructor|done|done].
  Qed.

  Definition clash_in (errs : list verr) : Prop := exists node key, ESameKey node key ∈ errs.
  Lemma check_node_keys k gn qs errs : (forall q, q ∈ qs -> options_proper q) ->
    (forall q es, q ∈ qs -> check_item k g gn q = Ok es -> clash_in es <-> exists gn' n', below gn q gn' n' /\ ~ unambiguous (qfields n')) ->
    check_node_ (check_item k g gn) (gn_name gn) [] qs = Ok errs ->
    clash_in errs <-> ~ unambiguous qs \/ exists q gn' n', q ∈ qs /\ below gn q gn' n' /\ ~ unambiguous (qfields n').
  Proof.
    intros Hp Hi Hc. pose proof (keys_ok_nil qs Hp) as Hk. destruct (check_node_ok _ _ _ _ _ Hc) as (ess & Hess%mapR_ok & Hes). split.
    - intros (node & key & He). apply Hes in He as [(es & Hin & He)|(Hf & _)].
      + right. apply elem_of_list_lookup in Hin as [i Hin]. destruct (Forall2_lookup_r _ _ _ _ _ Hess Hin) as (q & Hq & Hv).
        apply elem_of_list_lookup_2 in Hq. destruct (proj1 (Hi q es Hq Hv)) as (gn' & n' & ? & ?); [by exists node, key|]. eauto 10.
      + left. intros Hu%Hk. congruence.
    - intros [Hu|(q & gn' & n' & Hq & Hb & Hu)].
      + destruct (keys_ok [] qs) eqn:Ek; [by destruct Hu; apply Hk|]. destruct (check_node_clash _ _ _ _ _ Hc Ek) as [key ?]. by exists (gn_name gn), key.
      + pose proof Hq as Hq'. apply elem_of_list_lookup in Hq as [i Hq]. destruct (Forall2_lookup_l _ _ _ _ _ Hess Hq) as (es & Hin & Hv).
        apply elem_of_list_lookup_2 in Hin. destruct (proj2 (Hi q es Hq' Hv)) as (node & key & He); [eauto|]. exists node, key. apply Hes. left. eauto.
  Qed.
  Lemma check_item_keys k q : options_proper q -> forall gn es, check_item k g gn q = Ok es ->
    clash_in es <-> exists gn' n', below gn q gn' n' /\ ~ unambiguous (qfields n').
  Proof.
    assert (forall es, (forall e, e ∈ es -> is_same_key e = false) -> ~ clash_in es) as Hno.
    { intros es He (node & key & Hin). by specialize (He _ Hin). }
    induction q as [n o a|n sub ord o a IH] using qitem_ind'; intros Hp gn es; cbn [check_item].
    - intros Hc. split.
      + intros Hx. exfalso. revert Hx. apply Hno. destruct (find_field gn n) as [[f|l]|].
        * by eapply check_options_keys.
        * injection Hc as <-. by intros e ->%elem_of_list_singleton.
        * injection Hc as <-. by intros e ->%elem_of_list_singleton.
      + intros (gn' & n' & Hb & _). inversion Hb; done.
    - pose proof (options_proper_sub _ _ _ _ _ Hp) as Hps.
      destruct (find_field gn n) as [[f|l]|] eqn:Ef.
      + intros Hc. split.
        * intros Hx. exfalso. revert Hx. apply Hno.
          destruct (check_options k (g_dtypes g) (gn_name gn) n o (gf_opts f)) as [es1|] eqn:Eo; [|done].
          destruct (assume_record_of k (g_dtypes g) (gf_type f)) as [[fs|]|] eqn:Ea; [| |done].
          -- destruct (concatR (mapR (check_part k (g_dtypes g) fs) sub)) as [es2|] eqn:E2; [|done]. injection Hc as <-.
             intros e [He|He]%elem_of_app; [by eapply check_options_keys|].
             unfold concatR in E2. destruct (mapR _ sub) as [ess|] eqn:Em; [|done]. injection E2 as <-.
             apply elem_of_list_In, in_concat in He as (es' & Hes & He). apply elem_of_list_In in Hes, He.
             apply mapR_ok in Em. apply elem_of_list_lookup in Hes as [i Hi]. destruct (Forall2_lookup_r _ _ _ _ _ Em Hi) as (q & _ & Hd).
             by eapply check_part_keys.
          -- injection Hc as <-. intros e [He|He]%elem_of_app; [by eapply check_options_keys|]. by apply elem_of_list_singleton in He as ->.
        * intros (gn' & n' & Hb & _). inversion Hb; simpl in *; congruence.
      + destruct (find_node g (gl_node l)) as [gn'|] eqn:En; [|done].
        destruct (check_options k (g_dtypes g) (gn_name gn) n o (gl_opts l)) as [es1|] eqn:Eo; [|done].
        destruct (check_node (check_item k g gn') (gn_name gn') sub) as [es2|] eqn:E2; [|done]. intros [= <-]. rewrite check_node_eq in E2.
        rewrite Forall_forall in IH.
        pose proof (check_node_keys k gn' sub es2 Hps ltac:(intros; apply IH; auto) E2) as Hk.
        assert (clash_in (es1 ++ es2) <-> clash_in es2) as ->.
        { split; [|intros (node & key & Hin); exists node, key; rewrite elem_of_app; by right].
          intros (node & key & [Hin|Hin]%elem_of_app); [|by exists node, key]. by apply (check_options_keys _ _ _ _ _ _ _ Eo) in Hin. }
        rewrite Hk. split.
        * intros [Hu|(q & gn2 & n2 & Hq & Hb & Hu)].
          -- exists gn', (QN sub ord). split; [by eapply (bl_here _ (QL n sub ord o a))|done].
          -- exists gn2, n2. split; [|done]. by eapply (bl_deep _ (QL n sub ord o a)).
        * intros (gn2 & n2 & Hb & Hu). inversion Hb as [? ? l0 gn0 H1 H2 H3|? ? l0 gn0 q1 ? ? H1 H2 H3 H4 H5]; subst; simpl in *;
            rewrite Ef in H2; injection H2 as <-; rewrite En in H3; injection H3 as <-; [by left|right; eauto 10].
      + intros [= <-]. split; [intros (? & ? & Hx%elem_of_list_singleton); done|]. intros (gn' & n' & Hb & _). inversion Hb; simpl in *; congruence.
  Qed.

  (** C24: validation reports a clash of result keys iff there is a node of the query, asked
      of a node of the graph, with two members which have the same key but ask for different
      things. *)
  Theorem C24_ambiguous_reported_partial k (q : qnode) errs :
    (forall q0, q0 ∈ qfields q -> options_proper q0) -> validate k g q = Ok errs ->
    (exists node key, ESameKey node key ∈ errs) <-> exists gn n, visited g q gn n /\ ~ unambiguous (qfields n).
  Proof.
    intros Hp. unfold validate. rewrite check_node_eq. intros Hc.
    pose proof (check_node_keys k (g_root g) (qfields q) errs Hp ltac:(intros; apply (check_item_keys k); auto) Hc) as Hk.
    unfold clash_in in Hk. rewrite Hk. setoid_rewrite visited_below. split.
    - intros [Hu|(q1 & gn' & n' & ? & ? & ?)]; [exists (g_root g), q; split; [by left|done]|]. exists gn', n'. split; [right; eauto|done].
    - intros (gn & n & [[-> ->]|(q1 & ? & ?)] & Hu); [by left|right; eauto 10].
  Qed.
End keys.

(** ** C25, C26: graphs *)
Lemma once_In l x : x ∈ once l <-> x ∈ l.
Proof.
  induction l as [|y l IH]; [done|]. simpl. rewrite !elem_of_cons. rewrite <-IH. split.
  - intros [->|Hx]; [by left|]. right. apply elem_of_list_In, filter_In in Hx as [Hx _]. by apply elem_of_list_In.
  - intros [->|Hx]; [by left|]. destruct (decide (y = x)) as [->|Hn]; [by left|]. right. apply elem_of_list_In, filter_In.
    split; [by apply elem_of_list_In|]. by rewrite bool_decide_eq_false_2.
Qed.
Lemma duplicates_nil l : duplicates l = [] <-> NoDup l.
Proof.
  unfold duplicates. rewrite filter_nil, NoDup_ListNoDup, (NoDup_count_occ str_eq_dec). split.
  - intros Hd x. destruct (decide (x ∈ l)) as [Hx|Hx].
    + apply once_In in Hx. specialize (Hd x Hx). apply Nat.ltb_ge in Hd. done.
    + rewrite (proj1 (count_occ_not_In str_eq_dec l x)); [lia|]. by rewrite <-elem_of_list_In.
  - intros Hd x _. apply Nat.ltb_ge. apply Hd.
Qed.
Lemma node_names_eq items : node_names items = names_of_nodes items.
Proof. unfold node_names in *. induction items as [|n items IH]; [done|]. cbn. destruct (gn_name n); cbn; [f_equal|]; exact IH. Qed.
Lemma root_fields_eq items : gn_fields (g_root (Graph items [])) = root_fields items.
Proof. unfold g_root. simpl. induction items as [|n items IH]; [done|]. simpl. destruct (gn_name n); simpl; by rewrite IH. Qed.
Lemma find_field_Some gn n : is_Some (find_field gn n) <-> n ∈ map gi_name (gn_fields gn).
Proof.
  unfold find_field, fields_map, of_pairs. rewrite dget_dupdate.
  assert (is_Some (dget n (reverse (map (fun x => (gi_name x, x)) (gn_fields gn)))) <-> n ∈ map gi_name (gn_fields gn)) as <-.
  { rewrite dget_is_Some. unfold dkeys.
    assert (map fst (reverse (map (fun x => (gi_name x, x)) (gn_fields gn))) = reverse (map gi_name (gn_fields gn))) as ->; [|apply elem_of_reverse].
    rewrite (fmap_reverse fst). f_equal. change (map fst (map (fun x => (gi_name x, x)) (gn_fields gn)) = map gi_name (gn_fields gn)). by rewrite map_map. }
  simpl. destruct (dget n (reverse _)); [done|]. split; [done|intros [? ?]; done].
Qed.
Lemma gcheck_node_nil items gn : gcheck_node items gn = [] <-> well_formed_node (names_of_nodes items) (gn_fields gn).
Proof.
  unfold gcheck_node, well_formed_node. rewrite <-node_names_eq. split.
  - intros [H1 H2]%app_nil. split.
    + apply duplicates_nil. by destruct (duplicates _).
    + intros l Hl. assert (gcheck_item items gn (GL l) = []) as Hi.
      { destruct (gcheck_item items gn (GL l)) as [|e es] eqn:Ee; [done|]. exfalso.
        assert (In e (flat_map (gcheck_item items gn) (gn_fields gn))) as Hin; [|by rewrite H1 in Hin].
        apply in_flat_map. exists (GL l). split; [by apply elem_of_list_In|]. rewrite Ee. by left. }
      simpl in Hi. apply app_nil in Hi as [Ha Hb]. split.
      * destruct (bool_decide _) eqn:Ed; [|done]. by apply bool_decide_eq_true_1 in Ed.
      * destruct (gl_requires l) as [r|]; [|done]. apply find_field_Some. by destruct (find_field gn r).
  - intros [H1 H2]. apply app_nil. split.
    + assert (forall x, x ∈ gn_fields gn -> gcheck_item items gn x = []) as Hi.
      { intros [f|l] Hx; [done|]. destruct (H2 l Hx) as [Ha Hb]. simpl. rewrite bool_decide_eq_true_2 by done. simpl.
        destruct (gl_requires l) as [r|]; [|done]. apply find_field_Some in Hb as [x ->]. done. }
      clear -Hi. induction (gn_fields gn) as [|x l IH]; [done|]. simpl. rewrite Hi by left. apply IH. intros; apply Hi; by right.
    + apply duplicates_nil in H1. by rewrite H1.
Qed.

(** C25: [Graph(items)] accepts exactly the well-formed definitions. *)
Theorem C25_accepted_iff_well_formed items dt : new_graph items dt = Ok (Graph items dt) <-> well_formed items.
Proof.
  unfold new_graph, well_formed. assert (gvalidate items = [] <-> well_formed items) as Hv.
  { unfold gvalidate, well_formed. rewrite !app_nil, gcheck_node_nil, root_fields_eq.
    assert (flat_map (gcheck_node items) (List.filter (fun n => match gn_name n with None => false | Some _ => true end) items) = [] <->
      forall n x, n ∈ items -> gn_name n = Some x -> well_formed_node (names_of_nodes items) (gn_fields n)) as ->.
    { setoid_rewrite <-gcheck_node_nil. split.
      - intros Hf n x Hn Hx. destruct (gcheck_node items n) as [|e es] eqn:Ee; [done|]. exfalso.
        assert (In e (flat_map (gcheck_node items) (List.filter (fun n => match gn_name n with None => false | Some _ => true end) items))) as Hin; [|by rewrite Hf in Hin].
        apply in_flat_map. exists n. split; [|rewrite Ee; by left]. apply filter_In. split; [by apply elem_of_list_In|by rewrite Hx].
      - intros Hf. assert (forall n, n ∈ List.filter (fun n => match gn_name n with None => false | Some _ => true end) items -> gcheck_node items n = []) as Hi.
        { intros n Hn. apply elem_of_list_In, filter_In in Hn as [Hn%elem_of_list_In Hx]. destruct (gn_name n) eqn:Ex; [|done]. by eapply Hf. }
        clear -Hi. induction (List.filter _ items) as [|x l IH]; [done|]. simpl. rewrite Hi by left. apply IH. intros; apply Hi; by right. }
    rewrite <-node_names_eq. assert (match duplicates (node_names items) with [] => [] | ds => [GDupNodes ds] end = [] <-> NoDup (node_names items)) as ->.
    { rewrite <-duplicates_nil. by destruct (duplicates (node_names items)). }
    rewrite node_names_eq. tauto. }
  rewrite <-Hv. destruct (gvalidate items); done.
Qed.
Theorem C25_refused_otherwise items dt : ~ well_formed items -> new_graph items dt = Err TypeError.
Proof.
  intros Hw. rewrite <-(C25_accepted_iff_well_formed items dt) in Hw. unfold new_graph in *. by destruct (gvalidate items).
Qed.

(** C26: the requirement of a link of an accepted graph names a member of the same node ... *)
Theorem C26_requirement_is_member_partial items dt g n l r :
  new_graph items dt = Ok g -> n ∈ g_nodes g \/ n = g_root g -> GL l ∈ gn_fields n -> gl_requires l = Some r ->
  is_Some (find_field n r) /\ exists x, x ∈ gn_fields n /\ gi_name x = r /\ find_field n r = Some x.
Proof.
  intros Hg Hn Hl Hr. assert (g = Graph items dt) as -> by (unfold new_graph in Hg; destruct (gvalidate items); congruence).
  apply C25_accepted_iff_well_formed in Hg as (H1 & H2 & H3).
  assert (well_formed_node (names_of_nodes items) (gn_fields n)) as [Hd Hw].
  { destruct Hn as [Hn| ->].
    - unfold g_nodes in Hn. simpl in Hn. apply elem_of_list_In, filter_In in Hn as [Hn%elem_of_list_In Hx]. destruct (gn_name n) as [x|] eqn:Ex; [|done]. by eapply H3.
    - change (g_root (Graph items dt)) with (g_root (Graph items [])). by rewrite root_fields_eq. }
  destruct (Hw l Hl) as [_ Hm]. rewrite Hr in Hm. split; [by apply find_field_Some|].
  apply elem_of_list_fmap in Hm as (x & -> & Hx). exists x. split; [done|]. split; [done|].
  unfold find_field, fields_map. rewrite of_pairs_NoDup.
  - apply dget_NoDup; [unfold dkeys; by rewrite map_map|]. apply elem_of_list_fmap. by exists x.
  - unfold dkeys. by rewrite map_map.
Qed.

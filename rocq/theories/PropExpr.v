(** Theorems about compiled expressions (C37). *)
From Verif Require Import Base Val Types Query Expr ExprSpec.

(** ** The counter of names *)
Lemma cnt_push_eq c n : cnt (push c n) n = S (cnt c n).
Proof. unfold push. unfold cnt at 1. by rewrite dget_dset_eq. Qed.
Lemma cnt_push_ne c n m : m <> n -> cnt (push c n) m = cnt c m.
Proof. intros Hne. unfold push, cnt. by rewrite dget_dset_ne. Qed.
Lemma cnt_pop_eq c n : cnt (pop c n) n = pred (cnt c n).
Proof. unfold pop. unfold cnt at 1. by rewrite dget_dset_eq. Qed.
Lemma cnt_pop_ne c n m : m <> n -> cnt (pop c n) m = cnt c m.
Proof. intros Hne. unfold pop, cnt. by rewrite dget_dset_ne. Qed.
Lemma dkeys_dset_elem {V} k (v : V) (d : dict str V) n : n ∈ dkeys (dset k v d) <-> n = k \/ n ∈ dkeys d.
Proof.
  rewrite dkeys_dset. destruct (decide (k ∈ dkeys d)).
  - split; [by right|]. by intros [->|].
  - rewrite elem_of_app, elem_of_list_singleton. tauto.
Qed.
Lemma keys_push c n m : m ∈ dkeys (push c n) <-> m = n \/ m ∈ dkeys c.
Proof. apply dkeys_dset_elem. Qed.
Lemma keys_pop c n m : m ∈ dkeys (pop c n) <-> m = n \/ m ∈ dkeys c.
Proof. apply dkeys_dset_elem. Qed.
Lemma env_name_cnt c c' n : cnt c n = cnt c' n -> env_name c n = env_name c' n.
Proof. unfold env_name. by intros ->. Qed.

(** ** The names of generated variables *)
Lemma N_str_no_underscore k : 95%N ∉ N_str k.
Proof.
  intros Hin. pose proof (N_str_digits k) as F. rewrite Forall_forall in F. by specialize (F _ Hin).
Qed.
Lemma split_last {A} (c : A) (x y a b : list A) :
  c ∉ a -> c ∉ b -> x ++ c :: a = y ++ c :: b -> x = y /\ a = b.
Proof.
  revert y. induction x as [|h x IH]; intros [|h' y] Ha Hb; simpl; intros E.
  - injection E as ->. done.
  - injection E as -> ->. exfalso. apply Ha. rewrite elem_of_app. right. left.
  - injection E as -> <-. exfalso. apply Hb. rewrite elem_of_app. right. left.
  - injection E as -> E. destruct (IH y Ha Hb E) as [-> ->]. done.
Qed.
Lemma suffix_inj x y a b : x ++ s "_" ++ N_str a = y ++ s "_" ++ N_str b -> x = y.
Proof.
  intros E. destruct (split_last 95%N x y (N_str a) (N_str b)) as [? ?]; auto using N_str_no_underscore.
Qed.
Lemma env_name_cases c n : env_name c n = n \/ renamed n (env_name c n).
Proof.
  unfold env_name. destruct (Nat.ltb_spec 1 (cnt c n)); [|by left]. right.
  exists (N.of_nat (cnt c n)). split; [lia|done].
Qed.
Lemma env_name_ne c c' x y : x <> y -> ~ renamed x y -> ~ renamed y x -> env_name c x <> env_name c' y.
Proof.
  intros Hne Hxy Hyx E. destruct (env_name_cases c x) as [Ex|Rx], (env_name_cases c' y) as [Ey|Ry].
  - congruence.
  - rewrite <-E, Ex in Ry. done.
  - rewrite E, Ey in Rx. done.
  - destruct Rx as (k & _ & Ex), Ry as (k' & _ & Ey). rewrite Ex, Ey in E. apply suffix_inj in E. done.
Qed.
Lemma renamed_underscore x y : renamed x y -> 95%N ∈ y.
Proof. intros (k & _ & ->). rewrite elem_of_app. right. left. Qed.
Lemma env_name_reserved c x z : x <> z -> 95%N ∉ z -> env_name c x <> z.
Proof.
  intros Hne Hz E. destruct (env_name_cases c x) as [Ex|Rx]; [congruence|].
  apply renamed_underscore in Rx. by rewrite E in Rx.
Qed.

(** ** The counter after compiling *)
Definition kept (bs : list str) (c c' : counter) : Prop :=
  (forall n, cnt c' n = cnt c n) /\ (forall n, n ∈ dkeys c -> n ∈ dkeys c') /\
  (forall n, n ∈ dkeys c' -> n ∈ dkeys c \/ n ∈ bs).
Lemma kept_refl bs c : kept bs c c.
Proof. split_and!; auto. Qed.
Lemma kept_trans b1 b2 c1 c2 c3 : kept b1 c1 c2 -> kept b2 c2 c3 -> kept (b1 ++ b2) c1 c3.
Proof.
  intros (A1 & B1 & C1) (A2 & B2 & C2). split_and!; intros n.
  - by rewrite A2, A1.
  - auto.
  - intros Hn. destruct (C2 n Hn) as [Hn'|?]; [destruct (C1 n Hn')|]; rewrite ?elem_of_app; auto.
Qed.
Lemma kept_sub b1 b2 c c' : (forall n, n ∈ b1 -> n ∈ b2) -> kept b1 c c' -> kept b2 c c'.
Proof. intros Hs (A & B & C). split_and!; auto. intros n Hn. destruct (C n Hn); auto. Qed.
Lemma kept_scope bs c c' x : kept bs (push c x) c' -> kept (x :: bs) c (pop c' x).
Proof.
  intros (A & B & C). split_and!; intros n.
  - destruct (decide (n = x)) as [->|Hne].
    + rewrite cnt_pop_eq, A, cnt_push_eq. done.
    + rewrite cnt_pop_ne, A, cnt_push_ne by done. done.
  - intros Hn. apply keys_pop. right. apply B, keys_push. by right.
  - rewrite keys_pop. intros [->|Hn]; [right; left|]. destruct (C n Hn) as [Hk|Hb].
    + apply keys_push in Hk as [->|]; [right; left|by left].
    + right. by right.
Qed.
Lemma mapS_kept {A B} (f : counter -> A -> res (B * counter)) (bs : A -> list str) l :
  Forall (fun a => forall c p c', f c a = Ok (p, c') -> kept (bs a) c c') l ->
  forall c ps c', mapS f c l = Ok (ps, c') -> kept (flat_map bs l) c c'.
Proof.
  intros F. induction F as [|a l Ha F IH]; intros c ps c'; cbn [mapS flat_map].
  { intros [= <- <-]. apply kept_refl. }
  destruct (f c a) as [[p c1]|] eqn:E1; [|done].
  destruct (mapS f c1 l) as [[ps' c2]|] eqn:E2; [|done].
  intros [= <- <-]. eapply kept_trans; eauto.
Qed.
Lemma compile_kept e : forall c p c', compile c e = Ok (p, c') -> kept (binders e) c c'.
Proof.
  induction e as [v|n r|o n r IH|x rx col body IHc IHb|x rx b th el IHb IHt IHe|n r l F|l F|l F] using expr_ind';
    intros c p c'; cbn [compile binders].
  - destruct (compile_const v); [|done]. intros [= <- <-]. apply kept_refl.
  - destruct (compile_sym c n r); [|done]. intros [= <- <-]. apply kept_refl.
  - destruct (compile c o) as [[po c1]|] eqn:E; [|done]. intros [= <- <-]. eauto.
  - destruct (compile c col) as [[pc c1]|] eqn:E1; [|done].
    destruct (compile (push c1 x) body) as [[pb c3]|] eqn:E2; [|done]. intros [= <- <-].
    apply IHc in E1. apply IHb in E2. apply kept_scope in E2.
    eapply kept_sub, (kept_trans _ _ _ _ _ E1 E2).
    intros m. rewrite !elem_of_app, !elem_of_cons, elem_of_app. tauto.
  - destruct (compile (push c x) b) as [[pb c2]|] eqn:E1; [|done].
    destruct (compile c2 th) as [[pt c3]|] eqn:E2; [|done].
    destruct (compile c3 el) as [[pe c4]|] eqn:E3; [|done]. intros [= <- <-].
    apply kept_scope. apply (kept_trans _ _ _ c2); [eauto|]. apply (kept_trans _ _ _ c3); eauto.
  - destruct (decide (n = s "if")).
    + destruct (mapS compile c l) as [[ps c1]|] eqn:E; [|done].
      assert (kept (flat_map binders l) c c1) as K by (eapply mapS_kept; eauto).
      destruct ps as [|p1 [|p2 [|p3 [|]]]]; try done. by intros [= <- <-].
    + destruct (compile_sym c n r); [|done].
      destruct (mapS compile c l) as [[ps c1]|] eqn:E; [|done].
      intros [= <- <-]. eapply mapS_kept; eauto.
  - destruct (mapS compile c l) as [[ps c1]|] eqn:E; [|done]. intros [= <- <-]. eapply mapS_kept; eauto.
  - destruct (mapS _ c l) as [[ps c1]|] eqn:E; [|done]. intros [= <- <-].
    refine (mapS_kept _ (fun '(_, e) => binders e) l _ c ps c1 E).
    eapply Forall_impl; [exact F|]. intros [k e] He c0 p0 c0'. simpl in He.
    destruct (compile c0 e) as [[q c2]|] eqn:E2; [|done]. intros [= <- <-]. eauto.
Qed.

(** ** Compiled code computes the meaning *)
Section correct.
  Context `{PyDom}.
  Context (fenv ctx : D) (BN : list str).
  Hypothesis reserved : forall n, n ∈ BN -> n ∉ [s "ctx"; s "env"; s "next"].
  Hypothesis apart : forall x y, x ∈ BN -> y ∈ BN -> ~ renamed x y.
  Record inv (c : counter) (rho sg : dict str D) (fs : list str) : Prop := {
    iv_ctx : dget (s "ctx") sg = Some ctx;
    iv_env : dget (s "env") sg = Some fenv;
    iv_next : dget (s "next") sg = None;
    iv_keys : forall n, n ∈ dkeys c -> n ∈ BN;
    iv_names : forall n, n ∈ fs ->
      (exists v, dget n rho = Some v /\ n ∈ dkeys c /\ dget (env_name c n) sg = Some v) \/
      (dget n rho = None /\ n ∉ BN);
  }.
  Lemma inv_sub c rho sg fs fs' : inv c rho sg fs -> (forall n, n ∈ fs' -> n ∈ fs) -> inv c rho sg fs'.
  Proof. intros [] Hs. split; auto. Qed.
  Lemma inv_kept c c' rho sg fs bs :
    inv c rho sg fs -> kept bs c c' -> (forall n, n ∈ bs -> n ∈ BN) -> inv c' rho sg fs.
  Proof.
    intros [] (A & B & C) Hb. split; auto.
    - intros n Hn. destruct (C n Hn); auto.
    - intros n Hn. destruct (iv_names0 n Hn) as [(v & ? & ? & ?)|]; [left|by right].
      exists v. split_and!; auto. by rewrite (env_name_cnt c' c) by apply A.
  Qed.
  (** entering the scope of a variable, without using it *)
  Lemma inv_push c rho sg fs x : inv c rho sg fs -> x ∈ BN -> x ∉ fs -> inv (push c x) rho sg fs.
  Proof.
    intros [] Hx Hf. split; auto.
    - intros n [->|?]%keys_push; auto.
    - intros n Hn. destruct (iv_names0 n Hn) as [(v & ? & ? & ?)|]; [left|by right].
      exists v. split_and!; auto; [apply keys_push; by right|].
      assert (n <> x) by (by intros ->). rewrite (env_name_cnt _ c); [done|]. by apply cnt_push_ne.
  Qed.
  Lemma inv_bound c rho sg fs z v :
    inv c rho sg fs -> z ∉ [s "ctx"; s "env"; s "next"] ->
    (forall n, n ∈ fs -> n ∈ dkeys c -> env_name c n <> z) ->
    inv c rho ((z, v) :: sg) fs.
  Proof.
    intros [] Hz Hn. rewrite !not_elem_of_cons in Hz. destruct Hz as (? & ? & ? & _).
    assert (forall n, n <> z -> dget n ((z, v) :: sg) = dget n sg) as Hg.
    { intros n Hne. simpl. by rewrite decide_False. }
    split; rewrite ?Hg; auto.
    intros n Hf. destruct (iv_names0 n Hf) as [(w & ? & ? & ?)|]; [left|by right].
    exists w. split_and!; auto. rewrite Hg; auto.
  Qed.
  Lemma reserved_name c x : x ∈ BN -> env_name c x ∉ [s "ctx"; s "env"; s "next"].
  Proof.
    intros Hx. pose proof (reserved _ Hx) as Hr. rewrite !not_elem_of_cons in Hr |- *.
    destruct Hr as (? & ? & ? & _).
    split_and!; try apply not_elem_of_nil; apply env_name_reserved; auto;
      apply (bool_decide_unpack _); vm_compute; exact I.
  Qed.
  (** entering the scope of a variable *)
  Lemma inv_enter c rho sg fs x v :
    inv c rho sg (without x fs) -> x ∈ BN ->
    inv (push c x) ((x, v) :: rho) ((env_name (push c x) x, v) :: sg) fs.
  Proof.
    intros I Hx.
    assert (x ∉ without x fs) as Hnx by (intros Hf%elem_of_list_filter; tauto).
    pose proof (inv_push _ _ _ _ x I Hx Hnx) as I1.
    assert (inv (push c x) rho ((env_name (push c x) x, v) :: sg) (without x fs)) as I2.
    { apply inv_bound; [done|by apply reserved_name|].
      intros n Hn Hk. apply (iv_keys _ _ _ _ I1) in Hk. apply env_name_ne; auto. by intros ->. }
    destruct I2. split; auto.
    intros n Hn. destruct (decide (n = x)) as [->|Hne].
    - left. exists v. simpl. rewrite !decide_True by done. split_and!; auto. apply keys_push. by left.
    - assert (n ∈ without x fs) as Hf by (apply elem_of_list_filter; auto).
      change (dget n ((x, v) :: rho)) with (if decide (n = x) then Some v else dget n rho).
      rewrite (decide_False (P := n = x)) by done. auto.
  Qed.
  Lemma eval_name c rho sg fs n r p :
    inv c rho sg fs -> n ∈ fs -> compile_sym c n r = Ok p -> peval sg p = lookup_name fenv ctx rho n r.
  Proof.
    intros I Hn. unfold compile_sym, lookup_name.
    destruct (iv_names _ _ _ _ I n Hn) as [(v & Hr & Hk & Hs)|(Hr & Hk)].
    - apply dget_is_Some in Hk as [i ->]. intros [= <-]. simpl. by rewrite Hs, Hr.
    - rewrite Hr. destruct (dget n c) eqn:E.
      { exfalso. apply Hk. apply (iv_keys _ _ _ _ I). apply dget_is_Some. by rewrite E. }
      destruct r as [r|]; [|done]. intros [= <-]. cbn [peval].
      destruct (ref_to r); rewrite ?(iv_ctx _ _ _ _ I), ?(iv_env _ _ _ _ I); done.
  Qed.
  Definition good (e : expr) : Prop :=
    forall c rho sg p c', (forall n, n ∈ binders e -> n ∈ BN) -> some_apart e = true ->
    inv c rho sg (free e) -> compile c e = Ok (p, c') -> peval sg p = eval fenv ctx rho e.
  Lemma good_list l : Forall good l ->
    forall c rho sg ps c', (forall n, n ∈ flat_map binders l -> n ∈ BN) -> forallb some_apart l = true ->
    inv c rho sg (flat_map free l) -> mapS compile c l = Ok (ps, c') ->
    Forall2 (fun p e => peval sg p = eval fenv ctx rho e) ps l.
  Proof.
    intros F. induction F as [|e l He F IH]; intros c rho sg ps c' Hb Ha I; cbn [mapS].
    { intros [= <- <-]. constructor. }
    cbn [flat_map forallb] in *. apply andb_prop in Ha as [Ha1 Ha2].
    destruct (compile c e) as [[p c1]|] eqn:E1; [|done].
    destruct (mapS compile c1 l) as [[ps' c2]|] eqn:E2; [|done]. intros [= <- <-].
    constructor.
    - eapply He; eauto. { intros n Hn. apply Hb, elem_of_app. by left. }
      eapply inv_sub; [exact I|]. intros n Hn. apply elem_of_app. by left.
    - eapply IH; eauto. { intros n Hn. apply Hb, elem_of_app. by right. }
      eapply inv_sub; [eapply inv_kept; [exact I|by eapply compile_kept|]|].
      + intros n Hn. apply Hb, elem_of_app. by left.
      + intros n Hn. apply elem_of_app. by right.
  Qed.
  Lemma mapR_Forall2_eq {A B C} (f : A -> res C) (g : B -> res C) l l' :
    Forall2 (fun a b => f a = g b) l l' -> mapR f l = mapR g l'.
  Proof. induction 1 as [|a b l l' E F IH]; simpl; [done|]. by rewrite E, IH. Qed.
  Lemma compile_good e : good e.
  Proof.
    induction e as [v|n r|o n r IH|x rx col body IHc IHb|x rx b th el IHb IHt IHe|n r l F|l F|l F] using expr_ind';
      intros c rho sg p c' Hb Ha I; cbn [compile]; cbn [binders free some_apart] in Hb, Ha, I.
    - unfold compile_const. destruct v; try done; by intros [= <- <-].
    - destruct (compile_sym c n r) as [q|] eqn:E; [|done]. intros [= <- <-].
      cbn [eval]. eapply eval_name; eauto. left.
    - destruct (compile c o) as [[po c1]|] eqn:E; [|done]. intros [= <- <-].
      cbn [eval peval]. by rewrite (IH _ _ _ _ _ Hb Ha I E).
    - apply andb_prop in Ha as [Ha1 Ha2].
      destruct (compile c col) as [[pc c1]|] eqn:E1; [|done].
      destruct (compile (push c1 x) body) as [[pb c3]|] eqn:E2; [|done]. intros [= <- <-].
      cbn [eval peval].
      assert (forall n, n ∈ binders col -> n ∈ BN) as Hb1.
      { intros n Hn. apply Hb. right. apply elem_of_app. by left. }
      assert (inv c rho sg (free col)) as I1.
      { eapply inv_sub; [exact I|]. intros n Hn. apply elem_of_app. by left. }
      rewrite (IHc _ _ _ _ _ Hb1 Ha1 I1 E1). destruct (eval fenv ctx rho col) as [v|]; [|done].
      destruct (d_iter v) as [vs|]; [|done].
      erewrite (mapR_Forall2_eq _ (fun u => eval fenv ctx ((x, u) :: rho) body)); [done|].
      apply Forall_Forall2_diag, Forall_forall. intros u Hu. eapply IHb; eauto.
      { intros n Hn. apply Hb. right. apply elem_of_app. by right. }
      apply inv_enter; [|apply Hb; left].
      eapply inv_sub; [eapply inv_kept; [exact I|by eapply compile_kept|done]|].
      intros n Hn. apply elem_of_app. by right.
    - rewrite !andb_true_iff in Ha. destruct Ha as ((((Hxb & Hxe) & Ha1) & Ha2) & Ha3).
      apply bool_decide_eq_true in Hxb, Hxe.
      destruct (compile (push c x) b) as [[pb c2]|] eqn:E1; [|done].
      destruct (compile c2 th) as [[pt c3]|] eqn:E2; [|done].
      destruct (compile c3 el) as [[pe c4]|] eqn:E3; [|done]. intros [= <- <-].
      cbn [eval peval]. rewrite (iv_next _ _ _ _ I).
      assert (x ∈ BN) as Hx by (apply Hb; left).
      assert (forall n, n ∈ binders b -> n ∈ BN) as Hb1.
      { intros n Hn. apply Hb. right. apply elem_of_app. by left. }
      assert (forall n, n ∈ binders th -> n ∈ BN) as Hb2.
      { intros n Hn. apply Hb. right. apply elem_of_app. right. apply elem_of_app. by left. }
      assert (forall n, n ∈ binders el -> n ∈ BN) as Hb3.
      { intros n Hn. apply Hb. right. apply elem_of_app. right. apply elem_of_app. by right. }
      assert (inv c rho sg (free b)) as I1.
      { eapply inv_sub; [exact I|]. intros n Hn. apply elem_of_app. by left. }
      assert (inv c rho sg (without x (free th))) as I2.
      { eapply inv_sub; [exact I|]. intros n Hn. apply elem_of_app. right. apply elem_of_app. by left. }
      assert (inv c rho sg (free el)) as I3.
      { eapply inv_sub; [exact I|]. intros n Hn. apply elem_of_app. right. apply elem_of_app. by right. }
      pose proof (compile_kept _ _ _ _ E1) as K1. pose proof (compile_kept _ _ _ _ E2) as K2.
      rewrite (IHb _ _ _ _ _ Hb1 Ha1 (inv_push _ _ _ _ x I1 Hx Hxb) E1).
      destruct (eval fenv ctx rho b) as [v|]; [|done].
      destruct (d_none v).
      + eapply IHe; eauto.
        eapply inv_kept; [|exact K2|done]. eapply inv_kept; [|exact K1|done].
        apply inv_bound; [by apply inv_push|by apply reserved_name|].
        intros n Hn Hk. apply keys_push in Hk as [->|Hk]; [done|].
        apply (iv_keys _ _ _ _ I) in Hk. apply env_name_ne; auto. by intros ->.
      + eapply IHt; eauto.
        eapply inv_kept; [|exact K1|done]. by apply inv_enter.
    - destruct (decide (n = s "if")) as [Hif|Hif]; cbn [app] in I.
      + destruct (mapS compile c l) as [[ps c1]|] eqn:E; [|done].
        pose proof (good_list l F _ _ _ _ _ Hb Ha I E) as F2.
        destruct ps as [|p1 [|p2 [|p3 [|]]]]; try done. intros [= <- <-].
        inversion F2 as [|? e1 ? ? H1 F3]; subst. inversion F3 as [|? e2 ? ? H2 F4]; subst.
        inversion F4 as [|? e3 ? ? H3 F5]; subst. inversion F5; subst.
        cbn [eval peval]. rewrite decide_True by done. rewrite H1.
        destruct (eval fenv ctx rho e1) as [v|]; [|done]. by destruct (d_true v).
      + destruct (compile_sym c n r) as [pf|] eqn:E0; [|done].
        destruct (mapS compile c l) as [[ps c1]|] eqn:E; [|done]. intros [= <- <-].
        cbn [eval peval]. rewrite decide_False by done.
        rewrite (eval_name _ _ _ _ _ _ _ I ltac:(left) E0).
        destruct (lookup_name fenv ctx rho n r); [|done].
        assert (inv c rho sg (flat_map free l)) as I'.
        { eapply inv_sub; [exact I|]. intros m Hm. by right. }
        pose proof (good_list l F _ _ _ _ _ Hb Ha I' E) as F2.
        by rewrite (mapR_Forall2_eq _ _ _ _ F2).
    - destruct (mapS compile c l) as [[ps c1]|] eqn:E; [|done]. intros [= <- <-].
      pose proof (good_list l F _ _ _ _ _ Hb Ha I E) as F2. cbn [eval peval].
      by rewrite (mapR_Forall2_eq _ _ _ _ F2).
    - destruct (mapS _ c l) as [[ps c1]|] eqn:E; [|done]. intros [= <- <-]. cbn [eval peval].
      erewrite (mapR_Forall2_eq _ (fun '(k, e) => match eval fenv ctx rho e with Ok v => Ok (k, v) | Err x => Err x end)); [done|].
      revert c ps c1 Hb Ha I E. induction F as [|[k e] l He F IH]; intros c ps c1 Hb Ha I; cbn [mapS].
      { intros [= <- <-]. constructor. }
      cbn [flat_map forallb] in *. apply andb_prop in Ha as [Ha1 Ha2]. simpl in He.
      destruct (compile c e) as [[p c2]|] eqn:E1; [|done].
      destruct (mapS _ c2 l) as [[ps' c3]|] eqn:E2; [|done]. intros [= <- <-].
      constructor.
      + erewrite He; [done|..|exact E1]; eauto. { intros n Hn. apply Hb, elem_of_app. by left. }
        eapply inv_sub; [exact I|]. intros n Hn. apply elem_of_app. by left.
      + eapply IH; eauto. { intros n Hn. apply Hb, elem_of_app. by right. }
        eapply inv_sub; [eapply inv_kept; [exact I|by eapply compile_kept|]|].
        * intros n Hn. apply Hb, elem_of_app. by left.
        * intros n Hn. apply elem_of_app. by right.
  Qed.
End correct.
Lemma fold_push_keys l c n : n ∈ dkeys (fold_left push l c) <-> n ∈ l \/ n ∈ dkeys c.
Proof.
  revert c. induction l as [|x l IH]; intros c; cbn [fold_left].
  - rewrite elem_of_nil. tauto.
  - rewrite IH, keys_push, elem_of_cons. tauto.
Qed.
Lemma fold_push_cnt l c n : NoDup l -> cnt (fold_left push l c) n = cnt c n + (if decide (n ∈ l) then 1 else 0).
Proof.
  intros Hl. revert c. induction Hl as [|x l Hx Hl IH]; intros c; cbn [fold_left].
  - rewrite decide_False by apply not_elem_of_nil. lia.
  - rewrite IH. destruct (decide (n = x)) as [->|Hne].
    + rewrite cnt_push_eq, decide_False, decide_True by (done || left). lia.
    + rewrite cnt_push_ne by done. destruct (decide (n ∈ l)).
      * rewrite decide_True by by right. done.
      * rewrite decide_False by (intros [|]%elem_of_cons; done). done.
Qed.
Lemma dget_zip {V} n (ks : list str) (vs : list V) : n ∈ ks -> length ks = length vs -> is_Some (dget n (zip ks vs)).
Proof.
  revert vs. induction ks as [|k ks IH]; intros [|v vs] Hn Hl; simpl in *; try done.
  { by apply elem_of_nil in Hn. }
  destruct (decide (n = k)); [eauto|]. apply elem_of_cons in Hn as [|Hn]; [done|]. apply IH; [done|lia].
Qed.
Lemma dget_zip_none {V} n (ks : list str) (vs : list V) : n ∉ ks -> dget n (zip ks vs) = None.
Proof.
  revert vs. induction ks as [|k ks IH]; intros [|v vs] Hn; simpl; try done.
  apply not_elem_of_cons in Hn as [? ?]. rewrite decide_False by done. auto.
Qed.

(** C37: what the generated function returns is the documented meaning of the expression.
    Partial: hygiene of names is assumed.  Without each of its parts it is false, below. *)
Theorem C37_compiled_code_computes_the_meaning_partial `{PyDom} e args names p fenv this ctx vals :
  compile_lambda e args = Ok (names, p) -> hygienic args e -> length args = length vals ->
  call_lambda names p (fenv :: this :: ctx :: vals) = eval fenv ctx ((THIS, this) :: zip args vals) e.
Proof.
  unfold compile_lambda. intros Hc Hy Hl.
  destruct (compile (fold_left push (THIS :: args) []) e) as [[q c']|] eqn:E; [|done].
  destruct (decide (NoDup _)) as [Hnd|]; [|done]. injection Hc as <- <-.
  unfold call_lambda. cbn [length]. rewrite Hl, Nat.eqb_refl. cbn [zip zip_with].
  destruct Hy as [Hr Hren Hre Hs].
  assert (THIS ∉ args /\ s "ctx" ∉ args /\ s "env" ∉ args /\ NoDup args) as (Ht & Hcx & Hen & Hna).
  { apply NoDup_cons in Hnd as [H1 Hnd]. apply NoDup_cons in Hnd as [H2 Hnd]. apply NoDup_cons in Hnd as [H3 Hnd].
    apply not_elem_of_cons in H1 as [_ H1]. apply not_elem_of_cons in H1 as [_ H1].
    apply not_elem_of_cons in H2 as [_ H2]. done. }
  assert (NoDup (THIS :: args)) as Hnt by (by constructor).
  eapply (compile_good fenv ctx (THIS :: args ++ binders e)); eauto.
  { intros n Hn. right. apply elem_of_app. by right. }
  assert (forall n, n ∈ THIS :: args -> env_name (fold_left push (THIS :: args) []) n = n) as Hname.
  { intros n Hn. unfold env_name. rewrite fold_push_cnt by done. rewrite decide_True by done. done. }
  split.
  - reflexivity.
  - reflexivity.
  - change (dget (s "next") (zip args vals) = None). apply dget_zip_none.
    intros Hin. eapply Hr; [right; apply elem_of_app; left; exact Hin|]. right. right. left.
  - intros n. rewrite fold_push_keys. intros [Hn|Hn]; [|by apply elem_of_nil in Hn].
    apply elem_of_cons in Hn as [->|Hn]; [left|]. right. apply elem_of_app. by left.
  - intros n Hn. destruct (decide (n ∈ THIS :: args)) as [Hin|Hin].
    + left. rewrite Hname by done.
      apply elem_of_cons in Hin as [->|Hin].
      * exists this. split_and!; [reflexivity| |reflexivity]. apply fold_push_keys. left. left.
      * destruct (dget_zip n args vals) as [v Hv]; [done..|].
        assert (n <> THIS) by (by intros ->). assert (n <> s "ctx") by (by intros ->).
        assert (n <> s "env") by (by intros ->).
        exists v. simpl dget. rewrite !decide_False by done. split_and!; auto.
        apply fold_push_keys. left. by right.
    + right. split.
      * apply not_elem_of_cons in Hin as [? ?]. simpl. rewrite decide_False by done. by apply dget_zip_none.
      * intros [->|Hb]%elem_of_cons; [apply Hin; left|]. apply elem_of_app in Hb as [Hb|Hb].
        { apply Hin. by right. } { by eapply Hre. }
Qed.

(** ** Checked expressions compile *)
Fixpoint symbols_ok (e : expr) : bool :=
  match e with
  | EConst _ => true
  | ESym _ r => match r with Some _ => true | None => false end
  | EGet o _ _ => symbols_ok o
  | EEach _ _ c b => symbols_ok c && symbols_ok b
  | EIfSome _ _ b t e => symbols_ok b && symbols_ok t && symbols_ok e
  | ECall _ r l => match r with Some _ => true | None => false end && forallb symbols_ok l
  | EList l => forallb symbols_ok l
  | EDict l => forallb (fun '(_, e) => symbols_ok e) l
  end.
Definition same_shape (e e' : expr) : Prop :=
  symbols_ok e' = true /\ literals e' = literals e /\ ifs_ok e' = ifs_ok e.
Ltac mdestr := repeat match goal with
  | |- context [match ?x with _ => _ end] => destruct x eqn:?; try done
  end.
Lemma check_list_shape types fuel env l :
  Forall (fun e => forall env e', check types fuel env e = Ok e' -> same_shape e e') l ->
  forall l', mapR (check types fuel env) l = Ok l' ->
  forallb symbols_ok l' = true /\ forallb literals l' = forallb literals l /\ forallb ifs_ok l' = forallb ifs_ok l
  /\ length l' = length l.
Proof.
  intros F l' E%mapR_ok. induction E as [|e e' l l' He E IH]; [done|].
  inversion F as [|? ? Ha Fa]; subst. destruct (Ha _ _ He) as (A & B & C).
  destruct (IH Fa) as (A' & B' & C' & D'). cbn [forallb length]. rewrite A, A', B, B', C, C', D'. done.
Qed.
Lemma check_shape types fuel e : forall env e', check types fuel env e = Ok e' -> same_shape e e'.
Proof.
  induction e as [v|n r|o n r IH|x rx col body IHc IHb|x rx b th el IHb IHt IHe|n r l F|l F|l F] using expr_ind';
    intros env e'; cbn [check].
  - intros [= <-]. done.
  - destruct (dget n env); [|done]. intros [= <-]. done.
  - destruct (check types fuel env o) as [o'|] eqn:E; [|done]. mdestr. intros [= <-]. by apply (IH _ _ E).
  - destruct (check types fuel env col) as [col'|] eqn:E; [|done].
    destruct (need_ref col'); [|done]. destruct (get_type _ _) as [t|]; [|done].
    destruct (check_type _ _ _ _); [|done]. destruct t; try done.
    destruct (check types fuel _ body) as [body'|] eqn:E2; [|done]. intros [= <-].
    destruct (IHc _ _ E) as (A & B & C), (IHb _ _ E2) as (A' & B' & C').
    unfold same_shape. cbn [symbols_ok literals ifs_ok]. rewrite A, A', B, B', C, C'. done.
  - destruct (check types fuel env b) as [b'|] eqn:E; [|done].
    destruct (need_ref b'); [|done]. destruct (get_type _ _) as [t|]; [|done].
    destruct (check types fuel _ th) as [th'|] eqn:E2; [|done].
    destruct (check types fuel env el) as [el'|] eqn:E3; [|done]. intros [= <-].
    destruct (IHb _ _ E) as (A & B & C), (IHt _ _ E2) as (A' & B' & C'), (IHe _ _ E3) as (A'' & B'' & C'').
    unfold same_shape. cbn [symbols_ok literals ifs_ok]. rewrite A, A', B, B', C, C', A'', B'', C''. done.
  - destruct (dget n env) as [r'|]; [|done].
    destruct (mapR (check types fuel env) l) as [l'|] eqn:E; [|done].
    destruct (get_type _ _) as [t|]; [|done]. destruct t; try done.
    destruct (_ =? _)%nat; [|done]. destruct (check_args _ _ _ _); [|done]. intros [= <-].
    destruct (check_list_shape _ _ _ _ F _ E) as (A & B & C & D).
    unfold same_shape. cbn [symbols_ok literals ifs_ok]. rewrite A, B, C, D. done.
  - destruct (mapR (check types fuel env) l) as [l'|] eqn:E; [|done]. intros [= <-].
    destruct (check_list_shape _ _ _ _ F _ E) as (A & B & C & D). done.
  - destruct (mapR _ l) as [l'|] eqn:E; [|done]. intros [= <-].
    apply mapR_ok in E. unfold same_shape. cbn [symbols_ok literals ifs_ok].
    induction E as [|[k e] [k' e'] l l' He E IH]; [done|].
    inversion F as [|? ? Ha Fa]; subst. simpl in Ha.
    destruct (check types fuel env e) as [e''|] eqn:E2; [|done]. injection He as <- <-.
    destruct (Ha _ _ E2) as (A & B & C). destruct (IH Fa) as (A' & B' & C'). cbn [forallb].
    rewrite A, A', B, B', C, C'. done.
Qed.
Lemma compile_total e : symbols_ok e = true -> literals e = true -> ifs_ok e = true ->
  forall c, exists p c', compile c e = Ok (p, c').
Proof.
  assert (forall l : list expr, Forall (fun e => symbols_ok e = true -> literals e = true -> ifs_ok e = true ->
            forall c, exists p c', compile c e = Ok (p, c')) l ->
          forallb symbols_ok l = true -> forallb literals l = true -> forallb ifs_ok l = true ->
          forall c, exists ps c', mapS compile c l = Ok (ps, c') /\ length ps = length l) as Hlist.
  { intros l F. induction F as [|a l He F IH]; cbn [forallb]; intros H1 H2 H3 c; cbn [mapS]; [by eexists _, _|].
    apply andb_prop in H1 as [? ?], H2 as [? ?], H3 as [? ?].
    destruct (He) with (c := c) as (p & c1 & ->); auto. destruct (IH) with (c := c1) as (ps & c2 & -> & Hl); auto.
    eexists _, _. split; [done|]. simpl. by rewrite Hl. }
  induction e as [v|n r|o n r IH|x rx col body IHc IHb|x rx b th el IHb IHt IHe|n r l F|l F|l F] using expr_ind';
    cbn [symbols_ok literals ifs_ok]; intros H1 H2 H3 c; cbn [compile].
  - destruct v; try done; by eexists _, _.
  - unfold compile_sym. destruct (dget n c); [by eexists _, _|]. destruct r; [by eexists _, _|done].
  - destruct (IH H1 H2 H3 c) as (p & c1 & ->). by eexists _, _.
  - apply andb_prop in H1 as [? ?], H2 as [? ?], H3 as [? ?].
    destruct (IHc) with (c := c) as (p & c1 & ->); auto. destruct (IHb) with (c := push c1 x) as (p2 & c2 & ->); auto.
    by eexists _, _.
  - rewrite !andb_true_iff in H1, H2, H3. destruct H1 as ((? & ?) & ?), H2 as ((? & ?) & ?), H3 as ((? & ?) & ?).
    destruct (IHb) with (c := push c x) as (p & c1 & ->); auto. destruct (IHt) with (c := c1) as (p2 & c2 & ->); auto.
    destruct (IHe) with (c := c2) as (p3 & c3 & ->); auto. by eexists _, _.
  - apply andb_prop in H1 as [Hr ?], H3 as [Hif ?].
    destruct (Hlist l F) with (c := c) as (ps & c1 & -> & Hlen); auto.
    destruct (decide (n = s "if")).
    + apply Nat.eqb_eq in Hif. rewrite Hif in Hlen.
      destruct ps as [|p1 [|p2 [|p3 [|]]]]; try done. by eexists _, _.
    + unfold compile_sym. destruct (dget n c); [by eexists _, _|]. destruct r; [by eexists _, _|done].
  - destruct (Hlist l F) with (c := c) as (ps & c1 & -> & Hlen); auto. by eexists _, _.
  - assert (exists ps c', mapS (fun c '(k, e) => match compile c e with Ok (p, c1) => Ok ((k, p), c1) | Err x => Err x end) c l = Ok (ps, c')) as (ps & c' & ->).
    { clear Hlist. revert c H1 H2 H3. induction F as [|[k e] l He F IH]; cbn [forallb]; intros c H1 H2 H3; cbn [mapS]; [by eexists _, _|].
      apply andb_prop in H1 as [? ?], H2 as [? ?], H3 as [? ?]. simpl in He.
      destruct (He) with (c := c) as (p & c1 & ->); auto. destruct (IH c1) as (ps & c2 & ->); auto. by eexists _, _. }
    by eexists _, _.
Qed.
(** Every expression which passes the checks, with literal constants and complete [if]s, compiles;
    the options of the field must be named otherwise than the three fixed arguments. *)
Theorem C37_checked_expressions_compile types fuel env e e' args :
  check types fuel env e = Ok e' -> literals e = true -> ifs_ok e = true ->
  NoDup args -> (forall n, n ∈ args -> n ∉ [THIS; s "ctx"; s "env"]) ->
  exists names p, compile_lambda e' args = Ok (names, p).
Proof.
  intros Hc Hl Hi Hnd Hn. destruct (check_shape _ _ _ _ _ Hc) as (A & B & C).
  destruct (compile_total e' A) with (c := fold_left push (THIS :: args) []) as (p & c' & E); [congruence..|].
  unfold compile_lambda. rewrite E. rewrite decide_True; [by eexists _, _|].
  assert (forall n, n ∈ [THIS; s "ctx"; s "env"] -> n ∉ args) as Hn' by (intros n H1 H2; by eapply Hn).
  constructor.
  { rewrite !not_elem_of_cons. split_and!; [done..|]. apply Hn'. right. right. left. }
  constructor.
  { rewrite !not_elem_of_cons. split_and!; [done|]. apply Hn'. left. }
  constructor; [|done]. apply Hn'. right. left.
Qed.

(** ** Examples *)
(** Python objects as values: dictionaries with string keys, lists, and functions which return
    their name with their arguments. *)
#[local] Instance ex_dom : PyDom := {|
  D := val;
  d_const v := v;
  d_sub v k := match v with
               | VDict d => match find (fun '(k', _) => match k' with VStr k' => bool_decide (k = k') | _ => false end) d with
                            | Some (_, u) => Ok u
                            | None => Err KeyError
                            end
               | _ => Err TypeError
               end;
  d_true v := match v with VNone | VBool false | VInt 0 | VStr [] | VList [] => false | _ => true end;
  d_none v := match v with VNone => true | _ => false end;
  d_iter v := match v with VList l => Ok l | _ => Err TypeError end;
  d_call f l := match f with VSym _ => Ok (VTuple (f :: l)) | _ => Err TypeError end;
  d_list := VList;
  d_dict l := VDict (map (fun '(k, v) => (VStr k, v)) l);
|}.
Definition rec (l : list (str * val)) : val := VDict (map (fun '(k, v) => (VStr k, v)) l).
Definition vs (x : String.string) : val := VStr (s x).
Arguments vs x%string.
Definition ex_fenv : val := rec [(s "f", VSym (s "f"))].
Definition ex_item (n : Z) (o : val) : val := rec [(s "a", VInt n); (s "o", o)].
Definition ex_ctx : val := rec [(s "xs", VList [ex_item 1 VNone; ex_item 2 (vs "two")]); (s "x", vs "the x");
                                (s "z", vs "the z"); (s "no", VNone)].
Definition ex_this : val := rec [(s "id", VInt 7); (s "img", rec [(s "url", vs "u")]); (s "none", VNone)].
Definition ex_item_ty : ty := TRec [(s "a", TInt); (s "o", TOpt TStr)].
Definition ex_env : dict str ref :=
  check_env [(s "f", TCall [TAny; TAny]); (s "if", TCall [TAny; TAny; TAny]); (s "xs", TSeq ex_item_ty);
             (s "x", TStr); (s "z", TStr); (s "no", TOpt TStr); (s "lim", TInt);
             (THIS, TRec [(s "id", TInt); (s "img", TOpt (TRec [(s "url", TStr)])); (s "none", TOpt TStr)])].
Definition sym n : expr := ESym (s n) None.
Definition get o n : expr := EGet o (s n) None.
Definition call n l : expr := ECall (s n) None l.
Arguments sym n%string. Arguments get o n%string. Arguments call n%string l.
Definition each x c b : expr := EEach (s x) None c b.
Definition if_some x b t e : expr := EIfSome (s x) None b t e.
Arguments each x%string c b. Arguments if_some x%string b t e.
(** [each(y, xs, [if_some([v, y.o], f(v, y.a), lim)]), each(y, xs, each(y, xs, y.a))] and more *)
Definition ex_expr : expr :=
  EDict [(s "p", each "y" (sym "xs") (EList [if_some "v" (get (sym "y") "o") (call "f" [sym "v"; get (sym "y") "a"]) (sym "lim")]));
         (s "q", each "y" (sym "xs") (each "y" (sym "xs") (get (sym "y") "a")));
         (s "r", call "if" [get (sym "this") "id"; if_some "w" (get (sym "this") "img") (get (sym "w") "url") (EConst VNone); EConst (VBool false)])].
(** what the lambda compiled from an expression gives, and what it should give *)
Definition run (e : expr) : res (res D * res D) :=
  match check [] 10 ex_env e with
  | Err x => Err x
  | Ok e' => match compile_lambda e' [s "lim"] with
             | Err x => Err x
             | Ok (names, p) => Ok (call_lambda names p [ex_fenv; ex_this; ex_ctx; VInt 5],
                                    eval ex_fenv ex_ctx [(THIS, ex_this); (s "lim", VInt 5)] e')
             end
  end.
Example C37_example_value :
  exists v, run ex_expr = Ok (Ok v, Ok v) /\
  v = rec [(s "p", VList [VList [VInt 5]; VList [VTuple [VSym (s "f"); vs "two"; VInt 2]]]);
           (s "q", VList [VList [VInt 1; VInt 2]; VList [VInt 1; VInt 2]]);
           (s "r", vs "u")].
Proof. eexists. split; [vm_compute; reflexivity|reflexivity]. Qed.
Lemma not_renamed_short (l : list str) :
  forallb (fun y => bool_decide (95%N ∉ y)) l = true -> forall x y, x ∈ l -> y ∈ l -> ~ renamed x y.
Proof.
  intros Hl x y _ Hy Hr. rewrite forallb_forall in Hl. rewrite elem_of_list_In in Hy.
  specialize (Hl _ Hy). apply bool_decide_eq_true in Hl. by apply renamed_underscore in Hr.
Qed.
Lemma hygienic_check args e :
  forallb (fun n => bool_decide (n ∉ [s "ctx"; s "env"; s "next"])) (THIS :: args ++ binders e) = true ->
  forallb (fun y => bool_decide (95%N ∉ y)) (THIS :: args ++ binders e) = true ->
  forallb (fun n => bool_decide (n ∈ THIS :: args) || bool_decide (n ∉ binders e)) (free e) = true ->
  some_apart e = true -> hygienic args e.
Proof.
  intros H1 H2 H3 H4. split; [|by apply not_renamed_short| |done].
  - intros n Hn. rewrite forallb_forall in H1. rewrite elem_of_list_In in Hn. specialize (H1 _ Hn).
    by apply bool_decide_eq_true in H1.
  - intros n Hn Ht. rewrite forallb_forall in H3. rewrite elem_of_list_In in Hn. specialize (H3 _ Hn).
    apply orb_prop in H3 as [H3|H3]; apply bool_decide_eq_true in H3; done.
Qed.
Example C37_example_hygienic :
  exists e' names p, check [] 10 ex_env ex_expr = Ok e' /\ compile_lambda e' [s "lim"] = Ok (names, p) /\
  hygienic [s "lim"] e'.
Proof.
  eexists _, _, _. split; [vm_compute; reflexivity|]. split; [vm_compute; reflexivity|].
  apply hygienic_check; vm_compute; reflexivity.
Qed.
(** ** What goes wrong otherwise *)
(** The name of a variable is remembered after its scope: [[each(x, xs, x.a), x]], where [x] is
    also a field of the root. *)
Theorem C37_name_of_an_earlier_variable_refuted :
  exists e v, run e = Ok (Err NameErr, Ok v) /\ e = EList [each "x" (sym "xs") (get (sym "x") "a"); sym "x"].
Proof. eexists _, _. split; [|reflexivity]. vm_compute. reflexivity. Qed.
(** [if_some([x, x], x, '')], where [x] is also a field of the root; the same with an outer
    variable [x]; and an else branch which uses the name. *)
Theorem C37_if_some_over_same_name_refuted :
  exists v, run (if_some "x" (sym "x") (sym "x") (EConst (vs ""))) = Ok (Err NameErr, Ok v).
Proof. eexists. vm_compute. reflexivity. Qed.
Theorem C37_if_some_shadowing_refuted :
  exists v, run (each "y" (sym "xs") (if_some "y" (get (sym "y") "o") (sym "y") (EConst VNone))) = Ok (Err NameErr, Ok v).
Proof. eexists. vm_compute. reflexivity. Qed.
Theorem C37_if_some_else_uses_name_refuted :
  exists v, run (if_some "z" (sym "no") (sym "z") (sym "z")) = Ok (Ok VNone, Ok v) /\ v = vs "the z".
Proof. eexists. vm_compute. done. Qed.
(** Variables named [ctx], [env], [next]. *)
Theorem C37_variable_named_ctx_refuted :
  exists v, run (each "ctx" (sym "xs") (sym "x")) = Ok (Err KeyError, Ok v).
Proof. eexists. vm_compute. reflexivity. Qed.
Theorem C37_variable_named_env_refuted :
  exists v, run (each "env" (sym "xs") (call "f" [sym "z"; sym "env"])) = Ok (Err KeyError, Ok v).
Proof. eexists. vm_compute. reflexivity. Qed.
Theorem C37_variable_named_next_refuted :
  exists v, run (each "next" (sym "xs") (if_some "v" (sym "no") (sym "v") (sym "z"))) = Ok (Err TypeError, Ok v).
Proof. eexists. vm_compute. reflexivity. Qed.
(** A variable named [x_2] inside a second [x] takes its place:
    [each(y, xs, each(y, xs, each(y_2, xs, f(y.a, y_2.a))))], at the first items. *)
Theorem C37_variable_named_like_a_renamed_one_refuted :
  exists v w, run (each "y" (sym "xs") (each "y" (sym "xs") (each "y_2" (sym "xs") (EList [get (sym "y") "a"; get (sym "y_2") "a"]))))
    = Ok (Ok v, Ok w) /\ v <> w.
Proof. eexists _, _. split; [vm_compute; reflexivity|]. discriminate. Qed.
(** An option named like one of the three arguments. *)
Theorem C37_option_named_env_refuted :
  exists e' names p, check [] 10 ex_env (sym "x") = Ok e' /\ compile_lambda e' [s "envv"] = Ok (names, p) /\
  forall n, n ∈ [s "env"; s "ctx"; s "this"] -> compile_lambda e' [n] = Err (UserErr 1).
Proof.
  eexists _, _, _. split; [vm_compute; reflexivity|]. split; [vm_compute; reflexivity|].
  intros n Hn. rewrite !elem_of_cons, elem_of_nil in Hn. destruct Hn as [->|[->|[->|[]]]]; vm_compute; reflexivity.
Qed.

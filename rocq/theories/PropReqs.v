(** Theorems about the requirements of expressions (C38). *)
From Verif Require Import Base Val Types Query QuerySpec QueryProof MergeProof PropQuery Expr ExprSpec PropExpr Examples.

(** ** What queries ask for *)
Lemma asks_item i l b : i ∈ l -> asks (QN l b) [q_name i].
Proof. intros Hi. exists [label_of i]. split; [by constructor|done]. Qed.
Lemma asks_sub n sub ord o a l b p : QL n sub ord o a ∈ l -> asks (QN sub ord) p -> asks (QN l b) (n :: p).
Proof.
  intros Hi (ls & Hr & <-). exists (label_of (QL n sub ord o a) :: ls). split; [|done].
  eapply req_sub; eauto.
Qed.
Lemma asks_nonnil q : ~ asks q [].
Proof. intros (ls & Hr & E). inversion Hr; subst; done. Qed.
Lemma asks_prefix q p n : asks q (p ++ [n]) -> p <> [] -> asks q p.
Proof.
  intros (ls & Hr & E) Hp.
  assert (exists l0 x, ls = l0 ++ [x] /\ map lb_name l0 = p) as (l0 & x & -> & <-).
  { destruct ls as [|x l0 _] using rev_ind; [by destruct p|]. rewrite map_app in E. apply app_inj_tail in E as [E _].
    by exists l0, x. }
  clear E. assert (l0 <> []) as Hl by (by intros ->). clear Hp.
  exists l0. split; [|done]. revert q Hr. induction l0 as [|y l0 IH]; [done|]. intros q Hr.
  inversion Hr as [? i Hi E0 E1|? i p Hi Hl' Hs E0 E1]; subst.
  { by destruct l0. }
  destruct l0 as [|z l0]; [by constructor|]. eapply req_sub; eauto.
Qed.
Definition plain (q : qnode) : Prop := forall i, occurs i q -> q_opts i = None.
Lemma plain_field n : plain (QN [QF n None None] false).
Proof. intros i Hi. inversion Hi as [? ? Hin|? l ? Hin Hl Hs]; subst; apply elem_of_list_singleton in Hin as ->; done. Qed.
Lemma plain_link n sub ord : plain (QN sub ord) -> plain (QN [QL n sub ord None None] false).
Proof.
  intros Hp i Hi. inversion Hi as [? ? Hin|? l ? Hin Hl Hs]; subst; apply elem_of_list_singleton in Hin as ->; [done|].
  by apply Hp.
Qed.
Lemma asks_merge `{Hasher} ns q p : (forall n, n ∈ ns -> plain n) -> q ∈ ns -> asks q p -> asks (merge ns) p.
Proof.
  intros Hp Hq (ls & Hr & <-).
  destruct (C01_merge_requests ns ls) as [_ [p' [Hs Hr']]].
  - intros q1 q2 (n1 & H1 & O1) (n2 & H2 & O2) _ _.
    rewrite (Hp _ H1 _ O1), (Hp _ H2 _ O2). constructor.
  - exists q, ls. split_and!; [done| |done]. clear. induction ls; constructor; [|done].
    split_and!; try done. constructor.
  - exists p'. split; [done|]. clear -Hs. induction Hs as [|? ? ? ? (_ & E & _) _ IH]; [done|]. simpl. by rewrite E, IH.
Qed.

(** ** Requirements of references *)
Fixpoint path_of (r : ref) : list str :=
  match r with RTop => [] | RNamed b n _ => path_of b ++ [n] | RItem b _ => path_of b end.
Definition req_ok (r : ref) : Prop := forall types add o,
  ref_to_req types r add = Ok o ->
  exists q, o = Some q /\ (forall a p, add = Some a -> asks a p -> asks q (path_of r ++ p)) /\
  (path_of r <> [] -> asks q (path_of r)) /\ ((forall a, add = Some a -> plain a) -> plain q).
Lemma ref_to_req_ok r : req_ok r.
Proof.
  induction r as [|b IH n t|b IH t]; intros types add o; cbn [ref_to_req path_of].
  { destruct add as [q|]; [|done]. intros [= <-]. exists q. split_and!; auto; try done.
    by intros a p [= <-]. }
  - assert (forall o, ref_to_req types b (Some (QN [QL n (match add with Some q => qfields q | None => [] end)
                                                     (match add with Some q => qordered q | None => false end) None None] false)) = Ok o ->
      exists q, o = Some q /\ (forall a p, add = Some a -> asks a p -> asks q ((path_of b ++ [n]) ++ p)) /\
      (path_of b ++ [n] <> [] -> asks q (path_of b ++ [n])) /\ ((forall a, add = Some a -> plain a) -> plain q)) as Hlink.
    { intros o' E. destruct (IH _ _ _ E) as (q & -> & A & _ & C). exists q. split_and!; [done|..].
      - intros a p -> Ha. rewrite <-app_assoc. eapply A; [done|]. eapply asks_sub; [left|]. by destruct a.
      - intros _. eapply A; [done|]. eapply (asks_item (QL _ _ _ _ _)). left.
      - intros Hp. apply C. intros a [= <-]. apply plain_link. destruct add as [[]|]; [by apply Hp|].
        intros i Hi. inversion Hi as [? ? Hin|? ? ? Hin]; subst; by apply elem_of_nil in Hin. }
    assert (forall o, ref_to_req types b (Some (QN [QF n None None] false)) = Ok o -> add = None ->
      exists q, o = Some q /\ (forall a p, add = Some a -> asks a p -> asks q ((path_of b ++ [n]) ++ p)) /\
      (path_of b ++ [n] <> [] -> asks q (path_of b ++ [n])) /\ ((forall a, add = Some a -> plain a) -> plain q)) as Hfield.
    { intros o' E ->. destruct (IH _ _ _ E) as (q & -> & A & _ & C). exists q. split_and!; [done|done|..].
      - intros _. eapply A; [done|]. eapply (asks_item (QF _ _ _)). left.
      - intros _. apply C. intros a [= <-]. apply plain_field. }
    destruct (match get_type types t with Ok t' => _ | Err e => Err e end) as [u|]; [|done].
    destruct u as [| | | | |?|?|i|? ?|fs|?]; cbn [is_container]; try done; auto;
      try (destruct add; [done|]; intros E; by apply Hfield).
    destruct (get_type types i) as [v|]; [|done].
    destruct v; cbn [is_container]; try done; auto; try (destruct add; [done|]; intros E; by apply Hfield).
  - pose proof (IH types add) as IH1. pose proof (IH types None) as IH2.
    destruct (match get_type types t with Ok t' => _ | Err e => Err e end) as [u|]; [|done].
    destruct u as [| | | | |?|?|i|? ?|fs|?]; cbn [is_container]; try done;
      try (destruct add; [done|exact (IH2 o)]); try exact (IH1 o).
    destruct (get_type types i) as [v|]; [|done].
    destruct v; cbn [is_container]; try done.
Qed.
Lemma type_to_query_plain t q : type_to_query t = Some q -> plain q.
Proof.
  revert q. induction t as [| | | | |n|t IH|t IH|k v IHk IHv|fs F|l F] using ty_ind'; intros q; cbn [type_to_query]; try done; auto.
  intros [= <-] i Hi.
  assert (forall j, j ∈ map (fun '(n, u) => match type_to_query u with
                                            | Some q => QL n (qfields q) (qordered q) None None
                                            | None => QF n None None end) fs ->
          q_opts j = None /\ (q_is_link j = true -> plain (q_node j))) as Hj.
  { intros j Hj. apply elem_of_list_fmap in Hj as ([n u] & -> & Hin).
    rewrite Forall_forall in F. specialize (F _ Hin). simpl in F.
    destruct (type_to_query u) as [[l b]|] eqn:E; [|done]. split; [done|]. intros _. by apply F. }
  inversion Hi as [? ? Hin|? l ? Hin Hl Hs]; subst; cbn [qfields] in Hin.
  - by apply Hj.
  - destruct (Hj _ Hin) as [_ Hp]. by apply Hp.
Qed.

(** ** Data *)
Section dv_ind.
  Variable P : dv -> Prop.
  Hypothesis Hv : forall v, P (DVal v).
  Hypothesis Hl : forall l, Forall P l -> P (DList l).
  Hypothesis Ho : forall d, Forall (fun p => P p.2) d -> P (DObj d).
  Hypothesis Hd : forall d, Forall (fun p => P p.2) d -> P (DDict d).
  Hypothesis Hf : forall f, P (DFun f).
  Fixpoint dv_ind' (v : dv) : P v :=
    let fd := fix fd (d : list (str * dv)) : Forall (fun p => P p.2) d :=
      match d with [] => List.Forall_nil _ | (k, v) :: d' => List.Forall_cons _ (k, v) _ (dv_ind' v) (fd d') end in
    match v with
    | DVal v => Hv v
    | DList l => Hl l ((fix fl (l : list dv) : Forall P l :=
        match l with [] => List.Forall_nil _ | v :: l' => List.Forall_cons _ _ _ (dv_ind' v) (fl l') end) l)
    | DObj d => Ho d (fd d)
    | DDict d => Hd d (fd d)
    | DFun f => Hf f
    end.
End dv_ind.
Lemma alike_refl v : alike v v.
Proof.
  induction v as [v|l F|d F|d F|f] using dv_ind'; try constructor; auto.
  - intros i v w E1 E2. rewrite E1 in E2. injection E2 as <-.
    rewrite Forall_forall in F. apply F. eapply elem_of_list_lookup_2; eauto.
  - intros i v w E1 E2. rewrite E1 in E2. injection E2 as <-.
    apply elem_of_list_lookup_2, elem_of_list_fmap in E1 as (p & -> & Hp).
    rewrite Forall_forall in F. by apply F.
Qed.
Lemma enough_alike types t S v w : enough types t S v w -> alike v w.
Proof. induction 1; try constructor; auto. apply alike_refl. Qed.
Lemma enough_get_type types t S v w u : enough types t S v w -> get_type types t = Ok u -> enough types u S v w.
Proof.
  intros He Hg. destruct t; try (by injection Hg as <-). cbn [get_type] in Hg.
  destruct (dget n types) as [t|] eqn:E; [|done]. injection Hg as <-.
  inversion He as [? ? ? Hl|? ? ? ? ? Hd Ht| | | |]; subst; [done|]. by rewrite E in Hd; injection Hd as <-.
Qed.
Lemma enough_mono types t S v w : enough types t S v w -> forall (S' : list str -> Prop), (forall p, S' p -> S p) -> enough types t S' v w.
Proof.
  induction 1 as [| | | |t S l l' Hl Hi IH|fs S d d' Hp He IH]; intros S' HS; try (econstructor; eauto; fail).
Qed.
Lemma has_type_enough types v t S : has_type types v t -> enough types t S v v.
Proof.
  intros H. revert S. induction H as [| | | | |v n t E H IH|t|v t H IH|l t H IH|d tk tv|d fs Hp H IH]; intros S;
    try (by apply en_leaf); try (econstructor; eauto; fail).
  - constructor; [done|]. intros i v w E1 E2. rewrite E1 in E2. injection E2 as <-.
    apply IH. eapply elem_of_list_lookup_2; eauto.
  - constructor; [eauto|]. intros n t v w E _ E1 E2. rewrite E1 in E2. injection E2 as <-. eauto.
Qed.
Definition is_call (t : ty) : Prop := match t with TCall _ => True | _ => False end.
Lemma enough_not_call types t S v w : enough types t S v w -> ~ is_call t.
Proof. intros He Hc. destruct t; try done. inversion He; subst; done. Qed.

(** What a checked argument provides to a function. *)
Lemma type_to_query_rec fs q : type_to_query (TRec fs) = Some q ->
  forall n u, (n, u) ∈ fs -> asks q [n] /\ forall q' p, type_to_query u = Some q' -> asks q' p -> asks q (n :: p).
Proof.
  cbn [type_to_query]. intros [= <-] n u Hin.
  set (f := fun '(n, u) => match type_to_query u with
                           | Some q => QL n (qfields q) (qordered q) None None
                           | None => QF n None None end).
  assert (f (n, u) ∈ map f fs) as Hf by (apply elem_of_list_fmap; eauto).
  split.
  - assert (q_name (f (n, u)) = n) as E by (simpl; by destruct (type_to_query u)).
    rewrite <-E. by apply asks_item.
  - intros q' p E Hp. simpl in Hf. rewrite E in Hf. eapply asks_sub; [exact Hf|]. by destruct q'.
Qed.
Lemma check_type_enough types fuel : forall u t S v w,
  no_refs t = true -> check_type types fuel u t = Ok tt -> enough types u S v w ->
  (forall q p, type_to_query t = Some q -> asks q p -> S p) -> same_at t v w.
Proof.
  induction fuel as [|k IH]; intros u t S v w Hn Hc He Hq; [done|]. cbn [check_type] in Hc.
  destruct (get_type types u) as [u1|] eqn:Hu; [|done].
  apply (enough_get_type _ _ _ _ _ u1) in He; [|done]. clear u Hu.
  destruct t as [| | | | |n|t|t|tk tv|fs|ts]; try done; cbn [get_type] in Hc; cbn [same_at].
  - by eapply enough_alike.
  - destruct u1; try done. inversion He; subst; done.
  - destruct u1; try done. inversion He; subst; done.
  - destruct u1; try done. inversion He; subst; done.
  - destruct u1; try done. inversion He; subst; done.
  - cbn [no_refs type_to_query] in *.
    destruct (same_meta u1 (TOpt t)) eqn:Em.
    + destruct u1 as [| | | | |?|a|?|? ?|?|?]; try done.
      inversion He as [? ? ? Hl| |? ?|? ? ? ? He'| |]; subst; [done|by left|right]. by eapply IH.
    + right. by eapply IH.
  - cbn [no_refs type_to_query] in *. destruct u1 as [| | | | |?|?|a|? ?|?|?]; try done. cbn [same_meta] in Hc.
    inversion He as [? ? ? Hl| | | |? ? l l' Hlen Hi|]; subst; [done|].
    exists l, l'. split_and!; [done..|]. apply Forall2_lookup. intros i.
    destruct (l !! i) eqn:E1, (l' !! i) eqn:E2; try constructor.
    + eapply IH; eauto.
    + apply lookup_lt_Some in E1. apply lookup_ge_None in E2. lia.
    + apply lookup_lt_Some in E2. apply lookup_ge_None in E1. lia.
  - destruct u1 as [| | | | |?|?|?|? ?|?|?]; try done. inversion He; subst; done.
  - destruct u1 as [| | | | |?|?|?|? ?|f1|?]; try done. cbn [same_meta] in Hc.
    inversion He as [? ? ? Hl| | | | |? ? d d' Hp Hf]; subst; [done|].
    exists d, d'. split_and!; [done..|].
    pose proof (fun n u => type_to_query_rec fs _ eq_refl n u) as Hr.
    cbn [no_refs] in Hn. rewrite forallb_forall in Hn.
    assert (exists l, l = fs) as [l El] by eauto. rewrite <-El in Hc. rewrite <-El at 1.
    assert (forall x, x ∈ l -> x ∈ fs) as Hin by (by subst). clear El.
    revert Hin Hc. induction l as [|[n u2] l IHl]; intros Hin Hc; [done|].
    destruct (dget n f1) as [v1|] eqn:E1; [|done].
    destruct (get_type types v1) as [w1|] eqn:Ew; [|done].
    destruct (check_type types k w1 u2) as [[]|] eqn:Ec; [|done].
    destruct (Hr n u2) as [Ha Hs]; [apply Hin; left|].
    assert (S [n]) as HS by (eapply Hq; [reflexivity|exact Ha]).
    split; [|apply IHl; [|done]].
    + destruct (Hp _ _ E1 HS) as [[x Hx] [y Hy]]. exists x, y. split_and!; [done..|].
      eapply IH; [|exact Ec|eapply enough_get_type; [eapply Hf; eauto|done]|].
      * apply (Hn (n, u2)). apply elem_of_list_In, Hin. left.
      * intros q p E Hap. eapply Hq; [reflexivity|]. by eapply Hs.
    + intros x Hx. apply Hin. by right.
Qed.
Lemma check_type_any types fuel : forall t v w,
  no_refs t = true -> check_type types fuel TAny t = Ok tt -> alike v w -> same_at t v w.
Proof.
  induction fuel as [|k IH]; intros t v w Hn Hc He; [done|]. cbn [check_type get_type] in Hc.
  destruct t; try done. right. by apply IH.
Qed.
Lemma check_type_call types fuel : forall ts t f,
  no_refs t = true -> check_type types fuel (TCall ts) t = Ok tt -> same_at t (DFun f) (DFun f).
Proof.
  induction fuel as [|k IH]; intros ts t f Hn Hc; [done|]. cbn [check_type get_type] in Hc.
  destruct t; try done; cbn [same_at]; cbn [same_meta] in Hc; try done.
  - apply alike_refl.
  - right. exact (IH ts t f Hn Hc).
Qed.

(** ** Evaluation with enough data *)
Definition outcomes {A} (R : A -> A -> Prop) (x y : res A) : Prop :=
  match x, y with Ok v, Ok w => R v w | Err e, Err e' => e = e' | _, _ => False end.
Lemma mapR_outcomes {A} (f g : A -> res dv) l l' :
  Forall2 (fun a b => same_outcome (f a) (g b)) l l' -> outcomes (Forall2 alike) (mapR f l) (mapR g l').
Proof.
  induction 1 as [|a b l l' H F IH]; cbn [mapR]; [constructor|].
  destruct (f a), (g b); simpl in *; try done.
  destruct (mapR f l), (mapR g l'); simpl in *; try done. by constructor.
Qed.
Lemma alike_list l l' : Forall2 alike l l' -> alike (DList l) (DList l').
Proof.
  intros F. constructor; [by eapply Forall2_length|]. intros i v w E1 E2. by eapply Forall2_lookup_lr.
Qed.
Section suffices.
  Context (types : dict str ty) (fuel : nat) (S : list str -> Prop).
  Hypothesis S_prefix : forall p n, S (p ++ [n]) -> p <> [] -> S p.
  Context (F : str -> list dv -> res dv) (truth : val -> bool) (fenv ctx ctx' : dv).
  #[local] Instance dom : PyDom := data_dom F truth.
  Local Notation ev := (@eval dom fenv ctx).
  Local Notation ev' := (@eval dom fenv ctx').
  Definition sound (r : ref) (v v' : dv) : Prop :=
    match ref_to r with
    | TCall ts => exists f, v = DFun f /\ v' = DFun f /\ respects F f ts /\ forallb no_refs ts = true
    | t => enough types t (fun p => S (path_of r ++ p)) v v'
    end.
  Lemma sound_call r v v' ts : ref_to r = TCall ts -> sound r v v' ->
    exists f, v = DFun f /\ v' = DFun f /\ respects F f ts /\ forallb no_refs ts = true.
  Proof. unfold sound. by intros ->. Qed.
  Lemma sound_data r v v' : ~ is_call (ref_to r) -> sound r v v' <-> enough types (ref_to r) (fun p => S (path_of r ++ p)) v v'.
  Proof. unfold sound. intros Hc. by destruct (ref_to r). Qed.
  Lemma sound_alike r v v' : sound r v v' -> alike v v'.
  Proof.
    unfold sound. destruct (ref_to r); try apply enough_alike. intros (f & -> & -> & _). constructor.
  Qed.
  Record linked (env : dict str ref) (rho rho' : dict str dv) : Prop := {
    lk_path : forall n r, dget n env = Some r -> path_of r <> [];
    lk_val : forall n r, dget n env = Some r -> is_call (ref_to r) \/ S (path_of r) ->
      exists v v', lookup_name fenv ctx rho n (Some r) = Ok v /\ lookup_name fenv ctx' rho' n (Some r) = Ok v' /\ sound r v v';
    lk_if : forall r ts, dget (s "if") env = Some r -> ref_to r = TCall ts -> ts = [TAny; TAny; TAny];
  }.
  Lemma linked_bind env rho rho' x r v v' :
    linked env rho rho' -> path_of r <> [] -> sound r v v' -> x <> s "if" -> 
    linked ((x, r) :: env) ((x, v) :: rho) ((x, v') :: rho').
  Proof.
    intros [H1 H2 H3] Hp Hs Hx. split.
    - intros n r'. simpl. destruct (decide (n = x)); [by intros [= <-]|eauto].
    - intros n r'. unfold lookup_name. simpl. destruct (decide (n = x)).
      + intros [= <-] _. eauto.
      + apply H2.
    - intros r' ts. simpl. rewrite decide_False by done. apply H3.
  Qed.
  (** paths *)
  Lemma path_values e : forall env rho rho' e' r,
    check types fuel env e = Ok e' -> ref_of e' = Some r -> linked env rho rho' -> S (path_of r) ->
    path_of r <> [] /\
    exists v v', ev rho e' = Ok v /\ ev' rho' e' = Ok v' /\ sound r v v'.
  Proof.
    induction e as [v|n r0|o IH n r0|x rx c _ b _|x rx b _ t _ e _|n r0 l|l|l]; intros env rho rho' e' r Hc Hr L HS;
      cbn [check] in Hc.
    - injection Hc as <-. done.
    - destruct (dget n env) as [r1|] eqn:E; [|done]. injection Hc as <-. injection Hr as <-.
      split; [by eapply lk_path|]. cbn [eval]. eapply lk_val; eauto.
    - destruct (check types fuel env o) as [o'|] eqn:Eo; [|done].
      unfold need_ref in Hc. destruct (ref_of o') as [r1|] eqn:Er; [|done].
      destruct (get_type types (ref_to r1)) as [t|] eqn:Et; [|done].
      destruct (check_type _ _ _ _); [|done]. destruct t as [| | | | |?|?|?|? ?|fs|?]; try done.
      destruct (dget n fs) as [u|] eqn:Eu; [|done]. injection Hc as <-. injection Hr as <-.
      cbn [path_of] in *. split; [intros Happ; by apply app_eq_nil in Happ as [_ ?]|].
      assert (S (path_of r1) -> path_of r1 <> [] /\ exists v v', ev rho o' = Ok v /\ ev' rho' o' = Ok v' /\ sound r1 v v') as IH1.
      { intros HS'. eapply IH; eauto. }
      assert (path_of r1 <> []) as Hp.
      { clear IH IH1. destruct o as [v|n' r'|o n' r'|x rx col body|x rx b th el|n' r' l|l|l]; cbn [check] in Eo; try (injection Eo as <-; done).
        - destruct (dget n' env) as [r|] eqn:E; [|done]. injection Eo as <-. injection Er as <-. by eapply lk_path.
        - destruct (check _ _ _ _); [|done]. destruct (need_ref _); [|done]. destruct (get_type _ _) as [t|]; [|done].
          destruct (check_type _ _ _ _); [|done]. destruct t as [| | | | |?|?|?|? ?|fs'|?]; try done. destruct (dget n' fs'); [|done].
          injection Eo as <-. injection Er as <-. cbn [path_of]. intros Happ. by apply app_eq_nil in Happ as [_ ?].
        - destruct (check _ _ _ _); [|done]. destruct (need_ref _); [|done]. destruct (get_type _ _) as [t|]; [|done].
          destruct (check_type _ _ _ _); [|done]. destruct t; try done. destruct (check _ _ _ _); [|done]. by injection Eo as <-.
        - destruct (check _ _ _ _); [|done]. destruct (need_ref _); [|done]. destruct (get_type _ _) as [t|]; [|done].
          destruct (check _ _ _ _); [|done]. destruct (check _ _ _ _); [|done]. by injection Eo as <-.
        - destruct (dget n' env); [|done]. destruct (mapR _ _); [|done]. destruct (get_type _ _) as [t|]; [|done].
          destruct t; try done. destruct (_ =? _)%nat; [|done]. destruct (check_args _ _ _ _); [|done]. by injection Eo as <-.
        - destruct (mapR _ _); [|done]. by injection Eo as <-.
        - destruct (mapR _ _); [|done]. by injection Eo as <-. }
      destruct IH1 as (_ & v & v' & E1 & E2 & Hs); [by eapply S_prefix|].
      cbn [eval]. rewrite E1, E2.
      assert (~ is_call (ref_to r1)) as Hnc by (intros Hic; by destruct (ref_to r1)).
      apply sound_data in Hs; [|done]. eapply enough_get_type in Hs; [|exact Et].
      inversion Hs as [? ? ? Hl| | | | |? ? d d' Hp1 Hf]; subst; [done|].
      destruct (Hp1 _ _ Eu) as [[x Hx] [y Hy]]; [done|]. exists x, y. simpl. rewrite Hx, Hy. split_and!; [done..|].
      specialize (Hf _ _ _ _ Eu HS Hx Hy).
      apply sound_data; [by eapply enough_not_call|]. cbn [ref_to path_of].
      eapply enough_mono; [exact Hf|]. intros p. by rewrite <-app_assoc.
    - destruct (check _ _ _ _); [|done]. destruct (need_ref _); [|done]. destruct (get_type _ _) as [t|]; [|done].
      destruct (check_type _ _ _ _); [|done]. destruct t; try done. destruct (check _ _ _ _); [|done]. by injection Hc as <-.
    - destruct (check _ _ _ _); [|done]. destruct (need_ref _); [|done]. destruct (get_type _ _); [|done].
      destruct (check _ _ _ _); [|done]. destruct (check _ _ _ _); [|done]. by injection Hc as <-.
    - destruct (dget n env); [|done]. destruct (mapR _ _); [|done]. destruct (get_type _ _) as [t|]; [|done].
      destruct t; try done. destruct (_ =? _)%nat; [|done]. destruct (check_args _ _ _ _); [|done]. by injection Hc as <-.
    - destruct (mapR _ _); [|done]. by injection Hc as <-.
    - destruct (mapR _ _); [|done]. by injection Hc as <-.
  Qed.

  Definition covered (l : list qnode) : Prop := forall q p, q ∈ l -> asks q p -> S p.
  Lemma covered_app a b : covered (a ++ b) -> covered a /\ covered b.
  Proof. intros Hc. split; intros q p Hq; apply Hc, elem_of_app; tauto. Qed.
  Lemma seqR_ok {A} (x y : res (list A)) l : seqR x y = Ok l -> exists a b, x = Ok a /\ y = Ok b /\ l = a ++ b.
  Proof. unfold seqR. destruct x as [a|]; [|done]. destruct y as [b|]; [|done]. intros [= <-]. eauto. Qed.
  Lemma own_covered r l : own_req types (Some r) = Ok l -> covered l -> path_of r <> [] -> S (path_of r).
  Proof.
    unfold own_req. destruct (ref_to_req types r None) as [o|] eqn:E; [|done].
    destruct (ref_to_req_ok _ _ _ _ E) as (q & -> & _ & A & _). intros [= <-] Hc Hp.
    eapply Hc; [left|by apply A].
  Qed.
  (** the path of a checked expression with a reference *)
  Lemma checked_path env rho rho' e e' r :
    linked env rho rho' -> check types fuel env e = Ok e' -> ref_of e' = Some r -> path_of r <> [].
  Proof.
    intros L Eo Er. destruct e as [v|n' r'|o n' r'|x rx col body|x rx b th el|n' r' l|l|l]; cbn [check] in Eo;
      try (injection Eo as <-; done).
    - destruct (dget n' env) as [r0|] eqn:E; [|done]. injection Eo as <-. injection Er as <-. by eapply lk_path.
    - destruct (check _ _ _ _); [|done]. destruct (need_ref _); [|done]. destruct (get_type _ _) as [t|]; [|done].
      destruct (check_type _ _ _ _); [|done]. destruct t as [| | | | |?|?|?|? ?|fs'|?]; try done. destruct (dget n' fs'); [|done].
      injection Eo as <-. injection Er as <-. cbn [path_of]. intros Happ. by apply app_eq_nil in Happ as [_ ?].
    - destruct (check _ _ _ _); [|done]. destruct (need_ref _); [|done]. destruct (get_type _ _) as [t|]; [|done].
      destruct (check_type _ _ _ _); [|done]. destruct t; try done. destruct (check _ _ _ _); [|done]. by injection Eo as <-.
    - destruct (check _ _ _ _); [|done]. destruct (need_ref _); [|done]. destruct (get_type _ _) as [t|]; [|done].
      destruct (check _ _ _ _); [|done]. destruct (check _ _ _ _); [|done]. by injection Eo as <-.
    - destruct (dget n' env); [|done]. destruct (mapR _ _); [|done]. destruct (get_type _ _) as [t|]; [|done].
      destruct t; try done. destruct (_ =? _)%nat; [|done]. destruct (check_args _ _ _ _); [|done]. by injection Eo as <-.
    - destruct (mapR _ _); [|done]. by injection Eo as <-.
    - destruct (mapR _ _); [|done]. by injection Eo as <-.
  Qed.
  Lemma reqs_own e' r l : ref_of e' = Some r -> reqs_of types e' = Ok l -> covered l -> path_of r <> [] -> S (path_of r).
  Proof.
    intros Hr Hl Hc Hp. destruct e'; try done; cbn [ref_of] in Hr; subst; cbn [reqs_of] in Hl.
    - by eapply own_covered.
    - apply seqR_ok in Hl as (a & b & Ha & _ & ->). apply covered_app in Hc as [Hc _]. by eapply own_covered.
  Qed.
  Definition good (e : expr) : Prop := forall env rho rho' e' l,
    check types fuel env e = Ok e' -> reqs_of types e' = Ok l -> covered l -> linked env rho rho' -> s "if" ∉ binders e ->
    same_outcome (ev rho e') (ev' rho' e').
  (** a value with its reference, as far as it has one *)
  Lemma good_value e env rho rho' e' l :
    good e -> check types fuel env e = Ok e' -> reqs_of types e' = Ok l -> covered l -> linked env rho rho' -> s "if" ∉ binders e ->
    match ref_of e' with
    | Some r => exists v v', ev rho e' = Ok v /\ ev' rho' e' = Ok v' /\ sound r v v'
    | None => same_outcome (ev rho e') (ev' rho' e')
    end.
  Proof.
    intros Hg Hc Hl Hcov L Hif. destruct (ref_of e') as [r|] eqn:E; [|by eapply Hg].
    pose proof (checked_path _ _ _ _ _ _ L Hc E) as Hp.
    eapply path_values; eauto. by eapply reqs_own.
  Qed.
  Lemma sound_same_at r v v' t u : sound r v v' -> get_type types (ref_to r) = Ok u -> check_type types fuel u t = Ok tt ->
    no_refs t = true -> (forall q p, type_to_query t = Some q -> asks q p -> S (path_of r ++ p)) -> same_at t v v'.
  Proof.
    intros Hs Hg Hc Hn Hq. unfold sound in Hs.
    destruct (ref_to r) as [| | | | |?|?|?|? ?|?|ts] eqn:E;
      try (eapply check_type_enough; [done|exact Hc|eapply enough_get_type; [exact Hs|done]|exact Hq]).
    destruct Hs as (f & -> & -> & _). injection Hg as <-. by eapply check_type_call.
  Qed.
  (** the arguments of a function *)
  Definition arg_reqs : list expr -> list ty -> res (list qnode) :=
    fix go (l : list expr) (ts : list ty) : res (list qnode) :=
      match l, ts with
      | a :: l', t :: ts' =>
          seqR (match type_to_query t with
                | Some q =>
                    match ref_of a with
                    | None => Err AttributeError
                    | Some ra => match ref_to_req types ra (Some q) with
                                 | Ok (Some q') => Ok [q']
                                 | Ok None => Err AttributeError
                                 | Err e => Err e
                                 end
                    end
                | None => reqs_of types a
                end) (go l' ts')
      | _, _ => Ok []
      end.
  Lemma good_args args : Forall good args -> forall env rho rho' ts args' l,
    mapR (check types fuel env) args = Ok args' -> length ts = length args' -> check_args types fuel args' ts = Ok tt ->
    arg_reqs args' ts = Ok l -> covered l -> linked env rho rho' -> s "if" ∉ flat_map binders args ->
    forallb no_refs ts = true ->
    outcomes (same_args ts) (mapR (ev rho) args') (mapR (ev' rho') args').
  Proof.
    intros F0. induction F0 as [|a args Ha F0 IH]; intros env rho rho' ts args' l; cbn [mapR].
    { intros [= <-] Hlen _ _ _ _ _ _. destruct ts; [|done]. constructor. }
    destruct (check types fuel env a) as [a'|] eqn:Ea; [|done].
    destruct (mapR (check types fuel env) args) as [args1|] eqn:Eargs; [|done]. intros [= <-].
    destruct ts as [|t ts]; [done|]. cbn [length check_args arg_reqs flat_map forallb]. intros [= Hlen] Hca Hr Hcov L Hif Hn.
    apply andb_prop in Hn as [Hn1 Hn2]. rewrite not_elem_of_app in Hif. destruct Hif as [Hif1 Hif2].
    apply seqR_ok in Hr as (l1 & l2 & Hr1 & Hr2 & ->). apply covered_app in Hcov as [Hcov1 Hcov2].
    destruct (match ref_of a' with Some r => _ | None => _ end) as [[]|] eqn:Ect; [|done].
    specialize (IH env rho rho' ts args1 l2 Eargs Hlen Hca Hr2 Hcov2 L Hif2 Hn2).
    assert (outcomes (same_at t) (ev rho a') (ev' rho' a')) as Hat.
    { destruct (type_to_query t) as [q|] eqn:Eq.
      - destruct (ref_of a') as [ra|] eqn:Er; [|done].
        destruct (ref_to_req types ra (Some q)) as [o|] eqn:Err'; [|done].
        destruct (ref_to_req_ok _ _ _ _ Err') as (q' & -> & A & B & _). injection Hr1 as <-.
        pose proof (checked_path _ _ _ _ _ _ L Ea Er) as Hp.
        destruct (path_values _ _ _ _ _ _ Ea Er L) as (_ & v & v' & E1 & E2 & Hs).
        { eapply Hcov1; [left|by apply B]. }
        rewrite E1, E2. cbn [outcomes].
        destruct (get_type types (ref_to ra)) as [u|] eqn:Eu; [|done].
        eapply sound_same_at; eauto. intros q0 p Eq0 Hask. rewrite Eq in Eq0. injection Eq0 as <-.
        eapply Hcov1; [left|]. eapply A; eauto.
      - pose proof (good_value _ _ _ _ _ _ Ha Ea Hr1 Hcov1 L Hif1) as Hv.
        destruct (ref_of a') as [ra|] eqn:Er.
        + destruct Hv as (v & v' & E1 & E2 & Hs). rewrite E1, E2. cbn [outcomes].
          destruct (get_type types (ref_to ra)) as [u|] eqn:Eu; [|done].
          eapply sound_same_at; eauto. intros q0 p Eq0. by rewrite Eq in Eq0.
        + unfold same_outcome in Hv. destruct (ev rho a'), (ev' rho' a'); try done.
          by eapply check_type_any. }
    cbn [mapR].
    destruct (ev rho a'), (ev' rho' a'); cbn [outcomes] in Hat |- *; try done.
    destruct (mapR (ev rho) args1), (mapR (ev' rho') args1); cbn [outcomes] in IH |- *; try done.
    by constructor.
  Qed.
  Lemma mapR_concat_ok {A B} (f : A -> res (list B)) l r :
    match mapR f l with Ok l' => Ok (concat l') | Err e => Err e end = Ok r ->
    exists ls, Forall2 (fun a b => f a = Ok b) l ls /\ r = concat ls.
  Proof. destruct (mapR f l) as [ls|] eqn:E; [|done]. intros [= <-]. apply mapR_ok in E. eauto. Qed.
  Lemma good_elems l : Forall good l -> forall env rho rho' l' ls,
    mapR (check types fuel env) l = Ok l' -> Forall2 (fun a b => reqs_of types a = Ok b) l' ls -> covered (concat ls) ->
    linked env rho rho' -> s "if" ∉ flat_map binders l ->
    Forall2 (fun a b => same_outcome (ev rho a) (ev' rho' b)) l' l'.
  Proof.
    intros F0 env rho rho' l' ls Hc%mapR_ok Hr Hcov L Hif. revert ls Hr Hcov Hif F0.
    induction Hc as [|e e' l l' He Hc IH]; intros ls Hr Hcov Hif F0; [constructor|].
    inversion Hr as [|? b ? ls' Hb Hr']; subst. inversion F0; subst. cbn [concat flat_map] in *.
    apply covered_app in Hcov as [? ?]. apply not_elem_of_app in Hif as [? ?]. constructor; eauto.
  Qed.
  Lemma good_all e : good e.
  Proof.
    induction e as [v|n r|o n r IH|x rx col body IHc IHb|x rx b th el IHb IHt IHe|n r l F0|l F0|l F0] using expr_ind';
      intros env rho rho' e' lq Hc Hr Hcov L Hif; cbn [check] in Hc; cbn [binders] in Hif.
    - injection Hc as <-. simpl. constructor.
    - destruct (dget n env) as [r1|] eqn:E; [|done]. injection Hc as <-.
      assert (path_of r1 <> []) as Hp by (by eapply lk_path).
      assert (S (path_of r1)) as HS by (by eapply own_covered).
      destruct (lk_val _ _ _ L _ _ E) as (v & v' & E1 & E2 & Hs); [by right|].
      cbn [eval]. rewrite E1, E2. by eapply sound_alike.
    - assert (check types fuel env (EGet o n r) = Ok e') as Hc' by exact Hc.
      destruct (check types fuel env o) as [o'|] eqn:Eo; [|done].
      destruct (need_ref o') as [r1|]; [|done]. destruct (get_type _ _) as [t|]; [|done].
      destruct (check_type _ _ _ _); [|done]. destruct t as [| | | | |?|?|?|? ?|fs|?]; try done.
      destruct (dget n fs) as [u|]; [|done]. injection Hc as <-.
      destruct (path_values _ _ _ _ _ _ Hc' eq_refl L) as (_ & v & v' & E1 & E2 & Hs).
      { eapply (reqs_own (EGet o' n (Some (RNamed r1 n u)))); [reflexivity|exact Hr|done|]. by eapply (checked_path _ _ _ _ _ _ L Hc'). }
      rewrite E1, E2. by eapply sound_alike.
    - apply not_elem_of_cons in Hif as [Hx Hif]. apply not_elem_of_app in Hif as [Hif1 Hif2].
      destruct (check types fuel env col) as [col'|] eqn:Ec; [|done].
      unfold need_ref in Hc. destruct (ref_of col') as [r1|] eqn:Er; [|done].
      destruct (get_type types (ref_to r1)) as [t|] eqn:Et; [|done].
      destruct (check_type _ _ _ _); [|done]. destruct t as [| | | | |?|?|u|? ?|?|?]; try done.
      destruct (check types fuel ((x, RItem r1 u) :: env) body) as [body'|] eqn:Eb; [|done]. injection Hc as <-.
      cbn [reqs_of] in Hr. apply seqR_ok in Hr as (l1 & l23 & Hr1 & Hr & ->). apply seqR_ok in Hr as (l2 & l3 & Hr2 & Hr3 & ->).
      apply covered_app in Hcov as [Hcov1 Hcov]. apply covered_app in Hcov as [Hcov2 Hcov3].
      pose proof (checked_path _ _ _ _ _ _ L Ec Er) as Hp.
      pose proof (good_value _ _ _ _ _ _ IHc Ec Hr2 Hcov2 L Hif1) as Hv. rewrite Er in Hv.
      destruct Hv as (v & v' & E1 & E2 & Hs). cbn [eval]. rewrite E1, E2.
      assert (~ is_call (ref_to r1)) as Hnc by (intros Hic; by destruct (ref_to r1)).
      apply sound_data in Hs; [|done]. eapply enough_get_type in Hs; [|exact Et].
      inversion Hs as [? ? ? Hl| | | |? ? vl vl' Hlen Hi|]; subst; [done|].
      assert (outcomes (Forall2 alike) (mapR (fun u => ev ((x, u) :: rho) body') vl)
                (mapR (fun u => ev' ((x, u) :: rho') body') vl')) as Ho.
      { apply mapR_outcomes, Forall2_lookup. intros i.
        destruct (vl !! i) eqn:E3, (vl' !! i) eqn:E4; try constructor.
        - eapply IHb; eauto. apply linked_bind; auto.
          specialize (Hi _ _ _ E3 E4). apply sound_data; [by eapply enough_not_call|]. exact Hi.
        - apply lookup_lt_Some in E3. apply lookup_ge_None in E4. lia.
        - apply lookup_lt_Some in E4. apply lookup_ge_None in E3. lia. }
      change (same_outcome
        (match mapR (fun u => ev ((x, u) :: rho) body') vl with Ok vs => Ok (DList vs) | Err e => Err e end)
        (match mapR (fun u => ev' ((x, u) :: rho') body') vl' with Ok vs => Ok (DList vs) | Err e => Err e end)).
      destruct (mapR _ vl), (mapR _ vl'); cbn [outcomes] in Ho |- *; try done. by apply alike_list.
    - apply not_elem_of_cons in Hif as [Hx Hif]. apply not_elem_of_app in Hif as [Hif1 Hif]. apply not_elem_of_app in Hif as [Hif2 Hif3].
      destruct (check types fuel env b) as [b'|] eqn:Ec; [|done].
      unfold need_ref in Hc. destruct (ref_of b') as [r1|] eqn:Er; [|done].
      destruct (get_type types (ref_to r1)) as [t|] eqn:Et; [|done].
      set (rx' := match t with TOpt u => RItem r1 u | _ => r1 end) in *.
      destruct (check types fuel ((x, rx') :: env) th) as [th'|] eqn:Eth; [|done].
      destruct (check types fuel env el) as [el'|] eqn:Eel; [|done]. injection Hc as <-.
      cbn [reqs_of] in Hr. apply seqR_ok in Hr as (l1 & l23 & Hr1 & Hr & ->). apply seqR_ok in Hr as (l2 & l34 & Hr2 & Hr & ->).
      apply seqR_ok in Hr as (l3 & l4 & Hr3 & Hr4 & ->).
      apply covered_app in Hcov as [Hcov1 Hcov]. apply covered_app in Hcov as [Hcov2 Hcov]. apply covered_app in Hcov as [Hcov3 Hcov4].
      pose proof (checked_path _ _ _ _ _ _ L Ec Er) as Hp.
      pose proof (good_value _ _ _ _ _ _ IHb Ec Hr2 Hcov2 L Hif1) as Hv. rewrite Er in Hv.
      destruct Hv as (v & v' & E1 & E2 & Hs). cbn [eval]. rewrite E1, E2.
      assert (d_none v = d_none v') as En.
      { pose proof (sound_alike _ _ _ Hs) as Ha. inversion Ha; subst; reflexivity. }
      rewrite <-En. destruct (d_none v) eqn:Env; [by eapply IHe|].
      eapply IHt; eauto. apply linked_bind; auto.
      { unfold rx'. by destruct t. }
      unfold rx'. destruct t as [| | | | |?|u|?|? ?|?|?]; try exact Hs.
      assert (~ is_call (ref_to r1)) as Hnc by (intros Hic; by destruct (ref_to r1)).
      apply sound_data in Hs; [|done]. eapply enough_get_type in Hs; [|exact Et].
      inversion Hs as [? ? ? Hl| | |? ? ? ? Hen| |]; subst; [done| |].
      { done. }
      apply sound_data; [by eapply enough_not_call|]. exact Hen.
    - destruct (dget n env) as [r1|] eqn:En; [|done].
      destruct (mapR (check types fuel env) l) as [l'|] eqn:El; [|done].
      destruct (get_type types (ref_to r1)) as [t|] eqn:Et; [|done].
      destruct t as [| | | | |?|?|?|? ?|?|ts0]; try done.
      destruct (Nat.eqb_spec (length ts0) (length l')) as [Hlen|]; [|done].
      destruct (check_args types fuel l' ts0) as [[]|] eqn:Eca; [|done]. injection Hc as <-.
      cbn [reqs_of] in Hr. destruct (ref_to r1) as [| | | | |?|?|?|? ?|?|ts] eqn:Et1; try done.
      injection Et as <-. change (arg_reqs l' ts = Ok lq) in Hr.
      cbn [eval]. destruct (decide (n = s "if")) as [->|Hnif].
      + rewrite (lk_if _ _ _ L _ _ En Et1) in *. clear Eca.
        destruct l' as [|a' [|b' [|c' [|]]]]; try done.
        cbn [arg_reqs type_to_query] in Hr.
        apply seqR_ok in Hr as (l1 & l23 & Hr1 & Hr & ->). apply seqR_ok in Hr as (l2 & l34 & Hr2 & Hr & ->).
        apply seqR_ok in Hr as (l3 & l4 & Hr3 & Hr4 & ->). injection Hr4 as <-.
        apply mapR_ok in El. inversion El as [|a ? la ? Ha El2]; subst. inversion El2 as [|b ? lb ? Hb El3]; subst.
        inversion El3 as [|c ? lc ? Hc El4]; subst. inversion El4; subst.
        apply covered_app in Hcov as [Hcov1 Hcov]. apply covered_app in Hcov as [Hcov2 Hcov]. apply covered_app in Hcov as [Hcov3 _].
        cbn [flat_map] in Hif. apply not_elem_of_app in Hif as [Hif1 Hif]. apply not_elem_of_app in Hif as [Hif2 Hif].
        apply not_elem_of_app in Hif as [Hif3 _].
        inversion F0 as [|? ? G1 F1]; subst. inversion F1 as [|? ? G2 F2]; subst. inversion F2 as [|? ? G3 F3]; subst.
        pose proof (G1 _ _ _ _ _ Ha Hr1 Hcov1 L Hif1) as O1.
        unfold same_outcome in O1. destruct (ev rho a') as [v|], (ev' rho' a') as [v'|]; try done.
        assert (d_true v = d_true v') as Etr.
        { inversion O1 as [|l0 l0' Hl0 _| |d d' Hd _|]; subst; try reflexivity; simpl.
          - destruct l0, l0'; done.
          - by rewrite Hd. }
        rewrite Etr. destruct (d_true v'); [by eapply G2|by eapply G3].
      + destruct (lk_val _ _ _ L _ _ En) as (v & v' & E1 & E2 & Hs); [rewrite Et1; by left|].
        rewrite E1, E2. destruct (sound_call _ _ _ _ Et1 Hs) as (f & -> & -> & Hresp & Hnr).
        pose proof (good_args l F0 env rho rho' ts l' lq El Hlen Eca Hr Hcov L Hif Hnr) as Ho.
        destruct (mapR (ev rho) l'), (mapR (ev' rho') l'); cbn [outcomes] in Ho |- *; try done.
        by apply Hresp.
    - destruct (mapR (check types fuel env) l) as [l'|] eqn:El; [|done]. injection Hc as <-.
      cbn [reqs_of] in Hr. apply mapR_concat_ok in Hr as (ls & Hr & ->).
      assert (outcomes (Forall2 alike) (mapR (ev rho) l') (mapR (ev' rho') l')) as Ho.
      { apply mapR_outcomes. exact (good_elems l F0 _ _ _ _ _ El Hr Hcov L Hif). }
      cbn [eval].
      destruct (mapR (ev rho) l'), (mapR (ev' rho') l'); cbn [outcomes] in Ho |- *; try done.
      by apply alike_list.
    - destruct (mapR _ l) as [l'|] eqn:El; [|done]. injection Hc as <-.
      cbn [reqs_of] in Hr. apply mapR_concat_ok in Hr as (ls & Hr & ->). apply mapR_ok in El.
      cbn [eval].
      assert (outcomes (fun d d' => map fst d = map fst d' /\ Forall2 alike d.*2 d'.*2)
        (mapR (fun '(k, e) => match ev rho e with Ok v => Ok (k, v) | Err x => Err x end) l')
        (mapR (fun '(k, e) => match ev' rho' e with Ok v => Ok (k, v) | Err x => Err x end) l')) as Ho.
      { revert ls Hr Hcov Hif F0. induction El as [|[k e] [k' e'] l l' He El IH]; intros ls Hr Hcov Hif F0; cbn [mapR]; [simpl; done|].
        inversion Hr as [|? bq ? ls' Hb Hr']; subst. inversion F0 as [|? ? G1 F1]; subst. cbn [concat flat_map] in *.
        apply covered_app in Hcov as [Hcov1 Hcov2]. apply not_elem_of_app in Hif as [Hif1 Hif2]. simpl in G1.
        destruct (check types fuel env e) as [e1|] eqn:Ee; [|done]. injection He as <- <-.
        pose proof (G1 _ _ _ _ _ Ee Hb Hcov1 L Hif1) as O1. specialize (IH _ Hr' Hcov2 Hif2 F1).
        unfold same_outcome in O1. destruct (ev rho e1) as [v|], (ev' rho' e1) as [v'|]; try done.
        destruct (mapR _ l'), (mapR _ l'); cbn [outcomes] in IH |- *; try done.
        destruct IH as [IHk IH]. cbn [map fst snd fmap list_fmap]. split; [by rewrite IHk|]. by constructor. }
      destruct (mapR _ l'), (mapR _ l'); cbn [outcomes] in Ho |- *; try done. destruct Ho as [Hk Hv].
      constructor; [done|]. intros i v w E1 E2. by eapply Forall2_lookup_lr.
  Qed.
End suffices.

Lemma dget_check_env d n : dget n (check_env d) = match dget n d with Some t => Some (RNamed RTop n t) | None => None end.
Proof. induction d as [|[k t] d IH]; [done|]. simpl. destruct (decide (n = k)) as [->|]; [done|]. exact IH. Qed.
Lemma dget_reverse {V} (d : list (str * V)) n : NoDup (dkeys d) -> dget n (reverse d) = dget n d.
Proof.
  intros Hd. destruct (dget n d) as [v|] eqn:E.
  - apply dget_NoDup.
    + unfold dkeys. by rewrite fmap_reverse, reverse_Permutation.
    + apply elem_of_reverse. by apply dget_Some_elem.
  - apply dget_None in E. apply dget_None. unfold dkeys in *. by rewrite fmap_reverse, elem_of_reverse.
Qed.
Lemma asks_filter (P : qitem -> bool) q n p b :
  asks q (n :: p) -> (forall i, q_name i = n -> P i = true) -> asks (QN (List.filter P (qfields q)) b) (n :: p).
Proof.
  intros (ls & Hr & E) HP. inversion Hr as [? i Hi E0 E1|? i p' Hi Hl Hs E0 E1]; subst; simpl in E; injection E as E <-.
  - exists [label_of i]. split; [|simpl; by rewrite E]. constructor. cbn [qfields].
    apply elem_of_list_In, filter_In. split; [by apply elem_of_list_In|]. by apply HP.
  - exists (label_of i :: p'). split; [|simpl; by rewrite E]. eapply req_sub; [|done|done]. cbn [qfields].
    apply elem_of_list_In, filter_In. split; [by apply elem_of_list_In|]. by apply HP.
Qed.
Lemma reqs_plain types e l : reqs_of types e = Ok l -> forall q, q ∈ l -> plain q.
Proof.
  assert (forall r l, own_req types r = Ok l -> forall q, q ∈ l -> plain q) as Hown.
  { intros [r|] l0; cbn [own_req]; [|intros [= <-] q Hq; by apply elem_of_nil in Hq].
    destruct (ref_to_req types r None) as [o|] eqn:E; [|done].
    destruct (ref_to_req_ok _ _ _ _ E) as (q & -> & _ & _ & Hp). intros [= <-] q' Hq.
    apply elem_of_list_singleton in Hq as ->. by apply Hp. }
  assert (forall (x y : res (list qnode)) l, seqR x y = Ok l -> (forall a, x = Ok a -> forall q, q ∈ a -> plain q) ->
    (forall a, y = Ok a -> forall q, q ∈ a -> plain q) -> forall q, q ∈ l -> plain q) as Hseq.
  { intros x y l0 E Hx Hy q Hq. apply seqR_ok in E as (a & b & -> & -> & ->).
    apply elem_of_app in Hq as [Hq|Hq]; [by eapply Hx|by eapply Hy]. }
  assert (forall {A} (f : A -> res (list qnode)) l r, Forall (fun a => forall b, f a = Ok b -> forall q, q ∈ b -> plain q) l ->
    match mapR f l with Ok l' => Ok (concat l') | Err e => Err e end = Ok r -> forall q, q ∈ r -> plain q) as Hmap.
  { intros A f l0 r F0 E. apply mapR_concat_ok in E as (ls & Hl & ->).
    induction Hl as [|a b l0 ls Ha Hl IH]; [intros q Hq; by apply elem_of_nil in Hq|].
    inversion F0; subst. intros q Hq. cbn [concat] in Hq. apply elem_of_app in Hq as [Hq|Hq]; eauto. }
  revert l. induction e as [v|n r|o n r IH|x rx col body IHc IHb|x rx b th el IHb IHt IHe|n r l F0|l F0|l F0] using expr_ind';
    intros lq E; cbn [reqs_of] in E.
  - injection E as <-. intros q Hq. by apply elem_of_nil in Hq.
  - eauto.
  - eapply Hseq; [exact E|apply Hown|apply IH].
  - eapply Hseq; [exact E|apply Hown|]. intros a Ea. eapply Hseq; eauto.
  - eapply Hseq; [exact E|apply Hown|]. intros a Ea. eapply Hseq; [exact Ea|apply IHb|].
    intros a' Ea'. eapply Hseq; eauto.
  - destruct r as [r|]; [|by eapply Hmap]. destruct (ref_to r) as [| | | | |?|?|?|? ?|?|ts]; try done.
    change (arg_reqs types l ts = Ok lq) in E. revert ts lq E.
    induction F0 as [|a l Ha F0 IH]; intros ts lq; cbn [arg_reqs].
    { intros [= <-] q Hq. by apply elem_of_nil in Hq. }
    destruct ts as [|t ts]; [intros [= <-] q Hq; by apply elem_of_nil in Hq|]. intros E.
    eapply Hseq; [exact E| |apply IH]. intros a' Ea'.
    destruct (type_to_query t) as [qt|] eqn:Eq; [|by apply Ha].
    destruct (ref_of a) as [ra|]; [|done]. destruct (ref_to_req types ra (Some qt)) as [o|] eqn:Er; [|done].
    destruct (ref_to_req_ok _ _ _ _ Er) as (q & -> & _ & _ & Hp). injection Ea' as <-. intros q' Hq.
    apply elem_of_list_singleton in Hq as ->. apply Hp. intros ? [= <-]. by eapply type_to_query_plain.
  - by eapply Hmap.
  - eapply Hmap; [|exact E]. eapply Forall_impl; [exact F0|]. intros [k e] He. exact He.
Qed.

(** C38: let [q] be what was extracted as the requirements of an expression.  Evaluating it with
    data which has only what [q] requests has the same outcome as with all data: the same error,
    or results alike.  The functions called may only look at the fields which their types
    declare, and these types are written out; no variable is named [if]. *)
Record setting types F fenv root node (fns opts : list (str * ty)) (e : expr) (q : qnode)
    ctx ctx' this this' vals : Prop := {
  st_root : dget (s "__root__") types = Some (TRec root) /\ NoDup (dkeys root);
  st_funs : forall n t, (n, t) ∈ fns -> exists ts f, t = TCall ts /\ dget n fenv = Some (DFun f) /\
    respects F f ts /\ forallb no_refs ts = true /\ (n = s "if" -> ts = [TAny; TAny; TAny]);
  st_data : forall n t, (n, t) ∈ root ++ opts -> ~ exists ts, t = TCall ts;
  st_vars : s "if" ∉ binders e;
  st_ctx : enough types (TRec root) (asks q) (DObj ctx) (DObj ctx');
  st_this : asks q [THIS] -> enough types (TRef node) (fun p => asks q (THIS :: p)) this this';
  st_opts : Forall2 (fun o v => has_type types v (snd o)) opts vals;
}.
Lemma zip_lookup {V W} (l : list (str * V)) (vs : list W) (R : V -> W -> Prop) n :
  NoDup (dkeys l) -> Forall2 (fun o v => R (snd o) v) l vs ->
  match dget n l with
  | Some t => exists v, dget n (zip (dkeys l) vs) = Some v /\ R t v
  | None => dget n (zip (dkeys l) vs) = None
  end.
Proof.
  intros Hd F0. induction F0 as [|[k t] v l vs Ha F0 IH]; [done|].
  cbn in Hd. apply NoDup_cons in Hd as [Hk Hd]. simpl. destruct (decide (n = k)) as [->|]; [eauto|]. by apply IH.
Qed.
Theorem C38_requirements_suffice `{Hasher} types fuel F truth fenv root node fns opts e e' q l ctx ctx' this this' vals :
  bind_field types fuel node fns opts e = Ok (e', q, l) ->
  setting types F fenv root node fns opts e q ctx ctx' this this' vals ->
  same_outcome (@eval (data_dom F truth) (DDict fenv) (DObj ctx) ((THIS, this) :: zip (dkeys opts) vals) e')
               (@eval (data_dom F truth) (DDict fenv) (DObj ctx') ((THIS, this') :: zip (dkeys opts) vals) e').
Proof.
  unfold bind_field. intros Hb [[Hroot Hrnd] Hfuns Hdata Hvars Hctx Hthis Hopts]. rewrite Hroot in Hb.
  destruct (check types fuel _ e) as [e1|] eqn:Ec; [|done].
  unfold extract in Hb. destruct (reqs_of types e1) as [lq|] eqn:Er; [|done].
  destruct (compile_lambda e1 (dkeys opts)) as [l1|] eqn:El; [|done]. injection Hb as <- <- <-.
  set (Q := merge lq) in *.
  assert (NoDup (s "env" :: THIS :: s "ctx" :: dkeys opts)) as Hnd.
  { unfold compile_lambda in El. destruct (compile _ e1) as [[]|]; [|done]. by destruct (decide _). }
  assert (THIS ∉ dkeys opts /\ NoDup (dkeys opts)) as [Hto Hond].
  { apply NoDup_cons in Hnd as [_ Hnd]. apply NoDup_cons in Hnd as [H2 Hnd]. apply NoDup_cons in Hnd as [_ Hnd].
    apply not_elem_of_cons in H2 as [_ H2]. done. }
  assert (forall n p, n ∉ dkeys opts -> asks Q (n :: p) ->
     asks (QN (List.filter (fun f => negb (bool_decide (q_name f ∈ dkeys opts))) (qfields Q)) false) (n :: p)) as Hfil.
  { intros n p Hn Ha. apply asks_filter; [done|]. intros i <-. by rewrite bool_decide_eq_false_2. }
  set (Q' := QN _ false) in *.
  eapply (good_all types fuel (asks Q)); [|exact Ec|exact Er| | |done].
  { intros p n. apply asks_prefix. }
  { intros q p Hq. apply asks_merge; [|done]. by eapply reqs_plain. }
  assert (forall n t, dget n (bound_env fns root opts node) = Some t ->
    (n = THIS /\ t = TRef node) \/ (n <> THIS /\ dget n opts = Some t) \/
    (n <> THIS /\ dget n opts = None /\ dget n root = Some t) \/
    (n <> THIS /\ dget n opts = None /\ dget n root = None /\ (n, t) ∈ fns)) as Henv.
  { intros n t. unfold bound_env. rewrite dget_dset. destruct (decide (n = THIS)) as [->|Hnt].
    { intros [= <-]. by left. }
    unfold of_pairs. rewrite !dget_dupdate, !(dget_reverse opts), !(dget_reverse root) by done. intros Ht. right.
    destruct (dget n opts) eqn:E1; [injection Ht as <-; by left|]. right.
    destruct (dget n root) eqn:E2; [injection Ht as <-; by left|]. right.
    split_and!; auto.
    destruct (dget n (reverse fns)) eqn:E3; [|done]. injection Ht as <-.
    apply dget_Some_elem in E3. apply elem_of_reverse. exact E3. }
  assert (forall n t, dget n root = Some t \/ dget n opts = Some t -> ~ is_call t) as Hnc.
  { intros n t Ht Hc. destruct t; try done. eapply (Hdata n); [|by eexists].
    apply elem_of_app. destruct Ht as [Ht|Ht]; [left|right]; by apply dget_Some_elem. }
  split.
  - intros n r. rewrite dget_check_env. destruct (dget n _); [|done]. by intros [= <-].
  - intros n r. rewrite dget_check_env. destruct (dget n (bound_env fns root opts node)) as [t|] eqn:E; [|done].
    intros [= <-] HS. cbn [ref_to path_of app] in *.
    pose proof (zip_lookup opts vals (fun t v => has_type types v t) n Hond Hopts) as Hz.
    destruct (Henv _ _ E) as [[-> ->]|[[Hnt Ho]|[(Hnt & Ho & Hr)|(Hnt & Ho & Hr & Hf)]]].
    + destruct HS as [[]|HS]. exists this, this'. split_and!; [reflexivity..|].
      apply sound_data; [by intros []|]. cbn [ref_to path_of app].
      eapply enough_mono; [apply Hthis; by apply Hfil|]. intros p. by apply Hfil.
    + rewrite Ho in Hz. destruct Hz as (v & Hz & Hty). exists v, v. unfold lookup_name. simpl dget.
      rewrite !decide_False by done. rewrite !Hz. split_and!; [done..|].
      apply sound_data; [simpl; eauto|]. by apply has_type_enough.
    + rewrite Ho in Hz. assert (~ is_call t) as Hnct by eauto. destruct HS as [HS|HS]; [done|].
      inversion Hctx as [? ? ? Hl| | | | |? ? d d' Hp Hv]; subst; [done|].
      assert (asks Q' [n]) as HS' by (apply Hfil; [by apply dget_None|done]).
      destruct (Hp _ _ Hr HS') as [[v Ev] [v' Ev']]. exists v, v'.
      split_and!.
      { unfold lookup_name. simpl dget. rewrite !decide_False by done. rewrite !Hz. cbn [ref_to].
        destruct t; try done; simpl; by rewrite Ev. }
      { unfold lookup_name. simpl dget. rewrite !decide_False by done. rewrite !Hz. cbn [ref_to].
        destruct t; try done; simpl; by rewrite Ev'. }
      apply sound_data; [done|]. cbn [ref_to path_of app].
      eapply enough_mono; [by apply (Hv n t v v')|]. intros p. apply Hfil. by apply dget_None.
    + rewrite Ho in Hz. destruct (Hfuns _ _ Hf) as (ts & f & -> & Hd & Hresp & Hnr & _).
      exists (DFun f), (DFun f). unfold lookup_name. simpl dget. rewrite !decide_False by done. rewrite !Hz. simpl.
      rewrite Hd. split_and!; [done..|]. exists f. done.
  - intros r ts. rewrite dget_check_env. destruct (dget (s "if") (bound_env fns root opts node)) as [t|] eqn:E; [|done].
    intros [= <-] Ht. cbn [ref_to] in Ht. subst t.
    destruct (Henv _ _ E) as [[_ ?]|[[_ Ho]|[(_ & _ & Hr)|(_ & _ & _ & Hf)]]]; [done| | |].
    + exfalso. eapply Hnc; [right; exact Ho|done].
    + exfalso. eapply Hnc; [left; exact Hr|done].
    + destruct (Hfuns _ _ Hf) as (ts' & f & [= <-] & _ & _ & _ & Hif). by apply Hif.
Qed.
(** The same of the generated code, under the conditions of C37. *)
Theorem C38_compiled_code_needs_only_requirements `{Hasher} types fuel F truth fenv root node fns opts e e' q names p
    ctx ctx' this this' vals :
  bind_field types fuel node fns opts e = Ok (e', q, (names, p)) ->
  setting types F fenv root node fns opts e q ctx ctx' this this' vals ->
  hygienic (dkeys opts) e' ->
  same_outcome (@call_lambda (data_dom F truth) names p (DDict fenv :: this :: DObj ctx :: vals))
               (@call_lambda (data_dom F truth) names p (DDict fenv :: this' :: DObj ctx' :: vals)).
Proof.
  intros Hb Hs Hy.
  assert (compile_lambda e' (dkeys opts) = Ok (names, p)) as Hc.
  { unfold bind_field in Hb. destruct Hs as [[Hroot _] _ _ _ _ _ _]. rewrite Hroot in Hb.
    destruct (check _ _ _ _) as [e1|]; [|done]. destruct (extract _ _); [|done].
    destruct (compile_lambda e1 (dkeys opts)) as [l1|] eqn:El; [|done]. by injection Hb as <- _ <-. }
  assert (length (dkeys opts) = length vals) as Hlen.
  { unfold dkeys. rewrite map_length. destruct Hs as [_ _ _ _ _ _ Ho]. by eapply Forall2_length. }
  pose proof (@C37_compiled_code_computes_the_meaning_partial (data_dom F truth) e' (dkeys opts) names p
    (DDict fenv) this (DObj ctx) vals Hc Hy Hlen) as E1.
  pose proof (@C37_compiled_code_computes_the_meaning_partial (data_dom F truth) e' (dkeys opts) names p
    (DDict fenv) this' (DObj ctx') vals Hc Hy Hlen) as E2.
  pose proof (C38_requirements_suffice _ _ _ truth _ _ _ _ _ _ _ _ _ _ _ _ _ _ Hb Hs) as Ho.
  exact (eq_ind_r (fun x => same_outcome x _) (eq_ind_r (fun y => same_outcome _ y) Ho E2) E1).
Qed.


(** ** Example *)
(** [f : Record[{'url': String}], Any], which joins; [xs: Sequence[Item]]; the node [Thing] with
    [img : Optional[Image]].  Only requested fields are in the restricted data. *)
Definition ex_types : dict str ty :=
  [(s "__root__", TRec [(s "xs", TSeq (TRef (s "Item"))); (s "z", TStr); (s "unused", TStr)]);
   (s "Item", TRec [(s "a", TInt); (s "b", TInt); (s "sub", TRef (s "Item2"))]);
   (s "Item2", TRec [(s "c", TStr); (s "d", TStr)]);
   (s "Thing", TRec [(s "img", TOpt (TRef (s "Image"))); (s "name", TStr)]);
   (s "Image", TRec [(s "url", TStr); (s "size", TInt)])].
Definition ex_F (f : str) (l : list dv) : res dv :=
  match l with
  | [DObj d; v] => match dget (s "url") d with Some (DVal u) => Ok (DDict [(f, DVal u)]) | _ => Err KeyError end
  | _ => Err TypeError
  end.
Definition ex_fns : list (str * ty) := [(s "f", TCall [TRec [(s "url", TStr)]; TAny])].
Definition ex_e : expr :=
  EList [each "x" (sym "xs") (EList [get (sym "x") "a"; get (get (sym "x") "sub") "c"]);
         if_some "i" (get (sym "this") "img") (call "f" [sym "i"; sym "lim"]) (sym "z")].
Definition dvs (x : String.string) : dv := DVal (VStr (s x)).
Arguments dvs x%string.
Definition ex_full : list (str * dv) :=
  [(s "xs", DList [DObj [(s "a", DVal (VInt 1)); (s "b", DVal (VInt 2)); (s "sub", DObj [(s "c", dvs "c1"); (s "d", dvs "d1")])]]);
   (s "z", dvs "z"); (s "unused", dvs "u")].
Definition ex_cut : list (str * dv) :=
  [(s "xs", DList [DObj [(s "a", DVal (VInt 1)); (s "sub", DObj [(s "c", dvs "c1")])]]); (s "z", dvs "z")].
Definition ex_this_full : dv := DObj [(s "img", DObj [(s "url", dvs "u"); (s "size", DVal (VInt 3))]); (s "name", dvs "n")].
Definition ex_this_cut : dv := DObj [(s "img", DObj [(s "url", dvs "u")])].
Definition ex_opts : list (str * ty) := [(s "lim", TInt)].
Definition ex_q : qnode :=
  QN [QF (s "z") None None;
      QL (s "xs") [QF (s "a") None None; QL (s "sub") [QF (s "c") None None] false None None] false None None;
      QL THIS [QL (s "img") [QF (s "url") None None] false None None] false None None] false.
Definition ex_fenv2 : list (str * dv) := [(s "f", DFun (s "f"))].

(** [asks] on a given query, computed *)
Fixpoint asks_item_b (fuel : nat) (q : qnode) (p : list str) : bool :=
  match fuel, p with
  | O, _ | _, [] => false
  | S k, n :: p' => existsb (fun i => bool_decide (q_name i = n) && (bool_decide (p' = []) || q_is_link i && asks_item_b k (q_node i) p')) (qfields q)
  end.
Lemma asks_item_ok q p : asks q p -> forall k, length p <= k -> asks_item_b k q p = true.
Proof.
  intros (ls & Hr & <-). induction Hr as [n i Hi|n i p Hi Hl Hs IH]; intros k Hk; (destruct k as [|k]; [simpl in Hk; lia|]).
  - simpl. apply existsb_exists. exists i. split; [by apply elem_of_list_In|]. by rewrite bool_decide_eq_true_2.
  - simpl. apply existsb_exists. exists i. split; [by apply elem_of_list_In|].
    rewrite bool_decide_eq_true_2 by done. simpl in Hk. rewrite Hl, IH by (rewrite ?map_length in *; lia). by rewrite orb_true_r.
Qed.
Example C38_example_extracted : exists e' l, @bind_field ex_hasher ex_types 20 (s "Thing") ex_fns ex_opts ex_e = Ok (e', ex_q, l).
Proof. eexists _, _. vm_compute. reflexivity. Qed.
Ltac no_ask H := exfalso; apply (fun Hq => asks_item_ok _ _ Hq 3) in H; [vm_compute in H; discriminate|simpl; lia].
Example C38_example_met :
  setting ex_types ex_F ex_fenv2 [(s "xs", TSeq (TRef (s "Item"))); (s "z", TStr); (s "unused", TStr)] (s "Thing")
    ex_fns ex_opts ex_e ex_q ex_full ex_cut ex_this_full ex_this_cut [DVal (VInt 5)].
Proof.
  split.
  - split; [reflexivity|]. apply (bool_decide_unpack _). vm_compute. exact I.
  - intros n t Hin. apply elem_of_list_singleton in Hin. injection Hin as -> ->.
    exists [TRec [(s "url", TStr)]; TAny], (s "f"). split_and!; [done|done| |done|discriminate].
    intros vs ws Hs. inversion Hs as [|? ? v vs1 w ws1 H1 Hs1]; subst. inversion Hs1 as [|? ? v2 vs2 w2 ws2 H2 Hs2]; subst.
    inversion Hs2; subst. destruct H1 as (d & d' & -> & -> & (x & y & E1 & E2 & E3) & _). simpl in E3. subst y.
    simpl. rewrite E1, E2. destruct x; simpl; try done. apply alike_refl.
  - intros n t Hin (ts & ->). unfold ex_opts in Hin. cbn [app] in Hin. rewrite !elem_of_cons, elem_of_nil in Hin. naive_solver.
  - apply (bool_decide_unpack _). vm_compute. exact I.
  - constructor.
    + intros n t E HS. simpl in E.
      destruct (decide (n = s "xs")) as [->|]; [by split; eexists|]. destruct (decide (n = s "z")) as [->|]; [by split; eexists|].
      destruct (decide (n = s "unused")) as [->|]; [|done]. no_ask HS.
    + intros n t v w E HS E1 E2. simpl in E.
      destruct (decide (n = s "xs")) as [->|].
      { injection E as <-. injection E1 as <-. injection E2 as <-. constructor; [done|].
        intros i v w Hv Hw. destruct i; [|done]. injection Hv as <-. injection Hw as <-.
        eapply en_ref; [reflexivity|]. constructor.
        - intros n t E HS'. simpl in E. destruct (decide (n = s "a")) as [->|]; [by split; eexists|].
          destruct (decide (n = s "b")) as [->|]; [no_ask HS'|]. destruct (decide (n = s "sub")) as [->|]; [by split; eexists|done].
        - intros n t v w E HS' E1 E2. simpl in E. destruct (decide (n = s "a")) as [->|].
          { injection E as <-. injection E1 as <-. injection E2 as <-. by constructor. }
          destruct (decide (n = s "b")) as [->|]; [no_ask HS'|]. destruct (decide (n = s "sub")) as [->|]; [|done].
          injection E as <-. injection E1 as <-. injection E2 as <-. eapply en_ref; [reflexivity|]. constructor.
          + intros n t E HS2. simpl in E. destruct (decide (n = s "c")) as [->|]; [by split; eexists|].
            destruct (decide (n = s "d")) as [->|]; [no_ask HS2|done].
          + intros n t v w E HS2 E1 E2. simpl in E. destruct (decide (n = s "c")) as [->|].
            { injection E as <-. injection E1 as <-. injection E2 as <-. by constructor. }
            destruct (decide (n = s "d")) as [->|]; [no_ask HS2|done]. }
      destruct (decide (n = s "z")) as [->|].
      { injection E as <-. injection E1 as <-. injection E2 as <-. by constructor. }
      destruct (decide (n = s "unused")) as [->|]; [no_ask HS|done].
  - intros _. eapply en_ref; [reflexivity|]. constructor.
    + intros n t E HS. simpl in E. destruct (decide (n = s "img")) as [->|]; [by split; eexists|].
      destruct (decide (n = s "name")) as [->|]; [no_ask HS|done].
    + intros n t v w E HS E1 E2. simpl in E. destruct (decide (n = s "img")) as [->|].
      { injection E as <-. injection E1 as <-. injection E2 as <-. apply en_some. eapply en_ref; [reflexivity|]. constructor.
        - intros n t E HS2. simpl in E. destruct (decide (n = s "url")) as [->|]; [by split; eexists|].
          destruct (decide (n = s "size")) as [->|]; [no_ask HS2|done].
        - intros n t v w E HS2 E1 E2. simpl in E. destruct (decide (n = s "url")) as [->|].
          { injection E as <-. injection E1 as <-. injection E2 as <-. by constructor. }
          destruct (decide (n = s "size")) as [->|]; [no_ask HS2|done]. }
      destruct (decide (n = s "name")) as [->|]; [no_ask HS|done].
  - constructor; [|constructor]. constructor.
Qed.
Example C38_example_value : exists e' l v,
  @bind_field ex_hasher ex_types 20 (s "Thing") ex_fns ex_opts ex_e = Ok (e', ex_q, l) /\
  @eval (data_dom ex_F (fun _ => true)) (DDict ex_fenv2) (DObj ex_cut) [(THIS, ex_this_cut); (s "lim", DVal (VInt 5))] e' = Ok v /\
  v = DList [DList [DList [DVal (VInt 1); dvs "c1"]]; DDict [(s "f", dvs "u")]].
Proof. eexists _, _, _. split; [vm_compute; reflexivity|]. split; [vm_compute; reflexivity|done]. Qed.
(** Function types by reference: the declared fields of the referenced type are not requested,
    [type_to_query] ignores references.  With the data fetched for the expression [f(this.img, 1)]
    the function cannot read the field which its type declares. *)
Theorem C38_type_references_refuted :
  exists types fns e e' q l full cut,
    @bind_field ex_hasher types 20 (s "Thing") fns [] e = Ok (e', q, l) /\
    fns = [(s "f", TCall [TRef (s "Image"); TAny])] /\
    (forall p, asks q p -> p = [THIS] \/ p = [THIS; s "img"]) /\
    @eval (data_dom ex_F (fun _ => true)) (DDict ex_fenv2) (DObj []) [(THIS, full)] e' = Ok (DDict [(s "f", dvs "u")]) /\
    enough types (TRef (s "Thing")) (fun p => asks q (THIS :: p)) full cut /\
    @eval (data_dom ex_F (fun _ => true)) (DDict ex_fenv2) (DObj []) [(THIS, cut)] e' = Err KeyError.
Proof.
  exists [(s "__root__", TRec []); (s "Thing", TRec [(s "img", TRef (s "Image"))]); (s "Image", TRec [(s "url", TStr)])].
  exists [(s "f", TCall [TRef (s "Image"); TAny])].
  exists (call "f" [get (sym "this") "img"; EConst (VInt 1)]).
  eexists _, _, _. exists (DObj [(s "img", DObj [(s "url", dvs "u")])]), (DObj [(s "img", DObj [])]).
  split; [vm_compute; reflexivity|]. split; [done|].
  assert (forall b p, asks (QN [QL THIS [QL (s "img") [] false None None] false None None] b) p -> p = [THIS] \/ p = [THIS; s "img"]) as Hall.
  { intros b p (ls & Hr & <-). inversion Hr as [? i Hi|? i p' Hi Hl Hs]; subst; apply elem_of_list_singleton in Hi as ->; [by left|].
    inversion Hs as [? i Hi|? i p2 Hi Hl2 Hs2]; subst; apply elem_of_list_singleton in Hi as ->; [by right|].
    inversion Hs2 as [? i Hi|? i p3 Hi]; subst; by apply elem_of_nil in Hi. }
  split; [exact (Hall _)|]. split; [vm_compute; reflexivity|]. split; [|vm_compute; reflexivity].
  eapply en_ref; [reflexivity|]. constructor.
  - intros n t E _. simpl in E. destruct (decide (n = s "img")) as [->|]; [by split; eexists|done].
  - intros n t v w E _ E1 E2. simpl in E. destruct (decide (n = s "img")) as [->|]; [|done].
    injection E as <-. injection E1 as <-. injection E2 as <-. eapply en_ref; [reflexivity|]. constructor.
    + intros n t E HS. apply Hall in HS. by destruct HS.
    + intros n t v w E HS. apply Hall in HS. by destruct HS.
Qed.

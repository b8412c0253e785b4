(** Theorems about reading GraphQL documents (C27 - C31, C09): hiku/readers/graphql.py. *)
From stdpp Require Import relations.
From Verif Require Import Base Val Query QuerySpec QueryProof MergeProof ReadGraphql ReadSpec Examples.

(** ** Preliminaries *)
Section gval_ind.
  Variable P : gval -> Prop.
  Hypothesis Hvar : forall n, P (GVar n).
  Hypothesis Hnull : P GNull.
  Hypothesis Hint : forall z, P (GInt z).
  Hypothesis Hflt : forall m e, P (GFloat m e).
  Hypothesis Hstr : forall x, P (GStr x).
  Hypothesis Hbool : forall b, P (GBool b).
  Hypothesis Henum : forall x, P (GEnum x).
  Hypothesis Hlist : forall l, Forall P l -> P (GList l).
  Hypothesis Hobj : forall l, Forall (fun p => P p.2) l -> P (GObj l).
  Fixpoint gval_ind' (v : gval) : P v :=
    match v with
    | GVar n => Hvar n | GNull => Hnull | GInt z => Hint z | GFloat m e => Hflt m e
    | GStr x => Hstr x | GBool b => Hbool b | GEnum x => Henum x
    | GList l => Hlist l ((fix f (l : list gval) : Forall P l :=
        match l with [] => List.Forall_nil _ | x :: l' => List.Forall_cons _ _ _ (gval_ind' x) (f l') end) l)
    | GObj l => Hobj l ((fix f (l : list (str * gval)) : Forall (fun p => P p.2) l :=
        match l with [] => List.Forall_nil _ | (k, x) :: l' => List.Forall_cons _ (k, x) _ (gval_ind' x) (f l') end) l)
    end.
End gval_ind.
Section sel_ind.
  Variable P : sel -> Prop.
  Hypothesis Hf : forall a n args ds, P (SField a n args ds None).
  Hypothesis Hl : forall a n args ds l, Forall P l -> P (SField a n args ds (Some l)).
  Hypothesis Hs : forall n ds, P (SSpread n ds).
  Hypothesis Hi : forall ds l, Forall P l -> P (SInline ds l).
  Fixpoint sel_ind' (x : sel) : P x :=
    let f := fix f (l : list sel) : Forall P l :=
      match l with [] => List.Forall_nil _ | x :: l' => List.Forall_cons _ _ _ (sel_ind' x) (f l') end in
    match x with
    | SField a n args ds None => Hf a n args ds
    | SField a n args ds (Some l) => Hl a n args ds l (f l)
    | SSpread n ds => Hs n ds
    | SInline ds l => Hi ds l (f l)
    end.
End sel_ind.

Lemma rmap_ok {A B} (f : A -> rr B) l ys : rmap f l = ROk ys <-> Forall2 (fun x y => f x = ROk y) l ys.
Proof.
  revert ys. induction l as [|x l IH]; intros ys; simpl.
  - split; [intros [= <-]; constructor|by inversion 1].
  - split.
    + destruct (f x) as [y|] eqn:E; [|done]. simpl. destruct (rmap f l) as [ys'|]; [|done]. simpl. intros [= <-].
      constructor; [done|]. by apply IH.
    + inversion 1 as [|? y ? ys' H1 H2]; subst. rewrite H1. simpl. apply IH in H2. change (rmap f l = ROk ys') in H2. by rewrite H2.
Qed.
Lemma rmap_err {A B} (f : A -> rr B) (l : list A) e : rmap f l = RErr e -> exists x, x ∈ l /\ f x = RErr e.
Proof.
  induction l as [|x l IH]; simpl; [done|]. destruct (f x) as [y|] eqn:E; simpl.
  - destruct (rmap f l) as [ys|]; [done|]. simpl. intros [= ->]. destruct IH as (z & ? & ?); [done|]. exists z. split; [by right|done].
  - intros [= ->]. exists x. split; [left|done].
Qed.
Lemma rmap_total {A B} (f : A -> rr B) (l : list A) ys x : rmap f l = ROk ys -> x ∈ l -> exists y, f x = ROk y.
Proof.
  intros Hl Hx. apply rmap_ok in Hl. apply elem_of_list_lookup in Hx as [i Hi]. destruct (Forall2_lookup_l _ _ _ _ _ Hl Hi) as (y & _ & ?). eauto.
Qed.

(** ** Values *)
Section values.
  Context (vars : dict str val).
  Lemma pairs_ok (l : list (str * gval)) ps :
    Forall (fun p => forall w, visit_value vars p.2 = ROk w <-> denotes vars p.2 w) l ->
    rmap (fun '(k, u) => rbind (visit_value vars u) (fun w => ROk (k, w))) l = ROk ps <->
    Forall2 (fun p r => r.1 = p.1 /\ denotes vars p.2 r.2) l ps.
  Proof.
    intros IH. rewrite rmap_ok. revert ps. induction IH as [|[k u] l Hx _ IHl]; intros ps; [split; inversion 1; constructor|].
    simpl in Hx. split; inversion 1 as [|? r ? rs H1 H2]; subst; constructor; try (by apply IHl).
    - destruct (visit_value vars u) as [w|] eqn:E; [|done]. injection H1 as <-. simpl. split; [done|]. by apply Hx.
    - destruct H1 as [H1 H3]. simpl in *. apply Hx in H3. rewrite H3. simpl. destruct r. simpl in *. by subst.
  Qed.
  Lemma visit_value_ok v : forall w, visit_value vars v = ROk w <-> denotes vars v w.
  Proof.
    induction v as [n| | | | | | |l IH|l IH] using gval_ind'; intros w; simpl;
      try (split; [intros [= <-]; constructor|inversion 1; done]).
    - split.
      + destruct (dget n vars) as [w'|] eqn:E; [|done]. intros [= <-]. by constructor.
      + inversion 1 as [? ? H1| | | | | | | |]; subst. by rewrite H1.
    - split.
      + destruct (rmap (visit_value vars) l) as [ws|] eqn:E; [|done]. intros [= <-]. constructor. apply rmap_ok in E.
        clear -IH E. induction E as [|x y l ws H1 _ IHl]; [constructor|]. inversion IH; subst. constructor; [naive_solver|by apply IHl].
      + inversion 1 as [| | | | | | |? ws H1|]; subst. assert (rmap (visit_value vars) l = ROk ws) as ->; [|done]. apply rmap_ok.
        clear -IH H1. induction H1 as [|x y l ws H2 _ IHl]; [constructor|]. inversion IH; subst. constructor; [naive_solver|by apply IHl].
    - split.
      + destruct (rmap _ l) as [ps|] eqn:E; [|done]. intros [= <-]. constructor. by apply pairs_ok.
      + inversion 1 as [| | | | | | | |? ps H1]; subst. apply pairs_ok in H1; [|done]. by rewrite H1.
  Qed.
  Lemma visit_value_err v e : visit_value vars v = RErr e -> exists n, e = RUndefVar n /\ uses_var n v /\ dget n vars = None.
  Proof.
    induction v as [n| | | | | | |l IH|l IH] using gval_ind'; simpl; try done.
    - destruct (dget n vars) eqn:E; [done|]. intros [= <-]. exists n. split; [done|]. split; [constructor|done].
    - destruct (rmap _ l) eqn:E; [done|]. simpl. intros [= ->]. apply rmap_err in E as (x & Hx & E). rewrite Forall_forall in IH.
      destruct (IH x Hx E) as (n & -> & Hu & Hn). exists n. split; [done|]. split; [by eapply uv_list|done].
    - destruct (rmap _ l) eqn:E; [done|]. simpl. intros [= ->]. apply rmap_err in E as ([k x] & Hx & E). rewrite Forall_forall in IH.
      specialize (IH _ Hx). simpl in IH. destruct (visit_value vars x) as [w|] eqn:Ev; [done|]. simpl in E. injection E as ->.
      destruct IH as (n & ? & Hu & Hn); [done|]. exists n. split; [done|]. split; [by eapply uv_obj|done].
  Qed.
  Lemma denotes_declared v w n : denotes vars v w -> uses_var n v -> is_Some (dget n vars).
  Proof.
    intros Hd Hu. revert w Hd. induction Hu as [|l v Hv Hu IH|l k v Hv Hu IH]; intros w Hd; inversion Hd as [| | | | | | |? ws H1|? ps H1]; subst.
    - by eexists.
    - apply elem_of_list_lookup in Hv as [i Hi]. destruct (Forall2_lookup_l _ _ _ _ _ H1 Hi) as (y & _ & ?). by eapply IH.
    - apply elem_of_list_lookup in Hv as [i Hi]. destruct (Forall2_lookup_l _ _ _ _ _ H1 Hi) as (y & _ & _ & ?). by eapply IH.
  Qed.
  Lemma visit_args_ok args o : visit_args vars args = ROk o <-> gives_options vars args o.
  Proof.
    unfold visit_args, gives_options. destruct args as [|a args].
    - split; [intros [= <-]; by left|]. intros [[_ ->]|[Hx _]]; [done|by destruct Hx].
    - pose proof (pairs_ok (a :: args)) as Hp.
      assert (Forall (fun p => forall w, visit_value vars p.2 = ROk w <-> denotes vars p.2 w) (a :: args)) as Hf.
      { apply Forall_forall. intros p _. apply visit_value_ok. }
      split.
      + destruct (rmap _ (a :: args)) as [ps|] eqn:E; [|done]. intros [= <-]. right. split; [done|]. exists ps. split; [|done]. by apply Hp.
      + intros [[? _]|[_ (ps & H1 & ->)]]; [done|]. apply Hp in H1; [|done]. by rewrite H1.
  Qed.
  Lemma visit_args_err args e : visit_args vars args = RErr e ->
    exists k v n, e = RUndefVar n /\ (k, v) ∈ args /\ uses_var n v /\ dget n vars = None.
  Proof.
    unfold visit_args. destruct args as [|a args]; [done|]. destruct (rmap _ _) eqn:E; [done|]. intros [= ->].
    apply rmap_err in E as ([k v] & Hx & E). destruct (visit_value vars v) eqn:Ev; [done|]. injection E as ->.
    apply visit_value_err in Ev as (n & -> & ? & ?). exists k, v, n. done.
  Qed.
  Lemma should_skip_err ds e : should_skip vars ds = RErr e -> e <> RFuel.
  Proof.
    assert (forall d e, cond_value vars d = RErr e -> e <> RFuel) as Hc.
    { intros d e'. unfold cond_value. destruct (gd_args d) as [|[n v] [|? ?]]; try congruence. case_bool_decide; [|congruence].
      intros (? & -> & _)%visit_value_err. done. }
    unfold should_skip. destruct (find_dir (s "skip") ds) as [d|].
    - destruct (cond_value vars d) eqn:E; [done|]. intros [= ->]. by eapply Hc.
    - destruct (find_dir (s "include") ds) as [d|]; [|done]. destruct (cond_value vars d) eqn:E; [done|]. intros [= ->]. by eapply Hc.
  Qed.
End values.

(** ** Reading selections *)
Section sels.
  Context (vars : dict str val) (frags : dict str (list sel)).
  Notation reads := (reads vars frags).
  Notation meets := (meets vars frags).
  Notation enters := (enters vars frags).
  Definition cache_ok (c : fcache) : Prop := forall n r, dget n c = Some r -> exists sub, dget n frags = Some sub /\ reads sub r.
  Definition bad (pend : list str) (l : list sel) (e : rerr) : Prop :=
    exists x, meets l x /\ (fault vars frags x e \/ exists n ds, x = SSpread n ds /\ skips vars x false /\ e = RCyclic n /\ n ∈ pend).

  Lemma visit_sel_eq frag c x : visit_sel vars frag c x =
    rbind (should_skip vars (sel_dirs x)) (fun skip =>
      if skip then ROk ([], c) else
      match x with
      | SField alias name args _ sub =>
          rbind (visit_args vars args) (fun o =>
            match sub with
            | None => ROk ([QF name o alias], c)
            | Some l => rbind (visit_sels vars frag c l) (fun p => ROk ([QL name p.1 false o alias], p.2))
            end)
      | SSpread n _ => frag c n
      | SInline _ l => visit_sels vars frag c l
      end).
  Proof. by destruct x. Qed.

  Lemma meets_here (l : list sel) x : x ∈ l -> meets l x.
  Proof. intros Hx. exists l. split; [constructor|done]. Qed.
  Lemma meets_mono (l l' : list sel) x : (forall y, y ∈ l -> y ∈ l') -> meets l x -> meets l' x.
  Proof.
    intros Hs (l2 & Hr & Hx). inversion Hr as [|? y ? (z & Hz & Hk & Hc) Hr2]; subst; [by apply meets_here, Hs|].
    exists l2. split; [|done]. eapply rtc_l; [|exact Hr2]. exists z. auto.
  Qed.
  Lemma bad_mono pend (l l' : list sel) e : (forall y, y ∈ l -> y ∈ l') -> bad pend l e -> bad pend l' e.
  Proof. intros Hs (x & Hm & Hx). exists x. split; [by eapply meets_mono|done]. Qed.
  Lemma bad_enter pend x sub e : skips vars x false -> contents frags x sub -> bad pend sub e -> bad pend [x] e.
  Proof.
    intros Hk Hc (y & (l' & Hr & Hy) & Hb). exists y. split; [|done]. exists l'. split; [|done]. eapply rtc_l; [|exact Hr].
    exists x. split; [by left|done].
  Qed.

  (** What [frag] has to satisfy *)
  Definition frag_spec (pend : list str) (frag : fcache -> str -> rr (list qitem * fcache)) : Prop :=
    forall c n ds, cache_ok c -> skips vars (SSpread n ds) false ->
      match frag c n with
      | ROk (r, c') => cache_ok c' /\ exists sub, dget n frags = Some sub /\ reads sub r
      | RErr e => bad pend [SSpread n ds] e
      end.

  Lemma visit_list pend frag l :
    Forall (fun x => forall c, cache_ok c ->
      match visit_sel vars frag c x with
      | ROk (r, c') => cache_ok c' /\ (forall l r', reads l r' -> reads (x :: l) (r ++ r'))
      | RErr e => bad pend [x] e
      end) l ->
    forall c, cache_ok c ->
      match visit_sels vars frag c l with
      | ROk (r, c') => cache_ok c' /\ reads l r
      | RErr e => bad pend l e
      end.
  Proof.
    induction 1 as [|x l Hx _ IH]; intros c Hc; [split; [done|constructor]|]. cbn [visit_sels].
    specialize (Hx c Hc). destruct (visit_sel vars frag c x) as [[r1 c1]|e]; cbn [rbind].
    - destruct Hx as [Hc1 Hr1]. cbn [fst snd]. change ((fix go (c : fcache) (l : list sel) {struct l} := _) c1 l) with (visit_sels vars frag c1 l).
      specialize (IH c1 Hc1). destruct (visit_sels vars frag c1 l) as [[r2 c2]|e]; cbn [rbind fst snd].
      + destruct IH as [? ?]. split; [done|]. by apply Hr1.
      + eapply bad_mono; [|exact IH]. intros; by right.
    - eapply bad_mono; [|exact Hx]. intros y ->%elem_of_list_singleton. left.
  Qed.
  Lemma visit_one pend frag x : frag_spec pend frag -> forall c, cache_ok c ->
    match visit_sel vars frag c x with
    | ROk (r, c') => cache_ok c' /\ (forall l r', reads l r' -> reads (x :: l) (r ++ r'))
    | RErr e => bad pend [x] e
    end.
  Proof.
    intros Hfr. induction x as [a n args ds|a n args ds sub IH|n ds|ds sub IH] using sel_ind'; intros c Hc; rewrite visit_sel_eq.
    all: destruct (should_skip vars (sel_dirs _)) as [[]|e] eqn:Es; cbn [rbind];
      [split; [done|]; intros l r' Hr; by apply rd_skip| |
       eexists; split; [apply meets_here; left|left; by apply fl_dir]].
    - destruct (visit_args vars args) as [o|e] eqn:Ea; cbn [rbind].
      + split; [done|]. intros l r' Hr. apply rd_field; [done|by apply visit_args_ok|done].
      + apply visit_args_err in Ea as (k & v & y & -> & H1 & H2 & H3). eexists. split; [apply meets_here; left|left; by eapply fl_var].
    - destruct (visit_args vars args) as [o|e] eqn:Ea; cbn [rbind].
      + pose proof (visit_list pend frag sub IH c Hc) as Hv. destruct (visit_sels vars frag c sub) as [[r1 c1]|e]; cbn [rbind fst snd].
        * destruct Hv as [? ?]. split; [done|]. intros l r' Hr. apply rd_link; [done|by apply visit_args_ok|done|done].
        * eapply bad_enter; [exact Es|constructor|done].
      + apply visit_args_err in Ea as (k & v & y & -> & H1 & H2 & H3). eexists. split; [apply meets_here; left|left; by eapply fl_var].
    - pose proof (Hfr c n ds Hc Es) as Hv. destruct (frag c n) as [[r1 c1]|e]; [|done].
      destruct Hv as [? (sub & ? & ?)]. split; [done|]. intros l r' Hr. by eapply rd_spread.
    - pose proof (visit_list pend frag sub IH c Hc) as Hv. destruct (visit_sels vars frag c sub) as [[r1 c1]|e].
      + destruct Hv as [? ?]. split; [done|]. intros l r' Hr. by apply rd_inline.
      + eapply bad_enter; [exact Es|constructor|done].
  Qed.
  Lemma visit_all pend frag l c : frag_spec pend frag -> cache_ok c ->
    match visit_sels vars frag c l with
    | ROk (r, c') => cache_ok c' /\ reads l r
    | RErr e => bad pend l e
    end.
  Proof. intros Hf. apply visit_list. apply Forall_forall. intros x _. by apply visit_one. Qed.

  Lemma fragment_spec k : forall pend, NoDup pend -> (forall p, p ∈ pend -> is_Some (dget p frags)) ->
    length frags < k + length pend -> frag_spec pend (transform_fragment vars frags k pend).
  Proof.
    induction k as [|k IH]; intros pend Hnd Hp Hlen c n ds Hc Hk.
    { exfalso. assert (length pend <= length frags); [|lia]. rewrite <-(map_length fst frags). apply submseteq_length.
      apply NoDup_submseteq; [done|]. intros p Hpp. apply Hp, dget_is_Some in Hpp. done. }
    cbn [transform_fragment]. destruct (dget n frags) as [sub|] eqn:En.
    2:{ eexists. split; [apply meets_here; left|]. left. by eapply fl_frag. }
    destruct (dget n c) as [r|] eqn:Ec; [split; [done|]; destruct (Hc _ _ Ec) as (sub' & ? & ?); exists sub'; split; [congruence|done]|].
    destruct (decide (n ∈ pend)) as [Hin|Hin].
    { eexists. split; [apply meets_here; left|]. right. by exists n, ds. }
    pose proof (visit_all (n :: pend) (transform_fragment vars frags k (n :: pend)) sub c) as Hv.
    assert (frag_spec (n :: pend) (transform_fragment vars frags k (n :: pend))) as Hs.
    { apply IH; [by constructor| |simpl; lia]. intros p [->|?]%elem_of_cons; [by eexists|by apply Hp]. }
    specialize (Hv Hs Hc). destruct (visit_sels _ _ c sub) as [[r c1]|e]; cbn [rbind fst snd].
    - destruct Hv as [Hc1 Hr]. split; [|by eauto]. intros m r'. rewrite dget_dset. case_decide as Hm.
      + intros [= <-]. subst m. eauto.
      + apply Hc1.
    - eapply bad_enter; [exact Hk|by constructor|]. destruct Hv as (x & Hm & Hx). exists x. split; [done|].
      destruct Hx as [Hx|(n' & ds' & -> & Hsk & -> & Hin')]; [by left|]. apply elem_of_cons in Hin' as [->|Hin'].
      + left. eapply fl_cyclic; [done|done|]. exists sub, ds'. done.
      + right. by exists n', ds'.
  Qed.

  (** Top level *)
  Definition read_sels (l : list sel) : rr (list qitem) :=
    rbind (visit_sels vars (transform_fragment vars frags (S (length frags)) []) [] l) (fun p => ROk p.1).
  Lemma read_sels_spec l : match read_sels l with
    | ROk r => reads l r
    | RErr e => exists x, meets l x /\ fault vars frags x e
    end.
  Proof.
    unfold read_sels. pose proof (visit_all [] (transform_fragment vars frags (S (length frags)) []) l []) as Hv.
    assert (frag_spec [] (transform_fragment vars frags (S (length frags)) [])) as Hs.
    { apply fragment_spec; [constructor|intros p Hp; by apply not_elem_of_nil in Hp|simpl; lia]. }
    specialize (Hv Hs ltac:(done)). destruct (visit_sels _ _ [] l) as [[r c1]|e]; cbn [rbind fst]; [tauto|].
    destruct Hv as (x & Hm & [?|(n & ds & _ & _ & _ & Hin)]); [eauto|by apply not_elem_of_nil in Hin].
  Qed.

  Lemma gives_options_det args o o' : gives_options vars args o -> gives_options vars args o' -> o = o'.
  Proof. rewrite <-!visit_args_ok. congruence. Qed.
  Lemma reads_det l r : reads l r -> forall r', reads l r' -> r = r'.
  Proof.
    induction 1 as [|x l r Hk _ IH|a n args ds l r o Hk Ho _ IH|a n args ds sub l rs r o Hk Ho _ IHs _ IH|n ds sub l rs r Hk Hf _ IHs _ IH|ds sub l rs r Hk _ IHs _ IH];
      intros r' Hr; inversion Hr; subst; unfold skips in *; try congruence; auto.
    - f_equal; [|by apply IH]. f_equal. by eapply gives_options_det.
    - f_equal; [|by apply IH]. f_equal; [by apply IHs|by eapply gives_options_det].
    - f_equal; [|by apply IH]. apply IHs. congruence.
    - f_equal; [|by apply IH]. by apply IHs.
  Qed.
  Lemma reads_acc l r : reads l r -> Acc (flip enters) l.
  Proof.
    assert (forall (x : sel) (l : list sel), Acc (flip enters) l -> (skips vars x false -> forall sub, contents frags x sub -> Acc (flip enters) sub) -> Acc (flip enters) (x :: l)) as Hc.
    { intros x l0 [Hl] Hx. constructor. intros sub (y & [->|Hy]%elem_of_cons & Hk & Hct); [by apply Hx|]. apply Hl. exists y. done. }
    induction 1 as [|x l r Hk _ IH|a n args ds l r o Hk Ho _ IH|a n args ds sub l rs r o Hk Ho _ IHs _ IH|n ds sub l rs r Hk Hf _ IHs _ IH|ds sub l rs r Hk _ IHs _ IH].
    - constructor. intros sub (y & Hy & _). by apply not_elem_of_nil in Hy.
    - apply Hc; [done|]. unfold skips in *. congruence.
    - apply Hc; [done|]. intros _ sub Hct. inversion Hct.
    - apply Hc; [done|]. intros _ sub' Hct. by inversion Hct; subst.
    - apply Hc; [done|]. intros _ sub' Hct. inversion Hct; subst. congruence.
    - apply Hc; [done|]. intros _ sub' Hct. by inversion Hct; subst.
  Qed.
  Lemma reads_member l r x : reads l r -> x ∈ l -> exists r', reads [x] r'.
  Proof.
    induction 1; intros Hx; [by apply not_elem_of_nil in Hx|..]; apply elem_of_cons in Hx as [->|Hx]; auto; eexists.
    - apply rd_skip; [done|constructor].
    - by apply rd_field; [| |constructor].
    - by apply rd_link; [| | |constructor].
    - by eapply rd_spread; [| | |constructor].
    - by apply rd_inline; [| |constructor].
  Qed.
  Lemma reads_enters l r sub : reads l r -> enters l sub -> exists r', reads sub r'.
  Proof.
    intros Hr (x & Hx & Hk & Hc). destruct (reads_member l r x Hr Hx) as (r1 & H1).
    inversion H1; subst; unfold skips in *; try congruence; inversion Hc; subst; eauto. replace sub with sub0 by congruence. eauto.
  Qed.
  Lemma reads_no_fault l r x e : reads l r -> meets l x -> ~ fault vars frags x e.
  Proof.
    intros Hr (l' & Hrtc & Hx). assert (exists r', reads l' r') as [r' Hr'].
    { clear Hx. revert r Hr. induction Hrtc as [|l1 l2 l3 H12 _ IH]; intros r Hr; [eauto|]. destruct (reads_enters _ _ _ Hr H12) as [r2 ?]. eauto. }
    destruct (reads_member l' r' x Hr' Hx) as [r1 H1]. clear Hr Hr'. intros Hf.
    destruct Hf as [e Hd|a n args ds sub k v y -> Hk Hin Hu Hn|n ds -> Hk Hn|n ds -> Hk (sub & ds' & Hn & (l2 & Hm & Hl2) & Hk2)].
    - inversion H1; subst; unfold skips in *; simpl in *; congruence.
    - assert (exists o, gives_options vars args o) as (o & Ho) by (inversion H1; subst; unfold skips in *; simpl in *; [congruence|eauto|eauto]).
      destruct Ho as [[-> _]|(_ & ps & Hps & _)]; [by apply not_elem_of_nil in Hin|].
      apply elem_of_list_lookup in Hin as [i Hi]. destruct (Forall2_lookup_l _ _ _ _ _ Hps Hi) as (p & _ & _ & Hd). simpl in Hd.
      destruct (denotes_declared _ _ _ _ Hd Hu) as [? ?]. congruence.
    - inversion H1; subst; unfold skips in *; simpl in *; congruence.
    - assert (exists r2, reads sub r2) as [r2 H2] by (inversion H1; subst; unfold skips in *; simpl in *; [congruence|]; eexists; by replace sub with sub0 by congruence).
      apply reads_acc in H2. assert (tc enters sub sub) as Htc.
      { eapply tc_rtc_l; [exact Hm|]. apply tc_once. exists (SSpread n ds'). split; [done|]. split; [done|by constructor]. }
      clear -H2 Htc. induction H2 as [l1 _ IH]. inversion Htc as [? ? H1|? l2 ? H1 H2]; subst; [by apply (IH l1)|].
      apply (IH l2); [done|]. eapply tc_r; [exact H2|exact H1].
  Qed.
End sels.

(** ** Documents *)
Lemma collect_frags_ok doc : forall acc m, collect_frags acc doc = ROk m <->
  DOther ∉ doc /\ NoDup (frag_names doc) /\ (forall n, n ∈ frag_names doc -> n ∉ dkeys acc) /\ m = acc ++ frag_map doc.
Proof.
  induction doc as [|d doc IH]; intros acc m; simpl.
  - split; [intros [= <-]|].
    + split; [apply not_elem_of_nil|]. split; [constructor|]. split; [intros n Hn; by apply not_elem_of_nil in Hn|by rewrite app_nil_r].
    + intros (_ & _ & _ & ->). by rewrite app_nil_r.
  - rewrite not_elem_of_cons. destruct d as [o|n l|]; simpl.
    + rewrite IH. split; intros (?&?&?&?); [split; [split; [done|done]|done]|]. tauto.
    + destruct (dget n acc) as [x|] eqn:En.
      * split; [done|]. intros (_ & _ & Hn & _). exfalso. apply (Hn n ltac:(left)). apply dget_is_Some. by eexists.
      * assert (dset n l acc = acc ++ [(n, l)]) as Hds by (apply dset_app_new; intros [y Hy]%dget_is_Some; discriminate (eq_trans (eq_sym En) Hy)).
        rewrite IH, Hds, <-app_assoc. simpl. rewrite NoDup_cons.
        assert (dkeys (acc ++ [(n, l)]) = dkeys acc ++ [n]) as -> by (unfold dkeys; by rewrite map_app).
        assert (n ∉ dkeys acc) as Hacc. { intros [x Hx]%dget_is_Some. congruence. }
        split.
        -- intros (H1 & H2 & H3 & ->). split; [done|]. split; [split; [|done]|split; [|done]].
           ++ intros Hn. apply (H3 n Hn). apply elem_of_app. right. by left.
           ++ intros n' [->|Hn']%elem_of_cons; [done|]. intros Hx. apply (H3 n' Hn'). apply elem_of_app. by left.
        -- intros ((_ & H1) & (H2 & H3) & H4 & ->). split; [done|]. split; [done|]. split; [|done].
           intros n' Hn' [Hx|Hx%elem_of_list_singleton]%elem_of_app; [by apply (H4 n'); [right|]|by subst].
    + split; [done|]. intros ((? & _) & _). done.
Qed.
Definition ops_map (doc : list gdef) : dict (option str) opdef :=
  flat_map (fun d => match d with DOp o => [(od_name o, o)] | _ => [] end) doc.
Lemma collect_ops_ok doc : forall acc m, collect_ops acc doc = ROk m <->
  DOther ∉ doc /\ NoDup (op_names doc) /\ (forall n, n ∈ op_names doc -> n ∉ dkeys acc) /\ m = acc ++ ops_map doc.
Proof.
  induction doc as [|d doc IH]; intros acc m; simpl.
  - split; [intros [= <-]|].
    + split; [apply not_elem_of_nil|]. split; [constructor|]. split; [intros n Hn; by apply not_elem_of_nil in Hn|by rewrite app_nil_r].
    + intros (_ & _ & _ & ->). by rewrite app_nil_r.
  - rewrite not_elem_of_cons. destruct d as [o|n l|]; simpl.
    + destruct (dget (od_name o) acc) as [x|] eqn:En.
      * split; [done|]. intros (_ & _ & Hn & _). exfalso. apply (Hn (od_name o) ltac:(left)). apply dget_is_Some. by eexists.
      * assert (dset (od_name o) o acc = acc ++ [(od_name o, o)]) as Hds by (apply dset_app_new; intros [y Hy]%dget_is_Some; discriminate (eq_trans (eq_sym En) Hy)).
        rewrite IH, Hds, <-app_assoc. simpl. rewrite NoDup_cons.
        assert (dkeys (acc ++ [(od_name o, o)]) = dkeys acc ++ [od_name o]) as -> by (unfold dkeys; by rewrite map_app).
        assert (od_name o ∉ dkeys acc) as Hacc. { intros [x Hx]%dget_is_Some. congruence. }
        split.
        -- intros (H1 & H2 & H3 & ->). split; [done|]. split; [split; [|done]|split; [|done]].
           ++ intros Hn. apply (H3 _ Hn). apply elem_of_app. right. by left.
           ++ intros n' [->|Hn']%elem_of_cons; [done|]. intros Hx. apply (H3 n' Hn'). apply elem_of_app. by left.
        -- intros ((_ & H1) & (H2 & H3) & H4 & ->). split; [done|]. split; [done|]. split; [|done].
           intros n' Hn' [Hx|Hx%elem_of_list_singleton]%elem_of_app; [by apply (H4 n'); [right|]|by subst].
    + rewrite IH. split; intros (?&?&?&?); [split; [split; [done|done]|done]|]. tauto.
    + split; [done|]. intros ((? & _) & _). done.
Qed.

(** ** C31: the operation *)
Lemma ops_map_names doc : dkeys (ops_map doc) = op_names doc.
Proof. induction doc as [|[o|n l|] doc IH]; simpl; [done|f_equal; exact IH|exact IH|exact IH]. Qed.
Lemma ops_map_In doc n o : (n, o) ∈ ops_map doc <-> op_named doc n o.
Proof.
  unfold op_named. induction doc as [|[o'|n' l|] doc IH]; simpl; rewrite ?elem_of_cons.
  - split; [by intros ?%not_elem_of_nil|intros [?%not_elem_of_nil _]; done].
  - rewrite IH. naive_solver.
  - rewrite IH. naive_solver.
  - rewrite IH. naive_solver.
Qed.
(** Given a name, the operation with this name is taken; operation names must be distinct. *)
Theorem C31_named_operation doc n o :
  get_operation doc (Some n) = ROk o <-> DOther ∉ doc /\ NoDup (op_names doc) /\ op_named doc (Some n) o.
Proof.
  unfold get_operation. destruct (collect_ops [] doc) as [ops|e] eqn:Ec; simpl.
  - apply collect_ops_ok in Ec as (H1 & H2 & _ & ->). simpl.
    assert (op_named doc (Some n) o <-> dget (Some n) (ops_map doc) = Some o) as ->.
    { rewrite <-ops_map_In. split.
      - intros Hin. apply dget_NoDup; [by rewrite ops_map_names|done].
      - intros Hg. by apply dget_Some_elem. }
    destruct (ops_map doc) as [|[m o'] l]; [split; [done|]; intros (_ & _ & ?); done|].
    destruct (dget (Some n) ((m, o') :: l)); naive_solver.
  - split; [done|]. intros (H1 & H2 & _).
    assert (collect_ops [] doc = ROk ([] ++ ops_map doc)) as Hx; [|congruence].
    apply collect_ops_ok. split; [done|]. split; [done|]. split; [|done]. intros ? _. apply not_elem_of_nil.
Qed.
(** Without a name the document must have exactly one operation. *)
Theorem C31_single_operation doc o :
  get_operation doc None = ROk o <-> DOther ∉ doc /\ op_names doc = [od_name o] /\ DOp o ∈ doc.
Proof.
  assert (forall n o, ops_map doc = [(n, o)] <-> op_names doc = [n] /\ op_named doc n o) as Hs.
  { intros n o'. split.
    - intros Hm. split; [by rewrite <-ops_map_names, Hm|]. apply ops_map_In. rewrite Hm. by left.
    - intros [Hn Ho%ops_map_In]. rewrite <-ops_map_names in Hn. destruct (ops_map doc) as [|[a b] [|? ?]]; [done| |done].
      apply elem_of_list_singleton in Ho. by injection Ho as -> ->. }
  unfold get_operation. destruct (collect_ops [] doc) as [ops|e] eqn:Ec; simpl.
  - apply collect_ops_ok in Ec as (H1 & H2 & _ & ->). simpl. destruct (ops_map doc) as [|[m o'] [|? ?]] eqn:Em.
    + split; [done|]. intros (_ & Hn & Ho). destruct (Hs (od_name o) o) as [_ Hs1]. exfalso. by discriminate Hs1; split; [|split].
    + split.
      * intros [= ->]. destruct (Hs m o) as [Hs1 _]. destruct (Hs1 eq_refl) as [? [? ?]]. split; [done|]. subst m. done.
      * intros (_ & Hn & Ho). destruct (Hs (od_name o) o) as [_ Hs1]. assert ([(m, o')] = [(od_name o, o)]) as [= -> ->]; [|done]. by apply Hs1; split; [|split].
    + split; [done|]. intros (_ & Hn & Ho). exfalso. destruct (Hs (od_name o) o) as [_ Hs1]. by discriminate Hs1; split; [|split].
  - split; [done|]. intros (H1 & H2 & _).
    assert (collect_ops [] doc = ROk ([] ++ ops_map doc)) as Hx; [|congruence].
    apply collect_ops_ok. split; [done|]. split; [rewrite H2; apply NoDup_singleton|]. split; [|done]. intros ? _. apply not_elem_of_nil.
Qed.

(** [read_operation] tells the type and the name of the operation which was taken; [read] takes queries only, and raises
    for any other operation, whatever is in it. *)
Theorem C31_type_of_operation `{Hasher} doc given name t q nm :
  read_operation doc given name = ROk (t, q, nm) -> exists o, get_operation doc name = ROk o /\ od_type o = t /\ od_name o = nm.
Proof.
  unfold read_operation. destruct (get_operation doc name) as [o|e]; cbn; [|done].
  destruct (transform doc o given) as [q'|e]; cbn; [|done]. intros [= <- <- <-]. by exists o.
Qed.
Theorem C31_read_queries_only `{Hasher} doc given name :
  (forall q, read doc given name = ROk q <-> exists nm, read_operation doc given name = ROk (OQuery, q, nm)) /\
  (forall o, get_operation doc name = ROk o -> od_type o <> OQuery -> read doc given name = RErr RNotQuery).
Proof.
  unfold read, read_operation. destruct (get_operation doc name) as [o|e]; cbn; [|split; [intros q; split; [done|by intros [? ?]]|done]].
  split; [|intros o' [= <-]; by destruct (od_type o)]. intros q.
  destruct (od_type o) eqn:Et; (destruct (transform doc o given) as [q'|e]; cbn; [|split; [done|by intros [? ?]]]);
    (split; [|intros [nm [= -> ?]]; done]); try done. intros [= ->]. eauto.
Qed.
(** Example: the document of a mutation *)
Example C31_mutation_not_read `{Hasher} : exists doc,
  read doc [] None = RErr RNotQuery /\ exists q, read_operation doc [] None = ROk (OMutation, q, None).
Proof. exists [DOp (OpDef OMutation None [] [SField None (s "x") [] [] None])]. split; [reflexivity|]. eexists. reflexivity. Qed.

Lemma get_operation_err doc n e : get_operation doc n = RErr e -> e <> RFuel /\ forall m, e <> RCyclic m.
Proof.
  assert (forall doc acc e, collect_ops acc doc = RErr e -> e <> RFuel /\ forall m, e <> RCyclic m) as Hc.
  { clear. induction doc as [|[o|m l|] doc IH]; intros acc e; simpl; [done| |by apply IH|by intros [= <-]].
    destruct (dget (od_name o) acc); [by intros [= <-]|by apply IH]. }
  unfold get_operation. destruct (collect_ops [] doc) as [ops|e'] eqn:Ec; simpl; [|intros [= ->]; by eapply Hc].
  destruct ops as [|[m o] l]; [by intros [= <-]|]. destruct n as [n|]; [|destruct l; by intros [= <-]].
  destruct (dget (Some n) _); by intros [= <-].
Qed.
Lemma collect_frags_err doc : forall acc e, collect_frags acc doc = RErr e -> e <> RFuel /\ forall m, e <> RCyclic m.
Proof.
  induction doc as [|[o|m l|] doc IH]; intros acc e; simpl; [done|by apply IH| |by intros [= <-]].
  destruct (dget m acc); [by intros [= <-]|by apply IH].
Qed.
Lemma var_value_err given d e : var_value given d = RErr e ->
  dget (vd_name d) given = None /\
  ((e = RNoVar (vd_name d) /\ vd_default d = None /\ vd_nonnull d = true) \/
   exists c n, vd_default d = Some c /\ uses_var n c /\ e = RUndefVar n).
Proof.
  unfold var_value. destruct (dget (vd_name d) given); [done|]. destruct (vd_default d) as [c|].
  - intros (n & -> & Hu & _)%visit_value_err. split; [done|]. right. by exists c, n.
  - destruct (vd_nonnull d); [|done]. intros [= <-]. split; [done|]. by left.
Qed.
Lemma query_variables_err given ds e : query_variables given ds = RErr e -> exists d, d ∈ ds /\ var_value given d = RErr e.
Proof.
  unfold query_variables. destruct (rmap _ ds) as [ps|] eqn:Er; [done|]. simpl. intros [= ->].
  apply rmap_err in Er as (d & Hd & Er). exists d. split; [done|]. destruct (var_value given d); [done|]. simpl in Er. congruence.
Qed.

(** *** What is read: all the outcomes *)
(** The document has distinct fragment names and no definitions of other kinds. *)
Definition good_fragments (doc : list gdef) : Prop := DOther ∉ doc /\ NoDup (frag_names doc).
Lemma collect_frags_good doc : collect_frags [] doc = ROk (frag_map doc) <-> good_fragments doc.
Proof.
  rewrite collect_frags_ok. unfold good_fragments. split; [tauto|]. intros [? ?]. split; [done|]. split; [done|]. split; [|done].
  intros ? _. apply not_elem_of_nil.
Qed.
Lemma transform_node_eq doc o given : transform_node doc o given =
  rbind (query_variables given (od_vars o)) (fun vars => rbind (collect_frags [] doc) (fun frags =>
  rbind (read_sels vars frags (od_sels o)) (fun r => ROk (QN r (match od_type o with OMutation => true | _ => false end))))).
Proof.
  unfold transform_node, read_sels. destruct (query_variables _ _); [|done]. simpl. destruct (collect_frags [] doc); [|done]. simpl.
  by destruct (visit_sels _ _ _ _).
Qed.
Lemma transform_node_ok doc o given q : transform_node doc o given = ROk q <->
  exists vars r, query_variables given (od_vars o) = ROk vars /\ good_fragments doc /\ reads vars (frag_map doc) (od_sels o) r /\
    q = QN r (match od_type o with OMutation => true | _ => false end).
Proof.
  rewrite transform_node_eq. split.
  - destruct (query_variables _ _) as [vars|]; [|done]. simpl. destruct (collect_frags [] doc) as [frags|] eqn:Ef; [|done]. simpl.
    pose proof (read_sels_spec vars frags (od_sels o)) as Hr. destruct (read_sels _ _ _) as [r|]; [|done]. simpl. intros [= <-].
    assert (frags = frag_map doc) as -> by (apply collect_frags_ok in Ef; tauto). exists vars, r. split; [done|]. split; [by apply collect_frags_good|done].
  - intros (vars & r & -> & Hg & Hr & ->). simpl. apply collect_frags_good in Hg. rewrite Hg. simpl.
    pose proof (read_sels_spec vars (frag_map doc) (od_sels o)) as Hs. destruct (read_sels _ _ _) as [r'|e]; simpl.
    + by rewrite (reads_det _ _ _ _ Hr _ Hs).
    + destruct Hs as (x & Hm & Hf). exfalso. by eapply reads_no_fault.
Qed.
Lemma transform_node_err doc o given e : transform_node doc o given = RErr e ->
  (exists d, d ∈ od_vars o /\ var_value given d = RErr e) \/
  exists vars, query_variables given (od_vars o) = ROk vars /\
    ((collect_frags [] doc = RErr e /\ ~ good_fragments doc) \/
     (good_fragments doc /\ exists x, meets vars (frag_map doc) (od_sels o) x /\ fault vars (frag_map doc) x e)).
Proof.
  rewrite transform_node_eq. destruct (query_variables _ _) as [vars|] eqn:Ev; simpl.
  - intros Ht. right. exists vars. split; [done|]. destruct (collect_frags [] doc) as [frags|] eqn:Ef; simpl in Ht.
    + right. pose proof Ef as Ef'. apply collect_frags_ok in Ef' as (_ & _ & _ & ->). simpl in *. split; [by apply collect_frags_good|].
      pose proof (read_sels_spec vars (frag_map doc) (od_sels o)) as Hr. destruct (read_sels _ _ _) as [r|]; [done|]. simpl in Ht. by injection Ht as ->.
    + left. injection Ht as ->. split; [done|]. intros Hg%collect_frags_good. congruence.
  - intros [= ->]. left. by apply query_variables_err.
Qed.
Lemma transform_ok `{Hasher} doc o given q : transform doc o given = ROk q <-> exists n, transform_node doc o given = ROk n /\ q = merge [n].
Proof. unfold transform. destruct (transform_node doc o given); simpl; naive_solver. Qed.
Lemma transform_err `{Hasher} doc o given e : transform doc o given = RErr e <-> transform_node doc o given = RErr e.
Proof. unfold transform. destruct (transform_node doc o given); simpl; naive_solver. Qed.

(** ** C27: reading ends *)
(** The model counts the nesting of fragments: it never exceeds their number, so reading ends
    with a query or with one of the errors of the code for every document, cyclic or not. *)
Theorem C27_terminates `{Hasher} doc given name : read_operation doc given name <> RErr RFuel /\ read doc given name <> RErr RFuel.
Proof.
  assert (forall o, transform doc o given <> RErr RFuel) as Ht.
  { intros o [(d & _ & Hd)|(vars & _ & [[Hc _]|(_ & x & _ & Hf)])]%transform_err%transform_node_err.
    - apply var_value_err in Hd as (_ & [(? & _)|(? & ? & _ & _ & ?)]); done.
    - by apply collect_frags_err in Hc as [? _].
    - inversion Hf as [e He|? ? ? ? ? ? ? ? ? ? ? ? ? He|? ? ? ? ? He|? ? ? ? ? He]; subst. by apply should_skip_err in He. }
  unfold read_operation, read. destruct (get_operation doc name) as [o|e] eqn:Eo; simpl.
  - specialize (Ht o). destruct (transform doc o given) as [q|e]; simpl; [|].
    + split; [done|]. by destruct (od_type o).
    + split; [congruence|]. destruct (od_type o); congruence.
  - apply get_operation_err in Eo as [? _]. split; congruence.
Qed.
(** Using a cyclic fragment is refused ... *)
Theorem C27_cyclic_refused `{Hasher} doc o given vars n ds :
  query_variables given (od_vars o) = ROk vars ->
  meets vars (frag_map doc) (od_sels o) (SSpread n ds) -> should_skip vars ds = ROk false -> cyclic vars (frag_map doc) n ->
  exists e, transform doc o given = RErr e /\
    (good_fragments doc ->
     (forall x e', meets vars (frag_map doc) (od_sels o) x -> fault vars (frag_map doc) x e' -> exists m, e' = RCyclic m) ->
     exn_of e = TypeError).
Proof.
  intros Hv Hm Hk Hc. destruct (transform doc o given) as [q|e] eqn:Et.
  - exfalso. apply transform_ok in Et as (nd & Hn & _). apply transform_node_ok in Hn as (vars' & r & Hv' & _ & Hr & _).
    rewrite Hv in Hv'. injection Hv' as <-. eapply reads_no_fault; [exact Hr|exact Hm|]. by eapply fl_cyclic.
  - exists e. split; [done|]. intros Hg Hx. apply transform_err, transform_node_err in Et as [(d & Hd & He)|(vars' & Hv' & [[_ ?]|(_ & x & Hm' & Hf)])].
    + exfalso. unfold query_variables in Hv. destruct (rmap _ (od_vars o)) as [ps|] eqn:Er; [|done].
      destruct (rmap_total _ _ _ d Er Hd) as [y Hy]. by rewrite He in Hy.
    + done.
    + rewrite Hv in Hv'. injection Hv' as <-. by destruct (Hx _ _ Hm' Hf) as [m ->].
Qed.
(** ... and nothing else is refused as cyclic. *)
Theorem C27_only_cyclic_refused `{Hasher} doc given name n : read_operation doc given name = RErr (RCyclic n) ->
  exists o vars ds, get_operation doc name = ROk o /\ query_variables given (od_vars o) = ROk vars /\
    meets vars (frag_map doc) (od_sels o) (SSpread n ds) /\ should_skip vars ds = ROk false /\ cyclic vars (frag_map doc) n.
Proof.
  unfold read_operation. destruct (get_operation doc name) as [o|e] eqn:Eo; simpl.
  2:{ intros [= ->]. apply get_operation_err in Eo as [_ Hx]. by destruct (Hx n). }
  destruct (transform doc o given) as [q|e] eqn:Et; [done|]. intros [= ->].
  apply transform_err, transform_node_err in Et as [(d & _ & Hd)|(vars & Hv & [[Hc _]|(_ & x & Hm & Hf)])].
  - apply var_value_err in Hd as (_ & [(? & _)|(? & ? & _ & _ & ?)]); done.
  - apply collect_frags_err in Hc as [_ Hx]. by destruct (Hx n).
  - exists o, vars. inversion Hf as [e He|? ? ? ? ? ? ? ? ? ? ? ? ? He|? ? ? ? ? He|m ds Hx Hk Hc]; subst.
    + exfalso. assert (forall d, cond_value vars d <> RErr (RCyclic n)) as Hcd.
      { intros d. unfold cond_value. destruct (gd_args d) as [|[k v] [|? ?]]; try done. case_bool_decide; [|done]. by intros (? & ? & _)%visit_value_err. }
      unfold should_skip in He. destruct (find_dir (s "skip") _) as [d|].
      * destruct (cond_value vars d) eqn:E; [done|]. injection He as ->. by apply Hcd in E.
      * destruct (find_dir (s "include") _) as [d|]; [|done]. destruct (cond_value vars d) eqn:E; [done|]. injection He as ->. by apply Hcd in E.
    + exists ds. done.
Qed.

(** ** C28: fragments *)
Lemma reads_app vars frags l1 l2 r : reads vars frags (l1 ++ l2) r <-> exists r1 r2, reads vars frags l1 r1 /\ reads vars frags l2 r2 /\ r = r1 ++ r2.
Proof.
  split.
  - revert r. induction l1 as [|x l1 IH]; intros r Hr; simpl in Hr; [exists [], r; split; [constructor|done]|].
    inversion Hr as [|? ? ? Hk H1|? ? ? ? ? ? ? Hk Ho H1|? ? ? ? ? ? ? ? ? Hk Ho Hs H1|? ? ? ? ? ? Hk Hf Hs H1|? ? ? ? ? Hk Hs H1]; subst;
      destruct (IH _ H1) as (r1 & r2 & H2 & H3 & ->).
    + exists r1, r2. split; [by apply rd_skip|done].
    + eexists (_ :: r1), r2. split; [by apply rd_field|done].
    + eexists (_ :: r1), r2. split; [by apply rd_link|done].
    + eexists (_ ++ r1), r2. split; [by eapply rd_spread|]. by rewrite app_assoc.
    + eexists (_ ++ r1), r2. split; [by eapply rd_inline|]. by rewrite app_assoc.
  - intros (r1 & r2 & H1 & H2 & ->). induction H1; simpl; [done|..].
    + by apply rd_skip.
    + by apply rd_field.
    + by apply rd_link.
    + rewrite <-app_assoc. by eapply rd_spread.
    + rewrite <-app_assoc. by eapply rd_inline.
Qed.
Lemma skip_nil vars x : sel_dirs x = [] -> skips vars x false.
Proof. unfold skips. by intros ->. Qed.
Lemma skips_dirs vars x y b : skips vars x b -> sel_dirs x = sel_dirs y -> skips vars y b.
Proof. unfold skips. by intros ? <-. Qed.
Lemma skip_dec vars x : skips vars x true \/ skips vars x false \/ exists e, should_skip vars (sel_dirs x) = RErr e.
Proof. unfold skips. destruct (should_skip vars (sel_dirs x)) as [[]|]; eauto. Qed.
Lemma inlined_reads vars frags frags' l l' : inlined frags l l' -> forall r, reads vars frags l r <-> reads vars frags' l' r.
Proof.
  induction 1 as [|a n args ds l l' _ IH|a n args ds sub sub' l l' _ IHs _ IH|n ds sub sub' l l' Hn _ IHs _ IH|n sub sub' l l' Hn _ IHs _ IH
    |ds sub sub' l l' _ IHs _ IH|sub sub' l l' _ IHs _ IH]; intros r.
  - split; inversion 1; constructor.
  - split; inversion 1; subst; (apply rd_skip + apply rd_field); try done; by apply IH.
  - split; inversion 1; subst; (apply rd_skip + apply rd_link); solve [done|by eapply skips_dirs|by apply IH|by apply IHs].
  - split; inversion 1; subst.
    + apply rd_skip; [done|]. by apply IH.
    + replace sub0 with sub in * by congruence. apply rd_inline; [done| |]; [by apply IHs|by apply IH].
    + apply rd_skip; [done|]. by apply IH.
    + eapply rd_spread; [done|exact Hn| |]; [by apply IHs|by apply IH].
  - rewrite reads_app. split.
    + inversion 1; subst; [by pose proof (skip_nil vars (SSpread n []) eq_refl); unfold skips in *; congruence|].
      replace sub0 with sub in * by congruence. eexists _, _. split; [by apply IHs|]. split; [by apply IH|done].
    + intros (r1 & r2 & H1 & H2 & ->). eapply rd_spread; [by apply skip_nil|exact Hn| |]; [by apply IHs|by apply IH].
  - split; inversion 1; subst; (apply rd_skip + apply rd_inline); solve [done|by eapply skips_dirs|by apply IH|by apply IHs].
  - rewrite reads_app. split.
    + inversion 1; subst; [by pose proof (skip_nil vars (SInline [] sub) eq_refl); unfold skips in *; congruence|].
      eexists _, _. split; [by apply IHs|]. split; [by apply IH|done].
    + intros (r1 & r2 & H1 & H2 & ->). apply rd_inline; [by apply skip_nil| |]; [by apply IHs|by apply IH].
Qed.
(** An operation means the same as the one in which fragments are replaced with their contents. *)
Theorem C28_fragments_mean_contents `{Hasher} doc o l' given q :
  good_fragments doc -> inlined (frag_map doc) (od_sels o) l' ->
  let o' := OpDef (od_type o) (od_name o) (od_vars o) l' in
  transform doc o given = ROk q <-> transform [DOp o'] o' given = ROk q.
Proof.
  intros Hg Hi o'. rewrite !transform_ok. setoid_rewrite transform_node_ok. cbn [od_vars od_sels od_type o'].
  assert (good_fragments [DOp o']) as Hg'. { split; [|constructor]. by intros ?%elem_of_list_singleton. }
  split; intros (n & (vars & r & Hv & _ & Hr & Hn) & Hq); exists n; (split; [|done]); exists vars, r; (split; [done|]); (split; [done|]); (split; [|done]);
    by apply (inlined_reads vars _ (frag_map [DOp o']) _ _ Hi).
Qed.
(** Fragments can be replaced if they are defined and not recursive. *)
Theorem C28_can_be_replaced frags l (rank : str -> nat) :
  (forall n, mentions n l -> is_Some (dget n frags)) ->
  (forall n sub m, dget n frags = Some sub -> mentions m sub -> is_Some (dget m frags) /\ rank m < rank n) ->
  exists l', inlined frags l l'.
Proof.
  intros Hl Hf.
  assert (forall k l, (forall n, mentions n l -> is_Some (dget n frags) /\ rank n < k) -> exists l', inlined frags l l') as Hm.
  { clear l Hl. induction k as [|k IHk]; intros l Hl.
    - assert (forall x l, (forall n, ~ mentions n (x :: l)) -> (exists l', inlined frags l l') -> exists l', inlined frags (x :: l) l') as Hx.
      { clear. intros x. induction x as [a n args ds|a n args ds sub IH|n ds|ds sub IH] using sel_ind'; intros l Hn [l' Hl].
        - eexists. by apply il_field.
        - assert (exists sub', inlined frags sub sub') as [sub' ?].
          { assert (forall m, ~ mentions m sub) as Hs. { intros m Hms. apply (Hn m). eapply mt_link; [left|done]. }
            clear -IH Hs. induction IH as [|y sub Hy _ IHs]; [eexists; constructor|]. apply Hy; [done|]. apply IHs.
            intros m Hms. apply (Hs m). inversion Hms; [eapply mt_spread|eapply mt_link|eapply mt_inline]; try (by right); done. }
          eexists. by apply il_link.
        - exfalso. apply (Hn n). eapply mt_spread. left.
        - assert (exists sub', inlined frags sub sub') as [sub' ?].
          { assert (forall m, ~ mentions m sub) as Hs. { intros m Hms. apply (Hn m). eapply mt_inline; [left|done]. }
            clear -IH Hs. induction IH as [|y sub Hy _ IHs]; [eexists; constructor|]. apply Hy; [done|]. apply IHs.
            intros m Hms. apply (Hs m). inversion Hms; [eapply mt_spread|eapply mt_link|eapply mt_inline]; try (by right); done. }
          eexists. by apply il_inline. }
      induction l as [|x l IH]; [eexists; constructor|]. apply Hx; [intros n Hn; destruct (Hl n Hn); lia|]. apply IH.
      intros n Hn. apply Hl. inversion Hn; [eapply mt_spread|eapply mt_link|eapply mt_inline]; try (by right); done.
    - assert (forall x l, (forall n, mentions n (x :: l) -> is_Some (dget n frags) /\ rank n < S k) -> (exists l', inlined frags l l') -> exists l', inlined frags (x :: l) l') as Hx.
      { clear l Hl. intros x. induction x as [a n args ds|a n args ds sub IH|n ds|ds sub IH] using sel_ind'; intros l Hn [l' Hl].
        - eexists. by apply il_field.
        - assert (exists sub', inlined frags sub sub') as [sub' ?].
          { assert (forall m, mentions m sub -> is_Some (dget m frags) /\ rank m < S k) as Hs. { intros m Hms. apply (Hn m). eapply mt_link; [left|done]. }
            clear -IH Hs. induction IH as [|y sub Hy _ IHs]; [eexists; constructor|]. apply Hy; [done|]. apply IHs.
            intros m Hms. apply (Hs m). inversion Hms; [eapply mt_spread|eapply mt_link|eapply mt_inline]; try (by right); done. }
          eexists. by apply il_link.
        - destruct (Hn n) as [[sub Hsub] Hr]; [eapply mt_spread; left|].
          destruct (IHk sub) as [sub' ?]. { intros m Hms. destruct (Hf n sub m Hsub Hms). split; [done|lia]. }
          eexists. by eapply il_spread.
        - assert (exists sub', inlined frags sub sub') as [sub' ?].
          { assert (forall m, mentions m sub -> is_Some (dget m frags) /\ rank m < S k) as Hs. { intros m Hms. apply (Hn m). eapply mt_inline; [left|done]. }
            clear -IH Hs. induction IH as [|y sub Hy _ IHs]; [eexists; constructor|]. apply Hy; [done|]. apply IHs.
            intros m Hms. apply (Hs m). inversion Hms; [eapply mt_spread|eapply mt_link|eapply mt_inline]; try (by right); done. }
          eexists. by apply il_inline. }
      induction l as [|x l IH]; [eexists; constructor|]. apply Hx; [done|]. apply IH.
      intros n Hn. apply Hl. inversion Hn; [eapply mt_spread|eapply mt_link|eapply mt_inline]; try (by right); done. }
  (* a bound for the ranks of the fragments mentioned in [l] *)
  apply (Hm (S (max_list (map rank (map fst frags))))). intros n Hn. split; [by apply Hl|].
  destruct (Hl n Hn) as [sub Hs]. apply Nat.lt_succ_r, max_list_elem_of_le. apply elem_of_list_fmap. exists n. split; [done|].
  apply dget_is_Some. by eexists.
Qed.

(** What a document means in general: the members which its selections ask for, merged; a
    mutation is ordered. *)
Theorem C28_meaning `{Hasher} doc o given q :
  transform doc o given = ROk q <->
  exists vars r, query_variables given (od_vars o) = ROk vars /\ good_fragments doc /\ reads vars (frag_map doc) (od_sels o) r /\
    q = merge [QN r (match od_type o with OMutation => true | _ => false end)].
Proof.
  rewrite transform_ok. setoid_rewrite transform_node_ok. split.
  - intros (n & (vars & r & ? & ? & ? & ->) & ->). by exists vars, r.
  - intros (vars & r & ? & ? & ? & ->). eexists. split; [|done]. by exists vars, r.
Qed.

(** ** C29: conditions *)
Section c29.
  Context (vars : dict str val).
  Lemma absent_find n ds : absent n ds -> find_dir n ds = None.
  Proof.
    intros Ha. unfold find_dir. destruct (List.find _ ds) as [d|] eqn:E; [|done]. apply find_some in E as [Hd Hn].
    apply bool_decide_eq_true_1 in Hn. apply elem_of_list_In in Hd. by destruct (Ha d Hd).
  Qed.
  Lemma condition_find n ds b : condition vars n ds b -> exists d w, find_dir n ds = Some d /\ cond_value vars d = ROk w /\ truthy w = b.
  Proof.
    intros (d & v & w & Hd & Hn & Hu & Ha & Hv & Ht). exists d, w. split; [|split; [|done]].
    - unfold find_dir. destruct (List.find _ ds) as [d'|] eqn:E.
      + apply find_some in E as [Hd' Hn']. apply bool_decide_eq_true_1 in Hn'. apply elem_of_list_In in Hd'. by rewrite (Hu d' Hd' Hn').
      + apply elem_of_list_In in Hd. pose proof (find_none _ _ E d Hd) as Hx. simpl in Hx. by apply bool_decide_eq_false_1 in Hx.
    - unfold cond_value. rewrite Ha. rewrite bool_decide_eq_true_2 by done. by apply visit_value_ok.
  Qed.
  Lemma dropped_skip ds : one_condition ds -> dropped vars ds -> should_skip vars ds = ROk true.
  Proof.
    unfold should_skip. intros Ho [Hd|Hd]; destruct (condition_find _ _ _ Hd) as (d & w & Hf & Hc & Ht).
    - rewrite Hf, Hc. simpl. by rewrite Ht.
    - destruct Ho as [Ha|Ha].
      + rewrite (absent_find _ _ Ha), Hf, Hc. simpl. by rewrite Ht.
      + by rewrite (absent_find _ _ Ha) in Hf.
  Qed.
  Lemma kept_skip ds : kept vars ds -> should_skip vars ds = ROk false.
  Proof.
    intros [[[Ha|[b Hs]] [Hb|[b' Hi]]] Hn]; unfold should_skip.
    - by rewrite (absent_find _ _ Ha), (absent_find _ _ Hb).
    - rewrite (absent_find _ _ Ha). destruct (condition_find _ _ _ Hi) as (d & w & Hf & Hc & Ht). rewrite Hf, Hc. simpl. rewrite Ht.
      destruct b'; [done|]. exfalso. apply Hn. by right.
    - destruct (condition_find _ _ _ Hs) as (d & w & Hf & Hc & Ht). rewrite Hf, Hc. simpl. rewrite Ht.
      destruct b; [|done]. exfalso. apply Hn. by left.
    - destruct (condition_find _ _ _ Hs) as (d & w & Hf & Hc & Ht). rewrite Hf, Hc. simpl. rewrite Ht.
      destruct b; [|done]. exfalso. apply Hn. by left.
  Qed.
  Definition ones (l : list sel) : Prop := forall ds, has_dirs ds l -> one_condition ds.
  Lemma ones_cons x l : ones (x :: l) -> one_condition (sel_dirs x) /\ ones l /\
    (forall a n args ds sub, x = SField a n args ds (Some sub) -> ones sub) /\ (forall ds sub, x = SInline ds sub -> ones sub).
  Proof.
    intros Ho. split; [apply Ho; eapply hd_here; [left|done]|]. split; [|split].
    - intros ds Hd. apply Ho. inversion Hd; [eapply hd_here|eapply hd_link|eapply hd_inline]; try (by right); done.
    - intros a n args ds sub -> ds' Hd. apply Ho. eapply hd_link; [left|done].
    - intros ds sub -> ds' Hd. apply Ho. eapply hd_inline; [left|done].
  Qed.

  Context (frags frags' : dict str (list sel)).
  Hypothesis Hfr : applied_frags vars frags frags'.
  Hypothesis Hof : forall n sub, dget n frags = Some sub -> ones sub.
  Lemma applied_dget n : match dget n frags, dget n frags' with
    | Some sub, Some sub' => applied vars sub sub' | None, None => True | _, _ => False end.
  Proof.
    clear Hof. revert Hfr. generalize frags frags'. induction 1 as [|[m sub] [m' sub'] f f' [H1 H2] Ht IH]; [done|]. simpl in *. subst m'. destruct (decide (n = m)); [done|by apply IH].
  Qed.
  Lemma applied_reads l r : reads vars frags l r -> ones l -> forall l', applied vars l l' -> reads vars frags' l' r.
  Proof.
    induction 1 as [|x l r Hk _ IH|a n args ds l r o Hk Ho _ IH|a n args ds sub l rs r o Hk Ho _ IHs _ IH|n ds sub l rs r Hk Hf _ IHs _ IH|ds sub l rs r Hk _ IHs _ IH];
      intros H1 l' Ha.
    - inversion Ha. constructor.
    - apply ones_cons in H1 as (H1 & H2 & _). unfold skips in Hk.
      inversion Ha as [|? ? ? _ Hd Hl|? ? ? ? ? ? Hkp|? ? ? ? ? ? ? ? Hkp|? ? ? ? Hkp|? ? ? ? ? Hkp]; subst; [by apply IH|..]; apply kept_skip in Hkp; simpl in Hk; congruence.
    - apply ones_cons in H1 as (H1 & H2 & _). inversion Ha as [|? ? ? _ Hd Hl|? ? ? ? ? ? Hkp|? ? ? ? ? ? ? ? Hkp|? ? ? ? Hkp|? ? ? ? ? Hkp]; subst.
      + apply dropped_skip in Hd; [|done]. unfold skips in Hk. congruence.
      + apply rd_field; [by apply skip_nil|done|by apply IH].
    - apply ones_cons in H1 as (H1 & H2 & H3 & _). inversion Ha as [|? ? ? _ Hd Hl|? ? ? ? ? ? Hkp|? ? ? ? ? ? ? ? Hkp|? ? ? ? Hkp|? ? ? ? ? Hkp]; subst.
      + apply dropped_skip in Hd; [|done]. unfold skips in Hk. congruence.
      + apply rd_link; [by apply skip_nil|done| |by apply IH]. apply IHs; [by eapply H3|done].
    - apply ones_cons in H1 as (H1 & H2 & _). inversion Ha as [|? ? ? _ Hd Hl|? ? ? ? ? ? Hkp|? ? ? ? ? ? ? ? Hkp|? ? ? ? Hkp|? ? ? ? ? Hkp]; subst.
      + apply dropped_skip in Hd; [|done]. unfold skips in Hk. congruence.
      + pose proof (applied_dget n) as Hn. rewrite Hf in Hn. destruct (dget n frags') as [sub'|] eqn:E; [|done].
        eapply rd_spread; [by apply skip_nil|exact E| |by apply IH]. apply IHs; [by eapply Hof|done].
    - apply ones_cons in H1 as (H1 & H2 & _ & H3). inversion Ha as [|? ? ? _ Hd Hl|? ? ? ? ? ? Hkp|? ? ? ? ? ? ? ? Hkp|? ? ? ? Hkp|? ? ? ? ? Hkp]; subst.
      + apply dropped_skip in Hd; [|done]. unfold skips in Hk. congruence.
      + apply rd_inline; [by apply skip_nil| |by apply IH]. apply IHs; [by eapply H3|done].
  Qed.
  Lemma reads_applied l' r : reads vars frags' l' r -> forall l, applied vars l l' -> ones l -> reads vars frags l r.
  Proof.
    induction 1 as [|x l' r Hk _ IH|a n args ds l' r o Hk Ho _ IH|a n args ds sub l' rs r o Hk Ho _ IHs _ IH|n ds sub l' rs r Hk Hf _ IHs _ IH|ds sub l' rs r Hk _ IHs _ IH];
      intros l Ha H1; revert H1.
    - remember (@nil sel) as l' eqn:El. induction Ha; try done; intros H1; [constructor|]. apply ones_cons in H1 as (H1 & H2 & _).
      apply rd_skip; [by apply dropped_skip|by auto].
    - exfalso. assert (skips vars x false) as Hx; [|unfold skips in *; congruence].
      clear -Ha. remember (x :: l') as l2 eqn:El. induction Ha; try done; try (injection El as <- <-; by apply skip_nil). by apply IHHa.
    - remember (SField a n args ds None :: l') as l2 eqn:El. induction Ha as [|x l l2 Hw Hd Hl IHl|a' n' args' ds' l l2 Hkp Hl _|a' n' args' ds' sub1 sub' l l2 Hkp Hs _ Hl _|n' ds' l l2 Hkp Hl _|ds' sub1 sub' l l2 Hkp Hs _ Hl _];
        intros H1; try done; apply ones_cons in H1 as (H1 & H2 & _).
      + apply rd_skip; [by apply dropped_skip|by apply IHl].
      + injection El as <- <- <- <- <-. apply rd_field; [by apply kept_skip|done|by apply IH].
    - remember (SField a n args ds (Some sub) :: l') as l2 eqn:El. induction Ha as [|x l l2 Hw Hd Hl IHl|a' n' args' ds' l l2 Hkp Hl _|a' n' args' ds' sub1 sub' l l2 Hkp Hs _ Hl _|n' ds' l l2 Hkp Hl _|ds' sub1 sub' l l2 Hkp Hs _ Hl _];
        intros H1; try done; apply ones_cons in H1 as (H1 & H2 & H3 & _).
      + apply rd_skip; [by apply dropped_skip|by apply IHl].
      + injection El as <- <- <- <- <- <-. apply rd_link; [by apply kept_skip|done| |by apply IH]. apply IHs; [done|by eapply H3].
    - remember (SSpread n ds :: l') as l2 eqn:El. induction Ha as [|x l l2 Hw Hd Hl IHl|a' n' args' ds' l l2 Hkp Hl _|a' n' args' ds' sub1 sub' l l2 Hkp Hs _ Hl _|n' ds' l l2 Hkp Hl _|ds' sub1 sub' l l2 Hkp Hs _ Hl _];
        intros H1; try done; apply ones_cons in H1 as (H1 & H2 & _).
      + apply rd_skip; [by apply dropped_skip|by apply IHl].
      + injection El as -> <- <-. pose proof (applied_dget n) as Hn. rewrite Hf in Hn. destruct (dget n frags) as [sub1|] eqn:E; [|done].
        eapply rd_spread; [by apply kept_skip|exact E| |by apply IH]. apply IHs; [done|by eapply Hof].
    - remember (SInline ds sub :: l') as l2 eqn:El. induction Ha as [|x l l2 Hw Hd Hl IHl|a' n' args' ds' l l2 Hkp Hl _|a' n' args' ds' sub1 sub' l l2 Hkp Hs _ Hl _|n' ds' l l2 Hkp Hl _|ds' sub1 sub' l l2 Hkp Hs _ Hl _];
        intros H1; try done; apply ones_cons in H1 as (H1 & H2 & _ & H3).
      + apply rd_skip; [by apply dropped_skip|by apply IHl].
      + injection El as <- <- <-. apply rd_inline; [by apply kept_skip| |by apply IH]. apply IHs; [done|by eapply H3].
  Qed.
End c29.
(** C29: reading a document is reading the document without the selections dropped by their
    conditions.  Partial: no selection has both directives; then it is false, see below. *)
Theorem C29_conditions_partial `{Hasher} doc doc' o l' given vars q :
  query_variables given (od_vars o) = ROk vars ->
  good_fragments doc -> good_fragments doc' -> applied_frags vars (frag_map doc) (frag_map doc') -> applied vars (od_sels o) l' ->
  (forall ds, has_dirs ds (od_sels o) \/ (exists n sub, DFrag n sub ∈ doc /\ has_dirs ds sub) -> one_condition ds) ->
  transform doc o given = ROk q <-> transform doc' (OpDef (od_type o) (od_name o) (od_vars o) l') given = ROk q.
Proof.
  intros Hv Hg Hg' Hf Ha Ho. rewrite !transform_ok. setoid_rewrite transform_node_ok. cbn [od_vars od_sels od_type].
  assert (forall n sub, dget n (frag_map doc) = Some sub -> ones sub) as Hof.
  { intros n sub Hn ds Hd. apply Ho. right. exists n, sub. split; [|done]. apply dget_Some_elem in Hn. clear -Hn. unfold frag_map in Hn.
    apply elem_of_list_In, in_flat_map in Hn as ([|m sub'|] & H1 & H2); [by destruct H2| |by destruct H2].
    apply elem_of_list_In in H1. destruct H2 as [[= -> ->]|[]]. done. }
  assert (ones (od_sels o)) as Hol. { intros ds Hd. apply Ho. by left. }
  split; intros (n & (vars' & r & Hv' & _ & Hr & Hn) & Hq); rewrite Hv in Hv'; injection Hv' as <-; exists n; (split; [|done]);
    exists vars, r; (split; [done|]); (split; [done|]); (split; [|done]).
  - by eapply applied_reads.
  - by eapply reads_applied.
Qed.

(** ** C30: variables *)
Lemma var_value_ok given d v : var_value given d = ROk v <-> has_value given d v.
Proof.
  unfold var_value, has_value. destruct (dget (vd_name d) given); [naive_solver|]. destruct (vd_default d); [apply visit_value_ok|].
  destruct (vd_nonnull d); naive_solver.
Qed.
(** Every declared variable has the value given, or its default, or null; no others exist. *)
Theorem C30_values given ds vars : NoDup (map vd_name ds) -> query_variables given ds = ROk vars ->
  (forall d, d ∈ ds -> exists v, dget (vd_name d) vars = Some v /\ has_value given d v) /\
  (forall n, n ∉ map vd_name ds -> dget n vars = None).
Proof.
  unfold query_variables. intros Hnd. destruct (rmap _ ds) as [ps|] eqn:Er; [|done]. simpl. intros [= <-]. apply rmap_ok in Er.
  assert (map fst ps = map vd_name ds) as Hk.
  { clear Hnd. induction Er as [|d p l ps' Hd _ IH]; [done|]. simpl. rewrite IH. destruct (var_value given d); [|done]. injection Hd as <-. done. }
  rewrite of_pairs_NoDup by (unfold dkeys; by rewrite Hk). split.
  - intros d Hd. apply elem_of_list_lookup in Hd as [i Hi]. destruct (Forall2_lookup_l _ _ _ _ _ Er Hi) as (p & Hp & He).
    destruct (var_value given d) as [v|] eqn:Ev; [|done]. injection He as <-. exists v. split; [|by apply var_value_ok].
    apply dget_NoDup; [unfold dkeys; by rewrite Hk|]. by eapply elem_of_list_lookup_2.
  - intros n Hn. apply dget_None. unfold dkeys. by rewrite Hk.
Qed.
(** A variable which must have a value and has neither one given nor a default is refused with
    [TypeError]; nothing else is refused, as defaults are constants. *)
Theorem C30_missing given ds :
  (forall d c n, d ∈ ds -> vd_default d = Some c -> ~ uses_var n c) ->
  (exists d, d ∈ ds /\ dget (vd_name d) given = None /\ vd_default d = None /\ vd_nonnull d = true) <->
  exists e, query_variables given ds = RErr e /\ exn_of e = TypeError.
Proof.
  intros Hc. split.
  - intros (d & Hd & Hg & Hdf & Hn). unfold query_variables. destruct (rmap _ ds) as [ps|e] eqn:Er; simpl.
    + destruct (rmap_total _ _ _ d Er Hd) as [y Hy]. unfold var_value in Hy. by rewrite Hg, Hdf, Hn in Hy.
    + exists e. split; [done|]. apply rmap_err in Er as (d' & Hd' & Er). destruct (var_value given d') as [|e'] eqn:Ev; [done|].
      injection Er as ->. apply var_value_err in Ev as (_ & [(-> & _)|(c & n & H1 & H2 & _)]); [done|]. exfalso. by eapply Hc.
  - intros (e & He & _). apply query_variables_err in He as (d & Hd & He). exists d. split; [done|].
    apply var_value_err in He as (Hg & [(-> & ? & ?)|(c & n & H1 & H2 & _)]); [done|]. exfalso. by eapply Hc.
Qed.
(** A value which uses an undeclared variable is refused with [TypeError], any other denotes
    what it says. *)
Theorem C30_use vars v :
  ((exists w, visit_value vars v = ROk w /\ denotes vars v w) /\ forall n, uses_var n v -> is_Some (dget n vars)) \/
  (exists e n, visit_value vars v = RErr e /\ exn_of e = TypeError /\ uses_var n v /\ dget n vars = None).
Proof.
  destruct (visit_value vars v) as [w|e] eqn:Ev.
  - apply visit_value_ok in Ev. left. split; [eauto|]. intros n Hn. by eapply denotes_declared.
  - right. apply visit_value_err in Ev as (n & -> & ? & ?). by exists (RUndefVar n), n.
Qed.
(** A document is refused if an argument it reads uses an undeclared variable. *)
Theorem C30_undeclared_refused `{Hasher} doc o given vars alias n args ds sub k v y :
  query_variables given (od_vars o) = ROk vars ->
  meets vars (frag_map doc) (od_sels o) (SField alias n args ds sub) -> should_skip vars ds = ROk false ->
  (k, v) ∈ args -> uses_var y v -> y ∉ map vd_name (od_vars o) -> NoDup (map vd_name (od_vars o)) ->
  exists e, transform doc o given = RErr e.
Proof.
  intros Hv Hm Hk Hin Hu Hy Hnd. destruct (transform doc o given) as [q|e] eqn:Et; [|eauto]. exfalso.
  apply transform_ok in Et as (nd & Hn & _). apply transform_node_ok in Hn as (vars' & r & Hv' & _ & Hr & _).
  rewrite Hv in Hv'. injection Hv' as <-. eapply reads_no_fault; [exact Hr|exact Hm|]. eapply fl_var; try done.
  by apply (C30_values given (od_vars o) vars Hnd Hv).
Qed.

(** ** C09: the order of mutations *)
Lemma links_last_name q : q_name (links_last_item q) = q_name q. Proof. by destruct q. Qed.
Lemma links_last_key q : result_key (links_last_item q) = result_key q. Proof. by destruct q. Qed.
Lemma links_last_link q : q_is_link (links_last_item q) = q_is_link q. Proof. by destruct q. Qed.
Lemma fields_then_links_map l : fields_then_links (map links_last_item l) = map links_last_item (fields_then_links l).
Proof.
  unfold fields_then_links. rewrite map_app. f_equal; induction l as [|x l IH]; simpl; rewrite ?links_last_link; try done; destruct (q_is_link x); simpl; congruence.
Qed.
(** The members of a mutation are marked to be executed one after another, in this order: first
    all the members without sub-selections, then all the others, each in document order. *)
Theorem C09_order_partial `{Hasher} doc o given q :
  transform doc o given = ROk q -> od_type o = OMutation ->
  exists vars r, query_variables given (od_vars o) = ROk vars /\ reads vars (frag_map doc) (od_sels o) r /\ qordered q = true /\
    (no_collision (fun f => occurs f (QN r true)) -> no_duplicates (QN r true) ->
     map result_key (qfields q) = map result_key (fields_then_links r)).
Proof.
  intros (n & (vars & r & Hv & _ & Hr & ->)%transform_node_ok & ->)%transform_ok Ho. rewrite Ho. exists vars, r. split; [done|]. split; [done|].
  split; [done|]. intros Hc Hd. rewrite merge_no_duplicates by done. unfold links_last. cbn [qfields].
  rewrite fields_then_links_map, map_map. apply map_ext. apply links_last_key.
Qed.

(** ** What does not hold *)
(** C29 in full: with both directives only @skip is looked at; the selection [a] below has
    [@include(if: false)] and is read. *)
Theorem C29_both_directives_refuted `{Hasher} :
  let ds := [GDir (s "skip") [(s "if", GBool false)]; GDir (s "include") [(s "if", GBool false)]] in
  let o := OpDef OQuery None [] [SField None (s "a") [] ds None] in
  dropped [] ds /\ well_directed [] ds /\ applied [] (od_sels o) [] /\
  transform [DOp o] o [] = ROk (QN [QF (s "a") None None] false) /\
  transform [DOp (OpDef OQuery None [] [])] (OpDef OQuery None [] []) [] = ROk (QN [] false).
Proof.
  intros ds o.
  assert (forall b (n m : str), n <> m -> forall d1 d2, gd_name d1 = n -> gd_name d2 = m -> gd_args d1 = [(s "if", GBool b)] ->
    condition [] n [d1; d2] b /\ condition [] n [d2; d1] b) as Hc.
  { intros b n m Hnm d1 d2 H1 H2 H3. split; exists d1, (GBool b), (VBool b).
    all: split; [set_solver|]; split; [done|]; split; [|by repeat constructor].
    all: intros d' Hd Hn; rewrite !elem_of_cons in Hd; destruct Hd as [->|[->|Hd]]; try done; try (by apply elem_of_nil in Hd); congruence. }
  assert (condition [] (s "include") ds false) as Hi
    by (apply (Hc false (s "include") (s "skip") ltac:(done) (GDir (s "include") [(s "if", GBool false)]) (GDir (s "skip") [(s "if", GBool false)])); done).
  assert (condition [] (s "skip") ds false) as Hk
    by (apply (Hc false (s "skip") (s "include") ltac:(done) (GDir (s "skip") [(s "if", GBool false)]) (GDir (s "include") [(s "if", GBool false)])); done).
  assert (dropped [] ds) as Hd by (by right).
  assert (well_directed [] ds) as Hw by (split; right; by exists false).
  split; [done|]. split; [done|]. split; [apply ap_drop; [done|done|constructor]|]. split; reflexivity.
Qed.
(** C09 in full: [mutation { b { x } a }] is executed as [a], then [b]. *)
Theorem C09_document_order_refuted : exists (h : Hasher) doc o r q,
  od_type o = OMutation /\ get_operation doc None = ROk o /\
  reads [] (frag_map doc) (od_sels o) r /\ map result_key r = [s "b"; s "a"] /\
  transform doc o [] = ROk q /\ qordered q = true /\ map result_key (qfields q) = [s "a"; s "b"].
Proof.
  set (o := OpDef OMutation None [] [SField None (s "b") [] [] (Some [SField None (s "x") [] [] None]); SField None (s "a") [] [] None]).
  exists ex_hasher, [DOp o], o, [QL (s "b") [QF (s "x") None None] false None None; QF (s "a") None None],
    (QN [QF (s "a") None None; QL (s "b") [QF (s "x") None None] false None None] true).
  split; [done|]. split; [done|]. split.
  { apply rd_link; [done|by left| |]; (apply rd_field; [done|by left|constructor]). }
  split; [done|]. split; [vm_compute; reflexivity|]. done.
Qed.

(** ** A document meeting the hypotheses:
    [query Q($v: Int = 3, $w: Boolean!, $u: Int) { ...A  x: l(k: [$v]) { a @skip(if: $w) ...B @include(if: $w) } }
     fragment A on T { ...B  c(o: $u) }   fragment B on T { b } ] *)
Definition ex_doc_op : opdef := OpDef OQuery (Some (s "Q"))
  [VarDef (s "v") (Some (GInt 3)) false; VarDef (s "w") None true; VarDef (s "u") None false]
  [SSpread (s "A") [];
   SField (Some (s "x")) (s "l") [(s "k", GList [GVar (s "v")])] []
     (Some [SField None (s "a") [] [GDir (s "skip") [(s "if", GVar (s "w"))]] None;
            SSpread (s "B") [GDir (s "include") [(s "if", GVar (s "w"))]]])].
Definition ex_doc_frags : list gdef :=
  [DFrag (s "A") [SSpread (s "B") []; SField None (s "c") [(s "o", GVar (s "u"))] [] None]; DFrag (s "B") [SField None (s "b") [] [] None]].
Definition ex_doc : list gdef := DOp ex_doc_op :: ex_doc_frags.
Definition ex_given : dict str val := [(s "w", VBool true)].
Definition ex_doc_vars : dict str val := [(s "v", VInt 3); (s "w", VBool true); (s "u", VNone)].
Definition ex_doc_query : qnode :=
  QN [QF (s "b") None None; QF (s "c") (Some [(s "o", VNone)]) None;
      QL (s "l") [QF (s "b") None None] false (Some [(s "k", VList [VInt 3])]) (Some (s "x"))] false.
Example ex_read `{Hasher} : get_operation ex_doc (Some (s "Q")) = ROk ex_doc_op /\ get_operation ex_doc None = ROk ex_doc_op. Proof. done. Qed.
Example ex_read_vars : query_variables ex_given (od_vars ex_doc_op) = ROk ex_doc_vars. Proof. reflexivity. Qed.
Example ex_read_query : @read ex_hasher ex_doc ex_given None = ROk ex_doc_query. Proof. vm_compute. reflexivity. Qed.
Example ex_good_fragments : good_fragments ex_doc.
Proof. split; [set_solver|]. apply (bool_decide_unpack _). vm_compute. exact I. Qed.
(** C28: the document without spreads *)
Example ex_inlined : inlined (frag_map ex_doc) (od_sels ex_doc_op)
  [SField None (s "b") [] [] None; SField None (s "c") [(s "o", GVar (s "u"))] [] None;
   SField (Some (s "x")) (s "l") [(s "k", GList [GVar (s "v")])] []
     (Some [SField None (s "a") [] [GDir (s "skip") [(s "if", GVar (s "w"))]] None;
            SInline [GDir (s "include") [(s "if", GVar (s "w"))]] [SField None (s "b") [] [] None]])].
Proof.
  unfold ex_doc_op. cbn [od_sels].
  apply (il_contents _ _ [SSpread (s "B") []; SField None (s "c") [(s "o", GVar (s "u"))] [] None]
    [SField None (s "b") [] [] None; SField None (s "c") [(s "o", GVar (s "u"))] [] None]); [done| |].
  - apply (il_contents _ _ [SField None (s "b") [] [] None] [SField None (s "b") [] [] None]); repeat constructor.
  - apply il_link; [|constructor]. apply il_field. apply (il_spread _ _ _ [SField None (s "b") [] [] None] [SField None (s "b") [] [] None]); repeat constructor.
Qed.
(** C29: the document with the conditions applied *)
Example ex_applied : applied ex_doc_vars (od_sels ex_doc_op)
  [SSpread (s "A") []; SField (Some (s "x")) (s "l") [(s "k", GList [GVar (s "v")])] [] (Some [SSpread (s "B") []])].
Proof.
  assert (forall (n : str) , condition ex_doc_vars n [GDir n [(s "if", GVar (s "w"))]] true) as Hc.
  { intros n. exists (GDir n [(s "if", GVar (s "w"))]), (GVar (s "w")), (VBool true). split; [left|]. split; [done|]. split; [by intros d' ->%elem_of_list_singleton|].
    split; [done|]. split; [by constructor|done]. }
  assert (forall n m, n <> m -> forall a, absent n [GDir m a]) as Ha. { intros n m Hnm a d ->%elem_of_list_singleton Hd. by apply Hnm. }
  assert (kept ex_doc_vars []) as Hk.
  { split; [split; left; intros d Hd; by apply elem_of_nil in Hd|]. intros [(d & ? & ? & Hd & _)|(d & ? & ? & Hd & _)]; by apply elem_of_nil in Hd. }
  unfold ex_doc_op. cbn [od_sels]. apply ap_spread; [done|]. apply ap_link; [done| |constructor].
  apply ap_drop; [|left; apply Hc|].
  - split; [right; eexists; apply Hc|left; by apply Ha].
  - apply ap_spread; [|constructor]. split.
    + split; [left; by apply Ha|right; eexists; apply Hc].
    + intros [(d & v & w & Hd & Hn & _)|(d & v & w & Hd & Hn & _ & Hv & Hw & Ht)]; apply elem_of_list_singleton in Hd; subst d; [done|].
      simpl in Hv. injection Hv as <-. inversion Hw as [? ? Hg| | | | | | | |]; subst. vm_compute in Hg. injection Hg as <-. done.
Qed.
Fixpoint dirs_below (x : sel) : list (list gdir) :=
  sel_dirs x :: match x with SField _ _ _ _ (Some l) | SInline _ l => flat_map dirs_below l | _ => [] end.
Lemma has_dirs_below ds l : has_dirs ds l -> ds ∈ flat_map dirs_below l.
Proof.
  induction 1 as [x l Hx Hd|a m args ds' sub l Hx _ IH|ds' sub l Hx _ IH]; apply elem_of_list_In, in_flat_map.
  - exists x. split; [by apply elem_of_list_In|]. subst ds. destruct x; by left.
  - eexists. split; [by apply elem_of_list_In|]. right. by apply elem_of_list_In.
  - eexists. split; [by apply elem_of_list_In|]. right. by apply elem_of_list_In.
Qed.
Example ex_one_condition ds : has_dirs ds (od_sels ex_doc_op) \/ (exists n sub, DFrag n sub ∈ ex_doc /\ has_dirs ds sub) -> one_condition ds.
Proof.
  assert (forall ds : list gdir, length ds <= 1 -> one_condition ds) as Ho.
  { intros [|x [|? ?]] Hl; simpl in Hl; [left; intros d Hd; by apply elem_of_nil in Hd| |lia].
    destruct (decide (gd_name x = s "skip")) as [e|n]; [right|left]; intros d ->%elem_of_list_singleton; [by rewrite e|done]. }
  intros Hd. apply Ho.
  assert (ds ∈ flat_map (fun d => match d with DOp o => flat_map dirs_below (od_sels o) | DFrag _ l => flat_map dirs_below l | DOther => [] end) ex_doc) as Hin.
  { apply elem_of_list_In, in_flat_map. destruct Hd as [Hd|(n & sub & Hin & Hd)].
    - exists (DOp ex_doc_op). split; [by left|]. by apply elem_of_list_In, has_dirs_below.
    - exists (DFrag n sub). split; [by apply elem_of_list_In|]. by apply elem_of_list_In, has_dirs_below. }
  revert ds Hin Hd. assert (forall l : list (list gdir), forallb (fun ds => length ds <=? 1) l = true -> forall ds, ds ∈ l -> length ds <= 1) as Hb.
  { intros l Hl ds Hin. rewrite forallb_forall in Hl. apply elem_of_list_In in Hin. apply Hl in Hin. by apply Nat.leb_le. }
  intros ds Hin _. revert ds Hin. apply Hb. reflexivity.
Qed.
(** C27: [query { l { ...A } }  fragment A on T { ...B }  fragment B on T { l { ...A } }] *)
Definition ex_cyclic_op : opdef := OpDef OQuery None [] [SField None (s "l") [] [] (Some [SSpread (s "A") []])].
Definition ex_cyclic : list gdef :=
  [DOp ex_cyclic_op; DFrag (s "A") [SSpread (s "B") []]; DFrag (s "B") [SField None (s "l") [] [] (Some [SSpread (s "A") []])]].
Example ex_cyclic_met : meets [] (frag_map ex_cyclic) (od_sels ex_cyclic_op) (SSpread (s "A") []) /\ cyclic [] (frag_map ex_cyclic) (s "A").
Proof.
  assert (enters [] (frag_map ex_cyclic) [SField None (s "l") [] [] (Some [SSpread (s "A") []])] [SSpread (s "A") []]) as He.
  { eexists. split; [left|]. split; [done|constructor]. }
  split.
  - exists [SSpread (s "A") []]. split; [|left]. by apply rtc_once.
  - exists [SSpread (s "B") []], []. split; [done|]. split; [|done]. exists [SSpread (s "A") []]. split; [|left].
    eapply rtc_l; [|by apply rtc_once]. eexists. split; [left|]. split; [done|]. by constructor.
Qed.
Example ex_cyclic_refused : @read ex_hasher ex_cyclic [] None = RErr (RCyclic (s "A")). Proof. reflexivity. Qed.
(** C30: a required variable without a value; an undeclared variable *)
Example ex_missing : query_variables [] (od_vars ex_doc_op) = RErr (RNoVar (s "w")). Proof. reflexivity. Qed.
Example ex_undeclared : visit_value ex_doc_vars (GObj [(s "k", GVar (s "z"))]) = RErr (RUndefVar (s "z")). Proof. reflexivity. Qed.
(** The exceptions for undefined fragments and operations are not [TypeError]s. *)
Example ex_undefined : exn_of (RNoFragment (s "A")) = KeyError /\ exn_of (RUndefOperation (s "A")) = ValueError. Proof. done. Qed.

Print Assumptions C27_terminates.
Print Assumptions C27_cyclic_refused.
Print Assumptions C27_only_cyclic_refused.
Print Assumptions C28_fragments_mean_contents.
Print Assumptions C28_can_be_replaced.
Print Assumptions C28_meaning.
Print Assumptions C29_conditions_partial.
Print Assumptions C29_both_directives_refuted.
Print Assumptions C30_values.
Print Assumptions C30_missing.
Print Assumptions C30_use.
Print Assumptions C30_undeclared_refused.
Print Assumptions C31_named_operation.
Print Assumptions C31_single_operation.
Print Assumptions C09_order_partial.
Print Assumptions C09_document_order_refuted.

(** Fields defined by expressions have the documented meaning of their expressions (C53). *)
From Verif Require Import Base Val Types Query QuerySpec QueryProof Graph Queue QueueSpec Result Engine EngineSpec SubSpec SubPathSpec SubJob PropBound PropSub PropSubExpr ExprRun.
From Verif Require Expr ExprSpec PropExpr PropReqs.

(** ** Reading by name *)
(** Whatever can be read from the first reads the same from the second *)
Inductive psim : pyv -> pyv -> Prop :=
| ps_tree t t' : covers t t' -> psim (PyT t) (PyT t')
| ps_fun f : psim (PyF f) (PyF f)
| ps_list l l' : Forall2 psim l l' -> psim (PyL l) (PyL l')
| ps_dict d d' : Forall2 (fun p p' => p.1 = p'.1 /\ psim p.2 p'.2) d d' -> psim (PyD d) (PyD d').
(** Functions read the members of the objects they are given by name only *)
Definition functions_read_by_name (F : str -> list pyv -> res pyv) : Prop :=
  forall f vs vs' v, Forall2 psim vs vs' -> F f vs = Ok v -> exists v', F f vs' = Ok v' /\ psim v v'.

Ltac dm H E := match type of H with (match ?m with _ => _ end) = _ => destruct m eqn:E end.
Section mono.
  Context (F : str -> list pyv -> res pyv).
  Hypothesis HF : functions_read_by_name F.
  Notation peval := (@Expr.peval (py_dom F)).
  Lemma psim_val v : psim (py_val v) (py_val v).
  Proof. constructor. constructor. Qed.
  Lemma dict_get (d d' : list (str * pyv)) k v : Forall2 (fun p p' => p.1 = p'.1 /\ psim p.2 p'.2) d d' -> dget k d = Some v ->
    exists v', dget k d' = Some v' /\ psim v v'.
  Proof.
    induction 1 as [|[a x] [b y] d d' [Hab Hxy] _ IH]; [done|]. cbn [dget fst snd] in *. subst b. destruct (decide (k = a)); [|by apply IH].
    intros [= ->]. eauto.
  Qed.
  Lemma dict_none (d d' : list (str * pyv)) k : Forall2 (fun p p' => p.1 = p'.1 /\ psim p.2 p'.2) d d' -> dget k d = None -> dget k d' = None.
  Proof.
    induction 1 as [|[a x] [b y] d d' [Hab Hxy] _ IH]; [done|]. cbn [dget fst snd] in *. subst b. by destruct (decide (k = a)).
  Qed.
  Lemma sub_sim v v' k w : psim v v' -> py_sub v k = Ok w -> exists w', py_sub v' k = Ok w' /\ psim w w'.
  Proof.
    intros Hs Hw. destruct Hs as [t t' Hc|f|l l' Hl|d d' Hd]; cbn [py_sub] in *; try discriminate Hw.
    - destruct Hc as [x|d d' Hd|l l' Hl]; [|destruct (dget k d) as [t|] eqn:Et; [|discriminate Hw]|discriminate Hw].
      + destruct x as [x|? ?|?]; try discriminate Hw. destruct (py_getitem x k); [|discriminate Hw]. injection Hw as <-. eexists. split; [done|apply psim_val].
      + destruct (Hd k t Et) as (t' & -> & Hc). destruct Hc as [x|d1 d1' Hd1|l1 l1' Hl1]; cbn in Hw |- *; injection Hw as <-; eexists; (split; [done|]); constructor; by constructor.
    - destruct (dget k d) as [x|] eqn:Ex; [|discriminate Hw]. injection Hw as <-. destruct (dict_get d d' k x Hd Ex) as (y & -> & ?). by exists y.
  Qed.
  Lemma iter_sim v v' l : psim v v' -> py_iter v = Ok l -> exists l', py_iter v' = Ok l' /\ Forall2 psim l l'.
  Proof.
    assert (forall l, Forall2 psim (map py_val l) (map py_val l)) as Hv.
    { intros l0. apply Forall2_fmap, Forall_Forall2_diag, Forall_forall. intros. apply psim_val. }
    intros Hs Hw. destruct Hs as [t t' Hc|f|a a' Hl|d d' Hd]; cbn [py_iter] in *; try discriminate Hw.
    - destruct Hc as [x|d d' Hd|a a' Hl]; [|discriminate Hw|].
      + destruct x as [x|? ?|[|]]; try discriminate Hw.
        * destruct (iter_of x); [|discriminate Hw]. injection Hw as <-. eexists. split; [done|apply Hv].
        * injection Hw as <-. by exists [].
      + injection Hw as <-. eexists. split; [done|]. apply Forall2_fmap. eapply Forall2_impl; [exact Hl|]. intros. by constructor.
    - injection Hw as <-. eexists. split; [done|]. done.
    - injection Hw as <-. eexists. split; [done|]. apply Forall2_fmap. eapply Forall2_impl; [exact Hd|].
      intros [k1 v1] [k2 v2] [Hk _]. cbn in Hk |- *. rewrite Hk. apply psim_val.
  Qed.
  Lemma bool_sim v v' : psim v v' -> py_bool v = py_bool v'.
  Proof.
    intros [t t' Hc|f|l l' Hl|d d' Hd]; cbn; [by destruct Hc|done| |].
    - by rewrite (Forall2_length _ _ _ Hl).
    - by rewrite (Forall2_length _ _ _ Hd).
  Qed.
  Lemma none_sim v v' : psim v v' -> @Expr.d_none (py_dom F) v = @Expr.d_none (py_dom F) v'.
  Proof. intros [t t' Hc|f|l l' Hl|d d' Hd]; cbn; try done. by destruct Hc. Qed.
  Lemma mapR_sim {A} (f g : A -> res pyv) l vs : Forall (fun x => forall v, f x = Ok v -> exists v', g x = Ok v' /\ psim v v') l ->
    mapR f l = Ok vs -> exists vs', mapR g l = Ok vs' /\ Forall2 psim vs vs'.
  Proof.
    intros Hl. revert vs. induction Hl as [|x l Hx _ IH]; intros vs Hm; cbn [mapR] in *; [injection Hm as <-; by exists []|].
    destruct (f x) as [v|] eqn:Ex; [|discriminate Hm]. destruct (Hx v eq_refl) as (v' & -> & Hv). destruct (mapR f l) as [ws|]; [|discriminate Hm]. injection Hm as <-.
    destruct (IH ws eq_refl) as (ws' & -> & Hw). exists (v' :: ws'). split; [done|by constructor].
  Qed.
  Lemma peval_sim p : forall sg sg' v, Forall2 (fun p p' => p.1 = p'.1 /\ psim p.2 p'.2) sg sg' -> peval sg p = Ok v -> exists v', peval sg' p = Ok v' /\ psim v v'.
  Proof.
    revert p. fix IH 1. intros [n|c|o k|c t e|x b t e|x c b|f args|l|l] sg sg' v Hsg Hv; cbn [Expr.peval Expr.D py_dom Expr.d_const Expr.d_sub Expr.d_list Expr.d_dict] in *.
    - destruct (dget n sg) as [w|] eqn:Ew; [|discriminate Hv]. injection Hv as <-. destruct (dict_get sg sg' n w Hsg Ew) as (w' & -> & ?). eauto.
    - injection Hv as <-. eexists. split; [done|]. apply psim_val.
    - destruct (peval sg o) as [w|] eqn:Ew; [|discriminate Hv]. destruct (IH o sg sg' w Hsg Ew) as (w' & -> & Hw). by eapply (sub_sim w).
    - destruct (peval sg c) as [w|] eqn:Ew; [|discriminate Hv]. destruct (IH c sg sg' w Hsg Ew) as (w' & -> & Hw).
      cbn [Expr.d_true py_dom] in *. rewrite <-(bool_sim w w' Hw). destruct (py_bool w); by eapply IH.
    - destruct (dget (s "next") sg) eqn:En; [discriminate Hv|]. rewrite (dict_none sg sg' _ Hsg En).
      destruct (peval sg b) as [w|] eqn:Ew; [|discriminate Hv]. destruct (IH b sg sg' w Hsg Ew) as (w' & -> & Hw).
      rewrite <-(none_sim w w' Hw). destruct (Expr.d_none w); (eapply IH; [|exact Hv]); by constructor.
    - destruct (peval sg c) as [w|] eqn:Ew; [|discriminate Hv]. destruct (IH c sg sg' w Hsg Ew) as (w' & -> & Hw).
      cbn [Expr.d_iter py_dom] in *. destruct (py_iter w) as [l|] eqn:El; [|discriminate Hv]. destruct (iter_sim w w' l Hw El) as (l' & -> & Hl).
      assert (forall l l' vs, Forall2 psim l l' -> mapR (fun u => peval ((x, u) :: sg) b) l = Ok vs ->
        exists vs', mapR (fun u => peval ((x, u) :: sg') b) l' = Ok vs' /\ Forall2 psim vs vs') as Hm.
      { clear -IH Hsg. intros l l' vs Hl. revert vs. induction Hl as [|u u' l l' Hu _ IHl]; intros vs Hm; cbn [mapR] in *; [injection Hm as <-; by exists []|].
        destruct (peval ((x, u) :: sg) b) as [r|] eqn:Er; [|discriminate Hm].
        destruct (IH b ((x, u) :: sg) ((x, u') :: sg') r) as (r' & -> & Hr); [by constructor|done|].
        destruct (mapR _ l) as [rs|]; [|discriminate Hm]. injection Hm as <-. destruct (IHl rs eq_refl) as (rs' & -> & Hrs).
        exists (r' :: rs'). split; [done|by constructor]. }
      cbn [Expr.D py_dom] in Hm. dm Hv Ev; [|discriminate Hv]. injection Hv as <-.
      destruct (Hm l l' _ Hl Ev) as (vs' & -> & Hvs). eexists. split; [done|]. by constructor.
    - destruct (peval sg f) as [w|] eqn:Ew; [|discriminate Hv]. destruct (IH f sg sg' w Hsg Ew) as (w' & -> & Hw).
      dm Hv Ea; [|discriminate Hv]. rename a into vs.
      assert (Forall (fun a => forall v, peval sg a = Ok v -> exists v', peval sg' a = Ok v' /\ psim v v') args) as Hargs.
      { clear -IH Hsg. induction args as [|a args IHa]; constructor; [intros v; by apply IH|done]. }
      destruct (mapR_sim _ _ _ _ Hargs Ea) as (vs' & Hx & Hvs). cbn [Expr.D py_dom] in Hx. rewrite Hx. cbn [Expr.d_call py_dom] in *.
      destruct Hw as [t t' Hc|g|? ? ?|? ? ?]; try discriminate Hv. by eapply HF.
    - dm Hv Ea; [|discriminate Hv]. rename a into vs. injection Hv as <-.
      assert (Forall (fun a => forall v, peval sg a = Ok v -> exists v', peval sg' a = Ok v' /\ psim v v') l) as Hargs.
      { clear -IH Hsg. induction l as [|a args IHa]; constructor; [intros v; by apply IH|done]. }
      destruct (mapR_sim _ _ _ _ Hargs Ea) as (vs' & Hx & Hvs). cbn [Expr.D py_dom] in Hx. rewrite Hx. eexists. split; [done|]. by constructor.
    - assert (forall vs, mapR (fun '(k, q) => match peval sg q with Ok v => Ok (k, v) | Err e => Err e end) l = Ok vs ->
        exists vs', mapR (fun '(k, q) => match peval sg' q with Ok v => Ok (k, v) | Err e => Err e end) l = Ok vs' /\
          Forall2 (fun p p' => p.1 = p'.1 /\ psim p.2 p'.2) vs vs') as Hm.
      { clear -IH Hsg. induction l as [|[k q] l IHl]; intros vs Hm; cbn [mapR] in *; [injection Hm as <-; by exists []|].
        destruct (peval sg q) as [r|] eqn:Er; [|discriminate Hm]. destruct (IH q sg sg' r Hsg Er) as (r' & -> & Hr).
        destruct (mapR _ l) as [rs|]; [|discriminate Hm]. injection Hm as <-. destruct (IHl rs eq_refl) as (rs' & -> & Hrs).
        exists ((k, r') :: rs'). split; [done|by constructor]. }
      cbn [Expr.D py_dom] in Hm. dm Hv Ev; [|discriminate Hv]. injection Hv as <-. destruct (Hm _ eq_refl) as (vs' & -> & Hvs). eexists. split; [done|]. by constructor.
  Qed.
  Lemma val_sim v : forall v' x, psim v v' -> val_of v = Ok x -> val_of v' = Ok x.
  Proof.
    revert v. fix IH 1. intros [t|f|l|d] v' x Hs Hx; inversion Hs as [? t' Hc|?|? l' Hl|? d' Hd]; subst.
    - destruct Hc as [|? ? ?|? ? ?]; [done|discriminate Hx|discriminate Hx].
    - discriminate Hx.
    - cbn [val_of] in *. assert (forall vs, mapR val_of l = Ok vs -> mapR val_of l' = Ok vs) as Hm.
      { clear -IH Hl. revert l' Hl. induction l as [|u l IHl]; intros l' Hl vs Hm; inversion Hl as [|? u' ? l0 Hu Hl0]; subst; [done|].
        cbn [mapR] in *. destruct (val_of u) as [w|] eqn:Ew; [|discriminate Hm]. rewrite (IH u u' w Hu Ew).
        destruct (mapR val_of l) as [ws|]; [|discriminate Hm]. by rewrite (IHl l0 Hl0 ws eq_refl). }
      destruct (mapR val_of l) as [vs|]; [|discriminate Hx]. by rewrite (Hm vs eq_refl).
    - cbn [val_of] in *. set (fn := fun '(k, v) => match val_of v with Ok w => Ok (VStr k, w) | Err e => Err e end) in *.
      assert (forall vs, mapR fn d = Ok vs -> mapR fn d' = Ok vs) as Hm.
      { clear -IH Hd. revert d' Hd. induction d as [|[k u] l IHl]; intros l' Hl vs Hm; inversion Hl as [|? [k' u'] ? l0 [Hk Hu] Hl0]; subst; [done|].
        cbn [mapR fn fst snd] in *. subst k'. destruct (val_of u) as [w|] eqn:Ew; [|discriminate Hm]. rewrite (IH u u' w Hu Ew).
        destruct (mapR fn l) as [ws|]; [|discriminate Hm]. by rewrite (IHl l0 Hl0 ws eq_refl). }
      destruct (mapR fn d) as [vs|]; [|discriminate Hx]. by rewrite (Hm vs eq_refl).
  Qed.
End mono.

(** ** The environment made of compiled expressions *)
Lemma same_no_dict v w : same_val v w -> no_dict v = no_dict w /\ (no_dict v = true -> v = w).
Proof.
  induction 1 as [v|v w _ [IH1 IH2]|u v w _ [IH1 IH2] _ [IH3 IH4]|l1 v w l2 _ [IH1 IH2]|d d' _ _|d1 k v w d2 _ _].
  - done.
  - split; [done|]. intros Hw. symmetry. apply IH2. by rewrite IH1.
  - split; [congruence|]. intros Hu. rewrite (IH2 Hu). apply IH4. by rewrite <-IH1.
  - cbn. rewrite !forallb_app. cbn. rewrite IH1. split; [done|]. intros Hb. apply andb_prop in Hb as [_ Hb]. apply andb_prop in Hb as [Hb _].
    by rewrite IH2 by (by rewrite IH1).
  - done.
  - done.
Qed.
Lemma same_options os os' : Forall2 same_val os os' -> forallb no_dict os = forallb no_dict os' /\ (forallb no_dict os = true -> os = os').
Proof.
  induction 1 as [|v w os os' Hv _ [IH1 IH2]]; [done|]. cbn. destruct (same_no_dict v w Hv) as [H1 H2]. rewrite IH1, H1. split; [done|].
  intros [Hb Hbs]%andb_prop. rewrite H2 by congruence. by rewrite IH2 by congruence.
Qed.
Lemma fn_env_sim fns : psim (fn_env fns) (fn_env fns).
Proof.
  constructor. apply Forall_Forall2_diag, Forall_forall. intros [n v] Hn%elem_of_list_In%in_map_iff. destruct Hn as ([k f] & [= <- <-] & _). split; [done|]. constructor.
Qed.
Lemma zip_sim (ks : list str) vs vs' : Forall2 psim vs vs' -> Forall2 (fun p p' => p.1 = p'.1 /\ psim p.2 p'.2) (zip ks vs) (zip ks vs').
Proof. intros Hv. revert ks. induction Hv as [|v v' vs vs' Hv _ IH]; intros [|k ks]; constructor; [done|apply IH]. Qed.
Lemma run_proc_mono F procs pr t t' r r' os v : functions_read_by_name F -> covers t t' -> covers r r' ->
  run_proc F procs pr t r os = Ok v -> run_proc F procs pr t' r' os = Ok v.
Proof.
  intros HF Ht Hr. unfold run_proc. destruct (procs pr) as [p|]; [|done]. destruct (forallb no_dict os); [|done].
  unfold Expr.call_lambda. cbn [length]. destruct (Nat.eqb _ _); [|done].
  set (vs := fn_env (pc_fns p) :: PyT t :: PyT r :: map py_val os). set (vs' := fn_env (pc_fns p) :: PyT t' :: PyT r' :: map py_val os).
  assert (Forall2 psim vs vs') as Hvs.
  { constructor; [apply fn_env_sim|]. constructor; [by constructor|]. constructor; [by constructor|].
    apply Forall2_fmap, Forall_Forall2_diag, Forall_forall. intros. apply psim_val. }
  intros Hv. dm Hv Ep; [|discriminate Hv]. destruct (peval_sim F HF _ _ _ _ (zip_sim (pc_names p) _ _ Hvs) Ep) as (v' & Hx & Hs).
  cbn [Expr.D py_dom] in *. rewrite Hx. by eapply val_sim.
Qed.
(** The engine, run with compiled expressions, reads what they are given by name only. *)
Theorem C53_compiled_code_reads_by_name E F procs :
  functions_read_by_name F -> e_proc E = run_proc F procs -> reads_by_name E.
Proof.
  intros HF HE. split; rewrite HE.
  - intros. by eapply run_proc_mono.
  - intros pr t r os os' Ho. destruct (same_options _ _ Ho) as [H1 H2]. unfold run_proc. destruct (procs pr); [|done].
    rewrite <-H1. destruct (forallb no_dict os); [|done]. by rewrite (H2 eq_refl).
Qed.

Section value.
  Context `{Hasher} (E : env) (D : data) (g : graph) (F : str -> list pyv -> res pyv) (procs : N -> option proc).
  Hypothesis HF : functions_read_by_name F.
  Hypothesis HE : e_proc E = run_proc F procs.
  Hypothesis Hresp : respects_options D.
  Hypothesis Hserve : serves E D.
  Notation fv := (sub_value E D).
  Notation low := (field_val E D (pred (length (e_sgs E)))).
  (** The meaning of a checked expression over objects [this] and [root], with the values [os] of the options
      [names]; the functions [fns] are called by their names *)
  Definition meaning (fns : list (str * str)) (this root : ptree) (names : list str) (os : list val) (e : Expr.expr) : res val :=
    match @ExprSpec.eval (py_dom F) (fn_env fns) (PyT root) ((Expr.THIS, PyT this) :: zip names (map py_val os)) e with
    | Ok v => val_of v
    | Err x => Err x
    end.
  (** [pr] is the code of the checked expression [e] over the sub-graph [G], with its requirements [rq] and the
      functions and options it was defined with *)
  Definition code_of (G : graph) (node : str) (pr : N) (rq : qnode) (fns : list (str * str)) (names : list str) (e : Expr.expr) : Prop :=
    exists fuel tfns opts e0 code, dkeys opts = names /\ map fst tfns = map fst fns /\
      Expr.bind_field (g_types G) fuel node tfns opts e0 = Ok (e, rq, code) /\ procs pr = Some (Proc fns code.1 code.2).

  Lemma run_proc_meaning G node pr rq fns names e this root os v :
    code_of G node pr rq fns names e -> ExprSpec.hygienic names e -> length names = length os ->
    run_proc F procs pr this root os = Ok v -> meaning fns this root names os e = Ok v.
  Proof.
    intros (fuel & tfns & opts & e0 & [ns p] & <- & _ & Hb & Hp) Hy Hl. unfold run_proc, meaning. rewrite Hp. destruct (forallb no_dict os); [|done]. cbn [pc_names pc_body pc_fns].
    assert (Expr.compile_lambda e (dkeys opts) = Ok (ns, p)) as Hc.
    { unfold Expr.bind_field in Hb. destruct (dget _ (g_types G)) as [t|]; [|done]. destruct t; try done. destruct (Expr.check _ _ _ _) as [e1|]; [|done].
      destruct (Expr.extract _ _); [|done]. destruct (Expr.compile_lambda e1 (dkeys opts)) as [l|] eqn:El; [|done]. injection Hb as <- _ Hb. by rewrite El, Hb. }
    cbn [fst snd]. pose proof (@PropExpr.C37_compiled_code_computes_the_meaning_partial (py_dom F) e (dkeys opts) ns p (fn_env fns) (PyT this) (PyT root) (map py_val os) Hc Hy) as Hm.
    cbn [Expr.D py_dom] in Hm |- *. rewrite Hm; [done|]. by rewrite map_length.
  Qed.

  (** C53: in the result of every execution, the value of a field defined by an expression is the meaning of the
      expression over its object and the root of the sub-graph - over what it requires of them, and the same over
      anything that has more. *)
  Theorem C53_value q q' fuel sched idx q2 t p gn j n nm o a f sg rq pr G node gn' fns e :
    init_options g q = Ok q' -> all_supported E g q' -> all_data E D g q' ->
    execute E fuel g q sched (Ok (idx, q2)) -> denormalize g idx q2 = Ok t ->
    leads g fv D (g_root g) None q' p gn (Some j) n -> QF nm o a ∈ qfields n ->
    find_field gn nm = Some (GF f) -> gf_func f = FChecked sg rq pr -> e_sgs E !! sg = Some (G, node) -> find_node G node = Some gn' ->
    code_of G node pr rq fns (map go_name (gf_opts f)) e -> ExprSpec.hygienic (map go_name (gf_opts f)) e ->
    exists v, vget t (p ++ [PKey (result_key (QF nm o a))]) = Some (TP (PRaw (IVal v))) /\
      meaning fns (tree G low D gn' (Some j) (of_this rq)) (tree G low D (g_root G) None (of_root rq)) (map go_name (gf_opts f)) (given f o) e = Ok v /\
      forall this root, covers (tree G low D gn' (Some j) (of_this rq)) this -> covers (tree G low D (g_root G) None (of_root rq)) root ->
        meaning fns this root (map go_name (gf_opts f)) (given f o) e = Ok v.
  Proof.
    intros Hi Hs Hd He Ht Hl Hq Hf Hfn Hsg Hn Hc Hy. pose proof (C53_compiled_code_reads_by_name E F procs HF HE) as Hreads.
    destruct (C40_value E D g Hresp Hreads Hserve _ _ _ _ _ _ _ _ _ _ _ _ _ _ _ _ _ _ _ _ _ Hi Hs Hd He Ht Hl Hq Hf Hfn Hsg Hn) as (v & Hv & Hx).
    unfold expr_result in Hv. exists v. split; [done|].
    assert (length (map go_name (gf_opts f)) = length (given f o)) as Hlen by (unfold given; by rewrite !map_length).
    split.
    - rewrite HE in Hv. by eapply run_proc_meaning.
    - intros this root Hct Hcr. apply (proj1 Hreads) with (t' := this) (r' := root) in Hv; [|done|done]. rewrite HE in Hv. by eapply run_proc_meaning.
  Qed.
End value.

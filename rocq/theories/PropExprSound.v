(** Graphs whose fields are defined by checked expressions are sound, and give the meaning of the expressions (C53). *)
From Verif Require Import Base Val Types Query QuerySpec QueryProof Graph Queue QueueSpec Result Engine EngineSpec CostSpec SubSpec SubPathSpec SubJob PropOptions Validate ValidateSpec PropValidate PropValExec PropTrace PropBound EngineSubRun PropSub PropSubExpr PropSubWf PropSubVal ExprBindSpec ExprRun PropExprRun PropExprBind SubWfSpec.
From Verif Require Expr ExprSpec.

(** ** Errors of compiled code *)
Section nofuel.
  Context (F : str -> list pyv -> res pyv).
  Hypothesis HF : forall f vs, F f vs <> Err OutOfFuel.
  Notation peval := (@Expr.peval (py_dom F)).
  Lemma mapR_no_fuel {A B} (f : A -> res B) l : Forall (fun x => f x <> Err OutOfFuel) l -> mapR f l <> Err OutOfFuel.
  Proof.
    induction 1 as [|x l Hx _ IH]; cbn [mapR]; [done|]. destruct (f x) as [v|e]; [|congruence]. destruct (mapR f l) as [vs|e]; [done|congruence].
  Qed.
  Lemma sub_no_fuel v k : py_sub v k <> Err OutOfFuel.
  Proof.
    destruct v as [t|f|l|d]; cbn [py_sub]; try done.
    - destruct t as [v|d|l|e]; try done.
      + destruct v as [v| |]; try done. unfold py_getitem, from_opt. destruct v; try done; by destruct (dget _ _).
      + destruct (dget k d) as [[v|d1|l|e]|]; try done. by destruct e.
    - by destruct (dget k d).
  Qed.
  Lemma iter_no_fuel v : py_iter v <> Err OutOfFuel.
  Proof. destruct v as [[[v| |[|]]|d|l|e]|f|l|d]; cbn [py_iter]; try done. by destruct (iter_of v). Qed.
  Lemma then_no_fuel {A B} (m : res A) (f : A -> res B) : m <> Err OutOfFuel -> (forall v, f v <> Err OutOfFuel) ->
    match m with Ok v => f v | Err e => Err e end <> Err OutOfFuel.
  Proof. destruct m as [v|e]; [auto|congruence]. Qed.
  Lemma peval_no_fuel p : forall sg, peval sg p <> Err OutOfFuel.
  Proof.
    revert p. fix IH 1. intros [n|c|o k|c t e|x b t e|x c b|f args|l|l] sg; cbn [Expr.peval].
    - by case_match.
    - done.
    - apply then_no_fuel; [apply IH|]. intros v. apply sub_no_fuel.
    - apply then_no_fuel; [apply IH|]. intros v. case_match; apply IH.
    - case_match; [done|]. apply then_no_fuel; [apply IH|]. intros v. case_match; apply IH.
    - apply then_no_fuel; [apply IH|]. intros v. apply then_no_fuel; [apply iter_no_fuel|]. intros l.
      apply then_no_fuel; [|done]. apply mapR_no_fuel, Forall_forall. intros u _. apply IH.
    - apply then_no_fuel; [apply IH|]. intros v. apply then_no_fuel.
      { apply mapR_no_fuel. clear -IH. induction args as [|a args IHa]; constructor; [apply IH|done]. }
      intros vs. cbn [Expr.d_call py_dom]. by destruct v.
    - apply then_no_fuel; [|done].
      apply mapR_no_fuel. clear -IH. induction l as [|a args IHa]; constructor; [apply IH|done].
    - apply then_no_fuel; [|done].
      apply mapR_no_fuel. clear -IH. induction l as [|[k a] args IHa]; constructor; [|done]. apply then_no_fuel; [apply IH|done].
  Qed.
  Lemma val_of_no_fuel v : val_of v <> Err OutOfFuel.
  Proof.
    revert v. fix IH 1. intros [[[v| |[|]]|d|l|e]|f|l|d]; cbn [val_of]; try done.
    - match goal with |- match ?m with _ => _ end <> _ => assert (m <> Err OutOfFuel) as Hm; [|destruct m; [done|congruence]] end.
      apply mapR_no_fuel. clear -IH. induction l as [|a args IHa]; constructor; [apply IH|done].
    - match goal with |- match ?m with _ => _ end <> _ => assert (m <> Err OutOfFuel) as Hm; [|destruct m; [done|congruence]] end.
      apply mapR_no_fuel. clear -IH. induction d as [|[k a] args IHa]; constructor; [|done]. pose proof (IH a). destruct (val_of a); [done|congruence].
  Qed.
  Lemma run_proc_no_fuel procs pr this root os : run_proc F procs pr this root os <> Err OutOfFuel.
  Proof.
    unfold run_proc. destruct (procs pr) as [p|]; [|done]. destruct (forallb no_dict os); [|done]. unfold Expr.call_lambda. destruct (Nat.eqb _ _); [|done].
    match goal with |- match ?m with _ => _ end <> _ => assert (m <> Err OutOfFuel) as Hm by apply peval_no_fuel; destruct m as [v|e]; [apply val_of_no_fuel|congruence] end.
  Qed.
End nofuel.

Section sound.
  Context `{Hasher} (E : env) (D : data) (F : str -> list pyv -> res pyv) (procs : N -> option proc) (parts : gfield -> bool).
  (** The field [f] was defined by the expression [e0] over the sub-graph [G'] at [node]: it uses [this]; names of functions
      are used for calls only; no option is named [this]; the names of variables do not clash (see C37) *)
  Definition defined_by (f : gfield) (G' : graph) (node : str) (rq : qnode) (pr : N) : Prop :=
    exists fuel tfns opts e0 e code fns,
      Expr.bind_field (g_types G') fuel node tfns opts e0 = Ok (e, rq, code) /\ procs pr = Some (Proc fns code.1 code.2) /\
      map fst tfns = map fst fns /\ dkeys opts = map go_name (gf_opts f) /\
      (forall n, n ∈ values e0 -> n ∉ dkeys tfns) /\ THIS ∈ values e0 /\ THIS ∉ dkeys opts /\
      (forall n t, (n, t) ∈ tfns \/ (n, t) ∈ opts -> params_ok t = true) /\
      ExprSpec.hygienic (map go_name (gf_opts f)) e.
  (** A graph whose expressions were all defined in this way *)
  Record bound_graph (g : graph) : Prop := {
    bg_names : forall gn name it, node_of g gn -> find_field gn name = Some it -> 91%N ∉ name;
    bg_root : find_node g (s "__root__") = None;
    bg_links : forall gn name l, node_of g gn -> find_field gn name = Some (GL l) ->
      is_Some (find_node g (gl_node l)) /\
      forall r, gl_requires l = Some r -> r <> [] /\ exists f, find_field gn r = Some (GF f) /\ (is_expr f -> gf_opts f = []);
    bg_exprs : forall gn name f sg rq pr, node_of g gn -> find_field gn name = Some (GF f) -> gf_func f = FChecked sg rq pr ->
      is_Some (gn_name gn) /\ exists G' node gn', e_sgs E !! sg = Some (G', node) /\ find_node G' node = Some gn' /\ defined_by f G' node rq pr;
  }.
  Record bound_subs : Prop := {
    bs_nested : nested (e_sgs E);
    bs_graphs : forall sg G node, e_sgs E !! sg = Some (G, node) -> bound_graph G /\ sub_ok parts G /\ find_field (g_root G) THIS = None;
  }.
  (** C53: such graphs are sound: nothing is required which is not there. *)
  Theorem C53_bound_graph_sound g : bound_subs -> bound_graph g -> wf_graph E parts g.
  Proof.
    intros Hs Hg. split; [apply Hg|apply Hg|apply Hg|].
    intros gn name f sg rq pr Hn Hf Hfn. destruct (bg_exprs g Hg gn name f sg rq pr Hn Hf Hfn) as (Hnm & G' & node & gn' & Hsg & Hn' & Hd).
    destruct Hd as (fuel & tfns & opts & e0 & e & code & fns & Hb & _ & _ & _ & H1 & H2 & H3 & H4 & _).
    destruct (bs_graphs Hs _ _ _ Hsg) as (_ & Hok & _). split; [done|].
    destruct (C53_requirements_fit parts G' Hok fuel node gn' tfns opts e0 e rq code Hn' Hb H1 H2 H3 H4) as (R1 & R2 & R3 & R4).
    split; [done|]. split; [done|]. exists G', node, gn'. done.
  Qed.
  Theorem C53_bound_subs_sound : bound_subs -> wf_env E parts.
  Proof.
    intros Hs. split; [apply Hs|]. intros sg G node Hsg. destruct (bs_graphs Hs _ _ _ Hsg) as (Hg & _ & Ht). split; [by apply C53_bound_graph_sound|done].
  Qed.

  Lemma leads_node_of g fv gn i n p gn' j n' : leads g fv D gn i n p gn' j n' -> node_of g gn -> node_of g gn'.
  Proof.
    induction 1 as [gn i n|gn i n nm sub ord o a l gn1 p gn' j n' Hq Hf Hn He Hne Hl IH|gn i n nm sub ord o a l gn1 m k p gn' j n' Hq Hf Hn He Hk Hl IH]; intros Hg; [done| |];
      apply IH; right; by exists (gl_node l).
  Qed.
  (** What the data has to be: links lead where their types say, and what the query asks of the expressions is defined *)
  Record asked_data (g : graph) (q : qnode) : Prop := {
    ad_links : forall gn name l a o, node_of g gn -> find_field gn name = Some (GL l) ->
      match gl_enum l with
      | Maybe => True
      | One => d_link D (gl_func l) a o <> VNothing
      | Many => is_Some (seq_of (d_link D (gl_func l) a o))
      end;
    ad_exprs : forall gn it f sg rq pr G node gn' j, asked g q gn it -> find_field gn (q_name it) = Some (GF f) ->
      gf_func f = FChecked sg rq pr -> e_sgs E !! sg = Some (G, node) -> find_node G node = Some gn' ->
      exists v, expr_result E D (field_val E D (pred (length (e_sgs E)))) G gn' rq pr j (given f (q_opts it)) = Ok v;
  }.
  Lemma asked_all_data g q : wf_env E parts -> wf_graph E parts g -> asks_ok g q -> asked_data g q -> env_data_ok E D -> all_data E D g q.
  Proof.
    intros Henv Hwf Hask Had Hed J Hr. destruct (reached_ok E parts Henv g q Hwf J Hr) as (Hw & Hlv & HJ).
    pose proof (C04_sound_graph E parts Henv g q Hwf Hask J Hr) as Hs.
    destruct HJ as [->|[Hg _]].
    - split.
      + intros gn n i it l Hv Hq Hf. eapply ad_links; [exact Had|by apply (top_visited E g q gn n)|done].
      + intros gn it f sg rq pr G' node gn' j (n & Hv & Hq) Hf Hfn Hsg Hn'. eapply ad_exprs; [exact Had| |exact Hf|exact Hfn|exact Hsg|exact Hn'].
        exists n. split; [by apply (top_visited E g q gn n)|done].
    - assert (data_ok E D (j_graph J)) as Hd.
      { destruct Hg as [(sg & node & Hsg) _ _ _]. by eapply Hed. }
      split.
      + intros gn n i it l Hv Hq Hf. eapply dk_links; [exact Hd|by apply (good_visited E parts J gn n)|done].
      + intros gn it f sg rq pr G' node gn' j Ha Hf Hfn Hsg Hn'.
        destruct Ha as (n & Hv & Hq). eapply dk_exprs; [exact Hd|by apply (good_visited E parts J gn n)|exact Hf|exact Hfn|exact Hsg|exact Hn'|].
        assert (field_ok J gn f it) as Hok.
        { eapply asked_field_ok; [exact Hs| |exact Hf]. exists n. auto. }
        unfold field_ok in Hok. rewrite Hfn in Hok. apply Hok.
  Qed.
  (** C53: every execution of a valid query over such a graph gives, wherever a field defined by an expression is
      asked, the meaning of the expression over the objects of the sub-graph as described by the data. *)
  Theorem C53_valid_query g q k :
    functions_read_by_name F -> (forall f vs, F f vs <> Err OutOfFuel) -> e_proc E = run_proc F procs ->
    (forall n c, e_oracle E n c <> Raise OutOfFuel) ->
    bound_subs -> bound_graph g -> distinct_options g ->
    validate k g q = Ok [] -> (forall q0, q0 ∈ qfields q -> options_proper q0) -> unchecked_query g q ->
    serves E D -> respects_options D -> env_data_ok E D ->
    exists q', init_options g q = Ok q' /\
      (asked_data g q' -> (forall gn, no_collision (asked g q' gn)) ->
       forall fuel sched r, max_work E g q' < fuel -> execute E fuel g q sched r ->
         exists idx, r = Ok (idx, q') /\
           ((forall q0, q0 ∈ qfields q' -> only_links_nested g (g_root g) q0) -> exists t, denormalize g idx q' = Ok t) /\
           forall t, denormalize g idx q' = Ok t ->
           forall p gn j n nm o a f sg rq pr,
             leads g (sub_value E D) D (g_root g) None q' p gn (Some j) n -> QF nm o a ∈ qfields n ->
             find_field gn nm = Some (GF f) -> gf_func f = FChecked sg rq pr ->
             exists G node gn' fns e v, e_sgs E !! sg = Some (G, node) /\ find_node G node = Some gn' /\
               code_of procs G node pr rq fns (map go_name (gf_opts f)) e /\
               vget t (p ++ [PKey (result_key (QF nm o a))]) = Some (TP (PRaw (IVal v))) /\
               forall this root, covers (tree G (field_val E D (pred (length (e_sgs E)))) D gn' (Some j) (of_this rq)) this ->
                 covers (tree G (field_val E D (pred (length (e_sgs E)))) D (g_root G) None (of_root rq)) root ->
                 meaning F fns this root (map go_name (gf_opts f)) (given f o) e = Ok v).
  Proof.
    intros HF HFe HE Horc Hs Hg Hdo Hval Hprop Hunch Hserve Hresp Hed.
    pose proof (C53_bound_subs_sound Hs) as Hwe. pose proof (C53_bound_graph_sound g Hs Hg) as Hwg.
    pose proof (C53_compiled_code_reads_by_name E F procs HF HE) as Hreads.
    assert (no_fuel_exn E) as Hnf by (split; [done|rewrite HE; intros; by apply run_proc_no_fuel]).
    pose proof (C21_accepted_query_fits g k q Hprop Hval) as Hfit.
    destruct (fits_init g q Hfit) as [q' Hi]. exists q'. split; [done|]. intros Had Hc fuel sched r Hfuel He.
    pose proof (fits_asks g q Hdo Hfit q' Hi Hunch Hc) as Ha.
    pose proof (C04_sound_graph E parts Hwe g q' Hwg Ha) as Hsup. pose proof (asked_all_data g q' Hwe Hwg Ha Had Hed) as Hdat.
    destruct (C04_every_execution E D g q q' Hi Hresp Hreads Hserve Hsup Hdat fuel sched r (we_nested _ _ Hwe) Hnf Hfuel He) as (idx & -> & Hden).
    exists idx. split; [done|]. split.
    { intros Hol. rewrite Hden. by eapply C04_result_exists_sub_partial. }
    intros t Ht p gn j n nm o a f sg rq pr Hl Hq Hf Hfn.
    assert (node_of g gn) as Hno by (eapply leads_node_of; [exact Hl|by left]).
    destruct (bg_exprs g Hg gn nm f sg rq pr Hno Hf Hfn) as (_ & G & node & gn' & Hsg & Hn & fuel' & tfns & opts & e0 & e & code & fns & Hb & Hpr & Hfns & Hos & _ & _ & _ & _ & Hyg).
    assert (code_of procs G node pr rq fns (map go_name (gf_opts f)) e) as Hcode by (exists fuel', tfns, opts, e0, code; done).
    destruct (C53_value E D g F procs HF HE Hresp Hserve q q' fuel sched idx q' t p gn j n nm o a f sg rq pr G node gn' fns e
      Hi Hsup Hdat He Ht Hl Hq Hf Hfn Hsg Hn Hcode Hyg) as (v & Hv & _ & Hm).
    exists G, node, gn', fns, e, v. done.
  Qed.
End sound.

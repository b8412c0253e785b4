(** Checked expressions fit their sub-graphs (C53). *)
From Verif Require Import Base Val Types Query QuerySpec QueryProof MergeProof Graph Result PropResult Engine EngineSpec SubSpec SubJob CostSpec SubWfSpec PropSubWf PropIntroGraph ExprBindSpec.
From Verif Require Import Expr.
From Verif Require PropReqs.
From Verif Require Import SubSpec.

Section types.
  Context (types : dict str ty).
  Hypothesis Hren : forall n m, dget n types <> Some (TRef m).
  Notation record_of := (record_of types).

  Lemma get_twice t u : get_type types t = Ok u -> get_type types u = Ok u.
  Proof.
    destruct t; cbn; try (intros [= <-]; done). destruct (dget n types) as [v|] eqn:Ev; [|done]. intros [= <-]. destruct v; try done. by destruct (Hren n n0).
  Qed.
  Lemma record_get t u : get_type types t = Ok u -> record_of t = record_of u.
  Proof.
    destruct t; cbn; try (intros [= <-]; done). destruct (dget n types) as [v|] eqn:Ev; [|done]. intros [= <-]. unfold ExprBindSpec.record_of. rewrite Ev.
    destruct v; try done. by destruct (Hren n n0).
  Qed.
  Lemma record_rec t fs : get_type types t = Ok (TRec fs) -> record_of t = Some fs.
  Proof. intros Ht. by rewrite (record_get _ _ Ht). Qed.
  Lemma record_seq t i : get_type types t = Ok (TSeq i) -> record_of t = match get_type types i with Ok (TRec fs) => Some fs | _ => None end.
  Proof. intros Ht. rewrite (record_get _ _ Ht). unfold ExprBindSpec.record_of. destruct i; try done. cbn. by destruct (dget n types). Qed.
  Lemma record_opt t i u : get_type types t = Ok (TOpt i) -> get_type types i = Ok u -> (forall v, u <> TOpt v) -> record_of t = record_of u.
  Proof.
    intros Ht Hi Hu. rewrite (record_get _ _ Ht). assert (record_of (TOpt i) = record_of (TOpt u)) as ->.
    { destruct i; cbn in Hi; try (injection Hi as <-; done). destruct (dget n types) as [v|] eqn:Ev; [|done]. injection Hi as <-.
      unfold ExprBindSpec.record_of. rewrite Ev. destruct v; try done. by destruct (Hren n n0). }
    apply get_twice in Hi. unfold ExprBindSpec.record_of. destruct u; try done.
    - cbn in Hi. destruct (dget n types) as [v|] eqn:Ev; [|done]. injection Hi as ->. by destruct (Hren n n).
    - by destruct (Hu _ eq_refl).
  Qed.

  (** Items which ask a record for its members *)
  Fixpoint fits_rec (fs : list (str * ty)) (q : qitem) {struct q} : Prop :=
    q_opts q = None /\ q_alias q = None /\
    match dget (q_name q) fs with
    | None => False
    | Some u =>
        match record_of u, q with
        | Some fs', QL _ sub ord _ _ => ord = false /\ foldr (fun q' P => fits_rec fs' q' /\ P) True sub
        | None, QF _ _ _ => True
        | _, _ => False
        end
    end.
  Definition node_fits fs (n : qnode) : Prop := qordered n = false /\ forall q, q ∈ qfields n -> fits_rec fs q.
  Lemma fits_rec_foldr fs sub : foldr (fun q' P => fits_rec fs q' /\ P) True sub <-> forall q, q ∈ sub -> fits_rec fs q.
  Proof.
    induction sub as [|q sub IH]; cbn [foldr]; [split; [intros _ q Hq; by apply not_elem_of_nil in Hq|done]|].
    rewrite IH. setoid_rewrite elem_of_cons. split.
    - intros [H1 H2] q' [->|Hq]; auto.
    - intros Ha. split; [apply Ha; by left|]. intros; apply Ha; by right.
  Qed.
  Lemma fits_link fs n u fs' sub : dget n fs = Some u -> record_of u = Some fs' -> (forall q, q ∈ sub -> fits_rec fs' q) -> fits_rec fs (QL n sub false None None).
  Proof. intros Hn Hu Hs. cbn. rewrite Hn, Hu. split; [done|]. split; [done|]. split; [done|]. by apply fits_rec_foldr. Qed.
  Lemma fits_field fs n u : dget n fs = Some u -> record_of u = None -> fits_rec fs (QF n None None).
  Proof. intros Hn Hu. cbn. by rewrite Hn, Hu. Qed.
  Lemma single_fits fs q : fits_rec fs q -> node_fits fs (QN [q] false).
  Proof. intros Hq. split; [done|]. intros q' ->%elem_of_list_singleton. done. Qed.

  (** *** References *)
  Context (top : list (str * ty)) (V : str -> Prop).
  Inductive grounded : ref -> Prop :=
  | gr_top n t : dget n top = Some t -> V n -> grounded (RNamed RTop n t)
  | gr_named r n fs t : grounded r -> get_type types (ref_to r) = Ok (TRec fs) -> dget n fs = Some t -> grounded (RNamed r n t)
  | gr_item r t : grounded r -> get_type types (ref_to r) = Ok (TSeq t) \/ get_type types (ref_to r) = Ok (TOpt t) -> grounded (RItem r t).
  Definition add_ok (r : ref) (add : option qnode) : Prop :=
    match add with None => True | Some a => qordered a = false /\ exists fs, record_of (ref_to r) = Some fs /\ forall q, q ∈ qfields a -> fits_rec fs q end.

  Definition resolved (t : ty) : res ty :=
    match get_type types t with Ok t' => match t' with TOpt u => get_type types u | _ => Ok t' end | Err e => Err e end.
  Lemma resolved_record t u : resolved t = Ok u ->
    match u with
    | TRec fs => record_of t = Some fs
    | TSeq i => record_of t = match get_type types i with Ok (TRec fs) => Some fs | _ => None end
    | TOpt _ => True
    | _ => record_of t = None
    end.
  Proof.
    unfold resolved. intros Hr. destruct (get_type types t) as [t1|] eqn:E1; [|done]. pose proof (get_twice _ _ E1) as E1'.
    destruct t1; try (injection Hr as <-); try (rewrite (record_get _ _ E1); done); try done.
    - exfalso. cbn in E1'. destruct (dget n types) as [v|] eqn:Ev; [|done]. injection E1' as ->. by apply (Hren n n).
    - destruct u; try done; try (rewrite (record_opt _ _ _ E1 Hr) by done; done).
      + apply get_twice in Hr. exfalso. cbn in Hr. destruct (dget n types) as [v|] eqn:Ev; [|done]. injection Hr as ->. by apply (Hren n n).
      + rewrite (record_opt _ _ _ E1 Hr) by done. by apply record_seq.
    - by apply (record_seq t).
  Qed.
  (** What a reference needs of the one it comes from *)
  Lemma req_named b n t add o : ref_to_req types (RNamed b n t) add = Ok o ->
    (exists fs, record_of t = Some fs /\
      ref_to_req types b (Some (QN [QL n (match add with Some q => qfields q | None => [] end) (match add with Some q => qordered q | None => false end) None None] false)) = Ok o) \/
    (record_of t = None /\ add = None /\ ref_to_req types b (Some (QN [QF n None None] false)) = Ok o).
  Proof.
    intros Ho. cbn [ref_to_req] in Ho. fold (resolved t) in Ho. destruct (resolved t) as [u|] eqn:Er; [|discriminate Ho].
    pose proof (resolved_record _ _ Er) as Hr.
    destruct u as [| | | | | m|u|i|k v|fs|ts]; cbn [is_container] in Ho; try discriminate Ho;
      try (destruct add; [discriminate Ho|]; right; done).
    - destruct (get_type types i) as [u|] eqn:Ei; [|discriminate Ho]. destruct u as [| | | | | m|u|j|k v|fs|ts]; cbn [is_container] in Ho; try discriminate Ho;
        try (destruct add; [discriminate Ho|]; right; done). left. eauto.
    - left. eauto.
  Qed.
  Lemma req_item b t add o : ref_to_req types (RItem b t) add = Ok o ->
    (exists fs, record_of t = Some fs /\ resolved t = Ok (TRec fs) /\ ref_to_req types b add = Ok o) \/
    (record_of t = None /\ add = None /\ ref_to_req types b None = Ok o).
  Proof.
    intros Ho. cbn [ref_to_req] in Ho. fold (resolved t) in Ho. destruct (resolved t) as [u|] eqn:Er; [|discriminate Ho].
    pose proof (resolved_record _ _ Er) as Hr.
    destruct u as [| | | | | m|u|i|k v|fs|ts]; cbn [is_container] in Ho; try discriminate Ho;
      try (destruct add; [discriminate Ho|]; right; done).
    - destruct (get_type types i) as [u|] eqn:Ei; [|discriminate Ho]. by destruct u; destruct add.
    - left. eauto.
  Qed.

  Lemma ref_to_req_fits r : grounded r -> forall add, add_ok r add -> forall o, ref_to_req types r add = Ok o ->
    exists it, o = Some (QN [it] false) /\ fits_rec top it /\ V (q_name it).
  Proof.
    induction 1 as [n t Ht HV|r n fs t Hr IH Hg Ht|r t Hr IH Hg]; intros add Ha o Ho.
    - apply req_named in Ho as [(fs & Hfs & Ho)|(Hn & -> & Ho)]; cbn [ref_to_req] in Ho; injection Ho as <-; eexists; (split; [done|]).
      + split; [|done]. destruct add as [a|]; unfold add_ok in Ha; cbn [ref_to] in Ha.
        * destruct Ha as (-> & fs' & Hfs' & Ha). rewrite Hfs in Hfs'. injection Hfs' as <-. by eapply fits_link.
        * eapply fits_link; [done|done|]. intros q Hq. by apply not_elem_of_nil in Hq.
      + split; [|done]. by eapply fits_field.
    - apply req_named in Ho as [(fs' & Hfs & Ho)|(Hn & -> & Ho)]; (eapply IH; [|exact Ho]); (split; [done|]); exists fs; (split; [by apply record_rec|]);
        intros q ->%elem_of_list_singleton.
      + destruct add as [a|]; unfold add_ok in Ha; cbn [ref_to] in Ha.
        * destruct Ha as (-> & fs2 & Hfs2 & Ha). rewrite Hfs in Hfs2. injection Hfs2 as <-. by eapply fits_link.
        * eapply fits_link; [done|done|]. intros q Hq. by apply not_elem_of_nil in Hq.
      + by eapply fits_field.
    - apply req_item in Ho as [(fs & Hfs & Hres & Ho)|(Hn & -> & Ho)]; [|by eapply (IH None)]. eapply IH; [|exact Ho]. destruct add as [a|]; [|done].
      destruct Ha as (Hord & fs' & Hfs' & Ha). cbn [ref_to] in Hfs'. rewrite Hfs in Hfs'. injection Hfs' as <-. split; [done|]. exists fs. split; [|done].
      unfold resolved in Hres. destruct (get_type types t) as [t1|] eqn:E1; [|done].
      assert (t1 = TRec fs \/ exists u, t1 = TOpt u) as [->|[u ->]] by (destruct t1; try done; [right; eauto|left; congruence]).
      { destruct Hg as [Hg|Hg].
        - rewrite (record_seq _ _ Hg), E1. done.
        - by rewrite (record_opt _ _ _ Hg E1). }
      (* an optional in a sequence, or in an optional: refused *)
      exfalso. destruct Hg as [Hg|Hg].
      + assert (resolved (ref_to r) = Ok (TSeq t)) as Hx by (unfold resolved; by rewrite Hg).
        destruct r as [|b n tr|b tr]; [done| |]; cbn [ref_to] in Hx; cbn [ref_to_req] in Ho; fold (resolved tr) in Ho; rewrite Hx, E1 in Ho; discriminate Ho.
      + assert (resolved (ref_to r) = Ok (TOpt u)) as Hx by (unfold resolved; by rewrite Hg).
        destruct r as [|b n tr|b tr]; [done| |]; cbn [ref_to] in Hx; cbn [ref_to_req] in Ho; fold (resolved tr) in Ho; rewrite Hx in Ho; discriminate Ho.
  Qed.

  (** *** Parameters of functions *)
  Lemma check_head k a u : check_type types k a u = Ok tt -> spelled false true u = true -> exists a1, get_type types a = Ok a1 /\ same_meta a1 u = true.
  Proof.
    destruct k as [|k]; [done|]. cbn [check_type]. intros Hc Hs. destruct (get_type types a) as [a1|]; [|discriminate Hc].
    destruct u; try discriminate Hs; cbn [get_type] in Hc; exists a1; (split; [done|]); destruct (same_meta a1 _); try done; discriminate Hc.
  Qed.
  Lemma spelled_weak o q t : spelled false false t = true -> spelled o q t = true.
  Proof. by destruct t. Qed.
  Lemma params_fit k : forall w t o q, check_type types k w t = Ok tt -> spelled o q t = true ->
    match record_of w with
    | Some fs => exists n, type_to_query t = Some n /\ node_fits fs n
    | None => type_to_query t = None
    end.
  Proof.
    induction k as [|k IH]; intros w t o q Hc Hs; [discriminate Hc|]. cbn [check_type] in Hc.
    destruct (get_type types w) as [w1|] eqn:Ew; [|discriminate Hc].
    destruct t as [| | | | | m|u|u|k1 v1|f2|ts]; try discriminate Hs; cbn [get_type] in Hc.
    - destruct w1; try discriminate Hc. by rewrite (record_get _ _ Ew).
    - destruct w1; try discriminate Hc. by rewrite (record_get _ _ Ew).
    - destruct w1; try discriminate Hc. by rewrite (record_get _ _ Ew).
    - destruct w1; try discriminate Hc. by rewrite (record_get _ _ Ew).
    - cbn [spelled] in Hs. apply andb_prop in Hs as [_ Hs]. destruct (same_meta w1 (TOpt u)) eqn:Em.
      + destruct w1 as [| | | | | m|a|a|k1 v1|f1|ts]; try discriminate Em. cbn [type_to_query].
        destruct (check_head k a u Hc Hs) as (a1 & Ha & Hm). rewrite (record_opt _ _ _ Ew Ha); [|intros v ->; by destruct u].
        rewrite <-(record_get _ _ Ha). by apply (IH a u false true).
      + cbn [type_to_query]. rewrite (record_get _ _ Ew). by apply (IH w1 u false true).
    - cbn [spelled] in Hs. apply andb_prop in Hs as [_ Hs]. destruct w1 as [| | | | | m|a|a|k1 v1|f1|ts]; try discriminate Hc. cbn [same_meta type_to_query] in *.
      destruct (check_head k a u Hc (spelled_weak _ _ _ Hs)) as (a1 & Ha & Hm). rewrite (record_seq _ _ Ew), Ha.
      pose proof (IH a u _ _ Hc Hs) as Hi. destruct u; try discriminate Hs; destruct a1; try discriminate Hm; try done.
      by rewrite (record_get _ _ Ha) in Hi.
    - destruct w1 as [| | | | | m|a|a|k1 v1|f1|ts]; try discriminate Hc. cbn [same_meta] in Hc. rewrite (record_rec _ _ Ew).
      cbn [type_to_query spelled] in *. eexists. split; [done|]. split; [done|]. cbn [qfields]. revert Hc Hs. induction f2 as [|[n tf] f2 IHf]; intros Hc Hs it Hit; [by apply not_elem_of_nil in Hit|].
      cbn [map] in Hit. apply andb_prop in Hs as [Hs Hs2]. cbn [snd] in Hs. destruct (dget n f1) as [v1|] eqn:Ev; [|discriminate Hc].
      destruct (get_type types v1) as [w1|] eqn:Ew1; [|discriminate Hc]. destruct (check_type types k w1 tf) as [[]|] eqn:Ec; [|discriminate Hc].
      apply elem_of_cons in Hit as [->|Hit]; [|by apply IHf].
      pose proof (IH w1 tf _ _ Ec Hs) as Hi. rewrite <-(record_get _ _ Ew1) in Hi. destruct (record_of v1) as [fs'|] eqn:Er.
      + destruct Hi as (m & -> & Ho & Hm). destruct m as [ms mo]. cbn [qfields qordered] in *. subst mo. by eapply fits_link.
      + rewrite Hi. by eapply fits_field.
  Qed.

  (** *** Checked expressions *)
  Lemma flat_in (f : expr -> list str) (l : list expr) e n : e ∈ l -> n ∈ f e -> n ∈ flat_map f l.
  Proof. intros He Hn. apply elem_of_list_In, in_flat_map. exists e. split; by apply elem_of_list_In. Qed.
  Context (fuel : nat).
  Definition scope_ok (env : dict str ref) (e : expr) : Prop := forall n r, n ∈ values e -> dget n env = Some r -> grounded r.
  Lemma checked_ref e : forall env e' r, scope_ok env e -> check types fuel env e = Ok e' -> ref_of e' = Some r -> grounded r.
  Proof.
    induction e as [v|n r|o n r IH|x rx col body _ _|x rx b th el _ _ _|n r l _|l _|l _] using expr_ind'; intros env e' r0 Hs Hc Hr; cbn [check] in Hc.
    - by injection Hc as <-.
    - destruct (dget n env) as [r1|] eqn:En; [|discriminate Hc]. injection Hc as <-. injection Hr as <-. apply (Hs n); [left|done].
    - destruct (check types fuel env o) as [o'|] eqn:Eo; [|discriminate Hc]. unfold need_ref in Hc. destruct (ref_of o') as [r1|] eqn:Er; [|discriminate Hc].
      destruct (get_type types (ref_to r1)) as [t|] eqn:Et; [|discriminate Hc]. destruct (check_type types fuel t _) as [ok|]; [|discriminate Hc].
      destruct t as [| | | | | | | | |fs|]; try discriminate Hc. destruct (dget n fs) as [u|] eqn:Eu; [|discriminate Hc]. injection Hc as <-. injection Hr as <-.
      eapply gr_named; [|exact Et|exact Eu]. by eapply IH.
    - exfalso. repeat (case_match; try discriminate Hc); injection Hc as <-; done.
    - exfalso. repeat (case_match; try discriminate Hc); injection Hc as <-; done.
    - exfalso. repeat (case_match; try discriminate Hc); injection Hc as <-; done.
    - exfalso. repeat (case_match; try discriminate Hc); injection Hc as <-; done.
    - exfalso. repeat (case_match; try discriminate Hc); injection Hc as <-; done.
  Qed.

  Hypothesis Htypes : forall n t, dget n types = Some t -> params_ok t = true.
  Hypothesis Htop : forall n t, dget n top = Some t -> params_ok t = true.
  Lemma params_get t u : get_type types t = Ok u -> params_ok t = true -> params_ok u = true.
  Proof. destruct t; cbn [get_type]; try (intros [= <-]; done). destruct (dget n types) as [v|] eqn:Ev; [|done]. intros [= <-] _. by eapply Htypes. Qed.
  Lemma params_field fs n t : params_ok (TRec fs) = true -> dget n fs = Some t -> params_ok t = true.
  Proof. cbn [params_ok]. rewrite forallb_forall. intros Ha Hd. apply dget_Some_elem, elem_of_list_In in Hd. by apply (Ha (n, t)). Qed.
  Lemma grounded_params r : grounded r -> params_ok (ref_to r) = true.
  Proof.
    induction 1 as [n t Ht HV|r n fs t Hr IH Hg Ht|r t Hr IH [Hg|Hg]]; cbn [ref_to].
    - by eapply Htop.
    - eapply params_field; [|exact Ht]. by eapply params_get.
    - by apply (params_get _ _ Hg).
    - by apply (params_get _ _ Hg).
  Qed.
  Lemma no_record_query t : has_record t = false -> type_to_query t = None.
  Proof. induction t using ty_ind'; cbn; try done. Qed.

  Definition env_ok (env : dict str ref) : Prop := forall n r, dget n env = Some r -> params_ok (ref_to r) = true.
  Definition fit_all (l : list qnode) : Prop := forall n, n ∈ l -> node_fits top n /\ forall it, it ∈ qfields n -> V (q_name it).
  Lemma fit_app a b : fit_all a -> fit_all b -> fit_all (a ++ b).
  Proof. intros Ha Hb n [Hn|Hn]%elem_of_app; auto. Qed.
  Lemma fit_nil : fit_all [].
  Proof. intros n Hn. by apply not_elem_of_nil in Hn. Qed.
  Lemma own_fit r l : grounded r -> own_req types (Some r) = Ok l -> fit_all l.
  Proof.
    intros Hr Ho. cbn [own_req] in Ho. destruct (ref_to_req types r None) as [o|] eqn:Eo; [|discriminate Ho].
    destruct (ref_to_req_fits r Hr None I o Eo) as (it & -> & Hit & HV). injection Ho as <-.
    intros n ->%elem_of_list_singleton. split; [by apply single_fits|]. intros it' ->%elem_of_list_singleton. done.
  Qed.
  Lemma scope_sub env e e2 : (forall n, n ∈ values e2 -> n ∈ values e) -> scope_ok env e -> scope_ok env e2.
  Proof. intros Hv Hs n r Hn. apply Hs. auto. Qed.
  Lemma scope_bind env x r e : grounded r -> (forall n q, n ∈ filter (fun n => n <> x) (values e) -> dget n env = Some q -> grounded q) -> scope_ok ((x, r) :: env) e.
  Proof.
    intros Hr Hs n q Hn. cbn [dget]. destruct (decide (n = x)) as [->|Hne]; [by intros [= <-]|]. apply Hs. by apply elem_of_list_filter.
  Qed.
  Lemma env_bind env x r : grounded r -> env_ok env -> env_ok ((x, r) :: env).
  Proof. intros Hr He n q. cbn [dget]. destruct (decide (n = x)); [intros [= <-]; by apply grounded_params|apply He]. Qed.
  Definition fits_of (e : expr) : Prop := forall env e' l, scope_ok env e -> env_ok env -> check types fuel env e = Ok e' -> reqs_of types e' = Ok l -> fit_all l.
  Lemma fits_list l : Forall fits_of l -> forall env l' ls, scope_ok env (EList l) -> env_ok env -> mapR (check types fuel env) l = Ok l' ->
    mapR (reqs_of types) l' = Ok ls -> fit_all (concat ls).
  Proof.
    induction 1 as [|e l He _ IH]; intros env l' ls Hs Hv Hc Hr; cbn [mapR] in Hc; [injection Hc as <-; injection Hr as <-; apply fit_nil|].
    destruct (check types fuel env e) as [e1|] eqn:E1; [|discriminate Hc]. destruct (mapR _ l) as [l1|] eqn:El; [|discriminate Hc]. injection Hc as <-.
    cbn [mapR] in Hr. destruct (reqs_of types e1) as [a|] eqn:Ea; [|discriminate Hr]. destruct (mapR _ l1) as [b|] eqn:Eb; [|discriminate Hr]. injection Hr as <-.
    cbn [concat]. apply fit_app.
    - apply (He env e1 a); try done. eapply scope_sub; [|exact Hs]. intros n Hn. cbn. apply elem_of_app. by left.
    - apply (IH env l1 b); try done. eapply scope_sub; [|exact Hs]. intros n Hn. cbn. apply elem_of_app. by right.
  Qed.
  Lemma seqR_split {A} (x y : res (list A)) l : seqR x y = Ok l -> exists a b, x = Ok a /\ y = Ok b /\ l = a ++ b.
  Proof. destruct x as [a|]; [|done]. destruct y as [b|]; [|done]. intros [= <-]. eauto. Qed.
  Lemma reqs_fit e : fits_of e.
  Proof.
    induction e as [v|n r|o n r IH|x rx col body IHc IHb|x rx b th el IHb IHt IHe|n r l IH|l IH|l IH] using expr_ind'; intros env e' ls Hs Hv Hc Hr.
    - cbn [check] in Hc. injection Hc as <-. injection Hr as <-. apply fit_nil.
    - cbn [check] in Hc. destruct (dget n env) as [r1|] eqn:En; [|discriminate Hc]. injection Hc as <-. cbn [reqs_of] in Hr. eapply own_fit; [|exact Hr]. apply (Hs n); [left|done].
    - pose proof (checked_ref (EGet o n r) env e') as Hcr. pose proof Hc as Hc0. cbn [check] in Hc.
      destruct (check types fuel env o) as [o'|] eqn:Eo; [|discriminate Hc]. destruct (need_ref o') as [r1|]; [|discriminate Hc].
      destruct (get_type types (ref_to r1)) as [t|]; [|discriminate Hc]. destruct (check_type types fuel t _) as [ok|]; [|discriminate Hc].
      destruct t as [| | | | | | | | |fs|]; try discriminate Hc. destruct (dget n fs) as [u|]; [|discriminate Hc]. injection Hc as <-.
      cbn [reqs_of] in Hr. apply seqR_split in Hr as (a & b & Ha & Hb & ->). apply fit_app.
      + eapply own_fit; [|exact Ha]. by eapply Hcr.
      + by eapply IH.
    - cbn [check] in Hc. destruct (check types fuel env col) as [col'|] eqn:Eo; [|discriminate Hc]. unfold need_ref in Hc. destruct (ref_of col') as [r1|] eqn:Er; [|discriminate Hc].
      destruct (get_type types (ref_to r1)) as [t|] eqn:Et; [|discriminate Hc]. destruct (check_type types fuel t _) as [ok|]; [|discriminate Hc].
      destruct t as [| | | | | | |u| | |]; try discriminate Hc. destruct (check types fuel _ body) as [body'|] eqn:Eb; [|discriminate Hc]. injection Hc as <-.
      assert (scope_ok env col) as Hsc by (eapply scope_sub; [|exact Hs]; intros n Hn; cbn; apply elem_of_app; by left).
      assert (grounded (RItem r1 u)) as Hg by (constructor; [by eapply (checked_ref col)|by left]).
      cbn [reqs_of] in Hr. apply seqR_split in Hr as (a & b & Ha & Hb & ->). apply seqR_split in Hb as (b1 & b2 & Hb1 & Hb2 & ->).
      apply fit_app; [by eapply own_fit|]. apply fit_app; [by eapply IHc|].
      eapply IHb; [|by apply env_bind|exact Eb|exact Hb2]. apply scope_bind; [done|]. intros n q Hn. apply Hs. cbn. apply elem_of_app. by right.
    - cbn [check] in Hc. destruct (check types fuel env b) as [b'|] eqn:Eo; [|discriminate Hc]. unfold need_ref in Hc. destruct (ref_of b') as [r1|] eqn:Er; [|discriminate Hc].
      destruct (get_type types (ref_to r1)) as [t|] eqn:Et; [|discriminate Hc]. cbn zeta in Hc. set (rx1 := match t with TOpt u => RItem r1 u | _ => r1 end) in *.
      destruct (check types fuel _ th) as [th'|] eqn:Eb; [|discriminate Hc]. destruct (check types fuel env el) as [el'|] eqn:Ee; [|discriminate Hc]. injection Hc as <-.
      assert (scope_ok env b) as Hsc by (eapply scope_sub; [|exact Hs]; intros n Hn; cbn; apply elem_of_app; by left).
      assert (grounded r1) as Hg1 by by eapply (checked_ref b).
      assert (grounded rx1) as Hg by (unfold rx1; destruct t; try done; constructor; [done|by right]).
      cbn [reqs_of] in Hr. apply seqR_split in Hr as (a & c & Ha & Hb & ->). apply seqR_split in Hb as (b1 & b2 & Hb1 & Hb2 & ->). apply seqR_split in Hb2 as (b3 & b4 & Hb3 & Hb4 & ->).
      apply fit_app; [by eapply own_fit|]. apply fit_app; [by eapply IHb|]. apply fit_app.
      + eapply IHt; [|by apply env_bind|exact Eb|exact Hb3]. apply scope_bind; [done|]. intros n q Hn. apply Hs. cbn. apply elem_of_app. right. apply elem_of_app. by left.
      + eapply IHe; [|exact Hv|exact Ee|exact Hb4]. eapply scope_sub; [|exact Hs]. intros n Hn. cbn. apply elem_of_app. right. apply elem_of_app. by right.
    - cbn [check] in Hc. destruct (dget n env) as [r1|] eqn:En; [|discriminate Hc]. destruct (mapR (check types fuel env) l) as [l'|] eqn:El; [|discriminate Hc].
      destruct (get_type types (ref_to r1)) as [t|] eqn:Et; [|discriminate Hc]. destruct t as [| | | | | | | | | |ts]; try discriminate Hc.
      destruct (length ts =? length l')%nat; [|discriminate Hc]. destruct (check_args types fuel l' ts) as [ok|] eqn:Ea; [|discriminate Hc]. injection Hc as <-.
      cbn [reqs_of] in Hr. destruct (ref_to r1) as [| | | | | | | | | |ts1] eqn:Ert; try discriminate Hr. injection Et as ->.
      pose proof (Hv n r1 En) as Hp. rewrite Ert in Hp. cbn [params_ok] in Hp. clear En Ert.
      assert (forall e, e ∈ l -> scope_ok env e) as Hse by (intros e He; eapply scope_sub; [|exact Hs]; intros m Hm; by eapply flat_in). clear Hs.
      revert l' ts ls El Ea Hp Hr. induction IH as [|e l He _ IHl]; intros l' ts ls El Ea Hp Hr; cbn [mapR] in El; [injection El as <-; destruct ts; injection Hr as <-; apply fit_nil|].
      destruct (check types fuel env e) as [e1|] eqn:E1; [|discriminate El]. destruct (mapR _ l) as [l1|]; [|discriminate El]. injection El as <-.
      destruct ts as [|t ts]; [injection Hr as <-; apply fit_nil|]. cbn [check_args] in Ea. cbn [forallb] in Hp. apply andb_prop in Hp as [Hp1 Hp2].
      apply seqR_split in Hr as (a & b & Ha & Hb & ->).
      destruct (match ref_of e1 with Some r => match get_type types (ref_to r) with Ok u => check_type types fuel u t | Err e => Err e end | None => check_type types fuel TAny t end) as [[]|] eqn:Ect; [|discriminate Ea].
      apply fit_app; [|by apply (IHl (fun e He => Hse e (elem_of_list_further _ _ _ He)) l1 ts b)].
      destruct (type_to_query t) as [tq|] eqn:Etq; [|apply (He env e1 a); try done; apply Hse; left].
      destruct (ref_of e1) as [ra|] eqn:Era; [|discriminate Ha]. destruct (get_type types (ref_to ra)) as [u|] eqn:Eu; [|discriminate Ect].
      unfold param_ok in Hp1. apply orb_prop in Hp1 as [Hp1|Hp1]; [apply negb_true_iff, no_record_query in Hp1; congruence|].
      pose proof (params_fit fuel u t _ _ Ect Hp1) as Hf. rewrite <-(record_get _ _ Eu), Etq in Hf. destruct (record_of (ref_to ra)) as [fs|] eqn:Erf; [|discriminate Hf].
      destruct Hf as (n0 & [= <-] & Ho & Hf). destruct (ref_to_req types ra (Some tq)) as [o|] eqn:Eo; [|discriminate Ha].
      destruct (ref_to_req_fits ra) with (add := Some tq) (o := o) as (it & -> & Hit & HV); [|by split; [|eauto]|done|].
      { eapply (checked_ref e); [|exact E1|exact Era]. apply Hse. left. }
      injection Ha as <-. intros m ->%elem_of_list_singleton. split; [by apply single_fits|]. intros it' ->%elem_of_list_singleton. done.
    - cbn [check] in Hc. destruct (mapR (check types fuel env) l) as [l'|] eqn:El; [|discriminate Hc]. injection Hc as <-. cbn [reqs_of] in Hr.
      destruct (mapR (reqs_of types) l') as [lr|] eqn:Elr; [|discriminate Hr]. injection Hr as <-. by eapply fits_list.
    - cbn [check] in Hc. destruct (mapR _ l) as [l'|] eqn:El; [|discriminate Hc]. injection Hc as <-. cbn [reqs_of] in Hr.
      destruct (mapR _ l') as [lr|] eqn:Elr in Hr; [|discriminate Hr]. injection Hr as <-.
      apply (fits_list (map snd l)) with (env := env) (l' := map snd l'); [by apply List.Forall_map| |done| |].
      + eapply scope_sub; [|exact Hs]. intros m. cbn [values]. rewrite !elem_of_list_In, !in_flat_map. intros (e & He & Hm). apply in_map_iff in He as ([k e0] & <- & He). by exists (k, e0).
      + clear -El. revert l' El. induction l as [|[k e] l IHl]; intros l' El; cbn [mapR map] in *; [by injection El as <-|].
        cbn [snd]. destruct (check types fuel env e) as [e1|]; [|discriminate El]. destruct (mapR _ l) as [l1|]; [|discriminate El]. injection El as <-.
        by rewrite (IHl l1 eq_refl).
      + clear -Elr. revert lr Elr. induction l' as [|[k e] l IHl]; intros lr El; cbn [mapR map] in *; [by injection El as <-|].
        cbn [snd]. destruct (reqs_of types e) as [e1|]; [|discriminate El]. destruct (mapR _ l) as [l1|]; [|discriminate El]. injection El as <-.
        by rewrite (IHl l1 eq_refl).
  Qed.

  (** *** Merging *)
  Lemma merge_fits `{Hasher} ns : forall fs, (forall n, n ∈ ns -> node_fits fs n) -> node_fits fs (merge ns).
  Proof.
    induction ns as [ns IH] using ns_ind. intros fs Hns.
    assert (forall q, q ∈ items_of ns -> fits_rec fs q) as Hit by (intros q (n & Hn & Hq)%elem_of_items; by apply (Hns n)).
    split.
    - rewrite merge_ordered. destruct (existsb qordered ns) eqn:Ex; [|done]. apply existsb_exists in Ex as (m & Hm%elem_of_list_In & Ho).
      destruct (Hns m Hm). congruence.
    - intros q. rewrite merge_fields, elem_of_app. intros [Hq|Hq]; [apply dedupF_elem in Hq as (Hq & _); auto|].
      unfold mlinks in Hq. apply elem_of_list_fmap in Hq as ([f ss] & -> & Hf). apply elem_of_link_groups in Hf as (gs & Ef & ->). cbn [fst snd].
      assert (f ∈ links_k (merge_key f) (items_of ns)) as (Hin & Hfl & _)%elem_of_links_k by (rewrite Ef; left).
      pose proof (Hit f Hin) as Hff. destruct f as [nm o a|nm sub ord o a]; [discriminate Hfl|]. cbn [fits_rec q_opts q_alias q_name] in Hff.
      destruct Hff as (-> & -> & Hff). destruct (dget nm fs) as [u|] eqn:Eu; [|done]. destruct (record_of u) as [fs'|] eqn:Eru; [|done]. destruct Hff as [-> Hff].
      set (f := QL nm sub false None None) in *.
      assert (node_fits fs' (merge (subs (merge_key f) (items_of ns)))) as [Ho Hm].
      { apply IH; [pose proof (subs_depth (merge_key f) ns (or_intror I)) as Hd; rewrite Ef in Hd; specialize (Hd ltac:(done)); lia|].
        intros m Hm. unfold subs in Hm. apply elem_of_list_fmap in Hm as (f2 & -> & Hf2). apply elem_of_links_k in Hf2 as (Hf2 & Hl2 & Hk2).
        pose proof (Hit f2 Hf2) as Hff2. destruct f2 as [nm2 o2 a2|nm2 sub2 ord2 o2 a2]; [discriminate Hl2|]. cbn [fits_rec q_opts q_alias q_name] in Hff2.
        destruct Hff2 as (-> & -> & Hff2). unfold merge_key in Hk2. cbn in Hk2. injection Hk2 as ->. rewrite Eu, Eru in Hff2. destruct Hff2 as [-> Hff2].
        split; [done|]. by apply fits_rec_foldr. }
      set (M := merge (subs (merge_key f) (items_of ns))) in *. change (copy_node f M) with (QL nm (qfields M) (qordered M) None None). rewrite Ho. by eapply fits_link.
  Qed.

  (** *** What is mentioned is required *)
  Lemma ref_one e : forall env e' r, check types fuel env e = Ok e' -> ref_of e' = Some r -> exists n, values e = [n].
  Proof.
    induction e as [v|n r|o n r IH|x rx col body _ _|x rx b th el _ _ _|n r l _|l _|l _] using expr_ind'; intros env e' r0 Hc Hr; cbn [check] in Hc.
    - by injection Hc as <-.
    - by exists n.
    - destruct (check types fuel env o) as [o'|] eqn:Eo; [|discriminate Hc]. unfold need_ref in Hc. destruct (ref_of o') as [r1|] eqn:Er; [|discriminate Hc].
      by eapply (IH env o').
    - exfalso. repeat (case_match; try discriminate Hc); injection Hc as <-; done.
    - exfalso. repeat (case_match; try discriminate Hc); injection Hc as <-; done.
    - exfalso. repeat (case_match; try discriminate Hc); injection Hc as <-; done.
    - exfalso. repeat (case_match; try discriminate Hc); injection Hc as <-; done.
    - exfalso. repeat (case_match; try discriminate Hc); injection Hc as <-; done.
  Qed.
  Definition mentioned (env : dict str ref) (e : expr) : Prop := exists n r, n ∈ values e /\ dget n env = Some r /\ grounded r.
  Definition found (l : list qnode) : Prop := exists q it, q ∈ l /\ it ∈ qfields q /\ V (q_name it).
  Lemma found_l a b : found a -> found (a ++ b).
  Proof. intros (q & it & Hq & ?). exists q, it. split; [|done]. apply elem_of_app. by left. Qed.
  Lemma found_r a b : found b -> found (a ++ b).
  Proof. intros (q & it & Hq & ?). exists q, it. split; [|done]. apply elem_of_app. by right. Qed.
  Lemma found_own r l : grounded r -> own_req types (Some r) = Ok l -> found l.
  Proof.
    intros Hr Ho. cbn [own_req] in Ho. destruct (ref_to_req types r None) as [o|] eqn:Eo; [|discriminate Ho].
    destruct (ref_to_req_fits r Hr None I o Eo) as (it & -> & Hit & HV). injection Ho as <-. exists (QN [it] false), it. split; [left|]. split; [left|done].
  Qed.
  Definition finds (e : expr) : Prop := forall env e' l, mentioned env e -> env_ok env -> check types fuel env e = Ok e' -> reqs_of types e' = Ok l -> found l.
  Lemma finds_list l : Forall finds l -> forall env l' ls, mentioned env (EList l) -> env_ok env -> mapR (check types fuel env) l = Ok l' ->
    mapR (reqs_of types) l' = Ok ls -> found (concat ls).
  Proof.
    induction 1 as [|e l He _ IH]; intros env l' ls (n & r & Hn & Hd & Hg) Hv Hc Hr; cbn [mapR] in Hc; [by apply not_elem_of_nil in Hn|].
    destruct (check types fuel env e) as [e1|] eqn:E1; [|discriminate Hc]. destruct (mapR _ l) as [l1|] eqn:El; [|discriminate Hc]. injection Hc as <-.
    cbn [mapR] in Hr. destruct (reqs_of types e1) as [a|] eqn:Ea; [|discriminate Hr]. destruct (mapR _ l1) as [b|] eqn:Eb; [|discriminate Hr]. injection Hr as <-.
    cbn [concat]. cbn in Hn. apply elem_of_app in Hn as [Hn|Hn].
    - apply found_l. apply (He env e1 a); try done. by exists n, r.
    - apply found_r. apply (IH env l1 b); try done. by exists n, r.
  Qed.
  Lemma mentioned_bind env x r e n q : n ∈ filter (fun n => n <> x) (values e) -> dget n env = Some q -> grounded q -> mentioned ((x, r) :: env) e.
  Proof. intros [Hne Hn]%elem_of_list_filter Hd Hg. exists n, q. split; [done|]. split; [|done]. cbn [dget]. by rewrite decide_False. Qed.

  Lemma checked_params e : forall env e' r, env_ok env -> check types fuel env e = Ok e' -> ref_of e' = Some r -> params_ok (ref_to r) = true.
  Proof.
    induction e as [v|n r|o n r IH|x rx col body _ _|x rx b th el _ _ _|n r l _|l _|l _] using expr_ind'; intros env e' r0 Hs Hc Hr; cbn [check] in Hc.
    - by injection Hc as <-.
    - destruct (dget n env) as [r1|] eqn:En; [|discriminate Hc]. injection Hc as <-. injection Hr as <-. by apply (Hs n).
    - destruct (check types fuel env o) as [o'|] eqn:Eo; [|discriminate Hc]. unfold need_ref in Hc. destruct (ref_of o') as [r1|] eqn:Er; [|discriminate Hc].
      destruct (get_type types (ref_to r1)) as [t|] eqn:Et; [|discriminate Hc]. destruct (check_type types fuel t _) as [ok|]; [|discriminate Hc].
      destruct t as [| | | | | | | | |fs|]; try discriminate Hc. destruct (dget n fs) as [u|] eqn:Eu; [|discriminate Hc]. injection Hc as <-. injection Hr as <-.
      cbn [ref_to]. eapply params_field; [|exact Eu]. eapply params_get; [exact Et|]. by eapply IH.
    - exfalso. repeat (case_match; try discriminate Hc); injection Hc as <-; done.
    - exfalso. repeat (case_match; try discriminate Hc); injection Hc as <-; done.
    - exfalso. repeat (case_match; try discriminate Hc); injection Hc as <-; done.
    - exfalso. repeat (case_match; try discriminate Hc); injection Hc as <-; done.
    - exfalso. repeat (case_match; try discriminate Hc); injection Hc as <-; done.
  Qed.
  Lemma env_with env x r : params_ok (ref_to r) = true -> env_ok env -> env_ok ((x, r) :: env).
  Proof. intros Hr He n q. cbn [dget]. destruct (decide (n = x)); [by intros [= <-]|apply He]. Qed.
  Lemma reqs_found e : finds e.
  Proof.
    induction e as [v|n r|o n r IH|x rx col body IHc IHb|x rx b th el IHb IHt IHe|n r l IH|l IH|l IH] using expr_ind'; intros env e' ls (m & rm & Hm & Hd & Hg) Hv Hc Hr.
    - by apply not_elem_of_nil in Hm.
    - cbn in Hm. apply elem_of_list_singleton in Hm as ->. cbn [check] in Hc. rewrite Hd in Hc. injection Hc as <-. cbn [reqs_of] in Hr. by eapply found_own.
    - cbn [check] in Hc. destruct (check types fuel env o) as [o'|] eqn:Eo; [|discriminate Hc]. destruct (need_ref o') as [r1|]; [|discriminate Hc].
      destruct (get_type types (ref_to r1)) as [t|]; [|discriminate Hc]. destruct (check_type types fuel t _) as [ok|]; [|discriminate Hc].
      destruct t as [| | | | | | | | |fs|]; try discriminate Hc. destruct (dget n fs) as [u|]; [|discriminate Hc]. injection Hc as <-.
      cbn [reqs_of] in Hr. apply seqR_split in Hr as (a & b & Ha & Hb & ->). apply found_r. eapply (IH env); [|done|exact Eo|exact Hb]. by exists m, rm.
    - cbn [check] in Hc. destruct (check types fuel env col) as [col'|] eqn:Eo; [|discriminate Hc]. unfold need_ref in Hc. destruct (ref_of col') as [r1|] eqn:Er; [|discriminate Hc].
      destruct (get_type types (ref_to r1)) as [t|] eqn:Et; [|discriminate Hc]. destruct (check_type types fuel t _) as [ok|]; [|discriminate Hc].
      destruct t as [| | | | | | |u| | |]; try discriminate Hc. destruct (check types fuel _ body) as [body'|] eqn:Eb; [|discriminate Hc]. injection Hc as <-.
      assert (env_ok ((x, RItem r1 u) :: env)) as Hv2.
      { apply env_with; [|done]. cbn [ref_to]. apply (params_get _ _ Et). by eapply (checked_params col). }
      cbn [reqs_of] in Hr. apply seqR_split in Hr as (a & b & Ha & Hb & ->). apply seqR_split in Hb as (b1 & b2 & Hb1 & Hb2 & ->). apply found_r.
      cbn in Hm. apply elem_of_app in Hm as [Hm|Hm]; [apply found_l; eapply (IHc env); [|done|exact Eo|exact Hb1]; by exists m, rm|].
      apply found_r. eapply IHb; [|exact Hv2|exact Eb|exact Hb2]. by eapply mentioned_bind.
    - cbn [check] in Hc. destruct (check types fuel env b) as [b'|] eqn:Eo; [|discriminate Hc]. unfold need_ref in Hc. destruct (ref_of b') as [r1|] eqn:Er; [|discriminate Hc].
      destruct (get_type types (ref_to r1)) as [t|] eqn:Et; [|discriminate Hc]. cbn zeta in Hc. set (rx1 := match t with TOpt u => RItem r1 u | _ => r1 end) in *.
      destruct (check types fuel _ th) as [th'|] eqn:Eb; [|discriminate Hc]. destruct (check types fuel env el) as [el'|] eqn:Ee; [|discriminate Hc]. injection Hc as <-.
      assert (env_ok ((x, rx1) :: env)) as Hv2.
      { apply env_with; [|done]. pose proof (checked_params b env b' r1 Hv Eo Er) as Hp. pose proof (params_get _ _ Et Hp) as Hp2. unfold rx1. by destruct t. }
      cbn [reqs_of] in Hr. apply seqR_split in Hr as (a & c & Ha & Hb & ->). apply seqR_split in Hb as (b1 & b2 & Hb1 & Hb2 & ->). apply seqR_split in Hb2 as (b3 & b4 & Hb3 & Hb4 & ->).
      apply found_r. cbn in Hm. apply elem_of_app in Hm as [Hm|Hm]; [apply found_l; eapply (IHb env); [|done|exact Eo|exact Hb1]; by exists m, rm|].
      apply found_r. apply elem_of_app in Hm as [Hm|Hm].
      + apply found_l. eapply IHt; [|exact Hv2|exact Eb|exact Hb3]. by eapply mentioned_bind.
      + apply found_r. eapply (IHe env); [|exact Hv|exact Ee|exact Hb4]. by exists m, rm.
    - cbn [check] in Hc. destruct (dget n env) as [r1|] eqn:En; [|discriminate Hc]. destruct (mapR (check types fuel env) l) as [l'|] eqn:El; [|discriminate Hc].
      destruct (get_type types (ref_to r1)) as [t|] eqn:Et; [|discriminate Hc]. destruct t as [| | | | | | | | | |ts]; try discriminate Hc.
      destruct (length ts =? length l')%nat eqn:Elen; [|discriminate Hc]. apply Nat.eqb_eq in Elen.
      destruct (check_args types fuel l' ts) as [ok|] eqn:Ea; [|discriminate Hc]. injection Hc as <-.
      cbn [reqs_of] in Hr. destruct (ref_to r1) as [| | | | | | | | | |ts1] eqn:Ert; try discriminate Hr. injection Et as ->.
      pose proof (Hv n r1 En) as Hp. rewrite Ert in Hp. cbn [params_ok] in Hp. clear En Ert. cbn [values] in Hm.
      revert l' ts ls El Elen Ea Hp Hr Hm. induction IH as [|e l He _ IHl]; intros l' ts ls El Elen Ea Hp Hr Hm; cbn [mapR] in El; [by apply not_elem_of_nil in Hm|].
      destruct (check types fuel env e) as [e1|] eqn:E1; [|discriminate El]. destruct (mapR _ l) as [l1|] eqn:El1; [|discriminate El]. injection El as <-.
      destruct ts as [|t ts]; [discriminate Elen|]. cbn [check_args] in Ea. cbn [forallb] in Hp. apply andb_prop in Hp as [Hp1 Hp2].
      apply seqR_split in Hr as (a & b & Ha & Hb & ->).
      destruct (match ref_of e1 with Some r => match get_type types (ref_to r) with Ok u => check_type types fuel u t | Err e => Err e end | None => check_type types fuel TAny t end) as [[]|] eqn:Ect; [|discriminate Ea].
      cbn [flat_map] in Hm. apply elem_of_app in Hm as [Hm|Hm]; [apply found_l|apply found_r; apply (IHl l1 ts b); try done; by injection Elen].
      destruct (type_to_query t) as [tq|] eqn:Etq; [|apply (He env e1 a); try done; by exists m, rm].
      destruct (ref_of e1) as [ra|] eqn:Era; [|discriminate Ha]. destruct (get_type types (ref_to ra)) as [u|] eqn:Eu; [|discriminate Ect].
      unfold param_ok in Hp1. apply orb_prop in Hp1 as [Hp1|Hp1]; [apply negb_true_iff, no_record_query in Hp1; congruence|].
      pose proof (params_fit fuel u t _ _ Ect Hp1) as Hf. rewrite <-(record_get _ _ Eu), Etq in Hf. destruct (record_of (ref_to ra)) as [fs|] eqn:Erf; [|discriminate Hf].
      destruct Hf as (n0 & [= <-] & Ho & Hf). destruct (ref_to_req types ra (Some tq)) as [o|] eqn:Eo; [|discriminate Ha].
      destruct (ref_to_req_fits ra) with (add := Some tq) (o := o) as (it & -> & Hit & HV); [|by split; [|eauto]|done|].
      { eapply (checked_ref e); [|exact E1|exact Era]. destruct (ref_one e env e1 ra E1 Era) as [n1 Hn1]. rewrite Hn1 in Hm. apply elem_of_list_singleton in Hm as ->.
        intros n2 r2. rewrite Hn1. intros ->%elem_of_list_singleton. rewrite Hd. by intros [= <-]. }
      injection Ha as <-. exists (QN [it] false), it. split; [left|]. split; [left|done].
    - cbn [check] in Hc. destruct (mapR (check types fuel env) l) as [l'|] eqn:El; [|discriminate Hc]. injection Hc as <-. cbn [reqs_of] in Hr.
      destruct (mapR (reqs_of types) l') as [lr|] eqn:Elr; [|discriminate Hr]. injection Hr as <-. eapply finds_list; try done. by exists m, rm.
    - cbn [check] in Hc. destruct (mapR _ l) as [l'|] eqn:El; [|discriminate Hc]. injection Hc as <-. cbn [reqs_of] in Hr.
      destruct (mapR _ l') as [lr|] eqn:Elr in Hr; [|discriminate Hr]. injection Hr as <-.
      apply (finds_list (map snd l)) with (env := env) (l' := map snd l'); [by apply List.Forall_map| |done| |].
      + exists m, rm. split; [|done]. revert Hm. cbn [values]. rewrite !elem_of_list_In, !in_flat_map. intros ([k e] & He & Hm). exists e. split; [|done]. apply in_map_iff. by exists (k, e).
      + clear -El. revert l' El. induction l as [|[k e] l IHl]; intros l' El; cbn [mapR map] in *; [by injection El as <-|].
        cbn [snd]. destruct (check types fuel env e) as [e1|]; [|discriminate El]. destruct (mapR _ l) as [l1|]; [|discriminate El]. injection El as <-.
        by rewrite (IHl l1 eq_refl).
      + clear -Elr. revert lr Elr. induction l' as [|[k e] l IHl]; intros lr El; cbn [mapR map] in *; [by injection El as <-|].
        cbn [snd]. destruct (reqs_of types e) as [e1|]; [|discriminate El]. destruct (mapR _ l) as [l1|]; [|discriminate El]. injection El as <-.
        by rewrite (IHl l1 eq_refl).
  Qed.
End types.

(** ** Graphs *)
Section graph.
  Context (G : graph).
  Notation types := (g_types G).
  Lemma rec_of_items_get l n : dget n (rec_of_items l) = match dget n (of_pairs (map (fun x => (gi_name x, x)) l)) with Some x => Some (gi_type x) | None => None end.
  Proof.
    unfold rec_of_items, of_pairs. rewrite !dget_dupdate. cbn [dget].
    replace (map (fun x => (gi_name x, gi_type x)) l) with (map (fun p => (p.1, gi_type p.2)) (map (fun x => (gi_name x, x)) l)) by by rewrite map_map.
    rewrite reverse_map, dget_map. by destruct (dget n (reverse _)).
  Qed.
  Lemma node_type n gn : find_node G (s "__root__") = None -> find_node G n = Some gn -> dget n types = Some (TRec (rec_of_items (gn_fields gn))).
  Proof.
    intros Hroot Hn. unfold g_types. rewrite dget_dset_ne by (intros ->; congruence).
    unfold find_node, nodes_map, of_pairs in Hn. rewrite dget_dupdate in Hn. cbn [dget] in Hn.
    generalize (of_pairs (g_dtypes G)) as d. intros d. revert d. induction (g_items G) as [|x l IH] using rev_ind; intros d; [done|].
    rewrite fold_left_app. cbn [fold_left]. rewrite omap_app, reverse_app in Hn.
    destruct (gn_name x) as [nm|] eqn:En; cbn in Hn; rewrite En in Hn; cbn in Hn.
    - destruct (decide (n = nm)) as [->|Hne].
      + rewrite dget_dset_eq. by injection Hn as <-.
      + rewrite dget_dset_ne by done. by apply IH.
    - by apply IH.
  Qed.
  Lemma root_type : exists fs, dget (s "__root__") types = Some (TRec fs) /\
    forall n, dget n fs = match find_field (g_root G) n with Some x => Some (gi_type x) | None => None end.
  Proof.
    eexists. split; [unfold g_types; by rewrite dget_dset_eq|]. intros n.
    unfold find_field, fields_map, g_root. cbn [gn_fields]. rewrite <-rec_of_items_get. unfold rec_of_items at 2, of_pairs at 1 2.
    rewrite !dget_dupdate. cbn [dget].
    match goal with |- match ?a with _ => _ end = match ?b with _ => _ end => assert (a = b) as ->; [|done] end.
    induction (g_items G) as [|x l IH]; [done|]. cbn [map concat List.filter]. destruct (gn_name x); [by rewrite app_nil_l|].
    cbn [map concat]. rewrite map_app, !reverse_app, !dget_app, IH. destruct (dget n (reverse (map _ (concat _)))) eqn:E; [done|].
    unfold rec_of_items. rewrite PropReqs.dget_reverse by apply NoDup_of_pairs. unfold of_pairs. rewrite dget_dupdate. match goal with |- match ?a with _ => _ end = _ => by destruct a end.
  Qed.
End graph.

Lemma merge_has_link `{Hasher} ns q : q ∈ items_of ns -> q_is_link q = true -> exists q', q' ∈ qfields (merge ns) /\ q_name q' = q_name q.
Proof.
  intros Hq Hl. destruct (links_k (merge_key q) (items_of ns)) as [|f fs] eqn:E.
  - assert (q ∈ links_k (merge_key q) (items_of ns)) as Hx by (by apply elem_of_links_k). rewrite E in Hx. by apply elem_of_nil in Hx.
  - assert (f ∈ links_k (merge_key q) (items_of ns)) as (Hi & Hlf & Hk)%elem_of_links_k by (rewrite E; left).
    exists (copy_node f (merge (subs (merge_key q) (items_of ns)))). split.
    + rewrite merge_fields, elem_of_app. right. unfold mlinks. apply elem_of_list_fmap. exists (f, subs (merge_key q) (items_of ns)). split; [done|]. by eapply link_groups_elem.
    + unfold merge_key in Hk. injection Hk as Hk _ _. rewrite <-Hk. by destruct f.
Qed.
Section bind.
  Context `{Hasher} (parts : gfield -> bool) (G : graph).
  Notation types := (g_types G).
  (** The sub-graph: see ExprBindSpec *)
  Record sub_ok : Prop := {
    so_root : find_node G (s "__root__") = None;
    so_links : forall gn name l, node_of G gn -> find_field gn name = Some (GL l) -> is_Some (find_node G (gl_node l));
    so_types : no_renaming G;
    so_params : forall n t, dget n types = Some t -> params_ok t = true;
    so_parts : forall gn name f, node_of G gn -> find_field gn name = Some (GF f) -> parts f = by_parts G f;
    so_opts : forall gn name f, node_of G gn -> find_field gn name = Some (GF f) -> is_expr f -> gf_opts f = [];
  }.
  Hypothesis Hok : sub_ok.
  Lemma link_record l gn : find_node G (gl_node l) = Some gn -> record_of types (gl_type l) = Some (rec_of_items (gn_fields gn)).
  Proof.
    intros Hn. pose proof (node_type G _ _ (so_root Hok) Hn) as Ht. unfold gl_type, record_of. destruct (gl_enum l); by rewrite Ht.
  Qed.
  Lemma fits_req_of_rec q : forall gn fs, node_of G gn -> (forall n, dget n fs = match find_field gn n with Some x => Some (gi_type x) | None => None end) ->
    fits_rec types fs q -> fits_req parts G gn q.
  Proof.
    revert q. fix IH 1. intros [nm o a|nm sub ord o a] gn fs Hgn Hfs Hq; cbn [fits_rec q_opts q_alias q_name] in Hq; destruct Hq as (_ & _ & Hq);
      rewrite Hfs in Hq; cbn [fits_req q_name q_is_link]; destruct (find_field gn nm) as [[f|l]|] eqn:Ef; try done; cbn [gi_type] in Hq.
    - rewrite (so_parts Hok _ _ _ Hgn Ef). split; [|by eapply so_opts]. unfold by_parts. destruct (gf_type f) as [t|]; [|done]. by destruct (record_of types t).
    - destruct (so_links Hok _ _ _ Hgn Ef) as [gn' Hn]. by rewrite (link_record _ _ Hn) in Hq.
    - rewrite (so_parts Hok _ _ _ Hgn Ef). split; [|by eapply so_opts]. unfold by_parts. destruct (gf_type f) as [t|]; [|done]. by destruct (record_of types t).
    - intros gn' Hn. rewrite (link_record _ _ Hn) in Hq. destruct Hq as [_ Hq].
      assert (node_of G gn') as Hgn' by (right; eauto). revert Hq. induction sub as [|q sub IHs]; cbn [foldr]; [done|]. intros [H1 H2]. split; [|by apply IHs].
      eapply (IH q gn'); [done| |exact H1]. intros n. apply rec_of_items_get.
  Qed.
  Lemma fits_bare q : forall fs, fits_rec types fs q -> bare q.
  Proof.
    revert q. fix IH 1. intros [nm o a|nm sub ord o a] fs Hq; cbn [fits_rec q_opts q_alias q_name] in Hq; destruct Hq as (-> & -> & Hq); cbn [bare]; [done|].
    destruct (dget nm fs) as [u|]; [|done]. destruct (record_of types u) as [fs'|]; [|done]. destruct Hq as [-> Hq]. split; [done|]. split; [done|]. split; [done|].
    revert Hq. induction sub as [|q sub IHs]; cbn [foldr]; [done|]. intros [H1 H2]. split; [by apply (IH q fs')|by apply IHs].
  Qed.

  (** C53: what a checked expression requires, is there: of its node and of the root of the sub-graph; it requires
      [this] if it mentions it. *)
  Theorem C53_requirements_fit fuel node gn' tfns opts e0 e rq code :
    find_node G node = Some gn' -> bind_field types fuel node tfns opts e0 = Ok (e, rq, code) ->
    (forall n, n ∈ values e0 -> n ∉ dkeys tfns) -> THIS ∈ values e0 -> THIS ∉ dkeys opts ->
    (forall n t, (n, t) ∈ tfns \/ (n, t) ∈ opts -> params_ok t = true) ->
    reqs_ok rq /\ (exists q, q ∈ qfields rq /\ q_name q = THIS) /\
    (forall q, q ∈ of_this rq -> fits_req parts G gn' q) /\ (forall q, q ∈ of_root rq -> fits_req parts G (g_root G) q).
  Proof.
    intros Hn Hb Hfun Hthis Hnopt Hpar. unfold bind_field in Hb. destruct (root_type G) as (root & Hroot & Hrf). rewrite Hroot in Hb.
    set (top := bound_env tfns root opts node) in *. destruct (check types fuel (check_env top) e0) as [e'|] eqn:Ec; [|discriminate Hb].
    unfold extract in Hb. destruct (reqs_of types e') as [l|] eqn:El; [|discriminate Hb]. destruct (compile_lambda e' (dkeys opts)) as [cd|]; [|discriminate Hb].
    injection Hb as <- <- <-.
    pose proof (so_types Hok) as Hren.
    assert (forall n t, dget n top = Some t -> n = THIS /\ t = TRef node \/ n <> THIS /\
      ((n, t) ∈ opts \/ (n ∉ dkeys opts /\ (dget n root = Some t \/ (dget n root = None /\ (n, t) ∈ tfns))))) as Htop.
    { intros n t. unfold top, bound_env. destruct (decide (n = THIS)) as [->|Hne]; [rewrite dget_dset_eq; intros [= <-]; by left|]. rewrite dget_dset_ne by done.
      intros Ht. right. split; [done|]. rewrite dget_dupdate in Ht. destruct (dget n (reverse opts)) as [u|] eqn:Eo.
      - injection Ht as ->. left. apply dget_Some_elem in Eo. by rewrite elem_of_reverse in Eo.
      - right. apply dget_None in Eo. unfold dkeys in Eo. rewrite fmap_reverse, elem_of_reverse in Eo. split; [done|]. rewrite dget_dupdate in Ht.
        assert (dget n (reverse root) = dget n root) as Er.
        { apply PropReqs.dget_reverse. unfold g_types in Hroot. rewrite dget_dset_eq in Hroot. injection Hroot as <-. apply NoDup_of_pairs. }
        rewrite Er in Ht. destruct (dget n root) as [u|]; [left; congruence|]. right. split; [done|]. unfold of_pairs in Ht. rewrite dget_dupdate in Ht. cbn [dget] in Ht.
        destruct (dget n (reverse tfns)) as [u|] eqn:Ef; [|done]. injection Ht as ->. apply dget_Some_elem in Ef. by rewrite elem_of_reverse in Ef. }
    assert (forall n t, dget n top = Some t -> params_ok t = true) as Hptop.
    { intros n t Ht. destruct (Htop n t Ht) as [[-> ->]|[_ [Ho|[_ [Hr|[_ Hf]]]]]]; [done|eapply Hpar; by right| |eapply Hpar; by left].
      eapply params_field; [|exact Hr]. by eapply (so_params Hok). }
    assert (env_ok (check_env top)) as Henv.
    { intros n r. rewrite PropReqs.dget_check_env. destruct (dget n top) as [t|] eqn:Et; [|done]. intros [= <-]. cbn [ref_to]. by eapply Hptop. }
    assert (forall V, scope_ok types top V (check_env top) e0 <-> forall n t, n ∈ values e0 -> dget n top = Some t -> grounded types top V (RNamed RTop n t)) as Hscope.
    { intros V. split.
      - intros Hs n t Hv Ht. apply (Hs n); [done|]. by rewrite PropReqs.dget_check_env, Ht.
      - intros Hs n r Hv. rewrite PropReqs.dget_check_env. destruct (dget n top) as [t|] eqn:Et; [|done]. intros [= <-]. by apply Hs. }
    assert (fit_all types top (fun n => n ∈ values e0) l) as Hfit.
    { eapply (reqs_fit types Hren top); [exact (so_params Hok)|exact Hptop| |exact Henv|exact Ec|exact El]. apply Hscope. intros n t Hv Ht. by constructor. }
    assert (node_fits types top (merge l)) as [Hord Hm] by (apply merge_fits; intros m Hml; by apply Hfit).
    assert (forall q, q ∈ qfields (merge l) -> q_name q ∈ values e0) as HV.
    { intros q Hq. destruct (label_merged l q Hq) as (q' & Hq' & Hl). unfold label_of in Hl. injection Hl as _ -> _ _. apply elem_of_items in Hq' as (m & Hml & Hq'). by apply (Hfit m Hml). }
    set (rq := QN (List.filter _ _) false).
    assert (forall q, q ∈ qfields rq <-> q ∈ qfields (merge l) /\ q_name q ∉ dkeys opts) as Hrq.
    { intros q. unfold rq. cbn [qfields]. rewrite elem_of_list_In, filter_In, <-elem_of_list_In, negb_true_iff, bool_decide_eq_false. done. }
    assert (dget THIS top = Some (TRef node)) as Htt by (unfold top, bound_env; by rewrite dget_dset_eq).
    assert (record_of types (TRef node) = Some (rec_of_items (gn_fields gn'))) as Hrn.
    { unfold record_of. by rewrite (node_type G _ _ (so_root Hok) Hn). }
    assert (forall q, q ∈ qfields rq -> q_name q = THIS -> q_is_link q = true /\ forall q', q' ∈ qfields (q_node q) -> fits_rec types (rec_of_items (gn_fields gn')) q') as Hlink.
    { intros q [Hq _]%Hrq Hqn. pose proof (Hm q Hq) as Hf. destruct q as [nm o a|nm sub ord o a]; cbn [fits_rec q_opts q_alias q_name] in Hf, Hqn; subst nm; rewrite Htt, Hrn in Hf.
      - by destruct Hf as (_ & _ & []).
      - split; [done|]. destruct Hf as (_ & _ & _ & Hf). cbn. by apply fits_rec_foldr. }
    split; [|split; [|split]].
    - split; [done|]. intros q Hq. split; [|intros Hqn; by apply (Hlink q)]. apply Hrq in Hq as [Hq _]. eapply fits_bare, Hm, Hq.
    - assert (found (fun n => n = THIS) l) as (m & it & Hml & Hit & HnT).
      { eapply (reqs_found types Hren top); [exact (so_params Hok)| |exact Henv|exact Ec|exact El].
        exists THIS, (RNamed RTop THIS (TRef node)). split; [done|]. split; [by rewrite PropReqs.dget_check_env, Htt|]. by constructor. }
      assert (q_is_link it = true) as Hlk.
      { pose proof (proj2 (proj1 (Hfit m Hml)) it Hit) as Hf. destruct it as [nm o a|nm sub ord o a]; cbn [fits_rec q_opts q_alias q_name] in Hf, HnT; [|done].
        subst nm. rewrite Htt, Hrn in Hf. by destruct Hf as (_ & _ & []). }
      destruct (merge_has_link l it) as (q & Hq & Hqn); [apply elem_of_items; eauto|done|]. exists q. split; [|congruence]. apply Hrq. split; [done|]. by rewrite Hqn, HnT.
    - intros q Hq. unfold of_this in Hq. apply elem_of_list_In, in_flat_map in Hq as (q0 & Hq0 & Hq). apply elem_of_list_In in Hq0. unfold is_this in Hq.
      destruct (bool_decide (q_name q0 = Engine.THIS)) eqn:Eb; [|done]. apply bool_decide_eq_true in Eb. apply elem_of_list_In in Hq.
      eapply fits_req_of_rec; [right; eauto| |by apply (Hlink q0)]. intros n. apply rec_of_items_get.
    - intros q Hq. apply of_root_elem in Hq as [Hq Hnt]. apply Hrq in Hq as [Hq Hno]. pose proof (HV q Hq) as Hval. pose proof (Hm q Hq) as Hf.
      assert (fits_rec types root q) as Hfr.
      { destruct (dget (q_name q) top) as [t|] eqn:Et; [|exfalso; destruct q; cbn [fits_rec q_opts q_alias q_name] in Hf, Et; rewrite Et in Hf; by destruct Hf as (_ & _ & [])].
        assert (dget (q_name q) root = Some t) as Er.
        { destruct (Htop _ _ Et) as [[? _]|[_ [Ho|[_ [Hr|[_ Hfn]]]]]]; [done| |done|].
          - exfalso. apply Hno. unfold dkeys. apply elem_of_list_fmap. by exists (q_name q, t).
          - exfalso. apply (Hfun _ Hval). unfold dkeys. apply elem_of_list_fmap. by exists (q_name q, t). }
        destruct q; cbn [fits_rec q_opts q_alias q_name] in Hf, Et, Er |- *; rewrite Et in Hf; by rewrite Er. }
      eapply fits_req_of_rec; [by left|exact Hrf|done].
  Qed.
End bind.

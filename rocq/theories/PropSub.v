(** Theorems about queries with expressions over sub-graphs (C04, C05, C07, C40): hiku/engine.py, hiku/sources/graph.py. *)
From stdpp Require Import relations.
From Verif Require Import Base Val Query QuerySpec Graph Queue QueueSpec QueueProof Result Engine EngineSpec SplitProof BatchProof EngineDisc CostSpec SubSpec SubJob EngineSub EngineSubRun PropTrace PropBound.

(** ** Loaders which answer for the objects met
    Loaders need not know every identifier (a loader of introspection raises KeyError for the name of an unknown type):
    it is enough that they answer the calls for objects to which the query leads. *)
Section met.
  Context `{Hasher} (E : env) (D : data) (g : graph) (q q' : qnode).
  Hypothesis Hinit : init_options g q = Ok q'.
  Hypothesis Hresp : respects_options D.
  Hypothesis Hreads : reads_by_name E.
  Hypothesis Hsup : all_supported E g q'.
  Hypothesis Hserve : serves_met E D (top_job E g q').
  Hypothesis Hdata : met_data E D g q'.
  Notation J0 := (top_job E g q').
  Notation scinv := (scinv E D J0).

  Lemma rounds_scinv fuel sched x y : start E g q = Ok x -> rounds E fuel sched x y -> scinv (y, PIdle).
  Proof.
    intros Hx Hr. destruct (sub_start_ok E D g q q' Hinit Hresp Hreads Hserve Hsup) as (x0 & Hx0 & Hc & _).
    rewrite Hx in Hx0. injection Hx0 as <-. apply rounds_steps in Hr. by eapply (scinv_rtc E D J0 Hresp Hreads Hserve Hsup Hdata eq_refl).
  Qed.

  Lemma end_ok x : scinv (x, PIdle) -> (forall k, pending k x.2 = []) ->
    exists v, w_wfs x.1 !! 0 = Some v /\ wf_query v = q' /\ denormalize g (wf_index v) q' = resolve_query g (sub_value E D) D q'.
  Proof.
    intros Hc Hp. destruct (scinv_final E D J0 Hserve Hsup Hdata eq_refl x Hc Hp eq_refl) as (I & idx & Hw & Hs & [Hcov _]). eexists. split; [exact Hw|]. split; [done|].
    cbn [wf_index]. unfold denormalize, denorm_node, resolve_query.
    rewrite (mapR_ext (denorm g idx (g_root g) ROOT q') (resolve g (sub_value E D) D (g_root g) None)); [done|]. apply Forall_forall. intros qi Hq.
    assert (jsupported E J0) as HsJ by (apply Hsup; constructor).
    pose proof (fun ids => denorm_resolve E D J0 ids Hresp Hreads HsJ) as Hdr. cbn [j_graph j_root top_job j_level] in *.
    unfold sub_value. rewrite <-(Hdr (wi_ids I) idx (g_root g) None qi Hs (Hcov qi Hq) q' (jv_root J0) Hq); [|done].
    unfold objref. by destruct (gn_name (g_root g)).
  Qed.

  (** Whatever is reported, nothing but the exhaustion of the model's fuel makes an execution fail (and C05_loops_end
      excludes that) *)
  Theorem C05_no_failure_met fuel sched e : execute E fuel g q sched (Err e) -> e = OutOfFuel.
  Proof.
    destruct (sub_start_ok E D g q q' Hinit Hresp Hreads Hserve Hsup) as (x0 & Hx0 & Hc & _).
    intros He. inversion He as [e' He'|x sched' e' Hx Hex|]; subst; [congruence|].
    rewrite Hx in Hx0. injection Hx0 as <-. apply executes_steps in Hex as [(z & Hz & Hf)|Hf]; [|done]. exfalso.
    eapply (scinv_no_fail E D J0 Hresp Hreads Hserve Hsup Hdata eq_refl); [|exact Hf]. by eapply (scinv_rtc E D J0 Hresp Hreads Hserve Hsup Hdata eq_refl).
  Qed.

  (** C05: while calls are unfinished every report of finished calls is processed, unless the model's fuel ends *)
  Theorem C05_never_stuck_met fuel sched x y done e :
    start E g q = Ok x -> rounds E fuel sched x y ->
    done <> [] -> NoDup done -> (forall f, f ∈ done -> f ∈ q_futures y.2) ->
    progress (run_cb E) fuel done y = Err e -> e = OutOfFuel.
  Proof.
    intros Hx Hr H1 H2 H3 Hp. pose proof (rounds_scinv _ _ _ _ Hx Hr) as Hc.
    pose proof (progress_steps _ _ _ _ _ H1 H2 H3 Hp) as [(z & Hz & Hf)|Hf]; [|done]. exfalso.
    eapply (scinv_no_fail E D J0 Hresp Hreads Hserve Hsup Hdata eq_refl); [|exact Hf]. by eapply (scinv_rtc E D J0 Hresp Hreads Hserve Hsup Hdata eq_refl).
  Qed.

  (** C04: every execution which comes to an end gives the result found by following the query from object to object,
      expressions evaluated over what they require of their sub-graphs. *)
  Theorem C04_result_met fuel sched idx q2 : execute E fuel g q sched (Ok (idx, q2)) ->
    q2 = q' /\ denormalize g idx q' = resolve_query g (sub_value E D) D q'.
  Proof.
    destruct (sub_start_ok E D g q q' Hinit Hresp Hreads Hserve Hsup) as (x0 & Hx0 & Hc & Hnil).
    intros He. inversion He as [| |x sched' y v Hx Hex Hv]; subst.
    rewrite Hx in Hx0. injection Hx0 as <-.
    assert (scinv (y, PIdle)) as Hcy.
    { apply executes_steps in Hex as [Hs _]. by eapply (scinv_rtc E D J0 Hresp Hreads Hserve Hsup Hdata eq_refl). }
    assert (forall k, pending k y.2 = []) as Hp.
    { destruct sched as [|dn sched].
      - inversion Hex; subst. by apply Hnil.
      - destruct (C15_engine_drained E _ _ _ _ _ _ Hx Hex) as (_ & _ & Hcb & _); [done|]. by apply pending_nil. }
    destruct (end_ok y Hcy Hp) as (v' & Hv' & Hq & Hd). rewrite Hv in Hv'. injection Hv' as <-. by rewrite Hq.
  Qed.
  Theorem C04_same_result_met fuel1 fuel2 sched1 sched2 idx1 idx2 q1 q2 :
    execute E fuel1 g q sched1 (Ok (idx1, q1)) -> execute E fuel2 g q sched2 (Ok (idx2, q2)) ->
    q1 = q2 /\ denormalize g idx1 q1 = denormalize g idx2 q2.
  Proof. intros [-> H1]%C04_result_met [-> H2]%C04_result_met. split; [done|]. congruence. Qed.

  (** C04, C05 together: no execution of the query fails, all give this result *)
  Theorem C04_every_execution_met fuel sched r :
    nested (e_sgs E) -> no_fuel_exn E -> max_work E g q' < fuel -> execute E fuel g q sched r ->
    exists idx, r = Ok (idx, q') /\ denormalize g idx q' = resolve_query g (sub_value E D) D q'.
  Proof.
    intros Hn Hf Hw He. destruct r as [[idx q2]|e].
    - destruct (C04_result_met _ _ _ _ He) as [-> Hd]. eauto.
    - exfalso. pose proof (C05_no_failure_met _ _ _ He) as ->. by eapply C05_loops_end.
  Qed.

  (** C07, C52: every call made is for objects to which the query leads (from the root, over links and into sub-graphs):
      the members asked of these objects, or the values of the field required by a link of these objects, in their
      order, with the options of the query. *)
  Theorem C07_calls_for_objects_met fuel sched x y c :
    start E g q = Ok x -> rounds E fuel sched x y -> c ∈ w_log y.1 -> call_met E D J0 c.
  Proof.
    intros Hx Hr Hin. destruct (rounds_scinv _ _ _ _ Hx Hr) as [_ [Is Hi]]. cbn [fst snd] in Hi.
    destruct (ei_log _ _ _ _ _ _ _ _ Hi _ Hin) as (I & HI & Hjc). by eapply job_call_met.
  Qed.
End met.

(** What is met is part of the query *)
Lemma met_visited `{Hasher} E D J0 J gn i n : met E D J0 J gn i n -> reached E J0 J /\ jvisited J gn n.
Proof.
  induction 1 as [|J gn i n q l gn' j _ [H1 H2]|J gn i n sg qs J' gn' n' _ [H1 H2]|J gn i n sg qs J' _ [H1 H2]].
  - split; constructor.
  - split; [done|]. by eapply jv_link.
  - split; [by eapply re_sub|]. by apply jv_this.
  - split; [by eapply re_sub|]. apply jv_root.
Qed.
Lemma met_root `{Hasher} E D J0 J gn n : met E D J0 J gn None n -> gn = g_root (j_graph J).
Proof. by inversion 1. Qed.
Lemma serves_is_met E D : serves E D -> forall J0 `{Hasher}, serves_met E D J0.
Proof. intros Hs J0 Hh k c _. apply Hs. Qed.
Lemma data_is_met `{Hasher} E D g q : all_data E D g q -> met_data E D g q.
Proof.
  intros Hd J. split.
  - intros gn n i q0 l [Hr Hv]%met_visited Hq Hf. by eapply (jd_links _ _ _ (Hd J Hr)).
  - intros gn n q0 f sg rq pr G' node gn' j [Hr Hv]%met_visited Ha. eapply (jd_exprs _ _ _ (Hd J Hr)). by exists n.
Qed.

Section thms.
  Context `{Hasher} (E : env) (D : data) (g : graph) (q q' : qnode).
  Hypothesis Hinit : init_options g q = Ok q'.
  Hypothesis Hresp : respects_options D.
  Hypothesis Hreads : reads_by_name E.
  Hypothesis Hserve : serves E D.
  Hypothesis Hsup : all_supported E g q'.
  Hypothesis Hdata : all_data E D g q'.
  Notation J0 := (top_job E g q').
  Notation Hsm := (serves_is_met E D Hserve J0).
  Notation Hdm := (data_is_met E D g q' Hdata).

  (** Whatever is reported, nothing but the exhaustion of the model's fuel makes an execution fail (and C05_loops_end
      excludes that) *)
  Theorem C05_no_failure fuel sched e : execute E fuel g q sched (Err e) -> e = OutOfFuel.
  Proof. exact (C05_no_failure_met E D g q q' Hinit Hresp Hreads Hsup Hsm Hdm fuel sched e). Qed.
  (** C05: while calls are unfinished every report of finished calls is processed, unless the model's fuel ends *)
  Theorem C05_never_stuck fuel sched x y done e :
    start E g q = Ok x -> rounds E fuel sched x y ->
    done <> [] -> NoDup done -> (forall f, f ∈ done -> f ∈ q_futures y.2) ->
    progress (run_cb E) fuel done y = Err e -> e = OutOfFuel.
  Proof. exact (C05_never_stuck_met E D g q q' Hinit Hresp Hreads Hsup Hsm Hdm fuel sched x y done e). Qed.
  (** C04: every execution which comes to an end gives the result found by following the query from object to object,
      expressions evaluated over what they require of their sub-graphs. *)
  Theorem C04_result fuel sched idx q2 : execute E fuel g q sched (Ok (idx, q2)) ->
    q2 = q' /\ denormalize g idx q' = resolve_query g (sub_value E D) D q'.
  Proof. exact (C04_result_met E D g q q' Hinit Hresp Hreads Hsup Hsm Hdm fuel sched idx q2). Qed.
  Theorem C04_same_result fuel1 fuel2 sched1 sched2 idx1 idx2 q1 q2 :
    execute E fuel1 g q sched1 (Ok (idx1, q1)) -> execute E fuel2 g q sched2 (Ok (idx2, q2)) ->
    q1 = q2 /\ denormalize g idx1 q1 = denormalize g idx2 q2.
  Proof. intros [-> H1]%C04_result [-> H2]%C04_result. split; [done|]. congruence. Qed.
  (** C04, C05 together: no execution of the query fails, all give this result *)
  Theorem C04_every_execution fuel sched r :
    nested (e_sgs E) -> no_fuel_exn E -> max_work E g q' < fuel -> execute E fuel g q sched r ->
    exists idx, r = Ok (idx, q') /\ denormalize g idx q' = resolve_query g (sub_value E D) D q'.
  Proof. exact (C04_every_execution_met E D g q q' Hinit Hresp Hreads Hsup Hsm Hdm fuel sched r). Qed.

  (** This result exists (records in field values aside, see C17) *)
  Theorem C04_result_exists_sub_partial :
    (forall q0, q0 ∈ qfields q' -> only_links_nested g (g_root g) q0) ->
    exists t, resolve_query g (sub_value E D) D q' = Ok t.
  Proof.
    intros Hs. assert (jsupported E J0) as HsJ by (apply Hsup; constructor). set (fv := sub_value E D).
    assert (forall q0 gn n i, jvisited J0 gn n -> q0 ∈ qfields n -> only_links_nested g gn q0 ->
      exists t, resolve g fv D gn i q0 = Ok (result_key q0, t)) as Hm.
    { intros q0. induction q0 as [nm o a|nm sub ord o a IH] using qitem_ind'; intros gn n i Hv Hq Ho.
      - pose proof (js_items _ _ HsJ _ _ _ Hv Hq) as Hsp. simpl in *.
        destruct (find_field gn nm) as [[f|l]|]; [eauto|by destruct Hsp|done].
      - pose proof (js_items _ _ HsJ _ _ _ Hv Hq) as Hsp. simpl in Ho, Hsp |- *.
        destruct (find_field gn nm) as [[f|l]|] eqn:Ef; [done| |done].
        destruct Hsp as (_ & [gn' Hn] & _). rewrite Hn in Ho |- *.
        set (q0 := QL nm sub ord o a) in *.
        assert (forall j, exists ps, mapR (resolve g fv D gn' (Some j)) sub = Ok ps) as Hobj.
        { intros j. assert (jvisited J0 gn' (QN sub ord)) as Hv' by by apply (jv_link J0 gn n q0 l gn').
          assert (forall q1, q1 ∈ sub -> only_links_nested g gn' q1) as Ho'.
          { clear -Ho. induction sub as [|q1 sub IHs]; intros q2 Hq2; [by apply not_elem_of_nil in Hq2|].
            simpl in Ho. destruct Ho as [Ho1 Ho2]. apply elem_of_cons in Hq2 as [->|Hq2]; [done|]. by apply IHs. }
          assert (forall l, (forall q1, q1 ∈ l -> q1 ∈ sub) -> exists ps, mapR (resolve g fv D gn' (Some j)) l = Ok ps) as Hl.
          { induction l0 as [|q1 l0 IHl]; intros Hin; [by exists []|]. simpl.
            rewrite Forall_forall in IH. destruct (IH q1 (Hin q1 ltac:(left)) gn' (QN sub ord) (Some j) Hv' (Hin q1 ltac:(left)) (Ho' q1 (Hin q1 ltac:(left)))) as (t & ->).
            destruct IHl as (ps & ->); [intros; apply Hin; by right|]. simpl. eauto. }
          by apply Hl. }
        set (v := link_value fv D gn i l q0).
        destruct (gl_enum l).
        + destruct v eqn:Ev; rewrite <-?Ev; try (destruct (Hobj v) as (ps & ->); eauto). eauto.
        + destruct (Hobj v) as (ps & ->). eauto.
        + assert (exists ys, mapR (fun j => match mapR (resolve g fv D gn' (Some j)) sub with Ok ps => Ok (TO (of_pairs ps)) | Err e => Err e end) (seq_items v) = Ok ys) as (ys & ->); [|eauto].
          induction (seq_items v) as [|j js IHj]; [by exists []|]. simpl. destruct (Hobj j) as (ps & ->).
          destruct IHj as (ys & ->). simpl. eauto. }
    unfold resolve_query. fold fv.
    assert (forall l, (forall q1, q1 ∈ l -> q1 ∈ qfields q') -> exists ps, mapR (resolve g fv D (g_root g) None) l = Ok ps) as Hl.
    { induction l as [|q1 l0 IHl]; intros Hin; [by exists []|]. simpl.
      destruct (Hm q1 (g_root g) q' None (jv_root J0) (Hin q1 ltac:(left)) (Hs q1 (Hin q1 ltac:(left)))) as (t & ->).
      destruct IHl as (ps & ->); [intros; apply Hin; by right|]. simpl. eauto. }
    destruct (Hl (qfields q')) as (ps & ->); eauto.
  Qed.

  (** C07: a link's loader gets the values of the required field of the objects it is asked for, in their order, and
      the options of the query; required fields may be expressions. *)
  Theorem C07_link_arguments fuel sched x y c rq o :
    start E g q = Ok x -> rounds E fuel sched x y -> c ∈ w_log y.1 -> c_args c = ALink rq o ->
    exists J gn n l ql ids,
      reached E J0 J /\ jvisited J gn n /\ ql ∈ qfields n /\ find_field gn (q_name ql) = Some (GL l) /\
      c_func c = gl_func l /\ o = (match gl_opts l with [] => None | _ => Some (q_opts ql) end) /\
      ids_met E D J0 J gn n ids /\
      match gl_requires l, ids with
      | None, _ => rq = None
      | Some r, None => gn = g_root (j_graph J) /\ rq = Some (ROne (IVal (field_value (field_val E D (j_level J)) gn None r None)))
      | Some r, Some is_ => rq = Some (RList (map (fun i => IVal (field_value (field_val E D (j_level J)) gn (Some i) r None)) is_))
      end.
  Proof.
    intros Hx Hr Hin Ha. pose proof (C07_calls_for_objects_met E D g q q' Hinit Hresp Hreads Hsup Hsm Hdm _ _ _ _ _ Hx Hr Hin) as (J & gn & n & ids & Hids & _ & Hm).
    rewrite Ha in Hm. destruct Hm as (l & ql & Hq & Hl & Hf & Hc & Ho & Hrq).
    assert (exists i, met E D J0 J gn i n) as (i & [Hre Hv]%met_visited).
    { destruct ids as [[|i is_]|]; cbn in Hids; [by destruct Hids| |eauto]. exists (Some i). apply Hids. left. }
    exists J, gn, n, l, ql, ids. split; [done|]. split; [done|]. split; [done|]. split; [done|]. split; [done|]. split; [done|]. split; [done|].
    destruct (gl_requires l) as [r|]; [|done]. destruct ids as [is_|]; [done|]. split; [|done]. by eapply met_root.
  Qed.
End thms.

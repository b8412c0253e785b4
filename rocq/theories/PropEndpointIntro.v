(** Answers of an endpoint, its functions of introspection included (C46): hiku/endpoint/graphql.py,
    hiku/introspection/graphql.py. *)
From stdpp Require Import relations.
From Verif Require Import Base Val Types Query QuerySpec QueryProof Graph Queue QueueSpec QueueProof Result PropResult Engine EngineSpec CostSpec CallSpec SubSpec SubJob Validate ValidateSpec
  PropValidate PropValExec PropOptions PropBound GraphExt Introspect IntrospectSpec PropIntrospect PropIntroGraph PropIntroSound PropIntroList
  IntroRun IntroRunSpec IntroMet IntroServe EngineSubRun PropSub PropSubWf PropSubVal PropIntroRun ReadGraphql Endpoint PropEndpoint PropEndpointSub SubWfSpec.

(** The query which is executed asks for no [__typename] *)
Lemma stripped_plain g q gn n : visited g (strip_query q) gn n -> exists m, n = strip_query m.
Proof.
  induction 1 as [|gn n q0 l gn' Hv (m & ->) Hq Hk _ _]; [by exists q|].
  cbn [strip_query qfields] in Hq. apply elem_of_list_In, in_flat_map in Hq as (q1 & _ & Hq1). destruct (decide _); [done|]. destruct Hq1 as [<-|[]].
  destruct q1 as [|nm sub ord o a]; [done|]. exists (QN sub ord). done.
Qed.
Lemma stripped_once m : typename_once (strip_query m).
Proof.
  unfold typename_once. cbn [strip_query qfields]. induction (qfields m) as [|q l IH]; [cbn; lia|]. cbn [strip_items flat_map].
  destruct (decide (q_name q = TYPENAME)) as [|Hn]; [exact IH|]. cbn [app List.filter].
  rewrite bool_decide_eq_false_2; [exact IH|]. by destruct q.
Qed.

Section endpoint.
  Context `{Hasher} (L : loaders) (S : schema) (T : texts) (E : env) (D : data) (parts : gfield -> bool) (g g' : graph).
  (** As for C56: a coherent schema, a sound graph to which introspection is added, loaders which serve the data, and
      the functions of introspection *)
  Hypothesis Hco : coherent S.
  Hypothesis Hjson : json_defaults S T.
  Hypothesis Henv : wf_env E parts.
  Hypothesis Hwf : wf_graph E parts g.
  Hypothesis Hdist : distinct_options g.
  Hypothesis Hadd : add_introspection L g = Ok g'.
  Hypothesis Hapart : apart L E g.
  Hypothesis Hruns : runs_introspection S T L E.
  Hypothesis HD : describes L S T D.
  Hypothesis Huser : forall m c, own_loader E g (c_func c) -> exists r, ret_val (e_oracle E m c) = Some r /\ answers D c r.
  Hypothesis Hdata : data_ok E D g.
  Hypothesis Hedata : env_data_ok E D.
  Hypothesis Hresp : respects_options D.
  Hypothesis Hreads : reads_by_name E.
  Hypothesis Hfuel : no_fuel_exn E.
  (** The request *)
  Context (k : nat) (ep : endpoint) (rq : request) (t : optype) (q : qnode) (rn : str).
  Hypothesis Hread : reads rq t q.
  Hypothesis Hon : runs_on ep t g'.
  Hypothesis Hval : validate k g' (strip_query q) = Ok [].
  Hypothesis Htn : type_names t = Some rn.
  Hypothesis Hop : forall q0, q0 ∈ qfields (strip_query q) -> options_proper q0.
  Hypothesis Hun : unchecked_query g' (strip_query q).
  Hypothesis Hnd : NoDup (map result_key (qfields q)).
  Hypothesis Hq : forall q0, q0 ∈ qfields q -> well_keyed g' (g_root g') q0 /\ only_links_nested g' (g_root g') q0 /\ typename_is_field q0.

  (** C46: whatever is asked - the user's data, the schema, the names of types - the data of the answer is the result
      of the query (C04, with what the functions of introspection say of the schema), and for every [__typename] the
      name of the type of its object. *)
  Theorem C46_introspected : exists q', init_options g' (strip_query q) = Ok q' /\
    ((forall gn, no_collision (asked g' q' gn)) ->
     forall fuel, max_work E g' q' < fuel ->
     (exists sched r, dispatches E fuel k ep rq sched r) /\
     forall sched r, dispatches E fuel k ep rq sched r ->
     exists d, r = Ok (AData (TO d)) /\
       map fst d = map result_key (qfields q) /\
       Forall2 (PropResult.named g' rn (g_root g')) (qfields q) d /\
       resolve_query g' (sub_value E D) D q' = Ok (TO (untype_entries untype (qfields q) d))).
  Proof.
    pose proof (C45_sound_options L g g' Hadd Hdist) as Hdo. pose proof (C45_sound_graph L g g' Hadd E parts Hwf) as Hwg.
    assert (forall gn n, visited g' (strip_query q) gn n -> typename_once n) as Honce.
    { intros gn n (m & ->)%stripped_plain. apply stripped_once. }
    destruct (C56_schema_queries L S T E D parts g g' (strip_query q) k Hco Hjson Henv Hwf Hdist Hadd Hapart Hruns HD Huser Hdata Hedata Hresp Hreads Hfuel Hun Honce Hval Hop)
      as (q' & Hi & Hex).
    exists q'. split; [done|]. intros Hc fuel Hfu. specialize (Hex Hc fuel).
    assert (prepare k ep rq = PRun t g' q) as Hp by (apply PropEndpoint.prepare_run; done).
    split.
    { assert (exists sched r, execute E fuel g' (strip_query q) sched r) as (sched & r & He).
      { destruct (start E g' (strip_query q)) as [x|e] eqn:Ex.
        - destruct (C05_terminates E g' (strip_query q) q' ltac:(by eapply we_nested) Hi Hfuel fuel [] x x Hfu Ex (rd_nil E fuel x)) as (sched & r & Hr & _). by exists sched, r.
        - exists [], (Err e). by constructor. }
      destruct (Hex sched r Hfu He) as (idx & -> & _). exists sched. eexists. eapply dp_runs; [exact Hp|exact He]. }
    intros sched r Hd.
    assert (find_node g' (s "__root__") = None) as Hroot by exact (wg_root _ _ _ Hwg).
    assert (exists r0, execute E fuel g' (strip_query q) sched r0 /\
      (forall idx pn, r0 = Ok (idx, pn) -> r = match process_with (type_names t) g' idx pn q with Ok d => Ok (AData d) | Err e => Err e end)) as (r0 & He & Hr0).
    { inversion Hd as [e Hp'|l Hp'|t' g1 q1 sched' e Hp' He|t' g1 q1 sched' idx pn Hp' He]; subst; rewrite Hp in Hp'; try discriminate Hp'; injection Hp' as <- <- <-.
      - exists (Err e). by split.
      - exists (Ok (idx, pn)). split; [done|]. by intros ? ? [= <- <-]. }
    destruct (Hex _ _ Hfu He) as (idx & -> & Hden). specialize (Hr0 _ _ eq_refl). rewrite Htn in Hr0.
    pose proof (C21_accepted_query_fits g' k _ Hop Hval) as Hfits.
    pose proof (fits_asks g' (strip_query q) Hdo Hfits q' Hi Hun Hc) as Ha.
    pose proof (C04_sound_graph E parts Henv g' q' Hwg Ha) as Hsup.
    pose proof Hi as Hi0. unfold init_options in Hi. destruct (mapR _ _) as [l|] eqn:Em; [|done]. injection Hi as <-.
    destruct (init_strip_list g' (g_root g') (qfields q) l) as (l2 & Hsh & <-).
    { intros q0 _ gn q1. apply init_strip. } { intros q0 Hq0. by apply Hq. } { intros q0 Hq0. by apply Hq. } { exact Em. }
    set (q2 := QN l2 (qordered q)). cbn [strip_query qordered] in *. change (QN (strip_items l2) (qordered q)) with (strip_query q2) in *.
    assert (forall q0, q0 ∈ l2 -> well_keyed g' (g_root g') q0 /\ only_links_nested g' (g_root g') q0 /\ typename_is_field q0) as Hq2.
    { intros q0 [i Hi']%elem_of_list_lookup. destruct (Forall2_lookup_r _ _ _ _ _ Hsh Hi') as (q1 & Hq1%elem_of_list_lookup_2 & Hss).
      destruct (Hq q1 Hq1) as (W1 & W2 & W3). destruct (keyed_shape g' _ _ _ Hss W2 W1 W3) as (? & ? & ?). done. }
    destruct (C04_result_exists_sub_partial E D g' (strip_query q2) Hsup) as [t0 Ht0].
    { intros q0 Hq0. apply elem_of_list_In, in_flat_map in Hq0 as (q1 & Hq1%elem_of_list_In & Hq0).
      destruct (decide _); [done|]. destruct Hq0 as [<-|[]]. destruct (Hq2 q1 Hq1) as (_ & Ho & _).
      clear -Ho. revert Ho. generalize (g_root g'). induction q1 as [n o a|n sub ord o a IH] using qitem_ind'; intros gn Ho; [done|].
      change (strip_item (QL n sub ord o a)) with (QL n (strip_items sub) ord o a). cbn [only_links_nested] in *.
      destruct (find_field gn n) as [[f|l]|]; [done| |done]. destruct (find_node g' (gl_node l)) as [gn'|]; [|done].
      rewrite foldr_and in *. rewrite Forall_forall in IH, Ho. apply Forall_forall. intros q1 Hq1.
      apply elem_of_list_In, in_flat_map in Hq1 as (q3 & Hq3%elem_of_list_In & Hq1).
      destruct (decide _); [done|]. destruct Hq1 as [<-|[]]. apply (IH q3 Hq3); auto. }
    rewrite Ht0 in Hden.
    destruct (C20_typename g' idx q2 rn t0 Hroot) as (d & Hd1 & Hd2 & Hd3 & Hd4); [|done|done|].
    { cbn [q2 qfields]. by rewrite <-(same_shape_keys _ _ Hsh). }
    cbn [q2 qfields] in Hd2, Hd3, Hd4.
    exists d. rewrite Ht0. split; [|split; [|split]].
    - rewrite Hr0. replace (process_with (Some rn) g' idx (strip_query q2) q) with (process_with (Some rn) g' idx (strip_query q2) q2); [by rewrite Hd1|].
      unfold process_with. destruct (dget _ _) as [t'|]; [|done]. cbn [q2 qfields].
      assert (forall f, mapR (visit_item (g_types g') idx (Some rn) t' (DP ROOT f)) (qfields q) = mapR (visit_item (g_types g') idx (Some rn) t' (DP ROOT f)) l2) as Hm.
      { intros f. eapply mapR_Forall2; [exact Hsh|]. intros x x' _ Hx. by apply visit_shape. }
      by rewrite Hm.
    - by rewrite Hd2, (same_shape_keys _ _ Hsh).
    - eapply Forall2_trans_in; [exact Hsh|exact Hd3|]. intros x x' y _ Hx. by apply named_shape.
    - by rewrite Hd4, (untype_entries_shape _ _ _ Hsh).
  Qed.
End endpoint.
Print Assumptions C46_introspected.

(** ** Without [__typename] nothing is added *)
Fixpoint no_typename (q : qitem) : Prop :=
  q_name q <> TYPENAME /\ match q with QF _ _ _ => True | QL _ sub _ _ _ => foldr (fun q P => no_typename q /\ P) True sub end.
Lemma untype_plain g q : no_typename q -> forall tn gn e, PropResult.named g tn gn q e -> untype q e.2 = e.2.
Proof.
  induction q as [n o a|n sub ord o a IH] using qitem_ind'; [done|]. intros [_ Hp] tn gn e Hn. rewrite foldr_and in Hp.
  assert (forall tn gn d, Forall2 (PropResult.named g tn gn) sub d -> untype_entries untype sub d = d) as Hs.
  { clear -IH Hp. intros tn gn d Hd. revert IH Hp. induction Hd as [|q [k t] sub d Hq _ IHd]; intros IH Hp; [done|].
    inversion IH as [|? ? IH1 IH2]; inversion Hp as [|? ? Hp1 Hp2]; subst. cbn [untype_entries].
    rewrite decide_False by (by destruct q, Hp1). rewrite (IHd IH2 Hp2). f_equal. f_equal. exact (IH1 Hp1 tn gn (k, t) Hq). }
  inversion Hn as [| |?|? ? ? ? ? ? ? l gn' d _ _ Hd|? ? ? ? ? ? ? l gn' ds _ _ Hd]; subst; cbn [untype snd]; [done| |].
  - by rewrite (Hs _ _ _ Hd).
  - f_equal. clear Hn. induction Hd as [|d ds Hd _ IHd]; [done|]. cbn [map]. rewrite (Hs _ _ _ Hd). f_equal. apply IHd.
Qed.
Lemma entries_plain g tn gn l d : Forall no_typename l -> Forall2 (PropResult.named g tn gn) l d -> untype_entries untype l d = d.
Proof.
  intros Hp Hd. revert Hp. induction Hd as [|q [k t] l d Hq _ IH]; intros Hp; [done|]. inversion Hp as [|? ? Hp1 Hp2]; subst.
  cbn [untype_entries]. rewrite decide_False by (by destruct q, Hp1). rewrite (IH Hp2). f_equal. f_equal. exact (untype_plain g q Hp1 tn gn (k, t) Hq).
Qed.
Lemma strip_plain q : no_typename q -> strip_item q = q.
Proof.
  induction q as [n o a|n sub ord o a IH] using qitem_ind'; [done|]. intros [_ Hp]. rewrite foldr_and in Hp. cbn [strip_item]. f_equal.
  induction sub as [|q sub IHs]; [done|]. inversion IH as [|? ? IH1 IH2]; inversion Hp as [|? ? Hp1 Hp2]; subst. cbn [flat_map].
  rewrite decide_False by (by destruct q, Hp1). cbn [app]. by rewrite (IH1 Hp1), (IHs IH2 Hp2).
Qed.
Lemma strip_plain_query q : Forall no_typename (qfields q) -> strip_query q = q.
Proof.
  destruct q as [l ord]. unfold strip_query. cbn [qfields qordered]. intros Hp. f_equal. induction Hp as [|q l Hq _ IH]; [done|].
  cbn [strip_items flat_map]. rewrite decide_False by (by destruct q, Hq). cbn [app]. rewrite strip_plain by done. f_equal. exact IH.
Qed.

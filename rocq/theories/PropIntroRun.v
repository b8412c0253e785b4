(** Queries about the schema, run by the engine (C56): hiku/introspection/graphql.py, hiku/engine.py. *)
From stdpp Require Import relations.
From Verif Require Import Base Val Types Query QuerySpec Graph Queue QueueSpec QueueProof Result Engine EngineSpec CostSpec CallSpec SubSpec SubJob Validate ValidateSpec
  PropValidate PropValExec PropOptions PropBound GraphExt Introspect IntrospectSpec PropIntrospect PropIntroGraph PropIntroSound PropIntroList PropEndpoint
  IntroRun IntroRunSpec IntroMet IntroServe PropSub PropSubWf PropSubVal SubWfSpec.

(** Completed queries: the same nodes with the same names, all declared options of links *)
Section init.
  Context (g : graph) (q q' : qnode).
  Hypothesis Hopts : distinct_options g.
  Hypothesis Hinit : init_options g q = Ok q'.
  Lemma init_visited gn n' : visited g q' gn n' -> exists n, visited g q gn n /\ Forall2 (normalized g gn) (qfields n) (qfields n').
  Proof.
    intros Hv. induction Hv as [|gn n' q1 l gn' Hv IH Hq Hk Hf Hn].
    - exists q. split; [constructor|]. by apply C11_normalized_options.
    - destruct IH as (n & Hvn & Hnm). apply elem_of_list_lookup in Hq as [k Hk']. destruct (Forall2_lookup_r _ _ _ _ _ Hnm Hk') as (q0 & Hq0 & Hno).
      apply elem_of_list_lookup_2 in Hq0.
      inversion Hno as [? nm o a o' go H1 H2 H3|? nm sub ord o a o' f H1 H2 H3|? nm sub sub' ord o a o' l0 gn0 H1 H2 H3 H4 H5]; subst; try done; simpl in *.
      + congruence.
      + rewrite Hf in H1. injection H1 as <-. rewrite Hn in H2. injection H2 as <-. exists (QN sub ord).
        split; [|done]. by apply (vis_link g q gn n (QL nm sub ord o a) l gn').
  Qed.
  Lemma init_links gn n' q1 l : visited g q' gn n' -> q1 ∈ qfields n' -> q_is_link q1 = true -> find_field gn (q_name q1) = Some (GL l) ->
    forall op, op ∈ gl_opts l -> is_Some (dget (go_name op) (opt_dict (q_opts q1))).
  Proof.
    intros Hv Hq Hli Hf op Hop. destruct (init_visited gn n' Hv) as (n & Hvn & Hnm).
    apply elem_of_list_lookup in Hq as [k Hk']. destruct (Forall2_lookup_r _ _ _ _ _ Hnm Hk') as (q0 & Hq0 & Hno).
    assert (gl_opts l <> []) as Hne by (intros Hz; rewrite Hz in Hop; by apply not_elem_of_nil in Hop).
    inversion Hno as [? nm o a o' go H1 H2 H3|? nm sub ord o a o' f H1 H2 H3|? nm sub sub' ord o a o' l0 gn0 H1 H2 H3 H4 H5]; subst; try done; simpl in *.
    - congruence.
    - rewrite Hf in H1. injection H1 as <-. destruct (H5 Hne) as (d' & -> & _ & _ & Hd). destruct (Hd op Hop) as [He _]. cbn. eauto.
  Qed.
  Lemma init_typename gn n' : visited g q' gn n' -> (forall gn n, visited g q gn n -> typename_once n) -> typename_once n'.
  Proof.
    intros Hv Ho. destruct (init_visited gn n' Hv) as (n & Hvn & Hnm). specialize (Ho gn n Hvn). unfold typename_once in *.
    assert (length (List.filter (fun q0 => bool_decide (q_name q0 = s "__typename")) (qfields n')) =
            length (List.filter (fun q0 => bool_decide (q_name q0 = s "__typename")) (qfields n))) as ->; [|done].
    clear -Hnm. induction Hnm as [|x y l l' Hx _ IH]; [done|]. cbn [List.filter].
    assert (q_name y = q_name x) as -> by (by inversion Hx). destruct (bool_decide (q_name x = s "__typename")); cbn [length]; lia.
  Qed.
End init.

(** C56: with introspection added to a sound graph, a query without validation errors - about the schema, about the
    user's data or about both - is executed without failures, under every schedule, and gives what the functions of
    introspection say of the objects to which the query leads. *)
Section c56.
  Context `{Hasher} (L : loaders) (S : schema) (T : texts) (E : env) (D : data) (parts : gfield -> bool) (g g' : graph) (q : qnode) (k : nat).
  (** The schema: what it names exists, default values can be written as JSON *)
  Hypothesis Hco : coherent S.
  Hypothesis Hjson : json_defaults S T.
  (** The user's graph, to which introspection is added *)
  Hypothesis Henv : wf_env E parts.
  Hypothesis Hwf : wf_graph E parts g.
  Hypothesis Hdist : distinct_options g.
  Hypothesis Hadd : add_introspection L g = Ok g'.
  Hypothesis Hapart : apart L E g.
  (** The loaders: the functions of introspection; the user's loaders serve the data [D] *)
  Hypothesis Hruns : runs_introspection S T L E.
  Hypothesis HD : describes L S T D.
  Hypothesis Huser : forall m c, own_loader E g (c_func c) -> exists r, ret_val (e_oracle E m c) = Some r /\ answers D c r.
  Hypothesis Hdata : data_ok E D g.
  Hypothesis Hedata : env_data_ok E D.
  Hypothesis Hresp : respects_options D.
  Hypothesis Hreads : reads_by_name E.
  Hypothesis Hfuel : no_fuel_exn E.
  (** The query *)
  Hypothesis Hun : unchecked_query g' q.
  Hypothesis Honce : forall gn n, visited g' q gn n -> typename_once n.

  Lemma c56_parts : fits_query g' q -> exists q', init_options g' q = Ok q' /\
    ((forall gn, no_collision (asked g' q' gn)) ->
       all_supported E g' q' /\ serves_met E D (top_job E g' q') /\ met_data E D g' q').
  Proof.
    intros Hf. pose proof (C45_sound_options L g g' Hadd Hdist) as Hd'. pose proof (C45_sound_graph L g g' Hadd E parts Hwf) as Hw'.
    destruct (fits_init g' q Hf) as [q' Hi]. exists q'. split; [done|]. intros Hc.
    pose proof (fits_asks g' q Hd' Hf q' Hi Hun Hc) as Ha.
    pose proof (C04_sound_graph E parts Henv g' q' Hw' Ha) as Hsup.
    assert (forall gn n q0 l, jvisited (top_job E g' q') gn n -> q0 ∈ qfields n -> find_field gn (q_name q0) = Some (GL l) ->
      forall op, op ∈ gl_opts l -> is_Some (dget (go_name op) (opt_dict (q_opts q0)))) as Hgiven.
    { intros gn n q0 l Hv Hq Hfl. apply top_visited in Hv as [Hv _]. eapply init_links; [exact Hd'|exact Hi|exact Hv|exact Hq| |exact Hfl].
      pose proof (ao_items _ _ Ha _ _ _ Hv Hq) as Hx. by rewrite Hfl in Hx. }
    split; [done|]. split.
    - eapply (intro_serves L S T E D parts g g' q' Hco Hjson HD Hadd Hwf Hapart Hgiven Hruns).
      + intros gn n Hv. apply top_visited in Hv as [Hv _]. by eapply init_typename.
      + intros m c _ Ho. by apply Huser.
    - by eapply (intro_mdata L S T E D parts g g' q' Hco Hjson HD Hadd Hwf Hapart Hgiven Hdata Hedata Hsup).
  Qed.
  Theorem C56_fitting_queries : fits_query g' q -> exists q', init_options g' q = Ok q' /\
    ((forall gn, no_collision (asked g' q' gn)) ->
     forall fuel sched r, max_work E g' q' < fuel -> execute E fuel g' q sched r ->
       exists idx, r = Ok (idx, q') /\ denormalize g' idx q' = resolve_query g' (sub_value E D) D q').
  Proof.
    intros Hf. destruct (c56_parts Hf) as (q' & Hi & Hp). exists q'. split; [done|]. intros Hc fuel sched r Hw He. destruct (Hp Hc) as (H1 & H2 & H3).
    eapply (C04_every_execution_met E D g' q q' Hi Hresp Hreads H1 H2 H3); [by eapply we_nested|exact Hfuel|exact Hw|exact He].
  Qed.
  Theorem C56_schema_queries :
    validate k g' q = Ok [] -> (forall q0, q0 ∈ qfields q -> options_proper q0) ->
    exists q', init_options g' q = Ok q' /\
    ((forall gn, no_collision (asked g' q' gn)) ->
     forall fuel sched r, max_work E g' q' < fuel -> execute E fuel g' q sched r ->
       exists idx, r = Ok (idx, q') /\ denormalize g' idx q' = resolve_query g' (sub_value E D) D q').
  Proof. intros Hv Hp. apply C56_fitting_queries. by apply (C21_accepted_query_fits g' k). Qed.
End c56.
Print Assumptions C56_schema_queries.

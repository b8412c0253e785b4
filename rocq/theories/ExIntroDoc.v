(** A concrete case of C57 over the endpoint: the graphs and loaders of ExIntro. *)
From stdpp Require Import relations.
From Verif Require Import Base Val Types Query QuerySpec Graph Queue QueueSpec QueueProof Result Engine EngineSpec CostSpec CallSpec SubSpec SubJob Validate ValidateSpec
  PropValidate PropValExec PropOptions PropBound GraphExt Introspect IntrospectSpec PropIntrospect PropIntroGraph PropIntroSound PropIntroList PropEndpoint ExprRun PropExprRun Examples ExEngine
  IntroRun IntroRunSpec IntroMet IntroServe PropSub PropSubWf PropSubVal PropIntroRun IntroClient IntroAsk PropIntroClient ExIntro ReadGraphql Endpoint IntroDoc PropIntroDoc SubWfSpec.

(** The endpoint answers to queries and to mutations *)
Definition ie_endpoint : endpoint :=
  match new_endpoint ie_loaders ie_graph (sc_mutation ie_schema) with Ok ep => ep | Err _ => Endpoint ie_graph None end.
Lemma ie_endpoint_ok : new_endpoint ie_loaders ie_graph (sc_mutation ie_schema) = Ok ie_endpoint.
Proof.
  unfold ie_endpoint. assert (is_ok (new_endpoint ie_loaders ie_graph (sc_mutation ie_schema))) as [ep Hep]; [|by rewrite Hep].
  eexists. vm_compute. reflexivity.
Qed.
(** The standard document, its variables being whatever the client sends: any answer is read as [ie_read] *)
Theorem C57_endpoint_example `{Hasher} eager given :
  let rq := Request (Some (Some (introspection_document 7))) given (Some (s "IntrospectionQuery")) in
  exists k fuel, (exists sched r, dispatches (ie_env eager) fuel k ie_endpoint rq sched r) /\
  forall sched r, dispatches (ie_env eager) fuel k ie_endpoint rq sched r ->
  exists t, r = Ok (AData t) /\ r_schema 7 t = Some ie_read.
Proof.
  assert (ie_read = e_schema ie_schema ie_texts) as -> by (vm_compute; reflexivity). intros rq.
  destruct (C57_endpoint ie_loaders ie_schema ie_texts (ie_env eager) ie_data ie_parts ie_graph (sc_mutation ie_schema) ie_endpoint 7 given (Some (s "IntrospectionQuery")))
    as (k0 & Hk).
  - apply C44_example.
  - apply ie_json.
  - apply ie_names.
  - apply ie_deep.
  - apply ie_wf_env.
  - apply ie_wf.
  - apply ie_distinct.
  - apply ie_endpoint_ok.
  - apply ie_apart.
  - apply ie_runs.
  - apply ie_describes.
  - apply ie_user.
  - apply ie_data_ok.
  - by intros sg G node Hl.
  - apply ie_respects.
  - apply ie_reads.
  - apply ie_fuel.
  - by right.
  - exists k0, (S (max_work (ie_env eager) (ep_query ie_endpoint) (standard_query 7))). exact (Hk k0 _ (le_n _) (Nat.lt_succ_diag_r _)).
Qed.

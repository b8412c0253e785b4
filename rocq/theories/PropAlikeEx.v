(** Instances of the theorems of PropAlike (C45, C47): the graph over a sub-graph of ExSubWf. *)
From Verif Require Import Base Val Types Query QuerySpec QueryProof Graph Queue Result Engine EngineSpec CostSpec Validate ValidateSpec PropValidate PropTransform
  PropEngine GraphExt GraphRename Introspect PropIntroGraph Transform Telemetry PropTelemetry EngineSim PropAlike Examples ExEngine ExSub ExSubCheck ExSubWf.
#[local] Existing Instance ex_hasher.

Lemma sound_uses : uses_below (length (e_sgs sub_env)) sound_graph.
Proof. intros gn name f sg rq pr Hn%node_sound Hf Hc. nodes Hn; members Hf; try done; injection Hc as <- <- <-; cbn; lia. Qed.
Lemma low_loaders sg G node : e_sgs sub_env !! sg = Some (G, node) -> loaders_below 1000 G.
Proof.
  destruct sg as [|sg]; [|done]. intros [= <- <-]. intros gn name x f Hn%node_low Hf Hk. nodes Hn; members Hf; injection Hk as <-; lia.
Qed.
Lemma sound_requires : links_require_fields sound_graph.
Proof. intros gn name l r k Hn%node_sound Hf Hr. nodes Hn; members Hf; try done. injection Hr as <-. vm_compute. done. Qed.
Lemma sound_well_formed : well_formed (g_items sound_graph).
Proof. apply gvalidate_wf. vm_compute. reflexivity. Qed.
Theorem C45_sub_example : exists g', add_introspection ex_loaders sound_graph = Ok g' /\
  (forall fuel sched r, execute sub_env fuel sound_graph sound_query sched r <-> execute sub_env fuel g' sound_query sched r) /\
  (forall idx, denormalize g' idx sound_query' = denormalize sound_graph idx sound_query').
Proof.
  destruct (add_introspection ex_loaders sound_graph) as [g'|] eqn:Ea; [|by vm_compute in Ea]. exists g'. split; [done|]. split.
  - intros fuel sched r. exact (C45_same_executions sub_env ex_loaders sound_graph g' sound_query sound_query' fuel sched r sound_well_formed Ea sub_nested sound_uses sound_init).
  - intros idx. exact (C45_same_reading ex_loaders sound_graph g' sound_query sound_query' idx Ea sound_init).
Qed.
Theorem C47_sub_example : exists g' T, instrument 1000 1 sound_graph = Ok (g', T) /\
  (forall fuel sched r, execute sub_env fuel sound_graph sound_query sched r <-> execute (metrics_env 1000 T sub_env) fuel g' sound_query sched r) /\
  (forall fuel sched log, exec_log sub_env fuel sound_graph sound_query sched log <->
     exists log', exec_log (metrics_env 1000 T sub_env) fuel g' sound_query sched log' /\ log = map (unwrap_call 1000 T) log').
Proof.
  destruct (instrument 1000 1 sound_graph) as [[g' T]|] eqn:Ei; [|by vm_compute in Ei]. exists g', T. split; [done|]. split; intros fuel sched r.
  - exact (C47_same_executions 1000 sub_env sound_graph g' T sound_query fuel sched r Ei sub_nested sound_uses low_loaders sound_requires
      (fun x Hx => C47_valid_query_asks_fields _ _ 5 x sound_valid Hx)).
  - exact (C47_same_calls 1000 sub_env sound_graph g' T sound_query fuel sched r Ei sub_nested sound_uses low_loaders sound_requires
      (fun x Hx => C47_valid_query_asks_fields _ _ 5 x sound_valid Hx)).
Qed.
Print Assumptions C45_same_executions.
Print Assumptions C45_same_calls.
Print Assumptions C45_same_reading.
Print Assumptions C47_same_executions.
Print Assumptions C47_same_calls.
Print Assumptions C47_same_reading.
Print Assumptions C45_sub_example.
Print Assumptions C47_sub_example.

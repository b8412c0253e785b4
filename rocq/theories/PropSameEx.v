(** Instances of C62. *)
From Verif Require Import KnownSpec PropKnown.
From Verif Require Import Base Val ValProof Types Query QuerySpec QueryProof Graph Queue QueueSpec Result Engine EngineSpec Examples ExEngine CostSpec SubSpec SubWfSpec
  ExSub ExSubCheck PropOptions Validate ValidateSpec PropValidate PropBound PropSub PropSubWf PropSubVal ExSubWf RecordSpec PropRecords PropRecordsEx MoreSpec PropMore PropMoreEx SameSpec PropSame.
From Verif Require Import SubWfSpec.
#[local] Existing Instance ex_hasher.

(** Queries over the graph of PropRecordsEx, in one go *)
Definition rc_query_ok (q : qnode) : Prop :=
  clear_query rc_graph q /\ validate 5 rc_graph q = Ok [] /\ (forall q0, q0 ∈ qfields q -> options_proper q0) /\ unchecked_query rc_graph q /\ spelled_out rc_graph q.
Definition rc_run_ok (q' : qnode) : Prop :=
  (forall gn, no_collision (asked rc_graph q' gn)) /\ typed_values rc_graph (known_obj (fun _ _ => True) rc_graph) (sub_value rc_env rc_data) q'.
Definition inited (q : qnode) : qnode := match init_options rc_graph q with Ok q' => q' | Err _ => q end.
Ltac rc_ok := split; [|split; [vm_compute; reflexivity|split; [|split; [split|]]]];
  [ split; [apply (bool_decide_unpack _); vm_compute; exact I|]; intros q Hq; apply elem_of_list_In in Hq; vm_compute in Hq;
    repeat destruct Hq as [<-|Hq]; try done; vm_compute; repeat split; apply (bool_decide_unpack _); vm_compute; exact I
  | intros q0 Hq; apply elem_of_list_In in Hq; vm_compute in Hq; repeat destruct Hq as [Hq|Hq]; try done; subst q0; vm_compute;
    repeat (first [split | constructor | intros ? ?]); try done
  | intros gn n q0 f Hv Hq%elem_of_list_In Hf; rc_visit Hv; done
  | intros gn n Hv; rc_visit Hv; apply (bool_decide_unpack _); vm_compute; exact I
  | intros gn n q0 f Hv Hq%elem_of_list_In Hl Hf; rc_visit Hv; vm_compute in Hq; repeat destruct Hq as [<-|Hq]; try done;
    vm_compute in Hf; injection Hf as <-; eexists _, _; (split; [reflexivity|]); (split; [reflexivity|]);
    intros q1 Hq1%elem_of_list_In; vm_compute in Hq1; repeat destruct Hq1 as [<-|Hq1]; try done ].
Ltac rc_run := split;
  [ intros gn; match goal with |- no_collision (asked _ ?q _) =>
      apply (no_collision_check _ (flat_map (fun p => asked_list p.1 p.2) (visits rc_graph q))) end;
    [ intros q (n & Hv & Hq)%asked_asked_list; apply elem_of_list_In, in_flat_map; exists (gn, n); split; by apply elem_of_list_In | vm_compute; reflexivity ]
  | intros gn n q0 f t i Hv _ Hq%elem_of_list_In Hl Hf Ht; rc_visit Hv; vm_compute in Hq; repeat destruct Hq as [<-|Hq]; try done;
    vm_compute in Hf; injection Hf as <-; vm_compute in Ht; injection Ht as <-;
    change (of_type (TRec [(s "x", TInt); (s "tags", TSeq rc_tag); (s "up", TOpt rc_tag)]) (rc_place i));
    (split; [eexists _, _; (split; [by left|]); (split; [reflexivity|exact I])|]); (split; [eexists _, _; (split; [by left|]); (split; [reflexivity|])|]);
    [ eexists; (split; [reflexivity|]); repeat constructor; eexists _, _; (split; [by left|]); (split; [reflexivity|exact I])
    | split; [|exact I]; eexists _, _; (split; [by left|]); (split; [reflexivity|]); by left ] ].

(** [{:users [{:place [{:up [:t]} :x]}]}] under the keys [people] and [where] *)
Definition other_query : qnode :=
  QN [QL (s "users") [QL (s "place") [QF (s "x") None None; QL (s "up") [QF (s "w") None None; QF (s "t") None None] false None None] false None (Some (s "where"))]
        false None (Some (s "people"))] false.
Lemma few_ok : rc_query_ok few_query.
Proof. rc_ok. Qed.
Lemma other_ok : rc_query_ok other_query.
Proof. rc_ok. Qed.
Lemma few_run : rc_run_ok (inited few_query).
Proof. rc_run. Qed.
Lemma other_run : rc_run_ok (inited other_query).
Proof. rc_run. Qed.
Lemma few_covered : exists x x', x ∈ qfields few_query /\ x' ∈ qfields other_query /\ covered rc_graph (g_root rc_graph) x x' /\ result_key x <> result_key x'.
Proof.
  eexists _, _. split; [left|]. split; [left|]. split; [|done]. eapply cv_link; [reflexivity|reflexivity|apply sv_refl|]. intros x Hx. apply elem_of_list_singleton in Hx as ->.
  eexists. split; [left|]. eapply cv_parts; [reflexivity|apply sv_refl|]. intros x Hx. apply elem_of_cons in Hx as [->|Hx]; [|apply elem_of_list_singleton in Hx as ->].
  - eexists. split; [right; left|]. constructor. intros x Hx. apply elem_of_list_singleton in Hx as ->. eexists. split; [right; left|]. constructor.
  - eexists. split; [left|]. constructor.
Qed.
Theorem C62_example : exists t1 t2, shown_query rc_graph few_query other_query t1 t2 /\
  (forall fuel sched r, max_work rc_env rc_graph (inited few_query) < fuel -> execute rc_env fuel rc_graph few_query sched r ->
     exists idx, r = Ok (idx, inited few_query) /\ denormalize rc_graph idx (inited few_query) = Ok t1) /\
  (forall fuel sched r, max_work rc_env rc_graph (inited other_query) < fuel -> execute rc_env fuel rc_graph other_query sched r ->
     exists idx, r = Ok (idx, inited other_query) /\ denormalize rc_graph idx (inited other_query) = Ok t2).
Proof.
  destruct few_ok as (A1 & A2 & A3 & A4 & A5). destruct other_ok as (B1 & B2 & B3 & B4 & B5).
  destruct (C62_same_request_same_answer rc_env rc_data whole (fun _ _ => True) rc_graph few_query other_query 5 rc_wf_env rc_wf rc_distinct (C21_serves_known _ _ _ rc_serves rc_data_ok rc_env_data) rc_respects rc_reads rc_no_fuel
    A1 A2 A3 A4 A5 B1 B2 B3 B4 B5) as (q1 & q2 & H1 & H2 & Hall).
  assert (q1 = inited few_query) as -> by (unfold inited; by rewrite H1). assert (q2 = inited other_query) as -> by (unfold inited; by rewrite H2).
  apply Hall; [apply few_run|apply few_run|apply other_run|apply other_run].
Qed.

(** The query of PropRecordsEx and the one above, merged *)
Lemma merged_ok : rc_query_ok (merge [few_query; tag_query]).
Proof. rc_ok. Qed.
Lemma merged_run : rc_run_ok (inited (merge [few_query; tag_query])).
Proof. rc_run. Qed.
Lemma merged_parts : no_collision (fun q => exists n, n ∈ [few_query; tag_query] /\ occurs q n).
Proof.
  apply (no_collision_check _ (all_items few_query ++ all_items tag_query)).
  - intros q (n & [->|[->|[]%elem_of_nil]%elem_of_cons]%elem_of_cons & Ho); apply elem_of_app; [left|right]; by apply occurs_all_items.
  - vm_compute. reflexivity.
Qed.
Theorem C62_merged_example : exists t1 t2, within t1 t2 /\
  (forall fuel sched r, max_work rc_env rc_graph (inited few_query) < fuel -> execute rc_env fuel rc_graph few_query sched r ->
     exists idx, r = Ok (idx, inited few_query) /\ denormalize rc_graph idx (inited few_query) = Ok t1) /\
  (forall fuel sched r, max_work rc_env rc_graph (inited (merge [few_query; tag_query])) < fuel -> execute rc_env fuel rc_graph (merge [few_query; tag_query]) sched r ->
     exists idx, r = Ok (idx, inited (merge [few_query; tag_query])) /\ denormalize rc_graph idx (inited (merge [few_query; tag_query])) = Ok t2).
Proof.
  destruct few_ok as (A1 & A2 & A3 & A4 & A5). destruct merged_ok as (B1 & B2 & B3 & B4 & B5).
  destruct (C62_merged_queries rc_env rc_data whole (fun _ _ => True) rc_graph [few_query; tag_query] few_query 5) as (q1 & q2 & H1 & H2 & Hall);
    [left|exact merged_parts|exact rc_wf_env|exact rc_wf|exact rc_distinct|exact (C21_serves_known _ _ _ rc_serves rc_data_ok rc_env_data)|exact rc_respects|exact rc_reads|exact rc_no_fuel
    |exact A1|exact A2|exact A3|exact A4|exact A5|exact B1|exact B2|exact B3|exact B4|exact B5|].
  assert (q1 = inited few_query) as -> by (unfold inited; by rewrite H1). assert (q2 = inited (merge [few_query; tag_query])) as -> by (unfold inited; by rewrite H2).
  apply Hall; [apply few_run|apply few_run|apply merged_run|apply merged_run].
Qed.

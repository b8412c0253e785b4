(** Instances of C61, and why the parts of a record must be named once. *)
From Verif Require Import KnownSpec PropKnown.
From Verif Require Import Base Val ValProof Types Query QuerySpec QueryProof Graph Queue QueueSpec Result Engine EngineSpec Examples ExEngine CostSpec SubSpec SubWfSpec
  ExSub ExSubCheck PropOptions Validate ValidateSpec PropValidate PropBound PropSub PropSubWf PropSubVal ExSubWf RecordSpec PropRecords PropRecordsEx MoreSpec PropMore.
From Verif Require Import SubWfSpec.
#[local] Existing Instance ex_hasher.

(** [{:users [{:place [{:up [:t]} :x]}]}]: a part of the query of PropRecordsEx, in another order *)
Definition few_query : qnode :=
  QN [QL (s "users") [QL (s "place") [QL (s "up") [QF (s "t") None None] false None None; QF (s "x") None None] false None None] false None None] false.
(** [{:users [{:place [{:tags [:t]}]}]}] and [{:users [{:place [{:tags [:t]} {:tags [:w]}]}]}] *)
Definition tag_query : qnode :=
  QN [QL (s "users") [QL (s "place") [QL (s "tags") [QF (s "t") None None] false None None] false None None] false None None] false.
Definition twice_query : qnode :=
  QN [QL (s "users") [QL (s "place") [QL (s "tags") [QF (s "t") None None] false None None; QL (s "tags") [QF (s "w") None None] false None None]
    false None None] false None None] false.

Lemma few_part : part_query few_query rc_query.
Proof.
  intros q Hq. apply elem_of_list_singleton in Hq as ->. eexists. split; [left|]. constructor. intros q Hq. apply elem_of_list_singleton in Hq as ->. eexists. split; [left|].
  constructor. intros q Hq. apply elem_of_cons in Hq as [->|Hq]; [|apply elem_of_list_singleton in Hq as ->].
  - eexists. split; [do 2 right; left|]. constructor. intros q Hq. apply elem_of_list_singleton in Hq as ->. eexists. split; [left|]. constructor.
  - eexists. split; [left|]. constructor.
Qed.
Lemma rc_clear : clear_query rc_graph rc_query.
Proof.
  split; [apply (bool_decide_unpack _); vm_compute; exact I|]. intros q Hq. apply elem_of_list_singleton in Hq as ->. vm_compute.
  repeat split; apply (bool_decide_unpack _); vm_compute; exact I.
Qed.
Lemma few_unchecked : unchecked_query rc_graph few_query.
Proof.
  split.
  - intros gn n q0 f Hv Hq%elem_of_list_In Hf. rc_visit Hv; done.
  - intros gn n Hv. rc_visit Hv; apply (bool_decide_unpack _); vm_compute; exact I.
Qed.
Definition few_query' : qnode := match init_options rc_graph few_query with Ok q => q | Err _ => few_query end.
Lemma few_init : init_options rc_graph few_query = Ok few_query'.
Proof. vm_compute. reflexivity. Qed.
Theorem C61_example : exists t1 t2, within t1 t2 /\
  (forall fuel sched r, max_work rc_env rc_graph few_query' < fuel -> execute rc_env fuel rc_graph few_query sched r ->
     exists idx, r = Ok (idx, few_query') /\ denormalize rc_graph idx few_query' = Ok t1) /\
  (forall fuel sched r, max_work rc_env rc_graph rc_query' < fuel -> execute rc_env fuel rc_graph rc_query sched r ->
     exists idx, r = Ok (idx, rc_query') /\ denormalize rc_graph idx rc_query' = Ok t2).
Proof.
  destruct (C61_asking_for_more rc_env rc_data whole (fun _ _ => True) rc_graph few_query rc_query 5 rc_wf_env rc_wf rc_distinct (C21_serves_known _ _ _ rc_serves rc_data_ok rc_env_data) rc_respects rc_reads rc_no_fuel
    few_part rc_clear rc_valid rc_proper few_unchecked rc_unchecked rc_spelled) as (q1 & q2 & H1 & H2 & Hall).
  rewrite few_init in H1. injection H1 as <-. rewrite rc_init in H2. injection H2 as <-. exact (Hall rc_collisions rc_typed).
Qed.

(** Naming a part of a record once more, with other parts: accepted, executed, and what was asked for first is gone *)
Lemma tag_part : part_query tag_query twice_query.
Proof.
  intros q Hq. apply elem_of_list_singleton in Hq as ->. eexists. split; [left|]. constructor. intros q Hq. apply elem_of_list_singleton in Hq as ->. eexists. split; [left|].
  constructor. intros q Hq. apply elem_of_list_singleton in Hq as ->. eexists. split; [left|]. constructor. intros q Hq. apply elem_of_list_singleton in Hq as ->. eexists. split; [left|]. constructor.
Qed.
Definition twice_query' : qnode := match init_options rc_graph twice_query with Ok q => q | Err _ => twice_query end.
Lemma twice_init : init_options rc_graph twice_query = Ok twice_query'.
Proof. vm_compute. reflexivity. Qed.
Lemma twice_valid : validate 5 rc_graph twice_query = Ok [].
Proof. vm_compute. reflexivity. Qed.
Lemma twice_proper q0 : q0 ∈ qfields twice_query -> options_proper q0.
Proof.
  intros Hq. apply elem_of_list_In in Hq. vm_compute in Hq. repeat destruct Hq as [Hq|Hq]; try done; subst q0; vm_compute;
    repeat (first [split | constructor | intros ? ?]); try done.
Qed.
Lemma twice_unchecked : unchecked_query rc_graph twice_query.
Proof.
  split.
  - intros gn n q0 f Hv Hq%elem_of_list_In Hf. rc_visit Hv; done.
  - intros gn n Hv. rc_visit Hv; apply (bool_decide_unpack _); vm_compute; exact I.
Qed.
Lemma twice_spelled : spelled_out rc_graph twice_query.
Proof.
  intros gn n q0 f Hv Hq%elem_of_list_In Hl Hf. rc_visit Hv; vm_compute in Hq; repeat destruct Hq as [<-|Hq]; try done.
  vm_compute in Hf. injection Hf as <-. eexists _, _. split; [reflexivity|]. split; [reflexivity|].
  intros q1 Hq1%elem_of_list_In. vm_compute in Hq1. repeat destruct Hq1 as [<-|Hq1]; try done.
Qed.
Lemma twice_collisions gn : no_collision (asked rc_graph twice_query' gn).
Proof.
  apply (no_collision_check _ (flat_map (fun p => asked_list p.1 p.2) (visits rc_graph twice_query'))).
  - intros q (n & Hv & Hq)%asked_asked_list. apply elem_of_list_In, in_flat_map. exists (gn, n). split; by apply elem_of_list_In.
  - vm_compute. reflexivity.
Qed.
Lemma twice_typed : typed_values rc_graph (known_obj (fun _ _ => True) rc_graph) (sub_value rc_env rc_data) twice_query'.
Proof.
  intros gn n q0 f t i Hv _ Hq%elem_of_list_In Hl Hf Ht. rc_visit Hv; vm_compute in Hq; repeat destruct Hq as [<-|Hq]; try done.
  vm_compute in Hf. injection Hf as <-. vm_compute in Ht. injection Ht as <-.
  change (of_type (TRec [(s "x", TInt); (s "tags", TSeq rc_tag); (s "up", TOpt rc_tag)]) (rc_place i)).
  split; [eexists _, _; split; [by left|]; split; [reflexivity|exact I]|]. split; [eexists _, _; split; [by left|]; split; [reflexivity|]|].
  - eexists. split; [reflexivity|]. repeat constructor; eexists _, _; (split; [by left|]); (split; [reflexivity|exact I]).
  - split; [|exact I]. eexists _, _. split; [by left|]. split; [reflexivity|]. by left.
Qed.
Theorem C61_part_named_twice_refuted : part_query tag_query twice_query /\ validate 5 rc_graph twice_query = Ok [] /\
  forall fuel sched r, max_work rc_env rc_graph twice_query' < fuel -> execute rc_env fuel rc_graph twice_query sched r ->
    exists idx, r = Ok (idx, twice_query') /\
      denormalize rc_graph idx twice_query' = Ok (TO [(s "users", TL (map (fun _ => TO [(s "place", TO
        [(s "tags", TL [TO [(s "w", TP (PRaw (IVal (VInt 7))))]; TO [(s "w", TP (PRaw (IVal (VInt 7))))]])])]) [5%Z; 6%Z]))]).
Proof.
  split; [exact tag_part|]. split; [exact twice_valid|]. intros fuel sched r Hw He.
  destruct (C21_validated_query_has_result rc_env rc_data whole (fun _ _ => True) rc_graph twice_query 5 rc_wf_env rc_wf rc_distinct twice_valid twice_proper
    twice_unchecked twice_spelled (C21_serves_known _ _ _ rc_serves rc_data_ok rc_env_data) rc_respects rc_reads rc_no_fuel) as (q' & Hi & Hall).
  rewrite twice_init in Hi. injection Hi as <-.
  destruct (Hall twice_collisions twice_typed) as (t & Ht & Hex). destruct (Hex fuel sched r Hw He) as (idx & Hr & Hd). exists idx. split; [done|].
  rewrite Hd, <- Ht. vm_compute. reflexivity.
Qed.

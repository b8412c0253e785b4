(** A query for parts of record fields: an instance of C21_validated_query_has_result. *)
From Verif Require Import KnownSpec PropKnown.
From Verif Require Import Base Val ValProof Types Query QuerySpec QueryProof Graph Queue QueueSpec Result Engine EngineSpec Examples ExEngine CostSpec SubSpec SubWfSpec
  ExSub ExSubCheck PropOptions Validate ValidateSpec PropValidate PropBound PropSub PropSubWf PropSubVal ExSubWf RecordSpec PropRecords.
From Verif Require Import SubWfSpec.
#[local] Existing Instance ex_hasher.

(** [Node('user', [Field('place', TypeRef['Place'], f)])], [Root([Link('users', Sequence[TypeRef['user']], g, requires=None)])],
    [data_types={'Place': Record[{'x': Integer, 'tags': Sequence[Record[{'t': String, 'w': Integer}]], 'up': Optional[Record[{'t': String, 'w': Integer}]]}]}] *)
Definition rc_tag : ty := TRec [(s "t", TStr); (s "w", TInt)].
Definition rc_user : gnode := GNode (Some (s "user")) [GF (GField (s "place") (Some (TRef (s "Place"))) (FPlain 1) [])].
Definition rc_root : gnode := GNode None [GL (GLink (s "users") Many (s "user") 30 None [])].
Definition rc_graph : graph := Graph [rc_user; rc_root] [(s "Place", TRec [(s "x", TInt); (s "tags", TSeq rc_tag); (s "up", TOpt rc_tag)])].
Definition rc_tagged (x : str) : val := VDict [(VStr (s "t"), VStr x); (VStr (s "w"), VInt 7)].
Definition rc_place (i : option val) : val :=
  VDict [(VStr (s "x"), default VNone i); (VStr (s "tags"), VList [rc_tagged (s "a"); rc_tagged (s "b")]); (VStr (s "up"), VNone)].
Definition rc_data : data := {| d_field := fun _ i _ _ => rc_place i; d_link := fun _ _ _ => VList [VInt 5; VInt 6] |}.
Definition rc_env : env := Env [] (fun _ => oracle_of rc_data) (fun _ => false) (fun _ _ _ _ => Err KeyError) false.
(** [{:users [{:place [:x {:tags [:t]} {:up [:t]}]}]}] *)
Definition rc_query : qnode :=
  QN [QL (s "users") [QL (s "place") [QF (s "x") None None; QL (s "tags") [QF (s "t") None None] false None None;
                                      QL (s "up") [QF (s "t") None None] false None None] false None None] false None None] false.

Lemma rc_nodes gn : node_of rc_graph gn -> gn ∈ [rc_root; rc_user].
Proof.
  intros [->|[n Hn]]; [vm_compute; left|]. apply dget_Some_elem, elem_of_list_In in Hn. vm_compute in Hn.
  destruct Hn as [Hn|[]]. injection Hn as <- <-. right. left.
Qed.
Lemma rc_wf_env : wf_env rc_env whole.
Proof. split; [intros [|?]; done|intros [|?]; done]. Qed.
Lemma rc_wf : wf_graph rc_env whole rc_graph.
Proof.
  split.
  - intros gn name it Hn%rc_nodes Hf. nodes Hn; members Hf; no_bracket.
  - reflexivity.
  - intros gn name l Hn%rc_nodes Hf. nodes Hn; members Hf. split; [by eexists|]. intros r Hr. done.
  - intros gn name f sg rq pr Hn%rc_nodes Hf Hc. nodes Hn; members Hf; done.
Qed.
Lemma rc_valid : validate 5 rc_graph rc_query = Ok [].
Proof. vm_compute. reflexivity. Qed.
Lemma rc_proper q0 : q0 ∈ qfields rc_query -> options_proper q0.
Proof.
  intros Hq. apply elem_of_list_In in Hq. vm_compute in Hq. repeat destruct Hq as [Hq|Hq]; try done; subst q0; vm_compute;
    repeat (first [split | constructor | intros ? ?]); try done.
Qed.
Ltac rc_visit Hv := apply visited_visits, elem_of_list_In in Hv; vm_compute in Hv; repeat destruct Hv as [Hv|Hv]; try done; injection Hv as <- <-.
Lemma rc_unchecked : unchecked_query rc_graph rc_query.
Proof.
  split.
  - intros gn n q0 f Hv Hq%elem_of_list_In Hf. rc_visit Hv; done.
  - intros gn n Hv. rc_visit Hv; apply (bool_decide_unpack _); vm_compute; exact I.
Qed.
Lemma rc_distinct : distinct_options rc_graph.
Proof. intros gn n go Hn%rc_nodes Hf. nodes Hn; members Hf; apply (bool_decide_unpack _); vm_compute; exact I. Qed.
Lemma rc_spelled : spelled_out rc_graph rc_query.
Proof.
  intros gn n q0 f Hv Hq%elem_of_list_In Hl Hf. rc_visit Hv; vm_compute in Hq; repeat destruct Hq as [<-|Hq]; try done.
  vm_compute in Hf. injection Hf as <-. eexists _, _. split; [reflexivity|]. split; [reflexivity|].
  intros q1 Hq1%elem_of_list_In. vm_compute in Hq1. repeat destruct Hq1 as [<-|Hq1]; try done.
Qed.
Definition rc_query' : qnode := match init_options rc_graph rc_query with Ok q => q | Err _ => rc_query end.
Lemma rc_init : init_options rc_graph rc_query = Ok rc_query'.
Proof. vm_compute. reflexivity. Qed.
Lemma rc_collisions gn : no_collision (asked rc_graph rc_query' gn).
Proof.
  apply (no_collision_check _ (flat_map (fun p => asked_list p.1 p.2) (visits rc_graph rc_query'))).
  - intros q (n & Hv & Hq)%asked_asked_list. apply elem_of_list_In, in_flat_map. exists (gn, n). split; by apply elem_of_list_In.
  - vm_compute. reflexivity.
Qed.
Lemma rc_typed : typed_values rc_graph (known_obj (fun _ _ => True) rc_graph) (sub_value rc_env rc_data) rc_query'.
Proof.
  intros gn n q0 f t i Hv _ Hq%elem_of_list_In Hl Hf Ht. rc_visit Hv; vm_compute in Hq; repeat destruct Hq as [<-|Hq]; try done.
  vm_compute in Hf. injection Hf as <-. vm_compute in Ht. injection Ht as <-.
  change (of_type (TRec [(s "x", TInt); (s "tags", TSeq rc_tag); (s "up", TOpt rc_tag)]) (rc_place i)).
  split; [eexists _, _; split; [by left|]; split; [reflexivity|exact I]|]. split; [eexists _, _; split; [by left|]; split; [reflexivity|]|].
  - eexists. split; [reflexivity|]. repeat constructor; eexists _, _; (split; [by left|]); (split; [reflexivity|exact I]).
  - split; [|exact I]. eexists _, _. split; [by left|]. split; [reflexivity|]. by left.
Qed.
Lemma rc_serves : serves rc_env rc_data.
Proof. by apply oracle_of_serves. Qed.
Lemma rc_respects : respects_options rc_data.
Proof. by split. Qed.
Lemma rc_reads : reads_by_name rc_env.
Proof. split; done. Qed.
Lemma rc_no_fuel : no_fuel_exn rc_env.
Proof. split; [|done]. intros n c. cbn. unfold oracle_of. destruct (c_args c) as [? []|[[]|] ?]; done. Qed.
Lemma rc_data_ok : data_ok rc_env rc_data rc_graph.
Proof.
  split.
  - intros gn name l a o Hn%rc_nodes Hf. nodes Hn; members Hf. by eexists.
  - intros gn name f sg rq pr G' node gn' k j o Hn%rc_nodes Hf Hc. nodes Hn; members Hf; done.
Qed.
Lemma rc_env_data : env_data_ok rc_env rc_data.
Proof. intros [|?]; done. Qed.

Theorem C21_parts_example fuel sched r :
  max_work rc_env rc_graph rc_query' < fuel -> execute rc_env fuel rc_graph rc_query sched r ->
  exists idx, r = Ok (idx, rc_query') /\
    denormalize rc_graph idx rc_query' = Ok (TO [(s "users", TL (map (fun n => TO [(s "place", TO
      [(s "x", TP (PRaw (IVal (VInt n))));
       (s "tags", TL [TO [(s "t", TP (PRaw (IVal (VStr (s "a")))))]; TO [(s "t", TP (PRaw (IVal (VStr (s "b")))))]]);
       (s "up", TP (PRaw (IVal VNone)))])]) [5%Z; 6%Z]))]).
Proof.
  intros Hw He.
  destruct (C21_validated_query_has_result rc_env rc_data whole (fun _ _ => True) rc_graph rc_query 5 rc_wf_env rc_wf rc_distinct rc_valid rc_proper
    rc_unchecked rc_spelled (C21_serves_known _ _ _ rc_serves rc_data_ok rc_env_data) rc_respects rc_reads rc_no_fuel) as (q' & Hi & Hall).
  rewrite rc_init in Hi. injection Hi as <-.
  destruct (Hall rc_collisions rc_typed) as (t & Ht & Hex). destruct (Hex fuel sched r Hw He) as (idx & Hr & Hd). exists idx. split; [done|].
  rewrite Hd, <- Ht. vm_compute. reflexivity.
Qed.

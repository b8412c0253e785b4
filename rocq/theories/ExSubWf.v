(** Sound graphs: an instance, with the theorems about validated queries applied to it (C04, C21). *)
From Verif Require Import Base Val Types Query QuerySpec QueryProof Graph Queue QueueSpec Result Engine EngineSpec Examples ExEngine CostSpec SubSpec SubWfSpec
  ExSub ExSubCheck PropOptions Validate ValidateSpec PropValidate PropBound PropSub PropSubWf PropSubVal.
#[local] Existing Instance ex_hasher.

(** As [high_graph] without [clock], which does not use [this] *)
Definition sound_user : gnode := GNode (Some (s "user"))
  [GF (GField (s "id") None (FPlain 23) []);
   GF (GField (s "label") None (FChecked 0 reqs_label 1) []);
   GF (GField (s "stamp") None (FChecked 0 reqs_stamp 2) [GOption (s "fmt") None (VInt 8)]);
   GL (GLink (s "chief") One (s "user") 32 (Some (s "label")) [])].
Definition sound_graph : graph := Graph [sound_user; high_root] [].
Definition whole (f : gfield) : bool := false.

Lemma node_low gn : node_of low_graph gn -> gn ∈ [low_root; low_user].
Proof.
  intros [->|[n Hn]]; [vm_compute; left|]. apply dget_Some_elem, elem_of_list_In in Hn. vm_compute in Hn.
  destruct Hn as [Hn|[]]. injection Hn as <- <-. right. left.
Qed.
Lemma node_sound gn : node_of sound_graph gn -> gn ∈ [high_root; sound_user].
Proof.
  intros [->|[n Hn]]; [vm_compute; left|]. apply dget_Some_elem, elem_of_list_In in Hn. vm_compute in Hn.
  destruct Hn as [Hn|[]]. injection Hn as <- <-. right. left.
Qed.
Ltac members Hf :=
  apply dget_Some_elem, elem_of_list_In in Hf; vm_compute in Hf; repeat destruct Hf as [Hf|Hf]; try done; injection Hf as <- <-.
Ltac nodes H := apply elem_of_cons in H as [->|[->|[]%not_elem_of_nil]%elem_of_cons].
Ltac no_bracket := let H := fresh in intros H; repeat (apply elem_of_cons in H as [H|H]; [discriminate H|]); by apply not_elem_of_nil in H.

Lemma low_wf : wf_graph sub_env whole low_graph.
Proof.
  split.
  - intros gn name it Hn%node_low Hf. nodes Hn; members Hf; no_bracket.
  - reflexivity.
  - intros gn name l Hn%node_low Hf. nodes Hn; members Hf. split; [by eexists|]. intros r [= <-]. split; [done|].
    eexists. split; [reflexivity|]. by intros (? & ? & ? & ?).
  - intros gn name f sg rq pr Hn%node_low Hf Hc. nodes Hn; members Hf; done.
Qed.
Example sub_wf_env : wf_env sub_env whole.
Proof.
  split; [apply sub_nested|]. intros [|sg] G node Hs; [|done]. injection Hs as <- <-. split; [apply low_wf|reflexivity].
Qed.
Example sound_wf : wf_graph sub_env whole sound_graph.
Proof.
  split.
  - intros gn name it Hn%node_sound Hf. nodes Hn; members Hf; no_bracket.
  - reflexivity.
  - intros gn name l Hn%node_sound Hf. nodes Hn; members Hf; (split; [by eexists|]); intros r Hr; [done|].
    injection Hr as <-. split; [done|]. eexists. split; [reflexivity|]. done.
  - intros gn name f sg rq pr Hn%node_sound Hf Hc. nodes Hn; members Hf; try done; injection Hc as <- <- <-.
    all: split; [by eexists|]; split; [apply reqs_ok_check; vm_compute; reflexivity|]; split; [eexists; split; [left|reflexivity]|].
    all: exists low_graph, (s "user"), low_user; split; [reflexivity|]; split; [reflexivity|]; split.
    all: intros q Hq%elem_of_list_In; vm_compute in Hq; repeat destruct Hq as [<-|Hq]; try done.
    all: try (split; [reflexivity|by intros (? & ? & ? & ?)]).
    cbn [fits_req q_name]. change (find_field low_user (s "boss")) with (Some (GL (GLink (s "boss") One (s "user") 31 (Some (s "boss_id")) []))). cbn iota.
    intros gn' Hn'. vm_compute in Hn'. injection Hn' as <-. split; [|done]. split; [reflexivity|by intros (? & ? & ? & ?)].
Qed.

Example sound_data : data_ok sub_env sub_data sound_graph.
Proof.
  split.
  - intros gn name l a o Hn%node_sound Hf. nodes Hn; members Hf; [by eexists|done].
  - intros gn name f sg rq pr G' node gn' k j o Hn%node_sound Hf Hc Hs Hg Ho. nodes Hn; members Hf; try done; injection Hc as <- <- <-;
      injection Hs as <- <-; vm_compute in Hg; injection Hg as <-; destruct k; cbn; eexists; reflexivity.
Qed.
Example sub_env_data : env_data_ok sub_env sub_data.
Proof.
  intros [|sg] G node Hs; [|done]. injection Hs as <- <-. split.
  - intros gn name l a o Hn%node_low Hf. nodes Hn; members Hf; done.
  - intros gn name f sg rq pr G' node gn' k j o Hn%node_low Hf Hc. nodes Hn; members Hf; done.
Qed.

(** [{:users [:id :label :stamp {:chief [:label]}]}] *)
Definition sound_query : qnode :=
  QN [QL (s "users") [QF (s "id") None None; QF (s "label") None None; QF (s "stamp") None None;
                      QL (s "chief") [QF (s "label") None None] false None None] false None None] false.
Example sound_valid : validate 5 sound_graph sound_query = Ok [].
Proof. vm_compute. reflexivity. Qed.
Example sound_proper q0 : q0 ∈ qfields sound_query -> options_proper q0.
Proof.
  intros Hq. apply elem_of_list_In in Hq. vm_compute in Hq. repeat destruct Hq as [Hq|Hq]; try done; subst q0; vm_compute;
    repeat (first [split | constructor | intros ? ?]); try done.
Qed.
Example sound_unchecked : unchecked_query sound_graph sound_query.
Proof.
  split.
  - intros gn n q0 f Hv%visited_visits%elem_of_list_In Hq%elem_of_list_In Hf. vm_compute in Hv.
    repeat destruct Hv as [Hv|Hv]; try done; injection Hv as <- <-; done.
  - intros gn n Hv%visited_visits%elem_of_list_In. vm_compute in Hv.
    repeat destruct Hv as [Hv|Hv]; try done; injection Hv as <- <-; apply (bool_decide_unpack _); vm_compute; exact I.
Qed.
Example sound_distinct : distinct_options sound_graph.
Proof.
  intros gn n go Hn%node_sound Hf. nodes Hn; members Hf; apply (bool_decide_unpack _); vm_compute; exact I.
Qed.
Definition sound_query' : qnode := match init_options sound_graph sound_query with Ok q => q | Err _ => sound_query end.
Example sound_init : init_options sound_graph sound_query = Ok sound_query'.
Proof. vm_compute. reflexivity. Qed.
Example sound_collisions gn : no_collision (asked sound_graph sound_query' gn).
Proof.
  apply (no_collision_check _ (flat_map (fun p => asked_list p.1 p.2) (visits sound_graph sound_query'))).
  - intros q (n & Hv & Hq)%asked_asked_list. apply elem_of_list_In, in_flat_map. exists (gn, n). split; by apply elem_of_list_In.
  - vm_compute. reflexivity.
Qed.
Theorem C21_sound_example fuel sched r :
  max_work sub_env sound_graph sound_query' < fuel -> execute sub_env fuel sound_graph sound_query sched r ->
  exists idx, r = Ok (idx, sound_query') /\
    denormalize sound_graph idx sound_query' = Ok (TO [(s "users", TL (map (fun n => TO
      [(s "id", TP (PRaw (IVal (VInt n)))); (s "label", TP (PRaw (IVal (VTuple [VStr (s "user"); VInt n]))));
       (s "stamp", TP (PRaw (IVal (VTuple [VInt 40; VTuple [VStr (s "user"); VInt 1]; VStr (s "noon"); VInt 8]))));
       (s "chief", TO [(s "label", TP (PRaw (IVal (VTuple [VStr (s "user"); VInt 1]))))])]) [5%Z; 6%Z]))]).
Proof.
  intros Hw He.
  destruct (C21_validated_query_gives_result sub_env sub_data whole sound_graph sound_query 5 sub_wf_env sound_wf sound_distinct sound_valid sound_proper
    sound_unchecked sub_serves sub_respects sub_reads (proj1 (proj2 (proj2 C05_example))) sound_data sub_env_data) as (q' & Hi & Hall).
  rewrite sound_init in Hi. injection Hi as <-.
  destruct (Hall sound_collisions fuel sched r Hw He) as (idx & Hr & Hd). exists idx. split; [done|]. rewrite Hd. vm_compute. reflexivity.
Qed.
Print Assumptions C04_sound_graph.
Print Assumptions C04_sound_data.
Print Assumptions C21_validated_query_gives_result.
Print Assumptions C21_validated_query_ends.
Print Assumptions C21_sound_example.

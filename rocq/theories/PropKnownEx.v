(** Loaders which raise for identifiers which do not exist: instance for PropKnown. *)
From Verif Require Import Base Val Types Query QuerySpec QueryProof Graph Queue QueueSpec Result Engine EngineSpec Examples ExEngine CostSpec SubSpec
  ExSub ExSubCheck PropOptions Validate ValidateSpec PropValidate PropBound PropSub PropSubWf PropSubVal ExSubWf KnownSpec PropKnown SubWfSpec.
#[local] Existing Instance ex_hasher.

(** There are the users 1, 5 and 6 *)
Definition user_ids : list val := [VInt 1; VInt 5; VInt 6].
(** The rows of unknown users are missing: KeyError; links know the identifiers of users and their labels *)
Definition strict_call (c : call) : bool :=
  match c_args c with
  | AFields _ (Some ids) => bool_decide (Forall (fun i => i ∈ user_ids) ids)
  | ALink (Some (RList l)) _ => forallb (fun v => match v with IVal a => bool_decide (a ∈ user_ids ++ map (fun i => VTuple [VStr (s "user"); i]) user_ids) | _ => false end) l
  | _ => true
  end.
Definition strict_env : env :=
  Env [(low_graph, s "user")] (fun _ c => if strict_call c then oracle_of sub_data c else Raise KeyError) (fun _ => false) sub_proc false.
Definition users (gn : gnode) (j : val) : Prop := gn_name gn = Some (s "user") /\ j ∈ user_ids.

(** These loaders do not answer for everything *)
Example strict_not_serves : ~ serves strict_env sub_data.
Proof.
  intros Hs. destruct (Hs 0 (Call 21 false (AFields [QF (s "name") None None] (Some [VInt 2])))) as (r & Hr & _).
  vm_compute in Hr. discriminate Hr.
Qed.

Lemma strict_same_wf G : wf_graph sub_env whole G -> wf_graph strict_env whole G.
Proof. intros [H1 H2 H3 H4]. split; [exact H1|exact H2|exact H3|exact H4]. Qed.
Lemma strict_wf_env : wf_env strict_env whole.
Proof. destruct sub_wf_env as [H1 H2]. split; [exact H1|]. intros sg G node Hs. destruct (H2 sg G node Hs) as [Hw Ht]. split; [by apply strict_same_wf|exact Ht]. Qed.
Lemma strict_low : knows strict_env sub_data users low_graph.
Proof.
  split.
  - intros gn i q l gn' Hno Hk Hf Hn. apply node_low in Hno. remember (q_name q) as nm eqn:Enm. nodes Hno; members Hf. vm_compute in Hn. injection Hn as <-.
    split; [done|]. intros j ->%elem_of_list_singleton. split; [done|left].
  - intros gn name f sg rq pr G' node gn' j Hno _ Hf Hfn. apply node_low in Hno. nodes Hno; members Hf; done.
Qed.
Lemma strict_high : knows strict_env sub_data users sound_graph.
Proof.
  split.
  - intros gn i q l gn' Hno Hk Hf Hn. apply node_sound in Hno. remember (q_name q) as nm eqn:Enm. nodes Hno; members Hf; vm_compute in Hn; injection Hn as <-.
    + split; [by eexists|]. intros j Hj. change (j ∈ [VInt 5; VInt 6]) in Hj. split; [done|]. right. exact Hj.
    + split; [done|]. intros j ->%elem_of_list_singleton. split; [done|left].
  - intros gn name f sg rq pr G' node gn' j Hno [_ Hj] Hf Hfn Hsg Hn. apply node_sound in Hno. nodes Hno; members Hf; try done; injection Hfn as <- <- <-;
      injection Hsg as <- <-; vm_compute in Hn; injection Hn as <-; (split; [split; [done|exact Hj]|]); intros o Ho; eexists; reflexivity.
Qed.
(** The identifiers of the calls for users who exist are known, and so are the values required *)
Lemma strict_answers n c : call_for strict_env sub_data users sound_graph c \/
    (exists sg G node, e_sgs strict_env !! sg = Some (G, node) /\ call_for strict_env sub_data users G c) ->
  exists r, ret_val (e_oracle strict_env n c) = Some r /\ answers sub_data c r.
Proof.
  intros Hc. assert (strict_call c = true) as Hs.
  { assert (exists G, (G = sound_graph \/ G = low_graph) /\ call_for strict_env sub_data users G c) as (G & HG & gn & ids & Hno & Hk & Hm).
    { destruct Hc as [Hc|(sg & G & node & Hs & Hc)]; [eauto|]. destruct sg; [|done]. injection Hs as <- <-. eauto. }
    assert (match ids with None => True | Some l => forall i, i ∈ l -> i ∈ user_ids end) as Hids.
    { destruct ids as [l|]; [|done]. intros i Hi. by apply Hk. }
    unfold strict_call. destruct (c_args c) as [qfs ids'|rq o].
    - destruct Hm as (-> & _). destruct ids as [l|]; [|done]. by apply bool_decide_eq_true, Forall_forall.
    - destruct Hm as (l & q & Hf & _ & _ & ->). destruct (gl_requires l) as [r|] eqn:Er; [|done]. destruct ids as [is_|]; [|done].
      apply forallb_forall. intros v Hv. apply elem_of_list_In, elem_of_list_fmap in Hv as (i & -> & Hi). apply Hids in Hi. apply bool_decide_eq_true.
      remember (q_name q) as nm eqn:Enm. destruct HG as [-> | ->]; [apply node_sound in Hno|apply node_low in Hno]; nodes Hno; members Hf; try done; injection Er as <-.
      + apply elem_of_app. right. apply elem_of_list_fmap. exists i. split; [|exact Hi]. reflexivity.
      + apply elem_of_app. left. vm_compute. left. }
  destruct (oracle_of_serves sub_env sub_data (fun _ _ => eq_refl) n c) as (r & Hr & Ha). exists r. split; [|exact Ha].
  cbn [e_oracle strict_env]. by rewrite Hs.
Qed.
Lemma strict_serves : serves_known strict_env sub_data users sound_graph.
Proof.
  split; [exact strict_high| |exact strict_answers]. intros [|sg] G node Hs; [|done]. injection Hs as <- <-. exact strict_low.
Qed.
Lemma strict_reads : reads_by_name strict_env.
Proof. exact sub_reads. Qed.
Lemma strict_no_fuel : no_fuel_exn strict_env.
Proof.
  destruct (proj1 (proj2 (proj2 C05_example))) as [H1 H2]. split; [|exact H2]. intros n c. cbn [e_oracle strict_env].
  destruct (strict_call c); [apply (H1 n c)|done].
Qed.

(** The accepted query gives its result *)
Theorem C21_known_example fuel sched r :
  max_work strict_env sound_graph sound_query' < fuel -> execute strict_env fuel sound_graph sound_query sched r ->
  exists idx, r = Ok (idx, sound_query') /\
    denormalize sound_graph idx sound_query' = Ok (TO [(s "users", TL (map (fun n => TO
      [(s "id", TP (PRaw (IVal (VInt n)))); (s "label", TP (PRaw (IVal (VTuple [VStr (s "user"); VInt n]))));
       (s "stamp", TP (PRaw (IVal (VTuple [VInt 40; VTuple [VStr (s "user"); VInt 1]; VStr (s "noon"); VInt 8]))));
       (s "chief", TO [(s "label", TP (PRaw (IVal (VTuple [VStr (s "user"); VInt 1]))))])]) [5%Z; 6%Z]))]).
Proof.
  intros Hw He.
  destruct (C21_known_data strict_env sub_data whole users sound_graph sound_query 5 strict_wf_env (strict_same_wf _ sound_wf) sound_distinct sound_valid sound_proper
    sound_unchecked strict_serves sub_respects strict_reads strict_no_fuel) as (q' & Hi & Hall).
  rewrite sound_init in Hi. injection Hi as <-.
  destruct (Hall sound_collisions fuel sched r Hw He) as (idx & Hr & Hd). exists idx. split; [done|]. rewrite Hd. vm_compute. reflexivity.
Qed.
Print Assumptions C04_known_data.
Print Assumptions C21_known_data.
Print Assumptions C21_known_data_ends.
Print Assumptions C21_serves_known.
Print Assumptions C21_known_example.

(** Instances of the theorems of PropEndpointSub (C46, C48): an endpoint and a console over the graph with a sub-graph of
    ExSubWf. *)
From Verif Require Import KnownSpec PropKnown.
From Verif Require Import Base Val Types Query QuerySpec QueryProof Graph Queue QueueSpec Result PropResult Engine EngineSpec CostSpec SubSpec
  PropOptions Validate ValidateSpec PropValidate PropBound ReadGraphql Introspect PropIntroGraph PropIntroSound Endpoint PropEndpoint Console PropConsole PropEdn
  PropEndpointSub Examples ExEngine ExSub ExSubCheck ExSubWf.
From Verif Require Import SubWfSpec.
#[local] Existing Instance ex_hasher.
#[local] Existing Instance ex_text.

(** The loader of the links of introspection answers lists; they are not asked for here *)
Definition sub_loaders : loaders := Loaders (fun _ => 20%N) (fun _ => 30%N).
Definition sub_endpoint : endpoint := match new_endpoint sub_loaders sound_graph None with Ok ep => ep | Err _ => Endpoint sound_graph None end.
Definition sub_igraph : graph := match add_introspection sub_loaders sound_graph with Ok g => g | Err _ => sound_graph end.
Lemma sub_added : add_introspection sub_loaders sound_graph = Ok sub_igraph.
Proof. vm_compute. reflexivity. Qed.
(** [{ __typename users { id label kind: __typename chief { label __typename } } }] *)
Definition fl (a : option str) (n : str) (sub : option (list sel)) : sel := SField a n [] [] sub.
Definition sub_doc : list gdef := [DOp (OpDef OQuery None [] [
  fl None (s "__typename") None;
  fl None (s "users") (Some [fl None (s "id") None; fl None (s "label") None; fl (Some (s "kind")) (s "__typename") None;
    fl None (s "chief") (Some [fl None (s "label") None; fl None (s "__typename") None])])])].
Definition sub_request : request := Request (Some (Some sub_doc)) [] None.
Definition sub_rquery : qnode := match read_operation sub_doc [] None with ROk (_, q, _) => q | RErr _ => QN [] false end.
Definition sub_rquery' : qnode := match init_options sub_igraph (strip_query sub_rquery) with Ok q => q | Err _ => QN [] false end.
Lemma sub_rinit : init_options sub_igraph (strip_query sub_rquery) = Ok sub_rquery'.
Proof. vm_compute. reflexivity. Qed.
Lemma sub_runchecked : unchecked_query sub_igraph (strip_query sub_rquery).
Proof.
  split.
  - intros gn n q0 f Hv%visited_visits%elem_of_list_In Hq%elem_of_list_In Hf. vm_compute in Hv.
    repeat destruct Hv as [Hv|Hv]; try done; injection Hv as <- <-; done.
  - intros gn n Hv%visited_visits%elem_of_list_In. vm_compute in Hv.
    repeat destruct Hv as [Hv|Hv]; try done; injection Hv as <- <-; apply (bool_decide_unpack _); vm_compute; exact I.
Qed.
Lemma sub_rcollisions gn : no_collision (asked sub_igraph sub_rquery' gn).
Proof.
  apply (no_collision_check _ (flat_map (fun p => asked_list p.1 p.2) (visits sub_igraph sub_rquery'))).
  - intros q (n & Hv & Hq)%asked_asked_list. apply elem_of_list_In, in_flat_map. exists (gn, n). split; by apply elem_of_list_In.
  - vm_compute. reflexivity.
Qed.
(** Every execution of the request answers data which are, [__typename] aside, the result of the query *)
Theorem C46_sub_example fuel sched r :
  max_work sub_env sub_igraph sub_rquery' < fuel -> dispatches sub_env fuel 5 sub_endpoint sub_request sched r ->
  exists d, r = Ok (AData (TO d)) /\ map fst d = [s "__typename"; s "users"] /\ Forall2 (named sub_igraph QUERY_ROOT_NAME (g_root sub_igraph)) (qfields sub_rquery) d /\
    TO (untype_entries untype (qfields sub_rquery) d) =
    TO [(s "users", TL (map (fun n => TO
        [(s "id", TP (PRaw (IVal (VInt n)))); (s "label", TP (PRaw (IVal (VTuple [VStr (s "user"); VInt n]))));
         (s "chief", TO [(s "label", TP (PRaw (IVal (VTuple [VStr (s "user"); VInt 1]))))])]) [5%Z; 6%Z]))].
Proof.
  intros Hw Hd.
  destruct (C46_data_of_answer sub_env sub_data whole (fun _ _ => True) 5 sub_endpoint sub_request OQuery sub_igraph sub_rquery QUERY_ROOT_NAME) as (q' & Hi & Hall).
  - exists sub_doc, None. split; vm_compute; reflexivity.
  - assert (sub_igraph = ep_query sub_endpoint) as -> by (vm_compute; reflexivity). constructor.
  - vm_compute. reflexivity.
  - reflexivity.
  - exact sub_wf_env.
  - exact (C45_sound_graph sub_loaders sound_graph sub_igraph sub_added sub_env whole sound_wf).
  - exact (C45_sound_options sub_loaders sound_graph sub_igraph sub_added sound_distinct).
  - intros q0 Hq. apply elem_of_list_In in Hq. vm_compute in Hq. repeat destruct Hq as [Hq|Hq]; try done; subst q0; vm_compute;
      repeat (first [split | constructor | intros ? ?]); try done.
  - exact sub_runchecked.
  - apply (bool_decide_unpack _); vm_compute; exact I.
  - intros q0 Hq. apply elem_of_list_In in Hq. vm_compute in Hq. repeat destruct Hq as [Hq|Hq]; try done; subst q0;
      (split_and!; vm_compute; repeat (first [split | apply (bool_decide_unpack _); vm_compute; exact I | done])).
  - apply (C21_serves_known _ _ _ sub_serves); [|exact sub_env_data].
    apply (C45_sound_data sub_loaders sound_graph sub_igraph sub_added sub_env sub_data); [|exact sound_data].
    intros n l a o Hn Hl. unfold intro_items in Hn. rewrite !elem_of_cons, elem_of_nil in Hn.
    destruct Hn as [->|[->|[->|[->|[->|[->|[->|[]]]]]]]]; cbn [gn_fields] in Hl; rewrite !elem_of_cons, elem_of_nil in Hl;
      repeat match type of Hl with _ \/ _ => destruct Hl as [Hl|Hl] | False => destruct Hl end; try discriminate Hl; injection Hl as ->; cbn; try done; by eexists.
  - exact sub_respects.
  - exact sub_reads.
  - exact (proj1 (proj2 (proj2 C05_example))).
  - rewrite sub_rinit in Hi. injection Hi as <-. destruct (Hall sub_rcollisions fuel sched r Hw Hd) as (d & -> & Hk & Hn & Hres).
    exists d. split; [done|]. split; [rewrite Hk; vm_compute; reflexivity|]. split; [done|].
    assert (resolve_query sub_igraph (sub_value sub_env sub_data) sub_data sub_rquery' = Ok (TO [(s "users", TL (map (fun n => TO
        [(s "id", TP (PRaw (IVal (VInt n)))); (s "label", TP (PRaw (IVal (VTuple [VStr (s "user"); VInt n]))));
         (s "chief", TO [(s "label", TP (PRaw (IVal (VTuple [VStr (s "user"); VInt 1]))))])]) [5%Z; 6%Z]))])) as Hv by (vm_compute; reflexivity).
    rewrite Hres in Hv. exact (f_equal (fun r => match r with Ok t => t | Err _ => TO [] end) Hv).
Qed.

(** The console *)
Definition sub_console : console := Console sound_graph false.
Definition sub_body : str := s "[{:users [:id :label :stamp {:chief [:label]}]}]".
Lemma sub_posted : posts_valid ascii no_tags 5 sub_console (ex_posts sub_body) sound_query.
Proof.
  exists sub_body. split; [|split; vm_compute; reflexivity]. split; [by left|]. split; [done|]. exists 48%N.
  split; [exists 48%Z; split; vm_compute; reflexivity|]. split; [lia|]. vm_compute. reflexivity.
Qed.
Theorem C48_sub_example fuel sched r :
  max_work sub_env sound_graph sound_query' < fuel -> responds ascii no_tags sub_env fuel 5 sub_console (ex_posts sub_body) sched r ->
  r = Ok (Response 200 (CtData (TO [(s "users", TL (map (fun n => TO
      [(s "id", TP (PRaw (IVal (VInt n)))); (s "label", TP (PRaw (IVal (VTuple [VStr (s "user"); VInt n]))));
       (s "stamp", TP (PRaw (IVal (VTuple [VInt 40; VTuple [VStr (s "user"); VInt 1]; VStr (s "noon"); VInt 8]))));
       (s "chief", TO [(s "label", TP (PRaw (IVal (VTuple [VStr (s "user"); VInt 1]))))])]) [5%Z; 6%Z]))]))).
Proof.
  intros Hw Hr.
  destruct (C48_data ascii no_tags sub_env sub_data whole (fun _ _ => True) 5 sub_console (ex_posts sub_body) sound_query sub_posted sub_wf_env sound_wf sound_distinct sound_proper
    sound_unchecked (C21_serves_known _ _ _ sub_serves sound_data sub_env_data) sub_respects sub_reads (proj1 (proj2 (proj2 C05_example)))) as (q' & Hi & Hall).
  change (cs_graph sub_console) with sound_graph in *. rewrite sound_init in Hi. injection Hi as <-.
  specialize (Hall sound_collisions fuel sched r Hw Hr).
  assert (exists t, resolve_query sound_graph (sub_value sub_env sub_data) sub_data sound_query' = Ok t /\ json_tree t = true /\ t = TO [(s "users", TL (map (fun n => TO
      [(s "id", TP (PRaw (IVal (VInt n)))); (s "label", TP (PRaw (IVal (VTuple [VStr (s "user"); VInt n]))));
       (s "stamp", TP (PRaw (IVal (VTuple [VInt 40; VTuple [VStr (s "user"); VInt 1]; VStr (s "noon"); VInt 8]))));
       (s "chief", TO [(s "label", TP (PRaw (IVal (VTuple [VStr (s "user"); VInt 1]))))])]) [5%Z; 6%Z]))]) as (t & Ht & Hj & <-).
  { eexists. split; [vm_compute; reflexivity|]. split; vm_compute; reflexivity. }
  rewrite Ht, Hj in Hall. exact Hall.
Qed.
Print Assumptions C46_sub_example.
Print Assumptions C48_sub_example.

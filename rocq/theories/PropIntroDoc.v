(** A client which sends the standard document about the schema to an endpoint (C57): hiku/readers/graphql.py,
    hiku/endpoint/graphql.py, hiku/introspection/graphql.py, hiku/engine.py. *)
From stdpp Require Import relations.
From Verif Require Import Base Val Types Query QuerySpec QueryProof MergeProof Graph Queue QueueSpec QueueProof Result PropResult Engine EngineSpec CostSpec CallSpec SubSpec SubJob Validate ValidateSpec
  PropValidate PropValExec PropOptions PropBound GraphExt Introspect IntrospectSpec PropIntrospect PropIntroGraph PropIntroSound PropIntroList
  IntroRun IntroRunSpec IntroMet IntroServe PropSub PropSubWf PropSubVal PropIntroRun IntroClient IntroAsk PropIntroClient ReadGraphql Endpoint PropEndpoint PropEndpointIntro IntroDoc SubWfSpec.

(** ** Reading the document *)
Section read.
  Context (vars : dict str val).
  Notation vsels := (visit_sels vars). Notation vsel := (visit_sel vars).
  Lemma visit_cons frag c c1 c2 y l r1 r2 : vsel frag c y = ROk (r1, c1) -> vsels frag c1 l = ROk (r2, c2) -> vsels frag c (y :: l) = ROk (r1 ++ r2, c2).
  Proof. intros H1 H2. cbn [visit_sels]. rewrite H1. cbn [rbind fst snd]. fold (vsels frag). rewrite H2. done. Qed.
  Lemma visit_nil frag c : vsels frag c [] = ROk ([], c).
  Proof. done. Qed.
  Lemma visit_field_sel frag c n : vsel frag c (sel_field n) = ROk ([ask n], c).
  Proof. done. Qed.
  Lemma visit_object frag c c' n args o l r : visit_args vars args = ROk o -> vsels frag c l = ROk (r, c') ->
    vsel frag c (sel_object n args l) = ROk ([follow n o r], c').
  Proof.
    intros Ho Hl. unfold sel_object. cbn [visit_sel sel_dirs]. change (should_skip vars []) with (ROk false). cbn [rbind]. rewrite Ho. cbn [rbind].
    match goal with |- rbind ?x _ = _ => assert (x = vsels frag c l) as -> by reflexivity end. rewrite Hl. done.
  Qed.
  Lemma visit_spread frag c n r : frag c (s n) = ROk r -> vsel frag c (spread n) = ROk r.
  Proof. intros Hr. unfold spread. cbn [visit_sel sel_dirs]. change (should_skip vars []) with (ROk false). exact Hr. Qed.
  Lemma args_none : visit_args vars [] = ROk None.
  Proof. done. Qed.
  Lemma args_all : visit_args vars all_of_them = ROk deprecated_too.
  Proof. done. Qed.
  Lemma visit_ref frag c d : vsels frag c (type_ref d) = ROk (ask_ref d, c).
  Proof.
    induction d as [|d IH]; cbn [type_ref ask_ref app].
    - eapply (visit_cons _ _ _ _ _ _ [_] [_]); [apply visit_field_sel|]. eapply (visit_cons _ _ _ _ _ _ [_] []); [apply visit_field_sel|apply visit_nil].
    - eapply (visit_cons _ _ _ _ _ _ [_] [_; _]); [apply visit_field_sel|]. eapply (visit_cons _ _ _ _ _ _ [_] [_]); [apply visit_field_sel|].
      eapply (visit_cons _ _ _ _ _ _ [_] []); [by eapply visit_object|apply visit_nil].
  Qed.
  Context (d : nat).
  Definition doc_frags : dict str (list sel) := [(s "FullType", full_type); (s "InputValue", input_value); (s "TypeRef", type_ref d)].
  Notation frag := (transform_fragment vars doc_frags).
  Lemma frag_first k pending c c' n sels r : dget (s n) doc_frags = Some sels -> dget (s n) c = None -> s n ∉ pending ->
    vsels (frag k (s n :: pending)) c sels = ROk (r, c') -> frag (S k) pending c (s n) = ROk (r, dset (s n) r c').
  Proof. intros H1 H2 H3 H4. cbn [transform_fragment]. rewrite H1, H2. rewrite decide_False by done. rewrite H4. done. Qed.
  Lemma frag_cached k pending c n sels r : dget (s n) doc_frags = Some sels -> dget (s n) c = Some r -> frag (S k) pending c (s n) = ROk (r, c).
  Proof. intros H1 H2. cbn [transform_fragment]. rewrite H1, H2. done. Qed.
  Arguments frag_first _ _ _ _ _%string_scope.
  Arguments frag_cached _ _ _ _%string_scope.

  (** The query as it is written *)
  Definition raw_input : list qitem := [ask "name"; ask "description"; follow "type" None (ask_ref d); ask "defaultValue"].
  Definition raw_field : list qitem :=
    [ask "name"; ask "description"; follow "args" None raw_input; follow "type" None (ask_ref d); ask "isDeprecated"; ask "deprecationReason"].
  Definition raw_type : list qitem :=
    [ask "kind"; ask "name"; ask "description"; follow "fields" deprecated_too raw_field; follow "inputFields" None raw_input;
     follow "interfaces" None (ask_ref d); follow "enumValues" deprecated_too ask_enum; follow "possibleTypes" None (ask_ref d)].
  Definition raw_directive : list qitem := [ask "name"; ask "description"; ask "locations"; follow "args" None raw_input].
  Definition raw_schema : list qitem :=
    [follow "queryType" None [ask "name"]; follow "mutationType" None [ask "name"]; follow "subscriptionType" None [ask "name"];
     follow "types" None raw_type; follow "directives" None raw_directive].
  Definition raw_query : qnode := QN [follow "__schema" None raw_schema] false.

  Ltac step := first [apply visit_nil|eapply (visit_cons _ _ _ _ _ _ [_]); [first [apply visit_field_sel|eapply visit_object; [first [apply args_none|apply args_all]|]]|]].
  Ltac not_in := rewrite ?elem_of_cons, ?elem_of_nil; intros Hx; repeat (destruct Hx as [Hx|Hx]; [discriminate Hx|]); exact Hx.

  Lemma one_spread fr c n r c' : fr c (s n) = ROk (r, c') -> vsels fr c [spread n] = ROk (r, c').
  Proof. intros Hf. rewrite <-(app_nil_r r). eapply visit_cons; [by apply visit_spread|apply visit_nil]. Qed.
  Arguments one_spread _ _ _%string_scope.
  (** The fragments visited so far *)
  Definition c2 : fcache := [(s "TypeRef", ask_ref d); (s "InputValue", raw_input)].
  Definition c3 : fcache := c2 ++ [(s "FullType", raw_type)].
  Lemma read_input k pending : s "TypeRef" ∉ pending -> s "InputValue" ∉ pending ->
    frag (S (S k)) pending [] (s "InputValue") = ROk (raw_input, c2).
  Proof.
    intros H1 H2. apply (frag_first (S k) pending [] [(s "TypeRef", ask_ref d)] "InputValue" input_value); [done|done|done|].
    unfold input_value, raw_input. step. step. step.
    - apply one_spread. apply (frag_first k _ [] [] "TypeRef" (type_ref d)); [done|done| |apply visit_ref].
      apply not_elem_of_cons. done.
    - step. step.
  Qed.
  Lemma cached_ref k pending : frag (S k) pending c2 (s "TypeRef") = ROk (ask_ref d, c2).
  Proof. by apply (frag_cached k pending c2 "TypeRef" (type_ref d)). Qed.
  Lemma cached_input k pending : frag (S k) pending c2 (s "InputValue") = ROk (raw_input, c2).
  Proof. by apply (frag_cached k pending c2 "InputValue" input_value). Qed.
  Lemma read_type : frag 4 [] [] (s "FullType") = ROk (raw_type, c3).
  Proof.
    apply (frag_first 3 [] [] c2 "FullType" full_type); [done|done|not_in|].
    unfold full_type, raw_type. step. step. step. step.
    { unfold raw_field. step. step. step; [apply one_spread, read_input; not_in|]. step; [apply one_spread, cached_ref|]. step. step. step. }
    step; [apply one_spread, cached_input|]. step; [apply one_spread, cached_ref|].
    step; [unfold ask_enum; step; step; step; step; step|]. step; [apply one_spread, cached_ref|]. step.
  Qed.
  Lemma read_raw : visit_sels vars (frag 4 []) [] introspection_query = ROk (qfields raw_query, c3).
  Proof.
    unfold introspection_query, raw_query. cbn [qfields]. step; [|step]. unfold raw_schema. step; [step; step|]. step; [step; step|]. step; [step; step|].
    step; [apply one_spread, read_type|]. step; [|step].
    unfold raw_directive. step. step. step. step; [|step]. apply one_spread. by apply (frag_cached 3 [] c3 "InputValue" input_value).
  Qed.
End read.

(** ** Every level asks for a name once, and names determine options *)
Fixpoint tidy (q : qitem) : Prop :=
  q_opts q = opts_of (q_name q) /\ q_alias q = None /\ q_name q <> TYPENAME /\
  match q with QF _ _ _ => True | QL _ sub _ _ _ => NoDup (map q_name sub) /\ foldr (fun q P => tidy q /\ P) True sub end.
Definition tidy_node (n : qnode) : Prop := NoDup (map q_name (qfields n)) /\ Forall tidy (qfields n).
Lemma tidy_sub q : tidy q -> q_is_link q = true -> tidy_node (q_node q).
Proof. destruct q as [|n sub ord o a]; [done|]. intros (_ & _ & _ & Hd & Hs) _. rewrite foldr_and in Hs. done. Qed.
Lemma tidy_level m n : level_of m n -> tidy_node n -> tidy_node m.
Proof. induction 1 as [|n l m Hl Hk _ IH]; [done|]. intros [Hd Hs]. apply IH. rewrite Forall_forall in Hs. by apply tidy_sub; [apply Hs|]. Qed.
Lemma tidy_occurs q n : occurs q n -> tidy_node n -> tidy q.
Proof.
  induction 1 as [n q Hq|n l q Hl Hk _ IH]; intros [Hd Hs]; rewrite Forall_forall in Hs; [by apply Hs|].
  apply IH. by apply tidy_sub; [apply Hs|].
Qed.
Lemma tidy_opts q : tidy q -> q_opts q = opts_of (q_name q).
Proof. destruct q; by intros [? _]. Qed.
Lemma tidy_merge `{Hasher} n : tidy_node n -> merge [n] = links_last n.
Proof.
  intros Ht. apply merge_no_duplicates.
  - intros q1 q2 H1%tidy_occurs H2%tidy_occurs Hn _; [|done|done]. rewrite (tidy_opts _ H1), (tidy_opts _ H2), Hn. apply same_opts_refl.
  - intros m i j q1 q2 Hm%tidy_level Hi Hj Hne (_ & Hn & _); [|done]. destruct Hm as [Hd _]. apply Hne.
    cbn [label_of lb_name] in Hn. eapply (NoDup_lookup _ i j (q_name q1) Hd); rewrite list_lookup_fmap; [by rewrite Hi|by rewrite Hj, Hn].
Qed.
Ltac names := apply (bool_decide_unpack _); vm_compute; exact I.
Lemma tidy_ask n : opts_of (s n) = None -> s n <> TYPENAME -> tidy (ask n).
Proof. intros Ho Hn. split; [done|]. split; [done|]. split; done. Qed.
Lemma tidy_follow n o sub : opts_of (s n) = o -> s n <> TYPENAME -> NoDup (map q_name sub) -> Forall tidy sub -> tidy (follow n o sub).
Proof. intros Ho Hn Hd Hs. cbn [follow tidy q_opts q_alias q_name]. rewrite foldr_and. auto. Qed.
Ltac tidies := repeat (constructor; [first [apply tidy_ask; [reflexivity|done]|assumption|apply tidy_follow; [reflexivity|done|names|]]|]); try constructor.
Lemma tidy_ref_names d : NoDup (map q_name (ask_ref d)).
Proof. destruct d; names. Qed.
Lemma tidy_ref d : Forall tidy (ask_ref d).
Proof.
  induction d as [|d IH]; cbn [ask_ref app]; [tidies|].
  constructor; [apply tidy_ask; [reflexivity|done]|]. constructor; [apply tidy_ask; [reflexivity|done]|]. constructor; [|constructor].
  apply tidy_follow; [reflexivity|done|apply tidy_ref_names|done].
Qed.
Lemma tidy_follow_ref n o d : opts_of (s n) = o -> s n <> TYPENAME -> tidy (follow n o (ask_ref d)).
Proof. intros Ho Hn. apply tidy_follow; [done|done|apply tidy_ref_names|apply tidy_ref]. Qed.
Lemma tidy_raw d : tidy_node (raw_query d).
Proof.
  assert (forall n o, opts_of (s n) = o -> s n <> TYPENAME -> tidy (follow n o (raw_input d))) as Hi.
  { intros n o Ho Hn. apply tidy_follow; [done|done|names|]. unfold raw_input.
    repeat (constructor; [first [apply tidy_ask; [reflexivity|done]|apply tidy_follow_ref; [reflexivity|done]]|]). constructor. }
  Ltac each Hi := repeat (constructor; [first [apply tidy_ask; [reflexivity|done]|apply tidy_follow_ref; [reflexivity|done]|apply Hi; [reflexivity|done]|
      apply tidy_follow; [reflexivity|done|names|each Hi]]|]); try constructor.
  split; [names|]. unfold raw_query. cbn [qfields]. unfold raw_schema, raw_type, raw_field, raw_directive, ask_enum. each Hi.
Qed.
Lemma last_ref d : map links_last_item (ask_ref d) = ask_ref d.
Proof.
  induction d as [|d IH]; [done|]. cbn [ask_ref app map]. do 2 f_equal. f_equal. unfold follow. cbn [links_last_item]. rewrite IH.
  destruct d; reflexivity.
Qed.
Lemma last_follow_ref n o d : links_last_item (follow n o (ask_ref d)) = follow n o (ask_ref d).
Proof. unfold follow. cbn [links_last_item]. rewrite last_ref. destruct d; reflexivity. Qed.
Lemma last_raw d : links_last (raw_query d) = standard_query d.
Proof.
  assert (forall n o sub sub', fields_then_links (map links_last_item sub) = sub' -> links_last_item (follow n o sub) = follow n o sub') as Hf by (intros n o sub sub' <-; done).
  assert (forall n, links_last_item (ask n) = ask n) as Ha by done.
  assert (fields_then_links (map links_last_item (raw_input d)) = ask_input d) as Hi.
  { unfold raw_input. cbn [map]. rewrite !Ha, last_follow_ref. done. }
  assert (fields_then_links (map links_last_item (raw_field d)) = ask_field d) as Hfd.
  { unfold raw_field. cbn [map]. rewrite !Ha, last_follow_ref, (Hf _ _ _ _ Hi). done. }
  assert (fields_then_links (map links_last_item (raw_type d)) = ask_type d) as Ht.
  { unfold raw_type. cbn [map]. rewrite !Ha, !last_follow_ref, (Hf _ _ _ _ Hfd), (Hf _ _ _ _ Hi). done. }
  assert (fields_then_links (map links_last_item (raw_directive d)) = ask_directive d) as Hd.
  { unfold raw_directive. cbn [map]. rewrite !Ha, (Hf _ _ _ _ Hi). done. }
  assert (fields_then_links (map links_last_item (raw_schema d)) = ask_schema d) as Hs.
  { unfold raw_schema. cbn [map]. rewrite (Hf _ _ _ _ Ht), (Hf _ _ _ _ Hd). done. }
  unfold links_last, raw_query, standard_query. cbn [qfields qordered map]. rewrite (Hf _ _ _ _ Hs). done.
Qed.
(** The reader gives the query about the schema, whatever variables are sent along *)
Theorem C57_document_read `{Hasher} d given name : name = None \/ name = Some (s "IntrospectionQuery") ->
  read_operation (introspection_document d) given name = ROk (OQuery, standard_query d, Some (s "IntrospectionQuery")).
Proof.
  intros Hname. unfold read_operation.
  assert (get_operation (introspection_document d) name = ROk (OpDef OQuery (Some (s "IntrospectionQuery")) [] introspection_query)) as ->
    by (destruct Hname as [->| ->]; reflexivity).
  cbn [rbind]. unfold transform, transform_node. cbn [od_vars od_sels od_type od_name].
  change (query_variables given []) with (ROk (@nil (str * val))). cbn [rbind].
  change (collect_frags [] (introspection_document d)) with (ROk (doc_frags d)). cbn [rbind].
  change (S (length (doc_frags d))) with 4.
  rewrite read_raw. cbn [rbind fst]. change (QN (qfields (raw_query d)) false) with (raw_query d).
  by rewrite (tidy_merge _ (tidy_raw d)), last_raw.
Qed.

(** ** The standard query is one of those which C46 is about *)
Section standard.
  Context (L : loaders) (g g' : graph) (d : nat).
  Hypothesis Hadd : add_introspection L g = Ok g'.
  Notation asks := (asks_of L g' d).
  Lemma asks_ok q : forall gn n, asks gn n -> q ∈ qfields n -> well_keyed g' gn q /\ only_links_nested g' gn q.
  Proof.
    induction q as [nm o a|nm sub ord o a IH] using qitem_ind'; intros gn n Ha Hq; [done|].
    destruct (asks_links L g g' Hadd d gn n _ Ha Hq eq_refl) as (l & Hl). cbn [q_name] in Hl. cbn [well_keyed only_links_nested]. rewrite Hl.
    assert (find_node g' (gl_node l) = None -> NoDup (map result_key sub)) as Hnone.
    { intros Hn. exfalso. pose proof (asks_nodes L g g' Hadd d gn n _ l Ha Hq eq_refl Hl) as [? Hx]. congruence. }
    destruct (find_node g' (gl_node l)) as [gn'|] eqn:En; [|split; [split; [by apply Hnone|done]|done]].
    pose proof (asks_child L g g' Hadd d gn n _ l gn' Ha Hq eq_refl Hl En) as Hc. cbn [q_node] in Hc. rewrite !foldr_and, !Forall_forall.
    rewrite Forall_forall in IH. split; [split|].
    - exact (asks_keys L g' d gn' _ Hc).
    - intros q0 Hq0. by apply (IH q0 Hq0 gn' _ Hc).
    - intros q0 Hq0. by apply (IH q0 Hq0 gn' _ Hc).
  Qed.
End standard.
Lemma tidy_standard d : tidy_node (standard_query d).
Proof.
  assert (forall n o, opts_of (s n) = o -> s n <> TYPENAME -> tidy (follow n o (ask_input d))) as Hi.
  { intros n o Ho Hn. apply tidy_follow; [done|done|names|]. unfold ask_input.
    repeat (constructor; [first [apply tidy_ask; [reflexivity|done]|apply tidy_follow_ref; [reflexivity|done]]|]). constructor. }
  split; [names|]. unfold standard_query. cbn [qfields]. unfold ask_schema, ask_type, ask_field, ask_directive, ask_enum. each Hi.
Qed.
Lemma tidy_no_typename q : tidy q -> no_typename q /\ typename_is_field q /\ options_proper q.
Proof.
  induction q as [n o a|n sub ord o a IH] using qitem_ind'; intros Ht.
  - destruct Ht as (Ho & _ & Hn & _). split; [done|]. split; [done|]. split; [|done]. cbn [q_opts q_name] in Ho. unfold options_of. cbn [q_opts]. rewrite Ho. unfold opts_of.
    case_bool_decide; cbn; repeat constructor.
  - destruct Ht as (Ho & _ & Hn & _ & Hs). cbn [q_opts q_name] in Ho, Hn. rewrite foldr_and in Hs. rewrite Forall_forall in IH, Hs.
    cbn [no_typename typename_is_field options_proper q_name]. rewrite !foldr_and, !Forall_forall.
    split; [|split].
    + split; [done|]. intros q Hq. by apply IH, Hs.
    + split; [done|]. intros q Hq. by apply IH, Hs.
    + split; [unfold options_of; cbn [q_opts]; rewrite Ho; unfold opts_of; case_bool_decide; cbn; repeat constructor|].
      intros q Hq. by apply IH, Hs.
Qed.

(** C57, over the endpoint: a client which sends the standard document - fragments and all - to an endpoint built from
    the user's graphs gets an answer, always with data, and reads from it the schema as it is declared. *)
Theorem C57_endpoint `{Hasher} (L : loaders) (S : schema) (T : texts) (E : env) (D : data) (parts : gfield -> bool)
  (g : graph) (m : option graph) (ep : endpoint) (d : nat) (given : dict str val) (name : option str) :
  coherent S -> json_defaults S T -> distinct_names S -> deep_enough S d ->
  wf_env E parts -> wf_graph E parts g -> distinct_options g -> new_endpoint L g m = Ok ep -> apart L E g ->
  runs_introspection S T L E -> describes L S T D ->
  (forall n c, own_loader E g (c_func c) -> exists r, ret_val (e_oracle E n c) = Some r /\ answers D c r) ->
  data_ok E D g -> env_data_ok E D -> respects_options D -> reads_by_name E -> no_fuel_exn E ->
  name = None \/ name = Some (s "IntrospectionQuery") ->
  let rq := Request (Some (Some (introspection_document d))) given name in
  exists k0, forall k fuel, k0 <= k -> max_work E (ep_query ep) (standard_query d) < fuel ->
  (exists sched r, dispatches E fuel k ep rq sched r) /\
  forall sched r, dispatches E fuel k ep rq sched r -> exists t, r = Ok (AData t) /\ r_schema d t = Some (e_schema S T).
Proof.
  intros Hco Hjson Hdn Hdeep Henv Hwf Hdist Hep Hap Hruns HD Huser Hdata Hedata Hresp Hreads Hfuel Hname rq.
  assert (exists g', add_introspection L g = Ok g' /\ ep_query ep = g') as (g' & Hadd & Hg').
  { unfold new_endpoint in Hep. destruct (add_introspection L g) as [g'|]; [|done]. exists g'. split; [done|].
    destruct m as [m|]; [destruct (add_introspection L m) as [m'|]; [|done]|]; by injection Hep as <-. }
  rewrite Hg'. pose proof (tidy_standard d) as [_ Htidy]. rewrite Forall_forall in Htidy.
  assert (Forall no_typename (qfields (standard_query d))) as Hno by (apply Forall_forall; intros q0 Hq0; by apply tidy_no_typename, Htidy).
  pose proof (strip_plain_query _ Hno) as Hstrip.
  assert (forall q0, q0 ∈ qfields (standard_query d) -> options_proper q0) as Hprop by (intros q0 Hq0; by apply tidy_no_typename, Htidy).
  destruct (C21_fitting_query_accepted g' (standard_query d) Hprop (standard_fits L g g' Hadd d)) as (k0 & Hk0).
  exists k0. intros k fuel Hk Hw.
  destruct (C46_introspected L S T E D parts g g' Hco Hjson Henv Hwf Hdist Hadd Hap Hruns HD Huser Hdata Hedata Hresp Hreads Hfuel
    k ep rq OQuery (standard_query d) (s "Query")) as (q' & Hi & Hans).
  - exists (introspection_document d), (Some (s "IntrospectionQuery")). split; [done|]. by apply C57_document_read.
  - rewrite <-Hg'. constructor.
  - rewrite Hstrip. by apply Hk0.
  - done.
  - by rewrite Hstrip.
  - rewrite Hstrip. by eapply standard_unchecked.
  - apply (asks_keys L g' d _ _ (v_root L g' d)).
  - intros q0 Hq0. destruct (asks_ok L g g' d Hadd q0 _ _ (v_root L g' d) Hq0). split; [done|]. split; [done|]. by apply tidy_no_typename, Htidy.
  - rewrite Hstrip, (standard_init L g g' Hadd d) in Hi. injection Hi as <-.
    destruct (Hans ltac:(intros gn; by eapply standard_collision) fuel Hw) as [Hsome Hall]. split; [exact Hsome|]. intros sched r Hd.
    destruct (Hall sched r Hd) as (dd & -> & _ & Hnm & Hres). rewrite (entries_plain _ _ _ _ _ Hno Hnm) in Hres.
    destruct (standard_resolves L S T D g g' Hco Hjson HD Hadd (sub_value E D)) with (d := d) as (t & Ht & Hr); try done.
    { intros f n i nm o Hp. unfold sub_value. destruct (length (e_sgs E)); cbn [field_val]; [unfold plain_value|unfold field_with]; by rewrite Hp. }
    rewrite Ht in Hres. injection Hres as ->. by exists (TO dd).
Qed.
Print Assumptions C57_endpoint.

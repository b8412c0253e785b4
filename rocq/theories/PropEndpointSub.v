(** The data of the answers of an endpoint (C46) and of the console (C48) over sound graphs, expressions over
    sub-graphs included. *)
From stdpp Require Import relations.
From Verif Require Import Base Val Types Query QuerySpec QueryProof Graph Queue QueueSpec QueueProof Result PropResult Engine EngineSpec CostSpec SubSpec SubJob KnownSpec PropKnown SubWfSpec
  PropOptions Validate ValidateSpec PropValidate PropValExec PropTrace PropEngine PropBound EngineSubRun PropSub PropSubWf PropSubVal ReadGraphql Endpoint PropEndpoint Console PropConsole. From Verif Require Import SubWfSpec.

(** C46: the data of the answer to a valid request, for every sound graph: the result of its query (C04) and one more
    entry for every [__typename], the name of the type of its object.  Every execution answers this.
    Selecting parts of a field's value is excluded ([only_links_nested]). *)
Theorem C46_data_of_answer `{Hasher} (E : env) (D : data) (parts : gfield -> bool) (known : gnode -> val -> Prop) k ep rq t g q rn :
  reads rq t q -> runs_on ep t g -> validate k g (strip_query q) = Ok [] -> type_names t = Some rn ->
  wf_env E parts -> wf_graph E parts g -> distinct_options g ->
  (forall q0, q0 ∈ qfields (strip_query q) -> options_proper q0) -> unchecked_query g (strip_query q) ->
  NoDup (map result_key (qfields q)) ->
  (forall q0, q0 ∈ qfields q -> well_keyed g (g_root g) q0 /\ only_links_nested g (g_root g) q0 /\ typename_is_field q0) ->
  serves_known E D known g -> respects_options D -> reads_by_name E -> no_fuel_exn E ->
  exists q', init_options g (strip_query q) = Ok q' /\
    ((forall gn, no_collision (asked g q' gn)) ->
     forall fuel sched r, max_work E g q' < fuel -> dispatches E fuel k ep rq sched r ->
     exists d, r = Ok (AData (TO d)) /\
       map fst d = map result_key (qfields q) /\
       Forall2 (named g rn (g_root g)) (qfields q) d /\
       resolve_query g (sub_value E D) D q' = Ok (TO (untype_entries untype (qfields q) d))).
Proof.
  intros Hread Hon Hval Htn Hwe Hwg Hdo Hop Hun Hnd Hq Hs Hr Hrd Hnf.
  destruct (C21_known_data E D parts known g (strip_query q) k Hwe Hwg Hdo Hval Hop Hun Hs Hr Hrd Hnf) as (q' & Hi & Hex).
  exists q'. split; [done|]. intros Hc fuel sched r Hfu Hd. specialize (Hex Hc fuel).
  assert (prepare k ep rq = PRun t g q) as Hp by (apply PropEndpoint.prepare_run; done).
  assert (find_node g (s "__root__") = None) as Hroot by exact (wg_root _ _ _ Hwg).
  assert (exists r0, execute E fuel g (strip_query q) sched r0 /\
    (forall idx pn, r0 = Ok (idx, pn) -> r = match process_with (type_names t) g idx pn q with Ok d => Ok (AData d) | Err e => Err e end)) as (r0 & He & Hr0).
  { inversion Hd as [e Hp'|l Hp'|t' g' q1 sched' e Hp' He|t' g' q1 sched' idx pn Hp' He]; subst; rewrite Hp in Hp'; try discriminate Hp'; injection Hp' as <- <- <-.
    - exists (Err e). by split.
    - exists (Ok (idx, pn)). split; [done|]. by intros ? ? [= <- <-]. }
  destruct (Hex _ _ Hfu He) as (idx & -> & Hden). specialize (Hr0 _ _ eq_refl). rewrite Htn in Hr0.
  pose proof (C21_accepted_query_fits g k _ Hop Hval) as Hfits.
  pose proof (fits_asks g (strip_query q) Hdo Hfits q' Hi Hun Hc) as Ha.
  pose proof (C04_sound_graph E parts Hwe g q' Hwg Ha) as Hsup.
  pose proof Hi as Hi0. unfold init_options in Hi. destruct (mapR _ _) as [l|] eqn:Em; [|done]. injection Hi as <-.
  destruct (init_strip_list g (g_root g) (qfields q) l) as (l2 & Hsh & <-).
  { intros q0 _ gn q1. apply init_strip. } { intros q0 Hq0. by apply Hq. } { intros q0 Hq0. by apply Hq. } { exact Em. }
  set (q2 := QN l2 (qordered q)). cbn [strip_query qordered] in *. change (QN (strip_items l2) (qordered q)) with (strip_query q2) in *.
  assert (forall q0, q0 ∈ l2 -> well_keyed g (g_root g) q0 /\ only_links_nested g (g_root g) q0 /\ typename_is_field q0) as Hq2.
  { intros q0 [i Hi']%elem_of_list_lookup. destruct (Forall2_lookup_r _ _ _ _ _ Hsh Hi') as (q1 & Hq1%elem_of_list_lookup_2 & Hss).
    destruct (Hq q1 Hq1) as (W1 & W2 & W3). destruct (keyed_shape g _ _ _ Hss W2 W1 W3) as (? & ? & ?). done. }
  destruct (C04_result_exists_sub_partial E D g (strip_query q2) Hsup) as [t0 Ht0].
  { intros q0 Hq0. apply elem_of_list_In, in_flat_map in Hq0 as (q1 & Hq1%elem_of_list_In & Hq0).
    destruct (decide _); [done|]. destruct Hq0 as [<-|[]]. destruct (Hq2 q1 Hq1) as (_ & Ho & _).
    clear -Ho. revert Ho. generalize (g_root g). induction q1 as [n o a|n sub ord o a IH] using qitem_ind'; intros gn Ho; [done|].
    change (strip_item (QL n sub ord o a)) with (QL n (strip_items sub) ord o a). cbn [only_links_nested] in *.
    destruct (find_field gn n) as [[f|l]|]; [done| |done]. destruct (find_node g (gl_node l)) as [gn'|]; [|done].
    rewrite foldr_and in *. rewrite Forall_forall in IH, Ho. apply Forall_forall. intros q1 Hq1.
    apply elem_of_list_In, in_flat_map in Hq1 as (q3 & Hq3%elem_of_list_In & Hq1).
    destruct (decide _); [done|]. destruct Hq1 as [<-|[]]. apply (IH q3 Hq3); auto. }
  rewrite Ht0 in Hden.
  destruct (C20_typename g idx q2 rn t0 Hroot) as (d & Hd1 & Hd2 & Hd3 & Hd4); [|done|done|].
  { cbn [q2 qfields]. by rewrite <-(same_shape_keys _ _ Hsh). }
  cbn [q2 qfields] in Hd2, Hd3, Hd4.
  exists d. rewrite Ht0. split; [|split; [|split]].
  - rewrite Hr0. replace (process_with (Some rn) g idx (strip_query q2) q) with (process_with (Some rn) g idx (strip_query q2) q2); [by rewrite Hd1|].
    unfold process_with. destruct (dget _ _) as [t'|]; [|done]. cbn [q2 qfields].
    assert (forall f, mapR (visit_item (g_types g) idx (Some rn) t' (DP ROOT f)) (qfields q) = mapR (visit_item (g_types g) idx (Some rn) t' (DP ROOT f)) l2) as Hm.
    { intros f. eapply mapR_Forall2; [exact Hsh|]. intros x x' _ Hx. by apply visit_shape. }
    by rewrite Hm.
  - by rewrite Hd2, (same_shape_keys _ _ Hsh).
  - eapply Forall2_trans_in; [exact Hsh|exact Hd3|]. intros x x' y _ Hx. by apply named_shape.
  - by rewrite Hd4, (untype_entries_shape _ _ _ Hsh).
Qed.

(** ... and the answer comes, whatever the executor reports first: executions end. *)
Theorem C46_answered `{Hasher} (E : env) (D : data) (parts : gfield -> bool) (known : gnode -> val -> Prop) k ep rq t g q q' rn :
  reads rq t q -> runs_on ep t g -> validate k g (strip_query q) = Ok [] -> type_names t = Some rn ->
  wf_env E parts -> wf_graph E parts g -> distinct_options g ->
  (forall q0, q0 ∈ qfields (strip_query q) -> options_proper q0) -> unchecked_query g (strip_query q) ->
  NoDup (map result_key (qfields q)) ->
  (forall q0, q0 ∈ qfields q -> well_keyed g (g_root g) q0 /\ only_links_nested g (g_root g) q0 /\ typename_is_field q0) ->
  serves_known E D known g -> respects_options D -> reads_by_name E -> no_fuel_exn E ->
  init_options g (strip_query q) = Ok q' -> (forall gn, no_collision (asked g q' gn)) ->
  forall fuel, max_work E g q' < fuel ->
  exists x, start E g (strip_query q) = Ok x /\
    forall sched y, rounds E fuel sched x y -> exists sched2 d, dispatches E fuel k ep rq (sched ++ sched2) (Ok (AData d)).
Proof.
  intros Hread Hon Hval Htn Hwe Hwg Hdo Hop Hun Hnd Hq Hs Hr Hrd Hnf Hi Hc fuel Hw.
  pose proof (C21_accepted_query_fits g k _ Hop Hval) as Hfits.
  pose proof (fits_asks g (strip_query q) Hdo Hfits q' Hi Hun Hc) as Ha.
  pose proof (C04_sound_graph E parts Hwe g q' Hwg Ha) as Hsup.
  destruct (sub_start_ok E D g (strip_query q) q' Hi Hr Hrd (known_serves E D parts known g q' Hwe Hwg Hs) Hsup) as (x & Hx & _). exists x. split; [done|]. intros sched y Hy.
  destruct (C21_known_data_ends E D parts known g (strip_query q) q' k fuel sched x y) as (sched2 & idx & He); try done.
  assert (prepare k ep rq = PRun t g q) as Hp by (apply PropEndpoint.prepare_run; done).
  pose proof (dp_runs E fuel k ep rq t g q (sched ++ sched2) idx q' Hp He) as Hd.
  destruct (C46_data_of_answer E D parts known k ep rq t g q rn) as (q'' & Hi' & Hans); try done.
  rewrite Hi in Hi'. injection Hi' as <-. destruct (Hans Hc fuel _ _ Hw Hd) as (d & Hd' & _). rewrite Hd' in Hd. by exists sched2, (TO d).
Qed.

Section console.
  Context `{Hasher} `{PyText} (decode : list N -> option str) (th : str -> option (val -> res val)) (E : env) (D : data) (parts : gfield -> bool) (known : gnode -> val -> Prop) (k : nat) (c : console).
  (** C48: the console answers the result of the query posted, expressions over sub-graphs included (a result which
      is not JSON, see C48_json, is an error). *)
  Theorem C48_data en q : posts_valid decode th k c en q ->
    wf_env E parts -> wf_graph E parts (cs_graph c) -> distinct_options (cs_graph c) ->
    (forall q0, q0 ∈ qfields q -> options_proper q0) -> unchecked_query (cs_graph c) q ->
    serves_known E D known (cs_graph c) -> respects_options D -> reads_by_name E -> no_fuel_exn E ->
    exists q', init_options (cs_graph c) q = Ok q' /\
    ((forall gn, no_collision (asked (cs_graph c) q' gn)) ->
     forall fuel sched r, max_work E (cs_graph c) q' < fuel -> responds decode th E fuel k c en sched r ->
       match resolve_query (cs_graph c) (sub_value E D) D q' with
       | Ok t => r = if json_tree t then Ok (Response 200 (CtData t)) else Err TypeError
       | Err _ => r = Ok (Response 500 (CtTrace (cs_debug c)))
       end).
  Proof.
    intros Hp Hwe Hwg Hdo Hop Hun Hs Hr Hrd Hnf. pose proof Hp as (t0 & _ & _ & Hv).
    destruct (C21_known_data E D parts known (cs_graph c) q k Hwe Hwg Hdo Hv Hop Hun Hs Hr Hrd Hnf) as (q' & Hi & Hex).
    exists q'. split; [done|]. intros Hc fuel sched r Hf Hrp. specialize (Hex Hc fuel).
    apply prepare_run in Hp. inversion Hrp as [e Hp'|r' Hp'|q1 sched' r' Hp' He]; subst; rewrite Hp in Hp'; try discriminate Hp'. injection Hp' as <-.
    destruct (Hex _ _ Hf He) as (idx & -> & Hd). cbn [finish]. rewrite Hd. by destruct (resolve_query _ _ _ _).
  Qed.
End console.
Print Assumptions C46_data_of_answer.
Print Assumptions C46_answered.
Print Assumptions C48_data.

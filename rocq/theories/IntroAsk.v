(** Proofs for C57: the standard query about the schema fits every graph with introspection. *)
From stdpp Require Import relations.
From Verif Require Import Base Val Types Query QuerySpec Graph Queue QueueSpec QueueProof Result Engine EngineSpec CostSpec CallSpec SubSpec SubJob Validate ValidateSpec
  PropValidate PropValExec PropOptions PropBound GraphExt Introspect IntrospectSpec PropIntrospect PropIntroGraph PropIntroSound PropIntroList PropEndpoint
  IntroRun IntroRunSpec IntroMet IntroServe PropSub PropSubWf PropSubVal PropIntroRun IntroClient SubWfSpec.

Section nodes.
  Context (L : loaders).
  Definition nodeN (k : nat) : gnode := nth k (intro_items L) (GNode None []).
  Notation typeN := (nodeN 0). Notation fieldN := (nodeN 1). Notation inputN := (nodeN 2). Notation dirN := (nodeN 3).
  Notation enumN := (nodeN 4). Notation schemaN := (nodeN 5).
  Context (g g' : graph).
  Hypothesis Hadd : add_introspection L g = Ok g'.
  Lemma intro_found n nm : n ∈ intro_items L -> gn_name n = Some nm -> find_node g' nm = Some n.
  Proof.
    intros Hn Hy. pose proof (added_wf L g g' Hadd) as (Hns & _ & _). apply find_node_unique; [done| |done].
    rewrite (added_eq L g g' Hadd). cbn [g_items]. apply elem_of_app. by right.
  Qed.
  Lemma found k nm : k < 7 -> gn_name (nodeN k) = Some nm -> find_node g' nm = Some (nodeN k).
  Proof. intros Hk. apply intro_found. apply elem_of_list_In, nth_In. exact Hk. Qed.
  Lemma found_root : find_field (g_root g') (s "__schema") = Some (lnk L (s "__schema") One (s "__Schema") 19 None []).
  Proof.
    change (s "__schema") with (gi_name (lnk L (s "__schema") One (s "__Schema") 19 None [])) at 1. apply find_field_unique.
    - destruct (added_wf L g g' Hadd) as (_ & [Hd _] & _). pose proof (root_fields_eq (g_items g')) as Hr.
      change (g_root (Graph (g_items g') [])) with (g_root g') in Hr. by rewrite Hr.
    - apply root_elem. exists (nodeN 6). rewrite (added_eq L g g' Hadd). cbn [g_items]. split; [|split; [done|left]].
      apply elem_of_app. right. apply elem_of_list_In, nth_In. cbn. lia.
  Qed.

  (** The nodes of the query *)
  Context (d : nat).
  Inductive asks_of : gnode -> qnode -> Prop :=
  | v_root : asks_of (g_root g') (standard_query d)
  | v_schema : asks_of schemaN (QN (ask_schema d) false)
  | v_types : asks_of typeN (QN (ask_type d) false)
  | v_ref e : asks_of typeN (QN (ask_ref e) false)
  | v_tname : asks_of typeN (QN [ask "name"] false)
  | v_field : asks_of fieldN (QN (ask_field d) false)
  | v_input : asks_of inputN (QN (ask_input d) false)
  | v_dir : asks_of dirN (QN (ask_directive d) false)
  | v_enum : asks_of enumN (QN ask_enum false).
  Ltac items Hq := rewrite ?elem_of_cons, ?elem_of_nil in Hq;
    repeat match type of Hq with _ \/ _ => destruct Hq as [Hq|Hq] | False => destruct Hq end.
  Lemma asks_child gn n q l gn' : asks_of gn n -> q ∈ qfields n -> q_is_link q = true -> find_field gn (q_name q) = Some (GL l) ->
    find_node g' (gl_node l) = Some gn' -> asks_of gn' (q_node q).
  Proof.
    intros Ha Hq Hk Hf Hn.
    destruct Ha as [| | |e| | | | |]; try (destruct e as [|e]); cbn [qfields standard_query] in Hq;
      unfold ask_schema, ask_type, ask_field, ask_input, ask_enum, ask_directive in Hq; cbn [ask_ref app] in Hq; items Hq; subst q; try discriminate Hk.
    { cbn [follow q_name] in Hf. rewrite found_root in Hf. injection Hf as <-. cbn [gl_node] in Hn. rewrite (found 5) in Hn by (done || (cbn; lia)). injection Hn as <-. constructor. }
    all: injection Hf as <-; cbn [gl_node] in Hn.
    all: first [ rewrite (found 0) in Hn by (done || (cbn; lia)) | rewrite (found 1) in Hn by (done || (cbn; lia)) | rewrite (found 2) in Hn by (done || (cbn; lia))
               | rewrite (found 3) in Hn by (done || (cbn; lia)) | rewrite (found 4) in Hn by (done || (cbn; lia)) ]; injection Hn as <-; constructor.
  Qed.

  Lemma visited_asks gn n : visited g' (standard_query d) gn n -> asks_of gn n.
  Proof. induction 1 as [|gn n q l gn' Hv IH Hq Hk Hf Hn]; [constructor|]. by eapply asks_child. Qed.
  Lemma asks_links gn n q : asks_of gn n -> q ∈ qfields n -> q_is_link q = true -> exists l, find_field gn (q_name q) = Some (GL l).
  Proof.
    intros Ha Hq Hk.
    destruct Ha as [| | |e| | | | |]; try (destruct e as [|e]); cbn [qfields standard_query] in Hq;
      unfold ask_schema, ask_type, ask_field, ask_input, ask_enum, ask_directive in Hq; cbn [ask_ref app] in Hq; items Hq; subst q; try discriminate Hk.
    { cbn [follow q_name]. rewrite found_root. by eexists. }
    all: by eexists.
  Qed.

  Lemma asks_nodes gn n q l : asks_of gn n -> q ∈ qfields n -> q_is_link q = true -> find_field gn (q_name q) = Some (GL l) ->
    is_Some (find_node g' (gl_node l)).
  Proof.
    intros Ha Hq Hk Hf.
    destruct Ha as [| | |e| | | | |]; try (destruct e as [|e]); cbn [qfields standard_query] in Hq;
      unfold ask_schema, ask_type, ask_field, ask_input, ask_enum, ask_directive in Hq; cbn [ask_ref app] in Hq; items Hq; subst q; try discriminate Hk.
    { cbn [follow q_name] in Hf. rewrite found_root in Hf. injection Hf as <-. cbn [gl_node]. rewrite (found 5) by (done || (cbn; lia)). by eexists. }
    all: injection Hf as <-; cbn [gl_node].
    all: first [ rewrite (found 0) by (done || (cbn; lia)) | rewrite (found 1) by (done || (cbn; lia)) | rewrite (found 2) by (done || (cbn; lia))
               | rewrite (found 3) by (done || (cbn; lia)) | rewrite (found 4) by (done || (cbn; lia)) ]; by eexists.
  Qed.

  (** ** The query is one of those which C56 is about *)
  Lemma ref_keys e : NoDup (map result_key (ask_ref e)).
  Proof. destruct e; apply (bool_decide_unpack _); vm_compute; exact I. Qed.
  Lemma asks_keys gn n : asks_of gn n -> NoDup (map result_key (qfields n)).
  Proof.
    intros Hv. destruct Hv; cbn [qfields standard_query]; try apply ref_keys; apply (bool_decide_unpack _); vm_compute; exact I.
  Qed.
  Lemma asks_once gn n : asks_of gn n -> typename_once n.
  Proof.
    intros Hv. unfold typename_once. destruct Hv; cbn [qfields standard_query]; try (destruct e as [|e]); cbn [ask_ref app]; vm_compute; lia.
  Qed.
  Lemma standard_unchecked : unchecked_query g' (standard_query d).
  Proof.
    split.
    - intros gn n q0 f Hv%visited_asks Hq Hf Hl. exfalso.
      destruct Hv; try (destruct e as [|e]); cbn [qfields standard_query] in Hq;
        unfold ask_schema, ask_type, ask_field, ask_input, ask_enum, ask_directive in Hq; cbn [ask_ref app] in Hq; items Hq; subst q0; try discriminate Hl; try discriminate Hf.
      cbn [follow q_name] in Hf. by rewrite found_root in Hf.
    - intros gn n Hv%visited_asks. by eapply asks_keys.
  Qed.
  Definition opts_of (n : str) : opts := if bool_decide (n ∈ [s "fields"; s "enumValues"]) then deprecated_too else None.
  Lemma asks_opts gn n q0 : asks_of gn n -> q0 ∈ qfields n -> q_opts q0 = opts_of (q_name q0).
  Proof.
    intros Hv Hq. destruct Hv; try (destruct e as [|e]); cbn [qfields standard_query] in Hq;
      unfold ask_schema, ask_type, ask_field, ask_input, ask_enum, ask_directive in Hq; cbn [ask_ref app] in Hq; items Hq; subst q0; reflexivity.
  Qed.
  Lemma same_opts_refl o : same_opts o o.
  Proof. apply sv_refl. Qed.
  Lemma standard_collision `{Hasher} gn : no_collision (asked g' (standard_query d) gn).
  Proof.
    assert (forall q0, asked g' (standard_query d) gn q0 -> q_opts q0 = opts_of (q_name q0)) as Ho.
    { intros q0 (n & Hv%visited_asks & [Hq|Hq]); [by eapply asks_opts|].
      destruct Hq as (q1 & l & r & Hq & Hl & Hf & Hr & ->).
      destruct Hv; try (destruct e as [|e]); cbn [qfields standard_query] in Hq;
        unfold ask_schema, ask_type, ask_field, ask_input, ask_enum, ask_directive in Hq; cbn [ask_ref app] in Hq; items Hq; subst q1; try discriminate Hl.
      { cbn [follow q_name] in Hf. rewrite found_root in Hf. injection Hf as <-. done. }
      all: injection Hf as <-; try discriminate Hr; injection Hr as <-; reflexivity. }
    intros q1 q2 H1 H2 Hn _. rewrite (Ho _ H1), (Ho _ H2), Hn. apply same_opts_refl.
  Qed.

  Lemma fits_no_options dt : fits_options dt [] None.
  Proof. split; [intros x Hx; by apply elem_of_nil in Hx|intros x Hx; by apply elem_of_nil in Hx]. Qed.
  Lemma fits_deprecated dt : fits_options dt [deprecated] deprecated_too.
  Proof.
    split.
    - intros x ->%elem_of_list_singleton. split; [done|]. cbn. constructor.
    - intros x Hx. exact Hx.
  Qed.
  Lemma fits_ask gn n f : find_field gn (s n) = Some (GF f) -> gf_opts f = [] -> fits g' gn (ask n).
  Proof. intros Hf Ho. exists f. split; [done|]. rewrite Ho. apply fits_no_options. Qed.
  Lemma unambiguous_keys l : NoDup (map result_key l) -> (forall q0, q0 ∈ l -> q_opts q0 = opts_of (q_name q0)) -> unambiguous l.
  Proof.
    intros Hd Ho a b Ha Hb Hk. assert (a = b) as ->.
    { apply elem_of_list_lookup in Ha as [i Hi], Hb as [j Hj]. assert (i = j) as ->; [|congruence].
      eapply (NoDup_lookup _ i j (result_key a) Hd); [|rewrite Hk]; rewrite list_lookup_fmap; [by rewrite Hi|by rewrite Hj]. }
    split; [done|]. rewrite (Ho b Hb). unfold opts_of. by case_bool_decide.
  Qed.
  Lemma fits_follow gn n o sub l gn' : find_field gn (s n) = Some (GL l) -> find_node g' (gl_node l) = Some gn' ->
    fits_options (g_dtypes g') (gl_opts l) o -> asks_of gn' (QN sub false) -> (forall q0, q0 ∈ sub -> fits g' gn' q0) -> fits g' gn (follow n o sub).
  Proof.
    intros Hf Hn Ho Hv Hs. cbn [follow fits]. rewrite Hf. split; [done|]. exists gn'. split; [done|]. split.
    - apply unambiguous_keys; [by apply (asks_keys gn' (QN sub false))|]. intros q0 Hq. by apply (asks_opts gn' (QN sub false)).
    - clear -Hs. induction sub as [|x sub IH]; [done|]. split; [apply Hs; left|]. apply IH. intros; apply Hs; by right.
  Qed.
  Ltac one_field := eapply fits_ask; reflexivity.
  Ltac one_link k := eapply fits_follow; [reflexivity|apply (found k); [lia|reflexivity]|first [apply fits_no_options|apply fits_deprecated]|constructor|].
  Lemma fits_ref e q0 : q0 ∈ ask_ref e -> fits g' typeN q0.
  Proof.
    revert q0. induction e as [|e IH]; intros q0 Hq; cbn [ask_ref app] in Hq; items Hq; subst q0; try one_field. one_link 0. exact IH.
  Qed.
  Lemma fits_input q0 : q0 ∈ ask_input d -> fits g' inputN q0.
  Proof. intros Hq. unfold ask_input in Hq. items Hq; subst q0; try one_field. one_link 0. apply fits_ref. Qed.
  Lemma fits_fields q0 : q0 ∈ ask_field d -> fits g' fieldN q0.
  Proof. intros Hq. unfold ask_field in Hq. items Hq; subst q0; try one_field; [one_link 2; apply fits_input|one_link 0; apply fits_ref]. Qed.
  Lemma fits_name k : k ∈ [0; 4] -> forall q0, q0 ∈ [ask "name"] -> fits g' (nodeN k) q0.
  Proof. intros Hk q0 ->%elem_of_list_singleton. items Hk; subst k; one_field. Qed.
  Lemma fits_type q0 : q0 ∈ ask_type d -> fits g' typeN q0.
  Proof.
    intros Hq. unfold ask_type in Hq. items Hq; subst q0; try one_field.
    - one_link 1. apply fits_fields.
    - one_link 2. apply fits_input.
    - one_link 0. apply fits_ref.
    - one_link 4. intros q0 Hq. unfold ask_enum in Hq. items Hq; subst q0; one_field.
    - one_link 0. apply fits_ref.
  Qed.
  Lemma fits_directive q0 : q0 ∈ ask_directive d -> fits g' dirN q0.
  Proof. intros Hq. unfold ask_directive in Hq. items Hq; subst q0; try one_field. one_link 2. apply fits_input. Qed.
  Lemma fits_schema q0 : q0 ∈ ask_schema d -> fits g' schemaN q0.
  Proof.
    intros Hq. unfold ask_schema in Hq. items Hq; subst q0.
    1-3: one_link 0; apply fits_name; apply (bool_decide_unpack _); vm_compute; exact I.
    - one_link 0. apply fits_type.
    - one_link 3. apply fits_directive.
  Qed.
  Lemma standard_fits : fits_query g' (standard_query d).
  Proof.
    split; [apply unambiguous_keys; [apply (asks_keys _ _ v_root)|intros q0 Hq; by apply (asks_opts _ _ _ v_root)]|].
    intros q0 ->%elem_of_list_singleton. eapply fits_follow; [apply found_root|apply (found 5); [lia|reflexivity]|apply fits_no_options|constructor|apply fits_schema].
  Qed.

  (** No option is missing *)
  Lemma init_ask gn n f : find_field gn (s n) = Some (GF f) -> gf_opts f = [] -> init_item g' gn (ask n) = Ok (ask n).
  Proof. intros Hf Ho. cbn [ask init_item q_name]. rewrite Hf. cbn [gi_opts]. by rewrite Ho. Qed.
  Lemma init_follow gn n o sub l gn' : find_field gn (s n) = Some (GL l) -> find_node g' (gl_node l) = Some gn' ->
    (gl_opts l = [] /\ o = None) \/ (gl_opts l = [deprecated] /\ o = deprecated_too) ->
    mapR (init_item g' gn') sub = Ok sub -> init_item g' gn (follow n o sub) = Ok (follow n o sub).
  Proof.
    intros Hf Hn Ho Hs. cbn [follow init_item q_name]. rewrite Hf. cbn [gi_opts]. rewrite Hn, Hs. by destruct Ho as [[-> ->]|[-> ->]].
  Qed.
  Lemma init_list gn l : (forall q0, q0 ∈ l -> init_item g' gn q0 = Ok q0) -> mapR (init_item g' gn) l = Ok l.
  Proof. intros Hl. rewrite (mapR_map_ok _ id); [by rewrite map_id|]. apply Forall_forall. exact Hl. Qed.
  Ltac init_one := eapply init_ask; reflexivity.
  Ltac init_link k := eapply init_follow; [reflexivity|apply (found k); [lia|reflexivity]|first [left; split; reflexivity|right; split; reflexivity]|apply init_list].
  Lemma init_ref e q0 : q0 ∈ ask_ref e -> init_item g' typeN q0 = Ok q0.
  Proof.
    revert q0. induction e as [|e IH]; intros q0 Hq; cbn [ask_ref app] in Hq; items Hq; subst q0; try init_one. init_link 0. exact IH.
  Qed.
  Lemma init_input q0 : q0 ∈ ask_input d -> init_item g' inputN q0 = Ok q0.
  Proof. intros Hq. unfold ask_input in Hq. items Hq; subst q0; try init_one. init_link 0. apply init_ref. Qed.
  Lemma init_fields q0 : q0 ∈ ask_field d -> init_item g' fieldN q0 = Ok q0.
  Proof. intros Hq. unfold ask_field in Hq. items Hq; subst q0; try init_one; [init_link 2; apply init_input|init_link 0; apply init_ref]. Qed.
  Lemma init_name k : k ∈ [0; 4] -> forall q0, q0 ∈ [ask "name"] -> init_item g' (nodeN k) q0 = Ok q0.
  Proof. intros Hk q0 ->%elem_of_list_singleton. items Hk; subst k; init_one. Qed.
  Lemma init_type q0 : q0 ∈ ask_type d -> init_item g' typeN q0 = Ok q0.
  Proof.
    intros Hq. unfold ask_type in Hq. items Hq; subst q0; try init_one.
    - init_link 1. apply init_fields.
    - init_link 2. apply init_input.
    - init_link 0. apply init_ref.
    - init_link 4. intros q0 Hq. unfold ask_enum in Hq. items Hq; subst q0; init_one.
    - init_link 0. apply init_ref.
  Qed.
  Lemma init_directive q0 : q0 ∈ ask_directive d -> init_item g' dirN q0 = Ok q0.
  Proof. intros Hq. unfold ask_directive in Hq. items Hq; subst q0; try init_one. init_link 2. apply init_input. Qed.
  Lemma init_schema q0 : q0 ∈ ask_schema d -> init_item g' schemaN q0 = Ok q0.
  Proof.
    intros Hq. unfold ask_schema in Hq. items Hq; subst q0.
    1-3: init_link 0; apply init_name; apply (bool_decide_unpack _); vm_compute; exact I.
    - init_link 0. apply init_type.
    - init_link 3. apply init_directive.
  Qed.
  Lemma standard_init : init_options g' (standard_query d) = Ok (standard_query d).
  Proof.
    unfold init_options, standard_query. cbn [qfields qordered]. rewrite init_list; [done|].
    intros q0 ->%elem_of_list_singleton. eapply init_follow; [apply found_root|apply (found 5); [lia|reflexivity]|left; split; reflexivity|apply init_list, init_schema].
  Qed.
End nodes.

(** Proofs for C56: the loaders of introspection answer for all objects which are met. *)
From stdpp Require Import relations.
From Verif Require Import Base Val Types Query QuerySpec Graph Queue QueueSpec QueueProof Result Engine EngineSpec CostSpec CallSpec SubSpec SubJob Validate ValidateSpec
  PropValidate PropOptions GraphExt Introspect IntrospectSpec PropIntrospect PropIntroGraph PropIntroSound PropIntroList PropEndpoint IntroRun IntroRunSpec IntroMet PropSub PropSubWf SubWfSpec.

(** ** The objects met *)
Section met.
  Context `{Hasher} (L : loaders) (S : schema) (T : texts) (E : env) (D : data) (parts : gfield -> bool) (g g' : graph) (q : qnode).
  Hypothesis Hco : coherent S.
  Hypothesis Hjson : json_defaults S T.
  Hypothesis HD : describes L S T D.
  Hypothesis Hadd : add_introspection L g = Ok g'.
  Hypothesis Hwf : wf_graph E parts g.
  Hypothesis Hapart : apart L E g.
  Notation J0 := (top_job E g' q).
  Lemma own_apart G gn name go f : (G = g \/ exists sg node, e_sgs E !! sg = Some (G, node)) -> node_of G gn -> find_field gn name = Some go -> fkey_of go = KPlain f ->
    intro_loader L f -> False.
  Proof.
    intros HG Hno Hf Hk. apply (ap_own _ _ _ Hapart). pose proof (loader_in _ _ _ _ _ Hno Hf Hk) as Hl.
    destruct HG as [->|(sg & node & Hsg)]; [by left|]. right. by exists sg, G, node.
  Qed.
  (** The options of links are given *)
  Hypothesis Hopts : forall gn n q0 l, jvisited J0 gn n -> q0 ∈ qfields n -> find_field gn (q_name q0) = Some (GL l) ->
    forall op, op ∈ gl_opts l -> is_Some (dget (go_name op) (opt_dict (q_opts q0))).

  Lemma val_plain k f m i n o : gf_func f = FPlain m -> field_val E D k f i n o = d_field D m i n o.
  Proof. intros Hf. destruct k; cbn [field_val]; unfold plain_value, field_with; by rewrite Hf. Qed.

  (** An object of introspection is fine *)
  Definition obj_fine (gn : gnode) (i : option val) : Prop :=
    forall nm, gn ∈ intro_items L -> gn_name gn = Some nm -> exists i', i = Some i' /\ obj_ok S nm i'.
  Definition where_met (J : job) (gn : gnode) (i : option val) : Prop :=
    (J = J0 /\ node_of g' gn /\ obj_fine gn i) \/
    (exists sg G node, e_sgs E !! sg = Some (G, node) /\ j_graph J = G /\ node_of G gn).
  Lemma sub_job_graph J gn sg qs J' : sub_job E J gn sg qs = Some J' ->
    exists G node gn' n', e_sgs E !! sg = Some (G, node) /\ j_graph J' = G /\ find_node G node = Some gn' /\ j_this J' = Some (gn', n').
  Proof.
    unfold sub_job. destruct (e_sgs E !! sg) as [[G node]|]; [|done]. destruct (dget _ _) as [this|]; [|done].
    destruct (find_node G node) as [gn'|] eqn:En; [|done]. destruct (q_is_link this); [|done]. intros [= <-]. by exists G, node, gn', (q_node this).
  Qed.
  Lemma intro_not_user gn nm : gn ∈ intro_items L -> gn_name gn = Some nm -> find_node g nm = None.
  Proof.
    intros Hin Hn. destruct (find_node g nm) as [gu|] eqn:Eu; [exfalso|done]. apply find_node_elem in Eu as [Hu Hun].
    pose proof (added_wf L g g' Hadd) as (Hnd & _). rewrite (added_eq L g g' Hadd) in Hnd. cbn [g_items] in Hnd.
    rewrite names_app, typename_names in Hnd. apply NoDup_app in Hnd as (_ & Hdis & _).
    apply (Hdis nm); unfold names_of_nodes; apply elem_of_list_In, in_flat_map.
    - exists gu. split; [by apply elem_of_list_In|]. rewrite Hun. by left.
    - exists gn. split; [by apply elem_of_list_In|]. rewrite Hn. by left.
  Qed.
  Lemma met_where J gn i n : met E D J0 J gn i n -> where_met J gn i.
  Proof.
    induction 1 as [|J gn i n q0 l gn' j Hm IH Hq Hl Hf Hn Hj|J gn i n sg qs J' gn' n' Hm IH Hg Hs Ht|J gn i n sg qs J' Hm IH Hg Hs].
    - left. split; [done|]. split; [by left|]. intros nm Hin Hnm. cbn in Hnm. done.
    - destruct IH as [(-> & Hno & Hok)|(sg & G & node & Hsg & HG & Hno)].
      + left. split; [done|]. split; [right; eauto|]. cbn [j_graph top_job] in Hn.
        intros nm Hin Hnm. exists j. split; [done|]. pose proof (proj2 (find_node_elem _ _ _ Hn)) as Hnn. rewrite Hnm in Hnn. injection Hnn as ->.
        destruct (added_member L g g' Hadd gn _ _ Hno Hf) as [(gn0 & Hgn0 & Hf0 & _)|[(m & Hx)|(m & Hmi & Hx & Hr)]]; [|done|].
        * destruct (wg_links _ _ _ Hwf gn0 _ l Hgn0 Hf0) as [[gu Hu] _]. by rewrite (intro_not_user _ _ Hin Hnm) in Hu.
        * assert (link_fine L S D (field_val E D (j_level J0)) gn i l q0) as (_ & Hj' & _); [|by apply Hj'].
          eapply (intro_link L S T D Hco Hjson HD _ (val_plain _)); [exact Hmi|exact Hx| |].
          -- destruct Hr as [Hr| ->]; [by left|]. destruct (gn_name m) as [nm'|] eqn:Em; [|by left].
             right. split; [done|]. destruct (Hok nm' Hmi Em) as (i' & -> & Hok'). by exists nm', i'.
          -- apply met_visited in Hm as [_ Hv]. by eapply Hopts.
      + right. rewrite HG in Hn. exists sg, G, node. split; [done|]. split; [done|]. right. eauto.
    - right. destruct (sub_job_graph _ _ _ _ _ Hs) as (G & node & gn1 & n1 & Hsg & HG & Hn & Ht'). rewrite Ht in Ht'. injection Ht' as -> ->.
      exists sg, G, node. split; [done|]. split; [done|]. right. eauto.
    - right. destruct (sub_job_graph _ _ _ _ _ Hs) as (G & node & gn1 & n1 & Hsg & HG & Hn & Ht').
      exists sg, G, node. split; [done|]. split; [done|]. left. by rewrite HG.
  Qed.

  Lemma link_met J gn i n q0 l : met E D J0 J gn i n -> q0 ∈ qfields n -> find_field gn (q_name q0) = Some (GL l) ->
    intro_loader L (gl_func l) -> J = J0 /\ link_fine L S D (field_val E D (j_level J0)) gn i l q0.
  Proof.
    intros Hm Hq Hf Hil. destruct (met_where _ _ _ _ Hm) as [(-> & Hno & Hok)|(sg & G & node & Hsg & HG & Hno)].
    - split; [done|].
      destruct (added_member L g g' Hadd gn _ _ Hno Hf) as [(gn0 & Hgn0 & Hf0 & _)|[(m & Hx)|(m & Hmi & Hx & Hr)]]; [|done|].
      + exfalso. eapply (own_apart g gn0); [by left|exact Hgn0|exact Hf0| |exact Hil]; done.
      + eapply (intro_link L S T D Hco Hjson HD _ (val_plain _)); [exact Hmi|exact Hx| |].
        * destruct Hr as [Hr| ->]; [by left|]. destruct (gn_name m) as [nm'|] eqn:Em; [|by left].
          right. split; [done|]. destruct (Hok nm' Hmi Em) as (i' & -> & Hok'). by exists nm', i'.
        * apply met_visited in Hm as [_ Hv]. by eapply Hopts.
    - exfalso. eapply (own_apart G gn); [right; by exists sg, node|exact Hno| | |exact Hil]; done.
  Qed.
  Lemma ids_met_one J gn n ids : ids_met E D J0 J gn n ids -> exists i, met E D J0 J gn i n.
  Proof.
    destruct ids as [l|]; cbn; [|eauto]. intros [Hne Ha]. destruct l as [|i l]; [done|]. exists (Some i). apply Ha. left.
  Qed.
  (** Fields of introspection asked of objects met *)
  Lemma field_met J gn i n q0 f : met E D J0 J gn i n -> loader_of gn q0 = Some f -> intro_loader L f ->
    J = J0 /\ node_of g' gn /\
    ((exists m, f = ld_typename L m /\ q_name q0 = s "__typename") \/
     (exists k i' row v, f = ld_intro L k /\ i = Some i' /\ row_of S T k i' = Ok row /\ row (q_name q0) = Ok v)).
  Proof.
    intros Hm Hl Hil. unfold loader_of in Hl. destruct (find_field gn (q_name q0)) as [[ff|]|] eqn:Ef; try done.
    destruct (gf_func ff) as [f'|] eqn:Ef'; [|done]. injection Hl as ->.
    assert (fkey_of (GF ff) = KPlain f) as Hk by (cbn; by rewrite Ef').
    destruct (met_where _ _ _ _ Hm) as [(-> & Hno & Hok)|(sg & G & node & Hsg & HG & Hno)].
    - split; [done|]. split; [done|].
      destruct (added_member L g g' Hadd gn _ _ Hno Ef) as [(gn0 & Hgn0 & Hf0 & _)|[(m & Hx)|(m & Hmi & Hx & Hr)]].
      + exfalso. eapply (own_apart g gn0); [by left|exact Hgn0|exact Hf0| |exact Hil]; done.
      + left. exists m. pose proof (proj2 (find_field_elem _ _ _ Ef)) as Hnm. rewrite Hx in Hnm. injection Hx as ->. injection Ef' as <-. split; [done|]. by rewrite <-Hnm.
      + right. destruct Hr as [Hr| ->].
        { exfalso. each Hmi Hx; try discriminate Hr; discriminate Hx. }
        destruct (gn_name m) as [nm|] eqn:Em; [|exfalso; each Hmi Hx; try discriminate Em; discriminate Hx].
        destruct (Hok nm Hmi Em) as (i' & -> & Ho). pose proof (proj2 (find_field_elem _ _ _ Ef)) as Hnm. cbn [gi_name] in Hnm.
        destruct (intro_row L S T Hjson m ff nm i' Hmi Hx Em Ho) as (k & row & v & H1 & H2 & H3). rewrite Ef' in H1. injection H1 as ->.
        exists k, i', row, v. by rewrite <-Hnm.
    - exfalso. eapply (own_apart G gn); [right; by exists sg, node|exact Hno| | |exact Hil]; done.
  Qed.

  (** [__typename] is loaded alone *)
  Lemma typename_not_required gn n0 q0 l r m : node_of g' gn -> q0 ∈ qfields n0 -> find_field gn (q_name q0) = Some (GL l) -> gl_requires l = Some r ->
    loader_of gn (QF r None None) = Some (ld_typename L m) -> False.
  Proof.
    intros Hno Hq Hf Hr Hl. unfold loader_of in Hl. cbn [q_name] in Hl. destruct (find_field gn r) as [[ff|]|] eqn:Er; try done.
    destruct (gf_func ff) as [f'|] eqn:Ef'; [|done]. injection Hl as ->.
    destruct (added_member L g g' Hadd gn _ _ Hno Hf) as [(gn0 & Hgn0 & Hf0 & [_ He])|[(x & Hx)|(x & Hxi & Hx & Hre)]]; [|done|].
    - destruct (wg_links _ _ _ Hwf gn0 _ l Hgn0 Hf0) as [_ Hreq]. destruct (Hreq r Hr) as (_ & f1 & Hf1 & _).
      pose proof (He _ _ Hf1) as Hf2. rewrite Er in Hf2. injection Hf2 as <-.
      eapply (own_apart g gn0); [by left|exact Hgn0|exact Hf1|cbn; by rewrite Ef'|]. left. by eexists.
    - assert (r <> s "__typename") as Hne.
      { clear -Hxi Hx Hr. each Hxi Hx; try discriminate Hx; injection Hx as ->; try discriminate Hr; injection Hr as <-; discriminate. }
      destruct (added_member L g g' Hadd gn _ _ Hno Er) as [(gn0 & Hgn0 & Hf0 & _)|[(y & Hy)|(y & Hyi & Hy & _)]].
      + eapply (own_apart g gn0); [by left|exact Hgn0|exact Hf0|cbn; by rewrite Ef'|]. left. by eexists.
      + apply Hne. pose proof (proj2 (find_field_elem _ _ _ Er)) as <-. by rewrite Hy.
      + destruct (intro_items_loaders L y (GF ff) Hyi Hy) as (f0 & Hk & _). cbn in Hk. rewrite Ef' in Hk.
        clear -Hyi Hy Ef' Hapart. each Hyi Hy; try discriminate Hy; injection Hy as ->; injection Ef' as Ef'; by destruct (ap_typename _ _ _ Hapart m _ (eq_sym Ef')).
  Qed.
  Lemma typename_loader gn q0 m : node_of g' gn -> loader_of gn q0 = Some (ld_typename L m) -> q_name q0 = s "__typename".
  Proof.
    intros Hno Hl. unfold loader_of in Hl. destruct (find_field gn (q_name q0)) as [[ff|]|] eqn:Er; try done.
    destruct (gf_func ff) as [f'|] eqn:Ef'; [|done]. injection Hl as ->.
    destruct (added_member L g g' Hadd gn _ _ Hno Er) as [(gn0 & Hgn0 & Hf0 & _)|[(y & Hy)|(y & Hyi & Hy & _)]].
    - exfalso. eapply (own_apart g gn0); [by left|exact Hgn0|exact Hf0|cbn; by rewrite Ef'|]. left. by eexists.
    - pose proof (proj2 (find_field_elem _ _ _ Er)) as <-. by rewrite Hy.
    - exfalso. clear -Hyi Hy Ef' Hapart. each Hyi Hy; try discriminate Hy; injection Hy as ->; injection Ef' as Ef'; by destruct (ap_typename _ _ _ Hapart m _ (eq_sym Ef')).
  Qed.
  Lemma typename_alone gn n m qs : node_of g' gn -> typename_once n -> loaded_together gn n (ld_typename L m) qs -> exists q0, qs = [q0].
  Proof.
    intros Hno Hone (Hne & Hsub & Hl & _). destruct qs as [|a [|b qs]]; [done|eauto|exfalso].
    set (P := fun q0 => bool_decide (loader_of gn q0 = Some (ld_typename L m))).
    assert (forall l, (forall q0, q0 ∈ l -> q0 ∈ qfields n) ->
      length (List.filter P (in_turn gn l)) <= length (List.filter (fun q0 => bool_decide (q_name q0 = s "__typename")) l)) as Hle.
    { induction l as [|q0 l IH]; intros Hin; [done|]. change (in_turn gn (q0 :: l)) with (in_turn gn ([q0] ++ l)). unfold in_turn at 1. rewrite flat_map_app. fold (in_turn gn [q0]) (in_turn gn l). rewrite List.filter_app, app_length.
      specialize (IH ltac:(intros; apply Hin; by right)).
      assert (length (List.filter P (in_turn gn [q0])) <= if bool_decide (q_name q0 = s "__typename") then 1 else 0) as H1.
      { assert (length (List.filter P [q0]) <= if bool_decide (q_name q0 = s "__typename") then 1 else 0) as Hone1.
        { cbn [List.filter]. unfold P at 1.
          destruct (bool_decide (loader_of gn q0 = Some (ld_typename L m))) eqn:Hx; cbn [length]; [|lia]. apply bool_decide_eq_true in Hx. rewrite bool_decide_eq_true_2; [lia|]. by eapply typename_loader. }
        unfold in_turn. cbn [flat_map]. rewrite app_nil_r. destruct q0 as [|nm sub ord o al]; [exact Hone1|]. destruct (find_field gn (q_name (QL nm sub ord o al))) as [[|l0]|] eqn:Ef; [exact Hone1| |exact Hone1].
        destruct (gl_requires l0) as [r|] eqn:Er; [|exact Hone1]. cbn [List.filter]. unfold P at 1.
        destruct (bool_decide (loader_of gn (QF r None None) = Some (ld_typename L m))) eqn:Hx; [|exact Hone1].
        apply bool_decide_eq_true in Hx. exfalso. eapply typename_not_required; [done|apply Hin; left|exact Ef|exact Er|exact Hx]. }
      cbn [List.filter]. etransitivity; [apply Nat.add_le_mono; [exact H1|exact IH]|].
      destruct (bool_decide (q_name q0 = s "__typename")); cbn [length]; lia. }
    specialize (Hle (qfields n) ltac:(done)). unfold typename_once in Hone.
    assert (length (a :: b :: qs) <= length (List.filter P (in_turn gn (qfields n)))) as Hlen; [|cbn [length] in Hlen; lia].
    clear -Hsub Hl. assert (forall q0, q0 ∈ a :: b :: qs -> P q0 = true) as Hp by (intros; apply bool_decide_eq_true_2; by apply Hl).
    revert Hsub Hp. generalize (a :: b :: qs) (in_turn gn (qfields n)). clear. intros l k Hs.
    induction Hs as [|x l k Hs IH|x l k Hs IH]; intros Hp; cbn [List.filter].
    - cbn. lia.
    - rewrite Hp by left. cbn [length]. specialize (IH ltac:(intros; apply Hp; by right)). lia.
    - specialize (IH Hp). destruct (P x); cbn [length]; lia.
  Qed.

  Hypothesis Hruns : runs_introspection S T L E.
  Hypothesis Honce : forall gn n, jvisited J0 gn n -> typename_once n.
  Hypothesis Huser : forall k c, call_met E D J0 c -> own_loader E g (c_func c) -> exists r, ret_val (e_oracle E k c) = Some r /\ answers D c r.

  Lemma member_loader J gn i name go f : where_met J gn i -> find_field gn name = Some go -> fkey_of go = KPlain f ->
    own_loader E g f \/ intro_loader L f.
  Proof.
    intros [(-> & Hno & Hok)|(sg & G & node & Hsg & HG & Hno)] Hf Hk.
    - destruct (added_member L g g' Hadd gn _ _ Hno Hf) as [(gn0 & Hgn0 & Hf0 & _)|[(m & Hx)|(m & Hmi & Hx & Hr)]].
      + left. left. by eapply loader_in.
      + right. left. rewrite Hx in Hk. injection Hk as <-. by eexists.
      + right. destruct (intro_items_loaders L m go Hmi Hx) as (f0 & Hk0 & Hi). rewrite Hk in Hk0. by injection Hk0 as <-.
    - left. right. exists sg, G, node. split; [done|]. by eapply loader_in.
  Qed.
  Lemma call_loader c : call_met E D J0 c -> own_loader E g (c_func c) \/ intro_loader L (c_func c).
  Proof.
    intros (J & gn & n & ids & Hids & _ & Ha). destruct (ids_met_one _ _ _ _ Hids) as [i0 Hm0]. apply met_where in Hm0.
    destruct (c_args c) as [qfs ids'|rq o].
    - destruct Ha as (_ & (Hne & _ & Hl & _) & _). destruct qfs as [|qa qfs]; [done|]. specialize (Hl qa ltac:(left)).
      unfold loader_of in Hl. destruct (find_field gn (q_name qa)) as [[ff|]|] eqn:Ef; try done.
      destruct (gf_func ff) as [f'|] eqn:Ef'; [|done]. injection Hl as Hl. eapply member_loader; [exact Hm0|exact Ef|]. cbn. by rewrite Ef', Hl.
    - destruct Ha as (l & q0 & Hq & Hql & Hf & Hfc & _). eapply member_loader; [exact Hm0|exact Hf|]. cbn. by rewrite Hfc.
  Qed.

  Lemma intro_serves : serves_met E D J0.
  Proof.
    intros k0 c Hc. destruct (call_loader c Hc) as [Hil|Hil]; [by apply Huser|].
    destruct Hc as (J & gn & n & ids & Hids & _ & Ha). destruct (ids_met_one _ _ _ _ Hids) as [i0 Hm0].
    destruct (c_args c) as [qfs ids'|rq o] eqn:Ec.
    - destruct Ha as (-> & Htog & _). pose proof Htog as (Hne & _ & Hl & _). destruct qfs as [|qa qfs]; [done|].
      destruct (field_met _ _ _ _ qa _ Hm0 (Hl qa ltac:(left)) Hil) as (-> & Hno & [(m & Hfm & _)|(k & i1 & _ & _ & Hfk & _)]).
      + rewrite Hfm in Htog. apply met_visited in Hm0 as [_ Hv]. destruct (typename_alone _ _ _ _ Hno (Honce _ _ Hv) Htog) as [q0 [= -> ->]].
        rewrite (ri_typename _ _ _ _ Hruns k0 c m Hfm), Ec. cbn [typename_call outcome_of]. eexists. split; [reflexivity|]. unfold answers. rewrite Ec, Hfm.
        destruct ids as [is_|]; cbn [typename_rows map].
        * eexists. split; [reflexivity|]. apply Forall2_fmap_r, Forall_Forall2_diag, Forall_forall. intros i _. by rewrite (ds_typename _ _ _ _ HD).
        * by rewrite (ds_typename _ _ _ _ HD).
      + assert (forall i q0, met E D J0 J0 gn i n -> q0 ∈ qa :: qfs -> exists i' row v, i = Some i' /\ row_of S T k i' = Ok row /\ row (q_name q0) = Ok v) as Hrow.
        { intros i q0 Hm Hq0. destruct (field_met _ _ _ _ q0 _ Hm (Hl q0 Hq0) Hil) as (_ & _ & [(m & Hfm & _)|(k' & i' & row & v & Hfk' & H1 & H2 & H3)]).
          - rewrite Hfk in Hfm. by destruct (ap_typename _ _ _ Hapart m k).
          - rewrite Hfk in Hfk'. apply (ap_intro _ _ _ Hapart) in Hfk' as <-. by exists i', row, v. }
        destruct ids as [is_|]; [|destruct (Hrow None qa Hids ltac:(left)) as (? & ? & ? & ? & _); done]. destruct Hids as [_ Hids].
        rewrite (ri_intro _ _ _ _ Hruns k0 c k Hfk), Ec. unfold answers. rewrite Ec, Hfk. cbn [intro_call]. rename qa into q1, qfs into qs.
        set (rowv := fun i => map (fun q0 => d_field D (ld_intro L k) (Some i) (q_name q0) (q_opts q0)) (q1 :: qs)).
        assert (forall l, (forall i, i ∈ l -> met E D J0 J0 gn (Some i) n) ->
          mapR (fun i => match row_of S T k i with Ok row => vlist id (mapR (fun q => row (q_name q)) (q1 :: qs)) | Err e => Err e end) l = Ok (map (fun i => VList (rowv i)) l)) as Hall.
        { intros l Hmet. apply mapR_map_ok, Forall_forall. intros i Hi. specialize (Hmet i Hi).
          destruct (Hrow _ q1 Hmet ltac:(left)) as (i' & row & _ & [= <-] & Hr & _). rewrite Hr.
          assert (mapR (fun q => row (q_name q)) (q1 :: qs) = Ok (rowv i)) as ->; [|cbn [vlist]; by rewrite map_id].
          apply mapR_map_ok, Forall_forall. intros q0 Hq0. destruct (Hrow _ q0 Hmet Hq0) as (i' & row' & v & [= <-] & Hr' & Hv). rewrite Hr in Hr'. injection Hr' as <-.
          rewrite (ds_field _ _ _ _ HD), Hr, Hv. done. }
        rewrite (Hall is_ Hids). cbn [vlist outcome_of ret_val]. eexists. split; [reflexivity|]. exists (map (fun i => VList (rowv i)) is_). split; [by rewrite map_id|].
        apply Forall2_fmap_r, Forall_Forall2_diag, Forall_forall. intros i _. done.
    - destruct Ha as (l & q0 & Hq & Hql & Hf & Hfc & -> & ->). rewrite Hfc in Hil.
      destruct (link_met _ _ _ _ _ _ Hm0 Hq Hf Hil) as (-> & _ & _ & k & Hk & Hto & _).
      assert (forall i, met E D J0 J0 gn i n -> match gl_requires l with
        | None => link_root S k (link_opts l q0) = Ok (d_link D (gl_func l) None (link_opts l q0))
        | Some r => link_of S k (field_value (field_val E D (j_level J0)) gn i r None) =
             Ok (d_link D (gl_func l) (Some (field_value (field_val E D (j_level J0)) gn i r None)) (link_opts l q0)) end) as Hlink.
      { intros i Hm. destruct (link_met _ _ _ _ _ _ Hm Hq Hf Hil) as (_ & _ & _ & k' & Hk' & _ & Hv).
        rewrite Hk in Hk'. apply (ap_intro _ _ _ Hapart) in Hk' as <-. unfold link_value, link_arg in Hv. by destruct (gl_requires l). }
      rewrite Hk in Hfc. rewrite (ri_intro _ _ _ _ Hruns k0 c k Hfc), Ec. unfold answers. rewrite Ec, Hfc. rewrite Hk in Hlink.
      destruct (gl_requires l) as [r|] eqn:Er.
      + destruct ids as [is_|].
        * cbn [intro_call]. rewrite Hto. destruct Hids as [_ Hids].
          set (vs := map (fun i => field_value (field_val E D (j_level J0)) gn (Some i) r None) is_).
          assert (mapR (fun v => match v with IVal i => link_of S k i | _ => Err TypeError end) (map IVal vs) =
            Ok (map (fun a => d_link D (ld_intro L k) (Some a) (link_opts l q0)) vs)) as Hall.
          { assert (forall us, (forall u, u ∈ us -> link_of S k u = Ok (d_link D (ld_intro L k) (Some u) (link_opts l q0))) ->
              mapR (fun v => match v with IVal i => link_of S k i | _ => Err TypeError end) (map IVal us) = Ok (map (fun a => d_link D (ld_intro L k) (Some a) (link_opts l q0)) us)) as Hm.
            { induction us as [|u us IH]; intros Hu; [done|]. cbn. rewrite (Hu u ltac:(left)), IH by (intros; apply Hu; by right). done. }
            apply Hm. intros u Hu. apply elem_of_list_fmap in Hu as (i & -> & Hi). exact (Hlink _ (Hids i Hi)). }
          assert (map (fun i => IVal (field_value (field_val E D (j_level J0)) gn (Some i) r None)) is_ = map IVal vs) as -> by (unfold vs; by rewrite map_map).
          rewrite Hall. cbn [vlist outcome_of ret_val]. eexists. split; [reflexivity|]. intros vs' Hvs'. cbn [seq_of]. rewrite map_id.
          assert (vs = vs') as -> by (clear -Hvs'; revert vs' Hvs'; induction vs as [|v vs IH]; intros [|v' vs'] He; try done; injection He as -> He; by rewrite (IH _ He)). done.
        * exfalso. cbn in Hids. destruct (met_where _ _ _ _ Hids) as [(_ & Hno & Hok)|(sg & G & node & Hsg & HG & Hno)].
          -- destruct (added_member L g g' Hadd gn _ _ Hno Hf) as [(gn0 & Hgn0 & Hf0 & _)|[(m & Hx)|(m & Hmi & Hx & Hr)]]; [|done|].
             ++ eapply (own_apart g gn0); [by left|exact Hgn0|exact Hf0| |exact Hil]; done.
             ++ destruct (gn_name m) as [nm|] eqn:Em.
                ** destruct Hr as [Hr| ->]; [congruence|]. destruct (Hok nm Hmi Em) as (? & ? & _). done.
                ** clear -Hmi Hx Er Em. each Hmi Hx; try discriminate Em; injection Hx as ->; discriminate Er.
          -- eapply (own_apart G gn); [right; by exists sg, node|exact Hno| | |exact Hil]; done.
      + cbn [intro_call]. rewrite Hto, (Hlink _ Hm0). eexists. split; reflexivity.
  Qed.

  Hypothesis Hlinks : data_ok E D g.
  Hypothesis Henv : env_data_ok E D.
  Hypothesis Hsup : all_supported E g' q.
  Lemma intro_mdata : met_data E D g' q.
  Proof.
    intros J. split.
    - intros gn n i q0 l Hm Hq Hf. pose proof (met_where _ _ _ _ Hm) as Hw.
      destruct Hw as [(-> & Hno & Hok)|(sg & G & node & Hsg & HG & Hno)].
      + destruct (added_member L g g' Hadd gn _ _ Hno Hf) as [(gn0 & Hgn0 & Hf0 & _)|[(m & Hx)|(m & Hmi & Hx & Hr)]]; [|done|].
        * by eapply (dk_links _ _ _ Hlinks).
        * destruct (link_met _ _ _ _ _ _ Hm Hq Hf) as (_ & Hl & _); [|exact Hl].
          destruct (intro_items_loaders L m (GL l) Hmi Hx) as (f0 & Hk & Hi). by injection Hk as ->.
      + by eapply (dk_links _ _ _ (Henv _ _ _ Hsg)).
    - intros gn n q0 f sg rq pr G' node gn' j Hm Ha Hf Hc Hsg Hn.
      pose proof (met_visited _ _ _ _ _ _ _ Hm) as [Hre Hv].
      assert (field_ok J gn f q0) as Hok.
      { eapply asked_field_ok; [by apply Hsup| |exact Hf]. by exists n. }
      unfold field_ok in Hok. rewrite Hc in Hok. destruct Hok as (_ & _ & _ & Hok).
      destruct (met_where _ _ _ _ Hm) as [(-> & Hno & _)|(sg' & G & node' & Hsg' & HG & Hno)].
      + destruct (added_member L g g' Hadd gn _ _ Hno Hf) as [(gn0 & Hgn0 & Hf0 & _)|[(m & Hx)|(m & Hmi & Hx & Hr)]].
        * by eapply (dk_exprs _ _ _ Hlinks).
        * injection Hx as ->. done.
        * exfalso. each Hmi Hx; try discriminate Hx; injection Hx as ->; done.
      + by eapply (dk_exprs _ _ _ (Henv _ _ _ Hsg')).
  Qed.
End met.

(** Introspection keeps graphs sound (C45, C46): what holds of the graph given to an endpoint holds of the graph it runs
    queries on. *)
From Verif Require Import Base Val Types Query QuerySpec Graph Queue Result Engine EngineSpec CostSpec SubSpec Validate ValidateSpec PropValidate GraphExt
  PropOptions Introspect PropIntroGraph SubWfSpec.

Section added.
  Context (L : loaders) (g g' : graph).
  Hypothesis Hadd : add_introspection L g = Ok g'.
  (** The members of the nodes: those which were there, [__typename], those of introspection *)
  Lemma added_member gn name x : node_of g' gn -> find_field gn name = Some x ->
    (exists gn0, node_of g gn0 /\ find_field gn0 name = Some x /\ node_extends gn0 gn) \/
    (exists n, x = typename_field L n) \/
    (exists n, n ∈ intro_items L /\ x ∈ gn_fields n /\ (gn_name n = None \/ gn = n)).
  Proof.
    intros Hgn Hf. apply find_field_elem in Hf as [Hx <-].
    pose proof (added_wf L g g' Hadd) as (_ & [Hroot _] & Hnodes).
    destruct Hgn as [->|[nm Hnm]].
    - apply root_elem in Hx as (n & Hn & He & Hx). rewrite (added_eq L g g' Hadd) in Hn. cbn [g_items] in Hn. apply elem_of_app in Hn as [Hn|Hn].
      + apply elem_of_list_fmap in Hn as (m & -> & Hm). cbn [add_typename gn_fields gn_name] in Hx, He. apply elem_of_app in Hx as [Hx|Hx].
        * left. exists (g_root g). split; [by left|]. split; [|apply (ex_root _ _ (C45_extends L g g' Hadd))].
          apply find_field_unique; [|apply root_elem; by exists m].
          pose proof (root_fields_eq (g_items g)) as Hr. change (g_root (Graph (g_items g) [])) with (g_root g) in Hr. rewrite Hr.
          rewrite (added_eq L g g' Hadd) in Hroot. cbn [g_items] in Hroot. rewrite roots_app, map_app in Hroot. apply NoDup_app in Hroot as [Hroot _].
          rewrite typename_roots, map_app in Hroot. by apply NoDup_app in Hroot as [Hroot _].
        * right. left. apply elem_of_list_singleton in Hx. eauto.
      + right. right. exists n. auto.
    - apply find_node_elem in Hnm as [Hin Hnm]. pose proof (Hnodes gn nm Hin Hnm) as [Hd _].
      rewrite (added_eq L g g' Hadd) in Hin. cbn [g_items] in Hin. apply elem_of_app in Hin as [Hin|Hin].
      + apply elem_of_list_fmap in Hin as (m & -> & Hm). cbn [add_typename gn_fields gn_name] in Hx, Hnm, Hd. apply elem_of_app in Hx as [Hx|Hx].
        * left. exists m. split; [|split].
          -- right. exists nm. apply find_node_unique; [|done|done]. pose proof (added_wf L g g' Hadd) as (Hns & _ & _).
             rewrite (added_eq L g g' Hadd) in Hns. cbn [g_items] in Hns. rewrite names_app, typename_names in Hns. by apply NoDup_app in Hns as [? _].
          -- apply find_field_unique; [|done]. rewrite map_app in Hd. by apply NoDup_app in Hd as [? _].
          -- apply (typename_extends L g g' Hadd); [by apply (added_item L g g' Hadd)|by rewrite Hnm].
        * right. left. apply elem_of_list_singleton in Hx. eauto.
      + right. right. exists gn. auto.
  Qed.
  Lemma added_node nm : nm ∈ names_of_nodes (intro_items L) -> is_Some (find_node g' nm).
  Proof.
    intros Hn. unfold names_of_nodes in Hn. apply elem_of_list_In, in_flat_map in Hn as (n & Hn%elem_of_list_In & Hx).
    destruct (gn_name n) as [y|] eqn:Ey; [|done]. destruct Hx as [->|[]]. exists n.
    pose proof (added_wf L g g' Hadd) as (Hns & _ & _). apply find_node_unique; [done| |done].
    rewrite (added_eq L g g' Hadd). cbn [g_items]. apply elem_of_app. by right.
  Qed.
  Ltac each Hn Hx := unfold intro_items in Hn; rewrite !elem_of_cons, elem_of_nil in Hn;
    destruct Hn as [->|[->|[->|[->|[->|[->|[->|[]]]]]]]]; cbn [gn_fields] in Hx; rewrite !elem_of_cons, elem_of_nil in Hx;
    repeat match type of Hx with _ \/ _ => destruct Hx as [Hx|Hx] | False => destruct Hx end.

  (** C45: the graph with introspection is sound if the graph was. *)
  Theorem C45_sound_graph E parts : wf_graph E parts g -> wf_graph E parts g'.
  Proof.
    intros Hw. split.
    - intros gn name it Hgn Hf. destruct (added_member gn name it Hgn Hf) as [(gn0 & Hgn0 & Hf0 & _)|[(n & ->)|(n & Hn & Hx & _)]].
      + by eapply (wg_names _ _ _ Hw).
      + apply find_field_elem in Hf as [_ <-]. apply (bool_decide_unpack _). vm_compute. exact I.
      + apply find_field_elem in Hf as [_ <-]. each Hn Hx; subst it; apply (bool_decide_unpack _); vm_compute; exact I.
    - apply (added_root L g g' Hadd), (wg_root _ _ _ Hw).
    - intros gn name l Hgn Hf. destruct (added_member gn name (GL l) Hgn Hf) as [(gn0 & Hgn0 & Hf0 & He)|[(n & ?)|(n & Hn & Hx & Heq)]]; [|done|].
      + destruct (wg_links _ _ _ Hw gn0 name l Hgn0 Hf0) as [[gt Ht] Hr]. split.
        * destruct (ex_nodes _ _ (C45_extends L g g' Hadd) _ _ Ht) as (gt' & -> & _). by eexists.
        * intros r Hr'. destruct (Hr r Hr') as (Hne & f & Hff & Ho). split; [done|]. exists f. split; [|done]. by apply He.
      + split.
        * apply added_node. each Hn Hx; try discriminate Hx; injection Hx as ->; apply (bool_decide_unpack _); vm_compute; exact I.
        * intros r Hr. assert (gn = n) as ->.
          { destruct Heq as [Heq|?]; [|done]. exfalso. each Hn Hx; try discriminate Hx; try discriminate Heq; injection Hx as ->; discriminate Hr. }
          clear Hf Hgn. each Hn Hx; try discriminate Hx; injection Hx as ->; try discriminate Hr; injection Hr as <-; (split; [done|]);
            eexists; (split; [vm_compute; reflexivity|]); by intros (? & ? & ? & ?).
    - intros gn name f sg rq pr Hgn Hf Hc. destruct (added_member gn name (GF f) Hgn Hf) as [(gn0 & Hgn0 & Hf0 & He)|[(n & Hx)|(n & Hn & Hx & Heq)]].
      + destruct (wg_exprs _ _ _ Hw gn0 name f sg rq pr Hgn0 Hf0 Hc) as (H1 & H2). destruct He as [-> _]. done.
      + injection Hx as ->. done.
      + exfalso. each Hn Hx; try discriminate Hx; injection Hx as ->; done.
  Qed.
  (** What the loaders of introspection answer *)
  Definition intro_data_ok (D : data) : Prop := forall n l a o, n ∈ intro_items L -> GL l ∈ gn_fields n ->
    match gl_enum l with
    | Maybe => True
    | One => d_link D (gl_func l) a o <> VNothing
    | Many => is_Some (seq_of (d_link D (gl_func l) a o))
    end.
  Theorem C45_sound_data E D : intro_data_ok D -> data_ok E D g -> data_ok E D g'.
  Proof.
    intros Hi Hd. split.
    - intros gn name l a o Hgn Hf. destruct (added_member gn name (GL l) Hgn Hf) as [(gn0 & Hgn0 & Hf0 & _)|[(n & ?)|(n & Hn & Hx & _)]]; [|done|].
      + by eapply (dk_links _ _ _ Hd).
      + by eapply Hi.
    - intros gn name f sg rq pr G' node gn' k j o Hgn Hf Hc. destruct (added_member gn name (GF f) Hgn Hf) as [(gn0 & Hgn0 & Hf0 & He)|[(n & Hx)|(n & Hn & Hx & Heq)]].
      + by eapply (dk_exprs _ _ _ Hd).
      + injection Hx as ->. done.
      + exfalso. each Hn Hx; try discriminate Hx; injection Hx as ->; done.
  Qed.
  Theorem C45_sound_options : distinct_options g -> distinct_options g'.
  Proof.
    intros Hd gn name x Hgn Hf. destruct (added_member gn name x Hgn Hf) as [(gn0 & Hgn0 & Hf0 & _)|[(n & ->)|(n & Hn & Hx & _)]].
    - by eapply Hd.
    - constructor.
    - each Hn Hx; subst x; apply (bool_decide_unpack _); vm_compute; exact I.
  Qed.
End added.
Print Assumptions C45_sound_graph.
Print Assumptions C45_sound_data.
Print Assumptions C45_sound_options.

(** Theorems about writing and reading queries (C34 - C36). *)
From Verif Require Import Base Val Query QuerySpec QueryProof MergeProof Export ExportSpec Edn EdnSpec PropEdn
  ReadGraphql ReadSpec PropRead Examples.

(** ** Members of a query *)
Lemma members_sub P n sub ord o a ord' : members P (QN [QL n sub ord o a] ord') -> members P (QN sub ord).
Proof. intros Hm q Hq. apply Hm. eapply occ_sub; [left|done|done]. Qed.
Lemma members_one P q l ord : members P (QN l ord) -> q ∈ l -> members P (QN [q] false).
Proof.
  intros Hm Hq q' Ho. apply Hm. inversion Ho as [? ? Hin|? l' ? Hin Hl Hs]; subst.
  - apply elem_of_list_singleton in Hin as ->. by constructor.
  - apply elem_of_list_singleton in Hin as ->. by eapply occ_sub.
Qed.
Lemma members_here P q ord : members P (QN [q] ord) -> P q.
Proof. intros Hm. apply Hm. constructor. left. Qed.
Lemma members_ord P l ord ord' : members P (QN l ord) -> members P (QN l ord').
Proof. intros Hm q Hq. apply Hm. inversion Hq; subst; [by constructor|by eapply occ_sub]. Qed.
Lemma members_impl (P Q : qitem -> Prop) n : (forall q, P q -> Q q) -> members P n -> members Q n.
Proof. intros Hi Hm q Hq. auto. Qed.

(** ** Merging what was merged at lower levels before *)
Section premerge.
  Context `{Hasher}.
  Fixpoint premerged (q : qitem) : qitem :=
    match q with
    | QF _ _ _ => q
    | QL n sub ord o a => let m := merge [QN (map premerged sub) ord] in QL n (qfields m) (qordered m) o a
    end.
  Definition merged_node (q : qitem) : qitem := if q_is_link q then copy_node q (merge [q_node q]) else q.
  Lemma merged_key q : merge_key (merged_node q) = merge_key q.
  Proof. by destruct q. Qed.
  Lemma merged_link q : q_is_link (merged_node q) = q_is_link q.
  Proof. by destruct q. Qed.
  Lemma dedupF_merged l : forall seen, dedupF seen (map merged_node l) = dedupF seen l.
  Proof.
    induction l as [|q l IH]; intros seen; simpl; [done|]. rewrite merged_link, merged_key.
    destruct (q_is_link q) eqn:El; [auto|]. destruct (decide _); [auto|].
    rewrite IH. f_equal. unfold merged_node. by rewrite El.
  Qed.
  Lemma filter_merged (P : qitem -> Prop) `{!forall q, Decision (P q)} l : (forall q, P (merged_node q) <-> P q) ->
    filter P (map merged_node l) = map merged_node (filter P l).
  Proof.
    intros Hp. induction l as [|q l IH]; [done|]. rewrite filter_cons. cbn [map]. rewrite filter_cons.
    destruct (decide (P q)) as [Hq|Hq].
    - rewrite decide_True by (by apply Hp). cbn [map]. by rewrite IH.
    - rewrite decide_False by (by rewrite Hp). done.
  Qed.
  Lemma links_k_merged k l : links_k k (map merged_node l) = map merged_node (links_k k l).
  Proof. unfold links_k. apply filter_merged. intros q. unfold islink. by rewrite merged_link, merged_key. Qed.
  Lemma link_keys_merged l : link_keys (map merged_node l) = link_keys l.
  Proof.
    unfold link_keys. rewrite filter_merged by (intros q; unfold islink; by rewrite merged_link).
    rewrite map_map. f_equal. apply map_ext. apply merged_key.
  Qed.
  Lemma merge_merged l ord : merge [QN (map merged_node l) ord] = merge [QN l ord].
  Proof.
    rewrite !merge_eq. unfold items_of. cbn [map concat qfields]. rewrite !app_nil_r. rewrite dedupF_merged.
    f_equal. f_equal. unfold link_groups. rewrite link_keys_merged.
    induction (link_keys l) as [|k ks IH]; [done|]. cbn [flat_map]. rewrite !map_app, IH. f_equal.
    rewrite links_k_merged. unfold subs. rewrite links_k_merged.
    destruct (links_k k l) as [|f fs] eqn:E; [done|]. cbn [map fst snd].
    assert (forall q, q ∈ f :: fs -> islink q) as Hl.
    { intros q Hq. rewrite <-E in Hq. by apply elem_of_links_k in Hq as (_ & ? & _). }
    f_equal.
    assert (islink f) as Hf by (apply Hl; left).
    assert (q_node (merged_node f) :: map q_node (map merged_node fs) = map merge (map (fun q => [q_node q]) (f :: fs))) as ->.
    { change (q_node (merged_node f) :: map q_node (map merged_node fs)) with (map q_node (map merged_node (f :: fs))). rewrite !map_map.
      apply map_ext_in. intros q Hq%elem_of_list_In. unfold merged_node. rewrite (Hl q Hq). by rewrite q_node_copy by (by apply Hl). }
    rewrite merge_split.
    assert (concat (map (fun q => [q_node q]) (f :: fs)) = map q_node (f :: fs)) as Ec.
    { clear. induction (f :: fs) as [|x l IH]; [done|]. simpl. by rewrite IH. }
    cbn [map] in Ec |- *. rewrite Ec. unfold merged_node. rewrite Hf. by rewrite copy_copy.
  Qed.
  Lemma premerged_eq q : premerged q = merged_node q.
  Proof.
    induction q as [|n sub ord o a IH] using qitem_ind'; [done|]. cbn [premerged]. unfold merged_node at 1. cbn [q_is_link copy_node q_node].
    assert (map premerged sub = map merged_node sub) as ->.
    { apply map_ext_in. intros q Hq%elem_of_list_In. rewrite Forall_forall in IH. auto. }
    by rewrite merge_merged.
  Qed.
  Lemma merge_premerged l ord : merge [QN (map premerged l) ord] = merge [QN l ord].
  Proof. rewrite (map_ext _ _ premerged_eq). apply merge_merged. Qed.

  (** ** Merging queries which are the same up to the order of options *)
  Lemma same_item_key q q' : same_item q q' -> merge_key q = merge_key q' /\ q_is_link q = q_is_link q'.
  Proof. intros []; (split; [|done]); unfold merge_key; simpl; by erewrite same_opts_hash. Qed.
  Lemma dedupF_same l l' : Forall2 same_item l l' -> forall seen, Forall2 same_item (dedupF seen l) (dedupF seen l').
  Proof.
    induction 1 as [|q q' l l' Hq Hl IH]; intros seen; simpl; [constructor|].
    destruct (same_item_key _ _ Hq) as [<- <-]. destruct (q_is_link q); [auto|]. destruct (decide _); [auto|].
    constructor; auto.
  Qed.
  Lemma links_k_same k l l' : Forall2 same_item l l' -> Forall2 same_item (links_k k l) (links_k k l').
  Proof.
    unfold links_k. induction 1 as [|q q' l l' Hq Hl IH]; [constructor|]. rewrite !filter_cons.
    destruct (same_item_key _ _ Hq) as [Ek El]. destruct (decide (islink q /\ merge_key q = k)) as [Hd|Hd]; unfold islink in Hd.
    - rewrite decide_True by (unfold islink; by rewrite <-Ek, <-El). by constructor.
    - rewrite decide_False by (unfold islink; by rewrite <-Ek, <-El). done.
  Qed.
  Lemma link_keys_same l l' : Forall2 same_item l l' -> link_keys l = link_keys l'.
  Proof.
    intros Hl. unfold link_keys. f_equal. induction Hl as [|q q' l l' Hq Hl IH]; [done|]. rewrite !filter_cons.
    destruct (same_item_key _ _ Hq) as [Ek El]. destruct (decide (islink q)) as [Hd|Hd]; unfold islink in Hd.
    - rewrite decide_True by (unfold islink; by rewrite <-El). simpl. by rewrite Ek, IH.
    - rewrite decide_False by (unfold islink; by rewrite <-El). done.
  Qed.
  Lemma same_node q q' : same_item q q' -> same_query (q_node q) (q_node q').
  Proof. intros []; (split; [|done]); simpl; [constructor|done]. Qed.
  Lemma copy_same q q' m m' : same_item q q' -> same_query m m' -> same_item (copy_node q m) (copy_node q' m').
  Proof. intros [n o o' a Ho|n sub sub' ord o o' a Ho Hs] [Hf Eo]; simpl; rewrite ?Eo; by constructor. Qed.
  Lemma items_same ns ns' : Forall2 same_query ns ns' -> Forall2 same_item (items_of ns) (items_of ns').
  Proof. unfold items_of. induction 1 as [|n n' ns ns' [Hn _] _ IH]; [constructor|]. simpl. by apply Forall2_app. Qed.
  Theorem merge_same ns ns' : Forall2 same_query ns ns' -> same_query (merge ns) (merge ns').
  Proof.
    revert ns'. induction ns as [ns IH] using ns_ind. intros ns' Hs. rewrite !merge_eq.
    pose proof (items_same _ _ Hs) as Hi. split; cbn [qfields qordered].
    - apply Forall2_app; [by apply dedupF_same|]. unfold link_groups. rewrite <-(link_keys_same _ _ Hi).
      induction (link_keys (items_of ns)) as [|k ks IHk]; [constructor|]. cbn [flat_map]. rewrite !map_app.
      apply Forall2_app; [|done]. pose proof (links_k_same k _ _ Hi) as Hk.
      pose proof (subs_depth k ns (or_intror I)) as Hd. unfold subs in Hd |- *.
      inversion Hk as [E1 E2|f f' fs fs' Hf Hfs E1 E2]; subst; [constructor|].
      rewrite <-E1 in Hd. specialize (Hd ltac:(done)). constructor; [|constructor]. cbn [fst snd].
      apply copy_same; [done|]. apply IH; [lia|]. apply Forall2_fmap.
      eapply Forall2_impl; [by constructor|]. apply same_node.
    - clear -Hs. induction Hs as [|n n' ns ns' [_ Hn] _ IH]; [done|]. simpl. by rewrite Hn, IH.
  Qed.
End premerge.

(** ** C34: EDN *)
Lemma encode_ok v : json_like v -> simple_encode v = Ok (edn_value v).
Proof.
  induction v as [ | | | | | | |l IH|l IH|l IH|l IH|d IH|d IH|l IH|n w IH| |] using val_ind'; intros Hj; inversion Hj; subst; try done.
  - cbn [simple_encode edn_value]. erewrite mapR_map_ok; [done|]. rewrite Forall_forall in *. auto.
  - unfold opts_val. cbn [simple_encode edn_value].
    match goal with |- context [mapR ?f ?l] => assert (mapR f l = Ok (map (fun '(k, w) => (match k with VStr x => VKw x | _ => k end, edn_value w)) l)) as -> end; [|done].
    apply mapR_map_ok. rewrite Forall_forall in IH. apply Forall_forall. intros [k w] Hin. pose proof (IH _ Hin) as [_ IHw]. cbn [snd] in IHw.
    apply elem_of_list_fmap in Hin as ([x w'] & [= -> ->] & Hin). simpl. rewrite IHw; [done|]. match goal with Hd : Forall (fun p : str * val => _) _ |- _ => rewrite Forall_forall in Hd; by apply (Hd (x, w')) end.
Qed.

(** [premerged] at a member gives what the reader makes of it. *)
Section simple.
  Context `{Hasher}.
  Lemma read_name_ok n o : (forall d, o = Some d -> NoDup (map fst d) /\ Forall (fun p => json_like p.2) d) ->
    exists k, simple_name n o = Ok k /\
      read_name k = Ok (n, match o with Some d => Some (map (fun '(x, w) => (x, edn_value w)) d) | None => None end) /\
      (k = VKw n \/ exists l, k = VParen l).
  Proof.
    intros Ho. destruct o as [d|]; [|exists (VKw n); naive_solver].
    destruct (Ho d eq_refl) as [Hn Hj]. unfold simple_name. rewrite encode_ok by (by constructor).
    eexists. split; [done|]. split; [|eauto]. unfold opts_val. cbn [edn_value read_name get_options].
    rewrite map_map.
    match goal with |- context [mapR ?f ?l] => assert (mapR f l = Ok (map (fun '(x, w) => (x, edn_value w)) d)) as -> end; [|done].
    clear. induction d as [|[x w] d IH]; [done|]. simpl in *. by rewrite IH.
  Qed.
  Lemma simple_item_ok q : members (options_of json_like) (QN [q] false) ->
    exists v, simple_item q = Ok v /\ simple_member v = Ok [premerged (edn_item q)].
  Proof.
    induction q as [n o a|n sub ord o a IH] using qitem_ind'; intros Hm.
    - destruct (read_name_ok n o) as (k & E1 & E2 & Hk); [exact (members_here _ _ _ Hm)|].
      exists k. split; [done|]. destruct Hk as [->|[l ->]]; cbn [simple_member]; by rewrite E2.
    - destruct (read_name_ok n o) as (k & E1 & E2 & Hk); [exact (members_here _ _ _ Hm)|].
      assert (exists l, mapR simple_item sub = Ok l /\ mapR simple_member l = Ok (map (fun q => [premerged (edn_item q)]) sub)) as (l & El & Er).
      { apply members_sub in Hm. clear E1 E2. induction IH as [|q sub Hq Hs IHs]; [by exists []|].
        destruct (Hq (members_one _ _ _ _ Hm ltac:(left))) as (v & Ev & Erv).
        destruct IHs as (l & El & Er). { intros q' Hq'. apply Hm. inversion Hq'; subst; [constructor; by right|eapply occ_sub; [by right|done|done]]. }
        exists (v :: l). simpl. rewrite Ev, El, Erv, Er. done. }
      eexists. cbn [simple_item]. rewrite E1, El. split; [done|]. cbn [simple_member mapR]. rewrite E2, Er.
      cbn [edn_item premerged].
      assert (concat (map (fun q => [premerged (edn_item q)]) sub) = map premerged (map edn_item sub)) as ->; [|done].
      clear. induction sub as [|q sub IH]; [done|]. simpl. by rewrite IH.
  Qed.

  (** Reading what was exported gives the merged query without aliases and flags, with lists
      and dicts of options as EDN vectors and maps. *)
  Theorem C34_round_trip_partial n : members (options_of json_like) n ->
    exists v, simple_export n = Ok v /\ simple_transform v = Ok (merge [edn_query n]).
  Proof.
    intros Hm. destruct n as [l ord]. unfold simple_export, simple_transform, edn_query. cbn [qfields].
    assert (exists vs, mapR simple_item l = Ok vs /\ mapR simple_member vs = Ok (map (fun q => [premerged (edn_item q)]) l)) as (vs & E1 & E2).
    { induction l as [|q l IH]; [by exists []|].
      destruct (simple_item_ok q (members_one _ _ _ _ Hm ltac:(left))) as (v & Ev & Er).
      destruct IH as (vs & Evs & Ers). { intros q' Hq'. apply Hm. inversion Hq'; subst; [constructor; by right|eapply occ_sub; [by right|done|done]]. }
      exists (v :: vs). simpl. by rewrite Ev, Evs, Er, Ers. }
    exists (VVec vs). rewrite E1. split; [done|]. rewrite E2.
    assert (concat (map (fun q => [premerged (edn_item q)]) l) = map premerged (map edn_item l)) as ->.
    { clear. induction l as [|q l IH]; [done|]. simpl. by rewrite IH. }
    by rewrite merge_premerged.
  Qed.

  Lemma unordered_sub n sub ord o a ord' : unordered (QN [QL n sub ord o a] ord') -> unordered (QN sub ord).
  Proof. intros Hu m Hm. apply Hu. eapply lev_sub; [left|done|done]. Qed.
  Lemma unordered_one q l ord : unordered (QN l ord) -> q ∈ l -> unordered (QN [q] false).
  Proof.
    intros Hu Hq m Hm. inversion Hm as [|? l' ? Hin Hl Hs]; subst; [done|].
    apply elem_of_list_singleton in Hin as ->. apply Hu. by eapply lev_sub.
  Qed.
  Lemma edn_item_id q : members (options_of scalar) (QN [q] false) -> no_aliases (QN [q] false) -> unordered (QN [q] false) ->
    edn_item q = q.
  Proof.
    assert (forall q o, members (options_of scalar) (QN [q] false) -> q_opts q = o ->
      match o with Some d => Some (map (fun '(k, w) => (k, edn_value w)) d) | None => None end = o) as Ho.
    { intros q' o Hm E. destruct o as [d|]; [|done]. destruct (members_here _ _ _ Hm d E) as [_ Hd]. f_equal.
      clear -Hd. induction Hd as [|[k w] d Hw _ IH]; [done|]. simpl. rewrite IH. by destruct w. }
    induction q as [n o a|n sub ord o a IH] using qitem_ind'; intros Hm Ha Hu; cbn [edn_item].
    - rewrite (Ho _ o Hm eq_refl). pose proof (members_here _ _ _ Ha) as Ea. simpl in Ea. by rewrite Ea.
    - rewrite (Ho _ o Hm eq_refl). pose proof (members_here _ _ _ Ha) as Ea. simpl in Ea. rewrite Ea.
      apply members_sub in Hm. apply members_sub in Ha. apply unordered_sub in Hu.
      pose proof (Hu _ (lev_here _)) as Eo. simpl in Eo. rewrite Eo. f_equal.
      rewrite <-(map_id sub) at 2. apply map_ext_in. intros q Hq%elem_of_list_In. rewrite Forall_forall in IH.
      apply IH; [done|by eapply members_one|by eapply members_one|by eapply unordered_one].
  Qed.
  (** The query itself, merged, if it has no aliases, no ordered nodes and options which EDN
      gives back as they were. *)
  Theorem C34_inverse_partial n : no_aliases n -> unordered n -> members (options_of scalar) n ->
    exists v, simple_export n = Ok v /\ simple_transform v = Ok (merge [n]).
  Proof.
    intros Ha Hu Hm. destruct (C34_round_trip_partial n) as (v & E1 & E2).
    { eapply members_impl; [|exact Hm]. intros q Hq d Hd. destruct (Hq d Hd) as [? Hs]. split; [done|].
      eapply Forall_impl; [exact Hs|]. intros [k []]; try done; constructor. }
    exists v. split; [done|]. rewrite E2. f_equal. f_equal. f_equal. unfold edn_query. destruct n as [l ord]. simpl.
    pose proof (Hu _ (lev_here _)) as Eo. simpl in Eo. rewrite Eo. f_equal.
    rewrite <-(map_id l) at 2. apply map_ext_in. intros q Hq%elem_of_list_In.
    apply edn_item_id; [by eapply members_one|by eapply members_one|by eapply unordered_one].
  Qed.

  (** *** As text *)
  Context `{PyText} (th : str -> option (val -> res val)) (ascii : bool).
  Definition writable (q : qitem) : Prop :=
    Forall word_char (q_name q) /\
    forall d, q_opts q = Some d -> Forall (fun p => Forall word_char p.1 /\ readable th ascii false (edn_value p.2)) d.
  Lemma json_native v : json_like v -> native (edn_value v) = true /\ hashable (edn_value v) = true.
  Proof.
    induction v as [ | | | | | | |l IH|l IH|l IH|l IH|d IH|d IH|l IH|n w IH| |] using val_ind'; intros Hj; inversion Hj; subst; try done.
    - cbn [edn_value native hashable]. rewrite !forallb_forall. rewrite Forall_forall in IH.
      match goal with Hd : Forall _ l |- _ => rewrite Forall_forall in Hd; rename Hd into Hl end.
      split; intros x (y & <- & Hy)%in_map_iff; apply elem_of_list_In in Hy; apply IH; auto.
    - unfold opts_val. cbn [edn_value native hashable]. rewrite !forallb_forall. rewrite Forall_forall in IH.
      match goal with Hd : Forall (fun p : str * val => _) _ |- _ => rewrite Forall_forall in Hd; rename Hd into Hl end.
      split; intros [k w] ([k' w'] & [= <- <-] & Hin)%in_map_iff; apply elem_of_list_In in Hin; destruct (IH _ Hin) as [_ IHw];
        apply elem_of_list_fmap in Hin as ([x w] & [= -> ->] & Hin); simpl; apply IHw; by apply (Hl (x, w)).
  Qed.
  Lemma readable_last v b b' : json_like v -> readable th ascii b (edn_value v) -> readable th ascii b' (edn_value v).
  Proof. intros Hj. by inversion Hj. Qed.
  Lemma distinct_kws (l : list str) : NoDup l -> distinct (map VKw l).
  Proof.
    induction 1 as [|x l Hx Hl IH]; [constructor|]. constructor; [|done]. apply Forall_forall.
    intros v (y & -> & Hy)%elem_of_list_fmap. cbn [py_eqb]. apply bool_decide_eq_false. by intros ->.
  Qed.
  Lemma readable_map (d : list (str * val)) b : NoDup (map fst d) -> Forall (fun p => json_like p.2) d ->
    Forall (fun p => Forall word_char p.1 /\ readable th ascii false (edn_value p.2)) d ->
    readable th ascii b (edn_value (opts_val d)).
  Proof.
    intros Hn Hj Hw. unfold opts_val. cbn [edn_value readable]. rewrite pairs_eq. rewrite !map_map. split; [|split].
    - clear Hn. induction d as [|[x w] d IH]; [done|]. inversion Hj; inversion Hw; subst. cbn [map pairs_ok fst snd] in *.
      split; [naive_solver|]. split; [|auto]. apply (readable_last _ false); naive_solver.
    - apply forallb_forall. intros v ([x w] & <- & _)%in_map_iff. done.
    - assert (map (fun x : str * val => as_edn (VKw x.1)) d = map VKw (map fst d)) as E.
      { rewrite map_map. done. }
      change (distinct (map (fun x : str * val => as_edn (VKw x.1)) d)). rewrite E. by apply distinct_kws.
  Qed.
  Lemma readable_name n o : Forall word_char n ->
    (forall d, o = Some d -> NoDup (map fst d) /\ Forall (fun p => json_like p.2) d) ->
    (forall d, o = Some d -> Forall (fun p => Forall word_char p.1 /\ readable th ascii false (edn_value p.2)) d) ->
    forall v, simple_name n o = Ok v -> (forall b, readable th ascii b v) /\ native v = true /\ hashable v = true.
  Proof.
    intros Hn Hj Hw v. destruct o as [d|]; unfold simple_name.
    - destruct (Hj d eq_refl) as [Hd Hjd]. rewrite encode_ok by (by constructor). intros [= <-].
      destruct (json_native (opts_val d)) as [E1 E2]; [by constructor|]. split.
      + intros b. cbn [readable]. split; [done|]. split; [|done]. apply readable_map; auto.
      + change (native (VKw n) && (native (edn_value (opts_val d)) && true) = true /\ hashable (VKw n) && (hashable (edn_value (opts_val d)) && true) = true). by rewrite E1, E2.
    - intros [= <-]. done.
  Qed.
  Definition fine (v : val) : Prop := (forall b, readable th ascii b v) /\ native v = true.
  Lemma fine_vec l : Forall fine l -> fine (VVec l).
  Proof.
    intros Hl. split.
    - intros b. cbn [readable]. rewrite items_eq. induction Hl as [|x l [Hx _] _ IH]; [done|]. simpl. split; [apply Hx|done].
    - cbn [native]. apply forallb_forall. intros x Hx%elem_of_list_In. rewrite Forall_forall in Hl. by apply Hl.
  Qed.
  Lemma simple_item_fine q v : members (options_of json_like) (QN [q] false) -> members writable (QN [q] false) ->
    simple_item q = Ok v -> fine v.
  Proof.
    revert v. induction q as [n o a|n sub ord o a IH] using qitem_ind'; intros v Hm Hw Hv.
    - destruct (members_here _ _ _ Hw) as [Hn Hd]. destruct (readable_name n o Hn (members_here _ _ _ Hm) Hd v Hv) as (? & ? & _). done.
    - cbn [simple_item] in Hv. destruct (simple_name n o) as [k|] eqn:Ek; [|done].
      destruct (members_here _ _ _ Hw) as [Hn Hd]. destruct (readable_name n o Hn (members_here _ _ _ Hm) Hd k Ek) as (R1 & R2 & R3).
      destruct (mapR simple_item sub) as [l|] eqn:El; [|done]. injection Hv as <-.
      assert (fine (VVec l)) as [F1 F2].
      { apply fine_vec. apply mapR_ok in El. apply members_sub in Hm. apply members_sub in Hw.
        rewrite Forall_forall in IH. apply Forall_forall. intros x Hx. apply elem_of_list_lookup in Hx as [i Hi].
        destruct (Forall2_lookup_r _ _ _ _ _ El Hi) as (q & Hq%elem_of_list_lookup_2 & E).
        eapply IH; [done|by eapply members_one|by eapply members_one|done]. }
      split.
      + intros b. cbn [readable]. split; [split; [apply R1|split; [exact (F1 true)|done]]|]. 
        cbn [map fst forallb]. split.
        * rewrite native_as_edn by done. by rewrite R3.
        * constructor; constructor.
      + cbn [native forallb]. rewrite R2. cbn [native] in F2. by rewrite F2.
  Qed.
  (** The text of the exported query, read: under the conditions of C32. *)
  Theorem C34_text_partial n : members (options_of json_like) n -> members writable n ->
    exists v t, simple_export n = Ok v /\ dumps ascii v = Ok t /\ simple_read th t = Ok (merge [edn_query n]).
  Proof.
    intros Hm Hw. destruct (C34_round_trip_partial n Hm) as (v & E1 & E2).
    assert (fine v) as [F1 F2].
    { unfold simple_export in E1. destruct (mapR simple_item (qfields n)) as [l|] eqn:El; [|done]. injection E1 as <-.
      apply fine_vec. apply mapR_ok in El. apply Forall_forall. intros x Hx. apply elem_of_list_lookup in Hx as [i Hi].
      destruct (Forall2_lookup_r _ _ _ _ _ El Hi) as (q & Hq%elem_of_list_lookup_2 & E). destruct n as [l' ord].
      eapply simple_item_fine; [by eapply members_one|by eapply members_one|done]. }
    destruct (C32_round_trip_partial th ascii v (F1 false)) as (t & Ht & _ & Hl). exists v, t. split; [done|]. split; [done|].
    unfold simple_read. by rewrite Hl.
  Qed.
End simple.
Print Assumptions C34_round_trip_partial.
Print Assumptions C34_inverse_partial.
Print Assumptions C34_text_partial.

(** False of the code: aliases, ordered nodes and lists in options are not given back. *)
Theorem C34_alias_refuted `{Hasher} : exists n v m, simple_export n = Ok v /\ simple_transform v = Ok m /\
  qfields (merge [n]) = [QF (s "a") None (Some (s "b"))] /\ qfields m = [QF (s "a") None None].
Proof. exists (QN [QF (s "a") None (Some (s "b"))] false). do 2 eexists. repeat split. Qed.
Print Assumptions C34_alias_refuted.
Theorem C34_ordered_refuted `{Hasher} : exists n v m, simple_export n = Ok v /\ simple_transform v = Ok m /\
  qordered (merge [n]) = true /\ qordered m = false.
Proof. exists (QN [QF (s "a") None None] true). do 2 eexists. repeat split. Qed.
Print Assumptions C34_ordered_refuted.
Theorem C34_list_refuted `{Hasher} : exists n v m, simple_export n = Ok v /\ simple_transform v = Ok m /\
  qfields (merge [n]) = [QF (s "a") (Some [(s "k", VList [VInt 1])]) None] /\
  qfields m = [QF (s "a") (Some [(s "k", VVec [VInt 1])]) None] /\ py_eqb (VList [VInt 1]) (VVec [VInt 1]) = false.
Proof. exists (QN [QF (s "a") (Some [(s "k", VList [VInt 1])]) None] false). do 2 eexists. repeat split. Qed.
Print Assumptions C34_list_refuted.

(** ** Values which are the same up to the order of dicts *)
Lemma same_list l l' : Forall2 same_val l l' -> same_val (VList l) (VList l').
Proof.
  assert (forall p, Forall2 same_val l l' -> same_val (VList (p ++ l)) (VList (p ++ l'))) as Hp; [|exact (Hp [])].
  revert l'. induction l as [|x l IH]; intros l' p Hf; inversion Hf as [|? y ? l2 Hx Hl]; subst; [apply sv_refl|].
  eapply sv_trans; [apply sv_list; exact Hx|].
  replace (p ++ y :: l) with ((p ++ [y]) ++ l) by (by rewrite <-app_assoc).
  replace (p ++ y :: l2) with ((p ++ [y]) ++ l2) by (by rewrite <-app_assoc). by apply IH.
Qed.
Lemma same_dict (d d' : list (str * val)) : Forall2 (fun p r => r.1 = p.1 /\ same_val p.2 r.2) d d' -> same_val (opts_val d) (opts_val d').
Proof.
  assert (forall p : list (str * val), Forall2 (fun p r => r.1 = p.1 /\ same_val p.2 r.2) d d' ->
    same_val (opts_val (p ++ d)) (opts_val (p ++ d'))) as Hp; [|exact (Hp [])].
  revert d'. induction d as [|[k x] d IH]; intros d' p Hf; inversion Hf as [|? [k' y] ? d2 Hx Hl]; subst; [apply sv_refl|].
  simpl in Hx. destruct Hx as [-> Hx]. eapply sv_trans.
  - unfold opts_val. rewrite map_app. cbn [map fst snd]. apply sv_dict. exact Hx.
  - pose proof (IH d2 (p ++ [(k, y)]) Hl) as Hi. rewrite <-!app_assoc in Hi. cbn [app] in Hi.
    unfold opts_val in Hi |- *. rewrite map_app in Hi. cbn [map fst snd] in Hi. exact Hi.
Qed.

(** ** C35: Protocol Buffers *)
Section protobuf.
  Context `{Protobuf} `{Hasher}.
  Definition storable (v : val) : Prop := json_like v /\ forall x, x ∈ numbers v -> pb_num x = x.
  Lemma keys_kept {A B} (f : A -> B) (d : list (str * A)) : map fst (map (fun '(k, w) => (k, f w)) d) = map fst d.
  Proof. rewrite map_map. apply map_ext. by intros []. Qed.
  Lemma pb_pairs (d : list (str * val)) : Forall (fun p => exists w, pb_value p.2 = Ok w /\ same_val (pb_back w) p.2) d ->
    exists d', mapR (fun '(k, w) => match key_of k with
                                   | Err e => Err e
                                   | Ok x => match pb_value w with Ok w' => Ok (x, w') | Err e => Err e end
                                   end) (map (fun p => (VStr p.1, p.2)) d) = Ok d' /\
      Forall2 (fun p r => r.1 = p.1 /\ same_val p.2 r.2) (map (fun '(k, w) => (k, pb_back w)) d') d.
  Proof.
    induction 1 as [|[k w] d (w' & Ew & Hw) _ IH]; [exists []; split; [done|constructor]|].
    destruct IH as (d' & Ed & Hd). exists ((k, w') :: d'). cbn [map fst snd mapR key_of] in *. rewrite Ew, Ed. split; [done|].
    constructor; [done|done].
  Qed.
  Lemma pb_ordered d d' : NoDup (map fst d) -> Forall2 (fun p r => r.1 = p.1 /\ same_val p.2 r.2) d' d ->
    same_val (opts_val (pb_order d')) (opts_val d).
  Proof.
    intros Hn Hd. eapply sv_trans; [|by apply same_dict]. apply sv_sym, sv_perm.
    - assert (map fst d' = map fst d) as ->; [|done]. clear -Hd. induction Hd as [|? ? ? ? [? _] _ IH]; [done|]. simpl. congruence.
    - symmetry. apply pb_order_perm.
  Qed.
  Lemma pb_value_ok v : storable v -> exists p, pb_value v = Ok p /\ same_val (pb_back p) v.
  Proof.
    intros [Hj Hn]. revert Hj Hn.
    induction v as [ | | | | | | |l IH|l IH|l IH|l IH|d IH|d IH|l IH|n w IH| |] using val_ind'; intros Hj Hn; inversion Hj as [| | | | |? Hl|d0 Hk Hd Ed]; subst;
      try (eexists; split; [done|simpl; apply sv_refl]).
    - eexists. split; [done|]. simpl. rewrite Hn by (by left). apply sv_refl.
    - eexists. split; [done|]. simpl. rewrite Hn by (by left). apply sv_refl.
    - cbn [pb_value]. assert (exists ps, mapR pb_value l = Ok ps /\ Forall2 same_val (map pb_back ps) l) as (ps & -> & Hs).
      { clear Hj. cbn [numbers] in Hn. induction IH as [|v l Hv _ IHl]; [exists []; split; [done|constructor]|]. inversion Hl; subst.
        destruct Hv as (p & Ep & Hp); [done|intros; apply Hn; simpl; apply elem_of_app; by left|].
        destruct IHl as (ps & Eps & Hps); [intros; apply Hn; simpl; apply elem_of_app; by right|done|].
        exists (p :: ps). simpl. rewrite Ep, Eps. split; [done|]. by constructor. }
      eexists. split; [done|]. simpl. by apply same_list.
    - unfold opts_val. cbn [pb_value]. destruct (pb_pairs d0) as (d' & -> & Hd').
      { rewrite Forall_forall in IH. rewrite Forall_forall in Hd. apply Forall_forall. intros [k w] Hin.
        destruct (IH (VStr k, w)) as [_ IHw]; [apply elem_of_list_fmap; by exists (k, w)|].
        apply IHw; [by apply (Hd (k, w))|]. intros x Hx. apply Hn. unfold opts_val. cbn [numbers].
        apply elem_of_list_In, in_flat_map. exists (VStr k, w). split; [|by apply elem_of_list_In].
        apply in_map_iff. exists (k, w). split; [done|]. by apply elem_of_list_In. }
      eexists. split; [done|]. cbn [pb_back]. by apply pb_ordered.
  Qed.
  Lemma pb_options_ok q : options_of storable q -> exists po, pb_options (q_opts q) = Ok po /\ same_opts (pb_back_options po) (q_opts q).
  Proof.
    intros Ho. destruct (q_opts q) as [d|] eqn:E; [|exists None; split; [done|apply sv_refl]]. destruct (Ho d E) as [Hn Hd].
    cbn [pb_options]. unfold opts_val. cbn [pb_value]. destruct (pb_pairs d) as (d' & -> & Hd').
    { eapply Forall_impl; [exact Hd|]. intros [k w] Hw. by apply pb_value_ok. }
    eexists. split; [done|]. unfold same_opts. destruct d' as [|p d'].
    - inversion Hd'; subst. destruct pb_empty_set; simpl; [|apply sv_refl]. apply sv_sym, sv_perm; [constructor|]. symmetry. apply pb_order_perm.
    - cbn [pb_back_options opt_dict]. by apply pb_ordered.
  Qed.
  Definition named (q : qitem) : Prop := q_name q <> [].
  Lemma pb_item_ok q : members (options_of storable) (QN [q] false) -> members named (QN [q] false) ->
    no_aliases (QN [q] false) -> unordered (QN [q] false) -> exists p q', pb_item q = Ok p /\ pb_read_item p = Ok q' /\ same_item q' q.
  Proof.
    induction q as [n o a|n sub ord o a IH] using qitem_ind'; intros Hm Hn Ha Hu;
      destruct (pb_options_ok _ (members_here _ _ _ Hm)) as (po & Ep & Hp); pose proof (members_here _ _ _ Hn) as Hne;
      pose proof (members_here _ _ _ Ha) as Ea; unfold named in Hne; cbn [q_opts q_name q_alias] in *; subst a.
    - exists (PField n po), (QF n (pb_back_options po) None). cbn [pb_item pb_read_item]. rewrite Ep. split; [done|].
      rewrite decide_False by done. split; [done|by constructor].
    - apply members_sub in Hm, Hn, Ha. apply unordered_sub in Hu. pose proof (Hu _ (lev_here _)) as Eo. simpl in Eo. subst ord.
      assert (exists l l', mapR pb_item sub = Ok l /\ mapR pb_read_item l = Ok l' /\ Forall2 same_item l' sub) as (l & l' & E1 & E2 & Hs).
      { assert (forall q, q ∈ sub -> exists p q', pb_item q = Ok p /\ pb_read_item p = Ok q' /\ same_item q' q) as Hq.
        { intros q Hq. rewrite Forall_forall in IH. apply IH; [done| | | |].
          1-3: by eapply members_one. by eapply unordered_one. }
        clear -Hq. induction sub as [|q sub IHs]; [exists [], []; repeat split; constructor|].
        destruct (Hq q ltac:(left)) as (p & q' & E1 & E2 & Hs). destruct IHs as (l & l' & E3 & E4 & Hl); [intros; apply Hq; by right|].
        exists (p :: l), (q' :: l'). simpl. rewrite E1, E3, E2, E4. repeat split. by constructor. }
      exists (PLink n l po), (QL n l' false (pb_back_options po) None). cbn [pb_item pb_read_item]. rewrite Ep, E1. split; [done|].
      rewrite decide_False by done. rewrite E2. split; [done|]. by constructor.
  Qed.
  (** What was exported is read as the merged query, up to the order of options. *)
  Theorem C35_inverse_partial n : no_aliases n -> unordered n -> members named n -> members (options_of storable) n ->
    exists p m, pb_export n = Ok p /\ pb_transform p = Ok m /\ same_query m (merge [n]).
  Proof.
    destruct n as [l ord]. intros Ha Hu Hn Hm. pose proof (Hu _ (lev_here _)) as Eo. simpl in Eo. subst ord.
    assert (exists ps l', mapR pb_item l = Ok ps /\ mapR pb_read_item ps = Ok l' /\ Forall2 same_item l' l) as (ps & l' & E1 & E2 & Hs).
    { assert (forall q, q ∈ l -> exists p q', pb_item q = Ok p /\ pb_read_item p = Ok q' /\ same_item q' q) as Hq.
      { intros q Hq. apply pb_item_ok. 1-3: by eapply members_one. by eapply unordered_one. }
      clear -Hq. induction l as [|q sub IHs]; [exists [], []; repeat split; constructor|].
      destruct (Hq q ltac:(left)) as (p & q' & E1 & E2 & Hs). destruct IHs as (l & l' & E3 & E4 & Hl); [intros; apply Hq; by right|].
      exists (p :: l), (q' :: l'). simpl. rewrite E1, E3, E2, E4. repeat split. by constructor. }
    exists ps, (merge [QN l' false]). unfold pb_export, pb_transform. cbn [qfields]. rewrite E1, E2. split; [done|]. split; [done|].
    apply merge_same. constructor; [|constructor]. done.
  Qed.

  (** A message with an item without name or without contents, at any depth, is refused. *)
  Inductive pb_faulty : list pbitem -> Prop :=
  | pf_empty l : PEmpty ∈ l -> pb_faulty l
  | pf_field l o : PField [] o ∈ l -> pb_faulty l
  | pf_link l node o : PLink [] node o ∈ l -> pb_faulty l
  | pf_sub l n node o : PLink n node o ∈ l -> pb_faulty node -> pb_faulty l.
  Fixpoint pb_err (p : pbitem) e {struct p} : pb_read_item p = Err e -> e = TypeError.
  Proof.
    destruct p as [n o|n node o|]; simpl; [destruct (decide _); congruence| |congruence].
    destruct (decide _); [congruence|]. destruct (mapR pb_read_item node) as [|e'] eqn:E; [done|]. intros [= <-].
    revert E. induction node as [|p node IH]; [done|]. simpl. destruct (pb_read_item p) as [|e''] eqn:Ep.
    - destruct (mapR pb_read_item node); [done|]. intros [= ->]. by apply IH.
    - intros [= ->]. exact (pb_err p _ Ep).
  Qed.
  Lemma pb_errs l e : mapR pb_read_item l = Err e -> e = TypeError.
  Proof.
    induction l as [|p l IH]; [done|]. simpl. destruct (pb_read_item p) as [|e'] eqn:Ep.
    - destruct (mapR pb_read_item l); [done|]. intros [= ->]. by apply IH.
    - intros [= ->]. by eapply pb_err.
  Qed.
  Theorem C35_faulty_refused l : pb_faulty l -> pb_transform l = Err TypeError.
  Proof.
    intros Hf. unfold pb_transform. destruct (mapR pb_read_item l) as [r|e] eqn:E; [|by apply pb_errs in E as ->].
    exfalso. revert r E. induction Hf as [l Hl|l o Hl|l node o Hl|l n node o Hl Hn IH]; intros r Hr%mapR_ok;
      apply elem_of_list_lookup in Hl as [i Hi]; destruct (Forall2_lookup_l _ _ _ _ _ Hr Hi) as (y & _ & Ey); try done.
    cbn [pb_read_item] in Ey. destruct (decide _); [done|]. destruct (mapR pb_read_item node) as [r'|]; [|done]. by eapply IH.
  Qed.
  Theorem C35_sound_read l : ~ pb_faulty l -> exists m, pb_transform l = Ok m.
  Proof.
    intros Hf. unfold pb_transform.
    assert (forall p, ~ pb_faulty [p] -> exists q, pb_read_item p = Ok q) as Hp.
    { fix IH 1. intros [n o|n node o|] Hn.
      - cbn [pb_read_item]. destruct (decide (n = [])) as [->|]; [|by eexists]. destruct Hn. eapply pf_field. left.
      - cbn [pb_read_item]. destruct (decide (n = [])) as [->|]; [destruct Hn; eapply pf_link; left|].
        assert (exists r, mapR pb_read_item node = Ok r) as [r ->]; [|by eexists].
        assert (~ pb_faulty node) as Hnode. { intros Hx. apply Hn. eapply pf_sub; [left|done]. }
        clear Hn. induction node as [|p node IHn]; [by eexists|].
        destruct (IH p) as [q Eq].
        { intros Hx. apply Hnode. inversion Hx as [? Hi|? ? Hi|? ? ? Hi|? ? ? ? Hi]; subst; apply elem_of_list_singleton in Hi; subst.
          - apply pf_empty. left.
          - eapply pf_field. left.
          - eapply pf_link. left.
          - eapply pf_sub; [left|done]. }
        destruct IHn as [r Er].
        { intros Hx. apply Hnode. inversion Hx; subst; [apply pf_empty|eapply pf_field|eapply pf_link|eapply pf_sub; [|done]]; by right. }
        simpl. rewrite Eq, Er. by eexists.
      - destruct Hn. apply pf_empty. left. }
    assert (exists r, mapR pb_read_item l = Ok r) as [r ->]; [|by eexists].
    induction l as [|p l IHl]; [by eexists|]. destruct (Hp p) as [q Eq].
    { intros Hx. apply Hf. inversion Hx as [? Hi|? ? Hi|? ? ? Hi|? ? ? ? Hi]; subst; apply elem_of_list_singleton in Hi; subst.
      - apply pf_empty. left.
      - eapply pf_field. left.
      - eapply pf_link. left.
      - eapply pf_sub; [left|done]. }
    destruct IHl as [r Er].
    { intros Hx. apply Hf. inversion Hx; subst; [apply pf_empty|eapply pf_field|eapply pf_link|eapply pf_sub; [|done]]; by right. }
    simpl. rewrite Eq, Er. by eexists.
  Qed.
End protobuf.
Print Assumptions C35_inverse_partial.
Print Assumptions C35_faulty_refused.
Print Assumptions C35_sound_read.
Theorem C35_alias_refuted `{Protobuf} `{Hasher} : exists n p m, pb_export n = Ok p /\ pb_transform p = Ok m /\
  qfields (merge [n]) = [QF (s "a") None (Some (s "b"))] /\ qfields m = [QF (s "a") None None].
Proof. exists (QN [QF (s "a") None (Some (s "b"))] false). do 2 eexists. repeat split. Qed.
Print Assumptions C35_alias_refuted.
Theorem C35_ordered_refuted `{Protobuf} `{Hasher} : exists n p m, pb_export n = Ok p /\ pb_transform p = Ok m /\
  qordered (merge [n]) = true /\ qordered m = false.
Proof. exists (QN [QF (s "a") None None] true). do 2 eexists. repeat split. Qed.
Print Assumptions C35_ordered_refuted.

(** ** C36: GraphQL *)
Lemma gql_encode_ok v : json_like v -> exists g, gql_encode v = Ok g /\ denotes [] g v.
Proof.
  induction v as [ | | | | | | |l IH|l IH|l IH|l IH|d IH|d IH|l IH|n w IH| |] using val_ind'; intros Hj; inversion Hj as [| | | | |? Hl|d0 Hk Hd Ed]; subst;
    try (eexists; split; [done|constructor]; done).
  - cbn [gql_encode]. assert (exists gs, mapR gql_encode l = Ok gs /\ Forall2 (denotes []) gs l) as (gs & -> & Hg).
    { clear Hj. induction IH as [|v l Hv _ IHl]; [exists []; split; [done|constructor]|]. inversion Hl; subst.
      destruct Hv as (g & Eg & Hg); [done|]. destruct IHl as (gs & Egs & Hgs); [done|].
      exists (g :: gs). simpl. rewrite Eg, Egs. split; [done|]. by constructor. }
    eexists. split; [done|]. by constructor.
  - unfold opts_val. cbn [gql_encode].
    match goal with |- context [mapR ?f ?l] =>
      assert (exists d', mapR f l = Ok d' /\ Forall2 (fun p r => r.1 = p.1 /\ denotes [] p.2 r.2) d' d0) as (d' & -> & Hd') end.
    { assert (Forall (fun p : str * val => exists g, gql_encode p.2 = Ok g /\ denotes [] g p.2) d0) as Hp.
      { rewrite Forall_forall in IH. rewrite Forall_forall in Hd. apply Forall_forall. intros [k w] Hin.
        destruct (IH (VStr k, w)) as [_ IHw]; [apply elem_of_list_fmap; by exists (k, w)|]. apply IHw. by apply (Hd (k, w)). }
      clear -Hp. induction Hp as [|[k w] d (g & Eg & Hg) _ IH]; [exists []; split; [done|constructor]|].
      destruct IH as (d' & Ed & Hd). exists ((k, g) :: d'). cbn [map fst snd mapR key_of] in *. rewrite Eg, Ed. split; [done|]. by constructor. }
    eexists. split; [done|]. change (VDict (map (fun p => (VStr p.1, p.2)) d0)) with (opts_val d0).
    rewrite <-(of_pairs_NoDup d0) by done. by constructor.
Qed.
Lemma gql_args_ok q : options_of json_like q ->
  exists args o, gql_args (q_opts q) = Ok args /\ gives_options [] args o /\ same_opts o (q_opts q).
Proof.
  intros Ho. destruct (q_opts q) as [d|] eqn:E; [|exists [], None; split; [done|]; split; [by left|apply sv_refl]].
  destruct (Ho d E) as [Hn Hd]. cbn [gql_args].
  match goal with |- context [mapR ?f ?l] =>
    assert (exists d', mapR f l = Ok d' /\ Forall2 (fun p r => r.1 = p.1 /\ denotes [] p.2 r.2) d' d) as (d' & -> & Hd') end.
  { clear -Hd. induction Hd as [|[k w] d Hw _ IH]; [exists []; split; [done|constructor]|].
    destruct IH as (d' & Ed & Hd). destruct (gql_encode_ok w Hw) as (g & Eg & Hg). exists ((k, g) :: d'). cbn [mapR] in *.
    rewrite Eg, Ed. split; [done|]. by constructor. }
  destruct d' as [|p d'].
  - inversion Hd'; subst. exists [], None. split; [done|]. split; [by left|apply sv_refl].
  - exists (p :: d'), (Some d). split; [done|]. split; [|apply sv_refl]. right. split; [done|]. exists d. split; [done|].
    by rewrite of_pairs_NoDup.
Qed.
Lemma gql_item_ok q : members (options_of json_like) (QN [q] false) -> unordered (QN [q] false) ->
  exists x q', gql_item q = Ok x /\ reads [] [] [x] [q'] /\ same_item q' q.
Proof.
  induction q as [n o a|n sub ord o a IH] using qitem_ind'; intros Hm Hu;
    destruct (gql_args_ok _ (members_here _ _ _ Hm)) as (args & o' & Ea & Hg & Ho); cbn [q_opts] in *.
  - exists (SField a n args [] None), (QF n o' a). cbn [gql_item]. rewrite Ea. split; [done|]. split; [|by constructor].
    apply rd_field; [by apply skip_nil|done|constructor].
  - apply members_sub in Hm. apply unordered_sub in Hu. pose proof (Hu _ (lev_here _)) as Eo. simpl in Eo. subst ord.
    assert (exists l l', mapR gql_item sub = Ok l /\ reads [] [] l l' /\ Forall2 same_item l' sub) as (l & l' & E1 & E2 & Hs).
    { assert (forall q, q ∈ sub -> exists p q', gql_item q = Ok p /\ reads [] [] [p] [q'] /\ same_item q' q) as Hq.
      { intros q Hq. rewrite Forall_forall in IH. apply IH; [done|by eapply members_one|by eapply unordered_one]. }
      clear -Hq. induction sub as [|q sub IHs]; [exists [], []; repeat split; constructor|].
      destruct (Hq q ltac:(left)) as (p & q' & E1 & E2 & Hs). destruct IHs as (l & l' & E3 & E4 & Hl); [intros; apply Hq; by right|].
      exists (p :: l), (q' :: l'). simpl. rewrite E1, E3. split; [done|]. split; [|by constructor].
      change (p :: l) with ([p] ++ l). apply reads_app. by exists [q'], l'. }
    exists (SField a n args [] (Some l)), (QL n l' false o' a). cbn [gql_item]. rewrite Ea, E1. split; [done|].
    split; [|by constructor]. apply rd_link; [by apply skip_nil|done|done|constructor].
Qed.
(** The exported document is read as the merged query, aliases included. *)
Theorem C36_inverse_partial `{Hasher} n : unordered n -> members (options_of json_like) n ->
  exists doc m, gql_export n = Ok doc /\ read doc [] None = ROk m /\ same_query m (merge [n]).
Proof.
  destruct n as [l ord]. intros Hu Hm. pose proof (Hu _ (lev_here _)) as Eo. simpl in Eo. subst ord.
  assert (exists ps l', mapR gql_item l = Ok ps /\ reads [] [] ps l' /\ Forall2 same_item l' l) as (ps & l' & E1 & E2 & Hs).
  { assert (forall q, q ∈ l -> exists p q', gql_item q = Ok p /\ reads [] [] [p] [q'] /\ same_item q' q) as Hq.
    { intros q Hq. apply gql_item_ok; [by eapply members_one|by eapply unordered_one]. }
    clear -Hq. induction l as [|q sub IHs]; [exists [], []; repeat split; constructor|].
    destruct (Hq q ltac:(left)) as (p & q' & E1 & E2 & Hs). destruct IHs as (l & l' & E3 & E4 & Hl); [intros; apply Hq; by right|].
    exists (p :: l), (q' :: l'). simpl. rewrite E1, E3. split; [done|]. split; [|by constructor].
    change (p :: l) with ([p] ++ l). apply reads_app. by exists [q'], l'. }
  exists [DOp (OpDef OQuery None [] ps)], (merge [QN l' false]). unfold gql_export. cbn [qfields]. rewrite E1. split; [done|].
  split; [|apply merge_same; constructor; [|constructor]; done].
  unfold read. cbn [get_operation collect_ops rbind od_name dget dset]. cbn [od_type].
  apply transform_ok. exists (QN l' false). split; [|done]. apply transform_node_ok. exists [], l'.
  split; [done|]. split; [|done]. split; [|constructor]. intros [?|?%elem_of_nil]%elem_of_cons; done.
Qed.
Print Assumptions C36_inverse_partial.
Theorem C36_ordered_refuted `{Hasher} : exists n doc m, gql_export n = Ok doc /\ read doc [] None = ROk m /\
  qordered (merge [n]) = true /\ qordered m = false.
Proof. exists (QN [QF (s "a") None None] true). do 2 eexists. repeat split. Qed.
Print Assumptions C36_ordered_refuted.

(** ** The hypotheses are met *)
Lemma members_check (P : qitem -> Prop) n : Forall P (all_items n) -> members P n.
Proof. intros Hf q Hq%occurs_all_items. rewrite Forall_forall in Hf. auto. Qed.
Definition ex_out (a : option str) (v : val) : qnode :=
  QN [QL (s "l") [QF (s "b") None a; QL (s "m") [] false (Some []) None] false (Some [(s "n", VInt 3); (s "t", VStr (s "x"))]) None;
      QF (s "f") (Some [(s "k", v)]) a;
      QL (s "l") [QF (s "c") None None; QF (s "b") None a] false (Some [(s "t", VStr (s "x")); (s "n", VInt 3)]) None] false.
Definition ex_json : val := VList [opts_val [(s "p", VNone); (s "q", VBool true)]; VInt 1].
Lemma ex_unordered a v : unordered (ex_out a v).
Proof.
  intros m Hm. inversion Hm as [|? l ? Hin Hl Hs]; subst; [done|]. simpl in Hin.
  repeat (apply elem_of_cons in Hin as [->|Hin]); try done; try (by apply elem_of_nil in Hin);
    inversion Hs as [|? l' ? Hin' Hl' Hs']; subst; try done; simpl in Hin';
    repeat (apply elem_of_cons in Hin' as [->|Hin']); try done; try (by apply elem_of_nil in Hin');
    inversion Hs' as [|? l'' ? Hin'' Hl'' Hs'']; subst; try done; by apply elem_of_nil in Hin''.
Qed.
Example C34_met : no_aliases (ex_out None (VInt 5)) /\ members (options_of scalar) (ex_out None (VInt 5)).
Proof.
  split; [apply members_check; repeat constructor|].
  apply members_check. repeat (constructor; [intros d E; first [discriminate E|injection E as <-; split;
  [apply (bool_decide_unpack _); vm_compute; exact I|]; repeat constructor]|]); constructor.
Qed.
Lemma ex_json_like : json_like ex_json.
Proof.
  unfold ex_json. constructor. constructor; [|repeat constructor]. constructor; [|repeat constructor].
  apply (bool_decide_unpack _); vm_compute; exact I.
Qed.
Example C36_met : members (options_of json_like) (ex_out (Some (s "z")) ex_json).
Proof.
  apply members_check. repeat (constructor; [intros d E; first [discriminate E|injection E as <-; split;
  [apply (bool_decide_unpack _); vm_compute; exact I|]; repeat (constructor; try apply ex_json_like)]|]); constructor.
Qed.
(** A library which keeps numbers and gives entries in reverse order *)
Definition ex_pb : Protobuf := {| pb_num := fun v => v; pb_order := @rev _; pb_empty_set := true;
  pb_order_perm := fun d => symmetry (Permutation_rev d) |}.
Example C35_met : members named (ex_out None ex_json) /\ members (options_of (@storable ex_pb)) (ex_out None ex_json).
Proof.
  split; [apply members_check; repeat constructor; done|].
  apply members_check. repeat (constructor; [intros d E; first [discriminate E|injection E as <-; split;
  [apply (bool_decide_unpack _); vm_compute; exact I|]; repeat (constructor; [split; [first [apply ex_json_like|constructor]|done]|]); constructor]|]); constructor.
Qed.
Example C34_text_met : members (@writable ex_text no_tags true) (ex_out None ex_json) /\
  members (options_of json_like) (ex_out None ex_json).
Proof.
  split.
  - apply members_check. assert (@readable ex_text no_tags true false (edn_value ex_json)) as Hr.
    { cbn. repeat split; try done; repeat constructor; apply (bool_decide_unpack _); vm_compute; exact I. }
    assert (@readable ex_text no_tags true false (edn_value (VStr (s "x")))) as Hx.
    { constructor; [|constructor]. right. split; [vm_compute; discriminate|intros _; vm_compute; discriminate]. }
    repeat (constructor; [split; [apply word_chars; reflexivity|]; intros d E; first [discriminate E|injection E as <-;
      repeat (constructor; [split; [apply word_chars; reflexivity|first [exact Hr|exact I|exact Hx]]|]); try constructor]|]); try constructor.
  - apply members_check. repeat (constructor; [intros d E; first [discriminate E|injection E as <-; split;
  [apply (bool_decide_unpack _); vm_compute; exact I|]; repeat (constructor; try apply ex_json_like)]|]); constructor.
Qed.
Example C34_run : match simple_export (ex_out None ex_json) with
  | Ok v => match @dumps ex_text true v with Ok t => @simple_read ex_hasher ex_text no_tags t | Err e => Err e end
  | Err e => Err e end = Ok (@merge ex_hasher [edn_query (ex_out None ex_json)]).
Proof. vm_compute. reflexivity. Qed.
Example C35_run : match @pb_export ex_pb (ex_out None ex_json) with
  | Ok p => match @pb_transform ex_pb ex_hasher p with Ok m => length (qfields m) | Err _ => 0 end
  | Err e => 0 end = 2.
Proof. vm_compute. reflexivity. Qed.
Example C36_run : match gql_export (ex_out (Some (s "z")) ex_json) with
  | Ok doc => match @read ex_hasher doc [] None with ROk m => map result_key (qfields m) | RErr _ => [] end
  | Err e => [] end = [s "z"; s "l"].
Proof. vm_compute. reflexivity. Qed.

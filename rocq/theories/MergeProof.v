From Verif Require Import Base Val Query QuerySpec QueryProof.

Section s.
  Context `{Hasher}.

  Lemma same_label_refl a : same_label a a.
  Proof. repeat split; done || apply sv_refl. Qed.
  Lemma same_label_sym a b : same_label a b -> same_label b a.
  Proof. intros (? & ? & ? & ?). repeat split; try done. by apply sv_sym. Qed.
  Lemma same_label_trans a b c : same_label a b -> same_label b c -> same_label a c.
  Proof. intros (? & ? & ? & ?) (? & ? & ? & ?). repeat split; try congruence. by eapply sv_trans. Qed.

  Definition occ_in (ns : list qnode) (q : qitem) : Prop := exists n, n ∈ ns /\ occurs q n.

  Lemma occ_items ns q : q ∈ items_of ns -> occ_in ns q.
  Proof. intros (n & Hn & Hq)%elem_of_items. exists n. split; [done|]. by constructor. Qed.
  Lemma occ_subs ns k q : occ_in (subs k (items_of ns)) q -> occ_in ns q.
  Proof.
    intros (n & Hn & Hq). unfold subs in Hn. apply elem_of_list_fmap in Hn as (l & -> & Hl).
    apply elem_of_links_k in Hl as (Hi & Hl & _). apply elem_of_items in Hi as (m & Hm & Hlm).
    exists m. split; [done|]. by eapply occ_sub.
  Qed.
  Lemma key_label ns q1 q2 :
    no_collision (occ_in ns) -> occ_in ns q1 -> occ_in ns q2 -> merge_key q1 = merge_key q2 ->
    q_is_link q1 = q_is_link q2 -> same_label (label_of q1) (label_of q2).
  Proof.
    intros Hc H1 H2 [= En Eh Ea] El. repeat split; try done. simpl. by apply Hc.
  Qed.
  Lemma label_copy f n : label_of (copy_node f n) = label_of f.
  Proof. by destruct f. Qed.

  Lemma merge_requests_sound ns p :
    no_collision (occ_in ns) -> requests (merge ns) p ->
    exists n p', n ∈ ns /\ requests n p' /\ same_path p p'.
  Proof.
    revert p. induction ns as [ns IH] using ns_ind. intros p Hc Hp.
    assert (forall q, q ∈ qfields (merge ns) ->
      (q ∈ items_of ns /\ ~ islink q) \/
      (exists f fs, q = copy_node f (merge (subs (merge_key f) (items_of ns))) /\
                    links_k (merge_key f) (items_of ns) = f :: fs)) as Hq.
    { intros q. rewrite merge_fields, elem_of_app. intros [(Hq & Hl & _)%dedupF_elem|Hq]; [by left|right].
      unfold mlinks in Hq. apply elem_of_list_fmap in Hq as ([f ss] & -> & Hf).
      apply elem_of_link_groups in Hf as (fs & E & ->). eauto. }
    inversion Hp as [n q Hin|n q p0 Hin Hl Hp0]; subst.
    - destruct (Hq q Hin) as [[Hi _]|(f & fs & -> & E)].
      + apply elem_of_items in Hi as (m & Hm & Hqm). exists m, [label_of q].
        split; [done|]. split; [by constructor|]. repeat constructor; apply sv_refl.
      + assert (f ∈ links_k (merge_key f) (items_of ns)) as (Hi & _ & _)%elem_of_links_k by (rewrite E; left).
        apply elem_of_items in Hi as (m & Hm & Hqm). exists m, [label_of f].
        split; [done|]. split; [by constructor|]. rewrite label_copy.
        constructor; [apply same_label_refl|constructor].
    - destruct (Hq q Hin) as [[_ Hn]|(f & fs & -> & E)]; [done|].
      assert (f ∈ links_k (merge_key f) (items_of ns)) as (Hi & Hlf & _)%elem_of_links_k by (rewrite E; left).
      rewrite q_node_copy in Hp0 by done.
      apply IH in Hp0 as (n' & p' & Hn' & Hr & Hs).
      + unfold subs in Hn'. apply elem_of_list_fmap in Hn' as (g & -> & Hg).
        apply elem_of_links_k in Hg as (Hgi & Hgl & Hgk).
        pose proof (occ_items _ _ Hgi) as Hog.
        apply elem_of_items in Hgi as (m & Hm & Hgm). exists m, (label_of g :: p').
        split; [done|]. split; [by apply req_sub|]. rewrite label_copy.
        constructor; [|done]. apply (key_label ns); try done.
        * by apply occ_items.
        * unfold islink in *. congruence.
      + pose proof (subs_depth (merge_key f) ns (or_intror I)) as Hd. rewrite E in Hd.
        specialize (Hd ltac:(done)). lia.
      + intros q1 q2 H1 H2. apply Hc; by eapply occ_subs.
  Qed.

  Lemma merge_requests_complete ns n p :
    no_collision (occ_in ns) -> n ∈ ns -> requests n p ->
    exists p', requests (merge ns) p' /\ same_path p p'.
  Proof.
    revert n p. induction ns as [ns IH] using ns_ind. intros n p Hc Hn Hp.
    assert (forall q, q ∈ items_of ns -> islink q -> exists f fs,
      links_k (merge_key q) (items_of ns) = f :: fs /\ merge_key f = merge_key q /\ islink f /\
      f ∈ items_of ns /\
      copy_node f (merge (subs (merge_key q) (items_of ns))) ∈ qfields (merge ns)) as Hlk.
    { intros q Hq Hl. destruct (links_k (merge_key q) (items_of ns)) as [|f fs] eqn:E.
      - assert (q ∈ links_k (merge_key q) (items_of ns)) as Hx by (by apply elem_of_links_k).
        rewrite E in Hx. by apply elem_of_nil in Hx.
      - assert (f ∈ links_k (merge_key q) (items_of ns)) as (Hi & Hlf & Hk)%elem_of_links_k by (rewrite E; left).
        exists f, fs. repeat split; try done. rewrite merge_fields, elem_of_app. right.
        unfold mlinks. apply elem_of_list_fmap. exists (f, subs (merge_key q) (items_of ns)). split; [done|].
        by eapply link_groups_elem. }
    inversion Hp as [? q Hin|? q p0 Hin Hl Hp0]; subst.
    - assert (q ∈ items_of ns) as Hi by (apply elem_of_items; eauto).
      destruct (decide (islink q)) as [Hl|Hl].
      + destruct (Hlk q Hi Hl) as (f & fs & E & Hk & Hlf & Hfi & Hm).
        eexists. split; [by apply req_here|]. rewrite label_copy.
        constructor; [|constructor]. apply (key_label ns); try done; try by apply occ_items.
        unfold islink in *. congruence.
      + assert (merge_key q ∈ map merge_key (dedupF [] (items_of ns))) as Hk.
        { apply dedupF_keys. split; [apply not_elem_of_nil|]. eauto. }
        apply elem_of_list_fmap in Hk as (f & Ef & Hf).
        pose proof (dedupF_elem _ _ _ Hf) as (Hfi & Hfl & _).
        exists [label_of f]. split.
        * apply req_here. rewrite merge_fields, elem_of_app. by left.
        * constructor; [|constructor]. apply (key_label ns); try done; try by apply occ_items.
          unfold islink in *. destruct (q_is_link q), (q_is_link f); done.
    - assert (q ∈ items_of ns) as Hi by (apply elem_of_items; eauto).
      destruct (Hlk q Hi Hl) as (f & fs & E & Hk & Hlf & Hfi & Hm).
      destruct (IH (subs (merge_key q) (items_of ns))) with (n := q_node q) (p := p0) as (p' & Hr & Hs).
      + pose proof (subs_depth (merge_key q) ns (or_intror I)) as Hd. rewrite E in Hd.
        specialize (Hd ltac:(done)). lia.
      + intros q1 q2 H1 H2. apply Hc; by eapply occ_subs.
      + unfold subs. apply elem_of_list_fmap. exists q. split; [done|]. by apply elem_of_links_k.
      + done.
      + exists (label_of f :: p'). split.
        * rewrite <-(label_copy f (merge (subs (merge_key q) (items_of ns)))).
          apply req_sub; [done| |by rewrite q_node_copy].
          by rewrite copy_node_link.
        * constructor; [|done]. apply (key_label ns); try done; try by apply occ_items.
          unfold islink in *. congruence.
  Qed.

  (** ordered flags *)
  Lemma merge_ordered_sound ns p :
    no_collision (occ_in ns) -> ordered_at (merge ns) p ->
    exists n p', n ∈ ns /\ ordered_at n p' /\ same_path p p'.
  Proof.
    revert p. induction ns as [ns IH] using ns_ind. intros p Hc Hp.
    inversion Hp as [n Ho|n q p0 Hin Hl Hp0]; subst.
    - rewrite merge_ordered in Ho. apply existsb_exists in Ho as (n & Hn & Ho).
      apply elem_of_list_In in Hn. exists n, []. split; [done|]. split; [by constructor|constructor].
    - rewrite merge_fields in Hin. apply elem_of_app in Hin as [(_ & Hx & _)%dedupF_elem|Hin]; [done|].
      unfold mlinks in Hin. apply elem_of_list_fmap in Hin as ([f ss] & -> & Hf). simpl in *.
      apply elem_of_link_groups in Hf as (fs & E & ->).
      assert (f ∈ links_k (merge_key f) (items_of ns)) as (Hi & Hlf & _)%elem_of_links_k by (rewrite E; left).
      rewrite q_node_copy in Hp0 by done.
      apply IH in Hp0 as (n' & p' & Hn' & Hr & Hs).
      + unfold subs in Hn'. apply elem_of_list_fmap in Hn' as (g & -> & Hg).
        apply elem_of_links_k in Hg as (Hgi & Hgl & Hgk).
        pose proof (occ_items _ _ Hgi) as Hog.
        apply elem_of_items in Hgi as (m & Hm & Hgm). exists m, (label_of g :: p').
        split; [done|]. split; [by apply ord_sub|]. rewrite label_copy.
        constructor; [|done]. apply (key_label ns); try done.
        * by apply occ_items.
        * unfold islink in *. congruence.
      + pose proof (subs_depth (merge_key f) ns (or_intror I)) as Hd. rewrite E in Hd.
        specialize (Hd ltac:(done)). lia.
      + intros q1 q2 H1 H2. apply Hc; by eapply occ_subs.
  Qed.
  Lemma merge_ordered_complete ns n p :
    no_collision (occ_in ns) -> n ∈ ns -> ordered_at n p ->
    exists p', ordered_at (merge ns) p' /\ same_path p p'.
  Proof.
    revert n p. induction ns as [ns IH] using ns_ind. intros n p Hc Hn Hp.
    inversion Hp as [? Ho|? q p0 Hin Hl Hp0]; subst.
    - exists []. split; [|constructor]. constructor. rewrite merge_ordered.
      apply existsb_exists. exists n. split; [by apply elem_of_list_In|done].
    - assert (q ∈ items_of ns) as Hi by (apply elem_of_items; eauto).
      destruct (links_k (merge_key q) (items_of ns)) as [|f fs] eqn:E.
      { assert (q ∈ links_k (merge_key q) (items_of ns)) as Hx by (by apply elem_of_links_k).
        rewrite E in Hx. by apply elem_of_nil in Hx. }
      assert (f ∈ links_k (merge_key q) (items_of ns)) as (Hfi & Hlf & Hk)%elem_of_links_k by (rewrite E; left).
      destruct (IH (subs (merge_key q) (items_of ns))) with (n := q_node q) (p := p0) as (p' & Hr & Hs).
      + pose proof (subs_depth (merge_key q) ns (or_intror I)) as Hd. rewrite E in Hd.
        specialize (Hd ltac:(done)). lia.
      + intros q1 q2 H1 H2. apply Hc; by eapply occ_subs.
      + unfold subs. apply elem_of_list_fmap. exists q. split; [done|]. by apply elem_of_links_k.
      + done.
      + exists (label_of f :: p'). split.
        * rewrite <-(label_copy f (merge (subs (merge_key q) (items_of ns)))).
          apply ord_sub; [|by rewrite copy_node_link|by rewrite q_node_copy].
          rewrite merge_fields, elem_of_app. right.
          unfold mlinks. apply elem_of_list_fmap. exists (f, subs (merge_key q) (items_of ns)). split; [done|].
          by eapply link_groups_elem.
        * constructor; [|done]. apply (key_label ns); try done; try by apply occ_items.
          unfold islink in *. congruence.
  Qed.

  (** No duplicates at any level. *)
  Lemma same_label_key q1 q2 : same_label (label_of q1) (label_of q2) -> merge_key q1 = merge_key q2.
  Proof.
    intros (_ & En & Eo & Ea). simpl in *. unfold merge_key.
    by rewrite En, Ea, (same_opts_hash _ _ Eo).
  Qed.
  Lemma NoDup_map_inj_lookup {A B} (f : A -> B) l i j x y :
    NoDup (map f l) -> l !! i = Some x -> l !! j = Some y -> f x = f y -> i = j.
  Proof.
    intros Hn Hi Hj E. apply (NoDup_lookup (map f l) i j (f x)); [done| |];
      rewrite list_lookup_fmap, ?Hi, ?Hj; simpl; congruence.
  Qed.
  Lemma merge_level_unique ns m i j q1 q2 :
    level_of m (merge ns) -> qfields m !! i = Some q1 -> qfields m !! j = Some q2 -> i <> j ->
    ~ same_label (label_of q1) (label_of q2).
  Proof.
    assert (forall ns i j q1 q2, qfields (merge ns) !! i = Some q1 -> qfields (merge ns) !! j = Some q2 ->
              same_label (label_of q1) (label_of q2) -> i = j) as Htop.
    { clear. intros ns i j q1 q2 H1 H2 Hs. rewrite merge_fields in H1, H2.
      pose proof (same_label_key _ _ Hs) as Ek.
      destruct Hs as (El & _). simpl in El.
      apply lookup_app_Some in H1 as [H1|[G1 H1]], H2 as [H2|[G2 H2]].
      - eapply (NoDup_map_inj_lookup merge_key); [apply dedupF_NoDup|..]; done.
      - apply elem_of_list_lookup_2, dedupF_elem in H1 as (_ & H1 & _).
        apply elem_of_list_lookup_2, mlinks_link in H2. unfold islink in *. congruence.
      - apply elem_of_list_lookup_2, dedupF_elem in H2 as (_ & H2 & _).
        apply elem_of_list_lookup_2, mlinks_link in H1. unfold islink in *. congruence.
      - enough (i - length (dedupF [] (items_of ns)) = j - length (dedupF [] (items_of ns))) by lia.
        eapply (NoDup_map_inj_lookup merge_key); [|done..]. rewrite mlinks_keys. apply NoDup_nub. }
    intros Hm H1 H2 Hij Hs. apply Hij. clear Hij.
    revert m i j q1 q2 Hm H1 H2 Hs. induction ns as [ns IH] using ns_ind. intros m i j q1 q2 Hm H1 H2 Hs.
    inversion Hm as [|n l m' Hin Hl Hm']; subst; [by eapply Htop|].
    rewrite merge_fields in Hin. apply elem_of_app in Hin as [(_ & Hx & _)%dedupF_elem|Hin]; [done|].
    unfold mlinks in Hin. apply elem_of_list_fmap in Hin as ([f ss] & -> & Hf). simpl in *.
    apply elem_of_link_groups in Hf as (fs & E & ->).
    assert (f ∈ links_k (merge_key f) (items_of ns)) as (Hi & Hlf & _)%elem_of_links_k by (rewrite E; left).
    rewrite q_node_copy in Hm' by done.
    eapply IH; [|exact Hm'|done..].
    pose proof (subs_depth (merge_key f) ns (or_intror I)) as Hd. rewrite E in Hd.
    specialize (Hd ltac:(done)). lia.
  Qed.
End s.


Section distinct.
  Context `{Hasher}.

  Lemma dedupF_distinct seen l :
    NoDup (map merge_key (List.filter (fun f => negb (q_is_link f)) l)) ->
    (forall f, f ∈ l -> ~ islink f -> merge_key f ∉ seen) ->
    dedupF seen l = List.filter (fun f => negb (q_is_link f)) l.
  Proof.
    revert seen; induction l as [|f l IH]; intros seen Hn Hs; simpl; [done|].
    simpl in Hn. destruct (q_is_link f) eqn:El; simpl in *.
    - apply IH; [done|]. intros g Hg. apply Hs. by right.
    - inversion Hn as [|? ? Hf Hn']; subst.
      rewrite decide_False by (apply Hs; [left|unfold islink; congruence]). f_equal.
      apply IH; [done|]. intros g Hg Hgl. apply not_elem_of_cons. split; [|apply Hs; [by right|done]].
      intros E. apply Hf. rewrite <-E. apply elem_of_list_fmap. exists g. split; [done|].
      apply elem_of_list_In, filter_In. split; [by apply elem_of_list_In|].
      unfold islink in Hgl. by destruct (q_is_link g).
  Qed.
  Lemma filter_bool {A} (P : A -> bool) (l : list A) : List.filter P l = filter (fun x => P x = true) l.
  Proof.
    induction l as [|x l IH]; [done|]. rewrite filter_cons. simpl.
    destruct (P x) eqn:E; [rewrite decide_True by done|rewrite decide_False by congruence]; by rewrite IH.
  Qed.
  Lemma nub_NoDup seen l : NoDup l -> (forall k, k ∈ l -> k ∉ seen) -> nub seen l = l.
  Proof.
    revert seen; induction l as [|k l IH]; intros seen Hn Hs; simpl; [done|].
    inversion Hn; subst. rewrite decide_False by (apply Hs; left). f_equal.
    apply IH; [done|]. intros k' Hk'. apply not_elem_of_cons. split; [by intros ->|]. apply Hs. by right.
  Qed.
  Lemma mlinks_distinct l :
    NoDup (map merge_key (filter islink l)) ->
    mlinks l = map (fun f => copy_node f (merge [q_node f])) (filter islink l).
  Proof.
    intros Hn. unfold mlinks, link_groups, link_keys.
    rewrite (nub_NoDup [] (map merge_key (filter islink l))) by (done || intros; apply not_elem_of_nil).
    assert (forall f, f ∈ filter islink l -> links_k (merge_key f) l = [f]) as Hf.
    { intros f Hf.
      assert (links_k (merge_key f) l = filter (fun g => merge_key g = merge_key f) (filter islink l)) as ->.
      { unfold links_k. clear. induction l as [|g l IH]; [done|]. rewrite !filter_cons.
        destruct (decide (islink g)) as [Hl|Hl].
        - rewrite filter_cons. destruct (decide (merge_key g = merge_key f)).
          + rewrite decide_True by done. by rewrite IH.
          + rewrite decide_False by tauto. done.
        - rewrite decide_False by tauto. done. }
      revert Hn Hf. generalize (filter islink l) as m. clear l. intros m.
      induction m as [|g m IH]; intros Hn Hf; [by apply elem_of_nil in Hf|].
      simpl in Hn. inversion Hn as [|? ? Hg Hn']; subst. apply elem_of_cons in Hf as [->|Hf].
      - rewrite filter_cons_True by done. f_equal. apply filter_none. intros y Hy E. apply Hg.
        apply elem_of_list_fmap. exists y. split; [done|done].
      - rewrite filter_cons_False; [by apply IH|]. intros E. apply Hg. apply elem_of_list_fmap.
        exists f. split; [done|done]. }
    clear Hn. induction (filter islink l) as [|f m IH]; [done|]. simpl.
    unfold subs. rewrite (Hf f) by left. simpl. f_equal. apply IH. intros g Hg. apply Hf. by right.
  Qed.

  Lemma links_last_link q : q_is_link (links_last_item q) = q_is_link q.
  Proof. by destruct q. Qed.
  Lemma filter_map_comm {A} (P : A -> bool) (g : A -> A) (l : list A) :
    (forall x, P (g x) = P x) -> List.filter P (map g l) = map g (List.filter P l).
  Proof. intros E. induction l as [|x l IH]; simpl; [done|]. rewrite E. destruct (P x); simpl; by rewrite IH. Qed.

  Lemma NoDup_map_filter_labels l (P : qitem -> bool) (Q : qitem -> Prop) :
    (forall i j q1 q2, l !! i = Some q1 -> l !! j = Some q2 -> i <> j -> ~ same_label (label_of q1) (label_of q2)) ->
    (forall q, q ∈ l -> Q q) -> no_collision Q ->
    (forall q1 q2, P q1 = true -> P q2 = true -> q_is_link q1 = q_is_link q2) ->
    NoDup (map merge_key (List.filter P l)).
  Proof.
    intros Hd HQ Hc HP. induction l as [|f l IH]; simpl; [constructor|].
    assert (NoDup (map merge_key (List.filter P l))) as Hn.
    { apply IH; [|by intros; apply HQ; right]. intros i j q1 q2 H1 H2 Hij.
      apply (Hd (S i) (S j)); [done..|lia]. }
    destruct (P f) eqn:Ef; [|done]. simpl. constructor; [|done].
    intros (g & Eg & Hg)%elem_of_list_fmap. apply elem_of_list_In, filter_In in Hg as [Hg HPg].
    apply elem_of_list_In in Hg. pose proof Hg as Hg'. apply elem_of_list_lookup in Hg as (i & Hi).
    apply (Hd 0 (S i) f g); [done..|lia|].
    injection Eg as En Eh Ea. repeat split; try done; simpl; [by apply HP|].
    apply Hc; try done; apply HQ; [left|by right].
  Qed.

  Lemma qn_eta n : QN (qfields n) (qordered n) = n.
  Proof. by destruct n. Qed.

  Lemma merge_no_duplicates n :
    no_collision (fun q => occurs q n) -> no_duplicates n -> merge [n] = links_last n.
  Proof.
    remember (ndepth n) as d eqn:Hd. revert n Hd. induction (lt_wf d) as [d _ IH]. intros n -> Hc Hn.
    rewrite <-(qn_eta (merge [n])), merge_fields, merge_ordered. unfold items_of. simpl.
    rewrite app_nil_r, orb_false_r. unfold links_last. f_equal. unfold fields_then_links.
    rewrite !filter_map_comm by (intros; by rewrite links_last_link). f_equal.
    - rewrite dedupF_distinct; [|eapply NoDup_map_filter_labels with (Q := fun q => occurs q n)|].
      + symmetry. rewrite <-(map_id (List.filter _ _)) at 2. apply map_ext_in.
        intros f [_ Hf]%filter_In. by destruct f.
      + intros i j q1 q2. apply Hn. constructor.
      + intros q Hq. by constructor.
      + done.
      + intros q1 q2. by destruct (q_is_link q1), (q_is_link q2).
      + intros; apply not_elem_of_nil.
    - rewrite mlinks_distinct.
      + unfold islink. rewrite <-filter_bool. apply map_ext_in. intros f [Hf Hl]%filter_In.
        apply elem_of_list_In in Hf. destruct f as [|nm sub ord o a]; [done|].
        cbn [q_node copy_node links_last_item].
        rewrite (IH (ndepth (QN sub ord))); try done.
        * assert (qdepth (QL nm sub ord o a) <= ndepth n) as Hle.
          { unfold ndepth. apply max_list_ge. apply elem_of_list_fmap. eauto. }
          cbn [qdepth] in Hle. unfold ndepth at 1. cbn [qfields]. lia.
        * intros q1 q2 H1 H2. apply Hc; eapply occ_sub; done.
        * intros m i j q1 q2 Hm. apply Hn. eapply lev_sub; [exact Hf|done|done].
      + unfold islink. rewrite <-filter_bool.
        eapply NoDup_map_filter_labels with (Q := fun q => occurs q n).
        * intros i j q1 q2. apply Hn. constructor.
        * intros q Hq. by constructor.
        * done.
        * intros q1 q2. congruence.
  Qed.
End distinct.

Section final.
  Context `{Hasher}.
  Lemma same_path_sym p p' : same_path p p' -> same_path p' p.
  Proof. intros Hp. apply Forall2_flip. eapply Forall2_impl; [exact Hp|]. intros; by apply same_label_sym. Qed.
  Lemma same_path_trans p q r : same_path p q -> same_path q r -> same_path p r.
  Proof.
    unfold same_path. intros Hp. revert r. induction Hp as [|x y p q Hxy Hp IH]; intros r Hr; [done|].
    inversion Hr; subst. constructor; [by eapply same_label_trans|auto].
  Qed.
  Lemma C01_iff ns p :
    no_collision (fun q => exists n, n ∈ ns /\ occurs q n) ->
    (exists p', same_path p p' /\ requests (merge ns) p') <->
    (exists n p', n ∈ ns /\ same_path p p' /\ requests n p').
  Proof.
    intros Hc. split.
    - intros (p' & Hs & Hr). apply merge_requests_sound in Hr as (n & p'' & Hn & Hr & Hs'); [|done].
      exists n, p''. split; [done|]. split; [|done]. by eapply same_path_trans.
    - intros (n & p' & Hn & Hs & Hr). apply (merge_requests_complete ns) in Hr as (p'' & Hr & Hs'); [|done..].
      exists p''. split; [|done]. by eapply same_path_trans.
  Qed.
  Lemma C01_ord_iff ns p :
    no_collision (fun q => exists n, n ∈ ns /\ occurs q n) ->
    (exists p', same_path p p' /\ ordered_at (merge ns) p') <->
    (exists n p', n ∈ ns /\ same_path p p' /\ ordered_at n p').
  Proof.
    intros Hc. split.
    - intros (p' & Hs & Hr). apply merge_ordered_sound in Hr as (n & p'' & Hn & Hr & Hs'); [|done].
      exists n, p''. split; [done|]. split; [|done]. by eapply same_path_trans.
    - intros (n & p' & Hn & Hs & Hr). apply (merge_ordered_complete ns) in Hr as (p'' & Hr & Hs'); [|done..].
      exists p''. split; [|done]. by eapply same_path_trans.
  Qed.
  Lemma C03_distinct n n' o o' :
    91%N ∉ n -> 91%N ∉ n' -> (n <> n' \/ options_hash o <> options_hash o') ->
    index_key_of n o <> index_key_of n' o'.
  Proof. intros Hn Hn' Hd E. apply index_key_inj in E as [-> E]; [|done..]. naive_solver. Qed.
End final.

Lemma C03_refutation :
  exists (name : str) (o o' : opts), ~ same_opts o o' /\
    forall H : Hasher, index_key_of name o = index_key_of name o'.
Proof.
  exists (s "f"), (Some [(s "k", VInt (-1))]), (Some [(s "k", VInt (-2))]). split.
  - intros E%same_val_canon. vm_compute in E. discriminate.
  - intros H. reflexivity.
Qed.

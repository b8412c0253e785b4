(** Facts about [SplitQuery], [GroupQuery] and the grouping of fields by function. *)
From Verif Require Import Base Val Query Graph Engine EngineSpec.

Lemma dget_of_pairs_Some {K V} `{EqDecision K} (k : K) (ps : list (K * V)) v :
  dget k (of_pairs ps) = Some v -> (k, v) ∈ ps.
Proof.
  unfold of_pairs. rewrite dget_dupdate. simpl.
  destruct (dget k (reverse ps)) eqn:Eq; [|done]. intros [= ->].
  apply dget_Some_elem in Eq. by apply elem_of_reverse.
Qed.
Lemma dget_of_pairs_is_Some {K V} `{EqDecision K} (k : K) (ps : list (K * V)) v :
  (k, v) ∈ ps -> is_Some (dget k (of_pairs ps)).
Proof.
  intros Hin. unfold of_pairs. rewrite dget_dupdate. simpl.
  destruct (dget k (reverse ps)) eqn:Eq; [eauto|]. exfalso. apply dget_None in Eq. apply Eq.
  unfold dkeys. apply elem_of_list_fmap. exists (k, v). split; [done|]. by apply elem_of_reverse.
Qed.

Lemma find_field_name gn n go : find_field gn n = Some go -> gi_name go = n.
Proof.
  unfold find_field, fields_map. intros Hf. apply dget_of_pairs_Some in Hf.
  apply elem_of_list_fmap in Hf as (x & [= -> ->] & _). done.
Qed.
Lemma find_node_name g n gn : find_node g n = Some gn -> gn_name gn = Some n.
Proof.
  unfold find_node, nodes_map. intros Hf. apply dget_of_pairs_Some in Hf.
  apply elem_of_list_omap in Hf as (x & _ & Hx). destruct (gn_name x) eqn:Ex; simplify_eq. done.
Qed.

Lemma elem_snoc' {A} (x y : A) l : x ∈ l ++ [y] <-> x ∈ l \/ x = y.
Proof. by rewrite elem_of_app, elem_of_list_singleton. Qed.

(** Weights: how many loader calls a query can lead to *)
Fixpoint wt_item (q : qitem) : nat :=
  match q with QF _ _ _ => 1 | QL _ sub _ _ _ => 2 + list_sum (map wt_item sub) end.
Definition wt_items (l : list qitem) : nat := list_sum (map wt_item l).
Definition wt_sub (q : qitem) : nat := wt_items (qfields (q_node q)).
Definition wt_step (sp : step) : nat := match sp with StFields _ _ => 1 | StLink _ q => S (wt_sub q) end.

Lemma wt_item_link q : q_is_link q = true -> wt_item q = 2 + wt_sub q.
Proof. by destruct q. Qed.
Lemma wt_item_pos q : 1 <= wt_item q.
Proof. destruct q; simpl; lia. Qed.
Lemma wt_items_snoc l q : wt_items (l ++ [q]) = wt_items l + wt_item q.
Proof. unfold wt_items. rewrite map_app, list_sum_app. simpl. lia. Qed.

(** What validation guarantees for a member of a node *)
Definition item_ok (gn : gnode) (ord : bool) (q : qitem) : Prop :=
  match find_field gn (q_name q) with
  | Some (GF f) => q_is_link q = true -> ord = false
  | Some (GL l) => q_is_link q = true /\
      match gl_requires l with
      | Some r => r <> [] /\ exists f, find_field gn r = Some (GF f)
      | None => True
      end
  | None => False
  end.
(** A member of the node or a field required by a link in it *)
Definition src (gn : gnode) (qs : list qitem) (q : qitem) : Prop :=
  q ∈ qs \/ exists q' l r, q' ∈ qs /\ q_is_link q' = true /\ find_field gn (q_name q') = Some (GL l) /\
                 gl_requires l = Some r /\ q = QF r None None.
Lemma src_snoc gn qs q q' : src gn qs q -> src gn (qs ++ [q']) q.
Proof.
  intros [Hq|(q2 & l & r & Hq & Hx)]; [left; apply elem_snoc'; by left|].
  right. exists q2, l, r. split; [apply elem_snoc'; by left|done].
Qed.

Lemma req_true_eq l r : gl_requires l = Some r -> r <> [] -> req_true l = Some r.
Proof. unfold req_true. intros -> Hr. by destruct r. Qed.
Lemma req_true_none l : gl_requires l = None -> req_true l = None.
Proof. unfold req_true. by intros ->. Qed.

Definition split_ok (gn : gnode) (qs : list qitem) (fields : list (fkey * gitem * qitem)) (links : list (glink * qitem)) : Prop :=
  (forall fk go q, (fk, go, q) ∈ fields ->
     fk = fkey_of go /\ (exists fd, go = GF fd) /\ find_field gn (q_name q) = Some go /\ src gn qs q) /\
  (forall l q, (l, q) ∈ links -> q ∈ qs /\ q_is_link q = true /\ find_field gn (q_name q) = Some (GL l)) /\
  (forall q, q ∈ qs -> (exists fk go, (fk, go, q) ∈ fields) \/ (exists l, (l, q) ∈ links)) /\
  (forall l q r, (l, q) ∈ links -> gl_requires l = Some r -> exists fk go, (fk, go, QF r None None) ∈ fields) /\
  length fields + list_sum (map (fun p => S (wt_sub p.2)) links) <= wt_items qs.

Lemma split_spec gn qs : (forall q, q ∈ qs -> item_ok gn false q) ->
  exists fields links, split_query gn qs = Ok (fields, links) /\ split_ok gn qs fields links.
Proof.
  unfold split_query. induction qs as [|q qs IH] using rev_ind; intros Hok.
  - exists [], []. split; [done|]. split; [intros ??? Hx; by apply not_elem_of_nil in Hx|].
    split; [intros ?? Hx; by apply not_elem_of_nil in Hx|].
    split; [intros ? Hx; by apply not_elem_of_nil in Hx|].
    split; [intros ??? Hx; by apply not_elem_of_nil in Hx|]. done.
  - destruct IH as (fields & links & Hf & Hs).
    { intros q' Hq'. apply Hok. apply elem_snoc'. by left. }
    rewrite foldR_app, Hf. cbn [foldR].
    specialize (Hok q ltac:(apply elem_snoc'; by right)). unfold item_ok in Hok.
    destruct Hs as (H1 & H2 & H3 & H4 & H5).
    assert (forall go fd, find_field gn (q_name q) = Some go -> go = GF fd ->
      exists fields' links', Ok (fields ++ [(fkey_of go, go, q)], links) = Ok (fields', links') /\ split_ok gn (qs ++ [q]) fields' links') as Hfld.
    { intros go fd Hgo Hfd. exists (fields ++ [(fkey_of go, go, q)]), links. split; [done|].
      split; [|split; [|split; [|split]]].
      - intros fk go' q'. rewrite elem_snoc'. intros [Hx|Hx].
        + destruct (H1 _ _ _ Hx) as (? & ? & ? & ?). repeat split; try done. by apply src_snoc.
        + simplify_eq. repeat split; try done; [eauto|]. left. apply elem_snoc'. by right.
      - intros l q' Hx. destruct (H2 _ _ Hx) as (? & ? & ?). repeat split; try done. apply elem_snoc'. by left.
      - intros q'. rewrite elem_snoc'. intros [Hx| ->].
        + destruct (H3 _ Hx) as [(fk & go' & ?)|?]; [|by right]. left. exists fk, go'. apply elem_snoc'. by left.
        + left. eexists _, _. apply elem_snoc'. by right.
      - intros l q' r Hx Hr. destruct (H4 _ _ _ Hx Hr) as (fk & go' & ?). exists fk, go'. apply elem_snoc'. by left.
      - rewrite app_length, wt_items_snoc. simpl. pose proof (wt_item_pos q). lia. }
    destruct q as [n o a|n sub ord o a].
    + simpl in *. unfold split_field. simpl. destruct (find_field gn n) as [[f|l]|] eqn:Ef; [|by destruct Hok|done].
      by eapply Hfld.
    + simpl in *. destruct (find_field gn n) as [[f|l]|] eqn:Ef; [|clear Hfld|done].
      * unfold split_field. simpl. rewrite Ef. by eapply Hfld.
      * destruct Hok as [_ Hreq].
        set (q := QL n sub ord o a) in *.
        destruct (gl_requires l) as [r|] eqn:Er.
        -- destruct Hreq as [Hne [f Hfr]]. rewrite (req_true_eq _ _ Er Hne). unfold split_field. simpl. rewrite Hfr.
           eexists _, _. split; [reflexivity|]. cbn [fst snd]. split; [|split; [|split; [|split]]].
           ++ intros fk go' q'. rewrite elem_snoc'. intros [Hx|Hx].
              ** destruct (H1 _ _ _ Hx) as (? & ? & ? & ?). repeat split; try done. by apply src_snoc.
              ** simplify_eq. repeat split; try done; [eauto|]. right. exists q, l, r.
                 split; [apply elem_snoc'; by right|]. done.
           ++ intros l' q'. rewrite elem_snoc'. intros [Hx|Hx].
              ** destruct (H2 _ _ Hx) as (? & ? & ?). repeat split; try done. apply elem_snoc'. by left.
              ** simplify_eq. repeat split; try done. apply elem_snoc'. by right.
           ++ intros q'. rewrite elem_snoc'. intros [Hx| ->].
              ** destruct (H3 _ Hx) as [(fk & go' & ?)|[l' ?]].
                 --- left. exists fk, go'. apply elem_snoc'. by left.
                 --- right. exists l'. apply elem_snoc'. by left.
              ** right. exists l. apply elem_snoc'. by right.
           ++ intros l' q' r'. rewrite elem_snoc'. intros [Hx|Hx] Hr'.
              ** destruct (H4 _ _ _ Hx Hr') as (fk & go' & ?). exists fk, go'. apply elem_snoc'. by left.
              ** simplify_eq. eexists _, _. apply elem_snoc'. by right.
           ++ rewrite app_length, map_app, list_sum_app, wt_items_snoc, (wt_item_link q) by done. simpl. lia.
        -- rewrite (req_true_none _ Er).
           eexists _, _. split; [reflexivity|]. cbn [fst snd]. split; [|split; [|split; [|split]]].
           ++ intros fk go' q' Hx.
              destruct (H1 _ _ _ Hx) as (? & ? & ? & ?). repeat split; try done. by apply src_snoc.
           ++ intros l' q'. rewrite elem_snoc'. intros [Hx|Hx].
              ** destruct (H2 _ _ Hx) as (? & ? & ?). repeat split; try done. apply elem_snoc'. by left.
              ** simplify_eq. repeat split; try done. apply elem_snoc'. by right.
           ++ intros q'. rewrite elem_snoc'. intros [Hx| ->].
              ** destruct (H3 _ Hx) as [(fk & go' & ?)|[l' ?]].
                 --- left. by exists fk, go'.
                 --- right. exists l'. apply elem_snoc'. by left.
              ** right. exists l. apply elem_snoc'. by right.
           ++ intros l' q' r'. rewrite elem_snoc'. intros [Hx|Hx] Hr'; [|by simplify_eq].
              destruct (H4 _ _ _ Hx Hr') as (fk & go' & ?). by exists fk, go'.
           ++ simpl. rewrite map_app, list_sum_app, wt_items_snoc, (wt_item_link q) by done. simpl. lia.
Qed.

(** Grouping by a key *)
Lemma group_fold {A B K} `{EqDecision K} (kf : A -> K) (vf : A -> B) (l : list A) :
  let d := fold_left (fun d t => dappend (kf t) (vf t) d) l [] in
  NoDup (dkeys d) /\
  (forall k vs, (k, vs) ∈ d -> vs = map vf (List.filter (fun t => bool_decide (kf t = k)) l) /\ vs <> []) /\
  (forall t, t ∈ l -> exists vs, (kf t, vs) ∈ d) /\
  length d <= length l.
Proof.
  induction l as [|t l IH] using rev_ind; simpl.
  - split; [constructor|]. split; [intros ?? Hx; by apply not_elem_of_nil in Hx|].
    split; [intros ? Hx; by apply not_elem_of_nil in Hx|]. done.
  - rewrite fold_left_app. simpl. set (d := fold_left (fun (d : dict K (list B)) t => dappend (kf t) (vf t) d) l []) in *. destruct IH as (H1 & H2 & H3 & H4).
    assert (forall k, dget k d = None -> List.filter (fun t => bool_decide (kf t = k)) l = []) as Hnone.
    { intros k Hk. destruct (List.filter _ l) as [|t' l'] eqn:Ef; [done|]. exfalso.
      assert (In t' (List.filter (fun t => bool_decide (kf t = k)) l)) as Hin by (rewrite Ef; by left).
      apply filter_In in Hin as [Hin Hb]. apply bool_decide_eq_true in Hb. subst k.
      apply elem_of_list_In in Hin. destruct (H3 _ Hin) as [vs Hvs]. apply dget_None in Hk. apply Hk.
      unfold dkeys. apply elem_of_list_fmap. eexists; split; [|done]. done. }
    unfold dappend.
    set (nv := match dget (kf t) d with Some l0 => l0 ++ [vf t] | None => [vf t] end).
    assert (nv = map vf (List.filter (fun t' => bool_decide (kf t' = kf t)) (l ++ [t]))) as Hnv.
    { unfold nv. rewrite List.filter_app, map_app. simpl. rewrite bool_decide_eq_true_2 by done. simpl.
      destruct (dget (kf t) d) as [vs|] eqn:Eg; [|by rewrite Hnone]. f_equal. by apply H2, dget_Some_elem. }
    split; [by apply NoDup_dset|]. split; [|split].
    + intros k vs Hin. apply dget_NoDup in Hin; [|by apply NoDup_dset]. rewrite dget_dset in Hin.
      destruct (decide (k = kf t)) as [->|Hne].
      * injection Hin as <-. fold nv. split; [exact Hnv|]. unfold nv. destruct (dget _ _) as [[|]|]; done.
      * apply dget_Some_elem in Hin. apply H2 in Hin as [-> Hne']. split; [|done].
        rewrite List.filter_app, map_app. simpl. rewrite bool_decide_eq_false_2 by congruence. simpl. by rewrite app_nil_r.
    + intros t' Ht'. assert (kf t' ∈ dkeys (dset (kf t) nv d)) as Hin.
      { rewrite dkeys_dset. apply elem_snoc' in Ht' as [Ht'| ->].
        - destruct (H3 _ Ht') as [vs Hvs]. assert (kf t' ∈ dkeys d).
          { unfold dkeys. apply elem_of_list_fmap. eexists; split; [|done]. done. }
          destruct (decide _); [done|]. apply elem_of_app. by left.
        - destruct (decide _); [done|]. apply elem_snoc'. by right. }
      apply dget_is_Some in Hin as [vs Hvs]. apply dget_Some_elem in Hvs. eauto.
    + assert (length (dset (kf t) nv d) <= S (length d)).
      { rewrite <-!(map_length fst). fold (dkeys (dset (kf t) nv d)) (dkeys d). rewrite dkeys_dset.
        destruct (decide _); [lia|]. rewrite app_length. simpl. lia. }
      rewrite app_length. simpl. lia.
Qed.

Lemma group_elem {A B K} `{EqDecision K} (kf : A -> K) (vf : A -> B) (l : list A) k vs v :
  (k, vs) ∈ fold_left (fun d t => dappend (kf t) (vf t) d) l [] -> v ∈ vs <-> exists t, t ∈ l /\ kf t = k /\ v = vf t.
Proof.
  intros Hin. destruct (group_fold kf vf l) as (_ & H2 & _). apply H2 in Hin as [-> _].
  rewrite elem_of_list_fmap. split.
  - intros (t & -> & Ht). apply elem_of_list_In, filter_In in Ht as [Ht Hb]. apply bool_decide_eq_true in Hb.
    exists t. split; [by apply elem_of_list_In|done].
  - intros (t & Ht & <- & ->). exists t. split; [done|]. apply elem_of_list_In, filter_In. split; [by apply elem_of_list_In|].
    by apply bool_decide_eq_true.
Qed.

(** ** [GroupQuery] *)
Definition is_req (r : str) (q : qitem) : bool :=
  match q with QF n None None => bool_decide (n = r) | _ => false end.
Lemma is_req_eq r q : is_req r q = true <-> q = QF r None None.
Proof.
  split; [|intros ->; simpl; by apply bool_decide_eq_true].
  destruct q as [n [o|] [a|]|]; simpl; try done. intros Hb. apply bool_decide_eq_true in Hb. by subst.
Qed.
(** The fields which have to be in the index before the steps run *)
Fixpoint need_steps (steps : list step) (r : str) : Prop :=
  match steps with
  | [] => False
  | StFields _ l :: rest => need_steps rest r /\ existsb (is_req r) (map snd l) = false
  | StLink l _ :: rest => gl_requires l = Some r \/ need_steps rest r
  end.
Definition group_ok (gn : gnode) (qs : list qitem) (steps : list step) : Prop :=
  (forall fk l, StFields fk l ∈ steps -> forall go q, (go, q) ∈ l ->
     fk = fkey_of go /\ (exists fd, go = GF fd) /\ find_field gn (q_name q) = Some go /\ src gn qs q) /\
  (forall l q, StLink l q ∈ steps -> q ∈ qs /\ q_is_link q = true /\ find_field gn (q_name q) = Some (GL l)) /\
  (forall q, q ∈ qs -> exists sp, sp ∈ steps /\ q ∈ step_items sp) /\
  (forall r, ~ need_steps steps r) /\
  list_sum (map wt_step steps) <= wt_items qs /\
  (forall fk l, StFields fk l ∈ steps -> l <> []).

Lemma need_steps_app a b r :
  need_steps (a ++ b) r <->
  need_steps a r \/ (need_steps b r /\ forall fk l, StFields fk l ∈ a -> existsb (is_req r) (map snd l) = false).
Proof.
  induction a as [|sp a IH]; simpl.
  - split; [intros Hx; right; split; [done|]; intros ?? Hy; by apply not_elem_of_nil in Hy | by intros [?|[? _]]].
  - destruct sp as [fk l|l q]; rewrite IH.
    + split.
      * intros [[Ha|[Hb Hc]] Hd]; [by left|]. right. split; [done|]. intros fk' l' Hin.
        apply elem_of_cons in Hin as [[= -> ->]|Hin]; [done|by eapply Hc].
      * intros [[Ha Hd]|[Hb Hc]].
        -- split; [by left|done].
        -- split; [|eapply Hc; left]. right. split; [done|]. intros fk' l' Hin. eapply Hc. by right.
    + split.
      * intros [Ha|[Ha|[Hb Hc]]]; [by left; left|by left; right|]. right. split; [done|]. intros fk' l' Hin.
        apply elem_of_cons in Hin as [Hx|Hin]; [done|by eapply Hc].
      * intros [[Ha|Ha]|[Hb Hc]]; [by left|by right; left|]. right. right. split; [done|]. intros fk' l' Hin.
        eapply Hc. by right.
Qed.

(** Adding one field to the steps *)
Lemma group_field_spec gn qs acc q fd :
  group_ok gn qs acc.1 -> (forall fk, acc.2 = Some fk -> exists before l, acc.1 = before ++ [StFields fk l]) ->
  find_field gn (q_name q) = Some (GF fd) ->
  exists acc', group_field gn acc q = Ok acc' /\
    (forall fk, acc'.2 = Some fk -> exists before l, acc'.1 = before ++ [StFields fk l]) /\
    (forall qs', (forall q', src gn qs q' -> src gn qs' q') -> src gn qs' q ->
       forall fk l, StFields fk l ∈ acc'.1 -> forall go q, (go, q) ∈ l ->
       fk = fkey_of go /\ (exists fd, go = GF fd) /\ find_field gn (q_name q) = Some go /\ src gn qs' q) /\
    (forall l q, StLink l q ∈ acc'.1 -> q ∈ qs /\ q_is_link q = true /\ find_field gn (q_name q) = Some (GL l)) /\
    (forall q', q' ∈ qs \/ q' = q -> exists sp, sp ∈ acc'.1 /\ q' ∈ step_items sp) /\
    (forall r, ~ need_steps acc'.1 r) /\
    (exists fk l go, StFields fk l ∈ acc'.1 /\ (go, q) ∈ l) /\
    list_sum (map wt_step acc'.1) <= S (wt_items qs) /\
    (forall fk l, StFields fk l ∈ acc'.1 -> l <> []).
Proof.
  intros (H1 & H2 & H3 & H4 & H5 & H6) Hlast Hf. unfold group_field. rewrite Hf.
  destruct (decide (acc.2 = Some (fkey_of (GF fd)))) as [Hd|Hd].
  - destruct (Hlast _ Hd) as (before & l & Hb). rewrite Hb, List.rev_app_distr. simpl. rewrite List.rev_involutive.
    eexists. split; [done|]. simpl.
    rewrite Hb in H1, H2, H3, H4, H5, H6.
    split; [|split; [|split; [|split; [|split; [|split; [|split]]]]]].
    + intros fk Hfk. rewrite Hd in Hfk. simplify_eq. eauto.
    + intros qs' Hqs Hq fk l'. rewrite elem_snoc'. intros [Hin|Hin] go' q'.
      * intros Hx. destruct (H1 fk l' ltac:(apply elem_snoc'; by left) _ _ Hx) as (? & ? & ? & ?). repeat split; auto.
      * simplify_eq. rewrite elem_snoc'. intros [Hx|Hx].
        -- destruct (H1 _ l ltac:(apply elem_snoc'; by right) _ _ Hx) as (? & ? & ? & ?). repeat split; auto.
        -- simplify_eq. repeat split; eauto.
    + intros l' q' Hin. apply H2. rewrite elem_snoc' in Hin |- *. destruct Hin as [?|?]; [by left|done].
    + intros q' [Hq'| ->].
      * destruct (H3 _ Hq') as (sp & Hin & Hit). rewrite elem_snoc' in Hin. destruct Hin as [Hin| ->].
        -- exists sp. split; [apply elem_snoc'; by left|done].
        -- eexists. split; [apply elem_snoc'; by right|]. simpl in *. rewrite map_app. apply elem_of_app. by left.
      * eexists. split; [apply elem_snoc'; by right|]. simpl in *. rewrite map_app. apply elem_snoc'. by right.
    + intros r Hn. apply need_steps_app in Hn as [Hn|[[Hn _] _]]; [|done].
      apply (H4 r). apply need_steps_app. by left.
    + eexists _, _, _. split; [apply elem_snoc'; by right|]. apply elem_snoc'. by right.
    + rewrite map_app, list_sum_app in H5 |- *. simpl in *. lia.
    + intros fk l'. rewrite elem_snoc'. intros [Hin|Hin]; [eapply H6; apply elem_snoc'; by left|].
      simplify_eq. by destruct l.
  - eexists. split; [done|]. simpl. split; [|split; [|split; [|split; [|split; [|split; [|split]]]]]].
    + intros fk [= <-]. eauto.
    + intros qs' Hqs Hq fk l'. rewrite elem_snoc'. intros [Hin|Hin] go' q'.
      * intros Hx. destruct (H1 fk l' Hin _ _ Hx) as (? & ? & ? & ?). repeat split; auto.
      * simplify_eq. rewrite elem_of_list_singleton. intros [= -> ->]. repeat split; eauto.
    + intros l' q' Hin. apply H2. rewrite elem_snoc' in Hin. by destruct Hin as [?|?].
    + intros q' [Hq'| ->].
      * destruct (H3 _ Hq') as (sp & Hin & Hit). exists sp. split; [apply elem_snoc'; by left|done].
      * eexists. split; [apply elem_snoc'; by right|]. simpl. by apply elem_of_list_singleton.
    + intros r Hn. apply need_steps_app in Hn as [Hn|[[Hn _] _]]; [|done]. by apply (H4 r).
    + eexists _, _, _. split; [apply elem_snoc'; by right|]. by apply elem_of_list_singleton.
    + rewrite map_app, list_sum_app. simpl in *. lia.
    + intros fk l'. rewrite elem_snoc'. intros [Hin|Hin]; [by eapply H6|]. by simplify_eq.
Qed.

Lemma group_spec gn qs : (forall q, q ∈ qs -> item_ok gn true q) ->
  exists steps, group_query gn qs = Ok steps /\ group_ok gn qs steps.
Proof.
  intros Hok. unfold group_query.
  assert (exists acc, foldR (group_item gn) ([], None) qs = Ok acc /\ group_ok gn qs acc.1 /\
            forall fk, acc.2 = Some fk -> exists before l, acc.1 = before ++ [StFields fk l]) as (acc & Ha & Hg & _);
    [|rewrite Ha; eauto].
  induction qs as [|q qs IH] using rev_ind.
  - eexists. split; [done|]. split; [|done]. split; [intros ?? Hx; by apply not_elem_of_nil in Hx|].
    split; [intros ?? Hx; by apply not_elem_of_nil in Hx|].
    split; [intros ? Hx; by apply not_elem_of_nil in Hx|].
    split; [intros ? Hx; done|]. split; [done|]. intros ?? Hx; by apply not_elem_of_nil in Hx.
  - destruct IH as (acc & Ha & Hg & Hlast).
    { intros q' Hq'. apply Hok. apply elem_snoc'. by left. }
    rewrite foldR_app, Ha. cbn [foldR].
    specialize (Hok q ltac:(apply elem_snoc'; by right)). unfold item_ok in Hok.
    assert (forall q', src gn qs q' -> src gn (qs ++ [q]) q') as Hsrc by (intros; by apply src_snoc).
    destruct q as [n o a|n sub ord o a].
    + simpl in *. destruct (find_field gn n) as [[f|l]|] eqn:Ef; [|by destruct Hok|done].
      destruct (group_field_spec gn qs acc (QF n o a) f Hg Hlast Ef) as (acc' & -> & Hl & G1 & G2 & G3 & G4 & _ & G5 & G7).
      eexists. split; [done|]. split; [|done]. split; [|split; [|split; [|split; [|split]]]].
      * apply G1; [done|]. left. apply elem_snoc'. by right.
      * intros l q Hin. destruct (G2 _ _ Hin) as (? & ? & ?). repeat split; try done. apply elem_snoc'. by left.
      * intros q Hq. apply G3. by apply elem_snoc'.
      * done.
      * rewrite wt_items_snoc. simpl. lia.
      * done.
    + simpl in *. destruct (find_field gn n) as [[f|l]|] eqn:Ef; [by specialize (Hok eq_refl)| |done].
      destruct Hok as [_ Hreq]. set (q := QL n sub ord o a) in *.
      destruct (gl_requires l) as [r|] eqn:Er.
      * destruct Hreq as [Hne [f Hfr]]. rewrite (req_true_eq _ _ Er Hne).
        destruct (group_field_spec gn qs acc (QF r None None) f Hg Hlast Hfr) as (acc' & -> & Hl & G1 & G2 & G3 & G4 & G6 & G5 & G7).
        eexists. split; [done|]. simpl. split; [|done]. split; [|split; [|split; [|split; [|split]]]].
        -- intros fk l' Hin. apply elem_snoc' in Hin as [Hin|Hin]; [|done].
           eapply G1; [done| |done]. right. exists q, l, r. split; [apply elem_snoc'; by right|]. done.
        -- intros l' q' Hin. apply elem_snoc' in Hin as [Hin|Hin].
           ++ destruct (G2 _ _ Hin) as (? & ? & ?). repeat split; try done. apply elem_snoc'. by left.
           ++ simplify_eq. repeat split; try done. apply elem_snoc'. by right.
        -- intros q' Hq'. apply elem_snoc' in Hq' as [Hq'| ->].
           ++ destruct (G3 q') as (sp & Hin & Hit); [by left|]. exists sp. split; [apply elem_snoc'; by left|done].
           ++ eexists. split; [apply elem_snoc'; by right|]. simpl. by apply elem_of_list_singleton.
        -- intros r' Hn. apply need_steps_app in Hn as [Hn|[Hn Hfs]]; [by apply (G4 r')|].
           simpl in Hn. destruct Hn as [Hn|[]]. simplify_eq. destruct G6 as (fk & l' & go & Hin & Hq).
           apply Hfs in Hin. assert (existsb (is_req r) (map snd l') = true) as Hx; [|congruence].
           apply existsb_exists. exists (QF r None None). split; [|by apply is_req_eq].
           apply in_map_iff. exists (go, QF r None None). split; [done|]. by apply elem_of_list_In.
        -- rewrite map_app, list_sum_app, wt_items_snoc, (wt_item_link q) by done. simpl. lia.
        -- intros fk l' Hin. apply elem_snoc' in Hin as [Hin|Hin]; [by eapply G7|done].
      * rewrite (req_true_none _ Er). destruct Hg as (H1 & H2 & H3 & H4 & H5 & H6).
        eexists. split; [done|]. simpl. split; [|done]. split; [|split; [|split; [|split; [|split]]]].
        -- intros fk l' Hin. apply elem_snoc' in Hin as [Hin|Hin]; [|done].
           intros go q' Hq'. destruct (H1 _ _ Hin _ _ Hq') as (? & ? & ? & ?). repeat split; try done. by apply Hsrc.
        -- intros l' q' Hin. apply elem_snoc' in Hin as [Hin|Hin].
           ++ destruct (H2 _ _ Hin) as (? & ? & ?). repeat split; try done. apply elem_snoc'. by left.
           ++ simplify_eq. repeat split; try done. apply elem_snoc'. by right.
        -- intros q' Hq'. apply elem_snoc' in Hq' as [Hq'| ->].
           ++ destruct (H3 q') as (sp & Hin & Hit); [done|]. exists sp. split; [apply elem_snoc'; by left|done].
           ++ eexists. split; [apply elem_snoc'; by right|]. simpl. by apply elem_of_list_singleton.
        -- intros r' Hn. apply need_steps_app in Hn as [Hn|[Hn Hfs]]; [by apply (H4 r')|].
           simpl in Hn. destruct Hn as [Hn|[]]. congruence.
        -- rewrite map_app, list_sum_app, wt_items_snoc, (wt_item_link q) by done. simpl. lia.
        -- intros fk l' Hin. apply elem_snoc' in Hin as [Hin|Hin]; [by eapply H6|done].
Qed.

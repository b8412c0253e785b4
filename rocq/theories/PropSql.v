(** Theorems about SQL loaders (C41, C42). *)
From Verif Require Import Base Val Query QuerySpec Graph Engine EngineSpec Sql SqlSpec.

Lemma F2_elem_r {A B} (P : A -> B -> Prop) l k y : Forall2 P l k -> y ∈ k -> exists x, x ∈ l /\ P x y.
Proof.
  intros HF Hy. apply elem_of_list_lookup_1 in Hy as [i Hi].
  destruct (Forall2_lookup_r _ _ _ _ _ HF Hi) as (x & Hx & HP). exists x. split; [by eapply elem_of_list_lookup_2|done].
Qed.
Lemma F2_elem_l {A B} (P : A -> B -> Prop) l k x : Forall2 P l k -> x ∈ l -> exists y, y ∈ k /\ P x y.
Proof.
  intros HF Hy. apply elem_of_list_lookup_1 in Hy as [i Hi].
  destruct (Forall2_lookup_l _ _ _ _ _ HF Hi) as (y & Hx & HP). exists y. split; [by eapply elem_of_list_lookup_2|done].
Qed.

Lemma list_filter_nil {A} (P : A -> Prop) `{!forall x, Decision (P x)} (l : list A) : (forall x, x ∈ l -> ~ P x) -> filter P l = [].
Proof.
  induction l as [|x l IH]; intros Hn; [done|]. rewrite filter_cons_False by (apply Hn; left). apply IH.
  intros y Hy. apply Hn. by right.
Qed.

(** ** Reading in buckets *)
Lemma fetch_loop_all size rows acc fuel : (forall n, n <> 0%nat -> size n <> 0%nat) -> length rows < fuel ->
  fetch_loop fuel size rows acc = Ok (acc ++ rows).
Proof.
  intros Hs. revert rows acc. induction fuel as [|k IH]; intros rows acc Hk; [lia|]. cbn [fetch_loop].
  unfold fetchmany. destruct rows as [|r rows]; [by rewrite take_nil, app_nil_r|].
  specialize (Hs (length (r :: rows)) ltac:(done)).
  destruct (Nat.min FETCH_SIZE (size (length (r :: rows)))) as [|n] eqn:E; [unfold FETCH_SIZE in E; lia|].
  cbn [take drop]. rewrite IH; [|rewrite drop_length; simpl in Hk; lia].
  rewrite <- app_assoc. f_equal. simpl. by rewrite take_drop.
Qed.
(** C41: reading in buckets, of whatever sizes, gives all the rows in their order. *)
Theorem C41_fetching_loses_nothing dr rows : sane dr -> fetch dr rows = Ok rows.
Proof. destruct dr as [|size]; [done|]. intros Hs. cbn [fetch]. by rewrite fetch_loop_all by (try done; lia). Qed.

(** ** Fields *)
Lemma map_const_names {A} (f : A -> str) (l : list A) : map (fun _ : str => VNone) (map f l) = map (fun _ : A => VNone) l.
Proof. by rewrite map_map. Qed.
Lemma project_get cols r c : c ∈ cols -> dget c (project cols r) = Some (cell r c).
Proof.
  induction cols as [|c' cols IH]; [by intros ?%elem_of_nil|]. intros Hin. unfold project in *. cbn [map dget].
  destruct (decide (c = c')) as [->|Hne]; [done|]. apply IH. apply elem_of_cons in Hin. by destruct Hin.
Qed.
Lemma row_get_project cols r c : c ∈ cols -> row_get (project cols r) c = Ok (cell r c).
Proof. intros Hin. unfold row_get. by rewrite project_get. Qed.
Lemma has_val_cell r c v : has_val r c v <-> cell r c = v /\ v <> VNone.
Proof.
  unfold has_val, cell. destruct (dget c r) as [w|]; split; intros [H1 H2]; split; try done; try congruence.
Qed.
Section answers.
  Context (tbl : list row) (db : database).
  Hypothesis Hdb : answers tbl db.
  Lemma answer_rows q : exists rows, db q = map (project (sel_cols q)) rows /\ Permutation rows (filter (matches q) tbl).
  Proof.
    destruct (Permutation_map_inv _ _ (Hdb q)) as (rows & E & Hp). exists rows. split; [done|]. by symmetry.
  Qed.
End answers.
(** C41: for every table, order of rows in the answer and sizes of buckets, the loader returns one
    row per identifier, in the order of identifiers, each with the values of the requested fields
    in that row of the table which has this identifier, or [None]s if there is none. *)
Theorem C41_one_row_per_id tbl db dr fq qfs ids :
  answers tbl db -> sane dr -> (forall q, q ∈ qfs -> q_name q ∈ fq_cols fq) ->
  exists rows, fields_call db dr fq qfs ids = Ret (VList (map VList rows)) /\
    Forall2 (row_for tbl (fq_pk fq) (map q_name qfs)) ids rows.
Proof.
  intros Hdb Hsane Hcols. unfold fields_call. destruct ids as [|i0 ids0]; [by exists []|].
  set (ids := i0 :: ids0) in *. clearbody ids.
  assert (mapR (fun q => if bool_decide (q_name q ∈ fq_cols fq) then Ok (q_name q) else Err KeyError) qfs = Ok (map q_name qfs)) as ->.
  { apply mapR_map_ok. apply Forall_forall. intros q Hq. rewrite bool_decide_eq_true_2 by (apply Hcols; done). done. }
  rewrite C41_fetching_loses_nothing by done.
  set (names := map q_name qfs). set (sel := Select (fq_pk fq :: names) (fq_pk fq) ids).
  destruct (answer_rows tbl db Hdb sel) as (rows & -> & Hperm).
  unfold fields_proc.
  set (f := fun r : row => _).
  assert (mapR f (map (project (sel_cols sel)) rows) = Ok (map (fun r => (cell r (fq_pk fq), map (cell r) names)) rows)) as ->.
  { apply mapR_ok. clear Hperm. induction rows as [|r rows IH]; constructor; [|done].
    unfold f. rewrite row_get_project by left.
    assert (mapR (row_get (project (sel_cols sel) r)) names = Ok (map (cell r) names)) as ->; [|done].
    apply mapR_map_ok. apply Forall_forall. intros c Hc. apply row_get_project. by right. }
  eexists. split; [reflexivity|].
  rewrite Forall2_fmap_r. apply Forall2_same_length_lookup_2; [done|].
  intros k i i' E1 E2. rewrite E1 in E2. injection E2 as <-.
  assert (i ∈ ids) as Hin by (by eapply elem_of_list_lookup_2).
  unfold compose. unfold of_pairs. rewrite dget_dupdate. cbn [dget].
  destruct (dget i (reverse _)) as [vs|] eqn:E.
  - left. apply dget_Some_elem in E. rewrite elem_of_reverse in E.
    apply elem_of_list_fmap in E as (r & [= Hi ->] & Hr). rewrite Hperm in Hr.
    apply elem_of_list_filter in Hr as [(v & Hv & Hval) Hr]. exists r. split_and!; [done| |done].
    apply has_val_cell in Hval as [H1 H2]. cbn [sel_col] in H1. apply has_val_cell. subst i. split; [done|]. intros Hc. apply H2. by rewrite <- H1.
  - right. split; [|done]. intros r Hr Hval. apply dget_None in E. apply E.
    unfold dkeys. apply elem_of_list_fmap. exists (i, map (cell r) names). split; [done|].
    rewrite elem_of_reverse. apply elem_of_list_fmap. exists r. split; [by apply has_val_cell in Hval as [-> _]|].
    rewrite Hperm. apply elem_of_list_filter. split; [|done]. by exists i.
Qed.
(** With unique identifiers the rows are determined by the table. *)
Theorem C41_rows_determined tbl pk names ids rows rows' :
  unique tbl pk -> Forall2 (row_for tbl pk names) ids rows -> Forall2 (row_for tbl pk names) ids rows' -> rows = rows'.
Proof.
  intros Hu H1. revert rows'. induction H1 as [|i vs ids rows Ha H1 IH]; intros rows' H2; inversion H2 as [|? vs' ? ? Hb H2']; subst; [done|].
  f_equal; [|by apply IH]. destruct Ha as [(r & Hr & Hv & ->)|[Hn ->]], Hb as [(r' & Hr' & Hv' & ->)|[Hn' ->]]; try done.
  - by rewrite (Hu r r' i).
  - exfalso; by eapply Hn'.
  - exfalso; by eapply Hn.
Qed.
(** The engine accepts what the loader returns and stores these very rows. *)
Theorem C41_engine_accepts tbl pk n (qfs : list qitem) ids rows :
  Forall2 (row_for tbl pk (map q_name qfs)) ids rows ->
  check_store_fields (GNode (Some n) []) (length qfs) (Some ids) (VList (map VList rows)) = Ok rows.
Proof.
  intros Hf. unfold check_store_fields. cbn [gn_name seq_of].
  assert (forallb (rows_ok (length qfs)) (map VList rows) = true) as ->.
  { apply forallb_forall. intros v Hv. apply in_map_iff in Hv as (vs & <- & Hv). apply elem_of_list_In in Hv.
    destruct (F2_elem_r _ _ _ _ Hf Hv) as (i & _ & Hrow). cbn [rows_ok seq_of].
    apply Nat.eqb_eq. destruct Hrow as [(r & _ & _ & ->)|[_ ->]]; by rewrite !map_length. }
  rewrite map_length, (Forall2_length _ _ _ Hf), Nat.eqb_refl. simpl. f_equal.
  rewrite map_map. simpl. by rewrite map_id.
Qed.
(** The data of a table, as a loader of the engine serves it (see [serves], EngineSpec.v). *)
Definition table_field (tbl : list row) (pk : str) (i : option val) (name : str) (o : opts) : val :=
  match i with
  | Some i => match filter (fun r => has_val r pk i) tbl with r :: _ => cell r name | [] => VNone end
  | None => VNone
  end.
Theorem C41_serves_table tbl db dr fq qfs ids :
  answers tbl db -> sane dr -> unique tbl (fq_pk fq) -> (forall q, q ∈ qfs -> q_name q ∈ fq_cols fq) ->
  exists r rows, ret_val (fields_call db dr fq qfs ids) = Some r /\ seq_of r = Some rows /\
    Forall2 (fun i v => seq_of v = Some (map (fun q => table_field tbl (fq_pk fq) (Some i) (q_name q) (q_opts q)) qfs)) ids rows.
Proof.
  intros Hdb Hs Hu Hc. destruct (C41_one_row_per_id tbl db dr fq qfs ids Hdb Hs Hc) as (rows & -> & Hf).
  eexists _, _. split_and!; [reflexivity..|]. rewrite Forall2_fmap_r. eapply Forall2_impl; [exact Hf|].
  intros i vs Hrow. cbn [seq_of]. f_equal. unfold table_field.
  destruct (filter (fun r => has_val r (fq_pk fq) i) tbl) as [|r0 l] eqn:E.
  - destruct Hrow as [(r & Hr & Hv & ->)|[_ ->]]; [|by rewrite map_const_names].
    assert (r ∈ filter (fun r => has_val r (fq_pk fq) i) tbl) as Hin by (by apply elem_of_list_filter).
    rewrite E in Hin. by apply elem_of_nil in Hin.
  - assert (r0 ∈ filter (fun r => has_val r (fq_pk fq) i) tbl) as Hin by (rewrite E; left).
    apply elem_of_list_filter in Hin as [H1 H2].
    destruct Hrow as [(r & Hr & Hv & ->)|[Hn _]]; [|exfalso; by eapply Hn].
    rewrite (Hu r r0 i) by done. by rewrite map_map.
Qed.

(** ** Links *)
Lemma dget_group (ps : list (val * val)) i :
  dget i (fold_left (fun d p => dappend p.1 p.2 d) ps []) =
  match map snd (filter (fun p => p.1 = i) ps) with [] => None | l => Some l end.
Proof.
  induction ps as [|[a b] ps IH] using rev_ind; [done|]. rewrite fold_left_app. cbn [fold_left fst snd].
  set (d := fold_left (fun (d : dict val (list val)) p => dappend p.1 p.2 d) ps []) in *. unfold dappend. rewrite dget_dset, filter_app, map_app. destruct (decide (i = a)) as [<-|Hne].
  - rewrite IH. rewrite filter_cons_True by done. cbn [map filter snd].
    by destruct (map snd (filter _ ps)).
  - rewrite IH. rewrite filter_cons_False by (cbn; congruence). cbn [map filter]. by rewrite app_nil_r.
Qed.
Definition pairs_of (lq : link_query) (rows : list row) : list (val * val) :=
  map (fun r => (cell r (lq_from lq), cell r (lq_to lq))) rows.
Lemma link_pairs tbl db dr order lq ids :
  answers tbl db -> sane dr -> (forall l, Permutation (order l) l) ->
  exists rows,
    (forall t, link_call order db dr lq t ids =
       match mapper t (pairs_of lq rows) ids with Ok l => Ret (VList l) | Err e => Raise e end) /\
    (forall i, i ∈ ids -> i <> VNone -> Permutation (targets rows lq i) (targets tbl lq i)) /\
    (forall r, r ∈ rows -> cell r (lq_from lq) <> VNone) /\
    match link_select order lq ids with
    | None => rows = []
    | Some q => db q = map (project [lq_from lq; lq_to lq]) rows
    end.
Proof.
  intros Hdb Hs Ho. unfold link_call. destruct (link_select order lq ids) as [q|] eqn:Eq.
  - destruct (answer_rows tbl db Hdb q) as (rows & E & Hperm).
    assert (sel_cols q = [lq_from lq; lq_to lq] /\ sel_col q = lq_from lq /\
            forall i, i ∈ sel_in q <-> i ∈ ids /\ i <> VNone) as (Hq1 & Hq2 & Hq3).
    { unfold link_select in Eq. destruct (List.filter _ _) as [|a l] eqn:El; [done|]. injection Eq as <-. cbn. split_and!; [done..|].
      intros i. rewrite <- El. rewrite elem_of_list_In, filter_In, <- elem_of_list_In, Ho, elem_of_remove_dups.
      rewrite negb_true_iff, bool_decide_eq_false. done. }
    rewrite Hq1 in E. exists rows. split_and!.
    + intros t. rewrite E, C41_fetching_loses_nothing by done.
      match goal with |- match mapR ?f ?l with _ => _ end = _ =>
        assert (mapR f l = Ok (pairs_of lq rows)) as -> end; [|done].
      apply mapR_ok. clear. induction rows as [|r rows IH]; constructor; [|done].
      rewrite !row_get_project by (rewrite ?elem_of_cons; auto). done.
    + intros i Hi Hn. unfold targets. rewrite Hperm. rewrite list_filter_filter. apply Permutation_map.
      erewrite (list_filter_iff _ (fun r => has_val r (lq_from lq) i)); [done|]. intros r. split; [by intros [? _]|].
      intros Hv. split; [done|]. exists i. rewrite Hq2. split; [|done]. by apply Hq3.
    + intros r Hr. rewrite Hperm in Hr. apply elem_of_list_filter in Hr as [(v & _ & Hv) _].
      rewrite Hq2 in Hv. apply has_val_cell in Hv as [-> ?]. done.
    + done.
  - exists []. split_and!; try done.
    + intros i Hi Hn. unfold link_select in Eq. destruct (List.filter _ _) as [|a l] eqn:El; [|done].
      assert (In i []) as []. rewrite <- El. apply filter_In. rewrite <- elem_of_list_In, Ho, elem_of_remove_dups.
      split; [done|]. by rewrite bool_decide_eq_false_2.
    + intros r Hr. by apply elem_of_nil in Hr.
Qed.
Lemma targets_pairs lq rows i : (forall r, r ∈ rows -> cell r (lq_from lq) <> VNone) ->
  targets rows lq i = map snd (filter (fun p => p.1 = i) (pairs_of lq rows)).
Proof.
  unfold targets, pairs_of. induction rows as [|r rows IH]; intros Hn; [done|].
  cbn [map]. rewrite !filter_cons. specialize (IH ltac:(intros r' Hr'; apply Hn; by right)).
  assert (has_val r (lq_from lq) i <-> (cell r (lq_from lq), cell r (lq_to lq)).1 = i) as Hiff.
  { rewrite has_val_cell. cbn [fst]. split; [tauto|]. intros Hc. split; [done|]. rewrite <- Hc. apply Hn. left. }
  destruct (decide (has_val _ _ _)), (decide (_ = i)); try tauto. cbn [map snd]. by rewrite IH.
Qed.
(** no row leads from NULL *)
Lemma targets_none tbl lq : targets tbl lq VNone = [].
Proof.
  unfold targets. assert (filter (fun r => has_val r (lq_from lq) VNone) tbl = []) as ->; [|done].
  apply list_filter_nil. intros r _ [_ ?]. done.
Qed.
Section links.
  Context (tbl : list row) (db : database) (dr : driver) (order : list val -> list val) (lq : link_query).
  Hypothesis (Hdb : answers tbl db) (Hs : sane dr) (Ho : forall l, Permutation (order l) l).
  Lemma targets_all rows (ids : list val) i : (forall i, i ∈ ids -> i <> VNone -> Permutation (targets rows lq i) (targets tbl lq i)) ->
    i ∈ ids -> Permutation (targets rows lq i) (targets tbl lq i).
  Proof.
    intros H Hi. destruct (decide (i = VNone)) as [->|]; [by rewrite !targets_none|]. auto.
  Qed.
  Lemma dget_dict (ps : list (val * val)) i : match dget i (of_pairs ps) with
    | Some x => x ∈ map snd (filter (fun p => p.1 = i) ps)
    | None => map snd (filter (fun p : val * val => p.1 = i) ps) = [] end.
  Proof.
    unfold of_pairs. rewrite dget_dupdate. cbn [dget]. destruct (dget i (reverse ps)) as [x|] eqn:E.
    - apply dget_Some_elem in E. rewrite elem_of_reverse in E. apply elem_of_list_fmap. exists (i, x). split; [done|].
      by apply elem_of_list_filter.
    - assert (filter (fun p : val * val => p.1 = i) ps = []) as ->; [|done]. apply list_filter_nil.
      intros [a b] Hin. cbn. intros ->. apply dget_None in E. apply E. unfold dkeys. apply elem_of_list_fmap.
      exists (i, b). split; [done|]. by rewrite elem_of_reverse.
  Qed.
  (** C42: a link over SQL gives for every identifier, in their order, what the table pairs with
      it: all of that for sequence links; one of that, [Nothing] if there is none, for optional
      links; one of that for other links. *)
  Theorem C42_targets_by_origin t ids xs :
    link_call order db dr lq t ids = Ret (VList xs) -> Forall2 (target_for tbl lq t) ids xs.
  Proof.
    destruct (link_pairs tbl db dr order lq ids Hdb Hs Ho) as (rows & -> & Hperm & Hn & _).
    destruct (mapper t (pairs_of lq rows) ids) as [l|] eqn:E; [|done]. intros [= <-].
    destruct t; cbn [mapper] in E.
    - unfold to_maybe in E. injection E as <-. rewrite Forall2_fmap_r. apply Forall2_same_length_lookup_2; [done|].
      intros k i i' E1 E2. rewrite E1 in E2. injection E2 as <-. apply elem_of_list_lookup_2 in E1.
      pose proof (dget_dict (pairs_of lq rows) i) as Hd. rewrite <- targets_pairs in Hd by done.
      pose proof (targets_all rows ids i Hperm E1) as Hp. unfold compose, target_for.
      destruct (dget i _) as [x|]; [left; by rewrite <- Hp|right; split; [|done]].
      apply Permutation_nil. by rewrite <- Hd.
    - unfold to_one in E. apply mapR_ok in E. apply Forall2_same_length_lookup.
      split; [by eapply Forall2_length|]. intros k i x E1 E2. pose proof (Forall2_lookup_lr _ _ _ _ _ _ E E1 E2) as Hx.
      cbn in Hx. apply elem_of_list_lookup_2 in E1.
      pose proof (dget_dict (pairs_of lq rows) i) as Hd. rewrite <- targets_pairs in Hd by done.
      destruct (dget i _) as [y|]; [|done]. injection Hx as <-. unfold target_for.
      by rewrite <- (targets_all rows ids i Hperm E1).
    - unfold to_many in E. injection E as <-. rewrite Forall2_fmap_r. apply Forall2_same_length_lookup_2; [done|].
      intros k i i' E1 E2. rewrite E1 in E2. injection E2 as <-. apply elem_of_list_lookup_2 in E1.
      unfold compose. eexists. split; [reflexivity|]. rewrite dget_group. rewrite <- targets_pairs by done.
      rewrite <- (targets_all rows ids i Hperm E1). by destruct (targets rows lq i).
  Qed.
  (** C42: it fails only for a link which is neither optional nor a sequence, and only with KeyError,
      when nothing is paired with one of the identifiers. *)
  Theorem C42_fails_when_absent t ids :
    (exists e, link_call order db dr lq t ids = Raise e) <->
    t = One /\ exists i, i ∈ ids /\ targets tbl lq i = [].
  Proof.
    destruct (link_pairs tbl db dr order lq ids Hdb Hs Ho) as (rows & -> & Hperm & Hn & _).
    destruct t; cbn [mapper].
    - split; [by intros [e He]|by intros [? _]].
    - split.
      + intros [e He]. split; [done|]. unfold to_one in He.
        destruct (decide (Exists (fun i => targets tbl lq i = []) ids)) as [Hx|Hx].
        { apply Exists_exists in Hx as (i & ? & ?). eauto. }
        exfalso. apply not_Exists_Forall in Hx; [|solve_decision]. rewrite Forall_forall in Hx.
        assert (exists xs, mapR (fun v => from_opt KeyError (dget v (of_pairs (pairs_of lq rows)))) ids = Ok xs) as [xs E];
          [|by rewrite E in He].
        exists (map (fun v => match dget v (of_pairs (pairs_of lq rows)) with Some x => x | None => VNone end) ids).
        apply mapR_map_ok. apply Forall_forall. intros i Hi. pose proof (dget_dict (pairs_of lq rows) i) as Hd.
        rewrite <- targets_pairs in Hd by done. destruct (dget i _); [done|]. exfalso. apply (Hx i Hi).
        apply Permutation_nil. by rewrite <- (targets_all rows ids i Hperm Hi), Hd.
      + intros (_ & i & Hi & Ht). unfold to_one.
        destruct (mapR _ ids) as [xs|e] eqn:E; [|by eexists]. exfalso. apply mapR_ok in E.
        destruct (F2_elem_l _ _ _ _ E Hi) as (x & _ & Hx). cbn in Hx.
        pose proof (dget_dict (pairs_of lq rows) i) as Hd. rewrite <- targets_pairs in Hd by done.
        destruct (dget i _) as [y|]; [|done].
        rewrite (targets_all rows ids i Hperm Hi), Ht in Hd. by apply elem_of_nil in Hd.
    - split; [by intros [e He]|by intros [? _]].
  Qed.
  (** C42: it fails with no other exception than KeyError. *)
  Theorem C42_only_key_error t ids e : link_call order db dr lq t ids = Raise e -> e = KeyError.
  Proof.
    destruct (link_pairs tbl db dr order lq ids Hdb Hs Ho) as (rows & -> & _).
    destruct t; cbn [mapper]; [done| |done]. unfold to_one.
    destruct (mapR _ ids) as [xs|e'] eqn:E; [done|]. intros [= <-].
    clear - E. revert e' E. induction ids as [|i ids IH]; intros e'; [done|]. cbn [mapR].
    destruct (dget i _); cbn; [|by intros [= <-]]. destruct (mapR _ ids); [done|]. intros [= <-]. by apply IH.
  Qed.
  (** C42: a sequence link gives the identifiers in the order of the answer. *)
  Theorem C42_database_order ids q :
    link_select order lq ids = Some q ->
    link_call order db dr lq Many ids = Ret (VList (map (fun i => VList (targets (db q) lq i)) ids)).
  Proof.
    intros Hq. destruct (link_pairs tbl db dr order lq ids Hdb Hs Ho) as (rows & -> & _ & Hn & E). rewrite Hq in E.
    cbn [mapper to_many]. do 2 f_equal. apply map_ext. intros i. f_equal.
    rewrite dget_group, <- targets_pairs by done. rewrite E. clear E.
    assert (targets (map (project [lq_from lq; lq_to lq]) rows) lq i = targets rows lq i) as ->; [|by destruct (targets rows lq i)].
    unfold targets. clear Hn. induction rows as [|r rows IH]; [done|]. cbn [map]. rewrite !filter_cons.
    assert (has_val (project [lq_from lq; lq_to lq] r) (lq_from lq) i <-> has_val r (lq_from lq) i) as Hiff.
    { rewrite !has_val_cell. unfold cell at 1. rewrite project_get by left. done. }
    destruct (decide (has_val (project _ _) _ _)), (decide (has_val r _ _)); try tauto. cbn [map]. rewrite IH. f_equal.
    unfold cell at 1. by rewrite project_get by (rewrite !elem_of_cons; auto).
  Qed.
  (** C42: the engine accepts the result for objects of a node. *)
  Theorem C42_engine_accepts n l ids xs :
    is_Some (gl_requires l) -> link_call order db dr lq (gl_enum l) ids = Ret (VList xs) ->
    check_store_links (GNode (Some n) []) l (Some ids) (VList xs) = Ok tt.
  Proof.
    intros [r Hr] Hc. pose proof (C42_targets_by_origin _ _ _ Hc) as Hf. unfold check_store_links. rewrite Hr.
    cbn [gn_name seq_of]. rewrite (Forall2_length _ _ _ Hf), Nat.eqb_refl. simpl.
    destruct (gl_enum l); try done. assert (forallb is_seq xs = true) as ->; [|done].
    apply forallb_forall. intros x Hx. apply elem_of_list_In in Hx.
    destruct (F2_elem_r _ _ _ _ Hf Hx) as (i & _ & y & -> & _). done.
  Qed.
End links.

(** ** Example: a table, a database which answers in the reverse order, buckets of two rows *)
Definition ex_row (i : Z) (n : str) (o : val) : row :=
  [(s "id", VInt i); (s "name", VStr n); (s "owner", o)].
Definition ex_tbl : list row :=
  [ex_row 1 (s "a") (VInt 7); ex_row 2 (s "b") (VInt 7); ex_row 3 (s "c") VNone; ex_row 4 (s "d") (VInt 8)].
Definition ex_db : database := fun q => List.rev (map (project (sel_cols q)) (filter (matches q) ex_tbl)).
Definition ex_fq : fields_query := FieldsQuery [s "id"; s "name"; s "owner"] (s "id").
Definition ex_lq : link_query := LinkQuery (s "owner") (s "id").
Definition two : driver := Buckets (fun n => Nat.min n 2).
Theorem C41_example :
  answers ex_tbl ex_db /\ sane two /\ unique ex_tbl (fq_pk ex_fq) /\
  fields_call ex_db two ex_fq [QF (s "name") None None; QF (s "owner") None None] [VInt 4; VInt 9; VInt 1] =
  Ret (VList [VList [VStr (s "d"); VInt 8]; VList [VNone; VNone]; VList [VStr (s "a"); VInt 7]]).
Proof.
  split_and!; [|intros [|[|n]] Hn; simpl; lia| |vm_compute; reflexivity].
  - intros q. unfold ex_db. symmetry. apply Permutation_rev.
  - intros r r' v Hr Hr' [H1 _] [H2 _]. unfold ex_tbl in Hr, Hr'. rewrite !elem_of_cons, elem_of_nil in Hr, Hr'.
    destruct Hr as [->|[->|[->|[->|[]]]]], Hr' as [->|[->|[->|[->|[]]]]]; try done;
      vm_compute in H1; vm_compute in H2; congruence.
Qed.
Theorem C42_example :
  link_call (fun l => l) ex_db two ex_lq Many [VInt 7; VNone; VInt 8; VInt 7; VInt 9] =
    Ret (VList [VList [VInt 2; VInt 1]; VList []; VList [VInt 4]; VList [VInt 2; VInt 1]; VList []]) /\
  link_call (fun l => l) ex_db two ex_lq Maybe [VInt 8; VInt 9] = Ret (VList [VInt 4; VNothing]) /\
  link_call (fun l => l) ex_db two ex_lq One [VInt 8; VInt 9] = Raise KeyError.
Proof. split_and!; vm_compute; reflexivity. Qed.

(** ** Where the claim is false *)
(** A link of the root gets the single value which it requires instead of a list: the loader fails
    on a number, and of a text it takes the letters as identifiers. *)
Theorem C42_root_link_refuted order db dr lq t :
  link_loader order db dr lq t (ROne (IVal (VInt 7))) = Raise TypeError /\
  link_loader order db dr lq t (ROne (IVal (VStr (s "ab")))) =
  link_call order db dr lq t [VStr (s "a"); VStr (s "b")].
Proof. done. Qed.
(** An optional link to a column with NULL leads to the object with the identifier [None]: the link
    is not absent. *)
Theorem C42_null_target_refuted :
  link_call (fun l => l) ex_db two (LinkQuery (s "id") (s "owner")) Maybe [VInt 3] = Ret (VList [VNone]) /\
  link_ref (GLink (s "owner") Maybe (s "user") 0 (Some (s "id")) []) VNone = Ok (IRef (s "user") VNone).
Proof. split; vm_compute; reflexivity. Qed.

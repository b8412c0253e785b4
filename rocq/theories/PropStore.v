(** Theorems about storing the results of loaders (C12, C13): engine.py:128-274. *)
From Verif Require Import Base Val Query Graph Result Engine EngineSpec SplitProof.

Section thms.
  Context `{Hasher}.

  (** [gn] and [ids] fit: a node is asked for objects, the root is not. *)
  Definition fits (gn : gnode) (ids : option (list val)) : Prop := is_Some (gn_name gn) <-> is_Some ids.
  (** [idx'] is [idx] overwritten by the cells [new], the last of them wins. *)
  Definition overwritten (idx : index) (new : list (str * val * str * ival)) (idx' : index) : Prop :=
    forall sl, dget sl idx' = dget sl (List.rev (map (fun c => (c.1.1.1, c.1.1.2, c.1.2, c.2)) new) ++ idx).

  Lemma overwritten_nil idx : overwritten idx [] idx.
  Proof. done. Qed.
  Lemma overwritten_app idx a idx1 b idx2 : overwritten idx a idx1 -> overwritten idx1 b idx2 -> overwritten idx (a ++ b) idx2.
  Proof.
    intros H1 H2 sl. rewrite H2, map_app, List.rev_app_distr, <-app_assoc. rewrite !dget_app. rewrite H1. by rewrite dget_app.
  Qed.
  Lemma overwritten_one idx n i k v : overwritten idx [(n, i, k, v)] (dset (n, i, k) v idx).
  Proof. intros sl. simpl. by rewrite dget_dset. Qed.

  Lemma store_row_cells n i ks vs idx :
    overwritten idx (zip_with (fun k v => (n, i, k, v)) ks vs) (store_row n idx i (zip ks vs)).
  Proof.
    revert vs idx. induction ks as [|k ks IH]; intros [|v vs] idx; try apply overwritten_nil. simpl.
    change ((n, i, k, v) :: zip_with (fun k v => (n, i, k, v)) ks vs) with ([(n, i, k, v)] ++ zip_with (fun k v => (n, i, k, v)) ks vs).
    eapply overwritten_app; [apply overwritten_one|]. unfold store_row. simpl. apply IH.
  Qed.

  (** C12: values are stored if the result has one row for every object and one value for
      every field; each value lands at the place of its object and field ... *)
  Theorem C12_fields_stored idx gn qfs ids r rows :
    fits gn ids -> table ids (length qfs) r rows ->
    exists idx', store_fields idx gn qfs ids r = Ok idx' /\ overwritten idx (cells (places gn ids) qfs rows) idx'.
  Proof.
    intros Hf Ht. unfold store_fields, check_store_fields, places. unfold fits in Hf.
    destruct (gn_name gn) as [n|], ids as [is_|]; try (exfalso; destruct Hf as [Hf1 Hf2]; (by destruct (Hf1 ltac:(eauto))) || (by destruct (Hf2 ltac:(eauto)))).
    - destruct Ht as (rs & -> & Hrows & Hl & Hall).
      assert (length rs = length is_ /\ forallb (rows_ok (length qfs)) rs = true /\ map (fun v => match seq_of v with Some x => x | None => [] end) rs = rows) as (-> & -> & ->).
      { rewrite <-Hl. split; [by eapply Forall2_length|]. clear -Hrows Hall. induction Hrows as [|v row rs rows Hv _ IH]; [done|].
        inversion Hall as [|? ? Hr Hall']; subst. simpl. destruct (IH Hall') as [-> ->]. unfold rows_ok. rewrite Hv, Hr, Nat.eqb_refl. done. }
      rewrite Nat.eqb_refl. simpl. eexists. split; [done|].
      clear Hrows Hall Hf. unfold cells. revert rows Hl idx. induction is_ as [|i is_ IH]; intros [|row rows] Hl idx; try done.
      simpl. eapply overwritten_app; [|apply IH; simpl in Hl; lia].
      rewrite <-(zip_with_fmap_l (fun k v => (n, i, k, IVal v)) index_key).
      change (map index_key qfs) with (index_key <$> qfs).
      assert (zip_with (fun k v => (n, i, k, IVal v)) (index_key <$> qfs) row = zip_with (fun k v => (n, i, k, v)) (index_key <$> qfs) (map IVal row)) as ->.
      { change (map IVal row) with (IVal <$> row). by rewrite zip_with_fmap_r. }
      apply store_row_cells.
    - destruct Ht as (row & -> & -> & Hl). rewrite Hl, Nat.eqb_refl. eexists. split; [done|].
      unfold cells. simpl. rewrite !app_nil_r.
      rewrite <-(zip_with_fmap_l (fun k v => (s "__root__", VStr (s "__root__"), k, IVal v)) index_key).
      change (map index_key qfs) with (index_key <$> qfs).
      assert (zip_with (fun k v => (s "__root__", VStr (s "__root__"), k, IVal v)) (index_key <$> qfs) row = zip_with (fun k v => (s "__root__", VStr (s "__root__"), k, v)) (index_key <$> qfs) (map IVal row)) as ->.
      { change (map IVal row) with (IVal <$> row). by rewrite zip_with_fmap_r. }
      apply store_row_cells.
  Qed.

  (** ... and any other result is refused with TypeError. *)
  Theorem C12_fields_refused idx gn qfs ids r :
    fits gn ids -> (forall rows, ~ table ids (length qfs) r rows) -> store_fields idx gn qfs ids r = Err TypeError.
  Proof.
    intros Hf Hn. unfold store_fields, check_store_fields. unfold fits in Hf.
    destruct (gn_name gn) as [n|], ids as [is_|]; try (exfalso; destruct Hf as [Hf1 Hf2]; (by destruct (Hf1 ltac:(eauto))) || (by destruct (Hf2 ltac:(eauto)))).
    - destruct (seq_of r) as [rs|] eqn:Er; [|done].
      destruct (Nat.eqb (length rs) (length is_)) eqn:El; [|done]. destruct (forallb (rows_ok (length qfs)) rs) eqn:Ea; [|done].
      exfalso. apply Nat.eqb_eq in El. apply (Hn (map (fun v => match seq_of v with Some x => x | None => [] end) rs)).
      exists rs. rewrite map_length. split; [done|]. rewrite forallb_forall in Ea.
      assert (forall v, v ∈ rs -> exists row, seq_of v = Some row /\ length row = length qfs) as Hr.
      { intros v Hv. apply elem_of_list_In, Ea in Hv. unfold rows_ok in Hv. destruct (seq_of v) as [row|]; [|done]. exists row. split; [done|]. by apply Nat.eqb_eq. }
      clear -El Hr. split; [|split; [done|]].
      + clear El. induction rs as [|v rs IH]; constructor; [destruct (Hr v ltac:(left)) as (row & -> & _); done|]. apply IH. intros. apply Hr. by right.
      + apply Forall_forall. intros row Hin. apply elem_of_list_fmap in Hin as (v & -> & Hv). by destruct (Hr v Hv) as (row & -> & ?).
    - destruct (seq_of r) as [row|] eqn:Er; [|done]. destruct (Nat.eqb (length row) (length qfs)) eqn:El; [|done].
      exfalso. apply (Hn [row]). exists row. split; [done|]. split; [done|]. by apply Nat.eqb_eq.
  Qed.

  (** For distinct objects and fields with distinct keys: the value at row [a] and column [b]
      is what is found for object [a] and field [b]; other slots keep their values. *)
  Lemma cells_lookup pl qfs rows a b (p : str * val) q row v :
    pl !! a = Some p -> qfs !! b = Some q -> rows !! a = Some row -> row !! b = Some v ->
    (p.1, p.2, index_key q, IVal v) ∈ cells pl qfs rows.
  Proof.
    unfold cells. revert rows a. induction pl as [|p0 pl IH]; intros [|row0 rows] [|a]; try done; simpl; intros Ha Hb Hc Hd.
    - simplify_eq. apply elem_of_app. left. apply elem_of_list_lookup. exists b. by rewrite lookup_zip_with, Hb, Hd.
    - apply elem_of_app. right. by eapply IH.
  Qed.
  Lemma cells_inv pl qfs rows c : c ∈ cells pl qfs rows ->
    exists a b p q row v, pl !! a = Some p /\ qfs !! b = Some q /\ rows !! a = Some row /\ row !! b = Some v /\ c = (p.1, p.2, index_key q, IVal v).
  Proof.
    unfold cells. revert rows. induction pl as [|p0 pl IH]; intros [|row0 rows]; simpl; try (intros Hc; by apply not_elem_of_nil in Hc).
    rewrite elem_of_app. intros [Hc|Hc].
    - apply elem_of_list_lookup in Hc as [b Hb]. rewrite lookup_zip_with in Hb.
      destruct (qfs !! b) as [q|] eqn:Eq; [|done]. destruct (row0 !! b) as [v|] eqn:Ev; [|done]. simpl in Hb. simplify_eq.
      exists 0, b, p0, q, row0, v. done.
    - apply IH in Hc as (a & b & p & q & row & v & H1 & H2 & H3 & H4 & ->). exists (S a), b, p, q, row, v. done.
  Qed.
  Theorem C12_values_at_their_places idx gn qfs ids r rows idx' a b p q row v :
    fits gn ids -> table ids (length qfs) r rows -> store_fields idx gn qfs ids r = Ok idx' ->
    NoDup (places gn ids) -> NoDup (map index_key qfs) ->
    places gn ids !! a = Some p -> qfs !! b = Some q -> rows !! a = Some row -> row !! b = Some v ->
    dget (p.1, p.2, index_key q) idx' = Some (IVal v).
  Proof.
    intros Hf Ht Hs Hn1 Hn2 Ha Hb Hc Hd. destruct (C12_fields_stored idx gn qfs ids r rows Hf Ht) as (idx2 & Hs2 & Ho).
    rewrite Hs in Hs2. injection Hs2 as <-. rewrite Ho, dget_app.
    destruct (dget _ (List.rev _)) as [v2|] eqn:E2.
    - apply dget_Some_elem in E2. apply elem_of_list_In, in_rev, elem_of_list_In, elem_of_list_fmap in E2 as (c & Hc1 & Hc2).
      apply cells_inv in Hc2 as (a' & b' & p' & q' & row' & v' & A1 & A2 & A3 & A4 & ->). simpl in Hc1. injection Hc1 as I1 I2 I3 I4.
      assert (p' = p) as -> by (destruct p, p'; simpl in *; congruence).
      assert (a' = a) as -> by exact (NoDup_lookup _ _ _ _ Hn1 A1 Ha).
      assert (b' = b) as ->.
      { eapply (NoDup_lookup (map index_key qfs) b' b (index_key q)); [done| |]; rewrite list_lookup_fmap.
        - rewrite A2. simpl. congruence.
        - by rewrite Hb. }
      congruence.
    - exfalso. assert (is_Some (dget (p.1, p.2, index_key q) (List.rev (map (fun c => (c.1.1.1, c.1.1.2, c.1.2, c.2)) (cells (places gn ids) qfs rows))))) as Hsome; [|destruct Hsome as [z Hz]; discriminate (eq_trans (eq_sym Hz) E2)].
      apply dget_is_Some. unfold dkeys. apply elem_of_list_fmap. exists (p.1, p.2, index_key q, IVal v). split; [done|].
      apply elem_of_list_In, in_rev. rewrite List.rev_involutive. apply elem_of_list_In, elem_of_list_fmap.
      exists (p.1, p.2, index_key q, IVal v). split; [done|]. by eapply cells_lookup.
  Qed.
  Theorem C12_other_slots_kept idx gn qfs ids r rows idx' sl :
    fits gn ids -> table ids (length qfs) r rows -> store_fields idx gn qfs ids r = Ok idx' ->
    (forall p q, p ∈ places gn ids -> q ∈ qfs -> sl <> (p.1, p.2, index_key q)) -> dget sl idx' = dget sl idx.
  Proof.
    intros Hf Ht Hs Hsl. destruct (C12_fields_stored idx gn qfs ids r rows Hf Ht) as (idx2 & Hs2 & Ho).
    rewrite Hs in Hs2. injection Hs2 as <-. rewrite Ho, dget_app.
    destruct (dget _ (List.rev _)) as [v2|] eqn:E2; [|done]. exfalso.
    apply dget_Some_elem in E2. apply elem_of_list_In, in_rev, elem_of_list_In, elem_of_list_fmap in E2 as (c & Hc1 & Hc2).
    apply cells_inv in Hc2 as (a' & b' & p' & q' & row' & v' & A1 & A2 & A3 & A4 & ->). simpl in Hc1. simplify_eq.
    apply (Hsl p' q'); [by eapply elem_of_list_lookup_2|by eapply elem_of_list_lookup_2|done].
  Qed.

  (** ** Links *)
  Lemma seq_iter v l : seq_of v = Some l -> iter_of v = Some l.
  Proof. destruct v; simpl; congruence. Qed.
  Lemma link_ref_spec l v : 
    match ref_value l v with Some x => link_ref l v = Ok x | None => gl_enum l <> Many -> link_ref l v = Err AssertionError end.
  Proof.
    unfold ref_value, link_ref. destruct (gl_enum l).
    - destruct v; done.
    - destruct v; done.
    - destruct (seq_of v) as [js|] eqn:Ev; [|done]. by rewrite (seq_iter _ _ Ev).
  Qed.

  (** C12 for links: the references are stored if there is a result of the right kind for
      every object ... *)
  Theorem C12_links_stored idx gn l q ids r rs vs :
    fits gn ids -> ids <> Some [] -> link_results gn l ids r rs -> Forall2 (fun x v => ref_value l x = Some v) rs vs ->
    exists idx', store_links idx gn l q ids r = Ok idx' /\
      overwritten idx (zip_with (fun p v => (p.1, p.2, index_key q, v)) (places gn ids) vs) idx'.
  Proof.
    intros Hf Hne Hr Hv. unfold store_links, check_store_links, places. unfold link_results in Hr. unfold fits in Hf.
    assert (forall x v, ref_value l x = Some v -> link_ref l x = Ok v) as Hlr.
    { intros x v Hx. pose proof (link_ref_spec l x) as Hs. by rewrite Hx in Hs. }
    assert (forall x v, ref_value l x = Some v -> gl_enum l = Many -> is_seq x = true) as Hseq.
    { intros x v Hx Hm. unfold ref_value in Hx. rewrite Hm in Hx. unfold is_seq. by destruct (seq_of x). }
    assert (forall n is_ rs vs idx, length rs = length is_ -> Forall2 (fun x v => ref_value l x = Some v) rs vs ->
      exists idx', foldR (fun d p => match link_ref l p.2 with Ok v => Ok (dset (n, p.1, index_key q) v d) | Err e => Err e end) idx (zip is_ rs) = Ok idx' /\
        overwritten idx (zip_with (fun p v => (p.1, p.2, index_key q, v)) (map (fun i => (n, i)) is_) vs) idx') as Hfold.
    { clear -Hlr. intros n is_. induction is_ as [|i is_ IH]; intros [|x rs] vs idx Hl Hv; try done.
      - exists idx. split; [done|]. apply overwritten_nil.
      - inversion Hv as [|? v ? vs' Hx Hv']; subst. simpl. rewrite (Hlr _ _ Hx).
        destruct (IH rs vs' (dset (n, i, index_key q) v idx)) as (idx' & Hi & Ho); [simpl in Hl; lia|done|].
        exists idx'. split; [done|]. apply (overwritten_app idx [(n, i, index_key q, v)] (dset (n, i, index_key q) v idx) (zip_with (fun p v => (p.1, p.2, index_key q, v)) (map (fun i => (n, i)) is_) vs') idx'); [apply overwritten_one|exact Ho]. }
    destruct (gn_name gn) as [n|], ids as [is_|]; try (exfalso; destruct Hf as [Hf1 Hf2]; (by destruct (Hf1 ltac:(eauto))) || (by destruct (Hf2 ltac:(eauto)))).
    - destruct (gl_requires l) as [rq|].
      + destruct Hr as [Hr Hl]. rewrite Hr, Hl, Nat.eqb_refl. simpl.
        assert (match gl_enum l with Many => forallb is_seq rs | _ => true end = true) as ->.
        { destruct (gl_enum l) eqn:Em; try done. apply forallb_forall. intros x Hx. apply elem_of_list_In, elem_of_list_lookup in Hx as [j Hj].
          destruct (Forall2_lookup_l _ _ _ _ _ Hv Hj) as (v & _ & Hxv). by eapply Hseq. }
        unfold seq_items. rewrite Hr. by apply Hfold.
      + subst rs. 
        destruct is_ as [|i is_]; [done|].
        assert (match gl_enum l with Many => if is_seq r then Ok tt else Err TypeError | _ => Ok tt end = Ok tt) as ->.
        { destruct (gl_enum l) eqn:Em; try done. inversion Hv as [|? v ? ? Hx]; subst. by rewrite (Hseq _ _ Hx eq_refl). }
        apply Hfold; [by rewrite repeat_length|done].
    - subst rs. inversion Hv as [|? v ? vs' Hx Hv']; subst. inversion Hv'; subst. simpl.
      assert (match gl_enum l with Many => if is_seq r then Ok tt else Err TypeError | _ => Ok tt end = Ok tt) as Hch.
      { destruct (gl_enum l) eqn:Em; try done. by rewrite (Hseq _ _ Hx eq_refl). }
      rewrite Hch, (Hlr _ _ Hx). eexists. split; [done|]. apply overwritten_one.
  Qed.

  (** ... and refused with TypeError if the number of results or a result for a sequence link
      is wrong; and with an error if a result of a link which is not optional is missing. *)
  Theorem C12_links_refused idx gn l q ids r :
    fits gn ids -> ids <> Some [] ->
    (forall rs, ~ (link_results gn l ids r rs /\ (gl_enum l = Many -> Forall (fun x => is_Some (seq_of x)) rs))) ->
    store_links idx gn l q ids r = Err TypeError.
  Proof.
    intros Hf Hne Hn. unfold store_links, check_store_links. unfold link_results in Hn. unfold fits in Hf.
    assert (is_seq r = true <-> is_Some (seq_of r)) as Hsq.
    { unfold is_seq. destruct (seq_of r); split; eauto; try done. by intros [? ?]. }
    destruct (gn_name gn) as [n|], ids as [is_|]; try (exfalso; destruct Hf as [Hf1 Hf2]; (by destruct (Hf1 ltac:(eauto))) || (by destruct (Hf2 ltac:(eauto)))).
    - destruct (gl_requires l) as [rq|].
      + destruct (seq_of r) as [rs|] eqn:Er; [|done]. destruct (Nat.eqb (length rs) (length is_)) eqn:El; [|done].
        apply Nat.eqb_eq in El. simpl. destruct (gl_enum l) eqn:Em.
        * exfalso. by apply (Hn rs).
        * exfalso. by apply (Hn rs).
        * destruct (forallb is_seq rs) eqn:Ea; [|done]. exfalso. apply (Hn rs). split; [done|]. intros _.
          rewrite forallb_forall in Ea. apply Forall_forall. intros x Hx. apply elem_of_list_In, Ea in Hx. unfold is_seq in Hx. destruct (seq_of x); [eauto|done].
      + destruct (gl_enum l) eqn:Em.
        * exfalso. by apply (Hn (repeat r (length is_))).
        * exfalso. by apply (Hn (repeat r (length is_))).
        * destruct (is_seq r) eqn:Ea; [|done]. exfalso. apply (Hn (repeat r (length is_))). split; [done|]. intros _.
          apply Forall_forall. intros x Hx. apply elem_of_list_In, repeat_spec in Hx. subst x. by apply Hsq.
    - destruct (gl_enum l) eqn:Em.
      + exfalso. by apply (Hn [r]).
      + exfalso. by apply (Hn [r]).
      + destruct (is_seq r) eqn:Ea; [|done]. exfalso. apply (Hn [r]). split; [done|]. intros _. repeat constructor. by apply Hsq.
  Qed.

  (** C13: a missing result of a link which is not optional raises, before anything is
      loaded for the objects of that link. *)
  Theorem C13_nothing_raises idx gn l q ids r rs :
    fits gn ids -> ids <> Some [] -> link_results gn l ids r rs -> gl_enum l = One -> VNothing ∈ rs ->
    store_links idx gn l q ids r = Err AssertionError.
  Proof.
    intros Hf Hne Hr Hm Hin. unfold store_links, check_store_links. unfold link_results in Hr. unfold fits in Hf. rewrite Hm.
    assert (forall (n : str) (is_ rs : list val) (idx : index), length rs = length is_ -> VNothing ∈ rs ->
      foldR (fun d p => match link_ref l p.2 with Ok v => Ok (dset (n, p.1, index_key q) v d) | Err e => Err e end) idx (zip is_ rs) = Err AssertionError) as Hfold.
    { clear -Hm. intros n is_. induction is_ as [|i is_ IH]; intros [|x rs] idx Hl Hin; try done; [by apply not_elem_of_nil in Hin|].
      simpl. unfold link_ref at 1. rewrite Hm. destruct (decide (x = VNothing)) as [->|Hx]; [done|].
      apply elem_of_cons in Hin as [?|Hin]; [congruence|]. destruct x; try done; apply IH; try done; simpl in Hl; lia. }
    destruct (gn_name gn) as [n|], ids as [is_|]; try (exfalso; destruct Hf as [Hf1 Hf2]; (by destruct (Hf1 ltac:(eauto))) || (by destruct (Hf2 ltac:(eauto)))).
    - destruct (gl_requires l) as [rq|].
      + destruct Hr as [Hr Hl]. rewrite Hr, Hl, Nat.eqb_refl. simpl. unfold seq_items. rewrite Hr. by apply Hfold.
      + subst rs. apply Hfold; [by rewrite repeat_length|done].
    - subst rs. apply elem_of_list_singleton in Hin as <-. unfold link_ref. by rewrite Hm.
  Qed.

  (** C13: the objects visited next are exactly those to which references were stored, in the
      same order: none for a missing one, one for a single link, all for a sequence link. *)
  Theorem C13_follows_stored_references idx gn l q ids r rs vs to_ids idx' :
    fits gn ids -> ids <> Some [] -> link_results gn l ids r rs -> Forall2 (fun x v => ref_value l x = Some v) rs vs ->
    store_links idx gn l q ids r = Ok idx' ->
    link_result_to_ids (match ids, gl_requires l with Some _, Some _ => true | _, _ => false end) (gl_enum l) r = Ok to_ids ->
    to_ids = match ids, gl_requires l with
             | Some _, None => match vs with v :: _ => refs_in v | [] => [] end
             | _, _ => concat (map refs_in vs)
             end.
  Proof.
    intros Hf Hne Hr Hv _ Hto. unfold link_results in Hr. unfold fits in Hf.
    assert (forall v, ref_value l r = Some v -> link_result_to_ids false (gl_enum l) r = Ok to_ids -> to_ids = refs_in v) as Hone.
    { intros v Hx. unfold ref_value in Hx. unfold link_result_to_ids. destruct (gl_enum l).
      - destruct r; intros [= <-]; by injection Hx as <-.
      - destruct r; try done; intros [= <-]; by injection Hx as <-.
      - destruct (seq_of r) as [js|] eqn:Es; [|done]. injection Hx as <-. rewrite (seq_iter _ _ Es). intros [= <-]. simpl. rewrite map_map. simpl. by rewrite map_id. }
    destruct (gn_name gn) as [n|], ids as [is_|]; try (exfalso; destruct Hf as [Hf1 Hf2]; (by destruct (Hf1 ltac:(eauto))) || (by destruct (Hf2 ltac:(eauto)))).
    - destruct (gl_requires l) as [rq|].
      + destruct Hr as [Hr Hl]. unfold link_result_to_ids in Hto. rewrite (seq_iter _ _ Hr) in Hto. clear -Hv Hto. unfold ref_value in Hv.
        destruct (gl_enum l).
        * injection Hto as <-. induction Hv as [|x v rs vs Hx _ IH]; [done|]. simpl. rewrite IH. destruct x; by injection Hx as <-.
        * destruct (forallb not_nothing rs); [|done]. injection Hto as <-. induction Hv as [|x v rs vs Hx _ IH]; [done|]. simpl. rewrite IH at 1. destruct x; try done; by injection Hx as <-.
        * destruct (mapR _ rs) as [ls|] eqn:El; [|done]. injection Hto as <-. revert ls El.
          induction Hv as [|x v rs vs Hx _ IH]; intros ls; simpl; [by intros [= <-]|].
          destruct (seq_of x) as [js|] eqn:Es; [|done]. injection Hx as <-. rewrite (seq_iter _ _ Es). simpl.
          destruct (mapR _ rs) as [ls'|]; [|done]. intros [= <-]. simpl. rewrite (IH _ eq_refl). f_equal. rewrite map_map. simpl. by rewrite map_id.
      + subst rs. destruct is_ as [|i is_]; [done|]. inversion Hv as [|? v ? vs' Hx Hv']; subst. by apply Hone.
    - subst rs. inversion Hv as [|? v ? vs' Hx Hv']; subst. inversion Hv'; subst. simpl. rewrite app_nil_r. by apply Hone.
  Qed.
End thms.

(** ** The hypotheses are met *)
From Verif Require Import Examples ExEngine.
#[local] Existing Instance ex_hasher.
Definition ex_ids : option (list val) := Some [VInt 1; VInt 2].
Definition ex_fields : list qitem := [QF (s "name") None None; QF (s "boss_id") None None].
Definition ex_answer : val := VList [VTuple [VStr (s "a"); VInt 5]; VList [VStr (s "b"); VNone]].
Definition ex_rows : list (list val) := [[VStr (s "a"); VInt 5]; [VStr (s "b"); VNone]].
Example C12_applies : fits ex_user ex_ids /\ table ex_ids (length ex_fields) ex_answer ex_rows /\
  NoDup (places ex_user ex_ids) /\ NoDup (map index_key ex_fields) /\
  places ex_user ex_ids !! 1 = Some (s "User", VInt 2).
Proof.
  split; [by split; eauto|]. split; [exists [VTuple [VStr (s "a"); VInt 5]; VList [VStr (s "b"); VNone]]; repeat constructor|].
  split; [apply (bool_decide_unpack _); vm_compute; exact I|]. split; [apply (bool_decide_unpack _); vm_compute; exact I|]. done.
Qed.
(** Refused: a row with one value, a missing row, a dict *)
Example C12_refused idx : store_fields idx ex_user ex_fields ex_ids (VList [VTuple [VStr (s "a"); VInt 5]; VList [VNone]]) = Err TypeError /\
  store_fields idx ex_user ex_fields ex_ids (VList [VTuple [VStr (s "a"); VInt 5]]) = Err TypeError /\
  store_fields idx ex_user ex_fields ex_ids (VDict []) = Err TypeError.
Proof. done. Qed.
Example C12_refused_applies : forall rows, ~ table ex_ids (length ex_fields) (VList [VTuple [VStr (s "a"); VInt 5]]) rows.
Proof. intros rows (rs & [= <-] & Hr & Hl & _). apply Forall2_length in Hr. rewrite <-Hr in Hl. done. Qed.
Definition ex_friends : glink := GLink (s "friends") Many (s "User") 10 (Some (s "friend_ids")) [].
Definition ex_boss : glink := GLink (s "boss") One (s "User") 11 (Some (s "boss_id")) [].
Example C12_links_apply : link_results ex_user ex_friends ex_ids (VList [VList [VInt 4; VInt 5]; VTuple []]) [VList [VInt 4; VInt 5]; VTuple []] /\
  Forall2 (fun x v => ref_value ex_friends x = Some v) [VList [VInt 4; VInt 5]; VTuple []]
    [IRefs [(s "User", VInt 4); (s "User", VInt 5)]; IRefs []].
Proof. split; [done|]. repeat constructor. Qed.
Example C12_links_refused_applies : forall rs, ~ (link_results ex_user ex_friends ex_ids (VList [VList []; VInt 3]) rs /\
  (gl_enum ex_friends = Many -> Forall (fun x => is_Some (seq_of x)) rs)).
Proof. intros rs [[[= <-] _] Hr]. specialize (Hr eq_refl). inversion Hr as [|? ? _ H']; subst. inversion H' as [|? ? [? Hx] _]; subst. done. Qed.
Example C13_applies : link_results ex_user ex_boss ex_ids (VList [VInt 1; VNothing]) [VInt 1; VNothing] /\ VNothing ∈ [VInt 1; VNothing].
Proof. split; [done|]. right. left. Qed.

Print Assumptions C12_fields_stored.
Print Assumptions C12_fields_refused.
Print Assumptions C12_values_at_their_places.
Print Assumptions C12_other_slots_kept.
Print Assumptions C12_links_stored.
Print Assumptions C12_links_refused.
Print Assumptions C13_nothing_raises.
Print Assumptions C13_follows_stored_references.

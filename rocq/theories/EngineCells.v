(** What storing the answer of a loader does to the index, slot by slot: used by the invariants of C60. *)
From Verif Require Import Base Val Query Graph Result Engine EngineSpec CallSpec ProvSpec.

(** An index after some writes: every slot is as before or was written, what was there is there, and the slots
    which had to be written are there. *)
Definition wrote (idx idx' : index) (new : slot -> ival -> Prop) (due : slot -> Prop) : Prop :=
  (forall sl iv, dget sl idx' = Some iv -> dget sl idx = Some iv \/ new sl iv) /\
  (forall sl, is_Some (dget sl idx) -> is_Some (dget sl idx')) /\
  (forall sl, due sl -> is_Some (dget sl idx')).

Section cells.
  Context `{Hasher}.
  Lemma wrote_set idx sl iv (new : slot -> ival -> Prop) : new sl iv -> wrote idx (dset sl iv idx) new (fun x => x = sl).
  Proof.
    intros Hn. split_and!.
    - intros x y. rewrite dget_dset. destruct (decide _) as [->|]; [intros [= <-]; by right|by left].
    - intros x Hx. rewrite dget_dset. destruct (decide _); [by eexists|done].
    - intros x ->. rewrite dget_dset, decide_True by done. by eexists.
  Qed.
  Lemma wrote_fold {A} (h : index -> A -> index) (new : slot -> ival -> Prop) (due : A -> slot -> Prop) (l : list A) :
    (forall a idx, a ∈ l -> wrote idx (h idx a) new (due a)) ->
    forall idx, wrote idx (fold_left h l idx) new (fun sl => exists a, a ∈ l /\ due a sl).
  Proof.
    induction l as [|a l IH]; intros Hh idx; cbn.
    - split_and!; [by left|done|]. intros sl (a & Ha & _). by apply elem_of_nil in Ha.
    - destruct (Hh a idx ltac:(left)) as (H1 & H2 & H3). destruct (IH (fun b i Hb => Hh b i ltac:(by right)) (h idx a)) as (I1 & I2 & I3). split_and!.
      + intros sl iv Hi. destruct (I1 _ _ Hi) as [Hi1|]; [|by right]. by apply H1.
      + intros sl Hs. by apply I2, H2.
      + intros sl (b & [->|Hb]%elem_of_cons & Hd); [by apply I2, H3|]. apply I3. by exists b.
  Qed.
  Lemma wrote_foldR {A} (h : index -> A -> res index) (new : slot -> ival -> Prop) (due : A -> slot -> Prop) (l : list A) :
    (forall a idx idx', a ∈ l -> h idx a = Ok idx' -> wrote idx idx' new (due a)) ->
    forall idx idx', foldR h idx l = Ok idx' -> wrote idx idx' new (fun sl => exists a, a ∈ l /\ due a sl).
  Proof.
    induction l as [|a l IH]; intros Hh idx idx'; cbn.
    - intros [= <-]. split_and!; [by left|done|]. intros sl (a & Ha & _). by apply elem_of_nil in Ha.
    - destruct (h idx a) as [idx1|] eqn:E1; [|done]. intros Hf.
      destruct (Hh a idx idx1 ltac:(left) E1) as (H1 & H2 & H3). destruct (IH (fun b i i' Hb => Hh b i i' ltac:(by right)) _ _ Hf) as (I1 & I2 & I3). split_and!.
      + intros sl iv Hi. destruct (I1 _ _ Hi) as [Hi1|]; [|by right]. by apply H1.
      + intros sl Hs. by apply I2, H2.
      + intros sl (b & [->|Hb]%elem_of_cons & Hd); [by apply I2, H3|]. apply I3. by exists b.
  Qed.
  Lemma wrote_weaken idx idx' (new new' : slot -> ival -> Prop) (due due' : slot -> Prop) :
    wrote idx idx' new due -> (forall sl iv, new sl iv -> new' sl iv) -> (forall sl, due' sl -> due sl) -> wrote idx idx' new' due'.
  Proof. intros (H1 & H2 & H3) Hn Hd. split_and!; [|done|by auto]. intros sl iv Hi. destruct (H1 _ _ Hi); auto. Qed.

  Lemma elem_zip_lookup {A B} (l : list A) (k : list B) x y : (x, y) ∈ zip l k <-> exists p, l !! p = Some x /\ k !! p = Some y.
  Proof.
    rewrite elem_of_list_lookup. split; intros [p Hp]; exists p.
    - apply lookup_zip_with_Some in Hp as (a & b & Heq & Ha & Hb). by injection Heq as -> ->.
    - apply lookup_zip_with_Some. exists x, y. naive_solver.
  Qed.

  (** engine.py:152-168 *)
  Definition field_slot (gn : gnode) (qfs : list qitem) (ids : option (list val)) (r : val) (sl : slot) (iv : ival) : Prop :=
    exists ref a q v, qfs !! a = Some q /\ sl = (ref.1, ref.2, index_key q) /\ iv = IVal v /\ object_of gn ids ref /\ cell (gn_name gn) ids r a ref v.
  Lemma store_fields_wrote idx gn qfs ids r idx' : store_fields idx gn qfs ids r = Ok idx' ->
    wrote idx idx' (field_slot gn qfs ids r) (fun sl => exists ref q, object_of gn ids ref /\ q ∈ qfs /\ sl = (ref.1, ref.2, index_key q)).
  Proof.
    unfold store_fields, check_store_fields, field_slot, object_of. destruct (gn_name gn) as [n|] eqn:En.
    - destruct ids as [is_|]; [|done]. destruct (seq_of r) as [rows|] eqn:Er; [|done].
      destruct (Nat.eqb (length rows) (length is_) && forallb (rows_ok (length qfs)) rows) eqn:Ec; [|done].
      apply andb_true_iff in Ec as [El Ef]. apply Nat.eqb_eq in El. rewrite forallb_forall in Ef.
      intros [= <-]. eapply wrote_weaken; [eapply (wrote_fold _ (field_slot gn qfs (Some is_) r) (fun p sl => exists q, q ∈ qfs /\ sl = (n, p.1, index_key q)))| |].
      + intros [i items] idx0 Hin. apply elem_zip_lookup in Hin as (p & Hp & Hitems). rewrite list_lookup_fmap in Hitems.
        destruct (rows !! p) as [row|] eqn:Erow; [|done]. cbn in Hitems. injection Hitems as Hitems.
        assert (exists its, seq_of row = Some its /\ length its = length qfs) as (its & Hits & Hlen).
        { specialize (Ef row). unfold rows_ok in Ef. destruct (seq_of row) as [its|]; [|exfalso; discriminate (Ef (proj1 (elem_of_list_In _ _) (elem_of_list_lookup_2 _ _ _ Erow)))].
          exists its. split; [done|]. apply Nat.eqb_eq, Ef. by eapply elem_of_list_In, elem_of_list_lookup_2. }
        rewrite Hits in Hitems. subst items. unfold store_row. cbn [fst snd].
        eapply wrote_weaken; [eapply (wrote_fold _ (field_slot gn qfs (Some is_) r) (fun kv sl => sl = (n, i, kv.1)))| |].
        * intros [k iv] idx1 Hkv. cbn [fst snd]. apply wrote_set. apply elem_zip_lookup in Hkv as (a & Hk & Hv). rewrite list_lookup_fmap in Hk. change (map IVal its) with (IVal <$> its) in Hv. rewrite list_lookup_fmap in Hv.
          destruct (qfs !! a) as [q|] eqn:Eq; [|done]. injection Hk as <-. destruct (its !! a) as [v|] eqn:Ev; [|done]. injection Hv as <-.
          exists (n, i), a, q, v. split_and!; try done.
          -- unfold object_of. rewrite En. exists i. split; [by eapply elem_of_list_lookup_2|done].
          -- by eapply cell_node.
        * done.
        * cbn beta. intros sl (q & Hq & ->). apply elem_of_list_lookup in Hq as [a Ha]. destruct (lookup_lt_is_Some_2 its a) as [v Hv]; [rewrite Hlen; by eapply lookup_lt_Some|].
          exists (index_key q, IVal v). split; [|done]. apply elem_zip_lookup. exists a. split; [by rewrite list_lookup_fmap, Ha|]. etransitivity; [apply (list_lookup_fmap IVal)|]. by rewrite Hv.
      + intros sl iv (ref & a & q & v & ? & ? & ? & Ho & ?). unfold object_of in Ho. rewrite En in *. by exists ref, a, q, v.
      + intros sl (ref & q & (i & Hi & ->) & Hq & ->). apply elem_of_list_lookup in Hi as [p Hp].
        destruct (lookup_lt_is_Some_2 rows p) as [row Hrow]; [rewrite El; by eapply lookup_lt_Some|].
        exists (i, match seq_of row with Some x => x | None => [] end). split; [|by exists q]. apply elem_zip_lookup. exists p. by rewrite list_lookup_fmap, Hrow.
    - destruct (seq_of r) as [l|] eqn:Er; [|done]. destruct (Nat.eqb (length l) (length qfs)) eqn:El; [|done]. apply Nat.eqb_eq in El.
      destruct ids as [is_|]; [done|]. intros [= <-]. unfold store_row. cbn [concat]. rewrite app_nil_r.
      eapply wrote_weaken; [eapply (wrote_fold _ (field_slot gn qfs None r) (fun kv sl => sl = (ROOT.1, ROOT.2, kv.1)))| |].
      + intros [k iv] idx1 Hkv. cbn [fst snd]. apply wrote_set. apply elem_zip_lookup in Hkv as (a & Hk & Hv). rewrite list_lookup_fmap in Hk. change (map IVal l) with (IVal <$> l) in Hv. rewrite list_lookup_fmap in Hv.
        destruct (qfs !! a) as [q|] eqn:Eq; [|done]. injection Hk as <-. destruct (l !! a) as [v|] eqn:Ev; [|done]. injection Hv as <-.
        exists ROOT, a, q, v. split_and!; try done.
        * unfold object_of. by rewrite En.
        * by eapply cell_root.
      + intros sl iv (ref & a & q & v & ? & ? & ? & Ho & ?). unfold object_of in Ho. rewrite En in *. by exists ref, a, q, v.
      + intros sl (ref & q & -> & Hq & ->). apply elem_of_list_lookup in Hq as [a Ha]. destruct (lookup_lt_is_Some_2 l a) as [v Hv]; [rewrite El; by eapply lookup_lt_Some|].
        exists (index_key q, IVal v). split; [|done]. apply elem_zip_lookup. exists a. split; [by rewrite list_lookup_fmap, Ha|]. etransitivity; [apply (list_lookup_fmap IVal)|]. by rewrite Hv.
  Qed.

  (** What the answer [r] of a link's loader says of the object [ref], by the order of objects *)
  Definition placed (gn : gnode) (l : glink) (ids : option (list val)) (r : val) (ref : str * val) (v : val) : Prop :=
    object_of gn ids ref /\
    match gn_name gn, gl_requires l with
    | Some n, Some _ => exists is_ rs p, ids = Some is_ /\ seq_of r = Some rs /\ length rs = length is_ /\ is_ !! p = Some ref.2 /\ rs !! p = Some v
    | _, _ => v = r
    end.
  Definition link_slot (gn : gnode) (l : glink) (q : qitem) (ids : option (list val)) (r : val) (sl : slot) (iv : ival) : Prop :=
    exists ref v, sl = (ref.1, ref.2, index_key q) /\ placed gn l ids r ref v /\ refers l v iv.
  Lemma link_ref_refers l v iv : link_ref l v = Ok iv -> refers l v iv.
  Proof.
    unfold link_ref, refers. destruct (gl_enum l).
    - destruct v; intros [= <-]; try (right; done). by left.
    - destruct v; intros Hx; try done; by injection Hx as <-.
    - destruct (iter_of v) as [is_|]; [|done]. intros [= <-]. by exists is_.
  Qed.
  (** engine.py:238-251 *)
  Lemma store_links_wrote idx gn l q ids r idx' : store_links idx gn l q ids r = Ok idx' ->
    wrote idx idx' (link_slot gn l q ids r) (fun sl => exists ref, object_of gn ids ref /\ sl = (ref.1, ref.2, index_key q)).
  Proof.
    unfold store_links. destruct (check_store_links gn l ids r) as [[]|] eqn:Ec; [|done]. unfold check_store_links in Ec. unfold object_of.
    destruct (gn_name gn) as [n|] eqn:En.
    - destruct ids as [is_|]; [|done]. intros Hf.
      eapply wrote_weaken; [eapply (wrote_foldR _ (link_slot gn l q (Some is_) r) (fun p sl => sl = (n, p.1, index_key q))); [|exact Hf]| |].
      + intros [i v] idx0 idx1 Hin. cbn [fst snd]. destruct (link_ref l v) as [iv|] eqn:Elr; [|done]. intros [= <-]. apply wrote_set.
        exists (n, i), v. split; [done|]. split; [|by apply link_ref_refers]. apply elem_zip_lookup in Hin as (p & Hp & Hv).
        unfold placed, object_of. rewrite En. split; [exists i; split; [by eapply elem_of_list_lookup_2|done]|].
        destruct (gl_requires l) as [rq|].
        * destruct (seq_of r) as [rs|] eqn:Er; [|done]. destruct (Nat.eqb (length rs) (length is_) && _) eqn:E2; [|done].
          apply andb_true_iff in E2 as [El _]. apply Nat.eqb_eq in El. exists is_, rs, p. unfold seq_items in Hv. rewrite Er in Hv. done.
        * symmetry. apply elem_of_list_lookup_2, elem_of_list_In, repeat_spec in Hv. done.
      + done.
      + cbn beta. intros sl (ref & (i & Hi & ->) & ->). apply elem_of_list_lookup in Hi as [p Hp].
        assert (exists v, match gl_requires l with Some _ => seq_items r | None => repeat r (length is_) end !! p = Some v) as [v Hv].
        { apply lookup_lt_Some in Hp. apply lookup_lt_is_Some_2. destruct (gl_requires l) as [rq|]; [|by rewrite repeat_length].
          destruct (seq_of r) as [rs|] eqn:Er; [|done]. destruct (Nat.eqb (length rs) (length is_) && _) eqn:E2; [|done].
          apply andb_true_iff in E2 as [El _]. apply Nat.eqb_eq in El. unfold seq_items. rewrite Er. lia. }
        exists (i, v). split; [|done]. apply elem_zip_lookup. exists p. done.
    - destruct (link_ref l r) as [iv|] eqn:Elr; [|done]. intros [= <-].
      eapply wrote_weaken; [apply (wrote_set _ _ _ (link_slot gn l q ids r))|done|].
      + exists ROOT, r. split; [done|]. split; [|by apply link_ref_refers]. unfold placed, object_of. rewrite En. done.
      + intros sl (ref & -> & ->). done.
  Qed.

  (** engine.py:254-274: the identifiers followed are those referred to *)
  Lemma to_ids_placed idx gn l q ids r idx' to_ids i : objects gn ids -> store_links idx gn l q ids r = Ok idx' ->
    link_result_to_ids (match ids, gl_requires l with Some _, Some _ => true | _, _ => false end) (gl_enum l) r = Ok to_ids -> i ∈ to_ids ->
    exists ref v iv, placed gn l ids r ref v /\ refers l v iv /\ points iv (gl_node l, i).
  Proof.
    intros Ho Hs Hl Hi. unfold store_links in Hs. destruct (check_store_links gn l ids r) as [[]|] eqn:Ec; [|done]. unfold check_store_links in Ec. clear Hs.
    assert (forall v, v <> VNothing -> gl_enum l <> Many -> refers l v (IRef (gl_node l) v)) as Hone.
    { intros v Hv Hm. unfold refers. destruct (gl_enum l); [by right|done|done]. }
    assert (forall v is_, iter_of v = Some is_ -> gl_enum l = Many -> refers l v (IRefs (map (fun i => (gl_node l, i)) is_))) as Hmany.
    { intros v is_ Hv Hm. unfold refers. rewrite Hm. by exists is_. }
    assert (forall is_ : list val, i ∈ is_ -> points (IRefs (map (fun i => (gl_node l, i)) is_)) (gl_node l, i)) as Hpt.
    { intros is_ Hin. cbn. apply elem_of_list_fmap. by exists i. }
    assert (forall v : val, not_nothing v = true -> v <> VNothing) as Hnn by (by intros []).
    unfold placed, object_of, objects in *. destruct (gn_name gn) as [n|] eqn:En.
    - destruct Ho as (j & js & ->). set (is_ := j :: js) in *. destruct (gl_requires l) as [rq|] eqn:Erq.
      + destruct (seq_of r) as [rs|] eqn:Er; [|done]. destruct (Nat.eqb (length rs) (length is_) && _) eqn:E2; [|done].
        apply andb_true_iff in E2 as [El _]. apply Nat.eqb_eq in El. unfold link_result_to_ids in Hl.
        assert (iter_of r = Some rs) as Hit by (clear -Er; destruct r; simpl in *; congruence). rewrite Hit in Hl.
        assert (forall v, v ∈ rs -> exists ref, (exists i0, i0 ∈ is_ /\ ref = (n, i0)) /\ exists is_0 rs0 p, Some is_ = Some is_0 /\ Some rs = Some rs0 /\ length rs0 = length is_0 /\ is_0 !! p = Some ref.2 /\ rs0 !! p = Some v) as Hpl.
        { intros v Hv. apply elem_of_list_lookup in Hv as [p Hp]. destruct (lookup_lt_is_Some_2 is_ p) as [k Hk]; [rewrite <-El; by eapply lookup_lt_Some|].
          exists (n, k). split; [exists k; split; [by eapply elem_of_list_lookup_2|done]|]. by exists is_, rs, p. }
        destruct (gl_enum l) eqn:Em.
        * injection Hl as <-. apply elem_of_list_In, filter_In in Hi as [Hin Hno]. apply elem_of_list_In in Hin. destruct (Hpl _ Hin) as (ref & Hr1 & Hr2).
          exists ref, i, (IRef (gl_node l) i). split; [done|]. split; [|done]. apply Hone; [by apply Hnn|done].
        * destruct (forallb not_nothing rs) eqn:Efb; [|done]. injection Hl as <-. rewrite forallb_forall in Efb. destruct (Hpl _ Hi) as (ref & Hr1 & Hr2).
          exists ref, i, (IRef (gl_node l) i). split; [done|]. split; [|done]. apply Hone; [|done]. by apply Hnn, Efb, elem_of_list_In.
        * destruct (mapR _ rs) as [ls|] eqn:Els; [|done]. injection Hl as <-. apply elem_of_list_In, in_concat in Hi as (k & Hk & Hik).
          apply elem_of_list_In, elem_of_list_lookup in Hk as [p Hp]. apply elem_of_list_In in Hik.
          apply mapR_ok in Els. destruct (Forall2_lookup_r _ _ _ _ _ Els Hp) as (v & Hv & Hvk).
          destruct (Hpl v) as (ref & Hr1 & Hr2); [by eapply elem_of_list_lookup_2|].
          destruct (iter_of v) as [k'|] eqn:Ev; [|done]. injection Hvk as ->. exists ref, v, (IRefs (map (fun i => (gl_node l, i)) k)). split; [done|]. split; [by apply Hmany|by apply Hpt].
      + assert (exists ref v iv, ((exists i0, i0 ∈ is_ /\ ref = (n, i0)) /\ v = r) /\ refers l v iv /\ points iv (gl_node l, i)); [|done].
        unfold link_result_to_ids in Hl. destruct (gl_enum l) eqn:Em.
        * destruct (decide (r = VNothing)) as [->|Hr]; [injection Hl as <-; by apply elem_of_nil in Hi|].
          assert (to_ids = [r]) as -> by (by destruct r; try done; injection Hl as <-). apply elem_of_list_singleton in Hi as ->.
          exists (n, j), r, (IRef (gl_node l) r). split; [split; [exists j; split; [by left|done]|done]|]. split; [by apply Hone|done].
        * destruct (decide (r = VNothing)) as [->|Hr]; [done|].
          assert (to_ids = [r]) as -> by (by destruct r; try done; injection Hl as <-). apply elem_of_list_singleton in Hi as ->.
          exists (n, j), r, (IRef (gl_node l) r). split; [split; [exists j; split; [by left|done]|done]|]. split; [by apply Hone|done].
        * destruct (iter_of r) as [k|] eqn:Ei; [|done]. injection Hl as ->.
          exists (n, j), r, (IRefs (map (fun i => (gl_node l, i)) to_ids)). split; [split; [exists j; split; [by left|done]|done]|]. split; [by apply Hmany|by apply Hpt].
    - subst ids. assert (exists v iv, v = r /\ refers l v iv /\ points iv (gl_node l, i)) as (v & iv & Hv & Hr & Hp); [|by exists ROOT, v, iv].
      unfold link_result_to_ids in Hl. destruct (gl_enum l) eqn:Em.
      + destruct (decide (r = VNothing)) as [->|Hr]; [injection Hl as <-; by apply elem_of_nil in Hi|].
        assert (to_ids = [r]) as -> by (by destruct r; try done; injection Hl as <-). apply elem_of_list_singleton in Hi as ->.
        exists r, (IRef (gl_node l) r). split; [done|]. split; [by apply Hone|done].
      + destruct (decide (r = VNothing)) as [->|Hr]; [done|].
        assert (to_ids = [r]) as -> by (by destruct r; try done; injection Hl as <-). apply elem_of_list_singleton in Hi as ->.
        exists r, (IRef (gl_node l) r). split; [done|]. split; [by apply Hone|done].
      + destruct (iter_of r) as [k|] eqn:Ei; [|done]. injection Hl as ->.
        exists r, (IRefs (map (fun i => (gl_node l, i)) to_ids)). split; [done|]. split; [by apply Hmany|by apply Hpt].
  Qed.
End cells.

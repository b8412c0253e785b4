(** Which calls processing a node makes. *)
From Verif Require Import Base Val Query QuerySpec Graph Queue Result Engine EngineSpec SplitProof.

Section firsts.
  Context {A : Type} `{EqDecision A}.
  Lemma firsts_snoc (l : list A) x : firsts (l ++ [x]) = if decide (x ∈ firsts l) then firsts l else firsts l ++ [x].
  Proof. unfold firsts. by rewrite fold_left_app. Qed.
  Lemma elem_firsts (l : list A) x : x ∈ firsts l <-> x ∈ l.
  Proof.
    induction l as [|y l IH] using rev_ind; [done|]. rewrite firsts_snoc, elem_of_app, elem_of_list_singleton, <-IH.
    destruct (decide (y ∈ firsts l)) as [Hy|Hy]; [|by rewrite elem_snoc']. naive_solver.
  Qed.
  Lemma NoDup_firsts (l : list A) : NoDup (firsts l).
  Proof.
    induction l as [|y l IH] using rev_ind; [constructor|]. rewrite firsts_snoc.
    destruct (decide (y ∈ firsts l)) as [Hy|Hy]; [done|]. apply NoDup_app. split; [done|]. split; [|apply NoDup_singleton].
    intros x Hx ->%elem_of_list_singleton. done.
  Qed.
  Lemma firsts_map {B} `{EqDecision B} (f : A -> B) l : (forall x y, f x = f y -> x = y) -> firsts (map f l) = map f (firsts l).
  Proof.
    intros Hinj. induction l as [|y l IH] using rev_ind; [done|]. rewrite map_app. simpl. rewrite (firsts_snoc l y). unfold firsts at 1. rewrite fold_left_app. fold (firsts (map f l)). rewrite IH. cbn [fold_left].
    assert (f y ∈ map f (firsts l) <-> y ∈ firsts l) as Hiff.
    { rewrite elem_of_list_fmap. split; [intros (z & Hz & Hin); apply Hinj in Hz; by subst|eauto]. }
    destruct (decide (y ∈ firsts l)) as [Hy|Hy].
    - rewrite decide_True by tauto. done.
    - rewrite decide_False by tauto. by rewrite map_app.
  Qed.
End firsts.

Lemma group_exact {A B K} `{EqDecision K} (kf : A -> K) (vf : A -> B) (l : list A) :
  fold_left (fun d t => dappend (kf t) (vf t) d) l []
  = map (fun k => (k, map vf (List.filter (fun t => bool_decide (kf t = k)) l))) (firsts (map kf l)).
Proof.
  induction l as [|t l IH] using rev_ind; [done|]. rewrite fold_left_app, IH, map_app. cbn [map fold_left]. rewrite firsts_snoc.
  set (F := fun k => map vf (List.filter (fun t => bool_decide (kf t = k)) l)).
  assert (forall ks, NoDup ks ->
    dappend (kf t) (vf t) (map (fun k => (k, F k)) ks)
    = map (fun k => (k, if decide (kf t = k) then F k ++ [vf t] else F k)) (if decide (kf t ∈ ks) then ks else ks)
      ++ (if decide (kf t ∈ ks) then [] else [(kf t, [vf t])])) as Hda.
  { intros ks Hn. unfold dappend.
    assert (forall v, dset (kf t) v (map (fun k => (k, F k)) ks)
      = map (fun k => (k, if decide (kf t = k) then v else F k)) ks ++ (if decide (kf t ∈ ks) then [] else [(kf t, v)])) as Hds.
    { intros v. induction Hn as [|k ks Hk Hn IHk]; [done|].
      cbn [map dset fst]. destruct (decide (kf t = k)) as [Hkt|Hne].
      - subst k.
  rewrite (decide_True (P := kf t ∈ kf t :: ks)) by left. rewrite app_nil_r. cbn [map]. f_equal.
        apply map_ext_in. intros k Hin. apply elem_of_list_In in Hin. rewrite decide_False; [done|]. intros Hkk. subst k. done.
      - rewrite IHk. cbn [map app]. f_equal. f_equal.
        destruct (decide (kf t ∈ ks)), (decide (kf t ∈ k :: ks)) as [Hx|Hx]; try done.
        + exfalso. apply Hx. by right.
        + apply elem_of_cons in Hx as [Hx|]; [congruence|done]. }
    assert (dget (kf t) (map (fun k => (k, F k)) ks) = if decide (kf t ∈ ks) then Some (F (kf t)) else None) as Hdg.
    { clear Hds Hn. induction ks as [|k ks IHk]; [done|]. cbn [map dget fst snd]. destruct (decide (kf t = k)) as [<-|Hne].
      - by rewrite decide_True by left.
      - rewrite IHk. destruct (decide (kf t ∈ ks)), (decide (kf t ∈ k :: ks)) as [Hx|Hx]; try done.
        + exfalso. apply Hx. by right.
        + apply elem_of_cons in Hx as [Hx|]; [congruence|done]. }
    rewrite Hdg, Hds. destruct (decide (kf t ∈ ks)) as [Hin|Hni].
    - rewrite !app_nil_r. apply map_ext. intros k. destruct (decide (kf t = k)) as [<-|]; done.
    - f_equal. apply map_ext_in. intros k Hk. apply elem_of_list_In in Hk. destruct (decide (kf t = k)) as [<-|]; done. }
  rewrite (Hda (firsts (map kf l)) (NoDup_firsts _)).
  assert (forall k, map vf (List.filter (fun t0 => bool_decide (kf t0 = k)) (l ++ [t])) = if decide (kf t = k) then F k ++ [vf t] else F k) as Hv.
  { intros k. rewrite List.filter_app, map_app. cbn [List.filter]. unfold F. destruct (decide (kf t = k)) as [Hk|Hk].
    - by rewrite bool_decide_eq_true_2.
    - rewrite bool_decide_eq_false_2 by done. simpl. by rewrite app_nil_r. }
  destruct (decide (kf t ∈ firsts (map kf l))) as [Hin|Hni].
  - rewrite app_nil_r. apply map_ext. intros k. f_equal. symmetry. apply Hv.
  - rewrite map_app. cbn [map]. f_equal.
    + apply map_ext. intros k. f_equal. symmetry. apply Hv.
    + rewrite Hv, decide_True by done. unfold F.
      assert (List.filter (fun t0 => bool_decide (kf t0 = kf t)) l = []) as ->; [|done].
      apply elem_of_nil_inv. intros y Hy. apply elem_of_list_In, filter_In in Hy as [Hy Hb]. apply bool_decide_eq_true in Hb.
      apply Hni. apply elem_firsts. apply elem_of_list_fmap. exists y. split; [done|]. by apply elem_of_list_In.
Qed.

Lemma split_exact gn qs fields links :
  (forall l q, (l, q) ∈ asked_links gn qs -> gl_requires l <> Some []) ->
  split_query gn qs = Ok (fields, links) ->
  map snd fields = loaded_fields gn qs /\ links = asked_links gn qs /\
  Forall (fun t => t.1.1 = fkey_of t.1.2 /\ find_field gn (q_name t.2) = Some t.1.2) fields.
Proof.
  unfold split_query. revert fields links. induction qs as [|q qs IH] using rev_ind; intros fields links Hne; simpl.
  - intros [= <- <-]. done.
  - rewrite foldR_app. destruct (foldR _ _ qs) as [[f0 l0]|] eqn:Ef; [|done].
    assert (asked_links gn (qs ++ [q]) = asked_links gn qs ++ asked_links gn [q]) as Hal by (unfold asked_links; by rewrite omap_app).
    assert (loaded_fields gn (qs ++ [q]) = loaded_fields gn qs ++ loaded_fields gn [q]) as Hlf by (unfold loaded_fields; by rewrite flat_map_app).
    destruct (IH f0 l0) as (H1 & H2 & H3); [|done|].
    { intros l q' Hin. apply (Hne l q'). rewrite Hal. apply elem_of_app. by left. }
    rewrite Hal in Hne. rewrite Hal, Hlf, <-H1, <-H2. cbn [foldR].
    assert (forall q fs, split_field gn (f0, l0) q = Ok fs ->
      exists go, find_field gn (q_name q) = Some go /\ fs = (f0 ++ [(fkey_of go, go, q)], l0)) as Hsf.
    { intros q1 fs. unfold split_field. destruct (find_field gn (q_name q1)) as [go|]; [|done]. intros [= <-]. eauto. }
    destruct (split_item gn (f0, l0) q) as [[f1 l1]|] eqn:Ei; [|done]. intros [= <- <-].
    unfold split_item in Ei. unfold loaded_fields, asked_links. cbn [flat_map omap list_omap]. destruct q as [n o a|n sub ord o a].
    + apply Hsf in Ei as (go & Hgo & [= -> ->]). rewrite map_app, ?app_nil_r. split; [done|]. split; [done|].
      apply Forall_app. split; [done|]. repeat constructor. done.
    + destruct (find_field gn (q_name (QL n sub ord o a))) as [[f|l]|] eqn:En; [| |done].
      * apply Hsf in Ei as (go & Hgo & [= -> ->]). rewrite map_app, ?app_nil_r. split; [done|]. split; [done|].
        apply Forall_app. split; [done|]. repeat constructor. done.
      * assert (gl_requires l <> Some []) as Hl.
        { apply (Hne l (QL n sub ord o a)). apply elem_of_app. right. unfold asked_links. simpl omap. simpl in En. rewrite En. left. }
        unfold req_true in Ei. destruct (gl_requires l) as [[|c r]|] eqn:Er; [done| |].
        -- destruct (split_field gn (f0, l0) (QF (c :: r) None None)) as [acc|] eqn:Es; [|done].
           apply Hsf in Es as (go & Hgo & ->). injection Ei as <- <-. cbn [fst snd]. rewrite map_app. split; [done|]. split; [done|].
           apply Forall_app. split; [done|]. repeat constructor. done.
        -- injection Ei as <- <-. cbn [fst snd app]. rewrite app_nil_r. done.
Qed.

Section batch.
  Context `{Hasher} (E : env).

  Lemma submit_log w f a x fut x' : submit E w f a x = Ok (fut, x') -> w_log x'.1 = w_log x.1 ++ [Call f (e_ctx E f) a].
  Proof.
    unfold submit. destruct (get_wf w x) as [v|]; [|done]. cbn [fst snd].
    destruct (q_submit (wf_ts v) x.2) as [[f' q']|]; destruct (e_eager E); try destruct (e_oracle E _ _); try done; by intros [= <- <-].
  Qed.

  Theorem node_calls pn w gn qs ids x y :
    process_node_body E pn w gn (QN qs false) ids x = Ok y ->
    (forall q, q ∈ loaded_fields gn qs -> is_Some (loader_of gn q)) ->
    (forall l q, (l, q) ∈ asked_links gn qs -> gl_requires l <> Some []) ->
    w_log y.1 = w_log x.1
      ++ map (fun f => Call f (e_ctx E f) (AFields (List.filter (fun q => bool_decide (loader_of gn q = Some f)) (loaded_fields gn qs)) ids))
             (firsts (omap (loader_of gn) (loaded_fields gn qs)))
      ++ map (fun p => Call (gl_func p.1) (e_ctx E (gl_func p.1)) (ALink None (match gl_opts p.1 with [] => None | _ => Some (q_opts p.2) end)))
             (List.filter (fun p => match gl_requires p.1 with None => true | Some _ => false end) (asked_links gn qs)).
  Proof.
    intros Hy Hpl Hne. unfold process_node_body in Hy. cbn [qordered qfields] in Hy.
    destruct (split_query gn qs) as [[fields links]|] eqn:Es; [|done].
    destruct (split_exact _ _ _ _ Hne Es) as (H1 & H2 & H3).
    rewrite group_exact in Hy.
    destruct (schedule_groups E pn w gn ids _ x) as [[to_dep x1]|] eqn:Eg; [|done].
    assert (w_log x1.1 = w_log x.1 ++ map (fun f => Call f (e_ctx E f) (AFields (List.filter (fun q => bool_decide (loader_of gn q = Some f)) (loaded_fields gn qs)) ids))
             (firsts (omap (loader_of gn) (loaded_fields gn qs)))) as Hl1.
    { assert (Forall (fun t => exists n, t.1.1 = KPlain n /\ loader_of gn t.2 = Some n) fields) as Hk.
      { apply Forall_forall. intros [[fk go] q] Hin. rewrite Forall_forall in H3. destruct (H3 _ Hin) as [H31 H32]. simpl in H31, H32.
        destruct (Hpl q) as [n Hn]; [rewrite <-H1; apply elem_of_list_fmap; by exists (fk, go, q)|].
        exists n. split; [|done]. simpl. rewrite H31. unfold loader_of in Hn. rewrite H32 in Hn. destruct go as [f|l]; [|done]. simpl.
        destruct (gf_func f); [|done]. by injection Hn as ->. }
      assert (map (fun t => t.1.1) fields = map KPlain (omap (loader_of gn) (loaded_fields gn qs))) as Hm.
      { rewrite <-H1. clear -Hk. induction Hk as [|t l (n & Ht & Hn) _ IH]; [done|]. simpl. rewrite Ht, Hn. simpl. by rewrite IH. }
      assert (forall f, map snd (map (fun t => (t.1.2, t.2)) (List.filter (fun t => bool_decide (t.1.1 = KPlain f)) fields))
                = List.filter (fun q => bool_decide (loader_of gn q = Some f)) (loaded_fields gn qs)) as Hfil.
      { intros f. rewrite <-H1. clear -Hk. induction Hk as [|t l (n & Ht & Hn) _ IH]; [done|]. cbn [List.filter map].
        rewrite Ht, Hn. destruct (decide (n = f)) as [->|Hne].
        - rewrite !bool_decide_eq_true_2 by done. cbn [map]. by rewrite IH.
        - rewrite !bool_decide_eq_false_2 by congruence. done. }
      rewrite Hm in Eg. rewrite firsts_map in Eg by (by intros ?? [= ->]).
      unfold schedule_groups in Eg. revert Eg. generalize (@nil (fkey * ckey)). 
      generalize (firsts (omap (loader_of gn) (loaded_fields gn qs))). intros fs d0. clear -Hfil. revert x d0.
      induction fs as [|f fs IH]; intros x d0; cbn [map foldR].
      - intros [= _ <-]. by rewrite app_nil_r.
      - cbn [fst snd]. unfold schedule_fields at 1.
        destruct (submit E w f _ x) as [[fut x2]|] eqn:Esub; [|done]. intros Hg. apply IH in Hg. rewrite Hg.
        apply submit_log in Esub. simpl. rewrite Esub, <-app_assoc. simpl. by rewrite <-Hfil. }
    rewrite app_assoc, <-Hl1. clear Hl1 Eg H1 H3 Es Hpl. subst links. revert Hne x1 Hy. unfold schedule_links.
    induction (asked_links gn qs) as [|[l q] ls IH]; intros Hne x1; cbn [foldR List.filter fst snd].
    - intros [= <-]. by rewrite app_nil_r.
    - assert (gl_requires l <> Some []) as Hl by (apply (Hne l q); left).
      assert (forall l0 q0, (l0, q0) ∈ ls -> gl_requires l0 <> Some []) as Hne' by (intros; eapply Hne; by right).
      destruct (req_true l) as [r|] eqn:Er.
      + assert (exists r, gl_requires l = Some r) as [r' ->] by (unfold req_true in Er; destruct (gl_requires l) as [[|]|]; [done|eauto|done]).
        destruct (dget r _) as [f|]; [|done]. destruct (dget f _) as [dep|]; [|done]. intros Hy. apply IH in Hy; [|done]. exact Hy.
      + assert (gl_requires l = None) as -> by (unfold req_true in Er; by destruct (gl_requires l) as [[|]|]).
        unfold schedule_link. destruct (get_wf w x1) as [v|] eqn:Ev; [|done]. rewrite Er.
        destruct (submit E w _ _ x1) as [[fut x2]|] eqn:Esub; [|done]. intros Hy. apply IH in Hy; [|done]. rewrite Hy.
        apply submit_log in Esub. simpl. rewrite Esub, <-app_assoc. done.
  Qed.
End batch.

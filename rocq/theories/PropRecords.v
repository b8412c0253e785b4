(** The result of a query exists, parts of record fields included (C04, C17, C21). *)
From stdpp Require Import relations.
From Verif Require Import Base Val ValProof Types Query QuerySpec QueryProof Graph Queue QueueSpec QueueProof Result Engine EngineSpec CostSpec SubSpec SubJob
  PropOptions Validate ValidateSpec PropValidate PropValExec PropTrace PropBound EngineSubRun PropSub PropSubWf PropSubVal RecordSpec KnownSpec PropKnown SubWfSpec.

Lemma of_record fs v n t : of_type (TRec fs) v -> dget n fs = Some t -> exists x, py_getitem v n = Ok x /\ of_type t x.
Proof.
  cbn [of_type]. intros Hv Hn%dget_Some_elem. induction fs as [|p fs IH]; [by apply not_elem_of_nil in Hn|].
  cbn [foldr] in Hv. destruct Hv as [Hp Hv]. apply elem_of_cons in Hn as [<-|Hn]; [|by apply IH].
  destruct Hp as (x & d & Hd & Hx & Ht). exists x. split; [|exact Ht]. cbn [fst] in Hx. destruct Hd as [-> | ->]; cbn [py_getitem]; by rewrite Hx.
Qed.
Lemma mapR_total {A B} (f : A -> res B) l : (forall x, x ∈ l -> exists y, f x = Ok y) -> exists ys, mapR f l = Ok ys.
Proof.
  induction l as [|x l IH]; intros Hf; [by exists []|]. cbn [mapR]. destruct (Hf x ltac:(left)) as [y ->].
  destruct IH as [ys ->]; [intros z Hz; apply Hf; by right|]. eauto.
Qed.
(** Parts of a value of the type are found *)
Lemma parts_found q : forall t fs v, known_part [(q_name q, t)] q -> records_of t = Some fs \/ q_is_link q = false -> of_type t v -> exists y, denorm_type q t v = Ok y.
Proof.
  induction q as [n o a|n sub ord o a IH] using qitem_ind'; intros t fs v Hk Hr Hv; [by eexists|].
  destruct Hr as [Hr|]; [|done]. cbn [known_part q_name] in Hk. destruct Hk as (t' & fs' & Ht & Hr' & Hs).
  cbn [dget] in Ht. rewrite decide_True in Ht by done. injection Ht as <-. rewrite Hr in Hr'. injection Hr' as <-.
  rewrite foldr_conj in Hs. rewrite Forall_forall in IH.
  assert (Hrec : forall w, of_type (TRec fs) w -> exists y, denorm_type (QL n sub ord o a) (TRec fs) w = Ok y).
  { intros w Hw. cbn [denorm_type].
    match goal with |- context [mapR ?f sub] => destruct (mapR_total f sub) as [ps ->]; [|by eexists] end.
    intros q1 Hq1. specialize (Hs q1 Hq1). 
    assert (Ht1 : exists t1, dget (q_name q1) fs = Some t1 /\ (q_is_link q1 = false \/ exists fs1, records_of t1 = Some fs1)).
    { destruct q1; cbn in *; [destruct Hs as [t1 ->]; eauto|]. destruct Hs as (t1 & fs1 & -> & Hr1 & _). eauto. }
    destruct Ht1 as (t1 & Et1 & Hl1). rewrite Et1. destruct (of_record fs w _ t1 Hw Et1) as (x & -> & Hx).
    destruct Hl1 as [Hl1|[fs1 Hr1]].
    - destruct q1; [|done]. by eexists.
    - destruct (IH q1 Hq1 t1 fs1 x) as [y ->]; [|by left|done|by eexists].
      destruct q1; cbn [known_part q_name dget] in *; rewrite decide_True by done; [by eexists|].
      destruct Hs as (t2 & fs2 & E2 & R2 & S2). rewrite Et1 in E2. injection E2 as <-. eauto. }
  destruct t as [| | | | |nn|u|u|k w|gs|args]; try done; [destruct u; try done|destruct u; try done|]; injection Hr as ->.
  - destruct Hv as [->|Hv]; [by eexists|]. destruct v; try (by eexists); exact (Hrec _ Hv).
  - destruct Hv as (l & El & Hl). cbn [denorm_type]. rewrite El.
    match goal with |- context [mapR ?f l] => destruct (mapR_total f l) as [ps ->]; [|by eexists] end.
    intros x Hx. rewrite Forall_forall in Hl. exact (Hrec x (Hl x Hx)).
  - exact (Hrec v Hv).
Qed.

Lemma visited_node g q gn n : visited g q gn n -> node_of g gn.
Proof. destruct 1; [by left|right; eauto]. Qed.
Section exists_.
  Context `{Hasher} (g : graph) (fv : gfield -> option val -> str -> opts -> val) (D : data) (q : qnode).
  Hypothesis Hitems : known_items g q.
  Hypothesis Hparts : known_parts g q.
  (** The objects to which the query leads *)
  Context (ob : gnode -> option val -> Prop).
  Hypothesis Hroot : ob (g_root g) None.
  Hypothesis Hlead : forall gn n i q0 l gn' j, visited g q gn n -> ob gn i -> q0 ∈ qfields n -> find_field gn (q_name q0) = Some (GL l) ->
    find_node g (gl_node l) = Some gn' -> j ∈ targets l (link_value fv D gn i l q0) -> ob gn' (Some j).
  Hypothesis Htyped : typed_values g ob fv q.
  Lemma item_exists q0 : forall gn n i, visited g q gn n -> ob gn i -> q0 ∈ qfields n -> exists t, resolve g fv D gn i q0 = Ok (result_key q0, t).
  Proof.
    induction q0 as [nm o a|nm sub ord o a IH] using qitem_ind'; intros gn n i Hv Hob Hq.
    - pose proof (Hitems _ _ _ Hv Hq) as Hi. cbn [resolve q_name q_is_link] in *. destruct (find_field gn nm) as [[f|l]|]; [by eexists|by destruct Hi|done].
    - pose proof (Hitems _ _ _ Hv Hq) as Hi. set (q0 := QL nm sub ord o a) in *. cbn [resolve].
      destruct (find_field gn (q_name q0)) as [[f|l]|] eqn:Ef; [| |done].
      + destruct (Hparts _ _ _ _ Hv Hq eq_refl Ef) as (t & fs & Et & Hr & Hk). unfold q0 at 1. cbn [resolve]. change (q_name (QL nm sub ord o a)) with (q_name q0). rewrite Ef, Et. fold q0. change (q_opts (QL nm sub ord o a)) with (q_opts q0).
        destruct (parts_found q0 t fs (fv f i (q_name q0) (q_opts q0))) as [y ->]; [|by left|by eapply Htyped|by eexists].
        cbn [known_part q0 q_name dget]. rewrite decide_True by done. exists t, fs. split; [done|]. split; [done|]. by apply foldr_conj.
      + destruct Hi as [_ [gn' Hn]]. unfold q0 at 1. cbn [resolve]. change (q_name (QL nm sub ord o a)) with (q_name q0). rewrite Ef, Hn. fold q0.
        assert (forall j, j ∈ targets l (link_value fv D gn i l q0) -> exists ps, mapR (resolve g fv D gn' (Some j)) sub = Ok ps) as Hobj.
        { intros j Hj. apply mapR_total. intros q1 Hq1. rewrite Forall_forall in IH.
          assert (visited g q gn' (QN sub ord)) as Hv' by by apply (vis_link g q gn n q0 l gn').
          destruct (IH q1 Hq1 gn' (QN sub ord) (Some j) Hv') as [t ->]; [by eapply (Hlead gn n i q0 l)|done|by eexists]. }
        set (v := link_value fv D gn i l q0) in *. cbv zeta. unfold targets in Hobj.
        destruct (gl_enum l).
        * destruct v eqn:Ev; rewrite <- ?Ev in *; try (destruct (Hobj v ltac:(rewrite Ev; left)) as (ps & ->); eauto); eauto.
        * destruct (Hobj v ltac:(left)) as (ps & ->). eauto.
        * match goal with |- context [mapR ?f (seq_items v)] => destruct (mapR_total f (seq_items v)) as [ys ->]; [|by eexists] end.
          intros j Hj. destruct (Hobj j Hj) as [ps ->]. by eexists.
  Qed.
  (** C04: the result exists: of every query of existing members, whose parts of fields are spelled out in their types and
      found in the values *)
  Theorem C04_result_exists : exists t, resolve_query g fv D q = Ok t.
  Proof.
    unfold resolve_query. destruct (mapR_total (resolve g fv D (g_root g) None) (qfields q)) as [ps ->]; [|by eexists].
    intros q0 Hq0. destruct (item_exists q0 (g_root g) q None (vis_root g q) Hroot Hq0) as [t ->]. by eexists.
  Qed.
End exists_.

(** ** Validated queries *)
Section validated.
  Context `{Hasher} (g : graph) (q q' : qnode).
  Hypothesis Hdist : distinct_options g.
  Hypothesis Hfits : fits_query g q.
  Hypothesis Hinit : init_options g q = Ok q'.
  Lemma holds_records dt t fs fs' : holds dt t (Some fs) -> records_of t = Some fs' -> fs = fs'.
  Proof.
    intros Hh Er. destruct t as [| | | | |nn|u|u|k w|gs|args]; try done; [destruct u; try done|destruct u; try done|]; injection Er as ->; inversion Hh; subst; try done.
    - match goal with h : record_ty _ _ _ |- _ => by inversion h end.
    - match goal with h : record_ty _ _ _ |- _ => by inversion h end.
  Qed.
  Lemma known_fits dt fs fs0 q0 : fits_part dt fs0 q0 -> fs0 = fs -> spelled_part fs q0 -> known_part fs q0.
  Proof.
    revert fs fs0. induction q0 as [n o a|n sub ord o a IH] using qitem_ind'; intros fs fs0 Hf -> Hs; cbn [fits_part spelled_part known_part] in *.
    - destruct Hf as (_ & t & r & -> & _). by eexists.
    - destruct Hf as (t & fs' & Et & Hh & Hf). rewrite Et in Hs. destruct (records_of t) as [fs1|] eqn:Er; [|done].
      exists t, fs1. split; [done|]. split; [done|]. rewrite foldr_conj in Hf, Hs |- *. rewrite Forall_forall in IH. intros q1 Hq1.
      apply (IH q1 Hq1 fs1 fs'); [by apply Hf|by eapply holds_records|by apply Hs].
  Qed.
  Lemma spelled_known : spelled_out g q -> known_parts g q.
  Proof.
    intros Hs gn n q0 f Hv Hq Hl Hf. destruct (Hs gn n q0 f Hv Hq Hl Hf) as (t & fs & Et & Er & Hp). exists t, fs. split; [done|]. split; [done|].
    pose proof (fits_visited g q Hfits gn n Hv q0 Hq) as Hfit. destruct q0 as [|nm sub ord o a]; [done|]. cbn [fits q_name] in Hfit, Hf. rewrite Hf in Hfit.
    destruct Hfit as (_ & t0 & fs0 & Et0 & Hh & Hsub). unfold gf_ty in Et. rewrite Et0 in Et.
    assert (fs0 = fs) as ->.
    { destruct t0; cbn in Et; try (injection Et as <-; by eapply holds_records). inversion Hh as [|? u ? Hn Hu| | |]; subst.
      rewrite Hn in Et. injection Et as <-. by eapply holds_records. }
    cbn [qfields q_node] in *. rewrite foldr_conj in Hsub. intros q1 Hq1. by apply (known_fits (g_dtypes g) fs fs); [apply Hsub| |apply Hp].
  Qed.
  Lemma normalized_parts : known_parts g q -> known_parts g q'.
  Proof.
    intros Hk gn n' q1 f Hv Hq Hl Hf. destruct (visited_normalized g Hdist q q' Hinit gn n' Hv) as [_ (n & Hvn & Hnm)].
    apply elem_of_list_lookup in Hq as [k Hk']. destruct (Forall2_lookup_r _ _ _ _ _ Hnm Hk') as (q0 & Hq0 & Hno). apply elem_of_list_lookup_2 in Hq0.
    inversion Hno as [? nm o a o' go H1 H2 H3|? nm sub ord o a o' f0 H1 H2 H3|? nm sub sub' ord o a o' l0 gn0 H1 H2 H3 H4 H5]; subst; try done; cbn [q_name] in Hf; [|congruence].
    exact (Hk gn n _ f Hvn Hq0 eq_refl Hf).
  Qed.
  Lemma normalized_items : known_items g q'.
  Proof.
    intros gn n' q1 Hv Hq. destruct (visited_normalized g Hdist q q' Hinit gn n' Hv) as [_ (n & Hvn & Hnm)].
    apply elem_of_list_lookup in Hq as [k Hk']. destruct (Forall2_lookup_r _ _ _ _ _ Hnm Hk') as (q0 & Hq0 & Hno). apply elem_of_list_lookup_2 in Hq0.
    pose proof (fits_visited g q Hfits gn n Hvn q0 Hq0) as Hfit.
    inversion Hno as [? nm o a o' go H1 H2 H3|? nm sub ord o a o' f0 H1 H2 H3|? nm sub sub' ord o a o' l0 gn0 H1 H2 H3 H4 H5]; subst; cbn [q_name q_is_link] in *; rewrite H1.
    - destruct Hfit as (f & Hf & _). rewrite Hf in H1. by injection H1 as <-.
    - done.
    - split; [done|by eexists].
  Qed.
End validated.

(** C21: validation, types which spell out the records taken apart, and values of their types: every execution gives the
    same result, and it is there *)
Theorem C21_validated_query_has_result `{Hasher} (E : env) (D : data) (parts : gfield -> bool) (known : gnode -> val -> Prop) (g : graph) (q : qnode) k :
  wf_env E parts -> wf_graph E parts g -> distinct_options g ->
  validate k g q = Ok [] -> (forall q0, q0 ∈ qfields q -> options_proper q0) -> unchecked_query g q -> spelled_out g q ->
  serves_known E D known g -> respects_options D -> reads_by_name E -> no_fuel_exn E ->
  exists q', init_options g q = Ok q' /\
    ((forall gn, no_collision (asked g q' gn)) -> typed_values g (known_obj known g) (sub_value E D) q' ->
     exists t, resolve_query g (sub_value E D) D q' = Ok t /\
     forall fuel sched r, max_work E g q' < fuel -> execute E fuel g q sched r ->
       exists idx, r = Ok (idx, q') /\ denormalize g idx q' = Ok t).
Proof.
  intros Hwe Hwg Hd Hv Hp Hu Hsp Hs Hr Hrd Hnf. pose proof (C21_accepted_query_fits g k q Hp Hv) as Hf.
  destruct (C21_known_data E D parts known g q k) as (q' & Hi & Hall); try done. exists q'. split; [done|]. intros Hc Ht.
  destruct (C04_result_exists g (sub_value E D) D q') with (ob := known_obj known g) as [t Et].
  - by eapply normalized_items.
  - eapply normalized_parts; [exact Hd|exact Hi|]. by apply spelled_known.
  - done.
  - intros gn n i q0 l gn' j Hvis Hob _ Hfl Hn Hj. apply (kn_links _ _ _ _ (sk_top _ _ _ _ Hs) gn i q0 l gn'); try done. by apply (visited_node g q' gn n).
  - exact Ht.
  - exists t. split; [done|]. intros fuel sched r Hw He. destruct (Hall Hc fuel sched r Hw He) as (idx & -> & Hden). exists idx. by rewrite Hden.
Qed.

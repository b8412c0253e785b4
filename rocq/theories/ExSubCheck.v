(** Checking the hypotheses of the theorems about sub-graphs ([SubSpec.all_supported], [SubSpec.all_data]) for
    concrete queries; the instance [ExSub] meets them. *)
From Verif Require Import Base Val Types Query QuerySpec QueryProof Graph Queue Result Engine EngineSpec Examples ExEngine CostSpec SubSpec ExSub.

Section check.
  Context `{Hasher} (E : env).
  (** ** Places visited by a job *)
  Definition jvisits (J : job) : list (gnode * qnode) :=
    visits (j_graph J) (j_root J) ++
    match j_this J with Some (gn, n) => (gn, n) :: flat_map (visits_item (j_graph J) gn) (qfields n) | None => [] end.
  Lemma from_closed g (gn0 : gnode) (n0 : qnode) gn n q l gn' :
    (gn, n) ∈ (gn0, n0) :: flat_map (visits_item g gn0) (qfields n0) -> q ∈ qfields n -> q_is_link q = true ->
    find_field gn (q_name q) = Some (GL l) -> find_node g (gl_node l) = Some gn' ->
    (gn', q_node q) ∈ (gn0, n0) :: flat_map (visits_item g gn0) (qfields n0).
  Proof.
    intros Hin Hq Hk Hf Hn. right. apply elem_of_cons in Hin as [[= -> ->]|Hin].
    - apply elem_of_list_In, in_flat_map. exists q. split; [by apply elem_of_list_In|]. apply elem_of_list_In.
      destruct q as [|n1 s1 o1 p1 a1]; [done|]. simpl in *. rewrite Hf, Hn. left.
    - apply elem_of_list_In, in_flat_map in Hin as (q2 & Hq2 & Hin). apply elem_of_list_In, in_flat_map.
      exists q2. split; [done|]. apply elem_of_list_In in Hin. apply elem_of_list_In. by apply (visits_item_closed g q2 _ gn n q l gn').
  Qed.
  Lemma jvisited_jvisits J gn n : jvisited J gn n -> (gn, n) ∈ jvisits J.
  Proof.
    unfold jvisits, visits. induction 1 as [|gn n Ht|gn n q l gn' Hv IH Hq Hk Hf Hn].
    - left.
    - rewrite Ht. apply elem_of_app. right. left.
    - apply elem_of_app in IH as [IH|IH]; apply elem_of_app; [left|right].
      + by apply (from_closed _ _ _ gn n q l gn').
      + destruct (j_this J) as [[gn0 n0]|]; [|by apply not_elem_of_nil in IH]. by apply (from_closed _ _ _ gn n q l gn').
  Qed.
  Lemma jasked_jvisits J gn q : jasked J gn q -> exists n, (gn, n) ∈ jvisits J /\ q ∈ asked_list gn n.
  Proof.
    intros (n & Hv & Hq). exists n. split; [by apply jvisited_jvisits|]. unfold asked_list. apply elem_of_app.
    destruct Hq as [Hq|(q' & l & r & Hq & _ & Hf & Hr & ->)]; [by left|right].
    apply elem_of_list_omap. exists q'. by rewrite Hf, Hr.
  Qed.

  (** ** Groups of fields (some more than [grouped] allows) *)
  Definition over_b (gn : gnode) (sg : nat) (q : qitem) : bool :=
    match find_field gn (q_name q) with
    | Some (GF f) => match gf_func f with FChecked sg' _ _ => bool_decide (sg' = sg) | _ => false end
    | _ => false
    end.
  Lemma over_b_ok gn sg q : over gn sg q <-> over_b gn sg q = true.
  Proof.
    unfold over, over_b. split.
    - intros (f & rq & pr & -> & ->). by apply bool_decide_eq_true_2.
    - destruct (find_field gn (q_name q)) as [[f|]|]; [|done|done]. destruct (gf_func f) as [|sg' rq pr] eqn:Ef; [done|].
      intros <-%bool_decide_eq_true_1. eauto.
  Qed.
  Definition sg_of (gn : gnode) (q : qitem) : option nat :=
    match find_field gn (q_name q) with
    | Some (GF f) => match gf_func f with FChecked sg' _ _ => Some sg' | _ => None end
    | _ => None
    end.
  Lemma over_sg_of gn sg q : over gn sg q -> sg_of gn q = Some sg.
  Proof. unfold over, sg_of. by intros (f & rq & pr & -> & ->). Qed.
  Fixpoint subs {A} (l : list A) : list (list A) :=
    match l with [] => [[]] | a :: l => map (cons a) (subs l) ++ subs l end.
  Lemma subs_ok {A} (k l : list A) : sublist k l -> k ∈ subs l.
  Proof.
    induction 1 as [|a k l _ IH|a k l _ IH]; cbn [subs].
    - left.
    - apply elem_of_app. left. apply elem_of_list_fmap. eauto.
    - apply elem_of_app. by right.
  Qed.
  Definition groups (gn : gnode) (n : qnode) : list (nat * list qitem) :=
    let t := in_turn gn (qfields n) in
    flat_map (fun sg =>
      map (pair sg) (List.filter (fun qs => match qs with [] => false | _ => true end && forallb (over_b gn sg) qs &&
                    (qordered n || forallb (fun q => negb (over_b gn sg q) || bool_decide (q_name q ∈ map q_name qs)) t)) (subs t)))
      (remove_dups (omap (sg_of gn) t)).
  Lemma sublist_elem {A} (k l : list A) x : sublist k l -> x ∈ k -> x ∈ l.
  Proof. intros Hs Hx. by eapply elem_of_submseteq; [|apply sublist_submseteq]. Qed.
  Lemma grouped_groups gn n sg qs : grouped gn n sg qs -> (sg, qs) ∈ groups gn n.
  Proof.
    intros (Hne & Hsub & Hov & Hall). unfold groups. apply elem_of_list_In, in_flat_map. exists sg. split.
    - apply elem_of_list_In, elem_of_remove_dups, elem_of_list_omap. destruct qs as [|q qs]; [done|]. exists q.
      split; [by eapply sublist_elem; [|left]|]. apply over_sg_of, Hov. left.
    - apply in_map, filter_In. split; [by apply elem_of_list_In, subs_ok|]. rewrite !andb_true_iff. repeat split.
      + by destruct qs.
      + apply forallb_forall. intros q Hq%elem_of_list_In. by apply over_b_ok, Hov.
      + destruct (qordered n) eqn:Eo; [done|]. cbn. apply forallb_forall. intros q Hq%elem_of_list_In.
        destruct (over_b gn sg q) eqn:Eb; [|done]. cbn. apply bool_decide_eq_true_2. apply elem_of_list_fmap. exists q. split; [done|]. apply Hall; [done|done|by apply over_b_ok].
  Qed.

  (** ** Requirements *)
  Fixpoint bare_b (q : qitem) : bool :=
    match q with
    | QF _ None None => true
    | QL _ sub false None None => forallb bare_b sub
    | _ => false
    end.
  Lemma bare_b_ok q : bare_b q = true -> bare q.
  Proof.
    induction q as [nm o a|nm sub ord o a IH] using qitem_ind'; cbn.
    - by destruct o, a.
    - destruct ord, o, a; try done. intros Hb. repeat split. induction sub as [|q sub IHs]; [done|]. cbn in *.
      apply andb_true_iff in Hb as [H1 H2]. apply Forall_cons in IH as [IHq IH]. split; [by apply IHq|by apply IHs].
  Qed.
  Definition reqs_ok_b (rq : qnode) : bool :=
    negb (qordered rq) && forallb (fun q => bare_b q && (negb (bool_decide (q_name q = THIS)) || q_is_link q)) (qfields rq).
  Lemma reqs_ok_check rq : reqs_ok_b rq = true -> reqs_ok rq.
  Proof.
    unfold reqs_ok_b, reqs_ok. intros [H1 H2]%andb_true_iff. split; [by destruct (qordered rq)|]. intros q Hq%elem_of_list_In.
    rewrite forallb_forall in H2. specialize (H2 _ Hq). apply andb_true_iff in H2 as [H2 H3]. split; [by apply bare_b_ok|].
    intros He. by rewrite (bool_decide_eq_true_2 _ He) in H3.
  Qed.

  Definition field_ok_b (J : job) (gn : gnode) (f : gfield) (q : qitem) : bool :=
    match gf_func f with
    | FPlain _ => true
    | FChecked sg rq pr =>
        match gn_name gn with Some _ => true | None => false end && (0 <? j_level J) && reqs_ok_b rq &&
        forallb (fun op => match dget (go_name op) (opt_dict (q_opts q)) with Some _ => true | None => false end) (gf_opts f)
    end.
  Lemma field_ok_check J gn f q : field_ok_b J gn f q = true -> field_ok J gn f q.
  Proof.
    unfold field_ok_b, field_ok. destruct (gf_func f) as [|sg rq pr]; [done|]. rewrite !andb_true_iff.
    intros (((H1 & H2) & H3) & H4). split; [|split; [|split]].
    - destruct (gn_name gn); [by eexists|done].
    - by apply Nat.ltb_lt.
    - by apply reqs_ok_check.
    - intros op Hop%elem_of_list_In. rewrite forallb_forall in H4. specialize (H4 _ Hop).
      destruct (dget (go_name op) (opt_dict (q_opts q))); [by eexists|done].
  Qed.

  (** ** A job is supported *)
  Definition jitem_b (J : job) (gn : gnode) (n : qnode) (q : qitem) : bool :=
    match find_field gn (q_name q) with
    | Some (GF f) => field_ok_b J gn f q && (negb (q_is_link q) || negb (qordered n))
    | Some (GL l) =>
        q_is_link q && match find_node (j_graph J) (gl_node l) with Some _ => true | None => false end &&
        match gl_requires l with
        | Some r => match r with [] => false | _ => true end &&
                    match find_field gn r with Some (GF f) => field_ok_b J gn f (QF r None None) | _ => false end
        | None => true
        end
    | None => false
    end.
  Definition this_b (J : job) : bool :=
    match j_this J with
    | None => true
    | Some _ => forallb (fun p => negb (bool_decide (gn_name p.1 = gn_name (g_root (j_graph J)))) ||
                                  forallb (fun q => negb (bool_decide (q_name q = THIS))) (asked_list p.1 p.2)) (jvisits J)
    end.
  Definition jsupported_b (J : job) : bool :=
    let vs := jvisits J in
    forallb (fun p => forallb (jitem_b J p.1 p.2) (qfields p.2)) vs &&
    forallb (fun p => bool_decide (NoDup (map result_key (qfields p.2)))) vs &&
    bool_decide (NoDup (map result_key (qfields (j_query J)))) &&
    forallb (fun p => forallb (fun q => bool_decide (91%N ∉ q_name q)) (asked_list p.1 p.2)) vs &&
    no_collision_b (flat_map (fun p => asked_list p.1 p.2) vs) &&
    match find_node (j_graph J) (s "__root__") with None => true | Some _ => false end &&
    this_b J &&
    forallb (fun p => forallb (fun x => match sub_job E J p.1 x.1 x.2 with Some _ => true | None => false end) (groups p.1 p.2)) vs.
  Lemma jsupported_check J : jsupported_b J = true -> jsupported E J.
  Proof.
    unfold jsupported_b. rewrite !andb_true_iff. intros (((((((Hb & H1) & H2) & H3) & H4) & H5) & H6) & H7).
    repeat match goal with h : forallb _ _ = true |- _ => rewrite forallb_forall in h end.
    split.
    - intros gn n q Hv Hq. apply jvisited_jvisits, elem_of_list_In in Hv. specialize (Hb _ Hv). cbn in Hb.
      rewrite forallb_forall in Hb. apply elem_of_list_In in Hq. specialize (Hb _ Hq). unfold jitem_b in Hb.
      destruct (find_field gn (q_name q)) as [[f|l]|]; [| |done].
      + apply andb_true_iff in Hb as [H8 H9]. split; [by apply field_ok_check|]. intros Hk. rewrite Hk in H9. simpl in H9. by destruct (qordered n).
      + apply andb_true_iff in Hb as [Hb H8]. apply andb_true_iff in Hb as [H9 H10]. split; [done|].
        split; [destruct (find_node _ _); [by eexists|done]|]. destruct (gl_requires l) as [r|]; [|done].
        apply andb_true_iff in H8 as [H11 H12]. split; [by destruct r|].
        destruct (find_field gn r) as [[f|]|]; [|done|done]. exists f. split; [done|by apply field_ok_check].
    - intros gn n Hv. apply jvisited_jvisits, elem_of_list_In in Hv. by eapply bool_decide_eq_true_1, (H1 _ Hv).
    - by eapply bool_decide_eq_true_1.
    - intros gn q (n & Hv & Hq)%jasked_jvisits. apply elem_of_list_In in Hv, Hq. specialize (H3 _ Hv). cbn in H3.
      rewrite forallb_forall in H3. by apply (bool_decide_eq_true_1 _ (H3 _ Hq)).
    - intros gn. eapply no_collision_check; [|exact H4]. intros q (n & Hv & Hq)%jasked_jvisits.
      apply elem_of_list_In, in_flat_map. exists (gn, n). split; [by apply elem_of_list_In|by apply elem_of_list_In].
    - by destruct (find_node (j_graph J) (s "__root__")).
    - intros [x Hx] q (n & Hv & Hq)%jasked_jvisits. unfold this_b in H6. rewrite Hx in H6. apply elem_of_list_In in Hv.
      rewrite forallb_forall in H6. specialize (H6 _ Hv). cbn [fst snd] in H6. rewrite bool_decide_eq_true_2 in H6 by done. cbn [negb orb] in H6.
      rewrite forallb_forall in H6. apply elem_of_list_In in Hq. specialize (H6 _ Hq). intros He. by rewrite (bool_decide_eq_true_2 _ He) in H6.
    - intros gn n sg qs Hv Hg. apply jvisited_jvisits, elem_of_list_In in Hv. specialize (H7 _ Hv). cbn in H7. rewrite forallb_forall in H7.
      apply grouped_groups, elem_of_list_In in Hg. specialize (H7 _ Hg). cbn in H7. destruct (sub_job E J gn sg qs); [by eexists|done].
  Qed.

  (** ** All jobs of a query *)
  Definition next_jobs (J : job) : list job :=
    flat_map (fun p => omap (fun x => sub_job E J p.1 x.1 x.2) (groups p.1 p.2)) (jvisits J).
  Lemma next_jobs_ok J gn n sg qs J' : jvisited J gn n -> grouped gn n sg qs -> sub_job E J gn sg qs = Some J' -> J' ∈ next_jobs J.
  Proof.
    intros Hv%jvisited_jvisits%elem_of_list_In Hg%grouped_groups Hj. unfold next_jobs. apply elem_of_list_In, in_flat_map.
    eexists. split; [exact Hv|]. apply elem_of_list_In, elem_of_list_omap. by exists (sg, qs).
  Qed.
  Fixpoint jobs (k : nat) (J : job) : list job :=
    J :: match k with O => [] | S k => flat_map (jobs k) (next_jobs J) end.
  Fixpoint no_more (k : nat) (J : job) : bool :=
    match k with O => match next_jobs J with [] => true | _ => false end | S k => forallb (no_more k) (next_jobs J) end.
  Lemma jobs_trans k : forall J J1 J2, no_more k J = true -> J1 ∈ jobs k J -> J2 ∈ next_jobs J1 -> J2 ∈ jobs k J.
  Proof.
    induction k as [|k IH]; intros J J1 J2; cbn [jobs no_more].
    - intros Hn ->%elem_of_list_singleton Hx. destruct (next_jobs J); [by apply not_elem_of_nil in Hx|done].
    - intros Hn [->|Hx]%elem_of_cons H2; right; apply elem_of_list_In, in_flat_map.
      + apply elem_of_list_In in H2. exists J2. split; [done|]. destruct k; by left.
      + apply elem_of_list_In, in_flat_map in Hx as (J3 & H3 & Hx). exists J3. split; [done|].
        rewrite forallb_forall in Hn. apply elem_of_list_In in Hx. apply elem_of_list_In. by eapply IH; [apply Hn| |].
  Qed.
  Lemma reached_jobs k J0 J : no_more k J0 = true -> reached E J0 J -> J ∈ jobs k J0.
  Proof.
    intros Hn. induction 1 as [|J gn n sg qs J' Hr IH Hv Hg Hj]; [destruct k; left|].
    eapply jobs_trans; [done|exact IH|]. by eapply next_jobs_ok.
  Qed.
  Lemma all_supported_check k g q : no_more k (top_job E g q) && forallb jsupported_b (jobs k (top_job E g q)) = true -> all_supported E g q.
  Proof.
    intros [Hn Hs]%andb_true_iff J Hr. apply jsupported_check. rewrite forallb_forall in Hs. apply Hs, elem_of_list_In. by apply reached_jobs.
  Qed.
End check.

(** ** The instance *)
#[local] Existing Instance ex_hasher.
Example sub_all_supported : all_supported sub_env high_graph sub_query'.
Proof. apply (all_supported_check sub_env 1). vm_compute. reflexivity. Qed.
Example sub_serves : serves sub_env sub_data.
Proof. by apply oracle_of_serves. Qed.
Example sub_respects : respects_options sub_data.
Proof. by split. Qed.
Lemma tree_get_covers k t t' u : covers t t' -> tree_get k t = Ok u -> exists u', tree_get k t' = Ok u' /\ covers u u'.
Proof.
  intros Hc. destruct Hc as [|d d' Hd|]; try done. cbn. destruct (dget k d) as [u0|] eqn:Eu; [|done]. intros [= ->].
  destruct (Hd _ _ Eu) as (u' & -> & Hu). eauto.
Qed.
Lemma tree_val_covers t t' v : covers t t' -> tree_val t = Ok v -> tree_val t' = Ok v.
Proof. by destruct 1. Qed.
Lemma opt_int_same v w : same_val v w -> opt_int v = opt_int w.
Proof. induction 1; try done; congruence. Qed.
Example sub_reads : reads_by_name sub_env.
Proof.
  split.
  - intros pr t t' r r' os v Ht Hr. cbn. unfold sub_proc.
    assert (forall A k x x' (f : ptree -> res A) y, covers x x' -> bindr (tree_get k x) f = Ok y ->
      exists u u', tree_get k x' = Ok u' /\ covers u u' /\ f u = Ok y) as Hg.
    { intros A k x x' f y Hx. destruct (tree_get k x) as [u|] eqn:Eu; [|done]. destruct (tree_get_covers _ _ _ _ Hx Eu) as (u' & Hu & Hc). cbn. eauto. }
    destruct (pr =? 1)%N; [|destruct (pr =? 2)%N].
    + intros (u & u' & -> & Hu & Hv)%(Hg _ _ _ _ _ _ Ht). cbn. by eapply tree_val_covers.
    + intros (u & u' & -> & Hu & Hv)%(Hg _ _ _ _ _ _ Ht). cbn.
      destruct (tree_val u) as [a|] eqn:Ea; [|done]. rewrite (tree_val_covers _ _ _ Hu Ea). cbn in Hv |- *.
      apply (Hg _ _ _ _ _ _ Ht) in Hv as (u2 & u2' & -> & Hu2 & Hv). cbn.
      apply (Hg _ _ _ _ _ _ Hu2) in Hv as (u3 & u3' & -> & Hu3 & Hv). cbn.
      destruct (tree_val u3) as [b|] eqn:Eb; [|done]. rewrite (tree_val_covers _ _ _ Hu3 Eb). cbn in Hv |- *.
      apply (Hg _ _ _ _ _ _ Hr) in Hv as (u4 & u4' & -> & Hu4 & Hv). cbn.
      destruct (tree_val u4) as [n|] eqn:En; [|done]. by rewrite (tree_val_covers _ _ _ Hu4 En).
    + intros (u & u' & -> & Hu & Hv)%(Hg _ _ _ _ _ _ Hr). cbn. by eapply tree_val_covers.
  - intros pr t r os os' Ho. cbn. unfold sub_proc. replace (map opt_int os') with (map opt_int os); [done|].
    induction Ho as [|v w os os' Hv _ IH]; [done|]. cbn. by rewrite IH, (opt_int_same _ _ Hv).
Qed.
Lemma all_in A (P : A -> Prop) l : Forall P l -> forall x, List.In x l -> P x.
Proof. intros Hl x Hx. rewrite List.Forall_forall in Hl. by apply Hl. Qed.
Ltac all_data_tac :=
  let J := fresh "J" in let Hr := fresh "Hr" in
  intros J Hr; apply (reached_jobs _ 1) in Hr; [|vm_compute; reflexivity]; apply elem_of_list_In in Hr;
  revert J Hr; apply all_in; vm_compute jobs; repeat apply Forall_cons_2; [..|apply Forall_nil_2];
  (split;
    [ intros gn n i q l Hv%jvisited_jvisits%elem_of_list_In Hq%elem_of_list_In Hf; vm_compute in Hv;
      repeat destruct Hv as [Hv|Hv]; try done; injection Hv as <- <-; cbn in Hq;
      repeat destruct Hq as [<-|Hq]; try done; vm_compute in Hf; try done; injection Hf as <-; try done; by eexists
    | intros gn q f sg rq pr G' node gn' j (n & Hv%elem_of_list_In & Hq%elem_of_list_In)%jasked_jvisits Hf Hfn Hsg Hn; vm_compute in Hv;
      repeat destruct Hv as [Hv|Hv]; try done; injection Hv as <- <-; vm_compute in Hq;
      repeat destruct Hq as [<-|Hq]; try done; vm_compute in Hf; try done; injection Hf as <-; try done;
      injection Hfn as <- <- <-; injection Hsg as <- <-; vm_compute in Hn; injection Hn as <-; vm_compute; by eexists ]).
Example sub_all_data : all_data sub_env sub_data high_graph sub_query'.
Proof. all_data_tac. Qed.

(** Another query with some of the same fields: [{:users [{:chief [:stamp]} :stamp]}] *)
Definition sub_query2 : qnode :=
  QN [QL (s "users") [QL (s "chief") [QF (s "stamp") None None] false None None; QF (s "stamp") None None] false None None] false.
Definition sub_query2' : qnode := match init_options high_graph sub_query2 with Ok q => q | Err _ => sub_query2 end.
Example sub_init2 : init_options high_graph sub_query2 = Ok sub_query2'.
Proof. vm_compute. reflexivity. Qed.
Example sub_all_supported2 : all_supported sub_env high_graph sub_query2'.
Proof. apply (all_supported_check sub_env 1). vm_compute. reflexivity. Qed.
Example sub_all_data2 : all_data sub_env sub_data high_graph sub_query2'.
Proof. all_data_tac. Qed.

(** Every loader call is one which answering the query takes: invariant over all executions. *)
From stdpp Require Import relations.
From Verif Require Import Base Val Query QuerySpec Graph Queue QueueSpec QueueProof Result Engine EngineSpec SplitProof EngineDisc CallSpec ProvSpec EngineCells.

Lemma loaded_self gn qs q : q ∈ qs -> (q_is_link q = true -> forall l, find_field gn (q_name q) <> Some (GL l)) -> q ∈ loaded_fields gn qs.
Proof.
  intros Hq Hl. apply elem_of_list_In, in_flat_map. exists q. split; [by apply elem_of_list_In|].
  destruct q as [n o a|n sub ord o a]; [by left|]. destruct (find_field gn _) as [[f|l]|] eqn:Ef; [by left| |by left].
  exfalso. by eapply Hl.
Qed.
Lemma loaded_required gn qs q l r : q ∈ qs -> q_is_link q = true -> find_field gn (q_name q) = Some (GL l) -> gl_requires l = Some r ->
  QF r None None ∈ loaded_fields gn qs.
Proof.
  intros Hq Hl Hf Hr. apply elem_of_list_In, in_flat_map. exists q. split; [by apply elem_of_list_In|].
  destruct q as [n o a|n sub ord o a]; [done|]. rewrite Hf, Hr. by left.
Qed.
Lemma asked_link_intro gn qs q l : q ∈ qs -> q_is_link q = true -> find_field gn (q_name q) = Some (GL l) -> (l, q) ∈ asked_links gn qs.
Proof. intros Hq Hl Hf. apply elem_of_list_omap. exists q. split; [done|]. destruct q; [done|]. by rewrite Hf. Qed.
Lemma asked_link_is_link gn qs q l : (l, q) ∈ asked_links gn qs -> q_is_link q = true.
Proof. intros (q' & _ & Hq)%elem_of_list_omap. destruct q' as [|n sub ord o a]; [done|]. destruct (find_field _ _) as [[]|]; try done. by injection Hq as _ <-. Qed.

(** One member of a group *)
Definition member (gn : gnode) (n : qnode) (fk : fkey) (p : gitem * qitem) : Prop :=
  p.2 ∈ loaded_fields gn (qfields n) /\ find_field gn (q_name p.2) = Some p.1 /\ fkey_of p.1 = fk.
Definition step_ok (gn : gnode) (n : qnode) (sp : step) : Prop :=
  match sp with
  | StFields fk l => l <> [] /\ Forall (member gn n fk) l
  | StLink l q => (l, q) ∈ asked_links gn (qfields n)
  end.
Lemma together_intro gn n fk fields : fields <> [] -> Forall (member gn n fk) fields -> together gn n fk fields.
Proof. intros Hne Hf. split; [done|]. intros go q Hin. rewrite Forall_forall in Hf. exact (Hf _ Hin). Qed.

Section split.
  Context (gn : gnode) (n : qnode).
  Definition split_good (acc : split_t) : Prop :=
    Forall (fun t => member gn n t.1.1 (t.1.2, t.2)) acc.1 /\ Forall (fun p => p ∈ asked_links gn (qfields n)) acc.2.
  Lemma split_field_good acc q y : split_field gn acc q = Ok y -> q ∈ loaded_fields gn (qfields n) -> split_good acc -> split_good y.
  Proof.
    unfold split_field. destruct (find_field gn (q_name q)) as [go|] eqn:Ef; [|done]. intros [= <-] Hq [H1 H2]. split; [|done].
    cbn. apply Forall_app. split; [done|]. apply Forall_singleton. split_and!; done.
  Qed.
  Lemma split_item_good acc q y : split_item gn acc q = Ok y -> q ∈ qfields n -> split_good acc -> split_good y.
  Proof.
    intros Hs Hq Hacc. unfold split_item in Hs. destruct q as [qn o a|qn sub ord o a].
    - eapply split_field_good; [done| |done]. by apply loaded_self.
    - destruct (find_field gn (q_name (QL qn sub ord o a))) as [[f|l]|] eqn:Ef; [| |done].
      + eapply split_field_good; [done| |done]. apply loaded_self; [done|]. intros _ l. by rewrite Ef.
      + destruct (match req_true l with Some _ => _ | None => _ end) as [acc'|] eqn:Er; [|done]. injection Hs as <-.
        assert (split_good acc') as [H1 H2].
        { destruct (req_true l) as [r|] eqn:Et; [|by injection Er as <-]. eapply split_field_good; [done| |done].
          eapply loaded_required; [done|done|exact Ef|]. unfold req_true in Et. by destruct (gl_requires l) as [[|]|]. }
        split; [done|]. cbn. apply Forall_app. split; [done|]. apply Forall_singleton. by apply asked_link_intro.
  Qed.
  Lemma split_query_good acc : split_query gn (qfields n) = Ok acc -> split_good acc.
  Proof.
    unfold split_query. assert (forall qs a0, (forall q, q ∈ qs -> q ∈ qfields n) -> split_good a0 -> foldR (split_item gn) a0 qs = Ok acc -> split_good acc) as Hx.
    { induction qs as [|q qs IH]; intros a0 Hqs Ha; cbn; [by intros [= <-]|]. destruct (split_item gn a0 q) as [a1|] eqn:Es; [|done].
      apply IH; [intros q' Hq'; apply Hqs; by right|]. eapply split_item_good; [done| |done]. apply Hqs. left. }
    apply Hx; [done|]. split; constructor.
  Qed.
  Definition group_good (acc : group_t) : Prop := Forall (step_ok gn n) acc.1 /\
    forall fk l before, List.rev acc.1 = StFields fk l :: before -> acc.2 = Some fk \/ acc.2 = None.
  Lemma group_field_good acc q y : group_field gn acc q = Ok y -> q ∈ loaded_fields gn (qfields n) -> group_good acc -> group_good y.
  Proof.
    unfold group_field. destruct (find_field gn (q_name q)) as [go|] eqn:Ef; [|done]. intros Hy Hq [H1 H2].
    destruct (decide (acc.2 = Some (fkey_of go))) as [Hl|Hl].
    - destruct (List.rev acc.1) as [|[k l|] before] eqn:Er; try done. injection Hy as <-.
      assert (acc.1 = List.rev before ++ [StFields k l]) as Ha by (rewrite <-(List.rev_involutive acc.1), Er; done).
      rewrite Ha in H1. apply Forall_app in H1 as [Hb Hs]. apply Forall_singleton in Hs as [Hne Hs].
      destruct (H2 _ _ _ eq_refl) as [Hk|Hk]; rewrite Hk in Hl; [|done]. injection Hl as ->. split.
      + cbn. apply Forall_app. split; [done|]. apply Forall_singleton. split; [by destruct l|]. apply Forall_app. split; [done|].
        apply Forall_singleton. split_and!; done.
      + cbn. intros fk l' b'. rewrite List.rev_app_distr. cbn. intros [= <- _ _]. left. done.
    - injection Hy as <-. split.
      + cbn. apply Forall_app. split; [done|]. apply Forall_singleton. split; [done|]. apply Forall_singleton. split_and!; done.
      + cbn. intros fk l' b'. rewrite List.rev_app_distr. cbn. intros [= <- _ _]. by left.
  Qed.
  Lemma group_item_good acc q y : group_item gn acc q = Ok y -> q ∈ qfields n -> group_good acc -> group_good y.
  Proof.
    intros Hs Hq Hacc. unfold group_item in Hs. destruct q as [qn o a|qn sub ord o a].
    - eapply group_field_good; [done| |done]. by apply loaded_self.
    - destruct (find_field gn (q_name (QL qn sub ord o a))) as [[f|l]|] eqn:Ef; [done| |done].
      destruct (match req_true l with Some _ => _ | None => _ end) as [acc'|] eqn:Er; [|done]. injection Hs as <-.
      assert (group_good acc') as [H1 H2].
      { destruct (req_true l) as [r|] eqn:Et; [|by injection Er as <-]. eapply group_field_good; [done| |done].
        eapply loaded_required; [done|done|exact Ef|]. unfold req_true in Et. by destruct (gl_requires l) as [[|]|]. }
      split; cbn.
      + apply Forall_app. split; [done|]. apply Forall_singleton. by apply asked_link_intro.
      + intros fk l' b'. rewrite List.rev_app_distr. by cbn.
  Qed.
  Lemma group_query_good steps : group_query gn (qfields n) = Ok steps -> Forall (step_ok gn n) steps.
  Proof.
    unfold group_query. destruct (foldR _ _ _) as [acc|] eqn:Ef; [|done]. intros [= <-].
    assert (forall qs a0, (forall q, q ∈ qs -> q ∈ qfields n) -> group_good a0 -> foldR (group_item gn) a0 qs = Ok acc -> group_good acc) as Hx.
    { clear Ef. induction qs as [|q qs IH]; intros a0 Hqs Ha; cbn; [by intros [= <-]|]. destruct (group_item gn a0 q) as [a1|] eqn:Es; [|done].
      apply IH; [intros q' Hq'; apply Hqs; by right|]. eapply group_item_good; [done| |done]. apply Hqs. left. }
    eapply (Hx _ _ (fun q Hq => Hq)) in Ef as [? ?]; [done|]. split; [by constructor|]. done.
  Qed.
End split.

(** The groups made of a list *)
Lemma groups_ok (gn : gnode) n (fields : list (fkey * gitem * qitem)) :
  Forall (fun t => member gn n t.1.1 (t.1.2, t.2)) fields ->
  Forall (fun p => p.2 <> [] /\ Forall (member gn n p.1) p.2) (fold_left (fun d t => dappend t.1.1 (t.1.2, t.2) d) fields []).
Proof.
  assert (forall d, Forall (fun p => p.2 <> [] /\ Forall (member gn n p.1) p.2) d -> Forall (fun t => member gn n t.1.1 (t.1.2, t.2)) fields ->
    Forall (fun p => p.2 <> [] /\ Forall (member gn n p.1) p.2) (fold_left (fun d t => dappend t.1.1 (t.1.2, t.2) d) fields d)) as Hx; [|by apply Hx].
  induction fields as [|[[k go] q] fields IH]; intros d Hd Hf; [done|]. apply Forall_cons in Hf as [Hm Hf]. cbn. apply IH; [|done]. cbn in Hm.
  unfold dappend. assert (forall v, v <> [] -> Forall (member gn n k) v -> forall d, Forall (fun p => p.2 <> [] /\ Forall (member gn n p.1) p.2) d -> Forall (fun p => p.2 <> [] /\ Forall (member gn n p.1) p.2) (dset k v d)) as Hset.
  { clear. intros v Hv Hm d. induction d as [|[k' v'] d IH]; intros Hd; cbn.
    - repeat constructor; done.
    - apply Forall_cons in Hd as [H1 H2]. destruct (decide (k = k')) as [<-|]; [by constructor|]. constructor; [done|]. by apply IH. }
  destruct (dget k d) as [v|] eqn:Eg.
  - apply Hset; [by destruct v| |done]. apply dget_Some_elem in Eg. rewrite Forall_forall in Hd. destruct (Hd _ Eg) as [_ Hv]. apply Forall_app. split; [done|]. by apply Forall_singleton.
  - apply Hset; [done| |done]. by apply Forall_singleton.
Qed.

Section inv.
  Context `{Hasher} (E : env) (g : graph) (q0 : qnode).
  Notation needed := (needed E g q0).
  Notation call_needed := (call_needed E g q0).
  Notation asked := (asked E g q0).
  Notation came_from := (came_from E g q0).
  Notation link_answer := (link_answer E g q0).

  (** What came from loaders keeps to have come from them when more calls are made *)
  Lemma prov_mono log log' : log `prefix_of` log' ->
    (forall R gn n ref, asked log R gn n ref -> asked log' R gn n ref) /\
    (forall R ref k iv, came_from log R ref k iv -> came_from log' R ref k iv) /\
    (forall R gn l rq r ref v, link_answer log R gn l rq r ref v -> link_answer log' R gn l rq r ref v).
  Proof.
    intros Hp. apply (prov_ind _ E g q0 log).
    - intros q' Hi. by apply as_root.
    - intros sg fields is_ G node this gn i H1 H2 H3 H4. by eapply as_this.
    - intros sg fields is_ G node H1. by eapply as_rest.
    - intros R G gn n ref l q iv gn' ref' _ IH Hl _ IH2 Hpt HG Hf. by eapply as_link.
    - intros sg fields is_ G node this H1 H2. by eapply cf_this.
    - intros R gn n f fields ids fut a go q r ref v _ IH Ht Hf Hl Hr Hc. eapply cf_field; [done..| |done|done]. by eapply prefix_lookup.
    - intros R gn n nm sg fields is_ a go q os p i idx refs pn o v _ IH1 Hnm Ht Hf Ho _ IH2 Hi Hpg Ho' He. by eapply cf_expression.
    - intros R gn n l q rq fut r ref v iv _ IH Hl Hlog Hr _ IH2 Hrf. eapply cf_link; [done..| |done|done|done]. by eapply prefix_lookup.
    - intros R gn l r ref H1 H2. by apply la_alone.
    - intros R gn l n i r rs v H1 H2 H3 H4. by eapply la_empty_name.
    - intros R gn l rn u r H1 H2 _ IH. by eapply la_root.
    - intros R gn l rn us p u n i r rs v H1 H2 H3 _ IH H4 H5 H6. by eapply la_node.
  Qed.

  (** Ghost state: the run of each workflow *)
  Notation runs := (list run).
  Definition fits (R : run) (v : wf) : Prop :=
    run_graph E g R = Some (wf_graph v) /\ match R with RSub _ fields _ => wf_query v = required fields | RMain => True end.

  Definition graph_at (x : st) (w : nat) (G : graph) : Prop := exists v, w_wfs x.1 !! w = Some v /\ wf_graph v = G.
  Definition grows (js : runs) (x : st) (js' : runs) (y : st) : Prop :=
    (forall w G, graph_at x w G -> graph_at y w G) /\ w_log x.1 `prefix_of` w_log y.1 /\ js `prefix_of` js'.
  Lemma grows_refl js x : grows js x js x. Proof. done. Qed.
  Lemma grows_trans js x js1 y js2 z : grows js x js1 y -> grows js1 y js2 z -> grows js x js2 z.
  Proof. intros (H1 & H3 & H5) (H2 & H4 & H6). split_and!; [intros w G Hw; auto|by etrans|by etrans]. Qed.
  Lemma grows_at js x js' y w G : grows js x js' y -> graph_at x w G -> graph_at y w G. Proof. intros [Hg _]. apply Hg. Qed.
  Lemma grows_run js x js' y w R : grows js x js' y -> js !! w = Some R -> js' !! w = Some R. Proof. intros (_ & _ & Hg) Hw. by eapply prefix_lookup. Qed.
  Lemma grows_came js x js' y R ref k iv : grows js x js' y -> came_from (w_log x.1) R ref k iv -> came_from (w_log y.1) R ref k iv.
  Proof. intros (_ & Hl & _). by apply prov_mono. Qed.

  (** The objects [ids] of the node [gn] are those of which [n] is asked *)
  Definition objs (js : runs) (x : st) (w : nat) (gn : gnode) (n : qnode) (ids : option (list val)) : Prop :=
    objects gn ids /\ exists R, js !! w = Some R /\ forall ref, object_of gn ids ref -> asked (w_log x.1) R gn n ref.
  Lemma objs_grows js x js' y w gn n ids : grows js x js' y -> objs js x w gn n ids -> objs js' y w gn n ids.
  Proof.
    intros Hg (Ho & R & HR & Ha). split; [done|]. exists R. split; [by eapply grows_run|]. intros ref Hr.
    destruct Hg as (_ & Hl & _). eapply prov_mono; [exact Hl|]. auto.
  Qed.
  (** The values given to the loader of a link are those required of the objects *)
  Definition reqs_from (log : list call) (R : run) (gn : gnode) (l : glink) (ids : option (list val)) (rq : option reqs) : Prop :=
    match req_true l, gn_name gn with
    | None, _ => rq = None
    | Some rn, None => exists u, rq = Some (ROne u) /\ came_from log R ROOT rn u
    | Some rn, Some n => exists is_ us, ids = Some is_ /\ rq = Some (RList us) /\ Forall2 (fun i u => came_from log R (n, i) rn u) is_ us
    end.
  Lemma reqs_from_mono log log' R gn l ids rq : log `prefix_of` log' -> reqs_from log R gn l ids rq -> reqs_from log' R gn l ids rq.
  Proof.
    intros Hp. unfold reqs_from. destruct (req_true l) as [rn|]; [|done]. destruct (gn_name gn) as [n|].
    - intros (is_ & us & Hi & Hr & Hf). exists is_, us. split; [done|]. split; [done|]. eapply Forall2_impl; [exact Hf|]. intros i u Hu. by eapply (prov_mono _ _ Hp).
    - intros (u & Hr & Hu). exists u. split; [done|]. by eapply (prov_mono _ _ Hp).
  Qed.
  Lemma placed_answer log R gn l ids rq r ref v : objects gn ids -> reqs_from log R gn l ids rq -> placed gn l ids r ref v -> link_answer log R gn l rq r ref v.
  Proof.
    intros Ho Hrq [Hob Hp]. unfold reqs_from in Hrq. unfold object_of in Hob. unfold objects in Ho. destruct (req_true l) as [rn|] eqn:Et.
    - assert (gl_requires l = Some rn) as Erq by (unfold req_true in Et; by destruct (gl_requires l) as [[|]|]).
      destruct (gn_name gn) as [n|] eqn:En.
      + destruct Hrq as (is_ & us & -> & -> & Hf). rewrite Erq in Hp. destruct Hp as (is2 & rs & p & Heq & Hs & Hlen & Hi & Hv). injection Heq as <-.
        destruct Hob as (i & Hin & ->). cbn in Hi. destruct (Forall2_lookup_l _ _ _ _ _ Hf Hi) as (u & Hu & Hc). eapply la_node; [done..|]. by rewrite Hlen, (Forall2_length _ _ _ Hf).
      + destruct Hrq as (u & -> & Hu). subst ref v. by eapply la_root.
    - subst rq. destruct (gn_name gn) as [n|] eqn:En.
      + destruct (gl_requires l) as [rn|] eqn:Erq.
        * unfold req_true in Et. rewrite Erq in Et. destruct rn as [|]; [|done]. destruct Hp as (is2 & rs & p & -> & Hs & Hlen & Hi & Hv).
          destruct Hob as (i & Hin & ->). eapply la_empty_name; [done..|]. by eapply elem_of_list_lookup_2.
        * subst v. apply la_alone; [done|by left].
      + subst v. apply la_alone; [done|by right].
  Qed.

  Definition cb_ok (js : runs) (x : st) (c : cb) : Prop :=
    match c with
    | CbStore w gn qfs ids fut =>
        exists G n, graph_at x w G /\ needed G gn n /\ objs js x w gn n ids /\ exists f fields, qfs = map snd fields /\ together gn n (KPlain f) fields /\
          w_log x.1 !! fut = Some (Call f (e_ctx E f) (AFields qfs ids))
    | CbStoreSub w gn qfs ids w' procs =>
        exists G n, graph_at x w G /\ needed G gn n /\ objs js x w gn n ids /\ exists sg fields, qfs = map snd fields /\ together gn n (KSub sg) fields /\
          (exists is_, ids = Some is_ /\ js !! w' = Some (RSub sg fields is_)) /\ Forall2 (fun p pr => pr.1 = proc_of p.1 /\ option_values p.1 p.2 = Ok pr.2) fields procs
    | CbSched w gn l q ids =>
        exists G n, graph_at x w G /\ needed G gn n /\ (l, q) ∈ asked_links gn (qfields n) /\ objs js x w gn n ids
    | CbLink w gn l q ids fut =>
        exists G n, graph_at x w G /\ needed G gn n /\ (l, q) ∈ asked_links gn (qfields n) /\ objs js x w gn n ids /\
          exists rq, w_log x.1 !! fut = Some (Call (gl_func l) (e_ctx E (gl_func l)) (ALink rq (link_opts l q))) /\
            forall R, js !! w = Some R -> reqs_from (w_log x.1) R gn l ids rq
    | CbProc w gn steps ids => exists G n, graph_at x w G /\ needed G gn n /\ Forall (step_ok gn n) steps /\ objs js x w gn n ids
    end.
  Lemma objs_same js x js' y w gn n ids R R' : grows js x js' y -> objs js x w gn n ids -> js' !! w = Some R' -> js !! w = Some R -> R' = R.
  Proof. intros Hg _ H1 H2. rewrite (grows_run _ _ _ _ _ _ Hg H2) in H1. by injection H1. Qed.
  Lemma cb_ok_grows js x js' y c : grows js x js' y -> cb_ok js x c -> cb_ok js' y c.
  Proof.
    intros Hgr. pose proof Hgr as (Hg & Hl & Hj). destruct c; cbn; intros (G & n & Hw & Hr); exists G, n; (split; [by apply Hg|]).
    - destruct Hr as (Hn & Ho & f & fields & Hq & Ht & Hlog). split; [done|]. split; [by eapply objs_grows|]. exists f, fields. split; [done|]. split; [done|]. by eapply prefix_lookup.
    - destruct Hr as (Hn & Ho & sg & fields & Hq & Ht & (is_ & Hi & HR) & Hpr). split; [done|]. split; [by eapply objs_grows|]. exists sg, fields. split; [done|]. split; [done|]. split; [|done].
      exists is_. split; [done|]. by eapply grows_run.
    - destruct Hr as (Hn & Hq & Ho). split; [done|]. split; [done|]. by eapply objs_grows.
    - destruct Hr as (Hn & Hq & Ho & rq & Hlog & Hrq). split; [done|]. split; [done|]. split; [by eapply objs_grows|]. exists rq. split; [by eapply prefix_lookup|].
      intros R HR. eapply reqs_from_mono; [exact Hl|]. destruct Ho as (Ho & R' & HR' & _). pose proof (grows_run _ _ _ _ _ _ Hgr HR') as H1. rewrite HR in H1. injection H1 as ->. auto.
    - destruct Hr as (Hn & Hs & Ho). split; [done|]. split; [done|]. by eapply objs_grows.
  Qed.

  Definition pend (q : queue cb) (c : cb) : Prop := exists k cs, (k, cs) ∈ q_cbs q /\ c ∈ cs.
  Record linv (js : runs) (x : st) : Prop := {
    li_log : Forall call_needed (w_log x.1);
    li_cbs : forall c, pend x.2 c -> cb_ok js x c;
    li_fired : forall k c, EvFire k c ∈ q_trace x.2 -> cb_ok js x c;
    li_main : js !! 0 = Some RMain /\ forall w, js !! S w <> Some RMain;
    li_runs : Forall2 fits js (w_wfs x.1);
    li_idx : forall w R v ref k iv, js !! w = Some R -> w_wfs x.1 !! w = Some v -> dget (ref.1, ref.2, k) (wf_index v) = Some iv -> came_from (w_log x.1) R ref k iv;
  }.
  Lemma linv_add js x k c : linv js x -> cb_ok js x c -> linv js (add_cb k c x) /\ grows js x js (add_cb k c x).
  Proof.
    intros [L C F M W X] Hc. split; [|done]. split; [done| |intros k1 c1 [Hx|Hx%elem_of_list_singleton]%elem_of_app; [by eapply F|done]|done|done|done]. intros c' (k' & cs & Hin & Hp). cbn in Hin.
    assert ((k', cs) ∈ q_cbs x.2 \/ exists cs0, cs = cs0 ++ [c] /\ ((k, cs0) ∈ q_cbs x.2 \/ cs0 = [])) as [Hx|(cs0 & -> & Hx)].
    { unfold dappend in Hin. assert (forall v d, (k', cs) ∈ dset k v d -> (k', cs) ∈ d \/ cs = v) as Hds.
      { clear. intros v d. induction d as [|[k1 v1] d IH]; cbn.
        - intros Hx%elem_of_list_singleton. injection Hx as _ ->. by right.
        - destruct (decide (k = k1)); rewrite !elem_of_cons; [intros [Hx|Hx]; [injection Hx as _ ->; by right|by left; right]|].
          intros [Hx|Hx]; [by left; left|]. destruct (IH Hx); [by left; right|by right]. }
      destruct (dget k (q_cbs x.2)) as [v|] eqn:Eg; apply Hds in Hin as [Hin| ->]; try (by left); right.
      - exists v. split; [done|]. left. by apply dget_Some_elem.
      - exists []. by split; [|right]. }
    - apply C. by exists k', cs.
    - apply elem_of_app in Hp as [Hp|Hp]; [|by apply elem_of_list_singleton in Hp as ->].
      destruct Hx as [Hx| ->]; [|by apply not_elem_of_nil in Hp]. apply C. by exists k, cs0.
  Qed.
  Lemma linv_set_index js w idx x : linv js x -> (forall R ref k iv, js !! w = Some R -> dget (ref.1, ref.2, k) idx = Some iv -> came_from (w_log x.1) R ref k iv) ->
    linv js (set_index w idx x) /\ grows js x js (set_index w idx x).
  Proof.
    intros [L C F M W X] Hidx. assert (grows js x js (set_index w idx x)) as Hg.
    { split; [|done]. intros w' G (v & Hv & HG). unfold set_index, graph_at. cbn. destruct (decide (w = w')) as [->|Hne].
      - rewrite list_lookup_alter, Hv. cbn. by eexists.
      - rewrite list_lookup_alter_ne by done. by exists v. }
    split; [|done]. split; [done| | |done| |].
    - intros c Hc. eapply cb_ok_grows; [exact Hg|]. exact (C c Hc).
    - intros k c Hc. eapply cb_ok_grows; [exact Hg|]. exact (F k c Hc).
    - cbn. apply Forall2_same_length_lookup. split; [rewrite alter_length; by eapply Forall2_length|]. intros w' R v HR Hv.
      destruct (decide (w = w')) as [->|Hne].
      + rewrite list_lookup_alter in Hv. destruct (w_wfs x.1 !! w') as [v0|] eqn:E0; [|done]. injection Hv as <-. exact (Forall2_lookup_lr _ _ _ _ _ _ W HR E0).
      + rewrite list_lookup_alter_ne in Hv by done. exact (Forall2_lookup_lr _ _ _ _ _ _ W HR Hv).
    - intros w' R v ref k iv HR. cbn. destruct (decide (w = w')) as [->|Hne].
      + rewrite list_lookup_alter. destruct (w_wfs x.1 !! w'); [|done]. cbn. intros [= <-]. by apply Hidx.
      + rewrite list_lookup_alter_ne by done. by apply X.
  Qed.
  Lemma linv_submit js w f a x fut y : submit E w f a x = Ok (fut, y) -> linv js x -> call_needed (Call f (e_ctx E f) a) ->
    linv js y /\ grows js x js y /\ w_log y.1 !! fut = Some (Call f (e_ctx E f) a).
  Proof.
    unfold submit. destruct (get_wf w x) as [v|]; [|done]. intros Hs [L C F M W X] Hc.
    assert (exists f' q', q_submit (wf_ts v) x.2 = Ok (f', q') /\ fut = length (w_log x.1) /\ y = (World (w_wfs x.1) (w_log x.1 ++ [Call f (e_ctx E f) a]), q')) as (f' & q' & Hsub & -> & ->).
    { destruct (q_submit (wf_ts v) x.2) as [[f' q']|]; [|by repeat case_match].
      exists f', q'. split; [done|]. repeat case_match; try done; by injection Hs as <- <-. }
    assert (grows js x js (World (w_wfs x.1) (w_log x.1 ++ [Call f (e_ctx E f) a]), q')) as Hg by (split; [by intros ? ? Hw|split; [by apply prefix_app_r|done]]).
    split; [|split; [done|by apply list_lookup_middle]]. split; cbn.
    - apply Forall_app. split; [done|]. by apply Forall_singleton.
    - intros c Hp. eapply cb_ok_grows; [exact Hg|]. apply C. unfold q_submit in Hsub. destruct (dget _ _); [|done]. by injection Hsub as _ <-.
    - intros k c Hp. eapply cb_ok_grows; [exact Hg|]. apply (F k). unfold q_submit in Hsub. destruct (dget _ _); [|done]. injection Hsub as _ <-. cbn in Hp.
      by apply elem_of_app in Hp as [?|?%elem_of_list_singleton].
    - done.
    - done.
    - intros w0 R v0 ref k iv HR Hv0 Hd. eapply (prov_mono (w_log x.1)); [by apply prefix_app_r|]. by eapply X.
  Qed.
  Lemma linv_fork js p x t q1 : q_fork p x.2 = Ok (t, q1) -> linv js x -> linv js (x.1, q1) /\ grows js x js (x.1, q1).
  Proof.
    intros Hf [L C F M W X]. split; [|done]. split; [done| | |done|done|done].
    2: { cbn. intros k c Hp. apply (F k). unfold q_fork in Hf. destruct p as [p|]; [destruct (dget p _); [|done]|]; injection Hf as _ <-; cbn in Hp;
         by apply elem_of_app in Hp as [?|?%elem_of_list_singleton]. }
    cbn. intros c Hp.
    enough (q_cbs q1 = q_cbs x.2) as Heq by (apply C; unfold pend in *; by rewrite <-Heq).
    unfold q_fork in Hf. destruct p as [p|]; [|by injection Hf as _ <-]. destruct (dget p _); [|done]. by injection Hf as _ <-.
  Qed.
  Lemma get_wf_lookup w x v : get_wf w x = Ok v -> w_wfs x.1 !! w = Some v.
  Proof. unfold get_wf. destruct (w_wfs x.1 !! w); [|done]. by intros [= ->]. Qed.

  Notation better js x y := (exists js', linv js' y /\ grows js x js' y).
  Section with_pn.
    Variable pn : nat -> gnode -> qnode -> option (list val) -> st -> res st.
    Hypothesis Hpn : forall js w gn n ids x y, pn w gn n ids x = Ok y -> linv js x -> (exists G, graph_at x w G /\ needed G gn n) -> objs js x w gn n ids ->
      better js x y.

    Lemma find_node_objects G name gn i is_ : find_node G name = Some gn -> objects gn (Some (i :: is_)).
    Proof. intros Hf. unfold objects. rewrite (find_node_name _ _ _ Hf). eauto. Qed.

    Lemma linv_process_link js w gn l q ids r x y R :
      process_link pn w gn l q ids r x = Ok y -> linv js x -> js !! w = Some R -> objects gn ids ->
      (forall G gn', graph_at x w G -> find_node G (gl_node l) = Some gn' -> needed G gn' (q_node q)) ->
      (forall ref v0 iv, placed gn l ids r ref v0 -> refers l v0 iv -> came_from (w_log x.1) R ref (index_key q) iv) ->
      (forall G gn' ref v0 iv j, run_graph E g R = Some G -> find_node G (gl_node l) = Some gn' -> placed gn l ids r ref v0 -> refers l v0 iv -> points iv (gl_node l, j) ->
         asked (w_log x.1) R gn' (q_node q) (gl_node l, j)) ->
      better js x y.
    Proof.
      unfold process_link. intros Hp Hi HR Ho Hn Hcame Hask. destruct (get_wf w x) as [v|] eqn:Ev; [|done]. destruct (store_links _ _ _ _ _ _) as [idx|] eqn:Est; [|done].
      pose proof (get_wf_lookup _ _ _ Ev) as Hv.
      destruct (linv_set_index js w idx x Hi) as [Hi1 Hg1].
      { intros R' ref k iv HR' Hd. rewrite HR in HR'. injection HR' as <-. destruct (proj1 (store_links_wrote _ _ _ _ _ _ _ Est) _ _ Hd) as [Hd0|(ref' & v0 & Heq & Hpl & Hrf)].
        - by eapply (li_idx _ _ Hi w R v ref k iv).
        - injection Heq as H1 H2 ->. assert (ref = ref') as -> by (destruct ref, ref'; cbn in *; congruence). by eapply Hcame. }
      destruct (link_result_to_ids _ _ _) as [[|i is_]|] eqn:Eto; [injection Hp as <-; by exists js| |done].
      destruct (find_node (wf_graph v) (gl_node l)) as [gn'|] eqn:En; [|done]. destruct (q_is_link q); [|done].
      assert (graph_at x w (wf_graph v)) as Hw by (by exists v).
      destruct (Hpn js _ _ _ _ _ _ Hp Hi1) as (js2 & Hi2 & Hg2); [exists (wf_graph v); split; [by apply Hg1|by apply Hn]| |].
      { split; [by eapply find_node_objects|]. exists R. split; [done|]. intros ref Href.
        unfold object_of in Href. rewrite (find_node_name _ _ _ En) in Href. destruct Href as (j & Hj & ->).
        destruct (to_ids_placed _ _ _ _ _ _ _ _ j Ho Est Eto Hj) as (ref0 & v0 & iv & Hpl & Hrf & Hpt).
        eapply Hask; [|exact En|exact Hpl|exact Hrf|exact Hpt]. exact (proj1 (Forall2_lookup_lr _ _ _ _ _ _ (li_runs _ _ Hi) HR Hv)). }
      exists js2. split; [done|]. by eapply grows_trans.
    Qed.

    Lemma linv_sub_call js G gn n sg fields is_ ts x w' procs y :
      sub_call E pn sg fields is_ ts x = Ok (w', procs, y) -> linv js x -> needed G gn n -> together gn n (KSub sg) fields ->
      exists js', linv js' y /\ grows js x js' y /\ js' !! w' = Some (RSub sg fields is_) /\
        Forall2 (fun p pr => pr.1 = proc_of p.1 /\ option_values p.1 p.2 = Ok pr.2) fields procs.
    Proof.
      unfold sub_call. intros Hs Hi Hn Ht. destruct (e_sgs E !! sg) as [[G' node]|] eqn:Eg; [|done]. destruct (mapR _ fields) as [ovs|] eqn:Eov; [|done].
      destruct (dget THIS _) as [this|] eqn:Eth; [|done].
      set (x1 := (World (w_wfs x.1 ++ [Wf G' (merge (map (fun p => reqs_of p.1) fields)) ts []]) (w_log x.1), x.2)) in Hs.
      set (R := RSub sg fields is_). set (js1 := js ++ [R]).
      assert (grows js x js1 x1) as Hg1. { split_and!; [|done|by apply prefix_app_r]. intros w G0 (v & Hv & HG). exists v. split; [|done]. cbn. by apply lookup_app_l_Some. }
      assert (length js = length (w_wfs x.1)) as Hlen by (eapply Forall2_length, (li_runs _ _ Hi)).
      assert (js1 !! length (w_wfs x.1) = Some R) as HR by (unfold js1; rewrite <-Hlen; by apply list_lookup_middle).
      assert (linv js1 x1) as Hi1.
      { destruct Hi as [L C F M W X]. split; [done| | | | |].
        - intros c Hp. eapply cb_ok_grows; [exact Hg1|]. exact (C c Hp).
        - intros k c Hp. eapply cb_ok_grows; [exact Hg1|]. exact (F k c Hp).
        - destruct M as [M1 M2]. split; [by apply lookup_app_l_Some|]. intros w [Hx|[_ Hx]]%lookup_app_Some; [by eapply M2|]. by apply list_lookup_singleton_Some in Hx as [_ ?].
        - cbn. apply Forall2_app; [done|]. constructor; [|constructor]. split; [cbn; by rewrite Eg|done].
        - intros w R' v ref k iv HR' Hv. cbn in Hv. destruct (decide (w < length js)) as [Hlt|Hge].
          + unfold js1 in HR'. rewrite lookup_app_l in HR' by done. rewrite lookup_app_l in Hv by (by rewrite <-Hlen). by eapply X.
          + apply lookup_app_Some in Hv as [Hv|[_ Hv]]; [apply lookup_lt_Some in Hv; lia|]. apply list_lookup_singleton_Some in Hv as [_ <-]. done. }
      assert (graph_at x1 (length (w_wfs x.1)) G') as Hw1 by (eexists; split; [cbn; by apply list_lookup_middle|done]).
      destruct (process_link _ _ _ _ _ _ _ _) as [x2|] eqn:E2; [|done].
      assert (forall ref v0 iv, placed (g_root G') (GLink THIS Many node 0 None []) None (VList is_) ref v0 -> refers (GLink THIS Many node 0 None []) v0 iv ->
        ref = ROOT /\ iv = IRefs (map (fun i => (node, i)) is_)) as Hthis.
      { intros ref v0 iv [Hob Hpl] (is2 & Hit & ->). assert (gn_name (g_root G') = None) as Hnone by done. unfold object_of in Hob. rewrite Hnone in Hob, Hpl. subst v0. cbn in Hit. injection Hit as <-. done. }
      destruct (linv_process_link js1 _ _ _ _ _ _ _ _ R E2 Hi1 HR) as (js2 & Hi2 & Hg2).
      { done. }
      { intros G2 gn' (v & Hv & <-) Hf. destruct Hw1 as (v' & Hv' & HG'). rewrite Hv in Hv'. injection Hv' as <-. rewrite HG' in *. cbn in Hf. by eapply nd_this. }
      { intros ref v0 iv Hpl Hrf. destruct (Hthis _ _ _ Hpl Hrf) as [-> ->]. by eapply cf_this. }
      { intros G2 gn' ref v0 iv j HG2 Hf Hpl Hrf Hpt. destruct (Hthis _ _ _ Hpl Hrf) as [-> ->]. cbn in HG2. rewrite Eg in HG2. injection HG2 as <-.
        cbn in Hpt. apply elem_of_list_fmap in Hpt as (j' & [= <-] & Hj). by eapply as_this. }
      destruct (pn _ _ _ None x2) as [x3|] eqn:E3; [|done]. injection Hs as <- <- <-.
      destruct (Hpn js2 _ _ _ _ _ _ E3 Hi2) as (js3 & Hi3 & Hg3); [exists G'; split; [by eapply Hg2|by eapply nd_rest]| |].
      { split; [done|]. exists R. split; [by eapply grows_run|]. intros ref Href. cbn in Href. subst ref. by eapply as_rest. }
      exists js3. split; [done|]. split; [eapply grows_trans; [done|]; by eapply grows_trans|]. split; [eapply grows_run; [exact Hg3|]; by eapply grows_run|].
      apply mapR_ok in Eov. clear -Eov. induction Eov as [|p ov fields ovs Hp _ IH]; [by constructor|]. by constructor.
    Qed.

    Lemma linv_schedule_fields js w gn n G fk fields ids x d y :
      schedule_fields E pn w gn fk fields ids x = Ok (d, y) -> linv js x -> graph_at x w G -> needed G gn n -> together gn n fk fields -> objs js x w gn n ids ->
      better js x y.
    Proof.
      unfold schedule_fields. intros Hs Hi Hw Hn Ht Ho. destruct fk as [f|sg].
      - destruct (submit _ _ _ _ _) as [[fut x1]|] eqn:Es; [|done]. injection Hs as <- <-.
        destruct (linv_submit js _ _ _ _ _ _ Es Hi) as (Hi1 & Hg1 & Hlog).
        { exists G, gn, n. split; [done|]. split; [done|]. cbn. exists fields. split; [done|]. split; [done|]. apply Ho. }
        destruct (linv_add js x1 (KF fut) (CbStore w gn (map snd fields) ids fut) Hi1) as [Hi2 Hg2].
        { exists G, n. split; [by apply Hg1|]. split; [done|]. split; [by eapply objs_grows|]. by exists f, fields. }
        exists js. split; [done|]. by eapply grows_trans.
      - destruct ids as [is_|]; [|done]. destruct (get_wf w x) as [v|]; [|done]. destruct (q_fork _ _) as [[t q1]|] eqn:Ef; [|done].
        destruct (linv_fork js _ _ _ _ Ef Hi) as [Hi1 Hg1].
        destruct (sub_call _ _ _ _ _ _ _) as [[[w' procs] x2]|] eqn:E2; [|done]. injection Hs as <- <-.
        destruct (linv_sub_call js _ _ _ _ _ _ _ _ _ _ _ E2 Hi1 Hn Ht) as (js2 & Hi2 & Hg2 & HR & Hpr).
        destruct (linv_add js2 x2 (KT t) (CbStoreSub w gn (map snd fields) (Some is_) w' procs) Hi2) as [Hi3 Hg3].
        { exists G, n. split; [by apply Hg2, Hg1|]. split; [done|]. split; [eapply objs_grows; [exact Hg2|]; by eapply objs_grows|]. exists sg, fields.
          split; [done|]. split; [done|]. split; [|done]. by exists is_. }
        exists js2. split; [done|]. eapply grows_trans; [done|]. by eapply grows_trans.
    Qed.

    Lemma linv_schedule_link js w gn n G l q ids x d y :
      schedule_link E w gn l q ids x = Ok (d, y) -> linv js x -> graph_at x w G -> needed G gn n -> (l, q) ∈ asked_links gn (qfields n) -> objs js x w gn n ids ->
      linv js y /\ grows js x js y.
    Proof.
      unfold schedule_link. intros Hs Hi Hw Hn Hl Ho. destruct (get_wf w x) as [v|] eqn:Ev; [|done]. pose proof (get_wf_lookup _ _ _ Ev) as Hv.
      destruct (match req_true l with Some _ => _ | None => _ end) as [a|] eqn:Ea; [|done].
      destruct (submit _ _ _ _ _) as [[fut x1]|] eqn:Es; [|done]. injection Hs as <- <-.
      destruct (linv_submit js _ _ _ _ _ _ Es Hi) as (Hi1 & Hg1 & Hlog).
      { exists G, gn, n. split; [done|]. split; [done|]. cbn. exists l, q. split; [done|]. split; [done|]. split; [done|].
        change (passed l) with (req_true l).
        destruct (req_true l) as [r|]; [|by injection Ea as <-]. unfold link_reqs in Ea. destruct Ho as [Ho _]. unfold objects in Ho.
        destruct (gn_name gn) as [nm|].
        - destruct Ho as (i & is_ & ->). destruct (mapR _ _) as [vs|] eqn:Em; [|done]. injection Ea as <-. apply mapR_ok in Em. inversion Em; subst. eauto.
        - destruct (dget _ _) as [u|]; [|done]. injection Ea as <-. eauto. }
      destruct (linv_add js x1 (KF fut) (CbLink w gn l q ids fut) Hi1) as [Hi2 Hg2].
      { exists G, n. split; [by apply Hg1|]. split; [done|]. split; [done|]. split; [by eapply objs_grows|]. exists a. split; [done|]. intros R HR.
        eapply reqs_from_mono; [apply Hg1|]. unfold reqs_from.
        destruct (req_true l) as [rn|]; [|by injection Ea as <-]. unfold link_reqs in Ea. destruct (gn_name gn) as [nm|].
        - destruct ids as [is_|]; [|done]. destruct (mapR _ _) as [us|] eqn:Em; [|done]. injection Ea as <-. exists is_, us. split; [done|]. split; [done|].
          apply mapR_ok in Em. eapply Forall2_impl; [exact Em|]. intros i u Hu. apply (li_idx _ _ Hi w R v (nm, i) rn u HR Hv). cbn in Hu |- *. destruct (dget _ _); [|done]. by injection Hu as ->.
        - destruct (dget _ _) as [u|] eqn:Ed; [|done]. injection Ea as <-. exists u. split; [done|]. by apply (li_idx _ _ Hi w R v ROOT rn u HR Hv). }
      split; [done|]. by eapply grows_trans.
    Qed.

    Lemma linv_proc_steps js w gn n G steps ids x y :
      proc_steps E pn w gn steps ids x = Ok y -> linv js x -> graph_at x w G -> needed G gn n -> Forall (step_ok gn n) steps -> objs js x w gn n ids ->
      better js x y.
    Proof.
      unfold proc_steps. intros Hp Hi Hw Hn Hs Ho. destruct steps as [|sp rest]; [done|]. apply Forall_cons in Hs as [Hsp Hrest].
      destruct (match sp with StFields _ _ => _ | StLink _ _ => _ end) as [[d x1]|] eqn:Es; [|done].
      assert (better js x x1) as (js1 & Hi1 & Hg1).
      { destruct sp as [fk l|l q].
        - destruct Hsp. eapply linv_schedule_fields; [done..| |done]. by apply together_intro.
        - exists js. by eapply linv_schedule_link. }
      destruct rest as [|sp' rest]; injection Hp as <-; [by exists js1|].
      destruct (linv_add js1 x1 d (CbProc w gn (sp' :: rest) ids) Hi1) as [Hi2 Hg2]; [exists G, n; split; [by apply Hg1|]; split; [done|]; split; [done|]; by eapply objs_grows|].
      exists js1. split; [done|]. by eapply grows_trans.
    Qed.

    Lemma linv_schedule_groups w gn n G ids groups : forall js x d0 to_dep y,
      foldR (fun acc g => match schedule_fields E pn w gn g.1 g.2 ids acc.2 with
                          | Ok (dep, x') => Ok (dset g.1 dep acc.1, x') | Err e => Err e end) (d0, x) groups = Ok (to_dep, y) ->
      linv js x -> graph_at x w G -> needed G gn n -> Forall (fun p => p.2 <> [] /\ Forall (member gn n p.1) p.2) groups -> objs js x w gn n ids ->
      better js x y.
    Proof.
      induction groups as [|[fk fields] groups IH]; intros js x d0 to_dep y Hf Hi Hw Hn Hgr Ho; cbn in Hf; [injection Hf as _ <-; by exists js|].
      apply Forall_cons in Hgr as [[Hne Hm] Hgr]. cbn in Hne, Hm. destruct (schedule_fields _ _ _ _ _ _ _ _) as [[dep x1]|] eqn:Es; [|done].
      destruct (linv_schedule_fields js _ _ n G _ _ _ _ _ _ Es Hi Hw Hn) as (js1 & Hi1 & Hg1); [by apply together_intro|done|].
      destruct (IH js1 _ _ _ _ Hf Hi1 (grows_at _ _ _ _ _ _ Hg1 Hw) Hn Hgr (objs_grows _ _ _ _ _ _ _ _ Hg1 Ho)) as (js2 & Hi2 & Hg2). exists js2. split; [done|]. by eapply grows_trans.
    Qed.

    Lemma linv_schedule_links w gn n G ids to_func to_dep links : forall js x y,
      schedule_links E w gn ids to_func to_dep links x = Ok y ->
      linv js x -> graph_at x w G -> needed G gn n -> Forall (fun p => p ∈ asked_links gn (qfields n)) links -> objs js x w gn n ids ->
      linv js y /\ grows js x js y.
    Proof.
      unfold schedule_links. induction links as [|[l q] links IH]; intros js x y Hf Hi Hw Hn Hl Ho; cbn in Hf; [injection Hf as <-; split; [done|apply grows_refl]|].
      apply Forall_cons in Hl as [Hlq Hl].
      match type of Hf with match ?a with _ => _ end = _ => destruct a as [x1|] eqn:E1 end; [|done].
      assert (linv js x1 /\ grows js x js x1) as [Hi1 Hg1].
      { destruct (req_true l) as [r|].
        - destruct (dget r to_func) as [f|]; [|done]. destruct (dget f to_dep) as [dep|]; [|done]. injection E1 as <-.
          apply linv_add; [done|]. exists G, n. done.
        - destruct (schedule_link _ _ _ _ _ _ _) as [[d x']|] eqn:Es; [|done]. injection E1 as <-. by eapply linv_schedule_link. }
      destruct (IH js _ _ Hf Hi1 (grows_at _ _ _ _ _ _ Hg1 Hw) Hn Hl (objs_grows _ _ _ _ _ _ _ _ Hg1 Ho)) as [Hi2 Hg2]. split; [done|]. by eapply grows_trans.
    Qed.

    Lemma linv_process_body js w gn n ids x y :
      process_node_body E pn w gn n ids x = Ok y -> linv js x -> (exists G, graph_at x w G /\ needed G gn n) -> objs js x w gn n ids -> better js x y.
    Proof.
      unfold process_node_body. intros Hp Hi (G & Hw & Hn) Ho. destruct (qordered n).
      - destruct (group_query gn (qfields n)) as [steps|] eqn:Eg; [|done]. apply group_query_good in Eg.
        destruct steps as [|sp steps]; [injection Hp as <-; by exists js|]. by eapply linv_proc_steps.
      - destruct (split_query gn (qfields n)) as [[fields links]|] eqn:Es; [|done]. apply split_query_good in Es as [Hf Hl]. cbn in Hf, Hl.
        destruct (schedule_groups _ _ _ _ _ _ _) as [[to_dep x1]|] eqn:Eg; [|done]. unfold schedule_groups in Eg.
        destruct (linv_schedule_groups _ _ n G _ _ js _ _ _ _ Eg Hi Hw Hn (groups_ok _ _ _ Hf) Ho) as (js1 & Hi1 & Hg1).
        destruct (linv_schedule_links _ _ n G _ _ _ _ js1 _ _ Hp Hi1 (grows_at _ _ _ _ _ _ Hg1 Hw) Hn Hl (objs_grows _ _ _ _ _ _ _ _ Hg1 Ho)) as [Hi2 Hg2]. exists js1. split; [done|]. by eapply grows_trans.
    Qed.
  End with_pn.

  Lemma linv_process_node fuel js w gn n ids x y :
    process_node E fuel w gn n ids x = Ok y -> linv js x -> (exists G, graph_at x w G /\ needed G gn n) -> objs js x w gn n ids -> better js x y.
  Proof.
    revert js w gn n ids x y. induction fuel as [|k IH]; intros js w gn n ids x y; [done|]. apply (linv_process_body (process_node E k)). exact IH.
  Qed.
  Lemma linv_store js w gn qfs ids r x y R : store_result w gn qfs ids r x = Ok y -> linv js x -> js !! w = Some R ->
    (forall ref a q v, qfs !! a = Some q -> object_of gn ids ref -> cell (gn_name gn) ids r a ref v -> came_from (w_log x.1) R ref (index_key q) (IVal v)) ->
    better js x y.
  Proof.
    unfold store_result. destruct (get_wf w x) as [v|] eqn:Ev; [|done]. destruct (store_fields _ _ _ _ _) as [idx|] eqn:Es; [|done]. intros [= <-] Hi HR Hnew.
    exists js. apply linv_set_index; [done|]. intros R' ref k iv HR' Hd. rewrite HR in HR'. injection HR' as <-.
    destruct (proj1 (store_fields_wrote _ _ _ _ _ _ Es) _ _ Hd) as [Hd0|(ref' & a & q & u & Hq & Heq & -> & Ho & Hc)].
    - eapply (li_idx _ _ Hi w R v ref k iv HR); [|exact Hd0]. by apply get_wf_lookup.
    - injection Heq as H1 H2 ->. assert (ref = ref') as -> by (destruct ref, ref'; cbn in *; congruence). by eapply Hnew.
  Qed.
  Lemma fut_result_returned fut x r c : fut_result E fut x = Ok r -> w_log x.1 !! fut = Some c -> returned (e_oracle E fut c) = Some r.
  Proof. unfold fut_result. intros Hf Hc. rewrite Hc in Hf. destruct (e_oracle E fut c); [by injection Hf as <-|by injection Hf as <-|done]. Qed.
  (** sources/graph.py:15-21 *)
  Lemma result_proc_cells w' procs x r : result_proc E w' procs x = Ok r -> exists rows v0, r = VList rows /\ w_wfs x.1 !! w' = Some v0 /\
    forall p row items a v, rows !! p = Some row -> seq_of row = Some items -> items !! a = Some v ->
      exists pr refs pn o, procs !! a = Some pr /\ proxy_get (wf_index v0) ROOT (wf_query v0) THIS = Ok (PList refs pn) /\ refs !! p = Some o /\
        e_proc E pr.1 (view (wf_index v0) o pn) (view (wf_index v0) ROOT (wf_query v0)) pr.2 = Ok v.
  Proof.
    unfold result_proc. destruct (get_wf w' x) as [v0|] eqn:Ev; [|done]. apply get_wf_lookup in Ev. destruct (proxy_get _ _ _ _) as [p0|] eqn:Ep0; [|done].
    destruct (match p0 with PRaw _ => _ | PProxy _ _ => _ | PList _ _ => _ end) as [ts|] eqn:Ets; [|done].
    destruct (mapR _ ts) as [rows|] eqn:Em; [|done]. intros [= <-]. exists rows, v0. split; [done|]. split; [done|]. intros p row items a v Hp Hs Ha.
    apply mapR_ok in Em. destruct (Forall2_lookup_r _ _ _ _ _ Em Hp) as (t & Hpt & Ht). destruct (mapR _ procs) as [vs|] eqn:Ep; [|done].
    injection Ht as <-. cbn in Hs. injection Hs as ->. apply mapR_ok in Ep. destruct (Forall2_lookup_r _ _ _ _ _ Ep Ha) as (pr & Hpr & He).
    destruct p0 as [[| |[|]]| |refs pn]; try done; injection Ets as <-; [by rewrite lookup_nil in Hpt|].
    change (map (fun r => view (wf_index v0) r pn) refs) with ((fun r => view (wf_index v0) r pn) <$> refs) in Hpt. rewrite list_lookup_fmap in Hpt.
    destruct (refs !! p) as [o|] eqn:Eo; [|done]. injection Hpt as <-. by exists pr, refs, pn, o.
  Qed.
  Lemma linv_run_cb js c x y : run_cb E c x = Ok y -> linv js x -> cb_ok js x c -> better js x y.
  Proof.
    destruct c as [w gn qfs ids fut|w gn qfs ids w' procs|w gn l q ids|w gn l q ids fut|w gn steps ids]; unfold run_cb; intros Hr Hi Hc.
    - destruct (fut_result _ _ _) as [r|] eqn:Efr; [|done]. destruct Hc as (G & n & Hw & Hn & (Ho & R & HR & Hask) & f & fields & -> & Ht & Hlog).
      eapply linv_store; [exact Hr|done|exact HR|]. intros ref a q v Hq Hob Hcell. rewrite list_lookup_fmap in Hq.
      destruct (fields !! a) as [[go q1]|] eqn:Ef; [|done]. injection Hq as <-. eapply cf_field; [by apply Hask|exact Ht|exact Ef|exact Hlog|by eapply fut_result_returned|exact Hcell].
    - destruct (result_proc _ _ _ _) as [r|] eqn:Erp; [|done].
      destruct Hc as (G & n & Hw & Hn & (Ho & R & HR & Hask) & sg & fields & -> & Ht & (is_ & -> & HR') & Hpr).
      eapply linv_store; [exact Hr|done|exact HR|]. intros ref a q v Hq Hob Hcell. rewrite list_lookup_fmap in Hq.
      destruct (fields !! a) as [[go q1]|] eqn:Ef; [|done]. injection Hq as <-. apply result_proc_cells in Erp as (rows & v0 & -> & Hv0 & Hcells).
      destruct Hcell as [l v Hno Hs Hv|n0 is2 rows0 p i row items v Hno His Hs Hp Hrow Hit Hv].
      { exfalso. unfold objects in Ho. by rewrite Hno in Ho. }
      injection His as <-. cbn in Hs. injection Hs as <-. destruct (Hcells _ _ _ _ _ Hrow Hit Hv) as (pr & refs & pn & o & Hpa & Hpg & Hoo & He).
      destruct (Forall2_lookup_lr _ _ _ _ _ _ Hpr Ef Hpa) as [Hp1 Hp2]. rewrite Hp1 in He.
      destruct (Forall2_lookup_lr _ _ _ _ _ _ (li_runs _ _ Hi) HR' Hv0) as [_ Hwq]. cbn in Hwq. rewrite Hwq in Hpg, He.
      eapply cf_expression; [|exact Hno|exact Ht|exact Ef|exact Hp2| |exact Hp|exact Hpg|exact Hoo|exact He].
      + intros j Hj. apply Hask. unfold object_of. rewrite Hno. by exists j.
      + intros ref' k' iv' Hd. by eapply (li_idx _ _ Hi).
    - destruct (schedule_link _ _ _ _ _ _ _) as [[d x']|] eqn:Es; [|done]. injection Hr as <-. destruct Hc as (G & n & Hw & Hn & Hl & Ho). exists js. by eapply linv_schedule_link.
    - destruct (fut_result _ _ _) as [r|] eqn:Efr; [|done]. destruct Hc as (G & n & Hw & Hn & Hl & (Ho & R & HR & Hask) & rq & Hlog & Hrq).
      assert (forall ref v0 iv, placed gn l ids r ref v0 -> refers l v0 iv -> came_from (w_log x.1) R ref (index_key q) iv) as Hcame.
      { intros ref v0 iv Hpl Hrf. eapply cf_link; [apply Hask, Hpl|exact Hl|exact Hlog|by eapply fut_result_returned| |exact Hrf]. eapply placed_answer; [done|by apply Hrq|done]. }
      eapply linv_process_link; [|exact Hr|done|exact HR|exact Ho| |exact Hcame|]; [intros; by eapply linv_process_node| |].
      + intros G' gn' (v & Hv & <-) Hf. destruct Hw as (v' & Hv' & HG). rewrite Hv in Hv'. injection Hv' as <-. rewrite HG in *. by eapply nd_link.
      + intros G' gn' ref v0 iv j HG Hf Hpl Hrf Hpt. eapply as_link; [apply Hask, Hpl|exact Hl|by eapply Hcame|exact Hpt|exact HG|exact Hf].
    - destruct Hc as (G & n & Hw & Hn & Hs & Ho). eapply linv_proc_steps; [|exact Hr|done..]. intros; by eapply linv_process_node.
  Qed.

  Definition lcfg (a : st * phase cb) : Prop := exists js, linv js a.1 /\ forall c, c ∈ curs a.2 -> cb_ok js a.1 c.
  Lemma linv_queue js (x : st) q : q_cbs q = q_cbs x.2 -> (forall k c, EvFire k c ∈ q_trace q -> EvFire k c ∈ q_trace x.2 \/ cb_ok js x c) -> linv js x -> linv js (x.1, q).
  Proof.
    intros Hq Ht [L C F M W X]. split; [done| | |done|done|done]; cbn.
    - intros c Hp. apply C. unfold pend in *. by rewrite <-Hq.
    - intros k c Hp. destruct (Ht k c Hp); [by eapply F|done].
  Qed.
  Lemma linv_emit js (x : st) e : (forall k c, e = EvFire k c -> cb_ok js x c) -> linv js x -> linv js (x.1, q_emit e x.2).
  Proof. intros He. apply linv_queue; [done|]. cbn. intros k c [Hc|Hc%elem_of_list_singleton]%elem_of_app; [by left|right; by eapply He]. Qed.
  Lemma linv_pop js k (x : st) cs q : q_pop k x.2 = (cs, q) -> linv js x -> linv js (x.1, q) /\ forall c, c ∈ cs -> cb_ok js x c.
  Proof.
    unfold q_pop. intros [= <- <-] [L C F M W X]. split.
    - split; [done| |done|done|done|done]. cbn. intros c (k' & cs & Hin & Hc). apply C. exists k', cs. split; [|done]. cbn in Hin. by eapply elem_of_ddel.
    - intros c Hc. destruct (dget k (q_cbs x.2)) as [v|] eqn:Eg; [|by apply not_elem_of_nil in Hc]. apply C. exists k, v. split; [|done]. by apply dget_Some_elem.
  Qed.
  Lemma lcfg_fire js k (x y : st) c cs : fire (run_cb E) k x c = Ok y -> linv js x -> (forall c', c' ∈ c :: cs -> cb_ok js x c') ->
    exists js', linv js' y /\ forall c', c' ∈ cs -> cb_ok js' y c'.
  Proof.
    unfold fire. intros Hf Hi Hc. eapply (linv_run_cb js _ (x.1, q_emit (EvFire k c) x.2)) in Hf as (js' & Hi' & Hg).
    - exists js'. split; [done|]. intros c' Hin. eapply cb_ok_grows; [exact Hg|]. apply Hc. by right.
    - apply linv_emit; [|done]. intros ? ? [= <- <-]. apply Hc. left.
    - apply Hc. left.
  Qed.
  Lemma lcfg_step a b : lcfg a -> qstep (run_cb E) a b -> lcfg b.
  Proof.
    intros (js & Hi & Hc) Hs.
    destruct Hs as [x dn H1 H2 H3|x f d cs q Hpop|x f c1 cs d y Hf|x f d|x|x Hq|x t ts cs q Hpop|x t c1 cs ts y Hf|x t ts|x|x Hq]; cbn in Hi, Hc; unfold lcfg; cbn [fst snd curs]; try (by exists js).
    - exists js. split; [|done]. apply linv_queue; [done|by left|done].
    - exists js. apply (linv_pop js _ (x.1, q_emit (EvDone f) x.2)) in Hpop as [? ?]; [done|by apply linv_emit].
    - by eapply lcfg_fire.
    - exists js. apply (linv_pop js) in Hpop as [? ?]; done.
    - by eapply lcfg_fire.
    - exists js. split; [|done]. apply linv_queue; [done| |done]. cbn. intros k c [Hx|Hx%elem_of_list_singleton]%elem_of_app; [by left|done].
  Qed.
  Lemma lcfg_rtc a b : lcfg a -> rtc (qstep (run_cb E)) a b -> lcfg b.
  Proof. intros Ha Hr. induction Hr as [|x y z Hxy _ IH]; [done|]. apply IH. by eapply lcfg_step. Qed.
  Lemma start_linv x : start E g q0 = Ok x -> exists js, linv js x.
  Proof.
    unfold start. destruct (init_options g q0) as [q'|] eqn:Eq; [|done]. cbn [q_fork q_empty q_futs q_forks q_cbs q_nfut q_nts q_trace dset app].
    intros Hp. eapply (linv_process_node _ [RMain]) in Hp as (js & ? & ?); [by exists js| | |].
    - split; [constructor| | |done| |].
      + cbn. intros c (k & cs & Hc & _). by apply not_elem_of_nil in Hc.
      + cbn. intros k c Hc%elem_of_list_singleton. done.
      + cbn. by repeat constructor.
      + cbn. intros [|w] R v ref k iv HR; [|done]. intros [= <-]. done.
    - exists g. split; [by eexists|]. by constructor.
    - split; [done|]. exists RMain. split; [done|]. intros ref Href. cbn in Href. subst ref. by apply as_root.
  Qed.
  Lemma lcfg_start x : start E g q0 = Ok x -> lcfg (x, PIdle).
  Proof. intros [js Hi]%start_linv. exists js. split; [done|]. cbn. intros c Hc. by apply not_elem_of_nil in Hc. Qed.
End inv.

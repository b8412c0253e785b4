(** Executions of queries with expressions over sub-graphs: the invariant of all workflows of an execution. *)
From stdpp Require Import relations.
From Verif Require Import Base Val Query QuerySpec Graph Queue QueueSpec QueueProof Result Engine EngineSpec SplitProof BatchProof EngineDisc SubSpec SubJob.

(** A workflow: its job, the ids [this] stands for, its task set *)
Record winfo := Info { wi_job : job; wi_ids : list val; wi_ts : nat }.
Definition idx_of (x : st) (w : nat) : index := match w_wfs x.1 !! w with Some v => wf_index v | None => [] end.
Definition wduty : Type := nat -> duty.
Definition no_debt : wduty := fun _ => no_duty.
Definition live (q : queue cb) (t : nat) : Prop := t ∈ dkeys (q_futs q) /\ t ∈ dkeys (q_forks q).

(** What a callback is responsible for, what it needs in the index, what it puts there *)
Definition resp (c : cb) (w : nat) : duty := fun gn' i q' =>
  cb_wf c = w /\
  match c with
  | CbStore _ gn qfs ids _ | CbStoreSub _ gn qfs ids _ _ => gn' = gn /\ i ∈ oids ids /\ q' ∈ qfs
  | CbSched _ gn _ q ids | CbLink _ gn _ q ids _ => gn' = gn /\ i ∈ oids ids /\ q' = q
  | CbProc _ gn steps ids => gn' = gn /\ i ∈ oids ids /\ exists sp, sp ∈ steps /\ q' ∈ step_items sp
  end.
Definition avail : Type := nat -> gnode -> option val -> str -> Prop.
Definition need (c : cb) : avail := fun w gn' i r =>
  cb_wf c = w /\
  match c with
  | CbSched _ gn l _ ids => gn' = gn /\ i ∈ oids ids /\ gl_requires l = Some r
  | CbProc _ gn steps ids => gn' = gn /\ i ∈ oids ids /\ need_steps steps r
  | _ => False
  end.
Definition provides (c : cb) : avail := fun w gn' i r =>
  cb_wf c = w /\
  match c with
  | CbStore _ gn qfs ids _ | CbStoreSub _ gn qfs ids _ _ => gn' = gn /\ i ∈ oids ids /\ QF r None None ∈ qfs
  | _ => False
  end.
Fixpoint chain (Q : avail) (cs : list cb) : Prop :=
  match cs with
  | [] => True
  | c :: cs' => (forall w gn i r, need c w gn i r -> Q w gn i r)
                /\ chain (fun w gn i r => Q w gn i r \/ provides c w gn i r) cs'
  end.
Lemma chain_mono (Q Q' : avail) cs : (forall w gn i r, Q w gn i r -> Q' w gn i r) -> chain Q cs -> chain Q' cs.
Proof.
  revert Q Q'; induction cs as [|c cs IH]; intros Q Q' HQ; simpl; [done|]. intros [H1 H2]. split; [eauto|].
  eapply IH; [|exact H2]. simpl. intros w gn i r [?|?]; auto.
Qed.
Lemma chain_snoc Q cs c : chain Q cs ->
  (forall w gn i r, need c w gn i r -> Q w gn i r \/ exists c', c' ∈ cs /\ provides c' w gn i r) -> chain Q (cs ++ [c]).
Proof.
  revert Q; induction cs as [|c0 cs IH]; intros Q; simpl.
  - intros _ Hn. split; [|done]. intros w gn i r Hx. destruct (Hn _ _ _ _ Hx) as [?|(c' & Hc & _)]; [done|].
    by apply not_elem_of_nil in Hc.
  - intros [H1 H2] Hn. split; [done|]. apply IH; [done|]. intros w gn i r Hx.
    destruct (Hn _ _ _ _ Hx) as [?|(c' & Hc & Hp)]; [by left; left|].
    apply elem_of_cons in Hc as [->|Hc]; [by left; right|]. right; eauto.
Qed.

Lemma idx_of_set w idx x w' : idx_of (set_index w idx x) w' = if decide (w' = w) then match w_wfs x.1 !! w with Some _ => idx | None => [] end else idx_of x w'.
Proof.
  unfold idx_of, set_index. simpl. destruct (decide (w' = w)) as [->|Hne].
  - rewrite list_lookup_alter. by destruct (w_wfs x.1 !! w).
  - by rewrite list_lookup_alter_ne.
Qed.

Lemma live_op o (q q1 : queue cb) t : apply_op q o = Ok q1 -> live q t -> live q1 t.
Proof.
  intros Ho [H1 H2]. unfold live in *. destruct o as [t'|p|k c]; simpl in Ho.
  - unfold q_submit in Ho. destruct (dget t' _) eqn:Et; simplify_eq/=. rewrite dkeys_dset.
    split; [|done]. destruct (decide _); [done|]. apply elem_of_app; by left.
  - assert (forall d : dict nat (list nat), forall k v, t ∈ dkeys d -> t ∈ dkeys (dset k v d)) as Hd.
    { intros d k v Ht. rewrite dkeys_dset. destruct (decide _); [done|]. apply elem_of_app; by left. }
    unfold q_fork in Ho. destruct p as [p|]; [destruct (dget p _)|]; simplify_eq/=; auto.
  - by simplify_eq/=.
Qed.

Section sub.
  Context `{Hasher} (E : env) (D : data) (J0 : job).
  Hypothesis Hresp : respects_options D.
  Hypothesis Hreads : reads_by_name E.
  Hypothesis Hserve : serves_met E D J0.
  Hypothesis Hsup : forall J, reached E J0 J -> jsupported E J.
  Hypothesis Hdata : forall J, mdata E D J0 J.
  Hypothesis Hlev0 : j_level J0 = length (e_sgs E).

  Lemma reached_level J : reached E J0 J -> j_level J <= length (e_sgs E).
  Proof.
    induction 1 as [|J gn n sg qs J' _ IH _ _ Hj]; [lia|].
    unfold sub_job in Hj. destruct (e_sgs E !! sg) as [[G' node]|]; [|done].
    destruct (dget THIS _) as [tq|]; [|done]. destruct (find_node G' node) as [gn'|]; [|done].
    destruct (q_is_link tq); [|done]. injection Hj as <-. cbn. lia.
  Qed.

  Definition cb_ok (Is : list winfo) (log : list call) (k : ckey) (c : cb) : Prop :=
    exists I n, Is !! cb_wf c = Some I /\
    match c with
    | CbStore _ gn qfs ids fut =>
        met_ids E D J0 (wi_job I) gn n ids /\ exists f cl, log !! fut = Some cl /\ field_call E (wi_job I) gn n qfs ids f cl
    | CbStoreSub _ gn qfs ids w' procs =>
        exists I' sg fields is_, Is !! w' = Some I' /\ k = KT (wi_ts I') /\ ids = Some is_ /\ met_ids E D J0 (wi_job I) gn n ids /\
          sfld (wi_job I) gn n sg fields /\ qfs = map snd fields /\ sub_job E (wi_job I) gn sg qfs = Some (wi_job I') /\
          wi_ids I' = is_ /\
          procs = zip (map (fun p => proc_of p.1) fields) (map (fun p => given_go p.1 (q_opts p.2)) fields)
    | CbSched _ gn l q ids => met_ids E D J0 (wi_job I) gn n ids /\ lnk (wi_job I) gn n l q
    | CbLink _ gn l q ids fut =>
        met_ids E D J0 (wi_job I) gn n ids /\ exists cl, log !! fut = Some cl /\ link_call E D (wi_job I) gn n l q ids cl
    | CbProc _ gn steps ids =>
        met_ids E D J0 (wi_job I) gn n ids /\ steps <> [] /\ forall sp, sp ∈ steps -> step_ok (wi_job I) gn n sp
    end.
  Lemma cb_ok_mono Is l1 log l2 k c : cb_ok Is log k c -> cb_ok (Is ++ l1) (log ++ l2) k c.
  Proof.
    intros (I & n & HI & Hc). exists I, n. split; [by apply lookup_app_l_Some|].
    destruct c; try done.
    - destruct Hc as (? & f & cl & Hl & ?). split; [done|]. exists f, cl. split; [|done]. by apply lookup_app_l_Some.
    - destruct Hc as (I' & sg & fields & is_ & HI' & Hc). exists I', sg, fields, is_. split; [|done]. by apply lookup_app_l_Some.
    - destruct Hc as (? & cl & Hl & ?). split; [done|]. exists cl. split; [|done]. by apply lookup_app_l_Some.
  Qed.

  Definition P_of (debt : wduty) (cur : list cb) (x : st) (w : nat) : duty := fun gn i q =>
    debt w gn i q \/ exists c, (c ∈ cur \/ exists k, c ∈ pending k x.2) /\ resp c w gn i q.

  Record winv (x : st) (cur : list cb) (debt : wduty) (w : nat) (I : winfo) : Prop := {
    wi_wf : w_wfs x.1 !! w = Some (Wf (j_graph (wi_job I)) (j_query (wi_job I)) (wi_ts I) (idx_of x w));
    wi_reached : reached E J0 (wi_job I);
    wi_sound : sound E D (wi_job I) (wi_ids I) (idx_of x w);
    wi_this : is_Some (j_this (wi_job I)) -> is_Some (dget this_slot (idx_of x w));
    wi_cov : covered E D (wi_job I) (wi_ids I) (idx_of x w) (P_of debt cur x w);
  }.
  (** [k]: the key whose callbacks [cur] are being run; [debt]: duties taken over by the code being run *)
  Record einv (Is : list winfo) (x : st) (k : ckey) (cur : list cb) (debt : wduty) : Prop := {
    ei_len : length (w_wfs x.1) = length Is;
    ei_wf : forall w I, Is !! w = Some I -> winv x cur debt w I;
    ei_top : exists I, Is !! 0 = Some I /\ wi_job I = J0;
    ei_cbs : forall k c, c ∈ pending k x.2 -> cb_ok Is (w_log x.1) k c;
    ei_cur : forall c, c ∈ cur -> cb_ok Is (w_log x.1) k c;
    ei_chain : forall k, chain (fun w gn i r => stored (idx_of x w) gn i r) (pending k x.2);
    ei_chainc : chain (fun w gn i r => stored (idx_of x w) gn i r) cur;
    ei_log : forall c, c ∈ w_log x.1 -> exists I, I ∈ Is /\ job_call E D J0 (wi_job I) c;
  }.

  Lemma covered_mono J ids idx (P : duty) idx' (P' : duty) :
    (forall gn i q, P gn i q -> cov E D J idx' P' gn i q) ->
    (forall gn i k, stored idx gn i k -> stored idx' gn i k) ->
    covered E D J ids idx P -> covered E D J ids idx' P'.
  Proof.
    intros HP Hst [H1 H2]. split.
    - intros q Hq. eapply cov_mono; [exact HP|exact Hst|]. by apply H1.
    - intros gn n j q Hj Hi Hq. eapply cov_mono; [exact HP|exact Hst|]. by eapply H2.
  Qed.

  (** Effect of scheduling code on the state *)
  Record grow (Is Is' : list winfo) (x x' : st) : Prop := {
    gr_is : exists l, Is' = Is ++ l;
    gr_idx : forall w, w < length Is -> idx_of x' w = idx_of x w;
    gr_pend : forall k c, c ∈ pending k x.2 -> c ∈ pending k x'.2;
    gr_live : forall t, live x.2 t -> live x'.2 t;
    gr_log : exists l, w_log x'.1 = w_log x.1 ++ l;
  }.
  Lemma grow_refl Is x : grow Is Is x x.
  Proof. split; try done; exists []; by rewrite app_nil_r. Qed.
  Lemma grow_trans Is1 Is2 Is3 x y z : grow Is1 Is2 x y -> grow Is2 Is3 y z -> grow Is1 Is3 x z.
  Proof.
    intros [[l1 H1] H2 H3 H4 [l5 H5]] [[l1' H1'] H2' H3' H4' [l5' H5']]. split; [| |eauto|eauto|].
    - exists (l1 ++ l1'). rewrite H1', H1. by rewrite app_assoc.
    - intros w Hw. rewrite H2', H2; [done|done|]. rewrite H1, app_length. lia.
    - exists (l5 ++ l5'). rewrite H5', H5. by rewrite app_assoc.
  Qed.
  Lemma grow_info Is Is' x x' w I : grow Is Is' x x' -> Is !! w = Some I -> Is' !! w = Some I.
  Proof. intros [[l ->] _ _ _ _]. apply lookup_app_l_Some. Qed.
  Lemma grow_stored Is Is' x x' w I gn i r : grow Is Is' x x' -> Is !! w = Some I -> stored (idx_of x w) gn i r -> stored (idx_of x' w) gn i r.
  Proof. intros Hg HI. rewrite (gr_idx _ _ _ _ Hg w); [done|]. by eapply lookup_lt_Some. Qed.

  Lemma einv_sub Is x k cur (debt debt' : wduty) :
    einv Is x k cur debt -> (forall w gn i q, debt w gn i q -> debt' w gn i q) -> einv Is x k cur debt'.
  Proof.
    intros [H1 H2 H3 H4 H5 H6 H7 H8] Hd. split; try done. intros w I HI. destruct (H2 w I HI) as [W1 W2 W3 W4 W5]. split; try done.
    eapply covered_mono; [| |exact W5]; [|done]. intros gn i q [Hx|Hx]; apply cov_P; [left; auto|by right].
  Qed.

  Lemma get_wf_ok Is x k cur debt w I : einv Is x k cur debt -> Is !! w = Some I ->
    get_wf w x = Ok (Wf (j_graph (wi_job I)) (j_query (wi_job I)) (wi_ts I) (idx_of x w)).
  Proof. intros Hi HI. unfold get_wf. by rewrite (wi_wf _ _ _ _ _ (ei_wf _ _ _ _ _ Hi w I HI)). Qed.

  Lemma submit_spec Is x k cur debt w I f a :
    einv Is x k cur debt -> Is !! w = Some I -> live x.2 (wi_ts I) -> job_call E D J0 (wi_job I) (Call f (e_ctx E f) a) ->
    exists x1, submit E w f a x = Ok (length (w_log x.1), x1) /\ einv Is x1 k cur debt /\ grow Is Is x x1 /\
      w_log x1.1 = w_log x.1 ++ [Call f (e_ctx E f) a].
  Proof.
    intros Hi HI [Hl _] Hc. unfold submit. rewrite (get_wf_ok _ _ _ _ _ _ _ Hi HI). cbn [wf_ts].
    set (c := Call f (e_ctx E f) a) in *. set (n := length (w_log x.1)) in *.
    apply dget_is_Some in Hl as [l Hl]. unfold q_submit. rewrite Hl.
    match goal with |- context [MkQ ?a ?b ?c ?d ?e ?f] => set (q' := MkQ a b c d e f) end.
    exists (World (w_wfs x.1) (w_log x.1 ++ [c]), q').
    assert (forall k, pending k q' = pending k x.2) as Hp by done.
    split; [|split; [|split]].
    - destruct (Hserve n c) as (r & Hr & _); [by eapply job_call_met|]. destruct (e_eager E); [|done]. by destruct (e_oracle E n c).
    - destruct Hi as [H1 H2 H3 H4 H5 H6 H7 H8]. split; try done; simpl.
      + intros w' I' HI'. destruct (H2 w' I' HI') as [W1 W2 W3 W4 W5]. split; done.
      + intros k' c' Hc'. rewrite <-(app_nil_r Is). apply cb_ok_mono. by apply H4.
      + intros c' Hc'. rewrite <-(app_nil_r Is). apply cb_ok_mono. by apply H5.
      + intros c'. rewrite elem_snoc'. intros [Hx| ->]; [by apply H8|]. exists I. split; [|done]. by eapply elem_of_list_lookup_2.
    - split; try done.
      + exists []. by rewrite app_nil_r.
      + intros t Ht. eapply (live_op (OSubmit (wi_ts I)) x.2); [|exact Ht]. cbn. unfold q_submit. by rewrite Hl.
      + by eexists.
    - done.
  Qed.

  Lemma add_spec Is x k cur (debt : wduty) k' c :
    einv Is x k cur (fun w gn i q => debt w gn i q \/ resp c w gn i q) -> cb_ok Is (w_log x.1) k' c ->
    (forall w gn i r, need c w gn i r -> stored (idx_of x w) gn i r \/ exists c', c' ∈ pending k' x.2 /\ provides c' w gn i r) ->
    einv Is (add_cb k' c x) k cur debt /\ grow Is Is x (add_cb k' c x) /\ c ∈ pending k' (add_cb k' c x).2.
  Proof.
    intros Hi Hc Hn.
    assert (forall k, pending k (q_add k' c x.2) = if decide (k = k') then pending k x.2 ++ [c] else pending k x.2) as Hp.
    { intros k0. rewrite pending_add. case_decide; [done|by rewrite app_nil_r]. }
    split; [|split].
    - destruct Hi as [H1 H2 H3 H4 H5 H6 H7 H8]. split; try done; simpl.
      + intros w I HI. destruct (H2 w I HI) as [W1 W2 W3 W4 W5]. split; try done.
        eapply covered_mono; [| |exact W5]; [|done]. intros gn i q [[Hx|Hx]|(c' & Hc' & Hr)]; apply cov_P.
        * by left.
        * right. exists c. split; [|done]. right. exists k'. cbn. rewrite Hp, decide_True by done. apply elem_snoc'. by right.
        * right. exists c'. split; [|done]. destruct Hc' as [?|[k0 Hk]]; [by left|]. right. exists k0. cbn.
          rewrite Hp. destruct (decide _); [|done]. apply elem_snoc'. by left.
      + intros k0 c'. rewrite Hp. destruct (decide _) as [->|]; rewrite ?elem_snoc'; [|apply H4].
        intros [?| ->]; [by apply H4|done].
      + intros k0. rewrite Hp. destruct (decide _) as [->|]; [|apply H6]. apply chain_snoc; [apply H6|]. done.
    - split; try done.
      + exists []. by rewrite app_nil_r.
      + intros k0 c' Hc'. cbn. rewrite Hp. destruct (decide _); [|done]. apply elem_snoc'. by left.
      + exists []. by rewrite app_nil_r.
    - simpl. rewrite Hp, decide_True by done. apply elem_snoc'. by right.
  Qed.

  (** The debts of the objects [ids] of [gn] for some items *)
  Definition plus (debt : wduty) (w0 : nat) (gn0 : gnode) (ids : option (list val)) (items : qitem -> Prop) : wduty :=
    fun w gn i q => debt w gn i q \/ (w = w0 /\ gn = gn0 /\ i ∈ oids ids /\ items q).
  Lemma plus_sub (debt debt' : wduty) w gn ids (P P' : qitem -> Prop) :
    (forall w gn i q, debt w gn i q -> debt' w gn i q) ->
    (forall q, P q -> P' q \/ (forall i, i ∈ oids ids -> debt' w gn i q)) ->
    forall w' gn' i q, plus debt w gn ids P w' gn' i q -> plus debt' w gn ids P' w' gn' i q.
  Proof. intros H1 H2 w' gn' i q [Hx|(-> & -> & Hi & Hq)]; [left; auto|]. destruct (H2 q Hq) as [?|Hd]; [by right|left; auto]. Qed.

  (** A dependency: some callback pending on it stores the fields *)
  Definition dep_ok (w : nat) (gn : gnode) (ids : option (list val)) (items : list qitem) (d : ckey) (x : st) : Prop :=
    exists c, c ∈ pending d x.2 /\ forall i r, i ∈ oids ids -> QF r None None ∈ items -> provides c w gn i r.
  Lemma dep_ok_grow Is Is' w gn ids items d x y : grow Is Is' x y -> dep_ok w gn ids items d x -> dep_ok w gn ids items d y.
  Proof. intros Hg (c & Hc & Hp). exists c. split; [by apply Hg|done]. Qed.

  (** [pn] works for workflows of levels below [K] *)
  Definition pn_spec (pn : nat -> gnode -> qnode -> option (list val) -> st -> res st) (K : nat) : Prop :=
    forall Is x k cur debt w I gn n ids,
      Is !! w = Some I -> j_level (wi_job I) < K -> jvisited (wi_job I) gn n ->
      einv Is x k cur (plus debt w gn ids (fun q => q ∈ qfields n)) -> live x.2 (wi_ts I) -> met_ids E D J0 (wi_job I) gn n ids ->
      exists Is' x', pn w gn n ids x = Ok x' /\ einv Is' x' k cur debt /\ grow Is Is' x x'.

  Section node.
    Variable pn : nat -> gnode -> qnode -> option (list val) -> st -> res st.
    Variable K : nat.
    Hypothesis Hpn : pn_spec pn K.

    Lemma sub_call_spec Is x k cur debt w I gn n sg fields ids t :
      einv Is x k cur debt -> Is !! w = Some I -> j_level (wi_job I) <= K ->
      sfld (wi_job I) gn n sg fields -> met_ids E D J0 (wi_job I) gn n (Some ids) -> live x.2 t ->
      exists Is' x' J', sub_job E (wi_job I) gn sg (map snd fields) = Some J' /\
        sub_call E pn sg fields ids t x
        = Ok (length Is, zip (map (fun p => proc_of p.1) fields) (map (fun p => given_go p.1 (q_opts p.2)) fields), x') /\
        einv Is' x' k cur debt /\ grow Is Is' x x' /\ Is' !! length Is = Some (Info J' ids t).
    Proof.
      intros Hi HI HK Hs [Ho Hmi] Hlive. pose proof (wi_reached _ _ _ _ _ (ei_wf _ _ _ _ _ Hi w I HI)) as Hre.
      pose proof (Hsup _ Hre) as HsJ.
      destruct (js_groups _ _ HsJ gn n sg (map snd fields)) as [J' HJ']; [apply Hs|apply Hs|].
      assert (0 < j_level (wi_job I)) as Hpos.
      { pose proof Hs as (_ & (Hne & _) & _). destruct fields as [|[go q] fields]; [done|].
        destruct (sfld_item E (wi_job I) HsJ gn n sg _ go q Hs ltac:(left)) as (_ & _ & f & rq & pr & _ & _ & _ & Hp & _). done. }
      destruct (sub_job_inv E (wi_job I) _ _ _ _ HJ') as (G' & node & gn' & tq & Hsg & Hn' & Htq & Htl & HJe).
      set (rq := merge (map (reqs_for gn) (map snd fields))) in *.
      assert (reached E J0 J') as Hre'.
      { eapply re_sub; [exact Hre|apply Hs|apply Hs|exact HJ']. }
      assert (J' = Job G' rq (QN (of_root rq) false) (Some (gn', q_node tq)) (pred (j_level (wi_job I)))) as HJ2 by done. clear HJe.
      pose proof (Hsup _ Hre') as HsJ'.
      assert (q_name tq = THIS /\ q_opts tq = None) as [Htn Hto].
      { destruct (tq_in J' gn' tq) as [Hin Hn]; [by rewrite HJ2|by rewrite HJ2|done|]. split; [done|].
        apply (merged_bare J' (map (reqs_for gn) (map snd fields))); [by rewrite HJ2|by eapply (fields_bare E (wi_job I))|done]. }
      unfold sub_call. rewrite Hsg, (fields_reqs _ _ HsJ _ _ _ _ Hs), (fields_options _ _ HsJ _ _ _ _ Hs).
      fold rq. rewrite Htq.
      set (w' := length (w_wfs x.1)). pose proof (ei_len _ _ _ _ _ Hi) as Hlen.
      set (x1 := (World (w_wfs x.1 ++ [Wf G' rq t []]) (w_log x.1), x.2) : st).
      assert (w_wfs x1.1 !! w' = Some (Wf G' rq t [])) as Hw1 by (by apply list_lookup_middle).
      assert (ids <> []) as Hne by apply Ho.
      unfold process_link. unfold get_wf at 1. rewrite Hw1. cbn [from_opt wf_index wf_graph].
      assert (store_links [] (g_root G') (GLink THIS Many node 0 None []) tq None (VList ids)
              = Ok (dset this_slot (IRefs (map (fun i => (node, i)) ids)) [])) as ->.
      { unfold store_links, check_store_links. cbn. unfold link_ref. cbn. unfold index_key. rewrite Hto, Htn. done. }
      cbn [gl_enum gl_node gl_requires link_result_to_ids iter_of].
      set (idx0 := dset this_slot _ []). set (x2 := set_index w' idx0 x1).
      set (J2 := Info J' ids t).
      assert (forall v, v < length Is -> idx_of x2 v = idx_of x v) as Hold.
      { intros v Hv. unfold x2. rewrite idx_of_set, decide_False by lia. unfold idx_of, x1. cbn. by rewrite lookup_app_l by lia. }
      assert (idx_of x2 w' = idx0) as Hnew.
      { unfold x2. rewrite idx_of_set, decide_True by done. by rewrite Hw1. }
      set (debt2 := plus (plus debt w' (g_root G') None (fun q => q ∈ of_root rq)) w' gn' (Some ids) (fun q => q ∈ qfields (q_node tq))).
      assert (einv (Is ++ [J2]) x2 k cur debt2) as Hi2.
      { destruct Hi as [H1 H2 H3 H4 H5 H6 H7 H8]. split.
        - unfold x2, set_index. cbn. rewrite alter_length, !app_length. cbn. lia.
        - intros v I' HI'. apply lookup_app_Some in HI' as [HI'|[Hge HI']].
          + assert (v < length Is) as Hv by by eapply lookup_lt_Some. destruct (H2 v I' HI') as [W1 W2 W3 W4 W5]. split; rewrite ?Hold by done; try done.
            * unfold x2, set_index. cbn. rewrite list_lookup_alter_ne by lia. by rewrite lookup_app_l by lia.
            * eapply covered_mono; [| |exact W5]; [|done]. intros gn0 i q [Hx|Hx]; apply cov_P; [left; left; by left|by right].
          + apply list_lookup_singleton_Some in HI' as [Hv <-]. assert (v = w') as -> by lia. cbn [wi_job wi_ids wi_ts J2]. split; rewrite ?Hnew; cbn [wi_job wi_ids wi_ts J2].
            * unfold x2, set_index. cbn [fst w_wfs]. rewrite list_lookup_alter, Hw1. by rewrite HJ2.
            * done.
            * intros k0 v0 Hv0. unfold idx0 in Hv0. rewrite dget_dset in Hv0. destruct (decide _) as [->|]; [|done]. injection Hv0 as <-.
              right. split; [done|]. exists gn', (q_node tq), node. rewrite HJ2. cbn. split; [done|]. split; [|done]. by eapply find_node_name.
            * intros _. unfold idx0. rewrite dget_dset_eq. eauto.
            * rewrite HJ2. split; cbn.
              -- intros q Hq. apply cov_P. left. left. right. split; [done|]. split; [done|]. split; [left|done].
              -- intros gn0 n0 j q [= <- <-] Hj Hq. apply cov_P. left. right. split; [done|]. split; [done|]. split; [|done]. by apply elem_of_list_fmap_1.
        - destruct H3 as (I0 & HI0 & HJ0). exists I0. split; [by apply lookup_app_l_Some|done].
        - intros k0 c Hc. rewrite <-(app_nil_r (w_log _)). apply cb_ok_mono. by apply H4.
        - intros c Hc. rewrite <-(app_nil_r (w_log _)). apply cb_ok_mono. by apply H5.
        - intros k0. eapply chain_mono; [|apply H6]. intros v gn0 i r Hst. cbn. destruct (decide (v < length Is)) as [Hv|Hv]; [by rewrite Hold|].
          exfalso. unfold idx_of in Hst. rewrite lookup_ge_None_2 in Hst by lia. destruct Hst as [? [=]].
        - eapply chain_mono; [|apply H7]. intros v gn0 i r Hst. cbn. destruct (decide (v < length Is)) as [Hv|Hv]; [by rewrite Hold|].
          exfalso. unfold idx_of in Hst. rewrite lookup_ge_None_2 in Hst by lia. destruct Hst as [? [=]].
        - intros c Hc. destruct (H8 c Hc) as (I' & HI' & Hc'). exists I'. split; [apply elem_of_app; by left|done]. }
      assert (grow Is (Is ++ [J2]) x x2) as Hg2.
      { split; [by eexists|done|done|done|]. exists []. cbn. by rewrite app_nil_r. }
      assert ((Is ++ [J2]) !! w' = Some J2) as HJw by (unfold w'; rewrite Hlen; by apply list_lookup_middle).
      assert (j_level J' < K) as HlJ by (rewrite HJ2; cbn; lia).
      destruct (Hpn (Is ++ [J2]) x2 k cur (plus debt w' (g_root G') None (fun q => q ∈ of_root rq)) w' J2 gn' (q_node tq) (Some ids)) as (Is3 & x3 & Hx3 & Hi3 & Hg3); try done.
      { eapply jv_this. cbn. by rewrite HJ2. }
      { split; [cbn; split; [done|]; rewrite HJ2; cbn; eauto|]. intros i Hi'. pose proof Hi' as (j & -> & _)%elem_of_list_fmap.
        eapply (mt_this _ _ _ _ gn j n sg); [by apply Hmi|apply Hs|exact HJ'|]. subst J'. done. }
      destruct (Hpn Is3 x3 k cur debt w' J2 (g_root G') (QN (of_root rq) false) None) as (Is4 & x4 & Hx4 & Hi4 & Hg4); try done.
      { by eapply grow_info. }
      { replace G' with (j_graph J') by (by rewrite HJ2). replace (QN (of_root rq) false) with (j_root J') by (by rewrite HJ2). apply jv_root. }
      { apply Hg3. done. }
      { split; [cbn; by rewrite HJ2|]. intros i ->%elem_of_list_singleton. destruct ids as [|i0 ids]; [done|].
        pose proof (mt_sub E D J0 (wi_job I) gn i0 n sg (map snd fields) J' (Hmi _ ltac:(left)) (proj1 (proj2 Hs)) HJ') as Hx. subst J'. exact Hx. }
      exists Is4, x4, J'. split; [done|]. destruct ids as [|i0 ids]; [done|]. rewrite Hn', Htl.
      split; [|split; [done|split; [|by eapply grow_info; [exact Hg4|]; eapply grow_info; [exact Hg3|]; rewrite <-Hlen]]].
      - fold x2. rewrite Hx3.
        change (QN (List.filter (fun r => negb (bool_decide (q_name r = THIS))) (qfields rq)) false) with (QN (of_root rq) false).
        rewrite Hx4. unfold w'. by rewrite Hlen.
      - eapply grow_trans; [exact Hg2|]. by eapply grow_trans.
    Qed.

    Lemma schedule_fields_spec Is x k cur debt w I gn n fk fields ids :
      Is !! w = Some I -> j_level (wi_job I) <= K ->
      einv Is x k cur (plus debt w gn ids (fun q => q ∈ map snd fields)) ->
      live x.2 (wi_ts I) -> met_ids E D J0 (wi_job I) gn n ids -> fields_ok (wi_job I) gn n fk fields ->
      exists Is' d x', schedule_fields E pn w gn fk fields ids x = Ok (d, x') /\ einv Is' x' k cur debt /\ grow Is Is' x x' /\
        dep_ok w gn ids (map snd fields) d x'.
    Proof.
      intros HI HK Hi Hl Ho Hf. unfold schedule_fields. destruct fk as [f|sg]; simpl in Hf.
      - assert (field_call E (wi_job I) gn n (map snd fields) ids f (Call f (e_ctx E f) (AFields (map snd fields) ids))) as Hfc.
        { destruct Hf as [Hf1 Hf2]. split; [done|]. split; [done|]. intros q Hq. apply elem_of_list_fmap in Hq as (p & -> & Hp). auto. }
        destruct (submit_spec Is x k cur _ w I f (AFields (map snd fields) ids) Hi HI Hl) as (x1 & Hs & Hi1 & Hg1 & Hlog).
        { left. eauto 10. }
        rewrite Hs. set (fut := length (w_log x.1)) in *.
        destruct (add_spec Is x1 k cur debt (KF fut) (CbStore w gn (map snd fields) ids fut)) as (H1 & H2 & H3).
        { eapply einv_sub; [exact Hi1|]. intros w' gn' i q [Hx|(-> & -> & Hx & Hq)]; [by left|]. right. done. }
        { exists I, n. split; [done|]. split; [done|]. eexists _, _. split; [|exact Hfc]. rewrite Hlog.
          unfold fut. by apply list_lookup_middle. }
        { by intros w' gn' i r [_ []]. }
        eexists Is, (KF fut), _. split; [done|]. split; [done|]. split; [by eapply grow_trans|].
        eexists. split; [exact H3|]. intros i r Hx Hq. done.
      - pose proof Hf as Hs. pose proof (wi_reached _ _ _ _ _ (ei_wf _ _ _ _ _ Hi w I HI)) as Hre.
        assert (exists is_, ids = Some is_) as (is_ & ->).
        { destruct ids as [is_|]; [eauto|]. exfalso. destruct Ho as [Ho _]. cbn in Ho. subst gn. pose proof Hs as (_ & (Hne & _) & _).
          destruct fields as [|[go q] fields]; [done|].
          destruct (sfld_item E (wi_job I) (Hsup _ Hre) _ n sg _ go q Hs ltac:(left)) as (_ & _ & f & rq & pr & _ & _ & Hp & _). by destruct Hp. }
        rewrite (get_wf_ok _ _ _ _ _ _ _ Hi HI). cbn [wf_ts].
        pose proof Hl as [Hl1 Hl2]. apply dget_is_Some in Hl2 as [l Hl2].
        assert (exists l', dget (wi_ts I) (dset (q_nts x.2) [] (q_forks x.2)) = Some l') as [l' Hl'].
        { rewrite dget_dset. destruct (decide _); eauto. }
        assert (exists t q1, q_fork (Some (wi_ts I)) x.2 = Ok (t, q1) /\ live q1 t /\ (forall k, pending k q1 = pending k x.2)) as (t & q1 & Hq & Hlt & Hp).
        { unfold q_fork. rewrite Hl'. eexists _, _. split; [done|]. split; [|done]. split; cbn.
          - apply dget_is_Some. rewrite dget_dset_eq. eauto.
          - apply dget_is_Some. rewrite dget_dset. destruct (decide _); [eauto|]. rewrite dget_dset_eq. eauto. }
        rewrite Hq.
        assert (einv Is (x.1, q1) k cur (plus debt w gn (Some is_) (fun q => q ∈ map snd fields))) as Hi1.
        { destruct Hi as [H1 H2 H3 H4 H5 H6 H7 H8]. split; try done; cbn.
          - intros w0 I0 HI0. destruct (H2 w0 I0 HI0) as [W1 W2 W3 W4 W5]. split; try done.
            eapply covered_mono; [| |exact W5]; [|done]. intros gn0 i q [Hx|(c & Hc & Hr)]; apply cov_P; [by left|]. right. exists c.
            split; [|done]. destruct Hc as [?|[k0 Hc]]; [by left|]. right. exists k0. cbn. by rewrite Hp.
          - intros k0 c. rewrite Hp. apply H4.
          - intros k0. rewrite Hp. apply H6. }
        assert (grow Is Is x (x.1, q1)) as Hg1.
        { split; try done.
          - exists []. by rewrite app_nil_r.
          - intros k0 c. cbn. by rewrite Hp.
          - intros t0 Ht0. eapply (live_op (OFork (Some (wi_ts I))) x.2); [|exact Ht0]. unfold apply_op. by rewrite Hq.
          - exists []. by rewrite app_nil_r. }
        destruct (sub_call_spec Is (x.1, q1) k cur _ w I gn n sg fields is_ t Hi1 HI HK Hs Ho Hlt) as (Is2 & x2 & J' & HJ' & Hc2 & Hi2 & Hg2 & HI2).
        rewrite Hc2.
        destruct (add_spec Is2 x2 k cur debt (KT t) (CbStoreSub w gn (map snd fields) (Some is_) (length Is)
          (zip (map (fun p => proc_of p.1) fields) (map (fun p => given_go p.1 (q_opts p.2)) fields)))) as (H1 & H2 & H3).
        { eapply einv_sub; [exact Hi2|]. intros w' gn' i q [Hx|(-> & -> & Hx & Hq')]; [by left|]. right. done. }
        { exists I, n. split; [cbn; by eapply grow_info|]. exists (Info J' is_ t), sg, fields, is_. done. }
        { by intros w' gn' i r [_ []]. }
        eexists Is2, (KT t), _. split; [done|]. split; [done|]. split; [eapply grow_trans; [exact Hg1|]; by eapply grow_trans|].
        eexists. split; [exact H3|]. intros i r Hx Hq'. done.
    Qed.

    Lemma schedule_link_spec Is x k cur debt w I gn n l q ids :
      Is !! w = Some I ->
      einv Is x k cur (plus debt w gn ids (fun q' => q' = q)) ->
      live x.2 (wi_ts I) -> met_ids E D J0 (wi_job I) gn n ids -> lnk (wi_job I) gn n l q ->
      (forall i r, i ∈ oids ids -> gl_requires l = Some r -> stored (idx_of x w) gn i r) ->
      exists d x', schedule_link E w gn l q ids x = Ok (d, x') /\ einv Is x' k cur debt /\ grow Is Is x x'.
    Proof.
      intros HI Hi Hl Ho Hlk Hst. pose proof (ei_wf _ _ _ _ _ Hi w I HI) as Hw.
      pose proof (Hsup _ (wi_reached _ _ _ _ _ Hw)) as HsJ.
      unfold schedule_link. rewrite (get_wf_ok _ _ _ _ _ _ _ Hi HI). cbn [wf_index].
      rewrite (lnk_req_true E _ HsJ _ _ _ _ Hlk).
      assert (match gl_requires l with
              | Some r => match link_reqs (idx_of x w) gn r ids with Ok a => Ok (Some a) | Err e => Err e end
              | None => Ok None
              end = Ok (req_arg E D (wi_job I) gn l ids)) as Hrq.
      { destruct (gl_requires l) as [r|] eqn:Er.
        - destruct (lnk_req E _ HsJ _ _ _ _ _ Hlk Er) as (Hne & Hask & Hf).
          destruct (link_reqs_spec E D (wi_job I) (wi_ids I) Hresp Hreads HsJ (idx_of x w) gn l r ids) as (a & -> & ->); try done; [apply Hw|apply Ho|eauto].
        - unfold req_arg. by rewrite Er. }
      rewrite Hrq.
      change (match gl_opts l with [] => None | _ :: _ => Some (q_opts q) end) with (link_opts l q).
      assert (link_call E D (wi_job I) gn n l q ids (Call (gl_func l) (e_ctx E (gl_func l)) (ALink (req_arg E D (wi_job I) gn l ids) (link_opts l q)))) as Hlc by done.
      destruct (submit_spec Is x k cur _ w I (gl_func l) (ALink (req_arg E D (wi_job I) gn l ids) (link_opts l q)) Hi HI Hl) as (x1 & Hs & Hi1 & Hg1 & Hlog).
      { right. eauto 10. }
      rewrite Hs. set (fut := length (w_log x.1)) in *.
      destruct (add_spec Is x1 k cur debt (KF fut) (CbLink w gn l q ids fut)) as (H1 & H2 & H3).
      { eapply einv_sub; [exact Hi1|]. intros w' gn' i q' [Hx|(-> & -> & Hx & Hq)]; [by left|]. right. done. }
      { exists I, n. split; [done|]. split; [done|]. eexists _. split; [|exact Hlc]. rewrite Hlog. unfold fut. by apply list_lookup_middle. }
      { by intros w' gn' i r [_ []]. }
      eexists (KF fut), _. split; [done|]. split; [done|]. by eapply grow_trans.
    Qed.

    Lemma proc_steps_spec Is x k cur debt w I gn n steps ids :
      Is !! w = Some I -> j_level (wi_job I) <= K ->
      steps <> [] -> (forall sp, sp ∈ steps -> step_ok (wi_job I) gn n sp) ->
      einv Is x k cur (plus debt w gn ids (fun q => exists sp, sp ∈ steps /\ q ∈ step_items sp)) ->
      live x.2 (wi_ts I) -> met_ids E D J0 (wi_job I) gn n ids ->
      (forall i r, i ∈ oids ids -> need_steps steps r -> stored (idx_of x w) gn i r) ->
      exists Is' x', proc_steps E pn w gn steps ids x = Ok x' /\ einv Is' x' k cur debt /\ grow Is Is' x x'.
    Proof.
      intros HI HK Hne Hok Hi Ha Ho Hn. destruct steps as [|sp rest]; [done|]. clear Hne.
      set (debt' := plus debt w gn ids (fun q => exists sp, sp ∈ rest /\ q ∈ step_items sp)).
      assert (exists Is1 d x1, match sp with
                     | StFields fk l => schedule_fields E pn w gn fk l ids x
                     | StLink l q => schedule_link E w gn l q ids x
                     end = Ok (d, x1) /\ einv Is1 x1 k cur debt' /\ grow Is Is1 x x1 /\
                     forall i r, i ∈ oids ids -> need_steps rest r ->
                       stored (idx_of x1 w) gn i r \/ exists c', c' ∈ pending d x1.2 /\ provides c' w gn i r)
        as (Is1 & d & x1 & Hs & Hi1 & Hg1 & Hn1).
      { destruct sp as [fk l|l q].
        - destruct (schedule_fields_spec Is x k cur debt' w I gn n fk l ids) as (Is1 & d & x1 & Hs & Hi1 & Hg1 & (c & Hc & Hp)); try done.
          { eapply einv_sub; [exact Hi|]. intros w' gn' i q' [Hx|(-> & -> & Hx & sp & Hsp & Hq)]; [left; by left|].
            apply elem_of_cons in Hsp as [->|Hsp]; [by right|]. left. right. eauto 10. }
          { apply (Hok (StFields fk l)). left. }
          exists Is1, d, x1. split; [done|]. split; [done|]. split; [done|].
          intros i r Hi' Hr. destruct (existsb (is_req r) (map snd l)) eqn:Ex.
          + right. exists c. split; [done|]. apply Hp; [done|].
            apply existsb_exists in Ex as (q & Hq & Hr'). apply is_req_eq in Hr' as ->. by apply elem_of_list_In.
          + left. eapply grow_stored; [exact Hg1|exact HI|]. by apply Hn.
        - destruct (schedule_link_spec Is x k cur debt' w I gn n l q ids) as (d & x1 & Hs & Hi1 & Hg1); try done.
          { eapply einv_sub; [exact Hi|]. intros w' gn' i q' [Hx|(-> & -> & Hx & sp & Hsp & Hq)]; [left; by left|].
            apply elem_of_cons in Hsp as [->|Hsp]; [right; simpl in Hq; by apply elem_of_list_singleton in Hq|]. left. right. eauto 10. }
          { apply (Hok (StLink l q)). left. }
          { intros i r Hi' Hr. apply Hn; [done|]. by left. }
          exists Is, d, x1. split; [done|]. split; [done|]. split; [done|].
          intros i r Hi' Hr. left. eapply grow_stored; [exact Hg1|exact HI|]. apply Hn; [done|]. by right. }
      unfold proc_steps. rewrite Hs. destruct rest as [|sp' rest].
      - eexists Is1, _. split; [done|]. split; [|done]. eapply einv_sub; [exact Hi1|].
        intros w' gn' i q' [Hx|(_ & _ & _ & sp' & Hsp & _)]; [done|]. by apply not_elem_of_nil in Hsp.
      - set (rest' := sp' :: rest) in *.
        destruct (add_spec Is1 x1 k cur debt d (CbProc w gn rest' ids)) as (H1 & H2 & H3).
        { eapply einv_sub; [exact Hi1|]. intros w' gn' i q' [Hx|(-> & -> & Hx & Hq)]; [by left|]. right. done. }
        { exists I, n. split; [cbn; by eapply grow_info|]. split; [done|]. split; [done|]. intros s' Hs'. apply Hok. by right. }
        { intros w' gn' i r (Hw & -> & Hx & Hy). simpl in Hw. subst w'. by apply Hn1. }
        eexists Is1, _. split; [done|]. split; [done|]. by eapply grow_trans.
    Qed.

    Lemma schedule_groups_spec Is x k cur debt w I gn n ids (groups : dict fkey (list (gitem * qitem))) :
      Is !! w = Some I -> j_level (wi_job I) <= K ->
      NoDup (dkeys groups) ->
      (forall fk items, (fk, items) ∈ groups -> fields_ok (wi_job I) gn n fk items) ->
      einv Is x k cur (plus debt w gn ids (fun q => exists fk items, (fk, items) ∈ groups /\ q ∈ map snd items)) ->
      live x.2 (wi_ts I) -> met_ids E D J0 (wi_job I) gn n ids ->
      exists Is' to_dep x', schedule_groups E pn w gn ids groups x = Ok (to_dep, x') /\
        einv Is' x' k cur debt /\ grow Is Is' x x' /\
        (forall fk items, (fk, items) ∈ groups -> exists d, dget fk to_dep = Some d /\ dep_ok w gn ids (map snd items) d x').
    Proof.
      intros HI0 HK. unfold schedule_groups.
      assert (forall (todo : dict fkey (list (gitem * qitem))) (seen : dict fkey (list (gitem * qitem))) (acc : dict fkey ckey) Is x,
        Is !! w = Some I ->
        NoDup (dkeys (seen ++ todo)) ->
        (forall fk items, (fk, items) ∈ todo -> fields_ok (wi_job I) gn n fk items) ->
        einv Is x k cur (plus debt w gn ids (fun q => exists fk items, (fk, items) ∈ todo /\ q ∈ map snd items)) ->
        live x.2 (wi_ts I) -> met_ids E D J0 (wi_job I) gn n ids ->
        (forall fk items, (fk, items) ∈ seen -> exists d, dget fk acc = Some d /\ dep_ok w gn ids (map snd items) d x) ->
        exists Is' to_dep x', foldR (fun acc g =>
                 match schedule_fields E pn w gn g.1 g.2 ids acc.2 with
                 | Ok (dep, x') => Ok (dset g.1 dep acc.1, x')
                 | Err e => Err e
                 end) (acc, x) todo = Ok (to_dep, x') /\
          einv Is' x' k cur debt /\ grow Is Is' x x' /\
          (forall fk items, (fk, items) ∈ seen ++ todo -> exists d, dget fk to_dep = Some d /\ dep_ok w gn ids (map snd items) d x')) as Hgen.
      { induction todo as [|[fk items] todo IH]; intros seen acc Is0 x0 HI Hnd Hfl Hi Ha Ho Hseen; cbn [foldR].
        - eexists _, _, _. split; [done|]. split; [|split; [apply grow_refl|by rewrite app_nil_r]].
          eapply einv_sub; [exact Hi|]. intros w' gn' i q [Hx|(_ & _ & _ & fk & items & Hx & _)]; [done|]. by apply not_elem_of_nil in Hx.
        - destruct (schedule_fields_spec Is0 x0 k cur (plus debt w gn ids (fun q => exists fk items, (fk, items) ∈ todo /\ q ∈ map snd items))
            w I gn n fk items ids) as (Is1 & d1 & x1 & Hs & Hi1 & Hg1 & Hdep); try done.
          { eapply einv_sub; [exact Hi|]. intros w' gn' i q' [Hx|(-> & -> & Hx & fk' & it & Hin & Hq)].
            - left. by left.
            - apply elem_of_cons in Hin as [Heq|Hin]; [simplify_eq; by right|]. left. right. eauto 10. }
          { apply Hfl. left. }
          cbn [fst snd]. rewrite Hs.
          destruct (IH (seen ++ [(fk, items)]) (dset fk d1 acc) Is1 x1) as (Is2 & to_dep & x2 & Hr & Hi2 & Hg2 & Hd2).
          + by eapply grow_info.
          + by rewrite <-app_assoc.
          + intros fk' it Hin. apply Hfl. by right.
          + done.
          + by apply Hg1.
          + done.
          + intros fk' it Hin. apply elem_snoc' in Hin as [Hin|Heq].
            * destruct (Hseen _ _ Hin) as (d & Hd & Hdok). exists d. split; [|by eapply dep_ok_grow].
              rewrite dget_dset_ne; [done|]. intros ->. unfold dkeys in Hnd. rewrite map_app in Hnd. simpl in Hnd.
              apply NoDup_app in Hnd as (_ & Hnd & _). apply (Hnd fk); [|left].
              apply elem_of_list_fmap. eexists; split; [|exact Hin]. done.
            * simplify_eq. exists d1. split; [by rewrite dget_dset_eq|]. done.
          + eexists _, _, _. split; [exact Hr|]. split; [done|]. split; [by eapply grow_trans|].
            intros fk' it Hin. apply Hd2. by rewrite <-app_assoc. }
      intros Hnd Hfl Hi Ha Ho. destruct (Hgen groups [] [] Is x) as (Is' & to_dep & x' & H1 & H2 & H3 & H4); try done.
      { intros ?? Hx. by apply not_elem_of_nil in Hx. }
      eauto 10.
    Qed.

    Lemma schedule_links_spec Is x k cur debt w I gn n ids to_func to_dep (links : list (glink * qitem)) :
      Is !! w = Some I ->
      (forall l q, (l, q) ∈ links -> lnk (wi_job I) gn n l q) ->
      (forall l q r, (l, q) ∈ links -> gl_requires l = Some r ->
         exists f d items, dget r to_func = Some f /\ dget f to_dep = Some d /\ dep_ok w gn ids items d x /\ QF r None None ∈ items) ->
      einv Is x k cur (plus debt w gn ids (fun q => exists l, (l, q) ∈ links)) ->
      live x.2 (wi_ts I) -> met_ids E D J0 (wi_job I) gn n ids ->
      exists x', schedule_links E w gn ids to_func to_dep links x = Ok x' /\ einv Is x' k cur debt /\ grow Is Is x x'.
    Proof.
      intros HI. unfold schedule_links. revert x. induction links as [|[l q] links IH]; intros x Hl Hr Hi Ha Ho; cbn [foldR].
      - eexists. split; [done|]. split; [|apply grow_refl].
        eapply einv_sub; [exact Hi|]. intros w' gn' i q [Hx|(_ & _ & _ & l & Hx)]; [done|]. by apply not_elem_of_nil in Hx.
      - cbn [fst snd]. pose proof (Hl l q ltac:(left)) as Hlq.
        pose proof (Hsup _ (wi_reached _ _ _ _ _ (ei_wf _ _ _ _ _ Hi w I HI))) as HsJ.
        rewrite (lnk_req_true E _ HsJ _ _ _ _ Hlq).
        set (debt' := plus debt w gn ids (fun q => exists l, (l, q) ∈ links)).
        assert (exists x1, match gl_requires l with
                 | Some r =>
                     match dget r to_func with
                     | None => Err KeyError
                     | Some f => match dget f to_dep with
                                 | None => Err KeyError
                                 | Some dep => Ok (add_cb dep (CbSched w gn l q ids) x)
                                 end
                     end
                 | None => match schedule_link E w gn l q ids x with Ok (_, x') => Ok x' | Err e => Err e end
                 end = Ok x1 /\ einv Is x1 k cur debt' /\ grow Is Is x x1)
          as (x1 & -> & Hi1 & Hg1).
        { assert (einv Is x k cur (plus debt' w gn ids (fun q' => q' = q))) as Hi0.
          { eapply einv_sub; [exact Hi|]. intros w' gn' i q' [Hx|(-> & -> & Hx & l' & Hin)].
            - left. by left.
            - apply elem_of_cons in Hin as [Heq|Hin]; [simplify_eq; by right|]. left. right. eauto 10. }
          destruct (gl_requires l) as [r|] eqn:Er.
          - destruct (Hr l q r ltac:(left) Er) as (f & d & items & -> & -> & (c & Hc & Hp) & Hin).
            destruct (add_spec Is x k cur debt' d (CbSched w gn l q ids)) as (H1 & H2 & H3).
            { eapply einv_sub; [exact Hi0|]. intros w' gn' i q' [Hx|(-> & -> & Hx & Hq)]; [by left|]. right. done. }
            { by exists I, n. }
            { intros w' gn' i r' (Hw & -> & Hx & Hy). simpl in Hw. subst w'. right. exists c. split; [done|]. apply Hp; [done|]. by simplify_eq. }
            eauto.
          - destruct (schedule_link_spec Is x k cur debt' w I gn n l q ids) as (d & x1 & -> & Hi1 & Hg1); try done.
            { intros i r _ Hx. congruence. }
            eauto. }
        destruct (IH x1) as (x2 & H1 & H2 & H3); try done.
        + intros l' q' Hin. apply Hl. by right.
        + intros l' q' r Hin Hreq. destruct (Hr l' q' r ltac:(by right) Hreq) as (f & d & items & ? & ? & ? & ?).
          exists f, d, items. split; [done|]. split; [done|]. split; [by eapply dep_ok_grow|done].
        + by apply Hg1.
        + eexists. split; [exact H1|]. split; [done|]. by eapply grow_trans.
    Qed.

    Lemma process_body_spec Is x k cur debt w I gn n ids :
      Is !! w = Some I -> j_level (wi_job I) <= K -> jvisited (wi_job I) gn n ->
      einv Is x k cur (plus debt w gn ids (fun q => q ∈ qfields n)) ->
      live x.2 (wi_ts I) -> met_ids E D J0 (wi_job I) gn n ids ->
      exists Is' x', process_node_body E pn w gn n ids x = Ok x' /\ einv Is' x' k cur debt /\ grow Is Is' x x'.
    Proof.
      intros HI HK Hv Hi Ha Ho. unfold process_node_body.
      pose proof (Hsup _ (wi_reached _ _ _ _ _ (ei_wf _ _ _ _ _ Hi w I HI))) as HsJ.
      assert (forall q, q ∈ qfields n -> item_ok gn (qordered n) q) as Hok by (intros; by eapply item_ok_supported).
      destruct (qordered n) eqn:Eord.
      - destruct (group_spec _ _ Hok) as (steps & Hst & Hgo). rewrite Hst. pose proof Hgo as (G1 & G2 & G3 & G4 & G5 & G6).
        assert (einv Is x k cur (plus debt w gn ids (fun q => exists sp, sp ∈ steps /\ q ∈ step_items sp))) as Hi'.
        { eapply einv_sub; [exact Hi|]. intros w' gn' i q [Hx|(-> & -> & Hx & Hq)]; [by left|]. right. auto. }
        destruct steps as [|sp steps].
        + eexists _, _. split; [done|]. split; [|apply grow_refl]. eapply einv_sub; [exact Hi'|].
          intros w' gn' i q [Hx|(_ & _ & _ & sp & Hsp & _)]; [done|]. by apply not_elem_of_nil in Hsp.
        + eapply proc_steps_spec; try done.
          * by eapply ordered_steps.
          * intros i r _ Hn. by apply G4 in Hn.
      - destruct (split_spec _ _ Hok) as (fields & links & Hsp & Hso). rewrite Hsp. pose proof Hso as (S1 & S2 & S3 & S4 & S5).
        destruct (group_fold (fun t : fkey * gitem * qitem => t.1.1) (fun t => (t.1.2, t.2)) fields) as (D1 & D2 & D3 & D4).
        pose proof (split_groups E _ HsJ gn n fields links Hv Hsp Hso) as Hgr.
        set (groups := fold_left (fun (d : dict fkey (list (gitem * qitem))) t => dappend t.1.1 (t.1.2, t.2) d) fields []) in *.
        pose proof (fun k vs v => group_elem (fun t : fkey * gitem * qitem => t.1.1) (fun t => (t.1.2, t.2)) fields k vs v) as Dg.
        fold groups in Dg.
        set (debt' := plus debt w gn ids (fun q => exists l, (l, q) ∈ links)).
        destruct (schedule_groups_spec Is x k cur debt' w I gn n ids groups) as (Is1 & to_dep & x1 & -> & Hi1 & Hg1 & Hd); try done.
        { eapply einv_sub; [exact Hi|]. intros w' gn' i q [Hx|(-> & -> & Hx & Hq)]; [by left; left|].
          destruct (S3 _ Hq) as [(fk & go & Hin)|[l Hin]].
          - right. split; [done|]. split; [done|]. split; [done|]. destruct (D3 _ Hin) as [items Hit]. exists fk, items. split; [done|].
            apply elem_of_list_fmap. exists (go, q). split; [done|]. apply (Dg _ _ _ Hit). by exists (fk, go, q).
          - left. right. eauto 10. }
        match goal with |- context [schedule_links E w gn ids ?tf to_dep links x1] =>
          enough (exists x', schedule_links E w gn ids tf to_dep links x1 = Ok x' /\ einv Is1 x' k cur debt /\ grow Is1 Is1 x1 x')
            as (x2 & Hx2 & Hi2 & Hg2); [exists Is1, x2; split; [exact Hx2|]; split; [done|by eapply grow_trans]|] end.
        eapply schedule_links_spec; try done.
        + by eapply grow_info.
        + intros l q Hin. by destruct (S2 _ _ Hin) as (? & ? & ?).
        + intros l q r Hin Hr. destruct (S4 _ _ _ Hin Hr) as (fk & go & Ht). destruct (S1 _ _ _ Ht) as (Hk & _ & Hf & _).
          simpl in Hf. pose proof (find_field_name _ _ _ Hf) as Hgn.
          assert ((r, fk) ∈ map (fun t : fkey * gitem * qitem => (gi_name t.1.2, t.1.1)) fields) as Hpair.
          { apply elem_of_list_fmap. exists (fk, go, QF r None None). simpl. by rewrite Hgn. }
          destruct (dget_of_pairs_is_Some _ _ _ Hpair) as [fk' Hfk'].
          assert (fk' = fk) as ->.
          { apply dget_of_pairs_Some in Hfk'. apply elem_of_list_fmap in Hfk' as ([[fk2 go2] q2] & [= Hn ->] & Ht2). simpl in *.
            destruct (S1 _ _ _ Ht2) as (Hk2 & _ & Hf2 & _). pose proof (find_field_name _ _ _ Hf2) as Hgn2. congruence. }
          destruct (D3 _ Ht) as [items Hit]. simpl in Hit. destruct (Hd _ _ Hit) as (d & Hdd & Hdok).
          exists fk, d, (map snd items). split; [done|]. split; [done|]. split; [done|].
          apply elem_of_list_fmap. exists (go, QF r None None). split; [done|]. apply (Dg _ _ _ Hit). by exists (fk, go, QF r None None).
        + by apply Hg1.
    Qed.
  End node.

  Lemma process_node_spec K : pn_spec (process_node E K) K.
  Proof.
    induction K as [|K IH]; intros Is x k cur debt w I gn n ids HI HK Hv Hi Hl Ho; [lia|].
    cbn [process_node]. eapply (process_body_spec _ K IH); try done. lia.
  Qed.

  (** ** Running callbacks *)
  Lemma einv_pop Is x k c cs :
    (forall w gn i r, ~ provides c w gn i r) -> einv Is x k (c :: cs) no_debt ->
    einv Is x k cs (resp c) /\ (forall w gn i r, need c w gn i r -> stored (idx_of x w) gn i r) /\ cb_ok Is (w_log x.1) k c.
  Proof.
    intros Hp [H1 H2 H3 H4 H5 H6 H7 H8]. destruct H7 as [Hn Hc].
    split; [|split; [done|apply H5; left]]. split; try done.
    - intros w I HI. destruct (H2 w I HI) as [W1 W2 W3 W4 W5]. split; try done.
      eapply covered_mono; [| |exact W5]; [|done]. intros gn i q [[]|(c' & Hc' & Hr)]; apply cov_P.
      destruct Hc' as [Hc'|[k' Hk]]; [|right; eauto]. apply elem_of_cons in Hc' as [->|Hc']; [by left|]. right. eauto.
    - intros c' Hc'. apply H5. by right.
    - eapply chain_mono; [|exact Hc]. simpl. intros w gn i r [?|Hx]; [done|]. by apply Hp in Hx.
  Qed.

  Lemma einv_run Is x k c cs (debt' : wduty) I idx' :
    einv Is x k (c :: cs) no_debt -> Is !! cb_wf c = Some I -> sound E D (wi_job I) (wi_ids I) idx' ->
    (forall sl, is_Some (dget sl (idx_of x (cb_wf c))) -> is_Some (dget sl idx')) ->
    (forall gn i q, resp c (cb_wf c) gn i q -> cov E D (wi_job I) idx' (P_of debt' cs x (cb_wf c)) gn i q) ->
    (forall gn i r, provides c (cb_wf c) gn i r -> stored idx' gn i r) ->
    einv Is (set_index (cb_wf c) idx' x) k cs debt'.
  Proof.
    intros Hi HI Hs Hst Hr Hpr. set (w := cb_wf c) in *. set (x' := set_index w idx' x).
    assert (w_wfs x.1 !! w = Some (Wf (j_graph (wi_job I)) (j_query (wi_job I)) (wi_ts I) (idx_of x w))) as Hw by (by apply (ei_wf _ _ _ _ _ Hi w I)).
    assert (idx_of x' w = idx') as Hnew by (unfold x'; by rewrite idx_of_set, decide_True, Hw by done).
    assert (forall v, v <> w -> idx_of x' v = idx_of x v) as Hold.
    { intros v Hv. unfold x'. by rewrite idx_of_set, decide_False by done. }
    assert (forall v gn i r, stored (idx_of x v) gn i r -> stored (idx_of x' v) gn i r) as Hst'.
    { intros v gn i r Hx. destruct (decide (v = w)) as [->|Hne]; [|by rewrite Hold]. rewrite Hnew. by apply Hst. }
    destruct Hi as [H1 H2 H3 H4 H5 H6 H7 H8]. split; try done.
    - unfold x', set_index. cbn. by rewrite alter_length.
    - intros v I' HI'. destruct (H2 v I' HI') as [W1 W2 W3 W4 W5]. destruct (decide (v = w)) as [->|Hne].
      + assert (I' = I) as -> by congruence. split; rewrite ?Hnew; try done.
        * unfold x', set_index. cbn. rewrite list_lookup_alter, Hw. done.
        * intros Hx. apply Hst. auto.
        * eapply covered_mono; [| |exact W5].
          -- intros gn i q [[]|(c' & Hc' & Hr')]. destruct Hc' as [Hc'|[k' Hk]]; [|apply cov_P; right; exists c'; eauto].
             apply elem_of_cons in Hc' as [->|Hc']; [|apply cov_P; right; eauto]. by apply Hr.
          -- intros gn i r Hx. by apply Hst.
      + split; rewrite ?Hold by done; try done.
        * unfold x', set_index. cbn. by rewrite list_lookup_alter_ne by done.
        * eapply covered_mono; [| |exact W5]; [|done].
          intros gn i q [[]|(c' & Hc' & Hr')]. apply cov_P. right. exists c'. split; [|done]. destruct Hc' as [Hc'|Hk]; [|by right].
          apply elem_of_cons in Hc' as [->|Hc']; [|by left]. destruct Hr' as [Hr' _]. by destruct Hne.
    - intros c' Hc'. apply H5. by right.
    - intros k'. eapply chain_mono; [|apply H6]. intros v gn i r. apply Hst'.
    - destruct H7 as [_ Hc]. eapply chain_mono; [|exact Hc]. intros v gn i r [Hx|Hx]; [by apply Hst'|]. cbn.
      pose proof Hx as [Hv _]. fold w in Hv. subst v. rewrite Hnew. by apply Hpr.
  Qed.

  Lemma dget_update_some (idx : index) ps sl : is_Some (dget sl idx) -> is_Some (dget sl (dupdate idx ps)).
  Proof. rewrite dget_dupdate. destruct (dget _ (reverse ps)); [eauto|done]. Qed.

  Lemma run_store Is x k cs w I gn qfs ids r c :
    einv Is x k (c :: cs) no_debt -> Is !! w = Some I -> cb_wf c = w ->
    (forall gn' i q', resp c w gn' i q' -> gn' = gn /\ i ∈ oids ids /\ q' ∈ qfs) ->
    (forall gn' i r, provides c w gn' i r -> gn' = gn /\ i ∈ oids ids /\ QF r None None ∈ qfs) ->
    obj_ids (wi_job I) gn ids -> (forall q, q ∈ qfs -> isfld (wi_job I) gn q) ->
    table_of E D (wi_job I) gn qfs ids r ->
    exists x', store_result w gn qfs ids r x = Ok x' /\ einv Is x' k cs no_debt.
  Proof.
    intros Hi HI Hw Hr Hp Ho Hf Ht. pose proof (ei_wf _ _ _ _ _ Hi w I HI) as Hwi.
    unfold store_result. rewrite (get_wf_ok _ _ _ _ _ _ _ Hi HI). cbn [wf_index].
    rewrite (store_fields_spec E D (wi_job I) (idx_of x w) gn qfs ids r Ho Hf Ht).
    eexists. split; [done|]. set (idx' := dupdate _ _).
    assert (forall i q, i ∈ oids ids -> q ∈ qfs -> stored idx' gn i (index_key q)) as Hst.
    { intros i q Hi' Hq. eapply stored_update_in, field_pairs_in; done. }
    subst w. eapply einv_run; try done.
    - eapply sound_update; [apply Hwi|]. by eapply field_pairs_good.
    - intros sl. apply dget_update_some.
    - intros gn' i q' Hx. destruct (Hr _ _ _ Hx) as (-> & Hi' & Hq'). destruct (Hf _ Hq') as (_ & fd & Hfd). eapply cov_field; [by apply Hst|done].
    - intros gn' i r' Hx. destruct (Hp _ _ _ Hx) as (-> & Hi' & Hq'). by apply (Hst i (QF r' None None)).
  Qed.

  Lemma fut_result_ok fut x cl : call_met E D J0 cl -> w_log x.1 !! fut = Some cl -> exists r, fut_result E fut x = Ok r /\ ret_val (e_oracle E fut cl) = Some r.
  Proof.
    intros Hm Hl. destruct (Hserve fut cl Hm) as (r & Hr & _). exists r. split; [|done]. unfold fut_result. rewrite Hl.
    destruct (e_oracle E fut cl); simpl in Hr; by simplify_eq.
  Qed.

  Lemma run_cb_spec Is x k c cs :
    einv Is x k (c :: cs) no_debt ->
    (forall t, tsof x (cb_wf c) = Some t -> live x.2 t) ->
    (forall w gn qfs ids w' procs, c = CbStoreSub w gn qfs ids w' procs ->
       forall c', (c' ∈ c :: cs \/ exists k, c' ∈ pending k x.2) -> cb_wf c' <> w') ->
    exists Is' x', run_cb E c x = Ok x' /\ einv Is' x' k cs no_debt.
  Proof.
    intros Hi Hlive Hsubdone. pose proof (ei_cur _ _ _ _ _ Hi c ltac:(left)) as (I & n & HI & Hok).
    pose proof (ei_wf _ _ _ _ _ Hi _ I HI) as Hwi. pose proof (wi_reached _ _ _ _ _ Hwi) as Hre. pose proof (Hsup _ Hre) as HsJ. pose proof (Hdata (wi_job I)) as HdJ.
    assert (live x.2 (wi_ts I)) as Hl.
    { apply Hlive. unfold tsof. by rewrite (wi_wf _ _ _ _ _ Hwi). }
    assert (j_level (wi_job I) < pn_fuel E) as Hlev by (unfold pn_fuel; pose proof (reached_level _ Hre); lia).
    destruct c as [w gn qfs ids fut|w gn qfs ids w' procs|w gn l q ids|w gn l q ids fut|w gn steps ids]; cbn [cb_wf] in *.
    - destruct Hok as (Ho & f & cl & Hcl & Hfc). destruct (fut_result_ok fut x cl) as (r & Hr & Hret); [eapply job_call_met; left; eauto 10|done|]. cbn [run_cb]. rewrite Hr.
      exists Is. eapply run_store; try done.
      + by intros gn' i q' [_ ?].
      + by intros gn' i q' [_ ?].
      + apply Ho.
      + intros q Hq. apply (fld_is (wi_job I) gn n f). by apply Hfc.
      + by eapply call_table.
    - destruct Hok as (I' & sg & fields & is_ & HI' & Hk & -> & Ho & Hs & -> & HJ' & Hids & ->).
      pose proof (ei_wf _ _ _ _ _ Hi w' I' HI') as [V1 V2 V3 V4 V5].
      destruct (sub_table E D J0 (wi_job I) Hreads HsJ HdJ gn n sg fields (wi_job I') is_ (idx_of x w') w' (wi_ts I') x) as (r & Hr & Ht); try done.
      { by apply Hsup. }
      { apply Ho. }
      { intros j Hj. apply Ho. by apply elem_of_list_fmap_1. }
      { by rewrite <-Hids. }
      { rewrite <-Hids. eapply covered_mono; [| |exact V5]; [|done]. intros gn' i q' [[]|(c' & Hc' & [Hr _])]. exfalso.
        by eapply (Hsubdone w gn _ _ w' _ eq_refl c'). }
      { apply V4. destruct (sub_job_inv E (wi_job I) _ _ _ _ HJ') as (G' & node & gn' & tq & _ & _ & _ & _ & ->). cbn. eauto. }
      cbn [run_cb]. rewrite Hr. exists Is. eapply run_store; try done.
      + by intros gn' i q' [_ ?].
      + by intros gn' i q' [_ ?].
      + apply Ho.
      + intros q Hq. by eapply (fields_is _ gn n (KSub sg) fields).
    - destruct Hok as (Ho & Hlk). apply einv_pop in Hi as (Hi & Hn & _); [|by intros w' gn' i r [_ []]].
      destruct (schedule_link_spec Is x k cs no_debt w I gn n l q ids) as (d & x' & Hs & Hi' & Hg'); try done.
      { eapply einv_sub; [exact Hi|]. intros w' gn' i q' (Hw & -> & Hx & ->). simpl in Hw. subst w'. right. done. }
      { intros i r Hi' Hr. by apply Hn. }
      exists Is, x'. split; [cbn [run_cb]; by rewrite Hs|done].
    - destruct Hok as (Ho & cl & Hcl & Hlc). destruct (fut_result_ok fut x cl) as (r & Hr & Hret); [eapply job_call_met; right; eauto 10|done|]. cbn [run_cb]. rewrite Hr.
      unfold process_link. rewrite (get_wf_ok _ _ _ _ _ _ _ Hi HI). cbn [wf_index wf_graph].
      rewrite (store_links_spec E D J0 (wi_job I) Hserve HdJ (idx_of x w) gn n l q ids fut cl r Ho Hlc Hret).
      pose proof (link_result E D J0 (wi_job I) Hserve gn n l q ids fut cl r Ho Hlc Hret) as Hres.
      pose proof Hlc as [_ Hlnk].
      destruct (targets_ids E D J0 (wi_job I) HdJ gn n l q ids r Hlnk Ho Hres) as (to_ids & Hto & Htg).
      fold (many_result ids l). rewrite Hto.
      set (idx' := dupdate (idx_of x w) (link_pairs E D (wi_job I) gn q ids)).
      assert (sound E D (wi_job I) (wi_ids I) idx') as Hs.
      { eapply sound_update; [apply Hwi|]. eapply link_pairs_good; [apply Ho|exact Hlnk]. }
      assert (forall i, i ∈ oids ids -> stored idx' gn i (index_key q)) as Hst.
      { intros i Hi'. eapply stored_update_in. apply elem_of_list_fmap. exists i. done. }
      pose proof Hlnk as (Hv & Hq & Hql & Hf).
      pose proof (js_items _ _ HsJ _ _ _ Hv Hq) as Hsp. rewrite Hf in Hsp. destruct Hsp as (_ & [gn' Hn'] & _).
      set (c := CbLink w gn l q ids fut) in *. set (x1 := set_index w idx' x).
      assert (forall debt' : wduty, (forall i j q', i ∈ oids ids -> j ∈ targets l (link_value (field_val E D (j_level (wi_job I))) D gn i l q) -> q' ∈ qfields (q_node q) ->
        debt' w gn' (Some j) q') -> einv Is x1 k cs debt') as Hrun.
      { intros debt' Hd. apply (einv_run Is x k c cs debt' I idx' Hi HI Hs).
        - intros sl. apply dget_update_some.
        - intros gn2 i q2 (_ & -> & Hi' & ->). eapply cov_link; [by apply Hst|done|exact Hf|exact Hn'|].
          intros j q' Hj Hq'. apply cov_P. left. by eapply Hd.
        - by intros gn2 i r2 [_ []]. }
      destruct to_ids as [|j0 to_ids].
      + exists Is, x1. split; [done|]. apply Hrun. intros i j q' Hi' Hj _. assert (j ∈ @nil val) as Hx by (apply Htg; eauto). by apply not_elem_of_nil in Hx.
      + rewrite Hn', Hql. set (to := j0 :: to_ids) in *.
        destruct (process_node_spec (pn_fuel E) Is x1 k cs no_debt w I gn' (q_node q) (Some to)) as (Is' & x' & Hx' & Hi3 & Hg3); try done.
        { by eapply jv_link. }
        { apply Hrun. intros i j q' Hi' Hj Hq'. right. split; [done|]. split; [done|]. split; [|done]. apply elem_of_list_fmap. exists j. split; [done|]. apply Htg. eauto. }
        { split; [cbn; split; [done|]; eauto|]. intros i (j & -> & Hj)%elem_of_list_fmap. apply Htg in Hj as (i & Hi' & Hj).
          eapply (mt_link E D J0 (wi_job I) gn i n q l gn' j); try done. by apply Ho. }
        eauto.
    - destruct Hok as (Ho & Hne & Hst). apply einv_pop in Hi as (Hi & Hn & _); [|by intros w' gn' i r [_ []]].
      destruct (proc_steps_spec _ (pn_fuel E) (process_node_spec (pn_fuel E)) Is x k cs no_debt w I gn n steps ids) as (Is' & x' & Hs & Hi' & Hg'); try done.
      { lia. }
      { eapply einv_sub; [exact Hi|]. intros w' gn' i q' (Hw & -> & Hx & Hq). simpl in Hw. subst w'. right. done. }
      { intros i r Hi' Hr. by apply Hn. }
      exists Is', x'. done.
  Qed.
End sub.

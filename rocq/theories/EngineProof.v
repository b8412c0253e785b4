(** The invariant of the engine, for graphs with plain loaders. *)
From stdpp Require Import relations.
From Verif Require Import Base Val Query QuerySpec QueryProof Graph Queue QueueSpec QueueProof PropQueue Result Engine EngineApi EngineSpec SplitProof.

Lemma seq_of_iter v l : seq_of v = Some l -> iter_of v = Some l.
Proof. destruct v; simpl; congruence. Qed.

Section proof.
  Context `{Hasher} (E : env) (g : graph) (q0 : qnode) (D : data) (B : nat).
  Notation fv := (plain_value D).
  Hypothesis Hserve : serves E D.
  Hypothesis Hresp : respects_options D.
  Hypothesis Hsup : supported g q0.
  Hypothesis Hlinks : links_ok g fv D q0.
  Notation visited := (visited g q0).
  Notation asked := (asked g q0).

  Lemma visited_cases gn n : visited gn n -> gn = g_root g \/ exists nm, find_node g nm = Some gn.
  Proof. intros Hv; inversion Hv; subst; eauto. Qed.
  Lemma asked_visited gn q : asked gn q -> exists n, visited gn n.
  Proof. intros (n & Hv & _). eauto. Qed.

  (** objects: the root without identifier, other nodes with one *)
  Definition good_obj (gn : gnode) (i : option val) : Prop :=
    match i with None => gn = g_root g | Some _ => exists nm, find_node g nm = Some gn end.
  Definition objref (gn : gnode) (i : option val) : str * val :=
    match gn_name gn, i with Some n, Some v => (n, v) | _, _ => ROOT end.
  Definition slot_of (gn : gnode) (i : option val) (key : str) : slot :=
    ((objref gn i).1, (objref gn i).2, key).

  Lemma objref_inj gn i gn' i' :
    good_obj gn i -> good_obj gn' i' -> objref gn i = objref gn' i' -> gn = gn' /\ i = i'.
  Proof.
    assert (forall nm gn v, find_node g nm = Some gn -> ROOT <> (nm, v)) as Hroot.
    { intros nm gn2 v Hf Heq. unfold ROOT in Heq. injection Heq as Hn _.
      pose proof (sp_root _ _ Hsup) as Hr. rewrite Hn in Hr. congruence. }
    unfold objref. destruct i as [v|], i' as [v'|]; simpl.
    - intros [nm Hn] [nm' Hn']. rewrite (find_node_name _ _ _ Hn), (find_node_name _ _ _ Hn').
      intros [= -> ->]. split; [congruence|done].
    - intros [nm Hn] ->. rewrite (find_node_name _ _ _ Hn). simpl. intros Heq. symmetry in Heq.
      by eapply Hroot in Heq.
    - intros -> [nm Hn]. rewrite (find_node_name _ _ _ Hn). simpl. intros Heq. by eapply Hroot in Heq.
    - by intros -> ->.
  Qed.

  (** The value which belongs into a slot *)
  Definition ref_value (l : glink) (v : val) : ival :=
    match gl_enum l with
    | Maybe => match v with VNothing => IVal VNone | _ => IRef (gl_node l) v end
    | One => IRef (gl_node l) v
    | Many => IRefs (map (fun i => (gl_node l, i)) (seq_items v))
    end.
  Definition ideal (gn : gnode) (i : option val) (q : qitem) : ival :=
    match find_field gn (q_name q) with
    | Some (GF f) => IVal (fv f i (q_name q) (q_opts q))
    | Some (GL l) => ref_value l (link_value fv D gn i l q)
    | None => IVal VNone
    end.

  Lemma fv_same f i n o o' : same_opts o o' -> fv f i n o = fv f i n o'.
  Proof. intros Ho. unfold plain_value. destruct (gf_func f); [|done]. by apply Hresp. Qed.

  Lemma ideal_same gn i q q' :
    asked gn q -> asked gn q' -> index_key q = index_key q' -> ideal gn i q = ideal gn i q'.
  Proof.
    intros Ha Ha' Hk. unfold index_key in Hk.
    apply index_key_inj in Hk as [Hn Ho]; [|by eapply (sp_bracket _ _ Hsup)..].
    pose proof (sp_coll _ _ Hsup gn q q' Ha Ha' Hn Ho) as Hs.
    unfold ideal. rewrite Hn. destruct (find_field gn (q_name q')) as [[f|l]|]; [|  |done].
    - f_equal. by apply fv_same.
    - f_equal. unfold link_value, link_opts. destruct (gl_opts l); [done|]. by apply Hresp.
  Qed.

  Definition sound (idx : index) : Prop :=
    forall k v, dget k idx = Some v ->
      exists gn i q, asked gn q /\ good_obj gn i /\ k = slot_of gn i (index_key q) /\ v = ideal gn i q.
  Definition stored (idx : index) (gn : gnode) (i : option val) (key : str) : Prop :=
    is_Some (dget (slot_of gn i key) idx).

  Lemma slot_of_inj gn i k gn' i' k' :
    good_obj gn i -> good_obj gn' i' -> slot_of gn i k = slot_of gn' i' k' -> gn = gn' /\ i = i' /\ k = k'.
  Proof.
    intros Hg Hg'. unfold slot_of. intros [= H1 H2 H3].
    destruct (objref_inj gn i gn' i' Hg Hg'); [by apply injective_projections|]. done.
  Qed.

  Lemma sound_get idx gn i q v :
    sound idx -> asked gn q -> good_obj gn i -> dget (slot_of gn i (index_key q)) idx = Some v -> v = ideal gn i q.
  Proof.
    intros Hs Ha Hg Hd. destruct (Hs _ _ Hd) as (gn' & i' & q' & Ha' & Hg' & Hk & ->).
    apply slot_of_inj in Hk as (-> & -> & Hk); [|done..]. by apply ideal_same.
  Qed.

  (** ** Coverage *)
  Definition targets (l : glink) (v : val) : list val :=
    match gl_enum l with
    | Maybe => match v with VNothing => [] | _ => [v] end
    | One => [v]
    | Many => seq_items v
    end.
  Definition duty : Type := gnode -> option val -> qitem -> Prop.

  Inductive cov (idx : index) (P : duty) : gnode -> option val -> qitem -> Prop :=
  | cov_P gn i q : P gn i q -> cov idx P gn i q
  | cov_field gn i q f : stored idx gn i (index_key q) -> find_field gn (q_name q) = Some (GF f) -> cov idx P gn i q
  | cov_link gn i q l gn' :
      stored idx gn i (index_key q) -> q_is_link q = true ->
      find_field gn (q_name q) = Some (GL l) -> find_node g (gl_node l) = Some gn' ->
      (forall j q', j ∈ targets l (link_value fv D gn i l q) -> q' ∈ qfields (q_node q) -> cov idx P gn' (Some j) q') ->
      cov idx P gn i q.

  Lemma cov_mono idx (P : duty) idx' (P' : duty) gn i q :
    (forall gn i q, P gn i q -> cov idx' P' gn i q) ->
    (forall gn i k, stored idx gn i k -> stored idx' gn i k) ->
    cov idx P gn i q -> cov idx' P' gn i q.
  Proof.
    intros HP Hs Hc. induction Hc as [gn i q Hp|gn i q f Hst Hf|gn i q l gn' Hst Hl Hf Hn Hsub IH].
    - auto.
    - eapply cov_field; eauto.
    - eapply cov_link; eauto.
  Qed.

  (** ** Callbacks *)
  Definition oids (ids : option (list val)) : list (option val) :=
    match ids with None => [None] | Some l => map Some l end.
  Definition obj_ids (gn : gnode) (ids : option (list val)) : Prop :=
    match ids with None => gn = g_root g | Some l => l <> [] /\ exists nm, find_node g nm = Some gn end.
  Lemma obj_ids_ne gn ids : obj_ids gn ids -> oids ids <> [].
  Proof. destruct ids as [[|]|]; simpl; [by intros [? _]|done|done]. Qed.

  Lemma obj_ids_good gn ids i : obj_ids gn ids -> i ∈ oids ids -> good_obj gn i.
  Proof.
    destruct ids as [l|]; simpl.
    - intros [_ Hn] Hi. apply elem_of_list_fmap in Hi as (v & -> & _). done.
    - intros -> ->%elem_of_list_singleton. done.
  Qed.

  Definition resp (c : cb) : duty := fun gn' i q =>
    match c with
    | CbStore _ gn qfs ids _ => gn' = gn /\ i ∈ oids ids /\ q ∈ qfs
    | CbStoreSub _ _ _ _ _ _ => False
    | CbSched _ gn _ ql ids | CbLink _ gn _ ql ids _ => gn' = gn /\ i ∈ oids ids /\ q = ql
    | CbProc _ gn steps ids => gn' = gn /\ i ∈ oids ids /\ exists sp, sp ∈ steps /\ q ∈ step_items sp
    end.

  Definition lnk (gn : gnode) (l : glink) (q : qitem) : Prop :=
    exists n, visited gn n /\ q ∈ qfields n /\ q_is_link q = true /\ find_field gn (q_name q) = Some (GL l).
  Definition fld (gn : gnode) (f : N) (q : qitem) : Prop :=
    asked gn q /\ exists fd, find_field gn (q_name q) = Some (GF fd) /\ gf_func fd = FPlain f.

  Definition req_arg (gn : gnode) (l : glink) (ids : option (list val)) : option reqs :=
    match gl_requires l with
    | None => None
    | Some r => Some (match ids with
                      | None => ROne (IVal (field_value fv gn None r None))
                      | Some is_ => RList (map (fun i => IVal (field_value fv gn (Some i) r None)) is_)
                      end)
    end.
  Definition step_ok (gn : gnode) (sp : step) : Prop :=
    match sp with
    | StFields fk l => exists f, fk = KPlain f /\ forall p, p ∈ l -> fld gn f p.2
    | StLink l q => lnk gn l q
    end.

  Definition field_call (gn : gnode) (qfs : list qitem) (ids : option (list val)) (f : N) (c : call) : Prop :=
    c = Call f (e_ctx E f) (AFields qfs ids) /\ forall q, q ∈ qfs -> fld gn f q.
  Definition link_call (gn : gnode) (l : glink) (q : qitem) (ids : option (list val)) (c : call) : Prop :=
    c = Call (gl_func l) (e_ctx E (gl_func l)) (ALink (req_arg gn l ids) (link_opts l q)) /\ lnk gn l q.
  Definition call_ok (c : call) : Prop :=
    (exists gn qfs ids f, obj_ids gn ids /\ field_call gn qfs ids f c) \/
    (exists gn l q ids, obj_ids gn ids /\ link_call gn l q ids c).

  Definition cb_ok (log : list call) (c : cb) : Prop :=
    match c with
    | CbStore w gn qfs ids fut =>
        w = 0 /\ obj_ids gn ids /\ exists f cl, log !! fut = Some cl /\ field_call gn qfs ids f cl
    | CbStoreSub _ _ _ _ _ _ => False
    | CbSched w gn l q ids => w = 0 /\ obj_ids gn ids /\ lnk gn l q
    | CbLink w gn l q ids fut =>
        w = 0 /\ obj_ids gn ids /\ exists cl, log !! fut = Some cl /\ link_call gn l q ids cl
    | CbProc w gn steps ids =>
        w = 0 /\ obj_ids gn ids /\ steps <> [] /\ forall sp, sp ∈ steps -> step_ok gn sp
    end.

  (** What a callback needs in the index before it runs, and what it puts there *)
  Definition need (c : cb) (gn' : gnode) (i : option val) (r : str) : Prop :=
    match c with
    | CbSched _ gn l _ ids => gn' = gn /\ i ∈ oids ids /\ gl_requires l = Some r
    | CbProc _ gn steps ids => gn' = gn /\ i ∈ oids ids /\ need_steps steps r
    | _ => False
    end.
  Definition provides (c : cb) (gn' : gnode) (i : option val) (r : str) : Prop :=
    match c with
    | CbStore _ gn qfs ids _ => gn' = gn /\ i ∈ oids ids /\ QF r None None ∈ qfs
    | _ => False
    end.
  Definition avail : Type := gnode -> option val -> str -> Prop.
  Fixpoint chain (Q : avail) (cs : list cb) : Prop :=
    match cs with
    | [] => True
    | c :: cs' => (forall gn i r, need c gn i r -> Q gn i r)
                  /\ chain (fun gn i r => Q gn i r \/ provides c gn i r) cs'
    end.
  Lemma chain_mono (Q Q' : avail) cs : (forall gn i r, Q gn i r -> Q' gn i r) -> chain Q cs -> chain Q' cs.
  Proof.
    revert Q Q'; induction cs as [|c cs IH]; intros Q Q' HQ; simpl; [done|]. intros [H1 H2]. split; [eauto|].
    eapply IH; [|exact H2]. simpl. intros gn i r [?|?]; auto.
  Qed.
  Lemma chain_snoc Q cs c : chain Q cs ->
    (forall gn i r, need c gn i r -> Q gn i r \/ exists c', c' ∈ cs /\ provides c' gn i r) -> chain Q (cs ++ [c]).
  Proof.
    revert Q; induction cs as [|c0 cs IH]; intros Q; simpl.
    - intros _ Hn. split; [|done]. intros gn i r Hx. destruct (Hn _ _ _ Hx) as [?|(c' & Hc & _)]; [done|].
      by apply not_elem_of_nil in Hc.
    - intros [H1 H2] Hn. split; [done|]. apply IH; [done|]. intros gn i r Hx.
      destruct (Hn _ _ _ Hx) as [?|(c' & Hc & Hp)]; [by left; left|].
      apply elem_of_cons in Hc as [->|Hc]; [by left; right|]. right; eauto.
  Qed.

  (** ** Weights: how many loader calls a callback can still lead to *)
  Definition wt (c : cb) : nat :=
    match c with
    | CbStore _ _ _ _ _ | CbStoreSub _ _ _ _ _ _ => 0
    | CbSched _ _ _ q _ => S (wt_sub q)
    | CbLink _ _ _ q _ _ => wt_sub q
    | CbProc _ _ steps _ => list_sum (map wt_step steps)
    end.
  Definition wts (cs : list cb) : nat := list_sum (map wt cs).
  Definition wq (q : queue cb) : nat := list_sum (map (fun p => wts p.2) (q_cbs q)).

  Lemma wts_app a b : wts (a ++ b) = wts a + wts b.
  Proof. unfold wts. by rewrite map_app, list_sum_app. Qed.
  Lemma wq_add k c q : wq (q_add k c q) = wq q + wt c.
  Proof.
    unfold wq, q_add, dappend; simpl. induction (q_cbs q) as [|[k' l] d IH]; simpl.
    - unfold wts; simpl. lia.
    - destruct (decide (k = k')); simpl.
      + rewrite wts_app. unfold wts at 2; simpl. lia.
      + rewrite IH. lia.
  Qed.
  Lemma wq_pop k q cs q' : q_pop k q = (cs, q') -> wq q = wq q' + wts cs.
  Proof.
    unfold q_pop, wq. intros [= <- <-]. simpl. induction (q_cbs q) as [|[k' l] d IH]; simpl; [done|].
    destruct (decide (k = k')); simpl; [lia|]. lia.
  Qed.

  (** ** The invariant.  [cur]: callbacks of the key being processed which have not run yet;
      [debt]: duties taken over by the code being run; [dw] its weight. *)
  Record einv (idx : index) (x : st) (cur : list cb) (debt : duty) (dw : nat) : Prop := {
    ei_wf : w_wfs x.1 = [Wf g q0 0 idx];
    ei_nfut : q_nfut x.2 = length (w_log x.1);
    ei_sound : sound idx;
    ei_cbs : forall k c, c ∈ pending k x.2 -> cb_ok (w_log x.1) c;
    ei_cur : forall c, c ∈ cur -> cb_ok (w_log x.1) c;
    ei_chain : forall k, chain (fun gn i r => stored idx gn i r) (pending k x.2);
    ei_chainc : chain (fun gn i r => stored idx gn i r) cur;
    ei_cov : forall q, q ∈ qfields q0 ->
      cov idx (fun gn i q => debt gn i q \/ exists c, (c ∈ cur \/ exists k, c ∈ pending k x.2) /\ resp c gn i q)
          (g_root g) None q;
    ei_fresh : forall f, pending (KF f) x.2 <> [] -> f < q_nfut x.2;
    ei_kt : forall t, pending (KT t) x.2 = [];
    ei_keys : forall t, t ∈ dkeys (q_futs x.2) -> t = 0;
    ei_nts : q_nts x.2 = 1;
    ei_log : forall c, c ∈ w_log x.1 -> call_ok c;
    ei_bound : length (w_log x.1) + wq x.2 + wts cur + dw <= B;
  }.

  (** Effect of scheduling code on the state *)
  Record grow (x x' : st) : Prop := {
    gr_wfs : w_wfs x'.1 = w_wfs x.1;
    gr_uses : uses (disciplined None) x.2 x'.2;
    gr_pend : forall k c, c ∈ pending k x.2 -> c ∈ pending k x'.2;
    gr_log : exists l, w_log x'.1 = w_log x.1 ++ l;
  }.
  Lemma uses_trans A (q1 q2 q3 : queue cb) : uses A q1 q2 -> uses A q2 q3 -> uses A q1 q3.
  Proof. induction 1; eauto using uses_op. Qed.
  Lemma grow_refl x : grow x x.
  Proof. split; try done; [constructor|]. exists []. by rewrite app_nil_r. Qed.
  Lemma grow_trans x y z : grow x y -> grow y z -> grow x z.
  Proof.
    intros [H1 H2 H3 [l4 H4]] [H1' H2' H3' [l4' H4']]. split; [congruence|by eapply uses_trans|eauto|].
    exists (l4 ++ l4'). rewrite H4', H4. by rewrite app_assoc.
  Qed.

  Lemma uses_alive A (q q' : queue cb) t : uses A q q' -> alive q t -> alive q' t.
  Proof.
    induction 1 as [q|q o q1 q2 _ Ho _ IH]; [done|]. intros Ha. apply IH. clear IH. unfold alive in *.
    destruct o as [t'|p|k c]; simpl in Ho.
    - unfold q_submit in Ho. destruct (dget t' _) eqn:Et; simplify_eq/=. rewrite dkeys_dset.
      destruct (decide _); [done|]. apply elem_of_app; by left.
    - unfold q_fork in Ho. destruct p as [p|]; [destruct (dget p _)|]; simplify_eq/=; rewrite dkeys_dset;
        (destruct (decide _); [done|]; apply elem_of_app; by left).
    - by simplify_eq/=.
  Qed.
  Lemma futures_dset_mono t l l' (d : dict nat (list nat)) f :
    dget t d = Some l -> (forall x, x ∈ l -> x ∈ l') -> f ∈ concat (map snd d) -> f ∈ concat (map snd (dset t l' d)).
  Proof.
    intros Hd Hl. induction d as [|[t' l2] d IH]; simpl in *; [done|].
    destruct (decide (t = t')); simplify_eq/=; rewrite !elem_of_app; [naive_solver|]. naive_solver.
  Qed.
  Lemma futures_dset_nil t (d : dict nat (list nat)) f :
    dget t d = None -> f ∈ concat (map snd d) -> f ∈ concat (map snd (dset t [] d)).
  Proof. intros Hd Hf. rewrite futures_dset_new; [done|]. by apply dget_None. Qed.
  Lemma uses_futures (q q' : queue cb) f :
    uses (disciplined None) q q' -> (forall t, t ∈ dkeys (q_futs q) -> t < q_nts q) ->
    f ∈ q_futures q -> f ∈ q_futures q'.
  Proof.
    induction 1 as [q|q o q1 q2 _ Ho _ IH]; [done|]. intros Hn Hf. unfold q_futures in *.
    destruct o as [t'|p|k c]; simpl in Ho.
    - unfold q_submit in Ho. destruct (dget t' _) eqn:Et; simplify_eq/=. apply IH; simpl.
      + intros t. rewrite dkeys_dset, decide_True; [auto|]. apply dget_is_Some; eauto.
      + eapply futures_dset_mono; [done| |done]. intros y Hy. apply elem_of_app; by left.
    - assert (dget (q_nts q) (q_futs q) = None) as Hnew.
      { apply dget_None. intros Hin. apply Hn in Hin. lia. }
      unfold q_fork in Ho. destruct p as [p|]; [destruct (dget p _)|]; simplify_eq/=; apply IH; simpl;
        try (intros t; rewrite dkeys_dset; destruct (decide _); rewrite ?elem_snoc; intros Hx;
             [apply Hn in Hx; lia | destruct Hx as [Hx| ->]; [apply Hn in Hx; lia|lia]]);
        by apply futures_dset_nil.
    - simplify_eq/=. apply IH; done.
  Qed.

  Notation P_of debt cur x := (fun gn i q => debt gn i q \/ exists c, (c ∈ cur \/ exists k, c ∈ pending k x.2) /\ resp c gn i q).

  Lemma einv_weaken idx x cur (debt debt' : duty) dw dw' :
    einv idx x cur debt dw -> (forall gn i q, debt gn i q -> cov idx (P_of debt' cur x) gn i q) -> dw' <= dw ->
    einv idx x cur debt' dw'.
  Proof.
    intros [] Hd Hw. split; try done; [|lia]. intros q Hq. eapply cov_mono; [| |by apply ei_cov0]; [|done].
    intros gn i q' [Hx|Hx]; [by apply Hd|]. apply cov_P. by right.
  Qed.
  Lemma einv_sub idx x cur (debt debt' : duty) dw :
    einv idx x cur debt dw -> (forall gn i q, debt gn i q -> debt' gn i q) -> einv idx x cur debt' dw.
  Proof. intros Hi Hd. eapply einv_weaken; [done| |done]. intros gn i q Hx. apply cov_P. left. auto. Qed.

  Lemma cb_ok_mono log l c : cb_ok log c -> cb_ok (log ++ l) c.
  Proof.
    destruct c; simpl; try done.
    - intros (? & ? & f & cl & Hl & ?). repeat split; [done|done|]. exists f, cl. split; [|done].
      by apply lookup_app_l_Some.
    - intros (? & ? & cl & Hl & ?). repeat split; [done|done|]. exists cl. split; [|done].
      by apply lookup_app_l_Some.
  Qed.

  Lemma submit_spec f a idx x cur debt dw :
    einv idx x cur debt (S dw) -> alive x.2 0 -> call_ok (Call f (e_ctx E f) a) ->
    exists x1, submit E 0 f a x = Ok (length (w_log x.1), x1) /\ einv idx x1 cur debt dw /\ grow x x1 /\
      length (w_log x.1) ∈ q_futures x1.2 /\ w_log x1.1 = w_log x.1 ++ [Call f (e_ctx E f) a] /\
      pending (KF (length (w_log x.1))) x1.2 = [].
  Proof.
    intros Hi Ha Hc. destruct x as [w q]. pose proof (ei_wf _ _ _ _ _ Hi) as Hwf. simpl in *.
    unfold submit, get_wf. simpl. rewrite Hwf. simpl.
    set (c := Call f (e_ctx E f) a) in *. set (n := length (w_log w)) in *.
    destruct (Hserve n c) as (r & Hr & _).
    assert (exists x1, match q_submit 0 q with
                  | Ok (_, q') => Ok (n, (World [Wf g q0 0 idx] (w_log w ++ [c]), q'))
                  | Err e => Err e end = Ok (n, x1) /\ einv idx x1 cur debt dw /\ grow (w, q) x1 /\
      n ∈ q_futures x1.2 /\ w_log x1.1 = w_log w ++ [c] /\ pending (KF n) x1.2 = []) as Hbody.
    2:{ destruct (e_eager E); [|exact Hbody]. destruct (e_oracle E n c); [exact Hbody..|done]. }
    apply alive_iff in Ha as [l Hl].
    assert (pending (KF n) q = []) as Hfresh.
    { destruct (pending (KF n) q) eqn:Ep; [done|]. exfalso.
      pose proof (ei_fresh _ _ _ _ _ Hi n) as Hx. simpl in Hx. rewrite Ep in Hx. specialize (Hx ltac:(done)).
      pose proof (ei_nfut _ _ _ _ _ Hi) as Hy. simpl in Hy. unfold n in Hx. lia. }
    unfold q_submit. rewrite Hl. eexists. split; [done|].
    set (q' := MkQ _ _ _ _ _ _).
    assert (forall k, pending k q' = pending k q) as Hp by done.
    split; [|split; [|split; [|split]]]; simpl.
    - destruct Hi as [H1 H2 H3 H4 H5 H6 H7 H8 H9 H10 H11 H12 H13 H14]. simpl in *. split; simpl; try done.
      + rewrite app_length. simpl. lia.
      + intros k c' Hc'. apply cb_ok_mono. by eapply H4.
      + intros c' Hc'. apply cb_ok_mono. by apply H5.
      + intros f' Hf'. apply H9 in Hf'. lia.
      + intros t. rewrite dkeys_dset, decide_True; [auto|]. apply dget_is_Some; eauto.
      + intros c'. rewrite elem_snoc. intros [Hx| ->]; [by apply H13|done].
      + rewrite app_length. unfold wq in *. simpl in *. lia.
    - split; simpl; try done.
      + eapply (uses_op _ _ (OSubmit 0)); [|simpl; unfold q_submit; by rewrite Hl|constructor].
        simpl. split; [apply alive_iff; eauto|done].
      + eexists; done.
    - apply elem_of_list_In, in_concat. exists (l ++ [n]). split.
      + apply elem_of_list_In, elem_of_list_fmap. exists (0, l ++ [n]). split; [done|].
        apply dget_Some_elem. pose proof (ei_nfut _ _ _ _ _ Hi) as Hy. simpl in Hy. fold n in Hy. rewrite <-Hy.
        unfold q'; simpl. rewrite dget_dset, decide_True; done.
      + apply elem_of_list_In. apply elem_snoc. by right.
    - done.
    - done.
  Qed.

  Lemma add_spec k f c idx x cur debt dw :
    k = KF f ->
    einv idx x cur (fun gn i q => debt gn i q \/ resp c gn i q) (wt c + dw) ->
    f ∈ q_futures x.2 -> f < q_nfut x.2 -> cb_ok (w_log x.1) c ->
    (forall gn i r, need c gn i r -> stored idx gn i r \/ exists c', c' ∈ pending (KF f) x.2 /\ provides c' gn i r) ->
    einv idx (add_cb k c x) cur debt dw /\ grow x (add_cb k c x) /\ c ∈ pending (KF f) (add_cb k c x).2.
  Proof.
    intros -> Hi Hf Hlt Hc Hn.
    assert (forall k, pending k (q_add (KF f) c x.2) = if decide (k = KF f) then pending k x.2 ++ [c] else pending k x.2) as Hp.
    { intros k. rewrite pending_add. case_decide; [done|by rewrite app_nil_r]. }
    split; [|split].
    - destruct Hi as [H1 H2 H3 H4 H5 H6 H7 H8 H9 H10 H11 H12 H13 H14]. split; simpl; try done.
      + intros k c'. rewrite Hp. destruct (decide _); rewrite ?elem_snoc; [|apply H4].
        intros [?| ->]; [by eapply H4|done].
      + intros k. rewrite Hp. destruct (decide _) as [->|]; [|apply H6]. apply chain_snoc; [apply H6|]. done.
      + intros q Hq. eapply cov_mono; [| |by apply H8]; [|done]. intros gn i q' [[Hx|Hx]|(c' & Hc' & Hr)]; apply cov_P.
        * by left.
        * right. exists c. split; [|done]. right. exists (KF f). rewrite Hp, decide_True; [|done].
          apply elem_snoc. by right.
        * right. exists c'. split; [|done]. destruct Hc' as [?|[k Hk]]; [by left|]. right. exists k.
          rewrite Hp. destruct (decide _); [|done]. apply elem_snoc. by left.
      + intros f'. rewrite Hp. destruct (decide _) as [[= ->]|]; [done|apply H9].
      + intros t. rewrite Hp. by rewrite decide_False.
      + fold (wq (q_add (KF f) c x.2)). rewrite wq_add. lia.
    - split; simpl; try done.
      + eapply (uses_op _ _ (OAdd (KF f) c)); [done|done|constructor].
      + intros k c' Hc'. rewrite Hp. destruct (decide _); [|done]. apply elem_snoc. by left.
      + exists []. by rewrite app_nil_r.
    - simpl. rewrite Hp, decide_True by done. apply elem_snoc. by right.
  Qed.

  Section node.
  Variable pn : nat -> gnode -> qnode -> option (list val) -> st -> res st.

  Lemma schedule_fields_spec idx x cur debt dw gn f (fields : list (gitem * qitem)) ids :
    einv idx x cur (fun gn' i q => debt gn' i q \/ (gn' = gn /\ i ∈ oids ids /\ q ∈ map snd fields)) (S dw) ->
    alive x.2 0 -> obj_ids gn ids -> (forall p, p ∈ fields -> fld gn f p.2) ->
    exists fut x', schedule_fields E pn 0 gn (KPlain f) fields ids x = Ok (KF fut, x') /\
      einv idx x' cur debt dw /\ grow x x' /\ fut ∈ q_futures x'.2 /\ fut < q_nfut x'.2 /\
      CbStore 0 gn (map snd fields) ids fut ∈ pending (KF fut) x'.2.
  Proof.
    intros Hi Ha Ho Hf.
    assert (field_call gn (map snd fields) ids f (Call f (e_ctx E f) (AFields (map snd fields) ids))) as Hfc.
    { split; [done|]. intros q Hq. apply elem_of_list_fmap in Hq as (p & -> & Hp). auto. }
    destruct (submit_spec f (AFields (map snd fields) ids) _ _ _ _ _ Hi Ha) as (x1 & Hs & Hi1 & Hg1 & Hin & Hlog & Hpe).
    { left. eauto 10. }
    unfold schedule_fields. rewrite Hs. eexists _, _. split; [done|].
    set (fut := length (w_log x.1)) in *.
    assert (fut < q_nfut x1.2) as Hlt.
    { rewrite (ei_nfut _ _ _ _ _ Hi1), Hlog, app_length. simpl. unfold fut. lia. }
    destruct (add_spec (KF fut) fut (CbStore 0 gn (map snd fields) ids fut) idx x1 cur debt dw) as (H1 & H2 & H3); try done.
    { simpl. split; [done|]. split; [done|]. eexists _, _. split; [|exact Hfc]. rewrite Hlog.
      unfold fut. by apply list_lookup_middle. }
    split; [done|]. split; [by eapply grow_trans|]. done.
  Qed.

  Lemma link_reqs_spec idx gn l r ids :
    sound idx -> obj_ids gn ids -> gl_requires l = Some r -> r <> [] ->
    asked gn (QF r None None) -> (exists f, find_field gn r = Some (GF f)) ->
    (forall i, i ∈ oids ids -> stored idx gn i r) ->
    exists a, link_reqs idx gn r ids = Ok a /\ req_arg gn l ids = Some a.
  Proof.
    intros Hs Ho Hr Hne Ha [f Hf] Hst. unfold req_arg. rewrite Hr. unfold link_reqs.
    assert (forall i, i ∈ oids ids -> dget (slot_of gn i r) idx = Some (IVal (field_value fv gn i r None))) as Hget.
    { intros i Hi. destruct (Hst i Hi) as [v Hv].
      pose proof (sound_get idx gn i (QF r None None) v Hs Ha (obj_ids_good _ _ _ Ho Hi)) as Hx.
      unfold index_key in Hx. simpl in Hx. rewrite Hv. f_equal. rewrite Hx; [|done]. unfold ideal, field_value. simpl. by rewrite Hf. }
    destruct ids as [is_|]; simpl in *.
    - destruct Ho as [Hne' [nm Hn]]. rewrite (find_node_name _ _ _ Hn) in *.
      assert (mapR (fun i => from_opt KeyError (dget (nm, i, r) idx)) is_
              = Ok (map (fun i => IVal (field_value fv gn (Some i) r None)) is_)) as Hm.
      { clear Hne'. induction is_ as [|i is_ IH]; simpl; [done|].
        assert (dget (nm, i, r) idx = Some (IVal (field_value fv gn (Some i) r None))) as Hi.
        { specialize (Hget (Some i) ltac:(left)). unfold slot_of, objref in Hget.
          rewrite (find_node_name _ _ _ Hn) in Hget. done. }
        rewrite Hi. simpl. rewrite IH; [done| |].
        - intros j Hj. apply Hst. by right.
        - intros j Hj. apply Hget. by right. }
      rewrite Hm. eauto.
    - subst gn. specialize (Hget None ltac:(left)).
      exists (ROne (IVal (field_value fv (g_root g) None r None))). split; [|done].
      change (match dget (slot_of (g_root g) None r) idx with Some v => Ok (ROne v) | None => Err KeyError end
              = Ok (ROne (IVal (field_value fv (g_root g) None r None)))). by rewrite Hget.
  Qed.

  Lemma lnk_req gn l q r : lnk gn l q -> gl_requires l = Some r ->
    r <> [] /\ asked gn (QF r None None) /\ (exists f, find_field gn r = Some (GF f) /\ plain_field f).
  Proof.
    intros (n & Hv & Hq & Hl & Hf) Hr. pose proof (sp_items _ _ Hsup _ _ _ Hv Hq) as Hs. rewrite Hf, Hr in Hs.
    destruct Hs as (_ & _ & Hne & Hfr). split; [done|]. split; [|done]. exists n. split; [done|]. right. eauto 10.
  Qed.
  Lemma lnk_req_true gn l q : lnk gn l q -> req_true l = gl_requires l.
  Proof.
    intros Hl. destruct (gl_requires l) as [r|] eqn:Er.
    - apply req_true_eq; [done|]. by eapply lnk_req.
    - by apply req_true_none.
  Qed.

  Lemma schedule_link_spec idx x cur (debt : duty) dw gn l q ids :
    einv idx x cur (fun gn' i q' => debt gn' i q' \/ (gn' = gn /\ i ∈ oids ids /\ q' = q)) (S (wt_sub q) + dw) ->
    alive x.2 0 -> obj_ids gn ids -> lnk gn l q ->
    (forall i r, i ∈ oids ids -> gl_requires l = Some r -> stored idx gn i r) ->
    exists fut x', schedule_link E 0 gn l q ids x = Ok (KF fut, x') /\
      einv idx x' cur debt dw /\ grow x x' /\ fut ∈ q_futures x'.2 /\ fut < q_nfut x'.2.
  Proof.
    intros Hi Ha Ho Hl Hst.
    unfold schedule_link. unfold get_wf. rewrite (ei_wf _ _ _ _ _ Hi). cbn [lookup list_lookup from_opt wf_index].
    rewrite (lnk_req_true _ _ _ Hl).
    assert (match gl_requires l with
            | Some r => match link_reqs idx gn r ids with Ok a => Ok (Some a) | Err e => Err e end
            | None => Ok None
            end = Ok (req_arg gn l ids)) as Hrq.
    { destruct (gl_requires l) as [r|] eqn:Er.
      - destruct (lnk_req _ _ _ _ Hl Er) as (Hne & Hask & f & Hf & _).
        destruct (link_reqs_spec idx gn l r ids) as (a & -> & ->); try done; [apply Hi|eauto|eauto].
      - unfold req_arg. by rewrite Er. }
    rewrite Hrq. cbn [lookup].
    change (match gl_opts l with [] => None | _ :: _ => Some (q_opts q) end) with (link_opts l q).
    assert (link_call gn l q ids (Call (gl_func l) (e_ctx E (gl_func l)) (ALink (req_arg gn l ids) (link_opts l q)))) as Hlc by done.
    destruct (submit_spec (gl_func l) (ALink (req_arg gn l ids) (link_opts l q)) _ _ _ _ _ Hi Ha) as (x1 & Hs & Hi1 & Hg1 & Hin & Hlog & Hpe).
    { right. eauto 10. }
    rewrite Hs. eexists _, _. split; [done|].
    set (fut := length (w_log x.1)) in *.
    assert (fut < q_nfut x1.2) as Hlt.
    { rewrite (ei_nfut _ _ _ _ _ Hi1), Hlog, app_length. simpl. unfold fut. lia. }
    destruct (add_spec (KF fut) fut (CbLink 0 gn l q ids fut) idx x1 cur debt dw) as (H1 & H2 & H3); try done.
    { simpl. split; [done|]. split; [done|]. eexists _. split; [|exact Hlc]. rewrite Hlog.
      unfold fut. by apply list_lookup_middle. }
    split; [done|]. split; [by eapply grow_trans|]. done.
  Qed.

  Lemma proc_steps_spec idx x cur (debt : duty) dw gn steps ids :
    steps <> [] -> (forall sp, sp ∈ steps -> step_ok gn sp) ->
    einv idx x cur (fun gn' i q' => debt gn' i q' \/ (gn' = gn /\ i ∈ oids ids /\ exists sp, sp ∈ steps /\ q' ∈ step_items sp))
         (list_sum (map wt_step steps) + dw) ->
    alive x.2 0 -> obj_ids gn ids ->
    (forall i r, i ∈ oids ids -> need_steps steps r -> stored idx gn i r) ->
    exists x', proc_steps E pn 0 gn steps ids x = Ok x' /\ einv idx x' cur debt dw /\ grow x x'.
  Proof.
    intros Hne Hok Hi Ha Ho Hn. destruct steps as [|sp rest]; [done|]. clear Hne.
    set (debt' := fun gn' i q' => debt gn' i q' \/ (gn' = gn /\ i ∈ oids ids /\ exists sp, sp ∈ rest /\ q' ∈ step_items sp)).
    assert (exists fut x1, match sp with
                   | StFields fk l => schedule_fields E pn 0 gn fk l ids x
                   | StLink l q => schedule_link E 0 gn l q ids x
                   end = Ok (KF fut, x1) /\ einv idx x1 cur debt' (list_sum (map wt_step rest) + dw) /\ grow x x1 /\
                   fut ∈ q_futures x1.2 /\ fut < q_nfut x1.2 /\
                   forall i r, i ∈ oids ids -> need_steps rest r ->
                     stored idx gn i r \/ exists c', c' ∈ pending (KF fut) x1.2 /\ provides c' gn i r)
      as (fut & x1 & Hs & Hi1 & Hg1 & Hfut & Hlt & Hn1).
    { destruct sp as [fk l|l q].
      - destruct (Hok (StFields fk l) ltac:(left)) as (f & -> & Hfl).
        destruct (schedule_fields_spec idx x cur debt' (list_sum (map wt_step rest) + dw) gn f l ids) as (fut & x1 & Hs & Hi1 & Hg1 & Hfut & Hlt & Hp);
          try done.
        { eapply einv_sub; [exact Hi|]. intros gn' i q' [Hx|(-> & Hx & sp & Hsp & Hq)].
          - left. by left.
          - apply elem_of_cons in Hsp as [->|Hsp]; [by right|]. left. right. eauto 10. }
        exists fut, x1. split; [done|]. split; [done|]. split; [done|]. split; [done|]. split; [done|].
        intros i r Hi' Hr. destruct (existsb (is_req r) (map snd l)) eqn:Ex.
        + right. eexists. split; [exact Hp|]. simpl. split; [done|]. split; [done|].
          apply existsb_exists in Ex as (q & Hq & Hr'). apply is_req_eq in Hr' as ->. by apply elem_of_list_In.
        + left. apply Hn; [done|]. done.
      - destruct (schedule_link_spec idx x cur debt' (list_sum (map wt_step rest) + dw) gn l q ids) as (fut & x1 & Hs & Hi1 & Hg1 & Hfut & Hlt);
          try done.
        { eapply einv_weaken; [exact Hi| |].
          - intros gn' i q' [Hx|(-> & Hx & sp & Hsp & Hq)]; apply cov_P; left.
            + left. by left.
            + apply elem_of_cons in Hsp as [->|Hsp].
              * right. simpl in Hq. apply elem_of_list_singleton in Hq. done.
              * left. right. eauto 10.
          - simpl. lia. }
        { apply (Hok (StLink l q)). left. }
        { intros i r Hi' Hr. apply Hn; [done|]. by left. }
        exists fut, x1. split; [done|]. split; [done|]. split; [done|]. split; [done|]. split; [done|].
        intros i r Hi' Hr. left. apply Hn; [done|]. by right. }
    unfold proc_steps. rewrite Hs. destruct rest as [|sp' rest].
    - eexists. split; [done|]. split; [|done]. eapply einv_weaken; [exact Hi1| |simpl; lia].
      intros gn' i q' [Hx|(_ & _ & sp' & Hsp & _)]; [apply cov_P; left; done|]. by apply not_elem_of_nil in Hsp.
    - set (rest' := sp' :: rest) in *.
      destruct (add_spec (KF fut) fut (CbProc 0 gn rest' ids) idx x1 cur debt dw) as (H1 & H2 & H3); try done.
      { simpl. split; [done|]. split; [done|]. split; [done|]. intros s' Hs'. apply Hok. by right. }
      { intros gn' i r (-> & Hx & Hy). by apply Hn1. }
      eexists. split; [done|]. split; [done|]. by eapply grow_trans.
  Qed.

  Lemma grow_alive x y t : grow x y -> alive x.2 t -> alive y.2 t.
  Proof. intros Hg. eapply uses_alive, Hg. Qed.
  Lemma grow_futures idx x y cur debt dw f : einv idx x cur debt dw -> grow x y -> f ∈ q_futures x.2 -> f ∈ q_futures y.2.
  Proof.
    intros Hi Hg. eapply uses_futures; [apply Hg|]. intros t Ht. rewrite (ei_nts _ _ _ _ _ Hi).
    apply (ei_keys _ _ _ _ _ Hi) in Ht. lia.
  Qed.
  Lemma grow_nfut x y : grow x y -> q_nfut x.2 = length (w_log x.1) -> q_nfut y.2 = length (w_log y.1) -> q_nfut x.2 <= q_nfut y.2.
  Proof. intros [_ _ _ [l Hl]] H1 H2. rewrite H1, H2, Hl, app_length. lia. Qed.

  Definition dep_ok (gn : gnode) (ids : option (list val)) (items : list (gitem * qitem)) (d : ckey) (x : st) : Prop :=
    exists fut, d = KF fut /\ fut ∈ q_futures x.2 /\ fut < q_nfut x.2 /\ CbStore 0 gn (map snd items) ids fut ∈ pending (KF fut) x.2.
  Lemma dep_ok_grow gn ids items d x y idx idx' cur cur' debt debt' dw dw' :
    einv idx x cur debt dw -> einv idx' y cur' debt' dw' -> grow x y -> dep_ok gn ids items d x -> dep_ok gn ids items d y.
  Proof.
    intros Hi Hi' Hg (fut & -> & H1 & H2 & H3). exists fut. split; [done|]. split; [eapply grow_futures; [exact Hi|done|done]|].
    split; [|by apply Hg]. pose proof (grow_nfut x y Hg (ei_nfut _ _ _ _ _ Hi) (ei_nfut _ _ _ _ _ Hi')). lia.
  Qed.

  Lemma schedule_groups_spec idx x cur (debt : duty) dw gn ids (groups : dict fkey (list (gitem * qitem))) :
    NoDup (dkeys groups) ->
    (forall k items, (k, items) ∈ groups -> exists f, k = KPlain f /\ forall p, p ∈ items -> fld gn f p.2) ->
    einv idx x cur (fun gn' i q => debt gn' i q \/ (gn' = gn /\ i ∈ oids ids /\ exists k items, (k, items) ∈ groups /\ q ∈ map snd items))
         (length groups + dw) ->
    alive x.2 0 -> obj_ids gn ids ->
    exists to_dep x', schedule_groups E pn 0 gn ids groups x = Ok (to_dep, x') /\
      einv idx x' cur debt dw /\ grow x x' /\
      (forall k items, (k, items) ∈ groups -> exists d, dget k to_dep = Some d /\ dep_ok gn ids items d x').
  Proof.
    unfold schedule_groups.
    assert (forall (todo : dict fkey (list (gitem * qitem))) (seen : dict fkey (list (gitem * qitem))) (acc : dict fkey ckey) x,
      NoDup (dkeys (seen ++ todo)) ->
      (forall k items, (k, items) ∈ todo -> exists f, k = KPlain f /\ forall p, p ∈ items -> fld gn f p.2) ->
      einv idx x cur (fun gn' i q => debt gn' i q \/ (gn' = gn /\ i ∈ oids ids /\ exists k items, (k, items) ∈ todo /\ q ∈ map snd items))
         (length todo + dw) ->
      alive x.2 0 -> obj_ids gn ids ->
      (forall k items, (k, items) ∈ seen -> exists d, dget k acc = Some d /\ dep_ok gn ids items d x) ->
      exists to_dep x', foldR (fun acc g =>
               match schedule_fields E pn 0 gn g.1 g.2 ids acc.2 with
               | Ok (dep, x') => Ok (dset g.1 dep acc.1, x')
               | Err e => Err e
               end) (acc, x) todo = Ok (to_dep, x') /\
        einv idx x' cur debt dw /\ grow x x' /\
        (forall k items, (k, items) ∈ seen ++ todo -> exists d, dget k to_dep = Some d /\ dep_ok gn ids items d x')) as Hgen.
    { induction todo as [|[k items] todo IH]; intros seen acc x0 Hnd Hfl Hi Ha Ho Hseen; cbn [foldR].
      - eexists _, _. split; [done|]. split; [|split; [apply grow_refl|by rewrite app_nil_r]].
        eapply einv_sub; [exact Hi|]. intros gn' i q [Hx|(_ & _ & k & items & Hx & _)]; [done|]. by apply not_elem_of_nil in Hx.
      - destruct (Hfl k items ltac:(left)) as (f & -> & Hff).
        destruct (schedule_fields_spec idx x0 cur
          (fun gn' i q => debt gn' i q \/ (gn' = gn /\ i ∈ oids ids /\ exists k items, (k, items) ∈ todo /\ q ∈ map snd items))
          (length todo + dw) gn f items ids) as (fut & x1 & Hs & Hi1 & Hg1 & Hfut & Hlt & Hp); try done.
        { eapply einv_sub; [exact Hi|]. intros gn' i q' [Hx|(-> & Hx & k & it & Hin & Hq)].
          - left. by left.
          - apply elem_of_cons in Hin as [Heq|Hin]; [simplify_eq; by right|]. left. right. eauto 10. }
        cbn [fst snd]. rewrite Hs.
        destruct (IH (seen ++ [(KPlain f, items)]) (dset (KPlain f) (KF fut) acc) x1) as (to_dep & x2 & Hr & Hi2 & Hg2 & Hd2).
        + by rewrite <-app_assoc.
        + intros k it Hin. apply Hfl. by right.
        + done.
        + by eapply grow_alive.
        + done.
        + intros k it Hin. apply elem_snoc' in Hin as [Hin|Heq].
          * destruct (Hseen _ _ Hin) as (d & Hd & Hdok). exists d. split; [|eapply dep_ok_grow; [exact Hi|exact Hi1|done|done]].
            rewrite dget_dset_ne; [done|]. intros ->. unfold dkeys in Hnd. rewrite map_app in Hnd. simpl in Hnd.
            apply NoDup_app in Hnd as (_ & Hnd & _). apply (Hnd (KPlain f)); [|left].
            apply elem_of_list_fmap. eexists; split; [|exact Hin]. done.
          * simplify_eq. exists (KF fut). split; [by rewrite dget_dset_eq|]. exists fut. done.
        + eexists _, _. split; [exact Hr|]. split; [done|]. split; [by eapply grow_trans|].
          intros k it Hin. apply Hd2. by rewrite <-app_assoc. }
    intros Hnd Hfl Hi Ha Ho. destruct (Hgen groups [] [] x) as (to_dep & x' & H1 & H2 & H3 & H4); try done.
    { intros ?? Hx. by apply not_elem_of_nil in Hx. }
    eauto 10.
  Qed.

  Lemma schedule_links_spec idx x cur (debt : duty) dw gn ids to_func to_dep (links : list (glink * qitem)) :
    (forall l q, (l, q) ∈ links -> lnk gn l q) ->
    (forall l q r, (l, q) ∈ links -> gl_requires l = Some r ->
       exists f d items, dget r to_func = Some f /\ dget f to_dep = Some d /\ dep_ok gn ids items d x /\ QF r None None ∈ map snd items) ->
    einv idx x cur (fun gn' i q => debt gn' i q \/ (gn' = gn /\ i ∈ oids ids /\ exists l, (l, q) ∈ links))
         (list_sum (map (fun p => S (wt_sub p.2)) links) + dw) ->
    alive x.2 0 -> obj_ids gn ids ->
    exists x', schedule_links E 0 gn ids to_func to_dep links x = Ok x' /\ einv idx x' cur debt dw /\ grow x x'.
  Proof.
    unfold schedule_links. revert x. induction links as [|[l q] links IH]; intros x Hl Hr Hi Ha Ho; cbn [foldR].
    - eexists. split; [done|]. split; [|apply grow_refl].
      eapply einv_sub; [exact Hi|]. intros gn' i q [Hx|(_ & _ & l & Hx)]; [done|]. by apply not_elem_of_nil in Hx.
    - cbn [fst snd]. pose proof (Hl l q ltac:(left)) as Hlq. rewrite (lnk_req_true _ _ _ Hlq).
      set (debt' := fun gn' i q => debt gn' i q \/ (gn' = gn /\ i ∈ oids ids /\ exists l, (l, q) ∈ links)).
      assert (exists x1, match gl_requires l with
               | Some r =>
                   match dget r to_func with
                   | None => Err KeyError
                   | Some f => match dget f to_dep with
                               | None => Err KeyError
                               | Some dep => Ok (add_cb dep (CbSched 0 gn l q ids) x)
                               end
                   end
               | None => match schedule_link E 0 gn l q ids x with Ok (_, x') => Ok x' | Err e => Err e end
               end = Ok x1 /\ einv idx x1 cur debt' (list_sum (map (fun p => S (wt_sub p.2)) links) + dw) /\ grow x x1)
        as (x1 & -> & Hi1 & Hg1).
      { assert (einv idx x cur (fun gn' i q' => debt' gn' i q' \/ (gn' = gn /\ i ∈ oids ids /\ q' = q))
                 (S (wt_sub q) + (list_sum (map (fun p => S (wt_sub p.2)) links) + dw))) as Hi0.
        { eapply einv_weaken; [exact Hi| |simpl; lia]. intros gn' i q' [Hx|(-> & Hx & l' & Hin)]; apply cov_P; left.
          - left. by left.
          - apply elem_of_cons in Hin as [Heq|Hin]; [simplify_eq; by right|]. left. right. eauto. }
        destruct (gl_requires l) as [r|] eqn:Er.
        - destruct (Hr l q r ltac:(left) Er) as (f & d & items & -> & -> & (fut & -> & Hfut & Hlt & Hp) & Hin).
          destruct (add_spec (KF fut) fut (CbSched 0 gn l q ids) idx x cur debt'
                      (list_sum (map (fun p => S (wt_sub p.2)) links) + dw)) as (H1 & H2 & H3); try done.
          { intros gn' i r' (-> & Hx & Hy). right. eexists. split; [exact Hp|]. simpl. by simplify_eq. }
          eauto.
        - destruct (schedule_link_spec idx x cur debt' (list_sum (map (fun p => S (wt_sub p.2)) links) + dw) gn l q ids) as (fut & x1 & -> & Hi1 & Hg1 & _);
            try done.
          { intros i r _ Hx. congruence. }
          eauto. }
      destruct (IH x1) as (x2 & H1 & H2 & H3); try done.
      + intros l' q' Hin. apply Hl. by right.
      + intros l' q' r Hin Hreq. destruct (Hr l' q' r ltac:(by right) Hreq) as (f & d & items & ? & ? & ? & ?).
        exists f, d, items. split; [done|]. split; [done|]. split; [eapply dep_ok_grow; [exact Hi|exact Hi1|done|done]|done].
      + by eapply grow_alive.
      + eexists. split; [exact H1|]. split; [done|]. by eapply grow_trans.
  Qed.

  Lemma src_fld gn n q go : visited gn n -> src gn (qfields n) q -> find_field gn (q_name q) = Some go -> (exists fd, go = GF fd) ->
    exists f, fkey_of go = KPlain f /\ fld gn f q.
  Proof.
    intros Hv Hsrc Hf [fd ->].
    assert (plain_field fd) as [f Hp].
    { destruct Hsrc as [Hq|(q' & l & r & Hq & Hl & Hfl & Hr & ->)].
      - pose proof (sp_items _ _ Hsup _ _ _ Hv Hq) as Hs. rewrite Hf in Hs. apply Hs.
      - pose proof (sp_items _ _ Hsup _ _ _ Hv Hq) as Hs. rewrite Hfl, Hr in Hs.
        destruct Hs as (_ & _ & _ & f & Hfr & Hp). simpl in Hf. congruence. }
    exists f. simpl. rewrite Hp. split; [done|]. split; [|eauto]. exists n. split; [done|]. exact Hsrc.
  Qed.

  Lemma item_ok_supported gn n q : visited gn n -> q ∈ qfields n -> item_ok gn (qordered n) q.
  Proof.
    intros Hv Hq. pose proof (sp_items _ _ Hsup _ _ _ Hv Hq) as Hs. unfold item_ok.
    destruct (find_field gn (q_name q)) as [[f|l]|]; [by destruct Hs| |done].
    destruct Hs as (H1 & _ & H3). split; [done|]. destruct (gl_requires l); [|done].
    destruct H3 as (? & f & ? & _). eauto.
  Qed.

  Lemma process_node_spec idx x cur (debt : duty) dw gn n ids :
    visited gn n ->
    einv idx x cur (fun gn' i q => debt gn' i q \/ (gn' = gn /\ i ∈ oids ids /\ q ∈ qfields n)) (wt_items (qfields n) + dw) ->
    alive x.2 0 -> obj_ids gn ids ->
    exists x', process_node_body E pn 0 gn n ids x = Ok x' /\ einv idx x' cur debt dw /\ grow x x'.
  Proof.
    intros Hv Hi Ha Ho. unfold process_node_body.
    assert (forall q, q ∈ qfields n -> item_ok gn (qordered n) q) as Hok by (intros; by apply item_ok_supported).
    destruct (qordered n) eqn:Eord.
    - destruct (group_spec _ _ Hok) as (steps & -> & G1 & G2 & G3 & G4 & G5 & G6).
      assert (einv idx x cur (fun gn' i q' => debt gn' i q' \/ (gn' = gn /\ i ∈ oids ids /\ exists sp, sp ∈ steps /\ q' ∈ step_items sp))
         (list_sum (map wt_step steps) + dw)) as Hi'.
      { eapply einv_weaken; [exact Hi| |lia]. intros gn' i q [Hx|(-> & Hx & Hq)]; apply cov_P; left; [by left|].
        right. split; [done|]. split; [done|]. auto. }
      destruct steps as [|sp steps].
      + eexists. split; [done|]. split; [|apply grow_refl]. eapply einv_weaken; [exact Hi'| |simpl; lia].
        intros gn' i q [Hx|(_ & _ & sp & Hsp & _)]; [apply cov_P; by left|]. by apply not_elem_of_nil in Hsp.
      + eapply proc_steps_spec; try done.
        * intros [fk l|l q] Hsp.
          -- simpl. assert (exists f, fk = KPlain f) as [f ->].
             { destruct l as [|[go q] l']; [by apply G6 in Hsp|].
               destruct (G1 _ _ Hsp go q ltac:(left)) as (Hk & Hfd & Hf & Hs).
               destruct (src_fld _ _ _ _ Hv Hs Hf Hfd) as (f' & Hk' & Hfl). exists f'. congruence. }
             exists f. split; [done|]. intros [go q] Hp.
             destruct (G1 _ _ Hsp _ _ Hp) as (Hk & Hfd & Hf & Hs).
             destruct (src_fld _ _ _ _ Hv Hs Hf Hfd) as (f' & Hk' & Hfl). simpl. rewrite Hk' in Hk. by simplify_eq.
          -- simpl. destruct (G2 _ _ Hsp) as (H1 & H2 & H3). exists n. done.
        * intros i r _ Hn. by apply G4 in Hn.
    - destruct (split_spec _ _ Hok) as (fields & links & -> & S1 & S2 & S3 & S4 & S5).
      destruct (group_fold (fun t : fkey * gitem * qitem => t.1.1) (fun t => (t.1.2, t.2)) fields) as (D1 & D2 & D3 & D4).
      set (groups := fold_left (fun (d : dict fkey (list (gitem * qitem))) t => dappend t.1.1 (t.1.2, t.2) d) fields []) in *.
      pose proof (fun k vs v => group_elem (fun t : fkey * gitem * qitem => t.1.1) (fun t => (t.1.2, t.2)) fields k vs v) as Dg.
      fold groups in Dg.
      assert (forall k items, (k, items) ∈ groups -> exists f, k = KPlain f /\ forall p, p ∈ items -> fld gn f p.2) as Hgr.
      { intros k items Hin. destruct (D2 _ _ Hin) as [_ Hne]. destruct items as [|p0 items0] eqn:Eit; [done|]. rewrite <-Eit in *.
        assert (forall p, p ∈ items -> exists f, k = KPlain f /\ fld gn f p.2) as Hall.
        { intros p Hp. apply (Dg _ _ _ Hin) in Hp as ([[fk go] q] & Ht & Hk & ->). simpl in *. subst fk.
          destruct (S1 _ _ _ Ht) as (Hk & Hfd & Hf & Hs).
          destruct (src_fld _ _ _ _ Hv Hs Hf Hfd) as (f' & Hk' & Hfl). exists f'. split; [congruence|done]. }
        destruct (Hall p0) as (f & -> & _); [rewrite Eit; left|]. exists f. split; [done|]. intros p Hp.
        destruct (Hall p Hp) as (f' & [= <-] & ?). done. }
      set (debt' := fun gn' i q => debt gn' i q \/ (gn' = gn /\ i ∈ oids ids /\ exists l, (l, q) ∈ links)).
      set (lw := list_sum (map (fun p => S (wt_sub p.2)) links)) in *.
      destruct (schedule_groups_spec idx x cur debt' (lw + dw) gn ids groups) as (to_dep & x1 & -> & Hi1 & Hg1 & Hd); try done.
      { eapply einv_weaken; [exact Hi| |lia]. intros gn' i q [Hx|(-> & Hx & Hq)]; apply cov_P; left; [by left; left|].
        destruct (S3 _ Hq) as [(fk & go & Hin)|[l Hin]].
        - right. split; [done|]. split; [done|]. destruct (D3 _ Hin) as [items Hit]. exists fk, items. split; [done|].
          apply elem_of_list_fmap. exists (go, q). split; [done|]. apply (Dg _ _ _ Hit). by exists (fk, go, q).
        - left. right. eauto 10. }
      match goal with |- context [schedule_links E 0 gn ids ?tf to_dep links x1] =>
        enough (exists x', schedule_links E 0 gn ids tf to_dep links x1 = Ok x' /\ einv idx x' cur debt dw /\ grow x1 x')
          as (x2 & Hx2 & Hi2 & Hg2); [exists x2; split; [exact Hx2|]; split; [done|by eapply grow_trans]|] end.
      eapply schedule_links_spec; try done.
      + intros l q Hin. destruct (S2 _ _ Hin) as (? & ? & ?). by exists n.
      + intros l q r Hin Hr. destruct (S4 _ _ _ Hin Hr) as (fk & go & Ht). destruct (S1 _ _ _ Ht) as (Hk & _ & Hf & _).
        simpl in Hf. pose proof (find_field_name _ _ _ Hf) as Hgn.
        assert ((r, fk) ∈ map (fun t : fkey * gitem * qitem => (gi_name t.1.2, t.1.1)) fields) as Hpair.
        { apply elem_of_list_fmap. exists (fk, go, QF r None None). simpl. by rewrite Hgn. }
        destruct (dget_of_pairs_is_Some _ _ _ Hpair) as [fk' Hfk'].
        assert (fk' = fk) as ->.
        { apply dget_of_pairs_Some in Hfk'. apply elem_of_list_fmap in Hfk' as ([[fk2 go2] q2] & [= Hn ->] & Ht2). simpl in *.
          destruct (S1 _ _ _ Ht2) as (Hk2 & _ & Hf2 & _). pose proof (find_field_name _ _ _ Hf2) as Hgn2. congruence. }
        destruct (D3 _ Ht) as [items Hit]. simpl in Hit. destruct (Hd _ _ Hit) as (d & Hdd & Hdok).
        exists fk, d, items. split; [done|]. split; [done|]. split; [done|].
        apply elem_of_list_fmap. exists (go, QF r None None). split; [done|]. apply (Dg _ _ _ Hit). by exists (fk, go, QF r None None).
      + by eapply grow_alive.
  Qed.
  End node.

  (** ** Storing *)
  Definition good_pair (gn : gnode) (ids : option (list val)) (p : slot * ival) : Prop :=
    exists i q, asked gn q /\ good_obj gn i /\ p.1 = slot_of gn i (index_key q) /\ p.2 = ideal gn i q.
  Lemma sound_update idx gn ids ps : sound idx -> Forall (good_pair gn ids) ps -> sound (dupdate idx ps).
  Proof.
    intros Hs Hp k v. rewrite dget_dupdate. destruct (dget k (reverse ps)) as [v'|] eqn:Er; [|apply Hs].
    intros [= <-]. apply dget_Some_elem in Er. rewrite elem_of_reverse in Er. rewrite Forall_forall in Hp.
    destruct (Hp _ Er) as (i & q & ? & ? & ? & ?). simpl in *. eauto 10.
  Qed.
  Lemma stored_update idx ps gn i k : stored idx gn i k -> stored (dupdate idx ps) gn i k.
  Proof. unfold stored. rewrite dget_dupdate. destruct (dget _ (reverse ps)); [eauto|done]. Qed.
  Lemma stored_update_in idx (ps : list (slot * ival)) gn i k v : (slot_of gn i k, v) ∈ ps -> stored (dupdate idx ps) gn i k.
  Proof.
    intros Hin. unfold stored. rewrite dget_dupdate. destruct (dget _ (reverse ps)) eqn:Er; [eauto|].
    exfalso. apply dget_None in Er. apply Er. unfold dkeys. apply elem_of_list_fmap. eexists; split; [|by apply elem_of_reverse]. done.
  Qed.
  Lemma dupdate_app {K V} `{EqDecision K} (d : dict K V) a b : dupdate d (a ++ b) = dupdate (dupdate d a) b.
  Proof. unfold dupdate. by rewrite fold_left_app. Qed.
  Lemma store_row_eq n d i kvs : store_row n d i kvs = dupdate d (map (fun kv => ((n, i, kv.1), kv.2)) kvs).
  Proof. unfold store_row, dupdate. revert d. induction kvs as [|kv kvs IH]; intros d; simpl; [done|]. apply IH. Qed.

  Lemma seq_fields_ok f gn qfs i row :
    (forall q, q ∈ qfs -> fld gn f q) -> good_obj gn i ->
    row = map (fun q => d_field D f i (q_name q) (q_opts q)) qfs ->
    map (fun kv => (slot_of gn i kv.1, kv.2)) (zip (map index_key qfs) (map IVal row))
    = map (fun q => (slot_of gn i (index_key q), ideal gn i q)) qfs.
  Proof.
    intros Hf Hg ->. rewrite map_map. induction qfs as [|q qfs IH]; simpl; [done|].
    rewrite IH by (intros; apply Hf; by right). f_equal. f_equal.
    destruct (Hf q ltac:(left)) as (_ & fd & Hfd & Hp). unfold ideal. rewrite Hfd. unfold plain_value. by rewrite Hp.
  Qed.

  Definition field_pairs (gn : gnode) (qfs : list qitem) (ids : option (list val)) : list (slot * ival) :=
    concat (map (fun i => map (fun q => (slot_of gn i (index_key q), ideal gn i q)) qfs) (oids ids)).

  Lemma store_fields_spec idx gn qfs ids f n c r :
    obj_ids gn ids -> field_call gn qfs ids f c -> ret_val (e_oracle E n c) = Some r ->
    store_fields idx gn qfs ids r = Ok (dupdate idx (field_pairs gn qfs ids)).
  Proof.
    intros Ho [-> Hf] Hr. destruct (Hserve n (Call f (e_ctx E f) (AFields qfs ids))) as (r' & Hr' & Hs).
    rewrite Hr in Hr'. injection Hr' as <-. simpl in Hs.
    unfold store_fields, check_store_fields. destruct ids as [is_|]; simpl in Ho.
    - destruct Ho as [Hne' [nm Hn]]. pose proof (find_node_name _ _ _ Hn) as Hnm. rewrite Hnm.
      destruct Hs as (rows & Hseq & Hrows). rewrite Hseq.
      assert (length rows = length is_) as Hlen by (symmetry; by eapply Forall2_length).
      assert (forallb (rows_ok (length qfs)) rows = true) as Hall.
      { apply forallb_forall. intros row Hin. apply elem_of_list_In in Hin.
        destruct (proj1 (elem_of_list_lookup _ _) Hin) as [k Hk].
        destruct (Forall2_lookup_r _ _ _ _ _ Hrows Hk) as (i & _ & Hx). unfold rows_ok. rewrite Hx, map_length. apply Nat.eqb_refl. }
      rewrite Hlen, Nat.eqb_refl, Hall. simpl. f_equal. clear Hall Hseq Hlen Hr r Hne'.
      unfold field_pairs. simpl. rewrite map_map. revert idx rows Hrows.
      induction is_ as [|i is_ IH]; intros idx rows Hrows; inversion Hrows as [|? row ? rows' Hrow Hrows']; subst; simpl; [done|].
      rewrite Hrow, dupdate_app. rewrite <-(IH _ _ Hrows'). f_equal. rewrite store_row_eq.
      f_equal. rewrite <-(seq_fields_ok f gn qfs (Some i) _ Hf ltac:(simpl; eauto) eq_refl).
      unfold slot_of, objref. rewrite Hnm. done.
    - subst gn. cbn [gn_name g_root]. rewrite Hs, map_length, Nat.eqb_refl. f_equal.
      rewrite store_row_eq. unfold field_pairs. cbn [oids map concat]. rewrite !app_nil_r. f_equal.
      by rewrite <-(seq_fields_ok f (g_root g) qfs None _ Hf eq_refl eq_refl).
  Qed.

  Lemma field_pairs_good gn qfs ids f : obj_ids gn ids -> (forall q, q ∈ qfs -> fld gn f q) ->
    Forall (good_pair gn ids) (field_pairs gn qfs ids).
  Proof.
    intros Ho Hf. apply Forall_forall. intros p Hp. unfold field_pairs in Hp.
    apply elem_of_list_In, in_concat in Hp as (l & Hl & Hp). apply in_map_iff in Hl as (i & <- & Hi).
    apply in_map_iff in Hp as (q & <- & Hq). exists i, q. apply elem_of_list_In in Hi, Hq. simpl.
    split; [by apply Hf|]. split; [by eapply obj_ids_good|done].
  Qed.
  Lemma field_pairs_in gn qfs ids i q : i ∈ oids ids -> q ∈ qfs ->
    (slot_of gn i (index_key q), ideal gn i q) ∈ field_pairs gn qfs ids.
  Proof.
    intros Hi Hq. unfold field_pairs. apply elem_of_list_In, in_concat. eexists. split.
    - apply in_map_iff. exists i. split; [reflexivity|]. by apply elem_of_list_In.
    - apply in_map_iff. exists q. split; [done|]. by apply elem_of_list_In.
  Qed.

  Lemma einv_pop idx x c cs (debt : duty) dw :
    (forall gn i r, ~ provides c gn i r) -> einv idx x (c :: cs) debt dw ->
    einv idx x cs (fun gn i q => debt gn i q \/ resp c gn i q) (wt c + dw) /\
    (forall gn i r, need c gn i r -> stored idx gn i r) /\ cb_ok (w_log x.1) c.
  Proof.
    intros Hp [H1 H2 H3 H4 H5 H6 H7 H8 H9 H10 H11 H12 H13 H14]. destruct H7 as [Hn Hc].
    split; [|split; [done|apply H5; left]]. split; try done.
    - intros c' Hc'. apply H5. by right.
    - eapply chain_mono; [|exact Hc]. simpl. intros gn i r [?|Hx]; [done|]. by apply Hp in Hx.
    - intros q Hq. eapply cov_mono; [| |by apply H8]; [|done]. intros gn i q' [Hx|(c' & Hc' & Hr)]; apply cov_P.
      + left. by left.
      + destruct Hc' as [Hc'|[k Hk]].
        * apply elem_of_cons in Hc' as [->|Hc']; [left; by right|]. right. eauto.
        * right. eauto.
    - unfold wts in *. simpl in H14. lia.
  Qed.

  (** Updating the index *)
  Lemma einv_update idx idx' x cur (debt debt' : duty) dw :
    einv idx x cur debt dw -> sound idx' ->
    (forall gn i k, stored idx gn i k -> stored idx' gn i k) ->
    (forall gn i q, debt gn i q -> cov idx' (P_of debt' cur x) gn i q) ->
    einv idx' (set_index 0 idx' x) cur debt' dw.
  Proof.
    intros [H1 H2 H3 H4 H5 H6 H7 H8 H9 H10 H11 H12 H13 H14] Hs Hst Hd. split; try done; simpl.
    - by rewrite H1.
    - intros k. eapply chain_mono; [|apply H6]. auto.
    - eapply chain_mono; [|apply H7]. auto.
    - intros q Hq. eapply cov_mono; [|exact Hst|by apply H8]. intros gn i q' [Hx|Hx]; [by apply Hd|].
      apply cov_P. by right.
  Qed.

  Definition no_debt : duty := fun _ _ _ => False.

  Lemma run_store idx x gn qfs ids fut cs :
    einv idx x (CbStore 0 gn qfs ids fut :: cs) no_debt 0 ->
    exists idx' x', run_cb E (CbStore 0 gn qfs ids fut) x = Ok x' /\ einv idx' x' cs no_debt 0 /\ x'.2 = x.2.
  Proof.
    intros Hi. set (c := CbStore 0 gn qfs ids fut) in *.
    destruct (ei_cur _ _ _ _ _ Hi c ltac:(left)) as (_ & Ho & f & cl & Hl & Hfc).
    destruct (Hserve fut cl) as (r & Hr & _).
    unfold run_cb. cbn [c]. unfold fut_result. rewrite Hl.
    assert (match e_oracle E fut cl with Ret v => Ok v | RetGen l => Ok (VList l) | Raise e => Err e end = Ok r) as ->.
    { destruct (e_oracle E fut cl); simpl in Hr; by simplify_eq. }
    unfold store_result, get_wf. rewrite (ei_wf _ _ _ _ _ Hi). cbn [lookup list_lookup from_opt wf_index].
    rewrite (store_fields_spec idx gn qfs ids f fut cl r Ho Hfc Hr).
    set (idx' := dupdate idx (field_pairs gn qfs ids)).
    exists idx', (set_index 0 idx' x). split; [done|]. split; [|done].
    assert (sound idx') as Hs.
    { eapply sound_update; [apply Hi|]. eapply field_pairs_good; [done|apply Hfc]. }
    assert (forall i q, i ∈ oids ids -> q ∈ qfs -> stored idx' gn i (index_key q)) as Hst.
    { intros i q Hi' Hq. eapply stored_update_in, field_pairs_in; done. }
    assert (einv idx' (set_index 0 idx' x) (c :: cs) no_debt 0) as Hi'.
    { eapply einv_update; [exact Hi|done|intros; by apply stored_update|]. by intros ???[]. }
    destruct Hi' as [H1 H2 H3 H4 H5 H6 H7 H8 H9 H10 H11 H12 H13 H14]. split; try done.
    - intros c' Hc'. apply H5. by right.
    - destruct H7 as [_ Hc]. eapply chain_mono; [|exact Hc]. simpl. intros gn' i r' [?|(-> & Hi' & Hq)]; [done|].
      by apply (Hst i (QF r' None None)).
    - intros q Hq. eapply cov_mono; [| |by apply H8]; [|done]. intros gn' i q' [[]|(c' & Hc' & Hr')].
      destruct Hc' as [Hc'|[k Hk]]; [|apply cov_P; right; eauto].
      apply elem_of_cons in Hc' as [->|Hc']; [|apply cov_P; right; eauto].
      simpl in Hr'. destruct Hr' as (-> & Hi' & Hq').
      destruct Hfc as [_ Hfl]. destruct (Hfl _ Hq') as (_ & fd & Hfd & _). eapply cov_field; [by apply Hst|done].
  Qed.

  (** ** Links *)
  Lemma link_ref_spec gn i l q v : lnk gn l q -> v = link_value fv D gn i l q -> link_ref l v = Ok (ref_value l v).
  Proof.
    intros (n & Hv & Hq & _ & Hf) Hvv. pose proof (Hlinks gn n i q l Hv Hq Hf) as Hx. rewrite <-Hvv in Hx.
    unfold link_ref, ref_value. destruct (gl_enum l); [by destruct v|by destruct v|].
    destruct Hx as [vs Hvs]. unfold seq_items. rewrite Hvs, (seq_of_iter _ _ Hvs). done.
  Qed.
  Lemma lnk_many gn i l q : lnk gn l q -> gl_enum l = Many -> is_Some (seq_of (link_value fv D gn i l q)).
  Proof. intros (n & Hv & Hq & _ & Hf) He. pose proof (Hlinks gn n i q l Hv Hq Hf) as Hx. by rewrite He in Hx. Qed.
  Lemma lnk_one gn i l q : lnk gn l q -> gl_enum l = One -> link_value fv D gn i l q <> VNothing.
  Proof. intros (n & Hv & Hq & _ & Hf) He. pose proof (Hlinks gn n i q l Hv Hq Hf) as Hx. by rewrite He in Hx. Qed.
  Lemma lnk_asked gn l q : lnk gn l q -> asked gn q.
  Proof. intros (n & Hv & Hq & _). exists n. split; [done|by left]. Qed.
  Lemma lnk_ideal gn i l q : lnk gn l q -> ideal gn i q = ref_value l (link_value fv D gn i l q).
  Proof. intros (n & _ & _ & _ & Hf). unfold ideal. by rewrite Hf. Qed.

  (** The values behind the result of a link's loader *)
  Definition many_result (ids : option (list val)) (l : glink) : bool :=
    match ids, gl_requires l with Some _, Some _ => true | _, _ => false end.
  Lemma link_result gn l q ids n c r :
    obj_ids gn ids -> link_call gn l q ids c -> ret_val (e_oracle E n c) = Some r ->
    if many_result ids l then seq_of r = Some (map (fun i => link_value fv D gn i l q) (oids ids))
    else forall i, i ∈ oids ids -> r = link_value fv D gn i l q.
  Proof.
    intros Ho [-> Hl] Hr. destruct (Hserve n (Call (gl_func l) (e_ctx E (gl_func l)) (ALink (req_arg gn l ids) (link_opts l q)))) as (r' & Hr' & Hs).
    rewrite Hr in Hr'. injection Hr' as <-. simpl in Hs. unfold many_result, req_arg in *. unfold link_value, link_arg.
    destruct (gl_requires l) as [rq|].
    - destruct ids as [is_|]; simpl in *.
      + rewrite (Hs (map (fun i => field_value fv gn (Some i) rq None) is_)); [|by rewrite map_map]. by rewrite !map_map.
      + intros i ->%elem_of_list_singleton. by apply Hs.
    - destruct ids as [is_|]; intros i _; done.
  Qed.

  Definition link_pairs (gn : gnode) (q : qitem) (ids : option (list val)) : list (slot * ival) :=
    map (fun i => (slot_of gn i (index_key q), ideal gn i q)) (oids ids).

  Lemma store_links_spec idx gn l q ids n c r :
    obj_ids gn ids -> link_call gn l q ids c -> ret_val (e_oracle E n c) = Some r ->
    store_links idx gn l q ids r = Ok (dupdate idx (link_pairs gn q ids)).
  Proof.
    intros Ho Hc Hr. pose proof (obj_ids_ne _ _ Ho) as Hne. pose proof (link_result _ _ _ _ _ _ _ Ho Hc Hr) as Hres. destruct Hc as [_ Hl].
    assert (check_store_links gn l ids r = Ok tt) as Hchk.
    { unfold check_store_links. destruct ids as [is_|]; simpl in Ho.
      - destruct Ho as [Hne' [nm Hn]]. rewrite (find_node_name _ _ _ Hn). unfold many_result in Hres.
        destruct (gl_requires l) as [rq|].
        + rewrite Hres. simpl. rewrite !map_length, Nat.eqb_refl. simpl. destruct (gl_enum l) eqn:Ee; try done.
          replace (forallb is_seq _) with true; [done|]. symmetry. apply forallb_forall. intros v Hv.
          apply in_map_iff in Hv as (i & <- & Hi). unfold is_seq. by destruct (lnk_many gn i l q Hl Ee) as [? ->].
        + destruct (gl_enum l) eqn:Ee; try done. simpl in *. destruct is_ as [|i0 is_]; [done|].
          rewrite (Hres (Some i0)) by left. unfold is_seq. by destruct (lnk_many gn (Some i0) l q Hl Ee) as [? ->].
      - subst gn. cbn [gn_name g_root]. destruct (gl_enum l) eqn:Ee; try done. simpl in Hres.
        rewrite (Hres None) by left. unfold is_seq. by destruct (lnk_many (g_root g) None l q Hl Ee) as [? ->]. }
    unfold store_links. rewrite Hchk. clear Hchk. destruct ids as [is_|]; simpl in Ho.
    - destruct Ho as [Hne' [nm Hn]]. pose proof (find_node_name _ _ _ Hn) as Hnm. rewrite Hnm.
      replace (match gl_requires l with Some _ => seq_items r | None => repeat r (length is_) end)
        with (map (fun i => link_value fv D gn (Some i) l q) is_).
      2:{ unfold many_result in Hres. destruct (gl_requires l).
          - unfold seq_items. rewrite Hres. simpl. by rewrite map_map.
          - clear -Hres. simpl in Hres. induction is_ as [|i is_ IH]; simpl; [done|]. f_equal.
            + symmetry. apply Hres. left.
            + apply IH. intros j Hj. apply Hres. by right. }
      clear Hres Hne Hne'. unfold link_pairs. simpl. rewrite map_map. revert idx. induction is_ as [|i is_ IH]; intros idx; simpl; [done|].
      rewrite (link_ref_spec gn (Some i) l q) by done. rewrite IH. f_equal. f_equal. rewrite (lnk_ideal gn (Some i) l q Hl).
      unfold slot_of, objref. by rewrite Hnm.
    - subst gn. cbn [gn_name g_root]. simpl in Hres. rewrite (link_ref_spec (g_root g) None l q); [|done|apply Hres; left].
      f_equal. unfold link_pairs. simpl. rewrite (lnk_ideal _ None l q Hl). rewrite <-(Hres None) by left. done.
  Qed.

  Lemma targets_ids gn l q ids r :
    lnk gn l q -> oids ids <> [] ->
    (if many_result ids l then seq_of r = Some (map (fun i => link_value fv D gn i l q) (oids ids))
     else forall i, i ∈ oids ids -> r = link_value fv D gn i l q) ->
    exists to_ids, link_result_to_ids (many_result ids l) (gl_enum l) r = Ok to_ids /\
      forall i j, i ∈ oids ids -> j ∈ targets l (link_value fv D gn i l q) -> j ∈ to_ids.
  Proof.
    intros Hl Hne Hres. unfold link_result_to_ids. destruct (many_result ids l).
    - rewrite (seq_of_iter _ _ Hres). unfold targets.
      destruct (gl_enum l) eqn:Ee.
      + eexists. split; [done|]. intros i j Hi Hj. apply elem_of_list_In, filter_In.
        assert (j = link_value fv D gn i l q /\ not_nothing j = true) as [-> Hn].
        { destruct (link_value fv D gn i l q); try (apply elem_of_list_singleton in Hj; by subst). by apply not_elem_of_nil in Hj. }
        split; [|done]. apply in_map_iff. exists i. split; [done|]. by apply elem_of_list_In.
      + replace (forallb not_nothing _) with true.
        2:{ symmetry. apply forallb_forall. intros v Hv. apply in_map_iff in Hv as (i & <- & Hi).
            pose proof (lnk_one gn i l q Hl Ee). by destruct (link_value fv D gn i l q). }
        eexists. split; [done|]. intros i j Hi ->%elem_of_list_singleton. apply elem_of_list_fmap. eauto.
      + exists (concat (map (fun i => seq_items (link_value fv D gn i l q)) (oids ids))). split.
        * assert (mapR (fun v => from_opt TypeError (iter_of v)) (map (fun i => link_value fv D gn i l q) (oids ids))
                  = Ok (map (fun i => seq_items (link_value fv D gn i l q)) (oids ids))) as ->; [|done].
          clear Hres Hne. induction (oids ids) as [|i is_ IH]; simpl; [done|].
          destruct (lnk_many gn i l q Hl Ee) as [vs Hvs]. unfold seq_items at 1. rewrite Hvs, (seq_of_iter _ _ Hvs). simpl. by rewrite IH.
        * intros i j Hi Hj. apply elem_of_list_In, in_concat. eexists. split; [|by apply elem_of_list_In].
          apply in_map_iff. exists i. split; [done|]. by apply elem_of_list_In.
    - unfold targets. destruct (oids ids) as [|i0 is_] eqn:Ei; [done|].
      pose proof (Hres i0 ltac:(left)) as Hr0. destruct (gl_enum l) eqn:Ee.
      + exists (match r with VNothing => [] | _ => [r] end). split; [by destruct r|].
        intros i j Hi Hj. by rewrite (Hres i Hi).
      + exists [r]. split.
        * pose proof (lnk_one gn i0 l q Hl Ee) as Hx. rewrite <-Hr0 in Hx. by destruct r.
        * intros i j Hi ->%elem_of_list_singleton. rewrite (Hres i Hi). left.
      + destruct (lnk_many gn i0 l q Hl Ee) as [vs Hvs]. rewrite <-Hr0 in Hvs. rewrite (seq_of_iter _ _ Hvs).
        exists vs. split; [done|]. intros i j Hi. rewrite <-(Hres i Hi). unfold seq_items. by rewrite Hvs.
  Qed.

  Lemma link_pairs_good gn l q ids : obj_ids gn ids -> lnk gn l q -> Forall (good_pair gn ids) (link_pairs gn q ids).
  Proof.
    intros Ho Hl. apply Forall_forall. intros p Hp. apply elem_of_list_fmap in Hp as (i & -> & Hi).
    exists i, q. simpl. split; [by eapply lnk_asked|]. split; [by eapply obj_ids_good|done].
  Qed.

  Lemma run_link idx x gn l q ids fut cs :
    einv idx x (CbLink 0 gn l q ids fut :: cs) no_debt 0 -> alive x.2 0 ->
    exists idx' x', run_cb E (CbLink 0 gn l q ids fut) x = Ok x' /\ einv idx' x' cs no_debt 0 /\ uses (disciplined None) x.2 x'.2.
  Proof.
    intros Hi Ha. apply einv_pop in Hi as (Hi & _ & Hok); [|simpl; tauto]. simpl in Hok.
    destruct Hok as (_ & Ho & cl & Hl & Hlc). destruct (Hserve fut cl) as (r & Hr & _).
    unfold run_cb, fut_result. rewrite Hl.
    assert (match e_oracle E fut cl with Ret v => Ok v | RetGen l => Ok (VList l) | Raise e => Err e end = Ok r) as ->.
    { destruct (e_oracle E fut cl); simpl in Hr; by simplify_eq. }
    unfold process_link, get_wf. rewrite (ei_wf _ _ _ _ _ Hi). cbn [lookup list_lookup from_opt wf_index wf_graph].
    rewrite (store_links_spec idx gn l q ids fut cl r Ho Hlc Hr).
    pose proof (link_result _ _ _ _ _ _ _ Ho Hlc Hr) as Hres.
    pose proof Hlc as [_ Hlnk].
    destruct (targets_ids gn l q ids r Hlnk (obj_ids_ne _ _ Ho) Hres) as (to_ids & Hto & Htg).
    fold (many_result ids l). rewrite Hto.
    set (idx' := dupdate idx (link_pairs gn q ids)).
    assert (sound idx') as Hs.
    { eapply sound_update; [apply Hi|]. by eapply link_pairs_good. }
    assert (forall i, i ∈ oids ids -> stored idx' gn i (index_key q)) as Hst.
    { intros i Hi'. eapply stored_update_in. apply elem_of_list_fmap. exists i. done. }
    destruct Hlnk as (n & Hv & Hq & Hql & Hf).
    pose proof (sp_items _ _ Hsup _ _ _ Hv Hq) as Hsp. rewrite Hf in Hsp. destruct Hsp as (_ & [gn' Hn'] & _).
    destruct to_ids as [|j0 to_ids].
    - exists idx', (set_index 0 idx' x). split; [done|]. split; [|constructor].
      eapply einv_weaken; [eapply (einv_update _ idx' _ _ _ no_debt); [exact Hi|done|intros; by apply stored_update|]| |simpl; lia].
      + intros gn2 i q' [[]|(-> & Hi' & ->)]. eapply cov_link; [by apply Hst|done|exact Hf|exact Hn'|].
        intros j q' Hj _. by apply Htg in Hj; [apply not_elem_of_nil in Hj|].
      + by intros ???[].
    - rewrite Hn', Hql. set (to := j0 :: to_ids) in *.
      set (debt' := fun gn2 i q2 => no_debt gn2 i q2 \/ (gn2 = gn' /\ i ∈ oids (Some to) /\ q2 ∈ qfields (q_node q))).
      assert (einv idx' (set_index 0 idx' x) cs debt' (wt_sub q + 0)) as Hi2.
      { eapply einv_update; [exact Hi|done|intros; by apply stored_update|].
        intros gn2 i q' [[]|(-> & Hi' & ->)]. eapply cov_link; [by apply Hst|done|exact Hf|exact Hn'|].
        intros j q' Hj Hq'. apply cov_P. left. right. split; [done|]. split; [|done]. apply elem_of_list_fmap. eauto. }
      destruct (process_node_spec (process_node E (length (e_sgs E))) idx' (set_index 0 idx' x) cs no_debt 0 gn' (q_node q) (Some to)) as (x' & Hx' & Hi3 & Hg3).
      { by eapply vis_link. }
      { done. }
      { done. }
      { simpl. split; [done|]. eauto. }
      exists idx', x'. split; [exact Hx'|]. split; [done|]. apply Hg3.
  Qed.

  Lemma run_cb_spec idx x c cs :
    einv idx x (c :: cs) no_debt 0 -> alive x.2 0 ->
    exists idx' x', run_cb E c x = Ok x' /\ einv idx' x' cs no_debt 0 /\ uses (disciplined None) x.2 x'.2.
  Proof.
    intros Hi Ha. pose proof (ei_cur _ _ _ _ _ Hi c ltac:(left)) as Hok. destruct c as [w gn qfs ids fut| |w gn l q ids|w gn l q ids fut|w gn steps ids].
    - destruct Hok as (-> & _). destruct (run_store _ _ _ _ _ _ _ Hi) as (idx' & x' & H1 & H2 & H3).
      exists idx', x'. split; [done|]. split; [done|]. rewrite H3. constructor.
    - done.
    - destruct Hok as (-> & Ho & Hl). apply einv_pop in Hi as (Hi & Hn & _); [|simpl; tauto].
      destruct (schedule_link_spec idx x cs no_debt 0 gn l q ids) as (fut & x' & Hs & Hi' & Hg' & _); try done.
      { intros i r Hi' Hr. apply Hn. done. }
      exists idx, x'. split; [cbn [run_cb]; by rewrite Hs|]. split; [done|apply Hg'].
    - destruct Hok as (-> & _). by eapply run_link.
    - destruct Hok as (-> & Ho & Hne & Hst). apply einv_pop in Hi as (Hi & Hn & _); [|simpl; tauto].
      destruct (proc_steps_spec (process_node E (pn_fuel E)) idx x cs no_debt 0 gn steps ids) as (x' & Hs & Hi' & Hg'); try done.
      { intros i r Hi' Hr. apply Hn. done. }
      exists idx, x'. split; [done|]. split; [done|apply Hg'].
  Qed.

  (** ** Reading the result *)
  Lemma denorm_resolve idx gn i q : sound idx -> cov idx no_debt gn i q ->
    forall pn, visited gn pn -> q ∈ qfields pn -> good_obj gn i ->
    denorm g idx gn (objref gn i) pn q = resolve g fv D gn i q.
  Proof.
    intros Hs Hc. induction Hc as [gn i q []|gn i q f Hst Hf|gn i q l gn' Hst Hl Hf Hn Hsub IH]; intros pn Hv Hq Hg.
    - assert (asked gn q) as Ha by (exists pn; split; [done|by left]).
      assert (proxy_get idx (objref gn i) pn (result_key q) = Ok (PRaw (IVal (fv f i (q_name q) (q_opts q))))) as Hpg.
      { unfold proxy_get.
        assert (dget (result_key q) (q_result_map pn) = Some q) as ->.
        { unfold q_result_map. rewrite of_pairs_NoDup.
          - apply dget_NoDup; [|apply elem_of_list_fmap; eauto]. unfold dkeys. rewrite map_map. simpl. by apply (sp_keys _ _ Hsup gn).
          - unfold dkeys. rewrite map_map. simpl. by apply (sp_keys _ _ Hsup gn). }
        destruct Hst as [v Hst]. pose proof (sound_get _ _ _ _ _ Hs Ha Hg Hst) as ->.
        match goal with |- context [@dget ?a ?b ?c ?k idx] => change (@dget a b c k idx) with (dget (slot_of gn i (index_key q)) idx) end. rewrite Hst. unfold ideal. rewrite Hf. by destruct q. }
      destruct q as [nm o a|nm sub ord o a]; simpl in Hf |- *; rewrite Hf; simpl in Hpg; rewrite Hpg; [done|].
      by destruct (get_type (g_dtypes g) (gf_ty f)).
    - assert (asked gn q) as Ha by (exists pn; split; [done|by left]).
      destruct q as [|nm sub ord o a]; [done|]. set (q := QL nm sub ord o a) in *.
      set (v := link_value fv D gn i l q) in *.
      assert (exists r, proxy_get idx (objref gn i) pn (result_key q) = Ok r /\
        match gl_enum l with
        | Maybe => match v with VNothing => r = PRaw (IVal VNone) | _ => r = PProxy (gl_node l, v) (QN sub ord) end
        | One => r = PProxy (gl_node l, v) (QN sub ord)
        | Many => match seq_items v with [] => r = PRaw (IRefs []) | js => r = PList (map (fun j => (gl_node l, j)) js) (QN sub ord) end
        end) as (r & Hpg & Hr).
      { unfold proxy_get.
        assert (dget (result_key q) (q_result_map pn) = Some q) as ->.
        { unfold q_result_map. rewrite of_pairs_NoDup.
          - apply dget_NoDup; [|apply elem_of_list_fmap; eauto]. unfold dkeys. rewrite map_map. simpl. by apply (sp_keys _ _ Hsup gn).
          - unfold dkeys. rewrite map_map. simpl. by apply (sp_keys _ _ Hsup gn). }
        destruct Hst as [w Hst]. pose proof (sound_get _ _ _ _ _ Hs Ha Hg Hst) as ->.
        match goal with |- context [@dget ?a ?b ?c ?k idx] => change (@dget a b c k idx) with (dget (slot_of gn i (index_key q)) idx) end. rewrite Hst. unfold ideal. rewrite Hf. fold v. unfold ref_value.
        destruct (gl_enum l).
        - destruct v; eexists; split; reflexivity.
        - eexists; split; reflexivity.
        - destruct (seq_items v); eexists; split; reflexivity. }
      assert (forall j, j ∈ targets l v -> mapR (denorm g idx gn' (gl_node l, j) (QN sub ord)) sub = mapR (resolve g fv D gn' (Some j)) sub) as Hobj.
      { intros j Hj. apply mapR_ext. apply Forall_forall. intros q' Hq'.
        pose proof (IH j q' Hj Hq' (QN sub ord)) as Hx. unfold objref in Hx. rewrite (find_node_name _ _ _ Hn) in Hx.
        apply Hx; [|done|simpl; eauto]. by eapply (vis_link _ _ gn pn q l). }
      unfold q in Hf, Hpg |- *. simpl in Hf, Hpg |- *. unfold result_key in *. simpl in *. rewrite Hf, Hpg, Hn.
      change (link_value fv D gn i l (QL nm sub ord o a)) with v.
      unfold targets in Hobj. destruct (gl_enum l).
      + assert (v = VNothing \/ v <> VNothing) as [Ev|Ev] by (destruct v; eauto; by right).
        * rewrite Ev in *. by subst r.
        * assert (r = PProxy (gl_node l, v) (QN sub ord)) as -> by (destruct v; done).
          rewrite Hobj; [|destruct v; try done; left]. by destruct v.
      + subst r. rewrite Hobj by left. done.
      + destruct (seq_items v) as [|j js] eqn:Ejs; [by subst r|]. subst r.
        assert (forall js', (forall j, j ∈ js' -> j ∈ seq_items v) ->
          mapR (fun ref' => match mapR (denorm g idx gn' ref' (QN sub ord)) sub with Ok ps => Ok (TO (of_pairs ps)) | Err e => Err e end)
               (map (fun j => (gl_node l, j)) js')
          = mapR (fun j => match mapR (resolve g fv D gn' (Some j)) sub with Ok ps => Ok (TO (of_pairs ps)) | Err e => Err e end) js') as Hm.
        { induction js' as [|j' js' IHj]; intros Hin; simpl; [done|].
          rewrite Hobj; [|rewrite <-Ejs; apply Hin; left]. rewrite IHj; [done|]. intros; apply Hin; by right. }
        rewrite Ejs in Hm. specialize (Hm (j :: js) ltac:(done)). simpl in Hm |- *. by rewrite Hm.
  Qed.

  (** ** All the configurations of the executor's loop *)
  Notation cfg := (st * phase cb)%type.
  Definition cur_of (p : phase cb) : list cb :=
    match p with PF (Some (_, cs)) _ => cs | PT (Some (_, cs)) _ => cs | _ => [] end.
  Definition ndones (tr : list (qev cb)) : nat := length (dones tr).
  Record cinv (a : cfg) : Prop := {
    ci_disc : cfg_disc a;
    ci_einv : exists idx, einv idx a.1 (cur_of a.2) no_debt 0;
    ci_phase : match a.2 with
               | PF _ _ => alive a.1.2 0
               | PT (Some (_, cs)) _ => cs = []
               | _ => True
               end;
    ci_count : length (q_futures a.1.2) + length (done_rem a.2) + ndones (q_trace a.1.2) = q_nfut a.1.2;
  }.

  Lemma dones_snoc tr e : ndones (tr ++ [e]) = ndones tr + match e with EvDone _ => 1 | _ => 0 end.
  Proof. unfold ndones. rewrite dones_app, app_length. simpl. by destruct e. Qed.

  Lemma count_uses lim q q' dn tss ct :
    uses (disciplined lim) q q' -> disc_inv q dn tss ct -> lim_ok lim q tss ct ->
    length (q_futures q') + q_nfut q = length (q_futures q) + q_nfut q' /\ ndones (q_trace q') = ndones (q_trace q).
  Proof.
    induction 1 as [q|q o q1 q2 Ha Ho Hu IH]; intros Hi Hl; [done|].
    destruct (disc_op _ _ _ _ _ _ _ Hi Hl Ha Ho) as [Hi1 Hl1]. destruct (IH Hi1 Hl1) as [IH1 IH2]. rewrite IH2.
    enough (length (q_futures q1) + q_nfut q = length (q_futures q) + q_nfut q1 /\ ndones (q_trace q1) = ndones (q_trace q))
      as [H1 H2] by (split; [lia|done]).
    destruct o as [t|p|k c]; simpl in Ho.
    - unfold q_submit in Ho. destruct (dget t (q_futs q)) as [l|] eqn:Et; [|done]. injection Ho as <-.
      unfold q_futures. simpl. rewrite dones_snoc. split; [|lia].
      pose proof (futures_dset_perm t (q_nfut q) l (q_futs q) Et) as Hp. apply Permutation_length in Hp. rewrite Hp. simpl. lia.
    - assert (q_nts q ∉ dkeys (q_futs q)) as Hnew.
      { intros Hin. apply (di_nts _ _ _ _ Hi) in Hin. lia. }
      unfold q_fork in Ho. destruct p as [p|]; [destruct (dget p _); [|done]|]; injection Ho as <-; unfold q_futures; simpl;
        rewrite dones_snoc, futures_dset_new by done; split; lia.
    - injection Ho as <-. unfold q_futures. simpl. rewrite dones_snoc. split; lia.
  Qed.

  Lemma einv_q idx w (q q' : queue cb) cur debt dw :
    einv idx (w, q) cur debt dw -> q_cbs q' = q_cbs q -> q_nfut q' = q_nfut q -> q_nts q' = q_nts q ->
    (forall t, t ∈ dkeys (q_futs q') -> t ∈ dkeys (q_futs q)) -> einv idx (w, q') cur debt dw.
  Proof.
    intros [H1 H2 H3 H4 H5 H6 H7 H8 H9 H10 H11 H12 H13 H14] Hc Hf Ht Hk. simpl in *.
    assert (forall k, pending k q' = pending k q) as Hp by (intros; unfold pending; by rewrite Hc).
    split; simpl; try done.
    - congruence.
    - intros k c. rewrite Hp. apply H4.
    - intros k. rewrite Hp. apply H6.
    - intros q2 Hq2. eapply cov_mono; [| |by apply H8]; [|done]. intros gn i q3 [[]|(c & Hcc & Hr)] || intros gn i q3 [Hx|(c & Hcc & Hr)].
      + apply cov_P. by left.
      + apply cov_P. right. exists c. split; [|done]. destruct Hcc as [?|[k Hk']]; [by left|]. right. exists k. by rewrite Hp.
    - intros f. rewrite Hp, Hf. apply H9.
    - intros t. rewrite Hp. apply H10.
    - auto.
    - congruence.
    - unfold wq in *. rewrite Hc. done.
  Qed.

  Lemma einv_pop_key idx w (q q' : queue cb) k cs :
    NoDup (dkeys (q_cbs q)) -> einv idx (w, q) [] no_debt 0 -> q_pop k q = (cs, q') -> einv idx (w, q') cs no_debt 0.
  Proof.
    intros Hnd [H1 H2 H3 H4 H5 H6 H7 H8 H9 H10 H11 H12 H13 H14] Hpop. simpl in *.
    pose proof (wq_pop _ _ _ _ Hpop) as Hw.
    assert (cs = pending k q) as Hcs by (unfold q_pop in Hpop; by simplify_eq).
    assert (forall k', pending k' q' = if decide (k' = k) then [] else pending k' q) as Hp.
    { intros k'. unfold q_pop in Hpop. simplify_eq. unfold pending. simpl. destruct (decide (k' = k)) as [->|Hne].
      - by rewrite dget_ddel_eq.
      - by rewrite dget_ddel_ne. }
    assert (q_nfut q' = q_nfut q /\ q_nts q' = q_nts q /\ q_futs q' = q_futs q) as (Hf & Ht & Hk) by (unfold q_pop in Hpop; by simplify_eq).
    split; simpl; try done.
    - congruence.
    - intros k' c. rewrite Hp. destruct (decide _); [intros Hx; by apply not_elem_of_nil in Hx|apply H4].
    - intros c. rewrite Hcs. apply H4.
    - intros k'. rewrite Hp. destruct (decide _); [done|apply H6].
    - rewrite Hcs. apply H6.
    - intros q2 Hq2. eapply cov_mono; [| |by apply H8]; [|done]. intros gn i q3 [[]|(c & Hcc & Hr)].
      apply cov_P. right. exists c. split; [|done]. destruct Hcc as [Hx|[k' Hk']]; [by apply not_elem_of_nil in Hx|].
      destruct (decide (k' = k)) as [->|Hne]; [left; by rewrite Hcs|]. right. exists k'. by rewrite Hp, decide_False.
    - intros f. rewrite Hp, Hf. destruct (decide _); [done|apply H9].
    - intros t. rewrite Hp. destruct (decide _); [done|apply H10].
    - by rewrite Hk.
    - congruence.
    - unfold wts in H14 at 1. simpl in H14. lia.
  Qed.

  Lemma keys_difference done (q : queue cb) : dkeys (q_futs (q_difference done q)) = dkeys (q_futs q).
  Proof. unfold dkeys. simpl. by rewrite map_map. Qed.

  Lemma some_alive idx x cur debt dw f : einv idx x cur debt dw -> f ∈ q_futures x.2 -> alive x.2 0.
  Proof.
    intros Hi Hf. unfold q_futures in Hf. apply elem_of_list_In, in_concat in Hf as (l & Hl & _).
    apply in_map_iff in Hl as ([t l'] & <- & Hin). apply elem_of_list_In in Hin.
    assert (t ∈ dkeys (q_futs x.2)) as Ht by (apply elem_of_list_fmap; by exists (t, l')).
    pose proof (ei_keys _ _ _ _ _ Hi _ Ht) as ->. done.
  Qed.

  Lemma length_difference (done : list nat) (q : queue cb) dn :
    disc_inv q dn [] None -> NoDup done -> (forall f, f ∈ done -> f ∈ q_futures q) ->
    length (q_futures (q_difference done q)) + length done = length (q_futures q).
  Proof.
    intros Hi Hnd Hin.
    assert (NoDup (q_futures (q_difference done q))) as Hnd'.
    { by apply NoDup_futures_difference, Hi. }
    assert (q_futures q ≡ₚ q_futures (q_difference done q) ++ done) as Hp.
    { apply NoDup_Permutation.
      - apply Hi.
      - apply NoDup_app. split; [done|]. split; [|done]. intros f Hf Hd. apply futures_difference in Hf as [_ Hf]. done.
      - intros f. rewrite elem_of_app, futures_difference. split.
        + intros Hf. destruct (decide (f ∈ done)); [by right|by left].
        + intros [[? _]|?]; auto. }
    apply Permutation_length in Hp. rewrite app_length in Hp. lia.
  Qed.

  Lemma cinv_step a b : cinv a -> qstep (run_cb E) a b -> cinv b.
  Proof.
    intros [Hd [idx Hi] Hp Hc] Hs.
    assert (cfg_good (run_cb E) a) as Hgood.
    { destruct a as [x [|[[f [|c cs]]|] dn| |[[t [|c cs]]|] ts]]; unfold cfg_good; simpl in *; try done.
      intros y Hy. unfold fire in Hy.
      assert (einv idx (x.1, q_emit (EvFire (KF f) c) x.2) (c :: cs) no_debt 0) as Hi'.
      { destruct x as [w q]. simpl. eapply einv_q; [exact Hi|done..]. }
      destruct (run_cb_spec _ _ _ _ Hi' Hp) as (idx' & x' & Hr & _ & Hu). rewrite Hr in Hy. by simplify_eq. }
    pose proof (disc_step _ _ _ Hd Hgood Hs) as Hd'.
    destruct Hs as [x dn H1 H2 H3|x f d cs q Hpop|x f c cs d y Hf|x f d|x|x Hq|x t ts cs q Hpop|x t c cs ts y Hf|x t ts|x|x Hq];
      simpl in *; split; simpl; try done.
    - exists idx. destruct x as [w q]. simpl in *. eapply einv_q; [exact Hi|done..|]. intros t. by rewrite keys_difference.
    - unfold alive. rewrite keys_difference. destruct dn as [|f dn]; [done|]. eapply some_alive; [exact Hi|]. apply H3. left.
    - destruct Hd as [Hdi _]. simpl in Hdi. pose proof (length_difference _ _ _ Hdi H2 H3). simpl in *. lia.
    - exists idx. eapply (einv_pop_key idx x.1 (q_emit (EvDone f) x.2)); [|eapply (einv_q idx x.1 x.2); [by destruct x|done..]|exact Hpop].
      simpl. destruct Hd as [Hdi _]. apply Hdi.
    - unfold q_pop in Hpop. by simplify_eq.
    - unfold q_pop in Hpop. simplify_eq. unfold q_futures in *. simpl in *. rewrite dones_snoc. lia.
    - assert (einv idx (x.1, q_emit (EvFire (KF f) c) x.2) (c :: cs) no_debt 0) as Hi'.
      { destruct x as [w q]. simpl. eapply einv_q; [exact Hi|done..]. }
      destruct (run_cb_spec _ _ _ _ Hi' Hp) as (idx' & x' & Hr & Hi2 & Hu). unfold fire in Hf. rewrite Hr in Hf. simplify_eq. eauto.
    - assert (einv idx (x.1, q_emit (EvFire (KF f) c) x.2) (c :: cs) no_debt 0) as Hi'.
      { destruct x as [w q]. simpl. eapply einv_q; [exact Hi|done..]. }
      destruct (run_cb_spec _ _ _ _ Hi' Hp) as (idx' & x' & Hr & Hi2 & Hu). unfold fire in Hf. rewrite Hr in Hf. simplify_eq.
      by eapply uses_alive.
    - assert (einv idx (x.1, q_emit (EvFire (KF f) c) x.2) (c :: cs) no_debt 0) as Hi'.
      { destruct x as [w q]. simpl. eapply einv_q; [exact Hi|done..]. }
      destruct (run_cb_spec _ _ _ _ Hi' Hp) as (idx' & x' & Hr & Hi2 & Hu). unfold fire in Hf. rewrite Hr in Hf. simplify_eq.
      destruct Hd as [Hdi Hdone]. simpl in Hdi, Hdone.
      apply (disc_emit _ _ _ _ (EvFire (KF f) c)) in Hdi; [|done].
      destruct (count_uses _ _ _ _ _ _ Hu Hdi) as [Hn Hm]; [done|]. rewrite Hm. simpl in *. rewrite dones_snoc.
      unfold q_futures in *. simpl in *. lia.
    - eauto.
    - eauto.
    - eauto.
    - exists idx. eapply (einv_pop_key idx x.1 x.2); [|destruct x; exact Hi|exact Hpop]. destruct Hd as [Hdi _]. apply Hdi.
    - unfold q_pop in Hpop. simplify_eq. apply (ei_kt _ _ _ _ _ Hi t).
    - unfold q_pop in Hpop. by simplify_eq.
    - exists idx. destruct x as [w q]. eapply einv_q; [exact Hi|done..|]. simpl. intros t' Ht'.
      by apply dkeys_ddel_sub in Ht'.
    - destruct Hd as [Hdi _]. simpl in Hdi. unfold q_futures in *. simpl. rewrite dones_snoc.
      assert (dget t (q_futs x.2) = Some []) as Hg.
      { destruct (di_ct _ _ _ _ Hdi t eq_refl) as [Ha Hb]. apply alive_iff in Ha as [[|f l] Hl]; [done|].
        exfalso. apply Hb. left. eauto. }
      rewrite (futures_ddel _ _ Hg). simpl in Hc. lia.
    - eauto.
    - eauto.
  Qed.

  Lemma cinv_rtc a b : cinv a -> rtc (qstep (run_cb E)) a b -> cinv b.
  Proof. intros Ha Hr. induction Hr as [|x y z Hxy _ IH]; [done|]. apply IH. by eapply cinv_step. Qed.

  Lemma cinv_no_fail a e : cinv a -> ~ qfail (run_cb E) a e.
  Proof.
    intros [Hd [idx Hi] Hp Hc] Hf. inversion Hf as [x f c cs d e' Hx|x t c cs ts e' Hx]; subst; simpl in *; [|by subst].
    unfold fire in Hx.
    assert (einv idx (x.1, q_emit (EvFire (KF f) c) x.2) (c :: cs) no_debt 0) as Hi'.
    { destruct x as [w q]. simpl. eapply einv_q; [exact Hi|done..]. }
    destruct (run_cb_spec _ _ _ _ Hi' Hp) as (idx' & x' & Hr & _). congruence.
  Qed.

  Lemma loop_ok k x : cinv (x, PLoop) -> exists y, complete_loop (run_cb E) (S k) x = Ok y /\ cinv (y, PIdle).
  Proof.
    intros Hc.
    assert (forall y, complete_loop (run_cb E) (S k) x = Ok y -> cinv (y, PIdle)) as Hafter.
    { intros y Hy. apply loop_steps in Hy. by eapply cinv_rtc. }
    enough (exists y, complete_loop (run_cb E) (S k) x = Ok y) as [y Hy] by eauto.
    clear Hafter. cbn [complete_loop]. destruct (q_completed x.2) as [|t ts] eqn:Ec; [eauto|].
    assert (qstep (run_cb E) (x, PLoop) (x, PT None (t :: ts))) as Hs.
    { rewrite <-Ec. apply qs_sets. by rewrite Ec. }
    pose proof (cinv_step _ _ Hc Hs) as Hc1. destruct Hc1 as [[Hd _] [idx Hi] _ _]. simpl in *.
    destruct (di_tss _ _ _ _ Hd) as [Hnd Hts].
    assert (forall t', t' ∈ t :: ts -> t' = 0) as H0.
    { intros t' Ht'. destruct (Hts t' Ht') as (Ha & _). by apply (ei_keys _ _ _ _ _ Hi). }
    assert (t = 0) as -> by (apply H0; left).
    assert (ts = []) as ->.
    { destruct ts as [|t' ts]; [done|]. assert (t' = 0) as -> by (apply H0; right; left).
      apply NoDup_cons in Hnd as [Hn _]. exfalso. apply Hn. left. }
    cbn [foldR]. unfold fire_ts, q_pop. pose proof (ei_kt _ _ _ _ _ Hi 0) as Hkt. unfold pending in Hkt. rewrite Hkt. cbn [foldR].
    match goal with |- context [complete_loop _ k ?z] => assert (q_completed z.2 = []) as Hz end.
    { apply elem_of_nil_inv. intros t Ht. unfold q_completed in Ht. apply elem_of_list_fmap in Ht as ([t' l] & -> & Hin).
      apply elem_of_list_In, filter_In in Hin as [Hin _]. simpl in Hin.
      assert (t' ∈ dkeys (ddel 0 (q_futs x.2))) as Hk.
      { apply elem_of_list_fmap. exists (t', l). split; [done|]. by apply elem_of_list_In. }
      apply dkeys_ddel_nat in Hk as [Hk Hne]; [|apply Hd]. by apply (ei_keys _ _ _ _ _ Hi) in Hk. }
    destruct k; cbn [complete_loop]; rewrite Hz; eauto.
  Qed.

  Lemma progress_ok k done x :
    cinv (x, PIdle) -> done <> [] -> NoDup done -> (forall f, f ∈ done -> f ∈ q_futures x.2) ->
    exists y, progress (run_cb E) (S k) done x = Ok y /\ cinv (y, PIdle) /\
      ndones (q_trace y.2) = ndones (q_trace x.2) + length done.
  Proof.
    intros Hc H1 H2 H3. unfold progress.
    assert (qstep (run_cb E) (x, PIdle) ((x.1, q_difference done x.2), PF None done)) as Hs by by constructor.
    destruct (foldR (fire_fut (run_cb E)) _ done) as [y|e] eqn:Ey.
    - pose proof (fold_fut _ _ _ _ Ey) as Hf. simpl in Hf.
      assert (cinv (y, PF None [])) as Hc1.
      { eapply cinv_rtc; [exact Hc|]. eapply rtc_l; [exact Hs|exact Hf]. }
      assert (cinv (y, PLoop)) as Hc2 by (eapply cinv_step; [exact Hc1|constructor]).
      destruct (loop_ok k y Hc2) as (z & Hz & Hcz). exists z. split; [done|]. split; [done|].
      unfold ndones. pose proof (run_cb_api E) as Hapi.
      rewrite (dones_loop _ _ Hapi _ _ Hz), (dones_futs _ _ Hapi _ _ Ey), app_length. done.
    - exfalso. pose proof (fold_fut _ _ _ _ Ey) as (z & Hz & Hf).
      eapply cinv_no_fail; [|exact Hf]. eapply cinv_rtc; [exact Hc|]. by eapply rtc_l.
  Qed.

  (** ** The beginning and the end of an execution *)
  Lemma start_ok q : init_options g q = Ok q0 -> wt_items (qfields q0) <= B ->
    exists x, start E g q = Ok x /\ cinv (x, PIdle) /\ ndones (q_trace x.2) = 0.
  Proof.
    intros Hq HB. unfold start. rewrite Hq. cbn [q_fork q_empty q_futs q_forks q_cbs q_nfut q_nts q_trace dset app].
    match goal with |- context [process_node E (pn_fuel E) 0 _ _ _ ?z] => set (z0 := z) end.
    assert (uses (disciplined None) (@q_empty cb) z0.2) as Hu0.
    { eapply (uses_op _ _ (OFork None)); [done|vm_compute; reflexivity|constructor]. }
    assert (einv [] z0 [] (fun gn' i q => no_debt gn' i q \/ (gn' = g_root g /\ i ∈ oids None /\ q ∈ qfields q0)) (wt_items (qfields q0) + 0)) as Hi.
    { split; simpl; try done.
      - intros k c Hc. by apply not_elem_of_nil in Hc.
      - intros c Hc. by apply not_elem_of_nil in Hc.
      - intros q' Hq'. apply cov_P. left. right. split; [done|]. split; [by left|done].
      - intros t Ht. by apply elem_of_list_singleton in Ht.
      - intros c Hc. by apply not_elem_of_nil in Hc.
      - unfold wq, wts. simpl. lia. }
    destruct (process_node_spec (process_node E (length (e_sgs E))) _ _ _ _ _ _ _ _ (vis_root g q0) Hi) as (x & Hx & Hix & Hg).
    { unfold alive. left. }
    { done. }
    exists x. split; [exact Hx|].
    pose proof (uses_trans _ _ _ _ Hu0 (gr_uses _ _ Hg)) as Hu.
    destruct (disc_uses _ _ _ _ _ _ Hu disc_empty) as [Hd _]; [done|].
    destruct (count_uses _ _ _ _ _ _ Hu disc_empty) as [Hc1 Hc2]; [done|].
    assert (ndones (q_trace (@q_empty cb)) = 0) as Hn by done. rewrite Hn in Hc2. split; [|done].
    split; simpl; try done.
    - eauto.
    - unfold q_futures at 2 in Hc1. simpl in Hc1. lia.
  Qed.

  Lemma final_ok x : cinv (x, PIdle) -> q_futures x.2 = [] ->
    exists idx, w_wfs x.1 = [Wf g q0 0 idx] /\ denormalize g idx q0 = resolve_query g fv D q0.
  Proof.
    intros [[Hd _] [idx Hi] _ _] Hf. simpl in *. exists idx. split; [apply Hi|].
    assert (forall k, pending k x.2 = []) as Hp.
    { intros [f|t]; [|apply Hi]. unfold pending. destruct (dget (KF f) (q_cbs x.2)) as [l|] eqn:El; [|done].
      assert (KF f ∈ dkeys (q_cbs x.2)) as Hk by (apply dget_is_Some; eauto).
      apply (di_cbf _ _ _ _ Hd) in Hk as [Hk|Hk]; [rewrite Hf in Hk|]; by apply not_elem_of_nil in Hk. }
    unfold denormalize, denorm_node, resolve_query.
    rewrite (mapR_ext (denorm g idx (g_root g) ROOT q0) (resolve g fv D (g_root g) None)); [done|]. apply Forall_forall. intros q Hq.
    assert (cov idx no_debt (g_root g) None q) as Hc.
    { eapply cov_mono; [| |by apply Hi]; [|done]. intros gn i q' [[]|(c & [Hc|[k Hc]] & _)].
      - by apply not_elem_of_nil in Hc.
      - rewrite Hp in Hc. by apply not_elem_of_nil in Hc. }
    rewrite <-(denorm_resolve idx (g_root g) None q (ei_sound _ _ _ _ _ Hi) Hc q0 (vis_root g q0) Hq); [|done].
    unfold objref. by destruct (gn_name (g_root g)).
  Qed.
End proof.

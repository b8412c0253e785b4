(** The bound on the work of an execution, for every graph and every behaviour of the loaders. *)
From stdpp Require Import relations.
From Verif Require Import Base Val Query QuerySpec QueryProof Graph Queue QueueSpec QueueProof PropQueue Result Engine EngineSpec SplitProof EngineDisc CostSpec.

(** ** Merged queries cost at most what their parts cost *)
Lemma sum_app (l k : list nat) : list_sum (l ++ k) = list_sum l + list_sum k.
Proof. by rewrite list_sum_app. Qed.
Lemma sum_filter_part {A K} `{EqDecision K} (P : A -> Prop) `{!forall x, Decision (P x)} (key : A -> K) (h : A -> nat) (l : list A) (ks : list K) :
  NoDup ks ->
  list_sum (map (fun k => list_sum (map h (filter (fun x => P x /\ key x = k) l))) ks) <= list_sum (map h (filter P l)).
Proof.
  intros Hn. induction l as [|x l IH].
  - cbn. clear Hn. induction ks as [|k ks IHk]; cbn; [done|]. done.
  - rewrite filter_cons. destruct (decide (P x)) as [Hx|Hx].
    + cbn [map list_sum foldr].
      assert (forall ks, NoDup ks -> list_sum (map (fun k => list_sum (map h (filter (fun y => P y /\ key y = k) (x :: l)))) ks)
        <= (if decide (key x ∈ ks) then h x else 0) + list_sum (map (fun k => list_sum (map h (filter (fun y => P y /\ key y = k) l))) ks)) as Hk.
      { clear -Hx. induction ks as [|k ks IHk]; intros Hn; [cbn; lia|].
        apply NoDup_cons in Hn as [Hkn Hn]. specialize (IHk Hn).
        cbn [map]. cbn [list_sum foldr]. rewrite filter_cons. destruct (decide (P x /\ key x = k)) as [[_ <-]|Hnk].
        - cbn [map list_sum foldr]. rewrite (decide_True (P:=key x ∈ key x :: ks)) by left. rewrite decide_False in IHk by done.
          unfold list_sum in *. lia.
        - assert (key x <> k) as Hne by (intros Hk; by apply Hnk).
          destruct (decide (key x ∈ ks)) as [Hin|Hin].
          + rewrite decide_True by (by right). unfold list_sum in *. lia.
          + rewrite decide_False; [unfold list_sum in *; lia|]. rewrite elem_of_cons. tauto. }
      specialize (Hk ks Hn). unfold list_sum in *. destruct (decide (key x ∈ ks)); lia.
    + assert (forall k, filter (fun y => P y /\ key y = k) (x :: l) = filter (fun y => P y /\ key y = k) l) as Hk.
      { intros k. rewrite filter_cons, decide_False; [done|tauto]. }
      erewrite map_ext; [exact IH|]. intros k. cbn beta. by rewrite Hk.
Qed.
Lemma sum_le {A} (f h : A -> nat) l : (forall x, x ∈ l -> f x <= h x) -> list_sum (map f l) <= list_sum (map h l).
Proof.
  induction l as [|x l IH]; intros Hl; [done|]. cbn. pose proof (Hl x ltac:(left)). pose proof (IH ltac:(intros; apply Hl; by right)).
  unfold list_sum in *. lia.
Qed.
Lemma sum_eq {A} (f h : A -> nat) l : (forall x, x ∈ l -> f x = h x) -> list_sum (map f l) = list_sum (map h l).
Proof.
  induction l as [|x l IH]; intros Hl; [done|]. cbn. rewrite (Hl x ltac:(left)). pose proof (IH ltac:(intros; apply Hl; by right)).
  unfold list_sum in *. lia.
Qed.

Section merge.
  Context `{Hasher} {W : Type} (w : W -> qitem -> nat) (cl : W -> str -> nat) (nx : W -> str -> W).
  Hypothesis HL : forall z n sub ord o a, w z (QL n sub ord o a) = cl z n + list_sum (map (w (nx z n)) sub).
  Lemma sum_items z ns : list_sum (map (w z) (items_of ns)) = list_sum (map (fun n => list_sum (map (w z) (qfields n))) ns).
  Proof.
    induction ns as [|n ns IH]; [done|]. rewrite items_of_cons, map_app, sum_app, IH. done.
  Qed.
  Lemma sum_dedup z seen l : list_sum (map (w z) (dedupF seen l)) <= list_sum (map (w z) (filter (fun q => ~ islink q) l)).
  Proof.
    revert seen. induction l as [|q l IH]; intros seen; [done|]. cbn [dedupF]. rewrite filter_cons.
    destruct (decide (~ islink q)) as [Hq|Hq].
    2:{ destruct (q_is_link q) eqn:El; [apply IH|]. exfalso. apply Hq. unfold islink. by rewrite El. }
    - destruct (q_is_link q) eqn:El; [by destruct Hq|]. destruct (decide _); cbn [map list_sum foldr].
      + specialize (IH seen). unfold list_sum in *. lia.
      + specialize (IH (merge_key q :: seen)). unfold list_sum in *. lia.
  Qed.
  Lemma merge_weight ns : forall z, list_sum (map (w z) (qfields (merge ns))) <= list_sum (map (w z) (items_of ns)).
  Proof.
    induction ns as [ns IH] using ns_ind. intros z. rewrite merge_fields, map_app, sum_app.
    set (l := items_of ns) in *.
    assert (list_sum (map (w z) l) = list_sum (map (w z) (filter (fun q => ~ islink q) l)) + list_sum (map (w z) (filter islink l))) as ->.
    { clear. induction l as [|q l IH]; [done|]. rewrite !filter_cons. destruct (decide (islink q)) as [Hl|Hl].
      - rewrite decide_False by tauto. cbn. unfold list_sum in *. lia.
      - rewrite decide_True by done. cbn. unfold list_sum in *. lia. }
    pose proof (sum_dedup z [] l). enough (list_sum (map (w z) (mlinks l)) <= list_sum (map (w z) (filter islink l))) by lia.
    etrans; [|exact (sum_filter_part islink merge_key (w z) l (link_keys l) ltac:(apply NoDup_nub))].
    unfold mlinks. rewrite map_map. unfold link_groups.
    assert (forall ks, list_sum (map (fun e : qitem * list qnode => w z (copy_node e.1 (merge e.2)))
       (flat_map (fun k => match links_k k l with [] => [] | f :: _ => [(f, subs k l)] end) ks))
      <= list_sum (map (fun k => list_sum (map (w z) (filter (fun x => islink x /\ merge_key x = k) l))) ks)) as Hx; [|apply Hx].
    induction ks as [|k ks IHk]; [done|]. cbn [flat_map map]. rewrite map_app, sum_app. cbn [list_sum foldr].
    apply Nat.add_le_mono; [|exact IHk]. fold (links_k k l). destruct (links_k k l) as [|f fs] eqn:Ek; [done|].
    cbn [map list_sum foldr fst snd]. rewrite Nat.add_0_r.
    assert (f ∈ links_k k l) as (Hfi & Hfl & Hfk)%elem_of_links_k by (rewrite Ek; left).
    assert (nsdepth (subs k l) < nsdepth ns) as Hd.
    { pose proof (subs_depth k ns (or_intror I)) as Hd. unfold l in Ek. rewrite Ek in Hd. specialize (Hd ltac:(done)). unfold l. lia. }
    destruct f as [|n sub ord o a]; [done|]. cbn [copy_node]. rewrite HL.
    etrans; [apply Nat.add_le_mono_l, (IH _ Hd)|]. rewrite sum_items. unfold subs. rewrite Ek, map_map.
    assert (forall q, q ∈ fs -> w z q = cl z n + list_sum (map (w (nx z n)) (qfields (q_node q)))) as Hfs.
    { intros q Hq. assert (q ∈ links_k k l) as (_ & Hql & Hqk)%elem_of_links_k by (rewrite Ek; by right).
      destruct q as [|n' sub' ord' o' a']; [done|]. assert (n' = n) as -> by (rewrite <-Hfk in Hqk; by injection Hqk). apply HL. }
    cbn [map list_sum foldr q_node qfields]. rewrite HL.
    assert (list_sum (map (fun x => list_sum (map (w (nx z n)) (qfields (q_node x)))) fs) <= list_sum (map (w z) fs)) as Hle.
    { apply sum_le. intros q Hq. rewrite (Hfs q Hq). lia. }
    unfold list_sum in *. lia.
  Qed.
End merge.

Section merge_cost.
  Context `{Hasher} (G : graph) (pr : nat -> qnode -> nat) (node : str).
  Inductive where_ := WDead | WNode (gn : gnode) | WReqs.
  Definition w_cost (z : where_) (q : qitem) : nat :=
    match z with
    | WDead => 0
    | WNode gn => cost G pr gn q
    | WReqs => if decide (q_name q = THIS)
               then match find_node G node with Some gn => costs G pr gn (qfields (q_node q)) | None => 0 end
               else cost G pr (g_root G) q
    end.
  Definition cf_node (gn : gnode) (n : str) : nat := match find_field gn n with Some go => load_cost pr go | None => 0 end.
  Definition cl_node (gn : gnode) (n : str) : nat :=
    match find_field gn n with
    | None => 0
    | Some (GF f) => load_cost pr (GF f)
    | Some (GL l) => match req_true l with Some r => cf_node gn r | None => 0 end + 1
    end.
  Definition nx_node (gn : gnode) (n : str) : where_ :=
    match find_field gn n with
    | Some (GL l) => match find_node G (gl_node l) with Some gn' => WNode gn' | None => WDead end
    | _ => WDead
    end.
  Lemma sum_zero {A} (l : list A) : list_sum (map (fun _ => 0) l) = 0.
  Proof. by induction l. Qed.
  Lemma cost_link gn n sub ord o a : cost G pr gn (QL n sub ord o a) = cl_node gn n + list_sum (map (w_cost (nx_node gn n)) sub).
  Proof.
    cbn [cost q_name]. unfold cl_node, nx_node, cf_node. destruct (find_field gn n) as [[f|l]|].
    - cbn [w_cost]. rewrite sum_zero. lia.
    - destruct (find_node G (gl_node l)); cbn [w_cost]; [done|]. rewrite sum_zero. lia.
    - cbn [w_cost]. by rewrite sum_zero.
  Qed.
  Lemma merge_costs z ns :
    list_sum (map (w_cost z) (qfields (merge ns))) <= list_sum (map (fun n => list_sum (map (w_cost z) (qfields n))) ns).
  Proof.
    rewrite <-(sum_items w_cost). apply (merge_weight w_cost
      (fun z n => match z with WDead => 0 | WNode gn => cl_node gn n | WReqs => if decide (n = THIS) then 0 else cl_node (g_root G) n end)
      (fun z n => match z with WDead => WDead | WNode gn => nx_node gn n
         | WReqs => if decide (n = THIS) then match find_node G node with Some gn => WNode gn | None => WDead end else nx_node (g_root G) n end)).
    intros [|gn|] n sub ord o a; [cbn [w_cost]; by rewrite sum_zero|apply cost_link|]. cbn [w_cost q_name].
      destruct (decide (n = THIS)); [|apply cost_link]. destruct (find_node G node); cbn [w_cost]; [done|]. by rewrite sum_zero.
  Qed.
  Lemma merge_reqs_cost ns : reqs_cost G pr node (merge ns) <= list_sum (map (reqs_cost G pr node) ns).
  Proof. apply (merge_costs WReqs). Qed.
End merge_cost.

(** ** The potential: calls made, task sets made, and what the waiting callbacks may still cost *)
Section bound.
  Context `{Hasher} (E : env) (u : nat) (pr : nat -> qnode -> nat).
  Definition net (sg : nat) (rq : qnode) : nat :=
    match e_sgs E !! sg with Some (G, node) => reqs_cost G pr node rq | None => 0 end.
  Hypothesis Hpr : forall sg rq, u + net sg rq <= pr sg rq.

  Definition lsub (G : graph) (l : glink) (q : qitem) : nat :=
    match find_node G (gl_node l) with Some gn' => costs G pr gn' (qfields (q_node q)) | None => 0 end.
  Definition fk_cost (fk : fkey) (items : list (gitem * qitem)) : nat :=
    match fk with KPlain _ => 1 | KSub sg => u + list_sum (map (fun p => net sg (reqs_of p.1)) items) end.
  Definition st_cost (G : graph) (sp : step) : nat :=
    match sp with StFields fk l => fk_cost fk l | StLink l q => 1 + lsub G l q end.
  Definition cbw (gs : list graph) (c : cb) : nat :=
    match gs !! cb_wf c with
    | None => 0
    | Some G =>
        match c with
        | CbStore _ _ _ _ _ | CbStoreSub _ _ _ _ _ _ => 0
        | CbSched _ _ l q _ => 1 + lsub G l q
        | CbLink _ _ l q _ _ => lsub G l q
        | CbProc _ _ steps _ => list_sum (map (st_cost G) steps)
        end
    end.
  Definition cbws gs (cs : list cb) : nat := list_sum (map (cbw gs) cs).
  Definition cbq gs (q : queue cb) : nat := list_sum (map (fun p => cbws gs p.2) (q_cbs q)).
  Definition gs (x : st) : list graph := map wf_graph (w_wfs x.1).
  Definition total (x : st) : nat := length (w_log x.1) + u * q_nts x.2 + cbq (gs x) x.2.
  Definition cvalid (x : st) (c : cb) : Prop := cb_wf c < length (gs x).
  Definition valid (x : st) : Prop := Forall (fun p => Forall (cvalid x) p.2) (q_cbs x.2).
  Definition pot (x y : st) (d : nat) : Prop :=
    valid x -> valid y /\ (exists l, gs y = gs x ++ l) /\ total y <= total x + d.

  Lemma pot_refl x : pot x x 0.
  Proof. intros Hv. split; [done|]. split; [exists []; by rewrite app_nil_r|]. lia. Qed.
  Lemma pot_trans x y z a b : pot x y a -> pot y z b -> pot x z (a + b).
  Proof.
    intros H1 H2 Hv. destruct (H1 Hv) as (Hv1 & (l1 & G1) & T1). destruct (H2 Hv1) as (Hv2 & (l2 & G2) & T2).
    split; [done|]. split; [exists (l1 ++ l2); by rewrite G2, G1, app_assoc|]. lia.
  Qed.
  Lemma pot_mono x y a b : pot x y a -> a <= b -> pot x y b.
  Proof. intros H1 Hle Hv. destruct (H1 Hv) as (Hv1 & HG & T1). split; [done|]. split; [done|]. lia. Qed.
  Lemma pot_at x y d w G : pot x y d -> valid x -> gs x !! w = Some G -> gs y !! w = Some G.
  Proof. intros Hp Hv Hw. destruct (Hp Hv) as (_ & (l & ->) & _). by apply lookup_app_l_Some. Qed.
  Lemma pot_valid x y d : pot x y d -> valid x -> valid y.
  Proof. intros Hp Hv. by apply Hp. Qed.

  Lemma cbws_app g a b : cbws g (a ++ b) = cbws g a + cbws g b.
  Proof. unfold cbws. by rewrite map_app, list_sum_app. Qed.
  Lemma cbq_add g k c q : cbq g (q_add k c q) = cbq g q + cbw g c.
  Proof.
    unfold cbq, q_add, dappend; simpl. induction (q_cbs q) as [|[k' l] d IH]; simpl.
    - unfold cbws; simpl. lia.
    - destruct (decide (k = k')); simpl.
      + rewrite cbws_app. unfold cbws at 2; simpl. lia.
      + rewrite IH. lia.
  Qed.
  Lemma cbq_pop g k q cs q' : q_pop k q = (cs, q') -> cbq g q = cbq g q' + cbws g cs.
  Proof.
    unfold q_pop, cbq. intros [= <- <-]. simpl. induction (q_cbs q) as [|[k' l] d IH]; simpl; [done|].
    destruct (decide (k = k')); simpl; [lia|]. lia.
  Qed.
  Lemma cbw_app g l c : cb_wf c < length g -> cbw (g ++ l) c = cbw g c.
  Proof. intros Hl. unfold cbw. by rewrite lookup_app_l. Qed.
  Lemma cbq_app x l : valid x -> cbq (gs x ++ l) x.2 = cbq (gs x) x.2.
  Proof.
    intros Hv. unfold cbq. apply sum_eq. intros [k cs] Hin. unfold valid in Hv. rewrite Forall_forall in Hv.
    specialize (Hv _ Hin). cbn in *. unfold cbws. apply sum_eq. intros c Hc. rewrite Forall_forall in Hv.
    apply cbw_app. exact (Hv c Hc).
  Qed.

  Lemma pot_add k c x : cvalid x c -> pot x (add_cb k c x) (cbw (gs x) c).
  Proof.
    intros Hc Hv. split; [|split; [exists []; by rewrite app_nil_r|]].
    - unfold valid, add_cb, q_add, dappend in *. cbn [snd q_cbs]. assert (forall c', cvalid (x.1, q_add k c x.2) c' <-> cvalid x c') as Hcv by done.
      revert Hv. induction (q_cbs x.2) as [|[k' l] d IH]; cbn.
      + intros _. repeat constructor. exact Hc.
      + intros [H1 H2]%Forall_cons. destruct (decide (k = k')) as [<-|]; cbn.
        * constructor; [|exact H2]. cbn. apply Forall_app. split; [exact H1|]. by repeat constructor.
        * constructor; [exact H1|]. by apply IH.
    - assert (total (add_cb k c x) = total x + cbw (gs x) c) as ->; [|done]. unfold total, add_cb. cbn [snd fst].
      change (gs (x.1, q_add k c x.2)) with (gs x). rewrite cbq_add. cbn [q_add q_nts]. lia.
  Qed.
  Lemma gs_set_index w idx x : gs (set_index w idx x) = gs x.
  Proof.
    unfold gs, set_index. cbn [fst w_wfs]. apply list_eq. intros i. rewrite !list_lookup_fmap.
    destruct (decide (i = w)) as [->|Hne]; [rewrite list_lookup_alter; by destruct (w_wfs x.1 !! w)|].
    by rewrite list_lookup_alter_ne.
  Qed.
  Lemma pot_set_index w idx x : pot x (set_index w idx x) 0.
  Proof.
    intros Hv. rewrite gs_set_index. split; [|split; [exists []; by rewrite app_nil_r|]].
    - unfold valid, cvalid in *. rewrite gs_set_index. exact Hv.
    - unfold total. rewrite gs_set_index. cbn. lia.
  Qed.
  Lemma pot_submit w f a x fut y : submit E w f a x = Ok (fut, y) -> pot x y 1.
  Proof.
    unfold submit. destruct (get_wf w x) as [v|]; [|done]. cbn zeta. intros Hs.
    assert (exists f' q', q_submit (wf_ts v) x.2 = Ok (f', q') /\ y = (World (w_wfs x.1) (w_log x.1 ++ [Call f (e_ctx E f) a]), q')) as (f' & q' & Hq & ->).
    { destruct (q_submit (wf_ts v) x.2) as [[f' q']|] eqn:Eq.
      - exists f', q'. split; [done|]. destruct (e_eager E); [destruct (e_oracle E _ _)|]; by simplify_eq.
      - destruct (e_eager E); [destruct (e_oracle E _ _)|]; done. }
    unfold q_submit in Hq. destruct (dget (wf_ts v) (q_futs x.2)); [|done]. injection Hq as <- <-.
    intros Hv. split; [exact Hv|]. split; [exists []; by rewrite app_nil_r|].
    unfold total, cbq, gs. cbn [fst snd w_log w_wfs q_cbs q_nts]. rewrite app_length. cbn [length]. lia.
  Qed.
  Lemma pot_fork p x t q1 : q_fork p x.2 = Ok (t, q1) -> pot x (x.1, q1) u.
  Proof.
    intros Hf Hv. assert (q_cbs q1 = q_cbs x.2 /\ q_nts q1 = S (q_nts x.2)) as [Hc Hn].
    { unfold q_fork in Hf. destruct p as [p|]; [destruct (dget p _)|]; try done; injection Hf as <- <-; done. }
    split; [unfold valid in *; cbn; by rewrite Hc|]. split; [exists []; by rewrite app_nil_r|].
    unfold total, cbq, gs. cbn [fst snd]. rewrite Hc, Hn. lia.
  Qed.

  (** *** Splitting and grouping *)
  Lemma cost_cons G gn q qs : costs G pr gn (q :: qs) = cost G pr gn q + costs G pr gn qs.
  Proof. done. Qed.
  Definition split_cost (G : graph) (acc : split_t) : nat :=
    list_sum (map (fun t => load_cost pr t.1.2) acc.1) + list_sum (map (fun p => 1 + lsub G p.1 p.2) acc.2).
  Definition keyed_ok (acc : split_t) : Prop := Forall (fun t => t.1.1 = fkey_of t.1.2) acc.1.
  Lemma split_field_cost G gn acc q y : split_field gn acc q = Ok y -> keyed_ok acc ->
    keyed_ok y /\ exists go, find_field gn (q_name q) = Some go /\ split_cost G y = split_cost G acc + load_cost pr go.
  Proof.
    unfold split_field. destruct (find_field gn (q_name q)) as [go|]; [|done]. intros [= <-] Hk. split.
    - unfold keyed_ok. cbn. apply Forall_app. split; [done|]. by repeat constructor.
    - exists go. split; [done|]. unfold split_cost. cbn [fst snd]. rewrite map_app, sum_app. cbn. lia.
  Qed.
  Lemma cost_eq G gn q : cost G pr gn q =
    match find_field gn (q_name q) with
    | None => 0
    | Some go =>
        match q, go with
        | QL _ _ _ _ _, GL l => match req_true l with
            | Some r => match find_field gn r with Some go' => load_cost pr go' | None => 0 end
            | None => 0 end + 1 + lsub G l q
        | _, _ => load_cost pr go
        end
    end.
  Proof. by destruct q. Qed.
  Lemma split_item_cost G gn acc q y : split_item gn acc q = Ok y -> keyed_ok acc ->
    keyed_ok y /\ split_cost G y <= split_cost G acc + cost G pr gn q.
  Proof.
    intros Hs Hk. rewrite cost_eq. unfold split_item in Hs. destruct q as [n o a|n sub ord o a].
    - destruct (split_field_cost G _ _ _ _ Hs Hk) as (Hk' & go & -> & ->). split; [done|]. lia.
    - destruct (find_field gn (q_name (QL n sub ord o a))) as [[f|l]|] eqn:Ef; [| |done].
      + destruct (split_field_cost G _ _ _ _ Hs Hk) as (Hk' & go & Hg & ->). rewrite Ef in Hg. injection Hg as <-. split; [done|]. lia.
      + destruct (match req_true l with Some _ => _ | None => _ end) as [acc'|] eqn:Er; [|done]. injection Hs as <-.
        assert (keyed_ok acc' /\ split_cost G acc' <= split_cost G acc + match req_true l with
            | Some r => match find_field gn r with Some go' => load_cost pr go' | None => 0 end | None => 0 end) as [Hk' Hc'].
        { destruct (req_true l) as [r|]; [|injection Er as <-; split; [done|lia]].
          destruct (split_field_cost G _ _ _ _ Er Hk) as (Hk' & go & Hg & ->). cbn in Hg. rewrite Hg. done. }
        split; [exact Hk'|]. unfold split_cost in *. cbn [fst snd]. rewrite map_app, sum_app. cbn [map list_sum foldr fst snd]. lia.
  Qed.
  Lemma split_query_cost G gn qs y : split_query gn qs = Ok y -> keyed_ok y /\ split_cost G y <= costs G pr gn qs.
  Proof.
    unfold split_query.
    assert (forall acc, keyed_ok acc -> foldR (split_item gn) acc qs = Ok y -> keyed_ok y /\ split_cost G y <= split_cost G acc + costs G pr gn qs) as Hx.
    { induction qs as [|q qs IH]; intros acc Hk; cbn [foldR]; [intros [= <-]; split; [done|cbn; lia]|].
      destruct (split_item gn acc q) as [a1|] eqn:Es; [|done]. destruct (split_item_cost G _ _ _ _ Es Hk) as [Hk1 Hc1].
      intros Hf. destruct (IH _ Hk1 Hf) as [Hk2 Hc2]. split; [done|]. rewrite cost_cons. lia. }
    intros Hf. destruct (Hx ([], []) ltac:(constructor) Hf). split; [done|]. unfold split_cost in *. cbn in *. lia.
  Qed.
  Lemma fk_cost_one go q : fk_cost (fkey_of go) [(go, q)] <= load_cost pr go.
  Proof.
    destruct go as [f|l]; cbn; [|lia]. unfold fk_cost. cbn. destruct (gf_func f) as [n|sg rq p]; [lia|]. cbn.
    specialize (Hpr sg rq). lia.
  Qed.
  Lemma fk_cost_snoc go q l : fk_cost (fkey_of go) (l ++ [(go, q)]) <= fk_cost (fkey_of go) l + load_cost pr go.
  Proof.
    destruct go as [f|gl]; cbn; [|lia]. unfold fk_cost. cbn. destruct (gf_func f) as [n|sg rq p] eqn:Ef; [lia|].
    rewrite map_app, sum_app. cbn. rewrite Ef. specialize (Hpr sg rq). lia.
  Qed.
  Notation groups_of := (fold_left (fun (d : dict fkey (list (gitem * qitem))) t => dappend t.1.1 (t.1.2, t.2) d)).
  Lemma groups_cost (fields : list (fkey * gitem * qitem)) : Forall (fun t => t.1.1 = fkey_of t.1.2) fields ->
    list_sum (map (fun p => fk_cost p.1 p.2) (groups_of fields [])) <= list_sum (map (fun t => load_cost pr t.1.2) fields).
  Proof.
    assert (forall d, Forall (fun t => t.1.1 = fkey_of t.1.2) fields ->
      list_sum (map (fun p => fk_cost p.1 p.2) (groups_of fields d)) <= list_sum (map (fun p => fk_cost p.1 p.2) d) + list_sum (map (fun t => load_cost pr t.1.2) fields)) as Hx.
    { induction fields as [|[[fk go] q] fields IH]; intros d Hf; [cbn [fold_left map]; change (list_sum []) with 0; lia|]. apply Forall_cons in Hf as [Hk Hf]. cbn in Hk. subst fk.
      cbn [fold_left map]. etrans; [by apply IH|]. cbn [list_sum fold_right fst snd]. rewrite Nat.add_assoc. apply Nat.add_le_mono_r.
      clear -Hpr. unfold dappend. induction d as [|[k l] d IHd]; cbn.
      - pose proof (fk_cost_one go q). lia.
      - destruct (decide (fkey_of go = k)) as [<-|Hne]; cbn.
        + pose proof (fk_cost_snoc go q l). lia.
        + unfold list_sum in *. lia. }
    intros Hf. specialize (Hx [] Hf). cbn in Hx. done.
  Qed.
  Definition grp_cost (G : graph) (acc : group_t) : nat := list_sum (map (st_cost G) acc.1).
  Definition grp_ok (acc : group_t) : Prop := forall fk before k l, acc.2 = Some fk -> List.rev acc.1 = StFields k l :: before -> k = fk.
  Lemma group_field_cost G gn acc q y : group_field gn acc q = Ok y -> grp_ok acc ->
    grp_ok y /\ exists go, find_field gn (q_name q) = Some go /\ grp_cost G y <= grp_cost G acc + load_cost pr go.
  Proof.
    unfold group_field. destruct (find_field gn (q_name q)) as [go|]; [|done]. cbn zeta. destruct (decide (acc.2 = Some (fkey_of go))) as [Hd|Hd].
    - destruct (List.rev acc.1) as [|[k l|] before] eqn:Er; try done. intros [= <-] Hk. pose proof (Hk _ _ _ _ Hd Er) as ->. split.
      + intros fk b k l' Hs. cbn. rewrite List.rev_app_distr. cbn. intros [= <- _ _]. rewrite Hd in Hs. by injection Hs as <-.
      + exists go. split; [done|]. unfold grp_cost. cbn [fst].
        assert (acc.1 = List.rev before ++ [StFields (fkey_of go) l]) as -> by (rewrite <-(List.rev_involutive acc.1), Er; done).
        rewrite !map_app, !sum_app. cbn [map list_sum foldr st_cost]. pose proof (fk_cost_snoc go q l). lia.
    - intros [= <-] Hk. split.
      + intros fk b k l' [= <-]. cbn. rewrite List.rev_app_distr. cbn. by intros [= <- _ _].
      + exists go. split; [done|]. unfold grp_cost. cbn [fst]. rewrite map_app, sum_app. cbn [map list_sum foldr st_cost].
        pose proof (fk_cost_one go q). lia.
  Qed.
  Lemma group_item_cost G gn acc q y : group_item gn acc q = Ok y -> grp_ok acc ->
    grp_ok y /\ grp_cost G y <= grp_cost G acc + cost G pr gn q.
  Proof.
    intros Hs Hk. rewrite cost_eq. unfold group_item in Hs. destruct q as [n o a|n sub ord o a].
    - destruct (group_field_cost G _ _ _ _ Hs Hk) as (Hk' & go & -> & ?). done.
    - destruct (find_field gn (q_name (QL n sub ord o a))) as [[f|l]|] eqn:Ef; [done| |done].
      destruct (match req_true l with Some _ => _ | None => _ end) as [acc'|] eqn:Er; [|done]. injection Hs as <-.
      assert (grp_ok acc' /\ grp_cost G acc' <= grp_cost G acc + match req_true l with
          | Some r => match find_field gn r with Some go' => load_cost pr go' | None => 0 end | None => 0 end) as [Hk' Hc'].
      { destruct (req_true l) as [r|]; [|injection Er as <-; split; [done|lia]].
        destruct (group_field_cost G _ _ _ _ Er Hk) as (Hk' & go & Hg & ?). cbn in Hg. rewrite Hg. done. }
      split; [done|]. unfold grp_cost in *. cbn [fst]. rewrite map_app, sum_app. cbn [map list_sum foldr st_cost]. lia.
  Qed.
  Lemma group_query_cost G gn qs y : group_query gn qs = Ok y -> list_sum (map (st_cost G) y) <= costs G pr gn qs.
  Proof.
    unfold group_query. destruct (foldR _ _ qs) as [r|] eqn:Ef; [|done]. intros [= <-].
    assert (forall acc, grp_ok acc -> foldR (group_item gn) acc qs = Ok r -> grp_ok r /\ grp_cost G r <= grp_cost G acc + costs G pr gn qs) as Hx.
    { clear Ef. induction qs as [|q qs IH]; intros acc Hk; cbn [foldR]; [intros [= <-]; split; [done|cbn; lia]|].
      destruct (group_item gn acc q) as [a1|] eqn:Es; [|done]. destruct (group_item_cost G _ _ _ _ Es Hk) as [Hk1 Hc1].
      intros Hf. destruct (IH _ Hk1 Hf) as [Hk2 Hc2]. split; [done|]. rewrite cost_cons. lia. }
    destruct (Hx ([], None) ltac:(done) Ef) as [_ Hc]. unfold grp_cost in Hc. cbn in Hc. done.
  Qed.

  (** *** The engine *)
  Section pn.
    Variable pn : nat -> gnode -> qnode -> option (list val) -> st -> res st.
    Hypothesis Hpn : forall w gn q ids x y G, pn w gn q ids x = Ok y -> gs x !! w = Some G -> pot x y (costs G pr gn (qfields q)).

    Lemma get_wf_gs w x v : get_wf w x = Ok v -> gs x !! w = Some (wf_graph v).
    Proof. unfold get_wf, gs. rewrite list_lookup_fmap. by destruct (w_wfs x.1 !! w) as [v'|]; [intros [= <-]|]. Qed.
    Lemma gs_get_wf w x G : gs x !! w = Some G -> exists v, get_wf w x = Ok v /\ wf_graph v = G.
    Proof.
      unfold get_wf, gs. rewrite list_lookup_fmap. destruct (w_wfs x.1 !! w) as [v|]; cbn; [|done]. intros [= <-]. eauto.
    Qed.
    Lemma pot_process_link w gn l q ids r x y G :
      process_link pn w gn l q ids r x = Ok y -> gs x !! w = Some G -> pot x y (lsub G l q).
    Proof.
      unfold process_link. intros Hy HG. destruct (gs_get_wf _ _ _ HG) as (v & Hv & Hvg). rewrite Hv in Hy.
      destruct (store_links _ _ _ _ _ _) as [idx|]; [|done]. pose proof (pot_set_index w idx x) as P0.
      destruct (link_result_to_ids _ _ _) as [[|i is_]|]; [injection Hy as <-; eapply pot_mono; [exact P0|lia]| |done].
      rewrite Hvg in Hy. unfold lsub. destruct (find_node G (gl_node l)) as [gn'|]; [|done]. destruct (q_is_link q); [|done].
      apply (Hpn _ _ _ _ _ _ G) in Hy; [|by rewrite gs_set_index]. exact (pot_trans _ _ _ _ _ P0 Hy).
    Qed.
    Lemma pot_new_wf x v : pot x (World (w_wfs x.1 ++ [v]) (w_log x.1), x.2) 0.
    Proof.
      intros Hv. assert (gs (World (w_wfs x.1 ++ [v]) (w_log x.1), x.2) = gs x ++ [wf_graph v]) as Hg by (unfold gs; cbn; by rewrite map_app).
      split; [|split; [by eexists|]].
      - unfold valid, cvalid in *. rewrite Hg. eapply Forall_impl; [exact Hv|]. intros p Hp. eapply Forall_impl; [exact Hp|].
        intros c Hc. cbn in *. rewrite app_length. lia.
      - unfold total. rewrite Hg. cbn [fst snd w_log]. rewrite cbq_app by done. lia.
    Qed.
    Lemma pot_sub_call sg fields ids ts x w' procs y :
      sub_call E pn sg fields ids ts x = Ok (w', procs, y) -> pot x y (list_sum (map (fun p => net sg (reqs_of p.1)) fields)).
    Proof.
      unfold sub_call, net. destruct (e_sgs E !! sg) as [[G node]|] eqn:Esg; [|done]. destruct (mapR _ fields) as [ovs|]; [|done].
      destruct (dget THIS _) as [tq|] eqn:Et; [|done]. destruct (process_link _ _ _ _ _ _ _ _) as [x2|] eqn:E2; [|done].
      destruct (pn _ _ _ _ x2) as [x3|] eqn:E3; [|done]. intros [= <- <- <-].
      match type of E2 with process_link _ _ _ _ _ _ _ ?z = _ => set (x1 := z) in * end.
      set (rq := merge (map (fun p => reqs_of p.1) fields)) in *.
      intros Hv. assert (gs x1 !! length (w_wfs x.1) = Some G) as H1.
      { unfold gs, x1. cbn. rewrite map_app, lookup_app_r by (by rewrite map_length). by rewrite map_length, Nat.sub_diag. }
      pose proof (pot_new_wf x (Wf G rq ts [])) as P1. fold x1 in P1.
      apply (pot_process_link _ _ _ _ _ _ _ _ G) in E2; [|done].
      pose proof (pot_valid _ _ _ P1 Hv) as Hv1. pose proof (pot_at _ _ _ _ _ E2 Hv1 H1) as H2.
      apply (Hpn _ _ _ _ _ _ G) in E3; [|done].
      revert Hv. eapply pot_mono; [exact (pot_trans _ _ _ _ _ P1 (pot_trans _ _ _ _ _ E2 E3))|]. cbn [qfields].
      pose proof (merge_reqs_cost G pr node (map (fun p => reqs_of p.1) fields)) as Hm. rewrite map_map in Hm. fold rq in Hm.
      etrans; [|exact Hm]. clear Hm. cbn [lsub gl_node]. unfold reqs_cost, lsub. cbn [gl_node].
      assert (forall qs, dget THIS (of_pairs (map (fun f => (q_name f, f)) qs)) = Some tq ->
        match find_node G node with Some gn' => costs G pr gn' (qfields (q_node tq)) | None => 0 end
        + costs G pr (g_root G) (List.filter (fun r => negb (bool_decide (q_name r = THIS))) qs)
        <= list_sum (map (fun r => if decide (q_name r = THIS)
             then match find_node G node with Some gn => costs G pr gn (qfields (q_node r)) | None => 0 end
             else cost G pr (g_root G) r) qs)) as Hx; [|exact (Hx _ Et)].
      clear. intros qs Hd. apply dget_of_pairs_Some in Hd. apply elem_of_list_fmap in Hd as (f & Hf & Hin). injection Hf as Hn <-.
      assert (forall qs', costs G pr (g_root G) (List.filter (fun r => negb (bool_decide (q_name r = THIS))) qs')
        <= list_sum (map (fun r => if decide (q_name r = THIS)
             then match find_node G node with Some gn => costs G pr gn (qfields (q_node r)) | None => 0 end
             else cost G pr (g_root G) r) qs')) as Ho.
      { induction qs' as [|q qs' IH]; [done|]. cbn [List.filter map list_sum foldr]. destruct (decide (q_name q = THIS)) as [Hq|Hq].
        - rewrite bool_decide_eq_true_2 by done. cbn [negb]. unfold list_sum in *. lia.
        - rewrite bool_decide_eq_false_2 by done. cbn [negb]. rewrite cost_cons. unfold list_sum in *. lia. }
      induction qs as [|q qs IH]; [by apply not_elem_of_nil in Hin|]. apply elem_of_cons in Hin as [<-|Hin].
      - cbn [List.filter map list_sum foldr]. rewrite bool_decide_eq_true_2 by done. cbn [negb]. rewrite decide_True by done.
        specialize (Ho qs). unfold list_sum in *. lia.
      - specialize (IH Hin). cbn [List.filter map list_sum foldr]. destruct (decide (q_name q = THIS)) as [Hq|Hq].
        + rewrite bool_decide_eq_true_2 by done. cbn [negb]. unfold list_sum in *. lia.
        + rewrite bool_decide_eq_false_2 by done. cbn [negb]. rewrite cost_cons. unfold list_sum in *. lia.
    Qed.
    Lemma gs_valid w x G : gs x !! w = Some G -> w < length (gs x).
    Proof. intros Hw. apply lookup_lt_Some in Hw. done. Qed.
    Lemma pot_schedule_fields w gn fk fields ids x d y G :
      schedule_fields E pn w gn fk fields ids x = Ok (d, y) -> gs x !! w = Some G -> pot x y (fk_cost fk fields).
    Proof.
      unfold schedule_fields, fk_cost. intros Hy HG. destruct fk as [f|sg].
      - destruct (submit _ _ _ _ _) as [[fut x1]|] eqn:Es; [|done]. injection Hy as <- <-. apply pot_submit in Es.
        intros Hv. pose proof (pot_at _ _ _ _ _ Es Hv HG) as H1. revert Hv.
        eapply pot_mono; [exact (pot_trans _ _ _ _ _ Es (pot_add (KF fut) (CbStore w gn (map snd fields) ids fut) x1 (gs_valid _ _ _ H1)))|].
        unfold cbw. cbn [cb_wf]. rewrite H1. lia.
      - destruct ids as [is_|]; [|done]. destruct (gs_get_wf _ _ _ HG) as (v & Hv & _). rewrite Hv in Hy.
        destruct (q_fork _ _) as [[t q1]|] eqn:Ef; [|done]. destruct (sub_call _ _ _ _ _ _ _) as [[[w' procs] x2]|] eqn:Ec; [|done].
        injection Hy as <- <-. apply pot_fork in Ef. apply pot_sub_call in Ec. pose proof (pot_trans _ _ _ _ _ Ef Ec) as P2.
        intros Hva. pose proof (pot_at _ _ _ _ _ P2 Hva HG) as H2. revert Hva.
        eapply pot_mono; [exact (pot_trans _ _ _ _ _ P2 (pot_add (KT t) (CbStoreSub w gn (map snd fields) (Some is_) w' procs) x2 (gs_valid _ _ _ H2)))|].
        unfold cbw. cbn [cb_wf]. rewrite H2. lia.
    Qed.
    Lemma pot_schedule_link w gn l q ids x d y G :
      schedule_link E w gn l q ids x = Ok (d, y) -> gs x !! w = Some G -> pot x y (1 + lsub G l q).
    Proof.
      unfold schedule_link. destruct (get_wf w x) as [v|]; [|done].
      destruct (match req_true l with Some _ => _ | None => _ end) as [a|]; [|done].
      destruct (submit _ _ _ _ _) as [[fut x1]|] eqn:Es; [|done]. intros [= <- <-] HG. apply pot_submit in Es.
      intros Hv. pose proof (pot_at _ _ _ _ _ Es Hv HG) as H1. revert Hv.
      eapply pot_mono; [exact (pot_trans _ _ _ _ _ Es (pot_add (KF fut) (CbLink w gn l q ids fut) x1 (gs_valid _ _ _ H1)))|].
      unfold cbw. cbn [cb_wf]. rewrite H1. lia.
    Qed.
    Lemma pot_proc_steps w gn steps ids x y G :
      proc_steps E pn w gn steps ids x = Ok y -> gs x !! w = Some G -> pot x y (list_sum (map (st_cost G) steps)).
    Proof.
      unfold proc_steps. destruct steps as [|sp rest]; [done|].
      destruct (match sp with StFields _ _ => _ | StLink _ _ => _ end) as [[d x1]|] eqn:Es; [|done]. intros Hy HG.
      assert (pot x x1 (st_cost G sp)) as P1.
      { destruct sp; cbn [st_cost]; [by eapply pot_schedule_fields|by eapply pot_schedule_link]. }
      injection Hy as <-. destruct rest as [|sp2 rest].
      - eapply pot_mono; [exact P1|]. cbn. lia.
      - intros Hv. pose proof (pot_at _ _ _ _ _ P1 Hv HG) as H1. revert Hv.
        eapply pot_mono; [exact (pot_trans _ _ _ _ _ P1 (pot_add d (CbProc w gn (sp2 :: rest) ids) x1 (gs_valid _ _ _ H1)))|].
        unfold cbw. cbn [cb_wf]. rewrite H1. cbn. lia.
    Qed.
    Lemma pot_schedule_groups w gn ids groups G : forall x d0 to_dep y,
      foldR (fun acc g => match schedule_fields E pn w gn g.1 g.2 ids acc.2 with
                          | Ok (dep, x') => Ok (dset g.1 dep acc.1, x') | Err e => Err e end) (d0, x) groups = Ok (to_dep, y) ->
      gs x !! w = Some G -> pot x y (list_sum (map (fun p => fk_cost p.1 p.2) groups)).
    Proof.
      induction groups as [|[fk items] groups IH]; intros x d0 to_dep y; simpl.
      - intros [= <- <-] _. apply pot_refl.
      - destruct (schedule_fields _ _ _ _ _ _ _ _) as [[dep x1]|] eqn:Es; [|done]. intros Hy HG.
        apply (pot_schedule_fields _ _ _ _ _ _ _ _ G) in Es; [|done]. intros Hv. pose proof (pot_at _ _ _ _ _ Es Hv HG) as H1. revert Hv.
        exact (pot_trans _ _ _ _ _ Es (IH _ _ _ _ Hy H1)).
    Qed.
    Lemma pot_schedule_links w gn ids to_func to_dep links G : forall x y,
      schedule_links E w gn ids to_func to_dep links x = Ok y -> gs x !! w = Some G ->
      pot x y (list_sum (map (fun p => 1 + lsub G p.1 p.2) links)).
    Proof.
      unfold schedule_links. induction links as [|[l lq] links IH]; intros x y; cbn [foldR fst snd].
      - intros [= <-] _. apply pot_refl.
      - intros Hy HG. destruct (req_true l) as [r|].
        + destruct (dget r _) as [f|]; [|done]. destruct (dget f _) as [dep|]; [|done].
          pose proof (pot_add dep (CbSched w gn l lq ids) x (gs_valid _ _ _ HG)) as P1.
          replace (cbw (gs x) (CbSched w gn l lq ids)) with (1 + lsub G l lq) in P1 by (unfold cbw; cbn [cb_wf]; by rewrite HG).
          cbn [map list_sum foldr]. refine (pot_trans _ _ _ _ _ P1 (IH _ _ Hy HG)).
        + destruct (schedule_link _ _ _ _ _ _ _) as [[d x']|] eqn:Es; [|done].
          apply (pot_schedule_link _ _ _ _ _ _ _ _ G) in Es; [|done]. intros Hv. pose proof (pot_at _ _ _ _ _ Es Hv HG) as H1. revert Hv.
          exact (pot_trans _ _ _ _ _ Es (IH _ _ Hy H1)).
    Qed.
    Lemma pot_process_body w gn q ids x y G :
      process_node_body E pn w gn q ids x = Ok y -> gs x !! w = Some G -> pot x y (costs G pr gn (qfields q)).
    Proof.
      unfold process_node_body. intros Hy HG. destruct (qordered q).
      - destruct (group_query _ _) as [[|sp steps]|] eqn:Eg; [injection Hy as <-; eapply pot_mono; [apply pot_refl|lia]| |done].
        eapply pot_mono; [by eapply pot_proc_steps|]. by apply group_query_cost.
      - destruct (split_query _ _) as [[fields links]|] eqn:Esp; [|done].
        destruct (schedule_groups _ _ _ _ _ _ _) as [[to_dep x1]|] eqn:Eg; [|done].
        destruct (split_query_cost G _ _ _ Esp) as [Hk Hc]. unfold schedule_groups in Eg. apply (pot_schedule_groups _ _ _ _ G) in Eg; [|done].
        pose proof (groups_cost fields Hk) as Hg. unfold split_cost in Hc. cbn [fst snd] in Hc.
        intros Hv. pose proof (pot_at _ _ _ _ _ Eg Hv HG) as H1. revert Hv. apply (pot_schedule_links _ _ _ _ _ _ G) in Hy; [|done].
        eapply pot_mono; [exact (pot_trans _ _ _ _ _ Eg Hy)|]. lia.
    Qed.
  End pn.
  Lemma pot_process_node fuel : forall w gn q ids x y G,
    process_node E fuel w gn q ids x = Ok y -> gs x !! w = Some G -> pot x y (costs G pr gn (qfields q)).
  Proof.
    induction fuel as [|k IH]; intros w gn q ids x y G; [done|]. cbn [process_node]. apply pot_process_body. exact IH.
  Qed.
  Lemma pot_store w gn qfs ids r x y : store_result w gn qfs ids r x = Ok y -> pot x y 0.
  Proof.
    unfold store_result. destruct (get_wf w x); [|done]. destruct (store_fields _ _ _ _ _); [|done].
    intros [= <-]. apply pot_set_index.
  Qed.
  Lemma pot_run_cb c x y : run_cb E c x = Ok y -> cvalid x c -> pot x y (cbw (gs x) c).
  Proof.
    intros Hr Hc. unfold cvalid in Hc. apply lookup_lt_is_Some in Hc as [G HG]. unfold cbw. rewrite HG.
    destruct c as [w gn qfs ids fut|w gn qfs ids w' procs|w gn l q ids|w gn l q ids fut|w gn steps ids]; unfold run_cb in Hr; cbn [cb_wf] in HG.
    - destruct (fut_result _ _ _); [|done]. by eapply pot_store.
    - destruct (result_proc _ _ _ _); [|done]. by eapply pot_store.
    - destruct (schedule_link _ _ _ _ _ _ _) as [[d x']|] eqn:Es; [|done]. injection Hr as <-. by eapply pot_schedule_link.
    - destruct (fut_result _ _ _); [|done]. by eapply pot_process_link; [apply pot_process_node|..].
    - by eapply pot_proc_steps; [apply pot_process_node|..].
  Qed.

  (** *** The executor's loop *)
  Definition cur_cbs (p : phase cb) : list cb := match phase_cur p with Some (_, cs) => cs | None => [] end.
  Record bcfg (B : nat) (a : st * phase cb) : Prop := {
    bc_valid : valid a.1;
    bc_cur : Forall (cvalid a.1) (cur_cbs a.2);
    bc_total : total a.1 + cbws (gs a.1) (cur_cbs a.2) <= B;
  }.
  Lemma valid_queue (x : st) q : q_cbs q = q_cbs x.2 -> valid x -> valid (x.1, q).
  Proof. intros Hq Hv. unfold valid in *. cbn. rewrite Hq. exact Hv. Qed.
  Lemma total_queue (x : st) q : q_cbs q = q_cbs x.2 -> q_nts q = q_nts x.2 -> total (x.1, q) = total x.
  Proof. intros Hq Hn. unfold total, cbq. cbn. by rewrite Hq, Hn. Qed.
  Lemma valid_pop k (x : st) cs q : q_pop k x.2 = (cs, q) -> valid x -> valid (x.1, q) /\ Forall (cvalid x) cs /\ total x = total (x.1, q) + cbws (gs x) cs.
  Proof.
    intros Hp Hv. pose proof (cbq_pop (gs x) _ _ _ _ Hp) as Hc. unfold q_pop in Hp. injection Hp as <- <-. unfold valid, total in *. cbn [fst snd q_cbs q_nts] in *. split; [|split].
    - clear Hc. induction (q_cbs x.2) as [|[k' l] d IH]; cbn; [done|]. apply Forall_cons in Hv as [H1 H2].
      destruct (decide (k = k')); [exact H2|]. constructor; [exact H1|]. by apply IH.
    - clear Hc. destruct (dget k (q_cbs x.2)) as [l|] eqn:El; [|constructor]. apply dget_Some_elem in El. rewrite Forall_forall in Hv. exact (Hv _ El).
    - change (gs (x.1, _)) with (gs x). lia.
  Qed.
  Lemma bcfg_step B a b : bcfg B a -> qstep (run_cb E) a b -> bcfg B b.
  Proof.
    intros [Hv Hc Ht] Hs.
    assert (forall k (x : st) c cs y, fire (run_cb E) k x c = Ok y -> valid x -> Forall (cvalid x) (c :: cs) -> total x + cbws (gs x) (c :: cs) <= B ->
      valid y /\ Forall (cvalid y) cs /\ total y + cbws (gs y) cs <= B) as Hfire.
    { clear -Hpr. intros k x c cs y Hf Hv [Hc Hcs]%Forall_cons Ht. unfold fire in Hf. apply pot_run_cb in Hf; [|exact Hc].
      destruct (Hf (valid_queue x _ eq_refl Hv)) as (Hv' & (l & Hg) & Ht'). rewrite (total_queue x) in Ht' by done.
      change (gs (x.1, q_emit (EvFire k c) x.2)) with (gs x) in *. split; [done|]. unfold cbws in Ht. cbn [map list_sum foldr] in Ht.
      fold (list_sum (map (cbw (gs x)) cs)) in Ht. split.
      - eapply Forall_impl; [exact Hcs|]. intros c' Hc'. unfold cvalid in *. rewrite Hg, app_length. lia.
      - assert (cbws (gs y) cs = cbws (gs x) cs) as ->; [|unfold cbws in *; lia].
        rewrite Hg. unfold cbws. apply sum_eq. intros c' Hc'. apply cbw_app. rewrite Forall_forall in Hcs. by apply Hcs. }
    destruct Hs as [x dn H1 H2 H3|x f d cs q Hpop|x f c1 cs d y Hf|x f d|x|x Hq|x t ts cs q Hpop|x t c1 cs ts y Hf|x t ts|x|x Hq]; cbn [fst snd] in *; unfold cur_cbs in *; cbn [phase_cur] in *.
    - split; cbn [fst snd phase_cur]; [by apply valid_queue|constructor|]. rewrite (total_queue x) by done. exact Ht.
    - pose proof (valid_queue x (q_emit (EvDone f) x.2) eq_refl Hv) as Hv0.
      destruct (valid_pop (KF f) (x.1, q_emit (EvDone f) x.2) cs q Hpop Hv0) as (Hv1 & Hc1 & Ht1).
      rewrite (total_queue x) in Ht1 by done. split; cbn [fst snd phase_cur]; [done|exact Hc1|].
      change (gs (x.1, q)) with (gs x). change (gs (x.1, q_emit (EvDone f) x.2)) with (gs x) in Ht1. cbn [fst] in Ht1.
      change (cbws (gs x) []) with 0 in Ht. change (cur_cbs (PF (Some (f, cs)) d)) with cs. lia.
    - destruct (Hfire _ _ _ _ _ Hf Hv Hc Ht) as (? & ? & ?). by split.
    - by split.
    - by split.
    - by split.
    - destruct (valid_pop (KT t) x cs q Hpop Hv) as (Hv1 & Hc1 & Ht1). split; cbn [fst snd phase_cur]; [done|exact Hc1|].
      change (gs (x.1, q)) with (gs x). change (cbws (gs x) []) with 0 in Ht. change (cur_cbs (PT (Some (t, cs)) ts)) with cs. lia.
    - destruct (Hfire _ _ _ _ _ Hf Hv Hc Ht) as (? & ? & ?). by split.
    - split; cbn [fst snd phase_cur]; [by apply valid_queue|constructor|]. rewrite (total_queue x) by done. exact Ht.
    - by split.
    - by split.
  Qed.
  Lemma bcfg_rtc B a b : rtc (qstep (run_cb E)) a b -> bcfg B a -> bcfg B b.
  Proof. apply rtc_inv. intros a' b'. apply bcfg_step. Qed.
  Lemma start_bcfg g q q' x : start E g q = Ok x -> init_options g q = Ok q' -> bcfg (u + costs g pr (g_root g) (qfields q')) (x, PIdle).
  Proof.
    unfold start. intros Hx Hi. rewrite Hi in Hx. destruct (q_fork None q_empty) as [[ts qu]|] eqn:Ef; [|done].
    assert (pot (World [Wf g q' ts []] [], q_empty) (World [Wf g q' ts []] [], qu) u) as P0.
    { exact (pot_fork None (World [Wf g q' ts []] [], q_empty) ts qu Ef). }
    apply (pot_process_node _ _ _ _ _ _ _ g) in Hx; [|done].
    destruct (pot_trans _ _ _ _ _ P0 Hx) as (Hv & _ & Ht); [constructor|]. split; cbn [fst snd cur_cbs phase_cur]; [done|constructor|].
    unfold cbws. cbn [map list_sum foldr]. assert (total (World [Wf g q' ts []] [], q_empty) = 0) as H0 by (unfold total, cbq; cbn; lia).
    rewrite H0 in Ht. lia.
  Qed.
End bound.

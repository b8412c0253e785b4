From Verif Require Import Base Val Query QuerySpec.

(** ** Sorting by key *)
Section sort.
  Context {A : Type}.
  Implicit Types l : list (str * A).

  Lemma ins_fst_map {B} (f : A -> B) (p : str * A) l :
    ins_fst (p.1, f p.2) (map (fun x => (x.1, f x.2)) l) = map (fun x => (x.1, f x.2)) (ins_fst p l).
  Proof. induction l as [|q l IH]; simpl; [done|]. destruct (str_leb p.1 q.1); simpl; [done|]. by rewrite IH. Qed.
  Lemma sort_fst_map {B} (f : A -> B) l :
    sort_fst (map (fun x => (x.1, f x.2)) l) = map (fun x => (x.1, f x.2)) (sort_fst l).
  Proof. induction l as [|p l IH]; simpl; [done|]. rewrite IH. by rewrite <-ins_fst_map. Qed.

  Lemma ins_fst_comm (p q : str * A) l : p.1 <> q.1 -> ins_fst p (ins_fst q l) = ins_fst q (ins_fst p l).
  Proof.
    intros Hne. induction l as [|x l IH]; simpl.
    - destruct (str_leb p.1 q.1) eqn:E1, (str_leb q.1 p.1) eqn:E2; try done.
      + destruct Hne. by apply str_le_antisym.
      + destruct (str_le_total p.1 q.1); unfold str_le in *; congruence.
    - destruct (str_leb p.1 x.1) eqn:Ep, (str_leb q.1 x.1) eqn:Eq; simpl; rewrite ?Ep, ?Eq.
      + destruct (str_leb p.1 q.1) eqn:E1, (str_leb q.1 p.1) eqn:E2; try done.
        * destruct Hne. by apply str_le_antisym.
        * destruct (str_le_total p.1 q.1); unfold str_le in *; congruence.
      + destruct (str_leb q.1 p.1) eqn:E; [|done].
        pose proof (str_le_trans _ _ _ E Ep). unfold str_le in *. congruence.
      + destruct (str_leb p.1 q.1) eqn:E; [|done].
        pose proof (str_le_trans _ _ _ E Eq). unfold str_le in *. congruence.
      + by rewrite IH.
  Qed.
  Lemma sort_fst_perm_eq l1 l2 : NoDup (map fst l1) -> l1 ≡ₚ l2 -> sort_fst l1 = sort_fst l2.
  Proof.
    intros Hn Hp. induction Hp as [|x l1 l2 Hp IH|x y l|l1 l2 l3 H1 IH1 H2 IH2]; simpl; [done| | |].
    - inversion Hn; subst. by rewrite IH.
    - inversion Hn as [|? ? Hx Hn']; subst. apply ins_fst_comm.
      intros E. apply Hx. simpl. rewrite E. left.
    - rewrite IH1, IH2; [done| |done]. by rewrite <-H1.
  Qed.
  Lemma ins_fst_perm (p : str * A) l : ins_fst p l ≡ₚ p :: l.
  Proof.
    induction l as [|q l IH]; simpl; [done|]. destruct (str_leb p.1 q.1); [done|].
    rewrite IH. apply Permutation_swap.
  Qed.
  Lemma sort_fst_perm l : sort_fst l ≡ₚ l.
  Proof. induction l as [|p l IH]; simpl; [done|]. by rewrite ins_fst_perm, IH. Qed.
End sort.

(** ** Canonical form of option values *)
Fixpoint canon (v : val) : val :=
  match v with
  | VDict d => VDict (map snd (sort_fst (map (fun p => (key_text p.1, (canon p.1, canon p.2))) d)))
  | VList l => VList (map canon l)
  | _ => v
  end.
Lemma key_text_canon v : key_text (canon v) = key_text v.
Proof. by destruct v. Qed.

Definition keyed (d : list (val * val)) : list (str * (val * val)) :=
  map (fun p => (key_text p.1, p)) d.

Lemma canon_dict_eq d d' :
  map (fun p => (key_text p.1, (canon p.1, canon p.2))) d
  = map (fun p => (key_text p.1, (canon p.1, canon p.2))) d' ->
  canon (VDict d) = canon (VDict d').
Proof. intros E. simpl. by rewrite E. Qed.

Lemma same_val_canon v w : same_val v w -> canon v = canon w.
Proof.
  induction 1 as [v|v w H IH|u v w H1 IH1 H2 IH2|l1 v w l2 H IH|d d' Hn Hp|d1 k v w d2 H IH].
  - done.
  - done.
  - by rewrite IH1.
  - simpl. rewrite !map_app. simpl. by rewrite IH.
  - unfold opts_val. simpl. f_equal. f_equal. apply sort_fst_perm_eq.
    + rewrite !map_map. simpl. done.
    + by rewrite Hp.
  - apply canon_dict_eq. rewrite !map_app. simpl. by rewrite IH.
Qed.

Section hashproof.
  Context `{Hasher}.

  Lemma map_snd_sort {A B} (f : A -> B) (l : list (str * A)) :
    map snd (sort_fst (map (fun x => (x.1, f x.2)) l)) = map f (map snd (sort_fst l)).
  Proof. rewrite sort_fst_map, !map_map. done. Qed.

  Lemma compute_hash_canon v w : canon v = canon w -> compute_hash v = compute_hash w.
  Proof.
    assert (forall v, compute_hash v =
              (fix ch (c : val) : Z :=
                 match c with
                 | VDict d => hash_pairs (map (fun p => (ch p.1, ch p.2)) d)
                 | VList l => h_tup (map hash_int (map ch l))
                 | _ => compute_hash c
                 end) (canon v)) as E; [|intros Hc; by rewrite (E v), (E w), Hc].
    clear v w. intros v.
    induction v as [| | | | | | |l IH|l IH|l IH|l IH|d IH|d IH|l IH| | |] using val_ind'; try done.
    - simpl. f_equal. f_equal. rewrite !map_map. apply map_ext_Forall.
      rewrite Forall_forall in IH |- *. intros x Hx. by apply IH.
    - simpl. f_equal. set (ch := fix ch (c : val) : Z := _) in *.
      set (g := fun p : val * val => (ch p.1, ch p.2)).
      rewrite <-(map_snd_sort g). f_equal. f_equal. rewrite map_map. simpl.
      apply map_ext_Forall. rewrite Forall_forall in IH |- *. intros [k x] Hx.
      destruct (IH _ Hx) as [E1 E2]. simpl in *. unfold g. simpl. by rewrite <-E1, <-E2.
  Qed.

  Lemma opts_val_nil o : opt_dict o = [] -> options_hash o = None.
  Proof. destruct o as [[|]|]; simpl; done. Qed.
  Lemma options_hash_nonnil d : d <> [] -> options_hash (Some d) = Some (compute_hash (opts_val d)).
  Proof. by destruct d. Qed.

  Lemma canon_opts_nil d : canon (opts_val d) = canon (opts_val []) -> d = [].
  Proof.
    unfold opts_val. simpl. intros [= E]. apply (f_equal length) in E.
    rewrite map_length in E. rewrite sort_fst_perm in E. by destruct d.
  Qed.

  Lemma same_opts_hash o o' : same_opts o o' -> options_hash o = options_hash o'.
  Proof.
    intros E%same_val_canon.
    destruct (opt_dict o) as [|p d] eqn:Eo.
    - symmetry in E. apply canon_opts_nil in E. by rewrite !opts_val_nil.
    - destruct (opt_dict o') as [|p' d'] eqn:Eo'.
      + apply canon_opts_nil in E. done.
      + destruct o as [x|]; [|done]. destruct o' as [x'|]; [|done].
        cbn [opt_dict] in Eo, Eo'. subst x x'.
        rewrite !options_hash_nonnil by done. f_equal. by apply compute_hash_canon.
  Qed.

  Lemma same_opts_index_key n o o' : same_opts o o' -> index_key_of n o = index_key_of n o'.
  Proof. intros E. unfold index_key_of. by rewrite (same_opts_hash _ _ E). Qed.

  (** The key text determines name and hash, if names hold no bracket. *)
  Lemma app_sep_inj (c : N) (a b a' b' : str) :
    c ∉ a -> c ∉ a' -> a ++ c :: b = a' ++ c :: b' -> a = a' /\ b = b'.
  Proof.
    revert a'; induction a as [|x a IH]; intros [|x' a'] Ha Ha' E; simpl in E; injection E.
    - by intros ->.
    - intros _ ->. destruct Ha'. left.
    - intros _ ->. destruct Ha. left.
    - clear E. intros E ->. apply not_elem_of_cons in Ha as [_ Ha]. apply not_elem_of_cons in Ha' as [_ Ha'].
      destruct (IH a' Ha Ha' E) as [-> ->]. done.
  Qed.
  Lemma index_key_inj n o n' o' :
    91%N ∉ n -> 91%N ∉ n' -> index_key_of n o = index_key_of n' o' ->
    n = n' /\ options_hash o = options_hash o'.
  Proof.
    unfold index_key_of. intros Hn Hn'.
    change (s "[") with [91%N]. change (s "]") with [93%N]. simpl.
    destruct (options_hash o) as [h|], (options_hash o') as [h'|]; intros E.
    - apply app_sep_inj in E as [-> E]; [|done..]. split; [done|].
      apply app_inj_2 in E as [E _]; [|done]. by apply Z_str_inj in E as ->.
    - destruct Hn'. rewrite <-E. apply elem_of_app. right. left.
    - destruct Hn. rewrite E. apply elem_of_app. right. left.
    - done.
  Qed.
End hashproof.

(** ** Structure of [merge] *)
Section mergeproof.
  Context `{Hasher}.

  Definition items_of (ns : list qnode) : list qitem := concat (map qfields ns).
  Definition islink (q : qitem) : Prop := q_is_link q = true.
  Global Instance islink_dec q : Decision (islink q) := _.

  Fixpoint dedupF (seen : list mkey) (l : list qitem) : list qitem :=
    match l with
    | [] => []
    | f :: r =>
        if q_is_link f then dedupF seen r
        else if decide (merge_key f ∈ seen) then dedupF seen r
        else f :: dedupF (merge_key f :: seen) r
    end.
  Fixpoint nub (seen : list mkey) (l : list mkey) : list mkey :=
    match l with
    | [] => []
    | k :: r => if decide (k ∈ seen) then nub seen r else k :: nub (k :: seen) r
    end.
  Definition links_k (k : mkey) (l : list qitem) : list qitem :=
    filter (fun f => islink f /\ merge_key f = k) l.
  Definition link_keys (l : list qitem) : list mkey := nub [] (map merge_key (filter islink l)).
  Definition subs (k : mkey) (l : list qitem) : list qnode := map q_node (links_k k l).

  Lemma nub_ext s1 s2 l : (forall k, k ∈ s1 <-> k ∈ s2) -> nub s1 l = nub s2 l.
  Proof.
    revert s1 s2; induction l as [|k l IH]; intros s1 s2 E; simpl; [done|].
    destruct (decide (k ∈ s1)) as [Hi|Hi], (decide (k ∈ s2)) as [Hj|Hj]; try (rewrite E in Hi; done).
    - by apply IH.
    - f_equal. apply IH. intros k'. rewrite !elem_of_cons. by rewrite E.
  Qed.
  Lemma dedupF_ext s1 s2 l : (forall k, k ∈ s1 <-> k ∈ s2) -> dedupF s1 l = dedupF s2 l.
  Proof.
    revert s1 s2; induction l as [|f l IH]; intros s1 s2 E; simpl; [done|].
    destruct (q_is_link f); [auto|].
    destruct (decide (merge_key f ∈ s1)) as [Hi|Hi], (decide (merge_key f ∈ s2)) as [Hj|Hj];
      try (rewrite E in Hi; done).
    - by apply IH.
    - f_equal. apply IH. intros k'. rewrite !elem_of_cons. by rewrite E.
  Qed.

  Lemma merge_out st l :
    ms_out (fold_left merge_step l st) = ms_out st ++ dedupF (ms_seen st) l.
  Proof.
    revert st; induction l as [|f l IH]; intros st; simpl; [by rewrite app_nil_r|].
    rewrite IH. unfold merge_step. destruct (q_is_link f); [done|].
    destruct (decide (merge_key f ∈ ms_seen st)); simpl; [done|].
    by rewrite <-app_assoc.
  Qed.
  Lemma merge_links_get st l k :
    dget k (ms_links (fold_left merge_step l st)) =
    match dget k (ms_links st) with
    | Some (l0, ns) => Some (l0, ns ++ subs k l)
    | None => match links_k k l with [] => None | f :: _ => Some (f, subs k l) end
    end.
  Proof.
    revert st; induction l as [|f l IH]; intros st; simpl.
    - unfold subs, links_k. simpl. destruct (dget k (ms_links st)) as [[l0 ns]|]; [|done].
      by rewrite app_nil_r.
    - rewrite IH. unfold merge_step, subs, links_k. rewrite filter_cons.
      destruct (q_is_link f) eqn:El; simpl.
      + destruct (decide (islink f /\ merge_key f = k)) as [[_ Ek]|Hn].
        * subst k. destruct (dget (merge_key f) (ms_links st)) as [[l0 ns]|] eqn:Eg;
            rewrite dget_dset_eq; simpl; [|done]. by rewrite <-app_assoc.
        * assert (k <> merge_key f) as Hne by (intros ->; apply Hn; done).
          destruct (dget (merge_key f) (ms_links st)) as [[l0 ns]|] eqn:Eg;
            by rewrite (dget_dset_ne k).
      + rewrite (decide_False (P := islink f /\ merge_key f = k)); [|unfold islink; intros [? _]; congruence].
        destruct (decide (merge_key f ∈ ms_seen st)); done.
  Qed.
  Lemma merge_links_keys st l :
    dkeys (ms_links (fold_left merge_step l st))
    = dkeys (ms_links st) ++ nub (dkeys (ms_links st)) (map merge_key (filter islink l)).
  Proof.
    revert st; induction l as [|f l IH]; intros st; simpl; [by rewrite app_nil_r|].
    rewrite IH. unfold merge_step. rewrite filter_cons.
    destruct (q_is_link f) eqn:El; simpl.
    - rewrite (decide_True (P := islink f)); [|done]. simpl.
      assert (forall x, dkeys (dset (merge_key f) x (ms_links st)) ++
                 nub (dkeys (dset (merge_key f) x (ms_links st))) (map merge_key (filter islink l))
               = dkeys (ms_links st) ++
                 (if decide (merge_key f ∈ dkeys (ms_links st))
                  then nub (dkeys (ms_links st)) (map merge_key (filter islink l))
                  else merge_key f :: nub (merge_key f :: dkeys (ms_links st))
                         (map merge_key (filter islink l)))) as E.
      { intros x. rewrite dkeys_dset. destruct (decide _); [done|].
        rewrite <-app_assoc. simpl. f_equal. f_equal. apply nub_ext. intros k.
        rewrite elem_of_app, !elem_of_cons, elem_of_nil. tauto. }
      destruct (dget (merge_key f) (ms_links st)) as [[l0 ns]|]; apply E.
    - rewrite (decide_False (P := islink f)); [|unfold islink; congruence].
      destruct (decide (merge_key f ∈ ms_seen st)); done.
  Qed.

  Lemma elem_of_nub k seen l : k ∈ nub seen l <-> k ∈ l /\ k ∉ seen.
  Proof.
    revert seen; induction l as [|k' l IH]; intros seen; simpl.
    - rewrite elem_of_nil. tauto.
    - destruct (decide (k' ∈ seen)); rewrite ?elem_of_cons, IH, ?elem_of_cons;
        destruct (decide (k = k')); subst; naive_solver.
  Qed.
  Lemma NoDup_nub seen l : NoDup (nub seen l).
  Proof.
    revert seen; induction l as [|k l IH]; intros seen; simpl; [constructor|].
    destruct (decide (k ∈ seen)); [done|]. constructor; [|done].
    rewrite elem_of_nub, elem_of_cons. tauto.
  Qed.

  (** The links of a merged level: per key, the first link with that key, and the nodes of all. *)
  Definition link_groups (l : list qitem) : list (qitem * list qnode) :=
    flat_map (fun k => match links_k k l with [] => [] | f :: _ => [(f, subs k l)] end) (link_keys l).

  Lemma dict_as_keys {K V} `{EqDecision K} (d : dict K V) :
    NoDup (dkeys d) ->
    map snd d = flat_map (fun k => match dget k d with Some v => [v] | None => [] end) (dkeys d).
  Proof.
    induction d as [|[k v] d IH]; intros Hn; [done|]. simpl.
    inversion Hn as [|? ? Hk Hn']; subst. rewrite decide_True by done. simpl. f_equal.
    rewrite IH by done. fold (dkeys d) in *. clear IH Hn Hn'. revert Hk. generalize (dkeys d) as ks.
    intros ks. induction ks as [|k' ks IHk]; intros Hk; [done|]. simpl.
    apply not_elem_of_cons in Hk as [Hk1 Hk2].
    rewrite decide_False by done. by rewrite IHk.
  Qed.

  Lemma link_groups_loop l :
    map snd (ms_links (fold_left merge_step l (MS [] [] []))) = link_groups l.
  Proof.
    set (st := fold_left _ _ _).
    assert (dkeys (ms_links st) = link_keys l) as Ek by (unfold st; rewrite merge_links_keys; done).
    rewrite dict_as_keys; [|rewrite Ek; apply NoDup_nub].
    rewrite Ek. unfold link_groups.
    apply flat_map_ext. intros k. unfold st. rewrite merge_links_get. simpl.
    by destruct (links_k k l).
  Qed.

  Lemma merge_f_eq k ns :
    merge_f (S k) ns =
    QN (dedupF [] (items_of ns) ++ map (fun e => copy_node e.1 (merge_f k e.2)) (link_groups (items_of ns)))
       (existsb qordered ns).
  Proof.
    cbn [merge_f]. fold (items_of ns). rewrite merge_out. cbn [ms_out ms_seen app].
    f_equal. f_equal. rewrite <-link_groups_loop.
    rewrite map_map. done.
  Qed.

  (** Fuel *)
  Definition nsdepth (ns : list qnode) : nat := max_list (map ndepth ns).

  Lemma max_list_le l n : (forall x, x ∈ l -> x <= n) -> max_list l <= n.
  Proof.
    induction l as [|x l IH]; intros Hl; simpl; [lia|].
    pose proof (Hl x ltac:(left)). pose proof (IH ltac:(intros; apply Hl; by right)).
    unfold id in *. lia.
  Qed.
  Lemma max_list_ge l n : n ∈ l -> n <= max_list l.
  Proof. apply max_list_elem_of_le. Qed.

  Lemma elem_of_items q ns : q ∈ items_of ns <-> exists n, n ∈ ns /\ q ∈ qfields n.
  Proof.
    unfold items_of. rewrite elem_of_list_In, in_concat. split.
    - intros (l & Hl & Hq). apply in_map_iff in Hl as (n & <- & Hn).
      exists n. by rewrite !elem_of_list_In.
    - intros (n & Hn & Hq). exists (qfields n). rewrite <-!elem_of_list_In. split; [|done].
      apply elem_of_list_fmap. eauto.
  Qed.
  Lemma nsdepth_item q ns : q ∈ items_of ns -> qdepth q <= nsdepth ns.
  Proof.
    intros (n & Hn & Hq)%elem_of_items. unfold nsdepth.
    transitivity (ndepth n).
    - unfold ndepth. apply max_list_ge. apply elem_of_list_fmap. eauto.
    - apply max_list_ge. apply elem_of_list_fmap. eauto.
  Qed.
  Lemma qdepth_node q : islink q -> qdepth q = S (ndepth (q_node q)).
  Proof. destruct q; [done|]. done. Qed.
  Lemma elem_of_links_k f k l : f ∈ links_k k l <-> f ∈ l /\ islink f /\ merge_key f = k.
  Proof. unfold links_k. rewrite elem_of_list_filter. tauto. Qed.
  Lemma subs_depth k ns : nsdepth ns <> 0 \/ True -> links_k k (items_of ns) <> [] ->
    S (nsdepth (subs k (items_of ns))) <= nsdepth ns.
  Proof.
    intros _ Hne. unfold subs, nsdepth at 1.
    assert (forall x, x ∈ links_k k (items_of ns) -> S (ndepth (q_node x)) <= nsdepth ns) as Hx.
    { intros x (Hi & Hl & _)%elem_of_links_k. rewrite <-qdepth_node by done. by apply nsdepth_item. }
    destruct (links_k k (items_of ns)) as [|f fs] eqn:E; [done|].
    pose proof (Hx f ltac:(left)).
    assert (max_list (map ndepth (map q_node (f :: fs))) <= pred (nsdepth ns)); [|lia].
    apply max_list_le. intros x (n & -> & (y & -> & Hy)%elem_of_list_fmap)%elem_of_list_fmap.
    pose proof (Hx y Hy). lia.
  Qed.
  Lemma elem_of_link_groups f ss l :
    (f, ss) ∈ link_groups l ->
    exists fs, links_k (merge_key f) l = f :: fs /\ ss = subs (merge_key f) l.
  Proof.
    unfold link_groups. rewrite elem_of_list_In, in_flat_map. intros (k & Hk & Hf).
    destruct (links_k k l) as [|f' fs] eqn:E; simpl in Hf; [done|].
    destruct Hf as [[= <- <-]|[]].
    assert (merge_key f' = k) as <-.
    { pose proof (proj1 (elem_of_links_k f' k l)) as Hx. rewrite E in Hx. apply Hx. left. }
    eauto.
  Qed.
  Lemma link_groups_elem f fs k l :
    links_k k l = f :: fs -> (f, subs k l) ∈ link_groups l.
  Proof.
    intros E. unfold link_groups. apply elem_of_list_In, in_flat_map. exists k. split.
    - apply elem_of_list_In. unfold link_keys. apply elem_of_nub. split; [|apply not_elem_of_nil].
      assert (f ∈ links_k k l) as (H1 & H2 & <-)%elem_of_links_k by (rewrite E; left).
      apply elem_of_list_fmap. exists f. split; [done|]. apply elem_of_list_filter. done.
    - rewrite E. left. done.
  Qed.

  Lemma merge_f_fuel k1 k2 ns : nsdepth ns < k1 -> nsdepth ns < k2 -> merge_f k1 ns = merge_f k2 ns.
  Proof.
    revert k2 ns; induction k1 as [|k1 IH]; intros k2 ns H1 H2; [lia|].
    destruct k2 as [|k2]; [lia|]. rewrite !merge_f_eq. f_equal. f_equal.
    apply map_ext_in. intros [f ss] Hin%elem_of_list_In. simpl. f_equal.
    apply elem_of_link_groups in Hin as (fs & E & ->).
    pose proof (subs_depth (merge_key f) ns (or_intror I)) as Hd. rewrite E in Hd.
    specialize (Hd ltac:(done)). apply IH; lia.
  Qed.

  Lemma merge_eq ns :
    merge ns =
    QN (dedupF [] (items_of ns) ++ map (fun e => copy_node e.1 (merge e.2)) (link_groups (items_of ns)))
       (existsb qordered ns).
  Proof.
    unfold merge at 1. fold (nsdepth ns). rewrite merge_f_eq. f_equal. f_equal.
    apply map_ext_in. intros [f ss] Hin%elem_of_list_In. simpl. f_equal.
    apply elem_of_link_groups in Hin as (fs & E & ->).
    pose proof (subs_depth (merge_key f) ns (or_intror I)) as Hd. rewrite E in Hd.
    specialize (Hd ltac:(done)). unfold merge. fold (nsdepth (subs (merge_key f) (items_of ns))).
    apply merge_f_fuel; lia.
  Qed.

  (** Induction on the depth of a list of nodes. *)
  Lemma ns_ind (P : list qnode -> Prop) :
    (forall ns, (forall ns', nsdepth ns' < nsdepth ns -> P ns') -> P ns) -> forall ns, P ns.
  Proof.
    intros Hi. assert (forall d ns, nsdepth ns < d -> P ns) as Hd; [|intros ns; apply (Hd (S (nsdepth ns))); lia].
    induction d as [|d IH]; intros ns Hn; [lia|]. apply Hi. intros ns' Hl. apply IH. lia.
  Qed.

  (** *** Idempotence and independence of splitting *)
  Lemma copy_node_key f n : merge_key (copy_node f n) = merge_key f.
  Proof. by destruct f. Qed.
  Lemma copy_node_link f n : q_is_link (copy_node f n) = q_is_link f.
  Proof. by destruct f. Qed.
  Lemma copy_copy f n n' : copy_node (copy_node f n) n' = copy_node f n'.
  Proof. by destruct f. Qed.
  Lemma q_node_copy f n : islink f -> q_node (copy_node f n) = n.
  Proof. destruct f; [done|]. by destruct n. Qed.

  Lemma dedupF_app seen l1 l2 :
    dedupF seen (l1 ++ l2) =
    dedupF seen l1 ++ dedupF (map merge_key (dedupF seen l1) ++ seen) l2.
  Proof.
    revert seen; induction l1 as [|f l1 IH]; intros seen; simpl; [done|].
    destruct (q_is_link f); [apply IH|]. destruct (decide _); [apply IH|].
    simpl. f_equal. rewrite IH. f_equal. apply dedupF_ext. intros k.
    rewrite !elem_of_app, !elem_of_cons, elem_of_app. tauto.
  Qed.
  Lemma dedupF_links seen l : (forall f, f ∈ l -> islink f) -> dedupF seen l = [].
  Proof.
    revert seen; induction l as [|f l IH]; intros seen Hl; simpl; [done|].
    rewrite (Hl f) by left. apply IH. intros; apply Hl; by right.
  Qed.
  Lemma dedupF_sub s1 s2 l : (forall k, k ∈ s1 -> k ∈ s2) -> dedupF s2 (dedupF s1 l) = dedupF s2 l.
  Proof.
    revert s1 s2; induction l as [|f l IH]; intros s1 s2 Hs; simpl; [done|].
    destruct (q_is_link f) eqn:El; [auto|].
    destruct (decide (merge_key f ∈ s1)) as [H1|H1].
    - rewrite (decide_True (P := merge_key f ∈ s2)) by auto. by apply IH.
    - simpl. rewrite El. destruct (decide (merge_key f ∈ s2)) as [H2|H2].
      + apply IH. intros k [->|Hk]%elem_of_cons; auto.
      + f_equal. apply IH. intros k. rewrite !elem_of_cons. naive_solver.
  Qed.
  Lemma dedupF_keys k seen l :
    k ∈ map merge_key (dedupF seen l) <-> k ∉ seen /\ exists f, f ∈ l /\ ~ islink f /\ merge_key f = k.
  Proof.
    revert seen; induction l as [|f l IH]; intros seen; simpl.
    - rewrite elem_of_nil. split; [done|]. intros (_ & f & Hf & _). by apply elem_of_nil in Hf.
    - destruct (q_is_link f) eqn:El.
      + rewrite IH. split; intros (Hk & g & Hg & Hr).
        * split; [done|]. exists g. split; [by right|done].
        * split; [done|]. exists g. apply elem_of_cons in Hg as [->|Hg]; [|done].
          destruct Hr as [Hr _]. by destruct Hr.
      + destruct (decide (merge_key f ∈ seen)) as [Hs|Hs].
        * rewrite IH. split; intros (Hk & g & Hg & Hr).
          -- split; [done|]. exists g. split; [by right|done].
          -- split; [done|]. apply elem_of_cons in Hg as [->|Hg]; [|eauto].
             destruct Hr as [_ <-]. done.
        * simpl. rewrite elem_of_cons, IH. split.
          -- intros [->|(Hk & g & Hg & Hr)].
             ++ split; [done|]. exists f. split; [left|]. unfold islink. rewrite El. done.
             ++ apply not_elem_of_cons in Hk as [? ?]. split; [done|]. exists g. split; [by right|done].
          -- intros (Hk & g & Hg & Hl & <-). apply elem_of_cons in Hg as [->|Hg]; [by left|].
             destruct (decide (merge_key g = merge_key f)) as [E|E]; [by left|right].
             split; [apply not_elem_of_cons; done|]. eauto.
  Qed.
  Lemma dedupF_elem f seen l : f ∈ dedupF seen l -> f ∈ l /\ ~ islink f /\ merge_key f ∉ seen.
  Proof.
    revert seen; induction l as [|g l IH]; intros seen; simpl; [by intros ?%elem_of_nil|].
    destruct (q_is_link g) eqn:El.
    - intros (? & ? & ?)%IH. split; [by right|done].
    - destruct (decide _).
      + intros (? & ? & ?)%IH. split; [by right|done].
      + intros [->|Hf]%elem_of_cons.
        * split; [left|]. unfold islink. rewrite El. done.
        * apply IH in Hf as (? & ? & Hk). apply not_elem_of_cons in Hk as [? ?].
          split; [by right|done].
  Qed.
  Lemma dedupF_NoDup seen l : NoDup (map merge_key (dedupF seen l)).
  Proof.
    revert seen; induction l as [|g l IH]; intros seen; simpl; [constructor|].
    destruct (q_is_link g) eqn:El; [done|]. destruct (decide _); [done|].
    simpl. constructor; [|done]. rewrite dedupF_keys. intros [Hk _]. apply Hk. left.
  Qed.

  Definition mlinks (l : list qitem) : list qitem :=
    map (fun e => copy_node e.1 (merge e.2)) (link_groups l).
  Lemma mlinks_link f l : f ∈ mlinks l -> islink f.
  Proof.
    unfold mlinks. intros ([g ss] & -> & Hg)%elem_of_list_fmap. simpl.
    unfold islink. rewrite copy_node_link. apply elem_of_link_groups in Hg as (fs & E & _).
    assert (g ∈ links_k (merge_key g) l) as (_ & Hl & _)%elem_of_links_k by (rewrite E; left). done.
  Qed.
  Lemma merge_fields ns : qfields (merge ns) = dedupF [] (items_of ns) ++ mlinks (items_of ns).
  Proof. by rewrite merge_eq. Qed.
  Lemma merge_ordered ns : qordered (merge ns) = existsb qordered ns.
  Proof. by rewrite merge_eq. Qed.

  Lemma nub_app seen l1 l2 : nub seen (l1 ++ l2) = nub seen l1 ++ nub (nub seen l1 ++ seen) l2.
  Proof.
    revert seen; induction l1 as [|k l1 IH]; intros seen; simpl; [done|].
    destruct (decide _); [apply IH|]. simpl. f_equal. rewrite IH. f_equal. apply nub_ext. intros k'.
    rewrite !elem_of_app, !elem_of_cons, elem_of_app. tauto.
  Qed.
  Lemma nub_sub s1 s2 l : (forall k, k ∈ s1 -> k ∈ s2) -> nub s2 (nub s1 l) = nub s2 l.
  Proof.
    revert s1 s2; induction l as [|f l IH]; intros s1 s2 Hs; simpl; [done|].
    destruct (decide (f ∈ s1)) as [H1|H1].
    - rewrite (decide_True (P := f ∈ s2)) by auto. by apply IH.
    - simpl. destruct (decide (f ∈ s2)) as [H2|H2].
      + apply IH. intros k [->|Hk]%elem_of_cons; auto.
      + f_equal. apply IH. intros k. rewrite !elem_of_cons. naive_solver.
  Qed.
  (** keys of the merged links, in order *)
  Lemma mlinks_keys l : map merge_key (mlinks l) = link_keys l.
  Proof.
    unfold mlinks, link_groups. rewrite map_map.
    assert (forall k, k ∈ link_keys l -> exists f fs, links_k k l = f :: fs /\ merge_key f = k) as Hk.
    { intros k (Hk & _)%elem_of_nub. apply elem_of_list_fmap in Hk as (f & -> & Hf).
      apply elem_of_list_filter in Hf as [Hl Hf].
      destruct (links_k (merge_key f) l) as [|g gs] eqn:E.
      - assert (f ∈ links_k (merge_key f) l) as Hx by (by apply elem_of_links_k). rewrite E in Hx.
        by apply elem_of_nil in Hx.
      - exists g, gs. split; [done|].
        assert (g ∈ links_k (merge_key f) l) as (_ & _ & ->)%elem_of_links_k by (rewrite E; left). done. }
    induction (link_keys l) as [|k ks IH]; [done|]. simpl.
    destruct (Hk k ltac:(left)) as (f & fs & E & <-). rewrite E. simpl. rewrite copy_node_key.
    f_equal. apply IH. intros k' Hk'. apply Hk. by right.
  Qed.
  Lemma filter_all {A} (P : A -> Prop) `{!forall x, Decision (P x)} (l : list A) : (forall x, x ∈ l -> P x) -> filter P l = l.
  Proof.
    induction l as [|x l IH]; intros Hl; [done|]. rewrite filter_cons_True by (apply Hl; left).
    f_equal. apply IH. intros; apply Hl; by right.
  Qed.
  Lemma filter_none {A} (P : A -> Prop) `{!forall x, Decision (P x)} (l : list A) : (forall x, x ∈ l -> ~ P x) -> filter P l = [].
  Proof.
    induction l as [|x l IH]; intros Hl; [done|]. rewrite filter_cons_False by (apply Hl; left).
    apply IH. intros; apply Hl; by right.
  Qed.
  Lemma merge_links_filter ns : filter islink (qfields (merge ns)) = mlinks (items_of ns).
  Proof.
    rewrite merge_fields, filter_app.
    rewrite (filter_none islink (dedupF _ _)).
    - rewrite filter_all; [done|]. intros x Hx. by eapply mlinks_link.
    - intros x (_ & Hx & _)%dedupF_elem. done.
  Qed.

  (** links of a merged node with a given key: none or one *)
  Lemma mlinks_k k l :
    links_k k (mlinks l) = match links_k k l with [] => [] | f :: _ => [copy_node f (merge (subs k l))] end.
  Proof.
    pose proof (mlinks_keys l) as Hkeys.
    assert (NoDup (map merge_key (mlinks l))) as Hn by (rewrite Hkeys; apply NoDup_nub).
    destruct (links_k k l) as [|f fs] eqn:E.
    - apply filter_none. intros x Hx [Hl Hk].
      unfold mlinks in Hx. apply elem_of_list_fmap in Hx as ([g ss] & -> & Hg). simpl in *.
      rewrite copy_node_key in Hk. apply elem_of_link_groups in Hg as (gs & Eg & _).
      rewrite Hk, E in Eg. done.
    - pose proof (link_groups_elem f fs k l E) as Hg.
      assert (copy_node f (merge (subs k l)) ∈ mlinks l) as Hin.
      { unfold mlinks. apply elem_of_list_fmap. by exists (f, subs k l). }
      assert (merge_key f = k) as Ek.
      { assert (f ∈ links_k k l) as (_ & _ & ->)%elem_of_links_k by (rewrite E; left). done. }
      pose proof (mlinks_link _ _ Hin) as Hlk. unfold links_k. revert Hn Hin.
      generalize (mlinks l) as m. clear Hkeys Hg.
      set (c := copy_node f (merge (subs k l))) in *.
      assert (merge_key c = k) as Ec by (unfold c; by rewrite copy_node_key).
      clearbody c. intros m. induction m as [|x m IH]; intros Hn Hin; [by apply elem_of_nil in Hin|].
      simpl in Hn. inversion Hn as [|? ? Hx Hn']; subst.
      apply elem_of_cons in Hin as [->|Hin].
      + rewrite filter_cons_True by done. f_equal. apply filter_none. intros y Hy [_ Hk].
        apply Hx. apply elem_of_list_fmap. exists y. split; [|done]. congruence.
      + rewrite filter_cons_False; [by apply IH|]. intros [_ Hk]. apply Hx.
        apply elem_of_list_fmap. exists c. split; [|done]. congruence.
  Qed.

  Lemma links_k_app k l1 l2 : links_k k (l1 ++ l2) = links_k k l1 ++ links_k k l2.
  Proof. apply filter_app. Qed.
  Lemma links_k_nolinks k l : (forall f, f ∈ l -> ~ islink f) -> links_k k l = [].
  Proof. intros Hl. apply filter_none. intros x Hx [Hl' _]. by apply (Hl x). Qed.
  Lemma merge_links_k k ns :
    links_k k (qfields (merge ns)) =
    match links_k k (items_of ns) with [] => [] | f :: _ => [copy_node f (merge (subs k (items_of ns)))] end.
  Proof.
    rewrite merge_fields, links_k_app, mlinks_k, links_k_nolinks; [done|].
    intros f (_ & Hf & _)%dedupF_elem. done.
  Qed.

  Lemma items_of_cons n ns : items_of (n :: ns) = qfields n ++ items_of ns.
  Proof. done. Qed.
  Lemma items_of_app a b : items_of (a ++ b) = items_of a ++ items_of b.
  Proof. unfold items_of. by rewrite map_app, concat_app. Qed.
  Lemma items_of_concat nss : items_of (concat nss) = concat (map items_of nss).
  Proof. induction nss as [|a nss IH]; [done|]. simpl. by rewrite items_of_app, IH. Qed.

  Definition keep {A} (l : list A) : bool := match l with [] => false | _ => true end.

  Lemma dedupF_split nss seen :
    dedupF seen (items_of (map merge nss)) = dedupF seen (items_of (concat nss)).
  Proof.
    revert seen; induction nss as [|ns nss IH]; intros seen; [done|]. simpl concat. simpl map.
    rewrite items_of_cons, items_of_app, merge_fields.
    rewrite !(dedupF_app seen). rewrite (dedupF_links _ (mlinks _)) by (intros; by eapply mlinks_link).
    rewrite app_nil_r, dedupF_sub by (intros k Hk; by apply elem_of_nil in Hk).
    by rewrite IH.
  Qed.
  Lemma link_keys_split nss seen :
    nub seen (map merge_key (filter islink (items_of (map merge nss)))) =
    nub seen (map merge_key (filter islink (items_of (concat nss)))).
  Proof.
    revert seen; induction nss as [|ns nss IH]; intros seen; [done|]. simpl concat. simpl map.
    rewrite items_of_cons, items_of_app, !filter_app, !map_app, merge_links_filter, mlinks_keys.
    rewrite !(nub_app seen). unfold link_keys.
    rewrite nub_sub by (intros k Hk; by apply elem_of_nil in Hk). by rewrite IH.
  Qed.
  (** the groups of nodes which were merged, per key *)
  Definition kgroups (k : mkey) (nss : list (list qnode)) : list (list qnode) :=
    List.filter keep (map (fun ns => subs k (items_of ns)) nss).
  Lemma subs_concat k nss : subs k (items_of (concat nss)) = concat (kgroups k nss).
  Proof.
    unfold kgroups. induction nss as [|ns nss IH]; [done|]. simpl concat at 1. simpl map.
    rewrite items_of_app. unfold subs in *. rewrite links_k_app, map_app, IH.
    simpl. destruct (map q_node (links_k k (items_of ns))) eqn:E; done.
  Qed.
  Lemma subs_split k nss : subs k (items_of (map merge nss)) = map merge (kgroups k nss).
  Proof.
    unfold kgroups. induction nss as [|ns nss IH]; [done|]. simpl map.
    rewrite items_of_cons. unfold subs in *. rewrite links_k_app, map_app, IH, merge_links_k.
    destruct (links_k k (items_of ns)) as [|f fs] eqn:E; simpl.
    - done.
    - rewrite q_node_copy; [unfold subs; by rewrite E|].
      assert (f ∈ links_k k (items_of ns)) as (_ & Hl & _)%elem_of_links_k by (rewrite E; left). done.
  Qed.
  Lemma first_split k nss :
    match links_k k (items_of (map merge nss)) with [] => None | f :: _ => Some (copy_node f (QN [] false)) end =
    match links_k k (items_of (concat nss)) with [] => None | f :: _ => Some (copy_node f (QN [] false)) end.
  Proof.
    induction nss as [|ns nss IH]; [done|]. simpl concat. simpl map.
    rewrite items_of_cons, items_of_app, !links_k_app, merge_links_k.
    destruct (links_k k (items_of ns)) as [|f fs] eqn:E; simpl; [done|].
    by rewrite copy_copy.
  Qed.

  Lemma existsb_split nss :
    existsb qordered (map merge nss) = existsb qordered (concat nss).
  Proof.
    induction nss as [|ns nss IH]; [done|]. cbn [map concat existsb].
    rewrite existsb_app, merge_ordered, IH. done.
  Qed.

  Theorem merge_split nss : merge (map merge nss) = merge (concat nss).
  Proof.
    remember (nsdepth (concat nss)) as d eqn:Hd. revert nss Hd.
    induction (lt_wf d) as [d _ IH]. intros nss ->.
    rewrite (merge_eq (map merge nss)), (merge_eq (concat nss)), existsb_split, dedupF_split.
    f_equal. f_equal. unfold link_groups, link_keys. rewrite link_keys_split.
    rewrite !flat_map_concat_map, !concat_map, !map_map. f_equal.
    apply map_ext_in. intros k _.
    pose proof (first_split k nss) as Hf.
    destruct (links_k k (items_of (map merge nss))) as [|f fs] eqn:E1,
      (links_k k (items_of (concat nss))) as [|g gs] eqn:E2; try done.
    simpl. f_equal. rewrite subs_split, subs_concat.
    assert (merge (map merge (kgroups k nss)) = merge (concat (kgroups k nss))) as ->.
    { apply (IH (nsdepth (concat (kgroups k nss)))); [|done]. rewrite <-subs_concat.
      pose proof (subs_depth k (concat nss) (or_intror I)) as Hs. rewrite E2 in Hs.
      specialize (Hs ltac:(done)). lia. }
    injection Hf as Hf. destruct f, g; simpl in *; congruence.
  Qed.

  Corollary merge_idem ns : merge [merge ns] = merge ns.
  Proof. pose proof (merge_split [ns]) as E. simpl in E. by rewrite app_nil_r in E. Qed.
End mergeproof.

(** Executions over two graphs which are alike - loaders have other names, there are more members and nodes than those
    asked for, sub-graphs have other numbers - are alike: used for C45 and C47. *)
From stdpp Require Import relations.
From Verif Require Import Base Val Types Query QuerySpec QueryProof Graph Queue Result Engine EngineSpec CostSpec.

Section sim.
  Context `{Hasher} (E E' : env) (u : N -> N).
  (** [u f'] is the loader meant by [f'] *)
  Record env_alike : Prop := {
    al_oracle : forall k f c a, e_oracle E' k (Call f c a) = e_oracle E k (Call (u f) c a);
    al_ctx : forall f, e_ctx E' f = e_ctx E (u f);
    al_proc : forall p t r os, e_proc E' p t r os = e_proc E p t r os;
    al_eager : e_eager E' = e_eager E;
  }.
  Hypothesis HE : env_alike.

  (** Sub-graphs are the same, and use the same loaders and sub-graphs, nested at most [d] deep *)
  Fixpoint ssim (d : nat) (sg sg' : nat) : Prop :=
    match d with
    | O => False
    | S d =>
        match e_sgs E !! sg, e_sgs E' !! sg' with
        | None, None => True
        | Some (G, node), Some (G', node') =>
            G' = G /\ node' = node /\
            forall gn name x, node_of G gn -> find_field gn name = Some x ->
              match fkey_of x with KPlain f => u f = f | KSub a => ssim d a a end
        | _, _ => False
        end
    end.
  Definition ks (d : nat) (k k' : fkey) : Prop :=
    match k, k' with KPlain f, KPlain f' => u f' = f | KSub a, KSub b => ssim d a b | _, _ => False end.
  Lemma ssim_S d : forall a b, ssim d a b -> ssim (S d) a b.
  Proof.
    induction d as [|d IH]; [done|]. intros a b. cbn [ssim]. destruct (e_sgs E !! a) as [[G n]|], (e_sgs E' !! b) as [[G' n']|]; try done.
    intros (-> & -> & Hx). split; [done|]. split; [done|]. intros gn name x Hn Hf. specialize (Hx gn name x Hn Hf). destruct (fkey_of x); [done|]. by apply IH.
  Qed.
  Lemma ks_mono d e k k' : d <= e -> ks d k k' -> ks e k k'.
  Proof.
    intros Hle. destruct k as [|a], k' as [|b]; try done. cbn. intros Hs. induction Hle; [done|]. by apply ssim_S.
  Qed.

  Definition isame (x x' : gitem) : Prop :=
    gi_name x' = gi_name x /\ gi_opts x' = gi_opts x /\ reqs_of x' = reqs_of x /\ proc_of x' = proc_of x /\
    match x, x' with GF _, GF _ | GL _, GL _ => True | _, _ => False end.
  Definition lsame (l l' : glink) : Prop :=
    l = GLink (gl_name l') (gl_enum l') (gl_node l') (u (gl_func l')) (gl_requires l') (gl_opts l').
  Definition one_one (K : fkey -> fkey -> Prop) : Prop := forall a a' b b', K a a' -> K b b' -> (a = b <-> a' = b').
  Definition flook (K : fkey -> fkey -> Prop) (gn gn' : gnode) (n : str) : Prop :=
    match find_field gn n, find_field gn' n with
    | None, None => True
    | Some x, Some x' => isame x x' /\ K (fkey_of x) (fkey_of x')
    | _, _ => False
    end.
  Section node.
    Context (KS : fkey -> fkey -> Prop) (G G' : graph).
    Definition keys_ok (K : fkey -> fkey -> Prop) : Prop := one_one K /\ forall k k', K k k' -> KS k k'.
    (** The member [q] is the same in both nodes, what is selected behind links included *)
    Fixpoint isim (K : fkey -> fkey -> Prop) (gn gn' : gnode) (q : qitem) {struct q} : Prop :=
      match find_field gn (q_name q), find_field gn' (q_name q), q with
      | Some (GL l), Some (GL l'), QL _ sub _ _ _ =>
          lsame l l' /\ (forall r, req_true l = Some r -> flook K gn gn' r) /\
          match find_node G (gl_node l), find_node G' (gl_node l) with
          | None, None => True
          | Some m, Some m' =>
              gn_name m' = gn_name m /\ exists K', keys_ok K' /\ foldr (fun q' P => isim K' m m' q' /\ P) True sub
          | _, _ => False
          end
      | _, _, _ => flook K gn gn' (q_name q)
      end.
    Definition nsim (gn gn' : gnode) (n : qnode) : Prop :=
      gn_name gn' = gn_name gn /\ exists K, keys_ok K /\ forall q, q ∈ qfields n -> isim K gn gn' q.
    Definition lksim (l l' : glink) (q : qitem) : Prop :=
      lsame l l' /\ q_is_link q = true /\
        match find_node G (gl_node l), find_node G' (gl_node l) with
        | None, None => True
        | Some m, Some m' => nsim m m' (q_node q)
        | _, _ => False
        end.
    Definition fsim (p p' : gitem * qitem) : Prop := isame p.1 p'.1 /\ p'.2 = p.2.
    Definition stpsim (K : fkey -> fkey -> Prop) (a b : step) : Prop :=
      match a, b with
      | StFields k l, StFields k' l' => K k k' /\ Forall2 fsim l l'
      | StLink l q, StLink l' q' => lksim l l' q /\ q' = q
      | _, _ => False
      end.
  End node.
  Lemma foldr_in (P : qitem -> Prop) sub : foldr (fun q' Q => P q' /\ Q) True sub <-> forall q, q ∈ sub -> P q.
  Proof.
    induction sub as [|q sub IH]; cbn; [split; [intros _ q Hq; by apply not_elem_of_nil in Hq|done]|].
    rewrite IH. setoid_rewrite elem_of_cons. split.
    - intros [H1 H2] q' [->|Hq]; auto.
    - intros Ha. split; [apply Ha; by left|]. intros; apply Ha; by right.
  Qed.
  Lemma isim_mono (KS KS' : fkey -> fkey -> Prop) G G' : (forall k k', KS k k' -> KS' k k') ->
    forall q K gn gn', isim KS G G' K gn gn' q -> isim KS' G G' K gn gn' q.
  Proof.
    intros Hk. induction q as [nm o a|nm sub ord o a IH] using qitem_ind'; intros K gn gn'; [done|]. cbn [isim].
    cbn [q_name]. destruct (find_field gn nm) as [[f|l]|], (find_field gn' nm) as [[f'|l']|]; try done.
    intros (Hl & Hr & Hn). split; [done|]. split; [done|]. destruct (find_node G (gl_node l)) as [m|], (find_node G' (gl_node l)) as [m'|]; try done.
    destruct Hn as (He & K' & [H1 H2] & Hs). split; [done|]. exists K'. split; [split; auto|]. rewrite foldr_in in Hs |- *.
    rewrite Forall_forall in IH. intros q Hq. apply IH; auto.
  Qed.
  Lemma nsim_mono (KS KS' : fkey -> fkey -> Prop) G G' gn gn' n : (forall k k', KS k k' -> KS' k k') ->
    nsim KS G G' gn gn' n -> nsim KS' G G' gn gn' n.
  Proof.
    intros Hk (He & K & [H1 H2] & Hs). split; [done|]. exists K. split; [split; auto|]. intros q Hq. eapply isim_mono; eauto.
  Qed.
  Lemma lksim_mono (KS KS' : fkey -> fkey -> Prop) G G' l l' q : (forall k k', KS k k' -> KS' k k') ->
    lksim KS G G' l l' q -> lksim KS' G G' l l' q.
  Proof.
    intros Hk (Hl & Hq & Hn). split; [done|]. split; [done|]. destruct (find_node G (gl_node l)), (find_node G' (gl_node l)); try done. by eapply nsim_mono.
  Qed.
  Lemma stpsim_mono (KS KS' K K' : fkey -> fkey -> Prop) G G' a b : (forall k k', KS k k' -> KS' k k') -> (forall k k', K k k' -> K' k k') ->
    stpsim KS G G' K a b -> stpsim KS' G G' K' a b.
  Proof.
    intros Hk Hk'. destruct a, b; try done; cbn; [intros [? ?]; auto|]. intros [? ->]. split; [|done]. by eapply lksim_mono.
  Qed.
  Lemma isim_link KS G G' K gn gn' q l l' : q_is_link q = true -> find_field gn (q_name q) = Some (GL l) -> find_field gn' (q_name q) = Some (GL l') ->
    isim KS G G' K gn gn' q -> lksim KS G G' l l' q /\ forall r, req_true l = Some r -> flook K gn gn' r.
  Proof.
    destruct q as [|nm sub ord o a]; [done|]. cbn [isim q_name q_node]. intros _ -> ->. intros (Hl & Hr & Hn). split; [|done]. split; [done|]. split; [done|].
    destruct (find_node G (gl_node l)) as [m|], (find_node G' (gl_node l)) as [m'|]; try done. destruct Hn as (He & K' & Hk & Hs). split; [done|]. exists K'. split; [done|].
    by rewrite foldr_in in Hs.
  Qed.
  Lemma isim_look KS G G' K gn gn' q : (forall l, find_field gn (q_name q) = Some (GL l) -> q_is_link q = false) ->
    isim KS G G' K gn gn' q -> flook K gn gn' (q_name q).
  Proof.
    intros Hn. destruct q as [nm o a|nm sub ord o a]; cbn [isim q_name] in *.
    - by destruct (find_field gn nm) as [[]|], (find_field gn' nm) as [[]|].
    - destruct (find_field gn nm) as [[|l]|]; [|by specialize (Hn l eq_refl)|]; by destruct (find_field gn' nm) as [[]|].
  Qed.

  (** ** Results *)
  Definition rsim {A B} (R : A -> B -> Prop) (r : res A) (r' : res B) : Prop :=
    match r, r' with Ok a, Ok b => R a b | Err e, Err e' => e' = e | _, _ => False end.
  Lemma rsim_mono {A B} (R R' : A -> B -> Prop) r r' : (forall a b, R a b -> R' a b) -> rsim R r r' -> rsim R' r r'.
  Proof. destruct r, r'; cbn; auto. Qed.
  Lemma foldR_sim {A A' B B'} (R : A -> A' -> Prop) (Q : B -> B' -> Prop) (f : A -> B -> res A) (f' : A' -> B' -> res A') l l' :
    Forall2 Q l l' -> (forall a a' b b', b ∈ l -> R a a' -> Q b b' -> rsim R (f a b) (f' a' b')) ->
    forall a a', R a a' -> rsim R (foldR f a l) (foldR f' a' l').
  Proof.
    intros Hl Hf. induction Hl as [|b b' l l' Hb Hl IH]; intros a a' Ha; [done|]. cbn [foldR].
    pose proof (Hf a a' b b' ltac:(left) Ha Hb) as Hx. destruct (f a b) as [x|e], (f' a' b') as [x'|e']; try done. apply IH; [|done].
    intros; apply Hf; [by right|done|done].
  Qed.

  (** ** Dividing queries *)
  Section split.
    Context (KS K : fkey -> fkey -> Prop) (G G' : graph) (gn gn' : gnode).
    Hypothesis HK : keys_ok KS K.
    Definition tsim (t t' : fkey * gitem * qitem) : Prop := K t.1.1 t'.1.1 /\ isame t.1.2 t'.1.2 /\ t'.2 = t.2.
    Definition lqsim (p p' : glink * qitem) : Prop := lksim KS G G' p.1 p'.1 p.2 /\ p'.2 = p.2.
    Definition splsim (a a' : split_t) : Prop := Forall2 tsim a.1 a'.1 /\ Forall2 lqsim a.2 a'.2.
    Lemma split_field_sim a a' q : splsim a a' -> flook K gn gn' (q_name q) -> rsim splsim (split_field gn a q) (split_field gn' a' q).
    Proof.
      intros [H1 H2] Hf. unfold split_field, flook in *. destruct (find_field gn (q_name q)) as [x|], (find_field gn' (q_name q)) as [x'|]; try done.
      destruct Hf as [Hi Hk]. split; [|done]. apply Forall2_app; [done|]. by repeat constructor; try apply Hi.
    Qed.
    Lemma split_item_sim a a' q : splsim a a' -> isim KS G G' K gn gn' q -> rsim splsim (split_item gn a q) (split_item gn' a' q).
    Proof.
      intros Ha Hi. destruct q as [nm o b|nm sub ord o b] eqn:Eq; rewrite <-Eq in *.
      - subst q. apply split_field_sim; [done|]. eapply isim_look; [|exact Hi]. done.
      - assert (q_is_link q = true) as Hl by by subst. assert (split_item gn a q = match find_field gn (q_name q) with
          | None => Err KeyError | Some (GF _) => split_field gn a q
          | Some (GL l) => match (match req_true l with Some r => split_field gn a (QF r None None) | None => Ok a end) with
             | Err e => Err e | Ok acc' => Ok (acc'.1, acc'.2 ++ [(l, q)]) end end) as -> by by subst.
        assert (split_item gn' a' q = match find_field gn' (q_name q) with
          | None => Err KeyError | Some (GF _) => split_field gn' a' q
          | Some (GL l) => match (match req_true l with Some r => split_field gn' a' (QF r None None) | None => Ok a' end) with
             | Err e => Err e | Ok acc' => Ok (acc'.1, acc'.2 ++ [(l, q)]) end end) as -> by by subst.
        clear Eq. destruct (find_field gn (q_name q)) as [[f|l]|] eqn:E1.
        + assert (flook K gn gn' (q_name q)) as Hf by (eapply isim_look; [|exact Hi]; congruence).
          pose proof (split_field_sim a a' q Ha Hf) as Hs. unfold flook in Hf. rewrite E1 in Hf.
          destruct (find_field gn' (q_name q)) as [[f'|l']|] eqn:E2; try done. by destruct Hf as [(_ & _ & _ & _ & []) _].
        + destruct (find_field gn' (q_name q)) as [[f'|l']|] eqn:E2.
          1,3: exfalso; destruct q as [|? ? ? ? ?]; [done|]; cbn [isim q_name] in *; rewrite E1, E2 in Hi; unfold flook in Hi; rewrite E1, E2 in Hi;
               try done; by destruct Hi as [(_ & _ & _ & _ & []) _].
          destruct (isim_link _ _ _ _ _ _ _ _ _ Hl E1 E2 Hi) as [Hk Hr].
          assert (req_true l' = req_true l) as Hrt by (destruct Hk as [-> _]; done). rewrite Hrt.
          assert (rsim splsim (match req_true l with Some r => split_field gn a (QF r None None) | None => Ok a end)
                              (match req_true l with Some r => split_field gn' a' (QF r None None) | None => Ok a' end)) as Hs.
          { destruct (req_true l) as [r|]; [|done]. apply split_field_sim; [done|]. by apply Hr. }
          destruct (match req_true l with Some r => split_field gn a _ | None => _ end) as [c|], (match req_true l with Some r => split_field gn' a' _ | None => _ end) as [c'|]; try done.
          destruct Hs as [H1 H2]. split; [done|]. cbn. apply Forall2_app; [done|]. by repeat constructor; try apply Hk.
        + assert (flook K gn gn' (q_name q)) as Hf by (eapply isim_look; [|exact Hi]; congruence).
          unfold flook in Hf. rewrite E1 in Hf. by destruct (find_field gn' (q_name q)).
    Qed.
    Lemma split_query_sim qs : (forall q, q ∈ qs -> isim KS G G' K gn gn' q) -> rsim splsim (split_query gn qs) (split_query gn' qs).
    Proof.
      intros Hq. unfold split_query. apply (foldR_sim splsim (fun q q' => q' = q)).
      - clear. induction qs; constructor; auto.
      - intros a a' b b' Hb Ha ->. apply split_item_sim; auto.
      - split; constructor.
    Qed.

    Definition grpsim (a a' : group_t) : Prop := Forall2 (stpsim KS G G' K) a.1 a'.1 /\ option_Forall2 K a.2 a'.2.
    Lemma group_field_sim a a' q : grpsim a a' -> flook K gn gn' (q_name q) -> rsim grpsim (group_field gn a q) (group_field gn' a' q).
    Proof.
      intros [H1 H2] Hf. unfold group_field, flook in *. destruct (find_field gn (q_name q)) as [x|], (find_field gn' (q_name q)) as [x'|]; try done.
      destruct Hf as [Hi Hk]. cbn zeta.
      assert (a.2 = Some (fkey_of x) <-> a'.2 = Some (fkey_of x')) as Hiff.
      { destruct H2 as [k k' Hkk|]; [|done]. pose proof (proj1 HK _ _ _ _ Hkk Hk) as Hoo. split; intros [= ->]; f_equal; by apply Hoo. }
      destruct (decide (a.2 = Some (fkey_of x))) as [Hd|Hd], (decide (a'.2 = Some (fkey_of x'))) as [Hd'|Hd']; [|tauto|tauto|].
      - assert (Forall2 (stpsim KS G G' K) (List.rev a.1) (List.rev a'.1)) as Hrev by (rewrite !rev_alt; by apply Forall2_reverse).
        destruct Hrev as [|[k l|l q0] [k' l'|l' q0'] r r' Hs Hr]; try done. cbn in Hs. destruct Hs as [Hs1 Hs2].
        split; [|done]. cbn [fst]. apply Forall2_app; [rewrite !rev_alt; by apply Forall2_reverse|].
        constructor; [|constructor]. split; [done|]. apply Forall2_app; [done|]. by repeat constructor; try apply Hi.
      - split; [|by constructor]. cbn [fst]. apply Forall2_app; [done|]. constructor; [|constructor]. split; [done|]. by repeat constructor; try apply Hi.
    Qed.
    Lemma group_item_sim a a' q : grpsim a a' -> isim KS G G' K gn gn' q -> rsim grpsim (group_item gn a q) (group_item gn' a' q).
    Proof.
      intros Ha Hi. destruct q as [nm o b|nm sub ord o b] eqn:Eq; rewrite <-Eq in *.
      - subst q. apply group_field_sim; [done|]. eapply isim_look; [|exact Hi]. done.
      - assert (q_is_link q = true) as Hl by by subst. assert (group_item gn a q = match find_field gn (q_name q) with
          | None => Err KeyError | Some (GF _) => Err AttributeError
          | Some (GL l) => match (match req_true l with Some r => group_field gn a (QF r None None) | None => Ok a end) with
             | Err e => Err e | Ok acc' => Ok (acc'.1 ++ [StLink l q], None) end end) as -> by by subst.
        assert (group_item gn' a' q = match find_field gn' (q_name q) with
          | None => Err KeyError | Some (GF _) => Err AttributeError
          | Some (GL l) => match (match req_true l with Some r => group_field gn' a' (QF r None None) | None => Ok a' end) with
             | Err e => Err e | Ok acc' => Ok (acc'.1 ++ [StLink l q], None) end end) as -> by by subst.
        clear Eq. destruct (find_field gn (q_name q)) as [[f|l]|] eqn:E1.
        + assert (flook K gn gn' (q_name q)) as Hf by (eapply isim_look; [|exact Hi]; congruence).
          unfold flook in Hf. rewrite E1 in Hf.
          destruct (find_field gn' (q_name q)) as [[f'|l']|] eqn:E2; try done. by destruct Hf as [(_ & _ & _ & _ & []) _].
        + destruct (find_field gn' (q_name q)) as [[f'|l']|] eqn:E2.
          1,3: exfalso; destruct q as [|? ? ? ? ?]; [done|]; cbn [isim q_name] in *; rewrite E1, E2 in Hi; unfold flook in Hi; rewrite E1, E2 in Hi;
               try done; by destruct Hi as [(_ & _ & _ & _ & []) _].
          destruct (isim_link _ _ _ _ _ _ _ _ _ Hl E1 E2 Hi) as [Hk Hr].
          assert (req_true l' = req_true l) as Hrt by (destruct Hk as [-> _]; done). rewrite Hrt.
          assert (rsim grpsim (match req_true l with Some r => group_field gn a (QF r None None) | None => Ok a end)
                              (match req_true l with Some r => group_field gn' a' (QF r None None) | None => Ok a' end)) as Hs.
          { destruct (req_true l) as [r|]; [|done]. apply group_field_sim; [done|]. by apply Hr. }
          destruct (match req_true l with Some r => group_field gn a _ | None => _ end) as [c|], (match req_true l with Some r => group_field gn' a' _ | None => _ end) as [c'|]; try done.
          destruct Hs as [H1 H2]. split; [|constructor]. cbn [fst]. apply Forall2_app; [done|]. constructor; [|constructor]. by split.
        + assert (flook K gn gn' (q_name q)) as Hf by (eapply isim_look; [|exact Hi]; congruence).
          unfold flook in Hf. rewrite E1 in Hf. by destruct (find_field gn' (q_name q)).
    Qed.
    Lemma group_query_sim qs : (forall q, q ∈ qs -> isim KS G G' K gn gn' q) ->
      rsim (Forall2 (stpsim KS G G' K)) (group_query gn qs) (group_query gn' qs).
    Proof.
      intros Hq. unfold group_query.
      assert (rsim grpsim (foldR (group_item gn) ([], None) qs) (foldR (group_item gn') ([], None) qs)) as Hs.
      { apply (foldR_sim grpsim (fun q q' => q' = q)).
        - clear. induction qs; constructor; auto.
        - intros a a' b b' Hb Ha ->. apply group_item_sim; auto.
        - split; constructor. }
      destruct (foldR (group_item gn) _ _), (foldR (group_item gn') _ _); try done. by destruct Hs.
    Qed.
  End split.


  (** ** States *)
  Definition gs (x : st) : list graph := map wf_graph (w_wfs x.1).
  Definition rename_call (c : call) : call := Call (u (c_func c)) (c_ctx c) (c_args c).
  Context (D : nat).
  Definition at_graphs (l l' : list graph) (w : nat) (P : graph -> graph -> Prop) : Prop :=
    exists G G', l !! w = Some G /\ l' !! w = Some G' /\ P G G'.
  Definition cbsim (l l' : list graph) (c c' : cb) : Prop :=
    match c, c' with
    | CbStore w gn qfs ids fut, CbStore v gn' qfs' ids' fut' =>
        v = w /\ gn_name gn' = gn_name gn /\ qfs' = qfs /\ ids' = ids /\ fut' = fut
    | CbStoreSub w gn qfs ids a p, CbStoreSub v gn' qfs' ids' b p' =>
        v = w /\ gn_name gn' = gn_name gn /\ qfs' = qfs /\ ids' = ids /\ b = a /\ p' = p
    | CbSched w gn k q ids, CbSched v gn' k' q' ids' =>
        v = w /\ gn_name gn' = gn_name gn /\ q' = q /\ ids' = ids /\ at_graphs l l' w (fun G G' => lksim (ks D) G G' k k' q)
    | CbLink w gn k q ids fut, CbLink v gn' k' q' ids' fut' =>
        v = w /\ gn_name gn' = gn_name gn /\ q' = q /\ ids' = ids /\ fut' = fut /\ at_graphs l l' w (fun G G' => lksim (ks D) G G' k k' q)
    | CbProc w gn sp ids, CbProc v gn' sp' ids' =>
        v = w /\ gn_name gn' = gn_name gn /\ ids' = ids /\ at_graphs l l' w (fun G G' => Forall2 (stpsim (ks D) G G' (ks D)) sp sp')
    | _, _ => False
    end.
  Definition csim (l l' : list graph) (p p' : ckey * list cb) : Prop := p'.1 = p.1 /\ Forall2 (cbsim l l') p.2 p'.2.
  Definition qsim (l l' : list graph) (q q' : queue cb) : Prop :=
    q_futs q' = q_futs q /\ q_forks q' = q_forks q /\ q_nfut q' = q_nfut q /\ q_nts q' = q_nts q /\ Forall2 (csim l l') (q_cbs q) (q_cbs q').
  Definition wfsim (v v' : wf) : Prop := wf_query v' = wf_query v /\ wf_ts v' = wf_ts v /\ wf_index v' = wf_index v.
  Definition stsim (x x' : st) : Prop :=
    Forall2 wfsim (w_wfs x.1) (w_wfs x'.1) /\ w_log x.1 = map rename_call (w_log x'.1) /\ qsim (gs x) (gs x') x.2 x'.2.
  Definition grow (x x' y y' : st) : Prop := stsim y y' /\ gs x `prefix_of` gs y /\ gs x' `prefix_of` gs y'.
  Lemma at_graphs_mono l l' m m' w (P Q : graph -> graph -> Prop) : l `prefix_of` m -> l' `prefix_of` m' -> (forall G G', P G G' -> Q G G') -> at_graphs l l' w P -> at_graphs m m' w Q.
  Proof.
    intros [k ->] [k' ->] Hq (G & G' & H1 & H2 & Hp). exists G, G'. rewrite !lookup_app, H1, H2. auto.
  Qed.
  Lemma cbsim_mono l l' m m' c c' : l `prefix_of` m -> l' `prefix_of` m' -> cbsim l l' c c' -> cbsim m m' c c'.
  Proof.
    intros H1 H2. destruct c, c'; cbn [cbsim]; try done; intros Hc; destruct_and!; repeat (split; [done|]); by eapply at_graphs_mono; [exact H1|exact H2| |eassumption].
  Qed.
  Lemma csim_mono l l' m m' c c' : l `prefix_of` m -> l' `prefix_of` m' -> csim l l' c c' -> csim m m' c c'.
  Proof. intros H1 H2 [? Hc]. split; [done|]. eapply Forall2_impl; [exact Hc|]. intros. by eapply cbsim_mono. Qed.
  Lemma qsim_mono l l' m m' q q' : l `prefix_of` m -> l' `prefix_of` m' -> qsim l l' q q' -> qsim m m' q q'.
  Proof. intros H1 H2 (? & ? & ? & ? & Hc). do 4 (split; [done|]). eapply Forall2_impl; [exact Hc|]. intros. by eapply csim_mono. Qed.
  Lemma grow_refl x x' : stsim x x' -> grow x x' x x'.
  Proof. intros Hs. by split; [|split]. Qed.
  Lemma grow_trans x x' y y' z z' : grow x x' y y' -> grow y y' z z' -> grow x x' z z'.
  Proof. intros (_ & H1 & H2) (Hs & H3 & H4). split; [done|]. split; etrans; eauto. Qed.
  Lemma grow_at x x' y y' w P : grow x x' y y' -> at_graphs (gs x) (gs x') w P -> at_graphs (gs y) (gs y') w P.
  Proof. intros (_ & H1 & H2). by apply at_graphs_mono. Qed.

  Lemma get_wf_sim w x x' : stsim x x' -> rsim (fun v v' => wfsim v v' /\ gs x !! w = Some (wf_graph v) /\ gs x' !! w = Some (wf_graph v')) (get_wf w x) (get_wf w x').
  Proof.
    intros (Hw & _). unfold get_wf, gs. rewrite !list_lookup_fmap.
    destruct (w_wfs x.1 !! w) as [v|] eqn:E1.
    - destruct (Forall2_lookup_l _ _ _ _ _ Hw E1) as (v' & -> & Hv). done.
    - destruct (w_wfs x'.1 !! w) as [v'|] eqn:E2; [|done]. destruct (Forall2_lookup_r _ _ _ _ _ Hw E2) as (v & Hv & _). congruence.
  Qed.
  Lemma gs_set_index w idx x : gs (set_index w idx x) = gs x.
  Proof.
    unfold gs, set_index. cbn. apply list_eq. intros i. rewrite !list_lookup_fmap. destruct (decide (i = w)) as [->|Hne].
    - rewrite list_lookup_alter. by destruct (w_wfs x.1 !! w).
    - by rewrite list_lookup_alter_ne.
  Qed.
  Lemma set_index_sim w idx x x' : stsim x x' -> stsim (set_index w idx x) (set_index w idx x').
  Proof.
    intros (Hw & Hl & Hq). split; [|split; [done|]].
    - cbn. apply Forall2_alter; [done|]. intros v v' _ _ (? & ? & ?). by split.
    - by rewrite !gs_set_index.
  Qed.
  Lemma set_index_grow w idx x x' : stsim x x' -> grow x x' (set_index w idx x) (set_index w idx x').
  Proof. intros Hs. split; [by apply set_index_sim|]. by rewrite !gs_set_index. Qed.

  (** ** Dictionaries *)
  Section dsim.
    Context {A A' B B' : Type} `{EqDecision A, EqDecision A'} (K : A -> A' -> Prop) (R : B -> B' -> Prop).
    Hypothesis HK : forall a a' b b', K a a' -> K b b' -> (a = b <-> a' = b').
    Definition psim (p : A * B) (p' : A' * B') : Prop := K p.1 p'.1 /\ R p.2 p'.2.
    Lemma dget_sim d d' k k' : Forall2 psim d d' -> K k k' -> option_Forall2 R (dget k d) (dget k' d').
    Proof.
      intros Hd Hk. induction Hd as [|[a b] [a' b'] d d' [Ha Hb] Hd IH]; [constructor|]. cbn in *. pose proof (HK _ _ _ _ Hk Ha).
      destruct (decide (k = a)), (decide (k' = a')); try tauto. by constructor.
    Qed.
    Lemma dset_sim d d' k k' v v' : Forall2 psim d d' -> K k k' -> R v v' -> Forall2 psim (dset k v d) (dset k' v' d').
    Proof.
      intros Hd Hk Hv. induction Hd as [|[a b] [a' b'] d d' [Ha Hb] Hd IH]; [by repeat constructor|]. cbn in *. pose proof (HK _ _ _ _ Hk Ha).
      destruct (decide (k = a)), (decide (k' = a')); try tauto; by repeat constructor.
    Qed.
    Lemma ddel_sim d d' k k' : Forall2 psim d d' -> K k k' -> Forall2 psim (ddel k d) (ddel k' d').
    Proof.
      intros Hd Hk. induction Hd as [|[a b] [a' b'] d d' [Ha Hb] Hd IH]; [constructor|]. cbn in *. pose proof (HK _ _ _ _ Hk Ha).
      destruct (decide (k = a)), (decide (k' = a')); try tauto. by repeat constructor.
    Qed.
  End dsim.
  Lemma dappend_sim {A A' B B'} `{EqDecision A, EqDecision A'} (K : A -> A' -> Prop) (R : B -> B' -> Prop) d d' k k' v v' :
    (forall a a' b b', K a a' -> K b b' -> (a = b <-> a' = b')) ->
    Forall2 (psim K (Forall2 R)) d d' -> K k k' -> R v v' -> Forall2 (psim K (Forall2 R)) (dappend k v d) (dappend k' v' d').
  Proof.
    intros HK Hd Hk Hv. unfold dappend. apply dset_sim; [done|done|done|].
    destruct (dget_sim K (Forall2 R) HK d d' k k' Hd Hk); [apply Forall2_app; auto|auto].
  Qed.

  (** ** Steps of the queue *)
  Lemma csim_psim l l' d d' : Forall2 (csim l l') d d' <-> Forall2 (psim (fun a b : ckey => b = a) (Forall2 (cbsim l l'))) d d'.
  Proof. done. Qed.
  Lemma q_add_sim l l' k c c' q q' : qsim l l' q q' -> cbsim l l' c c' -> qsim l l' (q_add k c q) (q_add k c' q').
  Proof.
    intros (? & ? & ? & ? & Hc) Hcc. do 4 (split; [done|]). cbn [q_add q_cbs]. apply csim_psim, dappend_sim; [|done|done|done]. intros ? ? ? ? -> ->. done.
  Qed.
  Lemma add_cb_sim k c c' x x' : stsim x x' -> cbsim (gs x) (gs x') c c' -> grow x x' (add_cb k c x) (add_cb k c' x').
  Proof. intros (Hw & Hl & Hq) Hc. split; [|done]. split; [done|]. split; [done|]. by apply q_add_sim. Qed.
  Lemma q_submit_sim l l' ts q q' : qsim l l' q q' -> rsim (fun a a' => a'.1 = a.1 /\ qsim l l' a.2 a'.2) (q_submit ts q) (q_submit ts q').
  Proof.
    intros (H1 & H2 & H3 & H4 & Hc). unfold q_submit. rewrite H1. destruct (dget ts (q_futs q)); [|done]. cbn. split; [done|].
    split; cbn; [by rewrite H3|]. split; [done|]. by rewrite H3.
  Qed.
  Lemma q_fork_sim l l' ts q q' : qsim l l' q q' -> rsim (fun a a' => a'.1 = a.1 /\ qsim l l' a.2 a'.2) (q_fork ts q) (q_fork ts q').
  Proof.
    intros (H1 & H2 & H3 & H4 & Hc). unfold q_fork. rewrite H1, H2, H4. destruct ts as [p|].
    - destruct (dget p _); [|done]. split; [done|]. by split; cbn; [|split; [|split; [|split]]].
    - split; [done|]. by split; cbn; [|split; [|split; [|split]]].
  Qed.
  Lemma submit_sim w f f' a x x' : stsim x x' -> u f' = f ->
    rsim (fun p p' => p'.1 = p.1 /\ grow x x' p.2 p'.2) (submit E w f a x) (submit E' w f' a x').
  Proof.
    intros Hs Hu. pose proof Hs as (Hw & Hl & Hq). unfold submit. pose proof (get_wf_sim w _ _ Hs) as Hg.
    destruct (get_wf w x) as [v|], (get_wf w x') as [v'|]; try done. destruct Hg as ((_ & Ht & _) & _). cbn zeta.
    rewrite Ht. assert (length (w_log x'.1) = length (w_log x.1)) as Hlen by by rewrite Hl, fmap_length.
    rewrite Hlen, (al_eager HE), (al_oracle HE), (al_ctx HE), Hu.
    pose proof (q_submit_sim (gs x) (gs x') (wf_ts v) _ _ Hq) as Hqs.
    assert (rsim (fun p p' => p'.1 = p.1 /\ grow x x' p.2 p'.2)
      (match q_submit (wf_ts v) x.2 with Ok (_, q') => Ok (length (w_log x.1), ((World (w_wfs x.1) (w_log x.1 ++ [Call f (e_ctx E f) a]), x.2).1, q')) | Err e => Err e end)
      (match q_submit (wf_ts v) x'.2 with Ok (_, q') => Ok (length (w_log x.1), ((World (w_wfs x'.1) (w_log x'.1 ++ [Call f' (e_ctx E f) a]), x'.2).1, q')) | Err e => Err e end)) as Hgo.
    { destruct (q_submit (wf_ts v) x.2) as [[n q]|], (q_submit (wf_ts v) x'.2) as [[n' q']|]; try done. destruct Hqs as [_ Hqs].
      split; [done|]. split; [|done]. split; [done|]. split; [|done]. cbn. rewrite map_app, Hl. cbn. by subst f. }
    destruct (e_eager E), (e_oracle E (length (w_log x.1)) (Call f (e_ctx E f) a)); first [exact Hgo|done].
  Qed.
  Lemma fut_result_sim fut x x' : stsim x x' -> fut_result E' fut x' = fut_result E fut x.
  Proof.
    intros (_ & Hl & _). unfold fut_result. rewrite Hl, list_lookup_fmap. destruct (w_log x'.1 !! fut) as [[f c a]|]; [|done]. cbn.
    unfold rename_call. cbn. by rewrite (al_oracle HE).
  Qed.
  Lemma store_fields_name idx gn gn' qfs ids r : gn_name gn' = gn_name gn -> store_fields idx gn' qfs ids r = store_fields idx gn qfs ids r.
  Proof. intros Hn. unfold store_fields, check_store_fields. by rewrite Hn. Qed.
  Lemma link_reqs_name idx gn gn' r ids : gn_name gn' = gn_name gn -> link_reqs idx gn' r ids = link_reqs idx gn r ids.
  Proof. intros Hn. unfold link_reqs. by rewrite Hn. Qed.
  Definition lweak (l l' : glink) : Prop := gl_enum l' = gl_enum l /\ gl_node l' = gl_node l /\ gl_requires l' = gl_requires l.
  Lemma store_links_name idx gn gn' l l' q ids r : gn_name gn' = gn_name gn -> lweak l l' -> store_links idx gn' l' q ids r = store_links idx gn l q ids r.
  Proof.
    intros Hn (H1 & H2 & H3). unfold store_links, check_store_links, link_ref. by rewrite Hn, H1, H2, H3.
  Qed.
  Lemma lsame_weak l l' : lsame l l' -> lweak l l'.
  Proof. by intros ->. Qed.
  Lemma store_result_sim w gn gn' qfs ids r x x' : stsim x x' -> gn_name gn' = gn_name gn ->
    rsim (grow x x') (store_result w gn qfs ids r x) (store_result w gn' qfs ids r x').
  Proof.
    intros Hs Hn. unfold store_result. pose proof (get_wf_sim w _ _ Hs) as Hg.
    destruct (get_wf w x) as [v|], (get_wf w x') as [v'|]; try done. destruct Hg as ((_ & _ & Hi) & _). rewrite Hi, (store_fields_name _ gn gn' _ _ _ Hn).
    destruct (store_fields _ _ _ _ _); [|done]. by apply set_index_grow.
  Qed.
  Lemma result_proc_sim w procs x x' : stsim x x' -> result_proc E' w procs x' = result_proc E w procs x.
  Proof.
    intros Hs. unfold result_proc. pose proof (get_wf_sim w _ _ Hs) as Hg.
    destruct (get_wf w x) as [v|], (get_wf w x') as [v'|]; try done; [|by cbn in Hg; subst]. destruct Hg as ((Hq & _ & Hi) & _). rewrite Hq, Hi.
    destruct (proxy_get _ _ _ _) as [p|]; [|done].
    destruct (match p with PRaw (IRefs []) => Ok [] | PList refs pn => Ok (map (fun r => view (wf_index v) r pn) refs) | _ => Err TypeError end) as [ts|]; [|done].
    match goal with |- match ?a with _ => _ end = match ?b with _ => _ end => assert (a = b) as ->; [|done] end.
    apply mapR_ext, Forall_forall. intros t _.
    match goal with |- match ?a with _ => _ end = match ?b with _ => _ end => assert (a = b) as ->; [|done] end.
    apply mapR_ext, Forall_forall. intros pr _. apply (al_proc HE).
  Qed.

  (** ** Processing a node *)
  Definition PN (d : nat) (pn pn' : nat -> gnode -> qnode -> option (list val) -> st -> res st) : Prop :=
    forall w gn gn' n ids x x', stsim x x' -> at_graphs (gs x) (gs x') w (fun G G' => nsim (ks d) G G' gn gn' n) ->
      rsim (grow x x') (pn w gn n ids x) (pn' w gn' n ids x').
  Lemma process_link_sim d pn pn' w gn gn' l l' q ids r x x' : PN d pn pn' -> stsim x x' -> gn_name gn' = gn_name gn -> lweak l l' ->
    at_graphs (gs x) (gs x') w (fun G G' => q_is_link q = true -> match find_node G (gl_node l), find_node G' (gl_node l) with
        | None, None => True | Some m, Some m' => nsim (ks d) G G' m m' (q_node q) | _, _ => False end) ->
    (q_is_link q = false -> at_graphs (gs x) (gs x') w (fun G G' => is_Some (find_node G (gl_node l)) <-> is_Some (find_node G' (gl_node l)))) ->
    rsim (grow x x') (process_link pn w gn l q ids r x) (process_link pn' w gn' l' q ids r x').
  Proof.
    intros Hpn Hs Hn Hl Ha Ha'. unfold process_link. pose proof (get_wf_sim w _ _ Hs) as Hg.
    destruct (get_wf w x) as [v|], (get_wf w x') as [v'|]; try done. destruct Hg as ((_ & _ & Hi) & Hg1 & Hg2). rewrite Hi, (store_links_name _ gn gn' l l' _ _ _ Hn Hl).
    destruct (store_links _ _ _ _ _ _) as [idx|]; [|done]. destruct Hl as (H1 & H2 & H3). rewrite H1, H2, H3. cbn zeta.
    pose proof (set_index_grow w idx _ _ Hs) as Hgr.
    destruct (link_result_to_ids _ _ _) as [to_ids|]; [|done]. destruct to_ids as [|t0 to_ids]; [done|].
    pose proof Ha as (G & G' & HG & HG' & Hk). rewrite HG in Hg1. rewrite HG' in Hg2. injection Hg1 as <-. injection Hg2 as <-.
    destruct (q_is_link q) eqn:El.
    - specialize (Hk eq_refl). destruct (find_node G (gl_node l)) as [m|] eqn:Em, (find_node G' (gl_node l)) as [m'|] eqn:Em'; try done.
      pose proof (Hpn w m m' (q_node q) (Some (t0 :: to_ids)) _ _ (proj1 Hgr)) as Hx. eapply rsim_mono; [|apply Hx].
      + intros a b. by apply grow_trans.
      + exists G, G'. by rewrite !gs_set_index.
    - destruct (Ha' eq_refl) as (G1 & G1' & HG1 & HG1' & Hk1). rewrite HG in HG1. rewrite HG' in HG1'. injection HG1 as <-. injection HG1' as <-.
      destruct (find_node G (gl_node l)), (find_node G' (gl_node l)); try done; exfalso; destruct Hk1 as [Hk1 Hk2]; [by destruct (Hk1 ltac:(eauto))|by destruct (Hk2 ltac:(eauto))].
  Qed.
  (** The same node of the same sub-graph *)
  Lemma flook_self d G gn r : (forall gn name x, node_of G gn -> find_field gn name = Some x -> ks d (fkey_of x) (fkey_of x)) -> node_of G gn ->
    flook (fun k k' => k' = k /\ ks d k k') gn gn r.
  Proof.
    intros Hx Hn. unfold flook. destruct (find_field gn r) as [x|] eqn:Ef; [|done]. split; [split_and!; try done; by destruct x|]. eauto.
  Qed.
  Lemma self_keys d : keys_ok (ks d) (fun k k' => k' = k /\ ks d k k').
  Proof. split; [|by intros k k' [_ ?]]. intros a a' b b' [-> _] [-> _]. done. Qed.
  Lemma isim_self d G : (forall gn name x, node_of G gn -> find_field gn name = Some x -> ks d (fkey_of x) (fkey_of x)) ->
    forall q gn, node_of G gn -> isim (ks d) G G (fun k k' => k' = k /\ ks d k k') gn gn q.
  Proof.
    intros Hx. induction q as [nm o a|nm sub ord o a IH] using qitem_ind'; intros gn Hn; cbn [isim q_name].
    - pose proof (flook_self d G gn nm Hx Hn) as Hf. unfold flook in Hf. destruct (find_field gn nm) as [[]|] eqn:Ef; unfold flook; rewrite Ef; done.
    - pose proof (flook_self d G gn nm Hx Hn) as Hf. destruct (find_field gn nm) as [[f|l]|] eqn:Ef; [done| |done].
      split; [|split].
      + specialize (Hx gn nm _ Hn Ef). cbn in Hx. unfold lsame. rewrite Hx. by destruct l.
      + intros r _. by apply (flook_self d G).
      + destruct (find_node G (gl_node l)) as [m|] eqn:Em; [|done]. split; [done|]. exists (fun k k' => k' = k /\ ks d k k').
        split; [apply self_keys|]. apply foldr_in. intros q Hq. rewrite Forall_forall in IH. apply IH; [done|]. right. eauto.
  Qed.
  Lemma nsim_self d G gn n : (forall gn name x, node_of G gn -> find_field gn name = Some x -> ks d (fkey_of x) (fkey_of x)) -> node_of G gn ->
    nsim (ks d) G G gn gn n.
  Proof.
    intros Hx Hn. split; [done|]. exists (fun k k' => k' = k /\ ks d k k'). split; [apply self_keys|]. intros q _. by apply isim_self.
  Qed.

  Lemma option_values_same x x' q : gi_opts x' = gi_opts x -> option_values x' q = option_values x q.
  Proof. intros Hg. unfold option_values. by rewrite Hg. Qed.
  Lemma map_fsim {A} (h : gitem * qitem -> A) l l' : Forall2 fsim l l' -> (forall p p', fsim p p' -> h p' = h p) -> map h l' = map h l.
  Proof. intros Hl Hh. induction Hl; cbn; [done|]. f_equal; auto. Qed.
  Lemma mapR_fsim {A} (h : gitem * qitem -> res A) l l' : Forall2 fsim l l' -> (forall p p', fsim p p' -> h p' = h p) -> mapR h l' = mapR h l.
  Proof. intros Hl Hh. induction Hl as [|p p' l l' Hp Hl IH]; [done|]. cbn. by rewrite (Hh _ _ Hp), IH. Qed.
  Lemma new_wf_grow x x' v v' : stsim x x' -> wfsim v v' ->
    grow x x' (World (w_wfs x.1 ++ [v]) (w_log x.1), x.2) (World (w_wfs x'.1 ++ [v']) (w_log x'.1), x'.2).
  Proof.
    intros (Hw & Hl & Hq) Hv. assert (gs x `prefix_of` gs (World (w_wfs x.1 ++ [v]) (w_log x.1), x.2)) as H1 by (unfold gs; cbn; rewrite map_app; by eexists).
    assert (gs x' `prefix_of` gs (World (w_wfs x'.1 ++ [v']) (w_log x'.1), x'.2)) as H2 by (unfold gs; cbn; rewrite map_app; by eexists).
    split; [|done]. split; [by apply Forall2_app; auto|]. split; [done|]. by eapply qsim_mono.
  Qed.
  Lemma sub_call_sim d pn pn' sg sg' fs fs' ids ts x x' : PN d pn pn' -> stsim x x' -> ssim (S d) sg sg' -> Forall2 fsim fs fs' ->
    rsim (fun p p' => p'.1 = p.1 /\ grow x x' p.2 p'.2) (sub_call E pn sg fs ids ts x) (sub_call E' pn' sg' fs' ids ts x').
  Proof.
    intros Hpn Hs Hss Hf. unfold sub_call. cbn [ssim] in Hss.
    destruct (e_sgs E !! sg) as [[G node]|], (e_sgs E' !! sg') as [[G' node']|]; try done. destruct Hss as (-> & -> & Hx).
    assert (forall gn name x, node_of G gn -> find_field gn name = Some x -> ks d (fkey_of x) (fkey_of x)) as Hx'.
    { intros gn name y Hn Hy. specialize (Hx gn name y Hn Hy). by destruct (fkey_of y). }
    cbn zeta. rewrite (mapR_fsim (fun p => option_values p.1 p.2) _ _ Hf); [|intros [y q] [y' q'] [(_ & Ho & _) Hq]; cbn in *; subst; by apply option_values_same].
    rewrite (map_fsim (fun p => reqs_of p.1) _ _ Hf); [|by intros [y q] [y' q'] [(_ & _ & Ho & _) _]].
    rewrite (map_fsim (fun p => proc_of p.1) _ _ Hf); [|by intros [y q] [y' q'] [(_ & _ & _ & Ho & _) _]].
    destruct (mapR _ fs) as [ovs|]; [|done]. destruct (dget THIS _) as [tq|]; [|done].
    set (rq := merge _). set (v := Wf G rq ts []).
    assert (length (w_wfs x'.1) = length (w_wfs x.1)) as Hlen by by (symmetry; apply (Forall2_length _ _ _ (proj1 Hs))). rewrite Hlen.
    pose proof (new_wf_grow x x' v v Hs ltac:(done)) as Hg1.
    set (x1 := (World (w_wfs x.1 ++ [v]) (w_log x.1), x.2)) in *. set (x1' := (World (w_wfs x'.1 ++ [v]) (w_log x'.1), x'.2)) in *.
    assert (forall P : graph -> graph -> Prop, P G G -> at_graphs (gs x1) (gs x1') (length (w_wfs x.1)) P) as Hat.
    { intros P HP. exists G, G. unfold gs, x1, x1'. cbn. rewrite !map_app. split; [|split; [|done]].
      - apply list_lookup_middle. by rewrite map_length.
      - apply list_lookup_middle. by rewrite map_length. }
    assert (rsim (grow x1 x1') (process_link pn (length (w_wfs x.1)) (g_root G) (GLink THIS Many node 0 None []) tq None (VList ids) x1)
      (process_link pn' (length (w_wfs x.1)) (g_root G) (GLink THIS Many node 0 None []) tq None (VList ids) x1')) as Hpl.
    { eapply process_link_sim; [exact Hpn|apply Hg1|done|done| |].
      - apply Hat. intros _. cbn [gl_node]. destruct (find_node G node) as [m|] eqn:Em; [|done]. apply nsim_self; [done|]. right. eauto.
      - intros _. by apply Hat. }
    destruct (process_link pn _ _ _ _ _ _ _) as [x2|], (process_link pn' _ _ _ _ _ _ _) as [x2'|]; try done. cbn in Hpl.
    match goal with |- context[pn ?a ?b ?c ?e x2] => pose proof (Hpn a b b c e x2 x2' (proj1 Hpl)) as Hpp end.
    match type of Hpp with ?P -> _ => assert P as HP end.
    { eapply grow_at; [exact Hpl|]. apply Hat. apply nsim_self; [done|]. by left. }
    specialize (Hpp HP). clear HP.
    match goal with |- context[pn ?a ?b ?c ?e x2] => destruct (pn a b c e x2) as [x3|], (pn' a b c e x2') as [x3'|]; try done end.
    split; [done|]. cbn. eapply grow_trans; [exact Hg1|]. by eapply grow_trans.
  Qed.

  Lemma schedule_fields_sim d pn pn' w gn gn' k k' fs fs' ids x x' : (forall e, e < d -> PN e pn pn') -> stsim x x' -> gn_name gn' = gn_name gn -> ks d k k' ->
    Forall2 fsim fs fs' ->
    rsim (fun p p' => p'.1 = p.1 /\ grow x x' p.2 p'.2) (schedule_fields E pn w gn k fs ids x) (schedule_fields E' pn' w gn' k' fs' ids x').
  Proof.
    intros Hpn Hs Hn Hk Hf. unfold schedule_fields. cbn zeta. rewrite (map_fsim snd _ _ Hf); [|by intros [] [] [_ ?]].
    destruct k as [f|sg], k' as [f'|sg']; try done.
    - pose proof (submit_sim w f f' (AFields (map snd fs) ids) x x' Hs Hk) as Hsub.
      destruct (submit E _ _ _ _) as [[fut y]|], (submit E' _ _ _ _) as [[fut' y']|]; try done. cbn in Hsub. destruct Hsub as [-> Hg]. split; [done|]. cbn.
      eapply grow_trans; [exact Hg|]. apply add_cb_sim; [apply Hg|]. done.
    - cbn in Hk. destruct d as [|d]; [done|]. destruct ids as [is_|]; [|done]. pose proof (get_wf_sim w _ _ Hs) as Hg.
      destruct (get_wf w x) as [v|], (get_wf w x') as [v'|]; try done. destruct Hg as ((_ & Ht & _) & _). rewrite Ht.
      pose proof Hs as (Hw & Hl & Hq). pose proof (q_fork_sim (gs x) (gs x') (Some (wf_ts v)) _ _ Hq) as Hfo.
      destruct (q_fork _ x.2) as [[t q]|], (q_fork _ x'.2) as [[t' q']|]; try done. cbn in Hfo. destruct Hfo as [-> Hq2].
      assert (grow x x' (x.1, q) (x'.1, q')) as Hg1 by (split; [|done]; by split).
      pose proof (sub_call_sim d pn pn' sg sg' fs fs' is_ t (x.1, q) (x'.1, q') (Hpn d ltac:(lia)) (proj1 Hg1) Hk Hf) as Hsc.
      destruct (sub_call E _ _ _ _ _ _) as [[[w2 procs] y]|], (sub_call E' _ _ _ _ _ _) as [[[w2' procs'] y']|]; try done.
      cbn in Hsc. destruct Hsc as [[= -> ->] Hg2]. split; [done|]. cbn. eapply grow_trans; [exact Hg1|]. eapply grow_trans; [exact Hg2|].
      apply add_cb_sim; [apply Hg2|]. done.
  Qed.
  Lemma lksim_sched G G' l l' q : lksim (ks D) G G' l l' q -> lsame l l'.
  Proof. by intros []. Qed.
  Lemma schedule_link_sim w gn gn' l l' q ids x x' : stsim x x' -> gn_name gn' = gn_name gn ->
    at_graphs (gs x) (gs x') w (fun G G' => lksim (ks D) G G' l l' q) ->
    rsim (fun p p' => p'.1 = p.1 /\ grow x x' p.2 p'.2) (schedule_link E w gn l q ids x) (schedule_link E' w gn' l' q ids x').
  Proof.
    intros Hs Hn Ha. assert (lsame l l') as Hl by (destruct Ha as (? & ? & _ & _ & []); done). unfold schedule_link.
    pose proof (get_wf_sim w _ _ Hs) as Hg. destruct (get_wf w x) as [v|], (get_wf w x') as [v'|]; try done. destruct Hg as ((_ & _ & Hi) & _).
    assert (req_true l' = req_true l) as Hrt by by rewrite Hl. rewrite Hrt, Hi. cbn zeta.
    assert (gl_opts l' = gl_opts l) as Ho by by rewrite Hl. rewrite Ho.
    destruct (req_true l) as [r|].
    - rewrite (link_reqs_name _ gn gn' r ids Hn). destruct (link_reqs _ _ _ _) as [a|]; [|done].
      match goal with |- context[submit E w ?f ?a x] => pose proof (submit_sim w f (gl_func l') a x x' Hs ltac:(by rewrite Hl)) as Hsub end.
      destruct (submit E _ _ _ _) as [[fut y]|], (submit E' _ _ _ _) as [[fut' y']|]; try done. cbn in Hsub. destruct Hsub as [-> Hg]. split; [done|]. cbn.
      eapply grow_trans; [exact Hg|]. apply add_cb_sim; [apply Hg|]. cbn. do 5 (split; [done|]). by eapply grow_at.
    - match goal with |- context[submit E w ?f ?a x] => pose proof (submit_sim w f (gl_func l') a x x' Hs ltac:(by rewrite Hl)) as Hsub end.
      destruct (submit E _ _ _ _) as [[fut y]|], (submit E' _ _ _ _) as [[fut' y']|]; try done. cbn in Hsub. destruct Hsub as [-> Hg]. split; [done|]. cbn.
      eapply grow_trans; [exact Hg|]. apply add_cb_sim; [apply Hg|]. cbn. do 5 (split; [done|]). by eapply grow_at.
  Qed.
  Lemma proc_steps_sim d pn pn' w gn gn' sp sp' ids x x' : d <= D -> (forall e, e < d -> PN e pn pn') -> stsim x x' -> gn_name gn' = gn_name gn ->
    at_graphs (gs x) (gs x') w (fun G G' => Forall2 (stpsim (ks d) G G' (ks d)) sp sp') ->
    rsim (grow x x') (proc_steps E pn w gn sp ids x) (proc_steps E' pn' w gn' sp' ids x').
  Proof.
    intros Hd Hpn Hs Hn Ha. pose proof Ha as (G & G' & HG & HG' & Hsp). destruct Hsp as [|a b sp sp' Hab Hsp]; [done|]. unfold proc_steps.
    assert (rsim (fun p p' => p'.1 = p.1 /\ grow x x' p.2 p'.2)
      (match a with StFields fk l => schedule_fields E pn w gn fk l ids x | StLink l q => schedule_link E w gn l q ids x end)
      (match b with StFields fk l => schedule_fields E' pn' w gn' fk l ids x' | StLink l q => schedule_link E' w gn' l q ids x' end)) as Hr.
    { destruct a as [k l|l q], b as [k' l'|l' q']; try done; cbn in Hab.
      - destruct Hab. by apply (schedule_fields_sim d).
      - destruct Hab as [Hab ->]. apply schedule_link_sim; [done|done|]. exists G, G'. split; [done|]. split; [done|].
        eapply lksim_mono; [|exact Hab]. intros k k'. by apply ks_mono. }
    cbn zeta. destruct (match a with StFields fk l => schedule_fields E pn w gn fk l ids x | StLink l q => schedule_link E w gn l q ids x end) as [[dep y]|],
      (match b with StFields fk l => schedule_fields E' pn' w gn' fk l ids x' | StLink l q => schedule_link E' w gn' l q ids x' end) as [[dep' y']|]; try done.
    cbn in Hr. destruct Hr as [-> Hg]. destruct Hsp as [|a2 b2 sp sp' Hab2 Hsp]; [done|]. cbn. eapply grow_trans; [exact Hg|]. apply add_cb_sim; [apply Hg|].
    cbn. do 3 (split; [done|]). eapply grow_at; [exact Hg|]. exists G, G'. split; [done|]. split; [done|].
    assert (Forall2 (stpsim (ks d) G G' (ks d)) (a2 :: sp) (b2 :: sp')) as Hall by by constructor.
    eapply Forall2_impl; [exact Hall|]. intros p p'. apply stpsim_mono; intros ? ?; by apply ks_mono.
  Qed.
  Section body.
    Context (d : nat) (pn pn' : nat -> gnode -> qnode -> option (list val) -> st -> res st) (K : fkey -> fkey -> Prop).
    Hypothesis (Hd : d <= D) (Hpn : forall e, e < d -> PN e pn pn') (HK : keys_ok (ks d) K).
    Lemma schedule_groups_sim w gn gn' ids gr gr' x x' : stsim x x' -> gn_name gn' = gn_name gn -> Forall2 (psim K (Forall2 fsim)) gr gr' ->
      rsim (fun p p' => Forall2 (psim K (fun a b => b = a)) p.1 p'.1 /\ grow x x' p.2 p'.2)
        (schedule_groups E pn w gn ids gr x) (schedule_groups E' pn' w gn' ids gr' x').
    Proof.
      intros Hs Hn Hgr. unfold schedule_groups.
      apply (foldR_sim (fun (p p' : dict fkey ckey * st) => Forall2 (psim K (fun a b => b = a)) p.1 p'.1 /\ grow x x' p.2 p'.2) (psim K (Forall2 fsim))); [done| |].
      - intros [dp y] [dp' y'] [k fs] [k' fs'] _ [H1 H2] [H3 H4]. cbn in *.
        pose proof (schedule_fields_sim d pn pn' w gn gn' k k' fs fs' ids y y' Hpn (proj1 H2) Hn (proj2 HK _ _ H3) H4) as Hsf.
        destruct (schedule_fields E _ _ _ _ _ _ _) as [[dep z]|], (schedule_fields E' _ _ _ _ _ _ _) as [[dep' z']|]; try done.
        cbn in Hsf. destruct Hsf as [-> Hg]. split; cbn; [|by eapply grow_trans]. apply dset_sim; [apply (proj1 HK)|done|done|done].
      - split; [constructor|]. by apply grow_refl.
    Qed.
    Lemma schedule_links_sim w gn gn' ids tf tf' td td' lk lk' x x' : stsim x x' -> gn_name gn' = gn_name gn ->
      Forall2 (psim (fun a b => b = a) K) tf tf' -> Forall2 (psim K (fun a b => b = a)) td td' ->
      at_graphs (gs x) (gs x') w (fun G G' => Forall2 (lqsim (ks d) G G') lk lk') ->
      rsim (grow x x') (schedule_links E w gn ids tf td lk x) (schedule_links E' w gn' ids tf' td' lk' x').
    Proof.
      intros Hs Hn Htf Htd (G & G' & HG & HG' & Hlk). unfold schedule_links. apply (foldR_sim (grow x x') (lqsim (ks d) G G')); [done| |by apply grow_refl].
      intros y y' [l q] [l' q'] _ Hg [Hl Hq]. cbn in Hl, Hq. subst q'. cbn [fst snd].
      assert (at_graphs (gs y) (gs y') w (fun G G' => lksim (ks D) G G' l l' q)) as Hat.
      { eapply grow_at; [exact Hg|]. exists G, G'. split; [done|]. split; [done|]. eapply lksim_mono; [|exact Hl]. intros ? ?. by apply ks_mono. }
      assert (req_true l' = req_true l) as Hrt by (destruct Hl as [-> _]; done). rewrite Hrt. destruct (req_true l) as [r|].
      - pose proof (dget_sim (fun a b : str => b = a) K ltac:(by intros ? ? ? ? -> ->) tf tf' r r Htf eq_refl) as Hr.
        destruct Hr as [f f' Hff|]; [|done]. pose proof (dget_sim K (fun a b : ckey => b = a) (proj1 HK) td td' f f' Htd Hff) as Hdep.
        destruct Hdep as [dep dep' ->|]; [|done]. eapply grow_trans; [exact Hg|]. apply add_cb_sim; [apply Hg|]. cbn. by do 4 (split; [done|]).
      - pose proof (schedule_link_sim w gn gn' l l' q ids y y' (proj1 Hg) Hn Hat) as Hsl.
        destruct (schedule_link E _ _ _ _ _ _) as [[dep z]|], (schedule_link E' _ _ _ _ _ _) as [[dep' z']|]; try done. destruct Hsl as [_ Hsl]. by eapply grow_trans.
    Qed.
    Lemma to_func_sim fs fs' : Forall2 (tsim K) fs fs' ->
      Forall2 (psim (fun a b => b = a) K) (of_pairs (map (fun t => (gi_name t.1.2, t.1.1)) fs)) (of_pairs (map (fun t => (gi_name t.1.2, t.1.1)) fs')).
    Proof.
      intros Hf. unfold of_pairs, dupdate. assert (forall a a', Forall2 (psim (fun a b : str => b = a) K) a a' ->
        Forall2 (psim (fun a b : str => b = a) K) (fold_left (fun d kv => dset kv.1 kv.2 d) (map (fun t => (gi_name t.1.2, t.1.1)) fs) a)
          (fold_left (fun d kv => dset kv.1 kv.2 d) (map (fun t => (gi_name t.1.2, t.1.1)) fs') a')) as Hgo; [|by apply Hgo].
      induction Hf as [|t t' fs fs' (H1 & (H2 & _) & _) Hf IH]; intros a a' Ha; [done|]. cbn. apply IH. apply dset_sim; [by intros ? ? ? ? -> ->|done|done|done].
    Qed.
    Lemma from_func_sim fs fs' : Forall2 (tsim K) fs fs' ->
      Forall2 (psim K (Forall2 fsim)) (fold_left (fun d t => dappend t.1.1 (t.1.2, t.2) d) fs []) (fold_left (fun d t => dappend t.1.1 (t.1.2, t.2) d) fs' []).
    Proof.
      intros Hf. assert (forall a a', Forall2 (psim K (Forall2 fsim)) a a' ->
        Forall2 (psim K (Forall2 fsim)) (fold_left (fun d t => dappend t.1.1 (t.1.2, t.2) d) fs a) (fold_left (fun d t => dappend t.1.1 (t.1.2, t.2) d) fs' a')) as Hgo; [|by apply Hgo].
      induction Hf as [|t t' fs fs' (H1 & H2 & H3) Hf IH]; intros a a' Ha; [done|]. cbn. apply IH. apply dappend_sim; [apply (proj1 HK)|done|done|done].
    Qed.
  End body.
  Lemma process_node_body_sim d pn pn' : d <= D -> (forall e, e < d -> PN e pn pn') -> PN d (process_node_body E pn) (process_node_body E' pn').
  Proof.
    intros Hd Hpn w gn gn' n ids x x' Hs (G & G' & HG & HG' & Hn & K & HK & Hq). unfold process_node_body. destruct (qordered n).
    - pose proof (group_query_sim (ks d) K G G' gn gn' HK _ Hq) as Hg. destruct (group_query gn _) as [sp|], (group_query gn' _) as [sp'|]; try done.
      cbn in Hg. destruct Hg as [|a b sp sp' Hab Hsp]; [by apply grow_refl|]. apply (proc_steps_sim d); [done|done|done|done|].
      exists G, G'. split; [done|]. split; [done|]. assert (Forall2 (stpsim (ks d) G G' K) (a :: sp) (b :: sp')) as Hall by by constructor.
      eapply Forall2_impl; [exact Hall|]. intros p p'. apply stpsim_mono; [done|]. apply HK.
    - pose proof (split_query_sim (ks d) K G G' gn gn' _ Hq) as Hg. destruct (split_query gn _) as [[fs lk]|], (split_query gn' _) as [[fs' lk']|]; try done.
      destruct Hg as [Hf Hlk]. cbn in Hf, Hlk. cbn zeta.
      pose proof (schedule_groups_sim d pn pn' K Hpn HK w gn gn' ids _ _ x x' Hs Hn (from_func_sim d K HK _ _ Hf)) as Hsg.
      destruct (schedule_groups E _ _ _ _ _ _) as [[td y]|], (schedule_groups E' _ _ _ _ _ _) as [[td' y']|]; try done. destruct Hsg as [Htd Hg]. cbn in Htd, Hg.
      eapply rsim_mono; [|eapply (schedule_links_sim d K Hd HK); [apply Hg|done|by apply to_func_sim|done|]].
      + intros a b. by apply grow_trans.
      + eapply grow_at; [exact Hg|]. by exists G, G'.
  Qed.
  Lemma process_node_sim : forall d fuel fuel', d <= D -> d < fuel -> d < fuel' -> PN d (process_node E fuel) (process_node E' fuel').
  Proof.
    intros d. induction (lt_wf d) as [d _ IH]. intros [|fuel] [|fuel'] Hd H1 H2; try lia. cbn [process_node]. apply process_node_body_sim; [done|].
    intros e He. apply IH; lia.
  Qed.
  Hypothesis (HD : D <= length (e_sgs E)) (HD' : D <= length (e_sgs E')).
  Lemma run_cb_sim c c' x x' : stsim x x' -> cbsim (gs x) (gs x') c c' -> rsim (grow x x') (run_cb E c x) (run_cb E' c' x').
  Proof.
    intros Hs Hc.
    assert (forall e, e <= D -> PN e (process_node E (pn_fuel E)) (process_node E' (pn_fuel E'))) as Hpn.
    { intros e He. apply process_node_sim; unfold pn_fuel; lia. }
    destruct c as [w gn qfs ids fut|w gn qfs ids a p|w gn l q ids|w gn l q ids fut|w gn sp ids], c' as [v gn' qfs' ids' fut'|v gn' qfs' ids' b p'|v gn' l' q' ids'|v gn' l' q' ids' fut'|v gn' sp' ids'];
      try done; cbn [cbsim] in Hc; cbn [run_cb].
    - destruct Hc as (-> & Hn & -> & -> & ->). rewrite (fut_result_sim fut _ _ Hs). destruct (fut_result E fut x); [|done]. by apply store_result_sim.
    - destruct Hc as (-> & Hn & -> & -> & -> & ->). rewrite (result_proc_sim a p _ _ Hs). destruct (result_proc E a p x); [|done]. by apply store_result_sim.
    - destruct Hc as (-> & Hn & -> & -> & Ha). pose proof (schedule_link_sim w gn gn' l l' q ids x x' Hs Hn Ha) as Hsl.
      destruct (schedule_link E _ _ _ _ _ _) as [[dep z]|], (schedule_link E' _ _ _ _ _ _) as [[dep' z']|]; try done. by destruct Hsl.
    - destruct Hc as (-> & Hn & -> & -> & -> & Ha). rewrite (fut_result_sim fut _ _ Hs). destruct (fut_result E fut x); [|done].
      destruct Ha as (G & G' & HG & HG' & Hl & Hq & Hm). eapply (process_link_sim D); [by apply Hpn|done|done|by apply lsame_weak| |congruence].
      exists G, G'. by split; [|split].
    - destruct Hc as (-> & Hn & -> & Ha). apply (proc_steps_sim D); [done| |done|done|done]. intros e He. apply Hpn. lia.
  Qed.
  Lemma emit_sim ev ev' x x' : stsim x x' -> grow x x' (x.1, q_emit ev x.2) (x'.1, q_emit ev' x'.2).
  Proof. intros (Hw & Hl & Hq). split; [|done]. by split. Qed.
  Lemma fires_sim k cs cs' x x' : stsim x x' -> Forall2 (cbsim (gs x) (gs x')) cs cs' ->
    rsim (grow x x') (foldR (fire (run_cb E) k) x cs) (foldR (fire (run_cb E') k) x' cs').
  Proof.
    intros Hs Hcs. eapply (foldR_sim (grow x x') (cbsim (gs x) (gs x'))); [done| |by apply grow_refl].
    intros y y' c c' _ Hg Hc. unfold fire. pose proof (emit_sim (EvFire k c) (EvFire k c') y y' (proj1 Hg)) as Hem.
    eapply rsim_mono; [|apply run_cb_sim; [apply Hem|]].
    - intros a b Hab. exact (grow_trans _ _ _ _ _ _ Hg (grow_trans _ _ _ _ _ _ Hem Hab)).
    - destruct Hg as (_ & H1 & H2). exact (cbsim_mono _ _ _ _ _ _ H1 H2 Hc).
  Qed.
  Lemma pop_sim k x x' : stsim x x' ->
    Forall2 (cbsim (gs x) (gs x')) (q_pop k x.2).1 (q_pop k x'.2).1 /\ grow x x' (x.1, (q_pop k x.2).2) (x'.1, (q_pop k x'.2).2).
  Proof.
    intros (Hw & Hl & Hq). pose proof Hq as (H1 & H2 & H3 & H4 & Hc). apply csim_psim in Hc. cbn [q_pop fst snd]. split.
    - by destruct (dget_sim (fun a b : ckey => b = a) _ ltac:(by intros ? ? ? ? -> ->) _ _ k k Hc eq_refl).
    - split; [|done]. split; [done|]. split; [done|]. do 4 (split; [done|]). cbn. apply csim_psim. apply ddel_sim; [by intros ? ? ? ? -> ->|done|done].
  Qed.
  Lemma fire_fut_sim x x' f : stsim x x' -> rsim stsim (fire_fut (run_cb E) x f) (fire_fut (run_cb E') x' f).
  Proof.
    intros Hs. unfold fire_fut. pose proof (emit_sim (EvDone f) (EvDone f) x x' Hs) as Hem. destruct (pop_sim (KF f) _ _ (proj1 Hem)) as [Hcs Hp]. cbn [fst snd] in Hcs, Hp.
    destruct (q_pop (KF f) (q_emit (EvDone f) x.2)) as [cs q], (q_pop (KF f) (q_emit (EvDone f) x'.2)) as [cs' q']. cbn in Hcs, Hp.
    eapply rsim_mono; [|apply fires_sim; [apply Hp|done]]. by intros a b [].
  Qed.
  Lemma complete_sim t x x' : stsim x x' -> stsim (x.1, q_complete t x.2) (x'.1, q_complete t x'.2).
  Proof.
    intros (Hw & Hl & H1 & H2 & H3 & H4 & Hc). split; [done|]. split; [done|]. split; cbn; [by rewrite H1|]. split; [by rewrite H2|]. done.
  Qed.
  Lemma fire_ts_sim x x' t : stsim x x' -> rsim stsim (fire_ts (run_cb E) x t) (fire_ts (run_cb E') x' t).
  Proof.
    intros Hs. unfold fire_ts. destruct (pop_sim (KT t) _ _ Hs) as [Hcs Hp].
    destruct (q_pop (KT t) x.2) as [cs q], (q_pop (KT t) x'.2) as [cs' q']. cbn in Hcs, Hp.
    pose proof (fires_sim (KT t) cs cs' _ _ (proj1 Hp) Hcs) as Hf.
    destruct (foldR (fire (run_cb E) _) _ _) as [y|], (foldR (fire (run_cb E') _) _ _) as [y'|]; try done. apply (complete_sim t). apply Hf.
  Qed.
  Lemma complete_loop_sim fuel : forall x x', stsim x x' -> rsim stsim (complete_loop (run_cb E) fuel x) (complete_loop (run_cb E') fuel x').
  Proof.
    assert (forall x x', stsim x x' -> q_completed x'.2 = q_completed x.2) as Hqc.
    { intros x x' (_ & _ & H1 & H2 & _). unfold q_completed. by rewrite H1, H2. }
    induction fuel as [|fuel IH]; intros x x' Hs; cbn [complete_loop]; rewrite (Hqc _ _ Hs); destruct (q_completed x.2) as [|t ts]; try done.
    assert (rsim stsim (foldR (fire_ts (run_cb E)) x (t :: ts)) (foldR (fire_ts (run_cb E')) x' (t :: ts))) as Hf.
    { apply (foldR_sim stsim (fun a b => b = a)); [|intros a a' b b' _ Ha ->; by apply fire_ts_sim|done]. clear. induction (t :: ts); constructor; auto. }
    destruct (foldR (fire_ts (run_cb E)) x (t :: ts)), (foldR (fire_ts (run_cb E')) x' (t :: ts)); try done. by apply IH.
  Qed.
  Lemma progress_sim fuel dn x x' : stsim x x' -> rsim stsim (progress (run_cb E) fuel dn x) (progress (run_cb E') fuel dn x').
  Proof.
    intros Hs. unfold progress.
    assert (stsim (x.1, q_difference dn x.2) (x'.1, q_difference dn x'.2)) as Hd.
    { destruct Hs as (Hw & Hl & H1 & H2 & H3 & H4 & Hc). split; [done|]. split; [done|]. split; [|done]. cbn. by rewrite H1. }
    assert (rsim stsim (foldR (fire_fut (run_cb E)) (x.1, q_difference dn x.2) dn) (foldR (fire_fut (run_cb E')) (x'.1, q_difference dn x'.2) dn)) as Hf.
    { apply (foldR_sim stsim (fun a b => b = a)); [|intros a a' b b' _ Ha ->; by apply fire_fut_sim|done]. clear. induction dn; constructor; auto. }
    destruct (foldR (fire_fut (run_cb E)) _ dn), (foldR (fire_fut (run_cb E')) _ dn); try done. by apply complete_loop_sim.
  Qed.
  Lemma futures_sim x x' : stsim x x' -> q_futures x'.2 = q_futures x.2.
  Proof. intros (_ & _ & H1 & _). unfold q_futures. by rewrite H1. Qed.
  Lemma executes_sim fuel sched x x' r : stsim x x' -> executes (run_cb E) fuel sched x r ->
    exists r', executes (run_cb E') fuel sched x' r' /\ rsim stsim r r'.
  Proof.
    intros Hs He. revert x' Hs. induction He as [x Hf|dn x e H1 H2 H3 Hp|dn sched x y r H1 H2 H3 Hp He IH]; intros x' Hs.
    - exists (Ok x'). split; [|done]. constructor. by rewrite (futures_sim _ _ Hs).
    - pose proof (progress_sim fuel dn _ _ Hs) as Hx. rewrite Hp in Hx. destruct (progress (run_cb E') fuel dn x') as [y'|e'] eqn:Hp'; [done|]. cbn in Hx. subst e'.
      exists (Err e). split; [|done]. constructor; try done. by rewrite (futures_sim _ _ Hs).
    - pose proof (progress_sim fuel dn _ _ Hs) as Hx. rewrite Hp in Hx. destruct (progress (run_cb E') fuel dn x') as [y'|e'] eqn:Hp'; [|done].
      destruct (IH y' Hx) as (r' & Hr & Hrr). exists r'. split; [|done]. econstructor; try done. by rewrite (futures_sim _ _ Hs).
  Qed.
  Lemma executes_sim_inv fuel sched x x' r' : stsim x x' -> executes (run_cb E') fuel sched x' r' ->
    exists r, executes (run_cb E) fuel sched x r /\ rsim stsim r r'.
  Proof.
    intros Hs He. revert x Hs. induction He as [x' Hf|dn x' e H1 H2 H3 Hp'|dn sched x' y' r H1 H2 H3 Hp' He IH]; intros x Hs.
    - exists (Ok x). split; [|done]. constructor. by rewrite <-(futures_sim _ _ Hs).
    - pose proof (progress_sim fuel dn _ _ Hs) as Hx. rewrite Hp' in Hx. destruct (progress (run_cb E) fuel dn x) as [y|e'] eqn:Hp; [done|]. cbn in Hx. subst e'.
      exists (Err e). split; [|done]. constructor; try done. by rewrite <-(futures_sim _ _ Hs).
    - pose proof (progress_sim fuel dn _ _ Hs) as Hx. rewrite Hp' in Hx. destruct (progress (run_cb E) fuel dn x) as [y|e'] eqn:Hp; [|done].
      destruct (IH y Hx) as (r' & Hr & Hrr). exists r'. split; [|done]. econstructor; try done. by rewrite <-(futures_sim _ _ Hs).
  Qed.

  (** ** Executions *)
  Context (g g' : graph) (q : qnode).
  Hypothesis (Hio : init_options g' q = init_options g q).
  Hypothesis (Hns : forall q', init_options g q = Ok q' -> nsim (ks D) g g' (g_root g) (g_root g') q').
  Lemma start_sim : rsim stsim (start E g q) (start E' g' q).
  Proof.
    unfold start. rewrite Hio. destruct (init_options g q) as [q'|] eqn:Ei; [|done]. cbn [q_fork q_empty].
    eapply rsim_mono; [|apply (process_node_sim D); unfold pn_fuel; [lia|lia|lia| |]].
    - by intros a b [].
    - split; [by repeat constructor|]. split; [done|]. do 4 (split; [done|]). constructor.
    - exists g, g'. by split; [|split; [|apply Hns]].
  Qed.
  Theorem sim_execute fuel sched r : execute E fuel g q sched r <-> execute E' fuel g' q sched r.
  Proof.
    pose proof start_sim as Hst. split; intros He.
    - inversion He as [e Hs| x sc e Hs Hx|x sc y v Hs Hx Hv]; subst; rewrite Hs in Hst; destruct (start E' g' q) as [x'|e'] eqn:Hs'; try done; cbn in Hst.
      + subst. by constructor.
      + destruct (executes_sim fuel _ _ _ _ Hst Hx) as ([|] & Hr & Hrr); [done|]. cbn in Hrr. subst. by eapply exec_err.
      + destruct (executes_sim fuel _ _ _ _ Hst Hx) as ([y'|] & Hr & Hrr); [|done]. cbn in Hrr. destruct Hrr as (Hw & _).
        destruct (Forall2_lookup_l _ _ _ _ _ Hw Hv) as (v' & Hv' & Hq & _ & Hi). rewrite <-Hq, <-Hi. by eapply exec_ok.
    - inversion He as [e Hs'| x' sc e Hs' Hx|x' sc y' v' Hs' Hx Hv']; subst; rewrite Hs' in Hst; destruct (start E g q) as [x|e'] eqn:Hs; try done; cbn in Hst.
      + subst. by constructor.
      + destruct (executes_sim_inv fuel _ _ _ _ Hst Hx) as ([|] & Hr & Hrr); [done|]. cbn in Hrr. subst. by eapply exec_err.
      + destruct (executes_sim_inv fuel _ _ _ _ Hst Hx) as ([y|] & Hr & Hrr); [|done]. cbn in Hrr. destruct Hrr as (Hw & _).
        destruct (Forall2_lookup_r _ _ _ _ _ Hw Hv') as (v & Hv & Hq & _ & Hi). rewrite Hq, Hi. by eapply exec_ok.
  Qed.
  Theorem sim_log fuel sched log : exec_log E fuel g q sched log <-> exists log', exec_log E' fuel g' q sched log' /\ log = map rename_call log'.
  Proof.
    pose proof start_sim as Hst. split.
    - intros (x & y & Hs & Hx & <-). rewrite Hs in Hst. destruct (start E' g' q) as [x'|e'] eqn:Hs'; [|done]. cbn in Hst.
      destruct (executes_sim fuel _ _ _ _ Hst Hx) as ([y'|] & Hr & Hrr); [|done]. exists (w_log y'.1). split; [by exists x', y'|]. apply Hrr.
    - intros (log' & (x' & y' & Hs' & Hx & <-) & ->). rewrite Hs' in Hst. destruct (start E g q) as [x|e'] eqn:Hs; [|done]. cbn in Hst.
      destruct (executes_sim_inv fuel _ _ _ _ Hst Hx) as ([y|] & Hr & Hrr); [|done]. exists x, y. split; [done|]. split; [done|]. apply Hrr.
  Qed.
End sim.

(** A concrete graph, query, data and loaders: they meet the hypotheses of the theorems about
    execution ([PropEngine], [PropTrace], [PropStore], [PropOptions]). *)
From Verif Require Import Base Val Types Query QuerySpec QueryProof Graph Queue Result Engine EngineSpec Examples.

(** ** Loaders serving given data *)
Definition oracle_of (D : data) (c : call) : outcome :=
  match c_args c with
  | AFields qfs (Some ids) =>
      Ret (VList (map (fun i => VTuple (map (fun q => d_field D (c_func c) (Some i) (q_name q) (q_opts q)) qfs)) ids))
  | AFields qfs None => RetGen (map (fun q => d_field D (c_func c) None (q_name q) (q_opts q)) qfs)
  | ALink (Some (RList l)) o =>
      Ret (VList (map (fun v => match v with IVal a => d_link D (c_func c) (Some a) o | _ => VNone end) l))
  | ALink (Some (ROne v)) o => Ret (match v with IVal a => d_link D (c_func c) (Some a) o | _ => VNone end)
  | ALink None o => Ret (d_link D (c_func c) None o)
  end.
Lemma oracle_of_serves E D : (forall n c, e_oracle E n c = oracle_of D c) -> serves E D.
Proof.
  intros He n c. rewrite He. unfold oracle_of, answers. destruct (c_args c) as [qfs [ids|]|[[l|v]|] o]; simpl; eexists; split; try done.
  - eexists. split; [done|]. induction ids as [|i ids IH]; simpl; [constructor|]. by constructor.
  - intros vs ->. simpl. by rewrite map_map.
  - intros a ->. done.
Qed.

(** ** Checking [supported] *)
Section check.
  Context (g : graph).
  Fixpoint visits_item (gn : gnode) (q : qitem) {struct q} : list (gnode * qnode) :=
    match q with
    | QF _ _ _ => []
    | QL n sub ord _ _ =>
        match find_field gn n with
        | Some (GL l) => match find_node g (gl_node l) with
                         | Some gn' => (gn', QN sub ord) :: flat_map (visits_item gn') sub
                         | None => []
                         end
        | _ => []
        end
    end.
  Definition visits (q0 : qnode) : list (gnode * qnode) :=
    (g_root g, q0) :: flat_map (visits_item (g_root g)) (qfields q0).

  Lemma visits_item_closed q : forall gn gn1 n1 q1 l gn2, (gn1, n1) ∈ visits_item gn q -> q1 ∈ qfields n1 -> q_is_link q1 = true ->
    find_field gn1 (q_name q1) = Some (GL l) -> find_node g (gl_node l) = Some gn2 -> (gn2, q_node q1) ∈ visits_item gn q.
  Proof.
    induction q as [nm o a|nm sub ord o a IH] using qitem_ind'; intros gn gn1 n1 q1 l gn2 Hin Hq1 Hk Hf Hn; simpl in *.
    - by apply not_elem_of_nil in Hin.
    - destruct (find_field gn nm) as [[|l0]|]; [by apply not_elem_of_nil in Hin| |by apply not_elem_of_nil in Hin].
      destruct (find_node g (gl_node l0)) as [gn'|]; [|by apply not_elem_of_nil in Hin].
      apply elem_of_cons in Hin as [[= -> ->]|Hin].
      + right. simpl in Hq1. apply elem_of_list_In, in_flat_map. exists q1. split; [by apply elem_of_list_In|].
        apply elem_of_list_In. destruct q1 as [|n1 s1 o1 p1 a1]; [done|]. simpl in *. rewrite Hf, Hn. left.
      + right. apply elem_of_list_In, in_flat_map in Hin as (q2 & Hq2 & Hin). apply elem_of_list_In, in_flat_map.
        exists q2. split; [done|]. apply elem_of_list_In. rewrite Forall_forall in IH.
        apply elem_of_list_In in Hq2, Hin. by apply (IH q2 Hq2 gn' gn1 n1 q1 l gn2).
  Qed.
  Lemma visited_visits q0 gn n : visited g q0 gn n -> (gn, n) ∈ visits q0.
  Proof.
    induction 1 as [|gn n q l gn' Hv IH Hq Hk Hf Hn]; [left|]. right. apply elem_of_cons in IH as [[= -> ->]|IH].
    - apply elem_of_list_In, in_flat_map. exists q. split; [by apply elem_of_list_In|]. apply elem_of_list_In.
      destruct q as [|n1 s1 o1 p1 a1]; [done|]. simpl in *. rewrite Hf, Hn. left.
    - apply elem_of_list_In, in_flat_map in IH as (q2 & Hq2 & Hin). apply elem_of_list_In, in_flat_map.
      exists q2. split; [done|]. apply elem_of_list_In in Hin. apply elem_of_list_In. by apply (visits_item_closed q2 _ gn n q l gn').
  Qed.

  Definition plain_b (f : gfield) : bool := match gf_func f with FPlain _ => true | _ => false end.
  Definition item_b (gn : gnode) (n : qnode) (q : qitem) : bool :=
    match find_field gn (q_name q) with
    | Some (GF f) => plain_b f && (negb (q_is_link q) || negb (qordered n))
    | Some (GL l) =>
        q_is_link q && match find_node g (gl_node l) with Some _ => true | None => false end &&
        match gl_requires l with
        | Some r => match r with [] => false | _ => true end &&
                    match find_field gn r with Some (GF f) => plain_b f | _ => false end
        | None => true
        end
    | None => false
    end.
  Definition asked_list (gn : gnode) (n : qnode) : list qitem :=
    qfields n ++ omap (fun q => match find_field gn (q_name q) with
                                | Some (GL l) => match gl_requires l with Some r => Some (QF r None None) | None => None end
                                | _ => None end) (qfields n).
  Definition supported_b `{Hasher} (q0 : qnode) : bool :=
    let vs := visits q0 in
    forallb (fun p => forallb (item_b p.1 p.2) (qfields p.2)) vs &&
    forallb (fun p => bool_decide (NoDup (map result_key (qfields p.2)))) vs &&
    forallb (fun p => forallb (fun q => bool_decide (91%N ∉ q_name q)) (asked_list p.1 p.2)) vs &&
    no_collision_b (flat_map (fun p => asked_list p.1 p.2) vs) &&
    match find_node g (s "__root__") with None => true | Some _ => false end.

  Lemma asked_asked_list q0 gn q : asked g q0 gn q -> exists n, (gn, n) ∈ visits q0 /\ q ∈ asked_list gn n.
  Proof.
    intros (n & Hv & Hq). exists n. split; [by apply visited_visits|]. unfold asked_list. apply elem_of_app.
    destruct Hq as [Hq|(q' & l & r & Hq & _ & Hf & Hr & ->)]; [by left|right].
    apply elem_of_list_omap. exists q'. by rewrite Hf, Hr.
  Qed.
  Lemma plain_b_ok f : plain_b f = true -> plain_field f.
  Proof. unfold plain_b, plain_field. destruct (gf_func f); [eauto|done]. Qed.

  Lemma supported_check `{Hasher} q0 : supported_b q0 = true -> supported g q0.
  Proof.
    unfold supported_b. intros Hb.
    apply andb_true_iff in Hb as [Hb H0]. apply andb_true_iff in Hb as [Hb H1]. apply andb_true_iff in Hb as [Hb H2]. apply andb_true_iff in Hb as [Hb H3].
    repeat match goal with h : forallb _ _ = true |- _ => rewrite forallb_forall in h end.
    split.
    - intros gn n q Hv Hq. apply visited_visits, elem_of_list_In in Hv. specialize (Hb _ Hv). simpl in Hb.
      rewrite forallb_forall in Hb. apply elem_of_list_In in Hq. specialize (Hb _ Hq). unfold item_b in Hb.
      destruct (find_field gn (q_name q)) as [[f|l]|]; [| |done].
      + apply andb_true_iff in Hb as [H5 H6]. split; [by apply plain_b_ok|]. intros Hk. rewrite Hk in H6. simpl in H6. by destruct (qordered n).
      + apply andb_true_iff in Hb as [Hb H5]. apply andb_true_iff in Hb as [H6 H7]. split; [done|].
        split; [destruct (find_node _ _); [by eexists|done]|]. destruct (gl_requires l) as [r|]; [|done].
        apply andb_true_iff in H5 as [H8 H9]. split; [by destruct r|].
        destruct (find_field gn r) as [[f|]|]; [|done|done]. exists f. split; [done|by apply plain_b_ok].
    - intros gn n Hv. apply visited_visits, elem_of_list_In in Hv. by eapply bool_decide_eq_true_1, (H3 _ Hv).
    - intros gn q (n & Hv & Hq)%asked_asked_list. apply elem_of_list_In in Hv, Hq. specialize (H2 _ Hv). simpl in H2.
      rewrite forallb_forall in H2. by apply (bool_decide_eq_true_1 _ (H2 _ Hq)).
    - intros gn. eapply no_collision_check; [|exact H1]. intros q (n & Hv & Hq)%asked_asked_list.
      apply elem_of_list_In, in_flat_map. exists (gn, n). split; [by apply elem_of_list_In|by apply elem_of_list_In].
    - by destruct (find_node g (s "__root__")).
  Qed.
End check.

(** ** The instance *)
(** [Root([Field('version'), Field('limited', options=[n, required; m = 5]),
     Link('users', Sequence[User], requires=None), Link('me', Optional[User], requires='me_id'),
     Field('me_id'), Link('none', ...)]),
     Node('User', [Field('name'), Field('friend_ids'), Link('friends', Sequence[User],
     requires='friend_ids', options=[first = 10]), Link('boss', TypeRef[User], requires='boss_id')])] *)
Definition ex_user : gnode := GNode (Some (s "User"))
  [GF (GField (s "name") None (FPlain 1) []);
   GF (GField (s "friend_ids") None (FPlain 1) []);
   GF (GField (s "boss_id") None (FPlain 2) []);
   GL (GLink (s "friends") Many (s "User") 10 (Some (s "friend_ids")) [GOption (s "first") None (VInt 10)]);
   GL (GLink (s "boss") One (s "User") 11 (Some (s "boss_id")) [])].
Definition ex_root : gnode := GNode None
  [GF (GField (s "version") None (FPlain 3) []);
   GF (GField (s "limited") None (FPlain 3) [GOption (s "n") None VNothing; GOption (s "m") None (VInt 5)]);
   GF (GField (s "me_id") None (FPlain 4) []);
   GL (GLink (s "users") Many (s "User") 12 None []);
   GL (GLink (s "me") Maybe (s "User") 13 (Some (s "me_id")) []);
   GL (GLink (s "nobody") Maybe (s "User") 14 None [])].
Definition ex_graph : graph := Graph [ex_user; ex_root] [].

(** Users are numbers: the boss of [n] is 1, its friends are 1 and 2. *)
Definition ex_data : data := {|
  d_field := fun f i n o =>
    if bool_decide (n = s "name") then VTuple [VStr (s "user"); default VNone i]
    else if bool_decide (n = s "friend_ids") then VList [VInt 1; VInt 2]
    else if bool_decide (n = s "boss_id") then VInt 1
    else if bool_decide (n = s "me_id") then VInt 7
    else if bool_decide (n = s "limited") then VInt (Z.of_nat (length (opt_dict o)))
    else VStr (s "1.0");
  d_link := fun f a o =>
    if (f =? 10)%N then match a with Some (VList l) => VList l | _ => VList [] end
    else if (f =? 11)%N then VInt 1
    else if (f =? 12)%N then VList [VInt 1; VInt 2; VInt 3]
    else if (f =? 13)%N then default VNone a
    else VNothing |}.
Definition ex_env (eager : bool) : env :=
  Env [] (fun _ => oracle_of ex_data) (fun f => (f =? 12)%N) (fun _ _ _ _ => Err KeyError) eager.

(** [[:version (:limited {:n 3}) {:users [:name {:friends [:name {:boss [:name]}]}]} {:me [:name]} {:nobody [:name]}]];
    the sub-query of [me] is ordered. *)
Definition ex_query : qnode :=
  QN [QF (s "version") None None;
      QF (s "limited") (Some [(s "n", VInt 3)]) (Some (s "lim"));
      QL (s "users") [QF (s "name") None None;
                      QL (s "friends") [QF (s "name") None None;
                                        QL (s "boss") [QF (s "name") None None] false None None] false None None]
         false None None;
      QL (s "me") [QF (s "name") None None; QL (s "boss") [QF (s "name") None None] false None None;
                   QF (s "name") None (Some (s "name2"))] true None None;
      QL (s "nobody") [QF (s "name") None None] false None None] false.
(** The query with options filled in *)
Definition ex_query' : qnode :=
  match init_options ex_graph ex_query with Ok q => q | Err _ => ex_query end.

#[local] Existing Instance ex_hasher.
Example ex_init : init_options ex_graph ex_query = Ok ex_query'.
Proof. vm_compute. reflexivity. Qed.
Example ex_serves eager : serves (ex_env eager) ex_data.
Proof. by apply oracle_of_serves. Qed.
(** The data depends only on the number of options. *)
Lemma same_val_size v w : same_val v w ->
  (match v with VDict d => length d | _ => 0 end) = (match w with VDict d => length d | _ => 0 end).
Proof.
  induction 1 as [|v w _ IH|u v w _ IH1 _ IH2| |d d' _ Hp|]; try done; try congruence.
  - unfold opts_val. by rewrite !map_length, Hp.
  - by rewrite !app_length.
Qed.
Lemma same_opts_size o o' : same_opts o o' -> length (opt_dict o) = length (opt_dict o').
Proof. intros Ho%same_val_size. unfold opts_val in Ho. by rewrite !map_length in Ho. Qed.
Example ex_respects : respects_options ex_data.
Proof. split; [|done]. intros f i n o o' Ho%same_opts_size. simpl. by rewrite Ho. Qed.
Example ex_supported : supported ex_graph ex_query'.
Proof. apply supported_check. vm_compute. reflexivity. Qed.
Example ex_links_ok : links_ok ex_graph (plain_value ex_data) ex_data ex_query'.
Proof.
  intros gn n i q l Hv Hq Hf.
  assert ((gl_func l, gl_enum l) ∈ [(10%N, Many); (11%N, One); (12%N, Many); (13%N, Maybe); (14%N, Maybe)]) as Hl.
  { clear Hq. apply visited_visits, elem_of_list_In in Hv. apply dget_Some_elem, elem_of_list_In in Hf.
    apply elem_of_list_In. vm_compute in Hv.
    repeat destruct Hv as [Hv|Hv]; try done; inversion Hv; subst gn n; clear Hv; vm_compute in Hf;
      repeat destruct Hf as [Hf|Hf]; try done; inversion Hf; subst l; vm_compute; tauto. }
  unfold link_value, ex_data. simpl.
  repeat (apply elem_of_cons in Hl as [Hl|Hl]; [injection Hl as -> ->; simpl|]); try done; try by eexists.
  all: try by apply not_elem_of_nil in Hl.
  destruct (link_arg _ _ _ _) as [[]|]; by eexists.
Qed.

(** Executions: finished calls are reported one by one in the order of submission, one by one
    in another order, all together. *)
Definition ex_fuel : nat := 100.
Definition admissible_b (dn fs : list nat) : bool :=
  match dn with [] => false | _ => true end && bool_decide (NoDup dn) && forallb (fun f => bool_decide (f ∈ fs)) dn.
Fixpoint run_rounds (E : env) (sched : list (list nat)) (x : st) : option st :=
  match sched with
  | [] => Some x
  | dn :: sched =>
      if admissible_b dn (q_futures x.2) then
        match progress (run_cb E) ex_fuel dn x with
        | Err e => None
        | Ok y => run_rounds E sched y
        end
      else None
  end.
Lemma run_rounds_executes E sched x y :
  run_rounds E sched x = Some y -> q_futures y.2 = [] -> executes (run_cb E) ex_fuel sched x (Ok y).
Proof.
  revert x. induction sched as [|dn sched IH]; intros x.
  - intros [= ->] Hf. by constructor.
  - cbn [run_rounds]. destruct (admissible_b dn (q_futures x.2)) eqn:Ea; [|done].
    destruct (progress (run_cb E) ex_fuel dn x) as [z|] eqn:Ep; [|done]. intros Hr Hf.
    unfold admissible_b in Ea. apply andb_true_iff in Ea as [Ea E1]. apply andb_true_iff in Ea as [E2 E3].
    eapply ex_step; [by destruct dn|by apply bool_decide_eq_true_1 in E3| |exact Ep|by apply IH].
    intros f Hd%elem_of_list_In. rewrite forallb_forall in E1. by apply (bool_decide_eq_true_1 _ (E1 _ Hd)).
Qed.
Lemma run_rounds_rounds E sched : forall sched0 x0 x y, rounds E ex_fuel sched0 x0 x ->
  run_rounds E sched x = Some y -> rounds E ex_fuel (sched0 ++ sched) x0 y.
Proof.
  induction sched as [|dn sched IH]; intros sched0 x0 x y Hr.
  - intros [= ->]. by rewrite app_nil_r.
  - cbn [run_rounds]. destruct (admissible_b dn (q_futures x.2)) eqn:Ea; [|done].
    destruct (progress (run_cb E) ex_fuel dn x) as [z|] eqn:Ep; [|done]. intros Hz.
    unfold admissible_b in Ea. apply andb_true_iff in Ea as [Ea E1]. apply andb_true_iff in Ea as [E2 E3].
    replace (sched0 ++ dn :: sched) with ((sched0 ++ [dn]) ++ sched) by by rewrite <-app_assoc.
    apply (IH _ _ z); [|done]. eapply rd_snoc; [exact Hr|by destruct dn|by apply bool_decide_eq_true_1 in E3| |exact Ep].
    intros f Hd%elem_of_list_In. rewrite forallb_forall in E1. by apply (bool_decide_eq_true_1 _ (E1 _ Hd)).
Qed.

Definition sched1 : list (list nat) := map (fun n => [n]) (seq 0 16).
Definition sched2 : list (list nat) := [[3]; [2]; [4]; [5]; [7]; [8]; [9]; [6]; [1]; [10]; [11]; [12]; [13]; [15]; [14]; [0]].
Definition sched3 : list (list nat) := [[0; 1; 2; 3]; [4; 5]; [6; 7]; [8; 9; 10]; [11; 12]; [13; 14; 15]].

Definition ex_start : st := match start (ex_env false) ex_graph ex_query with Ok x => x | Err _ => (World [] [], q_empty) end.
Definition ex_end (sched : list (list nat)) : st := match run_rounds (ex_env false) sched ex_start with Some y => y | None => ex_start end.
Definition ex_index (sched : list (list nat)) : index := match w_wfs (ex_end sched).1 !! 0 with Some v => wf_index v | None => [] end.
Example ex_started : start (ex_env false) ex_graph ex_query = Ok ex_start.
Proof.
  unfold ex_start. destruct (start (ex_env false) ex_graph ex_query) as [x|e] eqn:E; [done|]. exfalso.
  assert (match start (ex_env false) ex_graph ex_query with Ok _ => true | Err _ => false end = true) as Ht by (vm_compute; reflexivity).
  by rewrite E in Ht.
Qed.
#[local] Instance qitem_eq_dec : EqDecision qitem.
Proof.
  refine (fix go (a b : qitem) : {a = b} + {a <> b} := _). refine (
  match a, b with
  | QF n o a, QF n' o' a' => cast_if_and3 (decide (n = n')) (decide (o = o')) (decide (a = a'))
  | QL n l b o a, QL n' l' b' o' a' => let _ : EqDecision qitem := go in
      cast_if_and5 (decide (n = n')) (decide (l = l')) (decide (b = b')) (decide (o = o')) (decide (a = a'))
  | _, _ => right _ end); abstract congruence.
Defined.
#[local] Instance qnode_eq_dec : EqDecision qnode.
Proof. solve_decision. Defined.
Definition ends_well (sched : list (list nat)) : bool :=
  match run_rounds (ex_env false) sched ex_start with
  | Some y => match q_futures y.2, w_wfs y.1 with
              | [], v :: _ => bool_decide (wf_query v = ex_query')
              | _, _ => false
              end
  | None => false
  end.
Lemma ends_well_execute sched : ends_well sched = true ->
  execute (ex_env false) ex_fuel ex_graph ex_query sched (Ok (ex_index sched, ex_query')).
Proof.
  intros He. unfold ends_well in He. destruct (run_rounds (ex_env false) sched ex_start) as [y|] eqn:Er; [|done].
  assert (ex_end sched = y) as Hend by (unfold ex_end; by rewrite Er).
  destruct (q_futures y.2) eqn:Ef; [|done]. destruct (w_wfs y.1) as [|v vs] eqn:Ew; [done|].
  apply bool_decide_eq_true_1 in He. unfold ex_index. rewrite Hend, Ew. simpl. rewrite <-He.
  eapply exec_ok; [exact ex_started|by apply run_rounds_executes|by rewrite Ew].
Qed.
Lemma ex_ends_well sched : sched ∈ [sched1; sched2; sched3] -> ends_well sched = true.
Proof.
  intros Hs. repeat (apply elem_of_cons in Hs as [->|Hs]; [vm_compute; reflexivity|]). by apply not_elem_of_nil in Hs.
Qed.
Example ex_execute sched : sched ∈ [sched1; sched2; sched3] ->
  execute (ex_env false) ex_fuel ex_graph ex_query sched (Ok (ex_index sched, ex_query')).
Proof. intros Hs. by apply ends_well_execute, ex_ends_well. Qed.
Example ex_rounds : rounds (ex_env false) ex_fuel (take 7 sched2) ex_start (ex_end (take 7 sched2)).
Proof.
  apply (run_rounds_rounds _ (take 7 sched2) [] _ ex_start); [constructor|].
  unfold ex_end. destruct (run_rounds (ex_env false) (take 7 sched2) ex_start) as [y|] eqn:E; [done|]. exfalso.
  assert (match run_rounds (ex_env false) (take 7 sched2) ex_start with Some _ => true | None => false end = true) as Ht by (vm_compute; reflexivity).
  by rewrite E in Ht.
Qed.

(** The result: the same for the three of them. *)
Definition exN (n : Z) : vtree := TO [(s "name", TP (PRaw (IVal (VTuple [VStr (s "user"); VInt n]))))].
Definition exF (n : Z) : vtree := TO [(s "name", TP (PRaw (IVal (VTuple [VStr (s "user"); VInt n])))); (s "boss", exN 1)].
Definition exU (n : Z) : vtree :=
  TO [(s "name", TP (PRaw (IVal (VTuple [VStr (s "user"); VInt n])))); (s "friends", TL [exF 1; exF 2])].
Definition ex_result : vtree :=
  TO [(s "version", TP (PRaw (IVal (VStr (s "1.0"))))); (s "lim", TP (PRaw (IVal (VInt 2))));
      (s "users", TL [exU 1; exU 2; exU 3]);
      (s "me", TO [(s "name", TP (PRaw (IVal (VTuple [VStr (s "user"); VInt 7])))); (s "boss", exN 1);
                   (s "name2", TP (PRaw (IVal (VTuple [VStr (s "user"); VInt 7]))))]);
      (s "nobody", TP (PRaw (IVal VNone)))].
Example ex_resolved : resolve_query ex_graph (plain_value ex_data) ex_data ex_query' = Ok ex_result.
Proof. vm_compute. reflexivity. Qed.
Example ex_denormalized sched : sched ∈ [sched1; sched2; sched3] -> denormalize ex_graph (ex_index sched) ex_query' = Ok ex_result.
Proof.
  intros Hs. repeat (apply elem_of_cons in Hs as [->|Hs]; [vm_compute; reflexivity|]). by apply not_elem_of_nil in Hs.
Qed.
(** The loader of [friends] is called once for the three users, with their [friend_ids]. *)
Example ex_calls : List.filter (fun c => (c_func c =? 10)%N) (w_log (ex_end sched3).1) =
  [Call 10 false (ALink (Some (RList (repeat (IVal (VList [VInt 1; VInt 2])) 3))) (Some (Some [(s "first", VInt 10)])))].
Proof. vm_compute. reflexivity. Qed.

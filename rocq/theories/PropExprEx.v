(** An instance of C53: a graph whose fields are defined by expressions over another graph. *)
From Verif Require Import Base Val Types Query QuerySpec QueryProof Graph Queue QueueSpec Result Engine EngineSpec Examples ExEngine CostSpec SubSpec SubPathSpec SubJob
  ExSub ExSubCheck PropOptions Validate ValidateSpec PropValidate PropValExec PropTrace PropBound EngineSubRun PropSub PropSubExpr PropSubWf PropSubVal ExSubWf
  ExprBindSpec ExprRun PropExprRun PropExprBind PropExprSound SubWfSpec.
From Verif Require Expr ExprSpec.
Import Expr (EConst, ESym, EGet, EEach, EIfSome, ECall, EList, EDict).
#[local] Existing Instance ex_hasher.

(** The low-level graph: [Node('user', [name, age, boss_id, friend_ids, boss, friends])], [Root([now])] *)
Definition xl_user : gnode := GNode (Some (s "user"))
  [GF (GField (s "name") (Some TStr) (FPlain 21) []);
   GF (GField (s "age") None (FPlain 21) []);
   GF (GField (s "boss_id") None (FPlain 22) []);
   GL (GLink (s "boss") One (s "user") 31 (Some (s "boss_id")) []);
   GL (GLink (s "friends") Many (s "user") 33 (Some (s "boss_id")) [])].
Definition xl_graph : graph := Graph [xl_user; low_root] [].
(** [label]: S.this.name; [stamp]: f(S.this.age, S.this.boss.name, S.now, S.fmt); [circle]: each(S.x, S.this.friends, [S.x.name, S.now]) *)
Definition this : Expr.expr := ESym Expr.THIS None.
Definition e_label : Expr.expr := EGet this (s "name") None.
Definition e_stamp : Expr.expr :=
  ECall (s "f") None [EGet this (s "age") None; EGet (EGet this (s "boss") None) (s "name") None; ESym (s "now") None; ESym (s "fmt") None].
Definition e_circle : Expr.expr :=
  EEach (s "x") None (EGet this (s "friends") None) (EList [EGet (ESym (s "x") None) (s "name") None; ESym (s "now") None]).
Definition t_fns : list (str * ty) := [(s "f", TCall [TAny; TStr; TAny; TAny])].
Definition bound_of (fns opts : list (str * ty)) (e : Expr.expr) : Expr.expr * qnode * (list str * Expr.pexpr) :=
  match Expr.bind_field (g_types xl_graph) 20 (s "user") fns opts e with
  | Ok r => r
  | Err _ => (e, QN [] false, ([], Expr.PConst VNone))
  end.
Definition b_label := bound_of [] [] e_label.
Definition b_stamp := bound_of t_fns [(s "fmt", TAny)] e_stamp.
Definition b_circle := bound_of [] [] e_circle.
Definition x_procs (pr : N) : option proc :=
  if (pr =? 1)%N then Some (Proc [] b_label.2.1 b_label.2.2)
  else if (pr =? 2)%N then Some (Proc [(s "f", s "tuple")] b_stamp.2.1 b_stamp.2.2)
  else if (pr =? 3)%N then Some (Proc [] b_circle.2.1 b_circle.2.2)
  else None.
(** The only function: makes a tuple of plain values *)
Definition plain (v : pyv) : res val := match v with PyT (PV (IVal v)) => Ok v | _ => Err TypeError end.
Definition x_F (f : str) (vs : list pyv) : res pyv :=
  match mapR plain vs with Ok l => Ok (py_val (VTuple l)) | Err e => Err e end.

Definition xh_user : gnode := GNode (Some (s "user"))
  [GF (GField (s "id") None (FPlain 23) []);
   GF (GField (s "label") None (FChecked 0 b_label.1.2 1) []);
   GF (GField (s "stamp") None (FChecked 0 b_stamp.1.2 2) [GOption (s "fmt") None (VInt 8)]);
   GF (GField (s "circle") None (FChecked 0 b_circle.1.2 3) []);
   GL (GLink (s "chief") One (s "user") 32 (Some (s "label")) [])].
Definition xh_graph : graph := Graph [xh_user; high_root] [].
Definition x_data : data := {|
  d_field := fun f i n o =>
    if bool_decide (n = s "name") then VTuple [VStr (s "user"); default VNone i]
    else if bool_decide (n = s "age") then VInt 40
    else if bool_decide (n = s "boss_id") then VInt 1
    else if bool_decide (n = s "now") then VStr (s "noon")
    else default VNone i;
  d_link := fun f a o => if (f =? 30)%N then VList [VInt 5; VInt 6] else if (f =? 33)%N then VList [VInt 2; VInt 3] else VInt 1 |}.
Definition x_env : env := Env [(xl_graph, s "user")] (fun _ => oracle_of x_data) (fun _ => false) (run_proc x_F x_procs) false.

(** What the expressions require *)
Example x_requires :
  b_label.1.2 = QN [QL THIS [QF (s "name") None None] false None None] false /\
  b_stamp.1.2 = QN [QF (s "now") None None; QL THIS [QF (s "age") None None; QL (s "boss") [QF (s "name") None None] false None None] false None None] false /\
  b_circle.1.2 = QN [QF (s "now") None None; QL THIS [QL (s "friends") [QF (s "name") None None] false None None] false None None] false.
Proof. vm_compute. auto. Qed.

Example x_F_reads : functions_read_by_name x_F.
Proof.
  intros f vs vs' v Hv. unfold x_F. assert (forall l, mapR plain vs = Ok l -> mapR plain vs' = Ok l) as Hl.
  { induction Hv as [|a b vs vs' Ha _ IH]; [done|]. cbn [mapR]. intros l.
    assert (forall x, plain a = Ok x -> plain b = Ok x) as Hab by (inversion Ha as [t t' Ht| | | ]; subst; try done; by destruct Ht).
    destruct (plain a) as [x|]; [|done]. rewrite (Hab x eq_refl). destruct (mapR plain vs) as [l'|]; [|done]. by rewrite (IH l' eq_refl). }
  destruct (mapR plain vs) as [l|]; [|done]. rewrite (Hl l eq_refl). intros [= <-]. eexists. split; [done|]. apply psim_val.
Qed.
Example x_F_fuel f vs : x_F f vs <> Err OutOfFuel.
Proof.
  unfold x_F. destruct (mapR plain vs) as [l|e] eqn:El; [done|]. intros [= ->]. revert El. apply mapR_no_fuel, Forall_forall.
  intros [[[]| | |]| | |] _; done.
Qed.
Lemma node_xl gn : node_of xl_graph gn -> gn ∈ [low_root; xl_user].
Proof.
  intros [->|[n Hn]]; [vm_compute; left|]. apply dget_Some_elem, elem_of_list_In in Hn. vm_compute in Hn.
  destruct Hn as [Hn|[]]. injection Hn as <- <-. right. left.
Qed.
Lemma node_xh gn : node_of xh_graph gn -> gn ∈ [high_root; xh_user].
Proof.
  intros [->|[n Hn]]; [vm_compute; left|]. apply dget_Some_elem, elem_of_list_In in Hn. vm_compute in Hn.
  destruct Hn as [Hn|[]]. injection Hn as <- <-. right. left.
Qed.
Ltac member Hf := unfold find_field in Hf; apply dget_Some_elem, elem_of_list_In in Hf; cbn in Hf; repeat destruct Hf as [Hf|Hf]; try done; injection Hf as <- <-.

Example x_low_bound : bound_graph x_env x_procs xl_graph.
Proof.
  split.
  - intros gn name it Hn%node_xl Hf. nodes Hn; members Hf; no_bracket.
  - reflexivity.
  - intros gn name l Hn%node_xl Hf. nodes Hn; members Hf; (split; [by eexists|]); intros r [= <-]; (split; [done|]);
      eexists; (split; [reflexivity|]); by intros (? & ? & ? & ?).
  - intros gn name f sg rq pr Hn%node_xl Hf Hc. nodes Hn; members Hf; done.
Qed.
Example x_low_ok : sub_ok whole xl_graph.
Proof.
  split.
  - reflexivity.
  - intros gn name l Hn%node_xl Hf. nodes Hn; members Hf; by eexists.
  - intros n m Hd. apply dget_Some_elem, elem_of_list_In in Hd. vm_compute in Hd. repeat destruct Hd as [Hd|Hd]; done.
  - intros n t Hd. apply dget_Some_elem, elem_of_list_In in Hd. vm_compute in Hd. repeat destruct Hd as [Hd|Hd]; try done; injection Hd as <- <-; reflexivity.
  - intros gn name f Hn%node_xl Hf. nodes Hn; members Hf; reflexivity.
  - intros gn name f Hn%node_xl Hf (sg & rq & pr & Hc). nodes Hn; members Hf; done.
Qed.
Example x_subs : bound_subs x_env x_procs whole.
Proof.
  split.
  - intros [|sg] G node Hs; [|done]. injection Hs as <- <-. intros gn name f sg rq pr Hn%node_xl Hf Hc. nodes Hn; members Hf; done.
  - intros [|sg] G node Hs; [|done]. injection Hs as <- <-. split; [apply x_low_bound|]. split; [apply x_low_ok|reflexivity].
Qed.
Lemma x_label : defined_by x_procs (GField (s "label") None (FChecked 0 b_label.1.2 1) []) xl_graph (s "user") b_label.1.2 1.
Proof.
  exists 20, [], [], e_label, b_label.1.1, b_label.2, []. split; [vm_compute; reflexivity|]. do 3 (split; [reflexivity|]).
  split; [intros ? _ ?%not_elem_of_nil; done|]. split; [apply elem_of_list_In; vm_compute; by left|]. split; [intros ?%not_elem_of_nil; done|].
  split; [intros ? ? [?%not_elem_of_nil|?%not_elem_of_nil]; done|].
  apply PropExpr.hygienic_check; vm_compute; reflexivity.
Qed.
Lemma x_circle : defined_by x_procs (GField (s "circle") None (FChecked 0 b_circle.1.2 3) []) xl_graph (s "user") b_circle.1.2 3.
Proof.
  exists 20, [], [], e_circle, b_circle.1.1, b_circle.2, []. split; [vm_compute; reflexivity|]. do 3 (split; [reflexivity|]).
  split; [intros ? _ ?%not_elem_of_nil; done|]. split; [apply elem_of_list_In; vm_compute; by left|]. split; [intros ?%not_elem_of_nil; done|].
  split; [intros ? ? [?%not_elem_of_nil|?%not_elem_of_nil]; done|].
  apply PropExpr.hygienic_check; vm_compute; reflexivity.
Qed.
Lemma x_stamp : defined_by x_procs (GField (s "stamp") None (FChecked 0 b_stamp.1.2 2) [GOption (s "fmt") None (VInt 8)]) xl_graph (s "user") b_stamp.1.2 2.
Proof.
  exists 20, t_fns, [(s "fmt", TAny)], e_stamp, b_stamp.1.1, b_stamp.2, [(s "f", s "tuple")]. split; [vm_compute; reflexivity|]. do 3 (split; [reflexivity|]).
  split; [intros n Hn%elem_of_list_In ->%elem_of_list_singleton; vm_compute in Hn; repeat destruct Hn as [Hn|Hn]; done|].
  split; [apply elem_of_list_In; vm_compute; by left|]. split; [intros ?%elem_of_list_singleton; done|].
  split; [intros ? ? [[= -> ->]%elem_of_list_singleton|[= -> ->]%elem_of_list_singleton]; reflexivity|].
  apply PropExpr.hygienic_check; vm_compute; reflexivity.
Qed.
Example x_bound : bound_graph x_env x_procs xh_graph.
Proof.
  split.
  - intros gn name it Hn%node_xh Hf. nodes Hn; members Hf; no_bracket.
  - reflexivity.
  - intros gn name l Hn%node_xh Hf. nodes Hn; members Hf; (split; [by eexists|]); intros r Hr; [done|].
    injection Hr as <-. split; [done|]. eexists. split; [reflexivity|]. done.
  - intros gn name f sg rq pr Hn%node_xh Hf Hc. nodes Hn; member Hf; try done; injection Hc as <- <- <-.
    all: split; [by eexists|]; exists xl_graph, (s "user"), xl_user; split; [reflexivity|]; split; [reflexivity|].
    + apply x_label.
    + apply x_stamp.
    + apply x_circle.
Qed.
Example x_env_data : env_data_ok x_env x_data.
Proof.
  intros [|sg] G node Hs; [|done]. injection Hs as <- <-. split.
  - intros gn name l a o Hn%node_xl Hf. nodes Hn; members Hf; [done|by eexists].
  - intros gn name f sg rq pr G' node gn' k j o Hn%node_xl Hf Hc. nodes Hn; members Hf; done.
Qed.
(** [{:users [:id :label (:stamp {:fmt 3}) :circle {:chief [:label]}]}] *)
Definition x_query : qnode :=
  QN [QL (s "users") [QF (s "id") None None; QF (s "label") None None; QF (s "stamp") (Some [(s "fmt", VInt 3)]) None; QF (s "circle") None None;
                      QL (s "chief") [QF (s "stamp") None None] false None None] false None None] false.
Example x_valid : validate 5 xh_graph x_query = Ok [].
Proof. vm_compute. reflexivity. Qed.
Example x_proper q0 : q0 ∈ qfields x_query -> options_proper q0.
Proof.
  intros Hq. apply elem_of_list_In in Hq. vm_compute in Hq. repeat destruct Hq as [Hq|Hq]; try done; subst q0; vm_compute;
    repeat (first [split | constructor | intros ? ?]); try done.
Qed.
Example x_unchecked : unchecked_query xh_graph x_query.
Proof.
  split.
  - intros gn n q0 f Hv%visited_visits%elem_of_list_In Hq%elem_of_list_In Hf. vm_compute in Hv.
    repeat destruct Hv as [Hv|Hv]; try done; injection Hv as <- <-; done.
  - intros gn n Hv%visited_visits%elem_of_list_In. vm_compute in Hv.
    repeat destruct Hv as [Hv|Hv]; try done; injection Hv as <- <-; apply (bool_decide_unpack _); vm_compute; exact I.
Qed.
Example x_distinct : distinct_options xh_graph.
Proof.
  intros gn n go Hn%node_xh Hf. nodes Hn; member Hf; apply (bool_decide_unpack _); vm_compute; exact I.
Qed.
Definition x_query' : qnode := match init_options xh_graph x_query with Ok q => q | Err _ => x_query end.
Example x_init : init_options xh_graph x_query = Ok x_query'.
Proof. vm_compute. reflexivity. Qed.
Example x_collisions gn : no_collision (asked xh_graph x_query' gn).
Proof.
  apply (no_collision_check _ (flat_map (fun p => asked_list p.1 p.2) (visits xh_graph x_query'))).
  - intros q (n & Hv & Hq)%asked_asked_list. apply elem_of_list_In, in_flat_map. exists (gn, n). split; by apply elem_of_list_In.
  - vm_compute. reflexivity.
Qed.
Example x_asked_data : asked_data x_env x_data xh_graph x_query'.
Proof.
  split.
  - intros gn name l a o Hn%node_xh Hf. nodes Hn; members Hf; [by eexists|done].
  - intros gn it f sg rq pr G' node gn' j (n & Hv%elem_of_list_In & Hq%elem_of_list_In)%asked_asked_list Hf Hfn Hsg Hn. vm_compute in Hv.
    repeat destruct Hv as [Hv|Hv]; try done; injection Hv as <- <-; vm_compute in Hq;
      repeat destruct Hq as [<-|Hq]; try done; vm_compute in Hf; try done; injection Hf as <-; try done;
      injection Hfn as <- <- <-; injection Hsg as <- <-; vm_compute in Hn; injection Hn as <-; vm_compute; by eexists.
Qed.
(** The result of this query, whatever the order of events *)
Definition x_user (n : Z) : val := VTuple [VStr (s "user"); VInt n].
Definition x_stamp_val (n : Z) : val := VTuple [VInt 40; x_user 1; VStr (s "noon"); VInt n].
Definition x_circle_val : val := VList [VList [x_user 2; VStr (s "noon")]; VList [x_user 3; VStr (s "noon")]].
Theorem C53_example fuel sched r :
  max_work x_env xh_graph x_query' < fuel -> execute x_env fuel xh_graph x_query sched r ->
  exists idx, r = Ok (idx, x_query') /\
    denormalize xh_graph idx x_query' = Ok (TO [(s "users", TL (map (fun n => TO
      [(s "id", TP (PRaw (IVal (VInt n)))); (s "label", TP (PRaw (IVal (x_user n))));
       (s "stamp", TP (PRaw (IVal (x_stamp_val 3)))); (s "circle", TP (PRaw (IVal x_circle_val)));
       (s "chief", TO [(s "stamp", TP (PRaw (IVal (x_stamp_val 8))))])]) [5%Z; 6%Z]))]).
Proof.
  intros Hw He.
  assert (serves x_env x_data) as Hsv by by apply oracle_of_serves.
  assert (respects_options x_data) as Hrs by by split.
  destruct (C53_valid_query x_env x_data x_F x_procs whole xh_graph x_query 5 x_F_reads x_F_fuel eq_refl) as (q' & Hi & Hall).
  - intros n c. cbn. unfold oracle_of. destruct (c_args c) as [? []|[[]|] ?]; done.
  - apply x_subs.
  - apply x_bound.
  - apply x_distinct.
  - apply x_valid.
  - apply x_proper.
  - apply x_unchecked.
  - done.
  - done.
  - apply x_env_data.
  - rewrite x_init in Hi. injection Hi as <-.
    destruct (Hall x_asked_data x_collisions fuel sched r Hw He) as (idx & -> & _ & _). exists idx. split; [done|].
    pose proof (C04_sound_graph x_env whole (C53_bound_subs_sound x_env x_procs whole x_subs) xh_graph x_query' (C53_bound_graph_sound x_env x_procs whole xh_graph x_subs x_bound)
      (fits_asks xh_graph x_query x_distinct (C21_accepted_query_fits xh_graph 5 x_query x_proper x_valid) x_query' x_init x_unchecked x_collisions)) as Hsup.
    pose proof (asked_all_data x_env x_data whole xh_graph x_query' (C53_bound_subs_sound x_env x_procs whole x_subs) (C53_bound_graph_sound x_env x_procs whole xh_graph x_subs x_bound)
      (fits_asks xh_graph x_query x_distinct (C21_accepted_query_fits xh_graph 5 x_query x_proper x_valid) x_query' x_init x_unchecked x_collisions) x_asked_data x_env_data) as Hdat.
    destruct (C04_result x_env x_data _ _ _ x_init Hrs (C53_compiled_code_reads_by_name x_env x_F x_procs x_F_reads eq_refl) Hsv Hsup Hdat _ _ _ _ He) as [_ Hdn].
    rewrite Hdn. vm_compute. reflexivity.
Qed.

(** ** Why the types of parameters matter *)
(** [g(S.this)] for a function whose parameter is [Record[{'boss': Any}]] - or the same with a named type: the link
    [boss] is asked as a field *)
Definition b_bad := bound_of [(s "g", TCall [TRec [(s "boss", TAny)]])] [] (ECall (s "g") None [this]).
Definition bad_user : gnode := GNode (Some (s "user")) [GF (GField (s "bad") None (FChecked 0 b_bad.1.2 4) [])].
Definition bad_graph : graph := Graph [bad_user; high_root] [].
Definition bad_query : qnode := QN [QL (s "users") [QF (s "bad") None None] false None None] false.
Definition bad_procs (pr : N) : option proc := Some (Proc [(s "g", s "g")] b_bad.2.1 b_bad.2.2).
Definition bad_env : env := Env [(xl_graph, s "user")] (fun _ => oracle_of x_data) (fun _ => false) (run_proc (fun _ _ => Ok (py_val VNone)) bad_procs) false.
Definition bad_log (y : st) : bool :=
  existsb (fun c => (c_func c =? 31)%N && match c_args c with AFields (_ :: _) _ => true | _ => false end) (w_log y.1).
(** C53: then the loader of the link is called as if it were the loader of a field: [boss] is a link whose loader is 31. *)
Theorem C53_link_as_field_refuted :
  (exists e code, Expr.bind_field (g_types xl_graph) 20 (s "user") [(s "g", TCall [TRec [(s "boss", TAny)]])] [] (ECall (s "g") None [this]) = Ok (e, b_bad.1.2, code)) /\
  find_field xl_user (s "boss") = Some (GL (GLink (s "boss") One (s "user") 31 (Some (s "boss_id")) [])) /\
  exists x sched y c, start bad_env bad_graph bad_query = Ok x /\ rounds bad_env ex_fuel sched x y /\ q_futures y.2 = [] /\
    c ∈ w_log y.1 /\ c_func c = 31%N /\ exists qs ids, c_args c = AFields qs ids /\ qs <> [].
Proof.
  split; [exists b_bad.1.1, b_bad.2; vm_compute; reflexivity|]. split; [reflexivity|].
  assert (match start bad_env bad_graph bad_query with
          | Ok x => match run_all bad_env 30 x with Some (_, y) => bad_log y | None => false end
          | Err _ => false end = true) as Ht by (vm_compute; reflexivity).
  destruct (start bad_env bad_graph bad_query) as [x|e]; [|discriminate Ht].
  destruct (run_all bad_env 30 x) as [[sched y]|] eqn:Er; [|discriminate Ht].
  destruct (run_all_rounds bad_env 30 [] x x sched y (rd_nil _ _ _) Er) as [Hr Hf]. unfold bad_log in Ht.
  apply existsb_exists in Ht as (c & Hc%elem_of_list_In & [Hc1%N.eqb_eq Hc2]%andb_prop).
  exists x, sched, y, c. split; [done|]. split; [exact Hr|]. split; [done|]. split; [done|]. split; [done|].
  destruct (c_args c) as [[|q qs] ids|]; [discriminate Hc2| |discriminate Hc2]. by exists (q :: qs), ids.
Qed.
Print Assumptions C53_valid_query.
Print Assumptions C53_bound_graph_sound.
Print Assumptions C53_requirements_fit.
Print Assumptions C53_value.
Print Assumptions C53_example.

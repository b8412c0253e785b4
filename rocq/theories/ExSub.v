(** A concrete graph with fields defined by expressions over a sub-graph: instance for the theorems about
    sub-graphs. *)
From Verif Require Import Base Val Types Query QuerySpec QueryProof Graph Queue Result Engine EngineSpec Examples ExEngine CostSpec.

(** The low-level graph: [Node('user', [name, age, boss_id, Link('boss', requires='boss_id')]), Root([now])] *)
Definition low_user : gnode := GNode (Some (s "user"))
  [GF (GField (s "name") None (FPlain 21) []);
   GF (GField (s "age") None (FPlain 21) []);
   GF (GField (s "boss_id") None (FPlain 22) []);
   GL (GLink (s "boss") One (s "user") 31 (Some (s "boss_id")) [])].
Definition low_root : gnode := GNode None [GF (GField (s "now") None (FPlain 20) [])].
Definition low_graph : graph := Graph [low_user; low_root] [].

(** The high-level graph: [label] is [S.this.name], [stamp] uses [S.this.age], [S.this.boss.name], [S.now] and the
    option [fmt], [clock] is [S.now]. *)
Definition reqs_label : qnode := QN [QL THIS [QF (s "name") None None] false None None] false.
Definition reqs_stamp : qnode :=
  QN [QL THIS [QF (s "age") None None; QL (s "boss") [QF (s "name") None None] false None None] false None None;
      QF (s "now") None None] false.
Definition reqs_clock : qnode := QN [QF (s "now") None None] false.
Definition high_user : gnode := GNode (Some (s "user"))
  [GF (GField (s "id") None (FPlain 23) []);
   GF (GField (s "label") None (FChecked 0 reqs_label 1) []);
   GF (GField (s "stamp") None (FChecked 0 reqs_stamp 2) [GOption (s "fmt") None (VInt 8)]);
   GF (GField (s "clock") None (FChecked 0 reqs_clock 3) []);
   GL (GLink (s "chief") One (s "user") 32 (Some (s "label")) [])].
Definition high_root : gnode := GNode None [GL (GLink (s "users") Many (s "user") 30 None [])].
Definition high_graph : graph := Graph [high_user; high_root] [].

Definition sub_data : data := {|
  d_field := fun f i n o =>
    if bool_decide (n = s "name") then VTuple [VStr (s "user"); default VNone i]
    else if bool_decide (n = s "age") then VInt 40
    else if bool_decide (n = s "boss_id") then VInt 1
    else if bool_decide (n = s "now") then VStr (s "noon")
    else default VNone i;
  d_link := fun f a o => if (f =? 30)%N then VList [VInt 5; VInt 6] else VInt 1 |}.

(** The compiled expressions *)
Definition tree_get (k : str) (t : ptree) : res ptree := match t with PO d => from_opt KeyError (dget k d) | _ => Err TypeError end.
Definition tree_val (t : ptree) : res val := match t with PV (IVal v) => Ok v | _ => Err TypeError end.
Definition bindr {A B} (r : res A) (f : A -> res B) : res B := match r with Ok a => f a | Err e => Err e end.
Definition opt_int (v : val) : val := match v with VInt z => VInt z | _ => VNone end.
Definition sub_proc (p : N) (this root : ptree) (opts : list val) : res val :=
  if (p =? 1)%N then bindr (tree_get (s "name") this) tree_val
  else if (p =? 2)%N then
    bindr (tree_get (s "age") this) (fun a => bindr (tree_val a) (fun a =>
    bindr (tree_get (s "boss") this) (fun b => bindr (tree_get (s "name") b) (fun b => bindr (tree_val b) (fun b =>
    bindr (tree_get (s "now") root) (fun n => bindr (tree_val n) (fun n => Ok (VTuple (a :: b :: n :: map opt_int opts)))))))))
  else bindr (tree_get (s "now") root) tree_val.
Definition sub_env : env :=
  Env [(low_graph, s "user")] (fun _ => oracle_of sub_data) (fun _ => false) sub_proc false.

(** [{:users [:id :label :stamp {:chief [:label :clock]}]}] *)
Definition sub_query : qnode :=
  QN [QL (s "users") [QF (s "id") None None; QF (s "label") None None; QF (s "stamp") None None;
                      QL (s "chief") [QF (s "label") None None; QF (s "clock") None None] false None None] false None None] false.
Definition sub_query' : qnode := match init_options high_graph sub_query with Ok q => q | Err _ => sub_query end.
Example sub_init : init_options high_graph sub_query = Ok sub_query'.
Proof. vm_compute. reflexivity. Qed.
(** [{:users [:clock]}] *)
Definition clock_query : qnode := QN [QL (s "users") [QF (s "clock") None None] false None None] false.

#[local] Existing Instance ex_hasher.
Example sub_nested : nested (e_sgs sub_env).
Proof.
  intros [|sg] G node Hs; [|done]. injection Hs as <- <-. intros gn name f sg rq pr Hn Hf Hc. exfalso.
  assert (gn ∈ [low_root; low_user]) as Hgn.
  { destruct Hn as [->|[n Hn]]; [vm_compute; left|]. apply dget_Some_elem, elem_of_list_In in Hn. vm_compute in Hn.
    destruct Hn as [Hn|[]]. injection Hn as <- <-. right. left. }
  apply dget_Some_elem, elem_of_list_In in Hf.
  apply elem_of_cons in Hgn as [->|[->|[]%not_elem_of_nil]%elem_of_cons]; vm_compute in Hf;
    repeat destruct Hf as [Hf|Hf]; try done; injection Hf as <- <-; done.
Qed.

Fixpoint run_all (E : env) (n : nat) (x : st) : option (list (list nat) * st) :=
  match q_futures x.2, n with
  | [], _ => Some ([], x)
  | _, O => None
  | f :: _, S n => match progress (run_cb E) ex_fuel [f] x with
                   | Ok y => match run_all E n y with Some (sched, z) => Some ([f] :: sched, z) | None => None end
                   | Err _ => None
                   end
  end.
Lemma run_all_rounds E n : forall sched0 x0 x sched y, rounds E ex_fuel sched0 x0 x -> run_all E n x = Some (sched, y) ->
  rounds E ex_fuel (sched0 ++ sched) x0 y /\ q_futures y.2 = [].
Proof.
  induction n as [|n IH]; intros sched0 x0 x sched y Hr; cbn [run_all]; destruct (q_futures x.2) as [|f fs] eqn:Ef; try done.
  - intros [= <- <-]. by rewrite app_nil_r.
  - intros [= <- <-]. by rewrite app_nil_r.
  - destruct (progress (run_cb E) ex_fuel [f] x) as [z|] eqn:Ep; [|done]. destruct (run_all E n z) as [[s2 z2]|] eqn:Ez; [|done]. intros [= <- <-].
    replace (sched0 ++ [f] :: s2) with ((sched0 ++ [[f]]) ++ s2) by by rewrite <-app_assoc.
    apply (IH _ _ z); [|done]. eapply rd_snoc; [exact Hr|done|apply NoDup_singleton| |exact Ep].
    intros f' ->%elem_of_list_singleton. rewrite Ef. left.
Qed.
Definition sub_start : st := match start sub_env high_graph sub_query with Ok x => x | Err _ => (World [] [], q_empty) end.
Definition sub_run : list (list nat) * st := match run_all sub_env 30 sub_start with Some p => p | None => ([], sub_start) end.
Example sub_started : start sub_env high_graph sub_query = Ok sub_start.
Proof.
  unfold sub_start. destruct (start sub_env high_graph sub_query) as [x|e] eqn:E; [done|]. exfalso.
  assert (match start sub_env high_graph sub_query with Ok _ => true | Err _ => false end = true) as Ht by (vm_compute; reflexivity).
  by rewrite E in Ht.
Qed.
Example sub_rounds : rounds sub_env ex_fuel sub_run.1 sub_start sub_run.2 /\ q_futures sub_run.2.2 = [].
Proof.
  unfold sub_run. destruct (run_all sub_env 30 sub_start) as [[sched y]|] eqn:E.
  - apply (run_all_rounds sub_env 30 [] sub_start sub_start sched y); [constructor|done].
  - exfalso. assert (match run_all sub_env 30 sub_start with Some _ => true | None => false end = true) as Ht by (vm_compute; reflexivity).
    by rewrite E in Ht.
Qed.

(** C60: every value of a result is what a loader returned for that object and that member of the query. *)
From stdpp Require Import relations.
From Verif Require Import Base Val Query QuerySpec QueryProof Graph Queue QueueSpec QueueProof Result Engine EngineSpec SplitProof EngineDisc CallSpec ProvSpec EngineCells EngineLog PropTrace.

Section thms.
  Context `{Hasher} (E : env) (g : graph) (q : qnode).
  Lemma executes_steps fuel sched x y : executes (run_cb E) fuel sched x (Ok y) -> rtc (qstep (run_cb E)) (x, PIdle) (y, PIdle).
  Proof.
    intros Hx. remember (Ok y) as r eqn:Er. induction Hx as [x Hf|dn x e H1 H2 H3 Hp|dn sched x z r H1 H2 H3 Hp _ IH]; [injection Er as ->; apply rtc_refl|done|].
    etrans; [exact (progress_steps _ _ _ _ (Ok z) H1 H2 H3 Hp)|by apply IH].
  Qed.
  (** C60: at every moment of every execution - also between the callbacks of a round - whatever the loaders return and
      in whatever order the calls finish, every value stored of an object has been returned by the loader of a
      requested (or required) member, for that object. *)
  Theorem C60_values_come_from_loaders x z p v ref k iv :
    start E g q = Ok x -> rtc (qstep (run_cb E)) (x, PIdle) (z, p) -> w_wfs z.1 !! 0 = Some v ->
    dget (ref.1, ref.2, k) (wf_index v) = Some iv -> came_from E g q (w_log z.1) RMain ref k iv.
  Proof.
    intros Hx Hr Hv Hd. apply (lcfg_rtc E g q) in Hr as (js & Hl & _); [|by apply lcfg_start].
    eapply (li_idx _ _ _ _ _ Hl); [apply (proj1 (li_main _ _ _ _ _ Hl))|done..].
  Qed.
  (** C60: the same of the values stored while sub-graphs are run: every workflow is one of such runs *)
  Theorem C60_subgraph_values x z p w v :
    start E g q = Ok x -> rtc (qstep (run_cb E)) (x, PIdle) (z, p) -> w_wfs z.1 !! w = Some v ->
    exists R, run_graph E g R = Some (wf_graph v) /\ (R = RMain <-> w = 0) /\
      (forall sg fields is_, R = RSub sg fields is_ -> wf_query v = required fields) /\
      forall ref k iv, dget (ref.1, ref.2, k) (wf_index v) = Some iv -> came_from E g q (w_log z.1) R ref k iv.
  Proof.
    intros Hx Hr Hv. apply (lcfg_rtc E g q) in Hr as (js & Hl & _); [|by apply lcfg_start].
    destruct (Forall2_lookup_r _ _ _ _ _ (li_runs _ _ _ _ _ Hl) Hv) as (R & HR & Hg & Hq). exists R. split; [done|]. split.
    - split.
      + intros ->. destruct w as [|w]; [done|]. exfalso. by apply (proj2 (li_main _ _ _ _ _ Hl) w).
      + intros ->. rewrite (proj1 (li_main _ _ _ _ _ Hl)) in HR. by injection HR as <-.
    - split; [by intros sg fields is_ ->|]. intros ref k iv Hd. by eapply (li_idx _ _ _ _ _ Hl).
  Qed.
  (** C60: so in the result *)
  Theorem C60_result_comes_from_loaders fuel sched idx q' :
    execute E fuel g q sched (Ok (idx, q')) -> exists log, exec_log E fuel g q sched log /\
      forall ref k iv, dget (ref.1, ref.2, k) idx = Some iv -> came_from E g q log RMain ref k iv.
  Proof.
    intros Hx. remember (Ok (idx, q')) as r eqn:Er. destruct Hx as [e Hs|x sched e Hs He|x sched y v Hs He Hv]; [done..|]. injection Er as <- <-.
    exists (w_log y.1). split; [by exists x, y|]. intros ref k iv Hd. eapply C60_values_come_from_loaders; [exact Hs|by eapply executes_steps|done|done].
  Qed.
  (** What the reader of a result is given for a slot *)
  Definition shows (f : qitem) (p : pres) (iv : ival) : Prop :=
    match p with
    | PRaw u => iv = u
    | PProxy ref n => iv = IRef ref.1 ref.2 /\ n = q_node f
    | PList refs n => iv = IRefs refs /\ n = q_node f
    end.
  (** C60: and in what is read: reading a key of an object gives what the loader of the member requested under this key
      returned for the object; objects it leads to are those whose identifiers the loader of the link returned. *)
  Theorem C60_read_comes_from_loaders fuel sched idx q' :
    execute E fuel g q sched (Ok (idx, q')) -> exists log, exec_log E fuel g q sched log /\
      forall ref n key p, proxy_get idx ref n key = Ok p ->
        exists f iv, f ∈ qfields n /\ result_key f = key /\ shows f p iv /\ came_from E g q log RMain ref (index_key f) iv.
  Proof.
    intros Hx. destruct (C60_result_comes_from_loaders _ _ _ _ Hx) as (log & Hlog & Hc). exists log. split; [done|].
    intros ref n key p Hp. unfold proxy_get in Hp. destruct (dget key (q_result_map n)) as [f|] eqn:Ef; [|done].
    destruct (dget (ref.1, ref.2, index_key f) idx) as [iv|] eqn:Ed; [|done]. exists f, iv. unfold q_result_map in Ef. apply dget_of_pairs_Some, elem_of_list_fmap in Ef as (f' & Heq & Hin). injection Heq as -> <-.
    split; [done|]. split; [done|]. split; [|by apply Hc].
    destruct f as [|nm sub ord o a]; [by injection Hp as <-|]. destruct iv as [u|m i|[|r rs]]; injection Hp as <-; done.
  Qed.

  (** C60: a value which is not a link's is one of the answer of a call of the log for its field; or of an expression, which
      is computed of objects of a result of the sub-graph all of whose values come from loaders *)
  Theorem C60_field_value log R ref k u : came_from E g q log R ref k (IVal u) ->
    (exists gn n f fields ids fut r a go qf, asked E g q log R gn n ref /\ together gn n (KPlain f) fields /\ fields !! a = Some (go, qf) /\ k = index_key qf /\
       log !! fut = Some (Call f (e_ctx E f) (AFields (map snd fields) ids)) /\
       returned (e_oracle E fut (Call f (e_ctx E f) (AFields (map snd fields) ids))) = Some r /\ cell (gn_name gn) ids r a ref u) \/
    (exists gn n sg fields is_ a go qf os p idx refs pn o, asked E g q log R gn n ref /\ together gn n (KSub sg) fields /\ fields !! a = Some (go, qf) /\ k = index_key qf /\
       option_values go qf = Ok os /\ is_ !! p = Some ref.2 /\
       (forall ref' k' iv', dget (ref'.1, ref'.2, k') idx = Some iv' -> came_from E g q log (RSub sg fields is_) ref' k' iv') /\
       proxy_get idx ROOT (required fields) THIS = Ok (PList refs pn) /\ refs !! p = Some o /\
       e_proc E (proc_of go) (view idx o pn) (view idx ROOT (required fields)) os = Ok u) \/
    (u = VNone /\ exists gn n l ql, asked E g q log R gn n ref /\ (l, ql) ∈ asked_links gn (qfields n) /\ k = index_key ql /\ gl_enum l = Maybe).
  Proof.
    intros Hc. inversion Hc as [|R0 gn n f fields ids fut a go qf r ref0 v0 H1 H2 H3 H4 H5 H6|R0 gn n nm sg fields is_ a go qf os p i idx refs pn o v0 H1 H2 H3 H4 H5 H6 H7 H8 H9 H10|R0 gn n l ql rq fut r ref0 v0 iv0 H1 H2 H3 H4 H5 H6]; subst.
    - left. by exists gn, n, f, fields, ids, fut, r, a, go, qf.
    - right. left. exists gn, n, sg, fields, is_, a, go, qf, os, p, idx, refs, pn, o. split; [|by split_and!]. apply H1. by eapply elem_of_list_lookup_2.
    - right. right. unfold refers in H6. destruct (gl_enum l) eqn:Em.
      + destruct H6 as [[_ [= ->]]|[_ ?]]; [|done]. split; [done|]. by exists gn, n, l, ql.
      + by destruct H6 as [_ ?].
      + by destruct H6 as (? & _ & ?).
  Qed.
  (** C60: a reference is one which the loader of a requested link returned; the object is of the node of the link *)
  Theorem C60_link_value log R ref k m i : came_from E g q log R ref k (IRef m i) ->
    exists gn n l ql rq fut r, asked E g q log R gn n ref /\ (l, ql) ∈ asked_links gn (qfields n) /\ k = index_key ql /\
      log !! fut = Some (Call (gl_func l) (e_ctx E (gl_func l)) (ALink rq (link_opts l ql))) /\
      returned (e_oracle E fut (Call (gl_func l) (e_ctx E (gl_func l)) (ALink rq (link_opts l ql)))) = Some r /\
      link_answer E g q log R gn l rq r ref i /\ m = gl_node l /\ gl_enum l <> Many /\ i <> VNothing.
  Proof.
    intros Hc. inversion Hc as [| | |R0 gn n l ql rq fut r ref0 v0 iv0 H1 H2 H3 H4 H5 H6]; subst. exists gn, n, l, ql, rq, fut, r. unfold refers in H6.
    destruct (gl_enum l).
    - destruct H6 as [[_ ?]|[? [= -> ->]]]; [done|]. by split_and!.
    - destruct H6 as [? [= -> ->]]. by split_and!.
    - by destruct H6 as (? & _ & ?).
  Qed.
  (** C60: so is a list of references - but for the objects for which a sub-graph is run *)
  Theorem C60_list_value log R ref k refs : came_from E g q log R ref k (IRefs refs) ->
    (exists gn n l ql rq fut r v is_, asked E g q log R gn n ref /\ (l, ql) ∈ asked_links gn (qfields n) /\ k = index_key ql /\
      log !! fut = Some (Call (gl_func l) (e_ctx E (gl_func l)) (ALink rq (link_opts l ql))) /\
      returned (e_oracle E fut (Call (gl_func l) (e_ctx E (gl_func l)) (ALink rq (link_opts l ql)))) = Some r /\
      link_answer E g q log R gn l rq r ref v /\ iter_of v = Some is_ /\ refs = map (fun i => (gl_node l, i)) is_) \/
    (exists sg fields is_ G node this, R = RSub sg fields is_ /\ e_sgs E !! sg = Some (G, node) /\ ref = ROOT /\
      dget THIS (q_fields_map (required fields)) = Some this /\ k = index_key this /\ refs = map (fun i => (node, i)) is_).
  Proof.
    intros Hc. inversion Hc as [sg fields is_ G node this H1 H2| | |R0 gn n l ql rq fut r ref0 v0 iv0 H1 H2 H3 H4 H5 H6]; subst; [right; by exists sg, fields, is_, G, node, this|].
    left. unfold refers in H6. destruct (gl_enum l).
    - by destruct H6 as [[_ ?]|[_ ?]].
    - by destruct H6 as [_ ?].
    - destruct H6 as (is_ & Hi & [= ->]). by exists gn, n, l, ql, rq, fut, r, v0, is_.
  Qed.

  (** C60: members with the same key are the same: of the same name and with the same hash of options (provided that names
      contain no bracket) *)
  Theorem C60_same_member f f' : 91%N ∉ q_name f -> 91%N ∉ q_name f' -> index_key f = index_key f' ->
    q_name f = q_name f' /\ options_hash (q_opts f) = options_hash (q_opts f').
  Proof. apply index_key_inj. Qed.
  (** Sub-graphs in which nothing takes the place of `this`: no link leads to a node with the name under which the root
      is stored, and no other member required of the root has the key of `this` *)
  Definition plain_sub (sg : nat) (fields : list (gitem * qitem)) (G : graph) (node : str) (this : qitem) : Prop :=
    e_sgs E !! sg = Some (G, node) /\ node <> (ROOT : str * val).1 /\
    (forall gn l, (gn = g_root G \/ exists name, find_node G name = Some gn) -> GL l ∈ gn_fields gn -> gl_node l <> (ROOT : str * val).1) /\
    dget THIS (q_fields_map (required fields)) = Some this /\ dget THIS (q_result_map (required fields)) = Some this /\
    forall r, r ∈ qfields (required fields) -> index_key r = index_key this -> q_name r = THIS.
  Lemma find_field_in gn n x : find_field gn n = Some x -> x ∈ gn_fields gn.
  Proof. unfold find_field, fields_map. intros Hf. apply dget_of_pairs_Some, elem_of_list_fmap in Hf as (y & [= -> ->] & Hy). done. Qed.
  Lemma link_of gn qs l ql : (l, ql) ∈ asked_links gn qs -> ql ∈ qs /\ GL l ∈ gn_fields gn.
  Proof.
    intros (q' & Hin & Hq)%elem_of_list_omap. destruct q' as [|nm sub ord o a]; [done|]. destruct (find_field gn _) as [[f|l']|] eqn:Ef; try done.
    injection Hq as <- <-. split; [done|]. by eapply find_field_in.
  Qed.
  Lemma sub_asked log R gn n ref sg fields is_ G node this : asked E g q log R gn n ref -> R = RSub sg fields is_ -> plain_sub sg fields G node this ->
    (gn = g_root G \/ exists name, find_node G name = Some gn) /\
    (ref = ROOT -> gn = g_root G /\ forall r, r ∈ qfields n -> r ∈ qfields (required fields) /\ q_name r <> THIS).
  Proof.
    intros Ha -> (Hsg & Hnode & Hlinks & Hth & _ & _). revert Ha.
    enough ((forall R gn n ref, asked E g q log R gn n ref -> R = RSub sg fields is_ -> (gn = g_root G \/ exists name, find_node G name = Some gn) /\
       (ref = ROOT -> gn = g_root G /\ forall r, r ∈ qfields n -> r ∈ qfields (required fields) /\ q_name r <> THIS)) /\
      (forall R ref k iv, came_from E g q log R ref k iv -> R = RSub sg fields is_ -> forall ref', points iv ref' -> ref'.1 <> (ROOT : str * val).1) /\
      (forall R gn l rq r ref v, link_answer E g q log R gn l rq r ref v -> True)) as (Hx & _ & _) by (intros Ha; exact (Hx _ _ _ _ Ha eq_refl)).
    apply (prov_ind _ E g q log); try done.
    - intros sg0 fields0 is0 G0 node0 this0 gn0 i H1 H2 H3 H4 [= -> -> ->]. rewrite Hsg in H1. injection H1 as <- <-. split; [right; eauto|]. intros [= Heq _]. by destruct Hnode.
    - intros sg0 fields0 is0 G0 node0 H1 [= -> -> ->]. rewrite Hsg in H1. injection H1 as <- <-. split; [by left|]. intros _. split; [done|]. cbn [qfields].
      intros r [Hr1 Hr2]%elem_of_list_In%filter_In. apply elem_of_list_In in Hr1. split; [done|]. apply negb_true_iff, bool_decide_eq_false in Hr2. done.
    - intros R0 G0 gn0 n0 ref0 l ql iv gn' ref' _ IH Hl _ IH2 Hpt HG Hf ->. cbn in HG. rewrite Hsg in HG. injection HG as <-. split; [right; eauto|].
      intros ->. exfalso. by apply (IH2 eq_refl _ Hpt).
    - intros sg0 fields0 is0 G0 node0 this0 H1 H2 [= -> -> ->] ref' Hpt. rewrite Hsg in H1. injection H1 as <- <-. cbn in Hpt. apply elem_of_list_fmap in Hpt as (i & -> & _). done.
    - intros R0 gn0 n0 l ql rq fut r ref0 v iv Ha IH Hl _ _ _ _ Hrf -> ref' Hpt. destruct (IH eq_refl) as [Hgn _]. apply link_of in Hl as [_ Hl].
      specialize (Hlinks _ _ Hgn Hl). assert (ref'.1 = gl_node l) as ->; [|done]. unfold refers in Hrf. destruct (gl_enum l).
      + destruct Hrf as [[_ ->]|[_ ->]]; cbn in Hpt; [done|by subst].
      + destruct Hrf as [_ ->]. cbn in Hpt. by subst.
      + destruct Hrf as (is1 & _ & ->). cbn in Hpt. apply elem_of_list_fmap in Hpt as (i & -> & _). done.
  Qed.
  (** C60: then an expression of the object [i] is computed of the object [i] of the node of the sub-graph *)
  Theorem C60_this_is_the_object log sg fields is_ G node this idx refs pn :
    plain_sub sg fields G node this ->
    (forall ref k iv, dget (ref.1, ref.2, k) idx = Some iv -> came_from E g q log (RSub sg fields is_) ref k iv) ->
    proxy_get idx ROOT (required fields) THIS = Ok (PList refs pn) ->
    refs = map (fun i => (node, i)) is_ /\ pn = q_node this.
  Proof.
    intros Hpl Hidx Hp. pose proof Hpl as (Hsg & _ & _ & Hth & Hrm & Hk). unfold proxy_get in Hp. rewrite Hrm in Hp.
    destruct (dget (ROOT.1, ROOT.2, index_key this) idx) as [iv|] eqn:Ed; [|done]. destruct this as [|nm sub ord o a]; [done|].
    destruct iv as [| |[|r1 rs]]; try done. injection Hp as <- <-. split; [|done]. apply Hidx, C60_list_value in Ed.
    destruct Ed as [(gn & n & l & ql & rq & fut & r & v & is1 & Ha & Hl & Hkey & _)|(sg1 & f1 & is1 & G1 & node1 & this1 & [= -> -> ->] & H1 & _ & H2 & _ & Heq)].
    - exfalso. destruct (sub_asked _ _ _ _ _ _ _ _ _ _ _ Ha eq_refl Hpl) as [_ Hroot]. destruct (Hroot eq_refl) as [_ Hrest].
      apply link_of in Hl as [Hl _]. destruct (Hrest _ Hl) as [Hin Hne]. by apply Hne, Hk.
    - rewrite Hsg in H1. by injection H1 as <- <-.
  Qed.
End thms.

(** ** Example: the execution of ExEngine; and the statement tells places of the answer apart *)
From Verif Require Import Examples ExEngine.
#[local] Existing Instance ex_hasher.
Theorem C60_example : start (ex_env false) ex_graph ex_query = Ok ex_start /\
  rtc (qstep (run_cb (ex_env false))) (ex_start, PIdle) (ex_end (take 7 sched2), PIdle) /\
  (exists v, w_wfs (ex_end (take 7 sched2)).1 !! 0 = Some v /\
     came_from (ex_env false) ex_graph ex_query (w_log (ex_end (take 7 sched2)).1) RMain ROOT (s "users") (IRefs [(s "User", VInt 1); (s "User", VInt 2); (s "User", VInt 3)])).
Proof.
  split; [exact ex_started|]. assert (rtc (qstep (run_cb (ex_env false))) (ex_start, PIdle) (ex_end (take 7 sched2), PIdle)) as Hr by (eapply rounds_steps; exact ex_rounds).
  split; [exact Hr|]. assert (exists v, w_wfs (ex_end (take 7 sched2)).1 !! 0 = Some v) as [v Hv].
  { destruct (w_wfs (ex_end (take 7 sched2)).1 !! 0) as [v|] eqn:E0; [by exists v|]. exfalso.
    assert (match w_wfs (ex_end (take 7 sched2)).1 !! 0 with Some _ => true | None => false end = true) as Ht by (vm_compute; reflexivity). by rewrite E0 in Ht. }
  exists v. split; [exact Hv|]. eapply C60_values_come_from_loaders; [exact ex_started|exact Hr|exact Hv|].
  assert (dget ((ROOT : str * val).1, (ROOT : str * val).2, s "users") (ex_index (take 7 sched2)) = Some (IRefs [(s "User", VInt 1); (s "User", VInt 2); (s "User", VInt 3)])) as Hb by (vm_compute; reflexivity).
  unfold ex_index in Hb. rewrite Hv in Hb. exact Hb.
Qed.
(** of the answer [[[a1, a2], [b1, b2]]] of a loader for the objects 1 and 2 only b1 is said of the first field of 2 *)
Theorem C60_places (a1 a2 b1 b2 : val) v :
  cell (Some (s "User")) (Some [VInt 1; VInt 2]) (VList [VTuple [a1; a2]; VList [b1; b2]]) 0 (s "User", VInt 2) v <-> v = b1.
Proof.
  split.
  - intros Hc. inversion Hc as [|n is_ rows p i row items v0 H1 H2 H3 H4 H5 H6 H7]; subst. injection H2 as <-. injection H3 as <-.
    destruct p as [|[|p]]; [done| |done]. cbn in H5. injection H5 as <-. cbn in H6. injection H6 as <-. cbn in H7. by injection H7 as <-.
  - intros ->. by eapply (cell_node _ _ _ _ (s "User") _ _ 1).
Qed.

(** ** Example: a graph with expressions over a sub-graph (ExSubWf): the label of the user 2 *)
From Verif Require Import ExSub ExSubCheck ExSubWf.
Definition slot_check (E : env) (g : graph) (q : qnode) (sl : slot) : option ival :=
  match start E g q with
  | Ok x => match run_all E 30 x with
            | Some (_, y) => match w_wfs y.1 !! 0 with Some v => dget sl (wf_index v) | None => None end
            | None => None end
  | Err _ => None end.
Definition slot_explained (E : env) (g : graph) (q : qnode) (ref : str * val) (k : str) (iv : ival) : Prop :=
  exists x y v, start E g q = Ok x /\ rtc (qstep (run_cb E)) (x, PIdle) (y, PIdle) /\ w_wfs y.1 !! 0 = Some v /\
    dget (ref.1, ref.2, k) (wf_index v) = Some iv /\ came_from E g q (w_log y.1) RMain ref k iv.
Lemma slot_by E g q ref k iv : slot_check E g q (ref.1, ref.2, k) = Some iv -> slot_explained E g q ref k iv.
Proof.
  unfold slot_check, slot_explained. intros Hc. destruct (start _ _ _) as [x|] eqn:Ex; [|done]. destruct (run_all _ _ _) as [[sched y]|] eqn:Er; [|done].
  destruct (w_wfs y.1 !! 0) as [v|] eqn:Ev; [|done]. exists x, y, v. split; [done|].
  assert (rtc (qstep (run_cb E)) (x, PIdle) (y, PIdle)) as Hr.
  { eapply PropTrace.rounds_steps. eapply (run_all_rounds _ 30 [] x x sched y); [constructor|exact Er]. }
  split; [done|]. split; [done|]. split; [done|]. by eapply C60_values_come_from_loaders.
Qed.
Theorem C60_sub_example : slot_explained sub_env sound_graph sound_query (s "user", VInt 6) (s "label") (IVal (VTuple [VStr (s "user"); VInt 6])).
Proof. apply slot_by. vm_compute. reflexivity. Qed.
Definition user_fields : list (gitem * qitem) :=
  [(GF (GField (s "label") None (FChecked 0 reqs_label 1) []), QF (s "label") None None);
   (GF (GField (s "stamp") None (FChecked 0 reqs_stamp 2) [GOption (s "fmt") None (VInt 8)]), QF (s "stamp") None None)].
Theorem C60_plain_example : exists this, plain_sub sub_env 0 user_fields low_graph (s "user") this.
Proof.
  exists (QL THIS [QF (s "name") None None; QF (s "age") None None; QL (s "boss") [QF (s "name") None None] false None None] false None None). split_and!.
  - reflexivity.
  - done.
  - intros gn l Hg Hl. apply node_low in Hg. nodes Hg; apply elem_of_list_In in Hl; vm_compute in Hl; repeat destruct Hl as [Hl|Hl]; try done. injection Hl as <-. done.
  - vm_compute. reflexivity.
  - vm_compute. reflexivity.
  - intros r Hr%elem_of_list_In Hk. vm_compute in Hr. repeat destruct Hr as [<-|Hr]; try done.
Qed.

Print Assumptions C60_values_come_from_loaders.
Print Assumptions C60_this_is_the_object.

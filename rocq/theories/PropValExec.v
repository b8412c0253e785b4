(** What validation of queries is good for (C21), and where it fails (C22 - C26):
    validate/query.py, validate/graph.py with engine.py. *)
From stdpp Require Import relations.
From Verif Require Import Base Val Types Query QuerySpec QueryProof Graph Queue QueueSpec QueueProof PropQueue Result Engine EngineApi EngineSpec SplitProof EngineProof PropEngine PropOptions ValProof Validate ValidateSpec PropValidate Examples ExEngine.

(** ** C21: executions of validated queries *)
(** What validation of the query and of the graph does not check but execution relies on: all
    loaders are plain; links require fields; members of the same node have different
    keys (equal requests merged); parts of fields are not selected in ordered nodes; no
    brackets in names, and no node is called __root__. *)
Record unchecked (g : graph) (q : qnode) : Prop := {
  un_plain : forall gn n q0 f, visited g q gn n -> q0 ∈ qfields n -> find_field gn (q_name q0) = Some (GF f) -> plain_field f;
  un_requires : forall gn n q0 l r, visited g q gn n -> q0 ∈ qfields n -> find_field gn (q_name q0) = Some (GL l) ->
    gl_requires l = Some r -> r <> [] /\ exists f, find_field gn r = Some (GF f) /\ plain_field f;
  un_parts : forall gn n q0 f, visited g q gn n -> q0 ∈ qfields n -> find_field gn (q_name q0) = Some (GF f) ->
    q_is_link q0 = true -> qordered n = false;
  un_keys : forall gn n, visited g q gn n -> NoDup (map result_key (qfields n));
  un_bracket : forall gn q0, asked g q gn q0 -> 91%N ∉ q_name q0;
  un_root : find_node g (s "__root__") = None;
}.

Section c21.
  Context (g : graph) (q : qnode).
  Hypothesis Hopts : distinct_options g.
  Hypothesis Hfits : fits_query g q.

  Lemma fits_names q0 : forall gn, fits g gn q0 -> names_exist g gn q0 /\ ~ lacks_option g gn q0.
  Proof.
    induction q0 as [n o a|n sub ord o a IH] using qitem_ind'; intros gn; simpl.
    - intros (f & Hf & Ho & _). rewrite Hf. simpl. split; [done|]. intros [(d & Hd & Hv)|[]]. by apply (Ho d Hd).
    - destruct (find_field gn n) as [[f|l]|]; [| |done].
      + intros [[Ho _] _]. split; [done|]. intros [(d & Hd & Hv)|[]]. by apply (Ho d Hd).
      + intros [[Ho _] (gn' & Hn & _ & Hs)]. rewrite Hn. rewrite Forall_forall in IH.
        assert (foldr (fun q' P => names_exist g gn' q' /\ P) True sub /\ ~ foldr (fun q' P => lacks_option g gn' q' \/ P) False sub) as [H1 H2].
        { clear -IH Hs. induction sub as [|q1 sub IHs]; [simpl; tauto|]. simpl in *. destruct Hs as [Hs1 Hs2].
          destruct (IH q1 ltac:(left) gn' Hs1). destruct IHs; [intros; apply IH; [by right|done]|done|]. tauto. }
        split; [done|]. intros [(d & Hd & Hv)|Hx]; [by apply (Ho d Hd)|done].
  Qed.
  Lemma fits_init : exists q', init_options g q = Ok q'.
  Proof.
    destruct Hfits as [_ Hs].
    destruct (@C11_missing_option g ex_hasher (ex_env false) q) as [[(q0 & Hq0 & Hl) _]|[_ Hi]]; [| |done].
    - intros q0 Hq0. by apply fits_names, Hs.
    - exfalso. by apply (fits_names q0 (g_root g)); [apply Hs|].
  Qed.
  Lemma fits_visited gn n : visited g q gn n -> forall q0, q0 ∈ qfields n -> fits g gn q0.
  Proof.
    induction 1 as [|gn n q1 l gn' Hv IH Hq Hk Hf Hn]; [by apply Hfits|]. intros q0 Hq0.
    specialize (IH q1 Hq). destruct q1 as [|nm sub ord o a]; [done|]. simpl in *. rewrite Hf in IH.
    destruct IH as [_ (gn2 & Hn2 & _ & Hs)]. rewrite Hn in Hn2. injection Hn2 as <-.
    rewrite foldr_conj in Hs. by apply Hs.
  Qed.

  Lemma fits_supported `{Hasher} q' : init_options g q = Ok q' -> unchecked g q ->
    (forall gn, no_collision (asked g q' gn)) -> supported g q'.
  Proof.
    intros Hi [U1 U2 U3 U4 U5 U6] Hcoll.
    assert (forall gn n' q1, visited g q' gn n' -> q1 ∈ qfields n' ->
      exists n q0, visited g q gn n /\ q0 ∈ qfields n /\ normalized g gn q0 q1) as Hback.
    { intros gn n' q1 Hv Hq1. destruct (visited_normalized g Hopts q q' Hi gn n' Hv) as (_ & n & Hvn & Hnm).
      apply elem_of_list_lookup in Hq1 as [k Hk]. destruct (Forall2_lookup_r _ _ _ _ _ Hnm Hk) as (q0 & Hq0 & Hno).
      exists n, q0. split; [done|]. split; [by eapply elem_of_list_lookup_2|done]. }
    assert (forall gn q0 q1, normalized g gn q0 q1 -> q_name q1 = q_name q0 /\ result_key q1 = result_key q0 /\ q_is_link q1 = q_is_link q0) as Hsame.
    { intros gn q0 q1 Hno. by inversion Hno; subst. }
    assert (forall gn n', visited g q' gn n' -> exists n, visited g q gn n /\ qordered n' = qordered n /\ Forall2 (normalized g gn) (qfields n) (qfields n')) as Hord.
    { intros gn n' Hv. induction Hv as [|gn n' q1 l gn' Hv IH Hq Hk Hf Hn].
      - exists q. split; [constructor|]. by apply C11_normalized_options.
      - destruct IH as (n & Hvn & _ & Hnm). apply elem_of_list_lookup in Hq as [k Hk']. destruct (Forall2_lookup_r _ _ _ _ _ Hnm Hk') as (q0 & Hq0 & Hno).
        apply elem_of_list_lookup_2 in Hq0.
        inversion Hno as [? nm o a o' go H1 H2 H3|? nm sub ord o a o' f H1 H2 H3|? nm sub sub' ord o a o' l0 gn0 H1 H2 H3 H4 H5]; subst; try done; simpl in *.
        + congruence.
        + rewrite Hf in H1. injection H1 as <-. rewrite Hn in H2. injection H2 as <-. exists (QN sub ord).
          split; [|done]. by apply (vis_link g q gn n (QL nm sub ord o a) l gn'). }
    split.
    - intros gn n' q1 Hv Hq1. destruct (Hord gn n' Hv) as (n & Hvn & Ho & Hnm).
      apply elem_of_list_lookup in Hq1 as [k Hk]. destruct (Forall2_lookup_r _ _ _ _ _ Hnm Hk) as (q0 & Hq0 & Hno).
      apply elem_of_list_lookup_2 in Hq0. destruct (Hsame _ _ _ Hno) as (E1 & E2 & E3). rewrite E1, E3, Ho.
      pose proof (fits_visited gn n Hvn q0 Hq0) as Hfit.
      destruct (find_field gn (q_name q0)) as [[f|l]|] eqn:Ef.
      + split; [by eapply U1|]. by eapply U3.
      + destruct q0 as [nm o a|nm sub ord o a]; simpl in Hfit, Ef.
        * destruct Hfit as (f & Hf & _). congruence.
        * rewrite Ef in Hfit. destruct Hfit as [_ (gn' & Hn & _)]. split; [done|]. split; [by eexists|].
          destruct (gl_requires l) as [r|] eqn:Er; [|done]. by eapply (U2 gn n (QL nm sub ord o a)).
      + destruct q0 as [nm o a|nm sub ord o a]; simpl in Hfit, Ef; [destruct Hfit as (f & Hf & _); congruence|by rewrite Ef in Hfit].
    - intros gn n' Hv. destruct (Hord gn n' Hv) as (n & Hvn & _ & Hnm).
      assert (map result_key (qfields n') = map result_key (qfields n)) as ->; [|by eapply U4].
      clear -Hnm Hsame. induction Hnm as [|x y l l' Hx _ IH]; [done|]. simpl. destruct (Hsame _ _ _ Hx) as (_ & -> & _). by rewrite IH.
    - intros gn q1 (n' & Hv & Hq1). destruct Hq1 as [Hq1|(q2 & l & r & Hq2 & Hk & Hf & Hr & ->)].
      + destruct (Hback _ _ _ Hv Hq1) as (n & q0 & Hvn & Hq0 & Hno). destruct (Hsame _ _ _ Hno) as (-> & _). apply (U5 gn). exists n. auto.
      + destruct (Hback _ _ _ Hv Hq2) as (n & q0 & Hvn & Hq0 & Hno). destruct (Hsame _ _ _ Hno) as (E1 & _ & E3).
        apply (U5 gn). exists n. split; [done|]. right. exists q0, l, r. split; [done|]. split; [congruence|]. split; [congruence|done].
    - done.
    - done.
  Qed.
End c21.

(** C21: a query without validation errors can be executed: options can be completed and, for
    every schedule, execution gives the result of the query and raises nothing.
    Partial: [unchecked] lists what is not checked and still needed; fields of sub-graphs are
    not covered. *)
Theorem C21_validated_query_executes_partial `{Hasher} (E : env) (g : graph) (D : data) (q : qnode) k :
  validate k g q = Ok [] -> (forall q0, q0 ∈ qfields q -> options_proper q0) -> distinct_options g -> unchecked g q ->
  serves E D -> respects_options D ->
  exists q', init_options g q = Ok q' /\
    ((forall gn, no_collision (asked g q' gn)) -> links_ok g (plain_value D) D q' ->
     forall fuel sched r, execute E (S fuel) g q sched r ->
       exists idx, r = Ok (idx, q') /\ denormalize g idx q' = resolve_query g (plain_value D) D q').
Proof.
  intros Hv Hp Hd Hu Hs Hr. pose proof (C21_accepted_query_fits g k q Hp Hv) as Hf.
  destruct (fits_init g q Hf) as [q' Hi]. exists q'. split; [done|]. intros Hc Hl fuel sched r He.
  eapply (C04_result_independent_of_schedule_partial E g D q q'); try done. by eapply fits_supported.
Qed.
(** ... and it comes to an end whatever the executor does. *)
Theorem C21_validated_query_ends_partial `{Hasher} (E : env) (g : graph) (D : data) (q q' : qnode) k fuel sched x y :
  validate k g q = Ok [] -> (forall q0, q0 ∈ qfields q -> options_proper q0) -> distinct_options g -> unchecked g q ->
  serves E D -> respects_options D -> init_options g q = Ok q' ->
  (forall gn, no_collision (asked g q' gn)) -> links_ok g (plain_value D) D q' ->
  start E g q = Ok x -> rounds E (S fuel) sched x y ->
  exists sched2 idx, execute E (S fuel) g q (sched ++ sched2) (Ok (idx, q')).
Proof.
  intros Hv Hp Hd Hu Hs Hr Hi Hc Hl Hx Hy. pose proof (C21_accepted_query_fits g k q Hp Hv) as Hf.
  pose proof (fits_supported g q Hd Hf q' Hi Hu Hc) as Hsup.
  destruct (C05_terminates_partial E g D q q' Hi Hs Hr Hsup Hl fuel sched x y Hx Hy) as (sched2 & r & He).
  destruct (C04_result_independent_of_schedule_partial E g D q q' Hi Hs Hr Hsup Hl fuel _ r He) as (idx & -> & _). eauto.
Qed.

(** ** The hypotheses are met *)
Lemma supported_unchecked `{Hasher} g q : supported g q -> unchecked g q.
Proof.
  intros [S1 S2 S3 S4 S5]. split; try done.
  - intros gn n q0 f Hv Hq Hf. specialize (S1 gn n q0 Hv Hq). rewrite Hf in S1. tauto.
  - intros gn n q0 l r Hv Hq Hf Hr. specialize (S1 gn n q0 Hv Hq). rewrite Hf, Hr in S1. tauto.
  - intros gn n q0 f Hv Hq Hf. specialize (S1 gn n q0 Hv Hq). rewrite Hf in S1. tauto.
Qed.
#[local] Existing Instance ex_hasher.
Example C21_ex_valid : validate 5 ex_graph ex_query = Ok [].
Proof. vm_compute. reflexivity. Qed.
Example C21_ex_proper q0 : q0 ∈ qfields ex_query -> options_proper q0.
Proof.
  intros Hq. apply elem_of_list_In in Hq. vm_compute in Hq. repeat destruct Hq as [Hq|Hq]; try done; subst q0; vm_compute;
    repeat (first [split | constructor | intros ? ?]); try done.
Qed.
Example C21_ex_unchecked : unchecked ex_graph ex_query.
Proof. apply (@supported_unchecked ex_hasher), supported_check. vm_compute. reflexivity. Qed.
Example C21_ex_collisions q' : init_options ex_graph ex_query = Ok q' ->
  (forall gn, no_collision (asked ex_graph q' gn)) /\ links_ok ex_graph (plain_value ex_data) ex_data q'.
Proof.
  rewrite ex_init. intros [= <-]. split; [apply (sp_coll _ _ ex_supported)|exact ex_links_ok].
Qed.
(** The refused queries: an unknown name, a link asked as a field, a missing option, an unknown
    option, two different members with the same key *)
Example C21_ex_refused :
  validate 5 ex_graph (QN [QF (s "versions") None None; QF (s "me") None None; QF (s "limited") None None;
    QF (s "me_id") (Some [(s "x", VInt 1)]) None; QL (s "users") [QF (s "name") None None; QF (s "boss_id") None (Some (s "name"))] false None None] false)
  = Ok [ENoField None (s "versions"); ELinkAsField None (s "me"); ERequiredOption None (s "limited") (s "n");
        EUnknownOptions None (s "me_id") [s "x"]; ESameKey (Some (s "User")) (s "name")].
Proof. vm_compute. reflexivity. Qed.
Example C25_ex_accepted : new_graph (g_items ex_graph) [] = Ok ex_graph.
Proof. vm_compute. reflexivity. Qed.
Example C25_ex_refused :
  gvalidate [GNode None [GF (GField (s "a") None (FPlain 1) []); GF (GField (s "a") None (FPlain 1) []);
                         GL (GLink (s "b") One (s "Missing") 2 (Some (s "c")) [])];
             GNode (Some (s "N")) []; GNode (Some (s "N")) []]
  = [GMissingNode None (s "b") (s "Missing"); GMissingField None (s "b") (s "c"); GDupFields None [s "a"]; GDupNodes [s "N"]].
Proof. vm_compute. reflexivity. Qed.

(** ** Findings *)
(** C22: an unknown name with sub-selections inside of a record raises [KeyError]
    (validate/query.py:236: [self._field_types[obj.name]]). *)
Theorem C22_unknown_link_in_record_refuted k :
  new_graph (g_items rec_graph) [] = Ok rec_graph /\
  validate (S k) rec_graph (QN [QL (s "point") [QL (s "y") [QF (s "z") None None] false None None] false None None] false) = Err KeyError.
Proof. split; vm_compute; reflexivity. Qed.
(** C22: an option declared with a callable type raises [AttributeError] for every value
    ([_OptionTypeValidator] lacks [visit_callable]); one which refers to an unknown data type
    raises [AssertionError]; a field of an unknown data type raises [KeyError]. *)
Definition opt_graph (t : ty) (ft : option ty) (dt : dict str ty) : graph :=
  Graph [GNode None [GF (GField (s "f") ft (FPlain 1) [GOption (s "o") (Some t) VNothing])]] dt.
Theorem C22_option_types_refuted k v : v <> VNothing ->
  new_graph (g_items (opt_graph (TCall []) None [])) [] = Ok (opt_graph (TCall []) None []) /\
  validate (S k) (opt_graph (TCall []) None []) (QN [QF (s "f") (Some [(s "o", v)]) None] false) = Err AttributeError /\
  validate (S k) (opt_graph (TRef (s "T")) None []) (QN [QF (s "f") (Some [(s "o", v)]) None] false) = Err AssertionError /\
  validate (S k) (opt_graph TAny (Some (TRef (s "T"))) []) (QN [QL (s "f") [] false (Some [(s "o", v)]) None] false) = Err KeyError.
Proof. intros Hv. destruct v; try done; repeat split; vm_compute; reflexivity. Qed.
(** C22: an option of the recursive type [T = Sequence[T]] given a non-empty text: no depth of
    recursion is enough, as the items of a text are texts. *)
Definition loop_types : dict str ty := [(s "T", TSeq (TRef (s "T")))].
Theorem C22_recursive_type_refuted k :
  validate k (opt_graph (TRef (s "T")) None loop_types) (QN [QF (s "f") (Some [(s "o", VStr (s "a"))]) None] false) = Err OutOfFuel.
Proof.
  assert (forall k, opt_check k loop_types (TRef (s "T")) (VStr (s "a")) = CExn OutOfFuel) as Hk.
  { fix IH 1. intros [|[|k0]]; [done|done|]. specialize (IH k0). 
    cbn [opt_check]. change (dget (s "T") loop_types) with (Some (TSeq (TRef (s "T")))). cbn [opt_check].
    change (seq_of (VStr (s "a"))) with (Some [VStr (s "a")]). cbn [map chk_all]. by rewrite IH. }
  set (gg := opt_graph (TRef (s "T")) None loop_types).
  set (ds := [GOption (s "o") (Some (TRef (s "T"))) VNothing]).
  transitivity (match check_options k loop_types None (s "f") (Some [(s "o", VStr (s "a"))]) ds with
                | Err e => Err e | Ok errs => Ok ([] ++ errs ++ []) end); [reflexivity|].
  unfold check_options. cbn [ds mapR]. unfold check_option at 1.
  change (dget (go_name (GOption (s "o") (Some (TRef (s "T"))) VNothing)) (opt_dict (Some [(s "o", VStr (s "a"))]))) with (Some (VStr (s "a"))).
  cbn [go_type]. by rewrite Hk.
Qed.
(** C24: two parts of a record with the same key but different names are accepted. *)
Definition pair_graph : graph := Graph
  [GNode None [GF (GField (s "point") (Some (TRec [(s "x", TInt); (s "y", TInt)])) (FPlain 1) [])]] [].
Theorem C24_clash_in_record_refuted k :
  validate (S (S k)) pair_graph (QN [QL (s "point") [QF (s "x") None (Some (s "a")); QF (s "y") None (Some (s "a"))] false None None] false) = Ok [].
Proof. vm_compute. reflexivity. Qed.
(** C26: a link which requires a link: the graph is accepted, the query has no validation
    errors, and the loader of the required link is called as if it were the loader of a field:
    with a list of fields. *)
Definition req_link_graph : graph := Graph
  [GNode (Some (s "U")) [GF (GField (s "name") None (FPlain 1) [])];
   GNode None [GL (GLink (s "one") One (s "U") 2 None []); GL (GLink (s "two") Many (s "U") 3 (Some (s "one")) [])]] [].
Theorem C26_link_required_refuted k :
  new_graph (g_items req_link_graph) [] = Ok req_link_graph /\
  validate (S k) req_link_graph (QN [QL (s "two") [QF (s "name") None None] false None None] false) = Ok [] /\
  exists x c, start (ex_env false) req_link_graph (QN [QL (s "two") [QF (s "name") None None] false None None] false) = Ok x /\
    c ∈ w_log x.1 /\ c_func c = 2%N /\ c_args c = AFields [QF (s "one") None None] None.
Proof.
  split; [vm_compute; reflexivity|]. split; [vm_compute; reflexivity|]. eexists. eexists. split; [vm_compute; reflexivity|].
  split; [left|done].
Qed.
(** C21: an accepted query may fail anyway: parts of a record in an ordered node, see C10. *)
Theorem C21_ordered_parts_refuted E k :
  new_graph (g_items rec_graph) [] = Ok rec_graph /\
  validate (S (S k)) rec_graph (rec_query true) = Ok [] /\ start E rec_graph (rec_query true) = Err AttributeError.
Proof. split; [vm_compute; reflexivity|]. split; vm_compute; reflexivity. Qed.
(** C23: what [conforms] says of bools and of texts is what the code does. *)
Example C23_bool_is_int : opt_check 3 [] TInt (VBool true) = COk. Proof. reflexivity. Qed.
Example C23_text_is_sequence : opt_check 3 [] (TSeq TStr) (VStr (s "abc")) = COk. Proof. reflexivity. Qed.
Example C23_record : opt_check 5 [(s "P", TRec [(s "x", TInt); (s "y", TOpt TInt)])] (TSeq (TRef (s "P")))
  (VList [VDict [(VStr (s "y"), VNone); (VStr (s "x"), VInt 1)]]) = COk. Proof. reflexivity. Qed.
Example C23_record_missing : opt_check 5 [(s "P", TRec [(s "x", TInt); (s "y", TOpt TInt)])] (TSeq (TRef (s "P")))
  (VList [VDict [(VStr (s "x"), VInt 1)]]) = CBad (WMissing [s "y"]). Proof. reflexivity. Qed.

Print Assumptions C21_accepted_query_fits.
Print Assumptions C21_fitting_query_accepted.
Print Assumptions C21_refused_query_does_not_fit.
Print Assumptions C21_validated_query_executes_partial.
Print Assumptions C21_validated_query_ends_partial.
Print Assumptions C21_ordered_parts_refuted.
Print Assumptions C22_reports_partial.
Print Assumptions C22_unknown_link_in_record_refuted.
Print Assumptions C22_option_types_refuted.
Print Assumptions C22_recursive_type_refuted.
Print Assumptions C23_accepted_conforms.
Print Assumptions C23_conforming_accepted.
Print Assumptions C23_refused_does_not_conform.
Print Assumptions C23_decided.
Print Assumptions C24_ambiguous_reported_partial.
Print Assumptions C24_clash_in_record_refuted.
Print Assumptions C25_accepted_iff_well_formed.
Print Assumptions C25_refused_otherwise.
Print Assumptions C26_requirement_is_member_partial.
Print Assumptions C26_link_required_refuted.

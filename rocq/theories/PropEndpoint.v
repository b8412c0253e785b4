(** Theorems about the GraphQL endpoint (C46): hiku/endpoint/graphql.py. *)
From stdpp Require Import relations.
From Verif Require Import Base Val Types Query QuerySpec QueryProof Graph Queue QueueSpec QueueProof Result Engine EngineSpec CallSpec PropCalls PropEngine PropOptions ValProof Validate ValidateSpec PropValidate PropValExec PropResult ReadGraphql PropRead Introspect GraphExt PropIntroGraph Endpoint.

(** ** Specification *)
Section spec.
  Context `{Hasher}.
  (** The request holds a document, and reading it gives the operation [t] with the query [q] *)
  Definition reads (rq : request) (t : optype) (q : qnode) : Prop :=
    exists doc name, rq_query rq = Some (Some doc) /\ read_operation doc (rq_vars rq) (rq_opname rq) = ROk (t, q, name).
  (** The graph against which operations of the type [t] run *)
  Inductive runs_on (ep : endpoint) : optype -> graph -> Prop :=
  | ro_query : runs_on ep OQuery (ep_query ep)
  | ro_mutation g : ep_mutation ep = Some g -> runs_on ep OMutation g.
  (** The request is valid: it can be read and validation has no errors for it; [__typename] is answered by the
      endpoint itself *)
  Definition valid_request (k : nat) (ep : endpoint) (rq : request) : Prop :=
    exists t g q, reads rq t q /\ runs_on ep t g /\ validate k g (strip_query q) = Ok [].
  (** What is wrong with the request *)
  Inductive complaints (k : nat) (ep : endpoint) (rq : request) : list emsg -> Prop :=
  | cp_read doc e :
      rq_query rq = Some (Some doc) -> read_operation doc (rq_vars rq) (rq_opname rq) = RErr e -> exn_of e = TypeError ->
      complaints k ep rq [MRead e]
  | cp_operation t q : reads rq t q -> (forall g, ~ runs_on ep t g) -> complaints k ep rq [MUnsupported t]
  | cp_invalid t q g errs :
      reads rq t q -> runs_on ep t g -> validate k g (strip_query q) = Ok errs -> errs <> [] ->
      complaints k ep rq (map MInvalid errs).
End spec.

Section thms.
  Context `{Hasher} (E : env) (fuel k : nat) (ep : endpoint) (rq : request).

  Lemma prepare_run t g q : prepare k ep rq = PRun t g q <-> reads rq t q /\ runs_on ep t g /\ validate k g (strip_query q) = Ok [].
  Proof.
    unfold prepare, switch_graph, reads. split.
    - destruct (rq_query rq) as [[doc|]|]; [|done|done]. destruct (read_operation _ _ _) as [[[t' q'] nm]|e] eqn:Er.
      + destruct t'; [|destruct (ep_mutation ep) eqn:Em; [|done]|done];
          (destruct (validate _ _ _) as [[|]|] eqn:Ev; [|done|done]); intros [= <- <- <-];
          (split; [by exists doc, nm|]); (split; [by constructor|done]).
      + destruct (exn_of e); done.
    - intros ((doc & nm & -> & ->) & [|g' Hg'] & Hv); [by rewrite Hv|]. by rewrite Hg', Hv.
  Qed.
  Lemma prepare_errors l : prepare k ep rq = PErrors l <-> complaints k ep rq l.
  Proof.
    unfold prepare, switch_graph. split.
    - destruct (rq_query rq) as [[doc|]|] eqn:Eq; [|done|done]. destruct (read_operation _ _ _) as [[[t' q'] nm]|e] eqn:Er.
      + assert (reads rq t' q') as Hr by by exists doc, nm.
        destruct t'; [|destruct (ep_mutation ep) eqn:Em|].
        * destruct (validate _ _ _) as [[|er errs]|] eqn:Ev; [done| |done]. intros [= <-]. by eapply (cp_invalid _ _ _ _ _ _ (er :: errs)); [done|constructor|done|].
        * destruct (validate _ _ _) as [[|er errs]|] eqn:Ev; [done| |done]. intros [= <-]. by eapply (cp_invalid _ _ _ _ _ _ (er :: errs)); [done|by constructor|done|].
        * intros [= <-]. eapply cp_operation; [done|]. intros g Hg. inversion Hg; congruence.
        * intros [= <-]. eapply cp_operation; [done|]. intros g Hg. inversion Hg.
      + destruct (exn_of e) eqn:Ee; try done. intros [= <-]. by eapply cp_read.
    - intros [doc e Eq Er Ee|t q (doc & nm & -> & ->) Hno|t q g errs (doc & nm & -> & ->) Hg Hv Hne].
      + by rewrite Eq, Er, Ee.
      + destruct t; [exfalso; by eapply Hno, ro_query|destruct (ep_mutation ep) eqn:Em; [exfalso; by eapply Hno, ro_mutation|done]|done].
      + destruct Hg as [|g Hg]; [|rewrite Hg]; rewrite Hv; by destruct errs.
  Qed.

  (** A valid request in the execution of which user code raised GraphQLError with the errors [ls] *)
  Definition raised (sched : list (list nat)) (ls : list N) : Prop :=
    exists t g q, reads rq t q /\ runs_on ep t g /\ validate k g (strip_query q) = Ok [] /\
      execute E fuel g (strip_query q) sched (Err (GraphqlErr ls)).
  (** C46: the answer holds errors exactly when there are complaints, and it holds all of them: all the messages
      of validation, and for this no call has to finish; or when user code itself raised GraphQLError, and then it
      holds what that exception holds. *)
  Theorem C46_errors_iff sched l : dispatches E fuel k ep rq sched (Ok (AErrors l)) <->
    (sched = [] /\ complaints k ep rq l) \/ (exists ls, raised sched ls /\ l = map MRaised ls).
  Proof.
    rewrite <-prepare_errors. split.
    - inversion 1 as [|l' Hp|t g q sched' e Hp He Hs Hr|t g q sched' idx pn Hp He Hs Hr]; subst; [by left| |by destruct (process_with _ _ _ _ _)].
      right. destruct e as [| | | | | | | | | |ls|]; try done. injection Hr as <-. exists ls. split; [|done].
      exists t, g, q. apply prepare_run in Hp as (? & ? & ?). done.
    - intros [[-> Hp]|(ls & (t & g & q & Hrd & Hg & Hv & He) & ->)]; [by apply dp_errors|].
      exact (dp_fails E fuel k ep rq t g q sched (GraphqlErr ls) (proj2 (prepare_run t g q) (conj Hrd (conj Hg Hv))) He).
  Qed.
  (** C46: every other exception of execution is not answered but raised by the endpoint *)
  Theorem C46_other_exceptions sched t g q e : reads rq t q -> runs_on ep t g -> validate k g (strip_query q) = Ok [] ->
    execute E fuel g (strip_query q) sched (Err e) -> (forall ls, e <> GraphqlErr ls) -> dispatches E fuel k ep rq sched (Err e).
  Proof.
    intros Hrd Hg Hv He Hne. pose proof (dp_fails E fuel k ep rq t g q sched e (proj2 (prepare_run t g q) (conj Hrd (conj Hg Hv))) He) as Hd.
    destruct e; try exact Hd. by destruct (Hne l).
  Qed.
  (** C46: the answer holds data only for valid requests, *)
  Theorem C46_data_only_if_valid sched d : dispatches E fuel k ep rq sched (Ok (AData d)) -> valid_request k ep rq.
  Proof.
    inversion 1 as [| |t g q sched' e Hp He Hs Hr|t g q sched' idx pn Hp He Hs Hr]; subst; [by destruct e|]. apply prepare_run in Hp as (? & ? & ?). by exists t, g, q.
  Qed.
  (** and valid requests are never answered with errors, but with those which user code raised. *)
  Theorem C46_valid_has_no_errors sched a : valid_request k ep rq -> dispatches E fuel k ep rq sched (Ok a) ->
    (exists d, a = AData d) \/ (exists ls, raised sched ls /\ a = AErrors (map MRaised ls)).
  Proof.
    intros (t & g & q & Hr & Hg & Hv). assert (prepare k ep rq = PRun t g q) as Hp by (apply prepare_run; done).
    inversion 1 as [|l Hl|t' g' q' sched' e Hp' He Hs Hx|t' g' q' sched' idx pn Hp' He Hs Hx]; subst.
    - congruence.
    - right. destruct e as [| | | | | | | | | |ls|]; try done. injection Hx as <-. exists ls. split; [|done].
      exists t', g', q'. apply prepare_run in Hp' as (? & ? & ?). done.
    - left. destruct (process_with _ _ _ _ _) as [d|]; [|done]. injection Hx as <-. by exists d.
  Qed.
  Theorem C46_valid_has_no_complaints l : valid_request k ep rq -> ~ complaints k ep rq l.
  Proof.
    intros (t & g & q & Hv). rewrite <-prepare_errors, (proj2 (prepare_run t g q) Hv). done.
  Qed.
  (** C46: what is not valid and gets no errors is an exception of reading (other than [TypeError]) or validation *)
  Theorem C46_otherwise_exception : 
    valid_request k ep rq \/ (exists l, complaints k ep rq l) \/
    (exists e, dispatches E fuel k ep rq [] (Err e) /\
       (rq_query rq = None \/ rq_query rq = Some None \/
        (exists doc x, rq_query rq = Some (Some doc) /\ read_operation doc (rq_vars rq) (rq_opname rq) = RErr x /\ exn_of x = e /\ e <> TypeError) \/
        (exists t q g, reads rq t q /\ runs_on ep t g /\ validate k g (strip_query q) = Err e))).
  Proof.
    destruct (prepare k ep rq) as [e|l|t g q] eqn:Ep.
    - right. right. exists e. split; [by apply dp_exn|]. unfold prepare, switch_graph in Ep.
      destruct (rq_query rq) as [[doc|]|] eqn:Eq; [|by right; left|by left]. destruct (read_operation _ _ _) as [[[t' q'] nm]|x] eqn:Er.
      + right. right. right. assert (reads rq t' q') as Hr by by exists doc, nm.
        destruct t'; [|destruct (ep_mutation ep) eqn:Em; [|done]|done];
          (destruct (validate _ _ _) as [[|]|] eqn:Ev; [done|done|]; injection Ep as ->);
          eexists _, q', _; (split; [exact Hr|]); (split; [by constructor|done]).
      + right. right. left. exists doc, x. split; [done|]. split; [done|]. destruct (exn_of x) eqn:Ex; try discriminate Ep; injection Ep as <-; done.
    - right. left. exists l. by apply prepare_errors.
    - left. apply prepare_run in Ep as (? & ? & ?). by exists t, g, q.
  Qed.
  (** C46: no loader is called for a request which is not valid. *)
  Theorem C46_no_calls_unless_valid log : dispatch_calls E fuel k ep rq log -> ~ valid_request k ep rq -> log = [].
  Proof.
    intros [|t g q sched x y Hp Hx Hr] Hn; [done|]. exfalso. apply Hn. apply prepare_run in Hp as (? & ? & ?). by exists t, g, q.
  Qed.
  Theorem C46_errors_no_calls sched l log :
    dispatches E fuel k ep rq sched (Ok (AErrors l)) -> dispatch_calls E fuel k ep rq log ->
    log = [] \/ exists ls, raised sched ls /\ l = map MRaised ls.
  Proof.
    intros [[_ Hc]|Hc]%C46_errors_iff Hl; [left|by right]. apply (C46_no_calls_unless_valid _ Hl). intros Hv. by eapply C46_valid_has_no_complaints.
  Qed.
  (** C46: operations call the functions of their graph only: mutations those of the mutation graph *)
  Theorem C46_calls_own_graph log c t q : dispatch_calls E fuel k ep rq log -> c ∈ log -> reads rq t q ->
    exists g, runs_on ep t g /\ all_loaders E g (c_func c).
  Proof.
    intros [|t' g q' sched x y Hp Hx Hr] Hc (doc & nm & Hd & Hq); [by apply not_elem_of_nil in Hc|].
    apply prepare_run in Hp as ((doc' & nm' & Hd' & Hq') & Hg & _). rewrite Hd in Hd'. injection Hd' as <-. rewrite Hq in Hq'. injection Hq' as <- <- <-.
    exists g. split; [done|]. by eapply C52_only_loaders_of_graph.
  Qed.
End thms.

(** The functions of the graph with introspection are those of the graph and those of introspection *)
Definition intro_loader (L : loaders) (f : N) : Prop := (exists n, f = ld_typename L n) \/ (exists n, f = ld_intro L n).
Lemma intro_items_loaders L gn go : gn ∈ intro_items L -> go ∈ gn_fields gn -> exists f, fkey_of go = KPlain f /\ intro_loader L f.
Proof.
  unfold intro_items. rewrite !elem_of_cons, elem_of_nil. intros Hn Hg.
  destruct Hn as [->|[->|[->|[->|[->|[->|[->|[]]]]]]]]; cbn [gn_fields] in Hg; rewrite !elem_of_cons, elem_of_nil in Hg;
    repeat destruct Hg as [->|Hg]; try done; (eexists; split; [reflexivity|right; by eexists]).
Qed.
Lemma added_loaders L E g g' f : add_introspection L g = Ok g' -> all_loaders E g' f -> all_loaders E g f \/ intro_loader L f.
Proof.
  intros Ha. pose proof (added_eq _ _ _ Ha) as Hg'.
  assert (forall gn go, gn ∈ g_items g' -> go ∈ gn_fields gn -> (exists gn', gn' ∈ g_items g /\ go ∈ gn_fields gn') \/ exists f, fkey_of go = KPlain f /\ intro_loader L f) as Hin.
  { intros gn go Hgn Hgo. rewrite Hg' in Hgn. cbn [g_items] in Hgn. apply elem_of_app in Hgn as [Hgn|Hgn]; [|right; by eapply intro_items_loaders].
    apply elem_of_list_fmap in Hgn as (gn' & -> & Hgn'). cbn [add_typename gn_fields] in Hgo. apply elem_of_app in Hgo as [Hgo|Hgo]; [left; by exists gn'|].
    apply elem_of_list_singleton in Hgo as ->. right. eexists. split; [reflexivity|]. left. by eexists. }
  intros [f' (gn & go & Hgn & Hgo & Hk)|sg G node f' (gn & go & Hgn & Hgo & Hk) Hsg Hal].
  - destruct (Hin _ _ Hgn Hgo) as [(gn' & H1 & H2)|(f0 & H1 & H2)].
    + left. apply al_own. by exists gn', go.
    + rewrite Hk in H1. injection H1 as <-. by right.
  - destruct (Hin _ _ Hgn Hgo) as [(gn' & H1 & H2)|(f0 & H1 & H2)]; [|congruence].
    left. eapply al_sub; [|done|done]. by exists gn', go.
Qed.
(** C46: so with the endpoint made of a query graph and a mutation graph: queries never call functions which are
    only in the mutation graph, and the other way round. *)
Theorem C46_mutations_on_mutation_graph `{Hasher} L qg mg ep E fuel k rq log c t q :
  new_endpoint L qg mg = Ok ep -> dispatch_calls E fuel k ep rq log -> c ∈ log -> reads rq t q ->
  intro_loader L (c_func c) \/
  match t with
  | OQuery => all_loaders E qg (c_func c)
  | OMutation => exists g, mg = Some g /\ all_loaders E g (c_func c)
  | OSubscription => False
  end.
Proof.
  intros He Hl Hc Hr. destruct (C46_calls_own_graph _ _ _ _ _ _ _ _ _ Hl Hc Hr) as (g & Hg & Ha).
  unfold new_endpoint in He. destruct (add_introspection L qg) as [qg'|] eqn:E1; [|done].
  destruct mg as [m|]; [destruct (add_introspection L m) as [m'|] eqn:E2; [|done]|]; injection He as <-.
  - destruct Hg as [|g Hg]; [by destruct (added_loaders _ _ _ _ _ E1 Ha); auto|]. cbn in Hg. injection Hg as <-.
    destruct (added_loaders _ _ _ _ _ E2 Ha); eauto.
  - destruct Hg as [|g Hg]; [by destruct (added_loaders _ _ _ _ _ E1 Ha); auto|]. done.
Qed.

(** C46: batches are answered item by item, in their order; *)
Theorem C46_batch_in_order `{Hasher} E fuel k ep rqs scheds l :
  dispatches_batch E fuel k ep rqs scheds (Ok l) <-> Forall3 (fun rq sched a => dispatches E fuel k ep rq sched (Ok a)) rqs scheds l.
Proof.
  split.
  - intros Hb. remember (Ok l) as r eqn:Er. revert l Er. induction Hb as [| |rq rqs sched scheds a r Hd Hb IH]; intros l Er.
    + injection Er as <-. constructor.
    + done.
    + destruct r as [l'|]; [|done]. injection Er as <-. constructor; [done|]. by apply IH.
  - induction 1 as [|rq sched a rqs scheds l Hd _ IH]; [constructor|].
    exact (db_rest _ _ _ _ _ _ _ _ _ (Ok l) Hd IH).
Qed.
(** an exception ends the batch: the items before it were answered. *)
Theorem C46_batch_raises `{Hasher} E fuel k ep rqs scheds e :
  dispatches_batch E fuel k ep rqs scheds (Err e) <->
  exists rqs1 rq rqs2 scheds1 sched l, rqs = rqs1 ++ rq :: rqs2 /\ scheds = scheds1 ++ [sched] /\
    Forall3 (fun rq sched a => dispatches E fuel k ep rq sched (Ok a)) rqs1 scheds1 l /\ dispatches E fuel k ep rq sched (Err e).
Proof.
  split.
  - intros Hb. remember (Err e) as r eqn:Er. induction Hb as [|rq rqs sched e' Hd|rq rqs sched scheds a r Hd Hb IH]; [done| |].
    + injection Er as ->. exists [], rq, rqs, [], sched, []. by split_and!; [..|constructor|].
    + destruct r as [l'|e']; [done|]. injection Er as ->. destruct (IH eq_refl) as (rqs1 & rq' & rqs2 & scheds1 & sched' & l & -> & -> & Hf & He).
      exists (rq :: rqs1), rq', rqs2, (sched :: scheds1), sched', (a :: l). split_and!; [done|done| |done]. by constructor.
  - intros (rqs1 & rq & rqs2 & scheds1 & sched & l & -> & -> & Hf & He).
    induction Hf as [|rq' sched' a rqs1 scheds1 l Hd _ IH]; cbn [app]; [by constructor|].
    exact (db_rest _ _ _ _ _ _ _ _ _ (Err e) Hd IH).
Qed.

(** ** The data of the answer *)
(** Queries which differ in options only *)
Inductive same_shape : qitem -> qitem -> Prop :=
| ss_field n o o' a : same_shape (QF n o a) (QF n o' a)
| ss_link n sub sub' ord o o' a : Forall2 same_shape sub sub' -> same_shape (QL n sub ord o a) (QL n sub' ord o' a).
Lemma same_shape_keys sub sub' : Forall2 same_shape sub sub' -> map result_key sub = map result_key sub'.
Proof. induction 1 as [|q q' sub sub' Hq _ IH]; [done|]. cbn. rewrite IH. f_equal. by destruct Hq. Qed.
Section shape.
  Context `{Hasher} (g : graph).
  Lemma mapR_Forall2 {A B} (f f' : A -> res B) (R : A -> A -> Prop) l l' :
    Forall2 R l l' -> (forall x x', x ∈ l -> R x x' -> f x = f' x') -> mapR f l = mapR f' l'.
  Proof.
    induction 1 as [|x x' l l' Hx _ IH]; intros Hf; [done|]. cbn [mapR]. rewrite (Hf x x' (elem_of_list_here _ _) Hx).
    destruct (f' x'); [|done]. rewrite IH; [done|]. intros y y' Hy. apply Hf. by right.
  Qed.
  Lemma visit_shape types idx q : forall tn t d q', same_shape q q' -> visit_item types idx tn t d q = visit_item types idx tn t d q'.
  Proof.
    induction q as [n o a|n sub ord o a IH] using qitem_ind'; intros tn t d q' Hs; inversion Hs; subst; [done|].
    rewrite Forall_forall in IH.
    assert (forall tn' t' d', mapR (visit_item types idx tn' t' d') sub = mapR (visit_item types idx tn' t' d') sub') as Hm.
    { intros tn' t' d'. eapply mapR_Forall2; [eassumption|]. intros x x' Hx Hxx. by apply IH. }
    cbn [visit_item q_name]. destruct (rec_fields t) as [fs|]; [|done]. destruct (dget n fs) as [lt|]; [|done].
    destruct (next_name tn lt) as [tn'|]; [|done].
    change (result_key (QL n sub' ord o' a)) with (result_key (QL n sub ord o a)).
    destruct lt; try done.
    - destruct (get_type _ _); [|done]. destruct (dat_get _ _ _); [|done]. destruct (dat_of _); [|done]. by rewrite Hm.
    - destruct (dat_get _ _ _) as [p|]; [|done]. destruct p as [[[]| |]| |]; try done; destruct (get_type _ _); try done; cbn [dat_of]; try done; by rewrite Hm.
    - destruct (get_type _ _); [|done]. destruct (dat_get _ _ _); [|done]. destruct (dat_iter _); [|done].
      set (F := fun d' => match mapR (visit_item types idx tn' a0 d') sub with Ok ps => Ok (TO (of_pairs ps)) | Err e => Err e end). by rewrite (mapR_ext F (fun d' => match mapR (visit_item types idx tn' a0 d') sub' with Ok ps => Ok (TO (of_pairs ps)) | Err e => Err e end)) by (apply Forall_forall; intros x _; unfold F; by rewrite Hm).
  Qed.
  Lemma untype_shape q : forall q' t, same_shape q q' -> untype q t = untype q' t.
  Proof.
    induction q as [n o a|n sub ord o a IH] using qitem_ind'; intros q' t Hs; inversion Hs as [|? ? ? ? ? ? ? Hf]; subst; [done|].
    rewrite Forall_forall in IH.
    assert (forall d, untype_entries untype sub d = untype_entries untype sub' d) as He.
    { clear t Hs. induction Hf as [|q q' sub sub' Hq Hf IHf]; intros d; [done|]. destruct d as [|[k0 t] d]; [done|].
      cbn [untype_entries]. rewrite IHf by (intros; apply IH; [by right|done]).
      replace (q_name q') with (q_name q) by by destruct Hq. destruct (decide _); [done|].
      rewrite (IH q (elem_of_list_here _ _) q' t Hq). done. }
    cbn [untype]. destruct t; [done| |].
    - by rewrite He.
    - f_equal. apply map_ext. intros t. destruct t; try done. by rewrite He.
  Qed.
  Lemma untype_entries_shape sub sub' d : Forall2 same_shape sub sub' -> untype_entries untype sub d = untype_entries untype sub' d.
  Proof.
    intros Hf. revert d. induction Hf as [|q q' sub sub' Hq Hf IHf]; intros d; [done|]. destruct d as [|[k0 t] d]; [done|].
    cbn [untype_entries]. rewrite IHf. replace (q_name q') with (q_name q) by by destruct Hq. destruct (decide _); [done|]. by rewrite (untype_shape _ _ _ Hq).
  Qed.
  Lemma Forall2_trans_in {A B} (R : A -> A -> Prop) (P : A -> B -> Prop) (Q : A -> B -> Prop) l l' d :
    Forall2 R l l' -> Forall2 P l' d -> (forall x x' y, x ∈ l -> R x x' -> P x' y -> Q x y) -> Forall2 Q l d.
  Proof.
    intros Hr. revert d. induction Hr as [|x x' l l' Hx _ IH]; intros d Hp Hq; inversion Hp; subst; [constructor|].
    constructor; [by eapply Hq; [left|..]|]. apply IH; [done|]. intros ? ? ? ?. apply Hq. by right.
  Qed.
  Lemma named_shape q : forall tn gn q' e, same_shape q q' -> named g tn gn q' e -> named g tn gn q e.
  Proof.
    induction q as [n o a|n sub ord o a IH] using qitem_ind'; intros tn gn q' e Hs Hn; inversion Hs as [|? ? ? ? ? ? ? Hf]; subst.
    - inversion Hn; subst; [apply (nd_typename g tn gn o a)|by apply (nd_field g tn gn n o a)].
    - rewrite Forall_forall in IH.
      assert (forall tn' gn' d, Forall2 (named g tn' gn') sub' d -> Forall2 (named g tn' gn') sub d) as He.
      { intros tn' gn' d Hd. eapply Forall2_trans_in; [exact Hf|exact Hd|]. intros x x' y Hx Hxx. by apply IH. }
      change (result_key (QL n sub' ord o' a)) with (result_key (QL n sub ord o a)) in *.
      inversion Hn; subst; change (result_key (QL n sub' ord o' a)) with (result_key (QL n sub ord o a)).
      + apply nd_none.
      + eapply nd_object; [done..|]. by apply He.
      + eapply nd_list; [done..|]. eapply Forall_impl; [done|]. intros d. apply He.
  Qed.
  Lemma keyed_shape q : forall gn q', same_shape q q' -> only_links_nested g gn q -> well_keyed g gn q -> typename_is_field q ->
    only_links_nested g gn q' /\ well_keyed g gn q' /\ typename_is_field q'.
  Proof.
    induction q as [n o a|n sub ord o a IH] using qitem_ind'; intros gn q' Hs Ho Hw Ht; inversion Hs as [|? ? ? ? ? ? ? Hf]; subst; [done|].
    rewrite Forall_forall in IH. cbn [only_links_nested well_keyed typename_is_field] in *.
    rewrite <-(same_shape_keys _ _ Hf). destruct Hw as [Hw1 Hw2], Ht as [Ht1 Ht2]. apply foldr_and in Ht2. rewrite Forall_forall in Ht2.
    destruct (find_field gn n) as [[f|l]|]; [done| |done].
    assert (forall x', x' ∈ sub' -> exists x, x ∈ sub /\ same_shape x x') as Hback.
    { intros x' [i Hi]%elem_of_list_lookup. destruct (Forall2_lookup_r _ _ _ _ _ Hf Hi) as (x & Hx & Hxx). exists x. split; [by eapply elem_of_list_lookup_2|done]. }
    destruct (find_node g (gl_node l)) as [gn'|] eqn:En.
    - rewrite !foldr_and in *. rewrite Forall_forall in Ho, Hw2. split_and!; try done; apply Forall_forall; intros x' (x & Hx & Hxx)%Hback;
        destruct (IH x Hx gn' x' Hxx (Ho x Hx) (Hw2 x Hx) (Ht2 x Hx)); tauto.
    - split_and!; try done. rewrite foldr_and. apply Forall_forall. intros x' (x & Hx & Hxx)%Hback.
      specialize (Ht2 x Hx). clear -Ht2 Hxx. revert x' Hxx. induction x as [m o a|m sub0 ord o a IH] using qitem_ind'; intros x' Hxx; inversion Hxx as [|? ? ? ? ? ? ? Hf]; subst; [done|].
      cbn [typename_is_field] in *. destruct Ht2 as [H1 H2]. split; [done|]. rewrite foldr_and in *. rewrite Forall_forall in IH, H2.
      apply Forall_forall. intros y' [i Hi]%elem_of_list_lookup. destruct (Forall2_lookup_r _ _ _ _ _ Hf Hi) as (y & Hy%elem_of_list_lookup_2 & Hyy). by apply (IH y Hy (H2 y Hy)).
  Qed.
  Lemma init_strip_list gn' sub sub1 :
    (forall q, q ∈ sub -> forall gn q1, only_links_nested g gn q -> typename_is_field q -> init_item g gn (strip_item q) = Ok q1 ->
      exists q2, same_shape q q2 /\ strip_item q2 = q1) ->
    (forall q, q ∈ sub -> only_links_nested g gn' q) -> (forall q, q ∈ sub -> typename_is_field q) ->
    mapR (init_item g gn') (strip_items sub) = Ok sub1 -> exists sub2, Forall2 same_shape sub sub2 /\ strip_items sub2 = sub1.
  Proof.
    revert sub1. induction sub as [|q sub IHs]; intros sub1 IH Ho Ht Es; [injection Es as <-; by exists []|]. cbn [strip_items flat_map] in Es. fold (strip_items sub) in Es.
    destruct (decide (q_name q = TYPENAME)) as [Hq|Hq].
    - destruct (IHs sub1 ltac:(intros q0 Hq0; apply IH; by right) ltac:(intros; apply Ho; by right) ltac:(intros; apply Ht; by right) Es) as (sub2 & S1 & S2).
      destruct q as [m o0 a0|m sub0 ord0 o0 a0].
      + exists (QF m o0 a0 :: sub2). split; [constructor; [constructor|done]|]. cbn [strip_items flat_map]. rewrite decide_True by done. exact S2.
      + specialize (Ht _ (elem_of_list_here _ _)). by destruct Ht.
    - cbn [app mapR] in Es. destruct (init_item g gn' (strip_item q)) as [q1|] eqn:Eq; [|done]. destruct (mapR _ _) as [sub1'|] eqn:Es'; [|done]. injection Es as <-.
      destruct (IHs sub1' ltac:(intros q0 Hq0; apply IH; by right) ltac:(intros; apply Ho; by right) ltac:(intros; apply Ht; by right) eq_refl) as (sub2 & S1 & S2).
      destruct (IH q (elem_of_list_here _ _) gn' q1 (Ho _ (elem_of_list_here _ _)) (Ht _ (elem_of_list_here _ _)) Eq) as (q2 & Q1 & Q2).
      exists (q2 :: sub2). split; [by constructor|]. cbn [strip_items flat_map]. fold (strip_items sub2).
      rewrite decide_False by (by destruct Q1). cbn [app]. by rewrite Q2, S2.
  Qed.
  (** The query whose options are those of the executed query *)
  Lemma init_strip q : forall gn q1, only_links_nested g gn q -> typename_is_field q -> init_item g gn (strip_item q) = Ok q1 ->
    exists q2, same_shape q q2 /\ strip_item q2 = q1.
  Proof.
    induction q as [n o a|n sub ord o a IH] using qitem_ind'; intros gn q1 Ho Ht Hi.
    - cbn [strip_item init_item q_name] in Hi. destruct (find_field gn n) as [go|]; [|done]. destruct (gi_opts go).
      + injection Hi as <-. exists (QF n o a). by split; [constructor|].
      + destruct (get_options _ _) as [o'|]; [|done]. injection Hi as <-. exists (QF n (Some o') a). by split; [constructor|].
    - change (strip_item (QL n sub ord o a)) with (QL n (strip_items sub) ord o a) in Hi.
      cbn [init_item q_name only_links_nested typename_is_field] in *. destruct (find_field gn n) as [[f|l]|]; [done| |done].
      destruct (find_node g (gl_node l)) as [gn'|]; [|done]. destruct (mapR (init_item g gn') (strip_items sub)) as [sub1|] eqn:Es; [|done].
      destruct Ht as [_ Ht]. rewrite foldr_and in Ho, Ht. rewrite Forall_forall in IH, Ho, Ht.
      destruct (init_strip_list gn' sub sub1 IH Ho Ht Es) as (sub2 & Hs & <-).
      cbn [gi_opts] in Hi. destruct (gl_opts l).
      + injection Hi as <-. exists (QL n sub2 ord None a). by split; [constructor|].
      + destruct (get_options _ _) as [o'|]; [|done]. injection Hi as <-. exists (QL n sub2 ord (Some o') a). by split; [constructor|].
  Qed.
End shape.

(** C46: the data of the answer to a valid request: the result of its query, found by following the query from
    object to object (see C04), and one more entry for every [__typename], the name of the type of its object
    ([Query], [Mutation] at the top).
    Partial: as C21 (fields with plain loaders, see [unchecked]); no parts of fields are selected. *)
Theorem C46_data_of_answer_partial `{Hasher} (E : env) (D : data) fuel k ep rq t g q rn :
  reads rq t q -> runs_on ep t g -> validate k g (strip_query q) = Ok [] -> type_names t = Some rn ->
  (forall q0, q0 ∈ qfields (strip_query q) -> options_proper q0) -> distinct_options g -> unchecked g (strip_query q) ->
  NoDup (map result_key (qfields q)) ->
  (forall q0, q0 ∈ qfields q -> well_keyed g (g_root g) q0 /\ only_links_nested g (g_root g) q0 /\ typename_is_field q0) ->
  serves E D -> respects_options D ->
  exists q', init_options g (strip_query q) = Ok q' /\
    ((forall gn, no_collision (asked g q' gn)) -> links_ok g (plain_value D) D q' ->
     forall sched r, dispatches E (S fuel) k ep rq sched r ->
     exists d, r = Ok (AData (TO d)) /\
       map fst d = map result_key (qfields q) /\
       Forall2 (named g rn (g_root g)) (qfields q) d /\
       resolve_query g (plain_value D) D q' = Ok (TO (untype_entries untype (qfields q) d))).
Proof.
  intros Hread Hon Hval Htn Hop Hdo Hun Hnd Hq Hs Hr.
  destruct (C21_validated_query_executes_partial E g D (strip_query q) k Hval Hop Hdo Hun Hs Hr) as (q' & Hi & Hex).
  exists q'. split; [done|]. intros Hc Hl sched r Hd. specialize (Hex Hc Hl fuel).
  assert (prepare k ep rq = PRun t g q) as Hp by (apply prepare_run; done).
  assert (find_node g (s "__root__") = None) as Hroot by apply (un_root _ _ Hun).
  assert (exists r0, execute E (S fuel) g (strip_query q) sched r0 /\
    (forall idx pn, r0 = Ok (idx, pn) -> r = match process_with (type_names t) g idx pn q with Ok d => Ok (AData d) | Err e => Err e end)) as (r0 & He & Hr0).
  { inversion Hd as [e Hp'|l Hp'|t' g' q1 sched' e Hp' He|t' g' q1 sched' idx pn Hp' He]; subst; rewrite Hp in Hp'; try discriminate Hp'; injection Hp' as <- <- <-.
    - exists (Err e). by split.
    - exists (Ok (idx, pn)). split; [done|]. by intros ? ? [= <- <-]. }
  destruct (Hex _ _ He) as (idx & -> & Hden). specialize (Hr0 _ _ eq_refl). rewrite Htn in Hr0.
  pose proof (fits_supported g (strip_query q) Hdo (C21_accepted_query_fits g k _ Hop Hval) q' Hi Hun Hc) as Hsup.
  unfold init_options in Hi. destruct (mapR _ _) as [l|] eqn:Em; [|done]. injection Hi as <-.
  destruct (init_strip_list g (g_root g) (qfields q) l) as (l2 & Hsh & <-).
  { intros q0 _ gn q1. apply init_strip. } { intros q0 Hq0. by apply Hq. } { intros q0 Hq0. by apply Hq. } { exact Em. }
  set (q2 := QN l2 (qordered q)). cbn [strip_query qordered] in *. change (QN (strip_items l2) (qordered q)) with (strip_query q2) in *.
  assert (forall q0, q0 ∈ l2 -> well_keyed g (g_root g) q0 /\ only_links_nested g (g_root g) q0 /\ typename_is_field q0) as Hq2.
  { intros q0 [i Hi']%elem_of_list_lookup. destruct (Forall2_lookup_r _ _ _ _ _ Hsh Hi') as (q1 & Hq1%elem_of_list_lookup_2 & Hss).
    destruct (Hq q1 Hq1) as (W1 & W2 & W3). destruct (keyed_shape g _ _ _ Hss W2 W1 W3) as (? & ? & ?). done. }
  destruct (C04_result_exists_partial g D (strip_query q2) Hsup) as [t0 Ht0].
  { intros q0 Hq0. apply elem_of_list_In, in_flat_map in Hq0 as (q1 & Hq1%elem_of_list_In & Hq0).
    destruct (decide _); [done|]. destruct Hq0 as [<-|[]]. destruct (Hq2 q1 Hq1) as (_ & Ho & _).
    clear -Ho. revert Ho. generalize (g_root g). induction q1 as [n o a|n sub ord o a IH] using qitem_ind'; intros gn Ho; [done|].
    change (strip_item (QL n sub ord o a)) with (QL n (strip_items sub) ord o a). cbn [only_links_nested] in *.
    destruct (find_field gn n) as [[f|l]|]; [done| |done]. destruct (find_node g (gl_node l)) as [gn'|]; [|done].
    rewrite foldr_and in *. rewrite Forall_forall in IH, Ho. apply Forall_forall. intros q1 Hq1.
    apply elem_of_list_In, in_flat_map in Hq1 as (q3 & Hq3%elem_of_list_In & Hq1).
    destruct (decide _); [done|]. destruct Hq1 as [<-|[]]. apply (IH q3 Hq3); auto. }
  rewrite Ht0 in Hden.
  destruct (C20_typename g idx q2 rn t0 Hroot) as (d & Hd1 & Hd2 & Hd3 & Hd4); [|done|done|].
  { cbn [q2 qfields]. by rewrite <-(same_shape_keys _ _ Hsh). }
  cbn [q2 qfields] in Hd2, Hd3, Hd4.
  exists d. rewrite Ht0. split; [|split; [|split]].
  - rewrite Hr0. replace (process_with (Some rn) g idx (strip_query q2) q) with (process_with (Some rn) g idx (strip_query q2) q2); [by rewrite Hd1|].
    unfold process_with. destruct (dget _ _) as [t'|]; [|done]. cbn [q2 qfields].
    assert (forall f, mapR (visit_item (g_types g) idx (Some rn) t' (DP ROOT f)) (qfields q) = mapR (visit_item (g_types g) idx (Some rn) t' (DP ROOT f)) l2) as Hm.
    { intros f. eapply mapR_Forall2; [exact Hsh|]. intros x x' _ Hx. by apply visit_shape. }
    by rewrite Hm.
  - by rewrite Hd2, (same_shape_keys _ _ Hsh).
  - eapply Forall2_trans_in; [exact Hsh|exact Hd3|]. intros x x' y _ Hx. by apply named_shape.
  - by rewrite Hd4, (untype_entries_shape _ _ _ Hsh).
Qed.

(** ... and the answer comes, whatever the executor does: executions end. *)
Theorem C46_answered_partial `{Hasher} (E : env) (D : data) fuel k ep rq t g q q' rn :
  reads rq t q -> runs_on ep t g -> validate k g (strip_query q) = Ok [] -> type_names t = Some rn ->
  (forall q0, q0 ∈ qfields (strip_query q) -> options_proper q0) -> distinct_options g -> unchecked g (strip_query q) ->
  NoDup (map result_key (qfields q)) ->
  (forall q0, q0 ∈ qfields q -> well_keyed g (g_root g) q0 /\ only_links_nested g (g_root g) q0 /\ typename_is_field q0) ->
  serves E D -> respects_options D ->
  init_options g (strip_query q) = Ok q' -> (forall gn, no_collision (asked g q' gn)) -> links_ok g (plain_value D) D q' ->
  exists x, start E g (strip_query q) = Ok x /\
    forall sched y, rounds E (S fuel) sched x y -> exists sched2 d, dispatches E (S fuel) k ep rq (sched ++ sched2) (Ok (AData d)).
Proof.
  intros Hread Hon Hval Htn Hop Hdo Hun Hnd Hq Hs Hr Hi Hc Hl.
  pose proof (fits_supported g (strip_query q) Hdo (C21_accepted_query_fits g k _ Hop Hval) q' Hi Hun Hc) as Hsup.
  destruct (start_ok' E g D _ q' Hi Hs Hr Hsup) as (x & Hx & _). exists x. split; [done|]. intros sched y Hy.
  destruct (C21_validated_query_ends_partial E g D (strip_query q) q' k fuel sched x y Hval Hop Hdo Hun Hs Hr Hi Hc Hl Hx Hy) as (sched2 & idx & He).
  assert (prepare k ep rq = PRun t g q) as Hp by (apply prepare_run; done).
  pose proof (dp_runs E (S fuel) k ep rq t g q (sched ++ sched2) idx q' Hp He) as Hd.
  destruct (C46_data_of_answer_partial E D fuel k ep rq t g q rn Hread Hon Hval Htn Hop Hdo Hun Hnd Hq Hs Hr) as (q'' & Hi' & Hans).
  rewrite Hi in Hi'. injection Hi' as <-. destruct (Hans Hc Hl _ _ Hd) as (d & Hd' & _). rewrite Hd' in Hd. by exists sched2, (TO d).
Qed.

(** ** Where the property fails *)
(** C46: these requests are not answered: a missing key, text which is not a document, an operation name which is
    not defined, a fragment which is not defined (graphql.py:38 catches [TypeError] only). *)
Definition field_doc (ds : list gdef) : list gdef := DOp (OpDef OQuery None [] [SField None (s "version") [] [] None; SSpread (s "f") []]) :: ds.
Theorem C46_request_not_answered_refuted `{Hasher} E fuel k ep :
  dispatches E fuel k ep (Request None [] None) [] (Err KeyError) /\
  dispatches E fuel k ep (Request (Some None) [] None) [] (Err (UserErr 0)) /\
  dispatches E fuel k ep (Request (Some (Some (field_doc []))) [] (Some (s "op"))) [] (Err ValueError) /\
  dispatches E fuel k ep (Request (Some (Some (field_doc []))) [] None) [] (Err KeyError).
Proof. split_and!; apply dp_exn; reflexivity. Qed.
(** C46: nor is a whole batch when one of its requests is not. *)
Theorem C46_batch_refuted `{Hasher} E fuel k ep rqs scheds l :
  Forall3 (fun rq sched a => dispatches E fuel k ep rq sched (Ok a)) rqs scheds l ->
  dispatches_batch E fuel k ep (rqs ++ [Request None [] None]) (scheds ++ [[]]) (Err KeyError).
Proof.
  intros Hf. apply C46_batch_raises. exists rqs, (Request None [] None), [], scheds, [], l. split_and!; [done|done|done|]. by apply dp_exn.
Qed.

(** ** Example *)
From Verif Require Import Examples ExEngine.
#[local] Existing Instance ex_hasher.
(** A query graph with another function, and the graph of ExEngine for mutations *)
Definition ex_qgraph : graph := Graph [GNode None [GF (GField (s "version") None (FPlain 77) [])]] [].
Definition ex_endpoint : endpoint := match new_endpoint ex_loaders ex_qgraph (Some ex_graph) with Ok ep => ep | Err _ => Endpoint ex_qgraph None end.
Definition ex_mgraph : graph := match add_introspection ex_loaders ex_graph with Ok g => g | Err _ => ex_graph end.
(** [mutation { __typename version me { name __typename boss { kind: __typename } } users { name } }] *)
Definition ex_doc : list gdef := [DOp (OpDef OMutation None [] [
  SField None (s "__typename") [] [] None; SField None (s "version") [] [] None;
  SField None (s "me") [] [] (Some [SField None (s "name") [] [] None; SField None (s "__typename") [] [] None;
    SField None (s "boss") [] [] (Some [SField (Some (s "kind")) (s "__typename") [] [] None])]);
  SField None (s "users") [] [] (Some [SField None (s "name") [] [] None])])].
Definition ex_request : request := Request (Some (Some ex_doc)) [] None.
Definition ex_mquery : qnode :=
  match read_operation ex_doc [] None with ROk (_, q, _) => q | RErr _ => QN [] false end.
Lemma C46_ex_endpoint : new_endpoint ex_loaders ex_qgraph (Some ex_graph) = Ok ex_endpoint /\ ep_mutation ex_endpoint = Some ex_mgraph.
Proof. split; vm_compute; reflexivity. Qed.
Lemma C46_ex_reads : reads ex_request OMutation ex_mquery /\ runs_on ex_endpoint OMutation ex_mgraph /\ validate 5 ex_mgraph (strip_query ex_mquery) = Ok [].
Proof. split; [exists ex_doc, None; split; vm_compute; reflexivity|]. split; [constructor; vm_compute; reflexivity|vm_compute; reflexivity]. Qed.

Lemma C46_ex_proper q0 : q0 ∈ qfields (strip_query ex_mquery) -> options_proper q0.
Proof.
  intros Hq. apply elem_of_list_In in Hq. vm_compute in Hq. repeat destruct Hq as [Hq|Hq]; try done; subst q0; vm_compute;
    repeat (first [split | constructor | intros ? ?]); try done.
Qed.
Lemma C46_ex_distinct : distinct_options ex_mgraph.
Proof.
  assert (forallb (fun gn => forallb (fun go => bool_decide (NoDup (map go_name (gi_opts go)))) (gn_fields gn)) (g_items ex_mgraph) = true) as Hb by (vm_compute; reflexivity).
  intros gn n go Hgn Hf. apply find_field_in in Hf. rewrite forallb_forall in Hb.
  assert (exists gn', gn' ∈ g_items ex_mgraph /\ go ∈ gn_fields gn') as (gn' & Hgn' & Hgo).
  { destruct Hgn as [->|[m Hm]]; [|exists gn; split; [by eapply find_node_in|done]]. unfold g_root in Hf. cbn [gn_fields] in Hf.
    apply elem_of_list_In, in_concat in Hf as (l & Hl & Hin).
    apply in_map_iff in Hl as (gn' & <- & Hgn). apply filter_In in Hgn as [Hgn _]. exists gn'. by rewrite !elem_of_list_In. }
  apply elem_of_list_In in Hgn', Hgo. specialize (Hb _ Hgn'). rewrite forallb_forall in Hb. by apply (bool_decide_eq_true_1 _ (Hb _ Hgo)).
Qed.
Definition ex_mquery' : qnode := match init_options ex_mgraph (strip_query ex_mquery) with Ok q => q | Err _ => QN [] false end.
Lemma C46_ex_init : init_options ex_mgraph (strip_query ex_mquery) = Ok ex_mquery'.
Proof. vm_compute. reflexivity. Qed.
Lemma C46_ex_supported : supported ex_mgraph (strip_query ex_mquery) /\ supported ex_mgraph ex_mquery'.
Proof. split; apply supported_check; vm_compute; reflexivity. Qed.
Lemma C46_ex_keyed q0 : q0 ∈ qfields ex_mquery -> well_keyed ex_mgraph (g_root ex_mgraph) q0 /\ only_links_nested ex_mgraph (g_root ex_mgraph) q0 /\ typename_is_field q0.
Proof.
  intros Hq. apply elem_of_list_In in Hq. vm_compute in Hq. repeat destruct Hq as [Hq|Hq]; try done; subst q0;
    (split_and!; vm_compute; repeat (first [split | apply (bool_decide_unpack _); vm_compute; exact I | done])).
Qed.
Lemma C46_ex_links_ok : links_ok ex_mgraph (plain_value ex_data) ex_data ex_mquery'.
Proof.
  intros gn n i q l Hv Hq Hf.
  assert ((gl_func l, gl_enum l) ∈ [(11%N, One); (12%N, Many); (13%N, Graph.Maybe)]) as Hl.
  { apply visited_visits, elem_of_list_In in Hv. apply elem_of_list_In. apply elem_of_list_In in Hq. vm_compute in Hv.
    repeat destruct Hv as [Hv|Hv]; try done; inversion Hv; subst gn n; clear Hv; cbn [qfields] in Hq;
      repeat destruct Hq as [Hq|Hq]; try done; subst q; vm_compute in Hf; inversion Hf; subst l; vm_compute; tauto. }
  unfold link_value, ex_data. simpl.
  repeat (apply elem_of_cons in Hl as [Hl|Hl]; [injection Hl as -> ->; simpl|]); try done; try by eexists.
  all: try by apply not_elem_of_nil in Hl.
Qed.
(** The data of the answer, and the functions called: those of the mutation graph *)
Definition ex_answer : vtree :=
  TO [(s "__typename", TP (PRaw (IVal (VStr (s "Mutation"))))); (s "version", TP (PRaw (IVal (VStr (s "1.0")))));
      (s "me", TO [(s "name", TP (PRaw (IVal (VTuple [VStr (s "user"); VInt 7])))); (s "__typename", TP (PRaw (IVal (VStr (s "User")))));
                   (s "boss", TO [(s "kind", TP (PRaw (IVal (VStr (s "User")))))])]);
      (s "users", TL [exN 1; exN 2; exN 3])].
Definition ex_mstart : st := match start (ex_env false) ex_mgraph (strip_query ex_mquery) with Ok x => x | Err _ => (World [] [], q_empty) end.
Definition ex_msched : list (list nat) := map (fun n => [n]) (seq 0 8).
Theorem C46_example :
  dispatches (ex_env false) ex_fuel 5 ex_endpoint ex_request ex_msched (Ok (AData ex_answer)) /\
  (exists log, dispatch_calls (ex_env false) ex_fuel 5 ex_endpoint ex_request log /\ length log = 8) /\
  complaints 5 ex_endpoint (Request (Some (Some [DOp (OpDef OQuery None [] [SField None (s "me") [] [] None; SField None (s "you") [] [] None])])) [] None)
    [MInvalid (ENoField None (s "me")); MInvalid (ENoField None (s "you"))].
Proof.
  assert (start (ex_env false) ex_mgraph (strip_query ex_mquery) = Ok ex_mstart) as Hstart.
  { unfold ex_mstart. destruct (start _ _ _) as [x|] eqn:Ex; [done|]. exfalso.
    assert (match start (ex_env false) ex_mgraph (strip_query ex_mquery) with Ok _ => true | Err _ => false end = true) as Ht by (vm_compute; reflexivity). by rewrite Ex in Ht. }
  assert (prepare 5 ex_endpoint ex_request = PRun OMutation ex_mgraph ex_mquery) as Hp by (apply prepare_run, C46_ex_reads).
  destruct (run_rounds (ex_env false) ex_msched ex_mstart) as [y|] eqn:Ey.
  2: { exfalso. assert (match run_rounds (ex_env false) ex_msched ex_mstart with Some _ => true | None => false end = true) as Ht by (vm_compute; reflexivity). by rewrite Ey in Ht. }
  assert (match run_rounds (ex_env false) ex_msched ex_mstart with Some y => match q_futures y.2, w_wfs y.1 with [], v :: _ => (process_with (Some MUTATION_ROOT_NAME) ex_mgraph (wf_index v) (wf_query v) ex_mquery) | _, _ => Err KeyError end | None => Err KeyError end = Ok ex_answer) as Hans by (vm_compute; reflexivity).
  assert (match run_rounds (ex_env false) ex_msched ex_mstart with Some y => length (w_log y.1) | None => 0 end = 8) as Hlen by (vm_compute; reflexivity).
  rewrite Ey in Hans, Hlen. split; [|split].
  - destruct (q_futures y.2) eqn:Ef; [|done]. destruct (w_wfs y.1) as [|v vs] eqn:Ew; [done|].
    pose proof (dp_runs (ex_env false) ex_fuel 5 ex_endpoint ex_request _ _ _ ex_msched (wf_index v) (wf_query v) Hp) as Hd.
    cbn [type_names] in Hd. rewrite Hans in Hd. apply Hd.
    refine (exec_ok _ _ _ _ ex_mstart _ y v Hstart (run_rounds_executes (ex_env false) ex_msched ex_mstart y Ey Ef) _). by rewrite Ew.
  - exists (w_log y.1). split; [|done].     pose proof (run_rounds_rounds (ex_env false) ex_msched [] ex_mstart ex_mstart y (rd_nil _ _ _) Ey) as Hrr.
    exact (dc_rounds _ _ _ _ _ OMutation ex_mgraph ex_mquery _ ex_mstart y Hp Hstart Hrr).
  - apply prepare_errors. vm_compute. reflexivity.
Qed.
(** Example: a loader raises GraphQLError in the first round: its errors are answered *)
Definition raising_env : env := Env [] (fun _ _ => Raise (GraphqlErr [3; 4]%N)) (fun _ => false) (fun _ _ _ _ => Err KeyError) false.
Theorem C46_raised_example :
  dispatches raising_env ex_fuel 5 ex_endpoint ex_request [[0]] (Ok (AErrors [MRaised 3; MRaised 4])) /\
  raised raising_env ex_fuel 5 ex_endpoint ex_request [[0]] [3; 4]%N.
Proof.
  assert (raised raising_env ex_fuel 5 ex_endpoint ex_request [[0]] [3; 4]%N) as Hr.
  { destruct C46_ex_reads as (H1 & H2 & H3). exists OMutation, ex_mgraph, ex_mquery. split; [done|]. split; [done|]. split; [done|].
    destruct (start raising_env ex_mgraph (strip_query ex_mquery)) as [x|] eqn:Ex.
    2: { exfalso. assert (match start raising_env ex_mgraph (strip_query ex_mquery) with Ok _ => true | Err _ => false end = true) as Ht by (vm_compute; reflexivity). by rewrite Ex in Ht. }
    eapply exec_err; [exact Ex|].
    assert (match start raising_env ex_mgraph (strip_query ex_mquery) with
            | Ok x => bool_decide (0 ∈ q_futures x.2) = true /\ (match progress (run_cb raising_env) ex_fuel [0] x with Err e => bool_decide (e = GraphqlErr [3; 4]%N) | Ok _ => false end) = true
            | Err _ => False end) as Ht by (vm_compute; split; reflexivity).
    rewrite Ex in Ht. destruct Ht as [Hin%bool_decide_eq_true_1 Hpr]. destruct (progress _ _ _ _) as [|e] eqn:Ep; [done|]. apply bool_decide_eq_true_1 in Hpr as ->.
    eapply ex_fail; [done|apply NoDup_singleton| |exact Ep]. by intros f ->%elem_of_list_singleton. }
  split; [|done]. apply C46_errors_iff. right. by exists [3; 4]%N.
Qed.
(** ... and all the hypotheses of [C46_data_of_answer_partial] hold of it *)
Theorem C46_example_hypotheses :
  reads ex_request OMutation ex_mquery /\ runs_on ex_endpoint OMutation ex_mgraph /\ validate 5 ex_mgraph (strip_query ex_mquery) = Ok [] /\
  (forall q0, q0 ∈ qfields (strip_query ex_mquery) -> options_proper q0) /\ distinct_options ex_mgraph /\ unchecked ex_mgraph (strip_query ex_mquery) /\
  NoDup (map result_key (qfields ex_mquery)) /\
  (forall q0, q0 ∈ qfields ex_mquery -> well_keyed ex_mgraph (g_root ex_mgraph) q0 /\ only_links_nested ex_mgraph (g_root ex_mgraph) q0 /\ typename_is_field q0) /\
  init_options ex_mgraph (strip_query ex_mquery) = Ok ex_mquery' /\ (forall gn, no_collision (asked ex_mgraph ex_mquery' gn)) /\
  links_ok ex_mgraph (plain_value ex_data) ex_data ex_mquery'.
Proof.
  destruct C46_ex_reads as (? & ? & ?). destruct C46_ex_supported as [S1 S2].
  split_and!; [done|done|done|exact C46_ex_proper|exact C46_ex_distinct|by apply (@supported_unchecked ex_hasher)|apply (bool_decide_unpack _); vm_compute; exact I|exact C46_ex_keyed|exact C46_ex_init|apply (sp_coll _ _ S2)|exact C46_ex_links_ok].
Qed.

Print Assumptions C46_errors_iff.
Print Assumptions C46_mutations_on_mutation_graph.
Print Assumptions C46_data_of_answer_partial.
Print Assumptions C46_answered_partial.

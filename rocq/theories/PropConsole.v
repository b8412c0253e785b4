(** Theorems about the console (C48): hiku/console/ui.py. *)
From stdpp Require Import relations.
From Verif Require Import Base Val Types Query QuerySpec Graph Queue QueueSpec QueueProof Result Engine EngineSpec CallSpec PropCalls PropEngine PropOptions Validate ValidateSpec PropValidate PropValExec Edn Export Console.

Section thms.
  Context `{Hasher} `{PyText} (decode : list N -> option str) (th : str -> option (val -> res val)).
  Context (E : env) (fuel k : nat) (c : console).
  Notation responds := (responds decode th E fuel k c).
  Notation console_calls := (console_calls decode th E fuel k c).

  (** ** Specification *)
  (** The request posts a query: the length is given in digits and is at most 1MB, and these bytes of the body are
      the text [t] *)
  Definition posts (en : environ) (t : str) : Prop :=
    (en_path en = s "/" \/ en_path en = []) /\ en_method en = s "POST" /\
    exists n : N, match en_length en with None | Some [] => n = 0%N | Some x => exists z, parse_int x = Some z /\ n = Z.to_N z end /\
      (n <= 1048576)%N /\ decode (take (N.to_nat n) (en_body en)) = Some t.
  (** ... and it is a valid query *)
  Definition posts_valid (en : environ) (q : qnode) : Prop :=
    exists t, posts en t /\ simple_read th t = Ok q /\ validate k (cs_graph c) q = Ok [].

  Lemma only_done en r : console_prepare decode th k c en = CpDone r ->
    forall sched r', responds en sched r' <-> sched = [] /\ r' = Ok r.
  Proof.
    intros Hp sched r'. split.
    - inversion 1; subst; [congruence| |congruence]. split; [done|]. congruence.
    - intros [-> ->]. by apply rp_done.
  Qed.
  Lemma content_length_spec en n : content_length en = Ok n <->
    match en_length en with None | Some [] => n = 0%N | Some x => exists z, parse_int x = Some z /\ n = Z.to_N z end.
  Proof.
    unfold content_length. destruct (en_length en) as [[|ch t]|]; [naive_solver| |naive_solver].
    destruct (parse_int (ch :: t)) as [z|]; [|naive_solver]. split; [intros [= <-]; eauto|]. intros (z' & [= <-] & ->). done.
  Qed.
  Lemma post_prepare en : (en_path en = s "/" \/ en_path en = []) -> en_method en = s "POST" -> console_prepare decode th k c en = index_post decode th k c en.
  Proof. intros [Hp|Hp] Hm; unfold console_prepare; by rewrite Hp, Hm. Qed.
  Lemma prepare_run en q : console_prepare decode th k c en = CpRun q <-> posts_valid en q.
  Proof.
    split.
    - intros Hp. assert ((en_path en = s "/" \/ en_path en = []) /\ en_method en = s "POST") as [Hpath Hm].
      { unfold console_prepare in Hp. destruct (en_path en) as [|ch p]; (destruct (decide _) as [Hd|]; [|by repeat case_decide]);
          (case_decide; [done|]; case_decide; [|done]); (split; [|done]); [by right|by left]. }
      rewrite post_prepare in Hp by done. unfold index_post in Hp. destruct (content_length en) as [n|] eqn:Ec; [|done].
      destruct (N.ltb_spec (2 ^ 20) n) as [|Hn]; [done|]. destruct (decode _) as [t|] eqn:Ed; [|done].
      destruct (simple_read th t) as [q'|] eqn:Er; [|done]. destruct (validate _ _ _) as [[|]|] eqn:Ev; [|done|done]. injection Hp as <-.
      exists t. split; [|done]. split; [done|]. split; [done|]. exists n. split; [by apply content_length_spec|]. split; [exact Hn|done].
    - intros (t & (Hpath & Hm & n & Hc & Hn & Hd) & Hr & Hv). rewrite post_prepare by done. unfold index_post.
      apply content_length_spec in Hc. rewrite Hc. destruct (N.ltb_spec (2 ^ 20) n) as [Hlt|_]; [change (2 ^ 20)%N with 1048576%N in Hlt; lia|].
      by rewrite Hd, Hr, Hv.
  Qed.

  (** C48: unknown paths are answered with 404 and nothing else happens; *)
  Theorem C48_not_found en : en_path en ∉ [[]; s "/"; s "/docs"; s "/console.js"] ->
    forall sched r, responds en sched r <-> sched = [] /\ r = Ok (Response 404 (CtText MSG_404)).
  Proof.
    intros Hp. rewrite !not_elem_of_cons in Hp. destruct Hp as (H1 & H2 & H3 & H4 & _). apply only_done. unfold console_prepare.
    destruct (en_path en) eqn:Ee; [done|]. by rewrite !decide_False.
  Qed.
  (** wrong methods with 405; *)
  Theorem C48_wrong_method en :
    (en_path en ∈ [[]; s "/"] /\ en_method en ∉ [s "GET"; s "POST"]) \/ (en_path en ∈ [s "/docs"; s "/console.js"] /\ en_method en <> s "GET") ->
    forall sched r, responds en sched r <-> sched = [] /\ r = Ok (Response 405 (CtText MSG_405)).
  Proof.
    intros Hp. apply only_done. unfold console_prepare.
    destruct Hp as [[Hp Hm]|[Hp H1]]; [rewrite !not_elem_of_cons in Hm; destruct Hm as (H1 & H2 & _)|];
      rewrite !elem_of_cons in Hp; destruct Hp as [->|[->|Hn]]; try (by apply elem_of_nil in Hn).
    all: repeat first [rewrite decide_True by done | rewrite decide_False by done | done].
  Qed.
  (** bodies said to be longer than 1MB with 400: they are not even read. *)
  Theorem C48_too_big en z x : (en_path en = s "/" \/ en_path en = []) -> en_method en = s "POST" ->
    en_length en = Some x -> parse_int x = Some z -> (1048576 < z)%Z ->
    forall sched r, responds en sched r <-> sched = [] /\ r = Ok (Response 400 (CtText MSG_BIG)).
  Proof.
    intros Hpath Hm Hl Hz Hlt. apply only_done. rewrite post_prepare by done. unfold index_post.
    assert (content_length en = Ok (Z.to_N z)) as ->.
    { apply content_length_spec. rewrite Hl. destruct x; [done|]. eauto. }
    destruct (N.ltb_spec (2 ^ 20) (Z.to_N z)) as [|Hle]; [done|]. change (2 ^ 20)%N with 1048576%N in Hle. lia.
  Qed.
  (** C48: queries with validation errors are answered with 400 and all the errors. *)
  Theorem C48_invalid en t q errs : posts en t -> simple_read th t = Ok q -> validate k (cs_graph c) q = Ok errs -> errs <> [] ->
    forall sched r, responds en sched r <-> sched = [] /\ r = Ok (Response 400 (CtErrors errs)).
  Proof.
    intros (Hpath & Hm & n & Hc & Hn & Hd) Hr Hv Hne. apply only_done. rewrite post_prepare by done. unfold index_post.
    apply content_length_spec in Hc. rewrite Hc. destruct (N.ltb_spec (2 ^ 20) n) as [Hlt|_]; [change (2 ^ 20)%N with 1048576%N in Hlt; lia|].
    rewrite Hd, Hr, Hv. by destruct errs.
  Qed.
  (** C48: text which is not a query, and exceptions of validation, are answered with 500. *)
  Theorem C48_unreadable en t : posts en t -> (~ exists q, simple_read th t = Ok q) \/ (exists q e, simple_read th t = Ok q /\ validate k (cs_graph c) q = Err e) ->
    forall sched r, responds en sched r <-> sched = [] /\ r = Ok (Response 500 (CtTrace (cs_debug c))).
  Proof.
    intros (Hpath & Hm & n & Hc & Hn & Hd) Hbad. apply only_done. rewrite post_prepare by done. unfold index_post.
    apply content_length_spec in Hc. rewrite Hc. destruct (N.ltb_spec (2 ^ 20) n) as [Hlt|_]; [change (2 ^ 20)%N with 1048576%N in Hlt; lia|].
    rewrite Hd. destruct Hbad as [Hno|(q & e & Hr & Hv)]; [|by rewrite Hr, Hv]. destruct (simple_read th t) as [q|] eqn:Er; [|done]. exfalso. eauto.
  Qed.
  (** C48: nothing is executed unless a valid query was posted; and then only what the query asks for *)
  Theorem C48_nothing_executed en log cl : console_calls en log -> cl ∈ log -> exists q, posts_valid en q /\ call_needed E (cs_graph c) q cl.
  Proof.
    intros [|q sched x y Hp Hx Hr] Hc; [by apply not_elem_of_nil in Hc|]. exists q. split; [by apply prepare_run|].
    by eapply C52_only_needed_calls.
  Qed.
  Theorem C48_not_executed en sched r : responds en sched r -> sched <> [] -> exists q, posts_valid en q.
  Proof.
    intros [| |q sched' r' Hp He] Hs; [done|done|]. exists q. by apply prepare_run.
  Qed.
  (** C48: exceptions of the execution of a query are answered with 500; *)
  Theorem C48_failure_answered en q e sched : posts_valid en q -> execute E fuel (cs_graph c) q sched (Err e) ->
    responds en sched (Ok (Response 500 (CtTrace (cs_debug c)))).
  Proof. intros Hp%prepare_run He. exact (rp_run decode th E fuel k c en q sched (Err e) Hp He). Qed.
  (** C48: what can escape: the length given is not a number, or the data can not be written as JSON.
      Partial: the property says nothing can. *)
  Theorem C48_escapes_partial en sched e : responds en sched (Err e) ->
    (e = ValueError /\ en_method en = s "POST" /\ exists x, en_length en = Some x /\ parse_int x = None) \/
    (e = TypeError /\ exists q idx pn t, posts_valid en q /\ execute E fuel (cs_graph c) q sched (Ok (idx, pn)) /\
       denormalize (cs_graph c) idx pn = Ok t /\ json_tree t = false).
  Proof.
    intros Hr. remember (Err e) as r0 eqn:Er0. destruct Hr as [e' Hp|r Hp|q sched r Hp He].
    - injection Er0 as ->. left. unfold console_prepare in Hp.
      assert (index_post decode th k c en = CpExn e /\ en_method en = s "POST") as [Hi Hm].
      { destruct (en_path en); repeat case_decide; try done. }
      split; [|split; [done|]]; unfold index_post in Hi; destruct (content_length en) as [n|e'] eqn:Ec.
      1, 3: exfalso; destruct (N.ltb _ _); [done|]; destruct (decode _); [|done]; destruct (simple_read _ _); [|done]; destruct (validate _ _ _) as [[|]|]; done.
      + injection Hi as ->. unfold content_length in Ec. destruct (en_length en) as [[|]|]; [done| |done]. destruct (parse_int _); [done|]. congruence.
      + unfold content_length in Ec. destruct (en_length en) as [[|ch x]|]; [done| |done]. exists (ch :: x). split; [done|]. by destruct (parse_int _).
    - done.
    - right. destruct r as [[idx pn]|]; [|done]. cbn [finish] in Er0. destruct (denormalize _ _ _) as [t|] eqn:Ed; [|done].
      destruct (json_tree t) eqn:Ej; [done|]. injection Er0 as <-. split; [done|]. exists q, idx, pn, t. split; [by apply prepare_run|done].
  Qed.
  (** C48: every status which can be answered *)
  Theorem C48_statuses en sched r : responds en sched (Ok r) ->
    match rs_content r with
    | CtPage _ => rs_status r = 200%N /\ en_method en = s "GET"
    | CtText m => rs_status r = 404%N /\ m = MSG_404 \/ rs_status r = 405%N /\ m = MSG_405 \/ rs_status r = 400%N /\ m = MSG_BIG
    | CtErrors errs => rs_status r = 400%N /\ exists t q, posts en t /\ simple_read th t = Ok q /\ validate k (cs_graph c) q = Ok errs /\ errs <> []
    | CtTrace shown => rs_status r = 500%N /\ shown = cs_debug c
    | CtData t => rs_status r = 200%N /\ json_tree t = true /\ exists q idx pn, posts_valid en q /\
        execute E fuel (cs_graph c) q sched (Ok (idx, pn)) /\ denormalize (cs_graph c) idx pn = Ok t
    end.
  Proof.
    intros Hr. remember (Ok r) as r0 eqn:Er0. destruct Hr as [e Hp|r' Hp|q sched r' Hp He].
    - done.
    - injection Er0 as ->. unfold console_prepare in Hp.
      set (path := match en_path en with [] => s "/" | p => p end) in Hp.
      destruct (decide (path = s "/")) as [Hpath|].
      2: { repeat case_decide; injection Hp as <-; cbn; tauto. }
      case_decide; [injection Hp as <-; cbn; tauto|]. case_decide as Hm; [|injection Hp as <-; cbn; tauto].
      unfold index_post in Hp. destruct (content_length en) as [n|] eqn:Ec; [|done].
      destruct (N.ltb_spec (2 ^ 20) n) as [|Hn]; [injection Hp as <-; cbn; tauto|]. destruct (decode _) as [t|] eqn:Ed; [|injection Hp as <-; done].
      destruct (simple_read th t) as [q'|] eqn:Erd; [|injection Hp as <-; done]. destruct (validate _ _ _) as [[|er errs]|] eqn:Ev; [done| |injection Hp as <-; done].
      injection Hp as <-. cbn. split; [done|]. exists t, q'. split; [|done]. unfold posts. split; [unfold path in Hpath; destruct (en_path en); [by right|by left]|].
      split; [done|]. exists n. split; [by apply content_length_spec|]. split; [exact Hn|done].
    - destruct r' as [[idx pn]|]; cbn [finish] in Er0.
      + destruct (denormalize _ _ _) as [t|] eqn:Ed; [|injection Er0 as <-; done]. destruct (json_tree t) eqn:Ej; [|done]. injection Er0 as <-. cbn.
        split; [done|]. split; [done|]. exists q, idx, pn. split; [by apply prepare_run|done].
      + injection Er0 as <-. done.
  Qed.
  (** C48: the data answered is the result of the query (as C21: for fields with plain loaders, see [unchecked]) *)
  Theorem C48_data_partial (D : data) en q : posts_valid en q ->
    (forall q0, q0 ∈ qfields q -> options_proper q0) -> distinct_options (cs_graph c) -> unchecked (cs_graph c) q -> serves E D -> respects_options D ->
    exists q', init_options (cs_graph c) q = Ok q' /\
    ((forall gn, no_collision (asked (cs_graph c) q' gn)) -> links_ok (cs_graph c) (plain_value D) D q' ->
     forall sched r, fuel <> 0 -> responds en sched r ->
       match resolve_query (cs_graph c) (plain_value D) D q' with
       | Ok t => r = if json_tree t then Ok (Response 200 (CtData t)) else Err TypeError
       | Err _ => r = Ok (Response 500 (CtTrace (cs_debug c)))
       end).
  Proof.
    intros Hp Hop Hdo Hun Hs Hr. pose proof Hp as (t0 & _ & _ & Hv).
    destruct (C21_validated_query_executes_partial E (cs_graph c) D q k Hv Hop Hdo Hun Hs Hr) as (q' & Hi & Hex).
    exists q'. split; [done|]. intros Hc Hl sched r Hf Hrp. destruct fuel as [|fu]; [done|]. specialize (Hex Hc Hl fu).
    apply prepare_run in Hp. inversion Hrp as [e Hp'|r' Hp'|q1 sched' r' Hp' He]; subst; rewrite Hp in Hp'; try discriminate Hp'. injection Hp' as <-.
    destruct (Hex _ _ He) as (idx & -> & Hd). cbn [finish]. rewrite Hd. by destruct (resolve_query _ _ _ _).
  Qed.
End thms.

Print Assumptions C48_statuses.
Print Assumptions C48_data_partial.

(** What JSON can hold: the keys of an object are texts, numbers, booleans or null, everything inside is JSON. *)
Inductive is_json : val -> Prop :=
| ij_none : is_json VNone
| ij_bool b : is_json (VBool b)
| ij_int z : is_json (VInt z)
| ij_float m e : is_json (VFloat m e)
| ij_text v : (exists t, v = VStr t \/ v = VKw t \/ v = VSym t) -> is_json v
| ij_array v l : (v = VList l \/ v = VTuple l \/ v = VVec l \/ v = VParen l) -> Forall is_json l -> is_json v
| ij_object v d : (v = VDict d \/ v = VMap d) ->
    Forall (fun p => is_json p.1 /\ (forall l, p.1 <> VList l /\ p.1 <> VTuple l /\ p.1 <> VVec l /\ p.1 <> VParen l) /\ (forall e, p.1 <> VDict e /\ p.1 <> VMap e)) d ->
    Forall (fun p => is_json p.2) d -> is_json v.
(** C48: [json.dumps] accepts exactly these values. *)
Theorem C48_json v : json_val v = true <-> is_json v.
Proof.
  split.
  - revert v. fix IH 1. intros v.
    assert (forall l, forallb json_val l = true -> Forall is_json l) as HL.
    { fix IHl 1. intros [|x l]; [constructor|]. cbn. destruct (json_val x) eqn:Ex; [|done]. intros Hl. constructor; [by apply IH|by apply IHl]. }
    assert (forall d, forallb (fun p : val * val => json_key p.1 && json_val p.2) d = true -> Forall (fun p => is_json p.2) d) as HD.
    { fix IHd 1. intros [|[k w] d]; [constructor|]. cbn. destruct (json_key k); [|done]. destruct (json_val w) eqn:Ex; [|done]. intros Hl. constructor; [by apply IH|by apply IHd]. }
    assert (forall d, forallb (fun p : val * val => json_key p.1 && json_val p.2) d = true ->
      Forall (fun p => is_json p.1 /\ (forall l, p.1 <> VList l /\ p.1 <> VTuple l /\ p.1 <> VVec l /\ p.1 <> VParen l) /\ (forall e, p.1 <> VDict e /\ p.1 <> VMap e)) d) as HK.
    { clear. induction d as [|[k w] d IHd]; [constructor|]. cbn. destruct (json_key k) eqn:Ek; [|done]. destruct (json_val w); [|done]. intros Hl.
      constructor; [|by apply IHd]. destruct k; try done; (split; [constructor; eauto|split; intros; split_and!; done]). }
    destruct v; intros Hv; cbn [json_val] in Hv; try discriminate Hv; try (by constructor); try (by eapply ij_text; eauto).
    1-4: eapply ij_array; [eauto|by apply HL].
    1-2: eapply ij_object; [eauto|by apply HK|by apply HD].
  - revert v. fix IH 2. intros v Hv. destruct Hv as [|b|z|m e|v (t & [->|[->| ->]])|v l Hv Hl|v d Hv Hk Hd]; try done.
    + assert (forallb json_val l = true) as HL.
      { clear Hv. revert l Hl. fix IHl 2. intros l Hl. destruct Hl as [|x l Hx Hl]; [done|]. cbn. rewrite (IH _ Hx). apply (IHl _ Hl). }
      destruct Hv as [->|[->|[->| ->]]]; exact HL.
    + assert (forallb (fun p : val * val => json_key p.1 && json_val p.2) d = true) as HD.
      { assert (forallb (fun p : val * val => json_key p.1) d = true) as H1.
        { clear -Hk. induction Hk as [|[k w] d (Hj & Ha & Hb) _ IHd]; [done|]. cbn in *. rewrite IHd, andb_true_r. destruct Hj as [|b|z|m e|v (t & [->|[->| ->]])|v l Hv _|v e Hv _ _]; try done.
          - destruct (Ha l) as (? & ? & ? & ?). by destruct Hv as [?|[?|[?|?]]].
          - destruct (Hb e). by destruct Hv. }
        assert (forallb (fun p : val * val => json_val p.2) d = true) as H2.
        { clear -IH Hd. revert d Hd. fix IHd 2. intros d Hd. destruct Hd as [|x d Hx Hd]; [done|]. cbn. rewrite (IH _ Hx). by apply IHd. }
        clear -H1 H2. induction d as [|p d IHd]; [done|]. cbn in *. apply andb_true_iff in H1 as [-> H1]. apply andb_true_iff in H2 as [-> H2]. cbn. by apply IHd. }
      destruct Hv as [->| ->]; exact HD.
Qed.

(** C48: a length which is not a number is not answered; *)
Theorem C48_length_refuted `{Hasher} `{PyText} decode th E fuel k c body :
  responds decode th E fuel k c (Environ (s "/") (s "POST") (Some (s "1k")) body) [] (Err ValueError).
Proof. apply rp_exn. reflexivity. Qed.

(** ** Examples *)
From Verif Require Import Examples PropEdn ExEngine.
#[local] Existing Instance ex_hasher.
#[local] Existing Instance ex_text.
Definition ascii (b : list N) : option str := if forallb (fun n => (n <? 128)%N) b then Some b else None.
Definition ex_posts (body : str) : environ := Environ (s "/") (s "POST") (Some (N_str (N.of_nat (length body)))) body.
Definition ex_body : str := s "[:version {:me [:name {:boss [:name]}]} {:users [:name]}]".
Definition ex_env_posted : environ := ex_posts ex_body.
Definition ex_posted : qnode := match simple_read no_tags ex_body with Ok q => q | Err _ => QN [] false end.
Definition ex_console : console := Console ex_graph true.
Lemma C48_ex_valid : posts_valid ascii no_tags 5 ex_console ex_env_posted ex_posted.
Proof.
  exists ex_body. split; [|split; vm_compute; reflexivity]. split; [by left|]. split; [done|]. exists 57%N.
  split; [exists 57%Z; split; vm_compute; reflexivity|]. split; [lia|]. vm_compute. reflexivity.
Qed.
Definition ex_cstart : st := match start (ex_env false) ex_graph ex_posted with Ok x => x | Err _ => (World [] [], q_empty) end.
Definition ex_csched : list (list nat) := map (fun n => [n]) (seq 0 9).
Definition ex_shown : vtree :=
  TO [(s "version", TP (PRaw (IVal (VStr (s "1.0")))));
      (s "me", exF 7);
      (s "users", TL [exN 1; exN 2; exN 3])].
Theorem C48_example :
  responds ascii no_tags (ex_env false) ex_fuel 5 ex_console ex_env_posted ex_csched (Ok (Response 200 (CtData ex_shown))) /\
  (exists log, console_calls ascii no_tags (ex_env false) ex_fuel 5 ex_console ex_env_posted log /\ length log = 9) /\
  responds ascii no_tags (ex_env false) ex_fuel 5 ex_console (ex_posts (s "[:me :you]")) [] (Ok (Response 400 (CtErrors
    [ELinkAsField None (s "me"); ENoField None (s "you")]))) /\
  responds ascii no_tags (ex_env false) ex_fuel 5 ex_console (ex_posts (s "[:version")) [] (Ok (Response 500 (CtTrace true))).
Proof.
  assert (start (ex_env false) ex_graph ex_posted = Ok ex_cstart) as Hstart.
  { unfold ex_cstart. destruct (start _ _ _) as [x|] eqn:Ex; [done|]. exfalso.
    assert (match start (ex_env false) ex_graph ex_posted with Ok _ => true | Err _ => false end = true) as Ht by (vm_compute; reflexivity). by rewrite Ex in Ht. }
  assert (console_prepare ascii no_tags 5 ex_console ex_env_posted = CpRun ex_posted) as Hp by apply prepare_run, C48_ex_valid.
  destruct (run_rounds (ex_env false) ex_csched ex_cstart) as [y|] eqn:Ey.
  2: { exfalso. assert (match run_rounds (ex_env false) ex_csched ex_cstart with Some _ => true | None => false end = true) as Ht by (vm_compute; reflexivity). by rewrite Ey in Ht. }
  assert (match run_rounds (ex_env false) ex_csched ex_cstart with Some y => match q_futures y.2, w_wfs y.1 with [], v :: _ => denormalize ex_graph (wf_index v) (wf_query v) | _, _ => Err KeyError end | None => Err KeyError end = Ok ex_shown) as Hans by (vm_compute; reflexivity).
  assert (match run_rounds (ex_env false) ex_csched ex_cstart with Some y => length (w_log y.1) | None => 0 end = 9) as Hlen by (vm_compute; reflexivity).
  rewrite Ey in Hans, Hlen. split; [|split; [|split]].
  - destruct (q_futures y.2) eqn:Ef; [|done]. destruct (w_wfs y.1) as [|v vs] eqn:Ew; [done|].
    pose proof (rp_run ascii no_tags (ex_env false) ex_fuel 5 ex_console ex_env_posted ex_posted ex_csched (Ok (wf_index v, wf_query v)) Hp) as Hd.
    cbn [finish] in Hd. change (cs_graph ex_console) with ex_graph in Hd. rewrite Hans in Hd. apply Hd.
    refine (exec_ok _ _ _ _ ex_cstart _ y v Hstart (run_rounds_executes (ex_env false) ex_csched ex_cstart y Ey Ef) _). by rewrite Ew.
  - exists (w_log y.1). split; [|done]. pose proof (run_rounds_rounds (ex_env false) ex_csched [] ex_cstart ex_cstart y (rd_nil _ _ _) Ey) as Hrr.
    exact (cc_rounds _ _ _ _ _ _ _ ex_posted _ ex_cstart y Hp Hstart Hrr).
  - apply rp_done. vm_compute. reflexivity.
  - apply rp_done. vm_compute. reflexivity.
Qed.
(** C48: data which is not JSON is not answered: the root field "version" is loaded as another object *)
Definition ex_odd_env : env := Env [] (fun _ _ => Ret (VList [VObj 0])) (fun _ => false) (fun _ _ _ _ => Err KeyError) false.
Definition ex_odd_body : str := s "[:version]".
Definition ex_odd : qnode := QN [QF (s "version") None None] false.
Definition ex_odd_start : st := match start ex_odd_env ex_graph ex_odd with Ok x => x | Err _ => (World [] [], q_empty) end.
Definition ex_odd_sched : list (list nat) := [[0]].
Theorem C48_not_json_refuted :
  responds ascii no_tags ex_odd_env ex_fuel 5 ex_console (ex_posts ex_odd_body) ex_odd_sched (Err TypeError).
Proof.
  assert (start ex_odd_env ex_graph ex_odd = Ok ex_odd_start) as Hstart.
  { unfold ex_odd_start. destruct (start _ _ _) as [x|] eqn:Ex; [done|]. exfalso.
    assert (match start ex_odd_env ex_graph ex_odd with Ok _ => true | Err _ => false end = true) as Ht by (vm_compute; reflexivity). by rewrite Ex in Ht. }
  assert (console_prepare ascii no_tags 5 ex_console (ex_posts ex_odd_body) = CpRun ex_odd) as Hp by (vm_compute; reflexivity).
  destruct (run_rounds ex_odd_env ex_odd_sched ex_odd_start) as [y|] eqn:Ey.
  2: { exfalso. assert (match run_rounds ex_odd_env ex_odd_sched ex_odd_start with Some _ => true | None => false end = true) as Ht by (vm_compute; reflexivity). by rewrite Ey in Ht. }
  assert (match run_rounds ex_odd_env ex_odd_sched ex_odd_start with Some y => match q_futures y.2, w_wfs y.1 with [], v :: _ => denormalize ex_graph (wf_index v) (wf_query v) | _, _ => Err KeyError end | None => Err KeyError end = Ok (TO [(s "version", TP (PRaw (IVal (VObj 0))))])) as Hans by (vm_compute; reflexivity).
  rewrite Ey in Hans.
  destruct (q_futures y.2) eqn:Ef; [|done]. destruct (w_wfs y.1) as [|v vs] eqn:Ew; [done|].
  pose proof (rp_run ascii no_tags ex_odd_env ex_fuel 5 ex_console (ex_posts ex_odd_body) ex_odd ex_odd_sched (Ok (wf_index v, wf_query v)) Hp) as Hd.
  cbn [finish] in Hd. change (cs_graph ex_console) with ex_graph in Hd. rewrite Hans in Hd. apply Hd.
  refine (exec_ok _ _ _ _ ex_odd_start _ y v Hstart (run_rounds_executes ex_odd_env ex_odd_sched ex_odd_start y Ey Ef) _). by rewrite Ew.
Qed.
(** All the hypotheses of [C48_data_partial] hold of the first example *)
Definition ex_posted' : qnode := match init_options ex_graph ex_posted with Ok q => q | Err _ => QN [] false end.
Theorem C48_example_hypotheses :
  posts_valid ascii no_tags 5 ex_console ex_env_posted ex_posted /\
  (forall q0, q0 ∈ qfields ex_posted -> options_proper q0) /\ distinct_options ex_graph /\ unchecked ex_graph ex_posted /\
  init_options ex_graph ex_posted = Ok ex_posted' /\ (forall gn, no_collision (asked ex_graph ex_posted' gn)) /\
  links_ok ex_graph (plain_value ex_data) ex_data ex_posted' /\ ex_posted' <> QN [] false.
Proof.
  assert (supported ex_graph ex_posted) as S1 by (apply supported_check; vm_compute; reflexivity).
  assert (supported ex_graph ex_posted') as S2 by (apply supported_check; vm_compute; reflexivity).
  split_and!; [exact C48_ex_valid| |exact C11_distinct|by apply (@supported_unchecked ex_hasher)|vm_compute; reflexivity|apply (sp_coll _ _ S2)| |vm_compute; discriminate].
  - intros q0 Hq. apply elem_of_list_In in Hq. vm_compute in Hq. repeat destruct Hq as [Hq|Hq]; try done; subst q0; vm_compute;
      repeat (first [split | constructor | intros ? ?]); try done.
  - intros gn n i q l Hv Hq Hf.
    assert ((gl_func l, gl_enum l) ∈ [(11%N, One); (12%N, Many); (13%N, Graph.Maybe)]) as Hl.
    { apply visited_visits, elem_of_list_In in Hv. apply elem_of_list_In. apply elem_of_list_In in Hq. vm_compute in Hv.
      repeat destruct Hv as [Hv|Hv]; try done; inversion Hv; subst gn n; clear Hv; cbn [qfields] in Hq;
        repeat destruct Hq as [Hq|Hq]; try done; subst q; vm_compute in Hf; inversion Hf; subst l; vm_compute; tauto. }
    unfold link_value, ex_data. simpl.
    repeat (apply elem_of_cons in Hl as [Hl|Hl]; [injection Hl as -> ->; simpl|]); try done; try by eexists.
    all: try by apply not_elem_of_nil in Hl.
Qed.

(** C48: which results can be written as JSON: those of which every stored value can, however deep
    it is in lists and objects.  References which nothing was resolved for can not. *)
Inductive json_result : vtree -> Prop :=
| jr_value v : is_json v -> json_result (TP (PRaw (IVal v)))
| jr_list l : Forall json_result l -> json_result (TL l)
| jr_object d : Forall (fun p => json_result p.2) d -> json_result (TO d).
Theorem C48_json_result t : json_tree t = true <-> json_result t.
Proof.
  split.
  - revert t. fix IH 1. intros [p|d|l] Ht; cbn [json_tree] in Ht.
    + destruct p as [[v| |]| |]; try discriminate Ht. constructor. by apply C48_json.
    + constructor. revert d Ht. fix IHd 1. intros [|[k x] d]; [constructor|]. cbn. destruct (json_tree x) eqn:Ex; [|done]. intros Hd. constructor; [by apply IH|by apply IHd].
    + constructor. revert l Ht. fix IHl 1. intros [|x l]; [constructor|]. cbn. destruct (json_tree x) eqn:Ex; [|done]. intros Hl. constructor; [by apply IH|by apply IHl].
  - revert t. fix IH 2. intros t [v Hv|l Hl|d Hd]; cbn [json_tree].
    + by apply C48_json.
    + revert l Hl. fix IHl 2. intros l [|x l' Hx Hl]; [done|]. cbn. rewrite (IH _ Hx). by apply IHl.
    + revert d Hd. fix IHd 2. intros d [|x d' Hx Hd]; [done|]. cbn. rewrite (IH _ Hx). by apply IHd.
Qed.
Theorem C48_json_result_example :
  json_result ex_shown /\ ~ json_result (TO [(s "a", TL [TL []; TP (PRaw (IVal (VSet [])))])]).
Proof. split; [apply C48_json_result; by vm_compute|]. intros Hx. apply C48_json_result in Hx. by vm_compute in Hx. Qed.

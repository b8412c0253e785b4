(** Theorems about EDN (C32, C33): hiku/edn.py. *)
From Verif Require Import Base Val Edn EdnSpec.

Lemma mem_spec c t : mem c t = true <-> c ∈ t.
Proof.
  unfold mem. rewrite existsb_exists. split.
  - intros (x & Hx & ->%N.eqb_eq). by apply elem_of_list_In.
  - intros Hx. exists c. split; [by apply elem_of_list_In|]. apply N.eqb_refl.
Qed.
Lemma mem_false c t : mem c t = false <-> c ∉ t.
Proof. rewrite <-mem_spec. by destruct (mem c t). Qed.
(** Facts about single ASCII characters are checked by computation. *)
Lemma small_cases (P : N -> bool) : forallb P (map N.of_nat (seq 0 128)) = true -> forall c, (c < 128)%N -> P c = true.
Proof.
  intros Hb c Hc. rewrite forallb_forall in Hb. apply Hb. apply in_map_iff. exists (N.to_nat c). split; [lia|].
  apply in_seq. lia.
Qed.

Ltac split_in Hc :=
  repeat match type of Hc with context [s ?x] => let y := eval vm_compute in (s x) in change (s x) with y in Hc end;
  cbn [app] in Hc;
  rewrite ?elem_of_cons in Hc; repeat (destruct Hc as [->|Hc]); try (apply elem_of_nil in Hc; destruct Hc).

Section roundtrip.
  Context `{PyText} (th : str -> option (val -> res val)).
  Notation step := (step th). Notation feed := (feed th).

  Lemma feed_app p t1 t2 : feed p (t1 ++ t2) = match feed p t1 with Ok q => feed q t2 | Err e => Err e end.
  Proof.
    revert p. induction t1 as [|c t1 IH]; intros p; [done|]. simpl. destruct (step p c) as [[q|]|]; [apply IH|done|done].
  Qed.
  Lemma feed_one p c q : step p c = Ok (Goes q) -> feed p [c] = Ok q.
  Proof. simpl. by intros ->. Qed.

  (** Output only grows. *)
  Lemma ready_out stop out c q : ready stop out c = Ok (Goes q) -> p_out q = out.
  Proof.
    unfold ready. intros Hr. repeat (case_match; try done); by injection Hr as <-.
  Qed.
  Lemma tag_next_out stop out n p q : tag_next th stop out n p = Ok (Goes q) -> exists x, p_out q = out ++ x.
  Proof.
    unfold tag_next. destruct (p_out p) as [|v l]; [intros [= <-]; exists []; by rewrite app_nil_r|].
    destruct (tag_value th n v) as [[]|] eqn:E; try done; intros [= <-]; try (by eexists). exists []. by rewrite app_nil_r.
  Qed.
  Lemma step_out p c q : step p c = Ok (Goes q) -> exists x, p_out q = p_out p ++ x.
  Proof.
    assert (forall (out : list val), exists x, out = out ++ x) as Hn. { intros out. exists []. by rewrite app_nil_r. }
    destruct p as [stop out m]. destruct m; cbn [Edn.step p_out].
    all: try (by intros [= <-]; simpl; eauto).
    - intros ->%ready_out. eauto.
    - intros Hs. repeat (case_match; try done); injection Hs as <-; simpl; eauto.
    - intros Hs. destruct (is_alpha c); [injection Hs as <-; simpl; eauto|]. destruct (char_value r); [|done].
      apply ready_out in Hs as ->. eauto.
    - intros Hs. destruct (num_char c); [injection Hs as <-; simpl; eauto|]. destruct (parse_number t); [|done].
      apply ready_out in Hs as ->. eauto.
    - intros Hs. destruct (sym_end c); [|injection Hs as <-; simpl; eauto].
      apply ready_out in Hs as ->. eauto.
    - intros Hs. destruct (Edn.step th p c) as [[p'|l]|]; [injection Hs as <-; simpl; eauto| |done].
      destruct (build c0 l); [|done]. injection Hs as <-. simpl; eauto.
    - intros Hs. destruct (tag_end c); [|injection Hs as <-; simpl; eauto]. destruct (ready None [] c) as [[p'|]|]; [|done|done].
      by eapply tag_next_out.
    - intros Hs. destruct (Edn.step th p c) as [[p'|l]|]; [|done|done]. by eapply tag_next_out.
  Qed.
  Lemma feed_out t p q : feed p t = Ok q -> exists x, p_out q = p_out p ++ x.
  Proof.
    revert p. induction t as [|c t IH]; intros p; simpl.
    - intros [= ->]. exists []. by rewrite app_nil_r.
    - destruct (step p c) as [[p'|]|] eqn:Es; [|done|done]. intros [x Hx]%IH. apply step_out in Es as [y Hy].
      exists (y ++ x). by rewrite app_assoc, <-Hy.
  Qed.

  (** Characters sent to a collection or a tagged value are sent to the inner parser. *)
  Lemma feed_coll stop out c0 t p q : feed p t = Ok q -> feed (PS stop out (MColl c0 p)) t = Ok (PS stop out (MColl c0 q)).
  Proof.
    revert p. induction t as [|c t IH]; intros p; simpl; [by intros [= ->]|].
    destruct (step p c) as [[p'|]|]; [|done|done]. apply IH.
  Qed.
  Lemma feed_tag stop out n t p q : feed p t = Ok q -> p_out q = [] -> feed (PS stop out (MTagVal n p)) t = Ok (PS stop out (MTagVal n q)).
  Proof.
    revert p. induction t as [|c t IH]; intros p; simpl; [by intros [= ->]|].
    destruct (step p c) as [[p'|]|]; [|done|done]. intros Hf Hq. unfold tag_next.
    destruct (feed_out _ _ _ Hf) as [x Hx]. rewrite Hq in Hx. destruct (p_out p'); [|done]. by apply IH.
  Qed.

  (** ** Reading what was written *)
  Definition stop_ok (stop : option N) : Prop := stop ∈ [None; Some 93%N; Some 41%N; Some 125%N].
  Definition next_ok (last : bool) (c : N) : Prop := if last then c ∈ s "])}" else c = 32%N.
  Inductive reads_to (last : bool) (v : val) (stop : option N) (out : list val) (t : str) : Prop :=
  | rt_closed t0 c p : closing v = true -> t = t0 ++ [c] -> feed (PS stop out MReady) t0 = Ok p -> p_out p = out ->
      step p c = Ok (Goes (PS stop (out ++ [as_edn v]) MReady)) -> reads_to last v stop out t
  | rt_open q : closing v = false -> feed (PS stop out MReady) t = Ok q -> p_out q = out ->
      (forall c, next_ok last c -> step q c = ready stop (out ++ [as_edn v]) c) -> reads_to last v stop out t.
  Lemma next_small last c : next_ok last c -> (c < 128)%N /\ sym_end c = true /\ num_char c = false.
  Proof.
    unfold next_ok. destruct last.
    - intros Hc. by split_in Hc.
    - by intros ->.
  Qed.
  Lemma reads_next last v stop out t c : reads_to last v stop out t -> next_ok last c ->
    exists q, feed (PS stop out MReady) t = Ok q /\ step q c = ready stop (out ++ [as_edn v]) c.
  Proof.
    intros [t0 c' p _ -> Hf _ Hs|q _ Hf _ Hs] Hc.
    - exists (PS stop (out ++ [as_edn v]) MReady). rewrite feed_app, Hf. by rewrite (feed_one _ _ _ Hs).
    - exists q. split; [done|]. by apply Hs.
  Qed.
  Lemma ready_sp stop out : stop_ok stop -> ready stop out 32 = Ok (Goes (PS stop out MReady)).
  Proof.
    unfold stop_ok. intros Hs. unfold ready. rewrite bool_decide_eq_false_2; [done|]. by split_in Hs.
  Qed.

  (** Words and numbers *)
  Lemma feed_sym stop out t a : Forall word_char t -> feed (PS stop out (MSym a)) t = Ok (PS stop out (MSym (a ++ t))).
  Proof.
    intros Hw. revert a. induction Hw as [|c t Hc Hw IH]; intros a; simpl; [by rewrite app_nil_r|].
    assert (sym_end c = false) as ->. { apply mem_false. exact Hc. }
    rewrite IH. by rewrite <-app_assoc.
  Qed.
  Lemma feed_num stop out t a : Forall (fun c => num_char c = true) t -> feed (PS stop out (MNum a)) t = Ok (PS stop out (MNum (a ++ t))).
  Proof.
    intros Hw. revert a. induction Hw as [|c t Hc Hw IH]; intros a; simpl; [by rewrite app_nil_r|].
    rewrite Hc, IH. by rewrite <-app_assoc.
  Qed.
  Lemma not_stop stop c : stop_ok stop -> c ∉ [93; 41; 125]%N -> stop <> Some c.
  Proof.
    unfold stop_ok. intros Hs Hc ->. rewrite !elem_of_cons in Hs. apply Hc. rewrite !elem_of_cons.
    destruct Hs as [?|[?|[?|[?|Hs]]]]; simplify_eq; try tauto. by apply elem_of_nil in Hs.
  Qed.
  Lemma ready_alpha stop out c : stop_ok stop -> is_alpha c = true -> ready stop out c = Ok (Goes (PS stop out (MSym [c]))).
  Proof.
    intros Hs Ha.
    assert (forall x, (x < 128)%N -> ascii_alpha x = false -> c <> x) as Hx.
    { intros x Hx Hn ->. rewrite alpha_ascii in Ha by done. congruence. }
    assert (forall l, forallb (fun x => (x <? 128)%N && negb (ascii_alpha x)) l = true -> c ∉ l) as Hl.
    { intros l Hl Hin. rewrite forallb_forall in Hl. apply elem_of_list_In, Hl, andb_prop in Hin as [H1 H2].
      apply N.ltb_lt in H1. apply negb_true_iff in H2. by apply (Hx c). }
    unfold ready. rewrite bool_decide_eq_false_2 by (apply not_stop; [done|by apply Hl]).
    rewrite (proj2 (mem_false c STOP_CHARS)) by (by apply Hl).
    rewrite (proj2 (N.eqb_neq c 59)) by (by apply Hx). rewrite (proj2 (N.eqb_neq c 34)) by (by apply Hx).
    rewrite (proj2 (N.eqb_neq c 92)) by (by apply Hx).
    assert (is_digit c = false) as ->.
    { destruct (is_digit c) eqn:Ed; [|done]. exfalso. unfold is_digit in Ed. apply andb_prop in Ed as [H1 H2].
      apply N.leb_le in H1, H2. rewrite alpha_ascii in Ha by lia. unfold ascii_alpha in Ha.
      apply orb_prop in Ha as [Ha|Ha]; apply andb_prop in Ha as [H3 H4]; apply N.leb_le in H3, H4; lia. }
    rewrite (proj2 (mem_false c (s "-."))) by (by apply Hl). by rewrite Ha.
  Qed.
  Lemma ready_digit stop out c : stop_ok stop -> is_digit c = true -> ready stop out c = Ok (Goes (PS stop out (MNum [c]))).
  Proof.
    intros Hs Hd. unfold is_digit in Hd. pose proof Hd as [H1 H2]%andb_prop. apply N.leb_le in H1, H2.
    assert (forall l, forallb (fun x => negb (is_digit x)) l = true -> c ∉ l) as Hl.
    { intros l Hl Hin. rewrite forallb_forall in Hl. apply elem_of_list_In, Hl in Hin. unfold is_digit in Hin. by rewrite Hd in Hin. }
    unfold ready. rewrite bool_decide_eq_false_2 by (apply not_stop; [done|by apply Hl]).
    rewrite (proj2 (mem_false c STOP_CHARS)) by (by apply Hl).
    rewrite (proj2 (N.eqb_neq c 59)) by lia. rewrite (proj2 (N.eqb_neq c 34)) by lia. rewrite (proj2 (N.eqb_neq c 92)) by lia.
    unfold is_digit. by rewrite Hd.
  Qed.
  (** Characters which do not depend on [is_alpha] *)
  Lemma ready_sign stop out c : stop_ok stop -> c ∈ s "-." -> ready stop out c = Ok (Goes (PS stop out (MSign c))).
  Proof.
    intros Hs Hc. unfold ready. rewrite bool_decide_eq_false_2. { by split_in Hc. }
    apply not_stop; [done|]. split_in Hc; by apply mem_false.
  Qed.
  Lemma ready_open stop out c : stop_ok stop -> c ∈ s "[({" ->
    ready stop out c = Ok (Goes (PS stop out (MColl c (PS (Some (end_char c)) [] MReady)))).
  Proof.
    intros Hs Hc. unfold ready. rewrite bool_decide_eq_false_2. { split_in Hc; rewrite alpha_ascii by done; done. }
    apply not_stop; [done|]. split_in Hc; by apply mem_false.
  Qed.
  Lemma ready_hash stop out : stop_ok stop -> ready stop out 35 = Ok (Goes (PS stop out MHash)).
  Proof.
    intros Hs. unfold ready. rewrite bool_decide_eq_false_2. { rewrite alpha_ascii by done. done. }
    apply not_stop; [done|]. by apply mem_false.
  Qed.
  Lemma ready_quote stop out : stop_ok stop -> ready stop out 34 = Ok (Goes (PS stop out (MStr []))).
  Proof. intros Hs. unfold ready. rewrite bool_decide_eq_false_2; [done|]. apply not_stop; [done|]. by apply mem_false. Qed.
  Lemma ready_colon stop out : stop_ok stop -> ready stop out 58 = Ok (Goes (PS stop out (MSym (s ":")))).
  Proof.
    intros Hs. unfold ready. rewrite bool_decide_eq_false_2. { rewrite orb_true_r. done. }
    apply not_stop; [done|]. by apply mem_false.
  Qed.

  Lemma open_sym last v stop out t : stop_ok stop -> closing v = false -> feed (PS stop out MReady) t = Ok (PS stop out (MSym t)) ->
    symbol_value t = as_edn v -> reads_to last v stop out t.
  Proof.
    intros Hs Hc Hf Hv. apply (rt_open _ _ _ _ _ (PS stop out (MSym t))); [done|done|done|].
    intros c (_ & Hn & _)%next_small. cbn [Edn.step]. by rewrite Hn, Hv.
  Qed.
  Lemma open_num last v stop out t : stop_ok stop -> closing v = false -> feed (PS stop out MReady) t = Ok (PS stop out (MNum t)) ->
    parse_number t = Ok (as_edn v) -> reads_to last v stop out t.
  Proof.
    intros Hs Hc Hf Hv. apply (rt_open _ _ _ _ _ (PS stop out (MNum t))); [done|done|done|].
    intros c (_ & _ & Hn)%next_small. cbn [Edn.step]. by rewrite Hn, Hv.
  Qed.
  Lemma num_text stop out t : stop_ok stop -> Forall (fun c => num_char c = true) t ->
    (exists a c t', t = a ++ c :: t' /\ (a = [] \/ a = s "-") /\ is_digit c = true) ->
    feed (PS stop out MReady) t = Ok (PS stop out (MNum t)).
  Proof.
    intros Hs Hn (a & c & t' & -> & [->| ->] & Hd).
    - simpl. rewrite ready_digit by done. apply (feed_num _ _ _ [c]). by inversion Hn.
    - change (s "-" ++ c :: t') with (45%N :: c :: t') in *. cbn [Edn.feed Edn.step]. rewrite ready_sign by (done || by left). cbn [Edn.feed Edn.step].
      assert (is_udigit c = true) as ->.
      { rewrite udigit_ascii; [done|]. unfold is_digit in Hd. apply andb_prop in Hd as [_ Hd]. apply N.leb_le in Hd. lia. }
      apply (feed_num _ _ _ [45%N; c]). inversion Hn as [|? ? _ Hn']; subst. by inversion Hn'.
  Qed.
  Lemma digit_num c : is_digit c = true -> num_char c = true /\ mem c (s "MN") = false /\ c <> 69%N /\ c <> 46%N /\ c <> 101%N.
  Proof.
    intros Hd. unfold is_digit in Hd. apply andb_prop in Hd as [H1 H2]. apply N.leb_le in H1, H2.
    assert (forallb (fun c => num_char c && negb (mem c (s "MN"))) (map N.of_nat (seq 48 10)) = true) as Hb by done.
    rewrite forallb_forall in Hb. destruct (andb_prop _ _ (Hb c ltac:(apply in_map_iff; exists (N.to_nat c); split; [lia|apply in_seq; lia]))) as [H3 H4].
    apply negb_true_iff in H4. split; [done|]. split; [done|]. lia.
  Qed.
  Lemma rstrip_plain t : Forall (fun c => mem c (s "MN") = false) t -> rstrip_mn t = t.
  Proof.
    induction 1 as [|c t Hc _ IH]; [done|]. cbn [rstrip_mn]. rewrite IH. destruct t; [by rewrite Hc|done].
  Qed.
  Lemma upper_plain t : Forall (fun c => c <> 101%N) t -> upper t = t.
  Proof. induction 1 as [|c t Hc _ IH]; [done|]. simpl. rewrite IH. by rewrite (proj2 (N.eqb_neq _ _) Hc). Qed.
  Lemma Z_str_shape z : exists a c t', Z_str z = a ++ c :: t' /\ (a = [] \/ a = s "-") /\ Forall (fun c => is_digit c = true) (c :: t').
  Proof.
    assert (forall n, exists c t', N_str n = c :: t' /\ Forall (fun c => is_digit c = true) (c :: t')) as Hn.
    { intros n. destruct (N_str_head n) as (c & t & Ht & _). exists c, t. split; [done|]. rewrite <-Ht. apply N_str_digits. }
    unfold Z_str. destruct z as [|p|p].
    - destruct (Hn 0%N) as (c & t & Ht & Hd). exists [], c, t. rewrite <-Ht in *. auto.
    - destruct (Hn (N.pos p)) as (c & t & Ht & Hd). exists [], c, t. rewrite <-Ht in *. auto.
    - destruct (Hn (N.pos p)) as (c & t & Ht & Hd). exists (s "-"), c, t. split; [|auto]. by rewrite <-Ht.
  Qed.
  Lemma Z_str_chars z : Forall (fun c => c = 45%N \/ is_digit c = true) (Z_str z).
  Proof.
    destruct (Z_str_shape z) as (a & c & t & -> & Ha & Hd). apply Forall_app. split.
    - destruct Ha as [->| ->]; [constructor|]. by constructor; [left|constructor].
    - eapply Forall_impl; [exact Hd|]. auto.
  Qed.
  Lemma rstrip_none t : Forall (fun c => c <> 77%N /\ c <> 78%N) t -> rstrip_mn t = t.
  Proof.
    induction t as [|c t IH]; [done|]. intros Hf. inversion Hf as [|? ? [H1 H2] Ht]; subst. cbn [rstrip_mn]. rewrite IH by done. destruct t; [|done].
    assert (mem c (s "MN") = false) as ->; [|done]. apply mem_false. intros Hc. apply elem_of_cons in Hc as [Hc|Hc]; [by apply H1|]. apply elem_of_list_singleton in Hc. by apply H2.
  Qed.
  Lemma upper_big t : upper t = map big_e t.
  Proof. unfold upper. apply map_ext. intros c. unfold big_e. destruct (N.eqb_spec c 101) as [->|Hc]; [done|]. by rewrite decide_False. Qed.
  Lemma parse_stripped t m e : (46%N ∈ t \/ 101%N ∈ t \/ 69%N ∈ t) -> parse_float (map big_e t) = Some (m, e) ->
    (let t := upper t in if mem 69 t || mem 46 t
    then match parse_float t with Some (m, e) => Ok (VFloat m e) | None => Err ValueError end
    else match parse_int t with Some z => Ok (VInt z) | None => Err ValueError end) = Ok (VFloat m e).
  Proof.
    intros Hp Hf. cbv zeta. rewrite upper_big, Hf.
    assert (mem 69 (map big_e t) || mem 46 (map big_e t) = true) as ->; [|done]. apply orb_true_iff. rewrite !mem_spec.
    destruct Hp as [Hp|[Hp|Hp]]; [right|left|left]; apply elem_of_list_fmap; (eexists; split; [|exact Hp]); done.
  Qed.
  Lemma written_rstrip t m e : float_written t m e -> rstrip_mn t = t.
  Proof.
    intros (H1 & _). apply rstrip_none. eapply Forall_impl; [exact H1|]. intros c Hc. split; intros ->; apply mem_spec in Hc; vm_compute in Hc; done.
  Qed.
  Lemma parse_written t m e : float_written t m e -> parse_number t = Ok (VFloat m e).
  Proof. intros Hw. unfold parse_number. rewrite (written_rstrip _ _ _ Hw). destruct Hw as (_ & _ & Hp & Hf). by apply parse_stripped. Qed.
  Lemma parse_Z_str z : parse_number (Z_str z) = Ok (VInt z).
  Proof.
    unfold parse_number. pose proof (Z_str_chars z) as Hc.
    rewrite rstrip_plain. 2:{ eapply Forall_impl; [exact Hc|]. intros c [->|Hd]; [done|by apply digit_num in Hd as (_ & ? & _)]. }
    rewrite upper_plain. 2:{ eapply Forall_impl; [exact Hc|]. intros c [->|Hd]; [done|by apply digit_num in Hd as (_ & _ & _ & _ & ?)]. }
    assert (forall x, x = 69%N \/ x = 46%N -> mem x (Z_str z) = false) as Hm.
    { intros x Hx. apply mem_false. intros Hin. rewrite Forall_forall in Hc. apply Hc in Hin as [->|Hd]; [by destruct Hx|].
      apply digit_num in Hd as (_ & _ & ? & ? & _). by destruct Hx. }
    rewrite !Hm by auto. simpl. by rewrite Z_str_parse.
  Qed.

  (** Strings *)
  Lemma feed_text ascii stop out x a : Forall (text_char ascii) x ->
    feed (PS stop out (MStr a)) (flat_map (esc_char ascii) x) = Ok (PS stop out (MStr (a ++ x))).
  Proof.
    intros Hx. revert a. induction Hx as [|c x Hc _ IH]; intros a; [by rewrite app_nil_r|]. cbn [flat_map]. rewrite feed_app.
    assert (feed (PS stop out (MStr a)) (esc_char ascii c) = Ok (PS stop out (MStr (a ++ [c])))) as ->.
    2:{ rewrite IH. by rewrite <-app_assoc. }
    unfold esc_char. destruct (short_escape c) as [e|] eqn:He.
    - assert (char_map e = c) as Hcm.
      { unfold short_escape in He.
        repeat match type of He with context [(c =? ?n)%N] => destruct (N.eqb_spec c n) as [Hcn|?]; [injection He as <-; by rewrite Hcn|] end. done. }
      cbn. by rewrite Hcm.
    - assert ((32 <=? c)%N && (negb ascii || (c <=? 126)%N) = true) as ->.
      { destruct Hc as [Hc|[H1 H2]].
        - exfalso. by split_in Hc.
        - apply andb_true_intro. split; [by apply N.leb_le|]. destruct ascii; [|done]. apply N.leb_le. auto. }
      unfold short_escape in He. cbn [Edn.feed Edn.step]. destruct (c =? 92)%N; [done|]. by destruct (c =? 34)%N.
  Qed.

  (** Collections *)
  Definition last_of {A} (l : list A) : bool := match l with [] => true | _ => false end.
  Fixpoint items_ok (ascii : bool) (l : list val) : Prop :=
    match l with [] => True | x :: l' => readable th ascii (last_of l') x /\ items_ok ascii l' end.
  Fixpoint pairs_ok (ascii : bool) (d : list (val * val)) : Prop :=
    match d with
    | [] => True
    | (k, w) :: d' => readable th ascii false k /\ readable th ascii (last_of d') w /\ pairs_ok ascii d'
    end.
  Definition flat (d : list (val * val)) : list val := flat_map (fun p => [p.1; p.2]) d.
  Lemma pairs_items ascii d : pairs_ok ascii d -> items_ok ascii (flat d).
  Proof.
    induction d as [|[k w] d IH]; [done|]. intros (Hk & Hw & Hd). cbn [flat flat_map app items_ok fst snd].
    split; [exact Hk|]. split; [|by apply IH]. destruct d as [|[? ?] ?]; exact Hw.
  Qed.
  Definition reads_val (v : val) : Prop := forall ascii last stop out t,
    readable th ascii last v -> dumps ascii v = Ok t -> stop_ok stop -> reads_to last v stop out t.
  Lemma read_items ascii l ts e out : Forall reads_val l -> items_ok ascii l -> mapR (dumps ascii) l = Ok ts -> e ∈ [93; 41; 125]%N ->
    exists q, feed (PS (Some e) out MReady) (join_sp ts) = Ok q /\ step q e = Ok (Stops (out ++ map as_edn l)).
  Proof.
    intros HP Hok Hts He. assert (stop_ok (Some e)) as Hs. { split_in He; apply (bool_decide_unpack _); vm_compute; exact I. }
    apply mapR_ok in Hts. revert out Hok. induction Hts as [|x t l ts Hx Hl IH]; intros out Hok.
    - exists (PS (Some e) out MReady). split; [done|]. cbn [Edn.step]. unfold ready. rewrite bool_decide_eq_true_2 by done. by rewrite app_nil_r.
    - destruct Hok as [H1 H2]. inversion HP as [|? ? Hx1 Hl1]; subst. destruct Hl as [|y t' l' ts' Hy Hl'].
      + destruct (reads_next true x (Some e) out t e) as (q & Hq & Hn); [by eapply Hx1|unfold next_ok; apply mem_spec; by split_in He|].
        exists q. split; [done|]. rewrite Hn. unfold ready. by rewrite bool_decide_eq_true_2.
      + destruct (reads_next false x (Some e) out t 32) as (q & Hq & Hn); [by eapply Hx1|done|].
        rewrite ready_sp in Hn by done. destruct (IH Hl1 (out ++ [as_edn x]) H2) as (q' & Hq' & Hn').
        exists q'. split; [|by rewrite Hn', <-app_assoc]. change (join_sp (t :: t' :: ts')) with (t ++ [32%N] ++ join_sp (t' :: ts')).
        rewrite feed_app, Hq, feed_app, (feed_one _ _ _ Hn). exact Hq'.
  Qed.
  Lemma read_coll last v ascii c0 l ts stop out : closing v = true -> stop_ok stop -> c0 ∈ s "[({" ->
    Forall reads_val l -> items_ok ascii l -> mapR (dumps ascii) l = Ok ts -> build c0 (map as_edn l) = Ok (as_edn v) ->
    reads_to last v stop out ([c0] ++ join_sp ts ++ [end_char c0]).
  Proof.
    intros Hc Hs H0 HP Hok Hts Hb.
    destruct (read_items ascii l ts (end_char c0) [] HP Hok Hts) as (q & Hq & Hn); [split_in H0; apply (bool_decide_unpack _); vm_compute; exact I|].
    apply (rt_closed _ _ _ _ _ ([c0] ++ join_sp ts) (end_char c0) (PS stop out (MColl c0 q))); [done|by rewrite app_assoc| |done|].
    - rewrite feed_app. cbn [Edn.feed Edn.step]. rewrite ready_open by done. by apply feed_coll.
    - cbn [Edn.step]. rewrite Hn. cbn [app]. by rewrite Hb.
  Qed.
  Lemma read_set last v ascii l ts stop out : closing v = true -> stop_ok stop ->
    Forall reads_val l -> items_ok ascii l -> mapR (dumps ascii) l = Ok ts -> build 35 (map as_edn l) = Ok (as_edn v) ->
    reads_to last v stop out (s "#{" ++ join_sp ts ++ [125%N]).
  Proof.
    intros Hc Hs HP Hok Hts Hb.
    destruct (read_items ascii l ts 125 [] HP Hok Hts) as (q & Hq & Hn); [apply (bool_decide_unpack _); vm_compute; exact I|].
    apply (rt_closed _ _ _ _ _ (s "#{" ++ join_sp ts) 125%N (PS stop out (MColl 35 q))); [done|by rewrite app_assoc| |done|].
    - rewrite feed_app. change (s "#{") with [35; 123]%N. cbn [Edn.feed Edn.step]. rewrite ready_hash by done. cbn. by apply feed_coll.
    - cbn [Edn.step]. rewrite Hn. cbn [app]. by rewrite Hb.
  Qed.
  Lemma pairs_flat d : pairs_of (map as_edn (flat d)) = Some (map (fun '(k, w) => (as_edn k, as_edn w)) d).
  Proof. induction d as [|[k w] d IH]; [done|]. cbn [flat flat_map app map pairs_of fst snd]. change (flat_map (fun p => [p.1; p.2]) d) with (flat d). by rewrite IH. Qed.
  Lemma pd_set_new k v d : Forall (fun p => py_eqb p.1 k = false) d -> pd_set k v d = d ++ [(k, v)].
  Proof. induction 1 as [|[k' v'] d Hk _ IH]; [done|]. simpl in *. by rewrite Hk, IH. Qed.
  Lemma py_dict_distinct ps : forallb hashable (map fst ps) = true -> distinct (map fst ps) -> py_dict ps = Ok ps.
  Proof.
    intros Hh Hd. unfold py_dict. assert (forallb (fun p => hashable p.1) ps = true) as ->.
    { rewrite forallb_forall in *. intros p Hp. apply Hh. by apply in_map. }
    f_equal. change ps with ([] ++ ps) at 2. assert (forall p, p ∈ ps -> Forall (fun q : val * val => py_eqb q.1 p.1 = false) []) as Ha by (intros; constructor).
    clear Hh. revert Ha. generalize (@nil (val * val)) as acc. induction ps as [|[k v] ps IH]; intros acc Ha; simpl; [by rewrite app_nil_r|].
    inversion Hd as [|? ? H1 H2]; subst. rewrite pd_set_new by (apply (Ha (k, v)); left). rewrite IH; [by rewrite <-app_assoc|done|].
    intros p Hp. apply Forall_app. split; [apply Ha; by right|]. constructor; [|constructor]. simpl. rewrite Forall_forall in H1. apply H1.
    apply elem_of_list_fmap. eauto.
  Qed.
  Lemma py_set_distinct l : forallb hashable l = true -> distinct l -> py_set l = Ok l.
  Proof.
    intros Hh Hd. unfold py_set. rewrite Hh. f_equal.
    assert (forall acc, (forall x, x ∈ l -> Forall (fun y => py_eqb y x = false) acc) ->
      fold_left (fun acc x => if existsb (fun y => py_eqb y x) acc then acc else acc ++ [x]) l acc = acc ++ l) as Hg.
    2:{ apply Hg. constructor. }
    clear Hh. induction l as [|k l IH]; intros acc Ha; simpl; [by rewrite app_nil_r|].
    inversion Hd as [|? ? H1 H2]; subst.
    assert (existsb (fun y => py_eqb y k) acc = false) as ->.
    { specialize (Ha k ltac:(left)). clear -Ha. induction Ha as [|y acc Hy _ IH]; [done|]. simpl. by rewrite Hy. }
    rewrite IH; [by rewrite <-app_assoc|done|]. intros x Hx. apply Forall_app. split; [apply Ha; by right|]. constructor; [|constructor].
    rewrite Forall_forall in H1. by apply H1.
  Qed.
  Lemma dumps_pairs ascii d tss :
    mapR (fun '(k, w) => match dumps ascii k with
                         | Err e => Err e
                         | Ok t => match dumps ascii w with Ok t' => Ok [t; t'] | Err e => Err e end
                         end) d = Ok tss -> mapR (dumps ascii) (flat d) = Ok (concat tss).
  Proof.
    intros Ht. apply mapR_ok in Ht. apply mapR_ok. induction Ht as [|[k w] ts d tss Hx _ IH]; [constructor|].
    destruct (dumps ascii k) as [t|] eqn:E1; [|done]. destruct (dumps ascii w) as [t'|] eqn:E2; [|done]. injection Hx as <-.
    simpl. by repeat constructor.
  Qed.

  Lemma tag_chars n stop out a : Forall (fun c => c ∉ s " ,{[(\#" ++ [10; 13; 9; 34]%N) n ->
    feed (PS stop out (MTag a)) n = Ok (PS stop out (MTag (a ++ n))).
  Proof.
    intros Hw. revert a. induction Hw as [|c t Hc Hw IH]; intros a; simpl; [by rewrite app_nil_r|].
    assert (tag_end c = false) as ->.
    { apply mem_false. intros Hx. apply Hc. unfold STOP_CHARS in Hx. split_in Hx; apply (bool_decide_unpack _); vm_compute; exact I. }
    rewrite IH. by rewrite <-app_assoc.
  Qed.
  Lemma read_word last v stop out x : stop_ok stop -> closing v = false -> as_edn v = v ->
    (exists c t, x = c :: t /\ is_alpha c = true /\ Forall word_char x /\ symbol_value x = v) -> reads_to last v stop out x.
  Proof.
    intros Hs Hc Hv (c & t & -> & Ha & Hw & Hx). apply open_sym; [done|done| |by rewrite Hv].
    cbn [Edn.feed Edn.step]. rewrite ready_alpha by done. inversion Hw; subst. by rewrite feed_sym.
  Qed.
  Lemma word_chars x : forallb (fun c => negb (mem c (s "}]) ," ++ [10; 13; 9]%N))) x = true -> Forall word_char x.
  Proof.
    intros Hb. apply Forall_forall. intros c Hc. rewrite forallb_forall in Hb. apply elem_of_list_In, Hb, negb_true_iff in Hc. by apply mem_false.
  Qed.
  Lemma tag_next_one stop out n v m : th n = None -> tag_next th stop out n (PS None [v] m) = Ok (Goes (PS stop (out ++ [VTag n v]) MReady)).
  Proof. intros Hn. unfold tag_next, tag_value. simpl. by rewrite Hn. Qed.
  Lemma not_colon c : is_alpha c = true -> (c =? 58)%N = false.
  Proof. intros Ha. apply N.eqb_neq. intros ->. by rewrite alpha_ascii in Ha. Qed.

  Lemma flat_forall d : Forall (fun p => reads_val p.1 /\ reads_val p.2) d -> Forall reads_val (flat d).
  Proof. induction 1 as [|[k w] d [H1 H2] _ IH]; [constructor|]. cbn. by repeat constructor. Qed.
  Lemma map_pairs_fst d : map fst (map (fun '(k, w) => (as_edn k, as_edn w)) d) = map (fun p => as_edn p.1) d.
  Proof. rewrite map_map. apply map_ext. by intros [k w]. Qed.
  Lemma read_val v : reads_val v.
  Proof.
    assert (forall ascii (l : list val), (fix items (l : list val) : Prop :=
      match l with [] => True | x :: l' => readable th ascii (match l' with [] => true | _ => false end) x /\ items l' end) l = items_ok ascii l) as Hitems.
    { intros ascii l. induction l as [|x l IH]; [done|]. cbn [items_ok]. by rewrite IH. }
    assert (forall ascii d, (fix pairs (d : list (val * val)) : Prop :=
           match d with
           | [] => True
           | (k, w) :: d' => readable th ascii false k /\ readable th ascii (match d' with [] => true | _ => false end) w /\ pairs d'
           end) d = pairs_ok ascii d) as Hpairs.
    { intros ascii d. induction d as [|[k w] d IH]; [done|]. cbn [pairs_ok]. by rewrite IH. }
    induction v as [|b|z|m e|x|x|x|l IH|l IH|l IH|l IH|d IH|d IH|l IH|n v IH| |] using val_ind';
      intros ascii last stop out t Hr Hd Hs; cbn [readable dumps] in Hr, Hd; rewrite ?Hitems, ?Hpairs in Hr.
    - injection Hd as <-. apply read_word; [done..|]. exists 110%N, (s "il"). split; [done|]. rewrite alpha_ascii by done. split; [done|]. split; [by apply word_chars|done].
    - destruct b; injection Hd as <-; (apply read_word; [done..|]).
      + exists 116%N, (s "rue"). split; [done|]. rewrite alpha_ascii by done. split; [done|]. split; [by apply word_chars|done].
      + exists 102%N, (s "alse"). split; [done|]. rewrite alpha_ascii by done. split; [done|]. split; [by apply word_chars|done].
    - injection Hd as <-. apply open_num; [done|done| |by apply parse_Z_str]. apply num_text; [done| |].
      + eapply Forall_impl; [apply Z_str_chars|]. intros c [->|Hc]; [done|by apply digit_num].
      + destruct (Z_str_shape z) as (a & c & t' & H1 & H2 & H3). exists a, c, t'. split; [done|]. split; [done|]. by inversion H3.
    - injection Hd as <-. pose proof (parse_written _ _ _ Hr) as H3. destruct Hr as (H1 & H2 & _ & _). apply open_num; [done|done| |done]. apply num_text; [done| |done].
      eapply Forall_impl; [exact H1|]. intros c Hc. cbv beta in Hc. by split_in Hc.
    - injection Hd as <-. apply (rt_closed _ _ _ _ _ ([34%N] ++ flat_map (esc_char ascii) x) 34%N (PS stop out (MStr x))); [done| | |done|done].
      + unfold encode_str. by rewrite app_assoc.
      + rewrite feed_app. cbn [Edn.feed Edn.step]. rewrite ready_quote by done. by rewrite feed_text.
    - injection Hd as <-. apply open_sym; [done|done| |done]. change (s ":" ++ x) with (58%N :: x). cbn [Edn.feed Edn.step].
      rewrite ready_colon by done. by rewrite feed_sym.
    - injection Hd as <-. destruct Hr as [Hw Hx]. destruct x as [|c t]; [done|]. destruct Hx as [(Ha & H1 & H2 & H3)|[Hc Ht]].
      + apply read_word; [done..|]. exists c, t. split; [done|]. split; [done|]. split; [done|]. unfold symbol_value. rewrite not_colon by done.
        by rewrite (bool_decide_eq_false_2 _ H1), (bool_decide_eq_false_2 _ H2), (bool_decide_eq_false_2 _ H3).
      + destruct t as [|c' t]; [done|]. apply open_sym; [done|done| |].
        * cbn [Edn.feed Edn.step]. rewrite ready_sign by done. cbn [Edn.feed Edn.step]. rewrite Ht. inversion Hw as [|? ? _ Hw']; subst. inversion Hw'; subst. by rewrite feed_sym.
        * unfold symbol_value. split_in Hc; done.
    - destruct (mapR _ l) as [ts|] eqn:Et; [|done]. injection Hd as <-. by eapply (read_coll last _ ascii 91 l ts); [..|apply mem_spec| | | |].
    - destruct (mapR _ l) as [ts|] eqn:Et; [|done]. injection Hd as <-. by eapply (read_coll last _ ascii 40 l ts); [..|apply mem_spec| | | |].
    - destruct (mapR _ l) as [ts|] eqn:Et; [|done]. injection Hd as <-. by eapply (read_coll last _ ascii 91 l ts); [..|apply mem_spec| | | |].
    - destruct (mapR _ l) as [ts|] eqn:Et; [|done]. injection Hd as <-. by eapply (read_coll last _ ascii 40 l ts); [..|apply mem_spec| | | |].
    - destruct (mapR _ d) as [ts|] eqn:Et; [|done]. injection Hd as <-. destruct Hr as (Hp & Hh & Hdi).
      eapply (read_coll last _ ascii 123 (flat d) (concat ts)); [done|done|by apply mem_spec|by apply flat_forall|by apply pairs_items|by apply dumps_pairs|].
      unfold build. cbn. rewrite pairs_flat, py_dict_distinct; [done|by rewrite map_pairs_fst..].
    - destruct (mapR _ d) as [ts|] eqn:Et; [|done]. injection Hd as <-. destruct Hr as (Hp & Hh & Hdi).
      eapply (read_coll last _ ascii 123 (flat d) (concat ts)); [done|done|by apply mem_spec|by apply flat_forall|by apply pairs_items|by apply dumps_pairs|].
      unfold build. cbn. rewrite pairs_flat, py_dict_distinct; [done|by rewrite map_pairs_fst..].
    - destruct (mapR _ l) as [ts|] eqn:Et; [|done]. injection Hd as <-. destruct Hr as (Hp & Hh & Hdi).
      eapply (read_set last _ ascii l ts); [done..|]. unfold build. cbn. by rewrite py_set_distinct.
    - destruct (dumps ascii v) as [t'|] eqn:Et; [|done]. injection Hd as <-. destruct Hr as ((Hn0 & Hn & Hth) & Hv & Hl).
      specialize (IH ascii last None [] t' Hv Et ltac:(left)).
      destruct n as [|c0 n0]; [done|]. inversion Hn as [|? ? Hc0 Hn']; subst.
      assert (feed (PS stop out MReady) (s "#" ++ (c0 :: n0) ++ s " ") = Ok (PS stop out (MTagVal (c0 :: n0) p_init))) as Hpre.
      { change (s "#") with [35%N]. cbn [app Edn.feed Edn.step]. rewrite ready_hash by done. cbn [Edn.feed Edn.step].
        assert ((c0 =? 123)%N = false) as ->. { apply N.eqb_neq. intros ->. apply Hc0. by apply (mem_spec 123%N). }
        rewrite feed_app, tag_chars by done. done. }
      match goal with |- reads_to _ _ _ _ ?x => replace x with ((s "#" ++ (c0 :: n0) ++ s " ") ++ t') by (by rewrite <-!app_assoc) end.
      destruct IH as [t0 c p Hc -> Hf Hp Hst|q Hc Hf Hp Hst].
      + apply (rt_closed _ _ _ _ _ ((s "#" ++ (c0 :: n0) ++ s " ") ++ t0) c (PS stop out (MTagVal (c0 :: n0) p))); [done|exact (app_assoc _ _ _)| |done|].
        * rewrite feed_app, Hpre. by apply feed_tag.
        * cbn [Edn.step]. rewrite Hst. by apply tag_next_one.
      + apply (rt_open _ _ _ _ _ (PS stop out (MTagVal (c0 :: n0) q))); [done| |done|].
        * rewrite feed_app, Hpre. by apply feed_tag.
        * intros c Hnx. destruct Hl as [->|Hl]; [|congruence]. pose proof Hnx as Hc'. simpl in Hc'. subst c. cbn [Edn.step]. rewrite Hst by done.
          rewrite !ready_sp by (done || by left). by apply tag_next_one.
    - done.
    - done.
  Qed.
End roundtrip.

Section theorems.
  Context `{PyText} (th : str -> option (val -> res val)).

  Lemma items_eq ascii l : (fix items (l : list val) : Prop :=
      match l with [] => True | x :: l' => readable th ascii (match l' with [] => true | _ => false end) x /\ items l' end) l = items_ok th ascii l.
  Proof. induction l as [|x l IH]; [done|]. cbn [items_ok]. by rewrite IH. Qed.
  Lemma pairs_eq ascii d : (fix pairs (d : list (val * val)) : Prop :=
           match d with
           | [] => True
           | (k, w) :: d' => readable th ascii false k /\ readable th ascii (match d' with [] => true | _ => false end) w /\ pairs d'
           end) d = pairs_ok th ascii d.
  Proof. induction d as [|[k w] d IH]; [done|]. cbn [pairs_ok]. by rewrite IH. Qed.
  Definition dumps_ok (v : val) : Prop := forall ascii last, readable th ascii last v -> exists t, dumps ascii v = Ok t.
  Lemma items_dumps ascii l : Forall dumps_ok l -> items_ok th ascii l -> exists ts, mapR (dumps ascii) l = Ok ts.
  Proof.
    induction 1 as [|x l Hx _ IH]; [by eexists|]. intros [H1 H2]. cbn [mapR]. destruct (Hx _ _ H1) as [t ->]. destruct (IH H2) as [ts ->]. by eexists.
  Qed.
  Lemma pairs_dumps ascii d : Forall (fun p => dumps_ok p.1 /\ dumps_ok p.2) d -> pairs_ok th ascii d ->
    exists ts, mapR (fun '(k, w) => match dumps ascii k with
                         | Err e => Err e
                         | Ok t => match dumps ascii w with Ok t' => Ok [t; t'] | Err e => Err e end
                         end) d = Ok ts.
  Proof.
    induction 1 as [|[k w] d [Hk Hw] _ IH]; [by eexists|]. intros (H1 & H2 & H3). cbn [mapR]. destruct (Hk _ _ H1) as [t Hkt].
    destruct (Hw _ _ H2) as [t' Hwt]. cbn [fst snd] in Hkt, Hwt. rewrite Hkt, Hwt. destruct (IH H3) as [ts ->]. by eexists.
  Qed.
  Lemma readable_dumps v : dumps_ok v.
  Proof.
    induction v as [|b|z|m e|x|x|x|l IH|l IH|l IH|l IH|d IH|d IH|l IH|n v IH| |] using val_ind';
      intros ascii last Hr; cbn [readable dumps] in *; rewrite ?items_eq, ?pairs_eq in Hr; try (exfalso; exact Hr); try (by eexists).
    - destruct b; by eexists.
    - destruct (items_dumps ascii l IH Hr) as [ts ->]. by eexists.
    - destruct (items_dumps ascii l IH Hr) as [ts ->]. by eexists.
    - destruct (items_dumps ascii l IH Hr) as [ts ->]. by eexists.
    - destruct (items_dumps ascii l IH Hr) as [ts ->]. by eexists.
    - destruct (pairs_dumps ascii d IH (proj1 Hr)) as [ts ->]. by eexists.
    - destruct (pairs_dumps ascii d IH (proj1 Hr)) as [ts ->]. by eexists.
    - destruct (items_dumps ascii l IH (proj1 Hr)) as [ts ->]. by eexists.
    - destruct Hr as (_ & Hr & _). apply IH in Hr as [t ->]. by eexists.
  Qed.
  Lemma native_as_edn v : native v = true -> as_edn v = v.
  Proof.
    induction v as [|b|z|m e|x|x|x|l IH|l IH|l IH|l IH|d IH|d IH|l IH|n v IH| |] using val_ind'; cbn [native as_edn]; try done.
    - intros Hn. f_equal. rewrite forallb_forall in Hn. induction IH as [|x l Hx _ IHl]; [done|]. simpl. rewrite Hx by (apply Hn; by left). f_equal. apply IHl. intros y Hy. apply Hn. by right.
    - intros Hn. f_equal. rewrite forallb_forall in Hn. induction IH as [|x l Hx _ IHl]; [done|]. simpl. rewrite Hx by (apply Hn; by left). f_equal. apply IHl. intros y Hy. apply Hn. by right.
    - intros Hn. f_equal. rewrite forallb_forall in Hn. induction IH as [|[k w] d [Hk Hw] _ IHl]; [done|]. simpl in *.
      destruct (andb_prop _ _ (Hn (k, w) ltac:(by left))) as [H1 H2]. rewrite Hk, Hw by done. f_equal. apply IHl. intros y Hy. apply Hn. by right.
    - intros Hn. f_equal. rewrite forallb_forall in Hn. induction IH as [|x l Hx _ IHl]; [done|]. simpl. rewrite Hx by (apply Hn; by left). f_equal. apply IHl. intros y Hy. apply Hn. by right.
    - intros Hn. f_equal. auto.
  Qed.

  (** Values written one after another *)
  Lemma feed_values ascii vs ts out : Forall (readable th ascii false) vs -> mapR (dumps ascii) vs = Ok ts ->
    feed th (PS None out MReady) (join_sp ts ++ s " ") = Ok (PS None (out ++ map as_edn vs) MReady).
  Proof.
    intros Hr Ht. apply mapR_ok in Ht. revert out. induction Ht as [|v t vs ts Hv Ht IH]; intros out.
    - simpl. by rewrite app_nil_r.
    - inversion Hr as [|? ? H1 H2]; subst. assert (stop_ok None) as Hs by left.
      destruct (reads_next th false v None out t 32) as (q & Hq & Hn); [by eapply read_val|done|].
      rewrite ready_sp in Hn by done. destruct Ht as [|v' t' vs ts Hv' Ht].
      + simpl. rewrite feed_app, Hq. by apply feed_one.
      + change (join_sp (t :: t' :: ts)) with (t ++ [32%N] ++ join_sp (t' :: ts)). rewrite <-!app_assoc, feed_app, Hq, feed_app, (feed_one _ _ _ _ Hn).
        rewrite IH by done. by rewrite <-app_assoc.
  Qed.

  (** C32: what was written is read back, with Python's list, tuple, dict as EDN types.
      Partial: [readable] excludes the values of the refuted theorems below. *)
  Theorem C32_round_trip_partial ascii v : readable th ascii false v ->
    exists t, dumps ascii v = Ok t /\ loads th t = Ok (as_edn v) /\ (native v = true -> loads th t = Ok v).
  Proof.
    intros Hr. destruct (readable_dumps v ascii false Hr) as [t Ht]. exists t. split; [done|].
    assert (loads th t = Ok (as_edn v)) as Hl.
    { unfold loads, p_init. pose proof (feed_values ascii [v] [t] []) as Hf. simpl in Hf. rewrite Ht in Hf.
      rewrite Hf; [done| |done]. by constructor. }
    split; [done|]. intros Hn. by rewrite Hl, native_as_edn.
  Qed.
  (** C33: the text of no value or of several values is refused *)
  Theorem C33_not_one_refused ascii vs ts : Forall (readable th ascii false) vs -> mapR (dumps ascii) vs = Ok ts -> length vs <> 1 ->
    loads th (join_sp ts) = Err ValueError.
  Proof.
    intros Hr Ht Hl. unfold loads, p_init. rewrite (feed_values ascii vs ts []) by done. simpl.
    destruct vs as [|v [|v' vs]]; [done|done|]. done.
  Qed.
  (** A map written with the given elements *)
  Lemma loads_map ascii l ts : items_ok th ascii l -> mapR (dumps ascii) l = Ok ts ->
    loads th (s "{" ++ join_sp ts ++ s "}") = match build 123 (map as_edn l) with Ok v => Ok v | Err e => Err e end.
  Proof.
    intros Hok Hts. assert (Forall (reads_val th) l) as HP by (apply Forall_forall; intros v _ ? ? ? ? ? ?; by apply read_val).
    destruct (read_items th ascii l ts 125 [] HP Hok Hts) as (q & Hq & Hn); [apply (bool_decide_unpack _); vm_compute; exact I|].
    unfold loads, p_init. change (s "{") with [123%N]. change (s "}") with [125%N]. 
    assert (feed th (PS None [] MReady) ([123%N] ++ join_sp ts) = Ok (PS None [] (MColl 123 q))) as Hf.
    { rewrite feed_app. cbn [Edn.feed Edn.step]. rewrite ready_open; [|left|apply (bool_decide_unpack _); vm_compute; exact I]. by apply feed_coll. }
    replace (([123%N] ++ join_sp ts ++ [125%N]) ++ s " ") with (([123%N] ++ join_sp ts) ++ [125%N; 32%N]) by (by rewrite <-!app_assoc).
    rewrite feed_app, Hf. cbn [app feed step]. rewrite Hn. cbn [app]. destruct (build 123 (map as_edn l)) as [v|e]; [|done].
    cbn [feed step]. unfold ready. done.
  Qed.
  (** C33: a map with a key without a value is refused *)
  Theorem C33_odd_map_refused ascii l ts : items_ok th ascii l -> mapR (dumps ascii) l = Ok ts -> Nat.odd (length l) = true ->
    exists e, loads th (s "{" ++ join_sp ts ++ s "}") = Err e.
  Proof.
    intros Hok Hts Hodd. rewrite (loads_map ascii l ts Hok Hts). cbn [build N.eqb Pos.eqb].
    assert (forall n (l : list val), length l <= n -> Nat.odd (length l) = true -> pairs_of l = None) as Hp.
    { clear. induction n as [|n IH]; intros [|x [|y l]] Hl Ho; cbn in *; try done; try lia. rewrite (IH l); [done|lia|done]. }
    unfold build. cbn. rewrite (Hp (length l)); [by eexists|by rewrite map_length|by rewrite map_length].
  Qed.
  (** C33: of several values of a key the last one is taken *)
  Theorem C33_last_value_wins ascii ps k v ts : items_ok th ascii (flat (ps ++ [(k, v)])) -> mapR (dumps ascii) (flat (ps ++ [(k, v)])) = Ok ts ->
    forall d, loads th (s "{" ++ join_sp ts ++ s "}") = Ok (VMap d) ->
    exists k', (k', as_edn v) ∈ d /\ (k' = as_edn k \/ py_eqb k' (as_edn k) = true).
  Proof.
    intros Hok Hts d. rewrite (loads_map ascii _ ts Hok Hts). unfold build. cbn. rewrite pairs_flat. unfold py_dict.
    destruct (forallb _ _); [|done]. rewrite map_app, fold_left_app. cbn [map fold_left fst snd]. intros [= <-].
    generalize (fold_left (fun d p => pd_set p.1 p.2 d) (map (fun '(k, w) => (as_edn k, as_edn w)) ps) []) as d. clear.
    induction d as [|[k' w] d IH]; cbn [pd_set].
    - exists (as_edn k). split; [left|by left].
    - destruct (py_eqb k' (as_edn k)) eqn:Ek.
      + exists k'. split; [left|by right].
      + destruct IH as (k2 & H1 & H2). exists k2. split; [by right|done].
  Qed.
  (** Blanks and commas are no value *)
  Theorem C33_blank_refused t : Forall (fun c => c ∈ s " ," ++ [10; 13; 9]%N) t -> loads th t = Err ValueError.
  Proof.
    intros Ht. unfold loads, p_init.
    assert (forall t, Forall (fun c => c ∈ s " ," ++ [10; 13; 9]%N) t -> feed th (PS None [] MReady) t = Ok (PS None [] MReady)) as Hf.
    { clear. induction 1 as [|c t Hc _ IH]; [done|]. cbn [feed step]. unfold ready. rewrite bool_decide_eq_false_2 by done. by rewrite (proj2 (mem_spec c STOP_CHARS) Hc). }
    rewrite Hf; [done|]. apply Forall_app. split; [done|]. constructor; [|constructor]. by apply mem_spec.
  Qed.

  (** Inside of a string or of a collection *)
  Definition inside (p : pst) : bool := match p with PS _ _ (MStr _ | MEsc _ | MColl _ _) => true | _ => false end.
  Lemma inside_step p c q : inside p = true -> step th p c = Ok (Goes q) -> p_out q = p_out p -> inside q = true.
  Proof.
    destruct p as [stop out m]. destruct m; try done; intros _; cbn [step].
    - repeat case_match; try done; intros [= <-]; try done. simpl. intros Hx%(f_equal length). rewrite app_length in Hx. simpl in Hx. lia.
    - by intros [= <-].
    - destruct (step th p c) as [[]|]; [by intros [= <-]| |done]. destruct (build c0 l); [|done]. intros [= <-]. simpl.
      intros Hx%(f_equal length). rewrite app_length in Hx. simpl in Hx. lia.
  Qed.
  Lemma inside_feed t p q : inside p = true -> feed th p t = Ok q -> p_out q = p_out p -> inside q = true.
  Proof.
    revert p. induction t as [|c t IH]; intros p Hi; simpl; [by intros [= ->]|].
    destruct (step th p c) as [[p'|]|] eqn:Es; [|done|done]. intros Hf Ho.
    destruct (step_out _ _ _ _ Es) as [x Hx]. destruct (feed_out _ _ _ _ Hf) as [y Hy]. rewrite Hx, <-app_assoc in Hy.
    rewrite Ho in Hy. rewrite <-(app_nil_r (p_out p)) in Hy at 1. apply app_inv_head in Hy. symmetry in Hy. apply app_nil in Hy as [-> ->]. rewrite app_nil_r in Hx.
    apply (IH p'); [by eapply inside_step|done|congruence].
  Qed.
  Lemma stops_stop p c l : step th p c = Ok (Stops l) -> match p with PS stop _ _ => stop = Some c end.
  Proof.
    assert (forall stop out, ready stop out c = Ok (Stops l) -> stop = Some c) as Hr.
    { intros stop out. unfold ready. case_bool_decide; [done|]. intros Hx. repeat (case_match; try done). }
    assert (forall stop out n p, tag_next th stop out n p <> Ok (Stops l)) as Hn.
    { intros stop out n p'. unfold tag_next. intros Hx. repeat (case_match; try done). }
    destruct p as [stop out m]. destruct m; cbn [step]; try done.
    - apply Hr.
    - intros Hx. repeat (case_match; try done).
    - destruct (is_alpha c); [done|]. destruct (char_value r); [|done]. apply Hr.
    - destruct (num_char c); [done|]. destruct (parse_number t); [|done]. apply Hr.
    - destruct (sym_end c); [|done]. apply Hr.
    - intros Hx. repeat (case_match; try done).
    - destruct (tag_end c); [|done]. destruct (ready None [] c) as [[]|]; [|done|done]. by intros ?%Hn.
    - destruct (step th p c) as [[]|]; [|done|done]. by intros ?%Hn.
  Qed.
  Definition stops_fine (p : pst) : Prop := match p with PS _ _ (MColl _ (PS stop _ _)) => stop <> Some 32%N | _ => True end.
  Lemma step_stop p c q : step th p c = Ok (Goes q) -> match p, q with PS st _ _, PS st' _ _ => st' = st end.
  Proof.
    assert (forall stop out, ready stop out c = Ok (Goes q) -> match q with PS st' _ _ => st' = stop end) as Hr.
    { intros stop out. unfold ready. intros Hx. repeat (case_match; try done); by simplify_eq. }
    assert (forall stop out n p, tag_next th stop out n p = Ok (Goes q) -> match q with PS st' _ _ => st' = stop end) as Hn.
    { intros stop out n p'. unfold tag_next. intros Hx. repeat (case_match; try done); by simplify_eq. }
    destruct p as [stop out m]. destruct m; cbn [step]; try (by intros [= <-]).
    - apply Hr.
    - intros Hx. repeat (case_match; try done); by simplify_eq.
    - destruct (is_alpha c); [by intros [= <-]|]. destruct (char_value r); [|done]. apply Hr.
    - destruct (num_char c); [by intros [= <-]|]. destruct (parse_number t); [|done]. apply Hr.
    - destruct (sym_end c); [|by intros [= <-]]. apply Hr.
    - intros Hx. repeat (case_match; try done); by simplify_eq.
    - destruct (tag_end c); [|by intros [= <-]]. destruct (ready None [] c) as [[]|]; [|done|done]. apply Hn.
    - destruct (step th p c) as [[]|]; [|done|done]. apply Hn.
  Qed.
  Lemma inside_fine t p q : inside p = true -> stops_fine p -> feed th p t = Ok q -> p_out q = p_out p -> stops_fine q.
  Proof.
    revert p. induction t as [|c t IH]; intros p Hi Hs; simpl; [by intros [= ->]|].
    destruct (step th p c) as [[p'|]|] eqn:Es; [|done|done]. intros Hf Ho.
    destruct (step_out _ _ _ _ Es) as [x Hx]. destruct (feed_out _ _ _ _ Hf) as [y Hy]. rewrite Hx, <-app_assoc in Hy.
    rewrite Ho in Hy. rewrite <-(app_nil_r (p_out p)) in Hy at 1. apply app_inv_head in Hy. symmetry in Hy. apply app_nil in Hy as [-> ->]. rewrite app_nil_r in Hx.
    apply (IH p'); [by eapply inside_step| |done|congruence].
    destruct p as [stop out m]. destruct m; try done; cbn [step] in Es.
    - repeat case_match; try done; injection Es as <-; done.
    - by injection Es as <-.
    - destruct (step th p c) as [[p2|]|] eqn:E2; [injection Es as <-| |done].
      + apply step_stop in E2. destruct p as [st ? ?], p2 as [st' ? ?]. simpl in *. by subst.
      + destruct (build c0 l); [|done]. by injection Es as <-.
  Qed.
  (** C33: text which ends within a string or a collection is refused *)
  Theorem C33_unclosed_refused ascii v t t1 t2 : readable th ascii false v ->
    match v with VStr _ | VList _ | VTuple _ | VVec _ | VParen _ | VDict _ | VMap _ | VSet _ => True | _ => False end ->
    dumps ascii v = Ok t -> t = t1 ++ t2 -> t2 <> [] -> exists e, loads th t1 = Err e.
  Proof.
    intros Hr Hv Hd Ht Hne. assert (stop_ok None) as Hs by left.
    destruct (read_val th v ascii false None [] t Hr Hd Hs) as [t0 c p _ E Hf Hp _|q Hc _ _ _]; [|by destruct v].
    assert (exists t3, t0 = t1 ++ t3) as [t3 ->].
    { destruct t2 as [|x t2 _] using rev_ind; [done|]. rewrite E, app_assoc in Ht. apply app_inj_tail in Ht as [-> _]. by exists t2. }
    rewrite feed_app in Hf. unfold loads, p_init. rewrite feed_app. destruct (feed th (PS None [] MReady) t1) as [p1|e1] eqn:E1; [|by exists e1].
    assert (p_out p1 = []) as Ho.
    { destruct (feed_out _ _ _ _ Hf) as [x Hx]. rewrite Hp in Hx. symmetry in Hx. by apply app_nil in Hx as [? _]. }
    destruct t1 as [|a t1]. { injection E1 as <-. by exists ValueError. }
    assert (forall p' t', inside p' = true -> stops_fine p' -> p_out p' = [] -> feed th p' t' = Ok p1 ->
      exists e, match feed th p1 (s " ") with Err e => Err e | Ok p => match p_out p with [v] => Ok v | _ => Err ValueError end end = Err e) as Hin.
    { intros p' t' Hi Hfi Ho' Hp'. assert (inside p1 = true) as H1 by (eapply inside_feed; [exact Hi|exact Hp'|congruence]).
      assert (stops_fine p1) as H2 by (eapply inside_fine; [exact Hi|exact Hfi|exact Hp'|congruence]).
      change (s " ") with [32%N]. cbn [feed]. destruct p1 as [st out m]. simpl in Ho. subst out. destruct m; try done; cbn [step].
      - by exists ValueError.
      - by exists ValueError.
      - destruct (step th p0 32) as [[p2|]|e] eqn:E2; [by exists ValueError| |by exists e].
        apply stops_stop in E2. destruct p0. simpl in H2. by subst. }
    assert (forall stop, ready stop [] a = Ok (Goes (PS stop [] (MStr []))) -> stop = None ->
      exists e, match feed th p1 (s " ") with Err e => Err e | Ok p => match p_out p with [v] => Ok v | _ => Err ValueError end end = Err e) as Hstr.
    { intros stop Ha ->. apply (Hin (PS None [] (MStr [])) t1); [done|done|done|]. cbn [feed step] in E1. by rewrite Ha in E1. }
    assert (forall c0, a = c0 -> c0 ∈ s "[({" ->
      exists e, match feed th p1 (s " ") with Err e => Err e | Ok p => match p_out p with [v] => Ok v | _ => Err ValueError end end = Err e) as Hcoll.
    { intros c0 -> H0. apply (Hin (PS None [] (MColl c0 (PS (Some (end_char c0)) [] MReady))) t1); [done| |done|].
      - simpl. split_in H0; done.
      - cbn [feed step] in E1. by rewrite ready_open in E1. }
    destruct v; try done; cbn [dumps] in Hd.
    - injection Hd as Hd. rewrite Ht in Hd. injection Hd as Ha _. apply (Hstr None); [|done]. rewrite <-Ha. by apply ready_quote.
    - destruct (mapR _ l); [|done]. injection Hd as Hd. rewrite Ht in Hd. injection Hd as Ha _. eapply Hcoll; [symmetry; exact Ha|by apply mem_spec].
    - destruct (mapR _ l); [|done]. injection Hd as Hd. rewrite Ht in Hd. injection Hd as Ha _. eapply Hcoll; [symmetry; exact Ha|by apply mem_spec].
    - destruct (mapR _ l); [|done]. injection Hd as Hd. rewrite Ht in Hd. injection Hd as Ha _. eapply Hcoll; [symmetry; exact Ha|by apply mem_spec].
    - destruct (mapR _ l); [|done]. injection Hd as Hd. rewrite Ht in Hd. injection Hd as Ha _. eapply Hcoll; [symmetry; exact Ha|by apply mem_spec].
    - destruct (mapR _ d); [|done]. injection Hd as Hd. rewrite Ht in Hd. injection Hd as Ha _. eapply Hcoll; [symmetry; exact Ha|by apply mem_spec].
    - destruct (mapR _ d); [|done]. injection Hd as Hd. rewrite Ht in Hd. injection Hd as Ha _. eapply Hcoll; [symmetry; exact Ha|by apply mem_spec].
    - destruct (mapR _ l); [|done]. injection Hd as Hd. rewrite Ht in Hd. change (s "#{") with [35; 123]%N in Hd. cbn [app] in Hd. injection Hd as <- Hd.
      cbn [feed step] in E1. rewrite ready_hash in E1 by done. destruct t1 as [|b t1].
      + injection E1 as <-. by exists ValueError.
      + injection Hd as <- _. cbn [feed step] in E1. by apply (Hin (PS None [] (MColl 35 (PS (Some 125%N) [] MReady))) t1).
  Qed.
End theorems.

(** ** What does not hold *)
(** C32: the character é (U+00E9) is written as \u00e9, which is read as "u00e9"; with
    [ensure_ascii=False] control characters are still written in this way. *)
Theorem C32_text_refuted `{PyText} th :
  (exists t, dumps true (VStr [233%N]) = Ok t /\ loads th t = Ok (VStr (s "u00e9"))) /\
  (exists t, dumps false (VStr [7%N]) = Ok t /\ loads th t = Ok (VStr (s "u0007"))).
Proof. split; eexists; split; vm_compute; reflexivity. Qed.
(** Symbols which look like other values, and the symbol [-] *)
Theorem C32_symbol_refuted `{PyText} th :
  (exists t, dumps true (VSym (s "true")) = Ok t /\ loads th t = Ok (VBool true)) /\
  (exists t, dumps true (VSym (s "-")) = Ok t /\ exists e, loads th t = Err e).
Proof.
  split.
  - exists (s "true"). split; [done|]. unfold loads. change (s "true" ++ s " ") with [116; 114; 117; 101; 32]%N. cbn [feed step p_init].
    rewrite (ready_alpha None [] 116); [done|left|by rewrite alpha_ascii].
  - exists (s "-"). split; [done|]. exists ValueError. unfold loads. change (s "-" ++ s " ") with [45; 32]%N. cbn [feed step p_init].
    rewrite (ready_sign None [] 45); [|left|by apply mem_spec]. cbn [feed step]. by rewrite udigit_ascii.
Qed.
(** A tagged number at the end of a vector: [#foo 1] is written and cannot be read. *)
Theorem C32_tag_refuted `{PyText} th : th (s "foo") = None ->
  exists t, dumps true (VVec [VTag (s "foo") (VInt 1)]) = Ok t /\ loads th t = Err ValueError.
Proof.
  intros Ht. exists (s "[#foo 1]"). split; [done|]. unfold loads. change (s "[#foo 1]" ++ s " ") with [91; 35; 102; 111; 111; 32; 49; 93; 32]%N.
  cbn [feed step p_init]. rewrite (ready_open None [] 91); [|left|by apply mem_spec]. cbn [feed step].
  rewrite (ready_hash (Some _)) by (apply (bool_decide_unpack _); vm_compute; exact I).
  assert (is_alpha 93 = false) as Ha by (by rewrite alpha_ascii). vm_compute in Ha |- *. by rewrite Ha.
Qed.
(** Python's lists are read as edn.List, which is a tuple and differs from any list. *)
Theorem C32_list_refuted `{PyText} th :
  exists t v, dumps true (VList []) = Ok t /\ loads th t = Ok v /\ py_eqb v (VList []) = false.
Proof.
  exists (s "[]"), (VVec []). split; [done|]. split; [|done]. unfold loads. change (s "[]" ++ s " ") with [91; 93; 32]%N.
  cbn [feed step p_init]. rewrite (ready_open None [] 91); [done|left|by apply mem_spec].
Qed.
(** C33: what follows the value is not checked if it is not finished: "1 [2" is read as 1. *)
Theorem C33_trailing_refuted `{PyText} th : loads th (s "1 [2") = Ok (VInt 1).
Proof.
  unfold loads. change (s "1 [2" ++ s " ") with [49; 32; 91; 50; 32]%N. cbn [feed step p_init]. 
  assert (is_alpha 91 = false) as Ha by (by rewrite alpha_ascii). vm_compute in Ha |- *. by rewrite Ha.
Qed.

(** ** Examples *)
(** ASCII only; floats as mantissa and exponent *)
Definition ex_parse_float (t : str) : option (Z * Z) :=
  match list_find (fun c => c = 46%N) t with
  | Some (i, _) => match parse_int (firstn i t), parse_int (skipn (i + 3) t) with Some m, Some e => Some (m, e) | _, _ => None end
  | None => None
  end.
Definition ex_text : PyText := {|
  is_alpha := ascii_alpha; is_udigit := is_digit;
  float_str := fun m e => Z_str m ++ s ".0e" ++ Z_str e; parse_float := ex_parse_float;
  alpha_ascii := fun c _ => eq_refl; udigit_ascii := fun c _ => eq_refl |}.
(** Maps, vectors, lists, sets, strings with escapes, symbols, tags, a float *)
Definition ex_edn : val :=
  VVec [VMap [(VKw (s "a"), VVec [VStr (s "x" ++ [10; 34]%N); VNone; VBool true; VInt (-5)]);
              (VParen [VSym (s "sym"); VSym (s "-s"); VSym (s ".t")], VSet [VInt 1; VKw (s "k")])];
        VTag (s "tag") (VVec [VStr (s "y")]); VFloat 3 (-1); VTag (s "t") (VInt 1); VTag (s "t") (VTag (s "u") (VStr (s "z")))].
Definition no_tags : str -> option (val -> res val) := fun _ => None.
Example ex_readable : @readable ex_text no_tags true false ex_edn /\ @readable ex_text no_tags false false ex_edn /\ native ex_edn = true.
Proof.
  assert (forall n, n <> [] -> forallb (fun c => negb (mem c (s " ,{[(\#" ++ [10; 13; 9; 34]%N))) n = true -> tag_text no_tags n) as Ht.
  { intros n H1 H2. split; [done|]. split; [|done]. apply Forall_forall. intros c Hc. rewrite forallb_forall in H2. apply elem_of_list_In, H2, negb_true_iff in Hc. by apply mem_false. }
  assert (forall a x, forallb (fun c => (32 <=? c)%N && (c <=? 126)%N || (c =? 10)%N) x = true -> Forall (text_char a) x) as Hx.
  { intros a x Hx. apply Forall_forall. intros c Hc. rewrite forallb_forall in Hx. apply elem_of_list_In, Hx, orb_prop in Hc as [Hc|Hc].
    - apply andb_prop in Hc as [H1 H2]. apply N.leb_le in H1, H2. by right.
    - apply N.eqb_eq in Hc as ->. left. by apply mem_spec. }
  assert (forall a, @readable ex_text no_tags a false ex_edn) as Hr; [|split; [apply Hr|split; [apply Hr|reflexivity]]].
  intros a. cbn [ex_edn readable]. repeat match goal with
    | |- _ /\ _ => split
    | |- True => exact I
    | |- Forall word_char _ => apply word_chars; reflexivity
    | |- tag_text _ _ => apply Ht; done
    | |- Forall (text_char _) _ => apply Hx; reflexivity
    | |- distinct _ => repeat constructor
    | |- forallb _ _ = true => reflexivity
    | |- _ \/ closing _ = true => by auto
    end.
  - split; [by apply word_chars|]. left. split; [done|]. split; [done|]. split; done.
  - split; [by apply word_chars|]. right. split; [by apply mem_spec|done].
  - split; [by apply word_chars|]. right. split; [by apply mem_spec|done].
  - split; [|split; [|split]].
    + apply Forall_forall. intros c Hc. change (c ∈ s "3.0e-1") in Hc. split_in Hc; by apply mem_spec.
    + exists [], 51%N, (s ".0e-1"). split; [done|]. split; [by left|done].
    + left. by apply mem_spec.
    + vm_compute. reflexivity.
Qed.
Example ex_round_trip : match @dumps ex_text true ex_edn with Ok t => @loads ex_text no_tags t | Err e => Err e end = Ok ex_edn.
Proof. vm_compute. reflexivity. Qed.

Theorem C33_map_example :
  @loads ex_text no_tags (s "{:a 1 :b 3 :a 2}") = Ok (VMap [(VKw (s "a"), VInt 2); (VKw (s "b"), VInt 3)]) /\
  (exists e, @loads ex_text no_tags (s "{:a 1 :b}") = Err e).
Proof. split; [vm_compute; reflexivity|eexists; vm_compute; reflexivity]. Qed.

Print Assumptions C32_round_trip_partial.
Print Assumptions C32_text_refuted.
Print Assumptions C32_symbol_refuted.
Print Assumptions C32_tag_refuted.
Print Assumptions C32_list_refuted.
Print Assumptions C33_not_one_refused.
Print Assumptions C33_blank_refused.
Print Assumptions C33_unclosed_refused.
Print Assumptions C33_trailing_refuted.

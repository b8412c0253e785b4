(** C32: texts of strings are JSON's texts of them; and what the reader makes of them. *)
From Verif Require Import Base Val Edn EdnSpec EdnTextSpec PropEdn.
From Coq Require Import ZifyN.
From stdpp Require Import sets.
Ltac Zify.zify_post_hook ::= Z.div_mod_to_equations.

Lemma hex_val_digit n : (n < 16)%N -> hex_val (hex_digit n) = Some n.
Proof.
  intros Hn. assert (forallb (fun n => bool_decide (hex_val (hex_digit n) = Some n)) (map N.of_nat (seq 0 16)) = true) as Hx by (vm_compute; reflexivity).
  rewrite forallb_forall in Hx. specialize (Hx n). apply (bool_decide_unpack (hex_val (hex_digit n) = Some n)). apply Is_true_true. apply Hx.
  apply in_map_iff. exists (N.to_nat n). split; [lia|]. apply in_seq. lia.
Qed.
Lemma units_hex4 n t l : (n < 65536)%N -> json_units t = Some l -> json_units (s "\u" ++ hex4 n ++ t) = Some (n :: l).
Proof.
  intros Hn Ht. change (s "\u") with [92; 117]%N. unfold hex4. cbn [app json_units].
  rewrite !hex_val_digit by lia. rewrite Ht. do 2 f_equal. lia.
Qed.
Definition units_of (a : bool) (c : N) : list N :=
  if (c <? 65536)%N || negb a then [c] else [(55296 + (c - 65536) / 1024)%N; (56320 + (c - 65536) mod 1024)%N].
Lemma units_plain c t l : (32 <= c)%N -> c <> 34%N -> c <> 92%N -> json_units t = Some l -> json_units (c :: t) = Some (c :: l).
Proof.
  intros H1 H2 H3 Ht.
  assert (json_units (c :: t) = if (c <? 32)%N || (c =? 34)%N || (c =? 92)%N then None
               else match json_units t with Some l => Some (c :: l) | None => None end) as ->.
  { cbn [json_units]. destruct c as [|p]; [done|].
    repeat match goal with |- context [match ?p with xI _ => _ | xO _ => _ | xH => _ end] => is_var p; destruct p; try done end. }
  assert ((c <? 32)%N || (c =? 34)%N || (c =? 92)%N = false) as ->.
  { apply orb_false_intro; [apply orb_false_intro|]; [apply N.ltb_ge; lia|by apply N.eqb_neq|by apply N.eqb_neq]. }
  by rewrite Ht.
Qed.
Lemma units_esc a c t l : (c < 1114112)%N -> json_units t = Some l -> json_units (esc_char a c ++ t) = Some (units_of a c ++ l).
Proof.
  intros Hc Ht. unfold esc_char, units_of. destruct (short_escape c) as [e|] eqn:He.
  - unfold short_escape in He.
    repeat match type of He with context [(c =? ?n)%N] => destruct (N.eqb_spec c n) as [->|?]; [injection He as <-; cbn [app json_units json_short N.ltb N.compare]; by rewrite Ht|] end. done.
  - assert (c <> 34%N /\ c <> 92%N) as [? ?] by (split; intros ->; done).
    destruct (N.leb_spec 32 c) as [H32|H32]; cbn [andb].
    + destruct a; cbn [negb orb].
      * rewrite orb_false_r. destruct (N.leb_spec c 126) as [H126|H126].
        -- rewrite (proj2 (N.ltb_lt c 65536)) by lia. by apply units_plain.
        -- destruct (N.ltb_spec c 65536) as [?|?].
           ++ cbn [app]. rewrite <-app_assoc. by apply units_hex4.
           ++ cbn zeta. rewrite <-!app_assoc. cbn [app]. apply units_hex4; [lia|]. apply units_hex4; [lia|done].
      * rewrite orb_true_r. by apply units_plain.
    + rewrite (proj2 (N.ltb_lt c 65536)) by lia. cbn [orb app]. rewrite <-app_assoc. apply units_hex4; [lia|done].
Qed.
Lemma units_text a x : Forall (fun c => (c < 1114112)%N) x -> json_units (flat_map (esc_char a) x) = Some (flat_map (units_of a) x).
Proof. intros Hx. induction Hx as [|c x Hc _ IH]; [done|]. cbn [flat_map]. by apply units_esc. Qed.
Lemma utf16_cons c l : high c = false -> utf16 (c :: l) = c :: utf16 l.
Proof. intros Hc. cbn [utf16]. destruct l; [done|]. by rewrite Hc. Qed.
Lemma utf16_text a x : Forall unicode x -> utf16 (flat_map (units_of a) x) = x.
Proof.
  intros Hx. induction Hx as [|c x (Hc & Hh & _) _ IH]; [done|]. cbn [flat_map]. unfold units_of at 1.
  destruct (N.ltb_spec c 65536) as [?|Hl]; cbn [orb].
  - cbn [app]. rewrite utf16_cons by done. by rewrite IH.
  - destruct a; cbn [negb].
    + cbn [app]. cbn [utf16].
      assert (high (55296 + (c - 65536) / 1024) = true) as ->.
      { unfold high. apply andb_true_intro. split; [apply N.leb_le|apply N.ltb_lt]; lia. }
      assert (low (56320 + (c - 65536) mod 1024) = true) as ->.
      { unfold low. apply andb_true_intro. split; [apply N.leb_le|apply N.ltb_lt]; lia. }
      cbn [andb]. rewrite IH. f_equal. lia.
    + cbn [app]. rewrite utf16_cons by done. by rewrite IH.
Qed.
Lemma hex4_print n : Forall (fun c => 32 <= c /\ c <= 126)%N (hex4 n).
Proof. unfold hex4. repeat constructor; unfold hex_digit; (destruct (N.ltb_spec (n / 4096 mod 16) 10), (N.ltb_spec (n / 256 mod 16) 10), (N.ltb_spec (n / 16 mod 16) 10), (N.ltb_spec (n mod 16) 10)); lia. Qed.
Lemma esc_print c : Forall (fun c => 32 <= c /\ c <= 126)%N (esc_char true c).
Proof.
  unfold esc_char. destruct (short_escape c) as [e|] eqn:He.
  - unfold short_escape in He.
    repeat match type of He with context [(c =? ?n)%N] => destruct (N.eqb_spec c n) as [->|?]; [injection He as <-; repeat constructor; lia|] end. done.
  - assert (Forall (fun c => 32 <= c /\ c <= 126)%N (s "\u")) as Hu by (change (s "\u") with [92; 117]%N; repeat constructor; lia).
    destruct (N.leb_spec 32 c) as [?|?], (N.leb_spec c 126) as [?|?]; cbn [andb negb orb]; try (repeat constructor; lia);
      (destruct (c <? 65536)%N; cbn zeta; [apply Forall_app_2; [done|apply hex4_print]|apply Forall_app_2; [done|apply Forall_app_2; [apply hex4_print|apply Forall_app_2; [done|apply hex4_print]]]]).
Qed.

Lemma arith1 k m n : 2 <= k -> n <= m -> S n <= k + m. Proof. lia. Qed.
Lemma arith2 k m n : 2 <= k -> n <= m -> k + m <= S n -> False. Proof. lia. Qed.
Section spec.
  Context `{PyText}.
  (** C32: every string is written between quotes as a JSON text of it, so that every JSON reader
      reads it back; with [ensure_ascii] in printable ASCII only. *)
  Theorem C32_strings_json a x : Forall unicode x ->
    exists t, dumps a (VStr x) = Ok ([34%N] ++ t ++ [34%N]) /\ json_text t = Some x /\
      (a = true -> Forall (fun c => 32 <= c /\ c <= 126)%N t).
  Proof.
    intros Hx. exists (flat_map (esc_char a) x). split; [done|]. split.
    - unfold json_text. rewrite units_text; [by rewrite utf16_text|]. eapply Forall_impl; [exact Hx|]. by intros c [? _].
    - intros ->. clear. induction x as [|c x IH]; [constructor|]. cbn [flat_map]. apply Forall_app_2; [apply esc_print|done].
  Qed.
  (** C32: so different strings have different texts *)
  Theorem C32_strings_differ a x y t : Forall unicode x -> Forall unicode y ->
    dumps a (VStr x) = Ok t -> dumps a (VStr y) = Ok t -> x = y.
  Proof.
    intros Hx Hy Hdx Hdy. destruct (C32_strings_json a x Hx) as (tx & Htx & Hjx & _). destruct (C32_strings_json a y Hy) as (ty & Hty & Hjy & _).
    rewrite Htx in Hdx. rewrite Hty in Hdy. injection Hdx as <-. injection Hdy as Heq. apply app_inj_tail in Heq as [-> _]. congruence.
  Qed.
  (** What hiku.edn makes of a string which it has written itself: the reader takes [\u] for the
      letter u, so that characters written as [\uXXXX] become five letters each. *)
  Definition letters (n : N) : str := s "u" ++ hex4 n.
  Definition read_back (a : bool) (c : N) : str :=
    if decide (text_char a c) then [c]
    else if (c <? 65536)%N then letters c else letters (55296 + (c - 65536) / 1024) ++ letters (56320 + (c - 65536) mod 1024).
  Context (th : str -> option (val -> res val)).
  Lemma feed_hex stop out b n : feed th (PS stop out (MStr b)) (s "\u" ++ hex4 n) = Ok (PS stop out (MStr (b ++ letters n))).
  Proof.
    assert (Forall (fun c => (c =? 92)%N = false /\ (c =? 34)%N = false) (hex4 n)) as Hh.
    { unfold hex4. repeat constructor; unfold hex_digit; apply N.eqb_neq; (destruct (N.ltb_spec (n / 4096 mod 16) 10), (N.ltb_spec (n / 256 mod 16) 10), (N.ltb_spec (n / 16 mod 16) 10), (N.ltb_spec (n mod 16) 10)); lia. }
    unfold letters. revert Hh. generalize (hex4 n). intros l Hl. change (s "\u") with [92; 117]%N. change (s "u") with [117%N].
    rewrite feed_app. assert (feed th (PS stop out (MStr b)) [92; 117]%N = Ok (PS stop out (MStr (b ++ [117%N])))) as -> by done.
    rewrite app_assoc. generalize (b ++ [117%N]). clear b. induction Hl as [|c l [H1 H2] _ IH]; intros b; [by rewrite app_nil_r|].
    cbn [feed step]. rewrite H1, H2. rewrite IH. by rewrite <-app_assoc.
  Qed.
  Lemma feed_any a stop out x b : feed th (PS stop out (MStr b)) (flat_map (esc_char a) x) = Ok (PS stop out (MStr (b ++ flat_map (read_back a) x))).
  Proof.
    revert b. induction x as [|c x IH]; intros b; [by rewrite app_nil_r|]. cbn [flat_map]. rewrite feed_app.
    assert (feed th (PS stop out (MStr b)) (esc_char a c) = Ok (PS stop out (MStr (b ++ read_back a c)))) as ->.
    2:{ rewrite IH. by rewrite <-app_assoc. }
    unfold read_back. destruct (decide (text_char a c)) as [Hc|Hc].
    - pose proof (feed_text th a stop out [c] b) as Hf. cbn [flat_map] in Hf. rewrite app_nil_r in Hf. apply Hf. by constructor.
    - unfold esc_char. destruct (short_escape c) as [e|] eqn:He.
      + unfold short_escape in He.
        repeat match type of He with context [(c =? ?n)%N] => destruct (N.eqb_spec c n) as [->|?]; [exfalso; apply Hc; first [by left; set_solver|right; split; [lia|intros _; lia]]|] end. done.
      + assert ((32 <=? c)%N && (negb a || (c <=? 126)%N) = false) as ->.
        { apply not_true_is_false. intros Hx. apply andb_prop in Hx as [H1 H2]. apply N.leb_le in H1. apply Hc. right. split; [done|]. intros ->. by apply N.leb_le in H2. }
        destruct (c <? 65536)%N; [by apply feed_hex|]. cbv zeta. rewrite (app_assoc (s "\u") (hex4 _) (s "\u" ++ _)). rewrite feed_app, feed_hex, feed_hex. by rewrite <-app_assoc.
  Qed.
  Theorem C32_strings_read a x t : dumps a (VStr x) = Ok t -> loads th t = Ok (VStr (flat_map (read_back a) x)).
  Proof.
    intros [= <-]. unfold loads, p_init, encode_str. rewrite <-!app_assoc. change ([34%N] ++ [34%N]) with [34%N].
    rewrite feed_app. cbn [feed step]. rewrite ready_quote by (by left). rewrite feed_app, feed_any. done.
  Qed.
  (** C32: exactly the strings without such characters are read back *)
  Theorem C32_strings_exactly a x t : dumps a (VStr x) = Ok t -> loads th t = Ok (VStr x) <-> Forall (text_char a) x.
  Proof.
    intros Ht. rewrite (C32_strings_read a x t Ht). clear Ht. split.
    - intros [= Hx].
      assert (forall x, length x <= length (flat_map (read_back a) x) /\ (length (flat_map (read_back a) x) <= length x -> Forall (text_char a) x)) as Hl.
      { clear. induction x as [|c x [IH1 IH2]]; [split; [done|constructor]|]. cbn [flat_map length]. rewrite app_length.
        destruct (decide (text_char a c)) as [Hc|Hc].
        - assert (read_back a c = [c]) as -> by (unfold read_back; by rewrite decide_True). cbn [length].
          split; [lia|]. intros Hl. constructor; [done|]. apply IH2. lia.
        - assert (2 <= length (read_back a c)) as H2.
          { unfold read_back. rewrite decide_False by done. destruct (c <? 65536)%N; [cbn; lia|]. rewrite app_length. cbn. lia. }
          split; [by apply (arith1 _ _ _ H2)|]. intros Hle. exfalso. by apply (arith2 _ _ _ H2 IH1). }
      apply (Hl x). by rewrite Hx.
    - intros Hx. do 2 f_equal. induction Hx as [|c x Hc _ IH]; [done|]. cbn [flat_map]. unfold read_back at 1. rewrite decide_True by done. by rewrite IH.
  Qed.
End spec.
(** Example: a tab, a quote, an accented letter and a character beyond the 16 bits *)
Theorem C32_text_example `{PyText} :
  dumps true (VStr [9; 34; 233; 128512; 97]%N) = Ok (s """\t\""\u00e9\ud83d\ude00a""") /\
  json_text (s "\t\""\u00e9\ud83d\ude00a") = Some [9; 34; 233; 128512; 97]%N /\
  dumps false (VStr [9; 233]%N) = Ok (s """\t" ++ [233; 34]%N).
Proof. by split_and!. Qed.
Print Assumptions C32_strings_json.
Print Assumptions C32_strings_read.
Print Assumptions C32_strings_exactly.

(** Theorems about the default values which introspection shows (C65). *)
From Verif Require Import Base Val Types Graph Edn EdnSpec EdnTextSpec PropEdnText ReadGraphql ReadSpec JsonText JsonSpec Introspect PropIntroList IntroRun IntroRunSpec.
From Coq Require Import ZifyN.
Ltac Zify.zify_post_hook ::= Z.div_mod_to_equations.

Lemma digits_decimal fuel n acc : (n < 2 ^ N.of_nat fuel)%N -> fuel <> 0 -> exists t, digits fuel n acc = t ++ acc /\ decimal n t.
Proof.
  revert n acc. induction fuel as [|k IH]; [done|]. intros n acc Hn _. cbn [digits]. cbv zeta. destruct (N.ltb_spec n 10) as [Hl|Hl].
  - exists [(48 + n mod 10)%N]. split; [done|]. rewrite N.mod_small by done. by constructor.
  - assert (n / 10 < 2 ^ N.of_nat k)%N as Hk.
    { replace (N.of_nat (S k)) with (N.succ (N.of_nat k)) in Hn by lia. rewrite N.pow_succ_r' in Hn. lia. }
    assert (k <> 0) as Hk0 by (intros ->; cbn in Hk; lia).
    destruct (IH (n / 10)%N ((48 + n mod 10)%N :: acc) Hk Hk0) as (t & Ht & Hd). exists (t ++ [(48 + n mod 10)%N]).
    split; [by rewrite Ht, <-app_assoc|].
    assert (n = 10 * (n / 10) + n mod 10)%N as Hdiv by (apply N.div_mod; done).
    assert (n / 10 <> 0)%N as Hq by (apply N.neq_0_lt_0, N.div_str_pos; lia).
    assert (n mod 10 < 10)%N as Hr by (by apply N.mod_lt).
    rewrite Hdiv at 1. by apply dc_more.
Qed.
Lemma N_str_decimal n : decimal n (N_str n).
Proof.
  unfold N_str. destruct (digits_decimal (S (N.size_nat n)) n []) as (t & -> & Hd); [|done|by rewrite app_nil_r].
  pose proof (N_size_pow n) as Hs. rewrite Nat2N.inj_succ, N.pow_succ_r'. lia.
Qed.
Lemma Z_str_integer z : integer z (Z_str z).
Proof.
  destruct z as [|p|p]; cbn [Z_str].
  - apply (in_pos 0), N_str_decimal.
  - apply (in_pos (Npos p)), N_str_decimal.
  - apply (in_neg (Npos p)), N_str_decimal.
Qed.
Lemma text_unicode x : Forall unicode x -> json_text (flat_map (esc_char true) x) = Some x.
Proof.
  intros Hx. unfold json_text. rewrite units_text; [by rewrite utf16_text|].
  eapply Forall_impl; [exact Hx|]. by intros c [? _].
Qed.
Lemma ignored_nil : ignored [].
Proof. constructor. Qed.
Lemma join_separated ts : separated ts (join_comma ts).
Proof.
  induction ts as [|t ts IH]; [apply (sp_none []), ignored_nil|]. cbn [join_comma]. destruct ts as [|t' ts].
  - pose proof (sp_one [] t [] ignored_nil ignored_nil) as Hx. by rewrite app_nil_r in Hx.
  - apply (sp_more [] t (s ", ") (t' :: ts) (join_comma (t' :: ts))); [apply ignored_nil| |done|done|done].
    unfold ignored. change (s ", ") with [44; 32]%N. repeat constructor; (apply (bool_decide_unpack _); vm_compute; exact I).
Qed.

Section json.
  Context `{PyText}.
  Lemma lists_shown (l : list val) :
    Forall (fun v => forall w, shows v w -> exists t a, json_dumps v = Ok t /\ gql_text a t /\ denotes [] a w) l ->
    forall ws, Forall2 shows l ws -> exists ts als, mapR json_dumps l = Ok ts /\ Forall2 gql_text als ts /\ Forall2 (denotes []) als ws.
  Proof.
    induction 1 as [|v l Hv _ IH]; intros ws Hws; inversion Hws as [|? w ? ws' Hw Hws']; subst.
    - exists [], []. split; [done|]. split; constructor.
    - destruct (Hv w Hw) as (t & a & Ht & Ha & Hd). destruct (IH ws' Hws') as (ts & als & Hts & Hal & Hds).
      exists (t :: ts), (a :: als). cbn [mapR]. rewrite Ht, Hts. split; [done|]. split; by constructor.
  Qed.
  (** C65: the text shown for a default value is a GraphQL value, and what it means to hiku's own
      reader of requests is the default. *)
  Theorem C65_text v w : shows v w -> exists t a, json_dumps v = Ok t /\ gql_text a t /\ denotes [] a w.
  Proof.
    assert (forall l ws, Forall (fun v => forall w, shows v w -> exists t a, json_dumps v = Ok t /\ gql_text a t /\ denotes [] a w) l ->
      Forall2 shows l ws -> exists t a, match mapR json_dumps l with Ok ts => Ok (s "[" ++ join_comma ts ++ s "]") | Err e => Err e end = Ok t /\
        gql_text a t /\ denotes [] a (VList ws)) as Hlist.
    { intros l ws Hl Hws. destruct (lists_shown l Hl ws Hws) as (ts & als & -> & Hal & Hds). eexists _, (GList als).
      split; [reflexivity|]. split; [|by constructor]. eapply gt_list; [exact Hal|]. apply join_separated. }
    revert w. induction v as [|b|z|m e|x|x|x|l IH|l IH|l IH|l IH|d IH|d IH|l IH|n v IH| |n] using val_ind'; intros w Hw;
      inversion Hw as [| | |? ? Hfl|? Hx|? Hx|? Hx|? ws Hws|? ws Hws|? ws Hws|? ws Hws| |]; subst; cbn [json_dumps].
    - eexists _, GNull. split; [reflexivity|]. split; constructor.
    - destruct b; (eexists _, (GBool _); split; [reflexivity|]; split; constructor).
    - eexists _, (GInt z). split; [reflexivity|]. split; [|constructor]. constructor. apply Z_str_integer.
    - eexists _, (GFloat m e). split; [reflexivity|]. split; [|constructor]. by constructor.
    - eexists _, (GStr x). split; [reflexivity|]. split; [|constructor]. constructor. by apply text_unicode.
    - eexists _, (GStr x). split; [reflexivity|]. split; [|constructor]. constructor. by apply text_unicode.
    - eexists _, (GStr x). split; [reflexivity|]. split; [|constructor]. constructor. by apply text_unicode.
    - by apply Hlist.
    - by apply Hlist.
    - by apply Hlist.
    - by apply Hlist.
    - eexists _, (GObj []). split; [reflexivity|]. split; [|apply (dn_obj [] [] []); constructor]. eapply (gt_obj [] [] []); [constructor|]. apply sp_none. constructor.
    - eexists _, (GObj []). split; [reflexivity|]. split; [|apply (dn_obj [] [] []); constructor]. eapply (gt_obj [] [] []); [constructor|]. apply sp_none. constructor.
  Qed.
  (** C65: without tuples and words it is exactly the default. *)
  Lemma simple_shows v : simple v -> shows v v.
  Proof.
    induction v as [|b|z|m e|x|x|x|l IH|l IH|l IH|l IH|d IH|d IH|l IH|n v IH| |n] using val_ind'; try done; try (intros; by constructor); try (cbn; intros ->; by constructor).
    intros Hs. constructor. induction IH as [|v l Hv _ IHl]; [constructor|]. destruct Hs as [H1 H2]. constructor; [by apply Hv|by apply IHl].
  Qed.
  Theorem C65_simple v : simple v -> exists t a, json_dumps v = Ok t /\ gql_text a t /\ denotes [] a v.
  Proof. intros Hv. by apply C65_text, simple_shows. Qed.
  (** C65: a value has a text unless something in it is no JSON; then the answer is TypeError. *)
  Lemma key_ok k : is_ok (json_key k) <-> json_key_of k.
  Proof. split; [intros [x Hx]; by destruct k; try done; constructor|destruct 1 as [| | | |[]| |]; by eexists]. Qed.
  Lemma key_err k e : json_key k = Err e -> e = TypeError.
  Proof. destruct k as [|[]|z|m e0|x|x|x|l|l|l|l|d|d|l|n w| |n]; cbn; congruence. Qed.
  Theorem C65_written v : (is_ok (json_dumps v) <-> writable v) /\ forall e, json_dumps v = Err e -> e = TypeError.
  Proof.
    revert v.
    assert (forall l, Forall (fun v => (is_ok (json_dumps v) <-> writable v) /\ forall e, json_dumps v = Err e -> e = TypeError) l ->
      (is_ok (match mapR json_dumps l with Ok ts => Ok (s "[" ++ join_comma ts ++ s "]") | Err e => Err e end) <-> Forall writable l) /\
      forall e, match mapR json_dumps l with Ok ts => Ok (s "[" ++ join_comma ts ++ s "]") | Err e => Err e end = Err e -> e = TypeError) as Hlist.
    { induction 1 as [|v l [Hv He] _ [IH1 IH2]]; cbn [mapR].
      - split; [|done]. split; [by constructor|by eexists].
      - destruct (json_dumps v) as [t|e0].
        + assert (writable v) as Hw by by apply Hv; eexists. destruct (mapR json_dumps l) as [ts|e1].
          * split; [|done]. split; [|by eexists]. intros _. constructor; [done|]. apply IH1. by eexists.
          * split; [|intros e [= <-]; by apply IH2]. split; [by intros [? ?]|]. intros Hx. inversion Hx; subst. apply IH1 in H3 as [? ?]. done.
        + split; [|intros e [= <-]; by apply He]. split; [by intros [? ?]|]. intros Hx. inversion Hx; subst. apply Hv in H2 as [? ?]. done. }
    assert (forall d : list (val * val), Forall (fun p => ((is_ok (json_dumps p.1) <-> writable p.1) /\ forall e, json_dumps p.1 = Err e -> e = TypeError) /\
        ((is_ok (json_dumps p.2) <-> writable p.2) /\ forall e, json_dumps p.2 = Err e -> e = TypeError)) d ->
      let r := mapR (fun '(k, w) => match json_key k with
                                   | Err e => Err e
                                   | Ok x => match json_dumps w with Ok t => Ok (encode_str true x ++ s ": " ++ t) | Err e => Err e end
                                   end) d in
      (is_ok (match r with Ok ts => Ok (s "{" ++ join_comma ts ++ s "}") | Err e => Err e end) <-> Forall (fun p => json_key_of p.1 /\ writable p.2) d) /\
      forall e, match r with Ok ts => Ok (s "{" ++ join_comma ts ++ s "}") | Err e => Err e end = Err e -> e = TypeError) as Hdict.
    { induction 1 as [|[k v] d [_ [Hv He]] _ [IH1 IH2]]; cbn [mapR]; cbv zeta in *.
      - split; [|done]. split; [by constructor|by eexists].
      - cbn [fst snd] in *. destruct (json_key k) as [x|e0] eqn:Ek.
        + assert (json_key_of k) as Hk by (apply key_ok; by eexists). destruct (json_dumps v) as [t|e1].
          * assert (writable v) as Hw by by apply Hv; eexists.
            destruct (mapR _ d) as [ts|e2].
            -- split; [|done]. split; [|by eexists]. intros _. constructor; [done|]. apply IH1. by eexists.
            -- split; [|intros e [= <-]; by apply IH2]. split; [by intros [? ?]|]. intros Hx. inversion Hx as [|? ? [? ?] Hx']; subst. apply IH1 in Hx' as [? ?]. done.
          * split; [|intros e [= <-]; by apply He]. split; [by intros [? ?]|]. intros Hx. inversion Hx as [|? ? [? Hx2] Hx']; subst. apply Hv in Hx2 as [? ?]. done.
        + split; [|intros e [= <-]; by eapply key_err]. split; [by intros [? ?]|]. intros Hx. inversion Hx as [|? ? [Hx1 ?] Hx']; subst.
          apply key_ok in Hx1 as [? Hx1]. cbn in Hx1. congruence. }
    intros v.
    induction v as [|b|z|m e|x|x|x|l IH|l IH|l IH|l IH|d IH|d IH|l IH|n v IH| |n] using val_ind'; cbn [json_dumps].
    all: try (split; [split; [intros _; constructor|intros _; by eexists]|done]).
    all: try (split; [split; [by intros [? ?]|intros Hx; inversion Hx]|by intros ? [= <-]]).
    - destruct b; (split; [split; [intros _; constructor|intros _; by eexists]|done]).
    - destruct (Hlist l IH) as [H1 H2]. split; [|done]. rewrite H1. split; [by constructor|by inversion 1].
    - destruct (Hlist l IH) as [H1 H2]. split; [|done]. rewrite H1. split; [by constructor|by inversion 1].
    - destruct (Hlist l IH) as [H1 H2]. split; [|done]. rewrite H1. split; [by constructor|by inversion 1].
    - destruct (Hlist l IH) as [H1 H2]. split; [|done]. rewrite H1. split; [by constructor|by inversion 1].
    - destruct (Hdict d IH) as [H1 H2]. split; [|done]. rewrite H1. split; [by constructor|by inversion 1].
    - destruct (Hdict d IH) as [H1 H2]. split; [|done]. rewrite H1. split; [by constructor|by inversion 1].
  Qed.
End json.

(** ** Whatever is written is JSON *)
Lemma blank_commas ts u : commas ts u -> commas ts (s " " ++ u).
Proof.
  assert (forall i, blank i -> blank (s " " ++ i)) as Hb.
  { intros i Hi. change (s " ") with [32%N]. cbn [app]. constructor; [|done]. by constructor. }
  intros [i Hi|i t j Hi Hj|i t j ts' v Hi Hj Hn Hv].
  - apply cm_none. by apply Hb.
  - rewrite app_assoc. apply cm_one; [by apply Hb|done].
  - rewrite app_assoc. apply cm_more; [by apply Hb|done..].
Qed.
Lemma join_commas ts : commas ts (join_comma ts).
Proof.
  assert (blank []) as Hb by constructor.
  induction ts as [|t ts IH]; [by apply cm_none|]. cbn [join_comma]. destruct ts as [|t' ts].
  - pose proof (cm_one [] t [] Hb Hb) as Hx. by rewrite app_nil_r in Hx.
  - apply (cm_more [] t [] (t' :: ts) (s " " ++ join_comma (t' :: ts))); [done..|]. by apply blank_commas.
Qed.
Section is_json.
  Context `{PyText}.
  Lemma decimal_ascii n t : decimal n t -> Forall (fun c => c < 128)%N t.
  Proof. induction 1 as [d Hd|n t d _ IH _ Hd]; [repeat constructor; lia|]. apply Forall_app_2; [done|]. repeat constructor; lia. Qed.
  Lemma ascii_unicode t : Forall (fun c => c < 128)%N t -> Forall unicode t.
  Proof.
    intros Ht. eapply Forall_impl; [exact Ht|]. intros c Hc. cbn in Hc. unfold unicode, high, low. split; [lia|].
    split; apply andb_false_iff; left; apply N.leb_gt; lia.
  Qed.
  Lemma integer_unicode z t : integer z t -> Forall unicode t.
  Proof.
    intros [n u Hn|n u Hn]; apply ascii_unicode; [by eapply decimal_ascii|].
    apply Forall_app_2; [|by eapply decimal_ascii]. change (s "-") with [45%N]. repeat constructor; lia.
  Qed.
  Lemma key_written k : json_key_of k -> key_fine k -> exists x, json_key k = Ok x /\ key_says k x /\ Forall unicode x.
  Proof.
    destruct 1 as [x|x|x| |b|z|m e]; cbn [key_fine json_key]; intros Hk.
    - exists x. split; [done|]. split; [by constructor|done].
    - exists x. split; [done|]. split; [by constructor|done].
    - exists x. split; [done|]. split; [by constructor|done].
    - eexists. split; [reflexivity|]. split; [constructor|]. apply ascii_unicode. apply (bool_decide_unpack _). vm_compute; exact I.
    - destruct b; (eexists; split; [reflexivity|]; split; [constructor|]; apply ascii_unicode; apply (bool_decide_unpack _); vm_compute; exact I).
    - exists (Z_str z). split; [done|]. pose proof (Z_str_integer z). split; [by constructor|by eapply integer_unicode].
    - exists (float_str m e). split; [done|]. split; [by constructor|]. apply ascii_unicode. destruct Hk as (Hk & _).
      eapply Forall_impl; [exact Hk|]. intros c Hc. cbn in Hc.
      assert (Forall (fun c => c < 128)%N (s "0123456789+-eE.")) as Hall by (apply (bool_decide_unpack _); vm_compute; exact I).
      rewrite Forall_forall in Hall. by apply Hall.
  Qed.
  (** C65: what is shown is always JSON (RFC 8259), dictionaries included: that of the default, with
      lists instead of tuples and strings instead of words and of keys. *)
  Theorem C65_json v : writable v -> fine v -> exists t w, json_dumps v = Ok t /\ json_says w t /\ json_keeps v w.
  Proof.
    revert v.
    assert (forall l, Forall (fun v => writable v -> fine v -> exists t w, json_dumps v = Ok t /\ json_says w t /\ json_keeps v w) l ->
      Forall writable l -> Forall fine l -> exists t ws, match mapR json_dumps l with Ok ts => Ok (s "[" ++ join_comma ts ++ s "]") | Err e => Err e end = Ok t /\
        json_says (VList ws) t /\ Forall2 json_keeps l ws) as Hlist.
    { intros l Hl Hw Hf.
      assert (exists ts ws, mapR json_dumps l = Ok ts /\ Forall2 json_says ws ts /\ Forall2 json_keeps l ws) as (ts & ws & -> & H1 & H2).
      { induction Hl as [|v l Hv _ IH]; [exists [], []; split; [done|]; split; constructor|].
        inversion Hw as [|? ? Hw1 Hw2]; inversion Hf as [|? ? Hf1 Hf2]; subst.
        destruct (Hv Hw1 Hf1) as (t & w & Ht & H1 & H2). destruct (IH Hw2 Hf2) as (ts & ws & Hts & H3 & H4).
        exists (t :: ts), (w :: ws). cbn [mapR]. rewrite Ht, Hts. split; [done|]. split; by constructor. }
      eexists _, ws. split; [reflexivity|]. split; [|done]. eapply js_list; [exact H1|]. apply join_commas. }
    assert (forall d : list (val * val), Forall (fun p => (writable p.1 -> fine p.1 -> exists t w, json_dumps p.1 = Ok t /\ json_says w t /\ json_keeps p.1 w) /\
        (writable p.2 -> fine p.2 -> exists t w, json_dumps p.2 = Ok t /\ json_says w t /\ json_keeps p.2 w)) d ->
      Forall (fun p => json_key_of p.1 /\ writable p.2) d -> Forall (fun p => key_fine p.1 /\ fine p.2) d ->
      exists t ws, match mapR (fun '(k, w) => match json_key k with
                                   | Err e => Err e
                                   | Ok x => match json_dumps w with Ok t => Ok (encode_str true x ++ s ": " ++ t) | Err e => Err e end
                                   end) d with Ok ts => Ok (s "{" ++ join_comma ts ++ s "}") | Err e => Err e end = Ok t /\
        json_says (VDict ws) t /\ Forall2 (fun p r => exists x, key_says p.1 x /\ r.1 = VStr x /\ json_keeps p.2 r.2) d ws) as Hdict.
    { intros d Hd Hw Hf.
      assert (exists ts ws, mapR (fun '(k, w) => match json_key k with
                                   | Err e => Err e
                                   | Ok x => match json_dumps w with Ok t => Ok (encode_str true x ++ s ": " ++ t) | Err e => Err e end
                                   end) d = Ok ts /\
        Forall2 (fun p t => exists x kt i j w, p.1 = VStr x /\ json_text kt = Some x /\ blank i /\ blank j /\ json_says p.2 w /\
                          t = [34%N] ++ kt ++ [34%N] ++ i ++ s ":" ++ j ++ w) ws ts /\
        Forall2 (fun p r => exists x, key_says p.1 x /\ r.1 = VStr x /\ json_keeps p.2 r.2) d ws) as (ts & ws & -> & H1 & H2).
      { induction Hd as [|[k v] d [_ Hv] _ IH]; [exists [], []; split; [done|]; split; constructor|].
        inversion Hw as [|? ? [Hk1 Hw1] Hw2]; inversion Hf as [|? ? [Hk2 Hf1] Hf2]; subst. cbn [fst snd] in *.
        destruct (key_written k Hk1 Hk2) as (x & Hx & Hkx & Hux).
        destruct (Hv Hw1 Hf1) as (t & w & Ht & H1 & H2). destruct (IH Hw2 Hf2) as (ts & ws & Hts & H3 & H4).
        cbn [mapR]. rewrite Hx, Ht, Hts. eexists (_ :: ts), ((VStr x, w) :: ws). split; [reflexivity|]. split; constructor; try done.
        - exists x, (flat_map (esc_char true) x), [], (s " "), t. split; [done|]. split; [by apply text_unicode|]. split; [constructor|].
          split; [change (s " ") with [32%N]; by repeat constructor|]. split; [done|].
          unfold encode_str. cbn [app]. rewrite <-!app_assoc. by cbn [app].
        - by exists x. }
      eexists _, ws. split; [reflexivity|]. split; [|done]. eapply js_dict; [exact H1|]. apply join_commas. }
    intros v.
    induction v as [|b|z|m e|x|x|x|l IH|l IH|l IH|l IH|d IH|d IH|l IH|n v IH| |n] using val_ind'; intros Hw Hf;
      inversion Hw; inversion Hf; subst; cbn [json_dumps].
    - eexists _, VNone. split; [reflexivity|]. split; repeat constructor.
    - destruct b; (eexists _, (VBool _); split; [reflexivity|]; split; repeat constructor).
    - eexists _, (VInt z). split; [reflexivity|]. split; [|repeat constructor]. constructor. apply Z_str_integer.
    - eexists _, (VFloat m e). split; [reflexivity|]. split; [by apply js_float|by apply jk_shows, sw_float].
    - eexists _, (VStr x). split; [reflexivity|]. split; [apply js_str; by apply text_unicode|by apply jk_shows, sw_str].
    - eexists _, (VStr x). split; [reflexivity|]. split; [apply js_str; by apply text_unicode|by apply jk_shows, sw_kw].
    - eexists _, (VStr x). split; [reflexivity|]. split; [apply js_str; by apply text_unicode|by apply jk_shows, sw_sym].
    - edestruct Hlist as (t & ws & Ht & Ha & Hb); [done..|]. exists t, (VList ws). split; [exact Ht|]. split; [done|by constructor].
    - edestruct Hlist as (t & ws & Ht & Ha & Hb); [done..|]. exists t, (VList ws). split; [exact Ht|]. split; [done|by constructor].
    - edestruct Hlist as (t & ws & Ht & Ha & Hb); [done..|]. exists t, (VList ws). split; [exact Ht|]. split; [done|by constructor].
    - edestruct Hlist as (t & ws & Ht & Ha & Hb); [done..|]. exists t, (VList ws). split; [exact Ht|]. split; [done|by constructor].
    - edestruct Hdict as (t & ws & Ht & Ha & Hb); [done..|]. exists t, (VDict ws). split; [exact Ht|]. split; [done|by constructor].
    - edestruct Hdict as (t & ws & Ht & Ha & Hb); [done..|]. exists t, (VDict ws). split; [exact Ht|]. split; [done|by constructor].
  Qed.
End is_json.

(** ** What introspection shows *)
Section shown.
  Context `{PyText} (S : schema) (T : texts) (HT : tx_json T = json_default).
  (** C65: the row of an argument holds nothing as its default if there is none to take; a text
      which means the default if this can be written; otherwise asking for it is a TypeError. *)
  Theorem C65_shown node field name o : arg_option S node field name = Ok o ->
    (go_default o = VNothing ->
      exists row, input_value_info S T (enc_a (ArgField node field name)) = Ok row /\ dget (s "defaultValue") row = Some VNone) /\
    (forall w, shows (go_default o) w -> exists row t a, input_value_info S T (enc_a (ArgField node field name)) = Ok row /\
        dget (s "defaultValue") row = Some (VStr t) /\ gql_text a t /\ denotes [] a w) /\
    (go_default o <> VNothing -> ~ writable (go_default o) -> input_value_info S T (enc_a (ArgField node field name)) = Err TypeError).
  Proof.
    intros Ho. unfold input_value_info. rewrite dec_enc_a, Ho, HT. split_and!.
    - intros ->. eexists. split; [reflexivity|]. reflexivity.
    - intros w Hw. destruct (C65_text _ _ Hw) as (t & a & Ht & Ha & Hd).
      assert (match go_default o with VNothing => Ok VNone | v => json_default v end = Ok (VStr t)) as ->.
      { unfold json_default. destruct (go_default o); try (by rewrite Ht). inversion Hw. }
      eexists _, t, a. split; [reflexivity|]. split; [reflexivity|]. done.
    - intros Hn Hw. assert (json_default (go_default o) = Err TypeError) as Hj.
      { unfold json_default. destruct (C65_written (go_default o)) as [H1 H2]. destruct (json_dumps (go_default o)) as [t|e] eqn:E.
        - exfalso. apply Hw, H1. by eexists.
        - by rewrite (H2 e eq_refl). }
      assert (match go_default o with VNothing => Ok VNone | v => json_default v end = Err TypeError) as ->; [|done].
      by destruct (go_default o).
  Qed.
  (** So what C56 and C57 ask of the default values is that they can be written. *)
  Theorem C65_defaults : json_defaults S T <->
    forall n gn x o, dget n (schema_nodes S) = Some gn -> x ∈ gn_fields gn -> o ∈ gi_options x -> go_default o <> VNothing -> writable (go_default o).
  Proof.
    unfold json_defaults. rewrite HT.
    assert (forall v, is_ok (json_default v) <-> writable v) as Hj.
    { intros v. rewrite <-(proj1 (C65_written v)). unfold json_default. split; intros [x Hx]; destruct (json_dumps v); try done; by eexists. }
    split; intros Hd n gn x o H1 H2 H3 H4; apply Hj; by eapply Hd.
  Qed.
End shown.

(** ** Where the claim is false *)
Lemma decimal_head n t : decimal n t -> exists d r, t = (48 + d)%N :: r /\ (d < 10)%N.
Proof. induction 1 as [d Hd|n t d _ (d' & r & -> & Hd') _ Hd]; [by exists d, []|]. by exists d', (r ++ [(48 + d)%N]). Qed.
Section refuted.
  Context `{PyText}.
  Lemma no_text_quote ts u l r : Forall2 (fun (p : str * gval) t => gql_name p.1 /\ exists i w, ignored i /\ gql_text p.2 w /\ t = p.1 ++ s ":" ++ i ++ w) l ts ->
    separated ts u -> u = 34%N :: r -> False.
  Proof.
    intros Hf Hs.
    assert (forall i : str, ignored i -> forall x, i ++ x = 34%N :: r -> i = []) as Hi.
    { intros [|c i] Hi x Hx; [done|]. injection Hx as -> _. unfold ignored in Hi. inversion Hi as [|? ? Hc _]; subst. exfalso.
      apply (bool_decide_pack _) in Hc. by vm_compute in Hc. }
    assert (forall (p : str * gval) t x, gql_name p.1 /\ (exists i w, ignored i /\ gql_text p.2 w /\ t = p.1 ++ s ":" ++ i ++ w) -> t ++ x = 34%N :: r -> False) as Ht.
    { intros p t x (Hn & i & w & _ & _ & ->) Hx. destruct (p.1) as [|c n]; [done|]. injection Hx as -> _. destruct Hn as [[Hn|Hn] _]; [by vm_compute in Hn|done]. }
    destruct Hs as [i Hi0|i t j Hi0 _|i t j ts u Hi0 _ _ _ _].
    - intros ->. unfold ignored in Hi0. inversion Hi0 as [|? ? Hc _]; subst. apply (bool_decide_pack _) in Hc. by vm_compute in Hc.
    - intros Hu. pose proof (Hi i Hi0 _ Hu) as ->. cbn [app] in Hu. inversion Hf as [|p ? ? ? Hp _]; subst. by eapply Ht.
    - intros Hu. pose proof (Hi i Hi0 _ Hu) as ->. cbn [app] in Hu. inversion Hf as [|p ? ? ? Hp _]; subst. by eapply Ht.
  Qed.
  (** C65, false of the code: what is shown for a dictionary is no value of GraphQL at all (its keys
      are written as strings). *)
  Theorem C65_object_refuted v d t a : (v = VDict d \/ v = VMap d) -> d <> [] -> json_dumps v = Ok t -> ~ gql_text a t.
  Proof.
    intros Hv Hd Ht Ha.
    assert (exists r, t = 123%N :: 34%N :: r) as [r ->].
    { destruct d as [|[k w] d]; [done|]. destruct Hv as [-> | ->]; cbn [json_dumps mapR] in Ht.
      all: destruct (json_key k) as [x|]; [|done]; destruct (json_dumps w) as [tw|]; [|done]; destruct (mapR _ d) as [ts|]; [|done].
      all: injection Ht as <-; cbn [join_comma]; destruct ts; unfold encode_str; cbn [app]; eexists; reflexivity. }
    inversion Ha as [E1 E2|E1 E2|E1 E2|x Hn _ _ _ E1 E2|z t Hz E1 E2|m e t Hf E1 E2|t x _ E1 E2|l ts u _ _ E1 E2|l ts u Hf Hs E1 E2]; subst; try done.
    - destruct Hn as [[Hn|Hn] _]; [by vm_compute in Hn|done].
    - inversion Hz as [n t Hx E3 E4|n t Hx E3 E4]; subst.
      apply decimal_head in Hx as (d0 & r' & Hx & Hd0). apply (f_equal (fun l => match l with c :: _ => c | [] => 0%N end)) in Hx. lia.
    - destruct Hf as (Hf & _). inversion Hf as [|? ? Hc _]; subst. apply (bool_decide_pack _) in Hc. by vm_compute in Hc.
    - destruct u as [|c u]; [by apply (f_equal (@hd_error N)) in E2|].
      apply (f_equal (@hd_error N)) in E2. injection E2 as ->. by eapply no_text_quote.
  Qed.
End refuted.

(** ** Example *)
Local Instance ex_text : PyText := {
  is_alpha := ascii_alpha; is_udigit := is_digit;
  float_str := fun m e => s "0.5"; parse_float := fun t => if decide (t = s "0.5") then Some (1, -1)%Z else None;
  alpha_ascii := fun _ _ => eq_refl; udigit_ascii := fun _ _ => eq_refl;
}.
Definition ex_default : val := VList [VInt (-12); VBool true; VStr [97; 34; 10; 233; 128512]%N; VList []; VNone; VFloat 1 (-1)].
Definition ex_shown : str := s "[-12, true, " ++ [34; 97; 92; 34]%N ++ s "\n\u00e9\ud83d\ude00" ++ [34]%N ++ s ", [], null, 0.5]".
Theorem C65_example :
  simple ex_default /\ json_dumps ex_default = Ok ex_shown /\ writable ex_default /\
  (exists a, gql_text a ex_shown /\ denotes [] a ex_default) /\
  json_dumps (VDict [(VStr (s "a"), VInt 1)]) = Ok ([123; 34; 97; 34; 58; 32; 49; 125]%N) /\
  json_dumps (VSet [VInt 1]) = Err TypeError.
Proof.
  assert (simple ex_default) as Hs.
  { cbn. split_and!; try done; [repeat constructor; lia|]. split_and!.
    - repeat constructor; done.
    - exists [], 48%N, (s ".5"). split; [done|]. split; [by left|done].
    - left. apply (bool_decide_unpack _); vm_compute; exact I.
    - done. }
  split; [done|]. assert (json_dumps ex_default = Ok ex_shown) as Hj by (vm_compute; reflexivity).
  split; [done|]. split_and!.
  - apply (proj1 (C65_written ex_default)). by eexists.
  - destruct (C65_simple _ Hs) as (t & a & Ht & Ha). rewrite Hj in Ht. injection Ht as <-. by exists a.
  - by vm_compute.
  - done.
Qed.
Definition ex_json_default : val := VDict [(VInt (-1), VTuple [VKw (s "a"); VDict []]); (VStr (s "b"), VNone)].
Theorem C65_json_example :
  writable ex_json_default /\ fine ex_json_default /\
  json_dumps ex_json_default = Ok (s "{" ++ [34%N] ++ s "-1" ++ [34%N] ++ s ": [" ++ [34; 97; 34]%N ++ s ", {}], " ++ [34; 98; 34]%N ++ s ": null}") /\
  ~ writable (VDict [(VTuple [], VNone)]).
Proof.
  assert (Forall unicode (s "a") /\ Forall unicode (s "b")) as [Ha Hb] by (by repeat constructor).
  split_and!.
  - repeat constructor.
  - apply fi_dict. constructor; [split; [done|]|constructor; [split; [done|constructor]|constructor]].
    apply fi_tuple. constructor; [by apply fi_kw|]. constructor; [apply fi_dict; constructor|constructor].
  - by vm_compute.
  - intros Hw. inversion Hw as [| | | | | | | | | | |? Hd|]; subst. inversion Hd as [|? ? [Hk _] _]; subst. inversion Hk.
Qed.
Print Assumptions C65_json.

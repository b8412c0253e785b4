(** C59: the layout of EDN texts does not matter (hiku/edn.py). *)
From Verif Require Import Base Val Edn EdnSpec PropEdn EdnLayout.

Section read.
  Context `{PyText} (th : str -> option (val -> res val)).
  Notation step := (step th). Notation feed := (feed th).

  Lemma sep_mem c : separator c <-> mem c STOP_CHARS = true.
  Proof. symmetry. apply mem_spec. Qed.
  Lemma ready_sep stop out c : stop_ok stop -> separator c -> ready stop out c = Ok (Goes (PS stop out MReady)).
  Proof.
    intros Hs Hc. unfold ready. rewrite bool_decide_eq_false_2. { by rewrite (proj1 (sep_mem c) Hc). }
    apply not_stop; [done|]. unfold separator in Hc. split_in Hc; by apply mem_false.
  Qed.
  Lemma ready_comment stop out : stop_ok stop -> ready stop out 59 = Ok (Goes (PS stop out MComment)).
  Proof. intros Hs. unfold ready. rewrite bool_decide_eq_false_2; [done|]. apply not_stop; [done|]. by apply mem_false. Qed.
  Lemma feed_comment stop out x : 10%N ∉ x -> feed (PS stop out MComment) x = Ok (PS stop out MComment).
  Proof.
    induction x as [|c x IH]; [done|]. intros [Hc Hx]%not_elem_of_cons. cbn [Edn.feed Edn.step].
    rewrite (proj2 (N.eqb_neq c 10)) by done. by apply IH.
  Qed.
  Lemma feed_blank stop out b : stop_ok stop -> blank b -> feed (PS stop out MReady) b = Ok (PS stop out MReady).
  Proof.
    intros Hs. induction 1 as [|c b Hc _ IH|x b Hx _ IH]; [done| |].
    - cbn [Edn.feed Edn.step]. by rewrite ready_sep.
    - cbn [app Edn.feed Edn.step]. rewrite ready_comment by done. rewrite feed_app, feed_comment by done. cbn [Edn.feed Edn.step]. exact IH.
  Qed.

  (** What may come right behind a text *)
  Definition ends (e : ending) (c : N) : Prop :=
    match e with Closed => True | Word => separator c \/ c ∈ s "])}" | Tagged => separator c end.
  Definition reads (e : ending) (v : val) (t : str) : Prop := forall stop out, stop_ok stop ->
    match e with
    | Closed => exists t0 c p, t = t0 ++ [c] /\ feed (PS stop out MReady) t0 = Ok p /\ p_out p = out /\
                  step p c = Ok (Goes (PS stop (out ++ [v]) MReady))
    | _ => exists q, feed (PS stop out MReady) t = Ok q /\ p_out q = out /\ forall c, ends e c -> step q c = ready stop (out ++ [v]) c
    end.
  Definition reads_list (l : list val) (t : str) : Prop := forall stop out e, stop = Some e -> e ∈ [93; 41; 125]%N ->
    exists q, feed (PS stop out MReady) t = Ok q /\ step q e = Ok (Stops (out ++ l)).

  Lemma word_end c : ends Word c -> sym_end c = true /\ num_char c = false /\ is_alpha c = false.
  Proof. intros [Hc|Hc]; unfold separator in *; split_in Hc; rewrite alpha_ascii by done; done. Qed.
  Lemma reads_sym v t : (forall stop out, stop_ok stop -> feed (PS stop out MReady) t = Ok (PS stop out (MSym t))) -> symbol_value t = v -> reads Word v t.
  Proof.
    intros Hf Hv stop out Hs. exists (PS stop out (MSym t)). split; [by apply Hf|]. split; [done|].
    intros c (Hn & _)%word_end. cbn [Edn.step]. by rewrite Hn, Hv.
  Qed.
  Lemma reads_num v t : Forall (fun c => num_char c = true) t ->
    (exists a c t', t = a ++ c :: t' /\ (a = [] \/ a = s "-") /\ is_digit c = true) -> parse_number t = Ok v -> reads Word v t.
  Proof.
    intros Hn Ht Hv stop out Hs. exists (PS stop out (MNum t)). split; [by apply num_text|]. split; [done|].
    intros c (_ & Hx & _)%word_end. cbn [Edn.step]. by rewrite Hx, Hv.
  Qed.
  Lemma reads_word v c t : is_alpha c = true -> Forall word_char (c :: t) -> symbol_value (c :: t) = v -> reads Word v (c :: t).
  Proof.
    intros Ha Hw. apply reads_sym. intros stop out Hs. cbn [Edn.feed Edn.step]. rewrite ready_alpha by done. inversion Hw; subst. by rewrite feed_sym.
  Qed.
  Lemma ready_backslash stop out : stop_ok stop -> ready stop out 92 = Ok (Goes (PS stop out MChar0)).
  Proof. intros Hs. unfold ready. rewrite bool_decide_eq_false_2; [done|]. apply not_stop; [done|]. by apply mem_false. Qed.
  Lemma reads_char v c t : Forall (fun x => is_alpha x = true) t -> char_value (c :: t) = Ok v -> reads Word v (92%N :: c :: t).
  Proof.
    intros Ha Hv stop out Hs. exists (PS stop out (MChar (c :: t))). split; [|split; [done|]].
    - cbn [Edn.feed Edn.step]. rewrite ready_backslash by done. cbn [Edn.feed Edn.step]. clear Hv.
      assert (forall r, feed (PS stop out (MChar r)) t = Ok (PS stop out (MChar (r ++ t)))) as Hf; [|by rewrite (Hf [c])].
      induction Ha as [|x t Hx _ IH]; intros r; [by rewrite app_nil_r|]. cbn [Edn.feed Edn.step]. rewrite Hx, IH. by rewrite <-app_assoc.
    - intros x (_ & _ & Hx)%word_end. cbn [Edn.step]. by rewrite Hx, Hv.
  Qed.
  Lemma feed_string stop out x t a : string_text x t -> feed (PS stop out (MStr a)) t = Ok (PS stop out (MStr (a ++ x))).
  Proof.
    intros Hx. revert a. induction Hx as [|c x t H1 H2 _ IH|e c x t He _ IH]; intros a; [by rewrite app_nil_r| |].
    - cbn [Edn.feed Edn.step]. rewrite (proj2 (N.eqb_neq c 92)), (proj2 (N.eqb_neq c 34)) by done. rewrite IH. by rewrite <-app_assoc.
    - cbn [Edn.feed Edn.step]. assert (char_map e = c) as Hm. { unfold escapes in He. rewrite !elem_of_cons, elem_of_nil in He. destruct_or! He; simplify_eq; done. }
      cbn. rewrite Hm, IH. by rewrite <-app_assoc.
  Qed.
  Lemma reads_coll v l t c0 : c0 ∈ s "[({" -> reads_list l t -> build c0 l = Ok v -> reads Closed v ([c0] ++ t ++ [end_char c0]).
  Proof.
    intros H0 Hl Hb stop out Hs.
    destruct (Hl (Some (end_char c0)) [] (end_char c0) eq_refl) as (q & Hq & Hn); [split_in H0; apply (bool_decide_unpack _); vm_compute; exact I|].
    exists ([c0] ++ t), (end_char c0), (PS stop out (MColl c0 q)). split; [by rewrite app_assoc|]. split; [|split; [done|]].
    - rewrite feed_app. cbn [Edn.feed Edn.step]. rewrite ready_open by done. by apply feed_coll.
    - cbn [Edn.step]. rewrite Hn. cbn [app]. by rewrite Hb.
  Qed.
  Lemma reads_set v l t : reads_list l t -> build 35 l = Ok v -> reads Closed v (s "#{" ++ t ++ [125%N]).
  Proof.
    intros Hl Hb stop out Hs.
    destruct (Hl (Some 125%N) [] 125%N eq_refl) as (q & Hq & Hn); [apply (bool_decide_unpack _); vm_compute; exact I|].
    exists (s "#{" ++ t), 125%N, (PS stop out (MColl 35 q)). split; [by rewrite app_assoc|]. split; [|split; [done|]].
    - rewrite feed_app. change (s "#{") with [35; 123]%N. cbn [Edn.feed Edn.step]. rewrite ready_hash by done. cbn. by apply feed_coll.
    - cbn [Edn.step]. rewrite Hn. cbn [app]. by rewrite Hb.
  Qed.
  Lemma flat_pairs (d : list (val * val)) : pairs_of (flat d) = Some d.
  Proof. induction d as [|[k w] d IH]; [done|]. cbn [flat flat_map app pairs_of fst snd]. change (flat_map (fun p => [p.1; p.2]) d) with (flat d). by rewrite IH. Qed.

  Lemma reads_any e v t c stop out : stop_ok stop -> reads e v t -> ends e c ->
    exists q, feed (PS stop out MReady) t = Ok q /\ step q c = ready stop (out ++ [v]) c.
  Proof.
    intros Hs Hr He. specialize (Hr stop out Hs). destruct e.
    - destruct Hr as (t0 & x & p & -> & Hf & _ & Hx). exists (PS stop (out ++ [v]) MReady). by rewrite feed_app, Hf, (feed_one _ _ _ _ Hx).
    - destruct Hr as (q & Hf & _ & Hx). exists q. auto.
    - destruct Hr as (q & Hf & _ & Hx). exists q. auto.
  Qed.
  (** The name of a tag, then characters for the inner parser *)
  Lemma feed_tag_name stop out n : stop_ok stop -> tag_name n -> feed (PS stop out MReady) (s "#" ++ n) = Ok (PS stop out (MTag n)).
  Proof.
    intros Hs [Hn Hw]. change (s "#" ++ n) with (35%N :: n). cbn [Edn.feed Edn.step]. rewrite ready_hash by done.
    destruct n as [|c n]; [done|]. inversion Hw as [|? ? Hc Hw']; subst. cbn [Edn.feed Edn.step].
    rewrite (proj2 (N.eqb_neq c 123)). { by rewrite tag_chars. } intros ->. apply Hc. apply mem_spec. reflexivity.
  Qed.
  Lemma tagged_next stop out n v w m : tagged th n v w -> tag_next th stop out n (PS None [v] m) = Ok (Goes (PS stop (out ++ [w]) MReady)).
  Proof.
    unfold tagged, tag_next, tag_value. cbn [p_out]. destruct (th n) as [f|].
    - intros [-> Hw]. by destruct w.
    - by intros ->.
  Qed.
  (** From the state in which a tag reads its value *)
  Lemma reads_tag_in n e v w t p0 stop out : stop_ok stop -> reads e v t -> tagged th n v w ->
    p0 = PS stop out (MTagVal n (PS None [] MReady)) ->
    match tag_ending e with
    | Closed => exists t0 c p, t = t0 ++ [c] /\ feed p0 t0 = Ok p /\ p_out p = out /\ step p c = Ok (Goes (PS stop (out ++ [w]) MReady))
    | e' => exists q, feed p0 t = Ok q /\ p_out q = out /\ forall c, ends e' c -> step q c = ready stop (out ++ [w]) c
    end.
  Proof.
    intros Hs Hr Hw ->. assert (stop_ok None) as Hn by left. specialize (Hr None [] Hn). destruct e; cbn [tag_ending].
    - destruct Hr as (t0 & c & p & -> & Hf & Hp & Hx). exists t0, c, (PS stop out (MTagVal n p)). split; [done|]. split; [by apply feed_tag|]. split; [done|].
      cbn [Edn.step]. rewrite Hx. cbn [app]. by apply tagged_next.
    - destruct Hr as (q & Hf & Hp & Hx). exists (PS stop out (MTagVal n q)). split; [by apply feed_tag|]. split; [done|]. intros c Hc. cbn [Edn.step ends] in *.
      rewrite Hx by (by left). rewrite ready_sep by done. cbn [app]. rewrite ready_sep by done. by apply tagged_next.
    - destruct Hr as (q & Hf & Hp & Hx). exists (PS stop out (MTagVal n q)). split; [by apply feed_tag|]. split; [done|]. intros c Hc. cbn [Edn.step ends] in *.
      rewrite Hx by done. rewrite ready_sep by done. cbn [app]. rewrite ready_sep by done. by apply tagged_next.
  Qed.
  Lemma tag_starts n c stop out : tag_end c = true ->
    step (PS stop out (MTag n)) c = step (PS stop out (MTagVal n (PS None [] MReady))) c.
  Proof. intros Hc. cbn [Edn.step]. by rewrite Hc. Qed.
  Lemma reads_tag n c b e v w t : tag_name n -> separator c -> blank b -> reads e v t -> tagged th n v w ->
    reads (tag_ending e) w (s "#" ++ n ++ (c :: b) ++ t).
  Proof.
    intros Hn Hc Hb Hr Hw stop out Hs.
    assert (feed (PS stop out MReady) (s "#" ++ n ++ (c :: b)) = Ok (PS stop out (MTagVal n (PS None [] MReady)))) as Hf.
    { rewrite app_assoc, feed_app, feed_tag_name by done. cbn [Edn.feed]. rewrite tag_starts.
      2:{ unfold separator in Hc. split_in Hc; done. }
      change (feed (PS stop out (MTagVal n (PS None [] MReady))) (c :: b) = Ok (PS stop out (MTagVal n (PS None [] MReady)))).
      apply feed_tag; [|done]. apply feed_blank; [left|]. by constructor. }
    pose proof (reads_tag_in n e v w t _ stop out Hs Hr Hw eq_refl) as Hx. destruct e; cbn [tag_ending] in *.
    - destruct Hx as (t0 & x & p & -> & Hp & Ho & Hx). exists (s "#" ++ n ++ (c :: b) ++ t0), x, p. split; [by rewrite <-!app_assoc|].
      split; [|done]. by rewrite !app_assoc, feed_app, <-!app_assoc, Hf.
    - destruct Hx as (q & Hp & Ho & Hx). exists q. split; [|done]. by rewrite !app_assoc, feed_app, <-!app_assoc, Hf.
    - destruct Hx as (q & Hp & Ho & Hx). exists q. split; [|done]. by rewrite !app_assoc, feed_app, <-!app_assoc, Hf.
  Qed.
  Lemma reads_tag_open n e v w c t : tag_name n -> opens c -> reads e v (c :: t) -> tagged th n v w ->
    reads (tag_ending e) w (s "#" ++ n ++ c :: t).
  Proof.
    intros Hn Hc Hr Hw stop out Hs.
    assert (forall x, feed (PS stop out MReady) (s "#" ++ n ++ c :: x) = feed (PS stop out (MTagVal n (PS None [] MReady))) (c :: x)) as Hf.
    { intros x. rewrite app_assoc, feed_app, feed_tag_name by done. cbn [Edn.feed]. rewrite tag_starts; [done|].
      unfold opens in Hc. split_in Hc; done. }
    pose proof (reads_tag_in n e v w (c :: t) _ stop out Hs Hr Hw eq_refl) as Hx. destruct e; cbn [tag_ending] in *.
    - destruct Hx as (t0 & x & p & E & Hp & Ho & Hx). destruct t0 as [|c' t0].
      + injection E as -> ->. exists (s "#" ++ n), x, (PS stop out (MTag n)). split; [by rewrite <-!app_assoc|]. split; [by apply feed_tag_name|]. split; [done|].
        rewrite tag_starts by (unfold opens in Hc; split_in Hc; done). injection Hp as <-. exact Hx.
      + injection E as <- ->. exists (s "#" ++ n ++ c :: t0), x, p. split; [by rewrite <-!app_assoc|]. split; [|done]. by rewrite Hf.
    - destruct Hx as (q & Hp & Ho & Hx). exists q. split; [|done]. by rewrite Hf.
    - destruct Hx as (q & Hp & Ho & Hx). exists q. split; [|done]. by rewrite Hf.
  Qed.

  Lemma rstrip_M t : rstrip_mn (t ++ s "M") = rstrip_mn t.
  Proof. induction t as [|c t IH]; [done|]. cbn [app rstrip_mn]. by rewrite IH. Qed.
  Lemma rstrip_N t : rstrip_mn (t ++ s "N") = rstrip_mn t.
  Proof. induction t as [|c t IH]; [done|]. cbn [app rstrip_mn]. by rewrite IH. Qed.
  Lemma all_read : (forall e v t, spells th e v t -> reads e v t) /\ (forall l t, lists th l t -> reads_list l t).
  Proof.
    apply spells_lists_ind.
    - apply reads_word; [by rewrite alpha_ascii|by apply word_chars|done].
    - apply reads_word; [by rewrite alpha_ascii|by apply word_chars|done].
    - apply reads_word; [by rewrite alpha_ascii|by apply word_chars|done].
    - intros z. apply reads_num; [| |by apply parse_Z_str].
      + eapply Forall_impl; [apply Z_str_chars|]. intros c [->|Hc]; [done|by apply digit_num].
      + destruct (Z_str_shape z) as (a & c & t' & H1 & H2 & H3). exists a, c, t'. split; [done|]. split; [done|]. by inversion H3.
    - intros z. apply reads_num.
      + apply Forall_app. split; [|by constructor]. eapply Forall_impl; [apply Z_str_chars|]. intros c [->|Hc]; [done|by apply digit_num].
      + destruct (Z_str_shape z) as (a & c & t' & H1 & H2 & H3). exists a, c, (t' ++ s "N"). split; [by rewrite H1, <-app_assoc|]. split; [done|]. by inversion H3.
      + unfold parse_number. rewrite rstrip_N. apply parse_Z_str.
    - intros t m e Hw. pose proof (parse_written _ _ _ Hw) as H3. destruct Hw as (H1 & H2 & _ & _). apply reads_num; [|done|done]. eapply Forall_impl; [exact H1|]. intros c Hc. cbv beta in Hc. by split_in Hc.
    - intros t m e Hw. pose proof (parse_written _ _ _ Hw) as H3. destruct Hw as (H1 & H2 & Hw). apply reads_num.
      + apply Forall_app. split; [|by constructor]. eapply Forall_impl; [exact H1|]. intros c Hc. cbv beta in Hc. by split_in Hc.
      + destruct H2 as (a & c & t' & -> & H2). exists a, c, (t' ++ s "M"). by rewrite <-app_assoc.
      + unfold parse_number in H3 |- *. by rewrite rstrip_M.
    - intros x Hx. apply reads_sym; [|done]. intros stop out Hs. change (s ":" ++ x) with (58%N :: x). cbn [Edn.feed Edn.step].
      rewrite ready_colon by done. by rewrite feed_sym.
    - intros x [Hw Hx]. destruct x as [|c t]; [done|]. destruct Hx as [(Ha & H1 & H2 & H3)|[Hc Ht]].
      + apply reads_word; [done|done|]. unfold symbol_value. rewrite not_colon by done.
        by rewrite (bool_decide_eq_false_2 _ H1), (bool_decide_eq_false_2 _ H2), (bool_decide_eq_false_2 _ H3).
      + destruct t as [|c' t]; [done|]. apply reads_sym.
        * intros stop out Hs. cbn [Edn.feed Edn.step]. rewrite ready_sign by done. cbn [Edn.feed Edn.step]. rewrite Ht.
          inversion Hw as [|? ? _ Hw']; subst. inversion Hw'; subst. by rewrite feed_sym.
        * unfold symbol_value. split_in Hc; done.
    - intros c. apply reads_char; [constructor|done].
    - change (s "\newline") with (92%N :: 110%N :: s "ewline"). apply reads_char; [|done]. repeat constructor; by rewrite alpha_ascii.
    - change (s "\space") with (92%N :: 115%N :: s "pace"). apply reads_char; [|done]. repeat constructor; by rewrite alpha_ascii.
    - change (s "\tab") with (92%N :: 116%N :: s "ab"). apply reads_char; [|done]. repeat constructor; by rewrite alpha_ascii.
    - intros x t Hx stop out Hs. exists ([34%N] ++ t), 34%N, (PS stop out (MStr x)). split; [by rewrite app_assoc|]. split; [|done].
      rewrite feed_app. cbn [Edn.feed Edn.step]. rewrite ready_quote by done. exact (feed_string _ _ _ _ [] Hx).
    - intros l t _ Hl. apply (reads_coll _ l t 91); [by apply mem_spec|done|done].
    - intros l t _ Hl. apply (reads_coll _ l t 40); [by apply mem_spec|done|done].
    - intros d t _ Hl Hh Hd. apply (reads_coll _ (flat d) t 123); [by apply mem_spec|done|]. unfold build. cbn. by rewrite flat_pairs, py_dict_distinct.
    - intros l t _ Hl Hh Hd. apply (reads_set _ l t); [done|]. unfold build. cbn. by rewrite py_set_distinct.
    - intros n c b e v w t Hn Hc Hb _ Hr Hw. by eapply reads_tag.
    - intros n e v w c t Hn Hc _ Hr Hw. by eapply reads_tag_open.
    - intros b Hb stop out e -> He. assert (stop_ok (Some e)) as Hs by (split_in He; apply (bool_decide_unpack _); vm_compute; exact I).
      exists (PS (Some e) out MReady). split; [by apply feed_blank|]. cbn [Edn.step]. unfold ready. rewrite bool_decide_eq_true_2 by done. by rewrite app_nil_r.
    - intros b e v t l r Hb _ Hr Hm _ Hl stop out x -> Hx. assert (stop_ok (Some x)) as Hs by (split_in Hx; apply (bool_decide_unpack _); vm_compute; exact I).
      destruct (Hl (Some x) (out ++ [v]) x eq_refl Hx) as (q & Hq & Hn). rewrite <-app_assoc in Hn.
      destruct r as [|c r].
      + injection Hq as <-. destruct (reads_any e v t x (Some x) out Hs Hr) as (q & Hq & Hy).
        { destruct e; [done| |done]. right. apply mem_spec. split_in Hx; done. }
        exists q. split; [by rewrite feed_app, feed_blank, app_nil_r by done|]. rewrite Hy. exact Hn.
      + exists q. split; [|done]. rewrite feed_app, feed_blank by done. 
        assert (e = Closed \/ separator c) as [->|Hc] by (destruct e; auto).
        * destruct (Hr (Some x) out Hs) as (t0 & y & p & -> & Hf & _ & Hy). by rewrite !feed_app, Hf, (feed_one _ _ _ _ Hy).
        * destruct (reads_any e v t c (Some x) out Hs Hr) as (q' & Hq' & Hy); [destruct e; cbn; auto|].
          rewrite feed_app, Hq'. cbn [Edn.feed] in Hq |- *. rewrite Hy. exact Hq.
  Qed.

  (** C59: a text which spells a value - with any blanks and comments between the items and around it, any way to write the
      strings - is read as that value. *)
  Theorem C59_layout e v t b r : spells th e v t -> blank b -> trail r -> (e = Closed \/ forall c r', r = c :: r' -> separator c) ->
    loads th (b ++ t ++ r) = Ok v.
  Proof.
    intros Ht%(proj1 all_read) Hb Hr He. assert (stop_ok None) as Hs by left. unfold loads, p_init.
    rewrite <-!app_assoc, feed_app, feed_blank by done.
    assert (exists q, feed (PS None [v] MReady) (r ++ s " ") = Ok q /\ p_out q = [v]) as (q & Hq & Ho).
    { destruct Hr as [r Hr|r x Hr Hx].
      - rewrite feed_app, feed_blank by done. exists (PS None [v] MReady). split; [|done]. change (s " ") with [32%N]. cbn [Edn.feed Edn.step]. by rewrite ready_sp.
      - exists (PS None [v] MComment). split; [|done]. rewrite <-!app_assoc, feed_app, feed_blank by done. cbn [app Edn.feed Edn.step].
        rewrite ready_comment by done. rewrite feed_app, feed_comment by done. done. }
    assert (exists c r', r ++ s " " = c :: r' /\ (e = Closed \/ separator c)) as (c & r' & Er & Hc).
    { destruct r as [|c r]; [exists 32%N, []; split; [done|]; right; apply mem_spec; reflexivity|]. exists c, (r ++ s " "). split; [done|]. destruct He as [He|He]; [by left|]. right. by apply (He c r). }
    rewrite Er in *. destruct Hc as [->|Hc].
    - destruct (Ht None [] Hs) as (t0 & y & p & -> & Hf & _ & Hy). rewrite !feed_app, Hf, (feed_one _ _ _ _ Hy). cbn [app]. by rewrite Hq, Ho.
    - destruct (reads_any e v t c None [] Hs Ht) as (q' & Hq' & Hy); [destruct e; cbn; auto|].
      rewrite feed_app, Hq'. cbn [Edn.feed app] in Hq |- *. rewrite Hy. cbn [Edn.step] in Hq.
      match goal with |- match ?x with _ => _ end = _ => assert (x = Ok q) as -> by exact Hq end. by rewrite Ho.
  Qed.
  (** A text spells one value only *)
  Theorem C59_one_value e e' v v' t : spells th e v t -> spells th e' v' t -> v = v'.
  Proof.
    intros H1 H2. assert (forall e v, spells th e v t -> loads th t = Ok v) as Hl.
    { intros e0 v0 H0. rewrite <-(C59_layout e0 v0 t [] [] H0); [by rewrite app_nil_r|constructor|constructor; constructor|by right]. }
    apply Hl in H1, H2. congruence.
  Qed.
  (** Collections with the same items, written in whatever way, are the same *)
  Theorem C59_same_items l t t' : lists th l t -> lists th l t' ->
    loads th (s "[" ++ t ++ s "]") = loads th (s "[" ++ t' ++ s "]") /\ loads th (s "(" ++ t ++ s ")") = loads th (s "(" ++ t' ++ s ")").
  Proof.
    assert (forall v x, spells th Closed v x -> loads th x = Ok v) as Hl.
    { intros v x Hx. rewrite <-(C59_layout Closed v x [] [] Hx); [by rewrite app_nil_r|constructor|constructor; constructor|by left]. }
    intros H1 H2. split; (erewrite Hl; [|by constructor]); (erewrite Hl; [|by constructor]); done.
  Qed.
End read.
Print Assumptions C59_layout.
Print Assumptions C59_one_value.
Print Assumptions C59_same_items.

(** ** Example *)
Definition nl : str := [10%N].
Definition qt : str := [34%N].
(** A vector with commas, comments, an escaped string, a tagged map and a character *)
Definition ex_laid : str :=
  s "[1,2N ; two" ++ nl ++ qt ++ s "a\n\" ++ qt ++ s "b" ++ qt ++ s " #t{:k" ++ nl ++ s "nil} \newline]".
Definition ex_laid_val : val :=
  VVec [VInt 1; VInt 2; VStr (s "a" ++ nl ++ qt ++ s "b"); VTag (s "t") (VMap [(VKw (s "k"), VNone)]); VStr nl].
Lemma spells_eq `{PyText} th e v t t' : spells th e v t -> t = t' -> spells th e v t'.
Proof. by intros ? <-. Qed.
Theorem C59_example : @spells ex_text no_tags Closed ex_laid_val ex_laid /\ blank (s "; head" ++ nl) /\ trail (s "; tail") /\
  @loads ex_text no_tags ((s "; head" ++ nl) ++ ex_laid ++ s "; tail") = Ok ex_laid_val.
Proof.
  assert (forall c x, forallb (fun y => negb (y =? c)%N) x = true -> c ∉ x) as Hne.
  { intros c x Hx Hin. rewrite forallb_forall in Hx. apply elem_of_list_In, Hx, negb_true_iff, N.eqb_neq in Hin. done. }
  assert (separator 32 /\ separator 44 /\ separator 10) as (S1 & S2 & S3) by (split; [|split]; by apply mem_spec).
  assert (blank (s "; head" ++ nl)) as Hb.
  { apply (blank_comment (s " head") []); [by apply Hne|constructor]. }
  assert (trail (s "; tail")) as Ht.
  { apply (trail_comment [] (s " tail")); [constructor|by apply Hne]. }
  assert (@spells ex_text no_tags Closed ex_laid_val ex_laid) as Hs.
  { eapply spells_eq.
    - apply sp_vec.
      apply (li_cons _ [] Word (VInt 1) (s "1") _ (44%N :: s "2N ; two" ++ nl ++ qt ++ s "a\n\" ++ qt ++ s "b" ++ qt ++ s " #t{:k" ++ nl ++ s "nil} \newline")); [constructor|exact (sp_int _ 1)|done|].
      apply (li_cons _ (s ",") Word (VInt 2) (s "2N") _ (s " ; two" ++ nl ++ qt ++ s "a\n\" ++ qt ++ s "b" ++ qt ++ s " #t{:k" ++ nl ++ s "nil} \newline")); [by repeat constructor|exact (sp_bigint _ 2)|exact S1|].
      apply (li_cons _ (s " ; two" ++ nl) Closed _ (qt ++ s "a\n\" ++ qt ++ s "b" ++ qt) _ (s " #t{:k" ++ nl ++ s "nil} \newline")); [|apply (sp_str _ _ (s "a\n\" ++ qt ++ s "b"))|done|].
      + apply (blank_sep 32); [done|]. apply (blank_comment (s " two") []); [by apply Hne|constructor].
      + apply (str_plain 97); [done|done|]. apply (str_escape 110 10); [by left|]. apply (str_escape 34 34); [apply (bool_decide_unpack _); vm_compute; exact I|].
        apply (str_plain 98); [done|done|]. constructor.
      + apply (li_cons _ (s " ") Closed _ (s "#t{:k" ++ nl ++ s "nil}") _ (s " \newline")); [by repeat constructor| |done|].
        * apply (sp_tag_open _ (s "t") Closed (VMap [(VKw (s "k"), VNone)]) _ 123%N (s ":k" ++ nl ++ s "nil}")); [|by apply mem_spec| |done].
          { split; [done|]. constructor; [|constructor]. by apply mem_false. }
          apply (sp_map _ [(VKw (s "k"), VNone)] (s ":k" ++ nl ++ s "nil")); [|done|by repeat constructor].
          apply (li_cons _ [] Word _ (s ":k") _ (nl ++ s "nil")); [constructor|apply (sp_kw _ (s "k")); by apply word_chars|exact S3|].
          apply (li_cons _ nl Word _ (s "nil") _ []); [by repeat constructor|constructor|done|]. constructor. constructor.
        * apply (li_cons _ (s " ") Word _ (s "\newline") _ []); [by repeat constructor|constructor|done|]. constructor. constructor.
    - reflexivity. }
  split; [exact Hs|]. split; [exact Hb|]. split; [exact Ht|].
  apply (C59_layout no_tags Closed); [exact Hs|exact Hb|exact Ht|by left].
Qed.
Print Assumptions C59_example.

(** ** Example: a float written without a point *)
(** Floats whose texts are an integer, [E] and an integer *)
Definition ex_parse_exp (t : str) : option (Z * Z) :=
  match list_find (fun c => c = 69%N) t with
  | Some (i, _) => match parse_int (firstn i t), parse_int (skipn (i + 1) t) with Some m, Some e => Some (m, e) | _, _ => None end
  | None => None
  end.
Definition ex_exp_text : PyText := {|
  is_alpha := ascii_alpha; is_udigit := is_digit;
  float_str := fun m e => Z_str m ++ s "E" ++ Z_str e; parse_float := ex_parse_exp;
  alpha_ascii := fun c _ => eq_refl; udigit_ascii := fun c _ => eq_refl |}.
Theorem C59_float_example : @spells ex_exp_text no_tags Word (VFloat 15 (-1)) (s "15e-1M") /\
  @loads ex_exp_text no_tags (s "15e-1M") = Ok (VFloat 15 (-1)) /\ @loads ex_exp_text no_tags (s "15e-1") = Ok (VFloat 15 (-1)).
Proof.
  assert (@float_written ex_exp_text (s "15e-1") 15 (-1)) as Hw.
  { split; [|split; [|split]].
    - apply (bool_decide_unpack _). vm_compute. exact I.
    - exists [], 49%N, (s "5e-1"). split; [done|]. split; [by left|done].
    - right. left. apply (bool_decide_unpack _). vm_compute. exact I.
    - reflexivity. }
  assert (@spells ex_exp_text no_tags Word (VFloat 15 (-1)) (s "15e-1M")) as Hm by exact (@sp_decimal ex_exp_text no_tags (s "15e-1") 15 (-1) Hw).
  split; [exact Hm|].
  split.
  - rewrite <-(C59_layout no_tags Word (VFloat 15 (-1)) (s "15e-1M") [] [] Hm); [done|constructor|constructor; constructor|by right].
  - rewrite <-(C59_layout no_tags Word (VFloat 15 (-1)) (s "15e-1") [] [] (@sp_float ex_exp_text no_tags (s "15e-1") 15 (-1) Hw)); [done|constructor|constructor; constructor|by right].
Qed.
Print Assumptions C59_float_example.

(** C49: [build] turns expressions over [Q] into the query which they denote. *)
From Verif Require Import Base Val Query Builder BuilderSpec.

Section bexpr_ind.
  Variable P : bexpr -> Prop.
  Hypothesis H1 : forall n, P (BName n).
  Hypothesis H2 : forall e o, P e -> P (BCall e o).
  Hypothesis H3 : forall e l, P e -> Forall P l -> P (BItems e l).
  Hypothesis H4 : forall x e, P x -> P e -> P (BShift x e).
  Hypothesis H5 : forall e n, P e -> P (BAttr e n).
  Fixpoint bexpr_ind' (e : bexpr) : P e :=
    match e with
    | BName n => H1 n
    | BCall e o => H2 e o (bexpr_ind' e)
    | BItems e l => H3 e l (bexpr_ind' e)
        ((fix f (l : list bexpr) : Forall P l :=
            match l with [] => List.Forall_nil _ | x :: l' => List.Forall_cons _ _ _ (bexpr_ind' x) (f l') end) l)
    | BShift x e => H4 x e (bexpr_ind' x) (bexpr_ind' e)
    | BAttr e n => H5 e n (bexpr_ind' e)
    end.
End bexpr_ind.

Lemma beval_items e l h : beval (BItems e l) h =
  match beval e h with
  | Err x => Err x
  | Ok (r, h1) => match bevals l h1 with Err x => Err x | Ok (rs, h2) => h_getitem r rs h2 end
  end.
Proof.
  cbn [beval]. destruct (beval e h) as [[r h1]|]; [|done].
  match goal with |- match ?a with _ => _ end = _ => assert (a = bevals l h1) as -> end; [|done].
  clear. revert h1. induction l as [|e l IH]; intros h; [done|]. cbn [bevals]. destruct (beval e h) as [[r h1]|]; [|done]. by rewrite IH.
Qed.
Lemma meaning_items e l : meaning (BItems e l) =
  match meaning e, meanings l with
  | Some (Draft n o a None), Some ds => Some (Draft n o a (Some ds))
  | _, _ => None
  end.
Proof.
  cbn [meaning].
  assert (forall l, (fix go (l : list bexpr) : option (list qitem) :=
                          match l with
                          | [] => Some []
                          | e :: l' => match meaning e, go l' with Some d, Some ds => Some (drafted d :: ds) | _, _ => None end
                          end) l = meanings l) as Hx.
  { clear. induction l as [|e l IH]; [done|]. cbn [meanings]. by rewrite IH. }
  by rewrite Hx.
Qed.

(** The handle [r] of [h] stands for [q], by handles which are not [bad] *)
Fixpoint rep (h : heap) (bad : nat -> Prop) (r : nat) (q : qitem) {struct q} : Prop :=
  ~ bad r /\
  match q with
  | QF n o a => h !! r = Some (Handle (Some n) o a None)
  | QL n sub ord o a => ord = false /\ exists rs, h !! r = Some (Handle (Some n) o a (Some rs)) /\
      (fix go (rs : list nat) (l : list qitem) {struct l} : Prop :=
         match l, rs with
         | [], [] => True
         | q :: l', r' :: rs' => rep h (fun x => bad x \/ x = r) r' q /\ go rs' l'
         | _, _ => False
         end) rs sub
  end.
Lemma rep_link h bad r n sub ord o a : rep h bad r (QL n sub ord o a) <->
  ~ bad r /\ ord = false /\ exists rs, h !! r = Some (Handle (Some n) o a (Some rs)) /\ Forall2 (rep h (fun x => bad x \/ x = r)) rs sub.
Proof.
  cbn [rep].
  assert (forall rs, (fix go (rs : list nat) (l : list qitem) {struct l} : Prop :=
         match l, rs with
         | [], [] => True
         | q :: l', r' :: rs' => rep h (fun x => bad x \/ x = r) r' q /\ go rs' l'
         | _, _ => False
         end) rs sub <-> Forall2 (rep h (fun x => bad x \/ x = r)) rs sub) as Hx.
  { induction sub as [|q sub IH]; intros [|r' rs]; split; try done; try (by inversion 1).
    - intros [? ?]. constructor; [done|]. by apply IH.
    - intros Hf. inversion Hf; subst. split; [done|]. by apply IH. }
  setoid_rewrite Hx. done.
Qed.
Lemma rep_frame q : forall h h' bad bad' r, rep h bad r q ->
  (forall x, ~ bad x -> is_Some (h !! x) -> ~ bad' x /\ h' !! x = h !! x) -> rep h' bad' r q.
Proof.
  induction q as [n o a|n sub ord o a IH] using qitem_ind'; intros h h' bad bad' r.
  - cbn [rep]. intros [Hb Hr] Hf. destruct (Hf r Hb) as [Hb' Heq]; [by eexists|]. split; [done|]. by rewrite Heq.
  - rewrite !rep_link. intros (Hb & Ho & rs & Hr & Hs) Hf. destruct (Hf r Hb) as [Hb' Heq]; [by eexists|].
    split; [done|]. split; [done|]. exists rs. split; [by rewrite Heq|].
    assert (forall x, ~ (bad x \/ x = r) -> is_Some (h !! x) -> ~ (bad' x \/ x = r) /\ h' !! x = h !! x) as Hf'.
    { intros x Hx Hs'. destruct (Hf x) as [? ?]; [tauto|done|]. split; [|done]. intros [?| ->]; [done|]. tauto. }
    clear Hr Heq. induction Hs as [|r' q rs sub Hq Hs IHs]; [constructor|]. inversion IH; subst.
    constructor; [|by apply IHs]. by eauto.
Qed.
Lemma rep_Some h bad r q : rep h bad r q -> is_Some (h !! r).
Proof. destruct q; [intros [_ ?]; by eexists|]. rewrite rep_link. intros (_ & _ & ? & ? & _). by eexists. Qed.

(** What evaluation does to the heap *)
Definition fresh (h h' : heap) : Prop := length h <= length h' /\ forall x, x < length h -> h' !! x = h !! x.
Lemma fresh_refl h : fresh h h. Proof. by split. Qed.
Lemma fresh_trans h1 h2 h3 : fresh h1 h2 -> fresh h2 h3 -> fresh h1 h3.
Proof. intros [L1 F1] [L2 F2]. split; [lia|]. intros x Hx. rewrite F2 by lia. by apply F1. Qed.
Lemma fresh_app h l : fresh h (h ++ l).
Proof. split; [rewrite app_length; lia|]. intros x Hx. by apply lookup_app_l. Qed.
Lemma fresh_insert h h' r x : fresh h h' -> length h <= r -> fresh h (<[r := x]> h').
Proof. intros [L F] Hr. split; [by rewrite insert_length|]. intros y Hy. rewrite list_lookup_insert_ne by lia. by apply F. Qed.

Definition root (h : heap) : Prop := h !! 0 = Some (Handle None None None None).
Lemma root_len h : root h -> 0 < length h.
Proof. intros Hr. by apply lookup_lt_Some in Hr. Qed.
Lemma root_fresh h h' : root h -> fresh h h' -> root h'.
Proof. intros Hr [_ F]. red. rewrite F; [done|]. by apply root_len. Qed.

Definition old (h : heap) (x : nat) : Prop := x < length h.
Definition good (h : heap) (m : option draft) (x : res (nat * heap)) : Prop :=
  match m with
  | None => x = Err AssertionError
  | Some d => exists r h', x = Ok (r, h') /\ fresh h h' /\ rep h' (old h) r (drafted d)
  end.
Definition goods (h : heap) (m : option (list qitem)) (x : res (list nat * heap)) : Prop :=
  match m with
  | None => x = Err AssertionError
  | Some ds => exists rs h', x = Ok (rs, h') /\ fresh h h' /\ Forall2 (rep h' (old h)) rs ds
  end.

Lemma rep_later h0 h h' r q : rep h (old h0) r q -> fresh h0 h -> fresh h h' -> rep h' (old h0) r q.
Proof.
  intros Hr [L0 F0] [L F]. eapply rep_frame; [done|]. cbn beta. intros x Hb [y Hy]. apply lookup_lt_Some in Hy. split; [done|]. by apply F.
Qed.
Lemma rep_items d n o a ds : d = Draft n o a (Some ds) -> forall h bad r, rep h bad r (drafted d) <->
  ~ bad r /\ exists rs, h !! r = Some (Handle (Some n) o a (Some rs)) /\ Forall2 (rep h (fun x => bad x \/ x = r)) rs ds.
Proof. intros -> h bad r. unfold drafted. cbn [dr_items dr_name dr_opts dr_alias]. rewrite rep_link. naive_solver. Qed.
(** A handle which stands for a draft, field by field *)
Lemma rep_draft h bad r n o a l : rep h bad r (drafted (Draft n o a l)) <->
  ~ bad r /\ exists rs, h !! r = Some (Handle (Some n) o a rs) /\
    match l, rs with None, None => True | Some ds, Some rs => Forall2 (rep h (fun x => bad x \/ x = r)) rs ds | _, _ => False end.
Proof.
  unfold drafted. cbn [dr_items dr_name dr_opts dr_alias]. destruct l as [ds|].
  - rewrite rep_link. split.
    + intros (? & _ & rs & ? & ?). split; [done|]. by exists (Some rs).
    + intros (? & [rs|] & ? & ?); [|done]. split; [done|]. split; [done|]. by exists rs.
  - cbn [rep]. split; [intros [? ?]; split; [done|]; by exists None|]. by intros (? & [rs|] & ? & ?).
Qed.

Lemma getattr_root h n : root h -> h_getattr 0 n h = Ok (length h, h ++ [Handle (Some n) None None None]).
Proof. intros Hr. unfold h_getattr. by rewrite Hr. Qed.

Lemma beval_good e : forall h, root h -> good h (meaning e) (beval e h).
Proof.
  induction e as [n|e o IH|e l IH IHl|x e IHx IH|e n IH] using bexpr_ind'; intros h Hroot.
  - cbn [meaning beval good]. rewrite getattr_root by done. eexists _, _. split; [done|]. split; [apply fresh_app|].
    apply rep_draft. split; [unfold old; lia|]. exists None. split; [|done]. by rewrite list_lookup_middle.
  - specialize (IH h Hroot). cbn [meaning beval]. destruct (meaning e) as [[n o' a l]|]; cbn [good] in IH |- *; [|by rewrite IH].
    destruct IH as (r & h' & -> & Hf & Hr). pose proof Hr as Hr0. apply rep_draft in Hr as (Hb & rs & Hr & Hl). unfold h_call. rewrite Hr. cbn [h_opts h_name h_alias h_items].
    destruct o' as [o'|]; [done|]. cbn [good]. eexists _, _. split; [done|]. unfold old in Hb. split; [apply fresh_insert; [done|lia]|].
    assert (r < length h') as Hlt by by apply lookup_lt_Some in Hr.
    apply rep_draft. split; [done|]. exists rs. split; [by rewrite list_lookup_insert|].
    destruct l as [ds|], rs as [rs|]; try done. eapply Forall2_impl; [exact Hl|]. intros r' q Hq. eapply rep_frame; [exact Hq|].
    cbn beta. intros x Hx _. split; [done|]. rewrite list_lookup_insert_ne; [done|]. intros ->. tauto.
  - specialize (IH h Hroot). rewrite meaning_items, beval_items. destruct (meaning e) as [[n o a l0]|]; cbn [good] in IH; [|by rewrite IH].
    destruct IH as (r & h' & -> & Hf & Hr).
    assert (forall h, root h -> goods h (meanings l) (bevals l h)) as Hls.
    { clear -IHl. induction IHl as [|e l IH _ IHl]; intros h Hroot; [exists [], h; by split_and!|].
      cbn [meanings bevals]. specialize (IH h Hroot). destruct (meaning e) as [d|]; cbn [good] in IH; [|by rewrite IH].
      destruct IH as (r & h' & -> & Hf & Hr). specialize (IHl h' (root_fresh _ _ Hroot Hf)). destruct (meanings l) as [ds|]; cbn [goods] in IHl |- *; [|by rewrite IHl].
      destruct IHl as (rs & h2 & -> & Hf2 & Hrs). eexists _, _. split; [done|]. split; [by eapply fresh_trans|].
      constructor; [by eapply rep_later|]. eapply Forall2_impl; [exact Hrs|]. intros r' q Hq. eapply rep_frame; [exact Hq|].
      cbn beta. intros x Hx _. split; [|done]. unfold old in *. destruct Hf. lia. }
    assert (root h') as Hroot' by by eapply root_fresh. specialize (Hls h' Hroot').
    destruct (meanings l) as [ds|]; cbn [goods] in Hls.
    + destruct Hls as (rs & h2 & -> & Hf2 & Hrs). pose proof (rep_later _ _ _ _ _ Hr Hf Hf2) as Hr2. apply rep_draft in Hr2 as (Hb & rs0 & Hr2 & Hl).
      unfold h_getitem. rewrite Hr2. cbn [h_opts h_name h_alias h_items]. destruct l0 as [ds0|], rs0 as [rs0|]; try done. cbn [good].
      eexists _, _. split; [done|]. unfold old in Hb. split; [apply fresh_insert; [by eapply fresh_trans|lia]|].
      assert (r < length h2) as Hlt by by apply lookup_lt_Some in Hr2. assert (r < length h') as Hlt' by (apply rep_draft in Hr as (_ & ? & Hr & _); by apply lookup_lt_Some in Hr).
      apply rep_draft. split; [done|]. exists (Some rs). split; [by rewrite list_lookup_insert|].
      eapply Forall2_impl; [exact Hrs|]. intros r' q Hq. eapply rep_frame; [exact Hq|].
      cbn beta. intros x Hx _. unfold old in *. destruct Hf as [Hlen _]. split; [lia|]. rewrite list_lookup_insert_ne; [done|]. lia.
    + rewrite Hls. destruct l0; done.
  - specialize (IHx h Hroot). cbn [meaning beval]. destruct (meaning x) as [[nx ox ax lx]|]; cbn [good] in IHx; [|by rewrite IHx].
    destruct IHx as (rx & h1 & -> & Hf1 & Hrx).
    assert (root h1) as Hroot1 by by eapply root_fresh. specialize (IH h1 Hroot1). destruct (meaning e) as [[n o a' l]|]; cbn [good] in IH |- *; [|by rewrite IH].
    destruct IH as (r & h2 & -> & Hf & Hr). apply rep_draft in Hr as (Hb & rs & Hr & Hl). unfold h_lshift. rewrite Hr.
    apply rep_draft in Hrx as (Hbx & rsx & Hrx & Hlx). assert (rx < length h1) as Hltx by by apply lookup_lt_Some in Hrx.
    assert (h2 !! rx = Some (Handle (Some nx) ox ax rsx)) as ->.
    { destruct Hf as [_ F]. by rewrite F. }
    cbn [h_opts h_name h_alias h_items].
    assert (truthy_opts ox || truthy_alias ax || truthy_items rsx = negb (bare (Draft nx ox ax lx))) as ->.
    { unfold bare. cbn [dr_opts dr_alias dr_items].
      assert (truthy_items rsx = negb match lx with None | Some [] => true | _ => false end) as ->.
      { destruct lx as [ds|], rsx as [rsx|]; try done. inversion Hlx; done. }
      destruct ox as [[|? ?]|], ax as [[|? ?]|], lx as [[|? ?]|]; done. }
    destruct (bare _); cbn [negb good dr_name]; [|done].
    unfold alloc. eexists _, _. split; [done|].
    assert (fresh h h2) as Hfh by by eapply fresh_trans. split; [eapply fresh_trans; [done|apply fresh_app]|].
    apply rep_draft. destruct Hfh as [Hlen _]. split; [unfold old; lia|]. exists rs. split; [by rewrite list_lookup_middle|].
    destruct l as [ds|], rs as [rs|]; try done. eapply Forall2_impl; [exact Hl|]. intros r' q Hq. eapply rep_frame; [exact Hq|].
    cbn beta. intros y Hx [z Hy]. assert (y < length h2) as Hlt by by apply lookup_lt_Some in Hy. unfold old in *. destruct Hf1 as [Hl1 _].
    split; [|by apply lookup_app_l]. intros [?|?]; [|lia]. apply Hx. left. lia.
  - specialize (IH h Hroot). cbn [meaning beval good]. destruct (meaning e) as [[n0 o a l]|]; cbn [good] in IH; [|by rewrite IH].
    destruct IH as (r & h1 & -> & Hf & Hr). apply rep_draft in Hr as (Hb & rs & Hr & Hl). unfold h_getattr. by rewrite Hr.
Qed.
Lemma bevals_goods l : forall h, root h -> goods h (meanings l) (bevals l h).
Proof.
  induction l as [|e l IHl]; intros h Hroot; [exists [], h; by split_and!|].
  cbn [meanings bevals]. pose proof (beval_good e h Hroot) as IH. destruct (meaning e) as [d|]; cbn [good] in IH; [|by rewrite IH].
  destruct IH as (r & h' & -> & Hf & Hr). specialize (IHl h' (root_fresh _ _ Hroot Hf)). destruct (meanings l) as [ds|]; cbn [goods] in IHl |- *; [|by rewrite IHl].
  destruct IHl as (rs & h2 & -> & Hf2 & Hrs). eexists _, _. split; [done|]. split; [by eapply fresh_trans|].
  constructor; [by eapply rep_later|]. eapply Forall2_impl; [exact Hrs|]. intros r' q Hq. eapply rep_frame; [exact Hq|].
  cbn beta. intros x Hx _. split; [|done]. unfold old in *. destruct Hf. lia.
Qed.

Lemma max_list_In x l : x ∈ l -> x <= max_list l.
Proof. intros Hx. induction l; [by apply not_elem_of_nil in Hx|]. cbn. apply elem_of_cons in Hx as [->|Hx]; [lia|]. specialize (IHl Hx). lia. Qed.
Lemma build_rep fuel : forall h bad rs ds, Forall2 (rep h bad) rs ds -> ndepth (QN ds false) < fuel -> build fuel h rs = Ok (QN ds false).
Proof.
  induction fuel as [|fuel IH]; intros h bad rs ds Hr Hlt; [lia|]. cbn [build].
  match goal with |- context [mapR ?f rs] => assert (mapR f rs = Ok ds) as ->; [|done] end.
  apply mapR_ok. eapply Forall2_impl with (P := fun r q => rep h bad r q /\ qdepth q < S fuel).
  - unfold ndepth in Hlt. cbn [qfields] in Hlt. clear IH. revert Hlt. induction Hr; intros Hlt; [constructor|]. cbn in Hlt. constructor; [split; [done|lia]|]. apply IHHr. lia.
  - intros r q [Hq Hd]. destruct q as [n o a|n sub ord o a].
    + destruct Hq as [_ ->]. done.
    + apply rep_link in Hq as (_ & -> & rs' & -> & Hs). cbn [h_name h_items h_opts h_alias].
      rewrite (IH _ _ _ _ Hs); [done|]. cbn [qdepth] in Hd. unfold ndepth. cbn [qfields]. lia.
Qed.

(** C49: whatever was built before (any heap where [Q] itself is intact), [build] of a list of
    expressions is the query which they denote, in their order; options or members given twice are
    refused with AssertionError; and no handle which existed before is changed. *)
Theorem C49_builds h l ds : h !! 0 = Some (Handle None None None None) -> meanings l = Some ds ->
  forall fuel, ndepth (QN ds false) < fuel -> exists h', build_exprs fuel l h = Ok (QN ds false, h') /\ forall r x, h !! r = Some x -> h' !! r = Some x.
Proof.
  intros Hr Hm fuel Hf. pose proof (bevals_goods l h Hr) as Hg. rewrite Hm in Hg. destruct Hg as (rs & h' & He & Hfr & Hrs).
  exists h'. split; [unfold build_exprs; rewrite He; by rewrite (build_rep _ _ _ _ _ Hrs Hf)|].
  intros r x Hx. destruct Hfr as [_ F]. rewrite F; [done|]. by apply lookup_lt_Some in Hx.
Qed.
Theorem C49_refuses h l fuel : h !! 0 = Some (Handle None None None None) -> meanings l = None -> build_exprs fuel l h = Err AssertionError.
Proof. intros Hr Hm. pose proof (bevals_goods l h Hr) as Hg. rewrite Hm in Hg. unfold build_exprs. by rewrite Hg. Qed.
(** C49: so what was built before does not matter *)
Theorem C49_independent h l l' ds ds' fuel : h !! 0 = Some (Handle None None None None) -> meanings l = Some ds -> meanings l' = Some ds' ->
  ndepth (QN ds false) < fuel -> ndepth (QN ds' false) < fuel ->
  exists h1 h2, build_exprs fuel l h = Ok (QN ds false, h1) /\ build_exprs fuel l' h1 = Ok (QN ds' false, h2).
Proof.
  intros Hr Hm Hm' Hf Hf'. destruct (C49_builds h l ds Hr Hm fuel Hf) as (h1 & H1 & Hk).
  destruct (C49_builds h1 l' ds' (Hk _ _ Hr) Hm' fuel Hf') as (h2 & H2 & _). by exists h1, h2.
Qed.
(** Every query can be written: names, options, aliases, nesting *)
Fixpoint written (q : qitem) : bexpr :=
  match q with
  | QF n o a => let e := match o with Some o => BCall (BName n) o | None => BName n end in match a with Some a => BShift (BName a) e | None => e end
  | QL n sub _ o a => let e := BItems (match o with Some o => BCall (BName n) o | None => BName n end) (map written sub) in
                      match a with Some a => BShift (BName a) e | None => e end
  end.
Fixpoint unord (q : qitem) : Prop := match q with QF _ _ _ => True | QL _ sub ord _ _ => ord = false /\ fold_right and True (map unord sub) end.
Lemma written_meaning q : unord q -> exists d, meaning (written q) = Some d /\ drafted d = q.
Proof.
  induction q as [n o a|n sub ord o a IH] using qitem_ind'.
  - intros _. destruct o, a; cbn; eexists; split; done.
  - cbn [unord]. intros [-> Hs]. assert (meanings (map written sub) = Some sub) as Hm.
    { clear n o a. induction IH as [|q sub Hq _ IHs]; [done|]. cbn in Hs. destruct Hs as [Hu Hs]. cbn [map meanings].
      destruct (Hq Hu) as (d & -> & ->). by rewrite (IHs Hs). }
    cbn [written]. destruct a as [a|].
    + cbn [meaning]. fold meaning. change (exists d, match meaning (BItems (match o with Some o => BCall (BName n) o | None => BName n end) (map written sub)) with Some (Draft n o _ l) => Some (Draft n o (Some a) l) | None => None end = Some d /\ drafted d = QL n sub false o (Some a)).
      rewrite meaning_items, Hm. destruct o; cbn; eexists; split; done.
    + rewrite meaning_items, Hm. destruct o; cbn; eexists; split; done.
Qed.
Theorem C49_every_query ds h : h !! 0 = Some (Handle None None None None) -> fold_right and True (map unord ds) ->
  exists fuel h', build_exprs fuel (map written ds) h = Ok (QN ds false, h').
Proof.
  intros Hr Hu. assert (meanings (map written ds) = Some ds) as Hm.
  { clear Hr. induction ds as [|q ds IH]; [done|]. cbn in Hu. destruct Hu as [Hq Hu]. cbn [map meanings]. destruct (written_meaning q Hq) as (d & -> & ->). by rewrite (IH Hu). }
  destruct (C49_builds h _ _ Hr Hm (S (ndepth (QN ds false)))) as (h' & H1 & _); [lia|]. eauto.
Qed.

(** False of the code: a handle kept in a variable is changed in place, so an expression made from
    it changes the variable.  [x = Q.foo; build([x, x[Q.y]])] has the link twice and no field foo. *)
Theorem C49_shared_handle_refuted :
  match h_getattr 0 (s "foo") heap0 with
  | Ok (x, h1) =>
      h1 !! x = Some (Handle (Some (s "foo")) None None None) /\
      match h_getattr 0 (s "y") h1 with
      | Ok (y, h2) => match h_getitem x [y] h2 with
                      | Ok (z, h3) => build 2 h3 [x; z] =
                          Ok (QN [QL (s "foo") [QF (s "y") None None] false None None; QL (s "foo") [QF (s "y") None None] false None None] false)
                      | Err _ => False end
      | Err _ => False end
  | Err _ => False
  end.
Proof. vm_compute. done. Qed.
(** False of the code: [x = Q.foo; build([x(a=1), x(b=2)])] is refused *)
Theorem C49_shared_options_refuted :
  match h_getattr 0 (s "foo") heap0 with
  | Ok (x, h1) => match h_call x [(s "a", VInt 1)] h1 with
                  | Ok (_, h2) => h_call x [(s "b", VInt 2)] h2 = Err AssertionError
                  | Err _ => False end
  | Err _ => False
  end.
Proof. reflexivity. Qed.
(** False of the code: [x = Q.foo; build([x[x]])] does not end *)
Theorem C49_cycle_refuted :
  match h_getattr 0 (s "foo") heap0 with
  | Ok (x, h1) => match h_getitem x [x] h1 with
                  | Ok (y, h2) => forall fuel, build fuel h2 [y] = Err OutOfFuel
                  | Err _ => False end
  | Err _ => False
  end.
Proof. cbn. intros fuel. induction fuel as [|fuel IH]; [done|]. cbn. by rewrite IH. Qed.

(** Example: the query of the documentation of [build] *)
Theorem C49_example : exists h',
  build_exprs 2 [BName (s "foo"); BItems (BCall (BName (s "bar")) [(s "arg", VInt 42)]) [BName (s "baz")]; BShift (BName (s "aliased")) (BName (s "field"))] heap0 =
  Ok (QN [QF (s "foo") None None; QL (s "bar") [QF (s "baz") None None] false (Some [(s "arg", VInt 42)]) None; QF (s "field") None (Some (s "aliased"))] false, h')
  /\ h' !! 0 = Some (Handle None None None None).
Proof. eexists. split; vm_compute; reflexivity. Qed.
(** Example: [Q.a(x=1) << Q.b] and [Q.a.b] are refused, [Q.a() << (Q.c << Q.b)] has the alias a *)
Theorem C49_refused_example :
  build_exprs 2 [BShift (BCall (BName (s "a")) [(s "x", VInt 1)]) (BName (s "b"))] heap0 = Err AssertionError /\
  build_exprs 2 [BAttr (BName (s "a")) (s "b")] heap0 = Err AssertionError /\
  exists h', build_exprs 2 [BShift (BCall (BName (s "a")) []) (BShift (BName (s "c")) (BName (s "b")))] heap0 =
    Ok (QN [QF (s "b") None (Some (s "a"))] false, h').
Proof.
  assert (meanings [BShift (BCall (BName (s "a")) [(s "x", VInt 1)]) (BName (s "b"))] = None) as H1 by done.
  split; [by apply C49_refuses|]. split; [by apply C49_refuses|]. by eexists.
Qed.

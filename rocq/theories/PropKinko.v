(** C54: the text of the types of a graph determines them. *)
From Verif Require Import Base Val Types Query Graph Kinko KinkoSpec.

(** ** Streams of symbols *)
Inductive sym := NL (i : nat) (w : str) | TOK (w : str) | DSC (d : str) | BL.
Definition txt (x : sym) : str :=
  match x with
  | NL i w => 10%N :: spaces (2 * i) ++ w
  | TOK w => 32%N :: w
  | DSC d => s "  ; " ++ d
  | BL => [10%N]
  end.
Definition render (l : list sym) : str := concat (map txt l).
Definition ends (l : list sym) : Prop := match l with [] | NL _ _ :: _ | BL :: _ => True | _ => False end.
Fixpoint good (l : list sym) : Prop :=
  match l with
  | [] => True
  | NL _ w :: r | TOK w :: r => word w /\ good r
  | DSC d :: r => 10%N ∉ d /\ ends r /\ good r
  | BL :: r => ends r /\ good r
  end.

Lemma span_inj (P : N -> Prop) (a b x y : str) :
  Forall P a -> Forall P b -> (x = [] \/ exists c x', x = c :: x' /\ ~ P c) -> (y = [] \/ exists c y', y = c :: y' /\ ~ P c) ->
  a ++ x = b ++ y -> a = b /\ x = y.
Proof.
  intros Ha. revert b. induction Ha as [|c a Hc Ha IH]; intros b Hb Hx Hy E; destruct Hb as [|c' b Hc' Hb]; cbn in *.
  - done.
  - destruct Hx as [->|(c & x' & -> & N)]; [done|]. injection E as -> E. done.
  - destruct Hy as [->|(c' & y' & -> & N)]; [done|]. injection E as <- E. done.
  - injection E as <- E. destruct (IH b Hb Hx Hy E) as [-> ->]. done.
Qed.
Lemma render_cons x l : render (x :: l) = txt x ++ render l.
Proof. done. Qed.
Lemma render_app a b : render (a ++ b) = render a ++ render b.
Proof. unfold render. by rewrite map_app, concat_app. Qed.
Lemma render_sep l : good l -> render l = [] \/ exists c x, render l = c :: x /\ ~ (c <> 32%N /\ c <> 10%N).
Proof.
  destruct l as [|[i w|w|d|] r]; intros G; [by left|right..]; rewrite render_cons; cbn [txt app]; eexists _, _; (split; [reflexivity|]); vm_compute; intuition congruence.
Qed.
Lemma render_ends l : ends l -> render l = [] \/ exists c x, render l = c :: x /\ ~ (c <> 10%N).
Proof.
  destruct l as [|[i w|w|d|] r]; intros G; try done; [by left|right..]; rewrite render_cons; cbn [txt app]; eexists _, _; (split; [reflexivity|]); vm_compute; intuition congruence.
Qed.
Lemma word_chars w : word w -> Forall (fun c => c <> 32%N /\ c <> 10%N) w.
Proof. intros (N & A & B). apply Forall_forall. intros c Hc. split; intros ->; done. Qed.
Lemma line_chars d : 10%N ∉ d -> Forall (fun c => c <> 10%N) d.
Proof. intros A. apply Forall_forall. by intros c Hc ->. Qed.
Lemma spaces_inj i j (x y : str) :
  (exists c x', x = c :: x' /\ c <> 32%N) -> (exists c y', y = c :: y' /\ c <> 32%N) ->
  spaces (2 * i) ++ x = spaces (2 * j) ++ y -> i = j /\ x = y.
Proof.
  intros (c & x' & -> & N) (c' & y' & -> & N') E.
  destruct (span_inj (fun c => c = 32%N) (spaces (2 * i)) (spaces (2 * j)) (c :: x') (c' :: y')) as [A B]; eauto.
  - apply Forall_forall. intros z Hz. by apply elem_of_replicate in Hz as [-> _].
  - apply Forall_forall. intros z Hz. by apply elem_of_replicate in Hz as [-> _].
  - split; [|done]. apply (f_equal length) in A. unfold spaces in A. rewrite !replicate_length in A. lia.
Qed.
Lemma word_head w (x : str) : word w -> exists c y, w ++ x = c :: y /\ c <> 32%N /\ c <> 10%N.
Proof. intros W. pose proof (word_chars w W) as F. destruct w as [|c w]; [by destruct W|]. inversion F as [|? ? [? ?] ?]; subst. by exists c, (w ++ x). Qed.

Lemma pad_head n c (z x : str) : c <> 10%N -> spaces n ++ c :: z = x -> ~ (x = [] \/ exists c' y, x = c' :: y /\ ~ (c' <> 10%N)).
Proof.
  intros N <- [E|(c' & y & E & N')].
  - by destruct n.
  - apply N'. intros ->. destruct n as [|n]; cbn in E; [injection E as E _; done|]. discriminate E.
Qed.
Lemma render_inj a b : good a -> good b -> render a = render b -> a = b.
Proof.
  revert b. induction a as [|x a IH]; intros [|y b] Ga Gb E.
  - done.
  - rewrite render_cons in E. by destruct y.
  - rewrite render_cons in E. by destruct x.
  - rewrite !render_cons in E. destruct x as [i w|w|d|], y as [j w'|w'|d'|]; cbn [txt] in E; cbn [good] in Ga, Gb; try discriminate E.
    + destruct Ga as [W Ga], Gb as [W' Gb]. injection E as E. rewrite <- !app_assoc in E.
      destruct (word_head w (render a) W) as (c & z & E1 & N1 & _). destruct (word_head w' (render b) W') as (c' & z' & E2 & N2 & _).
      apply spaces_inj in E as [-> E]; [|eauto..].
      destruct (span_inj _ _ _ _ _ (word_chars w W) (word_chars w' W') (render_sep a Ga) (render_sep b Gb) E) as [-> E'].
      by rewrite (IH b Ga Gb E').
    + destruct Ga as [W Ga], Gb as [En Gb]. exfalso. injection E as E. rewrite <- app_assoc in E.
      destruct (word_head w (render a) W) as (c & z & E1 & N1 & N2). rewrite E1 in E.
      by apply (pad_head _ c z _ N2 E), render_ends.
    + destruct Ga as [W Ga], Gb as [W' Gb]. injection E as E.
      destruct (span_inj _ _ _ _ _ (word_chars w W) (word_chars w' W') (render_sep a Ga) (render_sep b Gb) E) as [-> E'].
      by rewrite (IH b Ga Gb E').
    + destruct Ga as [W Ga]. exfalso. injection E as E. destruct (word_head w (render a) W) as (c & z & E1 & N1 & N2). rewrite E1 in E.
      cbn in E. injection E as E _. done.
    + destruct Gb as [W Gb]. exfalso. injection E as E. destruct (word_head w' (render b) W) as (c & z & E1 & N1 & N2). rewrite E1 in E.
      cbn in E. injection E as E _. by symmetry in E.
    + destruct Ga as (N & En & Ga), Gb as (N' & En' & Gb). rewrite <- !app_assoc in E. apply app_inv_head in E.
      destruct (span_inj _ _ _ _ _ (line_chars d N) (line_chars d' N') (render_ends a En) (render_ends b En') E) as [-> E'].
      by rewrite (IH b Ga Gb E').
    + destruct Gb as [W Gb], Ga as [En Ga]. exfalso. injection E as E. rewrite <- app_assoc in E.
      destruct (word_head w' (render b) W) as (c & z & E1 & N1 & N2). rewrite E1 in E.
      by apply (pad_head _ c z _ N2 (eq_sym E)), render_ends.
    + destruct Ga as [? Ga], Gb as [? Gb]. injection E as E. by rewrite (IH b Ga Gb E).
Qed.

(** ** The printer writes a stream *)
Definition flat (p : printer) : str := concat (map (cons 10%N) (out_lines p)).
Arguments flat : simpl never.
Definition Rep (p : printer) (l : list sym) (b : bool) : Prop :=
  flat p = render l /\ (forall i d, dget i p.2 = Some d -> i < length p.1) /\
  (b = false -> dget (length p.1 - 1) p.2 = None).
Lemma flat_push x ls ds : (forall i d, dget i ds = Some d -> i < length ls) -> flat (x :: ls, ds) = flat (ls, ds) ++ 10%N :: x.
Proof.
  intros B. unfold flat, out_lines. cbn [fst snd rev]. rewrite imap_app, map_app, concat_app. f_equal. cbn.
  rewrite app_nil_r. f_equal. unfold out_line. rewrite Nat.add_0_r, rev_length.
  destruct (dget (length ls) ds) as [d|] eqn:E; [|done]. apply B in E. lia.
Qed.
Lemma rep_push x y p l b : 10%N :: x = txt y -> Rep p l b -> Rep (x :: p.1, p.2) (l ++ [y]) false.
Proof.
  intros Ex (F & B & _). destruct p as [ls ds]. cbn in *. split_and!; cbn.
  - etransitivity; [exact (flat_push x ls ds B)|]. rewrite render_app. f_equal; [exact F|]. cbn. by rewrite app_nil_r.
  - intros i d Hi. apply B in Hi. lia.
  - intros _. destruct (dget (length ls - 0) ds) as [d|] eqn:E; [|done]. apply B in E. lia.
Qed.
Lemma rep_call i w p l b : Rep p l b -> Rep (print_call i w p) (l ++ [NL i w]) false.
Proof. by apply rep_push. Qed.
Lemma rep_newline p l b : Rep p l b -> Rep (newline p) (l ++ [BL]) false.
Proof. by apply rep_push. Qed.
Lemma flat_last x ls ds : flat (x :: ls, ds) = concat (map (cons 10%N) (imap (out_line ds) (rev ls))) ++ 10%N :: out_line ds (length ls) x.
Proof.
  unfold flat, out_lines. cbn [fst snd rev]. rewrite imap_app, map_app, concat_app. f_equal. cbn.
  by rewrite app_nil_r, Nat.add_0_r, rev_length.
Qed.
Lemma rep_more w p l : p.1 <> [] -> Rep p l false -> exists p', print_more w p = Ok p' /\ Rep p' (l ++ [TOK w]) false /\ p'.1 <> [].
Proof.
  destruct p as [[|x ls] ds]; [done|]. intros _ (F & B & N). eexists. split; [reflexivity|]. split; [|done]. split_and!; cbn in *.
  - rewrite render_app, <- F, !flat_last, <- app_assoc. f_equal. rewrite Nat.sub_0_r in N. unfold out_line. rewrite N by done. cbn.
    by rewrite app_nil_r.
  - done.
  - done.
Qed.
Definition dsc (d : doc) : list sym := match d with Some x => [DSC x] | None => [] end.
Definition has_doc (d : doc) : bool := match d with Some _ => true | None => false end.
Lemma rep_describe d p l : p.1 <> [] -> Rep p l false -> Rep (describe d p) (l ++ dsc d) (has_doc d).
Proof.
  destruct d as [x|]; cbn [describe dsc has_doc]; [|by rewrite app_nil_r].
  destruct p as [[|y ls] ds]; [done|]. intros _ (F & B & N). cbn in *. rewrite Nat.sub_0_r in *. specialize (N eq_refl).
  split_and!; cbn.
  - rewrite render_app, <- F, !flat_last, <- app_assoc. f_equal.
    + f_equal. f_equal. apply imap_ext. intros i z Hz. unfold out_line. rewrite dget_dset_ne; [done|].
      apply lookup_lt_Some in Hz. rewrite rev_length in Hz. lia.
    + unfold out_line. rewrite N, dget_dset_eq. cbn. by rewrite app_nil_r.
  - intros i d. destruct (decide (i = length ls)) as [->|Ne]; [lia|]. rewrite dget_dset_ne by done. apply B.
  - done.
Qed.
Lemma more_describe d w p p' : print_more w p = Ok p' -> print_more w (describe d p) = Ok (describe d p').
Proof. destruct p as [[|x ls] ds]; [done|]. intros [= <-]. by destruct d. Qed.

(** ** The streams of types *)
Definition tok_of (t : ty) : str :=
  match t with TBool => s "Boolean" | TStr => s "String" | TInt => s "Integer" | TRef n => n | _ => s "Unknown" end.
Definition container (t : ty) : bool := match t with TRec _ | TSeq _ | TOpt _ | TMap _ _ => true | _ => false end.
Fixpoint sty (i : nat) (t : ty) : list sym :=
  match t with
  | TRec fs => NL (S i) (s "Record") :: concat (map (fun p => NL (S (S i)) (s ":" ++ p.1) :: sty (S (S i)) p.2) fs)
  | TSeq u => NL (S i) (s "List") :: sty (S i) u
  | TOpt u => NL (S i) (s "Option") :: sty (S i) u
  | TMap k v => NL (S i) (s "Dict") :: sty (S i) k ++ sty (S i) v
  | _ => [TOK (tok_of t)]
  end.
Lemma call_ne i w p : (print_call i w p).1 <> [].
Proof. done. Qed.
Lemma describe_ne d p : p.1 <> [] -> (describe d p).1 <> [].
Proof. by destruct d. Qed.
Lemma line_tok t : container t = false -> no_function t = true -> line_of t = Ok (tok_of t).
Proof. by destruct t. Qed.
Lemma simple_arg i t p : container t = false -> print_arg i t p = match line_of t with Ok w => print_more w p | Err e => Err e end.
Proof. by destruct t. Qed.
Lemma simple_sty i t : container t = false -> sty i t = [TOK (tok_of t)].
Proof. by destruct t. Qed.
Definition arg_of (t : ty) : Prop := forall i p l b, no_function t = true -> p.1 <> [] -> Rep p l b -> (container t = false -> b = false) ->
  exists p', print_arg i t p = Ok p' /\ Rep p' (l ++ sty i t) false /\ p'.1 <> [].
Lemma simple_arg_of t : container t = false -> arg_of t.
Proof.
  intros C i p l b F Ne R Hb. rewrite Hb in R by done. rewrite simple_arg, line_tok, simple_sty by done. by apply rep_more.
Qed.
Lemma rep_arg t : arg_of t.
Proof.
  induction t as [| | | | |n|t IH|t IH|k v IHk IHv|fs IH|args _] using ty_ind'; try (by apply simple_arg_of);
    intros i p l b F Ne R Hb; cbn [no_function] in F; cbn [print_arg sty].
  - destruct (IH (S i) _ _ _ F (call_ne (S i) (s "Option") p) (rep_call (S i) (s "Option") p l b R) (fun _ => eq_refl)) as (p' & E & R' & N').
    exists p'. split; [exact E|]. split; [|done]. by rewrite <- app_assoc in R'.
  - destruct (IH (S i) _ _ _ F (call_ne (S i) (s "List") p) (rep_call (S i) (s "List") p l b R) (fun _ => eq_refl)) as (p' & E & R' & N').
    exists p'. split; [exact E|]. split; [|done]. by rewrite <- app_assoc in R'.
  - apply andb_prop in F as [Fk Fv].
    destruct (IHk (S i) _ _ _ Fk (call_ne (S i) (s "Dict") p) (rep_call (S i) (s "Dict") p l b R) (fun _ => eq_refl)) as (p' & E & R' & N').
    destruct (IHv (S i) _ _ _ Fv N' R' (fun _ => eq_refl)) as (p'' & E' & R'' & N'').
    exists p''. rewrite E. split; [exact E'|]. split; [|done]. by rewrite <- !app_assoc in R''.
  - set (go := fix go (l : list (str * ty)) (p : printer) : res printer :=
         match l with
         | [] => Ok p
         | (n, u) :: l' => match print_arg (S (S i)) u (print_call (S (S i)) (s ":" ++ n) p) with Ok p' => go l' p' | Err e => Err e end
         end).
    assert (G : forall p l b, p.1 <> [] -> Rep p l b -> (fs = [] -> b = false) -> exists p', go fs p = Ok p' /\ Rep p' (l ++ concat (map (fun p => NL (S (S i)) (s ":" ++ p.1) :: sty (S (S i)) p.2) fs)) false /\ p'.1 <> []).
    { clear p l b Ne R Hb. clear - F IH. induction IH as [|[n u] fs Hu _ IHl]; intros p l b Ne R Hb.
      - exists p. cbn. rewrite app_nil_r. rewrite (Hb eq_refl) in R. done.
      - cbn [forallb snd] in F. apply andb_prop in F as [Fu Fl]. cbn [go map concat fst snd].
        destruct (Hu (S (S i)) _ _ _ Fu (call_ne (S (S i)) (s ":" ++ n) p) (rep_call (S (S i)) (s ":" ++ n) p l b R) (fun _ => eq_refl)) as (p' & E & R' & N').
        cbn [snd] in E. rewrite E. destruct (IHl Fl p' _ _ N' R' (fun _ => eq_refl)) as (p'' & E' & R'' & N''). exists p''. split; [exact E'|]. split; [|done].
        rewrite <- !app_assoc in R''. cbn in *. exact R''. }
    destruct (G _ _ _ (call_ne (S i) (s "Record") p) (rep_call (S i) (s "Record") p l b R) (fun _ => eq_refl)) as (p' & E & R' & N').
    exists p'. split; [exact E|]. split; [|done]. by rewrite <- app_assoc in R'.
Qed.

Definition sarg (i : nat) (t : ty) (d : doc) : list sym := if container t then dsc d ++ sty i t else sty i t ++ dsc d.
Lemma rep_sarg i t d p l : no_function t = true -> p.1 <> [] -> Rep p l false ->
  exists p' b, print_arg i t (describe d p) = Ok p' /\ Rep p' (l ++ sarg i t d) b /\ p'.1 <> [].
Proof.
  intros F Ne R. unfold sarg. destruct (container t) eqn:C.
  - destruct (rep_arg t i _ _ _ F (describe_ne d p Ne) (rep_describe d p l Ne R)) as (p' & E & R' & N'); [congruence|].
    exists p', false. rewrite app_assoc. done.
  - destruct (rep_arg t i _ _ _ F Ne R (fun _ => eq_refl)) as (p' & E & R' & N').
    rewrite simple_arg, line_tok in E |- * by done. exists (describe d p'), (has_doc d). split; [by apply more_describe|].
    split; [|by apply describe_ne]. rewrite app_assoc. by apply rep_describe.
Qed.
Definition smem (i : nat) (m : str * (ty * doc)) : list sym := NL i (s ":" ++ m.1) :: sarg i m.2.1 m.2.2.
Lemma rep_members i fs p l b : forallb (fun m => no_function m.2.1) fs = true -> p.1 <> [] -> Rep p l b ->
  exists p' b', print_members i fs p = Ok p' /\ Rep p' (l ++ concat (map (smem i) fs)) b' /\ p'.1 <> [].
Proof.
  revert p l b. induction fs as [|[n [t d]] fs IH]; intros p l b F Ne R.
  - exists p, b. cbn. by rewrite app_nil_r.
  - cbn [forallb fst snd] in F. apply andb_prop in F as [Ft Fl]. cbn [print_members map concat].
    destruct (rep_sarg i t d _ _ Ft (call_ne i (s ":" ++ n) p) (rep_call i (s ":" ++ n) p l b R)) as (p' & b' & E & R' & N').
    rewrite E. destruct (IH p' _ _ Fl N' R') as (p'' & b'' & E' & R'' & N''). exists p'', b''. split; [done|]. split; [|done].
    rewrite <- !app_assoc in R''. exact R''.
Qed.
Definition sdef (t : tdef) : list sym :=
  NL 0 (s "type") :: TOK (td_name t) ::
  match td_body t with KTy u => sarg 0 u (td_doc t) | KRec fs => dsc (td_doc t) ++ NL 1 (s "Record") :: concat (map (smem 2) fs) end.
Lemma rep_txt p l l' b : render l = render l' -> Rep p l b -> Rep p l' b.
Proof. intros E (F & R). split; [congruence|done]. Qed.
Lemma rep_def t p l b : body_plain (td_body t) = true -> Rep p l b ->
  exists p' b', print_def t p = Ok p' /\ Rep p' (l ++ sdef t) b' /\ p'.1 <> [].
Proof.
  intros F R. unfold print_def, sdef.
  assert (R0 : Rep (print_call 0 (s "type " ++ td_name t) p) (l ++ [NL 0 (s "type"); TOK (td_name t)]) false).
  { refine (rep_txt _ _ _ _ _ (rep_call 0 (s "type " ++ td_name t) p l b R)). rewrite !render_app. f_equal. }
  destruct (td_body t) as [fs|u]; cbn [body_plain] in F.
  - pose proof (rep_describe (td_doc t) _ _ (call_ne _ _ _) R0) as R1.
    destruct (rep_members 2 fs _ _ _ F (call_ne 1 (s "Record") _) (rep_call 1 (s "Record") _ _ _ R1)) as (p' & b' & E & R' & N').
    exists p', b'. split; [exact E|]. split; [|done]. rewrite <- !app_assoc in R'. exact R'.
  - destruct (rep_sarg 0 u (td_doc t) _ _ F (call_ne _ _ _) R0) as (p' & b' & E & R' & N').
    exists p', b'. split; [exact E|]. split; [|done]. rewrite <- !app_assoc in R'. exact R'.
Qed.
Fixpoint sdefs (first : bool) (l : list tdef) : list sym :=
  match l with [] => [] | t :: l' => (if first then [] else [BL]) ++ sdef t ++ sdefs false l' end.
Lemma rep_defs first ts p l b : forallb (fun t => body_plain (td_body t)) ts = true -> Rep p l b ->
  exists p' b', print_defs first ts p = Ok p' /\ Rep p' (l ++ sdefs first ts) b'.
Proof.
  revert first p l b. induction ts as [|t ts IH]; intros first p l b F R.
  - exists p, b. cbn. by rewrite app_nil_r.
  - cbn [forallb] in F. apply andb_prop in F as [Ft Fl]. cbn [print_defs sdefs].
    assert (R0 : exists b0, Rep (if first then p else newline p) (l ++ (if first then [] else [BL])) b0).
    { destruct first; [exists b; by rewrite app_nil_r|exists false; by eapply rep_newline]. }
    destruct R0 as [b0 R0]. destruct (rep_def t _ _ _ Ft R0) as (p' & b' & E & R' & N'). rewrite E.
    destruct (IH false p' _ _ Fl R') as (p'' & b'' & E' & R''). exists p'', b''. split; [done|]. rewrite <- !app_assoc in R''. exact R''.
Qed.
Lemma join_flat (ls : list str) : join_lines ls = List.skipn 1 (concat (map (cons 10%N) ls)).
Proof.
  destruct ls as [|x ls]; [done|]. cbn [map concat skipn app]. change (join_lines (x :: ls) = x ++ concat (map (cons 10%N) ls)).
  revert x. induction ls as [|y ls IH]; intros x; cbn [join_lines map concat].
  - by rewrite app_nil_r.
  - f_equal. change (join_lines (y :: ls)) with (join_lines (y :: ls)). rewrite <- app_comm_cons. f_equal. apply IH.
Qed.
Lemma dumps_text ts : forallb (fun t => body_plain (td_body t)) ts = true -> dumps_defs ts = Ok (List.skipn 1 (render (sdefs true ts)) ++ [10%N]).
Proof.
  intros F. unfold dumps_defs. assert (R : Rep ([], []) [] false) by done.
  destruct (rep_defs true ts _ _ _ F R) as (p' & b' & E & R' & _). rewrite E. f_equal. f_equal. rewrite join_flat. f_equal. exact R'.
Qed.

(** ** Streams are read back *)
Lemma named_fields fs : named (TRec fs) <-> Forall (fun p => (32%N ∉ p.1 /\ 10%N ∉ p.1) /\ named p.2) fs.
Proof.
  cbn [named]. induction fs as [|p fs IH]; cbn [foldr].
  - split; [by constructor|done].
  - split.
    + intros [(A & B & C) D]. constructor; [done|]. by apply IH.
    + intros F. inversion F as [|? ? [[A B] C] D]; subst. split; [done|]. by apply IH.
Qed.
Lemma named_plain t : named t -> no_function t = true.
Proof.
  induction t as [| | | | |n|t IH|t IH|k v IHk IHv|fs IH|args _] using ty_ind'; intros N; try done; cbn [no_function].
  - by apply IH.
  - by apply IH.
  - destruct N as [Nk Nv]. by rewrite IHk, IHv.
  - apply named_fields in N. apply forallb_forall. intros [n u] Hin%elem_of_list_In. rewrite Forall_forall in IH, N.
    exact (IH _ Hin (proj2 (N _ Hin))).
Qed.
Lemma seen_tok t u : container t = false -> container u = false -> named t -> named u -> tok_of t = tok_of u -> seen t = seen u.
Proof.
  intros Ct Cu Nt Nu E.
  assert (B : forall n, named (TRef n) -> n <> s "Boolean" /\ n <> s "String" /\ n <> s "Integer" /\ n <> s "Unknown").
  { intros n [_ N]. unfold built_in in N. rewrite !not_elem_of_cons in N. naive_solver. }
  destruct t, u; try done; try discriminate E; cbn in E; subst;
    try (by destruct (B _ Nt) as (?&?&?&?)); try (by destruct (B _ Nu) as (?&?&?&?)).
Qed.
Definition low (i : nat) (r : list sym) : Prop := match r with NL j _ :: _ => j <= S i | _ => True end.
Lemma sty_low i j t r : i <= j -> low j (sty i t ++ r).
Proof. destruct t; cbn; lia. Qed.
Lemma low_le i j r : i <= j -> low i r -> low j r.
Proof. destruct r as [|[]]; cbn; lia. Qed.
Lemma container_head i t : container t = true -> exists w r, sty i t = NL (S i) w :: r.
Proof. destruct t; try done; intros _; eexists _, _; reflexivity. Qed.
Lemma fields_low i fs r : low i r -> low (S (S i)) (concat (map (fun p : str * ty => NL (S (S i)) (s ":" ++ p.1) :: sty (S (S i)) p.2) fs) ++ r).
Proof. intros L. destruct fs as [|[n u] fs]; cbn [map concat app]; [apply (low_le i); [lia|done]|]. cbn. lia. Qed.
Lemma sty_inj t : forall t' i r r', named t -> named t' -> low i r -> low i r' -> sty i t ++ r = sty i t' ++ r' -> seen t = seen t' /\ r = r'.
Proof.
  assert (S1 : forall t t' i r r', container t = false -> named t -> named t' -> sty i t ++ r = sty i t' ++ r' -> seen t = seen t' /\ r = r').
  { clear t. intros t t' i r r' C N N' E. rewrite (simple_sty i t C) in E. destruct (container t') eqn:C'.
    - destruct (container_head i t' C') as (w & q & Eq). rewrite Eq in E. discriminate E.
    - rewrite (simple_sty i t' C') in E. injection E as E1 E2. split; [|done]. by apply seen_tok. }
  induction t as [| | | | |n|t IH|t IH|k v IHk IHv|fs IH|args _] using ty_ind'; intros t' i r r' N N' L L' E; try (by apply (S1 _ t' i)).
  - destruct t' as [| | | | |n'|u|u|k' v'|fs'|args']; try discriminate E. injection E as E.
    destruct (IH u (S i) r r' N N' (low_le _ _ _ (Nat.le_succ_diag_r i) L) (low_le _ _ _ (Nat.le_succ_diag_r i) L') E) as [E1 ->]. cbn. by rewrite E1.
  - destruct t' as [| | | | |n'|u|u|k' v'|fs'|args']; try discriminate E. injection E as E.
    destruct (IH u (S i) r r' N N' (low_le _ _ _ (Nat.le_succ_diag_r i) L) (low_le _ _ _ (Nat.le_succ_diag_r i) L') E) as [E1 ->]. cbn. by rewrite E1.
  - destruct t' as [| | | | |n'|u|u|k' v'|fs'|args']; try discriminate E. injection E as E. rewrite <- !app_assoc in E.
    destruct N as [Nk Nv], N' as [Nk' Nv'].
    destruct (IHk k' (S i) _ _ Nk Nk' (sty_low _ _ v r (le_n _)) (sty_low _ _ v' r' (le_n _)) E) as [E1 E2].
    destruct (IHv v' (S i) r r' Nv Nv' (low_le _ _ _ (Nat.le_succ_diag_r i) L) (low_le _ _ _ (Nat.le_succ_diag_r i) L') E2) as [E3 ->].
    cbn. by rewrite E1, E3.
  - destruct t' as [| | | | |n'|u|u|k' v'|fs'|args']; try discriminate E. injection E as E.
    apply named_fields in N, N'. clear S1.
    assert (G : map (fun p => (p.1, seen p.2)) fs = map (fun p => (p.1, seen p.2)) fs' /\ r = r').
    { revert fs' N' E. induction IH as [|[n u] fs Hu _ IHl]; intros [|[n' u'] fs'] N' E; cbn [map concat app] in E.
      - done.
      - subst r. cbn in L. lia.
      - subst r'. cbn in L'. lia.
      - injection E as En E. rewrite <- !app_assoc in E. inversion N as [|? ? [_ Nu] Nl]; subst. inversion N' as [|? ? [_ Nu'] Nl']; subst.
        cbn [fst snd] in *.
        destruct (Hu u' (S (S i)) _ _ Nu Nu' (fields_low i fs r L) (fields_low i fs' r' L') E) as [E1 E2].
        destruct (IHl Nl fs' Nl' E2) as [E3 ->]. split; [|done]. cbn [map fst snd]. by rewrite E1, E3. }
    destruct G as [G ->]. split; [|done]. cbn [seen]. by rewrite G.
Qed.
Lemma sarg_inj i t d t' d' r r' : named t -> named t' -> low i r -> low i r' -> ends r -> ends r' ->
  sarg i t d ++ r = sarg i t' d' ++ r' -> seen t = seen t' /\ d = d' /\ r = r'.
Proof.
  intros N N' L L' En En' E. unfold sarg in E. destruct (container t) eqn:C, (container t') eqn:C'.
  - assert (D : d = d').
    { destruct (container_head i t C) as (w & q & Eq), (container_head i t' C') as (w' & q' & Eq'). rewrite Eq, Eq' in E.
      destruct d, d'; cbn in E; try done; congruence. }
    subst d'. rewrite <- !app_assoc in E. apply app_inv_head in E. destruct (sty_inj t t' i r r' N N' L L' E) as [? ?]. done.
  - destruct (container_head i t C) as (w & q & Eq). rewrite Eq, (simple_sty i t' C') in E. by destruct d.
  - destruct (container_head i t' C') as (w & q & Eq). rewrite Eq, (simple_sty i t C) in E. by destruct d'.
  - rewrite (simple_sty i t C), (simple_sty i t' C') in E. injection E as E1 E2. split; [by apply seen_tok|].
    destruct d as [d|], d' as [d'|]; cbn in E2.
    + by injection E2 as -> ->.
    + by subst r'.
    + by subst r.
    + done.
Qed.
Definition named_mem (m : str * (ty * doc)) : Prop := 32%N ∉ m.1 /\ 10%N ∉ m.1 /\ named m.2.1 /\ one_line m.2.2.
Definition seen_mem (m : str * (ty * doc)) : str * (ty * doc) := (m.1, (seen m.2.1, m.2.2)).
Definition stops (r : list sym) : Prop := match r with [] | BL :: _ => True | _ => False end.
Lemma mems_inj fs : forall fs' r r', Forall named_mem fs -> Forall named_mem fs' -> stops r -> stops r' ->
  concat (map (smem 2) fs) ++ r = concat (map (smem 2) fs') ++ r' -> map seen_mem fs = map seen_mem fs' /\ r = r'.
Proof.
  assert (F : forall fs r, stops r -> low 2 (concat (map (smem 2) fs) ++ r) /\ ends (concat (map (smem 2) fs) ++ r)).
  { intros [|[n [t d]] l] r Sr; cbn; [by destruct r as [|[]]|]. lia. }
  induction fs as [|[n [t d]] fs IH]; intros [|[n' [t' d']] fs'] r r' N N' Sr Sr' E; cbn [map concat app] in E.
  - done.
  - subst r. done.
  - subst r'. done.
  - unfold smem in E at 1 3. cbn [fst snd] in E. injection E as En E. subst n'. rewrite <- !app_assoc in E.
    inversion N as [|? ? (_ & _ & Nt & _) Nl]; subst. inversion N' as [|? ? (_ & _ & Nt' & _) Nl']; subst. cbn [fst snd] in *.
    destruct (F fs r Sr) as [L1 E1]. destruct (F fs' r' Sr') as [L2 E2].
    destruct (sarg_inj 2 t d t' d' _ _ Nt Nt' L1 L2 E1 E2 E) as (Et & -> & Er).
    destruct (IH fs' r r' Nl Nl' Sr Sr' Er) as [Em ->]. split; [|done]. cbn [map]. rewrite Em. unfold seen_mem. cbn. by rewrite Et.
Qed.
Definition plain_body (b : kbody) : Prop := match b with KTy (TRec _) => False | _ => True end.
Lemma def_inj t t' r r' : named_def t -> named_def t' -> plain_body (td_body t) -> plain_body (td_body t') -> stops r -> stops r' ->
  sdef t ++ r = sdef t' ++ r' -> seen_def t = seen_def t' /\ r = r'.
Proof.
  destruct t as [n b d], t' as [n' b' d']. intros (_ & _ & N) (_ & _ & N') P P' Sr Sr' E. unfold sdef, seen_def in *. cbn [td_name td_body td_doc] in *.
  injection E as -> E.
  assert (X : forall fs d fs' d' r r', dsc d ++ (NL 1 (s "Record") :: concat (map (smem 2) fs)) ++ r = dsc d' ++ (NL 1 (s "Record") :: concat (map (smem 2) fs')) ++ r' ->
    d = d' /\ concat (map (smem 2) fs) ++ r = concat (map (smem 2) fs') ++ r').
  { clear. intros fs [x|] fs' [x'|] r r' E; cbn [dsc app] in E; try discriminate E.
    - by injection E as -> E.
    - by injection E as E. }
  assert (Y : forall fs d u d' r r', match u with TRec _ => False | _ => True end -> (dsc d ++ NL 1 (s "Record") :: concat (map (smem 2) fs)) ++ r = sarg 0 u d' ++ r' -> False).
  { clear. intros fs [x|] u [x'|] r r' Pu E; destruct u; try done; cbn in E; discriminate E. }
  destruct b as [fs|u], b' as [fs'|u'].
  - rewrite <- !app_assoc in E. apply X in E as [-> E].
    destruct (mems_inj fs fs' r r') as [E1 ->]; try done.
    + apply Forall_forall. intros [m [u e]] Hin. exact (N m u e Hin).
    + apply Forall_forall. intros [m [u e]] Hin. exact (N' m u e Hin).
    + split; [|done]. cbn [seen_body]. unfold seen_mem in E1. by rewrite E1.
  - by apply Y in E.
  - symmetry in E. by apply Y in E.
  - assert (L : forall r, stops r -> low 0 r /\ ends r) by (intros [|[]]; done).
    destruct (L r Sr), (L r' Sr').
    destruct (sarg_inj 0 u d u' d' r r') as (E1 & -> & ->); try done. cbn [seen_body]. by rewrite E1.
Qed.
Lemma defs_inj ts : forall first ts', Forall named_def ts -> Forall named_def ts' -> Forall (fun t => plain_body (td_body t)) ts -> Forall (fun t => plain_body (td_body t)) ts' ->
  sdefs first ts = sdefs first ts' -> map seen_def ts = map seen_def ts'.
Proof.
  induction ts as [|t ts IH]; intros first [|t' ts'] N N' P P' E; cbn [sdefs] in E.
  - done.
  - by destruct first.
  - by destruct first.
  - apply app_inv_head in E. inversion N; inversion N'; inversion P; inversion P'; subst.
    assert (St : forall l, stops (sdefs false l)) by (by intros [|x l]).
    destruct (def_inj t t' _ _ ltac:(eassumption) ltac:(eassumption) ltac:(eassumption) ltac:(eassumption) (St ts) (St ts') E) as [E1 E2].
    cbn [map]. rewrite E1. f_equal. by apply (IH false).
Qed.
(** ** Streams of named types are good *)
Lemma word_s (x : str) : x <> [] -> forallb (fun c => negb (N.eqb c 32) && negb (N.eqb c 10)) x = true -> word x.
Proof.
  intros Ne F. rewrite forallb_forall in F. split; [done|]. split; intros Hin%elem_of_list_In; apply F in Hin; discriminate Hin.
Qed.
Lemma word_colon n : 32%N ∉ n -> 10%N ∉ n -> word (s ":" ++ n).
Proof. intros A B. split; [done|]. split; cbn; rewrite not_elem_of_cons; done. Qed.
Lemma word_tok t : container t = false -> named t -> word (tok_of t).
Proof. destruct t; try done; intros _ N; try (by apply word_s); by destruct N. Qed.
Lemma good_sty t : forall i r, named t -> good r -> good (sty i t ++ r).
Proof.
  induction t as [| | | | |n|t IH|t IH|k v IHk IHv|fs IH|args _] using ty_ind'; intros i r N G;
    try (rewrite simple_sty by done; split; [by apply word_tok|done]); try (cbn [sty app good]; split; [by apply word_s|]).
  - by apply IH.
  - by apply IH.
  - rewrite <- app_assoc. destruct N. by apply IHk, IHv.
  - apply named_fields in N. induction IH as [|[n u] fs Hu _ IHl]; [done|]. inversion N as [|? ? [[A B] C] D]; subst. cbn [map concat app good fst snd] in *.
    split; [by apply word_colon|]. rewrite <- app_assoc. apply Hu; [done|]. by apply IHl.
Qed.
Lemma good_dsc d r : one_line d -> ends r -> good r -> good (dsc d ++ r).
Proof. by destruct d. Qed.
Lemma good_sarg i t d r : named t -> one_line d -> ends r -> good r -> good (sarg i t d ++ r).
Proof.
  intros N O En G. unfold sarg. destruct (container t) eqn:C; rewrite <- app_assoc.
  - apply good_dsc; [done| |by apply good_sty]. destruct (container_head i t C) as (w & q & ->). done.
  - apply good_sty; [done|]. by apply good_dsc.
Qed.
Lemma good_mems fs r : Forall named_mem fs -> ends r -> good r -> ends (concat (map (smem 2) fs) ++ r) /\ good (concat (map (smem 2) fs) ++ r).
Proof.
  intros F En G. induction F as [|[n [t d]] fs (A & B & N & O) F IH]; [done|]. cbn [map concat app smem ends good fst snd] in *. split; [done|].
  split; [by apply word_colon|]. rewrite <- app_assoc. apply good_sarg; try done; apply IH.
Qed.
Lemma good_def t r : named_def t -> ends r -> good r -> good (sdef t ++ r).
Proof.
  destruct t as [n b d]. intros (W & O & N) En G. unfold sdef. cbn [td_name td_body td_doc app good] in *.
  split; [by apply word_s|]. split; [done|]. destruct b as [fs|u]; [|by apply good_sarg].
  destruct (good_mems fs r) as [? ?]; [|done..|].
  - apply Forall_forall. intros [m [u e]] Hin. exact (N m u e Hin).
  - rewrite <- app_assoc. apply good_dsc; [done|done|]. cbn [app good]. split; [by apply word_s|done].
Qed.
Lemma good_defs first ts : Forall named_def ts -> good (sdefs first ts).
Proof.
  intros F. revert first. induction F as [|t ts N F IH]; intros first; cbn [sdefs]; [done|].
  assert (G : good (sdef t ++ sdefs false ts)) by (apply good_def; [done| |done]; by destruct ts).
  by destruct first.
Qed.

(** ** The definitions of a graph *)
Definition node_def (n : knode) : option (str * (kbody * doc)) :=
  match kn_name n with Some x => Some (x, (KRec (visit_members (kn_members n)), kn_doc n)) | None => None end.
Lemma fold_nodes items (d : dict str (kbody * doc)) :
  fold_left (fun d n => match kn_name n with Some x => dset x (KRec (visit_members (kn_members n)), kn_doc n) d | None => d end) items d =
  dupdate d (omap node_def items).
Proof.
  revert d. induction items as [|n items IH]; intros d; [done|]. cbn [fold_left]. rewrite IH. cbn. unfold node_def at 2.
  by destruct (kn_name n).
Qed.
Lemma node_keys items : map fst (omap node_def items) = omap kn_name items.
Proof. induction items as [|n items IH]; [done|]. cbn. unfold node_def at 1. destruct (kn_name n); cbn; by rewrite IH. Qed.
Lemma types_map_list g : distinct_names g ->
  types_map g = map (fun '(n, t) => (n, (body_of t, None))) (kg_dtypes g) ++ omap node_def (kg_items g).
Proof.
  intros [Dt _ _ _]. unfold types_map. rewrite fold_nodes.
  assert (K : map fst (map (fun '(n, t) => (n, (body_of t, @None str))) (kg_dtypes g)) = map fst (kg_dtypes g)).
  { rewrite map_map. apply map_ext. by intros [n t]. }
  rewrite <- K in Dt. rewrite of_pairs_NoDup.
  - apply dupdate_NoDup. unfold dkeys. rewrite node_keys. exact Dt.
  - apply NoDup_app in Dt as [Dt _]. exact Dt.
Qed.
Lemma shown_not p : shown p = negb (bool_decide (p = (TAny, None))).
Proof. destruct p as [[] [d|]]; symmetry; cbn; try (apply negb_true_iff, bool_decide_eq_false_2; congruence). apply negb_false_iff. by apply bool_decide_eq_true_2. Qed.
Lemma visit_members_list l : NoDup (map (fun p => gi_name p.1) l) ->
  visit_members l = List.filter (fun p => negb (bool_decide (p.2 = (TAny, None)))) (map (fun p => (gi_name p.1, (gi_type p.1, p.2))) l).
Proof.
  intros N. unfold visit_members.
  assert (E : map (fun '(x, d) => (gi_name x, (gi_type x, d))) l = map (fun p => (gi_name p.1, (gi_type p.1, p.2))) l) by (apply map_ext; by intros [x d]).
  rewrite E, of_pairs_NoDup.
  - apply filter_ext. intros [n p]. apply shown_not.
  - unfold dkeys. by rewrite map_map.
Qed.
Lemma is_any_body t : is_any (body_of t) = bool_decide (t = TAny).
Proof. destruct t; symmetry; try (apply bool_decide_eq_false_2; congruence). by apply bool_decide_eq_true_2. Qed.
Lemma filter_keys {A} (P : str * A -> bool) l : map fst (List.filter P l) `sublist_of` map fst l.
Proof. induction l as [|x l IH]; cbn; [done|]. destruct (P x); cbn; by constructor. Qed.
Lemma sub_NoDup (a b : list str) : a `sublist_of` b -> NoDup b -> NoDup a.
Proof.
  induction 1 as [|x a b Sb IH|x a b Sb IH]; intros N; [done|..]; inversion N as [|? ? Hx Nb]; subst.
  - constructor; [|by apply IH]. intros Hin. apply Hx. clear -Sb Hin. induction Sb as [|y a b _ IH|y a b _ IH]; [done|..].
    + apply elem_of_cons in Hin as [->|Hin]; [left|right; by apply IH].
    + right. by apply IH.
  - by apply IH.
Qed.
Lemma root_list g : distinct_names g ->
  root_members g = concat (map (fun n => match kn_name n with None => visit_members (kn_members n) | Some _ => [] end) (kg_items g)).
Proof.
  intros [_ _ Dr _]. unfold root_members. apply of_pairs_NoDup. unfold dkeys.
  refine (sub_NoDup _ _ _ Dr).
  induction (kg_items g) as [|n l IH]; cbn [map concat] in *; [constructor|]. rewrite map_app.
  apply NoDup_app in Dr as (D1 & _ & D3). apply sublist_app; [|by apply IH].
  destruct (kn_name n); [constructor|]. rewrite visit_members_list by done. etransitivity; [apply filter_keys|]. rewrite map_map. cbn [fst]. done.
Qed.
Theorem C54_definitions g : distinct_names g -> forall td, td ∈ type_defs g <-> declared g td.
Proof.
  intros D td. unfold type_defs. rewrite types_map_list, root_list by done. rewrite elem_of_app, !elem_of_list_In, !in_map_iff.
  split.
  - intros [([n [b d]] & <- & [Hin Hc]%filter_In)|([n [t d]] & <- & [Hin Hc]%filter_In)].
    + cbn in Hc. apply andb_prop in Hc as [Hc _]. apply in_app_or in Hin as [Hin|Hin].
      * apply in_map_iff in Hin as ([n' t] & [= -> <- <-] & Hin). apply dc_data; [by apply elem_of_list_In|].
        intros ->. discriminate Hc.
      * apply elem_of_list_In, elem_of_list_omap in Hin as (nd & Hnd & En). unfold node_def in En. destruct (kn_name nd) as [x|] eqn:Ex; [|done].
        injection En as -> <- <-. rewrite visit_members_list by (by apply D). by apply dc_node.
    + apply in_concat in Hin as (l & Hl & Hin). apply in_map_iff in Hl as (nd & <- & Hnd). apply elem_of_list_In in Hnd.
      destruct (kn_name nd) eqn:Ex; [done|]. rewrite visit_members_list in Hin by (by apply D). apply filter_In in Hin as [Hin Hs].
      apply in_map_iff in Hin as ([x e] & [= <- <- <-] & Hx). apply (dc_root g nd x e); [done|done|by apply elem_of_list_In|].
      cbn in Hs. apply negb_true_iff, bool_decide_eq_false in Hs. done.
  - assert (NR : forall n, n ∈ map fst (kg_dtypes g) ++ omap kn_name (kg_items g) -> negb (bool_decide (n = s "__root__")) = true).
    { intros n Hn. apply negb_true_iff, bool_decide_eq_false_2. intros ->. by apply (dn_root g D). }
    intros [n t Hin Ht|nd n Hnd En|nd x d Hnd En Hx Ht].
    + left. exists (n, (body_of t, None)). split; [done|]. apply filter_In. split.
      * apply in_or_app. left. apply in_map_iff. exists (n, t). split; [done|]. by apply elem_of_list_In.
      * cbn. rewrite NR, andb_true_r, is_any_body.
        -- by rewrite (bool_decide_eq_false_2 (t = TAny)).
        -- apply elem_of_app. left. apply elem_of_list_fmap. by exists (n, t).
    + left. exists (n, (KRec (visit_members (kn_members nd)), kn_doc nd)). split; [by rewrite visit_members_list by (by apply D)|]. apply filter_In. split.
      * apply in_or_app. right. apply elem_of_list_In, elem_of_list_omap. exists nd. split; [done|]. unfold node_def. by rewrite En.
      * cbn. apply NR. apply elem_of_app. right. apply elem_of_list_omap. eauto.
    + right. exists (gi_name x, (gi_type x, d)). split; [done|].
      assert (Hs : shown (gi_type x, d) = true) by (rewrite shown_not; by apply negb_true_iff, bool_decide_eq_false_2).
      apply filter_In. split; [|done]. apply in_concat. eexists. split; [apply in_map_iff; exists nd; split; [reflexivity|by apply elem_of_list_In]|].
      rewrite En, visit_members_list by (by apply D). apply filter_In. split; [|by rewrite <- shown_not].
      apply in_map_iff. exists (x, d). split; [done|]. by apply elem_of_list_In.
Qed.
Lemma type_defs_plain g : Forall (fun t => plain_body (td_body t)) (type_defs g).
Proof.
  unfold type_defs. apply Forall_app. split; apply Forall_forall; intros td Hin; apply elem_of_list_In, in_map_iff in Hin.
  - destruct Hin as ([n [b d]] & <- & [Hin _]%filter_In). cbn [td_body]. apply elem_of_list_In in Hin.
    assert (P : Forall (fun p => plain_body p.2.1) (types_map g)).
    { unfold types_map. rewrite fold_nodes. apply Forall_forall. intros p Hp.
      assert (K : forall d ps, Forall (fun p : str * (kbody * doc) => plain_body p.2.1) d -> Forall (fun p : str * (kbody * doc) => plain_body p.2.1) ps -> Forall (fun p : str * (kbody * doc) => plain_body p.2.1) (dupdate d ps)).
      { clear. intros d ps Hd Hps. unfold dupdate. revert d Hd. induction Hps as [|p ps Hp _ IH]; intros d Hd; cbn; [done|]. apply IH.
        induction Hd as [|[k v] d Hk Hd IHd]; cbn; [by repeat constructor|]. destruct (decide _); constructor; done. }
      revert p Hp. apply Forall_forall. apply K; [unfold of_pairs; apply K; [constructor|]|].
      - apply Forall_forall. intros p Hp. apply elem_of_list_fmap in Hp as ([m t] & -> & _). by destruct t.
      - apply Forall_forall. intros p Hp. apply elem_of_list_omap in Hp as (nd & _ & E). unfold node_def in E. destruct (kn_name nd); [|done]. by injection E as <-. }
    rewrite Forall_forall in P. exact (P _ Hin).
  - destruct Hin as ([n [t d]] & <- & _). by destruct t.
Qed.
Lemma named_body t : named_def t -> body_plain (td_body t) = true.
Proof.
  intros (_ & _ & N). destruct (td_body t) as [fs|u]; [|by apply named_plain]. cbn. apply forallb_forall. intros [n [u d]] Hin%elem_of_list_In.
  apply named_plain. exact (proj1 (proj2 (proj2 (N n u d Hin)))).
Qed.
Lemma sdefs_cons t ts : exists x y, render (sdefs true (t :: ts)) = 10%N :: x :: y.
Proof. cbn [sdefs app]. unfold sdef. cbn [app]. rewrite render_cons. by eexists _, _. Qed.

(** *** The text determines the definitions, in their order, up to what is not seen *)
Lemma text_determines ts ts' x : Forall named_def ts -> Forall named_def ts' -> Forall (fun t => plain_body (td_body t)) ts -> Forall (fun t => plain_body (td_body t)) ts' ->
  dumps_defs ts = Ok x -> dumps_defs ts' = Ok x -> map seen_def ts = map seen_def ts'.
Proof.
  intros N N' P P' E E'.
  assert (F : forall l, Forall named_def l -> forallb (fun t => body_plain (td_body t)) l = true).
  { intros l Hl. apply forallb_forall. intros t Ht%elem_of_list_In. rewrite Forall_forall in Hl. by apply named_body, Hl. }
  rewrite dumps_text in E, E' by (by apply F). injection E as <-. injection E' as E'. apply app_inv_tail in E'.
  apply (defs_inj ts true); try done. apply render_inj; [by apply good_defs..|].
  destruct ts as [|t ts], ts' as [|t' ts'].
  - done.
  - destruct (sdefs_cons t' ts') as (? & ? & Q). rewrite Q in E'. discriminate E'.
  - destruct (sdefs_cons t ts) as (? & ? & Q). rewrite Q in E'. discriminate E'.
  - destruct (sdefs_cons t ts) as (? & ? & Q), (sdefs_cons t' ts') as (? & ? & Q'). rewrite Q, Q' in *. cbn in E'. by rewrite E'.
Qed.
Theorem C54_text_determines_types g1 g2 x :
  distinct_names g1 -> distinct_names g2 ->
  (forall td, declared g1 td -> named_def td) -> (forall td, declared g2 td -> named_def td) ->
  dumps g1 = Ok x -> dumps g2 = Ok x ->
  forall td, declared g1 td -> exists td', declared g2 td' /\ seen_def td' = seen_def td.
Proof.
  intros D1 D2 N1 N2 E1 E2 td Htd.
  assert (E : map seen_def (type_defs g1) = map seen_def (type_defs g2)).
  { apply (text_determines _ _ x); try done; try apply type_defs_plain; apply Forall_forall; intros t Ht; [apply N1|apply N2]; by apply C54_definitions. }
  apply C54_definitions in Htd; [|done].
  assert (Hin : seen_def td ∈ map seen_def (type_defs g2)) by (rewrite <- E; apply elem_of_list_fmap; eauto).
  apply elem_of_list_fmap in Hin as (td' & Es & Htd'). exists td'. split; [by apply C54_definitions|done].
Qed.
(** *** Types without functions are printed, and functions cannot be *)
Theorem C54_printed g : distinct_names g -> (forall td, declared g td -> body_plain (td_body td) = true) -> exists x, dumps g = Ok x.
Proof.
  intros D F. unfold dumps. rewrite dumps_text; [by eexists|]. apply forallb_forall. intros t Ht%elem_of_list_In. by apply F, C54_definitions.
Qed.
Definition outcome (r : res printer) (b : bool) : Prop :=
  match r with Ok p => b = true /\ p.1 <> [] | Err e => b = false /\ e = AttributeError end.
Lemma arg_outcome t : forall i p, p.1 <> [] -> outcome (print_arg i t p) (no_function t).
Proof.
  induction t as [| | | | |n|t IH|t IH|k v IHk IHv|fs IH|args _] using ty_ind'; intros i p Ne;
    try (rewrite simple_arg by done; unfold print_more; cbn [line_of no_function]; by destruct p.1); cbn [print_arg no_function].
  - by apply IH.
  - by apply IH.
  - specialize (IHk (S i) (print_call (S i) (s "Dict") p) (call_ne _ _ _)). destruct (print_arg (S i) k _) as [p1|e]; destruct IHk as [-> Hk]; cbn [andb].
    + by apply IHv.
    + done.
  - pose proof (call_ne (S i) (s "Record") p) as Ne'. revert Ne'. generalize (print_call (S i) (s "Record") p) as q. clear p Ne.
    induction IH as [|[n u] fs Hu _ IHl]; intros q Nq; [done|]. cbn [forallb snd] in *.
    specialize (Hu (S (S i)) (print_call (S (S i)) (s ":" ++ n) q) (call_ne _ _ _)). destruct (print_arg (S (S i)) u _) as [p1|e]; destruct Hu as [-> Hu]; cbn [andb].
    + by apply IHl.
    + done.
Qed.
Lemma members_outcome i fs : forall p, p.1 <> [] -> outcome (print_members i fs p) (forallb (fun m => no_function m.2.1) fs).
Proof.
  induction fs as [|[n [t d]] fs IH]; intros p Ne; [done|]. cbn [forallb print_members fst snd].
  pose proof (arg_outcome t i (describe d (print_call i (s ":" ++ n) p)) (describe_ne d _ (call_ne _ _ _))) as O.
  destruct (print_arg i t _) as [p1|e]; destruct O as [-> O]; [by apply IH|done].
Qed.
Lemma def_outcome t p : outcome (print_def t p) (body_plain (td_body t)).
Proof.
  unfold print_def, body_plain. destruct (td_body t) as [fs|u]; [by apply members_outcome|]. apply arg_outcome, describe_ne, call_ne.
Qed.
Lemma defs_outcome first ts : forall p, match print_defs first ts p with Ok _ => forallb (fun t => body_plain (td_body t)) ts = true | Err e => forallb (fun t => body_plain (td_body t)) ts = false /\ e = AttributeError end.
Proof.
  revert first. induction ts as [|t ts IH]; intros first p; [done|]. cbn [print_defs forallb].
  pose proof (def_outcome t (if first then p else newline p)) as O. destruct (print_def t _) as [p1|e]; destruct O as [-> O]; cbn [andb]; [apply IH|done].
Qed.
Theorem C54_functions_not_printed g td : distinct_names g -> declared g td -> body_plain (td_body td) = false -> dumps g = Err AttributeError.
Proof.
  intros D Htd F. apply C54_definitions in Htd; [|done]. unfold dumps, dumps_defs.
  pose proof (defs_outcome true (type_defs g) ([], [])) as O. destruct (print_defs true (type_defs g) ([], [])) as [p|e].
  - rewrite forallb_forall in O. rewrite (O td) in F; [done|]. by apply elem_of_list_In.
  - by destruct O as [_ ->].
Qed.

(** ** Examples *)
(** A data type, a node with a description and described members, a root with a link and a described field *)
Definition k_graph : kgraph := {|
  kg_dtypes := [(s "Point", TRec [(s "x", TInt); (s "tags", TMap TStr (TSeq TInt))])];
  kg_items := [
    KNd (Some (s "user")) (Some (s "A user")) [
      (GF (GField (s "name") (Some TStr) (FPlain 0) []), Some (s "Its name"));
      (GF (GField (s "raw") None (FPlain 0) []), None);
      (GF (GField (s "place") (Some (TRef (s "Point"))) (FPlain 0) []), None)];
    KNd None None [
      (GL (GLink (s "users") Many (s "user") 0 None []), None);
      (GF (GField (s "now") None (FPlain 0) []), Some (s "The time"))]] |}.
Lemma named_def_of n b d : word n -> one_line d -> match b with KTy u => named u | KRec fs => Forall named_mem fs end -> named_def (TDef n b d).
Proof. intros W O N. split; [done|]. split; [done|]. cbn. destruct b as [fs|u]; [|done]. intros m u e Hin. rewrite Forall_forall in N. exact (N _ Hin). Qed.
Ltac names := repeat (first [exact I | split | match goal with |- one_line _ => unfold one_line; cbn [fst snd] | |- Forall _ [] => constructor | |- ~ _ => first [discriminate | apply (bool_decide_unpack _); vm_compute; exact I] end]).
Theorem C54_example :
  distinct_names k_graph /\ (forall td, declared k_graph td -> named_def td) /\
  dumps k_graph = Ok (s "type Point
  Record
    :x Integer
    :tags
      Dict String
        List Integer

type user  ; A user
  Record
    :name String  ; Its name
    :place Point

type users
  List user

type now Unknown  ; The time
").
Proof.
  assert (D : distinct_names k_graph).
  { split.
    - apply (bool_decide_unpack _); vm_compute; exact I.
    - intros nd Hnd. revert nd Hnd. apply Forall_forall. repeat constructor; apply (bool_decide_unpack _); vm_compute; exact I.
    - apply (bool_decide_unpack _); vm_compute; exact I.
    - apply (bool_decide_unpack _); vm_compute; exact I. }
  split; [exact D|]. split; [|vm_compute; reflexivity].
  intros td Htd. apply C54_definitions in Htd; [|done]. revert td Htd. apply Forall_forall. 
  change (type_defs k_graph) with [
    TDef (s "Point") (KRec [(s "x", (TInt, None)); (s "tags", (TMap TStr (TSeq TInt), None))]) None;
    TDef (s "user") (KRec [(s "name", (TStr, Some (s "Its name"))); (s "place", (TRef (s "Point"), None))]) (Some (s "A user"));
    TDef (s "users") (KTy (TSeq (TRef (s "user")))) None;
    TDef (s "now") (KTy TAny) (Some (s "The time"))].
  repeat (apply Forall_cons_2; [apply named_def_of; [names|names|repeat (apply Forall_cons_2; [names|]); names]|]); apply Forall_nil_2.
Qed.

(** Types which the text does not tell apart: numbers and anything, a type of the name String and strings *)
Definition k_root (t : ty) (d : doc) : kgraph := {| kg_dtypes := []; kg_items := [KNd None None [(GF (GField (s "x") (Some t) (FPlain 0) []), d)]] |}.
Theorem C54_unknown_refuted : exists g1 g2 x td, dumps g1 = Ok x /\ dumps g2 = Ok x /\ declared g1 td /\ ~ declared g2 td.
Proof.
  exists (k_root TFloat (Some (s "d"))), (k_root TAny (Some (s "d"))), (s "type x Unknown  ; d
"), (TDef (s "x") (KTy TFloat) (Some (s "d"))). split_and!; [reflexivity..| |].
  - eapply (dc_root _ _ (GF (GField (s "x") (Some TFloat) (FPlain 0) []))); [left|reflexivity|left|done].
  - intros Hd. assert (G : forall td, declared (k_root TAny (Some (s "d"))) td -> td_body td <> KTy TFloat); [|by apply (G _ Hd)].
    intros td [n t Hin|nd n Hnd En|nd x d Hnd En Hx Ht]; [by inversion Hin|..];
    apply elem_of_list_singleton in Hnd; subst nd; [done|]. cbn in Hx. apply elem_of_list_singleton in Hx. by injection Hx as -> ->.
Qed.
Theorem C54_built_in_name_refuted : exists g1 g2 x td, dumps g1 = Ok x /\ dumps g2 = Ok x /\ declared g1 td /\ (forall td', declared g2 td' -> seen_def td' <> seen_def td).
Proof.
  exists (k_root (TRef (s "String")) None), (k_root TStr None), (s "type x String
"), (TDef (s "x") (KTy (TRef (s "String"))) None). split_and!; [reflexivity..| |].
  - eapply (dc_root _ _ (GF (GField (s "x") (Some (TRef (s "String"))) (FPlain 0) []))); [left|reflexivity|left|done].
  - intros td' [n t Hin|nd n Hnd En|nd x d Hnd En Hx Ht]; [by inversion Hin|..];
    apply elem_of_list_singleton in Hnd; subst nd; [done|]. cbn in Hx. apply elem_of_list_singleton in Hx. injection Hx as -> ->. done.
Qed.
(** The value of a mapping is written on the last line of its key when the value is simple and the key is not *)
Theorem C54_mapping_line_refuted : dumps (k_root (TMap (TSeq TInt) TStr) None) = Ok (s "type x
  Dict
    List Integer String
").
Proof. reflexivity. Qed.

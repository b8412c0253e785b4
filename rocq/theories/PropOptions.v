(** Theorems about options (C11) and about ordered nodes (C10): engine.py:15-57. *)
From stdpp Require Import relations.
From Verif Require Import Base Val Query QuerySpec QueryProof Graph Queue QueueSpec QueueProof PropQueue Result Engine EngineApi EngineSpec SplitProof EngineProof PropEngine Examples.

(** ** Specification *)
(** The value of a declared option: the one given in the query or else its default. *)
Definition option_value (d : goption) (o : opts) : val :=
  match dget (go_name d) (opt_dict o) with Some v => v | None => go_default d end.
(** The options are exactly the declared ones, with these values. *)
Definition complete_options (ds : list goption) (o : opts) (o' : opts) : Prop :=
  exists d', o' = Some d' /\ NoDup (map fst d') /\ (forall n, n ∈ map fst d' <-> n ∈ map go_name ds) /\
    forall d, d ∈ ds -> dget (go_name d) d' = Some (option_value d o) /\ option_value d o <> VNothing.

(** [q'] is [q] with complete options at every place where options are declared; names,
    aliases and structure are the same. *)
Inductive normalized (g : graph) : gnode -> qitem -> qitem -> Prop :=
| nm_field gn n o a o' go :
    find_field gn n = Some go ->
    (gi_opts go = [] -> o' = o) -> (gi_opts go <> [] -> complete_options (gi_opts go) o o') ->
    normalized g gn (QF n o a) (QF n o' a)
| nm_parts gn n sub ord o a o' f :
    find_field gn n = Some (GF f) ->
    (gf_opts f = [] -> o' = None) -> (gf_opts f <> [] -> complete_options (gf_opts f) o o') ->
    normalized g gn (QL n sub ord o a) (QL n sub ord o' a)
| nm_link gn n sub sub' ord o a o' l gn' :
    find_field gn n = Some (GL l) -> find_node g (gl_node l) = Some gn' ->
    Forall2 (normalized g gn') sub sub' ->
    (gl_opts l = [] -> o' = None) -> (gl_opts l <> [] -> complete_options (gl_opts l) o o') ->
    normalized g gn (QL n sub ord o a) (QL n sub' ord o' a).

(** Every name of the query exists in the graph. *)
Fixpoint names_exist (g : graph) (gn : gnode) (q : qitem) {struct q} : Prop :=
  match find_field gn (q_name q) with
  | None => False
  | Some (GF _) => True
  | Some (GL l) =>
      match q with
      | QF _ _ _ => True
      | QL _ sub _ _ _ =>
          match find_node g (gl_node l) with
          | None => False
          | Some gn' => foldr (fun q' P => names_exist g gn' q' /\ P) True sub
          end
      end
  end.
(** Some declared option has neither a value nor a default. *)
Fixpoint lacks_option (g : graph) (gn : gnode) (q : qitem) {struct q} : Prop :=
  match find_field gn (q_name q) with
  | None => False
  | Some go =>
      (exists d, d ∈ gi_opts go /\ option_value d (q_opts q) = VNothing) \/
      match q, go with
      | QL _ sub _ _ _, GL l =>
          match find_node g (gl_node l) with
          | None => False
          | Some gn' => foldr (fun q' P => lacks_option g gn' q' \/ P) False sub
          end
      | _, _ => False
      end
  end.
(** Options of a member are named differently.  [Graph()] does not check this. *)
Definition distinct_options (g : graph) : Prop :=
  forall gn n go, (gn = g_root g \/ exists m, find_node g m = Some gn) -> find_field gn n = Some go -> NoDup (map go_name (gi_opts go)).

(** ** Proofs *)
Definition put_option (o : opts) (op : goption) : res (str * val) :=
  let v := match dget (go_name op) (opt_dict o) with Some v => v | None => go_default op end in
  match v with VNothing => Err TypeError | _ => Ok (go_name op, v) end.
Lemma put_option_eq o d : put_option o d = match option_value d o with VNothing => Err TypeError | _ => Ok (go_name d, option_value d o) end.
Proof. reflexivity. Qed.
Lemma get_options_eq ds o : get_options ds o = match mapR (put_option o) ds with Ok ps => Ok (of_pairs ps) | Err e => Err e end.
Proof. done. Qed.
Lemma get_options_ok ds o : (forall d, d ∈ ds -> option_value d o <> VNothing) ->
  get_options ds o = Ok (of_pairs (map (fun d => (go_name d, option_value d o)) ds)).
Proof.
  intros Hn. rewrite get_options_eq.
  assert (mapR (put_option o) ds = Ok (map (fun d => (go_name d, option_value d o)) ds)) as ->; [|done].
  induction ds as [|d ds IH]; [done|]. cbn [mapR map]. rewrite put_option_eq. pose proof (Hn d ltac:(left)) as Hd.
  rewrite IH by (intros; apply Hn; by right). destruct (option_value d o); done.
Qed.
Lemma get_options_err ds o : (exists d, d ∈ ds /\ option_value d o = VNothing) -> get_options ds o = Err TypeError.
Proof.
  intros (d & Hd & Hv). rewrite get_options_eq.
  assert (mapR (put_option o) ds = Err TypeError) as ->; [|done].
  induction ds as [|d' ds IH]; [by apply not_elem_of_nil in Hd|]. cbn [mapR]. rewrite put_option_eq.
  apply elem_of_cons in Hd as [<-|Hd]; [by rewrite Hv|]. rewrite (IH Hd). by destruct (option_value d' o).
Qed.
Lemma nothing_dec (ds : list goption) o : (exists d, d ∈ ds /\ option_value d o = VNothing) \/ (forall d, d ∈ ds -> option_value d o <> VNothing).
Proof.
  induction ds as [|d ds IH]; [right; intros ? Hx; by apply not_elem_of_nil in Hx|].
  destruct (decide (option_value d o = VNothing)) as [Hd|Hd]; [left; exists d; split; [left|done]|].
  destruct IH as [(d' & H1 & H2)|IH]; [left; exists d'; split; [by right|done]|].
  right. intros d' [->|Hd']%elem_of_cons; [done|auto].
Qed.
Lemma get_options_complete ds o d' : NoDup (map go_name ds) -> get_options ds o = Ok d' -> complete_options ds o (Some d').
Proof.
  intros Hn Hg. destruct (nothing_dec ds o) as [Hx|Hx]; [rewrite (get_options_err _ _ Hx) in Hg; done|].
  rewrite (get_options_ok _ _ Hx) in Hg. injection Hg as <-. exists (of_pairs (map (fun d => (go_name d, option_value d o)) ds)).
  assert (map fst (map (fun d => (go_name d, option_value d o)) ds) = map go_name ds) as Hm by by rewrite map_map.
  rewrite of_pairs_NoDup by (unfold dkeys; by rewrite Hm). rewrite Hm. split; [done|]. split; [done|]. split; [done|].
  intros d Hd. split; [|by apply Hx]. apply dget_NoDup; [unfold dkeys; by rewrite Hm|].
  apply elem_of_list_fmap. by exists d.
Qed.

Section c11.
  Context (g : graph).
  Hypothesis Hopts : distinct_options g.

  Lemma init_item_normalized q : forall gn q', (gn = g_root g \/ exists m, find_node g m = Some gn) ->
    init_item g gn q = Ok q' -> normalized g gn q q'.
  Proof.
    induction q as [n o a|n sub ord o a IH] using qitem_ind'; intros gn q' Hgn; simpl.
    - destruct (find_field gn n) as [go|] eqn:Ef; [|done]. destruct (gi_opts go) as [|d ds] eqn:Eo.
      + intros [= <-]. eapply nm_field; [exact Ef|done|done].
      + destruct (get_options (d :: ds) o) as [o'|] eqn:Eg; [|done]. intros [= <-].
        eapply nm_field; [exact Ef|by rewrite Eo|]. intros _. rewrite Eo. apply get_options_complete; [|done].
        rewrite <-Eo. by eapply Hopts.
    - destruct (find_field gn n) as [[f|l]|] eqn:Ef; [| |done].
      + simpl. destruct (gf_opts f) as [|d ds] eqn:Eo.
        * intros [= <-]. eapply nm_parts; [exact Ef|done|done].
        * destruct (get_options (d :: ds) o) as [o'|] eqn:Eg; [|done]. intros [= <-].
          eapply nm_parts; [exact Ef|by rewrite Eo|]. intros _. rewrite Eo. apply get_options_complete; [|done].
          rewrite <-Eo. by apply (Hopts _ _ _ Hgn Ef).
      + destruct (find_node g (gl_node l)) as [gn'|] eqn:En; [|done].
        destruct (mapR (init_item g gn') sub) as [sub'|] eqn:Es; [|done].
        assert (Forall2 (normalized g gn') sub sub') as Hsub.
        { apply mapR_ok in Es. clear -IH Es En. induction Es as [|x y sub sub' Hx _ IHs]; [constructor|].
          inversion IH as [|? ? H1 H2]; subst. constructor; [apply H1; [by right; eexists|done]|by apply IHs]. }
        simpl. destruct (gl_opts l) as [|d ds] eqn:Eo.
        * intros [= <-]. eapply nm_link; [exact Ef|exact En|done|done|done].
        * destruct (get_options (d :: ds) o) as [o'|] eqn:Eg; [|done]. intros [= <-].
          eapply nm_link; [exact Ef|exact En|done|by rewrite Eo|]. intros _. rewrite Eo. apply get_options_complete; [|done].
          rewrite <-Eo. by apply (Hopts _ _ _ Hgn Ef).
  Qed.

  (** C11: every member with declared options gets exactly these options, each with the value
      of the query or else its default. *)
  Theorem C11_normalized_options q q' : init_options g q = Ok q' ->
    qordered q' = qordered q /\ Forall2 (normalized g (g_root g)) (qfields q) (qfields q').
  Proof.
    unfold init_options. destruct (mapR _ _) as [l|] eqn:El; [|done]. intros [= <-]. split; [done|]. simpl.
    apply mapR_ok in El. induction El as [|x y l l' Hx _ IH]; constructor; [|done]. apply init_item_normalized; [by left|done].
  Qed.

  Lemma init_item_total q : forall gn, names_exist g gn q ->
    (lacks_option g gn q /\ init_item g gn q = Err TypeError) \/ (~ lacks_option g gn q /\ exists q', init_item g gn q = Ok q').
  Proof.
    induction q as [n o a|n sub ord o a IH] using qitem_ind'; intros gn; simpl.
    - destruct (find_field gn n) as [go|] eqn:Ef; [|done]. intros _.
      destruct (gi_opts go) as [|d ds] eqn:Eo.
      + right. split; [|eauto]. intros [(? & Hx & _)|[]]. by apply not_elem_of_nil in Hx.
      + destruct (nothing_dec (d :: ds) o) as [Hx|Hx].
        * left. rewrite (get_options_err _ _ Hx). auto.
        * right. rewrite (get_options_ok _ _ Hx). split; [|eauto]. intros [(d' & H1 & H2)|[]]. by apply (Hx d').
    - destruct (find_field gn n) as [[f|l]|] eqn:Ef; [| |done].
      + intros _. simpl. destruct (gf_opts f) as [|d ds] eqn:Eo.
        * right. split; [|eauto]. intros [(? & Hx & _)|[]]. by apply not_elem_of_nil in Hx.
        * destruct (nothing_dec (d :: ds) o) as [Hx|Hx].
          -- left. rewrite (get_options_err _ _ Hx). auto.
          -- right. rewrite (get_options_ok _ _ Hx). split; [|eauto]. intros [(d' & H1 & H2)|[]]. by apply (Hx d').
      + destruct (find_node g (gl_node l)) as [gn'|] eqn:En; [|done]. intros Hs.
        assert ((foldr (fun q' P => lacks_option g gn' q' \/ P) False sub /\ mapR (init_item g gn') sub = Err TypeError) \/
                (~ foldr (fun q' P => lacks_option g gn' q' \/ P) False sub /\ exists l, mapR (init_item g gn') sub = Ok l)) as [[S1 S2]|[S1 (l' & S2)]].
        { clear -IH Hs. induction IH as [|q sub Hq _ IHs]; simpl; [right; split; [tauto|eauto]|]. simpl in Hs. destruct Hs as [Hs1 Hs2].
          destruct (Hq gn' Hs1) as [[Q1 Q2]|[Q1 (y & Q2)]]; rewrite Q2; [left; tauto|].
          destruct (IHs Hs2) as [[R1 R2]|[R1 (ys & R2)]]; rewrite R2; [left; tauto|right; split; [tauto|eauto]]. }
        * left. rewrite S2. simpl. auto.
        * rewrite S2. simpl. destruct (gl_opts l) as [|d ds] eqn:Eo.
          -- right. split; [|eauto]. intros [(? & Hx & _)|Hx]; [by apply not_elem_of_nil in Hx|done].
          -- destruct (nothing_dec (d :: ds) o) as [Hx|Hx].
             ++ left. rewrite (get_options_err _ _ Hx). auto.
             ++ right. rewrite (get_options_ok _ _ Hx). split; [|eauto]. intros [(d' & H1 & H2)|?]; [by apply (Hx d')|done].
  Qed.

  (** C11: an option without value and without default is refused with [TypeError] before any
      loader is called; otherwise the options can be completed. *)
  Theorem C11_missing_option `{Hasher} E q :
    (forall q0, q0 ∈ qfields q -> names_exist g (g_root g) q0) ->
    ((exists q0, q0 ∈ qfields q /\ lacks_option g (g_root g) q0) /\ start E g q = Err TypeError) \/
    ((forall q0, q0 ∈ qfields q -> ~ lacks_option g (g_root g) q0) /\ exists q', init_options g q = Ok q').
  Proof.
    destruct q as [qs ord]. simpl. intros Hn.
    assert ((exists q0, q0 ∈ qs /\ lacks_option g (g_root g) q0) /\ mapR (init_item g (g_root g)) qs = Err TypeError \/
            (forall q0, q0 ∈ qs -> ~ lacks_option g (g_root g) q0) /\ exists l, mapR (init_item g (g_root g)) qs = Ok l) as Hm.
    { induction qs as [|q0 qs IH].
      - right. split; [intros ? Hx; by apply not_elem_of_nil in Hx|by exists []].
      - simpl. destruct (init_item_total q0 (g_root g) (Hn q0 ltac:(left))) as [[H1 H2]|[H1 (y & H2)]]; rewrite H2.
        + left. split; [|done]. exists q0. split; [left|done].
        + destruct IH as [[(q1 & H3 & H4) H5]|[H3 (l & H5)]]; [intros; apply Hn; by right| |]; rewrite H5.
          * left. split; [|done]. exists q1. split; [by right|done].
          * right. split; [|eauto]. intros q1 [->|Hq]%elem_of_cons; [done|auto]. }
    unfold start, init_options. simpl. destruct Hm as [[H1 H2]|[H1 (l & H2)]]; rewrite H2.
    - left. done.
    - right. split; [done|eauto].
  Qed.

  Lemma visited_normalized q q' : init_options g q = Ok q' -> forall gn n', visited g q' gn n' ->
    (gn = g_root g \/ exists m, find_node g m = Some gn) /\
    exists n, visited g q gn n /\ Forall2 (normalized g gn) (qfields n) (qfields n').
  Proof.
    intros Hi gn n' Hv. induction Hv as [|gn n' qi' l gn' Hv IH Hq Hk Hf Hn].
    - split; [by left|]. exists q. split; [constructor|]. by apply C11_normalized_options.
    - destruct IH as (_ & n & Hvn & Hnm). split; [right; by eexists|].
      apply elem_of_list_lookup in Hq as [k Hk']. destruct (Forall2_lookup_r _ _ _ _ _ Hnm Hk') as (qi & Hqi & Hno).
      apply elem_of_list_lookup_2 in Hqi.
      inversion Hno as [? nm o a o' go H1 H2 H3|? nm sub ord o a o' f H1 H2 H3|? nm sub sub' ord o a o' l0 gn0 H1 H2 H3 H4 H5]; subst; try done; simpl in *.
      + rewrite Hf in H1. done.
      + rewrite Hf in H1. injection H1 as <-. rewrite Hn in H2. injection H2 as <-.
        exists (QN sub ord). split; [|done]. by apply (vis_link g q gn n (QL nm sub ord o a) l gn').
  Qed.
End c11.

(** C11 in executions: a loader of fields gets, for every member it is asked for, exactly the
    declared options with the values of the query or their defaults; fields required by links
    are asked without options.  A link's loader gets its declared options. *)
Section exec.
  Context `{Hasher} (E : env) (g : graph) (D : data) (q q' : qnode).
  Hypothesis Hinit : init_options g q = Ok q'.
  Hypothesis Hopts : distinct_options g.
  Hypothesis Hserve : serves E D.
  Hypothesis Hresp : respects_options D.
  Hypothesis Hsup : supported g q'.
  Hypothesis Hlinks : links_ok g (plain_value D) D q'.

  Theorem C11_field_loader_options fuel sched x y c qfs ids q1 :
    start E g q = Ok x -> rounds E (S fuel) sched x y -> c ∈ w_log y.1 -> c_args c = AFields qfs ids -> q1 ∈ qfs ->
    (exists gn n q0, visited g q gn n /\ q0 ∈ qfields n /\ normalized g gn q0 q1) \/
    (exists gn n q0 l r, visited g q gn n /\ q0 ∈ qfields n /\ find_field gn (q_name q0) = Some (GL l) /\
       gl_requires l = Some r /\ q1 = QF r None None).
  Proof.
    intros Hx Hr Hin Ha Hq1. destruct (rounds_inv E g D q q' Hinit Hserve Hresp Hsup Hlinks _ _ _ _ Hx Hr) as (Hc & _). destruct Hc as [_ [idx Hi] _ _]. simpl in Hi.
    destruct (ei_log _ _ _ _ _ _ _ _ _ _ Hi _ Hin) as [(gn & qfs' & ids' & f & _ & -> & Hf)|(gn & l & ql & ids' & Ho & -> & _)]; [|done].
    injection Ha as -> ->. destruct (Hf _ Hq1) as [(n' & Hv & Hq) _].
    destruct (visited_normalized g Hopts q q' Hinit gn n' Hv) as (Hgn & n & Hvn & Hnm).
    destruct Hq as [Hq|(qi' & l & r & Hq & Hk & Hfl & Hrq & ->)].
    - left. apply elem_of_list_lookup in Hq as [k Hk]. destruct (Forall2_lookup_r _ _ _ _ _ Hnm Hk) as (q0 & Hq0 & Hno).
      exists gn, n, q0. split; [done|]. split; [by eapply elem_of_list_lookup_2|done].
    - right. apply elem_of_list_lookup in Hq as [k Hk']. destruct (Forall2_lookup_r _ _ _ _ _ Hnm Hk') as (q0 & Hq0 & Hno).
      exists gn, n, q0, l, r. split; [done|]. split; [by eapply elem_of_list_lookup_2|]. split; [|done].
      inversion Hno; subst; simpl in *; done.
  Qed.

  Theorem C11_link_loader_options fuel sched x y c rq o :
    start E g q = Ok x -> rounds E (S fuel) sched x y -> c ∈ w_log y.1 -> c_args c = ALink rq o ->
    exists gn n q0 l, visited g q gn n /\ q0 ∈ qfields n /\ find_field gn (q_name q0) = Some (GL l) /\ c_func c = gl_func l /\
      (gl_opts l = [] -> o = None) /\ (gl_opts l <> [] -> exists o', o = Some o' /\ complete_options (gl_opts l) (q_opts q0) o').
  Proof.
    intros Hx Hr Hin Ha.
    destruct (C07_link_arguments_partial E g D q q' Hinit Hserve Hresp Hsup Hlinks _ _ _ _ _ _ _ Hx Hr Hin Ha) as (gn & n' & l & ql & ids & Hv & Hq & Hf & Hc & Ho & _).
    destruct (visited_normalized g Hopts q q' Hinit gn n' Hv) as (Hgn & n & Hvn & Hnm).
    pose proof (sp_items _ _ Hsup _ _ _ Hv Hq) as Hsp. rewrite Hf in Hsp. destruct Hsp as (Hk & _).
    apply elem_of_list_lookup in Hq as [k Hk']. destruct (Forall2_lookup_r _ _ _ _ _ Hnm Hk') as (q0 & Hq0 & Hno).
    exists gn, n, q0, l. split; [done|]. split; [by eapply elem_of_list_lookup_2|].
    inversion Hno as [? nm o1 a o' go H1 H2 H3|? nm sub ord o1 a o' f H1 H2 H3|? nm sub sub' ord o1 a o' l0 gn0 H1 H2 H3 H4 H5]; subst ql q0; simpl in *; [done|congruence|].
    split; [done|]. split; [done|]. rewrite Hf in H1. injection H1 as <-. split; [intros Hg; by rewrite Hg in Ho|].
    intros Hg. exists o'. split; [|by apply H5]. rewrite Ho. by destruct (gl_opts l).
  Qed.
End exec.

(** ** Ordered nodes (C10) *)
(** The query without its marks of ordered nodes *)
Fixpoint unmark (q : qitem) : qitem :=
  match q with QF n o a => QF n o a | QL n sub _ o a => QL n (map unmark sub) false o a end.
Definition unmarked (q : qnode) : list qitem := map unmark (qfields q).

Lemma unmark_name q : q_name (unmark q) = q_name q. Proof. by destruct q. Qed.
Lemma unmark_opts q : q_opts (unmark q) = q_opts q. Proof. by destruct q. Qed.
Lemma unmark_key q : result_key (unmark q) = result_key q. Proof. by destruct q. Qed.
Lemma mapR_unmark {B} (f : qitem -> res B) (l : list qitem) :
  (forall q, q ∈ l -> f (unmark q) = f q) -> mapR f (map unmark l) = mapR f l.
Proof.
  induction l as [|q l IH]; intros Hl; [done|]. simpl. rewrite (Hl q ltac:(left)), IH; [done|]. intros. apply Hl. by right.
Qed.
Lemma mapR_cong {A B} (f f' : A -> res B) (l : list A) : (forall x, f x = f' x) -> mapR f l = mapR f' l.
Proof. intros Hf. induction l as [|x l IH]; [done|]. simpl. by rewrite Hf, IH. Qed.
Lemma denorm_type_unmark q : forall t v, denorm_type (unmark q) t v = denorm_type q t v.
Proof.
  induction q as [n o a|n sub ord o a IH] using qitem_ind'; intros t v; [done|]. rewrite Forall_forall in IH. simpl.
  revert v. induction t; intros v; try done.
  - by destruct v.
  - destruct (iter_of v) as [l|]; [|done]. by rewrite (mapR_cong _ _ l IHt).
  - rewrite mapR_unmark; [done|]. intros f Hf. rewrite unmark_name. destruct (dget _ _); [|done]. destruct (py_getitem _ _); [|done]. by rewrite IH.
Qed.
Lemma resolve_unmark g fv D q : forall gn i, resolve g fv D gn i (unmark q) = resolve g fv D gn i q.
Proof.
  induction q as [n o a|n sub ord o a IH] using qitem_ind'; intros gn i; [done|]. rewrite Forall_forall in IH.
  pose proof (denorm_type_unmark (QL n sub ord o a)) as Hd. cbn [unmark] in Hd |- *.
  cbn [resolve q_name q_opts result_key q_alias]. destruct (find_field gn n) as [[f|l]|]; [| |done].
  - destruct (get_type _ _) as [t|]; [|done]. by rewrite Hd.
  - destruct (find_node g (gl_node l)) as [gn'|]; [|done].
    assert (forall j, mapR (resolve g fv D gn' (Some j)) (map unmark sub) = mapR (resolve g fv D gn' (Some j)) sub) as Hs.
    { intros j. apply mapR_unmark. intros q1 Hq1. by apply IH. }
    change (link_value fv D gn i l (QL n (map unmark sub) false o a)) with (link_value fv D gn i l (QL n sub ord o a)).
    destruct (gl_enum l).
    + destruct (link_value fv D gn i l _); try rewrite Hs; done.
    + by rewrite Hs.
    + set (f1 := fun j => match mapR (resolve g fv D gn' (Some j)) (map unmark sub) with Ok ps => Ok (TO (of_pairs ps)) | Err e => Err e end).
      set (f2 := fun j => match mapR (resolve g fv D gn' (Some j)) sub with Ok ps => Ok (TO (of_pairs ps)) | Err e => Err e end).
      rewrite (mapR_cong f1 f2); [done|]. intros j. unfold f1, f2. by rewrite Hs.
Qed.
Lemma resolve_query_unmark g fv D q1 q2 : unmarked q1 = unmarked q2 -> resolve_query g fv D q1 = resolve_query g fv D q2.
Proof.
  intros Hu. unfold resolve_query.
  rewrite <-(mapR_unmark (resolve g fv D (g_root g) None) (qfields q1)) by (intros; apply resolve_unmark).
  rewrite <-(mapR_unmark (resolve g fv D (g_root g) None) (qfields q2)) by (intros; apply resolve_unmark).
  unfold unmarked in Hu. by rewrite Hu.
Qed.

(** C10: queries which differ only in which nodes are marked as ordered give the same result. *)
Theorem C10_ordered_same_result_partial `{Hasher} (E : env) (g : graph) (D : data) (q1 q2 q1' q2' : qnode) fuel1 fuel2 sched1 sched2 r1 r2 :
  init_options g q1 = Ok q1' -> init_options g q2 = Ok q2' -> unmarked q1' = unmarked q2' ->
  serves E D -> respects_options D -> supported g q1' -> supported g q2' ->
  links_ok g (plain_value D) D q1' -> links_ok g (plain_value D) D q2' ->
  execute E (S fuel1) g q1 sched1 r1 -> execute E (S fuel2) g q2 sched2 r2 ->
  exists idx1 idx2, r1 = Ok (idx1, q1') /\ r2 = Ok (idx2, q2') /\ denormalize g idx1 q1' = denormalize g idx2 q2'.
Proof.
  intros Hi1 Hi2 Hu Hs Hr Hs1 Hs2 Hl1 Hl2 H1 H2.
  apply (C04_result_independent_of_schedule_partial E g D q1 q1') in H1 as (idx1 & -> & E1); [|done..].
  apply (C04_result_independent_of_schedule_partial E g D q2 q2') in H2 as (idx2 & -> & E2); [|done..].
  exists idx1, idx2. split; [done|]. split; [done|]. rewrite E1, E2. by apply resolve_query_unmark.
Qed.

(** ** The hypotheses are met *)
From Verif Require Import ExEngine.
#[local] Existing Instance ex_hasher.
Example C11_distinct : distinct_options ex_graph.
Proof.
  intros gn n go Hgn Hf. apply dget_Some_elem, elem_of_list_In in Hf.
  assert (gn = g_root ex_graph \/ gn = ex_user) as [-> | ->].
  { destruct Hgn as [->|[m Hm]]; [by left|right]. apply dget_Some_elem, elem_of_list_In in Hm. vm_compute in Hm.
    destruct Hm as [Hm|[]]. inversion Hm; subst. done. }
  all: vm_compute in Hf; repeat destruct Hf as [Hf|Hf]; try done; inversion Hf; subst n go; apply (bool_decide_unpack _); vm_compute; exact I.
Qed.
Example C11_names q0 : q0 ∈ qfields ex_query -> names_exist ex_graph (g_root ex_graph) q0.
Proof. intros Hq. apply elem_of_list_In in Hq. vm_compute in Hq. repeat destruct Hq as [Hq|Hq]; try done; subst q0; vm_compute; tauto. Qed.
(** The same query without a value for the option [n] *)
Example C11_refused E : start E ex_graph (QN [QF (s "version") None None; QF (s "limited") (Some [(s "m", VInt 3)]) None] false) = Err TypeError.
Proof. reflexivity. Qed.
Example C11_lacks : lacks_option ex_graph (g_root ex_graph) (QF (s "limited") (Some [(s "m", VInt 3)]) None).
Proof. left. exists (GOption (s "n") None VNothing). split; [apply elem_of_list_In; vm_compute; tauto|done]. Qed.
(** [limited] is asked with [n] from the query and the default of [m]. *)
Example C11_call : Call 3 false (AFields [QF (s "version") None None;
    QF (s "limited") (Some [(s "n", VInt 3); (s "m", VInt 5)]) (Some (s "lim"))] None) ∈ w_log (ex_end (take 7 sched2)).1.
Proof. apply elem_of_list_In. vm_compute. tauto. Qed.

(** The whole example query marked as ordered, and without any marks *)
Definition ex_ordered : qnode := QN (qfields ex_query') true.
Definition ex_unordered : qnode := QN (unmarked ex_query') false.
Example C10_applies : unmarked ex_ordered = unmarked ex_unordered /\ supported ex_graph ex_ordered /\ supported ex_graph ex_unordered /\
  init_options ex_graph ex_ordered = Ok ex_ordered /\ init_options ex_graph ex_unordered = Ok ex_unordered.
Proof.
  split; [vm_compute; reflexivity|]. split; [apply supported_check; vm_compute; reflexivity|].
  split; [apply supported_check; vm_compute; reflexivity|]. split; vm_compute; reflexivity.
Qed.

(** ** Findings *)
(** C11 does not hold for fields required by links: [price] has the option [currency] with the
    default ["usd"]; the link requires it; its loader is called without options
    (engine.py:111-125 after 30-57). *)
Definition req_graph : graph := Graph
  [GNode (Some (s "Item")) [GF (GField (s "name") None (FPlain 2) [])];
   GNode None [GF (GField (s "price") None (FPlain 1) [GOption (s "currency") None (VStr (s "usd"))]);
               GL (GLink (s "items") Many (s "Item") 10 (Some (s "price")) [])]] [].
Theorem C11_required_field_refuted : exists E q x c,
  start E req_graph q = Ok x /\ c ∈ w_log x.1 /\ c_func c = 1%N /\ c_args c = AFields [QF (s "price") None None] None /\
  forall q' : qnode, init_options req_graph (QN [QF (s "price") None None] false) = Ok q' ->
    qfields q' = [QF (s "price") (Some [(s "currency", VStr (s "usd"))]) None].
Proof.
  exists (ex_env false), (QN [QL (s "items") [QF (s "name") None None] false None None] false).
  eexists. eexists. split; [vm_compute; reflexivity|]. split; [left|]. split; [done|]. split; [done|].
  intros q'. vm_compute. by intros [= <-].
Qed.

(** C10 does not hold for fields which return records: selecting parts of such a field in an
    ordered node raises [AttributeError] (engine.py:121), in an unordered node it works. *)
Definition rec_graph : graph := Graph
  [GNode None [GF (GField (s "point") (Some (TRec [(s "x", TInt)])) (FPlain 1) [])]] [].
Definition rec_query (ordered : bool) : qnode := QN [QL (s "point") [QF (s "x") None None] false None None] ordered.
Theorem C10_complex_refuted E :
  start E rec_graph (rec_query true) = Err AttributeError /\ (exists x, start (ex_env false) rec_graph (rec_query false) = Ok x).
Proof. split; [vm_compute; reflexivity|]. eexists. vm_compute. reflexivity. Qed.

Print Assumptions C11_normalized_options.
Print Assumptions C11_missing_option.
Print Assumptions C11_field_loader_options.
Print Assumptions C11_link_loader_options.
Print Assumptions C10_ordered_same_result_partial.
Print Assumptions C11_required_field_refuted.
Print Assumptions C10_complex_refuted.

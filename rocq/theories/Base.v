(** Common ground of the model: Python strings, ordered dicts, exceptions. *)
From stdpp Require Export base tactics list numbers list_numbers option sorting.
From Coq Require Import Ascii.
From Coq Require String.
Export String.StringSyntax.
Delimit Scope string_scope with string.
From Coq Require Export Lia ZArith.
Global Unset Program Cases.

(** ** Python [str]: a sequence of Unicode code points. *)
Definition str := list N.

(** Literals: [s "foo"]; Coq's 8-bit characters stand for the code points below 256. *)
Definition s (x : String.string) : str := map N_of_ascii (String.list_ascii_of_string x).
Arguments s _%string.

Global Instance str_eq_dec : EqDecision str := _.

(** Lexicographic order by code point, Python's [<=] on [str]. *)
Fixpoint str_leb (a b : str) : bool :=
  match a, b with
  | [], _ => true
  | _ :: _, [] => false
  | x :: a', y :: b' => if N.eqb x y then str_leb a' b' else N.ltb x y
  end.
Definition str_le (a b : str) : Prop := str_leb a b = true.

Global Instance str_le_dec : RelDecision str_le.
Proof. intros a b; unfold str_le; apply _. Defined.

Lemma str_le_refl a : str_le a a.
Proof. induction a as [|x a IH]; unfold str_le in *; simpl; [done|]. by rewrite N.eqb_refl. Qed.

Lemma str_le_trans a b c : str_le a b -> str_le b c -> str_le a c.
Proof.
  unfold str_le. revert b c; induction a as [|x a IH]; intros [|y b] [|z c]; simpl; try done.
  destruct (N.eqb_spec x y), (N.eqb_spec y z), (N.eqb_spec x z); subst; try done; eauto;
    rewrite ?N.ltb_lt; intros; try lia.
Qed.

Lemma str_le_total a b : str_le a b \/ str_le b a.
Proof.
  unfold str_le. revert b; induction a as [|x a IH]; intros [|y b]; simpl; auto.
  destruct (N.eqb_spec x y), (N.eqb_spec y x); subst; try done; auto.
  rewrite !N.ltb_lt. lia.
Qed.

Lemma str_le_antisym a b : str_le a b -> str_le b a -> a = b.
Proof.
  unfold str_le. revert b; induction a as [|x a IH]; intros [|y b]; simpl; try done.
  destruct (N.eqb_spec x y), (N.eqb_spec y x); subst; try done.
  - intros; f_equal; auto.
  - rewrite !N.ltb_lt. lia.
Qed.

(** ** Decimal text of an integer: Python's [str(n)]. *)
Fixpoint digits (fuel : nat) (n : N) (acc : str) : str :=
  match fuel with
  | O => acc
  | S k => let acc' := (48 + n mod 10)%N :: acc in
           if (n <? 10)%N then acc' else digits k (n / 10) acc'
  end.
Definition N_str (n : N) : str := digits (S (N.size_nat n)) n [].
Definition Z_str (z : Z) : str :=
  match z with
  | Z0 => N_str 0
  | Zpos p => N_str (Npos p)
  | Zneg p => 45%N :: N_str (Npos p)
  end.

Definition is_digit (c : N) : bool := (48 <=? c)%N && (c <=? 57)%N.

(** Python's [int(text)] on a text made of digits with an optional minus. *)
Fixpoint parse_digits (acc : N) (t : str) : option N :=
  match t with
  | [] => Some acc
  | c :: t' => if is_digit c then parse_digits (10 * acc + (c - 48)) t' else None
  end.
Definition parse_nat (t : str) : option N :=
  match t with [] => None | _ => parse_digits 0 t end.
Definition parse_int (t : str) : option Z :=
  match t with
  | [] => None
  | c :: t' => if (c =? 45)%N then option_map (fun n => Z.opp (Z.of_N n)) (parse_nat t')
               else option_map Z.of_N (parse_nat t)
  end.

Lemma parse_digits_app a b acc :
  parse_digits acc (a ++ b) = match parse_digits acc a with Some n => parse_digits n b | None => None end.
Proof. revert acc; induction a as [|c a IH]; intros acc; simpl; [done|]. destruct (is_digit c); auto. Qed.

Lemma digits_app fuel n acc : digits fuel n acc = digits fuel n [] ++ acc.
Proof.
  revert n acc; induction fuel as [|f IH]; intros n acc; simpl; [done|].
  destruct (n <? 10)%N; [done|]. rewrite IH, (IH _ [_]). by rewrite <-app_assoc.
Qed.

Lemma N_size_lt n f : (n < 2 ^ N.of_nat f)%N -> f <> O \/ n = 0%N.
Proof. destruct f; simpl; [right; lia | left; done]. Qed.

Lemma digits_parse fuel n :
  (n < 10 ^ N.of_nat fuel)%N -> fuel <> O -> parse_digits 0 (digits fuel n []) = Some n.
Proof.
  revert n; induction fuel as [|f IH]; intros n Hn Hf; [done|]. cbn [digits].
  destruct (N.ltb_spec n 10).
  - cbn [parse_digits]. unfold is_digit. rewrite (N.mod_small n 10) by lia.
    destruct (N.leb_spec 48 (48 + n)), (N.leb_spec (48 + n) 57); try lia. cbn. f_equal. lia.
  - rewrite digits_app, parse_digits_app.
    rewrite Nat2N.inj_succ, N.pow_succ_r' in Hn.
    rewrite IH.
    + cbn [parse_digits]. unfold is_digit.
      pose proof (N.mod_lt n 10 ltac:(lia)). pose proof (N.div_mod' n 10).
      set (m := (n mod 10)%N) in *. clearbody m. set (q := (n / 10)%N) in *. clearbody q.
      destruct (N.leb_spec 48 (48 + m)), (N.leb_spec (48 + m) 57); try lia.
      cbn [andb]. f_equal. lia.
    + apply N.div_lt_upper_bound; lia.
    + intros ->. change (N.of_nat 0) with 0%N in Hn. rewrite N.pow_0_r in Hn. lia.
Qed.

Lemma N_size_pow n : (n < 2 ^ N.of_nat (N.size_nat n))%N.
Proof.
  destruct n as [|p]; [simpl; lia|].
  pose proof (N.size_gt (Npos p)) as H. simpl N.size_nat.
  replace (N.of_nat (Pos.size_nat p)) with (N.size (Npos p)); [done|].
  simpl. clear H. induction p as [p IH|p IH|]; simpl; [| |done];
    rewrite <-?IH; simpl; destruct (Pos.size_nat p) eqn:E; simpl in *;
    try (destruct p; discriminate); lia.
Qed.

Lemma N_str_parse n : parse_nat (N_str n) = Some n.
Proof.
  unfold N_str, parse_nat.
  assert (parse_digits 0 (digits (S (N.size_nat n)) n []) = Some n) as H.
  { apply digits_parse; [|done].
    rewrite Nat2N.inj_succ. pose proof (N_size_pow n) as Hp.
    eapply N.lt_le_trans; [exact Hp|].
    transitivity (10 ^ N.of_nat (N.size_nat n))%N.
    - apply N.pow_le_mono_l; lia.
    - apply N.pow_le_mono_r; lia. }
  destruct (digits _ _ _) eqn:E; [|done].
  exfalso. simpl in E. destruct (n <? 10)%N; [done|].
  rewrite digits_app in E. by apply app_eq_nil in E as [_ E].
Qed.

Lemma digits_all_digit fuel n acc :
  Forall (fun c => is_digit c = true) acc -> Forall (fun c => is_digit c = true) (digits fuel n acc).
Proof.
  revert n acc; induction fuel as [|f IH]; intros n acc H; simpl; [done|].
  assert (is_digit (48 + n mod 10) = true).
  { unfold is_digit. pose proof (N.mod_lt n 10 ltac:(lia)).
    set (m := (n mod 10)%N) in *. clearbody m.
    apply andb_true_iff; split; apply N.leb_le; lia. }
  destruct (n <? 10)%N; [|apply IH]; by constructor.
Qed.

Lemma N_str_digits n : Forall (fun c => is_digit c = true) (N_str n).
Proof. apply digits_all_digit. constructor. Qed.

Lemma N_str_nonnil n : N_str n <> [].
Proof. intros E. pose proof (N_str_parse n) as H. by rewrite E in H. Qed.

Lemma N_str_head n : exists c t, N_str n = c :: t /\ is_digit c = true.
Proof.
  pose proof (N_str_nonnil n). pose proof (N_str_digits n) as F.
  destruct (N_str n) as [|c t]; [done|]. inversion F; eauto.
Qed.

Lemma Z_str_parse z : parse_int (Z_str z) = Some z.
Proof.
  unfold parse_int. destruct z as [|p|p]; simpl.
  - done.
  - destruct (N_str_head (Npos p)) as (c & t & E & D). rewrite E.
    destruct (N.eqb_spec c 45) as [->|]; [done|].
    rewrite <-E, N_str_parse. done.
  - rewrite N_str_parse. done.
Qed.

Global Instance Z_str_inj : Inj (=) (=) Z_str.
Proof. intros a b E. pose proof (Z_str_parse a) as H. rewrite E, Z_str_parse in H. congruence. Qed.

(** ** Exceptions. Messages are not modelled; the kind of the exception is. *)
Inductive exn : Set :=
| TypeError | KeyError | ValueError | AttributeError | AssertionError
| IndexError | NotImplementedErr | NameErr | StopIterationErr
| UserErr (n : N)          (* an exception raised by user code (a loader) *)
| GraphqlErr (l : list N)  (* hiku.endpoint.graphql.GraphQLError raised by user code, with the errors l (any values, numbered) *)
| OutOfFuel.               (* not a Python exception: the model ran out of fuel *)

Inductive res (A : Type) : Type := Ok (a : A) | Err (e : exn).
Arguments Ok {A} a.
Arguments Err {A} e.

Global Instance exn_eq_dec : EqDecision exn.
Proof. solve_decision. Defined.

Global Instance res_ret : MRet res := fun A a => Ok a.
Global Instance res_bind : MBind res :=
  fun A B f m => match m with Ok a => f a | Err e => Err e end.
Global Instance res_fmap : FMap res :=
  fun A B f m => match m with Ok a => Ok (f a) | Err e => Err e end.

Definition is_ok {A} (r : res A) : Prop := exists a, r = Ok a.
Definition from_opt {A} (e : exn) (o : option A) : res A :=
  match o with Some a => Ok a | None => Err e end.
Definition guard_ (b : bool) (e : exn) : res unit := if b then Ok tt else Err e.

Lemma bind_ok {A B} (m : res A) (f : A -> res B) b :
  (m ≫= f) = Ok b <-> exists a, m = Ok a /\ f a = Ok b.
Proof. destruct m; simpl; naive_solver. Qed.

Section mapR.
  Context {A B : Type} (f : A -> res B).
  Fixpoint mapR (l : list A) : res (list B) :=
    match l with
    | [] => Ok []
    | x :: l' => match f x with
                 | Err e => Err e
                 | Ok y => match mapR l' with Err e => Err e | Ok ys => Ok (y :: ys) end
                 end
    end.
End mapR.

Lemma mapR_ok {A B} (f : A -> res B) l ys :
  mapR f l = Ok ys <-> Forall2 (fun x y => f x = Ok y) l ys.
Proof.
  revert ys; induction l as [|x l IH]; intros ys; simpl.
  - split; [intros [= <-]; constructor | intros H; by inversion H].
  - split.
    + destruct (f x) eqn:E; [|done]. destruct (mapR f l) eqn:E2; [|done].
      intros [= <-]. constructor; [done|]. by apply IH.
    + intros H; inversion H as [|? y ? ys' Hx Hl]; subst. rewrite Hx.
      apply IH in Hl. by rewrite Hl.
Qed.

Lemma mapR_ext {A B} (f g : A -> res B) l :
  Forall (fun x => f x = g x) l -> mapR f l = mapR g l.
Proof. induction 1 as [|x l H _ IH]; simpl; [done|]. by rewrite H, IH. Qed.

Lemma mapR_map_ok {A B} (f : A -> res B) (g : A -> B) l :
  Forall (fun x => f x = Ok (g x)) l -> mapR f l = Ok (map g l).
Proof. induction 1 as [|x l H _ IH]; simpl; [done|]. by rewrite H, IH. Qed.

Section foldR.
  Context {A B : Type} (f : B -> A -> res B).
  Fixpoint foldR (b : B) (l : list A) : res B :=
    match l with
    | [] => Ok b
    | x :: l' => match f b x with Err e => Err e | Ok b' => foldR b' l' end
    end.
End foldR.

Lemma foldR_app {A B} (f : B -> A -> res B) b l1 l2 :
  foldR f b (l1 ++ l2) = match foldR f b l1 with Err e => Err e | Ok b' => foldR f b' l2 end.
Proof. revert b; induction l1 as [|x l IH]; intros b; simpl; [done|]. destruct (f b x); auto. Qed.

(** ** Python [dict]/[OrderedDict]: insertion ordered, keys unique when built by [dset]. *)
Definition dict (K V : Type) := list (K * V).

Section dict.
  Context {K V : Type} `{EqDecision K}.
  Implicit Types (d : dict K V) (k : K) (v : V).

  (** [d.get(k)] *)
  Fixpoint dget k d : option V :=
    match d with
    | [] => None
    | (k', v) :: d' => if decide (k = k') then Some v else dget k d'
    end.

  (** [d[k] = v]: an existing key keeps its position, a new one goes last. *)
  Fixpoint dset k v d : dict K V :=
    match d with
    | [] => [(k, v)]
    | (k', v') :: d' => if decide (k = k') then (k', v) :: d' else (k', v') :: dset k v d'
    end.

  (** [d.pop(k, None)] without the value *)
  Fixpoint ddel k d : dict K V :=
    match d with
    | [] => []
    | (k', v') :: d' => if decide (k = k') then d' else (k', v') :: ddel k d'
    end.

  Definition dkeys d : list K := map fst d.

  (** [dict(pairs)], [d.update(pairs)] *)
  Definition dupdate d (ps : list (K * V)) : dict K V :=
    fold_left (fun d p => dset p.1 p.2 d) ps d.
  Definition of_pairs (ps : list (K * V)) : dict K V := dupdate [] ps.

  Lemma dget_dset_eq k v d : dget k (dset k v d) = Some v.
  Proof.
    induction d as [|[k' v'] d IH]; simpl; [by rewrite decide_True|].
    destruct (decide (k = k')); simpl; [by rewrite decide_True|].
    by rewrite decide_False.
  Qed.
  Lemma dget_dset_ne k k' v d : k <> k' -> dget k (dset k' v d) = dget k d.
  Proof.
    intros Hne. induction d as [|[k2 v2] d IH]; simpl; [by rewrite decide_False|].
    destruct (decide (k' = k2)) as [->|]; simpl.
    - by rewrite !decide_False.
    - destruct (decide (k = k2)); auto.
  Qed.
  Lemma dget_dset k k' v d :
    dget k (dset k' v d) = if decide (k = k') then Some v else dget k d.
  Proof. destruct (decide (k = k')) as [->|]; [apply dget_dset_eq | by apply dget_dset_ne]. Qed.

  Lemma dget_Some_elem k v d : dget k d = Some v -> (k, v) ∈ d.
  Proof.
    induction d as [|[k' v'] d IH]; simpl; [done|].
    destruct (decide (k = k')) as [->|]; [intros [= ->]; left | right; auto].
  Qed.
  Lemma dget_None k d : dget k d = None <-> k ∉ dkeys d.
  Proof.
    unfold dkeys. induction d as [|[k' v'] d IH]; simpl; [split; [intros _ H; inversion H|done]|].
    rewrite elem_of_cons. destruct (decide (k = k')); [naive_solver|]. rewrite IH. tauto.
  Qed.
  Lemma dget_is_Some k d : is_Some (dget k d) <-> k ∈ dkeys d.
  Proof.
    destruct (dget k d) eqn:E.
    - split; [|eauto]. intros _. apply dget_Some_elem in E.
      unfold dkeys. apply elem_of_list_fmap. by exists (k, v).
    - apply dget_None in E. split; [by intros [? [=]] | done].
  Qed.
  Lemma dget_NoDup k v d : NoDup (dkeys d) -> (k, v) ∈ d -> dget k d = Some v.
  Proof.
    unfold dkeys. induction d as [|[k' v'] d IH]; simpl; intros Hn Hin; [by inversion Hin|].
    inversion Hn as [|? ? Hk Hn']; subst.
    apply elem_of_cons in Hin as [[= -> ->]|Hin]; [by rewrite decide_True|].
    rewrite decide_False; [auto|]. intros ->. apply Hk.
    apply elem_of_list_fmap. by exists (k', v).
  Qed.

  Lemma dkeys_dset k v d : dkeys (dset k v d) = if decide (k ∈ dkeys d) then dkeys d else dkeys d ++ [k].
  Proof.
    unfold dkeys. induction d as [|[k' v'] d IH]; simpl.
    - done.
    - destruct (decide (k = k')) as [->|Hne]; simpl.
      + rewrite decide_True; [done|]. left.
      + rewrite IH. destruct (decide (k ∈ map fst d)) as [Hin|Hin].
        * rewrite decide_True; [done|]. by right.
        * rewrite decide_False; [done|]. rewrite elem_of_cons. naive_solver.
  Qed.
  Lemma NoDup_dset k v d : NoDup (dkeys d) -> NoDup (dkeys (dset k v d)).
  Proof.
    intros H. rewrite dkeys_dset. destruct (decide _) as [|Hn]; [done|].
    apply NoDup_app; split; [done|]. split; [|apply NoDup_singleton].
    intros x Hx ->%elem_of_list_singleton. done.
  Qed.
  Lemma NoDup_dupdate d ps : NoDup (dkeys d) -> NoDup (dkeys (dupdate d ps)).
  Proof.
    unfold dupdate. revert d; induction ps as [|p ps IH]; intros d H; simpl; [done|].
    apply IH. by apply NoDup_dset.
  Qed.
  Lemma NoDup_of_pairs ps : NoDup (dkeys (of_pairs ps)).
  Proof. apply NoDup_dupdate. constructor. Qed.

  Lemma dset_app_new k v d : k ∉ dkeys d -> dset k v d = d ++ [(k, v)].
  Proof.
    unfold dkeys. induction d as [|[k' v'] d IH]; simpl; [done|].
    rewrite elem_of_cons. intros H. rewrite decide_False by tauto. f_equal. tauto.
  Qed.
  Lemma dupdate_NoDup d ps :
    NoDup (dkeys d ++ dkeys ps) -> dupdate d ps = d ++ ps.
  Proof.
    unfold dupdate. revert d; induction ps as [|[k v] ps IH]; intros d H; simpl; [by rewrite app_nil_r|].
    rewrite dset_app_new, IH.
    - by rewrite <-app_assoc.
    - unfold dkeys in *. simpl in *. rewrite map_app; simpl. rewrite <-app_assoc. done.
    - apply NoDup_app in H as (_ & H & _). intros Hin. apply (H k Hin). left.
  Qed.
  Lemma of_pairs_NoDup ps : NoDup (dkeys ps) -> of_pairs ps = ps.
  Proof. intros H. unfold of_pairs. by rewrite dupdate_NoDup. Qed.

  Lemma dget_app k d1 d2 :
    dget k (d1 ++ d2) = match dget k d1 with Some v => Some v | None => dget k d2 end.
  Proof. induction d1 as [|[k' v'] d1 IH]; simpl; [done|]. destruct (decide _); auto. Qed.

  (** A lookup after [update] finds the last of the given pairs, else the old value. *)
  Lemma dget_dupdate k d ps :
    dget k (dupdate d ps) = match dget k (reverse ps) with Some v => Some v | None => dget k d end.
  Proof.
    unfold dupdate. revert d; induction ps as [|[k' v'] ps IH]; intros d; [done|].
    rewrite reverse_cons. cbn [fold_left fst snd]. rewrite IH, dget_app.
    destruct (dget k (reverse ps)); [done|]. rewrite dget_dset. simpl. by destruct (decide _).
  Qed.

  Lemma dget_ddel_ne k k' d : k <> k' -> dget k (ddel k' d) = dget k d.
  Proof.
    intros Hne. induction d as [|[k2 v2] d IH]; simpl; [done|].
    destruct (decide (k' = k2)) as [->|]; [by rewrite decide_False|].
    simpl. destruct (decide (k = k2)); auto.
  Qed.
  Lemma dget_ddel_eq k d : NoDup (dkeys d) -> dget k (ddel k d) = None.
  Proof.
    unfold dkeys. induction d as [|[k' v'] d IH]; simpl; intros H; [done|].
    inversion H as [|? ? Hk Hn]; subst. destruct (decide (k = k')) as [->|Hne].
    - apply dget_None. done.
    - simpl. rewrite decide_False by done. auto.
  Qed.
  Lemma elem_of_ddel x k d : x ∈ ddel k d -> x ∈ d.
  Proof.
    induction d as [|[k' v'] d IH]; simpl; [done|]. destruct (decide _); [by right|].
    rewrite !elem_of_cons. naive_solver.
  Qed.
  Lemma dkeys_ddel_sub k k' d : k' ∈ dkeys (ddel k d) -> k' ∈ dkeys d.
  Proof.
    unfold dkeys. rewrite !elem_of_list_fmap. intros (x & -> & Hx).
    exists x. split; [done|]. by eapply elem_of_ddel.
  Qed.
  Lemma NoDup_ddel k d : NoDup (dkeys d) -> NoDup (dkeys (ddel k d)).
  Proof.
    unfold dkeys. induction d as [|[k' v'] d IH]; simpl; intros H; [done|].
    inversion H as [|? ? Hk Hn]; subst. destruct (decide _); [done|]. simpl.
    constructor; [|auto]. intros Hin. apply Hk. by eapply dkeys_ddel_sub.
  Qed.
  Lemma ddel_notin k d : k ∉ dkeys d -> ddel k d = d.
  Proof.
    unfold dkeys. induction d as [|[k' v'] d IH]; simpl; [done|].
    rewrite elem_of_cons. intros. rewrite decide_False by tauto. f_equal. tauto.
  Qed.
End dict.

(** [d[k].append(v)] on a [defaultdict(list)]. *)
Definition dappend {K V} `{EqDecision K} (k : K) (v : V) (d : dict K (list V)) : dict K (list V) :=
  dset k (match dget k d with Some l => l ++ [v] | None => [v] end) d.

(** C58: expressions as they are written (hiku/expr/core.py) and what they mean. *)
From stdpp Require Import sets.
From Verif Require Import Base Val Types Query QuerySpec QueryProof MergeProof PropQuery Edn Export ExportSpec EdnSpec PropEdn PropExport Expr ExprSpec PropExpr ExprBuild Examples.

(** ** Specification *)
(** What a program means, read as the documentation says *)
Fixpoint meaning (p : prog) : expr :=
  match p with
  | PSym n => ESym n None
  | PAttr p n => EGet (meaning p) n None
  | PApp f args => ECall (fn_name f) None (map meaning args)
  | PEach x c b => EEach x None (meaning c) (meaning b)
  | PIf a b c => ECall (s "if") None [meaning a; meaning b; meaning c]
  | PIfSome x b t e => EIfSome x None (meaning b) (meaning t) (meaning e)
  | PList l => EList (map meaning l)
  | PDict l => EDict (map (fun '(k, p) => (k, meaning p)) l)
  | PVal v => EConst v
  end.
(** The functions mentioned by a program *)
Fixpoint mentions (p : prog) : list fn :=
  match p with
  | PSym _ | PVal _ => []
  | PAttr p _ => mentions p
  | PApp f args => f :: concat (map mentions args)
  | PEach _ c b => each_fn :: mentions c ++ mentions b
  | PIf a b c => if_fn :: mentions a ++ mentions b ++ mentions c
  | PIfSome _ b t e => if_some_fn :: mentions b ++ mentions t ++ mentions e
  | PList l => concat (map mentions l)
  | PDict l => concat (map (fun '(_, p) => mentions p) l)
  end.
(** Programs of the documented kind: attributes of [S] and of its attributes only ([S.a.b.c]); no names of
    attributes of all Python objects, and none called [obj]; functions of users are not called like the
    built-in forms. *)
Definition special : list str := [s "get"; s "each"; s "if_some"; s "if"].
Fixpoint written (p : prog) : Prop :=
  match p with
  | PSym n => n ∉ object_attrs
  | PAttr p n => written p /\ match p with PSym _ | PAttr _ _ => True | _ => False end /\ n ∉ object_attrs /\ n <> s "obj"
  | PApp f args => fn_name f ∉ special /\ (fix all l := match l with [] => True | p :: l' => written p /\ all l' end) args
  | PEach x c b => x ∉ object_attrs /\ written c /\ written b
  | PIf a b c => written a /\ written b /\ written c
  | PIfSome x b t e => x ∉ object_attrs /\ written b /\ written t /\ written e
  | PList l => (fix all l := match l with [] => True | p :: l' => written p /\ all l' end) l
  | PDict l => (fix all l := match l with [] => True | (_, p) :: l' => written p /\ all l' end) l
  | PVal _ => True
  end.
(** Functions are told apart by their identity *)
Definition identities (l : list fn) : Prop := forall f g, f ∈ l -> g ∈ l -> fn_id f = fn_id g -> f = g.

Section prog_ind.
  Variable P : prog -> Prop.
  Hypothesis Hs : forall n, P (PSym n).
  Hypothesis Ha : forall p n, P p -> P (PAttr p n).
  Hypothesis Hf : forall f l, Forall P l -> P (PApp f l).
  Hypothesis He : forall x c b, P c -> P b -> P (PEach x c b).
  Hypothesis Hi : forall a b c, P a -> P b -> P c -> P (PIf a b c).
  Hypothesis Hm : forall x b t e, P b -> P t -> P e -> P (PIfSome x b t e).
  Hypothesis Hl : forall l, Forall P l -> P (PList l).
  Hypothesis Hd : forall l, Forall (fun p => P p.2) l -> P (PDict l).
  Hypothesis Hv : forall v, P (PVal v).
  Fixpoint prog_ind' (p : prog) : P p :=
    let fl := fix fl (l : list prog) : Forall P l :=
      match l with [] => List.Forall_nil _ | e :: l' => List.Forall_cons _ _ _ (prog_ind' e) (fl l') end in
    match p with
    | PSym n => Hs n
    | PAttr p n => Ha p n (prog_ind' p)
    | PApp f l => Hf f l (fl l)
    | PEach x c b => He x c b (prog_ind' c) (prog_ind' b)
    | PIf a b c => Hi a b c (prog_ind' a) (prog_ind' b) (prog_ind' c)
    | PIfSome x b t e => Hm x b t e (prog_ind' b) (prog_ind' t) (prog_ind' e)
    | PList l => Hl l (fl l)
    | PDict l => Hd l ((fix fd (l : list (str * prog)) : Forall (fun p => P p.2) l :=
        match l with [] => List.Forall_nil _ | (k, e) :: l' => List.Forall_cons _ (k, e) _ (prog_ind' e) (fd l') end) l)
    | PVal v => Hv v
    end.
End prog_ind.

(** ** Writing *)
Definition adds (fs reg : list fn) : list fn := fold_left (fun r f => reg_add f r) fs reg.
Lemma adds_app a b reg : adds (a ++ b) reg = adds b (adds a reg).
Proof. apply fold_left_app. Qed.
Lemma to_list_cons o os reg :
  to_expr_ (OList (o :: os)) reg =
  let '(e, r1) := to_expr_ o reg in match to_expr_ (OList os) r1 with (NdList es, r2) => (NdList (e :: es), r2) | x => x end.
Proof.
  cbn [to_expr_]. destruct (to_expr_ o reg) as [e r1].
  destruct ((fix many (l : list obj) (reg0 : list fn) {struct l} := match l with [] => ([], reg0) | o0 :: l' => _ end) os r1). done.
Qed.
Lemma to_list_step o os reg e r1 es r2 : to_expr_ o reg = (e, r1) -> to_expr_ (OList os) r1 = (NdList es, r2) ->
  to_expr_ (OList (o :: os)) reg = (NdList (e :: es), r2).
Proof. intros E1 E2. by rewrite to_list_cons, E1, E2. Qed.
Lemma to_func_step f args reg es r : to_expr_ (OList args) (reg_add f reg) = (NdList es, r) ->
  to_expr_ (OFunc f args) reg = (NdTup (NdSym (fn_name f) :: es), r).
Proof. intros E. cbn [to_expr_] in *. destruct ((fix many (l : list obj) (reg0 : list fn) {struct l} := match l with [] => ([], reg0) | o0 :: l' => _ end) args (reg_add f reg)). congruence. Qed.
Lemma to_func f args reg :
  to_expr_ (OFunc f args) reg = match to_expr_ (OList args) (reg_add f reg) with (NdList es, r) => (NdTup (NdSym (fn_name f) :: es), r) | x => x end.
Proof.
  cbn [to_expr_].
  destruct ((fix many (l : list obj) (reg0 : list fn) {struct l} := match l with [] => ([], reg0) | o0 :: l' => _ end) args (reg_add f reg)). done.
Qed.
Lemma to_dict_cons k o os reg :
  to_expr_ (ODict ((k, o) :: os)) reg =
  let '(e, r1) := to_expr_ o reg in match to_expr_ (ODict os) r1 with (NdDict es, r2) => (NdDict (NdKw k :: e :: es), r2) | x => x end.
Proof.
  cbn [to_expr_]. destruct (to_expr_ o reg) as [e r1].
  destruct ((fix pairs (l : list (str * obj)) (reg0 : list fn) {struct l} := match l with [] => ([], reg0) | _ => _ end) os r1). done.
Qed.
Lemma form_list_cons e es : form (NdList (e :: es)) =
  match form e, form (NdList es) with Some x, Some (EList xs) => Some (EList (x :: xs)) | _, _ => None end.
Proof.
  cbn [form]. destruct (form e) as [x|]; [|done].
  destruct ((fix forms (l : list node) : option (list expr) := match l with [] => Some [] | _ => _ end) es); done.
Qed.
Lemma form_dict_cons k e es : form (NdDict (NdKw k :: e :: es)) =
  match form e, form (NdDict es) with Some x, Some (EDict xs) => Some (EDict ((k, x) :: xs)) | _, _ => None end.
Proof.
  cbn [form]. destruct (form e) as [x|]; [|done].
  destruct ((fix pairs (l : list node) : option (list (str * expr)) := match l with [] => Some [] | _ => _ end) es); done.
Qed.
Lemma form_call f es : f ∉ [s "get"; s "each"; s "if_some"] -> form (NdTup (NdSym f :: es)) =
  match form (NdList es) with Some (EList xs) => Some (ECall f None xs) | _ => None end.
Proof.
  intros Hf. cbn [form]. rewrite !bool_decide_eq_false_2 by (intros ->; apply Hf; set_solver).
  destruct ((fix forms (l : list node) : option (list expr) := match l with [] => Some [] | _ => _ end) es); done.
Qed.

Definition becomes (p : prog) : Prop :=
  exists o e, run p = Ok o /\ form e = Some (meaning p) /\ (forall reg, to_expr_ o reg = (e, adds (mentions p) reg)) /\
    match p with PSym _ | PAttr _ _ => o = OHandler e | _ => True end.
Lemma becomes_list l : Forall becomes l -> exists os es, mapR run l = Ok os /\ form (NdList es) = Some (EList (map meaning l)) /\
  forall reg, to_expr_ (OList os) reg = (NdList es, adds (concat (map mentions l)) reg).
Proof.
  induction 1 as [|p l (o & e & E1 & E2 & E3 & _) _ (os & es & I1 & I2 & I3)]; [by exists [], []|].
  exists (o :: os), (e :: es). cbn [mapR map concat]. rewrite E1, I1. split; [done|]. split.
  - by rewrite form_list_cons, E2, I2.
  - intros reg. by rewrite to_list_cons, E3, I3, adds_app.
Qed.
Lemma becomes_dict l : Forall (fun p => becomes p.2) l -> exists os es,
  mapR (fun '(k, p) => match run p with Ok o => Ok (k, o) | Err e => Err e end) l = Ok os /\
  form (NdDict es) = Some (EDict (map (fun '(k, p) => (k, meaning p)) l)) /\
  forall reg, to_expr_ (ODict os) reg = (NdDict es, adds (concat (map (fun '(_, p) => mentions p) l)) reg).
Proof.
  induction 1 as [|[k p] l (o & e & E1 & E2 & E3 & _) _ (os & es & I1 & I2 & I3)]; [by exists [], []|].
  exists ((k, o) :: os), (NdKw k :: e :: es). cbn [mapR map concat snd] in *. rewrite E1, I1. split; [done|]. split.
  - by rewrite form_dict_cons, E2, I2.
  - intros reg. by rewrite to_dict_cons, E3, I3, adds_app.
Qed.
Lemma written_becomes p : written p -> becomes p.
Proof.
  induction p as [n|p n IH|f l IH|x c b IHc IHb|a b c IHa IHb IHc|x b t e IHb IHt IHe|l IH|l IH|v] using prog_ind'; cbn [written]; intros Hw.
  - exists (OHandler (NdSym n)), (NdSym n). cbn [run]. unfold s_attr. rewrite bool_decide_eq_false_2 by exact Hw. split; [done|split; [done|split; done]].
  - destruct Hw as (Hp & Hk & Hn & Ho). destruct (IH Hp) as (o & e & E1 & E2 & E3 & E4).
    assert (o = OHandler e) as -> by (by destruct p).
    exists (OHandler (NdTup [NdSym (s "get"); e; NdSym n])), (NdTup [NdSym (s "get"); e; NdSym n]). cbn [run]. rewrite E1. unfold get_attr.
    rewrite !bool_decide_eq_false_2 by done. split; [done|]. split; [|split; [|done]].
    + change (match form e with Some x => Some (EGet x n None) | None => None end = Some (meaning (PAttr p n))). by rewrite E2.
    + intros reg. specialize (E3 reg). cbn [to_expr_ mentions] in *. congruence.
  - destruct Hw as [Hf Hl]. assert (Forall becomes l) as Hb.
    { clear Hf. induction IH as [|p l Hp _ IH']; [constructor|]. destruct Hl. constructor; auto. }
    destruct (becomes_list l Hb) as (os & es & I1 & I2 & I3). exists (OFunc f os), (NdTup (NdSym (fn_name f) :: es)). cbn [run]. rewrite I1.
    split; [done|]. split; [|split; [|done]].
    + rewrite form_call; [by rewrite I2|]. unfold special in Hf. set_solver.
    + intros reg. by rewrite to_func, I3.
  - destruct Hw as (Hx & Hc & Hb). destruct (IHc Hc) as (oc & ec & C1 & C2 & C3 & _), (IHb Hb) as (ob & eb & B1 & B2 & B3 & _).
    exists (OFunc each_fn [OHandler (NdSym x); oc; ob]), (NdTup [NdSym (s "each"); NdSym x; ec; eb]). cbn [run]. unfold s_attr.
    rewrite bool_decide_eq_false_2, C1, B1 by done. split; [done|]. split; [|split; [|done]].
    + change (match form ec, form eb with Some c', Some b' => Some (EEach x None c' b') | _, _ => None end = Some (meaning (PEach x c b))).
      by rewrite C2, B2.
    + intros reg. cbn [mentions]. change (adds (each_fn :: mentions c ++ mentions b) reg) with (adds (mentions c ++ mentions b) (reg_add each_fn reg)).
      rewrite adds_app. apply (to_func_step each_fn). eapply to_list_step; [done|]. eapply to_list_step; [apply C3|]. eapply to_list_step; [apply B3|done].
  - destruct Hw as (Ha & Hb & Hc). destruct (IHa Ha) as (oa & ea & A1 & A2 & A3 & _), (IHb Hb) as (ob & eb & B1 & B2 & B3 & _), (IHc Hc) as (oc & ec & C1 & C2 & C3 & _).
    exists (OFunc if_fn [oa; ob; oc]), (NdTup [NdSym (s "if"); ea; eb; ec]). cbn [run]. rewrite A1, B1, C1. split; [done|]. split; [|split; [|done]].
    + rewrite form_call by (apply (bool_decide_unpack _); vm_compute; exact I). by rewrite !form_list_cons, A2, B2, C2.
    + intros reg. cbn [mentions]. change (adds (if_fn :: mentions a ++ mentions b ++ mentions c) reg) with (adds (mentions a ++ mentions b ++ mentions c) (reg_add if_fn reg)).
      rewrite !adds_app. apply (to_func_step if_fn). eapply to_list_step; [apply A3|]. eapply to_list_step; [apply B3|]. eapply to_list_step; [apply C3|done].
  - destruct Hw as (Hx & Hb & Ht & He). destruct (IHb Hb) as (ob & eb & B1 & B2 & B3 & _), (IHt Ht) as (ot & et & T1 & T2 & T3 & _), (IHe He) as (oe & ee & E1 & E2 & E3 & _).
    exists (OFunc if_some_fn [OList [OHandler (NdSym x); ob]; ot; oe]), (NdTup [NdSym (s "if_some"); NdList [NdSym x; eb]; et; ee]). cbn [run]. unfold s_attr.
    rewrite bool_decide_eq_false_2, B1, T1, E1 by done. split; [done|]. split; [|split; [|done]].
    + change (match form eb, form et, form ee with Some b', Some t', Some e' => Some (EIfSome x None b' t' e') | _, _, _ => None end = Some (meaning (PIfSome x b t e))).
      by rewrite B2, T2, E2.
    + intros reg. cbn [mentions]. change (adds (if_some_fn :: mentions b ++ mentions t ++ mentions e) reg) with (adds (mentions b ++ mentions t ++ mentions e) (reg_add if_some_fn reg)).
      rewrite !adds_app. apply (to_func_step if_some_fn). eapply to_list_step.
      { eapply to_list_step; [done|]. eapply to_list_step; [apply B3|done]. }
      eapply to_list_step; [apply T3|]. eapply to_list_step; [apply E3|done].
  - assert (Forall becomes l) as Hb.
    { induction IH as [|p l Hp _ IH']; [constructor|]. destruct Hw. constructor; auto. }
    destruct (becomes_list l Hb) as (os & es & I1 & I2 & I3). exists (OList os), (NdList es). cbn [run]. rewrite I1. split; [done|split; [done|split; done]].
  - assert (Forall (fun p => becomes p.2) l) as Hb.
    { induction IH as [|[k p] l Hp _ IH']; [constructor|]. destruct Hw. constructor; auto. }
    destruct (becomes_dict l Hb) as (os & es & I1 & I2 & I3). exists (ODict os), (NdDict es). cbn [run]. rewrite I1. split; [done|split; [done|split; done]].
  - exists (OVal v), (NdVal v). split; [done|split; [done|split; done]].
Qed.

(** ** The set of functions *)
Lemma reg_add_elem f reg g : identities (f :: reg) -> g ∈ reg_add f reg <-> g = f \/ g ∈ reg.
Proof.
  intros Hi. unfold reg_add. case_bool_decide as Hin.
  - split; [by right|]. intros [->|Hg]; [|done]. apply elem_of_list_fmap in Hin as (g & E & Hg).
    assert (f = g) as -> by (apply Hi; [left|by right|done]). done.
  - rewrite elem_of_app, elem_of_list_singleton. tauto.
Qed.
Lemma reg_add_ids f reg : NoDup (map fn_id reg) -> NoDup (map fn_id (reg_add f reg)).
Proof.
  intros Hn. unfold reg_add. case_bool_decide as Hin; [done|]. rewrite map_app. apply NoDup_app. split; [done|]. split; [|apply NoDup_singleton].
  intros x Hx ->%elem_of_list_singleton. done.
Qed.
Lemma identities_sub a b : (forall f, f ∈ a -> f ∈ b) -> identities b -> identities a.
Proof. intros Hs Hi f g Hf Hg. apply Hi; auto. Qed.
Lemma adds_elem fs reg g : identities (fs ++ reg) -> g ∈ adds fs reg <-> g ∈ fs \/ g ∈ reg.
Proof.
  revert reg. induction fs as [|f fs IH]; intros reg Hi; [set_solver|]. cbn [adds fold_left].
  assert (forall g, g ∈ reg_add f reg <-> g = f \/ g ∈ reg) as Ha.
  { intros h. apply reg_add_elem. eapply identities_sub; [|exact Hi]. set_solver. }
  change (g ∈ adds fs (reg_add f reg) <-> g ∈ f :: fs \/ g ∈ reg). rewrite IH, Ha, elem_of_cons; [tauto|].
  eapply identities_sub; [|exact Hi]. intros h. rewrite !elem_of_app, Ha, elem_of_cons. tauto.
Qed.
Lemma adds_ids fs reg : NoDup (map fn_id reg) -> NoDup (map fn_id (adds fs reg)).
Proof. revert reg. induction fs as [|f fs IH]; intros reg Hn; [done|]. apply IH. by apply reg_add_ids. Qed.

(** C58: what is written over [S], functions, [each], [if_] and [if_some] becomes the expression it means, and the
    functions found in it are those it mentions, at any depth, each of them once. *)
Theorem C58_written p : written p -> identities (mentions p) ->
  exists o e fs, run p = Ok o /\ to_expr o = (e, fs) /\ form e = Some (meaning p) /\
    (forall f, f ∈ fs <-> f ∈ mentions p) /\ NoDup (map fn_id fs).
Proof.
  intros Hw Hi. destruct (written_becomes p Hw) as (o & e & E1 & E2 & E3 & _). exists o, e, (adds (mentions p) []).
  split; [done|]. split; [apply E3|]. split; [done|]. split.
  - intros f. rewrite adds_elem by (by rewrite app_nil_r). set_solver.
  - apply adds_ids. constructor.
Qed.
Print Assumptions C58_written.

(** ** Names and bodies of functions *)
Lemma of_pairs_lookup {V} (l : list (str * V)) k v : NoDup (map fst l) -> (k, v) ∈ l -> dget k (of_pairs l) = Some v.
Proof. intros Hn Hin. rewrite of_pairs_NoDup by exact Hn. by apply dget_NoDup. Qed.
Definition names_apart (fs : list fn) : Prop := forall f g, f ∈ fs -> g ∈ fs -> fn_name f = fn_name g -> f = g.
Lemma names_NoDup fs : NoDup (map fn_id fs) -> names_apart fs -> NoDup (map fn_name fs).
Proof.
  intros Hn Ha. induction fs as [|f fs IH]; [constructor|]. cbn [map] in *. apply NoDup_cons in Hn as [Hf Hn]. constructor.
  - intros (g & E & Hg)%elem_of_list_fmap. assert (f = g) as -> by (apply Ha; [left|by right|done]). apply Hf. apply elem_of_list_fmap. eauto.
  - apply IH; [done|]. intros a b Hx Hy. apply Ha; by right.
Qed.
(** C58: in whatever order the functions come out of the set, the code is checked with the types of its functions and
    runs with their bodies, if no two functions have the same name. *)
Theorem C58_functions p o e fs fs' : written p -> identities (mentions p) -> names_apart (mentions p) ->
  run p = Ok o -> to_expr o = (e, fs) -> fs' ≡ₚ fs ->
  forall f, f ∈ mentions p ->
    dget (fn_name f) (of_pairs (fn_types fs')) = Some (TCall (fn_args f)) /\ dget (fn_name f) (fn_bodies fs') = Some (fn_body f).
Proof.
  intros Hw Hi Ha Hr He Hp f Hf. destruct (C58_written p Hw Hi) as (o' & e' & fs0 & E1 & E2 & _ & E4 & E5).
  rewrite Hr in E1. injection E1 as <-. rewrite He in E2. injection E2 as <- <-.
  assert (NoDup (map fn_name fs')) as Hn.
  { rewrite Hp. apply names_NoDup; [done|]. intros a b Hx%E4 Hy%E4. by apply Ha. }
  assert (f ∈ fs') as Hf' by (rewrite Hp; by apply E4).
  unfold fn_types, fn_bodies. split; apply of_pairs_lookup; try (rewrite map_map; exact Hn); apply elem_of_list_fmap; by exists f.
Qed.
Print Assumptions C58_functions.

(** The checker looks at its environment only by name *)
Lemma check_ext types fuel e : forall env env', (forall n, dget n env = dget n env') -> check types fuel env e = check types fuel env' e.
Proof.
  induction e as [v|n r|o n r IHo|x rx c b IHc IHb|x rx b t e IHb IHt IHe|n r l IH|l IH|l IH] using expr_ind'; intros env env' Hx; cbn [check].
  - done.
  - by rewrite Hx.
  - by rewrite (IHo env env').
  - rewrite (IHc env env') by done. destruct (check types fuel env' c) as [c'|]; [|done]. destruct (need_ref c') as [r|]; [|done].
    destruct (get_type types (ref_to r)) as [t|]; [|done]. destruct (check_type _ _ _ _); [|done]. destruct t as [| | | | | | |u| | |]; try done.
    by rewrite (IHb ((x, RItem r u) :: env) ((x, RItem r u) :: env')) by (intros n; cbn [dget]; by rewrite Hx).
  - rewrite (IHb env env') by done. destruct (check types fuel env' b) as [b'|]; [|done]. destruct (need_ref b') as [r|]; [|done].
    destruct (get_type types (ref_to r)) as [u|]; [|done].
    rewrite (IHt ((x, match u with TOpt u => RItem r u | _ => r end) :: env) ((x, match u with TOpt u => RItem r u | _ => r end) :: env')) by (intros n; cbn [dget]; by rewrite Hx).
    destruct (check _ _ _ t); [|done]. by rewrite (IHe env env').
  - rewrite Hx. destruct (dget n env'); [|done].
    assert (mapR (check types fuel env) l = mapR (check types fuel env') l) as ->; [|done].
    apply mapR_ext, Forall_forall. intros y Hy. rewrite Forall_forall in IH. by apply IH.
  - assert (mapR (check types fuel env) l = mapR (check types fuel env') l) as ->; [|done].
    apply mapR_ext, Forall_forall. intros y Hy. rewrite Forall_forall in IH. by apply IH.
  - assert (mapR (fun '(k, e) => match check types fuel env e with Ok e' => Ok (k, e') | Err x => Err x end) l =
            mapR (fun '(k, e) => match check types fuel env' e with Ok e' => Ok (k, e') | Err x => Err x end) l) as ->; [|done].
    apply mapR_ext, Forall_forall. intros [k y] Hy. rewrite Forall_forall in IH. pose proof (IH _ Hy env env' Hx) as E. cbn [snd] in E. by rewrite E.
Qed.
Lemma check_env_get env n : dget n (check_env env) = match dget n env with Some t => Some (RNamed RTop n t) | None => None end.
Proof.
  unfold check_env. induction env as [|[k t] env IH]; [done|]. cbn [map dget]. destruct (decide (n = k)) as [->|]; [done|exact IH].
Qed.
Lemma bound_env_ext fns fns' root opts sub_node n : (forall n, dget n (of_pairs fns) = dget n (of_pairs fns')) ->
  dget n (bound_env fns root opts sub_node) = dget n (bound_env fns' root opts sub_node).
Proof.
  intros He. unfold bound_env. destruct (decide (n = THIS)) as [->|Hne]; [by rewrite !dget_dset_eq|].
  rewrite !dget_dset_ne by done. rewrite !dget_dupdate. destruct (dget n (reverse opts)); [done|]. destruct (dget n (reverse root)); [done|]. apply He.
Qed.
Lemma bind_field_ext `{Hasher} types fuel sub_node fns fns' opts e : (forall n, dget n (of_pairs fns) = dget n (of_pairs fns')) ->
  bind_field types fuel sub_node fns opts e = bind_field types fuel sub_node fns' opts e.
Proof.
  intros He. unfold bind_field. destruct (dget (s "__root__") types) as [[]|]; try done.
  erewrite check_ext; [reflexivity|]. intros n. rewrite !check_env_get. by rewrite (bound_env_ext fns fns').
Qed.
(** C58: the order in which the functions come out of the set makes no difference: checking, requirements, the code and the
    functions it runs with are the same. *)
Theorem C58_any_order `{Hasher} types fuel sub_node opts p o : written p -> identities (mentions p) -> names_apart (mentions p) -> run p = Ok o ->
  forall order order', (forall l, order l ≡ₚ l) -> (forall l, order' l ≡ₚ l) ->
    match bind_obj order types fuel sub_node opts o, bind_obj order' types fuel sub_node opts o with
    | Ok (r, b), Ok (r', b') => r = r' /\ forall n, dget n b = dget n b'
    | Err x, Err x' => x = x'
    | _, _ => False
    end.
Proof.
  intros Hw Hi Ha Hr order order' Ho Ho'. destruct (C58_written p Hw Hi) as (o' & e & fs & E1 & E2 & E3 & E4 & E5).
  rewrite Hr in E1. injection E1 as <-. unfold bind_obj. rewrite E2, E3.
  assert (forall l, l ≡ₚ fs -> NoDup (map fn_name l)) as Hn.
  { intros l ->. apply names_NoDup; [done|]. intros a b Hx%E4 Hy%E4. by apply Ha. }
  assert (forall V (h : fn -> V) l l' n, l ≡ₚ fs -> l' ≡ₚ fs ->
    dget n (of_pairs (map (fun f => (fn_name f, h f)) l)) = dget n (of_pairs (map (fun f => (fn_name f, h f)) l'))) as He.
  { intros V h l l' n Hl Hl'. rewrite !of_pairs_NoDup by (unfold dkeys; rewrite map_map; by apply Hn).
    destruct (dget n (map (fun f => (fn_name f, h f)) l')) as [v|] eqn:Ev.
    - apply dget_NoDup; [unfold dkeys; rewrite map_map; by apply Hn|]. apply dget_Some_elem in Ev. 
      apply elem_of_list_fmap in Ev as (f & E & Hf). apply elem_of_list_fmap. exists f. split; [done|]. by rewrite Hl, <-Hl'.
    - apply dget_None in Ev. apply dget_None. unfold dkeys in *. rewrite map_map in *. intros (f & E & Hf)%elem_of_list_fmap.
      apply Ev. apply elem_of_list_fmap. exists f. split; [done|]. by rewrite Hl', <-Hl. }
  rewrite (bind_field_ext types fuel sub_node (fn_types (order fs)) (fn_types (order' fs))).
  - destruct (bind_field _ _ _ _ _ _); [|done]. split; [done|]. intros n. apply He; auto.
  - intros n. apply He; auto.
Qed.
Print Assumptions C58_any_order.

(** C58: functions which are given no names of their own are never confused with other such functions or with the built-in forms. *)
Theorem C58_default_names m n i m' n' j : 
  (def_name None m n i = def_name None m' n' j -> i = j) /\ def_name None m n i ∉ special /\
  def_name (Some []) m n i = def_name None m n i.
Proof.
  unfold def_name. split; [|split; [|done]].
  - intros E. rewrite !app_assoc in E. assert (N_str i = N_str j) as Ei.
    { change (s "_") with [95%N] in E. rewrite <-!app_assoc in E. rewrite !(app_assoc m), !(app_assoc m') in E. rewrite (app_assoc _ n), (app_assoc _ n') in E.
      exact (proj2 (split_last _ _ _ _ _ (N_str_no_underscore i) (N_str_no_underscore j) E)). }
    pose proof (N_str_parse i) as Hp. rewrite Ei, N_str_parse in Hp. congruence.
  - intros Hin. assert (47%N ∈ m ++ s "/" ++ n ++ s "_" ++ N_str i) as Hs by (apply elem_of_app; right; left).
    unfold special in Hin. repeat (apply elem_of_cons in Hin as [Hin|Hin]; [rewrite Hin in Hs; revert Hs; apply (bool_decide_unpack _); vm_compute; exact I|]).
    by apply elem_of_nil in Hin.
Qed.
Print Assumptions C58_default_names.

(** ** Types of arguments given as texts *)
(** In every node of the query, of the members with one name all but the last are fields. *)
Definition links_late (q : qnode) : Prop :=
  forall m i j a b, level_of m q -> qfields m !! i = Some a -> qfields m !! j = Some b -> i < j -> q_name a = q_name b -> q_is_link a = false.
Lemma of_pairs_last {V} (l : list (str * V)) n u : dget n (of_pairs l) = Some u ->
  exists i, l !! i = Some (n, u) /\ forall j w, i < j -> l !! j <> Some (n, w).
Proof.
  induction l as [|[k v] l IH] using rev_ind; [done|]. unfold of_pairs, dupdate. rewrite fold_left_app. cbn [fold_left fst snd].
  destruct (decide (n = k)) as [->|Hne].
  - rewrite dget_dset_eq. intros [= ->]. exists (length l). split; [by rewrite lookup_app_r, Nat.sub_diag by lia|].
    intros j w Hj E. apply lookup_lt_Some in E. rewrite app_length in E. simpl in E. lia.
  - rewrite dget_dset_ne by done. intros (i & Hi & Hj)%IH. exists i. split; [by apply lookup_app_l_Some|].
    intros j w Hlt [E|[? E]]%lookup_app_Some; [by eapply Hj|]. destruct (j - length l) as [|[]]; simplify_eq/=.
Qed.
Lemma asks_inv q p : asks q p <-> exists x, x ∈ qfields q /\ (p = [q_name x] \/ exists p', p = q_name x :: p' /\ q_is_link x = true /\ asks (q_node x) p').
Proof.
  split.
  - intros (ls & Hr & <-). destruct Hr as [n x Hx|n x p Hx Hl Hr].
    + exists x. split; [done|]. by left.
    + exists x. split; [done|]. right. exists (map lb_name p). split; [done|]. split; [done|]. by exists p.
  - intros (x & Hx & [->|(p' & -> & Hl & ls & Hr & <-)]).
    + exists [label_of x]. split; [by constructor|done].
    + exists (label_of x :: ls). split; [by apply req_sub|done].
Qed.
Lemma asks_fields l o o' p : asks (QN l o) p <-> asks (QN l o') p.
Proof. by rewrite !asks_inv. Qed.
(** what the type of a record asks for *)
Definition type_item (p : str * ty) : qitem :=
  match type_to_query p.2 with Some q => QL p.1 (qfields q) (qordered q) None None | None => QF p.1 None None end.
Lemma type_to_query_rec fs : type_to_query (TRec fs) = Some (QN (map type_item fs) false).
Proof. cbn [type_to_query]. do 2 f_equal. apply map_ext. by intros [n u]. Qed.
Lemma type_item_name p : q_name (type_item p) = p.1.
Proof. unfold type_item. by destruct (type_to_query p.2). Qed.
Lemma keys_of_pairs {V} (l : list (str * V)) k : k ∈ dkeys (of_pairs l) <-> k ∈ map fst l.
Proof.
  rewrite <-dget_is_Some. unfold of_pairs. rewrite dget_dupdate. cbn [dget].
  assert (is_Some (dget k (reverse l)) <-> k ∈ map fst l) as <-; [|by destruct (dget k (reverse l))].
  rewrite dget_is_Some. unfold dkeys. rewrite !elem_of_list_fmap. split; intros (p & -> & Hp); exists p; (split; [done|]); by rewrite elem_of_reverse in *.
Qed.
Definition item_pairs (l : list qitem) : list (str * ty) := map (fun f => (q_name f, item_type f)) l.
Definition sub_ok (x : qitem) : Prop :=
  match x with
  | QF _ _ _ => True
  | QL _ sub ord _ _ => links_late (QN sub ord) -> forall p, asks (QN (map type_item (of_pairs (item_pairs sub))) false) p <-> asks (QN sub ord) p
  end.
Lemma items_ask_step l ord : Forall sub_ok l -> links_late (QN l ord) ->
  forall p, asks (QN (map type_item (of_pairs (item_pairs l))) false) p <-> asks (QN l ord) p.
Proof.
  intros Hs Hl p. rewrite Forall_forall in Hs.
  assert (forall x, x ∈ l -> q_is_link x = true -> exists sub o, item_type x = TRec (of_pairs (item_pairs sub)) /\ q_node x = QN sub o /\
    forall p, asks (QN (map type_item (of_pairs (item_pairs sub))) false) p <-> asks (QN sub o) p) as Hsub.
  { intros x Hx Hlx. pose proof (Hs x Hx) as Hok. destruct x as [|n sub o oo a]; [done|]. exists sub, o. split; [done|]. split; [done|]. apply Hok.
    intros m i j a' b' Hm. apply Hl. by eapply lev_sub. }
  rewrite !asks_inv. cbn [qfields]. split.
  - intros (y & ([n u] & -> & Hin)%elem_of_list_fmap & Hp). rewrite type_item_name in Hp. cbn [fst] in Hp.
    assert (dget n (of_pairs (item_pairs l)) = Some u) as Hg by (apply dget_NoDup; [apply NoDup_of_pairs|done]).
    destruct (of_pairs_last _ _ _ Hg) as (i & Hi & _). unfold item_pairs in Hi. rewrite list_lookup_fmap in Hi.
    destruct (l !! i) as [x|] eqn:Ex; [|done]. injection Hi as <- <-. apply elem_of_list_lookup_2 in Ex. exists x. split; [done|].
    destruct Hp as [->|(p' & -> & Hlk & Ha)]; [by left|]. right. exists p'. split; [done|].
    destruct (q_is_link x) eqn:Elx.
    + split; [done|]. destruct (Hsub x Ex Elx) as (sub & o & Et & En & Hq). rewrite En, <-Hq.
      unfold type_item in Ha. cbn [fst snd] in Ha. rewrite Et, type_to_query_rec in Ha. exact Ha.
    + exfalso. destruct x; [|done]. done.
  - intros (x & Hx & Hp).
    assert (is_Some (dget (q_name x) (of_pairs (item_pairs l)))) as [u Hu].
    { apply dget_is_Some, keys_of_pairs. unfold item_pairs. rewrite map_map. apply elem_of_list_fmap. by exists x. }
    exists (type_item (q_name x, u)). split; [apply elem_of_list_fmap; exists (q_name x, u); split; [done|by apply dget_Some_elem]|].
    rewrite type_item_name. cbn [fst]. destruct Hp as [->|(p' & -> & Hlk & Ha)]; [by left|]. right. exists p'. split; [done|].
    destruct (of_pairs_last _ _ _ Hu) as (i & Hi & Hlast). unfold item_pairs in Hi. rewrite list_lookup_fmap in Hi.
    destruct (l !! i) as [y|] eqn:Ey; [|done]. injection Hi as En Et.
    apply elem_of_list_lookup in Hx as [j Hj].
    assert (j = i) as ->.
    { destruct (lt_eq_lt_dec i j) as [[Hlt|<-]|Hlt]; [|done|].
      - exfalso. eapply (Hlast j (item_type x) Hlt). unfold item_pairs. rewrite list_lookup_fmap, Hj. done.
      - pose proof (Hl (QN l ord) j i x y (lev_here _) Hj Ey Hlt (eq_sym En)) as Hf. by rewrite Hf in Hlk. }
    rewrite Hj in Ey. injection Ey as <-. destruct (Hsub x (elem_of_list_lookup_2 _ _ _ Hj) Hlk) as (sub & o & Et' & En' & Hq).
    unfold type_item. cbn [fst snd]. rewrite <-Et, Et', type_to_query_rec. split; [done|]. rewrite En' in Ha. apply Hq in Ha. exact Ha.
Qed.
Lemma all_sub_ok x : sub_ok x.
Proof. induction x as [n o a|n sub ord o a IH] using qitem_ind'; [done|]. exact (items_ask_step sub ord IH). Qed.
Lemma types_ask q : links_late q -> exists q', type_to_query (query_to_types q) = Some q' /\ forall p, asks q' p <-> asks q p.
Proof.
  intros Hl. unfold query_to_types. rewrite type_to_query_rec. eexists. split; [done|]. destruct q as [l ord].
  apply items_ask_step; [|done]. apply Forall_forall. intros x _. apply all_sub_ok.
Qed.
Lemma item_no_refs x : no_refs (item_type x) = true.
Proof.
  induction x as [n o a|n sub ord o a IH] using qitem_ind'; [done|]. cbn [item_type no_refs]. apply forallb_forall. intros [k u] Hin%elem_of_list_In.
  assert (dget k (of_pairs (item_pairs sub)) = Some u) as Hg by (apply dget_NoDup; [apply NoDup_of_pairs|done]).
  destruct (of_pairs_last _ _ _ Hg) as (i & Hi & _). unfold item_pairs in Hi. rewrite list_lookup_fmap in Hi.
  destruct (sub !! i) as [y|] eqn:Ey; [|done]. injection Hi as _ <-. rewrite Forall_forall in IH. apply IH. by eapply elem_of_list_lookup_2.
Qed.
Lemma query_no_refs q : no_refs (query_to_types q) = true.
Proof. destruct q as [l ord]. exact (item_no_refs (QL [] l ord None None)). Qed.

(** Members without options and aliases *)
Definition bare (q : qnode) : Prop := members (fun x => same_opts (q_opts x) None /\ q_alias x = None) q.
Lemma bare_collision `{Hasher} q : bare q -> no_collision (fun x => occurs x q).
Proof. intros Hb a b Ha Hb' _ _. destruct (Hb a Ha) as [E1 _], (Hb b Hb') as [E2 _]. eapply sv_trans; [exact E1|apply sv_sym; exact E2]. Qed.
Lemma fields_first l i j a b : fields_then_links l !! i = Some a -> fields_then_links l !! j = Some b -> i < j -> q_is_link a = true -> q_is_link b = true.
Proof.
  unfold fields_then_links. intros Hi Hj Hlt Ha.
  assert (forall k x, List.filter (fun f => negb (q_is_link f)) l !! k = Some x -> q_is_link x = false) as Hf.
  { intros k x Hk%elem_of_list_lookup_2%elem_of_list_In%filter_In. destruct Hk as [_ Hk]. by apply negb_true_iff in Hk. }
  assert (forall k x, List.filter q_is_link l !! k = Some x -> q_is_link x = true) as Hl.
  { intros k x Hk%elem_of_list_lookup_2%elem_of_list_In%filter_In. by destruct Hk. }
  apply lookup_app_Some in Hi as [Hi|[Hi1 Hi]]; [apply Hf in Hi; congruence|].
  apply lookup_app_Some in Hj as [Hj|[_ Hj]]; [apply lookup_lt_Some in Hj; lia|by eapply Hl].
Qed.
Lemma links_last_levels n m : level_of m (links_last n) -> exists l, qfields m = fields_then_links l.
Proof.
  remember (links_last n) as n' eqn:E. intros Hm. revert n E. induction Hm as [n'|n' l m Hl Hlk Hm IH]; intros n ->; [by eexists|].
  unfold links_last in Hl. cbn [qfields] in Hl. unfold fields_then_links in Hl.
  assert (l ∈ map links_last_item (qfields n)) as Hin.
  { apply elem_of_app in Hl as [Hl|Hl]; apply elem_of_list_In, filter_In in Hl as [Hl _]; by apply elem_of_list_In. }
  apply elem_of_list_fmap in Hin as (x & -> & _). destruct x as [|k sub ord o a]; [done|].
  apply (IH (QN sub ord)). done.
Qed.
Lemma merged_late `{Hasher} ns : bare (merge ns) -> links_late (merge ns).
Proof.
  intros Hb. pose proof (C01_merge_unique ns) as Hd.
  pose proof (C02_merge_moves_links (merge ns) (bare_collision _ Hb) Hd) as Hm. rewrite C02_merge_idempotent in Hm.
  intros m i j a b Hl Hi Hj Hlt En. destruct (q_is_link a) eqn:Ea; [|done]. exfalso.
  assert (forall x k, qfields m !! k = Some x -> same_opts (q_opts x) None /\ q_alias x = None) as Ho.
  { intros x k Hk. apply Hb. clear -Hl Hk. induction Hl as [n|n l m Hin Hlk _ IH]; [constructor; by eapply elem_of_list_lookup_2|eapply occ_sub; [exact Hin|exact Hlk|by apply IH]]. }
  assert (q_is_link b = true) as Eb.
  { pose proof Hl as Hl'. rewrite Hm in Hl'. destruct (links_last_levels _ _ Hl') as [l El]. rewrite El in Hi, Hj. exact (fields_first l i j a b Hi Hj Hlt Ea). }
  apply (Hd m i j a b Hl Hi Hj); [lia|]. unfold same_label, label_of. cbn. rewrite Ea, Eb. destruct (Ho a i Hi) as [E1 ->], (Ho b j Hj) as [E2 ->].
  split; [done|]. split; [done|]. split; [|done]. eapply sv_trans; [exact E1|apply sv_sym; exact E2].
Qed.
Lemma merge_asks `{Hasher} q p : bare q -> asks (merge [q]) p <-> asks q p.
Proof.
  intros Hb. assert (no_collision (fun x => exists n, n ∈ [q] /\ occurs x n)) as Hc.
  { intros a b (n & ->%elem_of_list_singleton & Ha) (n' & ->%elem_of_list_singleton & Hb'). by apply (bare_collision q Hb). }
  assert (forall p p', same_path p p' -> map lb_name p = map lb_name p') as Hn.
  { intros l l'. induction 1 as [|a b l l' (_ & E & _) _ IH]; [done|]. cbn. by rewrite E, IH. }
  assert (forall p, same_path p p) as Hr. { intros l. induction l; constructor; [apply same_label_refl|done]. }
  split; intros (ls & Hq & <-).
  - destruct (proj1 (C01_merge_requests [q] ls Hc)) as (n & p' & ->%elem_of_list_singleton & Hs & Hq'); [eauto|].
    exists p'. split; [done|]. symmetry. by apply Hn.
  - destruct (proj2 (C01_merge_requests [q] ls Hc)) as (p' & Hs & Hq'); [exists q, ls; split; [left|done]|].
    exists p'. split; [done|]. symmetry. by apply Hn.
Qed.
Lemma occurs_requests x n : occurs x n -> exists p, requests n (p ++ [label_of x]).
Proof.
  induction 1 as [n x Hx|n l x Hl Hlk _ [p IH]]; [exists []; by constructor|]. exists (label_of l :: p). by apply req_sub.
Qed.
Lemma requests_occurs n p a : requests n (p ++ [a]) -> exists x, occurs x n /\ label_of x = a.
Proof.
  remember (p ++ [a]) as l eqn:E. intros Hr. revert p E. induction Hr as [n x Hx|n x l Hx Hl Hr IH]; intros p E.
  - destruct p as [|? [|]]; simplify_eq/=. exists x. split; [by constructor|done].
  - destruct p as [|b p]; simplify_eq/=; [by inversion Hr|]. destruct (IH p eq_refl) as (y & Hy & Ey). exists y. split; [by eapply occ_sub|done].
Qed.
Lemma merge_bare `{Hasher} q : bare q -> bare (merge [q]).
Proof.
  intros Hb x Hx. assert (no_collision (fun x => exists n, n ∈ [q] /\ occurs x n)) as Hc.
  { intros a b (n & ->%elem_of_list_singleton & Ha) (n' & ->%elem_of_list_singleton & Hb'). by apply (bare_collision q Hb). }
  destruct (occurs_requests x _ Hx) as [p Hr]. assert (forall p, same_path p p) as Hrefl. { intros l. induction l; constructor; [apply same_label_refl|done]. }
  destruct (proj1 (C01_merge_requests [q] (p ++ [label_of x]) Hc)) as (n & p' & ->%elem_of_list_singleton & Hs & Hq'); [eauto|].
  apply Forall2_app_inv_l in Hs as (p1 & p2 & _ & Hs & ->). inversion Hs as [|? b ? l2 Hab Hl]; subst. inversion Hl; subst.
  destruct (requests_occurs _ _ _ Hq') as (y & Hy & <-). destruct (Hb y Hy) as [E1 E2], Hab as (_ & _ & E3 & E4). cbn in *.
  split; [by eapply sv_trans|congruence].
Qed.

Section text.
  Context `{Hasher} `{PyText} (ascii : bool).
  (** Names only, which can be written as keywords *)
  Definition names_only (q : qnode) : Prop :=
    no_aliases q /\ unordered q /\ members (fun x => q_opts x = None /\ Forall word_char (q_name x)) q.
  (** One requirement for each argument: the names which the function uses, or nothing *)
  Definition requirement (r : option qnode) : res val := match r with Some q => simple_export q | None => Ok VNone end.
  Lemma names_bare q : names_only q -> bare q.
  Proof. intros (Ha & _ & Hm) x Hx. destruct (Hm x Hx) as [-> _]. split; [apply sv_refl|by apply Ha]. Qed.
  Lemma export_fine q v : names_only q -> simple_export q = Ok v -> fine (fun _ => None) ascii v.
  Proof.
    intros (Ha & Hu & Hm) Hv. unfold simple_export in Hv. destruct (mapR simple_item (qfields q)) as [l|] eqn:El; [|done]. injection Hv as <-.
    apply fine_vec. apply mapR_ok in El. apply Forall_forall. intros x Hx. apply elem_of_list_lookup in Hx as [i Hi].
    destruct (Forall2_lookup_r _ _ _ _ _ El Hi) as (y & Hy%elem_of_list_lookup_2 & E). destruct q as [l' ord].
    eapply simple_item_fine; [eapply members_one; [|exact Hy]|eapply members_one; [|exact Hy]|exact E].
    - eapply members_impl; [|exact Hm]. intros z [Hz _] d Hd. rewrite Hz in Hd. done.
    - eapply members_impl; [|exact Hm]. intros z [Hz Hw]. split; [done|]. intros d Hd. rewrite Hz in Hd. done.
  Qed.
  (** C58: a function defined with the text of a list of requirements takes as many arguments, and what is required of an argument (C38) is
      what the text says: the names in it, at every depth, and nothing else. *)
  Theorem C58_text (rs : list (option qnode)) : Forall (fun r => match r with Some q => names_only q | None => True end) rs ->
    exists vs t ts, mapR requirement rs = Ok vs /\ dumps ascii (VVec vs) = Ok t /\ def_args (AText t) = Ok ts /\
      Forall2 (fun r u => match r with
                          | None => u = TAny
                          | Some q => exists q', type_to_query u = Some q' /\ forall p, asks q' p <-> asks q p
                          end) rs ts /\
      forallb no_refs ts = true.
  Proof.
    intros Hrs.
    assert (exists vs ts, mapR requirement rs = Ok vs /\ Forall (fine (fun _ => None) ascii) vs /\ mapR text_arg vs = Ok ts /\
      Forall2 (fun r u => match r with
                          | None => u = TAny
                          | Some q => exists q', type_to_query u = Some q' /\ forall p, asks q' p <-> asks q p
                          end) rs ts /\ forallb no_refs ts = true) as (vs & ts & E1 & E2 & E3 & E4 & E5).
    { induction Hrs as [|r rs Hr _ (vs & ts & I1 & I2 & I3 & I4 & I5)]; [exists [], []; done|].
      destruct r as [q|].
      - destruct (C34_inverse_partial q) as (v & V1 & V2); [by destruct Hr|by destruct Hr as (_ & ? & _)| |].
        { destruct Hr as (_ & _ & Hm). eapply members_impl; [|exact Hm]. intros z [Hz _] d Hd. rewrite Hz in Hd. done. }
        exists (v :: vs), (query_to_types (merge [q]) :: ts). cbn [mapR requirement]. rewrite V1, I1. split; [done|].
        split; [constructor; [by eapply export_fine|done]|]. split.
        { assert (text_arg v = Ok (query_to_types (merge [q]))) as ->; [|by rewrite I3].
          unfold simple_export in V1. destruct (mapR simple_item (qfields q)) as [l0|]; [|done]. injection V1 as <-. cbn [text_arg]. by rewrite V2. }
        split; [|cbn [forallb]; by rewrite query_no_refs, I5]. constructor; [|done].
        destruct (types_ask (merge [q])) as (q' & Q1 & Q2); [apply merged_late, merge_bare, names_bare, Hr|].
        exists q'. split; [done|]. intros p. rewrite Q2. apply merge_asks, names_bare, Hr.
      - exists (VNone :: vs), (TAny :: ts). cbn [mapR requirement]. rewrite I1. split; [done|]. split; [constructor; [split; done|done]|].
        split; [cbn [text_arg]; by rewrite I3|]. split; [by constructor|done]. }
    destruct (fine_vec (fun _ => None) ascii vs E2) as [F1 F2].
    destruct (C32_round_trip_partial (fun _ => None) ascii (VVec vs) (F1 false)) as (t & Ht & _ & Hl).
    exists vs, t, ts. split; [done|]. split; [done|]. split; [|done]. cbn [def_args]. unfold text_args. by rewrite (Hl F2).
  Qed.
End text.
Print Assumptions C58_text.

(** C58: a field computed by a sub-graph without an expression is the field of the same name of [this]... *)
Theorem C58_sub_graph n : n ∉ object_attrs -> n <> s "obj" ->
  exists o, sub_graph_obj n = Ok o /\ to_expr o = (NdTup [NdSym (s "get"); NdSym THIS; NdSym n], []) /\
    sub_graph_obj n = run (PAttr (PSym THIS) n).
Proof.
  intros Hn Ho. unfold sub_graph_obj. cbn [run].
  assert (s_attr THIS = Ok (OHandler (NdSym THIS))) as -> by reflexivity.
  unfold get_attr. rewrite !bool_decide_eq_false_2 by done. eexists. split; [reflexivity|]. done.
Qed.
Print Assumptions C58_sub_graph.
(** ...unless it is called [obj]: then it is [this] itself. *)
Theorem C58_obj_refuted :
  (exists o, sub_graph_obj (s "obj") = Ok o /\ form (to_expr o).1 = Some (ESym THIS None) /\
     meaning (PAttr (PSym THIS) (s "obj")) = EGet (ESym THIS None) (s "obj") None) /\
  (exists o, run (PAttr (PAttr (PSym (s "x")) (s "obj")) (s "name")) = Ok o /\ form (to_expr o).1 = Some (EConst (VStr (s "x")))) /\
  run (PAttr (PAttr (PSym (s "x")) (s "obj")) (s "id")) = Err AttributeError.
Proof. split; [|split]; [eexists; split; [reflexivity|done]|eexists; split; reflexivity|reflexivity]. Qed.
Print Assumptions C58_obj_refuted.
(** Functions of one name: which of them is called depends on the order of the set. *)
Theorem C58_same_name_refuted : exists p o e f g,
  written p /\ identities (mentions p) /\ run p = Ok o /\ to_expr o = (e, [f; g]) /\
  dget (fn_name f) (fn_bodies [f; g]) = Some (fn_body g) /\ dget (fn_name f) (fn_bodies [g; f]) = Some (fn_body f) /\ fn_body f <> fn_body g.
Proof.
  set (f := Fn 10 (s "f") [] (s "one")). set (g := Fn 11 (s "f") [] (s "two")).
  exists (PList [PApp f []; PApp g []]), (OList [OFunc f []; OFunc g []]), (NdList [NdTup [NdSym (s "f")]; NdTup [NdSym (s "f")]]), f, g.
  split; [|split; [|split; [reflexivity|split; [reflexivity|split; [reflexivity|split; [reflexivity|vm_compute; discriminate]]]]]].
  - cbn [written]. repeat match goal with |- _ /\ _ => split | |- True => exact I end; apply (bool_decide_unpack _); vm_compute; exact I.
  - intros a b Ha Hb. cbn in Ha, Hb. set_unfold in Ha. set_unfold in Hb. destruct Ha as [->|[->|[]]], Hb as [->|[->|[]]]; done.
Qed.
Print Assumptions C58_same_name_refuted.

(** A program with functions at several depths:
    [if_some([S.img, S.this.image], {'url': url(S.img), 'all': [each(S.x, S.this.tags, tag(S.x, 1))]}, if_(S.ok, None, url(S.img2)))] *)
Definition ex_url : fn := Fn 100 (def_name None (s "m") (s "url") 100) [TRec [(s "id", TAny)]] (s "url").
Definition ex_tag : fn := Fn 101 (def_name None (s "m") (s "tag") 101) [TAny; TAny] (s "tag").
Definition ex_prog : prog :=
  PIfSome (s "img") (PAttr (PSym (s "this")) (s "image"))
    (PDict [(s "url", PApp ex_url [PSym (s "img")]);
            (s "all", PList [PEach (s "x") (PAttr (PSym (s "this")) (s "tags")) (PApp ex_tag [PSym (s "x"); PVal (VInt 1)])])])
    (PIf (PSym (s "ok")) (PVal VNone) (PApp ex_url [PSym (s "img2")])).
Theorem C58_example : written ex_prog /\ identities (mentions ex_prog) /\ names_apart (mentions ex_prog) /\
  mentions ex_prog = [if_some_fn; ex_url; each_fn; ex_tag; if_fn; ex_url] /\
  (exists o e, run ex_prog = Ok o /\ to_expr o = (e, [if_some_fn; ex_url; each_fn; ex_tag; if_fn])) /\
  @def_args ex_hasher ex_text (AText (s "[[:id {:image [:url :id]} :id] nil []]")) =
    Ok [TRec [(s "id", TAny); (s "image", TRec [(s "url", TAny); (s "id", TAny)])]; TAny; TRec []].
Proof.
  assert (forall f, f ∈ mentions ex_prog -> f ∈ [if_some_fn; ex_url; each_fn; ex_tag; if_fn]) as Hm.
  { intros f Hf. change (f ∈ [if_some_fn; ex_url; each_fn; ex_tag; if_fn; ex_url]) in Hf. set_solver. }
  split; [|split; [|split; [|split; [|split]]]].
  - cbn [written ex_prog]. repeat match goal with |- _ /\ _ => split | |- True => exact I end; apply (bool_decide_unpack _); vm_compute; exact I.
  - intros f g Hf%Hm Hg%Hm. set_unfold in Hf. set_unfold in Hg. intros E.
    destruct_or! Hf; destruct_or! Hg; subst; try done; exfalso; revert E; vm_compute; discriminate.
  - intros f g Hf%Hm Hg%Hm. set_unfold in Hf. set_unfold in Hg. intros E.
    destruct_or! Hf; destruct_or! Hg; subst; try done; exfalso; revert E; vm_compute; discriminate.
  - reflexivity.
  - do 2 eexists. split; [reflexivity|]. vm_compute. reflexivity.
  - vm_compute. reflexivity.
Qed.
Print Assumptions C58_example.

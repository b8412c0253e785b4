(** What expressions mean (specification for C37 - C39). *)
From Verif Require Import Base Val Types Query QuerySpec Expr.

(** ** The documented meaning (docs of [each], [if_], [if_some], [S], [define] in expr/core.py) *)
Section eval.
  Context `{PyDom}.
  (** [fenv] holds the functions, [ctx] the other data of the sub-graph's root, [rho] the variables
      in scope, the innermost first. *)
  Context (fenv ctx : D).
  Definition lookup_name (rho : dict str D) (n : str) (r : option ref) : res D :=
    match dget n rho, r with
    | Some v, _ => Ok v
    | None, Some r => d_sub (match ref_to r with TCall _ => fenv | _ => ctx end) n
    | None, None => Err AttributeError
    end.
  Fixpoint eval (rho : dict str D) (e : expr) : res D :=
    match e with
    | EConst v => Ok (d_const v)
    | ESym n r => lookup_name rho n r
    | EGet o n _ => match eval rho o with Ok v => d_sub v n | Err e => Err e end
    | EEach x _ col body =>
        match eval rho col with
        | Err e => Err e
        | Ok v => match d_iter v with
                  | Err e => Err e
                  | Ok l => match mapR (fun u => eval ((x, u) :: rho) body) l with
                            | Ok vs => Ok (d_list vs)
                            | Err e => Err e
                            end
                  end
        end
    | EIfSome x _ b th el =>
        match eval rho b with
        | Err e => Err e
        | Ok v => if d_none v then eval rho el else eval ((x, v) :: rho) th
        end
    | ECall n r args =>
        if decide (n = s "if") then
          match args with
          | [a; b; c] => match eval rho a with
                         | Err e => Err e
                         | Ok v => if d_true v then eval rho b else eval rho c
                         end
          | _ => Err ValueError
          end
        else
          match lookup_name rho n r with
          | Err e => Err e
          | Ok f => match mapR (eval rho) args with Ok vs => d_call f vs | Err e => Err e end
          end
    | EList l => match mapR (eval rho) l with Ok vs => Ok (d_list vs) | Err e => Err e end
    | EDict l =>
        match mapR (fun '(k, e) => match eval rho e with Ok v => Ok (k, v) | Err x => Err x end) l with
        | Ok vs => Ok (d_dict vs)
        | Err e => Err e
        end
    end.
End eval.

(** ** Variables *)
(** The variables bound by [each] and [if_some] somewhere in an expression. *)
Fixpoint binders (e : expr) : list str :=
  match e with
  | EConst _ | ESym _ _ => []
  | EGet o _ _ => binders o
  | EEach x _ c b => x :: binders c ++ binders b
  | EIfSome x _ b t e => x :: binders b ++ binders t ++ binders e
  | ECall _ _ l | EList l => flat_map binders l
  | EDict l => flat_map (fun '(_, e) => binders e) l
  end.
Definition without (x : str) (l : list str) : list str := filter (fun n => n <> x) l.
(** The names which an expression takes from its surroundings. *)
Fixpoint free (e : expr) : list str :=
  match e with
  | EConst _ => []
  | ESym n _ => [n]
  | EGet o _ _ => free o
  | EEach x _ c b => free c ++ without x (free b)
  | EIfSome x _ b t e => free b ++ without x (free t) ++ free e
  | ECall n _ l => (if decide (n = s "if") then [] else [n]) ++ flat_map free l
  | EList l => flat_map free l
  | EDict l => flat_map (fun '(_, e) => free e) l
  end.
(** No [if_some] mentions its own variable (or a variable of the same name) outside of its
    [then] branch. *)
Fixpoint some_apart (e : expr) : bool :=
  match e with
  | EConst _ | ESym _ _ => true
  | EGet o _ _ => some_apart o
  | EEach _ _ c b => some_apart c && some_apart b
  | EIfSome x _ b t e =>
      bool_decide (x ∉ free b) && bool_decide (x ∉ free e) && some_apart b && some_apart t && some_apart e
  | ECall _ _ l | EList l => forallb some_apart l
  | EDict l => forallb (fun '(_, e) => some_apart e) l
  end.
(** The names under which the generated code keeps a variable bound more than once. *)
Definition renamed (x y : str) : Prop := exists k, (2 <= k)%N /\ y = x ++ s "_" ++ N_str k.
Record hygienic (args : list str) (e : expr) : Prop := {
  hy_reserved : forall n, n ∈ THIS :: args ++ binders e -> n ∉ [s "ctx"; s "env"; s "next"];
  hy_renamed : forall x y, x ∈ THIS :: args ++ binders e -> y ∈ THIS :: args ++ binders e -> ~ renamed x y;
  hy_reused : forall n, n ∈ free e -> n ∉ THIS :: args -> n ∉ binders e;
  hy_some : some_apart e = true;
}.
(** Constants which can be written in generated code. *)
Definition literal (v : val) : bool :=
  match v with VNone | VBool _ | VInt _ | VFloat _ _ | VStr _ | VKw _ | VSym _ => true | _ => false end.
Fixpoint literals (e : expr) : bool :=
  match e with
  | EConst v => literal v
  | ESym _ _ => true
  | EGet o _ _ => literals o
  | EEach _ _ c b => literals c && literals b
  | EIfSome _ _ b t e => literals b && literals t && literals e
  | ECall _ _ l | EList l => forallb literals l
  | EDict l => forallb (fun '(_, e) => literals e) l
  end.
(** Every [if] has a test and two branches. *)
Fixpoint ifs_ok (e : expr) : bool :=
  match e with
  | EConst _ | ESym _ _ => true
  | EGet o _ _ => ifs_ok o
  | EEach _ _ c b => ifs_ok c && ifs_ok b
  | EIfSome _ _ b t e => ifs_ok b && ifs_ok t && ifs_ok e
  | ECall n _ l => (if decide (n = s "if") then (length l =? 3)%nat else true) && forallb ifs_ok l
  | EList l => forallb ifs_ok l
  | EDict l => forallb (fun '(_, e) => ifs_ok e) l
  end.

(** ** Data *)
(** [DObj] is an object of the graph with its fields, [DDict] a plain dictionary. *)
Inductive dv :=
| DVal (v : val)
| DList (l : list dv)
| DObj (d : list (str * dv))
| DDict (d : list (str * dv))
| DFun (f : str).
(** [F] gives the functions which expressions call; objects are true, lists and dictionaries
    unless they are empty, other values as [truth] says. *)
Definition data_dom (F : str -> list dv -> res dv) (truth : val -> bool) : PyDom := {|
  D := dv;
  d_const := DVal;
  d_sub v k := match v with
               | DObj d | DDict d => from_opt KeyError (dget k d)
               | _ => Err TypeError
               end;
  d_true v := match v with
              | DVal v => truth v
              | DList l => negb (bool_decide (l = []))
              | DDict d => negb (bool_decide (map fst d = []))
              | _ => true
              end;
  d_none v := match v with DVal VNone => true | _ => false end;
  d_iter v := match v with DList l => Ok l | _ => Err TypeError end;
  d_call f vs := match f with DFun f => F f vs | _ => Err TypeError end;
  d_list := DList;
  d_dict := DDict;
|}.

Section data.
  Context (types : dict str ty).
  (** Which data has which type. *)
  Inductive has_type : dv -> ty -> Prop :=
  | ht_any v : has_type v TAny
  | ht_bool b : has_type (DVal (VBool b)) TBool
  | ht_str x : has_type (DVal (VStr x)) TStr
  | ht_int z : has_type (DVal (VInt z)) TInt
  | ht_float m e : has_type (DVal (VFloat m e)) TFloat
  | ht_ref v n t : dget n types = Some t -> has_type v t -> has_type v (TRef n)
  | ht_none t : has_type (DVal VNone) (TOpt t)
  | ht_some v t : has_type v t -> has_type v (TOpt t)
  | ht_seq l t : (forall v, v ∈ l -> has_type v t) -> has_type (DList l) (TSeq t)
  | ht_map d tk tv :
      (forall k v, (k, v) ∈ d -> has_type (DVal (VStr k)) tk) ->
      (forall k v, (k, v) ∈ d -> has_type v tv) -> has_type (DDict d) (TMap tk tv)
  | ht_rec d fs :
      (forall n t, dget n fs = Some t -> is_Some (dget n d)) ->
      (forall n t v, dget n fs = Some t -> dget n d = Some v -> has_type v t) -> has_type (DObj d) (TRec fs).
  (** [enough t S v w]: [w] agrees with [v], of type [t], on the paths in [S]: where the type is a
      record, only those fields are compared whose path is in [S]; values of other types are the
      same.  Nothing is said about other fields, which may be missing in [w]. *)
  Definition leaf (t : ty) : bool :=
    match t with TAny | TBool | TStr | TInt | TFloat | TMap _ _ => true | _ => false end.
  Inductive enough : ty -> (list str -> Prop) -> dv -> dv -> Prop :=
  | en_leaf t S v : leaf t = true -> enough t S v v
  | en_ref n t S v w : dget n types = Some t -> enough t S v w -> enough (TRef n) S v w
  | en_none t S : enough (TOpt t) S (DVal VNone) (DVal VNone)
  | en_some t S v w : enough t S v w -> enough (TOpt t) S v w
  | en_seq t S l l' : length l = length l' ->
      (forall i v w, l !! i = Some v -> l' !! i = Some w -> enough t S v w) -> enough (TSeq t) S (DList l) (DList l')
  | en_rec fs (S : list str -> Prop) d d' :
      (forall n t, dget n fs = Some t -> S [n] -> is_Some (dget n d) /\ is_Some (dget n d')) ->
      (forall n t v w, dget n fs = Some t -> S [n] -> dget n d = Some v -> dget n d' = Some w ->
         enough t (fun p => S (n :: p)) v w) ->
      enough (TRec fs) S (DObj d) (DObj d').
End data.

(** Two results are alike if they differ at most inside of objects. *)
Inductive alike : dv -> dv -> Prop :=
| al_val v : alike (DVal v) (DVal v)
| al_list l l' : length l = length l' ->
    (forall i v w, l !! i = Some v -> l' !! i = Some w -> alike v w) -> alike (DList l) (DList l')
| al_obj d d' : alike (DObj d) (DObj d')
| al_dict d d' : map fst d = map fst d' ->
    (forall i v w, d.*2 !! i = Some v -> d'.*2 !! i = Some w -> alike v w) -> alike (DDict d) (DDict d')
| al_fun f : alike (DFun f) (DFun f).
Definition same_outcome (x y : res dv) : Prop :=
  match x, y with Ok v, Ok w => alike v w | Err e, Err e' => e = e' | _, _ => False end.

(** Arguments which a function of the declared type must not tell apart: it may use the fields
    which were declared and no others. *)
Fixpoint same_at (t : ty) (v w : dv) : Prop :=
  match t with
  | TAny => alike v w
  | TOpt t => (v = DVal VNone /\ w = DVal VNone) \/ same_at t v w
  | TSeq t => exists l l', v = DList l /\ w = DList l' /\ Forall2 (same_at t) l l'
  | TRec fs =>
      exists d d', v = DObj d /\ w = DObj d' /\
      (fix all (l : list (str * ty)) : Prop :=
         match l with
         | [] => True
         | (n, t) :: l' => (exists x y, dget n d = Some x /\ dget n d' = Some y /\ same_at t x y) /\ all l'
         end) fs
  | _ => v = w
  end.
Inductive same_args : list ty -> list dv -> list dv -> Prop :=
| sa_nil : same_args [] [] []
| sa_cons t ts v vs w ws : same_at t v w -> same_args ts vs ws -> same_args (t :: ts) (v :: vs) (w :: ws).
Definition respects (F : str -> list dv -> res dv) (f : str) (ts : list ty) : Prop :=
  forall vs ws, same_args ts vs ws -> same_outcome (F f vs) (F f ws).
(** Types written out, without references. *)
Fixpoint no_refs (t : ty) : bool :=
  match t with
  | TRef _ | TCall _ => false
  | TOpt t | TSeq t => no_refs t
  | TMap k v => no_refs k && no_refs v
  | TRec fs => forallb (fun '(_, t) => no_refs t) fs
  | _ => true
  end.

(** The names along the paths which a query requests. *)
Definition asks (q : qnode) (p : list str) : Prop := exists ls, requests q ls /\ map lb_name ls = p.

(** ** Types of expressions *)
Section below.
  Context (types : dict str ty).
  Definition scalar_ty (t : ty) : bool := match t with TBool | TStr | TInt | TFloat => true | _ => false end.
  (** A value of the first type can be used where the second is expected. *)
  Inductive below : ty -> ty -> Prop :=
  | bl_any t : below t TAny
  | bl_scalar t : scalar_ty t = true -> below t t
  | bl_call l l' : below (TCall l) (TCall l')
  | bl_left n t u : dget n types = Some t -> below t u -> below (TRef n) u
  | bl_right n t u : dget n types = Some u -> below t u -> below t (TRef n)
  | bl_opt t u : below t u -> below (TOpt t) (TOpt u)
  | bl_some t u : below t u -> below t (TOpt u)
  | bl_seq t u : below t u -> below (TSeq t) (TSeq u)
  | bl_map tk tv uk uv : below tk uk -> below tv uv -> below (TMap tk tv) (TMap uk uv)
  | bl_rec f1 f2 : (forall n u, (n, u) ∈ f2 -> is_Some (dget n f1)) ->
      (forall n t u, (n, u) ∈ f2 -> dget n f1 = Some t -> below t u) -> below (TRec f1) (TRec f2).
  (** All references are defined, and none by another reference. *)
  Fixpoint refs_in (t : ty) : list str :=
    match t with
    | TRef n => [n]
    | TOpt t | TSeq t => refs_in t
    | TMap k v => refs_in k ++ refs_in v
    | TRec fs => flat_map (fun '(_, t) => refs_in t) fs
    | TCall l => flat_map refs_in l
    | _ => []
    end.
  Definition closed (t : ty) : Prop := forall n, n ∈ refs_in t -> is_Some (dget n types).
  Definition closed_types : Prop :=
    forall n t, dget n types = Some t -> closed t /\ forall m, t <> TRef m.
  (** The type can be written out, with no recursion. *)
  Inductive finite : ty -> Prop :=
  | fin_any : finite TAny
  | fin_scalar t : scalar_ty t = true -> finite t
  | fin_call l : finite (TCall l)
  | fin_ref n t : dget n types = Some t -> finite t -> finite (TRef n)
  | fin_opt t : finite t -> finite (TOpt t)
  | fin_seq t : finite t -> finite (TSeq t)
  | fin_map k v : finite k -> finite v -> finite (TMap k v)
  | fin_rec fs : NoDup (dkeys fs) -> (forall n t, (n, t) ∈ fs -> finite t) -> finite (TRec fs).
End below.

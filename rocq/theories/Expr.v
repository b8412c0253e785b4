(** hiku/expr: checking expressions, extracting their requirements, compiling them. *)
From Verif Require Export Base Val Types Query.

(** ** Expressions (expr/nodes.py, after expr/core.py:49-69 [to_expr]) *)
(** References (expr/refs.py:19-46): [RNamed] is [NamedRef], [RItem] is [Ref], [RTop] stands for
    the back-reference None. *)
Inductive ref :=
| RTop
| RNamed (b : ref) (n : str) (t : ty)
| RItem (b : ref) (t : ty).
Definition ref_to (r : ref) : ty := match r with RTop => TAny | RNamed _ _ t | RItem _ t => t end.
(** Tuples by the name of their first symbol, which is not [get], [each], [if_some] in [ECall];
    the others are given with the right number and kind of arguments.  [r] is the attribute
    [__ref__], which [check] sets: on symbols, on [get] and on the variables of [each] and
    [if_some]. *)
Inductive expr :=
| EConst (v : val)
| ESym (n : str) (r : option ref)
| EGet (o : expr) (n : str) (r : option ref)
| EEach (x : str) (rx : option ref) (col body : expr)
| EIfSome (x : str) (rx : option ref) (bind th el : expr)
| ECall (n : str) (r : option ref) (args : list expr)
| EList (l : list expr)
| EDict (l : list (str * expr)).
Section expr_ind.
  Variable P : expr -> Prop.
  Hypothesis Hc : forall v, P (EConst v).
  Hypothesis Hs : forall n r, P (ESym n r).
  Hypothesis Hg : forall o n r, P o -> P (EGet o n r).
  Hypothesis He : forall x rx c b, P c -> P b -> P (EEach x rx c b).
  Hypothesis Hi : forall x rx b t e, P b -> P t -> P e -> P (EIfSome x rx b t e).
  Hypothesis Hf : forall n r l, Forall P l -> P (ECall n r l).
  Hypothesis Hl : forall l, Forall P l -> P (EList l).
  Hypothesis Hd : forall l, Forall (fun p => P p.2) l -> P (EDict l).
  Fixpoint expr_ind' (e : expr) : P e :=
    let fl := fix fl (l : list expr) : Forall P l :=
      match l with [] => List.Forall_nil _ | e :: l' => List.Forall_cons _ _ _ (expr_ind' e) (fl l') end in
    match e with
    | EConst v => Hc v
    | ESym n r => Hs n r
    | EGet o n r => Hg o n r (expr_ind' o)
    | EEach x rx c b => He x rx c b (expr_ind' c) (expr_ind' b)
    | EIfSome x rx b t e => Hi x rx b t e (expr_ind' b) (expr_ind' t) (expr_ind' e)
    | ECall n r l => Hf n r l (fl l)
    | EList l => Hl l (fl l)
    | EDict l => Hd l ((fix fd (l : list (str * expr)) : Forall (fun p => P p.2) l :=
        match l with [] => List.Forall_nil _ | (k, e) :: l' => List.Forall_cons _ (k, e) _ (expr_ind' e) (fd l') end) l)
    end.
End expr_ind.
(** [getattr(node, '__ref__', None)] *)
Definition ref_of (e : expr) : option ref := match e with ESym _ r | EGet _ _ r => r | _ => None end.

(** ** Checking (expr/checker.py) *)
(** [isinstance(t1, type(t2))] *)
Definition same_meta (t1 t2 : ty) : bool :=
  match t1, t2 with
  | TAny, TAny | TBool, TBool | TStr, TStr | TInt, TInt | TFloat, TFloat | TRef _, TRef _ | TOpt _, TOpt _
  | TSeq _, TSeq _ | TMap _ _, TMap _ _ | TRec _, TRec _ | TCall _, TCall _ => true
  | _, _ => false
  end.
(** expr/checker.py:49-75 [check_type]; [fuel] is the limit of recursion *)
Fixpoint check_type (types : dict str ty) (fuel : nat) (t1 t2 : ty) : res unit :=
  match fuel with
  | O => Err OutOfFuel
  | S k =>
      match get_type types t1, get_type types t2 with
      | Err e, _ | Ok _, Err e => Err e
      | Ok u1, Ok u2 =>
          match u2 with
          | TAny => Ok tt
          | _ =>
              if same_meta u1 u2 then
                match u1, u2 with
                | TOpt a, TOpt b => check_type types k a b
                | TSeq a, TSeq b => check_type types k a b
                | TMap a1 a2, TMap b1 b2 =>
                    match check_type types k a1 b1 with Ok _ => check_type types k a2 b2 | Err e => Err e end
                | TRec f1, TRec f2 =>
                    (fix go (l : list (str * ty)) : res unit :=
                       match l with
                       | [] => Ok tt
                       | (key, v2) :: l' =>
                           match dget key f1 with
                           | None => Err TypeError
                           | Some v1 =>
                               match get_type types v1 with
                               | Err e => Err e
                               | Ok w1 => match check_type types k w1 v2 with Ok _ => go l' | Err e => Err e end
                               end
                           end
                       end) f2
                | _, _ => Ok tt
                end
              else match u2 with TOpt b => check_type types k u1 b | _ => Err TypeError end
          end
      end
  end.

Section check.
  Context (types : dict str ty) (fuel : nat).
  (** expr/checker.py:78-174 [Checker]; [env] is the deque of scopes, the last one first. *)
  Definition need_ref (e : expr) : res ref := match ref_of e with Some r => Ok r | None => Err AssertionError end.
  (** expr/checker.py:144-150: the types of arguments *)
  Fixpoint check_args (args : list expr) (ts : list ty) : res unit :=
    match args, ts with
    | a :: args', t :: ts' =>
        match (match ref_of a with
               | Some r => match get_type types (ref_to r) with Ok u => check_type types fuel u t | Err e => Err e end
               | None => check_type types fuel TAny t
               end) with
        | Ok _ => check_args args' ts'
        | Err e => Err e
        end
    | _, _ => Ok tt
    end.
  Fixpoint check (env : dict str ref) (e : expr) : res expr :=
    match e with
    | EConst v => Ok (EConst v)
    | ESym n _ => match dget n env with Some r => Ok (ESym n (Some r)) | None => Err TypeError end
    | EGet o n _ =>
        match check env o with
        | Err e => Err e
        | Ok o' =>
            match need_ref o' with
            | Err e => Err e
            | Ok r =>
                match get_type types (ref_to r) with
                | Err e => Err e
                | Ok t =>
                    match check_type types fuel t (TRec [(n, TAny)]) with
                    | Err e => Err e
                    | Ok _ => match t with
                              | TRec fs => match dget n fs with
                                           | Some u => Ok (EGet o' n (Some (RNamed r n u)))
                                           | None => Err AssertionError
                                           end
                              | _ => Err AttributeError
                              end
                    end
                end
            end
        end
    | EEach x _ col body =>
        match check env col with
        | Err e => Err e
        | Ok col' =>
            match need_ref col' with
            | Err e => Err e
            | Ok r =>
                match get_type types (ref_to r) with
                | Err e => Err e
                | Ok t =>
                    match check_type types fuel t (TSeq TAny) with
                    | Err e => Err e
                    | Ok _ => match t with
                              | TSeq u => match check ((x, RItem r u) :: env) body with
                                          | Ok body' => Ok (EEach x (Some (RItem r u)) col' body')
                                          | Err e => Err e
                                          end
                              | _ => Err AttributeError
                              end
                    end
                end
            end
        end
    | EIfSome x _ b th el =>
        match check env b with
        | Err e => Err e
        | Ok b' =>
            match need_ref b' with
            | Err e => Err e
            | Ok r =>
                match get_type types (ref_to r) with
                | Err e => Err e
                | Ok t =>
                    let rx := match t with TOpt u => RItem r u | _ => r end in
                    match check ((x, rx) :: env) th with
                    | Err e => Err e
                    | Ok th' => match check env el with
                                | Ok el' => Ok (EIfSome x (Some rx) b' th' el')
                                | Err e => Err e
                                end
                    end
                end
            end
        end
    | ECall n _ args =>
        match dget n env with
        | None => Err TypeError
        | Some r =>
            match mapR (check env) args with
            | Err e => Err e
            | Ok args' =>
                match get_type types (ref_to r) with
                | Err e => Err e
                | Ok (TCall ts) =>
                    if (length ts =? length args')%nat then
                      match check_args args' ts with Ok _ => Ok (ECall n (Some r) args') | Err e => Err e end
                    else Err AssertionError
                | Ok _ => Err AttributeError
                end
            end
        end
    | EList l => match mapR (check env) l with Ok l' => Ok (EList l') | Err e => Err e end
    | EDict l =>
        match mapR (fun '(k, e) => match check env e with Ok e' => Ok (k, e') | Err x => Err x end) l with
        | Ok l' => Ok (EDict l')
        | Err x => Err x
        end
    end.
End check.
(** expr/checker.py:18-22, 177-178 [check] *)
Definition check_env (env : dict str ty) : dict str ref := map (fun '(n, t) => (n, RNamed RTop n t)) env.

(** ** Requirements (expr/refs.py) *)
(** [_CONTAINER_TYPES] *)
Definition is_container (t : ty) : bool := match t with TOpt _ | TSeq _ | TMap _ _ | TRec _ => true | _ => false end.
(** expr/refs.py:49-89 [ref_to_req] *)
Fixpoint ref_to_req (types : dict str ty) (r : ref) (add : option qnode) : res (option qnode) :=
  match r with
  | RTop => match add with Some q => Ok (Some q) | None => Err AssertionError end
  | RNamed b _ t | RItem b t =>
      let unwrap t := match t with TOpt u => get_type types u | _ => Ok t end in
      let named := match r with RNamed _ n _ => Some n | _ => None end in
      let link n := ref_to_req types b (Some (QN [QL n (match add with Some q => qfields q | None => [] end)
                                                     (match add with Some q => qordered q | None => false end) None None] false)) in
      let field n := ref_to_req types b (Some (QN [QF n None None] false)) in
      match (match get_type types t with Ok t' => unwrap t' | Err e => Err e end) with
      | Err e => Err e
      | Ok (TRec _) => match named with Some n => link n | None => ref_to_req types b add end
      | Ok (TSeq i) =>
          match get_type types i with
          | Err e => Err e
          | Ok (TRec _) => match named with Some n => link n | None => Err AssertionError end
          | Ok u => if is_container u then Err AssertionError else
                    match named, add with Some n, None => field n | _, _ => Err AssertionError end
          end
      | Ok u =>
          if is_container u then Err AssertionError else
          match add with
          | Some _ => Err AssertionError
          | None => match named with Some n => field n | None => ref_to_req types b None end
          end
      end
  end.
(** expr/refs.py:92-109 [type_to_query] *)
Fixpoint type_to_query (t : ty) : option qnode :=
  match t with
  | TRec fs => Some (QN (map (fun '(n, u) => match type_to_query u with
                                             | Some q => QL n (qfields q) (qordered q) None None
                                             | None => QF n None None
                                             end) fs) false)
  | TSeq u | TOpt u => type_to_query u
  | _ => None
  end.
Section extract.
  Context (types : dict str ty).
  (** expr/refs.py:125-131: the requirement of a node's own reference *)
  Definition own_req (r : option ref) : res (list qnode) :=
    match r with
    | None => Ok []
    | Some r => match ref_to_req types r None with
                | Err e => Err e
                | Ok (Some q) => Ok [q]
                | Ok None => Ok []
                end
    end.
  Definition seqR {A} (x y : res (list A)) : res (list A) :=
    match x with Err e => Err e | Ok a => match y with Err e => Err e | Ok b => Ok (a ++ b) end end.
  (** expr/refs.py:112-147 [RequirementsExtractor]: the list [_reqs] *)
  Fixpoint reqs_of (e : expr) : res (list qnode) :=
    match e with
    | EConst _ => Ok []
    | ESym _ r => own_req r
    | EGet o _ r => seqR (own_req r) (reqs_of o)
    | EEach _ rx col body => seqR (own_req rx) (seqR (reqs_of col) (reqs_of body))
    | EIfSome _ rx b th el => seqR (own_req rx) (seqR (reqs_of b) (seqR (reqs_of th) (reqs_of el)))
    | ECall _ r args =>
        match r with
        | None => match mapR reqs_of args with Ok l => Ok (concat l) | Err e => Err e end
        | Some r =>
            match ref_to r with
            | TCall ts =>
                (fix go (l : list expr) (ts : list ty) : res (list qnode) :=
                   match l, ts with
                   | a :: l', t :: ts' =>
                       seqR (match type_to_query t with
                             | Some q =>
                                 match ref_of a with
                                 | None => Err AttributeError
                                 | Some ra => match ref_to_req types ra (Some q) with
                                              | Ok (Some q') => Ok [q']
                                              | Ok None => Err AttributeError
                                              | Err e => Err e
                                              end
                                 end
                             | None => reqs_of a
                             end) (go l' ts')
                   | _, _ => Ok []
                   end) args ts
            | _ => Err AttributeError
            end
        end
    | EList l => match mapR reqs_of l with Ok l' => Ok (concat l') | Err e => Err e end
    | EDict l => match mapR (fun '(_, e) => reqs_of e) l with Ok l' => Ok (concat l') | Err x => Err x end
    end.
  Definition extract `{Hasher} (e : expr) : res qnode :=
    match reqs_of e with Ok l => Ok (merge l) | Err x => Err x end.
End extract.

(** ** Compiling (expr/compiler.py) *)
(** The Python expressions generated.  [PNextIf x b t e] is
    [next((t if x is not None else e) for x in (b,))], [PComp x c b] is [[b for x in c]]. *)
Inductive pexpr :=
| PName (n : str)
| PConst (v : val)
| PSub (o : pexpr) (k : str)
| PIf (c t e : pexpr)
| PNextIf (x : str) (b t e : pexpr)
| PComp (x : str) (c b : pexpr)
| PCall (f : pexpr) (args : list pexpr)
| PList (l : list pexpr)
| PDict (l : list (str * pexpr)).
(** expr/compiler.py:10-31 [Environ]: a Counter; entries are never deleted *)
Definition counter := dict str nat.
Definition cnt (c : counter) (n : str) : nat := match dget n c with Some i => i | None => 0 end.
Definition env_name (c : counter) (n : str) : str :=
  if (1 <? cnt c n)%nat then n ++ s "_" ++ N_str (N.of_nat (cnt c n)) else n.
Definition push (c : counter) (n : str) : counter := dset n (S (cnt c n)) c.
Definition pop (c : counter) (n : str) : counter := dset n (pred (cnt c n)) c.
(** expr/compiler.py:136-142 [visit_symbol] *)
Definition compile_sym (c : counter) (n : str) (r : option ref) : res pexpr :=
  match dget n c with
  | Some _ => Ok (PName (env_name c n))
  | None => match r with
            | None => Err AttributeError
            | Some r => Ok (PSub (PName (match ref_to r with TCall _ => s "env" | _ => s "ctx" end)) n)
            end
  end.
Definition mapS {S A B} (f : S -> A -> res (B * S)) : S -> list A -> res (list B * S) :=
  fix go (st : S) (l : list A) : res (list B * S) :=
    match l with
    | [] => Ok ([], st)
    | x :: l' => match f st x with
                 | Err e => Err e
                 | Ok (y, st') => match go st' l' with Ok (ys, st'') => Ok (y :: ys, st'') | Err e => Err e end
                 end
    end.
(** expr/compiler.py:70-158; constants of other types raise [NotImplementedError] *)
Definition compile_const (v : val) : res pexpr :=
  match v with
  | VNone | VBool _ | VInt _ | VFloat _ _ | VStr _ | VKw _ | VSym _ => Ok (PConst v)
  | _ => Err NotImplementedErr
  end.
Fixpoint compile (c : counter) (e : expr) : res (pexpr * counter) :=
  match e with
  | EConst v => match compile_const v with Ok p => Ok (p, c) | Err x => Err x end
  | ESym n r => match compile_sym c n r with Ok p => Ok (p, c) | Err x => Err x end
  | EGet o n _ => match compile c o with Ok (p, c1) => Ok (PSub p n, c1) | Err x => Err x end
  | EEach x _ col body =>
      match compile c col with
      | Err x => Err x
      | Ok (pc, c1) =>
          let c2 := push c1 x in
          match compile c2 body with
          | Err x => Err x
          | Ok (pb, c3) => Ok (PComp (env_name c2 x) pc pb, pop c3 x)
          end
      end
  | EIfSome x _ b th el =>
      let c1 := push c x in
      match compile c1 b with
      | Err x => Err x
      | Ok (pb, c2) =>
          match compile c2 th with
          | Err x => Err x
          | Ok (pt, c3) =>
              match compile c3 el with
              | Err x => Err x
              | Ok (pe, c4) => Ok (PNextIf (env_name c1 x) pb pt pe, pop c4 x)
              end
          end
      end
  | ECall n r args =>
      if decide (n = s "if") then
        match mapS compile c args with
        | Ok ([a; b; d], c1) => Ok (PIf a b d, c1)
        | Ok _ => Err ValueError
        | Err x => Err x
        end
      else
        match compile_sym c n r with
        | Err x => Err x
        | Ok pf => match mapS compile c args with Ok (ps, c1) => Ok (PCall pf ps, c1) | Err x => Err x end
        end
  | EList l => match mapS compile c l with Ok (ps, c1) => Ok (PList ps, c1) | Err x => Err x end
  | EDict l =>
      match mapS (fun c '(k, e) => match compile c e with Ok (p, c1) => Ok ((k, p), c1) | Err x => Err x end) c l with
      | Ok (ps, c1) => Ok (PDict ps, c1)
      | Err x => Err x
      end
  end.
(** expr/core.py:19 *)
Definition THIS : str := s "this".
(** expr/compiler.py:45-62 [compile_lambda_expr]: the names of the arguments and the body.  A
    name given twice is a SyntaxError when the code is compiled, here [UserErr 1]. *)
Definition compile_lambda (e : expr) (args : list str) : res (list str * pexpr) :=
  match compile (fold_left push (THIS :: args) []) e with
  | Err x => Err x
  | Ok (p, _) =>
      let names := s "env" :: THIS :: s "ctx" :: args in
      if decide (NoDup names) then Ok (names, p) else Err (UserErr 1)
  end.

(** ** What the generated code does *)
(** Python objects, as far as this code needs them.  [d_sub] is [obj[key]], [d_none] is
    [obj is None], [d_iter] is [list(obj)]. *)
Class PyDom := {
  D : Type;
  d_const : val -> D;
  d_sub : D -> str -> res D;
  d_true : D -> bool;
  d_none : D -> bool;
  d_iter : D -> res (list D);
  d_call : D -> list D -> res D;
  d_list : list D -> D;
  d_dict : list (str * D) -> D;
}.
Section peval.
  Context `{PyDom}.
  (** The names of a scope.  Names which are nowhere bound raise NameError (module globals, which
      the code could also see, are not modelled); [next] is the builtin unless it is bound, and
      calling anything else with a generator is taken to fail. *)
  Fixpoint peval (sg : dict str D) (p : pexpr) : res D :=
    match p with
    | PName n => match dget n sg with Some v => Ok v | None => Err NameErr end
    | PConst v => Ok (d_const v)
    | PSub o k => match peval sg o with Ok v => d_sub v k | Err e => Err e end
    | PIf c t e => match peval sg c with Err e => Err e | Ok v => if d_true v then peval sg t else peval sg e end
    | PNextIf x b t e =>
        match dget (s "next") sg with
        | Some _ => Err TypeError
        | None =>
            match peval sg b with
            | Err e => Err e
            | Ok v => let sg' := (x, v) :: sg in if d_none v then peval sg' e else peval sg' t
            end
        end
    | PComp x c b =>
        match peval sg c with
        | Err e => Err e
        | Ok v => match d_iter v with
                  | Err e => Err e
                  | Ok l => match mapR (fun u => peval ((x, u) :: sg) b) l with Ok vs => Ok (d_list vs) | Err e => Err e end
                  end
        end
    | PCall f args =>
        match peval sg f with
        | Err e => Err e
        | Ok vf => match mapR (peval sg) args with Ok vs => d_call vf vs | Err e => Err e end
        end
    | PList l => match mapR (peval sg) l with Ok vs => Ok (d_list vs) | Err e => Err e end
    | PDict l => match mapR (fun '(k, q) => match peval sg q with Ok v => Ok (k, v) | Err e => Err e end) l with
                 | Ok vs => Ok (d_dict vs)
                 | Err e => Err e
                 end
    end.
  (** The call of the lambda: sources/graph.py:15-20, 65-67 *)
  Definition call_lambda (names : list str) (p : pexpr) (vals : list D) : res D :=
    if (length names =? length vals)%nat then peval (zip names vals) p else Err TypeError.
End peval.

(** ** Fields computed by expressions (sources/graph.py) *)
(** sources/graph.py:51-68 [BoundExpr.__postprocess__]: the checked expression, what it requires
    and the compiled lambda.  [fns]: the types of the functions in the expression; [opts]: the
    options of the field with their types (Any where absent); [types] of the sub-graph. *)
Definition bound_env (fns root opts : list (str * ty)) (node : str) : dict str ty :=
  dset THIS (TRef node) (dupdate (dupdate (of_pairs fns) root) opts).
Definition bind_field `{Hasher} (types : dict str ty) (fuel : nat) (node : str) (fns opts : list (str * ty)) (e : expr)
  : res (expr * qnode * (list str * pexpr)) :=
  match dget (s "__root__") types with
  | None => Err KeyError
  | Some (TRec root) =>
      match check types fuel (check_env (bound_env fns root opts node)) e with
      | Err x => Err x
      | Ok e' =>
          match extract types e' with
          | Err x => Err x
          | Ok q =>
              let q' := QN (List.filter (fun f => negb (bool_decide (q_name f ∈ dkeys opts))) (qfields q)) false in
              match compile_lambda e' (dkeys opts) with
              | Err x => Err x
              | Ok l => Ok (e', q', l)
              end
          end
      end
  | Some _ => Err AttributeError
  end.

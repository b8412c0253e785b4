(** hiku/engine.py and the run-time part of hiku/sources/graph.py. *)
From Verif Require Export Base Val Query Types Graph Queue Result.

(** engine.py:15-27 [_yield_options], [_get_options] *)
Definition get_options (declared : list goption) (o : opts) : res (list (str * val)) :=
  match mapR (fun op =>
          let v := match dget (go_name op) (opt_dict o) with Some v => v | None => go_default op end in
          match v with VNothing => Err TypeError | _ => Ok (go_name op, v) end) declared with
  | Ok ps => Ok (of_pairs ps)
  | Err e => Err e
  end.

Definition gi_opts (x : gitem) : list goption := match x with GF f => gf_opts f | GL l => gl_opts l end.

(** engine.py:30-57 [InitOptions] for one member of the node [gn] *)
Fixpoint init_item (g : graph) (gn : gnode) (q : qitem) {struct q} : res qitem :=
  match find_field gn (q_name q) with
  | None => Err KeyError
  | Some go =>
      match q with
      | QF n o a =>
          match gi_opts go with
          | [] => Ok q
          | ds => match get_options ds o with Ok o' => Ok (QF n (Some o') a) | Err e => Err e end
          end
      | QL n sub ord o a =>
          let sub' : res (list qitem) :=
            match go with
            | GL l => match find_node g (gl_node l) with
                      | None => Err KeyError
                      | Some gn' => mapR (init_item g gn') sub
                      end
            | GF _ => Ok sub
            end in
          match sub' with
          | Err e => Err e
          | Ok sub' =>
              match gi_opts go with
              | [] => Ok (QL n sub' ord None a)
              | ds => match get_options ds o with
                      | Ok o' => Ok (QL n sub' ord (Some o') a) | Err e => Err e end
              end
          end
      end
  end.
Definition init_options (g : graph) (q : qnode) : res qnode :=
  match mapR (init_item g (g_root g)) (qfields q) with
  | Ok l => Ok (QN l (qordered q)) | Err e => Err e end.

(** The function which loads a field: a plain loader or a sub-graph
    ([getattr(func, '__subquery__', func)], engine.py:77). *)
Inductive fkey : Set := KPlain (f : N) | KSub (sg : nat).
Global Instance fkey_eq_dec : EqDecision fkey.
Proof. solve_decision. Defined.
Definition fkey_of (x : gitem) : fkey :=
  match x with
  | GF f => match gf_func f with FPlain n => KPlain n | FChecked sg _ _ => KSub sg end
  | GL l => KPlain (gl_func l)
  end.

(** engine.py:60-90 [SplitQuery] *)
Definition split_t : Type := list (fkey * gitem * qitem) * list (glink * qitem).
Definition split_field (gn : gnode) (acc : split_t) (q : qitem) : res split_t :=
  match find_field gn (q_name q) with
  | None => Err KeyError
  | Some go => Ok (acc.1 ++ [(fkey_of go, go, q)], acc.2)
  end.
Definition split_item (gn : gnode) (acc : split_t) (q : qitem) : res split_t :=
  match q with
  | QF _ _ _ => split_field gn acc q
  | QL _ _ _ _ _ =>
      match find_field gn (q_name q) with
      | None => Err KeyError
      | Some (GF _) => split_field gn acc q
      | Some (GL l) =>
          match (match req_true l with
                 | Some r => split_field gn acc (QF r None None)
                 | None => Ok acc
                 end) with
          | Err e => Err e
          | Ok acc' => Ok (acc'.1, acc'.2 ++ [(l, q)])
          end
      end
  end.
Definition split_query (gn : gnode) (qs : list qitem) : res split_t := foldR (split_item gn) ([], []) qs.

(** engine.py:93-125 [GroupQuery].  A step is a group of fields of one function or a link. *)
Inductive step :=
| StFields (fk : fkey) (l : list (gitem * qitem))
| StLink (l : glink) (q : qitem).
Definition group_t : Type := list step * option fkey.
Definition group_field (gn : gnode) (acc : group_t) (q : qitem) : res group_t :=
  match find_field gn (q_name q) with
  | None => Err KeyError
  | Some go =>
      let fk := fkey_of go in
      if decide (acc.2 = Some fk) then
        match List.rev acc.1 with
        | StFields k l :: before => Ok (List.rev before ++ [StFields k (l ++ [(go, q)])], acc.2)
        | _ => Err IndexError
        end
      else Ok (acc.1 ++ [StFields fk [(go, q)]], Some fk)
  end.
Definition group_item (gn : gnode) (acc : group_t) (q : qitem) : res group_t :=
  match q with
  | QF _ _ _ => group_field gn acc q
  | QL _ _ _ _ _ =>
      match find_field gn (q_name q) with
      | None => Err KeyError
      | Some (GF _) => Err AttributeError           (* engine.py:121 graph_obj.requires *)
      | Some (GL l) =>
          match (match req_true l with
                 | Some r => group_field gn acc (QF r None None)
                 | None => Ok acc
                 end) with
          | Err e => Err e
          | Ok acc' => Ok (acc'.1 ++ [StLink l q], None)
          end
      end
  end.
Definition group_query (gn : gnode) (qs : list qitem) : res (list step) :=
  match foldR (group_item gn) ([], None) qs with Ok r => Ok r.1 | Err e => Err e end.

(** ** Loader calls *)
(** Values required by a link: a list for a node, one value for the root (engine.py:171-177). *)
Inductive reqs := RList (l : list ival) | ROne (v : ival).
Inductive cargs :=
| AFields (qfs : list qitem) (ids : option (list val))
| ALink (rq : option reqs) (o : option opts).
(** [c_ctx]: the context is passed as first argument (engine.py:287-291). *)
Record call := Call { c_func : N; c_ctx : bool; c_args : cargs }.

(** What a loader does: returns a value, returns a generator of values, raises. *)
Inductive outcome := Ret (v : val) | RetGen (l : list val) | Raise (e : exn).

(** What can be read from a result through [Proxy]: the argument of compiled expressions. *)
Inductive ptree :=
| PV (v : ival)
| PO (d : list (str * ptree))
| PLs (l : list ptree)
| PX (e : exn).                (* reading it raises *)

Section view.
  Context `{Hasher}.
  Fixpoint view_item (idx : index) (ref : str * val) (q : qitem) {struct q} : str * ptree :=
    (result_key q,
     match dget (ref.1, ref.2, index_key q) idx with
     | None => PX AssertionError
     | Some v =>
         match q with
         | QF _ _ _ => PV v
         | QL _ sub _ _ _ =>
             match v with
             | IRef n i => PO (of_pairs (map (view_item idx (n, i)) sub))
             | IRefs (r :: rs) =>
                 PLs (map (fun ref' => PO (of_pairs (map (view_item idx ref') sub))) (r :: rs))
             | _ => PV v
             end
         end
     end).
  Definition view (idx : index) (ref : str * val) (q : qnode) : ptree :=
    PO (of_pairs (map (view_item idx ref) (qfields q))).
End view.

(** The environment: the sub-graphs, the loaders (the outcome of call number [n] of the
    execution), which loaders are marked with [pass_context], the compiled expressions, and
    whether the executor runs loaders during [submit] (sync.py:12-13). *)
Record env := Env {
  e_sgs : list (graph * str);
  e_oracle : nat -> call -> outcome;
  e_ctx : N -> bool;
  e_proc : N -> ptree -> ptree -> list val -> res val;
  e_eager : bool;
}.

(** engine.py:277-285 [Query]: graph, query, task set and index of one workflow. *)
Record wf := Wf { wf_graph : graph; wf_query : qnode; wf_ts : nat; wf_index : index }.
(** [w_log]: all the loader calls so far; the future number [n] is that of call [n]. *)
Record world := World { w_wfs : list wf; w_log : list call }.

(** Callbacks: engine.py:370-373 with the future's result or the sub-graph's [result_proc];
    338-342; 383-386; 313. *)
Inductive cb :=
| CbStore (w : nat) (gn : gnode) (qfs : list qitem) (ids : option (list val)) (fut : nat)
| CbStoreSub (w : nat) (gn : gnode) (qfs : list qitem) (ids : option (list val))
             (w' : nat) (procs : list (N * list val))
| CbSched (w : nat) (gn : gnode) (l : glink) (q : qitem) (ids : option (list val))
| CbLink (w : nat) (gn : gnode) (l : glink) (q : qitem) (ids : option (list val)) (fut : nat)
| CbProc (w : nat) (gn : gnode) (steps : list step) (ids : option (list val)).

Definition st : Type := world * queue cb.

Definition THIS : str := s "this".

Section engine.
  Context `{Hasher} (E : env).

  (** ** Storing values *)
  Definition rows_ok (nf : nat) (v : val) : bool :=
    match seq_of v with Some l => Nat.eqb (length l) nf | None => false end.
  (** engine.py:128-149 [_check_store_fields]; gives the rows *)
  Definition check_store_fields (gn : gnode) (nf : nat) (ids : option (list val)) (r : val) : res (list (list val)) :=
    match gn_name gn with
    | Some _ =>
        match ids with
        | None => Err AssertionError
        | Some is_ =>
            match seq_of r with
            | Some l => if Nat.eqb (length l) (length is_) && forallb (rows_ok nf) l
                        then Ok (map (fun v => match seq_of v with Some x => x | None => [] end) l)
                        else Err TypeError
            | None => Err TypeError
            end
        end
    | None => match seq_of r with
              | Some l => if Nat.eqb (length l) nf then Ok [l] else Err TypeError
              | None => Err TypeError
              end
    end.

  Definition store_row (n : str) (idx : index) (i : val) (kvs : list (str * ival)) : index :=
    fold_left (fun d kv => dset (n, i, kv.1) kv.2 d) kvs idx.

  (** engine.py:152-168 [store_fields], after a generator was turned into a list *)
  Definition store_fields (idx : index) (gn : gnode) (qfs : list qitem) (ids : option (list val)) (r : val) : res index :=
    match check_store_fields gn (length qfs) ids r with
    | Err e => Err e
    | Ok rows =>
        let names := map index_key qfs in
        match gn_name gn, ids with
        | Some n, Some is_ =>
            Ok (fold_left (fun d p => store_row n d p.1 (zip names (map IVal p.2))) (zip is_ rows) idx)
        | None, None => Ok (store_row ROOT.1 idx ROOT.2 (zip names (map IVal (concat rows))))
        | _, _ => Err AssertionError
        end
    end.

  (** engine.py:171-177 [link_reqs] *)
  Definition link_reqs (idx : index) (gn : gnode) (r : str) (ids : option (list val)) : res reqs :=
    match gn_name gn with
    | Some n =>
        match ids with
        | None => Err AssertionError
        | Some is_ =>
            match mapR (fun i => from_opt KeyError (dget (n, i, r) idx)) is_ with
            | Ok l => Ok (RList l) | Err e => Err e end
        end
    | None => match dget (ROOT.1, ROOT.2, r) idx with Some v => Ok (ROne v) | None => Err KeyError end
    end.

  (** engine.py:180-200 *)
  Definition link_ref (l : glink) (v : val) : res ival :=
    match gl_enum l with
    | Maybe => match v with VNothing => Ok (IVal VNone) | _ => Ok (IRef (gl_node l) v) end
    | One => match v with VNothing => Err AssertionError | _ => Ok (IRef (gl_node l) v) end
    | Many => match iter_of v with
              | Some is_ => Ok (IRefs (map (fun i => (gl_node l, i)) is_))
              | None => Err TypeError
              end
    end.

  Definition is_seq (v : val) : bool := match seq_of v with Some _ => true | None => false end.

  (** engine.py:203-235 [_check_store_links] *)
  Definition check_store_links (gn : gnode) (l : glink) (ids : option (list val)) (r : val) : res unit :=
    match gn_name gn, gl_requires l with
    | Some _, Some _ =>
        match ids with
        | None => Err AssertionError
        | Some is_ =>
            match seq_of r with
            | Some rs =>
                if Nat.eqb (length rs) (length is_)
                   && match gl_enum l with Many => forallb is_seq rs | _ => true end
                then Ok tt else Err TypeError
            | None => Err TypeError
            end
        end
    | _, _ => match gl_enum l with
              | Many => if is_seq r then Ok tt else Err TypeError
              | _ => Ok tt
              end
    end.

  Definition seq_items (v : val) : list val := match seq_of v with Some l => l | None => [] end.

  (** engine.py:238-251 [store_links] *)
  Definition store_links (idx : index) (gn : gnode) (l : glink) (q : qitem) (ids : option (list val)) (r : val) : res index :=
    match check_store_links gn l ids r with
    | Err e => Err e
    | Ok _ =>
        match gn_name gn with
        | Some n =>
            match ids with
            | None => Err AssertionError
            | Some is_ =>
                let rs := match gl_requires l with
                          | None => repeat r (length is_)
                          | Some _ => seq_items r
                          end in
                foldR (fun d p => match link_ref l p.2 with
                                  | Ok v => Ok (dset (n, p.1, index_key q) v d)
                                  | Err e => Err e
                                  end) idx (zip is_ rs)
            end
        | None => match link_ref l r with
                  | Ok v => Ok (dset (ROOT.1, ROOT.2, index_key q) v idx)
                  | Err e => Err e
                  end
        end
    end.

  Definition not_nothing (v : val) : bool := match v with VNothing => false | _ => true end.

  (** engine.py:254-274 [link_result_to_ids] *)
  Definition link_result_to_ids (from_list : bool) (t : tenum) (r : val) : res (list val) :=
    if from_list then
      match t with
      | Maybe => match iter_of r with Some l => Ok (List.filter not_nothing l) | None => Err TypeError end
      | One => match iter_of r with
               | Some l => if forallb not_nothing l then Ok l else Err TypeError
               | None => Err TypeError
               end
      | Many => match iter_of r with
                | Some l => match mapR (fun v => from_opt TypeError (iter_of v)) l with
                            | Ok ls => Ok (concat ls) | Err e => Err e end
                | None => Err TypeError
                end
      end
    else
      match t with
      | Maybe => match r with VNothing => Ok [] | _ => Ok [r] end
      | One => match r with VNothing => Err TypeError | _ => Ok [r] end
      | Many => match iter_of r with Some l => Ok l | None => Err TypeError end
      end.

  (** ** The workflow *)
  Definition get_wf (w : nat) (x : st) : res wf := from_opt KeyError (w_wfs x.1 !! w).
  Definition set_index (w : nat) (idx : index) (x : st) : st :=
    (World (alter (fun v => Wf (wf_graph v) (wf_query v) (wf_ts v) idx) w (w_wfs x.1)) (w_log x.1), x.2).

  (** engine.py:287-291 [_submit] and queue.py:55-58, sync.py:12-13: an eager executor
      raises the loader's exception here. *)
  Definition submit (w : nat) (f : N) (a : cargs) (x : st) : res (nat * st) :=
    match get_wf w x with
    | Err e => Err e
    | Ok v =>
        let c := Call f (e_ctx E f) a in
        let fut := length (w_log x.1) in
        let x1 : st := (World (w_wfs x.1) (w_log x.1 ++ [c]), x.2) in
        match e_eager E, e_oracle E fut c with
        | true, Raise e => Err e
        | _, _ =>
            match q_submit (wf_ts v) x.2 with
            | Ok (_, q') => Ok (fut, (x1.1, q'))
            | Err e => Err e
            end
        end
    end.

  (** [dep.result()]: the value returned by call [fut], a generator turned into a list
      (engine.py:153-156, 347-350) *)
  Definition fut_result (fut : nat) (x : st) : res val :=
    match w_log x.1 !! fut with
    | None => Err KeyError
    | Some c => match e_oracle E fut c with Ret v => Ok v | RetGen l => Ok (VList l) | Raise e => Err e end
    end.

  Definition add_cb (k : ckey) (c : cb) (x : st) : st := (x.1, q_add k c x.2).

  (** [sub_call]: SubGraph.__call__ (sources/graph.py:106-123), given the recursion into
      [process_node] of the sub-graph's workflow. *)
  Section with_pn.
    Variable pn : nat -> gnode -> qnode -> option (list val) -> st -> res st.

    (** engine.py:346-356 [process_link] *)
    Definition process_link (w : nat) (gn : gnode) (l : glink) (q : qitem) (ids : option (list val)) (r : val) (x : st) : res st :=
      match get_wf w x with
      | Err e => Err e
      | Ok v =>
          match store_links (wf_index v) gn l q ids r with
          | Err e => Err e
          | Ok idx =>
              let x1 := set_index w idx x in
              let from_list := match ids, gl_requires l with Some _, Some _ => true | _, _ => false end in
              match link_result_to_ids from_list (gl_enum l) r with
              | Err e => Err e
              | Ok [] => Ok x1
              | Ok to_ids =>
                  match find_node (wf_graph v) (gl_node l) with
                  | None => Err KeyError
                  | Some gn' =>
                      if q_is_link q then pn w gn' (q_node q) (Some to_ids) x1
                      else Err AttributeError
                  end
              end
          end
      end.

    (** sources/graph.py:112-113 *)
    Definition option_values (go : gitem) (q : qitem) : res (list val) :=
      mapR (fun op => match q_opts q with
                      | None => Err TypeError
                      | Some d => from_opt KeyError (dget (go_name op) d)
                      end) (gi_opts go).

    Definition reqs_of (go : gitem) : qnode :=
      match go with GF f => match gf_func f with FChecked _ r _ => r | _ => QN [] false end | _ => QN [] false end.
    Definition proc_of (go : gitem) : N :=
      match go with GF f => match gf_func f with FChecked _ _ p => p | _ => 0%N end | _ => 0%N end.

    (** sources/graph.py:106-123; the new workflow is appended to [w_wfs] *)
    Definition sub_call (sg : nat) (fields : list (gitem * qitem)) (ids : list val) (ts : nat) (x : st)
      : res (nat * list (N * list val) * st) :=
      match e_sgs E !! sg with
      | None => Err KeyError
      | Some (g, node) =>
          let this_link := GLink THIS Many node 0 None [] in
          let rq := merge (map (fun p => reqs_of p.1) fields) in
          match mapR (fun p => option_values p.1 p.2) fields with
          | Err e => Err e
          | Ok ovs =>
              match dget THIS (q_fields_map rq) with
              | None => Err KeyError
              | Some this_q =>
                  let other := QN (List.filter (fun r => negb (bool_decide (q_name r = THIS))) (qfields rq)) false in
                  let w' := length (w_wfs x.1) in
                  let x1 : st := (World (w_wfs x.1 ++ [Wf g rq ts []]) (w_log x.1), x.2) in
                  match process_link w' (g_root g) this_link this_q None (VList ids) x1 with
                  | Err e => Err e
                  | Ok x2 =>
                      match pn w' (g_root g) other None x2 with
                      | Err e => Err e
                      | Ok x3 => Ok (w', zip (map (fun p => proc_of p.1) fields) ovs, x3)
                      end
                  end
              end
          end
      end.

    (** engine.py:358-374 [_schedule_fields] *)
    Definition schedule_fields (w : nat) (gn : gnode) (fk : fkey) (fields : list (gitem * qitem))
      (ids : option (list val)) (x : st) : res (ckey * st) :=
      let qfs := map snd fields in
      match fk with
      | KSub sg =>
          match ids, get_wf w x with
          | None, _ => Err AssertionError
          | _, Err e => Err e
          | Some is_, Ok v =>
              match q_fork (Some (wf_ts v)) x.2 with
              | Err e => Err e
              | Ok (t, q1) =>
                  match sub_call sg fields is_ t (x.1, q1) with
                  | Err e => Err e
                  | Ok (w', procs, x2) => Ok (KT t, add_cb (KT t) (CbStoreSub w gn qfs ids w' procs) x2)
                  end
              end
          end
      | KPlain f =>
          match submit w f (AFields qfs ids) x with
          | Err e => Err e
          | Ok (fut, x1) => Ok (KF fut, add_cb (KF fut) (CbStore w gn qfs ids fut) x1)
          end
      end.

    (** engine.py:376-387 [_schedule_link] *)
    Definition schedule_link (w : nat) (gn : gnode) (l : glink) (q : qitem) (ids : option (list val)) (x : st) : res (ckey * st) :=
      match get_wf w x with
      | Err e => Err e
      | Ok v =>
          let rq : res (option reqs) :=
            match req_true l with
            | None => Ok None
            | Some r => match link_reqs (wf_index v) gn r ids with Ok a => Ok (Some a) | Err e => Err e end
            end in
          match rq with
          | Err e => Err e
          | Ok a =>
              let o := match gl_opts l with [] => None | _ => Some (q_opts q) end in
              match submit w (gl_func l) (ALink a o) x with
              | Err e => Err e
              | Ok (fut, x1) => Ok (KF fut, add_cb (KF fut) (CbLink w gn l q ids fut) x1)
              end
          end
      end.

    (** engine.py:304-313 [proc] *)
    Definition proc_steps (w : nat) (gn : gnode) (steps : list step) (ids : option (list val)) (x : st) : res st :=
      match steps with
      | [] => Err IndexError
      | sp :: rest =>
          let r := match sp with
                   | StFields fk l => schedule_fields w gn fk l ids x
                   | StLink l q => schedule_link w gn l q ids x
                   end in
          match r with
          | Err e => Err e
          | Ok (dep, x1) => Ok (match rest with [] => x1 | _ => add_cb dep (CbProc w gn rest ids) x1 end)
          end
      end.

    (** engine.py:331-334: schedules the groups of fields and collects [to_dep] *)
    Definition schedule_groups (w : nat) (gn : gnode) (ids : option (list val))
      (groups : dict fkey (list (gitem * qitem))) (x : st) : res (dict fkey ckey * st) :=
      foldR (fun acc g =>
               match schedule_fields w gn g.1 g.2 ids acc.2 with
               | Ok (dep, x') => Ok (dset g.1 dep acc.1, x')
               | Err e => Err e
               end) ([], x) groups.

    (** engine.py:337-344 *)
    Definition schedule_links (w : nat) (gn : gnode) (ids : option (list val))
      (to_func : dict str fkey) (to_dep : dict fkey ckey) (links : list (glink * qitem)) (x : st) : res st :=
      foldR (fun x p =>
               match req_true p.1 with
               | Some r =>
                   match dget r to_func with
                   | None => Err KeyError
                   | Some f => match dget f to_dep with
                               | None => Err KeyError
                               | Some dep => Ok (add_cb dep (CbSched w gn p.1 p.2 ids) x)
                               end
                   end
               | None => match schedule_link w gn p.1 p.2 ids x with Ok (_, x') => Ok x' | Err e => Err e end
               end) x links.

    (** engine.py:300-344 [process_node] *)
    Definition process_node_body (w : nat) (gn : gnode) (q : qnode) (ids : option (list val)) (x : st) : res st :=
      if qordered q then
        match group_query gn (qfields q) with
        | Err e => Err e
        | Ok [] => Ok x
        | Ok steps => proc_steps w gn steps ids x
        end
      else
        match split_query gn (qfields q) with
        | Err e => Err e
        | Ok (fields, links) =>
            let to_func := of_pairs (map (fun t => (gi_name t.1.2, t.1.1)) fields) in
            let from_func := fold_left (fun d t => dappend t.1.1 (t.1.2, t.2) d) fields [] in
            match schedule_groups w gn ids from_func x with
            | Err e => Err e
            | Ok (to_dep, x1) => schedule_links w gn ids to_func to_dep links x1
            end
        end.
  End with_pn.

  (** The fuel bounds the nesting of sub-graphs inside sub-graphs. *)
  Fixpoint process_node (fuel : nat) : nat -> gnode -> qnode -> option (list val) -> st -> res st :=
    match fuel with
    | O => fun _ _ _ _ _ => Err OutOfFuel
    | S k => process_node_body (process_node k)
    end.

  (** Sub-graphs can only refer to graphs defined before them, so this is enough. *)
  Definition pn_fuel : nat := S (length (e_sgs E)).

  (** sources/graph.py:15-21 [result_proc] *)
  Definition result_proc (w' : nat) (procs : list (N * list val)) (x : st) : res val :=
    match get_wf w' x with
    | Err e => Err e
    | Ok v =>
        let root := view (wf_index v) ROOT (wf_query v) in
        match proxy_get (wf_index v) ROOT (wf_query v) THIS with
        | Err e => Err e
        | Ok p =>
            let this_list :=
              match p with
              | PList refs pn => Ok (map (fun r => view (wf_index v) r pn) refs)
              | PRaw (IRefs []) => Ok []
              | _ => Err TypeError
              end in
            match this_list with
            | Err e => Err e
            | Ok ts =>
                match mapR (fun t => match mapR (fun pr => e_proc E pr.1 t root pr.2) procs with
                                     | Ok row => Ok (VList row) | Err e => Err e end) ts with
                | Ok rows => Ok (VList rows)
                | Err e => Err e
                end
            end
        end
    end.

  Definition store_result (w : nat) (gn : gnode) (qfs : list qitem) (ids : option (list val)) (r : val) (x : st) : res st :=
    match get_wf w x with
    | Err e => Err e
    | Ok v => match store_fields (wf_index v) gn qfs ids r with
              | Ok idx => Ok (set_index w idx x)
              | Err e => Err e
              end
    end.

  (** Running a callback *)
  Definition run_cb (c : cb) (x : st) : res st :=
    match c with
    | CbStore w gn qfs ids fut =>
        match fut_result fut x with Ok r => store_result w gn qfs ids r x | Err e => Err e end
    | CbStoreSub w gn qfs ids w' procs =>
        match result_proc w' procs x with Ok r => store_result w gn qfs ids r x | Err e => Err e end
    | CbSched w gn l q ids =>
        match schedule_link w gn l q ids x with Ok (_, x') => Ok x' | Err e => Err e end
    | CbLink w gn l q ids fut =>
        match fut_result fut x with
        | Ok r => process_link (process_node pn_fuel) w gn l q ids r x
        | Err e => Err e
        end
    | CbProc w gn steps ids => proc_steps (process_node pn_fuel) w gn steps ids x
    end.

  (** engine.py:423-430 [Engine.execute] up to the call of [executor.process] *)
  Definition start (g : graph) (q : qnode) : res st :=
    match init_options g q with
    | Err e => Err e
    | Ok q' =>
        match q_fork None (q_empty) with
        | Err e => Err e
        | Ok (ts, qu) =>
            process_node pn_fuel 0 (g_root g) q' None (World [Wf g q' ts []] [], qu)
        end
    end.

  (** engine.py:431 with an executor that reports the futures in [sched]; the outcome is the
      result object: index and query of the [Proxy] (engine.py:296-298). *)
  Inductive execute (fuel : nat) (g : graph) (q : qnode) : list (list nat) -> res (index * qnode) -> Prop :=
  | exec_raise e : start g q = Err e -> execute fuel g q [] (Err e)
  | exec_err x sched e : start g q = Ok x -> executes run_cb fuel sched x (Err e) ->
      execute fuel g q sched (Err e)
  | exec_ok x sched y v : start g q = Ok x -> executes run_cb fuel sched x (Ok y) ->
      w_wfs y.1 !! 0 = Some v -> execute fuel g q sched (Ok (wf_index v, wf_query v)).

  (** The loader calls made when execution of [sched] has succeeded. *)
  Definition exec_log (fuel : nat) (g : graph) (q : qnode) (sched : list (list nat)) (log : list call) : Prop :=
    exists x y, start g q = Ok x /\ executes run_cb fuel sched x (Ok y) /\ w_log y.1 = log.
End engine.

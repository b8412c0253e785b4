(** hiku/telemetry/prometheus.py: graphs whose loaders are measured.  Times are not modelled, only
    which fields of which nodes are observed. *)
From Verif Require Import Base Val Types Query Graph Queue Result Engine Validate Transform.

(** A wrapper of a loader: [WField] (prometheus.py:80-89), [WLink] (91-100), [WSub] (102-107);
    made for a node, by [GraphMetrics] (184-200, 167-179). *)
Inductive wkind := WField | WLink (link : str) | WSub.
Record wrapper := Wrapper { wr_kind : wkind; wr_node : str; wr_func : fkey }.
(** The wrappers made so far.  [GraphMetrics._wrappers] (52): those of fields, by function. *)
Record wstate := WState { ws_table : list wrapper; ws_cache : dict fkey nat }.

Section metrics.
  (** Numbers of functions and of sub-graphs from these on are those of wrappers. *)
  Context (base : N) (sbase : nat).
  Definition root_name : str := s "Root".
  Definition node_label (node : option str) : str := match node with Some n => n | None => root_name end.
  Definition wfunc (k : nat) : N := (base + N.of_nat k)%N.
  Definition wsub (k : nat) : nat := (sbase + k)%nat.
  Definition new_wrapper (w : wrapper) (st : wstate) : nat * wstate :=
    (length (ws_table st), WState (ws_table st ++ [w]) (ws_cache st)).
  (** prometheus.py:116-145 [visit_field] *)
  Definition wrap_field (node : option str) (f : gfield) (st : wstate) : gfield * wstate :=
    let f' := visit_field f in
    let key := fkey_of (GF f') in
    let '(k, st') :=
      match dget key (ws_cache st) with
      | Some k => (k, st)
      | None =>
          let '(k, st1) := new_wrapper (Wrapper (match key with KSub _ => WSub | KPlain _ => WField end) (node_label node) key) st in
          (k, WState (ws_table st1) (dset key k (ws_cache st1)))
      end in
    (GField (gf_name f') (gf_type f')
       (match gf_func f' with FPlain _ => FPlain (wfunc k) | FChecked _ rq pr => FChecked (wsub k) rq pr end) (gf_opts f'), st').
  (** prometheus.py:147-151 [visit_link] *)
  Definition wrap_link (node : option str) (l : glink) (st : wstate) : res (glink * wstate) :=
    match visit_link l with
    | Err e => Err e
    | Ok l' =>
        let '(k, st') := new_wrapper (Wrapper (WLink (gl_name l')) (node_label node) (KPlain (gl_func l'))) st in
        Ok (GLink (gl_name l') (gl_enum l') (gl_node l') (wfunc k) (gl_requires l') (gl_opts l'), st')
    end.
  Definition wrap_item (node : option str) (x : gitem) (st : wstate) : res (gitem * wstate) :=
    match x with
    | GF f => let '(f', st') := wrap_field node f st in Ok (GF f', st')
    | GL l => match wrap_link node l st with Ok (l', st') => Ok (GL l', st') | Err e => Err e end
    end.
  (** prometheus.py:109-114 [visit_node]; a Root is visited with no node set *)
  Definition wrap_items (node : option str) (fs : list gitem) (st : wstate) : res (list gitem * wstate) :=
    foldR (fun acc x => match wrap_item node x acc.2 with
                        | Ok (x', st') => Ok (acc.1 ++ [x'], st') | Err e => Err e end) ([], st) fs.
  Definition wrap_nodes (ns : list gnode) (st : wstate) : res (list gnode * wstate) :=
    foldR (fun acc n => match wrap_items (gn_name n) (gn_fields n) acc.2 with
                        | Ok (fs, st') => Ok (acc.1 ++ [GNode (gn_name n) fs], st') | Err e => Err e end) ([], st) ns.
  Definition instrument (g : graph) : res (graph * list wrapper) :=
    match wrap_nodes (g_items g) (WState [] []) with
    | Ok (ns, st) => match new_graph ns (g_dtypes g) with Ok g' => Ok (g', ws_table st) | Err e => Err e end
    | Err e => Err e
    end.

  (** ** What wrappers do *)
  Context (table : list wrapper).
  Definition wrapper_of (f : N) : option wrapper := if (f <? base)%N then None else table !! N.to_nat (f - base).
  (** the function which is called: the one wrapped *)
  Definition unwrap (f : N) : N :=
    match wrapper_of f with Some w => match wr_func w with KPlain h => h | KSub _ => f end | None => f end.
  (** prometheus.py:26-31, 169-171: the wrapper is given the arguments of the loader (and the context if
      the loader asks for it, 83-88, 94-99) and passes them on. *)
  Definition unwrap_call (c : call) : call := Call (unwrap (c_func c)) (c_ctx c) (c_args c).
  (** prometheus.py:156-168 [subquery_wrapper]: the wrapper of a sub-graph, number [sbase + k], runs the
      sub-graph it wraps; what it observes is [observed_sub]. *)
  Definition wrapped_sub (E : env) (w : wrapper) : graph * str :=
    match wr_func w with KSub a => match e_sgs E !! a with Some p => p | None => (Graph [] [], []) end | KPlain _ => (Graph [] [], []) end.
  (** the wrapped environment; [sbase] is the number of sub-graphs *)
  Definition metrics_env (E : env) : env :=
    Env (e_sgs E ++ map (wrapped_sub E) table) (fun n c => e_oracle E n (unwrap_call c)) (fun f => e_ctx E (unwrap f)) (e_proc E) (e_eager E).
  (** prometheus.py:61-73 [observe]: nothing is observed if the loader raises *)
  Definition observed (E : env) (n : nat) (c : call) : list (str * str) :=
    match e_oracle (metrics_env E) n c, wrapper_of (c_func c) with
    | Raise _, _ | _, None => []
    | _, Some w => match wr_kind w with
                   | WLink l => [(wr_node w, l)]
                   | _ => match c_args c with AFields qfs _ => map (fun q => (wr_node w, q_name q)) qfs | ALink _ _ => [] end
                   end
    end.
  (** prometheus.py:34-37, 102-107, 156-168: the observation which the wrapper of a sub-graph makes when its result is
      taken (engine.py:370-373, by the callback [c], in the state [x]): for the fields given to the sub-graph, unless
      computing their values raises.  The sub-graph is that of the first of the fields, as they are loaded together. *)
  Definition sub_of (gn : gnode) (qfs : list qitem) : option nat :=
    match qfs with
    | [] => None
    | q :: _ => match find_field gn (q_name q) with
                | Some (GF f) => match gf_func f with FChecked sg _ _ => Some sg | FPlain _ => None end
                | _ => None
                end
    end.
  Definition sub_wrapper_of (sg : nat) : option wrapper := if (sg <? sbase)%nat then None else table !! (sg - sbase)%nat.
  Definition observed_sub `{Hasher} (E : env) (c : cb) (x : st) : list (str * str) :=
    match c with
    | CbStoreSub _ gn qfs _ w' procs =>
        match result_proc (metrics_env E) w' procs x, sub_of gn qfs with
        | Ok _, Some sg => match sub_wrapper_of sg with Some w => map (fun q => (wr_node w, q_name q)) qfs | None => [] end
        | _, _ => []
        end
    | _ => []
    end.
End metrics.

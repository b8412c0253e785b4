(** What a query means when some fields are expressions over sub-graphs: specification for C40 and for C04-C07 with
    sub-graphs.  Independent of scheduling, of the index and of how requirements are merged. *)
From Verif Require Import Base Val Query QuerySpec Graph Result Engine EngineSpec.

(** ** What an expression can read *)
Section trees.
  Context (G : graph) (fv : gfield -> option val -> str -> opts -> val) (D : data).
  (** The member [q] of the object [i] of the node [gn], as an expression sees it: the value of a field, the linked
      object with the members selected by [q], the list of the linked objects. *)
  Fixpoint tree_item (gn : gnode) (i : option val) (q : qitem) {struct q} : str * ptree :=
    (result_key q,
     match find_field gn (q_name q) with
     | None => PX KeyError
     | Some (GF f) => PV (IVal (fv f i (q_name q) (q_opts q)))
     | Some (GL l) =>
         match q with
         | QF _ _ _ => PX TypeError
         | QL _ sub _ _ _ =>
             match find_node G (gl_node l) with
             | None => PX KeyError
             | Some gn' =>
                 let obj j := PO (of_pairs (map (tree_item gn' (Some j)) sub)) in
                 let v := link_value fv D gn i l q in
                 match gl_enum l with
                 | Maybe => match v with VNothing => PV (IVal VNone) | _ => obj v end
                 | One => obj v
                 | Many => match seq_items v with [] => PV (IRefs []) | js => PLs (map obj js) end
                 end
             end
         end
     end).
  Definition tree (gn : gnode) (i : option val) (qs : list qitem) : ptree := PO (of_pairs (map (tree_item gn i) qs)).
End trees.

(** [covers t t']: whatever can be read from [t] reads the same from [t'] *)
Inductive covers : ptree -> ptree -> Prop :=
| cv_val v : covers (PV v) (PV v)
| cv_obj d d' : (forall k t, dget k d = Some t -> exists t', dget k d' = Some t' /\ covers t t') -> covers (PO d) (PO d')
| cv_list l l' : Forall2 covers l l' -> covers (PLs l) (PLs l').

(** The requirements of an expression: what it reads of [this] object, and of the root of the sub-graph *)
Definition is_this (q : qitem) : bool := bool_decide (q_name q = THIS).
Definition of_this (rq : qnode) : list qitem := flat_map (fun q => if is_this q then qfields (q_node q) else []) (qfields rq).
Definition of_root (rq : qnode) : list qitem := List.filter (fun q => negb (is_this q)) (qfields rq).

(** The members asked of a node: those of the query, and the fields required by links *)
Definition asked_by (gn : gnode) (n : qnode) (q : qitem) : Prop :=
  q ∈ qfields n \/
  exists q' l r, q' ∈ qfields n /\ q_is_link q' = true /\ find_field gn (q_name q') = Some (GL l) /\
    gl_requires l = Some r /\ q = QF r None None.
(** The objects to which the result [v] of the link [l] leads *)
Definition targets (l : glink) (v : val) : list val :=
  match gl_enum l with
  | Maybe => match v with VNothing => [] | _ => [v] end
  | One => [v]
  | Many => seq_items v
  end.

Section spec.
  Context (E : env) (D : data).

  (** The result of the expression [pr] with the requirements [rq] over the sub-graph [G], for the object [j] of its
      node [gn'] and the values [os] of the options *)
  Definition expr_result (fv : gfield -> option val -> str -> opts -> val) (G : graph) (gn' : gnode) (rq : qnode) (pr : N)
    (j : val) (os : list val) : res val :=
    e_proc E pr (tree G fv D gn' (Some j) (of_this rq)) (tree G fv D (g_root G) None (of_root rq)) os.

  (** The values of the declared options of a field, in the order of their declaration *)
  Definition given (f : gfield) (o : opts) : list val :=
    map (fun op => default VNone (dget (go_name op) (opt_dict o))) (gf_opts f).

  (** The value of a field: that of its loader, or that of its expression.  [k]: how deep sub-graphs may be nested. *)
  Definition field_with (fv : gfield -> option val -> str -> opts -> val) (f : gfield) (i : option val) (n : str) (o : opts) : val :=
    match gf_func f with
    | FPlain m => d_field D m i n o
    | FChecked sg rq pr =>
        match e_sgs E !! sg, i with
        | Some (G, node), Some j =>
            match find_node G node with
            | Some gn' => match expr_result fv G gn' rq pr j (given f o) with Ok v => v | Err _ => VNone end
            | None => VNone
            end
        | _, _ => VNone
        end
    end.
  Fixpoint field_val (k : nat) : gfield -> option val -> str -> opts -> val :=
    match k with O => plain_value D | S k => field_with (field_val k) end.

  (** ** The queries which are answered on the way *)
  (** The query itself ([j_this = None]), or what a sub-graph is asked for: [j_root] of its root, and of the node
      which stands for [this] the query in [j_this] *)
  Record job := Job { j_graph : graph; j_query : qnode; j_root : qnode; j_this : option (gnode * qnode); j_level : nat }.

  Section job.
    Context (J : job).
    Notation G := (j_graph J).
    Inductive jvisited : gnode -> qnode -> Prop :=
    | jv_root : jvisited (g_root G) (j_root J)
    | jv_this gn n : j_this J = Some (gn, n) -> jvisited gn n
    | jv_link gn n q l gn' :
        jvisited gn n -> q ∈ qfields n -> q_is_link q = true ->
        find_field gn (q_name q) = Some (GL l) -> find_node G (gl_node l) = Some gn' ->
        jvisited gn' (q_node q).
    Definition jasked (gn : gnode) (q : qitem) : Prop := exists n, jvisited gn n /\ asked_by gn n q.

    (** Fields over the sub-graph [sg] which are computed together: all of them, or if the node is ordered some of them *)
    Definition over (gn : gnode) (sg : nat) (q : qitem) : Prop :=
      exists f rq pr, find_field gn (q_name q) = Some (GF f) /\ gf_func f = FChecked sg rq pr.
    Definition grouped (gn : gnode) (n : qnode) (sg : nat) (qs : list qitem) : Prop :=
      qs <> [] /\ sublist qs (in_turn gn (qfields n)) /\ (forall q, q ∈ qs -> over gn sg q) /\
      (qordered n = false -> forall q, q ∈ in_turn gn (qfields n) -> over gn sg q -> q ∈ qs).
    Definition reqs_for (gn : gnode) (q : qitem) : qnode :=
      match find_field gn (q_name q) with Some go => reqs_of go | None => QN [] false end.

    Context `{Hasher}.
    (** What the sub-graph is asked for: nothing, if none of the expressions uses [this] (then execution fails) *)
    Definition sub_job (gn : gnode) (sg : nat) (qs : list qitem) : option job :=
      match e_sgs E !! sg with
      | None => None
      | Some (G', node) =>
          let rq := merge (map (reqs_for gn) qs) in
          match dget THIS (q_fields_map rq), find_node G' node with
          | Some this, Some gn' =>
              if q_is_link this then Some (Job G' rq (QN (of_root rq) false) (Some (gn', q_node this)) (pred (j_level J))) else None
          | _, _ => None
          end
      end.

    (** Requirements of expressions: no options, no aliases, nothing ordered (expr/refs.py:50-89); [this] is a link *)
    Fixpoint bare (q : qitem) : Prop :=
      match q with
      | QF _ o a => o = None /\ a = None
      | QL _ sub ord o a => o = None /\ a = None /\ ord = false /\ foldr (fun q' P => bare q' /\ P) True sub
      end.
    Definition reqs_ok (rq : qnode) : Prop :=
      qordered rq = false /\ forall q, q ∈ qfields rq -> bare q /\ (q_name q = THIS -> q_is_link q = true).

    (** An expression can be asked of nodes other than the root, with all its declared options *)
    Definition field_ok (gn : gnode) (f : gfield) (q : qitem) : Prop :=
      match gf_func f with
      | FPlain _ => True
      | FChecked sg rq pr =>
          is_Some (gn_name gn) /\ 0 < j_level J /\ reqs_ok rq /\
          forall op, op ∈ gf_opts f -> is_Some (dget (go_name op) (opt_dict (q_opts q)))
      end.

    (** As [supported], with expressions over sub-graphs.  Of the expressions computed together some use [this]; no
        member of the root of a sub-graph is named [this]. *)
    Record jsupported : Prop := {
      js_items : forall gn n q, jvisited gn n -> q ∈ qfields n ->
        match find_field gn (q_name q) with
        | Some (GF f) => field_ok gn f q /\ (q_is_link q = true -> qordered n = false)
        | Some (GL l) =>
            q_is_link q = true /\ is_Some (find_node G (gl_node l)) /\
            match gl_requires l with
            | Some r => r <> [] /\ exists f, find_field gn r = Some (GF f) /\ field_ok gn f (QF r None None)
            | None => True
            end
        | None => False
        end;
      js_keys : forall gn n, jvisited gn n -> NoDup (map result_key (qfields n));
      js_query : NoDup (map result_key (qfields (j_query J)));
      js_bracket : forall gn q, jasked gn q -> 91%N ∉ q_name q;
      js_coll : forall gn, no_collision (jasked gn);
      js_root : find_node G (s "__root__") = None;
      js_this : is_Some (j_this J) -> forall q, jasked (g_root G) q -> q_name q <> THIS;
      js_groups : forall gn n sg qs, jvisited gn n -> grouped gn n sg qs -> is_Some (sub_job gn sg qs);
    }.
    (** Links lead where their types say, expressions give values *)
    Record jdata : Prop := {
      jd_links : forall gn n i q l, jvisited gn n -> q ∈ qfields n -> find_field gn (q_name q) = Some (GL l) ->
        match gl_enum l with
        | Maybe => True
        | One => link_value (field_val (j_level J)) D gn i l q <> VNothing
        | Many => is_Some (seq_of (link_value (field_val (j_level J)) D gn i l q))
        end;
      jd_exprs : forall gn q f sg rq pr G' node gn' j, jasked gn q -> find_field gn (q_name q) = Some (GF f) ->
        gf_func f = FChecked sg rq pr -> e_sgs E !! sg = Some (G', node) -> find_node G' node = Some gn' ->
        exists v, expr_result (field_val (pred (j_level J))) G' gn' rq pr j (given f (q_opts q)) = Ok v;
    }.
  End job.

  Context `{Hasher}.
  Inductive reached (J0 : job) : job -> Prop :=
  | re_top : reached J0 J0
  | re_sub J gn n sg qs J' : reached J0 J -> jvisited J gn n -> grouped gn n sg qs -> sub_job J gn sg qs = Some J' -> reached J0 J'.
  (** The job of a query *)
  Definition top_job (g : graph) (q : qnode) : job := Job g q q None (length (e_sgs E)).
  Definition all_supported (g : graph) (q : qnode) : Prop := forall J, reached (top_job g q) J -> jsupported J.
  Definition all_data (g : graph) (q : qnode) : Prop := forall J, reached (top_job g q) J -> jdata J.
  (** The values of the fields of the query *)
  Definition sub_value : gfield -> option val -> str -> opts -> val := field_val (length (e_sgs E)).

  (** The compiled expressions read values by name only, and take options for what they mean *)
  Definition reads_by_name : Prop :=
    (forall pr t t' r r' os v, covers t t' -> covers r r' -> e_proc E pr t r os = Ok v -> e_proc E pr t' r' os = Ok v) /\
    (forall pr t r os os', Forall2 same_val os os' -> e_proc E pr t r os = e_proc E pr t r os').

  (** ** The objects which are met *)
  (** [met J0 J gn i n]: answering [J0] takes, in the job [J], the members [n] of the object [i] of the node [gn]:
      the root of the query; what links of objects met lead to; what expressions of objects met need of the same objects
      and of the root of their sub-graph. *)
  Inductive met (J0 : job) : job -> gnode -> option val -> qnode -> Prop :=
  | mt_root : met J0 J0 (g_root (j_graph J0)) None (j_root J0)
  | mt_link J gn i n q l gn' j :
      met J0 J gn i n -> q ∈ qfields n -> q_is_link q = true ->
      find_field gn (q_name q) = Some (GL l) -> find_node (j_graph J) (gl_node l) = Some gn' ->
      j ∈ targets l (link_value (field_val (j_level J)) D gn i l q) -> met J0 J gn' (Some j) (q_node q)
  | mt_this J gn i n sg qs J' gn' n' :
      met J0 J gn (Some i) n -> grouped gn n sg qs -> sub_job J gn sg qs = Some J' -> j_this J' = Some (gn', n') ->
      met J0 J' gn' (Some i) n'
  | mt_sub J gn i n sg qs J' :
      met J0 J gn (Some i) n -> grouped gn n sg qs -> sub_job J gn sg qs = Some J' ->
      met J0 J' (g_root (j_graph J')) None (j_root J').

  (** Fields with the loader [f] which are loaded together: some of them in the order in which they are asked for; all of
      them, unless the node is ordered *)
  Definition loaded_together (gn : gnode) (n : qnode) (f : N) (qs : list qitem) : Prop :=
    qs <> [] /\ sublist qs (in_turn gn (qfields n)) /\ (forall q, q ∈ qs -> loader_of gn q = Some f) /\
    (qordered n = false -> forall q, q ∈ in_turn gn (qfields n) -> loader_of gn q = Some f -> q ∈ qs).
  (** The calls for objects which are met: members of these objects with the loader of the call, or the required values
      of these objects for a link *)
  Definition ids_met (J0 J : job) (gn : gnode) (n : qnode) (ids : option (list val)) : Prop :=
    match ids with None => met J0 J gn None n | Some l => l <> [] /\ forall i, i ∈ l -> met J0 J gn (Some i) n end.
  Definition call_met (J0 : job) (c : call) : Prop :=
    exists J gn n ids, ids_met J0 J gn n ids /\ c_ctx c = e_ctx E (c_func c) /\
      match c_args c with
      | AFields qfs ids' => ids' = ids /\ loaded_together gn n (c_func c) qfs /\ forall q, q ∈ qfs -> asked_by gn n q
      | ALink rq o => exists l q, q ∈ qfields n /\ q_is_link q = true /\ find_field gn (q_name q) = Some (GL l) /\
          c_func c = gl_func l /\ o = link_opts l q /\
          rq = match gl_requires l, ids with
               | None, _ => None
               | Some r, None => Some (ROne (IVal (field_value (field_val (j_level J)) gn None r None)))
               | Some r, Some is_ => Some (RList (map (fun i => IVal (field_value (field_val (j_level J)) gn (Some i) r None)) is_))
               end
      end.
  (** The loaders answer these calls; links of the objects met lead where their types say, expressions of them give
      values *)
  Definition serves_met (J0 : job) : Prop :=
    forall k c, call_met J0 c -> exists r, ret_val (e_oracle E k c) = Some r /\ answers D c r.
  Record mdata (J0 J : job) : Prop := {
    md_links : forall gn n i q l, met J0 J gn i n -> q ∈ qfields n -> find_field gn (q_name q) = Some (GL l) ->
      match gl_enum l with
      | Maybe => True
      | One => link_value (field_val (j_level J)) D gn i l q <> VNothing
      | Many => is_Some (seq_of (link_value (field_val (j_level J)) D gn i l q))
      end;
    md_exprs : forall gn n q f sg rq pr G' node gn' j, met J0 J gn (Some j) n -> asked_by gn n q ->
      find_field gn (q_name q) = Some (GF f) ->
      gf_func f = FChecked sg rq pr -> e_sgs E !! sg = Some (G', node) -> find_node G' node = Some gn' ->
      exists v, expr_result (field_val (pred (j_level J))) G' gn' rq pr j (given f (q_opts q)) = Ok v;
  }.
  Definition met_data (g : graph) (q : qnode) : Prop := forall J, mdata (top_job g q) J.
End spec.

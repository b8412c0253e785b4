(** Graphs whose expressions are sound: a condition on the graph alone, under which every query that asks for existing
    members can be answered (specification for C04, C21, C40 with sub-graphs). *)
From Verif Require Import Base Val Query QuerySpec Graph Result Engine EngineSpec CostSpec SubSpec.

Section wf.
  Context (E : env) (parts : gfield -> bool).
  Definition is_expr (f : gfield) : Prop := exists sg rq pr, gf_func f = FChecked sg rq pr.
  (** What an expression requires of the node [gn] of [G] is there: links are required as links, fields as fields - the
      same everywhere: the whole value, or [parts] of it -, expressions without options. *)
  Fixpoint fits_req (G : graph) (gn : gnode) (q : qitem) {struct q} : Prop :=
    match find_field gn (q_name q) with
    | Some (GF f) => q_is_link q = parts f /\ (is_expr f -> gf_opts f = [])
    | Some (GL l) =>
        match q with
        | QF _ _ _ => False
        | QL _ sub _ _ _ =>
            forall gn', find_node G (gl_node l) = Some gn' -> foldr (fun q' P => fits_req G gn' q' /\ P) True sub
        end
    | None => False
    end.

  Record wf_graph (G : graph) : Prop := {
    wg_names : forall gn name it, node_of G gn -> find_field gn name = Some it -> 91%N ∉ name;
    wg_root : find_node G (s "__root__") = None;
    (** Links lead to nodes of the graph, and require fields *)
    wg_links : forall gn name l, node_of G gn -> find_field gn name = Some (GL l) ->
      is_Some (find_node G (gl_node l)) /\
      forall r, gl_requires l = Some r -> r <> [] /\ exists f, find_field gn r = Some (GF f) /\ (is_expr f -> gf_opts f = []);
    (** Expressions belong to nodes, use [this], and require what is there *)
    wg_exprs : forall gn name f sg rq pr, node_of G gn -> find_field gn name = Some (GF f) -> gf_func f = FChecked sg rq pr ->
      is_Some (gn_name gn) /\ reqs_ok rq /\ (exists q, q ∈ qfields rq /\ q_name q = THIS) /\
      exists G' node gn', e_sgs E !! sg = Some (G', node) /\ find_node G' node = Some gn' /\
        (forall q, q ∈ of_this rq -> fits_req G' gn' q) /\ (forall q, q ∈ of_root rq -> fits_req G' (g_root G') q);
  }.
  (** The sub-graphs: built one after the other, sound, with no member of the root named [this] *)
  Record wf_env : Prop := {
    we_nested : nested (e_sgs E);
    we_graphs : forall sg G node, e_sgs E !! sg = Some (G, node) -> wf_graph G /\ find_field (g_root G) THIS = None;
  }.
  (** The query asks for existing members, with the options of expressions; parts of fields in nodes which are not
      ordered; different result keys; no collision of keys *)
  Record asks_ok `{Hasher} (g : graph) (q : qnode) : Prop := {
    ao_items : forall gn n it, visited g q gn n -> it ∈ qfields n ->
      match find_field gn (q_name it) with
      | Some (GF f) => (is_expr f -> forall op, op ∈ gf_opts f -> is_Some (dget (go_name op) (opt_dict (q_opts it)))) /\
                       (q_is_link it = true -> qordered n = false)
      | Some (GL _) => q_is_link it = true
      | None => False
      end;
    ao_keys : forall gn n, visited g q gn n -> NoDup (map result_key (qfields n));
    ao_coll : forall gn, no_collision (asked g q gn);
  }.
End wf.

Section data.
  Context (E : env) (D : data).
  (** Whatever they are asked for, links lead where their types say and expressions give values *)
  Record data_ok (G : graph) : Prop := {
    dk_links : forall gn name l a o, node_of G gn -> find_field gn name = Some (GL l) ->
      match gl_enum l with
      | Maybe => True
      | One => d_link D (gl_func l) a o <> VNothing
      | Many => is_Some (seq_of (d_link D (gl_func l) a o))
      end;
    dk_exprs : forall gn name f sg rq pr G' node gn' k j o, node_of G gn -> find_field gn name = Some (GF f) ->
      gf_func f = FChecked sg rq pr -> e_sgs E !! sg = Some (G', node) -> find_node G' node = Some gn' ->
      (forall op, op ∈ gf_opts f -> is_Some (dget (go_name op) (opt_dict o))) ->
      exists v, expr_result E D (field_val E D k) G' gn' rq pr j (given f o) = Ok v;
  }.
  Definition env_data_ok : Prop := forall sg G node, e_sgs E !! sg = Some (G, node) -> data_ok G.
End data.

(** What validation of queries does not check *)
Record unchecked_query (g : graph) (q : qnode) : Prop := {
  uq_parts : forall gn n q0 f, visited g q gn n -> q0 ∈ qfields n -> find_field gn (q_name q0) = Some (GF f) ->
    q_is_link q0 = true -> qordered n = false;
  uq_keys : forall gn n, visited g q gn n -> NoDup (map result_key (qfields n));
}.

(** Data which loaders know: what is asked of real loaders (specification for C04, C21, C46).  A loader need not answer
    for identifiers which do not exist; the identifiers which exist are those of the links. *)
From Verif Require Import Base Val Query Graph Result Engine EngineSpec CostSpec SubSpec SubWfSpec.

Section known.
  Context (E : env) (D : data).
  (** [known gn j]: [j] is an object of the node [gn] *)
  Context (known : gnode -> val -> Prop).
  (** The root of the graph, or an object which is known *)
  Definition known_obj (G : graph) (gn : gnode) (i : option val) : Prop :=
    match i with None => gn = g_root G | Some j => known gn j end.

  (** Links of objects which are known lead, as their types say, to objects which are known; what is an object of a node
      with expressions is an object of the node [this] of the sub-graph, and the expressions give it values *)
  Record knows (G : graph) : Prop := {
    kn_links : forall gn i q l gn', node_of G gn -> known_obj G gn i ->
      find_field gn (q_name q) = Some (GL l) -> find_node G (gl_node l) = Some gn' ->
      match gl_enum l with
      | Maybe => True
      | One => link_value (sub_value E D) D gn i l q <> VNothing
      | Many => is_Some (seq_of (link_value (sub_value E D) D gn i l q))
      end /\
      forall j, j ∈ targets l (link_value (sub_value E D) D gn i l q) -> known gn' j;
    kn_exprs : forall gn name f sg rq pr G' node gn' j, node_of G gn -> known gn j -> find_field gn name = Some (GF f) ->
      gf_func f = FChecked sg rq pr -> e_sgs E !! sg = Some (G', node) -> find_node G' node = Some gn' ->
      known gn' j /\
      forall o, (forall op, op ∈ gf_opts f -> is_Some (dget (go_name op) (opt_dict o))) ->
        exists v, expr_result E D (sub_value E D) G' gn' rq pr j (given f o) = Ok v;
  }.

  (** Calls of loaders of [G] for objects which are known: with fields of theirs, or with the values of the fields which
      links require *)
  Definition call_for (G : graph) (c : call) : Prop :=
    exists gn ids, node_of G gn /\
      match ids with None => gn = g_root G | Some l => l <> [] /\ forall i, i ∈ l -> known gn i end /\
      match c_args c with
      | AFields qfs ids' => ids' = ids /\ qfs <> [] /\ forall q, q ∈ qfs -> loader_of gn q = Some (c_func c)
      | ALink rq o => exists l q, find_field gn (q_name q) = Some (GL l) /\ c_func c = gl_func l /\ o = link_opts l q /\
          rq = match gl_requires l, ids with
               | None, _ => None
               | Some r, None => Some (ROne (IVal (field_value (sub_value E D) gn None r None)))
               | Some r, Some is_ => Some (RList (map (fun i => IVal (field_value (sub_value E D) gn (Some i) r None)) is_))
               end
      end.
  (** The loaders answer these calls, and all the graphs know their data *)
  Record serves_known (g : graph) : Prop := {
    sk_top : knows g;
    sk_subs : forall sg G node, e_sgs E !! sg = Some (G, node) -> knows G;
    sk_answers : forall n c, call_for g c \/ (exists sg G node, e_sgs E !! sg = Some (G, node) /\ call_for G c) ->
      exists r, ret_val (e_oracle E n c) = Some r /\ answers D c r;
  }.
End known.

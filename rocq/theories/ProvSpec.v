(** Where the values of a result come from (specification for C60): the loader call, and the place in its answer. *)
From Verif Require Import Base Val Query Graph Result Engine EngineSpec CallSpec.

(** What a call returned *)
Definition returned (o : outcome) : option val :=
  match o with Ret v => Some v | RetGen l => Some (VList l) | Raise _ => None end.
(** The objects for which a node is asked *)
Definition object_of (gn : gnode) (ids : option (list val)) (ref : str * val) : Prop :=
  match gn_name gn, ids with
  | None, _ => ref = ROOT
  | Some n, Some is_ => exists i, i ∈ is_ /\ ref = (n, i)
  | Some _, None => False
  end.
(** [v] is what the answer [r] of a loader of fields says of the object [ref] and the field number [a] of the call:
    the answer is a list of values for the root, and a list of rows, one for each object, for a node. *)
Inductive cell (node : option str) (ids : option (list val)) (r : val) (a : nat) : str * val -> val -> Prop :=
| cell_root l v : node = None -> seq_of r = Some l -> l !! a = Some v -> cell node ids r a ROOT v
| cell_node n is_ rows p i row items v :
    node = Some n -> ids = Some is_ -> seq_of r = Some rows -> is_ !! p = Some i -> rows !! p = Some row ->
    seq_of row = Some items -> items !! a = Some v -> cell node ids r a (n, i) v.
(** The slot value which stands for what a loader of a link returned for one object *)
Definition refers (l : glink) (v : val) (iv : ival) : Prop :=
  match gl_enum l with
  | Maybe => (v = VNothing /\ iv = IVal VNone) \/ (v <> VNothing /\ iv = IRef (gl_node l) v)
  | One => v <> VNothing /\ iv = IRef (gl_node l) v
  | Many => exists is_, iter_of v = Some is_ /\ iv = IRefs (map (fun i => (gl_node l, i)) is_)
  end.
Definition points (iv : ival) (ref : str * val) : Prop :=
  match iv with IVal _ => False | IRef n i => ref = (n, i) | IRefs l => ref ∈ l end.

(** The runs of an execution: that of the query in the graph, and those of the sub-graphs, each made to compute [fields]
    - members with the requirements of expressions over the sub-graph number [sg] - of the objects [ids]. *)
Inductive run := RMain | RSub (sg : nat) (fields : list (gitem * qitem)) (ids : list val).

Section spec.
  Context `{Hasher} (E : env) (g : graph) (q0 : qnode) (log : list call).

  Definition run_graph (R : run) : option graph :=
    match R with RMain => Some g | RSub sg _ _ => option_map fst (e_sgs E !! sg) end.
  (** What the expressions of [fields] require of their sub-graph *)
  Definition required (fields : list (gitem * qitem)) : qnode := merge (map (fun p => reqs_of p.1) fields).

  (** [asked R gn n ref]: in the run [R] the members [n] of the object [ref], of the node [gn], are asked for: the object
      is the root, or one to which a link asked for leads according to what its loader returned, or one for which the
      sub-graph is run.
      [came_from R ref key v]: [v] is what a loader (an expression) said of the member with the key [key] of [ref]. *)
  Inductive asked : run -> gnode -> qnode -> str * val -> Prop :=
  | as_root q' : init_options g q0 = Ok q' -> asked RMain (g_root g) q' ROOT
  | as_this sg fields is_ G node this gn i :
      e_sgs E !! sg = Some (G, node) -> dget THIS (q_fields_map (required fields)) = Some this ->
      find_node G node = Some gn -> i ∈ is_ -> asked (RSub sg fields is_) gn (q_node this) (node, i)
  | as_rest sg fields is_ G node :
      e_sgs E !! sg = Some (G, node) ->
      asked (RSub sg fields is_) (g_root G) (QN (List.filter (fun r => negb (bool_decide (q_name r = THIS))) (qfields (required fields))) false) ROOT
  | as_link R G gn n ref l q iv gn' ref' :
      asked R gn n ref -> (l, q) ∈ asked_links gn (qfields n) -> came_from R ref (index_key q) iv -> points iv ref' ->
      run_graph R = Some G -> find_node G (gl_node l) = Some gn' -> asked R gn' (q_node q) ref'
  with came_from : run -> str * val -> str -> ival -> Prop :=
  | cf_this sg fields is_ G node this :
      e_sgs E !! sg = Some (G, node) -> dget THIS (q_fields_map (required fields)) = Some this ->
      came_from (RSub sg fields is_) ROOT (index_key this) (IRefs (map (fun i => (node, i)) is_))
  | cf_field R gn n f fields ids fut a go q r ref v :
      asked R gn n ref -> together gn n (KPlain f) fields -> fields !! a = Some (go, q) ->
      log !! fut = Some (Call f (e_ctx E f) (AFields (map snd fields) ids)) ->
      returned (e_oracle E fut (Call f (e_ctx E f) (AFields (map snd fields) ids))) = Some r ->
      cell (gn_name gn) ids r a ref v ->
      came_from R ref (index_key q) (IVal v)
  (** the value of an expression for the object number [p] of those for which the sub-graph was run: it is computed of
      the object number [p] of `this`, and of the root, as they are read in a result of the sub-graph, all of whose
      values come from loaders in turn *)
  | cf_expression R gn n nm sg fields is_ a go q os p i idx refs pn o v :
      (forall j, j ∈ is_ -> asked R gn n (nm, j)) -> gn_name gn = Some nm ->
      together gn n (KSub sg) fields -> fields !! a = Some (go, q) -> option_values go q = Ok os ->
      (forall ref' k' iv', dget (ref'.1, ref'.2, k') idx = Some iv' -> came_from (RSub sg fields is_) ref' k' iv') ->
      is_ !! p = Some i -> proxy_get idx ROOT (required fields) THIS = Ok (PList refs pn) -> refs !! p = Some o ->
      e_proc E (proc_of go) (view idx o pn) (view idx ROOT (required fields)) os = Ok v ->
      came_from R (nm, i) (index_key q) (IVal v)
  | cf_link R gn n l q rq fut r ref v iv :
      asked R gn n ref -> (l, q) ∈ asked_links gn (qfields n) ->
      log !! fut = Some (Call (gl_func l) (e_ctx E (gl_func l)) (ALink rq (link_opts l q))) ->
      returned (e_oracle E fut (Call (gl_func l) (e_ctx E (gl_func l)) (ALink rq (link_opts l q)))) = Some r ->
      link_answer R gn l rq r ref v -> refers l v iv ->
      came_from R ref (index_key q) iv
  (** [v] is what the answer [r] of the loader of the link [l], which was given [rq], says of the object [ref]: of a node
      the answers are in the order of the values which the link requires of the objects. *)
  with link_answer : run -> gnode -> glink -> option reqs -> val -> str * val -> val -> Prop :=
  | la_alone R gn l r ref : passed l = None -> (gl_requires l = None \/ gn_name gn = None) -> link_answer R gn l None r ref r
  | la_empty_name R gn l n i r rs v : gl_requires l = Some [] -> gn_name gn = Some n -> seq_of r = Some rs -> v ∈ rs -> link_answer R gn l None r (n, i) v
  | la_root R gn l rn u r : passed l = Some rn -> gn_name gn = None -> came_from R ROOT rn u -> link_answer R gn l (Some (ROne u)) r ROOT r
  | la_node R gn l rn us p u n i r rs v :
      passed l = Some rn -> gn_name gn = Some n -> us !! p = Some u -> came_from R (n, i) rn u ->
      seq_of r = Some rs -> rs !! p = Some v -> length rs = length us ->
      link_answer R gn l (Some (RList us)) r (n, i) v.
End spec.
Scheme asked_mut := Minimality for asked Sort Prop
  with came_from_mut := Minimality for came_from Sort Prop
  with link_answer_mut := Minimality for link_answer Sort Prop.
Combined Scheme prov_ind from asked_mut, came_from_mut, link_answer_mut.

(** hiku/graph.py: [GraphTransformer], [GraphInit], [Graph.__init__], [apply].
    Descriptions are not modelled. *)
From Verif Require Import Base Val Types Query Graph Validate.

(** ** Definitions as they are written, before [GraphInit] *)
(** The function of a field: one which is ready (a loader, a [CheckedExpr]), a [BoundExpr]
    (sources/graph.py:37-68) or a [SubGraph] (89-104).  [e] names the expression. *)
Inductive rfunc :=
| RReady (f : ffunc)
| RBound (sg : nat) (e : N)
| RSubGraph (sg : nat).
Record rfield := RField { rf_name : str; rf_type : option ty; rf_func : rfunc; rf_opts : list goption }.
Inductive ritem := RF (f : rfield) | RL (l : glink).
Record rnode := RNode { rn_name : option str; rn_fields : list ritem }.
(** Ready definitions are definitions. *)
Definition to_rfield (f : gfield) : rfield := RField (gf_name f) (gf_type f) (RReady (gf_func f)) (gf_opts f).
Definition to_ritem (x : gitem) : ritem := match x with GF f => RF (to_rfield f) | GL l => RL l end.
Definition to_rnode (n : gnode) : rnode := RNode (gn_name n) (map to_ritem (gn_fields n)).

(** graph.py:444-446 [GraphTransformer.visit_option] *)
Definition visit_option (o : goption) : goption := GOption (go_name o) (go_type o) (go_default o).
(** graph.py:448-451 [visit_field] *)
Definition visit_field (f : gfield) : gfield := GField (gf_name f) (gf_type f) (gf_func f) (map visit_option (gf_opts f)).
Definition visit_rfield (f : rfield) : rfield := RField (rf_name f) (rf_type f) (rf_func f) (map visit_option (rf_opts f)).
(** graph.py:453-457 [visit_link]; [Link.__init__] (204-219) finds node and multiplicity in the type *)
Definition visit_link (l : glink) : res glink :=
  match get_type_enum (gl_type l) with
  | Ok (e, n) => Ok (GLink (gl_name l) e n (gl_func l) (gl_requires l) (map visit_option (gl_opts l)))
  | Err e => Err e
  end.

Section init.
  (** [BoundExpr.__postprocess__] (sources/graph.py:48-68) and [SubGraph.__postprocess__] (101-102):
      the requirements and the procedure of an expression for a field, see Expr.bind_field *)
  Context (post : nat -> option N -> rfield -> res (qnode * N)).
  (** graph.py:500-505 [GraphInit.visit_field] *)
  Definition init_field (f : rfield) : res gfield :=
    let f' := visit_rfield f in
    match rf_func f' with
    | RReady x => Ok (GField (rf_name f') (rf_type f') x (rf_opts f'))
    | RBound sg e => match post sg (Some e) f' with
                     | Ok (rq, pr) => Ok (GField (rf_name f') (rf_type f') (FChecked sg rq pr) (rf_opts f'))
                     | Err x => Err x end
    | RSubGraph sg => match post sg None f' with
                      | Ok (rq, pr) => Ok (GField (rf_name f') (rf_type f') (FChecked sg rq pr) (rf_opts f'))
                      | Err x => Err x end
    end.
  Definition init_ritem (x : ritem) : res gitem :=
    match x with
    | RF f => match init_field f with Ok f' => Ok (GF f') | Err e => Err e end
    | RL l => match visit_link l with Ok l' => Ok (GL l') | Err e => Err e end
    end.
  (** graph.py:459-464 [visit_node], [visit_root] *)
  Definition init_node (n : rnode) : res gnode :=
    match mapR init_ritem (rn_fields n) with Ok fs => Ok (GNode (rn_name n) fs) | Err e => Err e end.
  (** What the validator sees of a definition: not the functions. *)
  Definition blank_item (x : ritem) : gitem :=
    match x with RF f => GF (GField (rf_name f) (rf_type f) (FPlain 0) (rf_opts f)) | RL l => GL l end.
  Definition blank_node (n : rnode) : gnode := GNode (rn_name n) (map blank_item (rn_fields n)).
  (** graph.py:348-358 [Graph.__init__] *)
  Definition make_graph (items : list rnode) (dt : dict str ty) : res graph :=
    match gvalidate (map blank_node items) with
    | [] => match mapR init_node items with Ok is_ => Ok (Graph is_ dt) | Err e => Err e end
    | _ => Err TypeError
    end.

  (** ** Transformers *)
  (** A transformer with its own [visit_field], [visit_link] and [visit_node], each of which calls
      that of the base class and changes the new object *)
  Record transformer := Transformer {
    tr_field : option str -> gfield -> gfield;
    tr_link : option str -> glink -> glink;
    tr_node : gnode -> gnode;
  }.
  Definition tr_id : transformer := Transformer (fun _ f => f) (fun _ l => l) (fun n => n).
  Definition tr_item (t : transformer) (node : option str) (x : gitem) : res gitem :=
    match x with
    | GF f => Ok (GF (tr_field t node (visit_field f)))
    | GL l => match visit_link l with Ok l' => Ok (GL (tr_link t node l')) | Err e => Err e end
    end.
  Definition tr_gnode (t : transformer) (n : gnode) : res gnode :=
    match mapR (tr_item t (gn_name n)) (gn_fields n) with
    | Ok fs => Ok (tr_node t (GNode (gn_name n) fs))
    | Err e => Err e
    end.
  (** graph.py:466-468 [visit_graph] *)
  Definition tr_graph (t : transformer) (g : graph) : res graph :=
    match mapR (tr_gnode t) (g_items g) with
    | Ok is_ => make_graph (map to_rnode is_) (g_dtypes g)
    | Err e => Err e
    end.
End init.
(** graph.py:471-481 [apply]; a transformer is what it does with a graph *)
Definition apply_all (g : graph) (ts : list (graph -> res graph)) : res graph := foldR (fun g t => t g) g ts.

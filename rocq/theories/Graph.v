(** hiku/graph.py: definitions, maps, [GraphTypes]. *)
From Verif Require Export Base Val Types Query.

(** graph.py:40-71 [Option]; [VNothing] as default means a required option.
    Descriptions are not modelled. *)
Record goption := GOption { go_name : str; go_type : option ty; go_default : val }.

(** graph.py:18-22 *)
Inductive tenum : Set := Maybe | One | Many.
Global Instance tenum_eq_dec : EqDecision tenum.
Proof. solve_decision. Defined.

(** The function of a field.  [FPlain f]: an ordinary loader, named by [f].
    [FChecked sg reqs pr]: a [CheckedExpr] (sources/graph.py:71-86) over the sub-graph
    number [sg], with requirements [reqs] and compiled procedure number [pr]. *)
Inductive ffunc :=
| FPlain (f : N)
| FChecked (sg : nat) (reqs : qnode) (pr : N).

(** graph.py:78-135 [Field] *)
Record gfield := GField { gf_name : str; gf_type : option ty; gf_func : ffunc; gf_opts : list goption }.

(** graph.py:154-257 [Link]; [gl_type] gives [type_enum] and [node] by [get_type_enum]. *)
Record glink := GLink { gl_name : str; gl_enum : tenum; gl_node : str; gl_func : N;
                        gl_requires : option str; gl_opts : list goption }.

Inductive gitem := GF (f : gfield) | GL (l : glink).
Definition gi_name (x : gitem) : str := match x with GF f => gf_name f | GL l => gl_name l end.

(** graph.py:264-299 [Node]; name [None] is a [Root] (graph.py:302-328). *)
Record gnode := GNode { gn_name : option str; gn_fields : list gitem }.

(** graph.py:335-386 [Graph], after validation *)
Record graph := Graph { g_items : list gnode; g_dtypes : dict str ty }.

(** graph.py:142-151 [get_type_enum] *)
Definition get_type_enum (t : ty) : res (tenum * str) :=
  match t with
  | TRef n => Ok (One, n)
  | TOpt (TRef n) => Ok (Maybe, n)
  | TSeq (TRef n) => Ok (Many, n)
  | _ => Err TypeError
  end.
(** The type of a link (its [type] attribute), recovered from [type_enum] and [node]. *)
Definition gl_type (l : glink) : ty :=
  match gl_enum l with One => TRef (gl_node l) | Maybe => TOpt (TRef (gl_node l)) | Many => TSeq (TRef (gl_node l)) end.

(** graph.py:294-296 [fields_map]: the last of equal names wins. *)
Definition fields_map (n : gnode) : dict str gitem := of_pairs (map (fun x => (gi_name x, x)) (gn_fields n)).

(** graph.py:362-375 [iter_root], [root] *)
Definition g_root (g : graph) : gnode :=
  GNode None (concat (map gn_fields (List.filter (fun n => match gn_name n with None => true | _ => false end) (g_items g)))).
(** graph.py:368-383 [iter_nodes], [nodes], [nodes_map] *)
Definition g_nodes (g : graph) : list gnode :=
  List.filter (fun n => match gn_name n with None => false | _ => true end) (g_items g).
Definition nodes_map (g : graph) : dict str gnode :=
  of_pairs (omap (fun n => match gn_name n with Some x => Some (x, n) | None => None end) (g_items g)).

Definition find_field (n : gnode) (name : str) : option gitem := dget name (fields_map n).
Definition find_node (g : graph) (name : str) : option gnode := dget name (nodes_map g).

(** [if graph_obj.requires:] — an empty name is false *)
Definition req_true (l : glink) : option str :=
  match gl_requires l with Some [] => None | r => r end.

(** graph.py:516-548 [GraphTypes] *)
Definition gi_type (x : gitem) : ty :=
  match x with GF f => match gf_type f with Some t => t | None => TAny end | GL l => gl_type l end.
Definition rec_of_items (l : list gitem) : dict str ty := of_pairs (map (fun x => (gi_name x, gi_type x)) l).
Definition g_types (g : graph) : dict str ty :=
  let types := fold_left (fun d n => match gn_name n with
                                     | Some x => dset x (TRec (rec_of_items (gn_fields n))) d
                                     | None => d end) (g_items g) (of_pairs (g_dtypes g)) in
  let roots := concat (map (fun n => match gn_name n with
                                     | None => rec_of_items (gn_fields n)
                                     | Some _ => [] end) (g_items g)) in
  dset (s "__root__") (TRec (of_pairs roots)) types.

(** How many loader calls a query can take: a bound computed from the query and the graph alone (specification for
    C05 and C06, graphs with sub-graphs included). *)
From Verif Require Import Base Val Query Graph Result Engine EngineSpec.

Section item.
  Context (G : graph) (price : nat -> qnode -> nat).
  (** Loading a field: one call, or what the requirements of its expression cost in the sub-graph. *)
  Definition load_cost (go : gitem) : nat :=
    match go with
    | GF f => match gf_func f with FPlain _ => 1 | FChecked sg rq _ => price sg rq end
    | GL _ => 1
    end.
  (** A member [q] of a query of the node [gn]: a link costs its required field, one call, and the selection. *)
  Fixpoint cost (gn : gnode) (q : qitem) : nat :=
    match find_field gn (q_name q) with
    | None => 0
    | Some go =>
        match q, go with
        | QL _ sub _ _ _, GL l =>
            match req_true l with
            | Some r => match find_field gn r with Some go' => load_cost go' | None => 0 end
            | None => 0
            end
            + 1
            + match find_node G (gl_node l) with Some gn' => list_sum (map (cost gn') sub) | None => 0 end
        | _, _ => load_cost go
        end
    end.
  Definition costs (gn : gnode) (qs : list qitem) : nat := list_sum (map (cost gn) qs).
  (** Requirements of an expression: the fields of the objects ([this]) and of the root of the sub-graph. *)
  Definition reqs_cost (node : str) (rq : qnode) : nat :=
    list_sum (map (fun r =>
      if decide (q_name r = THIS)
      then match find_node G node with Some gn => costs gn (qfields (q_node r)) | None => 0 end
      else cost (g_root G) r) (qfields rq)).
End item.

(** The price of the requirements of an expression, where sub-graphs only use sub-graphs defined before them: every
    field of a sub-graph costs [u] on its own ([u] = 0: count loader calls; [u] = 1: also count the sub-queries). *)
Fixpoint price (u : nat) (sgs : list (graph * str)) (fuel : nat) (sg : nat) (rq : qnode) : nat :=
  match fuel with
  | O => u
  | S k => u + match sgs !! sg with Some (G, node) => reqs_cost G (price u sgs k) node rq | None => 0 end
  end.
Definition max_cost (u : nat) (E : env) (g : graph) (q : qnode) : nat :=
  costs g (price u (e_sgs E) (length (e_sgs E))) (g_root g) (qfields q).
(** The bound on loader calls; the bound on loader calls together with sub-queries *)
Definition max_calls : env -> graph -> qnode -> nat := max_cost 0.
Definition max_work : env -> graph -> qnode -> nat := max_cost 1.

(** Sub-graphs are built before the graphs which use them (sources/graph.py:92-98: a [SubGraph] takes a complete
    graph), numbered in this order. *)
Definition node_of (G : graph) (gn : gnode) : Prop := gn = g_root G \/ exists n, find_node G n = Some gn.
Definition uses_below (n : nat) (G : graph) : Prop :=
  forall gn name f sg rq pr, node_of G gn -> find_field gn name = Some (GF f) -> gf_func f = FChecked sg rq pr -> sg < n.
Definition nested (sgs : list (graph * str)) : Prop :=
  forall sg G node, sgs !! sg = Some (G, node) -> uses_below sg G.

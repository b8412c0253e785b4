(** The places of a result where objects are shown (specification for C63). *)
From Verif Require Import Base Val Query QuerySpec Graph Result MoreSpec SameSpec.

Section view.
  Context `{Hasher} (g : graph) (idx : index).
  (** [place q0 t0 gn ref pn t]: in the result of the query [q0] the object [ref], of the node [gn], is found by following
      result keys and positions in lists, and [pn] is what the query asks of it there; in the denormalized result [t0] the
      same keys and positions lead to [t]. *)
  Inductive place (q0 : qnode) (t0 : vtree) : gnode -> str * val -> qnode -> vtree -> Prop :=
  | pl_root : place q0 t0 (g_root g) ROOT q0 t0
  | pl_one gn ref pn d f l gn' ref' pn' t :
      place q0 t0 gn ref pn (TO d) -> f ∈ qfields pn -> find_field gn (q_name f) = Some (GL l) -> find_node g (gl_node l) = Some gn' ->
      proxy_get idx ref pn (result_key f) = Ok (PProxy ref' pn') -> dget (result_key f) d = Some t -> place q0 t0 gn' ref' pn' t
  | pl_many gn ref pn d f l gn' refs pn' ts i ref' t :
      place q0 t0 gn ref pn (TO d) -> f ∈ qfields pn -> find_field gn (q_name f) = Some (GL l) -> find_node g (gl_node l) = Some gn' ->
      proxy_get idx ref pn (result_key f) = Ok (PList refs pn') -> dget (result_key f) d = Some (TL ts) ->
      refs !! i = Some ref' -> ts !! i = Some t -> place q0 t0 gn' ref' pn' t.
End view.

(** Queries about the schema, run by the engine: specification for C56. *)
From Verif Require Import Base Val Types Query Graph Queue Result Engine EngineSpec CallSpec Introspect IntrospectSpec PropIntroList IntroRun PropEndpoint.

(** The data which the loaders of introspection serve: what they say of an identifier, one by one. *)
Definition or_none (r : res val) : val := match r with Ok v => v | Err _ => VNone end.
Record describes (L : loaders) (S : schema) (T : texts) (D : data) : Prop := {
  ds_typename : forall n i f o, d_field D (ld_typename L n) i f o = VStr n;
  ds_field : forall k i f o, d_field D (ld_intro L k) (Some i) f o =
    or_none (match row_of S T k i with Ok row => row f | Err e => Err e end);
  ds_link : forall k i o, d_link D (ld_intro L k) (Some i) o = or_none (link_of S k i);
  ds_root : forall k o, d_link D (ld_intro L k) None o = or_none (link_root S k o);
}.
(** The loaders of the user's graph and of the sub-graphs of its expressions *)
Definition own_loader (E : env) (g : graph) (f : N) : Prop :=
  loaders_of g f \/ exists sg G node, e_sgs E !! sg = Some (G, node) /\ loaders_of G f.
(** Different functions: those of introspection, and those of the user's graph and of its sub-graphs *)
Record apart (L : loaders) (E : env) (g : graph) : Prop := {
  ap_intro : forall k k', ld_intro L k = ld_intro L k' -> k = k';
  ap_typename : forall n k, ld_typename L n <> ld_intro L k;
  ap_own : forall f, own_loader E g f -> ~ intro_loader L f;
}.
(** The default values of the options of the schema can be written as JSON. *)
Definition json_defaults (S : schema) (T : texts) : Prop :=
  forall n gn x o, dget n (schema_nodes S) = Some gn -> x ∈ gn_fields gn -> o ∈ gi_options x -> go_default o <> VNothing ->
    is_ok (tx_json T (go_default o)).
(** [__typename] is asked once at most of every node (not under two aliases, see C45_typename_twice_refuted) *)
Definition typename_once (n : qnode) : Prop :=
  length (List.filter (fun q => bool_decide (q_name q = s "__typename")) (qfields n)) <= 1.

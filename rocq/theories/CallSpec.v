(** Which loader calls a query asks for, in graphs with sub-graphs (specification for C46, C51, C52). *)
From Verif Require Import Base Val Query Graph Result Engine EngineSpec.

(** What a link requires of its object; the empty name stands for nothing. *)
Definition passed (l : glink) : option str := match gl_requires l with Some [] => None | r => r end.

(** The members [qs] are loaded together for the node [gn] of which [n] is asked: each of them is asked for or
    required by a link asked for, and belongs to the function [fk]. *)
Definition together (gn : gnode) (n : qnode) (fk : fkey) (fields : list (gitem * qitem)) : Prop :=
  fields <> [] /\
  forall go q, (go, q) ∈ fields -> q ∈ loaded_fields gn (qfields n) /\ find_field gn (q_name q) = Some go /\ fkey_of go = fk.

Section spec.
  Context `{Hasher} (E : env) (g : graph) (q0 : qnode).
  (** [needed G gn n]: answering the query takes asking [n] of the node [gn] of the graph [G] *)
  Inductive needed : graph -> gnode -> qnode -> Prop :=
  | nd_query q' : init_options g q0 = Ok q' -> needed g (g_root g) q'
  | nd_link G gn n q l gn' :
      needed G gn n -> (l, q) ∈ asked_links gn (qfields n) -> find_node G (gl_node l) = Some gn' ->
      needed G gn' (q_node q)
  | nd_this G gn n sg fields G' node this gn' :
      needed G gn n -> together gn n (KSub sg) fields -> e_sgs E !! sg = Some (G', node) ->
      dget THIS (q_fields_map (merge (map (fun p => reqs_of p.1) fields))) = Some this ->
      find_node G' node = Some gn' -> needed G' gn' (q_node this)
  | nd_rest G gn n sg fields G' node :
      needed G gn n -> together gn n (KSub sg) fields -> e_sgs E !! sg = Some (G', node) ->
      needed G' (g_root G')
        (QN (List.filter (fun r => negb (bool_decide (q_name r = THIS))) (qfields (merge (map (fun p => reqs_of p.1) fields)))) false).
  (** The objects for which a node is asked: none for the root, at least one for another node *)
  Definition objects (gn : gnode) (ids : option (list val)) : Prop :=
    match gn_name gn with None => ids = None | Some _ => exists i is_, ids = Some (i :: is_) end.
  (** The calls which answering the query takes *)
  Definition call_needed (c : call) : Prop :=
    exists G gn n, needed G gn n /\ c_ctx c = e_ctx E (c_func c) /\
      match c_args c with
      | AFields qfs ids => exists fields, qfs = map snd fields /\ together gn n (KPlain (c_func c)) fields /\ objects gn ids
      | ALink rq o => exists l q, (l, q) ∈ asked_links gn (qfields n) /\ gl_func l = c_func c /\ o = link_opts l q /\
          match passed l, gn_name gn with
          | None, _ => rq = None
          | Some _, None => exists v, rq = Some (ROne v)
          | Some _, Some _ => exists v vs, rq = Some (RList (v :: vs))
          end
      end.
End spec.

(** The functions of a graph *)
Definition loaders_of (g : graph) (f : N) : Prop :=
  exists gn go, gn ∈ g_items g /\ go ∈ gn_fields gn /\ fkey_of go = KPlain f.
Definition subgraphs_of (g : graph) (sg : nat) : Prop :=
  exists gn go, gn ∈ g_items g /\ go ∈ gn_fields gn /\ fkey_of go = KSub sg.
(** ... with those of its sub-graphs *)
Inductive all_loaders (E : env) (g : graph) : N -> Prop :=
| al_own f : loaders_of g f -> all_loaders E g f
| al_sub sg G node f : subgraphs_of g sg -> e_sgs E !! sg = Some (G, node) -> all_loaders E G f -> all_loaders E g f.

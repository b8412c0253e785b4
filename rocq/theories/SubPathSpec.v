(** Specification vocabulary of C40: places in results, the objects found there, the loaders which belong to a graph. *)
From Verif Require Import Base Val Query QuerySpec Graph Result Engine EngineSpec CostSpec SubSpec.

(** ** Places in a result: keys and positions *)
Inductive pstep := PKey (k : str) | PIdx (m : nat).
Fixpoint vget (t : vtree) (p : list pstep) : option vtree :=
  match p with
  | [] => Some t
  | PKey k :: p => match t with TO d => match dget k d with Some u => vget u p | None => None end | _ => None end
  | PIdx m :: p => match t with TL l => match l !! m with Some u => vget u p | None => None end | _ => None end
  end.

Section leads.
  Context (g : graph) (fv : gfield -> option val -> str -> opts -> val) (D : data).
  (** From the object [i] of [gn] with the selection [n] the place [p] is the object [j] of [gn'] with the selection [n'] *)
  Inductive leads : gnode -> option val -> qnode -> list pstep -> gnode -> option val -> qnode -> Prop :=
  | ld_here gn i n : leads gn i n [] gn i n
  | ld_one gn i n nm sub ord o a l gn1 p gn' j n' :
      QL nm sub ord o a ∈ qfields n -> find_field gn nm = Some (GL l) -> find_node g (gl_node l) = Some gn1 ->
      gl_enum l <> Many -> link_value fv D gn i l (QL nm sub ord o a) <> VNothing ->
      leads gn1 (Some (link_value fv D gn i l (QL nm sub ord o a))) (QN sub ord) p gn' j n' ->
      leads gn i n (PKey (result_key (QL nm sub ord o a)) :: p) gn' j n'
  | ld_many gn i n nm sub ord o a l gn1 m k p gn' j n' :
      QL nm sub ord o a ∈ qfields n -> find_field gn nm = Some (GL l) -> find_node g (gl_node l) = Some gn1 ->
      gl_enum l = Many -> seq_items (link_value fv D gn i l (QL nm sub ord o a)) !! m = Some k ->
      leads gn1 (Some k) (QN sub ord) p gn' j n' ->
      leads gn i n (PKey (result_key (QL nm sub ord o a)) :: PIdx m :: p) gn' j n'.
End leads.

(** ** The loaders of a graph: of its fields and links, and of the graphs its expressions are over *)
Inductive own_loader (E : env) : graph -> N -> Prop :=
| ol_field G gn name f m : node_of G gn -> find_field gn name = Some (GF f) -> gf_func f = FPlain m -> own_loader E G m
| ol_link G gn name l : node_of G gn -> find_field gn name = Some (GL l) -> own_loader E G (gl_func l)
| ol_sub G gn name f sg rq pr G' node m :
    node_of G gn -> find_field gn name = Some (GF f) -> gf_func f = FChecked sg rq pr -> e_sgs E !! sg = Some (G', node) ->
    own_loader E G' m -> own_loader E G m.
(** Two data agree on a loader *)
Definition agree_on (D D' : data) (m : N) : Prop :=
  (forall i n o, d_field D m i n o = d_field D' m i n o) /\ (forall a o, d_link D m a o = d_link D' m a o).

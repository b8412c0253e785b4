(** Specification vocabulary for results with parts of fields (C04, C17, C21): values of their types, parts which can be
    told by the type. *)
From Verif Require Import Base Val Types Query Graph Result EngineSpec.

(** The value has the form of its type: lists can be gone through, records are dictionaries with the fields of the type.
    Nothing is said about types given by name inside of other types, nor about simple ones. *)
Fixpoint of_type (t : ty) (v : val) : Prop :=
  match t with
  | TSeq u => exists l, iter_of v = Some l /\ Forall (of_type u) l
  | TOpt u => v = VNone \/ of_type u v
  | TRec fs => foldr (fun p P => (exists x d, (v = VDict d \/ v = VMap d) /\ dget (VStr p.1) d = Some x /\ of_type p.2 x) /\ P) True fs
  | _ => True
  end.
(** The record which a type holds: itself, optional, or in a list *)
Definition records_of (t : ty) : option (list (str * ty)) :=
  match t with TRec fs | TOpt (TRec fs) | TSeq (TRec fs) => Some fs | _ => None end.
(** Parts are asked only where the type of the value spells out the record, and does not give its name *)
Fixpoint spelled_part (fs : list (str * ty)) (q : qitem) : Prop :=
  match q with
  | QF _ _ _ => True
  | QL n sub _ _ _ =>
      match dget n fs with
      | Some t => match records_of t with Some fs' => foldr (fun q P => spelled_part fs' q /\ P) True sub | None => False end
      | None => False
      end
  end.
Definition spelled_out (g : graph) (q : qnode) : Prop :=
  forall gn n q0 f, visited g q gn n -> q0 ∈ qfields n -> q_is_link q0 = true -> find_field gn (q_name q0) = Some (GF f) ->
    exists t fs, get_type (g_dtypes g) (gf_ty f) = Ok t /\ records_of t = Some fs /\
      forall q1, q1 ∈ qfields (q_node q0) -> spelled_part fs q1.
(** ... and they exist *)
Fixpoint known_part (fs : list (str * ty)) (q : qitem) : Prop :=
  match q with
  | QF n _ _ => is_Some (dget n fs)
  | QL n sub _ _ _ => exists t fs', dget n fs = Some t /\ records_of t = Some fs' /\ foldr (fun q P => known_part fs' q /\ P) True sub
  end.
Definition known_parts (g : graph) (q : qnode) : Prop :=
  forall gn n q0 f, visited g q gn n -> q0 ∈ qfields n -> q_is_link q0 = true -> find_field gn (q_name q0) = Some (GF f) ->
    exists t fs, get_type (g_dtypes g) (gf_ty f) = Ok t /\ records_of t = Some fs /\
      forall q1, q1 ∈ qfields (q_node q0) -> known_part fs q1.
(** The values of fields, [fv], of which parts are asked are of their types, for the objects [ob] of a node *)
Definition typed_values (g : graph) (ob : gnode -> option val -> Prop) (fv : gfield -> option val -> str -> opts -> val) (q : qnode) : Prop :=
  forall gn n q0 f t i, visited g q gn n -> ob gn i -> q0 ∈ qfields n -> q_is_link q0 = true -> find_field gn (q_name q0) = Some (GF f) ->
    get_type (g_dtypes g) (gf_ty f) = Ok t -> of_type t (fv f i (q_name q0) (q_opts q0)).
(** Members exist; links are asked as links and lead to nodes of the graph *)
Definition known_items (g : graph) (q : qnode) : Prop :=
  forall gn n q0, visited g q gn n -> q0 ∈ qfields n ->
    match find_field gn (q_name q0) with
    | Some (GF _) => True
    | Some (GL l) => q_is_link q0 = true /\ is_Some (find_node g (gl_node l))
    | None => False
    end.

(** What GraphQL documents mean.  Independent of the reader's cache, of its detection of
    cycles and of its order of evaluation. *)
From stdpp Require Import relations.
From Verif Require Import Base Val Query ReadGraphql.

(** ** Values *)
Inductive denotes (vars : dict str val) : gval -> val -> Prop :=
| dn_var n w : dget n vars = Some w -> denotes vars (GVar n) w
| dn_null : denotes vars GNull VNone
| dn_int z : denotes vars (GInt z) (VInt z)
| dn_float m e : denotes vars (GFloat m e) (VFloat m e)
| dn_str x : denotes vars (GStr x) (VStr x)
| dn_enum x : denotes vars (GEnum x) (VStr x)
| dn_bool b : denotes vars (GBool b) (VBool b)
| dn_list l ws : Forall2 (denotes vars) l ws -> denotes vars (GList l) (VList ws)
| dn_obj l ps : Forall2 (fun p r => r.1 = p.1 /\ denotes vars p.2 r.2) l ps -> denotes vars (GObj l) (opts_val (of_pairs ps)).
(** The variables used by a value *)
Inductive uses_var (n : str) : gval -> Prop :=
| uv_var : uses_var n (GVar n)
| uv_list l v : v ∈ l -> uses_var n v -> uses_var n (GList l)
| uv_obj l k v : (k, v) ∈ l -> uses_var n v -> uses_var n (GObj l).
(** The options of a field: none if there are no arguments *)
Definition gives_options (vars : dict str val) (args : list (str * gval)) (o : opts) : Prop :=
  (args = [] /\ o = None) \/
  (args <> [] /\ exists ps, Forall2 (fun p r => r.1 = p.1 /\ denotes vars p.2 r.2) args ps /\ o = Some (of_pairs ps)).

(** ** Directives *)
(** The condition [b] of the directive [name], which is given once and with one argument *)
Definition condition (vars : dict str val) (name : str) (ds : list gdir) (b : bool) : Prop :=
  exists d v w, d ∈ ds /\ gd_name d = name /\ (forall d', d' ∈ ds -> gd_name d' = name -> d' = d) /\
    gd_args d = [(s "if", v)] /\ denotes vars v w /\ truthy w = b.
Definition absent (name : str) (ds : list gdir) : Prop := forall d, d ∈ ds -> gd_name d <> name.
(** GraphQL: a selection is dropped if @skip(if: true) or @include(if: false). *)
Definition dropped (vars : dict str val) (ds : list gdir) : Prop :=
  condition vars (s "skip") ds true \/ condition vars (s "include") ds false.
Definition well_directed (vars : dict str val) (ds : list gdir) : Prop :=
  (absent (s "skip") ds \/ exists b, condition vars (s "skip") ds b) /\
  (absent (s "include") ds \/ exists b, condition vars (s "include") ds b).

(** ** Selections *)
Section sels.
  Context (vars : dict str val) (frags : dict str (list sel)).
  (** Left out ([b] is true) or kept: what the directives say, see [judged] in PySpec.v and C29_judged *)
  Definition skips (x : sel) (b : bool) : Prop := should_skip vars (sel_dirs x) = ROk b.
  (** [reads l r]: the selections [l] ask for the members [r]. *)
  Inductive reads : list sel -> list qitem -> Prop :=
  | rd_nil : reads [] []
  | rd_skip x l r : skips x true -> reads l r -> reads (x :: l) r
  | rd_field alias n args ds l r o : skips (SField alias n args ds None) false -> gives_options vars args o ->
      reads l r -> reads (SField alias n args ds None :: l) (QF n o alias :: r)
  | rd_link alias n args ds sub l rs r o : skips (SField alias n args ds (Some sub)) false -> gives_options vars args o ->
      reads sub rs -> reads l r -> reads (SField alias n args ds (Some sub) :: l) (QL n rs false o alias :: r)
  | rd_spread n ds sub l rs r : skips (SSpread n ds) false -> dget n frags = Some sub ->
      reads sub rs -> reads l r -> reads (SSpread n ds :: l) (rs ++ r)
  | rd_inline ds sub l rs r : skips (SInline ds sub) false ->
      reads sub rs -> reads l r -> reads (SInline ds sub :: l) (rs ++ r).

  (** Selections met while reading: [contents x sub] are the selections below [x]. *)
  Inductive contents : sel -> list sel -> Prop :=
  | ct_field alias n args ds sub : contents (SField alias n args ds (Some sub)) sub
  | ct_spread n ds sub : dget n frags = Some sub -> contents (SSpread n ds) sub
  | ct_inline ds sub : contents (SInline ds sub) sub.
  Definition enters (l sub : list sel) : Prop := exists x, x ∈ l /\ skips x false /\ contents x sub.
  Definition meets (l : list sel) (x : sel) : Prop := exists l', rtc enters l l' /\ x ∈ l'.
  (** A fragment is cyclic if reading its contents meets a use of it. *)
  Definition cyclic (n : str) : Prop :=
    exists sub ds, dget n frags = Some sub /\ meets sub (SSpread n ds) /\ skips (SSpread n ds) false.
  (** What is wrong with a selection *)
  Inductive fault (x : sel) : rerr -> Prop :=
  | fl_dir e : should_skip vars (sel_dirs x) = RErr e -> fault x e
  | fl_var alias n args ds sub k v y : x = SField alias n args ds sub -> skips x false ->
      (k, v) ∈ args -> uses_var y v -> dget y vars = None -> fault x (RUndefVar y)
  | fl_frag n ds : x = SSpread n ds -> skips x false -> dget n frags = None -> fault x (RNoFragment n)
  | fl_cyclic n ds : x = SSpread n ds -> skips x false -> cyclic n -> fault x (RCyclic n).
End sels.

(** [inlined frags l l']: [l'] is [l] with every fragment spread replaced with the contents of
    the named fragment; directives of the spread need an inline fragment.  Inline fragments
    without directives may be replaced with their contents. *)
Inductive inlined (frags : dict str (list sel)) : list sel -> list sel -> Prop :=
| il_nil : inlined frags [] []
| il_field alias n args ds l l' : inlined frags l l' ->
    inlined frags (SField alias n args ds None :: l) (SField alias n args ds None :: l')
| il_link alias n args ds sub sub' l l' : inlined frags sub sub' -> inlined frags l l' ->
    inlined frags (SField alias n args ds (Some sub) :: l) (SField alias n args ds (Some sub') :: l')
| il_spread n ds sub sub' l l' : dget n frags = Some sub -> inlined frags sub sub' -> inlined frags l l' ->
    inlined frags (SSpread n ds :: l) (SInline ds sub' :: l')
| il_contents n sub sub' l l' : dget n frags = Some sub -> inlined frags sub sub' -> inlined frags l l' ->
    inlined frags (SSpread n [] :: l) (sub' ++ l')
| il_inline ds sub sub' l l' : inlined frags sub sub' -> inlined frags l l' ->
    inlined frags (SInline ds sub :: l) (SInline ds sub' :: l')
| il_flat sub sub' l l' : inlined frags sub sub' -> inlined frags l l' ->
    inlined frags (SInline [] sub :: l) (sub' ++ l').
(** The fragments named anywhere in selections *)
Inductive mentions (n : str) : list sel -> Prop :=
| mt_spread ds l : SSpread n ds ∈ l -> mentions n l
| mt_link alias m args ds sub l : SField alias m args ds (Some sub) ∈ l -> mentions n sub -> mentions n l
| mt_inline ds sub l : SInline ds sub ∈ l -> mentions n sub -> mentions n l.

(** ** Documents *)
Definition op_named (doc : list gdef) (n : option str) (o : opdef) : Prop := DOp o ∈ doc /\ od_name o = n.
Definition op_names (doc : list gdef) : list (option str) :=
  flat_map (fun d => match d with DOp o => [od_name o] | _ => [] end) doc.
Definition frag_names (doc : list gdef) : list str :=
  flat_map (fun d => match d with DFrag n _ => [n] | _ => [] end) doc.
Definition frag_map (doc : list gdef) : dict str (list sel) :=
  flat_map (fun d => match d with DFrag n l => [(n, l)] | _ => [] end) doc.
(** The value of a declared variable *)
Definition has_value (given : dict str val) (d : vardef) (v : val) : Prop :=
  match dget (vd_name d) given with
  | Some w => v = w
  | None => match vd_default d with Some c => denotes [] c v | None => vd_nonnull d = false /\ v = VNone end
  end.

(** ** Applying conditions *)
Definition kept (vars : dict str val) (ds : list gdir) : Prop := well_directed vars ds /\ ~ dropped vars ds.
(** [applied vars l l']: [l'] is [l] without the dropped selections, at every depth, and
    without directives. *)
Inductive applied (vars : dict str val) : list sel -> list sel -> Prop :=
| ap_nil : applied vars [] []
| ap_drop x l l' : well_directed vars (sel_dirs x) -> dropped vars (sel_dirs x) -> applied vars l l' -> applied vars (x :: l) l'
| ap_field alias n args ds l l' : kept vars ds -> applied vars l l' ->
    applied vars (SField alias n args ds None :: l) (SField alias n args [] None :: l')
| ap_link alias n args ds sub sub' l l' : kept vars ds -> applied vars sub sub' -> applied vars l l' ->
    applied vars (SField alias n args ds (Some sub) :: l) (SField alias n args [] (Some sub') :: l')
| ap_spread n ds l l' : kept vars ds -> applied vars l l' -> applied vars (SSpread n ds :: l) (SSpread n [] :: l')
| ap_inline ds sub sub' l l' : kept vars ds -> applied vars sub sub' -> applied vars l l' ->
    applied vars (SInline ds sub :: l) (SInline [] sub' :: l').
Definition applied_frags (vars : dict str val) : dict str (list sel) -> dict str (list sel) -> Prop :=
  Forall2 (fun p p' => p'.1 = p.1 /\ applied vars p.2 p'.2).
(** The directives which occur in selections *)
Inductive has_dirs (ds : list gdir) : list sel -> Prop :=
| hd_here x l : x ∈ l -> sel_dirs x = ds -> has_dirs ds l
| hd_link alias m args ds' sub l : SField alias m args ds' (Some sub) ∈ l -> has_dirs ds sub -> has_dirs ds l
| hd_inline ds' sub l : SInline ds' sub ∈ l -> has_dirs ds sub -> has_dirs ds l.
Definition one_condition (ds : list gdir) : Prop := absent (s "skip") ds \/ absent (s "include") ds.

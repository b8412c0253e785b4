(** What a graph over SQL tables has to be (specification for C64), over its definitions. *)
From Verif Require Import Base Val Types Query Graph Engine Sql SqlSpec SqlGraph.

(** The type of a field: the declared one, else that of its column. *)
Definition type_of_column (c : column_type) (t : option ty) : Prop :=
  match c with ColInteger => t = Some TInt | ColUnicode => t = Some TStr | ColOther => t = None end.
Definition served_by (kinds : N -> sql_kind) (f : gfield) (k : sql_kind) : Prop :=
  exists n, gf_func f = FPlain n /\ kinds n = k.
Definition field_made (kinds : N -> sql_kind) (f f' : gfield) : Prop :=
  gf_name f' = gf_name f /\ gf_func f' = gf_func f /\ gf_opts f' = gf_opts f /\ ~ served_by kinds f KLinks /\
  ((gf_type f' = gf_type f /\ (gf_type f = None -> forall t, ~ served_by kinds f (KFields t))) \/
   (gf_type f = None /\ exists t c, served_by kinds f (KFields t) /\ dget (gf_name f) (tb_cols t) = Some c /\ type_of_column c (gf_type f'))).
(** A link: the same, but its function maps the pairs of the statement according to its type. *)
Definition link_made (kinds : N -> sql_kind) (mapped : N -> tenum -> N) (l l' : glink) : Prop :=
  gl_name l' = gl_name l /\ gl_node l' = gl_node l /\ gl_type l' = gl_type l /\ gl_requires l' = gl_requires l /\
  gl_opts l' = gl_opts l /\
  ((kinds (gl_func l) = KLinks /\
    exists t, gl_func l' = mapped (gl_func l) t /\
      match t with One => gl_type l = TRef (gl_node l) | Maybe => gl_type l = TOpt (TRef (gl_node l)) | Many => gl_type l = TSeq (TRef (gl_node l)) end) \/
   (kinds (gl_func l) <> KLinks /\ gl_func l' = gl_func l)).
Definition item_made kinds mapped (x x' : gitem) : Prop :=
  match x, x' with GF f, GF f' => field_made kinds f f' | GL l, GL l' => link_made kinds mapped l l' | _, _ => False end.
Definition node_made kinds mapped (n n' : gnode) : Prop :=
  gn_name n' = gn_name n /\ Forall2 (item_made kinds mapped) (gn_fields n) (gn_fields n').
(** What is wrong with a field: no such column to take the type of, or the loader of a link. *)
Definition bad_field (kinds : N -> sql_kind) (f : gfield) (e : exn) : Prop :=
  (gf_type f = None /\ exists t, served_by kinds f (KFields t) /\ gf_name f ∉ map fst (tb_cols t) /\ e = KeyError) \/
  (served_by kinds f KLinks /\ e = AttributeError).
(** The rows of a table hold values of the types of its columns, or NULL. *)
Definition fits_column (c : column_type) (v : val) : Prop :=
  match c with ColInteger => exists z, v = VInt z | ColUnicode => exists x, v = VStr x | ColOther => True end.
Definition typed_rows (t : table) (rows : list row) : Prop :=
  forall r c ct v, r ∈ rows -> dget c (tb_cols t) = Some ct -> dget c r = Some v -> v = VNone \/ fits_column ct v.

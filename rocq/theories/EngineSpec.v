(** What a query means: the data behind the loaders, and the result obtained by following
    the query object by object.  Independent of the engine's scheduling and of its index. *)
From Verif Require Import Base Val Query QuerySpec Graph Result Engine.

(** The data served by the loaders: the value of a field of an object ([None]: the root) for
    given options, and what a link leads to for the required value ([None]: a link without
    requirements) and the options passed. *)
Record data := Data {
  d_field : N -> option val -> str -> opts -> val;
  d_link : N -> option val -> option opts -> val;
}.
(** Options which differ only in the order of dict entries get the same data. *)
Definition respects_options (D : data) : Prop :=
  (forall f i n o o', same_opts o o' -> d_field D f i n o = d_field D f i n o') /\
  (forall f a o o', same_opts o o' -> d_link D f a (Some o) = d_link D f a (Some o')).

Definition ret_val (r : outcome) : option val :=
  match r with Ret v => Some v | RetGen l => Some (VList l) | Raise _ => None end.
Definition plain_reqs (l : list val) : reqs := RList (map IVal l).

(** [answers D c r]: the result [r] of the call [c] is, in whatever kind of sequence, one row per identifier with one
    value per requested field; one result per required value; or the single result for the root and for links without
    requirements. *)
Definition answers (D : data) (c : call) (r : val) : Prop :=
  match c_args c with
  | AFields qfs (Some ids) =>
      exists rows, seq_of r = Some rows /\
        Forall2 (fun i row => seq_of row = Some (map (fun q => d_field D (c_func c) (Some i) (q_name q) (q_opts q)) qfs))
                ids rows
  | AFields qfs None => seq_of r = Some (map (fun q => d_field D (c_func c) None (q_name q) (q_opts q)) qfs)
  | ALink (Some (RList l)) o =>
      forall vs, l = map IVal vs -> seq_of r = Some (map (fun a => d_link D (c_func c) (Some a) o) vs)
  | ALink (Some (ROne v)) o => forall a, v = IVal a -> r = d_link D (c_func c) (Some a) o
  | ALink None o => r = d_link D (c_func c) None o
  end.
(** The loaders serve the data [D]: every call returns, and answers. *)
Definition serves (E : env) (D : data) : Prop :=
  forall n c, exists r, ret_val (e_oracle E n c) = Some r /\ answers D c r.

Section spec.
  Variable g : graph.
  (** Value of a field of the graph for an object, a field name and options. *)
  Variable fv : gfield -> option val -> str -> opts -> val.
  Variable D : data.

  Definition field_value (gn : gnode) (i : option val) (name : str) (o : opts) : val :=
    match find_field gn name with Some (GF f) => fv f i name o | _ => VNone end.
  (** The value required by a link, and the options passed to its loader *)
  Definition link_arg (gn : gnode) (i : option val) (l : glink) : option val :=
    match gl_requires l with Some r => Some (field_value gn i r None) | None => None end.
  Definition link_opts (l : glink) (q : qitem) : option opts :=
    match gl_opts l with [] => None | _ => Some (q_opts q) end.
  Definition link_value (gn : gnode) (i : option val) (l : glink) (q : qitem) : val :=
    d_link D (gl_func l) (link_arg gn i l) (link_opts l q).

  (** The denormalized result of the member [q] for the object [i] of the node [gn].  A link
      over a field (a field which returns a record or a list of records) gives the selected
      parts of its value, by [denorm_type]. *)
  Fixpoint resolve (gn : gnode) (i : option val) (q : qitem) {struct q} : res (str * vtree) :=
    let t : res vtree :=
      match find_field gn (q_name q) with
      | None => Err KeyError
      | Some (GF f) =>
          let v := fv f i (q_name q) (q_opts q) in
          match q with
          | QF _ _ _ => Ok (TP (PRaw (IVal v)))
          | QL _ _ _ _ _ =>
              match get_type (g_dtypes g) (gf_ty f) with
              | Ok t => denorm_type q t v
              | Err e => Err e
              end
          end
      | Some (GL l) =>
          match q with
          | QF _ _ _ => Err TypeError
          | QL _ sub _ _ _ =>
              match find_node g (gl_node l) with
              | None => Err KeyError
              | Some gn' =>
                  let obj j := match mapR (resolve gn' (Some j)) sub with
                               | Ok ps => Ok (TO (of_pairs ps)) | Err e => Err e end in
                  let v := link_value gn i l q in
                  match gl_enum l with
                  | Maybe => match v with
                             | VNothing => Ok (TP (PRaw (IVal VNone)))
                             | _ => obj v
                             end
                  | One => obj v
                  | Many => match mapR obj (seq_items v) with Ok ys => Ok (TL ys) | Err e => Err e end
                  end
              end
          end
      end in
    match t with Ok y => Ok (result_key q, y) | Err e => Err e end.
  Definition resolve_query (q : qnode) : res vtree :=
    match mapR (resolve (g_root g) None) (qfields q) with
    | Ok ps => Ok (TO (of_pairs ps)) | Err e => Err e end.

  (** The query nodes met on the way, each with the graph node it is asked of. *)
  Inductive visited (q0 : qnode) : gnode -> qnode -> Prop :=
  | vis_root : visited q0 (g_root g) q0
  | vis_link gn n q l gn' :
      visited q0 gn n -> q ∈ qfields n -> q_is_link q = true ->
      find_field gn (q_name q) = Some (GL l) -> find_node g (gl_node l) = Some gn' ->
      visited q0 gn' (q_node q).

  (** All the members asked of a graph node: those of the query, and required fields. *)
  Definition asked (q0 : qnode) (gn : gnode) (q : qitem) : Prop :=
    exists n, visited q0 gn n /\
      (q ∈ qfields n \/
       exists q' l r, q' ∈ qfields n /\ q_is_link q' = true /\ find_field gn (q_name q') = Some (GL l) /\
         gl_requires l = Some r /\ q = QF r None None).

  Definition plain_field (f : gfield) : Prop := exists n, gf_func f = FPlain n.

  (** The queries considered: what validation guarantees (all names exist, fields are asked as
      fields and links as links; requirements are fields with plain loaders); a field asked
      with sub-selections is not a member of an ordered node; result keys of a node are
      distinct; keys of the index do not clash; names hold no bracket. *)
  Record supported `{Hasher} (q0 : qnode) : Prop := {
    sp_items : forall gn n q, visited q0 gn n -> q ∈ qfields n ->
      match find_field gn (q_name q) with
      | Some (GF f) => plain_field f /\ (q_is_link q = true -> qordered n = false)
      | Some (GL l) =>
          q_is_link q = true /\ is_Some (find_node g (gl_node l)) /\
          match gl_requires l with
          | Some r => r <> [] /\ exists f, find_field gn r = Some (GF f) /\ plain_field f
          | None => True
          end
      | None => False
      end;
    sp_keys : forall gn n, visited q0 gn n -> NoDup (map result_key (qfields n));
    sp_bracket : forall gn q, asked q0 gn q -> 91%N ∉ q_name q;
    sp_coll : forall gn, no_collision (asked q0 gn);
    sp_root : find_node g (s "__root__") = None;
  }.

  (** Links lead where their types say. *)
  Definition links_ok (q0 : qnode) : Prop :=
    forall gn n i q l, visited q0 gn n -> q ∈ qfields n -> find_field gn (q_name q) = Some (GL l) ->
      match gl_enum l with
      | Maybe => True
      | One => link_value gn i l q <> VNothing
      | Many => is_Some (seq_of (link_value gn i l q))
      end.
End spec.

(** Fields with plain loaders. *)
Definition plain_value (D : data) (f : gfield) (i : option val) (name : str) (o : opts) : val :=
  match gf_func f with FPlain n => d_field D n i name o | FChecked _ _ _ => VNone end.

(** Bound on the number of loader calls of a query: one for a field, two for a link (its
    required field and the link itself) and those of the linked node. *)
Fixpoint calls_item (q : qitem) : nat :=
  match q with QF _ _ _ => 1 | QL _ sub _ _ _ => 2 + list_sum (map calls_item sub) end.
Definition calls_bound (q : qnode) : nat := list_sum (map calls_item (qfields q)).

(** Executions which are not finished: the executor has reported the finished futures of the
    rounds [sched] and everything went well. *)
Inductive rounds `{Hasher} (E : env) (fuel : nat) : list (list nat) -> st -> st -> Prop :=
| rd_nil x : rounds E fuel [] x x
| rd_snoc sched done x y z :
    rounds E fuel sched x y ->
    done <> [] -> NoDup done -> (forall f, f ∈ done -> f ∈ q_futures y.2) ->
    progress (run_cb E) fuel done y = Ok z ->
    rounds E fuel (sched ++ [done]) x z.

(** No member of the query asks for parts of the value of a field. *)
Fixpoint only_links_nested (g : graph) (gn : gnode) (q : qitem) : Prop :=
  match q with
  | QF _ _ _ => True
  | QL n sub _ _ _ =>
      match find_field gn n with
      | Some (GL l) =>
          match find_node g (gl_node l) with
          | Some gn' => foldr (fun q' P => only_links_nested g gn' q' /\ P) True sub
          | None => True
          end
      | _ => False
      end
  end.

(** ** Batches *)
(** The members of a node which are loaded as fields: those asked for, and the fields required
    by the links asked for; and the links. *)
Definition loaded_fields (gn : gnode) (qs : list qitem) : list qitem :=
  flat_map (fun q => match q, find_field gn (q_name q) with
                     | QL _ _ _ _ _, Some (GL l) =>
                         match gl_requires l with Some r => [QF r None None] | None => [] end
                     | _, _ => [q]
                     end) qs.
Definition asked_links (gn : gnode) (qs : list qitem) : list (glink * qitem) :=
  omap (fun q => match q, find_field gn (q_name q) with
                 | QL _ _ _ _ _, Some (GL l) => Some (l, q)
                 | _, _ => None
                 end) qs.
(** The loader of a field *)
Definition loader_of (gn : gnode) (q : qitem) : option N :=
  match find_field gn (q_name q) with
  | Some (GF f) => match gf_func f with FPlain n => Some n | FChecked _ _ _ => None end
  | _ => None
  end.
(** The elements of a list without repetitions, in order of first occurrence *)
Definition firsts {A} `{EqDecision A} (l : list A) : list A :=
  fold_left (fun acc x => if decide (x ∈ acc) then acc else acc ++ [x]) l [].

(** ** Ordered nodes *)
(** The members asked in one step of an ordered node; all the members in the order in which
    they have to be loaded: a required field comes right before its link. *)
Definition step_items (sp : step) : list qitem :=
  match sp with StFields _ l => map snd l | StLink _ q => [q] end.
Definition in_turn (gn : gnode) (qs : list qitem) : list qitem :=
  flat_map (fun q => match q, find_field gn (q_name q) with
                     | QL _ _ _ _ _, Some (GL l) =>
                         match gl_requires l with Some r => [QF r None None; q] | None => [q] end
                     | _, _ => [q]
                     end) qs.

(** ** Storing results *)
(** The shape of a result: one row for every object and one value for every field; one row for
    the root. *)
Definition table (ids : option (list val)) (nf : nat) (r : val) (rows : list (list val)) : Prop :=
  match ids with
  | Some is_ => exists rs, seq_of r = Some rs /\ Forall2 (fun v row => seq_of v = Some row) rs rows /\
                  length rows = length is_ /\ Forall (fun row => length row = nf) rows
  | None => exists row, seq_of r = Some row /\ rows = [row] /\ length row = nf
  end.
(** The objects which are asked for, as places of the index *)
Definition places (gn : gnode) (ids : option (list val)) : list (str * val) :=
  match gn_name gn, ids with Some n, Some is_ => map (fun i => (n, i)) is_ | _, _ => [ROOT] end.
Definition cells `{Hasher} (pl : list (str * val)) (qfs : list qitem) (rows : list (list val)) : list (str * val * str * ival) :=
  concat (zip_with (fun p row => zip_with (fun q v => (p.1, p.2, index_key q, IVal v)) qfs row) pl rows).
(** What a link stores for a result: a reference, references, [None] *)
Definition ref_value (l : glink) (v : val) : option ival :=
  match gl_enum l, v with
  | Maybe, VNothing => Some (IVal VNone)
  | One, VNothing => None
  | Maybe, _ | One, _ => Some (IRef (gl_node l) v)
  | Many, _ => match seq_of v with Some js => Some (IRefs (map (fun j => (gl_node l, j)) js)) | None => None end
  end.
(** The results of a link for the objects [ids]: a list if the link requires values. *)
Definition link_results (gn : gnode) (l : glink) (ids : option (list val)) (r : val) (rs : list val) : Prop :=
  match gn_name gn, ids, gl_requires l with
  | Some _, Some is_, Some _ => seq_of r = Some rs /\ length rs = length is_
  | Some _, Some is_, None => rs = repeat r (length is_)
  | _, _, _ => rs = [r]
  end.
Definition refs_in (v : ival) : list val :=
  match v with IRef _ i => [i] | IRefs l => map snd l | IVal _ => [] end.

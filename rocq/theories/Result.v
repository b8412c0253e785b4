(** hiku/result.py and hiku/denormalize: the result index, [Proxy], denormalization. *)
From Verif Require Export Base Val Query Types Graph.

(** Value of a slot: any value stored by a field, a [Reference] (result.py:29-37) or a list
    of references.  [None] stored by an absent optional link is [IVal VNone]. *)
Inductive ival :=
| IVal (v : val)
| IRef (n : str) (i : val)
| IRefs (l : list (str * val)).

(** result.py:43-55 [Index].  The nested dicts [index[node][ident][key]] are kept flat.
    Simplification: an object which exists without any key is not distinguished from a
    missing one (both reads raise AssertionError), and identifiers which Python considers
    equal are taken to be the same [val]. *)
Definition slot : Type := str * val * str.
Definition index := dict slot ival.

(** result.py:40 [ROOT] *)
Definition ROOT : str * val := (s "__root__", VStr (s "__root__")).

(** What reading a key of a [Proxy] gives: the stored value as it is, a [Proxy], or a list
    of them. *)
Inductive pres :=
| PRaw (v : ival)
| PProxy (ref : str * val) (q : qnode)
| PList (refs : list (str * val)) (q : qnode).

Section result.
  Context `{Hasher}.

  (** result.py:66-96 [Proxy.__getitem__] of the proxy of [ref] with query node [q] *)
  Definition proxy_get (idx : index) (ref : str * val) (q : qnode) (key : str) : res pres :=
    match dget key (q_result_map q) with
    | None => Err KeyError
    | Some f =>
        match dget (ref.1, ref.2, index_key f) idx with
        | None => Err AssertionError
        | Some v =>
            match f with
            | QF _ _ _ => Ok (PRaw v)
            | QL _ sub ord _ _ =>
                match v with
                | IRef n i => Ok (PProxy (n, i) (QN sub ord))
                | IRefs (r :: rs) => Ok (PList (r :: rs) (QN sub ord))
                | _ => Ok (PRaw v)
                end
            end
        end
    end.

  (** result.py:98-102 [Proxy.__getattr__] *)
  Definition proxy_getattr (idx : index) (ref : str * val) (q : qnode) (key : str) : res pres :=
    match proxy_get idx ref q key with
    | Err KeyError => Err AttributeError
    | r => r
    end.

  (** Denormalized data.  [TP p] is what the proxy returned, unchanged. *)
  Inductive vtree :=
  | TP (p : pres)
  | TO (d : list (str * vtree))
  | TL (l : list vtree).

  (** [for x in v] *)
  Definition iter_of (v : val) : option (list val) :=
    match v with
    | VList l | VTuple l | VVec l | VParen l | VSet l => Some l
    | VStr x | VKw x | VSym x => Some (map (fun c => VStr [c]) x)
    | VDict d | VMap d => Some (map fst d)
    | _ => None
    end.
  (** [isinstance(v, collections.abc.Sequence)] and its items *)
  Definition seq_of (v : val) : option (list val) :=
    match v with
    | VList l | VTuple l | VVec l | VParen l => Some l
    | VStr x | VKw x | VSym x => Some (map (fun c => VStr [c]) x)
    | _ => None
    end.
  (** [v[name]] with a text as key *)
  Definition py_getitem (v : val) (name : str) : res val :=
    match v with
    | VDict d | VMap d => from_opt KeyError (dget (VStr name) d)
    | _ => Err TypeError
    end.

  (** result.py:105-123 [_denormalize_type] *)
  Fixpoint denorm_type (q : qitem) (t : ty) (v : val) {struct q} : res vtree :=
    match q with
    | QF _ _ _ => Ok (TP (PRaw (IVal v)))
    | QL _ sub _ _ _ =>
        (fix go (t : ty) (v : val) {struct t} : res vtree :=
           match t with
           | TSeq t' =>
               match iter_of v with
               | None => Err TypeError
               | Some l => match mapR (go t') l with Ok ys => Ok (TL ys) | Err e => Err e end
               end
           | TOpt t' => match v with VNone => Ok (TP (PRaw (IVal VNone))) | _ => go t' v end
           | TRec fs =>
               match mapR (fun f =>
                       match dget (q_name f) fs with
                       | None => Err KeyError
                       | Some ft =>
                           match py_getitem v (q_name f) with
                           | Err e => Err e
                           | Ok fv => match denorm_type f ft fv with
                                      | Ok y => Ok (q_name f, y) | Err e => Err e end
                           end
                       end) sub with
               | Ok ps => Ok (TO (of_pairs ps))
               | Err e => Err e
               end
           | _ => Err AssertionError
           end) t v
    end.

  Definition gf_ty (f : gfield) : ty := match gf_type f with Some t => t | None => TAny end.

  (** result.py:126-153 [_denormalize] for one member [q] of the node [gn]; [ref], [pn] are
      those of the proxy.  A field without a type has type None in Python, which fails
      [_denormalize_type]'s assertion just like [Any].
      Simplification: for slots which no link of the graph can have stored (a plain value
      where a reference is due) the error is TypeError. *)
  Fixpoint denorm (g : graph) (idx : index) (gn : gnode) (ref : str * val) (pn : qnode) (q : qitem)
    {struct q} : res (str * vtree) :=
    match find_field gn (q_name q) with
    | None => Err KeyError
    | Some go =>
        match proxy_get idx ref pn (result_key q) with
        | Err e => Err e
        | Ok r =>
            let t : res vtree :=
              match q with
              | QF _ _ _ => Ok (TP r)
              | QL _ sub _ _ _ =>
                  match go with
                  | GF f =>
                      match get_type (g_dtypes g) (gf_ty f) with
                      | Err e => Err e
                      | Ok t => match r with
                                | PRaw (IVal v) => denorm_type q t v
                                | _ => Err TypeError
                                end
                      end
                  | GL l =>
                      match find_node g (gl_node l) with
                      | None => Err KeyError
                      | Some gn' =>
                          let obj ref' pn' :=
                            match mapR (denorm g idx gn' ref' pn') sub with
                            | Ok ps => Ok (TO (of_pairs ps)) | Err e => Err e end in
                          match gl_enum l with
                          | Many =>
                              match r with
                              | PList refs pn' =>
                                  match mapR (fun ref' => obj ref' pn') refs with
                                  | Ok ys => Ok (TL ys) | Err e => Err e end
                              | PRaw (IRefs []) => Ok (TL [])
                              | PProxy _ _ => Err KeyError
                              | _ => Err TypeError
                              end
                          | Maybe =>
                              match r with
                              | PRaw (IVal VNone) => Ok (TP r)
                              | PProxy ref' pn' => obj ref' pn'
                              | _ => Err TypeError
                              end
                          | One =>
                              match r with
                              | PProxy ref' pn' => obj ref' pn'
                              | _ => Err TypeError
                              end
                          end
                      end
                  end
              end in
            match t with Ok y => Ok (result_key q, y) | Err e => Err e end
        end
    end.
  Definition denorm_node g idx gn ref pn (qs : list qitem) : res vtree :=
    match mapR (denorm g idx gn ref pn) qs with
    | Ok ps => Ok (TO (of_pairs ps)) | Err e => Err e end.

  (** result.py:156-177 [denormalize]; the result is the proxy of [ROOT] with query [q] *)
  Definition denormalize (g : graph) (idx : index) (q : qnode) : res vtree :=
    denorm_node g idx (g_root g) ROOT q (qfields q).

  (** denormalize/base.py: data being visited, a proxy or a plain value *)
  Inductive dat := DP (ref : str * val) (pn : qnode) | DV (v : val).
  (** [self._data[-1][key]] *)
  Definition dat_get (idx : index) (d : dat) (key : str) : res pres :=
    match d with
    | DP ref pn => proxy_get idx ref pn key
    | DV v => match py_getitem v key with Ok x => Ok (PRaw (IVal x)) | Err e => Err e end
    end.
  Definition dat_of (p : pres) : res dat :=
    match p with
    | PProxy ref pn => Ok (DP ref pn)
    | PRaw (IVal v) => Ok (DV v)
    | _ => Err TypeError
    end.
  (** [for item in p] *)
  Definition dat_iter (p : pres) : res (list dat) :=
    match p with
    | PList refs pn => Ok (map (fun r => DP r pn) refs)
    | PRaw (IRefs []) => Ok []
    | PRaw (IVal v) => match iter_of v with Some l => Ok (map DV l) | None => Err TypeError end
    | PProxy _ _ => Err KeyError
    | PRaw _ => Err TypeError
    end.
  Definition rec_fields (t : ty) : res (list (str * ty)) :=
    match t with TRec fs => Ok fs | _ => Err AttributeError end.

  (** [tyname], Some for the GraphQL denormalizer: the names of the enclosing types,
      denormalize/graphql.py:9-17.  [typename_hook] is [visit_field] of either class. *)
  Definition visit_field_ (idx : index) (tn : option str) (d : dat) (q : qitem) : res vtree :=
    match tn with
    | Some t => if decide (q_name q = s "__typename") then Ok (TP (PRaw (IVal (VStr t))))
                else match dat_get idx d (result_key q) with Ok p => Ok (TP p) | Err e => Err e end
    | None => match dat_get idx d (result_key q) with Ok p => Ok (TP p) | Err e => Err e end
    end.

  (** denormalize/graphql.py:19-35: the type name pushed for a link; AssertionError when the
      type has no name *)
  Definition link_type_name (t : ty) : res str :=
    match t with
    | TRef n | TSeq (TRef n) | TOpt (TRef n) => Ok n
    | _ => Err AssertionError
    end.
  Definition next_name (tn : option str) (t : ty) : res (option str) :=
    match tn with
    | None => Ok None
    | Some _ => match link_type_name t with Ok n => Ok (Some n) | Err e => Err e end
    end.

  (** denormalize/base.py:22-58 and denormalize/graphql.py:15-35, [visit_field] and
      [visit_link]; the stacks [_type], [_data], [_res], [_type_name] are the arguments. *)
  Fixpoint visit_item (types : dict str ty) (idx : index) (tn : option str) (t : ty) (d : dat) (q : qitem)
    {struct q} : res (str * vtree) :=
    match q with
    | QF _ _ _ => match visit_field_ idx tn d q with Ok y => Ok (result_key q, y) | Err e => Err e end
    | QL _ sub _ _ _ =>
        match rec_fields t with
        | Err e => Err e
        | Ok fs =>
            match dget (q_name q) fs with
            | None => Err KeyError
            | Some lt =>
                match next_name tn lt with
                | Err e => Err e
                | Ok tn' =>
                    let obj t' d' :=
                      match mapR (visit_item types idx tn' t' d') sub with
                      | Ok ps => Ok (TO (of_pairs ps)) | Err e => Err e end in
                    let one t' :=
                      match dat_get idx d (result_key q) with
                      | Err e => Err e
                      | Ok p => match dat_of p with Err e => Err e | Ok d' => obj t' d' end
                      end in
                    let r : res vtree :=
                      match lt with
                      | TRef _ =>
                          match get_type types lt with Err e => Err e | Ok t' => one t' end
                      | TSeq it =>
                          match get_type types it with
                          | Err e => Err e
                          | Ok t' =>
                              match dat_get idx d (result_key q) with
                              | Err e => Err e
                              | Ok p =>
                                  match dat_iter p with
                                  | Err e => Err e
                                  | Ok ds => match mapR (obj t') ds with
                                             | Ok ys => Ok (TL ys) | Err e => Err e end
                                  end
                              end
                          end
                      | TOpt it =>
                          match dat_get idx d (result_key q) with
                          | Err e => Err e
                          | Ok (PRaw (IVal VNone)) => Ok (TP (PRaw (IVal VNone)))
                          | Ok _ => match get_type types it with Err e => Err e | Ok t' => one t' end
                          end
                      | _ => Err AssertionError
                      end in
                    match r with Ok y => Ok (result_key q, y) | Err e => Err e end
                end
            end
        end
    end.

  (** denormalize/base.py:9-20 [Denormalize(graph, result).process(query)] and
      denormalize/graphql.py:11-13 [DenormalizeGraphQL(graph, result, name).process(query)];
      the result is the proxy of [ROOT] with query [pn]. *)
  Definition process_with (tn : option str) (g : graph) (idx : index) (pn : qnode) (q : qnode) : res vtree :=
    match dget (s "__root__") (g_types g) with
    | None => Err KeyError
    | Some t =>
        match mapR (visit_item (g_types g) idx tn t (DP ROOT pn)) (qfields q) with
        | Ok ps => Ok (TO (of_pairs ps)) | Err e => Err e end
    end.
End result.

(** endpoint/graphql.py:27-31 [_StripQuery], with query.py's [QueryTransformer] *)
Definition TYPENAME : str := s "__typename".
Fixpoint strip_item (q : qitem) : qitem :=
  match q with
  | QF _ _ _ => q
  | QL n sub ord o a =>
      QL n (flat_map (fun q' => if decide (q_name q' = TYPENAME) then [] else [strip_item q']) sub) ord o a
  end.
Definition strip_items (qs : list qitem) : list qitem :=
  flat_map (fun q => if decide (q_name q = TYPENAME) then [] else [strip_item q]) qs.
Definition strip_query (q : qnode) : qnode := QN (strip_items (qfields q)) (qordered q).

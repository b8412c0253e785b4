(** hiku/query.py: query nodes, fields, links, [merge], visitors. *)
From Verif Require Export Base Val.

(** Options of a request: [None] or a dict of names to values. *)
Definition opts := option (list (str * val)).

(** [Field] (query.py:111-126) and [Link] (query.py:129-147).  The node of a link
    (query.py:150-173) is inlined as its list of members and its [ordered] flag. *)
Inductive qitem : Type :=
| QF (name : str) (o : opts) (alias : option str)
| QL (name : str) (sub : list qitem) (ord : bool) (o : opts) (alias : option str).

(** [Node] (query.py:150-162). *)
Record qnode := QN { qfields : list qitem; qordered : bool }.

Section qitem_ind.
  Variable P : qitem -> Prop.
  Hypothesis HF : forall n o a, P (QF n o a).
  Hypothesis HL : forall n sub ord o a, Forall P sub -> P (QL n sub ord o a).
  Fixpoint qitem_ind' (q : qitem) : P q :=
    match q with
    | QF n o a => HF n o a
    | QL n sub ord o a =>
        HL n sub ord o a
          ((fix f (l : list qitem) : Forall P l :=
              match l with
              | [] => List.Forall_nil _
              | x :: l' => List.Forall_cons _ _ _ (qitem_ind' x) (f l')
              end) sub)
    end.
End qitem_ind.

Definition q_name (q : qitem) : str := match q with QF n _ _ => n | QL n _ _ _ _ => n end.
Definition q_opts (q : qitem) : opts := match q with QF _ o _ => o | QL _ _ _ o _ => o end.
Definition q_alias (q : qitem) : option str := match q with QF _ _ a => a | QL _ _ _ _ a => a end.
Definition q_is_link (q : qitem) : bool := match q with QF _ _ _ => false | QL _ _ _ _ _ => true end.
(** [link.node] *)
Definition q_node (q : qitem) : qnode :=
  match q with QF _ _ _ => QN [] false | QL _ sub ord _ _ => QN sub ord end.

(** query.py:90-94 [result_key] *)
Definition result_key (q : qitem) : str :=
  match q_alias q with Some a => a | None => q_name q end.

(** [options.get(name)] on options which may be None (engine.py:16: [options or {}]) *)
Definition opt_dict (o : opts) : list (str * val) := match o with Some d => d | None => [] end.
Definition opts_val (d : list (str * val)) : val := VDict (map (fun p => (VStr p.1, p.2)) d).

Section query.
  Context `{Hasher}.

  (** query.py:97-101 [options_hash]: None for absent or empty options *)
  Definition options_hash (o : opts) : option Z :=
    match o with
    | None | Some [] => None
    | Some d => Some (compute_hash (opts_val d))
    end.

  (** query.py:104-108 [index_key] *)
  Definition index_key_of (name : str) (o : opts) : str :=
    match options_hash o with
    | Some h => name ++ s "[" ++ Z_str h ++ s "]"
    | None => name
    end.
  Definition index_key (q : qitem) : str := index_key_of (q_name q) (q_opts q).

  (** The key used by [_merge], query.py:181 *)
  Definition mkey : Type := str * option Z * option str.
  Definition merge_key (q : qitem) : mkey := (q_name q, options_hash (q_opts q), q_alias q).

  (** State of the loop of [_merge] (query.py:177-191): the keys of the fields seen, the
      fields yielded so far, and [links]/[to_merge], kept in one dict as they always have
      the same keys. *)
  Record mstate := MS {
    ms_seen : list mkey;
    ms_out : list qitem;
    ms_links : dict mkey (qitem * list qnode);
  }.
  Definition merge_step (st : mstate) (f : qitem) : mstate :=
    let key := merge_key f in
    if q_is_link f then
      MS (ms_seen st) (ms_out st)
         (match dget key (ms_links st) with
          | None => dset key (f, [q_node f]) (ms_links st)
          | Some (l, ns) => dset key (l, ns ++ [q_node f]) (ms_links st)
          end)
    else if decide (key ∈ ms_seen st) then st
    else MS (key :: ms_seen st) (ms_out st ++ [f]) (ms_links st).

  (** [link.copy(node=node)], query.py:80-84 *)
  Definition copy_node (l : qitem) (n : qnode) : qitem :=
    match l with
    | QF _ _ _ => l
    | QL nm _ _ o a => QL nm (qfields n) (qordered n) o a
    end.

  (** query.py:176-205 [_merge], [merge]; the recursion goes down one level of nesting
      per unit of fuel. *)
  Fixpoint merge_f (fuel : nat) (nodes : list qnode) : qnode :=
    match fuel with
    | O => QN [] false
    | S k =>
        let st := fold_left merge_step (concat (map qfields nodes)) (MS [] [] []) in
        QN (ms_out st ++ map (fun e => copy_node e.2.1 (merge_f k e.2.2)) (ms_links st))
           (existsb qordered nodes)
    end.
  Fixpoint qdepth (q : qitem) : nat :=
    match q with
    | QF _ _ _ => 0
    | QL _ sub _ _ _ => S (max_list (map qdepth sub))
    end.
  Definition ndepth (n : qnode) : nat := max_list (map qdepth (qfields n)).
  Definition merge (nodes : list qnode) : qnode := merge_f (S (max_list (map ndepth nodes))) nodes.
End query.
Global Arguments merge {_} nodes : simpl never.

(** query.py:166,170 [fields_map], [result_map] *)
Definition q_result_map (n : qnode) : dict str qitem :=
  of_pairs (map (fun f => (result_key f, f)) (qfields n)).
Definition q_fields_map (n : qnode) : dict str qitem :=
  of_pairs (map (fun f => (q_name f, f)) (qfields n)).

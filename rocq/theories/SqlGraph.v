(** hiku/sources/sqlalchemy.py, used by hiku/graph.py: the constructors of [FieldsQuery] and
    [LinkQuery], and what becomes of fields and links served by them when a graph is made
    ([__postprocess__], called by [GraphInit]).
    Functions are numbers; [kinds] tells which of them are objects of these classes; the function
    [pass_context(partial(f, mapper))] has the number [mapped f t].  Simplification: fields over
    expressions are left as they are here (Transform.v has their [__postprocess__]). *)
From Verif Require Import Base Val Types Query Graph Validate Sql Transform.

(** Types of columns, as far as [_translate_type] tells them apart *)
Inductive column_type := ColInteger | ColUnicode | ColOther.
(** A table (or other [from_clause]): its columns, and the columns of its primary key *)
Record table := Table { tb_cols : list (str * column_type); tb_pk : list str }.
(** A column of the table number [c_table] *)
Record column := Column { c_table : nat; c_name : str }.

(** sqlalchemy.py:11-17 [_translate_type] *)
Definition translate_type (c : column_type) : option ty :=
  match c with ColInteger => Some TInt | ColUnicode => Some TStr | ColOther => None end.

(** sqlalchemy.py:30-37 [FieldsQuery.__init__] *)
Definition make_fields_query (t : table) (primary_key : option str) : res fields_query :=
  match primary_key with
  | Some k => Ok (FieldsQuery (map fst (tb_cols t)) k)
  | None => match tb_pk t with [k] => Ok (FieldsQuery (map fst (tb_cols t)) k) | _ => Err ValueError end
  end.
(** sqlalchemy.py:104-111 [LinkQuery.__init__] *)
Definition make_link_query (from_column to_column : column) : res link_query :=
  if Nat.eqb (c_table from_column) (c_table to_column)
  then Ok (LinkQuery (c_name from_column) (c_name to_column)) else Err ValueError.

(** What a function of a definition is: an object of [FieldsQuery] over a table, of [LinkQuery], or another *)
Inductive sql_kind := KFields (t : table) | KLinks | KOther.

Section make.
  Context (kinds : N -> sql_kind) (mapped : N -> tenum -> N).
  (** sqlalchemy.py:48-51 [FieldsQuery.__postprocess__]; 119-126 [LinkQuery.__postprocess__] has no
      [type_enum] to read of a field; graph.py:501-506 [GraphInit.visit_field] *)
  Definition post_field (f : gfield) : res gfield :=
    match gf_func f with
    | FPlain n =>
        match kinds n with
        | KFields t =>
            match gf_type f with
            | Some _ => Ok f
            | None => match dget (gf_name f) (tb_cols t) with
                      | Some c => Ok (GField (gf_name f) (translate_type c) (gf_func f) (gf_opts f))
                      | None => Err KeyError
                      end
            end
        | KLinks => Err AttributeError
        | KOther => Ok f
        end
    | FChecked _ _ _ => Ok f
    end.
  (** sqlalchemy.py:119-128 [LinkQuery.__postprocess__]; 48-51 leaves a link alone, as it has a type;
      graph.py:508-513 [GraphInit.visit_link] *)
  Definition post_link (l : glink) : glink :=
    match kinds (gl_func l) with
    | KLinks => GLink (gl_name l) (gl_enum l) (gl_node l) (mapped (gl_func l) (gl_enum l)) (gl_requires l) (gl_opts l)
    | _ => l
    end.
  Definition post_item (x : gitem) : res gitem :=
    match x with
    | GF f => match post_field (visit_field f) with Ok f' => Ok (GF f') | Err e => Err e end
    | GL l => match visit_link l with Ok l' => Ok (GL (post_link l')) | Err e => Err e end
    end.
  (** graph.py:459-464 [visit_node], [visit_root] *)
  Definition post_node (n : gnode) : res gnode :=
    match mapR post_item (gn_fields n) with Ok fs => Ok (GNode (gn_name n) fs) | Err e => Err e end.
  (** graph.py:348-358 [Graph.__init__] *)
  Definition make_sql_graph (items : list gnode) (dt : dict str ty) : res graph :=
    match gvalidate items with
    | [] => match mapR post_node items with Ok is_ => Ok (Graph is_ dt) | Err e => Err e end
    | _ => Err TypeError
    end.
End make.

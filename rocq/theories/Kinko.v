(** hiku/typedef/kinko.py, hiku/typedef/types.py: the types of a graph as text. *)
From Verif Require Import Base Val Types Query Graph.

(** Descriptions, which are not part of [Graph.v], are given beside the nodes and members.  A [Root] has none
    (graph.py:317-321). *)
Definition doc : Type := option str.
Record knode := KNd { kn_name : option str; kn_doc : doc; kn_members : list (gitem * doc) }.
Record kgraph := KGraph { kg_items : list knode; kg_dtypes : list (str * ty) }.

(** The record of a node: its members with their types, which may be documented (kinko.py:19-26 [TypeDoc]). *)
Definition krec : Type := list (str * (ty * doc)).
(** What a definition is about: a record, or another type *)
Inductive kbody := KRec (fs : krec) | KTy (t : ty).
Definition body_of (t : ty) : kbody := match t with TRec fs => KRec (map (fun '(n, u) => (n, (u, None))) fs) | _ => KTy t end.
(** typedef/types.py:4-13 [TypeDef]: the name, the type, and the description if the type is a [TypeDoc] *)
Record tdef := TDef { td_name : str; td_body : kbody; td_doc : doc }.

(** kinko.py:49, 54 [t is not Any]: a [TypeDoc] is not [Any] *)
Definition shown (td : ty * doc) : bool := match td with (TAny, None) => false | _ => true end.
(** kinko.py:46-49, 51-54 [visit_node], [visit_root]: [Record] is an OrderedDict *)
Definition visit_members (l : list (gitem * doc)) : krec :=
  List.filter (fun p => shown p.2) (of_pairs (map (fun '(x, d) => (gi_name x, (gi_type x, d))) l)).
(** graph.py:518-529 [_visit_graph] *)
Definition types_map (g : kgraph) : dict str (kbody * doc) :=
  fold_left (fun d n => match kn_name n with
                        | Some x => dset x (KRec (visit_members (kn_members n)), kn_doc n) d
                        | None => d
                        end) (kg_items g) (of_pairs (map (fun '(n, t) => (n, (body_of t, None))) (kg_dtypes g))).
Definition root_members (g : kgraph) : krec :=
  of_pairs (concat (map (fun n => match kn_name n with None => visit_members (kn_members n) | Some _ => [] end) (kg_items g))).
(** kinko.py:37-44 [GraphTypesEx.visit_graph] *)
Definition is_any (b : kbody) : bool := match b with KTy TAny => true | _ => false end.
Definition type_defs (g : kgraph) : list tdef :=
  map (fun '(n, (b, d)) => TDef n b d)
    (List.filter (fun p => negb (is_any p.2.1 && bool_decide (p.2.2 = None)) && negb (bool_decide (p.1 = s "__root__"))) (types_map g)) ++
  map (fun '(n, (t, d)) => TDef n (body_of t) d) (List.filter (fun p => shown p.2) (root_members g)).

(** ** Printing *)
(** The printer: lines, the last one first, and the descriptions of lines by their numbers
    (kinko.py:84-87 [_buffer], [_descriptions]) *)
Definition printer : Type := list str * list (nat * str).
Definition spaces (n : nat) : str := replicate n 32%N.
(** kinko.py:98-99 [_print_call], at the given indent *)
Definition print_call (i : nat) (line : str) (p : printer) : printer := ((spaces (2 * i) ++ line) :: p.1, p.2).
(** kinko.py:95-96 [_newline] *)
Definition newline (p : printer) : printer := ([] :: p.1, p.2).
(** kinko.py:57-78 [_LinePrinter]; there is no [visit_callable] *)
Definition line_of (t : ty) : res str :=
  match t with
  | TBool => Ok (s "Boolean")
  | TStr => Ok (s "String")
  | TInt => Ok (s "Integer")
  | TFloat | TAny => Ok (s "Unknown")
  | TRef n => Ok n
  | _ => Err AttributeError
  end.
(** kinko.py:110: [self._buffer[-1] += ...] *)
Definition print_more (w : str) (p : printer) : res printer :=
  match p.1 with [] => Err IndexError | l :: ls => Ok ((l ++ s " " ++ w) :: ls, p.2) end.
(** kinko.py:101-110 [_print_arg] for types without description, with kinko.py:135-153 [visit_record],
    [visit_sequence], [visit_mapping], [visit_optional] for types inside of it *)
Fixpoint print_arg (i : nat) (t : ty) (p : printer) : res printer :=
  match t with
  | TRec fs =>
      (fix go (l : list (str * ty)) (p : printer) : res printer :=
         match l with
         | [] => Ok p
         | (n, u) :: l' => match print_arg (S (S i)) u (print_call (S (S i)) (s ":" ++ n) p) with Ok p' => go l' p' | Err e => Err e end
         end) fs (print_call (S i) (s "Record") p)
  | TSeq u => print_arg (S i) u (print_call (S i) (s "List") p)
  | TOpt u => print_arg (S i) u (print_call (S i) (s "Option") p)
  | TMap k v => match print_arg (S i) k (print_call (S i) (s "Dict") p) with Ok p' => print_arg (S i) v p' | Err e => Err e end
  | _ => match line_of t with Ok w => print_more w p | Err e => Err e end
  end.
(** kinko.py:102-105: the description of the line printed last *)
Definition describe (d : doc) (p : printer) : printer :=
  match d with Some x => (p.1, dset (length p.1 - 1) x p.2) | None => p end.
(** kinko.py:135-140 [visit_record] for the members of a definition *)
Fixpoint print_members (i : nat) (l : krec) (p : printer) : res printer :=
  match l with
  | [] => Ok p
  | (n, (t, d)) :: l' =>
      match print_arg i t (describe d (print_call i (s ":" ++ n) p)) with Ok p' => print_members i l' p' | Err e => Err e end
  end.
(** kinko.py:131-133 [visit_typedef] *)
Definition print_def (t : tdef) (p : printer) : res printer :=
  let p1 := describe (td_doc t) (print_call 0 (s "type " ++ td_name t) p) in
  match td_body t with
  | KRec fs => print_members 2 fs (print_call 1 (s "Record") p1)
  | KTy u => print_arg 0 u p1
  end.
(** kinko.py:119-125: the loop of [dumps] *)
Fixpoint print_defs (first : bool) (l : list tdef) (p : printer) : res printer :=
  match l with
  | [] => Ok p
  | t :: l' => match print_def t (if first then p else newline p) with Ok p' => print_defs false l' p' | Err e => Err e end
  end.
(** kinko.py:112-117 [_iter_lines] *)
Definition out_line (ds : list (nat * str)) (i : nat) (l : str) : str :=
  match dget i ds with Some d => l ++ s "  ; " ++ d | None => l end.
Definition out_lines (p : printer) : list str := imap (out_line p.2) (rev p.1).
(** kinko.py:126 *)
Fixpoint join_lines (l : list str) : str :=
  match l with [] => [] | [x] => x | x :: l' => x ++ 10%N :: join_lines l' end.
Definition dumps_defs (l : list tdef) : res str :=
  match print_defs true l ([], []) with Ok p => Ok (join_lines (out_lines p) ++ [10%N]) | Err e => Err e end.
(** kinko.py:156-158 [dumps] *)
Definition dumps (g : kgraph) : res str := dumps_defs (type_defs g).

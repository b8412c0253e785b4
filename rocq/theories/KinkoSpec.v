(** Specification vocabulary for C54: names which can be told from the text, what the text does not tell, which
    definitions a graph has. *)
From Verif Require Import Base Val Types Query Graph Kinko.

(** One word on one line *)
Definition word (w : str) : Prop := w <> [] /\ 32%N ∉ w /\ 10%N ∉ w.
Definition one_line (d : doc) : Prop := match d with Some x => 10%N ∉ x | None => True end.
Definition built_in : list str := [s "Boolean"; s "String"; s "Integer"; s "Unknown"].
(** Types made of names which are words, other than those of the built-in types; no functions *)
Fixpoint named (t : ty) : Prop :=
  match t with
  | TRef n => word n /\ n ∉ built_in
  | TOpt u | TSeq u => named u
  | TMap k v => named k /\ named v
  | TRec fs => foldr (fun p P => (32%N ∉ p.1 /\ 10%N ∉ p.1 /\ named p.2) /\ P) True fs
  | TCall _ => False
  | _ => True
  end.
Definition named_def (t : tdef) : Prop :=
  word (td_name t) /\ one_line (td_doc t) /\
  match td_body t with
  | KTy u => named u
  | KRec fs => forall n u d, (n, (u, d)) ∈ fs -> 32%N ∉ n /\ 10%N ∉ n /\ named u /\ one_line d
  end.
(** What is seen of a type: [Float] and [Any] are both printed as Unknown *)
Fixpoint seen (t : ty) : ty :=
  match t with
  | TFloat => TAny
  | TOpt u => TOpt (seen u)
  | TSeq u => TSeq (seen u)
  | TMap k v => TMap (seen k) (seen v)
  | TRec fs => TRec (map (fun p => (p.1, seen p.2)) fs)
  | _ => t
  end.
Definition seen_body (b : kbody) : kbody :=
  match b with KTy u => KTy (seen u) | KRec fs => KRec (map (fun p => (p.1, (seen p.2.1, p.2.2))) fs) end.
Definition seen_def (t : tdef) : tdef := TDef (td_name t) (seen_body (td_body t)) (td_doc t).
(** No functions *)
Fixpoint no_function (t : ty) : bool :=
  match t with
  | TOpt u | TSeq u => no_function u
  | TMap k v => no_function k && no_function v
  | TRec fs => forallb (fun p => no_function p.2) fs
  | TCall _ => false
  | _ => true
  end.
Definition body_plain (b : kbody) : bool := match b with KTy u => no_function u | KRec fs => forallb (fun m => no_function m.2.1) fs end.
(** The definitions of a graph: its data types, its nodes with their typed or described members, and the typed or
    described members of its roots *)
Inductive declared (g : kgraph) : tdef -> Prop :=
| dc_data n t : (n, t) ∈ kg_dtypes g -> t <> TAny -> declared g (TDef n (body_of t) None)
| dc_node nd n : nd ∈ kg_items g -> kn_name nd = Some n ->
    declared g (TDef n (KRec (List.filter (fun p => negb (bool_decide (p.2 = (TAny, None)))) (map (fun p => (gi_name p.1, (gi_type p.1, p.2))) (kn_members nd)))) (kn_doc nd))
| dc_root nd x d : nd ∈ kg_items g -> kn_name nd = None -> (x, d) ∈ kn_members nd -> (gi_type x, d) <> (TAny, None) ->
    declared g (TDef (gi_name x) (body_of (gi_type x)) d).
(** Names are used once *)
Record distinct_names (g : kgraph) : Prop := {
  dn_types : NoDup (map fst (kg_dtypes g) ++ omap kn_name (kg_items g));
  dn_members : forall nd, nd ∈ kg_items g -> NoDup (map (fun p => gi_name p.1) (kn_members nd));
  dn_roots : NoDup (concat (map (fun nd => match kn_name nd with None => map (fun p => gi_name p.1) (kn_members nd) | Some _ => [] end) (kg_items g)));
  dn_root : s "__root__" ∉ map fst (kg_dtypes g) ++ omap kn_name (kg_items g);
}.

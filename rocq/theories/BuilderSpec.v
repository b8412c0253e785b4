(** What an expression over [Q] means (specification for C49). *)
From Verif Require Import Base Val Query Builder.

(** A member of a query under construction: name, options, alias, members *)
Record draft := Draft { dr_name : str; dr_opts : opts; dr_alias : option str; dr_items : option (list qitem) }.
Definition drafted (d : draft) : qitem :=
  match dr_items d with
  | None => QF (dr_name d) (dr_opts d) (dr_alias d)
  | Some l => QL (dr_name d) l false (dr_opts d) (dr_alias d)
  end.
(** The left side of [<<] has to be a bare name *)
Definition bare (d : draft) : bool :=
  match dr_opts d with None | Some [] => true | _ => false end &&
  match dr_alias d with None | Some [] => true | _ => false end &&
  match dr_items d with None | Some [] => true | _ => false end.
(** Options and members may be given once; the outermost alias counts; members have no attributes. *)
Fixpoint meaning (e : bexpr) : option draft :=
  match e with
  | BName n => Some (Draft n None None None)
  | BCall e o =>
      match meaning e with
      | Some (Draft n None a l) => Some (Draft n (Some o) a l)
      | _ => None
      end
  | BItems e l =>
      match meaning e, (fix go (l : list bexpr) : option (list qitem) :=
                          match l with
                          | [] => Some []
                          | e :: l' => match meaning e, go l' with Some d, Some ds => Some (drafted d :: ds) | _, _ => None end
                          end) l with
      | Some (Draft n o a None), Some ds => Some (Draft n o a (Some ds))
      | _, _ => None
      end
  | BAttr _ _ => None
  | BShift x e =>
      match meaning x, meaning e with
      | Some dx, Some (Draft n o _ l) => if bare dx then Some (Draft n o (Some (dr_name dx)) l) else None
      | _, _ => None
      end
  end.
Fixpoint meanings (l : list bexpr) : option (list qitem) :=
  match l with
  | [] => Some []
  | e :: l' => match meaning e, meanings l' with Some d, Some ds => Some (drafted d :: ds) | _, _ => None end
  end.

(** Which values can be written as EDN and read back.  Nothing of the reader is used here,
    except for numbers. *)
From Verif Require Import Base Val Edn.

(** The value read: Python's list, tuple and dict become edn.List, edn.Tuple and edn.Dict. *)
Fixpoint as_edn (v : val) : val :=
  match v with
  | VList l | VVec l => VVec (map as_edn l)
  | VTuple l | VParen l => VParen (map as_edn l)
  | VDict d | VMap d => VMap (map (fun '(k, w) => (as_edn k, as_edn w)) d)
  | VSet l => VSet (map as_edn l)
  | VTag n w => VTag n (as_edn w)
  | _ => v
  end.
(** Values made of EDN types only *)
Fixpoint native (v : val) : bool :=
  match v with
  | VList _ | VTuple _ | VDict _ => false
  | VVec l | VParen l | VSet l => forallb native l
  | VMap d => forallb (fun '(k, w) => native k && native w) d
  | VTag _ w => native w
  | _ => true
  end.

(** Characters of strings: printable ones and the control characters \b \t \n \f \r; in the
    ASCII mode printable ASCII only. *)
Definition text_char (ascii : bool) (c : N) : Prop :=
  c ∈ [8; 9; 10; 12; 13]%N \/ ((32 <= c)%N /\ (ascii = true -> (c <= 126)%N)).
(** Characters of keywords and symbols *)
Definition word_char (c : N) : Prop := c ∉ s "}]) ," ++ [10; 13; 9]%N.
Section spec.
  Context `{PyText}.
  (** Symbols: words beginning with a letter other than [true], [false], [nil]; or with [-] or
      [.] followed by anything which is not a digit *)
  Definition symbol_text (x : str) : Prop :=
    Forall word_char x /\
    match x with
    | c :: t => (is_alpha c = true /\ x <> s "true" /\ x <> s "false" /\ x <> s "nil") \/
                (c ∈ s "-." /\ match t with c' :: _ => is_udigit c' = false | [] => False end)
    | [] => False
    end.
  (** Texts of floats: digits, beginning with one (or a minus and one), with a point or an exponent or both; what Python's
      [float] makes of them (it does not tell [e] from [E]) *)
  Definition big_e (c : N) : N := if decide (c = 101%N) then 69%N else c.
  Definition float_written (t : str) (m e : Z) : Prop :=
    Forall (fun c => c ∈ s "0123456789+-eE.") t /\
    (exists a c t', t = a ++ c :: t' /\ (a = [] \/ a = s "-") /\ is_digit c = true) /\
    (46%N ∈ t \/ 101%N ∈ t \/ 69%N ∈ t) /\
    parse_float (map big_e t) = Some (m, e).
  (** Floats whose text looks like a number and is read as that float *)
  Definition float_text (m e : Z) : Prop := float_written (float_str m e) m e.
  Context (th : str -> option (val -> res val)).
  Definition tag_text (n : str) : Prop :=
    n <> [] /\ Forall (fun c => c ∉ s " ,{[(\#" ++ [10; 13; 9; 34]%N) n /\ th n = None.

  (** Values whose text ends by itself *)
  Fixpoint closing (v : val) : bool :=
    match v with
    | VStr _ | VList _ | VTuple _ | VVec _ | VParen _ | VDict _ | VMap _ | VSet _ => true
    | VTag _ w => closing w
    | _ => false
    end.
  Definition distinct (l : list val) : Prop := ForallOrdPairs (fun a b => py_eqb a b = false) l.
  (** [readable ascii last v]: [v] can be written and read back; [last]: it is the last item of
      a collection.  Keys of maps and items of sets must be hashable and different when read. *)
  Fixpoint readable (ascii last : bool) (v : val) : Prop :=
    let items := fix items (l : list val) : Prop :=
      match l with
      | [] => True
      | x :: l' => readable ascii (match l' with [] => true | _ => false end) x /\ items l'
      end in
    match v with
    | VNone | VBool _ | VInt _ => True
    | VFloat m e => float_text m e
    | VStr x => Forall (text_char ascii) x
    | VKw x => Forall word_char x
    | VSym x => symbol_text x
    | VList l | VTuple l | VVec l | VParen l => items l
    | VSet l => items l /\ forallb hashable (map as_edn l) = true /\ distinct (map as_edn l)
    | VDict d | VMap d =>
        (fix pairs (d : list (val * val)) : Prop :=
           match d with
           | [] => True
           | (k, w) :: d' => readable ascii false k /\ readable ascii (match d' with [] => true | _ => false end) w /\ pairs d'
           end) d /\
        forallb hashable (map (fun p => as_edn p.1) d) = true /\ distinct (map (fun p => as_edn p.1) d)
    | VTag n w => tag_text n /\ readable ascii last w /\ (last = false \/ closing w = true)
    | VNothing | VObj _ => False
    end.
End spec.

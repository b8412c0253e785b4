(** The text between quotes of a JSON string (RFC 8259, section 7), which is how hiku.edn writes
    strings: specification for C32.  Nothing of the writer or reader of hiku.edn is used. *)
From Verif Require Import Base.

Definition hex_val (c : N) : option N :=
  if (48 <=? c)%N && (c <=? 57)%N then Some (c - 48)%N
  else if (97 <=? c)%N && (c <=? 102)%N then Some (c - 87)%N
  else if (65 <=? c)%N && (c <=? 70)%N then Some (c - 55)%N else None.
(** What stands for itself or for a control character behind a backslash *)
Definition json_short (c : N) : option N :=
  match c with
  | 34%N => Some 34%N (* quote *)
  | 92%N => Some 92%N (* backslash *)
  | 47%N => Some 47%N (* slash *)
  | 98%N => Some 8%N | 102%N => Some 12%N | 110%N => Some 10%N | 114%N => Some 13%N | 116%N => Some 9%N
  | _ => None
  end.
(** The code units which a text tells; a quote or a control character may not stand in it *)
Fixpoint json_units (t : str) : option (list N) :=
  match t with
  | [] => Some []
  | 92%N :: 117%N :: a :: b :: c :: d :: t' =>
      match hex_val a, hex_val b, hex_val c, hex_val d, json_units t' with
      | Some a, Some b, Some c, Some d, Some l => Some ((a * 4096 + b * 256 + c * 16 + d)%N :: l)
      | _, _, _, _, _ => None
      end
  | 92%N :: e :: t' => match json_short e, json_units t' with Some c, Some l => Some (c :: l) | _, _ => None end
  | c :: t' => if (c <? 32)%N || (c =? 34)%N || (c =? 92)%N then None
               else match json_units t' with Some l => Some (c :: l) | None => None end
  end.
(** Two surrogates are one character *)
Definition high (c : N) : bool := (55296 <=? c)%N && (c <? 56320)%N.
Definition low (c : N) : bool := (56320 <=? c)%N && (c <? 57344)%N.
Fixpoint utf16 (l : list N) : str :=
  match l with
  | [] => []
  | c :: l' =>
      match l' with
      | d :: l'' => if high c && low d then (65536 + (c - 55296) * 1024 + (d - 56320))%N :: utf16 l'' else c :: utf16 l'
      | [] => [c]
      end
  end.
Definition json_text (t : str) : option str := match json_units t with Some l => Some (utf16 l) | None => None end.
(** Characters of Unicode: surrogates are none *)
Definition unicode (c : N) : Prop := (c < 1114112)%N /\ high c = false /\ low c = false.

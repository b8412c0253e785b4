(** Specification for C59: which texts spell an EDN value.  Nothing of the reader (hiku/edn.py:198-305) is used, except for
    what Python's [float] makes of texts ([float_written]). *)
From Verif Require Import Base Val Edn EdnSpec PropEdn.

(** Blanks between items: spaces, commas, line ends, tabs, and comments up to the end of their line *)
Definition separator (c : N) : Prop := c ∈ s " ," ++ [10; 13; 9]%N.
Inductive blank : str -> Prop :=
| blank_nil : blank []
| blank_sep c b : separator c -> blank b -> blank (c :: b)
| blank_comment x b : 10%N ∉ x -> blank b -> blank ([59%N] ++ x ++ [10%N] ++ b).
(** Behind the last item: blanks, and possibly a comment which is not ended *)
Inductive trail : str -> Prop :=
| trail_blank b : blank b -> trail b
| trail_comment b x : blank b -> 10%N ∉ x -> trail (b ++ [59%N] ++ x).

(** The inside of a string: characters as they are, or escaped *)
Definition escapes : list (N * N) := [(110, 10); (116, 9); (114, 13); (98, 8); (102, 12); (92, 92); (34, 34)]%N.
Inductive string_text : str -> str -> Prop :=
| str_nil : string_text [] []
| str_plain c x t : c <> 92%N -> c <> 34%N -> string_text x t -> string_text (c :: x) (c :: t)
| str_escape e c x t : (e, c) ∈ escapes -> string_text x t -> string_text (c :: x) (92%N :: e :: t).

(** How a text ends: [Closed] ends by itself; a [Word] ends with a separator or with the closing bracket of the collection
    around it; a tagged word ([Tagged]) needs a separator. *)
Inductive ending := Closed | Word | Tagged.
Definition tag_ending (e : ending) : ending := match e with Closed => Closed | _ => Tagged end.
(** [r]: what follows within the collection *)
Definition may_follow (e : ending) (r : str) : Prop :=
  match e, r with
  | Closed, _ => True
  | Word, [] => True
  | Tagged, [] => False
  | _, c :: _ => separator c
  end.
Definition opens (c : N) : Prop := c ∈ [123; 34; 91; 40; 92; 35]%N.

Section spec.
  Context `{PyText} (th : str -> option (val -> res val)).
  Definition tag_name (n : str) : Prop := n <> [] /\ Forall (fun c => c ∉ s " ,{[(\#" ++ [10; 13; 9; 34]%N) n.
  (** The value of a tagged item: what the handler gives, else a tagged element *)
  Definition tagged (n : str) (v w : val) : Prop :=
    match th n with Some f => f v = Ok w /\ w <> VNone | None => w = VTag n v end.
  (** [spells e v t]: the text [t] spells the value [v]; [lists l t]: the text [t] lists the values [l] *)
  Inductive spells : ending -> val -> str -> Prop :=
  | sp_nil : spells Word VNone (s "nil")
  | sp_true : spells Word (VBool true) (s "true")
  | sp_false : spells Word (VBool false) (s "false")
  | sp_int z : spells Word (VInt z) (Z_str z)
  | sp_bigint z : spells Word (VInt z) (Z_str z ++ s "N")
  | sp_float t m e : float_written t m e -> spells Word (VFloat m e) t
  | sp_decimal t m e : float_written t m e -> spells Word (VFloat m e) (t ++ s "M")
  | sp_kw x : Forall word_char x -> spells Word (VKw x) (s ":" ++ x)
  | sp_sym x : symbol_text x -> spells Word (VSym x) x
  | sp_char c : spells Word (VStr [c]) [92%N; c]
  | sp_newline : spells Word (VStr [10%N]) (s "\newline")
  | sp_space : spells Word (VStr [32%N]) (s "\space")
  | sp_tab : spells Word (VStr [9%N]) (s "\tab")
  | sp_str x t : string_text x t -> spells Closed (VStr x) ([34%N] ++ t ++ [34%N])
  | sp_vec l t : lists l t -> spells Closed (VVec l) (s "[" ++ t ++ s "]")
  | sp_paren l t : lists l t -> spells Closed (VParen l) (s "(" ++ t ++ s ")")
  | sp_map d t : lists (flat d) t -> forallb hashable (map fst d) = true -> distinct (map fst d) -> spells Closed (VMap d) (s "{" ++ t ++ s "}")
  | sp_set l t : lists l t -> forallb hashable l = true -> distinct l -> spells Closed (VSet l) (s "#{" ++ t ++ s "}")
  | sp_tag n c b e v w t : tag_name n -> separator c -> blank b -> spells e v t -> tagged n v w ->
      spells (tag_ending e) w (s "#" ++ n ++ (c :: b) ++ t)
  | sp_tag_open n e v w c t : tag_name n -> opens c -> spells e v (c :: t) -> tagged n v w ->
      spells (tag_ending e) w (s "#" ++ n ++ c :: t)
  with lists : list val -> str -> Prop :=
  | li_nil b : blank b -> lists [] b
  | li_cons b e v t l r : blank b -> spells e v t -> may_follow e r -> lists l r -> lists (v :: l) (b ++ t ++ r).
  Scheme spells_mut := Minimality for spells Sort Prop
    with lists_mut := Minimality for lists Sort Prop.
  Combined Scheme spells_lists_ind from spells_mut, lists_mut.
End spec.

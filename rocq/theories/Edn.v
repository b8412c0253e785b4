(** hiku/edn.py: writing and reading EDN. *)
From Verif Require Export Base Val.

(** What Python's [str.isalpha], [str.isdigit] say of characters: as usual for ASCII, anything
    for the others.  Floats: [float_str] is [str(float(x))], [parse_float] is [float(text)]. *)
Definition ascii_alpha (c : N) : bool := ((65 <=? c)%N && (c <=? 90)%N) || ((97 <=? c)%N && (c <=? 122)%N).
Class PyText := {
  is_alpha : N -> bool;
  is_udigit : N -> bool;
  float_str : Z -> Z -> str;
  parse_float : str -> option (Z * Z);
  alpha_ascii : forall c, (c < 128)%N -> is_alpha c = ascii_alpha c;
  udigit_ascii : forall c, (c < 128)%N -> is_udigit c = is_digit c;
}.
Definition mem (c : N) (t : str) : bool := existsb (N.eqb c) t.

(** edn.py:106 [STOP_CHARS] *)
Definition STOP_CHARS : str := s " ," ++ [10; 13; 9]%N.
(** edn.py:108-112 [_CHAR_HANDLERS] *)
Definition char_handler (r : str) : option str :=
  if bool_decide (r = s "newline") then Some [10%N]
  else if bool_decide (r = s "space") then Some [32%N]
  else if bool_decide (r = s "tab") then Some [9%N] else None.
(** edn.py:114-122 [_CHAR_MAP.get(c)], or else [c] *)
Definition char_map (c : N) : N :=
  if (c =? 97)%N then 7%N else if (c =? 98)%N then 8%N else if (c =? 102)%N then 12%N
  else if (c =? 110)%N then 10%N else if (c =? 114)%N then 13%N else if (c =? 116)%N then 9%N
  else if (c =? 118)%N then 11%N else c.
(** edn.py:124-129 [_END_CHARS] *)
Definition end_char (c : N) : N := if (c =? 91)%N then 93%N else if (c =? 40)%N then 41%N else 125%N.

(** Hashable values: [TaggedElement] defines [__eq__] only; list and dict are not hashable,
    tuples and the edn.Dict are if their contents are. *)
Fixpoint hashable (v : val) : bool :=
  match v with
  | VList _ | VDict _ | VTag _ _ => false
  | VTuple l | VVec l | VParen l | VSet l => forallb hashable l
  | VMap d => forallb (fun '(k, w) => hashable k && hashable w) d
  | _ => true
  end.
(** [dict(pairs)]: a later equal key replaces the value and keeps the former key *)
Fixpoint pd_set (k v : val) (d : list (val * val)) : list (val * val) :=
  match d with
  | [] => [(k, v)]
  | (k', v') :: d' => if py_eqb k' k then (k', v) :: d' else (k', v') :: pd_set k v d'
  end.
Definition py_dict (ps : list (val * val)) : res (list (val * val)) :=
  if forallb (fun p => hashable p.1) ps then Ok (fold_left (fun d p => pd_set p.1 p.2 d) ps []) else Err TypeError.
(** [frozenset(l)] *)
Definition py_set (l : list val) : res (list val) :=
  if forallb hashable l then Ok (fold_left (fun acc x => if existsb (fun y => py_eqb y x) acc then acc else acc ++ [x]) l [])
  else Err TypeError.
(** [zip(lst[::2], lst[1::2])]; None if the number of elements is odd *)
Fixpoint pairs_of (l : list val) : option (list (val * val)) :=
  match l with
  | [] => Some []
  | k :: v :: l' => match pairs_of l' with Some ps => Some ((k, v) :: ps) | None => None end
  | _ => None
  end.

Section edn.
  Context `{PyText}.
  (** tag_handlers, already joined with [TAG_HANDLERS] (edn.py:101-104, 304) *)
  Context (th : str -> option (val -> res val)).

  (** edn.py:162-166 [parse_number].  Python's [int] also takes non-ASCII digits, refused
      here.  *)
  Definition upper (t : str) : str := map (fun c => if (c =? 101)%N then 69%N else c) t.
  Fixpoint rstrip_mn (t : str) : str :=
    match t with
    | [] => []
    | c :: t' => match rstrip_mn t' with [] => if mem c (s "MN") then [] else [c] | t'' => c :: t'' end
    end.
  Definition parse_number (t : str) : res val :=
    let t := upper (rstrip_mn t) in
    if mem 69 t || mem 46 t
    then match parse_float t with Some (m, e) => Ok (VFloat m e) | None => Err ValueError end
    else match parse_int t with Some z => Ok (VInt z) | None => Err ValueError end.
  (** edn.py:180-195, what [symbol_handler] yields; [_NIL] is sent as None *)
  Definition symbol_value (t : str) : val :=
    match t with
    | c :: t' => if (c =? 58)%N then VKw t'
                 else if bool_decide (t = s "true") then VBool true
                 else if bool_decide (t = s "false") then VBool false
                 else if bool_decide (t = s "nil") then VNone else VSym t
    | [] => VSym []
    end.
  (** edn.py:148-159, what [character_handler] yields *)
  Definition char_value (r : str) : res val :=
    match r with
    | [c] => Ok (VStr r)
    | _ => match char_handler r with Some t => Ok (VStr t) | None => Err KeyError end
    end.

  (** Coroutines as state machines.  [PS stop out m] is a [parser] (edn.py:198-288) with the
      given [stop], which has sent [out] to its target and waits at the [yield] given by [m]:
      in the main loop without handler, in a comment, in a string, behind a backslash in a
      string, with a [character_handler] before and behind its first character, with a
      [number_handler], with a [symbol_handler], behind "-" or ".", behind "#", within a
      collection opened by a character, with a [tag_handler] reading the name, with one reading
      the value. *)
  Inductive pst := PS (stop : option N) (out : list val) (m : pmode)
  with pmode :=
  | MReady | MComment | MStr (cs : str) | MEsc (cs : str) | MChar0 | MChar (r : str) | MNum (t : str)
  | MSym (t : str) | MSign (c : N) | MHash | MColl (c : N) (p : pst) | MTag (name : str) | MTagVal (name : str) (p : pst).
  Definition p_out (p : pst) : list val := match p with PS _ out _ => out end.
  Definition p_mode (p : pst) : pmode := match p with PS _ _ m => m end.
  (** What a character leads to: another state, or the parser returns and its target has [l] *)
  Inductive pnext := Goes (p : pst) | Stops (l : list val).

  (** edn.py:218-288: a character met without a handler *)
  Definition ready (stop : option N) (out : list val) (c : N) : res pnext :=
    if bool_decide (stop = Some c) then Ok (Stops out)
    else if mem c STOP_CHARS then Ok (Goes (PS stop out MReady))
    else if (c =? 59)%N then Ok (Goes (PS stop out MComment))
    else if (c =? 34)%N then Ok (Goes (PS stop out (MStr [])))
    else if (c =? 92)%N then Ok (Goes (PS stop out MChar0))
    else if is_digit c then Ok (Goes (PS stop out (MNum [c])))
    else if mem c (s "-.") then Ok (Goes (PS stop out (MSign c)))
    else if is_alpha c || (c =? 58)%N then Ok (Goes (PS stop out (MSym [c])))
    else if (c =? 35)%N then Ok (Goes (PS stop out MHash))
    else if mem c (s "[({") then Ok (Goes (PS stop out (MColl c (PS (Some (end_char c)) [] MReady))))
    else Err ValueError.
  (** edn.py:277-286: a finished collection *)
  Definition build (c : N) (l : list val) : res val :=
    if (c =? 91)%N then Ok (VVec l)
    else if (c =? 40)%N then Ok (VParen l)
    else if (c =? 123)%N then
      match pairs_of l with
      | Some ps => match py_dict ps with Ok d => Ok (VMap d) | Err e => Err e end
      | None => Err (UserErr 0)      (** a plain Exception *)
      end
    else match py_set l with Ok l' => Ok (VSet l') | Err e => Err e end.
  (** edn.py:140-145 *)
  Definition tag_value (name : str) (v : val) : res val :=
    match th name with Some f => f v | None => Ok (VTag name v) end.
  Definition num_char (c : N) : bool := mem c (s "0123456789+-eEMN.").
  Definition sym_end (c : N) : bool := mem c (s "}])" ++ STOP_CHARS).
  Definition tag_end (c : N) : bool := mem c (STOP_CHARS ++ [123; 34; 91; 40; 92; 35]%N).
  (** edn.py:132-147: [tag_handler] with the elements read so far *)
  Definition tag_next (stop : option N) (out : list val) (name : str) (p : pst) : res pnext :=
    match p_out p with
    | [] => Ok (Goes (PS stop out (MTagVal name p)))
    | v :: _ => match tag_value name v with
                | Err e => Err e
                | Ok VNone => Ok (Goes (PS stop out MReady))
                | Ok w => Ok (Goes (PS stop (out ++ [w]) MReady))
                end
    end.
  (** [parser.send(c)] *)
  Fixpoint step (p : pst) (c : N) {struct p} : res pnext :=
    match p with
    | PS stop out m =>
        match m with
        | MReady => ready stop out c
        | MComment => Ok (Goes (PS stop out (if (c =? 10)%N then MReady else MComment)))
        | MStr cs =>
            if (c =? 92)%N then Ok (Goes (PS stop out (MEsc cs)))
            else if (c =? 34)%N then Ok (Goes (PS stop (out ++ [VStr cs]) MReady))
            else Ok (Goes (PS stop out (MStr (cs ++ [c]))))
        | MEsc cs => Ok (Goes (PS stop out (MStr (cs ++ [char_map c]))))
        | MChar0 => Ok (Goes (PS stop out (MChar [c])))
        | MChar r =>
            if is_alpha c then Ok (Goes (PS stop out (MChar (r ++ [c]))))
            else match char_value r with Ok v => ready stop (out ++ [v]) c | Err e => Err e end
        | MNum t =>
            if num_char c then Ok (Goes (PS stop out (MNum (t ++ [c]))))
            else match parse_number t with Ok v => ready stop (out ++ [v]) c | Err e => Err e end
        | MSym t =>
            if sym_end c then ready stop (out ++ [symbol_value t]) c
            else Ok (Goes (PS stop out (MSym (t ++ [c]))))
        | MSign c1 => Ok (Goes (PS stop out (if is_udigit c then MNum [c1; c] else MSym [c1; c])))
        | MHash =>
            Ok (Goes (PS stop out (if (c =? 123)%N then MColl 35 (PS (Some 125%N) [] MReady) else MTag [c])))
        | MColl c0 p' =>
            match step p' c with
            | Err e => Err e
            | Ok (Goes p'') => Ok (Goes (PS stop out (MColl c0 p'')))
            | Ok (Stops l) => match build c0 l with Ok v => Ok (Goes (PS stop (out ++ [v]) MReady)) | Err e => Err e end
            end
        | MTag name =>
            if tag_end c then
              match ready None [] c with
              | Err e => Err e
              | Ok (Goes p') => tag_next stop out name p'
              | Ok (Stops _) => Err StopIterationErr
              end
            else Ok (Goes (PS stop out (MTag (name ++ [c]))))
        | MTagVal name p' =>
            match step p' c with
            | Err e => Err e
            | Ok (Goes p'') => tag_next stop out name p''
            | Ok (Stops _) => Err StopIterationErr
            end
        end
    end.
  Fixpoint feed (p : pst) (t : str) : res pst :=
    match t with
    | [] => Ok p
    | c :: t' => match step p c with
                 | Err e => Err e
                 | Ok (Goes p') => feed p' t'
                 | Ok (Stops _) => Err StopIterationErr
                 end
    end.
  Definition p_init : pst := PS None [] MReady.
  (** edn.py:291-305 [loads] *)
  Definition loads (t : str) : res val :=
    match feed p_init (t ++ s " ") with
    | Err e => Err e
    | Ok p => match p_out p with [v] => Ok v | _ => Err ValueError end
    end.

  (** json.encoder.encode_basestring_ascii, encode_basestring *)
  Definition hex_digit (n : N) : N := if (n <? 10)%N then (48 + n)%N else (87 + n)%N.
  Definition hex4 (n : N) : str :=
    [hex_digit (n / 4096 mod 16); hex_digit (n / 256 mod 16); hex_digit (n / 16 mod 16); hex_digit (n mod 16)]%N.
  Definition short_escape (c : N) : option N :=
    if (c =? 92)%N then Some 92%N else if (c =? 34)%N then Some 34%N else if (c =? 10)%N then Some 110%N
    else if (c =? 13)%N then Some 114%N else if (c =? 9)%N then Some 116%N else if (c =? 12)%N then Some 102%N
    else if (c =? 8)%N then Some 98%N else None.
  Definition esc_char (ascii : bool) (c : N) : str :=
    match short_escape c with
    | Some e => [92%N; e]
    | None =>
        if (32 <=? c)%N && (negb ascii || (c <=? 126)%N) then [c]
        else if (c <? 65536)%N then s "\u" ++ hex4 c
        else let n := (c - 65536)%N in s "\u" ++ hex4 (55296 + n / 1024) ++ s "\u" ++ hex4 (56320 + n mod 1024)
    end.
  Definition encode_str (ascii : bool) (x : str) : str := [34%N] ++ flat_map (esc_char ascii) x ++ [34%N].

  (** edn.py:308-323 [_iterencode_items] *)
  Fixpoint join_sp (l : list str) : str :=
    match l with
    | [] => []
    | x :: l' => match l' with [] => x | _ => x ++ s " " ++ join_sp l' end
    end.
  (** edn.py:330-384 [_iterencode], [dumps] with the default [default].  Decimal, datetime and
      UUID objects are not modelled. *)
  Fixpoint dumps (ascii : bool) (v : val) : res str :=
    match v with
    | VNone => Ok (s "nil")
    | VBool true => Ok (s "true")
    | VBool false => Ok (s "false")
    | VInt z => Ok (Z_str z)
    | VFloat m e => Ok (float_str m e)
    | VKw x => Ok (s ":" ++ x)
    | VSym x => Ok x
    | VStr x => Ok (encode_str ascii x)
    | VList l | VVec l => match mapR (dumps ascii) l with Ok ts => Ok (s "[" ++ join_sp ts ++ s "]") | Err e => Err e end
    | VTuple l | VParen l => match mapR (dumps ascii) l with Ok ts => Ok (s "(" ++ join_sp ts ++ s ")") | Err e => Err e end
    | VDict d | VMap d =>
        match mapR (fun '(k, w) => match dumps ascii k with
                                   | Err e => Err e
                                   | Ok t => match dumps ascii w with Ok t' => Ok [t; t'] | Err e => Err e end
                                   end) d with
        | Ok ts => Ok (s "{" ++ join_sp (concat ts) ++ s "}")
        | Err e => Err e
        end
    | VSet l => match mapR (dumps ascii) l with Ok ts => Ok (s "#{" ++ join_sp ts ++ s "}") | Err e => Err e end
    | VTag n w => match dumps ascii w with Ok t => Ok (s "#" ++ n ++ s " " ++ t) | Err e => Err e end
    | VNothing | VObj _ => Err ValueError
    end.
End edn.

(** [json.dumps(value)] as hiku/introspection/graphql.py:333 calls it, for default values of options.
    The module [json] is not hiku's; this is what its documentation and its C encoder do with the
    values of the model: words of hiku.edn are [str], its lists and tuples are [tuple], its
    dictionaries are [dict]. *)
From Verif Require Import Base Val Edn.

Section json.
  Context `{PyText}.
  (** [', '.join(l)] *)
  Fixpoint join_comma (l : list str) : str :=
    match l with
    | [] => []
    | x :: l' => match l' with [] => x | _ => x ++ s ", " ++ join_comma l' end
    end.
  (** keys: strings, and what is turned into strings *)
  Definition json_key (k : val) : res str :=
    match k with
    | VStr x | VKw x | VSym x => Ok x
    | VNone => Ok (s "null")
    | VBool true => Ok (s "true")
    | VBool false => Ok (s "false")
    | VInt z => Ok (Z_str z)
    | VFloat m e => Ok (float_str m e)
    | _ => Err TypeError
    end.
  Fixpoint json_dumps (v : val) : res str :=
    match v with
    | VNone => Ok (s "null")
    | VBool true => Ok (s "true")
    | VBool false => Ok (s "false")
    | VInt z => Ok (Z_str z)
    | VFloat m e => Ok (float_str m e)
    | VStr x | VKw x | VSym x => Ok (encode_str true x)
    | VList l | VTuple l | VVec l | VParen l =>
        match mapR json_dumps l with Ok ts => Ok (s "[" ++ join_comma ts ++ s "]") | Err e => Err e end
    | VDict d | VMap d =>
        match mapR (fun '(k, w) => match json_key k with
                                   | Err e => Err e
                                   | Ok x => match json_dumps w with Ok t => Ok (encode_str true x ++ s ": " ++ t) | Err e => Err e end
                                   end) d with
        | Ok ts => Ok (s "{" ++ join_comma ts ++ s "}")
        | Err e => Err e
        end
    | VSet _ | VTag _ _ | VNothing | VObj _ => Err TypeError
    end.
  (** The value of [defaultValue] *)
  Definition json_default (v : val) : res val := match json_dumps v with Ok t => Ok (VStr t) | Err e => Err e end.
End json.

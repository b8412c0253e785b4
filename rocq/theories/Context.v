(** hiku/engine.py: the execution context, and what a loader receives. *)
From Verif Require Import Base Val Query Graph Engine.

(** engine.py:424-425, 429: [ctx=None] stands for an empty mapping *)
Definition new_context (ctx : option (dict val val)) : dict val val := match ctx with Some d => d | None => [] end.
(** engine.py:399-416 [Context]: [__len__], [__iter__], [__getitem__] *)
Definition context_len (d : dict val val) : nat := length d.
Definition context_iter (d : dict val val) : list val := dkeys d.
Definition context_getitem (d : dict val val) (k : val) : res val :=
  match dget k d with Some v => Ok v | None => Err KeyError end.

(** Positional arguments of a loader *)
Inductive parg := PaContext (d : dict val val) | PaFields (l : list qitem) | PaIds (l : list val) | PaReqs (r : reqs) | PaOptions (o : opts).
(** engine.py:287-291 [_submit], 365-369, 376-382.  The context of the query is handed to the workflows of
    sub-graphs as it is (engine.py:363, sources/graph.py:118), so one for the whole execution is modelled. *)
Definition received (ctx : option (dict val val)) (c : call) : list parg :=
  (if c_ctx c then [PaContext (new_context ctx)] else []) ++
  match c_args c with
  | AFields qfs None => [PaFields qfs]
  | AFields qfs (Some ids) => [PaFields qfs; PaIds ids]
  | ALink rq o => match rq with Some r => [PaReqs r] | None => [] end ++ match o with Some o => [PaOptions o] | None => [] end
  end.

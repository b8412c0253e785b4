(** hiku/sources/sqlalchemy.py, sqlalchemy_async.py, aiopg.py: loaders over SQL tables.
    The database is a function from a statement to rows.  Not modelled: the context, from which
    the connection is taken; SQL text; [IN] and [= ANY] are the same statement.  Identifiers are
    compared as values of the model, not by Python's [==]. *)
From Verif Require Import Base Val Query Graph Engine.

(** A row: values by columns.  SELECT [sel_cols] WHERE [sel_col] IN [sel_in] *)
Definition row : Type := list (str * val).
Record select := Select { sel_cols : list str; sel_col : str; sel_in : list val }.
Definition database : Type := select -> list row.

(** sqlalchemy_async.py:22-28, 47-53, aiopg.py:25-31, 51-57: the loop over [fetchmany].
    [size n]: how many rows the driver gives when [n] are left and at most 100 are asked for. *)
Definition FETCH_SIZE : nat := 100.
Definition fetchmany (size : nat -> nat) (rest : list row) : list row * list row :=
  let n := Nat.min FETCH_SIZE (size (length rest)) in (take n rest, drop n rest).
Fixpoint fetch_loop (fuel : nat) (size : nat -> nat) (rest acc : list row) : res (list row) :=
  match fuel with
  | O => Err OutOfFuel
  | S k => let '(bucket, rest') := fetchmany size rest in
           match bucket with
           | [] => Ok acc
           | _ => fetch_loop k size rest' (acc ++ bucket)
           end
  end.
(** How the rows are read: at once (sqlalchemy.py:79-80) or in buckets *)
Inductive driver := All | Buckets (size : nat -> nat).
Definition fetch (dr : driver) (rows : list row) : res (list row) :=
  match dr with
  | All => Ok rows
  | Buckets size => fetch_loop (S (length rows)) size rows []
  end.

(** sqlalchemy.py:28-39 [FieldsQuery]: the columns of the table and its primary key *)
Record fields_query := FieldsQuery { fq_cols : list str; fq_pk : str }.
(** [row[c]] *)
Definition row_get (r : row) (c : str) : res val := from_opt KeyError (dget c r).
(** sqlalchemy.py:65-70 [result_proc] *)
Definition fields_proc (pk : str) (cols : list str) (ids : list val) (rows : list row) : res (list (list val)) :=
  match mapR (fun r => match row_get r pk with
                       | Err e => Err e
                       | Ok k => match mapR (row_get r) cols with Ok vs => Ok (k, vs) | Err e => Err e end
                       end) rows with
  | Err e => Err e
  | Ok ps =>
      let rows_map := of_pairs ps in
      let nulls := map (fun _ => VNone) cols in
      Ok (map (fun i => match dget i rows_map with Some vs => vs | None => nulls end) ids)
  end.
(** sqlalchemy.py:57-63 [select_expr], 74-82 [__call__] *)
Definition fields_call (db : database) (dr : driver) (fq : fields_query) (qfs : list qitem) (ids : list val) : outcome :=
  match ids with
  | [] => Ret (VList [])
  | _ =>
      match mapR (fun q => if bool_decide (q_name q ∈ fq_cols fq) then Ok (q_name q) else Err KeyError) qfs with
      | Err e => Raise e
      | Ok cols =>
          match fetch dr (db (Select (fq_pk fq :: cols) (fq_pk fq) ids)) with
          | Err e => Raise e
          | Ok rows => match fields_proc (fq_pk fq) cols ids rows with
                       | Ok rs => Ret (VList (map VList rs))
                       | Err e => Raise e
                       end
          end
      end
  end.

(** sqlalchemy.py:85-99: [_to_maybe_mapper], [_to_one_mapper], [_to_many_mapper] *)
Definition to_maybe (pairs : list (val * val)) (values : list val) : res (list val) :=
  let mapping := of_pairs pairs in
  Ok (map (fun v => match dget v mapping with Some x => x | None => VNothing end) values).
Definition to_one (pairs : list (val * val)) (values : list val) : res (list val) :=
  let mapping := of_pairs pairs in mapR (fun v => from_opt KeyError (dget v mapping)) values.
Definition to_many (pairs : list (val * val)) (values : list val) : res (list val) :=
  let mapping := fold_left (fun d p => dappend p.1 p.2 d) pairs [] in
  Ok (map (fun v => VList (match dget v mapping with Some l => l | None => [] end)) values).
(** sqlalchemy.py:119-128 [__postprocess__]: the mapper by the type of the link *)
Definition mapper (t : tenum) : list (val * val) -> list val -> res (list val) :=
  match t with One => to_one | Maybe => to_maybe | Many => to_many end.

(** sqlalchemy.py:102-112 [LinkQuery] *)
Record link_query := LinkQuery { lq_from : str; lq_to : str }.
(** sqlalchemy.py:133-143 [select_expr]; [order]: the order in which a set is iterated *)
Definition link_select (order : list val -> list val) (lq : link_query) (ids : list val) : option select :=
  match List.filter (fun i => negb (bool_decide (i = VNone))) (order (remove_dups ids)) with
  | [] => None
  | fids => Some (Select [lq_from lq; lq_to lq] (lq_from lq) fids)
  end.
(** sqlalchemy.py:145-153 [__call__] *)
Definition link_call (order : list val -> list val) (db : database) (dr : driver) (lq : link_query) (t : tenum) (ids : list val) : outcome :=
  let pairs : res (list (val * val)) :=
    match link_select order lq ids with
    | None => Ok []
    | Some q =>
        match fetch dr (db q) with
        | Err e => Err e
        | Ok rows => mapR (fun r => match row_get r (lq_from lq), row_get r (lq_to lq) with
                                    | Ok a, Ok b => Ok (a, b)
                                    | Err e, _ | Ok _, Err e => Err e
                                    end) rows
        end
    end in
  match pairs with
  | Err e => Raise e
  | Ok ps => match mapper t ps ids with Ok l => Ret (VList l) | Err e => Raise e end
  end.
(** The loader as the engine calls it: with the list of required values, or (engine.py:171-177)
    with the single value required by a link of the root, which is then iterated. *)
Definition link_loader order db dr lq t (a : reqs) : outcome :=
  match a with
  | RList l => match mapM (fun v => match v with IVal x => Some x | _ => None end) l with
               | Some ids => link_call order db dr lq t ids
               | None => Raise TypeError
               end
  | ROne (IVal v) => match iter_of v with Some ids => link_call order db dr lq t ids | None => Raise TypeError end
  | ROne _ => Raise TypeError
  end.

(** hiku/builder.py.  Handles are mutable objects, kept in a heap; the handle number 0 is [Q]. *)
From Verif Require Import Base Val Query.

(** builder.py:6-10 [Handle] *)
Record handle := Handle { h_name : option str; h_opts : opts; h_alias : option str; h_items : option (list nat) }.
Notation heap := (list handle).
(** builder.py:46 *)
Definition heap0 : heap := [Handle None None None None].
Definition alloc (x : handle) (h : heap) : nat * heap := (length h, h ++ [x]).
(** builder.py:12-14 [__getattr__], for names which are not attributes of the class *)
Definition h_getattr (r : nat) (name : str) (h : heap) : res (nat * heap) :=
  match h !! r with
  | None => Err KeyError
  | Some x => match h_name x with
              | Some _ => Err AssertionError
              | None => Ok (alloc (Handle (Some name) None None None) h)
              end
  end.
(** builder.py:16-24 [__getitem__] with a tuple or one handle *)
Definition h_getitem (r : nat) (items : list nat) (h : heap) : res (nat * heap) :=
  match h !! r with
  | None => Err KeyError
  | Some x => match h_items x with
              | Some _ => Err AssertionError
              | None => Ok (r, <[r := Handle (h_name x) (h_opts x) (h_alias x) (Some items)]> h)
              end
  end.
Definition truthy_opts (o : opts) : bool := match o with Some (_ :: _) => true | _ => false end.
Definition truthy_alias (a : option str) : bool := match a with Some (_ :: _) => true | _ => false end.
Definition truthy_items (l : option (list nat)) : bool := match l with Some (_ :: _) => true | _ => false end.
(** builder.py:26-34 [__lshift__] *)
Definition h_lshift (r o : nat) (h : heap) : res (nat * heap) :=
  match h !! r, h !! o with
  | Some x, Some y =>
      if truthy_opts (h_opts x) || truthy_alias (h_alias x) || truthy_items (h_items x) then Err AssertionError
      else Ok (alloc (Handle (h_name y) (h_opts y) (h_name x) (h_items y)) h)
  | _, _ => Err KeyError
  end.
(** builder.py:36-39 [__call__] *)
Definition h_call (r : nat) (o : list (str * val)) (h : heap) : res (nat * heap) :=
  match h !! r with
  | None => Err KeyError
  | Some x => match h_opts x with
              | Some _ => Err AssertionError
              | None => Ok (r, <[r := Handle (h_name x) (Some o) (h_alias x) (h_items x)]> h)
              end
  end.
(** builder.py:49-81 [build]; the fuel bounds the depth of recursion *)
Fixpoint build (fuel : nat) (h : heap) (items : list nat) : res qnode :=
  match fuel with
  | O => Err OutOfFuel
  | S k =>
      match mapR (fun r =>
              match h !! r with
              | None => Err KeyError
              | Some x =>
                  match h_name x with
                  | None => Err AssertionError
                  | Some n =>
                      match h_items x with
                      | None => Ok (QF n (h_opts x) (h_alias x))
                      | Some l => match build k h l with
                                  | Ok nd => Ok (QL n (qfields nd) (qordered nd) (h_opts x) (h_alias x))
                                  | Err e => Err e
                                  end
                      end
                  end
              end) items with
      | Ok l => Ok (QN l false)
      | Err e => Err e
      end
  end.

(** Expressions over [Q], evaluated as Python does *)
Inductive bexpr :=
| BName (n : str)                          (* Q.n *)
| BCall (e : bexpr) (o : list (str * val)) (* e(...) with the options o *)
| BItems (e : bexpr) (l : list bexpr)      (* e[l] *)
| BAttr (e : bexpr) (n : str)              (* e.n *)
| BShift (x e : bexpr).                    (* x << e, as in Q.a << e *)
Fixpoint beval (e : bexpr) (h : heap) {struct e} : res (nat * heap) :=
  match e with
  | BName n => h_getattr 0 n h
  | BCall e o => match beval e h with Ok (r, h1) => h_call r o h1 | Err x => Err x end
  | BItems e l =>
      match beval e h with
      | Err x => Err x
      | Ok (r, h1) =>
          match (fix go (l : list bexpr) (h : heap) : res (list nat * heap) :=
                   match l with
                   | [] => Ok ([], h)
                   | e :: l' => match beval e h with
                                | Err x => Err x
                                | Ok (r, h1) => match go l' h1 with Ok (rs, h2) => Ok (r :: rs, h2) | Err x => Err x end
                                end
                   end) l h1 with
          | Err x => Err x
          | Ok (rs, h2) => h_getitem r rs h2
          end
      end
  | BAttr e n => match beval e h with Ok (r, h1) => h_getattr r n h1 | Err x => Err x end
  | BShift x e =>
      match beval x h with
      | Err x => Err x
      | Ok (r, h1) => match beval e h1 with Ok (o, h2) => h_lshift r o h2 | Err x => Err x end
      end
  end.
Fixpoint bevals (l : list bexpr) (h : heap) : res (list nat * heap) :=
  match l with
  | [] => Ok ([], h)
  | e :: l' => match beval e h with
               | Err x => Err x
               | Ok (r, h1) => match bevals l' h1 with Ok (rs, h2) => Ok (r :: rs, h2) | Err x => Err x end
               end
  end.
(** [build([...])] *)
Definition build_exprs (fuel : nat) (l : list bexpr) (h : heap) : res (qnode * heap) :=
  match bevals l h with
  | Err x => Err x
  | Ok (rs, h1) => match build fuel h1 rs with Ok q => Ok (q, h1) | Err x => Err x end
  end.

(** hiku/console/ui.py: the console application. *)
From Verif Require Export Base Val Query Graph Result Engine EngineSpec Validate Edn Export.

(** The WSGI environment, as far as the application looks at it; [en_body] is what can be read from wsgi.input *)
Record environ := Environ { en_path : str; en_method : str; en_length : option str; en_body : list N }.
(** ui.py:37-60.  Documentation, page and script are fixed contents. *)
Record console := Console { cs_graph : graph; cs_debug : bool }.
Inductive page := PgIndex | PgDocs | PgScript.
Inductive content :=
| CtPage (p : page)
| CtText (message : str)             (* ui.py:94-102 [_error] *)
| CtErrors (l : list verr)           (* the messages under errors *)
| CtTrace (shown : bool)             (* the traceback, if debug *)
| CtData (t : vtree).
Record response := Response { rs_status : N; rs_content : content }.

(** ui.py:12-29 [ERROR_CODES]: the standard messages *)
Definition MSG_404 : str := s "The requested URL was not found on the server.  If you entered the URL manually please check your spelling and try again.".
Definition MSG_405 : str := s "The method is not allowed for the requested URL.".
Definition MSG_BIG : str := s "Payload is too big".

(** [json.dumps]: whether the value can be written.  Floats are finite (see Val.v). *)
Definition json_key (v : val) : bool :=
  match v with VStr _ | VKw _ | VSym _ | VInt _ | VFloat _ _ | VBool _ | VNone => true | _ => false end.
Fixpoint json_val (v : val) : bool :=
  match v with
  | VNone | VBool _ | VInt _ | VFloat _ _ | VStr _ | VKw _ | VSym _ => true
  | VList l | VTuple l | VVec l | VParen l => forallb json_val l
  | VDict d | VMap d => forallb (fun p => json_key p.1 && json_val p.2) d
  | VSet _ | VTag _ _ | VNothing | VObj _ => false
  end.
Fixpoint json_tree (t : vtree) : bool :=
  match t with
  | TP (PRaw (IVal v)) => json_val v
  | TP _ => false
  | TO d => forallb (fun p => json_tree p.2) d
  | TL l => forallb json_tree l
  end.

Section console.
  Context `{Hasher} `{PyText}.
  (** [bytes.decode('utf-8')]; handlers of EDN tags are the built in ones *)
  Variable decode : list N -> option str.
  Variable th : str -> option (val -> res val).

  (** ui.py:115 [max(0, int(environ.get('CONTENT_LENGTH') or 0))]; int() is modelled for plain decimal texts *)
  Definition content_length (en : environ) : res N :=
    match en_length en with
    | None | Some [] => Ok 0%N
    | Some t => match parse_int t with Some z => Ok (Z.to_N z) | None => Err ValueError end
    end.
  (** What happens before execution: a response, an exception, or the query to be executed *)
  Inductive cprep := CpExn (e : exn) | CpDone (r : response) | CpRun (q : qnode).
  Definition failed (c : console) : response := Response 500 (CtTrace (cs_debug c)).
  (** ui.py:114-127 [_index_post] *)
  Definition index_post (k : nat) (c : console) (en : environ) : cprep :=
    match content_length en with
    | Err e => CpExn e
    | Ok limit =>
        if (2 ^ 20 <? limit)%N then CpDone (Response 400 (CtText MSG_BIG))
        else match decode (take (N.to_nat limit) (en_body en)) with
             | None => CpDone (failed c)
             | Some t =>
                 match simple_read th t with
                 | Err _ => CpDone (failed c)
                 | Ok q =>
                     match validate k (cs_graph c) q with
                     | Err _ => CpDone (failed c)
                     | Ok [] => CpRun q
                     | Ok errs => CpDone (Response 400 (CtErrors errs))
                     end
                 end
             end
    end.
  (** ui.py:62-86 [__call__] *)
  Definition console_prepare (k : nat) (c : console) (en : environ) : cprep :=
    let path := match en_path en with [] => s "/" | p => p end in
    if decide (path = s "/") then
      if decide (en_method en = s "GET") then CpDone (Response 200 (CtPage PgIndex))
      else if decide (en_method en = s "POST") then index_post k c en
      else CpDone (Response 405 (CtText MSG_405))
    else if decide (path = s "/docs") then
      if decide (en_method en = s "GET") then CpDone (Response 200 (CtPage PgDocs)) else CpDone (Response 405 (CtText MSG_405))
    else if decide (path = s "/console.js") then
      if decide (en_method en = s "GET") then CpDone (Response 200 (CtPage PgScript)) else CpDone (Response 405 (CtText MSG_405))
    else CpDone (Response 404 (CtText MSG_404)).
  (** ui.py:128-141: execution, denormalization and [json.dumps], which is outside of the [try] *)
  Definition finish (c : console) (r : res (index * qnode)) : res response :=
    match r with
    | Err _ => Ok (failed c)
    | Ok (idx, pn) =>
        match denormalize (cs_graph c) idx pn with
        | Err _ => Ok (failed c)
        | Ok t => if json_tree t then Ok (Response 200 (CtData t)) else Err TypeError
        end
    end.
  Inductive responds (E : env) (fuel k : nat) (c : console) (en : environ) : list (list nat) -> res response -> Prop :=
  | rp_exn e : console_prepare k c en = CpExn e -> responds E fuel k c en [] (Err e)
  | rp_done r : console_prepare k c en = CpDone r -> responds E fuel k c en [] (Ok r)
  | rp_run q sched r : console_prepare k c en = CpRun q -> execute E fuel (cs_graph c) q sched r -> responds E fuel k c en sched (finish c r).
  (** The loader calls made up to any moment *)
  Inductive console_calls (E : env) (fuel k : nat) (c : console) (en : environ) : list call -> Prop :=
  | cc_none : console_calls E fuel k c en []
  | cc_rounds q sched x y :
      console_prepare k c en = CpRun q -> start E (cs_graph c) q = Ok x -> rounds E fuel sched x y ->
      console_calls E fuel k c en (w_log y.1).
End console.

(** hiku/endpoint/graphql.py: the GraphQL endpoint. *)
From Verif Require Export Base Val Query Graph Result Engine EngineSpec Validate ReadGraphql Introspect.

(** The request [data]: the document under the key query ([None]: the key is missing, [Some None]: the text
    is not a document, for which the GraphQL library raises its own exception), variables, operationName. *)
Record request := Request { rq_query : option (option (list gdef)); rq_vars : dict str val; rq_opname : option str }.

(** Messages of [GraphQLError]: graphql.py:38-41, 46-48, 55-56; or one with which a loader itself raised it *)
Inductive emsg := MRead (e : rerr) | MUnsupported (t : optype) | MInvalid (e : verr) | MRaised (n : N).
(** What [dispatch] answers: the values under data, or the messages under errors (graphql.py:101-108) *)
Inductive answer := AData (t : vtree) | AErrors (l : list emsg).
(** What happens before execution: an exception, [GraphQLError], or the operation, its graph and query *)
Inductive prep := PExn (e : exn) | PErrors (l : list emsg) | PRun (t : optype) (g : graph) (q : qnode).

(** graphql.py:72-80 *)
Record endpoint := Endpoint { ep_query : graph; ep_mutation : option graph }.
Definition new_endpoint (L : loaders) (query : graph) (mutation : option graph) : res endpoint :=
  match add_introspection L query with
  | Err e => Err e
  | Ok q => match mutation with
            | None => Ok (Endpoint q None)
            | Some m => match add_introspection L m with Ok m' => Ok (Endpoint q (Some m')) | Err e => Err e end
            end
  end.

(** graphql.py:13-16 [_type_names] *)
Definition type_names (t : optype) : option str :=
  match t with OQuery => Some QUERY_ROOT_NAME | OMutation => Some MUTATION_ROOT_NAME | OSubscription => None end.

Section endpoint.
  Context `{Hasher}.
  (** graphql.py:33-50 [_switch_graph]: only [TypeError] becomes a message *)
  Definition switch_graph (ep : endpoint) (rq : request) : prep :=
    match rq_query rq with
    | None => PExn KeyError
    | Some None => PExn (UserErr 0)
    | Some (Some doc) =>
        match read_operation doc (rq_vars rq) (rq_opname rq) with
        | RErr e => match exn_of e with TypeError => PErrors [MRead e] | x => PExn x end
        | ROk (t, q, _) =>
            match t, ep_mutation ep with
            | OQuery, _ => PRun t (ep_query ep) q
            | OMutation, Some g => PRun t g q
            | _, _ => PErrors [MUnsupported t]
            end
        end
    end.
  (** graphql.py:52-59 [_process_query]; [k] bounds the nesting of types (see Validate.v) *)
  Definition prepare (k : nat) (ep : endpoint) (rq : request) : prep :=
    match switch_graph ep rq with
    | PRun t g q =>
        match validate k g (strip_query q) with
        | Err e => PExn e
        | Ok [] => PRun t g q
        | Ok errs => PErrors (map MInvalid errs)
        end
    | p => p
    end.
  (** graphql.py:107-108: the exceptions of execution *)
  Definition caught (e : exn) : res answer :=
    match e with GraphqlErr l => Ok (AErrors (map MRaised l)) | _ => Err e end.
  (** graphql.py:95-108 [execute] and [dispatch] (the asynchronous endpoint at 124-140 is the same with
      [await]); [sched]: the order in which the calls finish. *)
  Inductive dispatches (E : env) (fuel k : nat) (ep : endpoint) (rq : request) : list (list nat) -> res answer -> Prop :=
  | dp_exn e : prepare k ep rq = PExn e -> dispatches E fuel k ep rq [] (Err e)
  | dp_errors l : prepare k ep rq = PErrors l -> dispatches E fuel k ep rq [] (Ok (AErrors l))
  | dp_fails t g q sched e :
      prepare k ep rq = PRun t g q -> execute E fuel g (strip_query q) sched (Err e) ->
      dispatches E fuel k ep rq sched (caught e)
  | dp_runs t g q sched idx pn :
      prepare k ep rq = PRun t g q -> execute E fuel g (strip_query q) sched (Ok (idx, pn)) ->
      dispatches E fuel k ep rq sched
        (match process_with (type_names t) g idx pn q with Ok d => Ok (AData d) | Err e => Err e end).
  (** The loader calls made up to any moment of the dispatch of a request *)
  Inductive dispatch_calls (E : env) (fuel k : nat) (ep : endpoint) (rq : request) : list call -> Prop :=
  | dc_none : dispatch_calls E fuel k ep rq []
  | dc_rounds t g q sched x y :
      prepare k ep rq = PRun t g q -> start E g (strip_query q) = Ok x -> rounds E fuel sched x y ->
      dispatch_calls E fuel k ep rq (w_log y.1).

  (** graphql.py:111-121 [BatchGraphQLEndpoint.dispatch] with a list: one after another, the first exception
      ends it *)
  Inductive dispatches_batch (E : env) (fuel k : nat) (ep : endpoint) : list request -> list (list (list nat)) -> res (list answer) -> Prop :=
  | db_nil : dispatches_batch E fuel k ep [] [] (Ok [])
  | db_exn rq rqs sched e : dispatches E fuel k ep rq sched (Err e) -> dispatches_batch E fuel k ep (rq :: rqs) [sched] (Err e)
  | db_rest rq rqs sched scheds a r :
      dispatches E fuel k ep rq sched (Ok a) -> dispatches_batch E fuel k ep rqs scheds r ->
      dispatches_batch E fuel k ep (rq :: rqs) (sched :: scheds) (match r with Ok l => Ok (a :: l) | Err e => Err e end).
End endpoint.

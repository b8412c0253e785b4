# Formal model of hiku in Rocq (Coq 8.16.1)

The code in /repo was read, not run. The model is a set of total, computable
Gallina functions which mirror the Python functions branch by branch, with
exceptions as values (`res A := Ok a | Err e`). Every definition cites the file
and lines it models, and says where it simplifies. The statements use separate
specification files (`*Spec.v`), which do not use the engine's, validator's,
reader's or compiler's own helpers.

`MANIFEST.json` names the theorems of every property, `properties.jsonl` has the
English statements, `seeded/LOG.jsonl` the wrong programs the theorems were
tried on.

## 1. Trusted base

* Coq's kernel (vcheck also runs `coqchk`).
* `Print Assumptions`, in the files of the property theorems or in Assumed1–3, prints `Closed under the
  global context` for every theorem named in MANIFEST.json: no axioms, neither
  own ones nor the standard library's. (`coqchk` additionally lists
  `Coq.ssr.ssrunder.Under_rel.*`, which come with loading std++; no theorem
  depends on them.)
* Libraries: Coq's standard library and std++ (no axioms used).
* The reading of Python into Gallina: the definitions of the model files of
  section 2, with the simplifications of section 3.
* Parameters of theorems (not axioms; always universally quantified or given by
  a record in the statement): Python's `hash` of floats and strings (class
  `Hasher`, with the properties of CPython used in C03 proved for an instance
  `ex_hasher`); loaders (`e_oracle`: any function of the number of the call and
  its arguments, which may return anything or raise); the functions used in
  expressions; the database of SQL loaders; the protobuf library; handlers of
  EDN tags; the clock and counters of metrics.

## 2. What is modelled (rocq/theories)

| model | code | specification | theorems |
|---|---|---|---|
| `Base`, `Val`, `Types` | strings, ordered dicts, exceptions, `==`, `hash`; hiku/types.py, hiku/utils.py | - | - |
| `Query` | hiku/query.py | `QuerySpec` | `PropQuery` (C01-C03; proofs in `QueryProof`, `MergeProof`) |
| `Graph`, `Transform` | hiku/graph.py | - | `PropTransform` (C50) |
| `Queue` | hiku/executors/*.py | `QueueSpec` | `PropQueue`, `PropTrace` (C14, C15) |
| `Result` | hiku/result.py, hiku/denormalize/*.py | `EngineSpec` | `PropResult` (C17-C20), `RecordSpec`/`PropRecords` (results exist: C04, C21) |
| `Engine`, `Context` | hiku/engine.py, run-time part of hiku/sources/graph.py | `EngineSpec`, `SubSpec`, `SubWfSpec`, `SubPathSpec`, `CostSpec`, `CallSpec`, `ProvSpec`, `ViewSpec`, `KnownSpec` | `PropEngine`, `PropTrace`, `PropStore`, `PropOptions`, `PropBound`, `PropSub*`, `PropCalls`, `PropOrdered`, `PropCollide`, `PropProv`, `MoreSpec`/`PropMore`, `SameSpec`/`PropSame` (C04-C16, C40, C51, C52, C60-C62) |
| `Validate` | hiku/validate/*.py | `ValidateSpec` | `PropValidate`, `PropValExec`, `PropSubVal` (C21-C26) |
| `ReadGraphql` | hiku/readers/graphql.py, from the parsed document on | `ReadSpec` | `PropRead` (C27-C31, C09) |
| `Edn` | hiku/edn.py | `EdnSpec`, `EdnTextSpec` (JSON texts), `EdnLayout` | `PropEdn` (C32, C33), `PropEdnText` (C32), `PropEdnLayout` (C59) |
| `Export` | hiku/export/*.py, hiku/readers/simple.py, hiku/readers/protobuf.py | `ExportSpec` | `PropExport` (C34-C36) |
| `Expr`, `ExprRun` | hiku/expr/*.py, hiku/sources/graph.py | `ExprSpec`, `ExprBindSpec` | `PropExpr`, `PropReqs`, `PropCheck`, `PropExprRun`, `PropExprBind`, `PropExprSound`, `PropExprEx` (C37-C39, C53) |
| `ExprBuild` | hiku/expr/core.py, hiku/sources/graph.py:51-69,103-104 | `meaning`, `mentions`, `written` in `PropExprBuild` | `PropExprBuild` (C58) |
| `Sql` | hiku/sources/sqlalchemy.py, sqlalchemy_async.py, aiopg.py | `SqlSpec` | `PropSql` (C41, C42) |
| `SqlGraph` | hiku/sources/sqlalchemy.py (`__init__`, `__postprocess__`, `_translate_type`), graph.py (`GraphInit`) | `SqlGraphSpec` | `PropSqlGraph` (C64) |
| `JsonText` | json.dumps as called by hiku/introspection/graphql.py:333 | `JsonSpec` | `PropJson` (C65) |
| `Introspect` | hiku/introspection/graphql.py | `IntrospectSpec` | `PropIntrospect`, `PropIntroGraph`, `PropIntroList`, `PropIntroSound`, `PropAlike` (C43-C45) |
| `IntroRun` | hiku/introspection/graphql.py: the loaders as the engine calls them, synchronous and asynchronous | `IntroRunSpec` | `IntroMet`, `IntroServe`, `PropIntroRun` (C56) |
| - (the client is part of the specification) | hiku/introspection/graphql.py, hiku/engine.py | `IntroClient`, `IntroDoc` | `IntroAsk`, `PropIntroClient`, `ExIntro`, `PropEndpointIntro` (C46), `PropIntroDoc`, `ExIntroDoc` (C57) |
| `Endpoint` | hiku/endpoint/graphql.py | `EngineSpec`, `CallSpec` | `PropEndpoint`, `PropEndpointSub` (C46) |
| `Telemetry` | hiku/telemetry/prometheus.py | - | `PropTelemetry`, `PropAlike`, `PropObserved` (C47) |
| `Console` | hiku/console/ui.py | - | `PropConsole`, `PropEndpointSub` (C48) |
| `Builder` | hiku/builder.py | `BuilderSpec` | `PropBuilder` (C49) |
| `Kinko` | hiku/typedef/kinko.py, hiku/typedef/types.py | `KinkoSpec` | `PropKinko` (C54) |
| `Async` | hiku/executors/asyncio.py: one execution as a coroutine, with cancellation | `reported`, `calls_made`, `made`, `ended` in `Async` | `AsyncProof`, `PropAsync`, `PropAsyncEx` (C55) |

Concrete instances that meet the hypotheses: `Examples`, `ExEngine`, `ExSub`,
`ExSubCheck`, `ExSubWf`, `PropSubEx`, `PropAlikeEx`, `PropEndpointSubEx`,
`PropExprEx`, `PropRecordsEx`, `ExIntro`, and the `*_example` theorems beside the property theorems.
All other files are lemmas.

### How executions are modelled

A configuration is a world (all workflows with their indexes, and the log of
loader calls) and the task queue. The executor's loop takes, again and again, a
non-empty duplicate-free list of pending futures - the schedule is any list of
such lists - and runs the callbacks of the queue. `execute E fuel g q sched r`
says that the execution of `q` with schedule `sched` has the outcome `r`; the
sync, thread and asyncio executors are schedules of this form. `fuel` bounds
the Python loops and recursions; `OutOfFuel` is not a Python exception, and
`C05_loops_end` shows that it does not occur from the bound `max_work` on, which
is computed from query and graph. What a query means (`resolve_query`) is a
recursive function of query, graph and data.

Operations of Python which several specifications use by the model's names (iteration, sequences, truth, `==`, the
decision of directives) have their own specification, `PySpec`, which uses values only; `PropPy` proves that they are
what it says (C13_sequences, C18_iteration, C29_truth, C29_judged, C32_equality).

## 3. Simplifications, and what is not modelled

* Val: numbers are integers and finite floats; objects compare by identity; no
  `__eq__`/`__hash__` of users' classes.
* Engine: one context for the whole execution; loaders do not change the query
  objects given to them; times and threads only as the order of finished calls.
* Result: `Proxy` attributes as reads by name.
* Expr: a `StopIteration` inside of the generator of `if_some` is not turned into
  `RuntimeError`; module globals visible to generated code are not modelled.
  ExprRun: objects of the sub-graph as results of expressions, dictionaries as
  values of options of expressions and iteration over a single object are not
  modelled (an error there).
* ExprBuild: attributes which all Python objects have (`object_attrs`) are an error in the model; texts of `define` which
  are not EDN lists are not modelled; the identity of a function is a number.
* ReadGraphql: the parser of graphql-core is not modelled: documents are syntax
  trees. Export: printing of GraphQL documents and the protobuf wire format
  (hiku/protobuf/query_pb2.py) are not modelled.
* Sql: the text of statements and the context are not modelled; rows come from
  any function of the selected ids; ids are compared as model values.
* Introspect, IntroRun: descriptions are parameters, and so is `json.dumps` of default values (`texts`), which JsonText defines for C65; floats are written by a parameter, NaN and infinity are not modelled.
* Transform: descriptions are not modelled; post-processing of functions is a
  parameter.
* Telemetry: times are not modelled. The observation of a sub-graph is that of
  the callback which takes its result (`observed_sub`).
* Builder: names of existing attributes of the handle class are not modelled.
* Endpoint: a syntax error of a document is the exception `UserErr 0`; the errors
  of a `GraphQLError` raised by user code are told by numbers; calls made inside of a `start` that
  raises are not in the log.
* Console: UTF-8 decoding and tag handlers are parameters; `int()` takes plain
  decimals; `PATH_INFO` and `REQUEST_METHOD` are present.
* Not modelled: hiku/compat.py, examples, setup, docs, the HTML of the console.

## 4. How the properties are proved

* C01-C03: `merge` as in the code; specification: the set of requested paths
  with equal options. Induction on queries. C03's second half is refuted by
  `hash(-1) == hash(-2)`.
* C04, C05, C07, C10, C21, C40: `EngineSub`, `EngineSubRun`: invariant over all
  workflows of an execution - what is in the indexes is right, and what is
  missing is covered by callbacks still waiting in the queue. It implies that at
  the end the index holds exactly what `resolve_query` reads. Conditions
  (`SubSpec.all_supported`) follow from conditions on graphs only
  (`SubWfSpec.wf_graph`) for valid queries. Expressions use graphs of lower number
  (`nested`), and the proof goes by this number.
* C05, C06: potential function `max_work`, decreased by every step, for all
  graphs and loaders (`EngineBound`, `EngineTerm`).
* C06, C08, C16, C51, C52: invariants of the log over all executions, whatever
  loaders return (`EngineTrace`, `EngineLog`).
* C11-C13: proofs on the store functions, and invariants of the log.
* C14, C15: invariants of the queue for arbitrary programs which follow its
  discipline; the engine follows it (`EngineDisc`).
* C17-C20: induction over queries. C22-C26: validators against independent
  predicates, both directions.
* C27-C31, C09: fuel bound of the reader; meaning of documents as an inductive
  relation.
* C32, C33: the character state machine of the EDN reader; round trip by
  induction on values. C34-C36: `read (export q) = merge q`.
* C37: simulation between the meaning of expressions and the generated Python
  subset. C38: logical relation between full and restricted data. C39: types
  as sets of values. C53: C37, C38, C40 and the engine put together: what the
  extraction of requirements gives fits the sub-graph for every checked
  expression (`PropExprBind`), so graphs defined by expressions are sound.
* C41, C42: over all tables. C43-C45: the introspection graph against the graph;
  executions of alike graphs are simulated step by step (`EngineSim`), which
  also gives C47.
* C46, C48: the answer as a function of reading, validation and the execution.
* C49: mutable heap of handles. C50: induction over graphs.
* C54: the printer is refined to a stream of symbols, whose text and whose types can both be read back.
* C55: a transition system over events of the loop (turn given, calls reported, coroutine cancelled, cleanup finished) with an invariant relating what was reported to the calls still pending. Exceptions of callbacks leave the state they were raised in (`progressX`); `run_cb_raises` in `AsyncProof` shows that exceptions of users in callbacks come only from results of calls and from procedures of sub-graphs.

* C56: the loaders of introspection answer (instead of raising) only for identifiers to which a
  query can lead, so `SubSpec.met` follows the objects which a query meets and
  `serves_met`/`loaded_together` ask loaders to answer for these only (the theorems named `_met`
  of C04, C05, C07 are the engine's theorems under this weaker hypothesis). Invariant: all identifiers
  met are `fine` (`IntroMet`), so every call is answered (`IntroServe`).
* C57: by C56 the answer is what the loaders say object by object; the readers of `IntroClient` are run
  over it by induction on the depth of the query.
  Over the endpoint: `C57_document_read` shows that the reader turns the document of graphql-js (with the
  fragments FullType, InputValue and TypeRef, `ofType` followed `d` times) into the query of `IntroClient`
  (fragments are expanded once and cached; `merge` moves links behind fields), `C46_introspected` that every
  request to an endpoint over a sound graph is answered with the result of its query - by C56, so with the
  real functions of introspection among the loaders, and without the condition that `__typename` is asked
  for once, since the endpoint answers it itself.

* C58: induction over programs; the traversal collects the functions in a registry (`adds`), and checker and generated
  code look functions up by name only, so the order of the set is irrelevant when names differ.

* C61: the order of queries and of results (`MoreSpec`); the meaning of queries is monotone, conditions on queries carry over to their parts, and both executions give their meanings (C21).
* C04, C10, C21, C46, C48, C61, C62 over sound graphs: the loaders need to answer only for the objects which they know
  (`KnownSpec.serves_known`: the objects known are closed under links and under the step into a sub-graph).  Proof
  (`PropKnown`): what the query meets (`SubSpec.met`) is known, and the depth to which values of fields are unfolded
  does not matter beyond the nesting of the sub-graphs (`level_val`).  Instance: loaders which raise KeyError
  (`PropKnownEx`, `strict_not_serves`).
* C62: the same for members shared by two otherwise unrelated queries (`SameSpec`), through the meaning of both; merged queries by induction on their depth.
* C63: places of a result by induction along keys and positions (`ViewSpec`): at each of them the denormalizer reads the one slot of the object and member; agreement of two readings by induction on the selection.
* C64: `make_sql_graph` against a relation between definitions and made nodes, both directions of failing; values by C41, links by C42.
* C65: a grammar of GraphQL values (`gql_text`), one of JSON (`json_says`) and their meaning (`ReadSpec.denotes`, the specification of C28); induction on values. Strings hold any characters; one behind U+FFFF is written as a surrogate pair, which the text of a string means by GraphQL's specification of October 2021 (older ones: two code units). The row of introspection by C56's model with `json.dumps` put in for its parameter.
* C60: provenance as mutually inductive relations over the log (`ProvSpec`); an invariant of all executions, for arbitrary
  loaders: every slot of the index of every workflow came from a call of the log (`EngineCells`, `EngineLog`, with the
  run of each workflow as ghost state).

* C59: the grammar of EDN texts as mutually inductive relations; induction over derivations, against the state machine.

Properties that are false of the code keep their statement, have status
`partial`, a `_refuted` theorem with a concrete program, and theorems for the
cases where they hold.

## 5. Findings (each proved as a `_refuted` theorem)

1. Keys of the index collide for options -1 and -2 (C03); then results are wrong and depend on scheduling (C04).
2. Members of mutations with selections run behind all others (C09).
3. Selections of parts of fields in ordered nodes raise AttributeError (C10, C21).
4. Fields required by links, and members of sub-graphs, are loaded without options and defaults (C11).
5. Aliases inside of record fields are lost, records nested by type name fail (C17); the two denormalizers differ on record fields (C19).
6. Validation raises for links in records, for some option types and for recursive types (C22); does not report clashes in records (C24); graph validation accepts links which require links (C26).
7. `@skip` together with `@include`: only one is obeyed (C29).
8. EDN: escapes, symbols, tags and lists do not come back (C32); unfinished text behind a value is ignored (C33).
9. Exporters drop aliases and ordered (C34-C36).
10. Compiled expressions: names kept after their scope, shadowed or equal to `ctx`, `env`, `next` or to renamed variables give wrong values (C37).
11. Requirements of functions typed by reference are not extracted (C38); links named in records of parameters are called as fields (C53); `check_type` does not end on recursive types (C39).
12. Sub-graph fields which do not use `this` raise KeyError (C40).
13. SQL links of the root get a value instead of a list; NULL targets are identifiers (C42).
14. Introspection is not closed in several cases (C44), lists private fields of records (C45).
15. Requests without query, with syntax errors, undefined operations or fragments raise (C46); console: CONTENT_LENGTH and data which is not JSON (C48).
16. Metrics of functions shared between nodes are recorded under one of them (C47).
17. Handles of the builder are changed in place (C49).
18. Type definitions: `Float` and `Any` are both Unknown, a type named String is taken for strings, values of mappings are written on lines of their keys (C54).
19. asyncio: a failing loader leaves the others running, a coroutine cancelled before its first turn leaves its loaders, and cleaning up ends at the first exception of a loader while others still run (C55).
20. Introspection says that an argument typed Optional without default may be left out, validation requires it (C44).
21. Asking for `__typename` under two aliases in one node is valid and raises TypeError in the engine (C56; the endpoint is not affected, it handles `__typename` itself).
22. A member called `obj` can not be written: `S.this.obj` is `this` itself, also for fields of sub-graphs given by name; of two functions with the same `_name`, which is called depends on the order of a set (C58).
23. Parts of a record named twice in a query, with different parts of their own, are accepted; in the result are only those of the last one (C61).
24. Types derived from columns are not nullable for clients, but None is served for NULL and for missing rows (C64).
25. Default values which are non-empty dictionaries are shown with quoted keys, which is not GraphQL (C65).

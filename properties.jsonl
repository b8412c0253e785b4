{"id": "C01", "title": "Merging queries keeps exactly what was requested", "statement": "merge(nodes) requests exactly the same set of paths (name, options, alias at every level) as the given nodes together, and no level of the merged query contains two members with the same (name, options, alias).", "quantifier": "all finite lists of query nodes, all nesting depths, all options whose hashes do not collide", "why_tests_cant": "the set of queries is infinite and nesting is unbounded; tests pick a handful of shapes", "anchors": ["hiku/query.py: _merge, merge"]}
{"id": "C02", "title": "Merging is idempotent and ignores how a query was split", "statement": "merge([merge(ns)]) equals merge(ns); merging an already merged query changes nothing but the position of links, which move behind fields at every level, and the order of first occurrence is kept among fields and among links.", "quantifier": "all lists of query nodes", "why_tests_cant": "equational law over an infinite domain", "anchors": ["hiku/query.py: _merge, merge"]}
{"id": "C03", "title": "Result slots are determined by field name and option values", "statement": "Two requests of one node share a result slot (index key) when their names are equal and their options are equal up to the order in which the options were written. Requests with different option values never share a slot.", "quantifier": "all field names, all option mappings, all hash functions of the Python runtime", "why_tests_cant": "needs all pairs of option values; the second half is in fact false of the code (hash(-1) == hash(-2))", "anchors": ["hiku/query.py: _compute_hash, FieldBase.options_hash, FieldBase.index_key"]}
{"id": "C04", "title": "A query result does not depend on scheduling", "statement": "For per-object data loaders, executing a valid query gives the same denormalized result for every order and grouping in which the executor reports finished loader calls, and this result is the one obtained by resolving the query recursively, object by object.", "quantifier": "all graphs, all valid queries, all loader data, all schedules", "why_tests_cant": "the number of schedules is exponential and data/query sizes are unbounded", "anchors": ["hiku/engine.py: Query, store_fields, store_links, link_result_to_ids", "hiku/executors/queue.py: Queue.progress", "hiku/result.py: Proxy, denormalize"]}
{"id": "C05", "title": "Every execution terminates within a bound fixed by the query", "statement": "Under every schedule Engine.execute reports at most a number of finished-batches rounds bounded by the size of the query, whatever the amount of data, and never gets stuck with work left.", "quantifier": "all graphs, queries, data and schedules", "why_tests_cant": "liveness over all schedules", "anchors": ["hiku/engine.py: Query.process_node, Query.process_link", "hiku/executors/*.py: process"]}
{"id": "C06", "title": "Loaders are called in batches (no N+1)", "statement": "When a node is processed for a list of ids, each loader function is called once with all the ids and all the requested fields it serves; the total number of loader calls of an execution is bounded by the size of the query and independent of the number of ids.", "quantifier": "all graphs, queries, data and schedules", "why_tests_cant": "a bound over all data sizes", "anchors": ["hiku/engine.py: SplitQuery, Query.process_node, Query._schedule_fields"]}
{"id": "C07", "title": "A link loader sees exactly the required values, after they were loaded", "statement": "A link with requirements is called only after its required field has been loaded for all the ids, with the required values of these ids in the same order; a link without requirements is called without them; links of a node called with options receive them.", "quantifier": "all graphs, queries and schedules", "why_tests_cant": "ordering property over all schedules", "anchors": ["hiku/engine.py: link_reqs, Query._schedule_link, Query.process_node"]}
{"id": "C08", "title": "Ordered nodes run their steps one after another", "statement": "When a query node is ordered (mutations), the loader of a step is started only after the loader of the previous step of that node has finished and its values were stored; consecutive fields of one loader form one step.", "quantifier": "all ordered queries and schedules", "why_tests_cant": "ordering property over all schedules", "anchors": ["hiku/engine.py: GroupQuery, Query._process_node_ordered"]}
{"id": "C09", "title": "Mutations run in document order", "statement": "The members of a GraphQL mutation are executed in the order in which they were written in the document.", "quantifier": "all mutation documents", "why_tests_cant": "false of the code: query merging moves links behind fields; a test on one document does not settle it", "anchors": ["hiku/readers/graphql.py: GraphQLTransformer.visit_operation_definition", "hiku/query.py: _merge", "hiku/engine.py: GroupQuery"]}
{"id": "C10", "title": "Ordered nodes support the same members as unordered ones", "statement": "A query which executes as an unordered node also executes when its root is marked as ordered, with the same result.", "quantifier": "all graphs and queries", "why_tests_cant": "false of the code for complex fields (AttributeError); holds for the rest, for all queries", "anchors": ["hiku/engine.py: GroupQuery.visit_link, SplitQuery.visit_link"]}
{"id": "C11", "title": "Loaders receive normalized options", "statement": "For every requested field or link with declared options the loader receives exactly the declared options, each with the value from the query or else its default; if a declared option has neither, execution raises TypeError before any loader is called; undeclared options never reach a loader of a member with declared options.", "quantifier": "all graphs, queries, options", "why_tests_cant": "universally quantified over option sets", "anchors": ["hiku/engine.py: _yield_options, InitOptions"]}
{"id": "C12", "title": "Malformed loader results are rejected, never stored", "statement": "Field values are stored iff the loader returned a sequence with one row per id and one value per requested field (for the root: one value per field); link results are stored iff they have the shape required by the link type; otherwise TypeError is raised and the result index is unchanged. Stored values land at the position of their id and field.", "quantifier": "all loader results, ids, fields", "why_tests_cant": "all shapes of results", "anchors": ["hiku/engine.py: _check_store_fields, store_fields, _check_store_links, store_links"]}
{"id": "C13", "title": "Optional, single and sequence links follow exactly the returned identifiers", "statement": "The identifiers followed after a link are exactly those stored as references by it: none for Nothing, one for a single link, all in order for sequences; Nothing from a non-optional link raises.", "quantifier": "all link results", "why_tests_cant": "all shapes of results", "anchors": ["hiku/engine.py: link_result_to_ids, link_ref_maybe, link_ref_one, link_ref_many"]}
{"id": "C14", "title": "Callbacks of the task queue fire exactly once and in order", "statement": "Callbacks registered for a future run once, in registration order, when the future is reported as done; those of a task set run once, only when all futures of the set and all sets forked from it are complete.", "quantifier": "all callback programs and all schedules", "why_tests_cant": "histories of unbounded length", "anchors": ["hiku/executors/queue.py: Queue"]}
{"id": "C15", "title": "The task queue is drained at the end", "statement": "When no futures are left after a progress call, no task set, fork record or callback is left behind either, so no registered work is lost.", "quantifier": "all callback programs and schedules", "why_tests_cant": "histories of unbounded length", "anchors": ["hiku/executors/queue.py: Queue.progress", "hiku/executors/sync.py, threads.py, asyncio.py: process"]}
{"id": "C16", "title": "A failing loader fails the whole execution", "statement": "If a loader raises, execution raises and never returns a partial result; no loader is started after the failure was observed.", "quantifier": "all graphs, queries, schedules, failing calls", "why_tests_cant": "all failure points", "anchors": ["hiku/executors/*.py", "hiku/executors/queue.py: Queue.progress"]}
{"id": "C17", "title": "Denormalized results mirror the query", "statement": "The denormalized result has, at every level, exactly the result keys (alias or name) of the query, in query order: lists for sequence links in identifier order, None for absent optional links, nested objects for links.", "quantifier": "all results and queries", "why_tests_cant": "unbounded nesting", "anchors": ["hiku/result.py: denormalize, _denormalize"]}
{"id": "C18", "title": "Result objects expose only what was requested", "statement": "Reading a key of a result object succeeds only for keys of its query node and then gives the stored value of that request; any other key raises KeyError (AttributeError for attribute access), and missing data raises AssertionError.", "quantifier": "all results, queries, keys", "why_tests_cant": "all keys and queries", "anchors": ["hiku/result.py: Proxy.__getitem__, Proxy.__getattr__"]}
{"id": "C19", "title": "Both denormalizers agree", "statement": "denormalize(graph, result) and Denormalize(graph, result).process(query) produce the same data for queries over nodes and links.", "quantifier": "all graphs, queries, results", "why_tests_cant": "unbounded nesting", "anchors": ["hiku/result.py: denormalize", "hiku/denormalize/base.py: Denormalize"]}
{"id": "C20", "title": "__typename is the name of the enclosing type", "statement": "The GraphQL denormalizer fills __typename with the name of the type of the enclosing object (root type name at top), at every depth, and otherwise gives the same result as without __typename.", "quantifier": "all graphs, queries, results", "why_tests_cant": "unbounded nesting", "anchors": ["hiku/denormalize/graphql.py: DenormalizeGraphQL", "hiku/endpoint/graphql.py: _StripQuery"]}
{"id": "C21", "title": "A validated query executes without name or option errors", "statement": "If validate(graph, query) reports nothing, then normalization of options succeeds and every name used by the engine on the way resolves: execution with well-shaped loader results never raises.", "quantifier": "all graphs accepted by Graph(), all queries", "why_tests_cant": "connects two recursive functions over unbounded inputs", "anchors": ["hiku/validate/query.py: QueryValidator", "hiku/engine.py: InitOptions, SplitQuery"]}
{"id": "C22", "title": "Validation reports problems instead of raising", "statement": "validate(graph, query) returns a list of messages for every query.", "quantifier": "all graphs and queries", "why_tests_cant": "false of the code for an unknown link inside a record field (KeyError)", "anchors": ["hiku/validate/query.py: _RecordFieldsValidator.visit_link, _AssumeRecord.visit_typeref"]}
{"id": "C23", "title": "Option values are checked against their declared types", "statement": "Validation accepts an option value iff it conforms to the declared type (scalars, Optional, Sequence, Mapping, Record with exactly the declared keys, references to data types).", "quantifier": "all types and values", "why_tests_cant": "types and values nest without bound", "anchors": ["hiku/validate/query.py: _OptionTypeValidator, _ValidateOptions"]}
{"id": "C24", "title": "Queries with ambiguous result keys are rejected", "statement": "Validation reports an error iff two members of a node have the same result key but different name or options.", "quantifier": "all queries", "why_tests_cant": "all pairs in unbounded queries", "anchors": ["hiku/validate/query.py: QueryValidator.visit_node"]}
{"id": "C25", "title": "An accepted graph is well formed", "statement": "Graph(...) accepts a definition iff: names of fields within each node are unique, node names are unique, every link points to an existing node, every required field exists in the node of the link.", "quantifier": "all graph definitions", "why_tests_cant": "all graph definitions", "anchors": ["hiku/validate/graph.py: GraphValidator"]}
{"id": "C26", "title": "Link requirements name fields", "statement": "In an accepted graph the requirement of every link names a field of the same node, which can be loaded as a field.", "quantifier": "all accepted graphs", "why_tests_cant": "false of the code: a link may require another link", "anchors": ["hiku/validate/graph.py: GraphValidator.visit_link", "hiku/engine.py: SplitQuery.visit_link"]}
{"id": "C27", "title": "The GraphQL reader terminates on every document", "statement": "Reading any parsed document ends with a query or an error; cyclic fragment use reached by the operation always raises TypeError, and acyclic documents are never rejected as cyclic.", "quantifier": "all documents, including cyclic fragment graphs", "why_tests_cant": "termination over all inputs", "anchors": ["hiku/readers/graphql.py: FragmentsTransformer"]}
{"id": "C28", "title": "Fragments mean their contents", "statement": "Reading a document with named or inline fragments gives the same query as reading the document in which every fragment spread is replaced with the selections of the fragment.", "quantifier": "all documents", "why_tests_cant": "unbounded documents", "anchors": ["hiku/readers/graphql.py: SelectionSetVisitMixin, FragmentsTransformer"]}
{"id": "C29", "title": "@skip and @include select fields", "statement": "A selection is dropped iff its @skip condition is true or its @include condition is false, with conditions given literally or by variables.", "quantifier": "all selections and variable values", "why_tests_cant": "all combinations; false of the code when both directives are present", "anchors": ["hiku/readers/graphql.py: SelectionSetVisitMixin._should_skip"]}
{"id": "C30", "title": "Query variables take the provided value, the default or null", "statement": "A variable used in a query has the provided value, else its default, else null if nullable; otherwise reading raises TypeError; using an undeclared variable raises TypeError.", "quantifier": "all operations, variable definitions and values", "why_tests_cant": "all inputs", "anchors": ["hiku/readers/graphql.py: GraphQLTransformer.visit_operation_definition, lookup_variable"]}
{"id": "C31", "title": "The requested operation is the one executed", "statement": "Given an operation name, the operation with that name is read; without it the document must hold exactly one operation; duplicate or missing operations raise.", "quantifier": "all documents and names", "why_tests_cant": "all documents", "anchors": ["hiku/readers/graphql.py: OperationGetter"]}
{"id": "C32", "title": "EDN round trip", "statement": "loads(dumps(v)) == v for values made of nil, booleans, integers, strings, keywords, symbols, vectors, lists, maps and sets.", "quantifier": "all values of this kind, all depths", "why_tests_cant": "codec law over an infinite domain; false for strings with characters that need \\u escapes", "anchors": ["hiku/edn.py: loads, dumps, parser, _iterencode"]}
{"id": "C33", "title": "EDN reader accepts exactly one top-level value", "statement": "loads returns a value only if the text holds exactly one complete top-level element; the text of two values, of none or of an unclosed collection is refused.", "quantifier": "all texts of that form", "why_tests_cant": "all inputs", "anchors": ["hiku/edn.py: loads"]}
{"id": "C34", "title": "Simple exporter and reader are inverse", "statement": "readers.simple.transform(export.simple.export(q)) equals the merged query for queries without aliases.", "quantifier": "all queries", "why_tests_cant": "unbounded queries; false with aliases, which the exporter drops", "anchors": ["hiku/export/simple.py", "hiku/readers/simple.py"]}
{"id": "C35", "title": "Protobuf exporter and reader are inverse", "statement": "readers.protobuf.transform(export.protobuf.export(q)) equals the merged query for queries without aliases and with non-empty names.", "quantifier": "all queries", "why_tests_cant": "unbounded queries; false with aliases, which the message cannot carry", "anchors": ["hiku/export/protobuf.py", "hiku/readers/protobuf.py"]}
{"id": "C36", "title": "GraphQL exporter and reader are inverse", "statement": "Reading the document produced by export.graphql.export(q) gives the merged query back, including aliases and options.", "quantifier": "all queries with GraphQL-expressible options", "why_tests_cant": "unbounded queries", "anchors": ["hiku/export/graphql.py", "hiku/readers/graphql.py"]}
{"id": "C37", "title": "Expressions compile to code with the documented meaning", "statement": "Evaluating the Python code compiled from an expression gives the value described in the documentation of each, if_, if_some, get and functions, with lexical scoping of bound variables.", "quantifier": "all checked expressions, all data", "why_tests_cant": "compiler correctness; false for shadowed or re-used variable names", "anchors": ["hiku/expr/compiler.py: ExpressionCompiler, Environ", "hiku/expr/core.py"]}
{"id": "C38", "title": "Requirements of an expression cover everything it reads", "statement": "Evaluating a checked expression on a result object restricted to its extracted requirements never reads a field which was not requested.", "quantifier": "all checked expressions and data", "why_tests_cant": "all expressions", "anchors": ["hiku/expr/refs.py: RequirementsExtractor, ref_to_req, type_to_query", "hiku/expr/checker.py"]}
{"id": "C39", "title": "Expression type checking", "statement": "check_type(t1, t2) succeeds only if every value of type t1 is usable as t2: record width and depth subtyping, T below Optional[T], everything below Any; and it is reflexive and transitive on the closed types it accepts.", "quantifier": "all types", "why_tests_cant": "types nest without bound", "anchors": ["hiku/expr/checker.py: check_type"]}
{"id": "C40", "title": "Sub-graph fields can be queried on their own", "statement": "A field defined by an expression over a sub-graph is computed from the data of that sub-graph only, whichever other fields are requested together with it.", "quantifier": "all expressions and combinations of requested fields", "why_tests_cant": "false of the code when the expression does not use `this` (KeyError)", "anchors": ["hiku/sources/graph.py: SubGraph.__call__"]}
{"id": "C41", "title": "SQL field source returns one row per id", "statement": "FieldsQuery returns, whatever order and subset of rows the database gives back, one row per id in id order with one value per field, with None for missing rows; chunked fetching does not lose rows.", "quantifier": "all row sets, ids, fields, chunk boundaries", "why_tests_cant": "all data sizes and orders", "anchors": ["hiku/sources/sqlalchemy.py: FieldsQuery", "hiku/sources/aiopg.py, sqlalchemy_async.py"]}
{"id": "C42", "title": "SQL link source groups identifiers by origin", "statement": "LinkQuery maps each id to exactly the identifiers paired with it, in database order: the list for sequence links, Nothing when absent for optional links, KeyError when absent for single links; results have the shape which the engine requires.", "quantifier": "all pair sets and ids", "why_tests_cant": "all data sizes and orders", "anchors": ["hiku/sources/sqlalchemy.py: LinkQuery, _to_maybe_mapper, _to_one_mapper, _to_many_mapper"]}
{"id": "C43", "title": "Introspection describes field types faithfully", "statement": "The type reported by introspection for a field is nullable iff its declared type is Optional (or Any), is a list iff it is a sequence, and names the declared scalar or object.", "quantifier": "all declared types", "why_tests_cant": "types nest without bound", "anchors": ["hiku/introspection/graphql.py: TypeIdent"]}
{"id": "C44", "title": "Introspection is closed", "statement": "Every object or input type reported for a field or argument is listed in the schema and can itself be introspected.", "quantifier": "all graphs", "why_tests_cant": "false of the code when the mutation graph has nodes which the query graph lacks", "anchors": ["hiku/introspection/graphql.py: root_schema_types, type_fields_link, _nodes_map"]}
{"id": "C45", "title": "Private fields are hidden and introspection does not change data", "statement": "Fields of nodes whose names start with an underscore never appear in introspection, all the others do, in definition order; the graph with introspection added answers every former query as before.", "quantifier": "all graphs and queries", "why_tests_cant": "all graphs", "anchors": ["hiku/introspection/graphql.py: type_fields_link, GraphQLIntrospection"]}
{"id": "C46", "title": "The GraphQL endpoint answers with data or errors", "statement": "dispatch returns {data} iff the query was read and validated without errors, otherwise {errors} with all validation messages and no loader is called; mutations run only against the mutation graph; batches answer item by item in order.", "quantifier": "all requests", "why_tests_cant": "all requests", "anchors": ["hiku/endpoint/graphql.py"]}
{"id": "C47", "title": "Metrics do not change results", "statement": "A graph instrumented with GraphMetrics gives the same results as the original graph, and every call of a loader is observed once for every requested field.", "quantifier": "all graphs and queries", "why_tests_cant": "all graphs", "anchors": ["hiku/telemetry/prometheus.py"]}
{"id": "C48", "title": "Console rejects oversized and invalid queries without executing them", "statement": "The console answers 404 for unknown paths, 405 for wrong methods, 400 for bodies over 1MB and invalid queries, without executing anything; it never lets an exception of a query escape.", "quantifier": "all requests", "why_tests_cant": "all requests", "anchors": ["hiku/console/ui.py"]}
{"id": "C49", "title": "Builder queries mean what they say", "statement": "build() turns handles into the query with the given names, options, aliases and nesting; building never reuses options or members between handles.", "quantifier": "all handle expressions", "why_tests_cant": "unbounded nesting", "anchors": ["hiku/builder.py"]}
{"id": "C50", "title": "Graph transformers that change nothing change nothing", "statement": "apply(graph, [GraphTransformer()]) gives a graph with the same nodes, fields, links and options; apply with several transformers composes them left to right.", "quantifier": "all graphs", "why_tests_cant": "all graphs", "anchors": ["hiku/graph.py: GraphTransformer, apply"]}
{"id": "C51", "title": "Execution context is read-only and total over given keys", "statement": "The context passed to loaders gives exactly the provided keys and values and raises KeyError for any other; it is passed as first argument iff the loader was marked with pass_context.", "quantifier": "all contexts and keys", "why_tests_cant": "all keys", "anchors": ["hiku/engine.py: Context, pass_context, Query._submit"]}
{"id": "C52", "title": "Only what the query asks for is loaded", "statement": "Every loader call made during an execution is for members which the query asks for, or which links asked for require, of a node which the query reaches (sub-graphs included), for at least one object; no other function is called.", "quantifier": "all graphs, queries, loader results and completion orders", "why_tests_cant": "all executions", "anchors": ["hiku/engine.py: Query, _yield_options", "hiku/sources/graph.py: SubGraph"]}
{"id": "C53", "title": "Fields defined by expressions have the meaning of their expressions, end to end", "statement": "For a graph whose fields are defined by expressions over sub-graphs (SubGraph + define + S), every execution of a valid query loads what the expressions need from the sub-graph and nothing fails; wherever such a field is asked of an object, the result holds what the expression means over that object and the root of the sub-graph, with the given values of its options - independent of the other fields asked, the order of events, and of what else was loaded.", "quantifier": "all graphs, expressions, queries, data and completion orders", "why_tests_cant": "all expressions over all graphs in all executions: type checking, extraction of requirements, code generation, query execution and proxies have to agree", "anchors": ["hiku/sources/graph.py: SubGraph, BoundExpr, Expr", "hiku/expr/checker.py", "hiku/expr/refs.py: RequirementsExtractor", "hiku/expr/compiler.py", "hiku/engine.py", "hiku/result.py: Proxy"]}
{"id": "C54", "title": "The text of type definitions determines the types", "statement": "dumps(graph) writes a definition for each data type, each node (with its typed or described members) and each typed or described member of the root, and only those; two graphs with the same text have the same definitions in names, members, types and descriptions - up to the types Float and Any, written alike; it fails exactly when a type holds a function.", "quantifier": "all graphs, types of any nesting, names and descriptions", "why_tests_cant": "unbounded nesting of types; all pairs of graphs", "anchors": ["hiku/typedef/kinko.py: dumps, GraphTypesEx, _IndentedPrinter, _LinePrinter", "hiku/graph.py: GraphTypes", "hiku/typedef/types.py: TypeDef"]}
{"id": "C55", "title": "Cancelling an execution cancels the pending loaders", "statement": "With the asyncio executor: a result is returned only by an execution which was never cancelled, and it is the result of the execution. Cancelling an execution which waits for loaders (or the cancellation of one of the loaders) requests the cancellation of exactly the loader calls which were made and not yet reported as finished, no loader is called afterwards, the execution ends with an exception and never with a result: CancelledError unless a loader raises something else, and it ends when its loaders do. When it has ended, no loader of it is running.", "quantifier": "all graphs, queries, loaders, completion orders and moments of cancellation", "why_tests_cant": "cancellation may arrive at every await, after any history of completions, and loaders may react to it in any way and order", "anchors": ["hiku/executors/asyncio.py: AsyncIOExecutor.process", "hiku/executors/queue.py: Queue"]}
{"id": "C56", "title": "Queries about the schema are answered", "statement": "With introspection added to a graph, every query without validation errors - about the schema, about the data, or about both - is executed without a failure under every completion order, and its result holds exactly what the functions of introspection say, object by object: no chain of links leads to an object for which a function of introspection raises.", "quantifier": "all schemas whose references exist, all graphs, queries and completion orders", "why_tests_cant": "unbounded nesting of ofType, fields, args in queries; all schemas", "anchors": ["hiku/introspection/graphql.py: GraphQLIntrospection, BindToSchema, type_info, type_fields_link, field_info, field_type_link, input_value_info", "hiku/engine.py: Query"]}
{"id": "C57", "title": "A client reads the schema as declared", "statement": "A GraphQL client which sends the standard introspection query, with its fragments, to the endpoint over a graph with introspection gets an answer with data, and reads from it exactly the declared schema: every node, record (as an object and as an input object) and scalar, their public members with descriptions, types, arguments and default values, the root types and the directives, and nothing else; provided that the query follows ofType as far as the declared types are nested.", "quantifier": "all schemas with distinct names whose references exist, all depths of the query, all completion orders", "why_tests_cant": "all schemas, types of unbounded nesting, all schedules", "anchors": ["hiku/introspection/graphql.py", "hiku/engine.py", "hiku/denormalize/graphql.py", "hiku/result.py"]}
{"id": "C58", "title": "Expressions mean what is written", "statement": "What is written over S, define, each, if_ and if_some becomes the expression it denotes, at every nesting in lists, dictionaries and arguments. Every function mentioned at any depth is found, once, is checked with its own types and called with its own body, whatever the order in which the set of functions is traversed. A text annotation of define requires of an argument exactly the names it lists, nested links included. A field of a sub-graph given without expression is the field of the same name of this.", "quantifier": "all programs over S and define, all functions, annotations and traversal orders", "why_tests_cant": "unbounded nesting of programs and annotations; order of sets of functions", "anchors": ["hiku/expr/core.py: S, define, to_expr, each, if_, if_some, _query_to_types", "hiku/sources/graph.py: SubGraph, BoundExpr"]}
{"id": "C59", "title": "The layout of EDN texts does not matter", "statement": "A text which spells an EDN value is read by loads as that value, whatever spaces, commas, line ends and comments are put between its items and around it, and however its strings, characters and integers are spelled (escapes, \\newline, the suffix N), with any tag handlers; a text spells at most one value.", "quantifier": "all values, nested to any depth, all layouts and spellings, all tag handlers", "why_tests_cant": "unbounded nesting, all combinations of blanks and comments", "anchors": ["hiku/edn.py: loads, parser, tag_handler, character_handler, number_handler, symbol_handler"]}
{"id": "C60", "title": "Every value of a result was returned for that object", "statement": "Whatever the loaders return, even if they contradict themselves from one call to the next, and in whatever order calls finish: each value readable in a result under a key of an object is what a loader call returned for exactly that object and that member of the query (at that place of its answer), or the value of its expression, or None for a link to nothing; each object a link leads to is one whose identifier the loader of this link returned for the object, when it was given what the link requires of the object. An expression is computed of the object of the sub-graph which corresponds to it, and all it reads there was returned by loaders in the same sense. No value of another object, another field or other options (as told apart by the hash of options) shows up.", "quantifier": "all graphs, queries, behaviours of loaders (also inconsistent ones), completion orders, and moments of executions", "why_tests_cant": "all behaviours of loaders and all interleavings; a mix-up shows only when objects or calls are many", "anchors": ["hiku/engine.py: store_fields, store_links, link_reqs, link_result_to_ids, Query.process_node, Query.process_link", "hiku/result.py: Index, Proxy"]}
{"id": "C61", "title": "Asking for more does not change the rest", "statement": "If one query asks for all that another one asks for, and perhaps for more, in whatever order at any level, then the smaller query is accepted whenever the larger one is, and everything its result holds is in the result of the larger query, at the same place with the same value, whatever the completion orders of both executions. Queries which differ in order only give results which hold the same. This is said of accepted queries which have no key twice and name each part of a record once (and parts of fields not inside of mutations), of well-formed graphs whose types are spelled out, and of loaders which answer consistently and as their types say; options whose hashes collide are excepted.", "quantifier": "all pairs of queries of which one is part of the other, all graphs (sub-graphs included), consistent loaders, and pairs of schedules", "why_tests_cant": "a relation between two executions, over all pairs of queries and of schedules; batches, calls and positions in answers differ between the two", "anchors": ["hiku/engine.py: Query, SplitQuery, store_fields, store_links", "hiku/denormalize/base.py", "hiku/validate/query.py", "hiku/result.py"]}
{"id": "C62", "title": "The same request has the same answer", "statement": "Wherever two accepted queries ask for the same (the same member of the same object, with options which mean the same, and at least as much inside), their results show the same, whatever keys (aliases) it is asked under, whatever else is asked for, in whatever order, and whatever the completion orders of the executions; in particular a query merged with others finds in the result all that it would have got alone. This is said of accepted queries which have no key twice and name each part of a record once (and parts of fields not inside of mutations), of well-formed graphs whose types are spelled out, and of loaders which answer consistently and as their types say; options whose hashes collide are excepted.", "quantifier": "all pairs of queries and all requests they share, all sets of merged queries, all graphs (sub-graphs included), consistent loaders, and pairs of schedules", "why_tests_cant": "a relation between two executions, over all pairs of queries and of schedules", "anchors": ["hiku/engine.py: Query, SplitQuery, InitOptions, store_fields, store_links", "hiku/query.py: merge, Field.index_key, Link.index_key", "hiku/denormalize/base.py", "hiku/result.py"]}
{"id": "C63", "title": "An object looks the same wherever it appears in a result", "statement": "If one object is reached in several ways in a result - by different links, or several times in a list - then whatever is asked of it at two places (the same member, with options which mean the same, and at least as much inside) is shown the same at both, under whatever keys; even if its loaders are called several times for it and answer differently every time, and whatever the completion order. Every object which a link shows is at such a place. This is said of results of queries which have no key twice and name each part of a record once.", "quantifier": "all graphs, queries, loaders (consistent or not), schedules, and pairs of places in a result", "why_tests_cant": "the places of a result are unbounded, and loaders whose answers change between calls depend on the schedule", "anchors": ["hiku/engine.py: store_fields, store_links", "hiku/result.py: Index, Proxy, denormalize"]}
{"id": "C64", "title": "Graphs over SQL tables say what the tables hold", "statement": "A graph made of fields and links served by FieldsQuery and LinkQuery has the same nodes, fields, links and options as its definition. A field without a declared type gets the type of its column (Integer, String, or none), a declared type is kept; a missing column is reported when the graph is made. A link distributes the rows according to its own type. Making or transforming the graph again changes nothing more. What the loader serves for a column is of its type, and what introspection tells a client about this type is true of it. FieldsQuery needs exactly one column as primary key if none is given, LinkQuery two columns of one table.", "quantifier": "all definitions of graphs, tables, columns, database contents, identifiers and drivers", "why_tests_cant": "definitions, tables and contents are unbounded; NULLs and missing rows are rarely in the data of tests", "anchors": ["hiku/sources/sqlalchemy.py: _translate_type, FieldsQuery, LinkQuery", "hiku/graph.py: GraphInit, Graph", "hiku/introspection/graphql.py: TypeIdent"]}
{"id": "C65", "title": "Shown default values mean the defaults", "statement": "The default value which introspection shows for an argument is a text of the GraphQL language, and what this text means in a request is the default value used when the argument is left out (tuples as lists, words as strings). Nothing is shown if there is no default. What is shown is always JSON of the default, dictionaries included. A default which can not be written is reported as an error, and only such a default is.", "quantifier": "all schemas and default values", "why_tests_cant": "values are nested without bound and strings hold any characters; tests have a few literals", "anchors": ["hiku/introspection/graphql.py: input_value_info", "hiku/readers/graphql.py: SelectionSetVisitMixin", "hiku/graph.py: Option"]}

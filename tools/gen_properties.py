#!/usr/bin/env python3
"""Regenerates /verif/properties.jsonl (kept as a script so that edits stay readable)."""
import json
P = []
def p(title, statement, quantifier, why, anchors):
    P.append(dict(id='C%02d' % (len(P) + 1), title=title, statement=statement,
                  quantifier=quantifier, why_tests_cant=why, anchors=anchors))

p('Merging queries keeps exactly what was requested',
  'merge(nodes) requests exactly the same set of paths (name, options, alias at every level) as the given nodes together, and no level of the merged query contains two members with the same (name, options, alias).',
  'all finite lists of query nodes, all nesting depths, all options whose hashes do not collide',
  'the set of queries is infinite and nesting is unbounded; tests pick a handful of shapes',
  ['hiku/query.py: _merge, merge'])
p('Merging is idempotent and ignores how a query was split',
  'merge([merge(ns)]) equals merge(ns); merging an already merged query changes nothing but the position of links, which move behind fields at every level, and the order of first occurrence is kept among fields and among links.',
  'all lists of query nodes',
  'equational law over an infinite domain',
  ['hiku/query.py: _merge, merge'])
p('Result slots are determined by field name and option values',
  'Two requests of one node share a result slot (index key) when their names are equal and their options are equal up to the order in which the options were written. Requests with different option values never share a slot.',
  'all field names, all option mappings, all hash functions of the Python runtime',
  'needs all pairs of option values; the second half is in fact false of the code (hash(-1) == hash(-2))',
  ['hiku/query.py: _compute_hash, FieldBase.options_hash, FieldBase.index_key'])
p('A query result does not depend on scheduling',
  'For per-object data loaders, executing a valid query gives the same denormalized result for every order and grouping in which the executor reports finished loader calls, and this result is the one obtained by resolving the query recursively, object by object.',
  'all graphs, all valid queries, all loader data, all schedules',
  'the number of schedules is exponential and data/query sizes are unbounded',
  ['hiku/engine.py: Query, store_fields, store_links, link_result_to_ids', 'hiku/executors/queue.py: Queue.progress', 'hiku/result.py: Proxy, denormalize'])
p('Every execution terminates within a bound fixed by the query',
  'Under every schedule Engine.execute reports at most a number of finished-batches rounds bounded by the size of the query, whatever the amount of data, and never gets stuck with work left.',
  'all graphs, queries, data and schedules',
  'liveness over all schedules',
  ['hiku/engine.py: Query.process_node, Query.process_link', 'hiku/executors/*.py: process'])
p('Loaders are called in batches (no N+1)',
  'When a node is processed for a list of ids, each loader function is called once with all the ids and all the requested fields it serves; the total number of loader calls of an execution is bounded by the size of the query and independent of the number of ids.',
  'all graphs, queries, data and schedules',
  'a bound over all data sizes',
  ['hiku/engine.py: SplitQuery, Query.process_node, Query._schedule_fields'])
p('A link loader sees exactly the required values, after they were loaded',
  'A link with requirements is called only after its required field has been loaded for all the ids, with the required values of these ids in the same order; a link without requirements is called without them; links of a node called with options receive them.',
  'all graphs, queries and schedules',
  'ordering property over all schedules',
  ['hiku/engine.py: link_reqs, Query._schedule_link, Query.process_node'])
p('Ordered nodes run their steps one after another',
  'When a query node is ordered (mutations), the loader of a step is started only after the loader of the previous step of that node has finished and its values were stored; consecutive fields of one loader form one step.',
  'all ordered queries and schedules',
  'ordering property over all schedules',
  ['hiku/engine.py: GroupQuery, Query._process_node_ordered'])
p('Mutations run in document order',
  'The members of a GraphQL mutation are executed in the order in which they were written in the document.',
  'all mutation documents',
  'false of the code: query merging moves links behind fields; a test on one document does not settle it',
  ['hiku/readers/graphql.py: GraphQLTransformer.visit_operation_definition', 'hiku/query.py: _merge', 'hiku/engine.py: GroupQuery'])
p('Ordered nodes support the same members as unordered ones',
  'A query which executes as an unordered node also executes when its root is marked as ordered, with the same result.',
  'all graphs and queries',
  'false of the code for complex fields (AttributeError); holds for the rest, for all queries',
  ['hiku/engine.py: GroupQuery.visit_link, SplitQuery.visit_link'])
p('Loaders receive normalized options',
  'For every requested field or link with declared options the loader receives exactly the declared options, each with the value from the query or else its default; if a declared option has neither, execution raises TypeError before any loader is called; undeclared options never reach a loader of a member with declared options.',
  'all graphs, queries, options',
  'universally quantified over option sets',
  ['hiku/engine.py: _yield_options, InitOptions'])
p('Malformed loader results are rejected, never stored',
  'Field values are stored iff the loader returned a sequence with one row per id and one value per requested field (for the root: one value per field); link results are stored iff they have the shape required by the link type; otherwise TypeError is raised and the result index is unchanged. Stored values land at the position of their id and field.',
  'all loader results, ids, fields',
  'all shapes of results',
  ['hiku/engine.py: _check_store_fields, store_fields, _check_store_links, store_links'])
p('Optional, single and sequence links follow exactly the returned identifiers',
  'The identifiers followed after a link are exactly those stored as references by it: none for Nothing, one for a single link, all in order for sequences; Nothing from a non-optional link raises.',
  'all link results',
  'all shapes of results',
  ['hiku/engine.py: link_result_to_ids, link_ref_maybe, link_ref_one, link_ref_many'])
p('Callbacks of the task queue fire exactly once and in order',
  'Callbacks registered for a future run once, in registration order, when the future is reported as done; those of a task set run once, only when all futures of the set and all sets forked from it are complete.',
  'all callback programs and all schedules',
  'histories of unbounded length',
  ['hiku/executors/queue.py: Queue'])
p('The task queue is drained at the end',
  'When no futures are left after a progress call, no task set, fork record or callback is left behind either, so no registered work is lost.',
  'all callback programs and schedules',
  'histories of unbounded length',
  ['hiku/executors/queue.py: Queue.progress', 'hiku/executors/sync.py, threads.py, asyncio.py: process'])
p('A failing loader fails the whole execution',
  'If a loader raises, execution raises and never returns a partial result; no loader is started after the failure was observed.',
  'all graphs, queries, schedules, failing calls',
  'all failure points',
  ['hiku/executors/*.py', 'hiku/executors/queue.py: Queue.progress'])
p('Denormalized results mirror the query',
  'The denormalized result has, at every level, exactly the result keys (alias or name) of the query, in query order: lists for sequence links in identifier order, None for absent optional links, nested objects for links.',
  'all results and queries',
  'unbounded nesting',
  ['hiku/result.py: denormalize, _denormalize'])
p('Result objects expose only what was requested',
  'Reading a key of a result object succeeds only for keys of its query node and then gives the stored value of that request; any other key raises KeyError (AttributeError for attribute access), and missing data raises AssertionError.',
  'all results, queries, keys',
  'all keys and queries',
  ['hiku/result.py: Proxy.__getitem__, Proxy.__getattr__'])
p('Both denormalizers agree',
  'denormalize(graph, result) and Denormalize(graph, result).process(query) produce the same data for queries over nodes and links.',
  'all graphs, queries, results',
  'unbounded nesting',
  ['hiku/result.py: denormalize', 'hiku/denormalize/base.py: Denormalize'])
p('__typename is the name of the enclosing type',
  'The GraphQL denormalizer fills __typename with the name of the type of the enclosing object (root type name at top), at every depth, and otherwise gives the same result as without __typename.',
  'all graphs, queries, results',
  'unbounded nesting',
  ['hiku/denormalize/graphql.py: DenormalizeGraphQL', 'hiku/endpoint/graphql.py: _StripQuery'])
p('A validated query executes without name or option errors',
  'If validate(graph, query) reports nothing, then normalization of options succeeds and every name used by the engine on the way resolves: execution with well-shaped loader results never raises.',
  'all graphs accepted by Graph(), all queries',
  'connects two recursive functions over unbounded inputs',
  ['hiku/validate/query.py: QueryValidator', 'hiku/engine.py: InitOptions, SplitQuery'])
p('Validation reports problems instead of raising',
  'validate(graph, query) returns a list of messages for every query.',
  'all graphs and queries',
  'false of the code for an unknown link inside a record field (KeyError)',
  ['hiku/validate/query.py: _RecordFieldsValidator.visit_link, _AssumeRecord.visit_typeref'])
p('Option values are checked against their declared types',
  'Validation accepts an option value iff it conforms to the declared type (scalars, Optional, Sequence, Mapping, Record with exactly the declared keys, references to data types).',
  'all types and values',
  'types and values nest without bound',
  ['hiku/validate/query.py: _OptionTypeValidator, _ValidateOptions'])
p('Queries with ambiguous result keys are rejected',
  'Validation reports an error iff two members of a node have the same result key but different name or options.',
  'all queries',
  'all pairs in unbounded queries',
  ['hiku/validate/query.py: QueryValidator.visit_node'])
p('An accepted graph is well formed',
  'Graph(...) accepts a definition iff: names of fields within each node are unique, node names are unique, every link points to an existing node, every required field exists in the node of the link.',
  'all graph definitions',
  'all graph definitions',
  ['hiku/validate/graph.py: GraphValidator'])
p('Link requirements name fields',
  'In an accepted graph the requirement of every link names a field of the same node, which can be loaded as a field.',
  'all accepted graphs',
  'false of the code: a link may require another link',
  ['hiku/validate/graph.py: GraphValidator.visit_link', 'hiku/engine.py: SplitQuery.visit_link'])
p('The GraphQL reader terminates on every document',
  'Reading any parsed document ends with a query or an error; cyclic fragment use reached by the operation always raises TypeError, and acyclic documents are never rejected as cyclic.',
  'all documents, including cyclic fragment graphs',
  'termination over all inputs',
  ['hiku/readers/graphql.py: FragmentsTransformer'])
p('Fragments mean their contents',
  'Reading a document with named or inline fragments gives the same query as reading the document in which every fragment spread is replaced with the selections of the fragment.',
  'all documents',
  'unbounded documents',
  ['hiku/readers/graphql.py: SelectionSetVisitMixin, FragmentsTransformer'])
p('@skip and @include select fields',
  'A selection is dropped iff its @skip condition is true or its @include condition is false, with conditions given literally or by variables.',
  'all selections and variable values',
  'all combinations; false of the code when both directives are present',
  ['hiku/readers/graphql.py: SelectionSetVisitMixin._should_skip'])
p('Query variables take the provided value, the default or null',
  'A variable used in a query has the provided value, else its default, else null if nullable; otherwise reading raises TypeError; using an undeclared variable raises TypeError.',
  'all operations, variable definitions and values',
  'all inputs',
  ['hiku/readers/graphql.py: GraphQLTransformer.visit_operation_definition, lookup_variable'])
p('The requested operation is the one executed',
  'Given an operation name, the operation with that name is read; without it the document must hold exactly one operation; duplicate or missing operations raise.',
  'all documents and names',
  'all documents',
  ['hiku/readers/graphql.py: OperationGetter'])
p('EDN round trip',
  'loads(dumps(v)) == v for values made of nil, booleans, integers, strings, keywords, symbols, vectors, lists, maps and sets.',
  'all values of this kind, all depths',
  'codec law over an infinite domain; false for strings with characters that need \\u escapes',
  ['hiku/edn.py: loads, dumps, parser, _iterencode'])
p('EDN reader accepts exactly one top-level value',
  'loads returns a value only if the text holds exactly one complete top-level element; the text of two values, of none or of an unclosed collection is refused.',
  'all texts of that form',
  'all inputs',
  ['hiku/edn.py: loads'])
p('Simple exporter and reader are inverse',
  'readers.simple.transform(export.simple.export(q)) equals the merged query for queries without aliases.',
  'all queries',
  'unbounded queries; false with aliases, which the exporter drops',
  ['hiku/export/simple.py', 'hiku/readers/simple.py'])
p('Protobuf exporter and reader are inverse',
  'readers.protobuf.transform(export.protobuf.export(q)) equals the merged query for queries without aliases and with non-empty names.',
  'all queries',
  'unbounded queries; false with aliases, which the message cannot carry',
  ['hiku/export/protobuf.py', 'hiku/readers/protobuf.py'])
p('GraphQL exporter and reader are inverse',
  'Reading the document produced by export.graphql.export(q) gives the merged query back, including aliases and options.',
  'all queries with GraphQL-expressible options',
  'unbounded queries',
  ['hiku/export/graphql.py', 'hiku/readers/graphql.py'])
p('Expressions compile to code with the documented meaning',
  'Evaluating the Python code compiled from an expression gives the value described in the documentation of each, if_, if_some, get and functions, with lexical scoping of bound variables.',
  'all checked expressions, all data',
  'compiler correctness; false for shadowed or re-used variable names',
  ['hiku/expr/compiler.py: ExpressionCompiler, Environ', 'hiku/expr/core.py'])
p('Requirements of an expression cover everything it reads',
  'Evaluating a checked expression on a result object restricted to its extracted requirements never reads a field which was not requested.',
  'all checked expressions and data',
  'all expressions',
  ['hiku/expr/refs.py: RequirementsExtractor, ref_to_req, type_to_query', 'hiku/expr/checker.py'])
p('Expression type checking',
  'check_type(t1, t2) succeeds only if every value of type t1 is usable as t2: record width and depth subtyping, T below Optional[T], everything below Any; and it is reflexive and transitive on the closed types it accepts.',
  'all types',
  'types nest without bound',
  ['hiku/expr/checker.py: check_type'])
p('Sub-graph fields can be queried on their own',
  'A field defined by an expression over a sub-graph is computed from the data of that sub-graph only, whichever other fields are requested together with it.',
  'all expressions and combinations of requested fields',
  'false of the code when the expression does not use `this` (KeyError)',
  ['hiku/sources/graph.py: SubGraph.__call__'])
p('SQL field source returns one row per id',
  'FieldsQuery returns, whatever order and subset of rows the database gives back, one row per id in id order with one value per field, with None for missing rows; chunked fetching does not lose rows.',
  'all row sets, ids, fields, chunk boundaries',
  'all data sizes and orders',
  ['hiku/sources/sqlalchemy.py: FieldsQuery', 'hiku/sources/aiopg.py, sqlalchemy_async.py'])
p('SQL link source groups identifiers by origin',
  'LinkQuery maps each id to exactly the identifiers paired with it, in database order: the list for sequence links, Nothing when absent for optional links, KeyError when absent for single links; results have the shape which the engine requires.',
  'all pair sets and ids',
  'all data sizes and orders',
  ['hiku/sources/sqlalchemy.py: LinkQuery, _to_maybe_mapper, _to_one_mapper, _to_many_mapper'])
p('Introspection describes field types faithfully',
  'The type reported by introspection for a field is nullable iff its declared type is Optional (or Any), is a list iff it is a sequence, and names the declared scalar or object.',
  'all declared types',
  'types nest without bound',
  ['hiku/introspection/graphql.py: TypeIdent'])
p('Introspection is closed',
  'Every object or input type reported for a field or argument is listed in the schema and can itself be introspected.',
  'all graphs',
  'false of the code when the mutation graph has nodes which the query graph lacks',
  ['hiku/introspection/graphql.py: root_schema_types, type_fields_link, _nodes_map'])
p('Private fields are hidden and introspection does not change data',
  'Fields of nodes whose names start with an underscore never appear in introspection, all the others do, in definition order; the graph with introspection added answers every former query as before.',
  'all graphs and queries',
  'all graphs',
  ['hiku/introspection/graphql.py: type_fields_link, GraphQLIntrospection'])
p('The GraphQL endpoint answers with data or errors',
  'dispatch returns {data} iff the query was read and validated without errors, otherwise {errors} with all validation messages and no loader is called; mutations run only against the mutation graph; batches answer item by item in order.',
  'all requests',
  'all requests',
  ['hiku/endpoint/graphql.py'])
p('Metrics do not change results',
  'A graph instrumented with GraphMetrics gives the same results as the original graph, and every call of a loader is observed once for every requested field.',
  'all graphs and queries',
  'all graphs',
  ['hiku/telemetry/prometheus.py'])
p('Console rejects oversized and invalid queries without executing them',
  'The console answers 404 for unknown paths, 405 for wrong methods, 400 for bodies over 1MB and invalid queries, without executing anything; it never lets an exception of a query escape.',
  'all requests',
  'all requests',
  ['hiku/console/ui.py'])
p('Builder queries mean what they say',
  'build() turns handles into the query with the given names, options, aliases and nesting; building never reuses options or members between handles.',
  'all handle expressions',
  'unbounded nesting',
  ['hiku/builder.py'])
p('Graph transformers that change nothing change nothing',
  'apply(graph, [GraphTransformer()]) gives a graph with the same nodes, fields, links and options; apply with several transformers composes them left to right.',
  'all graphs',
  'all graphs',
  ['hiku/graph.py: GraphTransformer, apply'])
p('Execution context is read-only and total over given keys',
  'The context passed to loaders gives exactly the provided keys and values and raises KeyError for any other; it is passed as first argument iff the loader was marked with pass_context.',
  'all contexts and keys',
  'all keys',
  ['hiku/engine.py: Context, pass_context, Query._submit'])

p('Only what the query asks for is loaded',
  'Every loader call made during an execution is for members which the query asks for, or which links asked for require, of a node which the query reaches (sub-graphs included), for at least one object; no other function is called.',
  'all graphs, queries, loader results and completion orders',
  'all executions',
  ['hiku/engine.py: Query, _yield_options', 'hiku/sources/graph.py: SubGraph'])

p('Fields defined by expressions have the meaning of their expressions, end to end',
  'For a graph whose fields are defined by expressions over sub-graphs (SubGraph + define + S), every execution of a valid query loads what the expressions need from the sub-graph and nothing fails; wherever such a field is asked of an object, the result holds what the expression means over that object and the root of the sub-graph, with the given values of its options - independent of the other fields asked, the order of events, and of what else was loaded.',
  'all graphs, expressions, queries, data and completion orders',
  'all expressions over all graphs in all executions: type checking, extraction of requirements, code generation, query execution and proxies have to agree',
  ['hiku/sources/graph.py: SubGraph, BoundExpr, Expr', 'hiku/expr/checker.py', 'hiku/expr/refs.py: RequirementsExtractor', 'hiku/expr/compiler.py', 'hiku/engine.py', 'hiku/result.py: Proxy'])

p('The text of type definitions determines the types',
  'dumps(graph) writes a definition for each data type, each node (with its typed or described members) and each typed or described member of the root, and only those; two graphs with the same text have the same definitions in names, members, types and descriptions - up to the types Float and Any, written alike; it fails exactly when a type holds a function.',
  'all graphs, types of any nesting, names and descriptions',
  'unbounded nesting of types; all pairs of graphs',
  ['hiku/typedef/kinko.py: dumps, GraphTypesEx, _IndentedPrinter, _LinePrinter', 'hiku/graph.py: GraphTypes', 'hiku/typedef/types.py: TypeDef'])

p('Cancelling an execution cancels the pending loaders',
  'With the asyncio executor: a result is returned only by an execution which was never cancelled, and it is the result of the execution. Cancelling an execution which waits for loaders (or the cancellation of one of the loaders) requests the cancellation of exactly the loader calls which were made and not yet reported as finished, no loader is called afterwards, the execution ends with an exception and never with a result: CancelledError unless a loader raises something else, and it ends when its loaders do. When it has ended, no loader of it is running.',
  'all graphs, queries, loaders, completion orders and moments of cancellation',
  'cancellation may arrive at every await, after any history of completions, and loaders may react to it in any way and order',
  ['hiku/executors/asyncio.py: AsyncIOExecutor.process', 'hiku/executors/queue.py: Queue'])

p('Queries about the schema are answered',
  'With introspection added to a graph, every query without validation errors - about the schema, about the data, or about both - is executed without a failure under every completion order, and its result holds exactly what the functions of introspection say, object by object: no chain of links leads to an object for which a function of introspection raises.',
  'all schemas whose references exist, all graphs, queries and completion orders',
  'unbounded nesting of ofType, fields, args in queries; all schemas',
  ['hiku/introspection/graphql.py: GraphQLIntrospection, BindToSchema, type_info, type_fields_link, field_info, field_type_link, input_value_info', 'hiku/engine.py: Query'])

p('A client reads the schema as declared',
  'A GraphQL client which sends the standard introspection query, with its fragments, to the endpoint over a graph with introspection gets an answer with data, and reads from it exactly the declared schema: every node, record (as an object and as an input object) and scalar, their public members with descriptions, types, arguments and default values, the root types and the directives, and nothing else; provided that the query follows ofType as far as the declared types are nested.',
  'all schemas with distinct names whose references exist, all depths of the query, all completion orders',
  'all schemas, types of unbounded nesting, all schedules',
  ['hiku/introspection/graphql.py', 'hiku/engine.py', 'hiku/denormalize/graphql.py', 'hiku/result.py'])

p('Expressions mean what is written',
  'What is written over S, define, each, if_ and if_some becomes the expression it denotes, at every nesting in lists, dictionaries and arguments. Every function mentioned at any depth is found, once, is checked with its own types and called with its own body, whatever the order in which the set of functions is traversed. A text annotation of define requires of an argument exactly the names it lists, nested links included. A field of a sub-graph given without expression is the field of the same name of this.',
  'all programs over S and define, all functions, annotations and traversal orders',
  'unbounded nesting of programs and annotations; order of sets of functions',
  ['hiku/expr/core.py: S, define, to_expr, each, if_, if_some, _query_to_types', 'hiku/sources/graph.py: SubGraph, BoundExpr'])

p('The layout of EDN texts does not matter',
  'A text which spells an EDN value is read by loads as that value, whatever spaces, commas, line ends and comments are put between its items and around it, and however its strings, characters and integers are spelled (escapes, \\newline, the suffix N), with any tag handlers; a text spells at most one value.',
  'all values, nested to any depth, all layouts and spellings, all tag handlers',
  'unbounded nesting, all combinations of blanks and comments',
  ['hiku/edn.py: loads, parser, tag_handler, character_handler, number_handler, symbol_handler'])

p('Every value of a result was returned for that object',
  'Whatever the loaders return, even if they contradict themselves from one call to the next, and in whatever order calls finish: each value readable in a result under a key of an object is what a loader call returned for exactly that object and that member of the query (at that place of its answer), or the value of its expression, or None for a link to nothing; each object a link leads to is one whose identifier the loader of this link returned for the object, when it was given what the link requires of the object. An expression is computed of the object of the sub-graph which corresponds to it, and all it reads there was returned by loaders in the same sense. No value of another object, another field or other options (as told apart by the hash of options) shows up.',
  'all graphs, queries, behaviours of loaders (also inconsistent ones), completion orders, and moments of executions',
  'all behaviours of loaders and all interleavings; a mix-up shows only when objects or calls are many',
  ['hiku/engine.py: store_fields, store_links, link_reqs, link_result_to_ids, Query.process_node, Query.process_link', 'hiku/result.py: Index, Proxy'])

p('Asking for more does not change the rest',
  'If one query asks for all that another one asks for, and perhaps for more, in whatever order at any level, then the smaller query is accepted whenever the larger one is, and everything its result holds is in the result of the larger query, at the same place with the same value, whatever the completion orders of both executions. Queries which differ in order only give results which hold the same. This is said of accepted queries which have no key twice and name each part of a record once (and parts of fields not inside of mutations), of well-formed graphs whose types are spelled out, and of loaders which answer consistently and as their types say; options whose hashes collide are excepted.',
  'all pairs of queries of which one is part of the other, all graphs (sub-graphs included), consistent loaders, and pairs of schedules',
  'a relation between two executions, over all pairs of queries and of schedules; batches, calls and positions in answers differ between the two',
  ['hiku/engine.py: Query, SplitQuery, store_fields, store_links', 'hiku/denormalize/base.py', 'hiku/validate/query.py', 'hiku/result.py'])

p('The same request has the same answer',
  'Wherever two accepted queries ask for the same (the same member of the same object, with options which mean the same, and at least as much inside), their results show the same, whatever keys (aliases) it is asked under, whatever else is asked for, in whatever order, and whatever the completion orders of the executions; in particular a query merged with others finds in the result all that it would have got alone. This is said of accepted queries which have no key twice and name each part of a record once (and parts of fields not inside of mutations), of well-formed graphs whose types are spelled out, and of loaders which answer consistently and as their types say; options whose hashes collide are excepted.',
  'all pairs of queries and all requests they share, all sets of merged queries, all graphs (sub-graphs included), consistent loaders, and pairs of schedules',
  'a relation between two executions, over all pairs of queries and of schedules',
  ['hiku/engine.py: Query, SplitQuery, InitOptions, store_fields, store_links', 'hiku/query.py: merge, Field.index_key, Link.index_key', 'hiku/denormalize/base.py', 'hiku/result.py'])

p('An object looks the same wherever it appears in a result',
  'If one object is reached in several ways in a result - by different links, or several times in a list - then whatever is asked of it at two places (the same member, with options which mean the same, and at least as much inside) is shown the same at both, under whatever keys; even if its loaders are called several times for it and answer differently every time, and whatever the completion order. Every object which a link shows is at such a place. This is said of results of queries which have no key twice and name each part of a record once.',
  'all graphs, queries, loaders (consistent or not), schedules, and pairs of places in a result',
  'the places of a result are unbounded, and loaders whose answers change between calls depend on the schedule',
  ['hiku/engine.py: store_fields, store_links', 'hiku/result.py: Index, Proxy, denormalize'])

p('Graphs over SQL tables say what the tables hold',
  'A graph made of fields and links served by FieldsQuery and LinkQuery has the same nodes, fields, links and options as its definition. A field without a declared type gets the type of its column (Integer, String, or none), a declared type is kept; a missing column is reported when the graph is made. A link distributes the rows according to its own type. Making or transforming the graph again changes nothing more. What the loader serves for a column is of its type, and what introspection tells a client about this type is true of it. FieldsQuery needs exactly one column as primary key if none is given, LinkQuery two columns of one table.',
  'all definitions of graphs, tables, columns, database contents, identifiers and drivers',
  'definitions, tables and contents are unbounded; NULLs and missing rows are rarely in the data of tests',
  ['hiku/sources/sqlalchemy.py: _translate_type, FieldsQuery, LinkQuery', 'hiku/graph.py: GraphInit, Graph', 'hiku/introspection/graphql.py: TypeIdent'])

p('Shown default values mean the defaults',
  'The default value which introspection shows for an argument is a text of the GraphQL language, and what this text means in a request is the default value used when the argument is left out (tuples as lists, words as strings). Nothing is shown if there is no default. What is shown is always JSON of the default, dictionaries included. A default which can not be written is reported as an error, and only such a default is.',
  'all schemas and default values',
  'values are nested without bound and strings hold any characters; tests have a few literals',
  ['hiku/introspection/graphql.py: input_value_info', 'hiku/readers/graphql.py: SelectionSetVisitMixin', 'hiku/graph.py: Option'])

with open('/verif/properties.jsonl', 'w') as f:
    for x in P:
        f.write(json.dumps(x, ensure_ascii=False) + '\n')
print(len(P))

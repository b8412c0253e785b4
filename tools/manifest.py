"""Writes MANIFEST.json. One entry per property: (status, theorems, note)."""
import json
C = {}
C['C01'] = ('proved', ['C01_merge_requests', 'C01_merge_ordered', 'C01_merge_unique'],
  'Options compared up to dict order; hypothesis: no hash collision inside the merged nodes. A field and a link with the same label are different members.')
C['C02'] = ('proved', ['C02_merge_idempotent', 'C02_merge_split', 'C02_merge_moves_links'], '')
C['C03'] = ('partial', ['C03_same_slot', 'C03_different_options_refuted', 'C03_different_slots_partial'],
  'Second half is false of the code: hash(-1) == hash(-2) in CPython, so {k: -1} and {k: -2} share a slot.')
C['C14'] = ('proved', ['C14_engine_callbacks', 'C14_exactly_once_in_order', 'C14_fires_after_completion', 'C14_reported_futures'],
  'For every program of callbacks and every schedule; the part about task sets for callbacks which do not use completed task sets (discipline stated in QueueSpec.v).')
C['C15'] = ('proved', ['C15_engine_drained', 'C15_drained', 'C15_all_fired', 'C15_undisciplined_refuted'],
  'For disciplined programs; refuted for programs which submit to a task set from its own completion callback.')
C['C04'] = ('partial', ['C04_result_independent_of_schedule_partial', 'C04_same_result_for_all_schedules_partial', 'C04_result_exists_partial'],
  'For graphs whose fields have plain loaders (no sub-graphs); otherwise the hypotheses are what validation guarantees, no hash collision of options and distinct result keys. C04_result_exists_partial without parts of record fields.')
C['C05'] = ('partial', ['C05_rounds_bounded_partial', 'C05_never_stuck_partial', 'C05_terminates_partial'], 'Same class of graphs as C04: no sub-graphs.')
C['C06'] = ('partial', ['C06_one_call_per_loader', 'C06_firsts', 'C06_number_of_calls_partial'],
  'C06_one_call_per_loader: for plain loaders of an unordered node; the bound for the class of C04 (no sub-graphs).')
C['C07'] = ('partial', ['C07_link_arguments_partial', 'C07_after_required'], 'C07_after_required for every graph (sub-graphs too) and every behaviour of loaders; C07_link_arguments_partial for the class of C04 (no sub-graphs).')
C['C08'] = ('proved', ['C08_previous_step_finished', 'C08_one_step_at_a_time', 'C08_steps'], '')
C['C10'] = ('partial', ['C10_ordered_same_result_partial', 'C10_complex_refuted'], 'False of the code for selections of record fields: AttributeError in ordered nodes (C10_complex_refuted).')
C['C11'] = ('partial', ['C11_normalized_options', 'C11_missing_option', 'C11_field_loader_options', 'C11_link_loader_options', 'C11_required_field_refuted'],
  'False of the code for fields required by links: they are loaded without options and defaults (C11_required_field_refuted).')
C['C12'] = ('proved', ['C12_fields_stored', 'C12_fields_refused', 'C12_values_at_their_places', 'C12_other_slots_kept', 'C12_links_stored', 'C12_links_refused'], '')
C['C13'] = ('proved', ['C13_nothing_raises', 'C13_follows_stored_references', 'C13_sequences'], '')
C['C16'] = ('proved', ['C16_no_partial_result', 'C16_failure_is_raised', 'C16_raises_its_exception'], '')
C['C17'] = ('partial', ['C17_result_mirrors_query_partial', 'C17_keys_partial', 'C17_alias_in_record_refuted', 'C17_nested_data_type_refuted'],
  'For all queries without aliases inside of selections of record fields and without records nested by type name: there the property is false of the code (the two refuted theorems).')
C['C18'] = ('proved', ['C18_requested_key', 'C18_other_key', 'C18_iteration'], '')
C['C19'] = ('partial', ['C19_denormalizers_agree_partial', 'C19_record_fields_refuted'], 'For queries without selections of record fields, where it is false of the code (C19_record_fields_refuted).')
C['C20'] = ('proved', ['C20_typename'], '')
C['C21'] = ('partial', ['C21_accepted_query_fits', 'C21_fitting_query_accepted', 'C21_refused_query_does_not_fit', 'C21_validated_query_executes_partial', 'C21_validated_query_ends_partial', 'C21_ordered_parts_refuted'],
  'What validation accepts is characterised completely. Execution of accepted queries: under the conditions of "unchecked", which validation does not check; without them it is false of the code (C21_ordered_parts_refuted, C26_link_required_refuted).')
C['C22'] = ('partial', ['C22_reports_partial', 'C22_unknown_link_in_record_refuted', 'C22_option_types_refuted', 'C22_recursive_type_refuted'],
  'False of the code in the cases of the refuted theorems; proved for all the others.')
C['C23'] = ('proved', ['C23_accepted_conforms', 'C23_conforming_accepted', 'C23_refused_does_not_conform', 'C23_decided'], 'bool conforms to Integer and a text to Sequence[String], as in Python.')
C['C24'] = ('partial', ['C24_ambiguous_reported_partial', 'C24_clash_in_record_refuted'], 'Not for selections inside of record fields, where clashes are not reported (C24_clash_in_record_refuted).')
C['C25'] = ('proved', ['C25_accepted_iff_well_formed', 'C25_refused_otherwise'], '')
C['C26'] = ('partial', ['C26_requirement_is_member_partial', 'C26_link_required_refuted'], 'False of the code: a link may require a link, whose loader is then called like the loader of a field.')
C['C27'] = ('proved', ['C27_terminates', 'C27_cyclic_refused', 'C27_only_cyclic_refused'], 'Cyclic is meant through selections which are not skipped.')
C['C28'] = ('proved', ['C28_fragments_mean_contents', 'C28_can_be_replaced', 'C28_meaning'], '')
C['C29'] = ('partial', ['C29_conditions_partial', 'C29_both_directives_refuted', 'C29_truth', 'C29_judged', 'C29_judged_example'], 'False of the code for selections with both directives (C29_both_directives_refuted); proved for all others.')
C['C30'] = ('proved', ['C30_values', 'C30_missing', 'C30_use', 'C30_undeclared_refused'], '')
C['C31'] = ('proved', ['C31_named_operation', 'C31_single_operation', 'C31_type_of_operation', 'C31_read_queries_only'], '')
C['C09'] = ('partial', ['C09_order_partial', 'C09_document_order_refuted'], 'False of the code: members with sub-selections run behind all others (C09_document_order_refuted); the order within both groups is kept. Execution one by one: C08.')
C['C32'] = ('partial', ['C32_round_trip_partial', 'C32_text_refuted', 'C32_strings_json', 'C32_strings_differ', 'C32_strings_read', 'C32_strings_exactly', 'C32_text_example', 'C32_symbol_refuted', 'C32_tag_refuted', 'C32_list_refuted', 'C32_equality', 'C32_equality_example'],
  'For values whose texts need no escape by json and whose words the reader takes back; for the others it is false of the code (the refuted theorems). Every string is written as a JSON text of it (C32_strings_json), what is read of it is told exactly (C32_strings_read), and it is the string itself exactly if no escape was needed (C32_strings_exactly).')
C['C33'] = ('partial', ['C33_not_one_refused', 'C33_blank_refused', 'C33_unclosed_refused', 'C33_trailing_refuted'],
  'False of the code: unfinished text behind a complete value is ignored (C33_trailing_refuted).')
C['C34'] = ('partial', ['C34_inverse_partial', 'C34_round_trip_partial', 'C34_text_partial', 'C34_alias_refuted', 'C34_ordered_refuted', 'C34_list_refuted'],
  'Exact for unordered queries without aliases whose options are scalars; otherwise what comes back is edn_query: aliases and ordered are dropped and lists and dicts of options stay EDN vectors and maps (the refuted theorems).')
C['C35'] = ('partial', ['C35_inverse_partial', 'C35_faulty_refused', 'C35_sound_read', 'C35_alias_refuted', 'C35_ordered_refuted'],
  'For unordered queries without aliases, up to the order of options, for numbers which the library gives back as they are; aliases and ordered are dropped (refuted theorems). The library (Struct, bytes) is a parameter.')
C['C36'] = ('partial', ['C36_inverse_partial', 'C36_ordered_refuted'],
  'For unordered queries, up to empty options; ordered is lost (C36_ordered_refuted). Printing and parsing of the document are not modelled.')
C['C37'] = ('partial', ['C37_compiled_code_computes_the_meaning_partial', 'C37_checked_expressions_compile', 'C37_name_of_an_earlier_variable_refuted', 'C37_if_some_over_same_name_refuted', 'C37_if_some_shadowing_refuted', 'C37_if_some_else_uses_name_refuted', 'C37_variable_named_ctx_refuted', 'C37_variable_named_env_refuted', 'C37_variable_named_next_refuted', 'C37_variable_named_like_a_renamed_one_refuted', 'C37_option_named_env_refuted'],
  'For expressions whose bound names are hygienic; for the others it is false of the code (the refuted theorems). Values are abstract (any domain with get, iteration, calls).')
C['C38'] = ('partial', ['C38_requirements_suffice', 'C38_compiled_code_needs_only_requirements', 'C38_type_references_refuted'],
  'False of the code for functions whose argument types are given by reference (C38_type_references_refuted); proved for all the others.')
C['C39'] = ('partial', ['C39_accepted_types_are_sound', 'C39_check_decides_subtyping', 'C39_check_answers', 'C39_terminates', 'C39_reflexive', 'C39_transitive', 'C39_recursive_types_refuted', 'C39_reference_to_reference_refuted', 'C39_function_types_refuted'],
  'For closed types whose references are not defined by other references; reflexive and decided where the expected type is not recursive: on recursive types the check does not end (C39_recursive_types_refuted).')
C['C41'] = ('proved', ['C41_fetching_loses_nothing', 'C41_one_row_per_id', 'C41_rows_determined', 'C41_engine_accepts', 'C41_serves_table'], 'With several rows for one identifier (a join) one of them is given.')
C['C42'] = ('partial', ['C42_targets_by_origin', 'C42_fails_when_absent', 'C42_only_key_error', 'C42_database_order', 'C42_engine_accepts', 'C42_root_link_refuted', 'C42_null_target_refuted'],
  'For links of nodes; links of the root give the loader a single value, not a list (C42_root_link_refuted). NULL in the target column is taken for an identifier (C42_null_target_refuted).')
C['C43'] = ('proved', ['C43_nullable_iff_optional', 'C43_list_iff_sequence', 'C43_names', 'C43_same_values', 'C43_no_value_excluded', 'C43_example'], 'Inner records and mappings are reported as Any.')
C['C44'] = ('partial', ['C44_closed_partial', 'C44_type_by_name_node_partial', 'C44_example', 'C44_mutation_node_refuted', 'C44_alias_refuted', 'C44_node_in_record_refuted', 'C44_private_node_refuted', 'C44_untyped_option_refuted', 'C44_type_by_name_refuted', 'C44_node_named_query_refuted'],
  'For coherent schemas; for the others it is false of the code (the refuted theorems).')
C['C45'] = ('partial', ['C45_listed_fields', 'C45_listed_iff_some_public', 'C45_extends', 'C45_same_results_partial', 'C45_still_valid', 'C45_typename', 'C45_typename_rows', 'C45_accepted', 'C45_example', 'C45_private_of_records_refuted', 'C45_two_roots_refuted', 'C45_newline_name_refuted'],
  'Results are the same for the queries of C04. Private fields of record types are listed (C45_private_of_records_refuted), and introspection can not be added to a graph with two Root items (C45_two_roots_refuted).')
C['C47']=('partial',['C47_instrumented','C47_batching_kept','C47_same_results_partial','C47_same_validation','C47_transparent','C47_field_observed_partial','C47_field_observed_own_partial','C47_link_observed','C47_shared_function_refuted','C47_example'],
 'Instrumentation keeps the graph up to loader names, so validation, options, grouping and results agree; results are stated for complete executions of plain-loader graphs (the fragment of C04). Observation under the name of the own node is false when a function is shared between nodes: C47_shared_function_refuted.')
C['C49']=('partial',['C49_builds','C49_refuses','C49_independent','C49_every_query','C49_shared_handle_refuted','C49_shared_options_refuted','C49_cycle_refuted','C49_example','C49_refused_example'],
 'Proved for every expression written over Q, with any previous history of handles. False for handles kept in variables and used twice, as the handles are changed in place: the _refuted theorems.')
C['C50']=('proved',['C50_made_again','C50_identity','C50_only_functions','C50_apply_composes','C50_apply_none','C50_apply_one','C50_apply_identities','C50_example'],
 'GraphTransformer and apply; descriptions are not modelled.')
C['C51']=('proved',['C51_passed_iff_marked','C51_field_arguments','C51_given_keys','C51_other_keys','C51_no_context','C51_same_length','C51_example'],'')
C['C52']=('proved',['C52_only_needed_calls','C52_only_needed_calls_inside','C52_only_loaders_of_graph','C52_never_for_nothing','C52_example'],'For all executions, sub-graphs included.')
C['C46']=('partial',['C46_errors_iff','C46_data_only_if_valid','C46_valid_has_no_errors','C46_valid_has_no_complaints','C46_otherwise_exception','C46_no_calls_unless_valid','C46_errors_no_calls','C46_calls_own_graph','C46_mutations_on_mutation_graph','C46_batch_in_order','C46_batch_raises','C46_data_of_answer_partial','C46_answered_partial','C46_example','C46_example_hypotheses','C46_request_not_answered_refuted','C46_batch_refuted', 'C46_other_exceptions', 'C46_raised_example'],
 'Errors exactly when there are complaints, data only for valid requests, no calls otherwise, mutations on the mutation graph, batches in order. The data of the answer is stated for graphs with plain loaders (as C21). False of the code: requests without query, with a syntax error, an undefined operation or fragment raise instead of being answered (refuted theorems).')
C['C48']=('partial',['C48_json_result','C48_json_result_example','C48_not_found','C48_wrong_method','C48_too_big','C48_invalid','C48_unreadable','C48_nothing_executed','C48_not_executed','C48_failure_answered','C48_escapes_partial','C48_statuses','C48_data_partial','C48_length_refuted','C48_not_json_refuted','C48_example','C48_example_hypotheses'],
 'False of the code: a CONTENT_LENGTH which is not a number, and data which is not JSON, are not answered (the refuted theorems); C48_escapes_partial shows that nothing else escapes. The data answered is characterised for plain loaders.')

C['C05']=('proved',['C05_rounds_bounded','C05_loops_end','C05_terminates','C05_bound_of_query','C05_example','C05_rounds_bounded_partial','C05_never_stuck_partial','C05_terminates_partial'],'For every graph (sub-graphs nested, as their construction forces), query, loaders and schedule: the rounds are at most the loader calls, those at most max_calls (CostSpec.v), computed from the query and the graph alone; the inner loop of the queue never exhausts the fuel; a begun execution can be completed. Without sub-graphs the bound depends on the query alone. The _partial theorems say more (no error at all) for the class of C04. That nothing is left: C15_engine_drained.')
C['C06']=('proved',['C06_one_call_per_loader','C06_firsts','C06_number_of_calls','C06_number_of_calls_partial'],'C06_one_call_per_loader: plain loaders of an unordered node. C06_number_of_calls: the bound, at every moment of every execution of every graph.')

for k,l in (('C43',['C43_client_reads','C43_client_reads_once']),('C33',['C33_odd_map_refused','C33_last_value_wins','C33_map_example']),('C48',['C48_json'])):
    a=C[k]; C[k]=(a[0],a[1]+l,a[2])

C['C04']=('partial',['C04_every_execution','C04_result','C04_same_result','C04_result_exists_sub_partial','C04_result_independent_of_schedule_partial','C04_same_result_for_all_schedules_partial','C04_result_exists_partial'],
 'C04_every_execution: no execution fails and all give the result of resolving the query recursively, expressions over (nested) sub-graphs included. Hypotheses (SubSpec.all_supported): what validation guarantees, no hash collision of options, distinct result keys, requirements of expressions as the expression compiler makes them, and some use of this among the expressions computed together (else C40_no_this_refuted). The last three theorems: the same for graphs with plain loaders only, with weaker hypotheses. Existence of the result without parts of record fields.')
C['C07']=('proved',['C07_link_arguments','C07_after_required','C07_link_arguments_partial'],'C07_after_required for every graph and every behaviour of loaders; C07_link_arguments for the queries of C04, sub-graphs included; C07_link_arguments_partial for plain loaders.')
C['C40']=('partial',['C40_value','C40_independent','C40_own_data','C40_no_this_refuted'],'Proved when some of the expressions over the same sub-graph which are computed together use this; otherwise false of the code: KeyError (C40_no_this_refuted).')
a=C['C05']; C['C05']=(a[0],a[1]+['C05_no_failure','C05_never_stuck'],a[2]+' C05_no_failure, C05_never_stuck: no error for the queries of C04, sub-graphs included.')
a=C['C11']; C['C11']=(a[0],a[1]+['C11_subgraph_refuted'],a[2]+' Also false of the code for members of sub-graphs: what expressions require of them is loaded without options and defaults (C11_subgraph_refuted).')
a=C['C04']; C['C04']=(a[0],['C04_every_execution','C04_sound_graph','C04_sound_data']+a[1][1:]+['C04_collision_refuted'],
 'C04_every_execution: no execution fails and all give the result of resolving the query recursively, expressions over (nested) sub-graphs included. Its hypotheses (SubSpec.all_supported, all_data) follow from conditions on the graphs alone (SubWfSpec.wf_graph: C04_sound_graph, C04_sound_data) for queries of existing members. False of the code where hashes of options collide: C04_collision_refuted. The theorems named _partial: the same for graphs with plain loaders only, with weaker hypotheses; existence of the result is stated without parts of record fields (see C17).')
a=C['C21']; C['C21']=(a[0],['C21_validated_query_gives_result','C21_validated_query_ends','C21_sound_example']+a[1],
 'What validation accepts is characterised completely. C21_validated_query_gives_result: over sound graphs (a condition on graphs alone, expressions over sub-graphs included) accepted queries give their results in every execution; needed and not checked by validation: no result key twice in a node, no parts of fields in ordered nodes, no collision of keys. Without the first condition and the second it is false of the code (C21_ordered_parts_refuted, C26_link_required_refuted). The _partial theorems: plain loaders, with conditions on the visited part of the graph only.')

a=C['C45']; C['C45']=('proved',a[1]+['C45_same_executions','C45_same_calls','C45_same_reading','C45_sub_example'],
 'C45_same_executions: former queries have the same outcomes and make the same calls for every schedule, whatever loaders do, sub-graphs included; C45_same_reading: results are read as before. Private fields of record types are listed (C45_private_of_records_refuted), and introspection can not be added to a graph with two Root items (C45_two_roots_refuted).')
a=C['C47']; C['C47']=('proved',a[1]+['C47_same_executions','C47_same_calls','C47_same_reading','C47_valid_query_asks_fields','C47_sub_example','C47_every_call_observed'],
 'C47_same_executions, C47_same_calls, C47_same_reading: for every schedule, whatever loaders do, sub-graphs included, for graphs whose links require fields (see C26) and queries which ask for fields as fields (all valid ones). C47_every_call_observed: every call of a loader of the graph, once for every requested field; the observation of sub-graphs (times) is not modelled. Observation under the name of the own node is false when a function is shared between nodes: C47_shared_function_refuted.')

a=C['C46']; C['C46']=('partial',['C46_data_of_answer','C46_answered','C46_sub_example']+a[1],
 'Errors exactly when there are complaints, data only for valid requests, no calls otherwise, mutations on the mutation graph, batches in order. C46_data_of_answer: the data, in every execution, for sound graphs (C21; C45_sound_graph: introspection keeps them sound), sub-graphs included. False of the code: requests without query, with a syntax error, an undefined operation or fragment raise instead of being answered (refuted theorems).')
a=C['C48']; C['C48']=('partial',['C48_data','C48_sub_example']+a[1],
 'False of the code: a CONTENT_LENGTH which is not a number, and data which is not JSON, are not answered (the refuted theorems); C48_escapes_partial shows that nothing else escapes. C48_data: the data answered, sub-graphs included.')
a=C['C10']; C['C10']=('partial',['C10_ordered_same_result','C10_sub_example']+a[1],
 'For all sound graphs, sub-graphs included, any nodes marked (C10_ordered_same_result), except for selections of parts of fields in ordered nodes, where it is false of the code: AttributeError (C10_complex_refuted).')
a=C['C45']; C['C45']=(a[0],a[1]+['C45_sound_graph','C45_sound_data','C45_sound_options'],a[2])

C['C53']=('partial',['C53_truth','C53_valid_query','C53_value','C53_requirements_fit','C53_bound_graph_sound','C53_bound_subs_sound','C53_compiled_code_reads_by_name','C53_example','C53_link_as_field_refuted'],
 'C53_valid_query: for all expressions accepted by the checker under stated conditions on names (C37: hygienic), parameters of functions spelled out in their types, use of this, and no dictionaries as values of options; C53_requirements_fit: what is extracted is found in the sub-graph. Without the condition on parameters it is false of the code: the loader of a link is called as the loader of a field (C53_link_as_field_refuted). Not covered: proxies as results, dictionaries given as options.')
C['C54']=('partial',['C54_text_determines_types','C54_definitions','C54_printed','C54_functions_not_printed','C54_example','C54_unknown_refuted','C54_built_in_name_refuted','C54_mapping_line_refuted'],
 'Proved for graphs with distinct names (a data type and a node of one name: the node wins), where names of types and members are words and not those of the built-in types. Without the last condition false of the code (C54_built_in_name_refuted); Float and Any are not told apart (C54_unknown_refuted); the value of a mapping may be written on the last line of its key (C54_mapping_line_refuted), which is readable, but not the layout.')
a=C['C04']; C['C04']=(a[0],a[1]+['C04_result_exists'],a[2].replace('; existence of the result is stated without parts of record fields (see C17).','. C04_result_exists: the result exists, parts of record fields included, when values are of their types and the types of the parts are spelled out (see C17).'))
a=C['C21']; C['C21']=(a[0],['C21_validated_query_has_result','C21_parts_example']+a[1],a[2]+' C21_validated_query_has_result: the result is there, parts of record fields included, if values are of their types and records taken apart are not given by name inside of other types (false otherwise: C17_nested_data_type_refuted).')

C['C55']=('partial',['C55_result_only_uncancelled','C55_result_after_all_calls','C55_result_example','C55_same_as_execute','C55_cancel','C55_cancelled_loader','C55_every_pending_call','C55_no_more_calls','C55_outcome','C55_cancelled_error','C55_ends','C55_not_stuck','C55_waits_for_tasks','C55_example','C55_example_end','C55_cancelled_loader_example','C55_tasks_ended_refuted','C55_cancelled_error_refuted','C55_not_awaited_refuted','C55_failure_leaves_calls_refuted'],
 'All but the last sentence is proved for executions which were awaited. False of the code: loaders may be running when the execution has ended, because gather ends with the first exception (C55_tasks_ended_refuted; not so if all of them return: C55_waits_for_tasks), because the coroutine was cancelled before its first turn (C55_not_awaited_refuted), or because another loader failed (C55_failure_leaves_calls_refuted). The behaviour of wait, gather and Task.cancel is that of their documentation.')
a=C['C44']; C['C44']=(a[0],a[1]+['C44_listed','C44_field_types','C44_record_fields','C44_arguments','C44_may_omit','C44_may_omit_example','C44_listed_example','C44_may_omit_refuted'],a[2]+' C44_listed, C44_field_types, C44_record_fields, C44_arguments: what a client reads of types, members and arguments is what is declared. An option of an optional type without default may be omitted according to introspection, but not according to validation (C44_may_omit_refuted).')

for k,l in (('C04',['C04_result_met','C04_same_result_met','C04_every_execution_met']),('C05',['C05_no_failure_met','C05_never_stuck_met']),
            ('C07',['C07_calls_for_objects_met']),('C52',['C07_calls_for_objects_met'])):
    a=C[k]; C[k]=(a[0],a[1]+l,a[2]+' The theorems named _met: loaders have to answer only for the objects which the query meets.')
C['C56']=('partial',['C56_schema_queries','C56_fitting_queries','C57_example','C45_typename_twice_refuted'],
 'Proved for coherent schemas (what they name exists), default values which can be written as JSON, sound graphs (SubWfSpec, as C21) and loaders of the user which serve some data; with the conditions of C21 which validation does not check. False of the code where __typename is asked twice of a node under different aliases: TypeError (C45_typename_twice_refuted). C57_example meets all hypotheses.')
C['C57']=('proved',['C57_client_reads_schema','C57_example','C57_document_read','C57_endpoint','C57_endpoint_example'],'Under the hypotheses of C56, for schemas with distinct names. C57_endpoint: the document of graphql-js, with its fragments, sent to the endpoint. Parsing the text of the document is not modelled.')

C['C58']=('partial',['C58_written','C58_functions','C58_any_order','C58_default_names','C58_text','C58_sub_graph','C58_obj_refuted','C58_same_name_refuted','C58_example'],
 'Proved for attributes of S which are not those of all Python objects. False of the code for members called obj (C58_obj_refuted: the field is the object itself), and for functions which were given the same _name (C58_same_name_refuted: which of them is called depends on the order of a set). C58_text: for annotations which are lists and do not name a link twice in a level.')

C['C59']=('proved',['C59_layout','C59_one_value','C59_same_items','C59_example','C59_float_example'],'The grammar is EdnLayout.v: words (numbers, symbols, keywords, characters) are ended by separators and closing brackets, tagged words by separators only (C32_tag_refuted). Keys of maps and items of sets are different (C33_last_value_wins: repeated keys).')

C['C46'][1].insert(2,'C46_introspected')
C['C60']=('proved',['C60_values_come_from_loaders','C60_subgraph_values','C60_result_comes_from_loaders','C60_read_comes_from_loaders','C60_field_value','C60_link_value','C60_list_value','C60_same_member','C60_this_is_the_object','C60_example','C60_sub_example','C60_plain_example','C60_places'],
 'Specification: ProvSpec.v. For all executions, sub-graphs included, and arbitrary loaders. The value of an expression for the n-th object is computed of the n-th object of this in a result of the sub-graph all of whose values come from loaders in turn; C60_this_is_the_object: that is the same object of the node of the sub-graph, when no required root member has the key of this and no node has the name of the root. Members are told apart by name and hash of options (C60_same_member; C02, C04_collision_refuted).')
a=C['C47']; C['C47']=(a[0],a[1]+['C47_every_subgraph_observed','C47_observed_sub_example'],a[2].replace('; the observation of sub-graphs (times) is not modelled.','; C47_every_subgraph_observed: the fields computed over sub-graphs, whenever their values are taken. Times are not modelled.'))
C['C61']=('proved',['C61_asking_for_more','C61_order_does_not_matter','C61_less_is_accepted','C61_example','C61_part_named_twice_refuted'],
 'Specification: MoreSpec.v (part, within, clear_query). For accepted queries over well-formed graphs with sub-graphs and consistent loaders, under the conditions of C21_validated_query_has_result. Why each part of a record must be named once: C61_part_named_twice_refuted (parts named twice are accepted, and the first are lost; cf. C24_clash_in_record_refuted).')
a=C['C45']; C['C45']=(a[0],a[1]+['C45_refused','C45_refused_example'],a[2])
C['C62']=('proved',['C62_same_request_same_answer','C62_merged_queries','C62_example','C62_merged_example'],
 'Specification: SameSpec.v (covered: asks for the same or more; shown: shows the same). No relation between the two queries is supposed. The conditions are those of C21_validated_query_has_result, for both queries; why each part of a record must be named once: C61_part_named_twice_refuted.')
C['C63']=('proved',['C63_same_object_same_answer','C63_same_selection','C63_every_object_has_a_place','C63_example'],
 'Specification: ViewSpec.v (place: the object found by keys and positions in the result object, and what the denormalized result has there), with covered and shown of SameSpec.v. Proved for every result object, whatever is stored in it, so for those of all executions with all loaders; where the values come from: C60.')
a=C['C04']; C['C04']=(a[0],['C04_known_data']+a[1],a[2]+' C04_known_data: loaders have to answer only for the objects which they know (KnownSpec.serves_known); used by C10, C21, C46, C48, C61, C62.')
a=C['C21']; C['C21']=(a[0],['C21_known_data','C21_known_data_ends','C21_serves_known','C21_known_example']+a[1],a[2]+' C21_known_data: the same for loaders which raise for identifiers which do not exist.')
C['C64']=('partial',['C64_made','C64_fails','C64_made_again','C64_loaders_made','C64_values','C64_link_values','C64_example','C64_not_null','C64_not_null_example','C64_not_null_refuted'],
 'Proved, but for the last part of one sentence, which is false of the code: the derived types are not nullable for clients, while None is served for NULL and for identifiers without a row (C64_not_null_refuted); it holds when the table has a row for every identifier and no NULL in the columns asked for (C64_not_null).')
C['C65']=('partial',['C65_text','C65_simple','C65_written','C65_shown','C65_defaults','C65_object_refuted','C65_example','C65_json','C65_json_example'],
 'Proved for defaults made of None, truth values, numbers, strings, lists and the empty dictionary; for every non-empty dictionary it is false of the code: json.dumps writes keys as strings, which is no value of GraphQL (C65_object_refuted); it is JSON in every case (C65_json).')
def main():
    claims = [{'property': k, 'status': v[0], 'theorems': v[1], 'note': v[2]} for k, v in sorted(C.items())]
    json.dump({'claims': claims}, open('/verif/MANIFEST.json', 'w'), indent=1)
main()

(** What theorems named in MANIFEST.json rest on (written by tools/assumptions.py) *)
From Verif Require ExIntro ExIntroDoc PropAlike PropAsync PropAsyncEx PropBound PropBuilder PropCalls PropCheck PropConsole PropEdn PropEdnText PropEndpoint.
Print Assumptions ExIntro.C45_typename_twice_refuted.
Print Assumptions ExIntro.C57_example.
Print Assumptions ExIntroDoc.C57_endpoint_example.
Print Assumptions PropAlike.C45_same_calls.
Print Assumptions PropAlike.C45_same_executions.
Print Assumptions PropAlike.C45_same_reading.
Print Assumptions PropAlike.C47_same_calls.
Print Assumptions PropAlike.C47_same_executions.
Print Assumptions PropAlike.C47_same_reading.
Print Assumptions PropAlike.C47_valid_query_asks_fields.
Print Assumptions PropAsync.C55_cancel.
Print Assumptions PropAsync.C55_cancelled_error.
Print Assumptions PropAsync.C55_cancelled_loader.
Print Assumptions PropAsync.C55_ends.
Print Assumptions PropAsync.C55_every_pending_call.
Print Assumptions PropAsync.C55_no_more_calls.
Print Assumptions PropAsync.C55_not_stuck.
Print Assumptions PropAsync.C55_outcome.
Print Assumptions PropAsync.C55_result_after_all_calls.
Print Assumptions PropAsync.C55_result_only_uncancelled.
Print Assumptions PropAsync.C55_same_as_execute.
Print Assumptions PropAsync.C55_waits_for_tasks.
Print Assumptions PropAsyncEx.C55_cancelled_error_refuted.
Print Assumptions PropAsyncEx.C55_cancelled_loader_example.
Print Assumptions PropAsyncEx.C55_example.
Print Assumptions PropAsyncEx.C55_example_end.
Print Assumptions PropAsyncEx.C55_failure_leaves_calls_refuted.
Print Assumptions PropAsyncEx.C55_not_awaited_refuted.
Print Assumptions PropAsyncEx.C55_result_example.
Print Assumptions PropAsyncEx.C55_tasks_ended_refuted.
Print Assumptions PropBound.C05_bound_of_query.
Print Assumptions PropBound.C05_example.
Print Assumptions PropBound.C05_loops_end.
Print Assumptions PropBound.C05_rounds_bounded.
Print Assumptions PropBound.C05_terminates.
Print Assumptions PropBound.C06_number_of_calls.
Print Assumptions PropBuilder.C49_builds.
Print Assumptions PropBuilder.C49_cycle_refuted.
Print Assumptions PropBuilder.C49_every_query.
Print Assumptions PropBuilder.C49_example.
Print Assumptions PropBuilder.C49_independent.
Print Assumptions PropBuilder.C49_refused_example.
Print Assumptions PropBuilder.C49_refuses.
Print Assumptions PropBuilder.C49_shared_handle_refuted.
Print Assumptions PropBuilder.C49_shared_options_refuted.
Print Assumptions PropCalls.C51_example.
Print Assumptions PropCalls.C51_field_arguments.
Print Assumptions PropCalls.C51_given_keys.
Print Assumptions PropCalls.C51_no_context.
Print Assumptions PropCalls.C51_other_keys.
Print Assumptions PropCalls.C51_passed_iff_marked.
Print Assumptions PropCalls.C51_same_length.
Print Assumptions PropCalls.C52_example.
Print Assumptions PropCalls.C52_never_for_nothing.
Print Assumptions PropCalls.C52_only_loaders_of_graph.
Print Assumptions PropCalls.C52_only_needed_calls.
Print Assumptions PropCalls.C52_only_needed_calls_inside.
Print Assumptions PropCheck.C39_accepted_types_are_sound.
Print Assumptions PropCheck.C39_check_answers.
Print Assumptions PropCheck.C39_check_decides_subtyping.
Print Assumptions PropCheck.C39_function_types_refuted.
Print Assumptions PropCheck.C39_recursive_types_refuted.
Print Assumptions PropCheck.C39_reference_to_reference_refuted.
Print Assumptions PropCheck.C39_reflexive.
Print Assumptions PropCheck.C39_terminates.
Print Assumptions PropCheck.C39_transitive.
Print Assumptions PropConsole.C48_escapes_partial.
Print Assumptions PropConsole.C48_example.
Print Assumptions PropConsole.C48_example_hypotheses.
Print Assumptions PropConsole.C48_failure_answered.
Print Assumptions PropConsole.C48_invalid.
Print Assumptions PropConsole.C48_json.
Print Assumptions PropConsole.C48_json_result.
Print Assumptions PropConsole.C48_json_result_example.
Print Assumptions PropConsole.C48_length_refuted.
Print Assumptions PropConsole.C48_not_executed.
Print Assumptions PropConsole.C48_not_found.
Print Assumptions PropConsole.C48_not_json_refuted.
Print Assumptions PropConsole.C48_nothing_executed.
Print Assumptions PropConsole.C48_too_big.
Print Assumptions PropConsole.C48_unreadable.
Print Assumptions PropConsole.C48_wrong_method.
Print Assumptions PropEdn.C33_last_value_wins.
Print Assumptions PropEdn.C33_map_example.
Print Assumptions PropEdn.C33_odd_map_refused.
Print Assumptions PropEdnText.C32_strings_differ.
Print Assumptions PropEdnText.C32_text_example.
Print Assumptions PropEndpoint.C46_batch_in_order.
Print Assumptions PropEndpoint.C46_batch_raises.
Print Assumptions PropEndpoint.C46_batch_refuted.
Print Assumptions PropEndpoint.C46_calls_own_graph.
Print Assumptions PropEndpoint.C46_data_only_if_valid.
Print Assumptions PropEndpoint.C46_errors_no_calls.
Print Assumptions PropEndpoint.C46_example.
Print Assumptions PropEndpoint.C46_example_hypotheses.
Print Assumptions PropEndpoint.C46_no_calls_unless_valid.

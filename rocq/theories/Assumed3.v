(** What theorems named in MANIFEST.json rest on (written by tools/assumptions.py) *)
From Verif Require PropProv PropPy PropRead PropRecords PropRecordsEx PropReqs PropSame PropSameEx PropSql PropSqlGraph PropSub PropSubExpr PropSubVal PropSubWf PropTelemetry PropTransform PropValidate.
Print Assumptions PropProv.C60_places.
Print Assumptions PropProv.C60_plain_example.
Print Assumptions PropProv.C60_read_comes_from_loaders.
Print Assumptions PropProv.C60_result_comes_from_loaders.
Print Assumptions PropProv.C60_same_member.
Print Assumptions PropProv.C60_sub_example.
Print Assumptions PropProv.C60_subgraph_values.
Print Assumptions PropPy.C13_sequences.
Print Assumptions PropPy.C29_judged_example.
Print Assumptions PropPy.C29_truth.
Print Assumptions PropPy.C32_equality_example.
Print Assumptions PropPy.C53_truth.
Print Assumptions PropRead.C31_read_queries_only.
Print Assumptions PropRead.C31_type_of_operation.
Print Assumptions PropRecords.C04_result_exists.
Print Assumptions PropRecords.C21_validated_query_has_result.
Print Assumptions PropRecordsEx.C21_parts_example.
Print Assumptions PropReqs.C38_compiled_code_needs_only_requirements.
Print Assumptions PropReqs.C38_requirements_suffice.
Print Assumptions PropReqs.C38_type_references_refuted.
Print Assumptions PropSame.C62_merged_queries.
Print Assumptions PropSame.C62_same_request_same_answer.
Print Assumptions PropSameEx.C62_example.
Print Assumptions PropSameEx.C62_merged_example.
Print Assumptions PropSql.C41_engine_accepts.
Print Assumptions PropSql.C41_fetching_loses_nothing.
Print Assumptions PropSql.C41_one_row_per_id.
Print Assumptions PropSql.C41_rows_determined.
Print Assumptions PropSql.C41_serves_table.
Print Assumptions PropSql.C42_database_order.
Print Assumptions PropSql.C42_engine_accepts.
Print Assumptions PropSql.C42_fails_when_absent.
Print Assumptions PropSql.C42_null_target_refuted.
Print Assumptions PropSql.C42_only_key_error.
Print Assumptions PropSql.C42_root_link_refuted.
Print Assumptions PropSql.C42_targets_by_origin.
Print Assumptions PropSqlGraph.C64_example.
Print Assumptions PropSqlGraph.C64_fails.
Print Assumptions PropSqlGraph.C64_link_values.
Print Assumptions PropSqlGraph.C64_loaders_made.
Print Assumptions PropSqlGraph.C64_made.
Print Assumptions PropSqlGraph.C64_made_again.
Print Assumptions PropSqlGraph.C64_not_null.
Print Assumptions PropSqlGraph.C64_not_null_example.
Print Assumptions PropSqlGraph.C64_not_null_refuted.
Print Assumptions PropSqlGraph.C64_values.
Print Assumptions PropSub.C04_every_execution.
Print Assumptions PropSub.C04_every_execution_met.
Print Assumptions PropSub.C04_result.
Print Assumptions PropSub.C04_result_exists_sub_partial.
Print Assumptions PropSub.C04_result_met.
Print Assumptions PropSub.C04_same_result.
Print Assumptions PropSub.C04_same_result_met.
Print Assumptions PropSub.C05_never_stuck.
Print Assumptions PropSub.C05_never_stuck_met.
Print Assumptions PropSub.C05_no_failure.
Print Assumptions PropSub.C05_no_failure_met.
Print Assumptions PropSub.C07_calls_for_objects_met.
Print Assumptions PropSub.C07_link_arguments.
Print Assumptions PropSubExpr.C40_independent.
Print Assumptions PropSubExpr.C40_own_data.
Print Assumptions PropSubExpr.C40_value.
Print Assumptions PropSubVal.C04_sound_data.
Print Assumptions PropSubVal.C21_validated_query_ends.
Print Assumptions PropSubVal.C21_validated_query_gives_result.
Print Assumptions PropSubWf.C04_sound_graph.
Print Assumptions PropTelemetry.C47_batching_kept.
Print Assumptions PropTelemetry.C47_example.
Print Assumptions PropTelemetry.C47_field_observed_own_partial.
Print Assumptions PropTelemetry.C47_field_observed_partial.
Print Assumptions PropTelemetry.C47_instrumented.
Print Assumptions PropTelemetry.C47_link_observed.
Print Assumptions PropTelemetry.C47_same_results_partial.
Print Assumptions PropTelemetry.C47_same_validation.
Print Assumptions PropTelemetry.C47_shared_function_refuted.
Print Assumptions PropTelemetry.C47_transparent.
Print Assumptions PropTransform.C50_apply_composes.
Print Assumptions PropTransform.C50_apply_identities.
Print Assumptions PropTransform.C50_apply_none.
Print Assumptions PropTransform.C50_apply_one.
Print Assumptions PropTransform.C50_example.
Print Assumptions PropTransform.C50_identity.
Print Assumptions PropTransform.C50_made_again.
Print Assumptions PropTransform.C50_only_functions.
Print Assumptions PropValidate.C21_accepted_query_fits.
Print Assumptions PropValidate.C21_fitting_query_accepted.
Print Assumptions PropValidate.C21_refused_query_does_not_fit.
Print Assumptions PropValidate.C22_reports_partial.
Print Assumptions PropValidate.C23_accepted_conforms.
Print Assumptions PropValidate.C23_conforming_accepted.
Print Assumptions PropValidate.C23_decided.
Print Assumptions PropValidate.C23_refused_does_not_conform.
Print Assumptions PropValidate.C24_ambiguous_reported_partial.
Print Assumptions PropValidate.C25_accepted_iff_well_formed.
Print Assumptions PropValidate.C25_refused_otherwise.
Print Assumptions PropValidate.C26_requirement_is_member_partial.

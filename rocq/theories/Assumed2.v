(** What theorems named in MANIFEST.json rest on (written by tools/assumptions.py) *)
From Verif Require PropEndpoint PropExpr PropExprBind PropExprEx PropExprRun PropExprSound PropIntroDoc PropIntroGraph PropIntroList PropIntroRun PropIntrospect PropJson PropKinko PropKnown PropMore PropMoreEx PropObserved PropProv.
Print Assumptions PropEndpoint.C46_other_exceptions.
Print Assumptions PropEndpoint.C46_otherwise_exception.
Print Assumptions PropEndpoint.C46_raised_example.
Print Assumptions PropEndpoint.C46_request_not_answered_refuted.
Print Assumptions PropEndpoint.C46_valid_has_no_complaints.
Print Assumptions PropEndpoint.C46_valid_has_no_errors.
Print Assumptions PropExpr.C37_checked_expressions_compile.
Print Assumptions PropExpr.C37_compiled_code_computes_the_meaning_partial.
Print Assumptions PropExpr.C37_if_some_else_uses_name_refuted.
Print Assumptions PropExpr.C37_if_some_over_same_name_refuted.
Print Assumptions PropExpr.C37_if_some_shadowing_refuted.
Print Assumptions PropExpr.C37_name_of_an_earlier_variable_refuted.
Print Assumptions PropExpr.C37_option_named_env_refuted.
Print Assumptions PropExpr.C37_variable_named_ctx_refuted.
Print Assumptions PropExpr.C37_variable_named_env_refuted.
Print Assumptions PropExpr.C37_variable_named_like_a_renamed_one_refuted.
Print Assumptions PropExpr.C37_variable_named_next_refuted.
Print Assumptions PropExprBind.C53_requirements_fit.
Print Assumptions PropExprEx.C53_link_as_field_refuted.
Print Assumptions PropExprRun.C53_compiled_code_reads_by_name.
Print Assumptions PropExprRun.C53_value.
Print Assumptions PropExprSound.C53_bound_graph_sound.
Print Assumptions PropExprSound.C53_bound_subs_sound.
Print Assumptions PropExprSound.C53_valid_query.
Print Assumptions PropIntroDoc.C57_document_read.
Print Assumptions PropIntroGraph.C45_accepted.
Print Assumptions PropIntroGraph.C45_example.
Print Assumptions PropIntroGraph.C45_extends.
Print Assumptions PropIntroGraph.C45_listed_fields.
Print Assumptions PropIntroGraph.C45_listed_iff_some_public.
Print Assumptions PropIntroGraph.C45_newline_name_refuted.
Print Assumptions PropIntroGraph.C45_private_of_records_refuted.
Print Assumptions PropIntroGraph.C45_refused.
Print Assumptions PropIntroGraph.C45_refused_example.
Print Assumptions PropIntroGraph.C45_same_results_partial.
Print Assumptions PropIntroGraph.C45_still_valid.
Print Assumptions PropIntroGraph.C45_two_roots_refuted.
Print Assumptions PropIntroGraph.C45_typename.
Print Assumptions PropIntroGraph.C45_typename_rows.
Print Assumptions PropIntroList.C44_arguments.
Print Assumptions PropIntroList.C44_field_types.
Print Assumptions PropIntroList.C44_listed.
Print Assumptions PropIntroList.C44_listed_example.
Print Assumptions PropIntroList.C44_may_omit.
Print Assumptions PropIntroList.C44_may_omit_example.
Print Assumptions PropIntroList.C44_may_omit_refuted.
Print Assumptions PropIntroList.C44_record_fields.
Print Assumptions PropIntroRun.C56_fitting_queries.
Print Assumptions PropIntrospect.C43_client_reads.
Print Assumptions PropIntrospect.C43_client_reads_once.
Print Assumptions PropIntrospect.C43_example.
Print Assumptions PropIntrospect.C43_list_iff_sequence.
Print Assumptions PropIntrospect.C43_names.
Print Assumptions PropIntrospect.C43_no_value_excluded.
Print Assumptions PropIntrospect.C43_nullable_iff_optional.
Print Assumptions PropIntrospect.C43_same_values.
Print Assumptions PropIntrospect.C44_alias_refuted.
Print Assumptions PropIntrospect.C44_closed_partial.
Print Assumptions PropIntrospect.C44_example.
Print Assumptions PropIntrospect.C44_mutation_node_refuted.
Print Assumptions PropIntrospect.C44_node_in_record_refuted.
Print Assumptions PropIntrospect.C44_node_named_query_refuted.
Print Assumptions PropIntrospect.C44_private_node_refuted.
Print Assumptions PropIntrospect.C44_type_by_name_node_partial.
Print Assumptions PropIntrospect.C44_type_by_name_refuted.
Print Assumptions PropIntrospect.C44_untyped_option_refuted.
Print Assumptions PropJson.C65_defaults.
Print Assumptions PropJson.C65_example.
Print Assumptions PropJson.C65_json_example.
Print Assumptions PropJson.C65_object_refuted.
Print Assumptions PropJson.C65_shown.
Print Assumptions PropJson.C65_simple.
Print Assumptions PropJson.C65_text.
Print Assumptions PropJson.C65_written.
Print Assumptions PropKinko.C54_built_in_name_refuted.
Print Assumptions PropKinko.C54_definitions.
Print Assumptions PropKinko.C54_example.
Print Assumptions PropKinko.C54_functions_not_printed.
Print Assumptions PropKinko.C54_mapping_line_refuted.
Print Assumptions PropKinko.C54_printed.
Print Assumptions PropKinko.C54_text_determines_types.
Print Assumptions PropKinko.C54_unknown_refuted.
Print Assumptions PropKnown.C04_known_data.
Print Assumptions PropKnown.C21_known_data.
Print Assumptions PropKnown.C21_known_data_ends.
Print Assumptions PropKnown.C21_serves_known.
Print Assumptions PropMore.C61_asking_for_more.
Print Assumptions PropMore.C61_less_is_accepted.
Print Assumptions PropMore.C61_order_does_not_matter.
Print Assumptions PropMoreEx.C61_example.
Print Assumptions PropMoreEx.C61_part_named_twice_refuted.
Print Assumptions PropObserved.C47_observed_sub_example.
Print Assumptions PropProv.C60_example.
Print Assumptions PropProv.C60_field_value.
Print Assumptions PropProv.C60_link_value.
Print Assumptions PropProv.C60_list_value.

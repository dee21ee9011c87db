(** What every theorem listed in MANIFEST.json rests on. *)
From Verif Require PropsApi PropsChars PropsCli PropsDefinition PropsDocument PropsErrors PropsGlob PropsLazy PropsLeaf PropsLetters PropsLimit PropsList PropsLocal PropsNested PropsNewlines PropsNotices PropsParagraph PropsParser PropsProse PropsQuote PropsRecords PropsRender PropsRunLog PropsRuns PropsStable PropsTable PropsVersion PropsWidth PropsWrap.

(** C01 *)
Print Assumptions PropsApi.C01_self_consistency_gate.

(** C02 *)
Print Assumptions PropsApi.C02_single_trailing_newline.

(** C03 *)
Print Assumptions PropsApi.C03_idempotence_refuted.
Print Assumptions PropsApi.C03_changes_refuted.
Print Assumptions PropsApi.C03_idempotence_partial.
Print Assumptions PropsLocal.C03_blank_lines_partial.

(** C04 *)
Print Assumptions PropsChars.C04_only_newline_separators.

(** C05 *)
Print Assumptions PropsChars.C05_no_invented_characters.

(** C06 *)
Print Assumptions PropsErrors.C06_refuted.
Print Assumptions PropsErrors.C06_pass_causes.
Print Assumptions PropsErrors.C06_causes.
Print Assumptions PropsErrors.C06_exceptions.
Print Assumptions PropsErrors.C06_pass_partial.
Print Assumptions PropsErrors.C06_partial.

(** C07 *)
Print Assumptions PropsParser.C07_lossless.

(** C08 *)
Print Assumptions PropsParser.C08_parser_errors.
Print Assumptions PropsParser.C08_every_line_has_a_type.

(** C09 *)
Print Assumptions PropsLimit.C09_limit_parse.
Print Assumptions PropsLimit.C09_limit_reformat.
Print Assumptions PropsLimit.C09_parser.
Print Assumptions PropsLimit.C09_pass.
Print Assumptions PropsLimit.C09_output.
Print Assumptions PropsLimit.C09_reformat.
Print Assumptions PropsLimit.C09_plain_whitespace.
Print Assumptions PropsLimit.C09_tab_quote.
Print Assumptions PropsLimit.C09_wrapped_quote.

(** C10 *)
Print Assumptions PropsParser.C10_section_shapes.

(** C11 *)
Print Assumptions PropsParser.C11_mutually_exclusive_refuted.
Print Assumptions PropsParser.C11_mutually_exclusive_partial.

(** C12 *)
Print Assumptions PropsParser.C12_fenced_code_extent.
Print Assumptions PropsParser.C12_fence_starts_block.

(** C13 *)
Print Assumptions PropsParser.C13_table_maximal.
Print Assumptions PropsParser.C13_list_maximal.

(** C14 *)
Print Assumptions PropsParser.C14_block_quote_lines.
Print Assumptions PropsParser.C14_quote_starts_block.

(** C15 *)
Print Assumptions PropsLeaf.C15_unclosed_refuted.
Print Assumptions PropsLeaf.C15_unclosed_loses_last_line.
Print Assumptions PropsLeaf.C15_fenced_code_partial.

(** C16 *)
Print Assumptions PropsLeaf.C16_indented_code.
Print Assumptions PropsLeaf.C16_indented_document.

(** C17 *)
Print Assumptions PropsLeaf.C17_atx_heading.
Print Assumptions PropsLeaf.C17_covers_all_headings.

(** C18 *)
Print Assumptions PropsWrap.C18_setext_heading.
Print Assumptions PropsWrap.C18_succeeds.

(** C19 *)
Print Assumptions PropsLeaf.C19_thematic_break_refuted.
Print Assumptions PropsLeaf.C19_thematic_break.
Print Assumptions PropsLeaf.C19_thematic_break_partial.

(** C20 *)
Print Assumptions PropsWrap.C20_lines_fit.
Print Assumptions PropsWrap.C20_wrap_succeeds.

(** C21 *)
Print Assumptions PropsWrap.C21_greedy.
Print Assumptions PropsWrap.C21_plain_words.

(** C22 *)
Print Assumptions PropsWrap.C22_refuted.
Print Assumptions PropsWrap.C22_partial.
Print Assumptions PropsStable.C22_links_partial.
Print Assumptions PropsWrap.C22_plain.

(** C23 *)
Print Assumptions PropsWrap.C23_refuted.
Print Assumptions PropsWrap.C23_partial.
Print Assumptions PropsWrap.C23_no_new_whitespace.
Print Assumptions PropsWrap.C23_whitespace_kept.
Print Assumptions PropsWrap.C23_breaks.
Print Assumptions PropsWrap.C23_whitespace_links.
Print Assumptions PropsWrap.C23_breaks_links.
Print Assumptions PropsWrap.C23_unlimited.

(** C24 *)
Print Assumptions PropsWrap.C24_code_on_one_line.

(** C25 *)
Print Assumptions PropsDocument.C25_plain_paragraph.
Print Assumptions PropsDocument.C25_prose_paragraph.

(** C26 *)
Print Assumptions PropsList.C26_refuted.
Print Assumptions PropsList.C26_partial.

(** C27 *)
Print Assumptions PropsList.C27_dedent.

(** C28 *)
Print Assumptions PropsList.C28_ordered_list.
Print Assumptions PropsList.C29_fails_only_nested.

(** C29 *)
Print Assumptions PropsList.C29_bullet_list.
Print Assumptions PropsList.C29_fails_only_nested.

(** C30 *)
Print Assumptions PropsQuote.C30_block_quote.

(** C31 *)
Print Assumptions PropsQuote.C31_narrow_refuted.
Print Assumptions PropsQuote.C31_indented_refuted.
Print Assumptions PropsQuote.C31_partial.

(** C32 *)
Print Assumptions PropsTable.C32_rectangular_refuted.
Print Assumptions PropsTable.C32_rectangular_partial.

(** C33 *)
Print Assumptions PropsTable.C33_escaped_bar_refuted.
Print Assumptions PropsTable.C33_no_closing_bar_refuted.
Print Assumptions PropsTable.C33_short_divider_refuted.
Print Assumptions PropsTable.C33_second_line_refuted.
Print Assumptions PropsTable.C33_cells_kept_partial.
Print Assumptions PropsTable.C33_tables_stable.

(** C34 *)
Print Assumptions PropsTable.C34_alignment.

(** C35 *)
Print Assumptions PropsTable.C35_nested_line_number_refuted.
Print Assumptions PropsTable.C35_ragged_rejected.
Print Assumptions PropsTable.C35_ragged_table_rejected.
Print Assumptions PropsTable.C35_only_ragged_rejected.

(** C36 *)
Print Assumptions PropsDefinition.C36_refuted.
Print Assumptions PropsDefinition.C36_partial.
Print Assumptions PropsDefinition.C36_succeeds.

(** C37 *)
Print Assumptions PropsDefinition.C37_last_line_refuted.
Print Assumptions PropsDefinition.C37_unclosed_refuted.
Print Assumptions PropsDefinition.C37_recognised.
Print Assumptions PropsDefinition.C37_partial.

(** C38 *)
Print Assumptions PropsLeaf.C38_sections_in_order.
Print Assumptions PropsLeaf.C38_quote_then_setext.
Print Assumptions PropsLeaf.C38_no_other_separator.

(** C39 *)
Print Assumptions PropsLeaf.C39_blank_lines.

(** C40 *)
Print Assumptions PropsDocument.C40_structured_documents.
Print Assumptions PropsDocument.C40_output_is_fixed.
Print Assumptions PropsDocument.C40_no_inconsistency.
Print Assumptions PropsDocument.C40_says_one_thing.

(** C41 *)
Print Assumptions PropsCli.C41_check_modifies_nothing_refuted.
Print Assumptions PropsCli.C41_check_renders_refuted.
Print Assumptions PropsCli.C41_check_modifies_nothing_partial.

(** C42 *)
Print Assumptions PropsCli.C42_exit_status.
Print Assumptions PropsCli.C42_status_one_also_means_crash.

(** C43 *)
Print Assumptions PropsCli.C43_in_place_run.

(** C44 *)
Print Assumptions PropsCli.C44_failing_file.
Print Assumptions PropsCli.C44_failing_file_separate.
Print Assumptions PropsCli.C44_failure_not_ignored.
Print Assumptions PropsCli.C44_error_names_file_refuted.

(** C45 *)
Print Assumptions PropsCli.C45_crash_safety_refuted.
Print Assumptions PropsCli.C45_crash_safety_partial.

(** C46 *)
Print Assumptions PropsCli.C46_separate_outputs_refuted.
Print Assumptions PropsCli.C46_separate_outputs_partial.
Print Assumptions PropsRuns.C46_separate_completes.

(** C47 *)
Print Assumptions PropsCli.C47_line_length.
Print Assumptions PropsCli.C47_below_one_equivalent.

(** C48 *)
Print Assumptions PropsCli.C48_verbosity.

(** C49 *)
Print Assumptions PropsCli.C49_stdin.
Print Assumptions PropsCli.C49_stdin_fails.
Print Assumptions PropsCli.C49_terminal.
Print Assumptions PropsCli.C49_endings_unchanged.

(** C50 *)
Print Assumptions PropsChars.C50_crlf_normalised_refuted.
Print Assumptions PropsChars.C50_crlf_normalised_partial.

(** C51 *)
Print Assumptions PropsCli.C51_output_count_mismatch.
Print Assumptions PropsCli.C51_unwritable_target.

(** C52 *)
Print Assumptions PropsApi.C52_logging_restored_refuted.
Print Assumptions PropsApi.C52_level_restored_refuted.
Print Assumptions PropsApi.C52_own_level_pinned_refuted.
Print Assumptions PropsApi.C52_logging_restored_partial.

(** C53 *)
Print Assumptions PropsApi.C53_truncate.

(** C54 *)
Print Assumptions PropsCli.C54_renders_written.
Print Assumptions PropsCli.C54_renders_only_when_inconsistent.
Print Assumptions PropsRuns.C54_renders_in_run.

(** C55 *)
Print Assumptions PropsCli.C55_paths_not_ignored_refuted.
Print Assumptions PropsCli.C55_paths_not_ignored_partial.
Print Assumptions PropsCli.C55_all_files_partial.

(** C56 *)
Print Assumptions PropsCli.C56_summary.

(** C57 *)
Print Assumptions PropsLazy.C57_first_lazy_line_partial.
Print Assumptions PropsLazy.C57_refuted.
Print Assumptions PropsLazy.C57_all_quote_lines.
Print Assumptions PropsLazy.C57_all_lazy_lines.

(** C58 *)
Print Assumptions PropsLocal.C58_parsed_apart.
Print Assumptions PropsLocal.C58_formatted_apart.

(** C59 *)
Print Assumptions PropsParagraph.C59_paragraph_extent.
Print Assumptions PropsParagraph.C59_adjacent_paragraphs.
Print Assumptions PropsParagraph.C59_heading_extent.

(** C60 *)
Print Assumptions PropsParagraph.C60_refuted.
Print Assumptions PropsParagraph.C60_two_spaces_partial.
Print Assumptions PropsParagraph.C60_break_kept_partial.

(** C61 *)
Print Assumptions PropsRuns.C61_rejected_iff.
Print Assumptions PropsRuns.C61_carried_out.

(** C62 *)
Print Assumptions PropsRuns.C62_second_run_refuted.
Print Assumptions PropsRuns.C62_second_run_exactly.
Print Assumptions PropsRuns.C62_second_run_partial.

(** C63 *)
Print Assumptions PropsRuns.C63_check_agrees.
Print Assumptions PropsRuns.C63_changes_spec.

(** C64 *)
Print Assumptions PropsRuns.C64_exit_status.
Print Assumptions PropsRuns.C64_separate.
Print Assumptions PropsRuns.C64_renders.

(** C65 *)
Print Assumptions PropsParagraph.C65_wrapped_lines_not_indented.
Print Assumptions PropsParagraph.C65_paragraph_not_indented.

(** C66 *)
Print Assumptions PropsNested.C66_nested_documents.
Print Assumptions PropsNested.C66_says_one_thing.
Print Assumptions PropsNested.C66_output_is_fixed.

(** C67 *)
Print Assumptions PropsNewlines.C67_lines_read.
Print Assumptions PropsNewlines.C67_line_endings_do_not_matter.

(** C68 *)
Print Assumptions PropsStable.C68_refuted.
Print Assumptions PropsStable.C68_links_refuted.
Print Assumptions PropsStable.C68_references_refuted.
Print Assumptions PropsStable.C68_partial.
Print Assumptions PropsStable.C68_paragraph_partial.
Print Assumptions PropsStable.C68_links_partial.
Print Assumptions PropsStable.C68_links_paragraph_partial.

(** C69 *)
Print Assumptions PropsProse.C69_prose_wraps.
Print Assumptions PropsProse.C69_pieces_unique.
Print Assumptions PropsProse.C69_pieces_unbroken.

(** C70 *)
Print Assumptions PropsRender.C70_rendering.
Print Assumptions PropsRender.C70_canonical.

(** C71 *)
Print Assumptions PropsRender.C71_width_forgotten.

(** C72 *)
Print Assumptions PropsVersion.C72_development.
Print Assumptions PropsVersion.C72_installed.
Print Assumptions PropsVersion.C72_needed_for_every_run.
Print Assumptions PropsVersion.C72_any_version_refuted.

(** C73 *)
Print Assumptions PropsLetters.C73_sections_partial.
Print Assumptions PropsLetters.C73_lines_partial.
Print Assumptions PropsLetters.C73_inline_partial.
Print Assumptions PropsLetters.C73_refuted.

(** C74 *)
Print Assumptions PropsWidth.C74_layout.
Print Assumptions PropsWidth.C74_width_partial.
Print Assumptions PropsWidth.C74_words_partial.
Print Assumptions PropsWidth.C74_result_partial.
Print Assumptions PropsWidth.C74_indented_refuted.

(** C75 *)
Print Assumptions PropsRecords.C75_result.
Print Assumptions PropsRecords.C75_verbose.
Print Assumptions PropsRecords.C75_failed.
Print Assumptions PropsRecords.C75_debug.
Print Assumptions PropsRecords.C75_silent.
Print Assumptions PropsRecords.C75_cli.
Print Assumptions PropsRecords.C75_lost.

(** C76 *)
Print Assumptions PropsRecords.C76_partial.
Print Assumptions PropsRecords.C76_headings.
Print Assumptions PropsRecords.C76_setext.
Print Assumptions PropsRecords.C76_lines_refuted.
Print Assumptions PropsRecords.C76_correction_refuted.

(** C77 *)
Print Assumptions PropsNotices.C77_partial.
Print Assumptions PropsNotices.C77_pass_partial.
Print Assumptions PropsNotices.C77_result.
Print Assumptions PropsNotices.C77_listed.
Print Assumptions PropsNotices.C77_fences.
Print Assumptions PropsNotices.C77_definitions.
Print Assumptions PropsNotices.C77_silent.
Print Assumptions PropsNotices.C77_refuted.
Print Assumptions PropsNotices.C77_twice.
Print Assumptions PropsNotices.C77_line_zero.

(** C78 *)
Print Assumptions PropsNotices.C78_parser.
Print Assumptions PropsNotices.C78_pass.
Print Assumptions PropsNotices.C78_run.

(** C79 *)
Print Assumptions PropsRunLog.C79_default.
Print Assumptions PropsRunLog.C79_quiet.
Print Assumptions PropsRunLog.C79_error.
Print Assumptions PropsRunLog.C79_no_error.
Print Assumptions PropsRunLog.C79_interactive.

(** C80 *)
Print Assumptions PropsRunLog.C80_records.
Print Assumptions PropsRunLog.C80_verbose.
Print Assumptions PropsRunLog.C80_stopped.

(** C81 *)
Print Assumptions PropsGlob.C81_found_partial.
Print Assumptions PropsGlob.C81_run_partial.
Print Assumptions PropsGlob.C81_directory.
Print Assumptions PropsGlob.C81_refuted.
Print Assumptions PropsGlob.C81_files_refuted.

{"claims": [
  {"property":"C01","status":"proved","theorems":["C01_self_consistency_gate"],"note":""},
  {"property":"C02","status":"proved","theorems":["C02_single_trailing_newline"],"note":""},
  {"property":"C03","status":"partial","theorems":["C03_idempotence_refuted","C03_changes_refuted","C03_idempotence_partial","C03_blank_lines_partial"],"note":"False in general: the final trimming can change how the last section parses (a link reference definition at the end of the file, an empty numbered entry directly after a quote). Proved whenever the formatted text has nothing to trim, and when only blank lines are trimmed and the sections of the result leave nothing open (C58). Missing: a heading without text at the end, and definitions and unfinished titles at the end that happen to be stable."},
  {"property":"C04","status":"proved","theorems":["C04_only_newline_separators"],"note":""},
  {"property":"C05","status":"proved","theorems":["C05_no_invented_characters"],"note":""},
  {"property":"C06","status":"partial","theorems":["C06_refuted","C06_pass_causes","C06_causes","C06_exceptions","C06_pass_partial","C06_partial"],"note":"False as stated: C06_refuted gives documents for each kind of failure. C06_causes names a reason in the document (or in a text nested in it, or in the output of the first pass) for every failure, and C06_exceptions lists every exception a caller can see. C06_partial: with plain spaces in front of every > and without tables, fences, link reference definitions, hard line breaks and words that begin with a dot a pass succeeds, and the whole function succeeds or reports that its two passes differ."},
  {"property":"C07","status":"proved","theorems":["C07_lossless"],"note":""},
  {"property":"C08","status":"proved","theorems":["C08_parser_errors","C08_every_line_has_a_type"],"note":""},
  {"property":"C09","status":"proved","theorems":["C09_limit_parse","C09_limit_reformat","C09_parser","C09_pass","C09_output","C09_reformat","C09_plain_whitespace","C09_tab_quote","C09_wrapped_quote"],"note":"C09_reformat is the statement; C09_parser has an explicit bound. C09_tab_quote and C09_wrapped_quote show that the condition is needed, also for a > that begins a line only after wrapping."},
  {"property":"C10","status":"proved","theorems":["C10_section_shapes"],"note":""},
  {"property":"C11","status":"partial","theorems":["C11_mutually_exclusive_refuted","C11_mutually_exclusive_partial"],"note":"Refuted: five pairs of detectors overlap (list order decides). Proved that these five pairs are the only overlaps."},
  {"property":"C12","status":"proved","theorems":["C12_fenced_code_extent","C12_fence_starts_block"],"note":""},
  {"property":"C13","status":"proved","theorems":["C13_table_maximal","C13_list_maximal"],"note":""},
  {"property":"C14","status":"proved","theorems":["C14_block_quote_lines","C14_quote_starts_block"],"note":""},
  {"property":"C15","status":"partial","theorems":["C15_unclosed_refuted","C15_unclosed_loses_last_line","C15_fenced_code_partial"],"note":"Refuted for a block that is never closed, whose last line is always lost; proved for closed blocks."},
  {"property":"C16","status":"proved","theorems":["C16_indented_code","C16_indented_document"],"note":""},
  {"property":"C17","status":"proved","theorems":["C17_atx_heading","C17_covers_all_headings"],"note":""},
  {"property":"C18","status":"proved","theorems":["C18_setext_heading","C18_succeeds"],"note":""},
  {"property":"C19","status":"partial","theorems":["C19_thematic_break_refuted","C19_thematic_break","C19_thematic_break_partial"],"note":"The length is proved for every integer width and the infinite one; staying a thematic break is refuted below width three and proved from three on."},
  {"property":"C20","status":"proved","theorems":["C20_lines_fit","C20_wrap_succeeds"],"note":"A line that does not fit is one word, inline code, an HTML line break or the second half of a link, as it stands in the text. Wrapping succeeds unless a word begins with a single dot (see C06)."},
  {"property":"C21","status":"proved","theorems":["C21_greedy","C21_plain_words"],"note":""},
  {"property":"C22","status":"partial","theorems":["C22_refuted","C22_partial","C22_links_partial","C22_plain"],"note":"Refuted: the target of a link around an image is lost. Proved for text in which each link is closed before the next begins and there is whitespace between inline links and references. This covers text with inline links only (C22_links_partial)."},
  {"property":"C23","status":"partial","theorems":["C23_refuted","C23_partial","C23_no_new_whitespace","C23_whitespace_kept","C23_breaks","C23_whitespace_links","C23_breaks_links","C23_unlimited"],"note":"Refuted both ways: two links with a space between them are joined, and inline code touching a word is broken off. Proved: in text without inline code, links and HTML line breaks the words are the same; with markup whose links are apart, no whitespace other than a line break is added; without links, whitespace is kept (spaces and line separators) and a line break that is not at whitespace is beside a backtick, a full stop after one, or an HTML line break; at unlimited width the words are the same; with links that are apart, whitespace that is lost is around the middle of a link or between a word with a closing and a word with an opening bracket, and a line break that is not at whitespace is beside one of the characters above or an opening bracket, or between a closing bracket and a link. Missing: text whose links touch."},
  {"property":"C24","status":"proved","theorems":["C24_code_on_one_line"],"note":""},
  {"property":"C25","status":"proved","theorems":["C25_plain_paragraph","C25_prose_paragraph"],"note":"C25_prose_paragraph extends the statement to paragraphs with inline code and links."},
  {"property":"C26","status":"partial","theorems":["C26_refuted","C26_partial"],"note":"Refuted for indented fences, where any indented fence line closes any other. Splitting always succeeds and keeps every line once and in order, every entry starts with a marker; without indented fences entries start exactly where they should."},
  {"property":"C27","status":"proved","theorems":["C27_dedent"],"note":""},
  {"property":"C28","status":"proved","theorems":["C28_ordered_list","C29_fails_only_nested"],"note":""},
  {"property":"C29","status":"proved","theorems":["C29_bullet_list","C29_fails_only_nested"],"note":""},
  {"property":"C30","status":"proved","theorems":["C30_block_quote"],"note":""},
  {"property":"C31","status":"partial","theorems":["C31_narrow_refuted","C31_indented_refuted","C31_partial"],"note":"Refuted for indented quotes (the indentation widens the text) and for widths of at most two (no limit at all). Proved for the paragraphs of all other quotes."},
  {"property":"C32","status":"partial","theorems":["C32_rectangular_refuted","C32_rectangular_partial"],"note":"Refuted for tables with an escaped bar in the body, whose columns are counted one way and written another; proved for all others."},
  {"property":"C33","status":"partial","theorems":["C33_escaped_bar_refuted","C33_no_closing_bar_refuted","C33_short_divider_refuted","C33_second_line_refuted","C33_cells_kept_partial","C33_tables_stable"],"note":"Refuted for escaped bars in body rows, rows without closing bar, dividers with fewer columns and a second row that is no divider; proved for well-formed tables, whose headers may contain escaped bars and which are also proved fixed after one formatting."},
  {"property":"C34","status":"proved","theorems":["C34_alignment"],"note":""},
  {"property":"C35","status":"partial","theorems":["C35_nested_line_number_refuted","C35_ragged_rejected","C35_ragged_table_rejected","C35_only_ragged_rejected"],"note":"Refuted for tables in quotes and lists (line number relative to the nested text); proved for tables of the document itself."},
  {"property":"C36","status":"partial","theorems":["C36_refuted","C36_partial","C36_succeeds"],"note":"Refuted: when the first word of the title does not fit on the line of the link, label and link disappear. Proved in all other cases: every visible character is kept, and every word when there is no inline code, link or HTML line break."},
  {"property":"C37","status":"partial","theorems":["C37_last_line_refuted","C37_unclosed_refuted","C37_recognised","C37_partial"],"note":"Refuted for a label and link on the last line, and for titles that are never closed, which take all lines but the last. All other definitions are recognised with exactly their lines."},
  {"property":"C38","status":"proved","theorems":["C38_sections_in_order","C38_quote_then_setext","C38_no_other_separator"],"note":""},
  {"property":"C39","status":"proved","theorems":["C39_blank_lines"],"note":""},
  {"property":"C40","status":"proved","theorems":["C40_structured_documents","C40_output_is_fixed","C40_no_inconsistency","C40_says_one_thing"],"note":"The formatted sections say what the sections said: the same words, inline code, links, code lines, cells, sides of columns and link targets. Also covers indented code, tables, one-line link reference definitions and setext headings. A table or heading interacts with the section after it only as stated in ends_before. Reformatting the output again needs the document not to end in a link reference definition (see C03)."},
  {"property":"C41","status":"partial","theorems":["C41_check_modifies_nothing_refuted","C41_check_renders_refuted","C41_check_modifies_nothing_partial"],"note":"False with --output-file/--output-dir (unchanged inputs are still copied) and with --write-renders; proved for every run without those options, completed or not."},
  {"property":"C42","status":"proved","theorems":["C42_exit_status","C42_status_one_also_means_crash"],"note":"Completed in-place runs; the second theorem shows that status 1 is also what an uncaught exception gives."},
  {"property":"C43","status":"proved","theorems":["C43_in_place_run"],"note":""},
  {"property":"C44","status":"partial","theorems":["C44_failing_file","C44_failing_file_separate","C44_failure_not_ignored","C44_error_names_file_refuted"],"note":"Everything but 'the error names the failing file', which only holds for RuntimeErrors and is refuted for the others."},
  {"property":"C45","status":"partial","theorems":["C45_crash_safety_refuted","C45_crash_safety_partial"],"note":"Refuted: write_text truncates first. Proved: at every crash point at most one named file is affected and it holds a prefix of its new text."},
  {"property":"C46","status":"partial","theorems":["C46_separate_outputs_refuted","C46_separate_outputs_partial","C46_separate_completes"],"note":"Refuted for inputs with the same name and --output-dir; proved when outputs are distinct and none is an input."},
  {"property":"C47","status":"proved","theorems":["C47_line_length","C47_below_one_equivalent"],"note":""},
  {"property":"C48","status":"proved","theorems":["C48_verbosity"],"note":""},
  {"property":"C49","status":"proved","theorems":["C49_stdin","C49_stdin_fails","C49_terminal","C49_endings_unchanged"],"note":""},
  {"property":"C50","status":"partial","theorems":["C50_crlf_normalised_refuted","C50_crlf_normalised_partial"],"note":"Refuted: a file that differs from its formatted text only by \\r\\n newlines is left alone. Proved that this is the only way a named file keeps a carriage return."},
  {"property":"C51","status":"proved","theorems":["C51_output_count_mismatch","C51_unwritable_target"],"note":""},
  {"property":"C52","status":"partial","theorems":["C52_logging_restored_refuted","C52_level_restored_refuted","C52_own_level_pinned_refuted","C52_logging_restored_partial"],"note":"Refuted when an exception leaves a nested pass or the second pass, and for the logger's own level; proved for the effective level and logging.INFO whenever both passes succeed."},
  {"property":"C53","status":"proved","theorems":["C53_truncate"],"note":""},
  {"property":"C54","status":"proved","theorems":["C54_renders_written","C54_renders_only_when_inconsistent","C54_renders_in_run"],"note":"C54_renders_in_run covers in-place runs and checks over any number of files; the other two are stated for runs over one file, with any outputs."},
  {"property":"C55","status":"partial","theorems":["C55_paths_not_ignored_refuted","C55_paths_not_ignored_partial","C55_all_files_partial"],"note":"Refuted for a directory without Markdown files; proved when at least one file is named or found."},
  {"property":"C56","status":"proved","theorems":["C56_summary"],"note":""},
  {"property":"C57","status":"partial","theorems":["C57_first_lazy_line_partial","C57_refuted","C57_all_quote_lines","C57_all_lazy_lines"],"note":"Refuted for later lines: once a line without marker has been taken, lines are taken without looking at what is quoted, such as `d` after `> a`, `b`, `> # c`. Proved for the first line without marker of a block quote, and the second half in full."},
  {"property":"C58","status":"proved","theorems":["C58_parsed_apart","C58_formatted_apart"],"note":""},
  {"property":"C59","status":"proved","theorems":["C59_paragraph_extent","C59_adjacent_paragraphs","C59_heading_extent"],"note":""},
  {"property":"C60","status":"partial","theorems":["C60_refuted","C60_two_spaces_partial","C60_break_kept_partial"],"note":"Refuted: a backslash at the end of a line is wrapped away, wrapping after a backslash makes one, and tabs in the text become two spaces at the end of a line. Proved for breaks made by two spaces in texts whose only blanks are spaces and newlines: every line but the last of a formatted paragraph ends in ink, and the two spaces at its end are kept in the document."},
  {"property":"C61","status":"proved","theorems":["C61_rejected_iff","C61_carried_out"],"note":""},
  {"property":"C62","status":"partial","theorems":["C62_second_run_refuted","C62_second_run_exactly","C62_second_run_partial"],"note":"Refuted because formatting is not idempotent (C03). C62_second_run_exactly: it holds exactly when the formatted text of every file is formatted to itself; C62_second_run_partial: in particular if the final trimming removes nothing from any of them."},
  {"property":"C63","status":"proved","theorems":["C63_check_agrees","C63_changes_spec"],"note":""},
  {"property":"C64","status":"proved","theorems":["C64_exit_status","C64_separate","C64_renders"],"note":"C64_separate: runs whose outputs are different files, none of them an input, which can be written. C64_renders is about every invocation, also of standard input."},
  {"property":"C65","status":"proved","theorems":["C65_wrapped_lines_not_indented","C65_paragraph_not_indented"],"note":"Every line of the wrapped text begins in something else than whitespace, for all texts and widths; a formatted paragraph is such lines and at most the two spaces of a line break."},
  {"property":"C66","status":"proved","theorems":["C66_nested_documents","C66_says_one_thing","C66_output_is_fixed"],"note":"The documents are described by the grammar of SpecNested: text of ordinary words, inline code and links (SpecProse), closed fences, quotes with one marker throughout, and lists whose numbers stay equally long or, if they grow by at most three digits, whose entries begin with text or a heading and hold no quotes directly. What a document says is a tree of its lists, quotes and sections."},
  {"property":"C67","status":"proved","theorems":["C67_lines_read","C67_line_endings_do_not_matter"],"note":""},
  {"property":"C68","status":"partial","theorems":["C68_refuted","C68_links_refuted","C68_references_refuted","C68_partial","C68_paragraph_partial","C68_links_partial","C68_links_paragraph_partial"],"note":"False in general: tabs between spaces, and an HTML line break with two spaces inside, make the second wrapping differ (and the document is then refused). With reference links the second wrapping can repeat words (C68_references_refuted). Proved for text whose whitespace is spaces and line separators and which has no HTML line break: with inline code and no bracket outside it (C68_partial), or with inline code, inline links and single pairs of brackets such as '[1]' (C68_links_partial, for which the first line must not be blank; C68_links_refuted shows why. A paragraph never begins with a blank line). Missing: texts with reference links that do not change, nested and unpaired brackets outside inline code."},
  {"property":"C69","status":"proved","theorems":["C69_prose_wraps","C69_pieces_unique","C69_pieces_unbroken"],"note":"The pieces are those of SpecProse: links are separated by other text, inline code has one or two backticks and is followed by a space or one full stop, and no word that could begin a line looks like another kind of section."},
  {"property":"C70","status":"proved","theorems":["C70_rendering","C70_canonical"],"note":"Documents as in C66. The layout is defined in SpecRender from the tree alone."},
  {"property":"C71","status":"proved","theorems":["C71_width_forgotten"],"note":"Documents as in C66 whose last section that is not blank is no link definition."},
  {"property":"C72","status":"proved","theorems":["C72_development","C72_installed","C72_needed_for_every_run","C72_any_version_refuted"],"note":"C72_any_version_refuted shows that the restriction to digits and dots matters: a release candidate cannot be run at all. The moment at which argparse acts on --version is not modelled."},
  {"property":"C73","status":"partial","theorems":["C73_sections_partial","C73_lines_partial","C73_inline_partial","C73_refuted"],"note":"False as stated: C73_refuted shows links that are repeated and a fence, a row and a definition that lose text. C73_sections_partial excludes such sections, wherever they are nested; C73_lines_partial is about texts without fences, bars and definitions whose links each are on one line and apart; C73_inline_partial in particular about inline links, which may touch."},
  {"property":"C74","status":"partial","theorems":["C74_layout","C74_width_partial","C74_words_partial","C74_result_partial","C74_indented_refuted"],"note":"C74_layout holds for all texts and widths: every line is what stands before the text within it, and a line that fits into the width that this text has, or has an excuse. C74_width_partial counts both; missing are texts with an indented block quote, where a pass can exceed the width (C74_indented_refuted; the function then reports an inconsistency). C74_words_partial: with modest lines the only excuse is a single word. C74_result_partial: in terms of the formatted text, which only needs to have no indented quote itself."},
  {"property":"C75","status":"proved","theorems":["C75_result","C75_verbose","C75_failed","C75_debug","C75_silent","C75_cli","C75_lost"],"note":"About the records of the loggers of reformat_markdown.py and formatters/atx_heading.py; the records of the detectors and of parser.py are the subject of C77, which also shows that they change nothing here. Python's repr of a string is arbitrary. C75_lost: after a failure within nested text (C52) no later document is listed."},
  {"property":"C76","status":"partial","theorems":["C76_partial","C76_headings","C76_setext","C76_lines_refuted","C76_correction_refuted"],"note":"False: the line of a heading within a list or quote is counted from the start of the nested text, and a heading without text is announced, twice, although nothing changes. C76_partial says exactly which warnings there are (with lines counted in the nested text, and the headings of the formatted text announced again if they are still not well spaced); C76_headings and C76_setext: headings of the document itself are announced with their right line. Missing: that the second pass announces only headings without text."},
  {"property":"C77","status":"partial","theorems":["C77_partial","C77_pass_partial","C77_result","C77_listed","C77_fences","C77_definitions","C77_silent","C77_refuted","C77_twice","C77_line_zero"],"note":"False: the splitters are not told at which line of the document they are, and look ahead, so a fence is reported with the wrong line and several times (C77_refuted, C77_twice), and a definition as that on line 0 or 1 (C77_line_zero). Proved: every warning has a reason at its line or further down in a text the parser reads (C77_partial, C77_pass_partial for the texts within lists and quotes as well); fences and definitions that need a warning get one, with the line counted from the section (C77_fences, C77_definitions); every section is listed with its lines (C77_listed); reporting changes neither sections nor output (C77_result). Missing: the right line."},
  {"property":"C78","status":"proved","theorems":["C78_parser","C78_pass","C78_run"],"note":"C78_run is about both passes of a run and therefore needs the condition of the result as well."},
  {"property":"C79","status":"proved","theorems":["C79_default","C79_quiet","C79_error","C79_no_error","C79_interactive"],"note":"About the records that are shown at the level selected by -v and -q, of all loggers of the package. The error does not name the file."},
  {"property":"C80","status":"proved","theorems":["C80_records","C80_verbose","C80_stopped"],"note":"For runs that format different files in place or with --check. C80_stopped is about runs without --write-renders."},
  {"property":"C81","status":"partial","theorems":["C81_found_partial","C81_run_partial","C81_directory","C81_refuted","C81_files_refuted"],"note":"False in two ways: the path of the directory is itself read as a pattern, so that the files in v[1] are not found and those in v1 are (C81_refuted), and a directory whose name ends in .md is found as if it were a file (C81_files_refuted), which makes an in-place run refuse to do anything (C81_directory). Proved for directories whose paths have no star, question mark or opening bracket."}
]}

{
 "claims": [
  {
   "property": "C01",
   "status": "proved",
   "theorems": [
    "C01_editor_is_text_with_cursor"
   ],
   "note": "refinement to (text before cursor, text after cursor); display width oracle universally quantified"
  },
  {
   "property": "C02",
   "status": "proved",
   "theorems": [
    "C02_editor_never_panics"
   ],
   "note": "colour ranges and terminal output are not modelled"
  },
  {
   "property": "C03",
   "status": "proved",
   "theorems": [
    "C03_word_motions"
   ],
   "note": ""
  },
  {
   "property": "C04",
   "status": "proved",
   "theorems": [
    "C04_abbreviation_replaces_only_word"
   ],
   "note": ""
  },
  {
   "property": "C05",
   "status": "proved",
   "theorems": [
    "C05_command_lists_are_andor_lists",
    "C05_every_job_sequence_is_a_line"
   ],
   "note": "process layer, Lisp and hooks are arbitrary oracles"
  },
  {
   "property": "C06",
   "status": "partial",
   "theorems": [
    "C06_refused_line_partial",
    "C06_plain_line_is_read_without_effect",
    "C06_declined_line_launches_nothing",
    "C06_declined_line_refuted"
   ],
   "note": "from the text of the line to its effects. Proved for lines in which no opening parenthesis is left after expansion: refused means nothing happened at all. False for lines with substitutions: these run while the line is read, before the question (dd $(touch x), answered no, has run touch). Of any refused line nothing but its substitutions has run."
  },
  {
   "property": "C07",
   "status": "proved",
   "theorems": [
    "C07_safety_levels_decide"
   ],
   "note": ""
  },
  {
   "property": "C08",
   "status": "proved",
   "theorems": [
    "C08_mcp_calls_are_gated",
    "C08_mcp_reasons_suffice"
   ],
   "note": "serde_json is an arbitrary pair of functions"
  },
  {
   "property": "C09",
   "status": "partial",
   "theorems": [
    "C09_sanitised_clean_and_bounded_partial",
    "C09_sanitiser_total_refuted"
   ],
   "note": "cleaning and bound proved; totality is false (panics when the limit falls inside a character) and refuted with a witness"
  },
  {
   "property": "C10",
   "status": "proved",
   "theorems": [
    "C10_parsing_total_and_faithful"
   ],
   "note": "the pest engine is modelled operator by operator; positions in characters; termination proved from the ranks of the grammar"
  },
  {
   "property": "C11",
   "status": "partial",
   "theorems": [
    "C11_wellformed_lines_run_whole_partial",
    "C11_rest_of_line_dropped",
    "C11_nothing_dropped_refuted"
   ],
   "note": "proved for every well-formed line; false in general: after a newline, a closing parenthesis, a backquote or a double quote followed by a dollar sign the rest of any line is dropped (proved for all lines), and 2>&1 or an unterminated quote drop text too"
  },
  {
   "property": "C12",
   "status": "partial",
   "theorems": [
    "C12_completed_name_arrives_partial",
    "C12_completed_name_arrives_refuted"
   ],
   "note": "proved through expansion and parsing for every non-empty name in the unquoted styles, and in closed quotes for names that need no backslash there; in quotes inserted backslashes reach the program, and a name that is a tilde becomes the home directory (refuted)"
  },
  {
   "property": "C13",
   "status": "partial",
   "theorems": [
    "C13_decode_encode_partial",
    "C13_candidates_keep_their_paths_partial",
    "C13_decode_encode_refuted"
   ],
   "note": "false exactly for a path that ends with the quote still open (refuted for every such path); proved for all others"
  },
  {
   "property": "C14",
   "status": "proved",
   "theorems": [
    "C14_tokens_tile_the_line",
    "C14_token_contains_cursor",
    "C14_token_found"
   ],
   "note": ""
  },
  {
   "property": "C15",
   "status": "partial",
   "theorems": [
    "C15_braces_terminate",
    "C15_cross_product_partial",
    "C15_no_group_unchanged",
    "C15_every_group_expanded_refuted"
   ],
   "note": "termination for every word, cross product for every well-formed word of any nesting; an unclosed opening brace hides later complete groups (refuted)"
  },
  {
   "property": "C16",
   "status": "proved",
   "theorems": [
    "C16_only_typed_names_looked_up",
    "C16_not_an_alias_left_alone"
   ],
   "note": "the model is total; alias text is never looked up again, so that cycles play no part"
  },
  {
   "property": "C17",
   "status": "partial",
   "theorems": [
    "C17_completed_exactly",
    "C17_completed_means_last_stage_ended_partial",
    "C17_foreground_waits_for_last_stage_refuted",
    "C17_wait_ends_for_a_reason",
    "C17_stage_states_are_the_reported_ones",
    "C17_completed_is_final"
   ],
   "note": "the early-consumer rule fires for any stage but the first, so a foreground pipeline of three or more stages can be left while its last stage runs (refuted with a witness)"
  },
  {
   "property": "C18",
   "status": "partial",
   "theorems": [
    "C18_external_status_partial",
    "C18_pipeline_status_is_last_stage",
    "C18_builtin_status_refuted",
    "C18_builtin_status_inverted"
   ],
   "note": "faithful for external commands; for builtins run as a job stage success and failure are inverted (refuted)"
  },
  {
   "property": "C19",
   "status": "partial",
   "theorems": [
    "C19_poll_drops_exactly_ended_leaders",
    "C19_running_pipeline_kept_refuted",
    "C19_fg_keeps_stopped_job_refuted",
    "C19_failed_bg_keeps_job_refuted",
    "C19_job_numbers_unique_refuted",
    "C19_fg_bg_keep_other_jobs",
    "C19_live_jobs_stay_partial",
    "C19_job_numbers_unique_partial",
    "C19_unfinished_foreground_job_recorded"
   ],
   "note": "four ways to lose a job or duplicate a number are refuted with witnesses; proved for histories without them"
  },
  {
   "property": "C20",
   "status": "proved",
   "theorems": [
    "C20_designators_resolve",
    "C20_designated_job_exists",
    "C20_bg_default_is_newest_stopped"
   ],
   "note": "the code also accepts a plus sign before the number (%+5); the specification says so"
  },
  {
   "property": "C21",
   "status": "partial",
   "theorems": [
    "C21_entry_stored_or_shortened",
    "C21_history_is_newest_that_fit",
    "C21_zero_capacity_hangs_refuted"
   ],
   "note": "proved for every positive capacity; a history of capacity 0 never finishes a push (refuted with the proof that it loops). The floating-point split between the two streams is an arbitrary function bounded by the limit"
  },
  {
   "property": "C22",
   "status": "proved",
   "theorems": [
    "C22_output_names_exact",
    "C22_out_and_err_read_captures",
    "C22_other_names_not_intercepted"
   ],
   "note": "about the variable lookup; the grammar cannot produce an indexed name at the command line, see the parser model"
  },
  {
   "property": "C23",
   "status": "partial",
   "theorems": [
    "C23_one_entry_per_command_partial",
    "C23_late_load_repeats_command_refuted",
    "C23_reload_forgets_pending_refuted"
   ],
   "note": "exact for recording on any duplicate-free history; the start-up load and the periodic reload can duplicate or forget commands (refuted)"
  },
  {
   "property": "C24",
   "status": "partial",
   "theorems": [
    "C24_plain_walk",
    "C24_back_finds_newest_match_partial",
    "C24_forward_finds_next_match",
    "C24_oldest_match_found_refuted",
    "C24_search_never_fails_refuted",
    "C24_release_walk_gets_stuck_refuted"
   ],
   "note": "exact without a search word and for all entries but the oldest with one; the oldest entry is skipped, and the index underflows (refuted)"
  },
  {
   "property": "C25",
   "status": "proved",
   "theorems": [
    "C25_suggestion_is_most_recent_match"
   ],
   "note": ""
  },
  {
   "property": "C26",
   "status": "partial",
   "theorems": [
    "C26_memory_and_table_agree_partial",
    "C26_context_agrees_refuted",
    "C26_outcome_agrees_refuted"
   ],
   "note": "agreement on time, count and context for all interleavings with the writer when the working directory exists; context without directory and outcome of a rerun disagree (refuted)"
  },
  {
   "property": "C27",
   "status": "proved",
   "theorems": [
    "directories_stay_ordered_and_unique",
    "directory_operations_have_their_effect",
    "visit_counts_on_that_directory_only",
    "truncation_keeps_the_best",
    "prefix_search_is_exact",
    "proposal_is_the_best_match"
   ],
   "note": "from any list in order (the empty store in particular); the list loaded at start need not be in order, see C55"
  },
  {
   "property": "C28",
   "status": "proved",
   "theorems": [
    "C28_newlines_independent_of_chunks",
    "C28_every_line_feed_is_preceded",
    "C28_only_carriage_returns_added"
   ],
   "note": ""
  },
  {
   "property": "C29",
   "status": "partial",
   "theorems": [
    "read_tool_stays_inside",
    "edit_tool_stays_inside",
    "listed_dir_stays_inside_partial",
    "listed_dir_stays_inside_refuted",
    "made_dirs_stay_inside_partial",
    "made_dirs_stay_inside_refuted"
   ],
   "note": "reading and writing proved without condition; listing, searching and making directories can leave the allowed directories through a path with forty links (refuted), proved when the path exists / when the limit on links plays no part"
  },
  {
   "property": "C30",
   "status": "partial",
   "theorems": [
    "execute_tool_runs_allowed_commands_only",
    "no_shell_string_is_evaluated_partial",
    "no_shell_string_is_evaluated_refuted"
   ],
   "note": "the allowlist is proved exact for every splitting function; the block on shell strings misses combined options such as -ec (refuted)"
  },
  {
   "property": "C31",
   "status": "partial",
   "theorems": [
    "served_files_lie_below_root_partial",
    "listings_lie_below_root",
    "served_files_lie_below_root_refuted",
    "resolved_url_is_below_base"
   ],
   "note": "proved for every tree and URL with the index option off, and for listings; with it on, an index.html that is a link leads outside (refuted)"
  },
  {
   "property": "C32",
   "status": "partial",
   "theorems": [
    "escaped_text_is_inert",
    "escaped_text_reads_back",
    "name_cell_markup_is_the_templates",
    "listing_markup_is_the_templates_partial",
    "listing_markup_is_the_templates_refuted"
   ],
   "note": "escaping and the rich listing proved; the plain listing of serve_directory does not escape names (refuted), safe for names without markup characters"
  },
  {
   "property": "C33",
   "status": "partial",
   "theorems": [
    "C33_assignment_hidden_partial",
    "C33_option_hidden_partial",
    "C33_bearer_hidden_partial",
    "C33_parameter_hidden_partial",
    "C33_recorded_as_typed",
    "C33_custom_pattern_refuted",
    "C33_quoted_value_refuted",
    "C33_nested_assignment_refuted",
    "C33_two_options_refuted",
    "C33_accepted_suggestion_refuted",
    "C33_lisp_names_partial",
    "C33_lisp_names_refuted"
   ],
   "note": "proved as non-interference (the recorded text does not depend on the secret) for assignments, options, bearer headers; URL parameters at their own redaction stage; refuted in general for quoted values with blanks, a second equals sign in a word, consecutive options, custom patterns in redact mode and accepted suggestions"
  },
  {
   "property": "C34",
   "status": "partial",
   "theorems": [
    "C34_helper_environment_exact",
    "C34_launched_environment_refuted",
    "C34_launched_environment_partial",
    "C34_sessions_are_well_formed"
   ],
   "note": "exact for helper commands; external commands lose an inherited variable that is exported without a shell value (refuted), otherwise exact"
  },
  {
   "property": "C35",
   "status": "partial",
   "theorems": [
    "C35_lookup_follows_path_partial",
    "C35_explicit_paths",
    "C35_add_path_takes_effect_refuted",
    "C35_exported_path_is_searched_refuted",
    "C35_only_executables_found_refuted"
   ],
   "note": "first regular file on the PATH set with set -x or inherited; add_path, export PATH=... and the execute bit are ignored by the code (refuted)"
  },
  {
   "property": "C36",
   "status": "partial",
   "theorems": [
    "C36_pipelines_are_connected_partial",
    "C36_children_get_their_streams",
    "C36_no_stray_read_ends_refuted",
    "C36_builtin_first_refuted"
   ],
   "note": "proved for pipelines of external commands of every length, with or without pseudo-terminal, in fore- and background, for every allocation of descriptors: streams connected, first reads the job's input, last writes its output, every write end held by one process and not by the shell. Refuted: each stage but the last keeps the read end of its own output, so a writer is never told that its reader is gone; a builtin before the last stage runs inside the shell before anybody can read its output"
  },
  {
   "property": "C37",
   "status": "proved",
   "theorems": [
    "C37_lookup_sees_nearest",
    "C37_define_in_current_frame",
    "C37_set_updates_nearest",
    "C37_undefine_removes_nearest",
    "C37_new_frame_is_empty",
    "C37_only_set_reaches_outer_frames"
   ],
   "note": "the operations exactly, and every evaluation of every program in which the name set occurs nowhere; the native add-hook assigns like set and is excluded by the hypothesis on natives"
  },
  {
   "property": "C38",
   "status": "partial",
   "theorems": [
    "C38_reading_ends",
    "C38_written_text_is_read",
    "C38_printed_value_is_read_partial",
    "C38_accented_name_refuted"
   ],
   "note": "proved for every integer of 64 bits, boolean, list and name whose last character is ASCII, and beyond that for every text that writes a value with any white space and comments; a name ending in a character beyond ASCII is read as the empty name (refuted for every such name)"
  },
  {
   "property": "C39",
   "status": "partial",
   "theorems": [
    "C39_tail_calls_do_not_change_results_partial",
    "C39_reflective_tail_call_refuted",
    "C39_inserted_call_refuted",
    "C39_macro_call_refuted"
   ],
   "note": "proved for programs with all special forms, closures and macros in which natives do not look at the frame of the call, only names are inserted into templates and macros end in a constant, name or template; each of the three exclusions is refuted"
  },
  {
   "property": "C40",
   "status": "partial",
   "theorems": [
    "C40_glob_exact",
    "C40_glob_ascii",
    "C40_captures_exact",
    "C40_pattern_meaning",
    "C40_replacement_partial",
    "C40_no_file_lost_partial",
    "C40_dry_run",
    "C40_conflict_refused",
    "C40_rename_middle",
    "C40_other_names_crash_refuted",
    "C40_tenth_group_refuted",
    "C40_dollar_in_name_refuted",
    "C40_star_kept_refuted",
    "C40_directories_below_refuted",
    "C40_character_set_refuted",
    "C40_help_example_refuted",
    "C40_dangling_link_refuted",
    "C40_force_exchange_refuted"
   ],
   "note": "new names inside the directory only; without force and without links to nothing under a new name no file is lost and all are renamed as asked; refuted: a link to nothing is overwritten, force loses a file when names are exchanged, names starting with a longer character crash the search, documented forms of patterns rename nothing"
  },
  {
   "property": "C41",
   "status": "partial",
   "theorems": [
    "C41_complete_iff",
    "C41_escaped_operator_refuted"
   ],
   "note": "exact for every text; but a line ending in an escaped operator is reported incomplete although it is complete (refuted for every such line)"
  },
  {
   "property": "C42",
   "status": "proved",
   "theorems": [
    "C42_cursor_within_rendered_lines"
   ],
   "note": ""
  },
  {
   "property": "C43",
   "status": "proved",
   "theorems": [
    "C43_click_selects_nearest_boundary"
   ],
   "note": ""
  },
  {
   "property": "C44",
   "status": "partial",
   "theorems": [
    "C44_recursive_rm_asked_partial",
    "C44_recursive_rm_asked_refuted"
   ],
   "note": "full statement is false of the code (rm -Rf / passes); proved for the listed spellings"
  },
  {
   "property": "C46",
   "status": "partial",
   "theorems": [
    "C46_mcp_dangerous_command_asked_partial",
    "C46_mcp_compound_command_refuted"
   ],
   "note": "full statement is false (true; rm -rf / passes); proved when the dangerous command comes first. For the names tools really have the command line is not looked at at all: C164_commands_refuted."
  },
  {
   "property": "C47",
   "status": "proved",
   "theorems": [
    "C47_dangerous_variables_guarded"
   ],
   "note": ""
  },
  {
   "property": "C48",
   "status": "partial",
   "theorems": [
    "C48_mcp_allowlist_entry_exact_partial",
    "C48_mcp_allowlist_entry_exact_refuted"
   ],
   "note": "false for tool names containing ':'; proved for the others"
  },
  {
   "property": "C49",
   "status": "partial",
   "theorems": [
    "C49_signals_have_a_reason_partial",
    "C49_failure_kill_at_most_once",
    "C49_foreign_failure_is_harmless_refuted",
    "C49_stage_failure_spares_others_refuted"
   ],
   "note": "the full statement is false: any reaped nonzero exit kills the foreground group"
  },
  {
   "property": "C50",
   "status": "partial",
   "theorems": [
    "C50_polled_state_is_kernel_state_partial",
    "C50_resumed_job_shown_running_refuted"
   ],
   "note": "proved for single external commands not yet resumed; false after a resume"
  },
  {
   "property": "C51",
   "status": "partial",
   "theorems": [
    "C51_exit_kills_every_stage",
    "C51_exit_spares_reaped_pids_refuted"
   ],
   "note": "exact set of signals proved; it includes pids already reaped"
  },
  {
   "property": "C52",
   "status": "partial",
   "theorems": [
    "C52_monitored_output_complete_refuted",
    "C52_monitored_output_complete_partial"
   ],
   "note": "complete when pauses fall between lines; a partial line before a 200 ms pause is lost (refuted)"
  },
  {
   "property": "C53",
   "status": "partial",
   "theorems": [
    "C53_up_searches_typed_text_partial",
    "C53_up_searches_typed_text_refuted",
    "C53_down_undoes_up"
   ],
   "note": "the search text is not refreshed after a walk was left with Down (refuted)"
  },
  {
   "property": "C54",
   "status": "proved",
   "theorems": [
    "C54_history_search_exact"
   ],
   "note": "to_lowercase is an arbitrary function"
  },
  {
   "property": "C55",
   "status": "partial",
   "theorems": [
    "whole_second_visits_survive_restart_partial",
    "reload_adds_missing_directories",
    "save_writes_every_directory",
    "fractional_visit_lost_at_start_refuted",
    "forgotten_directory_stays_forgotten_refuted",
    "restart_keeps_directories_unique_refuted"
   ],
   "note": "fractional last visits are dropped at start, removed directories come back and then break the order (refuted); reload and save are proved"
  },
  {
   "property": "C56",
   "status": "partial",
   "theorems": [
    "loaded_score_is_readable_refuted",
    "visited_loaded_directory_is_storable_refuted",
    "proposal_after_restart_ignores_visits_refuted"
   ],
   "note": "refuted for every stored score: loaded items count time from 1970, the growth factor overflows to infinity and all scores read as NaN"
  },
  {
   "property": "C57",
   "status": "partial",
   "theorems": [
    "entry_url_leads_to_entry",
    "listing_link_leads_to_entry_partial",
    "listing_link_leads_to_entry_refuted",
    "listing_link_with_space_refuted"
   ],
   "note": "absolute entry URLs proved; the relative links lead astray when the directory is requested without a final slash, and names with spaces are never decoded (refuted)"
  },
  {
   "property": "C58",
   "status": "partial",
   "theorems": [
    "confirmed_edit_changes_that_file_only",
    "declined_edit_keeps_everything_partial",
    "declined_edit_changes_nothing_refuted",
    "edit_tool_creates_files_refuted"
   ],
   "note": "existing entries are kept; directories are made before the question is asked, and no new file is ever created because the resolved path ends in a slash (refuted)"
  },
  {
   "property": "C59",
   "status": "partial",
   "theorems": [
    "C59_arguments_arrive_partial",
    "C59_adjacent_parts_join_refuted",
    "C59_escaped_quote_refuted"
   ],
   "note": "proved for arguments in any form, those in quotes with or without a blank before them; a part in quotes never joins what is before it, for every command and every two parts, and escapes inside double quotes are kept (refuted)"
  },
  {
   "property": "C60",
   "status": "partial",
   "theorems": [
    "C60_last_redirection_wins",
    "C60_every_redirection_applies_refuted"
   ],
   "note": "only the last redirection of a whole pipeline is kept (proved for all pipelines), and quotes stay in the file name"
  },
  {
   "property": "C61",
   "status": "partial",
   "theorems": [
    "C61_background_commands_partial",
    "C61_background_is_local_refuted"
   ],
   "note": "proved for single commands; a background pipeline also sends the next command to the background (refuted)"
  },
  {
   "property": "C62",
   "status": "proved",
   "theorems": [
    "C62_highlight_tokens_tile"
   ],
   "note": ""
  },
  {
   "property": "C63",
   "status": "partial",
   "theorems": [
    "C63_expansion_keeps_the_line_partial",
    "C63_expansion_keeps_the_line_refuted"
   ],
   "note": "proved for every well-formed line whose values are tame; background redirections, background pipelines and groups lose parts (refuted)"
  },
  {
   "property": "C64",
   "status": "partial",
   "theorems": [
    "C64_tame_values_are_data_partial",
    "C64_values_are_data_refuted"
   ],
   "note": "a value without blanks is inserted as source text, so that a separator in it starts a new command (refuted)"
  },
  {
   "property": "C65",
   "status": "partial",
   "theorems": [
    "C65_plain_words_kept_partial",
    "C65_plain_words_kept_refuted"
   ],
   "note": "once anything on the line is expanded every bare word is looked up as a variable name (refuted)"
  },
  {
   "property": "C66",
   "status": "partial",
   "theorems": [
    "C66_variable_in_word_refuted"
   ],
   "note": "refuted: only a word that is entirely one reference is replaced (that part is C63 and C64)"
  },
  {
   "property": "C67",
   "status": "partial",
   "theorems": [
    "C67_process_substitution_refuted"
   ],
   "note": "refuted: it is read as a redirection from a file"
  },
  {
   "property": "C68",
   "status": "partial",
   "theorems": [
    "C68_lines_are_joined",
    "C68_continued_commands_run_refuted"
   ],
   "note": "joining proved for every sequence of lines; the joined text is then cut at its first newline by the parser (refuted)"
  },
  {
   "property": "C69",
   "status": "partial",
   "theorems": [
    "C69_line_runs_as_typed_partial",
    "C69_ai_pipe_exact",
    "C69_ai_pipe_refuted",
    "C69_quoted_mark_refuted"
   ],
   "note": "proved for lines without the mark |! ; with it (also inside quotes) the part before goes to sh -c without the shell's parser and safety check (refuted, for every complete command)"
  },
  {
   "property": "C70",
   "status": "partial",
   "theorems": [
    "C70_accepting_at_end_partial",
    "C70_tab_inside_the_line_refuted",
    "C70_rotation",
    "C70_suggestion_is_a_candidate"
   ],
   "note": "proved with the cursor at the end; Tab with the cursor inside the line inserts the rest in the middle (refuted for every such line)"
  },
  {
   "property": "C71",
   "status": "partial",
   "theorems": [
    "C71_balanced_text_arrives_partial",
    "C71_lone_bracket_arrives",
    "C71_quoted_text_arrives_refuted",
    "C71_backspace_undoes_pair"
   ],
   "note": "proved for every text with balanced brackets and no quotes; typing a quoted text leaves two extra quotation marks (refuted for every such text)"
  },
  {
   "property": "C72",
   "status": "proved",
   "theorems": [
    "C72_no_key_crashes",
    "C72_typed_text_arrives",
    "C72_pasted_text_arrives",
    "C72_only_these_keys_run"
   ],
   "note": ""
  },
  {
   "property": "C75",
   "status": "partial",
   "theorems": [
    "C75_shown_text_is_accepted_partial",
    "C75_hidden_completion_refuted",
    "C75_second_command_refuted",
    "C75_stale_completion_refuted"
   ],
   "note": "proved when a completion is shown; an earlier completion that is no longer shown replaces the whole line (refuted)"
  },
  {
   "property": "C76",
   "status": "partial",
   "theorems": [
    "C76_interrupt_forgets_partial",
    "C76_pending_lines_refuted",
    "C76_clear_screen_erases_refuted"
   ],
   "note": "proved after Ctrl+c; after Alt+Enter the pending lines are glued to a later command (refuted for all lines), and Ctrl+l erases the typed line"
  },
  {
   "property": "C77",
   "status": "proved",
   "theorems": [
    "C77_toggle_adds",
    "C77_toggle_removes",
    "C77_esc_dismisses"
   ],
   "note": ""
  },
  {
   "property": "C78",
   "status": "partial",
   "theorems": [
    "C78_range_replaced",
    "C78_word_before_cursor_partial",
    "C78_cursor_inside_word_refuted",
    "C78_query_is_whole_word_refuted"
   ],
   "note": "proved for candidates with a replacement range; without one, text before the word is deleted when the cursor is inside the word (refuted for all lines)"
  },
  {
   "property": "C79",
   "status": "proved",
   "theorems": [
    "C79_editing_keys"
   ],
   "note": "with no completion pending (C75 says what Ctrl+e and Right do otherwise)"
  },
  {
   "property": "C73",
   "status": "partial",
   "theorems": [
    "C73_cut_exact",
    "C73_ascii_displays_partial",
    "C73_long_text_shown_refuted",
    "C73_long_output_shown_refuted",
    "C73_downloaded_script_shown_refuted",
    "C73_git_head_shown_refuted",
    "C73_tool_text_cut",
    "C73_character_cut",
    "C73_width_cut",
    "C73_token_to_cursor",
    "C73_longest_cached_prefix"
   ],
   "note": "half of the displays cut at a byte offset and crash on a character across it (exact condition proved, refuted for all such texts); the careful cuts are proved exact"
  },
  {
   "property": "C74",
   "status": "partial",
   "theorems": [
    "C74_form_completion_partial",
    "C74_form_completion_refuted",
    "C74_marked_candidate_refuted",
    "C74_plain_candidate_inserted"
   ],
   "note": "proved when the last blank or parenthesis is one byte; with a no-break or ideographic space before the last word it crashes (refuted for every such line)"
  },
  {
   "property": "C80",
   "status": "partial",
   "theorems": [
    "C80_string_is_read_partial",
    "C80_accented_string_refuted",
    "C80_empty_string_refuted"
   ],
   "note": "proved for every text that ends in an ASCII character; a text that ends in any other character is rejected as unclosed, and the empty text is read as a name (both refuted in general)"
  },
  {
   "property": "C81",
   "status": "partial",
   "theorems": [
    "C81_configuration_is_read",
    "C81_rest_of_configuration_refuted"
   ],
   "note": "proved for every well-formed file with any white space and comments; after one closing parenthesis too many the rest of the file is ignored without an error (refuted for every file and every rest)"
  },
  {
   "property": "C82",
   "status": "partial",
   "theorems": [
    "C82_apply_passes_arguments_partial",
    "C82_apply_passes_arguments_refuted"
   ],
   "note": "proved for lists of numbers, strings, booleans, functions and empty lists; names and lists are evaluated a second time (refuted)"
  },
  {
   "property": "C83",
   "status": "partial",
   "theorems": [
    "C83_quote_gives_its_data_partial",
    "C83_map_calls_each_element_partial",
    "C83_map_calls_each_element_refuted"
   ],
   "note": "proved for data in which no list starts with the name comma; quote inserts there by design, but map re-quotes its elements and so evaluates parts of them (refuted)"
  },
  {
   "property": "C84",
   "status": "partial",
   "theorems": [
    "C84_parameters_are_bound_partial",
    "C84_functions_keep_their_frame",
    "C84_wrong_count_is_reported_refuted"
   ],
   "note": "exact content of the new frame proved; a wrong number of arguments is not reported: a missing one lets the body see an outer variable of the same name, a surplus one is dropped (refuted)"
  },
  {
   "property": "C85",
   "status": "proved",
   "theorems": [
    "C85_and_stops_at_first_false",
    "C85_and_of_true_is_last",
    "C85_or_stops_at_first_true",
    "C85_or_of_false_is_last",
    "C85_if_evaluates_one_branch",
    "C85_cond_takes_first_true_clause",
    "C85_begin_evaluates_all_in_order",
    "C85_when_evaluates_body_if_true",
    "C85_call_evaluates_arguments_in_order"
   ],
   "note": ""
  },
  {
   "property": "C86",
   "status": "partial",
   "theorems": [
    "C86_output_redirect_partial",
    "C86_pipeline_redirect_refuted",
    "C86_input_redirect_refuted",
    "C86_append_creates_refuted"
   ],
   "note": "proved for a single foreground command with an output redirect; refuted for every pipeline: the output of inner stages is copied to the file by a task that competes with the next stage, with an input redirect every stage reads the file, and appending does not create the file"
  },
  {
   "property": "C87",
   "status": "partial",
   "theorems": [
    "C87_next_command_starts_partial",
    "C87_next_command_starts_refuted"
   ],
   "note": "proved after a single command without redirect and pseudo-terminal; after every pipeline the next command is handed the closed number of the last pipe and gives up before running its program (refuted for every pipeline of two or more commands)"
  },
  {
   "property": "C88",
   "status": "partial",
   "theorems": [
    "C88_captured_command_partial",
    "C88_captured_pipeline_refuted"
   ],
   "note": "proved for a single command; in a captured pipeline of two commands the second is handed the closed write end for errors and gives up before running its program (refuted for every table of descriptors)"
  },
  {
   "property": "C89",
   "status": "partial",
   "theorems": [
    "C89_directory_environment_partial",
    "C89_value_is_restored_refuted",
    "C89_nested_value_refuted",
    "C89_path_add_refuted",
    "C89_path_is_restored_refuted",
    "C89_path_assignment_refuted",
    "C89_small_letters_refuted",
    "C89_blank_line_refuted",
    "C89_blank_line_envrc_refuted",
    "C89_unreadable_refuted"
   ],
   "note": "proved for every session and any number of directories whose names are in capitals, unset before and used by one directory each; refuted in general: a value set before is lost on leaving, nested directories lose the outer value, PATH_ADD glues without a colon, PATH is reset to that of the time of allow-direnv, PATH= is ignored and then removed, small letters are capitalised, a blank line or comment crashes the shell, an unreadable file makes the root forgotten"
  },
  {
   "property": "C90",
   "status": "partial",
   "theorems": [
    "C90_added_directory_stays_partial",
    "C90_added_directory_stays_refuted"
   ],
   "note": "proved for every sequence without a change of PATH or directory; every successful cd rebuilds the list from PATH and drops what was added (refuted for every state)"
  },
  {
   "property": "C91",
   "status": "partial",
   "theorems": [
    "C91_back_partial",
    "C91_back_and_forth",
    "C91_back_after_failure_refuted"
   ],
   "note": "proved after every change that took place; a change that is tried and fails (an absolute or ~ path that does not exist, a file) overwrites the remembered directory with the current one (refuted for every state)"
  },
  {
   "property": "C92",
   "status": "partial",
   "theorems": [
    "C92_hooks_receive_plain_text_partial",
    "C92_text_with_quote_refuted",
    "C92_text_is_not_run_refuted",
    "C92_accented_text_refuted",
    "C92_empty_text_refuted",
    "C92_session_refuted"
   ],
   "note": "proved for every line without double quotes that is not empty and ends in an ASCII character; refuted: a line with a double quote never arrives, what follows the quote is evaluated as a Lisp program before the hook is called (on completion without any check), a line that ends in another character or is empty calls no hook. Hooks on project switches and unknown commands (another form around the same call) are not modelled"
  },
  {
   "property": "C93",
   "status": "partial",
   "theorems": [
    "C93_coloured_commands_are_not_run_partial",
    "C93_quoted_name_refuted"
   ],
   "note": "proved for colouring: for every line the texts looked up hold no unescaped bracket, quote or blank, are read as atoms and their evaluation changes nothing; refuted for parsing: a command name in single quotes that writes any Lisp expression is evaluated when it is looked up"
  },
  {
   "property": "C94",
   "status": "partial",
   "theorems": [
    "C94_failed_configuration_is_undone_partial",
    "C94_startup_mode_is_kept",
    "C94_frames_are_kept_partial",
    "C94_completions_refuted",
    "C94_functions_variables_refuted"
   ],
   "note": "proved for the settings in the snapshot, the palette, the process environment and the outermost Lisp frame, and for all Lisp frames when set is not used; refuted: completion entries stay, and a variable kept by an earlier function stays changed"
  },
  {
   "property": "C95",
   "status": "partial",
   "theorems": [
    "C95_words_reach_bash",
    "C95_environment_is_imported_partial",
    "C95_failure_changes_nothing",
    "C95_printing_scripts_refuted",
    "C95_later_environments_refuted",
    "C95_other_bytes_refuted",
    "C95_exported_variables_refuted"
   ],
   "note": "quoting proved for all names; importing proved for quiet scripts with text values in a session that has not changed its environment; refuted: whatever the script prints becomes part of the first variable (which is then removed), later environments are compared with the one at startup so changing a value back is not imported, values that are not UTF-8 are removed, exported shell variables hide what was imported (and, by an example, new variables set to nothing are not imported)"
  },
  {
   "property": "C96",
   "status": "partial",
   "theorems": [
    "C96_stored_command_runs_refuted",
    "C96_one_program_partial"
   ],
   "note": "refuted for every stored command: the shell is started with its own name as first argument, so it looks for a script file named sh and the stored text never runs; what holds is that one program is started and its success reported"
  },
  {
   "property": "C97",
   "status": "partial",
   "theorems": [
    "C97_nothing_without_a_yes",
    "C97_output_is_released_after_a_yes",
    "C97_confirmed_words_partial",
    "C97_inspection_runs_the_command_refuted",
    "C97_long_output_refuted",
    "C97_own_commands_refuted"
   ],
   "note": "no action without some yes is proved; a confirmed external command with two or more words runs with its words; refuted: saying yes to an inspection runs the command itself, with its words joined and split again; output of more than 8000 bytes whose cut falls inside a character crashes; the shell's own commands get one word less and crash when they need it"
  },
  {
   "property": "C98",
   "status": "partial",
   "theorems": [
    "C98_file_is_played_refuted",
    "C98_blocks_run_unless_refused",
    "C98_end_of_input_refuted"
   ],
   "note": "each block runs only when the latest answer let it; refuted: the name of the builtin itself is taken for the file, so the argument makes no difference; the end of input counts as a yes"
  },
  {
   "property": "C99",
   "status": "partial",
   "theorems": [
    "C99_runs_follow_changes",
    "C99_last_change_refuted"
   ],
   "note": "every run follows a matching change and runs are at least half a second apart; a change within half a second of a run is forgotten, so the last change may never be acted on (refuted for every history)"
  },
  {
   "property": "C100",
   "status": "partial",
   "theorems": [
    "C100_chosen_is_the_only_match",
    "C100_qualified_names_partial",
    "C100_plain_names_partial",
    "C100_colon_names_refuted",
    "C100_words_refuted"
   ],
   "note": "the chosen task is always the only one the word means; every task can be reached by source and name, or by a name of its own; refuted: a name that starts with a source and a colon selects another task, and the names list, help and those with a dash first cannot be used alone"
  },
  {
   "property": "C101",
   "status": "partial",
   "theorems": [
    "C101_tasks_listed_partial",
    "C101_other_keys_refuted",
    "C101_named_like_keys_refuted"
   ],
   "note": "proved for files that use only the keys desc, cmd, cmds, deps, vars and env; refuted: any other key of a task (such as silent) is listed as a task itself, as is a list item with a colon (by an example), and a task named like one of those keys is missing"
  },
  {
   "property": "C102",
   "status": "partial",
   "theorems": [
    "C102_statistics_are_exact_partial",
    "C102_killed_shell_loses_few",
    "C102_two_shells_refuted",
    "C102_interrupted_write_refuted",
    "C102_unnoticed_write_refuted"
   ],
   "note": "proved for sessions one after the other; a killed shell loses fewer than ten executions; refuted: of two shells open together only the last to quit is remembered, a write cut short loses everything, and it can go unnoticed"
  },
  {
   "property": "C103",
   "status": "partial",
   "theorems": [
    "C103_top_is_the_top",
    "C103_counted_by_file_name",
    "C103_clear_partial",
    "C103_recent_failures_partial",
    "C103_clear_refuted",
    "C103_recent_failures_refuted"
   ],
   "note": "top lists and names proved; every recent failure is shown; refuted: clearing is undone by the shell it is run in, which writes its own copy back, and a command that failed at any time is shown as recently failed when it was run recently"
  },
  {
   "property": "C104",
   "status": "partial",
   "theorems": [
    "C104_commands_are_imported_partial",
    "C104_escapes_refuted",
    "C104_paths_refuted"
   ],
   "note": "proved for one-line commands without backslashes; refuted: a command with a backslash or a line break arrives in fish's escaped form, and a path that reads cmd: x is imported as the command x"
  },
  {
   "property": "C105",
   "status": "partial",
   "theorems": [
    "C105_loading_and_saving",
    "C105_recorded_commands_partial",
    "C105_text_of_a_block",
    "C105_fences_refuted"
   ],
   "note": "round trip proved for every file and every event list that describes it; recorded commands proved when none of their lines is a fence; refuted: a line of three backticks in what is entered ends its block"
  },
  {
   "property": "C106",
   "status": "partial",
   "theorems": [
    "C106_word_in_bytes",
    "C106_word_at_cursor_partial",
    "C106_word_at_cursor_refuted",
    "C106_command_refuted"
   ],
   "note": "with the cursor given in bytes the current word is right for every line; the shell gives it in characters, so it is proved for lines that are ASCII before the cursor and refuted for every word without ASCII; refuted also: behind a pipe or a semicolon the word is completed as an argument of the first command of the line"
  },
  {
   "property": "C107",
   "status": "partial",
   "theorems": [
    "C107_subcommands_offered_partial",
    "C107_after_option_refuted",
    "C107_complete_name_refuted",
    "C107_alias_refuted"
   ],
   "note": "proved when no options come first and what was typed is not itself a subcommand; refuted: behind an option the subcommands of the command itself are offered, a subcommand that is the start of another hides it, and an alias with arguments has no subcommands"
  },
  {
   "property": "C108",
   "status": "partial",
   "theorems": [
    "C108_options_offered_partial",
    "C108_single_dash_refuted"
   ],
   "note": "proved as an equivalence for a single dash and for long options, for commands that run no other command; refuted: when a dash and one character are typed, names such as -race are not offered"
  },
  {
   "property": "C109",
   "status": "partial",
   "theorems": [
    "C109_only_definitions_run",
    "C109_nothing_typed_runs_partial",
    "C109_nothing_typed_runs_refuted"
   ],
   "note": "every text given to sh is a template of a definition with texts in the place of its placeholders, so nothing typed runs when templates have none; refuted: where a template has $ARG_0 (as in the shipped git and kubectl definitions) the word typed is put into the command unquoted, so $(reboot) runs on Tab"
  },
  {
   "property": "C112",
   "status": "proved",
   "theorems": [
    "C112_completion_ends"
   ],
   "note": "a bound on the depth of calls exists for every line and more depth changes nothing; the commands that run others must have a name that is not only quotes, backslashes and blanks"
  },
  {
   "property": "C113",
   "status": "partial",
   "theorems": [
    "C113_argument_position_partial",
    "C113_argument_position_refuted"
   ],
   "note": "proved for commands without subcommands when the earlier words look like subcommands; refuted: behind any other word (a path, a name with a dot) the second argument is completed as if it were the first"
  },
  {
   "property": "C110",
   "status": "proved",
   "theorems": [
    "C110_menu"
   ],
   "note": "Scores are u32 values. The history is any list of lines, or absent (also when it is locked)."
  },
  {
   "property": "C111",
   "status": "partial",
   "theorems": [
    "C111_answers_partial",
    "C111_after_a_pause",
    "C111_changing_commands",
    "C111_stale_refuted",
    "C111_other_word_refuted"
   ],
   "note": "False in general: results are kept under the text of the line alone and each use renews them, so presses less than three seconds apart show the first answer for ever (C111_stale_refuted), and the answer for a shorter line is searched for the last word of a longer one, also when that is another position (C111_other_word_refuted). Proved: every answer is the right one or comes from an answer renewed less than three seconds ago; after a pause of three seconds, and for the commands with changing candidates, it is the right one."
  },
  {
   "property": "C114",
   "status": "partial",
   "theorems": [
    "C114_used_first_partial",
    "C114_used_first_refuted"
   ],
   "note": "False once the points reach the limit: adding stops above 5000, so a less used candidate can overtake (C114_used_first_refuted, a history of 52 lines). Proved while the points of the first stay within 5000."
  },
  {
   "property": "C115",
   "status": "partial",
   "theorems": [
    "C115_names_partial",
    "C115_old_listing_refuted",
    "C115_subdirectory_refuted",
    "C115_parent_refuted",
    "C115_dots_refuted",
    "C115_many_entries_refuted"
   ],
   "note": "False in general: a listing is used for two seconds whatever changes, also for another current directory; within two seconds of listing a directory its subdirectory is not read and is offered as an entry of itself (src/mod/mod); nothing is offered in ../ after completing in the current directory; .. offers the current directory; only the first 500 entries count; names ending in a backslash are offered without it. Proved: with no listing kept, exactly the fitting entries among the first 500."
  },
  {
   "property": "C116",
   "status": "partial",
   "theorems": [
    "C116_dangerous_command_asked_partial",
    "C116_later_stage_refuted",
    "C116_after_background_refuted",
    "C116_spelling_refuted",
    "C116_substitution_refuted"
   ],
   "note": "proved for every well-formed line and every dangerous command typed without quotes, backslashes or redirections which is the first of a pipeline not preceded by a background command, or itself a background command, with a blank behind it. Refuted for every command behind a bar, for every command behind a background command of the same segment, for quoted names and options, for redirections before a subcommand, without a blank before the bar or ampersand, behind nopty, and in substitutions."
  },
  {
   "property": "C117",
   "status": "partial",
   "theorems": [
    "C117_substitution_runs_partial",
    "C117_short_circuit_refuted"
   ],
   "note": "every command of a substitution runs, once and in order, whatever operators stand between them: right for semicolons, refuted for && (echo $(false && touch x) runs touch whatever false returns)"
  },
  {
   "property": "C118",
   "status": "partial",
   "theorems": [
    "C118_substitution_words_partial",
    "C118_large_output_refuted",
    "C118_line_refuted"
   ],
   "note": "proved for outputs that fit into a pipe; refuted for all others: the shell waits for the command before it reads the pipe, so the line never returns"
  },
  {
   "property": "C119",
   "status": "partial",
   "theorems": [
    "C119_silent_list_partial",
    "C119_parenthesised_list_refuted",
    "C119_status_refuted"
   ],
   "note": "proved for lists that print nothing but newlines; refuted: the lines a list prints are run as a command, unasked, and its status is lost, so (false) && touch x runs touch"
  },
  {
   "property": "C120",
   "status": "partial",
   "theorems": [
    "C120_suggestion_continues_the_line",
    "C120_history_is_current",
    "C120_history_comes_first",
    "C120_history_hidden_refuted"
   ],
   "note": "the first two parts are proved in full. The third is false: when the last command that begins with the line is the line itself, longer ones before it are not looked at; proved when the last one that matches is longer."
  },
  {
   "property": "C121",
   "status": "proved",
   "theorems": [
    "C121_waiting_request_is_sent",
    "C121_last_request_waits",
    "C121_worker_comes_to_rest",
    "C121_rest_is_not_pending"
   ],
   "note": "lock sections are atomic steps; tokio's Notify keeps one wake-up"
  },
  {
   "property": "C122",
   "status": "partial",
   "theorems": [
    "C122_sent_was_typed",
    "C122_not_asked_not_sent_partial",
    "C122_blocklist_refuted",
    "C122_suggestions_off_refuted"
   ],
   "note": "proved: everything sent was typed or entered, with the last eight commands at most; with the preference off nothing is sent. Refuted: with suggestions off, and for the commands on the list of those not to ask about, the second path of the prompt asks all the same."
  },
  {
   "property": "C123",
   "status": "partial",
   "theorems": [
    "C123_suggestion_was_answered_partial",
    "C123_answer_is_shown",
    "C123_other_directory_refuted",
    "C123_empty_line_refuted"
   ],
   "note": "proved: it is an answer to a request that was sent, at most ten seconds old (eight for the commands listed for a directory, and then of this directory), and is shown. Refuted: the answer for a line in one directory is shown in another, and on an emptied line."
  },
  {
   "property": "C124",
   "status": "partial",
   "theorems": [
    "C124_plain_answer_kept_partial",
    "C124_fenced_answer_kept_partial",
    "C124_offer_is_one_trimmed_line",
    "C124_blank_at_the_start_refuted",
    "C124_closing_quote_refuted",
    "C124_first_of_fence_refuted"
   ],
   "note": "proved for first lines without a quote at either end, whatever lines follow; what is offered is always one line without blanks around. Refuted: a closing quote is dropped (git commit -m \"fix\" loses its last character), a line that begins with a blank gets no answer whatever it is, and of several commands in a fence without a language the first is thrown away."
  },
  {
   "property": "C125",
   "status": "partial",
   "theorems": [
    "C125_line_does_what_it_says_partial"
   ],
   "note": "from the text of the line to the world after it, for the well-formed lines of C11 without parentheses, when the guard lets them pass and expansion leaves them as they are. Missing: the lines on which reading goes wrong (C11, C59, C60, C61, C116-C119 refute those)."
  },
  {
   "property": "C126",
   "status": "proved",
   "theorems": [
    "C126_which_lines",
    "C126_bar_pipes_the_last_output"
   ],
   "note": "for pipelines of well-formed commands with a blank behind each bar; the builtin's own output is not modelled"
  },
  {
   "property": "C45",
   "status": "partial",
   "theorems": [
    "C45_offered_command_partial",
    "C45_fenced_answer",
    "C45_argument_with_bar_refuted",
    "C45_argument_with_blank_refuted"
   ],
   "note": "proved for ordinary words: the line reads back as exactly the checked command and is not asked about again; in Strict only allowlisted commands are offered. Refuted: arguments are joined without quoting, so for every command line c the argument '| c' passes the guard and runs c unasked, and an argument with a blank becomes two."
  },
  {
   "property": "C127",
   "status": "partial",
   "theorems": [
    "C127_enter_runs_the_text_partial",
    "C127_empty_line",
    "C127_abbreviation_anywhere_refuted"
   ],
   "note": "a complete description of what Enter does, for every editing history: it waits, hands the command to sh, expands the abbreviation in front of the cursor, or runs the text as it is; nothing runs for an empty line. The full statement is false: an abbreviation is expanded wherever its name stands in front of the cursor, also as an argument."
  },
  {
   "property": "C128",
   "status": "partial",
   "theorems": [
    "C128_only_marked_lines_partial",
    "C128_model_pipe_refuted",
    "C128_quoted_mark_refuted"
   ],
   "note": "false: every command with a query after |! is run by sh -c, past the guard at every level, and the mark is seen inside quotes as well. Proved: no other text is."
  },
  {
   "property": "C129",
   "status": "partial",
   "theorems": [
    "C129_only_the_query_is_replaced_partial",
    "C129_no_query",
    "C129_offer_extends_the_pipeline",
    "C129_quoted_mark_refuted"
   ],
   "note": "proved for the last mark on the line, that a mark with nothing after it changes nothing, and that a pipeline with a query becomes the same pipeline with the offered command behind it; refuted: a mark inside quotes is taken as one, and the rest of the quoted text is lost"
  },
  {
   "property": "C130",
   "status": "partial",
   "theorems": [
    "C130_json_round_trip_partial",
    "C130_empty_array_becomes_null_refuted",
    "C130_large_number_becomes_float_refuted",
    "C130_single_object_becomes_array_refuted",
    "C130_other_arrays_become_objects_refuted"
   ],
   "note": "proved for arrays of objects of any depth in which no inner array is empty and whole numbers fit 64 bits with sign; the other documents change, as described by the refutations. serde_json's own reading and writing are not modelled."
  },
  {
   "property": "C131",
   "status": "partial",
   "theorems": [
    "C131_order_by_partial",
    "C131_mixed_column_refuted"
   ],
   "note": "proved for columns of whole numbers, of texts, or of comparable floats, in both directions. Refuted for columns with cells of several kinds: the comparison is not an order, and a larger number stays in front of a smaller one."
  },
  {
   "property": "C132",
   "status": "partial",
   "theorems": [
    "C132_csv_round_trip_partial",
    "C132_leading_zero_refuted",
    "C132_plus_sign_refuted",
    "C132_same_name_twice_refuted"
   ],
   "note": "proved when the columns have different names and each field is no number or a number written as it is shown; refuted: 007 becomes 7, +7 becomes 7, of two columns with one name the first is lost. The csv crate's reading and quoting are not modelled."
  },
  {
   "property": "C133",
   "status": "partial",
   "theorems": [
    "C133_where_eq_partial",
    "C133_where_contains",
    "C133_where_cmp_partial",
    "C133_head_tail",
    "C133_select",
    "C133_where_eq_map_refuted",
    "C133_floats_are_dropped_refuted"
   ],
   "note": "proved; the comparisons look at whole numbers only, so that rows with a float are dropped by each of them, also by !=, and a map equals no map written the same (both refuted)"
  },
  {
   "property": "C134",
   "status": "proved",
   "theorems": [
    "C134_everything_is_shown"
   ],
   "note": "the drawing of the frame by the tabled crate is not modelled; an empty table shows a fixed text"
  },
  {
   "property": "C135",
   "status": "partial",
   "theorems": [
    "C135_stages_in_order",
    "C135_failed_command",
    "C135_error_prints_previous_refuted",
    "C135_reading_refuted"
   ],
   "note": "proved: order, values and status. Refuted: after an error the value before it is printed as the result; a pipe after an expression is put before it, a parenthesis inside a text ends the expression, and with |> the expressions are not evaluated."
  },
  {
   "property": "C136",
   "status": "proved",
   "theorems": [
    "C136_distance_is_least"
   ],
   "note": "the two-row computation against sequences of single edits"
  },
  {
   "property": "C137",
   "status": "partial",
   "theorems": [
    "C137_three_nearest_partial",
    "C137_three_nearest_tasks",
    "C137_message",
    "C137_not_executable_refuted"
   ],
   "note": "proved: exactly the three nearest of the builtins and of the visible files and links in PATH; the full statement is false, for a file that cannot be executed is suggested as well. The names of Lisp functions and aliases are never suggested."
  },
  {
   "property": "C138",
   "status": "partial",
   "theorems": [
    "C138_alias_sets",
    "C138_alias_shows",
    "C138_alias_lists",
    "C138_alias_history",
    "C138_printed_form_reads_back",
    "C138_typed_alias_runs_partial",
    "C138_printed_form_typed_refuted",
    "C138_alias_removable_refuted"
   ],
   "note": "all of it holds at the level of the builtin's arguments, and end to end for a line whose whole argument is in quotes. Refuted, for every name and command: the form that alias prints, typed as a line, is read as three arguments and refused; and no sequence of commands removes an alias, although the error text names unalias."
  },
  {
   "property": "C139",
   "status": "partial",
   "theorems": [
    "C139_abbr_changes",
    "C139_abbr_history",
    "C139_space_expands",
    "C139_every_name_expands_refuted",
    "C139_typed_erase_refuted",
    "C139_printed_form_refuted"
   ],
   "note": "proved for the builtin and for the space bar. Refuted: names with a bar, ampersand, semicolon, parenthesis or other white space are accepted and expand on no line; the line abbr -e name cannot be typed, because Enter expands the name first, so that the abbreviation stays; the printed form is refused."
  },
  {
   "property": "C140",
   "status": "partial",
   "theorems": [
    "C140_add_hook_registers",
    "C140_expression_is_read_partial",
    "C140_registered_hooks_are_called_partial",
    "C140_failing_hook_refuted",
    "C140_function_by_name_refuted",
    "C140_project_hooks_refuted"
   ],
   "note": "proved: add-hook puts the function in front of its list and changes nothing else, and at each event but a command that is not found the functions of the list are called in order with the event's text (not empty, no double quote, last character ASCII) and number, up to the first failure; the expression for a command that is not found is read as meant, its evaluation is not followed. Refuted in general: a function registered by name, as the manual shows, is never called and keeps all those registered before it from being called; a failing function does the same; add-hook cannot register anything for project switches."
  },
  {
   "property": "C141",
   "status": "partial",
   "theorems": [
    "C141_add",
    "C141_remove",
    "C141_registered",
    "C141_unique",
    "C141_list",
    "C141_work",
    "C141_failed_work_refuted"
   ],
   "note": "all of it is proved; refuted is only that a project is marked as used when it was: pm work with a directory that is gone fails and still moves the project to the front."
  },
  {
   "property": "C142",
   "status": "partial",
   "theorems": [
    "C142_nearest",
    "C142_entering",
    "C142_leaving_partial",
    "C142_leaving_refuted",
    "C142_add_here_refuted",
    "C142_environment_refuted"
   ],
   "note": "proved: after each successful change of directory the variable is the name of the nearest project. Refuted in general: programs never see it (it is a shell variable that is not exported, the manual says environment variable); registering the current directory does not set it; an inherited value shows outside of projects."
  },
  {
   "property": "C143",
   "status": "partial",
   "theorems": [
    "C143_dotenv_line",
    "C143_envrc_line",
    "C143_sets",
    "C143_seen_partial",
    "C143_shadowed_refuted",
    "C143_not_allowed",
    "C143_directory",
    "C143_path_partial",
    "C143_venv_first_partial",
    "C143_venv_first_refuted",
    "C143_idempotent_partial",
    "C143_grows_refuted",
    "C143_loader_refuted",
    "C143_values_expand_refuted",
    "C143_root"
   ],
   "note": "proved: reading of the lines, exact effect on the environment, no effect of an .envrc that was not allowed, nearest root. Refuted in general: LD_PRELOAD in any .env is set without a question; a shell variable of the same name hides the value; $PATH in a value is not expanded, so that the usual line destroys the search path; a virtual environment that is already on the search path stays behind; with a colon in the directory's name the search path grows each time."
  },
  {
   "property": "C144",
   "status": "partial",
   "theorems": [
    "C144_adds_partial",
    "C144_no_panic",
    "C144_only_when_selected",
    "C144_quoted_refuted",
    "C144_renamed_refuted",
    "C144_option_refuted",
    "C144_abort_refuted"
   ],
   "note": "proved for names of visible ASCII characters without quotes that are not renamed. Refuted, for every such name: a name with a blank is passed with git's quotes; a renamed file is passed as old -> new; a file named like an option is taken for it; Esc makes no difference."
  },
  {
   "property": "C145",
   "status": "partial",
   "theorems": [
    "C145_checkout_partial",
    "C145_single",
    "C145_abort",
    "C145_plus_refuted",
    "C145_same_refuted",
    "C145_slash_refuted",
    "C145_local_refuted",
    "C145_detached_refuted"
   ],
   "note": "proved for local branches not named remotes/..., and for branches of remotes without a slash in their name. Refuted: branches checked out in another worktree keep git's plus sign; branches of one name in two remotes give one command; remotes with a slash, local branches named remotes/r/b, a detached HEAD."
  },
  {
   "property": "C146",
   "status": "partial",
   "theorems": [
    "C146_remove",
    "C146_add_options",
    "C146_linked_partial",
    "C146_bare_refuted",
    "C146_selected",
    "C146_only_linked",
    "C146_unasked_refuted",
    "C146_add",
    "C146_directory",
    "C146_collide_refuted"
   ],
   "note": "proved: the meaning of every argument list that removes or adds; the list of worktrees of a repository that is not bare; the one selected and no other is removed, with --force exactly when asked. Refuted: a sole worktree is removed without a question, even if another name was given; in a bare repository the first worktree is never offered; two branches can want one directory."
  },
  {
   "property": "C147",
   "status": "partial",
   "theorems": [
    "C147_colour",
    "C147_checkout_partial",
    "C147_drawing",
    "C147_only",
    "C147_short_refuted",
    "C147_number",
    "C147_arguments"
   ],
   "note": "proved for hashes of seven digits or more, which is git's default. Refuted: a shorter hash (core.abbrev) is passed over and a word of the message that looks like one is checked out."
  },
  {
   "property": "C148",
   "status": "partial",
   "theorems": [
    "C148_add_partial",
    "C148_multiply_partial",
    "C148_subtract_partial",
    "C148_divide_partial",
    "C148_join_partial",
    "C148_text_number_refuted",
    "C148_one_refuted",
    "C148_dropped_refuted",
    "C148_zero_refuted",
    "C148_overflow_refuted"
   ],
   "note": "proved while each partial result is an i64: sums of two or more, products, difference and quotient of two, joined texts. Refuted in general: division by zero ends the shell; so does an overflow, or it gives another number in a release build; - and / drop every argument after the second; (+ x) is an error; a text followed by a number has a 0 put before it."
  },
  {
   "property": "C149",
   "status": "partial",
   "theorems": [
    "C149_compare_refuted",
    "C149_evaluated_refuted",
    "C149_sort_refuted",
    "C149_sort_partial",
    "C149_equal_partial",
    "C149_native_refuted"
   ],
   "note": "proved: == and != on data of numbers, texts, symbols and lists. Refuted for every pair of values: no comparison ever returns, since partial_cmp and cmp call each other (the stack overflows); sort does not return for any list of two or more elements. A native function is not equal to itself."
  },
  {
   "property": "C150",
   "status": "partial",
   "theorems": [
    "C150_lists",
    "C150_nth",
    "C150_range_partial",
    "C150_range_refuted",
    "C150_pair_refuted"
   ],
   "note": "proved; refuted is range with the end below the start: it collects all integers up to the greatest, then panics or goes on from the least, for every such pair. nil counts as a pair."
  },
  {
   "property": "C151",
   "status": "partial",
   "theorems": [
    "C151_ascii_partial",
    "C151_data_partial",
    "C151_list",
    "C151_function_partial",
    "C151_function_refuted",
    "C151_panic_refuted",
    "C151_empty_refuted"
   ],
   "note": "proved for every value whose texts are ASCII and for every value without functions. Refuted for every function whose printed body has a character outside of ASCII: the body is cut short, or the shell panics (always for a function that returns one such character), since the end of a byte slice is counted in characters."
  },
  {
   "property": "C152",
   "status": "partial",
   "theorems": [
    "C152_set_get_partial",
    "C152_new_partial",
    "C152_odd",
    "C152_native_refuted"
   ],
   "note": "proved for keys that are numbers, texts, symbols and lists of them. Refuted: what is put under a native function is never found."
  },
  {
   "property": "C153",
   "status": "partial",
   "theorems": [
    "C153_best_partial",
    "C153_gone_refuted",
    "C153_back",
    "C153_list_partial",
    "C153_option_alias_refuted",
    "C153_clean",
    "C153_visited"
   ],
   "note": "proved when the best one still exists and the words are no alias. Refuted: if the best match is gone, z fails whatever else matches, and sets OLDPWD to the current directory so that the way back is lost; z -l and z -i go to an alias of that name instead of listing or asking."
  },
  {
   "property": "C154",
   "status": "partial",
   "theorems": [
    "C154_names",
    "C154_others",
    "C154_jump_partial",
    "C154_subcommand_refuted",
    "C154_relative_refuted",
    "C154_listed",
    "C154_once"
   ],
   "note": "proved for names that are neither options nor subcommands. Refuted: a relative path is stored as given, so that the alias leads elsewhere from elsewhere; a name such as add or rm can be given but never used."
  },
  {
   "property": "C155",
   "status": "proved",
   "theorems": [
    "C155_safe",
    "C155_contained",
    "C155_program",
    "C155_builtin",
    "C155_restored"
   ],
   "note": "all of it."
  },
  {
   "property": "C156",
   "status": "partial",
   "theorems": [
    "C156_exact",
    "C156_in_order",
    "C156_answer_partial"
   ],
   "note": "of the events, in any order, balanced or not. The parser itself is an oracle, which is what is missing: that the events carry the answer's text. Newlines are drawn too but not counted. An image's address is in no event of text and is not drawn."
  },
  {
   "property": "C157",
   "status": "partial",
   "theorems": [
    "C157_neutral_partial",
    "C157_control_refuted",
    "C157_link_refuted",
    "C157_null_refuted"
   ],
   "note": "the first half is proved for every answer without escape characters whose inline code is on one line (as the parser gives it). The second half is refuted: every text and link destination is written as it came, control sequences and all; an answer with a null byte is not drawn at all but printed raw."
  },
  {
   "property": "C158",
   "status": "partial",
   "theorems": [
    "C158_numbered",
    "C158_bullets",
    "C158_nested",
    "C158_quoted_partial",
    "C158_quote_first_refuted",
    "C158_list_first_refuted",
    "C158_code_refuted"
   ],
   "note": "numbering, bullets and nesting are proved in full; the bars for a paragraph of one line quoted after other text. Refuted for every text: a quotation at the beginning of an answer has no bar on its first line; an answer that begins with a list begins with an empty line; a block of code that ends with a newline is drawn with one more, empty line."
  },
  {
   "property": "C159",
   "status": "partial",
   "theorems": [
    "C159_directories_partial",
    "C159_first_use",
    "C159_kept_partial",
    "C159_override_refuted",
    "C159_beside_refuted",
    "C159_other_refuted",
    "C159_current_directory_refuted",
    "C159_beside_runs_refuted"
   ],
   "note": "proved: for a command without built-in definition, the first valid file of the completion directories is used, and kept for the session if files are named after what they define. Refuted: the built-in definition always wins over the user's; ./completions of the current directory is searched and the script in such a file is run by Tab; so is one beside a program called by its absolute path; a file named after one command that holds another's definition replaces the other's."
  },
  {
   "property": "C160",
   "status": "partial",
   "theorems": [
    "C160_checked_iff",
    "C160_session",
    "C160_lone_dash_refuted",
    "C160_aliases_refuted"
   ],
   "note": "proved as an equivalence with the listed conditions. Refuted: a lone dash counts as a short option, and nothing is asked of aliases or the arguments of subcommands."
  },
  {
   "property": "C161",
   "status": "partial",
   "theorems": [
    "C161_long_partial",
    "C161_short_partial",
    "C161_typed_short_refuted",
    "C161_value_refuted",
    "C161_alias_refuted",
    "C161_alias_line_refuted",
    "C161_cursor_refuted",
    "C161_assistant"
   ],
   "note": "proved for lines of plain ASCII words in which the subcommands are given by their names and recognised as such: the cursor anywhere in the name of a long option, or on a letter of a word of short ones. Refuted: with the cursor behind a short option, where it is while one types, nothing is ever shown; letters of a short option's value are taken for options; a subcommand given by its alias is passed over; the cursor is counted in characters and used as bytes."
  },
  {
   "property": "C162",
   "status": "partial",
   "theorems": [
    "C162_one_name_per_tool",
    "C162_call",
    "C162_only_tools",
    "C162_shape",
    "C162_parts_are_names",
    "C162_parts_apart",
    "C162_fit_kept",
    "C162_long_refuted"
   ],
   "note": "all is proved but the last sentence, which is refuted: a name has no greatest length, although the interface takes 64 characters. What servers answer is an oracle."
  },
  {
   "property": "C163",
   "status": "partial",
   "theorems": [
    "C163_reloaded",
    "C163_names_kept",
    "C163_added_keeps",
    "C163_added_stays",
    "C163_connected",
    "C163_unknown",
    "C163_disconnected",
    "C163_failed_partial",
    "C163_renamed_refuted",
    "C163_cleared_refuted",
    "C163_failed_refuted"
   ],
   "note": "the reload is proved, including what remains when a changed server does not answer (the old one). Refuted: for any two labels that are written alike in names, a name comes to mean the other server's tool when it takes the first one's place; clearing and disconnecting change nothing that can be called; a server once connected is shown as connected whatever later attempts say."
  },
  {
   "property": "C164",
   "status": "partial",
   "theorems": [
    "C164_unasked_partial",
    "C164_commands_refuted",
    "C164_label_refuted",
    "C164_carried_refuted"
   ],
   "note": "proved is exactly when a tool is called unasked. Refuted: every callable tool's name begins with mcp__, so that none is ever recognised as one that takes a command line and the command line is never looked at (the check of C46 applies to names no tool has); a reading word in the server's label makes all its tools without a changing word pass as read-only (mcp__tools__bash, by the ls in tools); a call allowed for good is allowed to another server that takes the name over."
  },
  {
   "property": "C165",
   "status": "partial",
   "theorems": [
    "C165_confirmed",
    "C165_own",
    "C165_told",
    "C165_loaded",
    "C165_names",
    "C165_shown_refuted",
    "C165_stale_refuted"
   ],
   "note": "proved over all chats, with what the model is told of each call. Refuted: only the first 80 bytes of the arguments are shown, so that calls which differ later look alike; a server's list of tools once remembered is used for good as long as its configuration is the same, whatever it lists since."
  },
  {
   "property": "C166",
   "status": "partial",
   "theorems": [
    "C166_sent",
    "C166_answered",
    "C166_orphans_refuted"
   ],
   "note": "proved but for the last clause, which is refuted: when a message with six or more calls is summarised away, the results are sent without any call. That a summary's answer says what it was asked to is the model's affair."
  },
  {
   "property": "C167",
   "status": "partial",
   "theorems": [
    "C167_bounded_partial",
    "C167_endless_refuted"
   ],
   "note": "the bound on requests is proved. Refuted: if one message with at most five calls is longer than 96000 characters, summary after summary is asked for without end, since the last six messages are always kept."
  },
  {
   "property": "C168",
   "status": "partial",
   "theorems": [
    "C168_answer",
    "C168_plain_answered",
    "C168_text",
    "C168_parts",
    "C168_empty_calls_refuted",
    "C168_wasted_refuted"
   ],
   "note": "proved if the message has no list of calls. Refuted for a message with an empty list of calls, which some services send: the answer is never shown; if all are so, a hundred requests are sent and the chat fails."
  },
  {
   "property": "C169",
   "status": "partial",
   "theorems": [
    "C169_entries",
    "C169_aliases",
    "C169_lines_refuted"
   ],
   "note": "the contents are proved. Refuted: the aliases never have a line of their own, they are glued to the line of the files or of git."
  },
  {
   "property": "C170",
   "status": "partial",
   "theorems": [
    "C170_encrypted",
    "C170_address_partial",
    "C170_elsewhere_refuted",
    "C170_path_refuted"
   ],
   "note": "encryption is proved for all settings, the address for encrypted (or allowed) ones. Refuted: any other address, as http://localhost:8080, is replaced by that of OpenAI, so that the whole conversation and the key meant for the configured server are sent there; an address whose last part merely ends in the first part of the path is not completed."
  },
  {
   "property": "C171",
   "status": "partial",
   "theorems": [
    "C171_settings_partial",
    "C171_model",
    "C171_prompt",
    "C171_blank_refuted",
    "C171_blank_model_refuted",
    "C171_words_refuted"
   ],
   "note": "proved for settings that are not blank. Refuted: a variable set to nothing hides the next one (an empty AI_CHAT_API_KEY is used as the key); a blank model is said to be set but not used; of several words chat_prompt takes the first."
  },
  {
   "property": "C172",
   "status": "partial",
   "theorems": [
    "C172_request",
    "C172_no_key",
    "C172_messages",
    "C172_answer",
    "C172_parts_refuted"
   ],
   "note": "proved, with the one model (gpt-5-mini) whose temperature is always 1. Refuted for an answer in parts: the chat shows it, every other feature reports an error. The connection, its timeout and its cancellation are not modelled."
  },
  {
   "property": "C173",
   "status": "proved",
   "theorems": [
    "C173_every_line_in_order",
    "C173_runs_iff",
    "C173_one_reading"
   ],
   "note": "lines are given as read: a line that is not UTF-8 ends the script, with a message."
  },
  {
   "property": "C174",
   "status": "partial",
   "theorems": [
    "C174_exit_alone_partial",
    "C174_exit_with_a_status_refuted",
    "C174_exit_in_a_line_refuted",
    "C174_exit_and_next"
   ],
   "note": "proved for the word exit alone on a line of a script. Refuted for everything else: after exit 3, exit; or true; exit the rest of the script is run; on a line, exit; next and exit || next start next."
  },
  {
   "property": "C175",
   "status": "partial",
   "theorems": [
    "C175_command_status",
    "C175_success",
    "C175_lisp_status",
    "C175_only_one_is_run",
    "C175_script_status_refuted",
    "C175_exit_status_refuted"
   ],
   "note": "proved for -c and -l (-c given beside -l is ignored). Refuted: the status of a script is always 0; dsh -c with exit and any number leaves with 1."
  },
  {
   "property": "C176",
   "status": "partial",
   "theorems": [
    "C176_leaves_without_jobs_partial",
    "C176_exit_never_leaves_refuted",
    "C176_not_without_warning",
    "C176_left_on_request"
   ],
   "note": "proved without jobs, and that no session is left with jobs unless there was a warning. Refuted with jobs: running exit counts as a command and so takes the warning back, and each further exit only warns again; the session ends only when no job is left (or exit is run with Alt+Enter)."
  },
  {
   "property": "C177",
   "status": "partial",
   "theorems": [
    "C177_macro_runs_the_commands_partial",
    "C177_backslash_refuted",
    "C177_quote_refuted",
    "C177_accent_refuted"
   ],
   "note": "proved for commands without quotes and backslashes that end in an ASCII character. Refuted: the reader knows no escapes, so that every backslash is run doubled; with a quote in a command what is read is never the macro; with a command that ends in a non-ASCII character the macro is not read at all."
  },
  {
   "property": "C178",
   "status": "partial",
   "theorems": [
    "C178_configuration_is_kept_partial",
    "C178_configuration_lost_refuted"
   ],
   "note": "proved for the same commands as C177. Refuted: with a command that ends in a non-ASCII character nothing of config.lisp can be read at the next start."
  },
  {
   "property": "C179",
   "status": "partial",
   "theorems": [
    "C179_kill",
    "C179_selected_is_killed",
    "C179_others_are_kept_refuted",
    "C179_port_asks",
    "C179_ss_refuted"
   ],
   "note": "proved that what is killed was selected (and confirmed). Refuted: of several selected processes only the first is killed; without lsof, the lines are those of ss and what is killed after a yes is the word of the state."
  },
  {
   "property": "C180",
   "status": "partial",
   "theorems": [
    "C180_checkout",
    "C180_stash_partial",
    "C180_stash_by_date_refuted",
    "C180_diff",
    "C180_staged_refuted",
    "C180_push",
    "C180_commit"
   ],
   "note": "proved, for a stash if its name holds no colon. Refuted: with log.date set the names hold colons and the command is never about the selected entry; a file with only staged changes is offered and then compared without --cached, which shows nothing."
  },
  {
   "property": "C181",
   "status": "partial",
   "theorems": [
    "C181_docker_partial",
    "C181_docker_shell_refuted",
    "C181_file",
    "C181_ssh",
    "C181_ssh_separator_refuted",
    "C181_ssh_beside_pattern_refuted",
    "C181_jump",
    "C181_jump_back_refuted"
   ],
   "note": "proved but for opening a shell in a container. Refuted: exec is given the container as its command, so that it runs in a container named bash or sh; hosts after a tab or an equals sign or beside a pattern are not offered; after a jump PWD is the old directory, cd - does not lead back and no directory environment is loaded."
  },
  {
   "property": "C182",
   "status": "partial",
   "theorems": [
    "C182_offered",
    "C182_same_list",
    "C182_registered",
    "C182_registered_once",
    "C182_chosen_partial",
    "C182_search_history_refuted",
    "C182_history"
   ],
   "note": "proved but for an action named Search History: one's own of that name is listed and never run."
  },
  {
   "property": "C183",
   "status": "partial",
   "theorems": [
    "C183_stays_partial",
    "C183_no_repository",
    "C183_no_editor",
    "C183_error_leaves_refuted"
   ],
   "note": "proved without an error. Refuted: an error of the action (no repository, no such editor, a Lisp function that fails, a directory that is gone) ends the session and kills its jobs without the usual warning."
  },
  {
   "property": "C184",
   "status": "partial",
   "theorems": [
    "C184_no_script_partial",
    "C184_runs_nothing_partial",
    "C184_runs_nothing_refuted"
   ],
   "note": "proved but for the argument of an option: the type of an argument and the value type of an option are never a Script, so that Tab runs nothing. Refuted: an option's own argument is not looked at, and any command put there passes the check and is run by Tab behind the option. A structure written as a JSON array, which serde reads too, is not modelled."
  },
  {
   "property": "C185",
   "status": "partial",
   "theorems": [
    "C185_used_partial",
    "C185_checked",
    "C185_types",
    "C185_file_refuted",
    "C185_unknown_refuted",
    "C185_dash_refuted",
    "C185_blank_refuted"
   ],
   "note": "proved if serde reads it and the loader does not refuse it. Refuted: the check accepts a File without extensions as the instructions to the service write it, types that do not exist, options without a dash and names with blanks; all these files are then ignored."
  },
  {
   "property": "C186",
   "status": "partial",
   "theorems": [
    "C186_help",
    "C186_runs",
    "C186_writes",
    "C186_stdout",
    "C186_status",
    "C186_place_refuted"
   ],
   "note": "proved. Refuted: that the file is in the directory of the completions: with .. in the name it is not."
  },
  {
   "property": "C187",
   "status": "partial",
   "theorems": [
    "C187_only_what_is_listed",
    "C187_every_listed_can_be_picked",
    "C187_all_can_be_picked_refuted",
    "C187_rows",
    "C187_columns",
    "C187_paging_refuted",
    "C187_closing",
    "C187_tab_moves_right",
    "C187_letters",
    "C187_control_letter_refuted"
   ],
   "note": "proved for the first DSH_COMPLETION_MAX_ITEMS candidates. Refuted: candidates behind them cannot be reached; Home, End, PageUp and PageDown do nothing; q closes the menu; Ctrl and Alt with a letter type the letter."
  },
  {
   "property": "C188",
   "status": "partial",
   "theorems": [
    "C188_chosen_takes_the_place",
    "C188_chosen_value",
    "C188_single",
    "C188_typing_goes_on_partial",
    "C188_typing_in_a_value_refuted",
    "C188_typing_elsewhere_refuted",
    "C188_typing_at_declared_refuted",
    "C188_cancel_partial",
    "C188_cancel_inserts_refuted",
    "C188_cancel_asks_again_refuted",
    "C188_cancel_takes_suggestion_refuted",
    "C188_panics_only_on_the_clock",
    "C188_clock_name_refuted",
    "C188_in_front_of_a_word"
   ],
   "note": "picking proved. Typing on proved at the end of the line; refuted in the value of an option (the option is written twice), with the cursor in an earlier word (that word becomes a copy of the last one) and in the menu of a declared command (the word is lost). Cancelling proved when no other source has anything; refuted otherwise: another candidate or the suggestion is put in, or a second menu opens. A panic only for a text that starts with the clock sign."
  },
  {
   "property": "C189",
   "status": "partial",
   "theorems": [
    "C189_declared_list_partial",
    "C189_engine_first_refuted",
    "C189_other_command_refuted",
    "C189_blank_refuted",
    "C189_indented_refuted",
    "C189_dashed_refuted",
    "C189_words",
    "C189_first_hides",
    "C189_star_cuts_two"
   ],
   "note": "proved for the first declaration that fits when the engine has no candidate. Refuted: the engine's candidates hide declarations; a declaration fits every command whose name starts with its name; commands with a dash in the name and indented lines get none; an earlier declaration that gives nothing hides later ones; a star in front of a candidate takes the next character along."
  },
  {
   "property": "C190",
   "status": "partial",
   "theorems": [
    "C190_read_iff",
    "C190_any_place",
    "C190_after_two_dashes",
    "C190_operands",
    "C190_dashed_operand_refuted",
    "C190_twice_refused"
   ],
   "note": "acceptance and reading proved equivalent to a grammar of words. Refuted: operands that start with a dash cannot be given without --."
  },
  {
   "property": "C191",
   "status": "partial",
   "theorems": [
    "C191_what_changes",
    "C191_sets_partial",
    "C191_sets_any",
    "C191_export_anywhere",
    "C191_reads_back",
    "C191_children_see",
    "C191_export_reads_back_partial",
    "C191_export_reads_back_refuted",
    "C191_dashed_value_refuted",
    "C191_wrong_count_refuted",
    "C191_x_as_value_refuted"
   ],
   "note": "proved for words without a leading dash and after --. Refuted: negative numbers cannot be assigned; a wrong number of words changes nothing and reports success; after set -x of a name that is also a shell variable, lines go on reading the old value while children get the new one."
  },
  {
   "property": "C192",
   "status": "partial",
   "theorems": [
    "C192_listens_iff",
    "C192_local_only",
    "C192_refused_partial",
    "C192_taken_port_refuted",
    "C192_usage_in_the_port_refuted",
    "C192_verbose_open_refuted",
    "C192_other_operands_refuted"
   ],
   "note": "what is served proved exactly. Refuted: with the port taken the status is success and nothing is reported; a bad argument that holds Usage: counts as a request for help; --verbose and --open have no effect; operands after the first are ignored."
  },
  {
   "property": "C193",
   "status": "partial",
   "theorems": [
    "C193_only_what_was_asked",
    "C193_creates",
    "C193_newest_first",
    "C193_closing",
    "C193_number_ignored_refuted"
   ],
   "note": "proved. Refuted: a number given as operand (gpr 12) is ignored and the list is shown instead."
  },
  {
   "property": "C194",
   "status": "partial",
   "theorems": [
    "C194_what_is_tried",
    "C194_dry_run",
    "C194_wrong_count",
    "C194_after_dashes",
    "C194_dashed_pattern_refuted"
   ],
   "note": "proved. Refuted: patterns that start with a dash are refused without --."
  },
  {
   "property": "C195",
   "status": "partial",
   "theorems": [
    "C195_which_editor",
    "C195_comes_back",
    "C195_unchanged_partial",
    "C195_unchanged_refuted",
    "C195_eview",
    "C195_eview_keeps_iff",
    "C195_line_kept",
    "C195_empty_visual_refuted",
    "C195_blank_in_the_name_refuted"
   ],
   "note": "proved for text that does not end in a newline (eview: that ends in exactly one). Refuted: newlines at the end are lost or added; a VISUAL that is set but empty gives no editor at all though EDITOR is set; quoted blanks in VISUAL are split."
  },
  {
   "property": "C196",
   "status": "partial",
   "theorems": [
    "C196_commit_after_yes",
    "C196_yes_commits",
    "C196_no_leaves",
    "C196_nothing_sent",
    "C196_end_of_input_refuted",
    "C196_all_is_sent_refuted",
    "C196_other_changes_refuted"
   ],
   "note": "proved. Refuted: at the end of the input the prompt repeats forever; the whole staged diff is sent as it is, secrets included; changes staged meanwhile are committed under a message that does not describe them."
  },
  {
   "property": "C197",
   "status": "partial",
   "theorems": [
    "C197_written",
    "C197_reported",
    "C197_failure_closes_refuted",
    "C197_goes_into_another_file_refuted"
   ],
   "note": "proved for writes that succeed. Refuted: a write that fails closes the descriptor, so all later messages are lost; the next file opened gets its number and later messages are appended to that file."
  },
  {
   "property": "C198",
   "status": "partial",
   "theorems": [
    "C198_asks_only",
    "C198_opened",
    "C198_opens_the_taken_one_partial",
    "C198_marked",
    "C198_nothing_to_do",
    "C198_same_text_refuted",
    "C198_unreadable_refuted",
    "C198_token_sent_refuted",
    "C198_says_marked_refuted"
   ],
   "note": "proved for lists in which no two read the same. Refuted: an entry without _updated_at (GitHub sends updated_at) makes the whole list fail; of two that read the same the later is opened; the token is sent to any address the entry names; Marked is printed even if marking fails."
  },
  {
   "property": "C199",
   "status": "partial",
   "theorems": [
    "C199_listed",
    "C199_cursor",
    "C199_always_one_selected",
    "C199_signals",
    "C199_sends",
    "C199_filter_typing",
    "C199_leaves_iff",
    "C199_round",
    "C199_every_process_can_be_reached",
    "C199_moved_refuted",
    "C199_control_refuted"
   ],
   "note": "proved. Refuted: the selection is a line number, so a refresh between looking and typing makes the signal go to whatever process is on that line then; Ctrl-x sends SIGTERM too, modifiers are not looked at."
  },
  {
   "property": "C200",
   "status": "partial",
   "theorems": [
    "C200_repository",
    "C200_home_partial",
    "C200_other_partial",
    "C200_sibling_refuted",
    "C200_inside_refuted",
    "C200_root_home_refuted",
    "C200_new_repository"
   ],
   "note": "proved for paths in which the home directory's text does not occur elsewhere. Refuted: /home/u2 is shown as ~2, /mnt/home/u/x as /mnt~/x, and with / as home every slash becomes a tilde."
  },
  {
   "property": "C201",
   "status": "partial",
   "theorems": [
    "C201_marks",
    "C201_clean_iff",
    "C201_ahead_partial",
    "C201_behind_partial",
    "C201_diverged_refuted",
    "C201_branch"
   ],
   "note": "proved. Refuted: a branch both ahead and behind shows no counts, so any two such states look alike."
  },
  {
   "property": "C202",
   "status": "partial",
   "theorems": [
    "C202_users",
    "C202_in_order",
    "C202_unreadable_refuted",
    "C202_groups",
    "C202_plus_refuted",
    "C202_interfaces",
    "C202_slot_refuted"
   ],
   "note": "proved as an equivalence with the fields of the lines. Refuted: if the file cannot be read nothing is offered and no error shown; the compatibility line + is offered as a group; slot-named wired devices (ens...) are sorted as unknown ones after wireless."
  },
  {
   "property": "C203",
   "status": "partial",
   "theorems": [
    "C203_label_partial",
    "C203_quoted_label_refuted",
    "C203_runs",
    "C203_help",
    "C203_failure_refuted",
    "C203_description_refuted",
    "C203_description_partial"
   ],
   "note": "proved for labels without quotes that end in an ASCII character. Refuted: a label with quotes puts Lisp expressions of its own into the call, which are evaluated; a request that fails is reported as success; a description over 50 bytes whose byte 47 is inside a character stops the shell."
  },
  {
   "property": "C204",
   "status": "partial",
   "theorems": [
    "C204_again",
    "C204_not_the_same_refuted",
    "C204_none"
   ],
   "note": "proved up to a newline added to each. Refuted: what is written is never exactly what was kept."
  },
  {
   "property": "C205",
   "status": "partial",
   "theorems": [
    "C205_named",
    "C205_status",
    "C205_text",
    "C205_unread_refuted",
    "C205_missing_refuted",
    "C205_runtime_partial"
   ],
   "note": "status and evaluation proved. Refuted: a configuration that is there but cannot be read is always reported as not found (the permission branch is never reached); a failing expression whose error mentions a missing file is reported as a missing configuration."
  },
  {
   "property": "C206",
   "status": "partial",
   "theorems": [
    "C206_branch",
    "C206_outside",
    "C206_settles",
    "C206_calm_partial",
    "C206_nested_refuted",
    "C206_late_refuted",
    "C206_looking_refuted",
    "C206_detached_refuted"
   ],
   "note": "proved when the directory is changed only between background tasks and repositories are not nested. Refuted: in a repository inside another the outer one's branch is shown; a directory changed while git is asked, or while the repository is looked for, gets the counts of the other repository; with a commit checked out every second prompt shows no counts."
  },
  {
   "property": "C207",
   "status": "partial",
   "theorems": [
    "C207_staged",
    "C207_modified",
    "C207_untracked",
    "C207_conflicted",
    "C207_renamed",
    "C207_deleted",
    "C207_branch",
    "C207_upstream",
    "C207_unseen_refuted",
    "C207_not_text_refuted"
   ],
   "note": "proved for lines that are text. Refuted: paths added with intent or of changed type in the work tree are counted nowhere; a path that is not UTF-8 ends the reading and the later ones are not counted."
  },
  {
   "property": "C208",
   "status": "partial",
   "theorems": [
    "C208_branch",
    "C208_detached",
    "C208_other_ref_refuted",
    "C208_stops_refuted",
    "C208_reftable_refuted"
   ],
   "note": "proved for a branch and for a commit name. Refuted: a reference outside refs/heads is cut to seven characters; a HEAD whose seventh byte is inside a character stops the shell; with a reference table the branch shown is always .invalid."
  },
  {
   "property": "C209",
   "status": "partial",
   "theorems": [
    "C209_answers",
    "C209_waits",
    "C209_no_question_in_it",
    "C209_asks",
    "C209_stale_refuted",
    "C209_profile_refuted",
    "C209_many_refuted"
   ],
   "note": "the waits proved. Refuted: once a context is shown it is never asked for again; before the first answer every tick starts another question."
  },
  {
   "property": "C210",
   "status": "proved",
   "theorems": [
    "C210_status",
    "C210_time"
   ],
   "note": ""
  },
  {
   "property": "C211",
   "status": "proved",
   "theorems": [
    "C211_nearest",
    "C211_none"
   ],
   "note": ""
  },
  {
   "property": "C212",
   "status": "partial",
   "theorems": [
    "C212_first_line",
    "C212_tool_versions",
    "C212_mise",
    "C212_mise_next",
    "C212_no_version_refuted"
   ],
   "note": "proved. Refuted: a line that names the tool without a version hides the lines below it that name one."
  },
  {
   "property": "C213",
   "status": "partial",
   "theorems": [
    "C213_node",
    "C213_python",
    "C213_go",
    "C213_last_resort",
    "C213_rust_partial",
    "C213_toolchain_refuted",
    "C213_missing_refuted",
    "C213_far_refuted",
    "C213_hidden_refuted"
   ],
   "note": "the order of the places proved for node, python and go, and for rust unless rust-toolchain.toml names no channel. Refuted: such a file hides rust-toolchain, and the file then named may not exist; a mise.toml far above wins over an .nvmrc here; a Makefile in a directory of the project hides its runtime."
  },
  {
   "property": "C214",
   "status": "partial",
   "theorems": [
    "C214_listed",
    "C214_applied_refuted"
   ],
   "note": "the list proved. Refuted: the file listed may be one below the project's root while pm activate applies the root's."
  },
  {
   "property": "C215",
   "status": "partial",
   "theorems": [
    "C215_listed",
    "C215_manager",
    "C215_cargo",
    "C215_bad_file_refuted"
   ],
   "note": "the list proved exactly. Refuted: a mise.toml, Taskfile, turbo.json or project.json that cannot be read makes task fail altogether; proved to be the only way."
  },
  {
   "property": "C216",
   "status": "partial",
   "theorems": [
    "C216_lines",
    "C216_prerequisites_refuted",
    "C216_not_a_target_refuted"
   ],
   "note": "which lines are taken proved exactly. Refuted: a target with prerequisites is never listed; files that make says are not targets are."
  },
  {
   "property": "C217",
   "status": "partial",
   "theorems": [
    "C217_comments_partial",
    "C217_address_refuted"
   ],
   "note": "proved for texts with no other slash. Refuted: two slashes in a text value (an address) cut the rest of its line away."
  },
  {
   "property": "C218",
   "status": "partial",
   "theorems": [
    "C218_words_partial",
    "C218_shell_refuted"
   ],
   "note": "proved for names without blanks, as words. Refuted: the name is not quoted, so a key with a semicolon runs a second command."
  },
  {
   "property": "C219",
   "status": "partial",
   "theorems": [
    "C219_offered_partial",
    "C219_from_the_file",
    "C219_remark_refuted",
    "C219_not_seen_refuted",
    "C219_elsewhere_refuted",
    "C219_quoted_refuted"
   ],
   "note": "proved for files with each service's name alone on its line and services in the first column; in every file nothing is offered twice and everything offered is a key of the file. Refuted: a remark behind the first service's name hides all services and offers a part of it; a remark behind services, or services in braces, offers nothing; a deeper key named services is taken for it; quotes stay."
  },
  {
   "property": "C220",
   "status": "proved",
   "theorems": [
    "C220_nearest",
    "C220_none"
   ],
   "note": ""
  },
  {
   "property": "C221",
   "status": "partial",
   "theorems": [
    "C221_tasks_partial",
    "C221_tasks_refuted",
    "C221_justfile_refuted",
    "C221_services_partial",
    "C221_services_refuted"
   ],
   "note": "proved when time stamp and size tell a file's contents and, for tasks, the justfiles, the lock files and what make and just say do not change. Refuted: a new justfile in a project of cargo is not noticed; a compose file rewritten in the same instant with the same size keeps its old services."
  },
  {
   "property": "C222",
   "status": "partial",
   "theorems": [
    "C222_latest",
    "C222_one_at_a_time",
    "C222_refreshed",
    "C222_not_refreshed",
    "C222_until_it_ends",
    "C222_any_age_refuted",
    "C222_first_time_refuted"
   ],
   "note": "proved for every history. Refuted: values of any age are offered, and the first time nothing is."
  },
  {
   "property": "C223",
   "status": "proved",
   "theorems": [
    "C223_same_repository",
    "C223_each_project"
   ],
   "note": "each project in one repository keeps its own copy."
  },
  {
   "property": "C224",
   "status": "partial",
   "theorems": [
    "C224_transfer_partial",
    "C224_branches_partial",
    "C224_services_partial",
    "C224_address_refuted",
    "C224_option_refuted",
    "C224_unlisted_refuted",
    "C224_namespace_partial",
    "C224_namespace_refuted"
   ],
   "note": "proved for lines of plain words and for -n right behind the subcommand. Refuted: behind an address, remotes are offered again; with -u the remote is taken for the option's value; of subcommands the shipped definition lacks (git remote, git worktree) nothing is offered; nor with a word before -n."
  },
  {
   "property": "C225",
   "status": "partial",
   "theorems": [
    "C225_bounded_partial",
    "C225_no_longer",
    "C225_held_refuted"
   ],
   "note": "proved when no other process keeps the output open for longer. Refuted: one left in the background that does is waited for, without end."
  },
  {
   "property": "C226",
   "status": "partial",
   "theorems": [
    "C226_external",
    "C226_worktrees",
    "C226_described",
    "C226_only_described_refuted"
   ],
   "note": "proved exactly. Refuted: a line with nothing before the tab offers the description."
  },
  {
   "property": "C227",
   "status": "partial",
   "theorems": [
    "C227_refused_partial",
    "C227_read",
    "C227_one_bad_line_refuted",
    "C227_other_files_refuted"
   ],
   "note": "proved when every line of the current folder's .gitignore is well formed. Refuted: one malformed line makes every ignored file readable; other ignore files, as the repository's when the shell is in a folder below, do not count."
  },
  {
   "property": "C228",
   "status": "partial",
   "theorems": [
    "C228_listed",
    "C228_refused",
    "C228_empty_refuted"
   ],
   "note": "proved exactly. Refuted: a folder whose entries are all ignored is called empty."
  },
  {
   "property": "C229",
   "status": "partial",
   "theorems": [
    "C229_found",
    "C229_note_partial",
    "C229_note_refuted",
    "C229_skills_refuted",
    "C229_ignored_folder_refuted",
    "C229_no_repository_refuted"
   ],
   "note": "the hits proved. Refuted: with exactly fifty hits the answer says some were left out; in the folder of skills nothing is ever found; a search that starts in an ignored folder, or anywhere outside a git repository, shows lines of files that cannot be read."
  },
  {
   "property": "C230",
   "status": "partial",
   "theorems": [
    "C230_glob",
    "C230_exact",
    "C230_star_refuted",
    "C230_nothing_refuted"
   ],
   "note": "what a pattern fits is proved, and exact names are found exactly. Refuted: a star runs over slashes, so every file below a folder whose name begins with x, even one above the current folder, is a hit for x*; the empty name finds every file."
  },
  {
   "property": "C231",
   "status": "partial",
   "theorems": [
    "C231_listed",
    "C231_help",
    "C231_columns",
    "C231_second_word_refuted",
    "C231_unknown_option_refuted",
    "C231_unknown_value_refuted",
    "C231_all_refuted"
   ],
   "note": "proved for every list of documented options and words. Refuted: a second word is dropped; an unknown option is searched for; an unknown scope, status or duration means no filter; without options 200 entries at most are listed."
  },
  {
   "property": "C232",
   "status": "partial",
   "theorems": [
    "C232_shown",
    "C232_list_partial",
    "C232_passed_on",
    "C232_eleventh_refuted",
    "C232_cut_refuted",
    "C232_clear_refuted"
   ],
   "note": "out and out N proved; the list proved for first lines of at most 60 bytes. Refuted: only ten are listed; a longer first line whose 57th byte is inside a character stops the shell; --clear clears nothing."
  },
  {
   "property": "C233",
   "status": "partial",
   "theorems": [
    "C233_read_partial",
    "C233_refused",
    "C233_closed_refuted",
    "C233_line_refuted",
    "C233_no_name_refuted",
    "C233_export_refuted"
   ],
   "note": "proved that $NAME is the whole input without its last newlines, that no other variable changes, and that input that is no text is refused. Refuted: all lines are taken, not one; the descriptor, the shell's own input when there is no pipe, is closed; without a name the shell is stopped; the variable cannot be exported."
  },
  {
   "property": "C234",
   "status": "partial",
   "theorems": [
    "C234_counts",
    "C234_any_order",
    "C234_shown",
    "C234_last_check",
    "C234_error_hidden_refuted"
   ],
   "note": "proved for every answer and history: the counts are those of the last check that succeeded. Refuted: that checks fail is not shown while the last counts are not zero, so old counts look current."
  },
  {
   "property": "C235",
   "status": "partial",
   "theorems": [
    "C235_marked",
    "C235_token_partial",
    "C235_filtered_refuted",
    "C235_token_refuted"
   ],
   "note": "what is marked is proved exactly. Refuted: notifications the user has filtered out are marked as read too; the token is sent to whatever address the answer names."
  },
  {
   "property": "C236",
   "status": "partial",
   "theorems": [
    "C236_quiet",
    "C236_asked",
    "C236_interval",
    "C236_settings_refuted"
   ],
   "note": "proved for the settings as they were at the start. Refuted: settings made later have no effect, a token taken away is used on."
  },
  {
   "property": "C237",
   "status": "partial",
   "theorems": [
    "C237_offered",
    "C237_once",
    "C237_named_refuted",
    "C237_link_refuted"
   ],
   "note": "proved with what counts as executable. Refuted: every link counts, wherever it leads; a file named by its path is offered without being executable."
  },
  {
   "property": "C238",
   "status": "proved",
   "theorems": [
    "C238_one"
   ],
   "note": "names are the texts after the last slash."
  },
  {
   "property": "C239",
   "status": "partial",
   "theorems": [
    "C239_word_partial",
    "C239_directory",
    "C239_hidden_refuted",
    "C239_link_refuted"
   ],
   "note": "proved exactly, for words without a slash and for directories. Refuted: a command is not offered where a directory or link has its name; a link to a file is offered as a directory."
  },
  {
   "property": "C240",
   "status": "partial",
   "theorems": [
    "C240_fresh_partial",
    "C240_nothing_kept",
    "C240_stale_refuted",
    "C240_renewed_refuted",
    "C240_longer_refuted"
   ],
   "note": "proved when nothing is kept, and that an empty list is not kept. Refuted: within three seconds the same word shows the old list in any directory; each press renews it; after a shorter word, matches that do not begin with the word are lost."
  },
  {
   "property": "C241",
   "status": "proved",
   "theorems": [
    "C241_table",
    "C241_offered",
    "C241_once"
   ],
   "note": "Unicode upper case is a parameter."
  },
  {
   "property": "C242",
   "status": "partial",
   "theorems": [
    "C242_offered",
    "C242_age",
    "C242_gone_refuted"
   ],
   "note": "proved exactly for the list at the last scan, and that in every history this scan is less than a second old. Refuted: within that second processes that are gone are offered and new ones are not."
  },
  {
   "property": "C243",
   "status": "partial",
   "theorems": [
    "C243_was_there",
    "C243_known_partial",
    "C243_first_partial",
    "C243_named",
    "C243_recent",
    "C243_scan",
    "C243_scan_begins",
    "C243_old_refuted",
    "C243_kept_refuted",
    "C243_path_refuted",
    "C243_race_refuted"
   ],
   "note": "proved: what a scan finds and when it begins, that answers are the known names that match, or what is on disk before any are known, that in every history everything offered was there once and answers are kept for two seconds at most. Refuted: however old the known names are the next answer is taken from them; within two seconds the answer stays the same; a directory put on PATH in the shell is not looked at; a scan begun before PATH was set stores its names after."
  },
  {
   "property": "C244",
   "status": "partial",
   "theorems": [
    "C244_known",
    "C244_scanned",
    "C244_line",
    "C244_whole",
    "C244_unknown",
    "C244_path",
    "C244_differs_refuted"
   ],
   "note": "proved exactly once the names are known, with the binary search, and exactly before that. Refuted: before the scan links are left out and the first directory decides, so the suggestion changes though nothing on disk does."
  },
  {
   "property": "C245",
   "status": "partial",
   "theorems": [
    "C245_loaded_partial",
    "C245_version",
    "C245_changed_refuted",
    "C245_dated_refuted"
   ],
   "note": "proved exactly when they are used: same PATH and same times and lengths of its directories. Refuted: changes that leave these as they are are not seen, and the file is dated after the scan, so changes during it are not seen either. What the JSON says is modelled, not its text."
  },
  {
   "property": "C246",
   "status": "partial",
   "theorems": [
    "C246_follows_partial",
    "C246_race_refuted",
    "C246_installed_refuted"
   ],
   "note": "proved when the scan ended before PATH was set. Refuted: a scan that ends later brings back the names of the old PATH for good; what is installed after the scan is not suggested in this session."
  },
  {
   "property": "C247",
   "status": "partial",
   "theorems": [
    "C247_quiet",
    "C247_text_partial",
    "C247_first",
    "C247_conversation",
    "C247_output_partial",
    "C247_terminal_refuted",
    "C247_earlier_refuted",
    "C247_crash_refuted"
   ],
   "note": "proved what is sent and that each request continues the one before. Refuted: of a command that ran on a terminal nothing it wrote is sent; for a command that wrote nothing the errors of an earlier one are sent; a text whose limit falls inside a character stops the shell."
  },
  {
   "property": "C248",
   "status": "partial",
   "theorems": [
    "C248_first_block",
    "C248_no_block",
    "C248_or",
    "C248_other_language_refuted"
   ],
   "note": "proved exactly, for what counts as a fence. Refuted: the end of an earlier block in another language counts as the beginning, and prose becomes the command."
  },
  {
   "property": "C249",
   "status": "partial",
   "theorems": [
    "C249_keys",
    "C249_esc",
    "C249_no_limit",
    "C249_line",
    "C249_raw_refuted"
   ],
   "note": "proved for every list of keys. Refuted: the dialog leaves the terminal without raw mode."
  },
  {
   "property": "C250",
   "status": "partial",
   "theorems": [
    "C250_after_partial",
    "C250_back",
    "C250_capture_refuted",
    "C250_empty_refuted"
   ],
   "note": "proved exactly when it does not: a command substitution or a job with |> or |: could not be started, or a job with |: has no command, and it is the last reached. These refute the claim."
  },
  {
   "property": "C251",
   "status": "proved",
   "theorems": [
    "C251_during",
    "C251_script"
   ],
   "note": "the processes of substitutions are left out."
  },
  {
   "property": "C252",
   "status": "partial",
   "theorems": [
    "C252_each",
    "C252_session_partial",
    "C252_end",
    "C252_diagnosis_refuted",
    "C252_script_partial",
    "C252_script_refuted"
   ],
   "note": "proved that the last action that sets the mode decides it, and that an error ends the session in the right mode. Refuted: a diagnosis leaves the prompt without raw mode; a script whose line has a command substitution and is refused or has an error leaves the terminal raw."
  },
  {
   "property": "C253",
   "status": "partial",
   "theorems": [
    "C253_kept",
    "C253_killed",
    "C253_again",
    "C253_ready",
    "C253_count",
    "C253_opens",
    "C253_new",
    "C253_duplicates_refuted"
   ],
   "note": "proved except that it always succeeds: it opens exactly when the indexes can be made. Refuted: a history of a version without the unique index that holds a command twice never opens again."
  },
  {
   "property": "C254",
   "status": "proved",
   "theorems": [
    "C254_screen",
    "C254_file",
    "C254_returned",
    "C254_same",
    "C254_all",
    "C254_prefix"
   ],
   "note": "the terminal is taken to end when no process holds it and all was read, as on Linux; errors of writing to the screen are left out"
  },
  {
   "property": "C255",
   "status": "partial",
   "theorems": [
    "C255_order_partial",
    "C255_back_partial",
    "C255_prompt",
    "C255_ahead_refuted"
   ],
   "note": "proved: order, none twice, and every key once the prompt is back; all but those in the task's hands are kept. Refuted: keys typed after the command has ended and before the shell noticed reach nobody."
  },
  {
   "property": "C256",
   "status": "partial",
   "theorems": [
    "C256_only",
    "C256_comes",
    "C256_stopped_refuted",
    "C256_child_refuted"
   ],
   "note": "proved: it can come back, by steps of the shell alone, once the command is gone and no process holds its terminal, and only then. Refuted: a stopped command keeps it away for as long as it is stopped, and so does a process left behind that holds the terminal."
  },
  {
   "property": "C257",
   "status": "partial",
   "theorems": [
    "C257_first",
    "C257_waits",
    "C257_yes",
    "C257_modifiers_refuted",
    "C257_interrupt_refuted",
    "C257_ahead_refuted"
   ],
   "note": "proved: the first key that means something is the answer, the rest is left, and only y or a lets the command run. Refuted: Ctrl+A answers always and Ctrl+Y yes, Ctrl+C does nothing however often, and keys typed before the question answer it."
  },
  {
   "property": "C258",
   "status": "proved",
   "theorems": [
    "C258_line",
    "C258_end",
    "C258_word_refuted"
   ],
   "note": "characterised exactly; the word yes is a no"
  },
  {
   "property": "C259",
   "status": "partial",
   "theorems": [
    "C259_pairs",
    "C259_some",
    "C259_slow",
    "C259_between_refuted",
    "C259_leave",
    "C259_leaves"
   ],
   "note": "proved. Refuted: the two presses of Esc need not be in a row: other keys may come between."
  },
  {
   "property": "C260",
   "status": "partial",
   "theorems": [
    "C260_hidden",
    "C260_length",
    "C260_short_refuted",
    "C260_address_refuted"
   ],
   "note": "proved: keys that agree in the last four characters give the same report. Refuted: a key of at most four characters is shown whole, and the address is shown with the password it may hold."
  },
  {
   "property": "C261",
   "status": "partial",
   "theorems": [
    "C261_used_partial",
    "C261_blank_refuted",
    "C261_address_refuted"
   ],
   "note": "proved for models that are not blank and for encrypted addresses without blanks or slashes at the end. Refuted: a blank model and an address that is not encrypted are shown but not used."
  },
  {
   "property": "C262",
   "status": "proved",
   "theorems": [
    "C262_all",
    "C262_one",
    "C262_other"
   ],
   "note": ""
  },
  {
   "property": "C263",
   "status": "partial",
   "theorems": [
    "C263_changed",
    "C263_arrow_refuted"
   ],
   "note": "proved for names without blanks around them, line ends, quotation marks and arrows. Refuted: a file with an arrow in its name is reported under the end of its name. Names that git prints with escapes are reported with the escapes."
  },
  {
   "property": "C264",
   "status": "partial",
   "theorems": [
    "C264_checks",
    "C264_once",
    "C264_more",
    "C264_folder_refuted"
   ],
   "note": "proved for the paths that git shows. Refuted for files: a new folder of Rust files, shown by its name alone, does not ask for the formatter."
  },
  {
   "property": "C265",
   "status": "proved",
   "theorems": [
    "C265_same"
   ],
   "note": "empty folders, sockets and links that lead nowhere do not count; links that lead somewhere are taken as what they lead to"
  },
  {
   "property": "C266",
   "status": "partial",
   "theorems": [
    "C266_added",
    "C266_all",
    "C266_error",
    "C266_history",
    "C266_more_refuted",
    "C266_entry_refuted"
   ],
   "note": "proved. Refuted in the form that all that is written is used or refused: arguments and elements too many, and earlier entries for the same key, are dropped without an error."
  },
  {
   "property": "C267",
   "status": "partial",
   "theorems": [
    "C267_shown",
    "C267_once",
    "C267_two_refuted",
    "C267_panic_refuted"
   ],
   "note": "proved: all variables are there, no line twice, sorted. Refuted: a variable whose value in the process differs has two lines, and a variable of the process that is not UTF-8 ends the shell."
  },
  {
   "property": "C268",
   "status": "partial",
   "theorems": [
    "C268_order",
    "C268_flushed",
    "C268_quiet",
    "C268_kept",
    "C268_again_refuted"
   ],
   "note": "proved without failures; with failures nothing is lost and the order stays. Refuted: bytes taken before a failure are sent again."
  },
  {
   "property": "C269",
   "status": "partial",
   "theorems": [
    "C269_asks",
    "C269_answer",
    "C269_cleared",
    "C269_here_partial",
    "C269_shown",
    "C269_late_refuted",
    "C269_wait_refuted"
   ],
   "note": "proved when no question is under way at a change of directory. Refuted otherwise: an answer that comes late is shown in the new directory, project or not, and stays; the wait after failures goes on in other directories."
  },
  {
   "property": "C270",
   "status": "partial",
   "theorems": [
    "C270_second",
    "C270_go",
    "C270_failed",
    "C270_node",
    "C270_kubernetes",
    "C270_docker",
    "C270_docker_shown",
    "C270_bar_refuted",
    "C270_empty_refuted"
   ],
   "note": "proved for names without a bar. Refuted: a context with a bar in its name is cut and its rest shown as the namespace; empty names are shown and hide the default profile."
  },
  {
   "property": "C271",
   "status": "partial",
   "theorems": [
    "C271_result",
    "C271_kept",
    "C271_patient",
    "C271_ends",
    "C271_room",
    "C271_left_refuted"
   ],
   "note": "proved when no other process holds the output. Refuted otherwise: a process left behind keeps the shell waiting without any limit, also after the command itself has ended."
  },
  {
   "property": "C272",
   "status": "partial",
   "theorems": [
    "C272_line",
    "C272_described",
    "C272_first",
    "C272_after",
    "C272_listed",
    "C272_text",
    "C272_name_refuted"
   ],
   "note": "proved for names without line ends. Refuted: the name of a folder with a line end puts lines of its own into the instructions of the assistant."
  },
  {
   "property": "C273",
   "status": "partial",
   "theorems": [
    "C273_fresh_partial",
    "C273_same_refuted",
    "C273_rename_refuted",
    "C273_deleted_refuted"
   ],
   "note": "proved when files are written, added and removed, each write at a later millisecond. Refuted: after a rename, or after SKILL.md is deleted from a folder that is not the newest, the old list is offered on."
  },
  {
   "property": "C274",
   "status": "partial",
   "theorems": [
    "C274_all_partial",
    "C274_tie_refuted",
    "C274_typed",
    "C274_newest",
    "C274_lost_refuted",
    "C274_twice_refuted"
   ],
   "note": "the whole history is proved when no command is run meanwhile and the thousandth command is newer than the next; commands run after the first part is read are kept and saved in every order of steps. Refuted: commands of the same second as the thousandth are left out; a command run before the first part is read is lost; one run again between reading and joining the second part is there twice. Reloading by the arrow keys is not modelled."
  }
 ]
}
{
 "claims": [
  {
   "property": "C01",
   "status": "proved",
   "theorems": [
    "c01_log_round_trip",
    "c01_one_batch",
    "c01_all_or_nothing",
    "c01_succeeds"
   ],
   "note": "Every use of the database (any batches, faults, rollbacks): reading returns exactly the storable events of the successful batches. Ids must be 20-byte ids."
  },
  {
   "property": "C02",
   "status": "proved",
   "theorems": [
    "c02_toplevel_fresh",
    "c02_nested_same",
    "c02_nested_suppressed",
    "c02_text_round_trip",
    "c02_message",
    "c02_message_kept"
   ],
   "note": "Freshness, inheritance through the environment, text round trip and message retrieval over every usage history in which nested ids were handed out before. 64-bit overflow of the sequence is excluded by the usage relation."
  },
  {
   "property": "C03",
   "status": "proved",
   "theorems": [
    "c03_status",
    "c03_status_now",
    "c03_latest_event",
    "c03_known_commits"
   ],
   "note": "Status, latest event and set of known commits characterised by the last concerning event; also directly on the raw stored log."
  },
  {
   "property": "C04",
   "status": "proved",
   "theorems": [
    "c04_past_immutable",
    "c04_events_extended"
   ],
   "note": "All cursor queries are unchanged by appended events (main branch with the same present position as fallback)."
  },
  {
   "property": "C05",
   "status": "partial",
   "theorems": [
    "c05_make_cursor",
    "c05_advance",
    "c05_advance_isize_partial",
    "c05_advance_isize_valid",
    "c05_advance_isize_refuted"
   ],
   "note": "Holds with unbounded integers. With isize arithmetic it holds when the sum is representable; refuted otherwise (release build wraps to the start, debug build panics)."
  },
  {
   "property": "C06",
   "status": "proved",
   "theorems": [
    "c06_lands_on_boundary",
    "c06_snaps_forward",
    "c06_one_forward",
    "c06_one_backward",
    "c06_iterate_forward",
    "c06_iterate_backward",
    "c06_forward_back",
    "c06_back_forward",
    "c06_ends"
   ],
   "note": "Boundaries, single steps, iteration, inverse and ends, for every log, cursor and amount."
  },
  {
   "property": "C07",
   "status": "proved",
   "theorems": [
    "c07_latest_transaction",
    "c07_run_unique",
    "c07_nothing_at_start",
    "c07_latest_event"
   ],
   "note": "The returned segment is the unique maximal run ending at the cursor."
  },
  {
   "property": "C08",
   "status": "proved",
   "theorems": [
    "c08_branches",
    "c08_untracked_never"
   ],
   "note": "Branch table equals the last reference update per branch, plus the separately computed main branch; untracked references never appear in a replayed log."
  },
  {
   "property": "C09",
   "status": "partial",
   "theorems": [
    "c09_main_branch_refuted",
    "c09_main_branch_partial",
    "c09_main_branch_unobserved"
   ],
   "note": "Refuted: after a deletion of the main branch its position from before the deletion is still reported. Proved when the last update is not a deletion, and when none was observed."
  },
  {
   "property": "C10",
   "status": "proved",
   "theorems": [
    "c10_refs_restored",
    "c10_others_untouched",
    "c10_head_left_to_checkout",
    "c10_head_target",
    "c10_checkout_target",
    "c10_total",
    "c10_declined"
   ],
   "note": "All references other than HEAD return to their value at the cursor when the recorded old values are true; untouched references stay; HEAD is handed to the checkout, whose target is characterised. The checkout itself (a git subprocess) is outside the model; creating a reference is assumed to succeed."
  },
  {
   "property": "C11",
   "status": "partial",
   "theorems": [
    "c11_unaffected",
    "c11_opposite_of_first",
    "c11_visibility_partial",
    "c11_visibility_refuted"
   ],
   "note": "Refuted in general: a commit recorded again since the cursor ends up hidden although visible at the cursor. Proved: exact status after the undo for every commit, and restoration whenever the first event since the cursor concerning the commit changed its visibility."
  },
  {
   "property": "C12",
   "status": "partial",
   "theorems": [
    "c12_inverse_twice",
    "c12_redo_refs",
    "c12_undo_undo_refuted"
   ],
   "note": "Inverting twice and redoing the inverse events restore effects and references. Refuted for the command: reference changes made by undo are not recorded (libgit2 runs no hooks), so a second undo repeats the first."
  },
  {
   "property": "C13",
   "status": "proved",
   "theorems": [
    "c13_exactly_obsolete",
    "c13_idempotent",
    "c13_marked_survives"
   ],
   "note": "Exact set of surviving references, idempotence, and survival of marked visible commits."
  },
  {
   "property": "C14",
   "status": "proved",
   "theorems": [
    "c14_terminates",
    "c14_target",
    "c14_none",
    "c14_never_itself",
    "c14_answer_is_newest",
    "c14_answer_unique"
   ],
   "note": "Termination and characterisation as the end of the rewrite chain for every replayed log."
  },
  {
   "property": "C15",
   "status": "proved",
   "theorems": [
    "c15_abandoned_children"
   ],
   "note": "For every log, cursor and well-formed graph."
  },
  {
   "property": "C16",
   "status": "partial",
   "theorems": [
    "c16_transaction",
    "c16_uncommitted",
    "c16_malformed_dropped",
    "c16_transaction_total_partial",
    "c16_packing",
    "c16_lines_independent_refuted"
   ],
   "note": "Events characterised line by line for every transaction text and packed-refs file; malformed lines never matter; packing never moves a reference. The claim that lines are independent is refuted: a symbolic target that does not resolve loses the whole transaction."
  },
  {
   "property": "C17",
   "status": "partial",
   "theorems": [
    "c17_round_trip",
    "c17_add_entries_partial",
    "c17_skipped_once",
    "c17_add_entries_refuted"
   ],
   "note": "Round trip for every list; adding entries proved when no commit is listed twice, refuted otherwise (only the first of two entries about one commit is replaced)."
  },
  {
   "property": "C18",
   "status": "proved",
   "theorems": [
    "c18_public",
    "c18_visible",
    "c18_draft",
    "c18_partition",
    "c18_filter_visible",
    "c18_opened_at_cursor"
   ],
   "note": "Set algebra of the graph library is modelled by its contract and proved against reachability; opening at a cursor ties visibility to the log."
  },
  {
   "property": "C19",
   "status": "proved",
   "theorems": [
    "c19_components"
   ],
   "note": "For every graph, set and iteration order; the assertions at the end of the code never fail."
  },
  {
   "property": "C20",
   "status": "proved",
   "theorems": [
    "c20_calls_visible",
    "c20_hidden_only_by_name",
    "c20_resolved_visible"
   ],
   "note": "For every expression, alias table, graph and visibility state."
  },
  {
   "property": "C21",
   "status": "proved",
   "theorems": [
    "c21_meaning",
    "c21_one_answer",
    "c21_fuel_irrelevant",
    "c21_arity",
    "c21_resolve"
   ],
   "note": "Evaluation of every expression equals a declarative meaning over the graph, the event log and the commit texts; globs, regular expressions, dates and Git name resolution are parameters."
  },
  {
   "property": "C22",
   "status": "partial",
   "theorems": [
    "c22_parser_follows_grammar",
    "c22_unambiguous",
    "c22_equal_or_looser_right",
    "c22_tighter_right",
    "c22_postfix_tightest",
    "c22_nth_number",
    "c22_one_sided_ranges",
    "c22_operator_text",
    "c22_blanks",
    "c22_print_parse_partial",
    "c22_print_parse_refuted"
   ],
   "note": "Parser equivalent to the grammar, grammar unambiguous, precedence, associativity and operator spelling proved. The print and parse round trip holds for expressions whose names need no quotes and is refuted for quoted names."
  },
  {
   "property": "C23",
   "status": "partial",
   "theorems": [
    "c23_exact",
    "c23_literal_partial",
    "c23_escape_refuted",
    "c23_every_text_refuted",
    "c23_separate_refuted"
   ],
   "note": "Exact meaning of every literal proved. Refuted as documented: everything behind the first backslash is treated as escaped, so some texts cannot be written. Proved for literals without backslash."
  },
  {
   "property": "C24",
   "status": "proved",
   "theorems": [
    "c24_expansion",
    "c24_alias_is_macro",
    "c24_builtins_fixed",
    "c24_unknown"
   ],
   "note": "Aliases are macro expansion; names of built-in functions cannot be redefined."
  },
  {
   "property": "C25",
   "status": "proved",
   "theorems": [
    "c25_prefix",
    "c25_text",
    "c25_date",
    "c25_no_prefix"
   ],
   "note": "For every pattern and text; matching of globs and regular expressions and parsing of dates are parameters."
  },
  {
   "property": "C26",
   "status": "partial",
   "theorems": [
    "c26_terminates",
    "c26_sound",
    "c26_cycle_iff_partial",
    "c26_moves",
    "c26_gaps",
    "c26_cycle_refuted"
   ],
   "note": "Termination, soundness, and exactness for all requests that only move commits; with squashes exact when the commits squashed into are not above moved commits, refuted otherwise (such a commit is left out of the cycle check)."
  },
  {
   "property": "C27",
   "status": "partial",
   "theorems": [
    "c27_allowed",
    "c27_refused",
    "c27_moves_allowed",
    "c27_not_public_partial",
    "c27_outside_refused",
    "c27_fixup_refuted"
   ],
   "note": "Verified set, refusals and moved commits proved. Refuted for the commit squashed into: it is rewritten without being checked, even when public."
  },
  {
   "property": "C28",
   "status": "partial",
   "theorems": [
    "c28_warning",
    "c28_no_warning",
    "c28_lost_noticed",
    "c28_replayed_partial",
    "c28_planned",
    "c28_subtrees",
    "c28_merge_lost_refuted",
    "c28_merge_order_refuted"
   ],
   "note": "Proved for all moves of subtrees rooted at non-merge commits, and for all requests in which merge commits keep their parents. Refuted for merges otherwise: a merge whose one parent is moved away alone is dropped, and a merge above a commit squashed into is replayed before it on the old version. The former is noticed in the log of the program, and carried out all the same (c28_lost_noticed)."
  },
  {
   "property": "C29",
   "status": "proved",
   "theorems": [
    "c29_labels"
   ],
   "note": "For every plan the planner returns."
  },
  {
   "property": "C30",
   "status": "partial",
   "theorems": [
    "c30_carried_out_partial",
    "c30_one_place_partial",
    "c30_subtrees",
    "c30_runs_partial",
    "c30_squashed_lost_refuted",
    "c30_passed_over_refuted"
   ],
   "note": "Fate of every rewritten commit, uniqueness of its place, absence of internal errors and the reasons for stopping, for all requests of C28 in which nothing goes on top of squashed commits; complete for moves of subtrees. Refuted: commits squashed into one of which nothing is left are not accounted for; a commit above a skipped one may stay on the skipped original when another commit is squashed into it."
  },
  {
   "property": "C31",
   "status": "proved",
   "theorems": [
    "c31_nothing_visible",
    "c31_before_disk",
    "c31_reported_partial"
   ],
   "note": "For every plan, failure point and setting; running on disk is a parameter that receives the untouched repository. Applying changes is a parameter."
  },
  {
   "property": "C32",
   "status": "partial",
   "theorems": [
    "c32_branches",
    "c32_halfway",
    "c32_announced_refuted",
    "c32_after_rebase",
    "c32_head_partial"
   ],
   "note": "Branches proved for every mapping and table, also when writing a reference fails halfway; HEAD proved for the requests of C30. Refuted: moves already made are not announced when the upstream of the main branch cannot be looked up."
  },
  {
   "property": "C33",
   "status": "partial",
   "theorems": [
    "c33_exact",
    "c33_requested_partial",
    "c33_unrelated",
    "c33_empty_dirs",
    "c33_total",
    "c33_replaced_directory_refuted",
    "c33_below_file_refuted"
   ],
   "note": "Contents of every path of the new tree, unrelated paths, empty directories and success proved for all trees and updates. Refuted: when a directory is replaced by a file (or a path below a file is removed) the file is lost."
  },
  {
   "property": "C34",
   "status": "partial",
   "theorems": [
    "c34_partial",
    "c34_chosen",
    "c34_refuted"
   ],
   "note": "Proved when no chosen path is below another. Refuted otherwise: the chosen file is dropped."
  },
  {
   "property": "C35",
   "status": "proved",
   "theorems": [
    "c35_exact",
    "c35_files",
    "c35_total"
   ],
   "note": "For all trees; also termination for stores without cyclic directories."
  },
  {
   "property": "C36",
   "status": "partial",
   "theorems": [
    "c36_partial",
    "c36_refuted"
   ],
   "note": "The very same tree results when no directory is replaced by a file. Refuted otherwise."
  },
  {
   "property": "C37",
   "status": "partial",
   "theorems": [
    "c37_partial",
    "c37_refuted"
   ],
   "note": "Proved for paths still there after applying the folded commit. Refuted: files removed by the folded commit stay."
  },
  {
   "property": "C38",
   "status": "partial",
   "theorems": [
    "c38_index_partial",
    "c38_working_copy_partial",
    "c38_replaced_directory_refuted",
    "c38_link_refuted"
   ],
   "note": "Proved for index and working copy at paths without listed or touched paths below. Refuted: a commit that replaced a directory by a file loses the file when an unrelated path is amended; a link is stored with the contents of its target."
  },
  {
   "property": "C39",
   "status": "partial",
   "theorems": [
    "c39_reopened",
    "c39_paragraph",
    "c39_recognised",
    "c39_unmarked",
    "c39_ordinary",
    "c39_error_refuted",
    "c39_not_utf8",
    "c39_copied",
    "c39_only_snapshots_refuted"
   ],
   "note": "Round trip proved for every state of HEAD; every recognised commit names all its data commits in lines of its message; commits without the markers are not recognised. Refuted: a commit that names a missing head gives an error; any commit with such a message counts as a snapshot. Reading trailers (libgit2) is modelled after its published source."
  },
  {
   "property": "C40",
   "status": "partial",
   "theorems": [
    "c40_restorable",
    "c40_index_partial",
    "c40_conflict",
    "c40_ours_lost",
    "c40_theirs_removed",
    "c40_conflict_refuted",
    "c40_renamed",
    "c40_renamed_refuted",
    "c40_files_partial",
    "c40_conflict_files",
    "c40_conflict_files_lost",
    "c40_conflict_files_refuted",
    "c40_untracked_lost",
    "c40_untracked_refuted",
    "c40_link",
    "c40_link_refuted",
    "c40_type_change",
    "c40_type_change_refuted",
    "c40_directory",
    "c40_submodule_refuted"
   ],
   "note": "Proved over every later state and order of commands: the index at every path that is neither in conflict nor the former name of a renamed file, and ordinary files of the index on disk. Conflicts are characterised exactly. Refuted: our stage of a conflict and the edited file are lost, the removal of a former name is lost, files taken out of the index are lost, links are followed, changes of type are lost, a new submodule makes it fail. What Git does (status, reset, checkout, update-index) is described by functions and relations; reported paths above or below each other are excluded."
  },
  {
   "property": "C41",
   "status": "proved",
   "theorems": [
    "c41_accepts",
    "c41_rejects",
    "c41_consistent",
    "c41_bounds"
   ],
   "note": "Accepted reports are characterised exactly, for reports of results about the commits being searched. Errors of the graph library are left out."
  },
  {
   "property": "C42",
   "status": "proved",
   "theorems": [
    "c42_proposals",
    "c42_succeeds",
    "c42_finished",
    "c42_no_error",
    "c42_order"
   ],
   "note": "For every strategy offered, number of proposals asked for and history of results. Commits whose test gave no result count as tested."
  },
  {
   "property": "C43",
   "status": "proved",
   "theorems": [
    "c43_no_contradiction",
    "c43_boundary",
    "c43_terminates",
    "c43_binary",
    "c43_not_monotone_refuted"
   ],
   "note": "Boundary for results arriving in any order; termination for one test at a time, with a logarithmic bound for binary search on a stack. The refutation shows that monotonicity is needed."
  },
  {
   "property": "C44",
   "status": "partial",
   "theorems": [
    "c44_once",
    "c44_order",
    "c44_closed",
    "c44_duplicates_refuted",
    "c44_run"
   ],
   "note": "For every sequence of calls in which no single call of set lists a job twice; refuted for such lists. In runs of the tests the lists never repeat a job, so every commit is tested at most once."
  },
  {
   "property": "C45",
   "status": "partial",
   "theorems": [
    "c45_terminates",
    "c45_no_deadlock",
    "c45_panic_refuted",
    "c45_results_true",
    "c45_results_all",
    "c45_errors",
    "c45_search",
    "c45_succeeds"
   ],
   "note": "Termination of every execution with a bound; absence of deadlock unless a test panics its thread, refuted in that case; results, errors and parallel searches characterised for every schedule."
  },
  {
   "property": "C46",
   "status": "partial",
   "theorems": [
    "c46_exclusive",
    "c46_none_lost",
    "c46_created_when_empty",
    "c46_as_many_as_needed",
    "c46_acquire",
    "c46_release",
    "c46_panic_refuted"
   ],
   "note": "For every interleaving of calls in which no constructor panics. Refuted otherwise: a panic poisons the pool, so that later acquisitions and releases panic."
  },
  {
   "property": "C47",
   "status": "partial",
   "theorems": [
    "c47_accept",
    "c47_sections",
    "c47_all_or_none",
    "c47_shown",
    "c47_read_back",
    "c47_single",
    "c47_given",
    "c47_abort",
    "c47_missing_mark_refuted",
    "c47_dropped_refuted",
    "c47_empty_refuted",
    "c47_unedited_refuted",
    "c47_comment_char_refuted"
   ],
   "note": "Acceptance and assignment characterised exactly for every edited text; editing only the texts below the marks is read back exactly. Refuted: the mark of a commit may be missing, text before a mark may be dropped, one message may be empty, unedited messages lose lines that look like comments, and with the comment character + bulk edits are always refused."
  },
  {
   "property": "C48",
   "status": "partial",
   "theorems": [
    "c48_sections",
    "c48_exact",
    "c48_lines",
    "c48_other",
    "c48_files",
    "c48_not_utf8",
    "c48_encoding_refuted",
    "c48_to_binary_refuted"
   ],
   "note": "Proved for every two texts in UTF-8 and every list of hunks between them: any choice of sections gives exactly the text with those changes. Refuted for contents that libgit2 takes for text but are not UTF-8: a panic, or the whole old text shown as unchanged. Hunks are given by libgit2."
  },
  {
   "property": "C49",
   "status": "partial",
   "theorems": [
    "c49_reading",
    "c49_update",
    "c49_user_lines",
    "c49_again",
    "c49_install",
    "c49_unreadable",
    "c49_reinstall",
    "c49_settles",
    "c49_calls",
    "c49_names",
    "c49_multi",
    "c49_fresh_refuted",
    "c49_unterminated_refuted",
    "c49_carriage_return_refuted",
    "c49_again_refuted"
   ],
   "note": "Proved for hooks without carriage returns, from the second installation on if a hook was missing. Refuted: a hook created by the first run is changed by the second; lines after an unclosed block are lost; carriage returns are lost."
  },
  {
   "property": "C50",
   "status": "partial",
   "theorems": [
    "c50_read_partial",
    "c50_paths_partial",
    "c50_ends_partial",
    "c50_rounds",
    "c50_header_refuted",
    "c50_header_runs",
    "c50_not_utf8",
    "c50_misread",
    "c50_shape",
    "c50_path_refuted",
    "c50_type_change_refuted"
   ],
   "note": "Every list of well-formed records in UTF-8 whose paths do not begin like another field is read exactly. Any line that gives an entry has the documented words (c50_shape). Refuted: a header makes the loop run for ever, a path beginning with hexadecimal digits and a space loses its first word, a path that is not UTF-8 makes the reading fail, a change of type does not count as a change. The regular expression is modelled by a matcher."
  },
  {
   "property": "C51",
   "status": "partial",
   "theorems": [
    "c51_text",
    "c51_text_exact",
    "c51_number_partial",
    "c51_number_refuted",
    "c51_octal",
    "c51_number_injective"
   ],
   "note": "Text round trip, exactness and octal meaning proved for all modes; number round trip proved except for group-writable files, refuted for those."
  },
  {
   "property": "C52",
   "status": "proved",
   "theorems": [
    "c52_positions_kept",
    "c52_other_events_kept",
    "c52_only_removed",
    "c52_old_values",
    "c52_deletions_dated"
   ],
   "note": "Positions, other events, order and old values of a replayed log against the raw log."
  },
  {
   "property": "C53",
   "status": "proved",
   "theorems": [
    "c53_head"
   ],
   "note": "HEAD at a cursor is the last evidence."
  },
  {
   "property": "C54",
   "status": "proved",
   "theorems": [
    "c54_oid_text",
    "c54_nonzero_text",
    "c54_width",
    "c54_zero_rejected"
   ],
   "note": "Text round trip of object ids; the libgit2 text routines are modelled."
  },
  {
   "property": "C55",
   "status": "partial",
   "theorems": [
    "c55_stack",
    "c55_stack_component_partial",
    "c55_stack_component_refuted"
   ],
   "note": "Exact characterisation proved. The whole-component reading holds when no draft commit has two draft parents and is refuted with a merge commit."
  },
  {
   "property": "C56",
   "status": "partial",
   "theorems": [
    "c56_graph_order",
    "c56_graph_order_complete",
    "c56_comparison_ancestry",
    "c56_comparison_antisymmetric",
    "c56_comparison_transitive_partial",
    "c56_comparison_transitive_refuted"
   ],
   "note": "Order of the graph library proved ancestors first. The tie-breaking comparison respects ancestry and is antisymmetric; transitivity is refuted when commit times tie and proved when times grow along parent links."
  },
  {
   "property": "C57",
   "status": "partial",
   "theorems": [
    "c57_stops_partial",
    "c57_stops_refuted"
   ],
   "note": "Proved when no alias leads back to itself. Refuted in general: an alias that calls itself never stops."
  },
  {
   "property": "C58",
   "status": "proved",
   "theorems": [
    "c58_nothing_before_completion",
    "c58_completion",
    "c58_outside_rebase",
    "c58_drop_if_empty"
   ],
   "note": "For every run of the hooks between the start and the end of a rebase; Git keeping and removing its rebase directory is modelled by two functions."
  },
  {
   "property": "C59",
   "status": "partial",
   "theorems": [
    "c59_report",
    "c59_report_closed_partial",
    "c59_report_closed_refuted"
   ],
   "note": "Every report is a chain ending at a commit already listed. Beginning and end are the same when no commit has two new parents; refuted otherwise (the chain may begin outside the cycle)."
  },
  {
   "property": "C60",
   "status": "partial",
   "theorems": [
    "c60_written_partial",
    "c60_half_written_refuted"
   ],
   "note": "Proved for plans without squashes and replacements. Refuted with squashes: the unsupported step is noticed after part of the state was written."
  },
  {
   "property": "C61",
   "status": "proved",
   "theorems": [
    "c61_marked",
    "c61_halfway"
   ],
   "note": "For every plan carried out in memory; the marks are there even when branches could not be moved afterwards (c61_halfway). The names of new commits are assumed to be 160 bit numbers other than zero."
  },
  {
   "property": "C62",
   "status": "partial",
   "theorems": [
    "c62_unrelated",
    "c62_reuse",
    "c62_reuse_only",
    "c62_full_partial",
    "c62_total",
    "c62_refuted"
   ],
   "note": "Unrelated paths, reuse and success proved; equality with the merge of whole trees when files and directories do not replace each other, refuted otherwise. Merging (libgit2) is a parameter assumed to go file by file."
  },
  {
   "property": "C63",
   "status": "proved",
   "theorems": [
    "c63_detect",
    "c63_none",
    "c63_choose",
    "c63_exists_refuted",
    "c63_aliases",
    "c63_table",
    "c63_aliases_again"
   ],
   "note": "Detection characterised exactly; a branch given or typed by the user need not exist (refuted). Aliases are compared with the default configuration of the user, aliases of the repository are not modelled."
  },
  {
   "property": "C64",
   "status": "partial",
   "theorems": [
    "c64_conflicts",
    "c64_staged",
    "c64_unstaged_partial",
    "c64_type_change_refuted"
   ],
   "note": "Conflicts and staged changes exactly characterised; unstaged changes for ordinary files. Refuted: a file replaced by a link counts as no change."
  },
  {
   "property": "C65",
   "status": "partial",
   "theorems": [
    "c65_head",
    "c65_succeeds",
    "c65_branch_refuted",
    "c65_stopped",
    "c65_stopped_refuted"
   ],
   "note": "Proved for every later state when no command fails. Refuted: commits made on the branch since are dropped from it; after a failure HEAD may be left detached at an internal commit. Effects of the Git commands on references are modelled after their documentation."
  },
  {
   "property": "C66",
   "status": "partial",
   "theorems": [
    "c66_partial",
    "c66_lost",
    "c66_refuted"
   ],
   "note": "Proved if the commit of unstaged changes is reachable from elsewhere. Refuted otherwise: it is not a parent of the snapshot, so collecting garbage makes reopening fail."
  },
  {
   "property": "C67",
   "status": "partial",
   "theorems": [
    "c67_path",
    "c67_unambiguous",
    "c67_followed",
    "c67_newest",
    "c67_oldest",
    "c67_times_branches",
    "c67_times_grow",
    "c67_no_more",
    "c67_ambiguous",
    "c67_cancelled",
    "c67_terminates",
    "c67_all_succeeds",
    "c67_tip",
    "c67_stack_root",
    "c67_public_stays",
    "c67_visible",
    "c67_round_trip",
    "c67_newest_refuted"
   ],
   "note": "Proved for every finite graph and every option. Missing: with --newest or --oldest the date decides only if times fit the graph (always true with --branch); refuted for a merge with a redundant parent and skewed clocks. The order of unrelated candidates is that of a stable sort."
  },
  {
   "property": "C68",
   "status": "partial",
   "theorems": [
    "c68_lands",
    "c68_bad_options",
    "c68_branch",
    "c68_detached",
    "c68_by_branches",
    "c68_stay_refuted",
    "c68_switch_revset",
    "c68_switch_branch_refuted",
    "c68_switch_interactive",
    "c68_switch_text",
    "c68_no_target",
    "c68_no_target_refuted",
    "c68_create",
    "c68_hash_name_refuted"
   ],
   "note": "Proved for every state if no branch is named like a hash (refuted otherwise). Refuted: git next --all at the top of a stack leaves the branch; git switch with a revset does not check out the only branch; git switch without a target does not ask, contrary to its help text. git checkout is modelled by its effect on HEAD and the references; the snapshot restored after a checkout is not part of it."
  },
  {
   "property": "C69",
   "status": "partial",
   "theorems": [
    "c69_terminates",
    "c69_lines",
    "c69_once_partial",
    "c69_head_partial",
    "c69_place_partial",
    "c69_main_partial",
    "c69_lost_refuted",
    "c69_twice_refuted",
    "c69_apart_refuted"
   ],
   "note": "Proved for every graph without merges above the main branch: exactly one line per commit, one line marked as HEAD; with the main branch below all commits also the place of every commit, all numbers, and the order of the main branch. In general: it always terminates, and every line is right about its commit. Refuted with merges: HEAD may not be shown at all, a commit may be shown twice with a wrong number. Refuted apart from the main branch: commits are not placed above their nearest shown ancestor. Glyphs, columns and descriptions of commits are left out; choosing one of several greatest common ancestors is an oracle."
  },
  {
   "property": "C70",
   "status": "partial",
   "theorems": [
    "c70_status",
    "c70_announced",
    "c70_references",
    "c70_head",
    "c70_shown",
    "c70_nothing_left",
    "c70_summary",
    "c70_main_refuted",
    "c70_deleted_refuted",
    "c70_halfway_refuted"
   ],
   "note": "Proved for every graph, log and set of references when the command succeeds. Missing: the main branch. Refuted: git hide of the main branch deletes it if it has no upstream, after which no command can open the repository; with an upstream it is moved but said to be deleted. Refuted: a command that fails while deleting branches leaves the commits hidden. Assumes that the hook can read the names of the branches and that deleted references are not in packed-refs. The set of commits given is a parameter."
  },
  {
   "property": "C71",
   "status": "partial",
   "theorems": [
    "c71_undo",
    "c71_unhide",
    "c71_round_trip",
    "c71_head_refuted",
    "c71_no_effect_refuted",
    "c71_unhide_refuted"
   ],
   "note": "Proved: undo restores every reference and shows every hidden commit; unhide is exact; everything shown before hide -r is shown again after unhide -r. Refuted: HEAD stays detached after undo; undo shows a commit that git hide said was hidden already, with no effect; unhide -r also shows commits hidden earlier and brings no branches back."
  },
  {
   "property": "C72",
   "status": "partial",
   "theorems": [
    "c72_dry",
    "c72_repaired",
    "c72_report",
    "c72_again",
    "c72_again_refuted",
    "c72_elsewhere_refuted",
    "c72_dry_refuted"
   ],
   "note": "Proved for every log and repository with a main branch: missing commits hidden, no branch on record that does not exist, nothing else changed, no broken branch found a second time, dry run without effect, the report is complete. Refuted: every run reports the missing commits again and adds events; a branch that is elsewhere than the log says is not repaired; a dry run says it has repaired."
  },
  {
   "property": "C73",
   "status": "partial",
   "theorems": [
    "c73_moved",
    "c73_recorded",
    "c73_head",
    "c73_none_left",
    "c73_nothing",
    "c73_again",
    "c73_stopped",
    "c73_dropped_refuted",
    "c73_merge_refuted"
   ],
   "note": "Proved for every graph and log in which the rewritten parents have a newest version and no abandoned commit is a merge: exactly the commits at or above abandoned ones are moved, each onto the newest version of its parent; none is left abandoned; a second run does nothing; HEAD stays on its branch, or at what stands for its commit. Refuted otherwise: when the parent was dropped the commit is copied onto the same parent and stays abandoned; an abandoned merge is merged again with the old version of its parent. The result of picking a commit, conflicts and the rebase on disk are parameters."
  },
  {
   "property": "C74",
   "status": "partial",
   "theorems": [
    "c74_branches",
    "c74_alone",
    "c74_halfway",
    "c74_head_refuted"
   ],
   "note": "Proved for every set of references and log, also when a write fails halfway. Refuted: the part that moves branches moves the branch of HEAD without a check-out, so that the working copy seems to undo the change. The table of branches is assumed to list the local branches, in any order."
  },
  {
   "property": "C75",
   "status": "partial",
   "theorems": [
    "c75_stacks",
    "c75_moved",
    "c75_recorded",
    "c75_branches",
    "c75_head",
    "c75_others",
    "c75_runs",
    "c75_again",
    "c75_exit_refuted",
    "c75_replaced_refuted",
    "c75_merge_refuted"
   ],
   "note": "Proved for every graph and log in which no stack starts with a merge, for rebases in memory: which stacks are moved, reported and left alone, every commit made, branches, HEAD, the log, and that a second run changes nothing. Refuted: the exit code is zero although a stack could not be moved; a commit that was replaced but has commits left on it is brought back beside its replacement; stacks joined by a merge are never moved. Resolving revsets, git fetch and the rebase on disk are not part of it."
  },
  {
   "property": "C76",
   "status": "partial",
   "theorems": [
    "c76_forwarded",
    "c76_untracked",
    "c76_moved",
    "c76_runs",
    "c76_several",
    "c76_then",
    "c76_recorded_refuted",
    "c76_lost_refuted",
    "c76_synced_refuted",
    "c76_dirty_refuted"
   ],
   "note": "Proved for every graph when the main branch has nothing of its own or its own commits start in one place that is no merge. Refuted: if they start in several places it says it is syncing, does nothing and succeeds; if the last commit is dropped the branch loses the ones before it; forwarding the branch is not recorded, so cannot be undone; if the working copy has changes, a main branch that is checked out and up to date keeps the stacks from being synced. git rebase for a main branch that is checked out is a parameter."
  },
  {
   "property": "C77",
   "status": "partial",
   "theorems": [
    "c77_moved",
    "c77_ends",
    "c77_refused",
    "c77_hidden_refuted"
   ],
   "note": "Proved for every graph, log and choice of commits that are shown and not merges, for rebases in memory: which commits are made again and on what, branches, HEAD, the log, when it succeeds and what is reported otherwise. Refuted: a destination that is hidden and above a commit to be moved is accepted, and the new version is put on top of the old one. Resolving revsets, hints and the rebase on disk are not part of it."
  },
  {
   "property": "C78",
   "status": "proved",
   "theorems": [
    "c78_head",
    "c78_whole"
   ],
   "note": "For every graph without merges in the branch beyond the destination."
  },
  {
   "property": "C79",
   "status": "proved",
   "theorems": [
    "c79_moved",
    "c79_ends",
    "c79_refused"
   ],
   "note": "For every graph without merges above the commits given and rebases in memory. That it succeeds assumes that commits are sorted with ancestors first; otherwise it may refuse, changing nothing."
  },
  {
   "property": "C80",
   "status": "partial",
   "theorems": [
    "c80_public_partial",
    "c80_fixup_refuted"
   ],
   "note": "Proved for all arguments without --fixup. Refuted with --fixup: squashing into a commit of the main branch rewrites it, as the destination is not checked. For rebases in memory."
  },
  {
   "property": "C81",
   "status": "partial",
   "theorems": [
    "c81_inserted",
    "c81_ends",
    "c81_refused",
    "c81_many_tops",
    "c81_hidden_refuted",
    "c81_exact_refuted"
   ],
   "note": "Proved for --source and --base, for every graph and log without merges above what is moved or makes way, for rebases in memory. Refuted: hidden commits count as the last ones, so what makes way may land on a hidden commit of the old stack; with --exact and a commit that is on the destination already, its child becomes a sibling."
  },
  {
   "property": "C82",
   "status": "partial",
   "theorems": [
    "c82_squashed",
    "c82_ends",
    "c82_refused",
    "c82_hidden_refuted",
    "c82_left_refuted"
   ],
   "note": "Proved for commits given with --exact and with --source or --base, for every graph and log without merges among or above them, where the destination is shown and has a parent and is not above a commit given, for rebases in memory. That it succeeds, and the order of the changes, assume that commits are sorted with ancestors first. Refuted: hidden commits above one given with --source are squashed as well; when nothing is left of the changes together, the destination is dropped but the commits given stay as they are. The destination may be a public commit (C80)."
  },
  {
   "property": "C83",
   "status": "proved",
   "theorems": [
    "c83_refused",
    "c83_reason"
   ],
   "note": "For every graph, with or without merges. That the reason given is the case assumes that commits are sorted with ancestors first. That what is moved with --insert does not end in one commit is shown to be refused if there are no merges between the destination and commits given with --base."
  },
  {
   "property": "C84",
   "status": "proved",
   "theorems": [
    "c84_amended",
    "c84_through"
   ],
   "note": "For every graph, log and set of references, for restacking in memory, if the new commit has a name not known before and Git takes the short name of the branch for the branch."
  },
  {
   "property": "C85",
   "status": "partial",
   "theorems": [
    "c85_reparented_partial",
    "c85_merge_refuted"
   ],
   "note": "Proved but for merges that HEAD is a parent of. Refuted for those: they are made again on top of the old commit, which stays their parent."
  },
  {
   "property": "C86",
   "status": "partial",
   "theorems": [
    "c86_refused",
    "c86_index_partial",
    "c86_working_copy_partial",
    "c86_tag_refuted"
   ],
   "note": "When it is refused is proved in full. The contents are proved as far as C38 goes. Refuted: if there is a tag with the name of the branch of HEAD, the branch is put where the tag is, and the new commit is on no branch."
  },
  {
   "property": "C87",
   "status": "partial",
   "theorems": [
    "c87_only",
    "c87_no_create",
    "c87_dry",
    "c87_here",
    "c87_overwrite_refuted"
   ],
   "note": "Proved for all remotes, settings and interference, but for the last sentence, which is refuted: submit fetches right before pushing with --force-with-lease, so the lease is checked against commits never seen here and these are discarded."
  },
  {
   "property": "C88",
   "status": "partial",
   "theorems": [
    "c88_reported",
    "c88_pushed_partial",
    "c88_again_partial",
    "c88_local_refuted",
    "c88_shared_refuted",
    "c88_tracking_main_refuted"
   ],
   "note": "What is reported is proved in full. That it was pushed is proved for upstreams at a remote, and that doing it again changes nothing for upstreams of the same name. Refuted: a branch with a local branch as its upstream is reported as updated each time and pushed nowhere; of two branches at a commit neither is pushed nor mentioned; with a branch that tracks a remote branch of another name everything fails."
  },
  {
   "property": "C89",
   "status": "partial",
   "theorems": [
    "c89_here",
    "c89_create",
    "c89_detach_partial",
    "c89_stash_partial",
    "c89_refused",
    "c89_no_commit",
    "c89_created_refuted",
    "c89_stash_refuted",
    "c89_first_refuted",
    "c89_merge_refuted"
   ],
   "note": "Proved for every repository in which the branch of HEAD is a local one; for --detach and --stash if HEAD is at a commit and no merge is being finished, and for --stash if HEAD is on a branch. Refuted otherwise: with --stash and HEAD on no branch HEAD stays at the new commit; after the first commit of all with --detach HEAD is at no commit; finishing a merge with --detach makes the commit, moves the branch and fails. Refuted: with --create and --interactive while changes are staged it is refused after the branch was made and switched to."
  },
  {
   "property": "C90",
   "status": "partial",
   "theorems": [
    "c90_before",
    "c90_inserted_partial",
    "c90_ends_partial",
    "c90_not_below",
    "c90_stash_refuted",
    "c90_cycle_refuted"
   ],
   "note": "Proved for every graph, log and set of references if no sibling is a merge, nor below the new commit (which can only be when that is a merge). Refuted: with --stash the siblings of the previous commit are moved onto it and the new commit is not inserted; finishing a merge of a branch above HEAD ends with the message that a cycle, which should not be possible, was detected."
  },
  {
   "property": "C91",
   "status": "proved",
   "theorems": [
    "c91_fixed",
    "c91_otherwise",
    "c91_through",
    "c91_public",
    "c91_dry_run",
    "c91_root_refuted",
    "c91_signed_refuted"
   ],
   "note": "For every graph, log, set of references and results of the tests, one for each commit tested. Refuted beyond the statement: a root commit that the command changes makes git test fix panic; a commit with a signature is rewritten although the command changes nothing."
  },
  {
   "property": "C92",
   "status": "partial",
   "theorems": [
    "c92_kept",
    "c92_same_command",
    "c92_not_again",
    "c92_run",
    "c92_reports",
    "c92_unfinished",
    "c92_no_cache",
    "c92_clean",
    "c92_show",
    "c92_slug_refuted"
   ],
   "note": "Proved for every history of runs, runs cut short, cleanings and lookings, but results are found by the name of a directory made from the command: refuted, commands that differ only in a space or slash share results (they are told apart if neither has any). A result cut short while written is reported as an error until cleaned."
  },
  {
   "property": "C93",
   "status": "partial",
   "theorems": [
    "c93_options",
    "c93_refused",
    "c93_working_copy_partial",
    "c93_working_copy_refuted"
   ],
   "note": "Proved but for the last sentence, which holds if a strategy or a number of jobs is given, none is configured or the test is interactive. Refuted: with jobs set in the configuration only, tests run in the working copy with several jobs."
  },
  {
   "property": "C94",
   "status": "partial",
   "theorems": [
    "c94_quoted_partial",
    "c94_otherwise",
    "c94_backslash",
    "c94_refuted"
   ],
   "note": "Proved for revsets without backslash, dollar and backquote, and shown to fail for all others. Refuted with the pattern a\\.: backslashes are doubled once too often."
  },
  {
   "property": "C95",
   "status": "partial",
   "theorems": [
    "c95_farthest",
    "c95_base_partial",
    "c95_if_oldest_first",
    "c95_nearest_refuted"
   ],
   "note": "Refuted for three or more: the base is the branch of the farthest commit below that has a pull request, which is proved in general (c95_farthest). As stated it holds if at most one commit below has a pull request, and would hold if the graph library gave parents first. Each commit beyond the main branch is assumed to have at most one branch, pushed under its own name."
  },
  {
   "property": "C96",
   "status": "proved",
   "theorems": [
    "c96_text",
    "c96_numbers"
   ],
   "note": "For every graph, set of references and pull requests in which each commit beyond the main branch has at most one branch, pushed under its own name."
  },
  {
   "property": "C97",
   "status": "proved",
   "theorems": [
    "c97_updates",
    "c97_only",
    "c97_again",
    "c97_dry_run"
   ],
   "note": "For every graph, set of references and pull requests in which each commit beyond the main branch has at most one branch, pushed under its own name, without --create; for that see C99. Nobody else changes the repository meanwhile."
  },
  {
   "property": "C98",
   "status": "proved",
   "theorems": [
    "c98_slug",
    "c98_name"
   ],
   "note": "For every summary, if a hyphen is not alphanumeric and is its own lower case; which characters are alphanumeric is a parameter."
  },
  {
   "property": "C99",
   "status": "partial",
   "theorems": [
    "c99_created",
    "c99_only",
    "c99_told_refuted",
    "c99_one_refuted",
    "c99_remote_refuted"
   ],
   "note": "Proved as in C97, if new branches go to the remote that GitHub is at and existing requests are for branches here. Refuted: requests that were up to date before are not told of new ones in their stack, so that submitting again updates them; a commit with two branches may get a second request; if it fails new branches stay."
  },
  {
   "property": "C100",
   "status": "partial",
   "theorems": [
    "c100_reworded",
    "c100_empty_refuted"
   ],
   "note": "Proved for every graph, log and set of references, also with merges elsewhere; that nothing but messages changes if applying a commit to what has the contents of its parent gives its own contents. Refuted: a commit above that has the contents of its parent is dropped, as if it had become empty (all others are kept)."
  },
  {
   "property": "C101",
   "status": "partial",
   "theorems": [
    "c101_no_conflict",
    "c101_through",
    "c101_merge",
    "c101_merge_refuted"
   ],
   "note": "Proved if there is no merge above the commits given. Refuted with one: it always ends with a message that this is a bug."
  },
  {
   "property": "C102",
   "status": "partial",
   "theorems": [
    "c102_otherwise",
    "c102_refused",
    "c102_public",
    "c102_root_refuted"
   ],
   "note": "Proved for every graph, log, set of references and messages, if the database and Git do their part. Refuted: rewording a root commit panics, after a commit with the new message has been made."
  },
  {
   "property": "C103",
   "status": "proved",
   "theorems": [
    "c103_link",
    "c103_one",
    "c103_none",
    "c103_first"
   ],
   "note": "For every message that is valid UTF-8."
  },
  {
   "property": "C104",
   "status": "partial",
   "theorems": [
    "c104_status",
    "c104_all",
    "c104_updated",
    "c104_through",
    "c104_cycle_refuted",
    "c104_ignored_refuted"
   ],
   "note": "Proved for every graph, log, set of references and revisions, with what arc diff does as a hypothesis; that it succeeds if parents with a known revision are to be updated as well. Refuted without: after two commits were swapped, updating only the upper one ends half way, as the server refuses the cycle. Refuted: an answer of the server is not read, so that a dependency that was not set counts as set."
  },
  {
   "property": "C105",
   "status": "partial",
   "theorems": [
    "c105_created",
    "c105_otherwise",
    "c105_between_refuted",
    "c105_stale_refuted",
    "c105_orphan_refuted",
    "c105_again_refuted"
   ],
   "note": "Proved for every graph, log, set of references and revisions, with what arc diff does as a hypothesis; dependencies if no commit given is on top of one that is rewritten but not given. Refuted: revisions of commits between are not depended on; a commit to be updated that is above a new one is updated as it was before it was rewritten, and depends on nothing; right after creating all new revisions are out of date; if an upload fails, the revisions made before it stay and no commit links to them."
  },
  {
   "property": "C106",
   "status": "partial",
   "theorems": [
    "c106_silent",
    "c106_dry_run",
    "c106_told_refuted"
   ],
   "note": "New revisions are reported and --dry-run changes nothing. Refuted for the rest: nothing is ever reported of commits updated, skipped or left out, nor with --dry-run."
  },
  {
   "property": "C107",
   "status": "proved",
   "theorems": [
    "c107_dependencies",
    "c107_updated"
   ],
   "note": "For every set of commits with revisions of their own."
  },
  {
   "property": "C108",
   "status": "partial",
   "theorems": [
    "c108_left_out",
    "c108_amended_kept",
    "c108_exact",
    "c108_upstream",
    "c108_straight",
    "c108_move",
    "c108_reapplied_refuted",
    "c108_amended_refuted",
    "c108_side_refuted"
   ],
   "note": "A commit is left out exactly if one between the merge base and the destination has its patch (paths telling the same). False as stated: the merge base itself counts (c108_reapplied_refuted: revert and reapply, the second is lost), an amended commit that repeats its parent is dropped (c108_amended_refuted), and commits merged upstream from below the merge base are not looked at (c108_side_refuted)."
  },
  {
   "property": "C109",
   "status": "proved",
   "theorems": [
    "c109_cache",
    "c109_off",
    "c109_once"
   ],
   "note": "For every cache that holds what would be found."
  },
  {
   "property": "C110",
   "status": "partial",
   "theorems": [
    "c110_not_told",
    "c110_no_slash_refuted",
    "c110_head_refuted"
   ],
   "note": "Noninterference for every renaming of private references and texts of the same shape, with the same transactions and order of commits. False of references without a slash, which are shown as they are (c110_no_slash_refuted), and of a branch checked out that is called like a replacement (c110_head_refuted)."
  },
  {
   "property": "C111",
   "status": "partial",
   "theorems": [
    "c111_one_naming",
    "c111_apart",
    "c111_clash_refuted",
    "c111_mark_refuted"
   ],
   "note": "One naming for the whole report, injective on what is private; always made. Refuted: a main branch called like a replacement is not told apart from a private one (c111_clash_refuted), and the branch checked out loses its mark when its name is replaced (c111_mark_refuted)."
  },
  {
   "property": "C112",
   "status": "proved",
   "theorems": [
    "c112_said",
    "c112_age_unique",
    "c112_explained"
   ],
   "note": "Without redaction, for every log and place in it."
  },
  {
   "property": "C113",
   "status": "partial",
   "theorems": [
    "c113_on_disk_partial",
    "c113_subtrees",
    "c113_moved_merge_refuted"
   ],
   "note": "Proved for every plannable request without squashing (refused on disk) and without amended commits; for any number of subtrees moved at once in full. Git itself is modelled after its documentation. Refuted for a merge that is itself asked to be moved: it is made again on top of the parents it had (c113_moved_merge_refuted)."
  },
  {
   "property": "C114",
   "status": "partial",
   "theorems": [
    "c114_end_partial"
   ],
   "note": "Proved for the requests of C113, given that the references can be written. Going on after a conflict is C122."
  },
  {
   "property": "C115",
   "status": "partial",
   "theorems": [
    "c115_same_commits_partial",
    "c115_same_end_partial",
    "c115_reused_refuted"
   ],
   "note": "A simulation of the two, for every plannable request without squashing (refused on disk) and without amended commits. In memory no merges are remade, so nothing is asked of those. If Git reuses commits which are in place already, the results differ: they are remade in memory (c115_reused_refuted)."
  },
  {
   "property": "C116",
   "status": "proved",
   "theorems": [
    "c116_commits",
    "c116_described",
    "c116_branches",
    "c116_answered",
    "c116_refused"
   ],
   "note": "End to end from the text of the revset (C21, C22). Of the commits in the graph; the program adds those that are named. That the sort of the graph library puts ancestors first is part of the model of the graph."
  },
  {
   "property": "C117",
   "status": "partial",
   "theorems": [
    "c117_attempt_first",
    "c117_options_partial"
   ],
   "note": "The first half for every list of commands, planned or not, and every outcome but errors of Git itself, in a repository where the parents of commits are there. The second for the requests of C115, given that references can be written."
  },
  {
   "property": "C118",
   "status": "partial",
   "theorems": [
    "c118_one_transaction",
    "c118_undone_in_one_step",
    "c118_nested",
    "c118_meanwhile_refuted"
   ],
   "note": "Proved if nothing else is recorded meanwhile. If the user runs something else at the same time, the steps are mixed up (c118_meanwhile_refuted)."
  },
  {
   "property": "C119",
   "status": "partial",
   "theorems": [
    "c119_not_done",
    "c119_done_partial",
    "c119_reparent_refuted"
   ],
   "note": "Success for the requests of C114, given that the hooks can write references (Git does not look at their result). False with replacements: git amend --reparent --on-disk hands Git a shell command which makes a commit that is forgotten; the commits above stay where they were, HEAD loses its branch, and success is reported (c119_reparent_refuted). Files with changes are those which git diff sees: for staged changes see C124. A comment in the code says of merges that no command gets there."
  },
  {
   "property": "C120",
   "status": "proved",
   "theorems": [
    "c120_says",
    "c120_left",
    "c120_restack",
    "c120_underway"
   ],
   "note": "The commits counted are those directly on a rewritten one, not those above them (c120_example_number: one commit is announced, git restack moves two)."
  },
  {
   "property": "C121",
   "status": "partial",
   "theorems": [
    "c121_clean",
    "c121_back_partial",
    "c121_failed",
    "c121_unborn",
    "c121_not_discarded",
    "c121_forgotten_refuted"
   ],
   "note": "The commit left by create is proved clean; what comes back is as in C40, here without the condition that nothing took the place of missing files, and with untracked files. False for a file taken out of the index with git rm --cached: it is overwritten with the version of HEAD, and its contents are lost (c121_forgotten_refuted); links, changes of kind and some conflicts are as in C40. That the snapshot is found again by the name printed is C39."
  },
  {
   "property": "C122",
   "status": "partial",
   "theorems": [
    "c122_resolved",
    "c122_skipped",
    "c122_skip_refuted"
   ],
   "note": "Resolving is proved for the requests of C114, for conflicts of commits that are not merges. Skipping is proved harmless where HEAD is at a commit that is not empty; false where it is empty: the hook takes the commit at HEAD for what is left of the skipped one, drops it and deletes its branches (c122_skip_refuted). Whether Git notes a skipped commit as rewritten is left open."
  },
  {
   "property": "C123",
   "status": "partial",
   "theorems": [
    "c123_shown",
    "c123_chosen",
    "c123_restored",
    "c123_quit",
    "c123_steps_partial",
    "c123_back_and_on",
    "c123_number_partial",
    "c123_line",
    "c123_number_refuted",
    "c123_next_refuted"
   ],
   "note": "False of the number: it is that of the first event of the transaction, so going to it leads to a state in the middle of the transaction if it had more than one, which is described by the same line (c123_number_refuted); the number of the last event leads back (c123_number_partial). From the middle of a transaction, the key for the next state skips one (c123_next_refuted); without going to events by number every step is right (c123_steps_partial, c123_back_and_on). The smartlog on the screen is that of the cursor (C69)."
  },
  {
   "property": "C124",
   "status": "partial",
   "theorems": [
    "c124_interrupted",
    "c124_back",
    "c124_meanwhile",
    "c124_others_partial",
    "c124_refused",
    "c124_only_clean",
    "c124_break",
    "c124_untracked_refuted",
    "c124_staged_refuted"
   ],
   "note": "Git is modelled by what reset --hard and rebase --abort do; commands are taken not to move references themselves. False for an untracked file that a tested commit has: it is overwritten and then removed (c124_untracked_refuted). False for staged changes: the check is git diff --quiet, which does not see them, so HEAD is detached and a rebase left in progress before Git refuses, and aborting it loses the changes (c124_staged_refuted). Other untracked files stay (c124_others_partial)."
  },
  {
   "property": "C125",
   "status": "partial",
   "theorems": [
    "c125_link_partial",
    "c125_hook",
    "c125_arguments",
    "c125_plan",
    "c125_hook_link_refuted"
   ],
   "note": "On Unix; parsing of arguments after this is clap and not modelled. False for links to hooks: for git-branchless-hook-X the name as called is looked at a second time, not the command made of it, so it becomes the command hook-X which does not exist, against the comment in the code (c125_hook_link_refuted)."
  },
  {
   "property": "C126",
   "status": "partial",
   "theorems": [
    "c126_full_partial",
    "c126_short_partial",
    "c126_most",
    "c126_told",
    "c126_mark",
    "c126_changes",
    "c126_says_changes",
    "c126_nothing_refuted",
    "c126_bytes_refuted",
    "c126_bytes"
   ],
   "note": "Styles and the description of the commit are not modelled. False of a command that printed nothing, which is shown like one that printed the text <no output> (c126_nothing_refuted), and of output that is not UTF-8, of which nothing is shown whatever the flags, as if the file could not be opened (c126_bytes_refuted, c126_bytes). For lines without carriage returns."
  },
  {
   "property": "C127",
   "status": "partial",
   "theorems": [
    "c127_announced",
    "c127_command",
    "c127_numbers",
    "c127_confirm",
    "c127_not_confirmed",
    "c127_rewritten_refuted"
   ],
   "note": "Descriptions of commits are a parameter, assumed to tell commits apart and not to begin like that of a reference; names of references have no spaces. False of one thing that is recorded: hiding a commit that was abandoned in a rewrite is announced like hiding it by hand, but only in the first case is it rewritten to nothing afterwards (c127_rewritten_refuted). The final checkout is Git."
  },
  {
   "property": "C128",
   "status": "partial",
   "theorems": [
    "c128_advice_partial",
    "c128_good",
    "c128_advice_refuted",
    "c128_others",
    "c128_run"
   ],
   "note": "The advice works for names that can be last in a key of Git (c128_advice_partial, c128_good); for others, such as my_test, it is shown but Git refuses the key (c128_advice_refuted). Names that differ only in case after the last dot are the same name (c128_others). How Git and libgit2 read keys is written from their documentation. The list of names shown below the advice and the shell that reads the advice are not modelled."
  },
  {
   "property": "C129",
   "status": "partial",
   "theorems": [
    "c129_shown_partial",
    "c129_text_partial",
    "c129_fails",
    "c129_escape_refuted",
    "c129_build"
   ],
   "note": "For text without escape characters (c129_shown_partial, c129_text_partial); text that has them, such as the message of a commit, is written as it is and changes how what follows looks (c129_escape_refuted). Palette and RGB colours and strikethrough make writing fail (c129_fails). Background colours, which are never used, are not modelled; the crates console and cursive are written from their documentation, the terminal from ECMA-48."
  },
  {
   "property": "C130",
   "status": "partial",
   "theorems": [
    "c130_unchanged",
    "c130_text",
    "c130_colon",
    "c130_failed_refuted",
    "c130_empty_refuted"
   ],
   "note": "All but the last sentence, which is false: the exit code of the editor is not looked at and what it left is used (c130_failed_refuted). If the editor is set to nothing then the command panics (c130_empty_refuted). The splitting of the command into words and the editor are parameters; Windows and temporary files that cannot be made are not modelled."
  }
 ]
}
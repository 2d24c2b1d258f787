{"id": "C01", "title": "Event log storage round-trip", "statement": "Appending a batch of events to the event log and reading the log back yields exactly the previously stored events followed by the batch, in order and with every field intact, except that events whose transaction is suppressed are never stored. If any event of the batch cannot be stored, nothing of the batch is stored.", "quantifier": "every sequence of append operations over every list of events of all six kinds, with any ids, reference names, optional messages and transaction ids, and any point at which a batch fails", "why_tests_cant": "Tests store a handful of events; the claim is about every mixture of event kinds, optional fields and suppressed transactions, and about failure at every position inside a batch.", "anchors": ["git-branchless-lib/src/core/eventlog.rs: Row, TryFrom<Event> for Row, try_from_row_helper, EventLogDb::add_events, EventLogDb::get_events"]}
{"id": "C02", "title": "Transaction identifiers are fresh and survive nesting", "statement": "Every top-level operation receives a transaction id different from every id handed out earlier (and from any id that appears in the stored log); a nested invocation that inherits a well-formed id through the environment reuses exactly that id, and printing then parsing a transaction id gives the same id back.", "quantifier": "every history of top-level and nested transaction creations and of event appends, and every transaction id", "why_tests_cant": "Uniqueness is over unboundedly long histories mixing nested and top-level invocations.", "anchors": ["git-branchless-lib/src/core/eventlog.rs: EventTransactionId Display/FromStr, EventLogDb::make_transaction_id_inner"]}
{"id": "C03", "title": "Commit visibility is decided by the latest event that mentions the commit", "statement": "At any cursor position, a commit is reported active if the last event before the cursor that concerns it made it visible (created, unhidden, or being the new version of a rewrite), obsolete if the last such event hid it or rewrote it away, and inactive exactly when no event before the cursor concerns it.", "quantifier": "every event log, every cursor and every commit", "why_tests_cant": "Unit tests cover short hand-written logs; the claim ranges over all interleavings of rewrites, hides and unhides of the same commits.", "anchors": ["git-branchless-lib/src/core/eventlog.rs: EventReplayer::process_event, EventReplayer::get_cursor_commit_activity_status, EventReplayer::get_cursor_commit_latest_event"]}
{"id": "C04", "title": "The past is immutable: later events never change answers at an earlier cursor", "statement": "Every query about the repository at a cursor (commit status, latest event of a commit, set of known commits, HEAD, branch locations, transaction segment) gives the same answer after any further events are appended to the log.", "quantifier": "every log, every continuation of the log, every cursor within the original log, every commit and branch", "why_tests_cant": "The claim compares two unboundedly long histories at every cursor.", "anchors": ["git-branchless-lib/src/core/eventlog.rs: EventReplayer, get_cursor_oids, get_cursor_head_oid, get_cursor_branch_oid_to_names, get_tx_events_before_cursor"]}
{"id": "C05", "title": "Cursor arithmetic stays within the log", "statement": "Constructing or advancing a cursor by any signed amount always yields a position between the start and the end of the log; within range it moves by exactly the amount asked for.", "quantifier": "every log and every signed offset, including far out of range", "why_tests_cant": "Clamping must hold for all integers, not the few offsets a test picks.", "anchors": ["git-branchless-lib/src/core/eventlog.rs: EventReplayer::make_cursor, EventReplayer::advance_cursor, EventReplayer::make_default_cursor"]}
{"id": "C06", "title": "Stepping through history by transaction moves over whole transactions", "statement": "Moving a cursor by transactions always lands on a transaction boundary, never splits a transaction; moving by one forwards (backwards) skips exactly the next (previous) maximal run of events with equal transaction id; going forward and back returns to the same boundary; at the ends of the log it stays put.", "quantifier": "every log, every cursor and every signed number of transactions", "why_tests_cant": "Runs of equal ids of every length, at every position, and every step count including past the ends.", "anchors": ["git-branchless-lib/src/core/eventlog.rs: EventReplayer::advance_cursor_by_transaction, snap_to_transaction_boundary"]}
{"id": "C07", "title": "The latest-transaction view is exactly the last transaction", "statement": "Asking for the events of the transaction just before a cursor returns the cursor of the first event of that transaction and exactly the contiguous events of that transaction up to the cursor; it returns nothing exactly at the start of the log.", "quantifier": "every log and every cursor", "why_tests_cant": "The segment must be maximal and exact for every log.", "anchors": ["git-branchless-lib/src/core/eventlog.rs: EventReplayer::get_tx_events_before_cursor, get_event_before_cursor, get_events_since_cursor"]}
{"id": "C08", "title": "Historical branch locations equal replaying the reference updates", "statement": "The branch table reported at a cursor contains a branch at a commit exactly when the last reference update of that branch before the cursor set it to that commit (deletions remove it), apart from the main branch which is reported at its separately computed position; references private to the tool or transient in Git never appear.", "quantifier": "every log, every cursor and every branch name", "why_tests_cant": "Moves, deletions and re-creations of many branches in any order.", "anchors": ["git-branchless-lib/src/core/eventlog.rs: EventReplayer::get_cursor_branch_oid_to_names, get_cursor_branch_oid, get_cursor_head_oid, should_ignore_ref_updates"]}
{"id": "C09", "title": "Historical location of the main branch respects deletion and renames", "statement": "The position reported for the main branch at a cursor is the target of the last update of that branch before the cursor, and no position is reported from before a deletion.", "quantifier": "every log and every cursor", "why_tests_cant": "Needs histories in which the branch is deleted and recreated arbitrarily often.", "anchors": ["git-branchless-lib/src/core/eventlog.rs: EventReplayer::get_cursor_branch_oid, get_cursor_main_branch_oid"]}
{"id": "C10", "title": "Undo restores every reference", "statement": "For any history in which each reference update records the true previous value, applying the undo of all events after a cursor brings every reference (branches, tags, HEAD target for checkout) back to its value at the cursor, and touches no reference that did not change since.", "quantifier": "every well-formed reference history, every cursor, every reference", "why_tests_cant": "The number and interleaving of updates to several references since the cursor is unbounded.", "anchors": ["git-branchless-undo/src/lib.rs: inverse_event, undo_events, extract_checkout_target", "git-branchless-lib/src/core/eventlog.rs: get_events_since_cursor"]}
{"id": "C11", "title": "Undo restores commit visibility", "statement": "After undoing all events since a cursor, each commit that was known at the cursor has the same visibility (visible or hidden) as it had at the cursor, and a commit created since the cursor is hidden.", "quantifier": "every history and every cursor", "why_tests_cant": "Status depends on the last event of each commit among arbitrarily many interleaved rewrites, hides, unhides and commits.", "anchors": ["git-branchless-undo/src/lib.rs: inverse_event, undo_events", "git-branchless-lib/src/core/eventlog.rs: process_event"]}
{"id": "C12", "title": "Undo is undoable", "statement": "Inverting an event twice gives the original event back (with commit creation becoming an unhide of the same commit), and undoing an undo restores all reference values.", "quantifier": "every event and every well-formed reference history", "why_tests_cant": "All event kinds and all zero/non-zero combinations.", "anchors": ["git-branchless-undo/src/lib.rs: inverse_event"]}
{"id": "C13", "title": "Garbage collection only drops hidden commits", "statement": "Garbage collection deletes a keep-alive reference exactly when the event log says its commit is obsolete; it never touches a reference outside the tool's namespace, nor one whose commit is visible or unknown to the log, and running it again deletes nothing more.", "quantifier": "every set of references, every log and cursor", "why_tests_cant": "Any combination of references and statuses; data loss is unrecoverable so one missed case matters.", "anchors": ["git-branchless-lib/src/core/gc.rs: find_dangling_references, gc, mark_commit_reachable", "git-branchless-lib/src/core/eventlog.rs: is_gc_ref"]}
{"id": "C14", "title": "Following rewrites always terminates at the newest version", "statement": "Looking up what a commit was rewritten into follows the chain of rewrites to its end, for every history (even cyclic rewrites A→B→A), always terminates, never answers with the commit itself, and answers 'none' exactly when the commit was not rewritten, 'deleted' when the chain ends in a deletion.", "quantifier": "every event log, every cursor and every commit", "why_tests_cant": "Chains of unbounded length and cyclic rewrite histories.", "anchors": ["git-branchless-lib/src/core/rewrite/evolve.rs: find_rewrite_target"]}
{"id": "C15", "title": "Abandoned children are exactly the visible children of rewritten commits", "statement": "Children are reported abandoned for a commit exactly when the commit was rewritten or deleted by a rewrite; the reported children are exactly its visible children that are not themselves obsolete; the reported destination is the final version of the commit, or the commit itself if the chain of rewrites ends in a deletion.", "quantifier": "every event log and commit graph", "why_tests_cant": "Every combination of graph shape and statuses.", "anchors": ["git-branchless-lib/src/core/rewrite/evolve.rs: find_abandoned_children"]}
{"id": "C16", "title": "Reference-transaction hook records real net changes", "statement": "For every committed reference transaction, the hook records one event per well-formed line about a non-ignored reference and nothing else; malformed lines are dropped without affecting the others; packing references (which Git reports as a creation and a deletion) is never recorded as a change of any reference's location.", "quantifier": "every transaction text, every packed-refs file", "why_tests_cant": "Every mixture of malformed lines, ignored refs and packed refs.", "anchors": ["git-branchless-hook/src/lib.rs: parse_reference_transaction_line, fix_packed_reference_oid, hook_reference_transaction, parse_packed_refs_line, read_packed_refs_file"]}
{"id": "C17", "title": "Deferred rewrite list survives the round trip through disk", "statement": "The list of old/new commit pairs written during a rebase is read back unchanged, and a skipped commit recorded during the rebase is reported exactly once as deleted.", "quantifier": "every list of pairs", "why_tests_cant": "Any length, zero ids and repeated commits.", "anchors": ["git-branchless-lib/src/core/rewrite/rewrite_hooks.rs: write_rewritten_list, read_rewritten_list, add_rewritten_list_entries"]}
{"id": "C18", "title": "Draft and public commits partition the visible commits", "statement": "Commits are public exactly when they are ancestors of the main branch (or main branch itself); the draft set is exactly the visible commits that are not public, and no commit outside the ancestry of a visible head is ever listed.", "quantifier": "every commit graph, main branch position, branch set, log", "why_tests_cant": "Every DAG shape including merges and disconnected roots.", "anchors": ["git-branchless-lib/src/core/dag.rs: is_public_commit, query_visible_heads, query_visible_commits_slow, query_draft_commits, filter_visible_commits"]}
{"id": "C19", "title": "Connected components partition the given commits", "statement": "Splitting a set of commits into connected components returns disjoint, non-empty sets whose union is the given set; two commits in the set joined by a parent link within the set are in the same component and commits in one component are joined by a path of such links.", "quantifier": "every commit graph and subset", "why_tests_cant": "All graph shapes.", "anchors": ["git-branchless-lib/src/core/dag.rs: get_connected_components"]}
{"id": "C20", "title": "Revset functions only ever return visible commits", "statement": "Evaluating any revset function call yields only commits that are visible (or ancestors of visible commits); hidden commits are reachable only by naming them directly.", "quantifier": "every expression, every commit graph, alias table and visibility assignment", "why_tests_cant": "Expressions nest arbitrarily deeply.", "anchors": ["git-branchless-revset/src/eval.rs: eval_inner, eval_fn", "git-branchless-revset/src/builtins.rs"]}
{"id": "C21", "title": "Revset operators mean what the documentation says", "statement": "Union, intersection, difference, complement, range, parents, children, ancestors, descendants, roots, heads, siblings, nth-ancestor, only, and the rest evaluate to exactly the documented sets, for arguments that are themselves arbitrary expressions.", "quantifier": "every expression and commit graph", "why_tests_cant": "All graphs and nestings; off-by-one and direction errors in rare shapes (merges, roots).", "anchors": ["git-branchless-revset/src/builtins.rs", "git-branchless-revset/src/eval.rs: eval0, eval1, eval2, eval_number_rhs"]}
{"id": "C22", "title": "Revset text round-trips through the parser with documented precedence", "statement": "Printing an expression as function-call text and parsing it gives the same expression; binary operators associate to the left with set operators binding loosest, then differences, then ranges, and so on as in the grammar; parsing never assigns two different trees to the same token sequence.", "quantifier": "every expression and every token sequence", "why_tests_cant": "Precedence bugs appear only for particular operator combinations; the space is infinite.", "anchors": ["git-branchless-revset/src/grammar.lalrpop", "git-branchless-revset/src/ast.rs: Expr Display"]}
{"id": "C23", "title": "String literals in revsets denote their escaped contents", "statement": "A double- or single-quoted literal denotes the text in which exactly the characters following a backslash are interpreted as escapes and all other characters stand for themselves, so every text can be written as a literal.", "quantifier": "every text", "why_tests_cant": "Every sequence of escapes and plain characters.", "anchors": ["git-branchless-revset/src/grammar.lalrpop: string literal rule"]}
{"id": "C24", "title": "User-defined revset aliases behave as macro expansion", "statement": "Calling an alias with n arguments evaluates its body with each placeholder $i replaced by the i-th argument expression, nowhere else; built-in functions cannot be redefined; arguments without a placeholder are ignored and placeholders without an argument stay names.", "quantifier": "every alias body, argument list and expression", "why_tests_cant": "Arbitrarily nested bodies and arguments, including arguments that mention placeholders.", "anchors": ["git-branchless-revset/src/eval.rs: eval_fn", "git-branchless-revset/src/ast.rs: Expr::replace_names"]}
{"id": "C25", "title": "Text patterns dispatch on prefix and ignore one trailing newline", "statement": "A pattern with an exact:/substring:/substr: prefix matches a text (ignoring one trailing newline) exactly when the text equals, respectively contains, the rest of the pattern; a pattern without prefix behaves as substring; date patterns never match text and text patterns never match dates.", "quantifier": "every pattern and text", "why_tests_cant": "All strings.", "anchors": ["git-branchless-revset/src/pattern.rs: Pattern::new, matches_text, matches_date"]}
{"id": "C26", "title": "Impossible moves are rejected, possible ones are not", "statement": "Building a rebase plan reports a cycle exactly when the requested parents together with the implied moves of descendants would make some commit its own ancestor; otherwise it never reports one. The check always terminates.", "quantifier": "every commit graph and every set of requested moves", "why_tests_cant": "Cycles of any length through any mixture of requested and implied constraints.", "anchors": ["git-branchless-lib/src/core/rewrite/plan.rs: ConstraintGraph::add_constraints, add_descendant_constraints, check_for_cycles"]}
{"id": "C27", "title": "Public commits are never rewritten without force", "statement": "Unless forcing was requested, every commit rewritten by a plan is not an ancestor of the main branch; a plan that would rewrite a commit outside the verified set is rejected.", "quantifier": "every commit graph, main branch position, set of moves", "why_tests_cant": "Descendant moves pull in commits implicitly; all graph shapes.", "anchors": ["git-branchless-lib/src/core/rewrite/plan.rs: RebasePlanPermissions::verify_rewrite_set, ConstraintGraph::check_permissions", "git-branchless-move/src/lib.rs: move"]}
{"id": "C28", "title": "A rebase plan replays every moved commit exactly once, parents first", "statement": "In a built plan each commit that must move is picked (or merged, replaced, or fixed up) exactly once, after all its moved parents; nothing that did not have to move is replayed.", "quantifier": "every commit graph and every acyclic set of moves", "why_tests_cant": "Forked and merged subtrees of any size.", "anchors": ["git-branchless-lib/src/core/rewrite/plan.rs: make_rebase_plan_for_current_commit, RebasePlanBuilder::build, check_all_commits_included, find_roots"]}
{"id": "C29", "title": "Labels in a rebase plan are unique and defined before use", "statement": "Every label a plan resets to or merges from was created earlier in the plan, and no label is created twice.", "quantifier": "every generated plan", "why_tests_cant": "Label names are derived from commit ids and made unique; collisions depend on the whole plan.", "anchors": ["git-branchless-lib/src/core/rewrite/plan.rs: make_label_name, RebasePlanBuilder"]}
{"id": "C30", "title": "In-memory rebase produces the requested ancestry", "statement": "After a successful in-memory rebase each moved commit's new version has as parents the new versions of its requested parents (or the parents themselves if they did not move), skipped commits being replaced by their nearest surviving new parent; every input commit is mapped to exactly one outcome.", "quantifier": "every plan generated from every graph, every outcome of cherry-picks (success, became-empty, already upstream)", "why_tests_cant": "All plans and all per-commit outcomes.", "anchors": ["git-branchless-lib/src/core/rewrite/execute.rs: rebase_in_memory"]}
{"id": "C31", "title": "A rebase that hits a conflict in memory changes nothing visible", "statement": "If any cherry-pick in an in-memory rebase conflicts (or is unsupported), no reference is moved, no event is recorded and the working copy is untouched.", "quantifier": "every plan and every failure point", "why_tests_cant": "Every possible failing step.", "anchors": ["git-branchless-lib/src/core/rewrite/execute.rs: rebase_in_memory, execute_rebase_plan, post_rebase_in_memory"]}
{"id": "C32", "title": "Branches follow rewritten commits", "statement": "After a rewrite, each local branch that pointed at a rewritten commit points at its final new version; each branch that pointed to a deleted commit is moved to or removed as specified; branches at unrewritten commits are untouched; and the same for HEAD.", "quantifier": "every mapping of old to new commits and every branch table", "why_tests_cant": "Any number of branches on any commits.", "anchors": ["git-branchless-lib/src/core/rewrite/execute.rs: move_branches, check_out_updated_head"]}
{"id": "C33", "title": "Updating a tree changes exactly the requested paths", "statement": "Rebuilding a tree from a base tree and a set of path updates yields a tree in which every updated path has its new entry (or is absent), every path unrelated to an update is unchanged, and directories left empty disappear.", "quantifier": "every tree of every depth and every set of updates that is realisable as a tree", "why_tests_cant": "Trees and update sets are unbounded; nested removal and creation interact.", "anchors": ["git-branchless-lib/src/git/tree.rs: hydrate_tree, remove_entry_if_exists, make_empty_tree"]}
{"id": "C34", "title": "Restricting a tree keeps exactly the chosen paths", "statement": "The reduced tree used for fast cherry-picks contains a path exactly when it is one of the chosen paths and present in the original tree, with the same contents.", "quantifier": "every tree and list of paths", "why_tests_cant": "All trees, all subsets.", "anchors": ["git-branchless-lib/src/git/tree.rs: dehydrate_tree", "git-branchless-lib/src/git/repo.rs: dehydrate_commit"]}
{"id": "C35", "title": "Changed-path detection is sound and complete", "statement": "The set of paths reported as changed between two trees contains a path exactly when the file entry at that path differs between the trees.", "quantifier": "every pair of trees", "why_tests_cant": "Recursive comparison with short-circuits on equal ids; all shapes including file/directory swaps.", "anchors": ["git-branchless-lib/src/git/tree.rs: get_changed_paths_between_trees_internal, get_changed_paths_between_trees"]}
{"id": "C36", "title": "Swapping a directory for a file (or back) survives tree updates", "statement": "Applying to a tree the path updates describing another tree (every changed path with its entry in the other tree) produces exactly the other tree.", "quantifier": "every pair of trees", "why_tests_cant": "File/directory conflicts arise only in particular pairs.", "anchors": ["git-branchless-lib/src/git/tree.rs: hydrate_tree, get_changed_paths_between_trees", "git-branchless-lib/src/git/repo.rs: cherry_pick_fast, amend_fast"]}
{"id": "C37", "title": "Amending from another commit applies all of its changes", "statement": "Folding a commit into an earlier one (fixup) yields a tree in which each path changed by the folded commit has the content it has after applying that commit, including paths the commit deletes.", "quantifier": "every pair of trees and every set of changed paths", "why_tests_cant": "Additions, modifications and deletions in any combination.", "anchors": ["git-branchless-lib/src/git/repo.rs: amend_fast (AmendFastOptions::FromCommit)"]}
{"id": "C38", "title": "Amending from index or working copy takes exactly the listed paths", "statement": "Amending from the index (or working copy) yields the commit's tree with each listed path replaced by its index (working-copy) content or removed, and every other path unchanged.", "quantifier": "every tree, index, working copy and list of paths", "why_tests_cant": "All combinations.", "anchors": ["git-branchless-lib/src/git/repo.rs: amend_fast", "git-branchless/src/commands/amend.rs: amend"]}
{"id": "C39", "title": "Working-copy snapshots can be reopened", "statement": "A snapshot commit created from any HEAD state and index stages is recognised as a snapshot and yields the same head commit, head reference, unstaged commit and four stage commits; ordinary commits lacking the markers are not recognised.", "quantifier": "every HEAD state (unborn, detached, on branch) and every commit message", "why_tests_cant": "All message texts and optional fields.", "anchors": ["git-branchless-lib/src/git/snapshot.rs: WorkingCopySnapshot::create, try_from_base_commit"]}
{"id": "C40", "title": "Restoring a snapshot reproduces the index and working copy", "statement": "Creating a snapshot, changing anything, and restoring it gives back the same tracked working-copy contents and the same index entries in all stages for every path reported by git status.", "quantifier": "every index and working copy state", "why_tests_cant": "All mixtures of staged, unstaged, deleted, unmerged entries.", "anchors": ["git-branchless-lib/src/git/snapshot.rs: create_commit_for_unstaged_changes, create_commit_for_stage", "git-branchless-lib/src/core/check_out.rs: restore_snapshot"]}
{"id": "C41", "title": "Bisection bookkeeping stays consistent", "statement": "During a search, the set of commits known good is always closed under ancestors and the set known bad closed under descendants (as queried), reports that contradict earlier knowledge are rejected, and no commit is ever known both good and bad.", "quantifier": "every graph and every sequence of reported results", "why_tests_cant": "Unbounded sequences of reports in any order.", "anchors": ["scm-bisect/src/search.rs: Search::notify, success_bounds, failure_bounds"]}
{"id": "C42", "title": "Bisection proposes only useful commits", "statement": "Every commit proposed for testing is one of the given commits, has not been tested and is not already implied good or bad; a search reports nothing left to test only when every remaining commit is decided.", "quantifier": "every graph, strategy and history of results", "why_tests_cant": "All graphs and histories.", "anchors": ["scm-bisect/src/search.rs: Search::search", "scm-bisect/src/basic.rs: BasicStrategy::midpoint"]}
{"id": "C43", "title": "Bisection finds the true boundary", "statement": "If the tested property is monotone (once bad, all descendants bad), then running the search to completion terminates after finitely many tests and the reported bounds separate good from bad commits exactly.", "quantifier": "every graph and monotone property", "why_tests_cant": "All graphs and all monotone properties.", "anchors": ["scm-bisect/src/search.rs", "scm-bisect/src/basic.rs"]}
{"id": "C44", "title": "No test job runs twice", "statement": "Under every interleaving of workers taking jobs and the coordinator replacing the queue, no job is handed to two workers, jobs are handed out in queue order, and after closing no job is handed out.", "quantifier": "every interleaving of set/pop/close calls by any number of threads", "why_tests_cant": "Interleavings are unbounded and schedules are not controlled by tests.", "anchors": ["git-branchless-test/src/worker.rs: WorkQueue::set, pop_blocking, close"]}
{"id": "C45", "title": "The test runner neither hangs nor loses results", "statement": "Under every schedule of workers and coordinator, testing terminates, never blocks forever, and (without a search strategy and without abort) reports exactly one result for every commit.", "quantifier": "every number of workers and jobs, every schedule, every outcome of jobs", "why_tests_cant": "Schedules and outcomes are unbounded.", "anchors": ["git-branchless-test/src/lib.rs: event_loop, run_tests_inner", "git-branchless-test/src/worker.rs: worker"]}
{"id": "C46", "title": "Pooled repository handles are exclusive", "statement": "Under every interleaving of acquiring and releasing handles from a resource pool, no resource is held by two users at once, none is lost, and a new one is created only when the pool is empty.", "quantifier": "every interleaving of acquisitions (successful or failing) and releases", "why_tests_cant": "Unbounded interleavings.", "anchors": ["git-branchless-lib/src/core/task.rs: ResourcePool, ResourceHandle"]}
{"id": "C47", "title": "Bulk reword assigns each message to its commit", "statement": "When an edited bulk message is accepted, each selected commit receives exactly the text below its marker line and no other; if any marker is missing, duplicated or unknown, nothing is reworded.", "quantifier": "every edited text and every list of commits", "why_tests_cant": "Users may edit the text arbitrarily.", "anchors": ["git-branchless-reword/src/lib.rs: parse_bulk_edit_message, prepare_messages"]}
{"id": "C48", "title": "Interactive record covers the file exactly", "statement": "The sections shown for a changed text file partition it: unchanged plus removed lines give exactly the old file, unchanged plus added lines give exactly the new file.", "quantifier": "every pair of texts and every valid hunk list between them", "why_tests_cant": "Insertions/deletions at the start, end and adjacent to each other in every combination.", "anchors": ["git-branchless-lib/src/git/diff.rs: process_diff_for_record"]}
{"id": "C49", "title": "Installing hooks is idempotent and preserves user content", "statement": "Re-running initialisation leaves an installed hook unchanged; lines of a hook outside the managed block are preserved in order by installing, re-installing and uninstalling.", "quantifier": "every existing hook text", "why_tests_cant": "Arbitrary user scripts, with or without managed blocks.", "anchors": ["git-branchless-init/src/lib.rs: update_between_lines, update_hook_contents, append_hook"]}
{"id": "C50", "title": "Parsing git status covers every entry", "statement": "For every well-formed porcelain-v2 status output the parser terminates and returns one entry per record with the right paths, modes and states, including renames whose two paths are NUL separated.", "quantifier": "every status output, including header lines", "why_tests_cant": "All byte strings git may emit.", "anchors": ["git-branchless-lib/src/git/repo.rs: Repo::get_status", "git-branchless-lib/src/git/status.rs: TryFrom<&[u8]> for StatusEntry"]}
{"id": "C51", "title": "File modes survive conversion", "statement": "Converting a file mode to its numeric or textual form and back gives the same mode.", "quantifier": "every file mode", "why_tests_cant": "Finite but untested: the conversion tables are maintained by hand in four places.", "anchors": ["git-branchless-lib/src/git/status.rs: FileMode conversions"]}
{"id": "C52", "title": "Replaying the log cleans up raw reference events without losing information", "statement": "When the stored log is replayed, only reference updates can be dropped or altered: every other event is kept in order; the final position of every tracked reference is the same whether read from the raw log or from the cleaned one; the only alteration is that a deletion recorded without its previous value receives the position the reference had in the log so far.", "quantifier": "every raw log, every reference name", "why_tests_cant": "Git versions emit different event patterns (duplicate deletions, missing old values); tests replay only recorded ones.", "anchors": ["git-branchless-lib/src/core/eventlog.rs:845-1014"]}
{"id": "C53", "title": "Historical HEAD is the most recent evidence", "statement": "The HEAD commit reported at a cursor is the one given by the most recent event before the cursor that tells where HEAD was (a HEAD update, a commit, or a working-copy snapshot), and none exactly when there is no such event.", "quantifier": "every log and every cursor", "why_tests_cant": "The number of interleavings of HEAD updates, commits and snapshots is unbounded.", "anchors": ["git-branchless-lib/src/core/eventlog.rs:1196-1229"]}
{"id": "C54", "title": "Object ids survive their text form", "statement": "Printing an object id and parsing it back gives the same id, the text is always forty characters long, the zero id is told apart from all others, and the zero id is never accepted where a non-zero one is required.", "quantifier": "every 160-bit object id", "why_tests_cant": "There are 2^160 ids.", "anchors": ["git-branchless-lib/src/git/oid.rs:29-33", "git-branchless-lib/src/git/oid.rs:80-91", "git-branchless-lib/src/git/oid.rs:141-165"]}
{"id": "C55", "title": "A stack is everything connected to it through draft commits", "statement": "The stack of a set of commits consists of exactly the draft commits that share a draft ancestor with one of them; for a single draft commit this is the whole connected component of draft commits around it.", "quantifier": "every commit graph, visibility state and set of commits", "why_tests_cant": "The shapes of the commit graph are unbounded; merge commits are rare in tests.", "anchors": ["git-branchless-lib/src/core/dag.rs:537-560"]}
{"id": "C56", "title": "Commits are listed in a consistent order, ancestors first", "statement": "Commits shown to the user or processed in sequence are ordered so that no commit precedes one of its ancestors; the comparison used to break ties is a strict total order.", "quantifier": "every commit graph and every assignment of commit times", "why_tests_cant": "Equal or decreasing commit times occur only by accident in tests.", "anchors": ["git-branchless-lib/src/core/dag.rs:357-366", "git-branchless-lib/src/core/dag.rs:763-795"]}
{"id": "C57", "title": "Evaluating a revset always stops", "statement": "Evaluation of every revset finishes with a set of commits or an error, whatever aliases the user has configured.", "quantifier": "every expression, repository and alias table", "why_tests_cant": "Alias tables and expressions are unbounded; a cycle of aliases may be arbitrarily long.", "anchors": ["git-branchless-revset/src/eval.rs:110-136", "git-branchless-revset/src/eval.rs:179-210"]}
{"id": "C58", "title": "Commits made during a rebase are recorded when it completes", "statement": "While a rebase run by Git is underway nothing is recorded in the event log; when it completes, every commit made during it is recorded once, in order, followed by the rewrites reported by Git; when it is abandoned nothing is recorded. A commit that turns out empty is taken back and reported as deleted.", "quantifier": "every sequence of commits, amendments, skips and drops during the rebase", "why_tests_cant": "Rebases are arbitrarily long and may be interrupted at any point.", "anchors": ["git-branchless-hook/src/lib.rs: hook_post_commit_common", "git-branchless-lib/src/core/rewrite/rewrite_hooks.rs: hook_post_rewrite, hook_drop_commit_if_empty, hook_skip_upstream_applied_commit, read_deferred_commits"]}
{"id": "C59", "title": "A reported rebase cycle explains the conflict", "statement": "When a move is refused because of a cycle, the reported commits form a chain in which each commit is to go on top of the one before it, and which ends at a commit already listed; the chain begins and ends with the same commit.", "quantifier": "every commit graph and every set of requested moves", "why_tests_cant": "Cycles can be arbitrarily long and combine requested and implied moves.", "anchors": ["git-branchless-lib/src/core/rewrite/plan.rs:398-430"]}
{"id": "C60", "title": "A rebase is handed to Git completely or not at all", "statement": "When a rebase has to run on disk, either all of its state is written, with an instruction list that has exactly one line for each step of the plan, or nothing is written.", "quantifier": "every commit graph and every set of requested moves and squashes", "why_tests_cant": "Plans are unbounded and each kind of step has its own textual form.", "anchors": ["git-branchless-lib/src/core/rewrite/execute.rs:984-1151", "git-branchless-lib/src/core/rewrite/plan.rs:128-185"]}
{"id": "C61", "title": "New commits made by a rebase are protected from garbage collection", "statement": "After a successful in-memory rebase every new version of a commit exists in the repository and is referred to by a reference that keeps it from being collected.", "quantifier": "every plan and every outcome of the cherry-picks", "why_tests_cant": "Collection happens weeks later and depends on every single commit being referenced.", "anchors": ["git-branchless-lib/src/core/rewrite/execute.rs:897-960", "git-branchless-lib/src/core/gc.rs:74-96"]}
{"id": "C62", "title": "Cherry-picking in memory equals merging whole trees", "statement": "The fast in-memory cherry-pick yields, at every path, what merging the whole trees file by file would yield; paths not related to the commit's changes are exactly as in the target, and a commit picked onto its own parent keeps its tree.", "quantifier": "every commit, target tree and file-by-file merge", "why_tests_cant": "Trees are unbounded and reducing them to the touched paths interacts with files and directories replacing each other.", "anchors": ["git-branchless-lib/src/git/repo.rs:1313-1430", "git-branchless-lib/src/git/repo.rs:1432-1477"]}
{"id": "C63", "title": "Initialisation picks an existing main branch and keeps the user's aliases", "statement": "Without a branch given, initialisation chooses the branch configured as default for new repositories if it exists, otherwise the first existing one of a fixed list of customary names, and asks otherwise; it never detects a branch that does not exist. An alias that the user already has is not overridden; running it again changes no alias.", "quantifier": "every set of branches, every configuration", "why_tests_cant": "Repositories have arbitrary branches and configurations.", "anchors": ["git-branchless-init/src/lib.rs: detect_main_branch_name, set_configs, install_alias, install_aliases"]}
{"id": "C64", "title": "A snapshot tells conflicts, staged and unstaged changes apart", "statement": "The kind of changes reported with a snapshot is conflicts exactly if some path is in conflict, else staged exactly if the index differs from HEAD, else unstaged exactly if a tracked file differs on disk from the index, else none. Commands refuse to run, or ask, depending on it.", "quantifier": "every tree at HEAD, index and working copy", "why_tests_cant": "It is decided by comparing hashes of five trees built from the reported entries; all mixtures matter.", "anchors": ["git-branchless-lib/src/git/snapshot.rs: get_working_copy_changes_type, create_commit_for_stage, create_commit_for_unstaged_changes"]}
{"id": "C65", "title": "Restoring a snapshot puts HEAD back on its branch", "statement": "Restoring a snapshot puts HEAD back on the branch and the commit at which the snapshot was taken (also if there was no commit yet), and moves no other reference. If it stops halfway, HEAD and the branches are as before.", "quantifier": "every state of HEAD and references at both times, every failing command", "why_tests_cant": "Restoring detaches HEAD and puts it back by five commands, any of which may fail.", "anchors": ["git-branchless-lib/src/core/check_out.rs: restore_snapshot", "git-branchless-lib/src/git/repo.rs: get_head_info"]}
{"id": "C66", "title": "A referenced snapshot survives garbage collection", "statement": "As long as a reference leads to the commit of a snapshot, git gc keeps everything needed to reopen and restore it.", "quantifier": "every set of commits and references", "why_tests_cant": "Loss shows only after the expiry time of unreachable objects.", "anchors": ["git-branchless-lib/src/git/snapshot.rs: WorkingCopySnapshot::create, try_from_base_commit"]}
{"id": "C67", "title": "git next and git prev lead to the right commit", "statement": "git next N goes to the commit reached by N steps to a visible child (git prev: to a parent; with --branch: to the nearest commit with a branch), or as far as possible but at least one step; without an option to choose it moves only where there is no choice and otherwise lists all choices; with --newest or --oldest it takes the child committed last or first. With --all it ends at a commit without visible children, or at the root of the stack. It never leads to a hidden commit, it always ends, and git prev N undoes git next N.", "quantifier": "every commit graph, visibility, set of branches, distance and option", "why_tests_cant": "Graphs are unbounded; merges, hidden commits, branches and equal times interact at every step.", "anchors": ["git-branchless-navigation/src/lib.rs:89-306", "git-branchless-lib/src/core/dag.rs:745-800"]}
{"id": "C68", "title": "Navigation checks out exactly the commit chosen", "statement": "After git next, git prev or git switch HEAD names the commit chosen, on its branch if exactly one branch is there, and no reference has moved; a command that stays where it is leaves HEAD as it is.", "quantifier": "every state of HEAD and branches, every target", "why_tests_cant": "The commit is handed to Git as text, as a hash or as a branch name, depending on the branches present and HEAD.", "anchors": ["git-branchless-lib/src/core/check_out.rs:65-199", "git-branchless-navigation/src/lib.rs:308-625"]}
{"id": "C69", "title": "The smartlog shows every commit exactly once, in its place", "statement": "The smartlog shows the commits asked for, HEAD, the main branch, and the commits at which they leave the main branch, each in exactly one line that tells whether it is public, obsolete and HEAD. The line of a commit is directly followed by those of all commits shown above it. Where commits are left out between a commit and the nearest one shown below, or above a commit with nothing shown above it, their number is given. The main branch is listed oldest first.", "quantifier": "every commit graph, set of commits asked for, order of hash maps, commit times", "why_tests_cant": "Graphs are unbounded; merges, commits left out and several lines of work interact.", "anchors": ["git-branchless-smartlog/src/lib.rs:145-373", "git-branchless-smartlog/src/lib.rs:394-733"]}
{"id": "C70", "title": "git hide hides what was asked for, and only that", "statement": "After git hide exactly the commits given (with --recursive: also every commit shown above them) are hidden, each announced once and parents first; no other commit changes. Unless --no-delete-branches is given, the local branches at these commits, and no other references, are deleted; the main branch is never deleted. HEAD stays at its commit, and never on a branch that is gone. With --recursive nothing above the commits is shown any more except what HEAD or the main branch needs. The summary names exactly the branches deleted.", "quantifier": "every commit graph, event log, set of references, choice of commits and options", "why_tests_cant": "Visibility depends on the whole log, the graph, HEAD and all branches; the deletion goes through a hook in another process.", "anchors": ["git-branchless/src/commands/hide.rs:24-183", "git-branchless-lib/src/core/rewrite/execute.rs:30-180"]}
{"id": "C71", "title": "Hiding can be undone, and unhiding reverses it", "statement": "git undo right after git hide puts every reference back and shows every hidden commit again, and changes nothing else. git unhide makes exactly the commits asked for visible. After git hide --recursive and git unhide --recursive of the same commits the same commits are shown as before.", "quantifier": "every commit graph, event log, set of references, choice of commits and options", "why_tests_cant": "The effect of undo is computed from events written by two processes.", "anchors": ["git-branchless/src/commands/hide.rs:187-272", "git-branchless-undo/src/lib.rs"]}
{"id": "C72", "title": "git branchless repair makes the log agree with the repository", "statement": "After git branchless repair --no-dry-run every commit of the log that is not in the repository is hidden and every local branch on record exists; nothing is changed for commits and branches that exist. A second run finds nothing to repair. A dry run changes nothing.", "quantifier": "every event log, set of commits and references", "why_tests_cant": "The state of the log is the result of arbitrarily long histories with missing objects at any place.", "anchors": ["git-branchless/src/commands/repair.rs:17-130"]}
{"id": "C73", "title": "git restack moves every abandoned commit onto the newest version of its parent", "statement": "A commit is abandoned if it is shown and its parent was rewritten. git restack makes exactly the commits shown at or above an abandoned commit again, with their changes, the first of each line on the newest version of its parent, the others on the new versions of theirs; the old ones become obsolete, nothing else changes visibility. Afterwards no commit is abandoned, and a second run says there is nothing to do and changes nothing. A restack in memory that stops has changed nothing.", "quantifier": "every commit graph, event log, choice of commits to look at, order of hash maps", "why_tests_cant": "Chains of rewrites have any length and the plan is built from the whole graph; whether a second run finds nothing depends on the events the first one wrote.", "anchors": ["git-branchless/src/commands/restack.rs:99-170", "git-branchless/src/commands/restack.rs:264-363", "git-branchless-lib/src/core/rewrite/evolve.rs:1-82"]}
{"id": "C74", "title": "git restack moves every abandoned branch", "statement": "After git restack each local branch that was at a rewritten commit is at the newest version of that commit, or is deleted if the commit was dropped; all other references stay, as does the main branch if it was not rewritten. If a reference cannot be written each branch is either where it was or where it should go. HEAD is left on a branch that exists.", "quantifier": "every set of references, event log, commit graph", "why_tests_cant": "Branches are moved twice, first by the rebase and then on their own, with tables computed at different times.", "anchors": ["git-branchless/src/commands/restack.rs:209-258"]}
{"id": "C75", "title": "git sync puts every stack on top of the main branch", "statement": "git sync takes every stack (the commits shown above a commit that is directly above the main branch), or those of the commits given, and makes its commits again with their changes, the first on the main branch and the others on the new versions of their parents. Each stack is moved, reported as not movable, or reported as being in place, once; stacks that are not moved are not changed. Commits moved become obsolete, branches and HEAD follow, the main branch stays. Only merges and conflicts keep a stack from being moved. Afterwards every stack moved starts directly on the main branch, and a second run changes nothing.", "quantifier": "every commit graph, event log, set of references and choice of commits", "why_tests_cant": "The number and shape of stacks is unbounded; each is moved in a repository already changed by moving the ones before.", "anchors": ["git-branchless/src/commands/sync.rs:31-46", "git-branchless/src/commands/sync.rs:297-501"]}
{"id": "C76", "title": "git sync --pull puts the main branch where its upstream is", "statement": "If the main branch has no commits of its own it is put at its upstream and nothing else changes, and HEAD goes with it if it was on it. If it has, these commits and those above them are made again on top of its upstream, with branches and HEAD following; if that is not possible nothing changes. If it has no upstream nothing happens.", "quantifier": "every commit graph, event log, set of references and place of the upstream", "why_tests_cant": "Depends on the whole graph between the main branch and its upstream and on all branches above it.", "anchors": ["git-branchless/src/commands/sync.rs:135-295"]}
{"id": "C77", "title": "git move puts subtrees where it is told and touches nothing else", "statement": "git move --source and --base make the first commits of what is given again on top of the destination, and all commits shown above them on top of the new versions of their parents; branches, HEAD and the log follow, and no other commit or reference changes. If it does not succeed nothing changes. It succeeds unless nothing was given, public commits would be rewritten, the destination is above a commit to be moved, or there is a merge or conflict; in the first three cases it says so.", "quantifier": "every commit graph, event log, set of references and choice of commits", "why_tests_cant": "What is moved and where depends on the whole graph; the commits given may lie anywhere with respect to one another and to the destination.", "anchors": ["git-branchless-move/src/lib.rs:64-515"]}
{"id": "C78", "title": "git move --base, or without arguments, moves the whole branch", "statement": "Without arguments git move moves the branch of HEAD, starting with its first commit that the destination does not have, so that all commits of the branch that the destination does not have are moved and no public ones; just HEAD is moved if the destination has all of it. The same holds for each commit given with --base.", "quantifier": "every commit graph without merges in the branch, every destination", "why_tests_cant": "The first commit of a branch is found with greatest common ancestors and ranges in an arbitrary graph.", "anchors": ["git-branchless-move/src/lib.rs:40-62", "git-branchless-move/src/lib.rs:203-224"]}
{"id": "C79", "title": "git move --exact takes single commits out and closes the gaps", "statement": "git move --exact makes each commit given again on the nearest commit given below it, or on the destination if there is none, and each other commit shown above one of them on the nearest commit not given below it. Branches, HEAD and the log follow and nothing else changes; if it does not succeed nothing changes. It succeeds unless nothing was given, public commits would be rewritten, the destination is among the commits given, or there is a conflict.", "quantifier": "every commit graph without merges above the commits given, every set of commits and destination", "why_tests_cant": "The commits given fall into any number of ranges, above one another or not, with any number of children to be put elsewhere.", "anchors": ["git-branchless-move/src/lib.rs:127-175", "git-branchless-move/src/lib.rs:311-413"]}
{"id": "C80", "title": "git move does not rewrite public commits unless forced", "statement": "Whatever the arguments of git move, without --force-rewrite no commit of the main branch is rewritten.", "quantifier": "every commit graph, event log, set of references and arguments, including --insert and --fixup", "why_tests_cant": "The commits rewritten are found by following constraints through the whole graph.", "anchors": ["git-branchless-move/src/lib.rs:256-300", "git-branchless-lib/src/core/rewrite/plan.rs"]}
{"id": "C81", "title": "git move --insert puts what was on the destination on top of what is moved", "statement": "git move --insert puts the commits given, with all shown above them, on the destination, and the commits shown there so far, with all above them, on top of the last of the moved ones. Branches, HEAD and the log follow and nothing else changes; if it does not succeed nothing changes. It succeeds unless what is moved ends in several commits, public commits would be rewritten, the destination is above a commit to be moved, or there is a merge or conflict.", "quantifier": "every commit graph, event log, set of references, destination and choice of commits", "why_tests_cant": "What makes way and where it goes depend on the whole graph on both sides of the destination.", "anchors": ["git-branchless-move/src/lib.rs:127-175", "git-branchless-move/src/lib.rs:415-472"]}
{"id": "C82", "title": "git move --fixup squashes commits into another, in order, and closes the gaps", "statement": "git move --fixup makes the destination again on its own parent with its author and message and the changes of the commits given (with --source and --base all above them) applied one after the other, each after those it is built upon. All of these are replaced by the one new commit, and the commits shown above the destination or above a commit given are made again on the nearest commit below them that was not given. Branches, HEAD and the log follow and nothing else changes; if it does not succeed nothing changes. It succeeds unless nothing was given, public commits would be squashed or moved, or there is a conflict. Hidden commits are left alone, and a commit given does not stay.", "quantifier": "every commit graph, event log, set of references, destination and choice of commits not below the destination, without merges among or above them", "why_tests_cant": "The commits given fall into any number of ranges, below, above or beside the destination, and every commit shown above any of them has to be placed.", "anchors": ["git-branchless-move/src/lib.rs:127-175", "git-branchless-move/src/lib.rs:256-413", "git-branchless-lib/src/core/rewrite/plan.rs:912-940"]}
{"id": "C83", "title": "git move refuses when it is not clear what is to go where", "statement": "Nothing is changed by git move if there is not exactly one destination, if a range of commits given with --exact has several first commits or a first commit that does not have exactly one parent, if below a range there are two others of which none is above the other, or if with --insert the ranges are not one above the other or what is moved does not end in one commit. When one of these is given as the reason, it is the case.", "quantifier": "every commit graph with any merges, event log, set of references and arguments", "why_tests_cant": "Whether ranges have one beginning, one place to go and one end depends on connectedness and reachability in the whole graph.", "anchors": ["git-branchless-move/src/lib.rs:127-175", "git-branchless-move/src/lib.rs:177-200", "git-branchless-move/src/lib.rs:319-380", "git-branchless-move/src/lib.rs:415-472"]}
{"id": "C84", "title": "git amend puts the commits above on top of the new commit", "statement": "git amend makes the commit of HEAD again with the same parents, message and author; HEAD stays on its branch, which goes to the new commit, as do other branches at the old one. The commits shown above are made again with their changes on top of it, or dropped if nothing is left of their changes or they are upstream, and their branches follow; if one is a merge or has a conflict all of them stay where they are. Old commits become obsolete, new ones are shown and kept, and nothing else changes.", "quantifier": "every commit graph, event log, set of references and changes amended", "why_tests_cant": "What is above HEAD is unbounded; branches are moved twice, once for HEAD and once for what is above, by different code.", "anchors": ["git-branchless/src/commands/amend.rs:36-382"]}
{"id": "C85", "title": "git amend --reparent keeps the contents of the commits above", "statement": "With --reparent the commits above are made again with exactly the contents they had, on top of the new commit and of the new versions of their parents; conflicts do not matter, and merges are allowed. All else is as for git amend.", "quantifier": "every commit graph with any merges, event log, set of references and changes amended", "why_tests_cant": "Each commit is first replaced and then rebased in an order found by the planner; merges may have any number of rewritten parents.", "anchors": ["git-branchless/src/commands/amend.rs:236-277", "git-branchless-lib/src/core/rewrite/plan.rs"]}
{"id": "C86", "title": "git amend takes what is staged, or else all changes", "statement": "If anything is staged exactly that goes into the new commit, and otherwise the changes of the working copy do; all other paths are as they were. It is refused, and nothing changes, exactly if there are unresolved conflicts or HEAD is public and this was not forced; without changes nothing happens. HEAD ends at the new commit, whatever other references there are.", "quantifier": "every status, index, working copy, tree and set of references", "why_tests_cant": "Depends on the contents of whole trees, and on how Git resolves names among all references.", "anchors": ["git-branchless/src/commands/amend.rs:76-164", "git-branchless/src/commands/amend.rs:188-210", "git-branchless-lib/src/core/check_out.rs:108-199"]}
{"id": "C87", "title": "git submit pushes only what it should", "statement": "git submit changes a branch of a remote only if it is the only branch here at one of the commits given and not the main branch, and then to where it is here. Without --create only branches already at the remote are pushed, and only if they are there what they were found to be just before; with --create branches without an upstream are pushed too, to the remote of the main branch or the default one, never discarding what is there. With --dry-run nothing is pushed. Local branches stay as they are, and so do settings but for the upstreams of new branches. Commits others have put at the remote that were never seen here are not discarded.", "quantifier": "every set of references, settings of branches, state of the remotes and changes others make to them meanwhile", "why_tests_cant": "Depends on what others push between the fetch and the push, and on the settings of all branches at once.", "anchors": ["git-branchless-submit/src/lib.rs:214-518", "git-branchless-submit/src/branch_forge.rs:32-321"]}
{"id": "C88", "title": "git submit says truly what it has done", "statement": "If git submit succeeds it has sorted the branches given into those submitted, updated, skipped for being up to date, and skipped for not being at a remote; those said to be submitted or updated are at the remote as they are here, and doing it again changes nothing and says so. Every branch given is mentioned. If it fails it says nothing was done.", "quantifier": "every set of references, settings of branches and state of the remotes", "why_tests_cant": "Upstreams can be any reference, of any name, here or at any remote; tests have a remote with matching names.", "anchors": ["git-branchless-submit/src/lib.rs:214-518", "git-branchless-submit/src/branch_forge.rs:32-321"]}
{"id": "C89", "title": "git record makes the commit and leaves HEAD and branches where asked", "statement": "git record makes one commit of what is staged, or of all changes if nothing is, on top of HEAD. HEAD goes to it together with its branch; with --create a new branch goes there instead; with --detach HEAD goes there and no branch; with --stash neither. Other references do not change. If there is nothing to commit, there are conflicts, changes are to be chosen while some are staged, the branch to be made exists, or committing fails, nothing changes.", "quantifier": "every repository, state of HEAD and combination of options", "why_tests_cant": "The branch is moved and put back around a commit made by another program, with HEAD on a branch, on none or on one yet to be born.", "anchors": ["git-branchless-record/src/lib.rs:75-247"]}
{"id": "C90", "title": "git record --insert puts the new commit between HEAD and what is above it", "statement": "After git record --insert the commits shown on top of the previous HEAD are on top of the new commit, with all that is above them; branches and the log follow, and HEAD stays at the new commit. If public commits would have to be rewritten, or there is a merge or a conflict, the commit is made and nothing else changes. There is no other way for it to fail once the commit is made.", "quantifier": "every commit graph, event log, set of references and combination of options", "why_tests_cant": "What is above the previous HEAD is any number of subtrees of any shape.", "anchors": ["git-branchless-record/src/lib.rs:231-246", "git-branchless-record/src/lib.rs:419-568"]}
{"id": "C91", "title": "git test fix gives commits the contents the command left and rebuilds what is above", "statement": "git test fix rewrites exactly the commits for which the command left other contents than they have, and the commits shown above them. The former get the contents the command left, the latter keep theirs; each is put on what its parents became, merges too, and keeps its message and author. Branches, HEAD and the log follow, and the report tells what became of each commit fixed. There is never a conflict. If a test does not pass, a commit tested is public (without the option that allows it) or it is a dry run, then references, HEAD and the log stay as they are. If all tests passed and nothing to fix is a root commit it succeeds. Commits are taken to have no signature.", "quantifier": "every commit graph, event log, set of references and results of the tests", "why_tests_cant": "Any subset of commits of any graph may be changed by the command, and all that is above has to be rebuilt in order.", "anchors": ["git-branchless-test/src/lib.rs:566-657", "git-branchless-test/src/lib.rs:1914-2182"]}
{"id": "C92", "title": "git test runs a command again only if it has to", "statement": "A command that ran to its end for some contents is not run again for the same contents until the results are cleaned, and what is then reported is what came of that run; if there is no such result the command is run, and what is reported is what came of it. Commands that were killed or could not be started are run again. With --no-cache the command is always run and nothing is kept. Cleaning removes the results of the commits given and of no other. Looking at results does not change them.", "quantifier": "every history of runs, crashes, cleanings and other programs that hold the lock", "why_tests_cant": "Results are kept in files that other runs write, hold locks on or leave half written, in any order.", "anchors": ["git-branchless-test/src/lib.rs:2184-2479", "git-branchless-test/src/lib.rs:2617-2976", "git-branchless-lib/src/git/test.rs:44-47"]}
{"id": "C93", "title": "git test uses the number of jobs and the strategy asked for", "statement": "The strategy given on the command line is used, and the number of jobs given, where 0 stands for the number of processors; interactive tests run one at a time; there is always at least one job. Options that contradict each other are refused, and only those. Tests in the working copy run one at a time.", "quantifier": "every combination of options and configuration", "why_tests_cant": "The options and settings have many combinations of which only some are tried.", "anchors": ["git-branchless-test/src/lib.rs:269-371"]}
{"id": "C94", "title": "Commands suggested by git test can be pasted into a shell", "statement": "The revset in the hint on how to clear results, pasted into a shell, is read as what was given.", "quantifier": "every revset", "why_tests_cant": "Any character may be in a revset.", "anchors": ["git-branchless-test/src/lib.rs:1131-1144", "git-branchless-test/src/lib.rs:1873-1886"]}
{"id": "C95", "title": "A pull request is based on the nearest one below", "statement": "After git submit to GitHub the base of each pull request is the branch of the nearest commit below that has a pull request, or the main branch if there is none.", "quantifier": "every commit graph, set of references and set of pull requests in which each commit beyond the main branch has at most one branch, pushed under its own name", "why_tests_cant": "The order in which the graph library gives commits decides, and shows only in stacks of three or more.", "anchors": ["git-branchless-submit/src/github.rs:548-681"]}
{"id": "C96", "title": "Pull requests tell their place in the stack", "statement": "After git submit to GitHub the title of each pull request given is the summary of its commit after its place among those of the stack and their number; the places follow the order of the commits, and the body lists the addresses of all of them in that order, and then the message of the commit.", "quantifier": "every commit graph, set of references and set of pull requests in which each commit beyond the main branch has at most one branch, pushed under its own name", "why_tests_cant": "Numbers and lists depend on the whole stack, and on what is public or hidden.", "anchors": ["git-branchless-submit/src/github.rs:548-681"]}
{"id": "C97", "title": "git submit to GitHub updates what is out of date, and only that", "statement": "For each commit given that has a pull request, the request is then for that commit, with its branch pushed, and reported as updated, or was that way already and is reported as skipped. Pull requests keep their number and branch, branches stay where they are, and nothing else is changed, even if it fails. Doing it again changes nothing, nor does a dry run.", "quantifier": "every commit graph, set of references, remotes and pull requests in which each commit beyond the main branch has at most one branch, pushed under its own name", "why_tests_cant": "What a request says depends on the other requests of its stack, so updating one may make others out of date.", "anchors": ["git-branchless-submit/src/github.rs:76-193", "git-branchless-submit/src/github.rs:365-492", "git-branchless-submit/src/lib.rs:214-518"]}
{"id": "C98", "title": "Branches made for pull requests have new names made from the summary", "statement": "The branch made for a commit without one is named after the user and the words of the summary in lower case with hyphens between them, with the first number from 2 to 5 behind that makes it new if the name is taken; it is made at the commit, and no branch is moved. It fails exactly if all five names are taken or the one chosen is not allowed.", "quantifier": "every summary and set of branches", "why_tests_cant": "A summary is any text.", "anchors": ["git-branchless-submit/src/github.rs:232-294", "git-branchless-submit/src/github.rs:43-59"]}
{"id": "C99", "title": "git submit --create makes the missing pull requests", "statement": "With --create, each commit given that had no pull request has a new one for its branch, and a new branch if it had none, pushed to the remote, with the title, body and base it should have; existing ones are updated, in all respects, and no commit gets two. Branches are not moved, other pull requests are not changed, and nothing is made if it fails.", "quantifier": "every commit graph, set of references, remotes and pull requests in which each commit beyond the main branch has at most one branch, pushed under its own name", "why_tests_cant": "New requests change what the others of the stack should say, and failures come in between.", "anchors": ["git-branchless-submit/src/github.rs:195-363", "git-branchless-submit/src/github.rs:1110-1153", "git-branchless-submit/src/lib.rs:214-518"]}
{"id": "C100", "title": "git reword changes messages and nothing else", "statement": "After git reword the commits given have the new messages and the commits above keep theirs; contents and authors stay, and each commit is put on what its parents became. Exactly the commits given and those shown above them are rewritten, and none is lost. Branches, HEAD and the log follow.", "quantifier": "every commit graph, event log, set of references and messages", "why_tests_cant": "Any number of commits anywhere in the graph may be reworded at once.", "anchors": ["git-branchless-reword/src/lib.rs:84-328"]}
{"id": "C101", "title": "git reword does not run into conflicts", "statement": "If applying a commit to what has the contents of its parent gives its own contents, git reword is never stopped by a conflict. If no commit given is public (without the option that allows it) or a root, and there is a message for each, it succeeds.", "quantifier": "every commit graph, event log, set of references and messages", "why_tests_cant": "The contents after each step depend on all steps before.", "anchors": ["git-branchless-reword/src/lib.rs:254-326", "git-branchless-lib/src/core/rewrite/execute.rs:300-560"]}
{"id": "C102", "title": "git reword that does not succeed changes nothing", "statement": "If git reword does not succeed, references, HEAD and the log stay as they are, and what is reported is the case: a commit given is public, the one given with --fixup is not one commit or no ancestor of those reworded, nothing was to be reworded, or there is a merge above. Public commits are not rewritten, nor commits below, without the option that allows it. It does not panic.", "quantifier": "every commit graph, event log, set of references and messages", "why_tests_cant": "Commits are made on the way, and every step may fail.", "anchors": ["git-branchless-reword/src/lib.rs:84-328"]}
{"id": "C103", "title": "Commits and Phabricator revisions are matched by the link in the message", "statement": "The revision of a commit is the one whose number stands in the first line of its message that is a link: Differential Revision:, an address ending in a slash or nothing, D and digits up to the end of the line. There is at most one, and none without such a line.", "quantifier": "every message", "why_tests_cant": "A message is any text with any number of lines.", "anchors": ["git-branchless-submit/src/phabricator.rs:1019-1050"]}
{"id": "C104", "title": "git submit brings Phabricator revisions up to date", "statement": "A commit is up to date exactly if its revision is known and for that commit, unsubmitted if it has none, and to be updated otherwise. After a submit that succeeds each revision of a commit given that was to be updated is for that commit and depends on the revisions of its parents that are drafts, and on no others; other revisions, branches, HEAD and the log stay. If arc works and the server refuses nothing but cycles, it succeeds, and there are no cycles then.", "quantifier": "every commit graph, event log, set of references, revisions and commits", "why_tests_cant": "Revisions depend on each other along any graph, and are changed one by one.", "anchors": ["git-branchless-submit/src/phabricator.rs:242-317", "git-branchless-submit/src/phabricator.rs:567-711", "git-branchless-submit/src/phabricator.rs:878-1017"]}
{"id": "C105", "title": "git submit --create gives commits Phabricator revisions of their own", "statement": "After a submit with --create that succeeds each commit given without a revision has one of its own that is new, linked to in its message and depending on those of its parents; nothing but messages of these commits changes, the commits above, branches, HEAD and the log follow, and existing revisions are updated for the commits there are then. If it does not succeed, branches, HEAD and the log stay unless only the dependencies could not be set, and no revision is left that no commit links to.", "quantifier": "every commit graph, event log, set of references, revisions and commits", "why_tests_cant": "arc rewrites each commit on its own, and the stack is put together from what it made.", "anchors": ["git-branchless-submit/src/phabricator.rs:319-565", "git-branchless-submit/src/lib.rs:214-518"]}
{"id": "C106", "title": "git submit reports what it did at Phabricator", "statement": "What was created, updated, skipped and left out is reported. With --dry-run nothing is changed and what would be done is reported.", "quantifier": "every commit graph, event log, set of references, revisions and commits", "why_tests_cant": "Each set of commits is a different mixture of states.", "anchors": ["git-branchless-submit/src/phabricator.rs:289-316", "git-branchless-submit/src/lib.rs:214-518"]}
{"id": "C107", "title": "Dependencies are read from Phabricator as they are there", "statement": "Among the commits asked for, those reported as dependencies of a commit are those whose revisions the revision of that commit depends on. After an update these are its parents that were updated.", "quantifier": "every set of commits and revisions", "why_tests_cant": "Revisions and commits may be matched in any way and depend on others not asked for.", "anchors": ["git-branchless-submit/src/phabricator.rs:771-876"]}
{"id": "C108", "title": "Moving commits leaves out those that were applied upstream already", "statement": "A commit that is moved is left out exactly if a commit that the destination has and the commits moved do not have makes the same change; all others, amended ones among them, are kept.", "quantifier": "every commit graph, request and set of changes", "why_tests_cant": "Any commit of any history may make the change of any other, and histories part and join in many ways.", "anchors": ["git-branchless-lib/src/core/rewrite/plan.rs:761-780", "git-branchless-lib/src/core/rewrite/plan.rs:1266-1450", "git-branchless-lib/src/git/repo.rs:801-931"]}
{"id": "C109", "title": "What was looked up for earlier plans does not change a plan", "statement": "A plan is the same whatever paths of commits were looked up before it. Without detection of applied commits nothing is left out as applied upstream. Either way each commit is dealt with once.", "quantifier": "every commit graph, request and sequence of earlier plans", "why_tests_cant": "What has been looked up depends on all the plans made before.", "anchors": ["git-branchless-lib/src/core/rewrite/plan.rs:570-573", "git-branchless-lib/src/core/rewrite/plan.rs:1341-1438"]}
{"id": "C110", "title": "A bug report does not tell private names and messages", "statement": "The events part of a bug report is the same for two repositories that differ only in the names of references other than the main branch and in the texts of commits (where these have the same shape of words).", "quantifier": "every event log, set of references, renaming and set of commits", "why_tests_cant": "That something cannot be told from a report is a statement about all pairs of repositories.", "anchors": ["git-branchless-lib/src/core/node_descriptors.rs:66-141", "git-branchless/src/commands/bug_report.rs:30-226"]}
{"id": "C111", "title": "A bug report calls each reference by one name throughout", "statement": "In all of a bug report each private reference has one replacement, which tells whether it is a local or a remote branch, and different references have different ones. The report is about the last five transactions and is always made. The branch that is checked out is marked.", "quantifier": "every event log, set of references and set of commits", "why_tests_cant": "The numbers depend on the order in which names are met in the events and in the commits shown at each of five places.", "anchors": ["git-branchless-lib/src/core/node_descriptors.rs:93-121", "git-branchless/src/commands/bug_report.rs:95-226"]}
{"id": "C112", "title": "Commits are described as they are", "statement": "The description of a commit gives its age in the largest unit that fits, names the branches at it in order with the one checked out marked, names its revision, and says why it is hidden exactly if it is hidden, naming the last of the commits it became.", "quantifier": "every event log, place in it, time, set of references and commit", "why_tests_cant": "Which event is the last one about a commit and what it became depends on the whole log.", "anchors": ["git-branchless-lib/src/core/node_descriptors.rs:157-517"]}
{"id": "C113", "title": "A rebase on disk makes the requested commits", "statement": "When Git gets through the instructions written for it, every commit to be moved was made anew on top of what its parent became, or merged again from what all its parents became, or skipped because it was applied upstream or nothing is left of it; and the list of rewritten commits passed to the hook says exactly this.", "quantifier": "every commit graph, plan, outcome of picks and merges, and whether Git reuses commits that would not change", "why_tests_cant": "The outcome depends on the plan, on each pick and merge, and on what the hooks called in between write into Git's own files.", "anchors": ["git-branchless-lib/src/core/rewrite/plan.rs:128-185", "git-branchless-lib/src/core/rewrite/rewrite_hooks.rs:61-127", "git-branchless-lib/src/core/rewrite/rewrite_hooks.rs:437-555", "git-branchless-lib/src/core/rewrite/execute.rs:984-1195"]}
{"id": "C114", "title": "A rebase on disk ends like one in memory", "statement": "At the end of an on-disk rebase each local branch is at what became of its commit, HEAD is at the commit that stands for the one it was at with its branch checked out again if that still exists, and the event log got exactly the commits that were made and exactly what became of the rewritten ones.", "quantifier": "every commit graph, plan, set of branches, and outcome of picks and merges", "why_tests_cant": "Branches, HEAD and the log depend on files written by Git and by several hooks throughout the rebase.", "anchors": ["git-branchless-lib/src/core/rewrite/rewrite_hooks.rs:133-226", "git-branchless-lib/src/core/rewrite/rewrite_hooks.rs:437-460", "git-branchless-hook/src/lib.rs:84-158", "git-branchless-lib/src/core/rewrite/execute.rs:176-316"]}
{"id": "C115", "title": "It makes no difference whether a rebase is done in memory or on disk", "statement": "If a rebase succeeds in memory, the same request succeeds on disk: the same commits are there, and at the end every local branch, the commit of HEAD and what is told of each commit that was there are the same. If it stops at a conflict in memory, it stops on disk, having made the same commits.", "quantifier": "every commit graph, plan, set of branches and outcome of picks", "why_tests_cant": "Two programs, one of them Git's own interpreter with hooks called in between, have to be compared step by step on all plans.", "anchors": ["git-branchless-lib/src/core/rewrite/execute.rs:461-895", "git-branchless-lib/src/core/rewrite/execute.rs:984-1195", "git-branchless-lib/src/core/rewrite/execute.rs:1248-1366", "git-branchless-lib/src/core/rewrite/rewrite_hooks.rs:437-555"]}
{"id": "C116", "title": "A query prints exactly the commits asked for", "statement": "A query prints each commit that its revset stands for once, ancestors first, by hash or by description; with the option for branches it prints exactly the short names of the local branches at these commits, each once, those of ancestors first and those at one commit by name. A revset that stands for nothing is refused with nothing printed, and no other is.", "quantifier": "every repository, set of branches and revset text, with or without hidden commits", "why_tests_cant": "The text is parsed, evaluated with aliases and filtered by visibility before anything is sorted and printed; this is about all texts and graphs.", "anchors": ["git-branchless-query/src/lib.rs:39-113", "git-branchless-revset/src/resolve.rs:74-117", "git-branchless-lib/src/core/dag.rs:356-365"]}
{"id": "C117", "title": "Options and failed attempts do not change what a rebase does", "statement": "If a rebase in memory stops and is tried again on disk, everything ends as if it had been done on disk from the start, also if Git stops for the user: the same branches, HEAD, reported rewrites, events and exit status; only objects that nothing refers to are left of the attempt. If a rebase succeeds in memory, it succeeds with every combination of options (in memory, on disk, resolving conflicts; not both of the first two) and the repository is the same.", "quantifier": "every repository, plan, outcome of picks and merges in memory and on disk, and choice of options", "why_tests_cant": "The second attempt runs on a repository in which an unknown part of the first has been done already.", "anchors": ["git-branchless-lib/src/core/rewrite/execute.rs:1153-1195", "git-branchless-lib/src/core/rewrite/execute.rs:1248-1366"]}
{"id": "C118", "title": "A wrapped Git command is one step of the history", "statement": "Everything that hooks and programs started by them record while a wrapped Git command runs belongs to one new transaction, described by the command; nothing but what was suppressed or could not be stored is missing. Going back in history by one step undoes exactly this. A command wrapped within a transaction is part of that one.", "quantifier": "every log so far, and every tree of programs started by the command, each recording any events", "why_tests_cant": "Programs of any number and depth take part, connected only by an environment variable.", "anchors": ["git-branchless/src/commands/wrap.rs:14-79", "git-branchless-lib/src/core/eventlog.rs:618-656", "git-branchless-lib/src/git/run.rs:137-144", "git-branchless-test/src/lib.rs:2639-2646"]}
{"id": "C119", "title": "The result of a rebase on disk says whether it was done", "statement": "If a rebase on disk is said to have succeeded, every commit to be rewritten was rewritten or skipped, the branches and HEAD followed, and this was reported and recorded. If not, no branch was moved, nothing was reported or recorded, and commits were only added; if another operation was in progress or files had changes, nothing happened at all.", "quantifier": "every repository and request, and every way in which Git stops or goes on, given the merges", "why_tests_cant": "Git does the work, told by a text file what to do, and all that comes back is an exit code.", "anchors": ["git-branchless-lib/src/core/rewrite/execute.rs:1153-1191", "git-branchless-lib/src/core/rewrite/execute.rs:1327-1361", "git-branchless-lib/src/core/rewrite/plan.rs:154-173", "git-branchless/src/commands/amend.rs:236-314"]}
{"id": "C120", "title": "The warning after a rewrite names exactly what was left behind", "statement": "When Git has amended or rebased commits, the hook records all of it, and warns if and only if a commit still shown is on top of a rewritten one or a local branch is still at one. The numbers and names in the warning are exactly those of these commits and branches, each counted once. Running git restack then moves every one of them. An amendment in the middle of a rebase is not reported, and switching the warning off changes nothing else.", "quantifier": "every repository, log, and list of rewritten commits", "why_tests_cant": "The warning is computed from the graph, the references and the log with the new events; this is about all of these, and about what another command does with them.", "anchors": ["git-branchless-lib/src/core/rewrite/rewrite_hooks.rs:133-341", "git-branchless-lib/src/core/rewrite/evolve.rs:64-82", "git-branchless/src/commands/restack.rs:67-301"]}
{"id": "C121", "title": "A working copy put aside by a snapshot can be taken up again", "statement": "Creating a snapshot by command leaves the index and the files of HEAD as in HEAD and untracked files alone; restoring it then gives back the index and every file as it was. If the changes cannot be discarded, as in a repository without commits, the command fails and they are still there.", "quantifier": "every index, working copy and commit at HEAD", "why_tests_cant": "The command discards the user's changes, so all mixtures of staged, unstaged, deleted, unmerged and untracked files matter.", "anchors": ["git-branchless/src/commands/snapshot.rs:16-80", "git-branchless-lib/src/core/check_out.rs:201-355", "git-branchless-lib/src/git/snapshot.rs:107-228"]}
{"id": "C122", "title": "A rebase on disk can be finished after conflicts", "statement": "If the user resolves each conflict with some tree and continues, the rebase ends exactly as if the merges had given these trees: commits, branches, HEAD and records are as they would be. Skipping a commit that conflicts, or resolving it to nothing, changes nothing but that this commit is given up.", "quantifier": "every repository and request, every set of conflicts, and every answer to them", "why_tests_cant": "The user's trees can be anything, and what is skipped is only seen from the commit that Git happens to be at.", "anchors": ["git-branchless-lib/src/core/rewrite/execute.rs:1153-1191", "git-branchless-lib/src/core/rewrite/rewrite_hooks.rs:437-555"]}
{"id": "C123", "title": "Interactive undo restores the state on the screen", "statement": "Whatever keys are pressed in git undo --interactive, the program does not crash, and the screen tells the state at the cursor and the last transaction before it. The keys for the previous and the next state lead to the nearest states between transactions; the number given for a state leads back to it. Enter chooses the state on the screen, and confirming puts every reference back where it was then; quitting or declining changes nothing.", "quantifier": "every log and every sequence of keys", "why_tests_cant": "Sequences of keys of any length on logs of any shape; and what is shown, what is chosen and what is restored come from different functions.", "anchors": ["git-branchless-undo/src/lib.rs:430-647", "git-branchless-undo/src/lib.rs:783-996", "git-branchless-lib/src/core/eventlog.rs:1093-1190", "git-branchless-lib/src/core/eventlog.rs:1373-1387"]}
{"id": "C124", "title": "Testing in the working copy leaves everything as it was", "statement": "Running tests in the working copy ends with HEAD, the branch it was on, all references, the index and the files as they were, whatever commits were tested and whatever the command did to files; the same if the run was interrupted and the user aborts the rebase it leaves. Meanwhile no branch moves. If it cannot start, because of changes or another operation, nothing is different.", "quantifier": "every repository, list of commits, and effects of the command on index and files", "why_tests_cant": "The files are overwritten for every commit, and the command may do anything; what was there before must come back from all of these, and after an interruption at any point.", "anchors": ["git-branchless-test/src/lib.rs:671-766", "git-branchless-test/src/lib.rs:1204-1254", "git-branchless-test/src/lib.rs:2497-2614", "git-branchless-lib/src/core/rewrite/execute.rs:984-1191", "git-branchless-lib/src/git/repo.rs:968-981"]}
{"id": "C125", "title": "A command is the same by each of its names", "statement": "Calling the program as git-branchless-X, by a link in any directory, is the same as git-branchless X; hook-X is the same as hook X. The other arguments are passed on as they are. The commands which a rebase plan tells Git to run are hooks that exist, called with the commit of the plan.", "quantifier": "every path, name and list of arguments", "why_tests_cant": "Paths, names and arguments are arbitrary text, and old and new names must agree for all of them; the tests have a handful.", "anchors": ["git-branchless-opts/src/lib.rs:999-1059", "git-branchless-opts/src/lib.rs:186-241", "git-branchless/src/commands/mod.rs:229-238", "git-branchless-lib/src/core/rewrite/plan.rs:128-185"]}
{"id": "C126", "title": "What a tested command printed is shown as it was printed", "statement": "With one -v, the result of a test comes with what the command printed: up to ten lines whole, of more the first five and the last five with the true number of those between; with two, all of it. Without -v, or for a command run by hand, there is only the result. The result says whether the test is counted as passed, failed or skipped, and of one that passed, whether the command left changes.", "quantifier": "every text printed, every result, commit and number of flags", "why_tests_cant": "Output is arbitrary bytes of any length; tests show a few short texts. Whether two different results can look alike is a question about all pairs.", "anchors": ["git-branchless-test/src/lib.rs:84-105", "git-branchless-test/src/lib.rs:864-1128", "git-branchless-test/src/lib.rs:1727-1771"]}
{"id": "C127", "title": "What undo announces is what it does", "statement": "Before asking for confirmation, git undo lists what it will do, with a number for each step. The list tells what happens: if the same list is shown in two situations, then the same commit is checked out, the same references are created, moved and deleted, and the same commits are hidden and shown. Unless the user asked not to be asked, nothing is done if the line then read is anything else than y or Y.", "quantifier": "every log, every two states gone back to, every repository", "why_tests_cant": "That no two different effects are announced alike is a statement about all pairs of lists of events; a test compares one text with one effect.", "anchors": ["git-branchless-undo/src/lib.rs:112-428", "git-branchless-undo/src/lib.rs:783-942", "git-branchless-lib/src/git/reference.rs:168-223"]}
{"id": "C128", "title": "git test runs the command that was asked for, and its advice on naming commands works", "statement": "A command given to git test is the one that is run; without one it is the command configured under the name given, or under the name default, or in interactive mode the user's shell. If none is configured then nothing is run and the exit code is 1. Following the advice that is shown then, which is to run git config, makes the same invocation of git test run the command that was set, and changes no command of another name.", "quantifier": "every configuration, every name, every combination of options", "why_tests_cant": "Whether the advice works depends on the name, and there are infinitely many; the tests try one.", "anchors": ["git-branchless-test/src/lib.rs:148-201", "git-branchless-test/src/lib.rs:244-268"]}
{"id": "C129", "title": "Colours change how text looks and nothing else", "statement": "When colours are on, a terminal shows the same text as when they are off. Each piece of text is shown in the colour and with the effects it was given, also where pieces were joined or an effect was added to all of them, and whatever is written next is shown in the terminal's own style.", "quantifier": "every list of pieces of text and styles, whatever is written afterwards", "why_tests_cant": "Tests compare the bytes written for some styles; that a terminal is back in its own style after any sequence of pieces is a statement about all of them.", "anchors": ["git-branchless-lib/src/core/formatting.rs:234-251", "git-branchless-lib/src/core/formatting.rs:265-360", "git-branchless-lib/src/core/formatting.rs:368-430"]}
{"id": "C130", "title": "What was left in the editor is what is used", "statement": "When git reword opens an editor, it is the one that Git would open. The text that is left in it, without newlines at the end, is the one used. If the text is left as it was shown then nothing is reworded, also if the editor adds a newline at the end. If the editor fails then nothing is reworded.", "quantifier": "every editor, every setting, all commits and messages", "why_tests_cant": "Tests replace the editor; what an editor leaves behind and how it exits is not under their control.", "anchors": ["git-branchless-reword/src/lib.rs:61-83", "git-branchless-reword/src/lib.rs:379-558", "git-branchless-reword/src/dialoguer_edit.rs:59-160", "git-branchless-lib/src/core/config.rs:171-197"]}

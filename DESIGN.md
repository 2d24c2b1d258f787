# Formal model of git-branchless: design

The source under study is `/repo` (arxanas/git-branchless at the pinned commit).
It is read as text only.  Everything proved here is proved about Gallina models
of that source, written function by function, each definition citing the file
and lines it models.

## Layout

* `rocq/theories/*Model.v` – executable models, no proofs.
* `rocq/theories/*Spec.v` – specifications independent of the model's helpers.
* `rocq/theories/*Proofs.v` – lemmas.
* `rocq/theories/*Props.v` – the property theorems, `Print Assumptions` for each,
  and `Example`s showing that the hypotheses are met by concrete non-trivial inputs.
* `properties.jsonl` – the English properties.  `MANIFEST.json` – which theorems
  settle which property, and what is missing.  `seeded/LOG.jsonl` – wrong versions of the
  model and the theorems that notice them.

Naming: a theorem whose name ends in `_partial` proves less than the English
statement (the note in the manifest says what is missing); `_refuted` is a proof
that the English statement is false of the modelled code, with a witness.  Several
properties are partial because part of the English statement is refuted: the manifest
then says under which conditions it is proved.

## Trusted base

* Coq 8.16.1's kernel (and its virtual machine for examples that are computed).
* Axioms: none.  For each of the theorems named in MANIFEST.json, `Print Assumptions` answers "Closed under the
  global context": no axiom is used, neither one of our own nor one of a library.
* The reading of the Rust source: models cite the lines they model.  Integers of the source
  that count things are natural numbers unless a model says otherwise; panics and running out
  of fuel are separate outcomes.
* Components outside the source, through the contract stated in each model file; see "What is
  not modelled".

## Plan per property

| Property | Model and method |
|---|---|
| C01 | rows and SQL transaction of the event log as functions on lists; round trip by case analysis, induction over batches |
| C02 | transaction table as counter; invariant over every history of operations |
| C03 | replayer as a left fold; specification is "last event before the cursor that mentions the commit"; induction |
| C04 | every query depends only on the prefix; prefix lemma over appended logs |
| C05 | integer clamp; arithmetic |
| C06 | transaction navigation as in the code; specification by maximal runs; induction |
| C07 | segment specification by `app` decomposition |
| C08 | branch table vs a map fold over ref updates |
| C09 | as C08 for the main branch; expected to be refuted (deletions are skipped) |
| C10 | reference map semantics, inverse events in reverse order; induction over history |
| C11 | status at cursor vs status after inverse events; expected false in general, conditional version proved |
| C12 | inverse twice, by cases; reference part by C10 |
| C13 | filter over references; set specification, idempotence |
| C14 | fuelled chase with the termination measure (event ids increase); specification as a chain relation |
| C15 | set comprehension specification |
| C16 | byte-level line parser, packed refs table, event construction |
| C17 | text codec round trip; list semantics |
| C18, C19 | finite commit graph with reachability; set specifications |
| C20, C21 | expression evaluator over finite graphs; relational denotation |
| C22 | tokeniser-level grammar as recursive descent with the precedence of the lalrpop grammar |
| C23 | the unescape loop; expected to be refuted |
| C24 | substitution function; denotation of substitution |
| C25 | strings, prefix dispatch; regex/glob/date parsing are oracles |
| C26–C29 | constraint graph, depth-first search, plan generation as in the code |
| C30, C31 | plan interpreter with oracle cherry-picks |
| C32 | branch table rewrite |
| C33–C38 | trees as finite maps from names to file or subtree; fuel-free recursion on depth |
| C39, C40 | trailer codec; index stages as maps |
| C41–C43 | bisection state machine over finite graphs |
| C44–C46 | interleaving transition systems, invariants, progress measures |
| C47–C51 | string and list functions |
| C52, C53 | the clean-up of reference events as a function on lists; specification by the last event that names a reference |
| C54 | hexadecimal digits; round trip by induction on the width |
| C55, C56 | sets of commits by reachability; order of the listing by a topological invariant |
| C57 | fuel bounded by the size of the expression and the aliases |
| C58 | files kept by the hooks as text; round trip and state over a rebase |
| C59 | path of the search as a list; every link is a constraint |
| C60, C61 | the todo list as text; references that keep commits |
| C62 | trees as maps of paths; restricting both sides to the paths changed commutes with merging |
| C63 | list of branches, aliases and configuration as values |
| C64 | index with stages and trees of the commits of a snapshot; specification by what is in index and working copy |
| C65, C66 | message of a snapshot and its trailers; Git commands as functions on references; reachability |
| C67, C68 | steps in the graph; specification by relations chosen by the options; check-out as effect on HEAD |
| C69 | links between commits shown and lines written, by recursion with fuel; specification by permutation and position |
| C70–C72 | references, HEAD and log; deletion of branches through the hook of C16; set specifications |
| C73, C74 | plan of C26–C29 for all abandoned commits, carried out as in C30–C32; relation "newest version of" |
| C75, C76 | one plan after the other in the repository left by the one before; invariant of the loop |
| C77–C80 | requests computed from the arguments, carried out as in C30–C32; relations "goes onto" and "nearest commit given"; induction on the graph |
| C81 | as C77–C80, with requests for what makes way; relation "inserted onto" |
| C82 | as C77–C80, with requests to squash; the changes in the order of a list without repetition; relation "nearest commit not given" |
| C83 | the checks of the arguments; ranges as connected sets; induction over ranges and lists of first commits |
| C84–C86 | switching to the new commit, then requests for what is above carried out as in C77; relation "goes above"; names read as Git does; contents from C38 |
| C87, C88 | references, settings of branches and branches of remotes as maps; fetch and push by what they do; what others do meanwhile as a function; relation "pushed" closed under composition |
| C89, C90 | what `git commit` takes as a parameter, the rest as functions on HEAD and references; inserting shown to be moving the siblings onto HEAD (C77) |
| C91 | the commits made added to the graph; requests to put each commit on its own parents carried out as in C77, in a graph that has more commits than the rest knows of; relation "becomes" along parents |
| C92 | results as a map from contents and slug to the state of a file; histories of runs, crashes and cleanings; relation "ran before" on histories |
| C93, C94 | functions of options and configuration; a small reader of double-quoted shell words against the quoting |
| C95–C97, C99 | pull requests as a map from branches; description of a request as a function of graph, branches and requests, shown to depend only on what updating does not change; sorting by the order of the graph library as a parameter |
| C98 | characters as numbers with alphanumeric and lower case as parameters; words of a text as a relation |
| C100–C102 | the commands above as for C77; two runs of commands compared, with and without the new messages: every commit keeps its contents (invariant over the plan) |
| C103 | texts as lists of lines; the expression as a function from the end of a line, shown to find the same as the description of a link |
| C104–C107 | revisions as a map from numbers; `arc` and the server as parameters with what is expected of them as hypotheses; invariants over the list of commits updated; the rewriting as for C100 |
| C108, C109 | paths and patches of commits as functions; the loop over the roots with its cache shown to be the planner of C28 with a test that depends on the root only; each command traced to the root it comes from by induction over the traversal |
| C110 | two runs side by side: the replayed logs, the tables of replacements and the descriptions stay related step by step |
| C111, C112 | the table only grows and is injective, so that the last one names everything; descriptions against the log (C01, C10) and the texts (C103) |
| C113, C114 | Git's sequencer as a function on the store, labels, HEAD and the files the hooks use; the text of the instructions read back; an invariant along the traversal that plans them, relating the list of rewritten commits to the commits replayed so far; the deferred commits against the commits in the store |
| C115 | a simulation along the traversal that plans the commands: after each the store, the current commit, the labels, what became of each commit, and the skipped place of HEAD agree; then the ends (C29, C114) compared |
| C116 | the command as a function from text to lines; resolution by C21, the sort of the graph (C56), names of branches as lists over the sorted commits |
| C117 | the instructions run on a store with more objects give the same but for these, by induction over them (an invariant: names are faithful, parents and HEAD are there); then C115 |
| C118 | programs as trees of recordings and programs started, by induction over these; then the stored log (C01, C02) and the step back (C06) |
| C119 | Git stops with commits only added and the log waiting, by induction over the instructions; success from C114; a replacement as Git carries it out |
| C120 | the sets found by the loop over the rewritten commits, by induction; the sentence from their sizes and names; then C73 and C74 |
| C121 | the state after the reset, then C40 with it: nothing takes the place of missing files, and the tree checked out has nothing at untracked paths |
| C122 | picks that stop are answered by the user; the run equals one where the merges gave the user's trees (the names of commits are kept right along the way), then C114; skipping by computation, refuted for an empty destination |
| C123 | keys as a fold over screens; the screen is true by C06 and C07, choosing by induction over the keys, then C10; numbers by computation and the round trip of integers |
| C124 | states of HEAD, references, index, files and the rebase in progress; resets and commands as relations; invariants by induction over the tested commits; untracked and staged files refuted by concrete runs |
| C125 | text functions on the arguments; file names of paths by splitting; then by cases, for plans through the lines written for Git |
| C126 | lines of text and their abridgement as list functions; arithmetic on lengths; results told apart by cases on their texts |
| C127 | the lines announced as text; what is said is recovered from them by injectivity, and the effects depend only on what is said; lists by induction, with the numbers as separators |
| C128 | options and configuration to a command or advice; keys of the configuration as text, split at the last dot; good names characterised by the documentation of git config; induction on keys |
| C129 | styled text to bytes with escape codes; a terminal reading them as specification; induction on pieces, with the look after each piece as invariant |
| C130 | choice of the editor, the editor as an arbitrary function, the text read back; the text shown never ends in a newline, so trimming gives it back; on top of the model of messages of reword |

## What is modelled

Lines cited by the models, per source file.

| Source | Lines | Models |
|---|---|---|
| `git-branchless-hook/src/lib.rs` (675 lines) | 48-158, 201-292, 306-357, 418-427, 452-497, 503-610 | HookModel |
| `git-branchless-init/src/lib.rs` (735 lines) | 36-121, 125-173, 207-299, 318-376, 386-388, 472-518 | InitModel |
| `git-branchless-lib/src/core/check_out.rs` (355 lines) | 26-39, 65-103, 108-199, 241-355 | AmendModel, NavModel, RecCmdModel, SnapModel, TrailerModel |
| `git-branchless-lib/src/core/config.rs` (397 lines) | 90-98, 171-197, 218-221, 247-303 | EditorModel, NavModel, WarnModel |
| `git-branchless-lib/src/core/dag.rs` (800 lines) | 54, 88-116, 131-159, 199-253, 281-316, 338-365, 388-395, 402-416, 420-428, 457-510, 519-618, 627-643, 652-657, 661-664, 673-722, 745-800 | AmendModel, DagModel, MoveModel, NavModel, PlanModel, SlogModel |
| `git-branchless-lib/src/core/eventlog.rs` (1447 lines) | 30-38, 57-201, 205-451, 479-515, 530-577, 584-656, 669-691, 699-701, 706-727, 734-754, 767-791, 805-813, 822-835, 845-956, 960-1024, 1028-1049, 1059-1067, 1071-1087, 1093-1102, 1110-1117, 1122-1172, 1179-1190, 1196-1249, 1264-1279, 1291-1336, 1358-1365, 1373-1387, 1393-1396 | EventLogModel, HideModel, TextModel, WrapModel |
| `git-branchless-lib/src/core/formatting.rs` (430 lines) | 42-70, 234-251, 265-323, 327-339, 344-351, 355-360, 368-430 | ColourModel, HideModel, RewordModel |
| `git-branchless-lib/src/core/gc.rs` (128 lines) | 25-61, 74-96, 101-128 | ExecModel, UndoModel |
| `git-branchless-lib/src/core/node_descriptors.rs` (580 lines) | 31-82, 93-141, 157-172, 217-234, 252-291, 320-378, 398-441, 463-517 | ReportModel |
| `git-branchless-lib/src/core/repo_ext.rs` (156 lines) | 99-155 | ExecModel, HideModel, NavModel, SubmitModel |
| `git-branchless-lib/src/core/rewrite/evolve.rs` (82 lines) | 15-57, 64-82 | DagModel, EvolveModel |
| `git-branchless-lib/src/core/rewrite/execute.rs` (1366 lines) | 27-166, 176-316, 461-960, 984-1191, 1248-1366 | DiskModel, ExecModel, HideModel, RestackModel, SeqModel, SeqUserModel, TrapModel |
| `git-branchless-lib/src/core/rewrite/plan.rs` (1451 lines) | 22-28, 39-185, 209-246, 258-480, 505-507, 530-554, 570-598, 738-1016, 1020-1031, 1047-1062, 1082-1450 | ExecModel, FixModel, MoveModel, PhabModel, PlanCheckModel, PlanModel, RewordCmdModel, SeqModel, UpstreamModel |
| `git-branchless-lib/src/core/rewrite/rewrite_hooks.rs` (555 lines) | 47-341, 437-555 | HookModel, SeqModel, WarnModel |
| `git-branchless-lib/src/core/task.rs` (137 lines) | 15, 61-64, 89-98, 110-115, 120-136 | PoolModel |
| `git-branchless-lib/src/git/config.rs` (333 lines) | 192-219 | TestAliasModel |
| `git-branchless-lib/src/git/diff.rs` (385 lines) | 18-385 | RecordModel, Utf8Model |
| `git-branchless-lib/src/git/index.rs` (166 lines) | 12-34, 73-92, 96-106, 113-166 | SnapModel, TrailerModel, TreeModel |
| `git-branchless-lib/src/git/object.rs` (339 lines) | 153-168, 261-267, 295-315 | AmendModel, HookModel, RewordCmdModel, TrailerModel |
| `git-branchless-lib/src/git/oid.rs` (236 lines) | 29-45, 80-91, 141-165 | TextModel |
| `git-branchless-lib/src/git/reference.rs` (385 lines) | 168-208, 212-223, 277-296, 310-358 | EventLogModel, GithubModel, NavModel, ReportModel, SubmitModel, UndoShowModel |
| `git-branchless-lib/src/git/repo.rs` (1749 lines) | 295-309, 434-461, 671-699, 703-711, 806-827, 890-931, 968-1047, 1222-1247, 1258-1283, 1313-1477, 1509-1633 | AmendModel, ExecModel, HookModel, PlanModel, RewordModel, StatusModel, TrailerModel, TrapModel, TreeModel, UpstreamModel |
| `git-branchless-lib/src/git/run.rs` (489 lines) | 137-144, 387-465 | HideModel, WrapModel |
| `git-branchless-lib/src/git/snapshot.rs` (490 lines) | 41-43, 48-86, 107-228, 233-465, 469-489 | SnapModel, TrailerModel |
| `git-branchless-lib/src/git/status.rs` (256 lines) | 14-24, 29-62, 67-75, 91-121, 129-256 | ModeModel, SnapModel, StatusModel, TreeModel, Utf8Model |
| `git-branchless-lib/src/git/test.rs` (139 lines) | 44-47, 61-70, 107-132 | TestCacheModel |
| `git-branchless-lib/src/git/tree.rs` (515 lines) | 67-70, 97-106, 138-335, 340-354, 370-457, 469-487, 492-515 | TreeModel |
| `git-branchless-move/src/lib.rs` (515 lines) | 40-515 | MoveModel |
| `git-branchless-navigation/src/lib.rs` (625 lines) | 44-625 | NavModel |
| `git-branchless-navigation/src/prompt.rs` (164 lines) | 119-163 | NavModel |
| `git-branchless-opts/src/lib.rs` (1152 lines) | 101-144, 304-332, 999-1059 | ArgsModel, NavModel, RecCmdModel |
| `git-branchless-query/src/lib.rs` (115 lines) | 39-113 | QueryModel |
| `git-branchless-record/src/lib.rs` (568 lines) | 75-247, 419-568 | RecCmdModel |
| `git-branchless-revset/src/ast.rs` (49 lines) | 6-28, 36-48 | RevsetSyntaxModel |
| `git-branchless-revset/src/builtins.rs` (687 lines) | 29-687 | RevsetModel |
| `git-branchless-revset/src/eval.rs` (1479 lines) | 29-98, 110-227 | RevsetModel |
| `git-branchless-revset/src/grammar.lalrpop` (98 lines) | 9-98 | RevsetSyntaxModel |
| `git-branchless-revset/src/parser.rs` (670 lines) | 19-21 | RevsetSyntaxModel |
| `git-branchless-revset/src/pattern.rs` (272 lines) | 20-27, 51-125, 133-249 | RevsetModel |
| `git-branchless-revset/src/resolve.rs` (137 lines) | 74-117 | RevsetModel |
| `git-branchless-reword/src/dialoguer_edit.rs` (160 lines) | 59-160 | EditorModel |
| `git-branchless-reword/src/lib.rs` (902 lines) | 50-328, 356-374, 379-558, 562-622 | EditorModel, RewordCmdModel, RewordModel |
| `git-branchless-smartlog/src/lib.rs` (932 lines) | 70-120, 165-178, 205-258, 291-309, 314-373, 402-733, 834-848 | ReportModel, SlogModel |
| `git-branchless-submit/src/branch_forge.rs` (322 lines) | 32-321 | SubmitModel |
| `git-branchless-submit/src/github.rs` (1245 lines) | 43-59, 78-104, 120-492, 518-697, 724-744, 763-796, 1006-1017, 1080-1227 | GithubModel |
| `git-branchless-submit/src/lib.rs` (604 lines) | 55-75, 214-518 | GithubModel, PhabModel, SubmitModel |
| `git-branchless-submit/src/phabricator.rs` (1075 lines) | 108-125, 242-711, 771-940, 948-1050 | PhabModel |
| `git-branchless-test/src/lib.rs` (3041 lines) | 84-105, 148-201, 206-218, 244-371, 391-419, 566-657, 671-766, 790-862, 866-877, 895-1007, 1021-1144, 1161-1165, 1171-1185, 1190-1200, 1204-1278, 1356-1437, 1447, 1470-1493, 1511-1710, 1727-1771, 1914-2479, 2497-2614, 2639-2646, 2718-2798, 2815-2976 | BisectModel, FixModel, RunnerModel, TestAliasModel, TestCacheModel, TestOutputModel, TrapModel, WrapModel |
| `git-branchless-test/src/worker.rs` (161 lines) | 16-36, 44-161 | RunnerModel |
| `git-branchless-undo/src/lib.rs` (1090 lines) | 112-942, 946-996 | BrowseModel, UndoModel, UndoShowModel |
| `git-branchless/src/commands/amend.rs` (382 lines) | 36-382 | AmendModel |
| `git-branchless/src/commands/bug_report.rs` (340 lines) | 30-226 | ReportModel |
| `git-branchless/src/commands/hide.rs` (272 lines) | 24-183, 187-272 | HideModel |
| `git-branchless/src/commands/repair.rs` (130 lines) | 17-130 | HideModel |
| `git-branchless/src/commands/restack.rs` (363 lines) | 83-258, 264-363 | RestackModel |
| `git-branchless/src/commands/snapshot.rs` (80 lines) | 16-55 | SnapCmdModel |
| `git-branchless/src/commands/sync.rs` (501 lines) | 31-501 | SyncModel |
| `git-branchless/src/commands/wrap.rs` (79 lines) | 23-33, 53-79 | WrapModel |
| `scm-bisect/src/basic.rs` (583 lines) | 30-69, 75-114, 121-128, 147-183, 201-240 | BisectModel |
| `scm-bisect/src/search.rs` (459 lines) | 63-80, 84-92, 168-177, 182-200, 204-207, 218-224, 230-241, 264-396, 400-458 | BisectModel |

## What is not modelled

* **Output for people**: glyphs, columns, progress meters, descriptions of commits and
  errors (`core/formatting.rs`, `core/effects.rs`, `core/node_descriptors.rs` except where cited),
  the terminal interfaces of `git undo` (except the keys and the state chosen), `git record`, the commit prompt, and what an editor does.
* **Command line and start-up**: `git-branchless-opts` (but for `rewrite_args`), `git-branchless-invoke`, `main.rs` files,
  the parts of `bug_report` other than the events, telemetry and tracing.
* **Git itself**: commands run by the program are functions or relations on HEAD, references,
  index and log, written after Git's documentation: `checkout`, `reset`, `update-index`,
  `status` in NavModel, SnapModel, AmendModel and TrailerModel; `rebase` on disk and check-outs that end a
  rebase are parameters in ExecModel, RestackModel and SyncModel, while SeqModel describes the rebase (labels, picks,
  merges, hooks, the list of rewritten commits) without the working copy and without going on after a conflict in a merge; `git fetch` is not part of
  SyncModel.
* **libgit2**: looking up objects, references and configuration; the three-way merge of blobs
  is an oracle in TreeModel; `message_prettify` (RewordModel) and trailers (TrailerModel) follow
  its published source; callbacks of a diff are an input of RecordModel.
* **The regex crate** is a matcher for one expression in StatusModel; compiled patterns of
  revsets are the sets they match.
* **eden_dag** is a finite graph with relational queries (DagModel); the choice among several
  greatest common ancestors is an oracle (SlogModel).
* **SQLite** is a table with all-or-nothing transactions.
* **Hash maps** are gone through in an order given from outside.
* **scm-record** types are modelled as far as they are built (RecordModel); choosing lines is not.
* **Commits applied upstream**: the paths a commit touches and its patch identifier (libgit2) are functions of the commit; in the models of commands the test is a parameter of the planner, in `UpstreamModel.v` it is computed.
* **`git fetch` and `git push`** are described in SubmitModel by what they do to references; `gh` is described in
  GithubModel by what it does to pull requests, and `arc` in PhabSpec by what it is expected to do to commits and
  revisions; `wrap` and the garbage collector's choice of references
  outside the lines cited are not modelled.
* **`git test`**: choosing commits, worktrees and running the command; its result is an input of
  TestCacheModel and FixModel. JSON of results is serde's. The search strategies are in RunnerModel and BisectModel,
  and what becomes of the working copy in TrapModel, where Git's resets are relations.

No model cites these files: `git-branchless-invoke/src/lib.rs`, `git-branchless-lib/src/core/effects.rs`, `git-branchless-lib/src/core/mod.rs`, `git-branchless-lib/src/core/rewrite/mod.rs`, `git-branchless-lib/src/git/mod.rs`, `git-branchless-lib/src/lib.rs`, `git-branchless-lib/src/testing.rs`, `git-branchless-lib/src/util.rs`, `git-branchless-revset/src/lib.rs`, `git-branchless-undo/src/tui/cursive.rs`, `git-branchless-undo/src/tui/mod.rs`, `git-branchless-undo/src/tui/testing.rs`, `git-branchless/src/commands/mod.rs`, `git-branchless/src/lib.rs`, `scm-bisect/src/lib.rs`, `scm-bisect/src/testing.rs`.

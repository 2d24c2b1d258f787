(** Model of what a test of one commit reports and how results are kept
    (git-branchless-test/src/lib.rs, git-branchless-lib/src/git/test.rs), of how
    the options of [git test] are settled, and of the quoting used in hints.

    Left out: the text of messages, the files holding what the command printed,
    errors of the file system.  A result is kept as its fields: the JSON text
    is serde's.  A directory of results is named by the tree and the slug; that
    the file system accepts the slug as the name of one directory (it is not
    empty, [.], [..] or too long) is assumed. *)
From Verif Require Import Base TextModel SnapModel.
Local Open Scope string_scope.

(** ** Outcomes *)

(** [FixInfo] (git-branchless-test/src/lib.rs:850-862). *)
Record fix_info := mk_fi { fi_head : option oid; fi_tree : option oid }.
Global Instance fix_info_eq_dec : EqDecision fix_info. Proof. solve_decision. Defined.

(** [TestStatus] (git-branchless-test/src/lib.rs:790-848). *)
Inductive outcome :=
| OCheckoutFailed | OSpawnFailed | OSignalled | OInProgress | OReadCacheFailed
| OIndeterminate (code : Z) | OAbort (code : Z)
| OFailed (cached : bool) (code : Z) (interactive : bool)
| OPassed (cached : bool) (fixed : fix_info) (interactive : bool).
Global Instance outcome_eq_dec : EqDecision outcome. Proof. solve_decision. Defined.

(** ** The cache *)

(** [make_test_command_slug] (git-branchless-lib/src/git/test.rs:44-47). *)
Fixpoint slug (s : string) : string :=
  match s with
  | EmptyString => EmptyString
  | String c s' =>
      if (Ascii.eqb c "/" || Ascii.eqb c " " || Ascii.eqb c "010")%bool then "__" ++ slug s'
      else String c (slug s')
  end.

(** [SerializedTestResult] (git-branchless-lib/src/git/test.rs:107-116); object
    names are kept as text (:55-70). *)
Record saved := mk_saved {
  sv_command : string; sv_code : Z; sv_head : option string; sv_tree : option string; sv_interactive : bool }.
Global Instance saved_eq_dec : EqDecision saved. Proof. solve_decision. Defined.

(** The file [result] of a directory: [Unreadable] is not text at all,
    [Garbage] is text that is not a result. *)
Inductive result_file := Absent | Empty | Unreadable | Garbage | Result (s : saved).
Global Instance result_file_eq_dec : EqDecision result_file. Proof. solve_decision. Defined.

(** The directories that exist: [get_test_tree_dir]
    (git-branchless-lib/src/git/test.rs:118-132) joined with the slug
    (git-branchless-test/src/lib.rs:2374-2380). *)
Notation cache := (gmap (oid * string) result_file).

(** Reading an object name back (git-branchless-lib/src/git/test.rs:61-70). *)
Definition read_name (s : option string) : option (option oid) :=
  match s with
  | None => Some None
  | Some s => match oid_from_string s with Some o => Some (Some o) | None => None end
  end.

(** git-branchless-test/src/lib.rs:2410-2453. *)
Definition read_saved (s : saved) : outcome :=
  match read_name (sv_head s), read_name (sv_tree s) with
  | Some h, Some t =>
      if decide (sv_code s = 0%Z) then OPassed true (mk_fi h t) (sv_interactive s)
      else if decide (sv_code s = 125%Z) then OIndeterminate (sv_code s)
      else if decide (sv_code s = 127%Z) then OAbort (sv_code s)
      else OFailed true (sv_code s) (sv_interactive s)
  | _, _ => OReadCacheFailed
  end.

(** [ResolvedTestOptions], the part used here (git-branchless-test/src/lib.rs:206-218). *)
Record run_options := mk_ro { ro_command : string; ro_cache : bool; ro_interactive : bool }.
Definition key (o : run_options) (tree : oid) : oid * string := (tree, slug (ro_command o)).

(** [TestFilesResult] (git-branchless-test/src/lib.rs:2323-2327). *)
Inductive files := Cached (x : outcome) | NotCached.

(** [make_test_files] (git-branchless-test/src/lib.rs:2329-2479); [busy] are the
    directories that somebody else holds the lock of. *)
Definition make_test_files (busy : gset (oid * string)) (o : run_options) (tree : oid) (k : cache) : files * cache :=
  if negb (ro_cache o) then (NotCached, k)
  else
    let here := key o tree in
    let found := default Absent (k !! here) in
    if bool_decide (here ∈ busy) then (Cached OInProgress, <[here := found]> k)
    else match found with
         | Result s => (Cached (read_saved s), k)
         | Garbage => (Cached OReadCacheFailed, k)
         | Absent | Empty | Unreadable => (NotCached, <[here := Empty]> k)
         end.

(** What happens when the command is to be run: there is no directory to run
    in, it cannot be started, a signal ends it, or it exits; then the state of
    the directory is as described. *)
Record left_behind := mk_lb { lb_head : option oid; lb_changes : changes_type; lb_tree : moid }.
Inductive run_result := NoDirectory | NoStart | Killed | Exited (code : Z) (after : left_behind).

(** The fix (git-branchless-test/src/lib.rs:2721-2751). *)
Definition fix_of (a : left_behind) : fix_info :=
  mk_fi (lb_head a)
    match lb_changes a with
    | NoChanges | Unstaged => match lb_tree a with NonZero t => Some t | Zero => None end
    | Staged | Conflicts => None
    end.

(** git-branchless-test/src/lib.rs:2718-2768. *)
Definition status_of (o : run_options) (code : Z) (a : left_behind) : outcome :=
  if decide (code = 0%Z) then OPassed false (fix_of a) (ro_interactive o)
  else if decide (code = 125%Z) then OIndeterminate code
  else if decide (code = 127%Z) then OAbort code
  else OFailed false code (ro_interactive o).

(** git-branchless-test/src/lib.rs:2770-2798. *)
Definition saved_of (o : run_options) (code : Z) (a : left_behind) : saved :=
  let fi := match status_of o code a with OPassed _ fi _ => Some fi | _ => None end in
  mk_saved (ro_command o) code
    match fi with Some fi => option_map oid_to_string (fi_head fi) | None => None end
    match fi with Some fi => option_map oid_to_string (fi_tree fi) | None => None end
    (ro_interactive o).

(** [run_test] (git-branchless-test/src/lib.rs:2184-2308) with [test_commit]
    (:2617-2811).  [res] is what running the command comes to, should it be run. *)
Definition run_test (busy : gset (oid * string)) (o : run_options) (tree : oid) (res : run_result) (k : cache)
  : outcome * cache :=
  match make_test_files busy o tree k with
  | (Cached x, k1) => (x, k1)
  | (NotCached, k1) =>
      match res with
      | NoDirectory => (OCheckoutFailed, k1)
      | NoStart => (OSpawnFailed, k1)
      | Killed => (OSignalled, k1)
      | Exited code a =>
          (status_of o code a,
           if ro_cache o then <[key o tree := Result (saved_of o code a)]> k1 else k1)
      end
  end.

(** [subcommand_clean] (git-branchless-test/src/lib.rs:2912-2976) over the trees
    of the commits given: the number reported and the cache. *)
Definition clean_one (tree : oid) (k : cache) : bool * cache :=
  (bool_decide (tree ∈ (map (fun x => x.1.1) (map_to_list k))), filter (fun x => x.1.1 <> tree) k).
Fixpoint clean (trees : list oid) (k : cache) : nat * cache :=
  match trees with
  | [] => (0%nat, k)
  | t :: ts =>
      let (b, k1) := clean_one t k in
      let (n, k2) := clean ts k1 in
      ((if b then S n else n), k2)
  end.

(** ** Histories *)

(** A run that is cut short leaves the file as it was created, or holding part
    of a result. *)
Inductive op :=
| Run (busy : gset (oid * string)) (o : run_options) (tree : oid) (res : run_result)
| CutShort (busy : gset (oid * string)) (o : run_options) (tree : oid) (torn : bool)
| Show (busy : gset (oid * string)) (o : run_options) (tree : oid)
| Clean (trees : list oid).

(** [subcommand_show] (git-branchless-test/src/lib.rs:2815-2909) looks with
    [make_test_files] and runs nothing. *)
Definition apply_op (x : op) (k : cache) : cache :=
  match x with
  | Run busy o tree res => (run_test busy o tree res k).2
  | CutShort busy o tree torn =>
      match make_test_files busy o tree k with
      | (Cached _, k1) => k1
      | (NotCached, k1) => if (torn && ro_cache o)%bool then <[key o tree := Garbage]> k1 else k1
      end
  | Show busy o tree => (make_test_files busy o tree k).2
  | Clean trees => (clean trees k).2
  end.
Definition cache_after (h : list op) : cache := fold_left (fun k x => apply_op x k) h ∅.

(** ** Options (git-branchless-test/src/lib.rs:269-371) *)

Inductive strategy := WorkingCopy | Worktree.
Global Instance strategy_eq_dec : EqDecision strategy. Proof. solve_decision. Defined.

(** The command line: [--strategy], [--interactive], [--jobs]. *)
Record raw_options := mk_raw { raw_strategy : option strategy; raw_interactive : bool; raw_jobs : option N }.
(** The configuration: [branchless.test.strategy] ([Some None] is a value that
    is not a strategy), [branchless.test.jobs]; and the number of processors. *)
Record test_config := mk_tc { tc_strategy : option (option strategy); tc_jobs : option Z; tc_cpus : N }.

Inductive resolved :=
| BadStrategy | BadJobs | JobsInteractive | JobsWorkingCopy
| Resolved (jobs : N) (s : strategy) (interactive : bool).

(** git-branchless-test/src/lib.rs:269-297. *)
Definition configured_strategy (r : raw_options) (c : test_config) : option strategy :=
  match raw_strategy r with
  | Some s => Some s
  | None => match tc_strategy c with None => Some WorkingCopy | Some s => s end
  end.
(** git-branchless-test/src/lib.rs:299-314. *)
Definition configured_jobs (c : test_config) : option (option N) :=
  match tc_jobs c with
  | None => Some None
  | Some j => if decide (j < 0)%Z then None else Some (Some (Z.to_N j))
  end.
(** git-branchless-test/src/lib.rs:315-371. *)
Definition resolve_jobs (r : raw_options) (c : test_config) : resolved :=
  let finish n s i := Resolved (if decide (n = 0%N) then tc_cpus c else n) s i in
  match configured_strategy r c with
  | None => BadStrategy
  | Some cs =>
      match configured_jobs c with
      | None => BadJobs
      | Some cj =>
          match raw_jobs r with
          | None =>
              match raw_strategy r, raw_interactive r with
              | Some WorkingCopy, i => finish 1%N WorkingCopy i
              | Some Worktree, true => finish 1%N Worktree true
              | Some Worktree, false => finish (default 1%N cj) Worktree false
              | None, true => finish 1%N cs true
              | None, false => finish (default 1%N cj) cs false
              end
          | Some j =>
              if decide (j = 1%N) then finish 1%N cs (raw_interactive r)
              else if raw_interactive r then JobsInteractive
              else match raw_strategy r with
                   | None | Some Worktree => finish j Worktree false
                   | Some WorkingCopy => JobsWorkingCopy
                   end
          end
      end
  end.

(** ** Quoting *)

(** [shell_escape] (git-branchless-test/src/lib.rs:1131-1144). *)
Fixpoint escape_all (s : string) : string :=
  match s with
  | EmptyString => EmptyString
  | String c s' =>
      if Ascii.eqb c "034" then String "092" (String "034" (escape_all s'))
      else if Ascii.eqb c "092" then
        String "092" (String "092" (String "092" (String "092" (escape_all s'))))
      else String c (escape_all s')
  end.
Definition shell_escape (s : string) : string :=
  String "034" (escape_all s ++ String "034" EmptyString).

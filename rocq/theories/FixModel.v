(** Model of [git test fix] (git-branchless-test/src/lib.rs) from the results of the tests on.

    Not modelled: choosing the commits, running the tests (see RunnerModel and TestCacheModel)
    and what the command tested does to the repository meanwhile, other than by its results;
    the messages.  Commits made are left out when the command ends with an error before the
    plan is made.  The rest is as for [git restack]. *)
From Verif Require Import Base TextModel EventLogModel DagModel StrModel HookModel PlanModel ExecModel HideModel RestackModel SyncModel
  SnapModel AmendModel TestCacheModel.
Local Open Scope string_scope.
Local Open Scope list_scope.

(** The surroundings, and which trees are in the repository. *)
Record fix_setting := mk_fs { fs_restack : restack_env; fs_tree : oid -> bool }.

(** The numbers of the summary and whether it is one of success (git-branchless-test/src/lib.rs:1727-1771,
    1888-1911); [git test fix] does not search (:551). *)
Inductive counted := CountPassed | CountFailed | CountSkipped.
Definition count_of (x : outcome) : counted :=
  match x with
  | OCheckoutFailed | OSpawnFailed | OInProgress | OReadCacheFailed | OSignalled | OIndeterminate _ => CountSkipped
  | OAbort _ | OFailed _ _ _ => CountFailed
  | OPassed _ _ _ => CountPassed
  end.
Definition all_passed (outs : list (oid * outcome)) : bool :=
  forallb (fun x => match count_of x.2 with CountPassed => true | _ => false end) outs.

(** The commits for which there are contents (git-branchless-test/src/lib.rs:1927-1959). *)
Definition fixed_tree (x : oid * outcome) : list (oid * oid) :=
  match x.2 with OPassed _ f _ => match fi_tree f with Some t => [(x.1, t)] | None => [] end | _ => [] end.
Definition fixed_trees (outs : list (oid * outcome)) : list (oid * oid) := flat_map fixed_tree outs.

(** [Fix] (git-branchless-test/src/lib.rs:1961-1966), and making them (:1967-2009). *)
Record a_fix := mk_fix { fx_old : oid; fx_parents : list oid; fx_new : oid }.
Definition fixed_object (x : object) (t : oid) : object :=
  mk_object (mk_commit (commit_parents (ob_commit x)) t) (ob_author x) (ob_committer x) (ob_message x).
Fixpoint make_fixes (s : fix_setting) (l : list (oid * oid)) (st : store) : option (list a_fix * store) :=
  match l with
  | [] => Some ([], st)
  | (c, t) :: l' =>
      match st !! c with
      | None => None
      | Some x =>
          if (ee_decodes (re_exec (fs_restack s)) (ob_message x)
              && forallb (fun p => bool_decide (is_Some (st !! p))) (commit_parents (ob_commit x)) && fs_tree s t)%bool then
            let (o, st1) := add_object (re_exec (fs_restack s)) (fixed_object x t) st in
            match make_fixes s l' st1 with
            | None => None
            | Some (fs, st2) => Some (if decide (c = o) then fs else mk_fix c (commit_parents (ob_commit x)) o :: fs, st2)
            end
          else None
      end
  end.

(** The graph with the commits made ([Dag::sync_from_oids], git-branchless-test/src/lib.rs:2011-2026). *)
Definition with_fixes (fs : list a_fix) (d : dag) : dag := fold_left (fun d f => with_commit (fx_new f) (fx_parents f) d) fs d.

(** The requests made so far ([RebasePlanBuilder::replace_commit], [move_subtree],
    core/rewrite/plan.rs:1082-1096, 1020-1031): replacing a commit twice is an error, moving one
    onto nothing panics. *)
Inductive requests := Requests (cs : list constraint) (replace : gmap oid oid) | RequestFails | RequestPanics.
Definition request (c : oid) (ps : list oid) (o : oid) (q : requests) : requests :=
  match q with
  | Requests cs m =>
      if bool_decide (is_Some (m !! c)) then RequestFails
      else match ps with [] => RequestPanics | _ => Requests (cs ++ [MoveSubtree ps c]) (<[c := o]> m) end
  | q => q
  end.
(** For the fixes (git-branchless-test/src/lib.rs:2028-2038), and for the commits above
    (:2040-2060). *)
Definition request_fixes (fs : list a_fix) : requests :=
  fold_left (fun q f => request (fx_old f) (fx_parents f) (fx_new f) q) fs (Requests [] ∅).
Definition commits_above_fixes (d : dag) (fs : list a_fix) : commit_set :=
  filter_visible d (descendants (dag_graph d) (list_to_set (List.map fx_old fs))) ∖ list_to_set (List.map fx_old fs).
Definition request_above (st : store) (c : oid) (q : requests) : requests :=
  match q with
  | Requests _ _ => match st !! c with None => RequestFails | Some x => request c (commit_parents (ob_commit x)) c q end
  | q => q
  end.
Definition all_requests (s : fix_setting) (d : dag) (fs : list a_fix) (st : store) : requests :=
  fold_left (fun q c => request_above st c q) (re_order (fs_restack s) (commits_above_fixes d fs)) (request_fixes fs).

(** Execution is in memory (git-branchless-test/src/lib.rs:391-419). *)
Definition forced_in_memory (e : restack_env) : restack_env :=
  mk_re (re_hide e) (re_exec e) (re_upstream e) (re_order e) (re_sort e) (re_iter e) (re_disk e) (re_checked_out e) (re_force e) true
    (re_on_disk e) (re_resolve e).

(** How the command ends: an exit code of zero is that of [NoFixes], [DryRun] and [Fixed]. *)
Inductive fix_end :=
| OnDiskRefused | FixesPublic | TestsFailed | FixFails | FixPanics | FixNotPlanned | NoFixes | DryRun | FixExit | FixStopped (at_ : oid) | Fixed.
Record fix_result := mk_fr { fr_repo : rrepo; fr_rewritten : option (gmap oid moid); fr_report : list (oid * moid); fr_end : fix_end }.

(** What is reported about each fix (git-branchless-test/src/lib.rs:2104-2169). *)
Definition report (fs : list a_fix) (rw : gmap oid moid) : list (oid * moid) :=
  List.map (fun f => (fx_old f, default (NonZero (fx_new f)) (rw !! fx_old f))) fs.
Definition fixes_map (fs : list a_fix) : gmap oid moid := list_to_map (List.map (fun f => (fx_old f, NonZero (fx_new f))) fs).

(** [apply_fixes] (git-branchless-test/src/lib.rs:1914-2182). *)
Definition apply_fixes (s : fix_setting) (ts : timestamp) (tx : txid) (dry_run : bool) (d : dag) (allowed : gset oid)
  (outs : list (oid * outcome)) (r : rrepo) : fix_result :=
  let e := forced_in_memory (fs_restack s) in
  match make_fixes s (fixed_trees outs) (rr_store r) with
  | None => mk_fr r None [] FixFails
  | Some (fs, st) =>
      let r := mk_rrepo st (rr_repo r) in
      let d := with_fixes fs d in
      match all_requests s d fs st with
      | RequestFails => mk_fr r None [] FixFails
      | RequestPanics => mk_fr r None [] FixPanics
      | Requests cs replace =>
          match build d (mk_pe (find_object st) replace (re_upstream e) (re_sort e)) allowed cs with
          | Done BuiltNothing => mk_fr r None [] NoFixes
          | Done (BuiltPlan dest cmds) =>
              if dry_run then mk_fr r None (report fs (fixes_map fs)) DryRun
              else
                let (r', res) := run_plan e ts tx dest cmds r in
                match res with
                | Succeeded rw => mk_fr r' rw (report fs (default (fixes_map fs) rw)) Fixed
                | DeclinedToMerge c => mk_fr r' None [] (FixStopped c)
                | FailedExit => mk_fr r' None [] FixExit
                | InternalError => mk_fr r' None [] FixFails
                end
          | Done (BuiltCycle _) | Done (BuiltIllegal _) => mk_fr r None [] FixNotPlanned
          | _ => mk_fr r None [] FixFails
          end
      end
  end.

(** [git test fix] on the commits [tested] (git-branchless-test/src/lib.rs:566-657 with :373-431), when the
    tests come to [outs]. *)
Definition test_fix (s : fix_setting) (ts : timestamp) (tx : txid) (dry_run : bool) (tested : commit_set)
  (outs : list (oid * outcome)) (r : rrepo) : fix_result :=
  let e := fs_restack s in
  match open_repo (re_hide e) (rr_repo r) with
  | None => mk_fr r None [] FixFails
  | Some d =>
      if re_on_disk e then mk_fr r None [] OnDiskRefused
      else match verify_rewrite_set d (re_force e) tested with
      | None => mk_fr r None [] FixesPublic
      | Some allowed =>
          if all_passed outs then apply_fixes s ts tx dry_run d allowed outs r
          else mk_fr r None [] TestsFailed
      end
  end.

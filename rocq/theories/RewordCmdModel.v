(** Model of the rewriting done by [git reword] (git-branchless-reword/src/lib.rs).

    Messages are numbers, as in the files Exec*; asking for them is in RewordModel, and its
    answer is given here.  The commits are given as a set.  Not modelled: what is printed. *)
From Verif Require Import Base TextModel EventLogModel DagModel StrModel HookModel PlanModel ExecModel HideModel RestackModel SyncModel
  RecCmdModel TestCacheModel FixModel.
Local Open Scope string_scope.
Local Open Scope list_scope.

(** Where the messages come from (git-branchless-reword/src/lib.rs:50-59): asked for, with what comes of
    that ([None] if nothing is to be reworded or asking failed), or with --fixup the commits given
    to it, each with the message for fixing it up. *)
Inductive message_source := Asked (answer : option (gmap oid N)) | FixUpOf (commits : commit_set) (message : oid -> N).

(** The messages (git-branchless-reword/src/lib.rs:138-252): with --fixup there must be one commit to fix
    up, an ancestor of all that are reworded. *)
Inductive message_result := GotMessages (m : gmap oid N) | NotOne (n : nat) | NotAncestor | NoMessages.
Definition messages_for (order : commit_set -> list oid) (d : dag) (given : commit_set) (src : message_source) : message_result :=
  match src with
  | Asked (Some m) => GotMessages m
  | Asked None => NoMessages
  | FixUpOf commits message =>
      match order commits with
      | [c] =>
          if decide (c ∈ common_ancestors (dag_graph d) given)
          then GotMessages (list_to_map (List.map (fun o => (o, message c)) (order given)))
          else NotAncestor
      | l => NotOne (length l)
      end
  end.

(** [Commit::amend_commit] with a message only (git-branchless-lib/src/git/object.rs:295-315). *)
Definition reworded_object (x : object) (m : N) : object :=
  mk_object (mk_commit (commit_parents (ob_commit x)) (commit_tree (ob_commit x))) (ob_author x) (ob_committer x) m.

(** The requests (git-branchless-reword/src/lib.rs:254-267 with core/rewrite/plan.rs:1020-1031, 1082-1096): a commit
    cannot be moved onto nothing, nor be replaced twice; commits made until then remain. *)
Fixpoint reword_requests (ee : exec_env) (messages : gmap oid N) (l : list oid) (st : store) (cs : list constraint) (replace : gmap oid oid)
  : store * requests :=
  match l with
  | [] => (st, Requests cs replace)
  | c :: l' =>
      match messages !! c, st !! c with
      | None, _ => (st, RequestPanics)
      | _, None => (st, RequestFails)
      | Some m, Some x =>
          let (o, st1) := add_object ee (reworded_object x m) st in
          match commit_parents (ob_commit x) with
          | [] => (st1, RequestPanics)
          | ps => if bool_decide (is_Some (replace !! c)) then (st1, RequestFails)
                  else reword_requests ee messages l' st1 (cs ++ [MoveSubtree ps c]) (<[c := o]> replace)
          end
      end
  end.

(** How the command ends; the exit code is zero for [Reworded] only. *)
Inductive reword_end :=
| RewordsPublic | FixupNotOne (n : nat) | FixupNotAncestor | RewordAborted | RewordPanics | RewordFails | RewordNotPlanned
| RewordStopped (at_ : oid) | RewordExit | Reworded.
Record reword_result := mk_rwr { rwr_repo : rrepo; rwr_rewritten : option (gmap oid moid); rwr_end : reword_end }.

(** Making the plan and carrying it out (git-branchless-reword/src/lib.rs:254-326): nothing is looked for
    upstream (:117-122), and it is done in memory (:289-296).  A plan with nothing to do is an error. *)
Definition reword_commits (e : restack_env) (ts : timestamp) (tx : txid) (d : dag) (allowed : gset oid) (given : commit_set)
  (messages : gmap oid N) (r : rrepo) : reword_result :=
  match reword_requests (re_exec e) messages (re_order e given) (rr_store r) [] ∅ with
  | (st, RequestFails) => mk_rwr (mk_rrepo st (rr_repo r)) None RewordFails
  | (st, RequestPanics) => mk_rwr (mk_rrepo st (rr_repo r)) None RewordPanics
  | (st, Requests cs replace) =>
      let r := mk_rrepo st (rr_repo r) in
      match build d (mk_pe (find_object st) replace (fun _ _ => false) (re_sort e)) allowed cs with
      | Done BuiltNothing => mk_rwr r None RewordFails
      | Done (BuiltPlan dest cmds) =>
          let (r', res) := run_plan (in_memory_only e) ts tx dest cmds r in
          match res with
          | Succeeded rw => mk_rwr r' rw Reworded
          | DeclinedToMerge c => mk_rwr r' None (RewordStopped c)
          | FailedExit => mk_rwr r' None RewordExit
          | InternalError => mk_rwr r' None RewordFails
          end
      | Done (BuiltCycle _) | Done (BuiltIllegal _) => mk_rwr r None RewordNotPlanned
      | _ => mk_rwr r None RewordFails
      end
  end.

(** [reword] (git-branchless-reword/src/lib.rs:84-328) for the commits [given]. *)
Definition reword (e : restack_env) (ts : timestamp) (tx : txid) (given : commit_set) (src : message_source) (r : rrepo) : reword_result :=
  match open_repo (re_hide e) (rr_repo r) with
  | None => mk_rwr r None RewordFails
  | Some d =>
      match verify_rewrite_set d (re_force e) given with
      | None => mk_rwr r None RewordsPublic
      | Some allowed =>
          match messages_for (re_order e) d given src with
          | NotOne n => mk_rwr r None (FixupNotOne n)
          | NotAncestor => mk_rwr r None FixupNotAncestor
          | NoMessages => mk_rwr r None RewordAborted
          | GotMessages m => reword_commits e ts tx d allowed given m r
          end
      end
  end.

(** Model of an on-disk rebase that goes on after conflicts: the user resolves a
    conflict and runs [git rebase --continue], or runs [git rebase --skip]
    (git-branchless-lib/src/core/rewrite/execute.rs:1153-1191 leaves them to it).

    Git is as in SeqModel.v, and from its source (sequencer.c, [sequencer_continue]):
    if the user's tree differs from that of HEAD, the commit is made with it, else
    none is made.  Whether Git notes a commit as rewritten to HEAD when none was made
    for it is a parameter.  Not modelled: conflicts of merges, commits the user makes
    by hand, and changes to the list of instructions. *)
From Verif Require Import Base TextModel EventLogModel DagModel StrModel HookModel PlanModel ExecModel SeqModel.
Local Open Scope string_scope.
Local Open Scope list_scope.

(** What the user does about a commit that does not apply on HEAD
    ([git rebase --continue] or [--skip]; execute.rs:1153-1191). *)
Inductive answer := Resolved (t : oid) | Skipped.

Definition seq_answer (v : git_env) (noted : bool) (a : answer) (c : oid) (s : git_state) : seq_result :=
  match hs_head (gs_hooks s), gs_store s !! c with
  | Some h, Some orig =>
      match gs_store s !! h with
      | Some x =>
          let unmade := Went (if noted then note_rewritten c s else s) in
          match a with
          | Resolved t =>
              if N.eqb t (commit_tree (ob_commit x)) then unmade
              else Went (note_rewritten c (make_commit v orig [h] t s))
          | Skipped => unmade
          end
      | None => Wrong
      end
  | _, _ => Wrong
  end.

(** One instruction: a pick that stops is answered (execute.rs:1153-1191). *)
Definition user_words (v : git_env) (noted : bool) (ans : oid -> oid -> answer) (ws : list string) (s : git_state) : seq_result :=
  match parse_todo ws with
  | Some (TPick c) =>
      match seq_pick v c s, hs_head (gs_hooks s) with
      | Halted s', Some h => seq_answer v noted (ans c h) c s'
      | r, _ => r
      end
  | _ => seq_words v ws s
  end.
(** All of git-rebase-todo (execute.rs:1095-1113 writes it). *)
Definition run_user (v : git_env) (noted : bool) (ans : oid -> oid -> answer) (todo : string) (s : git_state) : seq_result :=
  fold_left (fun r ws => sbind r (user_words v noted ans ws)) (List.map (split_on " ") (lines todo)) (Went s).

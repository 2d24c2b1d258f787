(** Model of an on-disk rebase: Git reading the instructions that were written for
    it ([rebase_on_disk], git-branchless-lib/src/core/rewrite/execute.rs:1153-1191,
    runs [git rebase --continue]) and calling the hooks in
    git-branchless-lib/src/core/rewrite/rewrite_hooks.rs.

    Git itself is not in /repo.  What is said here about its instructions is what
    git-rebase(1) and its source (sequencer.c) say: [label] and [reset], [pick],
    [merge -C] and [exec], the list of rewritten commits, and the hooks that are
    called.  Merging trees is a parameter.  Not modelled: the working copy (it has
    no changes when the rebase starts).  Going on after a conflict is in
    SeqUserModel.v. *)
From stdpp Require Import sorting.
From Verif Require Import Base TextModel EventLogModel DagModel StrModel HookModel PlanModel ExecModel.
Local Open Scope string_scope.
Local Open Scope list_scope.

(** What Git makes of a merge; commits that are merged already are not merged again. *)
Inductive merged := MergedTree (t : oid) | MergeConflict | AlreadyMerged.

(** The surroundings: names, times and trees as for a rebase in memory; the trees
    of merges of these commits; whether Git may reuse a commit that would not
    change; the order of hash maps; the time and transaction of the hooks; who makes
    commits that are made by hand. *)
Record git_env := mk_ge {
  ge_exec : exec_env;
  ge_merge : oid -> list oid -> merged;
  ge_reuse : bool;
  ge_iter : gmap oid moid -> list (oid * moid);
  ge_time : timestamp;
  ge_tx : txid;
  ge_user : N }.

(** The repository while Git is at work: the commits, the labels (refs/rewritten/),
    the branch that Git will move at the end (head-name), whether more is to be done
    at the end (execute.rs writes these files, 1038-1051; rewrite_hooks.rs:437-460),
    HEAD and the other files the hooks use. *)
Record git_state := mk_gs {
  gs_store : store;
  gs_labels : gmap string oid;
  gs_name : option refname;
  gs_extra : bool;
  gs_hooks : hook_state }.

(** Done; stopped, leaving the rest to the user; an error. *)
Inductive seq_result := Went (s : git_state) | Halted (s : git_state) | Wrong.
Definition sbind (x : seq_result) (f : git_state -> seq_result) : seq_result :=
  match x with Went s => f s | Halted s => Halted s | Wrong => Wrong end.

(** ** The instructions *)
Inductive todo_line :=
| TLabel (l : string) | TReset (t : string) | TPick (o : oid) | TMerge (o : oid) (ts : list string)
| TBreak | TExtra | TDrop (o : oid) | TSkip (o : oid) | TCommitTree (r : oid) (ps : list string).

(** The hooks that are called (plan.rs:169-184). *)
Definition parse_hook (name : string) (args : list string) : option todo_line :=
  match args with
  | [] => if String.eqb name "hook-register-extra-post-rewrite-hook" then Some TExtra else None
  | [h] =>
      if String.eqb name "hook-detect-empty-commit" then option_map TDrop (oid_from_string h)
      else if String.eqb name "hook-skip-upstream-applied-commit" then option_map TSkip (oid_from_string h)
      else None
  | _ => None
  end.
(** The words after these. *)
Fixpoint strip_words (ps ws : list string) : option (list string) :=
  match ps, ws with
  | [], _ => Some ws
  | p :: ps', w :: ws' => if String.eqb p w then strip_words ps' ws' else None
  | _ :: _, [] => None
  end.
(** The arguments of [git commit-tree] (plan.rs:154-173): the parents and the tree. *)
Fixpoint parse_parents (ws : list string) : option (list string * string) :=
  match ws with
  | [t] => Some ([], t)
  | p :: x :: ws' =>
      if String.eqb p "-p" then option_map (fun r => (x :: fst r, snd r)) (parse_parents ws') else None
  | [] => None
  end.
(** The shell command of a replacement (plan.rs:154-173). *)
Definition parse_replacement (ws : list string) : option todo_line :=
  match ws with
  | [] => None
  | h :: ws' =>
      match strip_words ["|"; "git"; "commit-tree"] ws', oid_from_string h with
      | Some args, Some r =>
          match parse_parents (List.filter (fun w => negb (String.eqb w "")) args) with
          | Some (ps, t) => if String.eqb t (h +:+ "^{tree}") then Some (TCommitTree r ps) else None
          | None => None
          end
      | _, _ => None
      end
  end.
(** A line of git-rebase-todo (written by plan.rs:128-185), in words. *)
Definition parse_todo (ws : list string) : option todo_line :=
  match ws with
  | [] => None
  | w :: args =>
      if String.eqb w "label" then match args with [l] => Some (TLabel l) | _ => None end
      else if String.eqb w "reset" then match args with [t] => Some (TReset t) | _ => None end
      else if String.eqb w "pick" then match args with [h] => option_map TPick (oid_from_string h) | _ => None end
      else if String.eqb w "merge" then
        match args with
        | o :: h :: ts => if String.eqb o "-C" then option_map (fun c => TMerge c ts) (oid_from_string h) else None
        | _ => None
        end
      else if String.eqb w "break" then match args with [] => Some TBreak | _ => None end
      else if String.eqb w "exec" then
        match args with
        | g :: b :: name :: args' =>
            if (String.eqb g "git" && String.eqb b "branchless")%bool then parse_hook name args'
            else match strip_words ["git"; "show"; "-s"; "--format=%B"] args with
                 | Some ws' => parse_replacement ws'
                 | None => None
                 end
        | _ => None
        end
      else None
  end.

(** ** Carrying them out (called by execute.rs:1190) *)
Definition with_hooks (s : git_state) (h : hook_state) : git_state :=
  mk_gs (gs_store s) (gs_labels s) (gs_name s) (gs_extra s) h.
Definition at_commit (h : hook_state) (o : oid) : hook_state :=
  mk_hooks (hs_log h) (hs_rebase h) (hs_deferred h) (hs_rewritten h) (Some o) (hs_orig_head h) (hs_updated_head h).
Definition move_head (o : oid) (s : git_state) : git_state := with_hooks s (at_commit (gs_hooks s) o).

(** Labels come first (lookup_label); there has to be such a commit. *)
Definition lookup_place (s : git_state) (t : string) : option oid :=
  match (match gs_labels s !! t with Some o => Some o | None => oid_from_string t end) with
  | Some o => if decide (is_Some (gs_store s !! o)) then Some o else None
  | None => None
  end.

(** HEAD is what became of this commit: one more line in the list of rewritten commits. *)
Definition note_rewritten (c : oid) (s : git_state) : git_state :=
  match hs_head (gs_hooks s) with
  | None => s
  | Some n =>
      let h := gs_hooks s in
      let text := match hs_rewritten h with Some t => t | None => "" end in
      with_hooks s (mk_hooks (hs_log h) (hs_rebase h) (hs_deferred h)
        (Some (text +:+ oid_to_string c +:+ " " +:+ oid_to_string n +:+ String LF "")) (hs_head h) (hs_orig_head h) (hs_updated_head h))
  end.

(** A new commit like [orig], and the hook that is told. *)
Definition make_commit (v : git_env) (orig : object) (parents : list oid) (tree : oid) (s : git_state) : git_state :=
  let x := mk_object (mk_commit parents tree) (ob_author orig) (ee_stamp (ge_exec v) (ob_committer orig)) (ob_message orig) in
  let (n, st) := add_object (ge_exec v) x (gs_store s) in
  mk_gs st (gs_labels s) (gs_name s) (gs_extra s)
    (hook_post_commit (ge_time v) (ge_tx v) (at_commit (gs_hooks s) n)).

Definition seq_pick (v : git_env) (c : oid) (s : git_state) : seq_result :=
  match hs_head (gs_hooks s), gs_store s !! c with
  | Some h, Some orig =>
      if (is_merge (ob_commit orig) || negb (bool_decide (is_Some (gs_store s !! h))))%bool then Wrong
      else if (ge_reuse v && bool_decide (commit_parents (ob_commit orig) = [h]))%bool
           then Went (note_rewritten c (move_head c s))
      else match ee_pick (ge_exec v) c h with
           | MadeTree t => Went (note_rewritten c (make_commit v orig [h] t s))
           | Conflict => Halted s
           | Broken => Wrong
           end
  | _, _ => Wrong
  end.

Definition seq_merge (v : git_env) (c : oid) (ts : list string) (s : git_state) : seq_result :=
  match hs_head (gs_hooks s), gs_store s !! c, all_some (List.map (lookup_place s) ts) with
  | Some h, Some orig, Some tips =>
      if (ge_reuse v && bool_decide (commit_parents (ob_commit orig) = h :: tips))%bool
      then Went (note_rewritten c (move_head c s))
      else match ge_merge v c (h :: tips) with
           | MergedTree t => Went (note_rewritten c (make_commit v orig (h :: tips) t s))
           | AlreadyMerged => Went (note_rewritten c s)
           | MergeConflict => Halted s
           end
  | _, _, _ => Wrong
  end.

(** A commit made by [git commit-tree], with the message of [r] (line feeds at its end may
    differ).  It is named in the output, that is all: HEAD and the list of rewritten
    commits are as before, and no hook is called.  Labels are references. *)
Definition parent_named (s : git_state) (t : string) : option oid :=
  match strip_prefix "refs/rewritten/" t with
  | Some l =>
      match gs_labels s !! l with
      | Some o => if decide (is_Some (gs_store s !! o)) then Some o else None
      | None => None
      end
  | None =>
      match oid_from_string t with
      | Some o => if decide (is_Some (gs_store s !! o)) then Some o else None
      | None => None
      end
  end.
Definition seq_commit_tree (v : git_env) (r : oid) (ts : list string) (s : git_state) : seq_result :=
  match gs_store s !! r, all_some (List.map (parent_named s) ts) with
  | Some x, Some ps =>
      let n := mk_object (mk_commit ps (commit_tree (ob_commit x))) (ge_user v) (ge_user v) (ob_message x) in
      Went (mk_gs (snd (add_object (ge_exec v) n (gs_store s))) (gs_labels s) (gs_name s) (gs_extra s) (gs_hooks s))
  | _, _ => Wrong
  end.

(** One instruction; the hooks are those of rewrite_hooks.rs:437-555. *)
Definition seq_line (v : git_env) (x : todo_line) (s : git_state) : seq_result :=
  match x with
  | TLabel l =>
      match hs_head (gs_hooks s) with
      | Some h => Went (mk_gs (gs_store s) (<[l := h]> (gs_labels s)) (gs_name s) (gs_extra s) (gs_hooks s))
      | None => Wrong
      end
  | TReset t =>
      match lookup_place s t with
      | Some o => Went (move_head o s)
      | None => Wrong
      end
  | TPick c => seq_pick v c s
  | TMerge c ts => seq_merge v c ts s
  | TBreak => Halted s
  | TExtra => Went (mk_gs (gs_store s) (gs_labels s) None true (gs_hooks s))
  | TDrop c =>
      match hook_drop_commit_if_empty (ge_iter v) (find_object (gs_store s)) c (gs_hooks s) with
      | Some h => Went (with_hooks s h)
      | None => Wrong
      end
  | TSkip c =>
      match hook_skip_upstream_applied_commit (ge_iter v) c (gs_hooks s) with
      | Some h => Went (with_hooks s h)
      | None => Wrong
      end
  | TCommitTree r ts => seq_commit_tree v r ts s
  end.
Definition seq_words (v : git_env) (ws : list string) (s : git_state) : seq_result :=
  match parse_todo ws with Some x => seq_line v x s | None => Wrong end.
(** All of git-rebase-todo (execute.rs:1095-1113 writes it). *)
Definition run_words (v : git_env) (wss : list (list string)) (s : git_state) : seq_result :=
  fold_left (fun r ws => sbind r (seq_words v ws)) wss (Went s).
Definition run_todo (v : git_env) (todo : string) (s : git_state) : seq_result :=
  run_words v (List.map (split_on " ") (lines todo)) s.

(** What Git starts with, after the files are written and HEAD is detached
    (execute.rs:1036-1065 and 1140-1148). *)
Definition disk_start (log : list event) (st : store) (head : head_info) : git_state :=
  mk_gs st ∅ (hi_branch head) false (mk_hooks log true None None (hi_oid head) (hi_oid head) None).

(** ** The end *)

(** The end of the rebase: Git moves the branch in head-name, if any; the
    post-rewrite hook runs if commits were rewritten (rewrite_hooks.rs:133-226).
    HEAD is where the rebase ended.  The place to check out is chosen as for a
    rebase in memory; the result says whether the hook succeeded. *)
Definition end_of_rebase (v : git_env) (b : branch_env) (groups : gmap refname oid -> list (oid * list refname))
  (head : head_info) (s : git_state) (r : repo) : repo * list event * bool :=
  let h := gs_hooks s in
  let refs := match gs_name s, hs_head h with Some n, Some o => <[n := o]> (rp_refs r) | _, _ => rp_refs r end in
  let here := mk_head (hs_head h) (gs_name s) in
  let stay := mk_repo (gs_store s) refs here (rp_lines r) (rp_rewrites r) (rp_checkout r) in
  match hs_rewritten h with
  | None => (stay, hs_log h, true)
  | Some text =>
      let (h', ok) := hook_post_rewrite (ge_time v) (ge_tx v) "rebase" text h in
      match read_rewritten_list text with
      | Some l =>
          if (ok && gs_extra s)%bool then
            let rw := collect_map l in
            let m := move_branches b rw (groups refs) refs in
            let lines := rp_lines r ++ match mr_lines m with Some ls => ls | None => [] end in
            match (match hs_updated_head h with
                   | None => Some None
                   | Some t => option_map Some (oid_from_string t)
                   end) with
            | Some skipped =>
                if mr_ok m
                then (mk_repo (gs_store s) (mr_refs m) here lines (rp_rewrites r ++ l)
                        (checkout_of here (updated_head rw (mr_refs m) head skipped)), hs_log h', true)
                else (mk_repo (gs_store s) (mr_refs m) here lines (rp_rewrites r ++ l) (rp_checkout r), hs_log h', false)
            | None => (mk_repo (gs_store s) (mr_refs m) here lines (rp_rewrites r ++ l) (rp_checkout r), hs_log h', false)
            end
          else (mk_repo (gs_store s) refs here (rp_lines r) (if ok then rp_rewrites r ++ l else rp_rewrites r) (rp_checkout r), hs_log h', ok)
      | None => (stay, hs_log h', false)
      end
  end.

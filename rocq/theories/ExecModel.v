(** Model of carrying out rebase plans (git-branchless-lib/src/core/rewrite/execute.rs).

    Not modelled: progress output and commit descriptions.  Applying the changes
    of a commit is a parameter ([cherry_pick_fast], [amend_fast]), as is the name
    Git gives to a commit.  Writing commits, reading references and running hooks
    do not fail. *)
From stdpp Require Import sorting.
From Verif Require Import Base TextModel EventLogModel DagModel StrModel HookModel PlanModel.
Local Open Scope string_scope.
Local Open Scope list_scope.

(** A commit with author, committer and message. *)
Record object := mk_object {
  ob_commit : commit; ob_author : N; ob_committer : N; ob_message : N }.
Notation store := (gmap oid object).
Definition find_object (st : store) (o : oid) : option commit :=
  match st !! o with Some x => Some (ob_commit x) | None => None end.

(** The result of applying changes: a tree, a conflict, another error. *)
Inductive attempt := MadeTree (t : oid) | Conflict | Broken.

(** The surroundings: the names of commits; the tree made by applying a commit on
    top of another, or by amending one with another; the new time of a committer;
    messages that can be decoded; the commit of HEAD. *)
Record exec_env := mk_ee {
  ee_hash : object -> oid;
  ee_pick : oid -> oid -> attempt;
  ee_amend : oid -> oid -> attempt;
  ee_stamp : N -> N;
  ee_decodes : N -> bool;
  ee_head : option oid }.

(** The variables of the loop (execute.rs:505-515). *)
Record exec_state := mk_es {
  es_store : store;
  es_current : oid;
  es_labels : gmap string oid;
  es_rewritten : gmap oid moid;
  es_skipped_head : option oid }.

(** [StopMerge]: the rebase stops at this commit; [Err]: an error or panic. *)
Inductive exec (A : Type) := Ok (a : A) | StopMerge (c : oid) (st : store) | Err (st : store).
Arguments Ok {A} a. Arguments StopMerge {A} c st. Arguments Err {A} st.
Definition ebind {A B} (x : exec A) (f : A -> exec B) : exec B :=
  match x with Ok a => f a | StopMerge c st => StopMerge c st | Err st => Err st end.

(** [Repo::create_commit] without a reference (git/repo.rs:1258-1283): an object
    of that name is left alone. *)
Definition add_object (e : exec_env) (x : object) (st : store) : oid * store :=
  (ee_hash e x, match st !! ee_hash e x with Some _ => st | None => <[ee_hash e x := x]> st end).

(** [maybe_set_skipped_head_new_oid] (execute.rs:516-520). *)
Definition skip_head (e : exec_env) (c current : oid) (s : option oid) : option oid :=
  if decide (ee_head e = Some c) then match s with Some o => Some o | None => Some current end else s.

(** The loop over the commits to apply (execute.rs:605-684). *)
Fixpoint apply_all (e : exec_env) (st : store) (current : oid) (orig : object) (made : option oid)
  (l : list oid) : exec (store * option oid) :=
  match l with
  | [] => Ok (st, made)
  | c :: l' =>
      match st !! c with
      | None => Err st
      | Some x =>
          if is_merge (ob_commit x) then StopMerge c st
          else match (match made with
                      | None => ee_pick e c current
                      | Some r => ee_amend e r c
                      end) with
               | Conflict => StopMerge c st
               | Broken => Err st
               | MadeTree t =>
                   let n := mk_object (mk_commit [current] t) (ob_author orig) (ee_stamp e (ob_committer orig))
                              (ob_message orig) in
                   let (o, st') := add_object e n st in
                   apply_all e st' current orig (Some o) l'
               end
      end
  end.

(** [RebaseCommand::Pick] (execute.rs:572-724). *)
Definition exec_pick (e : exec_env) (original : oid) (to_apply : list oid) (s : exec_state) : exec exec_state :=
  let st := es_store s in
  match st !! es_current s, st !! original with
  | Some _, Some orig =>
      if negb (ee_decodes e (ob_message orig)) then Err st
      else ebind (apply_all e st (es_current s) orig None to_apply) (fun r =>
        match snd r with
        | None => Err (fst r)
        | Some o =>
            match fst r !! o with
            | None => Err (fst r)
            | Some n =>
                if commit_is_empty (find_object (fst r)) (ob_commit n)
                then Ok (mk_es (fst r) (es_current s) (es_labels s) (<[original := Zero]> (es_rewritten s))
                           (skip_head e original (es_current s) (es_skipped_head s)))
                else Ok (mk_es (fst r) o (es_labels s)
                           (fold_left (fun m c => <[c := NonZero o]> m) to_apply
                              (<[original := NonZero o]> (es_rewritten s)))
                           (es_skipped_head s))
            end
        end)
  | _, _ => Err st
  end.

(** The parents of a replacement (execute.rs:784-802). *)
Definition place_of (labels : gmap string oid) (t : oid_or_label) : option oid :=
  match t with AtOid o => Some o | AtLabel l => labels !! l end.

(** [RebaseCommand::Replace] (execute.rs:741-828). *)
Definition exec_replace (e : exec_env) (c r : oid) (ps : list oid_or_label) (s : exec_state) : exec exec_state :=
  let st := es_store s in
  match st !! c, st !! r, all_some (List.map (place_of (es_labels s)) ps) with
  | Some _, Some rx, Some qs =>
      if (negb (ee_decodes e (ob_message rx)) || negb (forallb (fun q => bool_decide (is_Some (st !! q))) qs))%bool then Err st
      else
        let n := mk_object (mk_commit qs (commit_tree (ob_commit rx))) (ob_author rx) (ee_stamp e (ob_committer rx))
                   (ob_message rx) in
        let (o, st') := add_object e n st in
        Ok (mk_es st' o (es_labels s) (<[c := NonZero o]> (es_rewritten s)) (es_skipped_head s))
  | _, _, _ => Err st
  end.

(** One command (execute.rs:540-856). *)
Definition exec_command (e : exec_env) (x : command) (s : exec_state) : exec exec_state :=
  match x with
  | CreateLabel l =>
      Ok (mk_es (es_store s) (es_current s) (<[l := es_current s]> (es_labels s)) (es_rewritten s) (es_skipped_head s))
  | Reset_ (AtLabel l) =>
      match es_labels s !! l with
      | Some o => Ok (mk_es (es_store s) o (es_labels s) (es_rewritten s) (es_skipped_head s))
      | None => Err (es_store s)
      end
  | Reset_ (AtOid o) =>
      let o' := match es_rewritten s !! o with Some (NonZero n) => n | _ => o end in
      Ok (mk_es (es_store s) o' (es_labels s) (es_rewritten s) (es_skipped_head s))
  | Pick original to_apply => exec_pick e original to_apply s
  | Merge c _ => StopMerge c (es_store s)
  | Replace c r ps => exec_replace e c r ps s
  | Break_ => Err (es_store s)
  | SkipUpstream c =>
      match es_store s !! c with
      | None => Err (es_store s)
      | Some _ =>
          Ok (mk_es (es_store s) (es_current s) (es_labels s) (<[c := Zero]> (es_rewritten s))
                (skip_head e c (es_current s) (es_skipped_head s)))
      end
  | RegisterExtra | DetectEmpty _ => Ok s
  end.

Definition exec_commands (e : exec_env) (cmds : list command) (s : exec_state) : exec exec_state :=
  fold_left (fun r x => ebind r (exec_command e x)) cmds (Ok s).

(** The new place of HEAD (execute.rs:858-890). *)
Definition new_head (e : exec_env) (s : exec_state) : option oid :=
  match ee_head e with
  | None => None
  | Some h =>
      match es_rewritten s !! h with
      | Some (NonZero o) => Some o
      | Some Zero => match es_skipped_head s with Some o => Some o | None => Some h end
      | None => Some h
      end
  end.

(** [rebase_in_memory] (execute.rs:461-895): the objects, what became of the
    commits, and the new place of HEAD. *)
Definition merge_command (x : command) : bool := match x with Merge _ _ => true | _ => false end.
Definition rebase_in_memory (e : exec_env) (st : store) (dest : oid) (cmds : list command)
  : exec (store * gmap oid moid * option oid) :=
  match List.find merge_command cmds with
  | Some (Merge c _) => StopMerge c st
  | _ =>
      ebind (exec_commands e cmds (mk_es st dest ∅ ∅ None)) (fun s =>
        Ok (es_store s, es_rewritten s, new_head e s))
  end.

(** ** Afterwards *)

(** The table of local branches ([get_branch_oid_to_names],
    core/repo_ext.rs:99-114). *)
Definition is_local (n : refname) : bool := starts_with "refs/heads/" n.
Definition branches_at (refs : gmap refname oid) (o : oid) : list refname :=
  List.filter (fun n => bool_decide (refs !! n = Some o) && is_local n)%bool (List.map fst (map_to_list refs)).

(** [ReferenceName::cmp]: names are compared byte by byte. *)
Definition name_le (a b : refname) : Prop := String.leb a b = true.
Global Instance name_le_dec a b : Decision (name_le a b).
Proof. unfold name_le. apply _. Defined.
Definition sorted_names (l : list refname) : list refname := merge_sort name_le l.

(** What moving branches does: references, the lines given to the
    [reference-transaction] hook, [false] after an error.  With [None] for the
    lines the hook is not run. *)
Record moved_refs := mk_moved { mr_refs : gmap refname oid; mr_lines : option (list (oid * moid * refname)); mr_ok : bool }.

(** The surroundings: is the commit there, can the reference be written, the
    upstream of the main branch (or an error looking for it). *)
Record branch_env := mk_be {
  be_exists : oid -> bool;
  be_writes : refname -> bool;
  be_main : refname;
  be_upstream : option (option oid) }.

(** The branches of one commit (execute.rs:45-144). *)
Inductive step := Go | Fail | Abort_.
Definition move_branch (b : branch_env) (old : oid) (new : moid) (n : refname)
  (refs : gmap refname oid) (ls : list (oid * moid * refname)) : gmap refname oid * list (oid * moid * refname) * step :=
  match new with
  | NonZero o =>
      if be_writes b n then (<[n := o]> refs, ls ++ [(old, new, n)], Go) else (refs, ls, Fail)
  | Zero =>
      if String.eqb n (be_main b) then
        match be_upstream b with
        | None => (refs, ls, Abort_)
        | Some (Some t) => if be_writes b n then (<[n := t]> refs, ls ++ [(old, NonZero t, n)], Go) else (refs, ls, Fail)
        | Some None => if be_writes b n then (delete n refs, ls ++ [(old, Zero, n)], Go) else (refs, ls, Fail)
        end
      else if be_writes b n then (delete n refs, ls ++ [(old, Zero, n)], Go) else (refs, ls, Fail)
  end.
Fixpoint move_names (b : branch_env) (old : oid) (new : moid) (ns : list refname)
  (refs : gmap refname oid) (ls : list (oid * moid * refname)) : gmap refname oid * list (oid * moid * refname) * step :=
  match ns with
  | [] => (refs, ls, Go)
  | n :: ns' =>
      match move_branch b old new n refs ls with
      | (refs', ls', Go) => move_names b old new ns' refs' ls'
      | r => r
      end
  end.
Fixpoint move_groups (b : branch_env) (rewritten : gmap oid moid) (groups : list (oid * list refname))
  (refs : gmap refname oid) (ls : list (oid * moid * refname)) : gmap refname oid * list (oid * moid * refname) * step :=
  match groups with
  | [] => (refs, ls, Go)
  | (old, ns) :: rest =>
      match rewritten !! old with
      | None => move_groups b rewritten rest refs ls
      | Some new =>
          if (match new with NonZero o => be_exists b o | Zero => true end)
          then match move_names b old new (sorted_names ns) refs ls with
               | (refs', ls', Go) => move_groups b rewritten rest refs' ls'
               | r => r
               end
          else (refs, ls, Fail)
      end
  end.

(** [move_branches] (execute.rs:27-166); [groups] is the table of branches in the
    order of iteration. *)
Definition move_branches (b : branch_env) (rewritten : gmap oid moid) (groups : list (oid * list refname))
  (refs : gmap refname oid) : moved_refs :=
  match move_groups b rewritten groups refs [] with
  | (refs', ls, Go) => mk_moved refs' (Some ls) true
  | (refs', ls, Fail) => mk_moved refs' (Some ls) false
  | (refs', ls, Abort_) => mk_moved refs' None false
  end.

(** [ResolvedReferenceInfo] of HEAD (git/repo.rs:671-699): its commit and the
    branch checked out. *)
Record head_info := mk_head { hi_oid : option oid; hi_branch : option refname }.
Global Instance head_info_eq_dec : EqDecision head_info.
Proof. solve_decision. Defined.

(** [check_out_updated_head] (execute.rs:176-316): the place to check out. *)
Definition updated_head (rewritten : gmap oid moid) (refs : gmap refname oid) (previous : head_info)
  (skipped : option oid) : head_info :=
  match previous with
  | mk_head None None => mk_head skipped None
  | mk_head None (Some n) => mk_head None (Some n)
  | mk_head (Some h) None =>
      match rewritten !! h with
      | Some (NonZero o) => mk_head (Some o) None
      | Some Zero => mk_head skipped None
      | None => mk_head (Some h) None
      end
  | mk_head (Some _) (Some n) =>
      match refs !! n with
      | Some o => mk_head (Some o) (Some n)
      | None => mk_head skipped None
      end
  end.
Inductive checkout := StayPut | CheckOutCommit (o : oid) | CheckOutBranch (n : refname).
Definition checkout_of (now target : head_info) : checkout :=
  if decide (now = target) then StayPut
  else match target with
       | mk_head None None => StayPut
       | mk_head (Some o) None => CheckOutCommit o
       | mk_head _ (Some n) => CheckOutBranch n
       end.

(** ** Choosing how to carry out a plan *)

(** The repository. *)
Record repo := mk_repo {
  rp_store : store;
  rp_refs : gmap refname oid;
  rp_head : head_info;
  rp_lines : list (oid * moid * refname);
  rp_rewrites : list (oid * moid);
  rp_checkout : checkout }.

(** The new commits are marked ([mark_commit_reachable], core/gc.rs:74-96). *)
Definition mark_new (st : store) (news : list moid) (refs : gmap refname oid) : gmap refname oid :=
  fold_left (fun refs n => match n with
                           | Zero => refs
                           | NonZero o => if decide (is_Some (st !! o))
                                          then <["refs/branchless/" +:+ oid_to_string o := o]> refs
                                          else refs
                           end) news refs.

(** [post_rebase_in_memory] (execute.rs:897-960); [false] for an error. *)
Definition post_rebase (b : branch_env) (groups : gmap refname oid -> list (oid * list refname))
  (iter : gmap oid moid -> list (oid * moid)) (rewritten : gmap oid moid) (skipped : option oid) (r : repo)
  : repo * bool :=
  let previous := rp_head r in
  let head := match hi_oid previous with Some h => mk_head (Some h) None | None => previous end in
  let refs := mark_new (rp_store r) (List.map snd (iter rewritten)) (rp_refs r) in
  let m := move_branches b rewritten (groups refs) refs in
  let lines := rp_lines r ++ match mr_lines m with Some ls => ls | None => [] end in
  if mr_ok m
  then (mk_repo (rp_store r) (mr_refs m) head lines (rp_rewrites r ++ iter rewritten)
          (checkout_of head (updated_head rewritten (mr_refs m) previous skipped)), true)
  else (mk_repo (rp_store r) (mr_refs m) head lines (rp_rewrites r) (rp_checkout r), false).

(** [execute_rebase_plan] (execute.rs:1248-1366).  [on_disk] is an on-disk rebase. *)
Inductive exec_result :=
| Succeeded (rewritten : option (gmap oid moid))
| DeclinedToMerge (c : oid)
| FailedExit
| InternalError.
Definition with_store (st : store) (r : repo) : repo :=
  mk_repo st (rp_refs r) (rp_head r) (rp_lines r) (rp_rewrites r) (rp_checkout r).
Definition execute_plan (e : exec_env) (b : branch_env) (groups : gmap refname oid -> list (oid * list refname))
  (iter : gmap oid moid -> list (oid * moid)) (on_disk : repo -> repo * exec_result)
  (force_in_memory force_on_disk resolve : bool) (dest : oid) (cmds : list command) (r : repo) : repo * exec_result :=
  let disk r := if force_in_memory then (r, InternalError) else on_disk r in
  if force_on_disk then disk r
  else match rebase_in_memory e (rp_store r) dest cmds with
       | Err st => (with_store st r, InternalError)
       | Ok (st, rewritten, head) =>
           let (r', ok) := post_rebase b groups iter rewritten head (with_store st r) in
           (r', if ok then Succeeded (Some rewritten) else InternalError)
       | StopMerge c st =>
           if negb resolve then (with_store st r, DeclinedToMerge c)
           else if force_in_memory then (with_store st r, DeclinedToMerge c)
           else disk (with_store st r)
       end.

(** ** On disk *)

(** [RebaseCommand::to_rebase_command] (plan.rs:128-185); [None] for a panic. *)
Definition show_place (t : oid_or_label) : string :=
  match t with AtOid o => oid_to_string o | AtLabel l => l end.
Definition to_rebase_command (x : command) : option string :=
  match x with
  | CreateLabel l => Some ("label " +:+ l)
  | Reset_ t => Some ("reset " +:+ show_place t)
  | Pick _ [] => Some ""
  | Pick _ [c] => Some ("pick " +:+ oid_to_string c)
  | Pick _ _ => None
  | Merge c ts => Some ("merge -C " +:+ oid_to_string c +:+ " " +:+ join " " (List.map show_place ts))
  | Replace _ r ps =>
      Some ("exec git show -s --format=%B " +:+ oid_to_string r +:+ " | git commit-tree "
            +:+ join " " (List.map (fun t => match t with
                                             | AtOid o => "-p " +:+ oid_to_string o
                                             | AtLabel l => "-p refs/rewritten/" +:+ l
                                             end) ps)
            +:+ " " +:+ oid_to_string r +:+ "^{tree}")
  | Break_ => Some "break"
  | RegisterExtra => Some "exec git branchless hook-register-extra-post-rewrite-hook"
  | DetectEmpty c => Some ("exec git branchless hook-detect-empty-commit " +:+ oid_to_string c)
  | SkipUpstream c => Some ("exec git branchless hook-skip-upstream-applied-commit " +:+ oid_to_string c)
  end.

(** [write_rebase_state_to_disk] (execute.rs:984-1151): the files written to the
    rebase directory, in order, until the end or an error or panic ([false]).
    Left out: ORIG_HEAD and the file holding the original HEAD.  [None] when
    another operation is in progress or files are changed. *)
Definition replaces_original (x : command) : bool :=
  match x with Pick o l => negb (bool_decide (o ∈ l)) | _ => false end.
Definition write_state (busy changed : bool) (head : head_info) (preserve : bool) (dest : oid) (cmds : list command)
  : option (list (string * string) * bool) :=
  if (busy || changed)%bool then None
  else
    let files := [("interactive", "")]
      ++ match hi_oid head with
         | Some h => [("orig-head", oid_to_string h);
                      ("head-name", match hi_branch head with Some n => n | None => "detached HEAD" end);
                      ("head", oid_to_string dest)]
         | None => []
         end
      ++ [("onto", oid_to_string dest)] in
    if existsb replaces_original cmds then Some (files, false)
    else match all_some (List.map to_rebase_command cmds) with
         | None => Some (files, false)
         | Some ls =>
             Some (files ++ [("git-rebase-todo", unlines ls);
                             ("end", isize_to_string (Z.of_nat (length cmds)) +:+ String LF EmptyString);
                             ("keep_redundant_commits", "")]
                         ++ (if preserve then [("cdate_is_adate", "")] else []), true)
         end.

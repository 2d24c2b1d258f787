(** The [post-rewrite] hook after an amendment or a rebase of Git's own: what it prints,
    and the warning about commits and branches left behind
    (git-branchless-lib/src/core/rewrite/rewrite_hooks.rs). *)
From Verif Require Import Base TextModel EventLogModel DagModel StrModel HookModel ExecModel NavModel HideModel.
Local Open Scope string_scope.
Local Open Scope list_scope.

(** The children and the branches left behind (rewrite_hooks.rs:257-279): a set of each.
    [None] for exhausted fuel of the rewrite lookup. *)
Fixpoint left_behind (d : dag) (rp : replayer) (c : cursor) (refs : gmap refname oid) (olds : list oid)
  : option (commit_set * gset refname) :=
  match olds with
  | [] => Some (∅, ∅)
  | o :: rest =>
      match find_abandoned_children d rp c o, left_behind d rp c refs rest with
      | Some None, Some acc => Some acc
      | Some (Some (_, kids)), Some (ks, ns) => Some (kids ∪ ks, list_to_set (ExecModel.branches_at refs o) ∪ ns)
      | _, _ => None
      end
  end.

(** The warning (rewrite_hooks.rs:280-319); [None] if there is nothing to say. *)
Definition commit_item (ks : commit_set) : list string :=
  if Nat.eqb (size ks) 0 then [] else [pluralize None (size ks) "commit" "commits"].
Definition branch_item (ns : gset refname) : list string :=
  if Nat.eqb (size ns) 0 then []
  else [pluralize None (size ns) "branch" "branches" +:+ " (" +:+
          join ", " (sorted_names (List.map render_suffix (elements ns))) +:+ ")"].
Definition warning_text (ks : commit_set) (ns : gset refname) : option string :=
  if (Nat.eqb (size ks) 0 && Nat.eqb (size ns) 0)%bool then None
  else Some ("This operation abandoned " +:+ join " and " (commit_item ks ++ branch_item ns) +:+ "!").

(** The lines of the warning, without colours (rewrite_hooks.rs:321-336), and how to
    switch it off (core/config.rs:247-303). *)
Definition warning_lines (text : string) : list string :=
  ["branchless: " +:+ text;
   "branchless: Consider running one of the following:";
   "branchless:   - git restack: re-apply the abandoned commits/branches";
   "branchless:     (this is most likely what you want to do)";
   "branchless:   - git smartlog: assess the situation";
   "branchless:   - git hide [<commit>...]: hide the commits from the smartlog";
   "branchless:   - git undo: undo the operation"].
Definition suppression_line : string :=
  "hint: disable this hint by running: git config --global branchless.hint.restackWarnAbandoned false".

(** [warn_abandoned] (rewrite_hooks.rs:237-341). *)
Definition warn_abandoned (e : hide_env) (r : hrepo) (olds : list oid) : option (option string) :=
  match open_repo e r with
  | None => None
  | Some d =>
      let rp := replay (he_main e) (hr_log r) in
      match left_behind d rp (default_cursor rp) (hr_refs r) olds with
      | None => None
      | Some (ks, ns) => Some (warning_text ks ns)
      end
  end.

(** The whole hook when Git ran by itself, so that there is no file asking for more to be
    done (rewrite_hooks.rs:129-234).  [h] has the log and the files of the rebase, [r]
    the references and HEAD; [hint] tells that the warning is switched on.  The log
    afterwards and the lines; [None] for an error. *)
Definition rewrite_hook (hint : bool) (e : hide_env) (ts : timestamp) (tx : txid) (kind stdin : string)
  (h : hook_state) (refs : gmap refname oid) (head : head_info) : list event * option (list string) :=
  let (h', ok) := hook_post_rewrite ts tx kind stdin h in
  (hs_log h',
   if (String.eqb kind "amend" && hs_rebase h)%bool then Some []
   else if negb ok then None
   else match read_rewritten_list stdin with
        | None => None
        | Some l =>
            let processing := "branchless: processing " +:+
              pluralize None (size (collect_map l)) "rewritten commit" "rewritten commits" in
            if negb hint then Some [processing]
            else match warn_abandoned e (mk_hrepo refs head (hs_log h')) (List.map fst (map_to_list (collect_map l))) with
                 | None => None
                 | Some None => Some [processing]
                 | Some (Some text) => Some (processing :: warning_lines text ++ [suppression_line])
                 end
        end).

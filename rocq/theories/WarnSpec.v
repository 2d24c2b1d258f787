(** What the warning after a rewrite should say, on commits, references and the events of
    the log. *)
From stdpp Require Import pretty.
From Verif Require Import Base TextModel EventLogModel EventLogSpec EvolveSpec DagModel DagSpec StrModel ExecModel HideModel HideSpec
  RestackSpec.
Local Open Scope string_scope.
Local Open Scope list_scope.

(** [k] is left behind by rewriting the commits [olds]. *)
Definition commit_left (g : graph) (r : hrepo) (olds : oid -> Prop) (k : oid) : Prop :=
  exists o, olds o /\ abandoned_on g r o k.
(** The branch [s] is still at one of the commits rewritten. *)
Definition branch_left (r : hrepo) (olds : oid -> Prop) (s : string) : Prop :=
  exists o, olds o /\ (exists new, rewritten (hr_log r) o new) /\ hr_refs r !! ("refs/heads/" +:+ s : refname) = Some o.

(** How many of what. *)
Definition counted (n : nat) (one many : string) : string :=
  match n with 1%nat => "1 " +:+ one | _ => pretty (N.of_nat n) +:+ " " +:+ many end.

(** The sentence for [n] commits and the branches [names]. *)
Definition sentence (n : nat) (names : list string) : option string :=
  let commits := counted n "commit" "commits" in
  let branches := counted (length names) "branch" "branches" +:+ " (" +:+ String.concat ", " names +:+ ")" in
  match n, names with
  | O, [] => None
  | _, [] => Some ("This operation abandoned " +:+ commits +:+ "!")
  | O, _ => Some ("This operation abandoned " +:+ branches +:+ "!")
  | _, _ => Some ("This operation abandoned " +:+ commits +:+ " and " +:+ branches +:+ "!")
  end.

(** [text] says exactly what is left behind. *)
Definition says_left (g : graph) (r : hrepo) (olds : oid -> Prop) (text : option string) : Prop :=
  exists (ks : list oid) (names : list string),
    NoDup ks /\ (forall k, k ∈ ks <-> commit_left g r olds k) /\
    NoDup names /\ Sorted.Sorted name_le names /\ (forall s, s ∈ names <-> branch_left r olds s) /\
    text = sentence (length ks) names.

(** What Git tells the hook: each commit once, none replaced by itself or by another that
    was replaced. *)
Definition proper_list (l : list (oid * moid)) : Prop :=
  NoDup (List.map fst l) /\ forall o new o', (o, new) ∈ l -> o' ∈ List.map fst l -> new <> NonZero o'.

(** The lines printed for [n] commits rewritten and a warning. *)
Definition printed (n : nat) (warning : option string) : list string :=
  ("branchless: processing " +:+ counted n "rewritten commit" "rewritten commits") ::
  match warning with
  | None => []
  | Some text =>
      ["branchless: " +:+ text;
       "branchless: Consider running one of the following:";
       "branchless:   - git restack: re-apply the abandoned commits/branches";
       "branchless:     (this is most likely what you want to do)";
       "branchless:   - git smartlog: assess the situation";
       "branchless:   - git hide [<commit>...]: hide the commits from the smartlog";
       "branchless:   - git undo: undo the operation";
       "hint: disable this hint by running: git config --global branchless.hint.restackWarnAbandoned false"]
  end.

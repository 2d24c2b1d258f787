(** Model of moving through commits: [git next], [git prev] and [git switch]
    (git-branchless-navigation/src/lib.rs), and of checking out the place reached
    (git-branchless-lib/src/core/check_out.rs).

    Not modelled: the text printed, the pictures of the prompt, the snapshot taken
    before a checkout and restored after it (see SnapModel and TrailerModel), and the
    working copy. *)
From Verif Require Import Base StrModel TextModel EventLogModel EvolveModel DagModel TrailerModel.

(** [Command] (git-branchless-navigation/src/lib.rs:44-52). *)
Inductive command := Next | Prev.

(** [Distance] (git-branchless-navigation/src/lib.rs:54-71). *)
Inductive distance :=
| NumCommits (amount : nat) (by_branches : bool)
| AllTheWay (by_branches : bool).

(** [Towards] (git-branchless-navigation/src/lib.rs:73-87). *)
Inductive towards := Newest | Oldest | Interactive.

(** What moving looks at: the graph, the committer times, which commits can still be
    read, the setting branchless.next.interactive (core/config.rs:218-221), and the
    answers to prompts: which of the commits offered was chosen the [n]-th time, if any
    (git-branchless-navigation/src/prompt.rs:119-163). *)
Record nav_env := NavEnv {
  nv_dag : dag;
  nv_time : oid -> Z;
  nv_found : oid -> bool;
  nv_interactive : bool;
  nv_answer : nat -> list oid -> option nat }.

(** [slice::sort_by], for few elements sorting by insertion: stable. *)
Fixpoint insert_by (cmp : oid -> oid -> comparison) (x : oid) (l : list oid) : list oid :=
  match l with
  | [] => [x]
  | y :: l' => match cmp x y with Gt => y :: insert_by cmp x l' | _ => x :: l end
  end.
Definition sort_by (cmp : oid -> oid -> comparison) (l : list oid) : list oid :=
  fold_right (insert_by cmp) [] l.

(** [sorted_commit_set] (core/dag.rs:745-800); commits that cannot be read are left out
    (751-759). *)
Definition sorted_commit_set (e : nav_env) (s : commit_set) : list oid :=
  let g := dag_graph (nv_dag e) in
  sort_by (commit_cmp g (nv_time e)) (List.filter (nv_found e) (dag_sort g s)).

(** [child_commits] and [descendant_branches] (git-branchless-navigation/src/lib.rs:119-131). *)
Definition child_commits (d : dag) (o : oid) : commit_set :=
  filter_visible d (children (dag_graph d) {[o]}).
Definition descendant_branches (d : dag) (o : oid) : commit_set :=
  let g := dag_graph d in
  roots g (descendants g (branch_commits d ∩ descendants g (child_commits d o))).

(** [parent_commits] and [ancestor_branches] (git-branchless-navigation/src/lib.rs:155-164). *)
Definition parent_commits (d : dag) (o : oid) : commit_set := parents (dag_graph d) {[o]}.
Definition ancestor_branches (d : dag) (o : oid) : commit_set :=
  let g := dag_graph d in
  heads_ancestors g (branch_commits d ∩ ancestors g (parent_commits d o)).

(** [candidate_commits] (git-branchless-navigation/src/lib.rs:117-200), with [public_commits] from
    111. *)
Definition candidates (e : nav_env) (c : command) (dist : distance) (o : oid) : list oid :=
  let d := nv_dag e in
  let public := ancestors (dag_graph d) (main_branch_commit d) in
  sorted_commit_set e
    match c, dist with
    | Next, AllTheWay false | Next, NumCommits _ false => child_commits d o
    | Next, AllTheWay true | Next, NumCommits _ true => descendant_branches d o
    | Prev, AllTheWay false => parent_commits d o ∖ public
    | Prev, AllTheWay true => ancestor_branches d o ∖ public
    | Prev, NumCommits _ false => parent_commits d o
    | Prev, NumCommits _ true => ancestor_branches d o
    end.

(** The ways [advance] can end: a commit, reached after some steps, or no commit: none
    to go to, several to go to after some steps, or a prompt that was cancelled.  The
    code has no bound on its steps; exhausted fuel is an outcome of its own. *)
Inductive outcome :=
| Moved (o : oid) (steps : nat)
| NoMore
| Ambiguous (steps : nat) (choices : list oid)
| Cancelled
| OutOfFuel.

(** The loop of [advance] (git-branchless-navigation/src/lib.rs:113-305): 202-219 and 239-303. *)
Fixpoint advance_loop (fuel : nat) (e : nav_env) (c : command) (dist : distance) (t : option towards)
  (i : nat) (o : oid) : outcome :=
  match fuel with
  | O => OutOfFuel
  | S fuel' =>
    let cs := candidates e c dist o in
    if match dist with
       | NumCommits amount _ => Nat.eqb i amount
       | AllTheWay _ => match cs with [] => true | _ => false end
       end
    then Moved o i
    else
      match cs with
      | [] => if Nat.eqb i 0 then NoMore else Moved o i
      | [x] => advance_loop fuel' e c dist t (S i) x
      | x :: y :: l =>
        match t with
        | Some Newest => advance_loop fuel' e c dist t (S i) (List.last l y)
        | Some Oldest => advance_loop fuel' e c dist t (S i) x
        | Some Interactive =>
          match nv_answer e i cs with
          | Some n => match nth_error cs n with
                      | Some z => advance_loop fuel' e c dist t (S i) z
                      | None => Cancelled
                      end
          | None => Cancelled
          end
        | None => Ambiguous i cs
        end
      end
  end.

(** [advance] (git-branchless-navigation/src/lib.rs:89-306): 100-109 choose the default way. *)
Definition advance (e : nav_env) (o : oid) (c : command) (dist : distance) (t : option towards) : outcome :=
  let t := match t with
           | Some t => Some t
           | None => if nv_interactive e then Some Interactive else None
           end in
  advance_loop (S (length (dag_graph (nv_dag e)))) e c dist t 0 o.

(** [TraverseCommitsOptions] (git-branchless-opts/src/lib.rs:101-144). *)
Record nav_options := NavOptions {
  no_num : option nat;
  no_all : bool;
  no_branches : bool;
  no_oldest : bool;
  no_newest : bool;
  no_interactive : bool }.

(** The options read (git-branchless-navigation/src/lib.rs:327-353); [None] for options that
    contradict each other. *)
Definition read_distance (p : nav_options) : option distance :=
  match no_all p, no_num p with
  | false, None => Some (NumCommits 1 (no_branches p))
  | false, Some n => Some (NumCommits n (no_branches p))
  | true, None => Some (AllTheWay (no_branches p))
  | true, Some _ => None
  end.
Definition read_towards (p : nav_options) : option (option towards) :=
  match no_oldest p, no_newest p, no_interactive p with
  | false, false, false => Some None
  | true, false, false => Some (Some Oldest)
  | false, true, false => Some (Some Newest)
  | false, false, true => Some (Some Interactive)
  | _, _, _ => None
  end.

(** [CheckoutTarget] (core/check_out.rs:26-39). *)
Inductive checkout_target :=
| TOid (o : oid)
| TRef (r : refname)
| TUnknown (s : string).

(** [CategorizedReferenceName::new] and [render_suffix] (git/reference.rs:168-208). *)
Definition heads_prefix : string := "refs/heads/".
Definition remotes_prefix : string := "refs/remotes/".
Definition render_suffix (r : refname) : string :=
  match strip_prefix heads_prefix r with
  | Some s => s
  | None => match strip_prefix remotes_prefix r with Some s => s | None => r end
  end.

(** [get_branch_oid_to_names] (core/repo_ext.rs:99-114) at one commit: the local
    branches there. *)
Definition is_branch (r : refname) : bool :=
  match strip_prefix heads_prefix r with Some _ => true | None => false end.
Definition branches_at (s : refstate) (o : oid) : list refname :=
  List.map fst (List.filter (fun p => is_branch (fst p) && N.eqb (snd p) o) (map_to_list (rs_refs s))).

(** The place to check out after moving (git-branchless-navigation/src/lib.rs:411-444). *)
Definition move_target (s : refstate) (dist : distance) (o : oid) : checkout_target :=
  match dist with
  | AllTheWay false | NumCommits _ false => TOid o
  | AllTheWay true | NumCommits _ true =>
    match branches_at s o with
    | [b] => TRef b
    | _ => TOid o
    end
  end.

(** The start of [check_out_commit] (core/check_out.rs:123-131). *)
Definition target_text (t : option checkout_target) : option string * option oid :=
  match t with
  | None => (None, None)
  | Some (TRef r) => (Some (render_suffix r), None)
  | Some (TOid o) => (Some (oid_to_string o), Some o)
  | Some (TUnknown s) => (Some s, None)
  end.

(** [maybe_get_branch_name] (core/check_out.rs:65-103). *)
Definition maybe_get_branch_name (s : refstate) (target : option string) (o : option oid) : option string :=
  let head := fst (get_head_info s) in
  let o := match target with Some _ => o | None => head end in
  if match target with
     | Some t =>
       match head with
       | Some h => bool_decide (o = Some h) || String.eqb t (oid_to_string h)
       | None => false
       end
     | None => false
     end
  then target
  else match o with
       | Some o => match branches_at s o with
                   | [b] => Some (render_suffix b)
                   | _ => target
                   end
       | None => target
       end.

(** The arguments of the checkout that concern HEAD and the references
    (git-branchless-navigation/src/lib.rs:593-609). *)
Record checkout_args := CheckoutArgs { ca_create : option string; ca_detach : bool }.
Definition no_args : checkout_args := CheckoutArgs None false.

(** What [git checkout] does to HEAD and the references; [None] when it fails.  A local
    branch of the given name comes before other ways of reading the text, which are
    given by [rev]. *)
Definition git_checkout (rev : string -> option oid) (s : refstate) (t : option string) (a : checkout_args)
  : option refstate :=
  let place :=
    match t with
    | None => match fst (get_head_info s) with Some o => Some (o, rs_head s) | None => None end
    | Some t =>
      match rs_refs s !! (heads_prefix +:+ t : refname) with
      | Some o => Some (o, OnBranch (heads_prefix +:+ t))
      | None => match rev t with Some o => Some (o, Detached o) | None => None end
      end
    end in
  match place with
  | None => None
  | Some (o, h) =>
    match ca_create a, ca_detach a with
    | None, false => Some (RefState h (rs_refs s))
    | None, true => Some (RefState (Detached o) (rs_refs s))
    | Some b, false =>
      match rs_refs s !! (heads_prefix +:+ b : refname) with
      | Some _ => None
      | None => Some (RefState (OnBranch (heads_prefix +:+ b)) (<[(heads_prefix +:+ b : refname) := o]> (rs_refs s)))
      end
    | Some _, true => None
    end
  end.

(** [check_out_commit] (core/check_out.rs:108-199) without resetting; [auto] is the
    setting branchless.navigation.autoSwitchBranches (core/config.rs:90-98). *)
Definition check_out_commit (rev : string -> option oid) (auto : bool) (s : refstate)
  (t : option checkout_target) (a : checkout_args) : option refstate :=
  let (text, o) := target_text t in
  git_checkout rev s (if auto then maybe_get_branch_name s text o else text) a.

(** [traverse_commits] (git-branchless-navigation/src/lib.rs:308-468): contradicting options, HEAD
    naming no commit, an exit code from moving, or the state after the checkout. *)
Inductive traversal :=
| BadOptions
| NoHead
| NotMoved (r : outcome)
| CheckedOut (s : option refstate).
Definition traverse_commits (rev : string -> option oid) (auto : bool) (e : nav_env) (s : refstate)
  (c : command) (p : nav_options) : traversal :=
  match read_distance p, read_towards p with
  | Some dist, Some t =>
    match fst (get_head_info s) with
    | None => NoHead
    | Some head =>
      match advance e head c dist t with
      | Moved o _ => CheckedOut (check_out_commit rev auto s (Some (move_target s dist o)) no_args)
      | r => NotMoved r
      end
    end
  | _, _ => BadOptions
  end.

(** [switch] (git-branchless-navigation/src/lib.rs:471-625).  [revparse] is what Git makes of the
    target (531), [revset] the commits of the target read as a revset (563-571), and
    [pick] the answer to the prompt. *)
Inductive switch_result := Refused | Switched (s : option refstate).
Definition switch (rev : string -> option oid) (auto : bool) (e : nav_env) (s : refstate)
  (revparse : string -> option oid) (revset : string -> commit_set) (pick : string -> option oid)
  (interactive : bool) (target : option string) (a : checkout_args) : switch_result :=
  match interactive, target with
  | true, q =>
    match pick (match q with Some q => q | None => "" end) with
    | Some o => Switched (check_out_commit rev auto s (Some (TOid o)) a)
    | None => Refused
    end
  | false, Some t =>
    match revparse t with
    | Some _ => Switched (check_out_commit rev auto s (Some (TUnknown t)) a)
    | None =>
      match sorted_commit_set e (heads (dag_graph (nv_dag e)) (revset t)) with
      | [o] => Switched (check_out_commit rev auto s (Some (TUnknown (oid_to_string o))) a)
      | _ => Refused
      end
    end
  | false, None => Switched (check_out_commit rev auto s None a)
  end.

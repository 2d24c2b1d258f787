(** Model of [git submit] with branches as the things submitted
    (git-branchless-submit/src/lib.rs, git-branchless-submit/src/branch_forge.rs).

    Not modelled: the other forges, choosing the commits, the events recorded, messages.
    [git fetch] and [git push] are described by what they do to references, after Git's
    documentation, for remotes with the usual mapping of branches: a remote is its branches,
    by short name.  Fetching a branch that is not there fails and changes nothing.  Pushing
    a name that is that of a tag too fails and changes nothing; otherwise each branch is
    accepted or rejected on its own. *)
From Verif Require Import Base TextModel EventLogModel DagModel HookModel PlanModel ExecModel.
From Verif Require NavModel.
Local Open Scope string_scope.
Local Open Scope list_scope.

(** The settings [branch.<name>.pushRemote], [.remote] and [.merge] of a branch; the last
    without [refs/heads/]. *)
Record branch_config := mk_bc { bc_push : option string; bc_remote : option string; bc_merge : option string }.
Definition remotes := gmap string (gmap string oid).
Record srepo := mk_srepo { sr_refs : gmap refname oid; sr_config : gmap string branch_config; sr_remotes : remotes }.

(** The surroundings: the name of the main branch, the setting [remote.pushDefault], which
    commits are ancestors of which, the branches a remote does not refuse, and what others do
    to the remotes after fetching and before pushing. *)
Record submit_env := mk_sv {
  sv_main : string;
  sv_push_default : option string;
  sv_forward : oid -> oid -> bool;
  sv_accepts : string -> string -> oid -> bool;
  sv_meanwhile : remotes -> remotes }.

Definition local (n : string) : refname := "refs/heads/" +:+ n.
Definition tracking (remote n : string) : refname := "refs/remotes/" +:+ remote +:+ "/" +:+ n.
Definition remote_branch (rs : remotes) (remote n : string) : option oid :=
  match rs !! remote with Some b => b !! n | None => None end.
Definition set_remote (remote n : string) (o : oid) (rs : remotes) : remotes :=
  <[remote := <[n := o]> (default ∅ (rs !! remote))]> rs.

(** [get_push_remote_name] (git/reference.rs:341-358). *)
Definition push_remote (c : gmap string branch_config) (n : string) : option string :=
  match c !! n with
  | Some b => match bc_push b with Some r => Some r | None => bc_remote b end
  | None => None
  end.
(** [get_upstream_branch] (git/reference.rs:277-296), where it is. *)
Definition upstream_at (r : srepo) (n : string) : option oid :=
  match sr_config r !! n with
  | Some (mk_bc _ (Some remote) (Some m)) =>
      if String.eqb remote "." then sr_refs r !! local m
      else if bool_decide (is_Some (sr_remotes r !! remote)) then sr_refs r !! tracking remote m else None
  | _ => None
  end.
(** [get_default_push_remote] (core/repo_ext.rs:128-155). *)
Definition default_remote (e : submit_env) (r : srepo) : option string :=
  match push_remote (sr_config r) (sv_main e) with Some x => Some x | None => sv_push_default e end.

(** [git fetch <remote> refs/heads/<name>...]. *)
Definition git_fetch (remote : string) (names : list string) (r : srepo) : srepo * bool :=
  if String.eqb remote "." then (r, forallb (fun n => bool_decide (is_Some (sr_refs r !! local n))) names)
  else if forallb (fun n => bool_decide (is_Some (remote_branch (sr_remotes r) remote n))) names
  then (mk_srepo (fold_right (fun n refs => match remote_branch (sr_remotes r) remote n with Some o => <[tracking remote n := o]> refs | None => refs end)
                    (sr_refs r) names) (sr_config r) (sr_remotes r), true)
  else (r, false).

(** [git push <remote> <name>...], either with [--force-with-lease] or with
    [--set-upstream]. *)
Inductive push_how := WithLease | SetUpstream.
Definition push_allowed (e : submit_env) (how : push_how) (remote n : string) (o : oid) (r : srepo) : bool :=
  let there := remote_branch (sr_remotes r) remote n in
  bool_decide (there = Some o) ||
  (match how with
   | WithLease => bool_decide (there = sr_refs r !! tracking remote n)
   | SetUpstream => match there with None => true | Some old => sv_forward e old o end
   end && sv_accepts e remote n o)%bool.
Definition set_upstream (remote n : string) (c : gmap string branch_config) : gmap string branch_config :=
  <[n := mk_bc (match c !! n with Some b => bc_push b | None => None end) (Some remote) (Some n)]> c.
Definition push_one (e : submit_env) (how : push_how) (remote n : string) (r : srepo) : srepo * bool :=
  match sr_refs r !! local n with
  | None => (r, false)
  | Some o =>
      let config := match how with SetUpstream => set_upstream remote n (sr_config r) | WithLease => sr_config r end in
      if String.eqb remote "." then (mk_srepo (sr_refs r) config (sr_remotes r), true)
      else if push_allowed e how remote n o r
      then (mk_srepo (<[tracking remote n := o]> (sr_refs r)) config (set_remote remote n o (sr_remotes r)), true)
      else (r, false)
  end.
Fixpoint push_each (e : submit_env) (how : push_how) (remote : string) (names : list string) (r : srepo) : srepo * bool :=
  match names with
  | [] => (r, true)
  | n :: names' =>
      let (r1, ok1) := push_one e how remote n r in
      let (r2, ok2) := push_each e how remote names' r1 in (r2, (ok1 && ok2)%bool)
  end.
Definition git_push (e : submit_env) (how : push_how) (remote : string) (names : list string) (r : srepo) : srepo * bool :=
  if existsb (fun n => bool_decide (is_Some (sr_refs r !! (("refs/tags/" +:+ n) : refname)))) names then (r, false)
  else if (String.eqb remote "." || bool_decide (is_Some (sr_remotes r !! remote)))%bool then push_each e how remote names r
  else (r, false).

(** Names by remote, in order ([BTreeMap], branch_forge.rs:87-101 and 273-293). *)
Definition by_remote (l : list (string * string)) : list (string * list string) :=
  List.map (fun remote => (remote, sorted_names (remove_dups (List.map snd (List.filter (fun x => String.eqb (fst x) remote) l)))))
    (sorted_names (remove_dups (List.map fst l))).
Definition with_remote (f : string -> option string) (n : string) : list (string * string) :=
  match f n with Some remote => [(remote, n)] | None => [] end.

(** The status of a commit (lib.rs:55-75 and 79-107); the name at the remote is for display
    only. *)
Inductive submit_status := Local | Unsubmitted | Unknown | UpToDate | NeedsUpdate.
Global Instance submit_status_eq_dec : EqDecision submit_status.
Proof. solve_decision. Defined.
Record commit_status := mk_cs { cs_status : submit_status; cs_remote : option string; cs_local : option string }.

(** [query_status] (branch_forge.rs:32-187). *)
Definition branch_infos (e : submit_env) (commits : commit_set) (r : srepo) : list refname :=
  List.filter (fun b => negb (String.eqb (NavModel.render_suffix b) (sv_main e))) (flat_map (branches_at (sr_refs r)) (elements commits)).
Fixpoint fetch_all (l : list (string * list string)) (r : srepo) : srepo * bool :=
  match l with
  | [] => (r, true)
  | (remote, names) :: l' =>
      match git_fetch remote names r with
      | (r', true) => fetch_all l' r'
      | (r', false) => (r', false)
      end
  end.
Definition status_of (infos : list refname) (before r : srepo) (o : oid) : commit_status :=
  match List.filter (fun b => bool_decide (b ∈ infos)) (sorted_names (branches_at (sr_refs before) o)) with
  | [] => mk_cs Local None None
  | [b] =>
      let n := NavModel.render_suffix b in
      match upstream_at r n with
      | None => mk_cs Unsubmitted None (Some n)
      | Some u => mk_cs (if decide (o = u) then UpToDate else NeedsUpdate) (push_remote (sr_config before) n) (Some n)
      end
  | _ => mk_cs Unknown None None
  end.
Definition with_branches (r : srepo) : commit_set :=
  list_to_set (List.map snd (List.filter (fun x => is_local (fst x)) (map_to_list (sr_refs r)))).
Definition query_status (e : submit_env) (commits : commit_set) (r : srepo) : srepo * option (list commit_status) :=
  let infos := branch_infos e commits r in
  match fetch_all (by_remote (flat_map (with_remote (push_remote (sr_config r))) (List.map NavModel.render_suffix infos))) r with
  | (r', true) => (r', Some (List.map (status_of infos r r') (elements (with_branches r))))
  | (r', false) => (r', None)
  end.

(** [create] (branch_forge.rs:190-265) and [update] (branch_forge.rs:268-321). *)
Definition names_of (l : list commit_status) : list string := omap cs_local l.
Definition create (e : submit_env) (l : list commit_status) (r : srepo) : srepo * bool :=
  match default_remote e r with
  | None => (r, false)
  | Some remote => match sorted_names (names_of l) with [] => (r, true) | names => git_push e SetUpstream remote names r end
  end.
Fixpoint push_all (e : submit_env) (l : list (string * list string)) (r : srepo) : srepo * bool :=
  match l with
  | [] => (r, true)
  | (remote, names) :: l' =>
      match git_push e WithLease remote names r with
      | (r', true) => push_all e l' r'
      | (r', false) => (r', false)
      end
  end.
Definition update (e : submit_env) (l : list commit_status) (r : srepo) : srepo * bool :=
  push_all e (by_remote (flat_map (fun s => match cs_remote s, cs_local s with Some x, Some n => [(x, n)] | _, _ => [] end) l)) r.

(** What was done and said: the repository, whether this was a success, and the names of the
    branches that were submitted, updated, skipped for being up to date, and skipped for not
    being on the remote. *)
Record submit_result := mk_su {
  su_repo : srepo;
  su_ok : bool;
  su_submitted : list string;
  su_updated : list string;
  su_skipped : list string;
  su_unsubmitted : list string }.

(** [submit] (lib.rs:214-518). *)
Definition with_status (s : submit_status) (l : list commit_status) : list commit_status :=
  List.filter (fun x => bool_decide (cs_status x = s)) l.
Definition after_others (e : submit_env) (r : srepo) : srepo := mk_srepo (sr_refs r) (sr_config r) (sv_meanwhile e (sr_remotes r)).
Definition submit (e : submit_env) (create_ dry_run : bool) (commits : commit_set) (r : srepo) : submit_result :=
  let fail r := mk_su r false [] [] [] [] in
  match query_status e commits r with
  | (r0, None) => fail (after_others e r0)
  | (r0, Some statuses) =>
      let r1 := after_others e r0 in
      let new := with_status Unsubmitted statuses in
      let changed := with_status NeedsUpdate statuses in
      match (if (create_ && negb dry_run)%bool then create e new r1 else (r1, true)) with
      | (r2, false) => fail r2
      | (r2, true) =>
          match (if dry_run then (r2, true) else update e changed r2) with
          | (r3, false) => fail r3
          | (r3, true) =>
              mk_su r3 true (if create_ then sorted_names (names_of new) else []) (sorted_names (names_of changed))
                (sorted_names (names_of (with_status UpToDate statuses))) (if create_ then [] else sorted_names (names_of new))
          end
      end
  end.

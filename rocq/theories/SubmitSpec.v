(** What submitting should do, said on branches here and on the remotes. *)
From Verif Require Import Base TextModel EventLogModel DagModel ExecModel SubmitModel.
Local Open Scope string_scope.
Local Open Scope list_scope.

(** The branches at the commits given other than the main branch, and those of them that are
    the only one at their commit. *)
Definition given (e : submit_env) (commits : commit_set) (r : srepo) (n : string) (o : oid) : Prop :=
  sr_refs r !! (("refs/heads/" +:+ n) : refname) = Some o /\ o ∈ commits /\ n <> sv_main e.
Definition alone (e : submit_env) (commits : commit_set) (r : srepo) (n : string) (o : oid) : Prop :=
  given e commits r n o /\ forall n', given e commits r n' o -> n' = n.

(** [pushRemote] goes before [remote]. *)
Definition pushes_to (r : srepo) (n remote : string) : Prop :=
  exists c, sr_config r !! n = Some c /\ (bc_push c = Some remote \/ bc_push c = None /\ bc_remote c = Some remote).
(** Where the upstream of a branch is: a local branch if its remote is [.]. *)
Definition upstream (r : srepo) (n : string) (o : oid) : Prop :=
  exists c remote m, sr_config r !! n = Some c /\ bc_remote c = Some remote /\ bc_merge c = Some m /\
    ((remote = "." /\ sr_refs r !! (("refs/heads/" +:+ m) : refname) = Some o) \/
     (remote <> "." /\ is_Some (sr_remotes r !! remote) /\ sr_refs r !! (("refs/remotes/" +:+ remote +:+ "/" +:+ m) : refname) = Some o)).
Definition no_upstream (r : srepo) (n : string) : Prop := forall o, ~ upstream r n o.
(** Where new branches are pushed. *)
Definition new_go_to (e : submit_env) (r : srepo) (remote : string) : Prop :=
  pushes_to r (sv_main e) remote \/ ((forall x, ~ pushes_to r (sv_main e) x) /\ sv_push_default e = Some remote).

(** Remotes have no slash in their names, as Git wants it. *)
Definition plain_name (s : string) : Prop := forall a b, s <> a +:+ "/" +:+ b.
Definition plain_remotes (r : srepo) : Prop := forall n remote, pushes_to r n remote -> plain_name remote.

(** After fetching, for each branch given that has a remote to push to, what is known of that
    branch at the remote is the case, and the branch is there; all else is as before. *)
Record fetched (e : submit_env) (commits : commit_set) (r r' : srepo) : Prop := {
  fe_config : sr_config r' = sr_config r;
  fe_remotes : sr_remotes r' = sr_remotes r;
  fe_seen : forall n o remote, given e commits r n o -> pushes_to r n remote -> remote <> "." ->
    exists v, remote_branch (sr_remotes r) remote n = Some v /\ sr_refs r' !! (("refs/remotes/" +:+ remote +:+ "/" +:+ n) : refname) = Some v;
  fe_rest : forall b : refname, (forall n o remote, given e commits r n o -> pushes_to r n remote -> remote <> "." ->
      b <> "refs/remotes/" +:+ remote +:+ "/" +:+ n) ->
    sr_refs r' !! b = sr_refs r !! b }.
Definition plain_setting (e : submit_env) (r : srepo) : Prop :=
  plain_remotes r /\ forall remote, new_go_to e r remote -> plain_name remote.

(** Branches that have a remote have the branch of the same name there as their upstream, and
    are pushed there. *)
Definition own_upstreams (e : submit_env) (commits : commit_set) (r : srepo) : Prop :=
  forall n o c, alone e commits r n o -> sr_config r !! n = Some c ->
    exists remote, remote <> "." /\ pushes_to r n remote /\ bc_remote c = Some remote /\ bc_merge c = Some n.

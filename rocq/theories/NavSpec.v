(** What [git next], [git prev] and [git switch] are to do. *)
From Verif Require Import Base StrModel TextModel EventLogModel EvolveModel DagModel DagSpec TrailerModel NavModel.

(** The nearest branches above and below a commit: no other branch lies between. *)
Definition branch_above (d : dag) (a b : oid) : Prop :=
  b ∈ branch_commits d /\ proper_ancestor (dag_graph d) a b.
Definition nearest_above (d : dag) (a b : oid) : Prop :=
  branch_above d a b /\ forall b', branch_above d a b' -> ~ proper_ancestor (dag_graph d) b' b.
Definition branch_below (d : dag) (a b : oid) : Prop :=
  b ∈ branch_commits d /\ proper_ancestor (dag_graph d) b a.
Definition nearest_below (d : dag) (a b : oid) : Prop :=
  branch_below d a b /\ forall b', branch_below d a b' -> ~ proper_ancestor (dag_graph d) b b'.

Definition by_branches (dist : distance) : bool :=
  match dist with NumCommits _ b | AllTheWay b => b end.
Definition all_the_way (dist : distance) : bool :=
  match dist with NumCommits _ _ => false | AllTheWay _ => true end.

(** [b] is one of the places to go to from [a]: a visible child, a parent, or a nearest
    branch; only commits that can be read, and when going back all the way only commits
    that are not public. *)
Definition can_step (e : nav_env) (c : command) (dist : distance) (a b : oid) : Prop :=
  let d := nv_dag e in
  nv_found e b = true /\
  match c, by_branches dist with
  | Next, false => parent (dag_graph d) a b /\ visible d b
  | Next, true => nearest_above d a b
  | Prev, false => parent (dag_graph d) b a
  | Prev, true => nearest_below d a b
  end /\
  (c = Prev -> all_the_way dist = true -> ~ public d b).
Definition stuck (e : nav_env) (c : command) (dist : distance) (a : oid) : Prop :=
  forall b, ~ can_step e c dist a b.

(** The only place to go to; the one with the latest (earliest) committer time, ties
    broken by the id. *)
Definition only_step (e : nav_env) (c : command) (dist : distance) (a b : oid) : Prop :=
  can_step e c dist a b /\ forall b', can_step e c dist a b' -> b' = b.
Definition older (e : nav_env) (a b : oid) : Prop :=
  (nv_time e a < nv_time e b)%Z \/ (nv_time e a = nv_time e b /\ (a < b)%N).
Definition newest_step (e : nav_env) (c : command) (dist : distance) (a b : oid) : Prop :=
  can_step e c dist a b /\ forall b', can_step e c dist a b' -> b' = b \/ older e b' b.
Definition oldest_step (e : nav_env) (c : command) (dist : distance) (a b : oid) : Prop :=
  can_step e c dist a b /\ forall b', can_step e c dist a b' -> b' = b \/ older e b b'.

(** When one of the places to go to lies below another, the times tell so. *)
Definition times_fit (e : nav_env) (c : command) (dist : distance) : Prop :=
  forall a b b', can_step e c dist a b -> can_step e c dist a b' ->
    proper_ancestor (dag_graph (nv_dag e)) b b' -> (nv_time e b < nv_time e b')%Z.

(** Where moving may end after [n] steps. *)
Definition far_enough (e : nav_env) (c : command) (dist : distance) (n : nat) (o : oid) : Prop :=
  match dist with
  | NumCommits k _ => n = k \/ (0 < n < k /\ stuck e c dist o)
  | AllTheWay _ => stuck e c dist o
  end.

(** What the options of the command line ask for. *)
Definition asked_distance (p : nav_options) (dist : distance) : Prop :=
  by_branches dist = no_branches p /\
  match dist with
  | NumCommits k _ => no_all p = false /\ (no_num p = Some k \/ (no_num p = None /\ k = 1%nat))
  | AllTheWay _ => no_all p = true /\ no_num p = None
  end.
Definition asked_towards (p : nav_options) (t : option towards) : Prop :=
  no_oldest p = (match t with Some Oldest => true | _ => false end) /\
  no_newest p = (match t with Some Newest => true | _ => false end) /\
  no_interactive p = (match t with Some Interactive => true | _ => false end).

(** The commit HEAD names. *)
Definition head_at (s : refstate) : option oid :=
  match rs_head s with Detached o => Some o | OnBranch r => rs_refs s !! r end.

(** [r] is the only local branch at [o]. *)
Definition local_branch (r : refname) : Prop := exists n, r = heads_prefix +:+ n.
Definition only_branch (s : refstate) (o : oid) (r : refname) : Prop :=
  forall r', (local_branch r' /\ rs_refs s !! r' = Some o) <-> r' = r.

(** Git reads the full hash of a commit as that commit; no branch is named like a hash. *)
Definition rev_ok (rev : string -> option oid) : Prop :=
  forall o, oid_ok o -> rev (oid_to_string o) = Some o.
Definition names_ok (s : refstate) : Prop :=
  forall o, oid_ok o -> rs_refs s !! (heads_prefix +:+ oid_to_string o : refname) = None.

(** What submitting to GitHub should do, said on commits, branches and pull requests. *)
From stdpp Require Import pretty.
From Verif Require Import Base TextModel EventLogModel DagModel DagSpec ExecModel SubmitModel SubmitSpec GithubModel.
Local Open Scope string_scope.
Local Open Scope list_scope.

(** A branch of that name is at the commit. *)
Definition at_commit (h : hub) (n : string) (o : oid) : Prop := sr_refs (hb_repo h) !! (("refs/heads/" +:+ n) : refname) = Some o.
(** The branch was pushed, as far as known here. *)
Definition on_remote (h : hub) (n : string) : Prop :=
  exists remote v, pushes_to (hb_repo h) n remote /\ sr_refs (hb_repo h) !! (("refs/remotes/" +:+ remote +:+ "/" +:+ n) : refname) = Some v.
(** A commit's branch with its pull request. *)
Definition pr_for (h : hub) (o : oid) (n : string) (p : pull_request) : Prop :=
  at_commit h n o /\ on_remote h n /\ hb_prs h !! n = Some p.

(** The usual setting: branches are at commits of the graph, those that have a remote are pushed there under their own name, no two
    are at the same commit past the main branch, and pull requests differ in their numbers. *)
Record usual (e : hub_env) (h : hub) : Prop := {
  us_graph : wf_graph (dag_graph (he_dag e));
  us_own : forall n c, sr_config (hb_repo h) !! n = Some c -> exists remote,
    c = mk_bc None (Some remote) (Some n) /\ plain_name remote /\ remote <> "." /\ is_Some (sr_remotes (hb_repo h) !! remote);
  us_known : forall n o, at_commit h n o -> o ∈ vertices (dag_graph (he_dag e));
  us_here : forall n, is_Some (sr_config (hb_repo h) !! n) -> exists o, at_commit h n o;
  us_one : forall n n' o, at_commit h n o -> at_commit h n' o -> ~ public (he_dag e) o -> n = n';
  us_keyed : forall m p, hb_prs h !! m = Some p -> pr_head_name p = m;
  us_numbers : forall m p m' p', hb_prs h !! m = Some p -> hb_prs h !! m' = Some p' -> pr_number p = pr_number p' -> m = m';
  us_last : forall m p, hb_prs h !! m = Some p -> (pr_number p <= hb_last h)%N }.
(** The commits given are known, visible and not on the main branch. *)
Definition drafts (e : hub_env) (commits : commit_set) : Prop :=
  forall o, o ∈ commits -> o ∈ vertices (dag_graph (he_dag e)) /\ visible (he_dag e) o /\ ~ public (he_dag e) o.

(** Two commits are of one stack. *)
Definition in_stack (d : dag) (o c : oid) : Prop :=
  visible d c /\ ~ public d c /\ exists a, visible d a /\ ~ public d a /\ ancestor (dag_graph d) a o /\ ancestor (dag_graph d) a c.
(** The pull requests of a stack, in an order where commits go after their ancestors. *)
Record stack_listed (d : dag) (h : hub) (stack : oid -> Prop) (l : list (oid * pull_request)) : Prop := {
  sl_once : NoDup (List.map fst l);
  sl_all : forall c p, (c, p) ∈ l <-> stack c /\ exists n, pr_for h c n p;
  sl_order : forall i j a b p q, l !! i = Some (a, p) -> l !! j = Some (b, q) -> proper_ancestor (dag_graph d) a b -> i < j }.
Definition title_says (e : hub_env) (l : list (oid * pull_request)) (o : oid) (t : string) : Prop :=
  exists i p, l !! i = Some (o, p) /\
    t = "[" +:+ pretty (N.of_nat (S i)) +:+ "/" +:+ pretty (N.of_nat (length l)) +:+ "] " +:+ he_encode e (he_summary e o).
Fixpoint url_lines (l : list (oid * pull_request)) : string :=
  match l with
  | [] => ""
  | (_, p) :: l' => "* " +:+ pr_url p +:+ LF +:+ url_lines l'
  end.
Definition body_says (e : hub_env) (l : list (oid * pull_request)) (o : oid) (b : string) : Prop :=
  b = "**Stack:**" +:+ LF +:+ LF +:+ url_lines l +:+ LF +:+ LF +:+ "---" +:+ LF +:+ LF +:+ he_message e o +:+ LF.

(** The commits with pull requests that a commit builds on; the nearest and the farthest. *)
Definition below (e : hub_env) (h : hub) (o a : oid) (p : pull_request) : Prop :=
  proper_ancestor (dag_graph (he_dag e)) a o /\ ~ public (he_dag e) a /\ exists n, pr_for h a n p.
Definition nearest (e : hub_env) (h : hub) (o a : oid) : Prop :=
  forall b q, below e h o b q -> ~ proper_ancestor (dag_graph (he_dag e)) a b.
Definition farthest (e : hub_env) (h : hub) (o a : oid) : Prop :=
  forall b q, below e h o b q -> ~ proper_ancestor (dag_graph (he_dag e)) b a.
(** The base of a pull request: that of such a commit, else the main branch. *)
Definition base_is (e : hub_env) (h : hub) (which : oid -> Prop) (o : oid) (base : string) : Prop :=
  (exists a p, below e h o a p /\ which a /\ base = pr_head_name p) \/
  ((forall a p, ~ below e h o a p) /\ base = sv_main (he_submit e)).

(** The graph library gives children before parents, as [sort] (core/dag.rs:356-365) and the
    library have it; or the other way around. *)
Definition lists_all (e : hub_env) : Prop := forall s, NoDup (he_order e s) /\ forall c, c ∈ he_order e s <-> c ∈ s.
Definition newest_first (e : hub_env) : Prop := lists_all e /\
  forall s i j a b, he_order e s !! i = Some a -> he_order e s !! j = Some b -> proper_ancestor (dag_graph (he_dag e)) a b -> j < i.
Definition oldest_first (e : hub_env) : Prop := lists_all e /\
  forall s i j a b, he_order e s !! i = Some a -> he_order e s !! j = Some b -> proper_ancestor (dag_graph (he_dag e)) a b -> i < j.

(** All of a pull request but what is edited. *)
Definition same_request (p q : pull_request) : Prop :=
  pr_number q = pr_number p /\ pr_url q = pr_url p /\ pr_head_name q = pr_head_name p.

(** What the pull request of a commit should say; [list] gives the pull requests of its stack. *)
Record described (e : hub_env) (h : hub) (list : oid -> list (oid * pull_request)) (o : oid) (p : pull_request) : Prop := {
  de_head : pr_head p = o;
  de_title : title_says e (list o) o (pr_title p);
  de_body : body_says e (list o) o (pr_body p);
  de_far : newest_first e -> base_is e h (farthest e h o) o (pr_base p);
  de_near : oldest_first e -> base_is e h (nearest e h o) o (pr_base p) }.
Record stack_lists (e : hub_env) (h : hub) (list : oid -> list (oid * pull_request)) : Prop := {
  st_listed : forall o, stack_listed (he_dag e) h (in_stack (he_dag e) o) (list o);
  st_shared : forall a b, (forall c, in_stack (he_dag e) a c <-> in_stack (he_dag e) b c) -> list a = list b }.

(** Every pull request is for a branch that is here and was pushed. *)
Definition requests_here (h : hub) : Prop := forall m p, hb_prs h !! m = Some p -> exists o, pr_for h o m p.
(** GitHub's remote is the one that new branches are pushed to. *)
Definition pushes_new_to (e : hub_env) (h : hub) (remote : string) : Prop :=
  new_go_to (he_submit e) (hb_repo h) remote /\ plain_name remote /\ remote <> "." /\
  ((exists l l', he_resolved e = l ++ (remote, Some "base") :: l' /\ forall x, x ∈ l -> snd x <> Some "base") \/ (forall x, x ∈ he_resolved e -> snd x <> Some "base")).

(** Names for a new branch are taken in turn. *)
Definition candidate (base : string) (k : N) : string := if decide (k = 1%N) then base else base +:+ "-" +:+ pretty k.
Definition taken (r : srepo) (n : string) : Prop := is_Some (sr_refs r !! (("refs/heads/" +:+ n) : refname)).

(** Words in a text with hyphens around them, and the words joined. *)
Definition word (w : list N) : Prop := w <> [] /\ hyphen ∉ w.
Inductive words_of : list (list N) -> list N -> Prop :=
| words_none : words_of [] []
| words_hyphen ws t : words_of ws t -> words_of ws (hyphen :: t)
| words_last w : word w -> words_of [w] w
| words_more w ws t : word w -> words_of ws t -> words_of (w :: ws) (w ++ hyphen :: t).
Fixpoint hyphenated (ws : list (list N)) : list N :=
  match ws with
  | [] => []
  | [w] => w
  | w :: ws' => w ++ hyphen :: hyphenated ws'
  end.
(** Letters and digits in lower case, and a hyphen for all else. *)
Definition plain_text (alnum : N -> bool) (lower : N -> list N) (summary : list N) : list N :=
  flat_map (fun c => if alnum c then lower c else [hyphen]) summary.

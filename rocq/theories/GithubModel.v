(** Model of [git submit --forge github] (git-branchless-submit/src/github.rs, and [submit] in
    git-branchless-submit/src/lib.rs).

    GitHub is described after [MockGithubClient] (github.rs:1080-1227): the open pull requests of
    the user, by the name of the branch they are for.  Whether it refuses a request is a
    parameter.  Not modelled: the closing of pull requests, drafts, messages, events recorded,
    and anyone else acting meanwhile.  Pushing is as in [SubmitModel].  Letters are numbers
    here, and a parameter turns them to bytes. *)
From stdpp Require Import pretty.
From Verif Require Import Base TextModel EventLogModel DagModel ExecModel SubmitModel.
From Verif Require NavModel.
Local Open Scope string_scope.
Local Open Scope list_scope.

(** [PullRequestInfo] (github.rs:724-744) without [closed] and [is_draft], which are not read. *)
Record pull_request := mk_pr {
  pr_number : N;
  pr_url : string;
  pr_head_name : string;
  pr_head : oid;
  pr_base : string;
  pr_title : string;
  pr_body : string }.
Global Instance pull_request_eq_dec : EqDecision pull_request.
Proof. solve_decision. Defined.
(** The repository here and [MockState] (github.rs:1006-1017). *)
Record hub := mk_hub { hb_repo : srepo; hb_prs : gmap string pull_request; hb_last : N }.
Definition set_repo (r : srepo) (h : hub) : hub := mk_hub r (hb_prs h) (hb_last h).

(** The surroundings.  [he_order] is the order in which the graph library iterates over a set
    of commits; [he_resolved] the remotes in order with the setting [remote.<name>.gh-resolved];
    [he_lists] whether the first, second and third request for all pull requests works;
    [he_branch_ok] whether libgit2 allows for a branch of that name. *)
Record hub_env := mk_he {
  he_submit : submit_env;
  he_dag : dag;
  he_order : commit_set -> list oid;
  he_alnum : N -> bool;
  he_lower : N -> list N;
  he_encode : list N -> string;
  he_summary : oid -> list N;
  he_message : oid -> string;
  he_user : option string;
  he_resolved : list (string * option string);
  he_branch_ok : string -> bool;
  he_lists : nat -> bool;
  he_new_ok : string -> bool;
  he_edit_ok : N -> bool;
  he_url : N -> string;
  he_default_base : string }.

(** [commit_summary_slug] (github.rs:43-59). *)
Definition hyphen : N := 45.
Definition to_review : list N := [116; 111; 45; 114; 101; 118; 105; 101; 119]%N.
Fixpoint dedup_hyphens (l : list N) : list N :=
  match l with
  | [] => []
  | c :: l' =>
      match dedup_hyphens l' with
      | d :: l'' => if (N.eqb c hyphen && N.eqb d hyphen)%bool then d :: l'' else c :: d :: l''
      | [] => [c]
      end
  end.
Fixpoint trim_start (l : list N) : list N :=
  match l with
  | [] => []
  | c :: l' => if N.eqb c hyphen then trim_start l' else l
  end.
Definition trim_hyphens (l : list N) : list N := reverse (trim_start (reverse (trim_start l))).
Definition summary_slug (alnum : N -> bool) (lower : N -> list N) (summary : list N) : list N :=
  match trim_hyphens (dedup_hyphens (flat_map (fun c => lower (if alnum c then c else hyphen)) summary)) with
  | [] => to_review
  | slug => slug
  end.

(** [github_push_remote] (github.rs:78-104), and what [create] falls back to (github.rs:213-230). *)
Definition hub_remote (e : hub_env) (r : srepo) : option string :=
  match List.find (fun x => bool_decide (snd x = Some "base")) (he_resolved e) with
  | Some x => Some (fst x)
  | None => default_remote (he_submit e) r
  end.

(** [get_upstream_branch_name_without_push_remote_name] (git/reference.rs:310-339). *)
Definition upstream_name (r : srepo) (n : string) : option string :=
  match push_remote (sr_config r) n, upstream_at r n, sr_config r !! n with
  | Some p, Some _, Some (mk_bc _ (Some remote) (Some m)) =>
      let name := if String.eqb remote "." then m else remote +:+ "/" +:+ m in
      Some (match strip_prefix (p +:+ "/") name with Some s => s | None => name end)
  | _, _, _ => None
  end.

(** The pull request of a commit ([get_pull_request_info], github.rs:535-599); [refs] are the
    references when the operation began. *)
Definition pr_of_branch (r : srepo) (prs : gmap string pull_request) (b : refname) : option pull_request :=
  let n := NavModel.render_suffix b in
  match sr_refs r !! local n with
  | None => None
  | Some _ => match upstream_name r n with Some m => prs !! m | None => None end
  end.
Definition pr_at (refs : gmap refname oid) (r : srepo) (prs : gmap string pull_request) (o : oid) : option pull_request :=
  head (omap (pr_of_branch r prs) (sorted_names (branches_at refs o))).

(** [make_updated_pull_request_info] (github.rs:518-697). *)
Record pr_update := mk_up { up_head : oid; up_base : string; up_title : string; up_body : string }.
Definition LF : string := String (Ascii.ascii_of_nat 10) "".
Definition stack_prs (e : hub_env) (refs : gmap refname oid) (r : srepo) (prs : gmap string pull_request) (o : oid) : list (oid * pull_request) :=
  omap (fun c => match pr_at refs r prs c with Some p => Some (c, p) | None => None end)
    (dag_sort (dag_graph (he_dag e)) (stack_commits (he_dag e) {[o]})).
Fixpoint index_of (o : oid) (l : list (oid * pull_request)) : option nat :=
  match l with
  | [] => None
  | (c, _) :: l' => if N.eqb c o then Some 1 else match index_of o l' with Some i => Some (S i) | None => None end
  end.
Definition title_of (e : hub_env) (l : list (oid * pull_request)) (o : oid) : string :=
  "[" +:+ (match index_of o l with Some i => pretty (N.of_nat i) | None => "?" end) +:+ "/" +:+ pretty (N.of_nat (length l)) +:+ "] " +:+
  he_encode e (he_summary e o).
Definition body_of (e : hub_env) (l : list (oid * pull_request)) (o : oid) : string :=
  "**Stack:**" +:+ LF +:+ LF +:+ String.concat "" (List.map (fun x => "* " +:+ pr_url (snd x) +:+ LF) l) +:+ LF +:+ LF +:+
  "---" +:+ LF +:+ LF +:+ he_message e o +:+ LF.
Definition base_of (e : hub_env) (refs : gmap refname oid) (r : srepo) (prs : gmap string pull_request) (o : oid) : string :=
  let d := he_dag e in
  match head (omap (pr_at refs r prs) (rev (he_order e (only (dag_graph d) {[o]} (main_branch_commit d) ∖ {[o]})))) with
  | Some p => pr_head_name p
  | None => sv_main (he_submit e)
  end.
Definition updated (e : hub_env) (refs : gmap refname oid) (r : srepo) (prs : gmap string pull_request) (o : oid) : pr_update :=
  let l := stack_prs e refs r prs o in
  mk_up o (base_of e refs r prs o) (title_of e l o) (body_of e l o).

(** [fields_to_update] (github.rs:763-796). *)
Definition fields_to_update (u : pr_update) (p : pull_request) : list string :=
  (if decide (pr_head p = up_head u) then [] else ["commit"]) ++
  (if decide (pr_base p = up_base u) then [] else ["base branch"]) ++
  (if decide (pr_title p = up_title u) then [] else ["title"]) ++
  (if decide (pr_body p = up_body u) then [] else ["body"]).

(** [query_status] (github.rs:120-192).  Branches come in the order of their names; for a commit
    with several the last counts. *)
Record hub_status := mk_hs { hs_status : submit_status; hs_remote : option string; hs_local : option string; hs_upstream : option string }.
Definition local_branches (refs : gmap refname oid) : list string :=
  List.map NavModel.render_suffix (sorted_names (List.filter is_local (List.map fst (map_to_list refs)))).
Definition status_with (e : hub_env) (h : hub) (n : string) (o : oid) : hub_status :=
  let r := hb_repo h in
  let m := upstream_name r n in
  mk_hs (match match m with Some x => hb_prs h !! x | None => None end with
         | None => Unsubmitted
         | Some p => match fields_to_update (updated e (sr_refs r) r (hb_prs h) o) p with [] => UpToDate | _ => NeedsUpdate end
         end) (push_remote (sr_config r) n) (Some n) m.
Definition with_branch_status (e : hub_env) (commits : commit_set) (h : hub) (m : gmap oid hub_status) (n : string) : gmap oid hub_status :=
  match sr_refs (hb_repo h) !! local n with
  | Some o => if decide (o ∈ commits) then <[o := status_with e h n o]> m else m
  | None => m
  end.
Definition or_unsubmitted (m : gmap oid hub_status) (o : oid) : gmap oid hub_status :=
  match m !! o with
  | Some _ => m
  | None => <[o := mk_hs Unsubmitted None None None]> m
  end.
Definition query_hub (e : hub_env) (commits : commit_set) (h : hub) : option (gmap oid hub_status) :=
  if he_lists e 0
  then Some (fold_left or_unsubmitted (elements commits)
               (fold_left (with_branch_status e commits h) (local_branches (sr_refs (hb_repo h))) ∅))
  else None.

(** [update_pull_request] (github.rs:1155-1186). *)
Definition edited (u : pr_update) (p : pull_request) : pull_request :=
  mk_pr (pr_number p) (pr_url p) (pr_head_name p) (up_head u) (up_base u) (up_title u) (up_body u).
Definition edit_pr (number : N) (u : pr_update) (prs : gmap string pull_request) : gmap string pull_request :=
  (fun p => if N.eqb (pr_number p) number then edited u p else p) <$> prs.

(** [update] (github.rs:366-492). *)
Definition plain_status (s : hub_status) : commit_status := mk_cs (hs_status s) (hs_remote s) (hs_local s).
Fixpoint update_each (e : hub_env) (refs : gmap refname oid) (prs : gmap string pull_request) (statuses : gmap oid hub_status)
  (l : list oid) (h : hub) : hub * bool :=
  match l with
  | [] => (h, true)
  | o :: l' =>
      match statuses !! o with
      | None => update_each e refs prs statuses l' h
      | Some s =>
          match match hs_upstream s with Some m => prs !! m | None => None end with
          | None => update_each e refs prs statuses l' h
          | Some p =>
              let u := updated e refs (hb_repo h) prs o in
              match SubmitModel.update (he_submit e) [plain_status s] (hb_repo h) with
              | (r, false) => (set_repo r h, false)
              | (r, true) =>
                  if he_edit_ok e (pr_number p)
                  then update_each e refs prs statuses l' (mk_hub r (edit_pr (pr_number p) u (hb_prs h)) (hb_last h))
                  else (set_repo r h, false)
              end
          end
      end
  end.
Definition update_hub (e : hub_env) (k : nat) (statuses : gmap oid hub_status) (h : hub) : hub * bool :=
  if he_lists e k
  then update_each e (sr_refs (hb_repo h)) (hb_prs h) statuses (dag_sort (dag_graph (he_dag e)) (dom statuses)) h
  else (h, false).

(** A name for a new branch (github.rs:250-283): [i] runs from 2, and 7 is too far. *)
Fixpoint fresh_name (tries : nat) (refs : gmap refname oid) (base name : string) (i : N) : option string :=
  match tries with
  | O => None
  | S tries' =>
      match refs !! local name with
      | Some _ => fresh_name tries' refs base (base +:+ "-" +:+ pretty i) (i + 1)%N
      | None => Some name
      end
  end.
Definition new_branch (e : hub_env) (user : string) (o : oid) (r : srepo) : option (string * srepo) :=
  let base := user +:+ "/" +:+ he_encode e (summary_slug (he_alnum e) (he_lower e) (he_summary e o)) in
  match fresh_name 5 (sr_refs r) base base 2 with
  | None => None
  | Some n => if he_branch_ok e n then Some (n, mk_srepo (<[local n := o]> (sr_refs r)) (sr_config r) (sr_remotes r)) else None
  end.

(** The branches of [create] (github.rs:232-294), with the names of those pushed. *)
Fixpoint create_branches (e : hub_env) (user : string) (l : list (oid * hub_status)) (r : srepo) (made : list (oid * string))
  : srepo * option (list (oid * string)) :=
  match l with
  | [] => (r, Some made)
  | (o, s) :: l' =>
      match match hs_local s with Some n => Some (n, r) | None => new_branch e user o r end with
      | None => (r, None)
      | Some (n, r1) =>
          match SubmitModel.create (he_submit e) [mk_cs (hs_status s) (hs_remote s) (Some n)] r1 with
          | (r2, false) => (r2, None)
          | (r2, true) => create_branches e user l' r2 (made ++ [(o, n)])
          end
      end
  end.

(** [create_pull_request] (github.rs:1110-1153), for all of them (github.rs:318-358). *)
Definition new_pr (e : hub_env) (o : oid) (n : string) (h : hub) : hub :=
  let k := (hb_last h + 1)%N in
  mk_hub (hb_repo h)
    (<[n := mk_pr k (he_url e k) n o (he_default_base e) (he_encode e (he_summary e o)) (he_message e o)]> (hb_prs h)) k.
Fixpoint create_prs (e : hub_env) (l : list (oid * string)) (h : hub) : hub * bool :=
  match l with
  | [] => (h, true)
  | (o, n) :: l' => if he_new_ok e n then create_prs e l' (new_pr e o n h) else (h, false)
  end.

(** [create] (github.rs:195-363). *)
Definition to_create (e : hub_env) (statuses : gmap oid hub_status) : list (oid * hub_status) :=
  omap (fun o => match statuses !! o with
                 | Some s => if decide (hs_status s = Unsubmitted) then Some (o, s) else None
                 | None => None
                 end) (dag_sort (dag_graph (he_dag e)) (dom statuses)).
Definition created_status (remote : string) (x : oid * string) : oid * hub_status :=
  (fst x, mk_hs NeedsUpdate (Some remote) (Some (snd x)) (Some (snd x))).
Definition create_hub (e : hub_env) (statuses : gmap oid hub_status) (h : hub) : hub * option (list string) :=
  match hub_remote e (hb_repo h), he_user e with
  | Some remote, Some user =>
      match create_branches e user (to_create e statuses) (hb_repo h) [] with
      | (r1, None) => (set_repo r1 h, None)
      | (r1, Some made) =>
          match create_prs e made (set_repo r1 h) with
          | (h2, false) => (h2, None)
          | (h2, true) =>
              match update_hub e 1 (list_to_map (List.map (created_status remote) made)) h2 with
              | (h3, false) => (h3, None)
              | (h3, true) => (h3, Some (List.map snd made))
              end
          end
      end
  | _, _ => (h, None)
  end.

(** [submit] (lib.rs:214-518): what was done, and the names said to be submitted, updated, skipped
    for being up to date, and skipped for not being on the remote. *)
Record hub_result := mk_hr {
  hr_hub : hub;
  hr_ok : bool;
  hr_submitted : list string;
  hr_updated : list string;
  hr_skipped : list string;
  hr_unsubmitted : list string }.
Definition having (s : submit_status) (m : gmap oid hub_status) : gmap oid hub_status := filter (fun x => hs_status (snd x) = s) m.
Definition named (m : gmap oid hub_status) : list string := sorted_names (omap (fun x => hs_local (snd x)) (map_to_list m)).
Definition submit_hub (e : hub_env) (create_ dry_run : bool) (commits : commit_set) (h : hub) : hub_result :=
  let fail h := mk_hr h false [] [] [] [] in
  match query_hub e commits h with
  | None => fail h
  | Some statuses =>
      let new := having Unsubmitted statuses in
      let changed := having NeedsUpdate statuses in
      match (if (create_ && negb dry_run)%bool then create_hub e new h else (h, Some (named new))) with
      | (h1, None) => fail h1
      | (h1, Some names) =>
          match (if dry_run then (h1, true) else update_hub e 2 changed h1) with
          | (h2, false) => fail h2
          | (h2, true) =>
              mk_hr h2 true (if create_ then sorted_names names else []) (named changed) (named (having UpToDate statuses))
                (if create_ then [] else named new)
          end
      end
  end.

(** Model of submitting to Phabricator (git-branchless-submit/src/phabricator.rs).

    Revisions at the server are a map from their numbers, as written, to what [differential.query]
    tells of them.  What [arc diff] does to the repository and the server is given from outside
    (running it for several commits is in RunnerModel), and so is the answer to a request to
    edit.  Queries are answered.  Messages of commits are numbers, with the text as a parameter.
    Not modelled: the mock used by tests, messages other than the names reported, and messages
    of commits that are not valid UTF-8. *)
From Verif Require Import Base TextModel EventLogModel DagModel StrModel HookModel PlanModel ExecModel HideModel RestackModel SyncModel
  SubmitModel TestCacheModel RecCmdModel FixModel.
From Coq Require Import Ascii.
Local Open Scope string_scope.
Local Open Scope list_scope.

(** ** The number of a revision *)

(** [get_revision_id] (phabricator.rs:1019-1050): the expression, for what follows [Differential Revision: ]
    in a line; [(.+ /)?] takes at least one character before the slash. *)
Definition is_digit (c : ascii) : bool := (Ascii.leb "0" c && Ascii.leb c "9")%bool.
Fixpoint all_digits (s : string) : bool :=
  match s with EmptyString => true | String c s' => (is_digit c && all_digits s')%bool end.
Definition number (s : string) : option string :=
  match s with
  | String c (String _ _ as ds) => if (Ascii.eqb c "D" && all_digits ds)%bool then Some ds else None
  | _ => None
  end.
Fixpoint after_slash (s : string) : option string :=
  match s with
  | EmptyString => None
  | String c s' => match after_slash s' with Some d => Some d | None => if Ascii.eqb c "/" then number s' else None end
  end.
Definition id_in_rest (s : string) : option string :=
  match s with
  | EmptyString => None
  | String _ s' => match after_slash s' with Some d => Some d | None => number s end
  end.
Definition id_in_line (s : string) : option string := match strip_prefix "Differential Revision: " s with Some s' => id_in_rest s' | None => None end.
(** The lines of a text, at whose start and end the expression is looked for (phabricator.rs:1031-1041). *)
Fixpoint text_lines (s : string) : list string :=
  match s with
  | EmptyString => [EmptyString]
  | String c s' =>
      if Ascii.eqb c "010" then EmptyString :: text_lines s'
      else match text_lines s' with l :: ls => String c l :: ls | [] => [String c EmptyString] end
  end.
Definition id_in (text : string) : option string := head (omap id_in_line (text_lines text)).

(** ** The server and the surroundings *)

(** [DifferentialQueryRevisionResponse] (phabricator.rs:108-125); a hash is [None] if it cannot be parsed. *)
Record revision := mk_rev { rv_phid : N; rv_hashes : list (string * option oid); rv_depends : list N }.
Definition server := gmap string revision.
(** The repository and the server. *)
Record phab := mk_phab { pb_repo : rrepo; pb_server : server }.
(** What running [arc diff] for some commits comes to: the commits in the repository then, the server, whether
    it was given up, and the results in some order. *)
Record arc_run := mk_run { ar_store : store; ar_server : server; ar_aborted : bool; ar_outs : list (oid * outcome) }.
(** The answer to [arc call-conduit -- differential.revision.edit]: done, not done but with exit code zero, or failed
    (phabricator.rs:975-1017); what is printed is not read. *)
Inductive edit_answer := EditDone | EditIgnored | EditFailed.
Record phab_env := mk_ph {
  ph_restack : restack_env;
  ph_text : N -> string;
  ph_sort : store -> commit_set -> list oid;
  ph_arc_create : list oid -> store -> server -> arc_run;
  ph_arc_update : list oid -> store -> server -> arc_run;
  ph_edit : server -> string -> list N -> edit_answer }.

(** [get_revision_id] (phabricator.rs:1019-1050); [None] if there is no such commit. *)
Definition get_revision_id (e : phab_env) (st : store) (c : oid) : option (option string) :=
  match st !! c with Some x => Some (id_in (ph_text e (ob_message x))) | None => None end.

(** ** Statuses *)

(** The hash of a revision (phabricator.rs:264-287): of several with the same name the last one counts. *)
Definition hash_of (r : revision) : option oid :=
  match List.find (fun x => String.eqb (fst x) "gtcm") (rev (rv_hashes r)) with Some (_, h) => h | None => None end.
(** [query_status] (phabricator.rs:242-317); no status has a name. *)
Definition phab_status (sv : server) (c : oid) (id : option string) : submit_status :=
  match id with
  | None => Unsubmitted
  | Some i => match sv !! i with
              | Some r => match hash_of r with Some h => if decide (h = c) then UpToDate else NeedsUpdate | None => NeedsUpdate end
              | None => NeedsUpdate
              end
  end.
Fixpoint phab_statuses (e : phab_env) (st : store) (sv : server) (l : list oid) : option (list (oid * commit_status)) :=
  match l with
  | [] => Some []
  | c :: l' =>
      match get_revision_id e st c, phab_statuses e st sv l' with
      | Some id, Some m => Some ((c, mk_cs (phab_status sv c id) None None) :: m)
      | _, _ => None
      end
  end.

(** ** Dependencies *)

(** [set_dependencies] (phabricator.rs:948-1017): revisions that are not at the server are left out. *)
Definition set_dependencies (e : phab_env) (id : string) (parents : list string) (sv : server) : server * bool :=
  let phids := omap (fun i => rv_phid <$> sv !! i) parents in
  match ph_edit e sv id phids with
  | EditDone => (alter (fun r => mk_rev (rv_phid r) (rv_hashes r) phids) id sv, true)
  | EditIgnored => (sv, true)
  | EditFailed => (sv, false)
  end.
(** [update_dependencies] (phabricator.rs:878-940): the revisions of the parents, if they are among [drafts];
    [None] if a commit cannot be read. *)
Fixpoint parent_revisions (e : phab_env) (st : store) (drafts : commit_set) (ps : list oid) : option (list string) :=
  match ps with
  | [] => Some []
  | p :: ps' =>
      if decide (p ∈ drafts) then
        match get_revision_id e st p, parent_revisions e st drafts ps' with
        | Some (Some i), Some l => Some (i :: l)
        | Some None, Some l => Some l
        | _, _ => None
        end
      else parent_revisions e st drafts ps'
  end.
Fixpoint update_each_revision (e : phab_env) (st : store) (drafts : commit_set) (l : list oid) (sv : server) : server * bool :=
  match l with
  | [] => (sv, true)
  | c :: l' =>
      match st !! c with
      | None => (sv, false)
      | Some x =>
          match id_in (ph_text e (ob_message x)) with
          | None => update_each_revision e st drafts l' sv
          | Some id =>
              match parent_revisions e st drafts (commit_parents (ob_commit x)) with
              | None => (sv, false)
              | Some ids =>
                  match set_dependencies e id ids sv with
                  | (sv', true) => update_each_revision e st drafts l' sv'
                  | (sv', false) => (sv', false)
                  end
              end
          end
      end
  end.
Definition update_dependencies (e : phab_env) (d : dag) (st : store) (commits new : commit_set) (sv : server) : server * bool :=
  update_each_revision e st (draft_commits d ∪ new) (ph_sort e st commits) sv.

(** ** Creating revisions *)

(** The requests (phabricator.rs:432-461 with core/rewrite/plan.rs:1020-1031, 1082-1096), if all went well. *)
Inductive upload_requests := Uploads (q : requests) | UploadFailed.
Fixpoint request_uploads (st : store) (outs : list (oid * outcome)) (q : requests) : upload_requests :=
  match outs with
  | [] => Uploads q
  | (c, OPassed _ f _) :: outs' =>
      match st !! c with
      | None => Uploads RequestFails
      | Some x =>
          match commit_parents (ob_commit x) with
          | [] => Uploads RequestPanics
          | ps =>
              match request c ps (default c (fi_head f)) q with
              | Requests cs m => request_uploads st outs' (Requests cs m)
              | q' => Uploads q'
              end
          end
      end
  | _ :: _ => UploadFailed
  end.

(** How creating and updating end: the exit code is zero for [ForgeDone] only. *)
Inductive forge_end := ForgeDone | ForgePublic | ForgeError | ForgePanics | ForgeAborted | ForgeUploadFailed | ForgeNotPlanned | ForgeMerge (at_ : oid)
| ForgeExit | ForgeNoLink (c : oid) | ForgeEdit.

(** The commits in the end and their revisions (phabricator.rs:506-541). *)
Definition final_oid (rw : gmap oid moid) (c : oid) : oid := match rw !! c with Some (NonZero y) => y | _ => c end.
Fixpoint create_statuses (e : phab_env) (st : store) (rw : gmap oid moid) (l : list oid) : list (oid * (oid * string)) + forge_end :=
  match l with
  | [] => inl []
  | c :: l' =>
      match get_revision_id e st (final_oid rw c) with
      | None => inr ForgeError
      | Some None => inr (ForgeNoLink (final_oid rw c))
      | Some (Some id) => match create_statuses e st rw l' with inl m => inl ((c, (final_oid rw c, id)) :: m) | inr x => inr x end
      end
  end.

(** [create] (phabricator.rs:319-565) for the commits [given]; public commits are never to be rewritten
    (:345-350), and it is done in memory (:351-362). *)
Record created := mk_created { cd_phab : phab; cd_rewritten : gmap oid moid; cd_statuses : list (oid * (oid * string)); cd_end : forge_end }.
Definition create_revisions (e : phab_env) (ts : timestamp) (tx : txid) (d : dag) (given : commit_set) (p : phab) : created :=
  let r0 := pb_repo p in
  let l := ph_sort e (rr_store r0) given in
  if negb (forallb (fun c => bool_decide (is_Some (rr_store r0 !! c))) l) then mk_created p ∅ [] ForgeError
  else match verify_rewrite_set d false given with
  | None => mk_created p ∅ [] ForgePublic
  | Some allowed =>
      let run := ph_arc_create e l (rr_store r0) (pb_server p) in
      let st := ar_store run in
      let p1 := mk_phab (mk_rrepo st (rr_repo r0)) (ar_server run) in
      let re := in_memory_only (ph_restack e) in
      let end_ x := mk_created p1 ∅ [] x in
      if ar_aborted run then end_ ForgeAborted
      else match request_uploads st (ar_outs run) (Requests [] ∅) with
      | UploadFailed => end_ ForgeUploadFailed
      | Uploads RequestFails => end_ ForgeError
      | Uploads RequestPanics => end_ ForgePanics
      | Uploads (Requests cs replace) =>
          match build d (mk_pe (find_object st) replace (fun _ _ => false) (re_sort re)) allowed cs with
          | Done BuiltNothing => end_ ForgeDone
          | Done (BuiltPlan dest cmds) =>
              let (r2, res) := run_plan re ts tx dest cmds (pb_repo p1) in
              let p2 := mk_phab r2 (ar_server run) in
              match res with
              | DeclinedToMerge c => mk_created p2 ∅ [] (ForgeMerge c)
              | FailedExit => mk_created p2 ∅ [] ForgeExit
              | InternalError => mk_created p2 ∅ [] ForgeError
              | Succeeded rwo =>
                  let rw := default ∅ rwo in
                  match create_statuses e (rr_store r2) rw l with
                  | inr x => mk_created p2 rw [] x
                  | inl m =>
                      let finals := list_to_set (List.map (fun x => fst (snd x)) m) in
                      match update_dependencies e d (rr_store r2) finals finals (ar_server run) with
                      | (sv, true) => mk_created (mk_phab r2 sv) rw m ForgeDone
                      | (sv, false) => mk_created (mk_phab r2 sv) rw [] ForgeEdit
                      end
                  end
              end
          | Done (BuiltCycle _) | Done (BuiltIllegal _) => end_ ForgeNotPlanned
          | _ => end_ ForgeError
          end
      end
  end.

(** ** Updating revisions *)

(** [update] (phabricator.rs:567-711): every run must have passed. *)
Definition passed (x : oid * outcome) : bool := match snd x with OPassed _ _ _ => true | _ => false end.
Definition update_revisions (e : phab_env) (d : dag) (given : commit_set) (p : phab) : phab * forge_end :=
  let r0 := pb_repo p in
  let l := ph_sort e (rr_store r0) given in
  if negb (forallb (fun c => bool_decide (is_Some (rr_store r0 !! c))) l) then (p, ForgeError)
  else match verify_rewrite_set d false given with
  | None => (p, ForgePublic)
  | Some _ =>
      let run := ph_arc_update e l (rr_store r0) (pb_server p) in
      let r1 := mk_rrepo (ar_store run) (rr_repo r0) in
      if ar_aborted run then (mk_phab r1 (ar_server run), ForgeAborted)
      else if forallb passed (ar_outs run) then
        match update_dependencies e d (ar_store run) (list_to_set (List.map fst (ar_outs run))) ∅ (ar_server run) with
        | (sv, true) => (mk_phab r1 sv, ForgeDone)
        | (sv, false) => (mk_phab r1 sv, ForgeEdit)
        end
      else (mk_phab r1 (ar_server run), ForgeUploadFailed)
  end.

(** ** The command *)

(** What was done and said, as in SubmitModel. *)
Record phab_result := mk_pr {
  pr_phab : phab;
  pr_end : forge_end;
  pr_submitted : list string;
  pr_updated : list string;
  pr_skipped : list string;
  pr_unsubmitted : list string }.
(** [submit] (git-branchless-submit/src/lib.rs:214-518) with this forge; names of new commits are made from the revision
    (phabricator.rs:516-518). *)
Definition of_status (s : submit_status) (l : list (oid * commit_status)) : list (oid * commit_status) :=
  List.filter (fun x => bool_decide (cs_status (snd x) = s)) l.
Definition submit_phab (e : phab_env) (ts : timestamp) (tx : txid) (create_ dry_run : bool) (commits : commit_set) (p : phab) : phab_result :=
  let fail p x := mk_pr p x [] [] [] [] in
  match open_repo (re_hide (ph_restack e)) (rr_repo (pb_repo p)) with
  | None => fail p ForgeError
  | Some d =>
      match phab_statuses e (rr_store (pb_repo p)) (pb_server p) (elements commits) with
      | None => fail p ForgeError
      | Some statuses =>
          let new := of_status Unsubmitted statuses in
          let changed := of_status NeedsUpdate statuses in
          let names l := sorted_names (names_of (List.map snd l)) in
          let c := if (create_ && negb dry_run)%bool then create_revisions e ts tx d (list_to_set (List.map fst new)) p
                   else mk_created p ∅ [] ForgeDone in
          match cd_end c with
          | ForgeDone =>
              let submitted := if create_ then if dry_run then names new else sorted_names (List.map (fun x => "D" +:+ snd (snd x)) (cd_statuses c)) else [] in
              match (if dry_run then (cd_phab c, ForgeDone) else update_revisions e d (list_to_set (List.map fst changed)) (cd_phab c)) with
              | (p2, ForgeDone) => mk_pr p2 ForgeDone submitted (names changed) (names (of_status UpToDate statuses)) (if create_ then [] else names new)
              | (p2, x) => fail p2 x
              end
          | x => fail (cd_phab c) x
          end
      end
  end.

(** ** Asking for dependencies *)

(** [query_remote_dependencies] (phabricator.rs:771-876): the commits among [l] that a revision depends on.  Revisions are
    found by their identifiers in any order; of several commits with the same revision one is taken. *)
Definition id_of_phid (sv : server) (n : N) : option string :=
  fst <$> List.find (fun x => N.eqb (rv_phid (snd x)) n) (map_to_list sv).
Definition commit_of_id (e : phab_env) (st : store) (l : list oid) (i : string) : option oid :=
  List.find (fun c => bool_decide (get_revision_id e st c = Some (Some i))) l.
Definition remote_dependencies (e : phab_env) (st : store) (sv : server) (l : list oid) (c : oid) : list oid :=
  match get_revision_id e st c with
  | Some (Some i) =>
      match sv !! i with
      | Some r => omap (commit_of_id e st l) (omap (id_of_phid sv) (rv_depends r))
      | None => []
      end
  | _ => []
  end.

(** Model of the descriptions of commits (git-branchless-lib/src/core/node_descriptors.rs) and of the events in a bug
    report (git-branchless/src/commands/bug_report.rs).

    A summary is the list of its characters, as numbers.  A description is a record of its parts, which are put
    next to each other; colours are left out.  The commits shown at each place of the log, and their order, are
    given from outside (see SlogModel), and so is the order in which a set of branches is gone through.  Not
    modelled: the other parts of a report (versions, environment, hooks) and its layout. *)
From stdpp Require Import pretty.
From Coq Require Import Ascii.
From Verif Require Import Base TextModel EventLogModel EvolveModel NavModel HookModel PlanModel ExecModel RestackModel HideModel PhabModel StrModel.
Local Open Scope string_scope.
Local Open Scope list_scope.

(** ** Redaction *)

(** [Redactor] (node_descriptors.rs:66-82), with the table of names apart. *)
Inductive redactor := Disabled | Enabled (preserved : gset refname).
Notation redactions := (gmap string string).

(** The prefixes of [CategorizedReferenceName] (git/reference.rs:168-185). *)
Definition ref_prefix (n : refname) : string :=
  if starts_with heads_prefix n then heads_prefix else if starts_with remotes_prefix n then remotes_prefix else "".
Definition has_slash (s : string) : bool := existsb (Ascii.eqb "/") (list_ascii_of_string s).
(** [redact_ref_name] (node_descriptors.rs:93-121). *)
Definition redact_ref (k : redactor) (t : redactions) (n : string) : string * redactions :=
  match k with
  | Disabled => (n, t)
  | Enabled preserved =>
      if (bool_decide (n ∈ preserved) || negb (has_slash n))%bool then (n, t)
      else match t !! n with
           | Some m => (m, t)
           | None => let m := ref_prefix n +:+ "redacted-ref-" +:+ pretty (N.of_nat (size t)) in (m, <[n := m]> t)
           end
  end.
Fixpoint redact_refs (k : redactor) (t : redactions) (l : list refname) : list refname * redactions :=
  match l with
  | [] => ([], t)
  | n :: l' => let (m, t1) := redact_ref k t n in let (ms, t2) := redact_refs k t1 l' in (m :: ms, t2)
  end.

(** [redact_commit_summary] (node_descriptors.rs:123-141); [char::is_ascii_whitespace]. *)
Definition ascii_space (c : N) : bool := existsb (N.eqb c) [32; 9; 10; 12; 13]%N.
Definition redact_summary (k : redactor) (s : list N) : list N :=
  match k with Disabled => s | Enabled _ => List.map (fun c => if ascii_space c then c else 120%N) s end.

(** ** Descriptions *)

(** [NodeObject] (node_descriptors.rs:31-45), with what is read of the commit; times are nanoseconds. *)
Inductive node :=
| Known (o : oid) (short : string) (time : Z) (text : string) (summary : list N)
| Collected (o : oid).
(** [get_oid] and [get_short_oid] (node_descriptors.rs:47-64). *)
Definition node_oid (x : node) : oid := match x with Known o _ _ _ _ => o | Collected o => o end.
Definition short_oid (x : node) : string := match x with Known _ s _ _ _ => s | Collected o => String.substring 0 7 (oid_to_string o) end.

Record node_env := mk_ne {
  ne_now : Z;
  ne_times : bool;
  ne_names : bool;
  ne_revisions : bool;
  ne_branches : oid -> list refname;
  ne_head : option refname;
  ne_arrow : string }.

(** [describe_time_delta] (node_descriptors.rs:463-496). *)
Definition time_delta (now previous : Z) : Z :=
  let second := 1000000000%Z in
  if (previous <? now)%Z then ((now - previous) / second)%Z else (- ((previous - now) / second))%Z.
Definition describe_delta (d : Z) : string :=
  if (d <? 60)%Z then isize_to_string d +:+ "s"
  else let d := (d / 60)%Z in
  if (d <? 60)%Z then isize_to_string d +:+ "m"
  else let d := (d / 60)%Z in
  if (d <? 24)%Z then isize_to_string d +:+ "h"
  else let d := (d / 24)%Z in
  if (d <? 365)%Z then isize_to_string d +:+ "d"
  else isize_to_string (d / 365) +:+ "y".
(** [RelativeTimeDescriptor] (node_descriptors.rs:498-517). *)
Definition describe_age (e : node_env) (x : node) : option string :=
  if ne_times e then match x with Known _ _ time _ _ => Some (describe_delta (time_delta (ne_now e) time)) | Collected _ => None end
  else None.

(** [ObsolescenceExplanationDescriptor] (node_descriptors.rs:252-291); the outer [None] does not happen. *)
Definition describe_why (r : replayer) (c : cursor) (o : oid) : option (option string) :=
  match latest_event r c o with
  | Some (RewriteEvent _ _ _ _) =>
      match find_rewrite_target r c o with
      | Some (Some m) => Some (Some ("(rewritten as " +:+ String.substring 0 8 (moid_to_string m) +:+ ")"))
      | Some None => Some None
      | None => None
      end
  | Some (ObsoleteEvent _ _ _) => Some (Some "(manually hidden)")
  | _ => Some None
  end.

(** [BranchesDescriptor] (node_descriptors.rs:320-378). *)
Definition branch_text (e : node_env) (n : refname) : string :=
  (if decide (ne_head e = Some n) then ne_arrow e +:+ " " else "") +:+
  (if starts_with heads_prefix n then render_suffix n
   else if starts_with remotes_prefix n then "remote " +:+ render_suffix n
   else "ref " +:+ render_suffix n).
Definition describe_branches (e : node_env) (k : redactor) (t : redactions) (o : oid) : option string * redactions :=
  if ne_names e then
    let (ns, t') := redact_refs k t (ne_branches e o) in
    match ns with
    | [] => (None, t')
    | _ => (Some ("(" +:+ StrModel.join ", " (sorted_names (List.map (branch_text e) (remove_dups ns))) +:+ ")"), t')
    end
  else (None, t).

(** [DifferentialRevisionDescriptor] (node_descriptors.rs:398-441); the expression is that of [get_revision_id]. *)
Definition describe_revision (e : node_env) (k : redactor) (x : node) : option string :=
  match k with
  | Enabled _ => None
  | Disabled =>
      if ne_revisions e then
        match x with
        | Known _ _ _ text _ => match id_in text with Some ds => Some ("D" +:+ ds) | None => None end
        | Collected _ => None
        end
      else None
  end.
(** [CommitMessageDescriptor] (node_descriptors.rs:217-234). *)
Definition garbage_collected : list N := List.map N_of_ascii (list_ascii_of_string "<garbage collected>").
Definition describe_summary (k : redactor) (x : node) : list N :=
  redact_summary k (match x with Known _ _ _ _ s => s | Collected _ => garbage_collected end).

(** [render_node_descriptors] (node_descriptors.rs:157-172) with the descriptors of a report
    (bug_report.rs:148-155), which are those of the smartlog (git-branchless-smartlog/src/lib.rs:834-848). *)
Record description := mk_desc {
  ds_oid : string;
  ds_age : option string;
  ds_why : option string;
  ds_branches : option string;
  ds_revision : option string;
  ds_summary : list N }.
Definition describe (e : node_env) (r : replayer) (c : cursor) (k : redactor) (t : redactions) (x : node)
  : option (description * redactions) :=
  match describe_why r c (node_oid x) with
  | None => None
  | Some why =>
      let (bs, t') := describe_branches e k t (node_oid x) in
      Some (mk_desc (short_oid x) (describe_age e x) why bs (describe_revision e k x) (describe_summary k x), t')
  end.
Fixpoint describe_all (e : node_env) (r : replayer) (c : cursor) (k : redactor) (t : redactions) (l : list node)
  : option (list description * redactions) :=
  match l with
  | [] => Some ([], t)
  | x :: l' =>
      match describe e r c k t x with
      | None => None
      | Some (d, t1) => match describe_all e r c k t1 l' with Some (ds, t2) => Some (d :: ds, t2) | None => None end
      end
  end.

(** ** The events of a report *)

(** [redact_event] (bug_report.rs:30-93). *)
Definition redact_event (k : redactor) (t : redactions) (e : event) : event * redactions :=
  match e with
  | RefUpdateEvent ts tx n old new msg => let (m, t') := redact_ref k t n in (RefUpdateEvent ts tx m old new msg, t')
  | SnapshotEvent ts tx h o (Some n) => let (m, t') := redact_ref k t n in (SnapshotEvent ts tx h o (Some m), t')
  | _ => (e, t)
  end.
Fixpoint redact_events (k : redactor) (t : redactions) (l : list event) : list event * redactions :=
  match l with
  | [] => ([], t)
  | e :: l' => let (e', t1) := redact_event k t e in let (es, t2) := redact_events k t1 l' in (e' :: es, t2)
  end.

(** [describe_event_cursor] (bug_report.rs:95-172): what is said of the transaction before the cursor, and the commits. *)
Record entry := mk_entry { en_events : option (Z * txid * string * list event); en_nodes : list description }.
Definition describe_cursor (e : node_env) (d : db) (r : replayer) (nodes : cursor -> list node) (k : redactor) (t : redactions) (c : cursor)
  : option (entry * redactions) :=
  match tx_events_before_cursor r c with
  | None => None
  | Some before =>
      match (match before with
             | None => Some (None, t)
             | Some (id, es) =>
                 match es with
                 | [] => None
                 | e0 :: _ =>
                     let (es', t') := redact_events k t es in
                     Some (Some (id, event_tx e0, default "<failed to query>" (get_transaction_message d (event_tx e0)), es'), t')
                 end
             end) with
      | None => None
      | Some (evs, t1) =>
          match describe_all e r c k t1 (nodes c) with
          | Some (ds, t2) => Some (mk_entry evs ds, t2)
          | None => None
          end
      end
  end.
Fixpoint describe_cursors (e : node_env) (d : db) (r : replayer) (nodes : cursor -> list node) (k : redactor) (t : redactions) (l : list Z)
  : option (list entry) :=
  match l with
  | [] => Some []
  | i :: l' =>
      match advance_tx r (default_cursor r) (- i) with
      | None => None
      | Some c =>
          match describe_cursor e d r nodes k t c with
          | None => None
          | Some (en, t') => match describe_cursors e d r nodes k t' l' with Some ens => Some (en :: ens) | None => None end
          end
      end
  end.
(** [collect_events] (bug_report.rs:174-226). *)
Definition collect_events (e : node_env) (d : db) (r : replayer) (nodes : cursor -> list node) (main : refname) : option (list entry) :=
  describe_cursors e d r nodes (Enabled {[main]}) ∅ [0; 1; 2; 3; 4]%Z.

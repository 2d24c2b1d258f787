(** [git query] (git-branchless-query/src/lib.rs). *)
From Verif Require Import Base TextModel EventLogModel DagModel RevsetSyntaxModel RevsetModel ExecModel NavModel.

(** How the command ends (git-branchless-query/src/lib.rs:64-70, 112): in order,
    refused with exit code 1 after a description of what is wrong with the revset,
    or with an error. *)
Inductive query_end := QueryDone | QueryRefused | QueryBroken.

(** Lines are printed one after the other; a commit that cannot be read or
    described ends the command (git-branchless-query/src/lib.rs:96-109). *)
Fixpoint print_commits (line : oid -> option string) (cs : list oid) : list string * query_end :=
  match cs with
  | [] => ([], QueryDone)
  | c :: cs' =>
      match line c with
      | None => ([], QueryBroken)
      | Some l => let (out, r) := print_commits line cs' in (l :: out, r)
      end
  end.

(** [query] (git-branchless-query/src/lib.rs:39-113).  [describe] stands for looking
    a commit up and describing it; [refs] are the references the graph was opened
    with. *)
Definition query (fuel : nat) (v : env) (refs : gmap refname oid) (describe : oid -> option string)
  (show_hidden show_branches raw : bool) (text : string) : list string * query_end :=
  match resolve_commit fuel v show_hidden text with
  | ParseFailed | EvalFailed _ => ([], QueryRefused)
  | Resolved s =>
      let g := dag_graph (env_dag v) in
      if show_branches
      then (List.map render_suffix
              (flat_map (fun o => sorted_names (ExecModel.branches_at refs o)) (dag_sort g (s ∩ branch_commits (env_dag v)))), QueryDone)
      else print_commits (fun o => if raw then Some (oid_to_string o) else describe o) (dag_sort g s)
  end.

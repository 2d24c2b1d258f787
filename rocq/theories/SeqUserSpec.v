(** What the user's answers to conflicts mean. *)
From Verif Require Import Base TextModel EventLogModel DagModel StrModel HookModel PlanModel ExecModel ExecSpec SeqModel SeqUserModel.

(** The same surroundings, if picks that conflict had given these trees. *)
Definition resolved_as (tree : oid -> oid -> oid) (v : git_env) : git_env :=
  let ee := ge_exec v in
  mk_ge (mk_ee (ee_hash ee) (fun c h => match ee_pick ee c h with Conflict => MadeTree (tree c h) | x => x end)
           (ee_amend ee) (ee_stamp ee) (ee_decodes ee) (ee_head ee))
    (ge_merge v) (ge_reuse v) (ge_iter v) (ge_time v) (ge_tx v) (ge_user v).

(** A resolution leaves something of the commit: its tree is not that of the commit
    it is put on. *)
Definition leaves_something (tree : oid -> oid -> oid) (v : git_env) : Prop :=
  forall c x, ee_pick (ge_exec v) c (ee_hash (ge_exec v) x) = Conflict -> tree c (ee_hash (ge_exec v) x) <> commit_tree (ob_commit x).

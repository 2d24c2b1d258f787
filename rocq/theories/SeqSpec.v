(** What an on-disk rebase makes of the commits. *)
From Verif Require Import Base TextModel EventLogModel DagModel DagSpec StrModel HookModel PlanModel PlanSpec ExecModel ExecSpec SeqModel.
Local Open Scope string_scope.
Local Open Scope list_scope.

(** [n] is [c] made again with these parents, or [c] itself if it has them. *)
Definition made_with (v : git_env) (tree : oid -> Prop) (st : store) (c : oid) (ps : list oid) (n : oid) (x : object) : Prop :=
  exists orig, st !! c = Some orig /\ st !! n = Some x /\
    ((exists t, tree t /\ x = remade (ge_exec v) orig ps t) \/
     ge_reuse v = true /\ n = c /\ commit_parents (ob_commit orig) = ps).

(** What becomes of a commit ([land] says what stands for a commit afterwards). *)
Inductive disk_fate_with (land : oid -> oid -> Prop) (d : dag) (cs : list constraint) (e : plan_env) (v : git_env)
  (rw : gmap oid moid) (st : store) (c : oid) : Prop :=
(** skipped: applied upstream, or nothing is left of it *)
| disk_skipped p q :
    rw !! c = Some Zero -> ~ merge_commit (dag_graph d) c -> rebuilt_on d cs p c -> land p q ->
    ((exists r, pe_upstream e r c = true) \/
     exists n x qx, made_with v (fun t => ee_pick (ge_exec v) c q = MadeTree t) st c [q] n x /\
       st !! q = Some qx /\ commit_tree (ob_commit x) = commit_tree (ob_commit qx)) ->
    disk_fate_with land d cs e v rw st c
(** on top of what its parent became *)
| disk_picked p q n x qx :
    rw !! c = Some (NonZero n) -> ~ merge_commit (dag_graph d) c -> rebuilt_on d cs p c -> land p q ->
    made_with v (fun t => ee_pick (ge_exec v) c q = MadeTree t) st c [q] n x ->
    st !! q = Some qx -> commit_tree (ob_commit x) <> commit_tree (ob_commit qx) ->
    disk_fate_with land d cs e v rw st c
(** merged again, with the parents as they became; or all is merged already *)
| disk_merged qs n :
    rw !! c = Some (NonZero n) -> merge_commit (dag_graph d) c -> Forall2 land (parents_of (dag_graph d) c) qs ->
    ((exists x, made_with v (fun t => ge_merge v c qs = MergedTree t) st c qs n x) \/
     ge_merge v c qs = AlreadyMerged /\ head qs = Some n /\ is_Some (st !! n)) ->
    disk_fate_with land d cs e v rw st c.
Definition disk_fate (d : dag) (cs : list constraint) (e : plan_env) (v : git_env) (rw : gmap oid moid) : store -> oid -> Prop :=
  disk_fate_with (lands d cs rw) d cs e v rw.

(** What a successful on-disk rebase did; [rw] is what the hooks are told, where
    commits that were made and dropped again are told to be gone. *)
Record carried_out_on_disk (d : dag) (cs : list constraint) (e : plan_env) (v : git_env) (st st' : store)
  (rw : gmap oid moid) : Prop := {
  cd_store : st ⊆ st';
  cd_fate : forall c, rebuilt d cs c -> disk_fate d cs e v rw st' c;
  cd_rest : forall c x, rw !! c = Some x -> rebuilt d cs c \/ (x = Zero /\ st !! c = None) }.

(** Commits that are made have names that are not in use. *)
Definition fresh_names (ee : exec_env) (st : store) : Prop :=
  forall orig ps t, st !! ee_hash ee (remade ee orig ps t) = None.

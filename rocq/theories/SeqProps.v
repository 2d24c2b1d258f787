(** C113, C114: rebasing on disk *)
From stdpp Require Import sorting relations.
From Verif Require Import Base TextModel TextProofs EventLogModel DagModel DagSpec DagProofs StrModel StrProofs HookModel HookSpec HookProofs
  PlanModel PlanSpec PlanProps ExecModel ExecSpec ExecProps SeqModel SeqSpec SeqProofs SeqBuildProofs.
Local Open Scope string_scope.
Local Open Scope list_scope.
Local Arguments oid_to_string _ : simpl never.
Local Arguments oid_from_string _ : simpl never.

(** Git is given the plan as the text in git-rebase-todo. *)
Definition handed_over (head : head_info) (dest : oid) (cmds : list command) (todo : string) : Prop :=
  exists preserve files, write_state false false head preserve dest cmds = Some (files, true) /\ ("git-rebase-todo", todo) ∈ files.

(** ** C113: what an on-disk rebase makes of the commits *)

(** When Git got through the instructions, every commit to be rebuilt was made anew
    on top of what its parent became, or merged again from what its parents became,
    or skipped; and the list of rewritten commits that Git passes to the hook says
    so, and says nothing of other commits that existed.  Git was told not to move a
    branch itself and that more is to be done at the end. *)
Theorem c113_on_disk_partial : forall d e v allowed cs dest cmds st log head todo gs,
  wf_graph (dag_graph d) -> knows d e -> plannable d e cs -> pe_replace e = ∅ -> (forall t f, FixUpCommit t f ∉ cs) ->
  (forall fs, Permutation (pe_sort e fs) (elements fs)) -> (forall m, Permutation (ge_iter v m) (map_to_list m)) ->
  faithful_names (ge_exec v) -> named (ge_exec v) st -> present d e (ge_exec v) cs st -> fresh_names (ge_exec v) st ->
  build d e allowed cs = Done (BuiltPlan dest cmds) -> handed_over head dest cmds todo ->
  ee_head (ge_exec v) = hi_oid head -> (forall h, hi_oid head = Some h -> is_Some (st !! h)) ->
  run_todo v todo (disk_start log st head) = Went gs -> (forall o, is_Some (gs_store gs !! o) -> oid_ok o) ->
  exists text l, hs_rewritten (gs_hooks gs) = Some text /\ read_rewritten_list text = Some l /\ NoDup (map fst l) /\
    carried_out_on_disk d cs e v st (gs_store gs) (collect_map l) /\ gs_name gs = None /\ gs_extra gs = true.
Proof.
  intros d e v allowed cs dest cmds st log head todo gs W K P Rep Nf Sort Iter Nm Ns Pr Fr HB (pre & files & Hw & Hin) Eh Hd HR Ok.
  unfold run_todo in HR. rewrite (written_words d e allowed cs dest cmds head pre files true todo) in HR by assumption.
  destruct (disk_carried_out d e v allowed cs dest cmds st log head gs) as (l & A & B & C & D & E & F & _); auto.
  exists (write_rewritten_list l), l. split_and!; auto. now apply rewritten_round_trip.
Qed.

(** In particular for any number of subtrees moved at once. *)
Theorem c113_subtrees : forall d e v allowed cs dest cmds st log head todo gs,
  wf_graph (dag_graph d) -> knows d e -> pe_replace e = ∅ ->
  Forall (fun x => exists p c, x = MoveSubtree [p] c /\ c ∈ vertices (dag_graph d) /\ ~ merge_commit (dag_graph d) c) cs ->
  (forall fs, Permutation (pe_sort e fs) (elements fs)) -> (forall m, Permutation (ge_iter v m) (map_to_list m)) ->
  faithful_names (ge_exec v) -> named (ge_exec v) st -> present d e (ge_exec v) cs st -> fresh_names (ge_exec v) st ->
  build d e allowed cs = Done (BuiltPlan dest cmds) -> handed_over head dest cmds todo ->
  ee_head (ge_exec v) = hi_oid head -> (forall h, hi_oid head = Some h -> is_Some (st !! h)) ->
  run_todo v todo (disk_start log st head) = Went gs -> (forall o, is_Some (gs_store gs !! o) -> oid_ok o) ->
  exists text l, hs_rewritten (gs_hooks gs) = Some text /\ read_rewritten_list text = Some l /\ NoDup (map fst l) /\
    carried_out_on_disk d cs e v st (gs_store gs) (collect_map l) /\ gs_name gs = None /\ gs_extra gs = true.
Proof.
  intros d e v allowed cs dest cmds st log head todo gs W K Rep F Sort Iter Nm Ns Pr Fr HB Hw Eh Hd HR Ok.
  destruct (subtrees_fit d e cs W Rep F) as (P & _ & _ & Nfx).
  eapply c113_on_disk_partial; eauto. intros t f H. apply (Nfx f). now exists t.
Qed.

(** ** C114: the end of an on-disk rebase *)

(** At the end the branches are moved as after a rebase in memory; HEAD is at the
    commit that stands for the one it was at (or, on the main branch with nothing
    left of it, at the upstream), with its branch checked out again if that still
    exists; and the event log got exactly the commits that were made, then exactly
    what became of the rewritten ones. *)
Theorem c114_end_partial : forall d e v allowed cs dest cmds st log head todo gs b groups r r' log' up,
  wf_graph (dag_graph d) -> knows d e -> plannable d e cs -> pe_replace e = ∅ -> (forall t f, FixUpCommit t f ∉ cs) ->
  (forall fs, Permutation (pe_sort e fs) (elements fs)) -> (forall m, Permutation (ge_iter v m) (map_to_list m)) ->
  faithful_names (ge_exec v) -> named (ge_exec v) st -> present d e (ge_exec v) cs st -> fresh_names (ge_exec v) st ->
  build d e allowed cs = Done (BuiltPlan dest cmds) -> handed_over head dest cmds todo ->
  ee_head (ge_exec v) = hi_oid head -> (forall h, hi_oid head = Some h -> is_Some (st !! h)) ->
  run_todo v todo (disk_start log st head) = Went gs -> (forall o, is_Some (gs_store gs !! o) -> oid_ok o) ->
  (forall refs, branch_table (groups refs) refs) -> be_upstream b = Some up ->
  (forall n h, hi_branch head = Some n -> hi_oid head = Some h -> rp_refs r !! n = Some h /\ is_local n = true) ->
  end_of_rebase v b groups head gs r = (r', log', true) ->
  exists l made,
    carried_out_on_disk d cs e v st (rp_store r') (collect_map l) /\ NoDup (map fst l) /\
    (forall n, rp_refs r' !! n = branch_after b (collect_map l) (rp_refs r) n) /\
    rp_rewrites r' = rp_rewrites r ++ l /\
    (forall o, o ∈ made <-> is_Some (rp_store r' !! o) /\ st !! o = None) /\
    log' = log ++ map (CommitEvent (ge_time v) (ge_tx v)) made ++
           map (fun x => RewriteEvent (ge_time v) (ge_tx v) (NonZero (fst x)) (snd x)) l /\
    (forall h, hi_oid head = Some h ->
       ((exists q, final_head r' = Some q /\ lands d cs (collect_map l) h q) \/
        (hi_branch head = Some (be_main b) /\ collect_map l !! h = Some Zero /\ exists t, up = Some t /\ final_head r' = Some t)) /\
       (forall n, hi_branch head = Some n -> is_Some (rp_refs r' !! n) -> rp_checkout r' = CheckOutBranch n)).
Proof.
  intros d e v allowed cs dest cmds st log head todo gs b groups r r' log' up
    W K P Rep Nf Sort Iter Nm Ns Pr Fr HB (pre & files & Hw & Hin) Eh Hd HR Ok.
  unfold run_todo in HR. rewrite (written_words d e allowed cs dest cmds head pre files true todo) in HR by assumption.
  eapply disk_end; eauto.
Qed.

(** The commits and names of the examples: those of the graph, and some made anew. *)
Definition find_name (l : list (oid * object)) (x : object) : option (oid * object) := List.find (fun v => bool_decide (snd v = x)) l.
Definition name_as (l : list (oid * object)) (x : object) : oid :=
  match find_name l x with Some v => fst v | None => 1000 + Npos (encode x) end.
Lemma find_name_spec l x v : find_name l x = Some v -> v ∈ l /\ snd v = x.
Proof. intros H. apply find_some in H. destruct H as [H1 H2]. apply bool_decide_eq_true in H2. apply elem_of_list_In in H1. auto. Qed.
Lemma name_as_inj l : Forall (fun v => (fst v < 1000)%N) l -> NoDup (map fst l) -> forall x y, name_as l x = name_as l y -> x = y.
Proof.
  intros B N x y. unfold name_as. rewrite list.Forall_forall in B.
  destruct (find_name l x) as [a|] eqn:Ex; destruct (find_name l y) as [b|] eqn:Ey.
  - apply find_name_spec in Ex, Ey. destruct Ex as [Ha <-], Ey as [Hb <-]. destruct a as [n x1], b as [m x2]. cbn [fst snd]. intros <-.
    pose proof (elem_of_list_to_map_1 (M := gmap oid) l n x1 N Ha) as E1. rewrite (elem_of_list_to_map_1 l n x2 N Hb) in E1. congruence.
  - apply find_name_spec in Ex. intros E. pose proof (B _ (proj1 Ex)) as L. destruct a as [n x1]. cbn [fst] in *. unfold oid in *. lia.
  - apply find_name_spec in Ey. intros E. pose proof (B _ (proj1 Ey)) as L. destruct b as [n x1]. cbn [fst] in *. unfold oid in *. lia.
  - intros E. apply (inj encode). lia.
Qed.

(** 2 on top of 1, 3 and 4 on top of 2, merged in 5; 6 on top of 1.  2 is moved on
    top of 6; nothing is left of 3, where HEAD is. *)
Definition both : graph := [(1, []); (2, [1]); (3, [2]); (4, [2]); (5, [3; 4]); (6, [1])]%N.
Definition both_made (c : oid) (ps : list oid) (t : oid) : object := mk_object (mk_commit ps t) (c + 20) (c + 1030) (c + 40).
Definition both_names : list (oid * object) :=
  List.map (fun v => (fst v, object_in both (fst v))) both ++
  [(12, both_made 2 [6] 102); (13, both_made 3 [12] 102); (14, both_made 4 [12] 104); (15, both_made 5 [12; 14] 105);
   (16, both_made 5 [3; 4] 105)]%N.
Definition both_git (reuse : bool) : git_env :=
  mk_ge (mk_ee (name_as both_names) ex_pick (fun _ _ => Conflict) (fun n => n + 1000)%N (fun _ => true) (Some 3%N))
    (fun c _ => MergedTree (100 + c)%N) reuse map_to_list 7%Z (TxId 9) 77%N.
Definition both_plan : list constraint := [MoveSubtree [6] 2]%N.

Lemma both_vertices c : c ∈ vertices both -> (c = 1 \/ c = 2 \/ c = 3 \/ c = 4 \/ c = 5 \/ c = 6)%N.
Proof. unfold vertices, both. cbn. set_solver. Qed.
Lemma both_store c x : store_of both !! c = Some x -> c ∈ vertices both /\ x = object_in both c.
Proof. apply store_of_lookup. Qed.
Lemma both_wf : wf_graph both.
Proof. unfold both, wf_graph. cbn. split_and!; set_solver. Qed.
Lemma both_knows : knows (dag_of both 1%N) (env_in both).
Proof.
  intros c Hc. apply both_vertices in Hc.
  destruct Hc as [-> |[-> |[-> |[-> |[-> | ->]]]]]; eexists; (split; [vm_compute; reflexivity|reflexivity]).
Qed.
Lemma both_subtrees : Forall (fun x => exists p c, x = MoveSubtree [p] c /\ c ∈ vertices both /\ ~ merge_commit both c) both_plan.
Proof.
  apply Forall_singleton. exists 6%N, 2%N. split_and!; [reflexivity|decide_it|]. intros (ps & H & L). unfold both in H.
  rewrite !elem_of_cons, elem_of_nil in H. destruct H as [H|[H|[H|[H|[H|[H|[]]]]]]]; injection H; intros; subst; cbn in L; try lia; discriminate.
Qed.
Lemma both_named reuse : faithful_names (ge_exec (both_git reuse)) /\ named (ge_exec (both_git reuse)) (store_of both) /\
  fresh_names (ge_exec (both_git reuse)) (store_of both) /\ present (dag_of both 1%N) (env_in both) (ge_exec (both_git reuse)) both_plan (store_of both).
Proof.
  split_and!.
  - unfold faithful_names. cbn [both_git ge_exec ee_hash]. apply name_as_inj.
    + unfold both_names, both. cbn. repeat constructor.
    + unfold both_names, both. cbn. decide_it.
  - unfold named. cbn [both_git ge_exec ee_hash]. intros o x H. apply both_store in H. destruct H as [H ->]. apply both_vertices in H.
    destruct H as [-> |[-> |[-> |[-> |[-> | ->]]]]]; vm_compute; reflexivity.
  - intros orig ps t. destruct (store_of both !! _) as [y|] eqn:E; [|reflexivity]. exfalso. apply both_store in E. destruct E as [Hc Ey].
    apply both_vertices in Hc. revert Hc. cbn [both_git ge_exec ee_hash]. unfold name_as.
    destruct (find_name both_names _) as [w|] eqn:Ef; [|lia]. apply find_name_spec in Ef. destruct Ef as [Hin Hb].
    unfold remade in Hb. cbn [both_git ge_exec ee_stamp] in Hb. clear Ey. unfold both_names, both in Hin. cbn in Hin.
    rewrite !elem_of_cons, elem_of_nil in Hin.
    destruct Hin as [-> |[-> |[-> |[-> |[-> |[-> |[-> |[-> |[-> |[-> |[-> |[]]]]]]]]]]]]; cbn in *; try lia; injection Hb; intros; lia.
  - constructor.
    + intros c x H. exact H.
    + intros c Hc. apply both_vertices in Hc. destruct Hc as [-> |[-> |[-> |[-> |[-> | ->]]]]]; eexists; (split; [vm_compute; reflexivity|reflexivity]).
    + intros p c H.
      assert (Hp : p ∈ vertices both).
      { destruct H as [H|[H|H]].
        - destruct H as (before & ps & after & E & Hin & _).
          assert (Hx : MoveSubtree ps c ∈ both_plan) by (rewrite E; apply elem_of_app; right; left).
          apply elem_of_list_singleton in Hx. injection Hx as -> _. apply elem_of_list_singleton in Hin. subst p. decide_it.
        - exfalso. destruct H as (_ & _ & before & x & after & a & b & E & T & _).
          assert (Hx : x ∈ both_plan) by (rewrite E; apply elem_of_app; right; left). apply elem_of_list_singleton in Hx. subst x.
          destruct T as [T|(t & T & _)]; discriminate.
        - destruct H as (_ & _ & H & _). apply (parent_vertices _ _ _ both_wf) in H. apply H. }
      apply both_vertices in Hp. destruct Hp as [-> |[-> |[-> |[-> |[-> | ->]]]]]; eexists; vm_compute; reflexivity.
    + intros f [t H]. apply elem_of_list_singleton in H. discriminate.
    + intros c r H. cbn in H. rewrite lookup_empty in H. discriminate.
Qed.

Definition on_went (x : seq_result) (f : git_state -> bool) : bool := match x with Went s => f s | _ => false end.
Lemma on_went_spec x f : on_went x f = true -> exists s, x = Went s /\ f s = true.
Proof. destruct x; [eauto|discriminate..]. Qed.
Definition oids_ok (st : store) : bool := forallb (fun x => (0 <? fst x)%N && (fst x <? oid_limit)%N)%bool (map_to_list st).
Lemma oids_ok_spec st : oids_ok st = true -> forall o, is_Some (st !! o) -> oid_ok o.
Proof.
  unfold oids_ok. rewrite forallb_forall. intros H o [x Hx]. apply elem_of_map_to_list, elem_of_list_In in Hx. specialize (H _ Hx).
  cbn [fst] in H. rewrite andb_true_iff, !N.ltb_lt in H. exact H.
Qed.

Definition both_cmds : list command :=
  match build (dag_of both 1%N) (env_in both) {[2; 3; 4; 5]}%N both_plan with Done (BuiltPlan _ cmds) => cmds | _ => [] end.
Definition both_head : head_info := mk_head (Some 3%N) (Some "refs/heads/foo").
Definition both_todo : string :=
  match write_state false false both_head false 6%N both_cmds with
  | Some (files, _) => match List.find (fun f => String.eqb (fst f) "git-rebase-todo") files with Some f => snd f | None => "" end
  | None => ""
  end.
Lemma both_built : build (dag_of both 1%N) (env_in both) {[2; 3; 4; 5]}%N both_plan = Done (BuiltPlan 6%N both_cmds) /\
  handed_over both_head 6%N both_cmds both_todo.
Proof.
  split; [vm_compute; reflexivity|]. exists false. eexists. split; [vm_compute; reflexivity|].
  replace both_todo with (snd ("git-rebase-todo", both_todo)) by reflexivity. apply elem_of_list_In. vm_compute. tauto.
Qed.

(** The merge is made again of what its parents became; 3 was made as 13 and
    dropped. *)
Example c113_example : exists gs text l,
  run_todo (both_git true) both_todo (disk_start [] (store_of both) both_head) = Went gs /\
  (forall o, is_Some (gs_store gs !! o) -> oid_ok o) /\
  hs_rewritten (gs_hooks gs) = Some text /\ read_rewritten_list text = Some l /\
  collect_map l = {[2 := NonZero 12; 3 := Zero; 4 := NonZero 14; 5 := NonZero 15; 13 := Zero]}%N /\
  gs_store gs !! 15%N = Some (both_made 5 [12; 14] 105)%N.
Proof.
  destruct (on_went_spec (run_todo (both_git true) both_todo (disk_start [] (store_of both) both_head)) (fun gs =>
    oids_ok (gs_store gs) && match hs_rewritten (gs_hooks gs) with
    | Some text => match read_rewritten_list text with
      | Some l => bool_decide (collect_map l = {[2 := NonZero 12; 3 := Zero; 4 := NonZero 14; 5 := NonZero 15; 13 := Zero]}%N)
      | None => false end
    | None => false end && bool_decide (gs_store gs !! 15%N = Some (both_made 5 [12; 14] 105)%N))%bool) as (gs & E & H).
  { vm_compute. reflexivity. }
  rewrite !andb_true_iff in H. destruct H as [[H1 H2] H3]. exists gs. destruct (hs_rewritten (gs_hooks gs)) as [text|]; [|discriminate].
  destruct (read_rewritten_list text) as [l|] eqn:El; [|discriminate]. exists text, l. rewrite !bool_decide_eq_true in *.
  split_and!; auto. now apply oids_ok_spec.
Qed.

(** foo, checked out at 3, is deleted and HEAD goes to 12; bar moves from 5 to 15. *)
Example c114_example :
  let b := mk_be (fun _ => true) (fun _ => true) "refs/heads/master" (Some None) in
  let r := mk_repo (store_of both) {["refs/heads/master" := 1; "refs/heads/foo" := 3; "refs/heads/bar" := 5]}%N both_head [] [] StayPut in
  exists gs r' log',
    run_todo (both_git false) both_todo (disk_start [] (store_of both) both_head) = Went gs /\
    (forall o, is_Some (gs_store gs !! o) -> oid_ok o) /\
    end_of_rebase (both_git false) b table_of both_head gs r = (r', log', true) /\
    rp_refs r' = {["refs/heads/master" := 1; "refs/heads/bar" := 15]}%N /\ final_head r' = Some 12%N /\
    log' = map (CommitEvent 7%Z (TxId 9)) [12; 13; 14; 15]%N ++
      map (fun x => RewriteEvent 7%Z (TxId 9) (NonZero (fst x)) (snd x))
        [(2, NonZero 12); (3, Zero); (13, Zero); (4, NonZero 14); (5, NonZero 15)]%N.
Proof.
  intros b r. pose (R := run_todo (both_git false) both_todo (disk_start [] (store_of both) both_head)).
  destruct (on_went_spec R (fun gs => oids_ok (gs_store gs) && match end_of_rebase (both_git false) b table_of both_head gs r with
    | (r', log', ok) => ok && bool_decide (rp_refs r' = {["refs/heads/master" := 1; "refs/heads/bar" := 15]}%N) &&
        bool_decide (final_head r' = Some 12%N) && bool_decide (log' = map (CommitEvent 7%Z (TxId 9)) [12; 13; 14; 15]%N ++
          map (fun x => RewriteEvent 7%Z (TxId 9) (NonZero (fst x)) (snd x))
            [(2, NonZero 12); (3, Zero); (13, Zero); (4, NonZero 14); (5, NonZero 15)]%N)
    end)%bool) as (gs & E & H).
  { vm_compute. reflexivity. }
  rewrite !andb_true_iff in H. destruct H as [H1 H2]. exists gs.
  destruct (end_of_rebase (both_git false) b table_of both_head gs r) as [[r' log'] ok]. exists r', log'.
  rewrite !andb_true_iff, !bool_decide_eq_true in H2. destruct H2 as [[[-> H2] H3] H4].
  split; [exact E|]. split; [now apply oids_ok_spec|]. auto.
Qed.

(** The hypotheses of the theorems hold there. *)
Example c113_applies : exists gs l, run_todo (both_git true) both_todo (disk_start [] (store_of both) both_head) = Went gs /\
  carried_out_on_disk (dag_of both 1%N) both_plan (env_in both) (both_git true) (store_of both) (gs_store gs) (collect_map l) /\ collect_map l !! 5%N = Some (NonZero 15%N).
Proof.
  destruct c113_example as (gs & text & l & E & Ok & H1 & H2 & H3 & _). exists gs, l.
  destruct (both_named true) as (Nm & Ns & Fr & Pr). destruct both_built as [HB Hw].
  destruct (c113_subtrees (dag_of both 1%N) (env_in both) (both_git true) {[2; 3; 4; 5]}%N both_plan 6%N both_cmds (store_of both) [] both_head both_todo gs)
    as (text' & l' & A & B & _ & C & _); auto using both_wf, both_knows, both_subtrees, sorted_elements.
  - intros h [= <-]. eexists. vm_compute. reflexivity.
  - assert (text' = text) as -> by congruence. assert (l' = l) as -> by congruence. split; [exact E|]. split; [exact C|].
    rewrite H3. vm_compute. reflexivity.
Qed.

(** A merge that is itself to be moved stays on top of the parents it had, though
    the rebase succeeds: 5 was to go on top of 6. *)
Theorem c113_moved_merge_refuted : exists d e v allowed cs dest cmds st head todo gs text l p c n x,
  wf_graph (dag_graph d) /\ knows d e /\ pe_replace e = ∅ /\ cs = [MoveSubtree [p] c] /\ new_parent d cs p c /\
  faithful_names (ge_exec v) /\ named (ge_exec v) st /\ fresh_names (ge_exec v) st /\
  build d e allowed cs = Done (BuiltPlan dest cmds) /\ handed_over head dest cmds todo /\
  run_todo v todo (disk_start [] st head) = Went gs /\ (forall o, is_Some (gs_store gs !! o) -> oid_ok o) /\
  hs_rewritten (gs_hooks gs) = Some text /\ read_rewritten_list text = Some l /\
  collect_map l !! c = Some (NonZero n) /\ gs_store gs !! n = Some x /\ p ∉ commit_parents (ob_commit x).
Proof.
  pose (d := dag_of both 1%N). pose (cs := [MoveSubtree [6] 5]%N). pose (v := both_git false).
  assert (HB : exists cmds, build d (env_in both) {[5]}%N cs = Done (BuiltPlan 6%N cmds) /\
    cmds = [Reset_ (AtOid 6); Reset_ (AtOid 3); Merge 5 [AtOid 4]; RegisterExtra]%N) by (eexists; split; vm_compute; reflexivity).
  destruct HB as (cmds & HB & Ec). destruct (both_named false) as (Nm & Ns & Fr & _).
  assert (Hw : exists todo, handed_over both_head 6%N cmds todo /\ exists gs, run_todo v todo (disk_start [] (store_of both) both_head) = Went gs /\
    (oids_ok (gs_store gs) && match hs_rewritten (gs_hooks gs) with
    | Some text => match read_rewritten_list text with
      | Some l => bool_decide (collect_map l !! 5%N = Some (NonZero 16%N))
      | None => false end
    | None => false end && bool_decide (gs_store gs !! 16%N = Some (both_made 5 [3; 4] 105)%N))%bool = true).
  { subst cmds. pose (cmds := [Reset_ (AtOid 6); Reset_ (AtOid 3); Merge 5 [AtOid 4]; RegisterExtra]%N).
    pose (todo := match write_state false false both_head false 6%N cmds with
      | Some (files, _) => match List.find (fun f => String.eqb (fst f) "git-rebase-todo") files with Some f => snd f | None => "" end
      | None => "" end). exists todo. split.
    - exists false. eexists. split; [vm_compute; reflexivity|].
      replace todo with (snd ("git-rebase-todo", todo)) by reflexivity. apply elem_of_list_In. vm_compute. tauto.
    - apply on_went_spec. vm_compute. reflexivity. }
  destruct Hw as (todo & Hw & gs & E & H). rewrite !andb_true_iff in H. destruct H as [[H1 H2] H3].
  destruct (hs_rewritten (gs_hooks gs)) as [text|] eqn:Et; [|discriminate]. destruct (read_rewritten_list text) as [l|] eqn:El; [|discriminate].
  rewrite !bool_decide_eq_true in *.
  exists d, (env_in both), v, {[5]}%N, cs, 6%N, cmds, (store_of both), both_head, todo, gs, text, l, 6%N, 5%N, 16%N, (both_made 5 [3; 4] 105)%N.
  split; [exact both_wf|]. split; [exact both_knows|]. split; [reflexivity|]. split; [reflexivity|]. split.
  { left. exists [], [6]%N, []. split; [reflexivity|]. split; [left|constructor]. }
  split; [exact Nm|]. split; [exact Ns|]. split; [exact Fr|]. split; [exact HB|]. split; [exact Hw|]. split; [exact E|].
  split; [now apply oids_ok_spec|]. split; [exact Et|]. split; [exact El|]. split; [exact H2|]. split; [exact H3|].
  cbn. decide_it.
Qed.

Print Assumptions c113_on_disk_partial.
Print Assumptions c113_subtrees.
Print Assumptions c113_moved_merge_refuted.
Print Assumptions c114_end_partial.

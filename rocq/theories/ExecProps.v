(** Properties C30 to C32, C60 and C61: carrying out rebase plans. *)
From stdpp Require Import sorting relations countable.
From Verif Require Import Base TextModel TextProofs EventLogModel DagModel DagSpec DagProofs StrModel StrProofs HookModel PlanModel
  PlanSpec PlanProofs PlanBuildProofs PlanProps ExecModel ExecSpec ExecProofs ExecBuildProofs ExecAfterProofs ExecDiskProofs.
Local Open Scope string_scope.
Local Open Scope list_scope.

(** ** A repository for the examples *)
Global Instance commit_eq_dec : EqDecision commit. Proof. solve_decision. Defined.
Global Instance object_eq_dec : EqDecision object. Proof. solve_decision. Defined.
Global Instance object_countable : Countable object.
Proof.
  refine (inj_countable' (fun x => (commit_parents (ob_commit x), commit_tree (ob_commit x), ob_author x, ob_committer x, ob_message x))
    (fun y => match y with (ps, t, a, c, m) => mk_object (mk_commit ps t) a c m end) _).
  intros [[ps t] a c m]. reflexivity.
Defined.

(** The commit [c] of a graph, with its own tree, author, committer and message. *)
Definition object_in (g : graph) (c : oid) : object := mk_object (mk_commit (parents_of g c) (c + 10)) (c + 20) (c + 30) (c + 40).
Definition store_of (g : graph) : store := list_to_map (List.map (fun v => (fst v, object_in g (fst v))) g).
(** Their names are those of the graph; other commits are numbered. *)
Definition name_in (g : graph) (x : object) : oid :=
  match List.find (fun v => bool_decide (object_in g (fst v) = x)) g with
  | Some v => fst v
  | None => 100 + Npos (encode x)
  end.
Definition run_in (g : graph) (pick amend : oid -> oid -> attempt) (head : option oid) : exec_env :=
  mk_ee (name_in g) pick amend (fun n => n + 1)%N (fun _ => true) head.

Lemma name_in_inj g : (forall c, c ∈ vertices g -> (c < 100)%N) -> forall x y, name_in g x = name_in g y -> x = y.
Proof.
  intros B x y. unfold name_in.
  assert (F : forall z v, List.find (fun v => bool_decide (object_in g (fst v) = z)) g = Some v ->
    object_in g (fst v) = z /\ (fst v < 100)%N).
  { intros z v H. apply find_some in H. destruct H as [Hin H]. apply bool_decide_eq_true in H. split; [exact H|].
    apply B. unfold vertices. apply elem_of_list_to_set, elem_of_list_In, in_map. exact Hin. }
  destruct (List.find _ g) as [v|] eqn:Ex; destruct (List.find (fun v => bool_decide (object_in g (fst v) = y)) g) as [w|] eqn:Ey.
  - apply F in Ex, Ey. intros E. destruct Ex as [<- _], Ey as [<- _]. now rewrite E.
  - apply F in Ex. intros E. lia.
  - apply F in Ey. intros E. lia.
  - intros E. apply (inj encode). lia.
Qed.

Lemma store_of_lookup g c x : store_of g !! c = Some x -> c ∈ vertices g /\ x = object_in g c.
Proof.
  intros H. apply elem_of_list_to_map_2 in H. apply elem_of_list_In, in_map_iff in H. destruct H as (v & [= <- <-] & Hv).
  split; [|reflexivity]. unfold vertices. apply elem_of_list_to_set, elem_of_list_In, in_map. exact Hv.
Qed.
Lemma name_in_store g : (forall c c', c ∈ vertices g -> c' ∈ vertices g -> object_in g c = object_in g c' -> c = c') ->
  forall o x, store_of g !! o = Some x -> name_in g x = o.
Proof.
  intros U o x H. apply store_of_lookup in H. destruct H as [Ho ->]. unfold name_in.
  destruct (List.find _ g) as [v|] eqn:E.
  - apply find_some in E. destruct E as [Hin E]. apply bool_decide_eq_true in E. apply U; [|exact Ho|exact E].
    unfold vertices. apply elem_of_list_to_set, elem_of_list_In, in_map. exact Hin.
  - unfold vertices in Ho. apply elem_of_list_to_set, elem_of_list_In, in_map_iff in Ho. destruct Ho as (v & <- & Hv).
    pose proof (find_none _ _ E v Hv) as N. cbn in N. now rewrite bool_decide_true in N by reflexivity.
Qed.
Lemma object_in_inj g c c' : object_in g c = object_in g c' -> c = c'.
Proof. unfold object_in. intros [=]. lia. Qed.

Lemma line_names pick amend head : faithful_names (run_in line pick amend head) /\ named (run_in line pick amend head) (store_of line).
Proof.
  split.
  - unfold faithful_names. cbn [run_in ee_hash]. apply name_in_inj. intros c Hc. unfold vertices, line in Hc. cbn in Hc. set_solver by lia.
  - unfold named. cbn [run_in ee_hash]. apply name_in_store. intros c c' _ _. apply object_in_inj.
Qed.

(** ** C30: what a rebase makes of the commits *)

(** Every commit that gets a new version is made anew from its own changes (and
    those squashed into it) on top of what its new parent became, or is replaced,
    or is skipped because it was applied upstream or nothing is left of it; nothing
    else is rewritten, and HEAD follows.  The requests are those of C28 that put
    nothing on top of commits that are squashed away. *)
Theorem c30_carried_out_partial : forall d e ee allowed cs dest cmds st st' rw head,
  wf_graph (dag_graph d) -> knows d e -> plannable d e cs -> clear_of_fixups d cs -> replacements_fit d e cs ->
  (forall fs, Permutation (pe_sort e fs) (elements fs)) -> faithful_names ee -> named ee st ->
  build d e allowed cs = Done (BuiltPlan dest cmds) ->
  rebase_in_memory ee st dest cmds = Ok (st', rw, head) ->
  carried_out d cs e ee st st' rw head.
Proof. exact build_carried_out. Qed.

(** Afterwards exactly one commit stands for each commit not squashed away. *)
Theorem c30_one_place_partial : forall d e ee allowed cs dest cmds st st' rw head c,
  wf_graph (dag_graph d) -> knows d e -> plannable d e cs -> clear_of_fixups d cs -> replacements_fit d e cs ->
  (forall fs, Permutation (pe_sort e fs) (elements fs)) -> faithful_names ee -> named ee st ->
  build d e allowed cs = Done (BuiltPlan dest cmds) ->
  rebase_in_memory ee st dest cmds = Ok (st', rw, head) -> ~ fixed_up cs c ->
  exists q, lands d cs rw c q /\ forall q', lands d cs rw c q' -> q' = q.
Proof.
  intros d e ee allowed cs dest cmds st st' rw head c W K P Cl Fit Sort Nm Ns HB HR Nf.
  pose proof (build_carried_out _ _ _ _ _ _ _ _ _ _ _ W K P Cl Fit Sort Nm Ns HB HR) as C.
  destruct (lands_total _ _ _ _ _ _ _ _ C c Nf) as [q L]. exists q. split; [exact L|].
  intros q' L'. symmetry. eapply lands_one; eauto.
Qed.

Lemma subtrees_fit d e cs : wf_graph (dag_graph d) -> pe_replace e = ∅ ->
  Forall (fun x => exists p c, x = MoveSubtree [p] c /\ c ∈ vertices (dag_graph d) /\ ~ merge_commit (dag_graph d) c) cs ->
  plannable d e cs /\ clear_of_fixups d cs /\ replacements_fit d e cs /\ (forall f, ~ fixed_up cs f).
Proof.
  intros W R F. assert (Nf : forall f, ~ fixed_up cs f).
  { intros f [t Hx]. rewrite Forall_forall in F. destruct (F _ Hx) as (p & c & E & _). discriminate. }
  split_and!; [|intros p c _ _; apply Nf| |exact Nf].
  - destruct (subtree_moves_plannable d e cs W F) as [P _]; [|exact P]. intros c r H. rewrite R, lookup_empty in H. discriminate.
  - intros c r rc _ _ H. rewrite R, lookup_empty in H. discriminate.
Qed.

(** In particular for any number of subtrees moved at once. *)
Theorem c30_subtrees : forall d e ee allowed cs dest cmds st st' rw head,
  wf_graph (dag_graph d) -> knows d e -> pe_replace e = ∅ ->
  Forall (fun x => exists p c, x = MoveSubtree [p] c /\ c ∈ vertices (dag_graph d) /\ ~ merge_commit (dag_graph d) c) cs ->
  (forall fs, Permutation (pe_sort e fs) (elements fs)) -> faithful_names ee -> named ee st ->
  build d e allowed cs = Done (BuiltPlan dest cmds) ->
  rebase_in_memory ee st dest cmds = Ok (st', rw, head) ->
  carried_out d cs e ee st st' rw head /\
  forall c, exists q, lands d cs rw c q /\ forall q', lands d cs rw c q' -> q' = q.
Proof.
  intros d e ee allowed cs dest cmds st st' rw head W K R F Sort Nm Ns HB HR.
  destruct (subtrees_fit d e cs W R F) as (P & Cl & Fit & Nf). split.
  - eapply c30_carried_out_partial; eauto.
  - intros c. eapply c30_one_place_partial; eauto.
Qed.

(** A rebase ends without an internal error; it stops only at a merge or at a
    commit whose changes conflict. *)
Theorem c30_runs_partial : forall d e ee allowed cs dest cmds st,
  wf_graph (dag_graph d) -> knows d e -> plannable d e cs -> clear_of_fixups d cs -> replacements_fit d e cs ->
  (forall fs, Permutation (pe_sort e fs) (elements fs)) -> faithful_names ee -> named ee st ->
  present d e ee cs st -> (forall c q, ee_pick ee c q <> Broken) -> (forall c q, ee_amend ee c q <> Broken) ->
  build d e allowed cs = Done (BuiltPlan dest cmds) ->
  (exists r, rebase_in_memory ee st dest cmds = Ok r) \/
  exists c st', rebase_in_memory ee st dest cmds = StopMerge c st' /\ stopped_by ee st c.
Proof. exact build_runs. Qed.

Definition env_in (g : graph) : plan_env := mk_pe (find_object (store_of g)) ∅ (fun _ _ => false) sorted_oids.
Lemma line_knows main : knows (dag_of line main) (env_in line).
Proof.
  intros c Hc. unfold dag_of in *. cbn [dag_graph] in *.
  assert (H : (c = 1 \/ c = 2 \/ c = 3 \/ c = 4 \/ c = 5)%N) by (unfold vertices, line in Hc; cbn in Hc; set_solver).
  destruct H as [-> |[-> |[-> |[-> | ->]]]]; eexists; (split; [vm_compute; reflexivity|reflexivity]).
Qed.
Lemma plannable_env d cs e e' : plannable d e cs -> pe_replace e' = ∅ -> plannable d e' cs.
Proof. intros [A B C D F G] R. constructor; auto. intros c r H. rewrite R, lookup_empty in H. discriminate. Qed.
Lemma line_subtrees p c : c ∈ vertices line ->
  Forall (fun x => exists p c, x = MoveSubtree [p] c /\ c ∈ vertices line /\ ~ merge_commit line c) [MoveSubtree [p] c].
Proof.
  intros Hc. apply Forall_singleton. exists p, c. split_and!; [reflexivity|exact Hc|]. intros (ps & H & L).
  assert (Hin : Forall (fun v => length (snd v) <= 1)%nat line) by (unfold line; repeat (constructor; [cbn; lia|]); constructor).
  rewrite Forall_forall in Hin. specialize (Hin _ H). cbn in Hin. lia.
Qed.
Lemma sorted_elements fs : Permutation (sorted_oids fs) (elements fs).
Proof. apply merge_sort_Permutation. Qed.

(** Results of a rebase in the examples. *)
Definition on_ok {A} (x : exec A) (f : A -> bool) : bool := match x with Ok a => f a | _ => false end.
Lemma on_ok_spec {A} (x : exec A) f : on_ok x f = true -> exists a, x = Ok a /\ f a = true.
Proof. destruct x; [eauto|discriminate..]. Qed.
Definition first_parent (st : store) (o : oid) : option oid :=
  match st !! o with Some x => head (commit_parents (ob_commit x)) | None => None end.

(** 2 is moved on top of 5 with 3 and 4 above it; nothing is left of 3, which HEAD
    was at. *)
Definition ex_pick (c q : oid) : attempt := MadeTree (if N.eqb c 3 then 102 else 100 + c)%N.
Example c30_example :
  let ee := run_in line ex_pick (fun _ _ => Conflict) (Some 3%N) in
  exists cmds st' rw head,
    Forall (fun x => exists p c, x = MoveSubtree [p] c /\ c ∈ vertices line /\ ~ merge_commit line c) [MoveSubtree [5] 2]%N /\
    faithful_names ee /\ named ee (store_of line) /\ knows (dag_of line 1%N) (env_in line) /\
    build (dag_of line 1%N) (env_in line) {[2; 3; 4]}%N [MoveSubtree [5] 2]%N = Done (BuiltPlan 5%N cmds) /\
    rebase_in_memory ee (store_of line) 5%N cmds = Ok (st', rw, head) /\
    rw !! 3%N = Some Zero /\ exists n2 n4, rw !! 2%N = Some (NonZero n2) /\ rw !! 4%N = Some (NonZero n4) /\ head = Some n2 /\
      first_parent st' n2 = Some 5%N /\ first_parent st' n4 = Some n2.
Proof.
  intros ee. set (cmds := [Reset_ (AtOid 5); Pick 2 [2]; DetectEmpty 2; Pick 3 [3]; DetectEmpty 3;
                           Pick 4 [4]; DetectEmpty 4; RegisterExtra]%N).
  destruct (on_ok_spec (rebase_in_memory ee (store_of line) 5%N cmds) (fun r => match r with (st', rw, head) =>
    match rw !! 2%N, rw !! 3%N, rw !! 4%N with
    | Some (NonZero n2), Some Zero, Some (NonZero n4) =>
        bool_decide (head = Some n2) && bool_decide (first_parent st' n2 = Some 5%N) && bool_decide (first_parent st' n4 = Some n2)
    | _, _, _ => false
    end end)%bool) as (((st' & rw) & head) & E & H).
  { vm_compute. reflexivity. }
  exists cmds, st', rw, head. destruct (line_names ex_pick (fun _ _ => Conflict) (Some 3%N)) as [Nm Ns].
  split; [apply line_subtrees; decide_it|]. split; [exact Nm|]. split; [exact Ns|]. split; [apply line_knows|].
  split; [vm_compute; reflexivity|]. split; [exact E|].
  destruct (rw !! 2%N) as [[|n2]|]; try discriminate. destruct (rw !! 3%N) as [[|n3]|]; try discriminate.
  destruct (rw !! 4%N) as [[|n4]|]; try discriminate. split; [reflexivity|]. exists n2, n4.
  rewrite !andb_true_iff, !bool_decide_eq_true in H. destruct H as [[? ?] ?]. split_and!; auto.
Qed.

(** Not every commit squashed away is accounted for: 3 is squashed into 2, nothing
    is left of both, and nothing is recorded about 3. *)
Lemma squash_fits e : pe_replace e = ∅ -> let d := dag_of line 1%N in let cs := [FixUpCommit 2 3]%N in
  plannable d e cs /\ clear_of_fixups d cs /\ replacements_fit d e cs.
Proof.
  intros R d cs. destruct squash_line as (Tg & St & Np). fold d cs in Tg, St, Np. split_and!.
  - eapply plannable_env; [apply c28_example_fixup|exact R].
  - intros p c H _ [t Hf]. apply elem_of_list_singleton in Hf. injection Hf as -> ->.
    destruct H as [H|[(Ht & _ & H)|(H & _)]].
    + apply Np in H. lia.
    + apply Tg in Ht. subst c. apply parent_parents_of in H; [|exact line_wf]. vm_compute in H. apply elem_of_list_singleton in H. lia.
    + destruct H as (ps & H & L). assert (Hin : Forall (fun v => length (snd v) <= 1)%nat line)
        by (unfold line; repeat (constructor; [cbn; lia|]); constructor).
      rewrite Forall_forall in Hin. specialize (Hin _ H). cbn in Hin. lia.
  - intros c r rc _ _ H. rewrite R, lookup_empty in H. discriminate.
Qed.

Theorem c30_squashed_lost_refuted : exists d e ee allowed cs dest cmds st st' rw head f,
  wf_graph (dag_graph d) /\ knows d e /\ plannable d e cs /\ clear_of_fixups d cs /\ replacements_fit d e cs /\
  faithful_names ee /\ named ee st /\
  build d e allowed cs = Done (BuiltPlan dest cmds) /\
  rebase_in_memory ee st dest cmds = Ok (st', rw, head) /\ fixed_up cs f /\ rw !! f = None.
Proof.
  set (ee := run_in line (fun c _ => MadeTree 100%N) (fun _ _ => MadeTree 11%N) None).
  assert (HB : exists dest cmds, build (dag_of line 1%N) (env_in line) {[2; 3; 4]}%N [FixUpCommit 2 3]%N = Done (BuiltPlan dest cmds) /\
    on_ok (rebase_in_memory ee (store_of line) dest cmds) (fun r => bool_decide (snd (fst r) !! 3%N = None)) = true).
  { eexists _, _. split; vm_compute; reflexivity. }
  destruct HB as (dest & cmds & HB & H). apply on_ok_spec in H. destruct H as (((st' & rw) & head) & HR & H).
  apply bool_decide_eq_true in H.
  destruct (line_names (fun c _ => MadeTree 100%N) (fun _ _ => MadeTree 11%N) None) as [Nm Ns].
  destruct (squash_fits (env_in line) eq_refl) as (P & Cl & Fit).
  exists (dag_of line 1%N), (env_in line), ee, {[2; 3; 4]}%N, [FixUpCommit 2 3]%N, dest, cmds, (store_of line), st', rw, head, 3%N.
  split; [exact line_wf|]. split; [apply line_knows|]. split; [exact P|]. split; [exact Cl|]. split; [exact Fit|].
  split; [exact Nm|]. split; [exact Ns|]. split; [exact HB|]. split; [exact HR|]. split; [|exact H].
  exists 2%N. now left.
Qed.

(** Nor is a skipped commit always passed over: 3 is moved on top of 1 and skipped, 2
    is squashed into 4, and the new version of 4 ends up on top of the old 3. *)
Theorem c30_passed_over_refuted : exists d e ee allowed cs dest cmds st st' rw head c n p,
  wf_graph (dag_graph d) /\ knows d e /\ faithful_names ee /\ named ee st /\
  build d e allowed cs = Done (BuiltPlan dest cmds) /\
  rebase_in_memory ee st dest cmds = Ok (st', rw, head) /\
  rw !! c = Some (NonZero n) /\ first_parent st' n = Some p /\ rw !! p = Some Zero.
Proof.
  set (ee := run_in line (fun c _ => MadeTree (if N.eqb c 3 then 11 else 100)%N) (fun _ _ => MadeTree 101%N) None).
  assert (HB : exists dest cmds, build (dag_of line 1%N) (env_in line) {[2; 3; 4]}%N [MoveSubtree [1] 3; FixUpCommit 4 2]%N = Done (BuiltPlan dest cmds) /\
    on_ok (rebase_in_memory ee (store_of line) dest cmds) (fun r => match r with (st', rw, _) =>
      match rw !! 4%N with Some (NonZero n) => bool_decide (first_parent st' n = Some 3%N) | _ => false end
      && bool_decide (rw !! 3%N = Some Zero) end)%bool = true).
  { eexists _, _. split; vm_compute; reflexivity. }
  destruct HB as (dest & cmds & HB & H). apply on_ok_spec in H. destruct H as (((st' & rw) & head) & HR & H).
  apply andb_true_iff in H. destruct H as [H1 H2]. destruct (rw !! 4%N) as [[|n]|] eqn:E4; [discriminate H1| |discriminate H1].
  apply bool_decide_eq_true in H1, H2.
  destruct (line_names (fun c _ => MadeTree (if N.eqb c 3 then 11 else 100)%N) (fun _ _ => MadeTree 101%N) None) as [Nm Ns].
  exists (dag_of line 1%N), (env_in line), ee, {[2; 3; 4]}%N, [MoveSubtree [1] 3; FixUpCommit 4 2]%N, dest, cmds, (store_of line), st', rw, head, 4%N, n, 3%N.
  split; [exact line_wf|]. split; [apply line_knows|].
  split; [exact Nm|]. split; [exact Ns|]. split; [exact HB|]. split; [exact HR|]. auto.
Qed.

(** The hypotheses of [c30_runs_partial] hold for the squashing of 3 into 2. *)
Example c30_example_runs :
  let d := dag_of line 1%N in let e := env_in line in let cs := [FixUpCommit 2 3]%N in
  let ee := run_in line (fun c _ => MadeTree (100 + c)%N) (fun _ c => if N.eqb c 3 then Conflict else MadeTree 7%N) None in
  plannable d e cs /\ clear_of_fixups d cs /\ replacements_fit d e cs /\ present d e ee cs (store_of line) /\
  exists dest cmds st', build d e {[2; 3; 4]}%N cs = Done (BuiltPlan dest cmds) /\
    rebase_in_memory ee (store_of line) dest cmds = StopMerge 3%N st'.
Proof.
  intros d e cs ee. destruct (squash_fits e eq_refl) as (P & Cl & Fit). split; [exact P|]. split; [exact Cl|]. split; [exact Fit|]. split.
  - destruct squash_line as (Tg & St & Np). fold d cs in Tg, St, Np. constructor.
    + intros c x H. exact H.
    + intros c Hc. assert (H : (c = 1 \/ c = 2 \/ c = 3 \/ c = 4 \/ c = 5)%N).
      { unfold d, dag_of, vertices, line in Hc. cbn in Hc. set_solver. }
      destruct H as [-> |[-> |[-> |[-> | ->]]]]; eexists; (split; [vm_compute; reflexivity|reflexivity]).
    + intros p c H. apply Np in H. destruct H as [-> _]. eexists. vm_compute. reflexivity.
    + intros f [t Hf]. apply elem_of_list_singleton in Hf. injection Hf as _ ->. eexists. vm_compute. reflexivity.
    + intros c r H. unfold e, env_in in H. cbn [pe_replace] in H. rewrite lookup_empty in H. discriminate.
  - eexists _, _, _. split; vm_compute; reflexivity.
Qed.

(** ** C31: a rebase that stops *)

(** Unless conflicts are to be resolved, a rebase in memory that does not come to
    its end has moved no reference, recorded nothing and checked out nothing. *)
Theorem c31_nothing_visible : forall e b groups iter on_disk force_in_memory resolve dest cmds r r' res,
  execute_plan e b groups iter on_disk force_in_memory false resolve dest cmds r = (r', res) ->
  (forall a, rebase_in_memory e (rp_store r) dest cmds <> Ok a) -> resolve = false \/ force_in_memory = true ->
  same_visible r r' /\ rp_store r ⊆ rp_store r' /\ ((exists c, res = DeclinedToMerge c) \/ res = InternalError).
Proof.
  intros e b groups iter on_disk force_in_memory resolve dest cmds r r' res Hx Hn Hm.
  pose proof (execute_memory e b groups iter on_disk force_in_memory resolve dest cmds r) as H. cbv zeta in H. rewrite Hx in H.
  destruct (rebase_in_memory e (rp_store r) dest cmds) as [[[st rw] hd]|c st|st].
  - exfalso. now apply (Hn (st, rw, hd)).
  - destruct H as [S H]. assert (E : (negb resolve || force_in_memory)%bool = true) by (destruct Hm as [-> | ->]; [reflexivity|apply orb_true_r]).
    rewrite E in H. injection H as -> ->. split; [apply with_store_visible|]. split; [exact S|]. eauto.
  - destruct H as [S H]. injection H as -> ->. split; [apply with_store_visible|]. split; [exact S|]. now right.
Qed.

(** Otherwise a rebase on disk starts from there. *)
Theorem c31_before_disk : forall e b groups iter on_disk dest cmds r,
  (forall a, rebase_in_memory e (rp_store r) dest cmds <> Ok a) -> (forall st, rebase_in_memory e (rp_store r) dest cmds <> Err st) ->
  exists r1, same_visible r r1 /\ rp_store r ⊆ rp_store r1 /\
    execute_plan e b groups iter on_disk false false true dest cmds r = on_disk r1.
Proof.
  intros e b groups iter on_disk dest cmds r Hn He.
  pose proof (execute_memory e b groups iter on_disk false true dest cmds r) as H. cbv zeta in H.
  destruct (rebase_in_memory e (rp_store r) dest cmds) as [[[st rw] hd]|c st|st].
  - exfalso. now apply (Hn (st, rw, hd)).
  - destruct H as [S H]. exists (with_store st r). split; [apply with_store_visible|]. split; [exact S|exact H].
  - exfalso. now apply (He st).
Qed.

(** The commit that is reported is one of those to be rebuilt (or squashed), and is a
    merge, or its changes conflict. *)
Theorem c31_reported_partial : forall d pe e b groups iter on_disk force_in_memory allowed cs dest cmds r r' c,
  wf_graph (dag_graph d) -> knows d pe -> plannable d pe cs -> clear_of_fixups d cs -> replacements_fit d pe cs ->
  (forall fs, Permutation (pe_sort pe fs) (elements fs)) -> faithful_names e -> named e (rp_store r) ->
  present d pe e cs (rp_store r) -> (forall c q, ee_pick e c q <> Broken) -> (forall c q, ee_amend e c q <> Broken) ->
  build d pe allowed cs = Done (BuiltPlan dest cmds) ->
  execute_plan e b groups iter on_disk force_in_memory false false dest cmds r = (r', DeclinedToMerge c) ->
  stopped_by e (rp_store r) c /\ (rebuilt d cs c \/ fixed_up cs c) /\ same_visible r r'.
Proof.
  intros d pe e b groups iter on_disk force_in_memory allowed cs dest cmds r r' c W K P Cl Fit Sort Nm Ns Pr Hp Ha HB Hx.
  destruct (build_runs d pe e allowed cs dest cmds (rp_store r) W K P Cl Fit Sort Nm Ns Pr Hp Ha HB) as [(a & E)|(c' & st' & E & Hs)].
  - pose proof (execute_memory e b groups iter on_disk force_in_memory false dest cmds r) as H. cbv zeta in H. rewrite Hx, E in H.
    destruct a as [[st rw] hd]. destruct H as (ok & H & _). destruct ok; discriminate.
  - pose proof (execute_memory e b groups iter on_disk force_in_memory false dest cmds r) as H. cbv zeta in H. rewrite Hx, E in H.
    destruct H as [_ H]. injection H as -> ->. split; [exact Hs|]. split; [|apply with_store_visible].
    destruct (rebase_stop _ _ _ _ _ _ E) as (x & X1 & X2). eapply build_applies; eauto.
Qed.

(** The conflict of 3 in the example above is reported, with a new version of 2 left
    behind that nothing refers to. *)
Example c31_example :
  let ee := run_in line (fun c _ => MadeTree (100 + c)%N) (fun _ c => if N.eqb c 3 then Conflict else MadeTree 7%N) None in
  let be := mk_be (fun _ => true) (fun _ => true) "refs/heads/master" (Some None) in
  let r := mk_repo (store_of line) {["refs/heads/master" := 1%N; "refs/heads/foo" := 4%N]} (mk_head (Some 4%N) (Some "refs/heads/foo")) [] [] StayPut in
  let cmds := [Reset_ (AtOid 1); Pick 2 [2; 3]; DetectEmpty 2; RegisterExtra]%N in
  (forall a, rebase_in_memory ee (rp_store r) 1%N cmds <> Ok a) /\
  snd (execute_plan ee be (fun _ => []) map_to_list (fun r => (r, FailedExit)) false false false 1%N cmds r) = DeclinedToMerge 3%N /\
  size (rp_store (fst (execute_plan ee be (fun _ => []) map_to_list (fun r => (r, FailedExit)) false false false 1%N cmds r))) = 6%nat.
Proof.
  intros ee be r cmds. split_and!; [|vm_compute; reflexivity|vm_compute; reflexivity].
  intros a H. assert (E : on_ok (rebase_in_memory ee (rp_store r) 1%N cmds) (fun _ => true) = true) by (now rewrite H).
  revert E. vm_compute. discriminate.
Qed.

(** ** C32: branches and HEAD *)

(** Each local branch at a rewritten commit goes to the new version; at a removed
    commit it is deleted, or put at its upstream if it is the main branch; other
    references stay.  Exactly these updates are announced, each once. *)
Theorem c32_branches : forall b rw groups refs,
  branch_table groups refs -> mr_ok (move_branches b rw groups refs) = true ->
  (forall n, mr_refs (move_branches b rw groups refs) !! n = branch_after b rw refs n) /\
  exists ls, mr_lines (move_branches b rw groups refs) = Some ls /\ NoDup (List.map snd ls) /\
    (forall o x n, (o, x, n) ∈ ls -> refs !! n = Some o /\
       branch_after b rw refs n = match x with NonZero o' => Some o' | Zero => None end) /\
    (forall n, n ∈ List.map snd ls <-> exists o, refs !! n = Some o /\ is_local n = true /\ is_Some (rw !! o)).
Proof.
  intros b rw groups refs T Hk. destruct (move_branches_spec b rw groups refs T) as (A & B & C).
  destruct (C Hk) as (ls & El & D & F). split; [exact D|]. exists ls. destruct (B ls El) as (_ & Hnd & Hin).
  split; [exact El|]. split; [exact Hnd|]. split.
  - intros o x n H. destruct (Hin _ _ _ H) as (H1 & _ & _ & H2). auto.
  - intros n. split.
    + intros H. apply elem_of_list_In, in_map_iff in H. destruct H as ([[o x] n'] & <- & H). apply elem_of_list_In in H.
      exists o. destruct (Hin _ _ _ H) as (H1 & H2 & H3 & _). auto.
    + intros (o & H1 & H2 & H3). eapply F; eauto.
Qed.

(** When a reference cannot be written, each is where it was or where it should go,
    and those that were moved are announced. *)
Theorem c32_halfway : forall b rw groups refs,
  branch_table groups refs ->
  (forall n, mr_refs (move_branches b rw groups refs) !! n = refs !! n \/
             mr_refs (move_branches b rw groups refs) !! n = branch_after b rw refs n) /\
  forall ls, mr_lines (move_branches b rw groups refs) = Some ls -> mr_refs (move_branches b rw groups refs) = announced refs ls.
Proof.
  intros b rw groups refs T. destruct (move_branches_spec b rw groups refs T) as (A & B & _). split; [exact A|].
  intros ls H. apply (B ls H).
Qed.

(** But when the upstream of the main branch cannot be looked up, branches that were
    already moved are not announced. *)
Theorem c32_announced_refuted : exists b rw groups refs n,
  branch_table groups refs /\ mr_lines (move_branches b rw groups refs) = None /\
  mr_refs (move_branches b rw groups refs) !! n <> refs !! n.
Proof.
  exists (mk_be (fun _ => true) (fun _ => true) "refs/heads/master" None), {[1 := Zero; 2 := NonZero 5]}%N,
    [(2, ["refs/heads/foo"]); (1, ["refs/heads/master"])]%N, {["refs/heads/foo" := 2; "refs/heads/master" := 1]}%N, "refs/heads/foo".
  split_and!; [|vm_compute; reflexivity|vm_compute; discriminate].
  constructor.
  - intros n o. split.
    + intros (ns & Hg & Hn). rewrite !elem_of_cons in Hg. destruct Hg as [[= -> ->]|[[= -> ->]|Hg]];
        [| |now apply elem_of_nil in Hg]; apply elem_of_list_singleton in Hn; subst n; split; vm_compute; reflexivity.
    + intros [H _]. rewrite lookup_insert_Some, lookup_singleton_Some in H.
      destruct H as [[<- <-]|[_ [<- <-]]]; eexists; split; [left| |right; left|]; now apply elem_of_list_singleton.
  - cbn. repeat constructor; set_solver.
Qed.

(** After a rebase in memory: branches as above, the new commits marked, everything
    else left alone, the rewrites reported. *)
Theorem c32_after_rebase : forall b groups iter rw head r r',
  (forall refs, branch_table (groups refs) refs) -> Permutation (iter rw) (map_to_list rw) ->
  post_rebase b groups iter rw head r = (r', true) ->
  (forall n, is_local n = true -> rp_refs r' !! n = branch_after b rw (rp_refs r) n) /\
  (forall n, is_local n = false -> (forall o, n <> "refs/branchless/" +:+ oid_to_string o) -> rp_refs r' !! n = rp_refs r !! n) /\
  (exists ls, rp_lines r' = rp_lines r ++ ls /\ NoDup (List.map snd ls) /\
     (forall o x n, (o, x, n) ∈ ls -> rp_refs r !! n = Some o /\ is_local n = true /\
        rp_refs r' !! n = match x with NonZero o' => Some o' | Zero => None end) /\
     (forall o n, rp_refs r !! n = Some o -> is_local n = true -> is_Some (rw !! o) -> n ∈ List.map snd ls)) /\
  Permutation (rp_rewrites r') (rp_rewrites r ++ map_to_list rw).
Proof.
  intros b groups iter rw head r r' Hg Hi H. destruct (post_rebase_refs b groups iter rw head Hg Hi r r' H) as (A & _ & B & (ls & C1 & C2 & C3 & C4) & D).
  split; [exact A|]. split; [exact B|]. split; [|exact D]. exists ls. split; [exact C1|]. split; [exact C2|]. split; [|exact C4].
  intros o x n Hl. destruct (C3 o x n Hl) as (H1 & H2 & H3 & H4). split; [exact H1|]. split; [exact H2|]. rewrite <- H4. now apply A.
Qed.

(** HEAD ends at the commit that stands for the one it was at (or, on the main
    branch with nothing left of it, at the upstream), and the branch that was checked
    out is checked out again if it still exists. *)
Theorem c32_head_partial : forall d pe e b groups iter on_disk force_in_memory resolve allowed cs dest cmds r r' st' rw head h up,
  wf_graph (dag_graph d) -> knows d pe -> plannable d pe cs -> clear_of_fixups d cs -> replacements_fit d pe cs ->
  (forall fs, Permutation (pe_sort pe fs) (elements fs)) -> faithful_names e -> named e (rp_store r) ->
  (forall refs, branch_table (groups refs) refs) -> (forall m, Permutation (iter m) (map_to_list m)) -> be_upstream b = Some up ->
  build d pe allowed cs = Done (BuiltPlan dest cmds) ->
  rebase_in_memory e (rp_store r) dest cmds = Ok (st', rw, head) ->
  execute_plan e b groups iter on_disk force_in_memory false resolve dest cmds r = (r', Succeeded (Some rw)) ->
  ee_head e = Some h -> hi_oid (rp_head r) = Some h ->
  (forall n, hi_branch (rp_head r) = Some n -> rp_refs r !! n = Some h /\ is_local n = true) -> ~ fixed_up cs h ->
  ((exists q, final_head r' = Some q /\ lands d cs rw h q) \/
   (hi_branch (rp_head r) = Some (be_main b) /\ rw !! h = Some Zero /\ exists t, up = Some t /\ final_head r' = Some t)) /\
  (forall n, hi_branch (rp_head r) = Some n -> is_Some (rp_refs r' !! n) -> rp_checkout r' = CheckOutBranch n).
Proof.
  intros d pe e b groups iter on_disk force_in_memory resolve allowed cs dest cmds r r' st' rw head h up
    W K P Cl Fit Sort Nm Ns Hg Hi Hu HB HR HX Eh Hh Hbr Nf.
  pose proof (build_carried_out _ _ _ _ _ _ _ _ _ _ _ W K P Cl Fit Sort Nm Ns HB HR) as C.
  destruct (co_head _ _ _ _ _ _ _ _ C h Eh Nf) as (q0 & Hq0 & Lq0).
  pose proof (execute_memory e b groups iter on_disk force_in_memory resolve dest cmds r) as H. cbv zeta in H. rewrite HX, HR in H.
  destruct H as (ok & Hok & Hpost). destruct ok; [|discriminate Hok]. clear Hok. cbn [fst] in Hpost.
  destruct (post_rebase_refs b groups iter rw head Hg (Hi rw) _ _ Hpost) as (A & _).
  pose proof (post_rebase_head b groups iter rw head _ _ h Hpost Hh) as HH. cbn [with_store rp_head rp_refs] in HH, A.
  destruct (hi_branch (rp_head r)) as [n|] eqn:Eb.
  - destruct (Hbr n eq_refl) as [Hn Hl]. pose proof (A n Hl) as An. rewrite An in HH. unfold branch_after in An. rewrite Hn, Hl in An. split.
    + unfold branch_after in HH. rewrite Hn, Hl in HH. destruct (rw !! h) as [[|q]|] eqn:Er.
      * destruct (decide (n = be_main b)) as [->|Hne].
        -- rewrite Hu in HH. destruct up as [t|].
           ++ right. split; [reflexivity|]. split; [reflexivity|]. exists t. split; [reflexivity|]. apply HH.
           ++ left. exists q0. split; [now apply HH|exact Lq0].
        -- left. exists q0. split; [now apply HH|exact Lq0].
      * left. exists q. split; [apply HH|now apply lands_new].
      * left. exists h. split; [apply HH|now apply lands_kept].
    + intros n' [= <-] Hs. rewrite (A n Hl) in Hs. destruct (branch_after b rw (rp_refs r) n) as [o|]; [apply HH|]. destruct Hs. discriminate.
  - split; [|discriminate]. left. destruct (rw !! h) as [[|q]|] eqn:Er.
    + exists q0. split; [now apply HH|exact Lq0].
    + exists q. split; [exact HH|now apply lands_new].
    + exists h. split; [apply HH|now apply lands_kept].
Qed.

(** The example of C30 with HEAD on the branch [foo] at 3 and [bar] at 4: nothing is
    left of 3, so [foo] is deleted; [bar] moves. *)
Definition table_of (refs : gmap refname oid) : list (oid * list refname) :=
  List.map (fun l => (snd l, [fst l])) (List.filter (fun l => is_local (fst l)) (map_to_list refs)).
Lemma table_of_spec refs : branch_table (table_of refs) refs.
Proof.
  constructor.
  - intros n o. unfold table_of. split.
    + intros (ns & Hg & Hn). apply elem_of_list_In, in_map_iff in Hg. destruct Hg as ([n' o'] & [= -> <-] & Hg).
      apply filter_In in Hg. destruct Hg as [Hg Hl]. apply elem_of_list_singleton in Hn. cbn in Hn. subst n'.
      split; [|exact Hl]. apply elem_of_map_to_list. now apply elem_of_list_In.
    + intros [Hn Hl]. exists [n]. split; [|now left]. apply elem_of_list_In, in_map_iff. exists (n, o). split; [reflexivity|].
      apply filter_In. split; [|exact Hl]. apply elem_of_list_In. now apply elem_of_map_to_list.
  - unfold table_of. assert (E : forall l : list (refname * oid), List.concat (List.map snd (List.map (fun l => (snd l, [fst l])) l)) = List.map fst l).
    { induction l as [|[n o] l IH]; [reflexivity|]. cbn. f_equal. exact IH. }
    rewrite E. pose proof (NoDup_fst_map_to_list refs) as H. revert H. generalize (map_to_list refs) as l.
    induction l as [|[n o] l IH]; cbn; [constructor|]. intros H. apply NoDup_cons in H. destruct H as [Hn H].
    destruct (is_local n); [|now apply IH]. cbn. constructor; [|now apply IH]. intros Hin. apply Hn.
    apply elem_of_list_In, in_map_iff in Hin. destruct Hin as ([n' o'] & <- & Hin). apply filter_In in Hin.
    apply elem_of_list_fmap. exists (n', o'). split; [reflexivity|]. apply elem_of_list_In. apply Hin.
Qed.

Lemma on_pair {A B} (x : A * B) f : f (fst x) (snd x) = true -> exists a b, x = (a, b) /\ f a b = true.
Proof. destruct x; eauto. Qed.
Example c32_example :
  let ee := run_in line ex_pick (fun _ _ => Conflict) (Some 3%N) in
  let be := mk_be (fun _ => true) (fun _ => true) "refs/heads/master" (Some None) in
  let r := mk_repo (store_of line) {["refs/heads/master" := 1; "refs/heads/foo" := 3; "refs/heads/bar" := 4]}%N
             (mk_head (Some 3%N) (Some "refs/heads/foo")) [] [] StayPut in
  exists cmds r' rw n2 n4,
    build (dag_of line 1%N) (env_in line) {[2; 3; 4]}%N [MoveSubtree [5] 2]%N = Done (BuiltPlan 5%N cmds) /\
    (forall refs, branch_table (table_of refs) refs) /\
    execute_plan ee be table_of map_to_list (fun r => (r, FailedExit)) false false false 5%N cmds r = (r', Succeeded (Some rw)) /\
    rw !! 2%N = Some (NonZero n2) /\ rw !! 3%N = Some Zero /\ rw !! 4%N = Some (NonZero n4) /\
    rp_refs r' !! "refs/heads/foo" = None /\ rp_refs r' !! "refs/heads/bar" = Some n4 /\ rp_refs r' !! "refs/heads/master" = Some 1%N /\
    final_head r' = Some n2.
Proof.
  intros ee be r. set (cmds := [Reset_ (AtOid 5); Pick 2 [2]; DetectEmpty 2; Pick 3 [3]; DetectEmpty 3;
                           Pick 4 [4]; DetectEmpty 4; RegisterExtra]%N).
  destruct (on_pair (execute_plan ee be table_of map_to_list (fun r => (r, FailedExit)) false false false 5%N cmds r) (fun r' res =>
    match res with
    | Succeeded (Some rw) =>
        match rw !! 2%N, rw !! 3%N, rw !! 4%N with
        | Some (NonZero n2), Some Zero, Some (NonZero n4) =>
            bool_decide (rp_refs r' !! "refs/heads/foo" = None) && bool_decide (rp_refs r' !! "refs/heads/bar" = Some n4)
            && bool_decide (rp_refs r' !! "refs/heads/master" = Some 1%N) && bool_decide (final_head r' = Some n2)
        | _, _, _ => false
        end
    | _ => false end)%bool) as (r' & res & E & H); [vm_compute; reflexivity|].
  destruct res as [[rw|]| | |]; try discriminate H.
  destruct (rw !! 2%N) as [[|n2]|] eqn:E2; try discriminate H. destruct (rw !! 3%N) as [[|n3]|] eqn:E3; try discriminate H.
  destruct (rw !! 4%N) as [[|n4]|] eqn:E4; try discriminate H. rewrite !andb_true_iff, !bool_decide_eq_true in H.
  destruct H as [[[H1 H2] H3] H4]. exists cmds, r', rw, n2, n4. split; [vm_compute; reflexivity|]. split; [exact table_of_spec|].
  split; [exact E|]. auto 10.
Qed.

(** ** C61: new commits are kept *)

(** After a rebase in memory every new version of a commit is there and marked so that it is
    not collected as garbage, whatever the plan was.  (What became of commits is reported for
    rebases in memory only.) *)
Theorem c61_marked : forall e b groups iter on_disk force_in_memory force_on_disk resolve dest cmds r r' rw c n,
  (forall refs, branch_table (groups refs) refs) -> (forall m, Permutation (iter m) (map_to_list m)) ->
  (forall q rw, snd (on_disk q) <> Succeeded (Some rw)) ->
  execute_plan e b groups iter on_disk force_in_memory force_on_disk resolve dest cmds r = (r', Succeeded (Some rw)) ->
  (forall c n, rw !! c = Some (NonZero n) -> oid_ok n) ->
  rw !! c = Some (NonZero n) ->
  is_Some (rp_store r' !! n) /\ rp_refs r' !! ("refs/branchless/" +:+ oid_to_string n) = Some n.
Proof.
  intros e b groups iter on_disk force_in_memory force_on_disk resolve dest cmds r r' rw c n Hg Hi Hd HX Hok Hn.
  destruct force_on_disk.
  { rewrite execute_disk in HX. destruct force_in_memory; [discriminate|]. exfalso. apply (Hd r rw). now rewrite HX. }
  pose proof (execute_memory e b groups iter on_disk force_in_memory resolve dest cmds r) as H. cbv zeta in H. rewrite HX in H.
  destruct (rebase_in_memory e (rp_store r) dest cmds) as [[[st' rw'] head]|q st'|st'] eqn:HR.
  - destruct H as (ok & Hk & Hpost). destruct ok; [|discriminate Hk]. injection Hk as ->. cbn [fst] in Hpost.
    assert (Hs : rp_store r' = st').
    { revert Hpost. unfold post_rebase. destruct (mr_ok _); intros [= <-]; reflexivity. }
    destruct (post_rebase_refs b groups iter rw' head Hg (Hi rw') _ _ Hpost) as (_ & A & _).
    pose proof (rebase_there _ _ _ _ _ _ _ HR c n Hn) as Ht. rewrite Hs. split; [exact Ht|]. apply (A n); [now exists c|exact Hok|exact Ht].
  - destruct H as [_ H]. destruct (negb resolve || force_in_memory)%bool; [discriminate H|]. exfalso. apply (Hd (with_store st' r) rw).
    now rewrite <- H.
  - destruct H as [_ H]. discriminate H.
Qed.

(** That is so even when the branches could not be moved afterwards; and commits that were marked
    before stay marked. *)
Theorem c61_halfway : forall e b groups iter on_disk force_in_memory resolve dest cmds r st' rw head o,
  (forall refs, branch_table (groups refs) refs) -> (forall m, Permutation (iter m) (map_to_list m)) ->
  rebase_in_memory e (rp_store r) dest cmds = Ok (st', rw, head) ->
  (forall c n, rw !! c = Some (NonZero n) -> oid_ok n) -> oid_ok o ->
  (exists c, rw !! c = Some (NonZero o)) \/ rp_refs r !! ("refs/branchless/" +:+ oid_to_string o) = Some o ->
  rp_refs (fst (execute_plan e b groups iter on_disk force_in_memory false resolve dest cmds r)) !!
    ("refs/branchless/" +:+ oid_to_string o) = Some o.
Proof.
  intros e b groups iter on_disk force_in_memory resolve dest cmds r st' rw head o Hg Hi HR Hok Ho H.
  pose proof (execute_memory e b groups iter on_disk force_in_memory resolve dest cmds r) as X. cbv zeta in X. rewrite HR in X.
  destruct X as (ok & _ & X). revert X. set (r' := fst _). clearbody r'. unfold post_rebase. cbn [with_store rp_store rp_refs].
  set (refs := mark_new _ _ _). intros X.
  assert (M : refs !! gc_name o = Some o).
  { apply mark_new_kept; [|exact Ho|].
    - intros o' Hin. apply elem_of_list_In, in_map_iff in Hin. destruct Hin as ([c m] & Em & Hin). cbn in Em. subst m.
      apply elem_of_list_In in Hin. rewrite (Hi rw) in Hin. apply elem_of_map_to_list in Hin. eauto.
    - destruct H as [(c & Hc)|H]; [left|now right]. split; [|exact (rebase_there _ _ _ _ _ _ _ HR c o Hc)].
      apply elem_of_list_In, in_map_iff. exists (c, NonZero o). split; [reflexivity|]. apply elem_of_list_In. rewrite (Hi rw).
      now apply elem_of_map_to_list. }
  destruct (move_branches_spec b rw (groups refs) refs (Hg refs)) as (A & _). specialize (A (gc_name o)).
  assert (K : mr_refs (move_branches b rw (groups refs) refs) !! gc_name o = Some o).
  { destruct A as [->|A]; [exact M|]. rewrite A. unfold branch_after. rewrite M. pose proof (gc_not_local o) as L.
    now rewrite L. }
  destruct (mr_ok _); injection X as <- _; exact K.
Qed.

(** The example of C32: the commits made of 2 and 4 are marked; the mark of 9 stays. *)
Example c61_example :
  let ee := mk_ee (fun x => 20 + commit_tree (ob_commit x))%N ex_pick (fun _ _ => Conflict) (fun n => n + 1)%N (fun _ => true) (Some 3%N) in
  let be := mk_be (fun _ => true) (fun _ => true) "refs/heads/master" (Some None) in
  let r := mk_repo (store_of line) {["refs/heads/master" := 1; "refs/heads/foo" := 3; "refs/heads/bar" := 4; gc_name 9 := 9]}%N
             (mk_head (Some 3%N) (Some "refs/heads/foo")) [] [] StayPut in
  exists cmds r' rw n2 n4,
    execute_plan ee be table_of map_to_list (fun r => (r, FailedExit)) false false false 5%N cmds r = (r', Succeeded (Some rw)) /\
    (forall q rw, snd ((fun r : repo => (r, FailedExit)) q) <> Succeeded (Some rw)) /\
    (forall c n, rw !! c = Some (NonZero n) -> oid_ok n) /\
    rw !! 2%N = Some (NonZero n2) /\ rw !! 4%N = Some (NonZero n4) /\ n2 <> n4 /\
    rp_refs r' !! gc_name n2 = Some n2 /\ rp_refs r' !! gc_name n4 = Some n4 /\ rp_refs r' !! gc_name 9%N = Some 9%N.
Proof.
  intros ee be r. set (cmds := [Reset_ (AtOid 5); Pick 2 [2]; DetectEmpty 2; Pick 3 [3]; DetectEmpty 3;
                           Pick 4 [4]; DetectEmpty 4; RegisterExtra]%N).
  destruct (on_pair (execute_plan ee be table_of map_to_list (fun r => (r, FailedExit)) false false false 5%N cmds r) (fun r' res =>
    match res with
    | Succeeded (Some rw) =>
        match rw !! 2%N, rw !! 4%N with
        | Some (NonZero n2), Some (NonZero n4) =>
            bool_decide (n2 <> n4) && bool_decide (rp_refs r' !! gc_name n2 = Some n2) && bool_decide (rp_refs r' !! gc_name n4 = Some n4)
            && bool_decide (rp_refs r' !! gc_name 9%N = Some 9%N)
            && forallb (fun x => match snd x with NonZero n => (0 <? n)%N && (n <? oid_limit)%N | Zero => true end) (map_to_list rw)
        | _, _ => false
        end
    | _ => false end)%bool) as (r' & res & E & H); [vm_compute; reflexivity|].
  destruct res as [[rw|]| | |]; try discriminate H.
  destruct (rw !! 2%N) as [[|n2]|] eqn:E2; try discriminate H. destruct (rw !! 4%N) as [[|n4]|] eqn:E4; try discriminate H.
  rewrite !andb_true_iff, !bool_decide_eq_true in H. destruct H as [[[[H1 H2] H3] H4] H5].
  exists cmds, r', rw, n2, n4. split; [exact E|]. split; [discriminate|]. split; [|auto 10].
  intros c n Hc. rewrite forallb_forall in H5. specialize (H5 (c, NonZero n)). cbn in H5.
  rewrite andb_true_iff, !N.ltb_lt in H5. apply H5. apply elem_of_list_In. now apply elem_of_map_to_list.
Qed.

(** ** C60: handing a plan to Git *)

(** When nothing else is in progress and no file is changed, a plan that squashes and
    replaces nothing is written down completely, with one instruction per command. *)
Theorem c60_written_partial : forall d e allowed cs dest cmds head preserve,
  wf_graph (dag_graph d) -> (forall fs, Permutation (pe_sort e fs) (elements fs)) -> pe_replace e = ∅ ->
  (forall t f, FixUpCommit t f ∉ cs) -> build d e allowed cs = Done (BuiltPlan dest cmds) ->
  exists files todo, write_state false false head preserve dest cmds = Some (files, true) /\
    ("git-rebase-todo", todo) ∈ files /\ ("onto", oid_to_string dest) ∈ files /\
    List.map (split_on " ") (lines todo) = List.map instruction cmds.
Proof.
  intros d e allowed cs dest cmds head preserve W Sort Rep Nf HB.
  assert (F : Forall disk_ok cmds). { eapply build_disk; eauto. intros f [t H]. now apply Nf in H. }
  destruct (disk_ok_texts cmds F) as (ls & A & B & C).
  assert (E : existsb replaces_original cmds = false).
  { clear -F. induction F as [|x l Hx F IH]; [reflexivity|]. cbn. rewrite IH, orb_false_r. destruct x; try reflexivity. cbn in Hx. subst.
    cbn [replaces_original]. rewrite bool_decide_true by now left. reflexivity. }
  unfold write_state. cbn [orb]. rewrite E, A. eexists _, (unlines ls). split; [reflexivity|].
  split; [|split; [|now rewrite B]].
  - apply elem_of_app. right. cbn. now left.
  - apply elem_of_app. left. apply elem_of_app. right. apply elem_of_app. right. now left.
Qed.

(** A plan that squashes commits is found out only after files were written. *)
Theorem c60_half_written_refuted : exists d e allowed cs dest cmds head files,
  wf_graph (dag_graph d) /\ knows d e /\ plannable d e cs /\ pe_replace e = ∅ /\
  build d e allowed cs = Done (BuiltPlan dest cmds) /\
  write_state false false head false dest cmds = Some (files, false) /\ files <> [] /\
  forall todo, ("git-rebase-todo", todo) ∉ files.
Proof.
  assert (HB : exists dest cmds files, build (dag_of line 1%N) (env_of line) {[2; 3; 4]}%N [FixUpCommit 2 3]%N = Done (BuiltPlan dest cmds) /\
    write_state false false (mk_head None None) false dest cmds = Some (files, false) /\
    (bool_decide (files <> []) && forallb (fun f => negb (String.eqb (fst f) "git-rebase-todo")) files = true)%bool).
  { eexists _, _, _. split; [vm_compute; reflexivity|]. split; vm_compute; reflexivity. }
  destruct HB as (dest & cmds & files & HB & HW & H). apply andb_true_iff in H. destruct H as [H1 H2]. apply bool_decide_eq_true in H1.
  exists (dag_of line 1%N), (env_of line), {[2; 3; 4]}%N, [FixUpCommit 2 3]%N, dest, cmds, (mk_head None None), files.
  split; [exact line_wf|]. split; [apply env_knows, line_wf|]. split; [apply c28_example_fixup|]. split; [reflexivity|].
  split; [exact HB|]. split; [exact HW|]. split; [exact H1|]. intros todo Hin. rewrite forallb_forall in H2.
  apply elem_of_list_In in Hin. specialize (H2 _ Hin). cbn in H2. discriminate.
Qed.

Example c60_example : exists cmds files todo,
  build (dag_of line 1%N) (env_of line) {[2; 3; 4]}%N [MoveSubtree [5] 4]%N = Done (BuiltPlan 5%N cmds) /\
  write_state false false (mk_head (Some 4%N) (Some "refs/heads/foo")) false 5%N cmds = Some (files, true) /\
  ("git-rebase-todo", todo) ∈ files /\
  List.map (split_on " ") (lines todo) =
    [["reset"; "0000000000000000000000000000000000000005"]; ["pick"; "0000000000000000000000000000000000000004"];
     ["exec"; "git"; "branchless"; "hook-detect-empty-commit"; "0000000000000000000000000000000000000004"];
     ["exec"; "git"; "branchless"; "hook-register-extra-post-rewrite-hook"]].
Proof.
  eexists _, _, _. split; [vm_compute; reflexivity|]. split; [vm_compute; reflexivity|].
  split; [do 5 right; left|]. vm_compute. reflexivity.
Qed.

Print Assumptions c30_carried_out_partial.
Print Assumptions c30_one_place_partial.
Print Assumptions c30_subtrees.
Print Assumptions c30_runs_partial.
Print Assumptions c30_squashed_lost_refuted.
Print Assumptions c30_passed_over_refuted.
Print Assumptions c31_nothing_visible.
Print Assumptions c31_before_disk.
Print Assumptions c31_reported_partial.
Print Assumptions c32_branches.
Print Assumptions c32_halfway.
Print Assumptions c32_announced_refuted.
Print Assumptions c32_after_rebase.
Print Assumptions c32_head_partial.
Print Assumptions c61_marked.
Print Assumptions c61_halfway.
Print Assumptions c60_written_partial.
Print Assumptions c60_half_written_refuted.

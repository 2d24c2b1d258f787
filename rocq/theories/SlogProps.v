(** Property C69: what the smartlog shows. *)
From Verif Require Import Base TextModel EventLogModel EvolveModel DagModel DagSpec DagProofs NavModel
  SlogModel SlogSpec SlogProofs SlogPlaceProofs.

(** The smartlog is written for every graph, with merges or without. *)
Theorem c69_terminates : forall e main exact commits, slog_ok e main ->
  exists ls, smartlog e exact commits = Some ls.
Proof. exact smartlog_some. Qed.

(** Only commits to show have lines, and each line tells the truth about its commit. *)
Theorem c69_lines : forall e main exact commits vs ls o p b h,
  slog_ok e main -> displayed (sl_dag e) main exact commits vs -> smartlog e exact commits = Some ls ->
  Commit o p b h ∈ ls -> o ∈ vs /\ right_line e o (Commit o p b h).
Proof. intros e main exact commits vs ls o p b h OK D E. exact (output_lines e main exact commits vs ls OK D E o p b h). Qed.

(** Without merges above the main branch every commit to show has exactly one line.
    Missing: merges, see below. *)
Theorem c69_once_partial : forall e main exact commits vs ls,
  slog_ok e main -> displayed (sl_dag e) main exact commits vs -> smartlog e exact commits = Some ls ->
  no_merges (sl_dag e) vs ->
  NoDup (commits_in ls) /\ forall x, x ∈ commits_in ls <-> x ∈ vs.
Proof. exact output_once. Qed.

(** One line, and only one, is marked as HEAD. *)
Theorem c69_head_partial : forall e main exact commits vs ls h,
  slog_ok e main -> displayed (sl_dag e) main exact commits vs -> smartlog e exact commits = Some ls ->
  no_merges (sl_dag e) vs -> sl_head e = Some h -> h ∈ vs ->
  exists l1 p b l2, ls = l1 ++ Commit h p b true :: l2 /\ forall o p' b', Commit o p' b' true ∉ l1 ++ l2.
Proof. intros e main exact commits vs ls h OK D E. exact (output_head e main exact commits vs ls OK D E h). Qed.

(** Each commit is directly followed by all commits shown above it, and the numbers of
    commits left out are right.  Missing: merges, and commits without any part of the main
    branch below. *)
Theorem c69_place_partial : forall e main exact commits vs ls o,
  slog_ok e main -> displayed (sl_dag e) main exact commits vs -> smartlog e exact commits = Some ls ->
  no_merges (sl_dag e) vs -> on_main (sl_dag e) main exact commits vs -> o ∈ vs ->
  right_block e main vs ls o.
Proof. intros e main exact commits vs ls o OK D E NM OM. exact (output_blocks e main exact commits vs ls OK D E NM OM o). Qed.

(** The commits of the main branch are listed oldest first. *)
Theorem c69_main_partial : forall e main exact commits vs ls,
  slog_ok e main -> displayed (sl_dag e) main exact commits vs -> smartlog e exact commits = Some ls ->
  no_merges (sl_dag e) vs -> on_main (sl_dag e) main exact commits vs ->
  (forall x, x ∈ vs -> public (sl_dag e) x -> sl_found e x = true) ->
  (forall x y, x ∈ vs -> y ∈ vs -> public (sl_dag e) x -> public (sl_dag e) y ->
     ancestor (dag_graph (sl_dag e)) x y \/ ancestor (dag_graph (sl_dag e)) y x) ->
  forall l1 a l2 b l3, commits_in ls = l1 ++ a :: l2 ++ b :: l3 ->
    public (sl_dag e) a -> public (sl_dag e) b -> proper_ancestor (dag_graph (sl_dag e)) a b.
Proof. exact output_main. Qed.

(** ** A stack with a part left out *)

Definition demo : dag :=
  mk_dag [(1%N, []); (2%N, [1%N]); (3%N, [2%N]); (10%N, [2%N]); (11%N, [10%N]); (12%N, [11%N]); (13%N, [10%N]);
          (14%N, [13%N])]
    {[13%N]} {[3%N]} ∅ {[10%N; 11%N; 12%N; 13%N; 14%N]} {[10%N]}.
Definition demo_env : slog_env := plain_env demo (fun o => Z.of_N (100 - o)) (Some 13%N).
Definition demo_shown : commit_set := {[2%N; 3%N; 10%N; 12%N; 13%N]}.

Example c69_example :
  smartlog demo_env false {[10%N; 12%N]} =
  Some [Commit 2%N true false false;
        Commit 10%N false true false;
        Commit 13%N false false true; OmittedAfter 1;
        OmittedBefore 1; Commit 12%N false false false;
        Commit 3%N true false false].
Proof. vm_compute. reflexivity. Qed.

Lemma wf_demo : wf_graph (dag_graph demo).
Proof. repeat split; set_solver. Qed.
Example c69_example_hypotheses : slog_ok demo_env 3%N /\ displayed demo 3%N false {[10%N; 12%N]} demo_shown /\
  no_merges demo demo_shown /\ on_main demo 3%N false {[10%N; 12%N]} demo_shown /\
  (forall x, x ∈ demo_shown -> public demo x -> sl_found demo_env x = true) /\
  (forall x y, x ∈ demo_shown -> y ∈ demo_shown -> public demo x -> public demo y ->
     ancestor (dag_graph demo) x y \/ ancestor (dag_graph demo) y x) /\
  sl_head demo_env = Some 13%N /\ 13%N ∈ demo_shown.
Proof.
  assert (OK : slog_ok demo_env 3%N) by (apply plain_env_ok; [apply wf_demo|reflexivity]).
  assert (D : displayed demo 3%N false {[10%N; 12%N]} demo_shown).
  { destruct (displayed_exists demo_env 3%N false {[10%N; 12%N]} OK) as (vs & H).
    assert (E := shown_displayed demo_env 3%N false {[10%N; 12%N]} vs OK H).
    replace demo_shown with vs; [exact H|]. rewrite <- E. apply (bool_decide_unpack _). vm_compute. exact I. }
  split; [exact OK|]. split; [exact D|]. split; [|split; [|split; [|split; [|split]]]].
  - intros v o p p' _ _ _. cbn [demo dag_graph parents_of].
    repeat match goal with |- context [N.eqb ?a o] => destruct (N.eqb a o) end;
      intros X; inversion X; reflexivity.
  - split; [now left|]. intros x Hx. exists 1%N.
    split; [apply is_public_spec; [apply wf_demo|vm_compute; reflexivity]|].
    apply is_ancestor_spec; [apply wf_demo|]. unfold demo_shown in Hx.
    rewrite !elem_of_union, !elem_of_singleton in Hx.
    destruct Hx as [[[[->| ->]| ->]| ->]| ->]; vm_compute; reflexivity.
  - reflexivity.
  - intros x y Hx Hy Px Py. apply is_public_spec in Px, Py; try apply wf_demo. unfold demo_shown in Hx, Hy.
    rewrite !elem_of_union, !elem_of_singleton in Hx, Hy.
    assert (X : x = 2%N \/ x = 3%N).
    { destruct Hx as [[[[->| ->]| ->]| ->]| ->]; auto; vm_compute in Px; discriminate. }
    assert (Y : y = 2%N \/ y = 3%N).
    { destruct Hy as [[[[->| ->]| ->]| ->]| ->]; auto; vm_compute in Py; discriminate. }
    destruct X as [->| ->], Y as [->| ->];
      [left|left|right|left]; apply is_ancestor_spec; try apply wf_demo; vm_compute; reflexivity.
  - reflexivity.
  - unfold demo_shown. set_solver.
Qed.

(** ** With merges *)

(** With merges a commit may be missing, even HEAD, though it is to be shown.  Here the main
    branch (2) was merged into an older commit of it (1), and another commit (4) was made on
    top. *)
Theorem c69_lost_refuted : exists e main exact commits vs ls h,
  slog_ok e main /\ displayed (sl_dag e) main exact commits vs /\ smartlog e exact commits = Some ls /\
  sl_head e = Some h /\ h ∈ vs /\ h ∉ commits_in ls /\ ls = [Commit main true false false; MergeChild 3%N].
Proof.
  set (g := [(1%N, []); (2%N, [1%N]); (3%N, [1%N; 2%N]); (4%N, [3%N])] : graph).
  set (d := mk_dag g {[4%N]} {[2%N]} ∅ {[3%N; 4%N]} ∅).
  set (e := plain_env d (fun o => Z.of_N o) (Some 4%N)).
  assert (OK : slog_ok e 2%N) by (apply plain_env_ok; [repeat split; set_solver|reflexivity]).
  destruct (displayed_exists e 2%N false {[3%N; 4%N]} OK) as (vs & H).
  assert (E := shown_displayed e 2%N false {[3%N; 4%N]} vs OK H).
  exists e, 2%N, false, {[3%N; 4%N]}, vs, [Commit 2%N true false false; MergeChild 3%N], 4%N.
  split; [exact OK|]. split; [exact H|]. split; [vm_compute; reflexivity|]. split; [reflexivity|].
  split; [rewrite <- E; apply (bool_decide_unpack _); vm_compute; exact I|].
  split; [cbn; set_solver|reflexivity].
Qed.

(** A commit may be shown twice, with a number of commits left out that belongs to the other
    place.  Here 5 merges 2 and 4, and 4 is not shown. *)
Theorem c69_twice_refuted : exists e main exact commits vs ls,
  slog_ok e main /\ displayed (sl_dag e) main exact commits vs /\ smartlog e exact commits = Some ls /\
  on_main (sl_dag e) main exact commits vs /\ ~ NoDup (commits_in ls) /\
  ls = [Commit 1%N true false false;
        Commit 2%N false false false; OmittedBefore 1; Commit 5%N false false true;
        Commit 3%N false false false; OmittedBefore 1; Commit 5%N false false true].
Proof.
  set (g := [(1%N, []); (2%N, [1%N]); (3%N, [1%N]); (4%N, [3%N]); (5%N, [2%N; 4%N])] : graph).
  set (d := mk_dag g {[5%N]} {[1%N]} ∅ {[2%N; 3%N; 4%N; 5%N]} ∅).
  set (e := plain_env d (fun o => Z.of_N o) (Some 5%N)).
  assert (W : wf_graph g) by (repeat split; set_solver).
  assert (OK : slog_ok e 1%N) by (apply plain_env_ok; [exact W|reflexivity]).
  destruct (displayed_exists e 1%N false {[2%N; 3%N; 5%N]} OK) as (vs & H).
  assert (E := shown_displayed e 1%N false {[2%N; 3%N; 5%N]} vs OK H).
  exists e, 1%N, false, {[2%N; 3%N; 5%N]}, vs,
    [Commit 1%N true false false;
     Commit 2%N false false false; OmittedBefore 1; Commit 5%N false false true;
     Commit 3%N false false false; OmittedBefore 1; Commit 5%N false false true].
  split; [exact OK|]. split; [exact H|]. split; [vm_compute; reflexivity|]. split; [|split; [|reflexivity]].
  - split; [now left|]. intros x Hx. exists 1%N. split; [apply is_public_spec; [exact W|vm_compute; reflexivity]|].
    apply is_ancestor_spec; [exact W|].
    assert (V : vs = {[1%N; 2%N; 3%N; 5%N]}) by (rewrite <- E; apply (bool_decide_unpack _); vm_compute; exact I).
    rewrite V, !elem_of_union, !elem_of_singleton in Hx. destruct Hx as [[[->| ->]| ->]| ->]; vm_compute; reflexivity.
  - cbn. intros N. repeat (apply NoDup_cons in N; destruct N as [? N]). set_solver.
Qed.

(** A line of commits apart from the main branch falls into pieces when some of it is left
    out: 12 is not placed above 10, and is counted among the commits left out above 10. *)
Theorem c69_apart_refuted : exists e main exact commits vs ls o,
  slog_ok e main /\ displayed (sl_dag e) main exact commits vs /\ smartlog e exact commits = Some ls /\
  no_merges (sl_dag e) vs /\ o ∈ vs /\ ~ right_block e main vs ls o /\
  ls = [Commit 1%N true false false; Commit 10%N false false false; OmittedAfter 2; Commit 12%N false false true].
Proof.
  set (g := [(1%N, []); (10%N, []); (11%N, [10%N]); (12%N, [11%N])] : graph).
  set (d := mk_dag g {[12%N]} {[1%N]} ∅ {[10%N; 11%N; 12%N]} ∅).
  set (e := plain_env d (fun o => Z.of_N o) (Some 12%N)).
  assert (W : wf_graph g) by (repeat split; set_solver).
  assert (OK : slog_ok e 1%N) by (apply plain_env_ok; [exact W|reflexivity]).
  destruct (displayed_exists e 1%N false {[10%N; 12%N]} OK) as (vs & H).
  assert (E := shown_displayed e 1%N false {[10%N; 12%N]} vs OK H).
  assert (V : vs = {[1%N; 10%N; 12%N]}) by (rewrite <- E; apply (bool_decide_unpack _); vm_compute; exact I).
  exists e, 1%N, false, {[10%N; 12%N]}, vs,
    [Commit 1%N true false false; Commit 10%N false false false; OmittedAfter 2; Commit 12%N false false true], 12%N.
  split; [exact OK|]. split; [exact H|]. split; [vm_compute; reflexivity|]. split; [|split].
  - intros v o p p' _ _ _. cbn [d dag_graph parents_of g sl_dag e plain_env].
    repeat match goal with |- context [N.eqb ?a o] => destruct (N.eqb a o) end;
      intros X; inversion X; reflexivity.
  - rewrite V. set_solver.
  - split; [|reflexivity]. intros (l1 & bf & l & af & l2 & l3 & El & [[-> B]|(a & s & -> & _)] & _).
    + destruct B as [B|(a & A & P)].
      * apply is_public_spec in B; [|exact W]. vm_compute in B. discriminate.
      * destruct A as (Ha & _). apply parent_parents_of in P; [|exact W]. cbn in P.
        rewrite V in Ha. set_solver.
    + apply (f_equal (fun ls => existsb (fun l => match l with OmittedBefore _ => true | _ => false end) ls)) in El.
      rewrite !existsb_app in El. cbn in El. rewrite orb_true_r in El. discriminate.
Qed.

Print Assumptions c69_terminates.
Print Assumptions c69_lines.
Print Assumptions c69_once_partial.
Print Assumptions c69_head_partial.
Print Assumptions c69_place_partial.
Print Assumptions c69_main_partial.
Print Assumptions c69_lost_refuted.
Print Assumptions c69_twice_refuted.
Print Assumptions c69_apart_refuted.

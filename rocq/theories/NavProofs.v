(** Proofs about moving through commits. *)
From Coq Require Import Sorted.
From Verif Require Import Base StrModel TextModel EventLogModel EvolveModel DagModel DagSpec DagProofs
  DagCompProofs TrailerModel NavModel NavSpec.

(** ** Sorting *)

Lemma insert_by_perm cmp x l : insert_by cmp x l ≡ₚ x :: l.
Proof.
  induction l as [|y l IH]; cbn [insert_by]; [reflexivity|].
  destruct (cmp x y); [reflexivity..|]. rewrite IH. constructor.
Qed.
Lemma sort_by_perm cmp l : sort_by cmp l ≡ₚ l.
Proof.
  induction l as [|x l IH]; [reflexivity|]. change (insert_by cmp x (sort_by cmp l) ≡ₚ x :: l).
  rewrite insert_by_perm, IH. reflexivity.
Qed.

Lemma sort_by_sorted (R : oid -> oid -> Prop) cmp l :
  (forall x y, x ∈ l -> y ∈ l -> x <> y -> cmp x y = Gt -> R y x) ->
  (forall x y, x ∈ l -> y ∈ l -> x <> y -> cmp x y <> Gt -> R x y) ->
  (forall x y z, R x y -> R y z -> R x z) ->
  NoDup l -> StronglySorted R (sort_by cmp l).
Proof.
  intros G N T. induction l as [|a l IH]; intros D; [constructor|].
  apply NoDup_cons in D. destruct D as [Da D].
  assert (S : StronglySorted R (sort_by cmp l)).
  { apply IH; [intros x y Hx Hy; apply G; now apply elem_of_cons; right
              |intros x y Hx Hy; apply N; now apply elem_of_cons; right|exact D]. }
  clear IH. change (StronglySorted R (insert_by cmp a (sort_by cmp l))).
  assert (M : forall x, x ∈ sort_by cmp l -> x ∈ l) by (intros x; now rewrite sort_by_perm).
  revert S M. generalize (sort_by cmp l) as l'. induction l' as [|y l' IH]; intros S M; cbn [insert_by].
  - repeat constructor.
  - assert (Hy : y ∈ l) by (apply M; left). assert (a <> y) by (intros ->; contradiction).
    apply StronglySorted_inv in S. destruct S as [S F].
    destruct (cmp a y) eqn:E.
    1,2: constructor; [constructor; assumption|]; constructor;
      [apply N; [left|right; exact Hy|assumption|congruence]|];
      eapply Forall_impl; [exact F|]; intros z Hz; apply (T a y z); [|exact Hz];
      apply N; [left|right; exact Hy|assumption|congruence].
    constructor.
    + apply IH; [exact S|]. intros x Hx. apply M. now right.
    + apply Forall_forall. intros z Hz. rewrite insert_by_perm in Hz.
      apply elem_of_cons in Hz. destruct Hz as [->|Hz].
      * apply G; [left|right; exact Hy|assumption|exact E].
      * rewrite Forall_forall in F. now apply F.
Qed.

(** ** The places to go to *)

Lemma proper_child g a b : proper_ancestor g a b <-> exists c, parent g a c /\ ancestor g c b.
Proof.
  split.
  - intros H. destruct H as [x y H|x y z H H'].
    + exists y. split; [exact H|apply rtc_refl].
    + exists y. split; [exact H|now apply tc_rtc].
  - intros (c & H & H'). eapply tc_rtc_r; [apply tc_once; exact H|exact H'].
Qed.
Lemma proper_parent g a b : proper_ancestor g a b <-> exists p, ancestor g a p /\ parent g p b.
Proof.
  split.
  - intros H. induction H as [x y H|x y z H _ (p & A & B)].
    + exists x. split; [apply rtc_refl|exact H].
    + exists p. split; [eapply rtc_l; eassumption|exact B].
  - intros (p & H & H'). eapply tc_rtc_l; [exact H|apply tc_once; exact H'].
Qed.
Lemma ancestor_cases g a b : ancestor g a b -> a = b \/ proper_ancestor g a b.
Proof. intros H. destruct H as [|x y z H H']; [now left|]. right. apply proper_child. eauto. Qed.

Lemma branch_visible d b : b ∈ branch_commits d -> visible d b.
Proof. intros H. exists b. split; [unfold kept; tauto|apply rtc_refl]. Qed.

Lemma child_commits_spec d a b : wf_graph (dag_graph d) ->
  b ∈ child_commits d a <-> parent (dag_graph d) a b /\ visible d b.
Proof.
  intros W. unfold child_commits. rewrite filter_visible_spec by exact W. rewrite children_spec.
  split; intros [H V]; (split; [|exact V]).
  - destruct H as (p & Hp & H). apply elem_of_singleton in Hp. now subst.
  - exists a. split; [now apply elem_of_singleton|exact H].
Qed.
Lemma parent_commits_spec d a b : b ∈ parent_commits d a <-> parent (dag_graph d) b a.
Proof.
  unfold parent_commits. rewrite parents_spec. split.
  - intros (p & Hp & H). apply elem_of_singleton in Hp. now subst.
  - intros H. exists a. split; [now apply elem_of_singleton|exact H].
Qed.

(** Roots of the descendants of a set are its lowest elements. *)
Lemma roots_descendants g s b : wf_graph g ->
  b ∈ roots g (descendants g s) <-> b ∈ s /\ forall b', b' ∈ s -> ~ proper_ancestor g b' b.
Proof.
  intros W. rewrite roots_spec, descendants_spec by exact W. split.
  - intros [(a & Ha & H) N].
    assert (P : forall b', b' ∈ s -> ~ proper_ancestor g b' b).
    { intros b' Hb' Hp. apply proper_parent in Hp. destruct Hp as (p & A & B).
      apply (N p); [|exact B]. apply descendants_spec; [exact W|]. eauto. }
    split; [|exact P]. apply ancestor_cases in H. destruct H as [->|H]; [exact Ha|]. now apply P in H.
  - intros [Hb N]. split; [exists b; split; [exact Hb|apply rtc_refl]|].
    intros p Hp H. apply descendants_spec in Hp; [|exact W]. destruct Hp as (a & Ha & A).
    apply (N a Ha). apply proper_parent. eauto.
Qed.

Lemma above_spec d a b : wf_graph (dag_graph d) ->
  b ∈ branch_commits d ∩ descendants (dag_graph d) (child_commits d a) <-> branch_above d a b.
Proof.
  intros W. unfold branch_above. rewrite elem_of_intersection, descendants_spec by exact W.
  split; intros [B H]; (split; [exact B|]).
  - destruct H as (c & Hc & H). apply child_commits_spec in Hc; [|exact W]. apply proper_child.
    exists c. tauto.
  - apply proper_child in H. destruct H as (c & P & H). exists c. split; [|exact H].
    apply child_commits_spec; [exact W|]. split; [exact P|]. eapply visible_closed; [exact H|].
    now apply branch_visible.
Qed.
Lemma below_spec d a b : wf_graph (dag_graph d) ->
  b ∈ branch_commits d ∩ ancestors (dag_graph d) (parent_commits d a) <-> branch_below d a b.
Proof.
  intros W. unfold branch_below. rewrite elem_of_intersection, ancestors_spec by exact W.
  split; intros [B H]; (split; [exact B|]).
  - destruct H as (c & Hc & H). apply parent_commits_spec in Hc. apply proper_parent. eauto.
  - apply proper_parent in H. destruct H as (c & P & H). exists c. split; [|exact P].
    now apply parent_commits_spec.
Qed.

Lemma descendant_branches_spec d a b : wf_graph (dag_graph d) ->
  b ∈ descendant_branches d a <-> nearest_above d a b.
Proof.
  intros W. unfold descendant_branches. rewrite roots_descendants by exact W.
  unfold nearest_above. rewrite above_spec by exact W.
  split; intros [H N]; (split; [exact H|]); intros b' Hb'; apply N; now apply above_spec.
Qed.
Lemma ancestor_branches_spec d a b : wf_graph (dag_graph d) ->
  b ∈ ancestor_branches d a <-> nearest_below d a b.
Proof.
  intros W. unfold ancestor_branches. rewrite heads_ancestors_spec by exact W.
  unfold nearest_below. rewrite below_spec by exact W.
  split; intros [H N]; (split; [exact H|]); intros b' Hb'; apply N; now apply below_spec.
Qed.

Lemma proper_vertices g a b : wf_graph g -> proper_ancestor g a b -> a ∈ vertices g /\ b ∈ vertices g.
Proof.
  intros W H. split.
  - apply proper_child in H. destruct H as (c & P & _). now apply (parent_vertices g a c W) in P.
  - apply proper_parent in H. destruct H as (c & _ & P). now apply (parent_vertices g c b W) in P.
Qed.

Lemma sorted_spec e s b :
  b ∈ sorted_commit_set e s <-> b ∈ s /\ b ∈ vertices (dag_graph (nv_dag e)) /\ nv_found e b = true.
Proof.
  unfold sorted_commit_set. rewrite sort_by_perm, elem_of_list_In, filter_In, <- elem_of_list_In, dag_sort_mem.
  tauto.
Qed.
Lemma sorted_nodup e s : wf_graph (dag_graph (nv_dag e)) -> NoDup (sorted_commit_set e s).
Proof.
  intros W. unfold sorted_commit_set. rewrite sort_by_perm. apply nodup_filter. now apply dag_sort_nodup.
Qed.

Lemma can_step_proper e c dist a b : can_step e c dist a b ->
  match c with
  | Next => proper_ancestor (dag_graph (nv_dag e)) a b
  | Prev => proper_ancestor (dag_graph (nv_dag e)) b a
  end.
Proof.
  unfold can_step. destruct c, (by_branches dist); intros (_ & H & _).
  - exact (proj2 (proj1 H)).
  - apply tc_once. tauto.
  - exact (proj2 (proj1 H)).
  - apply tc_once. tauto.
Qed.

Lemma candidates_spec e c dist a b : wf_graph (dag_graph (nv_dag e)) ->
  b ∈ candidates e c dist a <-> can_step e c dist a b.
Proof.
  intros W. unfold candidates. rewrite sorted_spec.
  assert (V : forall x, public (nv_dag e) x <->
    x ∈ ancestors (dag_graph (nv_dag e)) (main_branch_commit (nv_dag e))).
  { intros x. rewrite <- (public_spec (nv_dag e) x W). reflexivity. }
  split.
  - intros (H & Hv & F). unfold can_step. split; [exact F|].
    destruct c, dist as [k []|[]]; cbn [by_branches all_the_way];
      rewrite ?elem_of_difference in H;
      rewrite ?descendant_branches_spec, ?ancestor_branches_spec, ?child_commits_spec, ?parent_commits_spec in H
        by exact W.
    all: try (split; [exact H|]; intros; congruence).
    all: destruct H as [H N]; split; [exact H|]; intros _ _; now rewrite V.
  - intros H. pose proof (can_step_proper _ _ _ _ _ H) as P. unfold can_step in H. destruct H as (F & H & N).
    split; [|split; [|exact F]].
    + destruct c, dist as [k []|[]]; cbn [by_branches all_the_way] in H, N;
      rewrite ?elem_of_difference;
      rewrite ?descendant_branches_spec, ?ancestor_branches_spec, ?child_commits_spec, ?parent_commits_spec
        by exact W.
      all: try exact H.
      all: split; [exact H|]; rewrite <- V; auto.
    + destruct c; apply proper_vertices in P; tauto.
Qed.
Lemma candidates_nodup e c dist a : wf_graph (dag_graph (nv_dag e)) -> NoDup (candidates e c dist a).
Proof. intros W. apply sorted_nodup. exact W. Qed.

Lemma candidates_nil e c dist a : wf_graph (dag_graph (nv_dag e)) ->
  candidates e c dist a = [] <-> stuck e c dist a.
Proof.
  intros W. split.
  - intros E b H. apply candidates_spec in H; [|exact W]. rewrite E in H. now apply elem_of_nil in H.
  - intros S. destruct (candidates e c dist a) as [|b l] eqn:E; [reflexivity|]. exfalso. apply (S b).
    apply candidates_spec; [exact W|]. rewrite E. left.
Qed.

(** Candidates are listed from the oldest to the newest. *)
Lemma older_trans e a b c : older e a b -> older e b c -> older e a c.
Proof. unfold older. lia. Qed.
Lemma older_total e a b : a <> b -> ~ older e b a -> older e a b.
Proof. unfold older. lia. Qed.

Lemma cmp_older e a b : wf_graph (dag_graph (nv_dag e)) -> a <> b ->
  (proper_ancestor (dag_graph (nv_dag e)) a b -> (nv_time e a < nv_time e b)%Z) ->
  (proper_ancestor (dag_graph (nv_dag e)) b a -> (nv_time e b < nv_time e a)%Z) ->
  commit_cmp (dag_graph (nv_dag e)) (nv_time e) a b = Gt <-> older e b a.
Proof.
  intros W Hne T1 T2. unfold commit_cmp, older.
  destruct (is_ancestor _ a b) eqn:E1.
  - apply is_ancestor_spec in E1; [|exact W]. apply ancestor_cases in E1. destruct E1 as [?|E1]; [done|].
    specialize (T1 E1). split; [discriminate|]. lia.
  - destruct (is_ancestor _ b a) eqn:E2.
    + apply is_ancestor_spec in E2; [|exact W]. apply ancestor_cases in E2. destruct E2 as [?|E2]; [congruence|].
      specialize (T2 E2). tauto.
    + destruct (Z.compare_spec (nv_time e a) (nv_time e b)) as [E|E|E].
      * rewrite N.compare_gt_iff. lia.
      * split; [discriminate|lia].
      * tauto.
Qed.

Lemma candidates_sorted e c dist a : wf_graph (dag_graph (nv_dag e)) -> times_fit e c dist ->
  StronglySorted (older e) (candidates e c dist a).
Proof.
  intros W T. pose proof (candidates_spec e c dist a) as C. unfold candidates, sorted_commit_set in *.
  set (l := List.filter _ _) in *.
  assert (M : forall x, x ∈ l -> can_step e c dist a x).
  { intros x Hx. apply C; [exact W|]. now rewrite sort_by_perm. }
  apply sort_by_sorted.
  - intros x y Hx Hy Hne E. apply cmp_older in E; [exact E|exact W|exact Hne| |];
      intros P; eapply T; try exact P; apply M; assumption.
  - intros x y Hx Hy Hne E. apply older_total; [exact Hne|]. intros O. apply E.
    apply cmp_older; [exact W|exact Hne| | |exact O]; intros P; eapply T; try exact P; apply M; assumption.
  - apply older_trans.
  - apply nodup_filter. now apply dag_sort_nodup.
Qed.

Lemma last_cons (x y : oid) l : List.last (x :: l) y = List.last l x.
Proof.
  revert x y. induction l as [|a l IH]; intros x y; [reflexivity|].
  change (List.last (a :: l) y = List.last (a :: l) x). now rewrite !IH.
Qed.
Lemma last_in (y : oid) l : List.last l y ∈ y :: l.
Proof.
  revert y. induction l as [|a l IH]; intros x; [left|]. right. rewrite last_cons. apply IH.
Qed.
Lemma last_newest (R : oid -> oid -> Prop) y l : StronglySorted R (y :: l) ->
  forall z, z ∈ y :: l -> z = List.last l y \/ R z (List.last l y).
Proof.
  revert y. induction l as [|x l IH]; intros y S z Hz.
  - apply elem_of_list_singleton in Hz. now left.
  - apply StronglySorted_inv in S. destruct S as [S F].
    rewrite last_cons. apply elem_of_cons in Hz. destruct Hz as [->|Hz]; [|now apply IH].
    right. rewrite Forall_forall in F. apply F. apply last_in.
Qed.

(** ** The loop *)

Definition chosen (e : nav_env) (c : command) (dist : distance) (t : option towards) : oid -> oid -> Prop :=
  match t with
  | Some Newest => newest_step e c dist
  | Some Oldest => oldest_step e c dist
  | Some Interactive => can_step e c dist
  | None => only_step e c dist
  end.

(** One turn of the loop, as cases. *)
Lemma step_cases e c dist a : wf_graph (dag_graph (nv_dag e)) ->
  match candidates e c dist a with
  | [] => stuck e c dist a
  | [x] => only_step e c dist a x
  | x :: y :: l =>
    (times_fit e c dist -> oldest_step e c dist a x /\ newest_step e c dist a (List.last l y)) /\
    can_step e c dist a x /\ can_step e c dist a (List.last l y) /\
    (forall n z, nth_error (x :: y :: l) n = Some z -> can_step e c dist a z)
  end.
Proof.
  intros W. pose proof (fun b => candidates_spec e c dist a b W) as C.
  pose proof (candidates_sorted e c dist a W) as S.
  destruct (candidates e c dist a) as [|x [|y l]] eqn:E.
  - intros b H. apply C in H. now apply elem_of_nil in H.
  - split; [apply C; left|]. intros b H. apply C in H. now apply elem_of_list_singleton in H.
  - assert (L : can_step e c dist a (List.last l y)).
    { apply C. right. apply last_in. }
    split; [|split; [|split]].
    + intros T. specialize (S T). split.
      * split; [apply C; left|]. intros b H. apply C in H. apply StronglySorted_inv in S.
        destruct S as [_ F]. apply elem_of_cons in H. destruct H as [->|H]; [now left|]. right.
        rewrite Forall_forall in F. now apply F.
      * split; [exact L|]. intros b H. apply C in H. rewrite <- (last_cons y x l).
        exact (last_newest _ x (y :: l) S b H).
    + apply C. left.
    + exact L.
    + intros n z H. apply C. apply elem_of_list_In. eapply nth_error_In. exact H.
Qed.

Lemma only_chosen e c dist t a b : only_step e c dist a b -> chosen e c dist t a b.
Proof.
  intros [H U]. destruct t as [[]|]; cbn [chosen].
  - split; [exact H|]. intros b' H'. left. now apply U.
  - split; [exact H|]. intros b' H'. left. now apply U.
  - exact H.
  - split; assumption.
Qed.

Lemma loop_moved fuel e c dist t : wf_graph (dag_graph (nv_dag e)) ->
  (t = Some Newest \/ t = Some Oldest -> times_fit e c dist) -> forall i o o' n,
  match dist with NumCommits k _ => (i <= k)%nat | AllTheWay _ => True end ->
  advance_loop fuel e c dist t i o = Moved o' n ->
  exists k, n = (i + k)%nat /\ nsteps (chosen e c dist t) k o o' /\ far_enough e c dist n o'.
Proof.
  intros W T. induction fuel as [|fuel IH]; intros i o o' n Hi; [discriminate|].
  cbn [advance_loop]. pose proof (step_cases e c dist o W) as SC.
  assert (GO : forall x, chosen e c dist t o x ->
    match dist with NumCommits k _ => (i < k)%nat | AllTheWay _ => True end ->
    advance_loop fuel e c dist t (S i) x = Moved o' n ->
    exists k, n = (i + k)%nat /\ nsteps (chosen e c dist t) k o o' /\ far_enough e c dist n o').
  { intros x Hx Hlt H. destruct (IH (S i) x o' n) as (k & -> & P & Fa); [|exact H|].
    - destruct dist; [lia|exact I].
    - exists (S k). split; [lia|]. split; [econstructor; eassumption|].
      replace (i + S k)%nat with (S i + k)%nat by lia. exact Fa. }
  destruct (match dist with
            | NumCommits amount _ => (i =? amount)%nat
            | AllTheWay _ => match candidates e c dist o with [] => true | _ => false end
            end) eqn:St.
  - intros [= <- <-]. exists 0%nat. split; [lia|]. split; [constructor|].
    destruct dist as [k b|b]; cbn [far_enough].
    + left. now apply Nat.eqb_eq in St.
    + apply candidates_nil; [exact W|]. destruct (candidates _ _ _ _); [reflexivity|discriminate].
  - assert (Lt : match dist with NumCommits k _ => (i < k)%nat | AllTheWay _ => True end).
    { destruct dist; [|exact I]. apply Nat.eqb_neq in St. lia. }
    destruct (candidates e c dist o) as [|x [|y l]] eqn:E.
    + destruct (Nat.eqb_spec i 0); [discriminate|]. intros [= <- <-].
      exists 0%nat. split; [lia|]. split; [constructor|].
      destruct dist as [k b|b]; cbn [far_enough]; [right; split; [lia|exact SC]|exact SC].
    + apply GO; [now apply only_chosen|exact Lt].
    + destruct SC as (SO & Cx & Cl & Cn). destruct t as [[]|]; [| | |discriminate].
      * apply GO; [|exact Lt]. cbn [chosen]. apply SO. apply T. now left.
      * apply GO; [|exact Lt]. cbn [chosen]. apply SO. apply T. now right.
      * destruct (nv_answer e i _) as [m|]; [|discriminate].
        destruct (nth_error _ m) as [z|] eqn:En; [|discriminate].
        apply GO; [|exact Lt]. exact (Cn m z En).
Qed.

(** The same without knowing about times. *)
Lemma loop_path fuel e c dist t : wf_graph (dag_graph (nv_dag e)) -> forall i o o' n,
  match dist with NumCommits k _ => (i <= k)%nat | AllTheWay _ => True end ->
  advance_loop fuel e c dist t i o = Moved o' n ->
  exists k, n = (i + k)%nat /\ nsteps (can_step e c dist) k o o' /\ far_enough e c dist n o'.
Proof.
  intros W. induction fuel as [|fuel IH]; intros i o o' n Hi; [discriminate|].
  cbn [advance_loop]. pose proof (step_cases e c dist o W) as SC.
  assert (GO : forall x, can_step e c dist o x ->
    match dist with NumCommits k _ => (i < k)%nat | AllTheWay _ => True end ->
    advance_loop fuel e c dist t (S i) x = Moved o' n ->
    exists k, n = (i + k)%nat /\ nsteps (can_step e c dist) k o o' /\ far_enough e c dist n o').
  { intros x Hx Hlt H. destruct (IH (S i) x o' n) as (k & -> & P & Fa); [|exact H|].
    - destruct dist; [lia|exact I].
    - exists (S k). split; [lia|]. split; [econstructor; eassumption|].
      replace (i + S k)%nat with (S i + k)%nat by lia. exact Fa. }
  destruct (match dist with
            | NumCommits amount _ => (i =? amount)%nat
            | AllTheWay _ => match candidates e c dist o with [] => true | _ => false end
            end) eqn:St.
  - intros [= <- <-]. exists 0%nat. split; [lia|]. split; [constructor|].
    destruct dist as [k b|b]; cbn [far_enough].
    + left. now apply Nat.eqb_eq in St.
    + apply candidates_nil; [exact W|]. destruct (candidates _ _ _ _); [reflexivity|discriminate].
  - assert (Lt : match dist with NumCommits k _ => (i < k)%nat | AllTheWay _ => True end).
    { destruct dist; [|exact I]. apply Nat.eqb_neq in St. lia. }
    destruct (candidates e c dist o) as [|x [|y l]] eqn:E.
    + destruct (Nat.eqb_spec i 0); [discriminate|]. intros [= <- <-].
      exists 0%nat. split; [lia|]. split; [constructor|].
      destruct dist as [k b|b]; cbn [far_enough]; [right; split; [lia|exact SC]|exact SC].
    + apply GO; [exact (proj1 SC)|exact Lt].
    + destruct SC as (SO & Cx & Cl & Cn). destruct t as [[]|]; [| | |discriminate].
      * apply GO; assumption.
      * apply GO; assumption.
      * destruct (nv_answer e i _) as [m|]; [|discriminate].
        destruct (nth_error _ m) as [z|] eqn:En; [|discriminate].
        apply GO; [|exact Lt]. exact (Cn m z En).
Qed.

Lemma loop_nomore fuel e c dist t : wf_graph (dag_graph (nv_dag e)) -> forall i o,
  advance_loop fuel e c dist t i o = NoMore ->
  i = 0%nat /\ stuck e c dist o /\ exists k b, dist = NumCommits k b /\ k <> 0%nat.
Proof.
  intros W. induction fuel as [|fuel IH]; intros i o; [discriminate|].
  cbn [advance_loop]. pose proof (step_cases e c dist o W) as SC.
  assert (GO : forall x (P : Prop), advance_loop fuel e c dist t (S i) x = NoMore -> P).
  { intros x P H. apply IH in H. destruct H. discriminate. }
  destruct (match dist with
            | NumCommits amount _ => (i =? amount)%nat
            | AllTheWay _ => match candidates e c dist o with [] => true | _ => false end
            end) eqn:St; [discriminate|].
  destruct (candidates e c dist o) as [|x [|y l]] eqn:E.
  - destruct (Nat.eqb_spec i 0) as [->|]; [|discriminate]. intros _. split; [reflexivity|]. split; [exact SC|].
    destruct dist as [k b|b]; [|discriminate]. exists k, b. split; [reflexivity|].
    intros ->. discriminate.
  - apply GO.
  - destruct t as [[]|]; [| | |discriminate]; try apply GO.
    destruct (nv_answer e i _) as [m|]; [|discriminate].
    destruct (nth_error _ m) as [z|] eqn:En; [|discriminate]. apply GO.
Qed.

Lemma loop_ambiguous fuel e c dist t : wf_graph (dag_graph (nv_dag e)) -> forall i o n l,
  advance_loop fuel e c dist t i o = Ambiguous n l ->
  t = None /\ exists k o', n = (i + k)%nat /\ nsteps (only_step e c dist) k o o' /\
    (forall b, b ∈ l <-> can_step e c dist o' b) /\ NoDup l /\ (2 <= length l)%nat.
Proof.
  intros W. induction fuel as [|fuel IH]; intros i o n l'; [discriminate|].
  cbn [advance_loop]. pose proof (step_cases e c dist o W) as SC.
  pose proof (fun b => candidates_spec e c dist o b W) as C.
  pose proof (candidates_nodup e c dist o W) as ND.
  destruct (match dist with
            | NumCommits amount _ => (i =? amount)%nat
            | AllTheWay _ => match candidates e c dist o with [] => true | _ => false end
            end) eqn:St; [discriminate|].
  destruct (candidates e c dist o) as [|x [|y l]] eqn:E.
  - destruct (Nat.eqb i 0); discriminate.
  - intros H. apply IH in H. destruct H as (Ht & k & o' & -> & P & R). split; [exact Ht|].
    exists (S k), o'. split; [lia|]. split; [econstructor; [exact SC|exact P]|exact R].
  - destruct t as [[]|].
    + intros H. apply IH in H. destruct H. discriminate.
    + intros H. apply IH in H. destruct H. discriminate.
    + destruct (nv_answer e i _) as [m|]; [|discriminate].
      destruct (nth_error _ m) as [z|] eqn:En; [|discriminate].
      intros H. apply IH in H. destruct H. discriminate.
    + intros [= <- <-]. split; [reflexivity|]. exists 0%nat, o. split; [lia|]. split; [constructor|].
      split; [exact C|]. split; [exact ND|]. cbn. lia.
Qed.

Lemma loop_cancelled fuel e c dist t : forall i o,
  advance_loop fuel e c dist t i o = Cancelled -> t = Some Interactive.
Proof.
  induction fuel as [|fuel IH]; intros i o; [discriminate|]. cbn [advance_loop].
  destruct (match dist with
            | NumCommits amount _ => (i =? amount)%nat
            | AllTheWay _ => match candidates e c dist o with [] => true | _ => false end
            end); [discriminate|].
  destruct (candidates e c dist o) as [|x [|y l]].
  - destruct (Nat.eqb i 0); discriminate.
  - apply IH.
  - destruct t as [[]|]; [apply IH|apply IH|reflexivity|discriminate].
Qed.

(** Every step changes the rank, so that the fuel suffices. *)
Definition room (e : nav_env) (c : command) (o : oid) : nat :=
  match c with
  | Next => length (dag_graph (nv_dag e)) - rank (dag_graph (nv_dag e)) o
  | Prev => rank (dag_graph (nv_dag e)) o
  end.
Lemma room_step e c dist a b : wf_graph (dag_graph (nv_dag e)) -> can_step e c dist a b ->
  (room e c b < room e c a)%nat.
Proof.
  intros W H. apply can_step_proper in H. destruct c; cbn [room];
    apply proper_ancestor_rank in H; try exact W; [|exact H].
  pose proof (rank_bound (dag_graph (nv_dag e)) b). lia.
Qed.
Lemma room_bound e c o : (room e c o <= length (dag_graph (nv_dag e)))%nat.
Proof. destruct c; cbn [room]; [lia|apply rank_bound]. Qed.

Lemma loop_fuel fuel e c dist t : wf_graph (dag_graph (nv_dag e)) -> forall i o,
  (room e c o < fuel)%nat -> advance_loop fuel e c dist t i o <> OutOfFuel.
Proof.
  intros W. induction fuel as [|fuel IH]; intros i o Hr; [lia|]. cbn [advance_loop].
  pose proof (step_cases e c dist o W) as SC.
  assert (GO : forall x, can_step e c dist o x -> advance_loop fuel e c dist t (S i) x <> OutOfFuel).
  { intros x Hx. apply IH. pose proof (room_step e c dist o x W Hx). lia. }
  destruct (match dist with
            | NumCommits amount _ => (i =? amount)%nat
            | AllTheWay _ => match candidates e c dist o with [] => true | _ => false end
            end); [discriminate|].
  destruct (candidates e c dist o) as [|x [|y l]].
  - destruct (Nat.eqb i 0); discriminate.
  - apply GO. exact (proj1 SC).
  - destruct SC as (_ & Cx & Cl & Cn). destruct t as [[]|]; [apply GO; assumption..| |discriminate].
    destruct (nv_answer e i _) as [m|]; [|discriminate].
    destruct (nth_error _ m) as [z|] eqn:En; [|discriminate]. apply GO. exact (Cn m z En).
Qed.

(** A path without choices is followed to its end. *)
Lemma loop_forced fuel e c dist t : wf_graph (dag_graph (nv_dag e)) -> forall k i o o',
  (k < fuel)%nat -> nsteps (only_step e c dist) k o o' ->
  match dist with NumCommits n _ => n = (i + k)%nat | AllTheWay _ => stuck e c dist o' end ->
  advance_loop fuel e c dist t i o = Moved o' (i + k).
Proof.
  intros W. induction fuel as [|fuel IH]; intros k i o o' Hf H D; [lia|].
  cbn [advance_loop]. pose proof (fun b => candidates_spec e c dist o b W) as C.
  pose proof (candidates_nodup e c dist o W) as ND.
  destruct k as [|k]; inversion H as [|? ? x ? H1 H2]; subst.
  - replace (match dist with
             | NumCommits amount _ => (i =? amount)%nat
             | AllTheWay _ => match candidates e c dist o' with [] => true | _ => false end
             end) with true; [f_equal; lia|].
    destruct dist as [n b|b].
    + symmetry. apply Nat.eqb_eq. lia.
    + apply candidates_nil in D; [|exact W]. rewrite D. reflexivity.
  - assert (E : candidates e c dist o = [x]).
    { destruct H1 as [H1 U]. destruct (candidates e c dist o) as [|y [|z l]] eqn:E.
      - apply C in H1. now apply elem_of_nil in H1.
      - f_equal. apply U. apply C. left.
      - exfalso. assert (y = x) by (apply U, C; left). assert (z = x) by (apply U, C; right; left). subst.
        apply NoDup_cons in ND. destruct ND as [ND _]. apply ND. left. }
    rewrite E.
    replace (match dist with
             | NumCommits amount _ => (i =? amount)%nat
             | AllTheWay _ => false
             end) with false.
    + rewrite (IH k (S i) x o'); [f_equal; lia|lia|exact H2|]. destruct dist; [lia|exact D].
    + destruct dist; [|reflexivity]. symmetry. apply Nat.eqb_neq. lia.
Qed.

Lemma path_room e c dist k o o' : wf_graph (dag_graph (nv_dag e)) ->
  nsteps (can_step e c dist) k o o' -> (k + room e c o' <= room e c o)%nat.
Proof.
  intros W H. induction H as [|k x y z H _ IH]; [lia|]. pose proof (room_step e c dist x y W H). lia.
Qed.
Lemma nsteps_impl (R R' : oid -> oid -> Prop) k x y :
  (forall a b, R a b -> R' a b) -> nsteps R k x y -> nsteps R' k x y.
Proof. intros I H. induction H; econstructor; eauto. Qed.

Lemma path_visible e c dist k o o' : nsteps (can_step e c dist) k o o' ->
  visible (nv_dag e) o -> visible (nv_dag e) o'.
Proof.
  intros H. induction H as [|k x y z H _ IH]; [auto|]. intros V. apply IH.
  pose proof (can_step_proper _ _ _ _ _ H) as P. destruct c.
  - unfold can_step in H. destruct H as (_ & H & _). destruct (by_branches dist).
    + apply branch_visible. exact (proj1 (proj1 H)).
    + exact (proj2 H).
  - eapply visible_closed; [|exact V]. now apply tc_rtc.
Qed.
Lemma path_ancestor e c dist k o o' : nsteps (can_step e c dist) k o o' ->
  match c with
  | Next => ancestor (dag_graph (nv_dag e)) o o'
  | Prev => ancestor (dag_graph (nv_dag e)) o' o
  end.
Proof.
  intros H. induction H as [x|k x y z H _ IH]; [destruct c; apply rtc_refl|].
  apply can_step_proper in H. destruct c.
  - eapply rtc_transitive; [apply tc_rtc; exact H|exact IH].
  - eapply rtc_transitive; [exact IH|apply tc_rtc; exact H].
Qed.

(** What stays the same while commits are tested in the working copy. *)
From Verif Require Import Base ModeModel TreeModel SnapModel SnapCmdModel TrapModel TrapSpec.

Section trap.
  Context (st : tree_store) (tree_of : oid -> tree) (touched : path -> Prop).

  Lemma tests_place os s s' : tests_run st tree_of touched os s s' -> ts_branch s = None ->
    ts_branch s' = None /\ ts_refs s' = ts_refs s /\ ts_rebase s' = ts_rebase s.
  Proof.
    intros H. induction H as [s|o os s s1 s2 s' (R1 & R2 & R3 & R4 & R5) (C1 & C2 & C3 & C4 & C5) _ IH|o os s s1 s' (R1 & R2 & R3 & R4 & R5) _ IH]; intros B.
    - auto.
    - rewrite B in R4. destruct IH as (I1 & I2 & I3); [congruence|]. repeat split; congruence.
    - rewrite B in R4. destruct IH as (I1 & I2 & I3); [congruence|]. repeat split; congruence.
  Qed.

  Lemma foreign_index t p k : foreign st t p -> index_of_tree st t p k = None.
  Proof. intros [E _]. unfold index_of_tree. rewrite E. by destruct k. Qed.

  Lemma reset_foreign t i d i' d' p : discarded st t i d i' d' -> foreign st t p -> ~ in_index i p -> d p <> WFolder ->
    d' p = d p /\ ~ in_index i' p.
  Proof.
    intros (D1 & _ & D3) F Ni Nf. split.
    - specialize (D1 p). destruct F as [E F]. rewrite E in D1. destruct D1 as [_ D1]. destruct (D1 Ni Nf) as [D|[(q & x & Q1 & Q2 & Q3 & Q4) _]]; [exact D|].
      rewrite (F q x Q1 Q2 Q3) in Q4. discriminate.
    - intros [k K]. apply K. rewrite D3. by apply foreign_index.
  Qed.

  Lemma tests_foreign os s s' p : tests_run st tree_of touched os s s' ->
    (forall o, o ∈ os -> foreign st (tree_of o) p) -> ~ touched p -> ~ in_index (ts_index s) p -> ts_disk s p <> WFolder ->
    ts_disk s' p = ts_disk s p /\ ~ in_index (ts_index s') p.
  Proof.
    intros H F Nt. induction H as [s|o os s s1 s2 s' (R1 & R2 & R3 & R4 & R5) (C1 & C2 & C3 & C4 & C5) _ IH|o os s s1 s' (R1 & R2 & R3 & R4 & R5) _ IH]; intros Ni Nf.
    - auto.
    - destruct (reset_foreign _ _ _ _ _ p R5 (F o ltac:(left)) Ni Nf) as [E1 N1]. destruct (C5 p Nt) as [E2 N2].
      destruct IH as [E3 N3]; [intros; apply F; by right| |congruence|split; [congruence|exact N3]].
      intros [k K]. apply N1. exists k. by rewrite <- N2.
    - destruct (reset_foreign _ _ _ _ _ p R5 (F o ltac:(left)) Ni Nf) as [E1 N1].
      destruct IH as [E3 N3]; [intros; apply F; by right|exact N1|congruence|split; [congruence|exact N3]].
  Qed.

  (** Nothing staged and nothing unstaged: every file of the tree is as in it. *)
  Lemma clean_file t s p x : ~ unstaged s -> ~ staged st t s -> entry_at st t p = Some x -> is_tree x = false -> ts_disk s p = node_of x.
  Proof.
    intros U S E T. destruct (decide (ts_disk s p = node_of x)) as [D|D]; [exact D|]. exfalso.
    assert (I : ts_index s p Stage0 = index_of_tree st t p Stage0).
    { destruct (decide (ts_index s p Stage0 = index_of_tree st t p Stage0)) as [I|I]; [exact I|]. destruct S. by exists p, Stage0. }
    apply U. exists p. right. right. right. rewrite I. unfold index_of_tree. rewrite E. destruct x as [o m]. rewrite T. exact D.
  Qed.
  Lemma clean_index t s p k : ~ staged st t s -> ts_index s p k = index_of_tree st t p k.
  Proof.
    intros S. destruct (decide (ts_index s p k = index_of_tree st t p k)) as [I|I]; [exact I|]. destruct S. by exists p, k.
  Qed.

  (** The trap was set. *)
  Lemma trap_set busy s s1 : set_abort_trap st tree_of busy s s1 true ->
    exists h, busy = false /\ ts_head s = Some h /\ ~ unstaged s /\ ~ staged st (tree_of h) s /\ s1 = detached s h.
  Proof.
    unfold set_abort_trap. destruct busy; [intros [_ [=]]|]. destruct (ts_head s) as [h|]; [|intros [_ [=]]].
    intros [(_ & _ & [=])|(U & -> & S)]. exists h. repeat split; [exact U|by apply S].
  Qed.
End trap.

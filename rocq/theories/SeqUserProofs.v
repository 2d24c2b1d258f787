(** Proofs about going on after conflicts. *)
From Verif Require Import Base TextModel EventLogModel DagModel StrModel HookModel PlanModel ExecModel ExecSpec SeqModel SeqUserModel SeqUserSpec.

Lemma named_add ee x st : named ee st -> named ee (snd (add_object ee x st)).
Proof.
  intros N o y. unfold add_object. cbn [snd]. destruct (st !! ee_hash ee x); [apply N|]. destruct (decide (ee_hash ee x = o)) as [<-|D].
  - rewrite lookup_insert. now intros [= <-].
  - rewrite lookup_insert_ne by exact D. apply N.
Qed.
Lemma note_store c s : gs_store (note_rewritten c s) = gs_store s.
Proof. unfold note_rewritten. now destruct (hs_head _). Qed.
Lemma make_store v orig ps t s : exists x, gs_store (make_commit v orig ps t s) = snd (add_object (ge_exec v) x (gs_store s)).
Proof. eexists. reflexivity. Qed.

(** Every instruction keeps the names right. *)
Lemma line_named v x s s' : named (ge_exec v) (gs_store s) -> seq_line v x s = Went s' -> named (ge_exec v) (gs_store s').
Proof.
  intros N. destruct x; cbn [seq_line].
  - destruct (hs_head _); [|discriminate]. now intros [= <-].
  - destruct (lookup_place _ _); [|discriminate]. now intros [= <-].
  - unfold seq_pick. destruct (hs_head _) as [h|]; [|discriminate]. destruct (gs_store s !! o); [|discriminate].
    destruct (_ || _)%bool; [discriminate|]. destruct (_ && _)%bool; [intros [= <-]; now rewrite note_store|].
    destruct (ee_pick _ _ _); try discriminate. intros [= <-]. rewrite note_store. now apply named_add.
  - unfold seq_merge. destruct (hs_head _) as [h|]; [|discriminate]. destruct (gs_store s !! o); [|discriminate].
    destruct (all_some _); [|discriminate]. destruct (_ && _)%bool; [intros [= <-]; now rewrite note_store|].
    destruct (ge_merge _ _ _); try discriminate; intros [= <-]; rewrite note_store; [now apply named_add|exact N].
  - discriminate.
  - now intros [= <-].
  - destruct (hook_drop_commit_if_empty _ _ _ _); [|discriminate]. now intros [= <-].
  - destruct (hook_skip_upstream_applied_commit _ _ _); [|discriminate]. now intros [= <-].
  - unfold seq_commit_tree. destruct (gs_store s !! r); [|discriminate]. destruct (all_some _); [|discriminate].
    intros [= <-]. now apply named_add.
Qed.

Lemma resolved_line tree v x s : (forall c, x <> TPick c) -> seq_line (resolved_as tree v) x s = seq_line v x s.
Proof. intros H. destruct x; try reflexivity. now destruct (H o). Qed.
Lemma user_words_resolved v noted ans tree ws s :
  (forall c h, ans c h = Resolved (tree c h)) -> leaves_something tree v -> named (ge_exec v) (gs_store s) ->
  user_words v noted ans ws s = seq_words (resolved_as tree v) ws s.
Proof.
  intros A L N. unfold user_words, seq_words. destruct (parse_todo ws) as [x|]; [|reflexivity].
  destruct x; try reflexivity. cbn [seq_line].
  unfold seq_pick. destruct (hs_head (gs_hooks s)) as [h|] eqn:Eh; [|reflexivity].
  destruct (gs_store s !! o) as [orig|] eqn:Eo; [|reflexivity].
  destruct (is_merge (ob_commit orig) || negb (bool_decide (is_Some (gs_store s !! h))))%bool eqn:G; [reflexivity|].
  cbn [resolved_as ge_reuse ge_exec ee_pick].
  destruct (ge_reuse v && bool_decide (commit_parents (ob_commit orig) = [h]))%bool; [reflexivity|].
  destruct (ee_pick (ge_exec v) o h) eqn:Ep; try reflexivity.
  apply orb_false_iff in G. destruct G as [_ G]. apply negb_false_iff, bool_decide_eq_true in G. destruct G as [x Ex].
  unfold seq_answer. rewrite Eh, Eo, Ex, A. pose proof (N _ _ Ex) as <-.
  destruct (N.eqb_spec (tree o (ee_hash (ge_exec v) x)) (commit_tree (ob_commit x))) as [E|_]; [|reflexivity].
  now destruct (L _ _ Ep).
Qed.
Lemma seq_words_named v ws s s' : named (ge_exec v) (gs_store s) -> seq_words v ws s = Went s' -> named (ge_exec v) (gs_store s').
Proof. intros N. unfold seq_words. destruct (parse_todo ws); [|discriminate]. now apply line_named. Qed.

Lemma run_user_resolved v noted ans tree todo s :
  (forall c h, ans c h = Resolved (tree c h)) -> leaves_something tree v -> named (ge_exec v) (gs_store s) ->
  run_user v noted ans todo s = run_todo (resolved_as tree v) todo s.
Proof.
  intros A L. unfold run_user, run_todo, run_words. generalize (List.map (split_on " ") (lines todo)) as wss. intros wss. revert s.
  induction wss as [|ws wss IH]; intros s N; [reflexivity|]. cbn [fold_left sbind]. rewrite (user_words_resolved v noted ans tree) by assumption.
  destruct (seq_words (resolved_as tree v) ws s) as [s'|s'|] eqn:E.
  - apply IH. apply (seq_words_named (resolved_as tree v) ws s s' N E).
  - clear. induction wss as [|w wss IH]; [reflexivity|exact IH].
  - clear. induction wss as [|w wss IH]; [reflexivity|exact IH].
Qed.

(** What a rebase is told about its surroundings does not depend on trees. *)
Lemma resolved_present tree d e v cs st : present d e (ge_exec v) cs st -> present d e (ge_exec (resolved_as tree v)) cs st.
Proof. intros [A B C D E]. constructor; auto. Qed.

(** What Git has done so far when it stops. *)
From Verif Require Import Base TextModel EventLogModel DagModel StrModel HookModel PlanModel ExecModel SeqModel SeqProofs DiskModel.
Local Open Scope string_scope.
Local Open Scope list_scope.

(** Commits are only added, and the log waits for the end. *)
Record waiting (st : store) (log : list event) (s : git_state) : Prop := {
  wt_store : st ⊆ gs_store s;
  wt_log : hs_log (gs_hooks s) = log;
  wt_rebase : hs_rebase (gs_hooks s) = true }.
Definition stage (x : seq_result) : option git_state := match x with Went s | Halted s => Some s | Wrong => None end.

Section With.
Context (v : git_env) (st : store) (log : list event).
Lemma waiting_hooks s h : waiting st log s -> hs_log h = hs_log (gs_hooks s) -> hs_rebase h = hs_rebase (gs_hooks s) -> waiting st log (with_hooks s h).
Proof. intros [A B C] E1 E2. constructor; [exact A|cbn; congruence..]. Qed.
Lemma waiting_note c s : waiting st log s -> waiting st log (note_rewritten c s).
Proof. intros W. unfold note_rewritten. destruct (hs_head _); [now apply waiting_hooks|exact W]. Qed.
Lemma waiting_move c s : waiting st log s -> waiting st log (move_head c s).
Proof. intros W. now apply waiting_hooks. Qed.
Lemma waiting_make orig ps t s : waiting st log s -> waiting st log (make_commit v orig ps t s).
Proof.
  intros [A B C]. pose proof (make_store v orig ps t s) as M. unfold make_commit in *.
  destruct (add_object _ _ _) as [n st'] eqn:E. cbn [gs_store] in M. constructor; cbn [gs_store gs_hooks]; [etrans; eauto|..];
    unfold hook_post_commit, at_commit; cbn; rewrite C; cbn; congruence.
Qed.
Lemma waiting_line x s s' : waiting st log s -> stage (seq_line v x s) = Some s' -> waiting st log s'.
Proof.
  intros W. destruct x as [l|t|c|c ts| | |c|c|c ts]; cbn [seq_line].
  - destruct (hs_head _); [|discriminate]. intros [= <-]. destruct W. now constructor.
  - destruct (lookup_place _ _); [|discriminate]. intros [= <-]. now apply waiting_move.
  - unfold seq_pick. destruct (hs_head _) as [h|]; [|discriminate]. destruct (gs_store s !! c) as [orig|]; [|discriminate].
    destruct (_ || _)%bool; [discriminate|]. destruct (_ && _)%bool; [intros [= <-]; now apply waiting_note, waiting_move|].
    destruct (ee_pick _ _ _); [|now intros [= <-]|discriminate]. intros [= <-]. now apply waiting_note, waiting_make.
  - unfold seq_merge. destruct (hs_head _) as [h|]; [|discriminate]. destruct (gs_store s !! c) as [orig|]; [|discriminate].
    destruct (all_some _) as [tips|]; [|discriminate]. destruct (_ && _)%bool; [intros [= <-]; now apply waiting_note, waiting_move|].
    destruct (ge_merge _ _ _); [|now intros [= <-]|]; intros [= <-]; [now apply waiting_note, waiting_make|now apply waiting_note].
  - now intros [= <-].
  - intros [= <-]. destruct W. now constructor.
  - unfold hook_drop_commit_if_empty. destruct (hs_head _) as [h|]; [|intros [= <-]; now apply waiting_hooks].
    destruct (find_object _ h) as [y|]; [|intros [= <-]; now apply waiting_hooks].
    destruct (negb _); [intros [= <-]; now apply waiting_hooks|].
    destruct (commit_parents y) as [|p [|]]; [intros [= <-]; now apply waiting_hooks| |intros [= <-]; now apply waiting_hooks].
    cbv zeta. destruct (add_rewritten_list_entries _ _ _); [|discriminate]. intros [= <-]. now apply waiting_hooks.
  - unfold hook_skip_upstream_applied_commit. cbv zeta.
    destruct (add_rewritten_list_entries _ _ _); [|discriminate]. intros [= <-]. now apply waiting_hooks.
  - unfold seq_commit_tree. destruct (gs_store s !! c); [|discriminate]. destruct (all_some _); [|discriminate].
    set (n := mk_object _ _ _ _). pose proof (add_object_sub (ge_exec v) n (gs_store s)) as Sub. revert Sub.
    generalize (snd (add_object (ge_exec v) n (gs_store s))). intros st' Sub [= <-]. destruct W as [A B C].
    constructor; cbn [gs_store gs_hooks]; auto. etrans; eauto.
Qed.
Lemma waiting_words wss s s' : waiting st log s -> stage (run_words v wss s) = Some s' -> waiting st log s'.
Proof.
  revert s. induction wss as [|ws wss IH]; intros s W; [now intros [= <-]|]. unfold run_words in *. cbn [fold_left sbind].
  assert (Halts : forall l g, fold_left (fun r ws => sbind r (seq_words v ws)) l (Halted g) = Halted g) by (induction l; auto).
  assert (Wrongs : forall l, fold_left (fun r ws => sbind r (seq_words v ws)) l Wrong = Wrong) by (induction l; auto).
  unfold seq_words at 2. destruct (parse_todo ws) as [x|]; [|rewrite Wrongs; discriminate].
  pose proof (waiting_line x s) as L. destruct (seq_line v x s) as [s1|s1|]; [|rewrite Halts|rewrite Wrongs; discriminate].
  - apply IH. now apply L.
  - cbn. intros [= <-]. now apply L.
Qed.
End With.

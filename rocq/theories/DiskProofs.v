(** An on-disk rebase and objects that are there already. *)
From stdpp Require Import sorting relations.
From Verif Require Import Base TextModel EventLogModel DagModel StrModel HookModel PlanModel PlanSpec ExecModel ExecSpec ExecProofs SeqModel SeqSpec DiskModel.
Local Open Scope string_scope.
Local Open Scope list_scope.
Local Arguments oid_to_string _ : simpl never.
Local Arguments oid_from_string _ : simpl never.

(** The parents of commits are there. *)
Definition whole (st : store) : Prop :=
  forall c x p, st !! c = Some x -> p ∈ commit_parents (ob_commit x) -> is_Some (st !! p).

(** The same, with more objects. *)
Definition more (extra : store) (s : git_state) : git_state :=
  mk_gs (gs_store s ∪ extra) (gs_labels s) (gs_name s) (gs_extra s) (gs_hooks s).
Definition more_res (extra : store) (x : seq_result) : seq_result :=
  match x with Went s => Went (more extra s) | Halted s => Halted (more extra s) | Wrong => Wrong end.

Section With.
Context (v : git_env) (extra : store) (Nm : faithful_names (ge_exec v)) (Ne : named (ge_exec v) extra).

Record sound (s : git_state) : Prop := {
  sd_named : named (ge_exec v) (gs_store s);
  sd_whole : whole (gs_store s);
  sd_head : forall h, hs_head (gs_hooks s) = Some h -> is_Some (gs_store s !! h) }.

Lemma union_found (st : store) o x : st !! o = Some x -> (st ∪ extra) !! o = Some x.
Proof. intros H. now apply lookup_union_Some_l. Qed.
Lemma union_is (st : store) o : is_Some (st !! o) -> is_Some ((st ∪ extra) !! o).
Proof. intros [x H]. exists x. now apply union_found. Qed.

Lemma add_more x st : named (ge_exec v) st ->
  add_object (ge_exec v) x (st ∪ extra) = (fst (add_object (ge_exec v) x st), snd (add_object (ge_exec v) x st) ∪ extra).
Proof.
  intros Ns. unfold add_object. cbn [fst snd]. set (n := ee_hash (ge_exec v) x). f_equal.
  destruct (st !! n) as [y|] eqn:E.
  - now rewrite (union_found _ _ _ E).
  - destruct ((st ∪ extra) !! n) as [y|] eqn:E2.
    + rewrite lookup_union_r in E2 by exact E. assert (y = x) as ->. { apply Nm. exact (Ne _ _ E2). }
      apply map_eq. intros i. destruct (decide (i = n)) as [->|Hi].
      * rewrite lookup_union_r by exact E. rewrite E2. symmetry. apply lookup_union_Some_l. apply lookup_insert.
      * destruct (st !! i) as [z|] eqn:Ei.
        -- rewrite (union_found _ _ _ Ei). symmetry. apply lookup_union_Some_l. rewrite lookup_insert_ne by congruence. exact Ei.
        -- rewrite !lookup_union_r; [reflexivity|rewrite lookup_insert_ne by congruence; exact Ei|exact Ei].
    + now rewrite insert_union_l.
Qed.

Lemma make_more orig ps t s : sound s -> make_commit v orig ps t (more extra s) = more extra (make_commit v orig ps t s).
Proof.
  intros S. unfold make_commit. cbn [more gs_store gs_labels gs_name gs_extra gs_hooks]. rewrite add_more by apply S.
  destruct (add_object (ge_exec v) _ (gs_store s)) as [n st]. reflexivity.
Qed.

Lemma stored_sound new s n st : sound s -> Forall (fun p => is_Some (gs_store s !! p)) (commit_parents (ob_commit new)) ->
  add_object (ge_exec v) new (gs_store s) = (n, st) -> named (ge_exec v) st /\ whole st /\ gs_store s ⊆ st.
Proof.
  intros S Hp E. pose proof (add_object_spec _ _ _ _ _ Nm (sd_named _ S) E) as (En & Hsub & Hn & Hx). split; [|split; [|exact Hsub]].
  - exact Hn.
  - intros c x p Hc Hin. destruct (gs_store s !! c) as [y|] eqn:Ec.
    + pose proof (lookup_weaken _ _ _ _ Ec Hsub) as Ec'. rewrite Hc in Ec'. injection Ec' as <-.
      destruct (sd_whole _ S c x p Ec Hin) as [z Hz]. exists z. eapply lookup_weaken; eauto.
    + unfold add_object in E. injection E as E1 E2.
      assert (c = n) as ->.
      { destruct (decide (c = n)) as [|D]; [assumption|]. subst st. destruct (gs_store s !! _) eqn:E3 in Hc; [congruence|].
        rewrite lookup_insert_ne in Hc by congruence. congruence. }
      rewrite Hx in Hc. injection Hc as <-. cbn in Hin. rewrite list.Forall_forall in Hp. destruct (Hp p Hin) as [z Hz].
      exists z. eapply lookup_weaken; eauto.
Qed.
Lemma make_sound orig ps t s : sound s -> Forall (fun p => is_Some (gs_store s !! p)) ps -> sound (make_commit v orig ps t s).
Proof.
  intros S Hp. unfold make_commit. destruct (add_object (ge_exec v) _ (gs_store s)) as [n st] eqn:E.
  pose proof (add_object_spec _ _ _ _ _ Nm (sd_named _ S) E) as (En & Hsub & Hn & Hx).
  pose proof (fun H => stored_sound _ s n st S H E) as St. destruct (St Hp) as (A & B & _). constructor; cbn [gs_store gs_hooks]; [exact A|exact B|].
  - intros h. unfold hook_post_commit, at_commit. cbn. destruct (hs_rebase _); cbn; intros [= <-]; eauto.
Qed.

Lemma note_more c s : note_rewritten c (more extra s) = more extra (note_rewritten c s).
Proof. unfold note_rewritten. cbn [more gs_hooks]. destruct (hs_head _); reflexivity. Qed.
Lemma note_sound c s : sound s -> sound (note_rewritten c s).
Proof.
  intros S. unfold note_rewritten. destruct (hs_head (gs_hooks s)) as [h|] eqn:E; [|exact S].
  constructor; cbn; [apply S..|]. intros h' [= <-]. now apply S.
Qed.
Lemma head_sound o s : sound s -> is_Some (gs_store s !! o) -> sound (move_head o s).
Proof. intros S H. constructor; cbn; [apply S..|]. now intros h [= <-]. Qed.

Lemma place_more s t o : lookup_place s t = Some o -> lookup_place (more extra s) t = Some o /\ is_Some (gs_store s !! o).
Proof.
  unfold lookup_place. cbn [more gs_store gs_labels]. destruct (match gs_labels s !! t with Some o => Some o | None => oid_from_string t end) as [o'|]; [|discriminate].
  destruct (decide (is_Some (gs_store s !! o'))) as [H|]; [|discriminate]. intros [= <-]. split; [|exact H].
  rewrite decide_True by now apply union_is. reflexivity.
Qed.
Lemma places_more s ts os : all_some (List.map (lookup_place s) ts) = Some os ->
  all_some (List.map (lookup_place (more extra s)) ts) = Some os /\ Forall (fun p => is_Some (gs_store s !! p)) os.
Proof.
  revert os. induction ts as [|t ts IH]; intros os; cbn [List.map all_some].
  - intros [= <-]. split; [reflexivity|constructor].
  - destruct (lookup_place s t) as [o|] eqn:E; [|discriminate]. apply place_more in E. destruct E as [-> Ho].
    destruct (all_some (List.map (lookup_place s) ts)) as [os'|]; [|discriminate]. intros [= <-].
    destruct (IH os' eq_refl) as [-> IH2]. split; [reflexivity|now constructor].
Qed.

Lemma parent_more s t o : parent_named s t = Some o -> parent_named (more extra s) t = Some o /\ is_Some (gs_store s !! o).
Proof.
  unfold parent_named. cbn [more gs_labels gs_store].
  assert (X : forall o', (if decide (is_Some (gs_store s !! o')) then Some o' else None) = Some o ->
    (if decide (is_Some ((gs_store s ∪ extra) !! o')) then Some o' else None) = Some o /\ is_Some (gs_store s !! o)).
  { intros o'. destruct (decide (is_Some (gs_store s !! o'))) as [H|]; [|discriminate]. intros [= <-].
    rewrite decide_True by now apply union_is. auto. }
  destruct (strip_prefix _ _) as [l|]; [destruct (gs_labels s !! l); [apply X|discriminate]|].
  destruct (oid_from_string t); [apply X|discriminate].
Qed.
Lemma parents_more s ts os : all_some (List.map (parent_named s) ts) = Some os ->
  all_some (List.map (parent_named (more extra s)) ts) = Some os /\ Forall (fun o => is_Some (gs_store s !! o)) os.
Proof.
  revert os. induction ts as [|t ts IH]; intros os; cbn [List.map all_some].
  - intros [= <-]. split; [reflexivity|constructor].
  - destruct (parent_named s t) as [o|] eqn:E; [|discriminate]. apply parent_more in E. destruct E as [-> Ho].
    destruct (all_some (List.map (parent_named s) ts)) as [os'|]; [|discriminate]. intros [= <-].
    destruct (IH os' eq_refl) as [-> IH2]. split; [reflexivity|now constructor].
Qed.

Lemma line_more x s r : sound s -> seq_line v x s = r -> r <> Wrong ->
  seq_line v x (more extra s) = more_res extra r /\ forall s', r = Went s' -> sound s'.
Proof.
  intros S <- Hr. destruct x as [l|t|c|c ts| | |c|c|c ts]; cbn [seq_line] in *.
  - cbn [more gs_hooks gs_store gs_labels gs_name gs_extra]. destruct (hs_head (gs_hooks s)) as [h|] eqn:E; [|congruence].
    split; [reflexivity|]. intros s' [= <-]. constructor; cbn; apply S.
  - destruct (lookup_place s t) as [o|] eqn:E; [|congruence]. apply place_more in E. destruct E as [-> Ho].
    split; [reflexivity|]. intros s' [= <-]. now apply head_sound.
  - unfold seq_pick in *. cbn [more gs_hooks gs_store]. destruct (hs_head (gs_hooks s)) as [h|] eqn:E; [|congruence].
    destruct (gs_store s !! c) as [orig|] eqn:Ec; [|congruence]. rewrite (union_found _ _ _ Ec).
    destruct (is_merge (ob_commit orig)); cbn [orb] in *; [congruence|].
    pose proof (sd_head _ S h E) as Hh. rewrite (bool_decide_true _ Hh) in *. rewrite (bool_decide_true _ (union_is _ _ Hh)). cbn [negb] in *.
    fold (more extra s). destruct (ge_reuse v && _)%bool.
    + split; [cbn [more_res]; now rewrite <- note_more|]. intros s' [= <-]. apply note_sound, head_sound; eauto.
    + destruct (ee_pick (ge_exec v) c h) as [t| |]; [|split; [reflexivity|discriminate]|congruence].
      split; [cbn [more_res]; now rewrite <- note_more, <- make_more|]. intros s' [= <-]. apply note_sound, make_sound; auto.
  - unfold seq_merge in *. destruct (hs_head (gs_hooks s)) as [h|] eqn:E; [|congruence].
    destruct (gs_store s !! c) as [orig|] eqn:Ec; [|congruence].
    destruct (all_some (List.map (lookup_place s) ts)) as [tips|] eqn:Et; [|congruence]. apply places_more in Et. destruct Et as [-> Ht].
    cbn [more gs_hooks gs_store]. rewrite E, (union_found _ _ _ Ec). fold (more extra s).
    pose proof (sd_head _ S h E) as Hh. destruct (ge_reuse v && _)%bool.
    + split; [cbn [more_res]; now rewrite <- note_more|]. intros s' [= <-]. apply note_sound, head_sound; eauto.
    + destruct (ge_merge v c (h :: tips)) as [t| |].
      * split; [cbn [more_res]; now rewrite <- note_more, <- make_more|]. intros s' [= <-]. apply note_sound, make_sound; auto.
      * split; [reflexivity|discriminate].
      * split; [cbn [more_res]; now rewrite <- note_more|]. intros s' [= <-]. now apply note_sound.
  - split; [reflexivity|discriminate].
  - split; [reflexivity|]. intros s' [= <-]. constructor; cbn; apply S.
  - cbn [more gs_hooks gs_store].
    assert (Same : hook_drop_commit_if_empty (ge_iter v) (find_object (gs_store s ∪ extra)) c (gs_hooks s) =
                   hook_drop_commit_if_empty (ge_iter v) (find_object (gs_store s)) c (gs_hooks s)).
    { unfold hook_drop_commit_if_empty. destruct (hs_head (gs_hooks s)) as [h|] eqn:E; [|reflexivity].
      destruct (sd_head _ S h E) as [y Hy]. unfold find_object at 1 3. rewrite Hy, (union_found _ _ _ Hy). cbn [option_map fmap option_fmap].
      replace (commit_is_empty (find_object (gs_store s ∪ extra)) (ob_commit y)) with (commit_is_empty (find_object (gs_store s)) (ob_commit y)); [reflexivity|].
      unfold commit_is_empty. destruct (commit_parents (ob_commit y)) as [|p [|]] eqn:Ep; try reflexivity.
      destruct (sd_whole _ S h y p Hy ltac:(rewrite Ep; left)) as [z Hz]. unfold find_object. now rewrite Hz, (union_found _ _ _ Hz). }
    rewrite Same. destruct (hook_drop_commit_if_empty (ge_iter v) (find_object (gs_store s)) c (gs_hooks s)) as [h'|] eqn:Ed; [|congruence].
    split; [reflexivity|]. intros s' [= <-]. constructor; cbn; [apply S..|]. intros h Hh. revert Ed. unfold hook_drop_commit_if_empty.
    destruct (hs_head (gs_hooks s)) as [g|] eqn:E; [|intros [= <-]; now apply S]. pose proof (sd_head _ S g E) as Hg.
    assert (Old : Some (gs_hooks s) = Some h' -> is_Some (gs_store s !! h)) by (intros [= <-]; now apply S).
    unfold find_object at 1. destruct (gs_store s !! g) as [y|] eqn:Eg; cbn [option_map fmap option_fmap]; [|exact Old].
    destruct (negb _); [exact Old|]. destruct (commit_parents (ob_commit y)) as [|p [|]] eqn:Ep; try exact Old.
    destruct (add_rewritten_list_entries _ _ _); [|discriminate]. intros [= <-]. cbn in Hh. injection Hh as <-.
    apply (sd_whole _ S g y p Eg). rewrite Ep. left.
  - cbn [more gs_hooks gs_store]. destruct (hook_skip_upstream_applied_commit _ _ _) as [h'|] eqn:Es; [|congruence].
    split; [reflexivity|]. intros s' [= <-]. constructor; cbn; [apply S..|]. intros h Hh. revert Es. unfold hook_skip_upstream_applied_commit.
    destruct (add_rewritten_list_entries _ _ _); [|discriminate]. intros [= <-]. cbn in Hh. now apply S.
  - unfold seq_commit_tree in *. destruct (gs_store s !! c) as [x|] eqn:Ec; [|congruence].
    destruct (all_some (List.map (parent_named s) ts)) as [ps|] eqn:Et; [|congruence]. apply parents_more in Et. destruct Et as [Et Hp].
    cbn [more gs_store]. fold (more extra s). rewrite (union_found _ _ _ Ec), Et, add_more by apply S.
    split; [reflexivity|]. intros s' [= <-]. set (n := mk_object _ _ _ _).
    destruct (add_object (ge_exec v) n (gs_store s)) as [o st] eqn:E. pose proof (stored_sound n s o st S Hp E) as (A & B & C).
    unfold add_object in E. injection E as _ E. constructor; cbn [gs_store gs_hooks]; rewrite ?E; [exact A|exact B|]. intros h Hh. destruct (sd_head _ S h Hh) as [y Hy]. exists y. eapply lookup_weaken; eauto.
Qed.

Lemma words_more wss s r : sound s -> run_words v wss s = r -> r <> Wrong -> run_words v wss (more extra s) = more_res extra r.
Proof.
  revert s. induction wss as [|ws wss IH]; intros s S <- Hr; [reflexivity|]. unfold run_words in *. cbn [fold_left sbind] in *.
  assert (Halts : forall l g, fold_left (fun r ws => sbind r (seq_words v ws)) l (Halted g) = Halted g) by (induction l; auto).
  assert (Wrongs : forall l, fold_left (fun r ws => sbind r (seq_words v ws)) l Wrong = Wrong) by (induction l; auto).
  unfold seq_words in *. destruct (parse_todo ws) as [x|]; [|now rewrite Wrongs in Hr].
  destruct (seq_line v x s) as [s'|s'|] eqn:E.
  - destruct (line_more x s _ S E ltac:(discriminate)) as [-> S']. cbn [more_res]. apply IH; eauto.
  - destruct (line_more x s _ S E ltac:(discriminate)) as [-> _]. cbn [more_res]. now rewrite !Halts.
  - now rewrite Wrongs in Hr.
Qed.
End With.

Lemma end_more v b groups head extra gs r r' log' ok : end_of_rebase v b groups head gs r = (r', log', ok) ->
  rp_store r' = gs_store gs /\
  forall st, end_of_rebase v b groups head (more extra gs) (with_store st r) = (with_store (gs_store gs ∪ extra) r', log', ok).
Proof.
  unfold end_of_rebase. cbn [more gs_hooks gs_name gs_extra gs_store with_store rp_refs rp_lines rp_rewrites rp_checkout].
  destruct (hs_rewritten (gs_hooks gs)) as [text|]; [|intros [= <- <- <-]; split; reflexivity].
  destruct (hook_post_rewrite _ _ _ _ _) as [h' k]. destruct (read_rewritten_list text) as [l|]; [|intros [= <- <- <-]; split; reflexivity].
  destruct (k && gs_extra gs)%bool; [|intros [= <- <- <-]; split; reflexivity].
  destruct (match hs_updated_head (gs_hooks gs) with Some t => option_map Some (oid_from_string t) | None => Some None end) as [sk|];
    [|intros [= <- <- <-]; split; reflexivity].
  destruct (mr_ok _); intros [= <- <- <-]; split; reflexivity.
Qed.

(** Objects which are there already make no difference to an on-disk rebase. *)
Lemma disk_more v b groups busy changed preserve dest cmds log r extra r' log' res :
  faithful_names (ge_exec v) -> named (ge_exec v) (rp_store r) -> named (ge_exec v) extra -> whole (rp_store r) ->
  (forall h, hi_oid (rp_head r) = Some h -> is_Some (rp_store r !! h)) ->
  disk_rebase v b groups busy changed preserve dest cmds log r = Some (r', log', res) ->
  disk_rebase v b groups busy changed preserve dest cmds log (with_store (rp_store r ∪ extra) r) =
    Some (with_store (rp_store r' ∪ extra) r', log', res).
Proof.
  intros Nm Ns Ne Wh Hd. unfold disk_rebase. change (rp_head (with_store (rp_store r ∪ extra) r)) with (rp_head r).
  destruct (write_state busy changed (rp_head r) preserve dest cmds) as [[files [|]]|]; [|intros [= <- <- <-]; reflexivity..].
  destruct (file_named "git-rebase-todo" files) as [todo|]; [|intros [= <- <- <-]; reflexivity].
  unfold run_todo. set (wss := List.map (split_on " ") (lines todo)).
  assert (S : sound v (disk_start log (rp_store r) (rp_head r))) by (constructor; auto).
  pose proof (words_more v extra Nm Ne wss _ _ S eq_refl) as M.
  change (disk_start log (rp_store (with_store (rp_store r ∪ extra) r)) (rp_head r)) with (more extra (disk_start log (rp_store r) (rp_head r))).
  destruct (run_words v wss (disk_start log (rp_store r) (rp_head r))) as [gs|gs|]; [| |discriminate]; rewrite (M ltac:(discriminate)); cbn [more_res].
  - destruct (end_of_rebase v b groups (rp_head r) gs r) as [[r1 log1] ok] eqn:Ee. intros [= <- <- <-].
    destruct (end_more v b groups (rp_head r) extra gs r r1 log1 ok Ee) as [<- ->]. reflexivity.
  - intros [= <- <- <-]. reflexivity.
Qed.

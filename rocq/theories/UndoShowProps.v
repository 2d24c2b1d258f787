(** C127: what [git undo] announces *)
From Verif Require Import Base TextModel TextProofs StrModel StrProofs EventLogModel EventLogSpec EvolveModel UndoModel NavModel UndoShowModel UndoShowSpec UndoShowProofs.
Local Open Scope string_scope.
Local Open Scope list_scope.

Lemma said_ok_same desc a b : telling desc -> names_ok a -> names_ok b -> describe_event desc a = describe_event desc b -> say a = say b.
Proof. intros T A B H. rewrite !say_words in H. apply (words_same desc); auto using say_ok. Qed.
Lemma announced_said desc i es1 es2 : telling desc -> Forall names_ok es1 -> Forall names_ok es2 ->
  describe_from desc i es1 = describe_from desc i es2 -> Forall2 (fun a b => say a = say b) es1 es2.
Proof.
  intros T F1 F2 H. apply numbered_same in H. induction H as [|a b es1 es2 Hab H IH]; [constructor|].
  apply Forall_cons in F1 as [A F1]. apply Forall_cons in F2 as [B F2]. constructor; [by apply (said_ok_same desc)|by apply IH].
Qed.

(** The announcement tells what will be done: if it is the same for two lists of events,
    then so are the commit checked out, all references, and the commits hidden and shown. *)
Theorem c127_announced : forall desc es1 es2, telling desc -> Forall names_ok es1 -> Forall names_ok es2 ->
  describe_events_numbered desc es1 = describe_events_numbered desc es2 ->
  fst (extract_checkout None es1) = fst (extract_checkout None es2) /\
  (forall w, w_refs (fold_left undo_step (snd (extract_checkout None es1)) w) =
             w_refs (fold_left undo_step (snd (extract_checkout None es2)) w)) /\
  Forall2 same_commits es1 es2.
Proof.
  intros desc es1 es2 T F1 F2 H. pose proof (announced_said _ _ _ _ T F1 F2 H) as S. split_and!.
  - exact (proj1 (said_all _ _ S None (mk_world ∅ []) (mk_world ∅ []) eq_refl)).
  - intros w. exact (proj2 (said_all _ _ S None w w eq_refl)).
  - eapply Forall2_impl; [exact S|]. apply said_commits.
Qed.

(** So for the command: whatever the log and the state gone back to, when the user has
    seen the same text and agrees, the same happens. *)
Theorem c127_command : forall desc r1 c1 now1 tx1 r2 c2 now2 tx2 since1 since2 w, telling desc ->
  events_since_cursor r1 c1 = Some since1 -> events_since_cursor r2 c2 = Some since2 ->
  Forall names_ok since1 -> Forall names_ok since2 ->
  describe_events_numbered desc (inverse_events now1 tx1 since1) = describe_events_numbered desc (inverse_events now2 tx2 since2) ->
  exists w1 w2 t, undo_events r1 c1 now1 tx1 true w = Some (w1, t) /\ undo_events r2 c2 now2 tx2 true w = Some (w2, t) /\
    w_refs w1 = w_refs w2.
Proof.
  intros desc r1 c1 now1 tx1 r2 c2 now2 tx2 since1 since2 w T E1 E2 F1 F2 H.
  assert (N : forall now tx l, Forall names_ok l -> Forall names_ok (inverse_events now tx l)).
  { intros now tx l F. unfold inverse_events. rewrite list.Forall_forall in F. apply list.Forall_forall. intros x Hx.
    apply elem_of_list_fmap in Hx as (y & -> & Hy). apply elem_of_list_In, filter_In in Hy as [Hy _].
    apply in_rev, elem_of_list_In in Hy. specialize (F y Hy). by destruct y. }
  destruct (c127_announced desc _ _ T (N now1 tx1 _ F1) (N now2 tx2 _ F2) H) as (A & B & C).
  assert (U : forall r c now tx since, events_since_cursor r c = Some since ->
    undo_events r c now tx true w =
      Some (fold_left undo_step (snd (extract_checkout None (inverse_events now tx since))) w, fst (extract_checkout None (inverse_events now tx since)))).
  { intros r c now tx since E. unfold undo_events. rewrite E. destruct (inverse_events now tx since) as [|e l]; [reflexivity|].
    by destruct (extract_checkout None (e :: l)). }
  eexists _, _, _. split; [apply (U _ _ _ _ _ E1)|]. split; [rewrite (U _ _ _ _ _ E2), A; reflexivity|]. apply B.
Qed.

(** Each event has its number, and there are as many numbers as events. *)
Theorem c127_numbers : forall desc es,
  (forall k e, es !! k = Some e -> exists first more, describe_event desc e = first :: more /\
     (isize_to_string (Z.of_nat k + 1) +:+ ". " +:+ first) ∈ describe_events_numbered desc es) /\
  length (List.filter (fun l => negb (String.prefix " " l)) (describe_events_numbered desc es)) = length es.
Proof.
  intros desc es. unfold describe_events_numbered.
  assert (G : forall i, (forall k e, es !! k = Some e -> exists first more, describe_event desc e = first :: more /\
     (isize_to_string (Z.of_nat k + i) +:+ ". " +:+ first) ∈ describe_from desc i es) /\
     length (List.filter (fun l => negb (String.prefix " " l)) (describe_from desc i es)) = length es); [|apply G].
  induction es as [|e es IH]; intros i; [split; [intros k e H; by rewrite lookup_nil in H|reflexivity]|].
  cbn [describe_from]. pose proof (described_some desc e) as N. destruct (describe_event desc e) as [|f m] eqn:D; [done|].
  specialize (IH (i + 1)%Z) as [IH1 IH2]. split.
  - intros [|k] x Hx; cbn in Hx.
    + injection Hx as <-. exists f, m. split; [done|]. cbn [app]. rewrite sapp_assoc. left.
    + destruct (IH1 k x Hx) as (f' & m' & D' & I). exists f', m'. split; [done|]. apply elem_of_app. right.
      by replace (Z.of_nat (S k) + i)%Z with (Z.of_nat k + (i + 1))%Z by lia.
  - rewrite List.filter_app, app_length, IH2. cbn [List.filter].
    assert (P : forall l, ~ blank l -> String.prefix " " l = false).
    { intros [|c l] B; [done|]. cbn [String.prefix]. destruct (ascii_dec " " c) as [<-|]; [|done]. destruct B. by eexists. }
    rewrite P by (rewrite sapp_assoc; apply number_not_blank). cbn [negb].
    assert (Z0 : forall l, List.filter (fun l => negb (String.prefix " " l)) (List.map (fun x => spaces (String.length (isize_to_string i +:+ ". ")) +:+ x) l) = []).
    { induction l as [|x l IHl]; [done|]. cbn [List.map List.filter]. destruct (spaces_blank (String.length (isize_to_string i +:+ ". ")) x (header_length i)) as [s ->].
      cbn [String.prefix negb]. by destruct s. }
    rewrite Z0. cbn [length]. lia.
Qed.

(** Unless asked not to ask, [git undo] does something only if the first line that it can
    read is [y] or [Y], but for white space. *)
Theorem c127_confirm : forall input, answer false input = true <-> exists s l, input = Some s /\ is_first_line l s /\ says_yes l.
Proof.
  intros [s|]; unfold answer; cbn [orb]; [|split; [done|by intros (? & ? & ? & _)]]. split.
  - intros H. exists s, (first_line s). split_and!; [done|apply first_line_is|].
    assert (Y : exists y, (y = "y"%char \/ y = "Y"%char) /\ trim (first_line s) = String y "").
    { apply orb_true_iff in H as [H|H]; apply String.eqb_eq in H; rewrite H; eauto. }
    destruct Y as (y & Iy & T). destruct (trim_start_split (first_line s)) as (a & Ea & Fa).
    destruct (trim_end_split (trim_start (first_line s))) as (b & Eb & Fb).
    unfold trim in T. rewrite T, sapp_cons, sapp_nil in Eb. rewrite Eb in Ea. by exists a, y, b.
  - intros (s' & l & E & F & a & y & b & -> & Y & A & B). injection E as <-. rewrite (first_line_only _ _ F).
    rewrite (trim_around a y b) by (try done; by destruct Y as [-> | ->]). by destruct Y as [-> | ->].
Qed.
Theorem c127_not_confirmed : forall r c now tx input w w' t,
  (forall s l, input = Some s -> is_first_line l s -> ~ says_yes l) ->
  undo_events r c now tx (answer false input) w = Some (w', t) -> w' = w /\ t = None.
Proof.
  intros r c now tx input w w' t N H. destruct (answer false input) eqn:A.
  - apply c127_confirm in A as (s & l & E & F & Y). by destruct (N s l E F).
  - unfold undo_events in H. destruct (events_since_cursor r c); [|done]. destruct (inverse_events now tx _); by injection H as <- <-.
Qed.

(** Not all that is recorded is told: hiding a commit because it was abandoned in a
    rewrite, as after undoing and redoing, is announced like hiding it by hand.  Afterwards
    the commit counts as rewritten to nothing in one case only, which matters to later
    commands such as [git restack]. *)
Theorem c127_rewritten_refuted : exists desc e1 e2 main log o, telling desc /\
  describe_events_numbered desc [e1] = describe_events_numbered desc [e2] /\
  let after e := replay main (log ++ [e]) in
  find_rewrite_target (after e1) (default_cursor (after e1)) o = Some None /\
  find_rewrite_target (after e2) (default_cursor (after e2)) o = Some (Some Zero).
Proof.
  exists number_desc, (ObsoleteEvent 3%Z (TxId 3%Z) 7%N), (RewriteEvent 3%Z (TxId 3%Z) (NonZero 7%N) Zero), "refs/heads/main", [CommitEvent 1%Z (TxId 1%Z) 7%N], 7%N.
  split; [exact number_desc_telling|]. split; [reflexivity|]. cbn zeta. split; vm_compute; reflexivity.
Qed.

(** ** Examples *)
Example c127_example :
  let es1 := [RefUpdateEvent 9%Z (TxId 9%Z) "refs/heads/topic" (NonZero 2%N) (NonZero 1%N) None;
              RefUpdateEvent 9%Z (TxId 9%Z) "HEAD" (NonZero 2%N) (NonZero 1%N) None; ObsoleteEvent 9%Z (TxId 9%Z) 2%N] in
  let es2 := [RefUpdateEvent 5%Z (TxId 5%Z) "refs/heads/topic" (NonZero 2%N) (NonZero 1%N) (Some "x");
              RefUpdateEvent 5%Z (TxId 5%Z) "HEAD" (NonZero 2%N) (NonZero 1%N) None; RewriteEvent 5%Z (TxId 5%Z) (NonZero 2%N) Zero] in
  telling number_desc /\ Forall names_ok es1 /\ Forall names_ok es2 /\
  describe_events_numbered number_desc es1 = describe_events_numbered number_desc es2 /\
  describe_events_numbered number_desc es1 =
    ["1. Move branch topic from #2"; "                       to #1"; "2. Check out from #2"; "               to #1"; "3. Hide commit #2"; "   "] /\
  fst (extract_checkout None es1) = Some (mk_target 1%N true None).
Proof.
  cbn zeta. split; [exact number_desc_telling|].
  split; [repeat (apply Forall_cons_2; [first [exact I|cbn [names_ok]; unfold name_ok; decide_it]|]); apply Forall_nil_2|].
  split; [repeat (apply Forall_cons_2; [first [exact I|cbn [names_ok]; unfold name_ok; decide_it]|]); apply Forall_nil_2|].
  split_and!; vm_compute; reflexivity.
Qed.

Example c127_command_example :
  let r := replay "refs/heads/main" [CommitEvent 1%Z (TxId 1%Z) 2%N;
             RefUpdateEvent 2%Z (TxId 2%Z) "refs/heads/topic" (NonZero 1%N) (NonZero 2%N) None;
             RefUpdateEvent 2%Z (TxId 2%Z) "HEAD" (NonZero 1%N) (NonZero 2%N) None] in
  exists since, events_since_cursor r 1%Z = Some since /\ length since = 2%nat /\ Forall names_ok since /\
    describe_events_numbered number_desc (inverse_events 9%Z (TxId 9%Z) since) =
      ["1. Check out from #2"; "               to #1"; "2. Move branch topic from #2"; "                       to #1"].
Proof.
  cbn zeta. eexists. split; [vm_compute; reflexivity|]. split; [reflexivity|]. split; [|vm_compute; reflexivity].
  repeat (apply Forall_cons_2; [first [exact I|cbn [names_ok]; unfold name_ok; decide_it]|]); apply Forall_nil_2.
Qed.

Example c127_confirm_example :
  answer false (Some (" y" +:+ String LF "n")) = true /\ answer false (Some (String LF "y")) = false /\ answer false (Some "yes") = false /\
  answer true None = true /\ is_first_line (" y" +:+ String LF "") (" y" +:+ String LF "n") /\ says_yes (" y" +:+ String LF "").
Proof.
  split_and!; try reflexivity.
  - exists "n". split_and!; [reflexivity| |by exists " y"]. intros [|a [|b [|c p]]] q H; try discriminate; [by injection H|].
    injection H as _ _ _ H. by destruct p.
  - exists " ", "y"%char, (String LF ""). split_and!; [reflexivity|by left| |]; repeat constructor.
Qed.

Print Assumptions c127_announced.
Print Assumptions c127_command.
Print Assumptions c127_numbers.
Print Assumptions c127_rewritten_refuted.
Print Assumptions c127_confirm.
Print Assumptions c127_not_confirmed.

(** C130: editing messages *)
From Verif Require Import Base StrModel StrProofs RewordModel EditorModel EditorSpec EditorProofs.
Local Open Scope string_scope.
Local Open Scope list_scope.

Lemma newlines_is n : only_newlines n <-> forall c, c ∈ list_ascii_of_string n -> is_newline c = true.
Proof.
  unfold only_newlines, is_newline. setoid_rewrite orb_true_iff. setoid_rewrite Ascii.eqb_eq. done.
Qed.

(** If the text is left as it was shown, but perhaps for a newline at the end, which many
    editors add, then nothing is reworded; whether or not the editor says that it failed. *)
Theorem c130_unchanged : forall w split run cc im commits,
  (im = Messages [] \/ exists template, im = Discard template) ->
  (forall cmd args shown, exists success n, run cmd args shown = Exited success (Some (shown +:+ n)) /\ only_newlines n) ->
  reword_with commits (prepare_with_editor w split run cc im commits) = None.
Proof.
  intros w split run cc im commits I R. unfold prepare_with_editor, prepare_messages.
  set (ed := fun shown => match edit_message w split run shown with Edited s => Some s | _ => None end).
  assert (G : reword_with commits (shown ← initial_text cc im commits; edited ← ed shown; Some (finish_editing cc commits shown edited)) = None).
  { destruct (initial_text cc im commits) as [shown|] eqn:T; [|done]. cbn [mbind option_bind].
    assert (E : ed shown = None \/ ed shown = Some shown).
    { subst ed. cbn beta. unfold edit_message.
      assert (X : forall p, match edit split run p shown with Edited s => Some s | _ => None end = None \/
                       match edit split run p shown with Edited s => Some s | _ => None end = Some shown).
      { intros p. unfold edit. destruct (initial_dot _ _ _ _ T) as [q Q].
        assert (Y : forall cmd args, exists ok s, run cmd args shown = Exited ok (Some s) /\ trim_newlines s = shown).
        { intros cmd args. destruct (R cmd args shown) as (ok & n & E & N). exists ok, (shown +:+ n). split; [done|].
          rewrite Q, sapp_assoc. apply trim_newlines_dot. by apply newlines_is. }
        destruct (split p) as [[|cmd args]|]; [by left| |].
        - destruct (Y cmd args) as (ok & s & -> & ->). by right.
        - destruct (Y p []) as (ok & s & -> & ->). by right. }
      destruct (get_editor w) as [p|]; [destruct (String.eqb p ":"); [by right|apply X]|apply X]. }
    destruct E as [-> | ->]; cbn [mbind option_bind]; [done|]. by rewrite finish_same. }
  destruct I as [->|[template ->]]; cbn [negb]; exact G.
Qed.

(** What was left in the file is what is read, without newlines at the end. *)
Theorem c130_text : forall w split run message e cmd args success s,
  chosen w e -> e <> ":" -> split e = Some (cmd :: args) -> run cmd args message = Exited success (Some s) ->
  exists t n, edit_message w split run message = Edited t /\ s = t +:+ n /\ only_newlines n /\
    (forall p c, t = p +:+ String c "" -> ~ only_newlines (String c "")).
Proof.
  intros w split run message e cmd args success s C N S R.
  assert (E : edit_message w split run message = edit split run e message).
  { destruct w as [g e1 e2 e3 e4]. unfold edit_message, get_editor, get_default_editor. unfold chosen in C.
    cbn [git_var env_git_editor core_editor env_visual env_editor] in *. destruct g as [out|].
    - subst e. by destruct (String.eqb_spec (trim_end out) ":").
    - inversion C as [? ? H|? ? C1 H]; subst; [by destruct (String.eqb_spec e ":")|]. clear C.
      inversion C1 as [? ? H|? ? C2 H]; subst; [by destruct (String.eqb_spec e ":")|]. clear C1.
      inversion C2 as [? ? H|? ? C3 H]; subst; [done|]. clear C2.
      inversion C3 as [? ? H|? ? C4 H]; subst; [done|]. clear C3. by inversion C4. }
  rewrite E. unfold edit. rewrite S, R. destruct (trim_newlines_spec s) as (n & En & Nn & L).
  exists (trim_newlines s), n. split_and!; [done|done|by apply newlines_is|]. intros p c H O. apply (L p c) in H.
  rewrite newlines_is in O. rewrite (O c) in H; [done|left].
Qed.

(** As in Git, the editor [:] is not run and leaves the text as it is. *)
Theorem c130_colon : forall w split run message, get_editor w = Some ":" -> edit_message w split run message = Edited message.
Proof. intros w split run message H. unfold edit_message. by rewrite H. Qed.

(** Unlike in Git, an editor that fails does not end the command: what it left in the file
    is used. *)
Theorem c130_failed_refuted : exists w split run cc commits o m,
  (forall cmd args shown, exists file, run cmd args shown = Exited false file) /\
  reword_with commits (prepare_with_editor w split run cc (Messages []) commits) = Some (Some [(o, m)]).
Proof.
  exists (mk_sur (Some "vim") None None None None), (fun s => Some [s]), (fun _ _ _ => Exited false (Some "half a mess")), "#"%char,
    [RCommit 7%N "7" (Some "old")], 7%N, ("half a mess" +:+ LFs).
  split; [by eexists|]. vm_compute. reflexivity.
Qed.

(** Where the editor is set to nothing, the command panics. *)
Theorem c130_empty_refuted : exists w, env_git_editor w = Some "" /\ forall split run message, split "" = Some [] ->
  edit_message w split run message = EditPanic.
Proof.
  exists (mk_sur (Some LFs) (Some "") None None None). split; [done|]. intros split run message H. unfold edit_message.
  change (get_editor _) with (Some ""). cbn [String.eqb]. unfold edit. by rewrite H.
Qed.

(** ** Examples *)
Example c130_example :
  let w := mk_sur None None (Some "vim -f") None (Some "nano") in
  let split := fun s => Some (split_on " " s) in
  let run := fun cmd (args : list string) shown => Exited true (Some (shown +:+ LFs)) in
  chosen w "vim -f" /\ split "vim -f" = Some ["vim"; "-f"] /\
  (forall cmd args shown, exists success n, run cmd args shown = Exited success (Some (shown +:+ n)) /\ only_newlines n) /\
  edit_message w split run "text" = Edited "text" /\
  prepare_with_editor w split run "#" (Messages []) [RCommit 7%N "7" (Some "old")] = Some IdenticalMessage.
Proof.
  cbn zeta. split_and!.
  - apply first_later, first_here.
  - reflexivity.
  - intros cmd args shown. exists true, LFs. split; [done|]. intros c H. left. cbn in H. by apply elem_of_list_singleton in H.
  - reflexivity.
  - vm_compute. reflexivity.
Qed.

Print Assumptions c130_unchanged.
Print Assumptions c130_text.
Print Assumptions c130_colon.
Print Assumptions c130_failed_refuted.
Print Assumptions c130_empty_refuted.

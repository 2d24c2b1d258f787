(** C47: rewording several commits at once. *)
From Verif Require Import Base StrModel StrProofs RewordModel RewordSpec RewordProofs RewordTextProofs.
Local Open Scope string_scope.
Local Open Scope list_scope.

(** The editor is opened on the text shown and left with the text edited. *)
Definition edits (cc : ascii) (im : initial_messages) (commits : list rcommit) (editor : string -> option string)
    (shown edited : string) : Prop :=
  match im with Discard _ => True | Messages l => trim (join (LFs +:+ LFs) l) = "" end /\
  initial_text cc im commits = Some shown /\ editor shown = Some edited.

Lemma prepare_edits cc im commits editor shown edited :
  edits cc im commits editor shown edited ->
  prepare_messages cc im commits editor = Some (finish_editing cc commits shown edited).
Proof.
  intros (H & Es & Ee). unfold prepare_messages. destruct im as [t|l].
  - cbn [negb]. rewrite Es. cbn. by rewrite Ee.
  - rewrite H. cbn [String.eqb negb]. rewrite Es. cbn. by rewrite Ee.
Qed.

(** ** What is accepted *)

(** An edited text is accepted exactly if its sections name every commit once and
    nothing else; each commit then gets the text of its section. *)
Theorem c47_accept cc im commits editor shown edited messages ps l :
  proper_commits commits -> (2 <= length commits)%nat ->
  edits cc im commits editor shown edited ->
  marked (message_prettify edited (Some cc)) ps -> sections ps l ->
  prepare_messages cc im commits editor = Some (Prepared messages) <->
  edited <> shown /\ message_prettify edited (Some cc) <> "" /\
  names l ≡ₚ List.map rc_short commits /\
  (forall o m, messages !! o = Some m <->
     exists c b, c ∈ commits /\ rc_oid c = o /\ (rc_short c, b) ∈ l /\ m = message_prettify b (Some cc)).
Proof.
  intros PC Len H Hp Hs. rewrite (prepare_edits _ _ _ _ _ _ H).
  rewrite <- prettify_blank. rewrite <- (finish_prepared cc commits shown edited messages ps l PC); [|by destruct commits as [|? [|? ?]]; cbn in Len; [lia|lia|]|done].
  split; congruence.
Qed.

(** The pieces and sections of a text are determined. *)
Theorem c47_sections (text : string) :
  exists ps l, marked text ps /\ sections ps l /\
  forall ps' l', marked text ps' -> sections ps' l' -> ps' = ps /\ l' = l.
Proof.
  exists (split_str MARK text), (secs_of (split_str MARK text)).
  split_and!; [by apply marked_iff|by apply sections_iff|].
  intros ps' l' H1 H2. apply marked_iff in H1. subst ps'. apply sections_iff in H2. done.
Qed.

(** All commits are reworded, or none. *)
Theorem c47_all_or_none cc im commits editor shown edited ps l :
  proper_commits commits -> (2 <= length commits)%nat ->
  edits cc im commits editor shown edited ->
  marked (message_prettify edited (Some cc)) ps -> sections ps l ->
  (~ names l ≡ₚ List.map rc_short commits -> reword_with commits (prepare_messages cc im commits editor) = None) /\
  (forall r, reword_with commits (prepare_messages cc im commits editor) = Some r ->
     exists texts, r = Some texts /\ List.map fst texts = List.map rc_oid commits /\
     forall c m, c ∈ commits -> (rc_oid c, m) ∈ texts ->
       exists b, (rc_short c, b) ∈ l /\ m = message_prettify b (Some cc)).
Proof.
  intros PC Len H Hp Hs. split.
  - intros N. destruct (prepare_messages cc im commits editor) as [[| | |messages]|] eqn:E; try done.
    exfalso. apply N. apply (c47_accept cc im commits editor shown edited messages ps l) in E; tauto.
  - intros r. destruct (prepare_messages cc im commits editor) as [[| | |messages]|] eqn:E; try discriminate.
    apply (c47_accept cc im commits editor shown edited messages ps l) in E; [|done..].
    destruct E as (_ & _ & P & M). rewrite reword_no_panic.
    + intros [= <-]. eexists. split_and!; [reflexivity| |].
      * by rewrite List.map_map.
      * intros c m Hc Hin. apply elem_of_list_In, List.in_map_iff in Hin. destruct Hin as (c' & [= Eo <-] & Hc').
        apply elem_of_list_In in Hc'. destruct PC as (ND & _ & _). assert (c = c') as <-.
        { clear -ND Hc Hc' Eo. induction commits as [|d ds IH]; [by apply elem_of_nil in Hc|].
          cbn [List.map] in ND. apply NoDup_cons in ND. destruct ND as [N ND]. apply elem_of_cons in Hc, Hc'.
          destruct Hc as [-> |Hc], Hc' as [-> |Hc']; [done| | |auto].
          - exfalso. apply N. rewrite <- Eo. apply elem_of_list_In, List.in_map, elem_of_list_In. exact Hc'.
          - exfalso. apply N. rewrite Eo. apply elem_of_list_In, List.in_map, elem_of_list_In. exact Hc. }
        assert (Hn : rc_short c ∈ names l).
        { rewrite P. apply elem_of_list_In, List.in_map, elem_of_list_In, Hc. }
        apply elem_of_list_In, List.in_map_iff in Hn. destruct Hn as ([h b] & E & Hn). cbn in E. subst h.
        apply elem_of_list_In in Hn.
        assert (Hm : messages !! rc_oid c = Some (message_prettify b (Some cc))) by (apply M; eauto 10).
        rewrite Hm. cbn. exists b. done.
    + intros c Hc. assert (Hn : rc_short c ∈ names l).
      { rewrite P. apply elem_of_list_In, List.in_map, elem_of_list_In, Hc. }
      apply elem_of_list_In, List.in_map_iff in Hn. destruct Hn as ([h b] & E & Hn). cbn in E. subst h.
      apply elem_of_list_In in Hn. exists (message_prettify b (Some cc)). apply M. eauto 10.
Qed.

(** ** Reading back what is shown *)

(** The text shown has a section for each commit. *)
Theorem c47_shown cc im commits messages :
  (2 <= length commits)%nat -> List.map rc_message commits = List.map Some messages ->
  initial_text cc im commits =
  Some (bulk_text (zip commits (List.map (original_text cc im) messages)) (footer cc (length commits))).
Proof. apply initial_text_bulk. Qed.

(** If only the texts below the marks are edited, to texts without the mark, each
    commit gets its text, cleaned up. *)
Theorem c47_read_back cc im commits editor shown pairs :
  cc <> "+"%char -> cc <> LF -> proper_commits commits -> (2 <= length commits)%nat ->
  List.map fst pairs = commits ->
  (forall c m, (c, m) ∈ pairs -> forall line, line ∈ split_on LF m ->
     is_comment (Some cc) line = true \/ ~ occurs "++ reword" line) ->
  edits cc im commits editor shown (bulk_text pairs (footer cc (length commits))) ->
  bulk_text pairs (footer cc (length commits)) <> shown ->
  exists messages, prepare_messages cc im commits editor = Some (Prepared messages) /\
    forall c m, (c, m) ∈ pairs -> messages !! rc_oid c = Some (message_prettify m (Some cc)).
Proof.
  intros N1 N2 PC Len E Hm H Ns. rewrite (prepare_edits _ _ _ _ _ _ H).
  rewrite bulk_read_back; try done.
  - eexists. split; [reflexivity|]. intros c m Hin. apply elem_of_list_to_map_1.
    + change (NoDup (List.map fst (List.map (fun p : rcommit * string => (rc_oid (fst p), message_prettify (snd p) (Some cc))) pairs))).
      rewrite List.map_map. cbn [fst]. rewrite <- List.map_map with (f := fst) (g := rc_oid), E. by destruct PC.
    + apply elem_of_list_In, List.in_map_iff. exists (c, m). split; [done|]. by apply elem_of_list_In.
  - intros [c m] Hp l Hl Hc. destruct (Hm c m Hp l Hl) as [?|?]; [congruence|done].
  - intros l Hl. left. by eapply footer_comments.
Qed.

(** A single commit gets the text, cleaned up. *)
Theorem c47_single cc im c editor shown edited :
  proper_commits [c] -> edits cc im [c] editor shown edited -> edited <> shown ->
  message_prettify edited (Some cc) <> "" ->
  (forall line, line ∈ split_on LF edited -> is_comment (Some cc) line = true \/ ~ occurs "++ reword" line) ->
  prepare_messages cc im [c] editor = Some (Prepared {[rc_oid c := message_prettify edited (Some cc)]}).
Proof.
  intros PC H N1 N2 Hm. rewrite (prepare_edits _ _ _ _ _ _ H). f_equal. apply single_read_back; try done.
  intros l Hl Hc. destruct (Hm l Hl) as [?|?]; [congruence|done].
Qed.

(** Messages given on the command line, joined by empty lines, go to all commits. *)
Theorem c47_given cc l commits editor :
  ~ spaces (join (LFs +:+ LFs) l) ->
  prepare_messages cc (Messages l) commits editor =
  Some (Prepared (list_to_map (List.map (fun c => (rc_oid c, message_prettify (trim (join (LFs +:+ LFs) l)) None)) commits))).
Proof.
  intros N. unfold prepare_messages.
  assert (N' : trim (join (LFs +:+ LFs) l) <> "") by (rewrite trim_empty; done).
  destruct (String.eqb_spec (trim (join (LFs +:+ LFs) l)) ""); [done|]. cbn [negb].
  destruct (String.eqb_spec (trim (message_prettify (trim (join (LFs +:+ LFs) l)) None)) "") as [E|_]; [|done].
  exfalso. apply prettify_blank in E. revert E. apply prettify_not_blank. intros H. apply N.
  unfold trim in H. apply trim_end_empty in H. rewrite trim_end_idem in H. apply trim_end_empty in H.
  by apply trim_start_spaces.
Qed.

(** Text that is not edited, or blank, changes nothing. *)
Theorem c47_abort cc im commits editor shown edited :
  edits cc im commits editor shown edited ->
  edited = shown \/ message_prettify edited (Some cc) = "" ->
  reword_with commits (prepare_messages cc im commits editor) = None.
Proof.
  intros H D. rewrite (prepare_edits _ _ _ _ _ _ H). unfold finish_editing.
  destruct (String.eqb_spec edited shown) as [->|N]; [done|]. destruct D as [->|D]; [done|]. by rewrite D.
Qed.

(** ** Examples *)

Definition commit1 := RCommit 1 "aaaaaaa" (Some (unlines ["one"])).
Definition commit2 := RCommit 2 "bbbbbbb" (Some (unlines ["two"; ""; "#2 is fixed"])).
Definition hash_char : ascii := "#"%char.
Definition always (s : string) : string -> option string := fun _ => Some s.
Lemma proper12 : proper_commits [commit1; commit2].
Proof.
  split_and!.
  - apply (bool_decide_unpack _). vm_compute. exact I.
  - apply (bool_decide_unpack _). vm_compute. exact I.
  - repeat constructor; discriminate.
Qed.

Definition pairs12 : list (rcommit * string) := [(commit1, unlines ["eins"; ""; ""; "mehr  "]); (commit2, "zwei")].
Example c47_example :
  proper_commits [commit1; commit2] /\
  edits hash_char (Messages []) [commit1; commit2] (always (bulk_text pairs12 (footer hash_char 2)))
    (unlines ["++ reword aaaaaaa"; "one"; ""; "++ reword bbbbbbb"; "two"; ""; "#2 is fixed"; ""] +:+ footer hash_char 2)
    (bulk_text pairs12 (footer hash_char 2)) /\
  reword_with [commit1; commit2]
    (prepare_messages hash_char (Messages []) [commit1; commit2] (always (bulk_text pairs12 (footer hash_char 2)))) =
  Some (Some [(1%N, unlines ["eins"; ""; "mehr"]); (2%N, unlines ["zwei"])]).
Proof. split_and!; [exact proper12|split_and!; vm_compute; reflexivity|vm_compute; reflexivity]. Qed.

Example c47_mismatch_example :
  prepare_messages hash_char (Discard "") [commit1; commit2]
    (always (unlines ["++ reword aaaaaaa"; "x"; "++ reword ccccccc"; "y"; "++ reword aaaaaaa"; "z"])) =
  Some (MismatchedCommits ["aaaaaaa"] ["bbbbbbb"] ["ccccccc"]).
Proof. vm_compute. reflexivity. Qed.

(** ** What does not hold *)

(** A text may be accepted although the mark of a commit is missing. *)
Theorem c47_missing_mark_refuted : exists commits editor edited messages c,
  proper_commits commits /\ editor = always edited /\
  prepare_messages hash_char (Discard "") commits editor = Some (Prepared messages) /\
  c ∈ commits /\ (2 <= length commits)%nat /\ ~ occurs ("++ reword " +:+ rc_short c) edited.
Proof.
  exists [commit1; commit2]. eexists. exists (unlines ["aaaaaaa"; "eins"; "++ reword bbbbbbb"; "zwei"]). eexists. exists commit1.
  split_and!; [exact proper12|reflexivity|vm_compute; reflexivity|left|cbn; lia|].
  rewrite <- contains_iff. vm_compute. discriminate.
Qed.

(** Text before a mark on the first line is dropped. *)
Theorem c47_dropped_refuted : exists c editor edited messages,
  proper_commits [c] /\ editor = always edited /\
  prepare_messages hash_char (Discard "") [c] editor = Some (Prepared messages) /\
  starts_with "Explain" edited = true /\ forall o m, messages !! o = Some m -> ~ occurs "Explain" m.
Proof.
  exists commit1. eexists. exists (unlines ["Explain ++ reword aaaaaaa"; ""; "and what it does"]). eexists.
  split_and!; [|reflexivity|vm_compute; reflexivity|vm_compute; reflexivity|].
  - split_and!; [apply (bool_decide_unpack _); vm_compute; exact I..|]. repeat constructor; discriminate.
  - intros o m H. apply elem_of_map_to_list, elem_of_list_In in H. vm_compute in H. destruct H as [[= <- <-]|[]].
    rewrite <- contains_iff. vm_compute. discriminate.
Qed.

(** One of several messages may be empty. *)
Theorem c47_empty_refuted : exists commits editor messages o,
  proper_commits commits /\
  prepare_messages hash_char (Discard "") commits editor = Some (Prepared messages) /\ messages !! o = Some "".
Proof.
  exists [commit1; commit2], (always (unlines ["++ reword aaaaaaa"; "++ reword bbbbbbb"; "zwei"])). eexists. exists 1%N.
  split_and!; [exact proper12|vm_compute; reflexivity|vm_compute; reflexivity].
Qed.

(** A message that was not edited may change: lines that look like comments are lost. *)
Theorem c47_unedited_refuted : exists commits editor pairs shown messages c original,
  proper_commits commits /\ edits hash_char (Messages []) commits editor shown (bulk_text pairs (footer hash_char 2)) /\
  List.map fst pairs = commits /\ c ∈ commits /\ rc_message c = Some original /\ (c, trim original) ∈ pairs /\
  prepare_messages hash_char (Messages []) commits editor = Some (Prepared messages) /\
  exists m, messages !! rc_oid c = Some m /\ m <> original /\ occurs "#2 is fixed" original /\ ~ occurs "#2 is fixed" m.
Proof.
  exists [commit1; commit2], (always (bulk_text [(commit1, "eins"); (commit2, trim (unlines ["two"; ""; "#2 is fixed"]))] (footer hash_char 2))).
  exists [(commit1, "eins"); (commit2, trim (unlines ["two"; ""; "#2 is fixed"]))].
  eexists _, _. exists commit2. eexists. split_and!; [exact proper12|split_and!; vm_compute; reflexivity|reflexivity| |reflexivity| |vm_compute; reflexivity|].
  - right. left.
  - right. left.
  - exists (unlines ["two"]). split_and!; [vm_compute; reflexivity|discriminate| |].
    + apply contains_iff. vm_compute. reflexivity.
    + rewrite <- contains_iff. vm_compute. discriminate.
Qed.

(** With the comment character +, the marks themselves are comments. *)
Theorem c47_comment_char_refuted : exists commits editor pairs shown,
  proper_commits commits /\ List.map fst pairs = commits /\
  (forall c m, (c, m) ∈ pairs -> ~ occurs "++ reword" m) /\
  edits "+"%char (Messages []) commits editor shown (bulk_text pairs (footer "+"%char 2)) /\
  bulk_text pairs (footer "+"%char 2) <> shown /\
  reword_with commits (prepare_messages "+"%char (Messages []) commits editor) = None.
Proof.
  exists [commit1; commit2], (always (bulk_text [(commit1, "eins"); (commit2, "zwei")] (footer "+"%char 2))), [(commit1, "eins"); (commit2, "zwei")].
  eexists. split_and!; [exact proper12|reflexivity| |split_and!; vm_compute; reflexivity|discriminate|vm_compute; reflexivity].
  intros c m H. rewrite !elem_of_cons, elem_of_nil in H. rewrite <- contains_iff.
  destruct H as [[= -> ->]|[[= -> ->]|[]]]; vm_compute; discriminate.
Qed.

Print Assumptions c47_accept.
Print Assumptions c47_sections.
Print Assumptions c47_all_or_none.
Print Assumptions c47_shown.
Print Assumptions c47_read_back.
Print Assumptions c47_single.
Print Assumptions c47_given.
Print Assumptions c47_abort.
Print Assumptions c47_missing_mark_refuted.
Print Assumptions c47_dropped_refuted.
Print Assumptions c47_empty_refuted.
Print Assumptions c47_unedited_refuted.
Print Assumptions c47_comment_char_refuted.

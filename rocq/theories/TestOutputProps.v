(** C126: what is shown of a test *)
From Verif Require Import Base TextModel TextProofs StrModel StrProofs Utf8Model TestCacheModel FixModel TestOutputModel TestOutputSpec TestOutputProofs.
Local Open Scope string_scope.
Local Open Scope list_scope.

(** With two flags, all that the command printed is shown, in order and under its
    heading.  Missing: nothing printed, and text that is not UTF-8. *)
Theorem c126_full_partial : forall k x d p q ls1 ls2 s1 s2,
  printed ls1 s1 -> printed ls2 s2 -> utf8 s1 = true -> utf8 s2 = true -> ls1 <> [] -> ls2 <> [] -> ~ by_hand x ->
  describe_output (verbosity_of (2 + k)) x d (p, Some s1) (q, Some s2) =
  d :: ("Stdout: " +:+ p) :: ls1 ++ ("Stderr: " +:+ q) :: ls2.
Proof.
  intros k x d p q ls1 ls2 s1 s2 P1 P2 U1 U2 N1 N2 I%not_by_hand. unfold describe_output. change (verbosity_of (2 + k)) with VFull. cbn zeta. rewrite I.
  cbn [fst snd]. rewrite (shown_whole VFull ls1 s1), (shown_whole VFull ls2 s2) by auto. reflexivity.
Qed.

(** With one flag, up to ten lines are shown as they are; of more, the first five and the
    last five, with the true number of those between. *)
Theorem c126_short_partial : forall x d p q ls1 ls2 s1 s2,
  printed ls1 s1 -> printed ls2 s2 -> utf8 s1 = true -> utf8 s2 = true -> ls1 <> [] -> ls2 <> [] -> ~ by_hand x ->
  isize_ok (Z.of_nat (length ls1)) -> isize_ok (Z.of_nat (length ls2)) ->
  exists shown1 shown2,
    describe_output (verbosity_of 1) x d (p, Some s1) (q, Some s2) = d :: ("Stdout: " +:+ p) :: shown1 ++ ("Stderr: " +:+ q) :: shown2 /\
    (if decide (length ls1 <= 10)%nat then shown1 = ls1 else abridged ls1 shown1) /\
    (if decide (length ls2 <= 10)%nat then shown2 = ls2 else abridged ls2 shown2).
Proof.
  intros x d p q ls1 ls2 s1 s2 P1 P2 U1 U2 N1 N2 I%not_by_hand O1 O2. exists (abbreviate_lines VPartial (Some s1)), (abbreviate_lines VPartial (Some s2)).
  split; [unfold describe_output; cbn [verbosity_of]; cbn zeta; now rewrite I|]. split.
  - case_decide; [apply shown_whole; auto|apply shown_abridged; auto; lia].
  - case_decide; [apply shown_whole; auto|apply shown_abridged; auto; lia].
Qed.

(** With one flag there are never more than eleven lines of each kind; without any, or
    for a command run by hand, only the first line. *)
Theorem c126_most : forall v x d out err,
  (length (describe_output VPartial x d out err) <= 25)%nat /\
  (length (abbreviate_lines VPartial out.2) <= 11)%nat /\
  describe_output (verbosity_of 0) x d out err = [d] /\
  (by_hand x -> describe_output v x d out err = [d]).
Proof.
  assert (M : forall f, (length (abbreviate_lines VPartial f) <= 11)%nat).
  { intros f. unfold abbreviate_lines. cbn zeta. destruct (match f with Some s => _ | None => _ end) as [s|]; [|cbn; lia].
    destruct (lines s) as [|l ls]; [cbn; lia|]. rewrite orb_false_r. unfold context_lines.
    destruct (Nat.eqb_spec (length (l :: ls) - 2 * 5) 0); [lia|].
    rewrite !app_length, List.firstn_length, List.skipn_length. cbn [length]. lia. }
  intros v x d out err. split; [|split; [apply M|split; [reflexivity|]]].
  - unfold describe_output. cbn zeta. pose proof (M out.2). pose proof (M err.2).
    destruct (was_interactive x); rewrite ?app_length; cbn [length]; lia.
  - intros I%by_hand_spec. unfold describe_output. cbn zeta. rewrite I. now destruct v.
Qed.

(** The first line tells what the summary counts: whatever the commits are called, two
    results with the same first line are counted alike; and so does the mark before it. *)
Theorem c126_told : forall e1 e2 a1 a2 t1 t2 x y d1 d2,
  status_text e1 a1 t1 x +:+ d1 = status_text e2 a2 t2 y +:+ d2 -> count_of x = count_of y.
Proof.
  intros e1 e2 a1 a2 t1 t2 x y d1 d2 H.
  destruct x, y; try reflexivity; exfalso; cbn [status_text] in H; rewrite ?sapp_cons, ?sapp_nil in H; cbn in H; discriminate H.
Qed.
Theorem c126_mark : forall x,
  (icon_of x = CheckMark <-> count_of x = CountPassed) /\ (icon_of x = Cross <-> count_of x = CountFailed) /\
  (icon_of x = Exclamation <-> count_of x = CountSkipped).
Proof. intros []; cbn; repeat split; (reflexivity || discriminate). Qed.

(** Of a test that passed, the first line tells whether the command left changes. *)
Theorem c126_changes : forall e1 e2 a1 a2 t1 t2 c1 c2 f1 f2 i1 i2 d1 d2,
  status_text e1 a1 t1 (OPassed c1 f1 i1) +:+ d1 = status_text e2 a2 t2 (OPassed c2 f2 i2) +:+ d2 ->
  (left_changes f1 t1 <-> left_changes f2 t2) /\ c1 = c2 /\ i1 = i2 /\ (left_changes f1 t1 -> a1 = a2).
Proof.
  intros e1 e2 a1 a2 t1 t2 c1 c2 f1 f2 i1 i2 d1 d2 H. cbn [status_text] in H.
  destruct (changes_cases f1 t1) as [(L1 & u1 & o1 & E1 & -> & B1)|(L1 & E1)], (changes_cases f2 t2) as [(L2 & u2 & o2 & E2 & -> & B2)|(L2 & E2)];
    rewrite ?E1, ?E2, ?B1, ?B2 in H;
    destruct c1, i1, c2, i2; try destruct a1; try destruct a2; vm_compute in H; try discriminate H; tauto.
Qed.

Theorem c126_says_changes : forall e a t c f i,
  left_changes f t <-> exists pre post, status_text e a t (OPassed c f i) = pre +:+ (if a then "fixed" else "fixable") +:+ post.
Proof.
  intros e a t c f i. cbn [status_text]. destruct (changes_cases f t) as [(L & u & o & E & -> & B)|(L & E)].
  - rewrite E, B. split; [intros _|auto].
    destruct c, i, a; first [exists "Passed (", "): "; vm_compute; reflexivity|exists "Passed (cached, ", "): "; vm_compute; reflexivity
      |exists "Passed (", ", interactive): "; vm_compute; reflexivity|exists "Passed (cached, ", ", interactive): "; vm_compute; reflexivity].
  - rewrite E. split; [contradiction|]. intros (pre & post & H). exfalso.
    assert (X : "x"%char ∈ list_ascii_of_string (pre +:+ (if a then "fixed" else "fixable") +:+ post)).
    { apply has_letter. destruct a; decide_it. }
    rewrite <- H in X. revert X. clear. destruct c, i; decide_it.
Qed.

(** Nothing printed is shown like a text, so one cannot tell it from that text. *)
Theorem c126_nothing_refuted : exists ls s, printed ls s /\ utf8 s = true /\ ls <> [] /\
  abbreviate_lines VFull (Some s) = abbreviate_lines VFull (Some "").
Proof.
  exists ["<no output>"], ("<no output>" +:+ String LF ""). split; [|split_and!; [vm_compute; reflexivity|discriminate|vm_compute; reflexivity]].
  split; [|left; reflexivity]. apply Forall_cons_2; [split; decide_it|apply Forall_nil_2].
Qed.
(** What is not UTF-8 is not shown at all, not even with two flags. *)
Theorem c126_bytes_refuted : exists ls s, printed ls s /\ length ls = 2%nat /\
  abbreviate_lines VFull (Some s) = ["<failed to read file>"] /\ abbreviate_lines VFull (Some s) = abbreviate_lines VFull None.
Proof.
  exists ["ok"; String (ascii_of_N 255) ""], ("ok" +:+ String LF (String (ascii_of_N 255) (String LF ""))).
  split; [|vm_compute; auto]. split; [|left; reflexivity].
  repeat (apply Forall_cons_2; [split; decide_it|]). apply Forall_nil_2.
Qed.
Theorem c126_bytes : forall v s, utf8 s = false -> v <> VNone -> abbreviate_lines v (Some s) = ["<failed to read file>"].
Proof. intros v s U N. unfold abbreviate_lines. cbn zeta. rewrite U. now destruct v. Qed.

(** ** Examples *)
Definition twelve : list string := ["a"; "b"; "c"; "d"; "e"; "f"; "g"; "h"; "i"; "j"; "k"; "l"].
Example c126_example :
  printed twelve (ended twelve) /\ utf8 (ended twelve) = true /\ printed ["x"; "y"] ("x" +:+ String LF "y") /\
  describe_output (verbosity_of 1) (OFailed false 1 false) "Failed" ("o", Some (ended twelve)) ("e", Some ("x" +:+ String LF "y")) =
    ["Failed"; "Stdout: o"; "a"; "b"; "c"; "d"; "e"; "<2 more lines>"; "h"; "i"; "j"; "k"; "l"; "Stderr: e"; "x"; "y"] /\
  abbreviate_lines VFull (Some (ended twelve)) = twelve /\
  status_text "" false (NonZero 3%N) (OPassed true (mk_fi None (Some 4%N)) false) = "Passed (cached, fixable): " /\
  status_text "" false (NonZero 3%N) (OPassed false (mk_fi None (Some 3%N)) false) = "Passed: " /\
  status_text "" false (NonZero 3%N) (OFailed true (-1) true) = "Failed (cached, exit code -1, interactive): ".
Proof.
  split; [split; [|left; reflexivity]; repeat (apply Forall_cons_2; [split; decide_it|]); apply Forall_nil_2|].
  split; [vm_compute; reflexivity|].
  split; [split; [repeat (apply Forall_cons_2; [split; decide_it|]); apply Forall_nil_2|right; exists ["x"], "y"; split_and!; [reflexivity|discriminate|reflexivity]]|].
  split_and!; vm_compute; reflexivity.
Qed.

Print Assumptions c126_full_partial.
Print Assumptions c126_short_partial.
Print Assumptions c126_most.
Print Assumptions c126_told.
Print Assumptions c126_mark.
Print Assumptions c126_changes.
Print Assumptions c126_says_changes.
Print Assumptions c126_nothing_refuted.
Print Assumptions c126_bytes_refuted.
Print Assumptions c126_bytes.

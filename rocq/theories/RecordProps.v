(** C48: the sections shown by interactive recording. *)
From stdpp Require Import sorting.
From Verif Require Import Base StrModel StrProofs Utf8Model RecordModel RecordSpec RecordProofs.
Local Open Scope string_scope.
Local Open Scope list_scope.

(** ** Text *)

(** For two texts and the hunks between them, in any order: choosing some of the
    sections shown gives exactly the text with those changes made; the changed
    sections are the changes, one by one; nothing is checked beforehand. *)
Theorem c48_sections e path d l cs tl :
  d_content d = Hunks l -> d_new_oid d <> Zero -> re_write_fails e path = false ->
  separated cs -> l ≡ₚ headers 0 0 cs ->
  text_lines (old_lines cs tl) -> text_lines (new_lines cs tl) ->
  text_of e (d_old_oid d) (bytes (old_lines cs tl)) -> text_of e (d_new_oid d) (bytes (new_lines cs tl)) ->
  exists f, process_file e path d = Done f /\ rf_path f = path /\ rf_mode f = d_old_mode d /\
    (forall choose, chosen_text choose 0 (rf_sections f) = mixed choose 0 cs tl) /\
    changed_sections (rf_sections f) = List.map shown_change cs /\
    mode_sections (rf_sections f) =
      (if N.eqb (d_old_mode d) (d_new_mode d) then [] else [(d_old_mode d, d_new_mode d)]).
Proof.
  intros. destruct (process_text e path d l cs tl) as (ms & ss & E & Em & HC & HS & HF); try done.
  eexists. split; [exact E|]. split; [done|]. split; [done|]. cbn [rf_sections].
  assert (Hm : forall choose, chosen_text choose 0 ms = []) by (subst ms; by destruct (N.eqb _ _)).
  assert (Hc : changed_sections ms = []) by (subst ms; by destruct (N.eqb _ _)).
  split; [|split].
  - intros choose. rewrite chosen_app, Hm, Hc. cbn. apply HC.
  - by rewrite changed_sections_app, Hc, HS.
  - unfold mode_sections. rewrite omap_app. fold (mode_sections ss). rewrite (mode_sections_lines ss HF), app_nil_r.
    subst ms. by destruct (N.eqb _ _).
Qed.

(** In particular no byte is lost: choosing nothing gives the old contents,
    choosing everything the new contents. *)
Theorem c48_exact e path d l cs tl so sn :
  d_content d = Hunks l -> d_new_oid d <> Zero -> re_write_fails e path = false ->
  separated cs -> l ≡ₚ headers 0 0 cs ->
  text_lines (old_lines cs tl) -> text_lines (new_lines cs tl) ->
  bytes (old_lines cs tl) = so -> bytes (new_lines cs tl) = sn ->
  text_of e (d_old_oid d) so -> text_of e (d_new_oid d) sn ->
  exists f, process_file e path d = Done f /\
    bytes (chosen_text (fun _ => false) 0 (rf_sections f)) = so /\
    bytes (chosen_text (fun _ => true) 0 (rf_sections f)) = sn.
Proof.
  intros. subst so sn. destruct (c48_sections e path d l cs tl) as (f & E & _ & _ & HC & _); try done.
  exists f. split; [done|]. by rewrite !HC.
Qed.

(** Every text has exactly one division into lines, so the above applies to all
    texts with a difference between their lines. *)
Theorem c48_lines s : exists ls, text_lines ls /\ bytes ls = s /\ forall ls', text_lines ls' -> bytes ls' = s -> ls' = ls.
Proof.
  exists (split_inclusive s). split; [apply split_is_text_lines|]. split; [apply bytes_split|].
  intros ls' H E. rewrite <- E. by rewrite split_text_lines.
Qed.

(** ** Other files *)

(** A deleted file is shown as a change of mode to nothing, whatever its contents;
    a file binary for libgit2 as one binary section. *)
Theorem c48_other e path d :
  (d_new_oid d = Zero ->
   process_file e path d = Done (RFile path (d_old_mode d) [ModeSection false (d_old_mode d) 0])) /\
  (forall ob nb, d_new_oid d <> Zero -> d_content d = BinaryDelta ob nb ->
   process_file e path d = Done (RFile path (d_old_mode d)
     [BinarySection false (Some (d_old_oid d, ob)) (Some (d_new_oid d, nb))])).
Proof.
  unfold process_file. split; [by intros ->|]. intros ob nb H ->. by destruct (d_new_oid d).
Qed.

(** ** All files *)

(** The result has one file for each changed path, ordered by path, and there is a
    result unless one of the files fails. *)
Theorem c48_files e fs :
  NoDup (List.map f_path fs) ->
  ((exists out, process_diff_for_record e (List.concat (List.map calls_for fs)) = Done out) <->
   (forall f, f ∈ fs -> exists y, process_file e (f_path f) (f_delta f) = Done y)) /\
  forall out, process_diff_for_record e (List.concat (List.map calls_for fs)) = Done out ->
    Sorted (fun x y => String.compare (rf_path x) (rf_path y) <> Gt) out /\
    List.map rf_path out ≡ₚ List.map f_path fs /\
    (forall y, y ∈ out <-> exists f, f ∈ fs /\ process_file e (f_path f) (f_delta f) = Done y).
Proof.
  intros ND. split; [by apply process_diff_exists|]. intros out H.
  destruct (process_diff_spec e fs ND out H) as (HS & l & HP & HF). split; [|split].
  - clear -HS. induction HS as [|x l H IH Hx]; constructor; [done|]. destruct Hx as [|y l Hx]; constructor.
    unfold file_leb in Hx. by destruct (String.compare _ _).
  - rewrite HP. clear -HF. assert (List.map rf_path l = List.map f_path fs) as ->; [|done].
    induction HF as [|f y fs l E _ IH]; [done|]. cbn [List.map]. rewrite IH. f_equal.
    unfold process_file in E. destruct (d_new_oid _); [by injection E as <-|]. destruct (d_content _); [|by injection E as <-].
    destruct (re_write_fails _ _); [done|]. destruct (get_lines_from_blob _ _); [|done..]. cbn [obind] in E.
    destruct (get_lines_from_blob _ _); [|done..]. cbn [obind] in E.
    destruct (sections_of_hunks _ _ _ _ _ _) as [[ss i]| |]; [|done..]. by injection E as <-.
  - intros y. rewrite HP. clear -HF. induction HF as [|f z fs l E _ IH].
    + split; [by intros ?%elem_of_nil|by intros (f & ?%elem_of_nil & _)].
    + rewrite elem_of_cons, IH. split.
      * intros [->|(g & Hg & Eg)]; [exists f; split; [left|done]|exists g; split; [by right|done]].
      * intros (g & [->|Hg]%elem_of_cons & Eg); [left; congruence|right; eauto].
Qed.

(** ** Contents that are not UTF-8 *)

(** libgit2 makes hunks of any contents without NUL bytes.  If the old contents
    are not UTF-8 and the new contents are, then touching any old line panics. *)
Theorem c48_not_utf8 e path d l o so no sn :
  d_content d = Hunks l -> re_write_fails e path = false ->
  d_old_oid d = NonZero o -> re_blob e o = Some so -> utf8 so = false ->
  d_new_oid d = NonZero no -> re_blob e no = Some sn -> re_is_binary e sn = false -> utf8 sn = true ->
  Exists (fun h => h_old_start h <> 0) l ->
  process_file e path d = Panicked.
Proof.
  intros Ec Ew Eo Bo Uo En Bn In Un H. unfold process_file. rewrite En, Ec, Ew, Eo.
  unfold get_lines_from_blob. rewrite Bo, Uo, Bn, In, Un.
  assert (X : (if re_is_binary e so then Done (BinaryBlob (N.of_nat (String.length so))) else Done (BinaryBlob (N.of_nat (String.length so))))
    = Done (BinaryBlob (N.of_nat (String.length so)))) by (by destruct (re_is_binary e so)).
  rewrite X. cbn [obind]. rewrite (hunks_on_nothing _ _ _ _ (split_inclusive sn)); [done|done|].
  apply Exists_exists in H as (h & Hh & Hs). apply Exists_exists. exists h. split; [by rewrite sort_hunks_perm|done].
Qed.

(** The claim for all contents without NUL bytes: the hunks of any two such
    contents can be shown.  It is false, by a file converted from Latin-1. *)
Definition git_text (e : record_env) (o : moid) (s : string) : Prop :=
  match o with Zero => s = "" | NonZero o => re_blob e o = Some s /\ re_is_binary e s = false end.

Definition latin1 : string := String (ascii_of_N 233) (String LF "").
Definition as_utf8 : string := String (ascii_of_N 195) (String (ascii_of_N 169) (String LF "")).
Definition latin_env : record_env :=
  RecordEnv (fun o => if N.eqb o 1 then Some latin1 else if N.eqb o 2 then Some as_utf8 else None)
    (fun _ => false) (fun _ => false).
Definition latin_change : list change := [Change [] [latin1] [as_utf8]].
Theorem c48_encoding_refuted :
  exists e path d cs tl,
    d_content d = Hunks (headers 0 0 cs) /\ d_new_oid d <> Zero /\ re_write_fails e path = false /\ separated cs /\
    git_text e (d_old_oid d) (bytes (old_lines cs tl)) /\ git_text e (d_new_oid d) (bytes (new_lines cs tl)) /\
    process_file e path d = Panicked.
Proof.
  exists latin_env, "menu.txt", (Delta (NonZero 1%N) 33188 (NonZero 2%N) 33188 (Hunks [Hunk 1 1 1 1])), latin_change, [].
  split; [done|]. split; [done|]. split; [done|]. split.
  { split; [|constructor]. constructor; [by left|constructor]. }
  split; [by vm_compute|]. split; by vm_compute.
Qed.

(** In the other direction there is no panic, but the whole old text is shown as
    unchanged beside the binary section. *)
Theorem c48_to_binary_refuted :
  exists e path d cs tl f,
    d_content d = Hunks (headers 0 0 cs) /\ d_new_oid d <> Zero /\ re_write_fails e path = false /\ separated cs /\
    git_text e (d_old_oid d) (bytes (old_lines cs tl)) /\ git_text e (d_new_oid d) (bytes (new_lines cs tl)) /\
    process_file e path d = Done f /\
    chosen_text (fun _ => true) 0 (rf_sections f) = old_lines cs tl /\ new_lines cs tl <> old_lines cs tl.
Proof.
  exists latin_env, "menu.txt", (Delta (NonZero 2%N) 33188 (NonZero 1%N) 33188 (Hunks [Hunk 1 1 1 1])),
    [Change [] [as_utf8] [latin1]], [].
  eexists. split; [done|]. split; [done|]. split; [done|]. split.
  { split; [|constructor]. constructor; [by left|constructor]. }
  split; [by vm_compute|]. split; [by vm_compute|]. split; [vm_compute; reflexivity|]. split; by vm_compute.
Qed.

(** ** Examples *)

Definition nl (s : string) : string := s +:+ String LF "".
Definition ex_changes : list change :=
  [Change [] [] [nl "title"]; Change [nl "a"] [nl "b"] [nl "B"; nl "bb"]; Change [nl "c"; nl "d"] [] [nl "e"];
   Change [nl "f"] [nl "g"] []].
Definition ex_tail : list string := ["end"].
Definition ex_env : record_env :=
  RecordEnv (fun o => if N.eqb o 1 then Some (bytes (old_lines ex_changes ex_tail))
                      else if N.eqb o 2 then Some (bytes (new_lines ex_changes ex_tail)) else None)
    (fun _ => false) (fun _ => false).
Definition ex_hunks : list hunk := [Hunk 6 1 8 0; Hunk 2 1 3 2; Hunk 4 0 7 1; Hunk 0 0 1 1].
Definition ex_delta : delta := Delta (NonZero 1%N) 33188 (NonZero 2%N) 33261 (Hunks ex_hunks).

(** The hypotheses hold of a difference with insertions, a deletion and a change,
    given out of order, whose last line lacks the line feed. *)
Example c48_sections_hyps :
  separated ex_changes /\ ex_hunks ≡ₚ headers 0 0 ex_changes /\
  text_lines (old_lines ex_changes ex_tail) /\ text_lines (new_lines ex_changes ex_tail) /\
  text_of ex_env (d_old_oid ex_delta) (bytes (old_lines ex_changes ex_tail)) /\
  text_of ex_env (d_new_oid ex_delta) (bytes (new_lines ex_changes ex_tail)).
Proof.
  split; [|split; [|split; [|split]]].
  - split; repeat constructor; cbn; try (by left); try (by right); done.
  - vm_compute headers. unfold ex_hunks.
    assert (forall a b c d : hunk, [a; b; c; d] ≡ₚ [d; b; c; a]) as P; [|apply P].
    intros a b c d. change [a; b; c; d] with ([a] ++ [b; c] ++ [d]). change [d; b; c; a] with ([d] ++ [b; c] ++ [a]).
    rewrite (Permutation_app_comm [a]). rewrite (Permutation_app_comm [b; c] [d]). done.
  - apply (eq_ind _ text_lines (split_is_text_lines (bytes (old_lines ex_changes ex_tail)))). by vm_compute.
  - apply (eq_ind _ text_lines (split_is_text_lines (bytes (new_lines ex_changes ex_tail)))). by vm_compute.
  - split; (split; [by vm_compute|split; by vm_compute]).
Qed.
Example c48_sections_example :
  process_file ex_env "notes" ex_delta = Done (RFile "notes" 33188
    [ModeSection false 33188 33261;
     Unchanged []; Changed [ChangedLine false Added (nl "title")];
     Unchanged [nl "a"]; Changed [ChangedLine false Removed (nl "b"); ChangedLine false Added (nl "B"); ChangedLine false Added (nl "bb")];
     Unchanged [nl "c"; nl "d"]; Changed [ChangedLine false Added (nl "e")];
     Unchanged [nl "f"]; Changed [ChangedLine false Removed (nl "g")];
     Unchanged ["end"]]).
Proof. by vm_compute. Qed.
Example c48_choice_example :
  mixed (fun k => Nat.eqb k 1) 0 ex_changes ex_tail =
  [nl "a"; nl "B"; nl "bb"; nl "c"; nl "d"; nl "f"; nl "g"; "end"].
Proof. by vm_compute. Qed.

Definition ex_files : list fdelta :=
  [FDelta "notes" ex_delta; FDelta "gone" (Delta (NonZero 1%N) 33188 Zero 0 (Hunks [Hunk 1 7 0 0]));
   FDelta "image" (Delta (NonZero 5%N) 33188 (NonZero 6%N) 33188 (BinaryDelta 10 12))].
Example c48_files_example :
  NoDup (List.map f_path ex_files) /\
  exists out, process_diff_for_record ex_env (List.concat (List.map calls_for ex_files)) = Done out /\
    List.map rf_path out = ["gone"; "image"; "notes"].
Proof.
  split.
  - apply (bool_decide_unpack _). vm_compute. exact I.
  - eexists. split; vm_compute; reflexivity.
Qed.

Print Assumptions c48_sections.
Print Assumptions c48_exact.
Print Assumptions c48_lines.
Print Assumptions c48_other.
Print Assumptions c48_files.
Print Assumptions c48_not_utf8.
Print Assumptions c48_encoding_refuted.
Print Assumptions c48_to_binary_refuted.

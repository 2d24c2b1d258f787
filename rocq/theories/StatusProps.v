(** C50: reading the output of git status. *)
From Verif Require Import Base StrModel Utf8Model ModeModel StatusModel StatusSpec StatusProofs.
Local Open Scope string_scope.
Local Open Scope list_scope.

(** Records in UTF-8 whose paths do not begin like another field are all read,
    in order, one entry each. *)
Theorem c50_read_partial : forall rs n,
  Forall (fun r => well_formed r /\ clear_path r /\ Forall (fun p => utf8 p = true) (record_paths r)) rs ->
  (length rs < n)%nat ->
  status_loop n (output rs) [] = Entries (List.map expected rs).
Proof. intros rs n H Hn. exact (loop_all rs n [] H Hn). Qed.

(** Every path named in the output is among the paths of the entries, a renamed file
    under both its names. *)
Theorem c50_paths_partial : forall rs n,
  Forall (fun r => well_formed r /\ clear_path r /\ Forall (fun p => utf8 p = true) (record_paths r)) rs ->
  (length rs < n)%nat ->
  exists es, status_loop n (output rs) [] = Entries es /\
    List.map se_paths es = List.map record_paths rs.
Proof.
  intros rs n H Hn. exists (List.map expected rs). split; [exact (loop_all rs n [] H Hn)|].
  rewrite List.map_map. apply List.map_ext. by intros [].
Qed.

(** Whatever the output, the loop ends unless it meets a header. *)
Theorem c50_ends_partial : forall s rest found,
  status_loop (S (String.length s)) s [] = Running rest found -> exists t, rest = String "#" t.
Proof. intros s rest found. apply loop_ends. lia. Qed.

(** What has been read does not depend on the number of rounds allowed. *)
Theorem c50_rounds : forall n k s,
  (forall rest found, status_loop n s [] <> Running rest found) -> status_loop (n + k) s [] = status_loop n s [].
Proof. intros n k s H. exact (loop_mono n s [] k H). Qed.

(** A header after any number of records makes the loop run for ever.  Git writes
    such lines when it is configured to show the number of stashes. *)
Theorem c50_header_refuted : exists rs header, Forall well_formed rs /\
  forall n, (length rs <= n)%nat -> exists found, status_loop n (output rs +:+ nul_end ("# " +:+ header)) [] = Running (nul_end ("# " +:+ header)) found.
Proof.
  exists [], "stash 1". split; [apply Forall_nil_2|]. intros n _. exists []. exact (loop_header n _ []).
Qed.
Theorem c50_header_runs : forall rs header n,
  Forall (fun r => well_formed r /\ clear_path r /\ Forall (fun p => utf8 p = true) (record_paths r)) rs ->
  (length rs <= n)%nat ->
  status_loop n (output rs +:+ String "#" header) [] = Running (String "#" header) (List.map expected rs).
Proof. intros rs header n H Hn. exact (loop_records_header rs header n [] H Hn). Qed.

(** Paths that are not UTF-8 are ordinary in Git; one of them makes the whole
    reading fail. *)
Theorem c50_not_utf8 : forall rs n,
  Forall well_formed rs ->
  Exists (fun r => Exists (fun p => utf8 p = false) (record_paths r)) rs ->
  (length rs < n)%nat ->
  status_loop n (output rs) [] = StatusError.
Proof. intros rs n W H Hn. exact (loop_bad rs n [] W H Hn). Qed.

(** The path of an ordinary record that begins with a word of hexadecimal digits
    is read without that word. *)
Theorem c50_misread : forall x y sub mh mi mw hh hi w rest n,
  well_formed (Ordinary x y sub mh mi mw hh hi (sp w rest)) ->
  w <> "" -> all_in hex_digit w -> git_path rest -> ~ like_score rest -> utf8 rest = true ->
  (1 < n)%nat ->
  status_loop n (output [Ordinary x y sub mh mi mw hh hi (sp w rest)]) [] =
  Entries [StatusEntry (status_of x) (status_of y) mw rest None].
Proof. exact loop_misread. Qed.

(** Nothing is made up: a line from which an entry is read consists of its kind, two
    letters, a word, three or four modes of six digits, two or three names of
    objects, perhaps a score, and then exactly the paths of the entry.  Any other
    line is an error. *)
Theorem c50_shape : forall line e, parse_status_entry line = Some e ->
  exists kind x y sub ms mw ids sc,
    line = words (String kind "" :: String x (String y "") :: sub :: (ms ++ [mw]) ++ ids ++ sc) (path_text (se_path e) (se_orig e)) /\
    kind ∈ ["1"; "2"; "u"]%char /\
    (2 <= length ms <= 3)%nat /\ Forall six_digits (ms ++ [mw]) /\ mode_of_text mw = Some (se_mode e) /\
    (2 <= length ids <= 3)%nat /\ Forall hex_word ids /\
    (sc = [] \/ exists w, sc = [w] /\ score_word w) /\
    Forall (fun p => git_path p /\ utf8 p = true) (se_paths e) /\
    se_index e = (if decide (kind = "u"%char) then Unmerged else status_of x) /\ se_wc e = status_of y.
Proof. exact parse_inv. Qed.

Definition zeros : string := "0000000000000000000000000000000000000000".
Definition id_a : string := "aaaaaaaaaaaaaaaaaaaaaaaaaaaaaaaaaaaaaaaa".
Definition modified (p : string) : srecord := Ordinary "." "M" "N..." Blob Blob Blob id_a id_a p.

Theorem c50_path_refuted : exists r n, well_formed r /\ Forall (fun p => utf8 p = true) (record_paths r) /\
  exists x, status_loop n (output [r]) [] = Entries [x] /\ x <> expected r /\ se_path x = "report.txt" /\ record_paths r = ["2024 report.txt"].
Proof.
  exists (modified "2024 report.txt"), 2%nat. split; [apply well_formed_b_ok; vm_compute; reflexivity|].
  split; [by repeat constructor|]. eexists. split; [vm_compute; reflexivity|]. split; [|done]. by vm_compute.
Qed.

(** A change of type, such as a file replaced by a symbolic link, is read as a
    status that does not count as a change. *)
Theorem c50_type_change_refuted : exists r, well_formed r /\ forall n, (1 < n)%nat ->
  exists x, status_loop n (output [r]) [] = Entries [x] /\ is_changed (se_wc x) = false /\ is_changed (se_index x) = false.
Proof.
  exists (Ordinary "." "T" "N..." Blob Blob Link id_a id_a "file"). split; [apply well_formed_b_ok; vm_compute; reflexivity|].
  intros n Hn. destruct n as [|[|n]]; [lia|lia|]. eexists. split; [vm_compute; reflexivity|]. by vm_compute.
Qed.

(** ** Examples *)
Example c50_three_kinds :
  let rs := [modified "my file"; RenamedCopied "R" "M" "N..." Blob Blob BlobExecutable id_a id_a "R" "100" "new name" "old";
             Conflicted "U" "D" "N..." Blob Blob Blob Unreadable id_a id_a id_a "a b"] in
  Forall (fun r => well_formed r /\ clear_path r /\ Forall (fun p => utf8 p = true) (record_paths r)) rs /\
  status_loop 4 (output rs) [] =
  Entries [StatusEntry Unmodified Modified Blob "my file" None;
           StatusEntry Renamed Modified BlobExecutable "new name" (Some "old");
           StatusEntry Unmerged Deleted Unreadable "a b" None].
Proof.
  cbn zeta. split; [|vm_compute; reflexivity].
  repeat apply Forall_cons_2; try apply Forall_nil_2; (split; [apply well_formed_b_ok; vm_compute; reflexivity|]).
  - split; [split; [apply not_like_id; [reflexivity|by vm_compute]|by apply not_like_score]|by repeat constructor].
  - split; [done|by repeat constructor].
  - split; [by apply not_like_score|by repeat constructor].
Qed.
Example c50_bad_bytes :
  let p := String (ascii_of_N 255) "x" in
  well_formed (modified p) /\ utf8 p = false /\ status_loop 5 (output [modified "ok"; modified p]) [] = StatusError.
Proof. cbn zeta. split; [apply well_formed_b_ok; vm_compute; reflexivity|]. split; vm_compute; reflexivity. Qed.
Example c50_shape_example :
  parse_status_entry (sp "1" (sp ".M" (sp "N..." (sp "100644" (sp "100644" (sp "100755" (sp "ab" (sp "cd" "x b")))))))) =
    Some (StatusEntry Unmodified Modified BlobExecutable "x b" None) /\
  parse_status_entry (sp "1" (sp ".M" (sp "N..." (sp "10644" (sp "100644" (sp "100755" (sp "ab" (sp "cd" "x b")))))))) = None.
Proof. split; vm_compute; reflexivity. Qed.
Example c50_unknown : status_loop 3 ("? untracked" +:+ String NUL "") [] = StatusError.
Proof. reflexivity. Qed.

Print Assumptions c50_read_partial.
Print Assumptions c50_paths_partial.
Print Assumptions c50_ends_partial.
Print Assumptions c50_rounds.
Print Assumptions c50_header_refuted.
Print Assumptions c50_header_runs.
Print Assumptions c50_not_utf8.
Print Assumptions c50_misread.
Print Assumptions c50_shape.
Print Assumptions c50_path_refuted.
Print Assumptions c50_type_change_refuted.

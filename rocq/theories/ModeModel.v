(** Model of file statuses and modes (git-branchless-lib/src/git/status.rs). *)
From Verif Require Import Base.
Local Open Scope N_scope.
Local Open Scope string_scope.

(** [FileStatus] (git/status.rs:14-24). *)
Inductive file_status :=
| Unmodified | Modified | Added | Deleted | Renamed | Copied | Unmerged | Untracked | Ignored.
Global Instance file_status_eq_dec : EqDecision file_status.
Proof. solve_decision. Defined.

(** [FileStatus::is_changed] (git/status.rs:29-41). *)
Definition is_changed (s : file_status) : bool :=
  match s with
  | Added | Copied | Deleted | Modified | Renamed => true
  | Ignored | Unmerged | Unmodified | Untracked => false
  end.

(** [From<u8> for FileStatus] (git/status.rs:44-62). *)
Definition status_of (c : ascii) : file_status :=
  match c with
  | "."%char => Unmodified
  | "M"%char => Modified
  | "A"%char => Added
  | "D"%char => Deleted
  | "R"%char => Renamed
  | "C"%char => Copied
  | "U"%char => Unmerged
  | "?"%char => Untracked
  | "!"%char => Ignored
  | _ => Untracked
  end.

(** [FileMode] (git/status.rs:67-75). *)
Inductive file_mode := Unreadable | TreeMode | Blob | BlobExecutable | BlobGroupWritable | Link | CommitMode.
Global Instance file_mode_eq_dec : EqDecision file_mode.
Proof. solve_decision. Defined.

(** [From<FileMode> for i32] (git/status.rs:109-121), with the numbers of
    libgit2's [git_filemode_t]. *)
Definition mode_number (m : file_mode) : N :=
  match m with
  | Unreadable => 0           (* 0o000000 *)
  | TreeMode => 16384         (* 0o040000 *)
  | Blob => 33188             (* 0o100644 *)
  | BlobExecutable => 33261   (* 0o100755 *)
  | BlobGroupWritable => 33204 (* 0o100664 *)
  | Link => 40960             (* 0o120000 *)
  | CommitMode => 57344       (* 0o160000 *)
  end.

(** [From<i32> for FileMode] (git/status.rs:91-107). *)
Definition mode_of_number (n : N) : file_mode :=
  if N.eqb n (mode_number Blob) then Blob
  else if N.eqb n (mode_number BlobExecutable) then BlobExecutable
  else if N.eqb n (mode_number CommitMode) then CommitMode
  else if N.eqb n (mode_number Link) then Link
  else if N.eqb n (mode_number TreeMode) then TreeMode
  else Unreadable.

(** [FromStr for FileMode] (git/status.rs:129-148). *)
Definition mode_of_text (s : string) : option file_mode :=
  if String.eqb s "000000" then Some Unreadable
  else if String.eqb s "040000" then Some TreeMode
  else if String.eqb s "100644" then Some Blob
  else if String.eqb s "100755" then Some BlobExecutable
  else if String.eqb s "100664" then Some BlobGroupWritable
  else if String.eqb s "120000" then Some Link
  else if String.eqb s "160000" then Some CommitMode
  else None.

(** [Display for FileMode] (git/status.rs:150-162). *)
Definition mode_text (m : file_mode) : string :=
  match m with
  | Unreadable => "000000"
  | TreeMode => "040000"
  | Blob => "100644"
  | BlobExecutable => "100755"
  | BlobGroupWritable => "100664"
  | Link => "120000"
  | CommitMode => "160000"
  end.

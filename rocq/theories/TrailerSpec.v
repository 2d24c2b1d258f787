(** What is expected of the message of a snapshot, of reopening a snapshot, and of
    HEAD after restoring it. *)
From Verif Require Import Base StrModel StrProofs Utf8Model TextModel TrailerModel.
Local Open Scope string_scope.
Local Open Scope list_scope.

Definition all_chars (P : ascii -> Prop) (s : string) : Prop := Forall P (list_ascii_of_string s).
Definition blanks (s : string) : Prop := all_chars (fun c => c = " "%char \/ c = "009"%char) s.
Definition NUL : ascii := "000"%char.

(** A name of a reference: not empty, UTF-8, and without space and control characters
    (of git check-ref-format, only what matters here). *)
Definition ref_ok (r : refname) : Prop :=
  r <> "" /\ utf8 r = true /\ all_chars (fun c => (32 < N_of_ascii c)%N) r.

(** Ids of commits: not zero, and of 160 bits. *)
Definition id_ok (o : oid) : Prop := (o <> 0 /\ o < 2 ^ 160)%N.
(** The state from which a snapshot was taken. *)
Definition snapshot_ok (s : wsnapshot) : Prop :=
  (forall o, ws_head s = Some o -> id_ok o) /\
  (forall r, ws_ref s = Some r -> ref_ok r) /\
  id_ok (ws_unstaged s) /\ id_ok (ws_stage0 s) /\ id_ok (ws_stage1 s) /\ id_ok (ws_stage2 s) /\ id_ok (ws_stage3 s).
(** The commits that a snapshot names. *)
Definition data_commits (s : wsnapshot) : list oid :=
  match ws_head s with Some o => [o] | None => [] end
  ++ [ws_unstaged s; ws_stage0 s; ws_stage1 s; ws_stage2 s; ws_stage3 s].
Definition present (st : cstore) (l : list oid) : Prop := forall o, o ∈ l -> is_Some (st !! o).

(** A line of the message begins with the key and a colon, followed by the value and the
    end of a line. *)
Definition line_start (pre : string) : Prop := pre = "" \/ exists p, pre = p +:+ String LF "".
Definition line_end (value post : string) : Prop :=
  post = "" \/ (exists p, post = String LF p) \/ exists v, value = v +:+ String LF "".
Definition names_at (message key value : string) : Prop :=
  exists pre ws ws' post, message = pre +:+ key +:+ ws +:+ String ":" (ws' +:+ value +:+ post)
    /\ line_start pre /\ blanks ws /\ blanks ws' /\ line_end value post.
Definition marked (message key : string) : Prop :=
  exists pre ws post, message = pre +:+ key +:+ ws +:+ String ":" post /\ line_start pre /\ blanks ws.

(** Paragraphs of trailers: a title, an empty line, and lines "key: value". *)
Definition title_ok (t : string) : Prop :=
  lacks LF t /\ utf8 t = true /\ lacks NUL t
  /\ (exists c t', t = String c t' /\ is_space c = false /\ c <> "#"%char)
  /\ ~ (exists c t', t = "---" +:+ String c t' /\ is_space c = true) /\ t <> "---".
Definition key_ok (k : string) : Prop :=
  k <> "" /\ all_chars (fun c => is_key_char c = true) k.
Definition value_ok (v : string) : Prop :=
  lacks LF v /\ utf8 v = true /\ lacks NUL v /\ exists c v', v = String c v' /\ c <> " "%char /\ c <> "009"%char.
Definition paragraph (title : string) (ts : list (string * string)) : string :=
  title +:+ String LF (String LF (unlines (map (fun kv => fst kv +:+ ": " +:+ snd kv) ts))).

(** Reachability over parents, and a collection that keeps what is reachable from the
    roots. *)
Definition parent_of (st : cstore) (c p : oid) : Prop := exists x, st !! c = Some x /\ p ∈ rc_parents x.
Definition reachable (st : cstore) (roots : list oid) (o : oid) : Prop :=
  exists r, r ∈ roots /\ rtc (parent_of st) r o.
Definition keeps (st : cstore) (roots : list oid) (keep : gset oid) : Prop :=
  forall o, o ∈ keep <-> reachable st roots o.

(** The state of HEAD: the commit and the branch. *)
Definition head_is (s : refstate) (o : option oid) (r : option refname) : Prop :=
  match r with
  | Some b => rs_head s = OnBranch b /\ rs_refs s !! b = o
  | None => exists c, o = Some c /\ rs_head s = Detached c
  end.

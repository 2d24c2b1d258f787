(** What the hooks record, stated on the text Git passes to them. *)
From Verif Require Import Base TextModel EventLogModel EventLogSpec StrModel StrProofs HookModel.
Local Open Scope string_scope.
Local Open Scope list_scope.

(** ** Reference transactions *)

(** A field of a line names an object or, after "ref:", another reference. *)
Inductive names_target : string -> target -> Prop :=
| nt_symbolic n : names_target ("ref:" +:+ n) (Symbolic n)
| nt_direct s m : (forall n, s <> "ref:" +:+ n) -> moid_from_string s = Some m -> names_target s (Direct m).

(** A well-formed line. *)
Definition describes_update (line : string) (n : refname) (old new : target) : Prop :=
  exists so sn, lacks " " so /\ lacks " " sn /\ lacks " " n /\
    line = so +:+ " " +:+ sn +:+ " " +:+ n /\ names_target so old /\ names_target sn new.

(** A line of the packed-refs file about a reference, and the last such line. *)
Definition packed_line (line : string) (n : refname) (m : moid) : Prop :=
  exists so, lacks " " so /\ n <> "" /\ line = so +:+ " " +:+ n /\ moid_from_string so = Some m.
Definition packed_at (file : option string) (n : refname) (m : moid) : Prop :=
  exists text before line after, file = Some text /\ lines text = before ++ line :: after /\
    packed_line line n m /\ forall l m', l ∈ after -> ~ packed_line l n m'.

(** The reference is packed with that target, or is said to point to itself. *)
Definition stays (file : option string) (n : refname) (t : target) : Prop :=
  match t with
  | Direct m => packed_at file n m
  | Symbolic n' => n' = n
  end.

(** The change behind a line: packing shows up as a creation or a deletion. *)
Inductive net (file : option string) (n : refname) : target -> target -> target -> target -> Prop :=
| net_created t : stays file n t -> net file n (Direct Zero) t t t
| net_deleted t : ~ (t = Direct Zero /\ stays file n (Direct Zero)) -> stays file n t ->
    net file n t (Direct Zero) t t
| net_real old new : ~ (old = Direct Zero /\ stays file n new) -> ~ (new = Direct Zero /\ stays file n old) ->
    net file n old new old new.

(** The object a target stands for. *)
Definition stands_for (resolve : refname -> option moid) (t : target) (m : moid) : Prop :=
  match t with
  | Direct m' => m' = m
  | Symbolic n => resolve n = Some m
  end.

(** The events recorded for the lines of a transaction. *)
Inductive recorded (utf8 : string -> bool) (resolve : refname -> option moid) (file : option string)
  (ts : timestamp) (tx : txid) : list string -> list event -> Prop :=
| rec_end : recorded utf8 resolve file ts tx [] []
| rec_skip l ls es :
    (utf8 l = true -> forall n old new, describes_update l n old new -> untracked n) ->
    recorded utf8 resolve file ts tx ls es -> recorded utf8 resolve file ts tx (l :: ls) es
| rec_line l ls es n old new old' new' o1 o2 :
    utf8 l = true -> describes_update l n old new -> ~ untracked n -> net file n old new old' new' ->
    stands_for resolve old' o1 -> stands_for resolve new' o2 ->
    recorded utf8 resolve file ts tx ls es ->
    recorded utf8 resolve file ts tx (l :: ls) (RefUpdateEvent ts tx n o1 o2 None :: es).

(** The packed-refs file is text. *)
Definition readable (utf8 : string -> bool) (file : option string) : Prop :=
  forall text, file = Some text -> Forall (fun l => utf8 l = true) (lines text).

(** The lines Git passes when it packs references. *)
Definition zeros : string := "0000000000000000000000000000000000000000".
Definition packing_lines (refs : list (refname * oid)) : list string :=
  map (fun r => zeros +:+ " " +:+ oid_to_string (snd r) +:+ " " +:+ fst r) refs ++
  map (fun r => oid_to_string (snd r) +:+ " " +:+ zeros +:+ " " +:+ fst r) refs.

(** ** The list of rewritten commits *)

(** [l'] is [l] with the entries [es] put in: an entry replaces the one about the
    same commit, in place, and is added at the end if there is none. *)
Definition last_entry (es : list (oid * moid)) (o : oid) (m : moid) : Prop :=
  exists before after, es = before ++ (o, m) :: after /\ forall m', (o, m') ∉ after.
Definition put_entries (l es l' : list (oid * moid)) : Prop :=
  exists l1 l2, l' = l1 ++ l2 /\
    Forall2 (fun e e' => fst e = fst e' /\
      (last_entry es (fst e) (snd e') \/ (e' = e /\ forall m, (fst e, m) ∉ es))) l l1 /\
    (forall o m, (o, m) ∈ l2 <-> last_entry es o m /\ forall m', (o, m') ∉ l) /\ NoDup (map fst l2).

(** ** A rebase *)

(** What can happen while a rebase is underway; the index tells the commit made. *)
Definition set_head (s : hook_state) (o : oid) : hook_state :=
  mk_hooks (hs_log s) (hs_rebase s) (hs_deferred s) (hs_rewritten s) (Some o) (hs_orig_head s) (hs_updated_head s).
Inductive rebase_step : hook_state -> list oid -> hook_state -> Prop :=
| step_commit ts tx s o : rebase_step s [o] (hook_post_commit ts tx (set_head s o))
| step_amend ts tx text s : rebase_step s [] (fst (hook_post_rewrite ts tx "amend" text s))
| step_drop iter find o s s' : hook_drop_commit_if_empty iter find o s = Some s' -> rebase_step s [] s'
| step_skip iter o s s' : hook_skip_upstream_applied_commit iter o s = Some s' -> rebase_step s [] s'.
Inductive rebase_run : hook_state -> list oid -> hook_state -> Prop :=
| run_end s : rebase_run s [] s
| run_step s s' s'' os os' : rebase_step s os s' -> rebase_run s' os' s'' -> rebase_run s (os ++ os') s''.

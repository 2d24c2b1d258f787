(** What a description of a commit should say, and what a bug report may tell. *)
From stdpp Require Import pretty sorting.
From Verif Require Import Base TextModel EventLogModel EventLogSpec EvolveSpec StrModel ExecModel PhabSpec ReportModel.
Local Open Scope string_scope.
Local Open Scope list_scope.

(** ** Names *)
Definition under (p : string) (n : refname) : Prop := exists rest, n = p +:+ rest.
(** Names that are not to be told: all that have a slash, except the main branch. *)
Definition private (main n : refname) : Prop := n <> main /\ exists a b, n = a +:+ "/" +:+ b.
(** The part that tells local branches, remote branches and other references apart. *)
Inductive prefix_of : refname -> string -> Prop :=
| prefix_local rest : prefix_of ("refs/heads/" +:+ rest) "refs/heads/"
| prefix_remote rest : prefix_of ("refs/remotes/" +:+ rest) "refs/remotes/"
| prefix_other n : ~ under "refs/heads/" n -> ~ under "refs/remotes/" n -> prefix_of n "".
(** The replacement with the number [k]. *)
Definition stand_in (n : refname) (k : N) (m : refname) : Prop := exists p, prefix_of n p /\ m = p +:+ "redacted-ref-" +:+ pretty k.
Definition like_stand_in (m : refname) : Prop := exists n k, stand_in n k m.

Definition rename_event (f : refname -> refname) (e : event) : event :=
  match e with
  | RefUpdateEvent ts tx n old new msg => RefUpdateEvent ts tx (f n) old new msg
  | SnapshotEvent ts tx h o n => SnapshotEvent ts tx h o (f <$> n)
  | _ => e
  end.
Definition names_ref (e : event) (n : refname) : Prop :=
  match e with
  | RefUpdateEvent _ _ n' _ _ _ => n' = n
  | SnapshotEvent _ _ _ _ n' => n' = Some n
  | _ => False
  end.

(** ** Two repositories that should not be told apart *)
(** Other names for what is private, of the same kind. *)
Record renaming (main : refname) (f : refname -> refname) : Prop := {
  rn_inj : forall n n', f n = f n' -> n = n';
  rn_public : forall n, ~ private main n -> f n = n;
  rn_private : forall n, private main n -> private main (f n);
  rn_kind : forall n p, prefix_of n p -> prefix_of (f n) p;
  rn_own : forall n, under "refs/branchless/" n <-> under "refs/branchless/" (f n) }.
Definition space (c : N) : Prop := c = 32%N \/ c = 9%N \/ c = 10%N \/ c = 12%N \/ c = 13%N.
Definition same_shape : list N -> list N -> Prop := Forall2 (fun c c' => c = c' \/ ~ space c /\ ~ space c').
(** The same commits, with other messages. *)
Inductive same_commit : node -> node -> Prop :=
| same_known o short time text text' s s' : same_shape s s' -> same_commit (Known o short time text s) (Known o short time text' s')
| same_collected o : same_commit (Collected o) (Collected o).
Record same_setting (f : refname -> refname) (e e' : node_env) : Prop := {
  ss_now : ne_now e' = ne_now e;
  ss_times : ne_times e' = ne_times e;
  ss_names : ne_names e' = ne_names e;
  ss_branches : forall o, ne_branches e' o = List.map f (ne_branches e o);
  ss_head : ne_head e' = f <$> ne_head e;
  ss_arrow : ne_arrow e' = ne_arrow e }.

(** ** What a description says *)
Inductive said (e : node_env) : refname -> string -> Prop :=
| said_local rest mark : marked e ("refs/heads/" +:+ rest) mark -> said e ("refs/heads/" +:+ rest) (mark +:+ rest)
| said_remote rest mark : marked e ("refs/remotes/" +:+ rest) mark -> said e ("refs/remotes/" +:+ rest) (mark +:+ "remote " +:+ rest)
| said_other n mark : ~ under "refs/heads/" n -> ~ under "refs/remotes/" n -> marked e n mark -> said e n (mark +:+ "ref " +:+ n)
(** The branch that is checked out is marked. *)
with marked (e : node_env) : refname -> string -> Prop :=
| marked_head n : ne_head e = Some n -> marked e n (ne_arrow e +:+ " ")
| marked_not n : ne_head e <> Some n -> marked e n "".
(** The names of the list, each once, in order. *)
Definition says_names (e : node_env) (l : list refname) (s : option string) : Prop :=
  (ne_names e = false \/ l = []) /\ s = None \/
  ne_names e = true /\ l <> [] /\ exists ns ts, NoDup ns /\ (forall n, n ∈ ns <-> n ∈ l) /\ (exists us, Forall2 (said e) ns us /\ Permutation us ts) /\
    Sorted.Sorted (fun a b => String.leb a b = true) ts /\ s = Some ("(" +:+ join ", " ts +:+ ")").

(** The largest unit that fits, and how often it fits, in the whole seconds; never for the future, which is counted
    in seconds below zero. *)
Inductive aged : Z -> string -> Prop :=
| aged_seconds d : (d < 60)%Z -> aged d (isize_to_string d +:+ "s")
| aged_minutes d n : (1 <= n < 60)%Z -> (n * 60 <= d < (n + 1) * 60)%Z -> aged d (isize_to_string n +:+ "m")
| aged_hours d n : (1 <= n < 24)%Z -> (n * 3600 <= d < (n + 1) * 3600)%Z -> aged d (isize_to_string n +:+ "h")
| aged_days d n : (1 <= n < 365)%Z -> (n * 86400 <= d < (n + 1) * 86400)%Z -> aged d (isize_to_string n +:+ "d")
| aged_years d n : (1 <= n)%Z -> (n * 31536000 <= d < (n + 1) * 31536000)%Z -> aged d (isize_to_string n +:+ "y").
(** Whole seconds between two times in nanoseconds, towards zero. *)
Definition seconds_since (now previous d : Z) : Prop :=
  (previous <= now /\ 0 <= d /\ d * 1000000000 <= now - previous < (d + 1) * 1000000000)%Z \/
  (now <= previous /\ d <= 0 /\ (- d) * 1000000000 <= previous - now < (- d + 1) * 1000000000)%Z.

(** Why the commit is hidden, as told by the events. *)
Definition said_why (es : list event) (o : oid) (s : option string) : Prop :=
  (visibility es o Obsolete /\ exists ts tx, last_concerning es o (ObsoleteEvent ts tx o) /\ s = Some "(manually hidden)") \/
  (visibility es o Obsolete /\ exists m w rest, chain_end es o m /\ moid_to_string m = w +:+ rest /\ String.length w = 8%nat /\
     s = Some ("(rewritten as " +:+ w +:+ ")")) \/
  (~ visibility es o Obsolete /\ s = None).

(** ** What a report tells *)
(** The end of the transaction that is [i] transactions before the last one. *)
Inductive back (es : list event) : nat -> Z -> Prop :=
| back_end : back es 0 (Z.of_nat (length es))
| back_one i c c' : back es i c -> prev_boundary es c c' -> back es (S i) c'
| back_start i : back es i 0 -> back es (S i) 0.
(** A report that calls each name [n] by [g n]; [names] are the private ones. *)
Definition masked (s s' : list N) : Prop := Forall2 (fun c c' => space c /\ c' = c \/ ~ space c /\ c' = 120%N) s s'.
Definition told_node (main : refname) (names : gset refname) (g : refname -> refname) (e : node_env) (r : replayer) (c : cursor) (x : node) (ds : description) : Prop :=
  (ne_names e = true -> forall n, n ∈ ne_branches e (node_oid x) -> private main n -> n ∈ names) /\
  says_names e (List.map g (ne_branches e (node_oid x))) (ds_branches ds) /\
  said_why (upto (events r) c) (node_oid x) (ds_why ds) /\
  ds_revision ds = None /\
  match x with
  | Known _ _ _ _ s => masked s (ds_summary ds)
  | Collected _ => masked garbage_collected (ds_summary ds)
  end.
Definition told (main : refname) (names : gset refname) (g : refname -> refname) (e : node_env) (d : db) (r : replayer) (nodes : cursor -> list node)
    (i : nat) (en : entry) : Prop :=
  exists c, back (events r) i c /\
    match en_events en with
    | None => c = 0%Z
    | Some (id, tx, msg, told) => exists start es, latest_run (events r) c start es /\ id = (start + 1)%Z /\
        (forall ev, ev ∈ es -> event_tx ev = tx) /\ msg = default "<failed to query>" (get_transaction_message d tx) /\
        (forall ev n, ev ∈ es -> names_ref ev n -> private main n -> n ∈ names) /\ told = List.map (rename_event g) es
    end /\
    Forall2 (told_node main names g e r c) (nodes c) (en_nodes en).
(** One way of calling the names throughout. *)
Record one_naming (main : refname) (names : gset refname) (g : refname -> refname) : Prop := {
  on_public : forall n, ~ private main n -> g n = n;
  on_private : forall n, n ∈ names -> private main n /\ exists k, (k < N.of_nat (size names))%N /\ stand_in n k (g n);
  on_apart : forall n n', n ∈ names -> n' ∈ names -> g n = g n' -> n = n' }.

(** What a requested rebase means, as relations on commits. *)
From Verif Require Import Base TextModel DagModel DagSpec StrModel HookModel PlanModel.

Section requests.
Context (d : dag) (cs : list constraint).
Let g := dag_graph d.

(** [p] is the one parent of [c]. *)
Definition only_parent (g : graph) (c p : oid) : Prop := forall q, parent g q c <-> q = p.

(** The request says where this commit goes. *)
Definition about (c : oid) (x : constraint) : Prop :=
  match x with
  | MoveChildren _ _ => False
  | MoveSubtree _ c' => c' = c
  | FixUpCommit _ f => f = c
  end.
(** The last request about [c] puts it on top of [p] (perhaps among others). *)
Definition placed (c p : oid) : Prop :=
  exists before ps after, cs = before ++ MoveSubtree ps c :: after /\ p ∈ ps /\ Forall (fun x => ~ about c x) after.

(** The request takes the commits from [a] to [b] out of their place. *)
Definition takes_out (x : constraint) (a b : oid) : Prop :=
  x = MoveChildren a b \/ exists t, x = FixUpCommit t a /\ a = b.
Definition fixup_target (t : oid) : Prop := exists f, FixUpCommit t f ∈ cs.

(** Moved by one of the earlier requests, or placed by any. *)
Definition moved_by (before : list constraint) (c : oid) : Prop :=
  (exists p, placed c p) \/
  exists x a b, x ∈ before /\ takes_out x a b /\ parent g b c /\ visible d c.
(** The end of some range that has been moved itself. *)
Definition gone (before : list constraint) (c : oid) : Prop :=
  (exists x a, x ∈ cs /\ takes_out x a c) /\ moved_by before c.

(** From a commit down to the nearest ancestor that stays. *)
Inductive settles (gone : oid -> Prop) : oid -> oid -> Prop :=
| settles_here c p : only_parent g c p -> ~ gone p -> settles gone c p
| settles_below c q p : only_parent g c q -> gone q -> settles gone q p -> settles gone c p.

(** The children of the end of a range close the gap: [c] goes on top of [p]. *)
Definition closes_gap_in (cs' : list constraint) (c p : oid) : Prop :=
  (forall q, ~ placed c q) /\ visible d c /\
  exists before x after a b,
    cs' = before ++ x :: after /\ takes_out x a b /\ parent g b c /\
    (forall y a' b', y ∈ before -> takes_out y a' b' -> ~ parent g b' c) /\
    settles (gone before) a p.
Definition closes_gap : oid -> oid -> Prop := closes_gap_in cs.

Definition requested (c : oid) : Prop := exists p, placed c p \/ closes_gap c p.

(** Commits above those stay on top of their parents. *)
Definition follows (c p : oid) : Prop :=
  ~ requested c /\ visible d c /\ parent g p c /\
  exists a, (requested a \/ fixup_target a) /\ proper_ancestor g a c.

(** [p] is to be a parent of [c] in the result. *)
Definition new_parent (p c : oid) : Prop := placed c p \/ closes_gap c p \/ follows c p.
Definition moves (c : oid) : Prop := exists p, new_parent p c.

(** Every range has a place where the gap can be closed. *)
Definition gaps_close : Prop :=
  forall before x after a b, cs = before ++ x :: after -> takes_out x a b ->
    exists p, settles (gone before) a p.

(** The squashed-into commits stay where they are, or are told where to go. *)
Definition targets_stay : Prop :=
  forall t, fixup_target t -> ~ requested t ->
    ~ exists a, (requested a \/ fixup_target a) /\ proper_ancestor g a t.
End requests.

(** Some commit would become its own ancestor. *)
Definition impossible (d : dag) (cs : list constraint) : Prop :=
  exists c, tc (new_parent d cs) c c.

(** ** Plans *)

(** The commit a command replays. *)
Definition replays (x : command) : list oid :=
  match x with
  | Pick c _ | Merge c _ | Replace c _ _ | SkipUpstream c => [c]
  | CreateLabel _ | Reset_ _ | Break_ | RegisterExtra | DetectEmpty _ => []
  end.
Definition replayed (cmds : list command) : list oid := flat_map replays cmds.

(** The commits whose contents a command applies. *)
Definition applies (x : command) : list oid :=
  match x with
  | Pick _ l => l
  | Merge c _ | Replace c _ _ => [c]
  | CreateLabel _ | Reset_ _ | Break_ | RegisterExtra | DetectEmpty _ | SkipUpstream _ => []
  end.

(** The labels a command refers to, and those it creates. *)
Definition place_label (t : oid_or_label) : list string :=
  match t with AtOid _ => [] | AtLabel l => [l] end.
Definition label_uses (x : command) : list string :=
  match x with
  | Reset_ t => place_label t
  | Merge _ ts | Replace _ _ ts => flat_map place_label ts
  | _ => []
  end.
Definition label_defs (x : command) : list string :=
  match x with CreateLabel l => [l] | _ => [] end.

(** ** Requests a plan can carry out *)
Definition fixed_up (cs : list constraint) (f : oid) : Prop := exists t, FixUpCommit t f ∈ cs.
Definition merge_commit (g : graph) (c : oid) : Prop := exists ps, (c, ps) ∈ g /\ (1 < length ps)%nat.
(** The commits that get a new version. *)
Definition rebuilt (d : dag) (cs : list constraint) (c : oid) : Prop := moves d cs c \/ fixup_target cs c.

(** The planner reads the same commits as the graph. *)
Definition knows (d : dag) (e : plan_env) : Prop :=
  forall c, c ∈ vertices (dag_graph d) ->
    exists cm, pe_find e c = Some cm /\ commit_parents cm = parents_of (dag_graph d) c.

Record plannable (d : dag) (e : plan_env) (cs : list constraint) : Prop := {
  (** the commits and the replacements exist *)
  pl_exists : forall c, rebuilt d cs c -> c ∈ vertices (dag_graph d);
  pl_replace : forall c r, pe_replace e !! c = Some r -> exists rc, pe_find e r = Some rc;
  (** a commit that is no merge goes to one place *)
  pl_one : forall p p' c, ~ merge_commit (dag_graph d) c -> new_parent d cs p c -> new_parent d cs p' c -> p = p';
  (** merges keep their parents, and have nothing to do with squashing *)
  pl_merge : forall c, merge_commit (dag_graph d) c -> rebuilt d cs c ->
    ~ fixup_target cs c /\ ~ fixed_up cs c /\
    (forall p, parent (dag_graph d) p c -> fixup_target cs p -> moves d cs p) /\
    (forall p, rebuilt d cs p -> new_parent d cs p c <-> parent (dag_graph d) p c);
  (** commits squashed into have a parent, and stay or are told where to go *)
  pl_target : forall t, fixup_target cs t -> exists p, parent (dag_graph d) p t;
  pl_stay : targets_stay d cs }.

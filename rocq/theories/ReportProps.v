(** C110, C111 and C112: what a bug report tells, how it calls the references, and what the description of a commit
    says. *)
From stdpp Require Import pretty sorting.
From Verif Require Import Base TextModel EventLogModel EventLogSpec EventLogProofs EvolveSpec StrModel ExecModel PhabModel PhabSpec PhabProofs ReportModel ReportSpec
  ReportProofs ReportLikeProofs.
Local Open Scope string_scope.
Local Open Scope list_scope.

Local Arguments NonZero _%N.
Local Arguments CommitEvent _%Z _ _%N.
Local Arguments ObsoleteEvent _%Z _ _%N.
Local Arguments RefUpdateEvent _%Z _ _ _ _ _.
Local Arguments SnapshotEvent _%Z _ _ _%N _.
Local Arguments RewriteEvent _%Z _ _ _.
Local Arguments Known _%N _ _%Z _ _.
Local Arguments Collected _%N.
Local Arguments mk_ne _%Z.

(** ** C110: private names and messages are not told *)

(** Two repositories that differ in the private names of references and in the texts of commits give the same
    report. *)
Theorem c110_not_told : forall main f log e e' d d' nodes nodes', renaming main f -> same_setting f e e' ->
  (forall h, ne_head e = Some h -> private main h -> ~ like_stand_in h /\ ~ like_stand_in (f h)) ->
  tx_table d' = tx_table d -> (forall c, Forall2 same_commit (nodes c) (nodes' c)) ->
  collect_events e' d' (replay main (List.map (rename_event f) log)) nodes' main = collect_events e d (replay main log) nodes main.
Proof.
  intros main f log e e' d d' nodes nodes' R S H D N. unfold collect_events.
  destruct (describe_cursors_spec e d (replay main log) nodes main [0; 1; 2; 3; 4]%nat (replay_invariant main log) ∅ (table_empty main)) as (ens & T & E & _).
  change (List.map Z.of_nat [0; 1; 2; 3; 4]%nat) with [0; 1; 2; 3; 4]%Z in E. rewrite E.
  eapply (describe_cursors_like main f R _ _ (replay_like main f R log) e e' S H d d' D nodes nodes' N); [|apply table_empty|exact E].
  split; [|reflexivity]. intros n. by rewrite !lookup_empty.
Qed.
Print Assumptions c110_not_told.

Definition rp_main : refname := "refs/heads/master".
Definition rp_log : list event :=
  [CommitEvent 1 (TxId 1) 5; RefUpdateEvent 2 (TxId 2) "refs/heads/launch" Zero (NonZero 5) None; RefUpdateEvent 2 (TxId 2) "HEAD" (NonZero 4) (NonZero 5) None;
   SnapshotEvent 3 (TxId 3) (NonZero 5) 9 (Some "refs/heads/launch"); RefUpdateEvent 4 (TxId 4) rp_main (NonZero 4) (NonZero 5) None; ObsoleteEvent 5 (TxId 4) 6].
Definition rp_env : node_env :=
  mk_ne 100000000000 true true true (fun o => if N.eqb o 5 then ["refs/heads/launch"; rp_main; "refs/remotes/origin/launch"] else []) (Some rp_main) ">".
Definition rp_db : db := mk_db [] 4 [(1%Z, "hook-post-commit"); (2%Z, "switch"); (4%Z, "hide")].
Definition chars (s : string) : list N := List.map Ascii.N_of_ascii (list_ascii_of_string s).
Definition rp_nodes (c : cursor) : list node :=
  [Known 5 "0000000" 40000000000 "Our launch" (chars "Our launch"); Collected 6].
Definition rp_nodes' (c : cursor) : list node :=
  [Known 5 "0000000" 40000000000 "Fix a typo" (chars "Fix a typo"); Collected 6].
Definition rp_f : refname -> refname := exchange "refs/heads/launch" "refs/heads/typo".
Definition rp_env' : node_env :=
  mk_ne 100000000000 true true false (fun o => List.map rp_f (ne_branches rp_env o)) (Some rp_main) ">".

Lemma rp_renaming : renaming rp_main rp_f.
Proof.
  apply (exchange_renaming _ _ _ "refs/heads/"); [| |exact (prefix_local "launch")|exact (prefix_local "typo")|].
  - apply is_private_spec. reflexivity.
  - apply is_private_spec. reflexivity.
  - split; intros [x H]; discriminate H.
Qed.
Example c110_example :
  renaming rp_main rp_f /\ same_setting rp_f rp_env rp_env' /\
  (forall h, ne_head rp_env = Some h -> private rp_main h -> ~ like_stand_in h /\ ~ like_stand_in (rp_f h)) /\
  (Forall2 same_commit [Known 5 "0000000" 40000000000 "Our launch" (chars "Our launch")] [Known 5 "0000000" 40000000000 "Fix a typo" (chars "fix launch")]) /\
  List.map (rename_event rp_f) rp_log <> rp_log /\
  option_map (List.map en_events) (collect_events rp_env rp_db (replay rp_main rp_log) rp_nodes rp_main) =
    Some [Some (5%Z, TxId 4, "hide", [RefUpdateEvent 4 (TxId 4) rp_main (NonZero 4) (NonZero 5) None; ObsoleteEvent 5 (TxId 4) 6]);
          Some (4%Z, TxId 3, "<failed to query>", [SnapshotEvent 3 (TxId 3) (NonZero 5) 9 (Some "refs/heads/redacted-ref-0")]);
          Some (2%Z, TxId 2, "switch", [RefUpdateEvent 2 (TxId 2) "refs/heads/redacted-ref-0" Zero (NonZero 5) None; RefUpdateEvent 2 (TxId 2) "HEAD" (NonZero 4) (NonZero 5) None]);
          Some (1%Z, TxId 1, "hook-post-commit", [CommitEvent 1 (TxId 1) 5]);
          None] /\
  option_map (fun l => List.map en_nodes (take 1 l)) (collect_events rp_env rp_db (replay rp_main rp_log) rp_nodes rp_main) =
    Some [[mk_desc "0000000" (Some "1m") None (Some "(> master, redacted-ref-0, remote redacted-ref-1)") None (chars "xxx xxxxxx");
           mk_desc "0000000" None (Some "(manually hidden)") None None (chars "xxxxxxxx xxxxxxxxxx")]].
Proof.
  split; [exact rp_renaming|]. split; [by split|]. split.
  { intros h [= <-] [N _]. done. }
  split.
  { constructor; [|constructor]. constructor. vm_compute. repeat (constructor; [first [left; reflexivity | right; split; unfold space; lia]|]). constructor. }
  split; [discriminate|]. split; vm_compute; reflexivity.
Qed.

(** References whose names have no slash are told. *)
Theorem c110_no_slash_refuted : exists main f log e d nodes,
  (forall n n', f n = f n' -> n = n') /\ f main = main /\ (forall n p, prefix_of n p -> prefix_of (f n) p) /\
  (forall n, should_ignore_ref_updates (f n) = should_ignore_ref_updates n) /\ same_setting f e e /\
  collect_events e d (replay main (List.map (rename_event f) log)) nodes main <> collect_events e d (replay main log) nodes main.
Proof.
  exists rp_main, (exchange "SECRET" "TYPO"), [RefUpdateEvent 1 (TxId 1) "SECRET" Zero (NonZero 5) None],
    (mk_ne 0 true true true (fun _ => []) None ">"), rp_db, (fun _ => []).
  assert (C : forall n, (n = "SECRET" /\ exchange "SECRET" "TYPO" n = "TYPO") \/ (n = "TYPO" /\ exchange "SECRET" "TYPO" n = "SECRET") \/ exchange "SECRET" "TYPO" n = n /\ n <> "SECRET" /\ n <> "TYPO").
  { intros n. unfold exchange. destruct (String.eqb_spec n "SECRET"); [left; auto|]. destruct (String.eqb_spec n "TYPO"); [right; left; auto|]. right; right; auto. }
  split; [|split; [|split; [|split; [|split]]]].
  - intros n n'. pose proof (C n). pose proof (C n'). intuition congruence.
  - reflexivity.
  - intros n p H. destruct (C n) as [[-> ->]|[[-> ->]|(-> & _)]]; [| |exact H]; inversion H; subst; constructor; intros [x X]; discriminate X.
  - intros n. destruct (C n) as [[-> ->]|[[-> ->]|(-> & _)]]; reflexivity.
  - by split.
  - vm_compute. discriminate.
Qed.
Print Assumptions c110_no_slash_refuted.

(** The name of the branch that is checked out can be seen if it looks like a replacement. *)
Theorem c110_head_refuted : exists main f log e e' d nodes, renaming main f /\ same_setting f e e' /\
  collect_events e' d (replay main (List.map (rename_event f) log)) nodes main <> collect_events e d (replay main log) nodes main.
Proof.
  exists rp_main, (exchange "refs/heads/launch" "refs/heads/redacted-ref-0"), [],
    (mk_ne 0 true true true (fun _ => ["refs/heads/launch"]) (Some "refs/heads/launch") ">"),
    (mk_ne 0 true true true (fun _ => ["refs/heads/redacted-ref-0"]) (Some "refs/heads/redacted-ref-0") ">"), rp_db, (fun _ => [Collected 5]).
  split.
  - apply (exchange_renaming _ _ _ "refs/heads/"); [| |exact (prefix_local "launch")|exact (prefix_local "redacted-ref-0")|].
    + apply is_private_spec. reflexivity.
    + apply is_private_spec. reflexivity.
    + split; intros [x H]; discriminate H.
  - split; [by split|]. vm_compute. discriminate.
Qed.
Print Assumptions c110_head_refuted.

(** ** C111: one way of calling the references *)

(** A report is always made, and is about the last five transactions.  Each private name has one replacement in all of
    it, of the same kind and with its own number; other names are told as they are. *)
Theorem c111_one_naming : forall e d main log nodes, exists ens names g,
  collect_events e d (replay main log) nodes main = Some ens /\ one_naming main names g /\
  Forall2 (told main names g e d (replay main log) nodes) [0; 1; 2; 3; 4]%nat ens.
Proof.
  intros e d main log nodes.
  destruct (describe_cursors_spec e d (replay main log) nodes main [0; 1; 2; 3; 4]%nat (replay_invariant main log) ∅ (table_empty main)) as (ens & T & E & O & _ & F).
  exists ens, (dom T), (calls main T). split; [exact E|]. split; [by apply calls_one_naming|exact F].
Qed.
Print Assumptions c111_one_naming.

(** References that are told apart by name are told apart in the report, unless a name that is kept looks like a
    replacement. *)
Theorem c111_apart : forall main names g n n', one_naming main names g ->
  (private main n -> n ∈ names) -> (private main n' -> n' ∈ names) ->
  (~ private main n -> ~ like_stand_in n) -> (~ private main n' -> ~ like_stand_in n') -> g n = g n' -> n = n'.
Proof.
  intros main names g n n' O Hn Hn' Ln Ln' E.
  destruct (is_private main n) eqn:P, (is_private main n') eqn:P'; (apply is_private_spec in P || apply is_private_false in P); (apply is_private_spec in P' || apply is_private_false in P').
  - by apply (on_apart _ _ _ O); auto.
  - destruct (on_private _ _ _ O n (Hn P)) as (_ & k & _ & S). rewrite E, (on_public _ _ _ O n' P') in S. destruct (Ln' P'). by exists n, k.
  - destruct (on_private _ _ _ O n' (Hn' P')) as (_ & k & _ & S). rewrite <- E, (on_public _ _ _ O n P) in S. destruct (Ln P). by exists n', k.
  - by rewrite (on_public _ _ _ O n P), (on_public _ _ _ O n' P') in E.
Qed.
Print Assumptions c111_apart.

Example c111_example :
  one_naming rp_main {["refs/heads/launch"; "refs/remotes/origin/launch"]}
    (fun n => if String.eqb n "refs/heads/launch" then "refs/heads/redacted-ref-0" else if String.eqb n "refs/remotes/origin/launch" then "refs/remotes/redacted-ref-1" else n).
Proof.
  split.
  - intros n P. destruct (String.eqb_spec n "refs/heads/launch") as [->|_]; [destruct P; by apply is_private_spec|].
    destruct (String.eqb_spec n "refs/remotes/origin/launch") as [->|_]; [destruct P; by apply is_private_spec|]. reflexivity.
  - intros n [->%elem_of_singleton| ->%elem_of_singleton]%elem_of_union.
    + split; [by apply is_private_spec|]. exists 0%N. split; [vm_compute; reflexivity|]. exists "refs/heads/". split; [exact (prefix_local "launch")|reflexivity].
    + split; [by apply is_private_spec|]. exists 1%N. split; [vm_compute; reflexivity|]. exists "refs/remotes/". split; [exact (prefix_remote "origin/launch")|reflexivity].
  - intros n n' [->%elem_of_singleton| ->%elem_of_singleton]%elem_of_union [->%elem_of_singleton| ->%elem_of_singleton]%elem_of_union H; try reflexivity; discriminate H.
Qed.

(** Two references can be called the same. *)
Theorem c111_clash_refuted : exists main e d nodes n n' ts tx old new old' new', n <> n' /\
  exists id msg ens, collect_events e d (replay main [RefUpdateEvent ts tx n old new None; RefUpdateEvent ts tx n' old' new' None]) nodes main =
    Some (mk_entry (Some (id, tx, msg, [RefUpdateEvent ts tx n old new None; RefUpdateEvent ts tx n old' new' None])) [] :: ens).
Proof.
  exists "refs/heads/redacted-ref-0", (mk_ne 0 true true true (fun _ => []) None ">"), rp_db, (fun _ => []),
    "refs/heads/redacted-ref-0", "refs/heads/launch", 1%Z, (TxId 1), Zero, (NonZero 5%N), Zero, (NonZero 6%N).
  split; [discriminate|]. eexists _, _, _. vm_compute. reflexivity.
Qed.
Print Assumptions c111_clash_refuted.

(** The mark of the branch that is checked out is lost. *)
Theorem c111_mark_refuted : exists main e d nodes b, ne_head e = Some b /\ b ∈ ne_branches e 5%N /\ private main b /\ ne_arrow e = ">" /\
  exists ens, collect_events e d (replay main []) nodes main =
    Some (mk_entry None [mk_desc "0000000" None None (Some "(redacted-ref-0)") None (chars "xxxxxxxx xxxxxxxxxx")] :: ens).
Proof.
  exists rp_main, (mk_ne 0 true true true (fun _ => ["refs/heads/launch"]) (Some "refs/heads/launch") ">"), rp_db, (fun _ => [Collected 5]), "refs/heads/launch".
  split; [reflexivity|]. split; [constructor|]. split; [by apply is_private_spec|]. split; [reflexivity|]. eexists. vm_compute. reflexivity.
Qed.
Print Assumptions c111_mark_refuted.

(** ** C112: what the description of a commit says *)

(** Nothing is left out or changed without redaction. *)
Theorem c112_said : forall e main log c t x, valid_cursor (replay main log) c ->
  exists ds, describe e (replay main log) c Disabled t x = Some (ds, t) /\
    said_why (upto (events (replay main log)) c) (node_oid x) (ds_why ds) /\
    says_names e (ne_branches e (node_oid x)) (ds_branches ds) /\
    match x with
    | Known o short time text summary => ds_oid ds = short /\ ds_summary ds = summary /\
        (ne_times e = true -> exists d s, seconds_since (ne_now e) time d /\ aged d s /\ ds_age ds = Some s) /\
        (ne_times e = false -> ds_age ds = None) /\
        (forall i, ne_revisions e = true /\ text_links text i <-> ds_revision ds = Some ("D" +:+ i)) /\
        (ds_revision ds = None <-> ne_revisions e = false \/ forall i, ~ text_links text i)
    | Collected o => ds_summary ds = chars "<garbage collected>" /\ ds_age ds = None /\ ds_revision ds = None /\
        exists rest, oid_to_string o = ds_oid ds +:+ rest /\ String.length (ds_oid ds) = 7%nat
    end.
Proof.
  intros e main log c t x V. pose proof (replay_invariant main log) as Hi. unfold describe.
  destruct (describe_why_spec _ _ (node_oid x) Hi V) as (w & -> & W). destruct (describe_branches_disabled e t (node_oid x)) as (s & -> & S).
  eexists. split; [reflexivity|]. split; [exact W|]. split; [exact S|]. destruct x as [o short time text summary|o]; cbn [ds_oid ds_summary ds_age ds_revision].
  - split; [reflexivity|]. split; [reflexivity|]. unfold describe_age, describe_revision. split.
    { intros ->. eexists _, _. split; [apply time_delta_since|]. split; [apply describe_delta_aged|reflexivity]. }
    split; [by intros ->|]. destruct (ne_revisions e).
    + split.
      * intros i. rewrite <- id_in_spec. destruct (id_in text) as [j|]; split.
        -- intros [_ [= ->]]. reflexivity.
        -- intros E. split; [reflexivity|]. injection E as E. by rewrite E.
        -- intros [_ E]. discriminate E.
        -- discriminate.
      * destruct (id_in text) as [j|] eqn:E; split.
        -- discriminate.
        -- intros [H|H]; [discriminate H|]. apply id_in_spec in E. destruct (H j E).
        -- intros _. right. by apply id_in_none.
        -- reflexivity.
    + split; [intros i; split; [intros [H _]; discriminate H|discriminate]|]. split; [intros _; by left|reflexivity].
  - split; [reflexivity|]. split; [unfold describe_age; by destruct (ne_times e)|]. split; [unfold describe_revision; by destruct (ne_revisions e)|].
    cbn [short_oid]. destruct (substring_prefix (oid_to_string o) 7) as (r & A & B); [pose proof (moid_length (NonZero o)) as Y; cbn [moid_to_string] in Y; lia|]. by exists r.
Qed.
Print Assumptions c112_said.

(** There is one age that can be said. *)
Theorem c112_age_unique : forall now previous d d' s s', seconds_since now previous d -> seconds_since now previous d' -> aged d s -> aged d' s' -> d = d' /\ s = s'.
Proof. intros now previous d d' s s' A A' B B'. assert (d = d') as -> by (by eapply seconds_unique). split; [reflexivity|]. by eapply aged_unique. Qed.
Print Assumptions c112_age_unique.

(** A commit is explained exactly if it is hidden. *)
Theorem c112_explained : forall es o s, said_why es o s -> s <> None <-> visibility es o Obsolete.
Proof.
  intros es o s [(V & ts & tx & _ & ->)|[(V & m & w & r & _ & _ & _ & ->)|[V ->]]]; split; try done.
Qed.
Print Assumptions c112_explained.

Definition rp_log2 : list event := [RewriteEvent 1 (TxId 1) (NonZero 5) (NonZero 6); RewriteEvent 2 (TxId 2) (NonZero 6) (NonZero 7); RewriteEvent 3 (TxId 3) (NonZero 8) Zero].
Example c112_example :
  valid_cursor (replay rp_main rp_log2) 3%Z /\
  option_map fst (describe rp_env (replay rp_main rp_log2) 3%Z Disabled ∅ (Known 5 "abc" (-99999999999999999) ("Go" +:+ newline +:+ newline +:+ "Differential Revision: https://x/D12") (chars "Go"))) =
    Some (mk_desc "abc" (Some "3y") (Some "(rewritten as 00000000)") (Some "(> master, launch, remote origin/launch)") (Some "D12") (chars "Go")) /\
  option_map (fun p => ds_why (fst p)) (describe rp_env (replay rp_main rp_log2) 3%Z Disabled ∅ (Collected 8)) = Some (Some "(rewritten as 00000000)") /\
  option_map (fun p => ds_why (fst p)) (describe rp_env (replay rp_main rp_log2) 3%Z Disabled ∅ (Collected 7)) = Some None.
Proof. split; [unfold valid_cursor; vm_compute; split; discriminate|]. split; [vm_compute; reflexivity|]. split; vm_compute; reflexivity. Qed.

(** Properties C84 to C86: amending. *)
From stdpp Require Import sorting relations countable.
From Verif Require Import ModeModel TreeModel TreeSpec TreeWitness TreeProps.
From Verif Require Import Base TextModel EventLogModel EventLogSpec EventLogProofs EvolveModel EvolveSpec
  DagModel DagSpec DagProofs DagCompProofs StrModel StrProofs HookModel HookSpec PlanModel PlanSpec PlanProofs PlanBuildProofs PlanProps ExecModel ExecSpec ExecAfterProofs ExecProps
  HideModel HideSpec HideProofs HideProps RestackModel RestackSpec RestackProofs RestackProps SyncModel SyncSpec SyncProofs SyncProps
  MoveModel MoveSpec MoveProofs MoveProps SnapModel AmendModel AmendSpec AmendProofs.
Local Open Scope string_scope.
Local Open Scope list_scope.

(** How far it goes: the new commit was made. *)
Lemma amend_went s r h ts i b n : amendable s r h -> let res := amend s ts (TxId i) b r in
  ar_new res = Some n -> unknown (as_restack s) r n ->
  exists x tc f t ts', rr_store r !! h = Some x /\ with_trees (rr_store r) x = Some tc /\ takes (as_status s) f /\
    amend_fast (as_trees s) (as_merger s) (as_files s) (as_store s) tc f = Picked t ts' /\ went s r h b n x t res.
Proof.
  intros A res Hn U. pose proof (amend_ends s r h ts i b A) as E. cbn zeta in E. fold res in E.
  destruct (ar_end res) eqn:D; try (destruct E as (_ & _ & _ & _ & E); now apply E); exfalso.
  - exact E.
  - destruct E as (_ & _ & E). congruence.
  - destruct E as (_ & _ & _ & E). congruence.
  - destruct E as (_ & _ & _ & _ & E). congruence.
Qed.

(** ** C84: the commits above *)

(** HEAD becomes the new commit with its branch, and the commits shown above are put on top
    of it with their changes; or, if that is not possible, they stay where they are. *)
Theorem c84_amended : forall s r h ts i n, amendable s r h -> let res := amend s ts (TxId i) false r in
  ar_new res = Some n -> unknown (as_restack s) r n ->
  match ar_end res with
  | Amended => let rw := default ∅ (ar_rewritten res) in
      amend_done s r h n rw (ar_repo res) /\ restacked_above (as_restack s) r h n rw (rr_store (ar_repo res))
  | AmendedAlone _ => amend_done s r h n ∅ (ar_repo res)
  | _ => ~ workable (as_restack s) r
  end.
Proof.
  intros s r h ts i n A res Hn U. destruct (amend_went s r h ts i false n A Hn U) as (x & tc & f & t & ts' & _ & _ & _ & _ & W).
  unfold went in W. fold res in W. destruct (ar_end res); try contradiction; try exact W.
  - destruct W as (rw & -> & _ & D & M). auto.
  - destruct W as (_ & _ & D & _). exact D.
Qed.
(** They are put there unless one is a merge or has a conflict. *)
Theorem c84_through : forall s r h ts i n, amendable s r h -> let res := amend s ts (TxId i) false r in
  ar_new res = Some n -> unknown (as_restack s) r n -> workable (as_restack s) r ->
  ar_end res = Amended \/ exists c, ar_end res = AmendedAlone c /\ above (he_graph (re_hide (as_restack s))) (rr_repo r) h c /\
    (merge_commit (he_graph (re_hide (as_restack s))) c \/ exists q, ee_pick (re_exec (as_restack s)) c q = Conflict).
Proof.
  intros s r h ts i n A res Hn U K. destruct (amend_went s r h ts i false n A Hn U) as (x & tc & f & t & ts' & _ & _ & _ & _ & W).
  unfold went in W. fold res in W. destruct (ar_end res); try contradiction; [now left|]. right.
  destruct W as (_ & _ & _ & W). exists at_. destruct (W K) as (_ & W1 & W2). auto.
Qed.

(** ** C85: keeping the contents of the commits above *)

(** With [--reparent] the commits above keep their contents, and nothing keeps them from
    being put on top of the new commit.  Missing: merges that HEAD is a parent of (false, see
    [c85_merge_refuted]). *)
Theorem c85_reparented_partial : forall s r h ts i n, amendable s r h -> let res := amend s ts (TxId i) true r in
  ar_new res = Some n -> unknown (as_restack s) r n ->
  match ar_end res with
  | Amended => let rw := default ∅ (ar_rewritten res) in
      amend_done s r h n rw (ar_repo res) /\ reparented_above (as_restack s) r h n rw (rr_store (ar_repo res))
  | _ => ~ workable (as_restack s) r
  end.
Proof.
  intros s r h ts i n A res Hn U. destruct (amend_went s r h ts i true n A Hn U) as (x & tc & f & t & ts' & _ & _ & _ & _ & W).
  unfold went in W. fold res in W. destruct (ar_end res); try contradiction; try exact W.
  - destruct W as (rw & -> & _ & D & M). auto.
  - destruct W as (_ & _ & _ & W). intros K. destruct (W K) as (X & _). discriminate.
Qed.

(** ** C86: what is amended, and when *)

Lemma some_or_not (f : sn_entry -> bool) (l : list sn_entry) : (exists x, x ∈ l /\ f x = true) \/ ~ exists x, x ∈ l /\ f x = true.
Proof.
  destruct (existsb f l) eqn:E.
  - left. apply existsb_exists in E as (x & Hx & Fx). exists x. split; [now apply elem_of_list_In|exact Fx].
  - right. intros (x & Hx & Fx). apply elem_of_list_In in Hx. assert (existsb f l = true) by (apply existsb_exists; eauto). congruence.
Qed.
(** It is refused when there are conflicts in the index or HEAD is public, and otherwise does
    nothing if there are no changes; apart from the note about the working copy nothing is
    different then. *)
Theorem c86_refused : forall s r h ts i b, amendable s r h -> let res := amend s ts (TxId i) b r in
  let public := re_force (as_restack s) = false /\ is_public (as_restack s) r h in
  let changes := some_staged (as_status s) \/ some_changed (as_status s) in
  match ar_end res with
  | NoCommit => False
  | Unresolved => as_unmerged s = true /\ ar_repo res = r
  | RewritesPublic => as_unmerged s = false /\ public /\ ar_repo res = r
  | NothingToAmend => as_unmerged s = false /\ ~ public /\ ~ changes /\ ar_repo res = noted s ts i h r
  | _ => as_unmerged s = false /\ ~ public /\ changes /\ (ar_new res = None -> ar_end res = AmendFails /\ ar_repo res = noted s ts i h r)
  end.
Proof.
  intros s r h ts i b A res public changes. pose proof (amend_ends s r h ts i b A) as E. cbn zeta in E. fold res in E.
  pose proof (some_or_not (fun x => is_changed (sn_index x)) (as_status s)) as D1. fold (some_staged (as_status s)) in D1.
  pose proof (some_or_not (fun x => is_changed (sn_wc x)) (as_status s)) as D2. fold (some_changed (as_status s)) in D2.
  unfold public, changes. destruct (ar_end res) eqn:D;
    first [contradiction|destruct E as (E1 & E2 & E3 & E4 & _); split_and!; auto; intros X; tauto|destruct E as (E1 & E2 & E3 & _); split_and!; auto; tauto|tauto].
Qed.

(** What is staged goes into the new commit: paths staged have what the index has, and paths
    not below one are as they were.  Missing: as for C38. *)
Definition staged_path (l : list sn_entry) (p : path) : Prop :=
  exists x, x ∈ l /\ is_changed (sn_index x) = true /\ (p = sn_path x \/ sn_orig x = Some p).
Theorem c86_index_partial : forall s r h ts i b n x t, amendable s r h -> let res := amend s ts (TxId i) b r in
  ar_new res = Some n -> unknown (as_restack s) r n -> workable (as_restack s) r -> some_staged (as_status s) ->
  TreeSpec.sound (as_trees s) (as_store s) -> makes_files (as_merger s) -> only_files (ae_index (as_files s)) ->
  rr_store r !! h = Some x -> as_store s !! commit_tree (ob_commit x) = Some t ->
  exists y tc st' t', rr_store (ar_repo res) !! n = Some y /\ with_trees (rr_store r) x = Some tc /\
    st' !! commit_tree (ob_commit y) = Some t' /\ as_store s ⊆ st' /\ TreeSpec.sound (as_trees s) st' /\
    forall p, p <> [] -> (forall q m q', staged_path (as_status s) q \/ touches (as_store s) tc q -> q <> p ++ m :: q') ->
      let idx := ae_index (as_files s) in
      (staged_path (as_status s) p -> (forall m, idx !! p <> Some (Zero, m)) -> (forall o m, index_file idx p = Some (o, m) -> usual_mode m) ->
         entry_at st' t' p = index_file idx p)
      /\ ((forall q, staged_path (as_status s) q -> ~ q `prefix_of` p) -> option_map seen (entry_at st' t' p) = option_map seen (entry_at (as_store s) t p)).
Proof.
  intros s r h ts i b n x t A res Hn U K Sg So Mk Of Hx Ht.
  destruct (amend_went s r h ts i b n A Hn U) as (x' & tc & f & t0 & st' & Hx' & Tc & Tk & Af & W). rewrite Hx in Hx'. injection Hx' as <-.
  assert (Y : rr_store (ar_repo res) !! n = Some (amended_object s x t0)).
  { unfold went in W. fold res in W. destruct (ar_end res); try contradiction.
    - destruct W as (rw & _ & W & _). exact W.
    - destruct W as (_ & W & _). exact W. }
  destruct f as [l|l|c]; cbn [takes] in Tk; [now destruct (proj1 Tk Sg)| |contradiction].
  destruct Tk as [_ Tk]. change (forall p, p ∈ l <-> staged_path (as_status s) p) in Tk.
  assert (Tt : as_store s !! tc_tree tc = Some t).
  { unfold with_trees in Tc. destruct (all_some _); [|discriminate]. injection Tc as <-. exact Ht. }
  destruct (c38_index_partial _ _ _ _ _ _ _ _ _ Af So Mk Of Tt) as (t' & Ht' & Sub & Sd & P).
  exists (amended_object s x t0), tc, st', t'. split_and!; auto. intros p Hp Hq idx. destruct (P p Hp) as [P1 P2].
  { intros q m q' H. apply Hq. rewrite <- Tk. exact H. }
  split; [intros H; apply P1; now apply Tk|]. intros H. apply P2. intros q Hi. apply H. now apply Tk.
Qed.
(** If nothing is staged the changes of the working copy go into the new commit. *)
Definition changed_path (l : list sn_entry) (p : path) (m : file_mode) : Prop :=
  exists x, x ∈ l /\ is_changed (sn_wc x) = true /\ (p = sn_path x \/ sn_orig x = Some p) /\ m = sn_mode x.
Theorem c86_working_copy_partial : forall s r h ts i b n x t, amendable s r h -> let res := amend s ts (TxId i) b r in
  ar_new res = Some n -> unknown (as_restack s) r n -> workable (as_restack s) r -> ~ some_staged (as_status s) ->
  TreeSpec.sound (as_trees s) (as_store s) -> makes_files (as_merger s) -> (forall y, y ∈ as_status s -> sn_mode y <> TreeMode) ->
  rr_store r !! h = Some x -> as_store s !! commit_tree (ob_commit x) = Some t ->
  exists y tc st' t', rr_store (ar_repo res) !! n = Some y /\ with_trees (rr_store r) x = Some tc /\
    st' !! commit_tree (ob_commit y) = Some t' /\ as_store s ⊆ st' /\ TreeSpec.sound (as_trees s) st' /\
    forall p, p <> [] -> (forall q m q', (exists o, changed_path (as_status s) q o) \/ touches (as_store s) tc q -> q <> p ++ m :: q') ->
      (forall m c, changed_path (as_status s) p m -> (forall m', changed_path (as_status s) p m' -> m' = m) ->
         plain_contents (ae_disk (as_files s)) p c -> entry_at st' t' p = option_map (fun o => (o, mode_number m)) c)
      /\ ((forall q m, changed_path (as_status s) q m -> ~ q `prefix_of` p) ->
            option_map seen (entry_at st' t' p) = option_map seen (entry_at (as_store s) t p)).
Proof.
  intros s r h ts i b n x t A res Hn U K Sg So Mk Of Hx Ht.
  destruct (amend_went s r h ts i b n A Hn U) as (x' & tc & f & t0 & st' & Hx' & Tc & Tk & Af & W). rewrite Hx in Hx'. injection Hx' as <-.
  assert (Y : rr_store (ar_repo res) !! n = Some (amended_object s x t0)).
  { unfold went in W. fold res in W. destruct (ar_end res); try contradiction.
    - destruct W as (rw & _ & W & _). exact W.
    - destruct W as (_ & W & _). exact W. }
  destruct f as [l|l|c]; cbn [takes] in Tk; [|now destruct (Sg (proj1 Tk))|contradiction].
  destruct Tk as [_ Tk].
  assert (Ch : forall p m, changed_path (as_status s) p m <-> exists y, y ∈ l /\ lists y p /\ we_mode y = m).
  { intros p m. unfold changed_path, lists. split.
    - intros (y & Hy & C & Hp & ->). exists (mk_we (sn_path y) (sn_orig y) (sn_mode y)). split; [apply Tk; now exists y|]. cbn. auto.
    - intros (y & Hy & Hp & <-). apply Tk in Hy as (z & Hz & C & ->). exists z. cbn in *. auto. }
  assert (Tt : as_store s !! tc_tree tc = Some t).
  { unfold with_trees in Tc. destruct (all_some _); [|discriminate]. injection Tc as <-. exact Ht. }
  assert (Of' : forall y, y ∈ l -> we_mode y <> TreeMode) by (intros y Hy; apply Tk in Hy as (z & Hz & _ & ->); now apply Of).
  destruct (c38_working_copy_partial _ _ _ _ _ _ _ _ _ Af So Mk Of' Tt) as (t' & Ht' & Sub & Sd & P).
  exists (amended_object s x t0), tc, st', t'. split_and!; auto. intros p Hp Hq. destruct (P p Hp) as [P1 P2].
  { intros q m q' [(y & Hy & Hl)|H]; apply Hq; [|now right]. left. exists (we_mode y). apply Ch. eauto. }
  split.
  - intros m c Hc Hu Hd. apply Ch in Hc as (y & Hy & Hl & <-). apply (P1 y c Hy Hl); [|exact Hd]. intros z Hz Hlz. apply Hu. apply Ch. eauto.
  - intros H. apply P2. intros q y Hy Hl. apply (H q (we_mode y)). apply Ch. eauto.
Qed.

(** ** Demonstrations *)
Local Open Scope N_scope.

(** The file "f" is staged and "g" removed in the commit 2 on 1, which the main branch is
    at; above are 3 with 4, and 5. *)
Definition adm_staged : list sn_entry := [SnEntry Modified Modified BlobExecutable ["f"] None; SnEntry Deleted Unmodified Blob ["g"] None].
Definition adm_tree : oid :=
  match amend_fast plain_env plain_merger f_staged fold_store adds_both (FromIndex [["f"]; ["g"]]) with Picked t _ => t | _ => 0 end.
Definition adm_object (c : oid) (ps : list oid) : oid * object :=
  (c, mk_object (mk_commit ps (if decide (c = 1) then name_of none else if decide (c = 2) then name_of both else c + 10)) (c + 20) (c + 30) (c + 40)).
Definition adm_objects (g : graph) : list (oid * object) := List.map (fun v => adm_object (fst v) (snd v)) g.
Definition adm_new : oid * object := (11, mk_object (mk_commit [1] adm_tree) 24 33 42).
Definition adm_env (g : graph) (more : list (oid * object)) (pick : oid -> oid -> attempt) : restack_env :=
  mdemo_env g (adm_objects g ++ adm_new :: more) pick (fun _ _ => Conflict).
Definition adm_setting (g : graph) (more : list (oid * object)) (pick : oid -> oid -> attempt) (st : list sn_entry) : amend_setting :=
  mk_as (adm_env g more pick) false st 99 plain_env plain_merger f_staged fold_store (fun n => n + 2)
    (fun _ => [RefUpdateEvent 5%Z (TxId 5%Z) "HEAD" (NonZero 2) (NonZero 11) None]).
Definition adm_log (l : list oid) : list event := List.map (CommitEvent 1%Z (TxId 1%Z)) l.
Definition adm_repo (g : graph) (refs : list (refname * oid)) (log : list event) : rrepo :=
  mk_rrepo (list_to_map (adm_objects g)) (mk_hrepo (list_to_map ([("refs/heads/main", 1); ("refs/heads/a", 2); ("refs/heads/b", 4)] ++ refs))
    (mk_head (Some 2) (Some "refs/heads/a")) log).
Definition adm_graph : graph := [(1, []); (2, [1]); (3, [2]); (4, [3]); (5, [2])].
Definition adm : rrepo := adm_repo adm_graph [] (adm_log [2; 3; 4; 5]).

Lemma adm_amendable g more pick st l : ordered_from ∅ g = true -> rdemo_good g (adm_objects g ++ adm_new :: more) (adm_repo g [] (adm_log l)) = true ->
  amendable (adm_setting g more pick st) (adm_repo g [] (adm_log l)) 2.
Proof.
  intros O G. constructor.
  - now apply mdemo_restackable.
  - split; [reflexivity|now left].
  - reflexivity.
  - intros b E. cbn in E. injection E as E. subst b. split; [discriminate|]. intros n Hn.
    rewrite !elem_of_cons, elem_of_nil in Hn. destruct Hn as [-> |[-> |[-> |[]]]]; (split; [vm_compute; reflexivity|intros o; discriminate]).
  - intros r' x o Hx. cbn in Hx. apply elem_of_list_singleton in Hx as ->. intros C. destruct C as [C|C]; destruct C.
Qed.
Lemma adm_unknown g more pick st l : bool_decide (11 ∈ vertices g) = false -> bool_decide (11 ∈ l) = false ->
  unknown (as_restack (adm_setting g more pick st)) (adm_repo g [] (adm_log l)) 11.
Proof.
  intros V L. split; [split; reflexivity|]. split; [now apply bool_decide_eq_false in V|]. intros x Hx C.
  cbn in Hx. unfold adm_log in Hx. apply elem_of_list_In, in_map_iff in Hx as (o & <- & Ho). apply elem_of_list_In in Ho.
  destruct C as [C|[]]. cbn in C. apply bool_decide_eq_false in L. apply L. now rewrite <- C.
Qed.
Lemma adm_workable g more pick st l : amendable (adm_setting g more pick st) (adm_repo g [] (adm_log l)) 2 -> (forall c q, pick c q <> Broken) ->
  workable (as_restack (adm_setting g more pick st)) (adm_repo g [] (adm_log l)).
Proof. intros A P. apply mdemo_workable; [exact (am_order _ _ _ A)|exact P|discriminate]. Qed.

(** The commits above are put on top of the new commit 11, the branches follow. *)
Definition adm_more : list (oid * object) := [again 12 3 11; again 13 4 12; again 14 5 11].
Example c84_example :
  let s := adm_setting adm_graph adm_more (picks []) adm_staged in let res := amend s 9%Z (TxId 9%Z) false adm in
  amendable s adm 2 /\ ar_new res = Some 11 /\ unknown (as_restack s) adm 11 /\ workable (as_restack s) adm /\
  ar_end res = Amended /\
  (exists rw, ar_rewritten res = Some rw /\ fresh adm_graph (adm_log [2; 3; 4; 5]) rw /\ (bool_decide (NonZero 11 ∈ List.map snd (map_to_list rw)) = false) /\
    map_to_list rw = [(3, NonZero 12); (5, NonZero 14); (4, NonZero 13)]) /\
  hr_refs (rr_repo (ar_repo res)) !! ("refs/heads/b" : refname) = Some 13 /\ hr_head (rr_repo (ar_repo res)) = mk_head (Some 11) (Some "refs/heads/a").
Proof.
  intros s res. assert (A : amendable s adm 2) by (apply adm_amendable; vm_compute; reflexivity).
  split; [exact A|]. split; [vm_compute; reflexivity|]. split; [apply adm_unknown; vm_compute; reflexivity|].
  split; [exact (adm_workable _ _ _ _ _ A (picks_fine _))|]. split; [vm_compute; reflexivity|]. split.
  { exists (default ∅ (ar_rewritten res)). split; [vm_compute; reflexivity|]. split; [apply all_fresh_spec; vm_compute; reflexivity|].
    split; vm_compute; reflexivity. }
  split; vm_compute; reflexivity.
Qed.
(** 5 does not fit on the new commit: all of them stay. *)
Example c84_alone_example :
  let s := adm_setting adm_graph adm_more (picks [(5, 11)]) adm_staged in let res := amend s 9%Z (TxId 9%Z) false adm in
  amendable s adm 2 /\ ar_new res = Some 11 /\ unknown (as_restack s) adm 11 /\ workable (as_restack s) adm /\
  ar_end res = AmendedAlone 5 /\
  hr_refs (rr_repo (ar_repo res)) !! ("refs/heads/b" : refname) = Some 4 /\ hr_head (rr_repo (ar_repo res)) = mk_head (Some 11) (Some "refs/heads/a").
Proof.
  intros s res. assert (A : amendable s adm 2) by (apply adm_amendable; vm_compute; reflexivity).
  split; [exact A|]. split; [vm_compute; reflexivity|]. split; [apply adm_unknown; vm_compute; reflexivity|].
  split; [exact (adm_workable _ _ _ _ _ A (picks_fine _))|]. split_and!; vm_compute; reflexivity.
Qed.

(** With [--reparent], 5 keeps its contents. *)
Definition keeps (n c stamp : N) (ps : list oid) : oid * object := (n, mk_object (mk_commit ps (c + 10)) (c + 20) (c + stamp) (c + 40)).
Definition adm_kept : list (oid * object) := [keeps 12 3 30 [11]; keeps 13 5 30 [11]; keeps 14 3 31 [11]; keeps 15 5 31 [11]; keeps 16 4 31 [14]].
Example c85_example :
  let s := adm_setting adm_graph adm_kept (picks [(5, 11)]) adm_staged in let res := amend s 9%Z (TxId 9%Z) true adm in
  amendable s adm 2 /\ ar_new res = Some 11 /\ unknown (as_restack s) adm 11 /\ workable (as_restack s) adm /\
  ar_end res = Amended /\
  option_map map_to_list (ar_rewritten res) = Some [(3, NonZero 14); (5, NonZero 15); (4, NonZero 16)] /\
  hr_refs (rr_repo (ar_repo res)) !! ("refs/heads/b" : refname) = Some 16 /\ hr_head (rr_repo (ar_repo res)) = mk_head (Some 11) (Some "refs/heads/a") /\
  rr_store (ar_repo res) !! 15 = Some (snd (keeps 15 5 31 [11])).
Proof.
  intros s res. assert (A : amendable s adm 2) by (apply adm_amendable; vm_compute; reflexivity).
  split; [exact A|]. split; [vm_compute; reflexivity|]. split; [apply adm_unknown; vm_compute; reflexivity|].
  split; [exact (adm_workable _ _ _ _ _ A (picks_fine _))|]. split_and!; vm_compute; reflexivity.
Qed.

(** A merge of HEAD is made again on top of the old commit. *)
Definition adm_merge : graph := [(1, []); (2, [1]); (3, [1]); (4, [2; 3])].
Theorem c85_merge_refuted : exists s r h n c x y rw, amendable s r h /\ let res := amend s 9%Z (TxId 9%Z) true r in
  ar_new res = Some n /\ unknown (as_restack s) r n /\ workable (as_restack s) r /\ ar_end res = Amended /\
  parent (he_graph (re_hide (as_restack s))) h c /\ ar_rewritten res = Some rw /\ rw !! c = Some (NonZero x) /\
  rr_store (ar_repo res) !! x = Some y /\ h ∈ commit_parents (ob_commit y) /\ n ∉ commit_parents (ob_commit y).
Proof.
  set (s := adm_setting adm_merge [keeps 12 4 30 [11; 3]; keeps 14 4 31 [2; 3]] (picks []) adm_staged).
  set (r := adm_repo adm_merge [] (adm_log [2; 3; 4])).
  assert (A : amendable s r 2) by (apply adm_amendable; vm_compute; reflexivity).
  exists s, r, 2, 11, 4, 14, (snd (keeps 14 4 31 [2; 3])), (default ∅ (ar_rewritten (amend s 9%Z (TxId 9%Z) true r))).
  split; [exact A|]. intros res. split; [vm_compute; reflexivity|]. split; [apply adm_unknown; vm_compute; reflexivity|].
  split; [exact (adm_workable _ _ _ _ _ A (picks_fine _))|]. split; [vm_compute; reflexivity|].
  split; [exists [2; 3]; split; decide_it|]. split; [vm_compute; reflexivity|]. split; [vm_compute; reflexivity|].
  split; [vm_compute; reflexivity|]. split; decide_it.
Qed.

(** The tree has what was staged, not what else is in the working copy; if nothing is staged
    "g" is taken from the working copy. *)
Definition adm_changed : list sn_entry := [SnEntry Unmodified Modified Blob ["g"] None].
Definition adm_changed_tree : oid :=
  match amend_fast plain_env plain_merger f_staged fold_store adds_both (FromWorkingCopy [mk_we ["g"] None Blob]) with Picked t _ => t | _ => 0 end.
Example c86_index_example :
  let s := adm_setting adm_graph adm_more (picks []) adm_staged in let res := amend s 9%Z (TxId 9%Z) false adm in
  amendable s adm 2 /\ ar_new res = Some 11 /\ unknown (as_restack s) adm 11 /\ workable (as_restack s) adm /\
  some_staged (as_status s) /\ TreeSpec.sound (as_trees s) (as_store s) /\ makes_files (as_merger s) /\ only_files (ae_index (as_files s)) /\
  staged_path (as_status s) ["f"] /\ index_file (ae_index (as_files s)) ["f"] = Some (5, mode_number BlobExecutable) /\
  staged_path (as_status s) ["g"] /\ index_file (ae_index (as_files s)) ["g"] = None.
Proof.
  intros s res. assert (A : amendable s adm 2) by (apply adm_amendable; vm_compute; reflexivity).
  split; [exact A|]. split; [vm_compute; reflexivity|]. split; [apply adm_unknown; vm_compute; reflexivity|].
  split; [exact (adm_workable _ _ _ _ _ A (picks_fine _))|].
  split; [eexists; split; [left|reflexivity]|]. split; [exact fold_sound|]. split; [exact plain_merger_makes|].
  split; [exact (proj1 c38_example)|]. split; [eexists; split; [left|split; [reflexivity|now left]]|]. split; [reflexivity|].
  split; [eexists; split; [right; left|split; [reflexivity|now left]]|reflexivity].
Qed.
Example c86_working_copy_example :
  let s := adm_setting adm_graph [(17, mk_object (mk_commit [1] adm_changed_tree) 24 33 42)] (picks []) adm_changed in let res := amend s 9%Z (TxId 9%Z) false adm in
  amendable s adm 2 /\ ar_new res = Some 17 /\ unknown (as_restack s) adm 17 /\ workable (as_restack s) adm /\
  ~ some_staged (as_status s) /\ changed_path (as_status s) ["g"] Blob /\ plain_contents (ae_disk (as_files s)) ["g"] (Some 6).
Proof.
  intros s res. assert (A : amendable s adm 2) by (apply adm_amendable; vm_compute; reflexivity).
  split; [exact A|]. split; [vm_compute; reflexivity|]. split.
  { split; [split; reflexivity|]. split; [decide_it|]. intros x Hx C. cbn in Hx. rewrite !elem_of_cons, elem_of_nil in Hx.
    destruct Hx as [-> |[-> |[-> |[-> |[]]]]]; destruct C as [C|[]]; discriminate C. }
  split; [exact (adm_workable _ _ _ _ _ A (picks_fine _))|].
  split; [intros (x & Hx & C); cbn in Hx; apply elem_of_list_singleton in Hx as ->; discriminate|].
  split; [|reflexivity]. eexists. split; [left|]. split; [reflexivity|]. split; [now left|reflexivity].
Qed.

(** If there is a tag with the name of the branch, the branch ends where the tag is. *)
Theorem c86_tag_refuted : exists s r h n o, restackable (as_restack s) r /\ in_memory (as_restack s) /\ workable (as_restack s) r /\
  hi_oid (hr_head (rr_repo r)) = Some h /\ hi_branch (hr_head (rr_repo r)) = Some "refs/heads/a" /\
  hr_refs (rr_repo r) !! ("refs/tags/a" : refname) = Some o /\ let res := amend s 9%Z (TxId 9%Z) false r in
  ar_end res = Amended /\ ar_new res = Some n /\ n <> o /\
  hr_head (rr_repo (ar_repo res)) = mk_head (Some o) (Some "refs/heads/a") /\ hr_refs (rr_repo (ar_repo res)) !! ("refs/heads/a" : refname) = Some o.
Proof.
  set (s := adm_setting adm_graph adm_more (picks []) adm_staged).
  set (r := adm_repo adm_graph [("refs/tags/a", 1)] (adm_log [2; 3; 4; 5])).
  assert (R : restackable (as_restack s) r) by (apply mdemo_restackable; vm_compute; reflexivity).
  exists s, r, 2, 11, 1. split; [exact R|]. split; [split; [reflexivity|now left]|].
  split; [apply mdemo_workable; [exact R|apply picks_fine|discriminate]|]. do 3 (split; [vm_compute; reflexivity|]). intros res. split_and!; first [vm_compute; reflexivity|discriminate].
Qed.

(** Refusals. *)
Example c86_example :
  let s := adm_setting adm_graph adm_more (picks []) in
  let at_main := adm_repo adm_graph [] (adm_log [2; 3; 4; 5]) in
  ar_end (amend (s []) 9%Z (TxId 9%Z) false adm) = NothingToAmend /\
  ar_end (amend (mk_as (as_restack (s adm_staged)) true adm_staged 99 plain_env plain_merger f_staged fold_store (fun n => n + 2) (fun _ => [])) 9%Z (TxId 9%Z) false adm) = Unresolved /\
  ar_end (amend (s adm_staged) 9%Z (TxId 9%Z) false (mk_rrepo (rr_store adm) (mk_hrepo (<[("refs/heads/main" : refname) := 2]> (hr_refs (rr_repo adm))) (hr_head (rr_repo adm)) (hr_log (rr_repo adm))))) = RewritesPublic.
Proof. intros s at_main. split_and!; vm_compute; reflexivity. Qed.

Print Assumptions c84_amended.
Print Assumptions c84_through.
Print Assumptions c85_reparented_partial.
Print Assumptions c85_merge_refuted.
Print Assumptions c86_refused.
Print Assumptions c86_index_partial.
Print Assumptions c86_working_copy_partial.
Print Assumptions c86_tag_refuted.

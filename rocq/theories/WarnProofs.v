(** Proofs about the warning after a rewrite. *)
From stdpp Require Import pretty sorting.
From Verif Require Import Base TextModel EventLogModel EventLogSpec EventLogProofs EvolveModel EvolveSpec EvolveProofs
  DagModel DagSpec DagProofs StrModel StrProofs HookModel HookSpec HookProofs ExecModel ExecSpec ExecAfterProofs NavModel
  HideModel HideSpec HideProofs HideUndoProofs RestackModel RestackSpec RestackProofs WarnModel WarnSpec.
Local Open Scope string_scope.
Local Open Scope list_scope.

Lemma join_concat sep l : join sep l = String.concat sep l.
Proof. induction l as [|a l IH]; [reflexivity|]. destruct l as [|b l]; [reflexivity|]. cbn [join String.concat] in *. now rewrite IH. Qed.

Lemma counted_spec n one many : pluralize None n one many = counted n one many.
Proof. destruct n as [|[|n]]; reflexivity. Qed.

(** ** The sets *)

Lemma left_behind_spec d main log refs olds : wf_graph (dag_graph d) ->
  exists ks ns, left_behind d (replay main log) (default_cursor (replay main log)) refs olds = Some (ks, ns) /\
    (forall k, k ∈ ks <-> exists o, o ∈ olds /\ (exists new, rewritten log o new) /\
       parent (dag_graph d) o k /\ visible d k /\ k ∉ obsolete_commits d) /\
    (forall n, n ∈ ns <-> exists o, o ∈ olds /\ (exists new, rewritten log o new) /\ refs !! n = Some o /\ is_local n = true).
Proof.
  intros W. induction olds as [|o olds (ks & ns & E & A & B)].
  - exists ∅, ∅. split; [reflexivity|]. split; [intros k|intros n]; (split; [set_solver|]); intros (o & H & _); now apply elem_of_nil in H.
  - destruct (abandoned_spec d main log (default_cursor (replay main log)) o (valid_now main log) W) as (res & H & N & S).
    rewrite upto_now in N, S. cbn [left_behind]. rewrite H, E. destruct res as [[t kids]|].
    + destruct (S _ _ eq_refl) as [T K]. rewrite !chain_end_raw in T. pose proof (ends_rewritten _ _ _ T) as R.
      exists (kids ∪ ks), (list_to_set (ExecModel.branches_at refs o) ∪ ns). split; [reflexivity|]. split.
      * intros k. rewrite elem_of_union, K, A. split.
        -- intros [X|(o' & Ho & X)]; [exists o; split; [left|auto]|exists o'; split; [now right|exact X]].
        -- intros (o' & Ho & R' & X). apply elem_of_cons in Ho. destruct Ho as [->|Ho]; [now left|right; eauto].
      * intros n. rewrite elem_of_union, elem_of_list_to_set, branches_at_spec, B. split.
        -- intros [X|(o' & Ho & X)]; [exists o; split; [left|auto]|exists o'; split; [now right|exact X]].
        -- intros (o' & Ho & R' & X). apply elem_of_cons in Ho. destruct Ho as [->|Ho]; [now left|right; eauto].
    + assert (Hn : forall new, ~ rewritten log o new) by (intros new Y; apply (proj1 N eq_refl new); now apply rewritten_raw).
      exists ks, ns. split; [reflexivity|]. split; [intros k; rewrite A|intros n; rewrite B];
        (split; [intros (o' & Ho & X); exists o'; split; [now right|exact X]|]);
        intros (o' & Ho & R & X); apply elem_of_cons in Ho; (destruct Ho as [->|Ho]; [destruct R as [new R]; destruct (Hn _ R)|eauto]).
Qed.

(** ** The sentence *)

Lemma suffix_local s : render_suffix ("refs/heads/" +:+ s) = s.
Proof. apply HideUndoProofs.render_local. Qed.
Lemma local_suffix n : is_local n = true -> n = "refs/heads/" +:+ render_suffix n.
Proof. intros H. apply is_local_spec in H. destruct H as [s ->]. now rewrite suffix_local. Qed.

Lemma suffixes_nodup l : NoDup l -> (forall n, n ∈ l -> is_local n = true) -> NoDup (List.map render_suffix l).
Proof.
  induction 1 as [|n l Nn ND IH]; intros L; [constructor|]. cbn [List.map]. constructor.
  - intros H. apply elem_of_list_In, in_map_iff in H. destruct H as (m & Em & Hm). apply elem_of_list_In in Hm. apply Nn.
    rewrite (local_suffix n), <- Em, <- (local_suffix m); [exact Hm|apply L; now right|apply L; left].
  - apply IH. intros m Hm. apply L. now right.
Qed.

Lemma warning_sentence ks ns : (forall n, n ∈ ns -> is_local n = true) ->
  warning_text ks ns = sentence (length (elements ks)) (sorted_names (List.map render_suffix (elements ns))).
Proof.
  intros L. unfold warning_text, commit_item, branch_item, sentence, size, set_size. cbv zeta. rewrite !counted_spec, join_concat.
  assert (El : length (sorted_names (List.map render_suffix (elements ns))) = length (elements ns)).
  { rewrite (Permutation_length (sorted_perm _)). apply map_length. }
  cbn [compose]. destruct (length (elements ks)) as [|n] eqn:Ek.
  - destruct (sorted_names _) as [|a b] eqn:Es; rewrite <- El; reflexivity.
  - destruct (sorted_names _) as [|a b] eqn:Es; rewrite <- El; [reflexivity|]. cbn [Nat.eqb length andb app join String.concat].
    rewrite !sapp_assoc. reflexivity.
Qed.

Lemma says_left_spec e r d olds : in_order e r -> open_repo e r = Some d ->
  exists text, warn_abandoned e r olds = Some text /\ says_left (he_graph e) r (fun o => o ∈ olds) text.
Proof.
  intros I Op. unfold warn_abandoned. rewrite Op. cbv zeta. destruct (open_repo_some _ _ _ (io_main _ _ I) Op) as (G & V & Ob).
  assert (W : wf_graph (dag_graph d)) by (rewrite G; apply (io_graph _ _ I)).
  destruct (left_behind_spec d (he_main e) (hr_log r) (hr_refs r) olds W) as (ks & ns & -> & A & B).
  assert (L : forall n, n ∈ ns -> is_local n = true) by (intros n Hn; apply B in Hn; destruct Hn as (? & ? & ? & ? & ?); assumption).
  eexists. split; [reflexivity|]. exists (elements ks), (sorted_names (List.map render_suffix (elements ns))).
  split; [apply NoDup_elements|]. split; [|split; [|split; [apply sorted_sorted|split; [|now apply warning_sentence]]]].
  - intros k. rewrite elem_of_elements, A. unfold commit_left, abandoned_on. rewrite G. setoid_rewrite V. setoid_rewrite Ob. naive_solver.
  - rewrite (sorted_perm _). apply suffixes_nodup; [apply NoDup_elements|]. intros n Hn. apply L. now apply elem_of_elements.
  - intros s. rewrite (sorted_perm _), elem_of_list_In, in_map_iff. unfold branch_left. split.
    + intros (n & <- & Hn). apply elem_of_list_In, elem_of_elements in Hn. pose proof (L n Hn) as Ln. apply B in Hn.
      destruct Hn as (o & Ho & R & Hr & _). exists o. rewrite <- (local_suffix n Ln). auto.
    + intros (o & Ho & R & Hr). exists ("refs/heads/" +:+ s). split; [apply suffix_local|].
      apply elem_of_list_In, elem_of_elements, B. exists o. split; [exact Ho|]. split; [exact R|]. split; [exact Hr|]. apply is_local_spec. now exists s.
Qed.

(** ** What was just rewritten *)

Lemma just_rewritten ts tx log l o new : proper_list l -> (o, new) ∈ l ->
  rewritten (log ++ List.map (fun x => RewriteEvent ts tx (NonZero (fst x)) (snd x)) l) o new.
Proof.
  intros [ND P] H. assert (Ho : o ∈ List.map fst l) by (apply elem_of_list_In, in_map_iff; exists (o, new); split; [reflexivity|now apply elem_of_list_In]).
  apply elem_of_list_split in H. destruct H as (l1 & l2 & ->).
  assert (Ne : new <> NonZero o). { apply (P o new o); [apply elem_of_app; right; left|exact Ho]. }
  exists ts, tx. split; [|exact Ne]. rewrite map_app. cbn [List.map fst snd].
  exists (log ++ List.map (fun x => RewriteEvent ts tx (NonZero (fst x)) (snd x)) l1), (List.map (fun x => RewriteEvent ts tx (NonZero (fst x)) (snd x)) l2).
  split; [now rewrite <- app_assoc|]. split; [right; reflexivity|].
  intros x Hx C. apply elem_of_list_In, in_map_iff in Hx. destruct Hx as ([o' new'] & <- & Hx). apply elem_of_list_In in Hx.
  destruct C as [C|C]; cbn in C.
  - apply (P o' new' o); [apply elem_of_app; right; now right|exact Ho|congruence].
  - injection C as ->. rewrite map_app in ND. cbn [List.map fst] in ND. apply NoDup_app in ND. destruct ND as (_ & _ & ND).
    apply NoDup_cons in ND. destruct ND as [ND _]. apply ND. apply elem_of_list_In, in_map_iff. exists (o, new'). split; [reflexivity|now apply elem_of_list_In].
Qed.

Lemma collected l o : o ∈ List.map fst (map_to_list (collect_map l)) <-> o ∈ List.map fst l.
Proof.
  rewrite !elem_of_list_In, !in_map_iff. split.
  - intros ([o' m] & <- & H). apply elem_of_list_In, elem_of_map_to_list, collect_spec in H. destruct H as (b & a & -> & _).
    exists (o', m). split; [reflexivity|]. apply in_app_iff. right. now left.
  - intros ([o' m] & <- & H). cbn [fst]. apply elem_of_list_In in H.
    destruct (collect_map l !! o') as [m'|] eqn:E.
    + exists (o', m'). split; [reflexivity|]. apply elem_of_list_In. now apply elem_of_map_to_list.
    + exfalso. revert E H. unfold collect_map. induction l as [|[p q] l IH] using rev_ind; intros E H; [now apply elem_of_nil in H|].
      rewrite fold_left_app in E. cbn [fold_left fst snd] in E. apply lookup_insert_None in E. destruct E as [E Ne].
      apply elem_of_app in H. destruct H as [H|H]; [auto|]. apply elem_of_list_singleton in H. injection H as -> ->. congruence.
Qed.

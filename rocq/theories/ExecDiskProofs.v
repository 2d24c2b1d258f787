(** Proofs about handing a plan to [git rebase]. *)
From Coq Require Import DecimalString.
From stdpp Require Import sorting relations.
From Verif Require Import Base TextModel TextProofs DagModel DagSpec DagProofs StrModel StrProofs HookModel HookProofs
  PlanModel PlanSpec PlanProofs PlanDfsProofs PlanLabelProofs PlanBuildProofs ExecModel ExecSpec.
Local Open Scope string_scope.
Local Open Scope list_scope.

Definition plain (s : string) : Prop := lacks LF s /\ lacks CR s /\ lacks " " s.

Lemma plain_app a b : plain a -> plain b -> plain (a +:+ b).
Proof. unfold plain. rewrite !lacks_app. tauto. Qed.
Lemma plain_by s : forallb (fun c => negb (bool_decide (c = LF) || bool_decide (c = CR) || bool_decide (c = " "%char))%bool)
  (list_ascii_of_string s) = true -> plain s.
Proof.
  intros H. unfold plain, lacks. rewrite forallb_forall in H.
  split_and!; intros Hin; apply elem_of_list_In in Hin; specialize (H _ Hin); vm_compute in H; discriminate.
Qed.
Lemma plain_oid o : plain (oid_to_string o).
Proof. unfold plain. split_and!; (eapply hex_lacks; [|apply oid_hex]); cbn; repeat (constructor; [discriminate|]); constructor. Qed.
Lemma plain_uint u : plain (NilEmpty.string_of_uint u).
Proof.
  assert (C : forall c s, c <> LF -> c <> CR -> c <> " "%char -> plain s -> plain (String c s)).
  { intros c s A B D. unfold plain. rewrite !lacks_cons. intuition congruence. }
  induction u; cbn; try (apply C; [discriminate..|assumption]). now apply plain_by.
Qed.
Lemma plain_nat n : plain (isize_to_string (Z.of_nat n)).
Proof.
  assert (U : forall u, plain (NilZero.string_of_uint u)).
  { intros u. destruct u; try (now apply plain_by); apply (plain_uint _). }
  unfold isize_to_string. destruct (Z.to_int (Z.of_nat n)) as [u|u]; cbn; [apply U|].
  pose proof (U u) as (A & B & C). unfold plain. rewrite !lacks_cons. split_and!; auto; discriminate.
Qed.
Lemma make_label_plain fuel used : forall name r, plain name -> make_label fuel used name = Done r -> plain (fst r).
Proof.
  induction fuel as [|fuel IH]; intros name r Hn; cbn; [discriminate|]. destruct (decide _); [|intros [= <-]; exact Hn].
  apply IH. apply plain_app; [exact Hn|]. now apply plain_by.
Qed.

(** Commands that can be written down. *)
Definition plain_place (t : oid_or_label) : Prop := match t with AtOid _ => True | AtLabel l => plain l end.
Definition disk_ok (x : command) : Prop :=
  match x with
  | CreateLabel l => plain l
  | Reset_ t => plain_place t
  | Pick o l => l = [o]
  | Merge _ ts => ts <> [] /\ Forall plain_place ts
  | Replace _ _ _ => False
  | Break_ | RegisterExtra | DetectEmpty _ | SkipUpstream _ => True
  end.

Lemma plain_place_text t : plain_place t -> plain (place_text t).
Proof. destruct t; intros H; [apply plain_oid|exact H]. Qed.
Lemma show_place_text t : show_place t = place_text t.
Proof. destruct t; reflexivity. Qed.

Lemma disk_ok_text x : disk_ok x -> exists l, to_rebase_command x = Some l /\
  lacks LF l /\ lacks CR l /\ split_on " " l = instruction x.
Proof.
  assert (Go_ : forall l ws, ws <> [] -> Forall plain ws -> l = join " " ws -> lacks LF l /\ lacks CR l /\ split_on " " l = ws).
  { intros l ws Hne Hp ->. split; [|split].
    - clear Hne. induction ws as [|w ws IH]; [apply lacks_nil|]. inversion Hp as [|? ? (H1 & H2 & H3) H']; subst. destruct ws; [exact H1|].
      cbn [join]. rewrite !lacks_app. split; [exact H1|]. split; [|apply (IH H')]. apply lacks_cons. split; [discriminate|apply lacks_nil].
    - clear Hne. induction ws as [|w ws IH]; [apply lacks_nil|]. inversion Hp as [|? ? (H1 & H2 & H3) H']; subst. destruct ws; [exact H2|].
      cbn [join]. rewrite !lacks_app. split; [exact H2|]. split; [|apply (IH H')]. apply lacks_cons. split; [discriminate|apply lacks_nil].
    - apply split_join; [exact Hne|]. eapply Forall_impl; [exact Hp|]. now intros w (_ & _ & H). }
  assert (P : forall s, forallb (fun c => negb (bool_decide (c = LF) || bool_decide (c = CR) || bool_decide (c = " "%char))%bool)
    (list_ascii_of_string s) = true -> plain s) by exact plain_by.
  destruct x as [l|t|o l|c ts|c r ts| | |c|c]; cbn [disk_ok to_rebase_command]; intros H; try contradiction.
  - eexists. split; [reflexivity|]. apply Go_; [discriminate| |reflexivity].
    constructor; [now apply P|]. constructor; [exact H|constructor].
  - eexists. split; [reflexivity|]. apply Go_; [discriminate| |cbn; now rewrite show_place_text].
    constructor; [now apply P|]. constructor; [now apply plain_place_text|constructor].
  - subst l. eexists. split; [reflexivity|]. apply Go_; [discriminate| |reflexivity].
    constructor; [now apply P|]. constructor; [apply plain_oid|constructor].
  - destruct H as [Hne Hp]. eexists. split; [reflexivity|]. apply Go_; [discriminate| |].
    + constructor; [now apply P|]. constructor; [now apply P|]. constructor; [apply plain_oid|].
      apply Forall_forall. intros w Hw. apply elem_of_list_In, in_map_iff in Hw. destruct Hw as (t & <- & Ht).
      apply plain_place_text. rewrite Forall_forall in Hp. apply Hp. now apply elem_of_list_In.
    + destruct ts as [|t ts]; [congruence|]. rewrite (map_ext _ _ show_place_text). reflexivity.
  - eexists. split; [reflexivity|]. apply Go_; [discriminate| |reflexivity]. constructor; [now apply P|constructor].
  - eexists. split; [reflexivity|]. apply Go_; [discriminate| |reflexivity]. repeat (constructor; [now apply P|]). constructor.
  - eexists. split; [reflexivity|]. apply Go_; [discriminate| |reflexivity].
    repeat (constructor; [first [now apply P|apply plain_oid]|]). constructor.
  - eexists. split; [reflexivity|]. apply Go_; [discriminate| |reflexivity].
    repeat (constructor; [first [now apply P|apply plain_oid]|]). constructor.
Qed.

Lemma disk_ok_texts cmds : Forall disk_ok cmds -> exists ls, all_some (List.map to_rebase_command cmds) = Some ls /\
  lines (unlines ls) = ls /\ List.map (split_on " ") ls = List.map instruction cmds.
Proof.
  intros F. assert (exists ls, all_some (List.map to_rebase_command cmds) = Some ls /\
    Forall (lacks LF) ls /\ Forall (lacks CR) ls /\ List.map (split_on " ") ls = List.map instruction cmds) as (ls & A & B & C & D).
  { induction F as [|x cmds Hx F (ls & A & B & C & D)]; [exists []; repeat split; constructor|].
    destruct (disk_ok_text x Hx) as (l & E & L1 & L2 & W). exists (l :: ls). cbn. rewrite E, A, W, D. repeat split; constructor; auto. }
  exists ls. split_and!; auto. now apply lines_unlines.
Qed.

(** ... which are those of plans that squash and replace nothing. *)
Definition disk_state (s : build_state) : Prop :=
  Forall disk_ok (bs_acc s) /\ forall c l, bs_labels s !! c = Some l -> plain l.

Lemma push_disk l s : Forall disk_ok l -> disk_state s -> disk_state (push l s).
Proof. intros F [A B]. split; [|exact B]. cbn. apply Forall_app. auto. Qed.

Lemma visit_disk e cg fuel r c cm s s' :
  (forall fs, Permutation (pe_sort e fs) (elements fs)) -> pe_replace e = ∅ -> (forall f, f ∉ fixup_commits cg) ->
  pe_find e c = Some cm -> disk_state s -> visit fuel e cg r c cm s = Done s' -> disk_state s'.
Proof.
  intros Sort Rep Nf Hf Hs Hv. cut (disk_state s' /\ True); [tauto|]. revert Hv.
  apply (visit_steps e cg disk_state (fun _ _ => True) (fun _ => True) r); auto; clear c cm s s' Hf Hs.
  - intros c cm s s' _ Hf Hs H. split; [|exact I]. revert H. unfold apply_commit. destruct (_ && _)%bool.
    { intros [= <-]. apply push_disk; [|exact Hs]. repeat constructor. }
    destruct (is_merge cm) eqn:Em.
    { destruct (merge_parents _ _ _) as [ps|] eqn:Eps; [|discriminate].
      destruct (already_applied _ _); [discriminate|]. unfold merge_parents in Eps. apply all_some_spec in Eps.
      assert (U : forall t, t ∈ ps -> plain_place t).
      { intros t Ht. assert (Hin : Some t ∈ List.map Some ps) by (apply elem_of_list_In, in_map, elem_of_list_In; exact Ht).
        rewrite <- Eps in Hin. apply elem_of_list_In, in_map_iff in Hin. destruct Hin as (p & Ep & Hp).
        destruct (decide _); [|injection Ep as <-; exact I].
        destruct (bs_labels s !! p) as [l|] eqn:El; [|discriminate]. injection Ep as <-. cbn. now apply (proj2 Hs p). }
      assert (L : length ps = length (commit_parents cm)).
      { rewrite <- (map_length Some ps), <- Eps. apply map_length. }
      unfold is_merge in Em. apply Nat.ltb_lt in Em.
      destruct ps as [|first [|second rest]]; cbn in L; try lia. rewrite Rep, lookup_empty. intros [= <-].
      apply push_disk; [|exact Hs]. constructor; [apply U; now left|]. constructor; [|constructor]. split; [discriminate|].
      apply Forall_forall. intros t Ht. apply U. now right. }
    destruct (decide _); [intros [= <-]; exact Hs|]. rewrite Rep, lookup_empty. intros [= <-].
    apply push_disk; [|exact Hs]. constructor; [|repeat constructor]. cbn.
    destruct (cg_fixups cg !! c) as [fs|] eqn:Ef; [|reflexivity].
    assert (fs = ∅) as ->. { apply set_eq. intros f. split; [|set_solver]. intros H. exfalso. apply (Nf f). eapply fixups_value; eauto. }
    rewrite (right_id_L ∅ (∪)). pose proof (Sort {[c]}) as H. rewrite elements_singleton in H. now apply Permutation_singleton_r in H.
  - intros c prefix s x Hp Hs Ex.
    assert (Pl : plain (fst x)).
    { unfold create_label in Ex. destruct (make_label _ _ _) as [y| |] eqn:Em; cbn in Ex; try discriminate. injection Ex as <-. cbn.
      eapply make_label_plain; [|exact Em]. apply plain_app; [|apply plain_nat]. destruct Hp as [-> | ->]; now apply plain_by. }
    destruct (create_label_total prefix s) as (l & Hn & El). rewrite El in Ex. injection Ex as <-. cbn in Pl |- *.
    assert (A : Forall disk_ok (bs_acc s ++ [CreateLabel l])).
    { apply Forall_app. split; [apply Hs|]. constructor; [exact Pl|constructor]. }
    split_and!; auto.
    + split; [exact A|]. apply Hs.
    + split; [exact A|]. intros c' l'. cbn. destruct (decide (c = c')) as [->|Hne];
        [rewrite lookup_insert; now intros [= <-]|rewrite lookup_insert_ne by exact Hne; apply Hs].
    + intros s' Hs' _. split; [|exact I]. apply push_disk; [|exact Hs']. constructor; [exact Pl|constructor].
Qed.

Lemma build_disk d e allowed cs dest cmds :
  wf_graph (dag_graph d) -> (forall fs, Permutation (pe_sort e fs) (elements fs)) -> pe_replace e = ∅ ->
  (forall f, ~ fixed_up cs f) -> build d e allowed cs = Done (BuiltPlan dest cmds) -> Forall disk_ok cmds.
Proof.
  intros W Sort Rep Nf HB. apply build_plan_inv in HB. destruct HB as (cg & s & Ecg & Ec & Ep & Es & -> & r0 & rs & Er0 & Ed0).
  apply Forall_app. split; [|repeat constructor].
  cut (disk_state s); [intros [H _]; exact H|]. revert Es. unfold build_commands.
  apply (fold_bind_inv (plan_root e cg) disk_state).
  - intros r s1 s2 Hr H1. unfold plan_root. destruct (root_dest e r) as [p|] eqn:Ed; [|discriminate].
    destruct (pe_find e (root_commit r)) as [cm|] eqn:F; [|discriminate]. intros H.
    eapply visit_disk; [exact Sort|exact Rep| |exact F| |exact H].
    + intros f Hf. apply (Nf f). destruct (build_constraints_spec d cs W) as (_ & _ & H3). destruct (H3 cg Ecg) as (HF & _ & _).
      unfold fixup_commits in Hf. rewrite all_values_spec in Hf. destruct Hf as (t & Ht). exists t. now apply HF.
    + apply push_disk; [|exact H1]. repeat constructor.
  - split; [constructor|]. intros c l H. cbn in H. now rewrite lookup_empty in H.
Qed.

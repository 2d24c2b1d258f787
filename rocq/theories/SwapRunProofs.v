(** Putting other commits in the place of given ones with the same contents never conflicts. *)
From stdpp Require Import sorting relations.
From Verif Require Import Base TextModel EventLogModel EventLogSpec EventLogProofs EvolveSpec
  DagModel DagSpec DagProofs DagCompProofs StrModel StrProofs HookModel PlanModel PlanSpec PlanProofs PlanDfsProofs PlanLabelProofs PlanCycleProofs PlanBuildProofs PlanProps
  ExecModel ExecSpec ExecProofs ExecBuildProofs ExecAfterProofs ExecProps HideModel HideSpec HideProofs RestackModel RestackSpec RestackProofs
  SyncModel SyncSpec SyncProofs MoveModel MoveSpec MoveProofs MovePublicProofs PlanRunProofs ModeModel TreeModel SnapModel AmendModel AmendSpec AmendProofs RewordCmdSpec SwapProofs.
Local Open Scope string_scope.
Local Open Scope list_scope.

(** ** Merges are not applied *)
Definition plain_picked (e : plan_env) (x : PlanModel.command) : Prop :=
  match x with Pick o _ => exists cm, pe_find e o = Some cm /\ is_merge cm = false | _ => True end.
Lemma visit_plain e cg fuel r c cm s s' :
  pe_find e c = Some cm -> Forall (plain_picked e) (bs_acc s) -> visit fuel e cg r c cm s = Done s' -> Forall (plain_picked e) (bs_acc s').
Proof.
  intros Hf Hs Hv. cut (Forall (plain_picked e) (bs_acc s') /\ True); [tauto|]. revert Hv.
  apply (visit_steps e cg (fun s => Forall (plain_picked e) (bs_acc s)) (fun _ _ => True) (fun _ => True) r); auto; clear c cm s s' Hf Hs.
  - intros c cm s s' _ Hf Hs H. split; [|exact I]. revert H. unfold apply_commit. destruct (_ && _)%bool.
    { intros [= <-]. cbn. apply Forall_app. split; [exact Hs|]. apply Forall_singleton. exact I. }
    destruct (is_merge cm) eqn:Em.
    { destruct (merge_parents _ _ _) as [ps|] eqn:Eps; [|discriminate].
      destruct (already_applied _ _); [discriminate|]. destruct ps as [|first rest]; [discriminate|].
      destruct (pe_replace e !! c) as [rp|] eqn:Er; intros [= <-]; cbn; (apply Forall_app; split; [exact Hs|]);
        (apply Forall_cons; split; [exact I|]); apply Forall_singleton; exact I. }
    destruct (decide _); [intros [= <-]; exact Hs|]. destruct (pe_replace e !! c) as [rp|] eqn:Er.
    + destruct (pe_find e rp) as [rc|]; [|discriminate]. intros [= <-]. cbn. apply Forall_app; split; [exact Hs|]. apply Forall_singleton. exact I.
    + intros [= <-]. cbn. apply Forall_app; split; [exact Hs|]. apply Forall_cons. split; [exists cm; auto|apply Forall_singleton; exact I].
  - intros c prefix s x _ Hs Ex. destruct (create_label_total prefix s) as (l & Hn & El). rewrite El in Ex. injection Ex as <-.
    cbn. assert (Forall (plain_picked e) (bs_acc s ++ [CreateLabel l])).
    { apply Forall_app. split; [exact Hs|]. apply Forall_singleton. exact I. }
    split_and!; auto. intros s' Hs' _. split; [|exact I]. apply Forall_app. split; [exact Hs'|]. apply Forall_singleton. exact I.
Qed.
Lemma build_plain d e allowed cs dest cmds x : build d e allowed cs = Done (BuiltPlan dest cmds) -> x ∈ cmds -> plain_picked e x.
Proof.
  intros HB Hx. apply build_plan_inv in HB. destruct HB as (cg & s & Ecg & Ec & Ep & Es & -> & _).
  assert (A : Forall (plain_picked e) (bs_acc s ++ [RegisterExtra])).
  { apply Forall_app. split; [|apply Forall_singleton; exact I]. revert Es. unfold build_commands.
    apply (fold_bind_inv (plan_root e cg) (fun s => Forall (plain_picked e) (bs_acc s))); [|constructor].
    intros r s1 s2 Hr H1. unfold plan_root. destruct (root_dest e r) as [p|] eqn:Ed; [|discriminate].
    destruct (pe_find e (root_commit r)) as [cm|] eqn:F; [|discriminate]. intros H.
    eapply (visit_plain e cg); [exact F| |exact H]. cbn. apply Forall_app. split; [exact H1|]. apply Forall_singleton. exact I. }
  rewrite Forall_forall in A. exact (A x Hx).
Qed.

(** ** The same without conflicts *)
Definition calmed (t : oid) (x : attempt) : attempt := match x with Conflict => MadeTree t | _ => x end.
Definition calm (t : oid) (ee : exec_env) : exec_env :=
  mk_ee (ee_hash ee) (fun c q => calmed t (ee_pick ee c q)) (fun q c => calmed t (ee_amend ee q c)) (ee_stamp ee) (ee_decodes ee) (ee_head ee).
Lemma calm_apply t ee current orig l : forall st made r, apply_all ee st current orig made l = Ok r -> apply_all (calm t ee) st current orig made l = Ok r.
Proof.
  induction l as [|c l IH]; intros st made r; cbn [apply_all]; [auto|]. destruct (st !! c) as [x|]; [|discriminate].
  destruct (is_merge (ob_commit x)); [discriminate|]. cbn [calm ee_pick ee_amend]. destruct made as [o|].
  - destruct (ee_amend ee o c); try discriminate. cbn [calmed]. change (add_object (calm t ee)) with (add_object ee). cbn [ee_stamp]. destruct (add_object _ _ _). apply IH.
  - destruct (ee_pick ee c current); try discriminate. cbn [calmed]. change (add_object (calm t ee)) with (add_object ee). cbn [ee_stamp]. destruct (add_object _ _ _). apply IH.
Qed.
Lemma calm_command t ee x s s' : exec_command ee x s = Ok s' -> exec_command (calm t ee) x s = Ok s'.
Proof.
  destruct x as [l|[o|l]|o l|o ts|o r ts| | |o|o]; cbn [exec_command]; auto.
  unfold exec_pick. destruct (es_store s !! es_current s), (es_store s !! o) as [orig|]; try discriminate. cbn [calm ee_decodes]. fold (calm t ee).
  destruct (negb _); [discriminate|]. intros H. apply ebind_ok in H. destruct H as (a & A & B). change (mk_ee _ _ _ _ _ _) with (calm t ee).
  rewrite (calm_apply t _ _ _ _ _ _ _ A). exact B.
Qed.
Lemma calm_commands t ee cmds : forall s s', exec_commands ee cmds s = Ok s' -> exec_commands (calm t ee) cmds s = Ok s'.
Proof.
  induction cmds as [|x cmds IH]; intros s s'; [auto|]. rewrite !exec_cons. intros H. apply ebind_ok in H. destruct H as (a & A & B).
  rewrite (calm_command t _ _ _ _ A). cbn [ebind]. now apply IH.
Qed.
Lemma calm_plain t ee st : plain_picks ee st -> plain_picks (calm t ee) st.
Proof. intros P c x p px qx H1 H2 H3 H4. cbn [calm ee_pick ee_hash]. now rewrite (P c x p px qx H1 H2 H3 H4). Qed.

(** ** What becomes of a commit is settled once *)
Lemma command_same e x s s' o : exec_command e x s = Ok s' -> o ∉ replays x -> o ∉ applies x -> es_rewritten s' !! o = es_rewritten s !! o.
Proof.
  intros H N1 N2. destruct x as [l|[o'|l]|c l|c ps|c q ps| | |c|c]; cbn [exec_command replays applies] in *; try discriminate H.
  - now injection H as <-.
  - now injection H as <-.
  - destruct (es_labels s !! l); [|discriminate]. now injection H as <-.
  - unfold exec_pick in H. destruct (es_store s !! es_current s), (es_store s !! c) as [orig|]; try discriminate.
    destruct (negb _); [discriminate|]. apply ebind_ok in H. destruct H as ([st1 made] & _ & H). cbn [fst snd] in H.
    destruct made as [n|]; [|discriminate]. destruct (st1 !! n); [|discriminate].
    assert (Nc : c <> o) by (intros ->; apply N1; left).
    destruct (commit_is_empty _ _); injection H as <-; cbn; [now rewrite lookup_insert_ne|].
    rewrite <- (lookup_insert_ne (es_rewritten s) c o (NonZero n)) by exact Nc. generalize (<[c := NonZero n]> (es_rewritten s)). revert N2. clear. induction l as [|a l IH]; intros N m; cbn [fold_left]; [reflexivity|].
    apply not_elem_of_cons in N. destruct N as [N N']. rewrite IH by exact N'. rewrite lookup_insert_ne by congruence. reflexivity.
  - unfold exec_replace in H. destruct (es_store s !! c), (es_store s !! q); try discriminate.
    destruct (all_some (List.map (place_of (es_labels s)) ps)); [|discriminate]. destruct (_ || _)%bool; [discriminate|]. destruct (add_object _ _ _).
    injection H as <-. cbn. rewrite lookup_insert_ne; [reflexivity|]. intros ->. apply N1. left.
  - now injection H as <-.
  - now injection H as <-.
  - destruct (es_store s !! c); [|discriminate]. injection H as <-. cbn. rewrite lookup_insert_ne; [reflexivity|]. intros ->. apply N1. left.
Qed.
Lemma commands_same e cmds o : (forall c l, Pick c l ∈ cmds -> l = [c]) -> o ∉ replayed cmds -> forall s s', exec_commands e cmds s = Ok s' -> es_rewritten s' !! o = es_rewritten s !! o.
Proof.
  induction cmds as [|x cmds IH]; intros P N s s' H; [now injection H as <-|]. rewrite exec_cons in H. apply ebind_ok in H. destruct H as (a & A & B).
  unfold replayed in N. cbn [flat_map] in N. apply not_elem_of_app in N. destruct N as [N1 N2].
  rewrite (IH (fun c l H => P c l (elem_of_list_further _ _ _ H)) N2 a s' B). apply (command_same _ _ _ _ _ A N1).
  destruct x; cbn in *; auto; try apply not_elem_of_nil. rewrite (P original to_apply) by left. exact N1.
Qed.
(** Where commands stop. *)
Lemma commands_stop_split e cmds : forall s c st', exec_commands e cmds s = StopMerge c st' ->
  exists pre x post s1, cmds = pre ++ x :: post /\ exec_commands e pre s = Ok s1 /\ exec_command e x s1 = StopMerge c st'.
Proof.
  induction cmds as [|x cmds IH]; intros s c st'; [discriminate|]. rewrite exec_cons.
  destruct (exec_command e x s) as [s1|c1 st1|st1] eqn:E; cbn [ebind]; [|intros [= <- <-]|discriminate].
  - intros H. destruct (IH _ _ _ H) as (pre & y & post & s2 & -> & A & B). exists (x :: pre), y, post, s2. split; [reflexivity|]. split; [|exact B].
    rewrite exec_cons, E. exact A.
  - exists [], x, cmds, s. auto.
Qed.

(** ** No conflicts *)
Section run.
Context (d : dag) (l : list oid).
Let g := dag_graph d.
Hypothesis W : wf_graph g.
Hypothesis Ld : NoDup l.
Hypothesis Lv : forall c, c ∈ l -> c ∈ vertices g.
Hypothesis Lp : forall c, c ∈ l -> parents_of g c <> [].
Hypothesis Kv : forall c, visible d c -> c ∈ vertices g.
Let cs := List.map (fun c => MoveSubtree (parents_of g c) c) l.
Context (pe : plan_env) (ee : exec_env) (st st0 : store) (allowed : gset oid) (dest : oid) (cmds : list PlanModel.command).
Hypothesis NU : forall t c, pe_upstream pe t c = false.
Hypothesis K : knows d pe.
Hypothesis Rep : forall c x, pe_replace pe !! c = Some x -> exists rc, pe_find pe x = Some rc.
Hypothesis Fit : forall c x rc, pe_replace pe !! c = Some x -> pe_find pe x = Some rc -> commit_parents rc = parents_of g c.
Hypothesis Sort : forall fs, Permutation (pe_sort pe fs) (elements fs).
Hypothesis Fn : faithful_names ee.
Hypothesis Ns : named ee st.
Hypothesis Pr : present d pe ee cs st.
Hypothesis NB : forall c q, ee_pick ee c q <> Broken.
Hypothesis NB' : forall c q, ee_amend ee c q <> Broken.
Hypothesis Su : st0 ⊆ st.
Hypothesis In0 : forall c, c ∈ vertices g -> exists x, st0 !! c = Some x /\ commit_parents (ob_commit x) = parents_of g c.
Hypothesis Pp : plain_picks ee st0.
Hypothesis Rs : forall c z, pe_replace pe !! c = Some z -> exists x orig, st0 !! c = Some x /\ st !! z = Some orig /\ commit_tree (ob_commit orig) = commit_tree (ob_commit x).
Hypothesis HB : build d pe allowed cs = Done (BuiltPlan dest cmds).
Let Pl : plannable d pe cs := sw_plannable d l W Ld Lv Lp Kv pe Rep.

Lemma sr_single o k : Pick o k ∈ cmds -> k = [o].
Proof.
  intros H. destruct (build_shaped d pe allowed cs dest cmds _ W Sort HB H) as [Nl Il].
  assert (S1 : forall f, f ∈ k <-> f = o).
  { intros f. rewrite Il. split; [|auto]. intros [E|E]; [exact E|]. destruct (sw_no_fixup d l _ _ E). }
  destruct k as [|a [|b k]].
  - exfalso. assert (X : o ∈ ([] : list oid)) by now apply S1. now apply elem_of_nil in X.
  - f_equal. apply S1. left.
  - exfalso. apply NoDup_cons in Nl. destruct Nl as [Nl _]. apply Nl. rewrite (proj1 (S1 a)) by left. rewrite (proj1 (S1 b)) by (right; left). left.
Qed.
Lemma sr_over x c : x ∈ cmds -> c ∈ applies x -> over d l c.
Proof.
  intros Hx Hc. destruct (build_applies d pe allowed cs dest cmds x c W Pl Sort HB Hx Hc) as [H|H]; [|destruct (sw_fixed d l _ H)].
  now apply (sw_rebuilt d l W Ld Lp) in H.
Qed.
Lemma sr_merge c ts : Merge c ts ∈ cmds -> over d l c /\ merge_commit g c /\ pe_replace pe !! c = None.
Proof.
  intros H. assert (O : over d l c) by (apply (sr_over _ _ H); left). split; [exact O|]. split; [|exact (build_unreplaced _ _ _ _ _ _ _ HB H)].
  destruct (build_shaped d pe allowed cs dest cmds _ W Sort HB H) as (cm & Hcm & M). pose proof (sw_vertex d l Lv Kv c O) as V.
  destruct (K c V) as (cm' & E & P). rewrite Hcm in E. injection E as <-. unfold is_merge in M. rewrite P in M. apply Nat.ltb_lt in M.
  apply vertices_spec in V. destruct V as [ps V]. change (dag_graph d) with g in M. rewrite (parents_of_spec _ _ _ _ W V) in M. exists ps. auto.
Qed.
Lemma sr_plain c k : Pick c k ∈ cmds -> forall x, st !! c = Some x -> is_merge (ob_commit x) = false.
Proof.
  intros H x Hx. destruct (build_plain _ _ _ _ _ _ _ HB H) as (cm & F & M). apply (pr_find _ _ _ _ _ Pr) in F. unfold find_object in F. rewrite Hx in F. now injection F as ->.
Qed.
Lemma sr_stop c st1 : rebase_in_memory ee st dest cmds = StopMerge c st1 -> over d l c /\ merge_commit g c /\ pe_replace pe !! c = None.
Proof.
  unfold rebase_in_memory. destruct (List.find merge_command cmds) as [x|] eqn:F.
  { apply find_some in F. destruct F as [Hx M]. destruct x as [| | |o ts| | | | |]; try discriminate M. intros [= <- _]. apply (sr_merge o ts). now apply elem_of_list_In. }
  destruct (exec_commands ee cmds _) as [s|c1 st2|st2] eqn:E; cbn [ebind]; [discriminate|intros [= -> ->]|discriminate]. exfalso.
  destruct (commands_stop_split _ _ _ _ _ E) as (pre & x & post & s1 & Ec & E1 & E2).
  assert (Hx : x ∈ cmds) by (rewrite Ec; apply elem_of_app; right; left).
  pose proof (exec_commands_grows ee st pre (Ok (mk_es st dest ∅ ∅ None)) (ext_refl ee st)) as Gr. change (grows ee st es_store (exec_commands ee pre (mk_es st dest ∅ ∅ None))) in Gr.
  rewrite E1 in Gr. cbn in Gr. destruct Gr as [G1 N1]. specialize (N1 Ns).
  (* it stopped at a commit that conflicts *)
  assert (exists orig cur, x = Pick c [c] /\ es_store s1 !! c = Some orig /\ es_store s1 !! es_current s1 = Some cur /\
    ee_pick ee c (es_current s1) = Conflict /\ is_merge (ob_commit orig) = false /\ ee_decodes ee (ob_message orig) = true) as (orig & cur & -> & So & Sc & Cf & Nm & Dc).
  { destruct x as [n|[o|n]|o k|o ts|o r ts| | |o|o]; cbn [exec_command] in E2; try discriminate.
    - destruct (es_labels s1 !! n); discriminate.
    - pose proof (sr_single o k Hx) as ->. revert E2. unfold exec_pick. destruct (es_store s1 !! es_current s1) as [cur|] eqn:Sc, (es_store s1 !! o) as [orig|] eqn:So; try discriminate.
      destruct (ee_decodes ee (ob_message orig)) eqn:Dc; cbn [negb]; [|discriminate]. cbn [apply_all]. rewrite So.
      assert (Nm : is_merge (ob_commit orig) = false).
      { destruct (pr_readable _ _ _ _ _ Pr o) as (y & Hy & _); [apply (sw_vertex d l Lv Kv), (sr_over _ _ Hx); left|].
        pose proof (lookup_weaken _ _ _ _ Hy G1) as H'. rewrite So in H'. injection H' as <-. exact (sr_plain _ _ Hx _ Hy). }
      rewrite Nm. destruct (ee_pick ee o (es_current s1)) as [t| |] eqn:Ep; cbn [ebind].
      + destruct (add_object _ _ _) as [n st3]. cbn [ebind fst snd]. destruct (st3 !! n); [|discriminate]. destruct (commit_is_empty _ _); discriminate.
      + intros [= <- <-]. exists orig, cur. split_and!; auto.
      + discriminate.
    - exfalso. assert (X : merge_command (Merge o ts) = false) by (eapply find_none; [exact F|now apply elem_of_list_In]). discriminate.
    - revert E2. unfold exec_replace. destruct (es_store s1 !! o), (es_store s1 !! r); try discriminate.
      destruct (all_some (List.map (place_of (es_labels s1)) ts)); [|discriminate].
      destruct (_ || _)%bool; [discriminate|]. destruct (add_object _ _ _); discriminate.
    - destruct (es_store s1 !! o); discriminate. }
  clear E2. set (t := (commit_tree (ob_commit cur) + 1)%N). set (ce := calm t ee).
  assert (Un : pe_replace pe !! c = None) by exact (build_unreplaced _ _ _ _ _ _ _ HB Hx).
  (* with something made of the conflict it goes on *)
  set (y := remade ee orig [es_current s1] t). destruct (add_object ee y (es_store s1)) as [n st2'] eqn:Ea.
  destruct (add_object_spec _ _ _ _ _ Fn N1 Ea) as (En & G2 & N2 & Sn).
  set (s2 := mk_es st2' n (es_labels s1) (<[c := NonZero n]> (<[c := NonZero n]> (es_rewritten s1))) (es_skipped_head s1)).
  assert (E2 : exec_command ce (Pick c [c]) s1 = Ok s2).
  { cbn [exec_command]. unfold exec_pick. rewrite Sc, So. change (ee_decodes ce) with (ee_decodes ee). rewrite Dc. cbn [negb apply_all]. rewrite So, Nm. unfold ce at 1. cbn [calm ee_pick]. rewrite Cf.
    cbn [calmed]. change (add_object ce) with (add_object ee). change (mk_object _ _ _ _) with y. rewrite Ea. cbn [ebind fst snd]. rewrite Sn.
    replace (commit_is_empty (find_object st2') (ob_commit y)) with false; [reflexivity|]. unfold commit_is_empty. cbn [y remade ob_commit commit_parents commit_tree].
    unfold find_object. rewrite (lookup_weaken _ _ _ _ Sc G2). symmetry. apply N.eqb_neq. unfold t. lia. }
  assert (Fc : faithful_names ce) by exact Fn. assert (Nc : named ce st) by exact Ns.
  assert (Pc : present d pe ce cs st) by (destruct Pr; constructor; assumption).
  assert (B1 : forall c q, ee_pick ce c q <> Broken). { intros a b. cbn. pose proof (NB a b). destruct (ee_pick ee a b); cbn; congruence. }
  assert (B2 : forall c q, ee_amend ce c q <> Broken). { intros a b. cbn. pose proof (NB' a b). destruct (ee_amend ee a b); cbn; congruence. }
  pose proof (sw_fit d l W Ld Lv Lp Kv pe Fit) as Fi. pose proof (sw_clear d l) as Cl.
  destruct (build_runs d pe ce allowed cs dest cmds st W K Pl Cl Fi Sort Fc Nc Pc B1 B2 HB) as [([[st' rw] head] & Er)|(c' & st' & Er & St)].
  2: { unfold rebase_in_memory in Er. rewrite F in Er. destruct (exec_commands ce cmds _) as [s|c2 st3|st3] eqn:Es; cbn [ebind] in Er; try discriminate Er. injection Er as -> ->.
    destruct (commands_stop_split _ _ _ _ _ Es) as (pre' & x & post' & s3 & Ec' & _ & E3).
    assert (X1 : x ∈ cmds) by (rewrite Ec'; apply elem_of_app; right; left).
    pose proof (command_stop _ _ _ _ _ E3) as X2. destruct (command_stop_at _ _ _ _ _ E3) as [o' X3]. destruct St as [(z & Hz & Mz)|[(q & Q)|(q & Q)]].
    - destruct x as [| |o k|o ts|o r ts| | | |]; cbn in X2; try now apply elem_of_nil in X2.
      + pose proof (sr_single o k X1) as ->. apply elem_of_list_singleton in X2. subst o. rewrite (sr_plain _ _ X1 _ Hz) in Mz. discriminate.
      + assert (X : merge_command (Merge o ts) = false) by (eapply find_none; [exact F|now apply elem_of_list_In]). discriminate.
      + destruct X3.
    - cbn in Q. destruct (ee_pick ee c' q); discriminate.
    - cbn in Q. destruct (ee_amend ee q c'); discriminate. }
  pose proof (build_carried_out d pe ce allowed cs dest cmds st st' rw head W K Pl Cl Fi Sort Fc Nc HB Er) as CO.
  assert (Gs : st ⊆ st') by exact (co_store _ _ _ _ _ _ _ _ CO).
  pose proof (rebase_grows ce st dest cmds) as Gr. rewrite Er in Gr. cbn in Gr. destruct Gr as [_ Nst]. specialize (Nst Nc).
  (* and the commit made of it is there in the end *)
  destruct (in_memory_commands _ _ _ _ _ _ _ Er) as (es & Ex & -> & -> & ->). pose proof (calm_commands t _ _ _ _ E1) as E1'. fold ce in E1'. rewrite Ec, exec_app, E1' in Ex. cbn [ebind] in Ex.
  rewrite exec_cons, E2 in Ex. cbn [ebind] in Ex.
  assert (Rc : es_rewritten es !! c = Some (NonZero n)).
  { assert (Sp : forall o k, Pick o k ∈ post -> k = [o]) by (intros o k H; apply sr_single; rewrite Ec; apply elem_of_app; right; right; exact H).
    rewrite (commands_same ce post c Sp) with (s := s2) (s' := es); [cbn; apply lookup_insert| |exact Ex].
    destruct (build_replays d pe allowed cs dest cmds W K Pl HB) as (ND & _). rewrite Ec in ND. unfold replayed in ND. rewrite flat_map_app in ND. cbn [flat_map replays] in ND.
    apply NoDup_app in ND. destruct ND as (_ & _ & ND). cbn in ND. apply NoDup_cons in ND. apply ND. }
  pose proof (exec_commands_grows ce st2' post (Ok s2) (ext_refl ce st2')) as Gr. change (grows ce st2' es_store (exec_commands ce post s2)) in Gr. rewrite Ex in Gr. destruct Gr as [G3 _].
  pose proof (lookup_weaken _ _ _ _ Sn G3) as Sn'.
  destruct (sw_fits d l W Ld Lv Lp Kv pe ce st (es_store es) (es_rewritten es) (new_head ce es) CO NU st0 Nst ltac:(etransitivity; eassumption) In0 (calm_plain t ee st0 Pp)
    ltac:(intros a z Ha; destruct (Rs a z Ha) as (x0 & o0 & H1 & H2 & H3); exists x0, o0; split_and!; [exact H1|exact (lookup_weaken _ _ _ _ H2 Gs)|exact H3]) c n orig (es_current s1) t Rc Un Sn')
    as (o & _ & Ho & p & pp & qx & Ep & Hp & Hq & Eq).
  assert (X : ee_pick ee c (ee_hash ee qx) = MadeTree (commit_tree (ob_commit o))).
  { apply (Pp c o p pp qx); auto. destruct (In0 c) as (o' & Ho' & P'); [apply (sw_vertex d l Lv Kv), (sr_over _ _ Hx); left|]. rewrite Ho in Ho'. injection Ho' as <-. now rewrite P'. }
  change (ee_hash ee qx) with (ee_hash ce qx) in X. rewrite (Nst _ _ Hq) in X. congruence.
Qed.
End run.

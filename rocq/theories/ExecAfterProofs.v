(** Proofs about what happens after (or instead of) a rebase in memory. *)
From stdpp Require Import sorting.
From Verif Require Import Base TextModel TextProofs EventLogModel DagModel DagSpec DagProofs StrModel StrProofs HookModel PlanModel
  PlanSpec PlanProofs PlanBuildProofs ExecModel ExecSpec ExecProofs ExecBuildProofs.
Local Open Scope string_scope.
Local Open Scope list_scope.

(** ** Objects are only added *)
Definition ext (ee : exec_env) (st st' : store) : Prop := st ⊆ st' /\ (named ee st -> named ee st').
Lemma ext_refl ee st : ext ee st st. Proof. split; auto. Qed.
Lemma ext_trans ee a b c : ext ee a b -> ext ee b c -> ext ee a c.
Proof. intros [A A'] [B B']. split; [etrans; eauto|auto]. Qed.
Definition grows {A} (ee : exec_env) (st : store) (of : A -> store) (x : exec A) : Prop :=
  match x with Ok a => ext ee st (of a) | StopMerge _ st' => ext ee st st' | Err st' => ext ee st st' end.

Lemma grows_bind {A B} ee st (of : A -> store) (of' : B -> store) x f :
  grows ee st of x -> (forall a, ext ee st (of a) -> grows ee st of' (f a)) -> grows ee st of' (ebind x f).
Proof. destruct x; cbn; auto. Qed.

Lemma add_object_grows ee x st o st' : add_object ee x st = (o, st') -> ext ee st st'.
Proof.
  unfold add_object. destruct (st !! ee_hash ee x) eqn:E; intros [= <- <-]; [apply ext_refl|]. split; [now apply insert_subseteq|].
  intros N o y. destruct (decide (ee_hash ee x = o)) as [<-|Hne].
  - rewrite lookup_insert. now intros [= <-].
  - rewrite lookup_insert_ne by exact Hne. apply N.
Qed.

Lemma apply_all_grows ee q orig l : forall st made, grows ee st fst (apply_all ee st q orig made l).
Proof.
  induction l as [|c l IH]; intros st made; cbn [apply_all]; [apply ext_refl|].
  destruct (st !! c) as [x|]; [|apply ext_refl]. destruct (is_merge _); [apply ext_refl|].
  assert (H : forall a : attempt, grows ee st fst (match a with
    | MadeTree t => let (o, st') := add_object ee (mk_object (mk_commit [q] t) (ob_author orig) (ee_stamp ee (ob_committer orig))
                      (ob_message orig)) st in apply_all ee st' q orig (Some o) l
    | Conflict => StopMerge c st | Broken => Err st end)).
  { intros [t| |]; [|apply ext_refl|apply ext_refl].
    destruct (add_object _ _ _) as [o st'] eqn:Ea. apply add_object_grows in Ea. specialize (IH st' (Some o)).
    revert IH. unfold grows. destruct (apply_all _ _ _ _ _ _); intros IH; eapply ext_trans; eauto. }
  destruct made; apply H.
Qed.

Lemma exec_command_grows ee x es : grows ee (es_store es) es_store (exec_command ee x es).
Proof.
  destruct x as [l|[o|l]|o l|c ts|c r ts| | |c|c]; cbn [exec_command]; try apply ext_refl.
  - destruct (es_labels es !! l); apply ext_refl.
  - unfold exec_pick. destruct (es_store es !! es_current es); [|apply ext_refl].
    destruct (es_store es !! o) as [orig|]; [|apply ext_refl]. destruct (negb (ee_decodes _ _)); [apply ext_refl|].
    eapply grows_bind; [apply apply_all_grows|]. intros [st' [n|]] S; cbn in *; [|exact S].
    destruct (st' !! n); cbn; [|exact S]. destruct (commit_is_empty _ _); cbn; exact S.
  - unfold exec_replace. destruct (es_store es !! c); [|apply ext_refl].
    destruct (es_store es !! r) as [rx|]; [|apply ext_refl]. destruct (all_some _); [|apply ext_refl].
    destruct (_ || _)%bool; [apply ext_refl|]. destruct (add_object _ _ _) as [nn st'] eqn:Ea.
    apply add_object_grows in Ea. exact Ea.
  - destruct (es_store es !! c); apply ext_refl.
Qed.

Lemma exec_commands_grows ee st cmds : forall x, grows ee st es_store x ->
  grows ee st es_store (fold_left (fun r x => ebind r (exec_command ee x)) cmds x).
Proof.
  induction cmds as [|y cmds IH]; intros x Hx; cbn; [exact Hx|]. apply IH. eapply grows_bind; [exact Hx|].
  intros es S. pose proof (exec_command_grows ee y es) as H. revert H. unfold grows.
  destruct (exec_command ee y es); intros H; eapply ext_trans; eauto.
Qed.

Lemma rebase_grows ee st dest cmds : grows ee st (fun r => fst (fst r)) (rebase_in_memory ee st dest cmds).
Proof.
  unfold rebase_in_memory.
  assert (H : grows ee st (fun r => fst (fst r)) (ebind (exec_commands ee cmds (mk_es st dest ∅ ∅ None))
    (fun s => Ok (es_store s, es_rewritten s, new_head ee s)))).
  { eapply grows_bind; [|intros a S; exact S]. unfold exec_commands. apply exec_commands_grows. apply ext_refl. }
  destruct (List.find merge_command cmds) as [[]|]; try exact H. apply ext_refl.
Qed.

(** ** What became of commits is in the repository *)
Definition news_there (rw : gmap oid moid) (st : store) : Prop := forall c n, rw !! c = Some (NonZero n) -> is_Some (st !! n).
Lemma news_there_ext ee rw st st' : ext ee st st' -> news_there rw st -> news_there rw st'.
Proof. intros [S _] H c n Hc. destruct (H c n Hc) as [x Hx]. exists x. eapply lookup_weaken; eauto. Qed.
Lemma news_there_insert c n rw st : is_Some (st !! n) -> news_there rw st -> news_there (<[c := NonZero n]> rw) st.
Proof.
  intros S H c' n'. destruct (decide (c = c')) as [<-|Hne].
  - rewrite lookup_insert. now intros [= <-].
  - rewrite lookup_insert_ne by exact Hne. apply H.
Qed.
Lemma news_there_zero c rw st : news_there rw st -> news_there (<[c := Zero]> rw) st.
Proof.
  intros H c' n'. destruct (decide (c = c')) as [<-|Hne].
  - now rewrite lookup_insert.
  - rewrite lookup_insert_ne by exact Hne. apply H.
Qed.
Lemma news_there_fold o l : forall rw st, is_Some (st !! o) -> news_there rw st ->
  news_there (fold_left (fun m c => <[c := NonZero o]> m) l rw) st.
Proof. induction l as [|c l IH]; intros rw st S H; cbn; [exact H|]. apply IH; [exact S|]. now apply news_there_insert. Qed.

Lemma exec_command_there ee x es es' : exec_command ee x es = Ok es' ->
  news_there (es_rewritten es) (es_store es) -> news_there (es_rewritten es') (es_store es').
Proof.
  intros E H. pose proof (exec_command_grows ee x es) as G. rewrite E in G. cbn in G.
  pose proof (news_there_ext _ _ _ _ G H) as H'. clear G. revert E.
  destruct x as [l|[o|l]|o l|c ts|c r ts| | |c|c]; cbn [exec_command].
  - intros [= <-]. exact H.
  - intros [= <-]. exact H.
  - destruct (es_labels es !! l); intros [= <-]. exact H.
  - unfold exec_pick. destruct (es_store es !! es_current es); [|discriminate].
    destruct (es_store es !! o) as [orig|]; [|discriminate]. destruct (negb (ee_decodes _ _)); [discriminate|].
    destruct (apply_all _ _ _ _ _ _) as [[st' [n|]]|? ?|?]; cbn; try discriminate.
    destruct (st' !! n) as [y|] eqn:En; [|discriminate]. destruct (commit_is_empty _ _); intros [= <-]; cbn in *.
    + now apply news_there_zero.
    + apply news_there_fold; [now exists y|]. apply news_there_insert; [now exists y|exact H'].
  - discriminate.
  - unfold exec_replace. destruct (es_store es !! c); [|discriminate].
    destruct (es_store es !! r) as [rx|]; [|discriminate]. destruct (all_some _); [|discriminate].
    destruct (_ || _)%bool; [discriminate|]. destruct (add_object _ _ _) as [nn st'] eqn:Ea. intros [= <-]. cbn in *.
    apply news_there_insert; [|exact H']. revert Ea. unfold add_object. destruct (es_store es !! ee_hash ee _) as [y|] eqn:E; intros [= <- <-].
    + now exists y.
    + rewrite lookup_insert. eauto.
  - discriminate.
  - intros [= <-]. exact H.
  - intros [= <-]. exact H.
  - destruct (es_store es !! c); intros [= <-]. cbn. now apply news_there_zero.
Qed.

Lemma exec_commands_there ee cmds : forall es es', exec_commands ee cmds es = Ok es' ->
  news_there (es_rewritten es) (es_store es) -> news_there (es_rewritten es') (es_store es').
Proof.
  unfold exec_commands. assert (F : forall cmds (x : exec exec_state) es', fold_left (fun r x => ebind r (exec_command ee x)) cmds x = Ok es' ->
    exists es, x = Ok es).
  { clear. induction cmds as [|y cmds IH]; intros x es' H; cbn in H; [eauto|]. apply IH in H. destruct H as [es H].
    destruct x; cbn in H; try discriminate. eauto. }
  induction cmds as [|y cmds IH]; intros es es' E H; cbn in E; [now injection E as <-|].
  destruct (F _ _ _ E) as [es1 E1]. rewrite E1 in E. apply (IH _ _ E). eapply exec_command_there; eauto.
Qed.

Lemma rebase_there ee st dest cmds st' rw head : rebase_in_memory ee st dest cmds = Ok (st', rw, head) -> news_there rw st'.
Proof.
  unfold rebase_in_memory. intros E.
  assert (E' : ebind (exec_commands ee cmds (mk_es st dest ∅ ∅ None)) (fun s => Ok (es_store s, es_rewritten s, new_head ee s)) = Ok (st', rw, head)).
  { destruct (List.find merge_command cmds) as [[]|]; try exact E. discriminate. }
  destruct (exec_commands _ _ _) as [es|? ?|?] eqn:Ec; cbn in E'; try discriminate. injection E' as <- <- _.
  apply (exec_commands_there _ _ _ _ Ec). intros c n. cbn. now rewrite lookup_empty.
Qed.

Lemma with_store_visible st r : same_visible r (with_store st r).
Proof. repeat split. Qed.

(** ** Moving branches *)
Section branches.
Context (b : branch_env) (rw : gmap oid moid).

Definition goal (new : moid) (n : refname) : moid :=
  match new with
  | NonZero o => NonZero o
  | Zero => if String.eqb n (be_main b) then match be_upstream b with Some (Some t) => NonZero t | _ => Zero end else Zero
  end.
Definition lines_of (g : oid * list refname) : list (oid * moid * refname) :=
  match rw !! fst g with
  | None => []
  | Some new => List.map (fun n => (fst g, goal new n, n)) (sorted_names (snd g))
  end.

Lemma announced_app refs l1 l2 : announced refs (l1 ++ l2) = announced (announced refs l1) l2.
Proof. unfold announced. apply fold_left_app. Qed.

Definition sure (new : moid) (n : refname) : Prop := new = Zero -> n = be_main b -> be_upstream b <> None.

Lemma move_branch_lines old new n refs ls refs' ls' k :
  move_branch b old new n refs ls = (refs', ls', k) ->
  (k = Go /\ ls' = ls ++ [(old, goal new n, n)] /\ refs' = announced refs [(old, goal new n, n)] /\ sure new n) \/
  (k <> Go /\ ls' = ls /\ refs' = refs).
Proof.
  unfold move_branch, goal, sure. destruct new as [|o].
  - destruct (String.eqb_spec n (be_main b)) as [->|Hn].
    + destruct (be_upstream b) as [[t|]|]; [| |intros [= <- <- <-]; right; auto];
        (destruct (be_writes b (be_main b)); intros [= <- <- <-]; [left; split_and!; auto; discriminate|right; auto]).
    + destruct (be_writes b n); intros [= <- <- <-]; [left; split_and!; auto; congruence|right; auto].
  - destruct (be_writes b n); intros [= <- <- <-]; [left; split_and!; auto; discriminate|right; auto].
Qed.

Lemma move_names_lines old new ns : forall refs ls refs' ls' k,
  move_names b old new ns refs ls = (refs', ls', k) ->
  exists l1 l2, List.map (fun n => (old, goal new n, n)) ns = l1 ++ l2 /\
    ls' = ls ++ l1 /\ refs' = announced refs l1 /\ (k = Go -> l2 = []) /\
    Forall (fun l => sure new (snd l)) l1.
Proof.
  induction ns as [|n ns IH]; intros refs ls refs' ls' k; cbn.
  - intros [= <- <- <-]. exists [], []. rewrite !app_nil_r. split_and!; auto using Forall_nil_2.
  - destruct (move_branch b old new n refs ls) as [[refs1 ls1] k1] eqn:E1. apply move_branch_lines in E1.
    destruct E1 as [(-> & -> & -> & Hu)|(Hk & -> & ->)].
    + intros H. apply IH in H. destruct H as (l1 & l2 & A & -> & -> & D & F).
      exists ((old, goal new n, n) :: l1), l2. cbn. rewrite A. split_and!; try (now rewrite <- app_assoc); auto using Forall_cons_2.
    + intros H. assert (Hr : (refs', ls', k) = (refs, ls, k1)) by (destruct k1; congruence).
      injection Hr as -> -> ->. exists [], ((old, goal new n, n) :: List.map (fun n => (old, goal new n, n)) ns).
      rewrite app_nil_r. split_and!; auto using Forall_nil_2. congruence.
Qed.

Lemma sorted_perm l : Permutation (sorted_names l) l.
Proof. apply merge_sort_Permutation. Qed.

Lemma move_groups_lines groups : forall refs ls refs' ls' k,
  move_groups b rw groups refs ls = (refs', ls', k) ->
  exists l1 l2, flat_map lines_of groups = l1 ++ l2 /\ ls' = ls ++ l1 /\ refs' = announced refs l1 /\ (k = Go -> l2 = []) /\
    Forall (fun l => exists new, rw !! fst (fst l) = Some new /\ sure new (snd l)) l1.
Proof.
  induction groups as [|[old ns] groups IH]; intros refs ls refs' ls' k; cbn.
  - intros [= <- <- <-]. exists [], []. rewrite !app_nil_r. split_and!; auto using Forall_nil_2.
  - change (lines_of (old, ns)) with (match rw !! old with
      None => [] | Some new => List.map (fun n => (old, goal new n, n)) (sorted_names ns) end).
    destruct (rw !! old) as [new|] eqn:Er.
    + destruct (match new with NonZero o => be_exists b o | Zero => true end).
      * destruct (move_names b old new (sorted_names ns) refs ls) as [[refs1 ls1] k1] eqn:E1.
        apply move_names_lines in E1. destruct E1 as (m1 & m2 & A & -> & -> & D & F).
        assert (F' : Forall (fun l => exists new, rw !! fst (fst l) = Some new /\ sure new (snd l)) m1).
        { rewrite Forall_forall in F |- *. intros l Hl. exists new. split; [|auto].
          assert (Hin : l ∈ List.map (fun n => (old, goal new n, n)) (sorted_names ns)) by (rewrite A; set_solver).
          apply elem_of_list_In, in_map_iff in Hin. destruct Hin as (n & <- & _). exact Er. }
        destruct k1.
        -- intros H. apply IH in H. destruct H as (l1 & l2 & A' & -> & -> & D' & F2). rewrite (D eq_refl) in A.
           rewrite app_nil_r in A. exists (m1 ++ l1), l2. rewrite A, A'. split_and!.
           ++ now rewrite app_assoc.
           ++ now rewrite app_assoc.
           ++ now rewrite announced_app.
           ++ exact D'.
           ++ apply Forall_app. auto.
        -- intros [= <- <- <-]. exists m1, (m2 ++ flat_map lines_of groups). rewrite A, app_assoc. split_and!; auto. discriminate.
        -- intros [= <- <- <-]. exists m1, (m2 ++ flat_map lines_of groups). rewrite A, app_assoc. split_and!; auto. discriminate.
      * intros [= <- <- <-]. exists []. rewrite app_nil_r. eexists. split_and!; [reflexivity|auto using Forall_nil_2..]. discriminate.
    + intros H. apply IH in H. exact H.
Qed.

(** The lines by reference. *)
Lemma lines_in groups o m n : (o, m, n) ∈ flat_map lines_of groups <->
  exists ns new, (o, ns) ∈ groups /\ n ∈ ns /\ rw !! o = Some new /\ m = goal new n.
Proof.
  rewrite elem_of_list_In, in_flat_map. split.
  - intros ([o' ns] & Hg & Hl). unfold lines_of in Hl. cbn in Hl. destruct (rw !! o') as [new|] eqn:Er; [|now apply in_nil in Hl].
    apply in_map_iff in Hl. destruct Hl as (n' & [= <- <- <-] & Hn). exists ns, new. split_and!; auto.
    + now apply elem_of_list_In.
    + apply elem_of_list_In in Hn. now rewrite sorted_perm in Hn.
  - intros (ns & new & Hg & Hn & Hr & ->). exists (o, ns). split; [now apply elem_of_list_In|]. unfold lines_of. cbn. rewrite Hr.
    apply in_map_iff. exists n. split; [reflexivity|]. apply elem_of_list_In. now rewrite sorted_perm.
Qed.

Lemma lines_names groups : sublist (List.map snd (flat_map lines_of groups))
  (List.concat (List.map (fun g => sorted_names (snd g)) groups)).
Proof.
  induction groups as [|[o ns] groups IH]; cbn; [constructor|]. rewrite map_app. apply sublist_app; [|exact IH].
  unfold lines_of. cbn. destruct (rw !! o); cbn; [|apply sublist_nil_l].
  rewrite map_map. cbn. now rewrite map_id.
Qed.

Lemma sorted_concat groups : Permutation (List.concat (List.map (fun g : oid * list refname => sorted_names (snd g)) groups))
  (List.concat (List.map snd groups)).
Proof. induction groups as [|[o ns] groups IH]; cbn; [constructor|]. apply Permutation_app; [apply sorted_perm|exact IH]. Qed.

Lemma lines_once groups : NoDup (List.concat (List.map snd groups)) -> NoDup (List.map snd (flat_map lines_of groups)).
Proof. intros H. eapply sublist_NoDup; [apply lines_names|]. now rewrite sorted_concat. Qed.

Lemma announced_other ls : forall refs n, n ∉ List.map snd ls -> announced refs ls !! n = refs !! n.
Proof.
  induction ls as [|[[o m] n'] ls IH]; intros refs n Hn; [reflexivity|]. cbn in Hn. apply not_elem_of_cons in Hn.
  destruct Hn as [Hne Hn]. change (announced refs ((o, m, n') :: ls)) with (announced (announced refs [(o, m, n')]) ls).
  rewrite (IH _ _ Hn). cbn. destruct m; [now rewrite lookup_delete_ne by congruence|now rewrite lookup_insert_ne by congruence].
Qed.
Lemma announced_in ls : forall refs o m n, NoDup (List.map snd ls) -> (o, m, n) ∈ ls ->
  announced refs ls !! n = match m with NonZero x => Some x | Zero => None end.
Proof.
  induction ls as [|[[o' m'] n'] ls IH]; intros refs o m n Hnd Hin; [now apply elem_of_nil in Hin|].
  cbn in Hnd. apply NoDup_cons in Hnd. destruct Hnd as [Hn Hnd].
  change (announced refs ((o', m', n') :: ls)) with (announced (announced refs [(o', m', n')]) ls).
  inversion Hin; subst.
  - rewrite (announced_other _ _ _ Hn). cbn. destruct m'; [apply lookup_delete|apply lookup_insert].
  - eapply IH; eauto.
Qed.

(** Where each reference can be, also after an error. *)
Lemma move_groups_refs groups refs refs' ls k :
  branch_table groups refs -> move_groups b rw groups refs [] = (refs', ls, k) ->
  refs' = announced refs ls /\ NoDup (List.map snd ls) /\
  (forall o x n, (o, x, n) ∈ ls -> refs !! n = Some o /\ is_local n = true /\ is_Some (rw !! o) /\
     branch_after b rw refs n = match x with NonZero o' => Some o' | Zero => None end) /\
  (k = Go -> forall o n, refs !! n = Some o -> is_local n = true -> is_Some (rw !! o) -> n ∈ List.map snd ls).
Proof.
  intros T H. apply move_groups_lines in H. destruct H as (l1 & l2 & A & B & C & D & F). cbn in B. subst l1.
  pose proof (lines_once groups (bt_once _ _ T)) as Hnd. rewrite A, map_app in Hnd. apply NoDup_app in Hnd.
  split_and!; [exact C|apply Hnd| |].
  - intros o x n Hin. assert (Hl : (o, x, n) ∈ flat_map lines_of groups) by (rewrite A; set_solver).
    apply lines_in in Hl. destruct Hl as (ns & new & Hg & Hn & Hr & ->).
    destruct (proj1 (bt_in _ _ T n o)) as [Hb Hl]; [eauto|]. split_and!; eauto.
    unfold branch_after. rewrite Hb, Hl, Hr.
    rewrite Forall_forall in F. destruct (F _ Hin) as (new' & Hr' & Hs). cbn in Hr', Hs. rewrite Hr in Hr'. injection Hr' as <-.
    unfold goal. destruct new as [|o']; [|reflexivity]. unfold sure in Hs.
    destruct (String.eqb_spec n (be_main b)) as [Hn'|Hn']; [rewrite decide_True by auto|now rewrite decide_False by auto].
    specialize (Hs eq_refl Hn'). destruct (be_upstream b) as [[t|]|]; [reflexivity..|congruence].
  - intros Hk o n Hb Hl [new Hr]. rewrite (D Hk), app_nil_r in A.
    destruct (proj2 (bt_in _ _ T n o)) as (ns & Hg & Hn); [auto|].
    apply elem_of_list_In, in_map_iff. exists (o, goal new n, n). split; [reflexivity|]. apply elem_of_list_In.
    rewrite <- A. apply lines_in. eauto 10.
Qed.

Lemma after_unless n refs : (forall o, refs !! n = Some o -> is_local n = true -> rw !! o = None) ->
  branch_after b rw refs n = refs !! n.
Proof.
  intros H. unfold branch_after. destruct (refs !! n) as [o|] eqn:E; [|reflexivity].
  destruct (is_local n) eqn:El; [|reflexivity]. now rewrite (H o).
Qed.

Lemma move_branches_spec groups refs :
  branch_table groups refs ->
  let m := move_branches b rw groups refs in
  (forall n, mr_refs m !! n = refs !! n \/ mr_refs m !! n = branch_after b rw refs n) /\
  (forall ls, mr_lines m = Some ls -> mr_refs m = announced refs ls /\ NoDup (List.map snd ls) /\
     forall o x n, (o, x, n) ∈ ls -> refs !! n = Some o /\ is_local n = true /\ is_Some (rw !! o) /\
       branch_after b rw refs n = match x with NonZero o' => Some o' | Zero => None end) /\
  (mr_ok m = true -> exists ls, mr_lines m = Some ls /\ (forall n, mr_refs m !! n = branch_after b rw refs n) /\
     forall o n, refs !! n = Some o -> is_local n = true -> is_Some (rw !! o) -> n ∈ List.map snd ls).
Proof.
  intros T m. unfold m, move_branches. destruct (move_groups b rw groups refs []) as [[refs' ls] k] eqn:E.
  destruct (move_groups_refs _ _ _ _ _ T E) as (Hr & Hnd & Hin & Hall).
  assert (Hcases : forall n, n ∉ List.map snd ls /\ refs' !! n = refs !! n \/ refs' !! n = branch_after b rw refs n).
  { intros n. destruct (decide (n ∈ List.map snd ls)) as [Hi|Hi].
    - right. apply elem_of_list_In, in_map_iff in Hi. destruct Hi as ([[o x] n'] & <- & Hi). apply elem_of_list_In in Hi. cbn.
      rewrite Hr, (announced_in _ _ _ _ _ Hnd Hi). symmetry. apply (Hin _ _ _ Hi).
    - left. split; [exact Hi|]. rewrite Hr. now apply announced_other. }
  split; [|split].
  - intros n. destruct (Hcases n) as [[_ H]|H]; destruct k; cbn; auto.
  - intros ls' Hl. assert (ls' = ls /\ mr_refs (match k with Go => mk_moved refs' (Some ls) true | Fail => mk_moved refs' (Some ls) false
      | Abort_ => mk_moved refs' None false end) = refs') as [-> Hm].
    { destruct k; cbn in *; try discriminate; now injection Hl as <-. }
    split; [destruct k; cbn in *; exact Hr|]. split; [exact Hnd|exact Hin].
  - intros Hk. destruct k; try discriminate. exists ls. split; [reflexivity|]. split; [|exact (Hall eq_refl)].
    intros n. cbn. destruct (Hcases n) as [[Hi H]|H]; [|exact H]. rewrite H. symmetry. apply after_unless.
    intros o Ho Hl. destruct (rw !! o) as [new|] eqn:Er; [|reflexivity]. exfalso. apply Hi. eapply (Hall eq_refl); eauto.
Qed.
End branches.

(** ** The end of a rebase *)
Definition gc_name (o : oid) : refname := "refs/branchless/" +:+ oid_to_string o.

Lemma gc_not_local o : is_local (gc_name o) = false.
Proof. reflexivity. Qed.

Lemma mark_new_local st news : forall refs n, is_local n = true -> mark_new st news refs !! n = refs !! n.
Proof.
  induction news as [|x news IH]; intros refs n Hn; [reflexivity|]. unfold mark_new. cbn [fold_left].
  destruct x as [|o]; [apply (IH _ _ Hn)|]. destruct (decide _); [|apply (IH _ _ Hn)].
  etrans; [apply (IH _ _ Hn)|]. apply lookup_insert_ne. intros <-. pose proof (gc_not_local o) as H. unfold gc_name in H. congruence.
Qed.

Lemma gc_name_inj o o' : oid_ok o -> oid_ok o' -> gc_name o = gc_name o' -> o = o'.
Proof.
  intros H H' E. unfold gc_name in E. apply (inj (String.append _)) in E. pose proof (nzoid_text_round_trip o H) as A.
  pose proof (nzoid_text_round_trip o' H') as B. rewrite E in A. congruence.
Qed.

Lemma mark_new_kept st news : forall refs o, (forall o', NonZero o' ∈ news -> oid_ok o') -> oid_ok o ->
  (NonZero o ∈ news /\ is_Some (st !! o) \/ refs !! gc_name o = Some o) -> mark_new st news refs !! gc_name o = Some o.
Proof.
  induction news as [|x news IH]; intros refs o Hok Ho H; unfold mark_new; cbn [fold_left].
  - destruct H as [[H _]|H]; [now apply elem_of_nil in H|exact H].
  - assert (Hok' : forall o', NonZero o' ∈ news -> oid_ok o') by (intros; apply Hok; now right).
    destruct x as [|o1].
    + apply (IH refs o Hok' Ho). destruct H as [[H Hs]|H]; [left; inversion H; subst; auto|now right].
    + destruct (decide (is_Some (st !! o1))) as [Hs1|Hs1].
      * apply (IH _ o Hok' Ho). destruct (decide (o1 = o)) as [->|Hne]; [right; apply lookup_insert|].
        destruct H as [[H Hs]|H]; [left; inversion H; subst; [congruence|auto]|right].
        rewrite lookup_insert_ne; [exact H|]. intros E. apply Hne. apply (gc_name_inj o1 o); auto. apply Hok. now left.
      * apply (IH refs o Hok' Ho). destruct H as [[H Hs]|H]; [left; inversion H; subst; [congruence|auto]|now right].
Qed.

Lemma branch_after_ext b rw refs refs' n : refs !! n = refs' !! n -> branch_after b rw refs n = branch_after b rw refs' n.
Proof. unfold branch_after. now intros ->. Qed.

Section post.
Context (b : branch_env) (groups : gmap refname oid -> list (oid * list refname))
  (iter : gmap oid moid -> list (oid * moid)) (rw : gmap oid moid) (skipped : option oid).
Context (Hgroups : forall refs, branch_table (groups refs) refs) (Hiter : Permutation (iter rw) (map_to_list rw)).

Lemma iter_in o : NonZero o ∈ List.map snd (iter rw) <-> exists c, rw !! c = Some (NonZero o).
Proof.
  rewrite elem_of_list_In, in_map_iff. split.
  - intros ([c x] & E & H). cbn in E. subst x. exists c. apply elem_of_map_to_list. rewrite <- Hiter. now apply elem_of_list_In.
  - intros (c & H). exists (c, NonZero o). split; [reflexivity|]. apply elem_of_list_In. rewrite Hiter. now apply elem_of_map_to_list.
Qed.

Lemma post_rebase_refs r r' :
  post_rebase b groups iter rw skipped r = (r', true) ->
  (forall n, is_local n = true -> rp_refs r' !! n = branch_after b rw (rp_refs r) n) /\
  (forall o, (exists c, rw !! c = Some (NonZero o)) -> (forall c o, rw !! c = Some (NonZero o) -> oid_ok o) ->
     is_Some (rp_store r !! o) -> rp_refs r' !! gc_name o = Some o) /\
  (forall n, is_local n = false -> (forall o, n <> gc_name o) -> rp_refs r' !! n = rp_refs r !! n) /\
  (exists ls, rp_lines r' = rp_lines r ++ ls /\ NoDup (List.map snd ls) /\
     (forall o x n, (o, x, n) ∈ ls -> rp_refs r !! n = Some o /\ is_local n = true /\ is_Some (rw !! o) /\
        branch_after b rw (rp_refs r) n = match x with NonZero o' => Some o' | Zero => None end) /\
     (forall o n, rp_refs r !! n = Some o -> is_local n = true -> is_Some (rw !! o) -> n ∈ List.map snd ls)) /\
  Permutation (rp_rewrites r') (rp_rewrites r ++ map_to_list rw).
Proof.
  unfold post_rebase. set (refs := mark_new _ _ _).
  destruct (move_branches_spec b rw (groups refs) refs (Hgroups refs)) as (A & B & C).
  destruct (mr_ok _) eqn:Ek; intros [= <-]; try discriminate. destruct (C eq_refl) as (ls & El & D & F).
  assert (Loc : forall n, is_local n = true -> refs !! n = rp_refs r !! n) by (intros n Hn; now apply mark_new_local).
  cbn [rp_refs rp_lines rp_rewrites]. split; [|split; [|split; [|split]]].
  - intros n Hn. rewrite D. apply branch_after_ext. now apply Loc.
  - intros o Ho Hok Hs. rewrite D. unfold branch_after. unfold refs. rewrite mark_new_kept.
    + now rewrite gc_not_local.
    + intros o' H. apply iter_in in H. destruct H as (c & H). eauto.
    + destruct Ho as (c & H). eauto.
    + left. split; [now apply iter_in|exact Hs].
  - intros n Hn Hg. rewrite D. unfold branch_after. assert (E : refs !! n = rp_refs r !! n).
    { unfold refs, mark_new. generalize (List.map snd (iter rw)) as news. intros news. generalize (rp_refs r) as m.
      induction news as [|x news IH]; intros m; cbn; [reflexivity|]. destruct x as [|o]; [apply IH|].
      destruct (decide _); [|apply IH]. etrans; [apply IH|]. apply lookup_insert_ne. intros E. now apply (Hg o). }
    rewrite E. destruct (rp_refs r !! n); [|reflexivity]. now rewrite Hn.
  - rewrite El. exists ls. split; [reflexivity|]. destruct (B ls El) as (_ & Hnd & Hin). split; [exact Hnd|]. split.
    + intros o x n H. destruct (Hin _ _ _ H) as (H1 & H2 & H3 & H4). rewrite (Loc n H2) in H1. split_and!; auto.
      rewrite <- H4. apply branch_after_ext. symmetry. now apply Loc.
    + intros o n H1 H2 H3. apply (F o n); auto. now rewrite (Loc n H2).
  - now rewrite Hiter.
Qed.

(** HEAD afterwards. *)
Lemma post_rebase_head r r' h :
  post_rebase b groups iter rw skipped r = (r', true) -> hi_oid (rp_head r) = Some h ->
  match hi_branch (rp_head r) with
  | None =>
      match rw !! h with
      | None => rp_checkout r' = StayPut /\ final_head r' = Some h
      | Some (NonZero q) => final_head r' = Some q
      | Some Zero => forall q, skipped = Some q -> final_head r' = Some q
      end
  | Some n =>
      match rp_refs r' !! n with
      | Some o => rp_checkout r' = CheckOutBranch n /\ final_head r' = Some o
      | None => forall q, skipped = Some q -> final_head r' = Some q
      end
  end.
Proof.
  unfold post_rebase, final_head. intros E Hh. destruct (rp_head r) as [ho hb]. cbn in Hh. subst ho. cbn [hi_oid hi_branch] in *.
  destruct (mr_ok _) eqn:Ek; [|discriminate]. injection E as <-. cbn [rp_refs rp_checkout rp_head].
  set (refs' := mr_refs _). destruct hb as [n|]; cbn [updated_head].
  - destruct (refs' !! n) as [o|] eqn:Er.
    + unfold checkout_of. rewrite decide_False by congruence. split; [reflexivity|exact Er].
    + intros q ->. unfold checkout_of. destruct (decide _) as [Eq|]; [injection Eq as ->; reflexivity|reflexivity].
  - destruct (rw !! h) as [[|q]|].
    + intros q ->. unfold checkout_of. destruct (decide _) as [Eq|]; [injection Eq as ->; reflexivity|reflexivity].
    + unfold checkout_of. destruct (decide _) as [Eq|]; [injection Eq as ->; reflexivity|reflexivity].
    + unfold checkout_of. rewrite decide_True by reflexivity. split; reflexivity.
Qed.
End post.

(** ** Choosing how to carry out a plan *)
Section choose.
Context (e : exec_env) (b : branch_env) (groups : gmap refname oid -> list (oid * list refname))
  (iter : gmap oid moid -> list (oid * moid)) (on_disk : repo -> repo * exec_result).

Lemma execute_memory force_in_memory resolve dest cmds r :
  let x := execute_plan e b groups iter on_disk force_in_memory false resolve dest cmds r in
  match rebase_in_memory e (rp_store r) dest cmds with
  | Ok (st, rw, head) => exists ok, x = (fst x, if ok : bool then Succeeded (Some rw) else InternalError) /\
      post_rebase b groups iter rw head (with_store st r) = (fst x, ok)
  | StopMerge c st =>
      rp_store r ⊆ st /\
      if (negb resolve || force_in_memory)%bool then x = (with_store st r, DeclinedToMerge c) else x = on_disk (with_store st r)
  | Err st => rp_store r ⊆ st /\ x = (with_store st r, InternalError)
  end.
Proof.
  intros x. unfold x, execute_plan. pose proof (rebase_grows e (rp_store r) dest cmds) as G.
  destruct (rebase_in_memory e (rp_store r) dest cmds) as [[[st rw] head]|c st|st]; cbn in G.
  - destruct (post_rebase _ _ _ _ _ _) as [r' ok]. exists ok. split; reflexivity.
  - split; [apply G|]. destruct resolve, force_in_memory; reflexivity.
  - split; [apply G|]. reflexivity.
Qed.

Lemma execute_disk force_in_memory resolve dest cmds r :
  execute_plan e b groups iter on_disk force_in_memory true resolve dest cmds r =
  if force_in_memory then (r, InternalError) else on_disk r.
Proof. reflexivity. Qed.
End choose.

(** ** Together with plans *)
Lemma rebuilt_on_one d cs e p p' c : wf_graph (dag_graph d) -> plannable d e cs -> ~ merge_commit (dag_graph d) c ->
  rebuilt_on d cs p c -> rebuilt_on d cs p' c -> p = p'.
Proof.
  intros W P Nm. assert (One : forall p p', parent (dag_graph d) p c -> parent (dag_graph d) p' c -> p = p').
  { intros q q' H H'. destruct H as (ps & A & B), H' as (ps' & A' & B').
    apply (parents_of_spec _ _ _ _ W) in A as A1. apply (parents_of_spec _ _ _ _ W) in A' as A2. rewrite A1 in A2. subst ps'.
    destruct (decide (1 < length ps)%nat) as [L|L]; [exfalso; apply Nm; exists ps; auto|].
    destruct ps as [|a [|a' ps]]; cbn in L; try lia; [now apply elem_of_nil in B|].
    apply elem_of_list_singleton in B, B'. congruence. }
  intros [H|[(_ & N & H)|(M & _)]] [H'|[(_ & N' & H')|(M' & _)]]; try contradiction.
  - eapply (pl_one _ _ _ P); eauto.
  - exfalso. apply N'. now exists p.
  - exfalso. apply N. now exists p'.
  - auto.
Qed.

Lemma fixed_up_dec cs c : fixed_up cs c \/ ~ fixed_up cs c.
Proof.
  induction cs as [|x cs [(t & IH)|IH]].
  - right. intros (t & H). now apply elem_of_nil in H.
  - left. exists t. now right.
  - destruct x as [ps c'|a z|t f]; [| |destruct (decide (f = c)) as [->|Hne]; [left; exists t; now left|]];
      right; intros (t' & H); inversion H; subst; try congruence; apply IH; now exists t'.
Qed.

Section outcome.
Context (d : dag) (cs : list constraint) (e : plan_env) (ee : exec_env) (st st' : store) (rw : gmap oid moid) (head : option oid).
Context (W : wf_graph (dag_graph d)) (P : plannable d e cs) (C : carried_out d cs e ee st st' rw head).

Lemma skipped_no_merge c : rw !! c = Some Zero -> ~ fixed_up cs c -> ~ merge_commit (dag_graph d) c /\ rebuilt d cs c.
Proof.
  intros H Nf. destruct (co_rest _ _ _ _ _ _ _ _ C c) as [R|R]; [rewrite H; eauto| |contradiction]. split; [|exact R].
  destruct (co_fate _ _ _ _ _ _ _ _ C c R Nf); congruence.
Qed.

(** A place for every commit, and only one. *)
Lemma lands_total c : ~ fixed_up cs c -> exists q, lands d cs rw c q.
Proof.
  intros Nf. destruct (rw !! c) as [[|q]|] eqn:E.
  - destruct (skipped_no_merge c E Nf) as [_ R].
    destruct (co_fate _ _ _ _ _ _ _ _ C c R Nf) as [p q _ _ Hp Hq _| |]; try congruence.
    exists q. eapply lands_skipped; eauto.
  - exists q. now apply lands_new.
  - exists c. now apply lands_kept.
Qed.

Lemma lands_one (Cl : clear_of_fixups d cs) c q q' : ~ fixed_up cs c -> lands d cs rw c q -> lands d cs rw c q' -> q = q'.
Proof.
  intros Nf L. revert q' Nf. induction L as [p H|p q H|p p' q H Hp L IH]; intros q' Nf L'; inversion L'; subst; try congruence.
  apply IH; [eapply Cl; eauto|]. destruct (skipped_no_merge p H Nf) as [Nm _].
  match goal with H1 : rebuilt_on d cs ?x p |- _ => match x with p' => fail 1 | _ => now rewrite (rebuilt_on_one d cs e p' x p W P Nm Hp H1) end end.
Qed.

(** The new versions exist. *)
Lemma new_there c n : rw !! c = Some (NonZero n) -> is_Some (st' !! n).
Proof.
  assert (Main : forall c n, rw !! c = Some (NonZero n) -> rebuilt d cs c -> ~ fixed_up cs c -> is_Some (st' !! n)).
  { intros c' n' H R Nf. destruct (co_fate _ _ _ _ _ _ _ _ C c' R Nf); [congruence| |];
      match goal with H1 : rw !! c' = Some (NonZero ?m), H2 : st' !! ?m = Some _ |- _ => rewrite H in H1; injection H1 as ->; eauto end. }
  intros H. destruct (fixed_up_dec cs c) as [F|F].
  - destruct (co_fixup _ _ _ _ _ _ _ _ C c n F H) as (t & Ht & Nt & Hn). apply (Main t n Hn); [|exact Nt]. right. now exists c.
  - apply (Main c n H); [|exact F]. destruct (co_rest _ _ _ _ _ _ _ _ C c); [rewrite H; eauto|assumption|contradiction].
Qed.
End outcome.

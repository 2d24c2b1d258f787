(** Proofs about the smartlog. *)
From Coq Require Import Sorted.
From Verif Require Import Base TextModel EventLogModel EvolveModel DagModel DagSpec DagProofs
  DagCompProofs NavModel NavProofs SlogModel SlogSpec.

(** ** The shape of the output *)

Definition kids (e : slog_env) (vs : commit_set) (o : oid) : list (oid * bool) :=
  node_children e vs o
  ++ List.map (fun c => (c, false)) (sl_order e (list_to_set (node_descendants e vs o))).
Definition before_of (e : slog_env) (vs : commit_set) (o : oid) : list line :=
  match node_ancestor e vs o with Some (_, n) => [OmittedBefore n] | None => [] end
  ++ match node_parents e vs o with [] => [] | _ :: ps => List.map MergeParent ps end.
Definition line_of (e : slog_env) (o : oid) : line :=
  Commit o (is_public_commit (sl_dag e) o) (bool_decide (o ∈ obsolete_commits (sl_dag e)))
    (bool_decide (sl_head e = Some o)).
Definition after_of (e : slog_env) (vs : commit_set) (o : oid) : list line :=
  if Nat.ltb 0 (node_omitted e vs o) then [OmittedAfter (node_omitted e vs o)] else [].

Definition kid_out (f : nat) (e : slog_env) (vs : commit_set) (rs : list oid) (k : oid * bool) : option (list line) :=
  if bool_decide (fst k ∈ rs) then Some []
  else if snd k then Some [MergeChild (fst k)]
  else child_output f e vs rs (fst k).
Fixpoint outs (f : nat) (e : slog_env) (vs : commit_set) (rs : list oid) (l : list (oid * bool)) : option (list line) :=
  match l with
  | [] => Some []
  | k :: l' => match kid_out f e vs rs k, outs f e vs rs l' with Some x, Some y => Some (x ++ y) | _, _ => None end
  end.

Lemma child_output_S f e vs rs o :
  child_output (S f) e vs rs o =
  match outs f e vs rs (kids e vs o) with
  | Some above => Some (before_of e vs o ++ [line_of e o] ++ after_of e vs o ++ above)
  | None => None
  end.
Proof.
  cbn [child_output].
  match goal with |- match ?go _ with _ => _ end = _ => assert (E : forall l, go l = outs f e vs rs l) end.
  { induction l as [|[c m] l IH]; [reflexivity|]. cbn [outs]. rewrite <- IH. reflexivity. }
  rewrite E. unfold kids. destruct (outs f e vs rs _); [|reflexivity].
  unfold before_of, line_of, after_of. rewrite <- !app_assoc. reflexivity.
Qed.

(** ** Links *)

Lemma order_elem e main s x : slog_ok e main -> x ∈ sl_order e s <-> x ∈ s.
Proof. intros (_ & _ & O & _). rewrite (O s). apply elem_of_elements. Qed.
Lemma order_nodup e main s : slog_ok e main -> NoDup (sl_order e s).
Proof. intros (_ & _ & O & _). rewrite (O s). apply NoDup_elements. Qed.

Lemma elem_of_flat_map {A B} (f : A -> list B) l y : y ∈ flat_map f l <-> exists x, x ∈ l /\ y ∈ f x.
Proof.
  rewrite elem_of_list_In, in_flat_map. split; intros (x & H1 & H2); exists x.
  - now rewrite !elem_of_list_In.
  - now rewrite <- !elem_of_list_In.
Qed.
Lemma elem_of_lfilter {A} (f : A -> bool) l y : y ∈ List.filter f l <-> y ∈ l /\ f y = true.
Proof. rewrite !elem_of_list_In. apply filter_In. Qed.

Lemma link_children_spec e main vs c : slog_ok e main ->
  c ∈ link_children e vs <-> c ∈ vs /\ ~ public (sl_dag e) c.
Proof.
  intros OK. unfold link_children. rewrite elem_of_lfilter, (order_elem e main), negb_true_iff by exact OK.
  destruct OK as (W & _). rewrite <- (is_public_spec (sl_dag e) c W).
  destruct (is_public_commit (sl_dag e) c); split; intros [A B]; split; auto; congruence.
Qed.

Lemma immediate_of_spec d vs c c' p m :
  (c', p, m) ∈ immediate_of d vs c <-> c' = c /\ p ∈ vs /\
    exists q ps, parents_of (dag_graph d) c = q :: ps /\ ((m = false /\ p = q) \/ (m = true /\ p ∈ ps)).
Proof.
  unfold immediate_of. destruct (parents_of (dag_graph d) c) as [|q ps] eqn:E.
  - split; [intros H; now apply elem_of_nil in H|intros (_ & _ & q & ps & H & _); discriminate].
  - rewrite elem_of_app, elem_of_flat_map. split.
    + intros [H|(x & H1 & H2)].
      * destruct (decide (q ∈ vs)); [|now apply elem_of_nil in H].
        apply elem_of_list_singleton in H. injection H as -> -> ->. repeat split; [assumption|].
        exists q, ps. split; [reflexivity|]. now left.
      * destruct (decide (x ∈ vs)); [|now apply elem_of_nil in H2].
        apply elem_of_list_singleton in H2. injection H2 as -> -> ->. repeat split; [assumption|].
        exists q, ps. split; [reflexivity|]. now right.
    + intros (-> & Hv & q' & ps' & H & [[-> ->]|[-> Hp]]); injection H as <- <-.
      * left. rewrite decide_True by assumption. now apply elem_of_list_singleton.
      * right. exists p. split; [exact Hp|]. rewrite decide_True by assumption. now apply elem_of_list_singleton.
Qed.

Lemma immediate_links_spec e main vs c p m : slog_ok e main ->
  (c, p, m) ∈ immediate_links e vs <-> c ∈ vs /\ ~ public (sl_dag e) c /\ p ∈ vs /\
    exists q ps, parents_of (dag_graph (sl_dag e)) c = q :: ps /\ ((m = false /\ p = q) \/ (m = true /\ p ∈ ps)).
Proof.
  intros OK. unfold immediate_links. rewrite elem_of_flat_map. split.
  - intros (x & H1 & H2). apply immediate_of_spec in H2. destruct H2 as (-> & H2 & H3).
    apply (link_children_spec e main) in H1; [|exact OK]. tauto.
  - intros (H1 & H2 & H3 & H4). exists c. split; [now apply (link_children_spec e main)|].
    apply immediate_of_spec. auto.
Qed.

(** [a] is one of the nearest shown commits below [p], in the eyes of the program. *)
Definition near (e : slog_env) (vs : commit_set) (a p : oid) : Prop :=
  let g := dag_graph (sl_dag e) in
  exists m, sl_gca_one e (main_branch_commit (sl_dag e) ∪ {[p]}) = Some m /\
    a ∈ vs /\ ancestor g m a /\ ancestor g a p /\
    forall b, b ∈ vs -> ancestor g m b -> ancestor g b p -> ~ proper_ancestor g a b.

Lemma nearest_of_spec e main vs p a : slog_ok e main -> a ∈ nearest_of e vs p <-> near e vs a p.
Proof.
  intros OK. unfold nearest_of, near. rewrite (order_elem e main) by exact OK. destruct OK as (W & _).
  rewrite heads_ancestors_spec by exact W.
  destruct (sl_gca_one e _) as [m|].
  - assert (R : forall x, x ∈ range (dag_graph (sl_dag e)) {[m]} {[p]} ∩ vs <->
               x ∈ vs /\ ancestor (dag_graph (sl_dag e)) m x /\ ancestor (dag_graph (sl_dag e)) x p).
    { intros x. rewrite elem_of_intersection, range_spec by exact W. split.
      - intros [(a' & d' & ->%elem_of_singleton & ->%elem_of_singleton & H) H']. tauto.
      - intros (H1 & H2 & H3). split; [exists m, p; set_solver|exact H1]. }
    rewrite R. split.
    + intros [(H1 & H2 & H3) H4]. exists m. repeat split; try assumption.
      intros b B1 B2 B3. apply H4. apply R. auto.
    + intros (m' & E & H1 & H2 & H3 & H4). injection E as <-. split; [auto|].
      intros b Hb. apply R in Hb. apply H4; tauto.
  - split; [intros [H _]; set_solver|intros (m & H & _); discriminate].
Qed.

Lemma non_immediate_links_spec e main vs a c : slog_ok e main ->
  (a, c) ∈ non_immediate_links e vs <-> c ∈ vs /\ ~ public (sl_dag e) c /\
    exists p, parent (dag_graph (sl_dag e)) p c /\ p ∉ vs /\ near e vs a p.
Proof.
  intros OK. unfold non_immediate_links, non_immediate_of. rewrite elem_of_flat_map. split.
  - intros (x & H1 & H2). apply elem_of_flat_map in H2. destruct H2 as (p & H2 & H3).
    destruct (decide (p ∈ vs)) as [Hv|Hv]; [now apply elem_of_nil in H3|].
    apply elem_of_list_In, in_map_iff in H3. destruct H3 as (a' & E & H3). injection E as -> ->.
    apply elem_of_list_In, (nearest_of_spec e main) in H3; [|exact OK].
    apply (link_children_spec e main) in H1; [|exact OK].
    split; [tauto|split; [tauto|]]. exists p. split; [|auto]. destruct OK as (W & _). now apply parent_parents_of.
  - intros (H1 & H2 & p & H3 & H4 & H5). exists c. split; [now apply (link_children_spec e main)|].
    apply elem_of_flat_map. exists p. split; [destruct OK as (W & _); now apply parent_parents_of|].
    rewrite decide_False by exact H4. apply elem_of_list_In, in_map_iff. exists a. split; [reflexivity|].
    apply elem_of_list_In. now apply (nearest_of_spec e main).
Qed.

Lemma node_parents_spec e vs o p : p ∈ node_parents e vs o <-> exists m, (o, p, m) ∈ immediate_links e vs.
Proof.
  unfold node_parents. rewrite elem_of_flat_map. split.
  - intros ([[c q] m] & H1 & H2). cbn in H2. destruct (N.eqb_spec c o); [|now apply elem_of_nil in H2].
    apply elem_of_list_singleton in H2. subst. eauto.
  - intros (m & H). exists (o, p, m). split; [exact H|]. cbn. rewrite N.eqb_refl. now apply elem_of_list_singleton.
Qed.
Lemma raw_children_spec e vs o c m : (c, m) ∈ raw_children e vs o <-> (c, o, m) ∈ immediate_links e vs.
Proof.
  unfold raw_children. rewrite elem_of_flat_map. split.
  - intros ([[c' q] m'] & H1 & H2). cbn in H2. destruct (N.eqb_spec q o); [|now apply elem_of_nil in H2].
    apply elem_of_list_singleton in H2. injection H2 as -> ->. now subst.
  - intros H. exists (c, o, m). split; [exact H|]. cbn. rewrite N.eqb_refl. now apply elem_of_list_singleton.
Qed.
Lemma node_descendants_spec e vs o c : c ∈ node_descendants e vs o <-> (o, c) ∈ non_immediate_links e vs.
Proof.
  unfold node_descendants. rewrite elem_of_flat_map. split.
  - intros ([a c'] & H1 & H2). cbn in H2. destruct (N.eqb_spec a o); [|now apply elem_of_nil in H2].
    apply elem_of_list_singleton in H2. now subst.
  - intros H. exists (o, c). split; [exact H|]. cbn. rewrite N.eqb_refl. now apply elem_of_list_singleton.
Qed.
Lemma node_ancestor_spec e vs o :
  match node_ancestor e vs o with
  | Some (a, n) => (a, o) ∈ non_immediate_links e vs /\ n = between (dag_graph (sl_dag e)) a o
  | None => forall a, (a, o) ∉ non_immediate_links e vs
  end.
Proof.
  unfold node_ancestor. rewrite <- fold_left_rev_right.
  assert (M : forall x, x ∈ rev (non_immediate_links e vs) -> x ∈ non_immediate_links e vs).
  { intros x. now rewrite !elem_of_list_In, <- in_rev. }
  assert (M' : forall x, x ∈ non_immediate_links e vs -> x ∈ rev (non_immediate_links e vs)).
  { intros x. now rewrite !elem_of_list_In, <- in_rev. }
  cbn beta. set (l := rev _) in *. clearbody l.
  match goal with |- context [fold_right ?h None l] =>
    set (ff := h)
  end.
  assert (F : match fold_right ff None l with
              | Some (a, n) => (a, o) ∈ l /\ n = between (dag_graph (sl_dag e)) a o
              | None => forall a, (a, o) ∉ l
              end).
  { clear M M'. induction l as [|[a c] l IH]; [intros a H; now apply elem_of_nil in H|].
    change (fold_right ff None ((a, c) :: l)) with (ff (a, c) (fold_right ff None l)).
    assert (E : forall acc, ff (a, c) acc = if N.eqb c o then Some (a, between (dag_graph (sl_dag e)) a o) else acc)
      by reflexivity.
    rewrite E. destruct (N.eqb_spec c o) as [->|N].
    - split; [left|reflexivity].
    - destruct (fold_right ff None l) as [[a' n]|].
      + destruct IH as [IH1 IH2]. split; [now right|exact IH2].
      + intros a' H. apply elem_of_cons in H. destruct H as [H|H]; [congruence|now apply (IH a')]. }
  destruct (fold_right ff None l) as [[a n]|].
  - destruct F as [F1 F2]. auto.
  - intros a H. apply (F a). auto.
Qed.

Lemma insert_child_perm e x l : insert_child e x l ≡ₚ x :: l.
Proof.
  induction l as [|y l IH]; cbn [insert_child]; [reflexivity|].
  destruct (child_cmp e x y); [reflexivity..|]. rewrite IH. constructor.
Qed.
Lemma node_children_perm e vs o : node_children e vs o ≡ₚ raw_children e vs o.
Proof.
  unfold node_children. induction (raw_children e vs o) as [|x l IH]; [reflexivity|].
  cbn [fold_right]. rewrite insert_child_perm, IH. reflexivity.
Qed.

Lemma kids_spec e main vs o c m : slog_ok e main ->
  (c, m) ∈ kids e vs o <-> (c, o, m) ∈ immediate_links e vs \/ (m = false /\ (o, c) ∈ non_immediate_links e vs).
Proof.
  intros OK. unfold kids. rewrite elem_of_app, node_children_perm, raw_children_spec.
  rewrite (elem_of_list_In (List.map _ _)), in_map_iff. split.
  - intros [H|(c' & E & H)]; [now left|right]. injection E as -> <-.
    apply elem_of_list_In, (order_elem e main), elem_of_list_to_set, node_descendants_spec in H; auto.
  - intros [H|[-> H]]; [now left|right]. exists c. split; [reflexivity|].
    apply elem_of_list_In, (order_elem e main), elem_of_list_to_set, node_descendants_spec; auto.
Qed.

(** ** Links go upwards *)

Lemma kid_proper e main vs o c m : slog_ok e main -> (c, m) ∈ kids e vs o ->
  o ∈ vs /\ c ∈ vs /\ ~ public (sl_dag e) c /\ proper_ancestor (dag_graph (sl_dag e)) o c.
Proof.
  intros OK H. pose proof OK as (W & _). apply (kids_spec e main) in H; [|exact OK].
  destruct H as [H|[_ H]].
  - apply (immediate_links_spec e main) in H; [|exact OK]. destruct H as (H1 & H2 & H3 & q & ps & E & H4).
    repeat split; try assumption. apply tc_once. apply parent_parents_of; [exact W|]. rewrite E.
    destruct H4 as [[_ ->]|[_ H4]]; [left|now right].
  - apply (non_immediate_links_spec e main) in H; [|exact OK].
    destruct H as (H1 & H2 & p & H3 & H4 & g & _ & H5 & H6 & H7 & _).
    repeat split; try assumption. apply proper_parent. eauto.
Qed.
Lemma kid_rank e main vs o c m : slog_ok e main -> (c, m) ∈ kids e vs o ->
  (rank (dag_graph (sl_dag e)) o < rank (dag_graph (sl_dag e)) c)%nat.
Proof.
  intros OK H. destruct (kid_proper e main vs o c m OK H) as (_ & _ & _ & P).
  destruct OK as (W & _). now apply proper_ancestor_rank.
Qed.

(** ** The output is complete *)

Lemma outs_some f e vs rs l : (forall c, (c, false) ∈ l -> exists ls, child_output f e vs rs c = Some ls) ->
  exists ls, outs f e vs rs l = Some ls.
Proof.
  induction l as [|[c m] l IH]; intros H; cbn [outs]; [eauto|].
  destruct IH as [ls E]; [intros c' Hc; apply H; now right|]. rewrite E.
  unfold kid_out. cbn [fst snd]. destruct (bool_decide (c ∈ rs)); [eauto|]. destruct m; [eauto|].
  destruct (H c) as [ls' E']; [left|]. rewrite E'. eauto.
Qed.
Lemma child_output_some f e main vs rs : slog_ok e main -> forall o,
  (length (dag_graph (sl_dag e)) < f + rank (dag_graph (sl_dag e)) o)%nat ->
  exists ls, child_output f e vs rs o = Some ls.
Proof.
  intros OK. induction f as [|f IH]; intros o L.
  - pose proof (rank_bound (dag_graph (sl_dag e)) o). lia.
  - rewrite child_output_S. destruct (outs_some f e vs rs (kids e vs o)) as [ls E].
    { intros c Hc. apply IH. pose proof (kid_rank e main vs o c false OK Hc). lia. }
    rewrite E. eauto.
Qed.
Lemma roots_output_some e main vs rs : slog_ok e main -> forall todo, exists ls, roots_output e vs rs todo = Some ls.
Proof.
  intros OK. induction todo as [|r todo [ls IH]]; [eauto|]. cbn [roots_output].
  destruct (child_output_some (S (length (dag_graph (sl_dag e)))) e main vs rs OK r) as [x E]; [lia|].
  rewrite E, IH. eauto.
Qed.
Lemma smartlog_some e main exact commits : slog_ok e main -> exists ls, smartlog e exact commits = Some ls.
Proof. intros OK. apply (roots_output_some e main). exact OK. Qed.

(** ** Only shown commits have lines *)

Lemma commits_in_app l1 l2 : commits_in (l1 ++ l2) = commits_in l1 ++ commits_in l2.
Proof. apply flat_map_app. Qed.
Lemma commits_in_before e vs o : commits_in (before_of e vs o) = [].
Proof.
  unfold before_of. rewrite commits_in_app. destruct (node_ancestor e vs o) as [[a n]|]; cbn [commits_in flat_map app];
    destruct (node_parents e vs o) as [|p ps]; try reflexivity; induction ps as [|q ps IH]; try reflexivity; exact IH.
Qed.
Lemma commits_in_after e vs o : commits_in (after_of e vs o) = [].
Proof. unfold after_of. destruct (Nat.ltb 0 _); reflexivity. Qed.
Lemma commits_in_block e vs o l :
  commits_in (before_of e vs o ++ [line_of e o] ++ after_of e vs o ++ l) = o :: commits_in l.
Proof. rewrite !commits_in_app, commits_in_before, commits_in_after. reflexivity. Qed.

Lemma line_of_right e main o : slog_ok e main -> right_line e o (line_of e o).
Proof.
  intros (W & _). unfold right_line, line_of. eexists _, _, _. split; [reflexivity|]. split; [|split].
  - now apply is_public_spec.
  - apply bool_decide_eq_true.
  - apply bool_decide_eq_true.
Qed.

Definition line_ok (e : slog_env) (vs : commit_set) (l : line) : Prop :=
  match l with Commit o _ _ _ => o ∈ vs /\ right_line e o l | _ => True end.

Lemma block_ok e main vs o : slog_ok e main -> o ∈ vs ->
  Forall (line_ok e vs) (before_of e vs o ++ [line_of e o] ++ after_of e vs o).
Proof.
  intros OK H. apply Forall_app. split; [|apply Forall_app; split].
  - unfold before_of. apply Forall_app. split.
    + destruct (node_ancestor e vs o) as [[a n]|]; repeat constructor.
    + destruct (node_parents e vs o) as [|p ps]; [constructor|]. apply Forall_forall. intros x Hx.
      apply elem_of_list_In, in_map_iff in Hx. destruct Hx as (y & <- & _). exact I.
  - repeat constructor; [exact H|]. now apply (line_of_right e main).
  - unfold after_of. destruct (Nat.ltb 0 _); repeat constructor.
Qed.

Lemma outs_lines f e vs rs l ls : outs f e vs rs l = Some ls ->
  (forall c x, (c, false) ∈ l -> child_output f e vs rs c = Some x -> Forall (line_ok e vs) x) ->
  Forall (line_ok e vs) ls.
Proof.
  revert ls. induction l as [|[c m] l IH]; cbn [outs]; intros ls E H.
  - injection E as <-. constructor.
  - destruct (kid_out f e vs rs (c, m)) as [x|] eqn:K; [|discriminate].
    destruct (outs f e vs rs l) as [y|]; [|discriminate]. injection E as <-.
    apply Forall_app. split.
    + unfold kid_out in K. cbn [fst snd] in K. destruct (bool_decide (c ∈ rs)); [injection K as <-; constructor|].
      destruct m; [injection K as <-; repeat constructor|]. apply (H c x); [left|exact K].
    + apply IH; [reflexivity|]. intros c' x' Hc. apply H. now right.
Qed.
Lemma child_output_lines f e main vs rs : slog_ok e main -> forall o ls, o ∈ vs ->
  child_output f e vs rs o = Some ls -> Forall (line_ok e vs) ls.
Proof.
  intros OK. induction f as [|f IH]; intros o ls Ho; [discriminate|].
  rewrite child_output_S. destruct (outs f e vs rs (kids e vs o)) as [ab|] eqn:E; [|discriminate].
  intros Eo. apply (inj Some) in Eo. subst ls. rewrite (app_assoc [line_of e o]), app_assoc. apply Forall_app. split; [now apply (block_ok e main)|].
  apply (outs_lines f e vs rs _ _ E). intros c x Hc. apply IH.
  now apply (kid_proper e main vs o c false OK) in Hc.
Qed.
Lemma roots_of_shown e main vs r : slog_ok e main -> r ∈ roots_of e vs -> r ∈ vs.
Proof.
  intros OK H. unfold roots_of in H. rewrite sort_by_perm in H. apply elem_of_lfilter in H.
  apply (order_elem e main vs r OK). tauto.
Qed.
Lemma smartlog_lines e main exact commits ls : slog_ok e main -> smartlog e exact commits = Some ls ->
  Forall (line_ok e (shown (sl_dag e) (selected (sl_dag e) exact commits))) ls.
Proof.
  intros OK. unfold smartlog. set (vs := shown _ _).
  assert (H : forall r, r ∈ roots_of e vs -> r ∈ vs) by (intros r; apply (roots_of_shown e main); exact OK).
  revert ls H. generalize (roots_of e vs) at 1 3. induction l as [|r l IH]; cbn [roots_output]; intros ls H E.
  - injection E as <-. constructor.
  - destruct (child_output _ _ _ _ r) as [x|] eqn:K; [|discriminate].
    destruct (roots_output _ _ _ l) as [y|]; [|discriminate]. injection E as <-. apply Forall_app. split.
    + eapply (child_output_lines _ e main); [exact OK| |exact K]. apply H. left.
    + apply IH; [|reflexivity]. intros r' Hr. apply H. now right.
Qed.

(** ** When the links form a forest *)

Definition kid (e : slog_env) (vs : commit_set) (a c : oid) : Prop := (c, false) ∈ kids e vs a.
Definition below (e : slog_env) (vs : commit_set) : oid -> oid -> Prop := rtc (kid e vs).

Record forest (e : slog_env) (vs : commit_set) (rs : list oid) : Prop := {
  f_merge : forall a c m, (c, m) ∈ kids e vs a -> m = false;
  f_unique : forall a a' c, kid e vs a c -> kid e vs a' c -> a = a';
  f_nodup : forall a, NoDup (kids e vs a);
  f_roots : forall a c, kid e vs a c -> c ∉ rs;
  f_rank : forall a c, kid e vs a c -> (rank (dag_graph (sl_dag e)) a < rank (dag_graph (sl_dag e)) c)%nat }.

Lemma below_rank e vs rs a c : forest e vs rs -> below e vs a c ->
  (rank (dag_graph (sl_dag e)) a <= rank (dag_graph (sl_dag e)) c)%nat.
Proof. intros F H. induction H as [|a b c K _ IH]; [lia|]. apply (f_rank e vs rs F) in K. lia. Qed.
Lemma below_last e vs a c : below e vs a c -> a = c \/ exists y, below e vs a y /\ kid e vs y c.
Proof.
  intros H. induction H as [|a b c K _ [->|(y & H1 & H2)]]; [now left|right..].
  - exists a. split; [apply rtc_refl|exact K].
  - exists y. split; [eapply rtc_l; eassumption|exact H2].
Qed.
Lemma below_chain e vs rs x : forest e vs rs -> forall a b, below e vs a x -> below e vs b x ->
  below e vs a b \/ below e vs b a.
Proof.
  intros F a b Ha. revert b. apply rtc_ind_r with (P := fun x => forall b, below e vs b x -> below e vs a b \/ below e vs b a)
    (1 := fun b H => or_intror H) (3 := Ha).
  intros y z Hy K IH b Hb. destruct (below_last e vs b z Hb) as [->|(y' & H1 & H2)].
  - left. eapply rtc_r; eassumption.
  - rewrite <- (f_unique e vs rs F _ _ _ K H2) in H1. now apply IH.
Qed.
Lemma siblings e vs rs o c1 c2 x : forest e vs rs -> kid e vs o c1 -> kid e vs o c2 ->
  below e vs c1 x -> below e vs c2 x -> c1 = c2.
Proof.
  intros F K1 K2 H1 H2.
  assert (S : forall c c', kid e vs o c -> kid e vs o c' -> below e vs c c' -> c = c').
  { intros c c' K K' H. destruct (below_last e vs c c' H) as [E|(y & B1 & B2)]; [exact E|].
    rewrite (f_unique e vs rs F _ _ _ B2 K') in B1. apply (below_rank e vs rs _ _ F) in B1.
    apply (f_rank e vs rs F) in K. lia. }
  destruct (below_chain e vs rs x F c1 c2 H1 H2) as [H|H]; [now apply S|symmetry; now apply S].
Qed.

(** The lines of [x] and of everything above it, somewhere in [ls]. *)
Definition has_block (e : slog_env) (vs : commit_set) (ls : list line) (x : oid) : Prop :=
  exists l1 l2 l3, ls = l1 ++ (before_of e vs x ++ [line_of e x] ++ after_of e vs x ++ l2) ++ l3 /\
    forall y, y ∈ commits_in l2 <-> y <> x /\ below e vs x y.
Lemma has_block_app e vs l l' ls x : has_block e vs ls x -> has_block e vs (l ++ ls ++ l') x.
Proof.
  intros (l1 & l2 & l3 & -> & H). exists (l ++ l1), l2, (l3 ++ l'). split; [|exact H]. now rewrite <- !app_assoc.
Qed.

Definition tree_ok (e : slog_env) (vs : commit_set) (o : oid) (ls : list line) : Prop :=
  NoDup (commits_in ls) /\ (forall x, x ∈ commits_in ls <-> below e vs o x) /\
  (forall x, below e vs o x -> has_block e vs ls x).

Lemma outs_forest f e vs rs o ls : forest e vs rs ->
  (forall c x, kid e vs o c -> child_output f e vs rs c = Some x -> tree_ok e vs c x) ->
  forall l, NoDup l -> (forall k, k ∈ l -> k ∈ kids e vs o) -> outs f e vs rs l = Some ls ->
  NoDup (commits_in ls) /\ (forall x, x ∈ commits_in ls <-> exists c, (c, false) ∈ l /\ below e vs c x) /\
  (forall c x, (c, false) ∈ l -> below e vs c x -> has_block e vs ls x).
Proof.
  intros F IHf l. revert ls. induction l as [|[c m] l IH]; cbn [outs]; intros ls D K E.
  - injection E as <-. split; [constructor|]. split.
    + intros x. split; [intros H; now apply elem_of_nil in H|intros (c & H & _); now apply elem_of_nil in H].
    + intros c x H. now apply elem_of_nil in H.
  - assert (m = false) as -> by (apply (f_merge e vs rs F o c), K; left).
    assert (Kc : kid e vs o c) by (apply K; left).
    destruct (kid_out f e vs rs (c, false)) as [x|] eqn:Ek; [|discriminate].
    destruct (outs f e vs rs l) as [y|]; [|discriminate]. injection E as <-.
    unfold kid_out in Ek. cbn [fst snd] in Ek.
    rewrite bool_decide_eq_false_2 in Ek by (now apply (f_roots e vs rs F o)).
    destruct (IHf c x Kc Ek) as (T1 & T2 & T3).
    apply NoDup_cons in D. destruct D as [Dc D].
    destruct (IH y D) as (I1 & I2 & I3); [intros k Hk; apply K; now right|reflexivity|].
    assert (X : forall z, z ∈ commits_in x -> z ∉ commits_in y).
    { intros z Hz Hy. apply T2 in Hz. apply I2 in Hy. destruct Hy as (c' & Hc & Hb).
      assert (Kc' : kid e vs o c') by (apply K; now right).
      rewrite (siblings e vs rs o c c' z F Kc Kc' Hz Hb) in Dc. contradiction. }
    rewrite commits_in_app. split; [|split].
    + apply NoDup_app. auto.
    + intros z. rewrite elem_of_app, T2, I2. split.
      * intros [H|(c' & H1 & H2)]; [exists c; split; [left|exact H]|exists c'; split; [now right|exact H2]].
      * intros (c' & H1 & H2). apply elem_of_cons in H1. destruct H1 as [H1|H1]; [injection H1 as ->; now left|right; eauto].
    + intros c' z H1 H2. apply elem_of_cons in H1. destruct H1 as [H1|H1].
      * injection H1 as ->. apply (has_block_app e vs [] y). now apply T3.
      * rewrite <- (app_nil_r y). apply (has_block_app e vs x []). now apply (I3 c').
Qed.

Lemma child_output_forest f e vs rs : forest e vs rs -> forall o ls,
  child_output f e vs rs o = Some ls -> tree_ok e vs o ls.
Proof.
  intros F. induction f as [|f IH]; intros o ls; [discriminate|].
  rewrite child_output_S. destruct (outs f e vs rs (kids e vs o)) as [ab|] eqn:E; [|discriminate].
  intros Eo. apply (inj Some) in Eo. subst ls.
  destruct (outs_forest f e vs rs o ab F (fun c x _ => IH c x) (kids e vs o) (f_nodup e vs rs F o) (fun k H => H) E)
    as (H1 & H2 & H3).
  assert (No : forall x, x ∈ commits_in ab <-> x <> o /\ below e vs o x).
  { intros x. rewrite H2. split.
    - intros (c & Hc & Hb). split; [|eapply rtc_l; eassumption]. intros ->.
      apply (below_rank e vs rs _ _ F) in Hb. apply (f_rank e vs rs F) in Hc. lia.
    - intros [N Hb]. inversion Hb as [|? c ? Hc Hb']; subst; [now contradiction N|]. eauto. }
  split; [|split].
  - rewrite commits_in_block. apply NoDup_cons. split; [|exact H1]. intros H. now apply No in H.
  - intros x. rewrite commits_in_block, elem_of_cons, No. split.
    + intros [->|[_ H]]; [apply rtc_refl|exact H].
    + intros H. destruct (decide (x = o)); auto.
  - intros x Hx. inversion Hx as [|? c ? Hc Hb]; subst.
    + exists [], ab, []. split; [now rewrite app_nil_r|exact No].
    + rewrite <- (app_nil_r (before_of e vs o ++ _)).
      rewrite !(app_assoc _ _ ab), <- app_assoc. apply has_block_app. now apply (H3 c).
Qed.

Lemma roots_output_forest e vs rs : forest e vs rs -> forall todo ls, NoDup todo ->
  (forall r, r ∈ todo -> r ∈ rs) -> roots_output e vs rs todo = Some ls ->
  NoDup (commits_in ls) /\ (forall x, x ∈ commits_in ls <-> exists r, r ∈ todo /\ below e vs r x) /\
  (forall r x, r ∈ todo -> below e vs r x -> has_block e vs ls x).
Proof.
  intros F. induction todo as [|r todo IH]; cbn [roots_output]; intros ls D R E.
  - injection E as <-. split; [constructor|]. split.
    + intros x. split; [intros H; now apply elem_of_nil in H|intros (c & H & _); now apply elem_of_nil in H].
    + intros c x H. now apply elem_of_nil in H.
  - destruct (child_output _ _ _ _ r) as [x|] eqn:K; [|discriminate].
    destruct (roots_output _ _ _ todo) as [y|]; [|discriminate]. injection E as <-.
    destruct (child_output_forest _ e vs rs F r x K) as (T1 & T2 & T3).
    apply NoDup_cons in D. destruct D as [Dr D].
    destruct (IH y D) as (I1 & I2 & I3); [intros k Hk; apply R; now right|reflexivity|].
    assert (Rb : forall a b, b ∈ rs -> below e vs a b -> a = b).
    { intros a b Hb H. destruct (below_last e vs a b H) as [Ea|(z & _ & Kz)]; [exact Ea|].
      now apply (f_roots e vs rs F) in Kz. }
    assert (X : forall z, z ∈ commits_in x -> z ∉ commits_in y).
    { intros z Hz Hy. apply T2 in Hz. apply I2 in Hy. destruct Hy as (r' & Hr & Hb).
      assert (r = r') as ->; [|contradiction].
      destruct (below_chain e vs rs z F r r' Hz Hb) as [H|H].
      - apply Rb; [apply R; now right|exact H].
      - symmetry. apply Rb; [apply R; left|exact H]. }
    rewrite commits_in_app. split; [|split].
    + apply NoDup_app. auto.
    + intros z. rewrite elem_of_app, T2, I2. split.
      * intros [H|(c' & H1 & H2)]; [exists r; split; [left|exact H]|exists c'; split; [now right|exact H2]].
      * intros (c' & H1 & H2). apply elem_of_cons in H1. destruct H1 as [->|H1]; [now left|right; eauto].
    + intros c' z H1 H2. apply elem_of_cons in H1. destruct H1 as [->|H1].
      * apply (has_block_app e vs [] y). now apply T3.
      * rewrite <- (app_nil_r y). apply (has_block_app e vs x []). now apply (I3 c').
Qed.

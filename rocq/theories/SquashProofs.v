From Verif Require Import Base TextModel EventLogModel EventLogSpec EventLogProofs EvolveSpec
  DagModel DagSpec DagProofs DagCompProofs StrModel StrProofs HookModel PlanModel PlanSpec PlanProofs PlanBuildProofs PlanProps
  ExecModel ExecSpec ExecProofs ExecBuildProofs ExecAfterProofs ExecProps HideModel HideSpec HideProofs RestackModel RestackSpec RestackProofs
  SyncModel SyncSpec SyncProofs MoveModel MoveSpec MoveProofs MoveReqProofs MoveExactProofs PlanRunProofs SquashSpec.
Local Open Scope string_scope.
Local Open Scope list_scope.

Lemma last_such {A} (P : A -> Prop) (l : list A) x : (forall y, P y \/ ~ P y) -> x ∈ l -> P x ->
  exists b y a, l = b ++ y :: a /\ P y /\ Forall (fun z => ~ P z) a.
Proof.
  intros D. induction l as [|z l IH] using rev_ind; intros H Px; [now apply elem_of_nil in H|].
  destruct (D z) as [Pz|Nz]; [exists l, z, []; auto|]. apply elem_of_app in H. destruct H as [H|H]; [|apply elem_of_list_singleton in H; congruence].
  destruct (IH H Px) as (b & y & a & -> & Py & N). exists b, y, (a ++ [z]). split; [now rewrite <- app_assoc|]. split; [exact Py|].
  apply Forall_app. split; [exact N|]. constructor; [exact Nz|constructor].
Qed.
Lemma first_such {A} (P : A -> Prop) (l : list A) b x a b' x' a' : l = b ++ x :: a -> l = b' ++ x' :: a' -> P x -> P x' ->
  (forall y, y ∈ b -> ~ P y) -> (forall y, y ∈ b' -> ~ P y) -> b = b' /\ x = x'.
Proof.
  intros -> E Px Px' N N'. revert b' E N'. induction b as [|y b IH]; intros b' E N'.
  - destruct b' as [|y' b']; [injection E; auto|]. cbn in E. injection E as -> E. destruct (N' y'); [left|exact Px].
  - destruct b' as [|y' b']; cbn in E; injection E as -> E; [destruct (N x'); [left|exact Px']|].
    destruct (IH) with (b' := b') as [-> ->]; auto; intros z Hz; [apply N|apply N']; now right.
Qed.

(** ** Requests to squash *)
Section squash.
Context (d : dag) (cs : list constraint) (t : oid) (X : commit_set).
Let g := dag_graph d.
Hypothesis W : wf_graph g.
Definition out (x : oid) : Prop := x ∉ X.
(** Those that are not squashed, and are on top of one that is. *)
Definition sq_told (c p : oid) : Prop := c ∉ X /\ visible d c /\ (exists f, f ∈ X /\ parent g f c) /\ nearest g out p c.
Hypothesis S1 : forall x, x ∈ cs <-> (exists f, x = FixUpCommit t f /\ f ∈ X) \/ exists c p, x = MoveSubtree [p] c /\ sq_told c p.
Hypothesis One : forall f, f ∈ X -> exists p, only_parent g f p.
Hypothesis OneT : exists p, only_parent g t p.
Hypothesis Vt : visible d t.
Hypothesis Below : forall f, f ∈ X -> ~ ancestor g f t.
Hypothesis NM : forall c x, c ∈ X \/ c = t -> ancestor g c x -> visible d x -> ~ merge_commit g x.

Lemma sq_visible_below x y : ancestor g x y -> visible d y -> visible d x.
Proof. intros A (v & K & B). exists v. split; [exact K|eapply rtc_transitive; eauto]. Qed.
Lemma sq_t_out : t ∉ X. Proof. intros H. apply (Below t H). constructor. Qed.
Lemma near_one c p p' : (forall q q', parent g q c -> parent g q' c -> q = q') -> nearest g out p c -> nearest g out p' c -> p = p'.
Proof.
  intros O N. revert O p'. induction N as [p c P Op|p q c P Nq N IH]; intros O p' N'.
  - inversion N' as [? ? P' Op'|? q' ? P' Nq' N'']; subst; [now apply O|]. rewrite (O q' p P' P) in Nq'. destruct (Nq' Op).
  - inversion N' as [? ? P' Op'|? q' ? P' Nq' N'']; subst; [rewrite (O p' q P' P) in Op'; destruct (Nq Op')|].
    rewrite (O q' q P' P) in N''. apply IH; [|exact N'']. intros u v Hu Hv. unfold out in Nq. destruct (decide (q ∈ X)) as [Hq|Hq]; [|destruct (Nq Hq)].
    destruct (One q Hq) as [w Hw]. apply Hw in Hu, Hv. congruence.
Qed.
Lemma near_some f : f ∈ X -> exists p, nearest g out p f.
Proof.
  remember (rank g f) as n eqn:E. assert (L : (rank g f <= n)%nat) by lia. clear E. revert f L.
  induction n as [n IH] using lt_wf_ind. intros f L Hf. destruct (One f Hf) as [q Hq].
  assert (P : parent g q f) by now apply Hq. destruct (decide (q ∈ X)) as [Hx|Hx].
  - pose proof (parent_rank g q f W P). destruct (IH (rank g q)) with (f := q) as [p K]; [lia|lia|exact Hx|].
    exists p. eapply nearest_below; [exact P| |exact K]. intros H'. exact (H' Hx).
  - exists q. now apply nearest_here.
Qed.
Lemma sq_told_some c f : c ∉ X -> visible d c -> f ∈ X -> parent g f c -> exists p, sq_told c p.
Proof.
  intros Nc V Hf P. destruct (near_some f Hf) as [p Hp]. exists p. split; [exact Nc|]. split; [exact V|]. split; [eauto|].
  eapply nearest_below; [exact P| |exact Hp]. intros H'. exact (H' Hf).
Qed.
Lemma sq_single c x q q' : c ∈ X \/ c = t -> ancestor g c x -> visible d x -> parent g q x -> parent g q' x -> q = q'.
Proof. intros Hc A V. apply only_one_parent; [exact W|]. eapply NM; eauto. Qed.
Lemma sq_told_one c p p' : sq_told c p -> sq_told c p' -> p = p'.
Proof.
  intros (_ & V & (f & Hf & P) & N) (_ & _ & _ & N'). eapply near_one; [|exact N|exact N'].
  intros q q'. apply (sq_single f c); [now left|now apply rtc_once|exact V].
Qed.
Lemma about_dec c x : about c x \/ ~ about c x.
Proof. destruct x as [|ps c'|t' f]; cbn [about]; [auto|destruct (decide (c' = c)); auto|destruct (decide (f = c)); auto]. Qed.
Lemma sq_placed c p : placed cs c p <-> sq_told c p.
Proof.
  split.
  - intros (b & ps & a & E & Hp & _). assert (H : MoveSubtree ps c ∈ cs) by (rewrite E; apply elem_of_app; right; left).
    apply S1 in H. destruct H as [(f & H & _)|(c' & p' & [= -> ->] & H)]; [discriminate|]. apply elem_of_list_singleton in Hp as ->. exact H.
  - intros H. assert (K : MoveSubtree [p] c ∈ cs) by (apply S1; right; eauto).
    destruct (last_such (about c) cs _ (about_dec c) K eq_refl) as (b & y & a & E & Py & Na).
    assert (Hy : y ∈ cs) by (rewrite E; apply elem_of_app; right; left). apply S1 in Hy. destruct Hy as [(f & -> & Hf)|(c' & p' & -> & H')]; cbn [about] in Py; subst.
    + destruct (proj1 H Hf).
    + rewrite (sq_told_one c p p' H H') in *. exists b, [p'], a. split; [reflexivity|]. split; [left|exact Na].
Qed.
Lemma sq_takes x a b : x ∈ cs -> takes_out x a b <-> x = FixUpCommit t a /\ a = b /\ a ∈ X.
Proof.
  intros H. apply S1 in H. split.
  - intros [->|(t' & -> & <-)]; destruct H as [(f & E & Hf)|(c' & p' & E & _)]; try discriminate E. injection E as -> ->. auto.
  - intros (-> & <- & _). right. eauto.
Qed.
Lemma sq_fixed f : fixed_up cs f <-> f ∈ X.
Proof.
  split; [intros (t' & H); apply S1 in H; destruct H as [(f' & [= -> ->] & H)|(c' & p' & E & _)]; [exact H|discriminate]|].
  intros H. exists t. apply S1. left. eauto.
Qed.
Lemma sq_into t' f : FixUpCommit t' f ∈ cs <-> t' = t /\ f ∈ X.
Proof.
  rewrite S1. split; [intros [(f' & [= -> ->] & H)|(c' & p' & E & _)]; [auto|discriminate]|]. intros [-> H]. left. eauto.
Qed.
Lemma sq_target x : fixup_target cs x <-> x = t /\ exists f, f ∈ X.
Proof. unfold fixup_target. setoid_rewrite sq_into. firstorder. Qed.
Lemma settles_below_it gone c p : settles d gone c p -> proper_ancestor g p c.
Proof.
  induction 1 as [c p O _|c q p O _ _ IH]; [apply tc_once; now apply O|]. eapply tc_r; [exact IH|now apply O].
Qed.
Lemma sq_closes c p : closes_gap d cs c p -> c ∈ X /\ (exists f, f ∈ X /\ parent g f c) /\ proper_ancestor g p c.
Proof.
  intros (NP & V & b & x & a & u & v & E & T & P & _ & St). assert (Hx : x ∈ cs) by (rewrite E; apply elem_of_app; right; left).
  apply sq_takes in T; [|exact Hx]. destruct T as (-> & <- & Hu). split; [|split; [eauto|]].
  - destruct (decide (c ∈ X)) as [H|H]; [exact H|]. destruct (sq_told_some c u H V Hu P) as [q Hq]. destruct (NP q). now apply sq_placed.
  - eapply tc_r; [eapply settles_below_it; exact St|exact P].
Qed.
Lemma sq_requested c : requested d cs c -> visible d c /\ exists f, f ∈ X /\ parent g f c.
Proof.
  intros [p [H|H]].
  - apply sq_placed in H. destruct H as (_ & V & F & _). auto.
  - split; [apply H|]. now apply sq_closes in H.
Qed.
Lemma sq_requested_out c : c ∉ X -> requested d cs c <-> exists p, sq_told c p.
Proof.
  intros N. split; intros [p H]; exists p; [|left; now apply sq_placed]. destruct H as [H|H]; [now apply sq_placed|].
  apply sq_closes in H. destruct (N (proj1 H)).
Qed.
(** Everything stays above where it was. *)
Lemma sq_lower p c : new_parent d cs p c -> proper_ancestor g p c.
Proof.
  intros [H|[H|H]].
  - apply sq_placed in H. destruct H as (_ & _ & _ & N). now apply nearest_is in N.
  - now apply sq_closes in H.
  - apply tc_once, H.
Qed.
Lemma sq_possible : ~ impossible d cs.
Proof.
  intros [c T]. apply (wf_acyclic g c W). assert (K : forall x y, tc (new_parent d cs) x y -> proper_ancestor g x y); [|now apply K].
  intros x y H. induction H as [x y H|x y z H _ IH]; [now apply sq_lower|]. exact (tc_transitive x y z (sq_lower x y H) IH).
Qed.
Lemma sq_moves_vis c : moves d cs c -> visible d c.
Proof.
  intros [p [H|[H|H]]]; [apply sq_placed in H; apply H|apply H|apply H].
Qed.
Lemma sq_above a : requested d cs a \/ fixup_target cs a -> exists x, (x ∈ X \/ x = t) /\ ancestor g x a.
Proof.
  intros [H|H]; [apply sq_requested in H; destruct H as (_ & f & Hf & P); exists f; split; [auto|now apply rtc_once]|].
  apply sq_target in H. destruct H as [-> _]. exists t. split; [auto|constructor].
Qed.
Lemma sq_rebuilt_above c : rebuilt d cs c -> visible d c /\ exists x, (x ∈ X \/ x = t) /\ ancestor g x c.
Proof.
  intros [M|H].
  - split; [now apply sq_moves_vis|]. destruct M as [p [H|[H|H]]]; [apply sq_above; left; exists p; auto|apply sq_above; left; exists p; auto|].
    destruct H as (_ & _ & _ & a & Ha & A). destruct (sq_above a Ha) as (x & Hx & B). exists x. split; [exact Hx|].
    eapply rtc_transitive; [exact B|now apply tc_rtc].
  - pose proof H as H0. apply sq_target in H. destruct H as [-> _]. split; [exact Vt|]. apply sq_above. now right.
Qed.
Lemma sq_no_merge c : rebuilt d cs c -> ~ merge_commit g c.
Proof. intros H. apply sq_rebuilt_above in H. destruct H as (V & x & Hx & A). eapply NM; eauto. Qed.
Lemma sq_stays a : requested d cs a \/ fixup_target cs a -> ~ proper_ancestor g a t.
Proof.
  intros [H|H] A; [apply sq_requested in H; destruct H as (_ & f & Hf & P); apply (Below f Hf); eapply rtc_l; [exact P|now apply tc_rtc]|].
  apply sq_target in H. destruct H as [-> _]. exact (wf_acyclic g t W A).
Qed.
Lemma sq_t_fixed : ~ moves d cs t.
Proof.
  intros [p [H|[H|H]]].
  - apply sq_placed in H. destruct H as (_ & _ & (f & Hf & P) & _). apply (Below f Hf). now apply rtc_once.
  - apply sq_closes in H. destruct (sq_t_out (proj1 H)).
  - destruct H as (_ & _ & _ & a & Ha & A). exact (sq_stays a Ha A).
Qed.
Lemma sq_new_out p c : c ∉ X -> new_parent d cs p c -> visible d c /\ nearest g out p c.
Proof.
  intros N [H|[H|H]].
  - apply sq_placed in H. destruct H as (_ & V & _ & K). auto.
  - apply sq_closes in H. destruct (N (proj1 H)).
  - destruct H as (Nr & V & P & _). split; [exact V|]. apply nearest_here; [exact P|]. intros Hp. apply Nr, sq_requested_out; [exact N|].
    eapply sq_told_some; eauto.
Qed.
Lemma leave_X x c : x ∈ X -> ancestor g x c -> c ∉ X -> exists f y, f ∈ X /\ parent g f y /\ y ∉ X /\ ancestor g y c.
Proof.
  intros Hx A. induction A as [x|x y c P A IH]; intros N; [destruct (N Hx)|].
  destruct (decide (y ∈ X)) as [Hy|Hy]; [now apply IH|]. exists x, y. auto.
Qed.
Lemma sq_rebuilt c : (exists f, f ∈ X) -> c ∉ X -> rebuilt d cs c <-> visible d c /\ exists x, (x ∈ X \/ x = t) /\ ancestor g x c.
Proof.
  intros NE N. split; [apply sq_rebuilt_above|]. intros (V & x & Hx & A).
  assert (T : (exists f, f ∈ X /\ parent g f c) \/ ~ (exists f, f ∈ X /\ parent g f c)).
  { destruct (existsb (fun f => bool_decide (f ∈ X)) (parents_of g c)) eqn:E.
    - left. apply existsb_exists in E. destruct E as (f & Hf & E). apply bool_decide_eq_true in E. exists f. split; [exact E|].
      apply parent_parents_of; [exact W|now apply elem_of_list_In].
    - right. intros (f & Hf & P). apply (parent_parents_of g f c W), elem_of_list_In in P. rewrite <- not_true_iff_false in E. apply E.
      apply existsb_exists. exists f. split; [exact P|now apply bool_decide_eq_true]. }
  destruct T as [(f & Hf & P)|T].
  { left. destruct (sq_told_some c f N V Hf P) as [p H]. exists p. left. now apply sq_placed. }
  assert (Nr : ~ requested d cs c). { intros H. apply sq_requested in H. apply T, H. }
  assert (Fo : forall a, requested d cs a \/ fixup_target cs a -> proper_ancestor g a c -> rebuilt d cs c).
  { intros a Ha B. destruct (proper_last g a c B) as (q & _ & Q). left. exists q. right. right. split; [exact Nr|]. split; [exact V|]. split; [exact Q|]. eauto. }
  destruct Hx as [Hx| ->].
  - destruct (leave_X x c Hx A N) as (f & y & Hf & P & Ny & B). assert (Vy : visible d y) by (eapply sq_visible_below; eauto).
    destruct (sq_told_some y f Ny Vy Hf P) as [q Hq]. apply (Fo y); [left; apply sq_requested_out; eauto|].
    apply rtc_tc in B. destruct B as [<-|B]; [|exact B]. destruct T. eauto.
  - apply rtc_tc in A. destruct A as [<-|A]; [right; now apply sq_target|]. apply (Fo t); [right; now apply sq_target|exact A].
Qed.
Lemma sq_moves_allowed c : moves d cs c -> exists x, (x ∈ X \/ parent g t x) /\ ancestor g x c.
Proof.
  intros M. assert (Rb : rebuilt d cs c) by now left. apply sq_rebuilt_above in Rb. destruct Rb as (_ & x & [Hx| ->] & A); [eauto|].
  apply rtc_inv in A. destruct A as [<-|(y & P & A)]; [destruct (sq_t_fixed M)|]. eauto.
Qed.
Lemma closes_gap_det c p p' : c ∈ X -> closes_gap d cs c p -> closes_gap d cs c p' -> p = p'.
Proof.
  intros Hc (_ & _ & b & x & a & u & v & E & T & P & F & St) (_ & _ & b' & x' & a' & u' & v' & E' & T' & P' & F' & St').
  assert (Hx : x ∈ cs) by (rewrite E; apply elem_of_app; right; left). assert (Hx' : x' ∈ cs) by (rewrite E'; apply elem_of_app; right; left).
  destruct (first_such (fun y => exists a b, takes_out y a b /\ parent g b c) cs b x a b' x' a' E E') as [-> ->].
  - eauto.
  - eauto.
  - intros y Hy (u0 & v0 & T0 & P0). exact (F y u0 v0 Hy T0 P0).
  - intros y Hy (u0 & v0 & T0 & P0). exact (F' y u0 v0 Hy T0 P0).
  - apply sq_takes in T, T'; auto. destruct T as ([= ->] & <- & _), T' as ([= ->] & <- & _). eapply settles_det; eauto.
Qed.
Lemma sq_parent_vertex c : rebuilt d cs c -> c ∈ vertices g.
Proof.
  intros [[p H]|H].
  - apply sq_lower in H. apply (proper_last g) in H. destruct H as (q & _ & Q). apply (parent_vertices _ _ _ W) in Q. apply Q.
  - apply sq_target in H. destruct H as [-> _]. destruct OneT as [p Hp]. assert (P : parent g p t) by now apply Hp. apply (parent_vertices _ _ _ W) in P. apply P.
Qed.
Lemma sq_plannable e : pe_replace e = ∅ -> plannable d e cs.
Proof.
  intros R. constructor.
  - exact sq_parent_vertex.
  - intros c x H. rewrite R, lookup_empty in H. discriminate.
  - intros p p' c M [H|[H|H]] [H'|[H'|H']].
    + apply sq_placed in H, H'. eapply sq_told_one; eauto.
    + destruct (proj1 H' _ H).
    + destruct (proj1 H'). exists p. auto.
    + destruct (proj1 H _ H').
    + pose proof (proj1 (sq_closes _ _ H)). eapply closes_gap_det; eauto.
    + destruct (proj1 H'). exists p. auto.
    + destruct (proj1 H). exists p'. auto.
    + destruct (proj1 H). exists p'. auto.
    + eapply only_one_parent; [exact W|exact M|apply H|apply H'].
  - intros c M Rb. destruct (sq_no_merge c Rb M).
  - intros x H. apply sq_target in H. destruct H as [-> _]. destruct OneT as [p Hp]. exists p. now apply Hp.
  - intros x H _ (a & Ha & A). apply sq_target in H. destruct H as [-> _]. exact (sq_stays a Ha A).
Qed.
Lemma sq_rebuilt_on p c : c ∉ X -> rebuilt_on d cs p c -> nearest g out p c.
Proof.
  intros N [H|[(H & _ & P)|(M & Rb & _)]].
  - now apply sq_new_out in H.
  - apply sq_target in H. destruct H as [-> _]. apply nearest_here; [exact P|]. intros Hp. apply (Below p Hp). now apply rtc_once.
  - destruct (sq_no_merge c Rb M).
Qed.
Lemma sq_clear : clear_of_fixups d cs.
Proof.
  intros p c H N Hp. apply sq_fixed in Hp. assert (Nc : c ∉ X) by (intros Hc; apply N; now apply sq_fixed).
  apply sq_rebuilt_on in H; [|exact Nc]. apply nearest_is in H. exact (proj1 H Hp).
Qed.
Lemma sq_gaps : gaps_close d cs.
Proof.
  intros b x a u v E T. assert (Hx : x ∈ cs) by (rewrite E; apply elem_of_app; right; left). apply sq_takes in T; [|exact Hx]. destruct T as (-> & <- & Hu).
  clear Hx. revert Hu. remember (rank g u) as n eqn:En. assert (L : (rank g u <= n)%nat) by lia. clear En E. revert u L.
  induction n as [n IH] using lt_wf_ind. intros u L Hu. destruct (One u Hu) as [q Hq].
  assert (G : gone d cs b q \/ ~ gone d cs b q).
  { destruct (decide (q ∈ X)) as [Xq|Xq].
    - destruct (One q Xq) as [w Hw].
      assert (D : (exists t', FixUpCommit t' w ∈ b) \/ ~ exists t', FixUpCommit t' w ∈ b).
      { destruct (existsb (fun x => match x with FixUpCommit _ f => N.eqb f w | _ => false end) b) eqn:Eb.
        - left. apply existsb_exists in Eb. destruct Eb as (x & Hx & Eb). destruct x as [| |t' f]; try discriminate Eb. apply N.eqb_eq in Eb. subst f.
          exists t'. now apply elem_of_list_In.
        - right. intros [t' Ht]. rewrite <- not_true_iff_false in Eb. apply Eb, existsb_exists. eexists. split; [apply elem_of_list_In; exact Ht|apply N.eqb_refl]. }
      assert (Dm : (exists u' v', MoveChildren u' v' ∈ b /\ v' = w) \/ ~ exists u' v', MoveChildren u' v' ∈ b /\ v' = w).
      { destruct (existsb (fun x => match x with MoveChildren _ f => N.eqb f w | _ => false end) b) eqn:Eb.
        - left. apply existsb_exists in Eb. destruct Eb as (x & Hx & Eb). destruct x as [u' v'| |]; try discriminate Eb. apply N.eqb_eq in Eb. subst v'.
          exists u', w. split; [now apply elem_of_list_In|reflexivity].
        - right. intros (u' & v' & Ht & ->). rewrite <- not_true_iff_false in Eb. apply Eb, existsb_exists. eexists. split; [apply elem_of_list_In; exact Ht|apply N.eqb_refl]. }
      destruct (decide (q ∈ visible_commits d)) as [Vq|Vq]; rewrite visible_spec in Vq by exact W.
      + assert (Iq : exists x a, x ∈ cs /\ takes_out x a q) by (exists (FixUpCommit t q), q; split; [apply sq_into; auto|right; eauto]).
        assert (Mv : moved_by d cs b q \/ ~ moved_by d cs b q); [|destruct Mv as [Mv|Mv]; [left; split; [exact Iq|exact Mv]|right; intros [_ K]; exact (Mv K)]].
        destruct D as [[t' Ht]|D].
        * left. right. exists (FixUpCommit t' w), w, w. split; [exact Ht|]. split; [right; eauto|]. split; [now apply Hw|exact Vq].
        * destruct Dm as [(u' & v' & Hu' & ->)|Dm].
          -- left. right. exists (MoveChildren u' w), u', w. split; [exact Hu'|]. split; [now left|]. split; [now apply Hw|exact Vq].
          -- right. intros [[p Hp]|(x & a' & b' & Hx & T & P & _)]; [apply sq_placed in Hp; exact (proj1 Hp Xq)|]. apply Hw in P. subst b'.
             destruct T as [->|(t' & -> & ->)]; [apply Dm; eauto|apply D; eauto].
      + right. intros [_ [[p Hp]|(x & a' & b' & Hx & T & P & V)]]; [apply sq_placed in Hp; exact (proj1 Hp Xq)|exact (Vq V)].
    - right. intros [(x & a' & Hx & T) _]. apply sq_takes in T; [|exact Hx]. destruct T as (-> & -> & H). exact (Xq H). }
  assert (P : parent g q u) by now apply Hq. destruct G as [G|G]; [|exists q; now apply settles_here].
  pose proof (parent_rank g q u W P).
  assert (Xq : q ∈ X). { destruct G as [(x & a' & Hx & T) _]. apply sq_takes in T; [|exact Hx]. now destruct T as (-> & -> & H'). }
  destruct (IH (rank g q)) with (u := q) as [p Hp]; [lia|lia|exact Xq|]. exists p. eapply settles_below; eauto.
Qed.
Lemma sq_plan e allowed : knows d e -> pe_replace e = ∅ -> (exists f, f ∈ X) ->
  (forall c x, c ∈ X \/ parent g t c -> ancestor g c x -> x ∈ allowed) ->
  exists dest cmds, build d e allowed cs = Done (BuiltPlan dest cmds).
Proof.
  intros K R NE Al. apply build_total; auto.
  - now apply sq_plannable.
  - exact sq_gaps.
  - exact sq_possible.
  - intros c M. destruct (sq_moves_allowed c M) as (x & Hx & A). eauto.
  - exists t. right. now apply sq_target.
Qed.
Lemma sq_dest p c : new_parent d cs p c -> p ∈ vertices g.
Proof.
  intros H. apply sq_lower in H. apply tc_rtc in H as H'. clear H'. inversion H as [? ? P|? y ? P _]; subst; apply (parent_vertices _ _ _ W) in P; apply P.
Qed.

(** What it does. *)
Context (e : restack_env) (st : store) (ee : exec_env) (st1 st' : store) (rw : gmap oid moid) (head : option oid).
Hypothesis CO : carried_out d cs (planner e st) ee st1 st' rw head.
Hypothesis NE : exists f, f ∈ X.
Definition closes_up_X (p c : oid) : Prop := c ∉ X /\ nearest g out p c.
Lemma sq_out_fixed c : c ∉ X -> ~ fixed_up cs c. Proof. intros N H. apply N. now apply sq_fixed. Qed.
Lemma sq_rw c : c ∉ X -> is_Some (rw !! c) <-> visible d c /\ exists x, (x ∈ X \/ x = t) /\ ancestor g x c.
Proof.
  intros N. rewrite <- sq_rebuilt by assumption. split.
  - intros H. destruct (co_rest _ _ _ _ _ _ _ _ CO c H) as [K|K]; [exact K|destruct (sq_out_fixed c N K)].
  - intros H. destruct (co_fate _ _ _ _ _ _ _ _ CO c H (sq_out_fixed c N)); eauto.
Qed.
Lemma sq_lands p q : p ∉ X -> lands d cs rw p q -> becomes closes_up_X rw p q.
Proof.
  intros N L. induction L as [p H|p q H|p p' q H B L IH]; [now apply becomes_kept|now apply becomes_new|].
  apply sq_rebuilt_on in B; [|exact N]. apply (becomes_dropped _ _ p p' q); [exact H|split; [exact N|exact B]|]. apply IH. now apply nearest_is in B.
Qed.
Lemma sq_lone c l : c <> t -> (forall f, f ∈ l <-> f = c \/ FixUpCommit c f ∈ cs) -> NoDup l -> l = [c].
Proof.
  intros N L D. assert (L' : forall f, f ∈ l <-> f = c). { intros f. rewrite L, sq_into. split; [intros [H|[H _]]; [exact H|destruct (N H)]|auto]. }
  destruct l as [|a [|b l]].
  - destruct (not_elem_of_nil c (proj2 (L' c) eq_refl)).
  - f_equal. apply L'. left.
  - exfalso. apply NoDup_cons in D. destruct D as [D _]. apply D. rewrite (proj1 (L' a)) by left. rewrite <- (proj1 (L' b)) by (right; left). left.
Qed.
Lemma sq_squash q orig c l y : c <> t -> (forall f, f ∈ l <-> f = c \/ FixUpCommit c f ∈ cs) -> NoDup l -> squashes ee q orig l y ->
  exists tree, ee_pick ee c q = MadeTree tree /\ y = remade ee orig [q] tree.
Proof.
  intros N L D S. rewrite (sq_lone c l N L D) in S.
  inversion S as [c' u Hp E1 E2|l' z c' u S' Ha E1 E2]; subst; [eauto|]. exfalso. destruct l' as [|? [|? ?]]; try discriminate E1. inversion S' as [|[|? ?] ? ? ? ? ? E3]; discriminate E3.
Qed.
Lemma sq_list (l : list oid) : (forall f, f ∈ l <-> f = t \/ FixUpCommit t f ∈ cs) <-> (forall f, f ∈ l <-> f = t \/ f ∈ X).
Proof. split; intros H f; rewrite H, sq_into; tauto. Qed.
(** What is below the target is not touched. *)
Lemma sq_parent_kept p : rebuilt_on d cs p t -> parent g p t /\ rw !! p = None.
Proof.
  intros H. assert (P : parent g p t).
  { destruct H as [H|[(_ & _ & P)|(_ & _ & P)]]; [destruct sq_t_fixed; now exists p|exact P|exact P]. }
  split; [exact P|]. destruct (rw !! p) as [x|] eqn:E; [|reflexivity]. exfalso.
  assert (Np : p ∉ X) by (intros Hp; apply (Below p Hp); now apply rtc_once).
  assert (K : is_Some (rw !! p)) by eauto. apply sq_rw in K; [|exact Np]. destruct K as (_ & y & [Hy| ->] & A).
  - apply (Below y Hy). eapply rtc_r; eauto.
  - apply (wf_acyclic g t W). eapply tc_rtc_l; [exact A|now apply tc_once].
Qed.
Lemma sq_parent_lands p q : rebuilt_on d cs p t -> lands d cs rw p q -> parent g p t /\ q = p.
Proof.
  intros H L. destruct (sq_parent_kept p H) as [P N]. split; [exact P|]. inversion L; subst; congruence.
Qed.
Lemma sq_sorted l : put_in_order (planner e st) l -> old_to_new e l.
Proof. intros (N & s & E). split; [exact N|]. intros Su l1 x l2 y l3 E'. apply (Su s l1 x l2 y l3). now rewrite <- E'. Qed.
Lemma sq_made_target n : rw !! t = Some (NonZero n) -> exists p orig l x, parent g p t /\ st' !! t = Some orig /\
  (forall f, f ∈ l <-> f = t \/ f ∈ X) /\ old_to_new e l /\ squashes ee p orig l x /\ st' !! n = Some x.
Proof.
  intros H. assert (Rb : rebuilt d cs t) by (right; now apply sq_target).
  destruct (co_fate _ _ _ _ _ _ _ _ CO t Rb (sq_out_fixed t sq_t_out)) as [p q Z|p q n' orig l y qx Z _ _ B L Sn Sc _ Hl Nd Sq _|n' rr orig ps qs _ Z'].
  - congruence.
  - rewrite H in Z. injection Z as <-. destruct (sq_parent_lands p q B L) as [P ->]. exists p, orig, l, y.
    split; [exact P|]. split; [exact Sc|]. split; [now apply sq_list|]. split; [now apply (sq_sorted l)|]. auto.
  - cbn in Z'. now rewrite lookup_empty in Z'.
Qed.
Lemma sq_dropped_target : rw !! t = Some Zero -> (exists u, re_upstream e u t = true) \/
  exists p orig l x y, parent g p t /\ st' !! t = Some orig /\
    (forall f, f ∈ l <-> f = t \/ f ∈ X) /\ old_to_new e l /\ squashes ee p orig l x /\ st' !! p = Some y /\ commit_tree (ob_commit x) = commit_tree (ob_commit y).
Proof.
  intros H. assert (Rb : rebuilt d cs t) by (right; now apply sq_target).
  destruct (co_fate _ _ _ _ _ _ _ _ CO t Rb (sq_out_fixed t sq_t_out)) as [p q Z NM' B L Why|p q n' orig l y qx Z|n' rr orig ps qs _ Z'].
  - destruct Why as [Up|(_ & orig & qx & l & y & So & Sq & Hl & Nd & S & T')]; [left; exact Up|right].
    destruct (sq_parent_lands p q B L) as [P ->]. exists p, orig, l, y, qx. split; [exact P|]. split; [exact So|]. split; [now apply sq_list|]. split; [now apply (sq_sorted l)|]. auto.
  - congruence.
  - cbn in Z'. now rewrite lookup_empty in Z'.
Qed.
Lemma sq_made c n : c <> t -> c ∉ X -> rw !! c = Some (NonZero n) -> exists p q orig tree,
  closes_up_X p c /\ becomes closes_up_X rw p q /\ st' !! c = Some orig /\
  ee_pick ee c q = MadeTree tree /\ st' !! n = Some (remade ee orig [q] tree).
Proof.
  intros Nt N H. assert (Rb : rebuilt d cs c) by (apply sq_rebuilt; [exact NE|exact N|apply sq_rw; eauto]).
  destruct (co_fate _ _ _ _ _ _ _ _ CO c Rb (sq_out_fixed c N)) as [p q Z|p q n' orig l y qx Z _ _ B L Sn Sc _ Hl Nd Sq _|n' rr orig ps qs _ Z'].
  - congruence.
  - rewrite H in Z. injection Z as <-. destruct (sq_squash q orig c l y Nt Hl (proj1 Nd) Sq) as (tree & Hp & ->).
    apply sq_rebuilt_on in B; [|exact N]. exists p, q, orig, tree. split; [split; [exact N|exact B]|]. split; [|auto]. apply sq_lands; [|exact L]. now apply nearest_is in B.
  - cbn in Z'. now rewrite lookup_empty in Z'.
Qed.
Lemma sq_dropped c : c <> t -> c ∉ X -> rw !! c = Some Zero -> exists p q,
  closes_up_X p c /\ becomes closes_up_X rw p q /\
  ((exists u, re_upstream e u c = true) \/
   exists tree qx, ee_pick ee c q = MadeTree tree /\ st' !! q = Some qx /\ commit_tree (ob_commit qx) = tree).
Proof.
  intros Nt N H. assert (Rb : rebuilt d cs c) by (apply sq_rebuilt; [exact NE|exact N|apply sq_rw; eauto]).
  destruct (co_fate _ _ _ _ _ _ _ _ CO c Rb (sq_out_fixed c N)) as [p q Z NM' B L Why|p q n' orig l y qx Z|n' rr orig ps qs _ Z'].
  - apply sq_rebuilt_on in B; [|exact N]. exists p, q. split; [split; [exact N|exact B]|]. split; [apply sq_lands; [|exact L]; now apply nearest_is in B|].
    destruct Why as [Up|(_ & orig & qx & l & y & So & Sq & Hl & Nd & S & T')]; [left; exact Up|right].
    destruct (sq_squash q orig c l y Nt Hl (proj1 Nd) S) as (tree & Hp & ->). exists tree, qx. split; [exact Hp|]. split; [exact Sq|]. now symmetry.
  - congruence.
  - cbn in Z'. now rewrite lookup_empty in Z'.
Qed.
Lemma sq_from f n : f ∈ X -> rw !! f = Some (NonZero n) -> rw !! t = Some (NonZero n).
Proof.
  intros Hf H. destruct (co_fixup _ _ _ _ _ _ _ _ CO f n) as (t' & Ht & _ & K); [now apply sq_fixed|exact H|]. apply sq_into in Ht. destruct Ht as [-> _]. exact K.
Qed.
Lemma sq_to f n : f ∈ X -> (forall u, re_upstream e u f = false) -> rw !! t = Some (NonZero n) -> rw !! f = Some (NonZero n).
Proof.
  intros Hf Up H. apply (co_into _ _ _ _ _ _ _ _ CO t f n); auto.
  - now apply sq_into.
  - apply sq_out_fixed, sq_t_out.
  - intros t' Ht. now apply sq_into in Ht.
Qed.
End squash.

(** ** Running it *)
Record squash_requests (d : dag) (cs : list constraint) (t : oid) (X : commit_set) : Prop := {
  qr_in : forall x, x ∈ cs <-> (exists f, x = FixUpCommit t f /\ f ∈ X) \/ exists c p, x = MoveSubtree [p] c /\ sq_told d X c p;
  qr_one : forall f, f ∈ X -> exists p, only_parent (dag_graph d) f p;
  qr_single : forall f, f ∈ X -> ~ merge_commit (dag_graph d) f;
  qr_target : exists p, only_parent (dag_graph d) t p;
  qr_shown : visible d t;
  qr_below : forall f, f ∈ X -> ~ ancestor (dag_graph d) f t;
  qr_merge : forall c x, c ∈ X \/ c = t -> ancestor (dag_graph d) c x -> visible d x -> ~ merge_commit (dag_graph d) x }.
Section run.
Context (e : restack_env) (r : rrepo) (d : dag) (cs : list constraint) (t : oid) (X : commit_set) (given : oid -> Prop).
Let g := he_graph (re_hide e).
Let h := rr_repo r.
Hypothesis R : restackable e r.
Hypothesis Mem : in_memory e.
Hypothesis Op : open_repo (re_hide e) h = Some d.
Hypothesis Q : squash_requests d cs t X.
Hypothesis GX : forall f, given f <-> f ∈ X.
Hypothesis NE : exists f, f ∈ X.

Lemma qs_wf : wf_graph (dag_graph d). Proof. exact (run_wf e r d R Op). Qed.
Lemma qs_plannable pe : pe_replace pe = ∅ -> plannable d pe cs.
Proof. pose proof Q as Q'. destruct Q'. eapply sq_plannable; eauto; exact qs_wf. Qed.
Lemma qs_clear : clear_of_fixups d cs.
Proof. pose proof Q as Q'. destruct Q'. eapply sq_clear; eauto; exact qs_wf. Qed.
Lemma qs_fixed f : fixed_up cs f <-> f ∈ X.
Proof. pose proof Q as Q'. destruct Q'. eapply sq_fixed; eauto. Qed.
Lemma qs_known f : fixed_up cs f -> f ∈ vertices g.
Proof.
  intros H. apply qs_fixed in H. destruct (qr_one _ _ _ _ Q f H) as [p P]. assert (K : parent (dag_graph d) p f) by now apply P.
  apply (parent_vertices _ _ _ qs_wf) in K. destruct K as [_ K]. now rewrite (dag_is e r d R Op) in K.
Qed.
Lemma near_ext p c : nearest g (out X) p c <-> nearest g (fun x => ~ given x) p c.
Proof.
  split; (intros N; induction N as [p c P H|p q c P H N IH]; [apply nearest_here; [exact P|]|eapply nearest_below; [exact P| |exact IH]]); unfold out in *; rewrite GX in *; exact H.
Qed.
Lemma closes_ext p c : closes_up_X d X p c <-> closes_up g given p c.
Proof.
  unfold closes_up_X, closes_up. rewrite GX. pose proof (dag_is e r d R Op) as G. rewrite G. fold g. rewrite near_ext. reflexivity.
Qed.
Lemma becomes_ext rw p q : becomes (closes_up_X d X) rw p q -> becomes (closes_up g given) rw p q.
Proof. apply becomes_mono. intros p' o _. apply closes_ext. Qed.

Lemma squashes_run p orig l x : squashes (runner e r) p orig l x -> squashes (re_exec e) p orig l x.
Proof.
  induction 1 as [c u P|l x c u S IH A]; [apply (squash_first (re_exec e) p orig c u P)|exact (squash_more (re_exec e) p orig l x c u IH A)].
Qed.
Lemma ran_squashed rw r' : ran e r d (planner e (rr_store r)) cs rw r' -> squash_done e r given t rw r'.
Proof.
  intros N. pose proof (dag_is e r d R Op) as G. fold g in G. pose proof qs_wf as W. destruct (rn_out _ _ _ _ _ _ _ N) as [head CO].
  pose proof Q as Q'. destruct Q' as [Q1 Q2 Qs Q3 Q4 Q5 Q6]. pose proof (rn_store _ _ _ _ _ _ _ N) as Grow.
  assert (Same : forall c orig, c ∈ vertices g -> rr_store r' !! c = Some orig -> rr_store r !! c = Some orig).
  { intros c orig Hc Ho. destruct (ra_store _ _ R c Hc) as (z & Hz & _). pose proof (lookup_weaken _ _ _ _ Hz Grow). congruence. }
  assert (Vt : t ∈ vertices g).
  { destruct Q3 as [p Hp]. assert (P : parent (dag_graph d) p t) by now apply Hp. apply (parent_vertices _ _ _ W) in P. rewrite G in P. apply P. }
  assert (Vp : forall p c, parent (dag_graph d) p c -> p ∈ vertices g /\ parent g p c).
  { intros p c P. pose proof (parent_vertices _ _ _ W P) as [K _]. rewrite G in K, P. auto. }
  constructor.
  - exact Grow.
  - constructor.
    + intros o No. rewrite GX in No. rewrite (sq_rw d cs t X W Q1 Q2 Q3 Q4 Q5 Q6 e _ _ _ _ _ _ CO NE o No). rewrite G, (shown_is e r d R Op). fold g h.
      split; intros (S & c & Hc & A); (split; [exact S|]); exists c; [rewrite GX|rewrite GX in Hc]; auto.
    + intros f n Hf Up. rewrite GX in Hf. split; [eapply sq_from; eauto|eapply sq_to; eauto].
    + intros f n Hf. rewrite GX in Hf. eapply sq_from; eauto.
    + intros n Hn. destruct (sq_made_target d cs t X W Q1 Q2 Q3 Q4 Q5 Q6 e _ _ _ _ _ _ CO NE n Hn) as (p & orig & l & x & P & So & Hl & Nd & Sq & Sn).
      exists p, orig, l, x. destruct (Vp _ _ P) as [_ P']. split; [exact P'|]. split; [now apply Same|]. split; [intros f; rewrite Hl, GX; reflexivity|].
      split; [exact Nd|]. split; [now apply squashes_run|exact Sn].
    + intros Hz. destruct (sq_dropped_target d cs t X W Q1 Q2 Q3 Q4 Q5 Q6 e _ _ _ _ _ _ CO NE Hz) as [Up|(p & orig & l & x & y & P & So & Hl & Nd & Sq & Sp & Tr)]; [left; exact Up|right].
      destruct (Vp _ _ P) as [Kp P']. exists p, orig, l, x, y. split; [exact P'|]. split; [now apply Same|]. split; [intros f; rewrite Hl, GX; reflexivity|].
      split; [exact Nd|]. split; [now apply squashes_run|]. split; [now apply Same|exact Tr].
    + intros o n No Ng Hn. rewrite GX in Ng. destruct (sq_made d cs t X W Q1 Q2 Q3 Q4 Q5 Q6 e _ _ _ _ _ _ CO NE o n No Ng Hn) as (p & q & orig & tree & Cp & B & So & Pk & Sn).
      exists p, q, orig, tree. split; [now apply closes_ext|]. split; [now apply becomes_ext|]. split; [|auto]. apply Same; [|exact So].
      destruct Cp as [_ Cp]. apply nearest_is in Cp. destruct Cp as [_ Cp]. apply proper_last in Cp. destruct Cp as (u & _ & Pu). apply (parent_vertices _ _ _ W) in Pu. rewrite G in Pu. apply Pu.
    + intros o No Ng Hz. rewrite GX in Ng. destruct (sq_dropped d cs t X W Q1 Q2 Q3 Q4 Q5 Q6 e _ _ _ _ _ _ CO NE o No Ng Hz) as (p & q & Cp & B & Why).
      exists p, q. split; [now apply closes_ext|]. split; [now apply becomes_ext|exact Why].
  - apply N.
  - apply N.
  - intros hd Hh Ng. rewrite GX in Ng. destruct (rn_head _ _ _ _ _ _ _ N hd Hh) as (q & Hq & [L|L]); [intros K; apply Ng; now apply qs_fixed| |].
    + exists q. split; [exact Hq|]. left. apply becomes_ext. eapply (sq_lands d cs t X W Q1 Q2 Q3 Q4 Q5 Q6); eauto.
    + exists q. auto.
  - apply N.
  - apply N.
  - apply N.
  - apply N.
  - apply N.
Qed.
Lemma squash_comes ts i a allowed : move_requests e d (hi_oid (hr_head h)) a = Go (allowed, cs) ->
  squash_comes_to e r given t (move e ts (TxId i) a r).
Proof.
  intros Rq. unfold squash_comes_to, move. fold h. rewrite Op, Rq.
  destruct (build d (planner e (rr_store r)) allowed cs) as [[dest cmds| |l|l]| | ] eqn:Eb; cbn [mv_end mv_repo]; auto.
  destruct (run_plan e ts (TxId i) dest cmds r) as [r' res] eqn:Er.
  pose proof (plan_ran e r d cs R Mem Op (qs_plannable (planner e (rr_store r)) eq_refl) qs_clear qs_known ts i allowed dest cmds r' res Eb Er) as H.
  destruct res; cbn [mv_end mv_repo mv_rewritten]; auto. destruct H as (rw & -> & H). exists rw. split; [reflexivity|]. now apply ran_squashed.
Qed.
Lemma squash_goes ts i a allowed : move_requests e d (hi_oid (hr_head h)) a = Go (allowed, cs) -> workable e r ->
  (forall c x, given c \/ parent g t c -> ancestor g c x -> x ∈ allowed) ->
  squash_goes_through e r given t (move e ts (TxId i) a r).
Proof.
  intros Rq Wk Al. unfold squash_goes_through, move. fold h. rewrite Op, Rq. pose proof (dag_is e r d R Op) as G. fold g in G. pose proof qs_wf as W.
  pose proof Q as Q'. destruct Q' as [Q1 Q2 Qs Q3 Q4 Q5 Q6].
  destruct (sq_plan d cs t X W Q1 Q2 Q3 Q4 Q5 Q6 (planner e (rr_store r)) allowed) as (dest & cmds & Eb).
  { exact (run_knows e r d R Op). }
  { reflexivity. }
  { exact NE. }
  { intros c x Hc A. rewrite G in Hc, A. apply (Al c x); [rewrite GX; exact Hc|exact A]. }
  rewrite Eb. destruct (run_plan e ts (TxId i) dest cmds r) as [r' res] eqn:Er.
  pose proof (plan_runs e r d cs R Mem Op (qs_plannable (planner e (rr_store r)) eq_refl) qs_clear qs_known ts i allowed dest cmds r' res Wk) as H.
  assert (Hd : forall p c, new_parent d cs p c -> p ∈ vertices (he_graph (re_hide e))).
  { intros p c K. fold g. rewrite <- G. eapply sq_dest; eauto. }
  specialize (H Hd Eb Er). destruct res as [rw|x| |]; cbn [mv_end]; auto. destruct H as [H1 H2].
  assert (NMx : ~ merge_commit g x).
  { rewrite <- G. destruct H1 as [H1|H1]; [eapply sq_no_merge; eauto|]. apply qs_fixed in H1. now apply Qs. }
  split; [|destruct H2 as [H2|H2]; [destruct (NMx H2)|exact H2]].
  destruct H1 as [H1|H1]; [|left; rewrite GX; now apply qs_fixed].
  right. eapply sq_rebuilt_above in H1; eauto. destruct H1 as (V & c & Hc & A). fold h g. split; [now apply (shown_is e r d R Op)|].
  exists c. rewrite GX. rewrite <- G. auto.
Qed.
End run.

(** ** The requests for single commits *)
Section exact.
Context (e : restack_env) (r : rrepo) (d : dag) (a : move_args) (dest : oid).
Let g := he_graph (re_hide e).
Let h := rr_repo r.
Let a0 := without_fixup a.
Hypothesis X : pickable e r a0 dest.
Hypothesis Fx : ma_fixup a = true.
Hypothesis Op : open_repo (re_hide e) h = Some d.
Let R := pk_order _ _ _ _ X.
Let E : commit_set := ⋃ (ma_exacts a).
Section with_ranges.
Context (comps : list commit_set) (l : list (oid * commit_set)).
Hypothesis C1 : ⋃ comps = E.
Hypothesis C2 : forall C, C ∈ comps -> C <> ∅.
Hypothesis C3 : forall C x y, C ∈ comps -> x ∈ C -> y ∈ C <-> connected g E x y.
Hypothesis Sl : List.map snd l = comps.
Hypothesis Rl : rooted e l.
Let starts : list oid := re_sort e (list_to_set (List.map fst l)).
Definition fix_asks (s : oid) (C : commit_set) (x : constraint) : Prop :=
  (exists p k, x = MoveSubtree [p] k /\ kid e r C k /\ parent g p s) \/ exists f, x = FixUpCommit dest f /\ f ∈ C.
Lemma fix_component s C : (s, C) ∈ l ->
  match component_requests e d true false dest l starts s with
  | Go cs => forall x, x ∈ cs <-> fix_asks s C x
  | Stop w => component_dest e d l starts dest s = Stop w
  end.
Proof.
  intros H. unfold component_requests. assert (Co : component_of l s = C) by (eapply component_of_spec; eauto). rewrite Co. unfold fix_asks.
  destruct (component_dest e d l starts dest s) as [p|w] eqn:Ed; cbn [and_then]; [|reflexivity].
  assert (HE : s ∈ E) by (eapply (l_start e a0); eauto).
  destruct (ex_only e r a0 dest X s HE) as [q Hq]. fold g in Hq. pose proof (ex_graph e r d a0 dest X Op) as G. fold g in G. rewrite G.
  rewrite (first_one e (ra_sets _ _ R) (parents g {[s]}) q).
  2:{ intros x. rewrite parents_spec. split; [intros (c & Hc & P); apply elem_of_singleton in Hc as ->; now apply Hq|].
      intros ->. exists s. split; [now apply elem_of_singleton|now apply Hq]. }
  pose proof (kids_spec e r d a0 dest X Op C) as Ks. fold g in Ks.
  intros x. rewrite elem_of_app. split.
  - intros [Hx|Hx].
    + apply elem_of_list_In, in_flat_map in Hx. destruct Hx as (k & Hk & Hx). apply elem_of_list_In, Ks in Hk. apply elem_of_list_In in Hx.
      cbn [andb] in Hx. apply elem_of_list_singleton in Hx as ->. left. exists q, k. split; [reflexivity|]. split; [exact Hk|now apply Hq].
    + right. apply elem_of_list_In, in_map_iff in Hx. destruct Hx as (f & <- & Hf). exists f. split; [reflexivity|].
      apply elem_of_list_In in Hf. now rewrite (ra_sets _ _ R), elem_of_elements in Hf.
  - intros [(p' & k & -> & Hk & P)|(f & -> & Hf)]; [left|right].
    + apply Hq in P as ->. apply elem_of_list_In, in_flat_map. exists k. split; [apply elem_of_list_In; now apply Ks|]. now left.
    + apply elem_of_list_In, in_map. apply elem_of_list_In. now rewrite (ra_sets _ _ R), elem_of_elements.
Qed.
Lemma fix_all todo : (forall s, s ∈ todo -> s ∈ starts) ->
  match all_component_requests e d true false dest l starts todo with
  | Go cs => forall x, x ∈ cs <-> exists s C, s ∈ todo /\ (s, C) ∈ l /\ fix_asks s C x
  | Stop w => exists s C, (s, C) ∈ l /\ component_dest e d l starts dest s = Stop w
  end.
Proof.
  induction todo as [|s todo IH]; intros Sub; cbn [all_component_requests].
  - intros x. split; [intros H; now apply elem_of_nil in H|]. intros (s & C & H & _). now apply elem_of_nil in H.
  - destruct (proj1 (starts_in e r a0 dest X l s)) as [C HC]; [apply Sub; left|].
    pose proof (fix_component s C HC) as K. destruct (component_requests e d true false dest l starts s) as [cs|w]; cbn [and_then]; [|eauto].
    specialize (IH ltac:(intros; apply Sub; now right)).
    destruct (all_component_requests e d true false dest l starts todo) as [cs'|w]; cbn [and_then]; [|exact IH].
    intros x. rewrite elem_of_app, K, IH. split.
    + intros [H|(s' & C' & H1 & H2 & H3)]; [exists s, C; split; [left|auto]|exists s', C'; split; [now right|auto]].
    + intros (s' & C' & H1 & H2 & H3). apply elem_of_cons in H1. destruct H1 as [->|H1]; [|right; eauto]. left.
      assert (Eq : s = s /\ C = C').
      { eapply (l_one e a0 comps C3 l Sl Rl s s C C' s HC H2); eapply l_root; eauto. }
      destruct Eq as [_ ->]. exact H3.
Qed.
Lemma fix_in (cs : list constraint) : (forall x, x ∈ cs <-> exists s C, s ∈ starts /\ (s, C) ∈ l /\ fix_asks s C x) ->
  forall x, x ∈ cs <-> (exists f, x = FixUpCommit dest f /\ f ∈ E) \/ exists c p, x = MoveSubtree [p] c /\ sq_told d E c p.
Proof.
  pose proof (ex_graph e r d a0 dest X Op) as G. fold g in G.
  intros H x. rewrite H. split.
  - intros (s & C & _ & Hl & [(p & k & -> & K & P)|(f & -> & Hf)]).
    + right. exists k, p. split; [reflexivity|]. split; [eapply (kid_out e r a0 comps C1 C3 l Sl); eauto|].
      pose proof K as (Sh & Nk & y & Hy & Py). split; [now apply (shown_is e r d R Op)|].
      split; [exists y; split; [eapply (l_sub a0 comps C1 l Sl); eauto|now rewrite G]|].
      rewrite G. eapply (nearest_kid e r a0 dest X comps C1 C3 l Sl Rl s C p k y); eauto.
    + left. exists f. split; [reflexivity|]. eapply (l_sub a0 comps C1 l Sl); eauto.
  - assert (St : forall s C, (s, C) ∈ l -> s ∈ starts) by (intros s C Hs; apply (starts_in e r a0 dest X l s); eauto).
    intros [(f & -> & Hf)|(c & p & -> & (Nc & V & (f & Hf & P) & N))].
    + destruct (l_in a0 comps C1 l Sl f Hf) as (s & C & Hl & HC). exists s, C. split; [eauto|]. split; [exact Hl|]. right. eauto.
    + destruct (l_in a0 comps C1 l Sl f Hf) as (s & C & Hl & HC). exists s, C. split; [eauto|]. split; [exact Hl|]. left.
      assert (HE : s ∈ E) by (eapply (l_start e a0); eauto). destruct (ex_only e r a0 dest X s HE) as [q Hq]. fold g in Hq.
      assert (Pq : parent g q s) by now apply Hq. rewrite G in P, N.
      assert (Nq : nearest g (fun y => y ∉ E) q c) by (eapply (nearest_kid e r a0 dest X comps C1 C3 l Sl Rl s C q c f); eauto).
      assert (p = q) as ->.
      { eapply (near_one d E); [|rewrite G; intros u v Hu Hv|rewrite G; exact N|rewrite G; exact Nq].
        - intros f' Hf'. rewrite G. exact (ex_only e r a0 dest X f' Hf').
        - apply (only_one_parent g c u v (ex_wf e r a0 dest X)); auto. apply (pk_merge _ _ _ _ X f c); [now apply ex_given|now apply rtc_once|].
          now apply (shown_is e r d R Op). }
      exists q, c. split; [reflexivity|]. split; [|exact Pq]. split; [now apply (shown_is e r d R Op)|]. split; [|eauto].
      intros Hc. apply Nc. eapply (l_sub a0 comps C1 l Sl); eauto.
Qed.
End with_ranges.

Lemma fix_plan :
  match verify_rewrite_set d (re_force e) (E ∪ children g {[dest]}) with
  | None => move_requests e d (hi_oid (hr_head h)) a = Stop WouldRewritePublic
  | Some allowed =>
      (exists c, move_requests e d (hi_oid (hr_head h)) a = Stop (ManyPlaces c) /\ ~ sorts_up e) \/
      exists cs, move_requests e d (hi_oid (hr_head h)) a = Go (allowed, cs) /\
        forall x, x ∈ cs <-> (exists f, x = FixUpCommit dest f /\ f ∈ E) \/ exists c p, x = MoveSubtree [p] c /\ sq_told d E c p
  end.
Proof.
  pose proof (ex_graph e r d a0 dest X Op) as G. fold g in G.
  destruct (connected_components_spec g (re_order e E) E) as (comps & Ec & C1 & C2 & _ & C3).
  { intros x Hx. now rewrite (ra_sets _ _ R), elem_of_elements. }
  destruct (exact_components_go e r d a0 dest X Op comps C1 C2 C3) as (l & El & Sl & Rl).
  assert (Rq : move_requests e d (hi_oid (hr_head h)) a =
    match verify_rewrite_set d (re_force e) (E ∪ children g {[dest]}) with
    | None => Stop WouldRewritePublic
    | Some allowed => and_then (all_component_requests e d true false dest l (re_sort e (list_to_set (List.map fst l))) (re_sort e (list_to_set (List.map fst l))))
        (fun cs => Go (allowed, cs))
    end).
  { destruct (pk_only _ _ _ _ X) as (S0 & B0 & X0 & F0 & I0). cbn in S0, B0, X0, I0. unfold move_requests. fold E. rewrite G, S0, B0, Fx, I0.
    assert (Dm : (match ma_dest a, hi_oid (hr_head h) with
            | Some s, _ => Go s
            | None, Some h => Go {[h]}
            | None, None => Stop NoHead
            end) = Go ({[dest]} : commit_set)).
    { pose proof (pk_dest _ _ _ _ X) as H. unfold meant_dest in H. cbn in H. unfold h. destruct (ma_dest a) as [s|]; [now subst|]. now rewrite H. }
    rewrite Dm. cbn [and_then]. rewrite Ec, El. cbn [and_then]. rewrite (order_one e (ra_sets _ _ R) _ dest) by set_solver.
    assert (Df : match ma_exacts a with [] => true | _ => false end = false) by (destruct (ma_exacts a); [congruence|reflexivity]).
    rewrite Df. cbn [and_then orb].
    assert (Bc : forall y, y ∉ base_commits e d dest (⋃ [])).
    { intros y. unfold base_commits. rewrite (order_none e (ra_sets _ _ R)) by set_solver. cbn. set_solver. }
    assert (Se : ⋃ [] ∪ base_commits e d dest (⋃ []) ∪ ⋃ List.map snd l ∪ children g {[dest]} = E ∪ children g {[dest]}) by (rewrite Sl, C1; set_solver).
    rewrite Se. destruct (verify_rewrite_set d (re_force e) _) as [allowed|]; [|reflexivity].
    destruct (all_component_requests _ _ _ _ _ _ _ _) as [cs|w]; cbn [and_then]; [|reflexivity].
    unfold source_requests. rewrite (order_none e (ra_sets _ _ R)).
    - cbn [flat_map app]. now rewrite app_nil_r.
    - intros y Hy. apply roots_spec in Hy. destruct Hy as [Hy _]. apply elem_of_union in Hy. destruct Hy as [Hy|Hy]; [set_solver|exact (Bc y Hy)]. }
  rewrite Rq. destruct (verify_rewrite_set d (re_force e) _) as [allowed|]; [|reflexivity].
  pose proof (fix_all comps l C1 C3 Sl Rl (re_sort e (list_to_set (List.map fst l))) (fun s H => H)) as K.
  destruct (all_component_requests _ _ _ _ _ _ _ _) as [cs|w]; cbn [and_then].
  - right. exists cs. split; [reflexivity|]. exact (fix_in comps l C1 C3 Sl Rl cs K).
  - left. destruct K as (s & C & H & K). exists s.
    assert (D : match component_dest e d l (re_sort e (list_to_set (List.map fst l))) dest s with
                | Go p => nearest g (fun x => x ∈ E) p s \/ ((forall q, ~ nearest g (fun x => x ∈ E) q s) /\ p = dest)
                | Stop w => w = ManyPlaces s end) by (eapply (component_dest_spec e r d a0 dest X Op); eauto).
    rewrite K in D. split; [congruence|]. intros Su.
    assert (exists p, component_dest e d l (re_sort e (list_to_set (List.map fst l))) dest s = Go p) as [p D'] by (eapply (component_dest_go e r d a0 dest X Op); eauto). congruence.
Qed.
End exact.

(** ** The requests for subtrees *)
Section sources.
Context (e : restack_env) (r : rrepo) (d : dag) (a : move_args) (dest : oid).
Let g := he_graph (re_hide e).
Let h := rr_repo r.
Let a0 := without_fixup a.
Hypothesis M : movable e r a0 dest.
Hypothesis Fx : ma_fixup a = true.
Hypothesis Op : open_repo (re_hide e) h = Some d.
Let R := mb_order _ _ _ _ M.
Lemma fix_sources : exists s : commit_set, (forall c, c ∈ s <-> subtree_given g a r dest c) /\
  match verify_rewrite_set d (re_force e) (s ∪ children g {[dest]}) with
  | None => move_requests e d (hi_oid (hr_head h)) a = Stop WouldRewritePublic
  | Some allowed => exists cs, move_requests e d (hi_oid (hr_head h)) a = Go (allowed, cs) /\
      forall x, x ∈ cs <-> exists f, x = FixUpCommit dest f /\ f ∈ descendants g s
  end.
Proof.
  destruct (mb_only _ _ _ _ M) as (Ex & _ & In). cbn in Ex, In. destruct (given_bases e r a0 dest M) as (bases & Eb & Gb).
  pose proof (sub_graph e r d a0 dest M Op) as G. fold g in G. assert (W : wf_graph g) by exact (sub_wf e r a0 dest M).
  exists (⋃ (ma_sources a) ∪ base_commits e d dest bases). split.
  - intros c. rewrite elem_of_union, elem_union, (base_commits_spec e r d a0 dest M Op) by (intros; now apply Gb).
    setoid_rewrite Gb. reflexivity.
  - set (s := ⋃ (ma_sources a) ∪ base_commits e d dest bases).
    assert (Rq : move_requests e d (hi_oid (hr_head h)) a = match verify_rewrite_set d (re_force e) (s ∪ children g {[dest]}) with
      | None => Stop WouldRewritePublic | Some allowed => Go (allowed, source_requests e d true dest s) end).
    { unfold move_requests. pose proof (dest_meant e r a0 dest M) as Dm. cbn in Dm. unfold h. rewrite Dm. cbn [and_then]. cbn [a0 without_fixup ma_sources ma_bases ma_exacts] in Eb. rewrite Ex in *.
      rewrite (order_none e (ra_sets _ _ R) (⋃ [])) by set_solver.
      change (connected_components (dag_graph d) [] (⋃ [])) with (Some ([] : list commit_set)). cbn [exact_components and_then].
      rewrite (order_one e (ra_sets _ _ R) _ dest) by set_solver. rewrite Eb. cbn [and_then List.map].
      rewrite In, Fx. cbn [orb]. rewrite G.
      replace (⋃ ma_sources a ∪ base_commits e d dest bases ∪ ⋃ [] ∪ children g {[dest]}) with (s ∪ children g {[dest]}) by set_solver.
      destruct (verify_rewrite_set _ _ _) as [allowed|]; [|reflexivity].
      assert (re_sort e (list_to_set ([] : list oid)) = []) as ->.
      { apply Permutation_nil_r. rewrite (ra_sort _ _ R). cbn. now rewrite elements_empty. }
      cbn [all_component_requests and_then]. now rewrite !app_nil_r. }
    rewrite Rq. destruct (verify_rewrite_set _ _ _) as [allowed|]; [|reflexivity].
    eexists. split; [reflexivity|]. intros x. unfold source_requests. rewrite G, elem_of_list_In, in_flat_map. split.
    + intros (c & Hc & Hx). apply elem_of_list_In in Hc. rewrite (ra_sets _ _ R), elem_of_elements in Hc. apply in_map_iff in Hx.
      destruct Hx as (f & <- & Hf). apply elem_of_list_In in Hf. rewrite (ra_sets _ _ R), elem_of_elements in Hf.
      exists f. split; [reflexivity|]. apply descendants_spec in Hf; [|exact W]. apply descendants_spec; [exact W|].
      destruct Hf as (c' & Hc' & A). apply elem_of_singleton in Hc' as ->. apply roots_spec in Hc. exists c. split; [apply Hc|exact A].
    + intros (f & -> & Hf). apply descendants_spec in Hf; [|exact W]. destruct Hf as (c & Hc & A). destruct (above_root g s c W Hc) as (c' & Hc' & A').
      exists c'. split; [apply elem_of_list_In; now rewrite (ra_sets _ _ R), elem_of_elements|]. apply in_map, elem_of_list_In.
      rewrite (ra_sets _ _ R), elem_of_elements. apply descendants_spec; [exact W|]. exists c'. split; [now apply elem_of_singleton|].
      eapply rtc_transitive; eauto.
Qed.
End sources.

(** ** Both *)
Section both.
Context (e : restack_env) (r : rrepo) (d : dag) (a : move_args) (t : oid).
Let g := he_graph (re_hide e).
Let h := rr_repo r.
Hypothesis B : squashable e r a t.
Hypothesis Op : open_repo (re_hide e) h = Some d.

Lemma sb_order : restackable e r.
Proof. destruct (sb_args _ _ _ _ B) as [K|K]; [exact (pk_order _ _ _ _ K)|exact (mb_order _ _ _ _ K)]. Qed.
Lemma sb_memory : in_memory e.
Proof. destruct (sb_args _ _ _ _ B) as [K|K]; [exact (pk_memory _ _ _ _ K)|exact (mb_memory _ _ _ _ K)]. Qed.
Lemma sb_requests cs (X : commit_set) : (forall f, to_squash e r a t f <-> f ∈ X) ->
  (forall x, x ∈ cs <-> (exists f, x = FixUpCommit t f /\ f ∈ X) \/ exists c p, x = MoveSubtree [p] c /\ sq_told d X c p) ->
  squash_requests d cs t X.
Proof.
  intros HX Hc. pose proof (dag_is e r d sb_order Op) as G. fold g in G. pose proof (graph_wf e r sb_order) as W. fold g in W.
  assert (On : forall f p, ~ merge_commit g f -> parent g p f -> only_parent g f p).
  { intros f p N P q. split; [intros P'; exact (only_one_parent g f q p W N P' P)|now intros ->]. }
  constructor; rewrite ?G.
  - exact Hc.
  - intros f Hf. apply HX in Hf. destruct (sb_given _ _ _ _ B f Hf) as [[p P] N]. exists p. now apply On.
  - intros f Hf. apply HX in Hf. now destruct (sb_given _ _ _ _ B f Hf) as [_ N].
  - destruct (sb_parent _ _ _ _ B) as [p P]. exists p. apply On; [|exact P]. eapply (sb_merge _ _ _ _ B); [right; reflexivity|constructor|apply (sb_shown _ _ _ _ B)].
  - apply (shown_is e r d sb_order Op). apply (sb_shown _ _ _ _ B).
  - intros f Hf. apply HX in Hf. now apply (sb_below _ _ _ _ B).
  - intros c x Hx A V. apply (shown_is e r d sb_order Op) in V. eapply (sb_merge _ _ _ _ B); [|exact A|exact V]. destruct Hx as [Hx| ->]; [left; now apply HX|now right].
Qed.

Lemma squash_plans : exists X : commit_set, (forall f, to_squash e r a t f <-> f ∈ X) /\ exists S : commit_set,
  (forall x, (exists c, c ∈ S /\ ancestor g c x) <-> exists c, (to_squash e r a t c \/ parent g t c) /\ ancestor g c x) /\
  match verify_rewrite_set d (re_force e) S with
  | None => move_requests e d (hi_oid (hr_head h)) a = Stop WouldRewritePublic
  | Some allowed =>
      (exists c, move_requests e d (hi_oid (hr_head h)) a = Stop (ManyPlaces c) /\ ~ sorts_up e) \/
      exists cs, move_requests e d (hi_oid (hr_head h)) a = Go (allowed, cs) /\ squash_requests d cs t X
  end.
Proof.
  assert (Kd : forall c, c ∈ children g {[t]} <-> parent g t c).
  { intros c. rewrite children_spec. split; [intros (p & Hp & P); now apply elem_of_singleton in Hp as ->|]. intros P. exists t. split; [now apply elem_of_singleton|exact P]. }
  pose proof (graph_wf e r sb_order) as W. fold g in W. pose proof (dag_is e r d sb_order Op) as G. fold g in G.
  destruct (sb_args _ _ _ _ B) as [K|K].
  - assert (Ne : ma_exacts a <> []) by apply (pk_only _ _ _ _ K).
    assert (HX : forall f, to_squash e r a t f <-> f ∈ ⋃ (ma_exacts a)).
    { intros f. rewrite elem_union. unfold to_squash, given_exact. split; [intros [H|[H _]]; [exact H|now destruct Ne]|auto]. }
    exists (⋃ (ma_exacts a)). split; [exact HX|]. exists (⋃ (ma_exacts a) ∪ children g {[t]}). split.
    { intros x. setoid_rewrite elem_of_union. setoid_rewrite Kd. setoid_rewrite HX. reflexivity. }
    pose proof (fix_plan e r d a t K (sb_fixup _ _ _ _ B) Op) as H. fold g h in H.
    destruct (verify_rewrite_set d (re_force e) _) as [allowed|]; [|exact H]. destruct H as [H|(cs & Rq & H)]; [now left|]. right.
    exists cs. split; [exact Rq|]. now apply sb_requests.
  - destruct (mb_only _ _ _ _ K) as (Ex & _). cbn in Ex. destruct (fix_sources e r d a t K (sb_fixup _ _ _ _ B) Op) as (s & Hs & H). fold g h in H, Hs.
    assert (HX : forall f, to_squash e r a t f <-> f ∈ descendants g s).
    { intros f. rewrite descendants_spec by exact W. unfold to_squash, given_exact. rewrite Ex. fold g. setoid_rewrite Hs. split.
      - intros [(x & Hx & _)|[_ H']]; [now apply elem_of_nil in Hx|exact H'].
      - intros H'. right. auto. }
    exists (descendants g s). split; [exact HX|]. exists (s ∪ children g {[t]}). split.
    { intros x. setoid_rewrite elem_of_union. setoid_rewrite Kd. setoid_rewrite HX. setoid_rewrite descendants_spec; [|exact W]. split.
      - intros (c & [Hc|Hc] & A); exists c; (split; [|exact A]); [left; exists c; split; [exact Hc|constructor]|now right].
      - intros (c & [(c' & Hc & A')|Hc] & A); [exists c'|exists c]; (split; [|]); auto. eapply rtc_transitive; eauto. }
    destruct (verify_rewrite_set d (re_force e) _) as [allowed|]; [|exact H]. destruct H as (cs & Rq & H). right.
    exists cs. split; [exact Rq|]. apply sb_requests; [exact HX|]. intros x. rewrite H. split; [now left|]. intros [H'|(c & p & -> & (Nc & _ & (f & Hf & P) & _))]; [exact H'|].
    destruct Nc. apply descendants_spec in Hf; [|exact W]. apply descendants_spec; [exact W|]. destruct Hf as (c' & Hc & A). exists c'. split; [exact Hc|].
    eapply rtc_r; [exact A|]. now rewrite G in P.
Qed.
End both.

Section outcome.
Context (e : restack_env) (r : rrepo) (a : move_args) (t : oid).
Let g := he_graph (re_hide e).
Hypothesis B : squashable e r a t.
Let given := to_squash e r a t.
Let R := sb_order e r a t B.

Lemma nothing_asked d cs (X : commit_set) : squash_requests d cs t X -> (forall f, f ∉ X) -> cs = [].
Proof.
  intros Q N. destruct cs as [|x l]; [reflexivity|]. exfalso.
  destruct (proj1 (qr_in _ _ _ _ Q x) ltac:(left)) as [(f & _ & Hf)|(c & p & _ & _ & _ & (f & Hf & _) & _)]; exact (N f Hf).
Qed.
Lemma sq_opens : exists d m, open_repo (re_hide e) (rr_repo r) = Some d /\ hr_refs (rr_repo r) !! he_main (re_hide e) = Some m.
Proof. destruct (io_exists _ _ (ra_order _ _ R)) as [m Hm]. unfold open_repo. rewrite Hm. eauto. Qed.
Lemma some_given (X : commit_set) : (forall f, f ∉ X) \/ exists f, f ∈ X.
Proof. destruct (decide (X = ∅)) as [->|N]; [left; set_solver|right]. now apply set_choose_L in N. Qed.

Lemma squashed ts i : squash_comes_to e r given t (move e ts (TxId i) a r).
Proof.
  destruct sq_opens as (d & m & Op & Hm). destruct (squash_plans e r d a t B Op) as (X & HX & S & HS & H).
  assert (St : forall w, move_requests e d (hi_oid (hr_head (rr_repo r))) a = Stop w -> squash_comes_to e r given t (move e ts (TxId i) a r)).
  { intros w E. unfold squash_comes_to, move. now rewrite Op, E. }
  destruct (verify_rewrite_set d (re_force e) S) as [allowed|]; [|eauto]. destruct H as [(c & H & _)|(cs & Rq & Q)]; [eauto|].
  destruct (some_given X) as [N|Y].
  - rewrite (nothing_asked d cs X Q N) in Rq. pose proof (move_nothing e r d R Op ts (TxId i) a allowed Rq) as E. unfold squash_comes_to. rewrite E. reflexivity.
  - eapply squash_comes; eauto. exact (sb_memory e r a t B).
Qed.
Lemma squash_checked d m S : open_repo (re_hide e) (rr_repo r) = Some d -> hr_refs (rr_repo r) !! he_main (re_hide e) = Some m ->
  (forall x, (exists c, c ∈ S /\ ancestor g c x) <-> exists c, (to_squash e r a t c \/ parent g t c) /\ ancestor g c x) ->
  verify_rewrite_set d (re_force e) S = None <-> squash_public e r a t.
Proof.
  intros Op Hm HS. pose proof (dag_is e r d R Op) as G. fold g in G. pose proof (graph_wf e r R) as W. fold g in W.
  assert (Pu : forall o, public d o <-> is_public e r o).
  { intros o. rewrite (proj1 (unmerged_draft e r d m (ra_order _ _ R) Op Hm)). unfold is_public. rewrite Hm. split; [eauto|]. intros (x & [= <-] & A). exact A. }
  rewrite verify_rewrite_set_none by (rewrite G; exact W). rewrite G. unfold squash_public. fold g. setoid_rewrite Pu.
  split; (intros [F (c & o & Hc & A & P)]; split; [exact F|]).
  - destruct (proj1 (HS o) (ex_intro _ c (conj Hc A))) as (c' & Hc' & A'). eauto.
  - destruct (proj2 (HS o) (ex_intro _ c (conj Hc A))) as (c' & Hc' & A'). eauto.
Qed.
Lemma squash_ends ts i : workable e r -> sorts_up e ->
  match mv_end (move e ts (TxId i) a r) with
  | NothingToDo => ~ squash_public e r a t /\ forall f, ~ given f
  | NotMoved WouldRewritePublic => squash_public e r a t
  | NotMoved _ => False
  | _ => ~ squash_public e r a t /\ (exists f, given f) /\ squash_goes_through e r given t (move e ts (TxId i) a r)
  end.
Proof.
  intros Wk Su. destruct sq_opens as (d & m & Op & Hm). destruct (squash_plans e r d a t B Op) as (X & HX & S & HS & H).
  pose proof (dag_is e r d R Op) as G. fold g in G. pose proof (graph_wf e r R) as W. fold g in W.
  pose proof (squash_checked d m S Op Hm HS) as Ck.
  destruct (verify_rewrite_set d (re_force e) S) as [allowed|] eqn:Ev.
  2:{ unfold move. rewrite Op, H. cbn [mv_end]. now apply Ck. }
  assert (NP : ~ squash_public e r a t) by (intros P; now apply Ck in P).
  destruct H as [(c & _ & N)|(cs & Rq & Q)]; [now destruct N|].
  destruct (some_given X) as [N|Y].
  - rewrite (nothing_asked d cs X Q N) in Rq. pose proof (move_nothing e r d R Op ts (TxId i) a allowed Rq) as E. rewrite E. cbn [mv_end].
    split; [exact NP|]. intros f Hf. apply HX in Hf. exact (N f Hf).
  - assert (Go : squash_goes_through e r given t (move e ts (TxId i) a r)).
    { eapply squash_goes; eauto; [exact (sb_memory e r a t B)|]. apply verify_rewrite_set_spec in Ev; [|rewrite G; exact W]. destruct Ev as [Ev _].
      intros c x Hc A. apply Ev. rewrite G. apply HS. eauto. }
    pose proof Go as Go'. unfold squash_goes_through in Go'. destruct (mv_end (move e ts (TxId i) a r)) as [| |w| |]; try easy.
    + split; [exact NP|]. split; [|exact Go]. destruct Y as [f Hf]. exists f. now apply HX.
    + split; [exact NP|]. split; [|exact Go]. destruct Y as [f Hf]. exists f. now apply HX.
Qed.
Lemma squash_refused ts tx : squash_public e r a t -> move e ts tx a r = mk_mr r None (NotMoved WouldRewritePublic).
Proof.
  intros P. destruct sq_opens as (d & m & Op & Hm). destruct (squash_plans e r d a t B Op) as (X & HX & S & HS & H).
  apply (squash_checked d m S Op Hm HS) in P. rewrite P in H. unfold move. now rewrite Op, H.
Qed.
End outcome.

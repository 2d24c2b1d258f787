(** Proofs about the paths that differ between trees. *)
From Verif Require Import Base ModeModel TreeModel TreeSpec TreeProofs.
Local Open Scope N_scope.

Lemma gather_spec {A B} (f : A -> option (list B)) l r : gather f l = Some r ->
  forall y, y ∈ r <-> exists x ys, x ∈ l /\ f x = Some ys /\ y ∈ ys.
Proof.
  revert r. induction l as [|a l IH]; intros r H y; cbn in H.
  - injection H as <-. split; [intros H; inversion H|]. intros (x & ys & Hx & _). inversion Hx.
  - destruct (f a) as [la|] eqn:Ea; [|discriminate H].
    destruct (gather f l) as [lr|] eqn:El; [|discriminate H]. injection H as <-.
    rewrite elem_of_app, (IH lr eq_refl y). split.
    + intros [H|(x & ys & Hx & Hf & Hy)].
      * exists a, la. split; [apply elem_of_cons; left; reflexivity|]. split; [exact Ea|exact H].
      * exists x, ys. split; [apply elem_of_cons; right; exact Hx|]. split; [exact Hf|exact Hy].
    + intros (x & ys & Hx & Hf & Hy). apply elem_of_cons in Hx as [->|Hx].
      * left. congruence.
      * right. eauto.
Qed.
Lemma gather_some {A B} (f : A -> option (list B)) l : (forall x, x ∈ l -> is_Some (f x)) -> is_Some (gather f l).
Proof.
  induction l as [|a l IH]; intros H; cbn; [eauto|].
  destruct (H a) as [la Ha]; [apply elem_of_cons; left; reflexivity|].
  destruct IH as [lr Hl]; [intros x Hx; apply H, elem_of_cons; right; exact Hx|].
  rewrite Ha, Hl. eauto.
Qed.
Lemma gather_each {A B} (f : A -> option (list B)) l r : gather f l = Some r -> forall x, x ∈ l -> is_Some (f x).
Proof.
  revert r. induction l as [|a l IH]; intros r H x Hx; [inversion Hx|]. cbn in H.
  destruct (f a) as [la|] eqn:Ea; [|discriminate H].
  destruct (gather f l) as [lr|] eqn:El; [|discriminate H].
  apply elem_of_cons in Hx as [->|Hx]; [eauto|]. exact (IH _ eq_refl x Hx).
Qed.

Lemma file_at_one st t n : file_at st t [n] = match t !! n with Some x => if is_tree x then None else Some x | None => None end.
Proof. reflexivity. Qed.
Lemma file_at_cons st t n q : q <> [] ->
  file_at st t (n :: q) =
  match t !! n with
  | Some x => if is_tree x then match st !! fst x with Some t' => file_at st t' q | None => None end else None
  | None => None
  end.
Proof.
  intros Hq. destruct q as [|m q]; [congruence|]. unfold file_at at 1. rewrite entry_at_cons.
  destruct (t !! n) as [x|]; [|reflexivity]. destruct (is_tree x); [|reflexivity].
  destruct (st !! fst x); reflexivity.
Qed.
Lemma entry_at_cons_ne st t n q : q <> [] ->
  entry_at st t (n :: q) =
  match t !! n with
  | Some x => if is_tree x then match st !! fst x with Some t' => entry_at st t' q | None => None end else None
  | None => None
  end.
Proof. intros Hq. destruct q as [|m q]; [congruence|]. apply entry_at_cons. Qed.
Lemma file_at_empty st p : file_at st ∅ p = None.
Proof. unfold file_at. rewrite entry_at_empty. reflexivity. Qed.

Lemma differs_sym st l r p : differs st l r p -> differs st r l p.
Proof.
  intros [H|(a & b & H1 & H2 & H3 & H4 & H5)]; [left; congruence|]. right. exists b, a.
  split; [exact H2|]. split; [exact H1|]. split; [exact H4|]. split; [exact H3|congruence].
Qed.
Lemma differs_empty st t p : differs st t ∅ p <-> file_at st t p <> None.
Proof.
  unfold differs. rewrite file_at_empty. split; [intros [H|(a & b & _ & H & _)]|intros H; left; exact H]; [exact H|].
  rewrite entry_at_empty in H. discriminate H.
Qed.
(** What differs below a name. *)
Lemma differs_below st l r n q : q <> [] ->
  differs st l r (n :: q) <->
  differs st (match l !! n with Some x => if is_tree x then match st !! fst x with Some t => t | None => ∅ end else ∅ | None => ∅ end)
             (match r !! n with Some x => if is_tree x then match st !! fst x with Some t => t | None => ∅ end else ∅ | None => ∅ end) q.
Proof.
  intros Hq. unfold differs. rewrite !(file_at_cons st _ n q Hq), !(entry_at_cons_ne st _ n q Hq).
  assert (H : forall t : tree,
    (match t !! n with Some x => if is_tree x then match st !! fst x with Some t' => file_at st t' q | None => None end else None | None => None end
     = file_at st (match t !! n with Some x => if is_tree x then match st !! fst x with Some t => t | None => ∅ end else ∅ | None => ∅ end) q)
    /\ (match t !! n with Some x => if is_tree x then match st !! fst x with Some t' => entry_at st t' q | None => None end else None | None => None end
     = entry_at st (match t !! n with Some x => if is_tree x then match st !! fst x with Some t => t | None => ∅ end else ∅ | None => ∅ end) q)).
  { intros t. destruct (t !! n) as [x|]; [|rewrite file_at_empty, entry_at_empty; auto].
    destruct (is_tree x); [|rewrite file_at_empty, entry_at_empty; auto].
    destruct (st !! fst x); [auto|rewrite file_at_empty, entry_at_empty; auto]. }
  destruct (H l) as [-> ->], (H r) as [-> ->]. reflexivity.
Qed.
Lemma differs_same st t q : ~ differs st t t q.
Proof. intros [H|(a & b & H1 & H2 & _ & _ & H5)]; congruence. Qed.

Definition changed_ok (fuel : nat) : Prop :=
  forall st pre l r ps, changed fuel st pre l r = Some ps ->
    forall p, p ∈ ps <-> exists q, p = pre ++ q /\ q <> [] /\ differs st l r q.

(** The paths of one name. *)
Definition of_name (st : tree_store) (pre : path) (l r : tree) (n : string) (p : path) : Prop :=
  exists q, p = pre ++ n :: q /\ differs st l r (n :: q).

Lemma of_name_split st pre l r n p :
  of_name st pre l r n p <->
  (p = pre ++ [n] /\ differs st l r [n]) \/ (exists q, p = (pre ++ [n]) ++ q /\ q <> [] /\ differs st l r (n :: q)).
Proof.
  split.
  - intros (q & Hp & H). destruct q as [|m q]; [left; auto|]. right. exists (m :: q).
    split; [rewrite <- app_assoc; exact Hp|]. split; [discriminate|exact H].
  - intros [[Hp H]|(q & Hp & Hq & H)]; [exists []; auto|]. exists q. split; [rewrite Hp, <- app_assoc; reflexivity|exact H].
Qed.


(** The directory at a name, empty if there is none. *)
Definition dir_at (st : tree_store) (t : tree) (n : string) : tree :=
  match t !! n with
  | Some x => if is_tree x then match st !! fst x with Some t => t | None => ∅ end else ∅
  | None => ∅
  end.
Lemma of_name_dirs st pre l r n p :
  of_name st pre l r n p <->
  (p = pre ++ [n] /\ differs st l r [n])
  \/ (exists q, p = (pre ++ [n]) ++ q /\ q <> [] /\ differs st (dir_at st l n) (dir_at st r n) q).
Proof.
  rewrite of_name_split. split; (intros [H|(q & Hp & Hq & H)]; [left; exact H|right; exists q]);
    (split; [exact Hp|]; split; [exact Hq|]).
  - rewrite differs_below in H by exact Hq. exact H.
  - rewrite differs_below by exact Hq. exact H.
Qed.
Lemma no_diff_below st t (pre : path) p : ~ exists q, p = pre ++ q /\ q <> [] /\ differs st t t q.
Proof. intros (q & _ & _ & H). exact (differs_same _ _ _ H). Qed.

Lemma changed_spec fuel : changed_ok fuel.
Proof.
  induction fuel as [|fuel IH]; intros st pre l r ps H p; [discriminate H|].
  cbn [changed] in H. rewrite (gather_spec _ _ _ H). pose proof (gather_each _ _ _ H) as Hall. clear H.
  set (one := fun n : string => _) in *.
  assert (Hswap : forall a b c n, changed fuel st (pre ++ [n]) a b = Some c ->
    p ∈ c <-> exists q, p = (pre ++ [n]) ++ q /\ q <> [] /\ differs st b a q).
  { intros a b c n Hc. rewrite (IH _ _ _ _ _ Hc p). split; intros (q & Hp & Hq & Hd); exists q;
      (split; [exact Hp|]; split; [exact Hq|]; apply differs_sym; exact Hd). }
  assert (Hone : forall n ys, one n = Some ys -> p ∈ ys <-> of_name st pre l r n p).
  { intros n ys Hy. rewrite of_name_dirs. unfold one in Hy. cbv zeta in Hy. unfold dir_at.
    assert (Hd1 : differs st l r [n] <-> 
      (match l !! n with Some x => if is_tree x then None else Some x | None => None end)
      <> (match r !! n with Some x => if is_tree x then None else Some x | None => None end)
      \/ exists a b, l !! n = Some a /\ r !! n = Some b /\ is_tree a = true /\ is_tree b = true /\ snd a <> snd b)
      by reflexivity.
    rewrite Hd1. clear Hd1.
    destruct (l !! n) as [a|] eqn:El, (r !! n) as [b|] eqn:Er.
    - destruct (is_tree a) eqn:Ea, (is_tree b) eqn:Eb.
      + destruct (decide (fst a = fst b)) as [Ho|Ho].
        * rewrite <- Ho in *. destruct (decide (snd a = snd b)) as [Hm|Hm]; injection Hy as <-.
          -- split; [intros Hx; inversion Hx|]. intros [[_ [Hx|Hx]]|Hx].
             ++ congruence.
             ++ destruct Hx as (a' & b' & Ha & Hb & _ & _ & Hne). congruence.
             ++ exfalso. exact (no_diff_below _ _ _ _ Hx).
          -- rewrite elem_of_list_singleton. split.
             ++ intros ->. left. split; [reflexivity|]. right. exists a, b. auto.
             ++ intros [[Hx _]|Hx]; [exact Hx|]. exfalso. exact (no_diff_below _ _ _ _ Hx).
        * destruct (st !! fst a) as [ta|] eqn:Eta; [|discriminate Hy].
          destruct (st !! fst b) as [tb|] eqn:Etb; [|discriminate Hy].
          destruct (decide (snd a = snd b)) as [Hm|Hm].
          -- rewrite (IH _ _ _ _ _ Hy p). split; [intros Hx; right; exact Hx|].
             intros [[_ [Hx|Hx]]|Hx]; [congruence| |exact Hx].
             destruct Hx as (a' & b' & Ha & Hb & _ & _ & Hne). congruence.
          -- destruct (changed fuel st (pre ++ [n]) ta tb) as [c|] eqn:Ec; [|discriminate Hy]. injection Hy as <-.
             rewrite elem_of_app, elem_of_list_singleton, (IH _ _ _ _ _ Ec p). split.
             ++ intros [Hx| ->]; [right; exact Hx|]. left. split; [reflexivity|]. right. exists a, b. auto.
             ++ intros [[Hx _]|Hx]; [right; exact Hx|left; exact Hx].
      + destruct (st !! fst a) as [ta|] eqn:Eta; [|discriminate Hy].
        destruct (changed fuel st (pre ++ [n]) ta ∅) as [c|] eqn:Ec; [|discriminate Hy]. injection Hy as <-.
        rewrite elem_of_app, elem_of_list_singleton, (IH _ _ _ _ _ Ec p). split.
        * intros [Hx| ->]; [right; exact Hx|]. left. split; [reflexivity|]. left. discriminate.
        * intros [[Hx _]|Hx]; [right; exact Hx|left; exact Hx].
      + destruct (st !! fst b) as [tb|] eqn:Etb; [|discriminate Hy].
        destruct (changed fuel st (pre ++ [n]) tb ∅) as [c|] eqn:Ec; [|discriminate Hy]. injection Hy as <-.
        rewrite elem_of_app, elem_of_list_singleton, (Hswap _ _ _ _ Ec). split.
        * intros [Hx| ->]; [right; exact Hx|]. left. split; [reflexivity|]. left. discriminate.
        * intros [[Hx _]|Hx]; [right; exact Hx|left; exact Hx].
      + assert (Hno : ~ exists q, p = (pre ++ [n]) ++ q /\ q <> [] /\ differs st ∅ ∅ q) by apply no_diff_below.
        destruct (decide (a = b)) as [Hab|Hab]; injection Hy as <-.
        * split; [intros Hx; inversion Hx|]. intros [[_ [Hx|Hx]]|Hx]; [congruence| |contradiction].
          destruct Hx as (a' & b' & Ha & Hb & Ha' & _). congruence.
        * rewrite elem_of_list_singleton. split.
          -- intros ->. left. split; [reflexivity|]. left. congruence.
          -- intros [[Hx _]|Hx]; [exact Hx|contradiction].
    - destruct (is_tree a) eqn:Ea.
      + destruct (st !! fst a) as [ta|] eqn:Eta; [|discriminate Hy].
        rewrite (IH _ _ _ _ _ Hy p). split; [intros Hx; right; exact Hx|].
        intros [[_ [Hx|Hx]]|Hx]; [congruence| |exact Hx].
        destruct Hx as (a' & b' & Ha & Hb & _). congruence.
      + injection Hy as <-. rewrite elem_of_list_singleton. split.
        * intros ->. left. split; [reflexivity|]. left. discriminate.
        * intros [[Hx _]|Hx]; [exact Hx|]. exfalso. exact (no_diff_below _ _ _ _ Hx).
    - destruct (is_tree b) eqn:Eb.
      + destruct (st !! fst b) as [tb|] eqn:Etb; [|discriminate Hy].
        rewrite (Hswap _ _ _ _ Hy). split; [intros Hx; right; exact Hx|].
        intros [[_ [Hx|Hx]]|Hx]; [congruence| |exact Hx].
        destruct Hx as (a' & b' & Ha & Hb & _). congruence.
      + injection Hy as <-. rewrite elem_of_list_singleton. split.
        * intros ->. left. split; [reflexivity|]. left. discriminate.
        * intros [[Hx _]|Hx]; [exact Hx|]. exfalso. exact (no_diff_below _ _ _ _ Hx).
    - injection Hy as <-. split; [intros Hx; inversion Hx|]. intros [[_ [Hx|Hx]]|Hx]; [congruence| |].
      + destruct Hx as (a' & b' & Ha & _). congruence.
      + exfalso. exact (no_diff_below _ _ _ _ Hx). }
  split.
  - intros (n & ys & Hn & Hy & Hp). apply (Hone n ys Hy) in Hp. destruct Hp as (q & -> & Hd).
    exists (n :: q). split; [reflexivity|]. split; [discriminate|exact Hd].
  - intros (q & -> & Hq & Hd). destruct q as [|n q]; [congruence|].
    assert (Hn : n ∈ all_names l r).
    { unfold all_names. rewrite elem_of_elements, elem_of_union, !elem_of_dom.
      destruct (l !! n) as [a|] eqn:El; [left; eauto|]. destruct (r !! n) as [b|] eqn:Er; [right; eauto|].
      exfalso. destruct q as [|m q].
      - destruct Hd as [Hd|(a & b & Ha & _)]; [|cbn in Ha; congruence].
        rewrite !file_at_one, El, Er in Hd. congruence.
      - rewrite differs_below, El, Er in Hd by discriminate. exact (differs_same _ _ _ Hd). }
    destruct (Hall n Hn) as [ys Hy]. exists n, ys. split; [exact Hn|]. split; [exact Hy|].
    apply (Hone n ys Hy). exists q. auto.
Qed.

Lemma changed_paths_spec st l r ps : changed_paths st l r = Some ps ->
  NoDup ps /\ forall p, p ∈ ps <-> p <> [] /\ differs st l r p.
Proof.
  intros H. unfold changed_paths in H. destruct (changed (S (S (size st))) st [] l r) as [c|] eqn:E; [|discriminate H].
  injection H as <-. split; [apply NoDup_remove_dups|].
  intros p. rewrite elem_of_remove_dups, (changed_spec _ _ _ _ _ _ E p). split.
  - intros (q & -> & Hq & Hd). auto.
  - intros [Hp Hd]. exists p. auto.
Qed.

(** ** There is an answer *)
Definition lower (st : tree_store) (rank : oid -> nat) (k : nat) : gset oid :=
  filter (fun o => (rank o < k)%nat) (dom st : gset oid).
Lemma changed_total st rank : 
  (forall o t n x, st !! o = Some t -> t !! n = Some x -> is_tree x = true -> (rank (fst x) < rank o)%nat) ->
  (forall o t, st !! o = Some t -> closed_tree st t) ->
  forall fuel pre l r k, (size (lower st rank k) < fuel)%nat -> closed_tree st l -> closed_tree st r ->
    (forall n x, l !! n = Some x -> is_tree x = true -> (rank (fst x) < k)%nat) ->
    (forall n x, r !! n = Some x -> is_tree x = true -> (rank (fst x) < k)%nat) ->
    is_Some (changed fuel st pre l r).
Proof.
  intros Hr Hc. induction fuel as [|fuel IH]; intros pre l r k Hk Hl Hrr Hkl Hkr; [lia|].
  cbn [changed].
  assert (Hless : forall o o' : oid, (rank o' <= rank o)%nat -> (rank o < k)%nat -> is_Some (st !! o) ->
            (size (lower st rank (rank o)) < fuel)%nat).
  { intros o _ _ Ho Hst. assert (Hs : (size (lower st rank (rank o)) < size (lower st rank k))%nat); [|lia].
    apply subset_size. split.
    - intros x Hx. apply elem_of_filter in Hx as [Hx1 Hx2]. apply elem_of_filter. split; [lia|exact Hx2].
    - intros Hsub. assert (Hin : o ∈ lower st rank k) by (apply elem_of_filter; split; [exact Ho|apply elem_of_dom; exact Hst]).
      apply Hsub in Hin. apply elem_of_filter in Hin as [Hin _]. lia. }
  assert (Hsub : forall pre o t, st !! o = Some t -> (rank o < k)%nat -> is_Some (changed fuel st pre t ∅)).
  { intros pre' o t Ho Hok. apply (IH pre' t ∅ (rank o)).
    - apply (Hless o o); [lia|exact Hok|eauto].
    - exact (Hc _ _ Ho).
    - apply closed_empty.
    - intros n x Hn Hx. exact (Hr _ _ _ _ Ho Hn Hx).
    - intros n x Hn. rewrite lookup_empty in Hn. discriminate Hn. }
  apply gather_some. intros n _. cbv zeta.
  assert (Hget : forall (t : tree) x, closed_tree st t -> t !! n = Some x -> is_tree x = true -> exists t', st !! fst x = Some t').
  { intros t x Ht Hn Hx. destruct (Ht _ _ Hn Hx) as [t' H]. eauto. }
  destruct (l !! n) as [a|] eqn:El, (r !! n) as [b|] eqn:Er.
  - destruct (is_tree a) eqn:Ea, (is_tree b) eqn:Eb.
    + destruct (decide (fst a = fst b)); [destruct (decide (snd a = snd b)); eauto|].
      destruct (Hget _ _ Hl El Ea) as [ta Hta]. destruct (Hget _ _ Hrr Er Eb) as [tb Htb]. rewrite Hta, Htb.
      assert (Hboth : is_Some (changed fuel st (pre ++ [n]) ta tb)).
      { destruct (le_ge_dec (rank (fst b)) (rank (fst a))) as [Hle|Hle].
        - apply (IH _ ta tb (rank (fst a))).
          + apply (Hless _ (fst b)); [exact Hle|eauto|eauto].
          + exact (Hc _ _ Hta).
          + exact (Hc _ _ Htb).
          + intros m x Hm Hx. exact (Hr _ _ _ _ Hta Hm Hx).
          + intros m x Hm Hx. pose proof (Hr _ _ _ _ Htb Hm Hx). lia.
        - apply (IH _ ta tb (rank (fst b))).
          + apply (Hless _ (fst a)); [exact Hle|eauto|eauto].
          + exact (Hc _ _ Hta).
          + exact (Hc _ _ Htb).
          + intros m x Hm Hx. pose proof (Hr _ _ _ _ Hta Hm Hx). lia.
          + intros m x Hm Hx. exact (Hr _ _ _ _ Htb Hm Hx). }
      destruct Hboth as [c Hcc]. rewrite Hcc. destruct (decide (snd a = snd b)); cbn; eauto.
    + destruct (Hget _ _ Hl El Ea) as [ta Hta]. rewrite Hta.
      destruct (Hsub (pre ++ [n]) _ _ Hta (Hkl _ _ El Ea)) as [c Hcc]. rewrite Hcc. cbn. eauto.
    + destruct (Hget _ _ Hrr Er Eb) as [tb Htb]. rewrite Htb.
      destruct (Hsub (pre ++ [n]) _ _ Htb (Hkr _ _ Er Eb)) as [c Hcc]. rewrite Hcc. cbn. eauto.
    + destruct (decide (a = b)); eauto.
  - destruct (is_tree a) eqn:Ea; [|eauto]. destruct (Hget _ _ Hl El Ea) as [ta Hta]. rewrite Hta.
    exact (Hsub _ _ _ Hta (Hkl _ _ El Ea)).
  - destruct (is_tree b) eqn:Eb; [|eauto]. destruct (Hget _ _ Hrr Er Eb) as [tb Htb]. rewrite Htb.
    exact (Hsub _ _ _ Htb (Hkr _ _ Er Eb)).
  - eauto.
Qed.

Lemma changed_paths_total e st l r : sound e st -> grounded st -> closed_tree st l -> closed_tree st r ->
  is_Some (changed_paths st l r).
Proof.
  intros (_ & _ & Hc) [rank Hr] Hl Hrr. unfold changed_paths.
  assert (Hbound : exists k, (forall n x, l !! n = Some x -> (rank (fst x) < k)%nat)
                             /\ (forall n x, r !! n = Some x -> (rank (fst x) < k)%nat)).
  { assert (Hone : forall t : tree, exists k, forall n x, t !! n = Some x -> (rank (fst x) < k)%nat).
    { intros t. induction t as [|n x t Hn [k IH]] using map_ind.
      - exists 0%nat. intros n x H. rewrite lookup_empty in H. discriminate H.
      - exists (Nat.max (S (rank (fst x))) k). intros m y Hm. apply lookup_insert_Some in Hm as [[<- <-]|[_ Hm]]; [lia|].
        specialize (IH _ _ Hm). lia. }
    destruct (Hone l) as [k1 H1], (Hone r) as [k2 H2]. exists (Nat.max k1 k2).
    split; intros n x H; [specialize (H1 _ _ H)|specialize (H2 _ _ H)]; lia. }
  destruct Hbound as (k & Hk1 & Hk2).
  destruct (changed_total st rank Hr Hc (S (S (size st))) [] l r k) as [c Hcc].
  - assert (H : (size (lower st rank k) <= size (dom st : gset oid))%nat) by (apply subseteq_size; intros x Hx; apply elem_of_filter in Hx as [_ Hx]; exact Hx).
    rewrite size_dom in H. lia.
  - exact Hl.
  - exact Hrr.
  - eauto.
  - eauto.
  - rewrite Hcc. cbn. eauto.
Qed.

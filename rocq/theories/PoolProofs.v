(** Proofs about the pool of resources. *)
From Verif Require Import Base PoolModel PoolSpec.

Record pool_inv (s : users) : Prop := {
  pi_clean : pl_poisoned (us_pool s) = false;
  pi_users : NoDup (List.map fst (us_held s));
  pi_all : List.map snd (us_held s) ++ pl_resources (us_pool s) ≡ₚ us_made s;
  pi_made : NoDup (us_made s);
}.

Lemma acquire_cases p c : pl_poisoned p = false ->
  (exists l r, pl_resources p = l ++ [r] /\ pool_acquire p c = (Handle r, Pool l false)) \/
  (pl_resources p = [] /\ pool_acquire p c =
     match c with Made r => (Handle r, p) | Failed => (CreateError, p) | Panics => (Panicked, Pool [] true) end).
Proof.
  intros Hp. unfold pool_acquire. rewrite Hp. destruct p as [l b]. cbn in *. subst b. destruct l as [|x l _] using rev_ind.
  - right. done.
  - left. rewrite rev_app_distr. cbn. exists l, x. by rewrite rev_involutive.
Qed.

Lemma holds_none held u : holds held u = None -> u ∉ List.map fst held.
Proof.
  unfold holds. induction held as [|[v r] held IH]; cbn; intros H Hin; [by apply elem_of_nil in Hin|].
  destruct (Nat.eqb_spec v u) as [->|Hne]; [done|]. apply elem_of_cons in Hin as [->|Hin]; [done|by apply IH].
Qed.

Lemma without_id held u : u ∉ List.map fst held -> without held u = held.
Proof.
  unfold without. induction held as [|[v r] held IH]; cbn; intros H; [done|].
  apply not_elem_of_cons in H as [H1 H2]. destruct (Nat.eqb_spec v u) as [->|Hne]; [done|]. cbn. by rewrite IH.
Qed.

Lemma holds_without held u r : NoDup (List.map fst held) -> holds held u = Some r ->
  held ≡ₚ (u, r) :: without held u.
Proof.
  unfold holds, without. induction held as [|[v x] held IH]; cbn; intros Hnd H; [done|].
  apply NoDup_cons in Hnd as [Hv Hnd]. destruct (Nat.eqb_spec v u) as [->|Hne]; cbn in *.
  - injection H as ->. f_equiv. fold (without held u). by rewrite without_id.
  - rewrite (IH Hnd H) at 1. apply Permutation_swap.
Qed.

Lemma step_inv s c s' : pool_inv s -> pool_step s c s' -> pool_inv s'.
Proof.
  intros Hi Hs. destruct Hs as [p held made u c r p' Hh Ha Hnew|p held made u c p' Hh Ha|p held made u r p' Hh Hr].
  - destruct Hi as [Hc Hu Hall Hm]. cbn in *. apply holds_none in Hh.
    destruct (acquire_cases p c Hc) as [(l & x & El & Ex)|(El & Ex)]; rewrite Ex in Ha.
    + injection Ha as -> <-. rewrite El in Hall.
      assert (Hin : r ∈ made). { rewrite <- Hall. apply elem_of_app. right. apply elem_of_app. right. by left. }
      rewrite bool_decide_eq_true_2 by done. split; cbn; try done.
      * by apply NoDup_cons.
      * rewrite <- Hall. solve_Permutation.
    + destruct c as [x| |]; try discriminate Ha. injection Ha as -> <-.
      specialize (Hnew r eq_refl). rewrite bool_decide_eq_false_2 by done. split; cbn; try done.
      * by apply NoDup_cons.
      * rewrite <- Hall. solve_Permutation.
      * apply NoDup_app. split; [done|]. split; [|apply NoDup_singleton].
        intros x Hx Hx'. apply elem_of_list_singleton in Hx'. by subst.
  - destruct Hi as [Hc Hu Hall Hm]. cbn in *.
    destruct (acquire_cases p c Hc) as [(l & x & El & Ex)|(El & Ex)]; rewrite Ex in Ha; [discriminate Ha|].
    destruct c; try discriminate Ha. injection Ha as <-. by split.
  - destruct Hi as [Hc Hu Hall Hm]. cbn in *. unfold pool_release in Hr. rewrite Hc in Hr. injection Hr as <-.
    pose proof (holds_without held u r Hu Hh) as Hp. split; cbn; try done.
    + assert (H : NoDup (List.map fst ((u, r) :: without held u))) by (by rewrite <- Hp). by apply NoDup_cons in H as [_ H].
    + rewrite <- Hall. rewrite Hp at 2. cbn. solve_Permutation.
Qed.

Lemma run_inv past s : pool_run past s -> pool_inv s.
Proof.
  induction 1 as [|past s c s' _ IH Hs]; [|by eapply step_inv].
  split; cbn; try done; apply NoDup_nil_2.
Qed.

Lemma made_grows s c s' : pool_inv s -> pool_step s c s' ->
  us_made s' = us_made s \/
  (exists u r, c = Acquire u (Made r) /\ us_made s' = us_made s ++ [r] /\
     pl_resources (us_pool s) = [] /\ length (us_held s') = length (us_made s')).
Proof.
  intros Hi Hs. pose proof (step_inv s c s' Hi Hs) as Hi'.
  destruct Hs as [p held made u c r p' Hh Ha Hnew|p held made u c p' Hh Ha|p held made u r p' Hh Hr]; [|by left|by left].
  cbn. destruct (decide (r ∈ made)) as [Hin|Hin].
  - left. by rewrite bool_decide_eq_true_2.
  - right. rewrite bool_decide_eq_false_2 in * by done.
    destruct Hi as [Hc Hu Hall Hm]. cbn in *. destruct (acquire_cases p c Hc) as [(l & x & El & Ex)|(El & Ex)]; rewrite Ex in Ha.
    + exfalso. injection Ha as -> <-. apply Hin. rewrite <- Hall, El. apply elem_of_app. right. apply elem_of_app. right. by left.
    + destruct c as [x| |]; try discriminate Ha. injection Ha as -> <-. exists u, r. split; [done|]. split; [done|]. split; [done|].
      pose proof (pi_all _ Hi') as H. cbn in H. rewrite El, app_nil_r in H. apply Permutation_length in H. cbn in H.
      rewrite map_length in H. lia.
Qed.

Lemma made_bound past s : pool_run past s ->
  (forall s0, s0 ∈ past ++ [s] -> (length (us_held s0) <= length (us_made s))%nat) /\
  exists s0, s0 ∈ past ++ [s] /\ length (us_held s0) = length (us_made s).
Proof.
  induction 1 as [|past s c s' Hr [IH1 (s0 & IH2 & IH3)] Hs].
  - split.
    + intros s0 H. apply elem_of_list_singleton in H as ->. cbn. lia.
    + eexists. split; [by apply elem_of_list_singleton|done].
  - pose proof (run_inv past s Hr) as Hi. pose proof (step_inv s c s' Hi Hs) as Hi'.
    assert (Hle : (length (us_held s') <= length (us_made s'))%nat).
    { pose proof (Permutation_length (pi_all _ Hi')) as H. rewrite app_length, map_length in H. lia. }
    destruct (made_grows s c s' Hi Hs) as [He|(u & r & _ & He & _ & Hlen)].
    + rewrite He. split.
      * intros x Hx. apply elem_of_app in Hx as [Hx|Hx]; [by apply IH1|].
        apply elem_of_list_singleton in Hx as ->. by rewrite <- He.
      * exists s0. split; [|done]. apply elem_of_app. by left.
    + split.
      * intros x Hx. apply elem_of_app in Hx as [Hx|Hx].
        -- apply IH1 in Hx. rewrite He, app_length. lia.
        -- by apply elem_of_list_singleton in Hx as ->.
      * exists s'. split; [|done]. apply elem_of_app. right. by apply elem_of_list_singleton.
Qed.

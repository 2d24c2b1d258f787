(** Properties C95, C96, C97, C98, C99: submitting to GitHub. *)
From stdpp Require Import pretty.
From Verif Require Import Base TextModel EventLogModel DagModel DagSpec DagProofs DagCompProofs ExecModel SubmitModel SubmitSpec SubmitProofs SubmitProps GithubModel GithubSpec GithubProofs GithubDoneProofs GithubNewProofs GithubNameProofs.
Local Open Scope string_scope.
Local Open Scope list_scope.

(** ** Examples *)
Definition newest (g : graph) (s : commit_set) : list oid := rev (dag_sort g s) ++ elements (s ∖ vertices g).
Lemma descendant_known g a b : wf_graph g -> proper_ancestor g a b -> b ∈ vertices g.
Proof. intros W H. induction H as [a b H|a b c _ _ IH]; [now apply (parent_vertices g a b W)|exact IH]. Qed.
Lemma newest_ok e : wf_graph (dag_graph (he_dag e)) -> he_order e = newest (dag_graph (he_dag e)) -> newest_first e.
Proof.
  intros W E. set (g := dag_graph (he_dag e)) in *. split.
  - intros s. rewrite E. unfold newest. split.
    + apply NoDup_app. split; [|split].
      * apply NoDup_ListNoDup, NoDup_rev, NoDup_ListNoDup. now apply dag_sort_nodup.
      * intros c Hc H. rewrite elem_of_list_In, <- in_rev, <- elem_of_list_In in Hc. apply dag_sort_mem in Hc as [_ Hc]. apply elem_of_elements, elem_of_difference in H as [_ H]. contradiction.
      * apply NoDup_elements.
    + intros c. rewrite elem_of_app, elem_of_elements, elem_of_difference, (elem_of_list_In (rev _)), <- in_rev, <- elem_of_list_In, dag_sort_mem.
      destruct (decide (c ∈ vertices g)); tauto.
  - intros s i j a b Ha Hb Pa. destruct (Nat.lt_trichotomy i j) as [L|[->|L]]; [| |exact L]; exfalso.
    + assert (S : Sorted.StronglySorted (fun x y => ~ proper_ancestor g x y) (rev (dag_sort g s))).
      { apply (ss_rev (fun x y => ~ proper_ancestor g y x)). apply ss_of_split. intros l1 x l2 y l3 El. now apply (dag_sort_order g _ _ _ _ _ _ W El). }
      assert (Vb := descendant_known g a b W Pa). rewrite E in Ha, Hb. unfold newest in Ha, Hb.
      apply lookup_app_Some in Hb as [Hb|[_ Hb]].
      * rewrite lookup_app_l in Ha by (apply lookup_lt_Some in Hb; lia). exact (ss_lookup _ _ i j a b S Ha Hb L Pa).
      * apply elem_of_list_lookup_2, elem_of_elements, elem_of_difference in Hb as [_ Hb]. contradiction.
    + rewrite Ha in Hb. injection Hb as ->. now apply wf_acyclic in Pa.
Qed.

Local Open Scope N_scope.
Definition gh_graph : graph := [(1, []); (2, [1]); (3, [2]); (4, [3])].
Lemma gh_graph_wf : wf_graph gh_graph.
Proof. unfold gh_graph, wf_graph. cbn. split_and!; set_solver. Qed.
Definition gh_dag : dag := mk_dag gh_graph {[4]} {[1]} {[1]} {[2; 3; 4]} ∅.
Definition letters (s : string) : list N := List.map Ascii.N_of_ascii (list_ascii_of_string s).
Definition unletters (l : list N) : string := string_of_list_ascii (List.map Ascii.ascii_of_N l).
Definition ascii_alnum (c : N) : bool := ((48 <=? c) && (c <=? 57)) || ((65 <=? c) && (c <=? 90)) || ((97 <=? c) && (c <=? 122)).
Definition ascii_lower (c : N) : list N := if (65 <=? c) && (c <=? 90) then [c + 32] else [c].
Definition gh_summary (o : oid) : string := match o with 2 => "Add a" | 3 => "Add (b), too!" | _ => "Fix c" end.
Definition gh_env (resolved : list (string * option string)) : hub_env :=
  mk_he su_env gh_dag (newest gh_graph) ascii_alnum ascii_lower unletters (fun o => letters (gh_summary o)) gh_summary (Some "me") resolved
    (fun _ => true) (fun _ => true) (fun _ => true) (fun _ => true) (fun k => "https://x/" +:+ pretty k) "master".
Definition gh_state (bs extra : list (string * oid)) (prs : list (string * pull_request)) (last : N) : hub :=
  mk_hub (mk_srepo (list_to_map (List.map (fun b => (local (fst b), snd b)) (bs ++ extra) ++ List.map (fun b => (tracking "origin" (fst b), snd b)) bs))
            (list_to_map (List.map (fun b => (fst b, tracks "origin" (fst b))) bs)) (list_to_map [("origin", list_to_map bs)]))
    (list_to_map prs) last.
Definition gh_three : hub := gh_state [("master", 1); ("a", 2); ("b", 3); ("c", 4)] []
  [("a", mk_pr 1 "https://x/1" "a" 2 "master" "old" ""); ("b", mk_pr 2 "https://x/2" "b" 2 "master" "old" ""); ("c", mk_pr 3 "https://x/3" "c" 2 "master" "old" "")] 3.
Definition gh_one : hub := gh_state [("master", 1); ("a", 2)] []
  [("a", mk_pr 1 "https://x/1" "a" 2 "master" "[1/1] Add a" (body_of (gh_env []) [(2, mk_pr 1 "https://x/1" "a" 2 "" "" "")] 2))] 1.
Local Close Scope N_scope.
Ltac each H := apply elem_of_list_to_map_2 in H; cbn in H; repeat (apply elem_of_cons in H as [H|H]; [try discriminate H; injection H; intros; subst|]); try (now apply elem_of_nil in H).
Lemma gh_usual_three : usual (gh_env []) gh_three.
Proof.
  constructor.
  - exact gh_graph_wf.
  - intros n c H. each H; (exists "origin"; split; [reflexivity|]; split; [apply origin_plain|]; split; [discriminate|eexists; vm_compute; reflexivity]).
  - intros n o H. each H; decide_it.
  - intros n [c H]. each H; eexists; vm_compute; reflexivity.
  - intros n n' o H H' _. each H; each H'; reflexivity.
  - intros m p H. each H; reflexivity.
  - intros m p m' p' H H' E. each H; each H'; cbn in E; congruence.
  - intros m p H. each H; vm_compute; discriminate.
Qed.
Lemma gh_usual_one r : usual (gh_env r) gh_one.
Proof.
  constructor.
  - exact gh_graph_wf.
  - intros n c H. each H; (exists "origin"; split; [reflexivity|]; split; [apply origin_plain|]; split; [discriminate|eexists; vm_compute; reflexivity]).
  - intros n o H. each H; decide_it.
  - intros n [c H]. each H; eexists; vm_compute; reflexivity.
  - intros n n' o H H' _. each H; each H'; reflexivity.
  - intros m p H. each H; reflexivity.
  - intros m p m' p' H H' E. each H; each H'; cbn in E; congruence.
  - intros m p H. each H; vm_compute; discriminate.
Qed.
Lemma gh_drafts r (s : commit_set) : s ⊆ {[2; 3; 4]}%N -> drafts (gh_env r) s.
Proof.
  intros S o Ho. apply S in Ho. rewrite !elem_of_union, !elem_of_singleton in Ho.
  assert (D : o ∈ draft_commits gh_dag /\ o ∈ vertices gh_graph) by (destruct Ho as [[->| ->]| ->]; split; decide_it).
  split; [apply D|]. apply (draft_spec gh_dag o gh_graph_wf). apply D.
Qed.
Definition gh_new : hub := gh_state [("master", 1%N)] [] [] 7%N.
Lemma gh_usual_new r : usual (gh_env r) gh_new.
Proof.
  constructor.
  - exact gh_graph_wf.
  - intros n c H. each H; (exists "origin"; split; [reflexivity|]; split; [apply origin_plain|]; split; [discriminate|eexists; vm_compute; reflexivity]).
  - intros n o H. each H; decide_it.
  - intros n [c H]. each H; eexists; vm_compute; reflexivity.
  - intros n n' o H H' _. each H; each H'; reflexivity.
  - intros m p H. each H.
  - intros m p m' p' H. each H.
  - intros m p H. each H.
Qed.
Lemma gh_here : requests_here gh_new /\ requests_here gh_one.
Proof.
  split; intros m p H; each H. exists 2%N. split; [|split]; [vm_compute; reflexivity| |vm_compute; reflexivity].
  exists "origin", 2%N. split; [|vm_compute; reflexivity]. exists (tracks "origin" "a"). split; [vm_compute; reflexivity|right; auto].
Qed.
Lemma gh_to h : sr_config (hb_repo h) !! "master" = Some (tracks "origin" "master") -> pushes_new_to (gh_env []) h "origin".
Proof.
  intros H. split; [left; exists (tracks "origin" "master"); split; [exact H|right; auto]|]. split; [apply origin_plain|]. split; [discriminate|]. right. intros x Hx. now apply elem_of_nil in Hx.
Qed.

(** ** C95: the base of a pull request *)
Theorem c95_farthest e commits h : usual e h -> drafts e commits -> newest_first e ->
  let res := submit_hub e false false commits h in hr_ok res = true ->
  forall o n p, o ∈ commits -> pr_for (hr_hub res) o n p -> base_is e (hr_hub res) (farthest e (hr_hub res) o) o (pr_base p).
Proof.
  intros U Dr Or. cbn zeta. intros Ok o n p Ho Hp. destruct (plain_after e commits h U Dr) as (U' & De & Pr). destruct (submit_plain e commits h U Dr) as [R _].
  destruct (proj2 (pr_for_view h _ o n (re_view _ _ _ _ _ R) (re_face _ _ _ _ _ R)) p Hp) as (q & _ & Hq & _).
  pose proof (Pr Ok o n q Ho Hq) as E. destruct Hp as (A & B & C). rewrite E in C. injection C as <-. rewrite <- De.
  destruct (Dr o Ho) as (_ & V & P). apply (says e _ o n (edited (desc e h o) q) q U' V P); [|exact Or]. now split.
Qed.
(** If at most one commit below has a pull request, the base is that of the nearest. *)
Theorem c95_base_partial e commits h : usual e h -> drafts e commits -> newest_first e ->
  let res := submit_hub e false false commits h in hr_ok res = true ->
  forall o n p, o ∈ commits -> pr_for (hr_hub res) o n p ->
  (forall a b q q', below e (hr_hub res) o a q -> below e (hr_hub res) o b q' -> a = b) ->
  base_is e (hr_hub res) (nearest e (hr_hub res) o) o (pr_base p).
Proof.
  intros U Dr Or. cbn zeta. intros Ok o n p Ho Hp One. destruct (c95_farthest e commits h U Dr Or Ok o n p Ho Hp) as [(a & q & Ba & _ & E)|H]; [left|right; exact H].
  exists a, q. split; [exact Ba|]. split; [|exact E]. intros b q' Bb Pa. rewrite (One a b q q' Ba Bb) in Pa. now apply wf_acyclic in Pa; [|apply U].
Qed.
(** It would be that of the nearest in any case if the graph library gave parents first. *)
Theorem c95_if_oldest_first e commits h : usual e h -> drafts e commits -> oldest_first e ->
  let res := submit_hub e false false commits h in hr_ok res = true ->
  forall o n p, o ∈ commits -> pr_for (hr_hub res) o n p -> base_is e (hr_hub res) (nearest e (hr_hub res) o) o (pr_base p).
Proof.
  intros U Dr Or. cbn zeta. intros Ok o n p Ho Hp. destruct (plain_after e commits h U Dr) as (U' & De & Pr). destruct (submit_plain e commits h U Dr) as [R _].
  destruct (proj2 (pr_for_view h _ o n (re_view _ _ _ _ _ R) (re_face _ _ _ _ _ R)) p Hp) as (q & _ & Hq & _).
  pose proof (Pr Ok o n q Ho Hq) as E. destruct Hp as (A & B & C). rewrite E in C. injection C as <-. rewrite <- De.
  destruct (Dr o Ho) as (_ & V & P). apply (says e _ o n (edited (desc e h o) q) q U' V P); [|exact Or]. now split.
Qed.
(** In a stack of three the base of the topmost is the branch of the bottommost. *)
Lemma gh_parent a b : (a, b) ∈ [(1, 2); (2, 3); (3, 4)]%N -> parent gh_graph a b.
Proof.
  intros H. repeat (apply elem_of_cons in H as [H|H]; [injection H as -> ->|]); [..|now apply elem_of_nil in H]; (eexists; split; [|left]); unfold gh_graph; [right; left|right; right; left|right; right; right; left].
Qed.
Theorem c95_nearest_refuted : exists e commits h o n p, usual e h /\ drafts e commits /\ newest_first e /\
  let res := submit_hub e false false commits h in hr_ok res = true /\ o ∈ commits /\ pr_for (hr_hub res) o n p /\
  ~ base_is e (hr_hub res) (nearest e (hr_hub res) o) o (pr_base p).
Proof.
  exists (gh_env []), {[2; 3; 4]}%N, gh_three, 4%N, "c".
  set (res := submit_hub (gh_env []) false false {[2; 3; 4]}%N gh_three). set (h' := hr_hub res).
  destruct (hb_prs h' !! "c") as [p|] eqn:E; [|exfalso; vm_compute in E; discriminate]. exists p.
  split; [exact gh_usual_three|]. split; [now apply gh_drafts|]. split; [apply newest_ok; [exact gh_graph_wf|reflexivity]|]. cbn zeta. fold res. fold h'.
  assert (On : forall n v, sr_config (hb_repo h') !! n = Some (tracks "origin" n) -> sr_refs (hb_repo h') !! tracking "origin" n = Some v -> on_remote h' n).
  { intros n v Hc Hv. exists "origin", v. split; [exists (tracks "origin" n); split; [exact Hc|right; auto]|exact Hv]. }
  assert (La : at_commit h' "a" 2%N) by (vm_compute; reflexivity).
  assert (Lb : at_commit h' "b" 3%N /\ on_remote h' "b") by (split; [vm_compute; reflexivity|apply (On "b" 3%N); vm_compute; reflexivity]).
  assert (Lc : at_commit h' "c" 4%N /\ on_remote h' "c") by (split; [vm_compute; reflexivity|apply (On "c" 4%N); vm_compute; reflexivity]).
  split; [vm_compute; reflexivity|]. split; [decide_it|]. split; [split; [|split; [|exact E]]; apply Lc|].
  assert (Eb : pr_base p = "a") by (vm_compute in E; injection E as <-; reflexivity).
  destruct (hb_prs h' !! "b") as [pb|] eqn:Fb; [|exfalso; vm_compute in Fb; discriminate].
  assert (Bb : below (gh_env []) h' 4%N 3%N pb).
  { split; [apply tc_once, gh_parent; right; right; left|]. split; [apply (draft_spec gh_dag 3%N gh_graph_wf); decide_it|]. exists "b". split; [|split; [|exact Fb]]; apply Lb. }
  intros [(a & q & (Pa & Np & m & (Am & _ & Hm)) & Near & Eq)|(None_ & _)]; [|now apply None_ in Bb].
  rewrite Eb in Eq. assert (m = "a") as ->.
  { assert (K : pr_head_name q = m) by (apply (us_keyed (gh_env []) h'); [|exact Hm]; apply (plain_after (gh_env []) {[2; 3; 4]}%N gh_three gh_usual_three); now apply gh_drafts). congruence. }
  assert (a = 2%N) as -> by (unfold at_commit in *; congruence).
  apply (Near 3%N pb Bb). apply tc_once, gh_parent. right. left.
Qed.

Lemma gh_below a b : proper_ancestor gh_graph a b -> (1 <= a < b)%N.
Proof.
  assert (P : forall x y, parent gh_graph x y -> (1 <= x < y)%N).
  { intros x y (ps & H & I). unfold gh_graph in H. repeat (apply elem_of_cons in H as [H|H]; [injection H as -> ->; apply elem_of_list_singleton in I || (now apply elem_of_nil in I); subst; lia|]). now apply elem_of_nil in H. }
  intros H. induction H as [x y H|x y z H _ IH]; [now apply P|]. apply P in H. lia.
Qed.
Example c95_example : let res := submit_hub (gh_env []) false false {[2; 3]}%N gh_three in
  usual (gh_env []) gh_three /\ drafts (gh_env []) {[2; 3]}%N /\ newest_first (gh_env []) /\ hr_ok res = true /\
  (forall a b q q', below (gh_env []) (hr_hub res) 3%N a q -> below (gh_env []) (hr_hub res) 3%N b q' -> a = b) /\
  pr_base <$> hb_prs (hr_hub res) !! "b" = Some "a" /\ pr_base <$> hb_prs (hr_hub res) !! "a" = Some "master".
Proof.
  intros res. split; [exact gh_usual_three|]. split; [apply gh_drafts; set_solver|]. split; [apply newest_ok; [exact gh_graph_wf|reflexivity]|]. split; [vm_compute; reflexivity|]. split; [|subst res; computed].
  assert (T : forall a q, below (gh_env []) (hr_hub res) 3%N a q -> a = 2%N).
  { intros a q (Pa & Np & _). apply gh_below in Pa. destruct (decide (a = 1%N)) as [->|]; [|lia]. exfalso. apply Np. exists 1%N. split; [decide_it|apply rtc_refl]. }
  intros a b q q' Ha Hb. apply T in Ha, Hb. congruence.
Qed.

(** ** C96: titles and bodies *)
Theorem c96_text e commits h : usual e h -> drafts e commits ->
  let res := submit_hub e false false commits h in hr_ok res = true ->
  exists list, stack_lists e (hr_hub res) list /\
    forall o n p, o ∈ commits -> pr_for (hr_hub res) o n p -> title_says e (list o) o (pr_title p) /\ body_says e (list o) o (pr_body p).
Proof.
  intros U Dr. cbn zeta. intros Ok. destruct (plain_after e commits h U Dr) as (U' & De & Pr). destruct (submit_plain e commits h U Dr) as [R _].
  exists (stack_list e (hr_hub (submit_hub e false false commits h))). split; [now apply stack_list_ok|]. intros o n p Ho Hp.
  destruct (proj2 (pr_for_view h _ o n (re_view _ _ _ _ _ R) (re_face _ _ _ _ _ R)) p Hp) as (q & _ & Hq & _).
  pose proof (Pr Ok o n q Ho Hq) as E. pose proof Hp as (A & B & C). rewrite E in C. injection C as <-. rewrite <- De in *.
  destruct (Dr o Ho) as (_ & V & P). destruct (says e _ o n _ q U' V P Hp) as [_ T Y _ _]. auto.
Qed.
(** In a stack with pull requests the numbers follow the commits. *)
Definition numbered (i k : nat) (s : string) : string := "[" +:+ pretty (N.of_nat i) +:+ "/" +:+ pretty (N.of_nat k) +:+ "] " +:+ s.
Theorem c96_numbers e commits h : usual e h -> drafts e commits ->
  let res := submit_hub e false false commits h in hr_ok res = true ->
  forall a b n m p q, a ∈ commits -> b ∈ commits -> pr_for (hr_hub res) a n p -> pr_for (hr_hub res) b m q ->
  proper_ancestor (dag_graph (he_dag e)) a b -> (forall c, in_stack (he_dag e) a c <-> in_stack (he_dag e) b c) ->
  exists i j k, 1 <= i < j /\ j <= k /\ pr_title p = numbered i k (he_encode e (he_summary e a)) /\ pr_title q = numbered j k (he_encode e (he_summary e b)).
Proof.
  intros U Dr. cbn zeta. intros Ok a b n m p q Ha Hb Hp Hq Pa St. destruct (c96_text e commits h U Dr Ok) as (list & [L S] & T).
  destruct (T a n p Ha Hp) as [(i & p1 & Hi & Ei) _]. destruct (T b m q Hb Hq) as [(j & q1 & Hj & Ej) _]. rewrite (S a b St) in *.
  pose proof (sl_order _ _ _ _ (L b) i j a b p1 q1 Hi Hj Pa) as Lt. apply lookup_lt_Some in Hj as Lj. exists (Datatypes.S i), (Datatypes.S j), (length (list b)). split_and!; auto; lia.
Qed.
Example c96_example : let res := submit_hub (gh_env []) false false {[2; 3; 4]}%N gh_three in
  usual (gh_env []) gh_three /\ drafts (gh_env []) {[2; 3; 4]}%N /\ hr_ok res = true /\
  pr_title <$> hb_prs (hr_hub res) !! "a" = Some "[1/3] Add a" /\ pr_title <$> hb_prs (hr_hub res) !! "b" = Some "[2/3] Add (b), too!" /\
  pr_title <$> hb_prs (hr_hub res) !! "c" = Some "[3/3] Fix c" /\ pr_head <$> hb_prs (hr_hub res) !! "c" = Some 4%N.
Proof. intros res. subst res. split; [exact gh_usual_three|]. split; [now apply gh_drafts|]. computed. Qed.

(** ** C97: updating *)
Theorem c97_updates e commits h : usual e h -> drafts e commits ->
  let res := submit_hub e false false commits h in hr_ok res = true ->
  forall o n p, o ∈ commits -> pr_for h o n p -> exists p', pr_for (hr_hub res) o n p' /\ same_request p p' /\ pr_head p' = o /\
    ((n ∈ hr_skipped res /\ p' = p) \/
     (n ∈ hr_updated res /\ exists remote, pushes_to (hb_repo h) n remote /\ remote_branch (sr_remotes (hb_repo (hr_hub res))) remote n = Some o)).
Proof.
  intros U Dr. cbn zeta. intros Ok o n p Ho Hp. destruct (plain_after e commits h U Dr) as (U' & De & Pr). destruct (submit_plain e commits h U Dr) as [R Rep].
  destruct (Rep Ok) as (_ & _ & _ & Up & Sk & _). exists (edited (desc e h o) p).
  destruct (proj1 (pr_for_view h _ o n (re_view _ _ _ _ _ R) (re_face _ _ _ _ _ R)) p Hp) as (q & Eq & Hq & _). pose proof (Pr Ok o n p Ho Hp) as E. rewrite E in Eq. injection Eq as <-.
  split; [exact Hq|]. split; [apply edited_same|]. split; [reflexivity|]. destruct (decide (edited (desc e h o) p = p)) as [Es|Es].
  - left. split; [apply Sk; eauto|exact Es].
  - right. assert (St : stale e commits h o n p) by (split_and!; auto). split; [apply Up; eauto|]. pose proof Hp as (A & (remote & v & Pt & _) & _). exists remote. split; [exact Pt|].
    apply (pk_remote _ _ _ _ _ (re_pushed_ok _ _ _ _ _ R Ok) remote n o); [eauto|exact A|]. now apply (pushes_own _ _ _ (usual_own _ _ U) Pt).
Qed.
(** Nothing else is changed, even if it fails. *)
Theorem c97_only e commits h : usual e h -> drafts e commits ->
  let res := submit_hub e false false commits h in let h' := hr_hub res in
  (forall n o, at_commit h' n o <-> at_commit h n o) /\ (forall n, sr_config (hb_repo h') !! n = sr_config (hb_repo h) !! n) /\
  (forall m, (forall o, o ∈ commits -> ~ at_commit h m o) -> hb_prs h' !! m = hb_prs h !! m) /\
  (forall m, is_Some (hb_prs h' !! m) <-> is_Some (hb_prs h !! m)) /\
  (forall remote n, remote_branch (sr_remotes (hb_repo h')) remote n = remote_branch (sr_remotes (hb_repo h)) remote n \/
    exists o, o ∈ commits /\ at_commit h n o /\ pushes_to (hb_repo h) n remote /\ remote_branch (sr_remotes (hb_repo h')) remote n = Some o) /\
  (hr_ok res = false -> hr_submitted res = [] /\ hr_updated res = [] /\ hr_skipped res = [] /\ hr_unsubmitted res = []).
Proof.
  intros U Dr. cbn zeta. destruct (submit_plain e commits h U Dr) as [[V F L P K Q QK] _].
  split; [|split; [exact (sv_config _ _ V)|split; [|split; [|split]]]].
  - intros n o. unfold at_commit. split; intros H; rewrite <- H; [symmetry|]; apply (sv_local _ _ V n).
  - intros m N. destruct (Q m) as [E|(o & (p & Ho & (A & _) & _) & _)]; [exact E|]. now apply N in A.
  - intros m. specialize (F m). destruct (hb_prs h !! m), (hb_prs _ !! m); try contradiction; split; intros [x Hx]; try discriminate; eauto.
  - intros remote n. destruct (pu_remote _ _ _ _ _ P remote n) as [E|(((o & p & Ho & (A & _) & _) & Pt) & _ & c & Hc & E & _)]; [now left|]. right. exists o. split_and!; auto.
    assert (c = o) as <-; [|exact E]. unfold at_commit in A. unfold local in Hc. congruence.
  - unfold submit_hub. destruct (query_hub e commits h); [|auto]. cbn. destruct (update_hub _ _ _ _) as [h2 []]; [discriminate|auto].
Qed.
Theorem c97_again e commits h : usual e h -> drafts e commits ->
  let res := submit_hub e false false commits h in hr_ok res = true ->
  let res' := submit_hub e false false commits (hr_hub res) in
  hr_hub res' = hr_hub res /\ hr_ok res' = true /\ hr_updated res' = [] /\
  (forall n, n ∈ hr_skipped res' <-> exists o p, o ∈ commits /\ pr_for h o n p) /\ (forall n, n ∈ hr_unsubmitted res' <-> n ∈ hr_unsubmitted res).
Proof.
  intros U Dr. cbn zeta. intros Ok. destruct (plain_again e commits h U Dr Ok) as (A & B & C & D). split; [exact A|]. split; [exact B|]. split; [|exact D].
  destruct (hr_updated _) as [|n l]; [reflexivity|]. exfalso. apply (C n). left.
Qed.
Theorem c97_dry_run e create_ commits h : hr_hub (submit_hub e create_ true commits h) = h.
Proof. unfold submit_hub. destruct (query_hub e commits h); [|reflexivity]. rewrite andb_false_r. reflexivity. Qed.
Example c97_example : let res := submit_hub (gh_env []) false false {[2; 3]}%N gh_one in
  usual (gh_env []) gh_one /\ drafts (gh_env []) {[2; 3]}%N /\ hr_ok res = true /\ hr_skipped res = ["a"] /\ hr_updated res = [] /\
  hr_updated (submit_hub (gh_env []) false false {[2; 3; 4]}%N gh_three) = ["a"; "b"; "c"] /\
  remote_branch (sr_remotes (hb_repo (hr_hub (submit_hub (gh_env []) false false {[4]}%N gh_three)))) "origin" "c" = Some 4%N.
Proof. intros res. subst res. split; [apply gh_usual_one|]. split; [apply gh_drafts; set_solver|]. computed. Qed.

(** ** C98: the names of new branches *)
Theorem c98_slug alnum lower summary : alnum hyphen = false -> lower hyphen = [hyphen] -> exists ws,
  words_of ws (plain_text alnum lower summary) /\ summary_slug alnum lower summary = (match ws with [] => to_review | _ => hyphenated ws end).
Proof. exact (slug_spec alnum lower summary). Qed.
Theorem c98_name e user o r : let base := user +:+ "/" +:+ he_encode e (summary_slug (he_alnum e) (he_lower e) (he_summary e o)) in
  match new_branch e user o r with
  | Some (n, r') => exists k, (1 <= k <= 5)%N /\ n = candidate base k /\ ~ taken r n /\ (forall j, (1 <= j < k)%N -> taken r (candidate base j)) /\
      he_branch_ok e n = true /\ sr_config r' = sr_config r /\ sr_remotes r' = sr_remotes r /\
      forall b : refname, sr_refs r' !! b = if decide (b = "refs/heads/" +:+ n) then Some o else sr_refs r !! b
  | None => (forall k, (1 <= k <= 5)%N -> taken r (candidate base k)) \/
      exists k, (1 <= k <= 5)%N /\ ~ taken r (candidate base k) /\ he_branch_ok e (candidate base k) = false
  end.
Proof. exact (new_branch_cases e user o r). Qed.
Example c98_example : ascii_alnum hyphen = false /\ ascii_lower hyphen = [hyphen] /\
  unletters (summary_slug ascii_alnum ascii_lower (letters "--Add (b), too!")) = "add-b-too" /\
  unletters (summary_slug ascii_alnum ascii_lower (letters " ... ")) = "to-review" /\
  option_map fst (new_branch (gh_env []) "me" 2%N (hb_repo (gh_state [] [("me/add-a", 3%N); ("me/add-a-2", 4%N)] [] 0%N))) = Some "me/add-a-3".
Proof. computed. Qed.

(** ** C99: new pull requests *)
Theorem c99_created e commits h remote : usual e h -> drafts e commits -> requests_here h -> pushes_new_to e h remote ->
  let res := submit_hub e true false commits h in let h' := hr_hub res in hr_ok res = true ->
  usual e h' /\ exists list, stack_lists e h' list /\
  (forall o, o ∈ commits -> (forall n p, ~ pr_for h o n p) -> exists n p, pr_for h' o n p /\ described e h' list o p /\ (hb_last h < pr_number p)%N /\ pr_head p = o /\
    remote_branch (sr_remotes (hb_repo h')) remote n = Some o /\ n ∈ hr_submitted res /\ (at_commit h n o \/ ((forall m, ~ at_commit h m o) /\ ~ taken (hb_repo h) n))) /\
  (forall o n p, o ∈ commits -> pr_for h o n p -> exists p', pr_for h' o n p' /\ same_request p p' /\ pr_head p' = o /\
    ((n ∈ hr_skipped res /\ p' = p) \/
     (n ∈ hr_updated res /\ described e h' list o p' /\ exists there, pushes_to (hb_repo h) n there /\ remote_branch (sr_remotes (hb_repo h')) there n = Some o))) /\
  (forall n, n ∈ hr_submitted res -> exists o, o ∈ commits /\ (forall m p, ~ pr_for h o m p) /\ at_commit h' n o).
Proof.
  intros U Dr Rh Pn. cbn zeta. intros Ok. destruct (submit_new e commits h remote U Dr Rh Pn) as (_ & _ & _ & S). destruct (S Ok) as (U' & New & Old & Same & Sub). split; [exact U'|].
  set (h' := hr_hub (submit_hub e true false commits h)) in *. exists (stack_list e h'). split; [now apply stack_list_ok|]. split; [|split].
  - intros o Ho Np. destruct (New o (conj Ho Np)) as (n & p & q & Hp & Ep & L & R & In & Nm). exists n, p. split; [exact Hp|]. destruct (Dr o Ho) as (_ & V & P). split; [rewrite Ep; now apply (says e h' o n p)|]. split; [exact L|]. split; [rewrite Ep; reflexivity|]. auto.
  - intros o n p Ho Hp. destruct (decide (edited (desc e h o) p = p)) as [E|E].
    + destruct (Same o n p Ho Hp E) as [In Hp']. exists p. split; [exact Hp'|]. split; [unfold same_request; auto|]. split; [rewrite <- E; reflexivity|]. left. auto.
    + destruct (Old o n p) as (In & there & Pt & R & Hp'); [split_and!; auto|]. exists (edited (desc e h' o) p). split; [exact Hp'|]. split; [apply edited_same|]. split; [reflexivity|]. right. split; [exact In|].
      destruct (Dr o Ho) as (_ & V & P). split; [exact (says e h' o n _ p U' V P Hp')|]. eauto.
  - intros n H. destruct (Sub n H) as (o & [Ho Np] & A). eauto.
Qed.
(** Whatever happens, branches stay where they are, pull requests keep their number and branch,
    and nothing is done for commits not given. *)
Theorem c99_only e commits h remote : usual e h -> drafts e commits -> requests_here h -> pushes_new_to e h remote ->
  let h' := hr_hub (submit_hub e true false commits h) in
  (forall n o, at_commit h n o -> at_commit h' n o) /\
  (forall n o, at_commit h' n o -> at_commit h n o \/ (~ taken (hb_repo h) n /\ o ∈ commits)) /\
  (forall there n, remote_branch (sr_remotes (hb_repo h')) there n = remote_branch (sr_remotes (hb_repo h)) there n \/
    exists o, o ∈ commits /\ at_commit h' n o /\ remote_branch (sr_remotes (hb_repo h')) there n = Some o) /\
  (forall m p, hb_prs h !! m = Some p -> exists p', hb_prs h' !! m = Some p' /\ same_request p p' /\ (p' = p \/ exists o, o ∈ commits /\ at_commit h m o)) /\
  (forall m p, hb_prs h' !! m = Some p -> hb_prs h !! m = None -> exists o, o ∈ commits /\ at_commit h' m o).
Proof.
  intros U Dr Rh Pn. cbn zeta. destruct (submit_new e commits h remote U Dr Rh Pn) as ((A & B & C) & P & N & _). split; [exact A|]. split; [|split; [|split; [exact P|exact N]]].
  - intros n o H. destruct (B n o H) as [H'|[Fr G]]; [now left|right]. split; [|exact G]. intros [v Hv]. unfold local in Fr. congruence.
  - intros y n. destruct (C y n) as [E|(o & G & H & E)]; [now left|right]. exists o. auto.
Qed.
Example c99_example : let res := submit_hub (gh_env []) true false {[2; 3; 4]}%N gh_new in
  usual (gh_env []) gh_new /\ drafts (gh_env []) {[2; 3; 4]}%N /\ requests_here gh_new /\ pushes_new_to (gh_env []) gh_new "origin" /\ hr_ok res = true /\
  hr_submitted res = ["me/add-a"; "me/add-b-too"; "me/fix-c"] /\ pr_title <$> hb_prs (hr_hub res) !! "me/add-b-too" = Some "[2/3] Add (b), too!" /\
  pr_number <$> hb_prs (hr_hub res) !! "me/add-b-too" = Some 9%N /\ remote_branch (sr_remotes (hb_repo (hr_hub res))) "origin" "me/fix-c" = Some 4%N.
Proof.
  intros res. subst res. split; [apply gh_usual_new|]. split; [now apply gh_drafts|]. split; [apply gh_here|]. split; [apply gh_to; vm_compute; reflexivity|]. computed.
Qed.
(** A pull request that was up to date is not told of a new one on top of it ... *)
Theorem c99_told_refuted : exists e commits h remote o n p, usual e h /\ drafts e commits /\ requests_here h /\ pushes_new_to e h remote /\
  let res := submit_hub e true false commits h in hr_ok res = true /\ o ∈ commits /\ hb_prs (hr_hub res) !! n = Some p /\ at_commit (hr_hub res) n o /\
  pr_title p = "[1/1] Add a" /\ (pr_title <$> hb_prs (hr_hub res) !! "me/add-b-too" = Some "[2/2] Add (b), too!") /\
  hr_updated (submit_hub e false false commits (hr_hub res)) = [n].
Proof.
  exists (gh_env []), {[2; 3]}%N, gh_one, "origin", 2%N, "a".
  destruct (hb_prs gh_one !! "a") as [p|] eqn:E; [|vm_compute in E; discriminate]. exists p.
  split; [apply gh_usual_one|]. split; [apply gh_drafts; set_solver|]. split; [apply gh_here|]. split; [apply gh_to; vm_compute; reflexivity|]. cbn zeta.
  split; [vm_compute; reflexivity|]. split; [decide_it|]. split; [rewrite <- E; vm_compute; reflexivity|]. split; [vm_compute; reflexivity|].
  split; [vm_compute in E; injection E as <-; reflexivity|]. computed.
Qed.
(** ... a commit with two branches, one of which has a pull request, may get another ... *)
Definition gh_two : hub := gh_state [("master", 1%N); ("a", 2%N)] [("z", 2%N)] [("a", mk_pr 1 "https://x/1" "a" 2 "master" "[1/1] Add a" "")] 1.
Theorem c99_one_refuted : exists e commits h o p, drafts e commits /\ requests_here h /\ pushes_new_to e h "origin" /\ o ∈ commits /\
  pr_for h o "a" p /\ let res := submit_hub e true false commits h in hr_ok res = true /\ at_commit (hr_hub res) "a" o /\ at_commit (hr_hub res) "z" o /\
  is_Some (hb_prs (hr_hub res) !! "a") /\ is_Some (hb_prs (hr_hub res) !! "z").
Proof.
  exists (gh_env []), {[2]}%N, gh_two, 2%N, (mk_pr 1 "https://x/1" "a" 2 "master" "[1/1] Add a" "").
  assert (Hp : forall p, hb_prs gh_two !! "a" = Some p -> pr_for gh_two 2%N "a" p).
  { intros p E. split; [vm_compute; reflexivity|]. split; [|exact E]. exists "origin", 2%N. split; [|vm_compute; reflexivity]. exists (tracks "origin" "a"). split; [vm_compute; reflexivity|right; auto]. }
  split; [apply gh_drafts; set_solver|]. split.
  { intros m p H. pose proof H as H'. each H. exists 2%N. now apply Hp. }
  split; [apply gh_to; vm_compute; reflexivity|]. split; [decide_it|]. split; [apply Hp; vm_compute; reflexivity|]. cbn zeta.
  split; [vm_compute; reflexivity|]. split; [vm_compute; reflexivity|]. split; [vm_compute; reflexivity|]. split; eexists; vm_compute; reflexivity.
Qed.
(** ... and with GitHub's remote known but no remote to push to by default it fails, leaving a new
    branch behind. *)
Definition gh_lost : hub := mk_hub (mk_srepo (list_to_map [("refs/heads/master", 1%N)]) ∅ (list_to_map [("origin", list_to_map [("master", 1%N)])])) ∅ 0.
Theorem c99_remote_refuted : exists e commits h, usual e h /\ drafts e commits /\ hub_remote e (hb_repo h) = Some "origin" /\
  let res := submit_hub e true false commits h in hr_ok res = false /\ ~ taken (hb_repo h) "me/add-a" /\ at_commit (hr_hub res) "me/add-a" 2%N /\ hb_prs (hr_hub res) = ∅.
Proof.
  exists (gh_env [("origin", Some "base")]), {[2; 3]}%N, gh_lost. split.
  { constructor.
    - exact gh_graph_wf.
    - intros n c H. discriminate.
    - intros n o H. each H; decide_it.
    - intros n [c H]. discriminate.
    - intros n n' o H H' _. each H; each H'; reflexivity.
    - intros m p H. discriminate.
    - intros m p m' p' H. discriminate.
    - intros m p H. discriminate. }
  split; [apply gh_drafts; set_solver|]. split; [reflexivity|]. cbn zeta. split; [vm_compute; reflexivity|]. split; [intros [v H]; vm_compute in H; discriminate|]. split; vm_compute; reflexivity.
Qed.

Print Assumptions c95_farthest.
Print Assumptions c95_base_partial.
Print Assumptions c95_if_oldest_first.
Print Assumptions c95_nearest_refuted.
Print Assumptions c96_text.
Print Assumptions c96_numbers.
Print Assumptions c97_updates.
Print Assumptions c97_only.
Print Assumptions c97_again.
Print Assumptions c97_dry_run.
Print Assumptions c98_slug.
Print Assumptions c98_name.
Print Assumptions c99_created.
Print Assumptions c99_only.
Print Assumptions c99_told_refuted.
Print Assumptions c99_one_refuted.
Print Assumptions c99_remote_refuted.

(** * C87 and C88: what submitting pushes, and what it says. *)
From Verif Require Import Base TextModel EventLogModel DagModel ExecModel SubmitModel SubmitSpec SubmitProofs.
Local Open Scope string_scope.
Local Open Scope list_scope.

(** ** A repository *)
Ltac computed := repeat simple refine (conj _ _); vm_compute; reflexivity.
Local Open Scope N_scope.
Definition su_env : submit_env := mk_sv "master" None (fun a b => a <? b) (fun _ _ _ => true) (fun rs => rs).
Definition tracks (remote n : string) : branch_config := mk_bc None (Some remote) (Some n).
Definition su_refs : gmap refname oid :=
  list_to_map [("refs/heads/master", 1); ("refs/heads/feature", 5); ("refs/heads/other", 6); ("refs/heads/done", 7);
               ("refs/remotes/origin/master", 1); ("refs/remotes/origin/feature", 4); ("refs/remotes/origin/done", 7)].
Definition su_config : gmap string branch_config :=
  list_to_map [("master", tracks "origin" "master"); ("feature", tracks "origin" "feature"); ("done", tracks "origin" "done")].
Definition su_start (feature : oid) : srepo :=
  mk_srepo su_refs su_config (list_to_map [("origin", list_to_map [("master", 1); ("feature", feature); ("done", 7)])]).
Definition su_commits : commit_set := list_to_set [5; 6; 7].
Lemma su_pushes f n remote : pushes_to (su_start f) n remote -> remote = "origin".
Proof.
  intros (c & E & H). change (sr_config (su_start f)) with su_config in E. unfold su_config in E.
  apply elem_of_list_to_map_2 in E. repeat (apply elem_of_cons in E as [E|E]; [injection E as _ ->; cbn in H; destruct H as [H|[_ H]]; congruence|]). now apply elem_of_nil in E.
Qed.
Lemma origin_plain : plain_name "origin".
Proof.
  intros a b. do 6 (destruct a as [|? a]; cbn; [intros H; discriminate|intros H; injection H as ? H; revert H]). destruct a; intros H; discriminate.
Qed.
Lemma su_plain f : plain_setting su_env (su_start f).
Proof.
  split.
  - intros n remote H. rewrite (su_pushes f n remote H). apply origin_plain.
  - intros remote [H|[_ H]]; [rewrite (su_pushes f _ remote H); apply origin_plain|discriminate].
Qed.
Local Close Scope N_scope.

(** ** C87: what is pushed *)
Theorem c87_only e create_ dry_run commits r : plain_setting e r ->
  let res := submit e create_ dry_run commits r in
  forall remote n,
  let before := remote_branch (sv_meanwhile e (sr_remotes r)) remote n in
  let after := remote_branch (sr_remotes (su_repo res)) remote n in
  after = before \/
  (dry_run = false /\ exists o r0, alone e commits r n o /\ after = Some o /\ fetched e commits r r0 /\ sv_accepts e remote n o = true /\
    ((create_ = true /\ new_go_to e r remote /\ no_upstream r0 n /\ forall v, before = Some v -> sv_forward e v o = true) \/
     (pushes_to r n remote /\ (exists u, upstream r0 n u /\ u <> o) /\ is_Some before /\ before = remote_branch (sr_remotes r) remote n))).
Proof. intros PS res remote n. exact (submit_only e create_ dry_run commits r PS remote n). Qed.
Theorem c87_no_create e dry_run commits r : plain_setting e r ->
  let res := submit e false dry_run commits r in
  forall remote n, is_Some (remote_branch (sr_remotes (su_repo res)) remote n) <-> is_Some (remote_branch (sv_meanwhile e (sr_remotes r)) remote n).
Proof.
  intros PS res remote n. destruct (c87_only e false dry_run commits r PS remote n) as [E|(_ & o & r0 & _ & E & _ & _ & [(H & _)|(_ & _ & S & _)])];
    [unfold res; now rewrite E|discriminate|]. unfold res. rewrite E. split; [intros _; exact S|eauto].
Qed.
Theorem c87_dry e create_ commits r : plain_setting e r ->
  let res := submit e create_ true commits r in
  (forall remote n, remote_branch (sr_remotes (su_repo res)) remote n = remote_branch (sv_meanwhile e (sr_remotes r)) remote n) /\
  (forall n, sr_config (su_repo res) !! n = sr_config r !! n).
Proof.
  intros PS res. split.
  - intros remote n. destruct (c87_only e create_ true commits r PS remote n) as [E|(H & _)]; [exact E|discriminate].
  - intros n. destruct (submit_here e create_ true commits r PS) as (_ & C & _). destruct (C n) as [E|(_ & H & _)]; [exact E|discriminate].
Qed.
(** Nothing here changes but what is known of the remotes and, for branches that were pushed for
    the first time, their upstreams. *)
Theorem c87_here e create_ dry_run commits r : plain_setting e r ->
  let res := submit e create_ dry_run commits r in
  (forall b : refname, (forall remote n, b <> "refs/remotes/" +:+ remote +:+ "/" +:+ n) -> sr_refs (su_repo res) !! b = sr_refs r !! b) /\
  (forall n, sr_config (su_repo res) !! n = sr_config r !! n \/
    (create_ = true /\ dry_run = false /\ exists o remote, alone e commits r n o /\ new_go_to e r remote /\
      sr_config (su_repo res) !! n = Some (mk_bc (match sr_config r !! n with Some b => bc_push b | None => None end) (Some remote) (Some n)))) /\
  (forall remote n, plain_name remote -> let b : refname := "refs/remotes/" +:+ remote +:+ "/" +:+ n in
    sr_refs (su_repo res) !! b = sr_refs r !! b \/
    sr_refs (su_repo res) !! b = remote_branch (sr_remotes r) remote n \/
    sr_refs (su_repo res) !! b = remote_branch (sr_remotes (su_repo res)) remote n).
Proof. intros PS. exact (submit_here e create_ dry_run commits r PS). Qed.

(** The fetch right before a push is also what the push is checked against: what others put at
    the remote before is lost, though nothing here has ever shown it. *)
Theorem c87_overwrite_refuted : exists e commits r n o v, plain_setting e r /\
  sr_refs r !! (("refs/remotes/origin/" +:+ n) : refname) <> Some v /\
  remote_branch (sr_remotes r) "origin" n = Some v /\ sv_forward e v o = false /\
  let res := submit e false false commits r in
  su_ok res = true /\ su_updated res = [n] /\ remote_branch (sr_remotes (su_repo res)) "origin" n = Some o.
Proof.
  exists su_env, su_commits, (su_start 9%N), "feature", 5%N, 9%N. split; [apply su_plain|].
  split; [decide_it|]. split; [decide_it|]. split; [decide_it|]. intros res. subst res. computed.
Qed.

Example c87_example : let res := submit su_env true false su_commits (su_start 4%N) in
  plain_setting su_env (su_start 4%N) /\ su_ok res = true /\
  remote_branch (sr_remotes (su_repo res)) "origin" "feature" = Some 5%N /\
  remote_branch (sr_remotes (su_repo res)) "origin" "other" = Some 6%N /\
  remote_branch (sr_remotes (su_repo res)) "origin" "master" = Some 1%N /\
  sr_config (su_repo res) !! "other" = Some (tracks "origin" "other") /\
  remote_branch (sr_remotes (su_repo (submit su_env true true su_commits (su_start 4%N)))) "origin" "feature" = Some 4%N /\
  remote_branch (sr_remotes (su_repo (submit su_env false false su_commits (su_start 4%N)))) "origin" "other" = None.
Proof. intros res. subst res. split; [apply su_plain|]. computed. Qed.
(** What others push after the fetch is left alone. *)
Definition su_race : submit_env := mk_sv "master" None (fun a b => (a <? b)%N) (fun _ _ _ => true) (fun rs => set_remote "origin" "feature" 9%N rs).
Example c87_race : let res := submit su_race true false su_commits (su_start 4%N) in
  su_ok res = false /\ remote_branch (sr_remotes (su_repo res)) "origin" "feature" = Some 9%N /\
  remote_branch (sr_remotes (su_repo res)) "origin" "other" = Some 6%N.
Proof. intros res. subst res. computed. Qed.

(** ** C88: what is said *)
Theorem c88_reported e create_ dry_run commits r : plain_setting e r ->
  let res := submit e create_ dry_run commits r in
  (su_ok res = false -> su_submitted res = [] /\ su_updated res = [] /\ su_skipped res = [] /\ su_unsubmitted res = []) /\
  (su_ok res = true -> exists r0, fetched e commits r r0 /\ forall n,
    (n ∈ su_submitted res <-> create_ = true /\ exists o, alone e commits r n o /\ no_upstream r0 n) /\
    (n ∈ su_unsubmitted res <-> create_ = false /\ exists o, alone e commits r n o /\ no_upstream r0 n) /\
    (n ∈ su_skipped res <-> exists o, alone e commits r n o /\ upstream r0 n o) /\
    (n ∈ su_updated res <-> exists o, alone e commits r n o /\ exists u, upstream r0 n u /\ u <> o)).
Proof. intros PS. exact (submit_reported e create_ dry_run commits r PS). Qed.
Theorem c88_pushed_partial e create_ commits r : plain_setting e r ->
  let res := submit e create_ false commits r in
  su_ok res = true ->
  (forall n, n ∈ su_submitted res -> exists o remote, alone e commits r n o /\ new_go_to e r remote /\
    (remote <> "." -> remote_branch (sr_remotes (su_repo res)) remote n = Some o /\ upstream (su_repo res) n o)) /\
  (forall n, n ∈ su_updated res -> exists o remote, alone e commits r n o /\ pushes_to r n remote /\
    (remote <> "." -> remote_branch (sr_remotes (su_repo res)) remote n = Some o)).
Proof. intros PS res Ok. exact (submit_pushed e create_ false commits r PS Ok eq_refl). Qed.
Theorem c88_again_partial e create_ commits r : plain_setting e r -> (forall rs, sv_meanwhile e rs = rs) -> own_upstreams e commits r ->
  let res := submit e create_ false commits r in
  su_ok res = true -> (create_ = true -> ~ new_go_to e r ".") ->
  let res' := submit e create_ false commits (su_repo res) in
  su_ok res' = true /\ su_submitted res' = [] /\ su_updated res' = [] /\
  forall remote n, remote_branch (sr_remotes (su_repo res')) remote n = remote_branch (sr_remotes (su_repo res)) remote n.
Proof. intros PS Q Own res Ok N. exact (submit_again e create_ commits r PS Q Own Ok N). Qed.

(** A branch whose upstream is a local branch: said to be updated, each time, and pushed
    nowhere. *)
Definition su_local : srepo :=
  mk_srepo (list_to_map [(("refs/heads/master" : refname), 1%N); ("refs/heads/feature", 5%N)]) (list_to_map [("feature", tracks "." "master")])
    (list_to_map [("origin", list_to_map [("master", 1%N)])]).
Theorem c88_local_refuted : exists e commits r n, 
  let res := submit e true false commits r in
  su_ok res = true /\ su_updated res = [n] /\ (forall remote, remote_branch (sr_remotes (su_repo res)) remote n = None) /\
  su_updated (submit e true false commits (su_repo res)) = [n].
Proof.
  exists (mk_sv "master" (Some "origin") (fun _ _ => true) (fun _ _ _ => true) (fun rs => rs)), {[5%N]}, su_local, "feature". intros res.
  split; [vm_compute; reflexivity|]. split; [vm_compute; reflexivity|]. split; [|subst res; vm_compute; reflexivity]. intros remote.
  assert (E : sr_remotes (su_repo res) = sr_remotes su_local) by (apply (bool_decide_unpack _); vm_compute; exact Logic.I).
  rewrite E. unfold remote_branch. destruct (sr_remotes su_local !! remote) as [b|] eqn:Eb; [|reflexivity].
  assert (Hb : b = list_to_map [("master", 1%N)]).
  { change (sr_remotes su_local) with (list_to_map (M := gmap string (gmap string oid)) [("origin", list_to_map [("master", 1%N)])]) in Eb.
    apply elem_of_list_to_map_2, elem_of_list_singleton in Eb. congruence. }
  rewrite Hb. reflexivity.
Qed.
(** Two branches at a commit: neither is pushed and neither is mentioned. *)
Theorem c88_shared_refuted : exists e commits r o, plain_setting e r /\ o ∈ commits /\
  given e commits r "other" o /\ given e commits r "twin" o /\
  let res := submit e true false commits r in
  su_ok res = true /\ remote_branch (sr_remotes (su_repo res)) "origin" "other" = None /\ remote_branch (sr_remotes (su_repo res)) "origin" "twin" = None /\
  su_submitted res ++ su_updated res ++ su_skipped res ++ su_unsubmitted res = [].
Proof.
  exists su_env, {[6%N]}, (mk_srepo (<[("refs/heads/twin" : refname) := 6%N]> su_refs) su_config (sr_remotes (su_start 4%N))), 6%N.
  split; [exact (su_plain 4%N)|]. split; [set_solver|]. split; [split; [decide_it|split; [set_solver|discriminate]]|].
  split; [split; [decide_it|split; [set_solver|discriminate]]|]. intros res. subst res. computed.
Qed.
(** A branch made from a remote branch of another name has that as its upstream: nothing can be
    submitted then, with [--create] neither. *)
Theorem c88_tracking_main_refuted : exists e commits r, plain_setting e r /\ alone e commits r "other" 6%N /\ no_upstream (su_start 4%N) "other" /\
  sr_config r = <["other" := tracks "origin" "master"]> (sr_config (su_start 4%N)) /\
  su_ok (submit e true false commits (su_start 4%N)) = true /\ su_ok (submit e true false commits r) = false.
Proof.
  exists su_env, {[5%N; 6%N]}, (mk_srepo su_refs (<["other" := tracks "origin" "master"]> su_config) (sr_remotes (su_start 4%N))).
  assert (P : forall n remote, pushes_to (mk_srepo su_refs (<["other" := tracks "origin" "master"]> su_config) (sr_remotes (su_start 4%N))) n remote -> remote = "origin").
  { intros n remote (c & E & H). cbn in E. apply lookup_insert_Some in E as [[_ <-]|[_ E]]; [cbn in H; destruct H as [H|[_ H]]; congruence|].
    apply (su_pushes 4%N n). now exists c. }
  split; [|split; [|split; [|split; [|split]]]].
  - split; [intros n remote H; rewrite (P n remote H); apply origin_plain|]. intros remote [H|[_ H]]; [rewrite (P _ remote H); apply origin_plain|discriminate].
  - split; [split; [decide_it|split; [set_solver|discriminate]]|]. intros n' (E & _ & _).
    change (su_refs !! (("refs/heads/" +:+ n') : refname) = Some 6%N) in E. unfold su_refs in E. apply elem_of_list_to_map_2 in E. repeat (apply elem_of_cons in E as [E|E]; [first [exfalso; injection E as E E'; discriminate E'|injection E as E; exact E]|]). now apply elem_of_nil in E.
  - apply no_upstream_spec. vm_compute. reflexivity.
  - reflexivity.
  - vm_compute. reflexivity.
  - vm_compute. reflexivity.
Qed.

Example c88_example : let res := submit su_env true false su_commits (su_start 4%N) in
  own_upstreams su_env su_commits (su_start 4%N) /\ ~ new_go_to su_env (su_start 4%N) "." /\
  su_ok res = true /\ su_submitted res = ["other"] /\ su_updated res = ["feature"] /\ su_skipped res = ["done"] /\ su_unsubmitted res = [] /\
  su_unsubmitted (submit su_env false false su_commits (su_start 4%N)) = ["other"].
Proof.
  intros res. split; [|split].
  - intros n o c _ E. change (sr_config (su_start 4%N)) with su_config in *. unfold su_config in E. apply elem_of_list_to_map_2 in E.
    exists "origin". split; [discriminate|].
    repeat (apply elem_of_cons in E as [E|E]; [injection E as -> ->; split; [eexists; split; [reflexivity|right; split; reflexivity]|split; reflexivity]|]).
    now apply elem_of_nil in E.
  - intros [H|[_ H]]; [apply su_pushes in H; discriminate|discriminate].
  - subst res. computed.
Qed.

Print Assumptions c87_only.
Print Assumptions c87_no_create.
Print Assumptions c87_dry.
Print Assumptions c87_here.
Print Assumptions c87_overwrite_refuted.
Print Assumptions c88_reported.
Print Assumptions c88_pushed_partial.
Print Assumptions c88_again_partial.
Print Assumptions c88_local_refuted.
Print Assumptions c88_shared_refuted.
Print Assumptions c88_tracking_main_refuted.

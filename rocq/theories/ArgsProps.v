(** Property C125: the names of commands. *)
From Verif Require Import Base StrModel StrProofs Utf8Model TextModel TextProofs HookProofs PlanModel ExecModel ArgsModel ArgsSpec ArgsProofs.
Local Open Scope string_scope.
Local Open Scope list_scope.

(** Called as git-branchless-X, from wherever, the program does what git-branchless X
    does, with the same arguments.  Missing: links to hooks, see
    [c125_hook_link_refuted]. *)
Theorem c125_link_partial : forall p q x rest, program p ("git-branchless-" +:+ x) -> program q "git-branchless" ->
  utf8 ("git-branchless-" +:+ x) = true -> (forall y, x <> "hook-" +:+ y) ->
  rewrite_args (p :: rest) = "git-branchless" :: x :: rest /\ rewrite_args (q :: x :: rest) = "git-branchless" :: x :: rest.
Proof.
  intros p q x rest P Q U H. split.
  - rewrite (rewrite_program _ _ _ P U) by discriminate. unfold named_args. rewrite strip_prefix_app. reflexivity.
  - rewrite (rewrite_program _ _ _ Q eq_refl) by discriminate. cbn [named_args strip_prefix Ascii.eqb Bool.eqb].
    change (strip_prefix "git-branchless-" "git-branchless") with (@None string). cbn [hook_args String.eqb].
    unfold to_str. destruct (utf8 x); [|reflexivity]. by rewrite (strip_prefix_none _ _ H).
Qed.

(** The name of a hook may be written as one word or as two. *)
Theorem c125_hook : forall q x rest, program q "git-branchless" -> utf8 ("hook-" +:+ x) = true ->
  rewrite_args (q :: ("hook-" +:+ x) :: rest) = "git-branchless" :: "hook" :: x :: rest /\
  rewrite_args (q :: "hook" :: x :: rest) = "git-branchless" :: "hook" :: x :: rest.
Proof.
  intros q x rest Q U. split; rewrite (rewrite_program _ _ _ Q eq_refl) by discriminate; [|reflexivity].
  unfold named_args. change (strip_prefix "git-branchless-" "git-branchless") with (@None string). cbn match.
  unfold hook_args, to_str. change (String.eqb "git-branchless" "git-branchless") with true. cbn match. rewrite U.
  by rewrite strip_prefix_app.
Qed.

(** Whatever the program is called, nothing is lost of the arguments after the first, and
    the first is changed only if it names a hook. *)
Theorem c125_arguments : forall p a rest, exists pre, rewrite_args (p :: a :: rest) = pre ++ rest /\
  (last pre = Some a \/ exists x, a = "hook-" +:+ x /\ pre = ["git-branchless"; "hook"; x]).
Proof.
  intros p a rest. cbn [rewrite_args]. destruct (file_name p) as [n|]; [|by exists [p; a]; auto].
  destruct (to_str n) as [n'|]; [|by exists [p; a]; auto]. unfold named_args.
  destruct (strip_prefix "git-branchless-" n') as [x|] eqn:E.
  - apply strip_prefix_inv in E. subst n'. exists ["git-branchless"; x; a]. split; [reflexivity|by left].
  - cbn [hook_args]. destruct (String.eqb_spec n' "git-branchless") as [->|]; [|by exists [n'; a]; auto].
    unfold to_str. destruct (utf8 a); [|by exists ["git-branchless"; a]; auto].
    destruct (strip_prefix "hook-" a) as [x|] eqn:E2; [|by exists ["git-branchless"; a]; auto].
    apply strip_prefix_inv in E2. exists ["git-branchless"; "hook"; x]. split; [reflexivity|]. right. exists x. auto.
Qed.

(** What a plan tells Git to run is one of the hooks there are, with the commit of the
    plan as argument. *)
Theorem c125_plan : forall c line q, program q "git-branchless" -> to_rebase_command c = Some line ->
  forall args, split_on " " line = "exec" :: "git" :: "branchless" :: args ->
  exists x rest, rewrite_args (q :: args) = "git-branchless" :: "hook" :: x :: rest /\ x ∈ hook_names /\
    (rest = [] \/ exists o, rest = [oid_to_string o] /\ (c = DetectEmpty o \/ c = SkipUpstream o)).
Proof.
  intros c line q Q H args E.
  assert (G : forall w rest x, "hook-" +:+ x = w -> utf8 w = true ->
    rewrite_args (q :: w :: rest) = "git-branchless" :: "hook" :: x :: rest).
  { intros w rest x <- U. exact (proj1 (c125_hook q x rest Q U)). }
  destruct c as [l|t|a [|b [|b' bs]]|o ts|a r ps| | |o|o]; cbn [to_rebase_command] in H; try discriminate H; injection H as <-;
    try discriminate E; rewrite ?sapp_cons, ?sapp_nil in E; cbn [split_on Ascii.eqb Bool.eqb] in E; try discriminate E.
  - injection E as <-. eexists "register-extra-post-rewrite-hook", []. split; [by apply G|]. split; [decide_it|by left].
  - rewrite (split_on_plain " " (oid_to_string o)) in E by apply hex_space. injection E as <-.
    exists "detect-empty-commit", [oid_to_string o]. split; [by apply G|]. split; [decide_it|]. right. eauto.
  - rewrite (split_on_plain " " (oid_to_string o)) in E by apply hex_space. injection E as <-.
    exists "skip-upstream-applied-commit", [oid_to_string o]. split; [by apply G|]. split; [decide_it|]. right. eauto.
Qed.

(** Not so for a link to a hook: its name is taken apart only once, so it names a command
    that does not exist, though the same words given separately are understood. *)
Theorem c125_hook_link_refuted : exists p x rest, program p ("git-branchless-hook-" +:+ x) /\ x ∈ hook_names /\
  rewrite_args (p :: rest) = "git-branchless" :: ("hook-" +:+ x) :: rest /\
  rewrite_args (p :: rest) <> rewrite_args ("git-branchless" :: ("hook-" +:+ x) :: rest) /\
  rewrite_args (rewrite_args (p :: rest)) = "git-branchless" :: "hook" :: x :: rest.
Proof.
  exists "/usr/bin/git-branchless-hook-post-commit", "post-commit", [].
  split; [split; [decide_it|right; by exists "/usr/bin"]|]. split; [decide_it|].
  split; [vm_compute; reflexivity|]. split; [vm_compute; discriminate|vm_compute; reflexivity].
Qed.

Example c125_example :
  program "/usr/local/bin/git-branchless-smartlog" ("git-branchless-" +:+ "smartlog") /\ program "git-branchless" "git-branchless" /\
  rewrite_args ["/usr/local/bin/git-branchless-smartlog"; "-r"; "hook-x"] = ["git-branchless"; "smartlog"; "-r"; "hook-x"] /\
  rewrite_args ["./git-branchless"; "hook-post-checkout"; "3"; "2"; "1"] = ["git-branchless"; "hook"; "post-checkout"; "3"; "2"; "1"] /\
  rewrite_args ["bin/.."; "a"] = ["bin/.."; "a"] /\ rewrite_args ["/opt/other"; "hook-x"] = ["other"; "hook-x"].
Proof.
  split; [split; [decide_it|right; by exists "/usr/local/bin"]|]. split; [split; [decide_it|by left]|].
  split_and!; vm_compute; reflexivity.
Qed.

Print Assumptions c125_link_partial.
Print Assumptions c125_hook.
Print Assumptions c125_arguments.
Print Assumptions c125_plan.
Print Assumptions c125_hook_link_refuted.

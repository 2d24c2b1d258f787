(** C128: the command that [git test] runs, and its advice on how to name one *)
From Verif Require Import Base StatusModel TestAliasModel TestAliasSpec TestAliasProofs.
Local Open Scope string_scope.
Local Open Scope list_scope.

Lemma default_good : good_alias "default".
Proof.
  exists [], "d"%char, (list_ascii_of_string "efault"). split_and!; [split_and!; [reflexivity|decide_it|by left]|decide_it| |apply not_elem_of_nil].
  intros x Hx. left. revert x Hx. apply list.Forall_forall. decide_it.
Qed.

(** Where advice is given, following it helps: [git config] takes the key, and with the
    same options the command that was set is run. *)
Theorem c128_advice_partial : forall cfg shell exec alias interactive key command,
  resolve_command cfg shell exec alias interactive = Advice key ->
  (forall a, alias = Some a -> good_alias a) ->
  exists cfg', git_config cfg key command = Some cfg' /\
    resolve_command cfg' shell exec alias interactive = Command command.
Proof.
  intros cfg shell exec alias interactive key command H G.
  assert (X : forall al, good_alias (match al with Some a => a | None => "default" end) -> resolve_alias cfg al = Advice key ->
    exists cfg', git_config cfg key command = Some cfg' /\ resolve_alias cfg' al = Command command).
  { intros al A R. unfold resolve_alias in R. destruct (config_get cfg (alias_key al)); [done|]. injection R as <-.
    assert (K : exists k, normal_key true (alias_key al) = Some k) by (apply good_key in A; by destruct al).
    destruct K as [k K]. unfold git_config. rewrite K. eexists. split; [done|]. unfold resolve_alias, config_get.
    rewrite (normal_weaker _ _ K), lookup_insert. done. }
  unfold resolve_command in *. destruct exec as [x|], alias as [a|]; try done.
  - apply X; [by apply G|done].
  - destruct interactive, shell; try done; apply X; try done; apply default_good.
Qed.

(** [git config] takes the key exactly for the names that its documentation allows. *)
Theorem c128_good : forall a, good_alias a <-> forall cfg command, git_config cfg (alias_key (Some a)) command <> None.
Proof.
  intros a. rewrite good_key. unfold git_config. split; [by intros [k ->]|].
  intros H. specialize (H ∅ ""). destruct (normal_key true (alias_key (Some a))) as [k|]; [by exists k|done].
Qed.

(** So the advice is wrong for a name such as [my_test]: it is given whatever is
    configured, and [git config] refuses the key. *)
Theorem c128_advice_refuted : exists a, forall cfg shell interactive command,
  exists key, resolve_command cfg shell None (Some a) interactive = Advice key /\ git_config cfg key command = None.
Proof.
  exists "my_test". intros cfg shell interactive command. eexists. split; [reflexivity|]. reflexivity.
Qed.

(** Setting the command for one alias changes that of no other, where aliases that
    differ in the case of letters after the last dot are the same. *)
Theorem c128_others : forall cfg a command cfg' shell interactive b,
  git_config cfg (alias_key (Some a)) command = Some cfg' ->
  (same_alias a b -> resolve_command cfg' shell None (Some b) interactive = Command command) /\
  (~ same_alias a b -> resolve_command cfg' shell None (Some b) interactive = resolve_command cfg shell None (Some b) interactive).
Proof.
  intros cfg a command cfg' shell interactive b H. unfold git_config in H.
  destruct (normal_key true (alias_key (Some a))) as [k|] eqn:K; [|done]. injection H as <-.
  cbn [resolve_command]. unfold resolve_alias, config_get. split.
  - intros S. rewrite <- (normal_same false _ _ S), (normal_weaker _ _ K), lookup_insert. done.
  - intros S. destruct (normal_key false (alias_key (Some b))) as [k'|] eqn:K'; [|done].
    destruct (decide (k = k')) as [->|N]; [|by rewrite lookup_insert_ne]. destruct S. by apply (same_normal true false _ _ k').
Qed.

(** A command given is the one run; so is the shell, in interactive mode without a
    command; otherwise what is run is configured.  Nothing is run only if nothing is. *)
Theorem c128_run : forall cfg shell exec alias interactive command,
  exec = None \/ alias = None ->
  resolve_command cfg shell exec alias interactive = Command command <->
  (exec = Some command \/
   (exec = None /\ alias = None /\ interactive = true /\ shell = Some command) \/
   (exec = None /\ ~ (alias = None /\ interactive = true /\ shell <> None) /\
    config_get cfg (alias_prefix ++ list_ascii_of_string (default "default" alias)) = Some command)).
Proof.
  intros cfg shell exec alias interactive command O.
  assert (X : forall al, resolve_alias cfg al = Command command <-> config_get cfg (alias_prefix ++ list_ascii_of_string (default "default" al)) = Some command).
  { intros al. unfold resolve_alias. change (alias_key al) with (alias_prefix ++ list_ascii_of_string (default "default" al)).
    destruct (config_get cfg (alias_prefix ++ list_ascii_of_string (default "default" al))); split; congruence. }
  unfold resolve_command. destruct exec as [x|], alias as [a|].
  - destruct O; congruence.
  - split; [intros H; injection H as ->; by left|]. intros [H|[(H & _)|(H & _)]]; congruence.
  - rewrite X. split; [intros H; right; right; split_and!; [done|by intros (? & _)|done]|].
    intros [H|[(_ & H & _)|(_ & _ & H)]]; [congruence|congruence|done].
  - destruct interactive, shell as [sh|]; rewrite ?X.
    + split; [intros H; injection H as ->; right; left; done|]. intros [H|[(_ & _ & _ & H)|(_ & H & _)]]; [congruence|congruence|].
      destruct H. split_and!; congruence.
    + split; [intros H; right; right; split_and!; [done|intros (_ & _ & ?); congruence|done]|]. intros [H|[(_ & _ & _ & H)|(_ & _ & H)]]; [congruence|congruence|done].
    + split; [intros H; right; right; split_and!; [done|intros (_ & ? & _); congruence|done]|]. intros [H|[(_ & _ & H & _)|(_ & _ & H)]]; [congruence|congruence|done].
    + split; [intros H; right; right; split_and!; [done|intros (_ & ? & _); congruence|done]|]. intros [H|[(_ & _ & H & _)|(_ & _ & H)]]; [congruence|congruence|done].
Qed.

(** ** Examples *)
Example c128_example :
  good_alias "rust.Lint" /\ same_alias "rust.Lint" "rust.lint" /\ ~ same_alias "rust.lint" "Rust.lint" /\
  resolve_command ∅ (Some "/bin/sh") None (Some "rust.Lint") false = Advice (list_ascii_of_string "test.alias.rust.Lint") /\
  exists cfg, git_config ∅ (list_ascii_of_string "test.alias.rust.Lint") "cargo clippy" = Some cfg /\
    resolve_command cfg None None (Some "rust.lint") false = Command "cargo clippy" /\
    resolve_command cfg None None (Some "Rust.lint") false = Advice (list_ascii_of_string "test.alias.Rust.lint") /\
    resolve_command cfg (Some "/bin/sh") None None true = Command "/bin/sh" /\
    resolve_command cfg (Some "/bin/sh") (Some "make") None true = Command "make".
Proof.
  assert (G : good_alias "rust.Lint").
  { apply good_key. eexists. reflexivity. }
  split; [done|]. split; [eapply (same_normal false false); reflexivity|].
  split; [intros S; apply (normal_same false) in S; vm_compute in S; congruence|]. split; [reflexivity|].
  eexists. split; [reflexivity|]. split_and!; reflexivity.
Qed.

Print Assumptions c128_advice_partial.
Print Assumptions c128_good.
Print Assumptions c128_advice_refuted.
Print Assumptions c128_others.
Print Assumptions c128_run.

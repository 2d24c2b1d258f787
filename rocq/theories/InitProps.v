(** C49: installing hooks; C63: the main branch and the aliases. *)
From Verif Require Import Base StrModel StrProofs InitModel InitSpec InitProofs.
Local Open Scope string_scope.
Local Open Scope list_scope.

(** ** One hook *)

(** Every text has exactly one reading as lines of the user and blocks. *)
Theorem c49_reading (ls : list string) : exists ps, hook_parts ls ps /\ forall ps', hook_parts ls ps' -> ps' = ps.
Proof.
  destruct (hook_parts_total ls) as [ps H]. exists ps. split; [exact H|]. intros ps' H'.
  exact (hook_parts_det _ _ H' _ H).
Qed.

(** Updating a hook sets the body of its blocks, adding a block at the end if it
    has none, and changes nothing else. *)
Theorem c49_update (text : string) (ps : list part) (body : list string) :
  hook_parts (lines text) ps ->
  update_hook_contents RegularHook (Text text) (unlines body) = Some (script (with_body body ps)).
Proof. intros H. cbn. f_equal. exact (update_parts _ _ _ H). Qed.

(** The lines of the user are kept, in order. *)
Theorem c49_user_lines (text : string) (ps : list part) (body : list string) (new : string) :
  lacks CR text -> Forall plain body -> Forall (fun l => ~ marker l) body ->
  hook_parts (lines text) ps ->
  update_hook_contents RegularHook (Text text) (unlines body) = Some new ->
  exists ps', hook_parts (lines new) ps' /\ user_lines ps' = user_lines ps /\
    (forall b, Managed b ∈ ps' -> b = body) /\ existsb is_managed ps' = true.
Proof.
  intros Ht Hp Hm H E. rewrite (c49_update text ps body H) in E. injection E as <-.
  exists (with_body body ps). split_and!.
  - rewrite lines_script.
    + apply part_lines_parts, with_body_sound; [exact Hm|]. exact (hook_parts_sound _ _ H).
    + apply with_body_plain; [exact Hp|]. exact (hook_parts_plain _ _ H (lines_plain _ Ht)).
  - apply with_body_user.
  - intros b. unfold with_body.
    assert (N : forall b, Managed b ∈ new_parts body ps -> b = body).
    { intros b' [p [E _]]%elem_of_list_In%List.in_map_iff. destruct p; congruence. }
    fold (new_parts body ps). destruct (existsb is_managed ps); [apply N|].
    rewrite elem_of_app, elem_of_list_singleton. intros [H'|H']; [by apply N|congruence].
  - apply with_body_managed.
Qed.

(** The last update decides: earlier ones leave no trace. *)
Theorem c49_again (text : string) (b1 b2 : list string) (new : string) :
  lacks CR text -> Forall plain b1 -> Forall (fun l => ~ marker l) b1 ->
  update_hook_contents RegularHook (Text text) (unlines b1) = Some new ->
  update_hook_contents RegularHook (Text new) (unlines b2) =
  update_hook_contents RegularHook (Text text) (unlines b2).
Proof.
  intros Ht Hp Hm [= <-]. cbn. f_equal. by apply update_again.
Qed.

Definition user_hook : string := unlines ["#!/bin/bash"; "make check"; MARKER_START; "old"; MARKER_END; "exit 0"].

Example c49_example :
  lacks CR user_hook /\
  hook_parts (lines user_hook) [User "#!/bin/bash"; User "make check"; Managed ["old"]; User "exit 0"] /\
  update_hook_contents RegularHook (Text user_hook) (unlines ["new"; "newer"]) =
  Some (unlines ["#!/bin/bash"; "make check"; MARKER_START; "new"; "newer"; MARKER_END; "exit 0"]) /\
  update_hook_contents RegularHook (Text (unlines ["#!/bin/bash"; "make check"])) (unlines ["new"]) =
  Some (unlines ["#!/bin/bash"; "make check"; MARKER_START; "new"; MARKER_END]).
Proof.
  assert (NM : forall l, String.eqb l MARKER_START = false -> String.eqb l MARKER_END = false -> ~ marker l).
  { intros l A B [-> | ->]; [discriminate A|discriminate B]. }
  split_and!.
  - intros H. apply elem_of_list_In in H. vm_compute in H. intuition discriminate.
  - change (lines user_hook) with
      ("#!/bin/bash" :: "make check" :: MARKER_START :: ["old"] ++ MARKER_END :: ["exit 0"]).
    repeat constructor; by apply NM.
  - vm_compute. reflexivity.
  - vm_compute. reflexivity.
Qed.

(** ** All hooks *)

Definition hook_name (name : string) : Prop := In name (List.map fst ALL_HOOKS).

(** Installing succeeds unless a hook cannot be read; it sets the blocks of all
    hooks and touches no other file. *)
Theorem c49_install (d : hook_dir) :
  (forall name, hook_name name -> d name <> Unreadable) ->
  exists d', install_hooks RegularHook d = (d', true) /\
    (forall name s text ps, In (name, s) ALL_HOOKS -> d name = Text text -> hook_parts (lines text) ps ->
       d' name = Text (script (with_body (lines s) ps))) /\
    (forall name s, In (name, s) ALL_HOOKS -> d name = Missing ->
       d' name = Text (script [User SHEBANG; Managed (lines s ++ [""])])) /\
    (forall name, ~ hook_name name -> d' name = d name).
Proof.
  intros Hr. destruct (install_each_spec RegularHook ALL_HOOKS all_hooks_nodup d (or_intror Hr)) as (d' & E & H1 & H2).
  exists d'. split_and!; [exact E| | |exact H2].
  - intros name s text ps Hin Hd Hps. destruct (H1 name s Hin) as (r & Er & ->). f_equal.
    rewrite Hd in Er. destruct (all_hooks_good _ _ Hin) as (G & _ & _). rewrite <- G in Er.
    rewrite (c49_update _ _ _ Hps) in Er. congruence.
  - intros name s Hin Hd. destruct (H1 name s Hin) as (r & Er & ->). f_equal.
    rewrite Hd in Er. destruct (all_hooks_good _ _ Hin) as (G & _ & _). injection Er as <-.
    rewrite <- G at 1. rewrite script_cons, script_one. cbn [part_lines]. rewrite <- !app_assoc. cbn [app].
    change (unlines (MARKER_START :: lines s ++ [""; MARKER_END])) with
      (MARKER_START +:+ NL +:+ unlines (lines s ++ [""; MARKER_END])).
    rewrite unlines_app. reflexivity.
Qed.

Theorem c49_unreadable (d : hook_dir) (name : string) :
  hook_name name -> d name = Unreadable ->
  snd (install_hooks RegularHook d) = false /\ snd (uninstall_hooks RegularHook d) = false.
Proof.
  intros Hn Hd. split; (eapply install_each_fails; [| |exact Hd]).
  - exact all_hooks_nodup.
  - exact Hn.
  - rewrite List.map_map. exact all_hooks_nodup.
  - rewrite List.map_map. exact Hn.
Qed.

(** The hooks are texts without carriage returns. *)
Definition text_hooks (d : hook_dir) : Prop :=
  forall name, hook_name name -> exists text, d name = Text text /\ lacks CR text.

Lemma uninstall_names : List.map fst (List.map (fun h : string * string => (fst h, UNINSTALLED)) ALL_HOOKS) = List.map fst ALL_HOOKS.
Proof. by rewrite List.map_map. Qed.

Lemma hook_script name : hook_name name -> exists s, In (name, s) ALL_HOOKS.
Proof. intros [[n s] [E H]]%List.in_map_iff. cbn in E. subst. eauto. Qed.

(** Installing again changes nothing; installing after uninstalling is the same as
    installing at once. *)
Theorem c49_reinstall (d d1 d2 : hook_dir) :
  text_hooks d ->
  install_hooks RegularHook d = (d1, true) ->
  (install_hooks RegularHook d1 = (d2, true) -> forall name, d2 name = d1 name) /\
  (forall u, uninstall_hooks RegularHook d = (u, true) -> install_hooks RegularHook u = (d2, true) ->
     forall name, d2 name = d1 name).
Proof.
  intros Ht E1.
  assert (R : forall name, hook_name name -> d name <> Unreadable).
  { intros name (t & -> & _)%Ht. done. }
  destruct (install_each_spec RegularHook ALL_HOOKS all_hooks_nodup d (or_intror R)) as (d1' & E1' & A1 & B1).
  unfold install_hooks in E1. rewrite E1' in E1. injection E1 as ->.
  assert (dec : forall name, {hook_name name} + {~ hook_name name}) by (intros; apply List.in_dec, string_dec).
  split.
  - intros E2 name.
    destruct (install_each_spec RegularHook ALL_HOOKS all_hooks_nodup d1) as (d2' & E2' & A2 & B2).
    { right. intros n (s & Hs)%hook_script. destruct (A1 n s Hs) as (r & _ & ->). done. }
    unfold install_hooks in E2. rewrite E2' in E2. injection E2 as ->.
    destruct (dec name) as [Hn|Hn]; [|by rewrite B2].
    destruct (hook_script name Hn) as [s Hs]. destruct (Ht name Hn) as (t & Hd & Hcr).
    destruct (A1 name s Hs) as (r1 & Er1 & Ed1), (A2 name s Hs) as (r2 & Er2 & ->).
    rewrite Ed1 in Er2 |- *. f_equal. rewrite Hd in Er1.
    destruct (all_hooks_good _ _ Hs) as (G & P & M). rewrite <- G in Er1, Er2.
    rewrite (c49_again t (lines s) (lines s) r1 Hcr P M Er1) in Er2. congruence.
  - intros u Eu E2 name.
    destruct (install_each_spec RegularHook (List.map (fun h => (fst h, UNINSTALLED)) ALL_HOOKS)) with (d := d)
      as (u' & Eu' & Au & Bu).
    { rewrite uninstall_names. exact all_hooks_nodup. }
    { right. rewrite uninstall_names. exact R. }
    rewrite uninstall_names in Bu.
    unfold uninstall_hooks in Eu. rewrite Eu' in Eu. injection Eu as ->.
    assert (Au' : forall n, hook_name n -> exists r, update_hook_contents RegularHook (d n) UNINSTALLED = Some r /\ u n = Text r).
    { intros n (s & Hs)%hook_script. apply Au. apply List.in_map_iff. exists (n, s). done. }
    destruct (install_each_spec RegularHook ALL_HOOKS all_hooks_nodup u) as (d2' & E2' & A2 & B2).
    { right. intros n Hn. destruct (Au' n Hn) as (r & _ & ->). done. }
    unfold install_hooks in E2. rewrite E2' in E2. injection E2 as ->.
    destruct (dec name) as [Hn|Hn]; [|by rewrite B2, Bu, B1].
    destruct (hook_script name Hn) as [s Hs]. destruct (Ht name Hn) as (t & Hd & Hcr).
    destruct (A1 name s Hs) as (r1 & Er1 & ->), (A2 name s Hs) as (r2 & Er2 & ->), (Au' name Hn) as (ru & Eru & Edu).
    f_equal. rewrite Edu in Er2. rewrite Hd in Er1, Eru.
    destruct (all_hooks_good _ _ Hs) as (G & _ & _). rewrite <- G in Er1, Er2.
    destruct uninstalled_good as (Gu & Pu & Mu). rewrite <- Gu in Eru.
    rewrite (c49_again t (lines UNINSTALLED) (lines s) ru Hcr Pu Mu Eru) in Er2. congruence.
Qed.

Example c49_reinstall_example :
  text_hooks (fun _ => Text user_hook) /\ snd (install_hooks RegularHook (fun _ => Text user_hook)) = true /\
  snd (uninstall_hooks RegularHook (fun _ => Text user_hook)) = true /\
  fst (install_hooks RegularHook (fun _ => Text user_hook)) "post-merge" =
  Text (unlines ["#!/bin/bash"; "make check"; MARKER_START; "";
                 "git branchless hook post-merge " +:+ q +:+ "$@" +:+ q; MARKER_END; "exit 0"]).
Proof.
  split_and!; [|vm_compute; reflexivity..].
  intros name _. exists user_hook. split; [done|]. exact (proj1 c49_example).
Qed.

(** From the second installation on nothing changes, also if hooks were missing. *)
Theorem c49_settles (d d1 d2 d3 : hook_dir) :
  (forall name, hook_name name -> d name = Missing \/ exists text, d name = Text text /\ lacks CR text) ->
  install_hooks RegularHook d = (d1, true) -> install_hooks RegularHook d1 = (d2, true) ->
  install_hooks RegularHook d2 = (d3, true) -> forall name, d3 name = d2 name.
Proof.
  intros Ht E1 E2 E3.
  assert (T : forall e e', (forall name, hook_name name -> e name = Missing \/ exists text, e name = Text text /\ lacks CR text) ->
    install_hooks RegularHook e = (e', true) -> text_hooks e').
  { intros e e' He E. destruct (c49_install e) as (f & Ef & H1 & H2 & _).
    { intros name Hn. destruct (He name Hn) as [-> |(t & -> & _)]; discriminate. }
    rewrite Ef in E. injection E as ->. intros name Hn. destruct (hook_script name Hn) as [s Hs].
    destruct (all_hooks_good _ _ Hs) as (_ & P & _).
    destruct (He name Hn) as [Hd|(t & Hd & Hcr)].
    - eexists. split; [exact (H2 name s Hs Hd)|]. apply script_lacks_cr. constructor.
      + split; intros H; apply elem_of_list_In in H; vm_compute in H; intuition discriminate.
      + constructor; [|constructor]. cbn [plain_part]. apply Forall_app. split; [exact P|].
        constructor; [|constructor]. split; apply lacks_nil.
    - destruct (hook_parts_total (lines t)) as [ps Hps]. eexists. split; [exact (H1 name s t ps Hs Hd Hps)|].
      apply script_lacks_cr, with_body_plain; [exact P|]. exact (hook_parts_plain _ _ Hps (lines_plain _ Hcr)). }
  assert (T1 := T d d1 Ht E1). exact (proj1 (c49_reinstall d1 d2 d3 T1 E2) E3).
Qed.

(** Each hook runs the command for it, passing on the arguments. *)
Theorem c49_calls (name s : string) :
  In (name, s) ALL_HOOKS -> exists l, l ∈ lines s /\
  starts_with ("git branchless hook " +:+ name +:+ " " +:+ q +:+ "$@" +:+ q) l = true.
Proof.
  intros H. cbn [ALL_HOOKS In simple_hook] in H.
  destruct H as [H|[H|[H|[H|[H|[H|[H|[]]]]]]]]; injection H as <- <-;
    first [ eexists; split; [apply elem_of_list_In; vm_compute; right; left; reflexivity|vm_compute; reflexivity]
          | eexists; split; [apply elem_of_list_In; vm_compute; right; right; right; left; reflexivity|vm_compute; reflexivity]].
Qed.

Theorem c49_names (name : string) :
  hook_name name <->
  name ∈ ["post-applypatch"; "post-checkout"; "post-commit"; "post-merge"; "post-rewrite"; "pre-auto-gc";
          "reference-transaction"].
Proof. rewrite elem_of_list_In. reflexivity. Qed.

(** Hooks kept one by one in directories are overwritten, always alike. *)
Theorem c49_multi (d : hook_dir) :
  exists d', install_hooks MultiHook d = (d', true) /\
    (forall name s, In (name, s) ALL_HOOKS -> d' name = Text (unlines (SHEBANG :: lines s))) /\
    (forall name, ~ hook_name name -> d' name = d name).
Proof.
  destruct (install_each_spec MultiHook ALL_HOOKS all_hooks_nodup d (or_introl eq_refl)) as (d' & E & H1 & H2).
  exists d'. split_and!; [exact E| |exact H2]. intros name s Hin. destruct (H1 name s Hin) as (r & [= <-] & ->).
  destruct (all_hooks_good _ _ Hin) as (G & _ & _). cbn [unlines]. by rewrite G.
Qed.

(** ** What is not kept *)

(** A hook created by the first installation is changed by the second one. *)
Theorem c49_fresh_refuted : exists (name : string) (first second : string),
  fst (install_hooks RegularHook (fun _ => Missing)) name = Text first /\
  fst (install_hooks RegularHook (fst (install_hooks RegularHook (fun _ => Missing)))) name = Text second /\
  first <> second.
Proof.
  exists "post-commit". eexists _, _. split_and!; [vm_compute; reflexivity..|]. discriminate.
Qed.

(** A line of the user after a block that is not closed is lost. *)
Theorem c49_unterminated_refuted : exists (text line : string),
  line ∈ lines text /\ ~ marker line /\
  exists new, update_hook_contents RegularHook (Text text) UNINSTALLED = Some new /\ line ∉ lines new.
Proof.
  exists (unlines ["#!/bin/sh"; MARKER_START; "make check"]), "make check". split_and!.
  - apply elem_of_list_In. vm_compute. auto.
  - intros [E|E]; discriminate E.
  - eexists. split; [vm_compute; reflexivity|]. intros H. apply elem_of_list_In in H. vm_compute in H. intuition discriminate.
Qed.

(** The carriage returns at the ends of the lines of the user are lost. *)
Theorem c49_carriage_return_refuted : exists (text new : string),
  Forall (fun l => ~ marker l) (lines text) /\
  update_hook_contents RegularHook (Text text) UNINSTALLED = Some new /\
  starts_with text new = false.
Proof.
  exists (String.append "make" (String CR (String LF ""))). eexists. split_and!; [|vm_compute; reflexivity..].
  repeat constructor. intros [E|E]; discriminate E.
Qed.

(** A carriage return before one at the end of a line makes each installation
    change the hook. *)
Theorem c49_again_refuted : exists (text first second : string),
  update_hook_contents RegularHook (Text text) UNINSTALLED = Some first /\
  update_hook_contents RegularHook (Text first) UNINSTALLED = Some second /\ first <> second.
Proof.
  exists (String CR (String CR (String LF ""))). eexists _, _. split_and!; [vm_compute; reflexivity..|]. discriminate.
Qed.

(** ** C63 *)

(** The branch detected: the one of init.defaultBranch if there is such a branch,
    otherwise the first of a list that exists. *)
Theorem c63_detect (branch : string -> bool) (default : option string) (name : string) :
  detect_main_branch_name branch default = Some name <->
  branch name = true /\
  (default = Some name \/
   (forall n, default = Some n -> branch n = false) /\
   exists before after,
     ["master"; "main"; "mainline"; "devel"; "develop"; "development"; "trunk"] = before ++ name :: after /\
     Forall (fun n => branch n = false) before).
Proof.
  assert (F : List.find branch MAIN_BRANCHES = Some name <-> branch name = true /\ exists before after,
     MAIN_BRANCHES = before ++ name :: after /\ Forall (fun n => branch n = false) before).
  { rewrite find_first. split.
    - intros (a & b & E & Hn & Ha). eauto.
    - intros (Hn & a & b & E & Ha). eauto. }
  unfold MAIN_BRANCHES in F at 2. unfold detect_main_branch_name. destruct default as [n|].
  - destruct (branch n) eqn:En.
    + split; [intros [= ->]; auto|]. intros [_ [[= ->]|[H _]]]; [done|]. specialize (H n eq_refl). congruence.
    + rewrite F. split.
      * intros [Hn H]. split; [exact Hn|]. right. split; [intros ? [= <-]; exact En|exact H].
      * intros [Hn [[= ->]|[_ H]]]; [congruence|]. done.
  - rewrite F. split.
    + intros [Hn H]. split; [exact Hn|]. right. done.
    + intros [Hn [H|[_ H]]]; [discriminate H|done].
Qed.

Theorem c63_none (branch : string -> bool) (default : option string) :
  detect_main_branch_name branch default = None <->
  (forall n, default = Some n -> branch n = false) /\
  Forall (fun n => branch n = false) ["master"; "main"; "mainline"; "devel"; "develop"; "development"; "trunk"].
Proof.
  fold MAIN_BRANCHES.
  assert (F : List.find branch MAIN_BRANCHES = None <-> Forall (fun n => branch n = false) MAIN_BRANCHES).
  { rewrite List.Forall_forall. split; [intros H x Hx; exact (List.find_none _ _ H x Hx)|].
    intros H. destruct (List.find branch MAIN_BRANCHES) eqn:E; [|done].
    apply List.find_some in E. destruct E as [E1 E2]. specialize (H _ E1). congruence. }
  unfold detect_main_branch_name. destruct default as [n|].
  - destruct (branch n) eqn:En.
    + split; [discriminate|]. intros [H _]. specialize (H n eq_refl). congruence.
    + rewrite F. split; [intros H; split; [intros ? [= <-]; exact En|exact H]|tauto].
  - rewrite F. split; [intros H; split; [discriminate|exact H]|tauto].
Qed.

(** The branch set: the one given, else the one detected, else the one typed,
    which is not empty. *)
Theorem c63_choose (arg : option string) (branch : string -> bool) (default : option string) (typed name : string) :
  choose_main_branch arg branch default typed = Some name ->
  arg = Some name \/
  arg = None /\ (detect_main_branch_name branch default = Some name \/
                 detect_main_branch_name branch default = None /\ name = trim typed /\ name <> "").
Proof.
  unfold choose_main_branch. destruct arg as [n|]; [intros [= ->]; auto|].
  destruct (detect_main_branch_name branch default) as [n|]; [intros [= ->]; auto|].
  destruct (String.eqb_spec (trim typed) ""); [discriminate|]. intros [= <-]. auto 6.
Qed.

(** A branch that does not exist is accepted if given or typed. *)
Theorem c63_exists_refuted : exists arg branch default typed name,
  choose_main_branch arg branch default typed = Some name /\ branch name = false.
Proof. exists (Some "nope"), (fun _ => false), None, "", "nope". done. Qed.

(** Each alias is set unless the user has one of that name, which then counts; no
    other setting is touched. *)
Theorem c63_aliases (c user : config_map) (wrapped : bool) :
  (forall from to, In (from, to) ALL_ALIASES ->
     (forall v, user ("alias." +:+ from) = Some v -> install_aliases c user wrapped ("alias." +:+ from) = None) /\
     (user ("alias." +:+ from) = None ->
      install_aliases c user wrapped ("alias." +:+ from) =
      Some ((if wrapped then "branchless-" else "branchless ") +:+ to))) /\
  (forall key, (forall from to, In (from, to) ALL_ALIASES -> key <> "alias." +:+ from) ->
     install_aliases c user wrapped key = c key).
Proof.
  destruct (install_aliases_spec ALL_ALIASES c user wrapped all_aliases_nodup) as [H1 H2].
  split; [|exact H2]. intros from to Hin. specialize (H1 from to Hin). unfold install_aliases. rewrite H1.
  split; [intros v ->; done|]. intros ->. by destruct wrapped.
Qed.

(** The aliases are the names of the commands and two short forms. *)
Theorem c63_table (from to : string) :
  In (from, to) ALL_ALIASES <->
  (from, to) = ("sl", "smartlog") \/ (from, to) = ("sw", "switch") \/
  from = to /\ from ∈ ["amend"; "hide"; "move"; "next"; "prev"; "query"; "record"; "restack"; "reword"; "smartlog";
                      "submit"; "sync"; "test"; "undo"; "unhide"].
Proof.
  split.
  - intros H. cbn [ALL_ALIASES In] in H. repeat (destruct H as [H|H]; [injection H as <- <-; (tauto ||
      (right; right; split; [reflexivity|apply elem_of_list_In; cbn; tauto]))|]). destruct H.
  - intros [[= -> ->]|[[= -> ->]|[-> H]]]; [cbn; tauto..|]. apply elem_of_list_In in H. cbn in H |- *.
    intuition (subst; auto 20).
Qed.

(** Installing the aliases again changes nothing. *)
Theorem c63_aliases_again (c user : config_map) (wrapped : bool) (key : string) :
  install_aliases (install_aliases c user wrapped) user wrapped key = install_aliases c user wrapped key.
Proof.
  destruct (c63_aliases c user wrapped) as [A1 B1].
  destruct (c63_aliases (install_aliases c user wrapped) user wrapped) as [A2 B2].
  destruct (List.in_dec string_dec key (List.map (fun a => "alias." +:+ fst a) ALL_ALIASES)) as [H|H].
  - apply List.in_map_iff in H. destruct H as ([from to] & <- & Hin). cbn [fst].
    destruct (A1 from to Hin) as [P1 Q1], (A2 from to Hin) as [P2 Q2].
    destruct (user ("alias." +:+ from)) eqn:E.
    + by rewrite (P1 _ eq_refl), (P2 _ eq_refl).
    + by rewrite Q1, Q2.
  - apply B2. intros from to Hin ->. apply H. apply List.in_map_iff. exists (from, to). done.
Qed.

Example c63_example :
  detect_main_branch_name (fun b => String.eqb b "trunk" || String.eqb b "main") (Some "dev") = Some "main" /\
  detect_main_branch_name (fun b => String.eqb b "dev" || String.eqb b "main") (Some "dev") = Some "dev" /\
  detect_main_branch_name (fun b => String.eqb b "feature") (Some "dev") = None /\
  choose_main_branch None (fun b => String.eqb b "feature") None (" feature" +:+ NL) = Some "feature" /\
  install_aliases (fun _ => None) (fun k => if String.eqb k "alias.sw" then Some "switch" else None) false "alias.sw" = None /\
  install_aliases (fun _ => None) (fun k => if String.eqb k "alias.sw" then Some "switch" else None) false "alias.sl" =
  Some "branchless smartlog".
Proof. vm_compute. auto 10. Qed.

Print Assumptions c49_reading.
Print Assumptions c49_update.
Print Assumptions c49_user_lines.
Print Assumptions c49_again.
Print Assumptions c49_install.
Print Assumptions c49_unreadable.
Print Assumptions c49_reinstall.
Print Assumptions c49_settles.
Print Assumptions c49_calls.
Print Assumptions c49_names.
Print Assumptions c49_multi.
Print Assumptions c49_fresh_refuted.
Print Assumptions c49_unterminated_refuted.
Print Assumptions c49_carriage_return_refuted.
Print Assumptions c49_again_refuted.
Print Assumptions c63_detect.
Print Assumptions c63_none.
Print Assumptions c63_choose.
Print Assumptions c63_exists_refuted.
Print Assumptions c63_aliases.
Print Assumptions c63_table.
Print Assumptions c63_aliases_again.

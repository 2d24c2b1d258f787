(** Proofs about the announcement of [git undo]. *)
From Coq Require Import DecimalString DecimalZ.
From Verif Require Import Base TextModel TextProofs StrModel StrProofs EventLogModel EventLogSpec UndoModel NavModel ArgsProofs UndoShowModel UndoShowSpec.
Local Open Scope string_scope.
Local Open Scope list_scope.

Lemma app_same (p a b : string) : p +:+ a = p +:+ b -> a = b.
Proof. induction p as [|c p IH]; [done|]. rewrite !sapp_cons. intros [= H]. auto. Qed.
Lemma word_same a b c d : name_ok a -> name_ok c -> a +:+ String " " b = c +:+ String " " d -> a = c /\ b = d.
Proof.
  unfold name_ok. revert c. induction a as [|x a IH]; intros c Ha Hc E.
  - destruct c as [|y c]; [rewrite !sapp_nil in E; by injection E|]. rewrite sapp_nil, sapp_cons in E. injection E as <- _.
    destruct Hc. left.
  - destruct c as [|y c].
    + rewrite sapp_nil, sapp_cons in E. injection E as -> _. destruct Ha. left.
    + rewrite !sapp_cons in E. injection E as <- E. destruct (IH c) as [-> ->]; [|..|exact E|done].
      * intros X. apply Ha. by right.
      * intros X. apply Hc. by right.
Qed.

(** The three kinds of names. *)
Inductive kind := KBranch | KRemote | KOther.
Definition word (k : kind) : string := match k with KBranch => "branch " | KRemote => "remote branch " | KOther => "ref " end.
Definition prefix_of (k : kind) : string := match k with KBranch => heads_prefix | KRemote => remotes_prefix | KOther => "" end.
Lemma friendly_kind r : exists k s, r = prefix_of k +:+ s /\ friendly_ref r = word k +:+ s.
Proof.
  unfold friendly_ref. destruct (strip_prefix heads_prefix r) as [s|] eqn:E; [apply strip_prefix_inv in E; by exists KBranch, s|].
  destruct (strip_prefix remotes_prefix r) as [s|] eqn:E2; [apply strip_prefix_inv in E2; by exists KRemote, s|]. by exists KOther, r.
Qed.
Lemma suffix_ok p s : name_ok (p +:+ s) -> name_ok s.
Proof. unfold name_ok. induction p as [|c p IH]; [done|]. rewrite sapp_cons. intros H. apply IH. intros X. apply H. by right. Qed.
Lemma kind_same k1 k2 a b : word k1 +:+ a = word k2 +:+ b -> k1 = k2 /\ a = b.
Proof.
  destruct k1, k2; cbn [word]; rewrite ?sapp_cons, ?sapp_nil; intros H; try discriminate H; (split; [done|]);
    repeat (injection H as H); done.
Qed.
Lemma friendly_same r1 r2 : friendly_ref r1 = friendly_ref r2 -> r1 = r2.
Proof.
  destruct (friendly_kind r1) as (k1 & s1 & -> & ->), (friendly_kind r2) as (k2 & s2 & -> & ->).
  by intros [-> ->]%kind_same.
Qed.
Lemma friendly_then r1 r2 a b : name_ok r1 -> name_ok r2 ->
  friendly_ref r1 +:+ String " " a = friendly_ref r2 +:+ String " " b -> r1 = r2 /\ a = b.
Proof.
  destruct (friendly_kind r1) as (k1 & s1 & -> & ->), (friendly_kind r2) as (k2 & s2 & -> & ->).
  intros N1 N2. rewrite !sapp_assoc. intros [-> H]%kind_same. apply suffix_ok in N1, N2.
  by destruct (word_same _ _ _ _ N1 N2 H) as [-> ->].
Qed.

(** What is said, before it is put into words. *)
Inductive saying :=
| SCommit (o : oid) | SHide (o : oid) | SUnhide (o : oid) | SCheckOut (from : option oid) (to : oid) | SEmpty (n : refname)
| SCreate (n : refname) (o : oid) | SDelete (n : refname) (o : oid) | SMove (n : refname) (a b : oid)
| SRewrite (a b : oid) | SNothing | SRestore (h : option oid) (n : option refname) (o : oid).
Definition say (e : event) : saying :=
  match e with
  | CommitEvent _ _ o => SCommit o
  | ObsoleteEvent _ _ o | RewriteEvent _ _ (NonZero o) Zero => SHide o
  | UnobsoleteEvent _ _ o | RewriteEvent _ _ Zero (NonZero o) => SUnhide o
  | RefUpdateEvent _ _ n Zero Zero _ => SEmpty n
  | RefUpdateEvent _ _ n Zero (NonZero b) _ => if String.eqb n "HEAD" then SCheckOut None b else SCreate n b
  | RefUpdateEvent _ _ n (NonZero a) Zero _ => SDelete n a
  | RefUpdateEvent _ _ n (NonZero a) (NonZero b) _ => if String.eqb n "HEAD" then SCheckOut (Some a) b else SMove n a b
  | RewriteEvent _ _ (NonZero a) (NonZero b) => SRewrite a b
  | RewriteEvent _ _ Zero Zero => SNothing
  | SnapshotEvent _ _ h o n => SRestore (match h with NonZero h => Some h | Zero => None end) n o
  end.
Definition in_words (desc : oid -> string) (s : saying) : list string :=
  match s with
  | SCommit o => ["Commit " +:+ desc o; ""]
  | SHide o => ["Hide commit " +:+ desc o; ""]
  | SUnhide o => ["Unhide commit " +:+ desc o; ""]
  | SCheckOut None o => ["Check out to " +:+ desc o; ""]
  | SCheckOut (Some a) o => ["Check out from " +:+ desc a; "            to " +:+ desc o]
  | SEmpty n => ["Empty event for " +:+ n; empty_event_message]
  | SCreate n o => ["Create " +:+ friendly_ref n +:+ " at " +:+ desc o; ""]
  | SDelete n o => ["Delete " +:+ friendly_ref n +:+ " at " +:+ desc o; ""]
  | SMove n a b => ["Move " +:+ friendly_ref n +:+ " from " +:+ desc a; "     " +:+ spaces (String.length (friendly_ref n)) +:+ "   to " +:+ desc b]
  | SRewrite a b => ["Rewrite commit " +:+ desc a; "           as " +:+ desc b]
  | SNothing => ["Empty rewrite event."; empty_event_message]
  | SRestore (Some h) (Some n) o => ["Restore snapshot for " +:+ friendly_ref n; "         pointing to " +:+ desc h; "     backed up using " +:+ desc o]
  | SRestore (Some h) None o => ["Restore snapshot for " +:+ desc h; "     backed up using " +:+ desc o]
  | SRestore None (Some n) o => ["Restore snapshot for " +:+ friendly_ref n; "     backed up using " +:+ desc o]
  | SRestore None None o => ["Restore snapshot backed up using " +:+ desc o]
  end.
Lemma say_words desc e : describe_event desc e = in_words desc (say e).
Proof.
  destruct e as [? ? [|?] [|?]|? ? n [|?] [|?] ?|? ? ?|? ? ?|? ? ?|? ? [|?] ? [?|]]; cbn [describe_event say]; try reflexivity;
    destruct (String.eqb n "HEAD"); reflexivity.
Qed.
Definition said_ok (s : saying) : Prop :=
  match s with SCreate n _ | SDelete n _ | SMove n _ _ | SEmpty n => name_ok n | SRestore _ (Some n) _ => name_ok n | _ => True end.
Lemma say_ok e : names_ok e -> said_ok (say e).
Proof.
  destruct e as [? ? [|?] [|?]|? ? n [|?] [|?] ?|? ? ?|? ? ?|? ? ?|? ? [|?] ? [?|]]; cbn [names_ok say]; try done;
    destruct (String.eqb n "HEAD"); done.
Qed.
Lemma desc_not_ref desc o n : telling desc -> desc o <> friendly_ref n.
Proof.
  intros [_ T]. destruct (friendly_kind n) as (k & s & _ & ->). apply T. destruct k; repeat (first [left|right]).
Qed.
Ltac strip H := rewrite ?sapp_cons, ?sapp_nil in H; repeat (injection H as H).
Lemma words_same desc s1 s2 : telling desc -> said_ok s1 -> said_ok s2 -> in_words desc s1 = in_words desc s2 -> s1 = s2.
Proof.
  intros T O1 O2. pose proof (proj1 T) as I.
  destruct s1 as [o1|o1|o1|[a1|] o1|n1|n1 o1|n1 o1|n1 a1 b1|a1 b1| |[h1|] [n1|] o1], s2 as [o2|o2|o2|[a2|] o2|n2|n2 o2|n2 o2|n2 a2 b2|a2 b2| |[h2|] [n2|] o2];
    cbn [in_words said_ok] in *; intros H; try (injection H; intros; discriminate); try discriminate H; try reflexivity;
    injection H; clear H; intros; rewrite ?sapp_cons, ?sapp_nil in *; simplify_eq;
    repeat match goal with H : desc _ = desc _ |- _ => apply I in H; subst end; try reflexivity;
    try (exfalso; match goal with H : desc _ = friendly_ref _ |- _ => exact (desc_not_ref _ _ _ T H)
      | H : friendly_ref _ = desc _ |- _ => exact (desc_not_ref _ _ _ T (eq_sym H)) end);
    repeat match goal with H : friendly_ref _ = friendly_ref _ |- _ => apply friendly_same in H; subst end; try reflexivity;
    match goal with H : friendly_ref _ +:+ String " " _ = friendly_ref _ +:+ String " " _ |- _ =>
      apply friendly_then in H; [|done|done]; destruct H as [-> H]; simplify_eq end;
    repeat match goal with H : desc _ = desc _ |- _ => apply I in H; subst end; try reflexivity;
    repeat match goal with H : _ +:+ _ = _ +:+ _ |- _ => apply app_same in H end; rewrite ?sapp_cons, ?sapp_nil in *; simplify_eq;
    repeat match goal with H : desc _ = desc _ |- _ => apply I in H; subst end; reflexivity.
Qed.

(** ** What is done depends on what is said *)
Lemma said_checkout e1 e2 : say e1 = say e2 ->
  (exists t, forall acc es1 es2, extract_checkout acc (e1 :: es1) = extract_checkout (Some t) es1 /\
     extract_checkout acc (e2 :: es2) = extract_checkout (Some t) es2) \/
  (forall acc es1 es2, extract_checkout acc (e1 :: es1) = (let (t, rest) := extract_checkout acc es1 in (t, e1 :: rest)) /\
     extract_checkout acc (e2 :: es2) = (let (t, rest) := extract_checkout acc es2 in (t, e2 :: rest))).
Proof.
  intros H.
  destruct e1 as [? ? [|?] [|?]|? ? n1 [|?] [|?] ?|? ? ?|? ? ?|? ? ?|? ? [|?] ? ?], e2 as [? ? [|?] [|?]|? ? n2 [|?] [|?] ?|? ? ?|? ? ?|? ? ?|? ? [|?] ? ?];
    cbn [say] in H;
    try (destruct (String.eqb n1 "HEAD") eqn:E1); try (destruct (String.eqb n2 "HEAD") eqn:E2); try discriminate H;
    first [right; intros acc es1 es2; cbn [extract_checkout]; rewrite ?E1, ?E2; split; reflexivity
          |left; injection H; intros; subst; eexists; intros acc es1 es2; cbn [extract_checkout]; rewrite ?E1, ?E2; split; reflexivity].
Qed.
Lemma said_refs e1 e2 w1 w2 : say e1 = say e2 -> (forall t, extract_checkout None [e1] <> (Some t, [])) ->
  w_refs w1 = w_refs w2 -> w_refs (undo_step w1 e1) = w_refs (undo_step w2 e2).
Proof.
  intros H K W.
  destruct e1 as [? [|] [|?] [|?]|? ? n1 [|?] [|?] ?|? [|] ?|? [|] ?|? [|] ?|? ? [|?] ? ?], e2 as [? [|] [|?] [|?]|? ? n2 [|?] [|?] ?|? [|] ?|? [|] ?|? [|] ?|? ? [|?] ? ?];
    cbn [say] in H;
    try (destruct (String.eqb n1 "HEAD") eqn:E1); try (destruct (String.eqb n2 "HEAD") eqn:E2); try discriminate H;
    cbn [undo_step w_refs]; rewrite ?W; try reflexivity;
    try (exfalso; eapply K; cbn [extract_checkout]; rewrite ?E1; reflexivity);
    injection H; intros; subst; reflexivity.
Qed.
Lemma said_commits e1 e2 : say e1 = say e2 -> same_commits e1 e2.
Proof.
  intros H o.
  destruct e1 as [? ? [|?] [|?]|? ? n1 [|?] [|?] ?|? ? ?|? ? ?|? ? ?|? ? [|?] ? ?], e2 as [? ? [|?] [|?]|? ? n2 [|?] [|?] ?|? ? ?|? ? ?|? ? ?|? ? [|?] ? ?];
    cbn [say] in H;
    try (destruct (String.eqb n1 "HEAD") eqn:E1); try (destruct (String.eqb n2 "HEAD") eqn:E2); try discriminate H;
    cbn [shows hides]; try tauto; injection H; intros; subst; (split; split; intros; first [done|congruence]).
Qed.
Lemma said_all es1 es2 : Forall2 (fun a b => say a = say b) es1 es2 ->
  forall acc w1 w2, w_refs w1 = w_refs w2 ->
  fst (extract_checkout acc es1) = fst (extract_checkout acc es2) /\
  w_refs (fold_left undo_step (snd (extract_checkout acc es1)) w1) = w_refs (fold_left undo_step (snd (extract_checkout acc es2)) w2).
Proof.
  induction 1 as [|e1 e2 es1 es2 H F IH]; intros acc w1 w2 W; [done|].
  destruct (said_checkout _ _ H) as [[t E]|E].
  - destruct (E acc es1 es2) as [-> ->]. by apply IH.
  - destruct (E acc es1 es2) as [-> ->].
    assert (K : forall t, extract_checkout None [e1] <> (Some t, [])).
    { intros t. destruct (E None [] []) as [-> _]. cbn [extract_checkout]. discriminate. }
    pose proof (said_refs _ _ w1 w2 H K W) as W'. specialize (IH acc _ _ W').
    destruct (extract_checkout acc es1) as [t1 r1], (extract_checkout acc es2) as [t2 r2]. cbn [fst snd fold_left] in *. exact IH.
Qed.

(** ** The numbers *)
Definition blank (l : string) : Prop := exists s, l = String " " s.
Lemma number_not_blank z s : ~ blank (isize_to_string z +:+ s) /\ isize_to_string z <> "".
Proof.
  unfold blank, isize_to_string. destruct (Z.to_int z) as [u|u]; cbn [DecimalString.NilZero.string_of_int].
  - destruct u; (split; [intros [r H]; cbn in H; discriminate H|discriminate]).
  - split; [intros [r H]; cbn in H; discriminate H|discriminate].
Qed.
Lemma split_blank a b t1 t2 : Forall blank a -> Forall blank b ->
  (forall x, head t1 = Some x -> ~ blank x) -> (forall x, head t2 = Some x -> ~ blank x) -> a ++ t1 = b ++ t2 -> a = b /\ t1 = t2.
Proof.
  intros Fa. revert b. induction Fa as [|x a Hx Fa IH]; intros b Fb H1 H2 E.
  - destruct Fb as [|y b Hy Fb]; [done|]. cbn in E. subst t1. exfalso. exact (H1 y eq_refl Hy).
  - destruct Fb as [|y b Hy Fb]; [cbn in E; subst t2; exfalso; exact (H2 x eq_refl Hx)|].
    cbn in E. injection E as -> E. destruct (IH b Fb H1 H2 E) as [-> ->]. done.
Qed.
Lemma spaces_blank n s : (0 < n)%nat -> blank (spaces n +:+ s).
Proof. destruct n; [lia|]. intros _. cbn [spaces]. rewrite sapp_cons. by eexists. Qed.
Lemma described_some desc e : describe_event desc e <> [].
Proof. rewrite say_words. destruct (say e) as [| | |[|]| | | | | | |[|] [|]]; discriminate. Qed.
Lemma header_length z : (0 < String.length (isize_to_string z +:+ ". "))%nat.
Proof. destruct (isize_to_string z); [rewrite sapp_nil; cbn; lia|rewrite sapp_cons; cbn [String.length]; lia]. Qed.
Lemma from_head desc i es x : head (describe_from desc i es) = Some x -> ~ blank x.
Proof.
  destruct es as [|e es]; [discriminate|]. cbn [describe_from]. pose proof (described_some desc e) as N.
  destruct (describe_event desc e) as [|f m]; [done|]. cbn [app head]. intros [= <-].
  rewrite sapp_assoc. apply number_not_blank.
Qed.
Lemma numbered_same desc es1 : forall i es2, describe_from desc i es1 = describe_from desc i es2 ->
  Forall2 (fun a b => describe_event desc a = describe_event desc b) es1 es2.
Proof.
  induction es1 as [|e1 es1 IH]; intros i es2 H.
  - destruct es2 as [|e2 es2]; [constructor|]. cbn [describe_from] in H. pose proof (described_some desc e2) as N.
    destruct (describe_event desc e2); [done|discriminate H].
  - destruct es2 as [|e2 es2]; cbn [describe_from] in H; pose proof (described_some desc e1) as N1.
    + destruct (describe_event desc e1); [done|discriminate H].
    + pose proof (described_some desc e2) as N2.
      destruct (describe_event desc e1) as [|f1 m1] eqn:D1; [done|]. destruct (describe_event desc e2) as [|f2 m2] eqn:D2; [done|].
      cbn [app] in H. injection H as Hf H. apply app_same in Hf. subst f2.
      apply split_blank in H; [|apply list.Forall_forall; intros x Hx; apply elem_of_list_fmap in Hx as (y & -> & _); apply spaces_blank, header_length..
        |apply from_head|apply from_head].
      destruct H as [Hm H]. apply IH in H. constructor; [|exact H]. rewrite D1, D2. f_equal.
      clear - Hm. revert m2 Hm. induction m1 as [|x m1 IH]; intros [|y m2] Hm; cbn in Hm; try discriminate; [done|].
      injection Hm as Hx Hm. apply app_same in Hx. subst. f_equal. by apply IH.
Qed.

(** Descriptions that tell commits apart. *)
Definition number_desc (o : oid) : string := "#" +:+ isize_to_string (Z.of_N o).
Lemma number_desc_telling : telling number_desc.
Proof.
  split.
  - intros a b H. unfold number_desc in H. apply app_same in H. unfold isize_to_string in H.
    assert (E : NilZero.int_of_string (NilZero.string_of_int (Z.to_int (Z.of_N a))) = NilZero.int_of_string (NilZero.string_of_int (Z.to_int (Z.of_N b)))) by by rewrite H.
    destruct (to_int_not_nil (Z.of_N a)), (to_int_not_nil (Z.of_N b)). rewrite !NilZero.isi in E by assumption.
    injection E as E. apply (f_equal Z.of_int) in E. rewrite !DecimalZ.of_to in E. lia.
  - intros o w Hw s. unfold number_desc. repeat (apply elem_of_cons in Hw as [-> |Hw]; [rewrite !sapp_cons; discriminate|]).
    by apply elem_of_nil in Hw.
Qed.

(** The answer. *)
Lemma trim_start_split s : exists a, s = a +:+ trim_start s /\ Forall (fun c => is_space c = true) (list_ascii_of_string a).
Proof.
  induction s as [|c s (a & E & F)]; [exists ""; split; [done|constructor]|]. cbn [trim_start]. destruct (is_space c) eqn:C.
  - exists (String c a). rewrite sapp_cons, <- E. split; [done|]. by constructor.
  - exists "". split; [done|constructor].
Qed.
Lemma trim_end_split s : exists b, s = trim_end s +:+ b /\ Forall (fun c => is_space c = true) (list_ascii_of_string b).
Proof.
  induction s as [|c s (b & E & F)]; [exists ""; split; [done|constructor]|]. cbn [trim_end]. destruct (trim_end s) as [|d t] eqn:T.
  - rewrite sapp_nil in E. subst b. destruct (is_space c) eqn:C.
    + exists (String c s). split; [done|]. by constructor.
    + exists s. by split.
  - exists b. split; [|done]. rewrite sapp_cons. by f_equal.
Qed.
Lemma first_line_is s : is_first_line (first_line s) s.
Proof.
  induction s as [|c s (rest & E & L & R)]; [exists ""; split_and!; [done|intros [|] q H; discriminate|done]|]. cbn [first_line].
  destruct (Ascii.eqb_spec c LF) as [->|N].
  - exists s. split_and!; [done| |intros _; by exists ""]. intros [|d p] q H; [by injection H|]. rewrite sapp_cons in H. injection H as _ H. by destruct p.
  - exists rest. rewrite sapp_cons, <- E. split_and!; [done| |].
    + intros [|d p] q H; [by injection H|]. rewrite sapp_cons in H. injection H as _ H. by apply (L p).
    + intros Hr. destruct (R Hr) as [p ->]. by exists (String c p).
Qed.
Lemma first_line_only l s : is_first_line l s -> first_line s = l.
Proof.
  intros (rest & -> & L & R). revert L R. induction l as [|c l IH]; intros L R.
  - rewrite sapp_nil. destruct rest as [|d r]; [done|]. destruct R as [p H]; [done|]. by destruct p.
  - rewrite sapp_cons. cbn [first_line]. destruct (Ascii.eqb_spec c LF) as [->|N].
    + by rewrite (L "" l) by reflexivity.
    + rewrite IH; [done| |].
      * intros p q H. apply (L (String c p)). by rewrite H.
      * intros Hr. destruct (R Hr) as [[|d p] H]; [by injection H as ? _|]. rewrite sapp_cons in H. injection H as _ H. by exists p.
Qed.
Lemma trim_around a y b : Forall (fun c => is_space c = true) (list_ascii_of_string a) -> is_space y = false ->
  Forall (fun c => is_space c = true) (list_ascii_of_string b) -> trim (a +:+ String y b) = String y "".
Proof.
  intros A Y B. unfold trim. assert (S : trim_start (a +:+ String y b) = String y b).
  { induction a as [|c a IH]; [rewrite sapp_nil; cbn [trim_start]; by rewrite Y|]. cbn [list_ascii_of_string] in A. apply Forall_cons in A as [A1 A2].
    rewrite sapp_cons. cbn [trim_start]. rewrite A1. by apply IH. }
  rewrite S. cbn [trim_end]. assert (E : trim_end b = "").
  { clear -B. induction b as [|c b IH]; [done|]. cbn [list_ascii_of_string] in B. apply Forall_cons in B as [B1 B2]. cbn [trim_end]. by rewrite (IH B2), B1. }
  by rewrite E, Y.
Qed.

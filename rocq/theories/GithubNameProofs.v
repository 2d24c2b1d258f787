(** The names of new branches. *)
From stdpp Require Import pretty.
From Verif Require Import Base TextModel EventLogModel DagModel DagSpec ExecModel SubmitModel SubmitSpec SubmitProofs GithubModel GithubSpec GithubProofs GithubDoneProofs GithubNewProofs.
Local Open Scope string_scope.
Local Open Scope list_scope.

Lemma dedup_cons c t : c <> hyphen -> dedup_hyphens (c :: t) = c :: dedup_hyphens t.
Proof. intros N. cbn [dedup_hyphens]. destruct (dedup_hyphens t) as [|d l]; [reflexivity|]. apply N.eqb_neq in N. now rewrite N. Qed.
Lemma dedup_word w t : hyphen ∉ w -> dedup_hyphens (w ++ t) = w ++ dedup_hyphens t.
Proof.
  intros N. induction w as [|c w IH]; [reflexivity|]. cbn [app]. rewrite dedup_cons by (intros ->; apply N; left). rewrite IH; [reflexivity|]. intros H. apply N. now right.
Qed.
Lemma dedup_start t u : dedup_hyphens t = hyphen :: u -> trim_start u = u.
Proof.
  revert u. induction t as [|c t IH]; intros u; [discriminate|]. cbn [dedup_hyphens]. destruct (dedup_hyphens t) as [|d l] eqn:E.
  - intros H. injection H as -> <-. reflexivity.
  - destruct (N.eqb_spec c hyphen) as [->|N].
    + destruct (N.eqb_spec d hyphen) as [->|Nd].
      * cbn [andb]. intros H. injection H as <-. now apply IH.
      * apply N.eqb_neq in Nd as Nd'. cbn [andb]. intros H. injection H as <-. cbn. now rewrite Nd'.
    + cbn. intros H. injection H as -> _. contradiction.
Qed.
Lemma dedup_hyphen t : dedup_hyphens (hyphen :: t) = hyphen :: trim_start (dedup_hyphens t).
Proof.
  cbn [dedup_hyphens]. destruct (dedup_hyphens t) as [|d l] eqn:E; [reflexivity|]. rewrite N.eqb_refl. cbn [andb trim_start]. destruct (N.eqb_spec d hyphen) as [->|N]; [|reflexivity].
  now rewrite (dedup_start t l E).
Qed.
Lemma trim_twice t : trim_start (trim_start t) = trim_start t.
Proof. induction t as [|c t IH]; [reflexivity|]. cbn. destruct (N.eqb c hyphen) eqn:E; [exact IH|]. cbn. now rewrite E. Qed.
Lemma trim_word w t : word w -> trim_start (w ++ t) = w ++ t.
Proof. intros [Ne N]. destruct w as [|c w]; [contradiction|]. cbn. destruct (N.eqb_spec c hyphen) as [->|]; [|reflexivity]. exfalso. apply N. left. Qed.
Lemma words_ok ws t : words_of ws t -> Forall word ws.
Proof. intros H. induction H; auto using Forall_nil, Forall_cons. Qed.
Lemma words_dedup ws t : words_of ws t -> trim_start (dedup_hyphens t) = hyphenated ws \/ (ws <> [] /\ trim_start (dedup_hyphens t) = hyphenated ws ++ [hyphen]).
Proof.
  intros H. induction H as [|ws t H IH|w W|w ws t W H IH].
  - now left.
  - rewrite dedup_hyphen. cbn [trim_start]. rewrite N.eqb_refl. now rewrite trim_twice.
  - left. rewrite <- (app_nil_r w) at 1. rewrite dedup_word by apply W. rewrite trim_word by exact W. apply app_nil_r.
  - rewrite dedup_word, dedup_hyphen by apply W. rewrite trim_word by exact W. destruct ws as [|v ws].
    + right. split; [discriminate|]. destruct IH as [->|[C _]]; [|contradiction]. reflexivity.
    + destruct IH as [->|[_ ->]]; [left; reflexivity|right]. split; [discriminate|]. cbn [hyphenated]. now rewrite <- app_assoc.
Qed.
Lemma hyphenated_end ws : ws <> [] -> Forall word ws -> exists u c, hyphenated ws = u ++ [c] /\ c <> hyphen.
Proof.
  induction ws as [|w ws IH]; [contradiction|]. intros _ F. inversion F as [|? ? [Nw Hw] F']; subst. destruct ws as [|v ws].
  - cbn. destruct (exists_last Nw) as (u & c & ->). exists u, c. split; [reflexivity|]. intros ->. apply Hw, elem_of_app. right. left.
  - destruct IH as (u & c & E & N); [discriminate|exact F'|]. exists (w ++ hyphen :: u), c. split; [|exact N]. cbn [hyphenated] in *. rewrite E. now rewrite <- app_assoc.
Qed.
Lemma trim_end u c : c <> hyphen -> reverse (trim_start (reverse (u ++ [c]))) = u ++ [c] /\ reverse (trim_start (reverse ((u ++ [c]) ++ [hyphen]))) = u ++ [c].
Proof.
  intros N. apply N.eqb_neq in N. assert (E : reverse (trim_start (reverse (u ++ [c]))) = u ++ [c]).
  { rewrite reverse_app. change (reverse [c] ++ reverse u) with (c :: reverse u). cbn [trim_start]. rewrite N. now rewrite reverse_cons, reverse_involutive. }
  split; [exact E|]. rewrite reverse_app. change (reverse [hyphen] ++ reverse (u ++ [c])) with (hyphen :: reverse (u ++ [c])). cbn [trim_start]. rewrite N.eqb_refl. exact E.
Qed.
Lemma words_trim ws t : words_of ws t -> trim_hyphens (dedup_hyphens t) = hyphenated ws.
Proof.
  intros H. unfold trim_hyphens. pose proof (words_ok _ _ H) as F. destruct (words_dedup ws t H) as [->|[Ne ->]].
  - destruct ws as [|w ws]; [reflexivity|]. destruct (hyphenated_end (w :: ws)) as (u & c & -> & N); [discriminate|exact F|]. now apply trim_end.
  - destruct (hyphenated_end ws Ne F) as (u & c & -> & N). now apply trim_end.
Qed.
Lemma words_exist t : exists ws, words_of ws t.
Proof.
  assert (P : forall t, exists w s, t = w ++ s /\ hyphen ∉ w /\ (s = [] \/ exists s', s = hyphen :: s')).
  { clear t. intros t. induction t as [|c t (w & s & -> & N & H)]; [exists [], []; split_and!; auto using not_elem_of_nil|]. destruct (decide (c = hyphen)) as [->|Nc].
    - exists [], (hyphen :: w ++ s). split_and!; eauto using not_elem_of_nil.
    - exists (c :: w), s. split_and!; auto. intros Hc. apply elem_of_cons in Hc as [Hc|Hc]; [congruence|contradiction]. }
  remember (length t) as k eqn:K. revert t K. induction (lt_wf k) as [k _ IH]. intros t ->. destruct (P t) as (w & s & E & N & Hs).
  destruct Hs as [->|(s' & ->)].
  - rewrite app_nil_r in E. subst t. destruct w as [|c w]; [exists []; constructor|]. exists [c :: w]. constructor. split; [discriminate|exact N].
  - destruct (IH (length s')) with (t := s') as (ws & H); [rewrite E, app_length; cbn; lia|reflexivity|]. rewrite E. destruct w as [|c w]; [exists ws; now constructor|].
    exists ((c :: w) :: ws). constructor; [split; [discriminate|exact N]|exact H].
Qed.
Lemma slug_spec alnum lower summary : alnum hyphen = false -> lower hyphen = [hyphen] -> exists ws, words_of ws (plain_text alnum lower summary) /\
  summary_slug alnum lower summary = (match ws with [] => to_review | _ => hyphenated ws end).
Proof.
  intros A L. destruct (words_exist (plain_text alnum lower summary)) as (ws & H). exists ws. split; [exact H|]. unfold summary_slug.
  assert (E : flat_map (fun c => lower (if alnum c then c else hyphen)) summary = plain_text alnum lower summary).
  { unfold plain_text. clear H. induction summary as [|c l IH]; [reflexivity|]. cbn. rewrite IH. destruct (alnum c); [reflexivity|now rewrite L]. }
  rewrite E, (words_trim ws) by exact H. destruct ws as [|w ws]; [reflexivity|]. pose proof (words_ok _ _ H) as F. inversion F as [|? ? [Ne _] _]; subst.
  destruct (hyphenated_end (w :: ws)) as (u & c & -> & _); [discriminate|exact F|]. destruct u; reflexivity.
Qed.
Lemma new_branch_cases e user o r : let base := user +:+ "/" +:+ he_encode e (summary_slug (he_alnum e) (he_lower e) (he_summary e o)) in
  match new_branch e user o r with
  | Some (n, r') => exists k, (1 <= k <= 5)%N /\ n = candidate base k /\ ~ taken r n /\ (forall j, (1 <= j < k)%N -> taken r (candidate base j)) /\
      he_branch_ok e n = true /\ sr_config r' = sr_config r /\ sr_remotes r' = sr_remotes r /\
      forall b : refname, sr_refs r' !! b = if decide (b = "refs/heads/" +:+ n) then Some o else sr_refs r !! b
  | None => (forall k, (1 <= k <= 5)%N -> taken r (candidate base k)) \/
      exists k, (1 <= k <= 5)%N /\ ~ taken r (candidate base k) /\ he_branch_ok e (candidate base k) = false
  end.
Proof.
  intros base. unfold new_branch. fold base. pose proof (fresh_spec r base 5 2) as F. change (candidate base (2 - 1)) with base in F.
  destruct (fresh_name 5 (sr_refs r) base base 2) as [n|] eqn:E.
  - destruct (proj1 (F n ltac:(lia)) eq_refl) as (k & Hk & Hn & Nt & Hj). cbn in Hk. destruct (he_branch_ok e n) eqn:Ok.
    + exists k. split; [lia|]. split; [exact Hn|]. split; [exact Nt|]. split; [intros j J; apply Hj; lia|]. split; [exact Ok|]. split; [reflexivity|]. split; [reflexivity|].
      intros b. cbn. destruct (decide _) as [->|N]; [apply lookup_insert|]. apply lookup_insert_ne. intros H. apply N. symmetry. exact H.
    + right. exists k. rewrite <- Hn. split_and!; auto; lia.
  - left. intros k Hk. destruct (decide (is_Some (sr_refs r !! local (candidate base k)))) as [T|T]; [exact T|exfalso].
    (* the first that is free *)
    assert (Ex : exists j, (1 <= j <= k)%N /\ ~ taken r (candidate base j) /\ forall i, (1 <= i < j)%N -> taken r (candidate base i)).
    { clear -T Hk. revert Hk T. induction (N.lt_wf_0 k) as [k _ IH]. intros Hk T.
      destruct (decide (Exists (fun i => (i < k)%N /\ ~ is_Some (sr_refs r !! local (candidate base i))) [1; 2; 3; 4]%N)) as [Ex|Ne].
      - apply Exists_exists in Ex as (i & Hi & L & S). assert (1 <= i)%N by (clear -Hi; set_unfold; intuition lia). destruct (IH i L) as (j & Hj & H'); [lia|exact S|]. exists j. split; [lia|exact H'].
      - exists k. split; [lia|]. split; [exact T|]. intros i Hi. destruct (decide (is_Some (sr_refs r !! local (candidate base i)))) as [S|S]; [exact S|]. exfalso. apply Ne, Exists_exists. exists i.
        split; [|split; [lia|exact S]]. assert (i = 1 \/ i = 2 \/ i = 3 \/ i = 4)%N as [->|[->|[->| ->]]] by lia; set_solver. }
    destruct Ex as (j & Hj & Nj & Tj). assert (None = Some (candidate base j)); [|discriminate]. apply (F (candidate base j)); [lia|]. exists j. cbn. split; [lia|]. split_and!; auto.
Qed.

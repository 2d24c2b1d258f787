(** File names of paths, and the rewriting of arguments for a known name. *)
From Verif Require Import Base StrModel StrProofs Utf8Model ArgsModel ArgsSpec.
Local Open Scope string_scope.
Local Open Scope list_scope.

Lemma split_on_join2 c a b : split_on c (a +:+ String c b) = split_on c a ++ split_on c b.
Proof.
  induction a as [|x a IH]; [rewrite sapp_nil; cbn [split_on]; by rewrite Ascii.eqb_refl|].
  rewrite sapp_cons. cbn [split_on]. rewrite IH. destruct (Ascii.eqb x c); [reflexivity|].
  destruct (split_on_cons c a) as (y & ys & ->). reflexivity.
Qed.
Lemma file_name_program p n : program p n -> n <> "" -> n <> "." -> n <> ".." -> file_name p = Some n.
Proof.
  intros [L H] N0 N1 N2. unfold file_name, path_parts.
  assert (K : List.filter (fun x => negb (String.eqb x "" || String.eqb x ".")) [n] = [n]).
  { cbn. destruct (String.eqb_spec n ""); [done|]. by destruct (String.eqb_spec n "."). }
  assert (E : last (List.filter (fun x => negb (String.eqb x "" || String.eqb x ".")) (split_on "/" p)) = Some n).
  { destruct H as [->|[d ->]].
    - rewrite split_on_plain by exact L. by rewrite K.
    - rewrite split_on_join2, (split_on_plain _ n) by exact L. rewrite List.filter_app, K. apply last_snoc. }
  rewrite E. by destruct (String.eqb_spec n "..").
Qed.
Lemma strip_prefix_app p s : strip_prefix p (p +:+ s) = Some s.
Proof. induction p as [|a p IH]; [by destruct s|]. rewrite sapp_cons. cbn [strip_prefix]. by rewrite Ascii.eqb_refl. Qed.
Lemma strip_prefix_inv p s r : strip_prefix p s = Some r -> s = p +:+ r.
Proof.
  revert s. induction p as [|a p IH]; intros s H; cbn in H; [by injection H as <-|]. destruct s as [|b s]; [discriminate|].
  destruct (Ascii.eqb_spec a b) as [<-|]; [|discriminate]. rewrite sapp_cons. f_equal. by apply IH.
Qed.
Lemma strip_prefix_none p s : (forall r, s <> p +:+ r) -> strip_prefix p s = None.
Proof. intros H. destruct (strip_prefix p s) as [r|] eqn:E; [|reflexivity]. apply strip_prefix_inv in E. by destruct (H r). Qed.

Lemma rewrite_program p n rest : program p n -> utf8 n = true -> n <> "" -> n <> "." -> n <> ".." ->
  rewrite_args (p :: rest) = hook_args n (named_args n rest).
Proof. intros P U N0 N1 N2. cbn [rewrite_args]. rewrite (file_name_program p n P N0 N1 N2). unfold to_str. by rewrite U. Qed.

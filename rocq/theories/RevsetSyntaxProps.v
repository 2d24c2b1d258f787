(** Properties C22 and C23: the revset language as text. *)
From Verif Require Import Base RevsetSyntaxModel RevsetSyntaxSpec RevsetSyntaxProofs.
Local Open Scope string_scope.
Local Open Scope list_scope.

(** ** C22: parsing *)

(** The parser accepts exactly the phrases of the grammar ... *)
Theorem c22_parser_follows_grammar : forall s e,
  parse s = Some e <-> exists ts, lex s = Some ts /\ derives 1 ts e.
Proof. exact parse_spec. Qed.

(** ... which gives no token sequence two trees. *)
Theorem c22_unambiguous : forall ts e1 e2, derives 1 ts e1 -> derives 1 ts e2 -> e1 = e2.
Proof. exact grammar_unambiguous. Qed.

(** Of two binary operators in a row the one binding tighter takes the middle
    operand; equals associate to the left. *)
Theorem c22_equal_or_looser_right : forall t1 t2 ta tb tc a b c ab abc,
  derives 5 ta a -> derives 5 tb b -> derives 5 tc c -> (binding t2 <= binding t1)%nat ->
  binary_tree t1 a b = Some ab -> binary_tree t2 ab c = Some abc ->
  parse_tokens (ta ++ t1 :: tb ++ t2 :: tc) = Some abc.
Proof. exact precedence_left. Qed.
Theorem c22_tighter_right : forall t1 t2 ta tb tc a b c bc abc,
  derives 5 ta a -> derives 5 tb b -> derives 5 tc c -> (binding t1 < binding t2)%nat ->
  binary_tree t2 b c = Some bc -> binary_tree t1 a bc = Some abc ->
  parse_tokens (ta ++ t1 :: tb ++ t2 :: tc) = Some abc.
Proof. exact precedence_right. Qed.
(** The postfix operators bind tightest ... *)
Theorem c22_postfix_tightest : forall t p ta tb a b b' e,
  derives 5 ta a -> derives 5 tb b -> nth_tree p b "1" = Some b' -> binary_tree t a b' = Some e ->
  parse_tokens (ta ++ t :: tb ++ [p]) = Some e.
Proof. exact postfix_tightest. Qed.
(** ... and take a number. *)
Theorem c22_nth_number : forall p n nm ta a e,
  derives 5 ta a -> name_of n = Some nm -> nth_tree p a nm = Some e ->
  parse_tokens (ta ++ [p; n]) = Some e.
Proof. exact nth_number. Qed.
(** A range operator may lack either operand. *)
Theorem c22_one_sided_ranges : forall t ta a e, derives 5 ta a ->
  (prefix_tree t a = Some e -> parse_tokens (t :: ta) = Some e) /\
  (postfix_tree t a = Some e -> parse_tokens (ta ++ [t]) = Some e).
Proof. exact range_one_sided. Qed.

(** The operators as they are typed, between printed operands, with any blanks between
    and around them. *)
Theorem c22_operator_text : forall s t a b e w0 w1 w2 w3, (s, t) ∈ spelling -> plain_expr a -> plain_expr b ->
  blank w0 -> blank w1 -> w1 <> "" -> blank w2 -> w2 <> "" -> blank w3 ->
  binary_tree t a b = Some e -> parse (w0 +:+ show a +:+ w1 +:+ s +:+ w2 +:+ show b +:+ w3) = Some e.
Proof. exact operator_text. Qed.
Theorem c22_blanks : forall e w0 w1, plain_expr e -> blank w0 -> blank w1 -> parse (w0 +:+ show e +:+ w1) = Some e.
Proof. exact parse_blanks. Qed.

(** Missing for the full claim: names that need quotes. *)
Theorem c22_print_parse_partial : forall e, plain_expr e -> parse (show e) = Some e.
Proof. exact show_parse. Qed.
(** A quoted name is printed without its quotes and then read differently. *)
Theorem c22_print_parse_refuted : exists text e, parse text = Some e /\ parse (show e) <> Some e.
Proof.
  exists (String dquote (String "a" (String "+" (String "b" (String dquote ""))))), (Name "a+b").
  split; [vm_compute; reflexivity|]. vm_compute. discriminate.
Qed.

Example c22_example :
  parse "a -b" = None /\
  parse "a | b & c:d^2~" = Some (Call "union" [Name "a"; Call "intersection" [Name "b";
    Call "range" [Name "c"; Call "ancestors.nth" [Call "parents.nth" [Name "d"; Name "2"]; Name "1"]]]]) /\
  parse "foo..bar-baz - (x + y)" = Some (Call "difference" [Call "only" [Name "bar-baz"; Name "foo"];
    Call "union" [Name "x"; Name "y"]]) /\
  show (Call "only" [Name "x.y"; Call "all" []]) = "only(x.y, all())" /\
  blank (String "010" (String " " (String "009" ""))) /\
  parse ("a" +:+ String "010" ("| " +:+ String "009" "b")) = Some (Call "union" [Name "a"; Name "b"]) /\
  plain_expr (Call "only" [Name "x.y"; Call "all" []]).
Proof.
  split_and!; try (vm_compute; reflexivity).
  { repeat constructor; apply is_space_blank; reflexivity. }
  assert (P : forall w, dotted_word w -> w <> "or" -> w <> "and" -> w <> "-" -> plain w).
  { intros w H. split; auto. }
  apply plain_call. split; [|constructor; [|constructor; [apply plain_call; split; [|constructor]|constructor]]];
    apply P; try discriminate;
    repeat first [apply word_one; reflexivity | apply word_dot; reflexivity
                 | apply word_more; [reflexivity|] | apply word_dot_more; [reflexivity|]].
Qed.

(** ** C23: string literals *)

(** What a literal denotes: everything behind the first backslash is treated as
    escaped. *)
Theorem c23_exact : forall q a b, has_char "\" a = false ->
  unescape (String q (a +:+ String "\" (b +:+ String q ""))) = a +:+ map_string escaped b.
Proof. exact unescape_exact_escape. Qed.

(** Missing for the full claim: literals with a backslash. *)
Theorem c23_literal_partial : forall q a rest,
  is_quote q -> has_char q a = false -> has_char "\" a = false ->
  exists t, lex_one (String q (a +:+ String q rest)) = Some (t, rest) /\ name_of t = Some a.
Proof.
  intros q a rest Q H1 H2. eexists. split; [apply lex_one_literal; assumption|]. cbn [name_of].
  f_equal. apply unescape_exact_plain; [exact H2|]. destruct Q as [->| ->]; reflexivity.
Qed.

(** A character behind the first escape is not taken literally. *)
Theorem c23_escape_refuted : exists body text, denotes body text /\
  parse (String dquote (body +:+ String dquote "")) <> Some (Name text).
Proof.
  exists "\tan", (String (ascii_of_N 9) "an"). split.
  - repeat (apply den_plain; [discriminate|] || apply (den_escape "t")). constructor.
  - vm_compute. discriminate.
Qed.
(** A backslash followed by the letter n cannot be written at all. *)
Theorem c23_every_text_refuted : exists text, forall t, name_of t = Some text -> exists s, t = TWord s.
Proof.
  exists (String "\" "n"). intros t E. destruct t; try discriminate; [eauto|].
  injection E as E. exfalso. exact (no_backslash_n _ E).
Qed.
(** A literal that ends in an escaped backslash swallows the text up to the next
    quote. *)
Theorem c23_separate_refuted : exists a b x y, denotes a x /\ denotes b y /\
  parse (String dquote (b +:+ String dquote "")) = Some (Name y) /\
  parse (String dquote (a +:+ String dquote "") +:+ "|" +:+ String dquote (b +:+ String dquote ""))
    <> Some (Call "union" [Name x; Name y]).
Proof.
  exists "\\", "b", "\", "b". split_and!.
  - apply (den_escape "\"). constructor.
  - apply den_plain; [discriminate|constructor].
  - vm_compute. reflexivity.
  - vm_compute. discriminate.
Qed.

Example c23_example :
  parse "message('foo bar')" = Some (Call "message" [Name "foo bar"]) /\
  parse "'a\tb'" = Some (Name (String "a" (String (ascii_of_N 9) "b"))).
Proof. split; vm_compute; reflexivity. Qed.

Print Assumptions c22_parser_follows_grammar.
Print Assumptions c22_unambiguous.
Print Assumptions c22_tighter_right.
Print Assumptions c22_operator_text.
Print Assumptions c22_blanks.
Print Assumptions c22_print_parse_partial.
Print Assumptions c22_print_parse_refuted.
Print Assumptions c23_exact.
Print Assumptions c23_literal_partial.
Print Assumptions c23_every_text_refuted.
Print Assumptions c23_separate_refuted.

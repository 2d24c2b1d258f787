(** Model of the revset language: syntax trees, tokens and grammar
    (git-branchless-revset/src/ast.rs, grammar.lalrpop, parser.rs).

    Texts are strings of bytes.  The generated lexer takes the longest match
    among all tokens, a fixed token before a pattern of the same length, and
    skips white space. *)
From Verif Require Import Base.
Local Open Scope string_scope.
Local Open Scope list_scope.

(** [Expr] (ast.rs:6-10). *)
Inductive expr := Name (s : string) | Call (f : string) (args : list expr).

(** [Display for Expr] (ast.rs:12-28). *)
Fixpoint show (e : expr) : string :=
  match e with
  | Name s => s
  | Call f args =>
      let fix show_args (first : bool) (l : list expr) : string :=
        match l with
        | [] => ""
        | a :: l' => (if first then "" else ", ") +:+ show a +:+ show_args false l'
        end in
      f +:+ "(" +:+ show_args true args +:+ ")"
  end.

(** [Expr::replace_names] (ast.rs:36-48). *)
Fixpoint replace_names (m : gmap string expr) (e : expr) : expr :=
  match e with
  | Name s => match m !! s with Some e' => e' | None => Name s end
  | Call f args => Call f (List.map (replace_names m) args)
  end.

(** The tokens of grammar.lalrpop. *)
Inductive token :=
| TPipe | TPlus | TOr
| TAmp | TAnd | TMinus | TPercent
| TColon | TColonColon | TDotDot
| TCaret | TTilde
| TOpen | TClose | TComma
| TWord (s : string)
| TLiteral (s : string).
Definition fixed_tokens : list (string * token) :=
  [("|", TPipe); ("+", TPlus); ("or", TOr); ("&", TAmp); ("and", TAnd); ("-", TMinus);
   ("%", TPercent); (":", TColon); ("::", TColonColon); ("..", TDotDot); ("^", TCaret);
   ("~", TTilde); ("(", TOpen); (")", TClose); (",", TComma)].

(** The class [a-zA-Z0-9_$@/-] (grammar.lalrpop:60). *)
Definition word_char (c : ascii) : bool :=
  let n := N_of_ascii c in
  (((97 <=? n) && (n <=? 122)) || ((65 <=? n) && (n <=? 90)) || ((48 <=? n) && (n <=? 57)))%N
  || existsb (Ascii.eqb c) ["_"; "$"; "@"; "/"; "-"]%char.

(** Length of the longest match of the first pattern of [Name]
    (grammar.lalrpop:60). *)
Fixpoint word_len (s : string) : nat :=
  match s with
  | EmptyString => 0
  | String a s' =>
      if word_char a then S (word_len s')
      else if Ascii.eqb a "." then
        match s' with
        | String b s'' => if word_char b then S (S (word_len s'')) else 0
        | EmptyString => 0
        end
      else 0
  end.
Definition word_match (s : string) : nat :=
  match word_len s with
  | O => if starts_with "." s then 1 else 0
  | n => n
  end.

(** Length of the longest match of the second pattern of [Name]
    (grammar.lalrpop:66) behind the opening quote [q].  A quote can be passed
    when a backslash stands before it ([prev]); since the backslash is also an
    ordinary character there, the match may also end at such a quote. *)
Fixpoint literal_end (q : ascii) (prev : bool) (s : string) : option nat :=
  match s with
  | EmptyString => None
  | String a s' =>
      if Ascii.eqb a q then
        if prev then
          match literal_end q false s' with Some n => Some (S n) | None => Some 1%nat end
        else Some 1%nat
      else option_map S (literal_end q (Ascii.eqb a "\") s')
  end.
Definition dquote : ascii := ascii_of_N 34.
Definition squote : ascii := "'"%char.
Definition literal_match (s : string) : nat :=
  match s with
  | String a s' =>
      if Ascii.eqb a dquote || Ascii.eqb a squote then
        match literal_end a false s' with Some n => S n | None => 0 end
      else 0
  | EmptyString => 0
  end.

(** One token: the longest match, the first of equals. *)
Definition candidates (s : string) : list (nat * token) :=
  flat_map (fun pt => if starts_with (fst pt) s then [(String.length (fst pt), snd pt)] else [])
    fixed_tokens
  ++ (let n := word_match s in [(n, TWord (substring 0 n s))])
  ++ (let n := literal_match s in [(n, TLiteral (substring 0 n s))]).
Definition longest (l : list (nat * token)) (dflt : nat * token) : nat * token :=
  fold_left (fun best c => if Nat.ltb (fst best) (fst c) then c else best) l dflt.
Fixpoint drop_string (n : nat) (s : string) : string :=
  match n, s with
  | S n', String _ s' => drop_string n' s'
  | _, _ => s
  end.
Definition lex_one (s : string) : option (token * string) :=
  match longest (candidates s) (0, TComma) with
  | (O, _) => None
  | (n, t) => Some (t, drop_string n s)
  end.

Definition is_space (c : ascii) : bool :=
  let n := N_of_ascii c in ((n =? 32) || ((9 <=? n) && (n <=? 13)))%N.
Fixpoint skip_space (s : string) : string :=
  match s with
  | String c s' => if is_space c then skip_space s' else s
  | EmptyString => s
  end.
(** Each step consumes at least one character; [fuel] counts characters. *)
Fixpoint lex_fuel (fuel : nat) (s : string) : option (list token) :=
  match skip_space s with
  | EmptyString => Some []
  | s1 =>
      match fuel with
      | O => None
      | S fuel' =>
          match lex_one s1 with
          | None => None
          | Some (t, s2) => option_map (cons t) (lex_fuel fuel' s2)
          end
      end
  end.
Definition lex (s : string) : option (list token) := lex_fuel (String.length s) s.

(** The loop over the characters of a string literal behind the opening quote
    (grammar.lalrpop:70-84).  [last_char_was_backslash] is never cleared. *)
Definition unescape_char (c : ascii) : ascii :=
  if Ascii.eqb c "n" then ascii_of_N 10
  else if Ascii.eqb c "r" then ascii_of_N 13
  else if Ascii.eqb c "t" then ascii_of_N 9
  else c.
Fixpoint unescape_loop (last_char_was_backslash : bool) (s : string) : string :=
  match s with
  | EmptyString => ""
  | String c s' =>
      if last_char_was_backslash then String (unescape_char c) (unescape_loop true s')
      else if Ascii.eqb c "\" then unescape_loop true s'
      else String c (unescape_loop false s')
  end.
(** [String::pop] (grammar.lalrpop:86). *)
Fixpoint pop (s : string) : string :=
  match s with
  | EmptyString => ""
  | String _ EmptyString => ""
  | String c s' => String c (pop s')
  end.
Definition unescape (lit : string) : string :=
  match lit with
  | EmptyString => ""
  | String _ s => pop (unescape_loop false s)
  end.

(** [Name] (grammar.lalrpop:58-89). *)
Definition name_of (t : token) : option string :=
  match t with
  | TWord s => Some s
  | TLiteral s => Some (unescape s)
  | _ => None
  end.

(** The operators of [Expr] (10-12), [Expr2] (17-20), [Expr3] (25-37) and
    [Expr4] (43-47) with the trees they build. *)
Definition union_op (t : token) : option (expr -> expr -> expr) :=
  match t with
  | TPipe | TPlus | TOr => Some (fun l r => Call "union" [l; r])
  | _ => None
  end.
Definition set_op (t : token) : option (expr -> expr -> expr) :=
  match t with
  | TAmp | TAnd => Some (fun l r => Call "intersection" [l; r])
  | TMinus => Some (fun l r => Call "difference" [l; r])
  | TPercent => Some (fun l r => Call "only" [l; r])
  | _ => None
  end.
Definition range_op (t : token) : option (expr -> expr -> expr) :=
  match t with
  | TColon | TColonColon => Some (fun l r => Call "range" [l; r])
  | TDotDot => Some (fun l r => Call "only" [r; l])
  | _ => None
  end.
Definition range_postfix (t : token) : option (expr -> expr) :=
  match t with
  | TColon | TColonColon => Some (fun l => Call "descendants" [l])
  | TDotDot => Some (fun l => Call "only" [Name "."; l])
  | _ => None
  end.
Definition range_prefix (t : token) : option (expr -> expr) :=
  match t with
  | TColon | TColonColon => Some (fun r => Call "ancestors" [r])
  | TDotDot => Some (fun r => Call "only" [r; Name "."])
  | _ => None
  end.
Definition nth_op (t : token) : option string :=
  match t with
  | TCaret => Some "parents.nth"
  | TTilde => Some "ancestors.nth"
  | _ => None
  end.

(** The grammar (grammar.lalrpop:9-98).  Levels 1 to 5 are [Expr] to [Expr5]. *)
Inductive derives : nat -> list token -> expr -> Prop :=
| d_union t k ts1 ts2 l r : union_op t = Some k ->
    derives 1 ts1 l -> derives 2 ts2 r -> derives 1 (ts1 ++ t :: ts2) (k l r)
| d_1 ts e : derives 2 ts e -> derives 1 ts e
| d_set t k ts1 ts2 l r : set_op t = Some k ->
    derives 2 ts1 l -> derives 3 ts2 r -> derives 2 (ts1 ++ t :: ts2) (k l r)
| d_2 ts e : derives 3 ts e -> derives 2 ts e
| d_range t k ts1 ts2 l r : range_op t = Some k ->
    derives 3 ts1 l -> derives 4 ts2 r -> derives 3 (ts1 ++ t :: ts2) (k l r)
| d_postfix t k ts1 l : range_postfix t = Some k ->
    derives 3 ts1 l -> derives 3 (ts1 ++ [t]) (k l)
| d_prefix t k ts2 r : range_prefix t = Some k ->
    derives 4 ts2 r -> derives 3 (t :: ts2) (k r)
| d_3 ts e : derives 4 ts e -> derives 3 ts e
| d_nth_1 t f ts1 l : nth_op t = Some f ->
    derives 4 ts1 l -> derives 4 (ts1 ++ [t]) (Call f [l; Name "1"])
| d_nth t f n nm ts1 l : nth_op t = Some f -> name_of n = Some nm ->
    derives 4 ts1 l -> derives 4 (ts1 ++ [t; n]) (Call f [l; Name nm])
| d_4 ts e : derives 5 ts e -> derives 4 ts e
| d_paren ts e : derives 1 ts e -> derives 5 (TOpen :: ts ++ [TClose]) e
| d_call n nm ts args : name_of n = Some nm ->
    derives_args ts args -> derives 5 (n :: TOpen :: ts ++ [TClose]) (Call nm args)
| d_name n nm : name_of n = Some nm -> derives 5 [n] (Name nm)
with derives_args : list token -> list expr -> Prop :=
| a_nil : derives_args [] []
| a_last ts e : derives 1 ts e -> derives_args ts [e]
| a_cons ts e ts' es : derives 1 ts e -> derives_args ts' es ->
    derives_args (ts ++ TComma :: ts') (e :: es).

(** The generated LR(1) parser, written as a recursive descent with one token of
    lookahead.  [None]: error or exhausted fuel. *)
Definition starts_operand (ts : list token) : bool :=
  match ts with
  | (TOpen | TWord _ | TLiteral _) :: _ => true
  | _ => false
  end.
Fixpoint parse_level (fuel : nat) (lvl : nat) (ts : list token) : option (expr * list token) :=
  match fuel with
  | O => None
  | S fuel =>
      match lvl with
      | 1 | 2 | 4 =>
          match parse_level fuel (S lvl) ts with
          | Some (e, ts') => parse_rest fuel lvl e ts'
          | None => None
          end
      | 3 =>
          match ts with
          | [] => None
          | t :: ts1 =>
              match range_prefix t with
              | Some k =>
                  match parse_level fuel 4 ts1 with
                  | Some (e, ts') => parse_rest fuel 3 (k e) ts'
                  | None => None
                  end
              | None =>
                  match parse_level fuel 4 ts with
                  | Some (e, ts') => parse_rest fuel 3 e ts'
                  | None => None
                  end
              end
          end
      | _ =>
          match ts with
          | [] => None
          | TOpen :: ts1 =>
              match parse_level fuel 1 ts1 with
              | Some (e, TClose :: ts') => Some (e, ts')
              | _ => None
              end
          | n :: ts1 =>
              match name_of n with
              | None => None
              | Some nm =>
                  match ts1 with
                  | TOpen :: ts2 =>
                      match parse_args fuel ts2 with
                      | Some (args, TClose :: ts') => Some (Call nm args, ts')
                      | _ => None
                      end
                  | _ => Some (Name nm, ts1)
                  end
              end
          end
      end
  end
with parse_rest (fuel : nat) (lvl : nat) (l : expr) (ts : list token) : option (expr * list token) :=
  match fuel with
  | O => None
  | S fuel =>
      match ts with
      | [] => Some (l, ts)
      | t :: ts1 =>
          match lvl with
          | 1 =>
              match union_op t with
              | None => Some (l, ts)
              | Some k => match parse_level fuel 2 ts1 with
                          | Some (r, ts') => parse_rest fuel 1 (k l r) ts'
                          | None => None
                          end
              end
          | 2 =>
              match set_op t with
              | None => Some (l, ts)
              | Some k => match parse_level fuel 3 ts1 with
                          | Some (r, ts') => parse_rest fuel 2 (k l r) ts'
                          | None => None
                          end
              end
          | 3 =>
              match range_op t, range_postfix t with
              | Some k, Some k1 =>
                  if starts_operand ts1 then
                    match parse_level fuel 4 ts1 with
                    | Some (r, ts') => parse_rest fuel 3 (k l r) ts'
                    | None => None
                    end
                  else parse_rest fuel 3 (k1 l) ts1
              | _, _ => Some (l, ts)
              end
          | _ =>
              match nth_op t with
              | None => Some (l, ts)
              | Some f =>
                  match ts1 with
                  | n :: ts2 =>
                      match name_of n with
                      | Some nm => parse_rest fuel 4 (Call f [l; Name nm]) ts2
                      | None => parse_rest fuel 4 (Call f [l; Name "1"]) ts1
                      end
                  | [] => parse_rest fuel 4 (Call f [l; Name "1"]) ts1
                  end
              end
          end
      end
  end
with parse_args (fuel : nat) (ts : list token) : option (list expr * list token) :=
  match fuel with
  | O => None
  | S fuel =>
      match ts with
      | TClose :: _ => Some ([], ts)
      | _ =>
          match parse_level fuel 1 ts with
          | Some (e, TComma :: ts1) =>
              match parse_args fuel ts1 with
              | Some (es, ts') => Some (e :: es, ts')
              | None => None
              end
          | Some (e, ts1) => Some ([e], ts1)
          | None => None
          end
      end
  end.
Definition parse_tokens (ts : list token) : option expr :=
  match parse_level (6 * length ts + 6) 1 ts with
  | Some (e, []) => Some e
  | _ => None
  end.

(** [parse] (parser.rs:19-21) without error messages. *)
Definition parse (s : string) : option expr :=
  match lex s with
  | Some ts => parse_tokens ts
  | None => None
  end.

(** What a terminal shows: characters, each in a style.  ECMA-48: ESC [ numbers m selects
    the style of what follows. *)
From Verif Require Import Base ColourModel.
Local Open Scope list_scope.

(** The colour, if not the terminal's own, and the effects that are on, by number. *)
Record look := mk_look { l_color : option N; l_effects : gset N }.
Definition own : look := mk_look None ∅.

Definition select (ps : list N) (s : look) : look :=
  match ps with
  | [0%N] => own
  | [38%N; 5%N; c] => mk_look (Some c) (l_effects s)
  | [n] => if decide (1 <= n <= 9)%N then mk_look (l_color s) ({[n]} ∪ l_effects s)
           else if decide (30 <= n <= 37)%N then mk_look (Some (n - 30)%N) (l_effects s)
           else s
  | _ => s
  end.
Inductive reading := Text | AfterEsc | Numbers (ps : list N) (cur : N).
Fixpoint terminal (m : reading) (s : look) (l : list ascii) : list (ascii * look) * reading * look :=
  match l with
  | [] => ([], m, s)
  | c :: l' =>
      match m with
      | Text =>
          if decide (N_of_ascii c = 27%N) then terminal AfterEsc s l'
          else let '(shown, m', s') := terminal Text s l' in ((c, s) :: shown, m', s')
      | AfterEsc => terminal (if decide (c = "["%char) then Numbers [] 0 else Text) s l'
      | Numbers ps cur =>
          if decide (48 <= N_of_ascii c <= 57)%N then terminal (Numbers ps (cur * 10 + (N_of_ascii c - 48))%N) s l'
          else if decide (c = ";"%char) then terminal (Numbers (ps ++ [cur]) 0) s l'
          else if decide (c = "m"%char) then terminal Text (select (ps ++ [cur]) s) l'
          else terminal Text s l'
      end
  end.

(** The look that a style asks for. *)
Definition base_number (c : base_color) : N :=
  match c with Black => 0 | Red => 1 | Green => 2 | Yellow => 3 | Blue => 4 | Magenta => 5 | Cyan => 6 | White => 7 end%N.
Definition effect_numbers (e : effect) : gset N :=
  match e with
  | Simple => ∅
  | Bold => {[1%N]} | Dim => {[2%N]} | Italic => {[3%N]} | Underline => {[4%N]} | Blink => {[5%N]} | Reverse => {[7%N]}
  | Strikethrough => {[9%N]}
  end.
Definition look_of (s : style) : look :=
  mk_look match s_front s with
          | Dark c => Some (base_number c)
          | Light c => Some (8 + base_number c)%N
          | _ => None
          end (⋃ (effect_numbers <$> s_effects s)).

Definition supported (s : style) : Prop := s_front s <> Palette /\ s_front s <> Rgb /\ Strikethrough ∉ s_effects s.
Definition no_esc (l : list ascii) : Prop := forall c, c ∈ l -> N_of_ascii c <> 27%N.
Definition text_of (t : styled) : list ascii := t ≫= fst.

(** Model of how styled text is written (git-branchless-lib/src/core/formatting.rs:234-251,
    265-360 and 368-430). *)
From Verif Require Import Base TextModel.
Local Open Scope string_scope.
Local Open Scope list_scope.

(** Colours and effects of the crate cursive, which formatting.rs:368-417 matches on. *)
Inductive base_color := Black | Red | Green | Yellow | Blue | Magenta | Cyan | White.
Inductive front := Palette | Rgb | InheritParent | TerminalDefault | Light (c : base_color) | Dark (c : base_color).
Inductive effect := Simple | Dim | Reverse | Bold | Italic | Strikethrough | Underline | Blink.
Record style := mk_style { s_front : front; s_effects : list effect }.
Definition plain_style : style := mk_style InheritParent [].

(** A styled string: spans of text (used in formatting.rs:234-251). *)
Definition styled := list (list ascii * style).

(** The crate console: numbers of colours and of effects, those in the order in which they
    are written (called from formatting.rs:381-429). *)
Definition color_number (c : base_color) : Z :=
  match c with Black => 0 | Red => 1 | Green => 2 | Yellow => 3 | Blue => 4 | Magenta => 5 | Cyan => 6 | White => 7 end%Z.
Definition attr_numbers : list Z := [1; 2; 3; 4; 5; 7]%Z.

(** The effects (formatting.rs:405-420): [None] if one is not implemented, [Some None] if
    there is nothing to do for it. *)
Definition attr_of (e : effect) : option (option Z) :=
  match e with
  | Simple => Some None
  | Dim => Some (Some 2%Z)
  | Reverse => Some (Some 7%Z)
  | Bold => Some (Some 1%Z)
  | Italic => Some (Some 3%Z)
  | Strikethrough => None
  | Underline => Some (Some 4%Z)
  | Blink => Some (Some 5%Z)
  end.
Fixpoint attrs_of (es : list effect) : option (list Z) :=
  match es with
  | [] => Some []
  | e :: es' =>
      match attr_of e, attrs_of es' with
      | Some (Some a), Some l => Some (a :: l)
      | Some None, Some l => Some l
      | _, _ => None
      end
  end.

(** The colour (formatting.rs:374-402): the number and whether it is bright; [None] if it is
    not implemented, [Some None] if there is nothing to do. *)
Definition color_of (f : front) : option (option (Z * bool)) :=
  match f with
  | Palette | Rgb => None
  | InheritParent | TerminalDefault => Some None
  | Light c => Some (Some (color_number c, true))
  | Dark c => Some (Some (color_number c, false))
  end.

(** [StyledObject::fmt] of the crate console, with [force_styling(true)]
    (formatting.rs:422-429): codes, text, and a reset if there were codes. *)
Definition esc : ascii := ascii_of_N 27.
Definition code (text : string) : list ascii := esc :: "["%char :: list_ascii_of_string text ++ ["m"%char].
Definition color_code (c : Z * bool) : list ascii :=
  let '(n, bright) := c in
  if bright then code ("38;5;" +:+ isize_to_string (n + 8)) else code (isize_to_string (n + 30)).
Definition write_styled (content : list ascii) (c : option (Z * bool)) (attrs : list Z) : list ascii :=
  let attrs := List.filter (fun a => bool_decide (a ∈ attrs)) attr_numbers in
  let codes := match c with Some c => color_code c | None => [] end
               ++ List.concat (List.map (fun a => code (isize_to_string a)) attrs) in
  codes ++ content ++ match codes with [] => [] | _ => code "0" end.

(** [render_style_as_ansi] (formatting.rs:368-430); [None] for an error. *)
Definition render_style (content : list ascii) (s : style) : option (list ascii) :=
  match color_of (s_front s), attrs_of (s_effects s) with
  | Some c, Some attrs => Some (write_styled content c attrs)
  | _, _ => None
  end.

(** [Glyphs::render] (formatting.rs:234-251). *)
Fixpoint render (ansi : bool) (t : styled) : option (list ascii) :=
  match t with
  | [] => Some []
  | (content, s) :: t' =>
      match (if ansi then render_style content s else Some content), render ansi t' with
      | Some a, Some b => Some (a ++ b)
      | _, _ => None
      end
  end.

(** [StyledStringBuilder] (formatting.rs:265-323): what was appended, one after another;
    [join] (formatting.rs:327-339), [from_lines] (formatting.rs:344-351). *)
Definition newline_char : ascii := ascii_of_N 10.
Fixpoint join_styled (first : bool) (delimiter : list ascii) (l : list styled) : styled :=
  match l with
  | [] => []
  | t :: l' => (if first then [] else [(delimiter, plain_style)]) ++ t ++ join_styled false delimiter l'
  end.
Definition from_lines (l : list styled) : styled := List.concat (List.map (fun t => t ++ [([newline_char], plain_style)]) l).

(** [set_effect] (formatting.rs:355-360). *)
Definition set_effect (t : styled) (e : effect) : styled :=
  List.map (fun sp => (sp.1, mk_style (s_front sp.2) (e :: s_effects sp.2))) t.

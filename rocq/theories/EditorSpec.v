(** What is expected of editing a message. *)
From Verif Require Import Base StrModel EditorModel.
Local Open Scope string_scope.
Local Open Scope list_scope.

(** Line feeds and carriage returns only. *)
Definition only_newlines (n : string) : Prop :=
  forall c, c ∈ list_ascii_of_string n -> c = ascii_of_nat 10 \/ c = ascii_of_nat 13.

(** The editor as documented for [git var]: what Git says, or else the first that is set. *)
Inductive first_set : list (option string) -> string -> Prop :=
| first_here e l : first_set (Some e :: l) e
| first_later e l : first_set l e -> first_set (None :: l) e.
Definition chosen (w : surroundings) (e : string) : Prop :=
  match git_var w with
  | Some out => e = trim_end out
  | None => first_set [env_git_editor w; core_editor w; env_visual w; env_editor w; Some "vi"] e
  end.

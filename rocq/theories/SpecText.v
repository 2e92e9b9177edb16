(** Indented outlines. *)
From Verif Require Export Base.
Local Open Scope string_scope.

(** [n] copies of [u] *)
Fixpoint times (n : nat) (u : string) : string :=
  match n with 0 => "" | S n => u +:+ times n u end.
Definition line_end : string := String "010"%char "".
Definition has_char (c : ascii) (s : string) : Prop := ∃ s1 s2, s = s1 +:+ String c s2.
Definition occurs (u s : string) : Prop := ∃ s1 s2, s = s1 +:+ u +:+ s2.
Definition space_or_tab (c : ascii) : Prop := c = " "%char ∨ c = "009"%char.
(** The white space of a Python regular expression, as far as Latin-1 goes. *)
Definition white (c : ascii) : Prop :=
  let n := nat_of_ascii c in 9 ≤ n ≤ 13 ∨ 28 ≤ n ≤ 32 ∨ n = 133 ∨ n = 160.

(** An outline: a level and a text for each line; the first level is 0, and each
    level is at most one deeper than the one before. *)
Fixpoint outline_from (deepest : nat) (o : list (nat * string)) : Prop :=
  match o with
  | [] => True
  | (level, _) :: o => level ≤ deepest ∧ outline_from (S level) o
  end.
Definition outline (o : list (nat * string)) : Prop := outline_from 0 o.
(** The text of a line, when printed with indent unit [u]: one line that starts
    with a visible character which is not used for indenting. *)
Definition text_line (u s : string) : Prop :=
  ¬ has_char "010"%char s ∧ ∃ c s', s = String c s' ∧ ¬ white c ∧ ¬ has_char c u.
(** The printed line, possibly with newline characters at its end. *)
Definition printed (u : string) (lc : nat * string) (line : string) : Prop :=
  ∃ k, line = times lc.1 u +:+ lc.2 +:+ times k line_end.
(** The parent of line [i]: the last earlier line that is one level up. *)
Definition parent_line (o : list (nat * string)) (i : nat) (p : option nat) : Prop :=
  match o.*1 !! i, p with
  | Some 0, None => True
  | Some (S l), Some j => j < i ∧ o.*1 !! j = Some l ∧ ∀ j', j < j' < i → o.*1 !! j' ≠ Some l
  | _, _ => False
  end.
(** The same for outlines with blank lines, which are nobody's parent. *)
Definition parent_text (o : list (nat * string)) (i : nat) (p : option nat) : Prop :=
  match o.*1 !! i, p with
  | Some 0, None => True
  | Some (S l), Some j => j < i ∧ (∃ s, o !! j = Some (l, s) ∧ s ≠ "") ∧ ∀ j' s, j < j' < i → o !! j' = Some (l, s) → s = ""
  | _, _ => False
  end.

(** Quotes around the text values of styles (C91). *)
From Verif Require Export SpecDot.
Local Open Scope string_scope.

(** [n] double quotes. *)
Fixpoint quotes (n : nat) : string := match n with 0 => "" | S n => Qt +:+ quotes n end.
(** A text that neither begins nor ends with a double quote. *)
Definition bare (m : string) : Prop := (∀ s, m ≠ Qt +:+ s) ∧ (∀ s, m ≠ s +:+ Qt).
(** [v] is [w], with quotes around it if it is a text. *)
Definition wraps (v w : pv) : Prop := v = w ∨ ∃ p q m, bare m ∧ v = PStr (quotes p +:+ m +:+ quotes q) ∧ w = PStr m.
(** [s] has the attribute [k] with a quoted value, which is read as [v]. *)
Definition item_read (s k v : string) : Prop := ∃ pre mid post, s = pre +:+ Qt +:+ k +:+ Qt +:+ "=" +:+ mid ∧ read_quoted mid = Some (v, post).

(** Vocabulary for C84: the parts of a file path. *)
From Verif Require Export SpecText.
Local Open Scope string_scope.

(** [c] occurs in [s]. *)
Definition occurs (c : ascii) (s : string) : Prop := ∃ a b, s = a +:+ String c b.
(** [ext] is the extension of the path [root ++ ext]: a dot and what follows it, without
    further dots or slashes, behind a file name that does not consist of dots only. *)
Definition extension (root ext : string) : Prop :=
  ∃ dir base e, root = dir +:+ base ∧ ext = String "." e ∧ ¬ occurs "." e ∧ ¬ occurs "/" e ∧
    ¬ occurs "/" base ∧ (dir = "" ∨ ∃ d, dir = d +:+ "/") ∧ ∃ c, occurs c base ∧ c ≠ "."%char.

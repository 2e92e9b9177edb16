(** Property theorems; the proofs are in ProofC44.v. *)
From Verif Require Import ProofC44.
Local Open Scope string_scope.

(** C84, partial.  Missing: other extensions than .pdf, see below.  If the path has an
    extension, it is replaced by .pdf: the file written is the one asked for iff the
    extension is .pdf. *)
Theorem C84_extension_partial : ∀ root ext, extension root ext →
  saved_file (root +:+ ext) = root +:+ ".pdf" ∧ (saved_file (root +:+ ext) = root +:+ ext ↔ ext = ".pdf").
Proof. exact C84_extension_partial_proof. Qed.
Print Assumptions C84_extension_partial.

(** C84, partial.  If it has none, .pdf is appended. *)
Theorem C84_plain_partial : ∀ path, (∀ root ext, path = root +:+ ext → ¬ extension root ext) → saved_file path = path +:+ ".pdf".
Proof. exact C84_plain_partial_proof. Qed.
Print Assumptions C84_plain_partial.

(** C84 is false: asked for g.png, render writes g.pdf. *)
Theorem C84_format_refuted : ∃ root ext, extension root ext ∧ root +:+ ext = "out/g.png" ∧ saved_file (root +:+ ext) = "out/g.pdf".
Proof. exact C84_format_refuted_proof. Qed.
Print Assumptions C84_format_refuted.

(** C84 is not vacuous: a path with dots in the directory, and one whose name starts with a
    dot, which is not an extension. *)
Example C84_ex : saved_file "a.b/.g" = "a.b/.g.pdf" ∧ saved_file "a.b/g" = "a.b/g.pdf" ∧ saved_file "a.b/g.x.svg" = "a.b/g.x.pdf" ∧
  saved_file "g.pdf" = "g.pdf" ∧ (∀ root ext, "a.b/.g" = root +:+ ext → ¬ extension root ext).
Proof. exact C84_ex_proof. Qed.
Print Assumptions C84_ex.

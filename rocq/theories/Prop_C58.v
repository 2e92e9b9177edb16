(** Property theorems; the proofs are in ProofC58.v. *)
From Verif Require Import ProofC58.
Local Open Scope string_scope.
Local Open Scope list_scope.

(** C35.  The default function for adding two values: integers and other numbers are added
    and texts joined; a missing first value gives the second one, and a missing second
    value the first one if that is neither zero nor the empty text.  Missing: those two
    (C35_default_refuted). *)
Theorem C35_default_partial : 
  (∀ a b, default_add (PInt a) (PInt b) = Ok (PInt (a + b))) ∧
  (∀ p q, default_add (PFlt p) (PFlt q) = Ok (PFlt (p + q)%Q)) ∧
  (∀ a q, ∃ s, default_add (PInt a) (PFlt q) = Ok (PFlt s) ∧ (s == inject_Z a + q)%Q) ∧
  (∀ q a, ∃ s, default_add (PFlt q) (PInt a) = Ok (PFlt s) ∧ (s == inject_Z a + q)%Q) ∧
  (∀ s t, default_add (PStr s) (PStr t) = Ok (PStr (s +:+ t))) ∧
  (∀ v, default_add PNone v = Ok v) ∧
  (∀ v, v ≠ PInt 0 → v ≠ PStr "" → (∀ q, v = PFlt q → ¬ (q == 0)%Q) → default_add v PNone = Ok v).
Proof. exact C35_default_partial_proof. Qed.
Print Assumptions C35_default_partial.

(** C35 refuted: the values 0 and None add up to None, not to 0. *)
Theorem C35_default_refuted : ∃ v, v ≠ PNone ∧ default_add v PNone ≠ Ok v ∧ default_add v PNone = Ok PNone.
Proof. exact C35_default_refuted_proof. Qed.
Print Assumptions C35_default_refuted.

(** C35, instances: 3 and a missing value; a missing value and 0; 3 and 4. *)
Example C35_default_ex : PInt 3 ≠ PInt 0 ∧ PInt 3 ≠ PStr "" ∧ (∀ q, PInt 3 = PFlt q → ¬ (q == 0)%Q) ∧
  default_add (PInt 3) PNone = Ok (PInt 3) ∧ default_add PNone (PInt 0) = Ok (PInt 0) ∧ default_add (PInt 3) (PInt 4) = Ok (PInt 7).
Proof. exact C35_default_ex_proof. Qed.
Print Assumptions C35_default_ex.

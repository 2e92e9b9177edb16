(** Property theorems; the proofs are in ProofC56.v. *)
From Verif Require Import ProofC56.
Local Open Scope string_scope.

(** C38.  For nodes with any names, whatever their kinds: < is transitive and never holds both
    ways; == is an equivalence compatible with <.  (A comparison that raises is not true.) *)
Theorem C38_all_laws : ∀ h x y z X Y Z, h_nodes h !! x = Some X → h_nodes h !! y = Some Y → h_nodes h !! z = Some Z →
  (node_lt h x y = Ok true → node_lt h y z = Ok true → node_lt h x z = Ok true) ∧
  (node_lt h x y = Ok true → node_lt h y x ≠ Ok true) ∧
  (node_eq h x y = Ok true → node_eq h y z = Ok true → node_eq h x z = Ok true) ∧
  (node_eq h x y = Ok true → node_lt h y z = Ok true → node_lt h x z = Ok true) ∧
  (node_lt h x y = Ok true → node_eq h y z = Ok true → node_lt h x z = Ok true) ∧
  node_eq h x x = Ok true ∧ (node_eq h x y = Ok true → node_eq h y x = Ok true).
Proof. exact C38_all_laws_proof. Qed.
Print Assumptions C38_all_laws.

(** C38, instance: 9 < 10 < a node with a str name and a larger index. *)
Example C38_all_laws_ex : ∃ h, reachable h ∧ (n_id <$> h_nodes h) = [NInt 9; NInt 10; nm "a"] ∧
  node_lt h 0 1 = Ok true ∧ node_lt h 1 2 = Ok true ∧ node_lt h 0 2 = Ok true.
Proof. exact C38_all_laws_ex_proof. Qed.
Print Assumptions C38_all_laws_ex.

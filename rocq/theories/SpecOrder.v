(** The (index, name) order of nodes, for properties C04, C38 and C54. *)
From Verif Require Export SpecOps.

(** Names: strings in the lexicographic order of String.compare, ints by size; a
    string and an int cannot be compared. *)
Definition same_kind (a b : name) : Prop :=
  match a, b with NStr _, NStr _ | NInt _, NInt _ => True | _, _ => False end.
Definition name_before (a b : name) : Prop :=
  match a, b with
  | NStr x, NStr y => String.compare x y = Lt
  | NInt x, NInt y => (x < y)%Z
  | _, _ => False
  end.
Definition key_before (k1 k2 : Z * name) : Prop :=
  (k1.1 < k2.1)%Z ∨ (k1.1 = k2.1 ∧ name_before k1.2 k2.2).

(** Node [x] precedes node [y]. *)
Definition precedes (h : heap) (x y : nref) : Prop :=
  ∃ X Y, h_nodes h !! x = Some X ∧ h_nodes h !! y = Some Y ∧ key_before (n_index X, n_id X) (n_index Y, n_id Y).
#[global] Instance name_before_dec a b : Decision (name_before a b).
Proof. destruct a, b; simpl; try (right; tauto); apply _. Defined.
#[global] Instance precedes_dec h x y : Decision (precedes h x y).
Proof.
  destruct (h_nodes h !! x) as [X|] eqn:HX; [|right; intros (? & ? & ? & ? & _); congruence].
  destruct (h_nodes h !! y) as [Y|] eqn:HY; [|right; intros (? & ? & ? & ? & _); congruence].
  destruct (decide (key_before (n_index X, n_id X) (n_index Y, n_id Y))) as [Hk|Hk].
  - left. by exists X, Y.
  - right. intros (? & ? & ? & ? & ?). apply Hk. congruence.
Defined.

(** Any two nodes of [g] can be compared. *)
Definition comparable (h : heap) (g : gref) : Prop := ∀ x y X Y,
  in_graph h g x → in_graph h g y → h_nodes h !! x = Some X → h_nodes h !! y = Some Y →
  n_index X = n_index Y → same_kind (n_id X) (n_id Y).

(** Calls other than the direct constructor Node(graph, ...). *)
Definition by_add (c : call) : Prop := ∀ g n a i, c ≠ CNodeCtor g n a i.

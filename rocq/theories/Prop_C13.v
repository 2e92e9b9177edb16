(** Property theorems; the proofs are in ProofC13.v. *)
From Verif Require Import ProofC13.
Local Open Scope list_scope.

(** C43: the colours are taken in turn, in the order of the scheme (a colour listed
    twice counts once); the table counts how often each was taken, and these counts
    differ by at most one. *)
Theorem C43_rotation : ∀ scheme n, scheme ≠ [] → ∃ used cl,
  pick n (colours_used0 scheme) = Ok (used, cl) ∧ length cl = n ∧
  (∀ i, i < n → cl !! i = distinct scheme !! (i mod length (distinct scheme))) ∧
  (∀ c k, (c, k) ∈ used ↔ c ∈ scheme ∧ k = length (filter (λ x, x = c) cl)) ∧
  (∀ c1 k1 c2 k2, (c1, k1) ∈ used → (c2, k2) ∈ used → k1 ≤ S k2).
Proof. exact C43_rotation_proof. Qed.
Print Assumptions C43_rotation.

(** Five calls with a scheme of three colours, one of them listed twice. *)
Example C43_rotation_ex : ∃ used, pick 5 (colours_used0 [CName "red"; CName "blue"; CName "red"; CName "green"]) =
  Ok (used, [CName "red"; CName "blue"; CName "green"; CName "red"; CName "blue"]) ∧ used = [(CName "red", 2); (CName "blue", 2); (CName "green", 1)].
Proof. exact C43_rotation_ex_proof. Qed.
Print Assumptions C43_rotation_ex.

(** C44: get_diverging_number, in all cases. *)
Theorem C44_values : ∀ n i, (i < n → ∃ q, get_diverging_number i n false = Ok q ∧ (q == diverging n i)%Q) ∧
  (i < n → get_diverging_number i n true = get_diverging_number (n - 1 - i) n false) ∧
  (n ≤ i → ∀ reverse, get_diverging_number i n reverse = Err IndexError).
Proof. exact C44_values_proof. Qed.
Print Assumptions C44_values.

(** C44: a larger index gives a larger number, or a smaller one in reverse. *)
Theorem C44_monotone : ∀ n i j, i < j → j < n → ∃ p q p' q',
  get_diverging_number i n false = Ok p ∧ get_diverging_number j n false = Ok q ∧ (p < q)%Q ∧
  get_diverging_number i n true = Ok p' ∧ get_diverging_number j n true = Ok q' ∧ (q' < p')%Q.
Proof. exact C44_monotone_proof. Qed.
Print Assumptions C44_monotone.

(** C44: generate_diverging_numbers gives [n] different numbers between -1 and 1, with
    each number its opposite, and 0 exactly if [n] is odd. *)
Theorem C44_numbers : ∀ n, length (generate_diverging_numbers n) = n ∧
  (∀ i j p q, generate_diverging_numbers n !! i = Some p → generate_diverging_numbers n !! j = Some q → (p == q)%Q → i = j) ∧
  (∀ p, p ∈ generate_diverging_numbers n → (-1 <= p)%Q ∧ (p <= 1)%Q ∧ ∃ q, q ∈ generate_diverging_numbers n ∧ (q == -p)%Q) ∧
  ((∃ p, p ∈ generate_diverging_numbers n ∧ (p == 0)%Q) ↔ Nat.odd n = true).
Proof. exact C44_numbers_proof. Qed.
Print Assumptions C44_numbers.

(** The numbers for 5 and 4 siblings. *)
Example C44_numbers_ex : (λ i, diverging 5 i) <$> [0; 1; 2; 3; 4] = [-2 / 2; -1 / 2; 0 / 2; 1 / 2; 2 / 2]%Q ∧
  (λ i, diverging 4 i) <$> [0; 1; 2; 3] = [-2 / 2; -1 / 2; 1 / 2; 2 / 2]%Q ∧
  (λ i, get_diverging_number i 4 true) <$> [0; 3] = [Ok (2 # 2); Ok (-2 # 2)]%Q.
Proof. exact C44_numbers_ex_proof. Qed.
Print Assumptions C44_numbers_ex.

(** C56: in every reachable state every NodeStyle object has fill, border and text
    colours, and every EdgeStyle object has a text colour; so has whatever the
    constructors, copy and a colour assignment give. *)
Theorem C56_coloured_partial : 
  (∀ h, reachable h → (∀ k s, h_ns h !! k = Some s → coloured s) ∧ ∀ k s, h_es h !! k = Some s → text_coloured s) ∧
  (∀ d s, nstyle_ctor d = Ok s → coloured s) ∧ (∀ d s, estyle_ctor d = Ok s → text_coloured s) ∧
  (∀ s s', ns_copy s = Ok s' → coloured s') ∧ (∀ s c, coloured (ns_put_colour c (ns_reset s))) ∧
  (∀ s s', es_copy s = Ok s' → text_coloured s') ∧ (∀ s c, text_coloured (es_put_colour c (es_reset s))).
Proof. exact C56_coloured_partial_proof. Qed.
Print Assumptions C56_coloured_partial.

(** C56: copying a NodeStyle succeeds, and the copy looks the same. *)
Theorem C56_copy_partial : ∀ s, coloured s → ∃ cp, ns_copy s = Ok cp ∧ node_look cp = node_look s ∧ derived cp = derived s.
Proof. exact C56_copy_partial_proof. Qed.
Print Assumptions C56_copy_partial.

(** C56: recolouring a copy gives what recolouring the original gives, if the fill
    is lighter than the main colour. *)
Theorem C56_recolour_partial : ∀ s cp c, coloured s → ns_lighter s = true → ns_copy s = Ok cp →
  node_look (ns_put_colour c (ns_reset cp)) = node_look (ns_put_colour c (ns_reset s)).
Proof. exact C56_recolour_partial_proof. Qed.
Print Assumptions C56_recolour_partial.

(** C56 refuted: with lighter_fill=False the copy forgets it, so that the new fill
    colour is lighter instead of darker. *)
Theorem C56_recolour_refuted : ∃ s cp c, nstyle_ctor [("colour", PStr "red"); ("lighter_fill", PInt 0)]%string = Ok s ∧ ns_copy s = Ok cp ∧
  node_look (ns_put_colour c (ns_reset cp)) ≠ node_look (ns_put_colour c (ns_reset s)).
Proof. exact C56_recolour_refuted_proof. Qed.
Print Assumptions C56_recolour_refuted.

(** A style with all colours given: the copy has them too. *)
Example C56_copy_ex : ∃ s cp, nstyle_ctor [("colour", PStr "red"); ("fill_colour", PStr "white"); ("text_colour", PStr "black"); ("shape", PStr "circle")]%string = Ok s ∧
  coloured s ∧ ns_lighter s = true ∧ ns_copy s = Ok cp ∧ ns_fill cp = Some (CName "white") ∧ ns_border cp = Some (CDarken (CName "red") (1 # 6)) ∧
  ns_text cp = Some (CName "black") ∧ ns_shape cp = PStr "circle".
Proof. exact C56_copy_ex_proof. Qed.
Print Assumptions C56_copy_ex.

(** C57: copying an EdgeStyle succeeds, and the copy agrees with it except for the
    label style. *)
Theorem C57_copy_partial : ∀ s b, text_coloured s → es_text_based s = Some b →
  ∃ cp, es_copy s = Ok cp ∧ edge_look cp = edge_look s ∧ es_text_based cp = Some b ∧ es_label_style cp = PStr "below".
Proof. exact C57_copy_partial_proof. Qed.
Print Assumptions C57_copy_partial.

(** C57: the copy of a deep copy (as in the copy of a graph) raises AttributeError. *)
Theorem C57_deepcopy_partial : ∀ s, es_copy (es_deepcopy s) = Err AttributeError.
Proof. exact C57_deepcopy_partial_proof. Qed.
Print Assumptions C57_deepcopy_partial.

(** C57 refuted: the label style is lost. *)
Theorem C57_copy_refuted : ∃ s cp, estyle_ctor [("label_style", PStr "above")]%string = Ok s ∧ es_copy s = Ok cp ∧ es_label_style cp ≠ es_label_style s.
Proof. exact C57_copy_refuted_proof. Qed.
Print Assumptions C57_copy_refuted.

(** The copy of a red edge style with wide lines. *)
Example C57_copy_ex : ∃ s cp, estyle_ctor [("colour", PStr "red"); ("line_width", PInt 7)]%string = Ok s ∧ text_coloured s ∧ es_text_based s = Some true ∧
  es_copy s = Ok cp ∧ es_colour cp = CName "red" ∧ es_line_width cp = PInt 7.
Proof. exact C57_copy_ex_proof. Qed.
Print Assumptions C57_copy_ex.

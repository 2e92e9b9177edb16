(** Property theorems; the proofs are in ProofC55.v. *)
From Verif Require Import ProofC55.
Local Open Scope string_scope.

(** C46.  How names and values are written: a text as it is, an integer in decimals, None
    as None, a method with the name of its node; floats and colours as Python writes them. *)
Theorem C46_texts : ∀ env h, (∀ s, name_str (NStr s) = s ∧ pv_str env h (PStr s) = s) ∧
  (∀ z, name_str (NInt z) = pretty z ∧ pv_str env h (PInt z) = pretty z) ∧
  pv_str env h PNone = "None" ∧ (∀ q, pv_str env h (PFlt q) = pe_flt env q) ∧ (∀ c, pv_str env h (PCol c) = pe_col env c) ∧
  (∀ r N, h_nodes h !! r = Some N →
     pv_str env h (PMeth r) = "<bound method GraphObj.display_label_or_value of Node:" +:+ name_str (n_id N) +:+ ">").
Proof. exact C46_texts_proof. Qed.
Print Assumptions C46_texts.

(** C71.  A colour is given by its name or as a colour object and by nothing else. *)
Theorem C71_colour_given : ∀ v c, to_colour v = Ok c ↔ (∃ s, v = PStr s ∧ c = CName s) ∨ v = PCol c.
Proof. exact C71_colour_given_proof. Qed.
Print Assumptions C71_colour_given.

(** C67.  A mixed colour keeps all its ingredients, in order. *)
Theorem C67_ingredients : ∀ cs cs', mix cs = mix cs' ↔ cs = cs'.
Proof. exact C67_ingredients_proof. Qed.
Print Assumptions C67_ingredients.

(** C66, instance: the letters of the direction are put in capitals, from a to z. *)
Example C66_direction_ex : ∀ D, used_direction D "lr" = "LR" ∧ used_direction D "az{`" = "AZ{`".
Proof. exact C66_direction_ex_proof. Qed.
Print Assumptions C66_direction_ex.

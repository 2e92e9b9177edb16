(** The elementary texts and colours on which several specifications rest. *)
From Verif Require Export SpecOver SpecMore ModelShow Samples.
Local Open Scope string_scope.

(** C46.  How names and values are written: a text as it is, an integer in decimals, None
    as None, a method with the name of its node; floats and colours as Python writes them. *)
Lemma C46_texts_proof : ∀ env h, (∀ s, name_str (NStr s) = s ∧ pv_str env h (PStr s) = s) ∧
  (∀ z, name_str (NInt z) = pretty z ∧ pv_str env h (PInt z) = pretty z) ∧
  pv_str env h PNone = "None" ∧ (∀ q, pv_str env h (PFlt q) = pe_flt env q) ∧ (∀ c, pv_str env h (PCol c) = pe_col env c) ∧
  (∀ r N, h_nodes h !! r = Some N →
     pv_str env h (PMeth r) = "<bound method GraphObj.display_label_or_value of Node:" +:+ name_str (n_id N) +:+ ">").
Proof. intros env h. split_and!; try done. intros r N HN. unfold pv_str. by rewrite HN. Qed.

(** C71.  A colour is given by its name or as a colour object and by nothing else. *)
Lemma C71_colour_given_proof : ∀ v c, to_colour v = Ok c ↔ (∃ s, v = PStr s ∧ c = CName s) ∨ v = PCol c.
Proof.
  intros v c. split.
  - destruct v; try done; intros [= <-]; [left; eauto|by right].
  - by intros [(s & -> & ->)| ->].
Qed.

(** C67.  A mixed colour keeps all its ingredients, in order. *)
Lemma C67_ingredients_proof : ∀ cs cs', mix cs = mix cs' ↔ cs = cs'.
Proof.
  intros cs. induction cs as [|c cs IH]; intros [|c' cs']; cbn; split; try done.
  - intros [= -> H]. f_equal. by apply IH.
  - by intros [= -> ->].
Qed.

(** C66, instance: the letters of the direction are put in capitals, from a to z. *)
Lemma C66_direction_ex_proof : ∀ D, used_direction D "lr" = "LR" ∧ used_direction D "az{`" = "AZ{`".
Proof. intros D. by split; vm_compute. Qed.

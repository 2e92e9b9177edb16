(** Property theorems; the proofs are in ProofC27.v. *)
From Verif Require Import ProofC27.
Local Open Scope string_scope.

(** C74.  get_svg(direction, pad) and get_html(direction, pad) hand Graphviz the same text
    as render(direction, pad), leave the same state, and raise the same exceptions; a
    notebook that displays the graph gets this text for the direction of the graph and
    the default padding. *)
Theorem C74_same : ∀ env h g dir pad shuffle, reachable h → allowed h (CRender env g dir pad shuffle) →
  get_svg env g dir pad shuffle h = render env g dir pad shuffle h ∧
  get_html env g dir pad shuffle h = render env g dir pad shuffle h ∧
  repr_html env g shuffle h = render env g "" (PFlt (1 # 10)) shuffle h.
Proof. exact C74_same_proof. Qed.
Print Assumptions C74_same.

(** C74.  With the default stylist and no overwriting, displaying the graph again - as
    SVG, as HTML or in a notebook - shows the same text and changes nothing. *)
Theorem C74_again : ∀ env h g G D dir pad shuffle shuffle' h' s, reachable h → allowed h (CRender env g dir pad shuffle) → (∀ l, shuffle' l ≡ₚ l) →
  h_graphs h !! g = Some G → g_disp G = Some D → default_styling D →
  get_svg env g dir pad shuffle h = (h', Ok s) →
  get_svg env g dir pad shuffle' h' = (h', Ok s) ∧ get_html env g dir pad shuffle' h' = (h', Ok s) ∧ render env g dir pad shuffle' h' = (h', Ok s).
Proof. exact C74_again_proof. Qed.
Print Assumptions C74_again.

(** Showing graph 1 of the sample: the text has its direction and the default padding. *)
Example C74_ex : reachable sample ∧ allowed sample (CRender env0 1 "" DEFAULT_PAD (λ l, l)) ∧
  (∃ G D, h_graphs sample !! 1 = Some G ∧ g_disp G = Some D ∧ default_styling D) ∧
  ∃ h' s, repr_html env0 1 (λ l, l) sample = (h', Ok s) ∧ mentions "pad=" s ∧ mentions "rankdir=" s.
Proof. exact C74_ex_proof. Qed.
Print Assumptions C74_ex.

(** The stylists called with template styles and ratios. *)
From Verif Require Export SpecStyle SpecMore SpecOver.

(** The EdgeStyle with colour [c] and arrow size [v], and the opacity, font, text size and
    line width of [t]. *)
Definition templated_edge (t : estyle) (c : colour) (v : pv) : estyle :=
  MkEStyle c (Some c) (Some true) (es_opacity t) (es_font t) (es_text_size t) v (PStr "below") (es_line_width t) [].
(** The NodeStyle with main colour [c] after the template, if there is one; likewise an
    EdgeStyle with arrow size [v]. *)
Definition node_made (main : option nstyle) (c : colour) : nstyle := tinted c (default (standard_node c) main).
Definition edge_made (tmpl : option estyle) (c : colour) (v : pv) : estyle := templated_edge (default (standard_edge c (1 # 2)) tmpl) c v.
(** The arrow size of the template. *)
Definition first_arrow (tmpl : option estyle) : pv := match tmpl with None => PFlt (1 # 2) | Some t => es_arrow t end.
(** A number. *)
Definition is_number (v : pv) : Prop := match v with PInt _ | PFlt _ => True | _ => False end.
(** A template for nodes has its colours; one for edges has a number as arrow size, and
    its text colour has been assigned or derived. *)
Definition fine_node (main : option nstyle) : Prop := match main with None => True | Some t => coloured t end.
Definition fine_edge (tmpl : option estyle) : Prop := match tmpl with None => True | Some t => is_number (es_arrow t) ∧ es_text_based t ≠ None end.
(** The colours that branches get with a template of colour [c]: that of a root (or of a
    node whose parents are all on cycles) is [c]; with a single parent edge, the hue of
    [c] turned according to the rank among the siblings; with several, the mixture of
    the colours that the parents not in a loop with the node hand down, with the
    divergence [d] set to zero. *)
Inductive template_colour (h : heap) (g : gref) (c : colour) (pale : Q) : Q → nref → colour → Prop :=
  | tcol_root d r : rootlike h g r → template_colour h g c pale d r c
  | tcol_one d r p cs i q : ¬ rootlike h g r → node_parents h r = Ok [p] → node_children h p = Ok cs → get_child_rank h r p = Ok i →
      (q == d * diverging (length cs) i)%Q → template_colour h g c pale d r (CSat (CHue c q))
  | tcol_many d r ps (keep : nref → bool) cols : ¬ rootlike h g r → node_parents h r = Ok ps → length ps ≠ 1 →
      (∀ p, p ∈ ps → keep p = true ↔ ¬ path h g r p) → Forall2 (template_colour h g c pale 0) (base.filter (λ p, keep p = true) ps) cols → cols ≠ [] →
      template_colour h g c pale d r (CPale (mix cols) pale).
(** The style that branches hand down without a template, as [hands_down], for any ratios. *)
Inductive hands_down_by (h : heap) (g : gref) (pale : Q) : Q → nref → nstyle → Prop :=
  | hdb_root d r s : rootlike h g r → style_of h r s → hands_down_by h g pale d r s
  | hdb_one d r p sp cs i q : ¬ rootlike h g r → node_parents h r = Ok [p] → hands_down_by h g pale d p sp →
      node_children h p = Ok cs → get_child_rank h r p = Ok i → (q == d * diverging (length cs) i)%Q →
      hands_down_by h g pale d r (tinted (CSat (CHue (ns_colour sp) q)) sp)
  | hdb_many d r ps (keep : nref → bool) stys s : ¬ rootlike h g r → node_parents h r = Ok ps → length ps ≠ 1 →
      (∀ p, p ∈ ps → keep p = true ↔ ¬ path h g r p) → Forall2 (hands_down_by h g pale 0) (base.filter (λ p, keep p = true) ps) stys → head stys = Some s →
      hands_down_by h g pale d r (tinted (CPale (mix (map ns_colour stys)) pale) s).

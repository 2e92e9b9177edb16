(** SVG and HTML (C74). *)
From Verif Require Export ModelShow ProofC15 ProofC16 ProofC17.
Local Open Scope string_scope.

Lemma graphviz_direction env h g D height width pad : get_display h g = Ok D →
  graphviz_str env h g (d_direction D) height width pad = graphviz_str env h g "" height width pad.
Proof.
  intros HD. unfold graphviz_str. rewrite HD. cbn [rbind]. change (eqb "" "") with true. cbv iota. destruct (eqb (d_direction D) ""); done.
Qed.

(** C74.  get_svg(direction, pad) and get_html(direction, pad) hand Graphviz the same text
    as render(direction, pad), leave the same state, and raise the same exceptions; a
    notebook that displays the graph gets this text for the direction of the graph and
    the default padding. *)
Lemma C74_same_proof : ∀ env h g dir pad shuffle, reachable h → allowed h (CRender env g dir pad shuffle) →
  get_svg env g dir pad shuffle h = render env g dir pad shuffle h ∧
  get_html env g dir pad shuffle h = render env g dir pad shuffle h ∧
  repr_html env g shuffle h = render env g "" (PFlt (1 # 10)) shuffle h.
Proof.
  assert (Hsvg : ∀ env h g dir pad sh, reachable h → allowed h (CRender env g dir pad sh) → get_svg env g dir pad sh h = render env g dir pad sh h).
  { intros env h g dir pad sh Hr Hal. unfold get_svg, sbind, sread. destruct (eqb dir "") eqn:Hd; [|done]. apply eqb_true in Hd as ->.
    destruct (get_display h g) as [D|x] eqn:HD; cbn [rbind].
    - unfold render, sbind, sread. pose proof (C64_stylize_proof h g sh Hr Hal) as Hs. cbn [after] in Hs.
      destruct (stylize g sh h) as [h1 [[]|]]; [|done]. cbn [fst] in Hs. f_equal. apply graphviz_direction.
      unfold get_display, get_g in *. by rewrite <-HD, (so_graphs _ _ _ Hs).
    - unfold render, stylize, sbind, sread. by rewrite HD. }
  intros env h g dir pad sh Hr Hal. split_and!; [by apply Hsvg| |by apply Hsvg].
  unfold get_html, sbind, sread. destruct (eqb dir "") eqn:Hd; [|by apply Hsvg]. apply eqb_true in Hd as ->.
  destruct (get_display h g) as [D|x] eqn:HD; cbn [rbind].
  - rewrite Hsvg by done. rewrite <-(Hsvg env h g "") by done. unfold get_svg at 1, sbind, sread. change (eqb "" "") with true. cbv iota. by rewrite HD.
  - unfold render, stylize, sbind, sread. by rewrite HD.
Qed.
(** C74.  With the default stylist and no overwriting, displaying the graph again - as
    SVG, as HTML or in a notebook - shows the same text and changes nothing. *)
Lemma C74_again_proof : ∀ env h g G D dir pad shuffle shuffle' h' s, reachable h → allowed h (CRender env g dir pad shuffle) → (∀ l, shuffle' l ≡ₚ l) →
  h_graphs h !! g = Some G → g_disp G = Some D → default_styling D →
  get_svg env g dir pad shuffle h = (h', Ok s) →
  get_svg env g dir pad shuffle' h' = (h', Ok s) ∧ get_html env g dir pad shuffle' h' = (h', Ok s) ∧ render env g dir pad shuffle' h' = (h', Ok s).
Proof.
  intros env h g G D dir pad sh sh' h' s Hr Hal Hal' HG HD Hdef Hrun.
  destruct (C74_same_proof env h g dir pad sh Hr Hal) as (H1 & _ & _). rewrite H1 in Hrun.
  assert (Hr' : reachable h').
  { replace h' with (after (CRender env g dir pad sh) h) by (cbn [after]; by rewrite Hrun). by apply reach_call. }
  destruct (C74_same_proof env h' g dir pad sh' Hr' Hal') as (H2 & H3 & _). rewrite H2, H3.
  assert (render env g dir pad sh' h' = (h', Ok s)); [|done].
  unfold render, sbind, sread in *. destruct (stylize g sh h) as [h1 [[]|]] eqn:Hst; [|done].
  injection Hrun as -> Hs. by rewrite (C55_default_partial_proof h g G D sh sh' h' Hr HG HD Hdef Hst), Hs.
Qed.
(** Showing graph 1 of the sample: the text has its direction and the default padding. *)
Lemma C74_ex_proof : reachable sample ∧ allowed sample (CRender env0 1 "" DEFAULT_PAD (λ l, l)) ∧
  (∃ G D, h_graphs sample !! 1 = Some G ∧ g_disp G = Some D ∧ default_styling D) ∧
  ∃ h' s, repr_html env0 1 (λ l, l) sample = (h', Ok s) ∧ mentions "pad=" s ∧ mentions "rankdir=" s.
Proof.
  split; [apply sample_reachable|]. split; [by intros l|]. split.
  - eexists _, _. split; [reflexivity|]. split; [reflexivity|]. by repeat split.
  - eexists _, _. split; [vm_compute; reflexivity|]. split; apply occurs_mentions; vm_compute; reflexivity.
Qed.

(** Text values of styles: C91. *)
From Verif Require Export SpecQuote SpecOps SpecRead SpecStyle Samples ProofC3.
From Verif Require Import ProofC14 ProofRead.
Local Open Scope string_scope.
Local Open Scope list_scope.

#[local] Arguments String.append !_ _ : simpl nomatch.
Lemma app_s_nil s : s +:+ "" = s.
Proof. induction s as [|c s IH]; simpl; [done|by rewrite IH]. Qed.
Lemma lstrip_quotes p s : lstrip_q (quotes p +:+ s) = lstrip_q s.
Proof. induction p as [|p IH]; simpl; [done|]. exact IH. Qed.
Lemma rstrip_app_quotes s q : rstrip_q (s +:+ quotes q) = rstrip_q s.
Proof.
  induction s as [|c s IH]; simpl; [|by rewrite IH]. induction q as [|q IH]; simpl; [done|]. by rewrite IH.
Qed.
Lemma lstrip_bare m : (∀ s, m ≠ Qt +:+ s) → lstrip_q m = m.
Proof. destruct m as [|c m]; [done|]. intros H. simpl. unfold eqb; destruct (decide (c = quote)) as [->|]; [rewrite bool_decide_eq_true_2 by done|rewrite bool_decide_eq_false_2 by done]; [|done]. destruct (H m); reflexivity. Qed.
Lemma rstrip_bare m : (∀ s, m ≠ s +:+ Qt) → rstrip_q m = m.
Proof.
  induction m as [|c m IH]; [done|]. intros H. simpl. rewrite IH; [|intros s ->; apply (H (String c s)); reflexivity].
  destruct m; [|done]. unfold eqb; destruct (decide (c = quote)) as [->|]; [rewrite bool_decide_eq_true_2 by done|rewrite bool_decide_eq_false_2 by done]; [|done]. destruct (H ""); reflexivity.
Qed.
Lemma strip_wrapped p q m : bare m → strip_q (quotes p +:+ m +:+ quotes q) = m.
Proof.
  intros [H1 H2]. unfold strip_q. rewrite lstrip_quotes. destruct m as [|c m].
  - simpl. rewrite <-(app_s_nil (quotes q)), lstrip_quotes. done.
  - simpl. unfold eqb; destruct (decide (c = quote)) as [->|Hc]; [rewrite bool_decide_eq_true_2 by done|rewrite bool_decide_eq_false_2 by done]; [destruct (H1 m); reflexivity|]. rewrite (rstrip_app_quotes (String c m) q : rstrip_q (String c (m +:+ quotes q)) = _). by apply rstrip_bare.
Qed.
Lemma strip_bare m : bare m → strip_q m = m.
Proof. intros [H1 H2]. unfold strip_q. by rewrite lstrip_bare, rstrip_bare. Qed.
Lemma style_item_wraps env h o k v w : wraps v w → style_item env h o (k, v) = style_item env h o (k, w).
Proof. intros [->|(p & q & m & Hm & -> & ->)]; [done|]. simpl. by rewrite strip_wrapped, strip_bare. Qed.
Lemma style_items_ext env h o l l' : Forall2 (λ a b, style_item env h o a = style_item env h o b) l l' → style_items env h o l = style_items env h o l'.
Proof. intros H. unfold style_items. f_equal. induction H as [|a b l l' Hab _ IH]; [done|]. change (match style_item env h o a with Some y => y :: omap (style_item env h o) l | None => omap (style_item env h o) l end = match style_item env h o b with Some y => y :: omap (style_item env h o) l' | None => omap (style_item env h o) l' end). by rewrite Hab, IH. Qed.

(** C91.  The text of a node style is that of the style whose font, shape and shape style lack
    the double quotes around them, however many. *)
Lemma C91_quoted_partial_proof : ∀ env h sty font shape shape_style, wraps (ns_font sty) font → wraps (ns_shape sty) shape → wraps (ns_shape_style sty) shape_style →
  ns_graphviz env h sty = ns_graphviz env h (sty <| ns_font := font |> <| ns_shape := shape |> <| ns_shape_style := shape_style |>).
Proof.
  intros env h sty f s ss Hf Hs Hss. unfold ns_graphviz. apply style_items_ext. cbn [ns_font ns_shape ns_shape_style].
  repeat (apply Forall2_cons; split; [first [reflexivity|apply style_item_wraps; assumption]|]). constructor.
Qed.
(** C91.  The same for an edge style: its font and label style. *)
Lemma C91_edge_quoted_partial_proof : ∀ env h sty font label_style, wraps (es_font sty) font → wraps (es_label_style sty) label_style →
  es_graphviz env h sty = es_graphviz env h (sty <| es_font := font |> <| es_label_style := label_style |>).
Proof.
  intros env h sty f l Hf Hl. unfold es_graphviz. apply style_items_ext.
  repeat (apply Forall2_cons; split; [first [reflexivity|apply style_item_wraps; assumption]|]). constructor.
Qed.
Lemma s_app_assoc a b c : (a +:+ b) +:+ c = a +:+ b +:+ c.
Proof. induction a as [|x a IH]; simpl; [done|by rewrite IH]. Qed.
Lemma concat_has sep l s : s ∈ l → ∃ pre post, String.concat sep l = pre +:+ s +:+ post.
Proof.
  induction l as [|x l IH]; [by intros ?%elem_of_nil|]. intros [->|Hin]%elem_of_cons.
  - destruct (concat_cons sep x l) as [t Ht]. exists "", t. exact Ht.
  - destruct (IH Hin) as (pre & post & He). destruct l as [|y l]; [by apply elem_of_nil in Hin|]. exists (x +:+ sep +:+ pre), post.
    change (String.concat sep (x :: y :: l)) with (x +:+ sep +:+ String.concat sep (y :: l)). by rewrite He, !s_app_assoc.
Qed.
Lemma plain_bare m : plain m → bare m.
Proof.
  intros Hp. split.
  - intros s ->. destruct Hp as [H _]. done.
  - intros s ->. induction s as [|c s IH]; [by destruct Hp as [H _]|]. apply IH. by destruct Hp as (_ & _ & ?).
Qed.
Lemma items_read env h o l k p q m : (k, PStr (quotes p +:+ m +:+ quotes q)) ∈ l → plain m → item_read (style_items env h o l) k m.
Proof.
  intros Hin Hp. destruct (concat_has " " (omap (style_item env h o) l) (quoted k +:+ "=" +:+ quoted m)) as (pre & post & He).
  { apply elem_of_list_omap. eexists. split; [exact Hin|]. simpl. by rewrite strip_wrapped by (by apply plain_bare). }
  exists pre, (quoted m +:+ post), post. split.
  - unfold style_items. rewrite He. unfold quoted. by rewrite !s_app_assoc.
  - unfold quoted. rewrite !s_app_assoc. by apply read_plain.
Qed.
(** C91.  A font, shape or shape style without quotes and backslashes inside reads back from
    the text of the node style, without the quotes around it. *)
Lemma C91_read_partial_proof : ∀ env h sty k p q m, plain m →
  (k, PStr (quotes p +:+ m +:+ quotes q)) ∈ [("fontname", ns_font sty); ("shape", ns_shape sty); ("style", ns_shape_style sty)] →
  item_read (ns_graphviz env h sty) k m.
Proof.
  intros env h sty k p q m Hp Hin. apply (items_read env h _ _ k p q m); [|done]. revert Hin. generalize (PStr (quotes p +:+ m +:+ quotes q)). intros v Hin. set_solver.
Qed.
(** C91.  The same for the font and the label style of an edge style. *)
Lemma C91_edge_read_partial_proof : ∀ env h sty k p q m, plain m →
  (k, PStr (quotes p +:+ m +:+ quotes q)) ∈ [("fontname", es_font sty); ("lblstyle", es_label_style sty)] →
  item_read (es_graphviz env h sty) k m.
Proof.
  intros env h sty k p q m Hp Hin. apply (items_read env h _ _ k p q m); [|done]. revert Hin. generalize (PStr (quotes p +:+ m +:+ quotes q)). intros v Hin. set_solver.
Qed.
Definition bad_font_calls : list call := graph_calls ["a"] [] ++ [CNStyleNew [("font", PStr ("a" +:+ Qt +:+ "b"))]; CNodeStyle 0 (SObj 0)].
Definition bad_font : heap := Eval vm_compute in run bad_font_calls empty_heap.
Lemma bad_font_reachable : reachable bad_font.
Proof. assert (bad_font = run bad_font_calls empty_heap) as -> by (vm_compute; reflexivity). reach. Qed.
(** C91 refuted: a font with a quote inside is cut short there, and the text of a graph with a
    node of that style is no DOT text. *)
Lemma C91_inner_refuted_proof : ∃ h s text, reachable h ∧ h_ns h !! 0 = Some s ∧ style_of h 0 s ∧ ns_font s = PStr ("a" +:+ Qt +:+ "b") ∧
  item_read (ns_graphviz env0 h s) "fontname" "a" ∧ graphviz_str env0 h 0 "TB" PNone PNone PNone = Ok text ∧ read_dot text = None.
Proof.
  eexists bad_font, _, _. split; [exact bad_font_reachable|]. split; [vm_compute; reflexivity|].
  split; [eexists _, _; split; [vm_compute; reflexivity|]; split; vm_compute; reflexivity|].
  split; [vm_compute; reflexivity|]. split; [|split; [vm_compute; reflexivity|]].
  2: { vm_compute. reflexivity. }
  eexists (Qt +:+ "color" +:+ Qt +:+ "=" +:+ quoted "x" +:+ " " +:+ Qt +:+ "fillcolor" +:+ Qt +:+ "=" +:+ quoted "x" +:+ " "),
    (Qt +:+ "a" +:+ Qt +:+ "b" +:+ Qt +:+ " " +:+ Qt +:+ "fontcolor" +:+ Qt +:+ "=" +:+ quoted "x" +:+ " " +:+ Qt +:+ "fontsize" +:+ Qt +:+ "=" +:+ quoted "10" +:+ " " +:+
     Qt +:+ "shape" +:+ Qt +:+ "=" +:+ quoted "box" +:+ " " +:+ Qt +:+ "style" +:+ Qt +:+ "=" +:+ quoted "rounded, filled"), _.
  split; vm_compute; reflexivity.
Qed.
(** A font that was given with quotes. *)
Lemma C91_read_ex_proof : ∃ h s, reachable h ∧ h_ns h !! 0 = Some s ∧ ns_font s = PStr (quotes 1 +:+ "Arial" +:+ quotes 1) ∧ plain "Arial" ∧
  wraps (ns_font s) (PStr "Arial") ∧ item_read (ns_graphviz env0 h s) "fontname" "Arial".
Proof.
  assert (reachable (run [CNStyleNew [("font", PStr (quotes 1 +:+ "Arial" +:+ quotes 1))]] empty_heap)) as Hr by reach.
  eexists _, _. split; [exact Hr|]. split; [vm_compute; reflexivity|]. split; [by vm_compute|]. split; [by vm_compute|]. split.
  - right. exists 1, 1, "Arial". split; [apply plain_bare; by vm_compute|]. by split.
  - apply (C91_read_partial_proof _ _ _ _ 1 1); [by vm_compute|left].
Qed.

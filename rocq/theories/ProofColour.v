(** Every style object in the heap has its colours. *)
From Verif Require Export SpecStyle ProofOps ProofHist ModelDot.
From Verif Require Import ProofCompl.
Local Open Scope list_scope.

Lemma put_coloured c s : coloured (ns_put_colour c s).
Proof.
  unfold coloured, ns_put_colour. destruct s as [c0 [f|] [b|] [t|] fb bb tb l op fo ts sh ss ex]; cbn; repeat split; eauto.
Qed.
Lemma ctor_coloured d s : nstyle_ctor d = Ok s → coloured s.
Proof.
  unfold nstyle_ctor. intros (? & _ & H)%rbind_Ok. apply rbind_Ok in H as (c & _ & H). apply rbind_Ok in H as (s1 & _ & H).
  apply rbind_Ok in H as (s2 & _ & H). apply rbind_Ok in H as (s3 & _ & [= <-]). apply put_coloured.
Qed.
Lemma copy_coloured s cp : ns_copy s = Ok cp → coloured cp.
Proof. unfold ns_copy. intros (c & H%ctor_coloured & [= <-])%rbind_Ok. exact H. Qed.
Lemma recolour_coloured s c s' : recolour s c = Ok s' → coloured s'.
Proof. unfold recolour. intros (cp & _ & [= <-])%rbind_Ok. apply put_coloured. Qed.
Lemma complement1_coloured s kv s' : coloured s → ns_complement1 s kv = Ok s' → coloured s'.
Proof.
  intros (H1 & H2 & H3). destruct kv as [k v]. unfold ns_complement1, ns_set_colour, ns_set_fill, ns_set_border, ns_set_text.
  repeat case_match; intros He; try discriminate He; try (apply rbind_Ok in He as (c & _ & He)); injection He as <-;
    solve [apply put_coloured | repeat split; cbn; eauto].
Qed.
Lemma complement_coloured d s s' : coloured s → ns_complement d s = Ok s' → coloured s'.
Proof.
  revert s. unfold ns_complement. induction d as [|kv d IH]; intros s Hs; cbn; [by intros [= <-]|].
  intros (s1 & H1 & H2)%rbind_Ok. eapply IH; [|done]. by eapply complement1_coloured.
Qed.
Lemma inherit_coloured fuel h p q r s : inherit_style fuel h p q r = Ok s → coloured s.
Proof.
  destruct fuel as [|fuel]; cbn; [done|]. intros (b & _ & H)%rbind_Ok. destruct b.
  - apply rbind_Ok in H as (s0 & _ & H). by eapply copy_coloured.
  - apply rbind_Ok in H as (ps & _ & H).
    assert (Hmulti : (let! ps' := rfilter (λ p, let! b := node_in_loop_with h r (ANode p) in Ok (negb b)) ps in
            let! stys := rmap (λ p0, inherit_style fuel h p 0%Q p0) ps' in
            match stys with
            | [] => Err IndexError
            | sty :: _ => recolour sty (CPale (mix (map ns_colour stys)) p)
            end) = Ok s → coloured s).
    { intros (ps' & _ & H')%rbind_Ok. apply rbind_Ok in H' as (stys & _ & H'). destruct stys; [done|]. by eapply recolour_coloured. }
    destruct ps as [|p0 [|p1 ps]]; [by apply Hmulti| |by apply Hmulti].
    apply rbind_Ok in H as (? & _ & H). apply rbind_Ok in H as (? & _ & H). apply rbind_Ok in H as (? & _ & H).
    apply rbind_Ok in H as (? & _ & H). by eapply recolour_coloured.
Qed.
Lemma eput_coloured c s : text_coloured (es_put_colour c s).
Proof. unfold text_coloured, es_put_colour. destruct s as [c0 [t|] tb op fo ts ar ls lw ex]; cbn; eauto. Qed.
Lemma ector_coloured d s : estyle_ctor d = Ok s → text_coloured s.
Proof.
  unfold estyle_ctor. intros (? & _ & H)%rbind_Ok. apply rbind_Ok in H as (c & _ & H). apply rbind_Ok in H as (s1 & _ & [= <-]). apply eput_coloured.
Qed.
Lemma ecopy_coloured s cp : es_copy s = Ok cp → text_coloured cp.
Proof. unfold es_copy. intros (c & H%ector_coloured & H2)%rbind_Ok. destruct (es_text_based s); [|done]. injection H2 as <-. exact H. Qed.
Lemma ecomplement1_coloured s kv s' : text_coloured s → es_complement1 s kv = Ok s' → text_coloured s'.
Proof.
  intros H1. destruct kv as [k v]. unfold es_complement1, es_set_colour, es_set_text.
  repeat case_match; intros He; try discriminate He; try (apply rbind_Ok in He as (c & _ & He)); injection He as <-;
    solve [apply eput_coloured | unfold text_coloured; cbn; eauto].
Qed.
Lemma ecomplement_coloured d s s' : text_coloured s → es_complement d s = Ok s' → text_coloured s'.
Proof.
  revert s. unfold es_complement. induction d as [|kv d IH]; intros s Hs; cbn; [by intros [= <-]|].
  intros (s1 & H1 & H2)%rbind_Ok. eapply IH; [|done]. by eapply ecomplement1_coloured.
Qed.

(** * The invariant *)
Definition CI (h : heap) : Prop := Forall coloured (h_ns h) ∧ Forall text_coloured (h_es h).
Lemma CI_upd_n r f : pres CI (upd_n r f).
Proof. intros h H. unfold upd_n. by destruct (h_nodes h !! r). Qed.
Lemma CI_upd_e r f : pres CI (upd_e r f).
Proof. intros h H. unfold upd_e. by destruct (h_edges h !! r). Qed.
Lemma CI_upd_g r f : pres CI (upd_g r f).
Proof. intros h H. unfold upd_g. by destruct (h_graphs h !! r). Qed.
Lemma CI_new_n N : pres CI (new_n N).
Proof. by intros h H. Qed.
Lemma CI_new_e N : pres CI (new_e N).
Proof. by intros h H. Qed.
Lemma CI_new_g N : pres CI (new_g N).
Proof. by intros h H. Qed.
Lemma CI_new_ns s : coloured s → pres CI (new_ns s).
Proof. intros Hs h [H1 H2]. split; cbn; [|done]. apply Forall_app. by rewrite Forall_singleton. Qed.
Lemma CI_new_es s : text_coloured s → pres CI (new_es s).
Proof. intros Hs h [H1 H2]. split; cbn; [done|]. apply Forall_app. by rewrite Forall_singleton. Qed.
Lemma CI_warn w : pres CI (warn w).
Proof. by intros h H. Qed.
Lemma CI_upd_ns s d : pres CI (complement_ns s d).
Proof.
  intros h [H1 H2]. destruct (complement_ns_left h s d) as [->|(sty & d1 & sty' & Hs & _ & Hc & ->)]; [done|].
  split; cbn; [|done]. apply Forall_insert; [done|]. eapply complement_coloured; [|done]. by eapply Forall_lookup_1.
Qed.
Lemma CI_upd_es s d : pres CI (complement_es s d).
Proof.
  intros h [H1 H2]. destruct (complement_es_left h s d) as [->|(sty & d1 & sty' & Hs & _ & Hc & ->)]; [done|].
  split; cbn; [done|]. apply Forall_insert; [done|]. eapply ecomplement_coloured; [|done]. by eapply Forall_lookup_1.
Qed.
#[local] Hint Resolve CI_upd_n CI_upd_e CI_upd_g CI_new_n CI_new_e CI_new_g CI_warn CI_upd_ns CI_upd_es : ci.
Ltac cstep := first [solve [auto with ci] | pstep].
Ltac ci := repeat cstep.

(** a bind whose first part reads a value with property [Q] *)
Lemma CI_read {A B} (Q : A → Prop) (f : heap → res A) (k : A → M B) :
  (∀ h a, CI h → f h = Ok a → Q a) → (∀ a, Q a → pres CI (k a)) → pres CI (sbind (sread f) k).
Proof.
  intros Hf Hk. eapply presQ_bind; [|exact Hk]. intros h HI. split; [done|]. intros a Ha. by eapply Hf.
Qed.
Lemma CI_nctor d : pres CI (let* sty := sread (λ _, nstyle_ctor d) in let* s := new_ns sty in sret (Some s)).
Proof. apply (CI_read coloured); [intros; by eapply ctor_coloured|]. intros s Hs. apply pres_bind; [by apply CI_new_ns|]. intros. apply pres_ret. Qed.
Lemma CI_ector d : pres CI (let* sty := sread (λ _, estyle_ctor d) in let* s := new_es sty in sret (Some s)).
Proof. apply (CI_read text_coloured); [intros; by eapply ector_coloured|]. intros s Hs. apply pres_bind; [by apply CI_new_es|]. intros. apply pres_ret. Qed.
Lemma CI_resolve_n a : pres CI (resolve_nstyle a).
Proof. destruct a; first [apply CI_nctor | unfold resolve_nstyle; ci]. Qed.
Lemma CI_resolve_e a : pres CI (resolve_estyle a).
Proof. destruct a; first [apply CI_ector | unfold resolve_estyle; ci]. Qed.
#[local] Hint Resolve CI_resolve_n CI_resolve_e : ci.
Lemma CI_node_set_style r a : pres CI (node_set_style r a).
Proof. unfold node_set_style. ci. Qed.
Lemma CI_edge_set_style r a : pres CI (edge_set_style r a).
Proof. unfold edge_set_style. ci. Qed.
#[local] Hint Resolve CI_node_set_style CI_edge_set_style : ci.
Lemma CI_node_ctor g n a i : pres CI (node_ctor g n a i).
Proof. unfold node_ctor. ci. Qed.
Lemma CI_add_node g x a : pres CI (add_node g x a).
Proof. unfold add_node, generate_node_index, node_ctor, when_style, when_val, node_set_label, node_set_value. ci. Qed.
Lemma CI_edge_ctor g s t a : pres CI (edge_ctor g s t a).
Proof. unfold edge_ctor, append_outward, append_inward. ci. Qed.
#[local] Hint Resolve CI_node_ctor CI_add_node CI_edge_ctor : ci.
Lemma CI_connect g x y a : pres CI (connect g x y a).
Proof. unfold connect, when_style, when_val, edge_set_label, edge_set_value. ci. Qed.
Lemma CI_remove_self e : pres CI (remove_self e).
Proof. unfold remove_self, remove_outward, remove_inward. ci. Qed.
#[local] Hint Resolve CI_connect CI_remove_self : ci.
Lemma CI_connect_to r x a : pres CI (connect_to r x a).
Proof. unfold connect_to. ci. Qed.
Lemma CI_connect_from r x a : pres CI (connect_from r x a).
Proof. unfold connect_from. ci. Qed.
Lemma CI_disconnect e : pres CI (disconnect e).
Proof. unfold disconnect, remove_outward, remove_inward. ci. Qed.
#[local] Hint Resolve CI_disconnect : ci.
Lemma CI_remove_edges r : pres CI (remove_edges r).
Proof. unfold remove_edges. ci. Qed.
Lemma CI_remove_node g x : pres CI (remove_node g x).
Proof. unfold remove_node. ci. Qed.
Lemma CI_new_graph s o d : pres CI (new_graph s o d).
Proof. unfold new_graph. ci. Qed.
#[local] Hint Resolve CI_remove_edges CI_remove_node CI_new_graph : ci.
Lemma rmap_Forall {A B} (f : A → res B) (P : B → Prop) l bs : (∀ a b, f a = Ok b → P b) → rmap f l = Ok bs → Forall P bs.
Proof. intros Hf Hl%rmap_Ok. induction Hl; constructor; eauto. Qed.
Lemma CI_copy g : pres CI (copy g).
Proof.
  unfold copy. apply pres_bind; [ci|intros G]. cbv zeta. apply pres_bind; [ci|intros Ns]. apply pres_bind; [ci|intros Es]. destruct (_ || _); [ci|].
  apply (CI_read (Forall coloured)).
  { intros h l [HI _]. apply rmap_Forall. intros s b. destruct (h_ns h !! s) as [sty|] eqn:Hs; [|done]. intros (? & _ & [= <-])%rbind_Ok. by eapply Forall_lookup_1. }
  intros NSs HNS. apply (CI_read (Forall text_coloured)).
  { intros h l [_ HI]. apply rmap_Forall. intros s b. destruct (h_es h !! s) as [sty|] eqn:Hs; [|done]. intros [= <-].
    assert (text_coloured sty) as H by (by eapply Forall_lookup_1). exact H. }
  intros ESs HES. do 4 (apply pres_bind; [ci|intros ?]).
  apply pres_bind; [|intros _]. { apply pres_iter. intros sty Hin. rewrite Forall_forall in HNS. apply pres_bind; [apply CI_new_ns; auto|intros ?; ci]. }
  apply pres_bind; [|intros _]. { apply pres_iter. intros sty Hin. rewrite Forall_forall in HES. apply pres_bind; [apply CI_new_es; auto|intros ?; ci]. }
  unfold update_edges. ci.
Qed.
#[local] Hint Resolve CI_copy : ci.
Lemma CI_filter g xs d ft : pres CI (filter_graph g xs d ft).
Proof. unfold filter_graph. ci. Qed.
Lemma CI_from_lists d s t e strict : pres CI (from_lists d s t e strict).
Proof. unfold from_lists, from_lists_row. ci. Qed.
Lemma CI_from_object `{EqDecision Obj} (children parents : Obj → list Obj) hash ostr fuel d o strict md mh :
  pres CI (from_object children parents hash ostr fuel d o strict md mh).
Proof. unfold from_object. ci. Qed.
Lemma CI_from_text d root lines indent : pres CI (from_indented_text d root lines indent).
Proof. unfold from_indented_text, indented_row. ci. Qed.
Lemma CI_random d k strict cycle si p ord draws : pres CI (random_graph d k strict cycle si p ord draws).
Proof. unfold random_graph. ci. Qed.
Lemma CI_upd_disp g f : pres CI (upd_disp g f).
Proof. unfold upd_disp. ci. Qed.
#[local] Hint Resolve CI_upd_disp : ci.
Lemma CI_append_repr g d : pres CI (append_repr g d).
Proof. unfold append_repr, append_edge, when_some. ci. Qed.
#[local] Hint Resolve CI_append_repr : ci.
Lemma CI_append g o : pres CI (graph_append g o).
Proof. unfold graph_append. ci. Qed.
#[local] Hint Resolve CI_append : ci.
Lemma CI_append_all g os : pres CI (append_all g os).
Proof. unfold append_all. ci. Qed.
Lemma CI_graph_of s o d ob : pres CI (graph_of s o d ob).
Proof. unfold graph_of. ci. Qed.
#[local] Hint Resolve CI_graph_of : ci.
Lemma CI_from_dict d r : pres CI (from_dict d r).
Proof. unfold from_dict. ci. Qed.
Lemma CI_add_graphs d f o g1 g2 : pres CI (add_graphs d f o g1 g2).
Proof. unfold add_graphs, when_some. ci. Qed.

Lemma CI_assign r s : coloured s → pres CI (assign_nstyle r s).
Proof. intros Hs. unfold assign_nstyle. apply pres_bind; [by apply CI_new_ns|intros ?; ci]. Qed.
Ltac cstep2 := match goal with
  | |- pres CI (sbind (sread (λ _, nstyle_ctor _)) _) => apply (CI_read coloured); [intros; by eapply ctor_coloured|intros ? ?]
  | |- pres CI (sbind (sread (λ _, inherit_style _ _ _ _ _)) _) => apply (CI_read coloured); [intros; by eapply inherit_coloured|intros ? ?]
  | |- pres CI (assign_nstyle _ _) => by apply CI_assign
  | _ => cstep
  end.
Ltac ci2 := repeat cstep2.
Lemma CI_style_root used r : pres CI (style_root used r).
Proof.
  unfold style_root. ci2.
Qed.
Lemma CI_style_branch r : pres CI (style_branch r).
Proof.
  unfold style_branch. ci2.
Qed.
Lemma CI_style_edge c e : pres CI (style_edge c e).
Proof.
  unfold style_edge. apply pres_bind; [ci|intros E]. destruct (e_style E); [ci|]. apply pres_bind; [ci|intros s]. apply pres_bind; [ci|intros ns]. cbv zeta.
  apply (CI_read text_coloured). { intros h sty _. destruct c; [|apply ector_coloured]. intros (cp & _ & [= <-])%rbind_Ok. apply eput_coloured. }
  intros sty Hs. apply (CI_read text_coloured).
  { intros h sty' _ H. destruct (e_value E); try (apply rbind_Ok in H as (a & _ & H)); by injection H as <-. }
  intros sty' Hs'. apply pres_bind; [by apply CI_new_es|intros ?; ci].
Qed.
#[local] Hint Resolve CI_style_root CI_style_branch CI_style_edge : ci.
Lemma CI_pensieve g sc : pres CI (stylize_with_pensieve g sc).
Proof. unfold stylize_with_pensieve, stylize_edges_based_on_nodes. ci. Qed.
Lemma CI_randomly g sc sh : pres CI (stylize_randomly g sc sh).
Proof.
  unfold stylize_randomly, stylize_edges_based_on_nodes. ci2.
Qed.
Lemma CI_node_complement r d : pres CI (node_complement r d).
Proof. unfold node_complement. ci. Qed.
Lemma CI_edge_complement r d : pres CI (edge_complement r d).
Proof. unfold edge_complement. ci. Qed.
Lemma CI_overwrite_n g kv : pres CI (overwrite_node_colour g kv).
Proof.
  unfold overwrite_node_colour. do 4 (apply pres_bind; [ci|intros ?]). apply (CI_read coloured).
  - intros h s _. unfold ns_set_colour. intros (c & _ & [= <-])%rbind_Ok. apply put_coloured.
  - intros s Hs. by apply CI_assign.
Qed.
Lemma CI_overwrite_e g kv : pres CI (overwrite_edge_colour g kv).
Proof.
  unfold overwrite_edge_colour. do 3 (apply pres_bind; [ci|intros ?]). destruct (e_style _); [|ci]. do 2 (apply pres_bind; [ci|intros ?]).
  destruct kv.2; [|ci]. apply (CI_read text_coloured).
  - intros h s' _. unfold es_set_colour. intros (c & _ & [= <-])%rbind_Ok. apply eput_coloured.
  - intros s' Hs. apply pres_bind; [by apply CI_new_es|intros ?; ci].
Qed.
#[local] Hint Resolve CI_pensieve CI_randomly CI_node_complement CI_edge_complement CI_overwrite_n CI_overwrite_e : ci.
Lemma CI_stylize g sh : pres CI (stylize g sh).
Proof. unfold stylize, when_dict. ci. Qed.
#[local] Hint Resolve CI_stylize : ci.
Lemma CI_render env g dir pad sh : pres CI (render env g dir pad sh).
Proof. unfold render. ci. Qed.
Lemma CI_make_ns d : pres CI (make_nstyle d).
Proof. apply (CI_read coloured); [intros; by eapply ctor_coloured|]. intros s Hs. by apply CI_new_ns. Qed.
Lemma CI_make_es d : pres CI (make_estyle d).
Proof. apply (CI_read text_coloured); [intros; by eapply ector_coloured|]. intros s Hs. by apply CI_new_es. Qed.
Lemma invert_coloured s s' : ns_invert s = Ok s' → coloured s'.
Proof.
  unfold ns_invert. intros (? & _ & H)%rbind_Ok. do 3 (apply rbind_Ok in H as (? & _ & H)). injection H as <-. apply put_coloured.
Qed.
Lemma einvert_coloured s s' : es_invert s = Ok s' → text_coloured s'.
Proof.
  unfold es_invert. intros (? & _ & H)%rbind_Ok. apply rbind_Ok in H as (? & _ & H). injection H as <-. apply eput_coloured.
Qed.
Lemma CI_derive_ns b s : pres CI (derive_nstyle b s).
Proof.
  apply (CI_read coloured); [|intros; by apply CI_new_ns]. intros h a _ (sty & _ & H)%rbind_Ok.
  destruct b; [by eapply invert_coloured|by eapply copy_coloured].
Qed.
Lemma CI_derive_es b s : pres CI (derive_estyle b s).
Proof.
  apply (CI_read text_coloured); [|intros; by apply CI_new_es]. intros h a _ (sty & _ & H)%rbind_Ok.
  destruct b; [by eapply einvert_coloured|by eapply ecopy_coloured].
Qed.
Lemma CI_background g v : pres CI (set_background g v).
Proof. unfold set_background. ci. Qed.
Lemma reachable_CI h : reachable h → CI h.
Proof.
  induction 1 as [|h c Hr IH _]; [by split; constructor|].
  destruct c; cbn [after].
  all: match goal with |- CI (?m ?hh).1 => enough (pres CI m) as Hm by (by apply Hm) end.
  all: first [apply CI_new_graph|apply CI_add_node|apply CI_connect|apply CI_connect_to|apply CI_connect_from|apply CI_disconnect|apply CI_remove_self|
     apply CI_remove_edges|apply CI_remove_node|apply CI_node_set_style|apply CI_edge_set_style|apply CI_node_ctor|apply CI_edge_ctor|apply CI_copy|apply CI_filter
    |apply CI_from_lists|apply CI_from_object|apply CI_from_text|apply CI_random|apply CI_append|apply CI_append_all|apply CI_graph_of|apply CI_from_dict
    |apply CI_add_graphs|apply CI_stylize|apply CI_render|apply CI_background|apply CI_make_ns|apply CI_derive_ns|apply CI_upd_ns|apply CI_make_es|apply CI_derive_es|apply CI_upd_es
    |unfold node_set_value, node_set_label, node_set_frozen, node_set_param, edge_set_value, edge_set_label, edge_set_frozen, edge_set_param; ci].
Qed.

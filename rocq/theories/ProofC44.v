(** The file that render(path) writes (C84); str of nodes and edges (C85). *)
From Verif Require Export ModelText SpecText2 Ops SpecOps.
From Verif Require Import ProofC1 ProofC2b Samples.
Local Open Scope string_scope.
#[local] Arguments String.append !_ _ : simpl nomatch.

Lemma sapp_assoc (a b c : string) : (a +:+ b) +:+ c = a +:+ (b +:+ c).
Proof. induction a; simpl; [done|]. by f_equal. Qed.
Lemma sapp_nil (a : string) : a +:+ "" = a.
Proof. induction a; simpl; [done|]. by f_equal. Qed.
Lemma slen_app (a b : string) : String.length (a +:+ b) = String.length a + String.length b.
Proof. induction a; simpl; [done|]. by rewrite IHa. Qed.
Lemma sapp_inj_l (a b c : string) : a +:+ b = a +:+ c → b = c.
Proof. induction a as [|x a IH]; simpl; [done|]. intros [= ?]. by apply IH. Qed.
Lemma substr_all (b : string) : String.substring 0 (String.length b) b = b.
Proof. induction b; simpl; [done|]. by f_equal. Qed.
Lemma substr_pre (a b : string) : String.substring 0 (String.length a) (a +:+ b) = a.
Proof. induction a; simpl; [by destruct b|]. by f_equal. Qed.
Lemma substr_mid (a b c : string) n : n = String.length b → String.substring (String.length a) n (a +:+ (b +:+ c)) = b.
Proof. intros ->. induction a; simpl; [apply substr_pre|done]. Qed.
Lemma occurs_app c a b : occurs c (a +:+ b) ↔ occurs c a ∨ occurs c b.
Proof.
  split.
  - induction a as [|d a IH]; simpl; [by right|]. intros ([|d' u] & v & H); simpl in H; injection H as -> H.
    + left. by exists "", a.
    + destruct IH as [(x & y & ->)|?]; [by exists u, v| |by right]. left. by exists (String d' x), y.
  - intros [(x & y & ->)|(x & y & ->)]; [exists x, (y +:+ b); by rewrite sapp_assoc|exists (a +:+ x), y; by rewrite sapp_assoc].
Qed.
Lemma occurs_cons c d s : occurs c (String d s) ↔ c = d ∨ occurs c s.
Proof.
  change (String d s) with (String d "" +:+ s). rewrite occurs_app. apply or_iff_compat_r. split.
  - intros ([|? [|??]] & v & H); simpl in H; by injection H as ->.
  - intros ->. by exists "", "".
Qed.
Lemma occurs_nil c : ¬ occurs c "".
Proof. by intros ([|??] & ? & ?). Qed.

Lemma rfind_None c s : rfind c s = None ↔ ¬ occurs c s.
Proof.
  induction s as [|d s IH]; simpl; [split; [intros _; apply occurs_nil|done]|]. rewrite occurs_cons.
  destruct (rfind c s); [split; [done|]; intros Hn; exfalso; assert (¬ occurs c s) as Hx%IH by tauto; done|].
  destruct (Ascii.eqb_spec d c) as [->|Hne]; [split; [done|]; tauto|].
  split; [|done]. intros _ [->|Ho]; [done|]. by apply IH.
Qed.
Lemma rfind_at c a b : ¬ occurs c b → rfind c (a +:+ String c b) = Some (String.length a).
Proof.
  intros Hb. induction a as [|d a IH]; simpl; [|by rewrite IH].
  rewrite (proj2 (rfind_None c b)) by done. by rewrite Ascii.eqb_refl.
Qed.
Lemma rfind_Some c s i : rfind c s = Some i → ∃ a b, s = a +:+ String c b ∧ i = String.length a ∧ ¬ occurs c b.
Proof.
  revert i. induction s as [|d s IH]; simpl; [done|]. intros i. destruct (rfind c s) as [j|] eqn:Hj.
  - intros [= <-]. destruct (IH j eq_refl) as (a & b & -> & -> & Hb). by exists (String d a), b.
  - destruct (Ascii.eqb_spec d c) as [->|]; [|done]. intros [= <-]. exists "", s. split; [done|]. split; [done|]. by apply rfind_None.
Qed.
Lemma not_only_dots_true s : not_only_dots s = true ↔ ∃ c, occurs c s ∧ c ≠ "."%char.
Proof.
  induction s as [|d s IH]; simpl; [split; [done|]; intros (c & Hc & _); by apply occurs_nil in Hc|].
  destruct (Ascii.eqb_spec d ".") as [->|Hne]; simpl.
  - rewrite IH. split; intros (c & Hc & Hn); exists c; (split; [|done]); [apply occurs_cons; by right|].
    apply occurs_cons in Hc as [->|?]; done.
  - split; [|done]. intros _. exists d. split; [apply occurs_cons; by left|done].
Qed.

Lemma split_known root ext : extension root ext → splitext (root +:+ ext) = (root, ext).
Proof.
  intros (dir & base & e & -> & -> & Hd & Hs & Hb & Hdir & Hc). unfold splitext.
  rewrite (rfind_at "." (dir +:+ base) e) by done.
  assert (Hfrom : match rfind "/" ((dir +:+ base) +:+ String "." e) with Some i => S i | None => 0 end = String.length dir).
  { assert (Hn : ¬ occurs "/" (base +:+ String "." e)) by (rewrite occurs_app, occurs_cons; naive_solver).
    destruct Hdir as [->|[d ->]]; simpl.
    - by rewrite (proj2 (rfind_None _ _)).
    - rewrite !sapp_assoc. simpl. rewrite rfind_at by done. rewrite slen_app. simpl. lia. }
  rewrite Hfrom, !slen_app. simpl. rewrite (proj2 (Nat.leb_le _ _)) by lia. rewrite sapp_assoc at 1.
  rewrite substr_mid by lia. rewrite (proj2 (not_only_dots_true base)) by done. simpl. f_equal.
  - rewrite <-slen_app. apply substr_pre.
  - rewrite <-slen_app, <-(sapp_nil (String "." e)) at 1. apply substr_mid. simpl. lia.
Qed.
Lemma split_cases p : (∃ root ext, p = root +:+ ext ∧ extension root ext) ∨ splitext p = (p, "").
Proof.
  unfold splitext. destruct (rfind "." p) as [d|] eqn:Hd; [|by right].
  apply rfind_Some in Hd as (a & e & -> & -> & He).
  destruct (rfind "/" (a +:+ String "." e)) as [i|] eqn:Hi.
  - apply rfind_Some in Hi as (u & v & Huv & -> & Hv). destruct (Nat.leb_spec (S (String.length u)) (String.length a)) as [Hle|]; [|by right].
    assert (∃ w, a = u +:+ String "/" w ∧ v = w +:+ String "." e) as (w & -> & ->).
    { clear -Huv Hle. revert u Hle Huv. induction a as [|x a IH]; intros [|y u] Hle Huv; simpl in *; [lia..| |].
      - injection Huv as -> <-. by exists a.
      - injection Huv as -> Huv. destruct (IH u) as (w & -> & ->); [lia|done|]. by exists w. }
    simpl. destruct (not_only_dots _) eqn:Hn; [|by right]. left. exists (u +:+ String "/" w), (String "." e). split; [done|].
    rewrite occurs_app, occurs_cons in Hv.
    exists (u +:+ "/"), w, e. rewrite sapp_assoc. split_and!; try done; [tauto|tauto|right; by exists u|].
    apply not_only_dots_true. rewrite <-Hn. f_equal. symmetry.
    replace (S (String.length u)) with (String.length (u +:+ "/")) by (rewrite slen_app; simpl; lia).
    replace ((u +:+ String "/" w) +:+ String "." e) with ((u +:+ "/") +:+ (w +:+ String "." e)) by (by rewrite !sapp_assoc).
    apply substr_mid. rewrite !slen_app. simpl. lia.
  - apply rfind_None in Hi. rewrite occurs_app, occurs_cons in Hi. simpl. destruct (not_only_dots _) eqn:Hn; [|by right].
    left. exists a, (String "." e). split; [done|]. exists "", a, e. split_and!; try done; [tauto|tauto|by left|].
    apply not_only_dots_true. rewrite <-Hn. f_equal. rewrite Nat.sub_0_r. symmetry. apply substr_pre.
Qed.

(** C84, partial.  Missing: other extensions than .pdf, see below.  If the path has an
    extension, it is replaced by .pdf: the file written is the one asked for iff the
    extension is .pdf. *)
Lemma C84_extension_partial_proof : ∀ root ext, extension root ext →
  saved_file (root +:+ ext) = root +:+ ".pdf" ∧ (saved_file (root +:+ ext) = root +:+ ext ↔ ext = ".pdf").
Proof.
  intros root ext He. unfold saved_file. rewrite split_known by done. simpl. split; [done|]. split; [|by intros ->].
  intros H. symmetry. by eapply sapp_inj_l.
Qed.
(** C84, partial.  If it has none, .pdf is appended. *)
Lemma C84_plain_partial_proof : ∀ path, (∀ root ext, path = root +:+ ext → ¬ extension root ext) → saved_file path = path +:+ ".pdf".
Proof.
  intros path Hn. destruct (split_cases path) as [(root & ext & Hp & He)|Hs]; [by destruct (Hn root ext Hp)|].
  unfold saved_file. by rewrite Hs.
Qed.
(** C84 is false: asked for g.png, render writes g.pdf. *)
Lemma C84_format_refuted_proof : ∃ root ext, extension root ext ∧ root +:+ ext = "out/g.png" ∧ saved_file (root +:+ ext) = "out/g.pdf".
Proof.
  exists "out/g", ".png". split; [|done]. exists "out/", "g", "png".
  assert (Hno : ∀ c s, rfind c s = None → ¬ occurs c s) by (intros; by apply rfind_None).
  split_and!; try done; try by apply Hno. { right. by exists "out". } exists "g"%char. split; [by exists "", ""|done].
Qed.
(** C84 is not vacuous: a path with dots in the directory, and one whose name starts with a
    dot, which is not an extension. *)
Lemma C84_ex_proof : saved_file "a.b/.g" = "a.b/.g.pdf" ∧ saved_file "a.b/g" = "a.b/g.pdf" ∧ saved_file "a.b/g.x.svg" = "a.b/g.x.pdf" ∧
  saved_file "g.pdf" = "g.pdf" ∧ (∀ root ext, "a.b/.g" = root +:+ ext → ¬ extension root ext).
Proof.
  split_and!; try by vm_compute. intros root ext Hp He. pose proof (split_known root ext He) as Hs. rewrite <-Hp in Hs.
  vm_compute in Hs. injection Hs as <- <-. by destruct He as (? & ? & ? & _ & ? & _).
Qed.

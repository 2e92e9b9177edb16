(** parse_indentations on printed outlines. *)
From Verif Require Export SpecText ProofDict ModelParse.
Import Verif.ModelParse.
Local Open Scope string_scope.
Local Open Scope list_scope.

(** * strings *)
Lemma sapp_assoc (a b c : string) : (a +:+ b) +:+ c = a +:+ b +:+ c.
Proof. induction a as [|x a IH]; [done|]. change (String x ((a +:+ b) +:+ c) = String x (a +:+ b +:+ c)). by rewrite IH. Qed.
Lemma sapp_nil (a : string) : a +:+ "" = a.
Proof. induction a as [|x a IH]; [done|]. change (String x (a +:+ "") = String x a). by rewrite IH. Qed.
Lemma sapp_length (a b : string) : String.length (a +:+ b) = String.length a + String.length b.
Proof. induction a as [|x a IH]; [done|]. change (Datatypes.S (String.length (a +:+ b)) = Datatypes.S (String.length a + String.length b)). by rewrite IH. Qed.
Lemma times_length n u : String.length (times n u) = n * String.length u.
Proof. induction n as [|n IH]; [done|]. cbn [times]. by rewrite sapp_length, IH. Qed.
Lemma has_char_cons c x s : has_char c (String x s) ↔ c = x ∨ has_char c s.
Proof.
  split.
  - intros ([|y s1] & s2 & Heq); [injection Heq as -> _; by left|]. injection Heq as -> ->. right. by exists s1, s2.
  - intros [->|(s1 & s2 & ->)]; [by exists "", s|]. by exists (String x s1), s2.
Qed.
Lemma has_char_nil c : ¬ has_char c "".
Proof. by intros ([|y s1] & s2 & Heq). Qed.
Lemma has_char_app c a b : has_char c (a +:+ b) ↔ has_char c a ∨ has_char c b.
Proof.
  induction a as [|x a IH].
  - split; [by right|]. intros [[]%has_char_nil|?]; done.
  - change (String x a +:+ b) with (String x (a +:+ b)). rewrite !has_char_cons, IH. tauto.
Qed.
Lemma char_in_true c s : char_in c s = true ↔ has_char c s.
Proof.
  induction s as [|x s IH]; cbn [char_in].
  - split; [done|]. by intros ?%has_char_nil.
  - rewrite orb_true_iff, IH, has_char_cons, eqb_true. done.
Qed.
Lemma is_space_true c : is_space c = true ↔ white c.
Proof.
  unfold is_space, white. cbv zeta. rewrite !orb_true_iff, !andb_true_iff, !Nat.leb_le, !Nat.eqb_eq. tauto.
Qed.
Lemma is_space_false c : is_space c = false ↔ ¬ white c.
Proof. rewrite <-is_space_true. destruct (is_space c); naive_solver. Qed.

(** * rstrip *)
Lemma rstrip_newlines k : rstrip_nl (times k line_end) = "".
Proof. induction k as [|k IH]; [done|]. change (match rstrip_nl (times k line_end) with "" => "" | r => String newline r end = ""). by rewrite IH. Qed.
Lemma rstrip_line s k : ¬ has_char "010"%char s → rstrip_nl (s +:+ times k line_end) = s.
Proof.
  induction s as [|c s IH]; intros Hn; [apply rstrip_newlines|]. change (String c s +:+ times k line_end) with (String c (s +:+ times k line_end)).
  rewrite has_char_cons in Hn. cbn [rstrip_nl]. rewrite IH by tauto. destruct s; [|done]. destruct (eqb c newline) eqn:E; [|done].
  apply eqb_is in E as ->. naive_solver.
Qed.

(** * drop_while, take_while *)
Lemma drop_while_app p a b : (∀ c, has_char c a → p c = true) → drop_while p (a +:+ b) = drop_while p b.
Proof.
  induction a as [|x a IH]; intros Ha; [done|]. change (String x a +:+ b) with (String x (a +:+ b)). cbn [drop_while].
  rewrite Ha by (apply has_char_cons; by left). apply IH. intros c Hc. apply Ha, has_char_cons. by right.
Qed.
Lemma take_while_app p a b : (∀ c, has_char c a → p c = true) → take_while p (a +:+ b) = a +:+ take_while p b.
Proof.
  induction a as [|x a IH]; intros Ha; [done|]. change (String x a +:+ b) with (String x (a +:+ b)). cbn [take_while].
  rewrite Ha by (apply has_char_cons; by left). rewrite IH; [done|]. intros c Hc. apply Ha, has_char_cons. by right.
Qed.
Lemma take_while_all p a : (∀ c, has_char c a → p c = true) → take_while p a = a.
Proof. intros Ha. rewrite <-(sapp_nil a) at 1. by rewrite take_while_app, sapp_nil. Qed.
Lemma has_char_times c n u : has_char c (times n u) → has_char c u.
Proof. induction n as [|n IH]; cbn [times]; [by intros ?%has_char_nil|]. rewrite has_char_app. tauto. Qed.

(** * replace *)
Lemma replace_skip old new n a b : replace_n old new n (String.length a) (a +:+ b) = replace_n old new n 0 b.
Proof. induction a as [|x a IH]; [done|]. exact IH. Qed.
Lemma replace_zero old new s : replace_n old new 0 0 s = s.
Proof. induction s as [|x s IH]; [done|]. cbn [replace_n]. by rewrite IH. Qed.
Lemma prefix_app a b : String.prefix a (a +:+ b) = true.
Proof. induction a as [|x a IH]; [by destruct b|]. change (String.prefix (String x a) (String x (a +:+ b)) = true). simpl. destruct (ascii_dec x x); [exact IH|done]. Qed.
Lemma prefix_true a s : String.prefix a s = true → ∃ b, s = a +:+ b.
Proof.
  revert s. induction a as [|x a IH]; intros s Hp; [by exists s|]. destruct s as [|y s]; [done|]. simpl in Hp.
  destruct (ascii_dec x y) as [->|]; [|done]. destruct (IH s Hp) as [b ->]. by exists b.
Qed.
Lemma replace_times old new d n s : old ≠ "" → replace_n old new (d + n) 0 (times d old +:+ s) = times d new +:+ replace_n old new n 0 s.
Proof.
  intros Ho. induction d as [|d IH]; [done|]. cbn [times]. rewrite !sapp_assoc. destruct old as [|x old]; [done|].
  change (String x old +:+ times d (String x old) +:+ s) with (String x (old +:+ times d (String x old) +:+ s)).
  change (Datatypes.S d + n) with (Datatypes.S (d + n)). cbn [replace_n].
  pose proof (prefix_app (String x old) (times d (String x old) +:+ s)) as Hp.
  change (String x old +:+ times d (String x old) +:+ s) with (String x (old +:+ times d (String x old) +:+ s)) in Hp. rewrite Hp.
  cbn [String.length]. rewrite Nat.sub_succ, Nat.sub_0_r, replace_skip. by rewrite IH.
Qed.
Lemma replace_absent old new n s : ¬ occurs old s → replace_n old new n 0 s = s.
Proof.
  induction s as [|x s IH]; intros Ho; [done|]. assert (¬ occurs old s) as Hs.
  { intros (s1 & s2 & ->). apply Ho. by exists (String x s1), s2. }
  cbn [replace_n]. destruct n as [|n]; [by rewrite replace_zero|].
  destruct (String.prefix old (String x s)) eqn:E; [|by rewrite IH].
  apply prefix_true in E as [b Hb]. destruct Ho. by exists "", b.
Qed.
(** the first character stays *)
Lemma replace_head old new n c s : old ≠ "" → ¬ has_char c old → ∃ s', replace_n old new n 0 (String c s) = String c s'.
Proof.
  intros Ho Hc. cbn [replace_n]. destruct n as [|n]; [eauto|]. destruct (String.prefix old (String c s)) eqn:E; [|eauto].
  apply prefix_true in E as [b Hb]. destruct old as [|x old]; [done|]. injection Hb as -> _. destruct Hc. apply has_char_cons. by left.
Qed.

(** * the regular expression *)
Lemma strip4_times d c s : ¬ white c → strip4 (times d four_spaces +:+ String c s) = (d, String c s).
Proof.
  intros Hc. induction d as [|d IH].
  - assert (eqb c space = false) as Hf.
    { destruct (eqb c space) eqn:E; [|done]. apply eqb_is in E as ->. destruct Hc. unfold white. right. left. vm_compute. lia. }
    cbn [times]. change ("" +:+ String c s) with (String c s). destruct s as [|? [|? [|? ?]]]; try done. cbn [strip4]. by rewrite Hf.
  - cbn [times]. rewrite sapp_assoc. change (four_spaces +:+ times d four_spaces +:+ String c s)
      with (String space (String space (String space (String space (times d four_spaces +:+ String c s))))).
    cbn [strip4]. rewrite eqb_same. cbn [andb]. by rewrite IH.
Qed.
Lemma match_times d c s : ¬ white c → match_line (times d four_spaces +:+ String c s) = Some (d, take_while (λ d, negb (eqb d newline)) (String c s)).
Proof. intros Hc. unfold match_line. rewrite strip4_times by done. assert (is_space c = false) as -> by (by apply is_space_false). done. Qed.

(** * one line *)
Definition stack_for (o : list (nat * string)) (st : list nat) : Prop :=
  ∀ l, l < length st → ∃ j, st !! l = Some j ∧ j < length o ∧ o.*1 !! j = Some l ∧ ∀ j', j < j' < length o → o.*1 !! j' ≠ Some l.
Lemma stack_push o st lc : lc.1 ≤ length st → stack_for o st →
  stack_for (o ++ [lc]) (take lc.1 st ++ [length o]) ∧ length (take lc.1 st ++ [length o]) = Datatypes.S lc.1.
Proof.
  intros Hl Hst. assert (length (take lc.1 st) = lc.1) as Hlen by (rewrite take_length; lia).
  assert (length (take lc.1 st ++ [length o]) = Datatypes.S lc.1) as Hlen' by (rewrite app_length, Hlen; cbn; lia).
  split; [|done]. intros l Hl'. rewrite Hlen' in Hl'. rewrite app_length. cbn [length].
  assert (Hlook : ∀ j, (o ++ [lc]).*1 !! j = if decide (j < length o) then o.*1 !! j else if decide (j = length o) then Some lc.1 else None).
  { intros j. rewrite fmap_app. destruct (decide (j < length o)).
    - apply lookup_app_l. by rewrite fmap_length.
    - rewrite lookup_app_r by (rewrite fmap_length; lia). rewrite fmap_length. destruct (decide (j = length o)) as [->|]; [by rewrite Nat.sub_diag|].
      apply lookup_ge_None. cbn. lia. }
  destruct (decide (l = lc.1)) as [->|Hne].
  - exists (length o). split; [rewrite lookup_app_r by lia; by rewrite Hlen, Nat.sub_diag|]. split; [lia|]. rewrite Hlook.
    rewrite decide_False by lia. rewrite decide_True by done. split; [done|]. intros; lia.
  - destruct (Hst l) as (j & Hj & Hlt & Hoj & Hlast); [lia|]. exists j. split; [rewrite lookup_app_l, lookup_take by lia; done|].
    split; [lia|]. rewrite Hlook, decide_True by lia. split; [done|]. intros j' Hj'. rewrite Hlook.
    destruct (decide (j' < length o)); [apply Hlast; lia|]. rewrite decide_True by lia. congruence.
Qed.

(** What the parser gives for the text of a line. *)
Definition kept_text (u : string) (lc : nat * string) (s : string) : Prop :=
  (lc.1 = 0 ∨ String.length u = 1 ∨ ¬ occurs u lc.2) → s = lc.2.

Lemma parse_nonempty st index indent (line : string) : line ≠ "" →
  ∀ level content, match_line line = Some (level, content) → level ≤ length (p_stack st) →
  ∃ p, (match line with
  | String _ _ =>
      match match_line line with
      | None => Err ValueError
      | Some (level, content) =>
          if Nat.ltb (length (p_stack st)) level then Err ValueError
          else
            let stack := take level (p_stack st) ++ [index] in
            match level with
            | 0 => Ok (MkPState indent (Some level) stack, (index, level, content, None))
            | S l => match stack !! l with
                     | Some p => Ok (MkPState indent (Some level) stack, (index, level, content, Some p))
                     | None => Err IndexError
                     end
            end
      end
  | "" =>
      match p_level st with
      | None => Err UnboundLocalError
      | Some level =>
          match level with
          | 0 => Ok (MkPState indent (Some level) (p_stack st), (index, level, "", None))
          | S l => match p_stack st !! l with
                   | Some p => Ok (MkPState indent (Some level) (p_stack st), (index, level, "", Some p))
                   | None => Err IndexError
                   end
          end
      end
  end : res (pstate * pline)) = Ok (MkPState indent (Some level) (take level (p_stack st) ++ [index]), (index, level, content, p)) ∧
  match level, p with
  | 0, None => True
  | S l, Some j => p_stack st !! l = Some j
  | _, _ => False
  end.
Proof.
  intros Hne level content Hm Hl. destruct line as [|c line]; [done|]. rewrite Hm. rewrite (proj2 (Nat.ltb_ge _ _) Hl). cbv zeta.
  destruct level as [|l]; [by exists None|]. destruct (lookup_lt_is_Some_2 (p_stack st) l ltac:(lia)) as [j Hj].
  exists (Some j). rewrite lookup_app_l by (rewrite take_length; lia). rewrite lookup_take by lia. by rewrite Hj.
Qed.

Lemma rstrip_app a s : rstrip_nl s ≠ "" → rstrip_nl (a +:+ s) = a +:+ rstrip_nl s.
Proof.
  intros Hs. induction a as [|x a IH]; [done|]. change (String x a +:+ s) with (String x (a +:+ s)). cbn [rstrip_nl]. rewrite IH.
  change (String x a +:+ rstrip_nl s) with (String x (a +:+ rstrip_nl s)). destruct (a +:+ rstrip_nl s) eqn:E; [|done].
  destruct a; [done|]. discriminate.
Qed.
Lemma rstrip_printed u lc line : text_line u lc.2 → printed u lc line → rstrip_nl line = times lc.1 u +:+ lc.2.
Proof.
  intros (Hn & c & s & Hs & _) [k ->]. rewrite rstrip_app; rewrite rstrip_line by done; [done|]. by rewrite Hs.
Qed.
Lemma replaced u lc : u ≠ "" → text_line u lc.2 → let line := times lc.1 u +:+ lc.2 in
  ∃ c s, ¬ white c ∧ replace_n u four_spaces (String.length line - String.length (drop_while (λ c, char_in c u) line)) 0 line
      = times lc.1 four_spaces +:+ String c s ∧ kept_text u lc (String c s).
Proof.
  intros Hu (Hn & c & s & Hs & Hw & Hcu). cbv zeta.
  assert (drop_while (λ c, char_in c u) (times lc.1 u +:+ lc.2) = lc.2) as ->.
  { rewrite drop_while_app by (intros x ?%has_char_times; by apply char_in_true). rewrite Hs. cbn [drop_while].
    destruct (char_in c u) eqn:E; [|done]. by apply char_in_true in E. }
  rewrite sapp_length, times_length.
  assert (1 ≤ String.length u) as Hlen by (destruct u; cbn; [done|lia]).
  replace (lc.1 * String.length u + String.length lc.2 - String.length lc.2) with (lc.1 + lc.1 * (String.length u - 1)) by nia.
  rewrite replace_times by done. rewrite Hs. destruct (replace_head u four_spaces (lc.1 * (String.length u - 1)) c s Hu Hcu) as [s' Hs'].
  exists c, s'. split; [done|]. rewrite Hs'. split; [done|]. intros Hk. rewrite <-Hs', <-Hs.
  destruct Hk as [->|[->|Ho]]; [by rewrite replace_zero| |by apply replace_absent].
  by rewrite Nat.sub_diag, Nat.mul_0_r, replace_zero.
Qed.
Lemma take_while_kept u lc c s : ¬ has_char "010"%char lc.2 → kept_text u lc (String c s) →
  kept_text u lc (take_while (λ d, negb (eqb d newline)) (String c s)).
Proof.
  intros Hn Hk Hc. rewrite (Hk Hc). apply take_while_all. intros x Hx. destruct (eqb x newline) eqn:E; [|done]. by apply eqb_is in E as ->.
Qed.
Definition parsed_line (st : list nat) (i : nat) (u : string) (ind : option string) (lc : nat * string) (o : res (pstate * pline)) : Prop :=
  ∃ s p, o = Ok (MkPState ind (Some lc.1) (take lc.1 st ++ [i]), (i, lc.1, s, p)) ∧ kept_text u lc s ∧
    match lc.1, p with 0, None => True | S l, Some j => st !! l = Some j | _, _ => False end.
Lemma times_ne d c s : times d four_spaces +:+ String c s ≠ "".
Proof. by destruct d. Qed.
Lemma parse_explicit u lc line st i : u ≠ "" → text_line u lc.2 → printed u lc line → lc.1 ≤ length (p_stack st) → p_indent st = Some u →
  parsed_line (p_stack st) i u (Some u) lc (parse_line st i line).
Proof.
  intros Hu Ht Hp Hl Hi. unfold parse_line. rewrite (rstrip_printed u lc line Ht Hp), Hi. cbv zeta.
  destruct (replaced u lc Hu Ht) as (c & s & Hw & -> & Hk).
  destruct (parse_nonempty st i (Some u) _ (times_ne lc.1 c s) _ _ (match_times lc.1 c s Hw) Hl) as (p & Heq & Hpp).
  exists (take_while (λ d, negb (eqb d newline)) (String c s)), p. split; [exact Heq|]. split; [|done].
  apply take_while_kept; [|done]. apply Ht.
Qed.
Lemma parse_detect u lc line st i : u ≠ "" → (∀ c, has_char c u → space_or_tab c) → text_line u lc.2 → printed u lc line →
  lc.1 ≤ length (p_stack st) → length (p_stack st) ≤ 1 → p_indent st = None →
  parsed_line (p_stack st) i u (if decide (lc.1 = 0) then None else Some u) lc (parse_line st i line).
Proof.
  intros Hu Hsp Ht Hp Hl Hl1 Hi. unfold parse_line. rewrite (rstrip_printed u lc line Ht Hp), Hi. cbv zeta.
  pose proof Ht as (Hn & c & s & Hs & Hw & Hcu).
  assert (eqb c tab || eqb c space = false) as Hct.
  { apply orb_false_iff. split; apply not_true_is_false; intros ->%eqb_is; apply Hw; unfold white; vm_compute; lia. }
  assert (lc.1 = 0 ∨ lc.1 = 1) as [Hz|Hz] by lia.
  - rewrite decide_True by done. rewrite Hz. cbn [times]. change ("" +:+ lc.2) with lc.2. rewrite Hs, Hct.
    destruct (parse_nonempty st i None (String c s) ltac:(done) _ _ (match_times 0 c s Hw)) as (p & Heq & Hpp); [lia|].
    exists (take_while (λ d, negb (eqb d newline)) (String c s)), p. rewrite Hz. split; [exact Heq|]. split; [|done].
    apply take_while_kept; [done|]. intros _. done.
  - rewrite decide_False by lia. destruct (replaced u lc Hu Ht) as (c' & s' & Hw' & Hrep & Hk).
    assert ((match times lc.1 u +:+ lc.2 with
              | String c _ => if eqb c tab || eqb c space then Some (take_while (λ c, eqb c space || eqb c tab) (times lc.1 u +:+ lc.2)) else None
              | "" => None end) = Some u) as ->.
    { rewrite Hz. cbn [times]. rewrite sapp_nil. rewrite take_while_app.
      - rewrite Hs. cbn [take_while]. rewrite orb_comm, Hct, sapp_nil. destruct u as [|x u]; [done|].
        change (String x u +:+ String c s) with (String x (u +:+ String c s)). cbv iota.
        destruct (Hsp x) as [->| ->]; [apply has_char_cons; by left|done|done].
      - intros x Hx. destruct (Hsp x Hx) as [->| ->]; done. }
    rewrite Hrep.
    destruct (parse_nonempty st i (Some u) _ (times_ne lc.1 c' s') _ _ (match_times lc.1 c' s' Hw') Hl) as (p & Heq & Hpp).
    exists (take_while (λ d, negb (eqb d newline)) (String c' s')), p. split; [exact Heq|]. split; [|done].
    by apply take_while_kept.
Qed.

(** * all lines *)
Definition recovered (u : string) (o : list (nat * string)) (i : nat) (l : pline) : Prop :=
  ∃ lc s p, l = (i, lc.1, s, p) ∧ o !! i = Some lc ∧ parent_line o i p ∧ kept_text u lc s.
Lemma parent_pushed o lc st p : stack_for o st → lc.1 ≤ length st →
  match lc.1, p with 0, None => True | S l, Some j => st !! l = Some j | _, _ => False end →
  ∀ rest, parent_line (o ++ lc :: rest) (length o) p.
Proof.
  intros Hst Hl Hp rest. unfold parent_line. rewrite fmap_app. cbn [fmap list_fmap].
  rewrite lookup_app_r by (rewrite fmap_length; lia). rewrite fmap_length, Nat.sub_diag. cbn.
  destruct lc.1 as [|l]; destruct p as [j|]; try done. destruct (Hst l) as (j' & Hj & Hlt & Hoj & Hlast); [lia|].
  simplify_eq. split; [done|]. assert (Hlk : ∀ k x, k < length o → (o.*1 ++ x :: rest.*1) !! k = o.*1 !! k).
  { intros k x Hk. apply lookup_app_l. by rewrite fmap_length. }
  split; [by rewrite Hlk|]. intros k Hk. rewrite Hlk by lia. by apply Hlast.
Qed.
Lemma parse_lines u (ind : option string) : u ≠ "" → (ind = Some u ∨ ind = None ∧ ∀ c, has_char c u → space_or_tab c) → ∀ o2 lines o1 st,
  stack_for o1 (p_stack st) → outline_from (length (p_stack st)) o2 →
  (p_indent st = Some u ∨ p_indent st = None ∧ ind = None ∧ length (p_stack st) ≤ 1) →
  Forall (λ lc, text_line u lc.2) o2 → Forall2 (printed u) o2 lines →
  ∃ ls, parse_loop st (length o1) lines = Ok ls ∧ length ls = length o2 ∧
    ∀ i l, ls !! i = Some l → recovered u (o1 ++ o2) (length o1 + i) l.
Proof.
  intros Hu Hind. induction o2 as [|lc o2 IH]; intros lines o1 st Hst Ho Hi Ht Hp.
  { inversion Hp; subst. exists []. done. }
  inversion Hp as [|? line ? lines' Hpl Hps]; subst. inversion Ht as [|? ? Htl Hts]; subst.
  assert (lc.1 ≤ length (p_stack st) ∧ outline_from (Datatypes.S lc.1) o2) as [Hl Ho2] by (by destruct lc).
  destruct (stack_push o1 (p_stack st) lc Hl Hst) as [Hst' Hlen'].
  assert (∃ ind', parsed_line (p_stack st) (length o1) u ind' lc (parse_line st (length o1) line) ∧
     (ind' = Some u ∨ ind' = None ∧ ind = None ∧ Datatypes.S lc.1 ≤ 1)) as (ind' & (s & p & Heq & Hk & Hpp) & Hind').
  { destruct Hi as [Hi|(Hi & Hnone & Hl1)].
    - exists (Some u). split; [by apply parse_explicit|by left].
    - destruct Hind as [?|[_ Hsp]]; [congruence|]. eexists. split; [by apply parse_detect|].
      destruct (decide (lc.1 = 0)); [right; split_and!; [done..|lia]|by left]. }
  destruct (IH lines' (o1 ++ [lc]) (MkPState ind' (Some lc.1) (take lc.1 (p_stack st) ++ [length o1]))) as (ls & Hls & Hlen & Hrec); try done.
  { cbn [p_stack]. by rewrite Hlen'. }
  { cbn [p_stack p_indent]. by rewrite Hlen'. }
  exists ((length o1, lc.1, s, p) :: ls). cbn [parse_loop]. rewrite Heq. cbn [rbind]. rewrite app_length, Nat.add_comm in Hls. cbn in Hls. cbn. rewrite Hls. cbn.
  split; [done|]. split; [by rewrite Hlen|]. intros [|i] l Hil.
  - injection Hil as <-. rewrite Nat.add_0_r. exists lc, s, p. split; [done|]. split; [by apply list_lookup_middle|]. split; [|done].
    by eapply parent_pushed.
  - specialize (Hrec i l Hil). rewrite <-app_assoc, app_length in Hrec. cbn in Hrec.
    by replace (length o1 + Datatypes.S i) with (length o1 + 1 + i) by lia.
Qed.

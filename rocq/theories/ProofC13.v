(** Colour rotation, diverging numbers, style objects. *)
From Coq Require Import Sorting.Sorted.
From Verif Require Export SpecBuild ProofBuild ProofColour Samples.
Local Open Scope list_scope.

(** * Colours in rotation *)
Lemma colours_used0_distinct scheme : colours_used0 scheme = (λ c, (c, 0)) <$> distinct scheme.
Proof.
  unfold colours_used0. induction scheme as [|c scheme IH] using rev_ind; [done|].
  rewrite fold_left_app, IH, distinct_snoc. cbn. 
  assert (Hk : dkeys ((λ c, (c, 0)) <$> distinct scheme) = distinct scheme).
  { unfold dkeys. rewrite <-list_fmap_compose. cbn. by rewrite list_fmap_id. }
  destruct (decide (c ∈ scheme)) as [Hc|Hc].
  - apply dset_same. apply dget_in_Some; [rewrite Hk; apply NoDup_distinct|]. apply elem_of_list_fmap. exists c. split; [done|]. by apply elem_of_distinct.
  - rewrite dset_fresh; [by rewrite fmap_app|]. by rewrite Hk, elem_of_distinct.
Qed.
(** The table after [q] full rounds and [r] more calls. *)
Definition table (cs : list colour) (q r : nat) : dict colour nat := ((λ c, (c, S q)) <$> take r cs) ++ ((λ c, (c, q)) <$> drop r cs).
Lemma least_used_keep best q l : best.2 ≤ q → least_used best ((λ c, (c, q)) <$> l) = best.
Proof.
  induction l as [|c l IH]; cbn [least_used fmap list_fmap]; intros Hb; [done|]. rewrite (proj2 (Nat.ltb_ge q best.2)) by done. by apply IH.
Qed.
Lemma least_used_found best q l c l' : best.2 = S q →
  least_used best (((λ c, (c, S q)) <$> l) ++ (c, q) :: ((λ c, (c, q)) <$> l')) = (c, q).
Proof.
  induction l as [|d l IH]; cbn [least_used fmap list_fmap app]; intros Hb; rewrite Hb.
  - rewrite (proj2 (Nat.ltb_lt q (S q))) by lia. by apply least_used_keep.
  - rewrite (proj2 (Nat.ltb_ge (S q) (S q))) by lia. by apply IH.
Qed.
Lemma dset_mid (l l' : dict colour nat) c k k' : c ∉ dkeys l → dset (l ++ (c, k) :: l') c k' = l ++ (c, k') :: l'.
Proof.
  induction l as [|[d j] l IH]; cbn; [by rewrite decide_True|]. rewrite elem_of_cons. intros Hn.
  rewrite decide_False by tauto. rewrite IH; [done|tauto].
Qed.
Lemma dkeys_table (cs : list colour) (q : nat) : dkeys ((λ c, (c, q)) <$> cs) = cs.
Proof. unfold dkeys. rewrite <-list_fmap_compose. cbn. by rewrite list_fmap_id. Qed.
Lemma table_step cs q r c : NoDup cs → cs !! r = Some c → get_least_used_colour (table cs q r) = Ok (table cs q (S r), c).
Proof.
  intros Hnd Hc. assert (Hd : drop r cs = c :: drop (S r) cs) by (by apply drop_S).
  assert (Ht : take (S r) cs = take r cs ++ [c]) by (by apply take_S_r).
  assert (Hn : c ∉ take r cs). { rewrite <-(take_drop r cs), Hd in Hnd. apply NoDup_app in Hnd as (_ & Hnd & _). intros H. apply (Hnd c H). left. }
  assert (Htab : table cs q r = ((λ c, (c, S q)) <$> take r cs) ++ (c, q) :: ((λ c, (c, q)) <$> drop (S r) cs)) by (unfold table; by rewrite Hd).
  assert (Hnew : table cs q (S r) = ((λ c, (c, S q)) <$> take r cs) ++ (c, S q) :: ((λ c, (c, q)) <$> drop (S r) cs)).
  { unfold table. rewrite Ht, fmap_app, <-app_assoc. done. }
  rewrite Hnew, Htab. rewrite <-(dset_mid _ _ c q (S q)) by (by rewrite dkeys_table). clear Htab Hnew Hd Ht.
  destruct (take r cs) as [|d l]; cbn [fmap list_fmap app].
  - unfold get_least_used_colour. rewrite least_used_keep by done. done.
  - unfold get_least_used_colour. rewrite least_used_found by done. done.
Qed.
Definition tab (cs : list colour) (m : nat) : dict colour nat := table cs (m / length cs) (m mod length cs).
Lemma tab_step cs m : NoDup cs → cs ≠ [] → ∃ c, cs !! (m mod length cs) = Some c ∧ get_least_used_colour (tab cs m) = Ok (tab cs (S m), c).
Proof.
  intros Hnd Hne. assert (HL : length cs ≠ 0) by (by destruct cs). pose proof (Nat.mod_upper_bound m (length cs) HL) as Hlt.
  destruct (lookup_lt_is_Some_2 cs (m mod length cs) Hlt) as [c Hc]. exists c. split; [done|]. unfold tab. rewrite (table_step cs _ _ c Hnd Hc).
  f_equal. f_equal. pose proof (Nat.div_mod m (length cs) HL) as Hm.
  destruct (decide (S (m mod length cs) = length cs)) as [He|He].
  - assert (S m / length cs = S (m / length cs)) as -> by (symmetry; apply (Nat.div_unique _ _ _ 0); [lia|rewrite Nat.mul_succ_r; lia]).
    assert (S m mod length cs = 0) as ->. { symmetry. apply (Nat.mod_unique _ _ (S (m / length cs))); [lia|]. rewrite Nat.mul_succ_r. lia. }
    unfold table. rewrite He. cbn [take drop fmap list_fmap app]. rewrite take_ge, drop_ge by done. cbn. by rewrite app_nil_r.
  - assert (S m / length cs = m / length cs) as -> by (symmetry; apply (Nat.div_unique _ _ _ (S (m mod length cs))); lia).
    assert (S m mod length cs = S (m mod length cs)) as -> by (symmetry; apply (Nat.mod_unique _ _ (m / length cs)); lia). done.
Qed.
Lemma pick_tab cs n m : NoDup cs → cs ≠ [] →
  ∃ cl, pick n (tab cs m) = Ok (tab cs (m + n), cl) ∧ length cl = n ∧ ∀ i, i < n → cl !! i = cs !! ((m + i) mod length cs).
Proof.
  intros Hnd Hne. revert m. induction n as [|n IH]; intros m; cbn [pick].
  - exists []. rewrite Nat.add_0_r. split; [done|]. split; [done|]. lia.
  - destruct (tab_step cs m Hnd Hne) as (c & Hc & ->). cbn. destruct (IH (S m)) as (cl & -> & Hlen & Hcl). cbn.
    exists (c :: cl). replace (m + S n) with (S m + n) by lia. split; [done|]. cbn. split; [by rewrite Hlen|].
    intros [|i] Hi; [by rewrite Nat.add_0_r|]. cbn. rewrite Hcl by lia. f_equal. f_equal. lia.
Qed.
Lemma least_used_in best d : least_used best d ∈ best :: d.
Proof.
  revert best. induction d as [|[c k] d IH]; intros best; cbn [least_used]; [left|]. specialize (IH (if Nat.ltb k best.2 then (c, k) else best)).
  apply elem_of_cons in IH as [Hin|Hin]; [|right; by right]. rewrite Hin. destruct (Nat.ltb k best.2); [right; left|left].
Qed.
Lemma pick_counts n used used' cl : NoDup (dkeys used) → pick n used = Ok (used', cl) →
  ∀ c, dget used' c = (λ k, k + length (filter (λ x, x = c) cl)) <$> dget used c.
Proof.
  revert used cl. induction n as [|n IH]; intros used cl Hnd; cbn [pick].
  - intros [= <- <-] c. cbn. destruct (dget used c); cbn; [by rewrite Nat.add_0_r|done].
  - intros ([used1 c1] & H1 & H2)%rbind_Ok. apply rbind_Ok in H2 as ([used2 cl2] & H2 & [= <- <-]).
    assert (∃ k, dget used c1 = Some k ∧ used1 = dset used c1 (S k)) as (k & Hk & ->).
    { unfold get_least_used_colour in H1. destruct used as [|p u]; [done|]. pose proof (least_used_in p u) as Hin.
      destruct (least_used p u) as [c k]. injection H1 as <- <-. exists k. split; [by apply dget_in_Some|done]. }
    intros c. rewrite (IH _ _ (NoDup_dkeys_dset _ _ _ Hnd) H2 c), dget_dset, filter_cons. destruct (decide (c = c1)) as [->|].
    + rewrite decide_True by done. rewrite Hk. cbn. f_equal. lia.
    + by rewrite decide_False by done.
Qed.
(** C43: the colours are taken in turn, in the order of the scheme (a colour listed
    twice counts once); the table counts how often each was taken, and these counts
    differ by at most one. *)
Lemma C43_rotation_proof : ∀ scheme n, scheme ≠ [] → ∃ used cl,
  pick n (colours_used0 scheme) = Ok (used, cl) ∧ length cl = n ∧
  (∀ i, i < n → cl !! i = distinct scheme !! (i mod length (distinct scheme))) ∧
  (∀ c k, (c, k) ∈ used ↔ c ∈ scheme ∧ k = length (filter (λ x, x = c) cl)) ∧
  (∀ c1 k1 c2 k2, (c1, k1) ∈ used → (c2, k2) ∈ used → k1 ≤ S k2).
Proof.
  intros scheme n Hne. assert (Hne' : distinct scheme ≠ []). { destruct scheme; [done|]. cbn. done. }
  pose proof (NoDup_distinct scheme) as Hnd.
  assert (H0 : colours_used0 scheme = tab (distinct scheme) 0).
  { rewrite colours_used0_distinct. unfold tab, table. rewrite Nat.mod_0_l, Nat.div_0_l by (by destruct (distinct scheme)). done. }
  destruct (pick_tab (distinct scheme) n 0 Hnd Hne') as (cl & Hp & Hlen & Hcl). exists (tab (distinct scheme) n), cl. rewrite H0.
  assert (Hk : ∀ m, dkeys (tab (distinct scheme) m) = distinct scheme).
  { intros m. unfold tab, table. unfold dkeys. rewrite fmap_app, <-!list_fmap_compose. cbn. rewrite !list_fmap_id. apply take_drop. }
  split; [done|]. split; [done|]. split; [done|]. split.
  - intros c k. assert (Hn0 : NoDup (dkeys (tab (distinct scheme) 0))) by (by rewrite Hk).
    pose proof (pick_counts n _ _ _ Hn0 Hp c) as Hc. cbn in Hc. split.
    + intros Hin. assert (Hcs : c ∈ distinct scheme) by (rewrite <-(Hk n); apply elem_of_dkeys; eauto). split; [by apply (elem_of_distinct scheme c)|].
      rewrite (dget_in_Some _ _ _ ltac:(by rewrite Hk) Hin) in Hc. rewrite <-H0, colours_used0_distinct in Hc.
      rewrite (dget_in_Some _ c 0) in Hc; [by injection Hc as ->| |].
      * by rewrite dkeys_table.
      * apply elem_of_list_fmap. eauto.
    + intros [Hin ->]. apply dget_Some_in. rewrite Hc, <-H0, colours_used0_distinct. rewrite (dget_in_Some _ c 0); [done|by rewrite dkeys_table|].
      apply elem_of_list_fmap. exists c. split; [done|]. by apply elem_of_distinct.
  - assert (Hb : ∀ c k, (c, k) ∈ tab (distinct scheme) n → k = n / length (distinct scheme) ∨ k = S (n / length (distinct scheme))).
    { intros c k [(? & [= -> ->] & _)%elem_of_list_fmap|(? & [= -> ->] & _)%elem_of_list_fmap]%elem_of_app; auto. }
    intros c1 k1 c2 k2 [->| ->]%Hb [->| ->]%Hb; lia.
Qed.
(** Five calls with a scheme of three colours, one of them listed twice. *)
Lemma C43_rotation_ex_proof : ∃ used, pick 5 (colours_used0 [CName "red"; CName "blue"; CName "red"; CName "green"]) =
  Ok (used, [CName "red"; CName "blue"; CName "green"; CName "red"; CName "blue"]) ∧ used = [(CName "red", 2); (CName "blue", 2); (CName "green", 1)].
Proof. eexists. split; vm_compute; reflexivity. Qed.

(** * Diverging numbers *)
Definition negs (m : nat) : list Q := (λ x, (- Z.of_nat x) # Pos.of_nat m)%Q <$> rev (seq 1 m).
Definition poss (m : nat) : list Q := (λ x, Z.of_nat x # Pos.of_nat m)%Q <$> seq 1 m.
Definition sorted_div (n : nat) : list Q := negs (Nat.div2 n) ++ (if Nat.odd n then [0%Q] else []) ++ poss (Nat.div2 n).
Lemma sorted_div_perm n : generate_diverging_numbers n ≡ₚ sorted_div n.
Proof.
  unfold generate_diverging_numbers, sorted_div, diverging_half. change (map ?f ?l) with (f <$> l).
  assert (Hn : negs (Nat.div2 n) ≡ₚ (λ x, (- Z.of_nat x) # Pos.of_nat (Nat.div2 n))%Q <$> seq 1 (Nat.div2 n)).
  { unfold negs. apply fmap_Permutation. symmetry. apply Permutation_rev. }
  rewrite Hn. unfold poss. destruct (Nat.eqb_spec n 1) as [->|]; [done|].
  rewrite <-Nat.negb_odd. destruct (Nat.odd n); cbn [negb app]; [|by rewrite Permutation_app_comm].
  rewrite Permutation_app_comm. by rewrite Permutation_middle.
Qed.
Lemma sorted_map (f : nat → Q) l : Sorted (λ x y, f x < f y)%Q l → Sorted Qlt (f <$> l).
Proof.
  induction 1 as [|x l Hs IH Hh]; cbn; constructor; [done|]. inversion Hh; subst; cbn; by constructor.
Qed.
Lemma seq_sorted m k : Sorted lt (seq k m).
Proof. revert k. induction m as [|m IH]; intros k; cbn; constructor; [done|]. destruct m; cbn; constructor. lia. Qed.
Lemma rev_seq_sorted m k : Sorted (λ x y, y < x) (rev (seq k m)).
Proof.
  induction m as [|m IH]; [constructor|]. rewrite seq_S, rev_app_distr. cbn. constructor; [done|].
  destruct (rev (seq k m)) as [|x l] eqn:E; constructor. assert (x ∈ seq k m) as [? ?]%elem_of_seq; [|lia].
  apply elem_of_list_In, in_rev. rewrite E. by left.
Qed.
Lemma sorted_weaken {A} (R R' : A → A → Prop) l : (∀ x y, R x y → R' x y) → Sorted R l → Sorted R' l.
Proof. intros Hr. induction 1 as [|x l Hs IH Hh]; constructor; [done|]. inversion Hh; subst; constructor. auto. Qed.
Lemma sorted_app {A} (R : A → A → Prop) l1 l2 : Sorted R l1 → Sorted R l2 → (∀ x y, x ∈ l1 → y ∈ l2 → R x y) → Sorted R (l1 ++ l2).
Proof.
  induction 1 as [|x l Hs IH Hh]; cbn; intros H2 Hr; [done|]. constructor.
  - apply IH; [done|]. intros y z Hy Hz. apply Hr; [by right|done].
  - inversion Hh; subst; cbn; [|by constructor]. destruct l2; constructor. apply Hr; left.
Qed.
Lemma sorted_div_sorted n : Sorted Qlt (sorted_div n).
Proof.
  unfold sorted_div. assert (Hneg : ∀ x, x ∈ negs (Nat.div2 n) → (x < 0)%Q).
  { intros x (k & -> & Hk)%elem_of_list_fmap. apply elem_of_list_In, in_rev, elem_of_list_In, elem_of_seq in Hk. unfold Qlt. cbn. lia. }
  assert (Hpos : ∀ x, x ∈ poss (Nat.div2 n) → (0 < x)%Q).
  { intros x (k & -> & Hk)%elem_of_list_fmap. apply elem_of_seq in Hk. unfold Qlt. cbn. lia. }
  apply sorted_app; [|apply sorted_app|].
  - unfold negs. apply sorted_map. eapply sorted_weaken; [|apply rev_seq_sorted]. intros x y Hxy. cbv beta in Hxy. unfold Qlt. cbn [Qnum Qden]. apply Z.mul_lt_mono_pos_r; lia.
  - destruct (Nat.odd n); repeat constructor.
  - unfold poss. apply sorted_map. eapply sorted_weaken; [|apply seq_sorted]. intros x y Hxy. cbv beta in Hxy. unfold Qlt. cbn [Qnum Qden]. apply Z.mul_lt_mono_pos_r; lia.
  - intros x y Hx Hy. destruct (Nat.odd n); [|by apply elem_of_nil in Hx]. apply elem_of_list_singleton in Hx as ->. auto.
  - intros x y Hx%Hneg [Hy|Hy%Hpos]%elem_of_app; [|by eapply Qlt_trans].
    destruct (Nat.odd n); [|by apply elem_of_nil in Hy]. by apply elem_of_list_singleton in Hy as ->.
Qed.
Lemma qinsert_perm x l : qinsert x l ≡ₚ x :: l.
Proof. induction l as [|y l IH]; cbn; [done|]. destruct (Qle_bool x y); [done|]. rewrite IH. constructor. Qed.
Lemma qsorted_perm l : qsorted l ≡ₚ l.
Proof. induction l as [|x l IH]; cbn; [done|]. by rewrite qinsert_perm, IH. Qed.
Lemma qinsert_sorted x l : Sorted Qle l → Sorted Qle (qinsert x l).
Proof.
  induction 1 as [|y l Hs IH Hh]; cbn; [repeat constructor|]. destruct (Qle_bool x y) eqn:E.
  - constructor; [by constructor|]. constructor. by apply Qle_bool_iff.
  - constructor; [done|]. assert (y <= x)%Q as Hyx. { apply Qlt_le_weak, Qnot_le_lt. intros H%Qle_bool_iff. congruence. }
    inversion Hh; subst; cbn; [by constructor|]. destruct (Qle_bool x b); by constructor.
Qed.
Lemma qsorted_sorted l : Sorted Qle (qsorted l).
Proof. induction l; cbn; [constructor|]. by apply qinsert_sorted. Qed.
Lemma sorted_le_unique l1 l2 : Sorted Qle l1 → Sorted Qlt l2 → l1 ≡ₚ l2 → l1 = l2.
Proof.
  intros H1 H2. apply Sorted_StronglySorted in H1; [|intros ???; apply Qle_trans]. apply Sorted_StronglySorted in H2; [|intros ???; apply Qlt_trans].
  revert l2 H2. induction H1 as [|x l1 Hs IH Hall]; intros l2 H2 Hp; [by apply Permutation_nil_l in Hp|].
  destruct H2 as [|y l2 H2 Hall2]; [by apply Permutation_nil_r in Hp|]. assert (x = y) as ->.
  - assert (x ∈ y :: l2) as Hx by (rewrite <-Hp; left). assert (y ∈ x :: l1) as Hy by (rewrite Hp; left).
    apply elem_of_cons in Hx as [?|Hx]; [done|]. apply elem_of_cons in Hy as [?|Hy]; [done|]. rewrite Forall_forall in Hall, Hall2.
    specialize (Hall _ Hy). specialize (Hall2 _ Hx). by apply Qle_not_lt in Hall.
  - f_equal. apply IH; [done|]. by apply Permutation_cons_inv in Hp.
Qed.
Lemma qsorted_div n : qsorted (generate_diverging_numbers n) = sorted_div n.
Proof.
  apply sorted_le_unique; [apply qsorted_sorted|apply sorted_div_sorted|]. by rewrite qsorted_perm, sorted_div_perm.
Qed.
Lemma negs_length m : length (negs m) = m.
Proof. unfold negs. by rewrite fmap_length, rev_length, seq_length. Qed.
Lemma poss_length m : length (poss m) = m.
Proof. unfold poss. by rewrite fmap_length, seq_length. Qed.
Lemma div2_odd n : n = 2 * Nat.div2 n + (if Nat.odd n then 1 else 0).
Proof. pose proof (Nat.div2_odd n) as H. by destruct (Nat.odd n). Qed.
Lemma sorted_div_length n : length (sorted_div n) = n.
Proof.
  unfold sorted_div. rewrite !app_length, negs_length, poss_length. pose proof (div2_odd n). destruct (Nat.odd n); cbn [length]; lia.
Qed.
Lemma rev_lookup {A} (l : list A) i : i < length l → rev l !! i = l !! (length l - 1 - i).
Proof.
  revert i. induction l as [|x l IH] using rev_ind; intros i; cbn [length]; [lia|]. rewrite rev_app_distr, app_length. cbn [length app rev]. intros Hi.
  destruct i as [|i]; cbn [lookup list_lookup].
  - rewrite lookup_app_r by lia. replace (length l + 1 - 1 - 0 - length l) with 0 by lia. done.
  - rewrite IH by lia. rewrite lookup_app_l by lia. f_equal. lia.
Qed.
Lemma negs_lookup m i : i < m → negs m !! i = Some ((Z.of_nat i - Z.of_nat m) # Pos.of_nat m)%Q.
Proof.
  intros Hi. unfold negs. rewrite list_lookup_fmap, rev_lookup, seq_length by (by rewrite seq_length).
  rewrite lookup_seq_lt by lia. cbn. do 2 f_equal. lia.
Qed.
Lemma poss_lookup m i : i < m → poss m !! i = Some ((Z.of_nat i + 1) # Pos.of_nat m)%Q.
Proof. intros Hi. unfold poss. rewrite list_lookup_fmap, lookup_seq_lt by lia. cbn [fmap option_fmap option_map]. do 2 f_equal. lia. Qed.
Lemma Qmake_div z m : 0 < m → (z # Pos.of_nat m == inject_Z z / inject_Z (Z.of_nat m))%Q.
Proof.
  intros Hm. rewrite Qmake_Qdiv. unfold Qdiv. replace (Z.pos (Pos.of_nat m)) with (Z.of_nat m); [reflexivity|].
  rewrite <-positive_nat_Z, Nat2Pos.id by lia. done.
Qed.
Lemma sorted_div_lookup n i : i < n → ∃ q, sorted_div n !! i = Some q ∧ (q == diverging n i)%Q.
Proof.
  intros Hi. unfold sorted_div, diverging. pose proof (div2_odd n) as Hn. set (m := Nat.div2 n) in *.
  destruct (decide (i < m)) as [Him|Him].
  - rewrite lookup_app_l by (by rewrite negs_length). rewrite negs_lookup by done. eexists. split; [done|]. rewrite Qmake_div by lia.
    rewrite (proj2 (Z.ltb_lt (Z.of_nat i) (Z.of_nat m))) by lia. by destruct (Nat.odd n).
  - rewrite lookup_app_r by (rewrite negs_length; lia). rewrite negs_length. rewrite (proj2 (Z.ltb_ge (Z.of_nat i) (Z.of_nat m))) by lia.
    destruct (Nat.odd n) eqn:Ho; cbn [app].
    + destruct (decide (i = m)) as [->|].
      * rewrite Nat.sub_diag. eexists. split; [done|]. rewrite Z.sub_diag. unfold Qdiv. by rewrite Qmult_0_l.
      * destruct (i - m) as [|j] eqn:Hj; [lia|]. cbn [lookup list_lookup]. rewrite poss_lookup by lia. eexists. split; [done|]. rewrite Qmake_div by lia.
        replace (Z.of_nat i - Z.of_nat m)%Z with (Z.of_nat j + 1)%Z by lia. reflexivity.
    + rewrite poss_lookup by lia. eexists. split; [done|]. rewrite Qmake_div by lia.
      replace (Z.of_nat i - Z.of_nat m + 1)%Z with (Z.of_nat (i - m) + 1)%Z by lia. reflexivity.
Qed.

(** C44: get_diverging_number, in all cases. *)
Lemma C44_values_proof : ∀ n i, (i < n → ∃ q, get_diverging_number i n false = Ok q ∧ (q == diverging n i)%Q) ∧
  (i < n → get_diverging_number i n true = get_diverging_number (n - 1 - i) n false) ∧
  (n ≤ i → ∀ reverse, get_diverging_number i n reverse = Err IndexError).
Proof.
  intros n i. unfold get_diverging_number. rewrite qsorted_div. split_and!.
  - intros Hi. destruct (sorted_div_lookup n i Hi) as (q & -> & Hq). eauto.
  - intros Hi. by rewrite rev_lookup, sorted_div_length by (by rewrite sorted_div_length).
  - intros Hi reverse. assert ((if reverse then rev (sorted_div n) else sorted_div n) !! i = None) as ->; [|done].
    apply lookup_ge_None. destruct reverse; [rewrite rev_length|]; by rewrite sorted_div_length.
Qed.
(** C44: a larger index gives a larger number, or a smaller one in reverse. *)
Lemma C44_monotone_proof : ∀ n i j, i < j → j < n → ∃ p q p' q',
  get_diverging_number i n false = Ok p ∧ get_diverging_number j n false = Ok q ∧ (p < q)%Q ∧
  get_diverging_number i n true = Ok p' ∧ get_diverging_number j n true = Ok q' ∧ (q' < p')%Q.
Proof.
  intros n i j Hij Hj. unfold get_diverging_number. rewrite qsorted_div.
  assert (Hlt : ∀ i j p q, i < j → sorted_div n !! i = Some p → sorted_div n !! j = Some q → (p < q)%Q).
  { intros i0 j0 p q Hlt Hp Hq. pose proof (sorted_div_sorted n) as Hs. apply Sorted_StronglySorted in Hs; [|intros ???; apply Qlt_trans].
    clear Hij Hj i j. revert i0 j0 Hlt Hp Hq. induction Hs as [|x l Hs IH Hall]; intros i j Hlt Hp Hq; [done|]. destruct j as [|j]; [lia|]. destruct i as [|i].
    - cbn in *. simplify_eq. rewrite Forall_forall in Hall. apply Hall. by eapply elem_of_list_lookup_2.
    - cbn in *. apply (IH i j); [lia|done|done]. }
  rewrite !rev_lookup, sorted_div_length by (rewrite sorted_div_length; lia).
  assert (Hget : ∀ k, k < n → ∃ q, sorted_div n !! k = Some q). { intros k Hk. apply lookup_lt_is_Some_2. by rewrite sorted_div_length. }
  destruct (Hget i) as [p Hp]; [lia|]. destruct (Hget j) as [q Hq]; [lia|].
  destruct (Hget (n - 1 - i)) as [p' Hp']; [lia|]. destruct (Hget (n - 1 - j)) as [q' Hq']; [lia|].
  exists p, q, p', q'. rewrite Hp, Hq, Hp', Hq'. split_and!; try done; [by eapply (Hlt i j)|]. eapply (Hlt (n - 1 - j) (n - 1 - i)); [lia|done|done].
Qed.
(** C44: generate_diverging_numbers gives [n] different numbers between -1 and 1, with
    each number its opposite, and 0 exactly if [n] is odd. *)
Lemma C44_numbers_proof : ∀ n, length (generate_diverging_numbers n) = n ∧
  (∀ i j p q, generate_diverging_numbers n !! i = Some p → generate_diverging_numbers n !! j = Some q → (p == q)%Q → i = j) ∧
  (∀ p, p ∈ generate_diverging_numbers n → (-1 <= p)%Q ∧ (p <= 1)%Q ∧ ∃ q, q ∈ generate_diverging_numbers n ∧ (q == -p)%Q) ∧
  ((∃ p, p ∈ generate_diverging_numbers n ∧ (p == 0)%Q) ↔ Nat.odd n = true).
Proof.
  intros n. pose proof (sorted_div_perm n) as Hp. split; [|split].
  - rewrite Hp. apply sorted_div_length.
  - assert (Hnd : ∀ l : list Q, (∀ i j p q, l !! i = Some p → l !! j = Some q → (p == q)%Q → i = j) ↔ NoDup (Qred <$> l)).
    { intros l. rewrite NoDup_alt. split.
      - intros H i j x Hi Hj. rewrite list_lookup_fmap in Hi, Hj. apply fmap_Some in Hi as (p & Hi & ->). apply fmap_Some in Hj as (q & Hj & Heq).
        apply (H i j p q); [done|done|]. rewrite <-(Qred_correct p), <-(Qred_correct q), Heq. reflexivity.
      - intros H i j p q Hi Hj Heq. apply (H i j (Qred p)); rewrite list_lookup_fmap; [by rewrite Hi|]. rewrite Hj. cbn. f_equal. symmetry. by apply Qred_complete. }
    apply Hnd. rewrite Hp. apply Hnd. intros i j p q Hi Hj Heq.
    destruct (decide (i = j)) as [|Hne]; [done|]. exfalso. clear Hnd Hp. pose proof (sorted_div_sorted n) as Hs.
    apply Sorted_StronglySorted in Hs; [|intros ???; apply Qlt_trans]. revert i j Hi Hj Hne. induction Hs as [|x l Hs IH Hall]; intros i j Hi Hj Hne; [done|].
    rewrite Forall_forall in Hall. destruct i as [|i], j as [|j]; cbn in *; simplify_eq.
    + apply elem_of_list_lookup_2, Hall in Hj. rewrite Heq in Hj. by apply Qlt_irrefl in Hj.
    + apply elem_of_list_lookup_2, Hall in Hi. rewrite Heq in Hi. by apply Qlt_irrefl in Hi.
    + apply (IH i j); [done|done|]. congruence.
  - setoid_rewrite Hp. unfold sorted_div. set (m := Nat.div2 n).
    assert (Hn : ∀ p, p ∈ negs m ↔ ∃ k, 1 ≤ k ≤ m ∧ p = ((- Z.of_nat k) # Pos.of_nat m)%Q).
    { intros p. unfold negs. rewrite elem_of_list_fmap. split; intros (k & H1 & H2); exists k.
      - apply elem_of_list_In, in_rev, elem_of_list_In, elem_of_seq in H2. split; [lia|done].
      - split; [done|]. apply elem_of_list_In. rewrite <-in_rev. apply elem_of_list_In, elem_of_seq. lia. }
    assert (Hq : ∀ p, p ∈ poss m ↔ ∃ k, 1 ≤ k ≤ m ∧ p = (Z.of_nat k # Pos.of_nat m)%Q).
    { intros p. unfold poss. rewrite elem_of_list_fmap. split; intros (k & H1 & H2); exists k.
      - apply elem_of_seq in H2. split; [lia|done].
      - split; [done|]. apply elem_of_seq. lia. }
    setoid_rewrite elem_of_app. setoid_rewrite elem_of_app. split.
    + intros p [(k & Hk & ->)%Hn|[Hp0|(k & Hk & ->)%Hq]].
      * split; [unfold Qle; cbn; lia|]. split; [unfold Qle; cbn; lia|]. exists (Z.of_nat k # Pos.of_nat m)%Q. split; [right; right; apply Hq; eauto|].
        unfold Qeq. cbn. lia.
      * destruct (Nat.odd n); [|by apply elem_of_nil in Hp0]. apply elem_of_list_singleton in Hp0 as ->.
        split; [done|]. split; [done|]. exists 0%Q. split; [right; left; left|done].
      * split; [unfold Qle; cbn; lia|]. split; [unfold Qle; cbn; lia|]. exists ((- Z.of_nat k) # Pos.of_nat m)%Q. split; [left; apply Hn; eauto|].
        unfold Qeq. cbn. lia.
    + split.
      * intros (p & [(k & Hk & ->)%Hn|[Hp0|(k & Hk & ->)%Hq]] & Heq); [unfold Qeq in Heq; cbn in Heq; lia| |unfold Qeq in Heq; cbn in Heq; lia].
        destruct (Nat.odd n); [done|by apply elem_of_nil in Hp0].
      * intros ->. exists 0%Q. split; [|done]. right. left. left.
Qed.
(** The numbers for 5 and 4 siblings. *)
Lemma C44_numbers_ex_proof : (λ i, diverging 5 i) <$> [0; 1; 2; 3; 4] = [-2 / 2; -1 / 2; 0 / 2; 1 / 2; 2 / 2]%Q ∧
  (λ i, diverging 4 i) <$> [0; 1; 2; 3] = [-2 / 2; -1 / 2; 1 / 2; 2 / 2]%Q ∧
  (λ i, get_diverging_number i 4 true) <$> [0; 3] = [Ok (2 # 2); Ok (-2 # 2)]%Q.
Proof. by vm_compute. Qed.

(** * Style objects *)
Lemma ns_copy_eq s : coloured s → ns_copy s = Ok (s <| ns_lighter := true |> <| ns_extra := [] |>).
Proof. destruct s as [c [f|] [b|] [t|] fb bb tb l op fo ts sh ss ex]; intros ([? ?] & [? ?] & [? ?]); done. Qed.
(** C56: in every reachable state every NodeStyle object has fill, border and text
    colours, and every EdgeStyle object has a text colour; so has whatever the
    constructors, copy and a colour assignment give. *)
Lemma C56_coloured_partial_proof : 
  (∀ h, reachable h → (∀ k s, h_ns h !! k = Some s → coloured s) ∧ ∀ k s, h_es h !! k = Some s → text_coloured s) ∧
  (∀ d s, nstyle_ctor d = Ok s → coloured s) ∧ (∀ d s, estyle_ctor d = Ok s → text_coloured s) ∧
  (∀ s s', ns_copy s = Ok s' → coloured s') ∧ (∀ s c, coloured (ns_put_colour c (ns_reset s))) ∧
  (∀ s s', es_copy s = Ok s' → text_coloured s') ∧ (∀ s c, text_coloured (es_put_colour c (es_reset s))).
Proof.
  split; [|split_and!].
  - intros h [H1 H2]%reachable_CI. split; intros; by eapply Forall_lookup_1.
  - exact ctor_coloured.
  - exact ector_coloured.
  - exact copy_coloured.
  - intros. apply put_coloured.
  - exact ecopy_coloured.
  - intros. apply eput_coloured.
Qed.
(** C56: copying a NodeStyle succeeds, and the copy looks the same. *)
Lemma C56_copy_partial_proof : ∀ s, coloured s → ∃ cp, ns_copy s = Ok cp ∧ node_look cp = node_look s ∧ derived cp = derived s.
Proof. intros s Hs. eexists. split; [by apply ns_copy_eq|]. by destruct s. Qed.
(** C56: recolouring a copy gives what recolouring the original gives, if the fill
    is lighter than the main colour. *)
Lemma C56_recolour_partial_proof : ∀ s cp c, coloured s → ns_lighter s = true → ns_copy s = Ok cp →
  node_look (ns_put_colour c (ns_reset cp)) = node_look (ns_put_colour c (ns_reset s)).
Proof. intros s cp c Hs Hl Hc. rewrite (ns_copy_eq s Hs) in Hc. injection Hc as <-. destruct s; cbn in Hl; subst. done. Qed.
(** C56 refuted: with lighter_fill=False the copy forgets it, so that the new fill
    colour is lighter instead of darker. *)
Lemma C56_recolour_refuted_proof : ∃ s cp c, nstyle_ctor [("colour", PStr "red"); ("lighter_fill", PInt 0)]%string = Ok s ∧ ns_copy s = Ok cp ∧
  node_look (ns_put_colour c (ns_reset cp)) ≠ node_look (ns_put_colour c (ns_reset s)).
Proof. eexists _, _, (CName "blue"). split; [vm_compute; reflexivity|]. split; [vm_compute; reflexivity|]. by vm_compute. Qed.
(** A style with all colours given: the copy has them too. *)
Lemma C56_copy_ex_proof : ∃ s cp, nstyle_ctor [("colour", PStr "red"); ("fill_colour", PStr "white"); ("text_colour", PStr "black"); ("shape", PStr "circle")]%string = Ok s ∧
  coloured s ∧ ns_lighter s = true ∧ ns_copy s = Ok cp ∧ ns_fill cp = Some (CName "white") ∧ ns_border cp = Some (CDarken (CName "red") (1 # 6)) ∧
  ns_text cp = Some (CName "black") ∧ ns_shape cp = PStr "circle".
Proof. eexists _, _. split; [vm_compute; reflexivity|]. split; [vm_compute; repeat split; eauto|]. split; [done|]. split; [vm_compute; reflexivity|]. by vm_compute. Qed.

Lemma es_copy_eq s b : text_coloured s → es_text_based s = Some b → es_copy s = Ok (s <| es_label_style := PStr "below" |> <| es_extra := [] |>).
Proof. destruct s as [c [t|] tb op fo ts ar ls lw ex]; intros [? ?] Hb; cbn in Hb; subst; try done. Qed.
(** C57: copying an EdgeStyle succeeds, and the copy agrees with it except for the
    label style. *)
Lemma C57_copy_partial_proof : ∀ s b, text_coloured s → es_text_based s = Some b →
  ∃ cp, es_copy s = Ok cp ∧ edge_look cp = edge_look s ∧ es_text_based cp = Some b ∧ es_label_style cp = PStr "below".
Proof. intros s b Hs Hb. eexists. split; [by eapply es_copy_eq|]. by destruct s. Qed.
(** C57: the copy of a deep copy (as in the copy of a graph) raises AttributeError. *)
Lemma C57_deepcopy_partial_proof : ∀ s, es_copy (es_deepcopy s) = Err AttributeError.
Proof. intros s. destruct s as [c [t|] tb op fo ts ar ls lw ex]; by vm_compute. Qed.
(** C57 refuted: the label style is lost. *)
Lemma C57_copy_refuted_proof : ∃ s cp, estyle_ctor [("label_style", PStr "above")]%string = Ok s ∧ es_copy s = Ok cp ∧ es_label_style cp ≠ es_label_style s.
Proof. eexists _, _. split; [vm_compute; reflexivity|]. split; [vm_compute; reflexivity|]. done. Qed.
(** The copy of a red edge style with wide lines. *)
Lemma C57_copy_ex_proof : ∃ s cp, estyle_ctor [("colour", PStr "red"); ("line_width", PInt 7)]%string = Ok s ∧ text_coloured s ∧ es_text_based s = Some true ∧
  es_copy s = Ok cp ∧ es_colour cp = CName "red" ∧ es_line_width cp = PInt 7.
Proof. eexists _, _. split; [vm_compute; reflexivity|]. split; [vm_compute; eauto|]. split; [done|]. split; [vm_compute; reflexivity|]. done. Qed.

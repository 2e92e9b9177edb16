(** What [complement] on a style object does, whether it returns or raises. *)
From Verif Require Export ModelStylize.
Local Open Scope list_scope.

Lemma insert_again {A} (l : list A) i (x y : A) : <[i := x]> (<[i := y]> l) = <[i := x]> l.
Proof. revert i. induction l as [|z l IH]; intros [|i]; simpl; f_equal; auto. Qed.
Lemma complement_ns_eq h s sty d : h_ns h !! s = Some sty → ∃ d1 d2 sty',
  d = d1 ++ d2 ∧ ns_complement d1 sty = Ok sty' ∧
  complement_ns s d h = (h <| h_ns := <[s := sty']> (h_ns h) |>,
    match d2 with [] => Ok tt | kv :: _ => match ns_complement1 sty' kv with Ok _ => Err Unmodelled | Err x => Err x end end) ∧
  (∀ kv l, d2 = kv :: l → ∃ x, ns_complement1 sty' kv = Err x).
Proof.
  intros Hs. unfold complement_ns, sbind at 1, sread. rewrite Hs. revert h sty Hs. induction d as [|kv d IH]; intros h sty Hs.
  - exists [], [], sty. split_and!; [done|done| |done]. simpl. unfold sret. f_equal. destruct h; simpl in *. f_equal. by rewrite list_insert_id.
  - simpl. unfold sbind at 1, upd_ns at 1. rewrite Hs. destruct (ns_complement1 sty kv) as [sty1|x] eqn:H1.
    + destruct (IH (h <| h_ns := <[s := sty1]> (h_ns h) |>) sty1) as (d1 & d2 & sty' & -> & Hd1 & Heq & Hd2).
      { simpl. apply list_lookup_insert. by apply lookup_lt_Some in Hs. }
      exists (kv :: d1), d2, sty'. split; [done|]. split; [unfold ns_complement; simpl; by rewrite H1|]. split; [|done].
      rewrite Heq. f_equal. destruct h; simpl. by rewrite insert_again.
    + exists [], (kv :: d), sty. split_and!; [done|done| |].
      * rewrite H1. f_equal. destruct h; simpl in *. by rewrite list_insert_id.
      * intros ? ? [= <- <-]. by exists x.
Qed.
Lemma complement_es_eq h s sty d : h_es h !! s = Some sty → ∃ d1 d2 sty',
  d = d1 ++ d2 ∧ es_complement d1 sty = Ok sty' ∧
  complement_es s d h = (h <| h_es := <[s := sty']> (h_es h) |>,
    match d2 with [] => Ok tt | kv :: _ => match es_complement1 sty' kv with Ok _ => Err Unmodelled | Err x => Err x end end) ∧
  (∀ kv l, d2 = kv :: l → ∃ x, es_complement1 sty' kv = Err x).
Proof.
  intros Hs. unfold complement_es, sbind at 1, sread. rewrite Hs. revert h sty Hs. induction d as [|kv d IH]; intros h sty Hs.
  - exists [], [], sty. split_and!; [done|done| |done]. simpl. unfold sret. f_equal. destruct h; simpl in *. f_equal. by rewrite list_insert_id.
  - simpl. unfold sbind at 1, upd_es at 1. rewrite Hs. destruct (es_complement1 sty kv) as [sty1|x] eqn:H1.
    + destruct (IH (h <| h_es := <[s := sty1]> (h_es h) |>) sty1) as (d1 & d2 & sty' & -> & Hd1 & Heq & Hd2).
      { simpl. apply list_lookup_insert. by apply lookup_lt_Some in Hs. }
      exists (kv :: d1), d2, sty'. split; [done|]. split; [unfold es_complement; simpl; by rewrite H1|]. split; [|done].
      rewrite Heq. f_equal. destruct h; simpl. by rewrite insert_again.
    + exists [], (kv :: d), sty. split_and!; [done|done| |].
      * rewrite H1. f_equal. destruct h; simpl in *. by rewrite list_insert_id.
      * intros ? ? [= <- <-]. by exists x.
Qed.
Lemma rfold_parts {A B} (f : B → A → res B) l1 l2 b : rfold f b (l1 ++ l2) = rbind (rfold f b l1) (λ b, rfold f b l2).
Proof. revert b. induction l1 as [|x l1 IH]; intros b; [done|]. simpl. destruct (f b x); [apply IH|done]. Qed.
(** A complement that returns. *)
Lemma complement_ns_ok h s sty sty' d : h_ns h !! s = Some sty → ns_complement d sty = Ok sty' →
  complement_ns s d h = (h <| h_ns := <[s := sty']> (h_ns h) |>, Ok tt).
Proof.
  intros Hs Hd. destruct (complement_ns_eq h s sty d Hs) as (d1 & d2 & t & -> & Ht & Heq & Hn). rewrite Heq.
  unfold ns_complement in *. rewrite rfold_parts, Ht in Hd. simpl in Hd. destruct d2 as [|kv d2]; [by injection Hd as ->|].
  destruct (Hn kv d2 eq_refl) as [x Hx]. simpl in Hd. by rewrite Hx in Hd.
Qed.
Lemma complement_es_ok h s sty sty' d : h_es h !! s = Some sty → es_complement d sty = Ok sty' →
  complement_es s d h = (h <| h_es := <[s := sty']> (h_es h) |>, Ok tt).
Proof.
  intros Hs Hd. destruct (complement_es_eq h s sty d Hs) as (d1 & d2 & t & -> & Ht & Heq & Hn). rewrite Heq.
  unfold es_complement in *. rewrite rfold_parts, Ht in Hd. simpl in Hd. destruct d2 as [|kv d2]; [by injection Hd as ->|].
  destruct (Hn kv d2 eq_refl) as [x Hx]. simpl in Hd. by rewrite Hx in Hd.
Qed.
Lemma complement_ns_inv h h' s d : complement_ns s d h = (h', Ok tt) → ∃ sty sty', h_ns h !! s = Some sty ∧ ns_complement d sty = Ok sty' ∧
  h' = h <| h_ns := <[s := sty']> (h_ns h) |>.
Proof.
  intros H. destruct (h_ns h !! s) as [sty|] eqn:Hs; [|unfold complement_ns, sbind at 1, sread in H; by rewrite Hs in H].
  destruct (complement_ns_eq h s sty d Hs) as (d1 & d2 & t & -> & Ht & Heq & Hn). rewrite Heq in H. exists sty, t. split; [done|].
  destruct d2 as [|kv d2]; [rewrite app_nil_r; by injection H as <-|]. destruct (Hn kv d2 eq_refl) as [x Hx]. by rewrite Hx in H.
Qed.
Lemma complement_es_inv h h' s d : complement_es s d h = (h', Ok tt) → ∃ sty sty', h_es h !! s = Some sty ∧ es_complement d sty = Ok sty' ∧
  h' = h <| h_es := <[s := sty']> (h_es h) |>.
Proof.
  intros H. destruct (h_es h !! s) as [sty|] eqn:Hs; [|unfold complement_es, sbind at 1, sread in H; by rewrite Hs in H].
  destruct (complement_es_eq h s sty d Hs) as (d1 & d2 & t & -> & Ht & Heq & Hn). rewrite Heq in H. exists sty, t. split; [done|].
  destruct d2 as [|kv d2]; [rewrite app_nil_r; by injection H as <-|]. destruct (Hn kv d2 eq_refl) as [x Hx]. by rewrite Hx in H.
Qed.
(** What a complement leaves, in any case. *)
Lemma complement_ns_left h s d : (complement_ns s d h).1 = h ∨ ∃ sty d1 sty', h_ns h !! s = Some sty ∧ d1 `prefix_of` d ∧ ns_complement d1 sty = Ok sty' ∧
  (complement_ns s d h).1 = h <| h_ns := <[s := sty']> (h_ns h) |>.
Proof.
  destruct (h_ns h !! s) as [sty|] eqn:Hs; [|left; unfold complement_ns, sbind at 1, sread; by rewrite Hs].
  destruct (complement_ns_eq h s sty d Hs) as (d1 & d2 & t & -> & Ht & Heq & _). right. exists sty, d1, t. split; [done|]. split; [by exists d2|]. split; [done|]. by rewrite Heq.
Qed.
Lemma complement_es_left h s d : (complement_es s d h).1 = h ∨ ∃ sty d1 sty', h_es h !! s = Some sty ∧ d1 `prefix_of` d ∧ es_complement d1 sty = Ok sty' ∧
  (complement_es s d h).1 = h <| h_es := <[s := sty']> (h_es h) |>.
Proof.
  destruct (h_es h !! s) as [sty|] eqn:Hs; [|left; unfold complement_es, sbind at 1, sread; by rewrite Hs].
  destruct (complement_es_eq h s sty d Hs) as (d1 & d2 & t & -> & Ht & Heq & _). right. exists sty, d1, t. split; [done|]. split; [by exists d2|]. split; [done|]. by rewrite Heq.
Qed.

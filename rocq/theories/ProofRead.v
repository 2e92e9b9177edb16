(** Reading DOT text: scanner and parser. *)
From Verif Require Export SpecRead ProofC14.
From Verif Require Import ProofLetters.
Local Open Scope string_scope.

Lemma scan_app st s t st' ts : scan_all st s = Some (st', ts) → scan_all st (s +:+ t) = (λ p, (p.1, (ts ++ p.2)%list)) <$> scan_all st' t.
Proof.
  revert st ts. induction s as [|c s IH]; intros st ts H; cbn [scan_all] in H.
  - injection H as -> <-. change ("" +:+ t) with t. by destruct (scan_all st' t) as [[]|].
  - rewrite String_append. cbn [scan_all]. destruct (scan_step st c) as [[st1 t1]|]; [|done]. destruct (scan_all st1 s) as [[st2 t2]|] eqn:H2; [|done].
    injection H as -> <-. rewrite (IH st1 t2) by done. destruct (scan_all st' t) as [[st3 t3]|]; [|done]. cbn. by rewrite app_assoc.
Qed.
Lemma scan_seq st s t st1 st2 ts us : scan_all st s = Some (st1, ts) → scan_all st1 t = Some (st2, us) → scan_all st (s +:+ t) = Some (st2, (ts ++ us)%list).
Proof. intros H1 H2. by rewrite (scan_app _ _ _ _ _ H1), H2. Qed.
Lemma append_nil s : s +:+ "" = s.
Proof. induction s as [|c s IH]; [done|]. by rewrite String_append, IH. Qed.
Lemma append_char s c t : (s +:+ char c) +:+ t = s +:+ String c t.
Proof. by rewrite append_assoc. Qed.

(** Quoted strings. *)
Lemma scan_escape a s : safe s → scan_all (InStr a) (escape s +:+ Qt) = Some (Idle, [TStr (a +:+ s)]).
Proof.
  remember (String.length s) as n eqn:Hn. assert (Hle : String.length s ≤ n) by lia. clear Hn. revert s a Hle.
  induction n as [|n IH]; intros s a Hle Hs.
  { destruct s; [|cbn in Hle; lia]. cbn. by rewrite append_nil. }
  destruct s as [|c s]; [cbn; by rewrite append_nil|]. cbn [safe] in Hs. cbn [String.length] in Hle. cbn [escape].
  destruct (decide (c = backslash)) as [->|Hb].
  - change (eqb backslash quote) with false. cbn match. destruct s as [|d s]; [done|]. destruct Hs as (Hd1 & Hd2 & Hs). cbn [escape String.length] in *.
    destruct (eqb d quote) eqn:Hq; [by apply eqb_is in Hq|]. rewrite !String_append. cbn [scan_all scan_step].
    change (eqb backslash quote) with false. change (eqb backslash backslash) with true. cbn match. cbn [scan_step]. rewrite Hq.
    destruct (eqb d "010"%char) eqn:Hq2; [by apply eqb_is in Hq2|]. rewrite IH by (try done; lia). cbn [app]. do 3 f_equal.
    by rewrite !append_assoc.
  - destruct (eqb c quote) eqn:Hq.
    + apply eqb_is in Hq as ->. rewrite !String_append. cbn [scan_all scan_step].
      change (eqb backslash quote) with false. change (eqb backslash backslash) with true. cbn match. cbn [scan_step]. change (eqb quote quote) with true. cbn match.
      rewrite IH by (try done; lia). cbn [app]. by rewrite append_char.
    + rewrite !String_append. cbn [scan_all scan_step]. rewrite Hq. destruct (eqb c backslash) eqn:Hq2; [by apply eqb_is in Hq2|].
      rewrite IH by (try done; lia). cbn [app]. by rewrite append_char.
Qed.
Lemma scan_label s : safe s → scan_all Idle (quoted (escape s)) = Some (Idle, [TStr s]).
Proof. intros H. unfold quoted. apply (scan_seq Idle Qt (escape s +:+ Qt) (InStr "") Idle [] [TStr s]); [done|]. by rewrite scan_escape. Qed.
Lemma scan_quoted s : plain s → scan_all Idle (quoted s) = Some (Idle, [TStr s]).
Proof. intros H. rewrite <-(plain_escape s) at 1 by done. by apply scan_label, plain_safe. Qed.

(** Words end where something else begins. *)
Lemma scan_tokens a ta c s st tb : tokens a = Some ta → word_char c = false → scan_all Idle (String c s) = Some (st, tb) →
  scan_all Idle (a +:+ String c s) = Some (st, (ta ++ tb)%list).
Proof.
  unfold tokens. intros Ha Hc Hs. destruct (scan_all Idle a) as [[[] t]|] eqn:H; try done; injection Ha as <-.
  - by eapply scan_seq.
  - rewrite <-app_assoc. eapply scan_seq; [done|]. cbn [scan_all scan_step] in *. rewrite Hc. destruct (scan_idle c) as [[st1 t1]|]; [|done].
    destruct (scan_all st1 s) as [[st2 t2]|]; [|done]. injection Hs as -> <-. done.
Qed.
Lemma tokens_idle s ts : scan_all Idle s = Some (Idle, ts) → tokens s = Some ts.
Proof. unfold tokens. by intros ->. Qed.
Lemma tokens_seq a b ta tb : scan_all Idle a = Some (Idle, ta) → tokens b = Some tb → tokens (a +:+ b) = Some (ta ++ tb)%list.
Proof.
  intros Ha. unfold tokens. rewrite (scan_app _ _ _ _ _ Ha). destruct (scan_all Idle b) as [[[] t]|]; cbn; try done; intros [= <-]; by rewrite ?app_assoc.
Qed.

(** Joined texts. *)
Fixpoint join {A} (sep : list A) (l : list (list A)) : list A :=
  match l with [] => [] | [x] => x | x :: l => (x ++ sep ++ join sep l)%list end.
Lemma tokens_concat c sep sp ss ts : word_char c = false → scan_all Idle (String c sep) = Some (Idle, sp) →
  Forall2 (λ s t, tokens s = Some t) ss ts → tokens (String.concat (String c sep) ss) = Some (join sp ts).
Proof.
  intros Hc Hs. induction 1 as [|s t ss ts H1 HF IH]; [done|]. destruct HF as [|s' t' ss ts H2 HF]; [done|].
  change (String.concat (String c sep) (s :: s' :: ss)) with (s +:+ String c sep +:+ String.concat (String c sep) (s' :: ss)).
  rewrite <-append_assoc. change (join sp (t :: t' :: ts)) with (t ++ sp ++ join sp (t' :: ts))%list. rewrite app_assoc.
  apply tokens_seq; [|done]. by apply scan_tokens.
Qed.
Lemma scan_concat sep sp ss ts : scan_all Idle sep = Some (Idle, sp) →
  Forall2 (λ s t, scan_all Idle s = Some (Idle, t)) ss ts → scan_all Idle (String.concat sep ss) = Some (Idle, join sp ts).
Proof.
  intros Hs. induction 1 as [|s t ss ts H1 HF IH]; [done|]. destruct HF as [|s' t' ss ts H2 HF]; [done|].
  change (String.concat sep (s :: s' :: ss)) with (s +:+ sep +:+ String.concat sep (s' :: ss)).
  change (join sp (t :: t' :: ts)) with (t ++ sp ++ join sp (t' :: ts))%list. repeat (eapply scan_seq; [done|]). done.
Qed.

(** Attribute lists. *)
Definition item (t : list token) (kv : string * string) : Prop := ∃ k v, t = [k; TMark "="; v] ∧ ident k = Some kv.1 ∧ ident v = Some kv.2.
Lemma ident_mark t s : ident t = Some s → ∀ c, t ≠ TMark c.
Proof. by destruct t. Qed.
Lemma parse_cons k v ts : ident (k : token) ≠ None → parse_attrs (k :: TMark "=" :: v :: ts) =
      match ident k, ident v with
      | Some k, Some v =>
          match (match ts with TMark "," :: ts' => parse_attrs ts' | TMark ";" :: ts' => parse_attrs ts' | _ => parse_attrs ts end) with
          | Some (l, ts) => Some ((k, v) :: l, ts)
          | None => None
          end
      | _, _ => None
      end.
Proof. destruct k; done. Qed.
Lemma parse_items sp ts l rest : sp = [] ∨ sp = [TMark ","] → Forall2 item ts l → parse_attrs (join sp ts ++ TMark "]" :: rest) = Some (l, rest).
Proof.
  intros Hsp. induction 1 as [|t kv ts l H1 HF IH]; [done|]. destruct kv as [k v]. destruct H1 as (kt & vt & -> & Hk & Hv). cbn in Hk, Hv.
  destruct HF as [|t' kv' ts l H2 HF].
  - cbn [join app]. rewrite parse_cons by congruence. by rewrite Hk, Hv.
  - change (join sp ([kt; TMark "="; vt] :: t' :: ts)) with ([kt; TMark "="; vt] ++ sp ++ join sp (t' :: ts))%list.
    rewrite <-!app_assoc. cbn [app]. rewrite parse_cons by congruence. rewrite Hk, Hv.
    destruct Hsp as [->| ->]; cbn [app]; [|by rewrite IH].
    destruct H2 as (kt' & vt' & -> & Hk' & Hv').
    assert (∃ us, (join [] ([kt'; TMark "="; vt'] :: ts) ++ TMark "]" :: rest)%list = kt' :: us) as [us Hus] by (destruct ts; cbn; eauto).
    rewrite Hus in *. destruct kt'; try done; by rewrite IH.
Qed.
Lemma parse_items_nil ts l rest : Forall2 item ts l → parse_attrs (concat ts ++ TMark "]" :: rest) = Some (l, rest).
Proof.
  intros HF. assert (concat ts = join [] ts) as ->; [|apply parse_items; auto]. clear. induction ts as [|t [|t' ts] IH]; [done|cbn; by rewrite app_nil_r|].
  change (join [] (t :: t' :: ts)) with (t ++ join [] (t' :: ts))%list. by rewrite <-IH.
Qed.

(** Statements: [ts] is [k] statements that say [f] and change the depth. *)
Definition starts (ts : list token) : Prop := head ts ≠ Some (TMark "[").
Definition says (d : nat) (ts : list token) (k : nat) (f : drawing → drawing) (d' : nat) : Prop := k ≤ length ts ∧ starts ts ∧
  ∀ n rest, starts rest → parse_stmts (k + n) d (ts ++ rest) = f <$> parse_stmts n d' rest.
Lemma says_nil d : says d [] 0 id d.
Proof. split; [cbn; lia|]. split; [done|]. intros n rest _. cbn. by destruct (parse_stmts _ _ _). Qed.
Lemma says_app d1 d2 d3 t1 t2 k1 k2 f1 f2 : says d1 t1 k1 f1 d2 → says d2 t2 k2 f2 d3 → says d1 (t1 ++ t2) (k1 + k2) (f1 ∘ f2) d3.
Proof.
  intros (L1 & S1 & H1) (L2 & S2 & H2). split; [rewrite app_length; lia|]. split.
  - destruct t1; done.
  - intros n rest Hr. rewrite <-app_assoc, <-Nat.add_assoc, H1, H2 by (destruct t2; done). by rewrite option_fmap_compose.
Qed.
Lemma says_open d : says d [TMark "{"] 1 id (S d).
Proof. split; [cbn; lia|]. split; [done|]. intros n rest _. cbn. by destruct (parse_stmts _ _ _). Qed.
Lemma says_close d : says (S d) [TMark "}"] 1 id d.
Proof. split; [cbn; lia|]. split; [done|]. intros n rest _. cbn. by destruct (parse_stmts _ _ _). Qed.
Lemma says_semi d : says d [TMark ";"] 1 id d.
Proof. split; [cbn; lia|]. split; [done|]. intros n rest _. cbn. by destruct (parse_stmts _ _ _). Qed.
Lemma says_graph d sp ts l : sp = [] ∨ sp = [TMark ","] → Forall2 item ts l → says d (TWord "graph" :: TMark "[" :: join sp ts ++ [TMark "]"]) 1 (with_attrs l) d.
Proof.
  intros Hsp HF. split; [cbn; lia|]. split; [done|]. intros n rest _. cbn [app]. rewrite <-app_assoc. cbn [app].
  change (1 + n) with (S n). cbn [parse_stmts]. change (eqb (capitals "graph") "GRAPH") with true. cbv iota. by rewrite (parse_items sp ts l).
Qed.
Lemma says_assign d k v kt vt : ident kt = Some k → ident vt = Some v → says d [kt; TMark "="; vt] 1 (with_attrs [(k, v)]) d.
Proof.
  intros Hk Hv. split; [cbn; lia|]. split; [unfold starts; by destruct kt|]. intros n rest _. change (1 + n) with (S n). cbn [app parse_stmts].
  destruct kt; try done; cbv iota; by rewrite Hk, Hv.
Qed.
Lemma says_node d a sp ts l : sp = [] ∨ sp = [TMark ","] → Forall2 item ts l → says d (TStr a :: TMark "[" :: join sp ts ++ [TMark "]"]) 1 (with_node a l) d.
Proof.
  intros Hsp HF. split; [cbn; lia|]. split; [done|]. intros n rest _. cbn [app]. rewrite <-app_assoc. cbn [app].
  change (1 + n) with (S n). cbn [parse_stmts opt_attrs ident]. by rewrite (parse_items sp ts l).
Qed.
Lemma says_edge d a b sp ts l : sp = [] ∨ sp = [TMark ","] → Forall2 item ts l → says d (TStr a :: TArrow :: TStr b :: TMark "[" :: join sp ts ++ [TMark "]"]) 1 (with_edge a b l) d.
Proof.
  intros Hsp HF. split; [cbn; lia|]. split; [done|]. intros n rest _. cbn [app]. rewrite <-app_assoc. cbn [app].
  change (1 + n) with (S n). cbn [parse_stmts opt_attrs ident]. by rewrite (parse_items sp ts l).
Qed.
Lemma says_edge_bare d a b : says d [TStr a; TArrow; TStr b] 1 (with_edge a b []) d.
Proof.
  split; [cbn; lia|]. split; [done|]. intros n rest Hr. cbn [app]. change (1 + n) with (S n). cbn [parse_stmts ident].
  assert (opt_attrs rest = Some ([], rest)) as ->; [|done]. unfold starts in Hr.
  destruct rest as [|[| |c|] rest]; try done. cbn in Hr. destruct c as [[] [] [] [] [] [] [] []]; try done.
Qed.
Lemma says_done ts k f : says 0 ts k f 0 → parse_stmts (length (ts ++ [TMark "}"])) 0 (ts ++ [TMark "}"]) = Some (f nothing).
Proof.
  intros (L & _ & H). rewrite app_length. cbn [length]. replace (length ts + 1) with (k + S (length ts - k)) by lia. rewrite H by done. cbn. by rewrite decide_True.
Qed.

(** * Numbers *)
Fixpoint digits (s : string) : Prop := match s with "" => True | String c s => in_range "0" "9" c = true ∧ digits s end.
Lemma digit_word c : in_range "0" "9" c = true → word_char c = true.
Proof. unfold word_char. intros ->. by rewrite !orb_true_r. Qed.
Lemma digit_upper c : in_range "0" "9" c = true → in_range "a" "z" c = false.
Proof. destruct c as [[] [] [] [] [] [] [] []]; done. Qed.
Lemma scan_digits a s : digits s → scan_all (InWord a) s = Some (InWord (a +:+ s), []).
Proof.
  revert a. induction s as [|c s IH]; intros a; cbn [digits]; [by rewrite append_nil|]. intros [Hc Hs]. cbn [scan_all scan_step]. rewrite digit_word by done.
  rewrite IH by done. by rewrite append_char.
Qed.
Lemma digits_go x s : digits s → digits (pretty_N_go x s).
Proof.
  revert s. induction (N.lt_wf_0 x) as [x _ IH]; intros s Hs. destruct (decide (0 < x)%N) as [H|H].
  - rewrite pretty_N_go_step by done. apply IH; [by apply N.div_lt|]. cbn [digits]. split; [|done].
    assert (x `mod` 10 < 10)%N as Hm by (by apply N.mod_lt). destruct (x `mod` 10)%N as [|p]; [done|].
    destruct p as [[[[]|[]|]|[[]|[]|]|]|[[[]|[]|]|[[]|[]|]|]|]; try done; lia.
  - assert (x = 0%N) as -> by lia. by rewrite pretty_N_go_0.
Qed.
Lemma go_nonempty x c s : pretty_N_go x (String c s) ≠ "".
Proof.
  revert c s. induction (N.lt_wf_0 x) as [x _ IH]; intros c s. destruct (decide (0 < x)%N) as [H|H].
  - rewrite pretty_N_go_step by done. apply IH. by apply N.div_lt.
  - assert (x = 0%N) as -> by lia. by rewrite pretty_N_go_0.
Qed.
Lemma digits_keyword c s : in_range "0" "9" c = true → keyword (String c s) = false.
Proof.
  intros Hc. unfold keyword. cbn [capitals]. rewrite digit_upper by done. cbn [existsb].
  repeat match goal with |- context [eqb (String c ?x) (String ?d ?y)] => destruct (eqb (String c x) (String d y)) eqn:He; [apply eqb_is in He; injection He as -> _; done|clear He] end. done.
Qed.
Lemma digits_word s : digits s → s ≠ "" → one_word s ∧ one_word ("-" +:+ s).
Proof.
  intros Hs Hne. destruct s as [|c s]; [done|]. destruct Hs as [Hc Hs].
  assert (Hi : scan_idle c = Some (InWord (char c), [])) by (revert Hc; clear; destruct c as [[] [] [] [] [] [] [] []]; done).
  split; split.
  - unfold tokens. cbn [scan_all scan_step]. rewrite Hi, scan_digits by done. done.
  - by apply digits_keyword.
  - unfold tokens. rewrite String_append. cbn [scan_all]. change (scan_step Idle "-") with (Some (AfterMinus, [] : list token)). cbv iota.
    change ("" +:+ String c s) with (String c s). cbn [scan_all scan_step]. destruct (eqb c ">"%char) eqn:He; [apply eqb_is in He as ->; done|].
    rewrite digit_word by done. by rewrite scan_digits.
  - done.
Qed.
Lemma pretty_word (z : Z) : one_word (pretty z).
Proof.
  assert (∀ p, digits (pretty (N.pos p)) ∧ pretty (N.pos p) ≠ "") as Hp.
  { intros p. unfold pretty, pretty_N. rewrite decide_False by done. split; [by apply digits_go|]. rewrite pretty_N_go_step by done. apply go_nonempty. }
  destruct z as [|p|p]; [by vm_compute|..]; destruct (Hp p) as [H1 H2]; destruct (digits_word _ H1 H2); done.
Qed.

(** * Attributes in the text *)
Lemma join_concat {A} (ts : list (list A)) : join [] ts = concat ts.
Proof.
  induction ts as [|t [|t' ts] IH]; [done|cbn; by rewrite app_nil_r|]. change (join [] (t :: t' :: ts)) with (t ++ join [] (t' :: ts))%list. by rewrite IH.
Qed.
(** The text [s] lists the attributes [l], separated by spaces. *)
Definition lists (s : string) (l : attrs) : Prop := ∃ ts, scan_all Idle s = Some (Idle, concat ts) ∧ Forall2 item ts l.
Lemma lists_concat ss ls : Forall2 lists ss ls → lists (String.concat " " ss) (concat ls).
Proof.
  intros HF. assert (∃ tss, Forall2 (λ s t, scan_all Idle s = Some (Idle, concat t)) ss tss ∧ Forall2 (Forall2 item) tss ls) as (tss & H1 & H2).
  { induction HF as [|s l ss ls (ts & Ha & Hb) _ (tss & H1 & H2)]; [by exists []|]. exists (ts :: tss). by split; constructor. }
  exists (concat tss). split.
  - assert (concat (concat tss) = join [] (map (@concat token) tss)) as ->.
    { rewrite join_concat. clear. induction tss as [|t tss IH]; [done|]. cbn. by rewrite concat_app, IH. }
    apply scan_concat; [done|]. clear -H1. induction H1; cbn; constructor; done.
  - clear -H2. induction H2; cbn; [done|]. by apply Forall2_app.
Qed.
Lemma lists_one k v (kt vt : string) tk tv : scan_all Idle (kt +:+ "=" +:+ vt) = Some (Idle, [tk; TMark "="; tv]) → ident tk = Some k → ident tv = Some v →
  lists (kt +:+ "=" +:+ vt) [(k, v)].
Proof. intros H Hk Hv. exists [[tk; TMark "="; tv]]. split; [done|]. constructor; [|done]. by exists tk, tv. Qed.
Lemma lists_word w v : tokens w = Some [TWord w] → keyword w = false → plain v → lists (w +:+ "=" +:+ quoted v) [(w, v)].
Proof.
  intros Hw Hk Hv. apply (lists_one w v w (quoted v) (TWord w) (TStr v)); [|cbn [ident]; by rewrite Hk|done].
  rewrite <-append_assoc. apply (scan_seq Idle (w +:+ "=") (quoted v) Idle Idle [TWord w; TMark "="] [TStr v]); [|by apply scan_quoted].
  by apply (scan_tokens w [TWord w] "=" "" Idle [TMark "="]).
Qed.
Lemma lists_quoted k v : plain k → plain v → lists (quoted k +:+ "=" +:+ quoted v) [(k, v)].
Proof.
  intros Hk Hv. apply (lists_one k v (quoted k) (quoted v) (TStr k) (TStr v)); [|done..].
  apply (scan_seq Idle (quoted k) ("=" +:+ quoted v) Idle Idle [TStr k] [TMark "="; TStr v]); [by apply scan_quoted|].
  apply (scan_seq Idle "=" (quoted v) Idle Idle [TMark "="] [TStr v]); [done|by apply scan_quoted].
Qed.
Lemma lists_opt env h k v : one_word k → plain_attrs (text_attr env h k v) → Forall2 lists (opt_part env h k v) (map (λ x, [x]) (text_attr env h k v)).
Proof.
  intros [Hk1 Hk2] Hp. destruct v; cbn [opt_part text_attr map] in *; constructor; try done.
  all: apply lists_word; try done; eapply Hp; by left.
Qed.
Lemma concat_singles {A} (l : list A) : concat (map (λ x, [x]) l) = l.
Proof. induction l as [|x l IH]; [done|]. cbn. by rewrite IH. Qed.
Lemma lstrip_plain s : plain s → lstrip_q s = s.
Proof. destruct s as [|c s]; [done|]. cbn. intros (H & _). destruct (eqb c quote) eqn:He; [by apply eqb_is in He|done]. Qed.
Lemma rstrip_plain s : plain s → rstrip_q s = s.
Proof.
  induction s as [|c s IH]; [done|]. cbn [plain rstrip_q]. intros (H & _ & Hs). rewrite IH by done. destruct (eqb c quote) eqn:He; [by apply eqb_is in He|]. by destruct s.
Qed.
Lemma strip_plain s : plain s → strip_q s = s.
Proof. intros H. unfold strip_q. by rewrite lstrip_plain, rstrip_plain by (try rewrite lstrip_plain; done). Qed.
Lemma omap_cons' {A B} (f : A → option B) x l : omap f (x :: l) = match f x with Some y => y :: omap f l | None => omap f l end.
Proof. done. Qed.
Lemma lists_style env h o (l : sdict) : (∀ k v, (k, v) ∈ l → plain k) → plain_attrs (omap (attr_of env h o) l) →
  lists (style_items env h o l) (omap (attr_of env h o) l).
Proof.
  intros Hk Hp. unfold style_items.
  assert (HF : Forall2 lists (omap (style_item env h o) l) (map (λ x, [x]) (omap (attr_of env h o) l))).
  { induction l as [|[k v] l IH]; [constructor|]. destruct (attr_of env h o (k, v)) as [[k' v']|] eqn:Ha.
    - assert (plain v') as Hv' by (eapply (Hp k' v'); rewrite omap_cons', Ha; left).
      assert (style_item env h o (k, v) = Some (quoted k +:+ "=" +:+ quoted v') ∧ k' = k) as [Hs ->].
      { destruct v; cbn in Ha |- *; try done; injection Ha as <- <-; split; try done; by rewrite strip_plain. }
      rewrite !omap_cons', Hs, Ha. cbn [map]. constructor.
      + apply lists_quoted; [eapply Hk; left|done].
      + apply IH; [intros ? ? ?; eapply Hk; by right|]. intros k2 v2 H2. apply (Hp k2 v2). rewrite omap_cons', Ha. by right.
    - assert (style_item env h o (k, v) = None) as Hs by (by destruct v). rewrite !omap_cons', Hs, Ha.
      apply IH; [intros ? ? ?; eapply Hk; by right|]. intros k2 v2 H2. apply (Hp k2 v2). by rewrite omap_cons', Ha. }
  apply lists_concat in HF. by rewrite concat_singles in HF.
Qed.
Ltac plain_keys := let H := fresh in intros ? ? H; rewrite !elem_of_cons, elem_of_nil in H; destruct_or! H; try done; injection H as -> ->; vm_compute; repeat split; discriminate.
Lemma lists_ns env h s : plain_attrs (node_style_attrs env h s) → lists (ns_graphviz env h s) (node_style_attrs env h s).
Proof. intros Hp. apply lists_style; [plain_keys|done]. Qed.
Lemma lists_es env h s : plain_attrs (edge_style_attrs env h s) → lists (es_graphviz env h s) (edge_style_attrs env h s).
Proof. intros Hp. apply lists_style; [plain_keys|done]. Qed.

(** * Nodes and edges *)
Lemma reads_quoted_then s t ts : plain s → scan_all Idle t = Some (Idle, ts) → scan_all Idle (quoted s +:+ t) = Some (Idle, TStr s :: ts).
Proof. intros Hp Ht. apply (scan_seq Idle (quoted s) t Idle Idle [TStr s] ts); [by apply scan_quoted|done]. Qed.
Lemma reads_bracket s l : lists s l → ∃ ts, scan_all Idle ("[" +:+ s +:+ "]") = Some (Idle, TMark "[" :: ts ++ [TMark "]"])%list ∧ ∃ us, Forall2 item us l ∧ ts = join [] us.
Proof.
  intros (us & Hs & HF). exists (concat us). split; [|exists us; by rewrite join_concat].
  apply (scan_seq Idle "[" (s +:+ "]") Idle Idle [TMark "["]); [done|]. by eapply scan_seq.
Qed.
Lemma node_reads env h g G D r N : WF h → h_graphs h !! g = Some G → g_disp G = Some D → h_nodes h !! r = Some N → n_graph N = Some g →
  d_node_conv D = None → plain (name_str (n_id N)) → safe (label_text env h N) → plain_attrs (text_attr env h "tooltip" (n_tooltip N)) →
  (∀ s S, n_style N = Some s → h_ns h !! s = Some S → plain_attrs (node_style_attrs env h S)) →
  ∃ s ts, node_graphviz env h r = Ok s ∧ scan_all Idle s = Some (Idle, ts) ∧ ∀ d, says d ts 1 (with_node (node_drawn env h N).1 (node_drawn env h N).2) d.
Proof.
  intros W HG HD HN Hg Hc Hp1 Hp2 Hp3 Hp4. unfold node_graphviz, node_display_label, node_label, obj_display, get_display. rewrite (get_n_Ok _ _ _ HN). cbn [rbind].
  rewrite Hg, (get_g_Ok _ _ _ HG). cbn [rbind]. rewrite HD. cbn [rbind]. fold (label_text env h N). rewrite Hc. cbn [pv_str].
  set (sty := match n_style N with None => Ok [] | Some _ => _ end).
  set (la := match n_style N ≫= λ s, h_ns h !! s with Some s => node_style_attrs env h s | None => [] end).
  assert (∃ l, sty = Ok l ∧ ∃ ls, Forall2 lists l ls ∧ concat ls = la) as (l & -> & ls & HF & Hls).
  { subst sty la. destruct (n_style N) as [k|] eqn:Hst; [|exists []; split; [done|]; by exists []].
    unfold node_style. rewrite (get_n_Ok _ _ _ HN). cbn [rbind]. rewrite Hst. cbn [mbind option_bind].
    destruct (lookup_lt_is_Some_2 (h_ns h) k) as [S HS]; [by eapply wf_nstyle|]. rewrite HS. cbn [rbind]. eexists. split; [reflexivity|].
    exists [node_style_attrs env h S]. split; [|by cbn; rewrite app_nil_r]. constructor; [|done]. apply lists_ns. by eapply Hp4. }
  cbn [rbind]. set (parts := ("label=" +:+ _) :: _).
  assert (Hparts : Forall2 lists parts ([("label", label_text env h N)] :: map (λ x, [x]) (text_attr env h "tooltip" (n_tooltip N)) ++ ls)).
  { constructor; [|apply Forall2_app; [|done]; by apply lists_opt]. exists [[TWord "label"; TMark "="; TStr (label_text env h N)]]. split.
    - apply (scan_seq Idle "label=" _ Idle Idle [TWord "label"; TMark "="] [TStr (label_text env h N)]); [done|]. by apply scan_label.
    - constructor; [|done]. by eexists _, _. }
  apply lists_concat in Hparts. change (concat (?x :: ?y)) with (x ++ concat y)%list in Hparts. rewrite concat_app, concat_singles, Hls in Hparts.
  apply reads_bracket in Hparts as (ts & Hts & us & HFu & ->). eexists _, _. split; [reflexivity|]. split.
  - apply reads_quoted_then; [done|]. eapply (scan_seq Idle " " _ Idle Idle []); [done|exact Hts].
  - intros d. apply says_node; [by left|]. exact HFu.
Qed.
Lemma edge_reads env h g G D e x y E X Y : WF h → h_graphs h !! g = Some G → g_disp G = Some D → joins h g e x y →
  h_edges h !! e = Some E → h_nodes h !! x = Some X → h_nodes h !! y = Some Y →
  d_edge_conv D = None → plain (name_str (n_id X)) → plain (name_str (n_id Y)) → plain_attrs (text_attr env h "label" (edge_text E)) →
  plain_attrs (text_attr env h "tooltip" (e_tooltip E)) → (∀ s S, e_style E = Some s → h_es h !! s = Some S → plain_attrs (edge_style_attrs env h S)) →
  ∃ s ts, edge_graphviz env h e = Ok s ∧ scan_all Idle s = Some (Idle, ts) ∧
    ∀ d, says d ts 1 (with_edge (edge_drawn env h E X Y).1.1 (edge_drawn env h E X Y).1.2 (edge_drawn env h E X Y).2) d.
Proof.
  intros W HG HD (E' & HE' & Hg & Hs & Ht) HE HX HY Hc HpX HpY Hp1 Hp2 Hp3. assert (E' = E) as -> by congruence.
  assert (edge_display_label h e = Ok (edge_text E)) as Hd.
  { unfold edge_display_label, edge_text. rewrite (get_e_Ok _ _ _ HE). cbn [rbind]. unfold obj_display, get_display. rewrite Hg. cbn iota. rewrite (get_g_Ok _ _ _ HG). cbn [rbind].
    rewrite HD. cbn [rbind]. rewrite Hc. by destruct (e_label E). }
  unfold edge_graphviz. rewrite Hd. unfold edge_start, edge_end. rewrite !(get_e_Ok _ _ _ HE). cbn [rbind]. rewrite Hs, Ht. cbn [rbind].
  set (sty := match e_style E with None => Ok [] | Some _ => _ end).
  set (la := match e_style E ≫= λ s, h_es h !! s with Some s => edge_style_attrs env h s | None => [] end).
  assert (∃ l, sty = Ok l ∧ ∃ ls, Forall2 lists l ls ∧ concat ls = la) as (l & -> & ls & HF & Hls).
  { subst sty la. destruct (e_style E) as [k|] eqn:Hst; [|exists []; split; [done|]; by exists []]. cbn [mbind option_bind].
    destruct (lookup_lt_is_Some_2 (h_es h) k) as [S HS]; [by eapply wf_estyle|]. rewrite HS. cbn [rbind]. eexists. split; [reflexivity|].
    exists [edge_style_attrs env h S]. split; [|by cbn; rewrite app_nil_r]. constructor; [|done]. apply lists_es. by eapply Hp3. }
  cbn [rbind]. rewrite (get_n_Ok _ _ _ HX), (get_n_Ok _ _ _ HY). cbn [rbind]. set (parts := (opt_part _ _ _ _ ++ _)%list).
  assert (Hparts : Forall2 lists parts (map (λ x, [x]) (text_attr env h "label" (edge_text E)) ++ map (λ x, [x]) (text_attr env h "tooltip" (e_tooltip E)) ++ ls)).
  { apply Forall2_app; [by apply lists_opt|]. apply Forall2_app; [by apply lists_opt|done]. }
  assert (Hc2 : concat (map (λ x, [x]) (text_attr env h "label" (edge_text E)) ++ map (λ x, [x]) (text_attr env h "tooltip" (e_tooltip E)) ++ ls)%list = (edge_drawn env h E X Y).2).
  { by rewrite !concat_app, !concat_singles, Hls. }
  assert (Harrow : ∀ t ts, scan_all Idle t = Some (Idle, ts) →
    scan_all Idle (quoted (name_str (n_id X)) +:+ " -> " +:+ quoted (name_str (n_id Y)) +:+ t) = Some (Idle, TStr (name_str (n_id X)) :: TArrow :: TStr (name_str (n_id Y)) :: ts)).
  { intros t ts H. apply reads_quoted_then; [done|]. apply (scan_seq Idle " -> " _ Idle Idle [TArrow]); [done|]. by apply reads_quoted_then. }
  clearbody parts. destruct parts as [|p ps].
  - apply Forall2_nil_inv_l in Hparts. rewrite <-Hc2, Hparts. eexists _, [TStr (name_str (n_id X)); TArrow; TStr (name_str (n_id Y))].
    split; [reflexivity|]. split; [by apply Harrow|]. intros d. apply says_edge_bare.
  - apply lists_concat in Hparts. rewrite Hc2 in Hparts. apply reads_bracket in Hparts as (ts & Hts & us & HFu & ->).
    eexists _, _. split; [reflexivity|]. split; [by apply Harrow|]. intros d. apply says_edge; [by left|done].
Qed.

(** * The header *)
Definition part (s : string) (f : drawing → drawing) : Prop := ∃ ts k, scan_all Idle s = Some (Idle, ts) ∧ says 0 ts k f 0.
Lemma part_app s t f g : part s f → part t g → part (s +:+ t) (f ∘ g).
Proof. intros (ts & k & H1 & H2) (us & m & H3 & H4). exists (ts ++ us)%list, (k + m). split; [by eapply scan_seq|by eapply says_app]. Qed.
Lemma part_nil : part "" id.
Proof. exists [], 0. split; [done|apply says_nil]. Qed.
Lemma part_assign pre k v : scan_all Idle pre = Some (Idle, [TWord k; TMark "="]) → keyword k = false → plain v → part (pre +:+ quoted v) (with_attrs [(k, v)]).
Proof.
  intros Hpre Hk Hv. exists [TWord k; TMark "="; TStr v], 1. split.
  - apply (scan_seq _ _ _ _ _ [TWord k; TMark "="] [TStr v] Hpre). by apply scan_quoted.
  - apply says_assign; [cbn [ident]; by rewrite Hk|done].
Qed.
Lemma part_semi : part (";" +:+ NL) id.
Proof. exists [TMark ";"], 1. split; [done|]. apply says_semi. Qed.
Lemma part_line pre k v : scan_all Idle pre = Some (Idle, [TWord k; TMark "="]) → keyword k = false → plain v → part (pre +:+ quoted v +:+ ";" +:+ NL) (with_attrs [(k, v)] ∘ id).
Proof. intros H1 H2 H3. rewrite <-append_assoc. apply part_app; [by apply part_assign|apply part_semi]. Qed.

(** One attribute of the graph, as printed and as read. *)
Definition printed (kt kv : string * string) : Prop := kt.1 = kv.1 ∧ one_word kv.1 ∧ (kt.2 = quoted kv.2 ∨ kt.2 = kv.2 ∧ one_word kv.2).
Lemma printed_dset a b k t v : Forall2 printed a b → one_word k → t = quoted v ∨ t = v ∧ one_word v → Forall2 printed (dset a k t) (dset b k v).
Proof.
  intros HF Hk Ht. induction HF as [|[k1 t1] [k2 v2] a b (H1 & H2 & H3) HF IH]; cbn in *; [by constructor|]. subst k2.
  destruct (decide (k = k1)); constructor; try done.
Qed.
Lemma printed_item kt kv : printed kt kv → plain kv.2 → ∃ ts, tokens (kt.1 +:+ " = " +:+ kt.2) = Some ts ∧ item ts kv.
Proof.
  destruct kt as [k t], kv as [k' v]. intros (H1 & [H2 H2'] & H3) Hp. cbn [fst snd] in *. subst k'.
  assert (∃ tv, tokens t = Some [tv] ∧ ident tv = Some v) as (tv & Ht & Hi).
  { destruct H3 as [->|[-> [Hw Hk]]]; [exists (TStr v)|exists (TWord v)].
    - split; [|done]. by apply tokens_idle, scan_quoted.
    - split; [done|]. cbn [ident]. by rewrite Hk. }
  exists [TWord k; TMark "="; tv]. split; [|exists (TWord k), tv; cbn [ident]; by rewrite H2'].
  rewrite <-append_assoc. apply (tokens_seq (k +:+ " = ") t [TWord k; TMark "="] [tv]); [|done]. by apply (scan_tokens k [TWord k] " " "= " Idle [TMark "="]).
Qed.
Lemma part_graph a b : Forall2 printed a b → plain_attrs b → part (TAB +:+ " graph [" +:+ String.concat ", " (map (λ kv, kv.1 +:+ " = " +:+ kv.2) a) +:+ " ];" +:+ NL) (with_attrs b ∘ id).
Proof.
  intros HF Hp.
  assert (∃ ts, Forall2 (λ s t, tokens s = Some t) (map (λ kv, kv.1 +:+ " = " +:+ kv.2) a) ts ∧ Forall2 item ts b) as (ts & H1 & H2).
  { induction HF as [|kt kv a b Hkv HF IH]; [exists []; by split; constructor|]. destruct IH as (ts & H1 & H2); [intros k v Hin; eapply Hp; by right|].
    destruct (printed_item kt kv) as (t & Ht & Hi); [done|destruct kv; eapply Hp; left|]. exists (t :: ts). by split; constructor. }
  apply (tokens_concat "," " " [TMark ","]) in H1; [|done..].
  exists ((TWord "graph" :: TMark "[" :: join [TMark ","] ts ++ [TMark "]"]) ++ [TMark ";"])%list, (1 + 1). split.
  - replace ((TWord "graph" :: TMark "[" :: join [TMark ","] ts ++ [TMark "]"]) ++ [TMark ";"])%list with ([TWord "graph"; TMark "["] ++ (join [TMark ","] ts ++ [TMark "]"; TMark ";"]))%list
      by (cbn; by rewrite <-app_assoc).
    rewrite <-(append_assoc TAB). eapply scan_seq; [vm_compute; reflexivity|]. by apply (scan_tokens _ _ " " ("];" +:+ NL) Idle [TMark "]"; TMark ";"]).
  - eapply says_app; [apply says_graph; [by right|done]|apply says_semi].
Qed.
Lemma attr_q_printed env h k v : one_word k → Forall2 printed (attr_q env h k v) (text_attr env h k v).
Proof. intros Hk. destruct v; cbn; constructor; try done; (split; [done|]; split; [done|]; by left). Qed.
Lemma header_printed env h D : (d_label D = PNone ∨ d_label_bg D = PNone ∧ ∃ l c loc, d_label D = PStr l ∧ String.prefix "<" l = false ∧ d_label_location D = PStr (String c loc)) →
  (d_font_size D = PNone ∨ one_word (pv_str env h (d_font_size D))) → (∀ k v, (k, v) ∈ d_kwargs D → one_word k) →
  ∃ a, header_attributes env h D = Ok a ∧ Forall2 printed a (fold_left (λ a kv, dset a kv.1 (pv_str env h kv.2)) (d_kwargs D) (title_attrs env h D ++ text_attr env h "tooltip" (d_tooltip D))%list).
Proof.
  intros Hl Hf Hk. unfold header_attributes.
  assert (Hfold : ∀ a b, Forall2 printed a b → Forall2 printed (fold_left (λ a kv, dset a kv.1 (match kv.2 with PInt z => pretty z | v => quoted (pv_str env h v) end)) (d_kwargs D) a)
    (fold_left (λ a kv, dset a kv.1 (pv_str env h kv.2)) (d_kwargs D) b)).
  { induction (d_kwargs D) as [|[k v] kw IH]; intros a b HF; [done|]. cbn [fold_left fst snd]. apply IH; [intros ? ? ?; eapply Hk; by right|].
    apply printed_dset; [done|eapply Hk; left|]. destruct v; cbn [pv_str]; auto. right. split; [done|]. apply pretty_word. }
  assert (one_word "tooltip") by (by vm_compute).
  destruct Hl as [Hl|(Hbg & l & c & loc & Hl & Hpre & Hloc)].
  - rewrite Hl. cbn [rbind]. eexists. split; [reflexivity|]. apply Hfold. unfold title_attrs. rewrite Hl. apply Forall2_app; [done|]. by apply attr_q_printed.
  - unfold header_label. rewrite Hl, Hpre. cbn [andb]. rewrite Hbg. cbn [rbind]. rewrite Hloc. cbn [rbind first_char]. eexists. split; [reflexivity|]. apply Hfold.
    unfold title_attrs. rewrite Hl, Hloc. apply Forall2_app; [|by apply attr_q_printed]. cbn [app].
    constructor; [split; [done|]; split; [by vm_compute|by left]|]. constructor; [split; [done|]; split; [by vm_compute|by left]|].
    apply Forall2_app; [|apply Forall2_app; [by apply attr_q_printed; vm_compute|apply Forall2_app; [by apply attr_q_printed; vm_compute|]]].
    + destruct Hf as [->|Hf]; [constructor|]. destruct (d_font_size D); cbn [text_attr]; constructor; try done; (split; [done|]; split; [by vm_compute|by right]).
    + destruct (d_label_url D); [constructor|..]; (constructor; [split; [done|]; split; [by vm_compute|by left]|]); (constructor; [split; [done|]; split; [by vm_compute|by left]|done]).
Qed.
Lemma plain_attrs_app a b : plain_attrs (a ++ b)%list ↔ plain_attrs a ∧ plain_attrs b.
Proof.
  unfold plain_attrs. setoid_rewrite elem_of_app. split; [|naive_solver]. intros H. split; intros k v Hin; apply (H k v); auto.
Qed.
Lemma with_attrs_app a b d : with_attrs (a ++ b)%list d = with_attrs a (with_attrs b d).
Proof. unfold with_attrs. cbn. by rewrite app_assoc. Qed.
Lemma with_attrs_nil d : with_attrs [] d = d.
Proof. by destruct d. Qed.
Lemma with_attrs_cons x a d : with_attrs (x :: a) d = with_attrs [x] (with_attrs a d).
Proof. done. Qed.
Lemma header_reads env h g G D dir he wi pad : h_graphs h !! g = Some G → g_disp G = Some D → harmless env h g G D dir he wi pad →
  ∃ s ts k f, graphviz_header env h g (if eqb dir "" then d_direction D else dir) he wi pad = Ok ((if g_strict G then "strict digraph G {" +:+ NL else "digraph G{" +:+ NL) +:+ s) ∧
    scan_all Idle s = Some (Idle, ts) ∧ says 0 ts k f 0 ∧ ∀ d, f d = with_attrs (graph_attrs env h G D dir he wi pad) d.
Proof.
  intros HG HD HH. destruct HH as [_ _ _ _ Hl Hgr Hf Hk]. unfold graphviz_header, get_display. rewrite (get_g_Ok _ _ _ HG). cbn [rbind]. rewrite HD. cbn [rbind].
  destruct (header_printed env h D) as (a & -> & Ha); [done..|]. cbn [rbind]. unfold graph_attrs in *. set (b := fold_left _ _ _) in *.
  set (dr := if eqb (if eqb dir "" then d_direction D else dir) "" then d_direction D else _).
  assert (Hdr : upper dr = the_direction D dir).
  { unfold the_direction. rewrite upper_capitals. f_equal. subst dr. destruct (eqb dir "") eqn:Hd; [|by rewrite Hd]. by destruct (eqb (d_direction D) ""). }
  rewrite Hdr. rewrite !plain_attrs_app in Hgr. destruct Hgr as (Hb & Hbg & Hpad & _ & Hsize & Hdir).
  assert (P1 : ∃ f, part (match a with [] => "" | _ => TAB +:+ " graph [" +:+ String.concat ", " (map (λ kv, kv.1 +:+ " = " +:+ kv.2) a) +:+ " ];" +:+ NL end) f ∧ ∀ d, f d = with_attrs b d).
  { destruct a as [|kv a']; [exists id; split; [apply part_nil|]; apply Forall2_nil_inv_l in Ha; rewrite Ha; intros d; by rewrite with_attrs_nil|].
    eexists. split; [by eapply part_graph|]. done. }
  assert (P2 : ∃ f, part (TAB +:+ "bgcolor=" +:+ quoted (pe_hexadecimal env (d_background D)) +:+ ";" +:+ NL) f ∧ ∀ d, f d = with_attrs [("bgcolor", pe_hexadecimal env (d_background D))] d).
  { eexists. split; [rewrite <-(append_assoc TAB); apply part_line; [done..|]|done]. eapply Hbg. left. }
  assert (P3 : ∃ f, part (match pad with PNone => "" | _ => TAB +:+ "pad=" +:+ quoted (pv_str env h pad) +:+ ";" +:+ NL end) f ∧ ∀ d, f d = with_attrs (text_attr env h "pad" pad) d).
  { destruct pad; [exists id; split; [apply part_nil|]; intros d; by rewrite with_attrs_nil|..];
    (eexists; split; [rewrite <-(append_assoc TAB); apply part_line; [done..|]|done]; eapply Hpad; left). }
  assert (P4 : ∃ f, part (if g_ordering G then "" else TAB +:+ "ordering=out;" +:+ NL) f ∧ ∀ d, f d = with_attrs (if g_ordering G then [] else [("ordering", "out")]) d).
  { destruct (g_ordering G); [exists id; split; [apply part_nil|]; intros d; by rewrite with_attrs_nil|].
    eexists. split; [|reflexivity]. exists [TWord "ordering"; TMark "="; TWord "out"; TMark ";"], (1 + 1). split; [done|].
    change [TWord "ordering"; TMark "="; TWord "out"; TMark ";"] with ([TWord "ordering"; TMark "="; TWord "out"] ++ [TMark ";"])%list.
    eapply (says_app _ _ _ _ _ _ _ (with_attrs [("ordering", "out")]) id); [by apply says_assign|apply says_semi]. }
  assert (P5 : ∃ f, part (header_size env h he wi) f ∧ ∀ d, f d = with_attrs (size_attrs env h he wi) d).
  { assert (Hsz : ∀ s, plain (s +:+ "!") → ∃ f, part (TAB +:+ "size=" +:+ quoted (s +:+ "!") +:+ ";" +:+ NL +:+ TAB +:+ "ratio=" +:+ quoted "fill" +:+ ";" +:+ NL) f ∧ ∀ d, f d = with_attrs [("size", s +:+ "!"); ("ratio", "fill")] d).
    { intros s Hs. exists ((with_attrs [("size", s +:+ "!")] ∘ id) ∘ (with_attrs [("ratio", "fill")] ∘ id)). split; [|done].
      replace (TAB +:+ "size=" +:+ quoted (s +:+ "!") +:+ ";" +:+ NL +:+ TAB +:+ "ratio=" +:+ quoted "fill" +:+ ";" +:+ NL) with
        (((TAB +:+ "size=") +:+ quoted (s +:+ "!") +:+ ";" +:+ NL) +:+ ((TAB +:+ "ratio=") +:+ quoted "fill" +:+ ";" +:+ NL)) by (by rewrite !append_assoc).
      apply part_app; apply part_line; done. }
    unfold header_size, size_attrs in *.
    destruct he, wi; try (exists id; split; [apply part_nil|]; intros d; by rewrite with_attrs_nil);
    apply Hsz; eapply Hsize; left. }
  assert (P6 : ∃ f, part (if eqb (the_direction D dir) "TB" then "" else TAB +:+ "rankdir=" +:+ quoted (the_direction D dir)) f ∧
    ∀ d, f d = with_attrs (if eqb (the_direction D dir) "TB" then [] else [("rankdir", the_direction D dir)]) d).
  { destruct (eqb (the_direction D dir) "TB"); [exists id; split; [apply part_nil|]; intros d; by rewrite with_attrs_nil|].
    eexists. split; [rewrite <-(append_assoc TAB); apply part_assign; [done..|]|done]. eapply Hdir. left. }
  destruct P1 as (f1 & P1 & Q1), P2 as (f2 & P2 & Q2), P3 as (f3 & P3 & Q3), P4 as (f4 & P4 & Q4), P5 as (f5 & P5 & Q5), P6 as (f6 & P6 & Q6).
  pose proof (part_app _ _ _ _ P1 (part_app _ _ _ _ P2 (part_app _ _ _ _ P3 (part_app _ _ _ _ P4 (part_app _ _ _ _ P5 P6))))) as (ts & k & Hts & Hsay).
  eexists _, ts, k, _. split; [|split; [exact Hts|split; [exact Hsay|]]].
  - f_equal. rewrite !append_assoc. done.
  - intros d. unfold compose. rewrite Q1, Q2, Q3, Q4, Q5, Q6. rewrite !with_attrs_app. done.
Qed.

(** * The whole text *)
Lemma says_list tss fs d : Forall2 (λ ts f, ∀ d, says d ts 1 f d) tss fs → says d (concat tss) (length tss) (foldr compose id fs) d.
Proof. induction 1 as [|ts f tss fs H1 HF IH]; [apply says_nil|]. cbn. by apply (says_app d d d ts (concat tss) 1 (length tss)). Qed.
Lemma nodes_drawn (l : list (string * attrs)) dr : foldr compose id (map (λ p, with_node p.1 p.2) l) dr = Drawing (dr_graph dr) (l ++ dr_nodes dr) (dr_edges dr).
Proof. induction l as [|[n a] l IH]; [by destruct dr|]. cbn [map foldr]. change ((?f ∘ ?g) dr) with (f (g dr)). by rewrite IH. Qed.
Lemma edges_drawn (l : list (string * string * attrs)) dr : foldr compose id (map (λ p, with_edge p.1.1 p.1.2 p.2) l) dr = Drawing (dr_graph dr) (dr_nodes dr) (l ++ dr_edges dr).
Proof. induction l as [|[[n m] a] l IH]; [by destruct dr|]. cbn [map foldr]. change ((?f ∘ ?g) dr) with (f (g dr)). by rewrite IH. Qed.
(** A statement that says [f]. *)
Definition stmt (s : string) (f : drawing → drawing) : Prop := ∃ ts, scan_all Idle s = Some (Idle, ts) ∧ ∀ d, says d ts 1 f d.
Lemma stmts sep ss fs d : scan_all Idle sep = Some (Idle, []) → Forall2 stmt ss fs →
  ∃ ts k, scan_all Idle (String.concat sep ss) = Some (Idle, ts) ∧ says d ts k (foldr compose id fs) d.
Proof.
  intros Hsep HF. assert (∃ tss, Forall2 (λ s t, scan_all Idle s = Some (Idle, t)) ss tss ∧ Forall2 (λ ts f, ∀ d, says d ts 1 f d) tss fs) as (tss & H1 & H2).
  { induction HF as [|s f ss fs (ts & Ha & Hb) HF (tss & H1 & H2)]; [by exists []|]. exists (ts :: tss). by split; constructor. }
  eexists _, _. split; [by apply scan_concat|]. rewrite join_concat. by apply says_list.
Qed.
Lemma dot_reads strict s ts k f A nstrs estrs nds eds : scan_all Idle s = Some (Idle, ts) → says 0 ts k f 0 → (∀ d, f d = with_attrs A d) →
  Forall2 stmt nstrs (map (λ p, with_node p.1 p.2) nds) → Forall2 stmt estrs (map (λ p, with_edge p.1.1 p.1.2 p.2) eds) →
  read_dot (dot_text ((if strict : bool then "strict digraph G {" +:+ NL else "digraph G{" +:+ NL) +:+ s) nstrs estrs) = Some (strict, Drawing A nds eds).
Proof.
  intros Hs Hsay Hf HN HE. destruct (stmts (NL +:+ TAB +:+ TAB) _ _ 1 ltac:(done) HN) as (tn & kn & Hn1 & Hn2).
  destruct (stmts (NL +:+ TAB) _ _ 0 ltac:(done) HE) as (te & ke & He1 & He2).
  set (body := (ts ++ [TMark "{"] ++ tn ++ [TMark "}"] ++ te)%list).
  assert (Hscan : scan_all Idle (s +:+ (TAB +:+ "{" +:+ NL +:+ TAB +:+ TAB +:+ String.concat (NL +:+ TAB +:+ TAB) nstrs +:+ NL +:+ TAB +:+ "}" +:+ NL)
     +:+ (TAB +:+ String.concat (NL +:+ TAB) estrs +:+ NL) +:+ "}") = Some (Idle, (body ++ [TMark "}"])%list)).
  { subst body. rewrite <-!app_assoc. eapply scan_seq; [done|]. rewrite !append_assoc.
    assert (E1 : ∀ x, TAB +:+ "{" +:+ NL +:+ TAB +:+ TAB +:+ x = (TAB +:+ "{" +:+ NL +:+ TAB +:+ TAB) +:+ x) by (intros; by rewrite !append_assoc).
    assert (E2 : ∀ y, NL +:+ TAB +:+ "}" +:+ NL +:+ TAB +:+ y = (NL +:+ TAB +:+ "}" +:+ NL +:+ TAB) +:+ y) by (intros; by rewrite !append_assoc).
    rewrite E1, E2.
    eapply scan_seq; [done|]. eapply scan_seq; [done|].
    eapply scan_seq; [done|]. eapply scan_seq; [done|]. done. }
  assert (∃ k f', says 0 body k f' 0 ∧ f' nothing = Drawing A nds eds) as (k' & f' & Hb & Hf').
  { eexists _, _. split.
    - eapply says_app; [exact Hsay|]. eapply says_app; [apply says_open|]. eapply says_app; [exact Hn2|]. eapply says_app; [apply says_close|exact He2].
    - change (f (foldr compose id (map (λ p, with_node p.1 p.2) nds) (foldr compose id (map (λ p, with_edge p.1.1 p.1.2 p.2) eds) nothing)) = Drawing A nds eds).
      rewrite Hf, nodes_drawn, edges_drawn. cbn. unfold with_attrs. cbn. by rewrite !app_nil_r. }
  unfold read_dot, dot_text. rewrite append_assoc.
  assert (tokens ((if strict then "strict digraph G {" +:+ NL else "digraph G{" +:+ NL) +:+ s +:+ (TAB +:+ "{" +:+ NL +:+ TAB +:+ TAB +:+ String.concat (NL +:+ TAB +:+ TAB) nstrs +:+ NL +:+ TAB +:+ "}" +:+ NL)
     +:+ (TAB +:+ String.concat (NL +:+ TAB) estrs +:+ NL) +:+ "}") = Some ((if strict then [TWord "strict"] else []) ++ [TWord "digraph"; TWord "G"; TMark "{"] ++ body ++ [TMark "}"])%list) as ->.
  { apply tokens_idle. rewrite app_assoc. destruct strict; (eapply scan_seq; [vm_compute; reflexivity|exact Hscan]). }
  cbn [mbind option_bind]. apply says_done in Hb.
  assert (∀ b, parse_digraph b (TWord "digraph" :: TWord "G" :: TMark "{" :: body ++ [TMark "}"]) = Some (b, Drawing A nds eds)) as Hd.
  { intros b. unfold parse_digraph. change (eqb (capitals "digraph") "DIGRAPH") with true. change (ident (TWord "G")) with (Some "G"). cbv iota. rewrite Hb. cbn. by rewrite Hf'. }
  destruct strict; cbn [app]; unfold parse_graph.
  - change (eqb (capitals "strict") "STRICT") with true. apply Hd.
  - change (eqb (capitals "digraph") "STRICT") with false. apply Hd.
Qed.

(** The laws of the order of nodes, for names of any kind. *)
From Verif Require Export SpecOrder SpecTight Samples.
From Verif Require Import ProofC4 ProofC54.
Local Open Scope string_scope.

Lemma lt_before h x y X Y : h_nodes h !! x = Some X → h_nodes h !! y = Some Y → node_lt h x y = Ok true ↔ key_before (nkey X) (nkey Y).
Proof.
  intros HX HY. assert (Hp : precedes h x y ↔ key_before (nkey X) (nkey Y)).
  { split; [|by exists X, Y]. intros (X' & Y' & ? & ? & ?). by assert (X' = X) as <- by congruence; assert (Y' = Y) as <- by congruence. }
  destruct (decide (n_index X = n_index Y)) as [Hi|Hi]; [destruct (n_id X) as [a|a] eqn:Ha, (n_id Y) as [b|b] eqn:Hb|].
  2,3: destruct (C38_mixed_proof h x y X Y) as (-> & _); [done..|by rewrite Ha, Hb; intros ?|];
    (split; [done|]); unfold nkey; rewrite Hi, Ha, Hb; intros H; exfalso; revert H; unfold key_before; cbn; lia.
  all: destruct (C38_kinds_proof h x y X Y) as (lt & eq & gt & -> & _ & _ & _ & _ & _ & _ & _ & H & _); [done..|by rewrite ?Ha, ?Hb|];
    rewrite <-Hp, <-H; by split; [intros [= ->]|intros ->].
Qed.

(** C38.  For nodes with any names, whatever their kinds: < is transitive and never holds both
    ways; == is an equivalence compatible with <.  (A comparison that raises is not true.) *)
Lemma C38_all_laws_proof : ∀ h x y z X Y Z, h_nodes h !! x = Some X → h_nodes h !! y = Some Y → h_nodes h !! z = Some Z →
  (node_lt h x y = Ok true → node_lt h y z = Ok true → node_lt h x z = Ok true) ∧
  (node_lt h x y = Ok true → node_lt h y x ≠ Ok true) ∧
  (node_eq h x y = Ok true → node_eq h y z = Ok true → node_eq h x z = Ok true) ∧
  (node_eq h x y = Ok true → node_lt h y z = Ok true → node_lt h x z = Ok true) ∧
  (node_lt h x y = Ok true → node_eq h y z = Ok true → node_lt h x z = Ok true) ∧
  node_eq h x x = Ok true ∧ (node_eq h x y = Ok true → node_eq h y x = Ok true).
Proof.
  intros h x y z X Y Z HX HY HZ.
  assert (Heq : ∀ x y X Y, h_nodes h !! x = Some X → h_nodes h !! y = Some Y → node_eq h x y = Ok true ↔ nkey X = nkey Y).
  { clear. intros x y X Y HX HY. unfold node_eq, get_n. rewrite HX, HY. cbn [rbind]. split.
    - intros [= H]. by apply bool_decide_eq_true in H.
    - intros H. f_equal. by apply bool_decide_eq_true. }
  rewrite !(Heq x y X Y), !(Heq y z Y Z), (Heq x z X Z), (Heq x x X X), (Heq y x Y X) by done.
  rewrite (lt_before h x y X Y), (lt_before h y z Y Z), (lt_before h x z X Z), (lt_before h y x Y X) by done.
  split_and!; [apply before_trans|apply before_asym|congruence|by intros ->|by intros ? <-|done|done].
Qed.

(** C38, instance: 9 < 10 < a node with a str name and a larger index. *)
Lemma C38_all_laws_ex_proof : ∃ h, reachable h ∧ (n_id <$> h_nodes h) = [NInt 9; NInt 10; nm "a"] ∧
  node_lt h 0 1 = Ok true ∧ node_lt h 1 2 = Ok true ∧ node_lt h 0 2 = Ok true.
Proof.
  exists (run [CNew false true disp0; CNodeCtor 0 (NInt 9) nargs0 7; CNodeCtor 0 (NInt 10) nargs0 7; CNodeCtor 0 (nm "a") nargs0 8] empty_heap).
  split; [reach_ctor|]. repeat (split; [vm_compute; reflexivity|]). vm_compute; reflexivity.
Qed.

(** Concrete programs, used to show that the hypotheses of the theorems are met
    by non-trivial states. *)
From Verif Require Export ProofOps SpecOps.
Local Open Scope string_scope.
Local Open Scope list_scope.

Fixpoint all_allowed (cs : list call) (h : heap) : Prop :=
  match cs with [] => True | c :: cs' => allowed h c ∧ all_allowed cs' (after c h) end.
Lemma run_reachable cs h : reachable h → all_allowed cs h → reachable (run cs h).
Proof.
  revert h. induction cs as [|c cs IH]; intros h Hr Hal; [done|]. destruct Hal as [Ha Hal].
  apply IH; [by apply reach_call|done].
Qed.

Lemma run_history P cs h h0 : history P h0 h → all_allowed cs h → Forall P cs → history P h0 (run cs h).
Proof.
  revert h. induction cs as [|c cs IH]; intros h Hh Hal Hp; [done|]. destruct Hal as [Ha Hal]. inversion Hp; subst.
  apply IH; [by apply hist_cons|done..].
Qed.

Definition nm (s : string) : name := NStr s.
Definition an (s : string) : narg := AName (NStr s).
Definition disp0 : display := display0 [CName "red"; CName "blue"].

(** Two graphs; the first has a cycle b -> c -> b entered from a, a self-loop, two
    parallel edges, an isolated node and one edge that was removed again. *)
Definition sample_calls : list call :=
  [CNew false true disp0; CNew true false disp0;
   CAddNode 0 (an "a") nargs0; CAddNode 0 (an "b") nargs0; CAddNode 0 (an "c") nargs0; CAddNode 0 (an "d") nargs0;
   CAddNode 1 (an "a") nargs0; CAddNode 1 (an "z") nargs0;
   CConnect 0 (an "a") (an "b") eargs0; CConnect 0 (an "b") (an "c") eargs0; CConnect 0 (an "c") (an "b") eargs0;
   CConnect 0 (an "a") (an "b") (eargs0 <| c_id := Some (nm "x") |>); CConnect 0 (an "c") (an "c") eargs0;
   CConnect 0 (an "a") (an "d") eargs0; CDisconnect 5;
   CConnect 1 (an "a") (an "z") eargs0].
Definition sample : heap := Eval vm_compute in run sample_calls empty_heap.
Lemma sample_eq : sample = run sample_calls empty_heap.
Proof. vm_compute. reflexivity. Qed.
Lemma sample_reachable : reachable sample.
Proof.
  rewrite sample_eq. apply run_reachable; [constructor|]. vm_compute. repeat (split; [by repeat split|]). done.
Qed.

(** A graph from the names and the edges. *)
Definition graph_calls (ns : list string) (es : list (string * string)) : list call :=
  CNew false true disp0 :: ((λ s, CAddNode 0 (an s) nargs0) <$> ns) ++
  ((λ st, CConnect 0 (an st.1) (an st.2) eargs0) <$> es).

(** Decidable closed goals by computation. *)
Ltac dec := apply (bool_decide_unpack _); vm_compute; exact I.

Ltac reach := apply run_reachable; [constructor|]; vm_compute; repeat (split; [by repeat split|]); done.

(** The same for programs that also call Node(graph, ...). *)
Ltac allow1 := first [by vm_compute; repeat split | split; [by vm_compute|]; eexists; split; [by vm_compute; reflexivity|dec]].
Ltac reach_ctor := apply run_reachable; [constructor|]; unfold graph_calls; cbn [app fmap list_fmap all_allowed]; repeat (split; [allow1|]); exact I.

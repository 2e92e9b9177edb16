(** Capitals and small letters of the model and of the specification agree. *)
From Verif Require Export SpecDot ModelStylize.
Local Open Scope string_scope.

Lemma upper_capitals s : upper s = capitals s.
Proof. induction s as [|c s IH]; [done|]. cbn [upper capitals]. rewrite IH. f_equal. by destruct c as [[] [] [] [] [] [] [] []]. Qed.
Lemma lower_smalls s : lower s = smalls s.
Proof. induction s as [|c s IH]; [done|]. cbn [lower smalls]. rewrite IH. f_equal. by destruct c as [[] [] [] [] [] [] [] []]. Qed.

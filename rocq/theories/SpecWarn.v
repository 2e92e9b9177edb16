(** Specification of the warnings issued by calls (C86).  Refers to calls and arguments only,
    not to the functions of the model. *)
From Verif Require Export Ops.
Local Open Scope string_scope.

(** The calls that may name a node or an edge that exists already; every other call is silent. *)
Definition may_repeat (c : call) : bool :=
  match c with
  | CAddNode _ (AName (NStr _)) _ | CConnect _ _ _ _ | CConnectTo _ _ _ | CConnectFrom _ _ _
  | CFromLists _ _ _ _ _ | CFromText _ _ _ _ | CRandom _ _ _ _ _ _ _ _
  | CFromObject _ _ _ _ _ _ _ _ _ _ | CAppend _ _ | CAppendAll _ _ | CGraphOf _ _ _ _ | CFromDict _ _ | CAdd _ _ _ _ _ => true
  | _ => false
  end.
(** Warnings that a dictionary given to append may cause: about nodes it lists and edges it
    lists, unless their entries say otherwise. *)
Definition given_warning (d : grepr) (w : warning) : Prop :=
  match w with
  | WNode k => match r_nodes d with inl nd => ∃ a, (k, a) ∈ nd ∧ a_mode a = "warn" | inr ns => k ∈ ns end
  | WEdge i => (∃ p c, E2 p c ∈ r_edges d ∧ i.2 = RId None) ∨ (∃ p c a, E3 p c a ∈ r_edges d ∧ i.2 = RId (c_id a) ∧ c_mode a = "warn")
  end.

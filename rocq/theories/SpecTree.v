(** Specification of the printed tree (C22): a forest of lines, how it is printed,
    and which lines it has.  Uses no function of the model except the three box
    characters and [node_children] (the list of children, see C13). *)
From Verif Require Export ModelQuery Spec.
Local Open Scope string_scope.
Local Open Scope list_scope.

(** A forest in first-child / next-sibling form; one [FCons] per printed line: the
    node, whether it is starred, the lines below it, and the following siblings. *)
Inductive forest := FNil | FCons (r : nref) (starred : bool) (below next : forest).

(** The nodes of the top-level lines. *)
Fixpoint tops (f : forest) : list nref :=
  match f with FNil => [] | FCons r _ _ next => r :: tops next end.
(** All lines from top to bottom. *)
Fixpoint lines (f : forest) : list (nref * bool) :=
  match f with FNil => [] | FCons r b below next => (r, b) :: lines below ++ lines next end.
(** The nodes with lines below them. *)
Fixpoint expanded (f : forest) : list nref :=
  match f with
  | FNil => []
  | FCons r _ below next => (match below with FNil => [] | _ => [r] end) ++ expanded below ++ expanded next
  end.
(** A starred line has nothing below; below an unstarred line are the children. *)
Fixpoint faithful (h : heap) (f : forest) : Prop :=
  match f with
  | FNil => True
  | FCons r b below next =>
      (if b then below = FNil else node_children h r = Ok (tops below)) ∧ faithful h below ∧ faithful h next
  end.
(** The text of the lines below a node, [indent] being the indentation of that node. *)
Fixpoint print_below (lbl : nref → string) (indent : string) (f : forest) : string :=
  match f with
  | FNil => ""
  | FCons r b below next =>
      let last := match next with FNil => true | _ => false end in
      indent +:+ (if last then CORNER else TWO_WAY) +:+ " " +:+ lbl r +:+ (if b then "*" else "") +:+ NL +:+
      print_below lbl (indent +:+ (if last then "  " else VERTICAL +:+ " ")) below +:+
      print_below lbl indent next
  end.
(** The texts of the top-level trees. *)
Fixpoint print_trees (lbl : nref → string) (f : forest) : list string :=
  match f with
  | FNil => []
  | FCons r b below next => (lbl r +:+ (if b then "*" else "") +:+ NL +:+ print_below lbl "" below) :: print_trees lbl next
  end.

(** Results, exceptions and Python dictionaries.

    Nothing here models a particular function of /repo; these are the Python
    notions (exceptions, [dict] in insertion order, [list] containment) the
    model is written in. *)
From Coq Require Export QArith Ascii.
From stdpp Require Export prelude strings pretty numbers.
From stdpp Require Export base list.
#[global] Open Scope nat_scope.

(** Exceptions the code raises or provokes (raise statements: _BasicGraph.py:231,
    251, 285, 311-321, 699, 710, 716; Node.py:71, 80, 266, 272, 402; Edge.py:66, 75,
    122, 124, 172, 187, 193; _GraphObj.py:95, 127-140; _GraphWithoutDisplay.py:429,
    480, 482; parse_indentations_function.py:29, 34; NodeStyle.py:52; EdgeStyle.py:47;
    the others come from built-in operations).  [OutOfFuel] is not a Python
    exception: it is what a fuelled traversal returns when its fuel is used up.
    [Unmodelled] marks inputs outside the model (for instance a reference that
    denotes no object). *)
Inductive exn :=
  | KeyError | ValueError | TypeError | RuntimeError | AttributeError
  | UnboundLocalError | IndexError | OutOfFuel | Unmodelled.
#[global] Instance exn_eq_dec : EqDecision exn.
Proof. solve_decision. Defined.

(** Outcome of a call that may raise.  Python semantics, no lines of its own: every raise
    statement of /repo/abstract. *)
Inductive res (A : Type) := Ok (a : A) | Err (x : exn).
Arguments Ok {A} a.
Arguments Err {A} x.

(** Python semantics, no lines of its own: a statement that raises skips the rest of its
    function. *)
Definition rbind {A B} (m : res A) (k : A → res B) : res B :=
  match m with Ok a => k a | Err x => Err x end.
Notation "'let!' x ':=' m 'in' k" := (rbind m (λ x, k))
  (at level 200, x pattern, m at level 100, k at level 200, only parsing).

(** Python semantics, no lines of its own: the call returned normally. *)
Definition is_ok {A} (m : res A) : bool := match m with Ok _ => true | Err _ => false end.

(** [[f x for x in l]] where [f] may raise.  Python semantics; e.g. _BasicGraph.py:407. *)
Fixpoint rmap {A B} (f : A → res B) (l : list A) : res (list B) :=
  match l with
  | [] => Ok []
  | x :: l' => let! y := f x in let! ys := rmap f l' in Ok (y :: ys)
  end.

(** [[x for x in l if f x]] where [f] may raise.  Python semantics; e.g. _BasicGraph.py:440. *)
Fixpoint rfilter {A} (f : A → res bool) (l : list A) : res (list A) :=
  match l with
  | [] => Ok []
  | x :: l' => let! b := f x in let! ys := rfilter f l' in
               Ok (if (b : bool) then x :: ys else ys)
  end.

(** A read-only loop with local variables whose body may raise.  Python semantics; e.g. _BasicGraph.py:353-356. *)
Fixpoint rfold {A B} (f : B → A → res B) (b : B) (l : list A) : res B :=
  match l with
  | [] => Ok b
  | x :: l' => let! b' := f b x in rfold f b' l'
  end.

(** Python [dict]: association list in insertion order; e.g. _BasicGraph.py:25. *)
Definition dict (K V : Type) := list (K * V).

Section dict.
  Context {K V : Type} `{EqDecision K}.

  (** [d.get(k)], the lookup behind [k in d] and [d[k]].  Python semantics; e.g.
      _BasicGraph.py:227, 279. *)
  Fixpoint dget (d : dict K V) (k : K) : option V :=
    match d with
    | [] => None
    | (k', v) :: d' => if decide (k = k') then Some v else dget d' k
    end.

  (** [d[k] = v]: an existing key keeps its position.  E.g. _BasicGraph.py:301, Node.py:201. *)
  Fixpoint dset (d : dict K V) (k : K) (v : V) : dict K V :=
    match d with
    | [] => [(k, v)]
    | (k', v') :: d' => if decide (k = k') then (k', v) :: d' else (k', v') :: dset d' k v
    end.

  (** [del d[k]] (of a present key).  E.g. _BasicGraph.py:333, Node.py:214. *)
  Fixpoint ddel (d : dict K V) (k : K) : dict K V :=
    match d with
    | [] => []
    | (k', v') :: d' => if decide (k = k') then d' else (k', v') :: ddel d' k
    end.

  (** [k in d].  Python semantics; e.g. _BasicGraph.py:279, 306, 690. *)
  Definition dmem (d : dict K V) (k : K) : bool :=
    match dget d k with Some _ => true | None => false end.

  (** [d.update(d2)].  E.g. _GraphWithoutDisplay.py:630, 633. *)
  Definition dupdate (d d2 : dict K V) : dict K V :=
    fold_left (λ acc kv, dset acc kv.1 kv.2) d2 d.
End dict.

(** [d.keys()] in insertion order.  Python semantics; e.g. _BasicGraph.py:91,
    Node.py:160-168. *)
Definition dkeys {K V} (d : dict K V) : list K := map fst d.
(** [d.values()] in insertion order.  Python semantics; e.g. _BasicGraph.py:211,
    Node.py:433. *)
Definition dvals {K V} (d : dict K V) : list V := map snd d.

(** [d[k]] on a dictionary: raises KeyError when absent.  E.g. _BasicGraph.py:227. *)
Definition dgetR {K V} `{EqDecision K} (d : dict K V) (k : K) : res V :=
  match dget d k with Some v => Ok v | None => Err KeyError end.

(** [==] and [is] on the values of the model (names, ids, references).  Python semantics; e.g. _BasicGraph.py:308. *)
Definition eqb {A} `{EqDecision A} (x y : A) : bool := bool_decide (x = y).

(** [relatives[x] = 1] seen as the list of keys, _BasicGraph.py:81-88. *)
Definition add_new {A} `{EqDecision A} (acc : list A) (x : A) : list A :=
  if decide (x ∈ acc) then acc else acc ++ [x].
(** The keys of a dict filled from [l] (first occurrences); used for the dict [relatives],
    _BasicGraph.py:77-88, and for the memo of deepcopy, _BasicGraph.py:62. *)
Definition nub {A} `{EqDecision A} (l : list A) : list A := fold_left add_new l [].

(** The module-level traversals over objects with [__children__] /
    [__parents__] methods.  Models /repo/abstract/get_descendants.py and
    /repo/abstract/get_ancestors.py. *)
From Verif Require Export Heap.

Section traverse.
  (** The objects; [==] on them is modelled as equality. *)
  Context {Obj : Type} `{EqDecision Obj}.

  (** The pair a traversal returns, with the shared list [_objects_travelled] after it,
      get_descendants.py:3, 20-21. *)
  Definition trav_out : Type := list Obj * dict nat (list Obj) * list Obj.

  (** [x in l], get_descendants.py:29, 30, 37. *)
  Definition obj_in (x : Obj) (l : list Obj) : bool := bool_decide (x ∈ l).

  (** get_descendants.py:36-40, get_ancestors.py:36-40 *)
  Fixpoint obj_merge (sub : list Obj) (subd : dict nat (list Obj))
      (acc : list Obj) (accd : dict nat (list Obj)) : list Obj * dict nat (list Obj) :=
    match sub with
    | [] => (acc, accd)
    | x :: sub' =>
        if obj_in x acc then obj_merge sub' subd acc accd
        else obj_merge sub' subd (acc ++ [x])
               (fold_left (λ d kv, dset d (S kv.1) kv.2) subd accd)
    end.

  (** [descendants_dict[1]], get_descendants.py:32. *)
  Definition obj_dget (d : dict nat (list Obj)) (k : nat) : list Obj :=
    match dget d k with Some l => l | None => [] end.

  (** get_descendants.py:28-40, get_ancestors.py:28-40 *)
  Fixpoint obj_loop (rec : Obj → list Obj → res trav_out) (cs : list Obj)
      (des : list Obj) (dd : dict nat (list Obj)) (trav : list Obj) : res trav_out :=
    match cs with
    | [] => Ok (des, dd, trav)
    | c :: cs' =>
        if obj_in c trav then obj_loop rec cs' des dd trav
        else
          let '(des, dd) := if obj_in c des then (des, dd)
                            else (des ++ [c], dset dd 1 (obj_dget dd 1 ++ [c])) in
          let! (ca, cd, trav) := rec c trav in
          let '(des, dd) := obj_merge ca cd des dd in
          obj_loop rec cs' des dd trav
    end.

  (** [_get_descendants], get_descendants.py:3-41, with [next] = [__children__];
      [_get_ancestors], get_ancestors.py:3-41, is the same code with
      [__parents__].  Python's recursion limit is not modelled: running out of
      [fuel] stands for a recursion that goes on. *)
  Fixpoint obj_dfs (fuel : nat) (next : Obj → list Obj) (limit : option Z) (o : Obj)
      (trav : list Obj) : res trav_out :=
    match fuel with
    | 0 => Err OutOfFuel
    | S fuel =>
        if match limit with Some d => (d <=? 0)%Z | None => false end
        then Ok ([], [], trav)
        else
          let limit := match limit with Some d => Some (d - 1)%Z | None => None end in
          let trav := trav ++ [o] in
          match next o with
          | [] => Ok ([], [], trav)
          | cs => obj_loop (λ c t, obj_dfs fuel next limit c t) cs [] [(1, [])] trav
          end
    end.

  (** get_descendants / get_ancestors with [distance=False] and [distance=True],
      get_descendants.py:44-60, get_ancestors.py:44-60 *)
  Definition obj_relatives (fuel : nat) (next : Obj → list Obj) (limit : option Z) (o : Obj)
      : res (list Obj) :=
    let! out := obj_dfs fuel next limit o [] in Ok out.1.1.
  (** get_descendants / get_ancestors with distance=True, get_descendants.py:57-58,
      get_ancestors.py:57-58. *)
  Definition obj_relatives_dist (fuel : nat) (next : Obj → list Obj) (limit : option Z) (o : Obj)
      : res (dict nat (list Obj)) :=
    let! out := obj_dfs fuel next limit o [] in Ok out.1.2.
End traverse.

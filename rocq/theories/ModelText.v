(** str of nodes and edges, and the name of the file that render(path) writes. *)
From Verif Require Export ModelShow.
Local Open Scope string_scope.

(** Node.__str__ and __repr__, Node.py:239-245 *)
Definition node_str (h : heap) (r : nref) : res string :=
  let! N := get_n h r in Ok ("Node:" +:+ name_str (n_id N)).
(** Edge.__str__ and __repr__, Edge.py:128-134 (the properties [start] and [end], lines
    161-189, raise ValueError after remove_self) *)
Definition edge_str (h : heap) (e : eref) : res string :=
  let! s := edge_start h e in
  let! t := edge_end h e in
  let! a := node_str h s in
  let! b := node_str h t in
  Ok ("Edge:" +:+ a +:+ "-" +:+ b).

(** [str.rfind] of a character: the last position, Python; used by [os.path.splitext]. *)
Fixpoint rfind (c : ascii) (s : string) : option nat :=
  match s with
  | EmptyString => None
  | String d s => match rfind c s with
                  | Some i => Some (S i)
                  | None => if Ascii.eqb d c then Some 0 else None
                  end
  end.
(** Is some character of [s] not a dot? *)
Fixpoint not_only_dots (s : string) : bool :=
  match s with EmptyString => false | String d s => negb (Ascii.eqb d ".") || not_only_dots s end.
(** [os.path.splitext] as called in _GraphWithoutDisplay.py:727 (Python's genericpath._splitext for POSIX:
    the last dot splits if it is behind the last slash and the name before it does not
    consist of dots only). *)
Definition splitext (p : string) : string * string :=
  match rfind "." p with
  | None => (p, "")
  | Some d =>
      let from := match rfind "/" p with Some i => S i | None => 0 end in
      if Nat.leb from d && not_only_dots (String.substring from (d - from) p)
      then (String.substring 0 d p, String.substring d (String.length p - d) p)
      else (p, "")
  end.
(** The file that [to_save.render(filename=filename, view=view)], _GraphWithoutDisplay.py:727-732, writes.
    [output_format] is computed in line 728 and handed to get_graphviz_source, which does not
    use it (lines 770-799), so the Source has the default format of the graphviz package,
    pdf, which that package appends to the file name.  Simplification: [filename] is not
    empty, and neither GRAPHVIZ settings nor the default format of the package are changed. *)
Definition saved_file (path : string) : string := (splitext path).1 +:+ ".pdf".

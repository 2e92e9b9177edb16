(** parse_indentations.  Models /repo/abstract/parse_indentations_function.py.
    Strings are sequences of characters 0..255 (Latin-1); characters above are
    outside the model. *)
From Verif Require Export Base.
Local Open Scope string_scope.
Local Open Scope list_scope.

(** The newline of parse_indentations_function.py:20. *)
Definition newline : ascii := "010"%char.
(** The tab of parse_indentations_function.py:22-23. *)
Definition tab : ascii := "009"%char.
(** The space of parse_indentations_function.py:22-25. *)
Definition space : ascii := " "%char.

(** Characters matched by [\s] in a Python str pattern, parse_indentations_function.py:16. *)
Definition is_space (c : ascii) : bool :=
  let n := nat_of_ascii c in
  (Nat.leb 9 n && Nat.leb n 13) || (Nat.leb 28 n && Nat.leb n 32) || Nat.eqb n 133 || Nat.eqb n 160.

(** [line.rstrip] of newlines, parse_indentations_function.py:20 *)
Fixpoint rstrip_nl (s : string) : string :=
  match s with
  | "" => ""
  | String c s' => match rstrip_nl s' with
                   | "" => if eqb c newline then "" else String c ""
                   | r => String c r
                   end
  end.

(** The leading run of characters satisfying [p], parse_indentations_function.py:16, 23. *)
Fixpoint take_while (p : ascii → bool) (s : string) : string :=
  match s with
  | "" => ""
  | String c s' => if p c then String c (take_while p s') else ""
  end.
(** The rest after the leading run, as [lstrip] leaves it,
    parse_indentations_function.py:25. *)
Fixpoint drop_while (p : ascii → bool) (s : string) : string :=
  match s with
  | "" => ""
  | String c s' => if p c then drop_while p s' else s
  end.

(** [c in s], for [lstrip(indent)], parse_indentations_function.py:25. *)
Fixpoint char_in (c : ascii) (s : string) : bool :=
  match s with "" => false | String d s' => eqb c d || char_in c s' end.

(** [s.replace(old, new, count)], parse_indentations_function.py:25, for non-empty [old] (left to right, at most
    [count] replacements); [skip] counts characters of the current occurrence
    still to be dropped.  For empty [old] the caller has [count = 0]. *)
Fixpoint replace_n (old new : string) (count skip : nat) (s : string) : string :=
  match s with
  | "" => ""
  | String c s' =>
      match skip with
      | S k => replace_n old new count k s'
      | 0 => match count with
             | S n => if String.prefix old s then new +:+ replace_n old new n (String.length old - 1) s'
                      else String c (replace_n old new count 0 s')
             | 0 => String c (replace_n old new 0 0 s')
             end
      end
  end.

(** The group [(?: {4})*] of parse_indentations_function.py:16, greedy: number of blocks of four spaces, and the rest.
    (Giving back a block leaves a space, which [\S] does not match, so
    backtracking never helps.) *)
Fixpoint strip4 (s : string) : nat * string :=
  match s with
  | String a (String b (String c (String d s'))) =>
      if eqb a space && eqb b space && eqb c space && eqb d space
      then let '(k, r) := strip4 s' in (S k, r) else (0, s)
  | _ => (0, s)
  end.

(** The regular expression of parse_indentations_function.py:16: level and content, or no match. *)
Definition match_line (s : string) : option (nat * string) :=
  let '(k, r) := strip4 s in
  match r with
  | String c r' => if is_space c then None else Some (k, take_while (λ d, negb (eqb d newline)) r)
  | "" => None
  end.

(** The replacement text of parse_indentations_function.py:25. *)
Definition four_spaces : string := "    ".

(** One yielded tuple (index, level, content, parent), parse_indentations_function.py:39. *)
Definition pline : Type := nat * nat * string * option nat.

(** Local variables of the generator, parse_indentations_function.py:17-39: the indent, [level] (unbound at first),
    [stack]. *)
Record pstate := MkPState { p_indent : option string; p_level : option nat; p_stack : list nat }.

(** One iteration, parse_indentations_function.py:19-39. *)
Definition parse_line (st : pstate) (index : nat) (line : string) : res (pstate * pline) :=
  let line := rstrip_nl line in
  (* lines 21-23 *)
  let indent :=
    match p_indent st with
    | Some i => Some i
    | None => match line with
              | String c _ => if eqb c tab || eqb c space
                              then Some (take_while (λ c, eqb c space || eqb c tab) line) else None
              | "" => None
              end
    end in
  (* lines 24-25 *)
  let line := match indent with
              | Some i => replace_n i four_spaces
                            (String.length line - String.length (drop_while (λ c, char_in c i) line)) 0 line
              | None => line
              end in
  match line with
  | String _ _ =>
      match match_line line with
      | None => Err ValueError
      | Some (level, content) =>
          if Nat.ltb (length (p_stack st)) level then Err ValueError
          else
            let stack := take level (p_stack st) ++ [index] in
            match level with
            | 0 => Ok (MkPState indent (Some level) stack, (index, level, content, None))
            | S l => match stack !! l with
                     | Some p => Ok (MkPState indent (Some level) stack, (index, level, content, Some p))
                     | None => Err IndexError
                     end
            end
      end
  | "" =>
      match p_level st with
      | None => Err UnboundLocalError
      | Some level =>
          match level with
          | 0 => Ok (MkPState indent (Some level) (p_stack st), (index, level, "", None))
          | S l => match p_stack st !! l with
                   | Some p => Ok (MkPState indent (Some level) (p_stack st), (index, level, "", Some p))
                   | None => Err IndexError
                   end
          end
      end
  end.

(** The loop of parse_indentations_function.py:19-39. *)
Fixpoint parse_loop (st : pstate) (index : nat) (lines : list string) : res (list pline) :=
  match lines with
  | [] => Ok []
  | line :: lines' =>
      let! (st, out) := parse_line st index line in
      let! outs := parse_loop st (S index) lines' in
      Ok (out :: outs)
  end.

(** parse_indentations, parse_indentations_function.py:5-39.  The generator is
    run to its end (or to its exception). *)
Definition parse_indentations (lines : list string) (indent : option string) : res (list pline) :=
  parse_loop (MkPState indent None []) 0 lines.

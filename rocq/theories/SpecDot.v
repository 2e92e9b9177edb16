(** Reading DOT text: double-quoted strings, and the statements of a graph. *)
From Verif Require Export Spec ModelDot.
Local Open Scope string_scope.

(** The character [c] is one of [a] to [b]. *)
Definition in_range (a b c : ascii) : bool := Nat.leb (nat_of_ascii a) (nat_of_ascii c) && Nat.leb (nat_of_ascii c) (nat_of_ascii b).
(** Letters in capitals. *)
Fixpoint capitals (s : string) : string :=
  match s with
  | "" => ""
  | String c s => String (if in_range "a" "z" c then ascii_of_nat (nat_of_ascii c - nat_of_ascii "a" + nat_of_ascii "A") else c) (capitals s)
  end.
(** Letters in small letters. *)
Fixpoint smalls (s : string) : string :=
  match s with
  | "" => ""
  | String c s => String (if in_range "A" "Z" c then ascii_of_nat (nat_of_ascii c - nat_of_ascii "A" + nat_of_ascii "a") else c) (smalls s)
  end.

(** Graphviz' scanner after an opening double quote: backslash-quote is a quote, two
    backslashes stay two backslashes, backslash-newline is skipped, other characters
    stand for themselves, up to the closing quote.  Gives the text and what follows. *)
Definition cons1 (c : ascii) (p : string * string) : string * string := (String c p.1, p.2).
Fixpoint read_str (s : string) : option (string * string) :=
  match s with
  | "" => None
  | String c s' =>
      if decide (c = quote) then Some ("", s')
      else if decide (c = backslash) then
        match s' with
        | "" => None
        | String d s'' =>
            if decide (d = quote) then cons1 quote <$> read_str s''
            else if decide (d = backslash) then (λ p, cons1 backslash (cons1 backslash p)) <$> read_str s''
            else if decide (d = "010"%char) then read_str s''
            else (λ p, cons1 backslash (cons1 d p)) <$> read_str s''
        end
      else cons1 c <$> read_str s'
  end.
(** A quoted identifier or attribute value. *)
Definition read_quoted (s : string) : option (string * string) :=
  match s with String c s' => if decide (c = quote) then read_str s' else None | "" => None end.
(** No backslash stands (as the first of a pair) before a quote, a line end, or at
    the end. *)
Fixpoint safe (s : string) : Prop :=
  match s with
  | "" => True
  | String c s' =>
      if decide (c = backslash) then
        match s' with "" => False | String d s'' => d ≠ quote ∧ d ≠ "010"%char ∧ safe s'' end
      else safe s'
  end.
(** Neither quotes nor backslashes. *)
Fixpoint plain (s : string) : Prop :=
  match s with "" => True | String c s' => c ≠ quote ∧ c ≠ backslash ∧ plain s' end.

(** The text that Node.label shows: the label if there is one, else the name. *)
Definition label_text (env : penv) (h : heap) (N : node) : string :=
  if truthy (n_label N) then pv_str env h (n_label N) else name_str (n_id N).
(** The text at an edge: its label if there is one, else its value, if any. *)
Definition edge_text (E : edge) : pv := match e_label E with PNone => e_value E | l => l end.

(** A node statement and an edge statement, as written and as read. *)
Definition node_written (s id : string) : Prop := ∃ attrs, s = Qt +:+ id +:+ Qt +:+ " [label=" +:+ attrs +:+ "]".
Definition edge_written (s x y : string) : Prop := ∃ rest, s = Qt +:+ x +:+ Qt +:+ " -> " +:+ Qt +:+ y +:+ Qt +:+ rest ∧
  (rest = "" ∨ ∃ attrs, rest = "[" +:+ attrs +:+ "]").
Definition node_read (s id : string) : Prop := ∃ attrs, read_quoted s = Some (id, " [label=" +:+ attrs +:+ "]").
Definition edge_read (s x y : string) : Prop := ∃ mid rest, read_quoted s = Some (x, " -> " +:+ mid) ∧ read_quoted mid = Some (y, rest) ∧
  (rest = "" ∨ ∃ attrs, rest = "[" +:+ attrs +:+ "]").
(** The whole text: header, a block with the node statements, the edge statements. *)
Definition dot_text (header : string) (ns es : list string) : string :=
  header +:+ (TAB +:+ "{" +:+ NL +:+ TAB +:+ TAB +:+ String.concat (NL +:+ TAB +:+ TAB) ns +:+ NL +:+ TAB +:+ "}" +:+ NL)
  +:+ (TAB +:+ String.concat (NL +:+ TAB) es +:+ NL) +:+ "}".
(** The text starts as that of a strict or of another directed graph. *)
Definition starts_strict (strict : bool) (s : string) : Prop := ∃ t, s = (if strict then "strict digraph G {" else "digraph G{") +:+ NL +:+ t.
(** The graph label, if any, is text and has a location. *)
Definition title_ok (D : display) : Prop := d_label D = PNone ∨ ∃ l c loc, d_label D = PStr l ∧ d_label_location D = PStr (String c loc).

# Formal model of idin/abstract in Rocq (Coq 8.16.1)

Generated by `tools/mk_design.py` from `tools/design_head.md`, the property list, the
manifest and the comments above the theorems.

## 1. Approach

The code is a small in-memory graph library: mutable `Graph`, `Node`, `Edge` and style
objects that refer to each other.  The model is an executable Gallina program over an
explicit heap, written function by function; every definition cites the lines it models.

* A heap holds lists of node, edge, graph and style records; a reference is a position in
  its list, allocation appends, so references are never reused (object identity).
* Python dicts are association lists in insertion order (`Base.v`).
* Every method is a function returning `Ok v` or `Err exn`; mutating methods have type
  `heap -> heap * res A`, so the heap *after an exception* is part of the result
  (partial updates are visible).
* Recursive traversals carry fuel and return the distinct error `OutOfFuel` when it runs
  out; the theorems show that this value never occurs.
* What Python or other packages leave open (iteration order of a `set`, the random stream,
  `shuffle`, the colour arithmetic of the package `colouration`, `str` of floats and
  colours, user-supplied label converters and `__children__` methods) is a universally
  quantified argument or an uninterpreted term.

Properties about histories are stated over `reachable h` (`Ops.v`): the heap is reached
from the empty heap by any finite sequence of public calls, each of which may raise; an
exception ends the call, not the program.  There is no bound on the number of objects or
calls.  `history P h h'` is the corresponding relation between two moments.

Specifications are in `Spec*.v`.  They speak about objects, ids, directed paths, lines of
text and closed-form heaps, not about the traversal helpers of the model.  Beside each
theorem there is an `Example ..._ex` that runs a concrete, non-trivial case through the
hypotheses.

Where the code violates a property, the full statement is kept, its negation is proved on a
concrete reachable heap (`..._refuted : exists ...`) and the strongest true part is proved
(`..._partial`; the comment says what is missing).  Such properties have status `partial`.

### Files

| files | content |
|-------|---------|
| `Base`, `Heap` | results, exceptions, dicts, objects, heap, state monad |
| `ModelStyle`, `ModelCore`, `ModelQuery`, `ModelTraverse`, `ModelParse`, `ModelBuild`, `ModelStylize`, `ModelDot`, `ModelObj`, `ModelMore`, `ModelShow`, `ModelText`, `ModelReset` | the model, no proofs |
| `Ops` | public calls, reachable heaps |
| `Spec*` | specifications |
| `Proof*` | proofs; `ProofCn` contains the lemmas `Cnn_..._proof` |
| `Prop_Cn` | the property theorems and nothing else, each closed by `exact`, with `Print Assumptions` |
| `Samples` | concrete programs used in the examples |
| `RepoTests` | the unit tests of the project, run on the model |

`tools/mk_prop.py` writes the `Prop_*` files and the manifest from the lemmas.

## 2. Trusted base

* The Coq 8.16.1 kernel (and `vm_compute`, which is used in the examples and refutations).
* `Print Assumptions` under every property theorem prints *Closed under the global
  context*: no axiom is used, neither of the standard library nor another one.  (Loading
  std++ also loads the 7 parameters of `Coq.ssr.ssrunder.Under_rel`; no theorem depends
  on them.)
* std++ and coq-record-update, as ordinary libraries of checked proofs and definitions.
* The model: that the definitions of `Model*.v` and `Ops.v` do what the cited lines do.
  Nothing checks this mechanically, except that the unit tests of the project
  (`abstract/test`, all but `test_add_child`, which stores a node as an edge) are run on
  the model in `RepoTests.v`.

### What is modelled

| code | model |
|------|-------|
| `_BasicGraph.py` (all methods) | `ModelCore`, `ModelQuery`, `ModelBuild` |
| `Node.py`, `Edge.py`, `_GraphObj.py` | `ModelCore`, `ModelQuery`, `ModelDot`, `ModelMore`, `ModelText` |
| `_GraphWithoutDisplay.py` | `ModelBuild` (append, `__graph__`, add, constructors), `ModelStylize`, `ModelDot`, `ModelMore`, `ModelText` |
| `get_ancestors.py`, `get_descendants.py` | `ModelTraverse` |
| `parse_indentations_function.py` | `ModelParse` |
| `Graph.py` | `ModelShow`: the text handed to Graphviz |
| `styling/*.py` | `ModelStyle`, `ModelStylize`, `ModelObj`, `ModelReset` (style objects in the hands of a program), `ModelMore` (stylists called with templates) |

### What is not modelled

* Graphviz, IPython and writing files: only the DOT text that is handed to
  `graphviz.Source` is modelled.
* The packages `colouration` (colours are uninterpreted terms; equal terms denote equal
  colours, nothing is said about unequal ones), `graphviz`, `base32hex`, `pensieve`.
* Rounding: floats are exact rationals.
* Names are `str` or `int` (`bool` is not told apart from `int`); values and labels are
  None, int, float, str, Colour, or the bound method that `__graph__` stores.
* Strings are sequences of Latin-1 characters; `lower`/`upper` on ASCII letters.
* Python's recursion limit and memory; `warnings` turned into errors by a filter.
* Writing private attributes from outside, and calls that pass a style object that does not
  exist.  `reset_colours` is modelled for itself (C88) but not among the calls of a
  history.  A direct `Node(...)`/`Edge(...)` with
  a name/id that is already in use, and the methods of Node that file a single edge end,
  are modelled but not among the calls of a history (`allowed` in `Ops.v`), because they
  leave an inconsistent graph; this is proved in C87.

Inputs outside the model give the error `Unmodelled`; theorems that claim success or a
particular exception therefore exclude it.

## 3. Findings (where model and documentation of the code disagree)

All of these are proved, as `_refuted` theorems or in the exact statements:

* the distance dictionaries are neither shortest nor complete (C21), `max_depth` cuts off
  too much (C49);
* a graph with a styled node, for instance a rendered one, cannot be copied (C24), and a
  copy cannot be styled or rendered (C25), because the copy protocol misses attributes;
* `filter` ignores its direction (C26: the test at _BasicGraph.py:82, 86 is always true);
* `from_object` raises for every integer hash, and for string hashes as soon as an object
  is listed before one of its parents (C28);
* an indent unit of several characters is also replaced inside the text (C29);
* appending a Graph, or adding graphs, fails as soon as there is an edge (C32, C34:
  `edge.raw_label` does not exist, _GraphWithoutDisplay.py:541), labels become bound
  methods (C33), the second value is counted twice (C35, line 651), and the left operand
  takes over style overwrites (C36, line 491 also stores them in the wrong dictionary);
* `is_similar_to` raises KeyError instead of returning False (C37);
* `!=` on edges compares only the extra id (C38);
* `add_node`/`connect` that raise may have changed label, style or index counter (C40);
* the default stylist fails on a cycle below a non-cyclic node (C42), arrow sizes
  accumulate over the edges (C45), a second rendering fails with a style dictionary or the
  random stylist (C55);
* style copies forget `lighter_fill` (C56) and the label style (C57);
* backslashes in labels, and quotes in names and edge labels, are not escaped in DOT (C46,
  C58);
* `node in graph` raises for the nodes of the graph (C50), `strict` is ignored by `connect`
  (C51), a removed node that is added back has no graph (C52);
* a removed edge can no longer be hashed (C61); assigning `raw_id` leaves the dictionaries
  of the graph under the old key (C63);
* the header says `ordering=out` for the graphs that were made with `ordering=False` (C66);
* a styled node that has parents hands down its parents' colour, not its own, and the
  colours of several parents are computed anew, without divergence, so they are not
  the colours the parents are drawn in (C67);
* `node_styles={n: {'colour': c}}` changes nothing that is drawn, and shows on all nodes
  that share the style object (C68); with the default stylist `node_colours`,
  `edge_colours` and `edge_styles` always raise RuntimeError unless overwriting is
  allowed, and the edges keep the shade of the old colour (C69); `append` files the
  'edge_styles' under the colours (_GraphWithoutDisplay.py:491);
* with the random stylist (C70) or a style for all nodes (C71) a second `stylize()` raises;
  a style for all nodes loses the colours of the stylist, and shape 'auto' is passed on
  to Graphviz literally if some name is longer than two characters (C71);
* `graph.get_edges` lists a loop twice, `node.edges` once (C72);
* `invert_colours` forgets `lighter_fill`, the label style, and colours assigned after
  the style was made (C73);
* `complement` with an unknown name raises after the entries before it were assigned, and
  assigning the main colour of a style changes nothing that is drawn (C79);
* with a template style the stylists take the colours of branches from the template, not
  from the parent, and lose `lighter_fill` and the label style of the template (C80);
* with a loop above a node the distance dictionaries repeat ancestors at growing
  distances (C21);
* `render(path='g.png')` writes g.pdf: the format is computed and dropped
  (_GraphWithoutDisplay.py:728, 799), and `dpi` is ignored (C84);
* `str` of a removed edge raises ValueError (C85);
* `Node(graph, name)` with a name in use replaces the node but not its edges, a second
  `Edge` with the same id detaches the first, and removing the first then removes the
  second (C87).

## 4. Tests of the theorems

`seeded/LOG.jsonl` lists the wrong programs tried: a realistic bug is put into the model, in
a copy outside this repository; everything is rebuilt; a proof that fails is admitted in
the copy, and so on until all theorems are there; then `Print Assumptions` tells which
theorems depend on an admitted proof.  The log distinguishes three cases:

* `failed_in_own_proof`: all lemmas below still hold, the proof of the theorem itself fails;
* `failed_through_lemma`: the theorem depends on a helper lemma that fails.  This alone does
  not show that the statement of the theorem is false (control mutants that change nothing
  observable also break helper lemmas), so these statements were read against the
  mutant; the reason why they are false is given in the field `by_inspection`;
* `claims_theorems_still_proved`.

Where a claim had become false but none of its theorems, a theorem was added or
strengthened (`theorems_tightened`).

What this evidence is worth: the field `evidence` says whether a counterexample was computed on
the edited model or the statements were only read.  Most verdicts of failures through a
lemma come from reading alone.  A check of such verdicts by computation found wrong
ones among them (a mutant that is equivalent to the code, t503; reasons that were not the
actual ones, c506, z404; claims that a mutant does not break), which were
corrected; others may remain.  A theorem in `theorems_tightened` without a later entry for the
same edit (names ending in r or r6) has not been run against the mutant.  One cause of missed
bugs was a specification that used a function of the model (d407); the specifications were
searched for these, and those that remain (`name_str`, `pv_str`, `to_colour`, `mix`) are given by
equations in C46_texts, C71_colour_given and C67_ingredients.  Still shared with the model:
the style constructors in SpecOps, `get_least_used_colour` in SpecStyle, and `node_children`,
`node_parents` and `get_child_rank` in SpecMore, SpecTemplate and SpecTree, which have
theorems of their own (C71, C43, C13, C54).

## 5. Property by property

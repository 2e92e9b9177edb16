# Formal model of idin/abstract in Rocq (Coq 8.16.1)

Generated by `tools/mk_design.py` from `tools/design_head.md`, the property list, the
manifest and the comments above the theorems.

## 1. Approach

The code is a small in-memory graph library: mutable `Graph`, `Node`, `Edge` and style
objects that refer to each other.  The model is an executable Gallina program over an
explicit heap, written function by function; every definition cites the lines it models.

* A heap holds lists of node, edge, graph and style records; a reference is a position in
  its list, allocation appends, so references are never reused (object identity).
* Python dicts are association lists in insertion order (`Base.v`).
* Every method is a function returning `Ok v` or `Err exn`; mutating methods have type
  `heap -> heap * res A`, so the heap *after an exception* is part of the result
  (partial updates are visible).
* Recursive traversals carry fuel and return the distinct error `OutOfFuel` when it runs
  out; the theorems show that this value never occurs.
* What Python or other packages leave open (iteration order of a `set`, the random stream,
  `shuffle`, the colour arithmetic of the package `colouration`, `str` of floats and
  colours, user-supplied label converters and `__children__` methods) is a universally
  quantified argument or an uninterpreted term.

Properties about histories are stated over `reachable h` (`Ops.v`): the heap is reached
from the empty heap by any finite sequence of public calls, each of which may raise; an
exception ends the call, not the program.  There is no bound on the number of objects or
calls.  `history P h h'` is the corresponding relation between two moments.

Specifications are in `Spec*.v`.  They speak about objects, ids, directed paths, lines of
text and closed-form heaps, not about the traversal helpers of the model.  Beside each
theorem there is an `Example ..._ex` that runs a concrete, non-trivial case through the
hypotheses.

Where the code violates a property, the full statement is kept, its negation is proved on a
concrete reachable heap (`..._refuted : exists ...`) and the strongest true part is proved
(`..._partial`; the comment says what is missing).  Such properties have status `partial`.

### Files

| files | content |
|-------|---------|
| `Base`, `Heap` | results, exceptions, dicts, objects, heap, state monad |
| `ModelStyle`, `ModelCore`, `ModelQuery`, `ModelTraverse`, `ModelParse`, `ModelBuild`, `ModelStylize`, `ModelDot`, `ModelObj`, `ModelMore`, `ModelShow`, `ModelText`, `ModelReset` | the model, no proofs |
| `Ops` | public calls, reachable heaps |
| `Spec*` | specifications |
| `Proof*` | proofs; `ProofCn` contains the lemmas `Cnn_..._proof` |
| `Prop_Cn` | the property theorems and nothing else, each closed by `exact`, with `Print Assumptions` |
| `Samples` | concrete programs used in the examples |
| `RepoTests` | the unit tests of the project, run on the model |

`tools/mk_prop.py` writes the `Prop_*` files and the manifest from the lemmas.

## 2. Trusted base

* The Coq 8.16.1 kernel (and `vm_compute`, which is used in the examples and refutations).
* `Print Assumptions` under every property theorem prints *Closed under the global
  context*: no axiom is used, neither of the standard library nor another one.  (Loading
  std++ also loads the 7 parameters of `Coq.ssr.ssrunder.Under_rel`; no theorem depends
  on them.)
* std++ and coq-record-update, as ordinary libraries of checked proofs and definitions.
* The model: that the definitions of `Model*.v` and `Ops.v` do what the cited lines do.
  Nothing checks this mechanically, except that the unit tests of the project
  (`abstract/test`, all but `test_add_child`, which stores a node as an edge) are run on
  the model in `RepoTests.v`.

### What is modelled

| code | model |
|------|-------|
| `_BasicGraph.py` (all methods) | `ModelCore`, `ModelQuery`, `ModelBuild` |
| `Node.py`, `Edge.py`, `_GraphObj.py` | `ModelCore`, `ModelQuery`, `ModelDot`, `ModelMore`, `ModelText` |
| `_GraphWithoutDisplay.py` | `ModelBuild` (append, `__graph__`, add, constructors), `ModelStylize`, `ModelDot`, `ModelMore`, `ModelText` |
| `get_ancestors.py`, `get_descendants.py` | `ModelTraverse` |
| `parse_indentations_function.py` | `ModelParse` |
| `Graph.py` | `ModelShow`: the text handed to Graphviz |
| `styling/*.py` | `ModelStyle`, `ModelStylize`, `ModelObj`, `ModelReset` (style objects in the hands of a program), `ModelMore` (stylists called with templates) |

### What is not modelled

* Graphviz, IPython and writing files: only the DOT text that is handed to
  `graphviz.Source` is modelled.
* The packages `colouration` (colours are uninterpreted terms; equal terms denote equal
  colours, nothing is said about unequal ones), `graphviz`, `base32hex`, `pensieve`.
* Rounding: floats are exact rationals.
* Names are `str` or `int` (`bool` is not told apart from `int`); values and labels are
  None, int, float, str, Colour, or the bound method that `__graph__` stores.
* Strings are sequences of Latin-1 characters; `lower`/`upper` on ASCII letters.
* Python's recursion limit and memory; `warnings` turned into errors by a filter.
* Writing private attributes from outside, and calls that pass a style object that does not
  exist.  `reset_colours` is modelled for itself (C88) but not among the calls of a
  history.  A direct `Node(...)`/`Edge(...)` with
  a name/id that is already in use, and the methods of Node that file a single edge end,
  are modelled but not among the calls of a history (`allowed` in `Ops.v`), because they
  leave an inconsistent graph; this is proved in C87.

Inputs outside the model give the error `Unmodelled`; theorems that claim success or a
particular exception therefore exclude it.

## 3. Findings (where model and documentation of the code disagree)

All of these are proved, as `_refuted` theorems or in the exact statements:

* the distance dictionaries are neither shortest nor complete (C21), `max_depth` cuts off
  too much (C49);
* a graph with a styled node, for instance a rendered one, cannot be copied (C24), and a
  copy cannot be styled or rendered (C25), because the copy protocol misses attributes;
* `filter` ignores its direction (C26: the test at _BasicGraph.py:82, 86 is always true);
* `from_object` raises for every integer hash, and for string hashes as soon as an object
  is listed before one of its parents (C28);
* an indent unit of several characters is also replaced inside the text (C29);
* appending a Graph, or adding graphs, fails as soon as there is an edge (C32, C34:
  `edge.raw_label` does not exist, _GraphWithoutDisplay.py:541), labels become bound
  methods (C33), the second value is counted twice (C35, line 651), and the left operand
  takes over style overwrites (C36, line 491 also stores them in the wrong dictionary);
* `is_similar_to` raises KeyError instead of returning False (C37);
* `!=` on edges compares only the extra id (C38);
* `add_node`/`connect` that raise may have changed label, style or index counter (C40);
* the default stylist fails on a cycle below a non-cyclic node (C42), arrow sizes
  accumulate over the edges (C45), a second rendering fails with a style dictionary or the
  random stylist (C55);
* style copies forget `lighter_fill` (C56) and the label style (C57);
* backslashes in labels, and quotes in names and edge labels, are not escaped in DOT (C46,
  C58);
* `node in graph` raises for the nodes of the graph (C50), `strict` is ignored by `connect`
  (C51), a removed node that is added back has no graph (C52);
* a removed edge can no longer be hashed (C61); assigning `raw_id` leaves the dictionaries
  of the graph under the old key (C63);
* the header says `ordering=out` for the graphs that were made with `ordering=False` (C66);
* a styled node that has parents hands down its parents' colour, not its own, and the
  colours of several parents are computed anew, without divergence, so they are not
  the colours the parents are drawn in (C67);
* `node_styles={n: {'colour': c}}` changes nothing that is drawn, and shows on all nodes
  that share the style object (C68); with the default stylist `node_colours`,
  `edge_colours` and `edge_styles` always raise RuntimeError unless overwriting is
  allowed, and the edges keep the shade of the old colour (C69); `append` files the
  'edge_styles' under the colours (_GraphWithoutDisplay.py:491);
* with the random stylist (C70) or a style for all nodes (C71) a second `stylize()` raises;
  a style for all nodes loses the colours of the stylist, and shape 'auto' is passed on
  to Graphviz literally if some name is longer than two characters (C71);
* `graph.get_edges` lists a loop twice, `node.edges` once (C72);
* `invert_colours` forgets `lighter_fill`, the label style, and colours assigned after
  the style was made (C73);
* `complement` with an unknown name raises after the entries before it were assigned, and
  assigning the main colour of a style changes nothing that is drawn (C79);
* with a template style the stylists take the colours of branches from the template, not
  from the parent, and lose `lighter_fill` and the label style of the template (C80);
* with a loop above a node the distance dictionaries repeat ancestors at growing
  distances (C21);
* `render(path='g.png')` writes g.pdf: the format is computed and dropped
  (_GraphWithoutDisplay.py:728, 799), and `dpi` is ignored (C84);
* `str` of a removed edge raises ValueError (C85);
* `Node(graph, name)` with a name in use replaces the node but not its edges, a second
  `Edge` with the same id detaches the first, and removing the first then removes the
  second (C87).

## 4. Tests of the theorems

`seeded/LOG.jsonl` lists the wrong programs tried: a realistic bug is put into the model, in
a copy outside this repository; everything is rebuilt; a proof that fails is admitted in
the copy, and so on until all theorems are there; then `Print Assumptions` tells which
theorems depend on an admitted proof.  The log distinguishes three cases:

* `failed_in_own_proof`: all lemmas below still hold, the proof of the theorem itself fails;
* `failed_through_lemma`: the theorem depends on a helper lemma that fails.  This alone does
  not show that the statement of the theorem is false (control mutants that change nothing
  observable also break helper lemmas), so these statements were read against the
  mutant; the reason why they are false is given in the field `by_inspection`;
* `claims_theorems_still_proved`.

Where a claim had become false but none of its theorems, a theorem was added or
strengthened (`theorems_tightened`).

What this evidence is worth: the field `evidence` says whether a counterexample was computed on
the edited model or the statements were only read.  Most verdicts of failures through a
lemma come from reading alone.  A check of such verdicts by computation found wrong
ones among them (a mutant that is equivalent to the code, t503; reasons that were not the
actual ones, c506, z404; claims that a mutant does not break), which were
corrected; others may remain.  A theorem in `theorems_tightened` without a later entry for the
same edit (names ending in r or r6) has not been run against the mutant.  One cause of missed
bugs was a specification that used a function of the model (d407); the specifications were
searched for these, and those that remain (`name_str`, `pv_str`, `to_colour`, `mix`) are given by
equations in C46_texts, C71_colour_given and C67_ingredients.  Still shared with the model:
the style constructors in SpecOps, `get_least_used_colour` in SpecStyle, and `node_children`,
`node_parents` and `get_child_rank` in SpecMore, SpecTemplate and SpecTree, which have
theorems of their own (C71, C43, C13, C54).

## 5. Property by property

### C01 — Edges are mirrored at both ends

Status: **proved**. All reachable heaps; consistency is the record `consistent` of Spec.v.

Modelled and proved how: all mutators, constructors and builders of `call`; invariant of the heap (`WF`, ProofWF) preserved by every call, induction over the history

* `C01_consistent` (`Prop_C1.v`): After any history of calls (failing ones included) the heap is consistent: see [consistent] in Spec.v.
* examples: `C01_consistent_ex`

### C02 — add_node with a fresh name adds exactly one node

Status: **proved**. Exact equation for the resulting heap.

Modelled and proved how: add_node (_BasicGraph.py:253-321) with Node.__init__; closed form of the heap after each branch, then a frame corollary

* `C02_add_node_fresh` (`Prop_C1.v`): add_node with a fresh str name: one node object is appended, it is filed last in the graph, the index counter is incremented; nothing else changes. If the style argument is rejected, only the counter changes.
* examples: `C02_add_node_fresh_ex`

### C03 — add_node with an existing name updates in place

Status: **proved**. Exact equation plus a frame corollary.

Modelled and proved how: add_node (_BasicGraph.py:253-321) with Node.__init__; closed form of the heap after each branch, then a frame corollary

* `C03_add_node_existing` (`Prop_C1.v`): add_node with the name of an existing node.
* `C03_add_node_existing_frame` (`Prop_C1.v`): Hence no call of add_node with an existing name touches an edge, a graph object or another node, and the node keeps its name, graph, edges, index.
* examples: `C03_add_node_existing_ex`

### C04 — Node names are unique and indices are strictly increasing in insertion order

Status: **proved**. Names distinct in every reachable heap; order, sortedness and non-reuse along all histories without the direct constructor Node(graph, ...), whose index argument is free.

Modelled and proved how: add_node, remove_node, Node comparison, `sorted`; invariants on indices along histories (ProofIndex)

* `C04_names` (`Prop_C4.v`): Names are pairwise distinct in every reachable graph.
* `C04_increasing` (`Prop_C4.v`): In histories without the direct constructor Node(graph, ...): along graph.nodes, each node precedes every later one because its index is smaller, and sorted(graph.nodes) == graph.nodes.
* `C04_not_reused` (`Prop_C4.v`): An index is never reused: between two moments of such a history, equal index in the same graph means the same node object, and a node never changes its index.
* examples: `C04_increasing_ex`, `C04_not_reused_ex`

### C05 — connect of a new edge adds exactly one edge

Status: **proved**. Exact equation, and the edge relation afterwards.

Modelled and proved how: connect (_BasicGraph.py:670-716) with Edge.__init__; branch analysis under `WF`, closed form of the resulting heap

* `C05_connect_new` (`Prop_C1.v`): connect when no edge with this start, end and id exists: one edge object is appended to the heap; it is filed last among the outward edges of its start and the inward edges of its end. Nothing else changes. If the style argument is rejected nothing changes at all.
* `C05_connect_new_joins` (`Prop_C1.v`): The new edge joins the two nodes, all other edges join what they joined.
* `C05_from_node` (`Prop_C20.v`): node.connect_to(x) does what graph.connect(node, x) does, and the edge it returns goes from the node to x; node.connect_from(x) does what graph.connect(x, node) does, and the edge it returns goes from x to the node.
* examples: `C05_connect_new_ex`, `C05_from_node_ex`

### C06 — connect never duplicates a (start, end, id) edge

Status: **proved**. Exact equation, frame corollary, uniqueness of ids.

Modelled and proved how: connect (_BasicGraph.py:670-716) with Edge.__init__; branch analysis under `WF`, closed form of the resulting heap

* `C06_connect_existing` (`Prop_C1.v`): connect when the edge exists already.
* `C06_connect_existing_frame` (`Prop_C1.v`): Hence connect on an existing edge touches no node, no graph object and no other edge.
* `C06_ids_unique` (`Prop_C1.v`): In a reachable heap two different edges of a graph never have the same start, end and id.
* examples: `C06_connect_existing_ex`

### C07 — connect then disconnect is an identity on the observable graph

Status: **proved**. For disconnect and remove_self.

Modelled and proved how: connect followed by disconnect or remove_self, composed from the closed forms of C05 and C09

* `C07_connect_disconnect` (`Prop_C1.v`): Adding a new edge and removing it again, by disconnect or remove_self, restores all nodes and graphs; what stays behind is the dead edge object and the style object made for it.
* examples: `C07_connect_disconnect_ex`

### C08 — remove_node removes the node and exactly its incident edges

Status: **proved**. Exact resulting heap, and the surviving edges.

Modelled and proved how: remove_node, Node.remove_edges; induction over the list of incident edges (ProofRemove)

* `C08_remove_node` (`Prop_C1.v`): remove_node: with [es] the edges that start or end in the node, the entries of [es] disappear from all edge dictionaries (the others keep their order), the edges [es] lose graph, start and end, the node loses its graph and is taken out of the graph; nothing else changes.
* `C08_surviving_edges` (`Prop_C1.v`): Hence an edge of any graph survives remove_node iff it did not touch the node, and survives with the same ends.
* `C08_remove_edges` (`Prop_C35.v`): node.remove_edges: with [es] the edges that start or end in the node, the entries of [es] disappear from all edge dictionaries (the others keep their order) and the edges [es] lose graph, start and end; the node keeps its graph and its place in it, and nothing else changes.
* examples: `C08_remove_node_ex`, `C08_remove_edges_ex`

### C09 — disconnect / remove_self remove exactly one edge, once

Status: **proved**. Live and dead edges, both removal functions.

Modelled and proved how: disconnect, Edge.remove_self; closed form under `WF`

* `C09_remove_live` (`Prop_C1.v`): Removing a live edge: its entries disappear, the edge loses its graph; nothing else changes.
* `C09_remove_live_joins` (`Prop_C1.v`): In particular exactly this edge is gone.
* `C09_remove_dead` (`Prop_C1.v`): Removing a dead edge again raises and changes nothing.
* examples: `C09_remove_ex`

### C10 — The inconsistent-edge errors of connect are unreachable

Status: **proved**. The two dictionaries agree on every id; lenient connect succeeds.

Modelled and proved how: connect; the two dictionaries are mirror images under `WF`

* `C10_no_weird_branch` (`Prop_C1.v`): The id of an edge between two nodes of a graph is either in both dictionaries or in none, so neither of the two branches of connect that report an inconsistency is ever taken.
* `C10_connect_succeeds` (`Prop_C1.v`): A lenient connect without style succeeds between any two nodes, unless it is asked to change the value of a frozen edge.
* examples: `C10_connect_succeeds_ex`

### C11 — Calls naming an unknown node fail without side effects

Status: **proved**. All listed calls, for names and for node objects.

Modelled and proved how: lookup in the node dictionary; every listed call evaluates it first

* `C11_unknown_node` (`Prop_C1.v`): Calls that name a node which is not in the graph raise KeyError and change nothing. The queries are functions of the heap, so they cannot change it.
* `C11_get_node_name` (`Prop_C35.v`): get_node_name returns a name that is in the graph unchanged and raises KeyError for any other; unlike get_node it gives the name of any node object, of this graph or not.
* examples: `C11_unknown_node_ex`, `C11_get_node_name_ex`

### C12 — edges and edges_dict enumerate each edge exactly once

Status: **proved**. graph.edges and edges_dict for every reachable graph.

Modelled and proved how: edges, edges_dict, parents, children and their counts; counting over the mirrored dictionaries (ProofC2)

* `C12_edges` (`Prop_C2.v`): graph.edges lists every edge of the graph once.
* `C12_edges_dict` (`Prop_C2.v`): graph.edges_dict has one entry per edge, under its id.
* examples: `C12_edges_ex`

### C13 — parents and children are dual, with multiplicity

Status: **proved**. Multiplicities, counts, has_ predicates and both sums.

Modelled and proved how: edges, edges_dict, parents, children and their counts; counting over the mirrored dictionaries (ProofC2)

* `C13_dual` (`Prop_C2.v`): Occurrences of b among the children of a = occurrences of a among the parents of b = number of edges from a to b; for the methods of the graph and of the nodes.
* `C13_counts` (`Prop_C2.v`): The counts and the has_ predicates agree with the lists.
* `C13_sums` (`Prop_C2.v`): The sums over all nodes are the number of edges.
* examples: `C13_dual_ex`

### C14 — ancestors are exactly the nodes with a directed path to the node

Status: **proved**. Total (no fuel exhaustion) and exact.

Modelled and proved how: the recursive traversals with a shared visited list (fuelled); one generic depth-first-search theorem (ProofDfs), instantiated; fuel never runs out

* `C14_ancestors` (`Prop_C2b.v`): ancestors: never fails, no repetition, exactly the nodes with a path of at least one edge to the node.
* examples: `C14_ancestors_ex`

### C15 — descendants are exactly the other nodes reachable from the node

Status: **proved**. Total (no fuel exhaustion) and exact.

Modelled and proved how: the recursive traversals with a shared visited list (fuelled); one generic depth-first-search theorem (ProofDfs), instantiated; fuel never runs out

* `C15_descendants` (`Prop_C2b.v`): descendants: never fails, no repetition, exactly the other nodes that can be reached; num_descendants counts them.
* examples: `C15_descendants_ex`

### C16 — ancestors and descendants are converse

Status: **proved**. 

Modelled and proved how: the recursive traversals with a shared visited list (fuelled); one generic depth-first-search theorem (ProofDfs), instantiated; fuel never runs out

* `C16_converse` (`Prop_C2b.v`): descendants and ancestors are converse.
* examples: `C16_converse_ex`

### C17 — Loop predicates decide cycles

Status: **proved**. All four predicates; loop_nodes as an ordered sublist.

Modelled and proved how: the recursive traversals with a shared visited list (fuelled); one generic depth-first-search theorem (ProofDfs), instantiated; fuel never runs out

* `C17_is_in_loop` (`Prop_C2b.v`): is_in_loop decides whether some cycle passes through the node.
* `C17_is_in_loop_with` (`Prop_C2b.v`): is_in_loop_with: each node can be reached from the other.
* `C17_equivalence` (`Prop_C2b.v`): is_in_loop_with is symmetric and transitive.
* `C17_edge` (`Prop_C2b.v`): An edge is in a loop iff a path leads from its end back to its start.
* `C17_loop_nodes` (`Prop_C2b.v`): loop_nodes: the nodes on cycles, in node order.
* examples: `C17_loops_ex`

### C18 — roots is a minimal set from which every node is reachable

Status: **proved**. Also minimum cardinality among covering sets; equality with absolute_roots on acyclic graphs; the exact set also with loops.

Modelled and proved how: roots (loop over nodes and their descendants), absolute_roots; loop invariant

* `C18_roots` (`Prop_C2b.v`): roots: a sublist of the nodes; every node is reached from a root; no root reaches another; every source is a root; it is as small as possible.
* `C18_acyclic` (`Prop_C2b.v`): On an acyclic graph roots is absolute_roots.
* `C18_exact` (`Prop_C42.v`): Exactly which nodes are roots, also when there are loops: those that reach every other node that reaches them and come before each of these in the list of nodes. In other words, of every set of nodes that reach each other and are reached by no other node, the one that was added first.
* examples: `C18_roots_ex`, `C18_exact_ex`

### C19 — siblings and co-parents are exact, and the two implementations agree

Status: **proved**. Both implementations return the same list.

Modelled and proved how: siblings, spouses, co_parents in Node.py and _BasicGraph.py; set characterisation and list equality

* `C19_siblings` (`Prop_C2c.v`): siblings: exactly the other nodes with a common parent, listed once; the two implementations give the same list.
* `C19_co_parents` (`Prop_C2c.v`): co-parents (spouses): exactly the other nodes with a common child.
* examples: `C19_siblings_ex`

### C20 — leaves and absolute_roots are exactly the sinks and sources

Status: **proved**. 

Modelled and proved how: leaves, absolute_roots; unfolding under C13

* `C20_leaves` (`Prop_C2b.v`): leaves and absolute_roots.
* examples: `C20_leaves_ex`

### C21 — get_ancestors/get_descendants with distance report each relative at its distance

Status: **partial**. The property is false of the code: three refutations (not shortest; relatives missing even on a tree; a node listed at two distances behind a loop). Proved: every entry is a relative at the end of a walk of exactly that length; and the property holds when every node below has at most one child (descendants), or every node above has at most one parent and lies on no cycle (ancestors).

Modelled and proved how: the same traversals with distance=True; walk invariant, counterexamples by computation; chains by an invariant of the traversal (ProofForest.v)

* `C21_distance_partial` (`Prop_C2c.v`): partial. Missing: an entry need not be at the shortest distance, and a relative may be missing from the dict. What holds: every entry [y] under [k] is a relative at the end of a walk of exactly [k] edges.
* `C21_distance_refuted` (`Prop_C2c.v`): is false: with edges a->b, b->c, a->c the child c of a is reported at distance 2 and not at 1.
* `C21_distance_tree_refuted` (`Prop_C2c.v`): is false on a tree too: with edges a->b, a->c, b->d, c->e the grandchild d of a is not in the dict at all.
* `C21_chain_partial` (`Prop_C37.v`): partial. Missing: nodes with several relatives on the way, and loops above the node. If every node below has at most one child, the dict of descendants has exactly the other nodes below, each under its distance; if every node above has at most one parent and lies on no loop (in a forest, say), the dict of ancestors has exactly the nodes above, each under its distance.
* `C21_distance_loop_refuted` (`Prop_C37.v`): is false with a loop above the node, even if every node has one parent: with edges a->b, b->a, a->c the dict of ancestors of c has a at distance 1 and at 3.
* examples: `C21_distance_ex`, `C21_chain_ex`

### C22 — get_tree_str terminates and prints each edge exactly once

Status: **proved**. Exact text as a printed forest; also for Node.get_tree_str. C22_label says which text stands for a node.

Modelled and proved how: Node.get_tree_str, Graph.get_tree_str (fuelled); the text is shown to be the printing of a forest with the stated shape (ProofTree)

* `C22_graph_tree` (`Prop_C3.v`): graph.get_tree_str() succeeds on every graph; the text is that of a forest of lines over the roots where below every unstarred line are the children of the node in order, every node has a line, every node with children has exactly one unstarred line, it comes before all its starred lines, and nothing is below starred lines; leaves are never starred; there is one line per root and per edge. (The trees are joined by an additional newline.)
* `C22_node_tree` (`Prop_C3.v`): node.get_tree_str() succeeds on every node; the lines are those of the nodes reachable from it.
* `C22_label` (`Prop_C54.v`): The text that stands for a node in the trees: its label, or its name if the label is None, 0 or empty, with a backslash before each double quote.
* examples: `C22_tree_ex`, `C22_label_ex`

### C23 — copy yields an isomorphic, independent graph

Status: **proved**. Exact: the copy is the image of the graph under a bijection on new nodes and edges; every other graph is untouched and later calls on one do not affect the other.

Modelled and proved how: deepcopy through __getstate__/__setstate__ (ModelBuild.copy); explicit bijection, then the frame theorem C53

* `C23_copy` (`Prop_C7.v`): Copying a graph without node styles succeeds: the result is a new graph, corresponding node by node and edge by edge to the original, and no object that existed before was changed.
* `C23_independent` (`Prop_C7.v`): Afterwards the two graphs are independent: calls that are not on the original leave the original as it is, and calls that are not on the copy leave the copy as it is.
* examples: `C23_copy_ex`

### C24 — copy succeeds on every graph

Status: **partial**. False of the code (refuted): copying a graph with a styled node raises KeyError. Proved: exactly when copying succeeds, and that a failing copy changes nothing.

Modelled and proved how: as C23, with the state of NodeStyle; exact success condition

* `C24_exact_partial` (`Prop_C7.v`): when copying succeeds: exactly if no node has a style; otherwise it raises KeyError and changes nothing. Partial: the property claims success always.
* `C24_refuted` (`Prop_C7.v`): is false: rendering a graph succeeds and copying it then fails.

### C25 — A copy can be used like the original

Status: **partial**. False of the code (refuted twice): copies lack the display attributes, so rendering and restyling raise AttributeError on every copy (proved). Proved positively: structure, paths and distances agree.

Modelled and proved how: as C23; queries commute with the bijection, display attributes are missing

* `C25_structure_partial` (`Prop_C7.v`): the part that holds: a copy has the same structure, so that everything the library derives from edges (children, ancestors, loops, distances: C12-C22) is the same up to the correspondence. Partial: the property also claims it for display.
* `C25_display_partial` (`Prop_C7.v`): what fails on every copy: stylize, render and __graph__ (hence also appending it to another graph, and +) raise AttributeError. Partial: the property claims that these work as on the original.
* `C25_refuted` (`Prop_C7.v`): is false: rendering works on the graph, not on its copy.
* `C25_update_refuted` (`Prop_C7.v`): is false for updates too: giving an edge that has a style another one.

### C26 — filter keeps exactly the requested neighbourhood

Status: **partial**. False of the code (refuted): the direction is ignored. Proved: the exact result for every direction and filter type on unstyled graphs, the claim as stated for the default direction, unknown names fail without any change.

Modelled and proved how: filter on top of copy and remove_node; fold over the removed nodes

* `C26_exact_partial` (`Prop_C8.v`): what filter really does: whatever the direction, the relatives in both directions are taken; 'include' keeps exactly them, every other filter type exactly the rest. The result is a new graph: the image of the kept part, with all the edges between kept nodes; everything that existed is left as it was. Partial: the property claims that the direction is observed, and that there is no condition on styles (see C24).
* `C26_both_partial` (`Prop_C8.v`): for the default direction: exactly as claimed, if no node has a style.
* `C26_unknown_partial` (`Prop_C8.v`): A name that is not in the graph makes filter fail, and nothing changes.
* `C26_refuted` (`Prop_C8.v`): is false: with direction 'to', a descendant that is no ancestor is kept.
* examples: `C26_filter_ex`, `C26_unknown_ex`

### C27 — from_lists makes one edge per row

Status: **proved**. For all lists of node names.

Modelled and proved how: from_lists; loop invariant (ProofBuild)

* `C27_from_lists` (`Prop_C9.v`): from_lists succeeds on any lists of node names: it makes a new graph whose nodes are the distinct names, in the order in which they first appear reading the rows from left to right and from top to bottom, all of them plain; it has exactly one edge for each row, in order, with the row number as id and the given label; rows beyond the shortest list are ignored; nothing is warned.
* examples: `C27_from_lists_ex`

### C28 — from_object builds the graph of the object's relatives

Status: **partial**. Refuted twice: from_object raises UnboundLocalError for every object whose __hash__ is an integer, because add_node leaves a variable unbound for names that are not strings (C28_from_object_refuted is a concrete object; C28_from_object_partial: this holds for every such object, and the only effect is an unused empty graph). With string hashes it raises KeyError for an object with two parents, because an edge is made before the node it starts at (C28_two_parents_refuted). C28_forest_partial: with distinct string hashes and relatives that form a forest it returns exactly the graph of the relatives.

Modelled and proved how: from_object with arbitrary __children__, __parents__, __hash__; the traversal lists every relative after one it is next to, so in a forest every edge is made between existing nodes

* `C28_from_object_partial` (`Prop_C11.v`): partial: if __hash__ of the object gives an integer, as hash does, from_object raises UnboundLocalError; all it did is making an empty graph.
* `C28_from_object_refuted` (`Prop_C11.v`): refuted: an object without relatives, with hash 5.
* `C28_forest_partial` (`Prop_C26.v`): partial. Missing: integer hashes (what hash returns), objects with more than one parent and cycles; see the refuted statements. What holds: if the hash of every object is a string, different for different objects, __children__ and __parents__ are converse to each other, no object has two parents or is its own descendant, and finitely many objects are related to [obj], then from_object returns a graph whose nodes are exactly the object, its descendants and its ancestors, labelled with their strings, with exactly one edge for each parent and child among them.
* `C28_two_parents_refuted` (`Prop_C26.v`): refuted for string hashes: 0 has the children 1 and 2, and 2 has the child 1. The descendants of 0 are 1 and 2, and the edge from 2 to 1 is made before the node of 2.
* examples: `C28_from_object_ex`, `C28_forest_ex`

### C29 — parse_indentations recovers an indented outline

Status: **partial**. False of the code (refuted): an indent unit of several characters that also occurs in the text of an indented line is replaced there too. Proved: index, level and parent of every line for every outline and unit, explicit or detected; the content whenever the level is 0, the unit is one character, or it does not occur in the text. C29_outline: whatever the lines, what the parser accepts is an outline, with the right parents; C29_content: no text starts with white space, and only lines of line ends are blank; C29_blank: those are accepted.

Modelled and proved how: parse_indentations on strings; round trip with a printer of outlines (ProofText)

* `C29_recovers_partial` (`Prop_C10.v`): as far as it is true. For every outline printed with any indent unit, given explicitly or detected, the parser yields one entry per line, with its index, its level and its parent line. The content is the text of the line if the line is at level 0, or the indent unit is a single character, or it does not occur in the text.
* `C29_refuted` (`Prop_C10.v`): is false when the indent unit occurs in the text: it is replaced there too.
* `C29_outline` (`Prop_C30.v`): whatever the lines are: if the parser accepts them then it yields one entry per line, numbered from 0, whose levels form an outline (it starts at level 0 and no level is more than one deeper than the one before), and the parent of each entry is the last earlier entry one level up that is not blank. So a line that is too deep is always rejected.
* `C29_content` (`Prop_C59.v`): whatever the lines are: if the parser accepts them then the text of an entry is empty exactly if its line consists of line ends only, and otherwise starts with a character that is no white space. So a line that is indented by a part of the unit, or that has only spaces, is rejected.
* `C29_blank` (`Prop_C59.v`): A line of line ends only, after at least one other line, is always accepted: it gives an entry with empty text at the level of the entry before.
* examples: `C29_recovers_ex`, `C29_outline_ex`, `C29_content_ex`, `C29_blank_ex`

### C30 — from_indented_text yields a tree

Status: **proved**. For every list of lines and indent; success exactly when the parser succeeds.

Modelled and proved how: from_indented_text; loop invariant over the parsed lines; tree property from the parent numbers

* `C30_from_text` (`Prop_C10.v`): from_indented_text fails exactly when the parser fails, and otherwise makes a new graph with a node 'root' labelled by the given text, one node per line, and one edge for each line, to it from its parent line or from 'root'.
* `C30_tree` (`Prop_C10.v`): Hence the graph is a tree with root 'root': nothing goes into the root, exactly one edge into every other node, every node is reachable from the root, and there is no cycle.
* `C30_outline` (`Prop_C10.v`): Hence for a printed outline the edges are those from each line's parent line, and from 'root' to the lines of level 0.
* examples: `C30_from_text_ex`, `C30_outline_ex`

### C31 — random graphs without cycle=True are acyclic

Status: **proved**. For every sequence of draws in [0,1); probabilities are rationals.

Modelled and proved how: random, for all streams of draws; loop invariant; acyclic because edges increase the number

* `C31_random` (`Prop_C9.v`): Graph.random, for every outcome of the draws: the nodes are named by [num_nodes] consecutive integers, in order, and the edges are those of the pairs (first node, second node), taken row by row, whose draw is below the probability and that are permitted: all pairs with [cycle], otherwise those from a smaller to a larger number.
* `C31_acyclic` (`Prop_C9.v`): Hence, without [cycle], the graph has no directed cycle.
* `C31_extremes` (`Prop_C9.v`): With a probability of at most 0 there is no edge; with one of at least 1 there is an edge between every permitted pair of nodes.
* examples: `C31_extremes_ex`, `C31_random_ex`

### C32 — append unions nodes and edges

Status: **partial**. Refuted for a Graph with at least one edge (TypeError: C32_append_graph_refuted, and for all such graphs C32_append_graph_fails_partial). Otherwise proved: whenever append / Graph(obj) succeeds the result is exactly the union, in order (C32_append_partial, C32_graph_of_partial), and it does succeed for every acceptable dictionary (C32_append_succeeds_partial).

Modelled and proved how: append, __graph__, Graph(obj), from_dict, add; relation `grows` between heaps (ProofGrow, ProofGrow2), composed over nodes and edges

* `C32_append_partial` (`Prop_C11.v`): Whenever append succeeds, the graph has grown by exactly the missing nodes, in the given order, and exactly the edges whose id was missing, in the given order; what was there is untouched and still comes first. Partial because append of a Graph with an edge does not succeed, see [C32_append_graph_refuted].
* `C32_graph_of_partial` (`Prop_C11.v`): Graph(obj=o): whenever it succeeds, the new graph has exactly the names and edge ids of [o], in the order of [o].
* `C32_append_succeeds_partial` (`Prop_C11.v`): append of a representation with string names, known ends, without styles, to a graph without frozen objects does succeed.
* `C32_append_graph_fails_partial` (`Prop_C11.v`): appending a Graph with at least one edge raises TypeError, and nothing changes.
* `C32_append_graph_refuted` (`Prop_C11.v`): refuted: a reachable heap and two graphs such that appending the second to the first raises.
* examples: `C32_append_ex`, `C32_graph_of_ex`

### C33 — Graph(obj=g) preserves labels

Status: **partial**. Refuted (C33_labels_refuted): the new label is a bound method. C33_contents_partial: the values and style objects are preserved, and what the label is.

Modelled and proved how: append, __graph__, Graph(obj), from_dict, add; relation `grows` between heaps (ProofGrow, ProofGrow2), composed over nodes and edges

* `C33_contents_partial` (`Prop_C11.v`): partial: whenever Graph(obj=g) succeeds, each node has the value and the very style object of the node of that name in g; but its label is always the bound method display_label_or_value of that node, and not a label.
* `C33_labels_refuted` (`Prop_C11.v`): refuted: a node labelled A, whose namesake in Graph(obj=g) displays another text, whatever the functions of the environment print.
* examples: `C33_contents_ex`

### C34 — g1 + g2 is the union graph

Status: **partial**. Refuted if there is an edge (C34_union_refuted; for all such pairs C34_fails_partial). C34_union_partial: whenever the sum exists, it is the union, for every iteration order of the set of names.

Modelled and proved how: append, __graph__, Graph(obj), from_dict, add; relation `grows` between heaps (ProofGrow, ProofGrow2), composed over nodes and edges

* `C34_union_partial` (`Prop_C11.v`): partial: whenever g1 + g2 succeeds, and whatever the iteration order of the set of names, the new graph has exactly the names of g1 and g2, each once, and exactly their edges. Partial because it does not succeed when there is an edge, see [C34_fails_partial].
* `C34_fails_partial` (`Prop_C11.v`): with an edge in either graph, g1 + g2 raises AttributeError (or, if the other graph is a copy without display attributes, the same), and nothing changes.
* `C34_union_refuted` (`Prop_C11.v`): refuted: two graphs whose sum is an exception.
* examples: `C34_union_ex`, `C34_fails_ex`

### C35 — g1 + g2 adds the values of shared nodes and edges

Status: **partial**. Refuted (C35_values_refuted): a shared node gets f(v2, v2). Refuted for the values 0 and None too (C35_default_refuted): the default function gives None. C35_values_partial: the values of all nodes of the sum; C35_default_partial: the default function; edges never occur because of C34_fails_partial.

Modelled and proved how: append, __graph__, Graph(obj), from_dict, add; relation `grows` between heaps (ProofGrow, ProofGrow2), composed over nodes and edges

* `C35_values_partial` (`Prop_C11.v`): partial: whenever g1 + g2 succeeds, a node of only one of the graphs keeps its value; a node of both gets the sum of the second value with itself (and not with the first value).
* `C35_values_refuted` (`Prop_C11.v`): refuted: the value of a is 1 in the first graph and 10 in the second, and 20 in the sum.
* `C35_default_partial` (`Prop_C58.v`): The default function for adding two values: integers and other numbers are added and texts joined; a missing first value gives the second one, and a missing second value the first one if that is neither zero nor the empty text. Missing: those two (C35_default_refuted).
* `C35_default_refuted` (`Prop_C58.v`): refuted: the values 0 and None add up to None, not to 0.
* examples: `C35_values_ex`, `C35_default_ex`

### C36 — g1 + g2 leaves its operands unchanged

Status: **partial**. False of the code (refuted): the left operand takes over the style overwrites of the right one. Proved: nodes, edges and everything but these two dictionaries are unchanged.

Modelled and proved how: add, append; frame theorem

* `C36_operands_partial` (`Prop_C6.v`): what g1 + g2 may change, whether it succeeds or fails: nothing but the per-node and per-edge style overwrites kept in the graph object of g1, which receive those of g2. Partial: the property claims that not even these change.
* `C36_plain_partial` (`Prop_C6.v`): If g2 has no per-node or per-edge style overwrites, g1 + g2 leaves every existing object unchanged.
* `C36_refuted` (`Prop_C6.v`): is false: after g1 + g2, which succeeds, the same node of g1 is drawn with another shape, because g1 has taken over the style overwrites of g2.
* examples: `C36_plain_ex`

### C37 — is_similar_to decides structural similarity

Status: **partial**. Refuted (C37_similar_refuted): a name or edge id missing in the other graph gives KeyError instead of False. Proved: True exactly for similar graphs (C37_true_partial), reflexive, symmetric, never anything else than True, False, KeyError, and no KeyError if names and ids occur.

Modelled and proved how: is_similar_to on graphs, nodes, edges; both directions by evaluation of the folds

* `C37_true_partial` (`Prop_C12.v`): what True means: is_similar_to returns True exactly for graphs with the same names, edge ids and flags, whose nodes and edges have equal values and parameters and the same style objects.
* `C37_reflexive_partial` (`Prop_C12.v`): every graph is similar to itself.
* `C37_symmetric_partial` (`Prop_C12.v`): True in one direction is True in the other.
* `C37_outcomes_partial` (`Prop_C12.v`): whatever the graphs, the answer is True, False or a KeyError.
* `C37_total_partial` (`Prop_C12.v`): there is no KeyError if the names and the edge ids of the first graph occur in the second, or if the numbers of nodes differ.
* `C37_similar_refuted` (`Prop_C12.v`): refuted: two graphs with one node each, of different names.
* examples: `C37_similar_ex`

### C38 — Node comparison is a total order consistent with hashing; != is the negation of ==

Status: **partial**. Total order, hash and != proved for nodes with str names; C38_all_laws gives the laws of < and == for names of any kind; C38_kinds extends the comparison to int names, and C38_mixed says that mixed names with equal indices raise TypeError; for edges != compares only the extra id and is refuted, with the exact behaviour of both operators.

Modelled and proved how: comparison methods of Node and GraphObj

* `C38_comparison` (`Prop_C4.v`): Nodes with str names: the comparisons agree with the order of (index, name) pairs; exactly one of <, ==, > holds; <= and >= are < or == and > or ==; > is the converse of <; != is the negation of ==.
* `C38_laws` (`Prop_C4.v`): < is transitive; == is an equivalence compatible with <.
* `C38_hash` (`Prop_C4.v`): Equal nodes have equal hashes (the hash is a function of the name).
* `C38_edge_ne_refuted` (`Prop_C4.v`): For edges the law fails: two edges without extra id between different nodes are neither equal nor different.
* `C38_edges_partial` (`Prop_C4.v`): What the two operators do on two edges of one reachable graph: == compares (start, end, id), != only the id; they disagree exactly when the ids are equal and the ends are not.
* `C38_kinds` (`Prop_C54.v`): Nodes whose names are both str or both int, or whose indices differ: the comparisons agree with the order of (index, name) pairs as in C38_comparison; ints are ordered by size.
* `C38_mixed` (`Prop_C54.v`): A node with a str name and one with an int name and the same index cannot be ordered: <, >, <= and >= raise TypeError; they are not equal.
* `C38_all_laws` (`Prop_C56.v`): For nodes with any names, whatever their kinds: < is transitive and never holds both ways; == is an equivalence compatible with <. (A comparison that raises is not true.)
* examples: `C38_comparison_ex`, `C38_laws_ex`, `C38_edges_ex`, `C38_kinds_ex`, `C38_all_laws_ex`

### C39 — Frozen objects keep their value

Status: **proved**. Along every history that does not unfreeze the object itself; exact effect of the raising calls.

Modelled and proved how: setters, add_node, connect; preservation along histories (ProofHist, ProofSet)

* `C39_freeze` (`Prop_C35.v`): freeze and unfreeze change only the flag, and exactly while it is set does assigning the value raise.
* `C39_node_history` (`Prop_C5.v`): A frozen node keeps its value and stays frozen as long as it is not unfrozen itself, whatever else happens.
* `C39_edge_history` (`Prop_C5.v`): The same for edges.
* `C39_raise` (`Prop_C5.v`): Assigning the value of a frozen object raises RuntimeError and changes nothing; add_node and connect that pass a value for it raise.
* examples: `C39_freeze_ex`, `C39_node_history_ex`, `C39_edge_history_ex`, `C39_raise_ex`

### C40 — A failing call changes nothing

Status: **partial**. Refuted (three witnesses); exact description of everything a raising add_node or connect can leave behind.

Modelled and proved how: add_node, connect; classification of all raising runs

* `C40_atomic_refuted` (`Prop_C5.v`): False: on a frozen node, add_node(name, label, value) raises after having changed the label.
* `C40_index_refuted` (`Prop_C5.v`): False: add_node with a fresh name and an invalid style raises after having used up an index.
* `C40_connect_refuted` (`Prop_C5.v`): False for connect too.
* `C40_add_node_exact_partial` (`Prop_C5.v`): exact. What a raising add_node may leave behind: nothing but warnings; or, when a value was passed for a frozen node, the style and label; or, when the style of a fresh name was rejected, an incremented index counter.
* `C40_connect_exact_partial` (`Prop_C5.v`): exact, for connect.
* `C40_plain_partial` (`Prop_C5.v`): Hence raising calls that pass no style and not both a label and a value leave every object as it was.
* examples: `C40_plain_ex`, `C40_add_node_exact_ex`, `C40_connect_exact_ex`

### C41 — Styles are write-once unless overwriting is allowed

Status: **proved**. Along every history; raising and replacing assignments in closed form.

Modelled and proved how: setters, add_node, connect; preservation along histories (ProofHist, ProofSet)

* `C41_node_history` (`Prop_C5.v`): On a graph that does not allow overwriting, a style once given to a node stays, whatever happens.
* `C41_edge_history` (`Prop_C5.v`): The same for edges.
* `C41_raise` (`Prop_C5.v`): Such an assignment raises RuntimeError and changes nothing but warnings: the setters, add_node and connect.
* `C41_replace` (`Prop_C5.v`): With style_overwrite_allowed=True, or when there was no style, an accepted assignment takes effect: the given style object, or a new one built from the given dict.
* examples: `C41_node_history_ex`, `C41_raise_ex`, `C41_replace_ex`

### C42 — Default styling succeeds on every graph

Status: **partial**. Refuted (C42_loop_refuted): on a -> b, b -> c, c -> b the default stylist raises AttributeError. Proved: exactly when it succeeds (C42_succeeds_partial, C42_fails_partial; nodes comparable as in C54, no Colour objects as edge values for the exception class), what it does (C42_effect_partial), and that it styles everything in acyclic graphs with numeric values (C42_acyclic_partial).

Modelled and proved how: stylize with stylize_with_pensieve, inherit_style, edge styling; invariants of the three phases (ProofStylize)

* `C42_succeeds_partial` (`Prop_C15.v`): For a reachable graph with a non-empty colour scheme, the default stylist and no overwriting, whose nodes can be compared (see C54): if the start of every edge without style has a style, or is a root, or has only parents on cycles, or is on no cycle, and the values of these edges are None or numbers, then stylize succeeds. Missing: the other graphs, on which it raises (C42_fails_partial).
* `C42_fails_partial` (`Prop_C15.v`): If some edge without style fails this condition, and no value is a Colour object, stylize raises AttributeError or TypeError.
* `C42_effect_partial` (`Prop_C15.v`): When it succeeds, every edge of the graph has a style, and so has every node that had one, is a root, has only parents on cycles, or is on no cycle; exactly these have one. Only styles of objects of the graph that had none are added.
* `C42_acyclic_partial` (`Prop_C15.v`): In a graph without cycles whose edge values are None or numbers it succeeds, and every node and edge has a style.
* `C42_loop_refuted` (`Prop_C15.v`): refuted: a -> b, b -> c, c -> b. Node b is on a cycle and has the parent a that is not, so it gets no style, and the edge from b fails.
* examples: `C42_ex`, `C42_fails_ex`

### C43 — Colours of a scheme are used in rotation

Status: **proved**. For get_least_used_colour as stylize_with_pensieve uses it, for every non-empty scheme (repetitions included).

Modelled and proved how: get_least_used_colour; the table after k steps in closed form

* `C43_rotation` (`Prop_C13.v`): the colours are taken in turn, in the order of the scheme (a colour listed twice counts once); the table counts how often each was taken, and these counts differ by at most one.
* examples: `C43_rotation_ex`

### C44 — Diverging numbers are n distinct, symmetric values in [-1, 1]

Status: **proved**. For every n; the index is a natural number (Python's negative indices are not modelled). Values are exact rationals.

Modelled and proved how: generate_diverging_numbers, get_diverging_number; sorting proved against the closed form

* `C44_values` (`Prop_C13.v`): get_diverging_number, in all cases.
* `C44_monotone` (`Prop_C13.v`): a larger index gives a larger number, or a smaller one in reverse.
* `C44_numbers` (`Prop_C13.v`): generate_diverging_numbers gives [n] different numbers between -1 and 1, with each number its opposite, and 0 exactly if [n] is odd.
* examples: `C44_numbers_ex`

### C45 — Arrow sizes follow the edge's own value

Status: **partial**. Refuted (C45_own_value_refuted): the factors accumulate over the edges. Proved: the exact arrow size, and the colour (C45_arrow_partial).

Modelled and proved how: stylize_edges_based_on_nodes; invariant for the carried style object

* `C45_arrow_partial` (`Prop_C15.v`): After a successful call the i-th edge (in the order of graph.edges) of those that had no style has the default edge style, with the colour of its start a tenth darker, and arrow size one half times the product of the values of this edge and of the edges before it that had no style (None counts as one). Missing: its own value only, which is false of the code (C45_own_value_refuted).
* `C45_own_value_refuted` (`Prop_C15.v`): refuted: in the graph with edges a -> b of value 2 and a -> c of value 3, the second edge has arrow size 3, not 3/2.
* examples: `C45_arrow_ex`

### C46 — Labels survive DOT quoting

Status: **partial**. Refuted (C46_label_refuted): backslashes are not escaped. Proved for labels in which no backslash stands before a quote, a line end or the end (C46_label_partial); at the level of the DOT scanner, i.e. before label escapes such as \n are interpreted. C46_converted covers graphs with a label converter.

Modelled and proved how: get_graphviz_str of nodes and edges; reference reader for DOT quoted strings (SpecDot)

* `C46_label_partial` (`Prop_C14.v`): without a label converter, the label attribute of a node statement reads back as the label (or name), if no backslash stands in it before a quote, a line end or at the end. Missing: the other texts, for which it is false.
* `C46_label_refuted` (`Prop_C14.v`): refuted: a label that ends in a backslash swallows the closing quote.
* `C46_converted` (`Prop_C54.v`): With a label converter, the label attribute of a node statement holds what the converter makes of the text that Node.label gives: the label or name with a backslash before each double quote.
* `C46_texts` (`Prop_C55.v`): How names and values are written: a text as it is, an integer in decimals, None as None, a method with the name of its node; floats and colours as Python writes them.
* examples: `C46_label_ex`, `C46_converted_ex`

### C47 — The DOT text has one statement per node and per edge

Status: **proved**. For graphs that have display options and whose label, if any, is text with a location (the default).

Modelled and proved how: get_graphviz_header, get_graphviz_str; reference reader for identifiers

* `C47_statements` (`Prop_C14.v`): get_graphviz_str succeeds if the graph has display options and its label, if any, is text with a location; it consists of a header, one statement for each node in the order of the nodes, and one for each edge in the order of the edges, naming start and end. Names without quotes and backslashes are read as they are.
* examples: `C47_statements_ex`

### C48 — get_descendants/get_ancestors on plain objects are exact

Status: **proved**. For every finite set closed under the relation; the same code serves both directions.

Modelled and proved how: get_descendants.py, get_ancestors.py over an arbitrary relation; generic search theorem

* `C48_objects` (`Prop_C2c.v`): get_descendants (with [next] = __children__) and get_ancestors (with [next] = __parents__) on objects: with a finite set [U] of objects closed under [next], every recursion depth from the size of [U] on gives a result, and it lists exactly the other objects that can be reached.
* examples: `C48_objects_ex`

### C49 — max_depth returns exactly the relatives within that distance

Status: **partial**. The property is false of the code (refuted): a relative within the limit may be left out. Proved: soundness, direct relatives complete, limits at least the number of objects are exact, limits <= 0 give nothing; and every limit is exact when no object below is the child of two.

Modelled and proved how: get_descendants.py, get_ancestors.py over an arbitrary relation; generic search theorem; trees by disjointness of the parts below two children (ProofForest.v)

* `C49_max_depth_partial` (`Prop_C2c.v`): partial. Missing: completeness, an object within reach may be left out. What holds: every listed object is another object at most [d] steps away, listed once; with [d] at least 1 all children are listed; the distance entries are within [d] too.
* `C49_extreme_limits` (`Prop_C2c.v`): A limit of at least the number of objects is no limit; a limit of 0 or less gives nothing.
* `C49_max_depth_refuted` (`Prop_C2c.v`): is false: in 0 -> 1 -> 2 -> 3 -> 4 with the shortcut 0 -> 2, the object 4 is 3 steps away and is not returned with max_depth=3.
* `C49_forest_partial` (`Prop_C37.v`): partial. Missing: objects that are reached in several ways. If no object below [o] except [o] itself is the child of two objects below, the limit is exact: listed are exactly the other objects at most [d] steps away.
* examples: `C49_max_depth_ex`, `C49_extreme_limits_ex`, `C49_forest_ex`

### C50 — Membership test accepts names and nodes

Status: **partial**. False of nodes (refuted): `node in graph` raises TypeError for a node of the graph. Proved: exact for names; exact behaviour for nodes.

Modelled and proved how: __contains__ with Node.__hash__ and Node.__eq__

* `C50_contains_partial` (`Prop_C2c.v`): partial. Missing: nodes. What holds: names are decided; an object that is neither gives False.
* `C50_contains_nodes` (`Prop_C2c.v`): for nodes: [node in graph] is never True; it raises TypeError iff the graph has a node of that name, in particular for its own nodes.
* `C50_contains_refuted` (`Prop_C2c.v`): is false of nodes.
* examples: `C50_contains_ex`

### C51 — Strict graphs have no parallel edges

Status: **partial**. Refuted: the strict flag is never consulted; shown for every pair of nodes.

Modelled and proved how: connect, flag strict

* `C51_strict_refuted` (`Prop_C5.v`): False: graph 1 of the sample was created with strict=True; a second edge with another id between a and z is accepted.
* `C51_flag_ignored_partial` (`Prop_C5.v`): The flag has no effect on connect at all: with any extra id not yet used between the two nodes, connect makes one more edge whatever the flag is. What remains true is C06: no two edges with the same start, end and id.
* examples: `C51_flag_ignored_ex`

### C52 — A removed node can be added back

Status: **partial**. Refuted; exact effect of re-adding a removed node object and of adding a present one.

Modelled and proved how: remove_node, add_node of a node object

* `C52_readd_refuted` (`Prop_C5.v`): False: the node object is filed again, but it does not report the graph, and its queries fail.
* `C52_readd_exact_partial` (`Prop_C5.v`): exact. Adding a removed node object to a graph without its name: it is filed last, nothing else changes, and it goes on reporting no graph, so that every query that goes through node.graph fails.
* `C52_returns_none_partial` (`Prop_C5.v`): add_node of a node object that is already in the graph changes nothing and always returns None.
* `C52_returns_none_refuted` (`Prop_C5.v`): False: add_node(node) does not return the node.
* examples: `C52_readd_exact_ex`, `C52_returns_none_ex`

### C53 — Operations on one graph do not affect another

Status: **proved**. For every call and for sequences of calls that are not on the graph; builders only add objects.

Modelled and proved how: every constructor of `call`; footprint relation (ProofFrame)

* `C53_frame` (`Prop_C6.v`): Any call that works on another graph leaves graph g as it was: the graph object, its nodes and edges with all their attributes, and the style objects that only g uses, unless these are assigned to themselves.
* `C53_styles` (`Prop_C6.v`): Apart from stylize, render and assignments to style objects no call writes on an existing style object.
* `C53_sequence` (`Prop_C6.v`): So does any sequence of such calls.
* `C53_builders` (`Prop_C6.v`): A call that makes a new graph (constructor, copy, filter, from_lists, from_object, from_indented_text, random, from_dict, Graph(obj)) changes no existing object at all.
* examples: `C53_frame_ex`, `C53_sequence_ex`, `C53_styles_ex`, `C53_builders_ex`

### C54 — get_child_rank ranks children by index

Status: **proved**. For nodes of one graph that can be compared (str names, or any history without Node(graph, ...)); the failure with mixed names is exhibited.

Modelled and proved how: get_child_rank; counting over the sorted children

* `C54_rank` (`Prop_C4.v`): For two nodes of a reachable graph whose nodes can be compared with each other: if n is a child of p the rank is the number of entries of p.children that precede n, which is below the number of children; otherwise ValueError.
* `C54_distinct` (`Prop_C4.v`): Different children have different ranks, in their order.
* `C54_comparable` (`Prop_C4.v`): Nodes with str names can always be compared; so can, in histories without the direct constructor Node(graph, ...), all nodes of one graph.
* examples: `C54_incomparable_ex`, `C54_rank_ex`, `C54_distinct_ex`

### C55 — Rendering again works

Status: **partial**. Refuted for style dictionaries and the random stylist (C55_dict_refuted, C55_random_refuted). Proved: with the default stylist and no overwriting a second call succeeds and changes nothing (C55_default_partial). With the default stylist render leaves what stylize leaves and returns the drawing of that (C55_render_partial).

Modelled and proved how: stylize twice; second run shown to do nothing

* `C55_default_partial` (`Prop_C15.v`): With the default stylist and no overwriting, calling stylize again succeeds and changes nothing. Missing: display options that overwrite styles, for which it is false (C55_dict_refuted, C55_random_refuted).
* `C55_dict_refuted` (`Prop_C15.v`): refuted: Graph(node_style={'shape': 'circle'}) with one node raises RuntimeError the second time.
* `C55_random_refuted` (`Prop_C15.v`): refuted: with stylist 'random' and one node it raises RuntimeError the second time, whatever the shuffle.
* `C55_render_partial` (`Prop_C34.v`): With the default stylist and no overwrites, render styles the graph as stylize does, draws the result, and rendering again gives the same text and changes nothing.
* examples: `C55_default_ex`, `C55_render_ex`

### C56 — NodeStyle always has concrete colours, and copy preserves a style

Status: **partial**. Refuted (C56_recolour_refuted): lighter_fill=False is lost in the copy. Proved: every style has its colours, and copies look the same (C56_coloured_partial, C56_copy_partial); recolouring agrees when lighter_fill (C56_recolour_partial).

Modelled and proved how: NodeStyle and EdgeStyle constructors, setters, copy; invariant on style objects along histories (ProofColour)

* `C56_coloured_partial` (`Prop_C13.v`): in every reachable state every NodeStyle object has fill, border and text colours, and every EdgeStyle object has a text colour; so has whatever the constructors, copy and a colour assignment give.
* `C56_copy_partial` (`Prop_C13.v`): copying a NodeStyle succeeds, and the copy looks the same.
* `C56_recolour_partial` (`Prop_C13.v`): recolouring a copy gives what recolouring the original gives, if the fill is lighter than the main colour.
* `C56_recolour_refuted` (`Prop_C13.v`): refuted: with lighter_fill=False the copy forgets it, so that the new fill colour is lighter instead of darker.
* examples: `C56_copy_ex`, `C56_coloured_ex`

### C57 — EdgeStyle.copy preserves a style

Status: **partial**. Refuted (C57_copy_refuted): the label style is lost; C57_deepcopy_partial: copying a deep-copied style raises AttributeError. Proved: all else is kept (C57_copy_partial).

Modelled and proved how: NodeStyle and EdgeStyle constructors, setters, copy; invariant on style objects along histories (ProofColour)

* `C57_copy_partial` (`Prop_C13.v`): copying an EdgeStyle succeeds, and the copy agrees with it except for the label style.
* `C57_deepcopy_partial` (`Prop_C13.v`): the copy of a deep copy (as in the copy of a graph) raises AttributeError.
* `C57_copy_refuted` (`Prop_C13.v`): refuted: the label style is lost.
* examples: `C57_copy_ex`

### C58 — Names and edge labels survive DOT quoting

Status: **partial**. Refuted: quotes in names and edge labels are not escaped (C58_quote_refuted, C58_edge_label_refuted), nodes 1 and '1' coincide (C58_distinct_refuted). Proved for text without quotes and backslashes (C58_plain_partial). C58_converted_partial covers graphs with a converter of edge labels.

Modelled and proved how: get_graphviz_str of nodes and edges; reference reader for DOT quoted strings (SpecDot)

* `C58_plain_partial` (`Prop_C14.v`): a node name without quotes and backslashes reads back from the node statement; an edge label (or value) without them reads back from the edge statement, if there is no label converter. Missing: the other texts, and that different nodes have different identifiers; both are false.
* `C58_quote_refuted` (`Prop_C14.v`): refuted: the name of a node with a quote in it is cut short there, so that the statement is not that of the node.
* `C58_edge_label_refuted` (`Prop_C14.v`): refuted: the label of an edge with a quote in it is cut short there.
* `C58_distinct_refuted` (`Prop_C14.v`): refuted: the nodes 1 and '1' of a graph have the same statement.
* `C58_converted_partial` (`Prop_C54.v`): With a label converter for edges, the label attribute of an edge statement holds what the converter makes of the label; there is none if that is None. An edge without label shows its value, which is not converted.
* examples: `C58_plain_ex`, `C58_converted_ex`

### C59 — Roots get the colours of the scheme in turn

Status: **proved**. 

Modelled and proved how: as C42; exact content of the styles made

* `C59_roots` (`Prop_C15.v`): After a successful call of the default stylist, the nodes that had no style and of which every parent (if any) is on a cycle have the default node style with the colours of the scheme in turn, in node order.
* examples: `C59_roots_ex`

### C60 — Edges take a darker shade of their start's colour; existing styles stay

Status: **proved**. 

Modelled and proved how: as C42; exact content of the styles made

* `C60_edges` (`Prop_C15.v`): After a successful call of the default stylist every edge that had no style has the default edge style with the colour of its start node (the one it has now), a tenth darker (for the arrow size see C45_arrow_partial); and styles that were there before are unchanged.
* examples: `C60_edges_ex`

### C61 — Hashes are stable

Status: **partial**. The laws hold for nodes always and for edges while they belong to the graph (C61_node, C61_edge, C61_distinct). Refuted beyond that: a removed edge cannot be hashed (C61_removed_refuted), a disconnected one gets another hash (C61_disconnected_refuted).

Modelled and proved how: GraphObj.__hash__, Node.__hash__ (keys of the digest; that the digest of equal keys is equal is Python's); the evolution relation `evo` of ProofEvo over arbitrary histories

* `C61_node` (`Prop_C16.v`): The hash of a node object never changes, whatever calls are made.
* `C61_edge` (`Prop_C16.v`): An edge of a graph hashes by the graph and its id, and the hash stays the same as long as the edge is in the graph.
* `C61_distinct` (`Prop_C16.v`): Different edges of a graph, and edges of different graphs, have different keys.
* `C61_removed_refuted` (`Prop_C16.v`): The law ends with the membership: an edge that was removed cannot be hashed (it raises), so it cannot be looked up in a set or dict that holds it.
* `C61_disconnected_refuted` (`Prop_C16.v`): Disconnecting instead of removing changes the hash without an exception.
* examples: `C61_edge_ex`

### C62 — node_styles and edge_styles list exactly the styled objects

Status: **proved**. 

Modelled and proved how: node_styles, edge_styles (ModelMore); the comprehension is shown to be an `omap` of the node dict, resp. of the outward edges of all nodes

* `C62_nodes` (`Prop_C16.v`): graph.node_styles lists, in node order and under their names, exactly the nodes that have a style, each with it.
* `C62_edges` (`Prop_C16.v`): graph.edge_styles lists under their ids exactly the edges that have a style.
* examples: `C62_ex`

### C63 — raw_id can be assigned

Status: **partial**. Refuted: a renamed node is lost (C63_node_refuted), an edge with a new id cannot be removed, or another one is unlisted instead (C63_edge_refuted). Proved: exactly what happens (C63_node_partial, C63_edge_partial).

Modelled and proved how: raw_id setter (ModelMore) followed by get_node, children, disconnect, remove_self; direct computation under `WF`

* `C63_node_partial` (`Prop_C17.v`): Assigning node.raw_id changes only the name that the node reports: the graph keeps it under the old name; it is not found under the new one, and passing the node itself fails too, unless the graph has another node of the new name (which is then taken instead).
* `C63_node_refuted` (`Prop_C17.v`): So renaming a node by raw_id loses it.
* `C63_edge_partial` (`Prop_C17.v`): After edge.raw_id = u for an id that the two nodes do not have yet, the edge is still listed under the old id, and disconnect and remove_self raise KeyError and change nothing.
* `C63_edge_refuted` (`Prop_C17.v`): Giving an edge the id of another edge between the same nodes and removing it unlists the other edge instead.
* examples: `C63_node_ex`, `C63_edge_ex`

### C64 — Styling and rendering change nothing but styles

Status: **proved**. 

Modelled and proved how: stylize, render (ModelStylize, ModelDot); invariant `styles_only` preserved by every step of the stylists and of the overwriting loops (ProofStyOnly)

* `C64_stylize` (`Prop_C16.v`): stylize() changes nothing but styles, and only in its own graph - whether it returns or raises.
* `C64_render` (`Prop_C16.v`): So does render().
* examples: `C64_ex`

### C65 — Saving a drawing does not change what is drawn

Status: **proved**. 

Modelled and proved how: render with path, height and width (ModelMore), get_graphviz_str; the text is split at the size statements, the two halves do not depend on the arguments

* `C65_save` (`Prop_C17.v`): render(path=...) leaves the same state as render() and returns the same text, or raises the same exception; the text it saves is the returned one with the size lines inserted (the same text if neither height nor width is given).
* examples: `C65_ex`

### C66 — The DOT header reflects the options of the graph

Status: **partial**. Refuted for the ordering, which is inverted (C66_ordering_refuted). Proved: the exact header with its attribute line and when it raises (C66_attributes, C66_header_partial, C66_default_header), and that the background colour can be changed (C66_background).

Modelled and proved how: get_graphviz_header; unfolding, against a text specification in SpecMore

* `C66_header_partial` (`Prop_C17.v`): The header: opening, graph attributes (none, or one line), background, padding, ordering, size, direction. What is written about the ordering is the negation of what the graph was created with.
* `C66_ordering_refuted` (`Prop_C17.v`): A graph created with ordering=True gets no ordering statement, one created with ordering=False gets it.
* `C66_background` (`Prop_C33.v`): The background colour can be changed at any time: it is what the header then shows, and nothing else changes.
* `C66_attributes` (`Prop_C35.v`): The header in full: as C66_header_partial, the attribute line being the label, its location, font, colour and link, the tooltip and the extra keyword arguments, the latter taking precedence; it raises exactly if the label is not a text or the location is unusable.
* `C66_default_header` (`Prop_C35.v`): The exact header of a graph made by Graph() without options.
* examples: `C66_background_ex`, `C66_attributes_ex`, `C66_direction_ex`

### C67 — Branches inherit the colours of their parents

Status: **partial**. Refuted when a parent that is no root has a style of its own (C67_styled_parent_refuted) and for several parents that are no roots (C67_mixed_refuted). Proved: the exact style, as handed down from the roots (C67_handed_down_partial), and the claim for one parent without a style of its own (C67_single_partial) and several root parents (C67_several_partial).

Modelled and proved how: inherit_style, stylize_with_pensieve; the fuelled recursion is related to the inductive `hands_down` of SpecMore by induction on the fuel, over the state the stylist leaves

* `C67_handed_down_partial` (`Prop_C18.v`): A node without style that has a parent not on a cycle and is on no cycle itself gets the style that its ancestors hand down, all starting from the styles of the nearest ancestors that are roots (or have all parents on cycles). Missing: that this agrees with the styles of the parents (C67_styled_parent_refuted, C67_mixed_refuted).
* `C67_single_partial` (`Prop_C18.v`): If it has one parent edge, from p, and p had no style before either, or is a root, or has only parents on cycles: the colour of p with its hue turned by a twentieth of the diverging number for its rank among the children of p, then saturated; fill, border and text colours derived from it; everything else as in the style of p.
* `C67_several_partial` (`Prop_C18.v`): If it has several parent edges, all from roots or nodes with only parents on cycles: the mixture of the colours of the parents, in the order of node.parents, a twentieth paler; everything else as in the style of the first parent.
* `C67_styled_parent_refuted` (`Prop_C18.v`): refuted: in a -> b -> c with a green b, node c gets its colour from the red of the root a, not from b.
* `C67_mixed_refuted` (`Prop_C18.v`): refuted: in the diamond a -> b -> d, a -> c -> d the nodes b and c get different hues, but d gets the mixture of two equal colours that neither of them has.
* `C67_ingredients` (`Prop_C55.v`): A mixed colour keeps all its ingredients, in order.
* examples: `C67_single_ex`, `C67_several_ex`

### C68 — Style overwrites for single nodes show on these nodes only

Status: **partial**. Refuted for the entry 'colour', which never shows (C68_colour_refuted, C68_colour_partial), and for nodes that share a style object (C68_shared_refuted). Proved: exactly which style objects change and how (C68_exact_partial), and the claim when no style object is shared (C68_shows_partial). Styling with node styles that fit the graph succeeds (C68_succeeds_partial).

Modelled and proved how: the overwriting loops of stylize, NodeStyle.complement; the loop is shown to apply to each style object the concatenation of the entries for its nodes; effect of single entries specified by the record `applied` of SpecOver

* `C68_exact_partial` (`Prop_C19.v`): With overwrites only for single nodes (node_styles), a successful call of stylize does what the default stylist does, and then changes nothing but style objects: each of them by exactly the entries given for the nodes that have it.
* `C68_shows_partial` (`Prop_C19.v`): If no two nodes share a style object, then afterwards each node with an overwrite has the style that the stylist gave it, or that it had, with the entries of its overwrite; and every other node and every edge has the same style as without overwrites. Missing: shared style objects (C68_shared_refuted), and that the entry 'colour' shows (C68_colour_refuted).
* `C68_colour_partial` (`Prop_C19.v`): Overwrites that have only the entry 'colour' never show in the DOT text of any node.
* `C68_colour_refuted` (`Prop_C19.v`): refuted: a -> b, appended with node_styles making a green. The colour of the style of a is green afterwards, but its DOT text is as before, in every environment.
* `C68_shared_refuted` (`Prop_C19.v`): refuted: a and b were given the same NodeStyle object; the shape for a alone changes b, too.
* `C68_succeeds_partial` (`Prop_C34.v`): If the default stylist succeeds, so does stylize with styles for nodes of the graph that the stylist leaves with a style: any attribute that does not start with an underscore and is not a method may be given, colours as strings or Colours.
* examples: `C68_shows_ex`

### C69 — Colours can be set for single nodes and edges

Status: **partial**. Refuted: unless style_overwrite_allowed was given the overwrites raise RuntimeError (C69_node_colour_refuted), always (C69_never_partial); if it was given, the edges keep the shade of the old colour (C69_edge_shade_refuted). Proved: with overwriting allowed, the exact effect of node colours (C69_node_colours_partial) and of edge styles and edge colours (C69_edges_partial; the label style of a recoloured edge is lost, as in C57). Styling with overwrites of all four kinds that fit the graph succeeds (C69_succeeds_partial).

Modelled and proved how: the overwriting loops of stylize and the style setters of Node and Edge; every edge has a style after the default stylist, so each setter raises; otherwise invariant of the loop over node_colours

* `C69_never_partial` (`Prop_C21.v`): Unless style_overwrite_allowed was given, the default stylist and any entry in the overwrites of edge styles, node colours or edge colours never go together: stylize does not succeed.
* `C69_node_colours_partial` (`Prop_C21.v`): With overwriting allowed and only node colours given, a successful call of stylize does what the default stylist does; then each named node has the given colour, with fill, border and text colours derived from it, and the other attributes it got from the stylist or had before; all other nodes have the same style as without the overwrites, and so have the edges, also those that start at a named node.
* `C69_node_colour_refuted` (`Prop_C21.v`): refuted: a -> b, appended with the colour green for node a. stylize raises RuntimeError although nothing had a style before.
* `C69_edge_shade_refuted` (`Prop_C21.v`): refuted, with overwriting allowed: a becomes green, but the edge from a to b has the shade of red that it had without the overwrite.
* `C69_edges_partial` (`Prop_C31.v`): With overwriting allowed and only edge styles and edge colours given, a successful call of stylize does what the default stylist does; then each edge for which a style is given has a new style made of the given attributes; then each edge for which a colour is given is drawn in that colour, line and text, with its other attributes kept, except that the label style becomes the default one; the other edges and all nodes look as without the overwrites.
* `C69_succeeds_partial` (`Prop_C34.v`): If the default stylist succeeds, so does stylize with overwrites that fit the graph: they are for nodes and edges that are there, with attributes that exist and colours that are strings or Colours, and, except for node_styles alone, overwriting is allowed.
* examples: `C69_edges_ex`, `C69_succeeds_ex`

### C70 — The random stylist gives the colours of the scheme in turn

Status: **partial**. Refuted for a second stylize(), which raises RuntimeError (C70_again_refuted); so does every stylize() of a graph with a styled node when overwriting is not allowed (C70_raises_partial). Proved: the effect whenever it succeeds (C70_effect_partial), the arrow sizes (C70_arrow_partial) and that it succeeds when no node is styled or overwriting is allowed (C70_succeeds_partial).

Modelled and proved how: stylize_randomly, stylize_edges_based_on_nodes; invariant of the loop over the shuffled nodes, then the lemmas about the edge loop that C32 and C56 use, from the state in between

* `C70_succeeds_partial` (`Prop_C22.v`): With the stylist 'random', a non-empty scheme and values of the unstyled edges that are None or numbers, stylize succeeds if no node has a style or overwriting is allowed.
* `C70_effect_partial` (`Prop_C22.v`): When it succeeds, the i-th node in the shuffled order has the default style with the i-th colour of the scheme, in turn; every edge that had no style has the default style with the colour of its start a tenth darker (for the arrow size see C70_arrow_partial); the styles of the other edges are unchanged.
* `C70_raises_partial` (`Prop_C22.v`): If some node has a style already, and overwriting is not allowed, it raises RuntimeError.
* `C70_again_refuted` (`Prop_C22.v`): refuted: a -> b with the stylist 'random' and no styles. The first stylize succeeds, the second raises RuntimeError.
* `C70_arrow_partial` (`Prop_C57.v`): The arrow sizes when it succeeds: the i-th edge (in the order of graph.edges) of those that had no style has arrow size one half times the product of the values of this edge and of the edges before it that had no style (None counts as one), and the colour of its start a tenth darker.
* examples: `C70_ex`, `C70_arrow_ex`

### C71 — One style can be set for all nodes or all edges

Status: **partial**. Refuted: the colours of the stylist are lost (C71_scheme_refuted), shape 'auto' is emitted literally if some name has three characters (C71_auto_refuted), and no later stylize() succeeds unless overwriting is allowed (C71_raises_partial). Proved: after a successful stylize() every node (C71_nodes_partial) and every edge (C71_edges_partial) has exactly the style that the given arguments make. It succeeds if the arguments fit the graph (C71_succeeds_partial).

Modelled and proved how: the two passes of stylize that assign the dictionaries and the two that complement; NodeStyle and EdgeStyle constructors specified by the records `made_of`, `emade_of` of SpecOver; complementing a style with the arguments it was made of is shown to change nothing

* `C71_nodes_partial` (`Prop_C23.v`): With a style for all nodes, and possibly one for all edges, a successful call of stylize leaves every node with the style that NodeStyle makes of the given arguments, whatever the colour scheme; the shape 'auto' becomes 'circle' if all names have fewer than three characters.
* `C71_edges_partial` (`Prop_C23.v`): With a style for all edges, and possibly one for all nodes, a successful call of stylize leaves every edge with the style that EdgeStyle makes of the given arguments, whatever the colours of the nodes.
* `C71_raises_partial` (`Prop_C23.v`): If a style for all nodes is given, overwriting is not allowed and some node has a style already, e.g. from the last call, stylize does not succeed.
* `C71_scheme_refuted` (`Prop_C23.v`): refuted: a -> b with the scheme red, ... and the style shape = 'circle' for all nodes. After stylize node a is gray, although without the style it is red.
* `C71_auto_refuted` (`Prop_C23.v`): refuted: with the shape 'auto' a graph with the node abc gets the shape 'auto', which Graphviz does not have.
* `C71_succeeds_partial` (`Prop_C39.v`): stylize with a style for all nodes or one for all edges that fit the graph succeeds. (That a second call fails unless overwriting is allowed is C71_raises_partial.) Missing: graphs with an empty colour scheme or with nodes that cannot be compared.
* `C71_colour_given` (`Prop_C55.v`): A colour is given by its name or as a colour object and by nothing else.
* examples: `C71_ex`, `C71_succeeds_ex`

### C72 — The edges of a node are listed once, with their ids

Status: **partial**. Refuted for graph.get_edges: it lists a loop from the node to itself twice, node.edges once (C72_loops_refuted). Proved for everything else.

Modelled and proved how: from the invariant that the dictionaries of edges of the two ends agree; the ids are read off the keys of the dictionaries

* `C72_lists` (`Prop_C24.v`): node.outward_edges lists the edges that start in the node, node.inward_edges those that end there, node.edges both; each edge once.
* `C72_get_edges_partial` (`Prop_C24.v`): graph.get_edges lists first the edges that start in the node, then those that end there; so an edge is listed twice exactly if it is a loop from the node to itself. Missing: that each edge is listed once (C72_loops_refuted).
* `C72_loops_refuted` (`Prop_C24.v`): refuted for graph.get_edges: with one loop from a to a it lists the loop twice.
* `C72_outward_ids` (`Prop_C24.v`): node.outward_edge_ids are the ids of node.outward_edges in the same order, all different; get_outward_edge finds exactly these edges by their ids and raises KeyError for other ids; num_outward_edges counts them.
* `C72_inward_ids` (`Prop_C24.v`): The same for node.inward_edge_ids and get_inward_edge.
* examples: `C72_ex`

### C73 — invert_colours gives the negative of a style

Status: **partial**. Refuted: lighter_fill=False is lost (C73_lighter_refuted), a fill colour assigned later is lost (C73_assigned_refuted), the label style of an edge is lost (C73_label_style_refuted), and edge styles of copied graphs raise (second half of C73_edge_partial). Proved: the rest, for styles made with any arguments, and for twofold inversion of every style in a reachable state.

Modelled and proved how: the result of invert_colours is computed for a style with all colours; the flags that say which colours are derived are read off the arguments of the constructor

* `C73_node_partial` (`Prop_C25.v`): invert_colours of a NodeStyle made with the arguments [d] has the inverse of the main colour, the inverses of the colours that were given, and derives the others from the new main colour as a style with a lighter fill does; everything else stays. Missing: that a darker fill stays darker (C73_lighter_refuted).
* `C73_twice_partial` (`Prop_C25.v`): invert_colours works for every NodeStyle in use, and gives again a style with all colours; inverting twice gives the double inverses of the colours that were not derived and derives the others from the double inverse of the main colour. So it gives the old style back if double inversion does and the fill was the lighter one.
* `C73_lighter_refuted` (`Prop_C25.v`): refuted: with lighter_fill=False the inverted style has a fill lighter than its main colour.
* `C73_assigned_refuted` (`Prop_C25.v`): refuted: a fill colour that was assigned after the style was made (by complement, as the option node_styles does) is not inverted but lost.
* `C73_edge_partial` (`Prop_C25.v`): The same for EdgeStyle; the label style is lost. Missing: the label style (C73_label_style_refuted), and styles of copied graphs (they raise AttributeError).
* `C73_label_style_refuted` (`Prop_C25.v`): refuted for edges: the label style is lost.
* `C73_edge_again` (`Prop_C47.v`): Whether the text colour of an edge style was given is remembered: after inverting a style made with the arguments [d], assigning another main colour and inverting again, the text has the inverse of the new main colour if no text colour was given, and the double inverse of the given one otherwise.
* examples: `C73_ex`, `C73_edge_again_ex`

### C74 — SVG, HTML and notebook display show what render gives

Status: **proved**. The claim about displaying again is for the default stylist without overwriting (otherwise see C55).

Modelled and proved how: rendering keeps the display options, so choosing the direction before or after stylizing is the same; C55 for the repetition

* `C74_same` (`Prop_C27.v`): get_svg(direction, pad) and get_html(direction, pad) hand Graphviz the same text as render(direction, pad), leave the same state, and raise the same exceptions; a notebook that displays the graph gets this text for the direction of the graph and the default padding.
* `C74_again` (`Prop_C27.v`): With the default stylist and no overwriting, displaying the graph again - as SVG, as HTML or in a notebook - shows the same text and changes nothing.
* examples: `C74_ex`

### C75 — The DOT text reads back as the graph

Status: **proved**. The reader (SpecRead.v) is a scanner and parser for the part of the DOT grammar that occurs. harmless lists the conditions on the texts: no quotes or backslashes (node labels may have them), no label converters, a graph label that is no HTML and has no background. Without them see C46, C58.

Modelled and proved how: each piece of the text is scanned into tokens between statement boundaries; the parser reads a statement at a time, so the pieces compose

* `C75_read` (`Prop_C28.v`): the text of a graph is DOT text, and reading it gives the graph: whether it is strict, the attributes of the graph, one node statement for each node in the order of the nodes, with its name, label, tooltip and style, and one edge statement for each edge in the order of the edges, with the names of its ends, its label, tooltip and style; nothing else. The texts are free of quotes and backslashes (see harmless).
* `C75_same` (`Prop_C28.v`): two graphs with the same text are both strict or both not, and have the same names of nodes and of the ends of edges, in the same order.
* examples: `C75_ex`

### C76 — append, Graph(obj=dict) and from_dict add exactly what the dictionary describes

Status: **proved**. acceptable lists what append accepts (string names, no style objects, ends of edges known, colours and styles only for given edges). Repeated names and ids are the subject of C32. C76_list asks that the ends of edges are in the graph or in the same dictionary.

Modelled and proved how: append is run step by step; each step keeps a description of the whole graph (its nodes and edges with attributes, flags, display options)

* `C76_append` (`Prop_C29.v`): append with a dictionary whose node names and edge ids are new succeeds, and the graph then has the nodes and edges it had, unchanged and first, followed by the nodes and edges given, with the attributes given and in the order given; the strict and ordering flags and the display options given replace the present ones, the others stay; no warning is given.
* `C76_graph_of` (`Prop_C29.v`): Graph(obj=dictionary) makes a new graph with exactly the nodes and edges given, with their attributes, the flags of the dictionary or else the arguments, and the display options of the dictionary or else the arguments; overwriting is allowed if the dictionary says so.
* `C76_from_dict` (`Prop_C29.v`): from_dict makes a new graph with exactly the nodes and edges given.
* `C76_list` (`Prop_C35.v`): append with a list of dictionaries, all of whose node names and edge ids are new and different, has the effect of appending them one after the other.
* `C76_list_stops` (`Prop_C35.v`): append with a list stops at the first item that raises; what was appended before stays.
* examples: `C76_ex`, `C76_list_ex`

### C77 — Parameters read back what was last assigned

Status: **proved**. 

Modelled and proved how: every call is a sequence of basic steps; each step keeps the entry unless it is an assignment to it

* `C77_node_history` (`Prop_C32.v`): What is read under a key of a node stays the same, whatever calls are made, until that key of that node is assigned.
* `C77_edge_history` (`Prop_C32.v`): The same for edges.
* `C77_set_get` (`Prop_C32.v`): A value assigned under a key is what is read under it, right after and at any later time before the next assignment; assigning never fails.
* `C77_new` (`Prop_C54.v`): The keyword arguments that a new node or edge is made with are its first parameters: they are read back under their keys, and other keys raise KeyError.
* examples: `C77_ex`, `C77_new_ex`

### C78 — Objects keep their identity for life

Status: **proved**. As everywhere, the histories do not pass a removed Node object to add_node (C52) and do not assign raw_id (C63).

Modelled and proved how: every call is a sequence of basic steps; a relation between the old and the new object is kept by each step and transitive

* `C78_node` (`Prop_C32.v`): A node object keeps its name, its index and its tooltip for ever; it belongs to the graph it was made in or, once removed, to none, and then never to any graph again.
* `C78_edge` (`Prop_C32.v`): An edge object keeps its start, its end, its extra id and its graph as long as it is in a graph; once it is out, it never gets into any graph again.
* `C78_lookup` (`Prop_C32.v`): So a name denotes the same node object, and an edge joins the same nodes under the same id, until they are removed;
* `C78_gone` (`Prop_C32.v`): and afterwards the removed objects never come back: no name denotes the removed node in any graph, no edge has it as an end, and the removed edge joins nothing.
* examples: `C78_ex`

### C79 — Attributes assigned to a style object show on exactly the objects using it

Status: **partial**. Refuted for the main colour of a node style: fill, border and text colours are always set already, so assigning it changes no node statement (C79_colour_refuted; C79_colour shows this for every state). Refuted that a complement that raises changes nothing (C79_atomic_refuted): the entries before the one that raises stay assigned (C79_stops, C79_edge_stops). Proved for the style objects: exactly the assigned attributes change (C79_assign, C79_edge_assign, and for several at once C79_many, C79_edge_many), everything else is drawn as before (C79_others, C79_edge_others), new objects are unused (C79_new, C79_edge_new). Copies and inverses are described by C79_derived and C79_edge_derived, unknown keywords by C79_keywords.

Modelled and proved how: calculation with complement on one entry, induction over the entries for several, the invariant that all style objects have concrete colours, and well-formedness (style references exist)

* `C79_others` (`Prop_C33.v`): Assigning attributes of a style object changes this object only; nodes that do not use it keep their styles and are drawn as before, and so are all edges.
* `C79_edge_others` (`Prop_C33.v`): The same for edge styles.
* `C79_assign` (`Prop_C33.v`): Assigning one attribute of a node style object always works, sets this attribute and no other one, and all nodes that use the object have the new attributes at once.
* `C79_edge_assign` (`Prop_C33.v`): The same for edge style objects.
* `C79_colour` (`Prop_C33.v`): But assigning the main colour of a node style changes the statement of no node and of no edge in the DOT text: the colours that are drawn are always set already.
* `C79_new` (`Prop_C33.v`): New style objects, made or derived from others, are used by no node or edge, and nothing else changes.
* `C79_edge_new` (`Prop_C33.v`): The same for edge styles.
* `C79_colour_refuted` (`Prop_C33.v`): Not every attribute shows: node a is drawn the same after the colour of its style is set to blue, although the style gives blue as its colour.
* `C79_many` (`Prop_C47.v`): style.complement with several attributes assigns them one after the other and touches no other attribute.
* `C79_edge_many` (`Prop_C47.v`): The same for edge style objects.
* `C79_stops` (`Prop_C47.v`): If a later entry has a name with an underscore that is no attribute, complement raises ValueError; the entries before it stay assigned, those after it are not looked at.
* `C79_edge_stops` (`Prop_C47.v`): The same for edge style objects.
* `C79_atomic_refuted` (`Prop_C47.v`): So it is not true that a complement that raises leaves the style as it was.
* `C79_keywords` (`Prop_C54.v`): NodeStyle and EdgeStyle called with a keyword argument that they do not know raise TypeError and make no object.
* `C79_derived` (`Prop_C54.v`): style.copy() of a node style object always works and makes an object that looks the same and keeps in mind which colours are derived; style.invert_colours() always works and makes one with the inverted colours.
* `C79_edge_derived` (`Prop_C54.v`): The same for edge style objects, unless they come from copying a graph: then both raise AttributeError. The label style is not kept.
* examples: `C79_ex`, `C79_stops_ex`, `C79_many_ex`, `C79_keywords_ex`, `C79_derived_ex`

### C80 — The stylists called directly use their templates and ratios as documented

Status: **partial**. Refuted: with a template the colours of branches come from the template's colour, not the parent's (C80_hue_refuted); lighter_fill and label_style of the template are lost (C80_lighter_refuted, C80_label_refuted). Proved for every reachable graph, template and ratio: equality with stylize without templates (C80_default_partial), the roots (C80_roots_partial), the branches with the rule the code follows (C80_branches_partial), the edges (C80_edges_partial), exactly when it succeeds (C80_succeeds_partial), and the random stylist (C80_random_partial). Without a template the colours of the branches for any ratios (C80_ratios_partial). Missing: templates whose arrow size is not a number.

Modelled and proved how: the lemmas about the default stylist restated for templates; induction over the nodes and edges, and over the recursion of inherit_style with the nodes already visited as measure

* `C80_default_partial` (`Prop_C36.v`): Without templates and with the default ratios the direct calls do what stylize does for a graph with the default stylist, or with the stylist 'random', and no overwrites: the same state and the same result, whatever the state.
* `C80_roots_partial` (`Prop_C36.v`): stylize_with_pensieve called with any templates (or none) and any ratios, if it succeeds: only objects of the graph without style get one; the nodes that have one afterwards are those that had one, the roots, those with all parents on cycles, and those on no cycle; the i-th root without style gets the i-th colour of the scheme in turn, with the colours derived from it and the other attributes of the template. Missing: the colours of the branches (C80_branches_partial), and that lighter_fill and label_style are taken from the template, which is false (C80_lighter_refuted, C80_label_refuted).
* `C80_branches_partial` (`Prop_C36.v`): With a template for nodes, a node that had no style, is no root, has a parent on no cycle and is on no cycle itself gets the template's attributes; its colour comes from the template's colour by the rule of [template_colour].
* `C80_edges_partial` (`Prop_C36.v`): The i-th edge (in the order of graph.edges) of those that had no style gets the template's opacity, font, text size and line width, the colour of its start darkened by the given ratio, and as arrow size the template's times the product of its own value and those of the edges before it that had no style (None counts as one).
* `C80_succeeds_partial` (`Prop_C36.v`): It succeeds exactly if the start of every edge without style has a style, or is a root, or has only parents on cycles, or is on no cycle, and the values of these edges are None or numbers (for a non-empty colour scheme and comparable nodes); templates and ratios do not matter.
* `C80_random_partial` (`Prop_C36.v`): stylize_randomly called with any templates (or none) and any darkness, for a non-empty scheme, if it succeeds: the i-th node in the shuffled order has the i-th colour of the scheme, in turn, and the template's attributes; every edge that had no style has the template's attributes and the colour of its start darkened by the ratio; the styles of the other edges are unchanged. It succeeds if no node has a style or overwriting is allowed, and the values of the unstyled edges are None or numbers.
* `C80_hue_refuted` (`Prop_C36.v`): refuted: a -> b with the green template. The root a is red, the first colour of the scheme; b gets the hue of green, not that of its parent, turned.
* `C80_lighter_refuted` (`Prop_C36.v`): refuted: the template has lighter_fill off, the style of the root made from it has it on.
* `C80_label_refuted` (`Prop_C36.v`): refuted: the template for edges has label_style 'above', the style made from it 'below'.
* `C80_ratios_partial` (`Prop_C38.v`): Without a template for nodes, whatever the ratios, a node that had no style, is no root, has a parent on no cycle and is on no cycle itself gets the style that its ancestors hand down with these ratios. Missing: that this agrees with the styles of the parents (C67_styled_parent_refuted, C67_mixed_refuted).
* examples: `C80_ex`, `C80_ratios_ex`

### C81 — Only removals remove, only additions add

Status: **proved**. For every call of the model and every existing graph, including calls that raise half-way. What append may add is the subject of C32 and C76.

Modelled and proved how: the effect of every call on names and joins computed case by case; graphs that are not the target of the call are framed by call_unchanged; the last theorem is an induction over histories

* `C81_node_lost` (`Prop_C40.v`): A node leaves its graph only through remove_node of that node: any other call, whether it returns or raises, leaves it where it is.
* `C81_edge_lost` (`Prop_C40.v`): An edge leaves its graph only through disconnect or remove_self of that edge, remove_edges of one of its ends, or remove_node of one of its ends.
* `C81_node_made` (`Prop_C40.v`): A node comes into an existing graph only through add_node, Node or append on that graph; add_node and Node bring only a node of the name given.
* `C81_edge_made` (`Prop_C40.v`): An edge comes into an existing graph only through connect, connect_to, connect_from or Edge, given the two nodes it then joins, or through append on that graph.
* `C81_history` (`Prop_C40.v`): So along any sequence of calls, failing ones included, without remove_node on the graph every node of it stays, and without remove_node, disconnect, remove_self and remove_edges every edge.
* examples: `C81_ex`

### C82 — Values and labels change only when assigned, and read back as assigned

Status: **proved**. Objects removed from their graph are not covered; append is counted as a call that may assign (what it assigns is in C32 and C76).

Modelled and proved how: the effect of every call on the value and label fields computed case by case, then induction over histories

* `C82_node` (`Prop_C41.v`): The value and the label of a node of a graph change only through an assignment to them, which gives the value assigned, through add_node naming the node, which gives the value passed, and through append on the graph. Whatever else is called, and whether it returns or raises, they stay.
* `C82_edge` (`Prop_C41.v`): The same for an edge; the calls that may name it are connect, connect_to and connect_from, given its two ends.
* `C82_set_get` (`Prop_C41.v`): So what was assigned is what is read, until the next such call, as long as the node (the edge) is in the graph: for calls of any kind, an assignment gives exactly the value unless the object is frozen, and a history without assigning calls keeps it.
* examples: `C82_ex`

### C83 — Connecting and removing change ancestors, descendants and loops exactly as paths change

Status: **proved**. Stated on the lists the queries return before and after the call.

Modelled and proved how: the relation between the edges before and after (C05, C06, C08, C09, C81) lifted to transitive closures, combined with the exactness of the queries (C14, C15, C17)

* `C83_connect` (`Prop_C43.v`): connect adds to the descendants of a node exactly this: a node that is the start of the edge or an ancestor of it gains the end of the edge and its descendants. All other lists of descendants stay the same.
* `C83_connect_up` (`Prop_C43.v`): The same seen from below: ancestors.
* `C83_connect_loops` (`Prop_C43.v`): The loops that connect closes: on a loop afterwards are the nodes that were on one and those that lie on the way from the end of the new edge back to its start. So a graph without loops stays without iff the start is neither the end nor a descendant of the end.
* `C83_disconnect` (`Prop_C43.v`): Removing an edge that another path bypasses (its end is still a descendant of its start afterwards) changes no list of ancestors or descendants; in general it adds nothing to them.
* `C83_remove_node` (`Prop_C43.v`): After remove_node a node reaches another iff it did so before along nodes other than the one removed.
* `C83_grow` (`Prop_C43.v`): Along any sequence of calls without removals, failing calls included, ancestors and descendants stay ancestors and descendants and loops stay loops.
* examples: `C83_ex`

### C84 — render(path) writes the file it is given, in the format of its extension

Status: **partial**. Refuted: output_format is computed but not used, so g.png is written as g.pdf (C84_format_refuted). Proved for every path: the extension is replaced by .pdf, so the right file is written iff the extension is .pdf (C84_extension_partial); without extension .pdf is appended (C84_plain_partial). The default format of the graphviz package is taken from its documentation. (dpi is not used either: the lines 345-346 are commented out.)

Modelled and proved how: splitext is proved to split exactly at the extension, by induction over the path

* `C84_extension_partial` (`Prop_C44.v`): partial. Missing: other extensions than .pdf, see below. If the path has an extension, it is replaced by .pdf: the file written is the one asked for iff the extension is .pdf.
* `C84_plain_partial` (`Prop_C44.v`): partial. If it has none, .pdf is appended.
* `C84_format_refuted` (`Prop_C44.v`): is false: asked for g.png, render writes g.pdf.
* examples: `C84_ex`

### C85 — str tells the nodes and the edges of a graph apart

Status: **partial**. Refuted: the nodes '1' and 1, and parallel edges, have the same text (C85_apart_refuted). Proved: the texts (C85_text_partial), that nodes with names of the same type differ (C85_nodes_partial), that edges with the same text have ends with the same text unless a dash is in the name of a start (C85_edges_partial), and what happens after removal: after disconnect the text stays, after remove_self str raises ValueError (C85_removed_partial).

Modelled and proved how: well-formedness of reachable heaps; injectivity of the decimal text of integers; splitting at the first dash

* `C85_text_partial` (`Prop_C45.v`): partial. Missing: names such as 1 and '1', and parallel edges, see below. The text of a node of a graph is Node: and its name, that of an edge is Edge: and the texts of its ends with a dash between.
* `C85_nodes_partial` (`Prop_C45.v`): partial. Two nodes of a graph whose names are both strings or both integers have different texts.
* `C85_edges_partial` (`Prop_C45.v`): partial. Two edges with the same text have ends with the same texts, as long as no dash occurs in the names of their starts.
* `C85_apart_refuted` (`Prop_C45.v`): is false: the nodes '1' and 1 of a graph have the same text, and so have two parallel edges.
* `C85_removed_partial` (`Prop_C45.v`): partial. Of an edge that was removed: after disconnect it has the text it had before, after remove_self str raises ValueError.
* examples: `C85_ex`

### C86 — Warnings are issued only for repeated names, once each, and never taken back

Status: **proved**. from_lists, from_indented_text and random issue no warning by C27, C30 and C31. Which warnings from_object and add issue is not described beyond C86_kept (they call append and add_node).

Modelled and proved how: a predicate on computations (only warnings satisfying W are appended) closed under the monad, then a case per call

* `C86_quiet` (`Prop_C46.v`): Every call other than add_node with a name, connect, connect_to, connect_from, the constructors of whole graphs, append and add issues no warning, whether it succeeds or raises.
* `C86_kept` (`Prop_C46.v`): No call takes back a warning: those issued before stay, in their order, and new ones come after them.
* `C86_add_node` (`Prop_C46.v`): add_node with a name warns exactly once, about that name, when the graph has a node of that name and the mode is 'warn', and not at all otherwise; this holds also when it raises afterwards.
* `C86_connect` (`Prop_C46.v`): connect warns exactly once, about the edge it names, when that edge exists and the mode is 'warn', and not at all otherwise; this holds also when it raises.
* `C86_append` (`Prop_C46.v`): Appending a dictionary warns only about the nodes it lists, unless their entries ask for another mode, and about edges with the ids it lists, likewise.
* examples: `C86_ex`

### C87 — Constructing objects directly keeps graphs consistent

Status: **partial**. Refuted (C87_node_refuted, C87_edge_refuted). Proved: new names and new ids between nodes of the graph keep it consistent (C87_fresh_partial). In every other case it is proved that the call does not raise, what it does exactly (C87_node, C87_edge), and that the graph is inconsistent afterwards, in every state (C87_node_breaks, C87_edge_breaks, C87_foreign, C87_half_removed, C87_half_appended); C87_stale shows that removing the replaced edge then takes out the new one.

Modelled and proved how: closed forms of the two constructors without freshness hypotheses; each breakage contradicts one clause of `consistent`

* `C87_fresh_partial` (`Prop_C48.v`): Node(graph, name) and Edge(graph, start, end, id) called with a new name, or with an id that the two nodes of the graph do not have yet, keep everything consistent.
* `C87_node` (`Prop_C48.v`): Node(graph, name) with the name of a node [r] of the graph does not raise: a new node without edges takes the place of [r] in the graph.
* `C87_node_breaks` (`Prop_C48.v`): Then [r] is no longer in the graph, but still says that it is and keeps its edges; so the graph is inconsistent, whatever the graph is.
* `C87_edge` (`Prop_C48.v`): Edge(graph, start, end, id) with the id of an edge [e0] between the two nodes does not raise: a new edge takes the place of [e0] at both ends.
* `C87_edge_breaks` (`Prop_C48.v`): Then [e0] is listed at none of its ends any more, but still says that it is an edge of the graph between them; so the graph is inconsistent, whatever the graph is.
* `C87_stale` (`Prop_C48.v`): Removing [e0], which the program may still hold, then takes the new edge out of the graph: afterwards no node lists it, but it says that it joins its ends.
* `C87_foreign` (`Prop_C48.v`): Edge(graph, start, end) does not test that its ends are nodes of the graph: with a start or an end of another graph, or of none, the result is inconsistent.
* `C87_half_removed` (`Prop_C48.v`): remove_outward_edge (remove_inward_edge) of an edge the node lists does not raise and leaves the edge at its other end.
* `C87_half_appended` (`Prop_C48.v`): append_outward_edge (append_inward_edge) of an edge of a graph at a node that is not its start (end) does not raise and makes the graph inconsistent.
* `C87_node_refuted` (`Prop_C48.v`): refuted: after Node(graph, 'b') for the existing name b the edge of a leads to a node that is not in the graph.
* `C87_edge_refuted` (`Prop_C48.v`): refuted: a second Edge between a and b makes the graph inconsistent.
* examples: `C87_foreign_ex`

### C88 — reset_colours and a new colour recolour a style and all that use it

Status: **proved**. reset_colours is not among the calls of a history (Ops.v), because most theorems about drawing rely on all styles having colours; the theorems hold for every heap.

Modelled and proved how: calculation with the setter of the main colour and the constructor

* `C88_reset` (`Prop_C49.v`): reset_colours takes the fill, border and text colours away and changes nothing else, neither of this style nor of anything else.
* `C88_edge_reset` (`Prop_C49.v`): For edge styles only the text colour is taken away; the text is then drawn in the main colour.
* `C88_recolour` (`Prop_C49.v`): If the main colour is assigned after that, the style has the colours that a new style of this colour and the same lighter_fill has, all of them derived; the other attributes stay, and all nodes that use the style show it.
* `C88_edge_recolour` (`Prop_C49.v`): The same for edge styles: the text gets the new main colour.
* examples: `C88_given_ex`, `C88_ex`

### C89 — Laws of filter: complement, idempotence, monotonicity, relatives kept

Status: **proved**. The graphs are those that C26 determines; the direction has no influence (C26_refuted).

Modelled and proved how: from the exact result of filter (C26): paths of the part go down to the graph, and paths from or to a given node stay within the kept names

* `C89_partition` (`Prop_C50.v`): The nodes that filter with 'include' and 'exclude' keep are complementary: every name of the graph is in exactly one of the two results, no other name is.
* `C89_relatives` (`Prop_C50.v`): In the graph that filter gives for 'include', the nodes asked for have the same ancestors and descendants as before.
* `C89_again` (`Prop_C50.v`): Filtering the result again, with the same nodes and 'include', keeps all of it.
* `C89_monotone` (`Prop_C50.v`): More nodes asked for keep more.
* `C89_nothing` (`Prop_C50.v`): Without nodes asked for, 'include' gives an empty graph and 'exclude' a copy.
* examples: `C89_ex`

### C90 — A graph exported as lists of names and rebuilt has the same paths

Status: **proved**. Nodes without edges are not exported.

Modelled and proved how: from the exact result of from_lists (C27) and the enumeration of the edges (C12); induction on the length of the walk

* `C90_rows` (`Prop_C51.v`): from_lists: a node for each name in a row, an edge between two nodes exactly where there is a row for it, and walks of every length as the rows compose.
* `C90_rebuild` (`Prop_C51.v`): If the rows are the edges of some graph, the graph that from_lists makes of them has the nodes that have an edge, and the same walks: so the same relatives, at the same distances, and cycles only if that graph has.
* `C90_export` (`Prop_C51.v`): Exporting graph.edges of any graph with string names as lists of the names of the starts and ends, and making a graph of them, whatever the labels: it succeeds, and gives the nodes that have an edge, the same walks, and one edge per edge.
* examples: `C90_export_ex`

### C91 — Texts in styles survive DOT quoting

Status: **partial**. Refuted: quotes inside are not escaped, so the text is cut short and the text of the graph is not even DOT text (C91_inner_refuted). Proved: any number of quotes around is dropped (C91_quoted_partial, C91_edge_quoted_partial), and texts without quotes and backslashes inside read back (C91_read_partial, C91_edge_read_partial). With C75 this extends to the whole text.

Modelled and proved how: induction on the text (strip), and the scanner of C46

* `C91_quoted_partial` (`Prop_C52.v`): The text of a node style is that of the style whose font, shape and shape style lack the double quotes around them, however many.
* `C91_edge_quoted_partial` (`Prop_C52.v`): The same for an edge style: its font and label style.
* `C91_read_partial` (`Prop_C52.v`): A font, shape or shape style without quotes and backslashes inside reads back from the text of the node style, without the quotes around it.
* `C91_edge_read_partial` (`Prop_C52.v`): The same for the font and the label style of an edge style.
* `C91_inner_refuted` (`Prop_C52.v`): refuted: a font with a quote inside is cut short there, and the text of a graph with a node of that style is no DOT text.
* examples: `C91_read_ex`

### C92 — Similar graphs form classes with the same paths; copies are similar

Status: **partial**. Refuted for copies of graphs with a styled edge (C92_copy_refuted): styles are compared as objects and the copy has its own, so the answer is always False (C92_styled_copy_partial). Proved for all other graphs (C92_copy_partial), and the rest without restriction.

Modelled and proved how: from the exact meaning of is_similar_to (C37) and of copy (C23, C25); induction on the length of the walk

* `C92_transitive` (`Prop_C53.v`): is_similar_to is transitive (for reflexive and symmetric see C37).
* `C92_paths` (`Prop_C53.v`): Similar graphs have walks of the same lengths between the same names, so the same relatives at the same distances, and cycles only together.
* `C92_copy_partial` (`Prop_C53.v`): A copy is similar to the graph, if no edge of it has a style.
* `C92_styled_copy_partial` (`Prop_C53.v`): A copy is never similar to a graph that has an edge with a style: the copy has style objects of its own, and these are compared as objects.
* `C92_copy_refuted` (`Prop_C53.v`): refuted for copies: a graph with one styled edge.
* examples: `C92_ex`

{
 "C01": "all mutators, constructors and builders of `call`; invariant of the heap (`WF`, ProofWF) preserved by every call, induction over the history",
 "C02": "add_node (_BasicGraph.py:253-321) with Node.__init__; closed form of the heap after each branch, then a frame corollary",
 "C03": "add_node (_BasicGraph.py:253-321) with Node.__init__; closed form of the heap after each branch, then a frame corollary",
 "C04": "add_node, remove_node, Node comparison, `sorted`; invariants on indices along histories (ProofIndex)",
 "C05": "connect (_BasicGraph.py:670-716) with Edge.__init__; branch analysis under `WF`, closed form of the resulting heap",
 "C06": "connect (_BasicGraph.py:670-716) with Edge.__init__; branch analysis under `WF`, closed form of the resulting heap",
 "C07": "connect followed by disconnect or remove_self, composed from the closed forms of C05 and C09",
 "C08": "remove_node, Node.remove_edges; induction over the list of incident edges (ProofRemove)",
 "C09": "disconnect, Edge.remove_self; closed form under `WF`",
 "C10": "connect; the two dictionaries are mirror images under `WF`",
 "C11": "lookup in the node dictionary; every listed call evaluates it first",
 "C12": "edges, edges_dict, parents, children and their counts; counting over the mirrored dictionaries (ProofC2)",
 "C13": "edges, edges_dict, parents, children and their counts; counting over the mirrored dictionaries (ProofC2)",
 "C14": "the recursive traversals with a shared visited list (fuelled); one generic depth-first-search theorem (ProofDfs), instantiated; fuel never runs out",
 "C15": "the recursive traversals with a shared visited list (fuelled); one generic depth-first-search theorem (ProofDfs), instantiated; fuel never runs out",
 "C16": "the recursive traversals with a shared visited list (fuelled); one generic depth-first-search theorem (ProofDfs), instantiated; fuel never runs out",
 "C17": "the recursive traversals with a shared visited list (fuelled); one generic depth-first-search theorem (ProofDfs), instantiated; fuel never runs out",
 "C18": "roots (loop over nodes and their descendants), absolute_roots; loop invariant",
 "C19": "siblings, spouses, co_parents in Node.py and _BasicGraph.py; set characterisation and list equality",
 "C20": "leaves, absolute_roots; unfolding under C13",
 "C21": "the same traversals with distance=True; walk invariant, counterexamples by computation; chains by an invariant of the traversal (ProofForest.v)",
 "C22": "Node.get_tree_str, Graph.get_tree_str (fuelled); the text is shown to be the printing of a forest with the stated shape (ProofTree)",
 "C23": "deepcopy through __getstate__/__setstate__ (ModelBuild.copy); explicit bijection, then the frame theorem C53",
 "C24": "as C23, with the state of NodeStyle; exact success condition",
 "C25": "as C23; queries commute with the bijection, display attributes are missing",
 "C26": "filter on top of copy and remove_node; fold over the removed nodes",
 "C27": "from_lists; loop invariant (ProofBuild)",
 "C28": "from_object with arbitrary __children__, __parents__, __hash__; the traversal lists every relative after one it is next to, so in a forest every edge is made between existing nodes",
 "C29": "parse_indentations on strings; round trip with a printer of outlines (ProofText)",
 "C30": "from_indented_text; loop invariant over the parsed lines; tree property from the parent numbers",
 "C31": "random, for all streams of draws; loop invariant; acyclic because edges increase the number",
 "C32": "append, __graph__, Graph(obj), from_dict, add; relation `grows` between heaps (ProofGrow, ProofGrow2), composed over nodes and edges",
 "C33": "append, __graph__, Graph(obj), from_dict, add; relation `grows` between heaps (ProofGrow, ProofGrow2), composed over nodes and edges",
 "C34": "append, __graph__, Graph(obj), from_dict, add; relation `grows` between heaps (ProofGrow, ProofGrow2), composed over nodes and edges",
 "C35": "append, __graph__, Graph(obj), from_dict, add; relation `grows` between heaps (ProofGrow, ProofGrow2), composed over nodes and edges",
 "C36": "add, append; frame theorem",
 "C37": "is_similar_to on graphs, nodes, edges; both directions by evaluation of the folds",
 "C38": "comparison methods of Node and GraphObj",
 "C39": "setters, add_node, connect; preservation along histories (ProofHist, ProofSet)",
 "C41": "setters, add_node, connect; preservation along histories (ProofHist, ProofSet)",
 "C40": "add_node, connect; classification of all raising runs",
 "C42": "stylize with stylize_with_pensieve, inherit_style, edge styling; invariants of the three phases (ProofStylize)",
 "C43": "get_least_used_colour; the table after k steps in closed form",
 "C44": "generate_diverging_numbers, get_diverging_number; sorting proved against the closed form",
 "C45": "stylize_edges_based_on_nodes; invariant for the carried style object",
 "C46": "get_graphviz_str of nodes and edges; reference reader for DOT quoted strings (SpecDot)",
 "C58": "get_graphviz_str of nodes and edges; reference reader for DOT quoted strings (SpecDot)",
 "C47": "get_graphviz_header, get_graphviz_str; reference reader for identifiers",
 "C48": "get_descendants.py, get_ancestors.py over an arbitrary relation; generic search theorem",
 "C49": "get_descendants.py, get_ancestors.py over an arbitrary relation; generic search theorem; trees by disjointness of the parts below two children (ProofForest.v)",
 "C50": "__contains__ with Node.__hash__ and Node.__eq__",
 "C51": "connect, flag strict",
 "C52": "remove_node, add_node of a node object",
 "C53": "every constructor of `call`; footprint relation (ProofFrame)",
 "C54": "get_child_rank; counting over the sorted children",
 "C55": "stylize twice; second run shown to do nothing",
 "C56": "NodeStyle and EdgeStyle constructors, setters, copy; invariant on style objects along histories (ProofColour)",
 "C57": "NodeStyle and EdgeStyle constructors, setters, copy; invariant on style objects along histories (ProofColour)",
 "C59": "as C42; exact content of the styles made",
 "C60": "as C42; exact content of the styles made",
 "C61": "GraphObj.__hash__, Node.__hash__ (keys of the digest; that the digest of equal keys is equal is Python's); the evolution relation `evo` of ProofEvo over arbitrary histories",
 "C62": "node_styles, edge_styles (ModelMore); the comprehension is shown to be an `omap` of the node dict, resp. of the outward edges of all nodes",
 "C63": "raw_id setter (ModelMore) followed by get_node, children, disconnect, remove_self; direct computation under `WF`",
 "C64": "stylize, render (ModelStylize, ModelDot); invariant `styles_only` preserved by every step of the stylists and of the overwriting loops (ProofStyOnly)",
 "C65": "render with path, height and width (ModelMore), get_graphviz_str; the text is split at the size statements, the two halves do not depend on the arguments",
 "C66": "get_graphviz_header; unfolding, against a text specification in SpecMore",
 "C67": "inherit_style, stylize_with_pensieve; the fuelled recursion is related to the inductive `hands_down` of SpecMore by induction on the fuel, over the state the stylist leaves",
 "C68": "the overwriting loops of stylize, NodeStyle.complement; the loop is shown to apply to each style object the concatenation of the entries for its nodes; effect of single entries specified by the record `applied` of SpecOver",
 "C69": "the overwriting loops of stylize and the style setters of Node and Edge; every edge has a style after the default stylist, so each setter raises; otherwise invariant of the loop over node_colours",
 "C70": "stylize_randomly, stylize_edges_based_on_nodes; invariant of the loop over the shuffled nodes, then the lemmas about the edge loop that C32 and C56 use, from the state in between",
 "C71": "the two passes of stylize that assign the dictionaries and the two that complement; NodeStyle and EdgeStyle constructors specified by the records `made_of`, `emade_of` of SpecOver; complementing a style with the arguments it was made of is shown to change nothing",
 "C72": "from the invariant that the dictionaries of edges of the two ends agree; the ids are read off the keys of the dictionaries",
 "C73": "the result of invert_colours is computed for a style with all colours; the flags that say which colours are derived are read off the arguments of the constructor",
 "C74": "rendering keeps the display options, so choosing the direction before or after stylizing is the same; C55 for the repetition",
 "C75": "each piece of the text is scanned into tokens between statement boundaries; the parser reads a statement at a time, so the pieces compose",
 "C76": "append is run step by step; each step keeps a description of the whole graph (its nodes and edges with attributes, flags, display options)",
 "C77": "every call is a sequence of basic steps; each step keeps the entry unless it is an assignment to it",
 "C78": "every call is a sequence of basic steps; a relation between the old and the new object is kept by each step and transitive",
 "C79": "calculation with complement on one entry, induction over the entries for several, the invariant that all style objects have concrete colours, and well-formedness (style references exist)",
 "C80": "the lemmas about the default stylist restated for templates; induction over the nodes and edges, and over the recursion of inherit_style with the nodes already visited as measure",
 "C81": "the effect of every call on names and joins computed case by case; graphs that are not the target of the call are framed by call_unchanged; the last theorem is an induction over histories",
 "C82": "the effect of every call on the value and label fields computed case by case, then induction over histories",
 "C83": "the relation between the edges before and after (C05, C06, C08, C09, C81) lifted to transitive closures, combined with the exactness of the queries (C14, C15, C17)",
 "C84": "splitext is proved to split exactly at the extension, by induction over the path",
 "C85": "well-formedness of reachable heaps; injectivity of the decimal text of integers; splitting at the first dash",
 "C86": "a predicate on computations (only warnings satisfying W are appended) closed under the monad, then a case per call",
 "C87": "closed forms of the two constructors without freshness hypotheses; each breakage contradicts one clause of `consistent`",
 "C88": "calculation with the setter of the main colour and the constructor",
 "C89": "from the exact result of filter (C26): paths of the part go down to the graph, and paths from or to a given node stay within the kept names",
 "C90": "from the exact result of from_lists (C27) and the enumeration of the edges (C12); induction on the length of the walk",
 "C91": "induction on the text (strip), and the scanner of C46",
 "C92": "from the exact meaning of is_similar_to (C37) and of copy (C23, C25); induction on the length of the walk"
}
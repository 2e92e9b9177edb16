{"id": "C01", "title": "Edges are mirrored at both ends", "statement": "After any history of API calls, an edge is listed among the outward edges of node a under an id if and only if it is listed under the same id among the inward edges of the node it ends in; the id is always (start name, end name, extra id), both end nodes are in the same graph as the edge, and each node of a graph is filed under its own name and reports that graph as its graph.", "quantifier": "every history of API calls (creation, add_node, connect, disconnect, Edge.remove_self, remove_node, copy, append, add, setters, styling), including calls that raise, on any number of graphs; excluded are re-adding a node object that was removed from its graph (C52) and calling the constructors Node(graph, ...) / Edge(...) directly with a name or id that is already in use", "why_tests_cant": "The claim ranges over unboundedly many call histories and graph shapes; a test exercises a handful.", "anchors": ["abstract/_BasicGraph.py: connect, disconnect, add_node, remove_node", "abstract/Node.py: append_outward_edge, append_inward_edge", "abstract/Edge.py: __init__, remove_self"]}
{"id": "C02", "title": "add_node with a fresh name adds exactly one node", "statement": "add_node(name) with a str name not in the graph returns a new node with that name, no edges and the given label/value/style, placed last in graph.nodes; every other node, every edge and every other graph is unchanged.", "quantifier": "every reachable heap, graph, fresh name and argument combination", "why_tests_cant": "Frame conditions ('nothing else changes') cannot be sampled exhaustively.", "anchors": ["abstract/_BasicGraph.py: add_node, generate_node_index", "abstract/Node.py: Node.__init__", "abstract/_GraphObj.py: GraphObj.__init__"]}
{"id": "C03", "title": "add_node with an existing name updates in place", "statement": "add_node(name) for an existing name returns the existing node object; with 'ignore' or 'warn' it changes only those of style, label, value that were passed as non-None (and 'warn' emits one warning, 'ignore' none); with any other mode it raises KeyError and changes nothing. The set of nodes and all edges are unchanged in all cases.", "quantifier": "every reachable heap, existing name, mode string and argument combination", "why_tests_cant": "The claim ranges over unboundedly many call histories and graph shapes; a test exercises a handful.", "anchors": ["abstract/_BasicGraph.py: add_node"]}
{"id": "C04", "title": "Node names are unique and indices are strictly increasing in insertion order", "statement": "In every graph whose nodes were all created by add_node, names are pairwise distinct and node indices strictly increase along graph.nodes, so sorted(graph.nodes) == graph.nodes after any mixture of additions and removals; an index is never reused.", "quantifier": "every history of API calls other than calling the constructor Node(graph, ..., index) directly", "why_tests_cant": "The claim ranges over unboundedly many call histories and graph shapes; a test exercises a handful.", "anchors": ["abstract/_BasicGraph.py: generate_node_index, add_node", "abstract/Node.py: __lt__, index"]}
{"id": "C05", "title": "connect of a new edge adds exactly one edge", "statement": "connect(start, end, id) when no edge with that (start, end, id) exists returns a new edge from start to end that appears last in start's outward and end's inward edges; every other edge list, node and graph is unchanged.", "quantifier": "every reachable heap, pair of nodes of the graph (self-loops included) and id", "why_tests_cant": "Frame condition over all graphs.", "anchors": ["abstract/_BasicGraph.py: connect", "abstract/Edge.py: Edge.__init__"]}
{"id": "C06", "title": "connect never duplicates a (start, end, id) edge", "statement": "connect for an existing (start, end, id) returns the existing edge object and changes only the passed non-None style/label/value under 'ignore'/'warn'; in any other mode it raises ValueError and changes nothing. In every reachable graph no two distinct edges have the same id.", "quantifier": "every history of API calls (creation, add_node, connect, disconnect, Edge.remove_self, remove_node, copy, append, add, setters, styling), including calls that raise, on any number of graphs; excluded are re-adding a node object that was removed from its graph (C52) and calling the constructors Node(graph, ...) / Edge(...) directly with a name or id that is already in use", "why_tests_cant": "The claim ranges over unboundedly many call histories and graph shapes; a test exercises a handful.", "anchors": ["abstract/_BasicGraph.py: connect", "abstract/Node.py: get_outward_edge"]}
{"id": "C07", "title": "connect then disconnect is an identity on the observable graph", "statement": "Creating a new edge with connect and removing it with disconnect (or Edge.remove_self) restores every node's outward and inward edge lists and the graph's nodes exactly as they were.", "quantifier": "every reachable heap and every new edge", "why_tests_cant": "Must hold for every prior graph.", "anchors": ["abstract/_BasicGraph.py: connect, disconnect", "abstract/Edge.py: remove_self"]}
{"id": "C08", "title": "remove_node removes the node and exactly its incident edges", "statement": "remove_node(n) succeeds for every node of the graph (self-loops, parallel edges included); afterwards graph.nodes is the old list without n, an edge survives iff neither of its ends was n, the surviving edge lists keep their order, and n reports no graph and no edges. node.remove_edges() removes the same edges and leaves the node in the graph.", "quantifier": "every reachable heap and node", "why_tests_cant": "The claim ranges over unboundedly many call histories and graph shapes; a test exercises a handful.", "anchors": ["abstract/_BasicGraph.py: remove_node", "abstract/Node.py: remove_edges, edges", "abstract/Edge.py: remove_self"]}
{"id": "C09", "title": "disconnect / remove_self remove exactly one edge, once", "statement": "Removing a live edge deletes it from exactly its start's outward and its end's inward edges and nothing else; a second removal of the same edge object raises and changes no graph.", "quantifier": "every reachable heap and edge object, live or already removed", "why_tests_cant": "The claim ranges over unboundedly many call histories and graph shapes; a test exercises a handful.", "anchors": ["abstract/_BasicGraph.py: disconnect", "abstract/Edge.py: remove_self, id"]}
{"id": "C10", "title": "The inconsistent-edge errors of connect are unreachable", "statement": "In any reachable state connect between two nodes of the graph never takes either 'This is very weird!' branch; in mode 'ignore'/'warn' without a style, on an edge that is not frozen, it always succeeds.", "quantifier": "every history of API calls (creation, add_node, connect, disconnect, Edge.remove_self, remove_node, copy, append, add, setters, styling), including calls that raise, on any number of graphs; excluded are re-adding a node object that was removed from its graph (C52) and calling the constructors Node(graph, ...) / Edge(...) directly with a name or id that is already in use", "why_tests_cant": "The claim ranges over unboundedly many call histories and graph shapes; a test exercises a handful.", "anchors": ["abstract/_BasicGraph.py: connect"]}
{"id": "C11", "title": "Calls naming an unknown node fail without side effects", "statement": "get_node, connect, remove_node, get_parents, get_children, get_ancestors, get_descendants with a name that is not in the graph raise KeyError and no state changes; get_node_name does so for names, and gives the name of any node object.", "quantifier": "every reachable heap and unknown name", "why_tests_cant": "Atomicity over all states.", "anchors": ["abstract/_BasicGraph.py: get_node, connect, remove_node"]}
{"id": "C12", "title": "edges and edges_dict enumerate each edge exactly once", "statement": "graph.edges lists every edge of the graph exactly once (a self-loop once), and edges_dict has exactly one entry per edge, keyed by its id.", "quantifier": "every reachable graph", "why_tests_cant": "The claim ranges over unboundedly many call histories and graph shapes; a test exercises a handful.", "anchors": ["abstract/_BasicGraph.py: edges, edges_dict", "abstract/Node.py: edges, outward_edges"]}
{"id": "C13", "title": "parents and children are dual, with multiplicity", "statement": "For nodes a, b of a graph the number of occurrences of b in a.children equals the number of occurrences of a in b.parents and equals the number of edges from a to b; num_children/num_parents/has_children/has_parents agree with those lists, and the sum of num_children over all nodes equals the sum of num_parents equals len(graph.edges).", "quantifier": "every reachable graph and pair of nodes", "why_tests_cant": "The claim ranges over unboundedly many call histories and graph shapes; a test exercises a handful.", "anchors": ["abstract/_BasicGraph.py: get_parents, get_children, num_parents, num_children, has_parents, has_children"]}
{"id": "C14", "title": "ancestors are exactly the nodes with a directed path to the node", "statement": "node.ancestors terminates without error on every graph, cyclic or not, and lists without repetition exactly those nodes from which a directed path of at least one edge leads to the node (so it contains the node itself iff the node is on a cycle).", "quantifier": "every reachable graph (any cycle structure) and node", "why_tests_cant": "Unbounded graph shapes; termination cannot be tested.", "anchors": ["abstract/_BasicGraph.py: _get_ancestors, get_ancestors", "abstract/Node.py: ancestors"]}
{"id": "C15", "title": "descendants are exactly the other nodes reachable from the node", "statement": "node.descendants terminates without error on every graph and lists without repetition exactly those nodes other than the node itself that can be reached from it by a directed path; num_descendants is their number.", "quantifier": "every reachable graph and node", "why_tests_cant": "Unbounded graph shapes; termination cannot be tested.", "anchors": ["abstract/_BasicGraph.py: _get_descendants, get_descendants", "abstract/Node.py: descendants, num_descendants"]}
{"id": "C16", "title": "ancestors and descendants are converse", "statement": "For distinct nodes a and b of a graph, b is in a.descendants iff a is in b.ancestors.", "quantifier": "every reachable graph and pair of nodes", "why_tests_cant": "The claim ranges over unboundedly many call histories and graph shapes; a test exercises a handful.", "anchors": ["abstract/_BasicGraph.py: _get_ancestors, _get_descendants"]}
{"id": "C17", "title": "Loop predicates decide cycles", "statement": "is_in_loop(n) is True iff some directed cycle passes through n; a.is_in_loop_with(b) is True iff there are directed paths from a to b and from b to a (one cycle-closed walk through both), is symmetric, and is transitive; edge.is_in_loop() is True iff the edge lies on a cycle; loop_nodes lists exactly the nodes on cycles in node order.", "quantifier": "every reachable graph and nodes/edges", "why_tests_cant": "The claim ranges over unboundedly many call histories and graph shapes; a test exercises a handful.", "anchors": ["abstract/_BasicGraph.py: is_node_in_loop, are_nodes_in_same_loop, loop_nodes", "abstract/Node.py: is_in_loop, is_in_loop_with", "abstract/Edge.py: is_in_loop"]}
{"id": "C18", "title": "roots is a minimal set from which every node is reachable", "statement": "graph.roots has no repetition, every node of the graph is a root or a descendant of a root, no root is a descendant of another root, every node without parents is a root; on an acyclic graph roots equals absolute_roots; with loops, roots are exactly the nodes that reach every node reaching them and were added before each of these.", "quantifier": "every reachable graph", "why_tests_cant": "The claim ranges over unboundedly many call histories and graph shapes; a test exercises a handful.", "anchors": ["abstract/_BasicGraph.py: roots, absolute_roots"]}
{"id": "C19", "title": "siblings and co-parents are exact, and the two implementations agree", "statement": "get_siblings(n) / Node.siblings list without repetition exactly the nodes other than n that share a parent with n, in the same order; get_spouses(n) / Node.co_parents list exactly the nodes other than n that share a child with n; the counts and has_ predicates agree.", "quantifier": "every reachable graph and node", "why_tests_cant": "The claim ranges over unboundedly many call histories and graph shapes; a test exercises a handful.", "anchors": ["abstract/_BasicGraph.py: get_siblings, get_spouses, num_siblings, has_siblings, num_spouses, has_spouses", "abstract/Node.py: siblings, co_parents"]}
{"id": "C20", "title": "leaves and absolute_roots are exactly the sinks and sources", "statement": "graph.leaves is the sublist of graph.nodes with no outgoing edge and graph.absolute_roots the sublist with no incoming edge.", "quantifier": "every reachable graph", "why_tests_cant": "The claim ranges over unboundedly many call histories and graph shapes; a test exercises a handful.", "anchors": ["abstract/_BasicGraph.py: leaves, absolute_roots"]}
{"id": "C21", "title": "get_ancestors/get_descendants with distance report each relative at its distance", "statement": "With distance=True the returned dict maps d to exactly the relatives whose shortest directed path has d edges.", "quantifier": "every reachable graph and node", "why_tests_cant": "The claim ranges over unboundedly many call histories and graph shapes; a test exercises a handful.", "anchors": ["abstract/_BasicGraph.py: _get_ancestors, _get_descendants, get_ancestors, get_descendants"]}
{"id": "C22", "title": "get_tree_str terminates and prints each edge exactly once", "statement": "graph.get_tree_str() terminates on every graph and its lines are one per root plus one per edge: below the single unstarred occurrence of each non-leaf node its children are listed once each, in order; every further occurrence of a non-leaf node is starred and not expanded.", "quantifier": "every reachable graph (cyclic included)", "why_tests_cant": "Termination and exact-once printing over all graphs.", "anchors": ["abstract/Node.py: get_tree_str", "abstract/_BasicGraph.py: get_tree_str"]}
{"id": "C23", "title": "copy yields an isomorphic, independent graph", "statement": "If no node has a style, graph.copy() returns a new graph with the same names in the same order, same labels/values/indices, the same edges with the same ids, no object shared with the original; the original is unchanged, and any later API calls on the one leave the other unchanged.", "quantifier": "every reachable graph without node styles, every later history", "why_tests_cant": "Independence quantifies over all later histories.", "anchors": ["abstract/_BasicGraph.py: copy, __getstate__, __setstate__", "abstract/_GraphWithoutDisplay.py: __setstate__, update_nodes", "abstract/Node.py: __getstate__, __setstate__, update_edges", "abstract/Edge.py: __getstate__, __setstate__"]}
{"id": "C24", "title": "copy succeeds on every graph", "statement": "graph.copy() returns a copy for every reachable graph, styled (for example already rendered) or not.", "quantifier": "every reachable graph", "why_tests_cant": "The claim ranges over unboundedly many call histories and graph shapes; a test exercises a handful.", "anchors": ["abstract/_BasicGraph.py: copy", "abstract/styling/NodeStyle.py: __getstate__, __setstate__"]}
{"id": "C25", "title": "A copy can be used like the original", "statement": "Everything that succeeds on the original graph - get_graphviz_str, connect/add_node updating a styled node, display_label - gives the same outcome on graph.copy().", "quantifier": "every reachable graph and operation", "why_tests_cant": "The claim ranges over unboundedly many call histories and graph shapes; a test exercises a handful.", "anchors": ["abstract/_BasicGraph.py: _STATE_ATTRIBUTES, __getstate__", "abstract/_GraphWithoutDisplay.py: get_graphviz_str"]}
{"id": "C26", "title": "filter keeps exactly the requested neighbourhood", "statement": "filter(nodes, direction, 'include') returns a new graph whose nodes are exactly the named nodes with their ancestors (direction 'to'), descendants ('from') or both, 'exclude' the complement, with exactly the edges between surviving nodes; the original is unchanged.", "quantifier": "every reachable graph, list of nodes, direction and filter type", "why_tests_cant": "The claim ranges over unboundedly many call histories and graph shapes; a test exercises a handful.", "anchors": ["abstract/_BasicGraph.py: filter"]}
{"id": "C27", "title": "from_lists makes one edge per row", "statement": "from_lists(start, end, edge) yields a graph whose nodes are the distinct names in order of first appearance (start before end in each row) and whose edges are exactly one per row i (up to the shortest list), from start[i] to end[i] with id i and label edge[i]; it never fails on str names and emits no warning.", "quantifier": "every three lists of strings", "why_tests_cant": "Unbounded list lengths and coincidences of names.", "anchors": ["abstract/_BasicGraph.py: from_lists"]}
{"id": "C28", "title": "from_object builds the graph of the object's relatives", "statement": "from_object(obj) returns a graph with a node for obj and for each of its descendants and ancestors and an edge for each parent/child pair among them.", "quantifier": "every object graph with __children__/__parents__", "why_tests_cant": "The claim ranges over unboundedly many call histories and graph shapes; a test exercises a handful.", "anchors": ["abstract/_BasicGraph.py: from_object, add_node"]}
{"id": "C29", "title": "parse_indentations recovers an indented outline", "statement": "For every outline - a list of (level, content) with first level 0 and each level at most one deeper than the previous - printed with any indent unit of spaces or tabs, parse_indentations yields for line i its index, its level, its content, and as parent the latest earlier line whose level is one less (None at level 0), with the indent passed explicitly or detected.", "quantifier": "every outline, content and indent unit", "why_tests_cant": "Unbounded outlines and indent strings.", "anchors": ["abstract/parse_indentations_function.py: parse_indentations"]}
{"id": "C30", "title": "from_indented_text yields a tree", "statement": "Whenever from_indented_text(root, lines) succeeds, the graph has one node per line plus 'root', exactly one edge into every line node and none into 'root', the edge for a line coming from its parent line (or root), every node is reachable from 'root', and the graph is acyclic.", "quantifier": "every list of lines and indent", "why_tests_cant": "The claim ranges over unboundedly many call histories and graph shapes; a test exercises a handful.", "anchors": ["abstract/_BasicGraph.py: from_indented_text", "abstract/parse_indentations_function.py"]}
{"id": "C31", "title": "random graphs without cycle=True are acyclic", "statement": "Graph.random(num_nodes, cycle=False) yields for every outcome of the random generator exactly num_nodes nodes named by the consecutive integers and only edges from a smaller to a larger number, hence an acyclic graph; probability <= 0 gives no edge and >= 1 gives every permitted edge.", "quantifier": "every num_nodes, start_index, probability and random sequence in [0,1)", "why_tests_cant": "Ranges over all random sequences.", "anchors": ["abstract/_GraphWithoutDisplay.py: random"]}
{"id": "C32", "title": "append unions nodes and edges", "statement": "graph.append(other_graph_or_dict) leaves the existing nodes and edges in place and adds exactly the missing nodes and missing (start, end, id) edges, in order; Graph(obj=g) has the same node names and edge ids as g in the same order.", "quantifier": "every reachable graph and representation", "why_tests_cant": "The claim ranges over unboundedly many call histories and graph shapes; a test exercises a handful.", "anchors": ["abstract/_GraphWithoutDisplay.py: append, __graph__, __init__"]}
{"id": "C33", "title": "Graph(obj=g) preserves labels", "statement": "For every graph g, each node of Graph(obj=g) displays the same label as the node of that name in g.", "quantifier": "every reachable graph", "why_tests_cant": "The claim ranges over unboundedly many call histories and graph shapes; a test exercises a handful.", "anchors": ["abstract/_GraphWithoutDisplay.py: __graph__, append", "abstract/_GraphObj.py: display_label_or_value"]}
{"id": "C34", "title": "g1 + g2 is the union graph", "statement": "g1 + g2 is a new graph with exactly the union of the node names and the union of the edge ids, whatever the iteration order of the set of names.", "quantifier": "every pair of reachable graphs and every set iteration order", "why_tests_cant": "Hash-order nondeterminism and all graph pairs.", "anchors": ["abstract/_GraphWithoutDisplay.py: __add__, add"]}
{"id": "C35", "title": "g1 + g2 adds the values of shared nodes and edges", "statement": "In g1 + g2 a node (edge) present in both graphs has value v1 + v2 (the non-None one if one is None), and one present in only one graph keeps its value.", "quantifier": "every pair of reachable graphs", "why_tests_cant": "The claim ranges over unboundedly many call histories and graph shapes; a test exercises a handful.", "anchors": ["abstract/_GraphWithoutDisplay.py: add"]}
{"id": "C36", "title": "g1 + g2 leaves its operands unchanged", "statement": "Evaluating g1 + g2 changes neither g1 nor g2.", "quantifier": "every pair of reachable graphs", "why_tests_cant": "The claim ranges over unboundedly many call histories and graph shapes; a test exercises a handful.", "anchors": ["abstract/_GraphWithoutDisplay.py: add, __graph__"]}
{"id": "C37", "title": "is_similar_to decides structural similarity", "statement": "g1.is_similar_to(g2) returns True iff both graphs have the same node names with equal values/styles/parameters, the same edge ids with equal values/styles/parameters, and the same strict and ordering flags, False otherwise; it is reflexive and symmetric.", "quantifier": "every pair of reachable graphs", "why_tests_cant": "The claim ranges over unboundedly many call histories and graph shapes; a test exercises a handful.", "anchors": ["abstract/_BasicGraph.py: is_similar_to", "abstract/Node.py: is_similar_to", "abstract/Edge.py: is_similar_to", "abstract/_GraphObj.py: is_similar_to"]}
{"id": "C38", "title": "Node comparison is a total order consistent with hashing; != is the negation of ==", "statement": "The comparisons <, <=, >, >=, == on nodes with str names form a total order, equal nodes have equal hashes, and for any two comparable nodes or edges x != y is the negation of x == y.", "quantifier": "every pair/triple of nodes and edges", "why_tests_cant": "Order laws range over all triples.", "anchors": ["abstract/Node.py: __lt__, __gt__, __le__, __ge__, __eq__, __ne__, __hash__", "abstract/_GraphObj.py: __eq__, __ne__"]}
{"id": "C39", "title": "Frozen objects keep their value", "statement": "While an object is frozen no API call changes its value: assigning value raises RuntimeError, and add_node/connect passing a value for it raise; freeze and unfreeze change nothing but whether the value can be assigned.", "quantifier": "every history of API calls (creation, add_node, connect, disconnect, Edge.remove_self, remove_node, copy, append, add, setters, styling), including calls that raise, on any number of graphs; excluded are re-adding a node object that was removed from its graph (C52) and calling the constructors Node(graph, ...) / Edge(...) directly with a name or id that is already in use", "why_tests_cant": "The claim ranges over unboundedly many call histories and graph shapes; a test exercises a handful.", "anchors": ["abstract/_GraphObj.py: freeze, unfreeze, value", "abstract/_BasicGraph.py: add_node, connect"]}
{"id": "C40", "title": "A failing call changes nothing", "statement": "An add_node or connect call that raises leaves every graph exactly as it was.", "quantifier": "every reachable heap and call", "why_tests_cant": "The claim ranges over unboundedly many call histories and graph shapes; a test exercises a handful.", "anchors": ["abstract/_BasicGraph.py: add_node, connect"]}
{"id": "C41", "title": "Styles are write-once unless overwriting is allowed", "statement": "On a graph with style_overwrite_allowed=False, once a node (edge) has a style object no later add_node/connect/style assignment replaces it: they raise RuntimeError; with style_overwrite_allowed=True they replace it.", "quantifier": "every history of API calls (creation, add_node, connect, disconnect, Edge.remove_self, remove_node, copy, append, add, setters, styling), including calls that raise, on any number of graphs; excluded are re-adding a node object that was removed from its graph (C52) and calling the constructors Node(graph, ...) / Edge(...) directly with a name or id that is already in use", "why_tests_cant": "The claim ranges over unboundedly many call histories and graph shapes; a test exercises a handful.", "anchors": ["abstract/Node.py: style", "abstract/Edge.py: style"]}
{"id": "C42", "title": "Default styling succeeds on every graph", "statement": "stylize() with the default 'pensieve' stylist succeeds on every graph and leaves every node and edge with a style.", "quantifier": "every reachable graph, every colour scheme with at least one colour", "why_tests_cant": "The claim ranges over unboundedly many call histories and graph shapes; a test exercises a handful.", "anchors": ["abstract/styling/stylize_with_pensieve.py", "abstract/styling/inherit_style.py", "abstract/styling/is_root_or_parents_are_in_loop.py", "abstract/styling/stylize_edges_based_on_nodes.py"]}
{"id": "C43", "title": "Colours of a scheme are used in rotation", "statement": "Successive calls of get_least_used_colour on a fresh usage table return the scheme's colours round-robin in scheme order; at any time usage counts differ by at most one.", "quantifier": "every non-empty colour scheme and number of calls", "why_tests_cant": "Unbounded number of calls.", "anchors": ["abstract/styling/get_least_used_colour.py"]}
{"id": "C44", "title": "Diverging numbers are n distinct, symmetric values in [-1, 1]", "statement": "generate_diverging_numbers(n) has exactly n pairwise distinct elements in [-1,1], closed under negation, containing 0 iff n is odd; get_diverging_number(i, n) is strictly increasing in i (decreasing when reversed).", "quantifier": "every n >= 0 and index", "why_tests_cant": "Unbounded n.", "anchors": ["abstract/styling/inherit_style.py: generate_diverging_numbers, get_diverging_number"]}
{"id": "C45", "title": "Arrow sizes follow the edge's own value", "statement": "After default styling an unstyled edge with numeric value v has arrow size 0.5*v and one without value has 0.5, independently of other edges.", "quantifier": "every reachable graph", "why_tests_cant": "The claim ranges over unboundedly many call histories and graph shapes; a test exercises a handful.", "anchors": ["abstract/styling/stylize_edges_based_on_nodes.py"]}
{"id": "C46", "title": "Labels survive DOT quoting", "statement": "The label attribute emitted for a node is a DOT quoted string that reads back as exactly the node's label text.", "quantifier": "every label string", "why_tests_cant": "Ranges over all strings.", "anchors": ["abstract/Node.py: label, get_graphviz_str"]}
{"id": "C47", "title": "The DOT text has one statement per node and per edge", "statement": "get_graphviz_str() contains exactly one node statement for each node, in node order, and exactly one edge statement for each edge of the graph, in graph.edges order, naming its start and end.", "quantifier": "every reachable graph", "why_tests_cant": "The claim ranges over unboundedly many call histories and graph shapes; a test exercises a handful.", "anchors": ["abstract/_GraphWithoutDisplay.py: get_graphviz_str", "abstract/Node.py: get_graphviz_str", "abstract/Edge.py: get_graphviz_str"]}
{"id": "C48", "title": "get_descendants/get_ancestors on plain objects are exact", "statement": "For objects whose __children__ relation has finitely many reachable objects, get_descendants(obj) terminates and lists without repetition exactly the objects other than obj reachable from it; likewise get_ancestors.", "quantifier": "every finite object graph", "why_tests_cant": "The claim ranges over unboundedly many call histories and graph shapes; a test exercises a handful.", "anchors": ["abstract/get_descendants.py", "abstract/get_ancestors.py"]}
{"id": "C49", "title": "max_depth returns exactly the relatives within that distance", "statement": "get_descendants(obj, max_depth=k) returns exactly the objects reachable within k steps (likewise max_height).", "quantifier": "every object graph and k", "why_tests_cant": "The claim ranges over unboundedly many call histories and graph shapes; a test exercises a handful.", "anchors": ["abstract/get_descendants.py", "abstract/get_ancestors.py"]}
{"id": "C50", "title": "Membership test accepts names and nodes", "statement": "x in graph is True iff x is the name of a node of the graph or a node of the graph, False otherwise.", "quantifier": "every reachable graph and str or Node", "why_tests_cant": "The claim ranges over unboundedly many call histories and graph shapes; a test exercises a handful.", "anchors": ["abstract/_BasicGraph.py: __contains__", "abstract/Node.py: __hash__, __eq__"]}
{"id": "C51", "title": "Strict graphs have no parallel edges", "statement": "In a graph created with strict=True there is at most one edge between any ordered pair of nodes.", "quantifier": "every history of API calls (creation, add_node, connect, disconnect, Edge.remove_self, remove_node, copy, append, add, setters, styling), including calls that raise, on any number of graphs; excluded are re-adding a node object that was removed from its graph (C52) and calling the constructors Node(graph, ...) / Edge(...) directly with a name or id that is already in use", "why_tests_cant": "The claim ranges over unboundedly many call histories and graph shapes; a test exercises a handful.", "anchors": ["abstract/_GraphWithoutDisplay.py: __init__ docstring", "abstract/_BasicGraph.py: connect"]}
{"id": "C52", "title": "A removed node can be added back", "statement": "After graph.remove_node(n), graph.add_node(n) makes n a full member again: n.graph is the graph and its queries and connect work; and add_node(node) returns the node.", "quantifier": "every reachable graph and node", "why_tests_cant": "The claim ranges over unboundedly many call histories and graph shapes; a test exercises a handful.", "anchors": ["abstract/_BasicGraph.py: add_node, remove_node"]}
{"id": "C53", "title": "Operations on one graph do not affect another", "statement": "Any add_node, connect, remove_node, disconnect, remove_self or setter on one graph leaves the nodes, edges and attributes of every other graph unchanged, even when node objects of another graph are passed (they are resolved by name).", "quantifier": "every history of API calls (creation, add_node, connect, disconnect, Edge.remove_self, remove_node, copy, append, add, setters, styling), including calls that raise, on any number of graphs; excluded are re-adding a node object that was removed from its graph (C52) and calling the constructors Node(graph, ...) / Edge(...) directly with a name or id that is already in use", "why_tests_cant": "The claim ranges over unboundedly many call histories and graph shapes; a test exercises a handful.", "anchors": ["abstract/_BasicGraph.py: get_node, connect, remove_node"]}
{"id": "C54", "title": "get_child_rank ranks children by index", "statement": "n.get_child_rank(parent) is the number of entries of parent.children that precede n in (index, name) order, is below the number of children, differs for different children of one parent, and raises ValueError iff n is not a child of parent.", "quantifier": "every reachable graph and pair of its nodes, when the nodes of the graph can be compared (str names, or no direct use of the constructor Node)", "why_tests_cant": "The claim ranges over unboundedly many call histories and graph shapes; a test exercises a handful.", "anchors": ["abstract/Node.py: get_child_rank, __lt__"]}
{"id": "C55", "title": "Rendering again works", "statement": "If stylize() succeeds on a graph, calling it again succeeds.", "quantifier": "every reachable graph and display options", "why_tests_cant": "The claim ranges over unboundedly many call histories and graph shapes; a test exercises a handful.", "anchors": ["abstract/_GraphWithoutDisplay.py: stylize", "abstract/styling/stylize_randomly.py"]}
{"id": "C56", "title": "NodeStyle always has concrete colours, and copy preserves a style", "statement": "Every NodeStyle built by the constructor, reset_colours followed by a colour assignment, or copy has fill, border and text colours; copy() yields a style with the same appearance, and resetting and recolouring a copy behaves like on the original.", "quantifier": "every constructor argument combination", "why_tests_cant": "The claim ranges over unboundedly many call histories and graph shapes; a test exercises a handful.", "anchors": ["abstract/styling/NodeStyle.py"]}
{"id": "C57", "title": "EdgeStyle.copy preserves a style", "statement": "EdgeStyle.copy() yields a style with the same appearance, including the label style, and succeeds on every style of a graph.", "quantifier": "every edge style", "why_tests_cant": "The claim ranges over unboundedly many call histories and graph shapes; a test exercises a handful.", "anchors": ["abstract/styling/EdgeStyle.py"]}
{"id": "C58", "title": "Names and edge labels survive DOT quoting", "statement": "The identifiers in the node and edge statements read back (under Graphviz' quoting rules) as the node names, an edge's label attribute as its label, and different nodes of a graph have different identifiers.", "quantifier": "every reachable graph", "why_tests_cant": "Ranges over all strings.", "anchors": ["abstract/Node.py: get_graphviz_str", "abstract/Edge.py: get_graphviz_str"]}
{"id": "C59", "title": "Roots get the colours of the scheme in turn", "statement": "After stylize() with the default stylist, the nodes that had no style and have no parents outside cycles have a default NodeStyle whose colours are the scheme's distinct colours in turn, in node order.", "quantifier": "every reachable graph, display options without overwrites, on which stylize() succeeds", "why_tests_cant": "The claim ranges over unboundedly many call histories and graph shapes; a test exercises a handful.", "anchors": ["abstract/styling/stylize_with_pensieve.py", "abstract/styling/get_least_used_colour.py", "abstract/styling/is_root_or_parents_are_in_loop.py"]}
{"id": "C60", "title": "Edges take a darker shade of their start's colour; existing styles stay", "statement": "After stylize() with the default stylist, every edge that had no style has the default EdgeStyle with the colour of its start node darkened by 0.1 (and an arrow size, see C45), and every style that was there before is unchanged.", "quantifier": "every reachable graph, display options without overwrites, on which stylize() succeeds", "why_tests_cant": "The claim ranges over unboundedly many call histories and graph shapes; a test exercises a handful.", "anchors": ["abstract/styling/stylize_edges_based_on_nodes.py"]}
{"id": "C61", "title": "Hashes are stable", "statement": "The hash of a node never changes; the hash of an edge is a function of its graph and its id, is the same as long as the edge belongs to the graph, and different edges have different keys. Objects can therefore be kept in sets and dicts over any history.", "quantifier": "every reachable state, every further sequence of calls, every node and edge", "why_tests_cant": "The claim ranges over unboundedly many call histories and graph shapes; a test exercises a handful.", "anchors": ["abstract/_GraphObj.py: __hash__", "abstract/Node.py: __hash__", "abstract/Edge.py: id"]}
{"id": "C62", "title": "node_styles and edge_styles list exactly the styled objects", "statement": "graph.node_styles maps the name of every node that has a style to that style and contains nothing else, in node order; graph.edge_styles likewise maps the ids of the styled edges.", "quantifier": "every reachable graph", "why_tests_cant": "The claim ranges over unboundedly many call histories and graph shapes; a test exercises a handful.", "anchors": ["abstract/_GraphWithoutDisplay.py: node_styles, edge_styles"]}
{"id": "C63", "title": "raw_id can be assigned", "statement": "Assigning node.raw_id renames the node: the graph then finds it under the new name and its queries work. Assigning edge.raw_id changes the id of the edge: it can then still be disconnected or removed, and no other edge is affected.", "quantifier": "every reachable graph, node, edge and new id", "why_tests_cant": "The claim ranges over unboundedly many call histories and graph shapes; a test exercises a handful.", "anchors": ["abstract/_GraphObj.py: raw_id", "abstract/_BasicGraph.py: get_node, disconnect", "abstract/Edge.py: remove_self"]}
{"id": "C64", "title": "Styling and rendering change nothing but styles", "statement": "stylize() and render(), whether they return or raise, leave the names, values, labels, edges, order, options and warnings of all graphs unchanged; an object outside the graph keeps its style, and an object of the graph keeps it or gets a style object made by the call.", "quantifier": "every reachable state, graph and display options", "why_tests_cant": "The claim ranges over unboundedly many call histories and graph shapes; a test exercises a handful.", "anchors": ["abstract/_GraphWithoutDisplay.py: stylize, render", "abstract/styling/*.py"]}
{"id": "C65", "title": "Saving a drawing does not change what is drawn", "statement": "render(path=..., height=..., width=...) leaves the same state and returns the same text as render(), or raises the same exception; the text that is saved is the returned text with the size statements inserted, and the same text when neither height nor width is given.", "quantifier": "every state, graph, path, height, width, direction and padding", "why_tests_cant": "The claim ranges over unboundedly many call histories and graph shapes; a test exercises a handful.", "anchors": ["abstract/_GraphWithoutDisplay.py: render, get_graphviz_source, get_graphviz_str, get_graphviz_header"]}
{"id": "C66", "title": "The DOT header reflects the options of the graph", "statement": "The header says strict iff the graph is strict, gives the background colour, the padding, the size, rankdir in capitals unless it is TB, and ordering=out iff the graph was created with ordering=True; its attribute line gives the label, label location, font, colours and link of the graph, the tooltip and the extra keyword arguments, the latter taking precedence; it raises exactly if the label is not a text or the label location is unusable.", "quantifier": "every graph, display options and arguments", "why_tests_cant": "The claim ranges over unboundedly many call histories and graph shapes; a test exercises a handful.", "anchors": ["abstract/_GraphWithoutDisplay.py: get_graphviz_header"]}
{"id": "C67", "title": "Branches inherit the colours of their parents", "statement": "After stylize() with the default stylist, a node without a style of its own that has parents and is not on a cycle gets the colour of its parent with the hue turned according to its rank among the siblings, or, with several parents, the mixture of the colours of its parents a little paler; its other attributes are those of the (first) parent.", "quantifier": "every reachable graph, display options without overwrites, on which stylize() succeeds", "why_tests_cant": "The claim ranges over unboundedly many call histories and graph shapes; a test exercises a handful.", "anchors": ["abstract/styling/inherit_style.py", "abstract/styling/stylize_with_pensieve.py"]}
{"id": "C68", "title": "Style overwrites for single nodes show on these nodes only", "statement": "With node_styles={name: {...}} the named nodes are drawn with the given attributes and everything else is drawn as without them.", "quantifier": "every reachable graph, default stylist, every node_styles", "why_tests_cant": "The claim ranges over unboundedly many call histories and graph shapes; a test exercises a handful.", "anchors": ["abstract/_GraphWithoutDisplay.py: stylize, append", "abstract/styling/NodeStyle.py: complement"]}
{"id": "C69", "title": "Colours can be set for single nodes and edges", "statement": "With node_colours={name: c} the named nodes are drawn in the colour c (fill, border and text derived from it), the edges that start there in a darker shade of c, everything else as without it; likewise edge_colours and edge_styles for single edges.", "quantifier": "every reachable graph, default stylist, every overwrite", "why_tests_cant": "The claim ranges over unboundedly many call histories and graph shapes; a test exercises a handful.", "anchors": ["abstract/_GraphWithoutDisplay.py: stylize, append", "abstract/Node.py: style", "abstract/Edge.py: style"]}
{"id": "C70", "title": "The random stylist gives the colours of the scheme in turn", "statement": "With stylist='random', every stylize() gives the nodes, in an order that is a permutation of the nodes, the default style with the distinct colours of the scheme in turn, gives every edge without a style the default style with the colour of its start a tenth darker, and keeps the other styles of edges.", "quantifier": "every reachable graph without overwrites, every permutation the shuffle may choose", "why_tests_cant": "The claim ranges over unboundedly many call histories and graph shapes; a test exercises a handful.", "anchors": ["abstract/_GraphWithoutDisplay.py: stylize", "abstract/styling/stylize_randomly.py"]}
{"id": "C71", "title": "One style can be set for all nodes or all edges", "statement": "With node_style={...} all nodes are drawn with the given attributes, and otherwise as without it, in the colours the stylist gives them; shape='auto' draws circles if the names are short and boxes otherwise; likewise edge_style={...} for edges; and stylize() can be repeated.", "quantifier": "every reachable graph, default stylist, every node_style and edge_style", "why_tests_cant": "The claim ranges over unboundedly many call histories and graph shapes; a test exercises a handful.", "anchors": ["abstract/_GraphWithoutDisplay.py: stylize", "abstract/styling/NodeStyle.py: __init__, complement", "abstract/styling/EdgeStyle.py: __init__, complement"]}
{"id": "C72", "title": "The edges of a node are listed once, with their ids", "statement": "node.outward_edges, inward_edges and edges list exactly the edges that start, end, or start or end in the node, each once; outward_edge_ids and inward_edge_ids are their ids in the same order, and get_outward_edge / get_inward_edge find exactly these edges by id and raise KeyError otherwise; graph.get_outward_edges, get_inward_edges and get_edges agree with them.", "quantifier": "every reachable graph and node", "why_tests_cant": "The claim ranges over unboundedly many call histories and graph shapes; a test exercises a handful.", "anchors": ["abstract/Node.py: edges, outward_edges, inward_edges, outward_edge_ids, inward_edge_ids, get_outward_edge, get_inward_edge", "abstract/_BasicGraph.py: get_edges, get_outward_edges, get_inward_edges"]}
{"id": "C73", "title": "invert_colours gives the negative of a style", "statement": "style.invert_colours() returns a new style whose main colour and given colours are the inverses, whose other colours are derived from the new main colour in the same way as before, and which agrees with the old one in everything else; it works for every style.", "quantifier": "every NodeStyle and EdgeStyle, made with any arguments and changed by complement", "why_tests_cant": "The claim ranges over unboundedly many call histories and graph shapes; a test exercises a handful.", "anchors": ["abstract/styling/NodeStyle.py: invert_colours, copy", "abstract/styling/EdgeStyle.py: invert_colours, copy"]}
{"id": "C74", "title": "SVG, HTML and notebook display show what render gives", "statement": "get_svg, get_html and the notebook display of a graph hand Graphviz exactly the DOT text that render gives for the same direction (by default the graph's own) and padding, leave the graph as render leaves it and raise what it raises; displaying again shows the same text.", "quantifier": "every reachable program state, graph, direction, padding", "why_tests_cant": "The claim ranges over unboundedly many call histories and graph shapes; a test exercises a handful.", "anchors": ["abstract/Graph.py: get_svg, get_html, _repr_html_", "abstract/_GraphWithoutDisplay.py: render"]}
{"id": "C75", "title": "The DOT text reads back as the graph", "statement": "get_graphviz_str gives text that the DOT grammar accepts, and reading it yields the graph: strict or not as declared, the graph attributes, exactly one node statement per node in node order with its name, label, tooltip and style, and exactly one edge statement per edge in edge order with its ends, label, tooltip and style. Hence graphs with the same text have the same node names and the same edges between them. This holds when the texts shown contain no quotes or backslashes.", "quantifier": "every reachable program state, graph, display options, direction, height, width, padding", "why_tests_cant": "The claim ranges over unboundedly many call histories and graph shapes; a test exercises a handful.", "anchors": ["abstract/_GraphWithoutDisplay.py: get_graphviz_str, get_graphviz_header", "abstract/Node.py: get_graphviz_str", "abstract/Edge.py: get_graphviz_str", "abstract/styling/NodeStyle.py: get_graphviz_str", "abstract/styling/EdgeStyle.py: get_graphviz_str"]}
{"id": "C76", "title": "append, Graph(obj=dict) and from_dict add exactly what the dictionary describes", "statement": "Appending a dictionary whose node names and edge ids are new keeps every node and edge of the graph as it was and adds, after them and in the order given, exactly the given nodes and edges with the given labels, values, tooltips and parameters; flags and display options that the dictionary mentions replace the graph's, the others stay; edge colours and styles are filed under the last given edge between the two names; no warning is given. Graph(obj=dict) and from_dict make a new graph with exactly the given nodes and edges. A list is appended item by item and stops at the first item that raises.", "quantifier": "every reachable program state, graph, dictionary and display options", "why_tests_cant": "The claim ranges over unboundedly many call histories and graph shapes; a test exercises a handful.", "anchors": ["abstract/_GraphWithoutDisplay.py: append, from_dict, __init__"]}
{"id": "C77", "title": "Parameters read back what was last assigned", "statement": "obj[key] gives the value last assigned with obj[key] = value (at first the keyword argument the object was made with, KeyError if there was none), right after and at any later time before the next assignment to that key of that object, whatever other calls are made meanwhile (including removal of the object, failing calls, styling and assignments to other keys or objects); assigning never fails.", "quantifier": "every reachable state, node or edge, key, value and further history of API calls", "why_tests_cant": "The claim ranges over unboundedly many call histories and graph shapes; a test exercises a handful.", "anchors": ["abstract/_GraphObj.py: __getitem__, __setitem__, get, set"]}
{"id": "C78", "title": "Objects keep their identity for life", "statement": "A node keeps its name, index and tooltip for ever, an edge keeps its ends, its id and its graph as long as it is in the graph; so a name denotes the same node object and an edge joins the same nodes until they are removed. A removed node or edge never comes back: no name denotes it, no edge ends at it.", "quantifier": "every reachable state and further history of API calls", "why_tests_cant": "The claim ranges over unboundedly many call histories and graph shapes; a test exercises a handful.", "anchors": ["abstract/_BasicGraph.py: add_node, connect, disconnect, remove_node", "abstract/Node.py: __init__", "abstract/Edge.py: __init__, remove_self"]}
{"id": "C79", "title": "Attributes assigned to a style object show on exactly the objects using it", "statement": "Assigning attributes of a NodeStyle (EdgeStyle) object, one or several at once with complement, works, sets those attributes and no others (all or, if it raises, none), and shows at once on all nodes (edges) that use the object, also when several share it, and on nothing else; styles made, copied or inverted by the program are separate objects that nothing uses until they are assigned; a copy looks the same and an inverse has the inverse colours; unknown keyword arguments raise TypeError.", "quantifier": "every reachable state, style object, attribute and value", "why_tests_cant": "The claim ranges over unboundedly many call histories and graph shapes; a test exercises a handful.", "anchors": ["abstract/styling/NodeStyle.py: __init__, complement, colour, fill_colour, border_colour, text_colour, copy", "abstract/styling/EdgeStyle.py: __init__, complement, colour, text_colour, copy", "abstract/Node.py: style", "abstract/Edge.py: style"]}
{"id": "C80", "title": "The stylists called directly use their templates and ratios as documented", "statement": "stylize_with_pensieve and stylize_randomly, called with a template NodeStyle and EdgeStyle and ratios, give exactly the objects that had no style and get one without templates a style with all attributes of the template other than its colours; the colours are chosen as without a template: in turn from the scheme for roots, from the parents for branches, from the start for edges, with the given ratios. Without templates and with the default ratios they do what Graph.stylize does.", "quantifier": "every reachable graph, template styles and ratios", "why_tests_cant": "The claim ranges over unboundedly many call histories and graph shapes; a test exercises a handful.", "anchors": ["abstract/styling/stylize_with_pensieve.py: stylize_with_pensieve", "abstract/styling/stylize_randomly.py: stylize_randomly", "abstract/styling/stylize_edges_based_on_nodes.py: stylize_edges_based_on_nodes", "abstract/styling/inherit_style.py: inherit_style"]}
{"id": "C81", "title": "Only removals remove, only additions add", "statement": "A node leaves a graph only through remove_node of that node, and an edge only through disconnect or remove_self of that edge, or remove_edges or remove_node of one of its ends. A node comes into an existing graph only through add_node, Node or append on it, with the name given; an edge only through connect, connect_to, connect_from or Edge with the two nodes it then joins, or append. Every other call, and every call that raises for another reason, leaves nodes and edges where they are; so along any sequence of calls without removals nothing is lost.", "quantifier": "every reachable state, every call, every sequence of calls", "why_tests_cant": "The claim ranges over unboundedly many call histories and graph shapes; a test exercises a handful.", "anchors": ["abstract/_BasicGraph.py: add_node, connect, remove_node, disconnect", "abstract/Node.py: remove_self, remove_edges, connect_to, connect_from", "abstract/Edge.py: remove_self, Edge", "abstract/_GraphWithoutDisplay.py: append"]}
{"id": "C82", "title": "Values and labels change only when assigned, and read back as assigned", "statement": "The value and the label of a node (of an edge) of a graph change only through an assignment to them, through add_node (connect, connect_to, connect_from) naming the object, which sets exactly the value passed, and through append. So what was assigned is read back after any sequence of other calls, as long as the object is in the graph, unless it was frozen, in which case it still has its earlier value.", "quantifier": "every reachable state, object of a graph, value, call and sequence of calls", "why_tests_cant": "The claim ranges over unboundedly many call histories and graph shapes; a test exercises a handful.", "anchors": ["abstract/_GraphObj.py: value, label, update", "abstract/_BasicGraph.py: add_node, connect", "abstract/Node.py: Node", "abstract/Edge.py: Edge"]}
{"id": "C83", "title": "Connecting and removing change ancestors, descendants and loops exactly as paths change", "statement": "A successful connect(a, b) gives a and the ancestors of a the descendants b and the descendants of b, and nothing else; it closes a loop exactly through the nodes on the way from b back to a, so a graph without loops stays so iff a is neither b nor a descendant of b. Removing an edge that is bypassed by another path changes no ancestors or descendants, and otherwise adds none. After remove_node a node reaches another iff it did so before along other nodes. Without removals ancestors, descendants and loops only grow, over any sequence of calls.", "quantifier": "every reachable graph, pair of nodes, edge, node and sequence of calls", "why_tests_cant": "The claim ranges over unboundedly many call histories and graph shapes; a test exercises a handful.", "anchors": ["abstract/_BasicGraph.py: connect, disconnect, remove_node, _get_ancestors, _get_descendants, loop_nodes", "abstract/Edge.py: remove_self"]}
{"id": "C84", "title": "render(path) writes the file it is given, in the format of its extension", "statement": "For every path with an extension, render(path=p) writes the drawing to p in the format the extension names.", "quantifier": "every path", "why_tests_cant": "The claim ranges over unboundedly many call histories and graph shapes; a test exercises a handful.", "anchors": ["abstract/_GraphWithoutDisplay.py: render, get_graphviz_source"]}
{"id": "C85", "title": "str tells the nodes and the edges of a graph apart", "statement": "str(node) is Node: and the name, str(edge) is Edge: and the texts of start and end; different nodes of a graph have different texts, and so have different edges; the text of a removed edge is still available.", "quantifier": "every reachable graph, pair of nodes, pair of edges", "why_tests_cant": "The claim ranges over unboundedly many call histories and graph shapes; a test exercises a handful.", "anchors": ["abstract/Node.py: __str__, __repr__", "abstract/Edge.py: __str__, __repr__"]}
{"id": "C86", "title": "Warnings are issued only for repeated names, once each, and never taken back", "statement": "The warnings issued so far stay, in order, whatever is called. add_node with a name warns exactly once, naming the node, when the graph has a node of that name and if_node_exists is 'warn', and otherwise never; connect likewise for an edge of the same start, end and id; append of a dictionary warns only about nodes and edge ids the dictionary lists with mode 'warn'. No other call on nodes, edges, styles or graphs (assignments, removals, copies, filters, stylize, render, the Node and Edge constructors) warns, whether it returns or raises.", "quantifier": "every heap and call; every reachable state for add_node and connect", "why_tests_cant": "The claim ranges over unboundedly many call histories and graph shapes; a test exercises a handful.", "anchors": ["abstract/_BasicGraph.py: add_node, connect", "abstract/_GraphWithoutDisplay.py: append, stylize, render"]}
{"id": "C87", "title": "Constructing objects directly keeps graphs consistent", "statement": "Node(graph, name), Edge(graph, start, end, id) and the methods append_outward_edge, append_inward_edge, remove_outward_edge and remove_inward_edge of Node, called directly, either raise or leave every graph consistent (one node per name; every node and edge that reports a graph is filed in it; every edge is listed at both its ends, which are in its graph).", "quantifier": "every reachable state, graph, name, pair of nodes, id and arguments", "why_tests_cant": "The claim ranges over unboundedly many call histories and graph shapes; a test exercises a handful.", "anchors": ["abstract/Node.py: __init__, append_outward_edge, append_inward_edge, remove_outward_edge, remove_inward_edge", "abstract/Edge.py: __init__, remove_self"]}
{"id": "C88", "title": "reset_colours and a new colour recolour a style and all that use it", "statement": "reset_colours of a NodeStyle takes its fill, border and text colours away (of an EdgeStyle the text colour, which is then drawn in the main colour) and changes nothing else. Assigning the main colour afterwards gives the style exactly the colours that a new style of that colour with the same lighter_fill has, whatever colours it had before; its other attributes and all other objects stay, and exactly the nodes (edges) that use the style object show the new colours.", "quantifier": "every state, style object and colour", "why_tests_cant": "The claim ranges over unboundedly many call histories and graph shapes; a test exercises a handful.", "anchors": ["abstract/styling/NodeStyle.py: reset_colours, colour", "abstract/styling/EdgeStyle.py: reset_colours, colour, text_colour"]}
{"id": "C89", "title": "Laws of filter: complement, idempotence, monotonicity, relatives kept", "statement": "For nodes of the graph given by name: every node of the graph is in exactly one of the results of filter with filter_type 'include' and with 'exclude', and no other node is. In the 'include' result the given nodes have the same ancestors and descendants as in the graph. Filtering that result again with the same nodes keeps all of it. Asking for more nodes keeps at least as much. Without nodes, 'include' gives a graph without nodes and 'exclude' one with all the nodes.", "quantifier": "every reachable state, graph whose nodes have no style and which stores no bound methods, list of names of its nodes, and direction", "why_tests_cant": "The claim ranges over unboundedly many call histories and graph shapes; a test exercises a handful.", "anchors": ["abstract/_BasicGraph.py:64 filter", "abstract/_BasicGraph.py: copy", "abstract/_GraphWithoutDisplay.py: remove_node"]}
{"id": "C90", "title": "A graph exported as lists of names and rebuilt has the same paths", "statement": "from_lists makes a node for each name in a row and links two nodes exactly if there is a row for them; so there is a walk of n edges between two names iff the rows compose to one. Hence if the names of the starts and of the ends of graph.edges are exported from any graph with string names and given to from_lists, the new graph has exactly the nodes that have an edge, as many edges, the same walks of every length between the same names (so the same ancestors, descendants, and distances), and a cycle iff the graph has one.", "quantifier": "every reachable state, graph with string names, and labels", "why_tests_cant": "The claim ranges over unboundedly many call histories and graph shapes; a test exercises a handful.", "anchors": ["abstract/_BasicGraph.py:100 from_lists", "abstract/_BasicGraph.py: edges"]}
{"id": "C91", "title": "Texts in styles survive DOT quoting", "statement": "The font, shape and shape style of a node style and the font and label style of an edge style read back from the DOT text as they are, apart from double quotes around them, which are dropped.", "quantifier": "every style object and text", "why_tests_cant": "The claim ranges over unboundedly many call histories and graph shapes; a test exercises a handful.", "anchors": ["abstract/styling/NodeStyle.py:204-218", "abstract/styling/EdgeStyle.py:151-165"]}
{"id": "C92", "title": "Similar graphs form classes with the same paths; copies are similar", "statement": "is_similar_to is transitive (with C37: an equivalence). Similar graphs have walks of the same lengths between the same names, hence the same ancestors, descendants and distances, and both have a cycle or neither. A copy of a graph is similar to it.", "quantifier": "every reachable state and graphs in it; keyword parameters with distinct keys", "why_tests_cant": "The claim ranges over unboundedly many call histories and graph shapes; a test exercises a handful.", "anchors": ["abstract/_BasicGraph.py:737 is_similar_to", "abstract/Node.py:106 is_similar_to", "abstract/Edge.py:77 is_similar_to", "abstract/_GraphObj.py:143 is_similar_to", "abstract/_BasicGraph.py: copy"]}

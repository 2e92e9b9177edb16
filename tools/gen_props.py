#!/usr/bin/env python3
"""Writes /verif/properties.jsonl (one property per line)."""
import json, os
P = []
def p(id, title, statement, quantifier, why, anchors):
    P.append(dict(id=id, title=title, statement=statement, quantifier=quantifier,
                  why_tests_cant=why, anchors=anchors))
H = "every history of API calls (creation, add_node, connect, disconnect, Edge.remove_self, remove_node, copy, append, add, setters, styling), including calls that raise, on any number of graphs; excluded are re-adding a node object that was removed from its graph (C52) and calling the constructors Node(graph, ...) / Edge(...) directly with a name or id that is already in use"
WH = "The claim ranges over unboundedly many call histories and graph shapes; a test exercises a handful."
B = "abstract/_BasicGraph.py"; N = "abstract/Node.py"; E = "abstract/Edge.py"; O = "abstract/_GraphObj.py"; D = "abstract/_GraphWithoutDisplay.py"

p("C01", "Edges are mirrored at both ends",
  "After any history of API calls, an edge is listed among the outward edges of node a under an id if and only if it is listed under the same id among the inward edges of the node it ends in; the id is always (start name, end name, extra id), both end nodes are in the same graph as the edge, and each node of a graph is filed under its own name and reports that graph as its graph.",
  H, WH, [f"{B}: connect, disconnect, add_node, remove_node", f"{N}: append_outward_edge, append_inward_edge", f"{E}: __init__, remove_self"])
p("C02", "add_node with a fresh name adds exactly one node",
  "add_node(name) with a str name not in the graph returns a new node with that name, no edges and the given label/value/style, placed last in graph.nodes; every other node, every edge and every other graph is unchanged.",
  "every reachable heap, graph, fresh name and argument combination", "Frame conditions ('nothing else changes') cannot be sampled exhaustively.",
  [f"{B}: add_node, generate_node_index", f"{N}: Node.__init__", f"{O}: GraphObj.__init__"])
p("C03", "add_node with an existing name updates in place",
  "add_node(name) for an existing name returns the existing node object; with 'ignore' or 'warn' it changes only those of style, label, value that were passed as non-None (and 'warn' emits one warning, 'ignore' none); with any other mode it raises KeyError and changes nothing. The set of nodes and all edges are unchanged in all cases.",
  "every reachable heap, existing name, mode string and argument combination", WH, [f"{B}: add_node"])
p("C04", "Node names are unique and indices are strictly increasing in insertion order",
  "In every graph whose nodes were all created by add_node, names are pairwise distinct and node indices strictly increase along graph.nodes, so sorted(graph.nodes) == graph.nodes after any mixture of additions and removals; an index is never reused.",
  "every history of API calls other than calling the constructor Node(graph, ..., index) directly", WH, [f"{B}: generate_node_index, add_node", f"{N}: __lt__, index"])
p("C05", "connect of a new edge adds exactly one edge",
  "connect(start, end, id) when no edge with that (start, end, id) exists returns a new edge from start to end that appears last in start's outward and end's inward edges; every other edge list, node and graph is unchanged.",
  "every reachable heap, pair of nodes of the graph (self-loops included) and id", "Frame condition over all graphs.", [f"{B}: connect", f"{E}: Edge.__init__"])
p("C06", "connect never duplicates a (start, end, id) edge",
  "connect for an existing (start, end, id) returns the existing edge object and changes only the passed non-None style/label/value under 'ignore'/'warn'; in any other mode it raises ValueError and changes nothing. In every reachable graph no two distinct edges have the same id.",
  H, WH, [f"{B}: connect", f"{N}: get_outward_edge"])
p("C07", "connect then disconnect is an identity on the observable graph",
  "Creating a new edge with connect and removing it with disconnect (or Edge.remove_self) restores every node's outward and inward edge lists and the graph's nodes exactly as they were.",
  "every reachable heap and every new edge", "Must hold for every prior graph.", [f"{B}: connect, disconnect", f"{E}: remove_self"])
p("C08", "remove_node removes the node and exactly its incident edges",
  "remove_node(n) succeeds for every node of the graph (self-loops, parallel edges included); afterwards graph.nodes is the old list without n, an edge survives iff neither of its ends was n, the surviving edge lists keep their order, and n reports no graph and no edges. node.remove_edges() removes the same edges and leaves the node in the graph.",
  "every reachable heap and node", WH, [f"{B}: remove_node", f"{N}: remove_edges, edges", f"{E}: remove_self"])
p("C09", "disconnect / remove_self remove exactly one edge, once",
  "Removing a live edge deletes it from exactly its start's outward and its end's inward edges and nothing else; a second removal of the same edge object raises and changes no graph.",
  "every reachable heap and edge object, live or already removed", WH, [f"{B}: disconnect", f"{E}: remove_self, id"])
p("C10", "The inconsistent-edge errors of connect are unreachable",
  "In any reachable state connect between two nodes of the graph never takes either 'This is very weird!' branch; in mode 'ignore'/'warn' without a style, on an edge that is not frozen, it always succeeds.",
  H, WH, [f"{B}: connect"])
p("C11", "Calls naming an unknown node fail without side effects",
  "get_node, connect, remove_node, get_parents, get_children, get_ancestors, get_descendants with a name that is not in the graph raise KeyError and no state changes; get_node_name does so for names, and gives the name of any node object.",
  "every reachable heap and unknown name", "Atomicity over all states.", [f"{B}: get_node, connect, remove_node"])
p("C12", "edges and edges_dict enumerate each edge exactly once",
  "graph.edges lists every edge of the graph exactly once (a self-loop once), and edges_dict has exactly one entry per edge, keyed by its id.",
  "every reachable graph", WH, [f"{B}: edges, edges_dict", f"{N}: edges, outward_edges"])
p("C13", "parents and children are dual, with multiplicity",
  "For nodes a, b of a graph the number of occurrences of b in a.children equals the number of occurrences of a in b.parents and equals the number of edges from a to b; num_children/num_parents/has_children/has_parents agree with those lists, and the sum of num_children over all nodes equals the sum of num_parents equals len(graph.edges).",
  "every reachable graph and pair of nodes", WH, [f"{B}: get_parents, get_children, num_parents, num_children, has_parents, has_children"])
p("C14", "ancestors are exactly the nodes with a directed path to the node",
  "node.ancestors terminates without error on every graph, cyclic or not, and lists without repetition exactly those nodes from which a directed path of at least one edge leads to the node (so it contains the node itself iff the node is on a cycle).",
  "every reachable graph (any cycle structure) and node", "Unbounded graph shapes; termination cannot be tested.", [f"{B}: _get_ancestors, get_ancestors", f"{N}: ancestors"])
p("C15", "descendants are exactly the other nodes reachable from the node",
  "node.descendants terminates without error on every graph and lists without repetition exactly those nodes other than the node itself that can be reached from it by a directed path; num_descendants is their number.",
  "every reachable graph and node", "Unbounded graph shapes; termination cannot be tested.", [f"{B}: _get_descendants, get_descendants", f"{N}: descendants, num_descendants"])
p("C16", "ancestors and descendants are converse",
  "For distinct nodes a and b of a graph, b is in a.descendants iff a is in b.ancestors.",
  "every reachable graph and pair of nodes", WH, [f"{B}: _get_ancestors, _get_descendants"])
p("C17", "Loop predicates decide cycles",
  "is_in_loop(n) is True iff some directed cycle passes through n; a.is_in_loop_with(b) is True iff there are directed paths from a to b and from b to a (one cycle-closed walk through both), is symmetric, and is transitive; edge.is_in_loop() is True iff the edge lies on a cycle; loop_nodes lists exactly the nodes on cycles in node order.",
  "every reachable graph and nodes/edges", WH, [f"{B}: is_node_in_loop, are_nodes_in_same_loop, loop_nodes", f"{N}: is_in_loop, is_in_loop_with", f"{E}: is_in_loop"])
p("C18", "roots is a minimal set from which every node is reachable",
  "graph.roots has no repetition, every node of the graph is a root or a descendant of a root, no root is a descendant of another root, every node without parents is a root; on an acyclic graph roots equals absolute_roots; with loops, roots are exactly the nodes that reach every node reaching them and were added before each of these.",
  "every reachable graph", WH, [f"{B}: roots, absolute_roots"])
p("C19", "siblings and co-parents are exact, and the two implementations agree",
  "get_siblings(n) / Node.siblings list without repetition exactly the nodes other than n that share a parent with n, in the same order; get_spouses(n) / Node.co_parents list exactly the nodes other than n that share a child with n; the counts and has_ predicates agree.",
  "every reachable graph and node", WH, [f"{B}: get_siblings, get_spouses, num_siblings, has_siblings, num_spouses, has_spouses", f"{N}: siblings, co_parents"])
p("C20", "leaves and absolute_roots are exactly the sinks and sources",
  "graph.leaves is the sublist of graph.nodes with no outgoing edge and graph.absolute_roots the sublist with no incoming edge.",
  "every reachable graph", WH, [f"{B}: leaves, absolute_roots"])
p("C21", "get_ancestors/get_descendants with distance report each relative at its distance",
  "With distance=True the returned dict maps d to exactly the relatives whose shortest directed path has d edges.",
  "every reachable graph and node", WH, [f"{B}: _get_ancestors, _get_descendants, get_ancestors, get_descendants"])
p("C22", "get_tree_str terminates and prints each edge exactly once",
  "graph.get_tree_str() terminates on every graph and its lines are one per root plus one per edge: below the single unstarred occurrence of each non-leaf node its children are listed once each, in order; every further occurrence of a non-leaf node is starred and not expanded.",
  "every reachable graph (cyclic included)", "Termination and exact-once printing over all graphs.", [f"{N}: get_tree_str", f"{B}: get_tree_str"])
p("C23", "copy yields an isomorphic, independent graph",
  "If no node has a style, graph.copy() returns a new graph with the same names in the same order, same labels/values/indices, the same edges with the same ids, no object shared with the original; the original is unchanged, and any later API calls on the one leave the other unchanged.",
  "every reachable graph without node styles, every later history", "Independence quantifies over all later histories.", [f"{B}: copy, __getstate__, __setstate__", f"{D}: __setstate__, update_nodes", f"{N}: __getstate__, __setstate__, update_edges", f"{E}: __getstate__, __setstate__"])
p("C24", "copy succeeds on every graph",
  "graph.copy() returns a copy for every reachable graph, styled (for example already rendered) or not.",
  "every reachable graph", WH, [f"{B}: copy", "abstract/styling/NodeStyle.py: __getstate__, __setstate__"])
p("C25", "A copy can be used like the original",
  "Everything that succeeds on the original graph - get_graphviz_str, connect/add_node updating a styled node, display_label - gives the same outcome on graph.copy().",
  "every reachable graph and operation", WH, [f"{B}: _STATE_ATTRIBUTES, __getstate__", f"{D}: get_graphviz_str"])
p("C26", "filter keeps exactly the requested neighbourhood",
  "filter(nodes, direction, 'include') returns a new graph whose nodes are exactly the named nodes with their ancestors (direction 'to'), descendants ('from') or both, 'exclude' the complement, with exactly the edges between surviving nodes; the original is unchanged.",
  "every reachable graph, list of nodes, direction and filter type", WH, [f"{B}: filter"])
p("C27", "from_lists makes one edge per row",
  "from_lists(start, end, edge) yields a graph whose nodes are the distinct names in order of first appearance (start before end in each row) and whose edges are exactly one per row i (up to the shortest list), from start[i] to end[i] with id i and label edge[i]; it never fails on str names and emits no warning.",
  "every three lists of strings", "Unbounded list lengths and coincidences of names.", [f"{B}: from_lists"])
p("C28", "from_object builds the graph of the object's relatives",
  "from_object(obj) returns a graph with a node for obj and for each of its descendants and ancestors and an edge for each parent/child pair among them.",
  "every object graph with __children__/__parents__", WH, [f"{B}: from_object, add_node"])
p("C29", "parse_indentations recovers an indented outline",
  "For every outline - a list of (level, content) with first level 0 and each level at most one deeper than the previous - printed with any indent unit of spaces or tabs, parse_indentations yields for line i its index, its level, its content, and as parent the latest earlier line whose level is one less (None at level 0), with the indent passed explicitly or detected.",
  "every outline, content and indent unit", "Unbounded outlines and indent strings.", ["abstract/parse_indentations_function.py: parse_indentations"])
p("C30", "from_indented_text yields a tree",
  "Whenever from_indented_text(root, lines) succeeds, the graph has one node per line plus 'root', exactly one edge into every line node and none into 'root', the edge for a line coming from its parent line (or root), every node is reachable from 'root', and the graph is acyclic.",
  "every list of lines and indent", WH, [f"{B}: from_indented_text", "abstract/parse_indentations_function.py"])
p("C31", "random graphs without cycle=True are acyclic",
  "Graph.random(num_nodes, cycle=False) yields for every outcome of the random generator exactly num_nodes nodes named by the consecutive integers and only edges from a smaller to a larger number, hence an acyclic graph; probability <= 0 gives no edge and >= 1 gives every permitted edge.",
  "every num_nodes, start_index, probability and random sequence in [0,1)", "Ranges over all random sequences.", [f"{D}: random"])
p("C32", "append unions nodes and edges",
  "graph.append(other_graph_or_dict) leaves the existing nodes and edges in place and adds exactly the missing nodes and missing (start, end, id) edges, in order; Graph(obj=g) has the same node names and edge ids as g in the same order.",
  "every reachable graph and representation", WH, [f"{D}: append, __graph__, __init__"])
p("C33", "Graph(obj=g) preserves labels",
  "For every graph g, each node of Graph(obj=g) displays the same label as the node of that name in g.",
  "every reachable graph", WH, [f"{D}: __graph__, append", f"{O}: display_label_or_value"])
p("C34", "g1 + g2 is the union graph",
  "g1 + g2 is a new graph with exactly the union of the node names and the union of the edge ids, whatever the iteration order of the set of names.",
  "every pair of reachable graphs and every set iteration order", "Hash-order nondeterminism and all graph pairs.", [f"{D}: __add__, add"])
p("C35", "g1 + g2 adds the values of shared nodes and edges",
  "In g1 + g2 a node (edge) present in both graphs has value v1 + v2 (the non-None one if one is None), and one present in only one graph keeps its value.",
  "every pair of reachable graphs", WH, [f"{D}: add"])
p("C36", "g1 + g2 leaves its operands unchanged",
  "Evaluating g1 + g2 changes neither g1 nor g2.", "every pair of reachable graphs", WH, [f"{D}: add, __graph__"])
p("C37", "is_similar_to decides structural similarity",
  "g1.is_similar_to(g2) returns True iff both graphs have the same node names with equal values/styles/parameters, the same edge ids with equal values/styles/parameters, and the same strict and ordering flags, False otherwise; it is reflexive and symmetric.",
  "every pair of reachable graphs", WH, [f"{B}: is_similar_to", f"{N}: is_similar_to", f"{E}: is_similar_to", f"{O}: is_similar_to"])
p("C38", "Node comparison is a total order consistent with hashing; != is the negation of ==",
  "The comparisons <, <=, >, >=, == on nodes with str names form a total order, equal nodes have equal hashes, and for any two comparable nodes or edges x != y is the negation of x == y.",
  "every pair/triple of nodes and edges", "Order laws range over all triples.", [f"{N}: __lt__, __gt__, __le__, __ge__, __eq__, __ne__, __hash__", f"{O}: __eq__, __ne__"])
p("C39", "Frozen objects keep their value",
  "While an object is frozen no API call changes its value: assigning value raises RuntimeError, and add_node/connect passing a value for it raise; freeze and unfreeze change nothing but whether the value can be assigned.",
  H, WH, [f"{O}: freeze, unfreeze, value", f"{B}: add_node, connect"])
p("C40", "A failing call changes nothing",
  "An add_node or connect call that raises leaves every graph exactly as it was.", "every reachable heap and call", WH, [f"{B}: add_node, connect"])
p("C41", "Styles are write-once unless overwriting is allowed",
  "On a graph with style_overwrite_allowed=False, once a node (edge) has a style object no later add_node/connect/style assignment replaces it: they raise RuntimeError; with style_overwrite_allowed=True they replace it.",
  H, WH, [f"{N}: style", f"{E}: style"])
p("C42", "Default styling succeeds on every graph",
  "stylize() with the default 'pensieve' stylist succeeds on every graph and leaves every node and edge with a style.",
  "every reachable graph, every colour scheme with at least one colour", WH, ["abstract/styling/stylize_with_pensieve.py", "abstract/styling/inherit_style.py", "abstract/styling/is_root_or_parents_are_in_loop.py", "abstract/styling/stylize_edges_based_on_nodes.py"])
p("C43", "Colours of a scheme are used in rotation",
  "Successive calls of get_least_used_colour on a fresh usage table return the scheme's colours round-robin in scheme order; at any time usage counts differ by at most one.",
  "every non-empty colour scheme and number of calls", "Unbounded number of calls.", ["abstract/styling/get_least_used_colour.py"])
p("C44", "Diverging numbers are n distinct, symmetric values in [-1, 1]",
  "generate_diverging_numbers(n) has exactly n pairwise distinct elements in [-1,1], closed under negation, containing 0 iff n is odd; get_diverging_number(i, n) is strictly increasing in i (decreasing when reversed).",
  "every n >= 0 and index", "Unbounded n.", ["abstract/styling/inherit_style.py: generate_diverging_numbers, get_diverging_number"])
p("C45", "Arrow sizes follow the edge's own value",
  "After default styling an unstyled edge with numeric value v has arrow size 0.5*v and one without value has 0.5, independently of other edges.",
  "every reachable graph", WH, ["abstract/styling/stylize_edges_based_on_nodes.py"])
p("C46", "Labels survive DOT quoting",
  "The label attribute emitted for a node is a DOT quoted string that reads back as exactly the node's label text.",
  "every label string", "Ranges over all strings.", [f"{N}: label, get_graphviz_str"])
p("C47", "The DOT text has one statement per node and per edge",
  "get_graphviz_str() contains exactly one node statement for each node, in node order, and exactly one edge statement for each edge of the graph, in graph.edges order, naming its start and end.",
  "every reachable graph", WH, [f"{D}: get_graphviz_str", f"{N}: get_graphviz_str", f"{E}: get_graphviz_str"])
p("C48", "get_descendants/get_ancestors on plain objects are exact",
  "For objects whose __children__ relation has finitely many reachable objects, get_descendants(obj) terminates and lists without repetition exactly the objects other than obj reachable from it; likewise get_ancestors.",
  "every finite object graph", WH, ["abstract/get_descendants.py", "abstract/get_ancestors.py"])
p("C49", "max_depth returns exactly the relatives within that distance",
  "get_descendants(obj, max_depth=k) returns exactly the objects reachable within k steps (likewise max_height).",
  "every object graph and k", WH, ["abstract/get_descendants.py", "abstract/get_ancestors.py"])
p("C50", "Membership test accepts names and nodes",
  "x in graph is True iff x is the name of a node of the graph or a node of the graph, False otherwise.",
  "every reachable graph and str or Node", WH, [f"{B}: __contains__", f"{N}: __hash__, __eq__"])
p("C51", "Strict graphs have no parallel edges",
  "In a graph created with strict=True there is at most one edge between any ordered pair of nodes.",
  H, WH, [f"{D}: __init__ docstring", f"{B}: connect"])
p("C52", "A removed node can be added back",
  "After graph.remove_node(n), graph.add_node(n) makes n a full member again: n.graph is the graph and its queries and connect work; and add_node(node) returns the node.",
  "every reachable graph and node", WH, [f"{B}: add_node, remove_node"])
p("C53", "Operations on one graph do not affect another",
  "Any add_node, connect, remove_node, disconnect, remove_self or setter on one graph leaves the nodes, edges and attributes of every other graph unchanged, even when node objects of another graph are passed (they are resolved by name).",
  H, WH, [f"{B}: get_node, connect, remove_node"])
p("C54", "get_child_rank ranks children by index",
  "n.get_child_rank(parent) is the number of entries of parent.children that precede n in (index, name) order, is below the number of children, differs for different children of one parent, and raises ValueError iff n is not a child of parent.",
  "every reachable graph and pair of its nodes, when the nodes of the graph can be compared (str names, or no direct use of the constructor Node)", WH, [f"{N}: get_child_rank, __lt__"])
p("C55", "Rendering again works",
  "If stylize() succeeds on a graph, calling it again succeeds.", "every reachable graph and display options", WH, [f"{D}: stylize", "abstract/styling/stylize_randomly.py"])
p("C56", "NodeStyle always has concrete colours, and copy preserves a style",
  "Every NodeStyle built by the constructor, reset_colours followed by a colour assignment, or copy has fill, border and text colours; copy() yields a style with the same appearance, and resetting and recolouring a copy behaves like on the original.",
  "every constructor argument combination", WH, ["abstract/styling/NodeStyle.py"])
p("C57", "EdgeStyle.copy preserves a style",
  "EdgeStyle.copy() yields a style with the same appearance, including the label style, and succeeds on every style of a graph.",
  "every edge style", WH, ["abstract/styling/EdgeStyle.py"])
p("C58", "Names and edge labels survive DOT quoting",
  "The identifiers in the node and edge statements read back (under Graphviz' quoting rules) as the node names, an edge's label attribute as its label, and different nodes of a graph have different identifiers.",
  "every reachable graph", "Ranges over all strings.", [f"{N}: get_graphviz_str", f"{E}: get_graphviz_str"])
p("C59", "Roots get the colours of the scheme in turn",
  "After stylize() with the default stylist, the nodes that had no style and have no parents outside cycles have a default NodeStyle whose colours are the scheme's distinct colours in turn, in node order.",
  "every reachable graph, display options without overwrites, on which stylize() succeeds", WH, ["abstract/styling/stylize_with_pensieve.py", "abstract/styling/get_least_used_colour.py", "abstract/styling/is_root_or_parents_are_in_loop.py"])
p("C60", "Edges take a darker shade of their start's colour; existing styles stay",
  "After stylize() with the default stylist, every edge that had no style has the default EdgeStyle with the colour of its start node darkened by 0.1 (and an arrow size, see C45), and every style that was there before is unchanged.",
  "every reachable graph, display options without overwrites, on which stylize() succeeds", WH, ["abstract/styling/stylize_edges_based_on_nodes.py"])
p("C61", "Hashes are stable",
  "The hash of a node never changes; the hash of an edge is a function of its graph and its id, is the same as long as the edge belongs to the graph, and different edges have different keys. Objects can therefore be kept in sets and dicts over any history.",
  "every reachable state, every further sequence of calls, every node and edge", WH, ["abstract/_GraphObj.py: __hash__", f"{N}: __hash__", f"{E}: id"])
p("C62", "node_styles and edge_styles list exactly the styled objects",
  "graph.node_styles maps the name of every node that has a style to that style and contains nothing else, in node order; graph.edge_styles likewise maps the ids of the styled edges.",
  "every reachable graph", WH, [f"{D}: node_styles, edge_styles"])
p("C63", "raw_id can be assigned",
  "Assigning node.raw_id renames the node: the graph then finds it under the new name and its queries work. Assigning edge.raw_id changes the id of the edge: it can then still be disconnected or removed, and no other edge is affected.",
  "every reachable graph, node, edge and new id", WH, ["abstract/_GraphObj.py: raw_id", f"{B}: get_node, disconnect", f"{E}: remove_self"])
p("C64", "Styling and rendering change nothing but styles",
  "stylize() and render(), whether they return or raise, leave the names, values, labels, edges, order, options and warnings of all graphs unchanged; an object outside the graph keeps its style, and an object of the graph keeps it or gets a style object made by the call.",
  "every reachable state, graph and display options", WH, [f"{D}: stylize, render", "abstract/styling/*.py"])
p("C65", "Saving a drawing does not change what is drawn",
  "render(path=..., height=..., width=...) leaves the same state and returns the same text as render(), or raises the same exception; the text that is saved is the returned text with the size statements inserted, and the same text when neither height nor width is given.",
  "every state, graph, path, height, width, direction and padding", WH, [f"{D}: render, get_graphviz_source, get_graphviz_str, get_graphviz_header"])
p("C66", "The DOT header reflects the options of the graph",
  "The header says strict iff the graph is strict, gives the background colour, the padding, the size, rankdir in capitals unless it is TB, and ordering=out iff the graph was created with ordering=True; its attribute line gives the label, label location, font, colours and link of the graph, the tooltip and the extra keyword arguments, the latter taking precedence; it raises exactly if the label is not a text or the label location is unusable.",
  "every graph, display options and arguments", WH, [f"{D}: get_graphviz_header"])
p("C67", "Branches inherit the colours of their parents",
  "After stylize() with the default stylist, a node without a style of its own that has parents and is not on a cycle gets the colour of its parent with the hue turned according to its rank among the siblings, or, with several parents, the mixture of the colours of its parents a little paler; its other attributes are those of the (first) parent.",
  "every reachable graph, display options without overwrites, on which stylize() succeeds", WH, ["abstract/styling/inherit_style.py", "abstract/styling/stylize_with_pensieve.py"])
p("C68", "Style overwrites for single nodes show on these nodes only",
  "With node_styles={name: {...}} the named nodes are drawn with the given attributes and everything else is drawn as without them.",
  "every reachable graph, default stylist, every node_styles", WH, [f"{D}: stylize, append", "abstract/styling/NodeStyle.py: complement"])
p("C69", "Colours can be set for single nodes and edges",
  "With node_colours={name: c} the named nodes are drawn in the colour c (fill, border and text derived from it), the edges that start there in a darker shade of c, everything else as without it; likewise edge_colours and edge_styles for single edges.",
  "every reachable graph, default stylist, every overwrite", WH, [f"{D}: stylize, append", f"{N}: style", f"{E}: style"])
p("C70", "The random stylist gives the colours of the scheme in turn",
  "With stylist='random', every stylize() gives the nodes, in an order that is a permutation of the nodes, the default style with the distinct colours of the scheme in turn, gives every edge without a style the default style with the colour of its start a tenth darker, and keeps the other styles of edges.",
  "every reachable graph without overwrites, every permutation the shuffle may choose", WH, [f"{D}: stylize", "abstract/styling/stylize_randomly.py"])
p("C71", "One style can be set for all nodes or all edges",
  "With node_style={...} all nodes are drawn with the given attributes, and otherwise as without it, in the colours the stylist gives them; shape='auto' draws circles if the names are short and boxes otherwise; likewise edge_style={...} for edges; and stylize() can be repeated.",
  "every reachable graph, default stylist, every node_style and edge_style", WH, [f"{D}: stylize", "abstract/styling/NodeStyle.py: __init__, complement", "abstract/styling/EdgeStyle.py: __init__, complement"])
p("C72", "The edges of a node are listed once, with their ids",
  "node.outward_edges, inward_edges and edges list exactly the edges that start, end, or start or end in the node, each once; outward_edge_ids and inward_edge_ids are their ids in the same order, and get_outward_edge / get_inward_edge find exactly these edges by id and raise KeyError otherwise; graph.get_outward_edges, get_inward_edges and get_edges agree with them.",
  "every reachable graph and node", WH, [f"{N}: edges, outward_edges, inward_edges, outward_edge_ids, inward_edge_ids, get_outward_edge, get_inward_edge", f"{B}: get_edges, get_outward_edges, get_inward_edges"])
p("C73", "invert_colours gives the negative of a style",
  "style.invert_colours() returns a new style whose main colour and given colours are the inverses, whose other colours are derived from the new main colour in the same way as before, and which agrees with the old one in everything else; it works for every style.",
  "every NodeStyle and EdgeStyle, made with any arguments and changed by complement", WH, ["abstract/styling/NodeStyle.py: invert_colours, copy", "abstract/styling/EdgeStyle.py: invert_colours, copy"])
p("C74", "SVG, HTML and notebook display show what render gives",
  "get_svg, get_html and the notebook display of a graph hand Graphviz exactly the DOT text that render gives for the same direction (by default the graph's own) and padding, leave the graph as render leaves it and raise what it raises; displaying again shows the same text.",
  "every reachable program state, graph, direction, padding", WH, ["abstract/Graph.py: get_svg, get_html, _repr_html_", "abstract/_GraphWithoutDisplay.py: render"])
p("C75", "The DOT text reads back as the graph",
  "get_graphviz_str gives text that the DOT grammar accepts, and reading it yields the graph: strict or not as declared, the graph attributes, exactly one node statement per node in node order with its name, label, tooltip and style, and exactly one edge statement per edge in edge order with its ends, label, tooltip and style. Hence graphs with the same text have the same node names and the same edges between them. This holds when the texts shown contain no quotes or backslashes.",
  "every reachable program state, graph, display options, direction, height, width, padding", WH, ["abstract/_GraphWithoutDisplay.py: get_graphviz_str, get_graphviz_header", "abstract/Node.py: get_graphviz_str", "abstract/Edge.py: get_graphviz_str", "abstract/styling/NodeStyle.py: get_graphviz_str", "abstract/styling/EdgeStyle.py: get_graphviz_str"])
p("C76", "append, Graph(obj=dict) and from_dict add exactly what the dictionary describes",
  "Appending a dictionary whose node names and edge ids are new keeps every node and edge of the graph as it was and adds, after them and in the order given, exactly the given nodes and edges with the given labels, values, tooltips and parameters; flags and display options that the dictionary mentions replace the graph's, the others stay; edge colours and styles are filed under the last given edge between the two names; no warning is given. Graph(obj=dict) and from_dict make a new graph with exactly the given nodes and edges. A list is appended item by item and stops at the first item that raises.",
  "every reachable program state, graph, dictionary and display options", WH, ["abstract/_GraphWithoutDisplay.py: append, from_dict, __init__"])
p("C77", "Parameters read back what was last assigned",
  "obj[key] gives the value last assigned with obj[key] = value (at first the keyword argument the object was made with, KeyError if there was none), right after and at any later time before the next assignment to that key of that object, whatever other calls are made meanwhile (including removal of the object, failing calls, styling and assignments to other keys or objects); assigning never fails.",
  "every reachable state, node or edge, key, value and further history of API calls", WH, ["abstract/_GraphObj.py: __getitem__, __setitem__, get, set"])
p("C78", "Objects keep their identity for life",
  "A node keeps its name, index and tooltip for ever, an edge keeps its ends, its id and its graph as long as it is in the graph; so a name denotes the same node object and an edge joins the same nodes until they are removed. A removed node or edge never comes back: no name denotes it, no edge ends at it.",
  "every reachable state and further history of API calls", WH, ["abstract/_BasicGraph.py: add_node, connect, disconnect, remove_node", "abstract/Node.py: __init__", "abstract/Edge.py: __init__, remove_self"])
p("C79", "Attributes assigned to a style object show on exactly the objects using it",
  "Assigning attributes of a NodeStyle (EdgeStyle) object, one or several at once with complement, works, sets those attributes and no others (all or, if it raises, none), and shows at once on all nodes (edges) that use the object, also when several share it, and on nothing else; styles made, copied or inverted by the program are separate objects that nothing uses until they are assigned; a copy looks the same and an inverse has the inverse colours; unknown keyword arguments raise TypeError.",
  "every reachable state, style object, attribute and value", WH, ["abstract/styling/NodeStyle.py: __init__, complement, colour, fill_colour, border_colour, text_colour, copy", "abstract/styling/EdgeStyle.py: __init__, complement, colour, text_colour, copy", "abstract/Node.py: style", "abstract/Edge.py: style"])
p("C80", "The stylists called directly use their templates and ratios as documented",
  "stylize_with_pensieve and stylize_randomly, called with a template NodeStyle and EdgeStyle and ratios, give exactly the objects that had no style and get one without templates a style with all attributes of the template other than its colours; the colours are chosen as without a template: in turn from the scheme for roots, from the parents for branches, from the start for edges, with the given ratios. Without templates and with the default ratios they do what Graph.stylize does.",
  "every reachable graph, template styles and ratios", WH, ["abstract/styling/stylize_with_pensieve.py: stylize_with_pensieve", "abstract/styling/stylize_randomly.py: stylize_randomly", "abstract/styling/stylize_edges_based_on_nodes.py: stylize_edges_based_on_nodes", "abstract/styling/inherit_style.py: inherit_style"])
p("C81", "Only removals remove, only additions add",
  "A node leaves a graph only through remove_node of that node, and an edge only through disconnect or remove_self of that edge, or remove_edges or remove_node of one of its ends. A node comes into an existing graph only through add_node, Node or append on it, with the name given; an edge only through connect, connect_to, connect_from or Edge with the two nodes it then joins, or append. Every other call, and every call that raises for another reason, leaves nodes and edges where they are; so along any sequence of calls without removals nothing is lost.",
  "every reachable state, every call, every sequence of calls", WH, ["abstract/_BasicGraph.py: add_node, connect, remove_node, disconnect", "abstract/Node.py: remove_self, remove_edges, connect_to, connect_from", "abstract/Edge.py: remove_self, Edge", "abstract/_GraphWithoutDisplay.py: append"])
p("C82", "Values and labels change only when assigned, and read back as assigned",
  "The value and the label of a node (of an edge) of a graph change only through an assignment to them, through add_node (connect, connect_to, connect_from) naming the object, which sets exactly the value passed, and through append. So what was assigned is read back after any sequence of other calls, as long as the object is in the graph, unless it was frozen, in which case it still has its earlier value.",
  "every reachable state, object of a graph, value, call and sequence of calls", WH, ["abstract/_GraphObj.py: value, label, update", "abstract/_BasicGraph.py: add_node, connect", "abstract/Node.py: Node", "abstract/Edge.py: Edge"])
p("C83", "Connecting and removing change ancestors, descendants and loops exactly as paths change",
  "A successful connect(a, b) gives a and the ancestors of a the descendants b and the descendants of b, and nothing else; it closes a loop exactly through the nodes on the way from b back to a, so a graph without loops stays so iff a is neither b nor a descendant of b. Removing an edge that is bypassed by another path changes no ancestors or descendants, and otherwise adds none. After remove_node a node reaches another iff it did so before along other nodes. Without removals ancestors, descendants and loops only grow, over any sequence of calls.",
  "every reachable graph, pair of nodes, edge, node and sequence of calls", WH, ["abstract/_BasicGraph.py: connect, disconnect, remove_node, _get_ancestors, _get_descendants, loop_nodes", "abstract/Edge.py: remove_self"])
p("C84", "render(path) writes the file it is given, in the format of its extension",
  "For every path with an extension, render(path=p) writes the drawing to p in the format the extension names.",
  "every path", WH, ["abstract/_GraphWithoutDisplay.py: render, get_graphviz_source"])
p("C85", "str tells the nodes and the edges of a graph apart",
  "str(node) is Node: and the name, str(edge) is Edge: and the texts of start and end; different nodes of a graph have different texts, and so have different edges; the text of a removed edge is still available.",
  "every reachable graph, pair of nodes, pair of edges", WH, ["abstract/Node.py: __str__, __repr__", "abstract/Edge.py: __str__, __repr__"])
p("C86", "Warnings are issued only for repeated names, once each, and never taken back",
  "The warnings issued so far stay, in order, whatever is called. add_node with a name warns exactly once, naming the node, when the graph has a node of that name and if_node_exists is 'warn', and otherwise never; connect likewise for an edge of the same start, end and id; append of a dictionary warns only about nodes and edge ids the dictionary lists with mode 'warn'. No other call on nodes, edges, styles or graphs (assignments, removals, copies, filters, stylize, render, the Node and Edge constructors) warns, whether it returns or raises.",
  "every heap and call; every reachable state for add_node and connect", WH, ["abstract/_BasicGraph.py: add_node, connect","abstract/_GraphWithoutDisplay.py: append, stylize, render"])
p("C87", "Constructing objects directly keeps graphs consistent",
  "Node(graph, name), Edge(graph, start, end, id) and the methods append_outward_edge, append_inward_edge, remove_outward_edge and remove_inward_edge of Node, called directly, either raise or leave every graph consistent (one node per name; every node and edge that reports a graph is filed in it; every edge is listed at both its ends, which are in its graph).",
  "every reachable state, graph, name, pair of nodes, id and arguments", WH, ["abstract/Node.py: __init__, append_outward_edge, append_inward_edge, remove_outward_edge, remove_inward_edge","abstract/Edge.py: __init__, remove_self"])
p("C88", "reset_colours and a new colour recolour a style and all that use it",
  "reset_colours of a NodeStyle takes its fill, border and text colours away (of an EdgeStyle the text colour, which is then drawn in the main colour) and changes nothing else. Assigning the main colour afterwards gives the style exactly the colours that a new style of that colour with the same lighter_fill has, whatever colours it had before; its other attributes and all other objects stay, and exactly the nodes (edges) that use the style object show the new colours.",
  "every state, style object and colour", WH, ["abstract/styling/NodeStyle.py: reset_colours, colour","abstract/styling/EdgeStyle.py: reset_colours, colour, text_colour"])
p("C89", "Laws of filter: complement, idempotence, monotonicity, relatives kept",
  "For nodes of the graph given by name: every node of the graph is in exactly one of the results of filter with filter_type 'include' and with 'exclude', and no other node is. In the 'include' result the given nodes have the same ancestors and descendants as in the graph. Filtering that result again with the same nodes keeps all of it. Asking for more nodes keeps at least as much. Without nodes, 'include' gives a graph without nodes and 'exclude' one with all the nodes.",
  "every reachable state, graph whose nodes have no style and which stores no bound methods, list of names of its nodes, and direction", WH, ["abstract/_BasicGraph.py:64 filter","abstract/_BasicGraph.py: copy","abstract/_GraphWithoutDisplay.py: remove_node"])
p("C90", "A graph exported as lists of names and rebuilt has the same paths",
  "from_lists makes a node for each name in a row and links two nodes exactly if there is a row for them; so there is a walk of n edges between two names iff the rows compose to one. Hence if the names of the starts and of the ends of graph.edges are exported from any graph with string names and given to from_lists, the new graph has exactly the nodes that have an edge, as many edges, the same walks of every length between the same names (so the same ancestors, descendants, and distances), and a cycle iff the graph has one.",
  "every reachable state, graph with string names, and labels", WH, ["abstract/_BasicGraph.py:100 from_lists","abstract/_BasicGraph.py: edges"])
p("C91", "Texts in styles survive DOT quoting",
  "The font, shape and shape style of a node style and the font and label style of an edge style read back from the DOT text as they are, apart from double quotes around them, which are dropped.",
  "every style object and text", WH, ["abstract/styling/NodeStyle.py:204-218","abstract/styling/EdgeStyle.py:151-165"])
p("C92", "Similar graphs form classes with the same paths; copies are similar",
  "is_similar_to is transitive (with C37: an equivalence). Similar graphs have walks of the same lengths between the same names, hence the same ancestors, descendants and distances, and both have a cycle or neither. A copy of a graph is similar to it.",
  "every reachable state and graphs in it; keyword parameters with distinct keys", WH, ["abstract/_BasicGraph.py:737 is_similar_to","abstract/Node.py:106 is_similar_to","abstract/Edge.py:77 is_similar_to","abstract/_GraphObj.py:143 is_similar_to","abstract/_BasicGraph.py: copy"])
with open('/verif/properties.jsonl', 'w') as f:
    for x in P:
        f.write(json.dumps(x) + '\n')
print(len(P))

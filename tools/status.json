{
 "C01": [
  "proved",
  "All reachable heaps; consistency is the record `consistent` of Spec.v."
 ],
 "C02": [
  "proved",
  "Exact equation for the resulting heap."
 ],
 "C03": [
  "proved",
  "Exact equation plus a frame corollary."
 ],
 "C04": [
  "proved",
  "Names distinct in every reachable heap; order, sortedness and non-reuse along all histories without the direct constructor Node(graph, ...), whose index argument is free."
 ],
 "C05": [
  "proved",
  "Exact equation, and the edge relation afterwards."
 ],
 "C06": [
  "proved",
  "Exact equation, frame corollary, uniqueness of ids."
 ],
 "C07": [
  "proved",
  "For disconnect and remove_self."
 ],
 "C08": [
  "proved",
  "Exact resulting heap, and the surviving edges."
 ],
 "C09": [
  "proved",
  "Live and dead edges, both removal functions."
 ],
 "C10": [
  "proved",
  "The two dictionaries agree on every id; lenient connect succeeds."
 ],
 "C11": [
  "proved",
  "All listed calls, for names and for node objects."
 ],
 "C12": [
  "proved",
  "graph.edges and edges_dict for every reachable graph."
 ],
 "C13": [
  "proved",
  "Multiplicities, counts, has_ predicates and both sums."
 ],
 "C14": [
  "proved",
  "Total (no fuel exhaustion) and exact."
 ],
 "C15": [
  "proved",
  "Total (no fuel exhaustion) and exact."
 ],
 "C16": [
  "proved",
  ""
 ],
 "C17": [
  "proved",
  "All four predicates; loop_nodes as an ordered sublist."
 ],
 "C18": [
  "proved",
  "Also minimum cardinality among covering sets; equality with absolute_roots on acyclic graphs; the exact set also with loops."
 ],
 "C19": [
  "proved",
  "Both implementations return the same list."
 ],
 "C20": [
  "proved",
  ""
 ],
 "C21": [
  "partial",
  "The property is false of the code: three refutations (not shortest; relatives missing even on a tree; a node listed at two distances behind a loop). Proved: every entry is a relative at the end of a walk of exactly that length; and the property holds when every node below has at most one child (descendants), or every node above has at most one parent and lies on no cycle (ancestors)."
 ],
 "C22": [
  "proved",
  "Exact text as a printed forest; also for Node.get_tree_str. C22_label says which text stands for a node."
 ],
 "C23": [
  "proved",
  "Exact: the copy is the image of the graph under a bijection on new nodes and edges; every other graph is untouched and later calls on one do not affect the other."
 ],
 "C24": [
  "partial",
  "False of the code (refuted): copying a graph with a styled node raises KeyError. Proved: exactly when copying succeeds, and that a failing copy changes nothing."
 ],
 "C25": [
  "partial",
  "False of the code (refuted twice): copies lack the display attributes, so rendering and restyling raise AttributeError on every copy (proved). Proved positively: structure, paths and distances agree."
 ],
 "C36": [
  "partial",
  "False of the code (refuted): the left operand takes over the style overwrites of the right one. Proved: nodes, edges and everything but these two dictionaries are unchanged."
 ],
 "C38": [
  "partial",
  "Total order, hash and != proved for nodes with str names; C38_all_laws gives the laws of < and == for names of any kind; C38_kinds extends the comparison to int names, and C38_mixed says that mixed names with equal indices raise TypeError; for edges != compares only the extra id and is refuted, with the exact behaviour of both operators."
 ],
 "C39": [
  "proved",
  "Along every history that does not unfreeze the object itself; exact effect of the raising calls."
 ],
 "C40": [
  "partial",
  "Refuted (three witnesses); exact description of everything a raising add_node or connect can leave behind."
 ],
 "C41": [
  "proved",
  "Along every history; raising and replacing assignments in closed form."
 ],
 "C48": [
  "proved",
  "For every finite set closed under the relation; the same code serves both directions."
 ],
 "C49": [
  "partial",
  "The property is false of the code (refuted): a relative within the limit may be left out. Proved: soundness, direct relatives complete, limits at least the number of objects are exact, limits <= 0 give nothing; and every limit is exact when no object below is the child of two."
 ],
 "C50": [
  "partial",
  "False of nodes (refuted): `node in graph` raises TypeError for a node of the graph. Proved: exact for names; exact behaviour for nodes."
 ],
 "C51": [
  "partial",
  "Refuted: the strict flag is never consulted; shown for every pair of nodes."
 ],
 "C52": [
  "partial",
  "Refuted; exact effect of re-adding a removed node object and of adding a present one."
 ],
 "C53": [
  "proved",
  "For every call and for sequences of calls that are not on the graph; builders only add objects."
 ],
 "C54": [
  "proved",
  "For nodes of one graph that can be compared (str names, or any history without Node(graph, ...)); the failure with mixed names is exhibited."
 ],
 "C26": [
  "partial",
  "False of the code (refuted): the direction is ignored. Proved: the exact result for every direction and filter type on unstyled graphs, the claim as stated for the default direction, unknown names fail without any change."
 ],
 "C27": [
  "proved",
  "For all lists of node names."
 ],
 "C29": [
  "partial",
  "False of the code (refuted): an indent unit of several characters that also occurs in the text of an indented line is replaced there too. Proved: index, level and parent of every line for every outline and unit, explicit or detected; the content whenever the level is 0, the unit is one character, or it does not occur in the text. C29_outline: whatever the lines, what the parser accepts is an outline, with the right parents; C29_content: no text starts with white space, and only lines of line ends are blank; C29_blank: those are accepted."
 ],
 "C30": [
  "proved",
  "For every list of lines and indent; success exactly when the parser succeeds."
 ],
 "C31": [
  "proved",
  "For every sequence of draws in [0,1); probabilities are rationals."
 ],
 "C28": [
  "partial",
  "Refuted twice: from_object raises UnboundLocalError for every object whose __hash__ is an integer, because add_node leaves a variable unbound for names that are not strings (C28_from_object_refuted is a concrete object; C28_from_object_partial: this holds for every such object, and the only effect is an unused empty graph). With string hashes it raises KeyError for an object with two parents, because an edge is made before the node it starts at (C28_two_parents_refuted). C28_forest_partial: with distinct string hashes and relatives that form a forest it returns exactly the graph of the relatives."
 ],
 "C32": [
  "partial",
  "Refuted for a Graph with at least one edge (TypeError: C32_append_graph_refuted, and for all such graphs C32_append_graph_fails_partial). Otherwise proved: whenever append / Graph(obj) succeeds the result is exactly the union, in order (C32_append_partial, C32_graph_of_partial), and it does succeed for every acceptable dictionary (C32_append_succeeds_partial)."
 ],
 "C33": [
  "partial",
  "Refuted (C33_labels_refuted): the new label is a bound method. C33_contents_partial: the values and style objects are preserved, and what the label is."
 ],
 "C34": [
  "partial",
  "Refuted if there is an edge (C34_union_refuted; for all such pairs C34_fails_partial). C34_union_partial: whenever the sum exists, it is the union, for every iteration order of the set of names."
 ],
 "C35": [
  "partial",
  "Refuted (C35_values_refuted): a shared node gets f(v2, v2). Refuted for the values 0 and None too (C35_default_refuted): the default function gives None. C35_values_partial: the values of all nodes of the sum; C35_default_partial: the default function; edges never occur because of C34_fails_partial."
 ],
 "C37": [
  "partial",
  "Refuted (C37_similar_refuted): a name or edge id missing in the other graph gives KeyError instead of False. Proved: True exactly for similar graphs (C37_true_partial), reflexive, symmetric, never anything else than True, False, KeyError, and no KeyError if names and ids occur."
 ],
 "C43": [
  "proved",
  "For get_least_used_colour as stylize_with_pensieve uses it, for every non-empty scheme (repetitions included)."
 ],
 "C44": [
  "proved",
  "For every n; the index is a natural number (Python's negative indices are not modelled). Values are exact rationals."
 ],
 "C56": [
  "partial",
  "Refuted (C56_recolour_refuted): lighter_fill=False is lost in the copy. Proved: every style has its colours, and copies look the same (C56_coloured_partial, C56_copy_partial); recolouring agrees when lighter_fill (C56_recolour_partial)."
 ],
 "C57": [
  "partial",
  "Refuted (C57_copy_refuted): the label style is lost; C57_deepcopy_partial: copying a deep-copied style raises AttributeError. Proved: all else is kept (C57_copy_partial)."
 ],
 "C46": [
  "partial",
  "Refuted (C46_label_refuted): backslashes are not escaped. Proved for labels in which no backslash stands before a quote, a line end or the end (C46_label_partial); at the level of the DOT scanner, i.e. before label escapes such as \\n are interpreted. C46_converted covers graphs with a label converter."
 ],
 "C47": [
  "proved",
  "For graphs that have display options and whose label, if any, is text with a location (the default)."
 ],
 "C58": [
  "partial",
  "Refuted: quotes in names and edge labels are not escaped (C58_quote_refuted, C58_edge_label_refuted), nodes 1 and '1' coincide (C58_distinct_refuted). Proved for text without quotes and backslashes (C58_plain_partial). C58_converted_partial covers graphs with a converter of edge labels."
 ],
 "C42": [
  "partial",
  "Refuted (C42_loop_refuted): on a -> b, b -> c, c -> b the default stylist raises AttributeError. Proved: exactly when it succeeds (C42_succeeds_partial, C42_fails_partial; nodes comparable as in C54, no Colour objects as edge values for the exception class), what it does (C42_effect_partial), and that it styles everything in acyclic graphs with numeric values (C42_acyclic_partial)."
 ],
 "C45": [
  "partial",
  "Refuted (C45_own_value_refuted): the factors accumulate over the edges. Proved: the exact arrow size, and the colour (C45_arrow_partial)."
 ],
 "C55": [
  "partial",
  "Refuted for style dictionaries and the random stylist (C55_dict_refuted, C55_random_refuted). Proved: with the default stylist and no overwriting a second call succeeds and changes nothing (C55_default_partial). With the default stylist render leaves what stylize leaves and returns the drawing of that (C55_render_partial)."
 ],
 "C59": [
  "proved",
  ""
 ],
 "C60": [
  "proved",
  ""
 ],
 "C61": [
  "partial",
  "The laws hold for nodes always and for edges while they belong to the graph (C61_node, C61_edge, C61_distinct). Refuted beyond that: a removed edge cannot be hashed (C61_removed_refuted), a disconnected one gets another hash (C61_disconnected_refuted)."
 ],
 "C62": [
  "proved",
  ""
 ],
 "C63": [
  "partial",
  "Refuted: a renamed node is lost (C63_node_refuted), an edge with a new id cannot be removed, or another one is unlisted instead (C63_edge_refuted). Proved: exactly what happens (C63_node_partial, C63_edge_partial)."
 ],
 "C64": [
  "proved",
  ""
 ],
 "C65": [
  "proved",
  ""
 ],
 "C66": [
  "partial",
  "Refuted for the ordering, which is inverted (C66_ordering_refuted). Proved: the exact header with its attribute line and when it raises (C66_attributes, C66_header_partial, C66_default_header), and that the background colour can be changed (C66_background)."
 ],
 "C67": [
  "partial",
  "Refuted when a parent that is no root has a style of its own (C67_styled_parent_refuted) and for several parents that are no roots (C67_mixed_refuted). Proved: the exact style, as handed down from the roots (C67_handed_down_partial), and the claim for one parent without a style of its own (C67_single_partial) and several root parents (C67_several_partial)."
 ],
 "C68": [
  "partial",
  "Refuted for the entry 'colour', which never shows (C68_colour_refuted, C68_colour_partial), and for nodes that share a style object (C68_shared_refuted). Proved: exactly which style objects change and how (C68_exact_partial), and the claim when no style object is shared (C68_shows_partial). Styling with node styles that fit the graph succeeds (C68_succeeds_partial)."
 ],
 "C69": [
  "partial",
  "Refuted: unless style_overwrite_allowed was given the overwrites raise RuntimeError (C69_node_colour_refuted), always (C69_never_partial); if it was given, the edges keep the shade of the old colour (C69_edge_shade_refuted). Proved: with overwriting allowed, the exact effect of node colours (C69_node_colours_partial) and of edge styles and edge colours (C69_edges_partial; the label style of a recoloured edge is lost, as in C57). Styling with overwrites of all four kinds that fit the graph succeeds (C69_succeeds_partial)."
 ],
 "C70": [
  "partial",
  "Refuted for a second stylize(), which raises RuntimeError (C70_again_refuted); so does every stylize() of a graph with a styled node when overwriting is not allowed (C70_raises_partial). Proved: the effect whenever it succeeds (C70_effect_partial), the arrow sizes (C70_arrow_partial) and that it succeeds when no node is styled or overwriting is allowed (C70_succeeds_partial)."
 ],
 "C71": [
  "partial",
  "Refuted: the colours of the stylist are lost (C71_scheme_refuted), shape 'auto' is emitted literally if some name has three characters (C71_auto_refuted), and no later stylize() succeeds unless overwriting is allowed (C71_raises_partial). Proved: after a successful stylize() every node (C71_nodes_partial) and every edge (C71_edges_partial) has exactly the style that the given arguments make. It succeeds if the arguments fit the graph (C71_succeeds_partial)."
 ],
 "C72": [
  "partial",
  "Refuted for graph.get_edges: it lists a loop from the node to itself twice, node.edges once (C72_loops_refuted). Proved for everything else."
 ],
 "C73": [
  "partial",
  "Refuted: lighter_fill=False is lost (C73_lighter_refuted), a fill colour assigned later is lost (C73_assigned_refuted), the label style of an edge is lost (C73_label_style_refuted), and edge styles of copied graphs raise (second half of C73_edge_partial). Proved: the rest, for styles made with any arguments, and for twofold inversion of every style in a reachable state."
 ],
 "C74": [
  "proved",
  "The claim about displaying again is for the default stylist without overwriting (otherwise see C55)."
 ],
 "C75": [
  "proved",
  "The reader (SpecRead.v) is a scanner and parser for the part of the DOT grammar that occurs. harmless lists the conditions on the texts: no quotes or backslashes (node labels may have them), no label converters, a graph label that is no HTML and has no background. Without them see C46, C58."
 ],
 "C76": [
  "proved",
  "acceptable lists what append accepts (string names, no style objects, ends of edges known, colours and styles only for given edges). Repeated names and ids are the subject of C32. C76_list asks that the ends of edges are in the graph or in the same dictionary."
 ],
 "C77": [
  "proved",
  ""
 ],
 "C78": [
  "proved",
  "As everywhere, the histories do not pass a removed Node object to add_node (C52) and do not assign raw_id (C63)."
 ],
 "C79": [
  "partial",
  "Refuted for the main colour of a node style: fill, border and text colours are always set already, so assigning it changes no node statement (C79_colour_refuted; C79_colour shows this for every state). Refuted that a complement that raises changes nothing (C79_atomic_refuted): the entries before the one that raises stay assigned (C79_stops, C79_edge_stops). Proved for the style objects: exactly the assigned attributes change (C79_assign, C79_edge_assign, and for several at once C79_many, C79_edge_many), everything else is drawn as before (C79_others, C79_edge_others), new objects are unused (C79_new, C79_edge_new). Copies and inverses are described by C79_derived and C79_edge_derived, unknown keywords by C79_keywords."
 ],
 "C80": [
  "partial",
  "Refuted: with a template the colours of branches come from the template's colour, not the parent's (C80_hue_refuted); lighter_fill and label_style of the template are lost (C80_lighter_refuted, C80_label_refuted). Proved for every reachable graph, template and ratio: equality with stylize without templates (C80_default_partial), the roots (C80_roots_partial), the branches with the rule the code follows (C80_branches_partial), the edges (C80_edges_partial), exactly when it succeeds (C80_succeeds_partial), and the random stylist (C80_random_partial). Without a template the colours of the branches for any ratios (C80_ratios_partial). Missing: templates whose arrow size is not a number."
 ],
 "C81": [
  "proved",
  "For every call of the model and every existing graph, including calls that raise half-way. What append may add is the subject of C32 and C76."
 ],
 "C82": [
  "proved",
  "Objects removed from their graph are not covered; append is counted as a call that may assign (what it assigns is in C32 and C76)."
 ],
 "C83": [
  "proved",
  "Stated on the lists the queries return before and after the call."
 ],
 "C84": [
  "partial",
  "Refuted: output_format is computed but not used, so g.png is written as g.pdf (C84_format_refuted). Proved for every path: the extension is replaced by .pdf, so the right file is written iff the extension is .pdf (C84_extension_partial); without extension .pdf is appended (C84_plain_partial). The default format of the graphviz package is taken from its documentation. (dpi is not used either: the lines 345-346 are commented out.)"
 ],
 "C85": [
  "partial",
  "Refuted: the nodes '1' and 1, and parallel edges, have the same text (C85_apart_refuted). Proved: the texts (C85_text_partial), that nodes with names of the same type differ (C85_nodes_partial), that edges with the same text have ends with the same text unless a dash is in the name of a start (C85_edges_partial), and what happens after removal: after disconnect the text stays, after remove_self str raises ValueError (C85_removed_partial)."
 ],
 "C86": [
  "proved",
  "from_lists, from_indented_text and random issue no warning by C27, C30 and C31. Which warnings from_object and add issue is not described beyond C86_kept (they call append and add_node)."
 ],
 "C87": [
  "partial",
  "Refuted (C87_node_refuted, C87_edge_refuted). Proved: new names and new ids between nodes of the graph keep it consistent (C87_fresh_partial). In every other case it is proved that the call does not raise, what it does exactly (C87_node, C87_edge), and that the graph is inconsistent afterwards, in every state (C87_node_breaks, C87_edge_breaks, C87_foreign, C87_half_removed, C87_half_appended); C87_stale shows that removing the replaced edge then takes out the new one."
 ],
 "C88": [
  "proved",
  "reset_colours is not among the calls of a history (Ops.v), because most theorems about drawing rely on all styles having colours; the theorems hold for every heap."
 ],
 "C89": [
  "proved",
  "The graphs are those that C26 determines; the direction has no influence (C26_refuted)."
 ],
 "C90": [
  "proved",
  "Nodes without edges are not exported."
 ],
 "C91": [
  "partial",
  "Refuted: quotes inside are not escaped, so the text is cut short and the text of the graph is not even DOT text (C91_inner_refuted). Proved: any number of quotes around is dropped (C91_quoted_partial, C91_edge_quoted_partial), and texts without quotes and backslashes inside read back (C91_read_partial, C91_edge_read_partial). With C75 this extends to the whole text."
 ],
 "C92": [
  "partial",
  "Refuted for copies of graphs with a styled edge (C92_copy_refuted): styles are compared as objects and the copy has its own, so the answer is always False (C92_styled_copy_partial). Proved for all other graphs (C92_copy_partial), and the rest without restriction."
 ]
}
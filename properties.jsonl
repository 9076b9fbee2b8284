{"id": "C01", "title": "Adding a node creates exactly that node", "statement": "After a successful add_task/add_subprocess/add_start_event/add_end_event/add_*_gateway call, looking the returned id up yields a node with the requested type, name and process, empty incoming and outgoing lists and the default 100x100 geometry plus the kind-specific attributes; every other node and every flow is left as it was, and the nodes already present keep their order.", "quantifier": "all diagrams, all kinds of nodes, all argument values, given or generated ids", "why_tests_cant": "the frame condition speaks about every other node of an arbitrary diagram; a test looks at one diagram", "anchors": ["bpmn_python/bpmn_diagram_rep.py:add_flow_node_to_diagram", "bpmn_python/bpmn_diagram_rep.py:add_task_to_diagram", "bpmn_python/bpmn_diagram_rep.py:add_subprocess_to_diagram", "bpmn_python/bpmn_diagram_rep.py:add_start_event_to_diagram", "bpmn_python/bpmn_diagram_rep.py:add_end_event_to_diagram", "bpmn_python/bpmn_diagram_rep.py:add_gateway_to_diagram", "bpmn_python/bpmn_diagram_rep.py:add_exclusive_gateway_to_diagram", "bpmn_python/bpmn_diagram_rep.py:add_inclusive_gateway_to_diagram", "bpmn_python/bpmn_diagram_rep.py:add_parallel_gateway_to_diagram"]}
{"id": "C02", "title": "Adding a sequence flow has exactly the documented effect", "statement": "add_sequence_flow_to_diagram between two existing nodes appends the new flow id to the outgoing list of the source and to the incoming list of the target, records name/sourceRef/targetRef, gives the edge its id, name, process and two waypoints taken from the two node positions, and changes nothing else.", "quantifier": "all diagrams, all pairs of existing nodes (also equal ones), all names and generated ids", "why_tests_cant": "includes self-loops and already connected pairs and a frame condition over the whole diagram", "anchors": ["bpmn_python/bpmn_diagram_rep.py:add_sequence_flow_to_diagram"]}
{"id": "C03", "title": "Flow bookkeeping is consistent in every reachable diagram", "statement": "In every diagram built through the API, each recorded sequence flow occurs exactly once in the outgoing list of its source and exactly once in the incoming list of its target, and every id in an incoming/outgoing list is a recorded flow with that node as target/source.", "quantifier": "all finite histories of API calls with fresh generated ids, existing endpoints and no re-used node ids (calls that raise included)", "why_tests_cant": "quantifies over unbounded call histories", "anchors": ["bpmn_python/bpmn_diagram_rep.py:add_sequence_flow_to_diagram", "bpmn_python/bpmn_diagram_rep.py:add_flow_node_to_diagram", "bpmn_python/bpmn_diagram_rep.py:sequence_flows"]}
{"id": "C04", "title": "Every recorded flow can be retrieved by its id", "statement": "get_flow_by_id(f) returns the flow f with its own source and target for every recorded flow f. Holds when no two flows connect the same unordered pair of nodes; fails otherwise because edges of the underlying undirected graph are shared.", "quantifier": "all API histories; counterexample for two flows between the same two nodes", "why_tests_cant": "depends on the whole history of added flows; the failing histories are ones the tests do not build", "anchors": ["bpmn_python/bpmn_diagram_rep.py:get_flow_by_id", "bpmn_python/bpmn_diagram_rep.py:add_sequence_flow_to_diagram", "bpmn_python/bpmn_diagram_rep.py:diagram_graph"]}
{"id": "C05", "title": "Type queries partition the nodes", "statement": "get_nodes() returns all nodes; get_nodes(t) returns exactly the nodes of type t, in diagram order, with no duplicates; get_nodes_id_list_by_type(t) returns their ids; get_node_by_id(i) returns the node with id i, or None when absent.", "quantifier": "all diagrams whose nodes carry a type, all type names", "why_tests_cant": "ranges over all diagrams and types", "anchors": ["bpmn_python/bpmn_diagram_rep.py:get_nodes", "bpmn_python/bpmn_diagram_rep.py:get_node_by_id", "bpmn_python/bpmn_diagram_rep.py:get_nodes_id_list_by_type"]}
{"id": "C06", "title": "Process queries partition nodes and flows", "statement": "get_nodes_list_by_process_id(p) and get_flows_list_by_process_id(p) return exactly the nodes/flows that belong to p; every flow of the diagram is reported exactly once by get_flows().", "quantifier": "all diagrams, all process ids", "why_tests_cant": "ranges over all graphs, including self-loops and all insertion orders of nodes and edges", "anchors": ["bpmn_python/bpmn_diagram_rep.py:get_nodes_list_by_process_id", "bpmn_python/bpmn_diagram_rep.py:get_flows_list_by_process_id", "bpmn_python/bpmn_diagram_rep.py:get_flows"]}
{"id": "C07", "title": "Invalid gateway direction is rejected without changing the diagram", "statement": "A gateway call with a direction other than Unspecified/Converging/Diverging/Mixed raises BpmnPythonError and leaves the diagram unchanged. (The raise is proved; the second half is refuted: the node stays in the diagram.)", "quantifier": "all diagrams and arguments", "why_tests_cant": "the exception is raised after a mutation; only a statement about the state after the exception shows it", "anchors": ["bpmn_python/bpmn_diagram_rep.py:add_gateway_to_diagram"]}
{"id": "C08", "title": "Event definitions requested are the ones stored", "statement": "A start/end event created with a supported definition name carries exactly one event definition of the corresponding BPMN type with the generated id; with any other value it carries none.", "quantifier": "all diagrams, all definition arguments", "why_tests_cant": "all strings as definition names", "anchors": ["bpmn_python/bpmn_diagram_rep.py:add_start_event_to_diagram", "bpmn_python/bpmn_diagram_rep.py:add_end_event_to_diagram", "bpmn_python/bpmn_diagram_rep.py:add_event_definition_element"]}
{"id": "C09", "title": "A flow to an unknown node is rejected without changing the diagram", "statement": "add_sequence_flow_to_diagram with an endpoint that is not in the diagram raises, and leaves the diagram unchanged. (The raise is proved; atomicity is refuted: phantom nodes, an edge and a sequence_flows record remain.)", "quantifier": "all diagrams, all endpoint ids", "why_tests_cant": "state after the exception", "anchors": ["bpmn_python/bpmn_diagram_rep.py:add_sequence_flow_to_diagram"]}
{"id": "C10", "title": "Creating a new diagram discards everything", "statement": "After create_new_diagram_graph the diagram has no nodes, flows, processes, plane attributes or collaboration and exactly the given name and generated id, whatever it held before.", "quantifier": "all diagrams", "why_tests_cant": "all prior states", "anchors": ["bpmn_python/bpmn_diagram_rep.py:create_new_diagram_graph", "bpmn_python/bpmn_diagram_rep.py:__init__"]}
{"id": "C11", "title": "Processes are recorded with their attributes and the plane refers to the latest one", "statement": "add_process_to_diagram records isClosed/isExecutable as 'true'/'false', name and type under the returned id, makes the plane refer to it and leaves nodes, flows and other processes untouched.", "quantifier": "all diagrams and arguments", "why_tests_cant": "frame over all diagrams", "anchors": ["bpmn_python/bpmn_diagram_rep.py:add_process_to_diagram"]}
{"id": "C12", "title": "Positions are reported for every node", "statement": "get_nodes_positions returns for every node the numeric value of its x and y, and raises exactly when some node lacks a numeric x or y.", "quantifier": "all diagrams", "why_tests_cant": "all diagrams, including nodes without geometry", "anchors": ["bpmn_python/bpmn_diagram_rep.py:get_nodes_positions"]}
{"id": "C13", "title": "Count metrics count what they name", "statement": "TNSE, TNIE, TNEE, TNE, NOA, NOAC, NOAJS, NumberOfNodes and the all_* counters equal the number of nodes whose type is in the corresponding set of BPMN types; TNE = TNSE+TNIE+TNEE, NOAC = NumberOfNodes = NOA + gateways + events, NOAJS = NOA + gateways.", "quantifier": "all diagrams whose nodes carry a type", "why_tests_cant": "all diagrams", "anchors": ["bpmn_python/bpmn_diagram_metrics.py:get_nodes_count", "bpmn_python/bpmn_diagram_metrics.py:get_gateway_counts", "bpmn_python/bpmn_diagram_metrics.py:get_events_counts", "bpmn_python/bpmn_diagram_metrics.py:TNSE_metric", "bpmn_python/bpmn_diagram_metrics.py:TNIE_metric", "bpmn_python/bpmn_diagram_metrics.py:TNEE_metric", "bpmn_python/bpmn_diagram_metrics.py:TNE_metric", "bpmn_python/bpmn_diagram_metrics.py:NOA_metric", "bpmn_python/bpmn_diagram_metrics.py:NOAC_metric", "bpmn_python/bpmn_diagram_metrics.py:NOAJS_metric", "bpmn_python/bpmn_diagram_metrics.py:NumberOfNodes_metric"]}
{"id": "C14", "title": "get_nodes_count without a type counts all nodes", "statement": "get_nodes_count(g) with no type returns the number of nodes of g, as its documentation says. (Refuted: it returns 0 for every typed diagram.)", "quantifier": "all diagrams", "why_tests_cant": "the documented default is never exercised by tests", "anchors": ["bpmn_python/bpmn_diagram_metrics.py:get_nodes_count", "bpmn_python/bpmn_diagram_rep.py:get_nodes"]}
{"id": "C15", "title": "Gateway heterogeneity", "statement": "GatewayHeterogenity_metric is the number of distinct gateway types that occur in the diagram.", "quantifier": "all diagrams", "why_tests_cant": "all diagrams", "anchors": ["bpmn_python/bpmn_diagram_metrics.py:GatewayHeterogenity_metric"]}
{"id": "C16", "title": "Durfee square metric is the Durfee square", "statement": "DurfeeSquare_metric returns the d such that at least d element types occur at least d times each and no larger number has this property (hence at most d types occur more than d times).", "quantifier": "all diagrams", "why_tests_cant": "extremal statement over all multisets of element types", "anchors": ["bpmn_python/bpmn_diagram_metrics.py:DurfeeSquare_metric"]}
{"id": "C17", "title": "Perfect square metric is the largest p", "statement": "PerfectSquare_metric returns the largest p such that the p most frequent types together occur at least p*p times.", "quantifier": "all diagrams", "why_tests_cant": "extremal statement over all multisets of element types", "anchors": ["bpmn_python/bpmn_diagram_metrics.py:PerfectSquare_metric"]}
{"id": "C18", "title": "Coefficient of network complexity", "statement": "CoefficientOfNetworkComplexity_metric is (#flows)/(#nodes) and raises ZeroDivisionError exactly on the diagram without nodes.", "quantifier": "all diagrams", "why_tests_cant": "all diagrams", "anchors": ["bpmn_python/bpmn_diagram_metrics.py:CoefficientOfNetworkComplexity_metric"]}
{"id": "C19", "title": "Average gateway degree", "statement": "AverageGatewayDegree_metric is the mean number of flow ends at gateway nodes, raises ZeroDivisionError exactly when there is no gateway; the degrees of all nodes sum to twice the number of flows.", "quantifier": "all diagrams", "why_tests_cant": "all graphs incl. self-loops", "anchors": ["bpmn_python/bpmn_diagram_metrics.py:AverageGatewayDegree_metric", "bpmn_python/bpmn_diagram_metrics.py:get_all_gateways"]}
{"id": "C20", "title": "Segment count", "statement": "count_segments is the sum over all flows of (number of waypoints - 1), the segments of one flow being consecutive waypoint pairs in order; it raises IndexError when some flow has no waypoints.", "quantifier": "all diagrams with waypoints", "why_tests_cant": "all polylines", "anchors": ["bpmn_python/diagram_layout_metrics.py:count_segments", "bpmn_python/diagram_layout_metrics.py:get_flows_segments"]}
{"id": "C21", "title": "Segment intersection test is geometrically correct", "statement": "do_intersect(s1,s2) is true iff the two closed segments have a common point, in all degenerate cases too (exact arithmetic).", "quantifier": "all pairs of segments over the rationals", "why_tests_cant": "infinite domain with degenerate cases", "anchors": ["bpmn_python/diagram_layout_metrics.py:do_intersect", "bpmn_python/diagram_layout_metrics.py:orientation", "bpmn_python/diagram_layout_metrics.py:lies_on_segment"]}
{"id": "C22", "title": "Crossing count", "statement": "count_crossing_points is the number of unordered pairs of segments that share no endpoint and intersect; it is independent of the order of the flows.", "quantifier": "all diagrams with waypoints", "why_tests_cant": "all segment lists", "anchors": ["bpmn_python/diagram_layout_metrics.py:count_crossing_points", "bpmn_python/diagram_layout_metrics.py:segments_common_points"]}
{"id": "C23", "title": "Longest path", "statement": "compute_longest_path terminates on every consistent diagram, and without self-loops its result is a simple path along flows from a node without incoming flows to a node without outgoing flows, of maximal length among all such paths.", "quantifier": "all consistent diagrams, cyclic ones included", "why_tests_cant": "termination and optimality over exponentially many paths", "anchors": ["bpmn_python/diagram_layout_metrics.py:compute_longest_path", "bpmn_python/diagram_layout_metrics.py:find_longest_path"]}
{"id": "C24", "title": "Longest path counted in activities", "statement": "compute_longest_path_tasks terminates on every consistent diagram, returns only tasks and subprocesses, and returns at least as many as any simple path from a node without incoming flows to a node without outgoing flows contains.", "quantifier": "all consistent diagrams without self-loops", "why_tests_cant": "termination and optimality over all paths", "anchors": ["bpmn_python/diagram_layout_metrics.py:compute_longest_path_tasks", "bpmn_python/diagram_layout_metrics.py:find_longest_path_tasks"]}
{"id": "C25", "title": "Element classification", "statement": "Both classification functions label exactly the nodes of the eleven classified types; each gets 'Element', plus 'Start Event'/'End Event' by type, 'Join' iff it has at least two incoming flows and 'Split' iff it has at least two outgoing flows.", "quantifier": "all diagrams", "why_tests_cant": "all diagrams", "anchors": ["bpmn_python/bpmn_diagram_layouter.py:generate_elements_clasification", "bpmn_python/bpmn_import_utils.py:generate_nodes_clasification", "bpmn_python/bpmn_import_utils.py:split_join_classification"]}
{"id": "C26", "title": "Topological sort", "statement": "On a consistent diagram, when topological_sort returns, its result is a permutation of the classified nodes, and every flow that is not reported as a backward flow leads from an earlier to a later node; on acyclic diagrams it always returns and reports no backward flow.", "quantifier": "all consistent diagrams", "why_tests_cant": "all graphs", "anchors": ["bpmn_python/bpmn_diagram_layouter.py:topological_sort"]}
{"id": "C27", "title": "Topological sort terminates", "statement": "topological_sort terminates on every consistent diagram. (Refuted: it loops forever on a cycle without a Join; proved: it terminates whenever every cycle contains a Join.)", "quantifier": "all consistent diagrams", "why_tests_cant": "non-termination cannot be observed by a test", "anchors": ["bpmn_python/bpmn_diagram_layouter.py:topological_sort"]}
{"id": "C28", "title": "Layout never overlaps nodes", "statement": "Whenever generate_layout returns, no two nodes have the same position.", "quantifier": "all diagrams", "why_tests_cant": "all diagrams on which layout succeeds", "anchors": ["bpmn_python/bpmn_diagram_layouter.py:generate_layout", "bpmn_python/bpmn_diagram_layouter.py:insert_into_grid", "bpmn_python/bpmn_diagram_layouter.py:place_element_in_grid", "bpmn_python/bpmn_diagram_layouter.py:set_coordinates_for_nodes"]}
{"id": "C29", "title": "Layout assigns exactly one grid position to every node and changes nothing else", "statement": "Whenever generate_layout returns, every node has been placed exactly once, x = 150*col+50 and y = 100*row+50 as decimal strings, and only x, y of nodes and waypoints of flows have changed.", "quantifier": "all diagrams", "why_tests_cant": "frame over all diagrams", "anchors": ["bpmn_python/bpmn_diagram_layouter.py:generate_layout", "bpmn_python/bpmn_diagram_layouter.py:grid_layout", "bpmn_python/bpmn_diagram_layouter.py:set_coordinates_for_nodes", "bpmn_python/bpmn_diagram_layouter.py:set_flows_waypoints"]}
{"id": "C30", "title": "Waypoints connect source and target", "statement": "After layout every flow's first waypoint is the source position + (50,50) and its last waypoint is on the target box; flows leaving a gateway, or entering one from another row, are drawn with axis-parallel segments.", "quantifier": "all diagrams", "why_tests_cant": "all diagrams and types", "anchors": ["bpmn_python/bpmn_diagram_layouter.py:set_flows_waypoints"]}
{"id": "C31", "title": "Forward flows run left to right", "statement": "After a successful layout every flow whose source was placed before its target has its target at least one column to the right. For all flows of acyclic diagrams the claim is refuted.", "quantifier": "all diagrams on which layout succeeds", "why_tests_cant": "all placement orders", "anchors": ["bpmn_python/bpmn_diagram_layouter.py:place_element_in_grid"]}
{"id": "C32", "title": "Occupied cells are resolved by inserting a row", "statement": "When the requested cell is occupied, insert_into_grid makes room by moving rows (its comment) . (Refuted: it raises TypeError for every grid, row, col whenever the cell is occupied.)", "quantifier": "all grids", "why_tests_cant": "all grids; code path is never covered", "anchors": ["bpmn_python/bpmn_diagram_layouter.py:insert_into_grid"]}
{"id": "C33", "title": "Linear processes are laid out on one row", "statement": "For a chain of any length the layout succeeds, node number i gets x = 150*(i+1)+50 and all nodes get y = 250.", "quantifier": "chains of every length", "why_tests_cant": "unbounded length", "anchors": ["bpmn_python/bpmn_diagram_layouter.py:generate_layout"]}
{"id": "C34", "title": "XML round trip of nodes", "statement": "Loading the file written by export_xml_file gives back every node with the same id, type, name, process, incoming and outgoing lists, and type-specific attributes.", "quantifier": "all well-formed diagrams (any number of processes, any nesting of subprocesses)", "why_tests_cant": "all diagrams", "anchors": ["bpmn_python/bpmn_diagram_export.py:export_xml_file", "bpmn_python/bpmn_diagram_export.py:export_node_data", "bpmn_python/bpmn_diagram_import.py:load_diagram_from_xml", "bpmn_python/bpmn_diagram_import.py:import_process_elements"]}
{"id": "C35", "title": "XML round trip of sequence flows", "statement": "Loading the exported file gives back every sequence flow with the same id, endpoints, process and condition.", "quantifier": "all well-formed diagrams", "why_tests_cant": "all diagrams", "anchors": ["bpmn_python/bpmn_diagram_export.py:export_flow_process_data", "bpmn_python/bpmn_diagram_import.py:import_sequence_flow_to_graph"]}
{"id": "C36", "title": "XML round trip keeps process attributes", "statement": "Loading the exported file gives back every process with the same isClosed, isExecutable, processType and name. (name refuted: it is not exported.)", "quantifier": "all diagrams", "why_tests_cant": "all diagrams", "anchors": ["bpmn_python/bpmn_diagram_export.py:export_process_element", "bpmn_python/bpmn_diagram_import.py:import_process_element"]}
{"id": "C37", "title": "XML round trip keeps lanes", "statement": "Lanes, their flow node references, geometry and nested lane sets survive export and import. (Refuted for nested lane sets, which are written under a tag the importer does not read.)", "quantifier": "all lane sets", "why_tests_cant": "recursive structure", "anchors": ["bpmn_python/bpmn_diagram_export.py:export_lane_set", "bpmn_python/bpmn_diagram_export.py:export_child_lane_set", "bpmn_python/bpmn_diagram_export.py:export_lane", "bpmn_python/bpmn_diagram_import.py:import_lane_set_element", "bpmn_python/bpmn_diagram_import.py:import_lane_element"]}
{"id": "C38", "title": "Indentation does not change what is loaded", "statement": "Indenting the exported tree changes no tag, attribute, child structure or non-blank text, and loading the indented tree gives the same diagram as loading the unindented one.", "quantifier": "all XML trees", "why_tests_cant": "all trees of any depth", "anchors": ["bpmn_python/bpmn_diagram_export.py:indent"]}
{"id": "C39", "title": "XML round trip of diagram geometry", "statement": "Positions, sizes and waypoints survive export and import.", "quantifier": "all well-formed diagrams", "why_tests_cant": "all diagrams", "anchors": ["bpmn_python/bpmn_diagram_export.py:export_node_di_data", "bpmn_python/bpmn_diagram_export.py:export_flow_di_data", "bpmn_python/bpmn_diagram_import.py:import_shape_di", "bpmn_python/bpmn_diagram_import.py:import_flow_di"]}
{"id": "C40", "title": "Export without DI lists every node once", "statement": "export_xml_file_no_di writes every node and flow exactly once, inside its own process. (Refuted: with two processes each node is written under both; nested nodes are written twice.) For one process without nesting it is proved.", "quantifier": "all diagrams", "why_tests_cant": "all diagrams", "anchors": ["bpmn_python/bpmn_diagram_export.py:export_xml_file_no_di"]}
{"id": "C41", "title": "Importing a flow registers it at both ends", "statement": "After loading any document, every sequence flow element of a process or subprocess whose endpoints are declared in it is in the outgoing list of its source and the incoming list of its target, listed once, whether or not the XML listed it there.", "quantifier": "all documents", "why_tests_cant": "all documents", "anchors": ["bpmn_python/bpmn_diagram_import.py:import_sequence_flow_to_graph", "bpmn_python/bpmn_diagram_import.py:import_flow_node_to_graph"]}
{"id": "C42", "title": "Import dispatch", "statement": "Each child element of a process becomes a node iff its local name is one of the supported element names, and then the node's type is that local name; everything else is ignored.", "quantifier": "all documents", "why_tests_cant": "all tags and prefixes", "anchors": ["bpmn_python/bpmn_diagram_import.py:import_process_elements"]}
{"id": "C43", "title": "Comments are ignored by the importer", "statement": "XML comments between elements do not affect the import. (Refuted: a comment child of a process, plane, flow node or lane raises AttributeError.)", "quantifier": "all documents", "why_tests_cant": "where a comment may stand is unbounded", "anchors": ["bpmn_python/bpmn_diagram_import.py:import_process_elements", "bpmn_python/bpmn_diagram_import.py:load_diagram_from_xml"]}
{"id": "C44", "title": "Optional attributes get their documented defaults", "statement": "Attributes absent in XML get the BPMN defaults (name '', gatewayDirection Unspecified, isInterrupting true, parallelMultiple false, ...), present ones are kept verbatim.", "quantifier": "all elements", "why_tests_cant": "all attribute combinations", "anchors": ["bpmn_python/bpmn_diagram_import.py:import_start_event_to_graph", "bpmn_python/bpmn_diagram_import.py:import_gateway_to_graph", "bpmn_python/bpmn_diagram_import.py:import_event_based_gateway_to_graph", "bpmn_python/bpmn_diagram_import.py:import_boundary_event_to_graph"]}
{"id": "C45", "title": "Export keeps flow names", "statement": "The exported sequence flow carries the flow's own name. (Refuted when the flow has a condition: the name is overwritten with the condition text; proved otherwise.)", "quantifier": "all flows", "why_tests_cant": "all flows", "anchors": ["bpmn_python/bpmn_diagram_export.py:export_flow_process_data"]}
{"id": "C46", "title": "Sequence successor of an order", "statement": "The sequence successor of order p\u00b7n (p empty, one non-digit, or ending in a letter; n a decimal number) is p\u00b7(n+1), and orders of no other form have one.", "quantifier": "all strings", "why_tests_cant": "all strings; regex semantics", "anchors": ["bpmn_python/bpmn_process_csv_import.py:get_possible_sequence_continuation_successor", "bpmn_python/bpmn_process_csv_import.py:regex_pa_trailing_number"]}
{"id": "C47", "title": "Split successors of an order", "statement": "The split successors of p\u00b7n are exactly the rows whose order is p\u00b7(n+1)\u00b7letter optionally followed by 1s.", "quantifier": "all orders and row sets", "why_tests_cant": "all strings", "anchors": ["bpmn_python/bpmn_process_csv_import.py:get_all_split_successors", "bpmn_python/bpmn_process_csv_import.py:get_possible_split_continuation_successor"]}
{"id": "C48", "title": "Gateway type chosen for a split", "statement": "A split becomes an exclusive gateway iff it has two branches with conditions {yes,no} or one of them 'else'; otherwise parallel iff no branch has a condition; otherwise inclusive.", "quantifier": "all sets of branches and conditions", "why_tests_cant": "all condition strings", "anchors": ["bpmn_python/bpmn_process_csv_import.py:get_gateway_type", "bpmn_python/bpmn_process_csv_import.py:yes_no_conditions", "bpmn_python/bpmn_process_csv_import.py:sth_else_conditions", "bpmn_python/bpmn_process_csv_import.py:no_conditions"]}
{"id": "C49", "title": "Linear CSV files load as chains", "statement": "A CSV with orders 0..n (last row terminated, no conditions) loads into exactly the chain 0 -> 1 -> ... -> n with a start event, n-1 activities and an end event.", "quantifier": "all n and all activity names not starting with goto", "why_tests_cant": "unbounded length", "anchors": ["bpmn_python/bpmn_process_csv_import.py:load_diagram_from_csv", "bpmn_python/bpmn_process_csv_import.py:fill_graph_connections"]}
{"id": "C50", "title": "CSV import keeps flows consistent", "statement": "After a successful CSV import each recorded flow's id is in the outgoing list of its source and the incoming list of its target and every id in these lists is recorded.", "quantifier": "all CSV tables", "why_tests_cant": "all tables", "anchors": ["bpmn_python/bpmn_process_csv_import.py:fill_graph_connections", "bpmn_python/bpmn_process_csv_import.py:remove_goto_nodes", "bpmn_python/bpmn_process_csv_import.py:remove_unnecessary_merge_gateways"]}
{"id": "C51", "title": "Rows that lead nowhere are rejected", "statement": "If some row is not terminated and has neither a sequence, split nor merge successor, loading raises BpmnPythonError naming a row.", "quantifier": "all CSV tables", "why_tests_cant": "all tables", "anchors": ["bpmn_python/bpmn_process_csv_import.py:fill_graph_connections"]}
{"id": "C52", "title": "Merging of nested branches", "statement": "The last row of a branch p\u00b7n\u00b7letter... may continue at p\u00b7(n+1) for every enclosing branch prefix. (Refuted: for nested branches the outer prefix is dropped.)", "quantifier": "all orders", "why_tests_cant": "all nestings", "anchors": ["bpmn_python/bpmn_process_csv_import.py:get_possible_merge_continuation_successors", "bpmn_python/bpmn_process_csv_import.py:regex_pa_merge_node_finder"]}
{"id": "C53", "title": "No pass-through gateways remain", "statement": "After a successful CSV import every gateway has at least two incoming or at least two outgoing flows.", "quantifier": "all CSV tables", "why_tests_cant": "all tables", "anchors": ["bpmn_python/bpmn_process_csv_import.py:remove_unnecessary_merge_gateways"]}
{"id": "C54", "title": "The process lists its nodes", "statement": "After CSV import the node_ids of the process are the ids of the diagram's nodes. (Refuted: generated gateways are missing and removed goto rows are still listed.)", "quantifier": "all CSV tables", "why_tests_cant": "all tables", "anchors": ["bpmn_python/bpmn_process_csv_import.py:populate_process_elements_dict", "bpmn_python/bpmn_process_csv_import.py:remove_node"]}
{"id": "C55", "title": "CSV-imported diagrams can be exported to XML", "statement": "export_xml_file_no_di succeeds on every CSV-imported diagram (proved); export_xml_file succeeds as well (refuted: raises KeyError 'waypoints' as soon as there is a flow).", "quantifier": "all CSV tables", "why_tests_cant": "all tables", "anchors": ["bpmn_python/bpmn_process_csv_import.py:add_edge", "bpmn_python/bpmn_diagram_export.py:export_flow_di_data"]}
{"id": "C56", "title": "Order labels are normalised without losing rows", "statement": "Removing white space from orders keeps every row under its stripped order when the stripped orders are distinct.", "quantifier": "all tables", "why_tests_cant": "all tables", "anchors": ["bpmn_python/bpmn_process_csv_import.py:remove_white_spaces_in_orders"]}
{"id": "C57", "title": "CSV export needs exactly one entry node", "statement": "export_csv_file raises BpmnPythonError exactly when the number of nodes without incoming flows differs from one (before writing anything).", "quantifier": "all diagrams", "why_tests_cant": "all diagrams", "anchors": ["bpmn_python/bpmn_process_csv_export.py:export_process_to_csv"]}
{"id": "C58", "title": "Linear diagrams export to orders 0..n", "statement": "A chain start -> activities -> end exports to the rows 0..n in order with the activity names, 'yes' in Subprocess exactly for subprocesses and 'yes' in Terminated exactly for the end event.", "quantifier": "chains of every length", "why_tests_cant": "unbounded length", "anchors": ["bpmn_python/bpmn_process_csv_export.py:export_node", "bpmn_python/bpmn_process_csv_export.py:export_element", "bpmn_python/bpmn_process_csv_export.py:export_start_event", "bpmn_python/bpmn_process_csv_export.py:export_end_event"]}
{"id": "C59", "title": "CSV export then import is the identity on chains", "statement": "Exporting a chain to CSV and loading it gives a chain with the same activities in the same order. (The name of the end event is lost: identity refuted; proved for the start event, the activities and their kinds.)", "quantifier": "chains of every length", "why_tests_cant": "unbounded length", "anchors": ["bpmn_python/bpmn_process_csv_export.py:export_process_to_csv", "bpmn_python/bpmn_process_csv_import.py:load_diagram_from_csv"]}
{"id": "C60", "title": "At most 26 branches can be exported", "statement": "When the way from the entry node to a node with more than 26 outgoing flows passes no other split, the CSV export never succeeds; when every branch is an end event it raises IndexError, and succeeds with 26 branches or fewer.", "quantifier": "all diagrams with such a split", "why_tests_cant": "no test has 27 branches", "anchors": ["bpmn_python/bpmn_process_csv_export.py:export_element"]}
{"id": "C61", "title": "CSV lines have six fields", "statement": "Every written line consists of exactly the six fields. (Refuted for activity names containing a comma, which are not quoted; proved when no field contains a comma or line break.)", "quantifier": "all rows", "why_tests_cant": "all strings", "anchors": ["bpmn_python/bpmn_process_csv_export.py:write_export_node_to_file"]}
{"id": "C62", "title": "Typed element setters", "statement": "For every element class, a value accepted by a setter is returned by the getter, and a rejected value raises and leaves the object unchanged. (Second half refuted for set_id(None), set_message_ref(None), set_condition_expression(None).)", "quantifier": "all classes, all values, all call histories", "why_tests_cant": "all histories of calls", "anchors": ["bpmn_python/graph/classes/base_element_type.py:set_id", "bpmn_python/graph/classes/flow_node_type.py:set_incoming", "bpmn_python/graph/classes/sequence_flow_type.py:set_condition_expression"]}
{"id": "C63", "title": "Enumerated fields always hold an allowed value", "statement": "In every history gatewayDirection is one of the four allowed values and processType one of three.", "quantifier": "all histories of setter calls", "why_tests_cant": "all histories", "anchors": ["bpmn_python/graph/classes/gateways/gateway_type.py:set_gateway_direction", "bpmn_python/graph/classes/root_element/process_type.py:set_process_type"]}
{"id": "C64", "title": "Flow constructors check both endpoints", "statement": "SequenceFlow and MessageFlow can only be constructed with string endpoints. (Refuted: the type of target_ref is never checked.)", "quantifier": "all values", "why_tests_cant": "all argument types", "anchors": ["bpmn_python/graph/classes/sequence_flow_type.py:__init__", "bpmn_python/graph/classes/message_flow_type.py:__init__"]}
{"id": "C65", "title": "Acyclic diagrams can be laid out", "statement": "generate_layout succeeds on every consistent acyclic diagram of the supported node types. (Refuted: two nodes may be assigned the same cell, and making room raises TypeError; proved: nothing but the grid placement can fail.)", "quantifier": "all acyclic diagrams", "why_tests_cant": "all diagram shapes", "anchors": ["bpmn_python/bpmn_diagram_layouter.py:insert_into_grid", "bpmn_python/bpmn_diagram_layouter.py:place_element_in_grid", "bpmn_python/bpmn_diagram_layouter.py:generate_layout"]}
{"id": "C66", "title": "Exact diagram of an imported table", "statement": "For every table of documented, distinct orders without goto rows that loads, the nodes are exactly the rows plus the needed split and join gateways, the flows are exactly the ones the orders describe, and the types and names of the nodes are the ones the rows describe.", "quantifier": "all such tables", "why_tests_cant": "all tables of any size and nesting", "anchors": ["bpmn_python/bpmn_process_csv_import.py:load_diagram_from_csv", "bpmn_python/bpmn_process_csv_import.py:import_nodes_info", "bpmn_python/bpmn_process_csv_import.py:fill_graph_connections", "bpmn_python/bpmn_process_csv_import.py:remove_unnecessary_merge_gateways"]}
{"id": "C67", "title": "Every imported flow has its own edge", "statement": "After a successful CSV import every recorded flow has an edge that carries its id, endpoints and the condition of the row it leads to. (Refuted for goto loops to the previous row, proved for tables without goto rows.)", "quantifier": "all CSV tables", "why_tests_cant": "all tables", "anchors": ["bpmn_python/bpmn_process_csv_import.py:add_edge", "bpmn_python/bpmn_process_csv_import.py:add_connection", "bpmn_python/bpmn_process_csv_import.py:remove_goto_nodes"]}
{"id": "C68", "title": "Exported orders are documented and distinct", "statement": "In every exported CSV file the orders are pairwise different and each is a number, or pairs of a number and a letter followed by a number.", "quantifier": "all diagrams, all nestings of splits", "why_tests_cant": "all diagram shapes", "anchors": ["bpmn_python/bpmn_process_csv_export.py:export_process_to_csv", "bpmn_python/bpmn_process_csv_export.py:export_element", "bpmn_python/bpmn_process_csv_export.py:export_node"]}
{"id": "C69", "title": "Exported CSV files can be loaded", "statement": "Every exported file can be loaded by load_diagram_from_csv. (Refuted: a task with two outgoing flows exports rows the importer cannot connect. Proved: an exported file without goto rows loads exactly when each of its rows has a continuation.)", "quantifier": "all diagrams whose names need no quoting", "why_tests_cant": "all diagram shapes", "anchors": ["bpmn_python/bpmn_process_csv_export.py:export_process_to_csv", "bpmn_python/bpmn_process_csv_import.py:load_diagram_from_csv"]}
{"id": "C70", "title": "Loaded processes and subprocesses list their nodes", "statement": "After loading a document every process and every subprocess whose id is used once has exactly the ids of the flow nodes that stand directly in it, in document order, as its node list, and a process has the attributes of its element with their documented defaults.", "quantifier": "all documents, any nesting of subprocesses", "why_tests_cant": "all documents", "anchors": ["bpmn_python/bpmn_diagram_import.py:import_process_elements", "bpmn_python/bpmn_diagram_import.py:import_process_element", "bpmn_python/bpmn_diagram_import.py:import_subprocess_to_graph", "bpmn_python/bpmn_diagram_import.py:import_flow_node_to_graph"]}
{"id": "C71", "title": "Loaded flows are described by their elements", "statement": "After loading a document a sequence flow whose id is used once is recorded with its name and endpoints, and when nothing else connects its two nodes the connection carries its id, process, name, endpoints and condition. (Refuted without the last condition: a flow back between the same two nodes overwrites the connection.)", "quantifier": "all documents, any nesting of subprocesses", "why_tests_cant": "all documents", "anchors": ["bpmn_python/bpmn_diagram_import.py:import_sequence_flow_to_graph", "bpmn_python/bpmn_diagram_import.py:import_flow_di"]}
{"id": "C72", "title": "Which documents load", "statement": "Loading a document into an empty diagram succeeds exactly when it has a diagram element with a plane inside, no comments or processing instructions among the children that are walked, non-empty texts in the references and conditions, bounds in every shape, and no shape for a node that is only mentioned as the end of a flow.", "quantifier": "all documents", "why_tests_cant": "all documents, both directions", "anchors": ["bpmn_python/bpmn_diagram_import.py:load_diagram_from_xml", "bpmn_python/bpmn_diagram_import.py:import_process_elements", "bpmn_python/bpmn_diagram_import.py:import_collaboration_element", "bpmn_python/bpmn_diagram_import.py:import_shape_di", "bpmn_python/bpmn_diagram_import.py:import_flow_di", "bpmn_python/bpmn_diagram_import.py:import_lane_element"]}
{"id": "C73", "title": "XML round trip of the collaboration and the diagram", "statement": "Loading the exported file gives back the id of the collaboration, the participants with name, process and pool geometry, the message flows with id, name and endpoints, and the id and name of the diagram and the plane. (Refuted for the orientation of a pool without a process, which is always lost.)", "quantifier": "all well-formed diagrams", "why_tests_cant": "all diagrams", "anchors": ["bpmn_python/bpmn_diagram_export.py:export_xml_file", "bpmn_python/bpmn_diagram_import.py:import_collaboration_element", "bpmn_python/bpmn_diagram_import.py:import_participant_element", "bpmn_python/bpmn_diagram_import.py:import_message_flow_to_graph", "bpmn_python/bpmn_diagram_import.py:import_shape_di", "bpmn_python/bpmn_diagram_import.py:import_diagram_and_plane_attributes"]}
{"id": "C75", "title": "Files without diagram interchange can be loaded", "statement": "A file written by export_xml_file_no_di can be loaded again with load_diagram_from_xml_file. (Refuted: loading raises IndexError for every such file, before anything is read, because the importer needs a diagram element.)", "quantifier": "all diagrams", "why_tests_cant": "all diagrams", "anchors": ["bpmn_python/bpmn_diagram_export.py:export_xml_file_no_di", "bpmn_python/bpmn_diagram_import.py:load_diagram_from_xml"]}
{"id": "C74", "title": "Complete diagrams can be saved and loaded", "statement": "A well-formed diagram in which every node has the attributes of its type, position and size, every flow has its endpoints and waypoints, and the processes, pools and lanes have theirs, can be exported with export_xml_file, and the file can be loaded into a new diagram, which has the same nodes, connections and processes. (Conditions must not be the empty string: such a file is written but cannot be loaded.)", "quantifier": "all such diagrams, of any size and nesting", "why_tests_cant": "all diagrams", "anchors": ["bpmn_python/bpmn_diagram_export.py:export_xml_file", "bpmn_python/bpmn_diagram_export.py:export_process_element", "bpmn_python/bpmn_diagram_export.py:export_node_data", "bpmn_python/bpmn_diagram_export.py:export_lane_set", "bpmn_python/bpmn_diagram_export.py:export_node_di_data", "bpmn_python/bpmn_diagram_export.py:export_flow_di_data", "bpmn_python/bpmn_diagram_import.py:load_diagram_from_xml"]}
{"id": "C76", "title": "Diagrams built with the API survive saving and loading", "statement": "A diagram that was created with create_new_diagram_graph, got a process, and was built with any sequence of add_* calls (fresh ids, valid gateway directions, process ids of processes or subprocesses that exist) can be saved with export_xml_file and loaded into a new diagram, which has exactly the same nodes with every attribute, the same connections with every attribute, exactly the current sequence flows, the same processes with every attribute but the name, the same diagram id and name and no collaboration. The process name is always lost.", "quantifier": "all such call histories", "why_tests_cant": "all histories, any size and nesting", "anchors": ["bpmn_python/bpmn_diagram_rep.py:create_new_diagram_graph", "bpmn_python/bpmn_diagram_rep.py:add_process_to_diagram", "bpmn_python/bpmn_diagram_rep.py:add_task_to_diagram", "bpmn_python/bpmn_diagram_rep.py:add_sequence_flow_to_diagram", "bpmn_python/bpmn_diagram_export.py:export_xml_file", "bpmn_python/bpmn_diagram_import.py:load_diagram_from_xml"]}
{"id": "C77", "title": "Lists of element objects hold values of the declared kind", "statement": "After any sequence of constructor and setter calls, the lists the getters return hold only values of the declared kind: strings, lanes, lane sets, flow elements, event definitions. (Refuted when the caller appends to a list after it was accepted, because the list is stored and returned by reference; proved for all programs that do not append.)", "quantifier": "all programs of calls", "why_tests_cant": "all histories, aliasing", "anchors": ["bpmn_python/graph/classes/flow_node_type.py:set_incoming", "bpmn_python/graph/classes/flow_node_type.py:get_incoming", "bpmn_python/graph/classes/lane_set_type.py:set_lane_list", "bpmn_python/graph/classes/root_element/process_type.py:set_flow_element_list"]}
{"id": "C78", "title": "Processes hold flow nodes", "statement": "A Process or SubProcess object accepts a list of flow nodes (tasks, events, gateways, subprocesses) and sequence flows as its flow elements. (Refuted: every list with a flow node is refused, because flow nodes derive from the FlowElement class of a second copy of the module; sequence flows are accepted.)", "quantifier": "all worlds of objects, all lists", "why_tests_cant": "all lists of objects", "anchors": ["bpmn_python/graph/classes/flow_node_type.py:FlowNode", "bpmn_python/graph/classes/root_element/process_type.py:set_flow_element_list", "bpmn_python/graph/classes/activities/subprocess_type.py:set_flow_element_list"]}
{"id": "C79", "title": "Every node and connection is drawn once", "statement": "visualize_diagram succeeds exactly when every node has numeric coordinates and a type; it then draws every node once, at its coordinates, with the shape of its type and its name as label, and every connection as one line with its name. (Refuted for node types that XML files may contain: user, service and manual tasks, data objects and boundary events get a label but no shape. Proved for the eleven other types, and so for every diagram built with the API.)", "quantifier": "all diagrams, every meaning of float()", "why_tests_cant": "all diagrams, all node types", "anchors": ["bpmn_python/bpmn_diagram_visualizer.py:visualize_diagram", "bpmn_python/bpmn_diagram_rep.py:get_nodes_positions", "bpmn_python/bpmn_diagram_rep.py:get_nodes_id_list_by_type"]}
{"id": "C80", "title": "Arrows of the picture point along the flows", "statement": "In the graph bpmn_diagram_to_png writes there is one node per node of the diagram, with its name, and one arrow per connection, from the source to the target of the flow. (Refuted for the direction: the arrow always starts at the node that was added to the diagram first.)", "quantifier": "all diagrams, all call histories", "why_tests_cant": "all orders of calls", "anchors": ["bpmn_python/bpmn_diagram_visualizer.py:bpmn_diagram_to_png"]}
{"id": "C81", "title": "Block-structured processes export as numbered lines", "statement": "For a process made of activities and properly nested blocks (a gateway that splits, up to 26 branches, a gateway where they meet; branches may also stop in an end event or be empty) the exported CSV file has exactly the lines the structure says: activities numbered in sequence, the branches of the block with number k behind the prefix p under p k a, p k b, ..., the text of the flow as the condition of the first line of a branch, 'else' for the default flow, no conditions behind parallel gateways, a goto line for an empty branch. (Refuted without the restriction that a branch ends with an activity: activities behind the outer block get several lines. Refuted: the condition of a branch that starts with a block is kept.)", "quantifier": "all block-structured diagrams of any size and nesting", "why_tests_cant": "unbounded nesting and size", "anchors": ["bpmn_python/bpmn_process_csv_export.py:export_process_to_csv", "bpmn_python/bpmn_process_csv_export.py:export_node", "bpmn_python/bpmn_process_csv_export.py:export_element"]}
{"id": "C82", "title": "Block-structured processes survive the CSV round trip", "statement": "A process of activities and blocks that is exported to CSV and loaded again comes back with the same structure: the file loads, the nodes and flows are those of the structure with every node renamed to its order, every activity keeps its type and name, and every branch keeps its condition. (Proved for blocks that are not nested and not adjacent, in which at least two branches meet and no branch is empty or longer than ten rows, and texts that need no quoting and do not look like goto. Refuted without each of the restrictions on nesting, adjacency and length; refuted for the kinds of gateways: the loaded kind depends on the conditions only.)", "quantifier": "all such diagrams, of any size", "why_tests_cant": "unbounded size; two programs have to agree on the numbering", "anchors": ["bpmn_python/bpmn_process_csv_export.py:export_process_to_csv", "bpmn_python/bpmn_process_csv_export.py:export_node", "bpmn_python/bpmn_process_csv_export.py:export_element", "bpmn_python/bpmn_process_csv_import.py:load_diagram_from_csv", "bpmn_python/bpmn_process_csv_import.py:fill_graph_connections", "bpmn_python/bpmn_process_csv_import.py:get_all_split_successors", "bpmn_python/bpmn_process_csv_import.py:get_possible_merge_continuation_successors"]}
{"id": "C83", "title": "From a table or a history to a laid-out file", "statement": "Every diagram loaded from a table without goto rows meets what the layouter needs. Once generate_layout succeeded on it, or on a diagram built with the API, the diagram can be saved with export_xml_file (which is not possible right after loading a table), and the loaded file has the same nodes and connections, every node where the layout placed it and every connection with the waypoints the layout gave it. For tables that describe one row after the other all steps succeed, and row i stands at (150(i+1)+50, 250).", "quantifier": "all documented tables, all call histories", "why_tests_cant": "three programs in a row, all inputs", "anchors": ["bpmn_python/bpmn_process_csv_import.py:load_diagram_from_csv", "bpmn_python/bpmn_diagram_layouter.py:generate_layout", "bpmn_python/bpmn_diagram_layouter.py:set_coordinates_for_nodes", "bpmn_python/bpmn_diagram_layouter.py:set_flows_waypoints", "bpmn_python/bpmn_diagram_export.py:export_xml_file", "bpmn_python/bpmn_diagram_import.py:load_diagram_from_xml"]}
{"id": "C84", "title": "Tables without goto describe processes without loops", "statement": "The diagram loaded from a table without goto rows has no cycle, so the layouter finds an order of the nodes in which no flow goes back. (Proved if every block that contains another block is followed by a row, in particular when branches are not nested; refuted without: a branch of an inner block then continues at the number after the inner block, which may lie before the outer block.)", "quantifier": "all documented tables", "why_tests_cant": "all tables of any size and nesting", "anchors": ["bpmn_python/bpmn_process_csv_import.py:load_diagram_from_csv", "bpmn_python/bpmn_process_csv_import.py:fill_graph_connections", "bpmn_python/bpmn_process_csv_import.py:get_possible_merge_continuation_successors", "bpmn_python/bpmn_diagram_layouter.py:topological_sort"]}
{"id": "C85", "title": "Processes with blocks can be laid out, in the obvious picture", "statement": "A process of activities and blocks (a gateway, branches, a gateway where they meet) can be laid out. The main line stands in one row from left to right, the branches of a block stand evenly above and below it in rows of their own, and the gateway at the end of a block comes after its longest branch. The picture is the same when the process was exported to CSV and loaded before, and when it is saved as XML and loaded afterwards. With two or three branches per block everything lies right of and below the origin. (Proved for blocks with at least two branches, each a non-empty sequence of activities; refuted for nested blocks and for branches that stop: the layout raises an exception. With four or more branches an activity is always drawn above the origin.)", "quantifier": "all processes made of activities and blocks, of any length, width and number of blocks", "why_tests_cant": "the rows and columns depend on the lengths and the number of all branches and on the order of the nodes", "anchors": ["bpmn_python/bpmn_diagram_layouter.py:generate_layout", "bpmn_python/bpmn_diagram_layouter.py:grid_layout", "bpmn_python/bpmn_diagram_layouter.py:place_element_in_grid", "bpmn_python/bpmn_diagram_layouter.py:set_coordinates_for_nodes"]}
{"id": "C86", "title": "Goto rows redirect the flow", "statement": "In a table with rows 'goto X', each goto row disappears and the flow that led to it leads to row X instead. All other rows and flows are those of the table, gateways left with one flow in and one flow out are dropped, and the flow lists of the nodes agree with the recorded flows. Unless two flows go back and forth between two nodes, every flow has its own edge with the condition of the row it leads to. (Proved if goto rows name rows that are no goto rows, are reached from one place and not from each other, and no two flows from one place have the same goal; then also exactly when the import succeeds. Refuted: the condition of a goto row is kept; every flow has its edge when a task is repeated; a block whose branches all end in goto loads; two branches may have the same goal.)", "quantifier": "all documented tables with any number of goto rows", "why_tests_cant": "the result depends on all rows, on where each goto row stands and on the order in which they are followed", "anchors": ["bpmn_python/bpmn_process_csv_import.py:load_diagram_from_csv", "bpmn_python/bpmn_process_csv_import.py:remove_goto_nodes", "bpmn_python/bpmn_process_csv_import.py:remove_node", "bpmn_python/bpmn_process_csv_import.py:remove_unnecessary_merge_gateways"]}
{"id": "C87", "title": "Metrics depend only on types and connections", "statement": "Two diagrams with the same nodes, types and connected pairs get the same value from every metric function; with the same flows the longest paths have the same length, with the same waypoints the counts of segments and crossings agree. So the metrics are unchanged by making the same API calls in another order, by saving and loading, and by laying out. (Refuted: the order of the calls does not change the longest path itself.)", "quantifier": "all pairs of diagrams that agree on nodes, types and connections; all permutations of API histories; all storable diagrams; all layouts, successful or not", "why_tests_cant": "the metric functions walk dictionaries whose order differs between the diagrams; equality must hold for every pair of orders", "anchors": ["bpmn_python/bpmn_diagram_metrics.py:TNSE_metric", "bpmn_python/bpmn_diagram_metrics.py:NOAJS_metric", "bpmn_python/bpmn_diagram_metrics.py:AverageGatewayDegree_metric", "bpmn_python/bpmn_diagram_metrics.py:DurfeeSquare_metric", "bpmn_python/bpmn_diagram_metrics.py:PerfectSquare_metric", "bpmn_python/bpmn_diagram_metrics.py:CoefficientOfNetworkComplexity_metric", "bpmn_python/diagram_layout_metrics.py:count_crossing_points", "bpmn_python/diagram_layout_metrics.py:count_segments", "bpmn_python/diagram_layout_metrics.py:compute_longest_path", "bpmn_python/diagram_layout_metrics.py:compute_longest_path_tasks", "bpmn_python/bpmn_diagram_rep.py:export_xml_file", "bpmn_python/bpmn_diagram_rep.py:load_diagram_from_xml_file", "bpmn_python/bpmn_diagram_layouter.py:generate_layout"]}
{"id": "C88", "title": "Branches meet at a gateway like the one that opened them", "statement": "When a CSV table is loaded, the gateway in front of row m, where branches meet, has the same kind (exclusive, parallel or inclusive) as the gateway behind row m-2 that opened these branches, provided row m-2 opens branches and is listed before them; the conditions on the branches decide the kind even if the opening gateway is dropped. In every other case the meeting gateway is inclusive. (Refuted: this does not hold for every order of the rows in the file.)", "quantifier": "all tables with documented orders whose goto rows can be followed one by one", "why_tests_cant": "the kind depends on the whole table and on the order of its rows", "anchors": ["bpmn_python/bpmn_process_csv_import.py:get_merge_node_type", "bpmn_python/bpmn_process_csv_import.py:add_merge_gateway_if_not_exists", "bpmn_python/bpmn_process_csv_import.py:fill_graph_connections"]}
{"id": "C89", "title": "Splits in the layout", "statement": "After a successful layout every flow that leaves a splitting gateway runs to the right, and the nodes after a splitting gateway stand in the next column, fanned out evenly above and below it, 200 apart. (When the gateway itself stands right behind another splitting gateway, its nodes are fanned out around that other gateway instead. No node may come right after two splitting gateways, and two of them right behind one can never be laid out.)", "quantifier": "all consistent diagrams for which generate_layout succeeds", "why_tests_cant": "all diagram shapes and numbers of branches", "anchors": ["bpmn_python/bpmn_diagram_layouter.py:place_element_in_grid", "bpmn_python/bpmn_diagram_layouter.py:insert_into_grid", "bpmn_python/bpmn_diagram_layouter.py:set_coordinates_for_nodes"]}
{"id": "C90", "title": "Loops in the layout", "statement": "A diagram with loops can be ordered as soon as every node can be reached from a node without incoming flows, and then only the placement on the grid can fail. In a laid-out diagram every loop has a flow from a node that is not a splitting gateway into a joining gateway. (That every such diagram is laid out is refuted: a loop that is closed directly by a splitting gateway raises IndexError, whatever else the diagram holds.)", "quantifier": "all consistent diagrams", "why_tests_cant": "all diagram shapes", "anchors": ["bpmn_python/bpmn_diagram_layouter.py:topological_sort", "bpmn_python/bpmn_diagram_layouter.py:grid_layout", "bpmn_python/bpmn_diagram_layouter.py:place_element_in_grid", "bpmn_python/bpmn_diagram_layouter.py:generate_layout"]}
{"id": "C91", "title": "Tables with goto rows can be laid out and saved", "statement": "The diagram loaded from a table with goto rows meets what the layouter needs. If the goal of each goto row is also reached in another way, the layouter finds an order of the nodes. After a successful layout the diagram can be saved, and the loaded file has the nodes and flows of the table with every goto row followed, drawn as the layout drew them. (Refuted without the condition: a goto row that leads back to the start makes generate_layout run forever. A goto row that is the first row of its branch and leads straight back is never laid out.)", "quantifier": "all tables of documented orders whose goto rows can be followed one by one", "why_tests_cant": "all tables, all placements of goto rows", "anchors": ["bpmn_python/bpmn_process_csv_import.py:load_diagram_from_csv", "bpmn_python/bpmn_process_csv_import.py:remove_goto_nodes", "bpmn_python/bpmn_diagram_layouter.py:generate_layout", "bpmn_python/bpmn_diagram_layouter.py:topological_sort", "bpmn_python/bpmn_diagram_export.py:export_xml_file"]}
{"id": "C92", "title": "The picture depends only on the nodes and on what is connected with what", "statement": "If two diagrams have the same nodes of each type in the same order and connect the same pairs of nodes, generate_layout has the same outcome for both: the same positions and the same waypoints, or the same exception. Flow ids, the order in which flows were added, names, earlier positions and all other attributes do not matter. Laying out a second time changes nothing at all. (Refuted: the order of nodes of the same type does matter.)", "quantifier": "all pairs of well-formed diagrams, all pairs of call histories", "why_tests_cant": "all pairs of diagrams, all call orders", "anchors": ["bpmn_python/bpmn_diagram_layouter.py:generate_layout", "bpmn_python/bpmn_diagram_layouter.py:topological_sort", "bpmn_python/bpmn_diagram_layouter.py:grid_layout", "bpmn_python/bpmn_diagram_layouter.py:place_element_in_grid", "bpmn_python/bpmn_diagram_layouter.py:set_coordinates_for_nodes", "bpmn_python/bpmn_diagram_layouter.py:set_flows_waypoints"]}
{"id": "C93", "title": "Nodes are read in document order, and a saved diagram is drawn the same again", "statement": "Loading a file lists the nodes in the order of the document: those already in the diagram first, then the nodes of each process, the content of a subprocess right after it, and at the end what only the collaboration mentions (when the flows of a process or subprocess join nodes in it). Saving and loading a diagram with one process keeps the order of its nodes, and generate_layout on the loaded diagram gives the same picture as on the original, or the same exception; a picture that was saved is found again by laying out the loaded diagram. (Refuted: with two processes the order and the picture can change.)", "quantifier": "all documents, all diagrams in one process, all call histories", "why_tests_cant": "all documents and diagrams", "anchors": ["bpmn_python/bpmn_diagram_import.py:load_diagram_from_xml", "bpmn_python/bpmn_diagram_import.py:import_process_elements", "bpmn_python/bpmn_diagram_import.py:import_flow_node_to_graph", "bpmn_python/bpmn_diagram_import.py:import_sequence_flow_to_graph", "bpmn_python/bpmn_diagram_export.py:export_xml_file", "bpmn_python/bpmn_diagram_export.py:export_node_data", "bpmn_python/bpmn_diagram_layouter.py:generate_layout"]}
{"id": "C94", "title": "Exporting, loading and exporting again reaches a fixed point after one round", "statement": "The flows behind a splitting gateway of a loaded table stand in the order of the rows they lead to. For a process of activities and unnested blocks of activities, the diagram loaded from its CSV file has the same parts and branches in the same order; exporting it writes the same lines as the first file except that every condition is empty and end events have no name; loading and exporting that file gives it back unchanged, and in the diagram loaded from it every splitting gateway is parallel. (Refuted: the second file equals the first.)", "quantifier": "all structured flat diagrams, all readable texts, all readings of the files; all documented tables without jumps for the order", "why_tests_cant": "all processes of any size", "anchors": ["bpmn_python/bpmn_process_csv_import.py:load_diagram_from_csv", "bpmn_python/bpmn_process_csv_import.py:fill_graph_connections", "bpmn_python/bpmn_process_csv_import.py:add_connection", "bpmn_python/bpmn_process_csv_export.py:export_process_to_csv", "bpmn_python/bpmn_process_csv_export.py:export_node", "bpmn_python/bpmn_process_csv_export.py:export_start_event"]}
{"id": "C95", "title": "Exactly which diagrams the automatic layout accepts", "statement": "For a diagram in which every loop contains a node with several incoming flows and no such node comes right after a node with several outgoing flows: given the order of the nodes, exactly one plan assigns every node a row and a column by four local rules (start nodes below each other in column 1; one step right; branches fanned out around the split; joins at the average row right of the branches drawn so far). If the plan gives no cell to two nodes the diagram is drawn according to the plan; otherwise TypeError is raised and nothing is changed. Separate sequences are always laid out; a decision whose two branches reach further two-way decisions after equally many steps never is. (Refuted: processes that can be laid out alone can be laid out together.)", "quantifier": "all diagrams of that kind, all sufficient fuel", "why_tests_cant": "all graphs, all loops and nestings", "anchors": ["bpmn_python/bpmn_diagram_layouter.py:generate_layout", "bpmn_python/bpmn_diagram_layouter.py:grid_layout", "bpmn_python/bpmn_diagram_layouter.py:place_element_in_grid", "bpmn_python/bpmn_diagram_layouter.py:insert_into_grid", "bpmn_python/bpmn_diagram_layouter.py:topological_sort"]}
{"id": "C96", "title": "Exactly when the automatic layout succeeds, with empty branches allowed", "statement": "For every diagram in which each loop contains a node with several incoming flows there is an order of the nodes such that: at most one sequence draws every node once (nodes right after a split are drawn in its turn, the others in their own turn, which must come after everything earlier in the order); given that sequence exactly one plan assigns each node a row and a column by five local rules; the layout succeeds if and only if no two flows connect the same nodes, the sequence exists and the plan gives no cell to two nodes; then every node is where the plan says. Two nodes planned for one cell raise TypeError, and whatever is raised leaves the diagram unchanged. Without loops the sequence exists unless some node comes right after two splits, so the layout fails exactly if two flows connect the same nodes, a node comes right after two splits or two nodes share a planned cell. A node where a decision's direct flow meets a branch of two or more steps is drawn right after the decision, so the branch's last flow always leads to the left.", "quantifier": "all coherent diagrams of classified nodes whose loops contain a join, all sufficient fuel", "why_tests_cant": "all graphs, all nestings and loops, all combinations of splits and joins", "anchors": ["bpmn_python/bpmn_diagram_layouter.py:generate_layout", "bpmn_python/bpmn_diagram_layouter.py:grid_layout", "bpmn_python/bpmn_diagram_layouter.py:place_element_in_grid", "bpmn_python/bpmn_diagram_layouter.py:insert_into_grid", "bpmn_python/bpmn_diagram_layouter.py:topological_sort"]}
{"id": "C97", "title": "Processes with optional steps are always laid out, and drift off the canvas", "statement": "A process whose blocks have branches of activities, or one direct flow beside branches of one activity each, is always laid out, whatever the numbers of parts, branches and activities, and every node's row and column follow from the structure: branches two rows apart around the row of the block, the meeting node after the longest branch. A block with a direct flow ends in the lowest of its branch rows, except that row 0 counts as not given, so that from the second optional step ('if' without 'else') on each one moves the rest of the process up by two rows: the step number n+1 ends at height 350-200n. Up to two optional steps and no other blocks stay on the canvas; with three something is always drawn above it.", "quantifier": "all such processes, all sufficient fuel; all histories of API calls that build one", "why_tests_cant": "all numbers and arrangements of parts and branches", "anchors": ["bpmn_python/bpmn_diagram_layouter.py:generate_layout", "bpmn_python/bpmn_diagram_layouter.py:grid_layout", "bpmn_python/bpmn_diagram_layouter.py:place_element_in_grid", "bpmn_python/bpmn_diagram_layouter.py:insert_into_grid", "bpmn_python/bpmn_diagram_layouter.py:topological_sort"]}
{"id": "C98", "title": "Crossings and segments reported for automatically laid-out processes", "statement": "For every process of activities and blocks whose branches all have activities, with exclusive, inclusive or parallel gateways at the ends of the blocks, the layout followed by the layout metrics reports exactly 2*h*h crossings for each block of k branches, h = k/2 rounded down, and no others, and a number of segments that follows from the structure. So the reported number of crossings is 0 only for processes without blocks: the flow that comes to a meeting node from below is drawn through it to its upper side, and meets the flow that leaves it.", "quantifier": "all such processes, all sufficient fuel, every conversion of texts to numbers that reads whole numbers; all histories of API calls that build one", "why_tests_cant": "all numbers and arrangements of parts and branches", "anchors": ["bpmn_python/bpmn_diagram_layouter.py:generate_layout", "bpmn_python/bpmn_diagram_layouter.py:set_flows_waypoints", "bpmn_python/bpmn_diagram_layouter.py:set_coordinates_for_nodes", "bpmn_python/diagram_layout_metrics.py:count_crossing_points", "bpmn_python/diagram_layout_metrics.py:count_segments"]}
{"id": "C99", "title": "Metrics of block-structured processes follow from their structure", "statement": "For every process built through the API from activities and blocks, nested to any depth, with branches that meet, stop in an end event of their own or are direct flows: the longest path has the number of nodes, and the path with the most activities the number of activities, that recursion over the structure gives; there are one start event, one end event more than branches that stop, two gateways per block; the coefficient of network complexity is (nodes - 1 + the sum over the blocks of meeting branches minus one) / nodes; the average gateway degree is the number of flow ends at the gateways of the blocks divided by twice the number of blocks, and is a division by zero without a block.", "quantifier": "all such structures, all histories of API calls that build one, all sufficient fuel", "why_tests_cant": "all depths of nesting and numbers of branches", "anchors": ["bpmn_python/diagram_layout_metrics.py:compute_longest_path", "bpmn_python/diagram_layout_metrics.py:compute_longest_path_tasks", "bpmn_python/bpmn_diagram_metrics.py:CoefficientOfNetworkComplexity_metric", "bpmn_python/bpmn_diagram_metrics.py:AverageGatewayDegree_metric", "bpmn_python/bpmn_diagram_metrics.py:NOAC_metric", "bpmn_python/bpmn_diagram_metrics.py:NOA_metric", "bpmn_python/bpmn_diagram_metrics.py:NOAJS_metric", "bpmn_python/bpmn_diagram_metrics.py:TNEE_metric"]}
{"id": "C100", "title": "Orientation and determinant of three points", "statement": "orientation(p1,p2,p3) is 0 iff the three points are on one line, 1 iff p3 is to the right of the way from p1 to p2 and 2 iff it is to the left; it does not change if the points are rotated cyclically or moved together, and exchanging two points exchanges 1 and 2. compute_determinant has the matching sign, and check_integer_sign is true for it unless the orientation is 1. A coordinate that is no number raises ValueError.", "quantifier": "all triples of points with rational coordinates, every conversion of texts to numbers", "why_tests_cant": "all triples of points", "anchors": ["bpmn_python/diagram_layout_metrics.py:orientation", "bpmn_python/diagram_layout_metrics.py:compute_determinant", "bpmn_python/diagram_layout_metrics.py:check_integer_sign"]}
{"id": "C101", "title": "The CSV file depends on what a spreadsheet shows only", "statement": "Two diagrams with the same nodes, types, names, lists of flows, default flows, kinds of events, and the same targets and names of flows give the same CSV file (or the same exception), whatever the order in which they keep nodes and connections. Generating a layout does not change the file. A diagram built with the API gives the same file after it was saved as XML and loaded, also when it was laid out in between. The file does change if a flow has both a name and a condition, and if an event has two definitions it depends on the iteration order of Python sets.", "quantifier": "all pairs of diagrams; all diagrams for the layout; all diagrams built with the API, all set orders, all fuels", "why_tests_cant": "all pairs of diagrams and every way they may be stored", "anchors": ["bpmn_python/bpmn_process_csv_export.py:export_process_to_csv", "bpmn_python/bpmn_process_csv_export.py:export_node", "bpmn_python/bpmn_process_csv_export.py:export_start_event", "bpmn_python/bpmn_process_csv_export.py:export_end_event", "bpmn_python/bpmn_process_csv_export.py:export_element", "bpmn_python/bpmn_diagram_export.py:export_xml_file", "bpmn_python/bpmn_diagram_import.py:load_diagram_from_xml", "bpmn_python/bpmn_diagram_layouter.py:generate_layout"]}
{"id": "C102", "title": "Saving what was loaded writes the same file", "statement": "A diagram with one process (possibly with pools, lanes, conditions and events with a definition) is written to an XML file and a new diagram reads it. Writing the new diagram gives the very same document: the same elements in the same order, with the same attributes, texts and line breaks, whatever the iteration order of Python sets. So saving and loading any number of further times changes nothing at all. This holds for everything built with the API in one process, before and after a layout, and for every CSV table that was loaded and laid out (also with goto rows). It fails for events with two definitions, for lanes inside lanes and for several processes.", "quantifier": "all diagrams with one process, all histories of calls, all tables, all set orders, all fuels, any number of repetitions", "why_tests_cant": "all diagrams and files, and every order of sets", "anchors": ["bpmn_python/bpmn_diagram_export.py:export_xml_file", "bpmn_python/bpmn_diagram_export.py:export_process_element", "bpmn_python/bpmn_diagram_export.py:export_node_data", "bpmn_python/bpmn_diagram_export.py:export_flow_process_data", "bpmn_python/bpmn_diagram_export.py:export_flow_di_data", "bpmn_python/bpmn_diagram_export.py:export_node_di_data", "bpmn_python/bpmn_diagram_export.py:export_lane_set", "bpmn_python/bpmn_diagram_import.py:load_diagram_from_xml", "bpmn_python/bpmn_diagram_import.py:import_process_elements", "bpmn_python/bpmn_diagram_import.py:import_sequence_flow_to_graph", "bpmn_python/bpmn_diagram_import.py:import_lane_set_element"]}
{"id": "C103", "title": "With several processes and subprocesses the file settles after one turn", "statement": "A diagram with any number of processes, subprocesses with contents, pools with processes, lanes and message flows, whose sequence flows stay inside their process or subprocess, is written to an XML file and a new diagram reads it. The file written from the new diagram has the same collaboration and process elements, to the last attribute and in the same order; only the shapes and edges of the picture may come in another order. In every process and subprocess the nodes keep their order, and so do the processes. Saving and loading once more succeeds, and from then on the diagram and its file stay exactly the same for ever. When a sequence flow leaves its process the order of the flows in a process may change, and a pool without a process is written with another orientation.", "quantifier": "all diagrams of this kind, all histories of calls with such flows (also after layout), all set orders, all fuels, any number of repetitions", "why_tests_cant": "all diagrams and files, every order of sets, any number of turns", "anchors": ["bpmn_python/bpmn_diagram_export.py:export_xml_file", "bpmn_python/bpmn_diagram_export.py:export_process_element", "bpmn_python/bpmn_diagram_export.py:export_node_data", "bpmn_python/bpmn_diagram_export.py:export_flow_process_data", "bpmn_python/bpmn_diagram_export.py:export_flow_di_data", "bpmn_python/bpmn_diagram_export.py:export_node_di_data", "bpmn_python/bpmn_diagram_export.py:export_lane_set", "bpmn_python/bpmn_diagram_import.py:load_diagram_from_xml", "bpmn_python/bpmn_diagram_import.py:import_process_elements", "bpmn_python/bpmn_diagram_import.py:import_sequence_flow_to_graph", "bpmn_python/bpmn_diagram_import.py:import_lane_set_element"]}
{"id": "C104", "title": "Metrics of a loaded spreadsheet follow from its rows", "statement": "For a diagram loaded from a CSV table, possibly with goto rows, the counting metrics are counts of rows: one start event if row 0 is there, an end event for each other row marked as terminated, an activity for each other row that is not a goto row, and a gateway for each split and join that has more than one way in or out. The number of recorded flows is the number of rows that lead on, plus the joins, plus the branches of the splits; the coefficient of network complexity is that number over the number of nodes, and the average gateway degree the sum of the joins, the branches and the rows that enter a gateway, over the number of gateways. (Refuted for the coefficient when two flows go back and forth between two nodes: they count once.)", "quantifier": "all documented tables with neat goto rows", "why_tests_cant": "all numbers of rows, branches, nesting and jumps", "anchors": ["bpmn_python/bpmn_process_csv_import.py:BpmnDiagramGraphCSVImport.load_diagram_from_csv", "bpmn_python/bpmn_process_csv_import.py:fill_graph_connections", "bpmn_python/bpmn_process_csv_import.py:remove_goto_nodes", "bpmn_python/bpmn_process_csv_import.py:remove_unnecessary_merge_gateways", "bpmn_python/bpmn_diagram_metrics.py:TNSE_metric", "bpmn_python/bpmn_diagram_metrics.py:TNEE_metric", "bpmn_python/bpmn_diagram_metrics.py:NOA_metric", "bpmn_python/bpmn_diagram_metrics.py:NOAC_metric", "bpmn_python/bpmn_diagram_metrics.py:NOAJS_metric", "bpmn_python/bpmn_diagram_metrics.py:NumberOfNodes_metric", "bpmn_python/bpmn_diagram_metrics.py:CoefficientOfNetworkComplexity_metric", "bpmn_python/bpmn_diagram_metrics.py:AverageGatewayDegree_metric"]}
{"id": "C105", "title": "Going through a CSV file keeps the numbers of a process", "statement": "A process of activities and blocks whose blocks are not nested, exported to CSV and loaded again, has the same metrics as before: numbers of start, end and intermediate events, activities, activities with gateways, all nodes, the coefficient of network complexity, the average gateway degree, the length of the longest path and the most activities on a path. (Refuted for the gateway heterogeneity: a decision without conditions comes back as a parallel gateway.)", "quantifier": "all flat block structures with readable texts, all diagrams made with the API that consist of one", "why_tests_cant": "all lengths, numbers of blocks and branches", "anchors": ["bpmn_python/bpmn_process_csv_export.py:BpmnDiagramGraphCsvExport.export_process_to_csv", "bpmn_python/bpmn_process_csv_import.py:BpmnDiagramGraphCSVImport.load_diagram_from_csv", "bpmn_python/bpmn_diagram_metrics.py:NOAC_metric", "bpmn_python/bpmn_diagram_metrics.py:CoefficientOfNetworkComplexity_metric", "bpmn_python/bpmn_diagram_metrics.py:AverageGatewayDegree_metric", "bpmn_python/bpmn_diagram_metrics.py:GatewayHeterogenity_metric", "bpmn_python/diagram_layout_metrics.py:compute_longest_path", "bpmn_python/diagram_layout_metrics.py:compute_longest_path_tasks"]}
{"id": "C106", "title": "Crossings and segments of a process that went through CSV", "statement": "A process of activities and plain blocks, exported to CSV, loaded and laid out automatically, is drawn with exactly as many segments and reported crossings as its structure says (two crossings for each block of two or three branches, eight for four or five, ...), which is what the same process gets when it is laid out without the way through the file.", "quantifier": "all flat processes with plain blocks and readable texts", "why_tests_cant": "all lengths, numbers of blocks and branches", "anchors": ["bpmn_python/bpmn_process_csv_export.py:BpmnDiagramGraphCsvExport.export_process_to_csv", "bpmn_python/bpmn_process_csv_import.py:BpmnDiagramGraphCSVImport.load_diagram_from_csv", "bpmn_python/bpmn_diagram_layouter.py:generate_layout", "bpmn_python/diagram_layout_metrics.py:count_crossing_points", "bpmn_python/diagram_layout_metrics.py:count_segments"]}
{"id": "C107", "title": "Lines the automatic layout draws, for diagrams of any shape", "statement": "After every successful generate_layout, count_segments is the number of flows plus the number of flows that leave an exclusive, inclusive or parallel gateway or come to one from another row; so it is between the number of flows and twice that number, and equal to it without gateways. A diagram without splits and joins (one or more separate sequences) is always laid out without any crossing. A gateway with k branches that is not right behind a split and whose branches do not lead to joins right away makes at least h*(h-1) crossings, h = k/2 rounded down: with four or more branches the layout is never free of crossings. A flow from a node that is no gateway into a gateway from a lower row, when the gateway is left to a node in its own row, makes at least two.", "quantifier": "all diagrams the layouter accepts", "why_tests_cant": "all numbers and positions of nodes, flows and branches", "anchors": ["bpmn_python/bpmn_diagram_layouter.py:generate_layout", "bpmn_python/bpmn_diagram_layouter.py:set_flows_waypoints", "bpmn_python/diagram_layout_metrics.py:count_crossing_points", "bpmn_python/diagram_layout_metrics.py:count_segments"]}
{"id": "C108", "title": "Which diagrams the CSV export finishes", "statement": "export_csv_file returns on every diagram without loops that has one entry node: it writes a file or, only if a start event or a meeting point that is no activity leads nowhere or a node has more than 26 branches, raises IndexError; the calls are nested at most as deep as there are nodes. With loops, if no such flow is missing, it writes a file or recurses without end. A loop that leads back to the meeting point of a block before it, by the last branch of its split, is never exported. A meeting point that is reached without a split before it ends the file: exactly the start event and the activities before it are written. (That every diagram is exported and that every activity is written are refuted.)", "quantifier": "all consistent diagrams of the supported node types, of any shape", "why_tests_cant": "all shapes, numbers of branches and depths; that a recursion never ends cannot be observed", "anchors": ["bpmn_python/bpmn_process_csv_export.py:export_process_to_csv", "bpmn_python/bpmn_process_csv_export.py:export_node", "bpmn_python/bpmn_process_csv_export.py:export_element", "bpmn_python/bpmn_process_csv_export.py:export_start_event", "bpmn_python/bpmn_process_csv_export.py:export_end_event"]}
{"id": "C109", "title": "Every line of an exported CSV file is true of the diagram", "statement": "Whatever the shape of the diagram, loops included: when export_csv_file writes a file, every line is either the line of a start event, activity or end event that the flows reach from the entry node - with its name, the mark of its trigger, the subprocess and terminated columns of its type, and, exactly when its order says that it is the first of a branch, the condition of a branch of a split that leads to it ('else' for the default flow, the name of the flow otherwise, nothing at parallel gateways) - or the line of a branch that leads right to a meeting point, with the name of that flow and the next number of its level; the first line is the one of the start event. (The converse, that every reached activity has a line, is refuted even without loops: of two meeting points behind a split only the last is followed.)", "quantifier": "all consistent diagrams with one entry node, of any shape", "why_tests_cant": "all shapes and numbers of branches; a test compares one file", "anchors": ["bpmn_python/bpmn_process_csv_export.py:export_process_to_csv", "bpmn_python/bpmn_process_csv_export.py:export_node", "bpmn_python/bpmn_process_csv_export.py:export_element", "bpmn_python/bpmn_process_csv_export.py:export_start_event", "bpmn_python/bpmn_process_csv_export.py:export_end_event"]}
{"id": "C110", "title": "Optional steps through CSV", "statement": "Exporting a process of activities and blocks in which a block may have one direct flow from its split to its meeting point (an optional step), and loading the file, succeeds: the start event and the activities keep their kinds and names, end events their kind, and the flows between them are those of the process, except that a direct flow leads past the meeting point to the line after the block. The gateway at the meeting point is kept exactly if two branches with activities meet there; otherwise it is gone and the line after the block is entered by exactly two flows. Flows into branches with activities keep their condition; the condition of a direct flow is always lost.", "quantifier": "all such processes with any number of blocks, up to 26 branches of up to ten lines each, all texts that can be written and read as they are", "why_tests_cant": "numbers and shapes of the blocks and branches, positions of the direct flow; a test compares one file", "anchors": ["bpmn_python/bpmn_process_csv_export.py:export_process_to_csv", "bpmn_python/bpmn_process_csv_export.py:export_node", "bpmn_python/bpmn_process_csv_import.py:load_diagram_from_csv", "bpmn_python/bpmn_process_csv_import.py:remove_goto_nodes", "bpmn_python/bpmn_process_csv_import.py:remove_unnecessary_merge_gateways"]}
{"id": "C111", "title": "Optional steps: CSV, layout and XML", "statement": "A process of activities, blocks and optional steps (one activity beside a direct flow) that is exported to CSV, loaded and laid out gets a drawing that the structure determines: the picture of the process in which the activity after each optional step has taken the place of the gateway. Saving that diagram as XML and loading it keeps the nodes and their places. With three or more optional steps some node is drawn above the canvas.", "quantifier": "all such processes in which an activity follows each optional step, with any number of blocks, all texts that can be written and read as they are", "why_tests_cant": "numbers and shapes of the blocks; three modules act one after the other, a test compares one picture", "anchors": ["bpmn_python/bpmn_process_csv_export.py:export_process_to_csv", "bpmn_python/bpmn_process_csv_import.py:load_diagram_from_csv", "bpmn_python/bpmn_diagram_layouter.py:generate_layout", "bpmn_python/bpmn_diagram_export.py:export_xml_file", "bpmn_python/bpmn_diagram_import.py:load_diagram_from_xml"]}
{"id": "C112", "title": "Numbers of a process with optional steps, through CSV", "statement": "When a process with optional steps is exported to CSV and loaded, the new diagram has as many start, intermediate and end events and as many activities as before. It has one gateway and one node less for each block in which at most one branch with activities meets the others. The flows per node never fall; they rise exactly when a gateway is lost and the process has more than one meeting flow to spare, and otherwise they are the same.", "quantifier": "all processes of activities and blocks, each block with at most one direct flow, all texts that can be written and read as they are, all diagrams made with the API", "why_tests_cant": "numbers and shapes of the blocks; the numbers are compared across two modules", "anchors": ["bpmn_python/bpmn_process_csv_export.py:export_process_to_csv", "bpmn_python/bpmn_process_csv_import.py:load_diagram_from_csv", "bpmn_python/bpmn_diagram_metrics.py:TNSE_metric", "bpmn_python/bpmn_diagram_metrics.py:TNEE_metric", "bpmn_python/bpmn_diagram_metrics.py:NOA_metric", "bpmn_python/bpmn_diagram_metrics.py:NOAJS_metric", "bpmn_python/bpmn_diagram_metrics.py:NOAC_metric", "bpmn_python/bpmn_diagram_metrics.py:CoefficientOfNetworkComplexity_metric"]}
{"id": "C113", "title": "CSV export when branches meet at an activity or at an end event", "statement": "A process whose branches meet at an activity instead of a gateway is exported to CSV with the same lines as one with a gateway there; the file tells whether there was a gateway. When the branches end in one shared end event, the file has one line for that event, and the exported file can be loaded.", "quantifier": "all processes of activities and blocks nested to any depth, in which each block meets at a gateway or at the next activity; all processes that end with a decision whose branches go to end events", "why_tests_cant": "shapes and depth of the blocks; a test compares one file", "anchors": ["bpmn_python/bpmn_process_csv_export.py:export_process_to_csv", "bpmn_python/bpmn_process_csv_export.py:export_node", "bpmn_python/bpmn_process_csv_export.py:export_element", "bpmn_python/bpmn_process_csv_import.py:load_diagram_from_csv"]}
{"id": "C114", "title": "Processes with optional steps exported to CSV a second time", "statement": "A process with optional steps that is exported to CSV, loaded and exported again gives the lines of the first file without the conditions and the names of end events. The flows out of a loaded gateway come in the order of the rows of the table.", "quantifier": "all processes of activities and blocks in which a direct flow skips one branch with activities and an activity follows; all documented tables with jumps", "why_tests_cant": "shapes, number and position of the optional steps; a test compares one pair of files", "anchors": ["bpmn_python/bpmn_process_csv_import.py:load_diagram_from_csv", "bpmn_python/bpmn_process_csv_import.py:add_split_gateway", "bpmn_python/bpmn_process_csv_import.py:remove_goto_nodes", "bpmn_python/bpmn_process_csv_import.py:remove_node", "bpmn_python/bpmn_process_csv_export.py:export_process_to_csv"]}
{"id": "C115", "title": "Processes with optional steps taken through CSV again and again", "statement": "From the first file on every trip (load the file, export the diagram) succeeds, and all files from the second one on are the same text. The diagrams loaded on the way have the same nodes and flows.", "quantifier": "all processes of activities and blocks in which a direct flow skips one branch with activities and an activity follows; any number of trips", "why_tests_cant": "shapes, texts and the number of trips", "anchors": ["bpmn_python/bpmn_process_csv_import.py:load_diagram_from_csv", "bpmn_python/bpmn_process_csv_import.py:remove_goto_nodes", "bpmn_python/bpmn_process_csv_export.py:export_process_to_csv"]}
{"id": "C116", "title": "Kinds of gateways behind jumps and optional steps after CSV", "statement": "The kind of a gateway loaded from a table with jumps is decided by the conditions of all its branches, jumps among them: a decision of two branches gives an exclusive gateway, no condition a parallel one, anything else an inclusive one. A process with optional steps keeps its parallel gateways, and its decisions with a default branch.", "quantifier": "all documented tables with jumps; all processes with optional steps, any number of trips", "why_tests_cant": "shapes, conditions and default flows; a test compares a few gateways", "anchors": ["bpmn_python/bpmn_process_csv_import.py:load_diagram_from_csv", "bpmn_python/bpmn_process_csv_import.py:get_gateway_type", "bpmn_python/bpmn_process_csv_import.py:get_node_conditions", "bpmn_python/bpmn_process_csv_import.py:add_split_gateway", "bpmn_python/bpmn_process_csv_import.py:remove_goto_nodes", "bpmn_python/bpmn_process_csv_export.py:export_process_to_csv", "bpmn_python/bpmn_process_csv_export.py:export_node"]}
{"id": "C117", "title": "Numbers and kinds of gateways after any number of CSV trips", "statement": "A process with optional steps taken through CSV any number of times gives diagrams with the same number of events, activities, gateways and nodes and the same ratio of flows to nodes as the diagram loaded from the first file. The gateway where the branches of a block meet has the kind of the gateway that opens the block. From the second file on there is at most one kind of gateway.", "quantifier": "all processes of activities and blocks in which a direct flow skips one branch with activities and an activity follows; any number of trips; for the kinds, all processes with optional steps", "why_tests_cant": "shapes, texts and the number of trips; a test counts the elements of a few diagrams", "anchors": ["bpmn_python/bpmn_process_csv_import.py:load_diagram_from_csv", "bpmn_python/bpmn_process_csv_import.py:add_merge_gateway_if_not_exists", "bpmn_python/bpmn_process_csv_import.py:remove_goto_nodes", "bpmn_python/bpmn_process_csv_import.py:remove_unnecessary_merge_gateways", "bpmn_python/bpmn_process_csv_export.py:export_process_to_csv", "bpmn_python/bpmn_diagram_metrics.py:TNSE_metric", "bpmn_python/bpmn_diagram_metrics.py:TNEE_metric", "bpmn_python/bpmn_diagram_metrics.py:NOA_metric", "bpmn_python/bpmn_diagram_metrics.py:NOAJS_metric", "bpmn_python/bpmn_diagram_metrics.py:NOAC_metric", "bpmn_python/bpmn_diagram_metrics.py:CoefficientOfNetworkComplexity_metric", "bpmn_python/bpmn_diagram_metrics.py:GatewayHeterogenity_metric"]}
{"id": "C118", "title": "Jumps that lead nowhere are rejected", "statement": "Loading a documented table succeeds only if every goto row names another row or a gateway the rows imply, not a goto row listed earlier, if a row or an earlier jump leads to it, and if something follows it. A jump to an unknown place, to itself or back to an earlier goto row makes the import fail with an exception. After a successful load no goto row is a node, every other row is the element it describes, and all further nodes are gateways the rows imply.", "quantifier": "all documented tables with goto rows of any kind: chains of jumps, jumps to gateways, several jumps to one row", "why_tests_cant": "every way rows and jumps can be combined; a test has one goto row in one place", "anchors": ["bpmn_python/bpmn_process_csv_import.py:load_diagram_from_csv", "bpmn_python/bpmn_process_csv_import.py:remove_goto_nodes", "bpmn_python/bpmn_process_csv_import.py:remove_node", "bpmn_python/bpmn_process_csv_import.py:add_connection"]}
{"id": "C119", "title": "The drawing after any number of CSV trips", "statement": "A process with optional steps is taken through CSV any number of times, loaded and laid out. The drawing is determined by the structure of the process, and saving it as XML keeps it. The start event, the end event, the activities and gateways outside the branches and the activities of optional steps are drawn in the same places as in the diagram loaded from the first file.", "quantifier": "all processes of activities, blocks and optional steps (one activity beside a direct flow) with an activity after each optional step; any number of trips; all texts that can be written and read as they are", "why_tests_cant": "shapes, texts and the number of trips; a test compares one picture", "anchors": ["bpmn_python/bpmn_process_csv_import.py:load_diagram_from_csv", "bpmn_python/bpmn_process_csv_import.py:remove_goto_nodes", "bpmn_python/bpmn_process_csv_export.py:export_process_to_csv", "bpmn_python/bpmn_diagram_layouter.py:generate_layout", "bpmn_python/bpmn_diagram_layouter.py:grid_layout"]}
{"id": "C120", "title": "Chains of jumps are followed to their ends", "statement": "In a table each goto row is reached in one way, by a flow or by one jump. When such a table loads, the diagram hangs together: every flow joins two nodes that list it, the nodes list no other flows, and the edges are those of the flows. One node of the diagram is reached from another exactly if the rows say so with every jump followed to its end, over any number of further jumps.", "quantifier": "all documented tables in which one flow or one jump leads to each goto row: chains of jumps of any length, jumps to gateways, any order of the rows", "why_tests_cant": "lengths of chains, orders of rows and shapes of tables; a test has one jump", "anchors": ["bpmn_python/bpmn_process_csv_import.py:load_diagram_from_csv", "bpmn_python/bpmn_process_csv_import.py:remove_goto_nodes", "bpmn_python/bpmn_process_csv_import.py:remove_node", "bpmn_python/bpmn_process_csv_import.py:add_connection", "bpmn_python/bpmn_process_csv_import.py:remove_unnecessary_merge_gateways"]}
{"id": "C121", "title": "Tables whose jumps lead forward have no loops", "statement": "In a table every goto row is reached in one way and names a row whose order begins with a greater number, and a row follows every block that contains another block. When such a table loads, no way along the flows of the diagram comes back to the node where it began. If some goto rows lead back to rows, every loop passes the place where one of these jumps ends.", "quantifier": "all documented tables of this kind, any number of jumps and chains of jumps, blocks inside blocks", "why_tests_cant": "loops of any length through any number of jumps; a test has one table", "anchors": ["bpmn_python/bpmn_process_csv_import.py:load_diagram_from_csv", "bpmn_python/bpmn_process_csv_import.py:remove_goto_nodes", "bpmn_python/bpmn_process_csv_import.py:add_connection", "bpmn_python/bpmn_process_csv_import.py:remove_unnecessary_merge_gateways"]}
{"id": "C122", "title": "Tables with chains of jumps are ready for the layout", "statement": "In a table each goto row is reached in one way. The layouter knows the type of every node, and it finds every flow from both its ends exactly if in the loaded diagram no node lists a flow twice and no two flows lead to and fro between two nodes. If this holds and the jumps lead forward, it orders the nodes without flows back, and only the placing in the grid can fail.", "quantifier": "all documented tables of this kind, chains of jumps of any length, all amounts of fuel above the bound", "why_tests_cant": "lengths of chains, shapes of tables; a test lays out one table", "anchors": ["bpmn_python/bpmn_process_csv_import.py:load_diagram_from_csv", "bpmn_python/bpmn_process_csv_import.py:remove_goto_nodes", "bpmn_python/bpmn_process_csv_import.py:add_connection", "bpmn_python/bpmn_diagram_layouter.py:generate_layout", "bpmn_python/bpmn_diagram_layouter.py:topological_sort"]}
{"id": "C123", "title": "Conditions and saved files of tables with chains of jumps", "statement": "In a table each goto row is reached in one way. If in the loaded diagram no node lists a flow twice and no flow leads back where another flow led, a flow carries the condition of the row that it leads to, and no flow carries another condition. When such a diagram was laid out, it can be saved, and the file gives back its nodes with positions, types and names, the points of its flows, and the ways of the table.", "quantifier": "all documented tables of this kind, chains of jumps of any length, all orders of sets, all amounts of fuel above the bound", "why_tests_cant": "lengths of chains, shapes of tables; a test saves one table", "anchors": ["bpmn_python/bpmn_process_csv_import.py:load_diagram_from_csv", "bpmn_python/bpmn_process_csv_import.py:remove_goto_nodes", "bpmn_python/bpmn_process_csv_import.py:add_connection", "bpmn_python/bpmn_diagram_layouter.py:generate_layout"]}

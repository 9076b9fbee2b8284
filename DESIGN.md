# Formal model of bpmn-python in Rocq

## 1. What is modelled

Everything below is a *shallow* embedding: each Python function becomes a total
Gallina function mirroring its branches. Exceptions are values (`exc`), code that
mutates runs in a state-and-exception monad `M S A := S -> S * res A`, so the
state reached *when an exception is raised* is observable.

| Rocq file | Python file | content |
|---|---|---|
| `Py.v` | - | exceptions, result monad, insertion ordered dicts, attribute values |
| `Nx.v` | networkx `Graph` | undirected attributed graph (add/remove node/edge, views, degree) |
| `Rep.v` | `bpmn_diagram_rep.py` | diagram object, construction and query API, API histories |
| `Classify.v` | `bpmn_import_utils.py` | node classification (Join/Split labels), boolean conversion |
| `Metrics.v` | `bpmn_diagram_metrics.py` | metrics |
| `LayoutMetrics.v` | `diagram_layout_metrics.py` | segments, crossings, longest paths |
| `Layouter.v` | `bpmn_diagram_layouter.py` | topological sort, grid placement, coordinates, waypoints |
| `CsvRegex.v`, `CsvImport.v` | `bpmn_process_csv_import.py` | order label patterns, import |
| `CsvExport.v` | `bpmn_process_csv_export.py` | export |
| `Xml.v`, `Export.v` | `bpmn_diagram_export.py` | XML trees, export |
| `Import.v` | `bpmn_diagram_import.py` | import |
| `Classes.v` | `graph/classes/**` | typed element classes |
| `Visual.v` | `bpmn_diagram_visualizer.py` | what is drawn: shapes, labels, lines, arrows |

## 2. What is not modelled (trusted base besides Coq's kernel)

* Python itself: the semantics given to dicts, lists, strings, truthiness,
  exceptions is ours (`Py.v`).
* networkx: `Nx.v` is written from the documented behaviour of `networkx.Graph`
  (undirected, one edge per unordered pair, edge attribute dict shared by both
  directions, edge view in node order, node insertion by `add_edge`).
* `uuid.uuid4()`: every drawn value is an explicit argument; freshness is a
  hypothesis where it is needed.
* floats: modelled by exact rationals; `float(s)` is an arbitrary partial function
  from strings to rationals.
* XML text: `ElementTree.write` / `minidom.parse` are taken at the tree level (the
  parsed document is the written tree; blank text nodes come from `indent`).
* pandas: the CSV model starts from the table as a dict of rows.
* file system effects (`os.makedirs`, `open`) are not modelled, nor what matplotlib, networkx's drawing
  functions and pydotplus do with their arguments (`Visual.v` stops at these arguments), nor
  `bpmn_diagram_to_dot_file`, which hands the graph to networkx unchanged.
* The correspondence between the Gallina text and the Python text is by reading;
  every definition cites the lines it models.

## 3. Conventions

* Property theorems live in `Prop_*.v`; each of these files ends with
  `Print Assumptions` for its theorems. No axioms are used or declared.
* `_refuted` : the English claim is false of the faithful model; the theorem is the
  negation, with a concrete witness.
* `_partial` : only part of the claim is proved; the comment says what is missing.
* Beside every theorem an `Example` shows a concrete case meeting its hypotheses.

## 4. Plan per property

* **C01 Adding a node creates exactly that node.** `Rep.v` add_* functions; direct proof by cases, specification as lookup/frame equations over the graph.
* **C02 Adding a sequence flow has exactly the documented effect.** `Rep.v` add_sequence_flow; lookup/frame equations, waypoints from the two attribute dicts.
* **C03 Flow bookkeeping is consistent in every reachable diagram.** Inductive invariant over `run : diagram -> list op -> diagram` with counts of ids in the lists.
* **C04 Every recorded flow can be retrieved by its id.** Invariant: every recorded flow has its edge with its own id when unordered pairs are distinct; refutation by a concrete history.
* **C05 Type queries partition the nodes.** `filter` specification of the queries for all diagrams.
* **C06 Process queries partition nodes and flows.** `filter` specification; edge view proved to be a permutation of the stored edges up to orientation.
* **C07 Invalid gateway direction is rejected without changing the diagram.** Raise proved for all states; refutation of atomicity for all states with a fresh id.
* **C08 Event definitions requested are the ones stored.** Cases on the definition argument.
* **C09 A flow to an unknown node is rejected without changing the diagram.** Raise for all states; refutation witness.
* **C10 Creating a new diagram discards everything.** Direct.
* **C11 Processes are recorded with their attributes and the plane refers to the latest one.** Direct, with frame.
* **C12 Positions are reported for every node.** `float` oracle universally quantified.
* **C13 Count metrics count what they name.** Counting specification `count_types`; arithmetic identities.
* **C14 get_nodes_count without a type counts all nodes.** Refuted by witness and for all typed diagrams.
* **C15 Gateway heterogeneity.** Number of distinct elements of a filtered list.
* **C16 Durfee square metric is the Durfee square.** Extremal characterisation on sorted histograms.
* **C17 Perfect square metric is the largest p.** Extremal characterisation on sorted histograms.
* **C18 Coefficient of network complexity.** Rational value.
* **C19 Average gateway degree.** Handshake lemma on `Nx.v`.
* **C20 Segment count.** Induction on waypoints.
* **C21 Segment intersection test is geometrically correct.** Geometry over Q, existence of parameters for the common point.
* **C22 Crossing count.** Counting specification over unordered pairs, permutation invariance.
* **C23 Longest path.** Fuelled recursion; measure = unvisited nodes; optimality by induction.
* **C24 Longest path counted in activities.** Same as C23 with a second measure.
* **C25 Element classification.** `filter`/count specification.
* **C26 Topological sort.** Invariant of the worklist loop.
* **C27 Topological sort terminates.** Rank argument for termination; divergence by a loop invariant for every fuel.
* **C28 Layout never overlaps nodes.** Invariant on the grid (no equal cells).
* **C29 Layout assigns exactly one grid position to every node and changes nothing else.** Placement invariant, frame lemmas.
* **C30 Waypoints connect source and target.** Cases on node types and rows.
* **C31 Forward flows run left to right.** Invariant on columns of processed flows; witness for the refutation.
* **C32 Occupied cells are resolved by inserting a row.** For all grids.
* **C33 Linear processes are laid out on one row.** Induction on the chain.
* **C34 XML round trip of nodes.** Export/import composition, induction over nodes and nesting.
* **C35 XML round trip of sequence flows.** Same for flows.
* **C36 XML round trip keeps process attributes.** Composition on process attributes; witness for name.
* **C37 XML round trip keeps lanes.** Witness; one-level lane sets proved.
* **C38 Indentation does not change what is loaded.** Induction on trees.
* **C39 XML round trip of diagram geometry.** Composition.
* **C40 Export without DI lists every node once.** Witness; single process proved.
* **C41 Importing a flow registers it at both ends.** Invariant of the import folds.
* **C42 Import dispatch.** Cases on local names.
* **C43 Comments are ignored by the importer.** Witness.
* **C44 Optional attributes get their documented defaults.** Cases.
* **C45 Export keeps flow names.** Cases, witness.
* **C46 Sequence successor of an order.** Regex engine in `CsvRegex.v`, characterisation on all strings.
* **C47 Split successors of an order.** Characterisation on all strings.
* **C48 Gateway type chosen for a split.** Boolean specification.
* **C49 Linear CSV files load as chains.** Induction over rows.
* **C50 CSV import keeps flows consistent.** Invariant through all phases.
* **C51 Rows that lead nowhere are rejected.** By the first failing row.
* **C52 Merging of nested branches.** Witness and one-level proof.
* **C53 No pass-through gateways remain.** Invariant of the removal fold.
* **C54 The process lists its nodes.** Witness.
* **C55 CSV-imported diagrams can be exported to XML.** Composition; witness.
* **C56 Order labels are normalised without losing rows.** Induction on rows.
* **C57 CSV export needs exactly one entry node.** Cases.
* **C58 Linear diagrams export to orders 0..n.** Induction on the chain.
* **C59 CSV export then import is the identity on chains.** Composition of C58 and C49.
* **C60 At most 26 branches can be exported.** Induction on the way to the split and on the branch list.
* **C61 CSV lines have six fields.** The text has only one reading as lines of fields without commas and line breaks; witness for commas.
* **C62 Typed element setters.** One record per class, history of setter calls.
* **C63 Enumerated fields always hold an allowed value.** Invariant.
* **C64 Flow constructors check both endpoints.** Witness.
* **C65 Acyclic diagrams can be laid out.** Two witnesses; totality of the other phases.
* **C66 Exact diagram of an imported table.** Ghost list of flows maintained through all phases, equal to an inductive specification of the table (`SpecFlow.v`).
* **C67 Every imported flow has its own edge.** Edges as the image of the ghost list; no two rows lead to each other; witness for goto loops.
* **C68 Exported orders are documented and distinct.** Invariant of the rows returned by every recursive call: distinct orders below the current prefix and at or after the current number.
* **C69 Exported CSV files can be loaded.** C68 and C61 give the hypotheses of C51; witness.
* **C70 Loaded processes and subprocesses list their nodes.** Effect of the flat list of import actions, induction on the element tree.
* **C71 Loaded flows are described by their elements.** The last action on a pair of nodes determines its connection; witness for two flows.
* **C72 Which documents load.** Loading is a list of guarded steps; each step succeeds from what the earlier ones left; the conditions are restated on the document.
* **C73 XML round trip of the collaboration and the diagram.** The fold over the plane children acts on each participant and each pair separately; the last shape of a pool decides.
* **C75 Files without diagram interchange can be loaded.** No element of the written tree has the local name the importer asks for first.
* **C74 Complete diagrams can be saved and loaded.** Success of every export function by induction (on the nesting of subprocesses and lanes), then C72 (which documents load) for the exported tree.
* **C76 Diagrams built with the API survive saving and loading.** Invariant of call histories (`built`) that gives the hypotheses of C74, C34, C35, C36, C39 and C73.
* **C77 Lists of element objects hold values of the declared kind.** Invariant over all programs of calls; witness with an alias.
* **C78 Processes hold flow nodes.** Table of base classes; consequence of C62.
* **C79 Every node and connection is drawn once.** The calls of the drawing library as data (`Visual.v`); lists by type partition the nodes of the drawn types.
* **C80 Arrows of the picture point along the flows.** Characterisation of the edge view by the order of the nodes; witness.
* **C81 Block-structured processes export as numbered lines.** A syntax of activities and blocks with the lines by recursion over it (`SpecBlocks.v`); induction over the structure (`BlockExport.v`).
* **C82 Block-structured processes survive the CSV round trip.** The structure renamed to the orders (`SpecFlat.v`); the flows the orders mean are exactly those of the renamed structure (`FlatTable.v`, `FlatLines.v`), then C66 and C81; witnesses for the restrictions.
* **C83 From a table or a history to a laid-out file.** The layout keeps what saving needs and adds coordinates and waypoints (`LayoutSave.v`); the importer keeps the graph well-formed (`CsvGraph.v`) and coherent (`CsvCoherent.v`); then C74, C39, C33 and C49.
* **C84 Tables without goto describe processes without loops.** Orders read as lists of numbers and letters; every flow goes up in the lexicographic order; witness.
* **C85 Processes with blocks can be laid out, in the obvious picture.** A plan gives each node a cell by a local rule; the grid loop reproduces any plan without collisions (`PlanFacts.v`); the cells of blocks (`SpecPlan.v`, `PlanBlocks.v`) obey the rules (`PlanRules.v`); then C65, C82 and C83; witnesses.
* **C86 Goto rows redirect the flow.** The goal as the second word of the activity (`SpecGoto.v`, `GotoFacts.v`); invariant of the goto loop over the rows already followed (`CsvGoto.v`), then the last phase of C66 (`CsvJump.v`); checkers for the examples; witnesses.
* **C87 Metrics depend only on types and connections.** Relations `same_shape`, `same_ways`, `same_lines` between diagrams (`SpecSame.v`); edges of two graphs are matched one to one (`SameFacts.v`), then C15-C24; histories (`SameApi.v`), round trips (`SameRound.v`, with C34, C35, C39, C73) and layouts (C29) satisfy the relations; witness.
* **C88 Branches meet at a gateway like the one that opened them.** Loop invariant over the rows connected so far: the kind of a join is looked up when its first branch is connected (`CsvJoin.v`); kept by the later phases as in C86; witness.
* **C89 Splits in the layout.** Invariant of the placement loop that remembers by which splitting gateway each cell was placed (`SplitFacts.v`); the column and row of a cell never change relative to the others by more than the shifts, so the recorded offsets are the final ones.
* **C90 Loops in the layout.** The order found is a linear one except at Joins; a node of a loop has the last predecessor of the order before it, so a loop in which no flow runs from a non-Split into a Join has no first node.
* **C91 Tables with goto rows can be laid out and saved.** The lists of flows the import keeps (C86) give coherence; every loop uses a redirected flow, whose goal has a second way in and is a Join, so C27 applies; saving as in C83.
* **C92 The picture depends only on the nodes and on what is connected with what.** Simulation: the invariant of the sort determines the current lists by the nodes left and the pairs cut, so both runs take the same nodes and cut the same pairs; then the same grid by induction on the placement.
* **C93 Nodes are read in document order, and a saved diagram is drawn the same again.** Every import action appends its new ids to the list of nodes (monadic lemma `grows`), so the order is the order of first mention; under flows_inside the flows mention nothing new. The exported document lists the nodes of a scope in graph order (C34), hence the same order; coherence, single flows and connections carry over, and C92 gives the picture.
* **C94 Exporting, loading and exporting again reaches a fixed point after one round.** An invariant of fill_graph_connections: the outgoing list of a split gateway is the list of its branch rows in table order (CsvFan). With C82 the loaded diagram satisfies `structured` with the relabelled parts (FlatAgain), so C81 gives its lines; comparing them line by line with the first file gives `kept_line`, which is idempotent.
* **C95 Exactly which diagrams the automatic layout accepts.** The rules are an inductive relation `belongs` on positions (SpecCells). The plan exists and is unique by well-founded recursion on the turn in which a node is drawn (CellPlan). Induction over the placement shows that the grid is at all times the plan restricted to the placed nodes, and that the insertion raises exactly when the planned cell is taken by another node (CellFacts.grid_or).
* **C96 Exactly when the automatic layout succeeds, with empty branches allowed.** SpecDraw: the turns as an inductive relation `drawn_with`, the sequence `drawing`, the rules `placed_at`. Forwards (DrawRun): induction over the recursion, the grid is the plan restricted to a prefix of the sequence. Backwards (DrawBack): the nodes of a successful run, in the order in which they were placed, form a `drawing`. Uniqueness by induction along the sequence (DrawFacts). The column argument for skipping branches is a consequence about plans.
* **C97 Processes with optional steps are always laid out, and drift off the canvas.** SpecOptions: `loose_part`, the rows after a block (`row_after`, `rows_of`) and the picture by recursion over the structure, for any notion of place. OptionShape: the flows at each node of such a process. OptionPlan: by induction over the parts the rules of SpecDraw determine every place, and no two coincide; then C96_acyclic.
* **C98 Crossings and segments reported for automatically laid-out processes.** SpecCrossing: the counts by recursion over the structure and the exact waypoint rule (`corners`). RouteFacts: the waypoints after a layout (C30_exact_route). CrossPicture: the segments of the picture of C97; CrossGrid: which of them meet, over the integers, block by block (`block_pairs`, `block_range`). The count does not depend on the order of the flows.
* **C99 Metrics of block-structured processes follow from their structure.** SpecMeasure: the numbers by recursion over the structure (`reach`, `extra`, `gate_ends`, `blocks`). MeasureFacts: which node follows which (`follow_part`), the best way from each node on with arbitrary weights (`best_part`), ways do not come back (`no_return`), no flow twice, and the counts; the values of the metrics then follow with C13, C18, C19, C23 and C24.
* **C100 Orientation and determinant of three points.** Prop_Turn: lines by an equation a*x + b*y = c, left and right by the scalar product with the way turned by a right angle; cases over the sign of the determinant, field arithmetic.
* **C101 The CSV file depends on what a spreadsheet shows only.** SpecSheet, SheetFacts, Prop_Sheet: two runs of the exporter side by side, induction over the fuel, every read related by the sheet; the sheet is kept by the layout (kept_layout) and by saving and loading (C34, C35).
* **C102 Saving what was loaded writes the same file.** SpecResave, EdgeOrder (order of the connections after loading), ProcOrder (order of the processes), ResaveFacts, Prop_Resave: node order (C93), edge order and the attributes (C34-C37, C73) give the same list of elements; every part of the exporter is shown to give the same result on both diagrams.
* **C103 With several processes and subprocesses the file settles after one turn.** SpecResave (tidy, same_but_order), MessageBack (every loaded connection is a sequence flow or a message flow of the file), ScopeOrder (order of the nodes of each process and subprocess after loading), RoundTidy (what was loaded is tidy again), ResaveScopes, Settled, Prop_Settled: every process element is written again as it was read, by induction over the nesting of subprocesses; shapes and edges are permuted; the second load reads the nodes in the order of the first, so the third file is the second.
* **C104 Metrics of a loaded spreadsheet follow from its rows.** SpecTally (what can be counted in the rows), TallyFacts, Prop_Tally: the flows are matched one to one with rows that lead on, joins and branches (C86 gives the flows, a relation that is total and one-to-one both ways gives equal lengths); the types of the nodes by C86; then C13, C18 and C19; witness.
* **C105 Going through a CSV file keeps the numbers of a process.** CsvMeasure (the numbers of SpecMeasure do not depend on the names of the nodes; a loaded diagram has what C99 needs), Prop_CsvMeasure: C82 and C94 give the structure of the loaded diagram with the names of the file, then the lemmas of C99 for both diagrams; witness.
* **C106 Crossings and segments of a process that went through CSV.** Prop_CsvCrossing: the loaded diagram meets the hypotheses of C98 (its flows one to one with the connections, its gateways of the usual kinds); the counts do not depend on names.
* **C107 Lines the automatic layout draws, for diagrams of any shape.** The exact routes of C30 turned into segments for any diagram; the cells of C95 (sequences) and the fan of C89 (wide splits), with crossings counted as pairs of straight segments on integers.
* **C108 Which diagrams the CSV export finishes.** SpecExportEnds (what the exporter asks for, ways, loops), Prop_ExportEnds: the outcome of every call by induction over the fuel, with a rank that falls along the flows (from C26 for diagrams without loops); a finished call at the split of a loop contains a finished call of the same kind with less fuel.
* **C109 Every line of an exported CSV file is true of the diagram.** The lines a diagram allows stated from its attributes and flows (`SpecTruth.v`); induction over the nesting of calls: each only appends such lines and returns a reached node; witness with two meeting points.
* **C110 Optional steps through CSV.** A goto row stands for each direct flow, so the table is that of a flat process with one more row (`OptionalTable.v`, `fill`); C82's facts about its orders, then the goto rows are followed (C86); `SpecOptional.v` states nodes and flows of the result; witness.
* **C111 Optional steps: CSV, layout and XML.** The loaded diagram of C110 consists of the parts of `drawn` (`SpecOptional.v`): flows by induction over the rest of the process, nodes from the flows, names as a permutation of those of C85 (`OptionalDraw.v`); then C91 (ready for layout, saved) and C97 (picture, drift).
* **C112 Numbers of a process with optional steps, through CSV.** The lists of rows, gateways and branches of the table by recursion over the structure (`OptionalCount.v`), without repetition, are the listings of C104; then C99 for the diagram made with the API and arithmetic.
* **C113 CSV export when branches meet at an activity or at an end event.** The structures of C81 with a wider notion of meeting point (`SpecLoose.v`); induction over the structure (`LooseExport.v`); the exact lines for decisions whose branches go to end events; witnesses.
* **C114 Processes with optional steps exported to CSV a second time.** The order of the outgoing flows follows the order of the rows through every phase of the import (`CsvGotoFan.v`); the loaded diagram is a structure of `SpecLoose.v` (`OptionalAgain.v`), so C113 gives its lines, which are compared with the first file; witness.
* **C115 Processes with optional steps taken through CSV again and again.** The second file is also the first file of a structured process: conditions, names of end events removed and direct flows moved to the end (`OptionalTidy.v`); C114 applied to it gives the same file again, then induction over the number of trips; witness.
* **C116 Kinds of gateways behind jumps and optional steps after CSV.** The kind set by the importer is followed through the removal of jumps (`CsvJump.v`), and the conditions of the branches are read off the lines of C81; for later trips the process of `OptionalTidy.v`; witness.
* **C117 Numbers and kinds of gateways after any number of CSV trips.** The formulas of C112 for the process of the second file (`OptionalTidy.v`), whose counts are those of the first because only the order of branches differs; the kind of a meeting point from C88 by showing that a block's number is listed before its branches; C15 for the number of kinds.
* **C118 Jumps that lead nowhere are rejected.** An invariant over the goto rows already followed: which nodes are left, which attributes are kept and where flow lists may be non-empty; every jump takes out one node and adds one flow, both inverted from the successful run. The diagram before the jumps is the one of C50, with the flows of `SpecFlow.v`.
* **C119 The drawing after any number of CSV trips.** C111 for the process of the second file (`OptionalTidy.v`) gives the picture; the places are compared by induction over the parts, since moving the direct flow changes neither the width of a block nor the row in which the process goes on.
* **C120 Chains of jumps are followed to their ends.** An invariant over the goto rows followed so far: the flows are those of the rows with these jumps followed, a goto row has no more flows in than flows and followed jumps lead to it, and no more flows out than before. The last phase keeps reachability because it replaces a gateway with one flow on each side by one flow.
* **C121 Tables whose jumps lead forward have no loops.** The order of the labels of C84 rises along every flow and every jump forward; C120 carries this over to the ways of the loaded diagram.
* **C122 Tables with chains of jumps are ready for the layout.** Invariant of all phases: each edge carries the attributes of a recorded flow between its ends. With C120 this gives the coherence that the theorems on the layouter ask for.
* **C123 Conditions and saved files of tables with chains of jumps.** Invariant of all phases: an edge that stands for one flow carries exactly the attributes of this flow, with the condition of the row at its end. With C83 and C120 this gives the saved file.

## 5. Trusted base

* Coq 8.16.1's kernel (including `vm_compute`) and the parts of the standard library that
  are imported (`String`, `Ascii`, `List`, `Bool`, `Arith`, `ZArith`, `QArith`, `Qminmax`, `Decimal*`, `Lia`, `Lqa`,
  `Permutation`, `Sorted`).
* `Print Assumptions` answers "Closed under the global context" for every theorem in
  `MANIFEST.json`; no axiom is used. A listing of the whole environment (`coqchk -o`, `vcheck`)
  additionally shows the parameters of `Coq.ssr.ssrunder.Under_rel`. They are opaque module
  members of a file the standard tactics load, not axioms of this development, and no theorem
  depends on them.
* The reading of the Python text (every definition cites its lines) and the semantics given to
  Python, networkx, ElementTree, minidom and pandas listed in section 2.
* Reading choices that the theorems depend on:
  * attribute values are strings, `None`, lists of strings, event definitions, waypoints,
    condition pairs or lane sets (`pyval`); any other value is outside the model;
  * a non-string attribute in an ElementTree raises `TypeError` when the tree is written, not
    when it is built;
  * the parsed document is the written tree with ElementTree's escaping undone, so texts and
    attributes with characters that XML cannot carry are outside the model;
  * `pandas.read_csv` with its default options: a cell that is empty or one of the NaN spellings
    is NaN and every later `str` operation on it raises; quoting follows RFC 4180;
  * recursion of the code that is not structurally decreasing runs on fuel; `OutOfFuel` is a
    separate outcome, it is never treated as success, and C27 says when the sort does not return;
    the other uses are bounded by the size of the diagram (C23, C58, C74);
  * the classes in `graph/classes` import each other circularly (`lane_type.py`,
    `lane_set_type.py`) by `import a.b as c`, which needs Python 3.7; the model assumes the import
    succeeds and that both `graph` and `bpmn_python.graph` are on the path.

## 6. Where the code does not do what one expects

Each of these is a theorem (`_refuted`, or the theorem named) about the model; nothing in /repo
was executed.

Diagram API
* A second flow between the same two nodes, in either direction, overwrites the first one: the
  graph is undirected with one edge per pair (C04).
* `add_flow_node_to_diagram` and the functions that use it change the diagram before they check
  their arguments: a bad gateway direction or an unknown flow end raises and leaves a half-made
  element (C07, C09).
* `get_nodes_count` without an argument counts the nodes whose type is `None`, that is none (C14).

Layout
* The topological sort does not return on a cycle that avoids the Joins (C27).
* Making room in an occupied row raises `TypeError` (the string `"width"` is added to a row number) instead of moving
  rows, so some acyclic diagrams have no layout (C32, C65); among them quite ordinary ones, with a
  block in a branch of a block or with a branch that stops (C85).
* A block with four or more branches is drawn partly at negative coordinates, and its lower
  branches in the wrong order (C85).
* The nodes behind a split that stands right behind another split are fanned out around the row
  of that other split, because the enforced row is not the row used for them
  (`place_element_in_grid`, lines 268-296 and 315-345); two such splits behind one always collide
  and raise `TypeError` (C89). This also decides more of C31 and C65.
* A split whose successor was placed before raises `IndexError` (lines 313-343): a loop closed
  directly by a split, such as "retry if it failed", can never be laid out (C90).
* A table with `goto 0` makes the layouter run forever, because nothing else leads to the start;
  a goto row that is the first row of its branch and leads straight back raises (C91).
* Which branch is drawn above depends on the order in which nodes of the same type were added,
  not on the order of the flows (C92).
* Saving and loading a diagram with two processes reorders its nodes by process; laying the
  loaded diagram out can swap the branches of a split (C93).
* The importer keeps a condition as a condition expression and gives the flow an empty name,
  while the exporter writes the name: loading a file and exporting it again drops every
  condition, and loading that file turns every decision into a parallel split (C94).
* A decision whose two branches reach another two-way decision after the same number of
  steps can never be laid out (C95_equal_depth_fails), and two unconnected processes that can
  be laid out separately may raise `TypeError` in one diagram (C95_side_by_side_refuted).
* A decision with a direct flow to the node where its branches meet is drawn with that node
  right behind the decision, left of the longer branches; the last flow of such a branch
  leads backwards (C96_skipping_branch).  A node right after two decisions cannot be drawn.
* A split passes row 0 to the node it draws as "no row given" (place_element_in_grid writes
  `if enforced_row_num:` for joins but `is not None` otherwise), so an optional step in row 2 ends
  in row 3 and later ones move up by two rows each; the third one leaves the canvas (C97_drift, C97_off_canvas).
* A gateway with four or more branches always makes crossings, whatever the rest of the diagram looks like (C107).
* Every block that the layout draws is reported with crossings (C98): two for two or three branches, eight for four or five, and so on.
* Saving what was loaded does not always give the file that was read (C102): several processes, divided lanes
  and events with two definitions change it (order of the nodes, lost lanes, order of the definitions).
* With several processes the second file lists shapes and edges in another order than the first, and from then
  on nothing changes (C103), also with message flows; if a sequence flow leaves its process even the process elements
  change, and a pool without a process is written with another orientation.
* Two flows back and forth between two nodes are one edge of the graph, so the coefficient of network complexity of
  such a table is too small (C104); the number of recorded flows is right.
* A decision whose flows carry no conditions comes back from CSV as a parallel gateway, so the gateway
  heterogeneity of a process changes on the way through CSV although all other numbers stay (C105).
* The CSV exporter loses everything behind a meeting point that is reached without a split before it (every process that starts with a loop), and recurses without end on a loop that leads back to the meeting point of an earlier block (C108). `OutOfFuel` for every fuel stands for Python's RecursionError.
* A split whose branches come together at two different meeting points is exported without what follows the first one: only the node returned by the last branch that returns one is followed (`C109_every_activity_refuted`). No error is raised.
* A process with an optional step does not survive CSV unchanged: the file says `goto` the
  line after the block, so the loaded diagram has a flow past the meeting gateway, the gateway
  disappears if only one branch is left, and the condition of the direct flow is lost
  (C110_gateway_gone, C110_condition_refuted).
* Branches that share an end event (C113): the exporter checks for meeting points only at activities and gateways, so each branch writes the
  end event again; a branch that goes straight to the shared event becomes `goto k+1` although no line `k+1` is written, and the importer then
  raises (C113_one_end_event_refuted, C113_readable_again_refuted).
* A direct flow that is not the last branch of its block (C114): the importer replaces the jump by a new flow that is appended to the outgoing flows
  of the gateway, so the direct flow comes last in the loaded diagram and the branches behind it have other letters in the next file
  (C114_letters_kept_refuted).
* A decision whose default flow is the direct flow (C116): the exporter writes "else" only for a default branch with a node of its own, so the jump
  has no condition and the importer makes an inclusive gateway (C116_default_kept_refuted).
* Trips through CSV after the first (C115, C116): the exporter does not write the conditions the importer stored, so from the second file on every
  gateway that splits is parallel, and an optional step is done always (C116_decisions_lost).  The numbers of the nodes may change once more between
  the first and the second loaded diagram (C115_numbers_kept_refuted); after that nothing changes (C115_stable).
* Complex and event-based gateways are routed like tasks, diagonally (C30); a flow into an
  element placed earlier may point to the left (C31).

XML
* Lost on export and import: the id of a lane set (read back as the empty string), lanes inside
  lanes (C37), the name of a process (C36), the orientation of a pool without a process (C73),
  the name of a flow that has a condition (C45).
* A condition with empty text is written but makes the file unloadable (C74_empty_condition_refuted);
  so does every comment or processing instruction in a walked element (C43) and every empty
  `<incoming/>` (C72).
* A flow that is read before the node it leads to is not registered in the node's lists (C41).
* A node without a process, a flow without waypoints, and a shape for a node that is only
  mentioned raise `KeyError` (C72, C74). In particular no diagram loaded from CSV that has a flow can be
  exported with positions (C55).
* A node whose type is `incoming`, `outgoing` or the like makes the indentation significant (C38).
* `export_xml_file_no_di` writes every node into every process and again inside subprocesses (C40),
  and its files cannot be loaded at all (C75).

CSV
* The name of the end event is lost on import (C59); names with commas are written unquoted (C61).
* A goto row with two incoming flows leaves a dangling flow (C50); a goto loop to the previous row shares
  one edge with the flow it follows (C67).
* The merge of a nested split drops the outer prefix of the label (C52).
* The nodes made for splits and joins are not listed in the process (C54).
* A task with two outgoing flows is exported as rows that cannot be loaded (C69).

* A block at the end of a branch of another block makes the export repeat everything behind the outer
  block in the numbering of the branch, and the condition of a branch that starts with a block is not
  written (C81).
* Exported blocks that stand next to each other give a file the importer rejects; what follows a nested
  block is not connected to it after loading; a branch of eleven rows gets an extra flow from the gateway to
  its last row, because the importer compares orders as prefixes; an exclusive gateway with free-text
  conditions comes back as an inclusive one (C82).
* The gateway where branches meet copies the kind of the opening gateway only if the opening row
  is listed before the branches; otherwise it is inclusive (C88).
* The condition of a goto row is lost: the redirected flow carries the condition of the row it leads to
  (C86). A task repeated until it works (`goto` the task just before the split) has two opposite flows on one
  edge. A block whose branches all end in `goto` makes the import fail with `IndexError`. Two branches with the
  same goal leave one flow identifier twice in the list of the gateway.
* A block inside a branch, with no row behind the outer block, can make a table without goto rows describe a
  loop: the inner branch continues at the number after the inner block (C84).

Typed classes
* `set_id(None)`, `set_message_ref(None)` and `set_condition_expression(None)` store None and then
  raise (C62). The type of the target of a flow is never checked (C64).
* Lists are kept by reference (C77). Flow nodes derive from a second copy of `FlowElement`, so no process
  accepts them (C78).

Pictures
* The graph is undirected, so the arrows of `bpmn_diagram_to_png` start at the node that was added first,
  whatever the direction of the flow (C80).
* `visualize_diagram` draws no shape for five of the node types an XML file may contain (C79).

## 7. Testing the theorems

`seeded/LOG.jsonl` records wrong variants of the model (made in a scratch copy) with the theorems that
stop proving, and the theorems that were added or tightened because a variant got through.

## 8. Results per property

* **C01** proved: `C01_add_node_exact`.
* **C02** proved: `C02_add_flow_exact`.
* **C03** proved: `C03_bookkeeping_invariant`, `C03_nodes_complete`.
* **C04** partial: `C04_live_flow_found`, `C04_other_ids_not_found`, `C04_retrieval_distinct_pairs`, `C04_retrieval_refuted`, `C04_orientation_refuted`. Holds for every history in which no two flows connect the same unordered pair (C04_retrieval_distinct_pairs), and C04_live_flow_found/C04_other_ids_not_found say exactly which ids are found in all histories; the unrestricted claim is false of the code (C04_retrieval_refuted, C04_orientation_refuted).
* **C05** proved: `C05_get_all_nodes`, `C05_get_nodes_by_type`, `C05_id_list`, `C05_get_node_by_id`, `C05_untyped_raises`.
* **C06** proved: `C06_nodes_by_process`, `C06_flows_exactly_once`, `C06_flows_by_process`.
* **C07** partial: `C07_bad_direction_raises`, `C07_bad_direction_frame`, `C07_atomic_refuted`. The raise is proved for all states; the claim that the diagram is unchanged is false of the code (C07_atomic_refuted: the node stays); C07_bad_direction_frame says exactly what remains.
* **C08** proved: `C08_start_definitions`, `C08_end_definitions`.
* **C09** partial: `C09_unknown_end_raises`, `C09_atomic_refuted`. The raise is proved for all states; the claim that the diagram is unchanged is false of the code (C09_atomic_refuted).
* **C10** proved: `C10_create_discards`.
* **C11** proved: `C11_add_process`.
* **C12** proved: `C12_positions`.
* **C13** proved: `C13_count_metrics`, `C13_type_count`, `C13_number_unique`, `C13_untyped_raises`.
* **C14** partial: `C14_default_count_zero`, `C14_default_count_refuted`. False of the code: C14_default_count_zero shows that the default count is 0 on every diagram whose nodes all have a type; C14_default_count_refuted is the counterexample to the English claim.
* **C15** proved: `C15_gateway_heterogeneity`.
* **C16** proved: `C16_durfee`, `C16_durfee_others`.
* **C17** proved: `C17_perfect`.
* **C18** proved: `C18_network_complexity`, `C18_histories_wellformed`.
* **C19** proved: `C19_average_gateway_degree`, `C19_handshake`.
* **C20** proved: `C20_count_segments`, `C20_no_waypoints_raises`. Coordinates are exact rationals; the float parser is an arbitrary partial function.
* **C21** proved: `C21_intersection`.
* **C22** proved: `C22_crossing_count`, `C22_count_determined`, `C22_order_irrelevant`. The number of crossings is specified by counting index pairs; C22_count_determined says the count is unique.
* **C23** proved: `C23_terminates`, `C23_longest_path`, `C23_api_diagrams_consistent`, `C23_self_loop_refuted`, `C23_parallel_flows_refuted`. Proved without self-loops, as claimed. C23_self_loop_refuted shows the restriction is needed, C23_parallel_flows_refuted that API diagrams with two flows over one pair make it raise TypeError.
* **C24** proved: `C24_terminates`, `C24_most_activities`, `C24_bounds_full_paths`, `C24_full_path_refuted`. Exact maximum over all simple paths from a source; C24_full_path_refuted shows that the maximum may be reached only by a path that stops inside a loop.
* **C25** proved: `C25_classification`.
* **C26** proved: `C26_api_diagrams_coherent`, `C26_topological_order`, `C26_acyclic_no_backward`. Stated for coherent diagrams of laid out types; C26_api_diagrams_coherent shows that every API history whose flows join distinct pairs gives one.
* **C27** partial: `C27_terminates_iff`, `C27_no_other_failure`, `C27_termination_refuted`. C27_terminates_iff: on coherent diagrams the sort returns iff no cycle avoids the Joins; the unrestricted claim is false of the code (C27_termination_refuted).
* **C28** proved: `C28_no_overlap`.
* **C29** proved: `C29_exactly_one_position`, `C29_only_drawing`, `C29_only_classified_types`.
* **C30** partial: `C30_exact_route`, `C30_waypoints`, `C30_every_gateway_refuted`. C30_exact_route gives every waypoint. The rest is proved for the three gateway types the code routes; for the other two the axis-parallel part is false of the code (C30_every_gateway_refuted).
* **C31** partial: `C31_single_predecessor`, `C31_placed_before`, `C31_no_splits`, `C31_all_flows_refuted`. Proved for every flow whose source is placed before its target, exactly one column for targets that are not Joins, and for all flows of acyclic diagrams without splits; false of the code for all flows of acyclic diagrams (C31_all_flows_refuted).
* **C32** partial: `C32_occupied_raises`, `C32_free_appends`, `C32_makes_room_refuted`. False of the code: C32_occupied_raises for every grid; C32_free_appends is the part that holds.
* **C33** proved: `C33_linear_layout`.
* **C34** proved: `C34_nodes`, `C34_flow_lists`, `C34_subprocess`, `C34_same_nodes`. C34_nodes, C34_flow_lists, C34_subprocess and C34_same_nodes, for every diagram that satisfies storable (the well-formedness named in the quantifier).
* **C35** proved: `C35_flows`, `C35_same_connections`. C35_flows and C35_same_connections.
* **C36** partial: `C36_processes`, `C36_same_processes`, `C36_name_refuted`. Everything but the name is kept (C36_processes, C36_same_processes); the name is false of the code: it is always read back as the empty string (C36_processes, C36_name_refuted).
* **C37** partial: `C37_lanes`, `C37_flat_lanes`, `C37_no_lanes`, `C37_nested_refuted`. C37_lanes, C37_flat_lanes and C37_no_lanes for lanes that share their id with nothing else that is drawn; lanes inside lanes are false of the code (C37_nested_refuted).
* **C38** proved: `C38_exported`, `C38_written`, `C38_exported_refuted`, `C38_structure`, `C38_loading`, `C38_writing`. C38_structure for every tree; C38_exported for every export of a diagram without nodes of the four types whose elements are read as text (C38_exported_refuted shows why).
* **C39** proved: `C39_nodes`, `C39_flows`, `C39_messages`. C39_nodes, C39_flows, C39_messages; pools and lanes are in C73 and C37.
* **C40** partial: `C40_written`, `C40_nodes_once`, `C40_flows_once`, `C40_single_process`, `C40_two_processes_refuted`, `C40_nested_refuted`. C40_written says what every process of the file contains; C40_nodes_once and C40_flows_once say exactly which nodes and flows are written once (one process, not in a subprocess), C40_single_process gives the order; the unrestricted claim is false of the code (C40_two_processes_refuted, C40_nested_refuted).
* **C41** proved: `C41_registered_at_both_ends`, `C41_outgoing_lists`, `C41_incoming_lists`, `C41_any_declared_ends_refuted`. C41_registered_at_both_ends and the two list theorems. The document's own listing may repeat an id; the import never adds a second copy. The endpoints must be declared in the scope of the flow, as stated; C41_any_declared_ends_refuted shows why.
* **C42** proved: `C42_nodes`, `C42_declared`. C42_nodes says exactly which ids are nodes; C42_declared that each declared id has the type and attributes of one of its elements.
* **C43** partial: `C43_comments_fail`, `C43_comments_below_root`, `C43_comments_ignored_refuted`. The claim is false of the code (C43_comments_ignored_refuted). C43_comments_fail: a comment in any of the walked elements makes loading fail; C43_comments_below_root: comments directly below the root are ignored.
* **C44** proved: `C44_attributes`. C44_attributes, for every kind of element.
* **C45** partial: `C45_name_kept`, `C45_name_overwritten`, `C45_name_refuted`. C45_name_kept for flows without a condition; false of the code for the others (C45_name_overwritten, C45_name_refuted).
* **C46** proved: `C46_sequence_successor`, `C46_one_reading`.
* **C47** proved: `C47_split_successors`, `C47_other_orders`. Stated for orders without characters that are special in patterns: the code puts the order into a pattern unescaped.
* **C48** proved: `C48_gateway_type`. Stated for the type chosen from the rows of the branches and their stripped conditions.
* **C49** proved: `C49_linear_table`.
* **C50** partial: `C50_flows_consistent`, `C50_every_table_refuted`. Proved for every table without goto rows; false of the code for goto rows with two incoming flows (C50_every_table_refuted).
* **C51** proved: `C51_dead_row`, `C51_names_the_first_dead_row`, `C51_success`. Stated for distinct orders of the documented form; C51_success is the exact converse for tables without goto rows.
* **C52** partial: `C52_merge_candidates`, `C52_keeps_prefix_refuted`, `C52_nested_merge_refuted`. C52_merge_candidates gives the candidates of every branch label; keeping the outer prefix is false of the code (C52_keeps_prefix_refuted) and makes rows unreachable (C52_nested_merge_refuted).
* **C53** proved: `C53_no_pass_through_gateways`. Every table, including goto rows, whenever loading succeeds.
* **C54** partial: `C54_process_lists_rows`, `C54_lists_its_nodes_refuted`. False of the code (C54_lists_its_nodes_refuted); C54_process_lists_rows says what is listed instead.
* **C55** partial: `C55_export_without_di`, `C55_export_with_di`, `C55_export_refuted`. C55_export_without_di: every table that loads gives a diagram that export_xml_file_no_di writes. The part about export_xml_file is false: C55_export_with_di shows it raises KeyError waypoints exactly when there is a flow; C55_export_refuted is the counterexample.
* **C56** proved: `C56_rows_kept`, `C56_clean_orders`, `C56_trimmed_unique`, `C56_every_row_kept_refuted`. C56_every_row_kept_refuted shows that the stripped orders have to be distinct.
* **C57** proved: `C57_one_entry`, `C57_nothing_written`. Every diagram; C57_nothing_written says that no file is written in the failing case.
* **C58** proved: `C58_chain`. Chains of every length.
* **C59** partial: `C59_chain_round_trip`, `C59_identity_refuted`. Proved for names that pandas reads back verbatim and that do not start with goto; the identity is false of the code because the name of the end event is lost (C59_identity_refuted).
* **C60** proved: `C60_never_exported`, `C60_index_error`. C60_never_exported for every straight way to the split; C60_index_error is exact for branches that are end events.
* **C61** partial: `C61_file`, `C61_six_fields`, `C61_every_name_refuted`. C61_file for every diagram, C61_six_fields for names without commas and line breaks; false of the code otherwise (C61_every_name_refuted).
* **C62** partial: `C62_accepted`, `C62_every_setter_has_a_getter`, `C62_refused_partial`, `C62_none_is_stored`, `C62_refused_refuted`. C62_accepted and C62_refused_partial give the claim for all classes, worlds and values, except None given to set_id, set_message_ref and set_condition_expression, where the code stores None and then raises (C62_none_is_stored, C62_refused_refuted).
* **C63** proved: `C63_always_valid`, `C63_enumerations`. C63_always_valid covers every getter of every class after any program, not only the two enumerations.
* **C64** partial: `C64_constructed_iff`, `C64_refused_unchanged`, `C64_ends_returned`, `C64_strings_refuted`. C64_constructed_iff says exactly which arguments are accepted; the claim about the target is false of the code (C64_strings_refuted).
* **C65** partial: `C65_acyclic_success_refuted`, `C65_only_the_grid_fails`. False of the code (C65_acyclic_success_refuted); C65_only_the_grid_fails is the part that holds; C95 says which diagrams the grid accepts.
* **C66** proved: `C66_nodes_and_flows`, `C66_row_elements`, `C66_split_type`. Stated against the specification in SpecFlow.v.
* **C67** partial: `C67_edges_of_flows`, `C67_flow_of_edge`, `C67_every_flow_has_its_edge_refuted`. Proved for every table without goto rows; false of the code for goto loops to the previous row (C67_every_flow_has_its_edge_refuted).
* **C68** proved: `C68_orders`. Every diagram whose export succeeds.
* **C69** partial: `C69_documented`, `C69_loads_iff`, `C69_every_export_loads_refuted`. C69_loads_iff says exactly which exported files load when there are no goto rows; the unrestricted claim is false of the code (C69_every_export_loads_refuted).
* **C70** proved: `C70_process_lists`, `C70_subprocess_lists`. C70_process_lists, C70_subprocess_lists.
* **C71** proved: `C71_flows`, `C71_any_flow_refuted`. C71_flows; the version without the condition on the pair is C71_any_flow_refuted.
* **C72** proved: `C72_loads_iff`. C72_loads_iff, both directions.
* **C73** partial: `C73_collaboration`, `C73_no_collaboration`, `C73_messages`, `C73_diagram_attributes`, `C73_black_box`, `C73_orientation_refuted`. C73_collaboration, C73_no_collaboration, C73_messages, C73_diagram_attributes; the orientation of a pool without a process is false of the code (C73_black_box, C73_orientation_refuted).
* **C75** partial: `C75_never_loads`, `C75_loads_refuted`. False of the code: C75_never_loads shows that loading raises IndexError for every such file and changes nothing; C75_loads_refuted is the counterexample to the English claim.
* **C74** proved: `C74_saved_and_loaded`, `C74_same_diagram`, `C74_empty_condition_refuted`. C74_saved_and_loaded and C74_same_diagram for every diagram that satisfies storable, complete, writable and rereadable; C74_empty_condition_refuted shows why conditions must not be empty.
* **C76** proved: `C76_can_be_saved`, `C76_everything_kept`, `C76_process_name_lost`, `C76_not_created_refuted`, `C76_no_process_refuted`, `C76_unknown_process_refuted`. C76_can_be_saved and C76_everything_kept for all proper call histories; C76_process_name_lost for the name of a process. C76_not_created_refuted, C76_no_process_refuted and C76_unknown_process_refuted show that no hypothesis can be dropped.
* **C77** partial: `C77_lists_partial`, `C77_lists_refuted`. C77_lists_partial for all programs that append to no list; false with aliasing (C77_lists_refuted).
* **C78** partial: `C78_flow_nodes_refused`, `C78_sequence_flows_accepted`, `C78_process_holds_task_refuted`. False of the code: C78_flow_nodes_refused shows that every list with a flow node is refused (C78_process_holds_task_refuted is the witness); C78_sequence_flows_accepted is the half that holds.
* **C79** partial: `C79_can_be_drawn`, `C79_shapes`, `C79_labels`, `C79_lines`, `C79_histories`, `C79_every_node_refuted`. C79_can_be_drawn, C79_shapes, C79_labels, C79_lines for all diagrams, C79_histories for all proper call histories; that every node gets a shape is false of the code for five node types (C79_every_node_refuted).
* **C80** partial: `C80_nodes`, `C80_arrows`, `C80_direction`, `C80_arrows_refuted`. C80_nodes and C80_arrows say exactly what is in the picture; the direction is false of the code: C80_direction says exactly which arrows point the wrong way, C80_arrows_refuted is the counterexample.
* **C81** partial: `C81_lines`, `C81_one_line_each_refuted`, `C81_conditions_kept_refuted`. C81_lines gives the exact lines for every structure whose meeting branches are empty or end with an activity; one line per activity is false without that (C81_one_line_each_refuted), and the condition of a branch that starts with a block is lost (C81_conditions_kept_refuted).
* **C82** partial: `C82_round_trip`, `C82_conditions`, `C82_gateways`, `C82_parallel`, `C82_kinds_kept_refuted`, `C82_adjacent_blocks_refuted`, `C82_nested_blocks_refuted`, `C82_long_branch_refuted`, `C82_meeting`. C82_round_trip, C82_conditions, C82_gateways, C82_parallel and C82_meeting hold for flat structures; nested blocks, adjacent blocks and branches of more than ten rows do not come back (C82_nested_blocks_refuted, C82_adjacent_blocks_refuted, C82_long_branch_refuted), nor do the kinds of gateways (C82_kinds_kept_refuted).
* **C83** proved: `C83_laid_out_and_saved`, `C83_ready_for_layout`, `C83_table_saved`, `C83_linear_table`, `C83_api_saved`. C83_laid_out_and_saved is for every diagram; C83_table_saved and C83_linear_table are for tables without goto rows; C83_api_saved is for diagrams built with the API.
* **C84** partial: `C84_no_loops`, `C84_layout_order`, `C84_no_nesting`, `C84_no_loops_refuted`. C84_no_loops and C84_layout_order need that a block with a block inside is followed by a row (C84_no_nesting needs nothing); without it a loop is possible (C84_no_loops_refuted).
* **C85** partial: `C85_csv`, `C85_picture`, `C85_api`, `C85_on_canvas`, `C85_off_canvas`, `C85_always_on_canvas_refuted`, `C85_nested_refuted`, `C85_stopping_refuted`. C85_picture, C85_api, C85_csv and C85_on_canvas hold for blocks that are not nested and whose branches are non-empty and all meet; with nested blocks or stopping branches the layout may raise (C85_nested_refuted, C85_stopping_refuted), and four branches never fit on the canvas (C85_off_canvas, C85_always_on_canvas_refuted).
* **C86** partial: `C86_nodes_and_flows`, `C86_row_elements`, `C86_edges`, `C86_loads`, `C86_condition_refuted`, `C86_every_edge_refuted`, `C86_gotos_load_refuted`, `C86_same_goal_refuted`. C86_nodes_and_flows, C86_row_elements, C86_edges and C86_loads hold for goto rows that can be followed one by one (neat_jumps in SpecGoto.v); C86_condition_refuted, C86_every_edge_refuted, C86_gotos_load_refuted and C86_same_goal_refuted are the counterexamples to the full claim.
* **C87** proved: `C87_metrics`, `C87_lines`, `C87_longest_paths`, `C87_call_order`, `C87_path_refuted`, `C87_saved`, `C87_saved_api`, `C87_laid_out`. Longest paths: for consistent diagrams without self-loops (for saved diagrams also: all nodes in processes, message flows with their target). C87_path_refuted shows that only the length, not the path, is independent of the order of calls.
* **C88** partial: `C88_like_its_split`, `C88_kind`, `C88_otherwise`, `C88_any_order_refuted`. C88_like_its_split, C88_kind and C88_otherwise determine the kind in all cases; that it does not depend on the order of the rows is false (C88_any_order_refuted).
* **C89** proved: `C89_left_to_right`, `C89_one_split`, `C89_fan`, `C89_nested`, `C89_sibling_splits_fail`. C89_fan gives the picture, C89_nested what happens behind another Split; C89_one_split and C89_sibling_splits_fail say which diagrams are never laid out.
* **C90** partial: `C90_loop_closed_by`, `C90_order_found`, `C90_only_the_grid_fails`, `C90_split_loops_fail`, `C90_loops_refuted`. C90_order_found and C90_only_the_grid_fails are the positive part, C90_split_loops_fail the negative one; that every loop can be laid out is false (C90_loops_refuted). Which of the remaining diagrams the grid accepts is answered by C95.
* **C91** partial: `C91_ready_for_layout`, `C91_layout_order`, `C91_table_saved`, `C91_jump_from_branch_fails`, `C91_layout_order_refuted`. C91_ready_for_layout, C91_layout_order and C91_table_saved are the positive part. C91_layout_order_refuted: back to the start, the layouter runs forever; C91_jump_from_branch_fails: straight back from the first row of a branch, it always raises.
* **C92** proved: `C92_same_picture`, `C92_again`, `C92_call_order`, `C92_node_order_refuted`. Outcome, positions and waypoints; C92_again is exact equality of the diagrams. C92_node_order_refuted shows that the order within a type matters, which is why the statement asks for it.
* **C93** proved: `C93_document_order`, `C93_saved_order`, `C93_saved_picture`, `C93_picture_kept`, `C93_saved_api`, `C93_two_processes_refuted`. C93_document_order for every document; the statements about saving ask for one process without nested nodes and no message flows, and C93_two_processes_refuted shows why.
* **C94** proved: `C94_branch_order`, `C94_structure`, `C94_second_export`, `C94_stable`, `C94_decisions_lost`, `C94_file_kept_refuted`. The order of branches holds for every documented table without jumps; the statements about the second and third file are for flat processes as in C82.
* **C95** partial: `C95_outcome`, `C95_sequences`, `C95_equal_depth_fails`, `C95_side_by_side_refuted`. C95_outcome decides every diagram in its class, C95_sequences and C95_equal_depth_fails are consequences. Joins directly after splits (empty branches) are covered by C96. That diagrams laid out alone can be laid out together is false (C95_side_by_side_refuted).
* **C96** proved: `C96_outcome`, `C96_acyclic`, `C96_skipping_branch`. C96_outcome is an equivalence for every diagram whose loops contain a join (the others never terminate, C27). C96_acyclic replaces the existence of the sequence by a condition on the flows alone for diagrams without loops. C96_skipping_branch generalises the counterexample C31_all_flows_refuted to all diagrams with such a branch.
* **C97** proved: `C97_picture`, `C97_api`, `C97_drift`, `C97_off_canvas`, `C97_on_canvas`. C97_picture contains C85_picture (blocks without direct flows) as a special case. A direct flow beside a branch of two or more activities is excluded here and treated by C96_skipping_branch.
* **C98** proved: `C98_metrics`, `C98_api`, `C98_free_of_crossings`. The expected reading of the metric, no crossings for a process drawn without any, is false of the code for every process with a block: C98_free_of_crossings. Blocks with a direct flow are not covered.
* **C99** proved: `C99_longest_path`, `C99_most_activities`, `C99_counts`, `C99_network_complexity`, `C99_gateway_degree`. The recursion limit of Python is fuel.
* **C100** proved: `C100_orientation`, `C100_symmetry`, `C100_determinant`, `C100_no_number`. Floats are exact rationals.
* **C101** proved: `C101_same_file`, `C101_layout`, `C101_saved`, `C101_api`, `C101_laid_out_and_saved`, `C101_condition_refuted`, `C101_two_definitions_refuted`. C101_saved needs no messages, types that the exporter knows, at most one definition per event and names equal to conditions; API diagrams satisfy this. The two _refuted theorems show that the last two conditions are needed.
* **C102** partial: `C102_same_file`, `C102_settled`, `C102_api`, `C102_api_laid_out`, `C102_table`, `C102_goto_table`, `C102_two_definitions_refuted`, `C102_divided_lanes_refuted`, `C102_two_processes_refuted`, `C102_subprocess_refuted`, `C102_messages_refuted`. Proved for diagrams with one process, no subprocess contents, no message flows, undivided lanes and at most one definition per event (simple). Refuted for everything outside: two definitions, divided lanes, two processes, contents of subprocesses (C102_subprocess_refuted) and message flows (C102_messages_refuted). For the last three C103 proves that only the order changes.
* **C103** partial: `C103_second_file`, `C103_third_file`, `C103_settled`, `C103_scopes`, `C103_api`, `C103_api_laid_out`, `C103_crossing_flow_refuted`, `C103_empty_pool_refuted`. Proved for diagrams, also with message flows, whose sequence flows stay inside their process or subprocess and whose pools all have a process (tidy). Refuted when a flow leaves its process (C103_crossing_flow_refuted) and for pools without a process (C103_empty_pool_refuted); divided lanes and events with several definitions are excluded too (refuted in C102).
* **C104** partial: `C104_counts`, `C104_flow_records`, `C104_complexity`, `C104_gateway_degree`, `C104_complexity_refuted`. Proved for every documented table with neat goto rows; the coefficient and the degree also need one_way. Refuted without (C104_complexity_refuted): of two flows back and forth only one is an edge.
* **C105** partial: `C105_loaded_numbers`, `C105_numbers_kept`, `C105_gateway_kinds_refuted`. Proved for flat blocks (C82 is false for nested and adjacent blocks). Refuted for the number of kinds of gateways (C105_gateway_kinds_refuted).
* **C106** proved: `C106_loaded_picture`, `C106_same_picture_numbers`. For structures without nested or adjacent blocks, whose branches all meet again (the domain of C82 and C98).
* **C107** proved: `C107_segments`, `C107_bounds`, `C107_sequences`, `C107_wide_split`, `C107_from_below`, `C107_api`. The numbers are read back exactly (reads_integers); segments and the lower bound hold for every diagram for which generate_layout returns.
* **C108** partial: `C108_without_loops`, `C108_written`, `C108_file_or_endless`, `C108_loop_never_written`, `C108_endless`, `C108_cut`, `C108_api`, `C108_every_diagram_refuted`, `C108_every_activity_refuted`. Proved for all diagrams without loops (C108_without_loops, C108_written, C108_api); with loops C108_file_or_endless leaves an endless recursion, C108_endless shows loops for which it happens (C108_every_diagram_refuted) and C108_cut those whose activities are lost (C108_every_activity_refuted).
* **C109** proved: `C109_lines`, `C109_first`, `C109_api`, `C109_every_activity_refuted`. Soundness of the file for all diagrams that are exported, with and without loops; the converse is refuted in C109_every_activity_refuted (and proved for structured processes in C81).
* **C110** proved: `C110_round_trip`, `C110_conditions`, `C110_gateway_gone`, `C110_condition_refuted`. Nodes, flows, names, kinds and conditions after the round trip are stated exactly; that the meeting gateway disappears (C110_gateway_gone) and that the condition of a direct flow is lost (C110_conditions, C110_condition_refuted) are part of the claim. Restrictions on nesting, neighbouring blocks and length are those of C82, where they are shown to be needed.
* **C111** proved: `C111_csv`, `C111_off_canvas`. Optional steps have one activity, as in C97, and are followed by an activity; a step at the very end is not covered because two flows then enter the end event.
* **C112** proved: `C112_loaded_numbers`, `C112_numbers_compared`. The gateways counted by `lost` do not come back (C110_gateway_gone); the number of gateway kinds is not covered (C105_gateway_kinds_refuted).
* **C113** partial: `C113_lines`, `C113_covers`, `C113_shared_end`, `C113_one_end_event_refuted`, `C113_readable_again_refuted`, `C113_gateway_told_refuted`. C113_lines and C113_covers hold for all such processes, C113_shared_end gives the exact lines for shared end events. False of the code: the file does not tell whether there was a gateway (C113_gateway_told_refuted), a shared end event has a line for each branch with activities and comes back as several events (C113_one_end_event_refuted), and with a branch straight to the shared end event the file has a jump to a missing line and cannot be loaded (C113_readable_again_refuted).
* **C114** partial: `C114_branch_order`, `C114_structure`, `C114_second_export`, `C114_lines_kept`, `C114_letters_kept_refuted`. C114_branch_order gives the exact order of the outgoing flows for all documented tables with jumps: the branches with an element in the order of their rows, then the goals of the jumps. C114_structure and C114_second_export give the exact second file for all such processes, and C114_lines_kept the claim when every direct flow is the last branch. In general the claim is false of the code: a direct flow that is not last moves to the end of its block and the letters of the other branches change (C114_letters_kept_refuted).
* **C115** partial: `C115_stable`, `C115_later_shape`, `C115_numbers_kept_refuted`. C115_stable: all trips succeed and give one and the same second file, for all such processes and any number of trips. C115_later_shape: the nodes and flows of all diagrams loaded from the second file on. The first and the second loaded diagram may differ in their numbers: false of the code if a direct flow is not the last branch (C115_numbers_kept_refuted).
* **C116** partial: `C116_split_type`, `C116_gateways`, `C116_parallel_kept`, `C116_exclusive_kept`, `C116_decisions_lost`, `C116_default_kept_refuted`. C116_split_type holds for all documented tables with jumps, C116_gateways for all processes with optional steps; C116_parallel_kept and C116_exclusive_kept give the kept kinds. False of the code: a decision whose default is the direct flow comes back as an inclusive gateway (C116_default_kept_refuted), and from the second file on every gateway is parallel (C116_decisions_lost).
* **C117** proved: `C117_meeting`, `C117_numbers`, `C117_one_kind`. C117_numbers: the numbers of every diagram in the series are those of the first loaded one (C112 compares that one with the original). C117_meeting: a meeting point is there exactly if two branches with activities meet, and is of the kind of the gateway that opens the block. C117_one_kind: from the second file on all gateways are parallel, the gateway heterogeneity is 1 (0 without blocks).
* **C118** proved: `C118_jumps`, `C118_unknown_goal`, `C118_circle`, `C118_left`, `C118_chains_followed_refuted`. C118_jumps, C118_unknown_goal, C118_circle and C118_left need no shape of the jumps, unlike C86. C118_chains_followed_refuted: that a jump to a later goto row is followed to its end is false when the later row is also reached on its own: the first flow ends at the removed row, and the row behind it has no way in.
* **C119** proved: `C119_picture`, `C119_places`. C119_picture: the picture of every later diagram, also after XML. C119_places: equal cells for all nodes outside the branches and for the activities of optional steps. The branches of a block in which every branch has activities may be drawn in any order (C97), so nothing is claimed for them.
* **C120** proved: `C120_flows_consistent`, `C120_ways`, `C120_two_entries_refuted`. C120_flows_consistent and C120_ways go beyond C86, which excludes jumps to goto rows and to gateways and two jumps from one place to the same goal. C120_two_entries_refuted: with two ways into a goto row a node can list a flow that is gone, see also C50_every_table_refuted and C118_chains_followed_refuted.
* **C121** proved: `C121_no_loops`, `C121_loops_pass_jumps`, `C121_jump_back_refuted`. Extends C84_no_loops to tables with jumps and chains of jumps. C121_loops_pass_jumps: every loop passes the end of a jump that does not lead forward. C121_jump_back_refuted: a jump back makes a loop; C84_no_loops_refuted: so can nested blocks with no row after them.
* **C122** proved: `C122_ready_for_layout`, `C122_coherent_exactly`, `C122_layout_order`, `C122_every_chain_refuted`. Extends C91_ready_for_layout to chains of jumps and jumps to gateways. C122_every_chain_refuted: two branches that jump to the same row make the gateway list a flow twice, and the layout fails.
* **C123** proved: `C123_conditions`, `C123_table_saved`, `C123_both_directions_refuted`. Extends C91_table_saved to chains of jumps and jumps to gateways. C123_both_directions_refuted: where a branch jumps back to the row before the branching, the two flows share an edge, and the flow to the gateway has the condition of the row.

{"id": "C01", "title": "Resistor network bookkeeping stays consistent", "statement": "Starting from an empty ResistorNetwork, after any sequence of node_id, add_cond (between two different existing nodes), name, mark_precious, eliminate_node, remove_node, connect_nodes (of two different existing nodes) and eliminate_all calls, check() returns 0 errors: point->id and id->point tables are mutually inverse, every resistor is stored in both directions with the same conductance and appears in both nodes' star lists exactly once.", "quantifier": "every finite history of operations, all points, node ids and conductance values", "why_tests_cant": "histories are unbounded and tables are updated by in-place edits in several methods; a test checks a handful of histories", "anchors": ["klayout_pex/rcx25/r/resistor_network.py: ResistorNetwork.check, node_id, add_cond, eliminate_node, remove_node, connect_nodes, eliminate_all"]}
{"id": "C02", "title": "Eliminating a node preserves the electrical behaviour seen by the other nodes", "statement": "For a consistent network, if the sum of the conductances at the eliminated node exceeds 1e-10 in magnitude, then for every assignment of voltages to the other nodes the current flowing into each other node after eliminate_node equals its current before, with the eliminated node at the voltage that makes its own net current zero (and that voltage exists and is unique).", "quantifier": "every consistent network, every node, every voltage assignment", "why_tests_cant": "universally quantified over networks of arbitrary size and real-valued voltages", "anchors": ["klayout_pex/rcx25/r/resistor_network.py: ResistorNetwork.eliminate_node, add_cond, remove_node"]}
{"id": "C03", "title": "eliminate_all terminates and leaves only precious nodes connected", "statement": "For every consistent network eliminate_all terminates; afterwards every node that still carries resistors is precious, and every precious node that existed before still exists with its id and location.", "quantifier": "every consistent network, every set of precious nodes", "why_tests_cant": "termination and the exit condition of a nested while loop with a growing degree bound cannot be tested for all graphs", "anchors": ["klayout_pex/rcx25/r/resistor_network.py: ResistorNetwork.eliminate_all"]}
{"id": "C04", "title": "eliminate_all preserves the electrical behaviour of the precious nodes", "statement": "If during eliminate_all no star with total conductance of magnitude <= 1e-10 is discarded, then for every assignment of voltages to the surviving nodes there is an assignment for the eliminated ones, with zero net current at each of those, such that the surviving nodes see the same currents before and after.  Without that proviso the claim is false (refuted by a witness: weak resistors are silently dropped).", "quantifier": "every consistent network, every precious set, every voltage assignment at the surviving nodes", "why_tests_cant": "composition of an unbounded number of eliminations in data dependent order", "anchors": ["klayout_pex/rcx25/r/resistor_network.py: ResistorNetwork.eliminate_all, eliminate_node"]}
{"id": "C05", "title": "connect_nodes is an ideal short circuit", "statement": "connect_nodes(a, b) for different nodes of a consistent network yields the network in which b is gone (if b had any resistor; a node without resistors is left in place) and, for any voltages with v(b)=v(a) before, every other node's current is unchanged and a's current is the sum of the former currents of a and b.", "quantifier": "every consistent network, every pair of different nodes, every voltage assignment", "why_tests_cant": "quantified over arbitrary graphs incl. existing a-b resistors and shared neighbours", "anchors": ["klayout_pex/rcx25/r/resistor_network.py: ResistorNetwork.connect_nodes, add_cond"]}
{"id": "C06", "title": "add_cond combines in parallel and symmetrically", "statement": "After any sequence of add_cond calls on a network, the conductance stored between two different nodes equals the previous value plus the sum of all conductances added between them in either direction, seen identically from both ends; other pairs are unaffected.", "quantifier": "every sequence of add_cond calls, every pair of nodes", "why_tests_cant": "ordering/direction of an unbounded number of calls", "anchors": ["klayout_pex/rcx25/r/resistor_network.py: ResistorNetwork.add_cond", "klayout_pex/rcx25/r/conductance.py: Conductance.add_parallel"]}
{"id": "C07", "title": "Node ids are stable, injective and never reused", "statement": "node_id(p) returns the same id for the same point as long as the node is not removed, different points have different ids, location(node_id(p)) = p, and an id handed out once is never handed out again for a new node, even after removals.", "quantifier": "every history of network operations", "why_tests_cant": "needs an invariant over all histories with removals", "anchors": ["klayout_pex/rcx25/r/resistor_network.py: ResistorNetwork.node_id, location, has_node, remove_node, connect_nodes"]}
{"id": "C08", "title": "Obtuse triangles are split at the foot of the altitude inside the longest side", "statement": "For every non-degenerate triangle on the grid, expand_skinny_tris returns the triangle itself if no corner is obtuse, and otherwise splits the longest side at the foot of the altitude, rounded to the grid, so that the two parts tile the triangle.  (Refuted when the third side is the longest, as the code turns the corner index into a boolean; and for slanted sides, as the rounded point leaves the side.  Proved for the first two sides along an axis; on slanted ones the point is half a unit from the foot in each coordinate at most, which bounds the error of the area.)", "quantifier": "all integer triangles", "why_tests_cant": "one needs all triangles/orientations; the failing case is one of three rotations", "anchors": ["klayout_pex/rcx25/r/resistor_network.py: ResistorNetwork.is_skinny_tri, expand_skinny_tris"]}
{"id": "C09", "title": "Conductance composition laws", "statement": "parallel is commutative and associative with 0 as neutral element; serial of two conductances above the 1e-10 threshold is commutative, associative (when every intermediate value stays above the threshold) and equals the physical series conductance; any value below the threshold gives an open circuit (0); neither operation modifies its arguments.", "quantifier": "all conductance values", "why_tests_cant": "algebraic law over all reals", "anchors": ["klayout_pex/rcx25/r/conductance.py: Conductance.parallel, serial, add_parallel, add_serial, copy"]}
{"id": "C10", "title": "The extraction summary conserves capacitance, pair by pair", "statement": "For every sequence of add_overlap_cap/add_sidewall_cap/add_sideoverlap_cap calls, the summary's capacitance of an unordered net pair is exactly the sum of cap_value over all added caps whose two nets are that pair, in either orientation and on any layers; a pair without caps has no entry; the total over all entries equals the total of all added values.", "quantifier": "every sequence of additions with every key and value", "why_tests_cant": "unbounded sequences and colliding keys", "anchors": ["klayout_pex/rcx25/extraction_results.py: CellExtractionResults.add_overlap_cap, add_sidewall_cap, add_sideoverlap_cap, summarize; ExtractionSummary.merged; NetCoupleKey.normed"]}
{"id": "C11", "title": "The summary does not depend on the order or orientation of contributions", "statement": "Permuting the sequence of added caps, or swapping the two nets of any of them, leaves the summarised value for every pair unchanged; summary keys are always ordered (net1 <= net2) and never duplicated.", "quantifier": "all permutations and orientation swaps of all sequences", "why_tests_cant": "factorially many orders", "anchors": ["klayout_pex/rcx25/extraction_results.py: CellExtractionResults.summarize, NetCoupleKey.normed, ExtractionSummary.merged"]}
{"id": "C12", "title": "Merging summaries is cell-wise addition", "statement": "ExtractionResults.summarize over any number of cells gives for each pair the sum of the cells' summary values; merging is independent of grouping and order, and merging a single already normalised summary is the identity.", "quantifier": "every list of summaries / cells", "why_tests_cant": "unbounded number of cells", "anchors": ["klayout_pex/rcx25/extraction_results.py: ExtractionSummary.merged, ExtractionResults.summarize"]}
{"id": "C13", "title": "Resistances between two nets in the summary", "statement": "For every extraction result the summary entry of a net pair is the sum of the resistances of all elements between nodes of those nets.  A user would expect the resistance of several elements between the same pair of nodes to be their parallel combination: this is refuted (two parallel 2 Ohm elements are reported as 4 Ohm).", "quantifier": "every list of networks, nodes and elements", "why_tests_cant": "unbounded lists; the wrong case needs parallel elements", "anchors": ["klayout_pex/rcx25/extraction_results.py: CellExtractionResults.summarize L196-208"]}
{"id": "C14", "title": "2.5D netlist expansion is faithful to the summary", "statement": "For every extracted netlist and summary, the expanded netlist has exactly one capacitor per capacitance entry and one resistor per resistance entry, connecting the two named nets with the entry's value; every original device is kept except whiteboxed capacitors (and none is removed when devices are blackboxed); every original net is kept; and every net name used by an entry exists.  The device classes of the netlist are kept, and the classes C and R are added.", "quantifier": "every netlist, every summary, both blackbox settings", "why_tests_cant": "quantified over all netlists and summaries", "anchors": ["klayout_pex/rcx25/netlist_expander.py: RCX25NetlistExpander.expand"]}
{"id": "C15", "title": "Overlap capacitance counts each piece of area at most once", "statement": "For one bottom polygon, the overlap areas credited to upper polygons are pairwise disjoint subsets of the bottom polygon, so their total area never exceeds the bottom polygon's area; a point is credited to the first (lowest layer, then visiting order) different-net polygon covering it, provided no specification was missing.", "quantifier": "every polygon neighbourhood over any number of layers", "why_tests_cant": "arbitrary numbers of overlapping polygons", "anchors": ["klayout_pex/rcx25/c/overlap_extractor.py: PEXPolygonNeighborhoodVisitor.neighbors"]}
{"id": "C16", "title": "A missing overlap specification only affects the pair it concerns", "statement": "If no overlap capacitance is specified for one upper layer, the caps to polygons on other layers are still extracted.  Refuted: the visitor returns, dropping every remaining polygon; what does hold is that everything before the first missing specification is extracted as if the rest did not exist.", "quantifier": "every polygon neighbourhood and specification table", "why_tests_cant": "depends on layer order and position of the missing entry", "anchors": ["klayout_pex/rcx25/c/overlap_extractor.py: neighbors L118-125"]}
{"id": "C17", "title": "Fringe capacitance is a well behaved measure of distance", "statement": "For non-negative specs and 0 <= near <= far, fringe_cap is non-negative, zero for near = far, increases with far and with length, decreases with near, is additive when the distance range or the edge interval is split, never exceeds length*C/1000 unscaled, and with halo scaling reaches exactly length*C/1000 for the range from 0 to the halo.  Its value is the share of the arctangent (of the distance in um times a fiftieth of the overlap capacitance) between the near and the far distance, of the whole or of the halo, times the length and the side overlap capacitance.", "quantifier": "all real lengths, distances, halos and specs", "why_tests_cant": "analytic statement over reals", "anchors": ["klayout_pex/rcx25/c/sidewall_and_fringe_extractor.py: PEXEdgeNeighborhoodVisitor.fringe_cap"]}
{"id": "C18", "title": "Sidewall capacitance of two facing edges", "statement": "emit_sidewall adds nothing for equal nets, and otherwise length*C/(distance+offset)/2/1000; the two contributions seen from both edges summarise to the full length*C/(distance+offset)/1000 for the pair; it is positive and decreasing in distance for distance+offset > 0.", "quantifier": "all lengths, distances, specs and net names", "why_tests_cant": "analytic + aggregation statement", "anchors": ["klayout_pex/rcx25/c/sidewall_and_fringe_extractor.py: emit_sidewall", "klayout_pex/rcx25/extraction_results.py: summarize"]}
{"id": "C19", "title": "Fringe shielding uses exactly the layers strictly between", "statement": "For a fringe from layer i to layer k, the shapes considered as shields are exactly those of layers strictly between i and k (in either direction) plus the lateral shield; the inside layer and the outside layer themselves never shield.", "quantifier": "every layer stack size and pair of indices", "why_tests_cant": "index arithmetic over arbitrary stacks", "anchors": ["klayout_pex/rcx25/c/sidewall_and_fringe_extractor.py: on_edge L226-254"]}
{"id": "C20", "title": "The nearest lateral neighbour is the one that counts", "statement": "find_polygon_with_nearest_edge returns for every non-empty list a polygon of the list whose (clamped) distance is minimal, the first such one, and the reported distance is that minimum; the lateral shield distance is the minimum over same-layer and same-polygon neighbours.", "quantifier": "every non-empty list of polygons", "why_tests_cant": "unbounded lists with ties and negative coordinates", "anchors": ["klayout_pex/rcx25/c/polygon_utils.py: find_polygon_with_nearest_edge, nearest_edge_distance", "klayout_pex/rcx25/c/sidewall_and_fringe_extractor.py: on_edge L188-207"]}
{"id": "C21", "title": "Every unshielded fringe polygon contributes", "statement": "emit_fringe adds one cap for every unshielded different-net piece whose capacitance is above 0.0001 fF.  Refuted: a single piece with near = far makes it return and drop all remaining pieces; it holds whenever no such degenerate piece is present.", "quantifier": "every list of outside polygons and shield", "why_tests_cant": "depends on order of pieces", "anchors": ["klayout_pex/rcx25/c/sidewall_and_fringe_extractor.py: emit_fringe L415-466"]}
{"id": "C22", "title": "Averaging makes the capacitance matrix symmetric and changes nothing else", "statement": "For every square matrix averaged_off_diagonals returns a symmetric matrix with the same names and diagonal, whose (i,j) entry is the mean of (i,j) and (j,i); it is idempotent, leaves symmetric matrices unchanged, conserves the sum of all entries and does not modify the original.", "quantifier": "every square matrix of any dimension", "why_tests_cant": "all dimensions", "anchors": ["klayout_pex/common/capacitance_matrix.py: CapacitanceMatrix.averaged_off_diagonals"]}
{"id": "C23", "title": "Capacitance matrix CSV round trip", "statement": "Writing a matrix whose names contain no separator, newline or surrounding blanks and reading it back gives the same names and the same values (up to the '%.12g' formatting, i.e. exactly when the number formatter round-trips), for at least one row.", "quantifier": "every matrix, every separator not occurring in names or number texts", "why_tests_cant": "all sizes and strings", "anchors": ["klayout_pex/common/capacitance_matrix.py: parse_csv, write_csv"]}
{"id": "C24", "title": "The expanded FasterCap netlist realises the Maxwell capacitance matrix", "statement": "For every symmetric matrix with non-positive off-diagonals and non-negative row sums, the capacitors added by NetlistExpander.expand have, for i<j, total capacitance -m[i][j] between nets i and j where j>i>0, and the Maxwell matrix computed from the added capacitors (with net 0 as reference) agrees with the input on every entry with i,j > 0.", "quantifier": "every matrix dimension and values", "why_tests_cant": "all dimensions", "anchors": ["klayout_pex/klayout/netlist_expander.py: NetlistExpander.expand"]}
{"id": "C25", "title": "No parasitic capacitor is invented", "statement": "Every capacitor the FasterCap expander adds has strictly positive capacitance and connects two different nets that are named by the matrix axes; in blackbox mode every original device is kept, otherwise all devices are removed; two zero-ohm resistors tie FC_GND and VSUBS to GND and exactly one GND net exists if there was at most one.", "quantifier": "every netlist and matrix for which expand returns", "why_tests_cant": "all netlists", "anchors": ["klayout_pex/klayout/netlist_expander.py: NetlistExpander.expand, add_parasitic_cap"]}
{"id": "C26", "title": "Netlist reduction removes exactly the small capacitors", "statement": "NetlistReducer.reduce returns the combined netlist without exactly those capacitors of the top circuit whose value is below the threshold; all other devices keep order and values; reducing again with the same threshold changes nothing further (given an idempotent combine_devices).", "quantifier": "every netlist and threshold", "why_tests_cant": "all netlists", "anchors": ["klayout_pex/klayout/netlist_reducer.py: NetlistReducer.reduce"]}
{"id": "C27", "title": "The last capacitance matrix of a FasterCap log is parsed", "statement": "For every log text that ends with a complete matrix block (header, dimension line, n rows) possibly followed by lines not containing another header, and preceded by anything, the parser returns that block's names and values divided by 1e6, in order.", "quantifier": "every log prefix, every number of previous iterations, every matrix", "why_tests_cant": "unbounded logs", "anchors": ["klayout_pex/fastercap/fastercap_runner.py: fastercap_parse_capacitance_matrix"]}
{"id": "C28", "title": "A truncated FasterCap log is rejected", "statement": "A log whose last matrix block lacks rows (crashed solver) raises an exception.  Refuted: list indices become negative and wrap around, so lines from the top of the file can be returned as matrix rows.", "quantifier": "every crash point while the log is being written", "why_tests_cant": "every truncation point of every log", "anchors": ["klayout_pex/fastercap/fastercap_runner.py: fastercap_parse_capacitance_matrix L113-125"]}
{"id": "C29", "title": "Sweep state equals the material actually present", "statement": "While the generated model is swept in z, after finishing level z the tracked region of a net or material is exactly the set of points covered by some layer added under that name whose z-interval [start, stop) contains z, minus all points claimed by a name of higher priority (nets in order of addition, then materials in order of declaration).", "quantifier": "every set of layers, every z level, every point", "why_tests_cant": "arbitrary overlaps and events at equal z", "anchors": ["klayout_pex/fastercap/fastercap_model_generator.py: FasterCapModelBuilder.generate, FasterCapModelGenerator.finish_z, _merge_events"]}
{"id": "C30", "title": "Regions of different nets and materials never overlap", "statement": "After every finish_z, the tracked regions of any two different names are disjoint, so the built-in overlap self-check never reports an error, and every point covered by any layer is owned by exactly one name.", "quantifier": "every set of layers, every z level, every point", "why_tests_cant": "arbitrary overlaps", "anchors": ["klayout_pex/fastercap/fastercap_model_generator.py: finish_z L461-468"]}
{"id": "C31", "title": "Horizontal surfaces separate what is really there", "statement": "At each z and point, the generator emits a horizontal surface iff the owner below and the owner above differ, exactly once, labelled with the owner below and the owner above (conductor surfaces oriented outwards).  Known exception to be settled: hand-over between two higher priority owners while a lower priority material is present on both sides.", "quantifier": "every set of layers, every z level, every point", "why_tests_cant": "arbitrary overlaps", "anchors": ["klayout_pex/fastercap/fastercap_model_generator.py: finish_z L470-525, generate_hdiel, generate_hcond_in, generate_hcond_out"]}
{"id": "C32", "title": "Vertical surfaces separate what is really there", "statement": "Between two consecutive z levels, along every boundary position, a vertical surface is emitted iff the owners to the left and right differ; a dielectric-dielectric boundary is emitted exactly once with both materials, a conductor boundary to a dielectric or void once with conductor and outside material, and a boundary between two nets once per net.", "quantifier": "every state and every boundary position", "why_tests_cant": "arbitrary adjacent regions", "anchors": ["klayout_pex/fastercap/fastercap_model_generator.py: next_z L538-580"]}
{"id": "C33", "title": "Combining dielectric surfaces with their reverse loses nothing", "statement": "finalize keeps for every unordered pair of materials at most one orientation key, and every triangle is present exactly once, either as is under its key or point-reversed under the reversed key.", "quantifier": "every collection of dielectric surfaces", "why_tests_cant": "dict-order dependent", "anchors": ["klayout_pex/fastercap/fastercap_model_generator.py: finalize L720-736"]}
{"id": "C34", "title": "The FasterCap list file collates conductors per net", "statement": "write_fastcap writes every non-empty surface to exactly one file; file numbers are consecutive and unique; all files of one net carry the same conductor number, different nets different numbers, disjoint from dielectric numbers; within a net all but the last entry carry '+', and only the last file renames the conductor to the net name.", "quantifier": "every collection of surfaces", "why_tests_cant": "all numbers of nets and surfaces", "anchors": ["klayout_pex/fastercap/fastercap_model_generator.py: write_fastcap, _write_fastercap_geo"]}
{"id": "C35", "title": "Distinct surfaces never share a geometry file", "statement": "The file names generated by write_fastcap are pairwise different, even when long net names are shortened, and a shortened name fits the file system limit whenever prefix and hash leave room.", "quantifier": "every set of net names and limits", "why_tests_cant": "adversarial net names", "anchors": ["klayout_pex/fastercap/fastercap_model_generator.py: write_fastcap L803-810"]}
{"id": "C36", "title": "The surface self-check ends and accepts only matched edges", "statement": "_check_tris always ends without an exception. It returns 0 only if no directed edge occurs twice and every proper edge consists of pieces, in its direction, that edges of the surface run over backwards. It does return 0 for every duplicate-free surface whose edges are matched up to T-junctions. (That it returns 0 only for closed surfaces is false: an extra triangle along finer matched edges passes.)", "quantifier": "every list of triangles", "why_tests_cant": "geometry over all triangle soups; termination of a while True loop", "anchors": ["klayout_pex/fastercap/fastercap_model_generator.py: _check_tris, _normed_edges, _split_edges, _is_antiparallel"]}
{"id": "C37", "title": "z rounding preserves order and adjacency", "statement": "Normalising z coordinates to the database unit is monotone, maps exact multiples to themselves, never moves a coordinate up by more than 1e-6 units or down by one unit or more; layers thinner than that vanish from the model.", "quantifier": "all z, heights and dbu", "why_tests_cant": "rounding over reals", "anchors": ["klayout_pex/fastercap/fastercap_model_generator.py: _z2norm, _norm2z, _add_layer"]}
{"id": "C38", "title": "The FasterCap sidewall chain terminates", "statement": "Building the FasterCap input terminates for every technology whose layer names are distinct, and for every technology whose dielectric references are acyclic. For each metal it adds one dielectric per element of its chain of references, in order, each around and at least as high as the one before. With two layers of the same name a cycle can be reached from a metal, and then the loop never ends.", "quantifier": "every technology description", "why_tests_cant": "non-termination is not observable by tests", "anchors": ["klayout_pex/fastercap/fastercap_input_builder.py: build L257-305", "klayout_pex/tech_info.py: sidewall_dielectric_layer"]}
{"id": "C39", "title": "Overlap specification lookup", "statement": "For every technology, overlap_cap_by_layer_names[top][bot] is the last explicit overlap entry for that pair, and [layer][VSUBS] is the substrate area capacitance of the last substrate entry of the layer unless an explicit overlap overrides it; pairs without entries are absent.", "quantifier": "every technology description", "why_tests_cant": "all tables with duplicates", "anchors": ["klayout_pex/tech_info.py: overlap_cap_by_layer_names, substrate_cap_by_layer_name"]}
{"id": "C40", "title": "Side overlap specification lookup", "statement": "side_overlap_cap_by_layer_names[in][out] is the last explicit entry, plus the substrate perimeter capacitance under VSUBS; a technology whose side overlap table mentions a layer without substrate entry makes the lookup fail (KeyError) although the analogous overlap lookup succeeds.", "quantifier": "every technology description", "why_tests_cant": "all tables", "anchors": ["klayout_pex/tech_info.py: side_overlap_cap_by_layer_names"]}
{"id": "C41", "title": "Include/exclude patterns", "statement": "For every accepted pattern, filter keeps the order and multiplicity of choices and keeps a choice iff is_included says so when the pattern has 'all' or 'none'; 'all,-x' keeps everything except x, 'none,+x' only x; contradictory patterns are rejected.  For patterns with neither, filter and is_included disagree (refuted), and choices with upper-case letters can never be named.", "quantifier": "every pattern string and list of choices", "why_tests_cant": "all strings", "anchors": ["klayout_pex/util/multiple_choice.py: MultipleChoicePattern"]}
{"id": "C42", "title": "Boolean command line values", "statement": "true_or_false accepts exactly yes/true/t/y and no/false/f/n in any letter case (and booleans), maps them to the right truth value, never both, and rejects everything else; '1' and '0', which the source lists, are rejected (refuted).", "quantifier": "every argument string", "why_tests_cant": "all strings", "anchors": ["klayout_pex/util/argparse_helpers.py: true_or_false"]}
{"id": "C43", "title": "The LVS database that is used belongs to the present layout", "statement": "A run that calls LVS uses a database of the chosen cell of the layout and of the schematic as they were at some moment of that run, whatever files earlier runs left and whatever the user edits meanwhile.  With the cache, in every history of runs, edits and kills in which no two inputs share a run directory, edits get the current time, inputs are not edited while they are being extracted, and LVS writes its report, every run uses a database of the present layout.  Refuted without these conditions: inputs of the same name in different directories (default settings), a failing LVS (no cache needed), a new output directory, an edit during LVS, a kept modification time, and a changed schematic.", "quantifier": "every history of runs, edits, kills and clock values, every file system", "why_tests_cant": "histories, crash points and timing", "anchors": ["klayout_pex/kpex_cli.py: create_lvsdb, validate_args", "klayout_pex/klayout/lvs_runner.py: run_klayout_lvs"]}
{"id": "C44", "title": "Shape conversion round trip", "statement": "Converting a region from protobuf to KLayout and back preserves the polygons with their order, hull points and net names, for every region of polygons in KLayout's normal form; so does the way from KLayout to protobuf and back for polygons without holes.  Refuted for polygons with holes: the hole is filled.", "quantifier": "every region", "why_tests_cant": "all polygons and nets", "anchors": ["klayout_pex/klayout/shapes_pb2_converter.py: ShapesConverter"]}
{"id": "C45", "title": "Resistance extraction requests group everything by net", "statement": "The request built for a cell has exactly one entry per net that has pins, device terminals or polygons, in order of discovery; it holds all and only the pins, terminals and layer regions of that net.  Unnamed nets are not separated: as KLayout labels their shapes with an expanded name while requests use the empty name, the terminals of all unnamed nets are put in one entry without any polygon.", "quantifier": "every technology, LVS database, pins, devices and nets", "why_tests_cant": "arbitrary interleavings of nets and layers", "anchors": ["klayout_pex/rcx25/r/r_extractor.py: RExtractor.prepare_request"]}
{"id": "C46", "title": "Ports of the extracted resistor network refer to the right pins and terminals", "statement": "When results of the resistor extraction are converted, every port node is attributed to the net of the pin or device terminal whose geometry was handed in at that layer and index, every node gets the name of its layer, elements are kept and join nodes of the result.  For requests made from an LVS database this net is the net of the network.  The conversion succeeds whenever nodes lie on layers of the technology and port indexes are valid.", "quantifier": "every request, technology and extraction result", "why_tests_cant": "parallel-list alignment for arbitrary lists", "anchors": ["klayout_pex/rcx25/r/r_extractor.py: RExtractor.extract"]}
{"id": "C47", "title": "No geometry is lost on the way to the resistor extractor", "statement": "For every net and layer of a cell the resistor extractor gets exactly the polygons (hulls) that the LVS database has for the net on the layer's GDS pair, although the entry of a layer id is overwritten once per LVS layer of the pair, and nothing on other layers.  Refuted for polygons with holes: a ring is handed over as a filled polygon.", "quantifier": "every technology, LVS database and net", "why_tests_cant": "depends on layer id collisions and on every layer mapping", "anchors": ["klayout_pex/rcx25/r/r_extractor.py: RExtractor.prepare_request, extract", "klayout_pex/klayout/lvsdb_extractor.py: shapes_of_net"]}
{"id": "C48", "title": "Magic .ext and .res.ext parsing", "statement": "A file is read as exactly the records its lines say, in file order: every port, node/substrate, device, rnode and resist line of the documented format, with any name of word characters and any integers, becomes one record with those values, every other line none, and no line can be read in two ways.  Reading fails exactly for a device of a type that is not listed or a malformed number.  Refuted beyond: a node whose name has other characters (Magic's own names end with #) or a resistance in exponent notation is dropped without notice.", "quantifier": "every text", "why_tests_cant": "all lines and files", "anchors": ["klayout_pex/magic/magic_ext_file_parser.py: parse_magic_ext_file, parse_magic_res_ext_file"]}
{"id": "C49", "title": "Magic run directory: files are attributed to the right cell", "statement": "For every cell name without '.ext' inside and not ending in '.res', '<cell>.ext' is attributed to the cell's C data and '<cell>.res.ext' to its R data, and nothing else is, in whatever order the directory is listed; reading fails exactly if there is no main file or a file of a cell with a main file cannot be read.  Refuted for other names.", "quantifier": "every directory and listing order", "why_tests_cant": "all names and orders", "anchors": ["klayout_pex/magic/magic_ext_file_parser.py: parse_magic_pex_run"]}
{"id": "C50", "title": "Netlist JSON net ids", "statement": "In all netlists a writer produces, two terminals carry the same id iff they are attached to nets of the same name, across ports, devices, subcircuits and ground symbols and across repeated calls; asking twice gives the same dictionary.  Refuted for nets instead of names: two different nets of one name are drawn as one.", "quantifier": "every sequence of circuits given to one writer, including refused ones", "why_tests_cant": "all traversal orders and histories", "anchors": ["klayout_pex/netlistsvg/netlist_json.py: NetlistJSONWriter._get_or_create_id, dict_for_ports, dict_for_cells, netlist_json_dict"]}
{"id": "C51", "title": "Netlist JSON contains every component", "statement": "A circuit is refused exactly if a pin or terminal is open or a device is neither a capacitor nor a resistor; otherwise, if no two components ask for the same key, the cells are exactly the instances, devices and ground symbols of the circuit with their types, connections and values, and under a shared key the last one is shown.  Refuted otherwise: two instances of the same circuit share a key, a capacitor can hide an instance, a reused writer shows the ground net of an earlier netlist.  A refused circuit leaves an empty file.  Writing a file changes no other file, and leaves the writer as building the text does.", "quantifier": "every circuit and writer history", "why_tests_cant": "key collisions, all histories", "anchors": ["klayout_pex/netlistsvg/netlist_json.py: dict_for_cells, write_json"]}
{"id": "C52", "title": "Marker database category path parsing", "statement": "Joining any list of non-empty category names, each quoted with backslash escapes or apostrophes, and parsing the path returns the list.  A backslash before an ordinary character is silently dropped and stays pending until the next special character (refuted for unescaped backslashes), and a trailing empty component is lost.", "quantifier": "every list of names", "why_tests_cant": "all strings", "anchors": ["klayout_pex/klayout/repair_rdb.py: parse_category_path"]}
{"id": "C53", "title": "Repairing a marker database makes every referenced category exist", "statement": "In a database where every category has its subcategory list, after repair_rdb_xml every category path used by an item can be followed in the category tree, existing categories are kept unchanged, only missing categories on used paths are added, and repairing twice adds nothing (names without apostrophes).  A category without subcategory list makes the repair fail (refuted).", "quantifier": "every report database", "why_tests_cant": "arbitrary trees and paths", "anchors": ["klayout_pex/klayout/repair_rdb.py: repair_rdb_xml"]}
{"id": "C54", "title": "LVS layers are merged by GDS pair without loss", "statement": "Every non-empty LVS layer with known technology info appears exactly once, with all its shapes, as a source layer under its drawing GDS pair, in LVS order; unknown layers that have a GDS number appear exactly once in the unnamed list; with blackboxed devices exactly the device resistor/capacitor layers are left out.  Refuted without the GDS number: an unknown layer without one disappears.", "quantifier": "every LVS database and technology", "why_tests_cant": "arbitrary layer lists", "anchors": ["klayout_pex/klayout/lvsdb_extractor.py: build_LVS_layer_map, nonempty_extracted_layers"]}
{"id": "C55", "title": "Layer number conversion between PDKs", "statement": "The layout converter puts every shape of a layout on exactly the layers that its name table assigns to the shape's layer, or on a dummy layer with the layer number raised by 1000 if the table has no entry, and loses or adds nothing. A name in the table that a PDK does not know stops the conversion. The inverted table is exactly the inverse relation, so shapes of a layer in the table are back on it after converting there and back. With the shipped tables, contacts and vias join the counterparts of the layers they joined before, and no two conductors are merged (but diffusion and tap). A layout whose layers are all of one PDK and not all of the other is taken for a layout of that PDK. The program writes the converted layout if its arguments are valid.", "quantifier": "every layout, every pair of layer lists and every sensible name table; for the shipped tables every layout", "why_tests_cant": "the layouts and tables are unlimited, and whether two layers are merged depends on all entries at once", "anchors": ["convert_layout_pdk.py: parse_layers, LPPMapping, map_gds_layers, invert_dict, guess_technology, validate_args, setup_logging, main"]}
{"id": "C56", "title": "Extraction mode gating", "statement": "A 2.5D extraction computes capacitances iff the mode is CC (the default) or RC, and resistances iff it is R or RC; every mode computes at least one, and the part that is not requested stays empty.", "quantifier": "every mode", "why_tests_cant": "enumeration + aliasing of default", "anchors": ["klayout_pex/rcx25/pex_mode.py: PEXMode", "klayout_pex/rcx25/extractor.py: extract_cell"]}
{"id": "C57", "title": "Parasitics are attached to the layout's own nets", "statement": "After 2.5D netlist expansion, a net of the top circuit whose name is unique and is neither FC_GND nor VSUBS is still the only net of that name, so every parasitic naming it is connected to it.  For VSUBS this is refuted: if the layout already has a net VSUBS, substrate parasitics are attached to a second, newly created net of the same name.", "quantifier": "every netlist, every summary, every net", "why_tests_cant": "all netlists; needs a name collision to show", "anchors": ["klayout_pex/rcx25/netlist_expander.py: RCX25NetlistExpander.expand L85-99"]}
{"id": "C58", "title": "The expanded netlist does not depend on the extraction order", "statement": "If no two net pairs agree up to letter case, two extraction results with the same per-pair values give exactly the same expanded netlist, including net order and device numbering; in particular any reordering of the added capacitances does.", "quantifier": "all pairs of results, all permutations of additions", "why_tests_cant": "factorially many orders", "anchors": ["klayout_pex/rcx25/netlist_expander.py: RCX25NetlistExpander.expand L87-131", "klayout_pex/rcx25/extraction_results.py: NetCoupleKey.__lt__"]}
{"id": "C59", "title": "Matrix axes resolve to the layout's nets", "statement": "The FasterCap expander connects the capacitors of an axis g<k>_<name> to the net called <name> of the top circuit. True for every name except VSUBS and FC_GND: the expander creates nets with these names first, and a layout net that already has such a name is shadowed, so none of the extracted capacitors is connected to it (refuted for those).", "quantifier": "every netlist and every matrix", "why_tests_cant": "needs all net lists, including ones that already contain the reserved names", "anchors": ["klayout_pex/klayout/netlist_expander.py: NetlistExpander.expand"]}
{"id": "C60", "title": "The last capacitance matrix of a FastCap log is parsed", "statement": "For every FastCap log whose last 'CAPACITANCE MATRIX' block is complete, preceded by anything and followed by lines that start no other block, the parser returns the names and values (divided by 1e6) of exactly that block, in order.", "quantifier": "every log prefix and suffix, every dimension and every matrix", "why_tests_cant": "unbounded logs and numbers of iterations", "anchors": ["klayout_pex/fastcap/fastcap_runner.py: fastcap_parse_capacitance_matrix"]}
{"id": "C61", "title": "FastCap capacitances respect the unit printed in the log", "statement": "The unit named in the header of a FastCap matrix (picofarads, femtofarads, ...) scales the parsed values. Refuted: the unit is matched but ignored, so logs that differ only in the unit give identical capacitances.", "quantifier": "every unit and every log", "why_tests_cant": "must hold for every unit and matrix", "anchors": ["klayout_pex/fastcap/fastcap_runner.py: fastcap_parse_capacitance_matrix"]}
{"id": "C62", "title": "Simple dielectric above a metal", "statement": "For every stack with distinct names, the dielectric reported above a metal is the first simple dielectric before the next metal, with the distance of the two metals as its height (5 above the topmost metal); if that dielectric is filtered out the answer is no dielectric with height 0, even if another one follows.", "quantifier": "every stack, filter and metal", "why_tests_cant": "all stack orders and filters", "anchors": ["klayout_pex/tech_info.py: simple_dielectric_above_metal L195-213"]}
{"id": "C63", "title": "The FasterCap input only uses declared materials", "statement": "For every technology, filter and layout, whenever the FasterCap input builder gets through its calls, the model builder accepts all of them: every dielectric added was declared as a material before.", "quantifier": "every technology, dielectric filter and layout", "why_tests_cant": "all combinations of filters and stacks", "anchors": ["klayout_pex/fastercap/fastercap_input_builder.py: build", "klayout_pex/fastercap/fastercap_model_generator.py: add_material, add_dielectric"]}
{"id": "C64", "title": "No gap in the dielectric around a metal", "statement": "For every technology without negative dimensions and every layout, each point of the enlarged bounding box at a height between the bottom of a metal and the top of the simple dielectric above it is covered by a dielectric added for this metal.", "quantifier": "every technology, layout, point and height", "why_tests_cant": "all points and all chains of sidewall and conformal dielectrics", "anchors": ["klayout_pex/fastercap/fastercap_input_builder.py: build L240-337"]}
{"id": "C65", "title": "Conductors are never displaced by dielectrics", "statement": "Wherever a net has metal, a via, diffusion or a contact, the FasterCap model has a conductor at that point and height, and it is this net unless another conductor is at the same place.", "quantifier": "every technology, layout, net, point and height", "why_tests_cant": "all overlapping layers", "anchors": ["klayout_pex/fastercap/fastercap_input_builder.py: build L132-197"]}
{"id": "C66", "title": "All metal geometry reaches the capacitance extractors", "statement": "The capacitance extractors get the substrate first and then every process metal on which something was extracted, in stack order, under its canonical name and with all shapes of all LVS layers of its GDS pair; metals with the same canonical name are merged.  A metal without GDS pair or canonical name stops the extraction.", "quantifier": "every technology, process stack and LVS database", "why_tests_cant": "arbitrary stacks and name collisions", "anchors": ["klayout_pex/rcx25/extractor.py: extract_cell, shapes_of_layer", "klayout_pex/tech_info.py: gds_pair, canonical_layer_name_by_gds_pair"]}
{"id": "C67", "title": "The shapes of a net are exactly the layer's shapes on that net", "statement": "shapes_of_layer returns the shapes of all LVS layers of the GDS pair; shapes_of_net returns exactly those of them that carry the net's name, so every shape is found for its own net and no other, and the counts over all nets add up.", "quantifier": "every LVS database, GDS pair and net", "why_tests_cant": "arbitrary merges of source layers", "anchors": ["klayout_pex/klayout/lvsdb_extractor.py: shapes_of_net, shapes_of_layer"]}
{"id": "C68", "title": "Pins come from texts on pin shapes", "statement": "Every pin comes from a text on the layer's label layer that lies on one of its pin shapes, and takes that shape's net; every such text on a layer in use gives a pin; on a layer made of one LVS layer it gives exactly one.  Refuted for layers made of several LVS layers: the pin is repeated for each.  The preparation fails exactly if the pin shapes of a layer in use lie on several LVS layers.", "quantifier": "every LVS database, technology, set of texts and containment test", "why_tests_cant": "arbitrary texts, pin shapes and layer merges", "anchors": ["klayout_pex/klayout/lvsdb_extractor.py: pins_pb2_by_layer, pins_of_layer, labels_of_layer"]}
{"id": "C69", "title": "Devices are handed over with exactly their terminals", "statement": "When device preparation succeeds, every device of the top circuit appears in order with its id, class, abstract name and parameters, and for each terminal definition with exactly the references to it on its net, each with the net's name and its shapes on the annotated layer that holds the same LVS layer.  It succeeds iff all terminals are connected and all terminal shapes lie on layers that were not left out and have a canonical name; in particular one unconnected terminal makes it fail.", "quantifier": "every list of devices with distinct names, every net and LVS database", "why_tests_cant": "arbitrary circuits", "anchors": ["klayout_pex/klayout/lvsdb_extractor.py: devices_by_name"]}
{"id": "C70", "title": "The resistance technology lists every conductor and via with the right resistance", "statement": "Each implant or metal LVS layer in use gives one conductor on the layer of its GDS pair with the technology's sheet resistance in ohm (0 for implants), and each contact or via layer with a known resistance gives one via between the layers below and above it in the process stack, with resistance times contact area; KLayout gets these numbers unchanged.  The preparation fails exactly if a metal layer in use has no resistance or a contact joins unknown layers.  Refuted for via layers that are not in the process stack: instead of being ignored they add a via on layer 0 and rename that layer.", "quantifier": "every technology, process stack, resistance table and LVS database", "why_tests_cant": "all layer combinations, including those no test layout has", "anchors": ["klayout_pex/rcx25/r/r_extractor.py: RExtractor.prepare_r_extractor_tech_pb", "klayout_pex/klayout/rex_core.py: klayout_r_extractor_tech", "klayout_pex/tech_info.py: contact_by_contact_lvs_layer_name, bottom_and_top_layer_name_by_via_computed_layer_name, milliohm_to_ohm"]}
{"id": "C71", "title": "Layer names and port layers of the resistance result", "statement": "If every via layer in use is in the process stack, each node of the result gets the canonical name of the GDS pair of its layer.  Refuted: that ports always lie on a layer which is a conductor; if two LVS layers share a GDS pair, terminal polygons can be on an annotated layer no conductor is registered for.", "quantifier": "every technology, stack and LVS database", "why_tests_cant": "layer id collisions", "anchors": ["klayout_pex/rcx25/r/r_extractor.py: RExtractor.prepare_r_extractor_tech_pb, extract", "klayout_pex/klayout/lvsdb_extractor.py: devices_by_name"]}
{"id": "C72", "title": "The shipped PDKs have a capacitance for every pair of layers that can meet", "statement": "With blackboxed devices, for every LVS database of a sky130A or IHP SG13G2 layout, the layers the 2.5D extraction works on have distinct names, every ordered pair of them has a positive overlap capacitance, every one has a positive sidewall capacitance, and every pair has positive fringe numbers; so no lookup of the extraction fails.  Refuted without blackboxing: the MiM capacitor plates have no numbers, and the fringe extraction next to one raises.", "quantifier": "every LVS database of both PDKs", "why_tests_cant": "every subset of drawn layers", "anchors": ["cxx/gen_tech_pb/pdk/sky130A.cpp: buildTech", "cxx/gen_tech_pb/pdk/ihp_sg13g2.cpp: buildTech", "cxx/gen_tech_pb/protobuf.cpp", "klayout_pex/tech_info.py: overlap_cap_by_layer_names, side_overlap_cap_by_layer_names, sidewall_cap_by_layer_name", "klayout_pex/rcx25/extractor.py"]}
{"id": "C73", "title": "Pins are found in every layout of the shipped PDKs", "statement": "Pin extraction never fails for a layout of either PDK.  In IHP, on each of the eight metals, and in sky130A on poly and li1, every label on a pin shape of a metal with wires is reported with its net.  Refuted for met1 to met5 of sky130A: their pin layers are declared as label layers, so no layout ever has a pin on them.", "quantifier": "every LVS database, every label and every pin shape", "why_tests_cant": "the layer tables are data that only a check over all layouts can validate", "anchors": ["cxx/gen_tech_pb/pdk/sky130A.cpp: buildTech", "cxx/gen_tech_pb/pdk/ihp_sg13g2.cpp: buildTech", "cxx/gen_tech_pb/protobuf.cpp", "klayout_pex/klayout/lvsdb_extractor.py: pins"]}
{"id": "C74", "title": "The shipped PDKs can be prepared for resistance extraction, with the right vias", "statement": "For every layout of both PDKs without polygons on text layers the resistance technology can be prepared, each drawn metal is a conductor with the sheet resistance of the process, and each contact and via joins the two layers it joins in the process, with the right resistance per cut area; with blackboxed devices no via is left without layers.  Refuted for sky130A: the via between met1 and met2 is never extracted (it is called via in one table and via1 in the other), a pin shape on met1 to met5 makes the preparation fail, and without blackboxing the contacts of a capacitor leave an empty via.", "quantifier": "every LVS database of both PDKs, every parameter", "why_tests_cant": "every subset of drawn layers", "anchors": ["cxx/gen_tech_pb/pdk/sky130A.cpp: buildTech", "cxx/gen_tech_pb/pdk/ihp_sg13g2.cpp: buildTech", "cxx/gen_tech_pb/protobuf.cpp", "klayout_pex/rcx25/r/r_extractor.py: RExtractor.prepare_r_extractor_tech_pb"]}
{"id": "C75", "title": "The FasterCap input of the shipped PDKs can be built and is upright", "statement": "For every layout of both PDKs and every selection of dielectrics the FasterCap input is built without error, and in sky130A no conductor or dielectric has a negative height.  Refuted for IHP: over each TopMetal2 shape the air above the passivation has a negative height, as the metal's thickness is counted twice; it holds if there is no TopMetal2 or if pass2 or air is left out.  All dielectric constants are at least 1, except iox in sky130A.", "quantifier": "every layout, dielectric filter and database unit", "why_tests_cant": "every combination of layers and filters", "anchors": ["cxx/gen_tech_pb/pdk/sky130A.cpp: buildTech", "cxx/gen_tech_pb/pdk/ihp_sg13g2.cpp: buildTech", "cxx/gen_tech_pb/protobuf.cpp", "klayout_pex/fastercap/fastercap_input_builder.py: FasterCapInputBuilder.build"]}
{"id": "C76", "title": "Sidewall capacitances of the shipped PDKs are positive", "statement": "For facing edges of different nets on any layer the sidewall capacitance is positive at every positive distance in sky130A, and at every distance above 57 nm in IHP.  Refuted for IHP below: between Metal1 edges the capacitance is negative at less than 57 nm, and at exactly 57 nm the extraction fails with a division by zero.", "quantifier": "every layer, edge length, distance and database unit", "why_tests_cant": "every distance", "anchors": ["cxx/gen_tech_pb/pdk/sky130A.cpp: buildTech", "cxx/gen_tech_pb/pdk/ihp_sg13g2.cpp: buildTech", "cxx/gen_tech_pb/protobuf.cpp", "klayout_pex/rcx25/c/sidewall_and_fringe_extractor.py: emit_sidewall"]}
{"id": "C77", "title": "Only well-formed calls are run", "statement": "A call with an existing layout, a cell that is in it (or a single top cell), a known log level, a valid dielectric filter, an existing schematic (if one is given) and at least one engine is accepted, finishes, and uses LVS of exactly that cell with that schematic or the dummy one; if only Magic is asked for, no LVS is run.  Any other call with a layout runs neither LVS nor an engine and touches no file but its own scratch files.  With an LVS database as input, that database is used unchanged.  Refuted: an unknown cell name and an empty layout path end in an unrelated exception instead of being rejected.", "quantifier": "every argument list, file system and installation", "why_tests_cant": "all combinations of arguments and files", "anchors": ["klayout_pex/kpex_cli.py: KpexCLI.validate_args, main, create_lvsdb"]}
{"id": "C78", "title": "Different extractions have different run directories", "statement": "With one output directory, two calls share a run directory only for the same input name (up to the first dot) and the same cell, if the input names have no double underscore and do not end in an underscore.  Refuted in general: a__b.gds with cell c and a.gds with cell b__c, and inv.v1.gds and inv.v2.gds with the same cell.", "quantifier": "every pair of calls", "why_tests_cant": "all names", "anchors": ["klayout_pex/kpex_cli.py: validate_args (run_dir_id, input_file_stem)"]}
{"id": "C79", "title": "netlist svg draws the circuit asked for", "statement": "Without --cell the only top circuit is drawn and none or several are refused with exit codes 1 and 2.  Refuted with --cell: the argument is never consulted, although the message for several top circuits asks for it.", "quantifier": "every netlist and cell argument", "why_tests_cant": "all numbers of top circuits", "anchors": ["klayout_pex/netlist/netlist_cli.py: NetlistCLI.run_netlistsvg"]}
{"id": "C80", "title": "Magic gets the commands that were asked for", "statement": "For every layout path, cell name, run directory and output path without blanks and Tcl's special characters, Tcl reads the generated script as exactly the commands of the requested mode with the user's thresholds, tolerance, short and merge modes, and the halo rounded to Magic's nearest unit.  Refuted otherwise: a blank in a path makes other words of it, and a $ in a cell name (as KLayout makes them) stops the script before the cell is loaded.", "quantifier": "every request and every set of Tcl variables", "why_tests_cant": "all names, paths and numbers", "anchors": ["klayout_pex/magic/magic_runner.py: prepare_magic_script"]}
{"id": "C81", "title": "Magic extracts the requested cell, flattened, with the requested settings", "statement": "Obeying the script, Magic writes exactly one netlist, to the requested path, of the flattened requested cell under its own name, with resistance, capacitance and coupling extraction, thresholds and modes as the mode asks for, whatever magicrc set before and whatever older extractions are in the run directory.  Refuted if the layout has a cell <name>_flat (its netlist is written instead) or has no such cell (the netlist of nothing is written).", "quantifier": "every request, layout, initial Magic state", "why_tests_cant": "all layouts and settings", "anchors": ["klayout_pex/magic/magic_runner.py: prepare_magic_script"]}
{"id": "C82", "title": "Logs of external tools are complete", "statement": "For every tool output, the log file holds all of it, also if the tool fails; a failing Magic, FastCap, FasterCap or netlistsvg raises an exception, a failing LVS does not; the console shows every ended line.  Refuted for a last line that is not ended: its last character is missing on the console.", "quantifier": "every output and exit status", "why_tests_cant": "all outputs", "anchors": ["klayout_pex/magic/magic_runner.py: run_magic", "klayout_pex/klayout/lvs_runner.py: LVSRunner.run_klayout_lvs", "klayout_pex/fastcap/fastcap_runner.py: run_fastcap", "klayout_pex/fastercap/fastercap_runner.py: run_fastercap", "klayout_pex/netlistsvg/netlistsvg_runner.py: run_netlistsvg"]}
{"id": "C83", "title": "Every engine's results land in the output directory", "statement": "When a run asks for FasterCap, FastCap and/or the 2.5D engine and the solvers end well, the run ends well and every log, matrix, netlist and report each engine owes is in the output directory with contents computed from what that solver printed for this run's input; nothing else changes; a failing solver stops the run with its log kept and no result of it or of later engines touched.  Refuted for FastCap with a relative output directory (the default): the process changes its working directory and never returns, so the run raises after every successful FastCap simulation, no FastCap result is written and the 2.5D engine does not run.", "quantifier": "every output directory, working directory, selection of engines, initial files and solver behaviour", "why_tests_cant": "all combinations and all solver outputs", "anchors": ["klayout_pex/kpex_cli.py: KpexCLI.main", "klayout_pex/kpex_cli.py: KpexCLI.run_fastercap_extraction", "klayout_pex/kpex_cli.py: KpexCLI.run_fastcap_extraction", "klayout_pex/kpex_cli.py: KpexCLI.run_kpex_2_5d_engine", "klayout_pex/fastcap/fastcap_runner.py: run_fastcap"]}
{"id": "C84", "title": "No log is lost", "statement": "After any sequence of runs in one base directory, each in its own process and starting in a later second than its predecessor ended, including runs stopped early or in the middle, the messages of every run are found, in order and together, in a plain and in a formatted log below the base directory; the log of a run without leftovers holds exactly its messages; no other file is touched.  Refuted: runs ending in the same second lose a log (backup names have a resolution of one second), messages of a run that stopped before it had a run directory turn up in the log of the next run, and a second run in one process also writes to the first run's log.", "quantifier": "every history of runs, contents of the disk, time stamps", "why_tests_cant": "all histories and times", "anchors": ["klayout_pex/kpex_cli.py: KpexCLI.setup_logging", "klayout_pex/log/logger.py: register_additional_handler", "klayout_pex/log/logger.py: deregister_additional_handler"]}
{"id": "C85", "title": "The tables of parasitics say what the netlist says", "statement": "Read back as semicolon-separated text, the table of the 2.5D engine has exactly one row for every capacitance and one for every resistance between two nets, ordered by net names, with different device names and values rounded to three digits, and row Ci (Ri) describes the capacitor (resistor) ext_i of the SPICE netlist written beside it; the table of the FasterCap engine has exactly one row for every capacitor the matrix gives, with the names of its nets and the value in fF rounded to two digits.  Refuted: net names with a semicolon make different extractions indistinguishable, a positive capacitance below the rounding unit appears as 0.0, and nets without a name appear with an empty name in the FasterCap table, so that different couplings give the same table.  A table is left unfinished exactly if the results have no summary (it is empty then), or, with FasterCap, at a capacitor of the matrix with an open terminal; it then has the rows of the devices before it.", "quantifier": "every extraction result, every capacitance matrix, netlist and set of net names", "why_tests_cant": "all names, values and numbers of rows", "anchors": ["klayout_pex/kpex_cli.py: KpexCLI.run_kpex_2_5d_engine", "klayout_pex/klayout/netlist_csv.py: NetlistCSVWriter.write_csv", "klayout_pex/rcx25/netlist_expander.py: RCX25NetlistExpander.expand", "klayout_pex/klayout/netlist_expander.py: NetlistExpander.expand"]}
{"id": "C86", "title": "The 2.5D netlist holds every contribution once", "statement": "A 2.5D run in a mode with capacitances ends with a netlist whose new capacitors are these: for each pair of nets between which the layout has any coupling, one capacitor, and its value is the sum over all overlapping polygons, all nearest sidewalls and all unshielded fringe pieces, of all layers, each counted once. Other devices stay (capacitors of the layout only with --blackbox), and without resistance extraction nothing else is added; in mode R no capacitor is added. With the tables of the shipped PDKs this needs conditions on the layout only. The values are in farads, the unit of the netlist.", "quantifier": "every layout, technology table, extraction mode, netlist and cell", "why_tests_cant": "the sum ranges over all polygons and edges of a layout, and an addend may be lost in any of the stages between the geometry and the netlist", "anchors": ["klayout_pex/kpex_cli.py: KpexCLI.run_kpex_2_5d_engine", "klayout_pex/rcx25/extractor.py: RCX25Extractor.extract, extract_cell", "klayout_pex/rcx25/c/overlap_extractor.py: OverlapExtractor.extract", "klayout_pex/rcx25/c/sidewall_and_fringe_extractor.py: SidewallAndFringeExtractor.extract", "klayout_pex/rcx25/netlist_expander.py: RCX25NetlistExpander.expand"]}
{"id": "C87", "title": "The 2.5D report shows every capacitance with its own shapes", "statement": "In the report database of a 2.5D run every contribution to the capacitances is shown once, in order: under the category of its kind, layers and nets stands a title with its number in this category, counted from one, and its value rounded to three places, and under that title are the shapes of this contribution and no others. The entries of a key in the tables of results are the titles of that key's category, one to one and in the same order, for nets without a dash (\u2013) in their names.", "quantifier": "every sequence of contributions of any length, with any layers, nets, values and shapes", "why_tests_cant": "the numbering depends on the whole history of the run; a clash of titles needs a particular mix of contributions", "anchors": ["klayout_pex/rcx25/extraction_reporter.py: ExtractionReporter.output_overlap, output_sidewall, output_sideoverlap, output_shapes", "klayout_pex/rcx25/extraction_results.py: CellExtractionResults.add_overlap_cap, add_sidewall_cap, add_sideoverlap_cap"]}
{"id": "C88", "title": "The 2.5D report shows every node and resistor, and never stops a run", "statement": "After resistance extraction the report database lists every node of every network once, with its name, net, layer and place, and every element once, with the nodes it joins, an arrow between their places, and its resistance (ohms to three places, below a milliohm milliohms to six). Reporting never stops the run, whatever the layout.  Where the technology of the request is reported, there is one line for each conductor and each via, in their order, with their numbers, names and rounded resistances.", "quantifier": "every result of the resistance extractor, every technology prepared from a layout", "why_tests_cant": "node ids, networks and layers vary without bound; the failure needs a layout where a via layer is used and a metal beside it is not", "anchors": ["klayout_pex/rcx25/extraction_reporter.py: ExtractionReporter.output_rex_tech, output_rex_result, output_rex_result_network, output_node, output_element", "klayout_pex/rcx25/extractor.py: RCX25Extractor.extract_cell", "klayout_pex/rcx25/r/r_extractor.py: RExtractor.prepare_r_extractor_tech_pb"]}
{"id": "C89", "title": "The report on a Magic run shows what Magic extracted, where it is", "statement": "The report database of a Magic run has a cell for each cell of the extraction files, and for each of its ports, nodes, devices, resistor nodes and resistors one entry under its own category, and nothing else. Each entry stands where Magic put the object, in micrometres: within one database unit, and exactly if the grid allows it. The report is about this run, and is written where the help says.", "quantifier": "every set of extraction files that the parser accepts, every database unit, every earlier content of the run directory", "why_tests_cant": "cells, objects and coordinates vary without bound; stale files depend on the history of the directory", "anchors": ["klayout_pex/magic/magic_log_analyzer.py: MagicLogAnalyzer.analyze, analyze_cell, _parse_args, main", "klayout_pex/kpex_cli.py: KpexCLI.run_magic_extraction", "klayout_pex/magic/magic_ext_data_structures.py: ResExtData.rnodes_by_name"]}
{"id": "C90", "title": "Every external tool is called with the settings asked for", "statement": "Each tool is the one named by its environment variable, or else the documented default; Magic's configuration is --magicrc, or else follows from PDKPATH and PDK. The command lines of FasterCap, FastCap, KLayout, Magic and netlistsvg, read as those tools read them, carry exactly the settings asked for, each once. A run is refused exactly if a tool that it needs is missing, and --help always works.", "quantifier": "every environment, every combination of options, every set of installed programs and working directory", "why_tests_cant": "environments, options and installed programs combine without bound; the sandbox of a test has one environment", "anchors": ["klayout_pex/env.py: EnvVar, Env.from_os_environ", "klayout_pex/kpex_cli.py: KpexCLI.parse_args, validate_args, main", "klayout_pex/fastercap/fastercap_runner.py: run_fastercap", "klayout_pex/fastcap/fastcap_runner.py: run_fastcap", "klayout_pex/magic/magic_runner.py: run_magic", "klayout_pex/klayout/lvs_runner.py: LVSRunner.run_klayout_lvs", "klayout_pex/netlistsvg/netlistsvg_runner.py: run_netlistsvg"]}
{"id": "C91", "title": "Lengths become grid units in spite of floating-point rounding", "statement": "A height that the technology puts on a grid line gets this line in the FasterCap model, in whatever order it was added up from floats, so that layers that touch have neither gap nor overlap; other heights get the line below, up to a millionth of a unit or two; a higher height never gets a lower line. Vertical surfaces share the coordinates of the horizontal ones they meet. The width of a sidewall dielectric is kept if it is a whole number of units. The search for neighbours covers the halo.", "quantifier": "every database unit, every height of up to twelve terms and 67 million units, every width and halo", "why_tests_cant": "rounding errors depend on the digits of each number; a test sees only the numbers it uses", "anchors": ["klayout_pex/fastercap/fastercap_model_generator.py: FasterCapModelBuilder._norm2z, _z2norm, _add_layer, FasterCapModelGenerator", "klayout_pex/fastercap/fastercap_input_builder.py: FasterCapInputBuilder.build", "klayout_pex/rcx25/c/sidewall_and_fringe_extractor.py: SidewallAndFringeExtractor"]}
{"id": "C92", "title": "Rounding errors of the 2.5D capacitances stay negligible", "statement": "Every overlap, sidewall and fringe capacitance that the 2.5D engine computes in floating point is the one of the formula, up to 300 times 2^-53 of the contribution (for a fringe: of the one that starts at the edge); for overlaps and sidewalls up to 60 times 2^-53. An overlap is recorded exactly if its area is not zero; a fringe is recorded if it is above 0.0001 fF and not if it is below, up to this error. The capacitance reported for two nets is the sum of all contributions, up to 304 + 17 n times 2^-53 of the whole, if no list has more than n entries; below 2e-9 for a million entries each. Nothing overflows.", "quantifier": "every setting (unit, halo, scaling), every contribution with numbers of up to 2^53, every distribution of contributions over cells, tables and keys, and every square and arc tangent that is off by less than one unit in the last place", "why_tests_cant": "rounding errors depend on the digits of each number and add up over the layout; a test sees only its own numbers", "anchors": ["klayout_pex/rcx25/c/overlap_extractor.py: OverlapExtractor", "klayout_pex/rcx25/c/sidewall_and_fringe_extractor.py: SidewallAndFringeExtractor.emit_sidewall, fringe_cap, emit_fringe", "klayout_pex/rcx25/extraction_results.py: ExtractionSummary.merged, CellExtractionResults.summarize, ExtractionResults.summarize"]}
{"id": "C93", "title": "Every triangle is in its place and its reference point is on the outside", "statement": "The triangles that KLayout makes of each surface are all handed to FasterCap, each once and with its corners in their places up to a billionth of a database unit. FasterCap takes the side of a surface from a reference point. In the files written for dielectrics, the reference point that is computed for each triangle lies one micrometre from its first corner, at a right angle to the surface and towards the first of the two materials of the pair, up to a femtometre in each coordinate; also after surfaces of opposite orientation were combined. For a conductor it lies outside of the conductor. No triangle makes the computation fail.", "quantifier": "every database unit between 1 fm and 1 um, every list of horizontal surfaces at a height of up to 1 m and of vertical surfaces over edges along the axes, every set of clockwise triangles up to 4194304 units from the origin, and every square that is off by less than one unit in the last place", "why_tests_cant": "the side is decided by differences of rounded products; whether tiny triangles or big coordinates flip or cancel them depends on the digits of each number", "anchors": ["klayout_pex/fastercap/fastercap_model_generator.py: Triangle.outside_reference_point, FasterCapModelGenerator.generate_hdiel, generate_vdiel, generate_hcond_in, generate_hcond_out, generate_vcond, triangulate, finalize"]}
{"id": "C94", "title": "Vertical surfaces stand exactly over the edges of the layout", "statement": "The vertical surface over an edge covers the edge and the height between its two sides, no more and no less. Each of its corners has bit for bit the coordinates that the horizontal surfaces have at the same place, so that surfaces meet without gaps. Surfaces are collected in the same plane exactly if their edges are on the same line and have the same direction.", "quantifier": "every database unit between 1 fm and 1 um, every edge up to 4194304 units from the origin, every point of it and every pair of heights on the grid", "why_tests_cant": "positions go through floating point twice, once along the plane and once back; tests see a few edges", "anchors": ["klayout_pex/fastercap/fastercap_model_generator.py: FasterCapModelGenerator.generate_v_surface, triangulate, VKey"]}
{"id": "C95", "title": "Eliminating nodes is electrically accurate in spite of rounding", "statement": "With floating point numbers, eliminating the nodes of a resistor network never fails, keeps all marked nodes, leaves no resistor at any other node, and gives finite conductances that are not negative. The network that is left behaves as the resistors that were added: for any voltages, it takes at most the power these resistors take, and for any voltages of the nodes left, the other nodes can be given voltages in the same range so that the resistors take at most the power of what is left. This holds up to a factor that is below 1.0003 for a million nodes, times one rounding for each resistor, and up to what is thrown away at nodes with a total conductance below the threshold.", "quantifier": "every sequence of calls that adds nodes, marks nodes and adds resistors with conductances that are finite and not negative, up to a million nodes, 10^12 calls and a total conductance of 10^70, and all voltages", "why_tests_cant": "an elimination rounds each new conductance, later ones build on these, and a node may have any number of neighbours; tests compare a few small networks with a tolerance", "anchors": ["klayout_pex/rcx25/r/resistor_network.py: ResistorNetwork.add_cond, eliminate_node, eliminate_all", "klayout_pex/rcx25/r/conductance.py: Conductance.add_parallel"]}
{"id": "C96", "title": "Numbers in FasterCap's input are exact on the grid", "statement": "Every number that is written with twelve digits is valid decimal notation, has at most twelve significant digits and differs from the floating point number by at most half a unit of the twelfth digit. A coordinate that is a whole number of database units is written exactly in spite of rounding, so a vertex has the same text wherever it occurs, and two different vertices never get the same text.", "quantifier": "every finite floating point number; every grid unit with less than 16 digits and every coordinate with at most twelve digits", "why_tests_cant": "rounding to twelve decimal digits has special cases at powers of ten, at ties and at changes of notation, and products with the unit are rounded; tests see a few coordinates", "anchors": ["klayout_pex/fastercap/fastercap_model_generator.py: Point.to_fastcap, FasterCapModelGenerator.write_fastcap, _point2s"]}
{"id": "C97", "title": "A capacitance matrix survives its CSV file", "statement": "A capacitance matrix that is written to a CSV file and read again has the same conductor names and the same shape, and each value changes by at most 6 parts in 10^12. Writing it again gives the same file, character by character, so that further rounds change nothing.", "quantifier": "every matrix of floating point numbers that are 0 or between 1e-290 and 1e290 in size, every separator that is not part of a number, all names without separators, line ends and blanks around them", "why_tests_cant": "that twelve digits identify the number read from them holds for every number or it fails for some rare ones; tests try a few matrices", "anchors": ["klayout_pex/common/capacitance_matrix.py: CapacitanceMatrix.write_csv, CapacitanceMatrix.parse_csv"]}
{"id": "C98", "title": "Rounding hardly changes the field solver's capacitances", "statement": "The matrix after averaging is exactly symmetric, has the solver's diagonal, and each other entry lies between the two that it replaces. For a pair of nets at most one capacitor is created, always with a positive value: between two conductors it is exactly the negated entry, and to ground it is the sum of the row up to 3 parts in 10^10 of the sizes in that row, for up to a million conductors. If the solver's matrix is physical, the capacitors put the charges of the symmetrised matrix on the nets at all voltages, up to such a rounding error.", "quantifier": "every square matrix of floating point numbers up to 1e270 with at most 10^12 rows, all voltages", "why_tests_cant": "differences of nearly equal numbers may lose all digits, and the sign of a tiny rest decides if a capacitor is created; tests see a few matrices", "anchors": ["klayout_pex/common/capacitance_matrix.py: CapacitanceMatrix.averaged_off_diagonals", "klayout_pex/klayout/netlist_expander.py: NetlistExpander.expand"]}
{"id": "C99", "title": "A killed run loses no log", "statement": "Runs one after the other in one base directory, each killed after any number of its operations on the log files, also between closing, backup, move and reopening: no run raises because of what its predecessors left, and everything that a run had logged when it was killed is found, in order and together, in a plain and in a formatted log below the base directory. A run that completes afterwards has its log in its run directory: what was left in the base directory, then exactly its own messages.", "quantifier": "every history of runs, every crash point of each, every contents of messages, all times", "why_tests_cant": "a crash may come between any two operations of any run, and what it leaves meets every later run", "anchors": ["klayout_pex/kpex_cli.py: KpexCLI.setup_logging"]}
{"id": "C100", "title": "Runs at the same time do not disturb each other's logs", "statement": "For runs at the same time in base directories of which none contains another, in every interleaving of their operations and stopped at any moment: each run is as far and has the same logs as if it had been alone, none raises because of the logs, and what it has logged so far is in its logs. Refuted for runs in one base directory (the default): the first may move away the log that the second has open, so that the second stops with FileNotFoundError and its messages are in the run directory of the first, even for different cells.", "quantifier": "every number of runs, every schedule, every prefix of it", "why_tests_cant": "the number of interleavings grows exponentially, and a test sees the one that the system happens to choose", "anchors": ["klayout_pex/kpex_cli.py: KpexCLI.setup_logging"]}
{"id": "C101", "title": "STL files show the bodies, facing outwards", "statement": "After a run the STL file of every net with a surface, and of every dielectric with one, read by any STL reader, has one facet for each triangle of the surfaces of this body and no other; corners on the grid are exact (heights up to twelve digits), and by the right-hand rule every facet faces out of the body: out of the conductor, away from the material also where it touches a conductor. Files of different bodies are different, and no other file is touched. All files are written unless the name of a body is too long for a file or has a slash in it. Refuted: a net name that is too long stops the run although the files for FasterCap, with shortened names, are complete; and the file of a net that an earlier run had and this one has not stays.", "quantifier": "every set of horizontal surfaces and walls along the axes, every triangulation with clockwise triangles, all names of nets and materials, every state of the directory", "why_tests_cant": "the orientation depends on how reversals in three places combine, for every kind of surface on either side; tests see a few bodies", "anchors": ["klayout_pex/fastercap/fastercap_model_generator.py: FasterCapModelGenerator.dump_stl, _write_as_stl, _collect_diel_tris, _collect_cond_tris"]}
{"id": "C102", "title": "Messages appear according to the log level", "statement": "With --log_level set to a level, or left out, every message of at least this level stands on the console once, in order and with the name of its level (output of tools without it), and apart from horizontal lines nothing else does; until the arguments are checked the level is subprocess. The log files have the same messages in the same order, from their opening on, without debugging messages; in kpex.log with time and level. If the arguments are refused all messages up to there have been reported. No message stops a run. Refuted: the level all shows warnings and errors only; horizontal lines appear at any level although they are said to need info; and the message about a pattern of --diel that cannot be read raises an exception instead.", "quantifier": "every sequence of messages in each part of a run, every text of the option", "why_tests_cant": "which handlers take a message depends on its level, two filters, the levels of handlers and the logger, and the parent of the logger; tests see a few messages at one level", "anchors": ["klayout_pex/log/logger.py: configure_logger, LogLevelFilter, LogLevelFormatter, set_log_level, debug, subproc, rule, info, warning, error", "klayout_pex/kpex_cli.py: KpexCLI.setup_logging, main, validate_args"]}
{"id": "C103", "title": "The help of an option offers what the option accepts", "statement": "For an option that takes the cases of an enumeration of texts, the words in the braces of its help are exactly the words that the option accepts, each gives the case with this value, and the default in the help is what the option gives if it is left out; so for --pdk, --mode, --magic_mode, --magic_short and --magic_merge. --log_level of kpex accepts the words of its help, in large or small letters, and default, and nothing else; different words give different levels. Refuted: --log_level of the netlist program accepts none of the words of its help; and with lowercase_strenum the help offers words in small letters that the option refuses.", "quantifier": "every enumeration, every topic, every text on the command line", "why_tests_cant": "the help and the conversion are written in different places and treat names, values and aliases differently; tests try a few words", "anchors": ["klayout_pex/util/argparse_helpers.py: render_enum_help", "klayout_pex/kpex_cli.py: KpexCLI.parse_args, validate_args", "klayout_pex/netlist/netlist_cli.py: NetlistCLI.parse_args", "klayout_pex/log/logger.py: LogLevel", "klayout_pex/rcx25/pex_mode.py: PEXMode", "klayout_pex/magic/magic_runner.py: MagicPEXMode, MagicShortMode, MagicMergeMode"]}
{"id": "C104", "title": "FasterCap reads exactly the bodies of the layout", "statement": "If all materials are declared, and names of nets, materials and the prefix have no blank and no slash and leave room in the file names, the files for FasterCap are written, and reading the list file as FasterCap does gives exactly one result: one conductor for each net with a surface, with the name of the net and a number of its own, made of the panels of the surfaces of this net (one for each triangle of KLayout, corners in their places, heights and permittivities up to twelve digits), each with the permittivity of the material outside and a reference point about one micrometre in front of it, on the outer side; and all surfaces between dielectrics, each once, with both permittivities on the right sides of the panel as its reference point shows them. Files whose names do not start with the prefix stay as they are. Refuted: a blank in the name of a net gives a list that cannot be read, and a slash stops the run.", "quantifier": "every list of surfaces along the axes, every triangulation, every set of materials, every limit for the length of names, every content of the output directory", "why_tests_cant": "names, numbers, collation, turned triangles, dropped keys and decimal texts all have to fit together for every layout; tests compare files for a few layouts", "anchors": ["klayout_pex/fastercap/fastercap_model_generator.py: FasterCapModelGenerator.finalize, write_fastcap, _write_fastercap_geo, Triangle.to_fastcap, Triangle.outside_reference_point, Point.to_fastcap"]}
{"id": "C105", "title": "FasterCap reads a panel exactly where two owners meet", "statement": "After any calls of the model builder with shapes along the axes, and with two names of nets and materials or more, the files for FasterCap can be read, and the panels are where the bodies meet. The space is divided into unit cubes; the owner of a cube is the first net that has a body there, or else the first declared material, or else the void. On each face between two cubes, at every point that is not on a side of a triangle, the panels are those that the two owners call for and no others: none if the owner is the same; one of the net with the permittivity of the material on the other side, and the reference point on that side; or one between the two dielectrics with both permittivities on the right sides. Where two nets touch, each has a panel on a wall, and the upper one on a level. Inside a cube there is no panel. Each net is one conductor at most. Heights may be sums with rounding errors. Refuted: with a single name the side walls and the top are missing; and a body that passes through a level under two different owners adds a panel; but also then no panel is missing, unless two nets touch.", "quantifier": "every list of calls with shapes along the axes near the origin, every height up to one millimetre, every triangulation that covers a region exactly once, every point of every face", "why_tests_cant": "the priority of nets and materials, the order of the events, the sides and directions of all surfaces, the walls of many levels merged in one plane, the numbers, texts and files all have to fit together for every layout; tests look at a few layouts", "anchors": ["klayout_pex/fastercap/fastercap_model_generator.py: FasterCapModelBuilder.add_material, add_dielectric, add_conductor, generate; FasterCapModelGenerator.next_z, finish_z, generate_hdiel, generate_v_surface, generate_vdiel, generate_hcond_in, generate_hcond_out, generate_vcond, triangulate, finalize, write_fastcap"]}
{"id": "C106", "title": "The text of a resistor network lists every node and resistor once", "statement": "str() and to_string() of every network that calls of the API can build, with node names without comma, colon and line end, read back as: one line per existing node in the order of ids, with its name (or id) and place; then one line per resistor, with the names of its two nodes, lower id first, and its conductance, or with resistance=True its resistance.  There is no text exactly if resistances are asked for and some conductance is zero (ZeroDivisionError).  Refuted: a name may be the number of another node, so that different networks have the same text; calls can leave a zero conductance.  str(network) never fails and lists the conductances.", "quantifier": "every history of calls, every naming, both modes", "why_tests_cant": "all networks, names and histories", "anchors": ["klayout_pex/rcx25/r/resistor_network.py: ResistorNetwork.to_string, __str__", "klayout_pex/rcx25/r/conductance.py: Conductance.__str__, res"]}
{"id": "C107", "title": "The resistors of the netlist are those KLayout found, between nets", "statement": "In modes R and RC, from the LVS database to the SPICE netlist: KLayout's extractor is asked about each net with the technology, its polygons, pins and terminals; the resistors added to the netlist are, for each pair of nets joined by an element of any network, one resistor of the sum of these elements, where a port (pin or terminal) of the network of a net is the net itself and an inner node is a net with the name of the node.  In mode R the run ends with a netlist if the technology has its tables and the extractor keeps to the layers and ports given.  Where no inner node is left, both ends of every resistor are at nets of the same name.  Refuted: resistance between two pins of a net has no effect in the netlist; nets without connection are joined if the extractor names an inner node of each alike; an inner node is one with an unnamed net of the layout of that name.", "quantifier": "every technology, LVS database, list of pins, devices and nets, every extractor, every netlist", "why_tests_cant": "all layouts and all networks the extractor may return", "anchors": ["klayout_pex/rcx25/extractor.py: RCX25Extractor.extract_cell", "klayout_pex/rcx25/r/r_extractor.py: RExtractor.prepare_request, extract", "klayout_pex/rcx25/extraction_results.py: CellExtractionResults.summarize", "klayout_pex/rcx25/netlist_expander.py: RCX25NetlistExpander.expand", "klayout_pex/kpex_cli.py: run_kpex_2_5d_engine"]}
{"id": "C108", "title": "Names of nets and the order of shapes do not change the 2.5D parasitics", "statement": "If every net gets another name (different nets different names, the substrate and shapes without a net as before), the run fails or succeeds as before, and the capacitances and resistances between the nets of the new names are the ones between the nets of the old names, and there are no others.  If KLayout presents the polygons of a layer, the edges of a layer or the intervals of an edge in another order, or the neighbours of a polygon on one layer, where these do not overlap, or the neighbours of an interval on one layer, where no two of the edge's own layer are equally near and what is left of those of other layers beside any shield reaches away from the edge, the run fails or succeeds as before with the same capacitances and resistances, and the netlist is the same with all its numbers where no two pairs of nets have the same names up to case.  Refuted without this condition: of two equally near ones of the same layer only the first gets the sidewall capacitance.", "quantifier": "every layout, technology, injective renaming, permutation of calls, mode and netlist", "why_tests_cant": "all layouts, all renamings and all orders", "anchors": ["klayout_pex/rcx25/c/overlap_extractor.py: PEXPolygonNeighborhoodVisitor.neighbors", "klayout_pex/rcx25/c/sidewall_and_fringe_extractor.py: PEXEdgeNeighborhoodVisitor", "klayout_pex/rcx25/c/polygon_utils.py: find_polygon_with_nearest_edge", "klayout_pex/rcx25/extraction_results.py: CellExtractionResults.summarize", "klayout_pex/rcx25/netlist_expander.py: RCX25NetlistExpander.expand"]}
{"id": "C109", "title": "The parasitics of the 2.5D netlist are those of a passive network", "statement": "Every capacitor that a run adds to the netlist joins two different nets and has a positive value, and every added resistor has a positive value if those of the extracted networks are positive; so the capacitors never hold negative energy, at any voltages of the nets, and hold none only if no capacitor has a voltage across it.  This needs a positive database unit, positive sidewall coefficients, and polygons of different nets on one layer so far apart that distance and offset add up to more than zero.  With the tables of sky130A any positive distance will do, with those of IHP any above 57 nm.  Refuted with the tables of IHP at smaller distances: two Metal1 shapes 30 nm apart give a negative capacitor in the netlist.", "quantifier": "every layout, technology, mode, resistor networks and netlist, and all voltages", "why_tests_cant": "all layouts and all voltages", "anchors": ["klayout_pex/rcx25/c/overlap_extractor.py: PEXPolygonNeighborhoodVisitor.neighbors", "klayout_pex/rcx25/c/sidewall_and_fringe_extractor.py: PEXEdgeNeighborhoodVisitor", "klayout_pex/rcx25/extraction_results.py: CellExtractionResults.summarize", "klayout_pex/rcx25/netlist_expander.py: RCX25NetlistExpander.expand", "klayout_pex/kpex_cli.py: run_kpex_2_5d_engine", "cxx/gen_tech_pb/pdk/sky130A.cpp: buildTech", "cxx/gen_tech_pb/pdk/ihp_sg13g2.cpp: buildTech"]}
{"id": "C110", "title": "The database unit of the layout does not change the 2.5D netlist", "statement": "If the same layout comes in a database unit that is k times as fine, with all coordinates k times as large, a run gives exactly the same netlist, with the same values: lengths, distances and areas enter only in um.  This supposes that what KLayout finds near each polygon and edge is the same with coordinates k times as large, that its subtraction of regions scales with them, and that no interval along an edge with something beside it is exactly one (coarse) unit long.  The fringe capacitance is the same in both units.  Refuted without the last condition: an interval of one unit is dropped, however long the unit is, so a capacitor may appear only in the finer unit.", "quantifier": "every factor k, layout, technology, mode, resistor networks and netlist", "why_tests_cant": "all layouts and all factors", "anchors": ["klayout_pex/rcx25/c/overlap_extractor.py: PEXPolygonNeighborhoodVisitor.neighbors", "klayout_pex/rcx25/c/sidewall_and_fringe_extractor.py: PEXEdgeNeighborhoodVisitor", "klayout_pex/rcx25/c/polygon_utils.py: find_polygon_with_nearest_edge, nearest_edge, nearest_edge_distance", "klayout_pex/rcx25/extractor.py: RCX25Extractor.extract"]}
{"id": "C111", "title": "Shapes far from a net do not change its parasitics", "statement": "Let shapes of new nets be added to a layout, so far away that the edges there were see none of them within the halo, and without overlapping the polygons there were (the substrate may grow, and they may lie above or below old shapes as long as they do not come between them).  If the run on the larger layout succeeds, so does the run on the smaller one, and both netlists have exactly the same capacitors and resistors between any two nets that are not new.  This supposes an overlap table with an entry for every two layers, as those of the shipped PDKs have.  Refuted without: a new shape on a layer without an entry ends the search, and another net loses its capacitor.", "quantifier": "every layout, every addition, technology, mode, resistor networks and netlist", "why_tests_cant": "all layouts and all additions", "anchors": ["klayout_pex/rcx25/c/overlap_extractor.py: PEXPolygonNeighborhoodVisitor.neighbors", "klayout_pex/rcx25/c/sidewall_and_fringe_extractor.py: PEXEdgeNeighborhoodVisitor", "klayout_pex/rcx25/extractor.py: RCX25Extractor.extract", "klayout_pex/rcx25/extraction_results.py: CellExtractionResults.summarize", "klayout_pex/rcx25/netlist_expander.py: RCX25NetlistExpander.expand"]}
{"id": "C112", "title": "Mode RC gives what modes CC and R give", "statement": "For the same layout, technology and netlist, a 2.5D run in mode RC succeeds if and only if the runs in modes CC and R both succeed.  Its netlist has between every two nets exactly the capacitors of the run in mode CC and the resistors of the run in mode R; the run in mode CC adds no resistor and the one in mode R adds no capacitor.", "quantifier": "every layout, technology, resistor networks, netlist, and blackbox setting", "why_tests_cant": "all inputs, and a comparison of three runs", "anchors": ["klayout_pex/rcx25/pex_mode.py: PEXMode", "klayout_pex/rcx25/extractor.py: RCX25Extractor.extract_cell", "klayout_pex/rcx25/extraction_results.py: CellExtractionResults.summarize", "klayout_pex/rcx25/netlist_expander.py: RCX25NetlistExpander.expand"]}
{"id": "C113", "title": "A field solver run turns the last matrix of the log into the netlists", "statement": "Let the log of FasterCap (or FastCap) end in a complete capacitance matrix whose conductors g<number>_<net> belong to different nets of the layout or the substrate, with no positive mean coupling and no negative row sum of means.  Then the run ends with an expanded netlist in which the top circuit has, besides the kept devices, on the layout's own nets exactly the capacitances of the matrix averaged with its transpose: the charges at all potentials, and the capacitance between every two nets.  The reduced netlist is the combined expanded netlist without exactly its capacitors below 0.05 fF.  A log without a matrix gives no netlist.  Refuted for FastCap with the names of the log shown in its source ($1%GROUP2): whatever the layout, such a run ends with an exception and no netlist.", "quantifier": "every log text, layout netlist, blackbox setting, all numbers and potentials", "why_tests_cant": "all logs, matrices and netlists", "anchors": ["klayout_pex/kpex_cli.py: KpexCLI.run_fastercap_extraction, KpexCLI.run_fastcap_extraction", "klayout_pex/fastercap/fastercap_runner.py: fastercap_parse_capacitance_matrix", "klayout_pex/fastcap/fastcap_runner.py: fastcap_parse_capacitance_matrix", "klayout_pex/common/capacitance_matrix.py: CapacitanceMatrix.averaged_off_diagonals", "klayout_pex/klayout/netlist_expander.py: NetlistExpander.expand", "klayout_pex/klayout/netlist_reducer.py: NetlistReducer.reduce"]}
{"id": "C114", "title": "The substrate is the reference of the field solver's capacitance matrix", "statement": "The first conductor that FasterCap reads from the files of a run is the net whose shapes lie lowest, in whatever order shapes were added.  The input builder adds the substrate VSUBS after all nets, below them and under the whole layout except around diffusions; if the substrate has a thickness and no metal is below height zero, VSUBS is therefore always conductor 0.  So if FasterCap prints the conductors in the order it reads them, the expanded netlist connects the capacitance to ground of every other conductor (the sum of its matrix row) to the net VSUBS.  Refuted for a technology whose substrate has no thickness, the default of the technology file: then a net of the layout becomes conductor 0 and gets the ground capacitances.", "quantifier": "every layout along the axes, technology stack, set of nets, halo and margin, matrix and netlist", "why_tests_cant": "all layouts, technologies and matrices", "anchors": ["klayout_pex/fastercap/fastercap_input_builder.py: FasterCapInputBuilder.build", "klayout_pex/fastercap/fastercap_model_generator.py: FasterCapModelBuilder.generate, FasterCapModelGenerator.write_fastcap", "klayout_pex/klayout/netlist_expander.py: NetlistExpander.expand"]}
{"id": "C115", "title": "The order of the stack decides which dielectric around a metal the field solver sees", "statement": "The input builder adds each dielectric around a metal as a body that contains the ones inside it. In the FasterCap model a place outside of the conductors and the field oxide belongs to the dielectric listed first in the technology among those added there. So if the inner of two dielectrics is listed before the outer one, the outer one is nowhere in the place of the inner one. If the outer one is listed first, the inner one is missing from all of its own place. Names may occur more than once.", "quantifier": "every technology stack and filter, layout, metal, pair of dielectrics around it, place and height", "why_tests_cant": "all stack orders, chains and layouts", "anchors": ["klayout_pex/fastercap/fastercap_input_builder.py: FasterCapInputBuilder.build L117-120, L240-305", "klayout_pex/tech_info.py: dielectric_by_name, sidewall_dielectric_layer", "klayout_pex/fastercap/fastercap_model_generator.py: FasterCapModelBuilder.generate, FasterCapModelGenerator.finish_z"]}
{"id": "C116", "title": "Thickness of conformal dielectrics around a metal", "statement": "The first conformal dielectric around a metal ends its thickness over metal above the top of the metal. Refuted for every further one: its top is its thickness over metal above the one inside, plus the thickness of the metal once more. IHP's second passivation over TopMetal2 is such a case.", "quantifier": "every technology stack and filter, layout, metal and chain of dielectrics", "why_tests_cant": "all stacks and chains", "anchors": ["klayout_pex/fastercap/fastercap_input_builder.py: FasterCapInputBuilder.build L117-120, L240-305"]}

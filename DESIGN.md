# Formal model of klayout-pex in Rocq (Coq 8.16.1)

`properties.jsonl` lists the properties (C01 …), `MANIFEST.json` says which theorem
proves which property, `rocq/theories/` holds model, specifications and proofs.

## 1. Conventions

* One area of the code = up to four files: `X_Model.v` (executable Gallina functions, one per
  Python function, each with a comment citing file and lines in /repo), `X_Spec.v` (a small
  independent specification), `X_Proofs.v` (lemmas), `X_Props.v` (only property theorems,
  each `exact lemma`, `Print Assumptions`, and non-vacuity `Example`s).
* Python dict = association list in insertion order (`PyBase.v`), `d[k]=v` replaces in place
  or appends, `del d[k]` / `d[k]` on a missing key is an error value (`None`), never a default.
* Exceptions are values: a function that can raise returns `option` / `res`.
* `while` loops are functions on explicit fuel returning an error when fuel runs out; theorems
  prove that enough fuel exists (termination) or exclude exhaustion.
* floats are exact: rationals `Qc` (canonical rationals, Leibniz equality), or the reals `R` where `atan` is
  needed.  Rounding errors of IEEE arithmetic are modelled in FP_*, FC_*, TG_*, RF_*, NF_*, MF_*, ST_*, GF_* and VX_* only (C91 to C98, C101, C104, C105), with Flocq's binary64.
* Database-unit coordinates are `Z`.  Strings are Coq `string`s (bytes); Python's unicode
  case folding is restricted to ASCII.
* A KLayout `Region` in the sweep/overlap models is its set of points: a boolean predicate
  (`point -> bool`); `+`, `-`, `&` are pointwise.  The concrete polygon engine of KLayout, its
  Delaunay triangulation, LVS and netlist combination are external (oracles or not modelled).

## 2. Plan per property

| id | model | proof idea |
|----|-------|-----------|
| C01 | resistor network state (7 tables), all operations | invariant by induction over histories |
| C02 | current into node = sum over star of g*(v_n - v_other) | star-mesh algebra (field) by sums over lists |
| C03 | eliminate_all with fuel | measure = number of non-precious nodes, then nmax |
| C04 | as C02/C03 | induction over the elimination sequence; refutation by witness |
| C05 | connect_nodes | invariant + current equation |
| C06 | add_cond | induction over calls |
| C07 | node_id | invariant ids < next_id |
| C08 | is_skinny_tri/expand over Q points, the foot rounded to the grid | case split + refutation witness |
| C09 | Conductance | field |
| C10-C13 | results tables, summarize, merged | fold/sum lemmas over association lists |
| C14 | netlist = nets + devices; expander | induction over sorted items |
| C15,C16 | visitor as fold over neighbourhood with boolean regions | invariant shielded = union of visited; refutation |
| C17 | fringe_cap over R | atan monotonicity, field |
| C18 | emit_sidewall over Qc + summary model | algebra |
| C19-C21 | on_edge index ranges, nearest polygon, emit_fringe loop | lia, induction, refutation |
| C22,C23 | matrix as list of lists, CSV text | induction, string split/join lemmas |
| C24,C25 | FasterCap expander | sums over rows |
| C26 | reducer | filter lemmas |
| C27,C28 | log parser on list of lines with Python indices | list lemmas; refutation |
| C29-C31 | sweep as per-point boolean machine | invariant over z events; owner function as spec |
| C32 | left/right owner at a boundary | case analysis over lists of names |
| C33 | finalize | association-list lemmas |
| C34,C35 | write_fastcap numbering and names | induction over groups |
| C36 | _check_tris and _split_edges on integer points | invariants; measure for termination |
| C37 | floor(z/dbu+1e-6) over Q | Qfloor lemmas |
| C38 | sidewall chain | pigeonhole on acyclic reference graph; refutation by cycle |
| C39,C40 | tech table construction | last-wins lookup lemmas |
| C41,C42 | strings | case analysis/induction |
| C43 | file system + runs as state machine | invariant over histories; refutation |
| C44 | converter | round trip |
| C45-C47 | request building, port lists | grouping lemmas |
| C48,C49 | line grammar parser | print/parse round trip |
| C50,C51 | id table | invariant injective |
| C52,C53 | path parser, tree repair | round trip; induction over tree |
| C54 | layer merging | grouping lemmas |
| C55 | layer mapping | list lemmas |
| C56 | mode table | finite case analysis |
| C57,C58 | 2.5D expander | induction over sorted items; sort is independent of the order of extraction |
| C59 | FasterCap expander, axes | last-named lookup; refutation (layout net VSUBS) |
| C60,C61 | FastCap log parser, number units | last header lemma; refutation |
| C62-C65 | FasterCap input builder over a layer stack | interval lemmas on z, list lemmas |
| C66-C69 | LVS database to shapes, pins, devices | grouping and filter lemmas |
| C70,C71 | resistance technology and result conversion | list lemmas |
| C72-C76 | shipped PDKs, generated from the builder source | complete evaluation over the finite PDK tables, then general lemmas about every layout |
| C77,C78 | command line validation, run directory names | case analysis; injectivity of names; refutations |
| C79 | netlist svg | lookup lemmas; refutation |
| C80-C82 | Magic script read by a small Tcl, Magic as a state machine, tool loop | simulation; refutations |
| C83,C84 | engines and logs on a file system | invariants over histories; refutations |
| C99 | logs of runs that are killed at any operation | each log goes through phases; an invariant per phase and kind, and contents only grow or move |
| C100 | logs of runs at the same time | simulation: a process among others and the same process alone see equal files under its directory |
| C101 | STL files | an independent reader of the text; exact corners by C96, their cross product in exact numbers; the dictionaries of triangles as permutations of the surfaces |
| C102 | log levels | the calls of a run as a list; what each appends to console and files, by induction, with levels compared by their position in the list of words |
| C104 | FasterCap's input files | an independent reader of the list and of the panels; the text of each file read back, labelled triangles of all files as a permutation of those of the surfaces, then C93 and C96 for each panel |
| C105 | from the builder's calls to the panels | the sweep of C29 to C32 and the files of C104 put together: for each face between two unit cubes, the panels read at a point of it are those that the owners of the cubes call for; vertical surfaces are collected plane by plane (VX_Walls), points are carried between the plane of a triangulation and space (VX_Geo), a point on no side of a panel always exists (VX_Points) |
| C106 | text of a network | reading the text line by line; sortedness of the listed ids and pairs from the invariant of C01 |
| C107 | resistors of the netlist | composition of C13, C14, C45, C46 and C56 around `run`; induction over requests and elements |
| C108 | names and order | the run commutes with renaming (folds commute step by step); permutations of calls give permuted reports; disjoint neighbours commute; then C11 and C58 |
| C109 | a passive network | every report is positive and between two nets: invariants of the three loops, with the tests that guard each report; sums of positive reports; squares for the energy |
| C110 | the database unit does not matter | the visitors commute with multiplication of all coordinates (lateral state, shields, pieces); lengths and distances in um, and areas in um2, are equal.  That the calls of KLayout in the finer unit are the scaled ones is a hypothesis: bext, eext and din of -1 unit (sidewall_and_fringe_extractor.py L94-96) and snapping to the grid may change them |
| C111 | far shapes change nothing between others | the two runs keep the same shield on the points of old polygons; the reports between old nets of the longer run are a permutation of those of the shorter one; then C86's sums.  What KLayout finds near the old edges is the same by hypothesis (beyond the halo) |
| C112 | mode RC gives what CC and R give | the mode only gates the two lists of reports (C56); the expander adds capacitors from one and resistors from the other, so the three runs share their sums |
| C113 | the field solver engines from log to netlists | composition of C22, C24, C26, C27, C59 and C60; combine_devices is a parameter that keeps the circuits.  Refutation: the conductor names of the FastCap log in the source comment never match the pattern of the expander |
| C114 | the substrate as conductor 0 | the first conductor surface of the sweep is that of the lowest net, from the invariant of C29 to C32 applied up to its level; dictionaries keep the order of first insertion (FG_Model.group), so it is the first conductor of the list file; a corner of the 8 um halo is never within 1 um of a diffusion, so the substrate region is not empty; composed with C113.  Refutation: a substrate of thickness zero has no level |
| C115 | order of dielectrics | a dictionary and the list of materials keep the order of first declaration, so an earlier name is found before a later one; the links of a chain are among the calls (C38) and lie inside each other |
| C116 | thickness of conformal dielectrics | the height of a link is the sum over the chain; refutation by a metal under two passivations, as in IHP's stack |
| C103 | cases of options | an independent reader of the help text (words in quotes before and after the brace); membership in both directions for any enumeration |
| C85 | CSV text | print/read round trip; refutations |
| C86 | the 2.5D engine from visitor calls to netlist | composition of C10, C14, C15, C18-C21, C56, C72; refutation of the unit |
| C87 | report database, capacitances | induction over the calls with the counters as invariant; titles told apart by their numbers; splitting at the dash |
| C88 | report database, resistances | induction over networks; exact condition for the KeyError, refutation by a layout with a contact under an empty metal |
| C89 | report on a Magic run | induction over cells and objects; error of at most one unit from KLayout's conversion of floats; refutations by a scale line and by files left from earlier runs |
| C90 | environment and command lines | an independent reader for each tool's command line, read back; refutations by environments and by missing programs |
| C91 | floating point at the grid | Flocq binary64: error of each operation, induction over the terms of a height; refutation of the width of a sidewall by computation |
| C92 | floating point in capacitances | relative errors of positive quantities through products, quotients, sums and `atan`; absolute errors after the subtraction of a fringe; induction over the sums, Python's compensated one and the plain one |
| C93 | triangles for FasterCap | absolute errors of the cross product on a grid, below a quarter of its smallest step; relative error of the normalisation; induction over the surfaces, with C33 for the combination |
| C94 | walls for FasterCap | whole numbers stay exact in binary64; the same product is rounded on both ways; refutation by a slanted edge |
| C95 | rounding in resistor networks | the network of floats has the tables of the exact one; relative error of each new conductance; the power of a star is that of its mesh plus a square; errors of the power add up over the eliminations, by induction; the conductances together do not grow, so nothing overflows |
| C96 | twelve digits | the digits are the nearest integer to the scaled number, also if it is rounded up to the next power of ten; a number near to one of twelve digits gets its digits |
| C97 | CSV files | reading is correct rounding; 2^-53 is less than half a unit of the twelfth digit, so the text comes back |
| C98 | capacitors from the solver's matrix | additions have no underflow, so the error of a row sum is relative to the sum of sizes; the capacitors are a sum over pairs, compared with the matrix at all voltages |

Properties that no executable model can express: none so far; KLayout's polygon engine,
the field solver binaries and the LVS scripts are outside the model (see trusted base).

## 3. Trusted base

* Coq 8.16.1 kernel (and `vm_compute` where used by Examples / refutations).
* The reading of /repo recorded in the model comments: nothing was executed.
* The readers of other programs' formats in the `*_Spec.v` files (STL, FasterCap's input files, CSV, command lines, a small Tcl), which follow the
  descriptions of these formats; the programs themselves were not run.
* `Print Assumptions` output per theorem is listed in section 4 (kept up to date).

## 4. Assumptions per theorem

`Print Assumptions` follows every claim theorem in the `*_Props.v` files, so a build prints the answers. Result:

* every theorem named in `MANIFEST.json` except those of C17, C91 to C98, C101, C104, C105 and C114: "Closed under the global context";
* the theorems of C17 (fringe capacitance over the real numbers, because of `atan`): the standard library's
  `ClassicalDedekindReals.sig_not_dec`, `ClassicalDedekindReals.sig_forall_dec`,
  `FunctionalExtensionality.functional_extensionality_dep` and `Classical_Prop.classic`, for each of the seven;
* the theorems of C91 (binary64 numbers of Flocq, whose values are real numbers): the same four, for each of the fourteen;
* the theorems of C92 (the same, and `atan`): the same four, for each of the six;
* the theorems of C93 and C94 (binary64 again): the same four, for each of the seven and the four;
* the theorems of C95 (binary64 again): the same four for `C95_built`, `C95_done` and `C95_power`; `C95_factor` needs `sig_forall_dec` and `functional_extensionality_dep` only;
* the theorems of C96 and C97 (binary64 again): the same four, except that `C96_near`, `C96_exact` and `C96_unique` need `sig_forall_dec` and `functional_extensionality_dep` only.
* the theorems of C98 (binary64 again): the same four, except that `C98_factor` needs `sig_forall_dec` and `functional_extensionality_dep` only.
* the theorems of C101, C104, C105 and C114 (binary64 again): the same four, except that `C101_unique` and `C104_unique` need `sig_forall_dec` and `functional_extensionality_dep` only.

No axiom, parameter, functor or module type is declared in `rocq/theories`. Section variables stand for the external functions
listed in section 5; after the section closes they are universally quantified in the theorems.

## 5. Modelled / not modelled

| source file | model | left out, or an arbitrary function |
|---|---|---|
| `klayout_pex/rcx25/r/resistor_network.py`, `conductance.py` | RN_Model, RF_Model (conductances as floats), Cond_Model, Tri_Model, NT_Model (text output) | kdb.Polygon dropping corners of triangles without area |
| `rcx25/r/r_extractor.py`, `klayout/rex_core.py` | RQ_Model | KLayout's resistance extraction itself is any function of the request; report output |
| `rcx25/extraction_results.py` | ER_Model, FC_Model (sums of floats) | `__str__`-like helpers |
| `rcx25/netlist_expander.py` | NX_Model | KLayout's netlist classes are records |
| `rcx25/c/overlap_extractor.py` | OV_Model, FC_Model (the capacitance as a float) | polygons are point sets; `area` is an additive function; report output |
| `rcx25/c/sidewall_and_fringe_extractor.py`, `polygon_utils.py` | SF_Model, FR_Model, FP_Model (halo), FC_Model (capacitances as floats) | the polygon engine (`cut`); report output; the C library's `pow` and `atan` are any functions, in C92 with an error below one unit in the last place |
| `rcx25/extractor.py` | LV_Model (`extract_cell` up to the visitors), E2_Model (`extract`, the loops over layers), RX_Model (the resistance extraction from request to netlist) | which calls KLayout's complex region operations make |
| `rcx25/extraction_reporter.py` | RP_Model (overlap, sidewall, fringe, technology of the resistance request, networks of the result) | the lists of devices, pins and regions of the request, the edge neighbourhoods of debug runs, the report file |
| `rcx25/pex_mode.py`, `util/*.py`, `klayout/repair_rdb.py` | UT_Model | unicode case folding; XML parsing |
| `tech_info.py`, `fastercap/fastercap_input_builder.py` | TI_Model, LV_Model, RQ_Model, PD_Model, FP_Model (widths), FO_Model (conductors and substrate); C115 and C116 (DW_Spec) are about TI_Model | protobuf/JSON reading; region sizing is any function |
| `log/logger.py`, `util/argparse_helpers.py` (render_enum_help), options of `kpex_cli.py` and `netlist/netlist_cli.py` with cases | LL_Model | Rich prints what it is given; `%` knows %s and %% only; letters are ASCII |
| `fastercap/fastercap_model_generator.py` | SW_Model, FG_Model, CK_Model, FP_Model (heights), TG_Model (places and sides of triangles), NF_Model (texts of coordinates), ST_Model (STL files), GF_Model (FasterCap's files), VX_Model (all of it, from the calls to the files) | Delaunay triangulation (any triangles; clockwise in C93; clockwise and covering each unit square of the region exactly once in C105), KLayout's conversions between integers and floats (in C94 any that keep whole numbers), the decomposition into trapezoids |
| `fastercap/fastercap_runner.py`, `fastcap/fastcap_runner.py` | LG_Model, EN_Model, MS_Model (tool loop), EV_Model (command line) | the solvers; how Python writes a float (any function to numerals); `float()` is any function |
| `common/capacitance_matrix.py` | CM_Model, MF_Model (averages on binary64), NF_Model (`'%.12g'` and `float()` on binary64) | encodings; infinities and NaN in matrices; what `float()` accepts besides decimal notation |
| `klayout/netlist_expander.py`, `netlist_reducer.py`, `netlist_csv.py` | FX_Model, CS_Model, MF_Model (capacitances as floats) | `combine_devices` is any function |
| `klayout/lvsdb_extractor.py`, `shapes_pb2_converter.py` | LV_Model, RQ_Model | the LVS database reader; `dump` output |
| `klayout/lvs_runner.py` | CL_Model, EV_Model (command line) | KLayout's LVS run is any function |
| `kpex_cli.py` | CL_Model (arguments, run directory, LVS cache), EV_Model (programs), ML_Model (Magic report), EN_Model (engines), FE_Model (field solver runs from log to netlists), RL_Model (logs), RC_Model (logs, operation by operation), CS_Model (table) | help texts; argparse's own parsing; `rich` output |
| `magic/magic_runner.py`, `magic_ext_file_parser.py`, `magic_ext_data_structures.py` | MS_Model, MG_Model, EV_Model (command line) | Magic is a small state machine in MS_Spec |
| `netlist/netlist_cli.py`, `netlistsvg/netlist_json.py` | NJ_Model | netlistsvg; JSON text output |
| `magic/magic_log_analyzer.py` | ML_Model | KLayout's conversion of a float to a coordinate (any function with an error below one) and Python's text of a float; the report file; argparse |
| `env.py`, `netlistsvg/netlistsvg_runner.py` | EV_Model | netlistsvg; help text |
| `log/logger.py` | RL_Model, RC_Model | the console; loss of data that the system has not yet written when the machine itself stops |
| `convert_layout_pdk.py`, the two `.lyp` files | CV_Model, CV_Lyp | flattening of the layout; XML reading (the texts of the elements are in CV_Lyp); the list of layers |
| `cxx/gen_tech_pb/*` (the shipped technologies) | PD_Model, PD_Build, PD_Sky130A, PD_Ihp | descriptions |

Not modelled at all: `rcx25/c/geometry_restorer.py`, `lvs_layer_names.py`, the Ruby LVS scripts, the C++ program apart from the technology tables, and KLayout, FasterCap, FastCap, Magic and netlistsvg themselves.

In C105 a region is a set of unit squares and an edge is a row of units, so shapes have edges along the axes; the code's treatment of an edge as a whole gives the same region in the plane of a wall, as boxes are merged there.

Further simplifications are noted at each definition. The main ones: numbers are exact (no IEEE rounding, infinities or NaN, except in C91 to C98, C101, C104 and C105),
strings are bytes, logging calls are dropped unless a property is about them, and no two threads run in one process.

## 6. Wrong-program trials

`seeded/LOG.jsonl` has one line per trial: a definition of the model edited in a scratch copy, and what Coq then reported.

- `failed_first`: file and lemma at which Coq reported an error. This is all a trial observes.
- `theorems_failed`: the claim theorems among them, that is, the theorem's own proof broke.
- `theorems_not_reached`: claim theorems that come after the error or import a file that failed. Coq did not get to them.

- `examples_false` (from the TI area on): Examples of the Props file whose negation Coq proves of the edited model. They show
  that the edit really changes observable behaviour, without going through any proof script.
- A note `INVALID TRIAL` marks an edit after which the model itself no longer type-checked, so that nothing was tested.

A helper lemma usually breaks first, so most trials name theorems only as not reached. Such a trial shows that the proof as written
no longer goes through. It does not by itself show that the theorem is false of the edited model, since another proof might exist.
The first 112 lines were once written with both groups under `theorems_failed`; they were recomputed from `failed_first`.

{
 "claims": [
  {
   "property": "C01",
   "status": "proved",
   "theorems": [
    "C01_consistent"
   ],
   "note": ""
  },
  {
   "property": "C02",
   "status": "proved",
   "theorems": [
    "C02_eliminate_equivalent"
   ],
   "note": ""
  },
  {
   "property": "C03",
   "status": "proved",
   "theorems": [
    "C03_eliminate_all_terminates"
   ],
   "note": ""
  },
  {
   "property": "C04",
   "status": "proved",
   "theorems": [
    "C04_eliminate_all_equivalent",
    "C04_weak_resistors_refuted",
    "C04_nonnegative"
   ],
   "note": "equivalence under the stated proviso; without the proviso it is refuted by a witness"
  },
  {
   "property": "C05",
   "status": "proved",
   "theorems": [
    "C05_connect_is_short",
    "C05_isolated_node_stays_refuted"
   ],
   "note": ""
  },
  {
   "property": "C06",
   "status": "proved",
   "theorems": [
    "C06_parallel"
   ],
   "note": ""
  },
  {
   "property": "C07",
   "status": "proved",
   "theorems": [
    "C07_ids_stable"
   ],
   "note": ""
  },
  {
   "property": "C08",
   "status": "partial",
   "theorems": [
    "C08_triangle_split_partial",
    "C08_third_side_refuted",
    "C08_slanted_refuted"
   ],
   "note": "Proved when the long side is the first or second one and along an axis; for slanted sides the split point is on the grid and next to the foot, and the areas of the parts add up within a bound. Refuted for the third side, and for slanted sides, where the rounded point is not on the side. kdb.Polygon's clean-up of parts without area is not modelled."
  },
  {
   "property": "C09",
   "status": "proved",
   "theorems": [
    "C09_conductance_laws"
   ],
   "note": ""
  },
  {
   "property": "C10",
   "status": "proved",
   "theorems": [
    "C10_summary_conserves",
    "C10_summary_total"
   ],
   "note": ""
  },
  {
   "property": "C11",
   "status": "proved",
   "theorems": [
    "C11_order_and_orientation"
   ],
   "note": ""
  },
  {
   "property": "C12",
   "status": "proved",
   "theorems": [
    "C12_cells_add_up",
    "C12_merge_laws"
   ],
   "note": ""
  },
  {
   "property": "C13",
   "status": "proved",
   "theorems": [
    "C13_resistances_sum",
    "C13_parallel_refuted"
   ],
   "note": "the plain-sum part is proved; the parallel-combination expectation is refuted"
  },
  {
   "property": "C14",
   "status": "proved",
   "theorems": [
    "C14_expansion_faithful"
   ],
   "note": ""
  },
  {
   "property": "C57",
   "status": "proved",
   "theorems": [
    "C57_names_resolve_to_layout_nets",
    "C57_existing_substrate_refuted"
   ],
   "note": ""
  },
  {
   "property": "C58",
   "status": "proved",
   "theorems": [
    "C58_expansion_deterministic",
    "C58_any_extraction_order"
   ],
   "note": ""
  },
  {
   "property": "C15",
   "status": "proved",
   "theorems": [
    "C15_overlap_first_cover",
    "C15_overlap_areas_disjoint"
   ],
   "note": ""
  },
  {
   "property": "C16",
   "status": "partial",
   "theorems": [
    "C16_overlap_until_missing_spec_partial",
    "C16_missing_spec_only_affects_its_pair_refuted"
   ],
   "note": "false as a general claim (witness in the refuted theorem); proved: exactly the candidates before the first missing specification are reported"
  },
  {
   "property": "C17",
   "status": "proved",
   "theorems": [
    "C17_defined",
    "C17_value",
    "C17_nonneg_and_zero",
    "C17_monotone",
    "C17_strictly_monotone",
    "C17_additive",
    "C17_bounds",
    "C17_zero_halo_raises"
   ],
   "note": "over the reals; uses the axioms of Coq's Reals library"
  },
  {
   "property": "C18",
   "status": "proved",
   "theorems": [
    "C18_sidewall_value",
    "C18_two_sides_make_the_cap",
    "C18_sidewall_positive_decreasing"
   ],
   "note": ""
  },
  {
   "property": "C19",
   "status": "proved",
   "theorems": [
    "C19_fringe_shield_layers",
    "C19_on_edge_per_interval"
   ],
   "note": ""
  },
  {
   "property": "C20",
   "status": "proved",
   "theorems": [
    "C20_nearest_polygon",
    "C20_sidewall_and_lateral_shield",
    "C20_no_exception"
   ],
   "note": ""
  },
  {
   "property": "C21",
   "status": "partial",
   "theorems": [
    "C21_fringe_every_piece",
    "C21_fringe_until_thin_piece_partial",
    "C21_every_piece_contributes_refuted"
   ],
   "note": "false as a general claim (witness in the refuted theorem); proved when no piece has near = far, and up to the first such piece otherwise"
  },
  {
   "property": "C22",
   "status": "proved",
   "theorems": [
    "C22_average",
    "C22_average_laws"
   ],
   "note": ""
  },
  {
   "property": "C23",
   "status": "proved",
   "theorems": [
    "C23_csv_round_trip"
   ],
   "note": "the number formatter and float() are parameters; the hypotheses say that float() reads the formatted text back as the rounded value"
  },
  {
   "property": "C24",
   "status": "proved",
   "theorems": [
    "C24_realises_matrix"
   ],
   "note": ""
  },
  {
   "property": "C25",
   "status": "proved",
   "theorems": [
    "C25_expansion_exact",
    "C25_no_invented_capacitor"
   ],
   "note": ""
  },
  {
   "property": "C26",
   "status": "proved",
   "theorems": [
    "C26_reduce_exact",
    "C26_reduce_idempotent"
   ],
   "note": "combine_devices is KLayout's and a parameter"
  },
  {
   "property": "C27",
   "status": "proved",
   "theorems": [
    "C27_last_matrix_parsed"
   ],
   "note": "float() is a parameter"
  },
  {
   "property": "C28",
   "status": "partial",
   "theorems": [
    "C28_truncated_rejected_partial",
    "C28_missing_rows_come_from_the_top",
    "C28_missing_row_refuted",
    "C28_cut_row_refuted"
   ],
   "note": "false as a general claim: logs with a one-word first line, or cut inside the last row, are accepted; proved for logs cut between rows whose first line is ordinary text"
  },
  {
   "property": "C59",
   "status": "partial",
   "theorems": [
    "C59_axes_name_layout_nets_partial",
    "C59_existing_vsubs_refuted"
   ],
   "note": "false for layout nets called VSUBS or FC_GND; proved for all other names"
  },
  {
   "property": "C60",
   "status": "proved",
   "theorems": [
    "C60_last_fastcap_matrix_parsed",
    "C60_rejected"
   ],
   "note": "float() is a parameter"
  },
  {
   "property": "C61",
   "status": "partial",
   "theorems": [
    "C61_unit_refuted",
    "C61_unit_is_ignored"
   ],
   "note": "false of the code: the unit is matched but never used"
  },
  {
   "property": "C29",
   "status": "partial",
   "theorems": [
    "C29_sweep_state_partial",
    "C29_levels",
    "C29_single_name_refuted"
   ],
   "note": "false for models with a single name (the separation check empties the aliased region); proved for two or more names"
  },
  {
   "property": "C30",
   "status": "partial",
   "theorems": [
    "C30_disjoint_partial"
   ],
   "note": "proved for two or more names"
  },
  {
   "property": "C31",
   "status": "partial",
   "theorems": [
    "C31_horizontal_partial",
    "C31_no_surface_missing",
    "C31_single_name_refuted",
    "C31_ghost_surface_refuted"
   ],
   "note": "false in general: extra surfaces where a third material is present on both sides of a hand-over; proved otherwise, and no expected surface is missing"
  },
  {
   "property": "C32",
   "status": "partial",
   "theorems": [
    "C32_vertical_partial",
    "C31_single_name_refuted"
   ],
   "note": "proved for two or more names; false for a single name"
  },
  {
   "property": "C33",
   "status": "proved",
   "theorems": [
    "C33_combine",
    "C33_boundary"
   ],
   "note": "surfaces between a material and itself are kept reversed"
  },
  {
   "property": "C34",
   "status": "proved",
   "theorems": [
    "C34_every_surface_once",
    "C34_file_numbers",
    "C34_conductor_numbers",
    "C34_collation",
    "C34_no_key_error"
   ],
   "note": ""
  },
  {
   "property": "C35",
   "status": "proved",
   "theorems": [
    "C35_distinct_names",
    "C35_fits",
    "C35_no_room_refuted"
   ],
   "note": "without room for prefix and hash the shortened name can still be too long, as the refutation shows; dielectric file names are never shortened"
  },
  {
   "property": "C36",
   "status": "proved",
   "theorems": [
    "C36_terminates",
    "C36_sound",
    "C36_complete",
    "C36_complete_exact",
    "C36_report",
    "C36_exactly_closed_refuted"
   ],
   "note": "the stronger reading, that only closed surfaces pass, is refuted"
  },
  {
   "property": "C37",
   "status": "proved",
   "theorems": [
    "C37_interval",
    "C37_monotone",
    "C37_multiples",
    "C37_thick_stays",
    "C37_thin_vanishes"
   ],
   "note": "exact rationals instead of floats"
  },
  {
   "property": "C38",
   "status": "proved",
   "theorems": [
    "C38_terminates",
    "C38_terminates_distinct_names",
    "C38_cycle_never_ends",
    "C38_chain_in_order",
    "C38_ambiguous_rejected",
    "C38_links_nested"
   ],
   "note": "Sizing, shapes and the bounding box are arbitrary; nesting assumes that sizing outwards keeps the region. Truthiness of an empty kdb.Region is a parameter, both answers are covered. C38_cycle_never_ends is about one metal."
  },
  {
   "property": "C39",
   "status": "proved",
   "theorems": [
    "C39_overlap_table"
   ],
   "note": "Includes which layers have a row at all."
  },
  {
   "property": "C40",
   "status": "proved",
   "theorems": [
    "C40_side_overlap_table",
    "C40_missing_substrate_fails"
   ],
   "note": "The KeyError for a layer without substrate entry is modelled as None."
  },
  {
   "property": "C62",
   "status": "proved",
   "theorems": [
    "C62_dielectric_below_next_metal",
    "C62_dielectric_above_top_metal"
   ],
   "note": "Only the named metal has to have a unique name up to the next metal."
  },
  {
   "property": "C63",
   "status": "proved",
   "theorems": [
    "C63_materials_declared"
   ],
   "note": "Uses the builder model of C29."
  },
  {
   "property": "C64",
   "status": "proved",
   "theorems": [
    "C64_no_gap"
   ],
   "note": "Exact heights, before rounding to dbu."
  },
  {
   "property": "C65",
   "status": "proved",
   "theorems": [
    "C65_conductors_kept"
   ],
   "note": "Ownership as in C29, at the rounded heights."
  },
  {
   "property": "C41",
   "status": "proved",
   "theorems": [
    "C41_rejected",
    "C41_is_included",
    "C41_filter",
    "C41_upper_case_unnamed",
    "C41_neither_refuted"
   ],
   "note": "lower() modelled for ASCII letters"
  },
  {
   "property": "C42",
   "status": "proved",
   "theorems": [
    "C42_true_or_false",
    "C42_digits_refuted"
   ],
   "note": "lower() modelled for ASCII letters"
  },
  {
   "property": "C52",
   "status": "proved",
   "theorems": [
    "C52_parse_written",
    "C52_all_names_writable",
    "C52_lone_backslash_refuted",
    "C52_trailing_empty_refuted"
   ],
   "note": ""
  },
  {
   "property": "C53",
   "status": "proved",
   "theorems": [
    "C53_repair",
    "C53_old_paths_kept",
    "C53_missing_element_refuted"
   ],
   "note": "names without apostrophes; XML reading and writing are not modelled"
  },
  {
   "property": "C54",
   "status": "proved",
   "theorems": [
    "C54_layers",
    "C54_once",
    "C54_no_loss",
    "C54_unknown_refuted"
   ],
   "note": "layer indexes of the LVS database are distinct; net shapes come from KLayout's build_all_nets"
  },
  {
   "property": "C55",
   "status": "partial",
   "theorems": [
    "C55_moved",
    "C55_unknown",
    "C55_inverse",
    "C55_back",
    "C55_shipped",
    "C55_converted",
    "C55_joins",
    "C55_apart",
    "C55_program",
    "C55_back_refuted",
    "C55_guess_refuted",
    "C55_output_refuted",
    "C55_log_level_refuted"
   ],
   "note": "converting there and back is not exact: diffusion also comes back as tap; a layout with only Metal3, Via3, Metal4 of sg13g2 is taken for sky130A; a missing output directory and log levels in small letters pass the argument check but end in an exception. Flattening the layout is not modelled"
  },
  {
   "property": "C56",
   "status": "proved",
   "theorems": [
    "C56_modes",
    "C56_default",
    "C56_no_capacitance",
    "C56_no_resistance",
    "C56_both",
    "C56_capacitance"
   ],
   "note": "the extractors themselves are arbitrary functions that add entries; they are modelled in other files"
  },
  {
   "property": "C66",
   "status": "proved",
   "theorems": [
    "C66_regions",
    "C66_arrives"
   ],
   "note": "the region of the substrate is given"
  },
  {
   "property": "C67",
   "status": "proved",
   "theorems": [
    "C67_layer",
    "C67_nets",
    "C67_counts"
   ],
   "note": "raw polygons; flattened hierarchy"
  },
  {
   "property": "C68",
   "status": "proved",
   "theorems": [
    "C68_pins",
    "C68_fails",
    "C68_sound",
    "C68_complete",
    "C68_once",
    "C68_repeated_refuted"
   ],
   "note": "texts and the inside test are given; Texts & Region keeps the texts inside some pin polygon"
  },
  {
   "property": "C69",
   "status": "proved",
   "theorems": [
    "C69_devices",
    "C69_succeeds",
    "C69_unconnected_refuted"
   ],
   "note": "devices, nets and terminal shapes are given"
  },
  {
   "property": "C44",
   "status": "proved",
   "theorems": [
    "C44_from_pb",
    "C44_from_klayout",
    "C44_holes_refuted"
   ],
   "note": "KLayout's normal form of a polygon is an arbitrary function"
  },
  {
   "property": "C45",
   "status": "proved",
   "theorems": [
    "C45_requests",
    "C45_once",
    "C45_unnamed"
   ],
   "note": "nets, pins and devices are given; whether an empty region counts as true is a parameter"
  },
  {
   "property": "C46",
   "status": "proved",
   "theorems": [
    "C46_networks",
    "C46_succeeds",
    "C46_elements",
    "C46_net"
   ],
   "note": "KLayout's resistor extraction is an arbitrary function"
  },
  {
   "property": "C47",
   "status": "proved",
   "theorems": [
    "C47_regions",
    "C47_only",
    "C47_hole_refuted"
   ],
   "note": "annotated_layout.layer is injective on the GDS pairs in use"
  },
  {
   "property": "C70",
   "status": "proved",
   "theorems": [
    "C70_layers",
    "C70_conductors",
    "C70_vias",
    "C70_fails",
    "C70_handed_over",
    "C70_stray_refuted"
   ],
   "note": "exact rationals"
  },
  {
   "property": "C71",
   "status": "proved",
   "theorems": [
    "C71_names",
    "C71_terminal_refuted"
   ],
   "note": "annotated_layout.layer is injective"
  },
  {
   "property": "C72",
   "status": "proved",
   "theorems": [
    "C72_tables",
    "C72_mim_refuted",
    "C72_cmim_refuted"
   ],
   "note": "the tables are those of the C++ sources, with exact decimals"
  },
  {
   "property": "C73",
   "status": "partial",
   "theorems": [
    "C73_total",
    "C73_ihp",
    "C73_sky130A_partial",
    "C73_sky130A_metals",
    "C73_sky130A_refuted"
   ],
   "note": "false for met1 to met5 of sky130A, as C73_sky130A_refuted shows"
  },
  {
   "property": "C74",
   "status": "partial",
   "theorems": [
    "C74_total",
    "C74_metals",
    "C74_vias",
    "C74_no_stray",
    "C74_sky130A_via1_refuted",
    "C74_sky130A_pins_refuted",
    "C74_sky130A_stray_refuted"
   ],
   "note": "false for the via between met1 and met2 of sky130A and for pin shapes of sky130A"
  },
  {
   "property": "C75",
   "status": "partial",
   "theorems": [
    "C75_total",
    "C75_sky130A",
    "C75_ihp_partial",
    "C75_ihp_refuted",
    "C75_permittivity",
    "C75_permittivity_refuted"
   ],
   "note": "false for TopMetal2 in IHP, as C75_ihp_refuted shows"
  },
  {
   "property": "C76",
   "status": "partial",
   "theorems": [
    "C76_sky130A",
    "C76_ihp_partial",
    "C76_ihp_refuted"
   ],
   "note": "false for IHP below 57 nm, as C76_ihp_refuted shows"
  },
  {
   "property": "C43",
   "status": "partial",
   "theorems": [
    "C43_lvs_run",
    "C43_history",
    "C43_default",
    "C43_same_name_refuted",
    "C43_lvs_failure_refuted",
    "C43_new_output_refuted",
    "C43_edit_during_lvs_refuted",
    "C43_kept_time_refuted",
    "C43_schematic_refuted"
   ],
   "note": "false without the conditions of C43_history, as the refutations show"
  },
  {
   "property": "C77",
   "status": "partial",
   "theorems": [
    "C77_accepts",
    "C77_rejects",
    "C77_lvsdb",
    "C77_missing",
    "C77_magic_needs_layout",
    "C77_unknown_cell_refuted",
    "C77_empty_gds_refuted"
   ],
   "note": "false for unknown cell names and empty layout paths"
  },
  {
   "property": "C78",
   "status": "partial",
   "theorems": [
    "C78_partial",
    "C78_refuted",
    "C78_versions_refuted"
   ],
   "note": "false for names with double underscores"
  },
  {
   "property": "C48",
   "status": "partial",
   "theorems": [
    "C48_ext",
    "C48_ext_raises",
    "C48_res",
    "C48_res_raises",
    "C48_one_reading",
    "C48_written",
    "C48_name_refuted",
    "C48_exponent_refuted",
    "C48_device_refuted"
   ],
   "note": "false for names with other characters than word characters and for numbers with exponents, which are dropped without notice"
  },
  {
   "property": "C49",
   "status": "partial",
   "theorems": [
    "C49_cells",
    "C49_order",
    "C49_name_refuted",
    "C49_res_refuted"
   ],
   "note": "false for cell names containing .ext or ending in .res"
  },
  {
   "property": "C50",
   "status": "partial",
   "theorems": [
    "C50_numbers",
    "C50_fresh",
    "C50_same",
    "C50_again",
    "C50_net_refuted"
   ],
   "note": "proved for net names; false for nets, as two nets of one name get one id"
  },
  {
   "property": "C51",
   "status": "partial",
   "theorems": [
    "C51_accepted",
    "C51_all_partial",
    "C51_ports_partial",
    "C51_twice_refuted",
    "C51_clash_refuted",
    "C51_ground_refuted",
    "C51_file"
   ],
   "note": "false if two components ask for one key"
  },
  {
   "property": "C79",
   "status": "partial",
   "theorems": [
    "C79_top_partial",
    "C79_cell_refuted"
   ],
   "note": "false with --cell"
  },
  {
   "property": "C80",
   "status": "partial",
   "theorems": [
    "C80_commands",
    "C80_blank_refuted",
    "C80_dollar_refuted"
   ],
   "note": "false for names and paths with blanks or Tcl's special characters"
  },
  {
   "property": "C81",
   "status": "partial",
   "theorems": [
    "C81_extracted",
    "C81_run",
    "C81_taken_refuted",
    "C81_missing_refuted"
   ],
   "note": "false if a cell <name>_flat exists or the cell does not; relative to the small model of Magic's commands in MS_Spec.v"
  },
  {
   "property": "C82",
   "status": "partial",
   "theorems": [
    "C82_log",
    "C82_console_partial",
    "C82_console_refuted"
   ],
   "note": "console output false for a last line without line end"
  },
  {
   "property": "C83",
   "status": "partial",
   "theorems": [
    "C83_results_partial",
    "C83_fastercap_failed",
    "C83_fastcap_failed",
    "C83_relative_refuted"
   ],
   "note": "Holds for every output directory if FastCap is not used, and for absolute ones with FastCap. Refuted for FastCap with any relative output directory: run_fastcap changes the working directory and does not return."
  },
  {
   "property": "C84",
   "status": "partial",
   "theorems": [
    "C84_kept_partial",
    "C84_own",
    "C84_others",
    "C84_same_second_refuted",
    "C84_left_behind_refuted",
    "C84_same_process_refuted"
   ],
   "note": "Proved for histories of runs that start in later seconds than their predecessors ended. Refuted for runs ending in the same second; leftovers and runs in one process mix logs. A stop between the moves of the two logs is the subject of C99."
  },
  {
   "property": "C85",
   "status": "partial",
   "theorems": [
    "C85_table",
    "C85_fastercap",
    "C85_semicolon_refuted",
    "C85_small_refuted",
    "C85_unnamed_refuted",
    "C85_stopped"
   ],
   "note": "Proved for net names without semicolon and newline (and, for FasterCap, for the net's name as KLayout reports it). Refuted for semicolons in names, for values below the rounding unit, and for unnamed nets in the FasterCap table."
  },
  {
   "property": "C86",
   "status": "partial",
   "theorems": [
    "C86_capacitors",
    "C86_no_capacitors_in_mode_R",
    "C86_shipped_tables",
    "C86_farads_refuted"
   ],
   "note": "the unit is wrong: the device parameter C, farads in a netlist, holds the number of femtofarads (refuted by a layout with one plate); the sum itself is proved for layouts without the cases that C16, C21 and C72 refute"
  },
  {
   "property": "C87",
   "status": "proved",
   "theorems": [
    "C87_items",
    "C87_own_shapes",
    "C87_tables",
    "C87_count"
   ],
   "note": "C87_dash_refuted: nets with a dash in their names may share a category, so the restriction is needed. The category path is taken to tell different paths apart, as KLayout quotes names."
  },
  {
   "property": "C88",
   "status": "partial",
   "theorems": [
    "C88_reported_iff",
    "C88_items",
    "C88_extracted",
    "C88_tech_iff",
    "C88_tech_listed",
    "C88_stops_refuted"
   ],
   "note": "The lists are proved, and that the result is always reported if the extractor's elements join its own nodes. Refuted: a layout with a via layer next to a metal with no shapes raises a KeyError while the request is reported, and the run stops; C88_tech_iff is the exact condition."
  },
  {
   "property": "C89",
   "status": "partial",
   "theorems": [
    "C89_items",
    "C89_exact",
    "C89_cells",
    "C89_shown",
    "C89_run",
    "C89_scale_refuted",
    "C89_leftover_refuted",
    "C89_nothing_refuted",
    "C89_default_refuted"
   ],
   "note": "The entries and their places are proved for every set of files, taking Magic's default scale. Refuted: the scale line of an .ext file is ignored; files of an earlier run are reported too, or alone if Magic wrote nothing; without --out the report is saved to None although the help names a default."
  },
  {
   "property": "C90",
   "status": "partial",
   "theorems": [
    "C90_env",
    "C90_start",
    "C90_pdk_refuted",
    "C90_fastercap",
    "C90_fastcap",
    "C90_fastcap_kpex",
    "C90_klayout",
    "C90_magic",
    "C90_magicrc_refuted",
    "C90_netlistsvg",
    "C90_check",
    "C90_missing_refuted",
    "C90_needless_refuted",
    "C90_program",
    "C90_relative_refuted"
   ],
   "note": "Programs and command lines are proved. Refuted: PDKPATH without PDK stops even --help; without --magicrc and PDKPATH a Magic run passes the checks and then fails; only KLayout is looked for, so that other tools may be missing, and KLayout is demanded where it is not needed; a relative path of FastCap is taken from another directory."
  },
  {
   "property": "C91",
   "status": "partial",
   "theorems": [
    "C91_height",
    "C91_grid",
    "C91_close",
    "C91_span",
    "C91_touch",
    "C91_order",
    "C91_meet",
    "C91_width",
    "C91_width_between",
    "C91_width_refuted",
    "C91_width_5nm_refuted",
    "C91_width_shipped",
    "C91_margin",
    "C91_halo"
   ],
   "note": "Heights, surfaces and the halo are proved in IEEE binary64. Refuted: the width of a sidewall dielectric has no tolerance and may lose a unit (43 nm become 42 nm on a grid of 1 nm); the shipped technologies are not affected."
  },
  {
   "property": "C92",
   "status": "proved",
   "theorems": [
    "C92_piece",
    "C92_relative",
    "C92_overlap_recorded",
    "C92_fringe_recorded",
    "C92_total",
    "C92_million"
   ],
   "note": "In IEEE binary64, for any square and arc tangent that are off by less than one unit in the last place. An overlap, sidewall or fringe as described by its lengths in grid units; which ones there are is the subject of C14 to C21. Sums are those of Python 3.12."
  },
  {
   "property": "C93",
   "status": "proved",
   "theorems": [
    "C93_dielectric",
    "C93_conductor",
    "C93_collected",
    "C93_collected_conductor",
    "C93_kept",
    "C93_placed",
    "C93_placed_conductor"
   ],
   "note": "In IEEE binary64, for edges along the axes (for slanted ones see C94). KLayout's triangles are clockwise; that is assumed, as are the surfaces that the sweep finds (C31). The reference point is finite. What FasterCap reads from the files is C104."
  },
  {
   "property": "C94",
   "status": "partial",
   "theorems": [
    "C94_meets",
    "C94_box",
    "C94_plane",
    "C94_slanted_refuted"
   ],
   "note": "Proved for edges along the axes, if KLayout's conversions keep whole numbers. Refuted for slanted edges: the position along the edge is a whole number of units, so that a wall over the edge from (0, 0) to (1, 1) ends more than a quarter of a unit from (1, 1), whatever KLayout rounds to."
  },
  {
   "property": "C95",
   "status": "proved",
   "theorems": [
    "C95_built",
    "C95_done",
    "C95_power",
    "C95_factor"
   ],
   "note": "Conductances are IEEE binary64 numbers. The power at all voltages determines a network of resistors, so the statement compares powers; what a node below the threshold loses is at most 1.2e-10 of the square of the voltage range for each node."
  },
  {
   "property": "C96",
   "status": "proved",
   "theorems": [
    "C96_near",
    "C96_exact",
    "C96_unique",
    "C96_grid",
    "C96_point",
    "C96_distinct"
   ],
   "note": "'%.12g' is modelled digit by digit, on IEEE binary64. The heights of surfaces are multiples of the unit too (C91_meet)."
  },
  {
   "property": "C97",
   "status": "proved",
   "theorems": [
    "C97_read",
    "C97_again",
    "C97_same_refuted",
    "C97_matrix"
   ],
   "note": "'%.12g' and float() are modelled on IEEE binary64 and replace the parameters of C23. The value read is not always the one written: C97_same_refuted shows it for 1/3."
  },
  {
   "property": "C98",
   "status": "proved",
   "theorems": [
    "C98_average",
    "C98_capacitors",
    "C98_charge",
    "C98_factor",
    "C98_ground_refuted"
   ],
   "note": "On IEEE binary64, after C22, C24 and C25 on exact numbers. Capacitors between nets are exact; those to ground carry rounding errors, so that C98_ground_refuted has one of 2^-53 where the row's sum is exactly 0; the claim includes this error. Nets are given by their index in the matrix."
  },
  {
   "property": "C99",
   "status": "proved",
   "theorems": [
    "C99_crash",
    "C99_next",
    "C99_whole",
    "C99_messages"
   ],
   "note": "Crash points between all operations on the file system; the handlers flush after every message. C99_whole shows that all operations together are the run of C84. Runs start in a later second than their predecessor ended, as in C84."
  },
  {
   "property": "C100",
   "status": "partial",
   "theorems": [
    "C100_apart",
    "C100_kept",
    "C100_same_directory_refuted"
   ],
   "note": "Proved for base directories of which none contains another. Refuted for two runs in the same base directory."
  },
  {
   "property": "C101",
   "status": "partial",
   "theorems": [
    "C101_unique",
    "C101_conductor",
    "C101_dielectric",
    "C101_only",
    "C101_complete",
    "C101_long_name_refuted",
    "C101_stale_refuted"
   ],
   "note": "The facets are proved on IEEE binary64 with the decimal texts of C96, for surfaces as in C93 (walls along the axes, coordinates up to 4194304 units). C101_complete says exactly when a run stops. Refuted with witnesses: long names of nets, and files of earlier runs."
  },
  {
   "property": "C102",
   "status": "partial",
   "theorems": [
    "C102_level",
    "C102_all",
    "C102_refused",
    "C102_all_refuted",
    "C102_rule_refuted",
    "C102_diel_refuted"
   ],
   "note": "Python's logging (levels, parents, handlers) and where Rich formats a message are part of the model. Proved for all levels but all, which acts like warning (C102_all); refuted for all, for horizontal lines and for the message about --diel, the only one with arguments."
  },
  {
   "property": "C103",
   "status": "partial",
   "theorems": [
    "C103_offered",
    "C103_default",
    "C103_kpex",
    "C103_log_level",
    "C103_netlist_default",
    "C103_netlist_refuted",
    "C103_lowercase_refuted"
   ],
   "note": "Refuted for --log_level of the netlist program, which accepts no word, and for lowercase_strenum (not used by kpex)."
  },
  {
   "property": "C104",
   "status": "partial",
   "theorems": [
    "C104_unique",
    "C104_read",
    "C104_runs",
    "C104_others_untouched",
    "C104_blank_refuted",
    "C104_slash_refuted"
   ],
   "note": "From the surfaces to the text of all files, on IEEE binary64 with the decimal texts of C96; the reader in GF_Spec.v follows FasterCap's description of its input format. Surfaces as in C93. Refuted for names of nets with a blank or a slash. What a stopped run leaves behind is not modelled."
  },
  {
   "property": "C105",
   "status": "partial",
   "theorems": [
    "C105_read",
    "C105_levels_partial",
    "C105_levels_found",
    "C105_walls_partial",
    "C105_inside",
    "C105_nets",
    "C105_points",
    "C105_hidden_refuted",
    "C105_single_refuted"
   ],
   "note": "Puts C29 to C32, C91, C93, C94, C96 and C104 together, on IEEE binary64. C105_points shows that each face has points on no side of a triangle, so the other theorems always have something to say. Partial: shapes along the axes only; a single name is excluded (C105_single_refuted), and levels where a body is hidden below and above are excluded from C105_levels_partial (C105_hidden_refuted), not from C105_levels_found. KLayout's triangulation is assumed to cover each region exactly once."
  },
  {
   "property": "C106",
   "status": "partial",
   "theorems": [
    "C106_text",
    "C106_str",
    "C106_number_as_name_refuted",
    "C106_open_refuted"
   ],
   "note": "The texts of numbers ('%.6g') and points are parameters without colon and line end. Refuted for names that are numbers of other nodes, and for conductances of zero with resistance=True."
  },
  {
   "property": "C107",
   "status": "partial",
   "theorems": [
    "C107_resistors",
    "C107_ends",
    "C107_ports_only",
    "C107_between_pins_refuted",
    "C107_nets_apart_refuted",
    "C107_unnamed_net_refuted"
   ],
   "note": "Puts C13, C14, C45, C46 and C56 together. KLayout's extractor is a parameter whose nodes have different ids and whose elements join its nodes; which names it gives inner nodes is not known here, so the last two refutations hold for an extractor that numbers them anew for each net. Refuted as a description of the resistances of the layout: pins of one net are not told apart."
  },
  {
   "property": "C108",
   "status": "partial",
   "theorems": [
    "C108_renamed",
    "C108_reordered",
    "C108_order_in_interval_refuted"
   ],
   "note": "About the runs of C86. Renaming assumes that KLayout's calls are those with the new names, and that Region subtraction does not look at names; reordering assumes that Region subtraction does not depend on the order of the shield. Refuted for neighbours that are equally near."
  },
  {
   "property": "C109",
   "status": "partial",
   "theorems": [
    "C109_positive",
    "C109_energy",
    "C109_shipped_tables",
    "C109_ihp_refuted"
   ],
   "note": "About the runs of C86, with the tables of C76. Partial: refuted for the tables of IHP below 57 nm, where the offset of Metal1 makes the capacitor negative."
  },
  {
   "property": "C110",
   "status": "partial",
   "theorems": [
    "C110_same_netlist",
    "C110_fringe",
    "C110_unit_interval_refuted"
   ],
   "note": "About the runs of C86. That KLayout's calls in the finer unit are the scaled ones, and that Region subtraction scales, are hypotheses; they may fail for the -1 unit by which intervals are shortened and where intersections are snapped to the grid. Refuted for intervals of exactly one unit."
  },
  {
   "property": "C111",
   "status": "partial",
   "theorems": [
    "C111_others_unchanged",
    "C111_shipped_tables",
    "C111_missing_entry_refuted"
   ],
   "note": "About the runs of C86. That KLayout reports nothing new near the old edges is the meaning of far away. Refuted for overlap tables with missing entries, which the shipped PDKs do not have."
  },
  {
   "property": "C112",
   "status": "proved",
   "theorems": [
    "C112_modes"
   ],
   "note": "About the runs of C86. What the resistance extraction gives is an input of the run."
  },
  {
   "property": "C113",
   "status": "partial",
   "theorems": [
    "C113_fastercap",
    "C113_fastcap_partial",
    "C113_no_netlist",
    "C113_fastcap_shown_log_refuted"
   ],
   "note": "Composition of C22, C24, C26, C27, C59, C60. Refuted for FastCap with the conductor names of the log in the source comment. kdb's combine_devices is a parameter that keeps the circuits; numbers are exact (rounding: C97, C98)."
  },
  {
   "property": "C114",
   "status": "partial",
   "theorems": [
    "C114_lowest_first",
    "C114_substrate_first",
    "C114_ground_is_substrate",
    "C114_flat_substrate_refuted"
   ],
   "note": "On top of C29, C104, C105 and C113. Refuted for a substrate without thickness. Heights are whole database units (which floats mean them: C105); that FasterCap prints conductors in the order of the list file is a hypothesis; the dielectrics of the input builder are arbitrary."
  },
  {
   "property": "C115",
   "status": "proved",
   "theorems": [
    "C115_inner_first",
    "C115_outer_first",
    "C115_first_listed"
   ],
   "note": "About the calls of the input builder (C38, C63 to C65) and the owner of a place of C29. Sizing is any function that keeps the region (C115_outer_first only). Numbers are exact."
  },
  {
   "property": "C116",
   "status": "partial",
   "theorems": [
    "C116_first_rise",
    "C116_later_rise",
    "C116_thickness_refuted"
   ],
   "note": "Refuted: from the second conformal dielectric on, the thickness of the metal is added again. C116_later_rise gives the height for every chain. Numbers are exact."
  }
 ]
}
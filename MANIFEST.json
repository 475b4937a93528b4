{
 "claims": [
  {
   "property": "C01",
   "status": "proved",
   "theorems": [
    "C01_coordinate_round_trip",
    "C01_coordinate_round_trip_double",
    "C01_coordinate_round_trip_any_rounding"
   ],
   "note": "exact rationals, and doubles with unbounded exponent range"
  },
  {
   "property": "C02",
   "status": "proved",
   "theorems": [
    "C02_half_ulp"
   ],
   "note": "exact rational values"
  },
  {
   "property": "C03",
   "status": "proved",
   "theorems": [
    "C03_written_shape"
   ],
   "note": ""
  },
  {
   "property": "C04",
   "status": "proved",
   "theorems": [
    "C04_order_preserved",
    "C04_no_merging"
   ],
   "note": ""
  },
  {
   "property": "C05",
   "status": "proved",
   "theorems": [
    "C05_digit_string_meaning",
    "C05_explicit_zeros",
    "C05_none_mode"
   ],
   "note": ""
  },
  {
   "property": "C06",
   "status": "proved",
   "theorems": [
    "C06_explicit_decimal"
   ],
   "note": "literals without exponent"
  },
  {
   "property": "C07",
   "status": "proved",
   "theorems": [
    "C07_write_rejects",
    "C07_parse_rejects"
   ],
   "note": ""
  },
  {
   "property": "C08",
   "status": "proved",
   "theorems": [
    "C08_inverse",
    "C08_linear",
    "C08_order",
    "C08_scale"
   ],
   "note": "exact rationals"
  },
  {
   "property": "C09",
   "status": "proved",
   "theorems": [
    "C09_zeros_complementary"
   ],
   "note": ""
  },
  {
   "property": "C10",
   "status": "proved",
   "theorems": [
    "C10_invalid_value_rejected",
    "C10_unknown_key_rejected",
    "C10_valid_value_local"
   ],
   "note": ""
  },
  {
   "property": "C11",
   "status": "proved",
   "theorems": [
    "C11_constructor"
   ],
   "note": ""
  },
  {
   "property": "C12",
   "status": "partial",
   "theorems": [
    "C12_camfile_settings_refuted",
    "C12_camfile_settings_partial"
   ],
   "note": "false of the code as it stands; the part that holds is proved"
  },
  {
   "property": "C13",
   "status": "partial",
   "theorems": [
    "C13_macro_arithmetic_refuted",
    "C13_macro_arithmetic_partial"
   ],
   "note": "binary minus is wrong in the code (evaluates to 0, or splits a modifier in two); everything else is proved for whole macros"
  },
  {
   "property": "C14",
   "status": "proved",
   "theorems": [
    "C14_expression_pushes_one_value",
    "C14_no_leak",
    "C13_macro_arithmetic_partial"
   ],
   "note": ""
  },
  {
   "property": "C15",
   "status": "proved",
   "theorems": [
    "C15_binding_and_default",
    "C15_scope",
    "C15_isolated"
   ],
   "note": ""
  },
  {
   "property": "C16",
   "status": "proved",
   "theorems": [
    "C16_unmatched_rejected_equation",
    "C16_unmatched_rejected_primitive",
    "C16_balanced_accepted"
   ],
   "note": ""
  },
  {
   "property": "C17",
   "status": "proved",
   "theorems": [
    "C17_split_loses_only_breaks"
   ],
   "note": ""
  },
  {
   "property": "C18",
   "status": "proved",
   "theorems": [
    "C18_line_endings"
   ],
   "note": ""
  },
  {
   "property": "C19",
   "status": "proved",
   "theorems": [
    "C19_coordinate_roundtrip"
   ],
   "note": "Every combination of fields; values on the format's grid and within range."
  },
  {
   "property": "C20",
   "status": "partial",
   "theorems": [
    "C20_statement_roundtrip_partial",
    "C20_statement_roundtrip_refuted"
   ],
   "note": "Refuted: dimensions are written with four significant digits; macro names starting with C used without modifiers are read as circles. Proved for all other statements."
  },
  {
   "property": "C21",
   "status": "partial",
   "theorems": [
    "C21_file_roundtrip_partial",
    "C21_file_roundtrip_refuted"
   ],
   "note": "Refuted: an unused macro definition loses its body. Proved for every list of statements that each have an exact textual form."
  },
  {
   "property": "C22",
   "status": "proved",
   "theorems": [
    "C22_parsing_terminates"
   ],
   "note": ""
  },
  {
   "property": "C23",
   "status": "proved",
   "theorems": [
    "C23_includes_bounded"
   ],
   "note": "Included files are abstracted as a function from names to texts."
  },
  {
   "property": "C24",
   "status": "proved",
   "theorems": [
    "C24_image_is_graphics_state_semantics"
   ],
   "note": "Covers regions and arcs as well; the centre of a single-quadrant arc is a parameter (any function)."
  },
  {
   "property": "C25",
   "status": "proved",
   "theorems": [
    "C25_modal_values_explicit"
   ],
   "note": ""
  },
  {
   "property": "C26",
   "status": "proved",
   "theorems": [
    "C26_drawn_objects_never_change"
   ],
   "note": ""
  },
  {
   "property": "C27",
   "status": "proved",
   "theorems": [
    "C27_neutral_statements"
   ],
   "note": ""
  },
  {
   "property": "C28",
   "status": "proved",
   "theorems": [
    "C28_region_contours"
   ],
   "note": ""
  },
  {
   "property": "C29",
   "status": "proved",
   "theorems": [
    "C29_undefined_aperture_is_an_error",
    "C29_draw_without_aperture"
   ],
   "note": "Proved for all statements, regions and arcs included, given complete aperture and macro definitions."
  },
  {
   "property": "C30",
   "status": "proved",
   "theorems": [
    "C30_bounding_box_tight",
    "C30_bounds_tight",
    "C30_size",
    "C30_unlimited_refuted"
   ],
   "note": "The limit of the quantifier is necessary: refuted without it."
  },
  {
   "property": "C31",
   "status": "partial",
   "theorems": [
    "C31_round_trip_refuted",
    "C31_converted_once_refuted",
    "C31_call_sequences_partial",
    "C31_converted_once_partial",
    "C31_conversion_succeeds"
   ],
   "note": "False of files mixing units (the way back does not restore them) and of regions with a single segment (not converted); proved for files in one unit, for every call sequence, and exactly-once conversion of statements and the shared object graph when there is no single-segment region and no polygon/macro aperture or scale factor."
  },
  {
   "property": "C32",
   "status": "partial",
   "theorems": [
    "C32_offset_translates_refuted",
    "C32_implicit_origin_refuted",
    "C32_offset_translates_partial",
    "C32_centres"
   ],
   "note": "False when statements have I/J (these are shifted too) or rely on the implicit origin; proved for all files without I/J whose first move gives both coordinates: translated image, and the offset primitives equal those of the offset statements."
  },
  {
   "property": "C33",
   "status": "partial",
   "theorems": [
    "C33_counts_and_angles_refuted",
    "C33_lengths_only_partial",
    "C33_idle"
   ],
   "note": "False for polygon apertures and scale factors; proved for all other statements."
  },
  {
   "property": "C34",
   "status": "partial",
   "theorems": [
    "C34_render_round_trip_partial",
    "C34_render_round_trip_refuted"
   ],
   "note": "Proved for all lists of supported primitives (lines of positive length, arcs, connected regions, flashes). Refuted in general: zero-length lines are lost, holes of rectangular apertures are dropped for lines, rotation of rectangles is dropped, metric primitives are evaluated as inches, regions with gaps are split, lines drawn with polygons raise."
  },
  {
   "property": "C35",
   "status": "partial",
   "theorems": [
    "C35_codes",
    "C35_same_code_partial",
    "C35_same_code_refuted"
   ],
   "note": "Distinct codes >= 10 and definition before use are proved for all inputs; equal codes exactly for equal attributes. Refuted when a missing hole is None in one primitive and 0 in the other."
  },
  {
   "property": "C36",
   "status": "proved",
   "theorems": [
    "C36_drilling"
   ],
   "note": "Whole texts: header (units, zeros, format, tool definitions) and body; model-level parser, holesize comments an arbitrary function."
  },
  {
   "property": "C37",
   "status": "proved",
   "theorems": [
    "C37_interchangeable"
   ],
   "note": "Both directions, whole texts."
  },
  {
   "property": "C38",
   "status": "proved",
   "theorems": [
    "C38_repeat"
   ],
   "note": "At every parser state in the body with a tool selected."
  },
  {
   "property": "C39",
   "status": "partial",
   "theorems": [
    "C39_linear_refuted",
    "C39_redefined_refuted",
    "C39_counters_partial",
    "C39_numbers_partial",
    "C39_total_partial",
    "C39_at_most_partial"
   ],
   "note": "Refuted: slots routed in linear mode are not counted, redefined tools lose their earlier hits. Proved for texts without M15 (and for the count by number with the tool table still current)."
  },
  {
   "property": "C40",
   "status": "partial",
   "theorems": [
    "C40_zero_delta_refuted",
    "C40_three_digits_refuted",
    "C40_coordinate_partial",
    "C40_slot_partial",
    "C40_repeat_partial",
    "C40_selection_partial",
    "C40_compensation_partial"
   ],
   "note": "Refuted for zero repeat deltas and three-digit tools with compensation; otherwise proved."
  },
  {
   "property": "C41",
   "status": "partial",
   "theorems": [
    "C41_incremental_header_refuted",
    "C41_format_lost_refuted",
    "C41_write_read_partial"
   ],
   "note": "Refuted for files with ICI,ON in the header and when the format of the unit line is not the reader's; proved with the settings of the file given to the reader."
  },
  {
   "property": "C42",
   "status": "partial",
   "theorems": [
    "C42_hits_refuted",
    "C42_conversion_partial"
   ],
   "note": "Refuted: hits keep their old numbers. Proved: tools and statements converted once, idempotent, inverse restores the file."
  },
  {
   "property": "C43",
   "status": "partial",
   "theorems": [
    "C43_open_slot_refuted",
    "C43_offset_partial"
   ],
   "note": "Refuted for slots with an omitted start coordinate (TypeError); proved for all files with complete slots."
  },
  {
   "property": "C44",
   "status": "partial",
   "theorems": [
    "C44_slot_refuted",
    "C44_path_partial"
   ],
   "note": "Refuted for files with a slot (AttributeError); proved for all files of drill hits, any distance."
  },
  {
   "property": "C45",
   "status": "proved",
   "theorems": [
    "C45_update"
   ],
   "note": ""
  },
  {
   "property": "C46",
   "status": "proved",
   "theorems": [
    "C46_sort_layers"
   ],
   "note": "'known class' means one of the twelve classes in the stack-up or behind it; unknown layers and netlists are dropped"
  },
  {
   "property": "C47",
   "status": "partial",
   "theorems": [
    "C47_board_sides_refuted",
    "C47_board_sides_partial"
   ],
   "note": "false as worded: IndexError for a board without copper, mask and silk on the side, and paste layers are left out; proved otherwise"
  },
  {
   "property": "C48",
   "status": "proved",
   "theorems": [
    "C48_detect_file_format"
   ],
   "note": ""
  },
  {
   "property": "C49",
   "status": "partial",
   "theorems": [
    "C49_boxes_bound_refuted",
    "C49_boxes_bound_partial",
    "C49_rectangle_rotations",
    "C49_ellipse",
    "C49_diamond",
    "C49_polygon"
   ],
   "note": "Refuted: a rectangle turned by 180 degrees has an inside-out box; C49_rectangle_rotations says exactly which rotations are right. Proved: lines, circles, drills, slots, ellipses at any rotation, rectangles between 0 and 90 degrees, unrotated obrounds and diamonds. Exact real arithmetic. Uses the three axioms of Coq's standard real numbers (listed in DESIGN.md)."
  },
  {
   "property": "C50",
   "status": "partial",
   "theorems": [
    "C50_arc_bounds_refuted",
    "C50_arc_bounds_partial"
   ],
   "note": "Refuted in single-quadrant mode for arcs that cross an axis; proved, with tightness, for every multi-quadrant arc and single-quadrant arcs within a quadrant. Uses the three axioms of Coq's standard real numbers (listed in DESIGN.md)."
  },
  {
   "property": "C51",
   "status": "partial",
   "theorems": [
    "C51_cache_refuted",
    "C51_cache_partial",
    "C51_exceptions",
    "C51_groups_partial",
    "C51_groups_refuted"
   ],
   "note": "False in general: slots, butterflies, donuts, and the aperture and direction of lines and arcs, have plain attributes and keep an old box. Proved for every history without those assignments, and each excepted assignment is shown to be a real exception. Groups: proved for reads, moves and conversions (and changes of parts for macro groups); refuted when a part of a region or outline is changed directly."
  },
  {
   "property": "C52",
   "status": "partial",
   "theorems": [
    "C52_conversion_scales_refuted",
    "C52_conversion_scales_partial",
    "C52_physical_size",
    "C52_conversion_succeeds",
    "C52_conversion_sequences",
    "C52_offset_moves",
    "C52_classes"
   ],
   "note": "False for lists with one nested primitive; proved for all object graphs without these (exactly-once conversion), and unrestricted: physical sizes, totality, call sequences; C52_classes says which attributes of each class are lengths."
  },
  {
   "property": "C53",
   "status": "proved",
   "theorems": [
    "C53_rotation_keeps_distances",
    "C53_rotation_fixes_center",
    "C53_rotations_add",
    "C53_rotation_undone",
    "C53_quarter_turn",
    "C53_full_turn"
   ],
   "note": "Exact real arithmetic. Uses the three axioms of Coq's standard real numbers (listed in DESIGN.md)."
  },
  {
   "property": "C54",
   "status": "proved",
   "theorems": [
    "C54_move_translates",
    "C54_only_the_last_move_counts"
   ],
   "note": "For groups whose objects are all different and have points (not None); nested contents included. Exact arithmetic."
  },
  {
   "property": "C55",
   "status": "partial",
   "theorems": [
    "C55_continuation_refuted",
    "C55_continuation_partial"
   ],
   "note": "False when a continuation part ends in a blank, which the reader strips before appending the next part; proved for all other splits."
  },
  {
   "property": "C56",
   "status": "partial",
   "theorems": [
    "C56_nets_refuted",
    "C56_nets_partial"
   ],
   "note": "set.update returns None, so a net heading an adjacency record loses its adjacent nets and a later record mentioning it raises; the exact behaviour is proved."
  },
  {
   "property": "C57",
   "status": "proved",
   "theorems": [
    "C57_conversion_of_a_copy",
    "C57_offset_of_a_copy"
   ],
   "note": "Object graph part of the file; statements are immutable values in the model."
  },
  {
   "property": "C58",
   "status": "partial",
   "theorems": [
    "C58_degenerate_formats_refuted",
    "C58_degenerate_formats_partial"
   ],
   "note": "false in trailing/none mode with 0 integer or 0 decimal digits"
  },
  {
   "property": "C59",
   "status": "partial",
   "theorems": [
    "C59_overflow_refuted",
    "C59_overflow_partial"
   ],
   "note": "false for values that do not fit the format"
  },
  {
   "property": "C60",
   "status": "partial",
   "theorems": [
    "C60_macro_comments_refuted",
    "C60_macro_comments_partial",
    "C60_built_partial"
   ],
   "note": "False for comments containing '='. Proved for the values of the primitives and for the primitives built from them."
  },
  {
   "property": "C61",
   "status": "partial",
   "theorems": [
    "C61_leading_minus_refuted",
    "C61_leading_minus_partial"
   ],
   "note": "only correct in front of a literal other than 0"
  },
  {
   "property": "C62",
   "status": "partial",
   "theorems": [
    "C62_terminated_data_kept_refuted",
    "C62_terminated_data_kept_partial"
   ],
   "note": "false for a headerless text without a final line break"
  },
  {
   "property": "C63",
   "status": "proved",
   "theorems": [
    "C63_aperture_dimensions_close"
   ],
   "note": ""
  },
  {
   "property": "C64",
   "status": "partial",
   "theorems": [
    "C64_scientific_refuted",
    "C64_decimal_partial"
   ],
   "note": "Refuted below 1e-4 (scientific notation); proved for the rest."
  },
  {
   "property": "C65",
   "status": "proved",
   "theorems": [
    "C65_bounding_box"
   ],
   "note": ""
  },
  {
   "property": "C66",
   "status": "proved",
   "theorems": [
    "C66_equality"
   ],
   "note": ""
  },
  {
   "property": "C67",
   "status": "partial",
   "theorems": [
    "C67_layer_class_refuted",
    "C67_layer_class_partial",
    "C67_layer_class_case"
   ],
   "note": "false as worded: board-top.gts is guessed 'top'; proved when no token of an earlier class is in the name"
  },
  {
   "property": "C68",
   "status": "partial",
   "theorems": [
    "C68_internal_number_refuted",
    "C68_internal_number_partial"
   ],
   "note": "false as worded: digits in the directory are found first; proved for directories without digits"
  },
  {
   "property": "C69",
   "status": "proved",
   "theorems": [
    "C69_copper_and_bounds"
   ],
   "note": ""
  },
  {
   "property": "C70",
   "status": "partial",
   "theorems": [
    "C70_layer_kind_refuted",
    "C70_layer_kind_partial"
   ],
   "note": "false as worded for netlists named like an internal layer; proved otherwise"
  },
  {
   "property": "C71",
   "status": "partial",
   "theorems": [
    "C71_columns_refuted",
    "C71_columns_partial"
   ],
   "note": "Proved for all records whose component/pin dash is where the reader looks for it; false for vias with negative coordinates, in radians, and for records ending right behind Y."
  },
  {
   "property": "C72",
   "status": "proved",
   "theorems": [
    "C72_net_variables",
    "C72_plain_names",
    "C72_units",
    "C72_units_default"
   ],
   "note": "Over files whose lines all start a record (continuation lines: C55)."
  },
  {
   "property": "C73",
   "status": "partial",
   "theorems": [
    "C73_outline_partial",
    "C73_conductor_partial",
    "C73_negative_refuted"
   ],
   "note": "Proved for non-negative coordinates; negative ones are silently ignored."
  },
  {
   "property": "C74",
   "status": "proved",
   "theorems": [
    "C74_render",
    "C74_components",
    "C74_vias"
   ],
   "note": ""
  },
  {
   "property": "C75",
   "status": "partial",
   "theorems": [
    "C75_stroked_arc_refuted",
    "C75_round_aperture",
    "C75_sized_aperture_partial"
   ],
   "note": "Round apertures: smallest box. Apertures with width and height: encloses, but not the smallest (the code adds the whole width). Uses the three axioms of Coq's standard real numbers (listed in DESIGN.md)."
  },
  {
   "property": "C76",
   "status": "partial",
   "theorems": [
    "C76_sweep_refuted",
    "C76_full_circle_refuted",
    "C76_sweep_partial"
   ],
   "note": "Refuted for counterclockwise arcs across 0 degrees and for full circles; C76_sweep_partial gives the value returned for every other arc. Uses the three axioms of Coq's standard real numbers (listed in DESIGN.md)."
  },
  {
   "property": "C77",
   "status": "proved",
   "theorems": [
    "C77_group_box",
    "C77_surrounded"
   ],
   "note": "Uses the three axioms of Coq's standard real numbers (listed in DESIGN.md)."
  },
  {
   "property": "C78",
   "status": "proved",
   "theorems": [
    "C78_file_round_trip"
   ],
   "note": "In-memory evaluation plus the text round trip of C21."
  },
  {
   "property": "C79",
   "status": "partial",
   "theorems": [
    "C79_offset_partial",
    "C79_convert",
    "C79_convert_again",
    "C79_offset_refuted"
   ],
   "note": "Proved for every class and history (excluding the stale-cache assignments of C51). Refuted for Slot, whose offset leaves a box that was read before."
  },
  {
   "property": "C80",
   "status": "proved",
   "theorems": [
    "C80_repr",
    "C80_decimal"
   ],
   "note": "str() and float() modelled exactly on unbounded-exponent doubles"
  },
  {
   "property": "C81",
   "status": "partial",
   "theorems": [
    "C81_macro_round_trip_partial",
    "C81_in_file_partial",
    "C81_macro_round_trip_refuted"
   ],
   "note": "Proved for primitives whose numbers the text format can show; refuted for positions of more than four digits, numbers written with an exponent, comments, unknown primitives and macros that were never built"
  },
  {
   "property": "C82",
   "status": "proved",
   "theorems": [
    "C82_to_metric",
    "C82_to_inch",
    "C82_once"
   ],
   "note": "Exact arithmetic; primitives of unknown code are kept as text and not converted"
  },
  {
   "property": "C83",
   "status": "partial",
   "theorems": [
    "C83_build",
    "C83_reads",
    "C83_missing",
    "C83_outline_partial",
    "C83_outline_refuted",
    "C83_unknown"
   ],
   "note": "Refuted for an outline without its rotation, which is accepted"
  },
  {
   "property": "C84",
   "status": "proved",
   "theorems": [
    "C84_convex_hull",
    "C84_unique"
   ],
   "note": "The numbers are exact reals: rounding of floats is not modelled. The recursion of _findhull is bounded by the number of points; running out is an explicit error which the theorem excludes."
  },
  {
   "property": "C85",
   "status": "partial",
   "theorems": [
    "C85_refused_partial",
    "C85_on_a_line",
    "C85_refused_refuted"
   ],
   "note": "The numbers are exact reals: rounding of floats is not modelled. False of the code: points on a line which is not upright give the empty list. Proved: fewer than three points and upright lines raise; every other line gives the empty list."
  },
  {
   "property": "C86",
   "status": "proved",
   "theorems": [
    "C86_line_outline"
   ],
   "note": "The numbers are exact reals: rounding of floats is not modelled. Only rectangular apertures; with a polygon aperture the code passes map objects to convex_hull, which cannot be indexed."
  },
  {
   "property": "C87",
   "status": "partial",
   "theorems": [
    "C87_center_line_partial",
    "C87_about_own_center",
    "C87_center_line_refuted"
   ],
   "note": "Exact reals: rounding of floats is not modelled. The code turns the rectangle about its own centre: proved for centres at the origin or without rotation, and what is drawn otherwise; false in general."
  },
  {
   "property": "C88",
   "status": "partial",
   "theorems": [
    "C88_vector_line_partial",
    "C88_vector_line_refuted"
   ],
   "note": "Exact reals: rounding of floats is not modelled. The code draws what an axis-parallel square covers on its way: proved that this is the shape and that it contains the rectangle; it is always larger."
  },
  {
   "property": "C89",
   "status": "proved",
   "theorems": [
    "C89_outline",
    "C89_open"
   ],
   "note": "Exact reals: rounding of floats is not modelled. "
  },
  {
   "property": "C90",
   "status": "partial",
   "theorems": [
    "C90_circle",
    "C90_polygon_partial",
    "C90_polygon_refuted"
   ],
   "note": "Exact reals: rounding of floats is not modelled. Polygons are turned about their own position: proved for those at the origin or without rotation."
  },
  {
   "property": "C91",
   "status": "partial",
   "theorems": [
    "C91_thermal_partial",
    "C91_about_own_center",
    "C91_thermal_refuted",
    "C91_rotation_refuted"
   ],
   "note": "Exact reals: rounding of floats is not modelled. Proved for a gap of at most inner diameter / sqrt 2 and a position at the origin or no rotation, and for all positions with the rotation about the own centre. False: an inner diameter of zero or below the gap raises, rotation is about the own centre."
  },
  {
   "property": "C92",
   "status": "partial",
   "theorems": [
    "C92_group_partial",
    "C92_group_refuted"
   ],
   "note": "Moires and lower left lines give no shape."
  },
  {
   "property": "C93",
   "status": "partial",
   "theorems": [
    "C93_tool_tables_partial",
    "C93_plating_refuted",
    "C93_size_refuted",
    "C93_no_settings_refuted"
   ],
   "note": "Proved for all tool files: one tool per number (last entry), size converted exactly for millimetres and up to 2 parts in 10^12 for thousandths of an inch (the code's constant 39.3700787402 is rounded), plating for comment lines. Refuted: plating of table rows is always unknown; 10 mils is not exactly 0.01 inch; without settings AttributeError."
  },
  {
   "property": "C94",
   "status": "partial",
   "theorems": [
    "C94_hole_sizes_partial",
    "C94_comments",
    "C94_python3_refuted",
    "C94_no_blank_refuted"
   ],
   "note": "Proved for python 2 with hole sizes in comments, and for every version of python without them. Refuted: python 3 raises TypeError on a hole size comment (dict.keys() indexed); a hole size directly after the semicolon is ignored."
  },
  {
   "property": "C95",
   "status": "proved",
   "theorems": [
    "C95_reports"
   ],
   "note": "For all headings, rows and line ends."
  },
  {
   "property": "C96",
   "status": "partial",
   "theorems": [
    "C96_settings_partial",
    "C96_missing",
    "C96_incremental_refuted"
   ],
   "note": "Proved for absolute coordinates and for files lacking a setting. Refuted: INCREMENTAL becomes 'relative', which FileSettings refuses with ValueError."
  },
  {
   "property": "C97",
   "status": "proved",
   "theorems": [
    "C97_stated_format",
    "C97_detected",
    "C97_given"
   ],
   "note": "With python 3 no hole sizes in comments (C94)."
  },
  {
   "property": "C98",
   "status": "proved",
   "theorems": [
    "C98_detection",
    "C98_unreadable"
   ],
   "note": ""
  },
  {
   "property": "C99",
   "status": "partial",
   "theorems": [
    "C99_metric_refuted"
   ],
   "note": "False: the score compares with 8 square inches whatever the units are, so a metric file of 100 mm by 80 mm is read as 10 mm by 8 mm."
  },
  {
   "property": "C100",
   "status": "partial",
   "theorems": [
    "C100_clockwise_partial",
    "C100_counterclockwise_partial",
    "C100_right_refuted",
    "C100_top_refuted",
    "C100_unique",
    "C100_multi"
   ],
   "note": "Proved for clockwise arcs, and for counterclockwise ones exactly when it is true: false for every counterclockwise arc through or to the right end of its circle (the sweep is not reduced modulo 360 degrees) and for every counterclockwise arc to a point of the same height on the left. Exact real arithmetic; stdlib axioms of the reals."
  },
  {
   "property": "C101",
   "status": "partial",
   "theorems": [
    "C101_layer_partial",
    "C101_top_refuted",
    "C101_bounds",
    "C101_exact",
    "C101_aligned_partial"
   ],
   "note": "Holds more than one pixel below the tops of the boxes of the primitives which cover a point. False at the top: the clip rectangle rounds the upper edge down, so an incomplete row of pixels is lost. C101_exact says exactly what is shown, the top row included; when the lower edge of the image and the upper edges of all primitives are at whole pixels nothing is lost (C101_aligned_partial)."
  },
  {
   "property": "C102",
   "status": "partial",
   "theorems": [
    "C102_inverted_partial",
    "C102_clear_refuted",
    "C102_hole_refuted",
    "C102_exact_partial"
   ],
   "note": "Holds for dark shapes with at most round holes in circles and obrounds. Clear primitives and the holes of rectangles and polygons are cleared as well. C102_exact_partial includes the top row."
  },
  {
   "property": "C103",
   "status": "partial",
   "theorems": [
    "C103_shape_partial",
    "C103_clear_hole_refuted",
    "C103_turned_refuted",
    "C103_empty_refuted"
   ],
   "note": "Holds for unrotated rectangles and obrounds, and holes of dark primitives. The holes of clear rectangles and polygons are not left open; rectangles and obrounds are drawn without their rotation; empty contours are errors."
  },
  {
   "property": "C104",
   "status": "partial",
   "theorems": [
    "C104_counterclockwise_partial",
    "C104_dot_refuted",
    "C104_clockwise_refuted",
    "C104_region_refuted"
   ],
   "note": "Holds counterclockwise for pens which are not much thinner than the circle. Clockwise circles are drawn as dots; regions with one full circle as contour are lost."
  },
  {
   "property": "C105",
   "status": "partial",
   "theorems": [
    "C105_parts_partial",
    "C105_clear_refuted",
    "C105_exposure_refuted",
    "C105_refuted"
   ],
   "note": "The parts are drawn one after the other like flashes of their own: the polarity of the flash is ignored and parts with the exposure off remove what is under the macro."
  },
  {
   "property": "C106",
   "status": "partial",
   "theorems": [
    "C106_fits",
    "C106_largest",
    "C106_first_partial",
    "C106_cut_off_refuted",
    "C106_wide_refuted"
   ],
   "note": "Size and scale are right; within the bounds of the first layer all layers are shown. Layers are cut to the bounds of the first layer, and boards wider than the number of pixels have an empty image."
  },
  {
   "property": "C107",
   "status": "partial",
   "theorems": [
    "C107_compared_partial",
    "C107_same_looks",
    "C107_compared_refuted"
   ],
   "note": "False as worded: polarity, line apertures, rectangular holes and the rotation and holes of polygons are not compared. Proved: exactly what is compared, and that shapes that look the same are found equal."
  },
  {
   "property": "C108",
   "status": "partial",
   "theorems": [
    "C108_macro_file_partial",
    "C108_codes",
    "C108_reused",
    "C108_macro_file_refuted"
   ],
   "note": "False as worded for macros that compare as the same but differ (C107) and for macros without anything to draw. Proved for all other macros that can be written exactly. The characters of a name that come from dimensions are a parameter."
  },
  {
   "property": "C109",
   "status": "partial",
   "theorems": [
    "C109_shared",
    "C109_own_primitives_partial",
    "C109_own_primitives_refuted"
   ],
   "note": "False as worded: the primitives are those of the last aperture made from the same macro statement. This is proved in general, and the property when no macro statement is used for two apertures."
  },
  {
   "property": "C110",
   "status": "partial",
   "theorems": [
    "C110_plating_partial",
    "C110_types",
    "C110_size_above_refuted"
   ],
   "note": "False as worded: a comment with the hole size above the definition of the tool is not used for its plating. Proved: what is read for all headers, and the property for headers without such comments."
  },
  {
   "property": "C111",
   "status": "partial",
   "theorems": [
    "C111_rectangle_partial",
    "C111_diamond_partial",
    "C111_about_origin",
    "C111_rotated_refuted",
    "C111_box_partial"
   ],
   "note": "Full statement refuted: the corners are turned about the origin while the shape is turned about its position. Proved for shapes at the origin or without rotation; what is computed in general is C111_about_origin. The box is the smallest one around the corners for unturned shapes, and for rectangles at the origin turned by up to 90 degrees."
  },
  {
   "property": "C112",
   "status": "partial",
   "theorems": [
    "C112_spanned_partial",
    "C112_contour_partial",
    "C112_contour_refuted"
   ],
   "note": "Full statement refuted: the two corners made at the upper right and the lower left are in the wrong order, so the contour crosses itself. Proved: the corners span the shape for every selection of corners; the contour is right when only the upper left and lower right corners are cut. At the origin or without rotation, as in C111."
  },
  {
   "property": "C113",
   "status": "proved",
   "theorems": [
    "C113_pairs",
    "C113_diagonals"
   ],
   "note": ""
  },
  {
   "property": "C114",
   "status": "partial",
   "theorems": [
    "C114_routing_partial",
    "C114_start_refuted",
    "C114_increments_refuted",
    "C114_arc_refuted"
   ],
   "note": "The full statement is false: a G85 slot that gives only one coordinate of its start has no start, in incremental notation the increments of G85 are taken for positions, and G02/G03 are unknown statements (nothing is milled and the next segment starts at the wrong place). Proved for all programs without arcs whose slots give both start coordinates, absolutely."
  },
  {
   "property": "C115",
   "status": "proved",
   "theorems": [
    "C115_raised"
   ],
   "note": ""
  },
  {
   "property": "C116",
   "status": "partial",
   "theorems": [
    "C116_round_trip_partial",
    "C116_file_refuted",
    "C116_python3_refuted",
    "C116_repeat_refuted",
    "C116_length_refuted"
   ],
   "note": "The full statement is false: primitives of files carry no hit (AttributeError for every file with hits), tools have no hash in python 3, a hole at the current position is written as an empty line, and after a milled segment of length 0 the file cannot be read. Proved for primitives that carry hits, in python 2, when positions change."
  },
  {
   "property": "C117",
   "status": "partial",
   "theorems": [
    "C117_safe_partial",
    "C117_change_refuted"
   ],
   "note": "Everything is proved except that tools are changed only when raised, which is false (a milled segment that starts where the previous one ended, with another tool) and proved for jobs with one tool."
  },
  {
   "property": "C118",
   "status": "proved",
   "theorems": [
    "C118_definitions"
   ],
   "note": ""
  },
  {
   "property": "C119",
   "status": "partial",
   "theorems": [
    "C119_rows_partial",
    "C119_exactly_partial",
    "C119_unused_refuted",
    "C119_slot_refuted"
   ],
   "note": "Holds, and a report exists, exactly for files of drill holes whose tools all have a diameter and are used (C119_exactly_partial). False in general: an unused tool makes report() raise TypeError, a slot AttributeError. The distance and the sum of lengths are arbitrary functions."
  },
  {
   "property": "C120",
   "status": "partial",
   "theorems": [
    "C120_labels_partial",
    "C120_metric_refuted",
    "C120_incremental_refuted"
   ],
   "note": "Holds for absolute files in inches. False in general: the conditional expression binds weaker than %, so metric and incremental files show the bare word without label or line end."
  },
  {
   "property": "C121",
   "status": "partial",
   "theorems": [
    "C121_layers_partial",
    "C121_stop_partial",
    "C121_ninth_refuted",
    "C121_again_refuted",
    "C121_outline_refuted",
    "C121_empty_partial"
   ],
   "note": "Holds exactly while the internal settings of the theme last. False in general: the ninth internal layer raises StopIteration; the generator goes on in the next image, so the same board drawn again has other colours and finally raises StopIteration; settings given for classes without a default (outline, toppaste, ...) are ignored. How one layer is drawn is a parameter (see C101)."
  },
  {
   "property": "C122",
   "status": "proved",
   "theorems": [
    "C122_colours"
   ],
   "note": "Through the closed form of mixing (ThemeSpec.mix), which C121_layers_partial states for every point."
  },
  {
   "property": "C123",
   "status": "partial",
   "theorems": [
    "C123_sides_partial",
    "C123_blue_refuted",
    "C123_transparent_refuted",
    "C123_predefined_partial"
   ],
   "note": "Holds for every theme whose given settings have the right sides (default and OSH Park). False of 'Blue' (bottommask not mirrored) and of both transparent themes (bottom not mirrored, bottommask and bottomsilk mirrored)."
  },
  {
   "property": "C124",
   "status": "proved",
   "theorems": [
    "C124_layers",
    "C124_error",
    "C124_cases"
   ],
   "note": "gerber_read is a parameter: its outcome per file is arbitrary."
  },
  {
   "property": "C125",
   "status": "partial",
   "theorems": [
    "C125_name_partial",
    "C125_kicad_refuted"
   ],
   "note": "Refuted for the names KiCad writes (amp-F.Cu.gbr): the signature is only looked for behind a dot, so the stems differ and the board is called after the directory."
  },
  {
   "property": "C126",
   "status": "partial",
   "theorems": [
    "C126_image_partial",
    "C126_centres",
    "C126_undeclared_refuted",
    "C126_polygon_refuted"
   ],
   "note": "Proved for files that declare their unit before anything else and have no polygon or macro apertures (the objects: also no regions of a single segment). False of files that do not declare a unit (no MO statement is added, so millimetres are read as inches) and of polygons (the number of vertices is converted, C33). The centre of single quadrant arcs is a parameter assumed proportional; C126_centres proves that of the code over the reals."
  },
  {
   "property": "C127",
   "status": "partial",
   "theorems": [
    "C127_slot_refuted",
    "C41_write_read_partial"
   ],
   "note": "False of every file with a slot of one of its tools: writing raises (slots have no position), after part of the file has been written. What is proved of files without slots is C41."
  },
  {
   "property": "C128",
   "status": "partial",
   "theorems": [
    "C128_empty_refuted",
    "C128_file_refuted",
    "C128_shapes_refuted",
    "C128_text_partial",
    "C128_lines_partial"
   ],
   "note": "False of every group: the macro is written without primitives, because the statement is never built, and the file cannot be evaluated. The text the statement is made from does define the shapes, for dark shapes without holes, rectangles that are not turned, closed outlines, and numbers the formats %.4g and %.6g keep; math.degrees is a parameter with degrees(0) = 0."
  },
  {
   "property": "C129",
   "status": "proved",
   "theorems": [
    "C129_rounded_image"
   ],
   "note": "The centre of arcs in single quadrant mode is a parameter; nothing is claimed about how it moves with rounding (near_seg). Macro apertures are not covered: macro definitions are not among the statements that C21 reads back."
  },
  {
   "property": "C130",
   "status": "proved",
   "theorems": [
    "C130_converted_file"
   ],
   "note": "Composition of C126_image_partial and C129_rounded_image. Undeclared units and polygons are excluded by the quantifier (refuted in C126). The centre rule of single quadrant mode is assumed proportional, which C126_centres proves of the code over the reals."
  },
  {
   "property": "C131",
   "status": "partial",
   "theorems": [
    "C131_views_partial",
    "C131_side_refuted",
    "C131_internal_refuted",
    "C131_copper_refuted",
    "C131_holes_refuted",
    "C131_hole_refuted"
   ],
   "note": "Proved for boards with copper, mask or silk on both sides, some copper or an outline, and at most six internal layers. Refuted otherwise: a board with nothing on one side gives IndexError and no image at all; with seven or more internal layers StopIteration ends the command before the image of the copper; without copper and outline AttributeError does; and without an outline the image of the copper has no holes. How a single layer is drawn and at which scale is a parameter (C101-C106 are about it)."
  },
  {
   "property": "C132",
   "status": "partial",
   "theorems": [
    "C132_files_partial",
    "C132_error",
    "C132_stop_refuted",
    "C132_background_refuted"
   ],
   "note": "The background is always that of the default theme (refuted with OSH Park), and with more internal layers than the theme has settings for, StopIteration is raised and nothing is written. Everything else is proved."
  },
  {
   "property": "C133",
   "status": "partial",
   "theorems": [
    "C133_resolution_partial",
    "C133_tiny_diameter_refuted"
   ],
   "note": "Diameters below 1/10000 are written with an exponent before a decimal point and cannot be read (refuted). Proved for absolute files with a plain header and all numbers in the range of the format."
  },
  {
   "property": "C134",
   "status": "partial",
   "theorems": [
    "C134_position_refuted",
    "C134_diameters_partial"
   ],
   "note": "The positions keep their numbers in both directions: no hole two units of the last decimal place away from an axis is where it should be (refuted for every plain file). The unit and the diameters are converted (proved)."
  },
  {
   "property": "C135",
   "status": "partial",
   "theorems": [
    "C135_file_partial",
    "C135_beyond",
    "C135_refuted",
    "C135_obround_refuted",
    "C135_polygon_refuted",
    "C135_macro_refuted",
    "C135_apart",
    "C135_exposure_refuted",
    "C135_exact_partial"
   ],
   "note": "From the statements to the pixels: composition of C24 and C101 with the step in between. Proved for points within the outermost coordinates and more than a pixel below the top of each mark; marks are circles, rectangles, obrounds, regular polygons and dark macros of exposed circles, outlines, polygons and centre lines (flashed), lines with round and rectangular pens, arcs with round pens and regions. Beyond the outermost coordinates nothing is drawn (C135_beyond), so a dot there is missing (refuted); lines with an obround pen are not drawn and lines with a polygon pen raise AttributeError (refuted); macros are drawn dark whatever their polarity, and their primitives which are not exposed remove what is below the macro (C135_apart says what is drawn; refuted). Lines with macro pens and arcs with pens that are not round are not modelled here; moires, thermals, vector and lower left lines are left out of the proved part (C87-C92). C135_exact_partial says exactly what is shown within the outermost coordinates, the top row included, for files without macros."
  },
  {
   "property": "C136",
   "status": "partial",
   "theorems": [
    "C136_inverted_partial",
    "C136_refuted"
   ],
   "note": "Proved for dark marks without rectangular holes and without holes in rectangles and polygons. Clear marks are removed from the inverted image like dark ones (refuted; what holes do is C102_hole_refuted)."
  },
  {
   "property": "C137",
   "status": "partial",
   "theorems": [
    "C137_whole_partial",
    "C137_size",
    "C137_inverted_partial",
    "C137_refuted",
    "C137_empty_refuted",
    "C137_exact_partial",
    "C137_exact_inverted_partial"
   ],
   "note": "Proved (with the size) for points more than a pixel below the top of each mark, for the marks of C135_file_partial, in a fresh context; the top row of pixels may be missing (refuted); inverted for the marks of C136. A file which marks nothing gives a square of two million units (refuted). For files without macros the image is given exactly, the top row included (C137_exact_partial, C137_exact_inverted_partial)."
  },
  {
   "property": "C138",
   "status": "partial",
   "theorems": [
    "C138_file_partial",
    "C138_program_partial",
    "C138_layer_partial",
    "C138_inverted_partial",
    "C138_first_refuted",
    "C138_exact",
    "C138_exact_layer",
    "C138_exact_inverted"
   ],
   "note": "Proved for points more than a pixel below the top of each hole, for files in memory, for drill programs as text (with C36), within the bounds of a board and inverted. ExcellonFile has no bounds: a board whose first layer is a drill file cannot be drawn (refuted). C138_exact, C138_exact_layer and C138_exact_inverted give the image exactly, the top row included."
  },
  {
   "property": "C139",
   "status": "partial",
   "theorems": [
    "C139_moved_partial",
    "C139_refuted",
    "C139_origin_refuted"
   ],
   "note": "Holds, with the size, more than a pixel below the top of what covers a point, of files without I and J whose first move gives both coordinates (C32). Refuted in full: the clipping rounds the distance to the origin of the image, so the top row of pixels may appear or disappear when a file is moved; files starting from the implicit origin are torn apart."
  },
  {
   "property": "C140",
   "status": "partial",
   "theorems": [
    "C140_converted_partial",
    "C140_refuted"
   ],
   "note": "Proved exactly, for every pixel, for files whose apertures are circles, rectangles and obrounds. Refuted for polygons: the number of vertices is converted too, a hexagon is drawn as a polygon of 152 sides."
  },
  {
   "property": "C141",
   "status": "proved",
   "theorems": [
    "C141_boards_on_used_contexts",
    "C141_from_then_on"
   ],
   "note": "Layers, their looks, the choice of the scale and the SVG document are parameters of the theorems."
  },
  {
   "property": "C142",
   "status": "partial",
   "theorems": [
    "C142_refuted",
    "C142_after_clear_partial",
    "C142_files_stacked"
   ],
   "note": "Refuted: the second file is drawn in the box of the first. After clear() it holds; C142_files_stacked says what is drawn otherwise."
  },
  {
   "property": "C143",
   "status": "partial",
   "theorems": [
    "C143_refuted",
    "C143_png_partial",
    "C143_str_partial",
    "C143_same_image",
    "C143_svg_again",
    "C143_svg_then_png",
    "C143_svg_then_file",
    "C143_svg_then_layer",
    "C143_svg_str_empty"
   ],
   "note": "Refuted for SVG images; proved for PNG images. cairo.Error of a finished surface is GenericException in the model."
  },
  {
   "property": "C144",
   "status": "proved",
   "theorems": [
    "C144_color",
    "C144_background",
    "C144_alpha",
    "C144_always"
   ],
   "note": ""
  },
  {
   "property": "C145",
   "status": "partial",
   "theorems": [
    "C145_refuted",
    "C145_after_a_layer_partial",
    "C145_one_by_one",
    "C145_the_image"
   ],
   "note": "Refuted: a layer rendered after a file replaces it. True after another layer."
  },
  {
   "property": "C146",
   "status": "partial",
   "theorems": [
    "C146_image_parameters_refuted",
    "C146_image_parameters_partial"
   ],
   "note": "The full claim is refuted: one-axis statements raise TypeError, scale factors are read as 1, offsets below 1/10000 are not read back. Proved: two-axis offsets and mirrorings are read exactly, and offsets of five places are read back from what is written."
  },
  {
   "property": "C147",
   "status": "partial",
   "theorems": [
    "C147_image_parameters_act_refuted",
    "C147_image_parameters_act_partial"
   ],
   "note": "The full claim is refuted for each of the parameters. Proved: they have no effect, for every file."
  },
  {
   "property": "C148",
   "status": "partial",
   "theorems": [
    "C148_text_partial",
    "C148_refuted",
    "C148_rewritten",
    "C148_line_endings"
   ],
   "note": "Refuted for the top row of pixels (as C137). Proved: exact below the tops for every text of writable statements with inclusions; rewriting and line breaks change nothing."
  },
  {
   "property": "C149",
   "status": "partial",
   "theorems": [
    "C149_moved_partial",
    "C149_refuted"
   ],
   "note": "Refuted: a hole of two and a half pixels loses its top row at one place and not at another. Proved: equal sizes, and equal pixels at least one pixel below the top of what removes them."
  },
  {
   "property": "C150",
   "status": "partial",
   "theorems": [
    "C150_refuted",
    "C150_converted_partial"
   ],
   "note": "Refuted by two holes. Proved: the image of the converted file shows exactly the enlarged tools at the unmoved positions; converting back gives the file and its image."
  },
  {
   "property": "C151",
   "status": "partial",
   "theorems": [
    "C151_rewritten_partial",
    "C151_slot_refuted"
   ],
   "note": "Refuted for files with slots. Proved for files of holes with a plain header."
  },
  {
   "property": "C152",
   "status": "partial",
   "theorems": [
    "C152_read",
    "C152_fast_refuted",
    "C152_write_read_partial"
   ],
   "note": "Reading is proved in full. Writing and reading back is refuted for speeds of 100000 and more, written with %g in spite of zero suppression, and proved for all others."
  },
  {
   "property": "C153",
   "status": "partial",
   "theorems": [
    "C153_control",
    "C153_route_refuted",
    "C153_unit_format_refuted",
    "C153_end_refuted",
    "C153_end_partial"
   ],
   "note": "Proved in full for sequences of control statements. Refuted for routing statements (written as G00 alone), for the number format of unit statements (not written) and for end coordinates (always written with five decimals and trailing zeros left out); end statements are proved for formats with two digits before and one to five behind the point that leave trailing zeros out."
  },
  {
   "property": "C154",
   "status": "partial",
   "theorems": [
    "C154_change_partial",
    "C154_unknown_refuted",
    "C154_none"
   ],
   "note": "Proved for all programs in which the next tool is defined or has been selected before; refuted otherwise (tool 1 is used instead of a new tool)."
  },
  {
   "property": "C155",
   "status": "partial",
   "theorems": [
    "C155_moved_partial",
    "C155_inverted_partial",
    "C155_origin_partial",
    "C155_place_refuted",
    "C155_bounds_refuted",
    "C155_exact"
   ],
   "note": "As claimed, false; what the image shows is given exactly, except within the topmost pixel of a dot. The drawing of text by cairo is a parameter (any function). C155_exact includes the topmost pixel."
  },
  {
   "property": "C156",
   "status": "partial",
   "theorems": [
    "C156_equivalent",
    "C156_relation",
    "C156_read",
    "C156_written",
    "C156_convert",
    "C156_copy_refuted",
    "C156_copy_partial"
   ],
   "note": "Everything except the claim on copies is proved; that one is refuted for every tool. Speeds of 100000 and more are excluded from writing and reading back (C152)."
  },
  {
   "property": "C157",
   "status": "partial",
   "theorems": [
    "C157_read",
    "C157_write_read_partial",
    "C157_empty_refuted",
    "C157_file_refuted"
   ],
   "note": "Proved for lists with at least one tool; the empty list and whole files are refuted."
  },
  {
   "property": "C158",
   "status": "proved",
   "theorems": [
    "C158_unstated",
    "C158_written",
    "C158_digits"
   ],
   "note": "The statements are those of C21 and C23, the digits those of C05."
  },
  {
   "property": "C159",
   "status": "partial",
   "theorems": [
    "C159_marks_partial",
    "C159_image_partial",
    "C159_sizes_refuted",
    "C159_empty_refuted"
   ],
   "note": "Proved when all apertures made from one macro have the same primitives (macros that are not used may be present) and these can be written exactly. False in general: a macro used with different modifiers is written with the primitives of the last aperture, so that the others change size; a used macro without primitives gives a file that cannot be read."
  },
  {
   "property": "C160",
   "status": "partial",
   "theorems": [
    "C160_apart_partial",
    "C160_first_of_each_tool",
    "C160_no_exception",
    "C160_shared_refuted"
   ],
   "note": "Proved when no two hits have the same tool. False in general: only the first hit of every tool is converted, which C160_first_of_each_tool states exactly."
  },
  {
   "property": "C161",
   "status": "partial",
   "theorems": [
    "C161_statement",
    "C161_coordinates_partial",
    "C161_y_refuted"
   ],
   "note": "Proved when x and y have the same digits. False otherwise: the digits given for y are ignored and those of x are used for both."
  },
  {
   "property": "C162",
   "status": "proved",
   "theorems": [
    "C162_kept",
    "C162_given",
    "C162_definition",
    "C162_number"
   ],
   "note": "Definitions with their parameters are those of C152."
  },
  {
   "property": "C163",
   "status": "partial",
   "theorems": [
    "C163_netlist_partial",
    "C163_continued_partial",
    "C163_tooling_refuted"
   ],
   "note": "Proved for all records but tooling features and holes (337, 347), which are dropped silently although their codes are known. The limits of columns, signs and continuation lines are those of C55, C71 and C73."
  },
  {
   "property": "C164",
   "status": "proved",
   "theorems": [
    "C164_given",
    "C164_default"
   ],
   "note": "Programs and definitions are those of C36."
  },
  {
   "property": "C165",
   "status": "partial",
   "theorems": [
    "C165_opened",
    "C165_converted_partial",
    "C165_moved_partial",
    "C165_single_segment_refuted"
   ],
   "note": "Refuted for conversion: the segment of a region with a single segment is not converted. Proved for every file as read, for the conversion of files in one unit without such regions, and for offset where C32 holds. What a macro aperture is made of is not part of the objects here."
  },
  {
   "property": "C166",
   "status": "partial",
   "theorems": [
    "C166_noted_partial",
    "C166_first",
    "C166_blank",
    "C166_refuted"
   ],
   "note": "False directly below a G00 or G01 without coordinates: the parser glues the next line to it, so a comment there is read as coordinates and raises ValueError (C166_refuted). Everywhere else it holds for all files (C166_noted_partial, C166_first); blank lines are harmless everywhere (C166_blank)."
  },
  {
   "property": "C167",
   "status": "partial",
   "theorems": [
    "C167_holes_partial",
    "C167_tools",
    "C167_statements",
    "C167_unit_refuted"
   ],
   "note": "The numbers stay (C167_holes_partial), with their tools (C167_tools), and so do the statements (C167_statements). The place does not: a file has one unit, the one stated last, so a metric part behind a part in inches moves the holes of the first (C167_unit_refuted)."
  },
  {
   "property": "C168",
   "status": "partial",
   "theorems": [
    "C168_records_partial",
    "C168_lists",
    "C168_refuted"
   ],
   "note": "False between a record and its continuation line: the continuation is appended to the comment (C168_refuted). Proved everywhere else."
  },
  {
   "property": "C169",
   "status": "partial",
   "theorems": [
    "C169_gerber_partial",
    "C169_drill_partial",
    "C169_netlist_partial",
    "C169_gerber_refuted",
    "C169_drill_refuted",
    "C169_netlist_refuted"
   ],
   "note": "False in all three formats: a flash after M02 is drawn, a hole after M30 is drilled, a record after 999 is read. Proved instead is what the end statement does: nothing to a Gerber drawing (for every list of statements), and exactly one more statement in a drill file or a netlist, what follows being read as if it were not there, with the same error. Excluded are an M30 below a G00 or G01 without coordinates and a 999 with a continuation line below it."
  },
  {
   "property": "C170",
   "status": "partial",
   "theorems": [
    "C170_stays_partial",
    "C170_lists",
    "C170_error",
    "C170_record_refuted",
    "C170_units_refuted"
   ],
   "note": "False if the first new line is a continuation (it changes the last record) and false of the units, which are those stated last. Otherwise proved for every netlist: statements, test points, rendering and vias of the shorter netlist are a prefix of those of the longer one, no component is lost and an error stays an error (possibly another one)."
  },
  {
   "property": "C171",
   "status": "partial",
   "theorems": [
    "C171_lines",
    "C171_after",
    "C171_tells_partial",
    "C171_tells_refuted",
    "C171_shape_refuted"
   ],
   "note": "The lines of the listing are proved in full for every file that can be read. That descriptions tell statements apart is false: coordinates are written with six digits, and a macro called circle is described like a circle; what equal descriptions do tell is proved, including how far coordinates, scale factors and offsets can differ."
  },
  {
   "property": "C172",
   "status": "proved",
   "theorems": [
    "C172_convention",
    "C172_mixed"
   ],
   "note": "Records broken over continuation lines are included; an example shows why a carriage return and a line feed that run together are excluded."
  },
  {
   "property": "C173",
   "status": "partial",
   "theorems": [
    "C173_blanks",
    "C173_last",
    "C173_convention_partial",
    "C173_convention_refuted"
   ],
   "note": "Proved for white space and for the ends LF and CR LF. Refuted for lines that end in a carriage return alone: loads takes the whole text for one line and finds no holes (read opens files with universal newlines and is not concerned)."
  },
  {
   "property": "C174",
   "status": "partial",
   "theorems": [
    "C174_gerber",
    "C174_answer_partial",
    "C174_answer_refuted",
    "C174_drill_partial",
    "C174_drill_refuted",
    "C174_kinds_refuted"
   ],
   "note": "Proved for Gerber statements: equality is exactly being the same statement with the same units. False for drill statements: each is given a random id, which takes part in the comparison, so that the same statement made twice is not equal (C174_drill_refuted), and the class takes no part, so that statements which are only a word are equal when they are given the same id (C174_kinds_refuted); C174_drill_partial says exactly when they are equal. Comparison with None raises AttributeError (C174_answer_refuted)."
  },
  {
   "property": "C175",
   "status": "partial",
   "theorems": [
    "C175_new_partial",
    "C175_measured_partial",
    "C175_tells",
    "C175_measured_refuted"
   ],
   "note": "Refuted: the memoized bounding box takes part in the comparison, so a primitive whose box has been read is no longer equal to an unread one with the same attributes, for every class (C175_measured_refuted). Proved: equal primitives have the same attributes; new primitives with the same attributes are equal; so are primitives which reached the same attributes by different histories once both boxes have been read, unless an operation left an outdated box behind (C51)."
  },
  {
   "property": "C176",
   "status": "partial",
   "theorems": [
    "C176_tells_partial",
    "C176_described",
    "C176_mode_refuted",
    "C176_digits_refuted"
   ],
   "note": "Refuted: the description does not tell whether a coordinate is drilled, moved to or cut to (C176_mode_refuted), nor digits beyond the sixth (C176_digits_refuted). Proved: the same description means the same kind and the same operands up to the sixth digit, where a missing distance of repeated holes counts as zero."
  },
  {
   "property": "C177",
   "status": "partial",
   "theorems": [
    "C177_found_partial",
    "C177_plain_partial",
    "C177_internal_partial",
    "C177_found_refuted",
    "C177_other_refuted",
    "C177_order"
   ],
   "note": "Refuted: comparing an internal layer with any other raises TypeError, so looking for a layer of one sort raises TypeError whenever a layer of the other sort comes before it (C177_found_refuted), and an internal layer is taken for another one with the same number (C177_other_refuted). Proved: a layer is found after layers of its own sort; exactly, where no layer is internal; by number, where all are; the six operators of internal layers are those of their numbers."
  },
  {
   "property": "C178",
   "status": "partial",
   "theorems": [
    "C178_describes_partial",
    "C178_describes_refuted",
    "C178_read_refuted"
   ],
   "note": "Proved for tools with a diameter. Refuted for the others: describing a tool without a diameter raises TypeError, and such tools are read from headers which state none."
  },
  {
   "property": "C179",
   "status": "proved",
   "theorems": [
    "C179_tells"
   ],
   "note": "Formats may be any two integers, or a text of length two, which the constructor accepts as well."
  },
  {
   "property": "C180",
   "status": "proved",
   "theorems": [
    "C180_point",
    "C180_outline"
   ],
   "note": "Values are classified by type; sets, dictionaries and other sized objects are left out. The other constructors that call the check are not modelled with ill-typed arguments."
  },
  {
   "property": "C181",
   "status": "proved",
   "theorems": [
    "C181_tells"
   ],
   "note": "An example beside the theorem shows that an equals sign in a parameter name, or two different classes, can give the same description."
  },
  {
   "property": "C182",
   "status": "proved",
   "theorems": [
    "C182_tells"
   ],
   "note": "Numbers are exact rationals. A hit whose tool has no diameter has no description (C178)."
  }
 ]
}
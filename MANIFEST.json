{
 "claims": [
  {
   "property": "C01",
   "status": "proved",
   "theorems": [
    "C01_lines_exist",
    "C01_one_token_per_line",
    "C01_panic_iff",
    "C01_token_unique"
   ],
   "note": "lines and tokens specified independently (lines_spec, token_spec); panic iff a line starting with a quote has fewer than three quotes"
  },
  {
   "property": "C02",
   "status": "proved",
   "theorems": [
    "C02_property_line",
    "C02_property_file"
   ],
   "note": "any line of any file, plus the one-line file"
  },
  {
   "property": "C03",
   "status": "proved",
   "theorems": [
    "C03_document",
    "C03_document_text"
   ],
   "note": "token level for any number type, and from file text for f32"
  },
  {
   "property": "C04",
   "status": "proved",
   "theorems": [
    "C04_accept_iff",
    "C04_scope_error",
    "C04_plane_error",
    "C04_cases"
   ],
   "note": "acceptance iff, first offending token decides the failure, case analysis is exhaustive"
  },
  {
   "property": "C05",
   "status": "proved",
   "theorems": [
    "C05_truncated_tokens",
    "C05_truncated_file"
   ],
   "note": "token and text level"
  },
  {
   "property": "C06",
   "status": "proved",
   "theorems": [
    "C06_inert_tokens",
    "C06_inert_lines"
   ],
   "note": "token and text level; the whole result is equal, including failures"
  },
  {
   "property": "C07",
   "status": "proved",
   "theorems": [
    "C07_plane_round_trip",
    "C07_plane_round_trip_f32"
   ],
   "note": "generic in the number type, and for every finite f32 printed by Rust's formatter"
  },
  {
   "property": "C08",
   "status": "proved",
   "theorems": [
    "C08_read_iff",
    "C08_too_short_or_not_numeric",
    "C08_fields",
    "C08_extra_count",
    "C08_extra_unreadable"
   ],
   "note": "readable iff plane_words; all failure cases; a single unparsable extra word panics (Hexen 2)"
  },
  {
   "property": "C09",
   "status": "proved",
   "theorems": [
    "C09_round_trip",
    "C09_negative_zero",
    "C09_correctly_rounded"
   ],
   "note": "-0.0 needs the sign to be printed (Rust 1.53+); otherwise it reads back as +0.0 (C09_negative_zero)"
  },
  {
   "property": "C10",
   "status": "proved",
   "theorems": [
    "C10_no_panic",
    "C10_empty_panics"
   ],
   "note": "token sequences; text level follows from C01"
  },
  {
   "property": "C11",
   "status": "proved",
   "theorems": [
    "C11_longest_common"
   ],
   "note": "longest_common and selected are specified by induction on lists, independent of the table"
  },
  {
   "property": "C12",
   "status": "proved",
   "theorems": [
    "C12_reports"
   ],
   "note": ""
  },
  {
   "property": "C13",
   "status": "partial",
   "theorems": [
    "C13_self_diff_refuted",
    "C13_self_diff_partial"
   ],
   "note": "false as stated: a last token that does not occur before it is reported on both sides (C13_self_diff_refuted); C13_self_diff_partial gives the exact result for every file"
  },
  {
   "property": "C14",
   "status": "proved",
   "theorems": [
    "C14_fan"
   ],
   "note": "any arithmetic"
  },
  {
   "property": "C15",
   "status": "proved",
   "theorems": [
    "C15_corners"
   ],
   "note": "the corner set is characterised exactly: one corner for each meeting point up to =="
  },
  {
   "property": "C16",
   "status": "proved",
   "theorems": [
    "C16_corners",
    "C16_total"
   ],
   "note": "including degenerate planes; the transcendental functions are arbitrary"
  },
  {
   "property": "C17",
   "status": "proved",
   "theorems": [
    "C17_winding"
   ],
   "note": "angles as returned by the platform's atan2, not NaN"
  },
  {
   "property": "C18",
   "status": "partial",
   "theorems": [
    "C18_refuted",
    "C18_partial",
    "C18_centre_partial"
   ],
   "note": "false for the scalar build of glam (C18_refuted: 41 times the rounded reciprocal of 41 is not 1); C18_partial: true for the SSE2 build (default on x86-64) and for cross products of length a power of two; coordinates up to 2^20, products of plane edges below 2^23; C18_centre_partial for the brush centre"
  },
  {
   "property": "C19",
   "status": "proved",
   "theorems": [
    "C19_panics",
    "C19_otherwise",
    "C19_exact",
    "C19_outcome"
   ],
   "note": "any two of the three points may coincide; C19_exact: building succeeds exactly when all planes with standard texture coordinates have finite normals"
  },
  {
   "property": "C20",
   "status": "proved",
   "theorems": [
    "C20_texture"
   ],
   "note": "any arithmetic"
  },
  {
   "property": "C21",
   "status": "proved",
   "theorems": [
    "C21_geometry",
    "C21_lengths"
   ],
   "note": ""
  },
  {
   "property": "C22",
   "status": "proved",
   "theorems": [
    "C22_conserve"
   ],
   "note": ""
  },
  {
   "property": "C23",
   "status": "proved",
   "theorems": [
    "C23_parts",
    "C23_membership"
   ],
   "note": ""
  },
  {
   "property": "C24",
   "status": "proved",
   "theorems": [
    "C24_single"
   ],
   "note": ""
  },
  {
   "property": "C25",
   "status": "proved",
   "theorems": [
    "C25_terminates",
    "C25_stable"
   ],
   "note": "termination is stated as: recursion depth length data suffices, and larger depths give the same result"
  },
  {
   "property": "C26",
   "status": "proved",
   "theorems": [
    "C26_diverges"
   ],
   "note": ""
  },
  {
   "property": "C27",
   "status": "proved",
   "theorems": [
    "C27_forest"
   ],
   "note": ""
  },
  {
   "property": "C28",
   "status": "partial",
   "theorems": [
    "C28_refuted",
    "C28_partial"
   ],
   "note": "false as stated (C28_refuted: an entity whose group id does not exist is lost); C28_partial proves it when group links from every entity lead to a root"
  },
  {
   "property": "C29",
   "status": "proved",
   "theorems": [
    "C29_top_level",
    "C29_layer_order"
   ],
   "note": ""
  },
  {
   "property": "C30",
   "status": "proved",
   "theorems": [
    "C30_surface",
    "C30_concave"
   ],
   "note": ""
  },
  {
   "property": "C31",
   "status": "proved",
   "theorems": [
    "C31_surface",
    "C31_concave"
   ],
   "note": ""
  },
  {
   "property": "C32",
   "status": "partial",
   "theorems": [
    "C32_refuted",
    "C32_partial",
    "C32_same_attributes_partial"
   ],
   "note": "false as stated (C32_refuted): a corner that has an earlier equal in its brush is redirected to the first vertex of the brush at its position, which may have other attributes. C32_partial says exactly which vertex each corner gets; C32_same_attributes_partial gives the claim when equal positions within a brush mean equal vertices"
  },
  {
   "property": "C33",
   "status": "proved",
   "theorems": [
    "C33_arrays",
    "C33_attributes"
   ],
   "note": "the presence of texture coordinates is stated for geometry whose faces carry coordinates exactly when they have a texture size"
  },
  {
   "property": "C34",
   "status": "proved",
   "theorems": [
    "C34_mesh",
    "C34_selection"
   ],
   "note": ""
  },
  {
   "property": "C35",
   "status": "proved",
   "theorems": [
    "C35_blacklists",
    "C35_convex",
    "C35_concave"
   ],
   "note": ""
  },
  {
   "property": "C36",
   "status": "partial",
   "theorems": [
    "C36_declared_partial",
    "C36_undeclared",
    "C36_total",
    "C36_no_definition",
    "C36_actor"
   ],
   "note": "all kinds but flags; flags arrive as choices (C37_refuted); C36_total: an unreadable _tb_id or _tb_group panics"
  },
  {
   "property": "C37",
   "status": "partial",
   "theorems": [
    "C37_refuted",
    "C37_partial"
   ],
   "note": "false: C37_refuted; C37_partial: delivered as choices with the right number"
  },
  {
   "property": "C38",
   "status": "proved",
   "theorems": [
    "C38_definition",
    "C38_geometry",
    "C38_no_class"
   ],
   "note": "C38_no_class: entities without classname panic"
  },
  {
   "property": "C39",
   "status": "proved",
   "theorems": [
    "C39_node",
    "C39_geometry",
    "C39_present"
   ],
   "note": ""
  },
  {
   "property": "C40",
   "status": "proved",
   "theorems": [
    "C40_origins"
   ],
   "note": "root origins up to the sign of zero"
  },
  {
   "property": "C41",
   "status": "proved",
   "theorems": [
    "C41_header",
    "C41_entry",
    "C41_texture_header",
    "C41_palette",
    "C41_sizes",
    "C41_palette_file",
    "C41_palette_file_error"
   ],
   "note": "decoders characterised as the exact inverse of a little-endian byte layout; anychar on bytes is assumed to be Latin-1"
  },
  {
   "property": "C42",
   "status": "proved",
   "theorems": [
    "C42_read",
    "C42_directory_unique"
   ],
   "note": "exact characterisation of a successful one-level read, both build profiles"
  },
  {
   "property": "C43",
   "status": "proved",
   "theorems": [
    "C43_unreadable",
    "C43_no_panic",
    "C43_bad_magic"
   ],
   "note": "in builds with overflow checks an overflow panic can come first"
  },
  {
   "property": "C44",
   "status": "partial",
   "theorems": [
    "C44_levels_panic",
    "C44_levels_partial",
    "C44_levels_refuted"
   ],
   "note": "false: reading two or more levels of any non-empty texture panics (C44_levels_panic, C44_levels_refuted); C44_levels_partial: success only for textures without pixels"
  },
  {
   "property": "C45",
   "status": "proved",
   "theorems": [
    "C45_schedule",
    "C45_tasks"
   ],
   "note": "every permutation of the tasks; when several tasks panic the payload may differ"
  },
  {
   "property": "C46",
   "status": "proved",
   "theorems": [
    "C46_palettes"
   ],
   "note": ""
  },
  {
   "property": "C47",
   "status": "proved",
   "theorems": [
    "C47_checked",
    "C47_release"
   ],
   "note": "release profile: exact characterisation with addresses modulo 2^32"
  },
  {
   "property": "C48",
   "status": "proved",
   "theorems": [
    "C48_convert",
    "C48_no_palette",
    "C48_read_valid"
   ],
   "note": ""
  },
  {
   "property": "C49",
   "status": "partial",
   "theorems": [
    "C49_whitelist_refuted",
    "C49_whitelist_exact",
    "C49_whitelist_partial"
   ],
   "note": "false for entry names with upper case letters (C49_whitelist_refuted); C49_whitelist_partial holds for WADs with lower-case names"
  },
  {
   "property": "C50",
   "status": "proved",
   "theorems": [
    "C50_read_back",
    "C50_total",
    "C50_unambiguous",
    "C50_only_omitted"
   ],
   "note": "a separate reader recovers the visible data; text equality iff agreement up to the omitted information listed in GameDataSpec.agree"
  },
  {
   "property": "C51",
   "status": "proved",
   "theorems": [
    "C51_flags",
    "C51_values",
    "C51_too_many",
    "C51_unchecked"
   ],
   "note": "includes the release-profile behaviour for 32 or more flags"
  },
  {
   "property": "C52",
   "status": "proved",
   "theorems": [
    "C52_panics",
    "C52_default",
    "C52_no_other_panic"
   ],
   "note": ""
  },
  {
   "property": "C53",
   "status": "partial",
   "theorems": [
    "C53_refuted",
    "C53_partial"
   ],
   "note": "false: C53_refuted; C53_partial says exactly when it holds"
  },
  {
   "property": "C54",
   "status": "partial",
   "theorems": [
    "C54_refuted",
    "C54_partial"
   ],
   "note": "false: C54_refuted; C54_partial: of colours in [0,1] only black agrees"
  },
  {
   "property": "C55",
   "status": "proved",
   "theorems": [
    "C55_unit",
    "C55_any",
    "C55_monotone"
   ],
   "note": ""
  },
  {
   "property": "C56",
   "status": "proved",
   "theorems": [
    "C56_base"
   ],
   "note": "C56_empty shows the non-emptiness hypothesis is needed"
  },
  {
   "property": "C57",
   "status": "proved",
   "theorems": [
    "C57_collision",
    "C57_visual",
    "C57_class",
    "C57_variants"
   ],
   "note": ""
  },
  {
   "property": "C58",
   "status": "proved",
   "theorems": [
    "C58_errors",
    "C58_outcomes"
   ],
   "note": "stack depth is the only resource modelled; allocation failure is not"
  },
  {
   "property": "C59",
   "status": "partial",
   "theorems": [
    "C59_refuted",
    "C59_partial",
    "C59_printed_partial"
   ],
   "note": "false as stated (C59_refuted: non-integer id on a declared class; C19_panics: degenerate plane); C59_partial: holds with integer ids on declared classes and readable planes with finite normals; C59_printed_partial: for printed maps"
  },
  {
   "property": "C60",
   "status": "proved",
   "theorems": [
    "C60_brush",
    "C60_plane",
    "C60_independent"
   ],
   "note": ""
  },
  {
   "property": "C61",
   "status": "proved",
   "theorems": [
    "C61_bytes"
   ],
   "note": "by evaluation of all 256 values"
  },
  {
   "property": "C62",
   "status": "proved",
   "theorems": [
    "C62_defaults",
    "C62_flags"
   ],
   "note": ""
  },
  {
   "property": "C63",
   "status": "proved",
   "theorems": [
    "C63_flat",
    "C63_tangents"
   ],
   "note": "any arithmetic"
  },
  {
   "property": "C64",
   "status": "proved",
   "theorems": [
    "C64_phong"
   ],
   "note": ""
  },
  {
   "property": "C65",
   "status": "proved",
   "theorems": [
    "C65_uv"
   ],
   "note": "2x2 rotation and degree conversion arbitrary"
  },
  {
   "property": "C66",
   "status": "proved",
   "theorems": [
    "C66_tangent"
   ],
   "note": "quaternion rotation and degree conversion arbitrary"
  },
  {
   "property": "C67",
   "status": "proved",
   "theorems": [
    "C67_stuck",
    "C67_cyclic"
   ],
   "note": ""
  },
  {
   "property": "C68",
   "status": "proved",
   "theorems": [
    "C68_usable"
   ],
   "note": ""
  },
  {
   "property": "C69",
   "status": "proved",
   "theorems": [
    "C69_success"
   ],
   "note": "loading itself is characterised by C01 to C13 and C58"
  },
  {
   "property": "C70",
   "status": "proved",
   "theorems": [
    "C70_errors",
    "C70_panics",
    "C70_result",
    "C70_mentions"
   ],
   "note": "both inputs are compared without their last tokens, as in C11"
  },
  {
   "property": "C71",
   "status": "proved",
   "theorems": [
    "C71_clockwise"
   ],
   "note": "real arithmetic; corners within the tolerance in front of a plane are excluded by the hypothesis"
  },
  {
   "property": "C72",
   "status": "proved",
   "theorems": [
    "C72_disjoint",
    "C72_cover"
   ],
   "note": "real arithmetic, same hypothesis as C71"
  },
  {
   "property": "C73",
   "status": "proved",
   "theorems": [
    "C73_moved"
   ],
   "note": "real arithmetic"
  },
  {
   "property": "C74",
   "status": "proved",
   "theorems": [
    "C74_corners",
    "C74_order"
   ],
   "note": "real arithmetic"
  },
  {
   "property": "C75",
   "status": "proved",
   "theorems": [
    "C75_paths",
    "C75_found",
    "C75_value"
   ],
   "note": ""
  },
  {
   "property": "C76",
   "status": "proved",
   "theorems": [
    "C76_lines"
   ],
   "note": ""
  },
  {
   "property": "C77",
   "status": "proved",
   "theorems": [
    "C77_unused"
   ],
   "note": "the iteration order of the layer map is any permutation of it"
  },
  {
   "property": "C78",
   "status": "proved",
   "theorems": [
    "C78_layout"
   ],
   "note": "all plane lines readable"
  },
  {
   "property": "C79",
   "status": "proved",
   "theorems": [
    "C79_sound"
   ],
   "note": ""
  },
  {
   "property": "C80",
   "status": "proved",
   "theorems": [
    "C80_side",
    "C80_wedge"
   ],
   "note": "real arithmetic; conditions on flat and cut off corners are hypotheses, C80_wedge shows the first is needed"
  },
  {
   "property": "C81",
   "status": "proved",
   "theorems": [
    "C81_surface",
    "C81_touching"
   ],
   "note": "real arithmetic, conditions of C80; brushes without inner point need three corners on each side"
  },
  {
   "property": "C82",
   "status": "proved",
   "theorems": [
    "C82_numbers",
    "C82_unique",
    "C82_integers",
    "C82_white_space"
   ],
   "note": ""
  },
  {
   "property": "C83",
   "status": "proved",
   "theorems": [
    "C83_operations",
    "C83_signs",
    "C83_conversions",
    "C83_constants",
    "C83_normalize",
    "C83_nan",
    "C83_infinite_pairs",
    "C83_infinite",
    "C83_exceptions"
   ],
   "note": "cos, atan2, degree conversion and rotations stay parameters"
  },
  {
   "property": "C84",
   "status": "proved",
   "theorems": [
    "C84_shortest",
    "C84_special",
    "C84_integers"
   ],
   "note": "as Display for f32 prints; the tie between two closest decimals is not fixed"
  },
  {
   "property": "C85",
   "status": "proved",
   "theorems": [
    "C85_lower",
    "C85_same",
    "C85_textures"
   ],
   "note": "plane textures with Latin-1 names"
  },
  {
   "property": "C86",
   "status": "proved",
   "theorems": [
    "C86_saved",
    "C86_total",
    "C86_fails",
    "C86_panics",
    "C86_read_back",
    "C86_same"
   ],
   "note": "the file system is a map from paths to contents; the system decides whether a write succeeds"
  },
  {
   "property": "C87",
   "status": "proved",
   "theorems": [
    "C87_equal",
    "C87_equivalence",
    "C87_hash",
    "C87_prefix_free"
   ],
   "note": ""
  },
  {
   "property": "C88",
   "status": "proved",
   "theorems": [
    "C88_layout",
    "C88_unambiguous",
    "C88_output"
   ],
   "note": "Rust 1.37 or later; the progress lines of the tokenizer are left out"
  },
  {
   "property": "C89",
   "status": "proved",
   "theorems": [
    "C89_inside"
   ],
   "note": "planes through whole points whose direction is computed exactly"
  },
  {
   "property": "C90",
   "status": "proved",
   "theorems": [
    "C90_accurate"
   ],
   "note": "planes through whole points whose direction is computed exactly"
  },
  {
   "property": "C91",
   "status": "partial",
   "theorems": [
    "C91_corners_refuted",
    "C91_corners_partial"
   ],
   "note": "false in general: a tetrahedron with whole corners within 4096 of the origin and determinant 0.49 loses a corner and the face its triangles (C91_corners_refuted); holds where 2^-19 * distances / determinant is below the tolerance 0.001"
  },
  {
   "property": "C92",
   "status": "partial",
   "theorems": [
    "C92_corners_refuted",
    "C92_corners_partial"
   ],
   "note": "false in general: each side of a pyramid on a square 4 wide and 3 high has the top twice (C92_corners_refuted); holds where each corner belongs to one pair of planes and no decision is closer than rounding"
  },
  {
   "property": "C93",
   "status": "partial",
   "theorems": [
    "C93_shared_refuted",
    "C93_gap_partial"
   ],
   "note": "false in general: faces of a tetrahedron with whole corners up to 64 differ in their common corner (C93_shared_refuted); the gap is at most twice the rounding of a corner"
  },
  {
   "property": "C94",
   "status": "partial",
   "theorems": [
    "C94_face",
    "C94_empty",
    "C94_refuted",
    "C94_brush_partial",
    "C94_strict_partial",
    "C94_entity"
   ],
   "note": "false in general: a plane that does not touch the brush adds a face without corners whose centre is the origin, which moves the brush's centre out of a cube (C94_refuted); holds when every face has a corner; faces and entities without exception"
  },
  {
   "property": "C95",
   "status": "proved",
   "theorems": [
    "C95_unit"
   ],
   "note": "planes through whole points whose direction is computed exactly"
  },
  {
   "property": "C96",
   "status": "partial",
   "theorems": [
    "C96_refuted",
    "C96_angle_partial",
    "C96_blunt_partial"
   ],
   "note": "false in general: at the tip of a blade the sum of the normals faces into the brush (C96_refuted); holds with a smoothing angle whose cosine is not negative, and where planes meet at blunt angles"
  },
  {
   "property": "C97",
   "status": "proved",
   "theorems": [
    "C97_points"
   ],
   "note": "planes through whole points whose direction is computed exactly; the map file is a document"
  },
  {
   "property": "C98",
   "status": "proved",
   "theorems": [
    "C98_drawn"
   ],
   "note": "planes through whole points whose direction is computed exactly; the map file is a document"
  },
  {
   "property": "C99",
   "status": "proved",
   "theorems": [
    "C99_solid",
    "C99_layers"
   ],
   "note": "planes through whole points whose direction is computed exactly; the map file is a document"
  },
  {
   "property": "C100",
   "status": "proved",
   "theorems": [
    "C100_written",
    "C100_colors"
   ],
   "note": "archives below 4 GiB with palettes of 256 colours; archives laid out otherwise: C41 to C49"
  },
  {
   "property": "C101",
   "status": "proved",
   "theorems": [
    "C101_valve",
    "C101_standard"
   ],
   "note": "planes through whole points whose direction is computed exactly; scales, offsets, sizes in stated ranges; the machine's rotation is given by its error"
  },
  {
   "property": "C102",
   "status": "proved",
   "theorems": [
    "C102_vertices"
   ],
   "note": "map files whose planes go through whole points; the error is measured with the size of the surface"
  },
  {
   "property": "C103",
   "status": "partial",
   "theorems": [
    "C103_rotated_refuted",
    "C103_mirrored_refuted",
    "C103_flipped_refuted",
    "C103_valve_partial",
    "C103_standard_partial",
    "C103_turned_partial"
   ],
   "note": "refuted as stated: turned standard textures and mirrored ones have tangents that do not go with the texture coordinates; proved for the other cases, with the exact deviation for turned ones on planes facing along an axis"
  },
  {
   "property": "C104",
   "status": "proved",
   "theorems": [
    "C104_face",
    "C104_brush",
    "C104_entity"
   ],
   "note": "centres of faces, brushes and entities; hypotheses: grid planes, at most 4000 planes per brush, fewer than 2^24 brushes"
  },
  {
   "property": "C105",
   "status": "proved",
   "theorems": [
    "C105_clockwise",
    "C105_vertices",
    "C105_dent"
   ],
   "note": "hypotheses: grid planes, clear and simple corners (C92), accurate atan2, spread corners; for the computed points also no three nearly in line; C105_dent: a triangle turned over without them"
  },
  {
   "property": "C106",
   "status": "proved",
   "theorems": [
    "C106_triangles"
   ],
   "note": "hypotheses: grid documents; clockwise for well shaped sides"
  },
  {
   "property": "C107",
   "status": "proved",
   "theorems": [
    "C107_side",
    "C107_brush",
    "C107_drawn",
    "C107_solid",
    "C107_layers",
    "C107_near"
   ],
   "note": "hypotheses: grid documents; sides well shaped and bounded"
  },
  {
   "property": "C108",
   "status": "proved",
   "theorems": [
    "C108_brush",
    "C108_filled",
    "C108_layers",
    "C108_shapes"
   ],
   "note": "hypotheses: grid documents; finite brushes without close calls"
  },
  {
   "property": "C109",
   "status": "proved",
   "theorems": [
    "C109_actors",
    "C109_entities",
    "C109_origin",
    "C109_mean",
    "C109_exact",
    "C109_rounding"
   ],
   "note": "bounds assume centres up to 2^60; C109_mean: grid documents"
  },
  {
   "property": "C110",
   "status": "proved",
   "theorems": [
    "C110_clockwise",
    "C110_side",
    "C110_simple"
   ],
   "note": "hypotheses: whole points, no close calls, corners spread for every choice of pairs; strengthens C105 and C107"
  },
  {
   "property": "C111",
   "status": "proved",
   "theorems": [
    "C111_tree",
    "C111_unique"
   ],
   "note": "whole tree of a run but for shapes; flags arrive as choices, as in C37"
  },
  {
   "property": "C112",
   "status": "proved",
   "theorems": [
    "C112_order",
    "C112_success",
    "C112_nodes"
   ],
   "note": "for successful runs; which panic comes first may depend on the order"
  },
  {
   "property": "C113",
   "status": "proved",
   "theorems": [
    "C113_hides"
   ],
   "note": "C35_blacklists: the second run succeeds only if the first does"
  },
  {
   "property": "C114",
   "status": "proved",
   "theorems": [
    "C114_grows",
    "C114_ungrouped"
   ],
   "note": "for successful runs of the larger map"
  },
  {
   "property": "C115",
   "status": "proved",
   "theorems": [
    "C115_brush",
    "C115_run",
    "C115_beyond",
    "C115_beyond_f32",
    "C115_centre"
   ],
   "note": "planes with a texture of their own, which add a surface without triangles or change what is hidden, are not covered"
  },
  {
   "property": "C116",
   "status": "proved",
   "theorems": [
    "C116_brush",
    "C116_run",
    "C116_normals_refuted"
   ],
   "note": "places of corners are equal as f32 numbers compare (a zero may change its sign where corners are merged); changes between the two kinds of texture coordinates can turn success into failure and are not covered"
  },
  {
   "property": "C117",
   "status": "proved",
   "theorems": [
    "C117_run",
    "C117_centre",
    "C117_position_refuted"
   ],
   "note": ""
  },
  {
   "property": "C118",
   "status": "proved",
   "theorems": [
    "C118_success",
    "C118_endless",
    "C118_circular",
    "C118_panics"
   ],
   "note": ""
  },
  {
   "property": "C119",
   "status": "proved",
   "theorems": [
    "C119_face",
    "C119_brush",
    "C119_map"
   ],
   "note": "over the real-number instance; layers are taken in the order they are made (other orders permute them); standard-format planes: no claim on tangents and texture coordinates, for which the program chooses projection axes of the world"
  },
  {
   "property": "C120",
   "status": "proved",
   "theorems": [
    "C120_face",
    "C120_entity"
   ],
   "note": "over the real-number instance"
  },
  {
   "property": "C121",
   "status": "proved",
   "theorems": [
    "C121_brush",
    "C121_entity",
    "C121_smoothed_refuted"
   ],
   "note": "over the real-number instance; the counterexample for smoothed normals in f32"
  },
  {
   "property": "C122",
   "status": "proved",
   "theorems": [
    "C122_face",
    "C122_brush",
    "C122_map",
    "C122_tolerance_refuted"
   ],
   "note": "over the real-number instance; the condition on the tolerance is needed (refuted without it)"
  },
  {
   "property": "C123",
   "status": "proved",
   "theorems": [
    "C123_shared",
    "C123_once",
    "C123_repeated_refuted"
   ],
   "note": "over the real-number instance; the uniqueness refuted for a brush with a side given twice"
  },
  {
   "property": "C124",
   "status": "proved",
   "theorems": [
    "C124_closed",
    "C124_volume"
   ],
   "note": "over the real-number instance"
  },
  {
   "property": "C125",
   "status": "proved",
   "theorems": [
    "C125_shapes",
    "C125_meshes"
   ],
   "note": "over the real-number instance, from the planes of the map to the tree"
  },
  {
   "property": "C126",
   "status": "proved",
   "theorems": [
    "C126_face",
    "C126_bound",
    "C126_exponential"
   ],
   "note": "memory itself is not modelled: sizes are numbers of nodes, corners and indices; the exponential maps declare no classes in the FGD, since their ids need not fit an i32"
  },
  {
   "property": "C127",
   "status": "proved",
   "theorems": [
    "C127_meet",
    "C127_corners",
    "C127_four"
   ],
   "note": "the bound on corners improves that of C126 (n*n) for brushes without defects"
  },
  {
   "property": "C128",
   "status": "proved",
   "theorems": [
    "C128_euler",
    "C128_bounds",
    "C128_triangles",
    "C128_lists"
   ],
   "note": "the same hypotheses as C123 and C124; lists of corners and edges exist for every such brush"
  },
  {
   "property": "C129",
   "status": "proved",
   "theorems": [
    "C129_ray",
    "C129_cover",
    "C129_disjoint"
   ],
   "note": "together with C124, whose volume is the sum over these pyramids, this says that the volume is that of the solid; measure itself is not formalised"
  },
  {
   "property": "C130",
   "status": "proved",
   "theorems": [
    "C130_wound",
    "C130_closed"
   ],
   "note": "the single precision counterpart of C123 for boxes; as in C18 the scalar build needs planes whose cross product has a length that is a power of two"
  },
  {
   "property": "C131",
   "status": "proved",
   "theorems": [
    "C131_edges",
    "C131_vertices",
    "C131_triangles"
   ],
   "note": "the single precision counterpart of C123 and C128 for general brushes; every plane must contribute a side with three corners (part of C107's condition)"
  },
  {
   "property": "C132",
   "status": "proved",
   "theorems": [
    "C132_shapes",
    "C132_meshes"
   ],
   "note": "the single precision counterpart of C125 for boxes, for whole runs from the bytes of the map file; exact, without allowance for rounding"
  },
  {
   "property": "C133",
   "status": "proved",
   "theorems": [
    "C133_stable",
    "C133_written",
    "C133_huge"
   ],
   "note": "justifies that the model sorts by insertion; the order of corners with equal angles is part of it (C17 leaves it open)"
  },
  {
   "property": "C134",
   "status": "proved",
   "theorems": [
    "C134_volume",
    "C134_area",
    "C134_exact"
   ],
   "note": "over real numbers C124, for integer boxes C130; here for all shapes of brushes in single precision. The bound is on six times the volume"
  },
  {
   "property": "C135",
   "status": "proved",
   "theorems": [
    "C135_shapes",
    "C135_meshes"
   ],
   "note": "C132 is the exact version, for maps of integer boxes; here brushes may have any shape. Which brushes of the entity are in the shape or mesh is not said here; C98, C99 and C106 do"
  },
  {
   "property": "C136",
   "status": "proved",
   "theorems": [
    "C136_unique",
    "C136_exactly",
    "C136_files",
    "C136_swapped",
    "C136_swapped_refuted",
    "C136_nothing",
    "C136_nothing_refuted"
   ],
   "note": "C11 leaves open which longest common subsequence is kept; here the result is determined"
  },
  {
   "property": "C137",
   "status": "proved",
   "theorems": [
    "C137_brush",
    "C137_corners",
    "C137_actor",
    "C137_world",
    "C137_finite_refuted"
   ],
   "note": "complements C19, which shows that the same planes stop the run when they have standard coordinates"
  },
  {
   "property": "C138",
   "status": "proved",
   "theorems": [
    "C138_exact",
    "C138_floats",
    "C138_shape"
   ],
   "note": "planes with points that are not whole are covered by the exact version only"
  },
  {
   "property": "C139",
   "status": "proved",
   "theorems": [
    "C139_elsewhere",
    "C139_appended",
    "C139_cut",
    "C139_chosen",
    "C139_names"
   ],
   "note": "one mip level except for the order of names; with more levels reading panics on all but degenerate sizes (C44)"
  },
  {
   "property": "C140",
   "status": "proved",
   "theorems": [
    "C140_panics",
    "C140_errors",
    "C140_reads"
   ],
   "note": "one mip level; C44 says what happens with more"
  },
  {
   "property": "C141",
   "status": "proved",
   "theorems": [
    "C141_links",
    "C141_renamed",
    "C141_numbers_refuted"
   ],
   "note": "names are compared as texts: 7 and +7 give the same property value but are different groups (C141_numbers_refuted)"
  },
  {
   "property": "C142",
   "status": "proved",
   "theorems": [
    "C142_run"
   ],
   "note": "names are compared after the conversion to lower case that the reader does (C85)"
  },
  {
   "property": "C143",
   "status": "proved",
   "theorems": [
    "C143_run"
   ],
   "note": "equality of outcomes, failures included, for maps whose planes can be read; the loading of the map does not depend on keys at all"
  },
  {
   "property": "C144",
   "status": "proved",
   "theorems": [
    "C144_face",
    "C144_entity"
   ],
   "note": "exact arithmetic; texture coordinates and smoothed normals are left out, and the layout of textures on the mirrored planes may be any"
  },
  {
   "property": "C145",
   "status": "proved",
   "theorems": [
    "C145_cut",
    "C145_sides"
   ],
   "note": "exact arithmetic; texture coordinates and normals are left out"
  },
  {
   "property": "C146",
   "status": "proved",
   "theorems": [
    "C146_run"
   ],
   "note": "success and result; which error or panic is reported is not compared. An example shows that the condition on declarations is needed"
  },
  {
   "property": "C147",
   "status": "proved",
   "theorems": [
    "C147_document",
    "C147_run",
    "C147_worlds"
   ],
   "note": "complete files: every entity and brush is closed; an unfinished first file is not covered"
  },
  {
   "property": "C148",
   "status": "proved",
   "theorems": [
    "C148_brush",
    "C148_filled",
    "C148_shapes"
   ],
   "note": "single precision; no rounding error at all, in contrast to C108, which holds for all brushes without close calls"
  },
  {
   "property": "C149",
   "status": "proved",
   "theorems": [
    "C149_brush",
    "C149_scene",
    "C149_cut"
   ],
   "note": "exact arithmetic; C108 says how much rounding changes and C148 that it changes nothing for integer boxes"
  },
  {
   "property": "C150",
   "status": "proved",
   "theorems": [
    "C150_brush",
    "C150_scene"
   ],
   "note": "exact arithmetic; follows that planes that cut nothing off (C115) add no points to the shape"
  },
  {
   "property": "C151",
   "status": "proved",
   "theorems": [
    "C151_face",
    "C151_shape"
   ],
   "note": "exact arithmetic; textures, normals, tangents and uv of faces depend on the planes, so they are not part of the claim"
  },
  {
   "property": "C152",
   "status": "proved",
   "theorems": [
    "C152_inside",
    "C152_line",
    "C152_even_odd",
    "C152_wall"
   ],
   "note": "exact arithmetic; a line that misses the inside may run along a face, so it is left out of the even-odd rule"
  },
  {
   "property": "C153",
   "status": "proved",
   "theorems": [
    "C153_brush",
    "C153_shapes",
    "C153_meshes"
   ],
   "note": "same assumption about the platform's angles as C130"
  },
  {
   "property": "C154",
   "status": "proved",
   "theorems": [
    "C154_line",
    "C154_even_odd",
    "C154_shapes"
   ],
   "note": "same assumption about the platform's angles as C130; what a physics engine makes of the triangles is not modelled"
  },
  {
   "property": "C155",
   "status": "proved",
   "theorems": [
    "C155_shapes",
    "C155_walls",
    "C155_meshes"
   ],
   "note": "exact arithmetic with any angle function ordering directions around a point; C153 and C154 are the single-precision counterpart for integer boxes"
  },
  {
   "property": "C156",
   "status": "proved",
   "theorems": [
    "C156_skin",
    "C156_ways"
   ],
   "note": "exact arithmetic with any angle function ordering directions around a point"
  }
 ]
}
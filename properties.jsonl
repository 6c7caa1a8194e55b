{"id": "C01", "title": "One token per line, classified by first character", "statement": "Loading a map turns every line of the file into exactly one token, in file order; the kind of token is decided by the first character of the line only ('/' comment, '\"' property, '{' open, '}' close, '(' brush plane, anything else - including an empty or indented line - is unrecognised). The only inputs on which tokenising panics are those containing a line that starts with '\"' and has fewer than three '\"'.", "quantifier": "every file text (any Unicode string, any number of lines)", "why_tests_cant": "the claim ranges over all strings; the panic condition is an exact characterisation", "anchors": ["src/map/quake/tokenizer.rs: run, Token"]}
{"id": "C02", "title": "Property lines round-trip", "statement": "For every key and value containing neither a double quote nor a line break, the line \"key\" \"value\" (whatever follows the fourth quote) is read back as exactly that key and value.", "quantifier": "every key, value and trailing text", "why_tests_cant": "infinitely many strings", "anchors": ["src/map/quake/tokenizer.rs: run, Property"]}
{"id": "C03", "title": "Map grammar: entity, brush and plane structure is preserved", "statement": "Parsing the token stream of any document (a list of entities, each with properties and brushes in any interleaving, each brush a list of planes), interspersed with arbitrary comment and unrecognised lines, yields exactly the document's entities in order, each with its brushes in order, each with its planes in order, and for a repeated property key the last value.", "quantifier": "every document and every interspersing of ignorable lines", "why_tests_cant": "unbounded nesting of lists; all interleavings", "anchors": ["src/map/quake/parser.rs: run", "src/map/quake/types/entity.rs: Entity"]}
{"id": "C04", "title": "Exact acceptance condition of the map parser", "statement": "Parsing fails exactly when some token appears in a scope where it is illegal (close brace or property or plane at file scope, plane at entity scope, open brace or property in a brush) before any malformed plane; otherwise it succeeds.", "quantifier": "every token sequence", "why_tests_cant": "all sequences", "anchors": ["src/map/quake/parser.rs: run"]}
{"id": "C05", "title": "Truncation at a line boundary", "statement": "If a map file parses, every line-boundary truncation of it also parses, to the same entities minus the lost suffix; in particular a truncated map is not reported as an error.", "quantifier": "every map and every truncation point", "why_tests_cant": "every crash point of the program that wrote the file", "anchors": ["src/map/quake/parser.rs: run"]}
{"id": "C06", "title": "Comments and unrecognised lines are inert", "statement": "Adding or removing comment lines and unrecognised lines anywhere in a map never changes the entities parsed from it, nor whether it parses.", "quantifier": "every map and every set of insertion points", "why_tests_cant": "all insertions", "anchors": ["src/map/quake/tokenizer.rs: run", "src/map/quake/parser.rs: run"]}
{"id": "C07", "title": "Brush plane lines round-trip", "statement": "Every plane printed in the standard format '( x y z ) ( x y z ) ( x y z ) TEX u v rot sx sy [extra]' or the Valve format '... TEX [ ux uy uz uo ] [ vx vy vz vo ] rot sx sy [extra]', with 0, 1, 3 or 6 extra numbers and any whitespace runs as separators, is read back with the same points, texture (lower-cased), texture coordinates, rotation, scale and extra data.", "quantifier": "every plane (all finite f32 values), every whitespace separation", "why_tests_cant": "all float values and all spacings", "anchors": ["src/map/quake/types/brush_plane.rs: BrushPlane::new, ExtraData::quake_2, ExtraData::daikatana"]}
{"id": "C08", "title": "Malformed plane lines", "statement": "A plane line never yields a wrong plane silently by running out of fields: with fewer fields than the format needs, or a non-numeric coordinate, loading panics; a wrong number of extra fields (2, 4, 5 or more than 6) or unparsable Quake 2 / Daikatana extra data is reported as an error.", "quantifier": "every plane line", "why_tests_cant": "all strings", "anchors": ["src/map/quake/types/brush_plane.rs: BrushPlane::new"]}
{"id": "C09", "title": "Decimal numbers are read correctly rounded and printed so that they read back", "statement": "Every finite f32 printed into an FGD is a decimal string that the map reader parses back to the identical f32.", "quantifier": "all finite f32 values", "why_tests_cant": "2^32 values through two conversions", "anchors": ["src/game_data/forge/property.rs: to_string", "src/map/quake/types/brush_plane.rs: parse"]}
{"id": "C10", "title": "Token diff never panics on non-empty inputs", "statement": "Comparing two maps that each contain at least one line never panics (every table access is in bounds and every common-subsequence slot is filled); comparing with an empty file always panics.", "quantifier": "every pair of token sequences", "why_tests_cant": "all pairs, all sizes of the dynamic-programming table", "anchors": ["src/map/quake/tokenizer.rs: diff_tokens", "src/lib.rs: run_diff"]}
{"id": "C11", "title": "Token diff is based on a longest common subsequence of the inputs without their last tokens", "statement": "The kept tokens form a common subsequence of both inputs with the last token of each dropped, and no common subsequence of these is longer; removed (added) lists exactly the tokens of the first (second) input, in order and with repetitions, whose value does not occur among the kept tokens.", "quantifier": "every pair of non-empty token sequences", "why_tests_cant": "optimality over all common subsequences", "anchors": ["src/map/quake/tokenizer.rs: diff_tokens"]}
{"id": "C12", "title": "Diff reports every token that is new or gone", "statement": "A token of one file whose value does not occur at all in the other file is always reported (removed or added), and nothing is reported that is not in the respective file.", "quantifier": "every pair of non-empty token sequences", "why_tests_cant": "all pairs", "anchors": ["src/map/quake/tokenizer.rs: diff_tokens"]}
{"id": "C13", "title": "A file does not differ from itself", "statement": "Comparing a map with itself reports no added and no removed tokens.", "quantifier": "every non-empty token sequence", "why_tests_cant": "all sequences", "anchors": ["src/map/quake/tokenizer.rs: diff_tokens"]}
{"id": "C14", "title": "Face triangulation is a fan within bounds", "statement": "Every face built from a brush plane with n corners has index list of length 3*(n-2) (0 if n<3), every index is < n, and triangle i is (0, i+1, i+2).", "quantifier": "every brush, plane, texture table and float behaviour", "why_tests_cant": "all brushes", "anchors": ["src/geo_builder/brush_plane/mod.rs: build"]}
{"id": "C15", "title": "Face corners come from plane intersections inside the brush", "statement": "Every corner of a face is the intersection of its plane with two planes of the brush that passed the inside-the-brush test against every plane, and (before the centring step) no two corners of a face compare equal.", "quantifier": "every brush", "why_tests_cant": "all brushes", "anchors": ["src/geo_builder/brush_plane/mod.rs: build, build_plane_vertex", "src/geo_builder/brush_plane/vertices.rs"]}
{"id": "C16", "title": "Exact-arithmetic correctness of corners", "statement": "In exact real arithmetic every corner lies on the face's plane and on two other planes of the brush, is within 0.001 of the inside of every plane, and all corners of the face have distinct positions; conversely every point where the face plane and two others meet with determinant at least 0.001 in that order and that is inside the brush is a corner.", "quantifier": "every brush over the reals", "why_tests_cant": "continuum of inputs", "anchors": ["src/geo_builder/brush_plane/vertices.rs: intersect_brush_planes, vertex_in_hull"]}
{"id": "C17", "title": "Winding order", "statement": "The corners of a face are output sorted by decreasing angle around the face centre in the face's (u,v) frame, as a permutation of the unsorted corners.", "quantifier": "every face whose angles are not NaN", "why_tests_cant": "all faces, all orders", "anchors": ["src/geo_builder/brush_plane/mod.rs: build"]}
{"id": "C18", "title": "Axis-aligned integer boxes are exact in f32", "statement": "For every axis-aligned box with integer corner coordinates of moderate size, each of the six faces built in f32 arithmetic has exactly the four true corners of that side, with exact coordinates, exact unit normal, and exact centre.", "quantifier": "every integer box within the bound", "why_tests_cant": "millions of boxes; rounding must be proved absent", "anchors": ["src/geo_builder/brush_plane/mod.rs: build", "src/map/quake/types/brush_plane.rs: normal, dist"]}
{"id": "C19", "title": "Degenerate planes", "statement": "A plane whose first two points coincide (zero normal) makes map building panic when it uses standard texture coordinates, instead of being skipped or reported.", "quantifier": "every brush containing such a plane", "why_tests_cant": "all brushes", "anchors": ["src/geo_builder/brush_plane/tangents.rs: standard_tangent", "src/geo_builder/brush_plane/vertices.rs"]}
{"id": "C20", "title": "Texture and UV presence", "statement": "A face carries its texture name iff that texture is in the supplied texture table; every corner of a face has a UV iff the face has a texture; a corner has a colour iff the plane carries Daikatana data, and then it is that colour.", "quantifier": "every brush and texture table", "why_tests_cant": "all inputs", "anchors": ["src/geo_builder/brush_plane/mod.rs: build, build_plane_vertex"]}
{"id": "C21", "title": "One geometry per entity, brush and plane", "statement": "Geometry building yields exactly one entity geometry per entity, one brush geometry per brush and one face per plane, in order; an entity's centre is its 'origin' property when present (missing or unparsable components are 0) and otherwise the mean of its brush centres.", "quantifier": "every entity list", "why_tests_cant": "all inputs", "anchors": ["src/geo_builder/mod.rs: run", "src/geo_builder/entity/mod.rs: build", "src/geo_builder/brush/mod.rs: build"]}
{"id": "C22", "title": "Layer splitting conserves brushes", "statement": "Splitting liquid layers out of worldspawn neither loses nor duplicates any brush: worldspawn's remaining brushes plus the two layers are a permutation of the original brushes, each part in original order, and no other entity is changed.", "quantifier": "every entity list", "why_tests_cant": "all lists", "anchors": ["src/layer_filter/mod.rs: run"]}
{"id": "C23", "title": "Layer membership", "statement": "A brush is in the '*water0' ('*slime0') layer iff every one of its faces has that texture (a brush without faces goes to '*water0').", "quantifier": "every worldspawn", "why_tests_cant": "all brushes", "anchors": ["src/layer_filter/mod.rs: run, brush_geometry_by_layer"]}
{"id": "C24", "title": "Exactly one worldspawn", "statement": "Layer splitting succeeds iff exactly one entity has classname 'worldspawn'; then that entity is first in the result and all other entities follow in file order; otherwise it panics.", "quantifier": "every entity list", "why_tests_cant": "all lists", "anchors": ["src/layer_filter/mod.rs: run"]}
{"id": "C25", "title": "Scene tree assembly terminates for unique group ids", "statement": "If no two grouped-or-ungrouped non-worldspawn entities (nor worldspawn) carry the same _tb_id, assembling the scene tree terminates, whatever the group references (including self references and cycles).", "quantifier": "every entity list with pairwise distinct ids", "why_tests_cant": "all group graphs", "anchors": ["src/scene_tree/mod.rs: build_entity, run"]}
{"id": "C26", "title": "Scene tree assembly can diverge", "statement": "With duplicate ids assembly can recurse forever: there is a three-entity map on which no recursion depth suffices.", "quantifier": "every recursion depth", "why_tests_cant": "non-termination is not observable by tests", "anchors": ["src/scene_tree/mod.rs: build_entity"]}
{"id": "C27", "title": "Each entity appears at most once, under its group", "statement": "With pairwise distinct ids, every entity of the map occurs at most once in the scene tree; a grouped entity occurs exactly as a child of the entity whose _tb_id equals its _tb_group; an entity occurs iff following _tb_group links from it reaches worldspawn or an ungrouped entity.", "quantifier": "every entity list with distinct ids", "why_tests_cant": "all group forests", "anchors": ["src/scene_tree/mod.rs: run, build_entity"]}
{"id": "C28", "title": "No entity is lost", "statement": "Every entity of the map appears in the scene tree.", "quantifier": "every entity list", "why_tests_cant": "all lists", "anchors": ["src/scene_tree/mod.rs: run"]}
{"id": "C29", "title": "Top-level order", "statement": "The scene tree lists worldspawn first, then the non-empty liquid layers, then all entities without _tb_group in file order; two runs on the same input differ at most in the order of the liquid layers.", "quantifier": "every input and every hash-map iteration order", "why_tests_cant": "iteration order is random per process", "anchors": ["src/scene_tree/mod.rs: run"]}
{"id": "C30", "title": "Geometry gathering keeps every triangle and stays in bounds", "statement": "The index list of every mesh surface and concave collision shape has length equal to the sum over the gathered faces of their index counts, every index is within the vertex list, and every triangle corner keeps its position (f32 equality).", "quantifier": "every entity geometry whose face indices are in bounds", "why_tests_cant": "all geometries incl. NaN coordinates and signed zeros", "anchors": ["src/scene_tree/mod.rs: gather_entity_geometry, gather_brush_geometry, filter_vertices"]}
{"id": "C31", "title": "Vertex deduplication is sound per brush", "statement": "Within one brush no two vertices of a mesh surface agree in all attributes, and no two vertices of a concave collision shape have equal positions; every vertex kept is one of the original vertices and the first of its equals.", "quantifier": "every brush geometry", "why_tests_cant": "all geometries", "anchors": ["src/scene_tree/mod.rs: filter_vertices", "src/scene_tree/predicates/vertex.rs"]}
{"id": "C32", "title": "Triangle corners keep normals and texture coordinates", "statement": "After deduplication every triangle corner of a mesh surface still refers to a vertex with the same normal, tangent, UV and colour.", "quantifier": "every entity geometry", "why_tests_cant": "all geometries", "anchors": ["src/scene_tree/mod.rs: filter_vertices"]}
{"id": "C33", "title": "Mesh surface arrays are parallel", "statement": "In every mesh surface the normals, tangents and (when present) uvs and colours have the same length as the vertices; uvs are present iff all vertices have one; colours likewise; a surface is never empty; surfaces for a named texture always have uvs and the untextured surface never does.", "quantifier": "every entity", "why_tests_cant": "all inputs", "anchors": ["src/scene_tree/mod.rs: build_brush_entity_texture_surface"]}
{"id": "C34", "title": "Surfaces partition the visible faces by texture", "statement": "A mesh has at most one surface per texture name plus at most one untextured surface, no surface for a texture on the face blacklist, and every face with corners whose texture is not blacklisted and whose brush is not wholly made of brush-blacklisted textures contributes all its corners to the surface of its texture.", "quantifier": "every entity, texture table and blacklist", "why_tests_cant": "all inputs", "anchors": ["src/scene_tree/mod.rs: get_brush_entity_visual_geometry", "src/scene_tree/predicates"]}
{"id": "C35", "title": "Collision shapes", "statement": "Convex collision has exactly one shape per brush with exactly the distinct corner positions of the brush; concave collision is present iff the entity has at least one corner; blacklists never affect collision.", "quantifier": "every entity", "why_tests_cant": "all inputs", "anchors": ["src/scene_tree/mod.rs: get_entity_convex_collision, get_entity_concave_collision"]}
{"id": "C36", "title": "Entity properties are typed by the FGD definition", "statement": "For an entity with an FGD definition, each declared property is delivered with the declared kind, holding the map's value when it is present and parses and the FGD default otherwise; the TrackBroom keys _tb_id, _tb_group, _tb_type, _tb_name are added; undeclared keys are dropped; entities without definition get no properties.", "quantifier": "every entity and FGD", "why_tests_cant": "all property maps", "anchors": ["src/scene_tree/mod.rs: get_entity_properties"]}
{"id": "C37", "title": "Flags properties are delivered as flags", "statement": "A property declared as flags in the FGD is delivered as a flags property.", "quantifier": "every entity and FGD", "why_tests_cant": "all inputs", "anchors": ["src/scene_tree/mod.rs: get_entity_properties"]}
{"id": "C38", "title": "Entity definition lookup", "statement": "The actor's kind, component class and property application mode are those of the first game-data definition with the entity's classname, and Placeholder / none / Properties when there is none; geometry nodes exist only for brush definitions.", "quantifier": "every entity and game data", "why_tests_cant": "all inputs", "anchors": ["src/scene_tree/mod.rs: get_entity_type, get_entity_component_class, get_entity_property_application_type"]}
{"id": "C39", "title": "Worldspawn layer nodes", "statement": "A liquid layer yields a node iff exactly one layer definition names its texture and it yields at least one geometry child; the node carries that definition's name, type and component.", "quantifier": "every layer and game data", "why_tests_cant": "all inputs", "anchors": ["src/scene_tree/mod.rs: build_worldspawn_layer"]}
{"id": "C40", "title": "Child origins are relative to the parent", "statement": "A grouped entity's node origin is its own centre minus its parent's centre; root nodes have their centre as origin.", "quantifier": "every entity list", "why_tests_cant": "all inputs", "anchors": ["src/scene_tree/mod.rs: build_entity"]}
{"id": "C41", "title": "WAD records decode what an encoder writes", "statement": "Header, directory entry, texture header and palette decoding inverts little-endian encoding for every field value, with names cut at the first NUL.", "quantifier": "all field values", "why_tests_cant": "2^32 per field", "anchors": ["src/wad/header.rs", "src/wad/entry.rs", "src/wad/mip_texture.rs", "src/wad/palette.rs"]}
{"id": "C42", "title": "Reading a WAD returns the selected textures in directory order", "statement": "Reading with one mip level returns, for every directory entry of type 'C' or 'D' whose name is whitelisted, one texture in directory order with the pixels stored at its offset; entries of other types are skipped.", "quantifier": "every WAD file, whitelist", "why_tests_cant": "all files", "anchors": ["src/wad/mod.rs: read_textures, read_directory, read_mip_textures, read_mip_data"]}
{"id": "C43", "title": "Any unreadable selected texture fails the whole read", "statement": "If any directory entry or any selected texture header, pixel block or palette does not lie inside the file, reading returns an error (never a shorter list).", "quantifier": "every truncated file", "why_tests_cant": "every truncation point", "anchors": ["src/wad/mod.rs: read_textures"]}
{"id": "C44", "title": "Mip levels beyond the first", "statement": "Reading a WAD with two to four mip levels returns the additional levels of every texture.", "quantifier": "every WAD with a non-empty texture", "why_tests_cant": "all files", "anchors": ["src/wad/mod.rs: read_mip_data"]}
{"id": "C45", "title": "Parallel reading is deterministic", "statement": "The result of reading mip data does not depend on the order in which the worker threads process the entries: the list is in directory order, and on failure the reported error is that of the first failing entry.", "quantifier": "every schedule of the workers", "why_tests_cant": "schedules cannot be enumerated by tests", "anchors": ["src/wad/mod.rs: read_mip_data"]}
{"id": "C46", "title": "WAD2 has no palette, WAD3 palette follows the pixel data", "statement": "A WAD2 texture has no palette; a WAD3 texture's palette is the 256 RGB triples starting two bytes after its fourth mip level.", "quantifier": "every WAD file", "why_tests_cant": "all files", "anchors": ["src/wad/mod.rs: read_mip_data"]}
{"id": "C47", "title": "Arithmetic overflow in offsets", "statement": "When offset or size arithmetic exceeds 32 bits the read panics in a build with overflow checks and silently reads from the wrapped location in a release build.", "quantifier": "every WAD file, both build profiles", "why_tests_cant": "2^32 x 2^32 field values", "anchors": ["src/wad/mod.rs: read_directory, read_mip_data"]}
{"id": "C48", "title": "RGB conversion", "statement": "Converting to RGB uses the texture's own palette if it has one and otherwise the supplied one, fails iff there is neither, maps every pixel to its palette colour preserving count and order, and never panics.", "quantifier": "every texture and palette", "why_tests_cant": "all textures", "anchors": ["src/wad/mod.rs: TextureIndexed::into_rgb", "src/wad/mip_data.rs"]}
{"id": "C49", "title": "Whitelisting by map texture name", "statement": "Every texture used by a map (names are lower-cased on load) that exists in the WAD under any letter case is returned when the WAD is read with the map's texture names as whitelist.", "quantifier": "every map and WAD", "why_tests_cant": "all names", "anchors": ["src/wad/mod.rs: read_directory", "src/wad/mip_texture.rs"]}
{"id": "C50", "title": "FGD text is unambiguous", "statement": "For well-formed game data (names without delimiters, descriptions without quotes or line breaks) the FGD text determines the game data up to the information the format omits.", "quantifier": "every pair of well-formed game data", "why_tests_cant": "injectivity over all data", "anchors": ["src/game_data/forge/game_data.rs: to_string", "src/game_data/forge/entity.rs", "src/game_data/forge/property.rs"]}
{"id": "C51", "title": "Flag lines", "statement": "The i-th flag line has value 2^i and default 1 iff bit i of the default is set, for up to 31 flags; with 32 or more flags a checked build panics.", "quantifier": "every flag list and default", "why_tests_cant": "all lists", "anchors": ["src/game_data/forge/property.rs: to_string"]}
{"id": "C52", "title": "Choices default", "statement": "Printing a choices property panics iff its default is not a valid index into the choices; otherwise the printed default is the value of that choice.", "quantifier": "every choices property", "why_tests_cant": "all lists", "anchors": ["src/game_data/forge/property.rs: to_string"]}
{"id": "C53", "title": "Choices default agrees between FGD and scene", "statement": "The value delivered for an absent choices property equals the value delivered when the map spells out the default value printed in the FGD.", "quantifier": "every choices property", "why_tests_cant": "all lists", "anchors": ["src/game_data/forge/property.rs: to_string", "src/scene_tree/mod.rs: get_entity_properties"]}
{"id": "C54", "title": "Colour defaults agree between FGD and scene", "statement": "The colour delivered for an absent colour property equals the colour delivered when the map spells out the default printed in the FGD.", "quantifier": "every colour", "why_tests_cant": "all colours", "anchors": ["src/types/color.rs: to_string", "src/scene_tree/mod.rs: parse_color_property"]}
{"id": "C55", "title": "Colours print in range", "statement": "A colour with components in [0,1] prints three integers between 0 and 255; any components at all print valid 32-bit integers.", "quantifier": "all f32 triples", "why_tests_cant": "2^96 triples", "anchors": ["src/types/color.rs: to_string"]}
{"id": "C56", "title": "Base class lists", "statement": "Base classes print separated by ', ' in order, for every list of non-empty names.", "quantifier": "every list", "why_tests_cant": "all lists", "anchors": ["src/game_data/forge/metadata.rs: to_string"]}
{"id": "C57", "title": "Enumeration codes", "statement": "Converting an enumeration to its integer code and back is the identity, distinct variants have distinct codes, and unknown codes panic.", "quantifier": "all codes (i64)", "why_tests_cant": "2^64 codes", "anchors": ["src/game_data/forge/entity.rs: ClassType", "src/game_data/types/visual_type.rs", "src/game_data/types/collision_type.rs"]}
{"id": "C58", "title": "run: outcome classification", "statement": "Building a map returns an error exactly for an unreadable or non-UTF-8 file or a map the parser rejects; in all other cases it returns a tree, panics, or recurses without bound, never a partial tree.", "quantifier": "every file content and configuration", "why_tests_cant": "all inputs", "anchors": ["src/lib.rs: run"]}
{"id": "C59", "title": "run: end-to-end structure", "statement": "For every document with one worldspawn, distinct group ids and a classname on each entity, building the printed document yields a tree whose top-level actors are worldspawn, the layers, and the ungrouped entities in file order.", "quantifier": "every document", "why_tests_cant": "composition of all stages", "anchors": ["src/lib.rs: run"]}
{"id": "C60", "title": "Blacklist queries", "statement": "A texture is reported blacklisted iff it is in the respective list, and the two lists are independent.", "quantifier": "every texture name and lists", "why_tests_cant": "all lists", "anchors": ["src/types/texture.rs: TextureBlacklist"]}
{"id": "C61", "title": "Eight-bit colours survive", "statement": "For every k from 0 to 255 the colour component k/255 (computed in f32) prints as k in the FGD, although printing multiplies by 255 in f32 and truncates.", "quantifier": "all 256 byte values", "why_tests_cant": "an off-by-one from f32 rounding shows only at particular values; the repository tests three", "anchors": ["src/types/color.rs: to_string"]}
{"id": "C62", "title": "Exact defaults agree between FGD and scene", "statement": "For integer, float, vector and string properties the value delivered when the key is absent equals the value delivered when the map spells out the default printed in the FGD (floats finite; the sign of zero may be lost where the platform prints -0.0 without sign). For flags the two agree exactly when the default lies in 0 .. 2^n - 1 for n declared flags.", "quantifier": "every such property and default", "why_tests_cant": "all defaults; float printing and reading must be inverse", "anchors": ["src/game_data/forge/property.rs: to_string", "src/scene_tree/mod.rs: get_entity_properties"]}
{"id": "C63", "title": "Flat shading", "statement": "In an entity without _phong = 1 every corner of a face has exactly the plane's normal; all corners of a face share one tangent.", "quantifier": "every brush, entity, texture table and arithmetic", "why_tests_cant": "quantifies over all brushes and number behaviours", "anchors": ["src/geo_builder/brush_plane/normals.rs", "src/geo_builder/brush_plane/tangents.rs", "src/geo_builder/brush_plane/mod.rs: build"]}
{"id": "C64", "title": "Phong normals come from one pair of planes", "statement": "In a phong entity the normal of a corner is the normalised smoothed normal of the last ordered pair of planes that meets the face plane there (sum of the three normals, or with a readable _phong_angle of those within the angle); the attempted aggregation over equal corners has no effect.", "quantifier": "every brush and entity", "why_tests_cant": "depends on the order of all plane pairs of arbitrary brushes", "anchors": ["src/geo_builder/brush_plane/normals.rs: phong_normal", "src/geo_builder/brush_plane/mod.rs: build"]}
{"id": "C65", "title": "Texture coordinates in exact arithmetic", "statement": "In exact arithmetic the texture coordinate of a corner x is (texel / scale + offset) / size, where the texel is (u_axis . x, v_axis . x) for Valve planes and otherwise the rotated projection of x along the axis the plane mostly faces (z before y before x).", "quantifier": "every brush over the reals", "why_tests_cant": "all planes, positions, scales and sizes", "anchors": ["src/geo_builder/brush_plane/uvs.rs"]}
{"id": "C66", "title": "Tangents in exact arithmetic", "statement": "In exact arithmetic the tangent of a standard plane is the base axis turned about the unit normal by minus the rotation times the side sign, with handedness sign times the sign of the v scale; a Valve plane has its u axis as tangent and minus the sign of (normal x u) . v as handedness.", "quantifier": "every brush over the reals", "why_tests_cant": "all planes and rotations", "anchors": ["src/geo_builder/brush_plane/tangents.rs"]}
{"id": "C67", "title": "Unbounded recursion exactly for group cycles", "statement": "Building a scene whose entities are usable never finishes exactly if some entity reachable from the roots lies in its own group directly or through others; otherwise a recursion depth equal to the number of entities suffices.", "quantifier": "every scene", "why_tests_cant": "cycles of any length in arbitrary scenes; non-termination", "anchors": ["src/scene_tree/mod.rs: run, build_entity"]}
{"id": "C68", "title": "Exact success condition of scene building", "statement": "When it finishes, building a scene succeeds exactly if every entity of the tree has a classname and, if its class is declared in the forge data, integer _tb_id and _tb_group; otherwise it panics.", "quantifier": "every scene with in-bounds geometry", "why_tests_cant": "all property sets", "anchors": ["src/scene_tree/mod.rs"]}
{"id": "C69", "title": "Exact success condition of a run", "statement": "A run succeeds exactly if the file is UTF-8, the map loads, has exactly one worldspawn, finite normals for planes with standard texture coordinates, usable entities and no cycle of groups.", "quantifier": "every file content and configuration", "why_tests_cant": "composition of all stages over all inputs", "anchors": ["src/lib.rs: run"]}
{"id": "C70", "title": "Comparing two files", "statement": "Comparing two files fails exactly if one of them is not readable UTF-8; panics exactly if both are and one is empty or has a malformed property line; and otherwise reports the tokens not among a longest common subsequence of the two files without their last lines, including every token with no equal in the other file.", "quantifier": "every pair of files", "why_tests_cant": "all pairs of byte sequences", "anchors": ["src/lib.rs: run_diff", "src/map/quake/tokenizer.rs: diff_tokens"]}
{"id": "C71", "title": "Triangles turn clockwise", "statement": "In exact arithmetic, if no corner of a face is in front of any plane of its brush, every triangle of the face turns clockwise seen from outside the brush.", "quantifier": "every brush, face and triangle, any angle function that is a polar angle", "why_tests_cant": "all positions of all planes; the guarantee is about orientation of every triangle", "anchors": ["src/geo_builder/brush_plane/mod.rs: build"]}
{"id": "C72", "title": "Triangles tile the face", "statement": "In exact arithmetic, under the same condition, the triangles of a face with three or more corners do not overlap, and together cover exactly the convex hull of its corners.", "quantifier": "every brush and face, every point of space", "why_tests_cant": "all points of space", "anchors": ["src/geo_builder/brush_plane/mod.rs: build"]}
{"id": "C73", "title": "Moving a brush moves its faces", "statement": "In exact arithmetic, adding a vector to all points of all planes of a brush adds it to the center and all vertices of each face that has vertices, and changes no normal, tangent, colour, triangle or texture.", "quantifier": "every brush, face and vector", "why_tests_cant": "all brushes and vectors", "anchors": ["src/geo_builder/brush_plane/mod.rs: build"]}
{"id": "C74", "title": "Order of planes is irrelevant", "statement": "In exact arithmetic, a face depends on the other planes only as a set: reordering or repeating planes changes neither its center nor the set of its corners, and, if no corner is in front of a plane of the brush, not their order either.", "quantifier": "every two lists of planes with the same elements", "why_tests_cant": "all permutations of all brushes", "anchors": ["src/geo_builder/brush_plane/mod.rs: build"]}
{"id": "C75", "title": "Token paths", "statement": "The token paths the parser returns have one entry for each distinct opening brace, property or plane token, the address of its last occurrence; every token's address leads to what the token stands for; a property has the value of the last line with its key in its entity.", "quantifier": "every list of tokens that parses", "why_tests_cant": "all token lists; addresses depend on everything before", "anchors": ["src/map/quake/parser.rs: run"]}
{"id": "C76", "title": "Only significant lines matter to a run", "statement": "Two runs whose configurations differ only in the map file, and whose files have the same lines once comments and unrecognised lines are dropped, give the same result, whatever the line ends.", "quantifier": "every configuration, pair of files, iteration order and stack depth", "why_tests_cant": "all pairs of files", "anchors": ["src/lib.rs: run", "src/map/quake/tokenizer.rs: run"]}
{"id": "C77", "title": "Unused configuration does not matter", "statement": "Runs on the same map give the same result when the configurations agree on the sizes and blacklisting of the textures the map names, the definitions selected for its entities, and the layer definitions for water and slime.", "quantifier": "every map and pair of configurations", "why_tests_cant": "all pairs of configurations", "anchors": ["src/lib.rs: run", "src/scene_tree/mod.rs: run"]}
{"id": "C78", "title": "Layout inside an entity does not matter", "statement": "Two maps whose entities have pairwise the same brushes and the same last value for every key give the same result.", "quantifier": "every pair of documents with readable planes", "why_tests_cant": "all rearrangements of all maps", "anchors": ["src/lib.rs: run", "src/map/quake/parser.rs: run"]}
{"id": "C79", "title": "Meshes of a run are well formed", "statement": "In the tree of a successful run every visual node has at least one surface, with textures pairwise different; every surface has vertices, normals and tangents in equal number, texture coordinates exactly if it has a texture, as many as vertices, and whole triangles indexing its vertices; concave collision is one shape of whole triangles on its vertices; convex shapes have no equal points; and no geometry node is empty.", "quantifier": "every successful run, every node at any depth", "why_tests_cant": "all maps and configurations", "anchors": ["src/scene_tree/mod.rs: run", "src/geo_builder/mod.rs: run", "src/layer_filter/mod.rs: run"]}
{"id": "C80", "title": "A face covers its side of the solid", "statement": "In exact arithmetic, the convex hull of the corners of a face is the set of points of the solid on its plane, if that set is bounded, no corner is cut off within the tolerance, and none is flatter than the threshold of the determinant; a thin wedge shows the last condition is needed.", "quantifier": "every brush, plane, texture size and entity; all real coordinates", "why_tests_cant": "all polyhedra", "anchors": ["src/geo_builder/brush_plane/mod.rs: build"]}
{"id": "C81", "title": "Meshes of brushes are watertight", "statement": "In exact arithmetic, under the conditions of C80 on each face, and with three corners on each or at least a point strictly inside the brush (planes may then touch it in an edge or a corner only), the triangles of a bounded brush together are exactly the surface of the solid its planes describe.", "quantifier": "every such brush; every point of space", "why_tests_cant": "all polyhedra and points", "anchors": ["src/geo_builder/brush/mod.rs: build", "src/geo_builder/brush_plane/mod.rs: build"]}
{"id": "C82", "title": "Numbers are read as written", "statement": "A text is read as a floating point number exactly if it is an optional sign and digits with optional point and exponent, then as that decimal rounded to the nearest single precision number (ties to even, infinity beyond the range), or a spelling of infinity or NaN the Rust version accepts; as an integer exactly if it is an optional sign and digits in the range of i32; and white space is that of Unicode.", "quantifier": "every text, either set of spellings", "why_tests_cant": "all texts, all rounding cases", "anchors": ["src/scene_tree/mod.rs: parse_float", "src/map/quake/types/brush_plane.rs: new"]}
{"id": "C83", "title": "Arithmetic is correctly rounded", "statement": "The operations geometry is computed with are those on real numbers rounded to the nearest single precision number, with the sign of zeros, infinities and NaN of IEEE 754; comparisons are those of real numbers; conversion to integers truncates and saturates; the tolerance is 1/1000, the degree 0.0174533, and the angle margin 1/100, each correctly rounded.", "quantifier": "all numbers, all platforms", "why_tests_cant": "all pairs of numbers", "anchors": ["src/geo_builder/brush_plane/vertices.rs: intersect_brush_planes", "src/geo_builder/brush_plane/normals.rs: vertex_normal"]}
{"id": "C84", "title": "Numbers are printed shortest", "statement": "A finite number is printed as its sign and plain digits without exponent, superfluous leading zeros or trailing zeros of the fraction; the decimal printed reads back as the number, no decimal with fewer digits does, and of those with as many digits that do none is closer. Integers are printed as their sign and digits without leading zeros; zeros, infinities and NaN have fixed texts.", "quantifier": "every number", "why_tests_cant": "four billion numbers times all decimals", "anchors": ["src/game_data/forge/property.rs: to_string", "src/game_data/forge/choice.rs: fmt"]}
{"id": "C85", "title": "Names of textures do not depend on case", "statement": "Lower case of Latin-1 text replaces each capital by its small letter and nothing else; and the name read for a texture of an archive equals the texture name read from a plane exactly if both are spelled with the same letters up to case.", "quantifier": "every Latin-1 text, plane line and texture header", "why_tests_cant": "all spellings", "anchors": ["src/wad/mip_texture.rs: parser", "src/map/quake/types/brush_plane.rs: new"]}
{"id": "C86", "title": "Saved game data can be read back", "statement": "After a successful GameData::save the file holds the UTF-8 encoding of the printed text, reading it gives the text back, its FGD content is what was saved, and no other file has changed; saved files are equal exactly when the data agree in what the format shows. A panic while printing leaves every file untouched; a failed write leaves the old file or a beginning of the new one.", "quantifier": "every game data of Unicode strings, path, file system and outcome of the write", "why_tests_cant": "all texts and failures", "anchors": ["src/game_data/forge/game_data.rs: GameData::save", "src/game_data/forge/game_data.rs: to_string"]}
{"id": "C87", "title": "Entity definitions are identified by class name", "statement": "Two FGD entities compare equal exactly if their class names are equal, which is an equivalence; equal entities hash alike, and different ones never feed the hasher the same bytes, even as a prefix.", "quantifier": "every pair of entity definitions", "why_tests_cant": "all pairs of names", "anchors": ["src/game_data/forge/entity.rs: PartialEq", "src/game_data/forge/entity.rs: Hash"]}
{"id": "C88", "title": "The printed diff shows exactly the diff", "statement": "run_diff prints the computed diff line by line, added tokens first, each string of a token quoted and escaped on one line with indentation by nesting; and different diffs never print the same text.", "quantifier": "every diff, pair of files and Unicode table", "why_tests_cant": "all token strings, including quotes, backslashes, control characters and line-like contents", "anchors": ["src/lib.rs: run_diff", "src/map/quake/tokenizer.rs: Diff", "src/map/quake/tokenizer.rs: Token"]}
{"id": "C89", "title": "Corners are finite and inside up to rounding", "statement": "If all planes go through whole points (up to 2^20 in size, edges small enough that the direction is exact), the centre and every corner of a face are finite, and no corner is in front of the true plane of any side by more than 0.0010001 plus 2^-20 times the sum of the distances of corner, centre and plane point from the origin.", "quantifier": "every platform, brush with up to 4000 such planes and face", "why_tests_cant": "all shapes and positions of brushes; the bound is over all roundings", "anchors": ["src/geo_builder/brush_plane/vertices.rs: intersect_brush_planes, vertex_in_hull", "src/geo_builder/brush_plane/mod.rs: build"]}
{"id": "C90", "title": "Corners are near true meeting points", "statement": "Under the same hypotheses every corner of a face is within 2^-19 * (distances from the origin) / (determinant of the unit normals) + 2^-23 * |centre| + 10^-30 of the true meeting point of the face's plane with two other planes, whose determinant is at least 0.00099.", "quantifier": "every platform, brush with up to 4000 such planes, face and corner", "why_tests_cant": "all shapes and positions of brushes", "anchors": ["src/geo_builder/brush_plane/vertices.rs: intersect_brush_planes", "src/map/quake/types/brush_plane.rs: normal, dist"]}
{"id": "C91", "title": "True corners are found", "statement": "A point of the true solid where the face's plane meets two other planes of the brush with determinant at least 0.00101 is a corner of the face up to rounding.", "quantifier": "every platform, brush with up to 4000 planes through whole points, face and true corner", "why_tests_cant": "all shapes and positions of brushes; corners are lost only for some, far from the origin or with acute angles", "anchors": ["src/geo_builder/brush_plane/vertices.rs: intersect_brush_planes, vertex_in_hull"]}
{"id": "C92", "title": "A face has one corner for each true corner", "statement": "In single precision the corners of a face of a brush with whole points correspond one to one to the corners of the side of the true solid, each within rounding of it.", "quantifier": "every platform, brush with up to 4000 planes through whole points and face", "why_tests_cant": "all shapes; corners where more than three planes meet are computed from several pairs of planes with different rounding", "anchors": ["src/geo_builder/brush_plane/mod.rs: build (removal of duplicate vertices)", "src/geo_builder/brush_plane/vertices.rs: intersect_brush_planes"]}
{"id": "C93", "title": "Faces meet in the same corners", "statement": "Where faces of a brush with whole points meet in a corner of the solid, they have a vertex in the same place.", "quantifier": "every platform, brush with up to 4000 planes through whole points, pair of faces and common corner", "why_tests_cant": "all shapes; the same corner is computed from the planes in another order for each face", "anchors": ["src/geo_builder/brush_plane/mod.rs: build", "src/geo_builder/brush_plane/vertices.rs: intersect_brush_planes"]}
{"id": "C94", "title": "Centres lie in their brush", "statement": "The centre of a face lies on the face's plane and in the brush, the centre of a brush in the brush, and an entity without origin is placed in the convex hull of its brushes' centres.", "quantifier": "every brush and entity over exact arithmetic, whatever the opaque functions", "why_tests_cant": "all shapes; the centre of a brush depends on all of its faces, including those without corners", "anchors": ["src/geo_builder/brush_plane/mod.rs: build (center)", "src/geo_builder/brush/mod.rs: build (center)", "src/geo_builder/entity/mod.rs: build"]}
{"id": "C95", "title": "Normals have unit length", "statement": "In single precision every vertex normal of a brush with whole points is finite and has length one up to 2^-21, with and without phong shading.", "quantifier": "every platform, entity, brush of planes through whole points and vertex", "why_tests_cant": "all shapes; sums of three normals may nearly cancel", "anchors": ["src/geo_builder/brush_plane/mod.rs: build", "src/geo_builder/brush_plane/normals.rs: vertex_normal, phong_normal"]}
{"id": "C96", "title": "Smoothed normals face outwards", "statement": "With phong shading the normal of a vertex faces the same side as its face.", "quantifier": "every platform, entity with phong shading, brush of planes through whole points and vertex", "why_tests_cant": "all shapes and smoothing angles", "anchors": ["src/geo_builder/brush_plane/normals.rs: vertex_normal, phong_normal", "src/geo_builder/brush_plane/mod.rs: build"]}
{"id": "C97", "title": "Points of a run lie in the map's solids", "statement": "Every point of every mesh and collision shape in the tree of a successful run is finite and belongs to a brush written in the map file: in single precision it is in front of no plane of the brush's lines by more than 0.0010001 plus 2^-20 times distances from the origin, and it is near the true point where the planes of three of its lines meet.", "quantifier": "every platform, configuration and map file that is a document whose plane lines go through whole points, at most 4000 to a brush", "why_tests_cant": "all maps, from bytes to nodes; rounding accumulates through intersection, sorting and merging", "anchors": ["src/lib.rs: run", "src/geo_builder/brush_plane/mod.rs: build", "src/geo_builder/mod.rs: run", "src/scene_tree/mod.rs: gather_entity_geometry, gather_brush_geometry, filter_vertices"]}
{"id": "C98", "title": "No corner of a drawn brush is lost", "statement": "In the tree of a successful run, for every brush of an entity that is in the tree and whose class is drawn as a mesh, every side that is not blacklisted and every corner of the true solid on that side (where it meets two other sides, none nearly parallel to another, and the solid is near enough to the origin for single precision), the surface with the side's texture has a finite vertex near that corner, within a stated error.", "quantifier": "every platform, configuration and map file that is a document whose plane lines go through whole points, at most 4000 to a brush; every entity, brush, side and corner", "why_tests_cant": "all maps and all group structures, from bytes to nodes; rounding can lose corners (C91)", "anchors": ["src/lib.rs: run", "src/geo_builder/brush_plane/mod.rs: build", "src/scene_tree/mod.rs: build_entity, get_brush_entity_visual_geometry, build_brush_entity_texture_surface, filter_vertices", "src/layer_filter/mod.rs: run"]}
{"id": "C99", "title": "No corner of a solid brush or of a layer is lost", "statement": "In the tree of a successful run, for every brush of an entity that is in the tree and whose class has convex or concave collision, every such corner of the true solid has a finite point near it in a collision shape; and for every worldspawn brush all of whose sides carry the texture of a layer defined once, the layer's mesh and its collision shapes have a finite point near every such corner.", "quantifier": "every platform, configuration and map file that is a document whose plane lines go through whole points, at most 4000 to a brush; every entity, brush, side, layer and corner", "why_tests_cant": "all maps and all group structures, from bytes to nodes; rounding can lose corners (C91)", "anchors": ["src/lib.rs: run", "src/layer_filter/mod.rs: run", "src/scene_tree/mod.rs: build_worldspawn_layer, get_worldspawn_layer_visual_geometry, get_entity_convex_collision, get_entity_concave_collision"]}
{"id": "C100", "title": "Archives as written are read back", "statement": "Reading a WAD2 or WAD3 archive as a writer of such archives lays it out (header, lumps one after the other, then the directory) gives exactly the pictures asked for, in order, with lower-cased name, sizes, offsets, pixels of the full level and (WAD3) palette, skipping lumps of other types; and colouring them gives the palette's colours pixel by pixel.", "quantifier": "every list of lumps (pictures of any size, other lumps), whitelist, archive type and build, archive below 4 GiB", "why_tests_cant": "all contents, sizes and numbers of lumps; offsets depend on everything before", "anchors": ["src/wad/mod.rs: read_textures", "src/wad/header.rs", "src/wad/entry.rs", "src/wad/mip_texture.rs", "src/wad/palette.rs"]}
{"id": "C101", "title": "Texture coordinates are accurate", "statement": "In single precision, the texture coordinate of every vertex of a face is finite and near the exact formula (texels along the axes, divided by the scale, plus offset, divided by the size of the texture) at the vertex's position: within 2^-20 times the sizes of the terms (with the position measured with the centre's distance), plus twice the error of the machine's 2x2 rotation for standard coordinates; standard coordinates project along an axis whose component of the plane's direction is largest, up to rounding.", "quantifier": "every platform, brush with planes through whole points (at most 4000 planes), texture size from 1 to 2^20, scale between 2^-20 and 2^20, offset up to 2^40, axes with components up to 4", "why_tests_cant": "all brushes; rounding accumulates through intersection, centring, projection, rotation, scaling", "anchors": ["src/geo_builder/brush_plane/mod.rs: build", "src/geo_builder/brush_plane/uvs.rs: vertex_uv"]}
{"id": "C102", "title": "Vertices of meshes are corners of written sides with their attributes", "statement": "In the tree of a whole run, every vertex of every surface of every mesh is (up to rounding) a corner of the solid of a brush written in the map file, on one of its sides drawn with the surface's texture (or without a loaded one if the surface has none); at the same index are a normal of length one (that side's own unless the entity is smoothed), a tangent (for Valve coordinates the written u axis), that side's colour if the surface has colours, and texture coordinates near those the side's line asks for at the vertex.", "quantifier": "every platform, order of hash maps, configuration and map file whose planes go through whole points, every node, surface and vertex", "why_tests_cant": "all map files; attributes of one vertex pass through grouping by texture, flattening and merging of whole entities", "anchors": ["src/geo_builder/entity/mod.rs", "src/geo_builder/brush_plane/mod.rs: build", "src/geo_builder/brush_plane/uvs.rs", "src/scene_tree/types/visual_geometry.rs"]}
{"id": "C103", "title": "Tangents follow the texture coordinates", "statement": "In exact arithmetic, going along the tangent of a vertex makes the texture coordinate u grow, and going along the other direction it stands for (handedness times normal cross tangent) makes v shrink. False as stated: turned standard textures, textures mirrored along u, and Valve textures mirrored along v do not; it holds for Valve coordinates with positive scales and for standard coordinates that are not turned with positive u scale, and on planes facing along an axis the tangent of a turned standard texture is off by exactly twice the angle.", "quantifier": "every texture table, entity, list of planes, plane, face built and vertex of it, over the reals with exact rotations", "why_tests_cant": "a wrong tangent is still a valid one; whether it fits holds for infinitely many planes, axes, angles and scales", "anchors": ["src/geo_builder/brush_plane/tangents.rs", "src/geo_builder/brush_plane/uvs.rs"]}
{"id": "C104", "title": "Centres are means up to rounding", "statement": "In single precision the centre of a face is finite and differs from the mean of the positions of its vertices by no more than (n + 12) / 2^23 times their greatest distance from the origin (plus 10^-30), where n is their number; likewise the centre of a brush and those of its faces, and the centre of an entity without origin and those of its brushes.", "quantifier": "every platform, texture table, entity, list of at most 4000 planes through points with whole coordinates up to 2^20, plane, face, brush and entity built, and bound of the distances", "why_tests_cant": "sums of arbitrarily many rounded numbers; tests see only small faces near the origin, where the errors vanish", "anchors": ["src/geo_builder/brush_plane/mod.rs", "src/geo_builder/brush/mod.rs", "src/geo_builder/entity/mod.rs"]}
{"id": "C105", "title": "Corners in order around the face, in single precision", "statement": "In single precision the vertices of a face are, in the order of the list, the corners of its side of the solid in clockwise order: any three, taken in that order, turn clockwise seen from where the plane faces. It holds where no decision of the code is closer than rounding (C92), the platform's atan2 is accurate to a third of the least sine of the angle between two corners seen from their mean, and rounding is small against the distance of the corners from their mean. Where also no three corners are nearly in line, the vertices as computed, rounding included, turn clockwise, and with them the triangles.", "quantifier": "every platform with an atan2 of accuracy d, texture table, entity, list of at most 4000 planes through points with whole coordinates up to 2^20, plane, face built, least sine s from 1/1000 to 1, least distance r and bound b of the rounding", "why_tests_cant": "the order comes from sorting rounded angles; whether rounding may swap two corners depends on all inputs and on the angle function of the platform", "anchors": ["src/geo_builder/brush_plane/mod.rs"]}
{"id": "C106", "title": "Triangles of whole runs", "statement": "In every surface and every concave collision shape of the tree of a run the indices come in threes within bounds, and each three are the corners of a triangle on one side of one brush written in the map file: finite points near the brush and near corners of that side, of a side with the surface's texture, and seen clockwise from outside the brush if the side is well shaped (the hypotheses of C105). So merging equal vertices, joining the faces of brushes and sorting faces by texture neither mix faces nor turn triangles over.", "quantifier": "every platform, order of the hash map, fuel, configuration, map file whose planes go through points with whole coordinates up to 2^20 and whose brushes have at most 4000 planes, successful run, node of the tree, array of triangles in it and triangle", "why_tests_cant": "whether indices still refer to the corners of one face after merging depends on all brushes of the entity and on all coincidences of vertices", "anchors": ["src/scene_tree/mod.rs: gather_entity_geometry, build_brush_entity_texture_surface, get_entity_concave_collision", "src/geo_builder/brush_plane/mod.rs: build"]}
{"id": "C107", "title": "Triangles cover the sides they stand for", "statement": "Take a side of a brush whose corners single precision tells apart and sorts (the hypotheses of C98 and C105, or of C110 where more than three planes share a corner), with corners off by at most b. Every point of the exact side is within 2 (b + 10^-20) of a point of one of the triangles computed for it, and every point of these triangles is within that distance of the side; so the triangles of a brush are its surface up to rounding, with no hole and nothing sticking out by more. In the tree of a run every such side of a drawn brush, of a brush with a concave collision shape, or of a brush moved to a layer, is shown in this sense by one array of triangles of the right texture (for concave shapes and layers likewise), and every triangle of the tree belongs to a written side and stays as near to it.", "quantifier": "every platform, order of the hash map, fuel, configuration, map file whose planes go through points with whole coordinates up to 2^20 and whose brushes have at most 4000 planes, successful run, brush, side and point of the side", "why_tests_cant": "a hole in a mesh may be smaller than any sampling of the surface, and the triangles depend on the order of corners, on merged vertices and on joined brushes", "anchors": ["src/scene_tree/mod.rs", "src/geo_builder/brush_plane/mod.rs"]}
{"id": "C108", "title": "Convex collision shapes fill the brush", "statement": "Take a brush whose solid is finite and none of whose meeting points of three planes is a close call (each is a corner of the solid, or clearly outside one plane), with corners off by at most b. The convex hull of the points of its collision shape is the solid up to rounding: every point of the solid is within 2 (b + 10^-20) of the hull and every point of the hull within that distance of the solid; the i-th shape of an entity belongs to its i-th brush. In the tree of a run every such brush of a class with convex collision, and every such brush moved to a layer with convex collision, is filled by a shape, and every convex shape of the tree belongs to a brush written in the map. Four or more planes may share a corner, and the platform's angles do not matter.", "quantifier": "every platform, order of the hash map, fuel, configuration, map file whose planes go through points with whole coordinates up to 2^20 and whose brushes have at most 4000 planes, successful run, brush, and point of the solid or of the hull", "why_tests_cant": "a corner missing from the shape, or a wrong extra one, changes the hull only near that corner; the points depend on all triples of planes and on merging of equal positions", "anchors": ["src/scene_tree/mod.rs", "src/geo_builder/brush_plane/mod.rs"]}
{"id": "C109", "title": "Actors stand where their entities are", "statement": "In the tree of a run every actor is either that of a layer, at the origin, or the actor of a written entity; the actors above it are those of the entities whose groups it is in, up to the worldspawn or an entity without group, and every entity connected like that has an actor. Its position, the sum of the origins of the actors down to it, is the entity's centre up to 2^-24 of the length of the way through the centres above it, and exactly if these are whole (below 2^22). The centre is the written origin, read as three numbers, or the mean of the brushes' centres, which is never far out. Its geometry carries the entity's centre itself. In general rounding is not avoidable: half a unit is lost at 2^24.", "quantifier": "every platform, order of the hash map, fuel, configuration, map file, successful run, path of actors or of entities", "why_tests_cant": "errors cancel or add up along paths of any depth; a wrong sign or a forgotten parent shows only for nested groups off the origin", "anchors": ["src/scene_tree/mod.rs:70-124", "src/geo_builder/entity/mod.rs:10-38"]}
{"id": "C110", "title": "Corners shared by more than three planes", "statement": "Where several pairs of planes meet a side in the same corner (the top of a pyramid), rounding may keep the corner several times in slightly different places (C92). Provided the corners are spread around their mean however often each is counted, the vertices of the face still show all corners of the side and nothing else, any three vertices that show different corners are in clockwise order, and the triangles of the face are the side up to twice the rounding of a corner: the repeated corners open no hole and nothing sticks out. Sides with one pair of planes for each corner (C105) are a special case; C107 holds for all such sides in whole runs.", "quantifier": "every platform with accurate angles, texture sizes, entity, up to 4000 planes through points with whole coordinates up to 2^20, no close calls, corners spread for every choice of pairs", "why_tests_cant": "how often a corner is repeated depends on the last bit of four or more planes; the repeated corners may be sorted to either end of the list", "anchors": ["src/geo_builder/brush_plane/mod.rs:28-106"]}
{"id": "C111", "title": "The tree of a run is the tree of the map", "statement": "The nodes of a successful run are the actor of the worldspawn, at most two layer actors, and the actors of the other entities without group in the order of the file. Every actor of an entity has the entity's classname as name; type, component and application type of the first game data definition of that class (placeholders without one); for every property its FGD class declares (the last declaration of a name counts) the last value written in the map, read as declared, or the default, and of undeclared keys only the editor's own; its centre, relative to its parent's centre, as origin; below it first the geometry its definition asks for, at that centre, then the actors of the entities in its group in the order of the file. This determines the tree of a map but for positions and shapes.", "quantifier": "every platform, iteration order of the layers, stack depth, map file that encodes a document, texture sizes, blacklist, FGD and game data for which the run succeeds", "why_tests_cant": "the tree depends on arbitrary group links, repeated keys, repeated classes and repeated property declarations across three files", "anchors": ["src/scene_tree/mod.rs:21-124", "src/scene_tree/mod.rs:194-398"]}
{"id": "C112", "title": "The order of entities decides the order of nodes only", "statement": "Take two map files whose documents contain the same entities in any order (each possibly written with its lines in another order, as in C78) and otherwise the same configuration. If one run succeeds so does the other, with the same layers, and the two trees have the same nodes: same names, properties, origins, meshes and collision shapes at the same places of the hierarchy; only the order of sibling nodes may differ.", "quantifier": "every platform, iteration order of the layers, stack depth, configuration, and every two files with reordered documents", "why_tests_cant": "factorially many orders; a lookup that depends on an earlier entity, or an index into the list of entities, shows only for particular orders", "anchors": ["src/scene_tree/mod.rs:21-124", "src/layer_filter/mod.rs"]}
{"id": "C113", "title": "A wider blacklist only hides", "statement": "Take two configurations that differ in the texture blacklist only, the second listing at least what the first lists. If the first run succeeds so does the second. The two trees have the same actors with the same names, types, properties and origins in the same order, the same collision shapes and the same layers. Each surface of the second tree is a surface of the first with the triangles of some brushes removed and nothing else changed; no surface of a listed plane texture remains; and if both list the same brush textures, the remaining surfaces are exactly the unlisted ones, unchanged and in the same order.", "quantifier": "every platform, iteration order of the layers, stack depth, and every two configurations with the same map, textures and definitions and a wider blacklist", "why_tests_cant": "a test compares a few blacklists on a few maps; an index that is not renumbered after a brush is skipped, or a blacklist consulted for collisions as well, shows only for particular maps", "anchors": ["src/types/texture.rs:24-60", "src/scene_tree/mod.rs:21-124"]}
{"id": "C114", "title": "Further entities only add nodes", "statement": "Take a map and the same map with further entities anywhere in the file, none of them a worldspawn, and otherwise the same configuration. If the run on the larger map succeeds so does the run on the smaller one, and the tree of the larger map is the tree of the smaller one with further nodes: each stands for one of the further entities, at the top level if that has no group and below an actor otherwise. All other actors, meshes, collision shapes, origins and layers are the same and in the same order. If none of the further entities has a group, nothing below any other node changes.", "quantifier": "every platform, iteration order of the layers, stack depth, configuration, pair of files and set of further entities", "why_tests_cant": "a test adds particular entities to particular maps; state shared between entities, such as an index that counts entities or brushes of the whole map, shows only for some", "anchors": ["src/scene_tree/mod.rs:21-124", "src/layer_filter/mod.rs:5-64", "src/geo_builder/mod.rs"]}
{"id": "C115", "title": "A plane that cuts nothing off only moves centres", "statement": "Take a brush and add planes, anywhere in it, that do nothing: all meeting points of the brush are behind such a plane and it takes part in none itself, and its texture is on another side. In any arithmetic every face of the brush stays exactly as it is, the new faces have no corners and no triangles, and the enlarged brush is built exactly if the original one is. So for map files changed like this the run succeeds for both or for neither, with the same actors, the same surfaces (up to their order), collision points and triangles; positions are the same if the changed entities have an origin. In exact arithmetic a plane in front of all points within 1/1000 of the brush is of this kind, and the centre of the brush shrinks towards the origin of the map by the ratio of the numbers of planes; in floats a plane through whole points in front of the true solid is of this kind if there are no close calls.", "quantifier": "every arithmetic, brush and list of such planes; every platform, iteration order of the layers, stack depth, configuration and pair of files", "why_tests_cant": "a test has particular brushes; whether a superfluous plane perturbs the other faces shows only for planes and orders nobody tried", "anchors": ["src/geo_builder/brush_plane/mod.rs:17-114", "src/geo_builder/brush/mod.rs:11-29", "src/scene_tree/mod.rs:21-124"]}
{"id": "C116", "title": "Texture alignment moves nothing", "statement": "Take a map and change, on any of its brush sides, the offsets or axes, rotation and scale of the texture (not its name, nor the kind of texture coordinates), and the sizes of the texture files. In any arithmetic every brush is built exactly if it was, with the same centre and the same faces up to the tangents and texture coordinates of the corners: the same positions, normals, colours, triangles and textures. So the run succeeds for both maps or for neither, with exactly the same actors, positions and collision shapes, and the same surfaces with the same triangles in the same order, each corner in the same place. Normals of surfaces are an exception: if a brush repeats a side, the repetition is drawn with the normals of other sides unless its texture is shifted.", "quantifier": "every arithmetic, brush and texture table; every platform, iteration order of the layers, stack depth, configuration and pair of files", "why_tests_cant": "a test compares particular alignments; merging of vertices compares texture coordinates, so an alignment nobody tried can merge other vertices", "anchors": ["src/geo_builder/brush_plane/mod.rs:17-114", "src/geo_builder/brush_plane/tangents.rs", "src/geo_builder/brush_plane/uvs.rs", "src/scene_tree/mod.rs:570-815"]}
{"id": "C117", "title": "The order of brushes in an entity decides the order of triangles only", "statement": "Two map files whose entities have the same properties and the same brushes, in any order, give runs that both succeed or both fail. The actors are the same, and every actor has the same surfaces with the same triangles (positions, normals, texture coordinates and tangents alike) up to the order of surfaces and of the brushes within a surface; its convex collision shapes are the same up to order, and a concave one has the same triangles brush by brush. Positions of actors are the same if the shuffled entities have an origin. In exact arithmetic they are always the same; in floats an entity without an origin can move by a rounding error.", "quantifier": "every platform, iteration order of the layers, stack depth, configuration and pair of such files", "why_tests_cant": "a test compares two orders of a particular map; that no brush influences how another one is drawn needs all maps and all orders", "anchors": ["src/geo_builder/entity/mod.rs", "src/layer_filter/mod.rs", "src/scene_tree/mod.rs:570-815"]}
{"id": "C118", "title": "Exactly which maps are built, which never end and which panic", "statement": "A run succeeds exactly when the map file is valid UTF-8 whose lines, comments aside, are the tokens of a document in which closing braces may be missing at the very end; no plane of a brush degenerates; exactly one entity is a worldspawn; every entity reached from the world through groups has a class, and integer group and layer ids if its class is declared; and no such entity lies in its own group. If instead some reached entity lies in its own group (directly or through others), and all reached ones are usable, the run never ends, whatever the stack depth; no run goes on for ever for another reason. A map that is read without error and is neither buildable nor circular panics.", "quantifier": "every platform, iteration order of the layers and configuration", "why_tests_cant": "that a condition on the file is both needed and enough for success concerns all files; a run that never ends cannot be observed by a test", "anchors": ["src/map/quake/parser.rs", "src/layer_filter/mod.rs", "src/scene_tree/mod.rs", "src/lib.rs"]}
{"id": "C119", "title": "Turning and moving a map turns and moves everything built from it", "statement": "In exact arithmetic: let all planes of a brush be turned by a rotation and moved by a vector with texture lock (the axes of Valve-format textures turn, their offsets undo the move). Then every face goes along: the same corners in the same order, turned and moved; normals, also smoothed ones, turned; the same colours, triangles and texture; and for Valve-format planes tangents turned and the same texture coordinates. If all faces have corners, the centre of the brush goes along. If every entity of a Valve-format map is carried in this way (its origin too, if it has one), the carried map is built too if the map is, with the same actors, those at the top moved along, those within others turned, and every surface, convex and concave shape carried along with the same triangles; layers stay at the origin and their geometry is carried.", "quantifier": "every rotation, vector, list of entities, configuration and recursion depth, over the reals", "why_tests_cant": "a statement about all rotations and all maps, in exact arithmetic: rounding in the program hides it from any test by equality", "anchors": ["src/geo_builder/brush_plane/mod.rs", "src/geo_builder/brush_plane/uvs.rs", "src/geo_builder/brush_plane/tangents.rs", "src/geo_builder/entity/mod.rs", "src/scene_tree/mod.rs"]}
{"id": "C120", "title": "Which three points state a plane is irrelevant", "statement": "In exact arithmetic: if every plane of a brush is stated by three other points of it with the same sense (as another editor might write it), every face has the same centre, the same corners with the same normals, tangents, texture coordinates and colours, the same indices and texture; and if no corner is cut off within the tolerance, the corners are in the same cyclic order, only begun at another one. Brushes and entities keep their centres, and convex shapes their points.", "quantifier": "every list of planes and restatement of them, entity and texture table, over the reals", "why_tests_cant": "a statement about all ways to state a plane, in exact arithmetic", "anchors": ["src/geo_builder/brush_plane/mod.rs", "src/geo_builder/brush_plane/vertices.rs", "src/map/quake/types/brush_plane.rs"]}
{"id": "C121", "title": "The order of the sides of a brush is irrelevant", "statement": "In exact arithmetic: if the sides of a brush are written in another order, the brush has the same faces in another order: each with the same centre, the same corners with the same normals, tangents, texture coordinates and colours, the same indices and texture (and literally the same face if no corner is cut off within the tolerance). Brushes and entities keep their centres, and convex shapes their points. This holds if normals are not smoothed or no more than three sides meet in a corner. Where four sides meet and normals are smoothed, the order of the sides decides the normal: at the tip of a pyramid it leans one way or the other.", "quantifier": "every list of planes and reordering of it, entity and texture table, over the reals; the counterexample in floats, with and without SIMD", "why_tests_cant": "a statement about all orders of all lists of planes, in exact arithmetic", "anchors": ["src/geo_builder/brush_plane/mod.rs", "src/geo_builder/brush_plane/normals.rs", "src/geo_builder/brush/mod.rs"]}
{"id": "C122", "title": "Enlarging or shrinking a map carries everything built from it", "statement": "In exact arithmetic: if all planes of a map are enlarged (or shrunk) about the origin by a factor, the scales of their textures too, and stated origins as well, then everything built is enlarged by that factor: corners in the same order, centres, the points of shapes and the origins of all nodes, relative or not; normals, tangents, texture coordinates, colours, triangles, textures and actors stay the same. This holds as long as the tolerance of a thousandth of a unit for points in front of a plane, which is not enlarged, decides nothing: a face cut away comes back once its brush is shrunk to a thousandth of its size.", "quantifier": "every positive factor, map, game data and texture table, over the reals, with atan2 any function that gives the angle of a point and the turning of textures any linear one", "why_tests_cant": "a statement about all maps and all factors, in exact arithmetic", "anchors": ["src/geo_builder/brush_plane/mod.rs", "src/geo_builder/brush_plane/uvs.rs", "src/geo_builder/brush_plane/tangents.rs", "src/geo_builder/brush/mod.rs", "src/geo_builder/entity/mod.rs", "src/scene_tree/mod.rs", "src/lib.rs"]}
{"id": "C123", "title": "The faces of a brush meet edge to edge", "statement": "In exact arithmetic: every edge of a face with three or more corners of a brush with an inside is, run the other way, an edge of another such face of the same brush: there are no gaps between faces, and no corner of one lies inside an edge of another. Run one way it belongs to one face only, unless a side is given twice.", "quantifier": "every brush, over the reals, bounded, with a point behind all its planes, whose corners are in front of none of its planes and whose planes meet at corners at an angle the builder does not take for none", "why_tests_cant": "a statement about all brushes, in exact arithmetic", "anchors": ["src/geo_builder/brush_plane/mod.rs", "src/geo_builder/brush_plane/vertices.rs", "src/geo_builder/brush/mod.rs"]}
{"id": "C124", "title": "The surface of a brush is closed and encloses a positive volume", "statement": "In exact arithmetic: the area vectors of the triangles of a brush with an inside, as its faces' indices list them, add up to nothing, and the volume with signs between them and a point is the same for every point, and positive: the surface has no holes and all of it faces the same way.", "quantifier": "every brush as in C123, with no side given twice, and every point", "why_tests_cant": "a statement about all brushes and points, in exact arithmetic", "anchors": ["src/geo_builder/brush_plane/mod.rs", "src/geo_builder/brush_plane/geometry.rs", "src/geo_builder/brush/mod.rs"]}
{"id": "C125", "title": "Meshes and concave shapes of a map are closed", "statement": "In exact arithmetic: every concave collision shape in the tree of a map of good brushes, and every mesh with all its surfaces together unless textures it uses are blacklisted, is watertight: each line between two corners is run as often one way as the other by the sides of its triangles; and the volume with signs between the triangles and a point is the same positive number for every point. This includes shapes and meshes of several brushes and of layers.", "quantifier": "every map of brushes as in C124, game data, texture table, blacklist and depth, over the reals, and every mesh and shape in the tree", "why_tests_cant": "a statement about all maps and all nodes, in exact arithmetic", "anchors": ["src/scene_tree/mod.rs", "src/layer_filter/mod.rs", "src/geo_builder/brush_plane/mod.rs", "src/geo_builder/brush/mod.rs"]}
{"id": "C126", "title": "How large the result is", "statement": "A face of a brush of n sides has at most n*n corners (and that many occur) and three indices per corner after the second. A map in which no two entities have the same id gives a tree of at most three nodes per entity and layer, whose meshes and shapes together hold at most eight corners and indices per cubed number of sides of a brush. Without that condition the tree may be exponentially large: for every n there is a map of 2n+1 entities without brushes whose tree has at least 2^n actors.", "quantifier": "every platform, map, game data, texture table, blacklist, depth and layer order; for the last part every n and every game data, texture table and blacklist", "why_tests_cant": "a bound on all outputs, and a family of maps whose trees are too large to build", "anchors": ["src/scene_tree/mod.rs", "src/geo_builder/brush_plane/mod.rs", "src/layer_filter/mod.rs"]}
{"id": "C127", "title": "How many sides and corners a brush has", "statement": "Over the real numbers, two faces of a bounded brush with an inside meet along one edge at most, a face has fewer corners than the brush has faces of three corners or more, and there are at least four such faces.", "quantifier": "all brushes that build, whose planes are proper, of which no two bound the same half of space, whose corners are crisp and sharp, and every polar angle function", "why_tests_cant": "a statement about all brushes and all pairs of their faces and edges", "anchors": ["src/geo_builder/brush_plane/mod.rs", "src/geo_builder/brush/mod.rs"]}
{"id": "C128", "title": "Euler's formula for brushes", "statement": "Over the real numbers, a bounded brush with an inside has as many different corners and faces (of three corners or more) together as edges and two: its surface is in one piece without handles. Hence n faces have at most 2n-4 corners and 3n-6 edges, n corners have at most 2n-4 faces, and all faces together have exactly 2n-4 triangles for n corners.", "quantifier": "all brushes that build, whose planes are proper, of which no two bound the same half of space, whose corners are crisp and sharp, every polar angle function, and all lists of the corners and edges", "why_tests_cant": "a theorem of topology about the output for all brushes", "anchors": ["src/geo_builder/brush_plane/mod.rs", "src/geo_builder/brush/mod.rs"]}
{"id": "C129", "title": "Rays from inside a brush", "statement": "Over the real numbers, a ray from any point inside a bounded brush passes the triangles of the brush at exactly one point; the pyramids from the point to the triangles are together exactly the solid, and no two of them overlap.", "quantifier": "all brushes that build, whose planes are proper (and, for the last part, of which no two bound the same half of space), whose corners are crisp and sharp, every polar angle function, every inside point and direction", "why_tests_cant": "a statement about all rays and all points of space", "anchors": ["src/geo_builder/brush_plane/mod.rs", "src/geo_builder/brush/mod.rs"]}
{"id": "C130", "title": "Integer boxes are closed in single precision", "statement": "In single precision, the faces of an axis-aligned box with integer corners have exactly the corners of the sides, in an order in which any three turn clockwise; every edge of a face is, run the other way, an edge of exactly one other face, with exactly the same end points.", "quantifier": "all integer boxes with coordinates up to 2^20 none of whose edges is more than 40000 times another, all planes through integer points of the sides (as in C18), all platforms whose atan2 is within 1/(3r) of the angle, r being the ratio of the edges", "why_tests_cant": "a box has some 2^120 choices of corners and many more of points to give its planes by; the mesh is closed only if all orders agree", "anchors": ["src/geo_builder/brush_plane/mod.rs", "src/geo_builder/brush/mod.rs"]}
{"id": "C131", "title": "Faces of brushes meet edge to edge up to rounding", "statement": "In single precision, where every side of a brush is a good side (C107), the vertices of the faces stand for the corners of the true solid in an order in which every edge of a face is, run the other way, an edge of another face, and of one other only if no plane is repeated. Hence each edge from vertex to vertex is as short as the rounding error, or has an edge of another face running along it in the opposite direction with both ends within twice the error. Where each corner belongs to three planes, there are twice as many triangles as corners of the solid, less four.", "quantifier": "all platforms, all brushes of up to 4000 planes through grid points whose sides are all good; for the uniqueness and the count, solids with interior and without repeated planes", "why_tests_cant": "the faces are computed independently of each other, each with its own rounding; that no edge is left without counterpart is about all brushes at once", "anchors": ["src/geo_builder/brush_plane/mod.rs", "src/geo_builder/brush/mod.rs"]}
{"id": "C132", "title": "Maps of integer boxes give exactly closed meshes and shapes", "statement": "In a run on a map all of whose brushes are boxes with integer corners, the triangles of every concave collision shape, and of every mesh unless a texture used is blacklisted, lie exactly where integers say, leave no gap (every line between two corners is run as often one way as the other), are twelve for each box, and enclose exactly the volume of the boxes, which are some of the brushes of one entity of the map.", "quantifier": "all platforms with an angle function accurate to 1/(3r), all configurations, all map files whose brushes are integer boxes up to 2^20 with no edge more than r times as long as another (r up to 40000), all iteration orders of the layer map", "why_tests_cant": "closedness of what is drawn involves parsing, face building, winding, duplicate removal, index offsets and the split by texture at once, in floating point, for every map of boxes", "anchors": ["src/geo_builder/brush_plane/mod.rs", "src/geo_builder/brush/mod.rs", "src/scene_tree/mod.rs", "src/layer_filter/mod.rs"]}
{"id": "C133", "title": "Corners are sorted in one order, whatever the algorithm", "statement": "The comparison of angles is a total order on the corners of a face whenever all angles are numbers or all are NaN, so that sorting is specified and cannot panic, and the vertices of the face are the corners in the one order that every stable sort gives; this is so for every brush of at most 4000 planes through grid points. With coordinates near the largest number it is not: one corner can be tied with two others that are not tied with each other.", "quantifier": "all platforms, entities, brushes and sides; for the second part all platforms whose atan2 of numbers is a number, for the last all platforms with the usual atan2", "why_tests_cant": "the standard library leaves the result unspecified for comparisons that are no total order and may panic; a test sees one version of the algorithm on a few lists", "anchors": ["src/geo_builder/brush_plane/mod.rs"]}
{"id": "C134", "title": "The volume drawn is right up to rounding", "statement": "For a brush of planes through grid points whose sides are clear of close calls, the triangles that the vertices and indices of its faces stand for enclose, measured from any point, the volume of the true solid, up to one bound per triangle that only depends on the size of the brush and on how far rounding may move a corner; the area vectors of the triangles add up to nothing within such a bound; and the true volume, positive and the same wherever polygons begin, is that of the brush built with real numbers.", "quantifier": "all platforms, entities, brushes with a point behind all planes and no plane twice, and all points the volume is measured from", "why_tests_cant": "a missing, flipped or repeated triangle changes the sum by the volume of a tetrahedron, which a test can only notice on brushes somebody has measured by hand", "anchors": ["src/geo_builder/brush_plane/mod.rs", "src/geo_builder/brush/mod.rs"]}
{"id": "C135", "title": "Meshes and concave shapes enclose the volume of their brushes up to rounding", "statement": "In a run on a map of brushes with whole points whose sides are clear of close calls, every concave collision shape, of entities and layers, is made of brushes of one entity of the map: measured from any point, its triangles enclose the sum of the true volumes of those brushes, and their area vectors cancel, up to one bound for each triangle; so does every mesh, its surfaces taken together, as long as no texture used is blacklisted.", "quantifier": "all platforms, maps, configurations, orders of layers and points the volume is measured from", "why_tests_cant": "a surface that lacks a face, an index with a wrong offset or a brush put into two meshes changes the volume, and no test adds it up", "anchors": ["src/scene_tree/mod.rs", "src/layer_filter/mod.rs", "src/geo_builder/brush_plane/mod.rs"]}
{"id": "C136", "title": "Exactly what a diff reports", "statement": "Among the longest common subsequences of the two files without their last lines a diff keeps the one that takes the latest lines of the first file, which is unique; it reports exactly the lines with no equal among these. Swapping the files swaps the report if there is only one longest common subsequence, but not always; nothing is reported exactly if every line of both files has an equal among the kept ones, which does not mean that the files are equal.", "quantifier": "all token lists and pairs of files", "why_tests_cant": "which of several longest subsequences is kept shows only where lines are moved or repeated, and a test would have to be written for each tie", "anchors": ["src/map/quake/tokenizer.rs"]}
{"id": "C137", "title": "A plane without a normal loses its brush, and with it its entity", "statement": "If two of the points of a plane coincide, or a coordinate of one of them is infinite or no number, and building succeeds (Valve texture coordinates), then every face of its brush has corners and none of their coordinates is a number; the face of the plane has a corner for every pair of planes and the others at least those of the pairs with the plane. If the entity has no \"origin\", its actor, its geometry and all actors directly below it are nowhere (no coordinate of their origin is a number), whatever their own origins; one such line in the worldspawn does that to the world. So the points of successful runs are not always finite.", "quantifier": "all brushes, entities, maps and runs, either SIMD setting", "why_tests_cant": "a test would need a degenerate plane line with Valve coordinates; the run succeeds and writes NaN silently", "anchors": ["src/geo_builder/brush_plane/vertices.rs", "src/geo_builder/brush_plane/mod.rs", "src/geo_builder/brush/mod.rs", "src/geo_builder/entity/mod.rs"]}
{"id": "C138", "title": "A brush turned inside out disappears", "statement": "If every plane of a brush with room inside has two of its three points exchanged, so that it faces inwards, the brush is built without failure but has one empty face for each plane and its center at the origin: nothing is drawn, and the convex collision of its entity has a shape without points at the origin. In exact arithmetic it suffices that the solid is bounded and contains a point more than a thousandth behind every plane; in the arithmetic of the program, for whole points, somewhat more.", "quantifier": "all texture tables, entities and brushes; all platforms for the floats; all real arithmetics for the exact version", "why_tests_cant": "tests use brushes that face outwards as editors write them, and a few inverted ones would not show that no corner of any such brush is ever kept", "anchors": ["src/geo_builder/brush_plane/vertices.rs", "src/geo_builder/brush_plane/mod.rs", "src/geo_builder/brush/mod.rs", "src/scene_tree/mod.rs"]}
{"id": "C139", "title": "Only the header, the directory and the textures asked for matter in an archive", "statement": "An archive of any length that has the same bytes in the header, the directory entries and the header, pixels and (WAD3) palette of the textures asked for is read with the same result, and one is read exactly if the other is; bytes that follow an archive do not matter, an archive cut short is never read with a wrong result, asking for fewer textures gives exactly those of the list, and order and repetitions of the names asked for are irrelevant.", "quantifier": "all files, lists of names and builds; all numbers of mip levels for the last part", "why_tests_cant": "a read that takes its length from the file or from the size in the directory, or a texture found by position instead of name, shows only on archives laid out unusually", "anchors": ["src/wad/mod.rs", "src/wad/entry.rs", "src/wad/mip_texture.rs", "src/wad/header.rs"]}
{"id": "C140", "title": "Exactly which archives are read, rejected or crash the reader", "statement": "Reading the first mip level of an archive panics exactly if the header has another magic than WAD2 and WAD3 or, in builds with overflow checks, an offset or size it computes does not fit 32 bits; it fails with an error exactly if a directory entry or a header, pixel block or palette of a texture asked for is not inside the file and there is no such overflow; in all other cases it succeeds.", "quantifier": "all files, lists of names asked for and builds", "why_tests_cant": "tests show single corrupt files; that no other file crashes the reader is a statement about all of them", "anchors": ["src/wad/mod.rs", "src/wad/header.rs", "src/wad/entry.rs", "src/wad/mip_texture.rs", "src/wad/palette.rs"]}
{"id": "C141", "title": "The numbers of groups are only names", "statement": "If two maps have the same entities up to the values of _tb_id and _tb_group, these values are absent or readable as integers in the same places, and the same entities are in the groups of the same entities, then one run succeeds exactly if the other does, and the node trees are the same up to the values of these two properties; every change of group names that is injective on the names used is of this kind.", "quantifier": "all maps and pairs of such maps, configurations, platforms, fuels and iteration orders of the layers", "why_tests_cant": "tests compare two fixed maps; that nothing else depends on the numbers is a statement about all ways of numbering groups", "anchors": ["src/scene_tree/mod.rs", "src/lib.rs"]}
{"id": "C142", "title": "The names of textures are only names", "statement": "If the textures written in a map are renamed by a function that keeps them apart and leaves the names of the two layers as they are, and the table of sizes and the blacklist are renamed with them, then one run succeeds exactly if the other does, and the nodes are the same up to the names of the textures of surfaces, in the same order, and the order of the layers.", "quantifier": "all maps and renamings, configurations, platforms, fuels and iteration orders of the layers", "why_tests_cant": "tests compare two fixed maps; that nothing else depends on the names is a statement about all renamings", "anchors": ["src/scene_tree/mod.rs", "src/scene_tree/predicates/texture.rs", "src/geo_builder/brush_plane/mod.rs", "src/layer_filter/mod.rs"]}
{"id": "C143", "title": "Only the keys that are asked for matter", "statement": "Of the keys of an entity a run looks at its class, its origin and its two group numbers, at _phong if it has brushes, at _phong_angle if it has brushes and _phong is 1, and, if its class is declared, at the type and name of a group and the keys the declaration lists. Maps whose entities have the same brushes and agree on these keys give the same run, whatever their other keys are.", "quantifier": "all pairs of such maps, configurations, platforms, fuels and iteration orders of the layers", "why_tests_cant": "a key that is read by mistake only shows for the maps that use it", "anchors": ["src/scene_tree/mod.rs", "src/geo_builder/entity/mod.rs", "src/geo_builder/brush_plane/normals.rs", "src/layer_filter/mod.rs"]}
{"id": "C144", "title": "The mirror image of a map is built as the mirror image", "statement": "In exact arithmetic, if every plane of a brush is mirrored, with two of its points exchanged so that it still faces outwards, then each face has the mirrored corners, the mirrored centre, as many triangles and the same texture, and flat normals are mirrored. If no corner is cut off within the tolerance the corners come in the opposite order, beginning anywhere, so that triangles still turn clockwise. Convex shapes have the mirrored points.", "quantifier": "all reflections and rotations with reflection, all moves, all brushes and entities, all texture tables", "why_tests_cant": "tests would compare a few brushes; handedness mistakes show for particular directions only", "anchors": ["src/geo_builder/brush_plane/mod.rs", "src/geo_builder/brush/mod.rs", "src/geo_builder/entity/mod.rs", "src/scene_tree/mod.rs"]}
{"id": "C145", "title": "A brush cut in two is built as its two parts", "statement": "In exact arithmetic, add to a brush a plane, and to a second copy of it the same plane seen from the other side. The two new faces have the same corners, the same centre and as many triangles; if no corner is cut off within the tolerance their corners come in opposite orders, beginning anywhere. If moreover no corner is too flat to be found, every other face of the brush covers exactly what its two parts cover, and the parts meet only along the cut.", "quantifier": "all brushes, all cutting planes, wherever they stand among the planes, all textures and entities", "why_tests_cant": "tests would cut a few boxes; a corner lost or doubled along a cut shows for particular slopes only", "anchors": ["src/geo_builder/brush_plane/mod.rs", "src/geo_builder/brush/mod.rs"]}
{"id": "C146", "title": "The names of classes are only names", "statement": "If classes are given other names in the map, the game data and the declarations alike, so that different names stay different and worldspawn keeps its name, then one run succeeds exactly if the other does, and it builds the same tree with the new names for the actors of entities; the names of layers stay. This needs that no class declares a property named classname.", "quantifier": "all pairs of such maps and configurations, all changes of names, platforms, fuels and iteration orders of the layers", "why_tests_cant": "a name that is treated specially by mistake only shows for the maps that use it", "anchors": ["src/scene_tree/mod.rs", "src/layer_filter/mod.rs", "src/geo_builder/entity/mod.rs"]}
{"id": "C147", "title": "Joining two map files joins what is built from them", "statement": "If one complete map file is written after another with the end of a line between them, the result is a map file with the entities of both, in this order, provided the first does not end in a bare carriage return. If one of the files has no worldspawn, the run of the joined file, where it succeeds, is that of the other file with further nodes only. If both have one, the run of the joined file does not succeed.", "quantifier": "all pairs of map files, in either order, all configurations, platforms, fuels and iteration orders of the layers", "why_tests_cant": "state carried from one entity to the next only shows for particular neighbours", "anchors": ["src/map/quake/tokenizer.rs", "src/map/quake/parser.rs", "src/layer_filter/mod.rs", "src/scene_tree/mod.rs"]}
{"id": "C148", "title": "The convex collision shapes of integer boxes are exactly the boxes", "statement": "In single precision, for every brush that is an axis-parallel box with integer corners up to 2^20 and planes as C18 allows, the convex collision shape has eight points, exactly at the corners, and their convex hull is exactly the box. In a run every such brush of a class with convex collision has its shape in the tree, and if all brushes of the map are boxes then all convex shapes, of entities and of layers, are boxes of the map.", "quantifier": "all integer boxes, all maps, all configurations, all platforms, all orders of hash maps", "why_tests_cant": "tests would look at one box; that corners come out exactly and once, though each is found on three faces, has to hold for all sizes", "anchors": ["src/geo_builder/brush_plane/mod.rs", "src/scene_tree/mod.rs"]}
{"id": "C149", "title": "In exact arithmetic convex collision shapes are exactly the solids", "statement": "In exact arithmetic, for every bounded brush none of whose corners is too flat to be found or cut off within the tolerance, the convex hull of the points of its convex collision shape is exactly the set of points inside all its planes. Every convex shape of a scene, of entities and layers, is so the solid of a brush of the map, and the shapes of the two parts of a brush that is cut make up its shape and meet only along the cut.", "quantifier": "all such brushes, all maps of such brushes, all game data, textures and cutting planes", "why_tests_cant": "tests would check some points of some brushes; a missing corner shows only where the hull falls short", "anchors": ["src/geo_builder/brush_plane/mod.rs", "src/scene_tree/mod.rs"]}
{"id": "C150", "title": "Convex collision shapes have no superfluous points", "statement": "In exact arithmetic, the points of the convex collision shape of a brush as in C149 are pairwise different, and every list of points whose convex hull is the solid of the brush contains them all, so that none is shorter. The same holds of all convex shapes of a scene of such brushes.", "quantifier": "all such brushes, all lists of points, all maps of such brushes", "why_tests_cant": "tests cannot compare with all other lists of points", "anchors": ["src/geo_builder/brush_plane/mod.rs", "src/scene_tree/mod.rs"]}
{"id": "C151", "title": "Faces and convex shapes depend only on the solid", "statement": "In exact arithmetic, take two brushes, whatever the number, the order and the stating of their planes. If planes of the two have the same points of the solids on them, their faces have the same corners, the same centre and the same indices, and the corners come in the same order around when the planes face the same way. If the two enclose the same points, their convex collision shapes have the same points up to order.", "quantifier": "all pairs of brushes as in C149, all pairs of planes of brushes whose sides are bounded, crisp and sharp", "why_tests_cant": "tests cannot compare all descriptions of a solid", "anchors": ["src/geo_builder/brush_plane/mod.rs", "src/scene_tree/mod.rs"]}
{"id": "C152", "title": "Lines through a brush meet its surface twice", "statement": "In exact arithmetic, the points of the solid of a brush are those strictly behind all of its planes and those on its triangles, and no point is both. A line through a point strictly behind all planes meets the triangles at exactly two points and is in the solid exactly between them. Hence a point that is not on a triangle is inside exactly if such a ray from it passes the triangles once, and outside exactly if it passes them never or twice, and the way straight from inside to outside meets the triangles exactly once.", "quantifier": "all bounded brushes with crisp and sharp corners that have an inside, all points and all directions", "why_tests_cant": "tests cannot try all lines", "anchors": ["src/geo_builder/brush_plane/mod.rs", "src/geo_builder/brush/mod.rs"]}
{"id": "C153", "title": "The triangles of integer boxes are exactly the surfaces of the boxes", "statement": "In single precision, the points of the triangles built for an axis-aligned box with integer corners, where the floats put them, are exactly the points of the surface of the box: no hole however small, and nothing sticks out. In a run on a map of such boxes, the points of the triangles of every concave collision shape, and of every mesh unless a texture used is blacklisted, are exactly those of the surfaces of some of the boxes of one entity.", "quantifier": "all integer boxes and platforms as in C130, all maps of such boxes, all points of space", "why_tests_cant": "tests cannot try all points of a triangle", "anchors": ["src/geo_builder/brush_plane/mod.rs", "src/scene_tree/mod.rs"]}
{"id": "C154", "title": "Nothing passes through the walls of integer boxes", "statement": "In single precision, a line through the inside of an axis-aligned box with integer corners meets the triangles built for it, where the floats put them, at exactly two points and is in the box exactly between them. Hence a point off the triangles is in the box exactly if such a ray from it passes the triangles once, and outside exactly if it passes them never or twice. In a run on a map of such boxes every concave collision shape stands for some boxes of one entity, and the straight way from inside one of them to a point outside of it meets a triangle of the shape.", "quantifier": "all integer boxes and platforms as in C130, all maps of such boxes, all points and directions", "why_tests_cant": "tests cannot try all lines", "anchors": ["src/geo_builder/brush_plane/mod.rs", "src/scene_tree/mod.rs"]}
{"id": "C155", "title": "Meshes and concave shapes are exactly the surfaces of brushes", "statement": "In exact arithmetic, for maps whose brushes are bounded and well separated as in C125, the points of the triangles of every concave collision shape in the tree are exactly the points on the surfaces of the solids of all brushes of one entity, or of some brushes of the worldspawn, whose layers are set apart; those of all surfaces of a mesh together, unless textures used are blacklisted, are exactly the surfaces of some brushes of one entity. Hence the straight way from inside one of these brushes to a point outside that brush meets a triangle of the shape, and no triangle has a point off these surfaces.", "quantifier": "all such maps, game definitions, textures and nodes of the tree, all points", "why_tests_cant": "tests cannot try all points and ways", "anchors": ["src/geo_builder/brush_plane/mod.rs", "src/scene_tree/mod.rs"]}
{"id": "C156", "title": "Concave and convex collision of an entity agree", "statement": "In exact arithmetic, for an entity whose brushes are bounded and well separated as in C125, the points of the triangles of its concave collision shape are exactly the points on the skins of its convex collision shapes: points of the hull from which some direction leads out of it at once. Every straight way from a point of a convex shape that is not on its skin to a point outside that shape meets a triangle of the concave one. So the choice between the two kinds of collision in the game definition changes what is filled, not where the walls are.", "quantifier": "all such entities, textures and points", "why_tests_cant": "tests cannot compare the two at all points", "anchors": ["src/scene_tree/mod.rs", "src/geo_builder/brush/mod.rs"]}

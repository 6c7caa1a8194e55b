# Formal model of quarchitect: design

The whole crate (about 2500 lines outside tests) is modelled in Gallina and the
properties of `properties.jsonl` are stated and proved about that model.

## Layout (`rocq/theories/`)

| file | contents | models |
|---|---|---|
| `Prelude.v` | outcome type (`Ok`/`Err`/`Panic`/`OutOfFuel`), strings as lists of code points, association-list maps, list helpers | std |
| `F32.v` | IEEE binary32 via stdlib `SpecFloat` (24, 128), numeric interface `num`, vectors, decimal parsing and shortest printing | glam, core::num |
| `Text.v` | `lines`, `split`, `split_whitespace`, `to_lowercase`, integer parsing and printing, UTF-8 | str/String |
| `MapModel.v` | tokenizer, brush plane reader, parser | `src/map/**` |
| `DiffModel.v` | token diff | `tokenizer.rs: diff_tokens` |
| `GeoModel.v` | geometry builder, generic in the numeric interface | `src/geo_builder/**` |
| `LayerModel.v` | layer filter | `src/layer_filter` |
| `GameDataModel.v` | game data types, FGD printing | `src/game_data/**`, `src/types/color.rs` |
| `SceneModel.v` | scene tree | `src/scene_tree/**` |
| `WadModel.v` | WAD / palette reading | `src/wad/**` |
| `RunModel.v` | `run`, `run_diff` | `src/lib.rs` |
| `SaveModel.v` | UTF-8 encoder, `fs::write`, `GameData::save`, `PartialEq`/`Hash`/`Default` of FGD entities | `src/game_data/forge` |
| `DebugModel.v` | `Debug` output of a diff as `run_diff` prints it | `src/lib.rs`, `src/map/quake/tokenizer.rs` |
| `*Spec.v` | small independent specifications (no model helpers beyond data types) | |
| `*Proofs.v`, `*Final.v`, `RealAttributes.v` | lemmas | |
| `*Witness.v` | concrete inputs for examples and refutations | |
| `Golden.v` | the repository's own unit tests, replayed on the model by computation | `#[test]` functions |
| `Props*.v` | the property theorems only, each closed by `exact`, with `Print Assumptions` and an `Example` | |

Areas: `Map` (`Token`, `Parser`, `Plane`, `Decimal`, `Float`) C01-C09; `Diff` C10-C13; `Geo` (`Exact`, `Box`,
`Degenerate`, `Attribute`, `Real`) C14-C21, C63-C66; `Layer` C22-C24; `Tree`/`Node`/`Scene` C25-C29, C38-C40;
`Gather`/`Surface` C30-C35; `Property`/`Default` C36, C37, C53, C54, C60, C62; `Wad` C41-C49; `GameData`
(`Fgd`, `Color`, `Code`) C50-C52, C55-C57, C61; `Run` (`Utf8`, `Fuel`, `Outcome`, `Document`, `Print`,
`RunDiff`) C58, C59, C67-C70; `Wind` (`Order`, `Shift`) C71-C74;
`Path` C75; `Invariance` (`Sound`) C76-C79; `Solid` (`Touch`) C80, C81;
`Number` (`Text`, `Arith`, `Short`) C82-C84; `Case` C85; `Save` C86, C87; `Debug` C88; `Error` C89-C91; `Corner` C92, C93;
`Centre` C94; `Normal` C95, C96; `Points` C97; `Kept` C98, C99; `Archive` C100; `Uv` C101; `Mesh` C102; `Tangent` C103; `Mean` C104; `Wound` (`Dent`) C105; `Triangle` C106; `Cover` C107; `Fill` C108; `Place` C109; `Shared` C110; `Actor` C111; `Sibling` C112; `Hide` C113; `Grow` C114; `Idle` C115; `Align` C116; `Shuffle` C117; `Valid` C118; `Rigid` C119; `Restate` C120; `Sides` C121; `Scale` C122; `Edge` C123; `Closed` C124; `Shell` C125; `Size` C126; `Neighbour` C127; `Euler` C128; `Ray` C129; `BoxEdge` C130; `Seam` C131; `Brick` C132; `Stable` C133; `Bulk` C134; `Mass` C135; `Latest` C136; `Lost` C137; `Inverse` C138; `Extent` C139; `Verdict` C140; `Regroup` C141; `Retexture` C142; `Heed` C143; `Mirror` C144; `Cut` C145; `Reclass` C146; `Join` C147; `Carton` C148; `Cast` C149; `Fewest` C150; `Solely` C151; `Pierce` C152; `Clad` C153; `Tunnel` C154; `Wrap` C155; `Agree` C156.

Model files contain no proofs about behaviour, so the model still runs when a proof breaks.
`tools/manifest.py` writes `MANIFEST.json` from the `Props*.v` files and `tools/notes.py`. `tools/mutate.py` edits
one definition in a scratch copy, rebuilds, and records in `seeded/LOG.jsonl` which theorems no longer hold.

## Modelling decisions

* **Outcome.** `Result` is `Ok`/`Err`; a Rust panic (unwrap on None, slice or array index,
  assert, checked arithmetic) is `Panic`; recursion without structural bound takes fuel and
  answers `OutOfFuel`, so divergence is "OutOfFuel for every fuel".
* **Floats.** f32 is `spec_float` with precision 24 and emax 128 (standard library, executable,
  no axioms): round-to-nearest-even add, sub, mul, div, sqrt, IEEE comparisons (NaN unequal to
  itself, -0 = +0). Geometry is written over a record `num` of operations so the same code is
  instantiated with f32 and, for exact-arithmetic theorems, with the reals.
* **Not determined by IEEE / unknown versions** are parameters the theorems quantify over: `cos`,
  `atan2`, degree conversion, quaternion and 2x2 rotation (glam + libm), SIMD or scalar `normalize`
  and negation of glam 0.8, overflow checks on or off, printing of -0, spelling of inf/NaN accepted by
  `parse::<f32>`, Unicode lower-casing outside Latin-1, hash-map iteration order, the schedule
  of rayon workers.
* **Strings** are lists of Unicode scalar values (`N`); files are lists of bytes.
* **HashMap** is an association list with replace-on-insert; code that only looks up is
  order-insensitive; code that iterates (`scene_tree::run` over layers) takes the
  iteration order as a parameter.
* **File system**: one snapshot per file; opening may fail. Of `println!` only the printed diff is modelled.
  Allocation failure and stack depth are not modelled.

## Per-property plan

C01-C08 tokenizer/parser: structural induction over lines/tokens; printing functions in the
spec, round trip by induction. C09: exact rational rounding (Flocq's correctness of the
SpecFloat division core). C10-C13 diff: table invariant against a recursive LCS-length spec,
backtracking invariant `index = table[i][j]`. C14-C17, C20, C21: structural lemmas on the generic
geometry code; C16 with the real instance. C18: f32 with Flocq exactness lemmas. C19: NaN propagation.
C22-C24: `Permutation`/`filter`. C25-C29, C40: fuelled tree building, rank argument on the
group graph. C30-C35: representative function of `filter_vertices`. C36-C39: case analysis over the
definitions. C41-C49: little-endian codec lemmas, list slicing, schedule permutation.
C50-C57: printing, injectivity by a reader written in the spec. C58-C60: composition. C71-C74: planar orientation of points sorted by polar angle. C80-C81: every point of a bounded side lies between two points of its edges, and those between corners. C82-C83: readers inverted part by part, operations by Flocq's correctness theorems. C84: the decimals next to the value decide for each number of
digits, nine always suffice. C85: a table of letters. C86: the encoder of `SaveModel` works with shifts and masks, the
specification with division; every printed character is ASCII or comes from a string of the data. C88: escapes form a prefix code, lines hold no line ends. C89-C91:
forward error analysis with unit roundoff 2^-24; directions of planes through whole points are exact, unit normals are
within 5 units of each coordinate, meeting points by Cramer's rule with the computed normals. C92, C93: each computed corner is assigned its true corner;
the assignment is a bijection if no decision is closer than the error. C94: means of points behind a plane. C95, C96: sums of unit normals whose determinant
is at least 0.00099 are not shorter than that. C97: a property of all faces carried through gathering, layers and tree, with C89 and C90 for the faces.
C98, C99: entities of the document reachable by groups have a node (induction over the links), which holds every corner of every selected face, and C91 finds the corner on the face.
C100: offsets of the written parts by induction over the lumps. C101: forward error analysis from the corner before centring on.
C102: the surfaces of a run are faces of written brushes end to end (C97, C83), each face by C95 and C101.
C103: C65 and C66 with the exact rotations; texture coordinates change linearly.
C104: the error of a running sum grows by a factor 1 + 2^-24 with every term.
C105: C72 in the plane with angles known up to d: two corners compare as their true angles do, and sorting puts them in order.
C106: C30 through the tree of a run; face indices are fans, so threes of the joined indices lie in one face, and C105 applies to it.
C107: a side is the hull of its true corners, a fan of corners in order covers their hull (C81), and the computed corners are near the true ones (C98).
C108: a finite solid is the hull of its sides and so of its corners; moving the points of a hull by h moves the hull by at most h.
C109: origins telescope along a path; each is a single correctly rounded difference of centres.
C110: only vertices of different corners need different angles; in a fan with repeated corners the triangles at strict changes cover the hull.
C111: entities as filtered are the written ones in the order of the file; induction over the recursion depth; the relation is functional but for positions and shapes.
C112: every stage maps permuted lists to permuted lists; induction over the recursion depth for the tree.
C113: the brushes kept by the wider list are a subsequence, and each contributes its own piece of a surface.
C114: induction over the recursion depth, with the larger list of entities as a merge of the smaller one with the new ones.
C115: merging lists of faces, and a relation between trees of the same actors with other geometry; exact arithmetic and rounding bounds from C16 and C92.
C116: relating faces corner by corner and outcomes by success; triangles of surfaces from C30.
C117: permutations through building, filtering and gathering; the sum of centres in exact arithmetic; refutation for the rounded sum.
C118: document level: parser accepts exactly the documents lacking closers at the end; groups as relations on documents, matched with the scene tree's recursion.
C119: the rotation commutes with every vector operation used; the vertex merging and winding comparisons see equal numbers, so both runs take the same branches.
C120: normal and distance of a plane do not change, so the same corners are found in the same order before winding; two lists all of whose threes turn clockwise are rotations of each other.
C121: the set of corners is the same (C74), and a corner's attributes follow from its place and its plane, or from the only two other planes there.
C122: facings grow by the square of the factor, so normals stay and the places where planes meet grow; the tolerance is the only length in the code; then relations carried through gathering and the tree.
C123: two neighbouring corners of a face both lie on a second plane (a corner is a vertex of the solid, and the edge between them a side of the convex polygon), whose face has them as neighbours the other way round; planes with fewer than three corners bound nothing.
C124: the triangles of a fan add up to the sum over its polygon's edges; by C123 the edges cancel in pairs; seen from a point behind all planes every triangle counts the same way.
C125: gathering keeps triangles (C30) and the surfaces of a mesh partition them by texture (C34), all faces of a layer's brushes have its texture (C23); the sides of a fan are the edges of its polygon and pairs.
C126: each entity reached is built once if ids differ (C27), gathering only drops corners and indices, the surfaces of a mesh take disjoint sets of faces, and layers only take brushes away from the worldspawn; for the exponential maps C111 and C118 give the tree, which doubles at each level.
C127: two faces with two common edges have three common corners that are not on a line, hence the same plane; by C123 each edge of a face leads to another face, and these are different; C124 gives one face with three corners.
C128: a direction in which no two corners have the same height; each face has all but two of its corners neither highest nor lowest, and each corner that is neither highest nor lowest of the brush is so in exactly two faces, those met by the edges of the level cut; counting such pairs of faces and corners both ways gives the formula.
C129: a ray meets one plane first, where it leaves the solid for good; C81 gives a triangle there; a point inside a triangle that is on another plane has all corners of the triangle on it, and C72 separates triangles of the same face.
C130: corners and centre are exact (C18), so only the axes and the angle are rounded; two corners of a side seen from its centre are opposite or at an angle whose sine is at least 1/r, so of three corners two turns are clockwise (C105's lemma) and the third is flat; clockwise orders of four points agree up to where they begin.
C131: each vertex stands for a true corner, in clockwise order up to repetitions (C107's lemma); leaving out repetitions gives a convex polygon whose hull is the side, so that the argument of C123 and C128 for exact solids applies to the true corners; the order of a convex polygon is determined by its corners, so neighbours in the polygon are neighbours in the ring.
C132: corners of a side are exact and in clockwise order (C130), so the four vertices are a rotation of a fixed cycle and the two triangles known; the 24 edges of the six cycles cancel by counting; duplicate removal keeps positions, so gathered indices draw the triangles of the faces; the scene is taken apart as for C125.
C133: inserting keeps elements with their places in the order by comparison, then place; that order is a strict one on the elements, so two sorted lists with the same elements are equal; angles are numbers by the bounds of C89 and C105.
C134: the steps from each corner to another of all rings (C131) are a list without repetitions that is closed under reversal, so that area vectors cancel; rings with repeated corners have the same steps as without; moving the corners of a tetrahedron of size m by h changes six times its volume by at most (m + h)^3 - m^3.
C135: the triangles of a shape or a mesh are those of brushes built from lines of one entity, up to order, and the bounds of C134 add up.
C136: a table cell is the length of the longest common subsequence of two prefixes, so a line of the first file is passed over only if no longest one takes it; leaving out the end of the second list as long as that costs nothing never loses later positions, by induction on the length.
C137: NaN passes every comparison in intersect_planes and vertex_in_hull as acceptable, is equal to nothing when duplicates are removed, and spreads through sums, so face, brush and entity centres are NaN and so is everything placed relative to them.
C138: a kept corner would be in front of every plane of the outward brush up to the tolerance; reflected through the point inside it gives a point of the solid too far away, or shows the solid unbounded.
C139: from C42, which says what is read in terms of the bytes stored at addresses; bytes stored are transferred chunk by chunk.
C140: every failure and panic of a stage of the reader is traced to the bytes and sums that cause it; C42, C43 and C47 are the other directions.
C141: geometry reads three other keys only, the tests for membership agree by assumption, and the properties are compared key by key.
C142: every stage commutes with renaming: names are only looked up and compared.
C143: the keys are only read by lookups, each of which is listed.
C144: a reflection is the opposite of a rotation; three mirrored planes meet with two of them exchanged; of lists of the same points whose threes all turn one way, one is the other begun elsewhere.
C145: the corners of a face are the points where its plane meets two others; a plane spans a corner with two others exactly if its back does with the two exchanged; a face covers the side of the solid (C80) and the solid is the union of the parts.
C146: class names are only compared with each other and with worldspawn; a change of names that keeps different names different finds the same definitions.
C147: the lines of the joined text are those of both, with an empty one between if the first ends with a line end; further entities only add nodes (C114).
C148: the corners of each face are exact (C18_partial), the points of a convex shape are the corners of the faces without repetition (C16), and eight corners span a box.
C149: each face covers its side of the solid (C80), a bounded solid is spanned by its sides, and the points of the shape are the corners of the faces (C35).
C150: a corner is where three planes of the brush meet in one point only, so it is no mixture of other points of the solid.
C151: every corner is an extreme point of the side, so it is among the corners of any face that spans it; the order around is unique.
C152: C129 from a point on the line, in both directions.
C153: the two triangles of a face, in the order of C130, together are a parallelogram with axis-aligned edges.
C154: C153, and the box as the solid of six planes in C152.
C155: The permutation of triangles behind C125, the surface of each brush by C129, and the ways of C152.
C156: C149 for the convex shapes, the cover of C155 for the concave one, and leaving a solid along the normal of a plane or from its inside (C129).
C75: parser state and counters in step. C76-C79: congruence and
invariants through the whole pipeline.

Properties false of the code are kept as stated, refuted by a concrete witness
(`..._refuted`), and accompanied by the strongest true variant.

## Trusted base

* The Coq 8.16.1 kernel with `vm_compute`.
* The reading of the Rust sources cited at each definition, and of the libraries below.
* The axioms of the standard library reported by `Print Assumptions`. No other library's axioms, none of our own.
  Of the property theorems:
  * `ClassicalDedekindReals.sig_not_dec`, `ClassicalDedekindReals.sig_forall_dec`,
    `FunctionalExtensionality.functional_extensionality_dep` (the standard real numbers):
    C16_corners, C16_total, C65_uv, C66_tangent, and all theorems of C71 to C74, C80, C81, C94 and C103, C115_beyond, C115_centre, C117_centre, all of C119 and C120, C121_brush, C121_entity, all of C122, C123_shared, C123_once, all of C124, C125 and C127 to C129, C134_exact, C138_exact, all of C144, C145, C149 to C152, C155 and C156;
  * these and `Classical_Prop.classic` (used by Flocq): C07_plane_round_trip_f32, C09_round_trip,
    C09_correctly_rounded, C18_refuted, C18_partial, C18_centre_partial, C19_otherwise, C50_unambiguous, C54_partial,
    C55_unit, C55_monotone, C59_printed_partial, C62_defaults, C82_numbers, C82_unique, C83_operations, C83_signs,
    C83_conversions, C83_constants, C84_shortest, C86_same, and all
    theorems of C89 to C93, C95 to C99, C101, C102 and C104 to C110, C115_beyond_f32, C121_smoothed_refuted, C123_repeated_refuted, all of C130 to C132, C133_written, C134_volume, C134_area, all of C135, C138_floats and all of C148, C153 and C154;
  * `sig_forall_dec` and `functional_extensionality_dep` of these: C83_infinite, C83_exceptions;
  * all others are closed under the global context.

### Read into the model without proof

* glam 0.8.7: vector operators (also with a scalar on either side) act componentwise; `dot` adds x, y, z from
  left to right and `cross` is the usual formula, in the SSE2 build as in the scalar one; only `normalize` and
  negation are distinguished (`p_simd`). `Quat`, `Mat2` rotations are opaque functions.
* `sort_by` is a stable sort. Newer standard libraries may panic when the comparison is not a total order (angles that
  are NaN compare equal to everything); that panic is not modelled (C133: it needs angles of which some are NaN and some are not).
* nom 5: `anychar` on bytes is Latin-1; the streaming/complete distinction only matters for running out of bytes,
  which is an error either way.
* rayon: `par_iter().map().collect()` keeps the order and stops with some error or panic; the model runs the tasks in the
  order of an arbitrary schedule (C45).
* `f32::to_string`/`parse`: shortest digits that read back, correctly rounded reading.
* `std::fs`: a file is unreadable or a fixed list of bytes; `usize` is 64 bits.

### Parts of the code

Modelled: every function of `src/` outside tests except the following.
Not modelled: log messages and the wording
of errors, plain constructors (`new`) whose
record is written directly, derived `Clone`, memory and stack limits (the recursion of `build_entity` takes fuel).

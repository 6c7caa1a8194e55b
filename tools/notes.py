NOTES={
"C01":("proved","lines and tokens specified independently (lines_spec, token_spec); panic iff a line starting with a quote has fewer than three quotes"),
"C02":("proved","any line of any file, plus the one-line file"),
"C03":("proved","token level for any number type, and from file text for f32"),
"C04":("proved","acceptance iff, first offending token decides the failure, case analysis is exhaustive"),
"C05":("proved","token and text level"),
"C06":("proved","token and text level; the whole result is equal, including failures"),
"C07":("proved","generic in the number type, and for every finite f32 printed by Rust's formatter"),
"C08":("proved","readable iff plane_words; all failure cases; a single unparsable extra word panics (Hexen 2)"),
"C09":("proved","-0.0 needs the sign to be printed (Rust 1.53+); otherwise it reads back as +0.0 (C09_negative_zero)"),
"C10":("proved","token sequences; text level follows from C01"),
"C11":("proved","longest_common and selected are specified by induction on lists, independent of the table"),
"C12":("proved",""),
"C13":("partial","false as stated: a last token that does not occur before it is reported on both sides (C13_self_diff_refuted); C13_self_diff_partial gives the exact result for every file"),
"C22":("proved",""),
"C23":("proved",""),
"C24":("proved",""),
"C41":("proved","decoders characterised as the exact inverse of a little-endian byte layout; anychar on bytes is assumed to be Latin-1"),
"C42":("proved","exact characterisation of a successful one-level read, both build profiles"),
"C43":("proved","in builds with overflow checks an overflow panic can come first"),
"C44":("partial","false: reading two or more levels of any non-empty texture panics (C44_levels_panic, C44_levels_refuted); C44_levels_partial: success only for textures without pixels"),
"C45":("proved","every permutation of the tasks; when several tasks panic the payload may differ"),
"C46":("proved",""),
"C47":("proved","release profile: exact characterisation with addresses modulo 2^32"),
"C48":("proved",""),
"C49":("partial","false for entry names with upper case letters (C49_whitelist_refuted); C49_whitelist_partial holds for WADs with lower-case names"),
"C50":("proved","a separate reader recovers the visible data; text equality iff agreement up to the omitted information listed in GameDataSpec.agree"),
"C51":("proved","includes the release-profile behaviour for 32 or more flags"),
"C52":("proved",""),
"C55":("proved",""),
"C56":("proved","C56_empty shows the non-emptiness hypothesis is needed"),
"C57":("proved",""),
"C61":("proved","by evaluation of all 256 values"),
"C30":("proved",""),
"C31":("proved",""),
"C32":("partial","false as stated (C32_refuted): a corner that has an earlier equal in its brush is redirected to the first vertex of the brush at its position, which may have other attributes. C32_partial says exactly which vertex each corner gets; C32_same_attributes_partial gives the claim when equal positions within a brush mean equal vertices"),
"C33":("proved","the presence of texture coordinates is stated for geometry whose faces carry coordinates exactly when they have a texture size"),
"C34":("proved",""),
"C35":("proved",""),
"C25":("proved","termination is stated as: recursion depth length data suffices, and larger depths give the same result"),
"C26":("proved",""),
"C27":("proved",""),
"C28":("partial","false as stated (C28_refuted: an entity whose group id does not exist is lost); C28_partial proves it when group links from every entity lead to a root"),
"C29":("proved",""),
"C38":("proved","C38_no_class: entities without classname panic"),
"C39":("proved",""),
"C40":("proved","root origins up to the sign of zero"),
"C36":("partial","all kinds but flags; flags arrive as choices (C37_refuted); C36_total: an unreadable _tb_id or _tb_group panics"),
"C37":("partial","false: C37_refuted; C37_partial: delivered as choices with the right number"),
"C53":("partial","false: C53_refuted; C53_partial says exactly when it holds"),
"C54":("partial","false: C54_refuted; C54_partial: of colours in [0,1] only black agrees"),
"C60":("proved",""),
"C62":("proved",""),
"C14":("proved","any arithmetic"),
"C15":("proved","the corner set is characterised exactly: one corner for each meeting point up to =="),
"C16":("proved","including degenerate planes; the transcendental functions are arbitrary"),
"C17":("proved","angles as returned by the platform's atan2, not NaN"),
"C18":("partial","false for the scalar build of glam (C18_refuted: 41 times the rounded reciprocal of 41 is not 1); C18_partial: true for the SSE2 build (default on x86-64) and for cross products of length a power of two; coordinates up to 2^20, products of plane edges below 2^23; C18_centre_partial for the brush centre"),
"C19":("proved","any two of the three points may coincide; C19_exact: building succeeds exactly when all planes with standard texture coordinates have finite normals"),
"C20":("proved","any arithmetic"),
"C21":("proved",""),
"C63":("proved","any arithmetic"),
"C64":("proved",""),
"C65":("proved","2x2 rotation and degree conversion arbitrary"),
"C66":("proved","quaternion rotation and degree conversion arbitrary"),
"C58":("proved","stack depth is the only resource modelled; allocation failure is not"),
"C59":("partial","false as stated (C59_refuted: non-integer id on a declared class; C19_panics: degenerate plane); C59_partial: holds with integer ids on declared classes and readable planes with finite normals; C59_printed_partial: for printed maps"),
"C67":("proved",""),
"C68":("proved",""),
"C69":("proved","loading itself is characterised by C01 to C13 and C58"),
"C70":("proved","both inputs are compared without their last tokens, as in C11"),
"C71":("proved","real arithmetic; corners within the tolerance in front of a plane are excluded by the hypothesis"),
"C72":("proved","real arithmetic, same hypothesis as C71"),
"C73":("proved","real arithmetic"),
"C74":("proved","real arithmetic"),
"C75":("proved",""),
"C76":("proved",""),
"C77":("proved","the iteration order of the layer map is any permutation of it"),
"C78":("proved","all plane lines readable"),
"C79":("proved",""),
"C80":("proved","real arithmetic; conditions on flat and cut off corners are hypotheses, C80_wedge shows the first is needed"),
"C81":("proved","real arithmetic, conditions of C80; brushes without inner point need three corners on each side"),
"C82":("proved",""),
"C83":("proved","cos, atan2, degree conversion and rotations stay parameters"),
"C84":("proved","as Display for f32 prints; the tie between two closest decimals is not fixed"),
"C85":("proved","plane textures with Latin-1 names"),
"C86":("proved","the file system is a map from paths to contents; the system decides whether a write succeeds"),
"C87":("proved",""),
"C88":("proved","Rust 1.37 or later; the progress lines of the tokenizer are left out"),
"C89":("proved","planes through whole points whose direction is computed exactly"),
"C90":("proved","planes through whole points whose direction is computed exactly"),
"C91":("partial","false in general: a tetrahedron with whole corners within 4096 of the origin and determinant 0.49 loses a corner and the face its triangles (C91_corners_refuted); holds where 2^-19 * distances / determinant is below the tolerance 0.001"),
"C92":("partial","false in general: each side of a pyramid on a square 4 wide and 3 high has the top twice (C92_corners_refuted); holds where each corner belongs to one pair of planes and no decision is closer than rounding"),
"C93":("partial","false in general: faces of a tetrahedron with whole corners up to 64 differ in their common corner (C93_shared_refuted); the gap is at most twice the rounding of a corner"),
"C94":("partial","false in general: a plane that does not touch the brush adds a face without corners whose centre is the origin, which moves the brush's centre out of a cube (C94_refuted); holds when every face has a corner; faces and entities without exception"),
"C95":("proved","planes through whole points whose direction is computed exactly"),
"C96":("partial","false in general: at the tip of a blade the sum of the normals faces into the brush (C96_refuted); holds with a smoothing angle whose cosine is not negative, and where planes meet at blunt angles"),
"C97":("proved","planes through whole points whose direction is computed exactly; the map file is a document"),
"C98":("proved","planes through whole points whose direction is computed exactly; the map file is a document"),
"C99":("proved","planes through whole points whose direction is computed exactly; the map file is a document"),
"C100":("proved","archives below 4 GiB with palettes of 256 colours; archives laid out otherwise: C41 to C49"),
"C101":("proved","planes through whole points whose direction is computed exactly; scales, offsets, sizes in stated ranges; the machine's rotation is given by its error"),
"C102":("proved","map files whose planes go through whole points; the error is measured with the size of the surface"),
"C103":("partial","refuted as stated: turned standard textures and mirrored ones have tangents that do not go with the texture coordinates; proved for the other cases, with the exact deviation for turned ones on planes facing along an axis"),
"C104":("proved","centres of faces, brushes and entities; hypotheses: grid planes, at most 4000 planes per brush, fewer than 2^24 brushes"),
"C105":("proved","hypotheses: grid planes, clear and simple corners (C92), accurate atan2, spread corners; for the computed points also no three nearly in line; C105_dent: a triangle turned over without them"),
"C106":("proved","hypotheses: grid documents; clockwise for well shaped sides"),
"C107":("proved","hypotheses: grid documents; sides well shaped and bounded"),
"C108":("proved","hypotheses: grid documents; finite brushes without close calls"),
"C109":("proved","bounds assume centres up to 2^60; C109_mean: grid documents"),
"C110":("proved","hypotheses: whole points, no close calls, corners spread for every choice of pairs; strengthens C105 and C107"),
"C111":("proved","whole tree of a run but for shapes; flags arrive as choices, as in C37"),
"C112":("proved","for successful runs; which panic comes first may depend on the order"),
"C113":("proved","C35_blacklists: the second run succeeds only if the first does"),
"C114":("proved","for successful runs of the larger map"),
"C115":("proved","planes with a texture of their own, which add a surface without triangles or change what is hidden, are not covered"),
"C116":("proved","places of corners are equal as f32 numbers compare (a zero may change its sign where corners are merged); changes between the two kinds of texture coordinates can turn success into failure and are not covered"),
"C117":("proved",""),
"C118":("proved",""),
"C119":("proved","over the real-number instance; layers are taken in the order they are made (other orders permute them); standard-format planes: no claim on tangents and texture coordinates, for which the program chooses projection axes of the world"),
"C120":("proved","over the real-number instance"),
"C121":("proved","over the real-number instance; the counterexample for smoothed normals in f32"),
"C122":("proved","over the real-number instance; the condition on the tolerance is needed (refuted without it)"),
"C123":("proved","over the real-number instance; the uniqueness refuted for a brush with a side given twice"),
"C124":("proved","over the real-number instance"),
"C125":("proved","over the real-number instance, from the planes of the map to the tree"),
"C126":("proved","memory itself is not modelled: sizes are numbers of nodes, corners and indices; the exponential maps declare no classes in the FGD, since their ids need not fit an i32"),
"C127":("proved","the bound on corners improves that of C126 (n*n) for brushes without defects"),
"C128":("proved","the same hypotheses as C123 and C124; lists of corners and edges exist for every such brush"),
"C129":("proved","together with C124, whose volume is the sum over these pyramids, this says that the volume is that of the solid; measure itself is not formalised"),
"C130":("proved","the single precision counterpart of C123 for boxes; as in C18 the scalar build needs planes whose cross product has a length that is a power of two"),
"C131":("proved","the single precision counterpart of C123 and C128 for general brushes; every plane must contribute a side with three corners (part of C107's condition)"),
"C132":("proved","the single precision counterpart of C125 for boxes, for whole runs from the bytes of the map file; exact, without allowance for rounding"),
"C133":("proved","justifies that the model sorts by insertion; the order of corners with equal angles is part of it (C17 leaves it open)"),
"C134":("proved","over real numbers C124, for integer boxes C130; here for all shapes of brushes in single precision. The bound is on six times the volume"),
"C135":("proved","C132 is the exact version, for maps of integer boxes; here brushes may have any shape. Which brushes of the entity are in the shape or mesh is not said here; C98, C99 and C106 do"),
"C136":("proved","C11 leaves open which longest common subsequence is kept; here the result is determined"),
"C137":("proved","complements C19, which shows that the same planes stop the run when they have standard coordinates"),
"C138":("proved","planes with points that are not whole are covered by the exact version only"),
"C139":("proved","one mip level except for the order of names; with more levels reading panics on all but degenerate sizes (C44)"),
"C140":("proved","one mip level; C44 says what happens with more"),
"C141":("proved","names are compared as texts: 7 and +7 give the same property value but are different groups (C141_numbers_refuted)"),
"C142":("proved","names are compared after the conversion to lower case that the reader does (C85)"),
"C143":("proved","equality of outcomes, failures included, for maps whose planes can be read; the loading of the map does not depend on keys at all"),
"C144":("proved","exact arithmetic; texture coordinates and smoothed normals are left out, and the layout of textures on the mirrored planes may be any"),
"C145":("proved","exact arithmetic; texture coordinates and normals are left out"),
"C146":("proved","success and result; which error or panic is reported is not compared. An example shows that the condition on declarations is needed"),
"C147":("proved","complete files: every entity and brush is closed; an unfinished first file is not covered"),
"C148":("proved","single precision; no rounding error at all, in contrast to C108, which holds for all brushes without close calls"),
"C149":("proved","exact arithmetic; C108 says how much rounding changes and C148 that it changes nothing for integer boxes"),
"C150":("proved","exact arithmetic; follows that planes that cut nothing off (C115) add no points to the shape"),
"C151":("proved","exact arithmetic; textures, normals, tangents and uv of faces depend on the planes, so they are not part of the claim"),
"C152":("proved","exact arithmetic; a line that misses the inside may run along a face, so it is left out of the even-odd rule"),
"C153":("proved","same assumption about the platform's angles as C130"),
"C154":("proved","same assumption about the platform's angles as C130; what a physics engine makes of the triangles is not modelled"),
"C155":("proved","exact arithmetic with any angle function ordering directions around a point; C153 and C154 are the single-precision counterpart for integer boxes"),
"C156":("proved","exact arithmetic with any angle function ordering directions around a point"),
}

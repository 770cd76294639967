# Formal model of rqrr 0.10.1 in Rocq (Coq 8.16.1)

## Approach

The Rust code is read as text and re-written, function by function, as total computable Gallina
functions.  `Result`/`Option` stay data.  A panic (failed `assert!`, out-of-bounds index, integer
underflow/overflow of the debug profile, `unwrap` on `None`, division by zero) is the explicit value
`Panic`.  A loop that is not structurally bounded runs on fuel and yields `Diverge` when the fuel is
exhausted, so "returns `Ok`" excludes both.  A function that mutates through `&mut` returns the new
value.  Every definition of a `Model*.v` file names the lines of /repo it transcribes and states there
what it simplifies.

Specifications are separate files (`Spec*.v`) which do not import the model: the symbol layout and the
encoder of ISO/IEC 18004, a reference decoder for bit streams, 4-connectivity, runs and finder ratios,
running means, lattice lines, pictures of symbols.  Six of them are exceptions and do import model files, because their
statements speak of grids, images, transforms or calls of the model: `SpecBuffer`, `SpecCalls`, `SpecClimb`,
`SpecFit` (which also imports `FloodProofs`), `SpecLook`, `SpecNeeded`.

The theorems named in MANIFEST.json are in the `Prop*.v` files.  Each has a one-line proof that refers to
a lemma of the `*Proofs.v` files, its `Print Assumptions`, and a concrete case that meets its hypotheses
(`C.._example`, `C.._case`).

## Files

| Layer | Files |
|-------|-------|
| Rust control flow | `Base` (outcomes, arrays, loops), `Lib` (lemmas) |
| Model | `VersionDb` (version_db.rs), `ModelGF` (crate g2p), `ModelRS` (decode.rs, error correction), `ModelDecode` (rest of decode.rs; grids of lib.rs), `ModelImage` (prepare.rs), `ModelGeometry` (geometry.rs), `ModelDetect` (detect.rs), `ModelIdentify` (identify/, `detect_grids`, `find_groupings`), `ModelOutput` (texts of errors, debugging pictures), `ModelBuffer` (the functions that touch pixels, for any image buffer), `ModelCalls` (the operations that take a function, for functions that remember things), `ModelLook` (reading and decoding a grid that remembers things) |
| Specification | `SpecQR`, `SpecPayload`, `SpecImage`, `SpecThreshold`, `SpecScan`, `SpecFinder`, `SpecGeometry`, `SpecIdentify`, `SpecLocate`, `SpecPicture`, `SpecChanges`, `SpecReading`, `SpecSheet` |
| Decoding: Reed-Solomon | `GFProofs`, `GFField`, `RSTransport`, `RSProofs`, `RSBytes`, `RSEncode`, `RSFacts`, `RSNearest`, `RSBeyond`, `PropRS` |
| Decoding: layout, format, streams | `CountProofs`, `EccDb`, `EccProofs`, `EccStream`, `FormatProofs`, `LayoutProofs`, `StreamProofs`, `RawProofs`, `V21Proofs` |
| Decoding: payload | `PayloadProofs`, `MessageProofs`, `PropPayload` |
| Decoding: whole symbols and arbitrary grids | `EndToEnd`, `EncodeProofs`, `SymbolProofs`, `Refuted`, `GridProofs`, `ExtProofs`, `PropSymbol`, `PropGrid` |
| Images: preparation, regions, histories | `FloodProofs`, `RegionProofs`, `PrepareProofs`, `ThresholdProofs`, `HistoryProofs`, `ImageFacts`, `LitProofs`, `PropImage`, `PropThreshold` |
| Images: finder patterns | `ScanProofs`, `CornerProofs`, `DetectProofs`, `SearchProofs`, `CenterProofs`, `FinderProofs`, `FinderFacts`, `PropDetect` |
| Geometry | `ExactProofs`, `GeometryProofs`, `FloatProofs`, `PropGeometry` |
| Grouping and location | `NeighborProofs`, `IdentifyProofs`, `SpiralProofs`, `SampleProofs`, `LocateProofs`, `PropIdentify` |
| From a picture to the message | `ApproxProofs`, `FrameProofs`, `FitnessProofs`, `JiggleProofs`, `JiggleTotal`, `SquareProofs`, `TurnProofs`, `PatternProofs`, `GroupProofs`, `OrientProofs`, `TimingProofs`, `AlignProofs`, `WholeProofs`, `DrawProofs`, `RenderProofs`, `PictureProofs`, `DotProofs`, `DottedProofs`, `LargeProofs`, `PaperProofs`, `PropPicture`, `PropDots`, `PropLarge`, `PropPaper` |
| Several symbols in one picture | `SheetSearch`, `SheetGroup`, `SheetProofs`, `SheetRender`, `SheetOrder`, `SheetScan`, `PropSheet`; symbols lost to each other: `SheetLost`, `PropLost`, `SpecTable`, `TableProofs`, `PropTable`; labels on light paper: `SpecPaperSheet`, `PaperSheetProofs`, `PropPaperSheet` |
| Fitting a transform to the picture | `SpecFit`, `SpecClimb` (statement), `FitProofs`, `ClimbProofs`, `AffineFit`, `PropFit` |
| How much a symbol can hold | `SpecHold` (statement), `HoldProofs`, `PropHold` |
| The text a message stands for | `SpecText` (statement), `TextProofs`, `PropText` |
| Which modules decoding looks at | `SpecNeeded` (statement), `NeededProofs`, `PropNeeded` |
| What follows the message | `SpecPadding` (statement), `PaddingProofs`, `PropPadding` |
| Symbols seen the wrong way round | `SpecMirror` (statement), `MirrorProofs`, `PropMirror` |
| What is decoded is what the picture shows | `ShownProofs`, `PropShown` |
| Any image buffer | `SpecBuffer` (statement), `BufferProofs`, `AnyBuffer`, `PropBuffer` |
| Functions of the user's | `SpecCalls` (statement), `CallProofs`, `PropCalls` |
| Grids of the user's | `SpecLook` (statement), `LookProofs`, `PropLook` |
| How many grids there can be | `SpecCount` (statement), `RoomProofs`, `PropCount` |
| Scanning ends on every picture; scanning twice | `TotalProofs`, `PropTotal`, `AgainProofs`, `PropAgain` |
| The count along the timing patterns | `ChangesProofs`, `PropChanges` |
| What is answered, what is shown | `ReadingProofs`, `OutputProofs`, `PropReading` |
| Tests of the model | `Validate` (the three grids of the project's own tests) |

## How the properties are proved

| Ids | Method |
|----|-------|
| C01, C02, C21 | composition of C03, C05, C09, C11, C14-C18, C23 against the encoder of `SpecQR` |
| C03, C04 | the code is generic over the field; transported to a mathcomp field; Massey's invariant, key equation, Forney's formula |
| C05, C06, C44 | linearity: a sweep over the 1024 cosets covers all 2^15 words |
| C07, C08, C12, C13, C20, C25, C26, C55 | case analysis and induction over the model, for every grid |
| C09-C11, C22 | trace of the zigzag loop; the 40 geometries column by column |
| C14-C19 | refinement of a reference decoder on bit lists, for every writer |
| C23, C24 | finite table (160 entries); the bound is part of the statement |
| C27, C28, C45, C48, C56 | loop invariants; the running means in closed form |
| C29-C31, C52 | component invariant over every history of operations |
| C32-C37, C46, C47 | scanner invariant, component abstraction; the centre in binary64 |
| C38-C40, C49 | exact rational arithmetic; integer arithmetic; induction along the line |
| C41-C43, C50, C51 | induction over the search, permutation and sortedness; computed witnesses |
| C53, C54 | error bounds for the binary64 transforms of squares; the fitness of the exact transform is maximal, so the adjustment keeps it; composition with C46, C45 and C01/C02/C21 |
| C57 | the dark modules of the patterns and the dots are separate regions; none but the finder patterns has their runs |
| C58 | every loop's fuel exceeds its measure (line length left, legs of the spiral, pixels not yet painted); a grid whose modules may panic behaves like one that answers, or panics |
| C59 | the intersection of the two axis-parallel edges computed exactly, with its overflow; the panic carried through grouping and detection |
| C60 | any eight modules of a row have a light one or three drawn as dots; counted over the window of the running means, with the quiet zones at its ends |
| C61 | claims only grow, through region lookups, evictions, painting and cloning; so no pattern is accepted again |
| C62 | induction along the walk; colour bytes of one component agree |
| C63 | minimality of the register length against the locator of any word of the code; number of roots; linearity |
| C64 | C06, C63 and the gathering of the blocks composed for arbitrary modules; the order of the two readings |
| C65 | loop invariant over the pixels drawn; component invariant of C29 |
| C66 | the claims a symbol's location makes stay within its square, so the finder patterns of the others stay as found; induction over the corners in the order they are found, with the pairs that may be tried |
| C67 | the pattern where the wrong group begins comes before the corners of the symbols; its timing lines cross blank paper, which gives 17 modules, a size for which no alignment pattern is looked for; afterwards every pair that may be tried includes a pattern already used |
| C68 | the loops inverted to a sum over a list of modules, a permutation of the list of the statement; loop invariant: the score kept is that of the transform kept |
| C69 | two groups share at most a corner, and each has two sides of its own: the sides and one corner are all different patterns, which the search claims on different regions |
| C70 | induction over the reference decoder: every byte costs at least ten thirds of a bit and every segment that gives one its header |
| C71 | the first copy of the format lies symmetrically about the diagonal, so it is read backwards; sweep over the 32 format words; a witness found by linear algebra over the two Reed-Solomon codes |
| C72 | decoding a grid with unreadable modules equals, unless it panics, decoding any grid that fills them in; then C64 and C52 |
| C73 | with the corner of the first symbol three pairs of patterns are squares: its own, the far patterns of its neighbours, and the corners of its neighbours; the last is refused because the fourth symbol's corner pattern, already claimed, stands where the alignment pattern should be; the timing lines of the second cross two symbols and the white between them, which counts to `8 * v + 25` whatever the distance; whichever is ranked first, the other two patterns of the other are still free |
| C74 | simulation: function by function, the two prepared images hold the same pixels and the same cache; every pixel the code asks for lies within the picture (the scanner's run lengths, the regions in the cache and the spans of the flood fill stay within it), so nothing depends on what a buffer does outside |
| C75 | the two loops are one over the places row by row; induction over what is left of it |
| C76 | the loops over the format and data modules are one list of questions; the answers to a list without repetitions are those of a picture; the result for a picture is computed by the same questions put to the grid that shows it |
| C77 | along a row of pixels, tiles of eight modules of a symbol, of the end of a symbol and a module of paper, or of paper: each has the light the running means need (the numbers are those of C60) |
| C78 | the reference decoder stops at the terminator; for one block, interleaving does nothing and the module of each data bit is known |
| C79 | the UTF-8 form of the text is at least as long as the bytes of the message, segment by segment; equal lengths leave only ASCII, and two-byte characters whose first byte is none of Shift JIS |
| C80 | the readers skip the function patterns (C22) and the format's modules are known; both sets are symmetric, so the transposed reading asks for the same ones |

A property whose statement is false for the code is stated as found and refuted: the theorem's name ends
in `_refuted`, and a sibling theorem says what does hold (C08, C22, C24, C37, C43, C44, C49, C51, C62, C63, C67, C71, C79, C80).

## Vocabulary of the statements about pictures (C53, C54, C56, C57, C59, C60, C66, C67, C73)

* `legible w h col v sym m ox oy r`: the picture `col` shows the symbol of version `v` with `m` x `m` pixels
  per module, its corner at (`ox`, `oy`), turned by `r` quarter turns: the modules of the finder, timing and
  alignment patterns (`pattern_module`) are entirely right, the others in their middle (`central`: within one
  pixel of the centre), and the pixels around the finder patterns are white as far as the picture reaches.
* `shows`: the same with all pixels of all modules right and white all around; it implies `legible`.
* `clear_picture`: the above, for a symbol with the function patterns of its version (not 21), at least two
  pixels per module, at most 32768 pixels wide and high, the 32-bit product in
  `line_intersect` small enough (`furthest`; C59 shows the limit exact), and no other place that looks like a finder pattern to a search by rows.
* `plain`: the last condition in terms of the modules, for a symbol drawn on white.
* `dotted`: the symbol drawn with solid patterns and square dots for the other modules; nothing in such a
  picture but the finder patterns looks like one, so `plain` is not needed.
* `clear_sheet`: several symbols as in `clear_picture`, their squares disjoint, and `orderly`: no three
  finder patterns still unused when a pattern is tried as a corner make nearly a square, but those of one symbol (or ones less square
  that include one of them).  Rows and columns of equal upright symbols are orderly, however close; so are symbols of any sizes and
  turns along a strip, far enough apart.  Four equal symbols two by two are not (`C66_not_orderly`).
* `fair_sheet`: the same without `orderly`; `astray`: three symbols so placed that none is found (C67); `table`, `close_by`: four symbols in two rows of two (C73).
* `two_toned`: every pixel is light (241 to 255), or dark with a bright enough neighbourhood in its row.

Left out: pictures that are rotated by other angles, sheared, in perspective or scaled by a fraction, and
sheets of several symbols that are not orderly (but for the arrangements of C67 and C73).

## Trusted base

* Coq's kernel, with `vm_compute`.
* Axioms.  `Print Assumptions` answers "Closed under the global context" for all theorems and examples of
  the `Prop*.v` files except the seventy-eight that reason about binary64 numbers through real numbers:
  C34_claimed_once, C36_search_returns, C42_groups, C46_bitmap, C46_greyscale, C46_example, C47_center,
  C47_exists, C53_bitmap, C53_greyscale, C54_symbol, C54_greyscale, C54_rendered, C54_damaged, C54_mirrored,
  C54_example, C54_damaged_example, C56_scan, C56_example, C57_middles, C57_dotted,
  C57_example, C57_middles_example, C59_bitmap, C59_greyscale, C59_dotted, C59_example,
  C59_greyscale_example, C60_scan, C60_example,
  C61_again, C61_bitmap, C61_greyscale, C61_example, C66_bitmap, C66_greyscale, C66_scan,
  C66_scan_greyscale, C66_messages, C66_example_row, C66_example_strip,
  C67_astray, C67_messages, C67_example, C67_every_symbol_refuted,
  C68_affine, C68_adjusted, C68_climbed, C69_room, C69_none, C69_bitmap, C69_greyscale, C69_lone, C69_three,
  C70_scanned, C70_bytes, C70_digits, C70_longest,
  C71_two_texts, C71_every_mirror_image_refuted, C71_sheet, C71_sheet_greyscale, C71_example_sheet, C72_example, C73_bitmap, C73_greyscale, C73_messages, C73_example, C73_row, C74_message, C74_example,
  C77_scan, C77_row, C77_column, C77_example, C77_column_example, C78_scan, C78_example_scan.  These use four axioms of Coq's standard library, which come with its classical real numbers, and no others:
  `ClassicalDedekindReals.sig_not_dec`, `ClassicalDedekindReals.sig_forall_dec`,
  `FunctionalExtensionality.functional_extensionality_dep`, `Classical_Prop.classic`.
  The libraries mathcomp and Flocq are used; they add no axioms.
* The reading of the Rust source recorded in the comments of the `Model*.v` files.

## What is modelled, and how

* `decode.rs`, `detect.rs`, `geometry.rs`, `prepare.rs`, `identify/`, `version_db.rs`: all functions outside
  `#[cfg(test)]`.  `lib.rs`: `Grid::{new, decode, decode_to, get_raw_data}`, `SimpleGrid`, `MirroredGrid`,
  `DeQRError` and its `Display`, `BitGrid::write_grid_to` (up to the saving of the file).
* Integers: `usize` is 64 bits wide.  Overflow and underflow panic (debug profile) where the code computes;
  `as` casts wrap or saturate as in Rust.
* `f64`: IEEE 754 binary64 with round to nearest even, the `SpecFloat` of the standard library.  The
  floating point type is a parameter of the model; C38 uses the rational numbers for it.
* `ImageBuffer`: the library's own `BasicImageBuffer` (row-major bytes); `ModelBuffer` repeats every function that
  touches pixels for an arbitrary implementation of the trait, and C74 shows that every lawful one (it keeps what is
  written to it; its `clone` is equal to it) gives the same results, the adapter for the crate `image` among them.
* `g2p` (field arithmetic): carry-less multiplication modulo the stated modulus, generator `x`.
* `lru`: a recency-ordered association list.
* `sort_unstable_by`: any function that does what the standard library promises (class
  `Sorter`): it ends, its result is a permutation, and when the comparison is a total order
  there is a result, in order.  The order of equal scores is left open.  Every theorem about
  grouping or detection is quantified over such functions; C50 proves that the scores are
  totally ordered and `C50_sort` that there is such a function (insertion).
* `String::from_utf8`: the well-formedness table of the Unicode standard.
* `Write`: an arbitrary state machine that accepts or refuses each write.
* `BitGrid::bit` of a user type: a pure, possibly panicking function in `ModelDecode`; `ModelLook` takes any that remembers
  things, and C76 reduces these to pure ones.  `size` is a constant.
* The functions passed to `prepare_from_bitmap`, `prepare_from_greyscale` and `SimpleGrid::from_func`: pure in the
  model; `ModelCalls` takes any that remember things or panic, and C75 reduces these to pure ones.

Not modelled: saving pictures to files and the inside of the crate `image` (feature `img`), memory exhaustion (requests above
`isize::MAX` bytes, which panic, among it), run time.

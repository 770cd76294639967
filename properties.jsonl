{"id": "C01", "title": "Undamaged symbol round-trips", "statement": "Decoding the module grid of a standard-conforming QR symbol (any version the library supports, any error-correction level, any mask, any sequence of numeric/alphanumeric/byte/kanji/ECI segments that fits) returns exactly the encoded bytes and the symbol's version, level and mask.", "quantifier": "every version 1-40, every level, every mask, every segment list that fits the capacity", "why_tests_cant": "The space of payloads, versions, levels and masks is unbounded/huge; tests decode a handful of images.", "anchors": ["src/decode.rs: decode, get_raw, read_format, read_data, codestream_ecc, decode_payload", "src/lib.rs: Grid::decode_to", "src/version_db.rs: VERSION_DATA_BASE"]}
{"id": "C02", "title": "Codeword errors up to the capacity are corrected", "statement": "If, in each Reed-Solomon block of the symbol, the damaged codewords together with the codewords the library itself reads from a wrong place number at most floor(ecc/2), decoding still returns exactly the encoded bytes and metadata. Outside version 21 nothing is misread in the short blocks and one codeword in each long block, so the standard's full capacity is available in every block of symbols with equal block lengths.", "quantifier": "every symbol as in C01 and every damage pattern within the bound", "why_tests_cant": "The number of error patterns is astronomically large; correctness rests on Berlekamp-Massey and Forney being right for all of them.", "anchors": ["src/decode.rs: correct_block, block_syndromes, berlekamp_massey, eloc_poly, poly_eval, poly_add"]}
{"id": "C03", "title": "Block correction restores the unique codeword within distance t", "statement": "For every block length up to 255 and every even or odd number of parity bytes below the block length, correcting a received block that differs in at most floor(parity/2) bytes from a Reed-Solomon codeword succeeds and yields that codeword.", "quantifier": "every codeword, every block geometry accepted by the decoder's fixed 64-entry arrays, every error pattern of weight <= t", "why_tests_cant": "Cannot enumerate 256^n blocks or the error patterns.", "anchors": ["src/decode.rs: correct_block, berlekamp_massey, eloc_poly, block_syndromes"]}
{"id": "C04", "title": "An accepted block is always a codeword", "statement": "Whenever block correction reports success, the resulting block satisfies every parity equation of its Reed-Solomon code; whenever it cannot reach such a block it reports DataEcc. A block already satisfying all parity equations is returned unchanged.", "quantifier": "every byte block and every block geometry in the version table", "why_tests_cant": "Tests see only a few corrupted images; the guarantee is about every possible corrupted block.", "anchors": ["src/decode.rs: correct_block, block_syndromes"]}
{"id": "C05", "title": "Format information survives any three bit errors", "statement": "If the first copy of the format information has at most 3 wrong modules, the reported level and mask are the encoded ones; if the first copy is rejected as uncorrectable and the second copy has at most 3 wrong modules, they are still the encoded ones.", "quantifier": "all 32 format values, all error patterns of weight <= 3, both copies, every grid size >= 21", "why_tests_cant": "32 x 576 patterns x grids; unit tests check a few.", "anchors": ["src/decode.rs: read_format, correct_format, format_syndromes"]}
{"id": "C06", "title": "Format correction is characterised exactly", "statement": "Format correction accepts a 15-bit word exactly when some valid format codeword differs from it by at most three bits or by one of 18 fixed patterns of four or five bits; it then returns that codeword, which is a nearest one, and otherwise reports FormatEcc.", "quantifier": "all 32768 words", "why_tests_cant": "No test enumerates the words; acceptance of words beyond distance 3 would silently yield wrong metadata.", "anchors": ["src/decode.rs: correct_format, format_syndromes, berlekamp_massey"]}
{"id": "C07", "title": "Decoding never panics on a readable grid", "statement": "For every grid of size at least 9 whose bit() is defined for in-range coordinates, Grid::decode, Grid::decode_to and Grid::get_raw_data return Ok or Err - no index out of bounds, no arithmetic underflow, no failed assertion, no division by zero and no endless loop.", "quantifier": "every grid size >= 9 (including sizes that are not 4v+17) and every module content, every writer", "why_tests_cant": "Panics hide in rare content: needs all 2^(n*n) grids.", "anchors": ["src/decode.rs: whole file", "src/lib.rs: Grid"]}
{"id": "C08", "title": "Tiny grids", "statement": "Decoding a grid too small to hold a QR symbol returns an error instead of panicking. (Refuted: a SimpleGrid of size 0..8 makes decode panic with an out-of-bounds index.)", "quantifier": "every SimpleGrid of size <= 8", "why_tests_cant": "A property about all contents of all small grids; no test touches them.", "anchors": ["src/decode.rs: read_format", "src/lib.rs: SimpleGrid::bit"]}
{"id": "C09", "title": "Data modules are read once each, in the standard order", "statement": "The raw bit stream returned for a grid of version v consists of exactly the modules that are not function patterns (finder, separator, timing, alignment, format, version information), each exactly once, in the standard's two-column zigzag order starting at the bottom-right module.", "quantifier": "every version 1-40 except 21, every grid content", "why_tests_cant": "Order and coverage must hold for every version's geometry; tests cover three versions.", "anchors": ["src/decode.rs: read_data, reserved_cell", "src/version_db.rs: apat"]}
{"id": "C10", "title": "Raw data length", "statement": "The raw stream of a version-v grid holds exactly 8*total_codewords(v) plus the standard's 0, 3, 4 or 7 remainder bits, always fits the fixed buffer, and every bit after the stream's length is zero.", "quantifier": "every version and every grid content", "why_tests_cant": "Buffer-bound argument over all versions and non-standard grid sizes.", "anchors": ["src/decode.rs: RawData::push, read_data, MAX_PAYLOAD_SIZE"]}
{"id": "C11", "title": "Raw data is the image's bits; decoding removes exactly the declared mask", "statement": "get_raw_data returns each data module's bit unchanged; the stream used for decoding is that stream XOR the standard mask pattern selected by the metadata, module by module.", "quantifier": "every grid, all eight masks, every coordinate", "why_tests_cant": "Tests check the mask on a 7x7 corner only.", "anchors": ["src/decode.rs: get_raw, read_bit, mask_bit", "src/lib.rs: Grid::get_raw_data"]}
{"id": "C12", "title": "Metadata is in range", "statement": "Whenever decoding or raw reading succeeds, version is the one whose size brackets the grid size (1..40), ecc_level is in 0..3 and mask in 0..7.", "quantifier": "every grid", "why_tests_cant": "All inputs.", "anchors": ["src/decode.rs: MetaData, read_format, Version::from_size"]}
{"id": "C13", "title": "Version and size conversions", "statement": "from_size(to_size(v)) = v for v in 1..40; from_size accepts exactly sizes 21..180 and is monotone, returning InvalidVersion elsewhere; the sizes given version v are exactly to_size(v) .. to_size(v)+3.", "quantifier": "every usize", "why_tests_cant": "Unbounded input domain.", "anchors": ["src/decode.rs: Version::from_size, Version::to_size"]}
{"id": "C14", "title": "Numeric segments", "statement": "A numeric segment of any digit string that fits decodes to those ASCII digits, consuming exactly its bits, for the count-field width of the version.", "quantifier": "every digit list, every version, every following bits", "why_tests_cant": "Unbounded strings.", "anchors": ["src/decode.rs: decode_numeric, numeric_tuple"]}
{"id": "C15", "title": "Alphanumeric segments", "statement": "An alphanumeric segment over the 45-character set decodes to those characters, consuming exactly its bits.", "quantifier": "every string over the 45 characters, every version", "why_tests_cant": "Unbounded strings.", "anchors": ["src/decode.rs: decode_alpha, alpha_tuple"]}
{"id": "C16", "title": "Byte segments", "statement": "A byte segment decodes to exactly its bytes, consuming exactly its bits.", "quantifier": "every byte list that fits, every version", "why_tests_cant": "Unbounded byte strings.", "anchors": ["src/decode.rs: decode_byte"]}
{"id": "C17", "title": "Kanji segments", "statement": "A kanji segment decodes to the Shift-JIS byte pairs that were encoded, for every double-byte character in 0x8140-0x9FFC and 0xE040-0xEBBF with a legal trail byte.", "quantifier": "every list of such characters, every version", "why_tests_cant": "Unbounded strings; no kanji test exists at all.", "anchors": ["src/decode.rs: decode_kanji"]}
{"id": "C18", "title": "ECI headers are skipped", "statement": "ECI designators (1, 2 or 3 bytes) are consumed exactly and contribute no output; the following segments decode as if the header were absent.", "quantifier": "every designator, every position in the segment list", "why_tests_cant": "No ECI test exists.", "anchors": ["src/decode.rs: decode_eci"]}
{"id": "C19", "title": "Malformed streams fail cleanly", "statement": "A segment whose declared count needs more bits than remain yields DataUnderflow, an unknown mode indicator yields UnknownDataType, and a byte or kanji segment that underflows writes nothing of that segment. take_bits returns the value of the next bits, or all that remain if fewer, and panics exactly when asked for more than 64.", "quantifier": "every corrected bit stream", "why_tests_cant": "All bit streams.", "anchors": ["src/decode.rs: decode_payload, decode_numeric, decode_alpha, decode_byte, decode_kanji, decode_eci"]}
{"id": "C20", "title": "Writer failures", "statement": "With any writer, decode_to performs the same sequence of write_all calls up to the first one that fails, then stops and returns IoError; if none fails the outcome does not depend on the writer. What has been written is always a prefix of the full output.", "quantifier": "every writer behaviour (any state machine) and every grid", "why_tests_cant": "Failure points are unboundedly many.", "anchors": ["src/decode.rs: decode, decode_payload", "src/lib.rs: Grid::decode_to"]}
{"id": "C21", "title": "Mirrored symbols", "statement": "If reading a grid as-is fails before payload decoding, the outcome is that of the transposed grid, except that when both fail the error reported is the one of the as-is reading; in particular a transposed valid symbol whose as-is reading fails decodes to the symbol's payload.", "quantifier": "every grid", "why_tests_cant": "All grids.", "anchors": ["src/decode.rs: decode", "src/lib.rs: MirroredGrid"]}
{"id": "C22", "title": "Function pattern geometry (refuted for version 21)", "statement": "The modules the library treats as function patterns are the standard's. (True for every version but 21; refuted for version 21, whose table says 92 where the standard says 94. The bit stream falls back into step, and the misread codewords - at most 14 per block - are counted exactly.)", "quantifier": "every version", "why_tests_cant": "There is no version-21 test image.", "anchors": ["src/version_db.rs: VERSION_DATA_BASE[21]", "src/decode.rs: reserved_cell"]}
{"id": "C23", "title": "Block structure table", "statement": "For every version and level the number of blocks, block lengths and data lengths used by the decoder equal the standard's, and the blocks exactly partition the version's codewords.", "quantifier": "all 160 version/level combinations", "why_tests_cant": "Tests cover four combinations.", "anchors": ["src/version_db.rs: VERSION_DATA_BASE", "src/decode.rs: codestream_ecc"]}
{"id": "C24", "title": "Full correction capacity for long blocks (refuted)", "statement": "Any floor(ecc/2) damaged codewords per block are corrected. (Refuted for the long blocks of two-group symbols: their last data codeword is read from the wrong place in the interleaved stream, which costs one error of the capacity.)", "quantifier": "all two-group version/level combinations, all damage patterns", "why_tests_cant": "Undamaged images hide the misread byte because error correction repairs it.", "anchors": ["src/decode.rs: codestream_ecc"]}
{"id": "C25", "title": "decode() is decode_to() plus UTF-8 validation", "statement": "Grid::decode returns Ok(meta, s) iff decode_to into a buffer succeeds with bytes forming valid UTF-8, and then s is those bytes; otherwise it returns decode_to's error or EncodingError.", "quantifier": "every grid", "why_tests_cant": "All payloads.", "anchors": ["src/lib.rs: Grid::decode, Grid::decode_to, From<FromUtf8Error>"]}
{"id": "C26", "title": "SimpleGrid stores what the function says", "statement": "For SimpleGrid::from_func(size, f) with size < 2^32, bit(y, x) = f(x, y) for all x, y < size, and size() = size; from 2^32 on it panics.", "quantifier": "every size and every function", "why_tests_cant": "Packing bugs depend on size mod 8 and position.", "anchors": ["src/lib.rs: SimpleGrid::from_func, SimpleGrid::bit"]}
{"id": "C27", "title": "Prepared images are black/white and same-sized", "statement": "prepare, prepare_from_greyscale and prepare_from_bitmap produce an image of the same dimensions in which every pixel is black or white; prepare_from_bitmap makes a pixel black iff the function returned true.", "quantifier": "every image of any width and height", "why_tests_cant": "All images.", "anchors": ["src/prepare.rs: prepare, prepare_from_greyscale, prepare_from_bitmap, without_preparation"]}
{"id": "C28", "title": "Thresholding bounds", "statement": "Thresholding never turns a pixel of luminance >= 241 black, never marks anything black in a picture of one luminance, never overflows, and the classification of a row depends only on that row and the rows above.", "quantifier": "every greyscale image", "why_tests_cant": "All images, all histories of the running averages.", "anchors": ["src/prepare.rs: prepare"]}
{"id": "C29", "title": "Flood fill repaints exactly the connected component", "statement": "Repainting from a pixel recolours exactly the 4-connected component of equal colour containing it, leaves every other pixel unchanged, terminates, reports rows that partition the component (so the area counter equals the component's size).", "quantifier": "every image, start pixel, target colour", "why_tests_cant": "All shapes; tests use 3x3 images.", "anchors": ["src/prepare.rs: flood_fill, repaint_and_apply, AreaCounter"]}
{"id": "C30", "title": "Searching never changes what is white", "statement": "No sequence of region queries, repaints or capstone searches changes whether any pixel is white, and every 4-connected non-white component keeps a single colour.", "quantifier": "every image and every history of operations", "why_tests_cant": "Histories of operations are unbounded.", "anchors": ["src/prepare.rs: get_region, repaint_and_apply, flood_fill", "src/detect.rs: capstones_from_image"]}
{"id": "C31", "title": "Region cache is transparent", "statement": "A region query on a non-white unclaimed pixel returns the size of its connected component and a colour equal for two pixels iff they are in the same component, no matter how many regions were queried before (including eviction after 251 regions and cloning), and never hits a missing cache entry.", "quantifier": "every image and every history of queries, repaints and clones", "why_tests_cant": "The eviction path needs more than 251 regions and particular histories.", "anchors": ["src/prepare.rs: get_region, Clone for PreparedImage", "lru::LruCache"]}
{"id": "C32", "title": "Line scanner reports exactly the 1:1:3:1:1 patterns", "statement": "Feeding a row pixel by pixel, a candidate is reported at a pixel iff that pixel is white, ends a run, and the last five runs have lengths within the 3/4 tolerance of 1:1:3:1:1; the reported left/stone/right are the start columns of the first, third and fifth of these runs.", "quantifier": "every row of any length", "why_tests_cant": "All rows; tests use four.", "anchors": ["src/detect.rs: LineScanner::advance, test_for_capstone"]}
{"id": "C33", "title": "Candidate positions are never white", "statement": "Whenever the scan of a row yields a candidate, its left, stone and right pixels lie inside the image and are non-white, so region queries on them cannot panic.", "quantifier": "every image, every row, every search history", "why_tests_cant": "Depends on recolouring during the scan; all histories.", "anchors": ["src/detect.rs: capstones_from_image, is_capstone", "src/prepare.rs: get_region"]}
{"id": "C34", "title": "A finder pattern is claimed at most once", "statement": "From every reachable state the search succeeds; each returned capstone's ring is a distinct connected component which was unclaimed before; claimed regions stay claimed; a second search over the same image returns no capstone at all.", "quantifier": "every image", "why_tests_cant": "All images and histories.", "anchors": ["src/detect.rs: capstones_from_image, create_capstone, is_capstone"]}
{"id": "C35", "title": "Corner finders return extreme region points", "statement": "The first corner is a point of the region at maximal distance from the start; the four corners are region points extreme in the four directions given by the baseline.", "quantifier": "every region shape", "why_tests_cant": "All shapes.", "anchors": ["src/detect.rs: FirstCornerFinder, AllCornerFinder"]}
{"id": "C36", "title": "Capstone search does not panic for non-empty images", "statement": "Searching an image with width >= 1 and dimensions up to 32768 for capstones never panics: no integer overflow, no index out of bounds, no failing region query, no binary64 value out of the integer range.", "quantifier": "every image up to that size, in every reachable state", "why_tests_cant": "All images.", "anchors": ["src/detect.rs: capstones_from_image"]}
{"id": "C37", "title": "Empty-width images (refuted)", "statement": "Searching any image returns normally. (Refuted: width 0 with height > 0 panics.)", "quantifier": "every image with width 0 and height > 0", "why_tests_cant": "No test with an empty image.", "anchors": ["src/detect.rs: capstones_from_image", "src/prepare.rs: BasicImageBuffer::get_pixel"]}
{"id": "C38", "title": "Perspective maps the corners", "statement": "In exact arithmetic the transform created from four points and (w,h) maps (0,0),(w,0),(w,h),(0,h) to those points, and unmap is the inverse of map wherever both are defined.", "quantifier": "every non-degenerate quadrilateral", "why_tests_cant": "All quadrilaterals; floating-point rounding is outside the exact statement.", "anchors": ["src/geometry.rs: Perspective::create, map, unmap"]}
{"id": "C39", "title": "Line intersection", "statement": "line_intersect returns None iff the direction vectors are parallel, and otherwise the true intersection truncated toward zero in each coordinate.", "quantifier": "all points for which i32 does not overflow", "why_tests_cant": "All integer points.", "anchors": ["src/geometry.rs: line_intersect"]}
{"id": "C40", "title": "Bresenham scan", "statement": "The scan from a to b yields exactly max(|dx|,|dy|)+1 points, starts at a, ends at b, moves by one in the dominant direction each step and stays within one pixel of the ideal line.", "quantifier": "all point pairs (no i32 overflow)", "why_tests_cant": "All pairs of points.", "anchors": ["src/geometry.rs: BresenhamScan"]}
{"id": "C41", "title": "Detected grid sizes", "statement": "Every detected grid has size 17+4v with 0 <= v <= 40.", "quantifier": "every image", "why_tests_cant": "All images.", "anchors": ["src/identify/grid.rs: measure_timing_pattern, SkewedGridLocation::from_group"]}
{"id": "C42", "title": "Grouping discipline", "statement": "Each group that find_groupings forms consists of three different finder patterns that are plausible neighbours and locate a grid; a later group shares no pattern with an earlier one except possibly the corner pattern; no plausible triple of unused patterns that locates a grid is left over.", "quantifier": "every image", "why_tests_cant": "All configurations of finder patterns, with binary64 arithmetic.", "anchors": ["src/prepare.rs: find_groupings", "src/identify/match_capstones.rs"]}
{"id": "C43", "title": "What the alignment search returns; it does not walk the whole spiral (refuted)", "statement": "The alignment-pattern search walks a square spiral from the seed and returns the first place lying in an unclaimed component of about the estimated size (the area of a module at the seed as the two outer finder patterns see it), unless the spiral meets a claimed pixel first, in which case it returns None; it claims nothing. Of the component found, the pixel furthest to the left of the line between the outer finder patterns is taken, and exactly that component is claimed as alignment pattern. (Refuted: that it returns a candidate whenever there is one on the spiral; once the walk meets a claimed region it never moves again.)", "quantifier": "every image state", "why_tests_cant": "Needs particular image states.", "anchors": ["src/identify/grid.rs: find_alignment_pattern, LeftMostFinder, from_group"]}
{"id": "C44", "title": "Format words beyond the capacity are rejected (refuted)", "statement": "Format correction never accepts a word with more than three wrong bits. (Refuted: 18 cosets of words at distance four or five are accepted.)", "quantifier": "all 32768 words", "why_tests_cant": "the accepted patterns are a handful among 32768 words", "anchors": ["src/decode.rs:660-678"]}
{"id": "C45", "title": "Thresholding in full", "statement": "A pixel of a prepared greyscale picture is black iff its luminance is below 95% of the mean of two running means, taken along the two snake-shaped walks through the rows (one starting on the left, the other on the right), with memory max(width/8, 1) and rounding down.", "quantifier": "every greyscale picture with width < 2^31", "why_tests_cant": "All pictures.", "anchors": ["src/prepare.rs: prepare"]}
{"id": "C46", "title": "The search finds exactly the finder patterns of the picture", "statement": "The first search of a prepared picture returns patterns with distinct rings, each crossed by a row with run lengths about 1:1:3:1:1, ring and stone being different 4-connected regions with an area ratio between 10 and 70 percent, with the corners of the ring and the centre at the intersection of the diagonals; conversely for every such crossing in the picture, its ring or its stone belongs to the ring of a returned pattern or of one whose corners are collinear.", "quantifier": "every black and white picture, and every greyscale picture, up to 32768 x 32768", "why_tests_cant": "All pictures.", "anchors": ["src/detect.rs: capstones_from_image, is_capstone, create_capstone", "src/prepare.rs: prepare_from_bitmap, prepare_from_greyscale"]}
{"id": "C47", "title": "The centre of a finder pattern is accurate", "statement": "For the corners of any region the binary64 transform exists iff the last three corners are not collinear, and then the centre (7/2, 7/2) is mapped to the intersection of the diagonals with an error of at most half a pixel plus 1e-8 in each coordinate.", "quantifier": "every region of pixels with coordinates up to 32767", "why_tests_cant": "All shapes, floating-point rounding.", "anchors": ["src/geometry.rs: Perspective::create, map", "src/detect.rs: create_capstone"]}
{"id": "C48", "title": "Narrow pictures are all white", "statement": "prepare_from_greyscale of a picture with fewer than 16 columns makes every pixel white, whatever the picture shows.", "quantifier": "every greyscale picture with width < 16", "why_tests_cant": "All pictures; no test with such a picture.", "anchors": ["src/prepare.rs: prepare"]}
{"id": "C49", "title": "Line intersection overflows on large symbols (refuted)", "statement": "line_intersect never panics on the corner pixels of finder patterns. (Refuted: the corners of an upright version 1 symbol with 150 pixels per module overflow i32, a panic in the debug profile.)", "quantifier": "all pixels of a picture", "why_tests_cant": "No test uses pictures that large.", "anchors": ["src/geometry.rs: line_intersect"]}
{"id": "C50", "title": "Neighbour ranking", "statement": "find_and_rank_possible_neighbors never panics (no NaN reaches the comparison, which is a total order on the scores compared) and returns exactly the plausible pairs, sorted by their score, whichever sort meeting the contract of the standard library is used.", "quantifier": "every list of finder patterns with arbitrary binary64 transforms, including infinities and NaN", "why_tests_cant": "NaN and infinities arise only for degenerate transforms.", "anchors": ["src/identify/match_capstones.rs"]}
{"id": "C51", "title": "detect_grids never panics (refuted)", "statement": "detect_grids does not panic on a black and white picture of at least one pixel. (Refuted by a 36 by 35 picture: the expect in rotate_capstone fails because the rotated corners of an open ring have no perspective.)", "quantifier": "every picture", "why_tests_cant": "Needs a ring of a particular shape.", "anchors": ["src/identify/grid.rs: rotate_capstone", "src/prepare.rs: detect_grids"]}
{"id": "C52", "title": "Reading modules of a located grid", "statement": "The bit of a located grid is the colour of the pixel nearest to the mapped module centre, and it is the same in every later state of the image.", "quantifier": "every picture, history and location", "why_tests_cant": "All histories.", "anchors": ["src/identify/grid.rs: RefGridImage", "src/prepare.rs: get_pixel_at_point"]}
{"id": "C53", "title": "A picture of a symbol yields exactly its grid", "statement": "Preparing a picture (bitmap, or greyscale after thresholding) that shows one symbol of any version but 21 - any whole unit of at least two pixels per module, any place, any of the four orientations, finder, timing and alignment patterns as they should be, every other module right in its middle, white around the finder patterns, and nothing else in the picture that looks like a finder pattern - and detecting grids returns exactly one grid: its module (x, y) reads the module (x, y) of the symbol, and its four bounds are exactly computed (three of them one module too far out).", "quantifier": "all versions but 21, units, places, orientations, pictures", "why_tests_cant": "The tests contain a handful of photographs.", "anchors": ["src/prepare.rs: prepare, detect_grids", "src/identify/grid.rs", "src/detect.rs"]}
{"id": "C54", "title": "From picture to message", "statement": "Preparing, detecting and decoding a picture of the symbol of a message returns one result: the metadata and exactly the message's bytes. The same for damaged symbols within the correction bounds of the code, and for mirror images whose direct reading fails.", "quantifier": "all messages, versions but 21, levels, masks, units, places, orientations", "why_tests_cant": "The message space and the picture space are unbounded.", "anchors": ["src/prepare.rs", "src/identify", "src/decode.rs", "src/lib.rs: Grid::decode"]}
{"id": "C55", "title": "Decoding depends on the modules only", "statement": "Two grids of the same size that give the same bit for every module inside the symbol decode to the same result, whatever they answer elsewhere and whatever kind of grid they are.", "quantifier": "all pairs of grids of size at least 9", "why_tests_cant": "All grids.", "anchors": ["src/decode.rs", "src/lib.rs: Grid"]}
{"id": "C56", "title": "Greyscale pictures of dark on light", "statement": "If every pixel of a greyscale picture (at least 16 wide) is light (241 and more) or dark with a bright enough neighbourhood in its row, thresholding makes exactly the light pixels white; so preparing, detecting and decoding a dark-on-light greyscale picture of a symbol returns the message.", "quantifier": "all pictures, messages, versions but 21, places, units, orientations", "why_tests_cant": "Luminance varies over the whole picture.", "anchors": ["src/prepare.rs: threshold, prepare_from_greyscale", "src/lib.rs"]}
{"id": "C57", "title": "Only the patterns and the middles of the modules matter", "statement": "Two pictures that agree on the finder, timing and alignment patterns, on the pixels in the middle of every other module and around the finder patterns, and in which nothing else looks like a finder pattern, give the same grid. In particular any message that fits, in any version but 21, level, mask, place and orientation, whose symbol is drawn with square dots for the data modules (a margin of at least one pixel, a dot of at least two), is prepared, detected and decoded to exactly the message: no condition on the data is left.", "quantifier": "all messages, versions but 21, levels, masks, units, dot sizes, places, orientations", "why_tests_cant": "The library is tested with photographs of ordinary symbols; whether data can look like a finder pattern depends on every message.", "anchors": ["src/prepare.rs: detect_grids", "src/detect.rs: capstones_from_image", "src/identify/grid.rs: location, bit", "src/lib.rs: Grid::decode"]}
{"id": "C58", "title": "Scanning any picture ends", "statement": "Whatever the picture, its size, and whatever was done with the prepared image before, detect_grids ends: it returns or panics, no loop of it (flood fill, line walk, alignment spiral, fitting, grouping) runs forever. Reading any grid it returned, by decode_to, decode or get_raw_data, ends too, with a value, an error of the library or a panic, whatever the image has become by then.", "quantifier": "all pictures, sizes, histories of calls, writers", "why_tests_cant": "Endless loops hide in pictures nobody drew; the state space is every image.", "anchors": ["src/prepare.rs: detect_grids, find_groupings, flood_fill", "src/geometry.rs: BresenhamScan::next", "src/identify/grid.rs: find_alignment_pattern, measure_timing_pattern, jiggle_perspective, from_group", "src/lib.rs: Grid::decode, decode_to, get_raw_data"]}
{"id": "C59", "title": "How large a symbol may be", "statement": "A picture (bitmap, or greyscale after thresholding) of one symbol, clear in every other way, yields its grid if and only if the 32-bit product in the estimate of the fourth corner fits, (7 m - 1)^2 * (larger coordinate of the fourth corner) < 2^31 with m pixels per module; otherwise detect_grids panics with an arithmetic overflow. For a version 1 symbol in the corner of the picture 146 pixels per module are found and 147 panic.", "quantifier": "all versions, symbols, units of at least two pixels, places, orientations, pictures up to 32768 x 32768", "why_tests_cant": "The limit depends on module size, version, place and orientation together; the tests have only small pictures.", "anchors": ["src/geometry.rs: line_intersect", "src/identify/grid.rs: from_group", "src/prepare.rs: detect_grids"]}
{"id": "C60", "title": "Every message printed in black dots scans from a greyscale picture", "statement": "Any message that fits, in any version but 21, level, mask, place and orientation, whose symbol is printed in black (luminance 0) with square dots for the data modules (margin at least an eighth of the module) on paper whose pixels have any luminances from 241 to 255, with a quiet zone of four modules to the left and right, is thresholded exactly, detected, and decoded to exactly the message from the greyscale picture. No condition on the data is left.", "quantifier": "all messages, versions but 21, levels, masks, units, dot sizes, places, orientations, picture sizes up to 32768, paper textures", "why_tests_cant": "Thresholding compares each pixel with two running means over the whole picture so far; whether a dark run is lost depends on message, size and place together.", "anchors": ["src/prepare.rs: prepare, detect_grids", "src/detect.rs: capstones_from_image", "src/identify/grid.rs", "src/lib.rs: Grid::decode"]}
{"id": "C61", "title": "Nothing is found twice", "statement": "Once detect_grids has returned on a prepared image, every later call on it, or on any clone made afterwards, returns without a panic and with no grids, because pixels claimed by finder and alignment patterns stay claimed through detection and cloning.", "quantifier": "all pictures 1..32768 wide and up to 32768 high (bitmap or greyscale), all states reached from them, any number of later detections and clones in any order", "why_tests_cant": "The image is mutated by region colouring, eviction from the cache and painting; a test sees a few pictures, and a missed claim would show only where an evicted region is scanned again.", "anchors": ["src/prepare.rs: PreparedImage::detect_grids, get_region, repaint_and_apply, Clone", "src/detect.rs: capstones_from_image, is_capstone", "src/identify/grid.rs: SkewedGridLocation::from_group"]}
{"id": "C62", "title": "The count of modules along a timing pattern (dependence on the picture alone refuted)", "statement": "The scan along a timing pattern counts the changes of the colour byte along a lattice walk between the two places. On a fresh image these are the changes between black and white; later they are at least those, and exactly those if no step of the walk leads from one dark component straight into another. The grid's size is 17+4k exactly if the larger of the two counts is 4k+2 to 4k+5 (k=0: 1 to 5), and there is none (a panic) if both are 0. Refuted: that the count depends on the picture alone; once a region has been looked up, a diagonal step between two dark regions counts as a change.", "quantifier": "all pictures, all reached states, all end points below 2^29, all groups of finder patterns", "why_tests_cant": "Which regions have been looked up, and which were evicted, depends on everything scanned before; the miscount needs a diagonal step between two dark regions.", "anchors": ["src/identify/grid.rs: timing_scan, measure_timing_pattern", "src/geometry.rs: BresenhamScan", "src/prepare.rs: get_pixel_at_point"]}
{"id": "C63", "title": "Error correction beyond its capacity (limit at the capacity refuted)", "statement": "Whatever was received, a block that correct_block accepts is turned into a nearest word of the code (no other word of the code is closer to what was received), and at most as many bytes are changed as there are check bytes. Whether damage is repaired does not depend on the message: adding a word of the code to the input adds it to the output. Refuted: that only damage to at most half as many bytes as there are check bytes is repaired; with the seven check bytes of version 1 level L, every word of the code is restored from some block with four wrong bytes.", "quantifier": "all block lengths up to 255 with up to 63 check bytes, all blocks", "why_tests_cant": "Damage beyond the capacity is accepted once in hundreds of random trials; that the result is then still nearest concerns all words of the code.", "anchors": ["src/decode.rs: correct_block, berlekamp_massey, block_syndromes, eloc_poly"]}
{"id": "C64", "title": "What an answer and an error of decoding mean", "statement": "For every grid of the size of a symbol of version 1-40 except 21, whatever its modules: the format information is the one the first legible copy says (it never says two things); each block, as gathered, is replaced by a nearest word of the code or, if none is within half the number of check bytes, may be refused; the data are what these blocks carry. If the grid cannot be read so, its mirror image is; the answer is that of the first of the two that gives data, an error is FormatEcc or DataEcc according to the first. If no block is damaged beyond its capacity there is only one reading. A grid too small or too large for any version is refused with FormatEcc if no copy of the format information is legible, with InvalidVersion otherwise. FormatEcc, InvalidVersion and DataEcc are returned before anything is written; IoError only if the writer refused; DataOverflow and InvalidGridSize never.", "quantifier": "all grids of at least 9 modules per side, all contents, all writers", "why_tests_cant": "Says what every possible answer for every square of modules means, including damage no test has drawn.", "anchors": ["src/decode.rs: decode, decode_inner, read_format, correct_format, correct_block", "src/lib.rs: Grid::decode, Grid::decode_to, DeQRError"]}
{"id": "C65", "title": "What the library shows: texts of errors, debugging pictures", "statement": "Different errors have different texts, each the kind of the error with the reason in brackets. The picture written for a grid (write_grid_to) has the size of the grid, a black pixel for every dark module and a white one for every other; a SimpleGrid made from it decodes exactly like the grid. The picture written for a prepared image (write_state_to), after any history of operations, is white exactly where the prepared picture is white, black exactly at dark pixels nobody has looked at, and each connected component has one colour, eight different colours in turn by the numbers of the components.", "quantifier": "all grids and pictures with sides below 2^32, all reached states", "why_tests_cant": "Concerns every grid and every history of operations on every picture.", "anchors": ["src/lib.rs: BitGrid::write_grid_to, Display for DeQRError", "src/prepare.rs: PreparedImage::write_state_to"]}
{"id": "C66", "title": "Several symbols in one picture", "statement": "From a picture of any number of symbols of any versions but 21, each legible and in any of the four quarter turns, with disjoint squares, nothing else that looks like a finder pattern, and so arranged that finder patterns of different symbols are not mistaken for those of one (orderly), detect_grids returns exactly one grid for each symbol, in the order in which their corner patterns are come upon, and each decodes to its message. Rows and columns of equal upright symbols with a pixel between them are orderly, and so are symbols of any sizes and turns along a strip, at distances of at least four thirds of its width. Whatever the messages, their symbols printed with dots and so arranged all scan.", "quantifier": "all pictures up to 32768 pixels a side, all numbers of symbols, all messages", "why_tests_cant": "Tests scan a few photographs; this covers all arrangements, numbers, sizes, turns and contents of symbols that meet the condition.", "anchors": ["src/prepare.rs: PreparedImage::detect_grids, find_groupings", "src/detect.rs: capstones_from_image", "src/identify/mod.rs", "src/identify/grid.rs: SkewedGridLocation::from_group"]}
{"id": "C67", "title": "Symbols lost to each other", "statement": "It is not true that detect_grids finds every symbol of a picture that is clear but for the arrangement of its symbols (refuted). There is an arrangement of three symbols of version 1 (the row pattern of the first with the column pattern of the second 24 modules to the left and the corner pattern of the third 24 modules below) from which, whatever the messages, whatever the number of pixels per module and wherever in the picture, detect_grids returns nothing but one grid of 17 modules, which is none of the symbols and decodes to nothing: one pattern of each symbol is used up by a group of patterns that belong to different symbols.", "quantifier": "all triples of messages, all sizes of modules, all positions, all pictures up to 32768 pixels a side", "why_tests_cant": "The failure depends on the arrangement of several symbols; which arrangements fail, and that they fail for all contents and sizes, is found by proof.", "anchors": ["src/prepare.rs: find_groupings, detect_grids", "src/identify/match_capstones.rs: find_and_rank_possible_neighbors", "src/identify/grid.rs: measure_timing_pattern, from_group"]}
{"id": "C68", "title": "Fitting a grid to the picture never makes it worse", "statement": "The fitness of a transform is, for every picture and state, the number of samples (nine per module, of the timing, finder and alignment patterns of the version) that agree with the picture minus the number that disagree, samples outside of the picture not counting; it exists exactly if all samples can be computed. It lies within nine times the number of modules compared, and is best exactly if all samples are inside and of the right colour. Adjusting a transform returns one of at least the same fitness, and a different one only if it is strictly fitter; a transform of best fitness is returned unchanged. It is a climb of eighty trials, five passes over the eight coefficients with steps of a fiftieth, halved each time; a trial is kept exactly if it is strictly fitter than the transform at hand. Every grid of detect_grids has a transform at least as fit as one made from four corners, all its function-pattern modules can be read without a panic, and with best fitness they read as the standard has them.", "quantifier": "all pictures up to 2^31 pixels a side, all reachable states, all transforms of binary64 coefficients (perspective included), all versions 1-40 but 21, every sort within its contract", "why_tests_cant": "The claim is about all real-valued transforms, all pictures and 81 fitness evaluations of up to 14607 samples each; tests see only pictures where the fit is already good, and no test looks at the score.", "anchors": ["src/identify/grid.rs:317-360 jiggle_perspective", "src/identify/grid.rs:365-404 fitness_all", "src/identify/grid.rs:406-479 fitness_apat, fitness_ring, fitness_cell, fitness_capstone", "src/identify/grid.rs:144-165 setup_perspective"]}
{"id": "C69", "title": "How many grids there can be", "statement": "If detect_grids returns n > 0 grids then the picture has at least 2n+1 finder patterns lying on 2n+1 different connected regions. So a picture with at most two finder patterns gives no grid, and detect_grids returns on it without a panic; one with at most k gives at most (k-1)/2 grids.", "quantifier": "all black and white and grey pictures up to 32768 pixels a side, all reachable states, every sort within its contract", "why_tests_cant": "That no picture whatever gives more grids than its finder patterns allow is a statement about all pictures; tests only have pictures of a few symbols.", "anchors": ["src/prepare.rs:229-266 detect_grids", "src/prepare.rs:268-305 find_groupings", "src/detect.rs:35-61 capstones_from_image"]}
{"id": "C70", "title": "How much a symbol can hold", "statement": "No grid whatever decodes to more bytes than the number of digits that its version and level have room for, hence never to more than 7089, nor are more bytes written before an error. A single segment fits a version and level exactly if it is no longer than the standard's capacity. Every digit string, alphanumeric string, byte string or kanji string that fits a version (not 21) is scanned back exactly from a picture of its symbol; in particular every string of up to 2953 bytes and of up to 7089 digits from a picture of 708 by 708 pixels.", "quantifier": "all grids; all versions, levels, masks, all strings; every sort within its contract", "why_tests_cant": "There are 256^2953 strings of full length and unboundedly many grids and payloads made of many segments; the tests decode a few dozen short ones.", "anchors": ["src/decode.rs:139-156 decode_payload", "src/decode.rs:182-316 the segment decoders", "src/decode.rs:336-374 codestream_ecc", "src/lib.rs:112-117 Grid::decode_to"]}
{"id": "C71", "title": "Symbols seen the wrong way round", "statement": "The format information of the mirror image of a symbol always reads, and always as another level or mask than the symbol's. Decoding the mirror image of a symbol of a message answers with a reading of the data under that other format or, if that gives nothing, with the message. Both happen: there is a symbol of one text whose mirror image is scanned, from a clear picture, as another text. A picture of any number of symbols, some of them mirrored, scans to all their messages if the first reading of each mirrored one gives nothing.", "quantifier": "all versions (not 21 for the data), levels, masks, messages and grids showing the mirror image; all clear pictures of one or more symbols; every sort within its contract", "why_tests_cant": "The tests decode one mirrored picture. That no mirror image loses its format information, and that some decode to something else, concerns all symbols.", "anchors": ["src/decode.rs:109-128 decode", "src/decode.rs:680-714 read_format", "src/lib.rs:155-170 MirroredGrid", "src/lib.rs:90-117 Grid::decode, get_raw_data, decode_to"]}
{"id": "C72", "title": "Every answer is read off the picture", "statement": "Whatever the picture, if scanning it answers with metadata and bytes for a grid (not of version 21), then the modules seen at the grid's place in the picture - the colour of the pixel nearest to each mapped module centre - or their mirror image have a legible format saying exactly that level and mask, and blocks whose nearest words of the code hold data which by the standard's rules say exactly those bytes. Nothing is made up. More generally, unless reading a module panics, decoding a located grid does for every writer what the readings of the modules seen and of their mirror image allow.", "quantifier": "all pictures up to 2^31 on a side (black and white, greyscale), all grids returned, all locations in all reachable states; every sort within its contract", "why_tests_cant": "It is about every picture on which anything at all is decoded, including pictures of no symbol, where false readings would show.", "anchors": ["src/identify/grid.rs:130-142 RefGridImage::bit", "src/decode.rs:109-128 decode", "src/prepare.rs:395-399 get_pixel_at_point", "src/prepare.rs:229-267 detect_grids", "src/lib.rs:90-117 Grid::decode, decode_to"]}
{"id": "C73", "title": "Labels in two rows and two columns", "statement": "Four upright symbols of one version (2 or more) and one size in two rows of two on blank paper, at most one symbol width apart, whatever is in them, are never all found by detect_grids. If it returns, the first symbol is among the first two grids and reads module for module (so its message is decoded), and the other of the two is a grid of 8v+25 modules that is none of the symbols: the corner pattern of the first symbol taken together with the far patterns of its neighbours, which uses these up. Its size does not depend on the distance of the symbols.", "quantifier": "all contents of the four symbols (all messages), all versions from 2, all sizes of modules, all distances up to a symbol width, all positions, all pictures up to 32768 pixels a side, black and white or greyscale; every sort within its contract", "why_tests_cant": "Whether an arrangement can be read at all, for all contents, sizes and distances, is not settled by pictures of some arrangements.", "anchors": ["src/prepare.rs: find_groupings, detect_grids", "src/identify/match_capstones.rs: find_and_rank_possible_neighbors, test_neighbours", "src/identify/grid.rs: measure_timing_pattern, timing_scan, find_alignment_pattern, from_group"]}
{"id": "C74", "title": "Any image buffer will do", "statement": "Scanning depends on the pixels only, not on how the image buffer stores them. For every implementation of ImageBuffer whose size is fixed, whose pixels within the picture can be read and written, and where reading gives what was written last, prepare (or without_preparation) followed by any number of calls of detect_grids ends exactly as for the library's own buffer with the same pixels: it panics or not alike, finds the same grids with the same places and bounds in the same order, every grid decodes alike with every writer, and the debugging picture is the same. The library's own buffer, the adapter for the image crate, windows in a buffer (a region of interest) and transposed views are such implementations; no pixel outside the buffer is ever asked for.", "quantifier": "all implementations of the trait that keep what is written, all pictures of 1 to 2^31 pixels on a side, all numbers of calls; every sort within its contract", "why_tests_cant": "Tests can try a buffer or two; this is about every implementation a user may write, including ones that misbehave outside the picture, and every picture.", "anchors": ["src/prepare.rs:34-40 trait ImageBuffer", "src/prepare.rs:42-63 impl ImageBuffer for T: GenericImage", "src/prepare.rs:73-91 impl ImageBuffer for BasicImageBuffer", "src/prepare.rs:182-224 PreparedImage::prepare", "src/prepare.rs:229-267 detect_grids", "src/identify/grid.rs:130-142 RefGridImage"]}
{"id": "C75", "title": "The user's functions are called once for every place, row by row", "statement": "prepare_from_bitmap, prepare_from_greyscale and SimpleGrid::from_func call the function they are given once for every place of the picture or grid, row by row from the left, and not after that, whatever the function remembers from call to call. If a call panics, so does the operation, and no further call is made. Otherwise the image or grid is the one made of the answers, so that pixels may be drawn from a stream. If the number of places does not fit in a usize, the operation panics.", "quantifier": "all sizes, all functions with any state, any starting state", "why_tests_cant": "A test fixes one function; this is about every stateful one, and about the order of calls, which is not documented.", "anchors": ["src/prepare.rs:504-524 prepare_from_bitmap", "src/prepare.rs:530-544 prepare_from_greyscale", "src/lib.rs:258-274 SimpleGrid::from_func"]}
{"id": "C76", "title": "Decoding takes one look at a grid, or two", "statement": "Let a type implement BitGrid with a bit that remembers things between calls (a cache, a log, a live view) and may panic. If its answers never change, decode, decode_to and get_raw_data give what they give for the grid that remembers nothing. Otherwise, for a grid of the size of a symbol: get_raw_data asks for the first copy of the format information, for the second copy only if the first says nothing, and for the data modules in the order of the standard only if the format is known; no module is asked for twice and none outside the grid; the result is that of one picture that agrees with every answer. decode does this once, and a second time for the transposed grid only if the first look cannot be corrected; the result is that of the first look that can be corrected, else the error of the first. They panic only if a call panics.", "quantifier": "all grids with any state, any starting state, any writer; versions 1-40 but 21 for the order of the questions; all sizes for grids with unchanging answers", "why_tests_cant": "A test fixes one grid; this is about every stateful one and about which modules are looked at, in which order, for every pattern of answers.", "anchors": ["src/decode.rs:109-137 decode, get_raw", "src/decode.rs:534-584 read_data, read_bit", "src/decode.rs:680-714 read_format", "src/lib.rs:127-170 BitGrid, MirroredGrid"]}
{"id": "C77", "title": "Sheets of labels on light paper", "statement": "Any number of messages, printed as symbols of any versions but 21 in black (luminance 0) with square dots for the data modules (margin at least an eighth of the module), on paper whose pixels have any luminances from 241 to 255, each with a quiet zone of four modules to the left and right that no other symbol enters, in an orderly arrangement: thresholding separates ink from paper exactly, prepare_from_greyscale and detect_grids return one grid for each, and every message is decoded. For upright labels of one version and size side by side, no condition but the quiet zones is left; for labels one above the other, a row of paper between them is enough.", "quantifier": "forall w h d fill ts", "why_tests_cant": "The running means of the thresholding cross all symbols of a row of pixels and the turns of the snake; any number, widths, contents and luminances.", "anchors": ["src/prepare.rs:182-223 prepare", "src/prepare.rs:530-544 prepare_from_greyscale", "src/prepare.rs:229-305 detect_grids, find_groupings"]}
{"id": "C78", "title": "What follows the terminator is ignored", "statement": "If the data codewords of a symbol begin with the bits of a message followed by the terminator (four zero bits, or fewer than four bits are left), then whatever comes after it (standard padding or not, other well-formed segments, hidden text), decoding writes exactly the bytes of the message, with any damage within the capacity, and so does scanning a greyscale picture of the symbol in dots. Every continuation is possible; in symbols of a single block the modules after the terminator can be given any colours whatever, the message staying the same.", "quantifier": "forall v e mask m data (rest of the data arbitrary)", "why_tests_cant": "Arbitrary contents of the padding in every version, level and mask; tests only see the padding of one encoder.", "anchors": ["src/decode.rs:139-170 decode_payload", "src/decode.rs:109-137 decode", "src/lib.rs:90-120 Grid::decode, decode_to"]}
{"id": "C79", "title": "When the string returned is the text meant (always: refuted)", "statement": "By the standard bytes are ISO 8859-1 unless an ECI designator says otherwise, and Kanji are Shift JIS. For every message and the text it stands for (Numeric, Alphanumeric, Byte under the default or ECI 3 or 26, Kanji under any table of non-ASCII characters), Grid::decode of its symbol returns that text exactly if the message has no Kanji characters and no byte of 128 or more outside segments designated as UTF-8; otherwise it returns EncodingError or another text, and both happen. Kanji of the first range of Shift JIS after any UTF-8 text give EncodingError.", "quantifier": "forall jis code sym v e mask m t", "why_tests_cant": "All sequences of segments, designators and characters; whether wrong text can slip through the UTF-8 check depends on rare byte combinations.", "anchors": ["src/lib.rs:90-98 Grid::decode", "src/decode.rs:158-180 decode_eci", "src/decode.rs:182-240 decode_kanji, decode_byte"]}
{"id": "C80", "title": "Which modules decoding looks at: codewords and format information only (in every version: refuted)", "statement": "In every version except 21, decode, decode_to with any writer, and get_raw_data give the same results for two grids of the version's size that agree on the modules of the codewords and of the format information (with the dark module, which stands for a format bit in the transposed symbol). On all others (finder patterns, separators, timing patterns, alignment patterns, version information) the grids may differ in any way, and may panic. Nothing can be left out: the raw data change with every codeword module, and for every format module there is a grid which panics only there and whose decoding panics. In version 21 get_raw_data does look at modules of function patterns.", "quantifier": "forall v g g' (arbitrary grids, in particular not only valid symbols)", "why_tests_cant": "All grids, all colourings of the function patterns; that a module is never asked for is a statement about all executions.", "anchors": ["src/decode.rs:534-573 read_data","src/decode.rs:680-714 read_format", "src/decode.rs:109-137 decode, get_raw", "src/lib.rs:90-120 Grid::decode, decode_to, get_raw_data"]}

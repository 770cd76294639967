{
 "claims": [
  {
   "property": "C01",
   "status": "proved",
   "theorems": [
    "C01_undamaged_symbol",
    "C01_roundtrip"
   ],
   "note": "Against the reference encoder of SpecQR.v, every version including 21."
  },
  {
   "property": "C02",
   "status": "proved",
   "theorems": [
    "C02_damaged_symbol",
    "C02_full_capacity"
   ],
   "note": "The misread codewords are part of the bound."
  },
  {
   "property": "C03",
   "status": "proved",
   "theorems": [
    "C03_corrects_to_codeword",
    "C03_encoder"
   ],
   "note": ""
  },
  {
   "property": "C04",
   "status": "proved",
   "theorems": [
    "C04_accepted_is_codeword",
    "C04_codeword_unchanged"
   ],
   "note": ""
  },
  {
   "property": "C05",
   "status": "proved",
   "theorems": [
    "C05_first_copy",
    "C05_second_copy"
   ],
   "note": ""
  },
  {
   "property": "C06",
   "status": "proved",
   "theorems": [
    "C06_format_correction",
    "C06_within_three"
   ],
   "note": "All 32768 words, by linearity from a sweep over the 1024 cosets."
  },
  {
   "property": "C07",
   "status": "proved",
   "theorems": [
    "C07_decode_to_returns",
    "C07_decode_returns",
    "C07_raw_returns",
    "C07_simple_grid_total"
   ],
   "note": "SimpleGrid of sides below 2^32 (C26)."
  },
  {
   "property": "C08",
   "status": "proved",
   "theorems": [
    "C08_tiny_grids_refuted",
    "C08_tiny_grids_panic"
   ],
   "note": "Refuted; the panic is proved for every content of sizes 0 to 8."
  },
  {
   "property": "C09",
   "status": "proved",
   "theorems": [
    "C09_data_module_order",
    "C09_data_modules"
   ],
   "note": ""
  },
  {
   "property": "C10",
   "status": "proved",
   "theorems": [
    "C10_raw_length",
    "C10_capacity"
   ],
   "note": ""
  },
  {
   "property": "C11",
   "status": "proved",
   "theorems": [
    "C11_mask_removal"
   ],
   "note": ""
  },
  {
   "property": "C12",
   "status": "proved",
   "theorems": [
    "C12_metadata",
    "C12_raw_metadata"
   ],
   "note": ""
  },
  {
   "property": "C13",
   "status": "proved",
   "theorems": [
    "C13_roundtrip",
    "C13_to_size",
    "C13_accepted",
    "C13_rejected",
    "C13_monotone"
   ],
   "note": ""
  },
  {
   "property": "C14",
   "status": "proved",
   "theorems": [
    "C14_numeric",
    "C14_C18_message"
   ],
   "note": ""
  },
  {
   "property": "C15",
   "status": "proved",
   "theorems": [
    "C15_alphanumeric",
    "C14_C18_message"
   ],
   "note": ""
  },
  {
   "property": "C16",
   "status": "proved",
   "theorems": [
    "C16_bytes",
    "C14_C18_message"
   ],
   "note": ""
  },
  {
   "property": "C17",
   "status": "proved",
   "theorems": [
    "C17_kanji",
    "C14_C18_message"
   ],
   "note": ""
  },
  {
   "property": "C18",
   "status": "proved",
   "theorems": [
    "C18_eci",
    "C18_header_skipped",
    "C14_C18_message"
   ],
   "note": ""
  },
  {
   "property": "C19",
   "status": "proved",
   "theorems": [
    "C19_reference",
    "C19_take_bits",
    "C19_unknown_mode",
    "C19_byte_underflow",
    "C19_kanji_underflow",
    "C19_numeric_underflow",
    "C19_alphanumeric_underflow"
   ],
   "note": ""
  },
  {
   "property": "C20",
   "status": "proved",
   "theorems": [
    "C20_writers"
   ],
   "note": ""
  },
  {
   "property": "C21",
   "status": "proved",
   "theorems": [
    "C21_mirrored",
    "C21_mirrored_symbol"
   ],
   "note": ""
  },
  {
   "property": "C22",
   "status": "proved",
   "theorems": [
    "C22_function_patterns",
    "C22_version_21_refuted",
    "C22_misread_codewords"
   ],
   "note": "Refuted for version 21, proved for the others."
  },
  {
   "property": "C23",
   "status": "proved",
   "theorems": [
    "C23_block_table"
   ],
   "note": ""
  },
  {
   "property": "C24",
   "status": "proved",
   "theorems": [
    "C24_long_blocks_refuted"
   ],
   "note": "Refuted by a version 5-Q symbol."
  },
  {
   "property": "C25",
   "status": "proved",
   "theorems": [
    "C25_decode_ok",
    "C25_decode_err"
   ],
   "note": ""
  },
  {
   "property": "C26",
   "status": "proved",
   "theorems": [
    "C26_simple_grid",
    "C26_too_big"
   ],
   "note": "Sides below 2^32; from there on size * size overflows and from_func panics."
  },
  {
   "property": "C27",
   "status": "proved",
   "theorems": [
    "C27_bitmap",
    "C27_bitmap_too_big",
    "C27_greyscale",
    "C27_prepare"
   ],
   "note": ""
  },
  {
   "property": "C28",
   "status": "proved",
   "theorems": [
    "C28_bright",
    "C28_uniform",
    "C28_causal"
   ],
   "note": "Sharp: C28_sharp shows luminance 240 turning black."
  },
  {
   "property": "C29",
   "status": "proved",
   "theorems": [
    "C29_flood",
    "C29_area",
    "C29_refused"
   ],
   "note": ""
  },
  {
   "property": "C30",
   "status": "proved",
   "theorems": [
    "C30_white_stays"
   ],
   "note": ""
  },
  {
   "property": "C31",
   "status": "proved",
   "theorems": [
    "C31_region",
    "C31_white"
   ],
   "note": ""
  },
  {
   "property": "C32",
   "status": "proved",
   "theorems": [
    "C32_scanner",
    "C32_row"
   ],
   "note": ""
  },
  {
   "property": "C33",
   "status": "proved",
   "theorems": [
    "C33_candidates"
   ],
   "note": ""
  },
  {
   "property": "C34",
   "status": "proved",
   "theorems": [
    "C34_claimed_once"
   ],
   "note": ""
  },
  {
   "property": "C35",
   "status": "proved",
   "theorems": [
    "C35_corners"
   ],
   "note": ""
  },
  {
   "property": "C36",
   "status": "proved",
   "theorems": [
    "C36_search_returns"
   ],
   "note": "With binary64 arithmetic, including the conversions of the centre to integers."
  },
  {
   "property": "C37",
   "status": "proved",
   "theorems": [
    "C37_no_columns_refuted",
    "C37_no_rows"
   ],
   "note": "Refuted for every picture with rows but no columns."
  },
  {
   "property": "C38",
   "status": "proved",
   "theorems": [
    "C38_perspective"
   ],
   "note": "Exact arithmetic: the model instantiated with the rational numbers. For every strictly convex quadrilateral and every w, h >= 1 the transform exists, maps the four corners, unmap inverts it on the whole rectangle and on every lattice point of the quadrilateral. Rounding of binary64 is covered only for the centre (C47)."
  },
  {
   "property": "C39",
   "status": "proved",
   "theorems": [
    "C39_intersection",
    "C39_pixels"
   ],
   "note": "Exact whenever it returns; always returns for pixels of pictures up to 1024 x 1024."
  },
  {
   "property": "C40",
   "status": "proved",
   "theorems": [
    "C40_bresenham"
   ],
   "note": "All coordinates below 2^29 in absolute value."
  },
  {
   "property": "C41",
   "status": "proved",
   "theorems": [
    "C41_sizes"
   ],
   "note": "Version 0 (17 modules) does occur: C41_version_0."
  },
  {
   "property": "C42",
   "status": "proved",
   "theorems": [
    "C42_groups"
   ],
   "note": ""
  },
  {
   "property": "C43",
   "status": "proved",
   "theorems": [
    "C43_spiral",
    "C43_corner",
    "C43_whole_spiral_refuted"
   ],
   "note": "The stronger claim is refuted with a witness; C43_spiral says what holds. Cases: C43_corners."
  },
  {
   "property": "C44",
   "status": "proved",
   "theorems": [
    "C44_beyond_three_refuted"
   ],
   "note": "Refuted."
  },
  {
   "property": "C45",
   "status": "proved",
   "theorems": [
    "C45_threshold",
    "C45_threshold_buffer"
   ],
   "note": ""
  },
  {
   "property": "C46",
   "status": "proved",
   "theorems": [
    "C46_bitmap",
    "C46_greyscale"
   ],
   "note": ""
  },
  {
   "property": "C47",
   "status": "proved",
   "theorems": [
    "C47_center",
    "C47_exists"
   ],
   "note": ""
  },
  {
   "property": "C48",
   "status": "proved",
   "theorems": [
    "C48_narrow"
   ],
   "note": ""
  },
  {
   "property": "C49",
   "status": "proved",
   "theorems": [
    "C49_overflow_refuted"
   ],
   "note": "Refuted by a concrete witness."
  },
  {
   "property": "C50",
   "status": "proved",
   "theorems": [
    "C50_ranking"
   ],
   "note": "Quantified, as everything about detection, over all sorts that meet the contract of the standard library (class Sorter): the order of equal scores is left open. Cases: C50_sort (there is one)."
  },
  {
   "property": "C51",
   "status": "proved",
   "theorems": [
    "C51_no_panic_refuted"
   ],
   "note": "Refuted by computation of the model on a 36x35 picture."
  },
  {
   "property": "C52",
   "status": "proved",
   "theorems": [
    "C52_bit",
    "C52_stable"
   ],
   "note": ""
  },
  {
   "property": "C53",
   "status": "proved",
   "theorems": [
    "C53_bitmap",
    "C53_greyscale",
    "C53_rendered",
    "C53_encoded_patterns"
   ],
   "note": "The condition that nothing else looks like a finder pattern is stated on pixels (clear_picture) and, for drawn symbols, on modules (plain). Cases: C53_example."
  },
  {
   "property": "C54",
   "status": "proved",
   "theorems": [
    "C54_symbol",
    "C54_greyscale",
    "C54_rendered",
    "C54_damaged",
    "C54_mirrored"
   ],
   "note": "Cases: C54_example, C54_damaged_example, C54_mirrored_example."
  },
  {
   "property": "C55",
   "status": "proved",
   "theorems": [
    "C55_modules_only"
   ],
   "note": "Cases: C55_example."
  },
  {
   "property": "C56",
   "status": "proved",
   "theorems": [
    "C56_dark",
    "C56_threshold",
    "C56_scan"
   ],
   "note": "The neighbourhood condition (lit) is on luminances alone: the sum over a few half memories to both sides. Cases: C56_example."
  },
  {
   "property": "C57",
   "status": "proved",
   "theorems": [
    "C57_middles",
    "C57_clear",
    "C57_dotted"
   ],
   "note": "Cases: C57_example, C57_middles_example."
  },
  {
   "property": "C58",
   "status": "proved",
   "theorems": [
    "C58_detect",
    "C58_decode",
    "C58_bitmap",
    "C58_greyscale"
   ],
   "note": "Cases: C58_example, C58_greyscale_example."
  },
  {
   "property": "C59",
   "status": "proved",
   "theorems": [
    "C59_bitmap",
    "C59_greyscale",
    "C59_dotted"
   ],
   "note": "In the debug profile, where 32-bit products that overflow panic. The limit is exact: (7 m - 1)^2 times the larger coordinate of the fourth corner, against 2^31."
  },
  {
   "property": "C60",
   "status": "proved",
   "theorems": [
    "C60_two_toned",
    "C60_scan"
   ],
   "note": "Dots of at most three quarters of the module; black is luminance 0, paper 241 to 255, pixel by pixel arbitrary. Ordinary symbols have no such guarantee: a long dark run outlasts the running means."
  },
  {
   "property": "C61",
   "status": "proved",
   "theorems": [
    "C61_again",
    "C61_claims",
    "C61_bitmap",
    "C61_greyscale"
   ],
   "note": "Example C61_example: a symbol is found once, and neither again in the image nor in a clone. Uses the standard library's real number axioms (via the binary64 centre bound of C36)."
  },
  {
   "property": "C62",
   "status": "proved",
   "theorems": [
    "C62_scan",
    "C62_fresh",
    "C62_reached",
    "C62_size",
    "C62_picture_only_refuted"
   ],
   "note": "Exact description of the count and of the size made of it; the refutation has a computed witness of two pixels touching at a corner."
  },
  {
   "property": "C63",
   "status": "proved",
   "theorems": [
    "C63_nearest",
    "C63_every_message",
    "C63_beyond_capacity",
    "C63_only_within_capacity_refuted"
   ],
   "note": "The shortest register found by Berlekamp-Massey is no longer than the locator of any word of the code, and a byte is changed only at a root of the register's polynomial."
  },
  {
   "property": "C64",
   "status": "proved",
   "theorems": [
    "C64_decode",
    "C64_format_unique",
    "C64_within_capacity",
    "C64_bad_size",
    "C64_errors",
    "C64_decode_errors"
   ],
   "note": "Version 21 is left out because of its wrong table entries (C22). A block may be refused although a nearest word exists beyond half the check bytes, and C63 says it may also be accepted there."
  },
  {
   "property": "C65",
   "status": "proved",
   "theorems": [
    "C65_messages",
    "C65_texts",
    "C65_grid_picture",
    "C65_grid_again",
    "C65_state_picture"
   ],
   "note": "Up to the saving of the file. Cases: C65_example, C65_state_example."
  },
  {
   "property": "C66",
   "status": "proved",
   "theorems": [
    "C66_bitmap",
    "C66_greyscale",
    "C66_scan",
    "C66_scan_greyscale",
    "C66_overlay",
    "C66_row",
    "C66_column",
    "C66_rows",
    "C66_columns",
    "C66_messages"
   ],
   "note": "For orderly sheets; C66_not_orderly shows what the condition excludes (equal symbols two by two, where patterns of three symbols make a square)."
  },
  {
   "property": "C67",
   "status": "proved",
   "theorems": [
    "C67_astray",
    "C67_small",
    "C67_messages",
    "C67_every_symbol_refuted"
   ],
   "note": "find_groupings accepts the first group for which a grid can be set up, of any size, and uses up its patterns."
  },
  {
   "property": "C68",
   "status": "proved",
   "theorems": [
    "C68_fitness",
    "C68_colours",
    "C68_bounds",
    "C68_best",
    "C68_never_worse",
    "C68_climb",
    "C68_best_kept",
    "C68_detected",
    "C68_read",
    "C68_best_read",
    "C68_affine"
   ],
   "note": "Binary64, versions 1 to 40 but 21 (table). That an adjustment ends without a panic is shown for transforms without perspective (C68_affine); in perspective a sample may fall beyond i32, so the other statements are about adjustments that return. Cases: C68_scores, C68_example, C68_adjusted, C68_climbed."
  },
  {
   "property": "C69",
   "status": "proved",
   "theorems": [
    "C69_room",
    "C69_none",
    "C69_bitmap",
    "C69_greyscale"
   ],
   "note": "Pictures up to 32768 pixels a side, every sort within its contract. Cases: C69_lone (one pattern, nothing found), C69_three (three grids)."
  },
  {
   "property": "C70",
   "status": "proved",
   "theorems": [
    "C70_most",
    "C70_fits",
    "C70_scanned",
    "C70_bytes",
    "C70_digits"
   ],
   "note": "C70_most is about every grid with a size of 9 or more; C70_scanned about all versions but 21 (table). Cases: C70_table (rows of the standard's table of capacities), C70_longest (7089 digits)."
  },
  {
   "property": "C71",
   "status": "proved",
   "theorems": [
    "C71_format",
    "C71_reading",
    "C71_two_texts",
    "C71_every_mirror_image_refuted",
    "C71_sheet",
    "C71_sheet_greyscale"
   ],
   "note": "The expectation that a mirror image always decodes to the message is refuted by a symbol whose mirror image is a symbol of another text; C71_reading says what does hold for every symbol. Cases: C71_example_rqrr, C71_example_sheet."
  },
  {
   "property": "C72",
   "status": "proved",
   "theorems": [
    "C72_outcome",
    "C72_bitmap",
    "C72_greyscale",
    "C72_pictured"
   ],
   "note": "For every picture and every square of modules agreeing with what is seen through the located transform; grids of version 21 are left out (its table, C22). C72_pictured: the hypothesis can always be met. Case: C72_example."
  },
  {
   "property": "C73",
   "status": "proved",
   "theorems": [
    "C73_bitmap",
    "C73_greyscale",
    "C73_messages"
   ],
   "note": "Unless detect_grids panics, its first two grids are the first symbol and a wrong one of 8v+25 modules made of the patterns of three symbols; other grids may follow. That it never panics on these pictures is not claimed. Versions 2 and up, two symbols side by side at most 183 modules wide, upright, equal. Cases: C73_example, C73_row (the same four symbols in one row are all read)."
  },
  {
   "property": "C74",
   "status": "proved",
   "theorems": [
    "C74_prepare",
    "C74_without",
    "C74_refused",
    "C74_message",
    "C74_basic",
    "C74_image_crate",
    "C74_views",
    "C74_window"
   ],
   "note": "For buffers of at least one pixel and at most 2^31 on a side. With no columns and some rows the search asks for a pixel that is not there (C37), and what happens depends on the buffer. Clone is taken to give an equal buffer. Cases: C74_example (a computed picture with a journal of writes), C74_unlawful (a buffer that ignores writes gives different results)."
  },
  {
   "property": "C75",
   "status": "proved",
   "theorems": [
    "C75_order",
    "C75_bitmap",
    "C75_greyscale",
    "C75_grid",
    "C75_too_big",
    "C75_pure"
   ],
   "note": "A function is modelled by its state and what one call does (new state and answer, panic, or no end). Cases: C75_example."
  },
  {
   "property": "C76",
   "status": "proved",
   "theorems": [
    "C76_steady",
    "C76_raw",
    "C76_once",
    "C76_decode"
   ],
   "note": "A grid is modelled by its state and what one call of bit does (new state and answer, panic, or no end); size is constant. C76_steady holds for every size; the others for the sizes of symbols other than version 21, whose table of alignment patterns is wrong (C22). Cases: C76_example."
  },
  {
   "property": "C77",
   "status": "proved",
   "theorems": [
    "C77_two_toned",
    "C77_scan",
    "C77_row",
    "C77_column"
   ],
   "note": "The several-symbol form of C60. quiet_between asks for four modules of paper between symbols that share a row of pixels, and equally large modules for these; one row of pixels between the others. Cases: C77_example (three labels in a row on uneven paper). Column: Example C77_column_example."
  },
  {
   "property": "C78",
   "status": "proved",
   "theorems": [
    "C78_standard",
    "C78_ignored",
    "C78_drawn",
    "C78_any_rest",
    "C78_any_picture",
    "C78_scan"
   ],
   "note": "Examples: C78_example (a second segment hidden after the terminator), C78_example_picture (all those modules dark), C78_example_scan."
  },
  {
   "property": "C79",
   "status": "proved",
   "theorems": [
    "C79_text",
    "C79_kanji",
    "C79_never_wrong_refuted",
    "C79_wrong_text"
   ],
   "note": "The claim that a string returned by Grid::decode is always the text the symbol stands for is refuted (C79_never_wrong_refuted; witnesses in ISO 8859-1 and in Shift JIS for every level and mask in C79_wrong_text); C79_text says for exactly which messages it is. The table of Shift JIS is a parameter, assumed only to hold no ASCII characters. Designators other than 3 and 26 are not given a meaning. Cases: C79_example, C79_kanji_example."
  },
  {
   "property": "C80",
   "status": "proved",
   "theorems": [
    "C80_decode",
    "C80_never_asked",
    "C80_repainted",
    "C80_data_matter",
    "C80_format_matter",
    "C80_version_21_refuted"
   ],
   "note": "All versions but 21 (v = 21 refuted, because of the misplaced alignment patterns of C22). C80_format_matter holds for all versions; its domain is finite and swept. Cases: C80_example (finder, timing and other patterns painted black), C80_example_never_asked, C80_example_count, C80_example_matter."
  }
 ]
}

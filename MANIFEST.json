{
 "claims": [
  {
   "property": "C01",
   "status": "proved",
   "theorems": [
    "c01_split_lossless"
   ],
   "note": "Holds for every string, in Debug and Release mode."
  },
  {
   "property": "C02",
   "status": "proved",
   "theorems": [
    "c02_split_tokens",
    "c02_tokens_unique",
    "c02_tokens_exist"
   ],
   "note": "split computes exactly the tokenisation of the grammar in Spec_Multi.v, which is unique and always exists."
  },
  {
   "property": "C03",
   "status": "partial",
   "theorems": [
    "c03_parsing_never_panics_refuted",
    "c03_values_panic_partial",
    "c03_normalize_panic_partial",
    "c03_text_spans_panic_partial",
    "c03_join_text_panic_partial",
    "c03_ascii_partial"
   ],
   "note": "False in the code: [fl\u00e9] panics (slice inside a character). Proved instead: the exact set of panicking tokens for the iterator, normalize, text_spans and join_text, and no panic for ASCII strings."
  },
  {
   "property": "C04",
   "status": "proved",
   "theorems": [
    "c04_tag_accepted",
    "c04_tag_value_error",
    "c04_tag_error",
    "c04_values_meaning",
    "c04_tag_total"
   ],
   "note": "Exact: acceptance, value, each kind of error, and the quoted text, for every tag body."
  },
  {
   "property": "C05",
   "status": "proved",
   "theorems": [
    "c05_parsed_in_range"
   ],
   "note": "Every value any MULTI string can yield is in its documented range."
  },
  {
   "property": "C06",
   "status": "partial",
   "theorems": [
    "c06_print_parse_refuted",
    "c06_print_parse_partial",
    "c06_parsed_parsable"
   ],
   "note": "False in the code for hexadecimal characters of code 10 or more ([hc41] prints as [hc65]). Proved: a parsable value reads back exactly when it is not such a character."
  },
  {
   "property": "C07",
   "status": "partial",
   "theorems": [
    "c07_normalize_idempotent_refuted",
    "c07_normalize_idempotent_partial",
    "c07_normalize_idempotent_iff_partial"
   ],
   "note": "False in the code with [hc] of code 10 or more. Proved: the strings whose normal form is stable are exactly those without such a character."
  },
  {
   "property": "C08",
   "status": "partial",
   "theorems": [
    "c08_normalize_well_formed_refuted",
    "c08_normalize_well_formed_partial",
    "c08_normalize_well_formed_iff_partial"
   ],
   "note": "False in the code with [hc] of code 10000 or more. Proved: the output is well formed exactly when every [hc] code is below 10000."
  },
  {
   "property": "C09",
   "status": "partial",
   "theorems": [
    "c09_normalize_visible_refuted",
    "c09_normalize_visible_partial",
    "c09_normalize_content_partial",
    "c09_normalize_any_partial"
   ],
   "note": "False in the code with [hc] of code 10 or more. Proved for every other string, with the settings in force at each item; for the strings with such characters the exact content of the output is proved (each code is its decimal print read in base 16)."
  },
  {
   "property": "C10",
   "status": "partial",
   "theorems": [
    "c10_normalize_minimal_refuted",
    "c10_normalize_minimal_partial",
    "c10_normalize_any_partial"
   ],
   "note": "False in the code with [hc] of code 10000 or more (output can end with a malformed tag). Proved: no redundant tag for every string, and a shown value at the end unless such a character stands there."
  },
  {
   "property": "C11",
   "status": "proved",
   "theorems": [
    "c11_is_blank",
    "c11_is_not_blank",
    "c11_blank_normalize",
    "c11_normalize_blank"
   ],
   "note": "Exact in both directions, true and false outcomes."
  },
  {
   "property": "C12",
   "status": "proved",
   "theorems": [
    "c12_join_escaped",
    "c12_text_spans",
    "c12_join_text"
   ],
   "note": "Exact for every string and separator; escaping round trip for every text."
  },
  {
   "property": "C13",
   "status": "proved",
   "theorems": [
    "c13_case_insensitive"
   ],
   "note": "All four outcomes (value, both errors, panic) agree for bodies that differ in letter case only."
  },
  {
   "property": "C14",
   "status": "partial",
   "theorems": [
    "c14_levels_refuted",
    "c14_levels_partial",
    "c14_levels_up_partial",
    "c14_levels_range",
    "c14_levels_ends_partial",
    "c14_levels_monotone"
   ],
   "note": "Refuted as stated: when the foreground component is below the background the code interpolates from foreground up to background (level 0 is the smaller one). Partial: exact floor formula whenever background <= foreground; exact formula of what the code does in every case; range and monotonicity proved for all."
  },
  {
   "property": "C15",
   "status": "proved",
   "theorems": [
    "c15_shown_color",
    "c15_set_foreground",
    "c15_set_background",
    "c15_initial_colors"
   ],
   "note": "Acceptance is characterised by an independent relation Shows (scheme, colour -> RGB) for every context whose defaults fit the scheme."
  },
  {
   "property": "C16",
   "status": "partial",
   "theorems": [
    "c16_no_fault_refuted",
    "c16_fault_partial",
    "c16_intersection_partial",
    "c16_contains_empty_refuted",
    "c16_contains_partial",
    "c16_extend",
    "c16_sound",
    "c16_release",
    "c16_contains_release_refuted"
   ],
   "note": "Refuted: edge sums overflow u16 (Debug panic; a release build can take a rectangle for contained that is not), and contains disagrees with pixel inclusion for empty rectangles. Partial: exact when the edges fit in 16 bits (and, for contains, the inner rectangle is not empty); the fault is exactly characterised. For all edges a computed intersection lies within both rectangles (c16_sound)."
  },
  {
   "property": "C17",
   "status": "proved",
   "theorems": [
    "c17_length_decodes",
    "c17_uint_decodes",
    "c17_octets_decode",
    "c17_length_prefix_free",
    "c17_uint_prefix_free",
    "c17_octets_prefix_free",
    "c17_font_decodes",
    "c17_font_injective",
    "c17_graphic_layout",
    "c17_graphic_injective"
   ],
   "note": "Independent OER decoders recover value and rest for every 32-bit value / octet string; fonts decode back to number, height, spacings and used characters; also graphics."
  },
  {
   "property": "C18",
   "status": "proved",
   "theorems": [
    "c18_font_burst",
    "c18_graphic_burst",
    "c18_font_pure",
    "c18_font_id",
    "c18_graphic_id",
    "c18_id_range"
   ],
   "note": "CRC-16 shown linear and injective per byte; any difference confined to two consecutive bytes changes the id. The id depends only on number, height, spacings and used characters. The id is also characterised as the ISO/IEC 13239 frame check sequence by polynomial division."
  },
  {
   "property": "C19",
   "status": "partial",
   "theorems": [
    "c19_accepts",
    "c19_no_panic_refuted",
    "c19_panic_partial",
    "c19_verdict_partial"
   ],
   "note": "Acceptance exact for all fonts. 'Never panics' is refuted: a duplicated surrogate character number panics; that is proved to be the only panic, and in every other case the verdict is the first violated rule."
  },
  {
   "property": "C20",
   "status": "proved",
   "theorems": [
    "c20_validate",
    "c20_verdict",
    "c20_font_unique",
    "c20_font_missing",
    "c20_char_unique",
    "c20_char_missing",
    "c20_by_name",
    "c20_by_name_missing"
   ],
   "note": "Table validation exact; lookups of numbers >= 1 return the unique font / character slot. Lookup by name is characterised too."
  },
  {
   "property": "C21",
   "status": "partial",
   "theorems": [
    "c21_width_partial",
    "c21_missing_partial",
    "c21_cases",
    "c21_overflow_partial",
    "c21_no_fault_refuted",
    "c21_release_partial",
    "c21_restart_partial",
    "c21_missing_release",
    "c21_release_refuted"
   ],
   "note": "Refuted for texts wider than 65535 pixels (u16 overflow panics in Debug). Partial: exact width, or first missing character, whenever the width fits in 16 bits; overflow proved to panic otherwise. Release builds: the width modulo 2^16, but measuring starts anew where the width so far is a multiple of 2^16 (c21_release_partial, c21_restart_partial, c21_release_refuted); missing characters are always reported."
  },
  {
   "property": "C22",
   "status": "partial",
   "theorems": [
    "c22_is_pixel_lit",
    "c22_render_partial",
    "c22_missing_partial",
    "c22_text_box",
    "c22_every_raster_refuted",
    "c22_nul_refuted",
    "c22_exact_partial",
    "c22_missing_exact_partial",
    "c22_ink_lit"
   ],
   "note": "Refuted for rasters that do not hold the lit pixels (panic) and for NUL characters drawn from unused slots. Partial: for every valid font and NUL-free text whose lit pixels are on the raster, exactly those pixels are painted (c22_render_partial). c22_exact_partial: in every font, its bitmaps being of any size, rendering paints exactly what the glyphs draw (InkText; in a sound font these are the lit pixels, c22_ink_lit) and panics exactly when that is not all on the raster; c22_missing_exact_partial the same up to the first missing character. Conditions: coordinates and text width within 30 bits."
  },
  {
   "property": "C23",
   "status": "partial",
   "theorems": [
    "c23_width_refuted",
    "c23_width_partial",
    "c23_differ"
   ],
   "note": "Refuted: an unused slot makes the width 0. Partial: exact in terms of all slots; two slots of different widths always give 0."
  },
  {
   "property": "C24",
   "status": "partial",
   "theorems": [
    "c24_roundtrip_partial",
    "c24_roundtrip_refuted",
    "c24_no_panic_partial",
    "c24_panic_partial",
    "c24_no_panic_refuted"
   ],
   "note": "Property-list level (the text syntax is the external tfon crate). Refuted: a font without characters loses its height; more characters than slots panics. Partial: exact round trip result; no panic when the slots suffice, panic when they do not."
  },
  {
   "property": "C25",
   "status": "proved",
   "theorems": [
    "c25_validate",
    "c25_accepts",
    "c25_pixels_in_bitmap"
   ],
   "note": "Exact verdict (first violated rule) for every graphic and sign size; every pixel access of an accepted graphic is in range and yields exactly the specified colour."
  },
  {
   "property": "C26",
   "status": "partial",
   "theorems": [
    "c26_raster",
    "c26_documented_partial",
    "c26_documented_refuted",
    "c26_levels_partial"
   ],
   "note": "Refuted for 8-bit monochrome graphics: levels are looked up in the classic palette (levels above 9 come out transparent). Proved for the other schemes: size, and every pixel has its documented colour; the exact behaviour for 8-bit graphics is also proved."
  },
  {
   "property": "C27",
   "status": "partial",
   "theorems": [
    "c27_loop",
    "c27_graphic_tag",
    "c27_verdict_unique",
    "c27_current_colors_refuted",
    "c27_current_colors_partial"
   ],
   "note": "Result, painted pixels, frame and each error exact for every built sign. The claim 'in the current colours' is refuted: with the default colours of a monochrome or classic sign a 1-bit graphic draws nothing; proved when the current colours can be shown by the scheme."
  },
  {
   "property": "C28",
   "status": "partial",
   "theorems": [
    "c28_loop",
    "c28_rectangle_partial",
    "c28_verdict_unique",
    "c28_rectangle_refuted",
    "c28_release_refuted"
   ],
   "note": "Refuted by 16-bit overflow: a rectangle beyond column 65535 panics in Debug, and on a 65535 pixel wide sign every rectangle is rejected in Release. Proved exactly in Release for signs below 65535 pixels and in Debug when the rectangle's edges fit 16 bits."
  },
  {
   "property": "C29",
   "status": "partial",
   "theorems": [
    "c29_release_partial",
    "c29_release_panic_partial",
    "c29_same_verdict",
    "c29_debug_partial",
    "c29_panic_partial",
    "c29_build_partial",
    "c29_build_refuted",
    "c29_graphics_verdict_unique"
   ],
   "note": "Refuted by 16-bit overflow of border + pixels * pitch (Debug panics, Release accepts a sign that does not fit) and by the font validation panic of C19. Proved: every Debug result is the specified verdict, the exact set of Debug panics, and both modes when the face size fits 16 bits. Release builds are covered exactly as well: the verdict is the specified one with the face size taken modulo 65536, and they panic exactly when font validation does."
  },
  {
   "property": "C30",
   "status": "proved",
   "theorems": [
    "c30_rebuild",
    "c30_built_from",
    "c30_built_valid"
   ],
   "note": "For both modes and every built sign; oversize graphics are cleared and all other slots unchanged."
  },
  {
   "property": "C31",
   "status": "partial",
   "theorems": [
    "c31_x_partial",
    "c31_x_order_partial",
    "c31_y_partial",
    "c31_y_order_partial",
    "c31_pitch_refuted",
    "c31_face_refuted",
    "c31_overflow_refuted"
   ],
   "note": "f32 modelled with Flocq binary32. For signs whose face and pitch are not 0 and whose pixels plus gaps fit u16 (every Debug-built sign with pitch >= 1 and at most 43690 pixels in a row: c31_axis_x, c31_axis_y), for every output size: the position is finite, between 0 and the size, strictly increasing, and within size/2^18 of the exact position of Spec_Geometry. As stated refuted: pitch 0 (not increasing), face 0 (NaN), u16 overflow (Debug panic), all on built signs."
  },
  {
   "property": "C32",
   "status": "partial",
   "theorems": [
    "c32_lines_partial",
    "c32_ends_partial",
    "c32_hang_partial",
    "c32_ends_refuted",
    "c32_unique"
   ],
   "note": "Refuted: font number 0 on a full-matrix sign with an unused font slot loops for ever. Proved: exact result whenever it ends, exact characterisation of non-termination, and termination for every font number but 0 on signs with valid fonts."
  },
  {
   "property": "C33",
   "status": "partial",
   "theorems": [
    "c33_widths_partial",
    "c33_endless",
    "c33_unique",
    "c33_refuted",
    "c33_hang_refuted"
   ],
   "note": "Every pattern that has a meaning (no tag splitting a character), on every built sign: the entries are exactly those of the specification while at most 255 rectangles are fillable; with more, a debug build panics and a release build wraps the rectangle numbers (refuted with 256 pages). When a fillable rectangle has font number 0, on a full-matrix sign with an unused font slot of no height and spacing, counting never ends (refuted with default font 0); that is the only such case."
  },
  {
   "property": "C34",
   "status": "partial",
   "theorems": [
    "c34_lines_partial",
    "c34_refuted"
   ],
   "note": "Every supported pattern whose texts are not separated by font tags only, and without hexadecimal characters from 10; lines may hold the tags that lines() accepts. Without the condition on texts the round trip fails (refuted). The default font is not one whose lines cannot be counted (see C33)."
  },
  {
   "property": "C35",
   "status": "partial",
   "theorems": [
    "c35_fill_partial",
    "c35_unique",
    "c35_areas",
    "c35_none_partial",
    "c35_refused",
    "c35_refuted"
   ],
   "note": "Exact result of fill for every pattern: font tags are deferred to the end of the next fillable area or lost (refuted as stated); without lines the pattern is reprinted when font tags come last in fillable areas; malformed or unsupported patterns give the empty string. The default font is not one whose lines cannot be counted (see C33)."
  },
  {
   "property": "C36",
   "status": "partial",
   "theorems": [
    "c36_all_refuted",
    "c36_refuted"
   ],
   "note": "Refuted: on every sign without the new-page tag, fill gives the empty string for every pattern."
  },
  {
   "property": "C37",
   "status": "partial",
   "theorems": [
    "c37_on_page",
    "c37_no_rect_partial",
    "c37_off_page_partial",
    "c37_refuted"
   ],
   "note": "Refuted: an OFF page has the size of the last text rectangle of the page before it. Proved: every ON page of every message has the sign's size, every page of a message without [tr] has, and the exact size of OFF pages."
  },
  {
   "property": "C38",
   "status": "proved",
   "theorems": [
    "c38_page_sequence",
    "c38_split_unique",
    "c38_sequence_unique"
   ],
   "note": "For every message that renders without error: cut at [np], one ON page per part, OFF page exactly when the off time is positive, durations from the last [pt] so far or the defaults. Cut and durations are shown unambiguous."
  },
  {
   "property": "C39",
   "status": "partial",
   "theorems": [
    "c39_refuted",
    "c39_ends_partial",
    "c39_no_error_partial",
    "c39_items_end"
   ],
   "note": "Refuted: an unsupported tag (or other page-level error) is repeated for ever. Proved: every rendering ends within 3n+2 items, panics, or from some item on repeats one error for ever; a rendering without errors ends; no item hangs."
  },
  {
   "property": "C40",
   "status": "partial",
   "theorems": [
    "c40_refused",
    "c40_supported",
    "c40_field_refuted"
   ],
   "note": "Proved: the first malformed piece or unlisted tag of a page is the error given; yielded pages only have listed tags (the closing [np] included). Refuted for [f0], which no sign can list: it is not refused and rendering panics."
  },
  {
   "property": "C41",
   "status": "partial",
   "theorems": [
    "c41_exact_debug_partial",
    "c41_odd_glyph_refuted",
    "c41_exact_release_partial",
    "c41_field_refuted",
    "c41_overflow_refuted",
    "c41_safe_partial",
    "c41_short_partial",
    "c41_cells_refuted",
    "c41_default_refuted",
    "c41_modes_partial"
   ],
   "note": "Refuted as stated, with witnesses on built signs: [f0], rectangle edges over 16 bits, 256 line breaks, fonts lower than the character cells, default justification Full. c41_safe_partial: under conditions excluding these, no panic in either mode for any message; c41_short_partial: every message of at most 128 characters whatever the fonts. c41_modes_partial: under the same conditions both modes render the same pages. c41_exact_debug_partial: on every built sign and for every message, debug builds panic after k pages exactly when the first fault of the message is one of those listed in Spec_Fail as crashes or overflows. c41_exact_release_partial: release builds panic after k pages exactly when it is a crash, for every message that does not make a release build go on with a number that has wrapped around. c41_odd_glyph_refuted: glyphs of a default font 0, which validation skips, reach off the sign. Usable (c41_safe_partial): when the default font number is 0, the glyphs in unused slots of the font table fit their sizes. Missing: release builds once such a number (a count of lines or spans past 8 bits, a width past 16 bits, a row above the sign at which nothing is drawn) has wrapped around."
  },
  {
   "property": "C42",
   "status": "partial",
   "theorems": [
    "c42_inside_partial",
    "c42_too_big_partial",
    "c42_refuted",
    "c42_pages_partial",
    "c42_modes_partial"
   ],
   "note": "Span level: a drawn list of spans changes only pixels of the spans' rectangles, and drawing succeeds exactly when no run is wider and no block higher than its rectangle, else TextTooBig (c42_inside_partial, c42_too_big_partial; conditions: character cells and fonts agree, rectangles on the page, sums below 2^16, debug mode). c42_refuted: on a sign with 7 high character cells and a 5 high font, text in the middle of a [tr] rectangle is drawn above it. c42_pages_partial lifts this to every text rectangle of every page of every message that renders, on signs whose fonts are whole cells high. c42_modes_partial: the same in release builds, for messages on which no number without a check wraps around (c55_wraps says which)."
  },
  {
   "property": "C43",
   "status": "partial",
   "theorems": [
    "c43_text_rectangle_partial",
    "c43_page_partial",
    "c43_refuted"
   ],
   "note": "Refuted in Debug mode for rectangles whose edges overflow 16 bits (panic). Proved: exact acceptance, rectangle in force and error when the arithmetic is exact (Release on signs below 65535 pixels, or edges fitting 16 bits); every [tr] of a yielded page is good."
  },
  {
   "property": "C44",
   "status": "partial",
   "theorems": [
    "c44_columns_partial",
    "c44_refuted",
    "c44_pages_partial",
    "c44_modes_partial"
   ],
   "note": "Spans of a run are drawn at disjoint, ordered columns, neighbours separated by the character spacing (asked for by [sc], else the average of the two fonts' spacing). Conditions: spans of a run numbered in order, text stacked line by line, centred text on character cells has whole-cell widths. c44_refuted: \"[jl2]A[jl2]B\" draws B over A. c44_pages_partial lifts this to every page of every message that renders, for text rectangles whose [jl]/[jp]/[nl] tags are regular (Orderly), with the spans computed from the values of the message. c44_modes_partial: the same in release builds, for messages on which no number without a check wraps around (c55_wraps says which)."
  },
  {
   "property": "C45",
   "status": "partial",
   "theorems": [
    "c45_sides_partial",
    "c45_rows_partial",
    "c45_refuted",
    "c45_sides_pages_partial",
    "c45_rows_pages_partial",
    "c45_sides_modes_partial",
    "c45_rows_modes_partial"
   ],
   "note": "Left, right, centre, top, bottom and middle placement, for every list of spans numbered in order whose lines are stacked. c45_refuted: \"[jl4]A[jl4]B\" leaves a gap at the right edge. c45_sides_pages_partial and c45_rows_pages_partial lift both to every page of every message that renders, for text rectangles whose tags are regular (Orderly). c45_sides_modes_partial and c45_rows_modes_partial: the same in release builds, for messages on which no number without a check wraps around (c55_wraps says which)."
  },
  {
   "property": "C46",
   "status": "proved",
   "theorems": [
    "c46_tag_conflict"
   ],
   "note": "Exact, for every list of spans and both modes."
  },
  {
   "property": "C47",
   "status": "proved",
   "theorems": [
    "c47_blank"
   ],
   "note": "Full, for every built sign and both modes. The condition on fonts is BlankSpaces: whitespace characters draw no pixels."
  },
  {
   "property": "C48",
   "status": "partial",
   "theorems": [
    "c48_prefix_partial",
    "c48_refuted"
   ],
   "note": "Proved for signs that list [np]; refuted for the others (the longer message is refused)."
  },
  {
   "property": "C49",
   "status": "proved",
   "theorems": [
    "c49_not_too_many",
    "c49_too_many",
    "c49_page_unique"
   ],
   "note": "The error is only given for pages with at least 50 [tr]; no page with more than 49 is ever yielded."
  },
  {
   "property": "C50",
   "status": "partial",
   "theorems": [
    "c50_join_modes_partial",
    "c50_partial",
    "c50_join_partial",
    "c50_jl_refuted",
    "c50_join_refuted",
    "c50_lines_refuted",
    "c50_space_refuted",
    "c50_background_refuted",
    "c50_hex_refuted"
   ],
   "note": "On every sign and in both modes: when redundant [jl] tags only stand at the start of a run of texts, no two texts are joined, hexadecimal characters are below 10, and what follows the last shown value is silent (text settings, the end of a line with text, a page break), the normalized message renders a prefix of the pages, identical in raster and time, and the pages it leaves out have one colour on built signs whose space glyphs are blank (c50_partial; the number of pages is whatever Yields gives, which is a function). Texts may also be joined (c50_join_partial), on a built sign whose glyphs are at least one pixel wide and, with character cells, whole cells wide, when the layout of every text rectangle is regular (Orderly, as in C44); in release builds too for messages on which no number without a check wraps around (c50_join_modes_partial). As stated refuted on a built sign by six messages: redundant [jl] in a run, joined texts, blank lines at the end, blank text at the end, background at the end, [hc] printed in decimal."
  },
  {
   "property": "C51",
   "status": "partial",
   "theorems": [
    "c51_never",
    "c51_refuted"
   ],
   "note": "Refuted: the page limit is not enforced; no rendering ever yields TooManyPages (proved for all messages)."
  },
  {
   "property": "C52",
   "status": "partial",
   "theorems": [
    "c52_pictures",
    "c52_background_partial",
    "c52_refuted",
    "c52_modes_partial",
    "c52_background_modes_partial"
   ],
   "note": "c52_pictures gives the whole picture of every page of every message that renders without error: background, graphics, rectangles and text, with settings computed from the values of the message (debug mode, every built sign). c52_background_partial: a pixel in no graphic, colour rectangle or text rectangle holding text has the page background colour, on signs whose fonts are whole cells high and, when the default font number is 0, whose glyphs in unused font slots fit their sizes. c52_refuted: without that condition text can be drawn above its rectangle. c52_modes_partial, c52_background_modes_partial: the same in release builds, for messages on which no number without a check wraps around (c55_wraps says which)."
  },
  {
   "property": "C53",
   "status": "proved",
   "theorems": [
    "c53_font_mut",
    "c53_font_mut_none",
    "c53_font_same",
    "c53_graphic_mut",
    "c53_graphic_mut_none",
    "c53_graphic_same"
   ],
   "note": "Lookup and mutation address the first slot with the number; every other slot is unchanged."
  },
  {
   "property": "C54",
   "status": "partial",
   "theorems": [
    "c54_modes_partial",
    "c54_lines_partial",
    "c54_pages_partial",
    "c54_refuted"
   ],
   "note": "For every list of spans numbered in order whose lines are stacked (c54_lines_partial), and for every page of every message that renders, in text rectangles whose tags are regular (c54_pages_partial; release builds, when no number without a check wraps around: c54_modes_partial). c54_refuted: \"[jp2]A[jp4][nl]B[nl]A\" draws the last two lines over each other."
  },
  {
   "property": "C55",
   "status": "partial",
   "theorems": [
    "c55_cause_partial",
    "c55_accepted_partial",
    "c55_exclusive",
    "c55_exact_debug_partial",
    "c55_total_debug_partial",
    "c55_cause_modes_partial",
    "c55_exact_partial",
    "c55_wraps",
    "c55_accepted_wraps",
    "c55_no_crash_partial",
    "c55_release_refuted",
    "c55_too_high"
   ],
   "note": "For every message: the first error given has its cause at the first fault, in order of the checks: a malformed or unlisted tag, a background that cannot be shown, a graphic, rectangle or colour that cannot be drawn, a tag value that cannot be followed, justification, then the first span that cannot be placed (a font or character of its run, width of the run, a font of its block, height of the block), a 51st text rectangle (c55_cause_partial). A message that only gives pages has none of these (c55_accepted_partial). No message both has a fault and has none, and the fault and the number of pages before it are determined (c55_exclusive); debug builds give pages only, an error, or a panic exactly as described, with no condition on the message (c55_exact_debug_partial, c55_total_debug_partial); in both modes every message on which no number without a check wraps around is rendered exactly when nothing is wrong with it, gives an error e after k pages exactly when that is its first fault in that build, and panics exactly when that is (c55_exact_partial, c55_cause_modes_partial; release builds report the rectangles on which debug builds overflow); which messages those are is determined (c55_wraps, c55_accepted_wraps); messages under the conditions of c41_safe_partial have no crash (c55_no_crash_partial). All on every built sign. c55_release_refuted: once a width has wrapped around, release builds can give the pages of a message with text too big for the sign. Missing: release builds after a number has wrapped around."
  },
  {
   "property": "C56",
   "status": "partial",
   "theorems": [
    "c56_unique",
    "c56_unique_accepted",
    "c56_unique_fails",
    "c56_modes_partial",
    "c56_builds_partial",
    "c56_exact_debug_partial",
    "c56_debug_partial",
    "c56_regular_x",
    "c56_regular_y"
   ],
   "note": "The description of the pages of a message fixes their number, durations, sizes and every pixel, with no condition on sign or message (c56_unique, c56_unique_accepted), and the error that ends them (c56_unique_fails). On every built sign the pages that describe a message are those it is rendered to, up to its first fault, in both modes (c56_modes_partial); both builds then give the error or panic described (c56_builds_partial, c56_exact_debug_partial, c56_debug_partial). Text is at the places of Spec_Layout when the layout is regular (c56_regular_x, c56_regular_y); c56_irregular is a layout that is not. Missing: release builds from the page on which a number wraps around (c55_release_refuted has such a page)."
  },
  {
   "property": "C57",
   "status": "partial",
   "theorems": [
    "c57_image",
    "c57_one_image",
    "c57_bytes",
    "c57_panics",
    "c57_size_partial",
    "c57_size_refuted"
   ],
   "note": "Every file written is an image of exactly the raster (c57_image, c57_one_image), in both modes. Refuted: the file size in the header leaves out the row padding (c57_size_refuted; right exactly for widths that are multiples of 4, c57_size_partial), and debug builds panic on files of 2^32 bytes or more (c57_panics is exact)."
  },
  {
   "property": "C58",
   "status": "proved",
   "theorems": [
    "c58_syntax",
    "c58_sign",
    "c58_parts"
   ],
   "note": "Injectivity of the messages of each error type; numbers inside errors are of type u8."
  },
  {
   "property": "C59",
   "status": "proved",
   "theorems": [
    "c59_builds",
    "c59_tags",
    "c59_setters"
   ],
   "note": "Every number of slots, both modes; tags by complement of those not rendered."
  },
  {
   "property": "C60",
   "status": "proved",
   "theorems": [
    "c60_classic",
    "c60_schemes"
   ],
   "note": "All codes, all strings."
  },
  {
   "property": "C61",
   "status": "proved",
   "theorems": [
    "c61_reads"
   ],
   "note": "All property lists whose bitmap heights are not negative (they are bytes); the text syntax is the external tfon crate."
  },
  {
   "property": "C62",
   "status": "proved",
   "theorems": [
    "c62_lines",
    "c62_unique",
    "c62_count",
    "c62_cut",
    "c62_text"
   ],
   "note": "Every built sign, pattern and message, in both builds; a mismatch gives the empty list, like a pattern without room."
  },
  {
   "property": "C63",
   "status": "proved",
   "theorems": [
    "c63_widths",
    "c63_widths_unique",
    "c63_fill",
    "c63_fill_unique"
   ],
   "note": "Every built sign and pattern, in both builds; C33 to C36 give the results for patterns without faults."
  },
  {
   "property": "C64",
   "status": "partial",
   "theorems": [
    "c64_fits_partial",
    "c64_font_refuted",
    "c64_spacing_refuted",
    "c64_hex_refuted",
    "c64_version_refuted"
   ],
   "note": "Refuted as stated: fill writes a font tag after the lines of the next text rectangle although widths measures them in that font; widths also ignores changes of character spacing, hexadecimal characters and font versions. Proved for patterns without these, for at most 256 lines without tags, on signs whose text can be placed (conditions of C41). Hexadecimal characters may stand outside fillable areas (they are reprinted in decimal, as another character)."
  },
  {
   "property": "C65",
   "status": "proved",
   "theorems": [
    "c65_sources",
    "c65_scheme",
    "c65_defaults",
    "c65_graphic_colors"
   ],
   "note": "Every page of both builds, also before a failure; an example shows that 24-bit graphics show their own colours on monochrome signs."
  },
  {
   "property": "C66",
   "status": "proved",
   "theorems": [
    "c66_rendered",
    "c66_described"
   ],
   "note": "Every message on every built sign; release builds are C55 and C56."
  },
  {
   "property": "C67",
   "status": "proved",
   "theorems": [
    "c67_case"
   ],
   "note": "Every sign, message and mode; the error may quote the tag in its own case (CaseError)."
  },
  {
   "property": "C68",
   "status": "proved",
   "theorems": [
    "c68_depends"
   ],
   "note": "Every two signs, built or not, every message and mode."
  },
  {
   "property": "C69",
   "status": "proved",
   "theorems": [
    "c69_settings",
    "c69_joined"
   ],
   "note": "Every sign that lists np, every text behind the break (also one that fails or panics), both modes; the message before the break has to yield only pages."
  },
  {
   "property": "C70",
   "status": "proved",
   "theorems": [
    "c70_text",
    "c70_normalize",
    "c70_widths",
    "c70_fill",
    "c70_lines"
   ],
   "note": "Two strings related by Recased (tokens equal, or tags whose characters differ only in letter case). Free text is carried by [ms] and moving text tags; c70_free_text shows the condition of c70_lines is needed. An error or panic of one is an error or panic of the other."
  },
  {
   "property": "C71",
   "status": "proved",
   "theorems": [
    "c71_depends"
   ],
   "note": "Over every two signs that agree as stated; c71_heights shows that the height of a font does matter."
  },
  {
   "property": "C72",
   "status": "proved",
   "theorems": [
    "c72_repaint",
    "c72_times",
    "c72_shape",
    "c72_negative"
   ],
   "note": "Signs with equal sizes, fonts, graphics, tags, colour scheme, default font and justifications (SameFace); message tokens pairwise equal or with colours and times replaced (Repainted); a colour the sign cannot show may only be replaced by another it cannot show. 1-bit graphics follow the colours of tags, others must satisfy RepaintedGraphics. Errors agree up to the tag text they quote."
  },
  {
   "property": "C73",
   "status": "proved",
   "theorems": [
    "c73_moved",
    "c73_unframed",
    "c73_modes"
   ],
   "note": "Both messages are assumed to render in a debug build (then they do in release builds, with the same pages): moving can push something off the sign, and on character-matrix signs rounding can push text out of its rectangle (c42_refuted). Places of width or height 0 reach to the edge of the sign and are excluded. c73_unframed shows the condition on text is needed. c73_modes: release builds, for messages on which no number without a check wraps around."
  },
  {
   "property": "C74",
   "status": "proved",
   "theorems": [
    "c74_set_into",
    "c74_larger",
    "c74_unframed",
    "c74_modes"
   ],
   "note": "The message is assumed to render in a debug build of the smaller sign; the larger sign then renders in both builds. Rectangles of width or height 0 reach to the edge of the sign and are excluded; every graphic that the smaller sign finds must be the one that the larger finds. Blank pages may have the size of a text rectangle on both signs. c74_unframed shows the condition on text is needed. c74_modes: release builds, for messages on which no number without a check wraps around."
  },
  {
   "property": "C75",
   "status": "proved",
   "theorems": [
    "c75_sections",
    "c75_rectangle"
   ],
   "note": "All tags of both messages must be ones the sign supports (otherwise the error may name another tag), and tags whose rendering is not implemented (fields, flashing, moving text, manufacturer tags) are excluded. c75_rectangle shows why sections matter: a colour rectangle behind a text rectangle tag hides text before it."
  },
  {
   "property": "C76",
   "status": "proved",
   "theorems": [
    "c76_spelled"
   ],
   "note": "Pieces of text next to each other read as one piece, so the two messages must have corresponding pieces (for example a tag on both sides of the character)."
  },
  {
   "property": "C77",
   "status": "proved",
   "theorems": [
    "c77_redundant",
    "c77_line"
   ],
   "note": "The claim names the exception, which is shown by c77_line. Background tags [cb] are not among the tags added: within a page they matter for graphics."
  },
  {
   "property": "C78",
   "status": "proved",
   "theorems": [
    "c78_redrawn",
    "c78_over"
   ],
   "note": "Stated for messages whose pages render; when a picture is in error, leaving it out or moving it changes which error comes first."
  },
  {
   "property": "C79",
   "status": "proved",
   "theorems": [
    "c79_swapped",
    "c79_whole",
    "c79_over",
    "c79_blank"
   ],
   "note": "Stated for messages whose pages render. Release builds: where no number wraps around. Text rectangles before a blank page are excluded because the claim is false there (c79_blank)."
  },
  {
   "property": "C80",
   "status": "proved",
   "theorems": [
    "c80_less",
    "c80_lines",
    "c80_last"
   ],
   "note": "Stated for messages whose pages render: leaving out a text rectangle that is refused, or one too many, may turn an error into pages."
  },
  {
   "property": "C81",
   "status": "proved",
   "theorems": [
    "c81_split",
    "c81_tag",
    "c81_meaning",
    "c81_blank",
    "c81_spans",
    "c81_join",
    "c81_merged"
   ],
   "note": "An equivalence for the pieces; the other theorems follow from it. is_blank, text_spans and join_text are stated where reading both messages does not panic."
  },
  {
   "property": "C82",
   "status": "proved",
   "theorems": [
    "c82_more",
    "c82_same",
    "c82_needed"
   ],
   "note": "c82_more: monotone in the supported tags; c82_same: only the tags in the message count; c82_needed: a tag of the message does count."
  },
  {
   "property": "C83",
   "status": "proved",
   "theorems": [
    "c83_below",
    "c83_kept",
    "c83_bottom"
   ],
   "note": "c83_below: every pixel unchanged, or below all earlier lines with the colour of an added text; c83_kept: rows of the earlier lines unchanged; c83_bottom: bottom-justified text does move."
  },
  {
   "property": "C84",
   "status": "proved",
   "theorems": [
    "c84_width",
    "c84_joined",
    "c84_missing",
    "c84_drawn",
    "c84_narrow"
   ],
   "note": "c84_width and c84_joined: widths of the whole and of the parts; c84_drawn: the same raster in two steps; c84_missing: errors of the first part; c84_narrow: the condition on the second part is needed."
  },
  {
   "property": "C85",
   "status": "proved",
   "theorems": [
    "c85_beside",
    "c85_centre"
   ],
   "note": "c85_beside: every pixel unchanged, or right of the earlier text of the run with the colour of an added text; c85_centre: centred text moves."
  },
  {
   "property": "C86",
   "status": "proved",
   "theorems": [
    "c86_block",
    "c86_run"
   ],
   "note": "c86_block: text in a later page justification; c86_run: text in a later line justification."
  },
  {
   "property": "C87",
   "status": "proved",
   "theorems": [
    "c87_below",
    "c87_behind",
    "c87_apart"
   ],
   "note": "c87_below, c87_behind, c87_apart: C83, C85 and C86 for any page, with the position of the page and the pages before it."
  },
  {
   "property": "C88",
   "status": "proved",
   "theorems": [
    "c88_above",
    "c88_top"
   ],
   "note": "c88_above: every pixel unchanged or of the colour of an added text; c88_top: text at the top moves down."
  },
  {
   "property": "C89",
   "status": "proved",
   "theorems": [
    "c89_ahead",
    "c89_left"
   ],
   "note": "c89_ahead: every pixel unchanged or of the colour of an added text; c89_left: text at the left moves."
  },
  {
   "property": "C90",
   "status": "proved",
   "theorems": [
    "c90_within",
    "c90_ahead",
    "c90_center"
   ],
   "note": "c90_within: every pixel unchanged or of the colour of an added text; c90_ahead: the same in front of text at the right; c90_center: text in the centre moves."
  },
  {
   "property": "C91",
   "status": "proved",
   "theorems": [
    "c91_prefix",
    "c91_trail",
    "c91_both",
    "c91_first",
    "c91_errors",
    "c91_settings"
   ],
   "note": "c91_prefix, c91_trail (exact), c91_both, c91_first, c91_errors; c91_settings: the second may not be normalized before."
  },
  {
   "property": "C92",
   "status": "proved",
   "theorems": [
    "c92_kind",
    "c92_widths",
    "c92_extra",
    "c92_line",
    "c92_missing"
   ],
   "note": "c92_kind, c92_widths, c92_extra, c92_line; c92_missing: a missing line and an empty line differ. No condition on the sign."
  },
  {
   "property": "C93",
   "status": "proved",
   "theorems": [
    "c93_widths",
    "c93_fill",
    "c93_rectangle"
   ],
   "note": "c93_widths, c93_fill; c93_rectangle: a text rectangle after the first page takes its lines away."
  },
  {
   "property": "C94",
   "status": "proved",
   "theorems": [
    "c94_widths",
    "c94_text"
   ],
   "note": "c94_widths, for any sign, built or not; c94_text: text makes a difference."
  },
  {
   "property": "C95",
   "status": "proved",
   "theorems": [
    "c95_count",
    "c95_refill"
   ],
   "note": "c95_count, c95_refill."
  }
 ]
}
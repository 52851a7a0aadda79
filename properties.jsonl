{"id": "C01", "title": "Splitting a MULTI string is lossless", "statement": "Concatenating the pieces that multi::split(ms) yields, in order, gives back exactly ms; every piece is non-empty; the iterator ends.", "quantifier": "every MULTI string (any sequence of Unicode characters, any length)", "why_tests_cant": "Only finitely many strings can be tried; losslessness must hold for every bracket arrangement and every mix of 1- to 4-byte characters.", "anchors": ["src/dms/multi.rs: split, MultiSplitter, MultiStr::next_slice, chop_start"]}
{"id": "C02", "title": "Pieces follow the MULTI token grammar", "statement": "Each piece of multi::split(ms) is exactly one of: an escaped bracket ([[ or ]]), a complete tag [..] with no bracket inside, an unterminated tag, a stray ], or a non-empty bracket-free text run; the tokenisation is the unique one given by the longest-match grammar.", "quantifier": "every MULTI string", "why_tests_cant": "The grammar is about all bracket sequences, including nested and unterminated ones of any length.", "anchors": ["src/dms/multi.rs: MultiStr::next_slice"]}
{"id": "C03", "title": "Parsing never panics", "statement": "normalize, is_blank, text_spans, join_text and the renderer's parser return (values or syntax errors) without panicking, whatever characters the string contains.", "quantifier": "every MULTI string, including tags holding non-ASCII characters", "why_tests_cant": "A panic on some rare byte pattern inside one kind of tag is invisible unless that exact pattern is tested.", "anchors": ["src/dms/multi.rs: parse_tag, parse_flash_time, parse_moving_text, parse_moving_text_linear, parse_moving_text_mode"]}
{"id": "C04", "title": "Tag grammar: accepted tags and their values", "statement": "A bracketed tag is accepted exactly when it matches the documented form for its two-letter (case-insensitive) code, and it denotes the value with exactly the written parameters; everything else is an UnsupportedTag or UnsupportedTagValue error quoting the tag text.", "quantifier": "every tag body string", "why_tests_cant": "The set of accepted and rejected tag bodies is infinite (numbers with any number of digits, optional parts, wrong separators).", "anchors": ["src/dms/multi.rs: parse_tag and all parse_* functions, Value::try_from"]}
{"id": "C05", "title": "Parsed parameters are in range", "statement": "Every value obtained by parsing satisfies its documented limits: font and graphic numbers are 1-255, rectangle and graphic positions are at least 1, flash times at most 99, field ids below 14, character spacing below 100, line spacing at most 9, colours 0-255.", "quantifier": "every MULTI string and every value parsed from it", "why_tests_cant": "It is a universal claim over all numerals that can be written in a tag.", "anchors": ["src/dms/multi.rs: parse_rectangle, parse_nonzero, parse_optional_99, parse_new_line, parse_spacing_character, parse_field"]}
{"id": "C06", "title": "Printing then parsing a value gives the same value", "statement": "For every value that the parser can produce, formatting it back to MULTI and parsing that text yields one value, equal to the original.", "quantifier": "every parsable value", "why_tests_cant": "There are billions of values (16-bit coordinates, version ids, free text).", "anchors": ["src/dms/multi.rs: impl Display for Value, Value::try_from"]}
{"id": "C07", "title": "normalize is idempotent", "statement": "normalize(normalize(ms)) == normalize(ms).", "quantifier": "every MULTI string", "why_tests_cant": "Normalisation merges text runs, drops tags and reprints values; interactions between dropped pieces need all strings.", "anchors": ["src/dms/multi.rs: normalize"]}
{"id": "C08", "title": "normalize produces only well-formed MULTI", "statement": "Every piece of normalize(ms) parses without error.", "quantifier": "every MULTI string", "why_tests_cant": "Must hold for every malformed input.", "anchors": ["src/dms/multi.rs: normalize"]}
{"id": "C09", "title": "normalize preserves visible content", "statement": "normalize(ms) contains the same visible content as ms, in the same order: the concatenation of non-trailing text characters and every non-blank tag value is unchanged, and nothing visible is added or dropped.", "quantifier": "every MULTI string", "why_tests_cant": "It relates the full token sequences of input and output for arbitrary inputs.", "anchors": ["src/dms/multi.rs: normalize, Value::is_blank"]}
{"id": "C10", "title": "normalize removes trailing blanks and redundant tags only", "statement": "normalize(ms) is empty or ends with a non-blank value, and among the [cf], [fo], [jl], [jp] tags of the output no tag repeats the value already in force.", "quantifier": "every MULTI string", "why_tests_cant": "Depends on the whole history of state-setting tags.", "anchors": ["src/dms/multi.rs: normalize"]}
{"id": "C11", "title": "is_blank agrees with content and with normalize", "statement": "is_blank(ms) is true exactly when every piece of ms parses and none of them is a graphic, field, hexadecimal character, colour rectangle, moving text, manufacturer tag or non-whitespace text; and then normalize(ms) is empty. Conversely if normalize(ms) is empty and ms has no malformed piece then is_blank(ms).", "quantifier": "every MULTI string", "why_tests_cant": "Universal over strings.", "anchors": ["src/dms/multi.rs: is_blank, Value::is_blank, normalize"]}
{"id": "C12", "title": "Text extraction returns the unescaped text", "statement": "If plain text (characters U+0001 to U+00FF, brackets allowed) is escaped by doubling brackets, join_text(escaped, \"\") returns the plain text; text_spans yields only text and ignores every tag and malformed piece; join_text inserts the separator exactly between consecutive spans.", "quantifier": "every text, every MULTI string, every separator", "why_tests_cant": "Universal over texts.", "anchors": ["src/dms/multi.rs: text_spans, join_text"]}
{"id": "C13", "title": "Tags are case-insensitive", "statement": "Changing the letter case of a tag's code (and of the t/o/l/r/c letters and hexadecimal digits in its parameters) does not change the parsed value or whether it is accepted.", "quantifier": "every tag body", "why_tests_cant": "Infinite set of bodies and casings.", "anchors": ["src/dms/multi.rs: parse_tag, parse_flash_on, parse_flash_off, parse_page_time, parse_version_id"]}
{"id": "C14", "title": "8-bit monochrome levels interpolate from background to foreground", "statement": "On an 8-bit monochrome sign, level 0 is the background colour, level 255 is the foreground colour, and level v is background + floor(v*(foreground-background)/255) per component, monotone in v.", "quantifier": "every pair of colour components and every level", "why_tests_cant": "16.7 million triples and an arithmetic shortcut for dividing by 255 that is only right in range.", "anchors": ["src/dms/multi.rs: ColorCtx::lerp, rgb_monochrome_8"]}
{"id": "C15", "title": "Setting a colour validates it against the colour scheme", "statement": "A colour tag is accepted exactly when the scheme can represent it (0/1 for 1-bit, any 8-bit level for 8-bit, 0-9 for classic, 0-9 or RGB for 24-bit); once accepted the current colour resolves to that RGB; a rejected colour leaves the context unchanged; no parameter restores the default.", "quantifier": "every colour context and every colour", "why_tests_cant": "Cross product of schemes, defaults and colours.", "anchors": ["src/dms/multi.rs: ColorCtx::set_foreground, set_background, foreground_rgb, background_rgb, rgb"]}
{"id": "C16", "title": "Rectangle intersection is set intersection", "statement": "The intersection of two rectangles contains exactly the pixels in both when they overlap, and is the empty rectangle at 1,1 otherwise; containment agrees with pixel-set inclusion; no arithmetic fault occurs.", "quantifier": "every pair of rectangles with 16-bit fields", "why_tests_cant": "2^128 pairs; edge sums can exceed 16 bits.", "anchors": ["src/dms/multi.rs: Rectangle::intersection, contains, extend_width_height"]}
{"id": "C17", "title": "OER encoding is uniquely decodable", "statement": "The length prefix, unsigned integer and octet-string encodings are prefix-free and injective: a decoder recovers the value and the remaining bytes from the encoding followed by anything; and distinct valid fonts (different number, height, spacing, or defined characters) have distinct encodings.", "quantifier": "every integer below 2^32, every octet string, every pair of fonts", "why_tests_cant": "Universal over values and over pairs of fonts.", "anchors": ["src/dms/oer.rs: Oer::length_prefix, uint, octet_string", "src/dms/font/mod.rs: Font::version_id"]}
{"id": "C18", "title": "Version id detects local changes", "statement": "Two fonts (or graphics) whose encodings have the same length and differ only inside a window of two consecutive bytes have different version ids; the id is a pure function of number, sizes, spacing and defined characters and ignores the name and unused character slots.", "quantifier": "every pair of encodings, any length, any position", "why_tests_cant": "CRC collision-freeness for bursts is an algebraic fact over all messages.", "anchors": ["src/dms/font/mod.rs: Font::version_id, CRC", "src/dms/graphic.rs: Graphic::version_id"]}
{"id": "C19", "title": "Font validation accepts exactly well-formed fonts", "statement": "Font::validate returns Ok exactly when the number and height are at least 1, every defined character's bitmap has ceil(width*height/8) bytes, and defined character numbers are pairwise distinct; otherwise it returns the error for the first violated rule; it never panics.", "quantifier": "every font of every capacity", "why_tests_cant": "Universal over character tables.", "anchors": ["src/dms/font/mod.rs: Font::validate, validate_char_numbers, CharacterEntry::is_valid"]}
{"id": "C20", "title": "Validated font tables have unique fonts", "statement": "After FontTable::validate succeeds, looking up a font number 1-255 returns the only font with that number, or nothing if no font has it; lookup of a character returns the only entry with that number.", "quantifier": "every font table of every capacity", "why_tests_cant": "Universal over tables.", "anchors": ["src/dms/font/mod.rs: FontTable::validate, font, font_mut, Font::character"]}
{"id": "C21", "title": "Text width is the sum of character widths and spacing", "statement": "text_width returns the sum of the widths of the characters plus the spacing between consecutive characters (none before the first drawn pixel column), or InvalidChar for the first character not in the font; without overflow faults.", "quantifier": "every font, text and spacing", "why_tests_cant": "Universal over texts of any length; 16-bit accumulation.", "anchors": ["src/dms/font/mod.rs: Font::text_width, Font::character"]}
{"id": "C22", "title": "Glyph rendering agrees with is_pixel_lit", "statement": "Rendering text draws, for each character, exactly the pixels that is_pixel_lit reports for it, offset by the character's position, in the foreground colour, and changes no other pixel.", "quantifier": "every valid font, text, position and raster", "why_tests_cant": "Bit-level agreement of two separately written bitmap readers, for every width and height.", "anchors": ["src/dms/font/mod.rs: CharacterEntry::render_char, is_pixel_lit, Font::render_text"]}
{"id": "C23", "title": "Font::width reports the fixed width", "statement": "Font::width returns w when every defined character of the font has width w, and 0 when two defined characters differ in width.", "quantifier": "every font", "why_tests_cant": "Universal over character tables, including partly filled ones.", "anchors": ["src/dms/font/mod.rs: Font::width"]}
{"id": "C24", "title": "tfon properties round-trip", "statement": "Writing a valid font to .tfon properties and reading them back yields a font with the same name, number, spacings, height and defined characters in order; reading never panics.", "quantifier": "every valid font; every sequence of .tfon properties", "why_tests_cant": "Universal over fonts and property sequences.", "anchors": ["src/dms/font/tfon.rs: parse, write"]}
{"id": "C25", "title": "Graphic validation and memory safety", "statement": "Graphic::validate accepts exactly graphics with number and size in range, bitmap length matching the colour scheme and a matching transparent colour type; for such a graphic no pixel access is out of range.", "quantifier": "every graphic and sign size", "why_tests_cant": "Universal over bitmaps and sizes.", "anchors": ["src/dms/graphic.rs: Graphic::validate, is_bitmap_valid, is_transparent_color_valid, pixel_1, pixel_8, pixel_24"]}
{"id": "C26", "title": "to_raster gives every pixel its documented colour", "statement": "Graphic::to_raster of a valid graphic yields a width x height raster in which each pixel is the colour encoded in the bitmap (bit for 1-bit, intensity level for 8-bit, index for classic, BGR bytes for 24-bit), transparent where it equals the transparent colour.", "quantifier": "every valid graphic and every pixel", "why_tests_cant": "Universal over bitmaps.", "anchors": ["src/dms/graphic.rs: Graphic::to_raster, pixel_fn"]}
{"id": "C27", "title": "A graphic tag paints exactly the graphic", "statement": "[gN,x,y] paints the N-th graphic's non-transparent pixels at x,y in the current colours, changes no pixel outside that area, and fails with an error exactly when it does not fit on the sign, is not defined, or its version id differs.", "quantifier": "every sign, graphic table, position and page content", "why_tests_cant": "Universal over graphics, positions and colour contexts.", "anchors": ["src/dms/render.rs: Pages::render_graphics, Pages::graphic", "src/dms/graphic.rs: Graphic::render_graphic"]}
{"id": "C28", "title": "A colour rectangle tag paints exactly its rectangle", "statement": "[crx,y,w,h,c] sets exactly the pixels of the rectangle (zero width/height meaning up to the sign edge) to the colour and no other pixel, and is rejected exactly when the rectangle leaves the sign or the colour is not supported.", "quantifier": "every sign size, rectangle and colour", "why_tests_cant": "16-bit coordinates: 2^64 rectangles.", "anchors": ["src/dms/render.rs: render_rect, Pages::render_graphics", "src/dms/multi.rs: Rectangle::extend_width_height, intersection"]}
{"id": "C29", "title": "Building a sign validates the whole configuration", "statement": "DmsBuilder::build returns Ok exactly when borders plus pixels times pitch fit the face in both directions, the page settings are consistent, the fonts are valid with unique numbers and the graphics that fit the sign are valid with unique numbers; otherwise it returns the first error in that order; it never panics.", "quantifier": "every sign, VMS and MULTI configuration, font table and graphic table", "why_tests_cant": "Universal over configurations.", "anchors": ["src/dms/sign.rs: DmsBuilder::build", "src/dms/config.rs: SignCfg::validate, MultiCfg::validate", "src/dms/font/mod.rs: FontTable::validate", "src/dms/graphic.rs: GraphicTable::validate, retain"]}
{"id": "C30", "title": "Rebuilding a built sign changes nothing", "statement": "For a built sign, into_builder().build() succeeds and returns the same sign; oversize graphics removed by the first build stay removed and all others are untouched.", "quantifier": "every built sign", "why_tests_cant": "Universal over signs.", "anchors": ["src/dms/sign.rs: Dms::into_builder, DmsBuilder::build", "src/dms/graphic.rs: GraphicTable::retain"]}
{"id": "C31", "title": "Pixel positions lie on the face and are ordered", "statement": "pixel_x(x,width) for a pixel on the sign lies between 0 and width and increases with x; likewise pixel_y.", "quantifier": "every sign configuration, pixel and output size", "why_tests_cant": "Floating-point geometry over all configurations.", "anchors": ["src/dms/sign.rs: Dms::pixel_x, pixel_y, border_horiz_mm, char_offset_mm, pitch_horiz_mm"]}
{"id": "C32", "title": "Lines per rectangle is the maximum that fits", "statement": "The number of fillable lines reported for a rectangle is the largest n such that n lines of the font (with its line spacing between them) fit its height; on character- or line-matrix signs lines have the character height and a taller font gives 0; an undefined font gives 0; the computation ends.", "quantifier": "every sign, rectangle and font number", "why_tests_cant": "Loop over heights for every configuration.", "anchors": ["src/dms/sign.rs: Dms::rect_lines"]}
{"id": "C33", "title": "Pattern widths enumerate fillable lines", "statement": "MessagePattern::widths yields, for each fillable rectangle in order, one entry per line with that rectangle's width, font and 0-based rectangle number.", "quantifier": "every sign and pattern", "why_tests_cant": "Universal over patterns.", "anchors": ["src/dms/pattern.rs: MessagePattern::widths, PatIter::next"]}
{"id": "C34", "title": "Filling a pattern then extracting lines returns the lines", "statement": "If as many plain text lines as the pattern has fillable lines are filled in, lines() applied to the result returns exactly those lines.", "quantifier": "every sign, pattern and list of lines", "why_tests_cant": "Round trip over all patterns and texts.", "anchors": ["src/dms/pattern.rs: MessagePattern::fill, lines"]}
{"id": "C35", "title": "Filling keeps the pattern's own content", "statement": "fill() with no lines yields the pattern's own values reprinted in order; with lines it only inserts the given lines, joined by [nl], in the fillable parts, using each line at most once and in order.", "quantifier": "every sign, pattern and lines", "why_tests_cant": "Universal over patterns.", "anchors": ["src/dms/pattern.rs: MessagePattern::fill"]}
{"id": "C36", "title": "Fill works on single-page signs", "statement": "On a sign that does not support the new-page tag (allowed when it has one page), filling a pattern whose tags are all supported inserts the lines.", "quantifier": "every such sign and pattern", "why_tests_cant": "Universal over configurations.", "anchors": ["src/dms/pattern.rs: PatIter::next, MessagePattern::fill", "src/dms/config.rs: MultiCfg::validate"]}
{"id": "C37", "title": "Every page raster has the sign's size", "statement": "Every page yielded by Pages has a raster of exactly the sign's pixel width and height.", "quantifier": "every sign, MULTI string and page, ON and OFF", "why_tests_cant": "Universal over messages and page sequences.", "anchors": ["src/dms/render.rs: Pages::build_raster, render_on_page, render_off_page"]}
{"id": "C38", "title": "Page sequence and durations", "statement": "A message with n new-page tags renders to n+1 ON pages, each followed by an OFF page exactly when its page-off time is positive; each ON (OFF) page's duration is the page-on (off) time in force, set by the last [pt] tag on or before that page, else the sign default.", "quantifier": "every sign and every message that renders without error", "why_tests_cant": "Sequence property over arbitrarily many pages.", "anchors": ["src/dms/render.rs: Pages::next, PageState, render_on_page, render_off_page, update_page_state"]}
{"id": "C39", "title": "Page iteration ends", "statement": "Iterating Pages yields finitely many items.", "quantifier": "every sign and every MULTI string, well-formed or not", "why_tests_cant": "Termination over all strings; error paths can repeat for ever.", "anchors": ["src/dms/render.rs: Pages::next, render_on_page, check_unsupported"]}
{"id": "C40", "title": "Unsupported tags are refused", "statement": "If a page contains a tag the sign does not support, or a malformed piece, rendering that page yields an error naming it and no raster; a page is only yielded when all its tags are supported.", "quantifier": "every sign's tag set and every message", "why_tests_cant": "Universal over tag sets and messages.", "anchors": ["src/dms/render.rs: Pages::check_unsupported"]}
{"id": "C41", "title": "Rendering never panics", "statement": "Rendering any message on any built sign yields pages or errors without panicking.", "quantifier": "every built sign and MULTI string", "why_tests_cant": "Index, overflow and unreachable! sites reached only by particular combinations.", "anchors": ["src/dms/render.rs: Pages::next and everything it calls"]}
{"id": "C42", "title": "Text stays inside its text rectangle", "statement": "Text drawn for a text rectangle changes only pixels inside that rectangle; if the text of a line or the lines do not fit the rectangle the result is TextTooBig instead of drawing outside.", "quantifier": "every sign, text rectangle, font and message", "why_tests_cant": "Geometric claim over all layouts.", "anchors": ["src/dms/render.rs: Pages::render_text_spans, span_x, span_y, offset_horiz, offset_vert"]}
{"id": "C43", "title": "Text rectangles lie on the sign and on character boundaries", "statement": "A [tr] tag is accepted exactly when its rectangle (zero width/height extended to the edge) lies on the sign and, on character- or line-matrix signs, starts and ends on character boundaries; otherwise an UnsupportedTagValue error is given.", "quantifier": "every sign and rectangle", "why_tests_cant": "2^64 rectangles per sign.", "anchors": ["src/dms/render.rs: Pages::update_text_rectangle"]}
{"id": "C44", "title": "Text on one line does not overlap", "statement": "Two different text spans with the same page and line justification on the same line occupy disjoint, ordered column ranges separated by the character spacing.", "quantifier": "every message and sign", "why_tests_cant": "Pairs of spans in arbitrary messages.", "anchors": ["src/dms/render.rs: Pages::offset_horiz, span_x_left, span_x_center, span_x_right"]}
{"id": "C45", "title": "Justification places lines at the edge or centre", "statement": "Left-justified text starts at the rectangle's left edge, right-justified text ends at its right edge, centred text has left and right margins differing by at most one pixel (before truncation to character cells); top, bottom and middle likewise vertically.", "quantifier": "every sign, rectangle and text", "why_tests_cant": "Arithmetic over all widths.", "anchors": ["src/dms/render.rs: span_x_left, span_x_center, span_x_right, baseline_top, baseline_middle, baseline_bottom"]}
{"id": "C46", "title": "Justification order is enforced", "statement": "Text whose page justification goes backwards, or whose line justification goes backwards within a line, gives TagConflict; otherwise no TagConflict occurs.", "quantifier": "every list of text spans", "why_tests_cant": "Universal over sequences of justification changes.", "anchors": ["src/dms/render.rs: Pages::check_justification"]}
{"id": "C47", "title": "Blank messages render blank", "statement": "If is_blank(ms) and rendering succeeds, every page is uniformly the page background colour (for fonts whose whitespace characters have no lit pixels).", "quantifier": "every sign and blank message", "why_tests_cant": "Universal over blank messages.", "anchors": ["src/dms/multi.rs: is_blank", "src/dms/render.rs: Pages::next"]}
{"id": "C48", "title": "Pages before a new-page tag do not depend on what follows", "statement": "The pages rendered for ms1 appear unchanged as the first pages of ms1[np]ms2.", "quantifier": "all messages ms1, ms2", "why_tests_cant": "Universal over continuations.", "anchors": ["src/dms/render.rs: Pages::next, update_page_state, render_text_rectangle"]}
{"id": "C49", "title": "Text rectangle limit", "statement": "A page with at most 49 [tr] tags is not rejected for having too many text rectangles, and one with more is always rejected.", "quantifier": "every page", "why_tests_cant": "Counting property over arbitrary pages.", "anchors": ["src/dms/render.rs: MAX_TEXT_RECTANGLES, render_on_page"]}
{"id": "C50", "title": "normalize does not change what is displayed", "statement": "If ms renders without error, normalize(ms) (which only removes trailing blank content) renders its remaining pages with the same rasters.", "quantifier": "every sign and message", "why_tests_cant": "Relates two renderings for all messages.", "anchors": ["src/dms/multi.rs: normalize", "src/dms/render.rs: render_text_rectangle (JustificationLine)"]}
{"id": "C51", "title": "Maximum page count is enforced", "statement": "Rendering a message with more pages than the sign's max_number_pages yields TooManyPages.", "quantifier": "every sign and message", "why_tests_cant": "Universal over page counts.", "anchors": ["src/dms/config.rs: MultiCfg::max_number_pages", "src/dms/render.rs: Pages::next", "src/dms/multi.rs: SyntaxError::TooManyPages"]}
{"id": "C52", "title": "Uncovered pixels keep the page background", "statement": "On a successfully rendered page, every pixel outside all colour rectangles, graphics and text rectangles of the page has the page background colour.", "quantifier": "every sign, message, page and pixel", "why_tests_cant": "Frame property over arbitrary pages.", "anchors": ["src/dms/render.rs: Pages::render_on_page"]}
{"id": "C53", "title": "Reusing an unused slot: font_mut(0) and graphic_mut(0)", "statement": "font_mut(n) gives access to the same font that font(n) returns; replacing the font found for number 0 fills the first unused slot and leaves every other slot unchanged (likewise graphics).", "quantifier": "every table", "why_tests_cant": "Universal over tables.", "anchors": ["src/dms/font/mod.rs: FontTable::font_mut, font", "src/dms/graphic.rs: GraphicTable::graphic_mut, graphic"]}
{"id": "C54", "title": "Lines of text do not overlap", "statement": "Text spans of the same text rectangle and page justification on different lines occupy disjoint row ranges, later lines below earlier ones; neighbouring lines are separated by the line spacing.", "quantifier": "every message and sign", "why_tests_cant": "Pairs of spans in arbitrary messages.", "anchors": ["src/dms/render.rs: Pages::offset_vert, span_y, baseline_top, baseline_middle, baseline_bottom, render_text_rectangle"]}
{"id": "C55", "title": "An error names what is wrong with the message", "statement": "When rendering a message gives an error, the pages before it are those of the message and the error names something wrong with what follows: a malformed or unsupported tag, a colour, graphic or rectangle that cannot be shown, a value that cannot be followed, justification out of order, a missing font or character, text too big, or too many text rectangles. A message that gives no error has none of these.", "quantifier": "every sign and message", "why_tests_cant": "Universal over messages; every error path of the renderer.", "anchors": ["src/dms/render.rs: Pages::render_on_page, check_unsupported, update_page_state, render_graphics, render_text_rectangle, render_text_spans"]}
{"id": "C56", "title": "A message determines every pixel of its pages", "statement": "The sign and the message determine the rendered pages completely: their number, durations and sizes, and the colour of every pixel, namely the page background drawn on in message order by graphics, colour rectangles and the texts of each text rectangle at their places; for texts that share a run or a line irregularly too.", "quantifier": "every sign and message", "why_tests_cant": "Universal over messages; a test sees single images.", "anchors": ["src/dms/render.rs: Pages::next, render_on_page, render_off_page, render_graphics, render_text_rectangle, render_text_spans, offset_horiz, offset_vert"]}
{"id": "C57", "title": "BMP files hold the raster", "statement": "The file that bmp::write produces for a raster is a 24-bit BMP image of the raster's size whose decoding gives every pixel of the raster, with a header that gives the size of the file; writing does not panic.", "quantifier": "every raster", "why_tests_cant": "Widths of every residue modulo 4 and sizes up to 32-bit overflow; no test decodes the output.", "anchors": ["examples/bmp/mod.rs: write, write_header, write_info_header, write_pixel_data"]}
{"id": "C58", "title": "Error messages tell errors apart", "statement": "Two different errors of the same error type have different messages.", "quantifier": "every pair of SyntaxError, FontError, GraphicError, CfgError, SignError values", "why_tests_cant": "Pairs of errors with arbitrary tags, numbers and characters.", "anchors": ["src/dms/multi.rs: SyntaxError", "src/dms/font/mod.rs: FontError", "src/dms/graphic.rs: GraphicError", "src/dms/config.rs: CfgError", "src/dms/sign.rs: SignError"]}
{"id": "C59", "title": "Default signs and the builder", "statement": "Dms::builder().build() succeeds for every number of slots and gives a 40x21 sign with the documented defaults, no defined font or graphic, and support for exactly the tags that are rendered; each with_* call replaces one part and keeps the others.", "quantifier": "every number of font, character and graphic slots; every builder", "why_tests_cant": "Universal over table sizes and builders.", "anchors": ["src/dms/sign.rs: Dms::builder, DmsBuilder::with_*", "src/dms/config.rs: Default impls", "src/dms/font/mod.rs: FontTable::default", "src/dms/graphic.rs: GraphicTable::default"]}
{"id": "C60", "title": "Codes of classic colours and names of schemes", "statement": "ColorClassic::from_u8 and u8::from are inverse on the codes 0 to 9 and no other code is a colour; ColorScheme::from recognises exactly the four names and falls back to monochrome1Bit.", "quantifier": "every u8 and every string", "why_tests_cant": "Universal over strings.", "anchors": ["src/dms/multi.rs: ColorClassic::from_u8, From<ColorClassic> for u8, From<&str> for ColorScheme"]}
{"id": "C61", "title": "Reading .tfon properties, exactly", "statement": "Reading .tfon properties takes the last of each font setting, puts the n-th bitmap with the last code point before it into slot n, and leaves other slots empty; it fails with InvalidCharHeight exactly at the first bitmap that differs from the height in force, and panics exactly when a code point or bitmap needs a slot that is not there before such a failure.", "quantifier": "every sequence of .tfon properties and every number of slots", "why_tests_cant": "Universal over property sequences and table sizes.", "anchors": ["src/dms/font/tfon.rs: parse"]}
{"id": "C62", "title": "Extracting lines, exactly", "statement": "MessagePattern::lines walks the pattern's kept values and the message together: values other than font tags must agree in order (font tags of the message are skipped, the end of the message counts as an np tag) or no line is given; each fillable area takes the lines of text at that place, exactly as many as fit, extra lines dropped and missing ones empty. It panics exactly when it reaches a piece of the pattern or message whose reading panics, and does not end exactly when it reaches an area whose lines cannot be counted. Every line holds only text and the tags allowed in lines.", "quantifier": "every built sign, every pattern string, every message string, both builds", "why_tests_cant": "Universal over patterns and unrelated messages, including malformed, mismatching and panicking ones; tests only extract from messages the pattern filled.", "anchors": ["src/dms/pattern.rs: MessagePattern::lines, PatIter"]}
{"id": "C63", "title": "Widths and filling, exactly", "statement": "MessagePattern::widths and fill give, for every pattern, exactly one of: the described result; a panic, when a piece of the pattern whose reading panics is reached or, for widths in a debug build, a 256th fillable area; no result, when an area whose lines cannot be counted is completed before that. fill gives the empty string when a piece does not fit the sign, unless an uncountable area comes first.", "quantifier": "every built sign, every pattern string, every list of lines, both builds", "why_tests_cant": "Universal over patterns, including malformed and panicking ones, and the order in which faults are met.", "anchors": ["src/dms/pattern.rs: MessagePattern::widths, MessagePattern::fill, PatIter"]}
{"id": "C64", "title": "Lines that fit the widths of a pattern render", "statement": "If a pattern renders without lines, and each given line is text no wider, in the font of the corresponding entry of MessagePattern::widths, than the width of that entry, then the message MessagePattern::fill makes of the lines renders too, with the same number of pages and the same page times.", "quantifier": "every built sign, every pattern that renders without lines, every list of lines that fit, both builds", "why_tests_cant": "Universal over signs, fonts, patterns and lines; relates three functions (widths, fill and rendering) whose treatment of fonts, spacing and rectangles must agree.", "anchors": ["src/dms/pattern.rs: MessagePattern::widths, MessagePattern::fill", "src/dms/render.rs: Pages"]}
{"id": "C65", "title": "Colours of a page come from the sign and the message", "statement": "Every pixel of every rendered page has one of: the sign's default foreground or background, a colour carried by a cf, cb, pb or cr tag of the message as the sign's scheme shows it, or a colour of a pixel of a graphic that the message names. So it is a colour of the sign's scheme (the two defaults on a 1-bit sign, levels between them on an 8-bit sign, the palette on a classic sign) unless it comes from a 24-bit graphic; and a message without colour tags and graphics shows the two defaults only.", "quantifier": "every built sign, every message string, every page rendered before the first failure, every pixel, both builds", "why_tests_cant": "Universal over signs, messages and pixels; an invariant of the colour context through all loops of the renderer.", "anchors": ["src/dms/render.rs: Pages::render_graphics, Pages::render_text_rectangle, Pages::update_page_state, Pages::build_raster", "src/dms/multi.rs: ColorCtx", "src/dms/graphic.rs: Graphic::render_graphic", "src/dms/font/mod.rs: Font::render_text"]}
{"id": "C66", "title": "Debug builds do exactly one described thing", "statement": "In a debug build, rendering a message on a built sign does exactly one of three things: give exactly the pages that are described and end; give the described pages before a fault and then the error that names the fault; give the described pages before a fault and then panic. What is described of a message fixes which of the three it is, the number, durations and pixels of the pages, and the error.", "quantifier": "every built sign, every message string", "why_tests_cant": "Universal over signs and messages; totality and exclusiveness of a specification, and agreement of the renderer with it.", "anchors": ["src/dms/render.rs: Pages"]}
{"id": "C67", "title": "Letter case of tags does not matter", "statement": "Two messages that differ only in the case of ASCII letters inside tags render alike: the same pages (pixels and durations), the same error on the same page (a tag that an error quotes is quoted in its own case), or a panic in both.", "quantifier": "every sign, every two such message strings, both builds, every number of pages taken", "why_tests_cant": "Universal over messages and over all ways to change case.", "anchors": ["src/dms/multi.rs: Value::try_from", "src/dms/render.rs: Pages"]}
{"id": "C68", "title": "What pages depend on", "statement": "Rendering depends only on the sign's sizes in pixels, its colours, its MULTI defaults and supported tags, the fonts that the message names and the default font, and the graphics it names: two signs that agree on these render the message to the same pages, with the same error or panic. Other fonts and graphics, sizes in millimetres, pitches, flash defaults and message limits have no effect.", "quantifier": "every two signs, every message string, both builds", "why_tests_cant": "Universal over pairs of signs and over messages.", "anchors": ["src/dms/render.rs: Pages, RenderState", "src/dms/sign.rs: Dms"]}
{"id": "C69", "title": "What a page break leaves behind", "statement": "What follows a [np] tag depends on the message before it only through the settings still in force: the colours, font, justifications, page times and character spacing. Behind two messages that yield only pages and leave the same settings, any text gives the same further pages, errors and panics. Behind a message that leaves the sign's own settings, a message renders as it does alone.", "quantifier": "every sign that lists np, every two messages that yield only pages, every text behind them, both builds, every number of pages taken", "why_tests_cant": "Universal over messages before and after the break.", "anchors": ["src/dms/render.rs: Pages, RenderState, update_page_state"]}
{"id": "C70", "title": "Letter case does not matter outside rendering", "statement": "Two messages that differ only in the case of ASCII letters inside tags are blank alike, have the same text spans and joined text, and normalize to strings that differ only in the case of letters of free text inside tags. Two patterns that differ so have the same widths and are filled to strings that differ only in that way; when no tag of the pattern carries free text, the filled strings are equal and a message is cut into the same lines.", "quantifier": "every two such strings, every sign, every list of lines, every message, both builds", "why_tests_cant": "Universal over strings and over all ways to change case.", "anchors": ["src/dms/multi.rs: Value::try_from, is_blank, join_text, normalize", "src/dms/pattern.rs: MessagePattern"]}
{"id": "C71", "title": "What patterns depend on", "statement": "Widths, filling and cutting by a pattern depend only on the sign's sizes in pixels, its supported tags, the number of its default font, and the heights and line spacings of the default font and the fonts that the pattern names. Glyphs, character spacings, colours, page times, graphics and other fonts have no effect.", "quantifier": "every two signs, every pattern, list of lines and message, both builds", "why_tests_cant": "Universal over pairs of signs, patterns and messages.", "anchors": ["src/dms/pattern.rs: MessagePattern, PatIter", "src/dms/sign.rs: Dms"]}
{"id": "C72", "title": "What colours and page times can change", "statement": "Colours and page times have no effect on layout: when the colours and page times of a message and its sign are replaced consistently (off times of zero by zero), every pixel of every page is replaced the same way, page times are, and a message that fails or panics does so at the same place with the same kind of error. In particular page times do not change pixels, and a sign with its default colours exchanged shows the negative of a message without colours.", "quantifier": "every two signs with the same face, fonts and graphics, every two messages that differ in colours and page times, every relation of colours and of times, both builds", "why_tests_cant": "Universal over pairs of messages and signs and over replacements of colours.", "anchors": ["src/dms/multi.rs: Value", "src/dms/render.rs: Pages, RenderState", "src/dms/multi.rs: ColorCtx"]}
{"id": "C73", "title": "Moving what a message places moves the picture", "statement": "When the text rectangles (of positive size), colour rectangles and graphics of a message are all moved by the same distance, every text stands in a text rectangle, and both messages render, each page of the second is the page of the first with its picture moved by that distance: same size, same duration, same pixels on a plane of the background colour. Nothing of a picture depends on the absolute place. Text outside text rectangles does not move.", "quantifier": "every distance, sign, number of pages and pair of messages whose places differ by the distance, both builds", "why_tests_cant": "Universal over pairs of messages, signs and distances.", "anchors": ["src/dms/render.rs: Pages::render_text_rectangle, span_x, baseline", "src/dms/render.rs: Pages::render_graphics, render_rect", "src/dms/multi.rs: Rectangle"]}
{"id": "C74", "title": "A message on a larger sign", "statement": "A message that renders on a sign also renders on any larger sign of the same kind (same fonts, cells, colours and defaults; width and height below 65535), with its rectangles and graphics moved to where the first sign is set into the larger one, and every page shows there the page of the first sign on a plain background, with the same duration. In particular the same message, with text in text rectangles of positive size, shows the same at the top left of a larger sign. Text outside text rectangles follows the size of the sign.", "quantifier": "every sign and larger sign, every place of the first in the second (by whole cells), every message and its moved version, every number of pages, both builds", "why_tests_cant": "Universal over pairs of signs, distances and messages.", "anchors": ["src/dms/render.rs: Pages::update_text_rectangle, render_text_rectangle, span_x, span_y, offset_horiz, offset_vert", "src/dms/render.rs: Pages::render_graphics, render_rect", "src/dms/graphic.rs: Graphic::render_graphic", "src/dms/font/mod.rs: Font::render_text"]}
{"id": "C75", "title": "What the order on a page matters for", "statement": "On a page, the order of colour and graphic tags relative to text does not matter within a section (what stands between text rectangle tags), and page times and backgrounds may stand anywhere on the page: two messages of supported tags whose sections have the same colour, rectangle and graphic tags in the same order and the same text with its settings in the same order, and whose pages have the same backgrounds and the same times in the same order, give the same pages with the same durations up to the first error, the same first error, and panic alike. A rectangle moved past a text rectangle tag can change the picture.", "quantifier": "every sign, every pair of such messages, every number of pages, errors and panics included, both builds", "why_tests_cant": "Universal over signs and pairs of messages.", "anchors": ["src/dms/render.rs: Pages::render_on_page, update_page_state, render_graphics, render_text_rectangle"]}
{"id": "C76", "title": "Hexadecimal characters", "statement": "On a sign that supports the hc tag, replacing hexadecimal character tags (other than of character 0) by the characters they name, as pieces of text of their own, changes nothing: the same pages, errors and panics.", "quantifier": "every sign that supports the tag, every pair of such messages (malformed ones included), every number of pages, both builds", "why_tests_cant": "Universal over signs, characters and messages.", "anchors": ["src/dms/render.rs: Span::as_str, Pages::render_text_rectangle, render_text_spans", "src/dms/multi.rs: Value::HexadecimalCharacter"]}
{"id": "C77", "title": "Redundant settings", "statement": "Adding tags that set the foreground colour, page background, font, page justification, character spacing or page times that are already in force changes nothing: up to and including the first error, the same pages. (Not so for line justification: setting it again within a line starts the line again, over its text.)", "quantifier": "every sign, every pair of such messages of supported tags, every number of pages, both builds", "why_tests_cant": "Universal over signs, messages and places where the tags are added.", "anchors": ["src/dms/render.rs: Pages::render_text_rectangle, Pages::update_page_state, Pages::render_graphics", "src/dms/multi.rs: ColorCtx::set_foreground, set_background"]}
{"id": "C78", "title": "Pictures apart from and behind each other", "statement": "Neighbouring colour rectangles and graphics that have no pixel in common may change places, and those that lie behind a later colour rectangle of the same section may be left out: a message that renders gives pages with the same durations, sizes and pixels. Pictures with a pixel in common may not change places.", "quantifier": "every sign, every pair of such messages, every number of pages, both builds", "why_tests_cant": "Universal over signs, graphics, messages and positions.", "anchors": ["src/dms/render.rs: Pages::render_graphics, render_rect", "src/dms/graphic.rs: Graphic::render_graphic"]}
{"id": "C79", "title": "Text rectangles apart from each other", "statement": "Neighbouring text rectangles that have no pixel in common may change places, each with its texts, when the texts of each leave colour, font, justification and spacing as they find them and another text rectangle or the end of a page without a blank page follows: a message that renders gives pages with the same durations, sizes and pixels. Text rectangles with a pixel in common may not change places; nor may those before a blank page, which has the size of the last text rectangle.", "quantifier": "every built sign whose fonts keep to the character cells, every pair of such messages, every number of pages; release builds where no number wraps around", "why_tests_cant": "Universal over signs, fonts, texts, rectangles and messages.", "anchors": ["src/dms/render.rs: Pages::render_on_page, Pages::render_text_rectangle, Pages::render_text_spans, Pages::update_text_rectangle, Pages::render_off_page", "src/dms/font/mod.rs: Font::render_text"]}
{"id": "C80", "title": "Text rectangles without text", "statement": "A text rectangle with neither text, new lines nor pictures before the next text rectangle may be left out, its other tags kept: a message that renders gives the same pages. Not so with new lines in it, which may move earlier texts; nor for the last text rectangle of a page, which gives the blank page after it its size.", "quantifier": "every sign, every pair of such messages, every number of pages, both builds", "why_tests_cant": "Universal over signs, messages, rectangles and the tags between them.", "anchors": ["src/dms/render.rs: Pages::render_on_page, Pages::render_graphics, Pages::render_text_rectangle, Pages::render_off_page"]}
{"id": "C81", "title": "Messages put together", "statement": "The pieces of two messages put together are the pieces of the one and then those of the other, exactly when the last piece of the first is also a piece in front of the second; anything may follow a complete tag. Then values and syntax errors, text spans and joined text follow each other likewise, and the whole is blank exactly when both are. Two texts that meet become one piece.", "quantifier": "every two strings, both builds", "why_tests_cant": "Universal over pairs of strings; an equivalence.", "anchors": ["src/dms/multi.rs: split, MultiStr::next_slice, is_blank, text_spans, join_text"]}
{"id": "C82", "title": "Signs that support more tags", "statement": "A message that renders on a sign, or fails there for another reason than an unsupported tag, renders to the same pages or fails alike on every sign of the same sizes, colours and defaults that has the same fonts and graphics of the numbers it names and supports at least the tags of the message that the first sign supports. Support of tags that are not in the message never matters.", "quantifier": "every pair of such signs, every message, any number of pages, both builds", "why_tests_cant": "Relational: pairs of signs and all messages.", "anchors": ["src/dms/render.rs: Pages, check_unsupported"]}
{"id": "C83", "title": "Lines added below top-justified text", "statement": "When lines of text are added at the end of a message of one page whose last text rectangle has top-justified, regular text, the page is shown as long as before and has the same size, every line of text there was stays where it was, and the only pixels that can change lie below all those lines and take the colour of an added text.", "quantifier": "every sign, every such pair of messages that render, any texts, fonts, colours, graphics and text rectangles, both builds (release: no number wraps)", "why_tests_cant": "Relational: pairs of messages, all fonts and layouts.", "anchors": ["src/dms/render.rs: Pages::render_on_page, Pages::render_text_rectangle, Pages::render_text_spans, Pages::span_y, Pages::offset_vert"]}
{"id": "C84", "title": "Text in two parts", "statement": "The width of a text is the width of its first part, the character spacing and the width of the rest, when the first part has a width and the rest starts with a character that has one; a first part of width 0 does not count. Drawing a text is drawing the first part and then the rest, starting where the first part and the spacing end, with the same errors and panics. A character missing in the first part is reported for the whole.", "quantifier": "every font, all texts, every spacing, page, position and colour, both builds, for texts whose width fits in 16 bits", "why_tests_cant": "Universal over fonts and pairs of texts; equality of whole rasters.", "anchors": ["src/dms/font/mod.rs: Font::text_width, Font::render_text, Font::character"]}
{"id": "C85", "title": "Text put behind text on a left-justified line", "statement": "When text in the same font is put behind the text at the end of a message of one page, on a left-justified line of regular text, the page is shown as long as before and has the same size, all text there was stays where it was (whatever the page justification), and the only pixels that can change are right of the earlier text of that line and take the colour of an added text. Centred text does move.", "quantifier": "every sign, every such pair of messages that render, any texts, fonts, colours, spacings, graphics and text rectangles, both builds (release: no number wraps)", "why_tests_cant": "Relational: pairs of messages, all fonts and layouts.", "anchors": ["src/dms/render.rs: Pages::render_text_rectangle, Pages::render_text_spans, Pages::span_x, Pages::offset_horiz, Pages::span_y, Pages::offset_vert"]}
{"id": "C86", "title": "Text added in another place leaves other text where it is", "statement": "When text is added to a message of one page of regular text with a page justification that comes after those before (any fonts and lines), or on the last line in the same font with a line justification that comes after those before, the page is shown as long as before and has the same size, and every pixel is as before or has the colour of a text added: no text there was moves, whatever its justification.", "quantifier": "every sign, every such pair of messages that render, any texts, fonts, colours, spacings, graphics and text rectangles, both builds (release: no number wraps)", "why_tests_cant": "Relational: pairs of messages, all fonts and layouts.", "anchors": ["src/dms/render.rs: Pages::render_text_rectangle, Pages::render_text_spans, Pages::span_x, Pages::offset_horiz, Pages::span_y, Pages::offset_vert, RenderState::matches_span"]}
{"id": "C87", "title": "Text added to any page of a message", "statement": "When text is added at the end of any page of a message (lines below text at the top, text behind that of a left-justified line, or text with a later page or line justification), with any pages after it, the pages shown before that page stay the same; the page itself is at the same position, is shown as long and has the same size; and each of its pixels is as before or has the colour of a text added, below all the earlier lines or right of the earlier text of the run where C83 and C85 say so.", "quantifier": "every sign, every such pair of messages that render, any earlier and later pages, texts, fonts, colours, spacings, graphics and text rectangles, both builds (release: no number wraps)", "why_tests_cant": "Relational: pairs of messages, any number of pages, all fonts and layouts.", "anchors": ["src/dms/render.rs: Pages::next, Pages::render_text_rectangle, Pages::render_text_spans, Pages::span_x, Pages::span_y"]}
{"id": "C88", "title": "Lines added above text at the bottom", "statement": "When lines of text are put above the text of the last text rectangle of a page, all of it at the bottom (any texts, fonts, colours and line justifications, no line spacing in force before), with any pages after it, the pages shown before that page stay the same; the page is at the same position, is shown as long and has the same size; and each of its pixels is as before or has the colour of a text added: the text there was stays where it was. Text at the top does move down.", "quantifier": "every sign, every such pair of messages that render, any number of lines and pages, texts, fonts, colours, spacings, graphics and text rectangles, both builds (release: no number wraps)", "why_tests_cant": "Relational: pairs of messages, any number of lines, all fonts and layouts.", "anchors": ["src/dms/render.rs: Pages::render_text_rectangle, Pages::render_text_spans, Pages::span_x, Pages::offset_horiz, Pages::span_y, Pages::offset_vert"]}
{"id": "C89", "title": "Text put in front on a line at the right", "statement": "When texts are put in front of the text at the right of the last line of the last text rectangle of a page (any text, colours and character spacings; other text at the left or centre of that line and on other lines; no font changed on the way), with any pages after it, the pages shown before that page stay the same; the page is at the same position, is shown as long and has the same size; and each of its pixels is as before or has the colour of a text added: the text there was stays where it was. Text at the left does move.", "quantifier": "every sign, every such pair of messages that render, any number of texts, lines and pages, fonts, colours, spacings, graphics, text rectangles and page justifications, both builds (release: no number wraps)", "why_tests_cant": "Relational: pairs of messages, any number of texts, all fonts and layouts.", "anchors": ["src/dms/render.rs: Pages::render_text_rectangle, Pages::render_text_spans, Pages::span_x, Pages::offset_horiz, Pages::span_y, Pages::offset_vert"]}
{"id": "C90", "title": "Text put in on a line with more after it", "statement": "When text is put behind text at the left of any line of the last text rectangle of a page, and leaves the colour and spacing of texts as they were (with any texts, other places of the line, lines, page justifications and fonts after it, in the regular order), and any pages after that, the pages shown before that page stay the same; the page is at the same position, is shown as long and has the same size; and each of its pixels is as before or has the colour of a text added: all text before and after it stays where it was. The same holds for text put in front of text at the right of a line, where the text there starts. Text in the centre does move.", "quantifier": "every sign, every such pair of messages that render, any number of texts, lines and pages, fonts, colours, spacings, graphics and text rectangles, both builds (release: no number wraps)", "why_tests_cant": "Relational: pairs of messages, any number of texts and lines, all fonts and layouts.", "anchors": ["src/dms/render.rs: Pages::render_text_rectangle, Pages::render_text_spans, Pages::span_x, Pages::offset_horiz, Pages::span_y, Pages::offset_vert"]}
{"id": "C91", "title": "Normalizing messages put together", "statement": "When the pieces of two messages put together are those of the one and then those of the other, the normal form of the whole starts with the normal form of the first; it is the same exactly when nothing of the second is shown. When the first ends with something shown and leaves no setting in force, the normal forms follow each other. When it ends with something shown (and its hexadecimal characters print as they read), the first may be normalized before. Malformed pieces may be left out. The second may not be normalized before: settings left in force matter.", "quantifier": "all pairs of messages whose reading does not panic, of any length, both builds", "why_tests_cant": "Relational: pairs of messages of any length, all tags and settings.", "anchors": ["src/dms/multi.rs: normalize, MultiStr::next_slice, Value::is_blank"]}
{"id": "C92", "title": "The lines given to a pattern", "statement": "Whether MessagePattern::fill panics or does not end does not depend on the lines given. When widths gives a list, fill gives a message; lines beyond the length of that list have no effect; and every line within it is written once, just as it is, between parts that do not depend on it, unless the pattern is refused (the empty string, whatever the lines). A missing line is not the same as an empty one.", "quantifier": "every sign, pattern and list of lines (any strings), both builds", "why_tests_cant": "Relational: pairs of line lists of any length, all patterns and signs.", "anchors": ["src/dms/pattern.rs: MessagePattern::fill, MessagePattern::widths"]}
{"id": "C93", "title": "The first pages of a pattern", "statement": "On a sign that supports the np tag, what follows a new-page tag of a pattern has no effect on the pages before it: the list that MessagePattern::widths gives for the pattern starts with the list for the pages before the tag alone, and what fill makes of it starts with what it makes of those pages alone with the same lines, followed by [np], unless the whole is refused (the empty string). A text rectangle that follows does take lines away from the page.", "quantifier": "every sign, all patterns without a tag whose reading panics, any lines, both builds, whenever both results are given", "why_tests_cant": "Relational: pairs of patterns of any length, all signs, fonts and text rectangles.", "anchors": ["src/dms/pattern.rs: MessagePattern::widths, MessagePattern::fill, PatIter::next"]}
{"id": "C94", "title": "Patterns with the same layout", "statement": "MessagePattern::widths gives the same for two patterns that differ only in malformed pieces, tags the sign does not support, tags other than new lines, new pages, text rectangles and fonts, and in what texts and new lines take up an area (how many, and what they say): the same list, panic or no end. Whether there is text does matter.", "quantifier": "every sign, all pairs of patterns without a tag whose reading panics, of any length, both builds", "why_tests_cant": "Relational: pairs of patterns of any length, all tags and signs.", "anchors": ["src/dms/pattern.rs: MessagePattern::widths, PatIter::next"]}
{"id": "C95", "title": "As many lines as widths", "statement": "When MessagePattern::widths gives a list for a pattern, MessagePattern::lines gives for every message either no line or exactly as many lines as there are widths, and these lines fill the pattern: fill with more lines after them gives the same.", "quantifier": "every sign, all patterns without a tag whose reading panics, all messages, both builds, whenever both results are given", "why_tests_cant": "Relates three functions on patterns and messages of any length, on all signs.", "anchors": ["src/dms/pattern.rs: MessagePattern::widths, MessagePattern::lines, MessagePattern::fill"]}

# Design: a Rocq model of mnit-rtmc/ntcip (src/dms)

## What is modelled

| Rust file | model file (rocq/theories) | modelled |
|---|---|---|
| src/dms/multi.rs | Base.v Str.v Multi.v Color.v | all of it (tokeniser, parser, printer, normalize, is_blank, split, text_spans, join_text, rectangles, colour contexts) |
| src/dms/oer.rs | Oer.v | all |
| src/dms/font/mod.rs | Font.v, Crc.v | all |
| src/dms/font/tfon.rs | Tfon.v | parse / write between a font and the list of tfon properties |
| src/dms/graphic.rs | Graphic.v | all |
| src/dms/config.rs | Config.v | SignCfg / VmsCfg / MultiCfg fields, defaults, validate |
| src/dms/sign.rs | Sign.v, Geometry.v | builder, getters, rect_lines; pixel geometry in f32 |
| src/dms/pattern.rs | Pattern.v | all |
| src/dms/render.rs | Render.v | all |
| examples/bmp/mod.rs | Bmp.v | the bytes written, for rasters of rendered pages |
| error types of all files | Errors.v | messages (`Display` derived by thiserror) |

### How Rust is represented
* Numbers are `Z`.  A Rust field of type u8/u16/u32 is a `Z`; "the value is
  representable" is the predicate `u8`, `u16`, `u32`.  Every `+ - *` on
  machine integers that the code writes without `checked_`/`saturating_` goes
  through `chk`, which panics in `Debug` mode and wraps in `Release` mode; every
  function that can do so takes the `mode`.
* A string is a list of Unicode scalar values (`str := list Z`).  Byte lengths
  and byte offsets are computed from UTF-8 widths, and slicing at an offset that
  is not a character boundary is a panic, as in Rust.
* Outcomes: `M A := Val a | Panic | Hang`.  `Panic` covers slice, index,
  overflow, `unwrap`, `unreachable!`, `unimplemented!`, `debug_assert!`.  `Hang`
  is a loop that does not end (proved unreachable except where a theorem says so).
* `Result` is `result A E := Ok | Err`, ordinary data.
* `&mut self` is state passing; the state after an `Err` is kept since later
  calls observe it.
* Lazy iterators are lists of delayed outcomes: an item that would panic is a
  list element `Panic`, observed only when the loop reaches it.

### Trusted parts outside the repository (modelled from their documentation)
* `pix::Raster`: a width, a height and a pixel function; `pixel_mut` outside
  the raster panics; `copy_color` over a region clips to the raster.
* `crc` crate, CRC-16/IBM-SDLC: bitwise reflected CRC, poly 0x1021, init and
  xorout 0xFFFF; `u16::from_be` on a little-endian host is a byte swap.
* `enumflags2`: a tag set is a bit mask.
* `tfon` crate: only its property list interface (text syntax not modelled);
  `Bitmap::from_bits` fails when the length is wrong.
* `fstr`: FStr<4> holds up to four bytes; `slice_to_terminator('\0')` is the
  prefix before NUL.
* Rust core: integer `FromStr`, `str::split/splitn/trim/replace`, `char::from_u32`.
* `f32`: IEEE-754 binary32, round to nearest even (Flocq `binary_float 24 128`).

### Trusted base
Coq 8.16.1's kernel and `vm_compute`.  `Print Assumptions` is printed after each
theorem in Properties_*.v.  Every theorem is "Closed under the global context",
except those of Properties_Geometry.v (`c31_*`), which are about f32 and real numbers
through Flocq and list four axioms of the standard library:
`ClassicalDedekindReals.sig_forall_dec`, `ClassicalDedekindReals.sig_not_dec`,
`FunctionalExtensionality.functional_extensionality_dep`, `Classical_Prop.classic`.
No axiom of another library or of our own is used.

### Not modelled
* `Debug`, `Clone`, `Hash` derives; the text syntax of tfon files.
* `Raster::with_color` of the `pix` crate computes `width * height` on i32, so an
  absurdly large raster panics there; the model's rasters have no such limit.
* Heap exhaustion, stack depth and time.

## Layout of the development
`theories/` holds: model files (definitions only), `Tests_*.v` (the repository's
own unit tests replayed against the model), `Spec_*.v` (independent
specifications), `Proofs_*.v` (lemmas), `Properties_*.v` (the theorems, each with a
non-vacuity `Example` and `Print Assumptions`).

Theorem names: `cNN_...` for property CNN; suffix `_partial` when a hypothesis was
added that the property does not have; `_refuted` when the code does not have the
property, with a concrete witness.

Files by subject (model; specification; proofs; theorems):

| subject | model | specification | theorems |
|---|---|---|---|
| MULTI strings C01-C13 | Str Multi | Spec_Multi | Properties_Multi |
| colours, rectangles C14-C16 | Color | Spec_Color | Properties_Color |
| OER, CRC, fonts C17-C24, C53 | Oer Crc Font Tfon | Spec_Crc Spec_Font Spec_Tfon Spec_Graphic | Properties_Font |
| reading .tfon C61 | Tfon | Spec_TfonRead | Properties_Tfon |
| graphics, drawing, building C25-C30, C32 | Graphic Raster Config Sign | Spec_Graphic Spec_Sign | Properties_Sign |
| geometry C31 | Geometry | Spec_Geometry | Properties_Geometry |
| patterns C33-C36 | Pattern | Spec_Pattern | Properties_Pattern |
| extracting lines C62, every pattern C63 | Pattern | Spec_Lines Spec_Reached | Properties_Lines |
| beyond 16 bits C16, C21 | Color Font | Spec_Wide | Properties_Wide |
| filled patterns render C64 | Pattern Render | Spec_Fit | Properties_Fit |
| page iterator C37-C41, C43, C48, C49, C51 | Render | Spec_Render | Properties_Render |
| layout C42, C44-C46 | Render | Spec_Layout | Properties_Layout |
| whole pages C42, C44, C45, C47, C52 | Render | Spec_Page | Properties_Page |
| panics C41 | Render | Spec_Safe | Properties_Safe |
| lines of text C54 | Render | Spec_Layout Spec_Page | Properties_Rows |
| causes of errors C55 | Render | Spec_Fail | Properties_Fail |
| release builds C42, C44, C45, C50, C52, C54, C73, C74 | Render | Spec_Page Spec_Fail | Properties_Release |
| exact pages C56 | Render | Spec_Draw Spec_Page Spec_Fail | Properties_Draw |
| defaults, colour codes C59, C60 | Config Sign Color | (in the theorems) | Properties_Default |
| BMP files C57 | Bmp | Spec_Bmp | Properties_Bmp |
| messages of errors C58 | Errors | Spec_Errors | Properties_Errors |
| normalized messages C50 | Multi Render | Spec_Same Spec_Join | Properties_Same |
| colours of pages C65 | Render Color Graphic Font | Spec_Gamut | Properties_Gamut |
| debug builds, exactly C66 | Render | Spec_Fail Spec_Draw | Properties_Draw |
| what a page break leaves behind C69 | Render | Spec_Follow | Properties_Follow |
| messages and signs that render alike C67 C68 | Render Multi | Spec_Alike | Properties_Alike |
| letter case outside rendering, what patterns depend on C70 C71 | Multi Pattern | Spec_Alike | Properties_Recase |
| what colours and page times can change C72 | Render Color Graphic | Spec_Repaint | Properties_Repaint |
| moving what a message places C73 | Render Raster Graphic Font | Spec_Move | Properties_Move |
| a message on a larger sign C74 | Render Raster Graphic Font Sign | Spec_Embed | Properties_Embed |
| release builds of signs C29 | Config Sign | Spec_Face | Properties_Face |
| order on a page C75 | Render | Spec_Sections | Properties_Sections |
| hexadecimal characters C76 | Render Multi | Spec_Spell | Properties_Spell |
| redundant settings C77 | Render Color | Spec_Redundant Spec_Page | Properties_Redundant |
| overlapping pictures C78 | Render Graphic Raster | Spec_Overlap | Properties_Overlap |
| text rectangles apart C79 | Render Font Raster | Spec_Swap | Properties_Swap |
| empty text rectangles C80 | Render | Spec_Hollow | Properties_Hollow |
| messages put together C81 | Multi | Spec_Seam | Properties_Seam |
| signs that support more tags C82 | Render, Config | Spec_Capable, Spec_Alike | Properties_Capable |
| lines added below C83 | Render | Spec_Below, Spec_Page, Spec_Layout | Properties_Below |
| text in two parts C84 | Font | Spec_Parts, Spec_Font | Properties_Parts |
| text put behind text C85 | Render | Spec_Beside, Spec_Below, Spec_Page, Spec_Layout | Properties_Beside |
| text in another place C86 | Render | Spec_Apart, Spec_Below, Spec_Page, Spec_Layout | Properties_Apart |
| text added to any page C87 | Render | Spec_Longer, Spec_Below, Spec_Beside, Spec_Apart, Spec_Page | Properties_Longer |
| lines added above C88 | Render | Spec_Above, Spec_Longer, Spec_Page, Spec_Layout | Properties_Above |
| text put in front on a line C89 | Render | Spec_Ahead, Spec_Longer, Spec_Page, Spec_Layout | Properties_Ahead |
| text put in on a line C90 | Render | Spec_Within, Spec_Longer, Spec_Page, Spec_Layout | Properties_Within |
| normalizing messages put together C91 | Multi | Spec_Rejoin, Spec_Seam, Spec_Multi | Properties_Rejoin |
| lines given to a pattern C92 | Pattern | (stated on widths and fill) | Properties_Given |
| first pages of a pattern C93 | Pattern | Spec_Pattern, Spec_Multi | Properties_Sheets |
| patterns with the same layout C94 | Pattern | Spec_Bones, Spec_Pattern, Spec_Multi | Properties_Bones |
| as many lines as widths C95 | Pattern | Spec_Pattern, Spec_Lines, Spec_Reached | Properties_Tally |

## Plan per property
* C01, C02 — an inductive relation `Tokens` gives the grammar; prove by induction
  on the string that split computes the unique tokenisation; losslessness follows.
* C03 — define the exact set of panicking tag bodies declaratively
  (`SlicesInsideChar`); prove parse panics iff it; refute "never"; prove ASCII safe.
* C04, C05, C13 — a declarative grammar `TagDenotes` of tag bodies; prove try_from
  equals it, by case analysis on the first characters; ranges and case
  insensitivity are proved about it.
* C06 — print each value form and run the grammar on it; `hc` refuted (prints decimal).
* C07-C11 — normalize is a fold with state; invariant relating emitted values to
  input values; idempotence from round trip plus merging of adjacent texts.
* C12 — induction on text.
* C14, C15 — integer arithmetic (lia with div/mod equations), case analysis on schemes.
* C16 — lia on point membership; overflow refuted in Debug.
* C17, C18 — decoders written in the spec; CRC as GF(2)-linear bit register,
  injectivity on 16-bit bursts by linear algebra over the register.
* C19, C20, C21, C22, C23, C24, C53 — induction over character / font lists.
  C22 also for bitmaps of any size (`GlyphInks`: rows packed up to the font height, then
  one row per group of bytes): the renderer plots a list of pixels, each of them on the
  raster, or panics; with it C41, C52, C55, C56 need no condition on glyphs.
* C61 — split the properties into groups ending in bitmaps; state after each group;
  the three outcomes cover all lists and each determines the result.
* C25-C28 — pixel-level specifications (`bit i of bitmap`), induction over the
  pixel loops, frame lemmas.
* C29, C30 — specification predicate of valid configurations, order of errors.
* C31 — Flocq, monotonicity of rounding.
* C32 — characterise by the arithmetic maximum.
* C33-C36 — specification of "fillable regions" on the list of values.
* C62 — the pattern's areas become a list of tasks (match a value, fill an area), carried
  out on the pieces of the message; induction over tasks and pieces.
* C63 — the areas whose end is reached before the first fault; induction over them.
* C64 — the message without lines and the one with lines have the same areas, some with lines
  added before the font tags; by induction over the areas every page of the second has the spans of
  the first plus lines that fit, and the exact verdicts (C55) show that nothing new fails.
* C50 — simulation of the page renderer on a message without its redundant tags and
  silent end (`Trimmed`), the rest renders in one colour; refutations by computed pixels.
  Joined texts: a second simulation, one join at a time (`LJ` on spans, `VJ` on values);
  regular layout is restated as a state machine on values, which both changes keep.
* C65 — invariant of the colour context, of the spans and of every pixel, over all loops of the renderer.
* C66 — from totality, exclusiveness and uniqueness of the descriptions of C55 and C56.
* C67 — simulation of two runs of the renderer whose values differ only in the case of free text.
* C68 — equality of two runs of the renderer; invariant that fonts of spans are the default or named.
* C69 — lockstep of the run on the message before the break with the run on the whole; invariant that the state holds the settings in force; equality of two runs whose states differ in what a new page resets.
* C70 — simulation of two runs of the iterators whose values differ only in the case of free text; printed values split into the same tokens up to case.
* C71 — equality of two runs of the pattern iterator; invariant that fonts of areas are the default or named.
* C72 — two runs of the page iterator related by a relation of colours and one of times; positions of spans do not read colours or times.
* C73 — two runs of the page iterator with places moved; the offsets of a line in its rectangle are computed from sizes only, so rasters stay moved copies on a plane of the background colour.
* C74 — a simulation: each step that succeeds on the smaller sign succeeds on the larger one, with moved places; all arithmetic stays below the size of the larger sign.
* C75 — each of the three passes over a page (set-up, pictures, text) depends only on the values it looks at; a lockstep induction over sections and pages puts them together.
* C76 — spans matter only by their text and settings; a lockstep induction.
* C77 — an invariant ties the renderer's settings to the values read so far; then each of the three passes over a page skips the added tags.
* C78 — each picture is a layer of pixels that does not depend on what it is drawn on; layers apart commute, and an opaque layer hides those behind it.
* C79 — texts drawn as layers that do not depend on the pixels under them; two runs
  of the page loop side by side, out of step while two text rectangles are exchanged.
* C80 — the two passes over a text rectangle read on through tags that show nothing; the page loop with one step less.
* C81 — induction over the tokens of the first message; only its last token looks at what follows.
* C82 — the simulation of C68 with the check of tags one-sided.
* C83 — the descriptions of both pages (C52) compared: text before the last rectangle is drawn alike, the earlier lines of the last one keep their places as places at the top depend only on the lines above, and the added ones are below by C45.
* C84 — both loops over a list put together; positions are shifted by the width so far, which stays positive.
* C85 — as C83: the text added has the font, line and line spacing of the text before it, so no line changes its height, and places at the left depend only on the texts before.
* C86 — as C83 and C85: the text added is in no run of the earlier text, and in no block of it or in a line whose height stays.
* C87 — the pages of C52 are cut at the page grown; before it both messages have the same pages, and at it C83, C85 and C86 hold with the values of the earlier pages in force.
* C88 — the texts that follow the lines added are the same texts with higher line numbers; what is below a line in a stack does not depend on the lines above it.
* C89 — the texts after those put in front are the same texts with higher numbers; from the right edge, the place of a text depends on what follows it in its run alone, and the height of a line on the kinds of text on it.
* C90 — the texts that come after are the same texts, in other runs; a line with more text of the same kind put in is as high as before. In front of text at the right, the runs after it are numbered anew as in C89.
* C91 — dropping redundant tags goes through two lists one after the other; only the trailing blanks of the whole are dropped.
* C92 — widths and fill walk the same pieces of the pattern and count the same lines; induction on those pieces, for any text written before.
* C93 — the areas of the longer pattern are those of the first pages, the last one now ended by the np tag, and more; the end of a pattern counts as an np tag.
* C94 — widths counts only the fillable areas; these are the same, by induction on the relation, from any font and area in force.
* C95 — the exact descriptions of widths (C63) and lines (C62) count the same rooms; then C92.
* C54 — arithmetic on the heights of stacked lines.
* C55 — follow each check of the renderer in order; outcome lemma by induction on
  the text rectangles and pages; acceptance and failure shown exclusive, so exact.
* C56 — places of text without regularity (`Spec_Draw`); the description of pages is
  functional up to equality of images, so with C52 and C55 it is exact.
* C57 — positions in concatenated pieces of equal length; C58 — case analysis, and
  numerals of bytes read back.
* C37-C53 — invariants over Pages::next; paint operations give frame properties;
  layout arithmetic by lia; refutations by computed witnesses.

Each definition in a model file cites the file and lines it models.

## Tests against wrong programs

`seeded/LOG.jsonl` lists wrong edits of the model, tried in copies outside this
directory. Most were tried by building the whole copy and leaving out each proof that
no longer went through; `theorems_failed` are the theorems that then rest on a proof
left out (that a proof fails does not by itself make its statement false). The edits for
C91 to C95 were tried by evaluating instances of these theorems; there
`theorems_failed` are the theorems with a false instance, and a `note` says so.

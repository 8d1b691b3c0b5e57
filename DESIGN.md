# Formal model of fonttools-rs: design

## 1. What is modelled and how

The model is a set of total, computable Gallina functions under
`rocq/theories/Model/`, one file per area of the code base.  No proofs live
there.  `rocq/theories/Spec/` holds the small independent specifications that
property statements use.  `rocq/theories/Proofs/` holds the lemmas.
`rocq/theories/Props/` holds only the property theorems (each closed by
`exact`), the non-vacuity `Example`s and `Print Assumptions`.

Conventions

* Integers of every Rust type are `Z`; bytes are `Z` in `[0,256)`.  Lengths,
  indices and read positions are `nat`.
* A Rust computation is a value of `res A := Ok a | Err | Panic`.
  `Err` is a `SerializationError`/`DeserializationError` (messages are dropped),
  `Panic` is any abort: `unwrap` on `None`/`Err`, slice or index out of bounds,
  `assert!`, `unimplemented!`, arithmetic overflow in the debug profile.
* Overflow.  Checked arithmetic is modelled with the *debug* profile:
  overflow is `Panic`.  A theorem concluding `... = Ok v` therefore holds in
  both profiles, because no overflow branch was taken.  Where the release
  profile matters for a finding it is modelled separately and named `_release`.
* `as` casts are modelled exactly (`wrap_u16 z = z mod 2^16`, etc.).
* `usize` is taken to be unbounded (a buffer cannot exceed the address space).
* `BTreeMap`/`BTreeSet` are association lists kept sorted by key (the iteration
  order of the Rust type); `HashMap` where used is order-independent.
* Strings are lists of bytes (or of scalar values, where stated).
* `&mut` parameters become returned values; loops become structural recursion
  or folds.
* Floats.  `f32` arithmetic is modelled exactly where rounding decides the
  property (C05), otherwise by rationals, and this is stated at the definition.

## 2. Plan per property

| id | model | proof |
|----|-------|-------|
| C01 | big-endian codecs over byte lists | arithmetic on base-256 digits |
| C02 | `ReaderContext` as (input, ptr, stack) with a step function | invariant over operation lists |
| C03 | counted list codecs over an abstract element codec | induction on the list |
| C04 | `Tag::from_raw` with error values | case analysis, induction on the scan |
| C05 | binary32 conversion as an explicit rounding of integers | arithmetic; refutation by witness for Fixed |
| C06 | `checksum` by chunks of 4 | strong induction on length |
| C07-C11 | `Font` save/load over an ordered list of tables | layout invariant, then C06 |
| C12 | `Font::from_bytes` with slice panics | refuted by witness; positive part by case analysis |
| C13-C14 | `TableSet` as sorted map of lazy items, parser as Section variable | refinement to a plain map |
| C15 | handles over a heap with reference counts | refinement to value semantics |
| C16-C17 | `compile_glyf_loca_maxp` | layout induction; stale maxp refuted |
| C18 | hmtx serializer/parser | induction from the end of the list |
| C19 | loca parser | induction |
| C20-C21 | glyph and component codecs | induction over points; overlap flag refuted |
| C22 | contour utilities | induction |
| C23 | component flattening with explicit depth | induction on depth |
| C24-C26 | packed deltas/points, tuple variation store | run-structure induction; refutations for points |
| C27-C28 | IUP inference and optimizer, with binary32 arithmetic | segments = nearest touched neighbours; the chain of the dynamic program as a path of lossless steps round the contour; rounding error bounds |
| C29-C30 | support scalars in binary32; variation model with rational values | error bounds of one tent; invariants of the split regions; coarse order of the sorted masters; triangularity of the weight matrix |
| C31-C34 | coverage, classdef, device, value record codecs | run-structure induction, bit sweeps |
| C35-C38 | MCmap: formats 4, 12, 14 (0: reading), table, choice of mapping | segment induction over split_range; format 12 characterised by iff; table by an invariant over the written subtables; hash as a parameter without collisions |
| C39 | segment maps with binary32 arithmetic | each segment stays between its ends; correct rounding of the quotient is monotone |
| C40 | name table; UTF-16 exact, other character sets as parameters | layout of records and strings, storage as concatenation |
| C41 | post with its standard names | index invariant of the string pool; iff |
| C42-C43 | fixed tables, OS/2 ranges | codec composition; the block table by computation over its entries, the search by its decision path |
| C44 | offset manager on trees | layout induction |
| C45-C51 | high/low-level layout conversions | map induction |
| C52, C54, C55 | misc | induction |
| C53 | designspace axes with binary32 arithmetic | nodes of the hash map as a relation; monotone rounding of quotients |
| C56 | implied point removal | drop relation, irreducibility, inverse of C22 |
| C57 | `as_maxp10` with fuel for the recursion | counting relation over acyclic references |
| C58 | `gvar_coords_and_ends` | exact result |
| C59 | save of edited fonts | case analysis over edit states; exact conditions both without rebuilding and with an edited glyf table (an unedited glyf rebuilt because loca or maxp was edited has only the necessary ones) |
| C60 | reverse chaining | format spec, map induction |
| C61 | the GSUB table, all lookup types, extension subtables | format relation for whole tables; generic in the subtables (reused for GPOS) |
| C62 | the GPOS table, all lookup types, extension subtables | as C61, up to a relation "same positioning" |
| C63 | the gvar table: shared peaks, glyph data with optional optimization, offsets, reading with inferred deltas | the hash map's counter is a parameter with a specification; variation stores from C26, optimizer from C28; format specification for reading both offset sizes |
| C64 | item variation stores with their 32-bit offsets | format specification, offset manager theorems of C44 |
| C65 | the GDEF table | as C61; class definitions from C32 decide what changes |
| C66 | the STAT table | parsers as exact descriptions of bytes (iff in both directions); layout of offsets for saving |
| C67 | instances with every axis fixed: outlines | normalization, weights and float error bounds by induction over axes and delta sets; iff for success |
| C68 | what instances keep of axes, named instances, segment maps, styles | relational description of the selection; impossibility of partial outlines |
| C69 | reading MATH tables | relational description of the file with a parameter saying where inner offsets count from |
| C70 | designspace documents: names, axes, instances, default master, variation model | numbering of the strings by induction; relational description of locations |
| C71 | the command line tools that rewrite a file | the store's save and load theorems (C10, C59) applied to a freshly loaded font; what lookups find there is an invariant |
| C72 | production names of glyphs | characters read from a cmap are below 2^32 (all parsers of the table); hexadecimal spelling by induction |
| C73 | glyf contours and Bezier paths | the path of a contour by induction on its expansion (C19); exact conversion of whole numbers |
| C74 | fontcrunch: break points and the dynamic program | invariant of the table of best chains under every update; exact binary64 arithmetic on half units; error bounds for the samples |
| C75 | fontcrunch: corners, runs, contours, the tool | invariant of the direction kept by the loop over segments, compared with the headings of a run; rational error bounds for the sine; induction over corners; the store invariants of C71 |
| C76 | ttf-instantiate: arguments and main | grammar of decimal numbers as inductive relations, the parser proved equivalent; the rounded quotient shown to be nearest by comparing with a finer one; ordered maps up to permutation |
| C77 | ttf-remove-overlap, with skia's simplifier as a parameter | the drawing relation of C73 for skia paths; reversing a drawn contour; iff for the glyphs that can be handled |
| C78 | the tables! macro on token trees | a grammar given independently as inductive relations; iff with acceptance |
| C79 | derived (de)serializers, by interpreting declarations | induction over declarations with a decidable soundness condition, evaluated on all 118 declarations of the library |
| C80 | the tag! macro on literals, with the compiler's reading of the generated byte string | string literals as an inductive relation after the Rust reference; iff with Tag::from_raw |
| C81 | ttf-edit-math: the tree printed by dump, as a function of the file | glyph names and decimal numbers as relations; iff for success; every entry accounted for in both directions |
| C82 | the table set of C13 with the readers and writers of every table | the codec of the command line tools completed; composition of C13, C14, C16 with the round trips of C36 to C42, C61, C62, C65, C66 |
| C83 | the readers of C13, C16, C18, C37 to C42 and C79 on arbitrary bytes | a predicate on readers (never aborts, keeps the input, does not shrink the stack) closed under sequencing; for head, fvar, name and post a case analysis of the bytes in both directions. cmap is C84, glyf is C85, gvar is C89; GDEF, MATH, GSUB and GPOS as whole tables are not covered |
| C84 | the readers of coverage, class, device, ligature, rule and cmap data on arbitrary bytes | positions of the numbers in the bytes; each reader is walked through field by field, its loops by induction; for cmap also which subtables are read, since only the first unreadable one counts |
| C85 | the readers of glyphs, components and the glyf table on arbitrary bytes | flags and coordinates as relations on positions in the bytes, shown to be what the loops read (induction on the points, both directions); contours by which slices exist; the table by induction on the positions |
| C86 | `Font::from_bytes` with the stable sort by offset and the table map; head as in C83 | the outcome for every file from C12 and C83; which entry wins by induction on the entries, using that each insertion splits the sorted list; the directory is unique |
| C87 | the readers of packed points, packed deltas and tuple variation stores on arbitrary bytes | runs, headers and variations as relations on positions in the bytes, shown to be functional and to be what the loops read; the deltas always suffice for their points |
| C88 | the lazily loaded table set of C13, lookups and `fully_deserialize` | the states reachable by loading form a preorder under which every lookup is invariant, by the four levels of parser dependencies; what loading everything does as a fold over that preorder |
| C89 | the reader of gvar on arbitrary bytes | header, offsets and each glyph decided in both directions; variations by C87, inference of deltas by the functions of C27; the first glyph that is not read decides |
| C90 | the typed accessors of the table set of C13 | the value a lookup gives has the kind of its tag, an invariant of all histories; then each accessor by cases on the kind |
| C91 | opening a file (C86), then lookups and loading everything (C88) | combination of C83 to C89 in a table set of which nothing is loaded; lookups stay the same whatever is loaded (C88); what makes GDEF, MATH, GSUB and GPOS abort is not described |

A property that is false of the code is settled by a theorem `..._refuted`
giving a concrete input, plus the strongest positive theorem that does hold
(preferably an exact characterisation of the inputs for which it holds).

## 3. Trusted base

Coq 8.16.1's kernel (with its virtual machine, used by `vm_compute`), and the
reading of the Rust source described in the comments of each definition.
No axioms are declared, none of the standard library's are used:
`Print Assumptions`, run after every theorem in `rocq/theories/Props`, answers
"Closed under the global context" for each of them.  (The checker also sees the seven
opaque constants of `Coq.ssr.ssrunder`, a module type loaded with ssreflect
through library imports; no theorem depends on them.)

## 4. Modelled and not modelled

| source | model |
|---|---|
| crates/otspec/src/lib.rs, counted.rs, types.rs | MBase, MReader, MFixed, MTables |
| crates/otspec/src/tag.rs, utils.rs | MTag, MUtils |
| crates/otspec/src/offsets.rs, offsetmanager.rs; what otspec_macros/src/{ser,de}.rs generate | MOffset |
| crates/otspec/src/layout/{coverage,classdef,device}.rs | MLayout |
| crates/otspec/src/layout/{valuerecord,anchor,common,contextual,gsub*,gpos*}.rs, tables/{GSUB,GPOS,avar,head}.rs | MValue, MLow, MLookup, MContext, MGsub, MGpos, MAvar, MTables |
| src/layout/*.rs (but macros.rs), src/tables/{GSUB,GPOS}.rs | MLow, MLookup, MContext, MGsub, MGpos |
| src/font.rs, src/table_store.rs, src/tables.rs | MFont, MStore, MCow |
| src/tables/glyf.rs, glyf/*.rs, loca.rs, hmtx.rs | MGlyph, MGlyf, MMetrics |
| src/tables/{head,hhea,maxp,cvt,fpgm,prep,gasp,fvar,os2}.rs | MTables, MRanges, MGlyf (statistics) |
| src/tables/{cmap,name,post,avar,gvar}.rs | MCmap, MName, MPost, MAvar, MGvar |
| src/otvar.rs, src/otvar/{packed*,tuple*,itemvariationstore,iup,locations}.rs | MPacked, MIup, MVarModel |
| src/tables/STAT.rs | MStat |
| src/otvar/instancer.rs, src/tables/gvar.rs:127-144 | MInst |
| src/tables/GDEF.rs, the store of itemvariationstore.rs | MGdef, MIvs |
| src/tables/MATH.rs (reading) | MMath |
| crates/designspace/src/lib.rs | MDesign (axes, maps, normalization), MDoc (documents) |
| crates/fonttools-cli/src/lib.rs, bin/ttf-{fix-checksum,add-minimal-dsig,fix-non-hinted,flatten-components,optimize-gvar,rename-glyphs}.rs | MCli |
| src/tables/glyf/contourutils.rs:42-132, kurbo's `BezPath::segments` | MPath |
| crates/fonttools-cli/src/bin/fontcrunch.rs, but for the numerical integration | MCrunch |
| crates/fonttools-cli/src/bin/ttf-instantiate.rs, `f32::from_str` | MLocArg |
| crates/fonttools-cli/src/bin/ttf-remove-overlap.rs (skia's `simplify` is a parameter) | MOverlap |
| crates/otspec_macros/src/tables.rs; all `tables!` invocations (transcribed by a script) | MMacro, MDeclared |
| crates/otspec_macros/src/{ser,de}.rs, for every declaration | MDerive |
| crates/otspec_macros/src/tag.rs | MTagMacro |
| crates/fonttools-cli/src/bin/ttf-edit-math.rs (the tree given to serde_json, not its text) | MEditMath |
| src/table_store.rs, all tables together (what a failed GSUB or GPOS writer leaves in its buffer is a parameter) | MWhole |

No model: how crates/otspec_macros finds the attributes and bounds of a Rust structure (internals/, bound.rs).
The numerical integration of fontcrunch (arc lengths, error of a curve), `f64::hypot` and kurbo's `to_quads` are parameters.

Also not modelled: logging, file I/O, XML parsing (`serde_xml_rs`), text encodings of the
`encoding` crate other than UTF-16 (parameters of the name table model), memory allocation
failure, performance, threads (parallel iteration is modelled by its result, which the code collects in order).
Extension subtables are read only (the code never makes them), at any distance a 32-bit offset
can reach; the `Offset32` of other structures is followed only up to 65535, as in the code.  A lookup whose flag announces a
mark filtering set that is absent is outside the model (the announced size is then wrong).

## 5. Findings (claims a user would expect that are false of the code)

Each has a `_refuted` theorem with a concrete witness.

* C03: counted arrays of 65536 or more elements are written with a truncated count.
* C05: `Fixed` values of more than 24 significant bits do not survive (they go through f32).
* C09: search range computation overflows for 4096 or more tables.
* C12: a directory entry outside the file, and a head date outside chrono's range, abort loading.
* C18: an empty hmtx table cannot be written.
* C20: the overlap flag is lost; a leading empty contour corrupts the glyph; truncated glyph data aborts.
* C21: a fractional y offset is truncated while x is rounded.
* C22: an empty contour or a coordinate sum outside 16 bits aborts; the last/first pair is not expanded.
* C23: nesting deeper than 65 levels silently loses components; a missing glyph aborts; a glyph
  containing itself twice needs 2^66 - 2 visits.
* C42: fractional seconds in head, fvar instance flags and absent OS/2 tail fields change.
* C52: the box of a composite with a use-my-metrics component ignores its transform and all others.
* C56: removing implied points and inserting them again loses a point at the seam of the contour.
* C57: statistics of a cyclic composite recurse for ever.
* C58: a glyph whose first contour is empty aborts.
* C13: a lookup can change what a later lookup of loca/hmtx/glyf/gvar/GSUB/GPOS shows; `remove` returns
  the table only if it had been looked up.
* C14: editing maxp alone rewrites glyf and loca.
* C17: maxp is never updated on saving (the changed copy is not inserted).
* C59: saving aborts without maxp, and with an edited hmtx, gvar or MATH table.
* C24: writing 256 or more zero deltas in a row aborts (the run length is a byte).
* C25: point numbers more than 255 apart are written with a wrong run length and cannot be read; 128 or
  more points are written with a count the reader misunderstands; an empty list comes back as "all points".
* C26: a variation without any delta, or with a stale "own point numbers" bit, does not survive.
* C55: rows of a length other than the number of regions do not survive.
* C31: a coverage table whose ranges reach glyph 65535 is written but reading it aborts; a list with glyph
  65535 before its end cannot be written.
* C32: writing aborts for maps that reach beyond glyph 65533; reading aborts for ranges that reach 65535;
  the glyphs reported for class 0 change when gaps become explicit zeros.
* C33: the automatically chosen format can be too narrow (2 and -3 are given two bits; the first value that
  is too wide for two bits decides, whatever follows), so deltas change; variation index tables are read but
  writing them aborts.
* C34: a value record with only a vertical placement device is written with the device offset but without its
  flag (the code tests the horizontal placement device twice), so it is not read back; bringing records to a
  common format equalises the four numbers but never the device fields.
* C45: a format 1 single substitution from a glyph below 0x8000 to one above (or the other way) within one
  signed step aborts reading; such maps are written in that format.
* C47: a ligature of no glyphs aborts writing; reading and writing a font again puts longer ligatures first
  and keeps the last instead of the first of two entries for the same sequence, so shaping can change.
* C49: unchained contextual rules cannot be written (their offsets are never resolved); the coverage table of
  class based rules is ignored, so they apply at glyphs they should not.
* C51: feature parameters are dropped; a required feature 65535 disappears; indices of 65536 or more are
  truncated; a null offset in a script or language record aborts.
* C35: 8190 separate characters are written as a subtable longer than its 16-bit length field and not read
  back; a valid subtable whose array word and delta add up only modulo 65536 aborts reading; code 65535 is
  never written and the last segment never read.
* C36: a format 12 subtable of any mapping that does not start at code 0 is written with a first group that
  ends before it starts, and aborts reading; starting at 0, a second character with the same glyph is lost.
* C37: subtables are shared by their mapping alone: the same mapping in formats 4 and 12 comes back as format
  4 twice.
* C48: an empty single positioning map aborts (so a subtable break at the end of a single positioning lookup makes
  the table unsavable); different records with a device table among them are refused; records with different (null)
  device fields are written as one format and cannot be read back.  A pair whose adjustment is 0, or has other
  fields than the rest, shifts everything after it in its pair set.  The class format adjusts glyphs that its coverage
  table does not list.  Device tables of pair lists are looked for at the wrong place.
* C50: a mark of class 65535 aborts; a mark-to-ligature table with two or more ligatures is misread (the reader
  does not go back to the list of offsets); anchors in format 3 are refused; a mark without anchor is given (0, 0).
* C62: a table with a mark-to-mark lookup can be saved but never loaded (loading aborts); contextual rules in extension
  subtables are refused.
* C61: reverse chaining substitutions in extension subtables, which OpenType allows, are refused.
* C27: interpolated deltas are cut towards the first reference instead of rounded; differences of more than 16
  bits abort.
* C28: a glyph with an empty contour after its first one cannot be optimized.
* C30: of several earlier masters inside a region only the last one that cuts an axis counts (each cut starts from
  the original region), so a region can still reach another master, whose value is then not recovered.
* C40: a string of 65536 bytes or more is written with a truncated length and comes back short; the string storage
  is taken to start right after the records whatever the header says.
* C41: names longer than 255 bytes, and more than 65278 names outside the standard set, do not survive; a version
  2 table without names is written but cannot be read; an index past the strings or a string that is not UTF-8
  aborts reading; some minor version numbers change.
* C39: segment maps are checked for the order of their targets but not of the coordinates they map, so an accepted
  map can be non-monotone or abort.
* C53: design coordinates on an axis with a map are normalized between the smallest and the largest output, whatever
  the default is, so the default is not normalized to 0, the segment map lacks its (0,0) node, and writing the axes
  of a font aborts for every rising map with an entry below the default.
* C43: the table of Unicode ranges is searched by bisection but not sorted by characters, so 124 or 126 of its 169
  entries (Greek, Cyrillic, Hebrew, Arabic, Hangul, ...) are not found, and their characters set the bit of
  Basic Latin.
* C63: a table without delta sets aborts writing; a region that is a single location comes back as one that reaches
  the end of the axis, and a variation without explicit region is read so (OpenType: up to the peak); one shared tuple
  too many is read, so a tuple index one past the last takes its peak from the data (two past: abort) and a table with too few
  bytes after the tuples is refused; short offsets of 65536 bytes and more, and 65535 glyphs, abort reading; the
  4097th peak is written as the first; a delta set that keeps 128 or more points after optimizing cannot be read.
* C64: a region with fewer axes than announced is saved and loaded as something else; a null
  offset among the data aborts loading.
* C65: unclassified glyphs become base glyphs when the class list is not written as ranges; mark
  glyph sets and item variations are read relative to the wrong base; carets with device tables cannot be saved
  (or, if loaded from a file, are saved with an offset that is read from another base); a null coverage offset aborts loading.
* C66: the size of axis records in the STAT header is ignored; a value with both a linked value and a
  range loses the range; a missing fallback name becomes 17.
* C67: the position of a value on its axis is measured between both ends of the axis and not from its default, so
  the default location is not where the outlines of the font are; a location where no delta set of some
  glyph applies aborts; the bounding boxes, metrics and components of the instance are not updated, and overlap flags are
  never set; without glyf instancing aborts.
* C68: fixing some of the axes only aborts if any glyph has points and variation data; limiting an axis to a range
  aborts if there is variation data or an avar table.
* C69: the structures MathConstants, MathItalicsCorrectionInfo, MathTopAccentAttachment, MathKern and GlyphAssembly
  have no offset base of their own, so their offsets are followed from the enclosing table: coverage tables of italics
  corrections and accent positions, and device tables, are looked for in the wrong place (C69_italics_refuted).
* C70: name IDs for axes and instances start at 255, which OpenType reserves (C70_first_id), and can clash with IDs
  already used in the font; a dimension missing from a location is filled in with the user default although locations
  are in design coordinates, so the default master may not be found (C70_missing_refuted); the coordinates of named
  instances in fvar are design coordinates, which can lie outside the axis (C70_instance_refuted); a default master on
  an axis with a map is not at the origin of the variation model (C70_origin_refuted).
* C71: a font saved with an edited glyf, loca or maxp gets the least possible number of long metrics in hhea, but its
  hmtx table is written as it was; if that stored more long metrics than necessary the metrics are corrupted
  (C71_metrics_refuted), as by ttf-flatten-components. ttf-flatten-components leaves the component statistics in maxp as
  they were. A font that loads but cannot be saved (no maxp) is emptied when a tool is to write it over itself, because
  the file is created before the tables are compiled (C71_in_place_refuted).
* C72: --drop-names of ttf-rename-glyphs has no effect (C72_drop_refuted); a new name can clash with the
  name of a glyph without a character (C72_clash_refuted); a font with fewer names than glyphs aborts.
* C73: `glyf_contour_to_kurbo_contour` and `kurbo_contour_to_glyf_contour` are not inverse: the round trip reverses the
  contour and repeats its start (C73_identity_refuted). A contour that starts off the curve is drawn wrongly
  (C73_off_start_refuted). Fractions, such as the half units of implied points, are cut off (C73_fraction_refuted).
* C74: `find_breaks` does not remember the distance of a break it replaces, so a sample further from the half unit than
  the one kept can replace it (C74_nearest_refuted).
* C75: fontcrunch reverses the direction of every contour it touches, since it does not undo the reversal of
  `kurbo_contour_to_glyf_contour` (C75_polygon_reversed, C75_direction_refuted). What comes after the last corner or before
  the first is not redrawn: a curve there becomes a straight line (C75_curve_lost_refuted, C75_covers). Bounding boxes
  stay as they were, though curves change (C75_glyphs).
* C76: ttf-instantiate takes `nan` for 0 and `inf` for 32768 without complaint (C76_nan, C76_infinity).
* C77: ttf-remove-overlap draws contours that start off the curve wrongly (C77_off_start_refuted), cuts off the fractions
  that crossings of curves make (C77_fraction_refuted), and would mix up points if it got cubic curves (C77_cubic_refuted).
* C78: `tables!` ignores all but the first token of an argument, so `Offset16(layout::Coverage)` means `Offset16(layout)`
  (C78_arguments_refuted); a wrong delimiter gives a field of type `compile_error` instead of a message.
* C79: offsets are followed from the wrong place if a structure that holds offsets does not mark its first field as
  `offset_base` (C79_unmarked_refuted), marks another (C79_marked_late_refuted) or marks two (C79_marked_twice_refuted).
  In the library this is so for FeatureVariations and what hangs on it, hence GSUB 1.1 and GPOS 1.1 with feature
  variations (C79_feature_variations_refuted), for the mark glyph sets of GDEF 1.2 and 1.3 (C79_gdef12_refuted) and for
  the structures of MATH. A Version16Dot16 writes four bytes and says it is two long.
* C80: tag! drops quotes at the ends of a string (C80_quotes_refuted), cannot make tags with a backslash
  (C80_backslash_refuted), and skips more than blanks after a broken line (C80_blank_refuted).
* C81: ttf-edit-math dump prints the number 1 for all glyph constructions (C81_constructions_refuted) and merges glyphs
  whose names are equal or look like another's number (C81_collision_refuted); it drops device tables; `load` needs a post
  table and then does nothing (C81_load).
* C83: bytes that abort the program instead of giving an error are described exactly for head (dates), fvar (16383 axes),
  name (unhandled encodings), post (names and indices) and hmtx (no metrics in hhea); every 32-bit offset of 65536 or more
  aborts its reader (C83_wide).
* C84: a coverage or class range up to glyph 65535 aborts (the range end is increased in 16 bits), as do device tables with
  unknown formats, rules and ligatures of no glyphs, format 4 subtables without segments or with glyph sums outside the
  signed 16-bit numbers, format 12 groups that are reversed or reach beyond glyph 65535, and format 14 offsets above 65535.
  None of these gives an error that a caller could handle.
* C85: a glyph whose contour ends are cut short, decrease or lie beyond its points, or whose coordinates leave 16 bits, aborts
  the reader instead of being refused (unwrap, slice and addition); instructions, flags and coordinates cut short are refused.
* C86: a font without head but with loca is refused; of two directory entries with the same tag the one further back in the file
  counts, not the first or last of the directory.
* C87: point numbers whose differences add up to more than 65535 abort the reader (16-bit addition).
* C88: loading everything reports only failures of head, maxp, loca and glyf; any other table that cannot be read is skipped
  without an error, and an abort in any table aborts the whole.
* C89: gvar with 65535 glyphs or tuples, with 16-bit offsets of 32768 or more (65536 bytes, a legal size), with decreasing
  offsets, with more glyphs than glyf, or with a tuple index just behind the last tuple aborts the reader.

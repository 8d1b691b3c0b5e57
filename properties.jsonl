{"id": "C01", "title": "Integer fields survive a write/read cycle", "statement": "For each primitive field type (u8, i8, u16, i16, u24, u32, i32, i64): writing any in-range value appends exactly the type's width in bytes, and reading at the position where it was written, whatever surrounds it, returns the same value and advances the read position by that width; conversely any group of width bytes that is read and written again reproduces those bytes.", "quantifier": "all values of each type, all prefixes and suffixes, all byte groups of the right width", "why_tests_cant": "the value space (up to 2^64) times all surrounding buffers cannot be enumerated", "anchors": ["crates/otspec/src/lib.rs: otspec_primitive!", "crates/otspec/src/types.rs: uint24"]}
{"id": "C02", "title": "Reading never goes out of bounds and fails exactly at end of data", "statement": "For every buffer and every history of reader operations (read, peek, skip, push, pop, follow offset), a read or peek of n bytes succeeds exactly when n bytes remain, then returns exactly the bytes at the current position, a failed read leaves the position unchanged, and following an offset succeeds exactly when the destination is not beyond the end.", "quantifier": "all buffers, all finite sequences of reader operations", "why_tests_cant": "histories are unbounded", "anchors": ["crates/otspec/src/lib.rs: ReaderContext"]}
{"id": "C03", "title": "Counted arrays survive a write/read cycle", "statement": "Writing an array with a 16-bit (32-bit) count and reading it back returns the same array and consumes exactly the bytes written, for every array short enough for the count; a longer array is not silently corrupted.", "quantifier": "all arrays, all element codecs that round-trip, all trailing data", "why_tests_cant": "array lengths beyond what a test would build (65536 elements and up) are where the count overflows", "anchors": ["crates/otspec/src/counted.rs: Counted, Counted32", "crates/otspec/src/lib.rs: de_counted"]}
{"id": "C04", "title": "Tags accept exactly 1-4 printable ASCII characters and order as their bytes", "statement": "Constructing a tag succeeds exactly for strings of 1 to 4 bytes all in 0x20..0x7E, the result is the string padded with spaces to four bytes, it serializes to those four bytes and reads back equal, and on failure the reported position and byte are those of the first offending byte.", "quantifier": "all byte strings", "why_tests_cant": "the space of strings is infinite", "anchors": ["crates/otspec/src/tag.rs: Tag::from_raw, Tag::from_be_bytes"]}
{"id": "C05", "title": "F2DOT14 and Fixed values read from a font are written back with the same bits", "statement": "Reading any 2-byte F2DOT14 (4-byte Fixed) and writing the value back yields the same bytes; values out of the F2DOT14 range are rejected rather than wrapped.", "quantifier": "all 2^16 (2^32) bit patterns and all float values", "why_tests_cant": "2^32 patterns, and the failure depends on binary32 rounding of specific patterns", "anchors": ["crates/otspec/src/types.rs: Fixed, F2DOT14, ot_round"]}
{"id": "C06", "title": "The table checksum is the sum of zero-padded big-endian words", "statement": "The checksum of any byte string equals, modulo 2^32, the sum of its big-endian 32-bit words after zero-padding to a multiple of four; padding with up to three zero bytes does not change it, and it is additive over concatenation at word boundaries.", "quantifier": "all byte strings", "why_tests_cant": "lengths and contents unbounded", "anchors": ["src/font.rs: checksum"]}
{"id": "C07", "title": "A saved font's whole-file checksum is the OpenType magic", "statement": "Whenever a font that has a head table is saved successfully, the 32-bit word sum of the whole output file is 0xB1B0AFBA.", "quantifier": "all fonts (any set of tables and table contents) with a head table of at least 12 bytes", "why_tests_cant": "depends on the wrap-around sum over arbitrary table contents", "anchors": ["src/font.rs: Serialize for Font"]}
{"id": "C08", "title": "A saved font has a well-formed table directory", "statement": "In every saved font the directory lists each table exactly once in ascending tag order, and each entry's offset is a multiple of four, lies after the directory, its range lies inside the file, ranges of different tables do not overlap, its length is the table's byte length, and its checksum is the checksum of the table data (for head, with the adjustment field zeroed).", "quantifier": "all table sets and contents", "why_tests_cant": "layout depends on all table lengths at once", "anchors": ["src/font.rs: Serialize for Font"]}
{"id": "C09", "title": "Search-range header fields are correct", "statement": "For every table (segment) count the binary-search fields are searchRange = itemsize * largest power of two not above the count, entrySelector = its logarithm and rangeShift = itemsize*count - searchRange; the computation terminates without overflow.", "quantifier": "all 16-bit counts and item sizes", "why_tests_cant": "the failing counts (0, 4096 and up, 32768 and up) are not exercised by real fonts", "anchors": ["src/font.rs: get_search_range"]}
{"id": "C10", "title": "Saving then loading a font preserves every table", "statement": "Loading the bytes produced by saving a font yields a font of the same flavour with exactly the same tags, each table's bytes equal to what was saved, except the four checksum-adjustment bytes of head.", "quantifier": "all table sets with total size below 4 GiB and fewer than 4096 tables", "why_tests_cant": "unbounded contents", "anchors": ["src/font.rs: Serialize/Deserialize for Font", "src/table_store.rs: TableLoader"]}
{"id": "C11", "title": "Load-save is idempotent", "statement": "Saving a font, loading the result without touching it and saving again produces the identical file.", "quantifier": "all savable fonts", "why_tests_cant": "unbounded contents", "anchors": ["src/font.rs"]}
{"id": "C12", "title": "Loading arbitrary bytes reports an error instead of crashing", "statement": "For every input byte string, loading a font returns either a font or an error value; it does not abort. When it succeeds, every directory entry's byte range lies inside the file and the table's content is exactly that range.", "quantifier": "all byte strings", "why_tests_cant": "malformed inputs are unbounded", "anchors": ["src/font.rs: Deserialize for Font"]}
{"id": "C13", "title": "The table set behaves as a map whatever has been loaded", "statement": "For every history of insert, raw insert, removal, lookup and membership tests, the observable results (membership, keys in order, bytes written for a table, and values obtained of tables parsed on their own) are those of a plain map from tag to content, which only insertions and removals change. For tables parsed with the help of another table (loca, hmtx, glyf, gvar, GSUB, GPOS) an earlier lookup can change the value seen later, and remove returns the table only if it was looked up: both are shown by counterexample.", "quantifier": "all finite operation histories", "why_tests_cant": "interleavings of lazy loading with mutation are unbounded", "anchors": ["src/table_store.rs: TableSet"]}
{"id": "C14", "title": "Unmodified tables are saved byte for byte", "statement": "If a table came from raw bytes and was not replaced since, saving writes exactly those bytes (head: apart from the checksum adjustment), no matter which tables were looked up (parsed) in between, in what order, or whether parsing failed; the exceptions are glyf, loca, head and hhea when the font has glyf and one of glyf, loca, maxp was edited, as these are rebuilt.", "quantifier": "all histories of lookups, all contents", "why_tests_cant": "unbounded histories", "anchors": ["src/table_store.rs: write_table, load_if_needed"]}
{"id": "C15", "title": "Modifying an obtained table does not affect the font until it is inserted back", "statement": "Tables are handed out with copy-on-write semantics: after any history of obtaining, cloning, modifying and inserting handles, each handle and the font see exactly the modifications made through themselves (value semantics).", "quantifier": "all histories over any number of handles", "why_tests_cant": "aliasing histories are unbounded", "anchors": ["src/table_store.rs: CowPtr"]}
{"id": "C16", "title": "Compiling glyf/loca keeps every glyph addressable", "statement": "After saving a font with an edited glyf table, the loca table has one entry per glyph plus one, is non-decreasing, each non-empty glyph's serialized bytes start at its loca offset and lie before the next one, an empty glyph has an empty range, and the offset size flag in head matches the size used.", "quantifier": "all glyph lists", "why_tests_cant": "size thresholds (65535/131070 bytes) and padding interact", "anchors": ["src/table_store.rs: compile_glyf_loca_maxp", "src/tables/loca.rs"]}
{"id": "C17", "title": "Saving keeps maxp.numGlyphs in step with glyf", "statement": "Saving writes maxp exactly as the font holds it, whatever else was edited. Hence the saved number of glyphs is the right one exactly when the program has updated maxp itself; a font whose glyf table was replaced is saved with the stale number (counterexample).", "quantifier": "all fonts and glyph counts", "why_tests_cant": "stale copy is invisible unless counts change", "anchors": ["src/table_store.rs: compile_glyf_loca_maxp"]}
{"id": "C18", "title": "hmtx survives a write/read cycle", "statement": "For every list of metrics, writing hmtx and reading it back with the reported number of long metrics yields the same list, and the reported number is the smallest possible.", "quantifier": "all metric lists", "why_tests_cant": "run-length truncation depends on the whole list", "anchors": ["src/tables/hmtx.rs"]}
{"id": "C19", "title": "loca parsing gives each glyph its byte range", "statement": "Parsing loca yields for each glyph the start offset of its data, or nothing when its range is empty, for both the short and long formats.", "quantifier": "all offset lists", "why_tests_cant": "unbounded", "anchors": ["src/tables/loca.rs"]}
{"id": "C20", "title": "Simple glyph outlines survive a write/read cycle", "statement": "For every simple glyph with 16-bit coordinates whose coordinate differences fit 16 bits, parsing the serialized glyph returns the same contours, points, on-curve flags, instructions, bounding box and overlap flag.", "quantifier": "all contour lists", "why_tests_cant": "flag/short-vector packing interacts over the whole point sequence", "anchors": ["src/tables/glyf/glyph.rs", "src/tables/glyf/point.rs"]}
{"id": "C21", "title": "Component records survive a write/read cycle", "statement": "For every composite glyph component, parsing the serialized record returns the same glyph reference, offsets/points and flags, and the size of scale data written matches the flags.", "quantifier": "all component records", "why_tests_cant": "flag combinations times argument ranges", "anchors": ["src/tables/glyf/component.rs"]}
{"id": "C22", "title": "Explicit on-curve insertion and implied removal preserve the outline", "statement": "Inserting explicit on-curve points never leaves two adjacent off-curve points, keeps all original points in order, and only adds midpoints; it succeeds exactly on non-empty contours whose sums of neighbouring off-curve coordinates fit 16 bits, and it treats the contour as an open list, so the last/first pair is left alone.", "quantifier": "all contours", "why_tests_cant": "cyclic adjacency over unbounded contours", "anchors": ["src/tables/glyf/contourutils.rs"]}
{"id": "C23", "title": "Flattening composites terminates and yields only simple components", "statement": "Flattening the components of a glyph set whose references are all valid always terminates, even with cyclic references, leaves only components that refer to simple glyphs, and for sets nested at most 65 levels deep each resulting component refers to a simple glyph and carries the composition of transforms along its path.", "quantifier": "all glyph sets", "why_tests_cant": "reference graphs are unbounded", "anchors": ["src/tables/glyf.rs"]}
{"id": "C24", "title": "Packed deltas survive a write/read cycle", "statement": "Packed deltas are written in the encoding the OpenType specification describes and every such encoding is read: parsing the written bytes with the known count returns the same list and consumes exactly those bytes. Writing succeeds exactly for the lists without 256 zeros in a row; it aborts on the others.", "quantifier": "all delta lists", "why_tests_cant": "run boundaries at 64/65 elements and at any position", "anchors": ["src/otvar/packeddeltas.rs"]}
{"id": "C25", "title": "Packed point numbers survive a write/read cycle", "statement": "Writing and parsing 'all points', or 1 to 127 point numbers each at most 255 after the one before, returns the same value; the parser reads every encoding the OpenType specification allows of up to 127 point numbers; writing succeeds exactly on non-decreasing lists and aborts otherwise. With a gap above 255 (up to 63 points) the written bytes are rejected, and 128 or more point numbers never come back.", "quantifier": "all increasing point lists", "why_tests_cant": "count boundary at 128 and word runs", "anchors": ["src/otvar/packedpoints.rs"]}
{"id": "C26", "title": "Tuple variation data survives a write/read cycle", "statement": "Serializing a tuple variation store whose deltas and point numbers are encodable (C24, C25) and reading it back with the same axis and point counts yields the same regions and the same delta, or absence of one, for every point; the sizes and offsets recorded in the bytes are those of the parts they describe.", "quantifier": "all variation stores", "why_tests_cant": "combination of private/shared points, flags and sizes", "anchors": ["src/otvar/tuplevariationstore.rs", "src/otvar/tuplevariationheader.rs"]}
{"id": "C27", "title": "Untouched points are inferred from the nearest touched points", "statement": "Inferring deltas for a contour returns one delta per point; a given delta stays; an untouched point takes, on each axis, the delta of the nearer reference if it lies outside the two nearest touched points before and after it (going round the contour), and otherwise a value between their deltas less than 1 + 1/128 away from linear interpolation (the code cuts instead of rounding). A single given delta shifts the contour, none leaves it in place, and contours do not influence each other. The call aborts exactly if a difference of coordinates or deltas of two references does not fit in 16 bits.", "quantifier": "all contours, coordinates and partial delta assignments", "why_tests_cant": "cyclic reference search and order-dependent branches", "anchors": ["src/otvar/iup.rs: iup_contour, iup_segment"]}
{"id": "C28", "title": "Delta optimization is lossless", "statement": "Dropping deltas with the optimizer keeps only original deltas, and inferring the dropped ones again reproduces every delta exactly, for a contour and for a whole glyph with its phantom points. Optimizing succeeds whenever contours have 1 to 8191 points and coordinates and deltas are at most 16383.", "quantifier": "all contours, coordinates and deltas", "why_tests_cant": "dynamic programming over cyclic contours of any size", "anchors": ["src/otvar/iup.rs: optimize_deltas, iup_contour_optimize"]}
{"id": "C29", "title": "Region scalars are in [0,1], 1 at the peak and 0 outside", "statement": "The scalar of a support region at any location is between 0 and 1, is 1 when every axis is at its peak, 0 when some axis lies at or beyond an end of the region's range, positive inside, and within a relative error of 2^-21 per axis the product of the linear tents of its axes.", "quantifier": "all regions and locations", "why_tests_cant": "continuous domain", "anchors": ["src/otvar/locations.rs: support_scalar"]}
{"id": "C30", "title": "Interpolating at a master location reproduces the master", "statement": "For every list of masters whose normalized coordinates are equal or at least 2^-22 apart, in which any two masters move different axes, go in opposite directions on one axis, or differ on the only axis they move, and any values for all or some of them, evaluating the computed deltas at a master's location gives that master's value. In general what is added there is the contribution of the regions of later masters, so all values are recovered exactly when no region reaches an earlier master.", "quantifier": "all master sets and values", "why_tests_cant": "continuous domain and any number of masters", "anchors": ["src/otvar/locations.rs: VariationModel"]}
{"id": "C31", "title": "Coverage tables survive a write/read cycle", "statement": "For every list of glyphs, writing either fails (exactly when glyph 65535 stands before the end) or gives a coverage table of the OpenType format for that list, the shorter of the two formats when both are possible, of the announced size; reading it yields the same list in the same order, except for a list written as ranges that ends at glyph 65535, which the reader rejects. Every well-formed coverage table that does not use such a range is read to its list of glyphs.", "quantifier": "all glyph lists", "why_tests_cant": "range boundaries up to 65535", "anchors": ["crates/otspec/src/layout/coverage.rs"]}
{"id": "C32", "title": "Class definitions survive a write/read cycle", "statement": "For every class definition, writing either fails (exactly when it reaches beyond glyph 65533 or has more than 21845 runs) or gives the shorter of the two OpenType formats; after reading it back every glyph has the same class, and the glyphs reported for each class other than 0 are unchanged (those reported for class 0 can change). Every well-formed class definition with no range reaching glyph 65535 is read to the class function it denotes.", "quantifier": "all class maps", "why_tests_cant": "format choice depends on run structure", "anchors": ["crates/otspec/src/layout/classdef.rs"]}
{"id": "C33", "title": "Device tables survive a write/read cycle", "statement": "For every device table with format at most 3, the written bytes hold the deltas packed as OpenType says; they are read back exactly when there is one delta per size and all fit the width of the format (the format chosen automatically need not be wide enough). Every packed device table is read to its deltas, whatever the padding. Tables of another format, including variation indices, cannot be written.", "quantifier": "all start/end sizes and delta lists", "why_tests_cant": "bit packing boundaries", "anchors": ["crates/otspec/src/layout/device.rs"]}
{"id": "C34", "title": "Value records keep their values through simplification and format coercion", "statement": "Simplifying a value record, or coercing one or many to a wider format, never changes the adjustment it denotes; after coercion all records have the same number fields; a record stored anywhere is read back unchanged with the format listing its fields, and the format computed for it is that one exactly when it has both placement devices or neither.", "quantifier": "all value records and formats", "why_tests_cant": "2^8 formats times value ranges", "anchors": ["crates/otspec/src/layout/valuerecord.rs"]}
{"id": "C35", "title": "Character maps (format 4) survive a write/read cycle", "statement": "For every mapping of characters to glyphs: if a format 4 subtable is written, it is valid OpenType whose lookup gives every character of the basic plane its glyph (0 if unmapped), and it is read back exactly when it is shorter than 64K bytes; every mapping of up to 6551 characters with codes and glyphs below 65535 is written; every valid format 4 subtable, however segmented, is read as the mapping its lookup defines on all segments but the last (unless a sum of array word and delta leaves 16 signed bits, which aborts).", "quantifier": "all mappings", "why_tests_cant": "segment splitting heuristics over unbounded mappings", "anchors": ["src/tables/cmap.rs: cmap4::from_mapping, to_mapping, split_range"]}
{"id": "C36", "title": "Character maps (format 12) survive a write/read cycle", "statement": "For every mapping: a format 12 subtable is written exactly if the first glyph is not 0 and no glyph but the first and last is 65535; it is read back exactly if the mapping starts at code 0 with a glyph other than the next one's (and then it is valid OpenType defining the mapping), while a mapping that starts at any other code is written as a subtable that aborts reading; every valid format 12 subtable with 16-bit glyphs is read as the mapping it defines.", "quantifier": "all mappings", "why_tests_cant": "the existing test starts at codepoint 0, hiding the failure elsewhere", "anchors": ["src/tables/cmap.rs: cmap12::from_mapping, to_mapping"]}
{"id": "C37", "title": "Each cmap subtable keeps its own format, language and mapping", "statement": "For every list of subtables whose own bytes are readable: what is written reads back as the same platforms and encodings, each with format, language, mapping and variation sequences of the first subtable with the same mapping; so the table is kept exactly if subtables with equal mappings agree on format, language and sequences. Format 14 subtables are written per OpenType, and every valid one is read as the glyphs of its variation sequences.", "quantifier": "all lists of subtables", "why_tests_cant": "sharing of equal subtables depends on pairs of subtables", "anchors": ["src/tables/cmap.rs: Serialize for cmap"]}
{"id": "C38", "title": "Best-mapping choice and reverse mapping are correct", "statement": "The best mapping is that of the first subtable under the first platform and encoding present in the documented order of preference; the reverse mapping has exactly the glyphs reached from some character by some Unicode subtable, each with exactly these characters.", "quantifier": "all cmap tables", "why_tests_cant": "unbounded", "anchors": ["src/tables/cmap.rs: get_best_mapping, reversed"]}
{"id": "C39", "title": "Axis segment maps are monotone, piecewise linear and hit their nodes", "statement": "For maps of numbers a font can hold (multiples of 1/16384): a map is accepted as valid exactly when its targets never decrease and exactly one node each maps -1, 0 and 1 to themselves. An accepted map whose coordinates increase maps every value without failing into [-1,1], maps -1, 0 and 1 to themselves and every node to its target, is monotone over all pairs of values, and equals the piecewise linear map through its nodes up to 2^-20 (values within 2^-23 of a node may go where the node goes). The order of the coordinates is not checked: accepted maps without it need not be monotone and can abort. The table itself is written in its format and read back with the same numbers.", "quantifier": "all segment maps of F2DOT14 numbers, all values", "why_tests_cant": "continuous domain, rounding of every operation", "anchors": ["src/tables/avar.rs: SegmentMap", "crates/otspec/src/tables/avar.rs"]}
{"id": "C40", "title": "Name tables survive a write/read cycle", "statement": "A name table of at most 5460 records whose strings can be expressed in the character set of their platform and encoding, with 16-bit string lengths and positions, is written and read back with the same records and strings; every table whose string storage follows its records is read as its records say. Unicode records (platform 0, and platform 3 with encodings 0, 1 and 10) hold UTF-16. Writing never reports an error: it aborts exactly when the record count (modulo 65536) exceeds 5460 or a platform/encoding has no known character set. A longer string is written silently and lost, and the storage offset in the header is not used when reading.", "quantifier": "all record lists and all byte layouts of the table", "why_tests_cant": "offset arithmetic, surrogate pairs, shared storage", "anchors": ["src/tables/name.rs"]}
{"id": "C41", "title": "Glyph names in post survive a write/read cycle", "statement": "A version 2 post table is read back with the same names in the same order exactly when it has at most 65535 names, at most 65278 of them not among the 258 standard ones, and none of those longer than 255 bytes; other versions exactly when they carry no names. The bytes follow the format: an index per glyph, below 258 for a standard name, otherwise 258 plus the position of a length-prefixed string. Every table of that format is read as it says; an index outside the strings, or a string that is not UTF-8, aborts reading. Which minor version numbers survive is stated exactly.", "quantifier": "all name lists and all byte layouts of the table", "why_tests_cant": "standard-name indices, length bytes and index overflow", "anchors": ["src/tables/post.rs"]}
{"id": "C42", "title": "Fixed-layout tables survive a write/read cycle", "statement": "head, hhea, maxp, OS/2, fvar, gasp, cvt, fpgm and prep tables read back equal to what was written.", "quantifier": "all field values", "why_tests_cant": "version-gated fields and lossy fields", "anchors": ["src/tables/head.rs", "src/tables/hhea.rs", "src/tables/maxp.rs", "src/tables/os2.rs", "src/tables/fvar.rs", "src/tables/gasp.rs"]}
{"id": "C43", "title": "Unicode and code page ranges come from the character map", "statement": "Every Unicode range bit other than bit 0 that is set for a character map stands for a mapped character in one of OpenType's blocks for that bit, whatever the search makes of the table; with the standard library's searches exactly 45 (before 1.82) or 43 (since) of the 169 blocks are recognized and every other character, Cyrillic letters for instance, sets bit 0 instead. The code page bits are exactly those whose characteristic characters are all mapped, or Latin 1 if there are none.", "quantifier": "all character maps", "why_tests_cant": "binary search over an unsorted table, for every character", "anchors": ["src/tables/os2.rs: calc_unicode_ranges, calc_code_page_ranges, glyph_unicode_range, OS2_UNICODE_RANGES"]}
{"id": "C44", "title": "Resolved offsets point at the right subtables", "statement": "After resolving a tree of linked tables, the offset stored in each parent equals the distance from the parent's base to the start of the child's bytes in the output, the output is exactly the bytes of all subtables, and following the offsets reads back the same tree, however the subtables are arranged. A tree can be written exactly when every distance fits the offset that has to hold it (so always when it has less than 65536 bytes in all); otherwise an error is reported.", "quantifier": "all table trees below 4 GiB", "why_tests_cant": "unbounded trees and sizes", "anchors": ["crates/otspec/src/offsetmanager.rs", "crates/otspec/src/offsets.rs"]}
{"id": "C45", "title": "Single substitutions survive conversion to and from the binary structure", "statement": "Every single substitution is written as an OpenType single substitution with the same mapping, in format 1 exactly when it is not empty and one difference (modulo 65536) works for all glyphs. Every such table is read as its mapping if it has format 2 or no substitution, with glyph numbers seen as signed 16-bit numbers, leaves the signed range; reading any other format 1 table aborts.", "quantifier": "all mappings, all encodings of them", "why_tests_cant": "wrap-around deltas", "anchors": ["src/layout/gsub1.rs", "crates/otspec/src/layout/gsub1.rs"]}
{"id": "C46", "title": "Multiple and alternate substitutions survive conversion", "statement": "Every multiple or alternate substitution is written as the OpenType table with the same mapping, and every such table is read as its mapping.", "quantifier": "all mappings, all arrangements of the table in the file", "why_tests_cant": "unbounded", "anchors": ["src/layout/gsub2.rs", "src/layout/gsub3.rs"]}
{"id": "C47", "title": "Ligatures survive conversion and longer ligatures are tried first", "statement": "Every ligature map without an empty sequence is written as an OpenType ligature substitution with exactly its sequences, in which a shaping engine that takes the first match finds the longest sequence of the map; reading it gives the map back. Every OpenType ligature substitution is read as the map of its sequences, the last entry of a sequence winning.", "quantifier": "all ligature maps, all input glyph runs", "why_tests_cant": "ordering over unbounded sets", "anchors": ["src/layout/gsub4.rs", "crates/otspec/src/layout/gsub4.rs"]}
{"id": "C48", "title": "Single and pair adjustments survive conversion", "statement": "Single positioning: a non-empty map can be written exactly when its records are all alike or none has a device table; if moreover the device fields agree, the subtable is the OpenType subtable with the same adjustments, every OpenType subtable is read as what it means, and a written map comes back with the same glyphs and adjustments and is written again as the same subtable. Pair positioning: maps whose records have the same non-zero fields on each side are written as an OpenType subtable and come back with the same pairs and adjustments; pair lists without device tables and class matrices, however encoded, are read as the pairs and adjustments they list (the class format ignoring its coverage table). Other maps are shown to abort, be refused or come back changed.", "quantifier": "all mappings, all encodings", "why_tests_cant": "value format coercion over all records", "anchors": ["src/layout/gpos1.rs", "src/layout/gpos2.rs", "crates/otspec/src/layout/gpos1.rs", "crates/otspec/src/layout/gpos2.rs"]}
{"id": "C49", "title": "Contextual rules survive conversion", "statement": "Chained rules are written as one format 3 subtable each and come back with the same glyph set and the same lookups, in order, at each position; formats 1, 2 and 3 of both kinds are read as the rules they list (single glyphs, classes, coverage tables). Unchained rules can be written only if they have no positions at all.", "quantifier": "all rules, all encodings", "why_tests_cant": "unbounded", "anchors": ["src/layout/contextual.rs", "crates/otspec/src/layout/contextual.rs"]}
{"id": "C50", "title": "Cursive and mark attachment survive conversion", "statement": "Cursive maps are written as the OpenType subtable and read back unchanged, from any encoding. Mark-to-base and mark-to-mark tables can be written exactly when no mark has class 65535; they come back with the same marks, bases and attachments (which anchor of which mark goes onto which anchor of which base), and with all anchors exactly when no base has an anchor of a class above those of all marks; any OpenType encoding is read as what it means. Mark-to-ligature tables are written likewise, and read when they have at most one ligature; with two or more, reading goes astray.", "quantifier": "all attachment tables, all encodings", "why_tests_cant": "class count computed over all marks", "anchors": ["src/layout/gpos3.rs", "src/layout/gpos4.rs", "src/layout/gpos5.rs", "src/layout/gpos6.rs", "crates/otspec/src/layout/anchors.rs", "crates/otspec/src/layout/gpos3.rs", "crates/otspec/src/layout/gpos4.rs", "crates/otspec/src/layout/gpos5.rs"]}
{"id": "C51", "title": "Script, language and feature lists survive conversion", "statement": "Script lists whose tags are printable, whose feature indices are below 65536 and whose required features are below 65535 are written as OpenType says and read back as the same maps; any OpenType script list, however arranged, is read as maps in which the last entry of a tag counts; feature lists keep tags, lookup indices and order but never their parameters. Exactly the language systems with indices in those ranges keep their value; null offsets in records abort.", "quantifier": "all script and feature lists, all arrangements in the file", "why_tests_cant": "unbounded nested maps", "anchors": ["src/layout/common.rs: ScriptList, FeatureList, Script, LanguageSystem", "crates/otspec/src/layout/common.rs"]}
{"id": "C52", "title": "Bounding boxes are exact", "statement": "The bounding box computed for a simple glyph contains every point and touches a point on each side; the box of a composite glyph without a use-my-metrics component contains every point of its decomposed outline.", "quantifier": "all contours", "why_tests_cant": "unbounded", "anchors": ["src/tables/glyf/glyph.rs"]}
{"id": "C53", "title": "Designspace axis maps interpolate, normalize and become segment maps", "statement": "Both conversions between user and design coordinates return a node's output at each node (the last entry of a position counts), interpolate between neighbouring nodes up to 2^-20 relative error, shift exactly by the end node's offset outside, are monotone and bounded by the surrounding outputs when the outputs rise, and abort exactly between nodes at least 2^31 apart. User positions normalize to -1, 0 and 1 at minimum, default and maximum and linearly in between (error at most 2^-22), monotonically; design positions on an axis with a map normalize to their place between the smallest and the largest output, which ignores the default, so writing the axes of a font aborts for every rising map with an entry below the default and works when the default is the minimum.", "quantifier": "all axes, maps and positions", "why_tests_cant": "unbounded maps, binary32 rounding", "anchors": ["crates/designspace/src/lib.rs: piecewise_linear_map, userspace_to_designspace, designspace_to_userspace, normalize_userspace_value, normalize_designspace_value, normalize_location, add_to_font"]}
{"id": "C54", "title": "Bitset helpers encode exactly the requested bits", "statement": "Converting between lists of bit numbers and integers is exact: the integer has bit k set exactly when k is in the list.", "quantifier": "all lists", "why_tests_cant": "unbounded", "anchors": ["crates/otspec/src/utils.rs"]}
{"id": "C55", "title": "Item variation data survives a write/read cycle", "statement": "Writing and reading item variation data yields the same deltas and region indices exactly when every row has one delta per region; what is written is the format's encoding with word columns only, and every encoding with any number of word columns is read. Variation region lists with exact 2.14 coordinates survive.", "quantifier": "all tables", "why_tests_cant": "word/byte column split", "anchors": ["src/otvar/itemvariationstore.rs"]}
{"id": "C56", "title": "Removing implied on-curve points only drops implied points", "statement": "Removing implied on-curve points drops, one after the other, only on-curve points that are the midpoint of two off-curve neighbours, leaves none of them, and undoes the insertion of explicit on-curve points on every non-empty contour that has no implied points.", "quantifier": "all contours", "why_tests_cant": "cyclic adjacency over unbounded contours, in-place removal while scanning", "anchors": ["src/tables/glyf/contourutils.rs: remove_implied_oncurves"]}
{"id": "C57", "title": "maxp statistics computed from glyf are the true maxima", "statement": "For glyph sets without reference cycles whose statistics fit 16 bits, the maxp table computed from the glyphs records the number of glyphs and the largest numbers of points, contours, components, composite points, composite contours and nesting depth.", "quantifier": "all glyph sets", "why_tests_cant": "recursion over unbounded reference graphs", "anchors": ["src/tables/glyf.rs: as_maxp10"]}
{"id": "C58", "title": "Coordinates and contour ends handed to the variation tables match the glyph", "statement": "The coordinate list for variations has all outline points, then one pair per component offset, then four phantom points, and the contour end list has the index of the last entry of each contour, component and phantom point; a glyph whose first contour is empty aborts.", "quantifier": "all glyphs", "why_tests_cant": "unbounded contours", "anchors": ["src/tables/glyf/glyph.rs: gvar_coords_and_ends"]}
{"id": "C59", "title": "Which edited fonts can be saved", "statement": "Saving fails (aborts) for every font without a maxp table and for every font holding an edited hmtx, gvar or MATH table or an edited loca without glyf; it succeeds for every font without edits of glyf, loca, maxp, GSUB and GPOS whose maxp parses, whose edited tables can be written, whose head has 12 bytes and that has fewer than 4096 tables. The conditions are exact, also for edited GSUB, GPOS and glyf tables.", "quantifier": "all table sets and codecs", "why_tests_cant": "combinations of edited tables are unbounded", "anchors": ["src/table_store.rs: compile_glyf_loca_maxp, compile_gsub_gpos, write_table, Serialize for LoadedTable", "src/font.rs: Font::to_bytes"]}
{"id": "C60", "title": "Reverse chaining substitutions survive conversion", "statement": "Every reverse chaining substitution is written as the OpenType table with its mapping and its glyph sets, and every such table is read as its mapping and glyph sets.", "quantifier": "all substitutions, all arrangements of the table in the file", "why_tests_cant": "unbounded", "anchors": ["src/layout/gsub8.rs", "crates/otspec/src/layout/gsub8.rs"]}
{"id": "C61", "title": "A substitution table survives conversion as a whole", "statement": "A GSUB table made of single, multiple, alternate, ligature, chained contextual and reverse chaining lookups that are each writable is written, exactly if its 16-bit offsets can hold the distances, as an OpenType table with the same meaning, and reading it back gives the same scripts, features (without parameters), flags, filtering sets and rules, chained rules one to a subtable; every OpenType GSUB table, including all contextual formats and extension subtables of types up to 6, is read as what it means; a table with an unchained contextual rule is never written.", "quantifier": "all tables, all arrangements of their parts in the file", "why_tests_cant": "unbounded nesting of lists of lists", "anchors": ["src/tables/GSUB.rs: from_bytes, Serialize, to_lowlevel, subtables_from_lowlevel, extension_from_lowlevel", "crates/otspec/src/tables/GSUB.rs"]}
{"id": "C62", "title": "A whole GPOS table survives saving and loading", "statement": "A GPOS table of lookups with writable rules (C48-C50; chained contextual rules; no unchained ones) is saved as an OpenType table with the same scripts, features (without parameters), lookup flags and positioning; it is saved exactly if its offsets can hold the distances. Any OpenType GPOS table without mark-to-mark lookups and without two ligatures in one subtable, however its parts are arranged, also with extension subtables of types up to 6, is loaded as what it means; what was saved is loaded as the same positioning, and saving that again gives the same bytes. No table is ever loaded with a mark-to-mark lookup (loading aborts), a subtable break at the end of a single positioning lookup makes the table unsavable, and contextual rules in extension subtables are refused.", "quantifier": "all GPOS tables, all arrangements in the file", "why_tests_cant": "unbounded nesting of lookups, subtables and offsets", "anchors": ["src/tables/GPOS.rs", "crates/otspec/src/tables/GPOS.rs", "src/layout/common.rs"]}
{"id": "C63", "title": "Glyph variations survive saving and loading, optimized or not", "statement": "Saving the variations of a font's glyphs (at most 4096 different peaks; regions that are more than one location) and loading them against the same outlines gives back, for every glyph that had data, exactly the delta sets that move some point, in order, with the same peaks, regions and deltas; this is so whether or not the deltas were optimized for the outlines (always possible for glyphs of at most 127 points and moderate coordinates), and whatever order the hash map yields equally frequent peaks in. The only tables saved but not loadable are those in which nothing moves and the axes outnumber three times the glyphs with data. The file is laid out as OpenType says: each peak once, the more frequent ones first, glyph data at even offsets. Any such file with either offset size is loaded as what it means provided a tuple's worth of bytes follows the shared tuples, and refused if not. Tables without delta sets abort saving; short offsets past 65535 bytes, or 65535 glyphs, abort loading.", "quantifier": "all gvar tables, outlines, counters, optimized or not; all well-formed files in both formats", "why_tests_cant": "unbounded numbers of glyphs, axes, delta sets and points; hash map order", "anchors": ["src/tables/gvar.rs"]}
{"id": "C64", "title": "Item variation stores survive saving and loading", "statement": "An item variation store whose coordinates are F2DOT14 values, with a triple for every axis in every region and a delta for every region in every row, is saved in the OpenType format and (below 64 KiB) loaded as the same store; among writable stores exactly those of format 1 and that shape are. Any such store, however its parts are arranged in the file, is loaded, and whatever is loaded has that shape. Coordinates outside F2DOT14 abort saving; null offsets to the data and region lists beyond 64 KiB abort loading.", "quantifier": "all stores; all arrangements in the file", "why_tests_cant": "unbounded numbers of axes, regions, rows", "anchors": ["src/otvar/itemvariationstore.rs", "crates/otspec/src/offsets.rs"]}
{"id": "C65", "title": "Glyph definitions survive saving and loading", "statement": "A GDEF table without mark glyph sets, variations and caret device tables is saved in the OpenType format, exactly if its offsets can hold the distances, and loaded with the same attachment points and carets, and with the same glyph classes and mark classes exactly if the classes are written as ranges or without gaps; otherwise every unclassified glyph in between becomes a base glyph. Any such OpenType table of versions 1.0 to 1.3, however its parts are arranged, is loaded as what it means. Mark glyph sets, item variations and caret device tables do not survive: their offsets are read from the wrong place, and a caret with a new device table is never saved.", "quantifier": "all GDEF tables; all arrangements in the file", "why_tests_cant": "unbounded maps of lists", "anchors": ["src/tables/GDEF.rs", "crates/otspec/src/layout/classdef.rs"]}
{"id": "C66", "title": "Style attributes survive saving and loading", "statement": "A buffer is loaded as a STAT table exactly if it is in the OpenType format with 8-byte axis records, wherever the axes, offsets and values are placed, and then as what it says (for combinations of axes, the last entry for an axis counts; unknown flags are dropped). A table is saved exactly if every value names an axis or axes and the values with their offsets take at most 65535 bytes; it is then loaded as the same axes and values, each value reduced to the parts its format has (combination before link before range), a missing number as 0, a missing fallback name as 17, numbers rounded to 16.16; so it is the same table exactly if it has a fallback name and every value has the parts of one format with numbers that fit. Longer axis records announced in the header are misread.", "quantifier": "all byte buffers; all tables with values below 64 KiB each", "why_tests_cant": "unbounded numbers of axes and values, arbitrary placement", "anchors": ["src/tables/STAT.rs"]}
{"id": "C67", "title": "Instances show the outlines of the location asked for", "statement": "If instancing a variable font with a value (or the default) for every axis succeeds, the result has no axes and no segment maps, and every glyph has the same contours and flags with each coordinate equal to the default outline plus the sum of its delta sets weighted by their tents at the location asked for, within 1 + (axes + 2)/64 for every delta set that applies; variation data is left only beyond the last glyph. The location is, per axis, the value's fraction of the way from the lowest to the highest value, through the axis' segment map. For a proper font it succeeds exactly if every glyph with points and variation data has a delta set that applies there. The default location does not in general give the outlines of the font.", "quantifier": "all fonts of up to 1000 axes with any number of glyphs, delta sets and points; all locations", "why_tests_cant": "floating point error over unbounded products and sums; every location of a continuous space", "anchors": ["src/otvar/instancer.rs:instantiate_variable_font, normalize, normalize_axis_limits, pin_tuple_variation_axes, instantiate_gvar", "src/tables/gvar.rs:DeltaSet::scale_deltas, combine"]}
{"id": "C68", "title": "Instancing keeps what lies in the remaining design space", "statement": "If instancing with some axes fixed or limited succeeds, the remaining axes are those not fixed, in order, with the ranges asked for; the remaining named instances are those whose coordinates agree with the fixed values and ranges, with the coordinates of the remaining axes; style attributes remain exactly if all their places agree; segment maps of the remaining axes are kept unchanged, must all be valid, and no range was asked for. It never succeeds for some axes only if a glyph has points and variation data, nor with a range if there is any variation data.", "quantifier": "all fonts and all requests", "why_tests_cant": "unbounded numbers of axes, instances and styles; claims that something never succeeds", "anchors": ["src/otvar/instancer.rs:instantiate_fvar, instantiate_avar, instantiate_stat, instantiate_gvar_data"]}
{"id": "C69", "title": "A MATH table is loaded as what it says", "statement": "Loading a mathematical typesetting table that is in the OpenType format, and whose offsets inside the constants, italics corrections, accent positions, kern tables and glyph assemblies are unused, gives exactly its constants by name, its extended shapes, and for every glyph of a coverage table the record of the same index (the last one if a glyph is covered twice; null constructions left out). Those inner offsets are followed from the enclosing table instead of from the table they are in, so italics corrections and accent positions of OpenType tables are misread. A table without constants is rejected.", "quantifier": "all buffers", "why_tests_cant": "unbounded arrays, nested offsets in arbitrary arrangements and overlaps", "anchors": ["src/tables/MATH.rs:MATH, MathConstants, MathGlyphInfo, MathKern, MathVariants", "crates/otspec/src/offsets.rs:Offset"]}
{"id": "C70", "title": "A designspace document becomes the right names, axes, instances, default master and variation model", "statement": "Adding a designspace document to a font with a name table succeeds exactly if every axis tag has four printable characters, every axis map gives a valid segment map and there are at most 65280 strings. The font then keeps all its names, each axis and instance gets its own new English name under its own name ID (counting from 255 in order, so the first is in the range OpenType reserves), the axes have the tags, ranges and visibility of the document, and an instance has, for each axis, the coordinate of the first dimension with the axis's name, or else the axis's user default (so instances are written in design coordinates). The default master is the first source whose coordinates, cut to integers, equal the mapped defaults. The variation model has one location per source, its normalized coordinates by axis tag; without axis maps a source at the default is at the origin, with a map it need not be, and a source that leaves out a mapped axis is not found as the default master.", "quantifier": "all documents (axes with any maps, sources, instances, names), all existing name records", "why_tests_cant": "the outcome depends on every combination of axes, maps, missing or repeated dimensions and existing names", "anchors": ["crates/designspace/src/lib.rs:Designspace::add_to_font", "crates/designspace/src/lib.rs:Designspace::location_to_tuple", "crates/designspace/src/lib.rs:Designspace::default_master", "crates/designspace/src/lib.rs:Designspace::variation_model", "src/tables/name.rs:NameRecord::windows_unicode"]}
{"id": "C71", "title": "The command line tools change what they say they change, and nothing else", "statement": "ttf-fix-checksum, ttf-add-minimal-dsig and ttf-fix-non-hinted give a file exactly for fonts with a readable maxp and head (or neither head nor loca) and fewer than 4096 tables afterwards; every table keeps its bytes except the checksum adjustment, an added DSIG, an added gasp and a replaced prep; the words of the output sum up to the magic number if there is a head; running the tool again changes nothing. ttf-optimize-gvar changes only gvar, to the optimized form of the file's variations; ttf-flatten-components changes only glyf, loca, the loca format in head and the number of long metrics in hhea, and the output read again has the flattened glyphs; its metrics are those of the input exactly if the input stored no more long metrics than necessary (otherwise they are corrupted). Written over the input, the file holds the output after success and is unchanged or empty after failure.", "quantifier": "all byte strings as input files, all codecs of the other tables", "why_tests_cant": "unbounded files and table sets", "anchors": ["crates/fonttools-cli/src/lib.rs", "crates/fonttools-cli/src/bin/ttf-fix-checksum.rs", "crates/fonttools-cli/src/bin/ttf-add-minimal-dsig.rs", "crates/fonttools-cli/src/bin/ttf-fix-non-hinted.rs", "crates/fonttools-cli/src/bin/ttf-optimize-gvar.rs", "crates/fonttools-cli/src/bin/ttf-flatten-components.rs"]}
{"id": "C72", "title": "Renaming glyphs gives production names", "statement": "If ttf-rename-glyphs succeeds, every glyph that a Unicode cmap subtable maps a character to is named after the least such character (space, uniXXXX up to U+FFFF, uXXXXX beyond, upper-case hexadecimal), every other glyph keeps its name, nothing but the names in post changes, and the output read again has these names exactly if they fit in a post table. A character has one production name and a production name one character, so encoded glyphs get different names unless a character has several glyphs; renaming twice is renaming once. An unencoded glyph can already have the name an encoded one gets. With fewer names than glyphs the tool aborts; with --drop-names it changes nothing.", "quantifier": "all byte strings as input files; all characters", "why_tests_cant": "unbounded files, glyph lists and cmaps", "anchors": ["crates/fonttools-cli/src/bin/ttf-rename-glyphs.rs"]}
{"id": "C73", "title": "Contours become paths that draw the same outline", "statement": "Every non-empty contour whose neighbouring off-curve points have sums that fit 16 bits is turned into a path (no other is). The path of a contour that starts on the curve draws exactly the contour's lines and curves (implied points at truncated midpoints), in order. A path of lines and quadratic curves on whole units becomes a contour that draws the same strokes backwards. Turning a contour into a path and back gives its points with implied points made explicit and the first point repeated, in reverse order; so conversion is never the identity. A contour that starts off the curve, and coordinates with fractions, are converted wrongly.", "quantifier": "all contours and paths", "why_tests_cant": "unbounded numbers of points and segments", "anchors": ["src/tables/glyf/contourutils.rs: glyf_contour_to_kurbo_contour, kurbo_contour_to_glyf_contour"]}
{"id": "C74", "title": "fontcrunch replaces a run by admissible curves that cost no more than the plain alternatives", "statement": "For every sampled run between a tenth of a unit and 2^27 units long, whatever the error measure, fontcrunch finds candidate break points on half units within a quarter of a unit of the curve, in order, no two neighbours at one place, the first at the start and the last at the end of the run. It gives up exactly if the first is not on whole units. Otherwise the curves chosen lead from the first break to the last; each is a line from whole units or a curve whose control point lies on whole units, two of them meet on whole units or smoothly between two proper curves; they cost no more than one line or one curve, and if they cost more than four penalties no more than any polygon through breaks on whole units. Control points are where the tangents cross. Among samples at one place the nearest is not always kept.", "quantifier": "all sampled runs, error measures, penalties and lists of break points (coordinates below 2^26)", "why_tests_cant": "unbounded numbers of break points and exponentially many ways to connect them", "anchors": ["crates/fonttools-cli/src/bin/fontcrunch.rs: find_breaks, optimize, try_line_quad, try_quad, Statelet::combine, ok_for_half, intersect"]}
{"id": "C75", "title": "fontcrunch cuts contours at their corners and redraws the runs between them", "statement": "For contours of lines and quadratic curves on whole units fontcrunch finds corners: wherever two segments meet at an angle with a sine of more than 1/45 or a segment has no direction there, and otherwise only where the sine exceeds 1/55 or the segment heads, in x or y, against another one; between two corners all segments head the same way. Single lines between corners are kept, all other runs replaced by the curves fitted to them (C74); if one cannot be fitted the contour stays. Only what lies between the first and the last corner is redrawn. Only contours of glyphs change, then glyf, loca, the loca format in head and the number of long metrics in hhea; nothing is written for variable fonts, and it fails if a glyph with contours is beyond the end of the list of names. It does not keep everything: contours come out in the opposite direction (a polygon with its points reversed), and a curve after the last corner becomes a straight line.", "quantifier": "every contour of lines and quadratics with 16-bit coordinates, every length function accurate to one part in 2^20, every fitting function; every font file", "why_tests_cant": "which segments turn back depends on the whole history of directions around the contour; losses happen only for some placements of corners", "anchors": ["crates/fonttools-cli/src/bin/fontcrunch.rs: segment_sp, crunch_contour, crunch_glyph, main"]}
{"id": "C76", "title": "ttf-instantiate understands its arguments as they are written", "statement": "Each argument TAG=drop, TAG=NUMBER or TAG=NUMBER:NUMBER gives the limit it writes (an equal pair fixes the axis), any other argument, and a range whose end is below its start, aborts. Numbers are decimal, with optional sign, fraction and exponent: the value taken is exact for whole numbers from -32768 to 32767 and for multiples of 1/65536 up to 128, otherwise within 1/131072 + (|q|+1)/2^21 of the number q written; larger numbers and infinities become 32768 or -32768, and nan is accepted and means 0. A font is written exactly if it is variable, no axis is limited twice and there is an instance for the limits, and it is that instance; the order of the arguments makes no difference.", "quantifier": "every list of arguments, as byte strings of any length, and every font", "why_tests_cant": "texts, numbers and exponents are unbounded; correct rounding has to hold for every decimal number", "anchors": ["crates/fonttools-cli/src/bin/ttf-instantiate.rs: main, str_to_fixed_to_float, parse_locargs", "crates/otspec/src/types.rs: Fixed::round", "src/otvar/instancer.rs: AxisRange::new"]}
{"id": "C77", "title": "ttf-remove-overlap passes on the outlines and draws what comes back", "statement": "Composite and empty glyphs are left alone. For other glyphs the path given to the simplifier draws the outlines of the contours, in order (contours that start on the curve; implied points cut to whole units); the glyph then has the contours of the path that comes back: for closed contours of lines and quadratic curves on whole units the same outlines in the opposite direction, else the points cut to whole units, and what is not closed is dropped. If nothing comes back, its own contours with implied points made explicit. A glyph can be handled, whatever the simplifier does, exactly if it is composite or no contour is empty and no sum of neighbouring off-curve coordinates overflows. In the font nothing else changes but loca, its format, the bounds, and the number of long metrics; composites are flattened.", "quantifier": "every font, every glyph and every function in place of the simplifier", "why_tests_cant": "the simplifier is a black box, so the claim has to hold for any; contours and paths are of unbounded length", "anchors": ["crates/fonttools-cli/src/bin/ttf-remove-overlap.rs: remove_overlap, skia_to_glyf, main"]}
{"id": "C78", "title": "tables! accepts a definite language", "statement": "A tables! invocation is expanded into structures exactly if its tokens are a sequence of declarations: a name, pragmas in brackets in any order and number, and fields in braces, each with its attributes, a type (a type name, one of four special types, or one of seven words with an argument in parentheses) and a name. The structures and fields come in order, with the flags and attributes written; no token sequence has two readings; anything else stops the compiler. Of an argument only the first token counts. Every invocation in the library is in the language.", "quantifier": "every token sequence", "why_tests_cant": "token sequences are unbounded and nested; acceptance and rejection must be characterised for all", "anchors": ["crates/otspec_macros/src/tables.rs: expand_tables, expect_group, get_item"]}
{"id": "C79", "title": "Code derived for a declared structure reads what it writes", "statement": "For every declaration of a structure from numbers, tags, fixed-point numbers, dates, counted arrays, offsets, nested structures and hand-written types: a structure without offsets is written as its fields in order, without gaps, and read back wherever it is. If the structures that offsets lead to mark their first field (and no other) as offset base and records inside others mark none and are embedded, then every value is written exactly if its objects are within reach of their offsets, and is read back; in particular whatever is below 64k. All derived structures of the library satisfy this, except fourteen, which are listed.", "quantifier": "every declaration (of any size and nesting), every value of it, and every hand-written codec that reads what it writes", "why_tests_cant": "declarations and values are trees of unbounded size; the code is generated for each declaration", "anchors": ["crates/otspec_macros/src/ser.rs: expand_derive_serialize, serialize_fields, serialize_offset_fields, serialize_embed_fields", "crates/otspec_macros/src/de.rs: expand_derive_deserialize, deserialize_fields", "crates/otspec/src/layout/common.rs: FeatureVariations"]}
{"id": "C80", "title": "tag! makes the tag that its string literal spells", "statement": "For a string literal on one line, with any escapes, tag! gives the tag that Tag::from_raw makes of the string without quotes at its ends, and compiles exactly if from_raw accepts that and no quote or backslash is inside; so without quotes and backslashes it is from_raw at compile time, and one to four plain characters are padded with spaces. Valid tags may be broken over lines. Whatever it makes is a valid tag; anything but a plain string literal does not compile; tokens after the literal are ignored.", "quantifier": "every token and every string literal, of any length", "why_tests_cant": "literals are of unbounded length with many kinds of escapes; that nothing else compiles is a claim about all texts", "anchors": ["crates/otspec_macros/src/tag.rs: expand_tag, expect_tag_literal, parse_lit_str_cooked"]}
{"id": "C81", "title": "ttf-edit-math dump prints what the MATH table of the font says", "statement": "Dumping succeeds on exactly the fonts that can be opened and whose post and MATH tables can be read. It prints every constant by name, and for every glyph with an italics correction, an accent attachment, an extended shape or kerns an entry under the name of the glyph in post (or a backslash and its number if it has none); a name that several glyphs share stands for the last of them. With distinct names that do not start with a backslash every glyph has its own entry. Loading prints nothing and changes nothing.", "quantifier": "every font file, every set of glyph names and every MATH table", "why_tests_cant": "names, coverages and tables are unbounded; that nothing is lost unless names collide is a claim about all name lists", "anchors": ["crates/fonttools-cli/src/bin/ttf-edit-math.rs: main, simplify, MathEvenEasier, SimpleMathKern, SimpleKernRecord", "src/tables/MATH.rs"]}
{"id": "C82", "title": "An edited table is saved and found again", "statement": "Load a font or start with an empty one, insert, remove and look up tables in any order, and save. If saving succeeds, the file contains for every table set by value exactly the bytes its writer gives (and what C14 and C16 say for the others); with a head table that can be written the file loads; and looking the table up in the loaded font gives the value that was set, up to what the documentation of each table leaves open (the checksum adjustment of head, one subtable for equal cmap mappings, instance flags of fvar, and the normal forms of C61, C62, C65 and C66). This holds for head, hhea, maxp, post, gasp, cmap, avar, cvt, fpgm, fvar, GDEF, name, OS/2, prep, STAT, unknown tables, GSUB, GPOS and glyf, when the value is one the format can express.", "quantifier": "every table set, every history of operations, and every value of every table", "why_tests_cant": "histories, table sets and values are unbounded, and the tables interact: glyf, loca, head, hhea and maxp are rebuilt together, and GSUB and GPOS depend on maxp", "anchors": ["src/table_store.rs: TableSet::insert, TableSet::get, CowPtr, Table::serialize_table, TableLoader::finish", "src/font.rs: Font::save, Font::load"]}
{"id": "C83", "title": "Reading an untrusted table aborts only in definite cases", "statement": "Put any bytes under a table name and look the table up. For avar, cvt, fpgm, gasp, hhea, maxp, OS/2, prep, STAT and every table the library does not know, the answer is a table or an error, never an abort of the program. head aborts exactly if one of its two dates is outside the years -262144 to 262143; fvar exactly if it has an instance and 16383 readable axes or more; name exactly if the first record that cannot be read is for a platform and encoding the library does not handle; post exactly if it is of version 2 and has an ill-formed name or, when all names are good, an index beyond them. hmtx aborts exactly if hhea announces no metrics, loca never. The reader derived for a declared structure without dates, optional fields and 32-bit offsets never aborts if the hand-written readers it uses do not, which covers 95 of the 109 derived readers of the library; a 32-bit offset of 65536 or more always aborts.", "quantifier": "every sequence of bytes, every state of the table set, every declared structure", "why_tests_cant": "byte sequences are unbounded and adversarial; fuzzing finds aborts but cannot show that there are no others", "anchors": ["src/table_store.rs: TableSet::get", "src/tables/head.rs, src/tables/fvar.rs, src/tables/name.rs, src/tables/post.rs, src/tables/hmtx.rs, src/tables/loca.rs", "crates/otspec/src/types.rs: LONGDATETIME", "crates/otspec_macros/src/de.rs", "crates/otspec/src/offsets.rs"]}
{"id": "C84", "title": "Which bytes of shared layout structures and character maps abort the program", "statement": "Wherever its bytes are, a coverage table aborts its reader exactly if it is a complete list of ranges one of which ends at glyph 65535; a class definition also if it is an array that goes beyond glyph 65535; a device table exactly if its sizes are out of order, are all the sizes, or its format is above 3 and not that of variations; a ligature, a context rule and a chained rule exactly if they announce no glyphs. A cmap table put as bytes into a table set aborts exactly if all encoding records are there and the first subtable that cannot be read is: a format 0 subtable of length below 6; a format 4 subtable without segments, with a length too small for its segments, or with an entry of its glyph array, looked up for a code of a segment before the first one that ends at 65535, whose signed sum with the delta of the segment is no 16-bit number; a format 12 subtable with a group that is reversed, is all codes, or goes beyond glyph 65535; or a format 14 subtable whose first unreadable selector has an offset above 65535.", "quantifier": "every sequence of bytes, every position in it, every state of the reader and of the table set", "why_tests_cant": "byte sequences are unbounded and adversarial; fuzzing finds aborts but cannot show that there are no others", "anchors": ["crates/otspec/src/layout/coverage.rs, classdef.rs, device.rs, contextual.rs, gsub4.rs: Deserialize", "src/tables/cmap.rs: Deserialize for cmap, cmap0, cmap4, cmap12, cmap14; to_mapping", "src/table_store.rs: TableSet::get"]}
{"id": "C85", "title": "Which glyph bytes abort the program", "statement": "Wherever its bytes are, a glyph aborts its reader exactly if it has at least one contour, its box is there, and one of these holds: the last points of the contours are cut short by the end of the data; or they, the instructions and the flags are there and a running x coordinate, or once all x are there a running y coordinate, is no signed 16-bit number; or all coordinates are there and the last point of a contour comes before that of the contour before it or lies beyond the points. A composite glyph never aborts. A glyf table aborts exactly if the first glyph that cannot be read is such a glyph, also when it is looked up in a table set.", "quantifier": "every sequence of bytes, every position in it, every state of the reader, every list of glyph positions, every table set", "why_tests_cant": "byte sequences are unbounded and adversarial; fuzzing finds aborts but cannot show that there are no others", "anchors": ["src/tables/glyf/glyph.rs: Deserialize for Glyph", "src/tables/glyf/component.rs: Deserialize for Component", "src/tables/glyf.rs: from_bytes", "src/table_store.rs: TableSet::get"]}
{"id": "C86", "title": "Opening a font file has a definite outcome whatever its bytes", "statement": "For every file: opening it aborts the program exactly if it starts with a complete table directory and some table leaves the file or the head table has a date without calendar date; it opens exactly if it starts with a complete directory whose tables lie inside the file and the head table has all of its 54 bytes and proper dates, or there is neither head nor loca; otherwise it is refused. In an opened font the bytes found for a tag are those of its directory entry, of several with the same tag the one with the highest offset and then the last one, and no table is found for a tag without entry.", "quantifier": "every byte sequence, including directories with repeated tags, overlapping and out-of-range tables", "why_tests_cant": "files are unbounded and adversarial; repeated tags and equal offsets are combinations tests do not enumerate", "anchors": ["src/font.rs: Font::from_bytes, load", "src/table_store.rs: TableLoader::add, finish", "src/tables/head.rs: Deserialize"]}
{"id": "C87", "title": "Which bytes of variation data abort the program", "statement": "Wherever its bytes are, a list of packed point numbers aborts its reader exactly if all of its runs are there and their differences add up to more than 65535; packed deltas never do. The variations of a glyph or of control values abort exactly if all their headers are there and the shared point numbers, or the own point numbers of a variation before which all variations can be read, are such a list.", "quantifier": "every sequence of bytes, every position in it, every state of the reader, every number of axes and points", "why_tests_cant": "byte sequences are unbounded and adversarial; fuzzing finds aborts but cannot show that there are no others", "anchors": ["src/otvar/packedpoints.rs: Deserialize", "src/otvar/packeddeltas.rs: Deserialize", "src/otvar/tuplevariationheader.rs: Deserialize", "src/otvar/tuplevariationstore.rs: Deserialize"]}
{"id": "C88", "title": "Lookups do not influence each other", "statement": "Looking tables up, or loading all of them, in any order and however often, changes no later lookup, and neither does inserting or removing tables other than the one looked up and those its parser consults. Loading everything succeeds exactly if head, maxp and, when there is a glyf table, loca and glyf can each be read or are missing, and no table aborts; it reports the first failure among these tables and of no other table. After success every table that can be read is held with the value a lookup would have given, and only refused tables are left as bytes.", "quantifier": "every set of tables, every codec, every history of lookups and unrelated edits, every tag", "why_tests_cant": "the laziness of the table set can only be seen through combinations of lookups, and there are unboundedly many histories and table sets", "anchors": ["src/table_store.rs: TableSet::get, load_if_needed, fully_deserialize, deserialize_table", "src/font.rs: Font::fully_deserialize"]}
{"id": "C89", "title": "Which bytes of gvar abort the program", "statement": "Reading a gvar table aborts the program exactly if its header is there and announces 65535 glyphs; or all offsets are there and it announces 65535 shared tuples or an offset given as a 16-bit half is 32768 or more; or everything before the variations can be read and the first glyph that cannot be read has offsets beyond 32 bits or in decreasing order, is not in glyf, has variations that abort, or has a variation whose deltas cannot be inferred or that refers to the tuple just after the last without having a peak.", "quantifier": "every sequence of bytes and every list of outlines, whatever else the table set holds", "why_tests_cant": "byte sequences are unbounded and adversarial; fuzzing finds aborts but cannot show that there are no others", "anchors": ["src/tables/gvar.rs: from_bytes", "src/table_store.rs: TableSet::get"]}
{"id": "C90", "title": "A typed accessor of a font's tables agrees with looking the table up and never finds the wrong type", "statement": "After any history of insertions, raw insertions, removals and lookups, the accessor for a table type gives the table exactly if looking the table up by its tag gives one, and then the same value in that type; it gives nothing exactly if the table is missing and an error exactly if the lookup does; it aborts only if reading the table aborts, so its own abort on a table of another type never happens. It leaves the table set as the lookup leaves it.", "quantifier": "every table set, every history of operations, every table type with an accessor", "why_tests_cant": "The accessors abort when the stored table has another type; that this cannot be reached depends on every way a table can get into the set, in any order, which tests only sample.", "anchors": ["src/table_store.rs: table_boilerplate!, TableSet::get, TableSet::insert, TableSet::insert_raw, deserialize_table"]}
{"id": "C91", "title": "Opening a font and looking its tables up aborts exactly if one of its tables has bad bytes", "statement": "Of a font file that was opened, whatever tables are looked up first and in any order, some table other than GDEF, MATH, GSUB and GPOS aborts the program when looked up exactly if the file holds a table with bytes that are bad: head, fvar, name, post or cmap bytes bad in themselves, hmtx beside an hhea that says there are no metrics, glyf with a bad glyph where loca leads after glyphs that can be read, or gvar with variations bad for the glyphs. Of a file without those four tables, loading everything succeeds exactly if every table that must be readable is and no table is bad.", "quantifier": "every file that can be opened, every sequence of lookups before", "why_tests_cant": "Whether a table aborts depends on the other tables it is read with and on what was loaded before; tests only try a few damaged files in one order.", "anchors": ["src/font.rs: Font::load, Font::from_bytes, Font::fully_deserialize", "src/table_store.rs: TableSet::get, TableSet::fully_deserialize, deserialize_table"]}

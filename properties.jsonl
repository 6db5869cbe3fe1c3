{"id": "C01", "title": "S-expression text denotes exactly one tree", "statement": "Reading a program text as S-expressions succeeds exactly when the text is well formed (balanced parentheses, terminated strings, only the escapes \\\\ \\' \\\" inside strings), and the list of expressions returned is the one the grammar assigns to the text: comments and white space vanish, quoted strings become string values with escapes resolved, bare words become literals, parentheses become nested lists in source order.", "quantifier": "every byte string", "why_tests_cant": "The language of programs is infinite with unbounded nesting; a test checks one text at a time and says nothing about which texts are accepted.", "anchors": ["src/sexpr_parser.cc:expr_parse", "src/sexpr_parser.cc:expr_parse_string", "src/sexpr_parser.cc:expr_parse_literal"]}
{"id": "C02", "title": "Reading an S-expression program always returns", "statement": "Handing any text to the S-expression reader returns after finitely many steps with either a program or an error.", "quantifier": "every byte string", "why_tests_cant": "Non-termination on some input can only be excluded by an argument over all inputs.", "anchors": ["src/sexpr_parser.cc:expr_parse", "src/sexpr_parser.cc:expr_parse_literal"]}
{"id": "C03", "title": "Writing then reading an expression is the identity", "statement": "If every string of an expression tree is written between double quotes with \\ and \" escaped, and lists between parentheses, then reading the text gives back the same tree, whatever bytes the strings contain and however deep it nests; the result does not depend on how much white space or how many comments separate the elements.", "quantifier": "every expression tree, every amount of white space and comments between its elements", "why_tests_cant": "Trees and separators are unbounded.", "anchors": ["src/sexpr_parser.cc:expr_parse", "src/sexpr.cc:expr_inspect"]}
{"id": "C04", "title": "Copying an expression", "statement": "Copying an expression yields a structurally equal expression, including its whole chain of siblings; copying with a count n yields the first n siblings (each with its full sub-tree) and nothing after them. The copy shares no node with the original.", "quantifier": "every expression chain and every count", "why_tests_cant": "Depth and length unbounded; a copy that drops or shares a deep sibling is only seen by a quantified statement.", "anchors": ["src/sexpr.cc:expr_clone"]}
{"id": "C05", "title": "Keyword dispatch runs every handler once, in order, and stops at the first error", "statement": "Evaluating the arguments of an element calls, for each child list in source order, the handler registered for its first word; the first handler error is returned and no later handler runs; in strict mode an unknown keyword, or a child that is not a list, is an error, otherwise it is collected and returned to the caller and nothing else is.", "quantifier": "every argument list, handler table and handler behaviour", "why_tests_cant": "Handlers are arbitrary functions and argument lists are arbitrarily long.", "anchors": ["src/sexpr_util.cc:expr_walk_map", "src/sexpr_util.cc:expr_walk_map_wrapped", "src/sexpr_util.cc:expr_walk_tmap"]}
{"id": "C06", "title": "Conversions of expressions to settings are total and exact", "statement": "Reading a string list, number pair, switch, enum value or optional float from an expression succeeds exactly for expressions of the documented shape, returns the values in source order, leaves no residue of a previous setting, and reports an error (never a crash) otherwise.", "quantifier": "every expression", "why_tests_cant": "Shapes are unbounded trees.", "anchors": ["src/sexpr_conv.cc", "src/sexpr_conv_impl.h:expr_to_enum", "src/sexpr_util_impl.h:expr_tov"]}
{"id": "C07", "title": "CSV written by a standard writer is read back exactly", "statement": "For every table of byte strings, writing it the RFC 4180 way (comma separated, fields quoted with inner quotes doubled, LF or CRLF after each row) and reading it gives the same table: same number of rows, same number of fields per row, same bytes.", "quantifier": "every table, with arbitrary bytes in the fields", "why_tests_cant": "Unbounded tables and adversarial bytes (quotes, commas, newlines inside fields).", "anchors": ["src/utils/csv.cc:parse_csv", "src/utils/csv.cc:parse_csv_row", "src/utils/csv.cc:parse_csv_field"]}
{"id": "C08", "title": "CSV reading accepts exactly the CSV grammar and keeps every field", "statement": "Reading a text succeeds exactly when it is a sequence of rows of comma-separated fields, each either quoted or free of comma/CR/LF; and every record has exactly one more field than it has separating commas.", "quantifier": "every byte string", "why_tests_cant": "Corner cases (trailing comma at end of file, CR without LF, data after a closing quote) are a small set among infinitely many inputs.", "anchors": ["src/utils/csv.cc"]}
{"id": "C09", "title": "Loading a CSV column never crashes", "statement": "Loading column k of a CSV file yields field k of every row, in order, or reports an error when some row has no field k; it never aborts the process.", "quantifier": "every table and column index", "why_tests_cant": "Ragged tables of every shape.", "anchors": ["src/data.cc:data_load_strings_csv", "src/utils/csv.cc:csv_extract_column"]}
{"id": "C10", "title": "UTF-8 encode then decode is the identity", "statement": "Encoding a code point and decoding the bytes yields the code point and consumes exactly the bytes produced, for every code point the encoder accepts; the encoding of a Unicode scalar value is the one the UTF-8 standard defines.", "quantifier": "every code point below 2^31, every following byte string", "why_tests_cant": "2^31 code points, and the following context is unbounded.", "anchors": ["src/utils/UTF8.cc:encodeCodepoint", "src/utils/UTF8.cc:nextCodepoint"]}
{"id": "C11", "title": "UTF-8 validation decides well-formedness", "statement": "The validity check returns (terminates) for every byte string and answers yes exactly when the bytes are a sequence of well-formed UTF-8 units.", "quantifier": "every byte string", "why_tests_cant": "All byte strings.", "anchors": ["src/utils/UTF8.cc:isValidUTF8"]}
{"id": "C12", "title": "UTF-8/UTF-32 text conversion is lossless", "statement": "Converting a text of code points to UTF-8 and back yields the same text and the code point count of the UTF-8 text is the number of code points.", "quantifier": "every sequence of code points", "why_tests_cant": "Unbounded sequences; embedded NUL is a corner case.", "anchors": ["src/utils/stringutil.cc:convertUTF8To32", "src/utils/stringutil.cc:convertUTF32To8", "src/utils/stringutil.cc:countUTF8CodePoints"]}
{"id": "C13", "title": "JSON reading always returns and yields the JSON tokens", "statement": "Tokenising any text terminates; for a well-formed JSON document the tokens delivered are those of the document, with string escapes resolved.", "quantifier": "every byte string, every JSON document", "why_tests_cant": "Truncated documents and nesting are unbounded.", "anchors": ["src/utils/json.cc:json_read", "src/utils/json.cc:json_skip"]}
{"id": "C14", "title": "Skipping an unknown JSON member consumes exactly that member", "statement": "Skipping a JSON value leaves the reader immediately behind that value, whatever its nesting, so that the members after it are still seen.", "quantifier": "every JSON value and every continuation", "why_tests_cant": "Unbounded nesting.", "anchors": ["src/utils/json.cc:json_skip", "src/utils/json.cc:json_skip_array", "src/utils/json.cc:json_skip_object"]}
{"id": "C15", "title": "GeoJSON coordinates are delivered faithfully", "statement": "Each position of a GeoJSON geometry is delivered once, in order, with x, y (and z when given) equal to the numbers in the document, and lines/rings are delimited as in the document; malformed input is an error, not undefined behaviour.", "quantifier": "every geometry, with 2- or 3-dimensional positions", "why_tests_cant": "Unbounded numbers of rings and positions.", "anchors": ["src/utils/geojson.cc"]}
{"id": "C16", "title": "Property-list programs denote one tree", "statement": "A property-list program written in canonical form (name: args; name: a, b, c; name { ... }; fn(args)) is read as the tree it denotes, for arbitrary string contents when quoted, and arbitrary nesting.", "quantifier": "every property tree", "why_tests_cant": "Unbounded trees and bytes.", "anchors": ["src/plist_parser.cc"]}
{"id": "C17", "title": "Malformed property-list programs are rejected", "statement": "A program with an unterminated string, an unclosed parenthesis or an unclosed block is rejected with an error.", "quantifier": "every byte string", "why_tests_cant": "All inputs.", "anchors": ["src/plist_parser.cc"]}
{"id": "C18", "title": "Column stores give back what was stored", "statement": "After any sequence of additions to a data column, its length is the number of additions and reading it back as text or numbers yields the additions in order.", "quantifier": "every sequence of additions", "why_tests_cant": "Histories are unbounded.", "anchors": ["src/data.cc:databuf_add", "src/data.cc:databuf_len", "src/data.cc:databuf_to_text"]}
{"id": "C19", "title": "Grouping a series partitions it", "statement": "Grouping rows by a key column assigns the same group number to two rows iff their keys are equal; groups are numbered from 1 without gaps in order of first appearance, and every row lies in exactly one group.", "quantifier": "every key column", "why_tests_cant": "Unbounded columns.", "anchors": ["src/data.cc:data_group"]}
{"id": "C20", "title": "Fitting a scale covers the data", "statement": "After fitting a scale to any sequence of columns, every fitted value lies between the scale's minimum and maximum (unless the user set explicit limits), the bounds are attained by data when no padding is set, and fitting is independent of the order of the values.", "quantifier": "every sequence of fitted values", "why_tests_cant": "Unbounded histories.", "anchors": ["src/scale.cc:scale_fit", "src/scale.cc:scale_min", "src/scale.cc:scale_max"]}
{"id": "C21", "title": "Linear scales map the domain onto the unit interval and back", "statement": "On a linear scale the minimum maps to 0 and the maximum to 1 (the other way round when inverted), the map is strictly monotone, and untranslate inverts translate.", "quantifier": "every domain with min < max and every value", "why_tests_cant": "Continuum of values.", "anchors": ["src/scale.cc:scale_translate_linear", "src/scale.cc:scale_untranslate_linear", "src/scale.cc:scale_translate", "src/scale.cc:scale_untranslate"]}
{"id": "C22", "title": "Logarithmic scales map the domain onto the unit interval and back", "statement": "On a logarithmic scale minimum maps to 0, maximum to 1, the map is strictly monotone on positive values, and untranslate inverts translate.", "quantifier": "every domain 0 < min < max, base > 1 and every positive value", "why_tests_cant": "Continuum of values.", "anchors": ["src/scale.cc:scale_translate_log", "src/scale.cc:scale_untranslate_log"]}
{"id": "C23", "title": "Categorical scales place categories evenly and distinctly", "statement": "Each category of a categorical scale is placed at the centre of its own cell of width 1/n in first-appearance order; different categories get different positions, all inside (0,1); unknown values are reported as such.", "quantifier": "every list of categories", "why_tests_cant": "Unbounded category lists.", "anchors": ["src/scale.cc:scale_translate_categorical", "src/scale.cc:scale_map_categories", "src/scale.cc:scale_layout_categorical"]}
{"id": "C24", "title": "Tick layouts are complete, ordered and inside the axis", "statement": "A subdivided axis with n divisions has exactly n+1 ticks evenly spaced from 0 to 1; the categorical layout has one tick per category at its centre, the categorical-bounds layout n+1 cell borders; interval layouts place ticks at every multiple of the step inside the limits and nowhere else.", "quantifier": "every number of divisions, categories, step and limits", "why_tests_cant": "Unbounded parameters.", "anchors": ["src/scale.cc:scale_layout_subdivide", "src/scale.cc:scale_layout_categorical", "src/scale.cc:scale_layout_categorical_bounds", "src/scale.cc:scale_layout_linear"]}
{"id": "C25", "title": "Computing ticks always terminates with a bounded number of ticks", "statement": "For every scale and layout setting accepted by the configuration reader, computing the ticks terminates with at most kMaxTicks ticks or an error.", "quantifier": "every step, limit and alignment a user can write", "why_tests_cant": "All numeric parameters incl. zero and negative steps.", "anchors": ["src/scale.cc:scale_layout_linear", "src/scale.cc:scale_layout_exponential"]}
{"id": "C26", "title": "Unit conversions are inverse and consistent", "statement": "Converting a length to points and back in mm, px or pt is the identity (for positive dpi) and all units agree on physical length.", "quantifier": "every length, dpi and font size", "why_tests_cant": "Continuum of values.", "anchors": ["src/units.cc", "src/layer.cc", "src/graphics/measure.cc"]}
{"id": "C27", "title": "Measures are parsed and resolved as documented", "statement": "Every measure text number+unit is read as that unit, printing a measure and reading it gives it back, and resolving a measure against a parent yields the documented device length for every unit.", "quantifier": "every measure", "why_tests_cant": "Continuum of values times all units.", "anchors": ["src/graphics/measure.cc:parse_measure", "src/graphics/measure.cc:convert_unit_typographic", "src/graphics/measure.cc:measure_normalize"]}
{"id": "C28", "title": "Calendar arithmetic is Gregorian", "statement": "Leap years and month lengths are those of the Gregorian calendar for every year and month.", "quantifier": "every year and month", "why_tests_cant": "Unbounded years.", "anchors": ["src/utils/ISO8601.cc:isLeapYear", "src/utils/ISO8601.cc:daysInMonth"]}
{"id": "C29", "title": "Civil time converts to the right instant", "statement": "A civil date-time at or after 1970 with any UTC offset converts to the microsecond count of that instant on the proleptic Gregorian time line; later civil times give later instants.", "quantifier": "every valid civil time with year >= 1970", "why_tests_cant": "Unbounded range of dates.", "anchors": ["src/utils/UnixTime.cc:UnixTime(const CivilTime&)"]}
{"id": "C30", "title": "ISO 8601 dates are read correctly", "statement": "Every valid calendar date written in ISO 8601 form (YYYY, YYYY-MM, YYYY-MM-DD, with optional time and zone) is accepted with exactly its components, and every text naming a day that does not exist is rejected.", "quantifier": "every calendar date and time", "why_tests_cant": "All dates of all years.", "anchors": ["src/utils/ISO8601.cc:parse"]}
{"id": "C31", "title": "Time and duration arithmetic", "statement": "Adding then subtracting a duration is the identity; the distance between two instants is symmetric and zero only for equal instants; unit constructors and accessors of durations are inverse when no overflow occurs, and durations add up.", "quantifier": "every 64-bit instant and duration", "why_tests_cant": "2^128 pairs.", "anchors": ["src/utils/UnixTime_impl.h", "src/utils/duration_impl.h"]}
{"id": "C32", "title": "Splitting and joining strings are inverse", "statement": "Joining the pieces of a split with the same separator gives back the text, no piece contains the separator, and splitting a join of separator-free pieces gives the pieces back.", "quantifier": "every text, every non-empty separator", "why_tests_cant": "Unbounded strings.", "anchors": ["src/utils/stringutil.cc:split", "src/utils/stringutil.cc:join"]}
{"id": "C33", "title": "Replacing a substring terminates and is exact", "statement": "Replacing every occurrence of a pattern rewrites the non-overlapping occurrences from left to right, never re-reads inserted text, and terminates for every pattern and replacement.", "quantifier": "every text, pattern and replacement", "why_tests_cant": "Unbounded strings.", "anchors": ["src/utils/stringutil.cc:replaceAll"]}
{"id": "C34", "title": "String comparison is a total order, prefixes and suffixes are exact", "statement": "compare is a total order (antisymmetric, transitive, zero only on equal strings); beginsWith / endsWith answer yes exactly when the text has that prefix / suffix.", "quantifier": "every pair and triple of strings", "why_tests_cant": "Unbounded strings.", "anchors": ["src/utils/stringutil.cc:compare", "src/utils/stringutil.cc:beginsWith", "src/utils/stringutil.cc:endsWith"]}
{"id": "C35", "title": "Trimming removes exactly the trailing characters and never crashes", "statement": "Trimming/chomping returns the longest prefix (suffix) not ending (starting) in a stripped character, for every string including the empty one.", "quantifier": "every string", "why_tests_cant": "All strings; emptiness is the corner.", "anchors": ["src/utils/stringutil.cc:ltrim", "src/utils/stringutil.cc:rtrim", "src/utils/stringutil.cc:chomp", "src/utils/stringutil.cc:stripTrailingSlashes"]}
{"id": "C36", "title": "String classification is exact", "statement": "The predicates for numbers, digits, hex, alphanumeric and shell-safe strings answer yes exactly for strings of the named form.", "quantifier": "every string", "why_tests_cant": "All strings.", "anchors": ["src/utils/stringutil.cc"]}
{"id": "C37", "title": "Hex dumps are injective and of predictable length", "statement": "The hex print of n bytes has two digits per byte (plus separators) and determines the bytes.", "quantifier": "every byte string", "why_tests_cant": "All byte strings.", "anchors": ["src/utils/stringutil.cc:hexPrint", "src/utils/bufferutil.cc:hexPrint"]}
{"id": "C38", "title": "A buffer is a byte sequence", "statement": "Any sequence of append, reserve, truncate and clear operations on a Buffer behaves like the same operations on a plain byte sequence; reserve never changes contents; out-of-range reads are reported.", "quantifier": "every history of operations", "why_tests_cant": "Unbounded histories.", "anchors": ["src/utils/buffer.cc"]}
{"id": "C39", "title": "Colours written in hex are read and written back exactly", "statement": "Parsing #rrggbb and printing the colour again gives the same hex text (case aside) for all 2^24 colours, and every other text is rejected without crashing.", "quantifier": "every colour and every text", "why_tests_cant": "2^24 colours times all texts; floating-point rounding.", "anchors": ["src/graphics/color.cc"]}
{"id": "C40", "title": "Colour maps are total and stay between their stops", "statement": "A gradient maps each value to the linear interpolation of the two neighbouring stops, clamped to the ends; a step map to the colour of the last stop at or below the value; for every value and stop list.", "quantifier": "every non-empty list of stops and every value", "why_tests_cant": "Continuum.", "anchors": ["src/color_map.cc"]}
{"id": "C41", "title": "Palette colours are addressed cyclically", "statement": "Colour index i selects palette entry (i-1) mod n in every place a user can write an index, and never reads outside the palette.", "quantifier": "every index and every non-empty palette", "why_tests_cant": "Unbounded indices.", "anchors": ["src/color_reader.cc", "src/plot/plotgen.cc"]}
{"id": "C42", "title": "SVG output is well-formed and carries the text verbatim", "statement": "Any text or attribute written to the SVG output is escaped such that an XML reader gets back the original text and the document structure cannot be changed by user-supplied text.", "quantifier": "every text", "why_tests_cant": "All strings.", "anchors": ["src/graphics/export_svg.cc:svg_body", "src/graphics/export_svg.cc:svg_attr"]}
{"id": "C43", "title": "Affine transforms compose", "statement": "Multiplying transform matrices is associative with the identity as unit, applying a product equals applying the factors in turn, and transforming a path transforms every point of it and keeps the commands.", "quantifier": "every matrix, point and path", "why_tests_cant": "Continuum; unbounded paths.", "anchors": ["src/vmath.cc", "src/graphics/path.cc:path_transform"]}
{"id": "C44", "title": "Polygons survive conversion to a path and back", "statement": "Converting a polygon to a path and back yields the same vertices; rectangle and ring helpers produce closed paths with exactly the documented corners.", "quantifier": "every polygon", "why_tests_cant": "Unbounded vertex lists.", "anchors": ["src/graphics/path.cc"]}
{"id": "C45", "title": "Layout boxes stay inside their parent", "statement": "Subtracting margins from a box and aligning an item inside a box gives a box inside the parent whenever it fits, touching the documented edges.", "quantifier": "every box, margin and alignment", "why_tests_cant": "Continuum times all alignments.", "anchors": ["src/graphics/layout.cc"]}
{"id": "C46", "title": "Legend rows do not overlap", "statement": "Legend items laid out in rows or flow occupy disjoint boxes in item order and the reported extent covers all of them.", "quantifier": "every list of item sizes", "why_tests_cant": "Unbounded lists.", "anchors": ["src/figure/legend.cc"]}
{"id": "C47", "title": "Bidirectional text reordering is a permutation", "statement": "Reordering text runs for display shows every run exactly once; pure left-to-right text keeps its order and pure right-to-left text is reversed.", "quantifier": "every sequence of embedding levels", "why_tests_cant": "Unbounded sequences.", "anchors": ["src/graphics/text_support.cc"]}
{"id": "C48", "title": "Drawing commands are emitted in order", "statement": "The SVG document contains the elements of the draw list in order, and each shape's fills before its strokes.", "quantifier": "every draw list", "why_tests_cant": "Unbounded lists.", "anchors": ["src/graphics/export_svg.cc", "src/graphics/draw_cmd.cc"]}
{"id": "C49", "title": "Pixel formats convert losslessly", "statement": "Writing a pixel and reading it back yields the stored colour quantised to 8 bits; converting RGB to RGBA keeps every colour and makes it opaque.", "quantifier": "every image size, pixel position and colour", "why_tests_cant": "All images.", "anchors": ["src/graphics/image.cc"]}
{"id": "C50", "title": "Labels and ticks formatted with custom text cycle", "statement": "A custom label list is applied cyclically to positions 0,1,2,... and superscript/integer formats render exactly the decimal digits.", "quantifier": "every label list, every index/value", "why_tests_cant": "Unbounded indices.", "anchors": ["src/format.cc"]}
{"id": "C51", "title": "Point files in every documented format load", "statement": "Loading points from a file yields its coordinates in file order, for each of the formats the detection recognises (csv and geojson).", "quantifier": "every path, explicit or detected format and file contents", "why_tests_cant": "All files and formats.", "anchors": ["src/data.cc:data_load_points2"]}
{"id": "C52", "title": "Per-element settings broadcast", "statement": "Per-element setting number i is the i-th given value, and the default when fewer are given; of several fallback sources the first non-empty one is used.", "quantifier": "every list of values, index and list of fallback sources", "why_tests_cant": "Unbounded lists.", "anchors": ["src/utils/algo_impl.h:at_or", "src/utils/algo_impl.h:fallback"]}
{"id": "C53", "title": "Paper sizes are the ISO sizes", "statement": "layer/resize with A0..A6 sets the ISO 216 portrait size in mm, with a star the landscape size; two measures set width and height; any other argument list is an error and leaves the size unchanged.", "quantifier": "every argument list and previous layer size", "why_tests_cant": "All names and argument lists.", "anchors": ["src/layer.cc:layer_resize", "src/layer.cc:layer_resize_cmd"]}
{"id": "C54", "title": "Typographic sizes follow the resolution", "statement": "Multiplying the dpi by k multiplies every size given in mm, pt or (with a font size in mm or pt) em by k and leaves pixel sizes unchanged.", "quantifier": "every resolution, factor, size and unit", "why_tests_cant": "All real numbers.", "anchors": ["src/layer.cc:layer_get_uconv_size", "src/units.cc"]}
{"id": "C55", "title": "Size maps interpolate and clamp", "statement": "(linear A B) maps a datum v in [0,1] to A + (B-A)v, smaller data to A and larger data to B, and reports data that are not numbers.", "quantifier": "every pair of measures and every datum text", "why_tests_cant": "All data.", "anchors": ["src/typographic_map.cc", "src/typographic_reader.cc:measure_map_read"]}
{"id": "C56", "title": "Durations are printed in words", "statement": "A duration is printed as its years, days, hours, minutes, seconds and milliseconds, leaving out the parts that are zero and separating the others by a space; the parts add up to the duration.", "quantifier": "every 64-bit duration", "why_tests_cant": "2^64 durations.", "anchors": ["src/utils/duration.cc:inspect"]}
{"id": "C57", "title": "Searching strings is exact", "statement": "find and findLast return the first and the last position of a character or report its absence; includes and includesi answer yes exactly when the text contains the other one, for includesi regardless of the case of letters; toUpper and toLower change exactly the letters of the other case.", "quantifier": "every text, character and subject", "why_tests_cant": "Unbounded strings.", "anchors": ["src/utils/stringutil.cc:find", "src/utils/stringutil.cc:findLast", "src/utils/stringutil.cc:includes", "src/utils/stringutil.cc:includesi"]}
{"id": "C58", "title": "Numbers are printed without superfluous zeros", "statement": "A floating point number is printed with the digits of its six-place decimal form, leaving out the zeros at the end but for one digit behind the point, without memory errors.", "quantifier": "every double", "why_tests_cant": "2^64 values.", "anchors": ["src/utils/stringutil.cc:toString(double)"]}
{"id": "C59", "title": "Colour, colour map and palette expressions mean what they say", "statement": "(rgb r g b) and (rgba r g b a) give exactly these components and every other list is an error; hex texts never fall through to palette indices; (gradient ...) and (steps ...) read the stops as written, dangling items are errors; the named palettes contain exactly the published colours, in order.", "quantifier": "every expression, every palette", "why_tests_cant": "All expressions.", "anchors": ["src/color_reader.cc: expr_to_color, color_map_read, color_palette_read", "src/color_palette.cc"]}
{"id": "C60", "title": "Circles are round", "statement": "A circle is drawn as a closed path of four cubic curves all of whose points are at a distance between r and 1.000273 r from the centre, for every centre and radius.", "quantifier": "every centre, radius and curve parameter (all points of the curves)", "why_tests_cant": "Continuously many points.", "anchors": ["src/graphics/path.cc: path_add_circle"]}
{"id": "C61", "title": "Bounds of rotated boxes are tight", "statement": "The bounding box computed for a rotated box contains every point of the rotated box and touches it on all four sides.", "quantifier": "every box, every angle", "why_tests_cant": "All real angles.", "anchors": ["src/graphics/layout.cc: box_rotate_bounds"]}
{"id": "C62", "title": "Intersections lie on both lines", "statement": "A reported intersection lies on both lines (for segments at most 0.001 outside their boxes); a common point of non-parallel segments is always found; a polygon reports the hits of its edges in order.", "quantifier": "every pair of lines, segments and polygons", "why_tests_cant": "All real coordinates.", "anchors": ["src/graphics/intersect.cc: intersect_line_line, intersect_line_lineseg, intersect_lineseg_lineseg, intersect_poly_line"]}
{"id": "C63", "title": "Hatching terminates and stays in the polygon", "statement": "Hatching a polygon ends for every polygon, angle, offset, stripe width and distance, and every vertex of the hatching lies on the outline of the polygon and on a stripe edge.", "quantifier": "every polygon with any number of vertices, every angle, offset, width, stride", "why_tests_cant": "Termination for all inputs.", "anchors": ["src/graphics/shape_hatch.cc: shape_hatch", "src/graphics/intersect.cc"]}
{"id": "C64", "title": "Numbers and paths in SVG files are accurate to a thousandth", "statement": "Every coordinate, length or opacity written to an SVG file reads back as a decimal number within 0.0005 of the value, whole numbers exactly, and every path reads back as the same sequence of commands with these coordinates.", "quantifier": "every finite number and every path", "why_tests_cant": "All doubles and all paths.", "anchors": ["src/graphics/export_svg.cc:svg_number", "src/graphics/export_svg.cc:svg_path_data"]}
{"id": "C65", "title": "A legend sits at the chosen corner with its borders", "statement": "A legend's box lies within the plot area minus its margins and touches the sides named by its position (or is centered); each configured border is drawn along the side it is named after.", "quantifier": "every plot area, margins, legend size and position", "why_tests_cant": "All sizes and positions.", "anchors": ["src/figure/legend.cc:plot_legend", "src/figure/legend.cc:plot_legend_borders"]}
{"id": "C66", "title": "Legend position keywords", "statement": "The position of a legend is given by the keywords top, bottom, left, right and center in any order; a missing direction is centered if center is given and unchanged otherwise; any other word is rejected.", "quantifier": "every list of words", "why_tests_cant": "Unbounded lists.", "anchors": ["src/figure/legend.cc:legend_configure_position"]}
{"id": "C67", "title": "Splitting text into runs loses nothing", "statement": "When a line is split into runs of equal direction, every character appears exactly once and in order, in a run with its own direction level and its own span's attributes; reordering passes on all runs.", "quantifier": "every text, every set of spans, every level assignment", "why_tests_cant": "Unbounded text and arbitrary level assignments.", "anchors": ["src/graphics/text_backend_freetype.cc:text_analyze_bidi_line", "src/graphics/text_support.cc:text_reorder_bidi_line"]}
{"id": "C68", "title": "Glyphs of a line follow each other without gaps", "statement": "A line is laid out with every glyph on the baseline starting where the previous one ends (spans from left to right, or from right to left in right-to-left text); the bounding box is exactly as wide as the glyphs together and contains them all; each run uses the first font that has all its glyphs, or the last one.", "quantifier": "every line, every list of fonts, every shaping result", "why_tests_cant": "Unbounded text and arbitrary font metrics.", "anchors": ["src/graphics/text_layout.cc:text_layout_line", "src/graphics/text_shaper.cc:text_shape_run_with_font_fallback"]}
{"id": "C69", "title": "Text is drawn aligned at its position and rotated about it", "statement": "Drawn text consists of the outlines of its glyphs, moved so that the named side or centre of the text's box is at the given position; rotated text is that text turned clockwise about the position.", "quantifier": "every text, position, alignment and angle", "why_tests_cant": "All positions and angles.", "anchors": ["src/draw/text.cc:text", "src/graphics/draw_cmd.cc:draw_text"]}
{"id": "C70", "title": "Lines pass through the data", "statement": "A lines element draws one open path per group (one group without grouping data) that passes through the positions of all data points, in the order of the data, at x and y as the element's scales place them in the plot area; its stroke, markers and labels follow the element's options, the last one of each winning. On linear axes in exact arithmetic the vertices are exactly the affine images of the data.", "quantifier": "every program text of the element, every data, plot area, scale and layer", "why_tests_cant": "Unbounded data and options.", "anchors": ["src/plot/lines.cc:lines_draw", "src/plot/lines.cc:lines_configure", "src/data.cc:data_load_polylines2"]}
{"id": "C71", "title": "Automatic ranges show all data", "statement": "A plot without limits chooses its axis ranges so that every data point of every element lies in the plot area (and what is drawn for lines and points is inside).", "quantifier": "every list of elements and all their data", "why_tests_cant": "Unbounded histories of elements.", "anchors": ["src/plot/plotgen.cc:plot_prepare", "src/scale.cc:scale_fit", "src/plot/*.cc: *_autorange"]}
{"id": "C72", "title": "Points are drawn where the data is", "statement": "A points element draws one marker per data point, in order, centred at its position, with colours and sizes taken in turn from the data (mapped by color-map and size-map) or from the options.", "quantifier": "every program text of the element, every data, plot area, scale and layer", "why_tests_cant": "Unbounded data and options.", "anchors": ["src/plot/points.cc:points_draw", "src/plot/points.cc:points_configure"]}
{"id": "C73", "title": "Bars reach from the base line to the value", "statement": "A bars element draws one filled rectangle per data point: centred on its position plus offset, as wide as configured, from the low value (or zero, limited to the plot area) to the value, in the chosen direction.", "quantifier": "every program text of the element, every data, plot area, scale and layer", "why_tests_cant": "Unbounded data and options.", "anchors": ["src/plot/bars.cc:bars_draw", "src/plot/bars.cc:bars_configure"]}
{"id": "C74", "title": "Areas are bounded by the data and the base line", "statement": "An areas element fills exactly the polygon of the upper line through the data and the base line (low values, or zero limited to the plot area) backwards, and strokes the two lines with their own styles.", "quantifier": "every program text of the element, every data, plot area, scale and layer", "why_tests_cant": "Unbounded data and options.", "anchors": ["src/plot/areas.cc:areas_draw", "src/plot/areas.cc:areas_configure"]}
{"id": "C75", "title": "Error bars span low to high", "statement": "An errorbars element draws for each data point a line between the low and the high value at the point's position, with caps of the configured width centred across both ends; columns of different lengths are rejected.", "quantifier": "every program text of the element, every data, plot area, scale and layer", "why_tests_cant": "Unbounded data and options.", "anchors": ["src/plot/errorbars.cc:errorbars_draw", "src/plot/errorbars.cc:errorbars_configure"]}
{"id": "C76", "title": "Vectors point from (x,y) to (x+dx,y+dy)", "statement": "A vectors element draws for each data point an arrow from the position of (x,y) to the position of (x+dx,y+dy), with colours and sizes in turn.", "quantifier": "every program text of the element, every data, plot area, scale and layer", "why_tests_cant": "Unbounded data and options.", "anchors": ["src/plot/vectors.cc:vectors_draw", "src/plot/vectors.cc:draw_arrow"]}
{"id": "C77", "title": "Rectangles have the extent of the data", "statement": "A rectangles element draws for each data point a filled rectangle centred at its position with the width and height of the data sizes on the axes (or of the size options).", "quantifier": "every program text of the element, every data, plot area, scale and layer", "why_tests_cant": "Unbounded data and options.", "anchors": ["src/plot/rectangles.cc:rectangles_draw"]}
{"id": "C78", "title": "Polygons are drawn at their coordinates", "statement": "A polygons element draws every polygon of the data, boundary and holes, with corners at the positions of their coordinates; the axes are fitted to the boundaries.", "quantifier": "every GeoJSON file, plot area, scale and layer", "why_tests_cant": "Unbounded data.", "anchors": ["src/plot/polygons.cc:polygons_draw", "src/plot/polygons.cc:polygons_configure"]}
{"id": "C79", "title": "Labels are beside their points", "statement": "A labels element draws the i-th label horizontally centred beside the i-th data point.", "quantifier": "every program text of the element, every data, plot area, scale and layer", "why_tests_cant": "Unbounded data.", "anchors": ["src/plot/labels.cc:labels_draw"]}
{"id": "C80", "title": "Axis ticks stand where the data of that value stands", "statement": "The i-th tick of an axis drawn around the plot area stands at the position along that side where a data point with the value of the i-th label would be drawn by an element using the same scale.", "quantifier": "every scale, tick placement, side and plot area", "why_tests_cant": "All values and scales.", "anchors": ["src/plot/axis.cc:axis_draw", "src/scale.cc:scale_layout_linear"]}
{"id": "C81", "title": "Axes take their space from the plot area", "statement": "The axes command reduces the plot area of the commands behind it by the margins and the space that tick marks, labels and titles of the shown axes need, never below zero size, and the new area lies in the old one; commands before it are not moved.", "quantifier": "every program, text measure and page", "why_tests_cant": "All programs.", "anchors": ["src/plot/axis.cc:plot_axes", "src/graphics/layout.cc:layout_margin_box"]}
{"id": "C82", "title": "Grid lines stand at the ticks", "statement": "Each grid line is drawn across the whole plot area at the position of the scale layout, vertical lines for x and horizontal lines for y, at the same places as the ticks of the axis with the same placement.", "quantifier": "every scale, placement and plot area", "why_tests_cant": "All scales.", "anchors": ["src/plot/grid.cc:plot_grid"]}
{"id": "C83", "title": "Commands are painted in order", "statement": "A plot paints its commands in the order they are written: what a command draws stands between what the commands before it and behind it draw, and nothing that was drawn is changed later.", "quantifier": "every program", "why_tests_cant": "All programs.", "anchors": ["src/plot/plotgen.cc:plot_draw", "src/plot/plotgen.cc:plot_eval"]}
{"id": "C84", "title": "Page settings do not depend on their place", "statement": "size, dpi, font and font-size of the page are applied before anything is drawn, wherever among the top-level commands they stand.", "quantifier": "every program", "why_tests_cant": "All programs and orders.", "anchors": ["src/eval.cc:eval"]}
{"id": "C85", "title": "Unknown commands are reported", "statement": "A command that is not known at the place where it is written makes the evaluation fail instead of being ignored.", "quantifier": "every program", "why_tests_cant": "All programs.", "anchors": ["src/eval.cc:eval", "src/sexpr_conv.cc:expr_walk_map_wrapped"]}
{"id": "C86", "title": "The legend command draws its items", "statement": "A legend draws each of its items, in order, with the item's label and marker, inside the box of the legend, and the background and borders before the items.", "quantifier": "every list of options and items", "why_tests_cant": "All option lists.", "anchors": ["src/figure/legend.cc:plot_legend", "src/figure/legend_item.cc:legend_item_draw"]}
{"id": "C87", "title": "The command line tool reports success only if the output was written", "statement": "The tool ends with status 0 only if the output file holds the complete picture; on any failure it ends with another status and leaves no partial file.", "quantifier": "every command line, input, file system behaviour", "why_tests_cant": "All inputs and failures.", "anchors": ["src/cli.cc:main", "src/utils/fileutil.cc:FileUtil::write"]}
{"id": "C88", "title": "The C interface evaluates its input", "statement": "clip_eval evaluates the text with the same meaning as the command line tool and clip_get_result returns the picture.", "quantifier": "every input text", "why_tests_cant": "All texts.", "anchors": ["src/api.cc:clip_eval"]}
{"id": "C89", "title": "Style options mean what they say", "statement": "stroke-style, fill and color options give the stroke and fill styles of the documentation: solid, dashed with the given lengths, none; a colour; a hatch pattern with its parameters; anything else is an error.", "quantifier": "every option", "why_tests_cant": "All options.", "anchors": ["src/style_reader.cc: stroke_style_read, fill_style_read", "src/draw/rectangle.cc", "src/draw/text.cc"]}
{"id": "C90", "title": "Marker shapes are distinct and centred", "statement": "Every marker name gives the shape of that name centred at the data point, and different names give different shapes; an unknown name is an error.", "quantifier": "every marker option, position, size and colour", "why_tests_cant": "All positions and sizes.", "anchors": ["src/marker.cc"]}
{"id": "C91", "title": "Data expressions give the values of the data", "statement": "A data option adds the values that are written, bare or as (list ...), or the column of a CSV file named by (csv FILE COLUMN), in order, one value per entry, behind what earlier options added; a file that cannot be read, is no CSV file, lacks the column or has a row too short for it, and any other list, is an error.", "quantifier": "every data expression and file", "why_tests_cant": "All files and lists.", "anchors": ["src/data.cc:data_load_simple"]}
{"id": "C92", "title": "Options of the axes command address the axes they name", "statement": "An option NAME of the axes command applies to all four axes, NAME-x to the top and bottom axis, NAME-y to the left and right axis, NAME-top, -right, -bottom, -left to the axis at that side; where several apply the last one written counts; position chooses the axes that are shown.", "quantifier": "every list of options of the axes command", "why_tests_cant": "All option lists and orders.", "anchors": ["src/plot/axis.cc:plot_axes"]}
{"id": "C93", "title": "Drawing programs draw their elements", "statement": "A program of class draw is accepted exactly if all its elements are rectangles and texts with options that have a meaning, and draws them in the order written: a rectangle of the given size (the page's without one) centred at its position (the page's centre without one); the glyphs of a text centred at its position; each painted with everything its color, fill and stroke options add, in order, and with the page's default style if there are none.", "quantifier": "every program of class draw, every page", "why_tests_cant": "All programs.", "anchors": ["src/draw.cc:draw_eval", "src/draw/rectangle.cc:rectangle", "src/draw/text.cc:text_eval", "src/draw/path.cc"]}
{"id": "C94", "title": "Glyph outlines", "statement": "The path of a glyph consists of one closed curve per contour of the font's outline, in order: the very curve of straight lines, conic and cubic Bezier segments that the contour's points describe, whichever points between conic segments the font leaves out and wherever the list of points begins; coordinates are the font's in pixels with y pointing down the page. Every contour of a TrueType font is such a curve. A contour that is none, an unknown tag or a truncated outline is an error and nothing is drawn.", "quantifier": "every outline, any number of contours, points and segments, every way of writing a contour", "why_tests_cant": "All outlines: the cases depend on where a contour starts and on which points are implied.", "anchors": ["src/graphics/font_lookup.cc:font_get_glyph_path", "src/graphics/font_lookup.cc:GlyphContour"]}
{"id": "C95", "title": "What option arguments mean", "statement": "Options of elements, axes and the page accept exactly the documented arguments and give them their documented meaning: a number is what its text begins with; a length is 0 or a number with px, pt, mm, em or rem, converted with the page's resolution and font size; a colour is a hexadecimal code, an rgb or rgba list or the number of a colour of the palette; limits are two numbers; a scale is a sequence of the words and lists linear, log, invert and categorical, each changing one thing; a colour or size map interpolates between the stops it lists. Everything else is an error and changes nothing.", "quantifier": "every argument list, page, earlier value and file contents", "why_tests_cant": "All texts and lists of arguments.", "anchors": ["src/sexpr_conv.cc:expr_to_float64", "src/typographic_reader.cc:expr_to_size", "src/typographic_reader.cc:measure_readn", "src/color_reader.cc:expr_to_color", "src/color_reader.cc:color_map_read", "src/scale.cc:scale_configure_kind", "src/sexpr_conv.cc:expr_to_float64_opt_pair"]}
{"id": "C96", "title": "The file functions", "statement": "mkdir_p returns normally only if the path is a directory then, whatever other processes do meanwhile; alone, it makes the missing directories of the path, changes nothing else, and raises an error (changing nothing) exactly if a file is in the way, however the path is spelled. Joined paths lead from the first to where the second leads. ls passes the names that are not hidden in order until told to stop; du_c is the sum of the sizes of all files below a directory; rm removes the file and nothing else or reports that it cannot; read gives the contents of the file.", "quantifier": "every file system tree, working directory, spelling of a path, and every interleaving with other processes and failing system calls", "why_tests_cant": "Trees, spellings and interleavings of system calls are unbounded; races between the check and the call do not show in a test.", "anchors": ["src/utils/fileutil.cc:FileUtil::mkdir_p", "src/utils/fileutil.cc:FileUtil::joinPaths", "src/utils/fileutil.cc:FileUtil::ls", "src/utils/fileutil.cc:FileUtil::du_c", "src/utils/fileutil.cc:FileUtil::rm", "src/utils/fileutil.cc:FileUtil::read", "src/utils/file.cc:File::read"]}
{"id": "C97", "title": "What an axis looks like", "statement": "Every setting of an axis comes from its own options, the last one counting, or is the documented default: labels and title outside of the plot area with the labels' facing edge at their position, ticks pointing inside, the titles of the axes at the left and right turned by 90 degrees. Ticks have the given length or 4pt and are moved across the axis by their offset; labels are put at their distance (given, or 0.8 em) on the side of their offset; the title is centred at the middle of the axis, behind the labels if it is on the same side. The space reserved for an axis is the distance of the labels, the largest of them (turned if they are turned), and for a title its distance and its size.", "quantifier": "every axis and axes command, text sizes, fonts, offsets, rotations, plot area", "why_tests_cant": "Options, texts and font metrics are unbounded, and a test sees single pictures.", "anchors": ["src/plot/axis.cc:plot_axis_vertical", "src/plot/axis.cc:plot_axis_horizontal", "src/plot/axis.cc:axis_layout", "src/plot/axis.cc:axis_layout_labels", "src/plot/axis.cc:axis_layout_title", "src/plot/axis.cc:plot_axes", "src/plot/axis.cc:plot_axis"]}
{"id": "C98", "title": "Optional values behave like values", "statement": "Every history of constructing, copying, moving, assigning, reading and destroying Option<T> objects shows its callers what an optional value is: empty or one value; a move empties its source; get() of an empty one throws; a failed constructor changes nothing. Every value is destroyed exactly once, and not while it can still be reached.", "quantifier": "every history of operations on any number of Options, every value type, every point where a constructor of a value throws", "why_tests_cant": "Histories are unbounded, and double destruction shows only in rare ones.", "anchors": ["src/utils/option.h", "src/utils/option_impl.h"]}
{"id": "C99", "title": "A page and the background of a plot", "statement": "A page without settings is white, 1600 by 800 pixels, 192 dots per inch, with black lines and texts of 11pt; the document of every program begins with a white rectangle of the size of its page; (font name) takes exactly one name, and fonts are loaded in the order of the program; (background ...) is accepted if and only if its options are known and readable, and paints the whole plot area with the last colour or pattern, and an outline of 1pt in black unless the options say otherwise.", "quantifier": "every program, every list of fonts, every list of background options", "why_tests_cant": "All programs.", "anchors": ["src/layer.cc:layer_create", "src/layer.cc:layer_set_font_cmd", "src/plot/plotgen.cc:plot_set_background", "src/graphics/export_svg.cc:export_svg"]}
{"id": "C100", "title": "What an exception says", "statement": "The message of an exception is its first text followed by everything appended to it (also the description of errno), cut after 1023 characters; its type and its source location are the last ones set; all of this is true of the object and of every copy. Asking an exception for its message, type or location never reads outside of it.", "quantifier": "every message, every sequence of setters, appends and copies", "why_tests_cant": "Sequences and texts are unbounded; a missing terminator shows only for some lengths.", "anchors": ["src/utils/exception.cc", "src/utils/exception.h:RAISE", "src/utils/exception.h:RAISEF"]}
{"id": "C101", "title": "Output streams deliver what they are given", "statement": "A stream on a string or buffer appends exactly what is written or printed to it, in order, and answers with its size; a printf that throws changes nothing. Of a write to a file as many bytes arrive as the answer says, whatever the kernel does, and of a write that throws none. The open descriptors of the process are at any time its own and one for each open file stream, so that every file is closed when its stream is destroyed, never before, and stdout and stderr never.", "quantifier": "every history of calls, every behaviour of the kernel, every order of opening and destroying", "why_tests_cant": "Short writes, failures and the order of destruction are schedules.", "anchors": ["src/utils/outputstream.cc"]}
{"id": "C102", "title": "Random strings", "statement": "hex64, hex128, hex256 and hex512 return 16, 32, 64 and 128 hexadecimal digits that spell exactly the next 1, 2, 4 and 8 numbers of the generator, so that different numbers give different texts; alphanumericString(n) returns n characters, each of the 36 digits and capital letters chosen by one number.", "quantifier": "every sequence of generated numbers, every length", "why_tests_cant": "All sequences of random numbers.", "anchors": ["src/utils/random.cc"]}
{"id": "C103", "title": "Pictures show every shape in its own style", "statement": "On a picture (Rasterizer), every shape shows its area or hatching and its outline in its own colours, width and dashes, every text its glyphs in its font, in the order of the calls and whatever was drawn before, with heights counted from below. page_export_png paints the background and every shape of the page, and refuses exactly the pages with a path of less than two commands, leaving the buffer as it was.", "quantifier": "every sequence of calls, every page", "why_tests_cant": "Styles that leak from one shape into the next show only for some sequences.", "anchors": ["src/graphics/rasterize.cc", "src/graphics/export_image.cc:page_export_png"]}
{"id": "C104", "title": "Times are printed as dates and read back", "statement": "UnixTime::toString gives the format with each conversion (Y m d H M S) replaced by that part of the UTC date and time of the instant; UnixTime::parseString of the printed text gives the instant back in whole seconds; the printed texts sort like the instants; what parseString accepts has the six numbers in order and in range and yields the instant they denote; datetime axis labels show the date and time of the value.", "quantifier": "every 64-bit instant, every format made of these conversions and other characters, every text", "why_tests_cant": "2^64 instants and unboundedly many formats and texts.", "anchors": ["src/utils/UnixTime.cc: toString, parseString", "src/utils/CivilTime.cc: parseString", "src/format.cc: format_datetime"]}
{"id": "C105", "title": "The options of a scale", "statement": "A scale's option list is accepted exactly when every option is `linear`, `log`/`logarithmic` (alone or in a list with a base), `invert`/`inverted`, or `categorical` (alone or with a list of categories that can be read); anything else is an error. Afterwards the kind, the base, the direction and the padding are those said last, or unchanged; categories given as words are exactly those words in order, each found at its own place; limits and fitted data are untouched. Without options a scale is linear, base 10, not inverted. Lengths on a numeric scale are the part of the range they cover. A second list of words forgets the first for the number of cells but not for the lookup (refuted part).", "quantifier": "every list of options, every scale before it, every number reader and file", "why_tests_cant": "Options combine in any number and order, and the lists of categories come from files; a test can only fix one combination.", "anchors": ["src/scale.cc: scale_configure_kind, scale_translate_magnitude", "src/scale.h: ScaleConfig", "src/data.cc: data_load_strings"]}
{"id": "C106", "title": "A program becomes the picture it describes", "statement": "Running the tool with -e FILE on a program with one line chart (optionally after the size of the page in pixels), the data given as numbers in the program and written with any white space, ends with status 0 and leaves in FILE an SVG document that a reader finds to be exactly: a white page of that size (1600 by 800 without it) and one black, unbroken, 4 pixel line through the points in their order, the least and the greatest numbers of each axis on the borders of the page, every number right to a thousandth. The same for programs with any number of lines, points, bars and areas elements, whose numbers are written in the program or are columns of CSV files, with sizes and colours of their own and with limits for the axes: the series are painted in the order of the program, every colour exactly, a point as a disc around its place, a bar and an area between their points and the zero of the y axis (or the border nearest to it).", "quantifier": "all program texts that spell such a program, all lists of numbers (with distinct single precision limits, or limits given in the program), any number of series, all page sizes up to 65536 pixels, all command lines with an SVG target", "why_tests_cant": "tests compare a few files with stored ones; that the whole chain of parser, scales, layout, double arithmetic and SVG writer is right for every program of this shape takes a proof", "anchors": ["src/cli.cc main", "src/plist_parser.cc", "src/eval.cc", "src/plot/plotgen.cc", "src/plot/lines.cc", "src/graphics/export_svg.cc"]}
{"id": "C107", "title": "Error messages say what is wrong and what would have been right", "statement": "When a program cannot be drawn, the tool ends with a failure, writes nothing to stdout and prints a line ERROR: with the reason on stderr; a successful run prints no error. The reason is about the first fault in the order of the program; an unknown command, page size, module, unit, palette or kind of scale is named, and where the message lists the accepted values or the number of arguments, the list is exactly what is accepted.", "quantifier": "every program, command line, table of commands, value given, and answer of the operating system", "why_tests_cant": "The messages are assembled by hand at some ninety places, next to the code that decides; tests compare the exit status of a few programs and never the lists in the messages with what is accepted.", "anchors": ["src/return_code.cc: err_invalid_value, err_invalid_nargs, error_print", "src/sexpr_util.cc: expr_walk_map", "src/layer.cc: layer_resize, layer_resize_cmd", "src/cli.cc: main, crash", "src/scale.cc: scale_configure_kind, scale_configure_layout", "src/eval.cc: eval"]}
{"id": "C108", "title": "Fonts are found and tried in the order asked for", "statement": "A font that a program or the command line asks for is the font file of that name or the family that the system finds for it; it is tried before all that were there, so that fonts of the program come before those of the command line and these before those of the system. A text is drawn and measured with the glyphs of the first font that has all of them. A font that cannot be had is an error which names it.", "quantifier": "every font configuration of the system, list of fonts in the program and on the command line, text, size and resolution", "why_tests_cant": "The order of preference and the fallback depend on every list of fonts and on which glyphs each has; tests run with the fonts of one machine.", "anchors": ["src/graphics/font_lookup.cc: font_load_best, font_load_system, font_load_matching, font_load_file", "src/layer.cc: layer_create", "src/graphics/text_shaper.cc: text_shape_run", "src/graphics/text.cc: text_layout"]}
{"id": "C109", "title": "Numbers with metric prefixes", "statement": "A number formatted with a metric prefix is shown as zero if it is zero; otherwise as a number from 1 to 999 with the prefix for its size, rounded to the nearest shown digit, for every number.", "quantifier": "every number", "why_tests_cant": "The boundaries of the prefixes and of the number of digits interact with rounding for every magnitude; a few literals do not show the overflow of the buffer or the carry to 1000.", "anchors": ["src/utils/stringutil_impl.h: formatNumberMetric"]}
{"id": "C110", "title": "Images are written to PNG files pixel by pixel", "statement": "An image that is written as a PNG file gives a file with the same width and height, with an alpha channel if and only if the image has one, and with every pixel of the image at its place; when the file cannot be written there is an error.", "quantifier": "every image size, kind of pixels and contents, and every answer of the file system and of libpng", "why_tests_cant": "Every pixel of every size must be at its place; tests compare a picture or two.", "anchors": ["src/graphics/png.cc: pngWriteImageFile"]}
{"id": "C111", "title": "Open files are owned, written and closed exactly once", "statement": "Whatever is opened, moved, cloned and destroyed in whatever order: every open descriptor belongs to exactly one live object or was open before, none is closed twice, and none stays open when all objects are gone. A file is opened if and only if the flags and the existence of the file allow it; what was written is read back; a clone and its original have one position; appending appends; descriptors are not inherited unless that was asked for; a write that fails changes nothing.", "quantifier": "every history of operations on files, of any length, with any answers of the operating system", "why_tests_cant": "Ownership is a statement about every sequence of opens, moves, clones and destructions; tests run a few short sequences and never short writes.", "anchors": ["src/utils/file.cc: File::openFile, File::File, File::~File, File::clone, File::read, File::write, File::seekTo, File::truncate, File::size", "src/utils/file.h: kOpenFlags"]}
{"id": "C112", "title": "A program that cannot be read is refused with a message about its first fault", "statement": "When a program text is refused, the message shows the first token that cannot stand where it stands: the text in front of it could have become a program, the text with it cannot, and every kind of token that the message says was expected could have stood there. If the text only ends too early, the message says what is missing.", "quantifier": "every program text", "why_tests_cant": "The first place where no continuation can help is defined by all continuations of all prefixes; tests try a few broken texts, and a stale message shows only when an ignored failure comes before another one.", "anchors": ["src/plist_parser.cc: parse, parsePropertyOrMap, parsePropertyValues, parsePropertyValue, expectAndConsumeToken, expectAndConsumeString, setError, printToken, get_error", "src/eval.cc: eval"]}
{"id": "C113", "title": "No option list makes an element read outside its data or run for ever", "statement": "Whatever options lines, points, bars, areas, error bars, labels, vectors, rectangles and polygons are given, in whatever order and however malformed, drawing them and fitting the axes to them either succeeds, reports an error or throws: no column, palette, colour map or list of labels is read past its end, no number is converted out of range, and no loop is endless.", "quantifier": "every option list, every content of the files that are read, every pair of scales", "why_tests_cant": "Undefined behaviour depends on combinations of options and lengths of data, and usually goes unnoticed in a test.", "anchors": ["src/plot/lines.cc: lines_draw, lines_autorange", "src/plot/points.cc: points_draw", "src/plot/bars.cc: bars_draw", "src/plot/areas.cc: areas_draw", "src/plot/errorbars.cc: errorbars_draw", "src/plot/labels.cc: labels_draw", "src/plot/vectors.cc: vectors_draw", "src/plot/rectangles.cc: rectangles_draw", "src/plot/polygons.cc: polygons_draw", "src/scale.cc: scale_translatev, scale_translate_categorical", "src/color_map.cc: color_map_gradient, color_map_steps"]}
{"id": "C114", "title": "A program always ends: with a picture, an error or an exception that is reported", "statement": "Whatever the program and the files it names contain, evaluating it ends in a defined way and the tool exits with a status: it never hangs and never runs into undefined behaviour. (Proved for every program that has a command and avoids point labels, gradients, vectors, logarithmic scales, tick placements by step and the label formats that convert to an integer; refuted for programs of settings only and for ticks with step 0.)", "quantifier": "every program text, every option of the tool, every content of the files that are read", "why_tests_cant": "Hangs and undefined behaviour depend on the combination of options of several commands and on data; a test shows only the programs somebody thought of.", "anchors": ["src/eval.cc: eval", "src/plot/plotgen.cc: plot_eval, plot_prepare, plot_draw", "src/plot/axis.cc: plot_axis, axis_layout", "src/plot/grid.cc: plot_grid", "src/plot/legend.cc: plot_legend", "src/scale.cc: scale_configure_layout", "src/format.cc: format_configure", "src/cli.cc: main"]}
{"id": "C115", "title": "Objects of the font and graphics libraries are used only while they exist and given back exactly once", "statement": "Whatever fonts are loaded, shared, used for shaping, outlines and pages and dropped, in whatever order and with whatever answers of the libraries: no face, library, font, buffer, pattern, surface or context is used after it has been given back, none is given back twice or before the objects made from it, a font that is referred to is open, and when the last reference is gone everything has been given back.", "quantifier": "every history of loading, copying, dropping and using fonts, every answer of the libraries", "why_tests_cant": "Leaks and double frees depend on the history of references and on rare failures of the libraries, which tests do not provoke.", "anchors": ["src/graphics/font_lookup.cc: font_close, font_load, font_load_best, font_load_defaults, font_get_glyph_path", "src/graphics/text_shaper.cc: text_shape_run", "src/graphics/rasterize.cc: Rasterizer::Rasterizer, Rasterizer::~Rasterizer, Rasterizer::drawText", "src/graphics/export_image.cc: page_export_png"]}
{"id": "C116", "title": "The order of options that concern different things does not matter", "statement": "In a program for a plot, settings of the page may stand before or after the commands, options of the plot that set different things may be exchanged, and so may, in every command (lines, points, bars, areas, errorbars, labels, vectors, rectangles, polygons, grid, axis, axes, background, legend) and in the items of a legend, options that set different things: the picture and the page are the same, or there is none for both orders. What an option sets is listed by its name in a table.", "quantifier": "every program for a plot, every order obtained by exchanging neighbours that concern different things", "why_tests_cant": "Options are read by tables of callbacks that write into shared records; an option that also writes a field of another is seen only for particular pairs in a particular order, of which there are tens of thousands.", "anchors": ["src/plot/*.cc: the tables of plot_*_configure", "src/plot/axis.cc: plot_axis, plot_axes", "src/figure/legend.cc: plot_legend", "src/figure/legend_item.cc: legend_item_configure", "src/plot/plotgen.cc: plot_prepare, plot_draw", "src/eval.cc: eval", "src/scale.cc: scale_configure_kind"]}
{"id": "C117", "title": "When the limits are given, the commands of a plot do not influence each other's drawings", "statement": "In a program for a plot that gives the limits of both scales, the picture is made of one part for every entry of the program. Leaving out, exchanging or inserting a command that only draws (lines, points, bars, areas, errorbars, labels, vectors, rectangles, polygons, axis, grid, background, legend) takes away, moves or adds its own part and leaves the parts of all other commands, and the page, as they are. Without given limits, taking out a command may change the others, because the ranges follow the data of all commands; but exchanging neighbours still only exchanges their drawings if no axis is categorical and no datum is NaN.", "quantifier": "every program for a plot with given limits that makes a picture, every set of its commands that only draw, every place for a command", "why_tests_cant": "Each command has its own use of the scales, the room and the shared state of the plot, and a hidden influence shows only for particular pairs of commands with particular data and options.", "anchors": ["src/plot/plotgen.cc: plot_prepare, plot_draw", "src/plot/*.cc: plot_*_draw, plot_*_autorange", "src/scale.cc: fit, scale_min, scale_max", "src/eval.cc: eval", "src/plot/axis.cc: plot_axis", "src/plot/grid.cc: plot_grid"]}
{"id": "C118", "title": "A column from a CSV file and the same values written in the program give the same picture", "statement": "In a program for a plot, every data column of an element (data-x, data-y, their -high and -low forms, data-dx, data-dy, data-size...) can be given as (csv FILE COLUMN) or as (list VALUE ...) with the values of that column, any number of them at once: if one of two programs that differ only so is accepted, so is the other, with the same page and the same drawing. For lines, naming a CSV file once with (data FILE), with or without the names of its columns, is the same as naming it for both columns.", "quantifier": "every program for a plot, every set of its data columns, every CSV file in which they can be read, every list of values", "why_tests_cant": "The values reach the picture by different loaders, at different times (at once or after all options were read), for eight elements with eleven options; tests try a few files with a few elements.", "anchors": ["src/data.cc: data_load_simple, data_load_simple_csv, data_load_simple_inline, data_load_polylines2, data_load_points2", "src/plot/*.cc: *_configure", "src/sexpr_conv.cc: expr_to_copy"]}
{"id": "C119", "title": "Options that stand for several others", "statement": "In a program for a plot, an option that is a shorthand can be replaced, where it stands, by the options it stands for, with the same arguments: color of lines by stroke-color and marker-color, stroke-color, stroke-width and stroke-style of areas by their -high and -low forms, size and data-size of rectangles by size-x and size-y, data-size-x and data-size-y, data-x-high of bars by data-x, font of points and labels by label-font, color of bars, polygons and the background by stroke-color and fill, color of areas by stroke-high-color, stroke-low-color and fill, color of errorbars by stroke-color, margin of the plot by its four sides, limit-x A B of the plot, of a grid or of any element showing data by limit-x-min A and limit-x-max B (the same for y, and limit of a single axis), color of a grid by stroke-color, margin, padding, border-color and border-width of a legend by those of its four sides, font and font-size of axes by those of labels and titles, and the options of axes that name no side, x or y by those of the sides meant. If one of the two programs is accepted, so is the other, with the same page and the same drawing.", "quantifier": "every program for a plot, every place in it where such an option stands, every argument, whatever the other options are", "why_tests_cant": "A shorthand runs several readers in a fixed order over shared state, and other options before and after it may write the same fields; tests try one program per shorthand.", "anchors": ["src/sexpr_util.h: expr_calln_fn; src/sexpr_util.cc: expr_walk_map", "src/plot/*.cc: *_configure", "src/plot/plotgen.cc: plot_prepare, plot_draw", "src/sexpr_conv.cc: expr_to_float64_opt_pair"]}

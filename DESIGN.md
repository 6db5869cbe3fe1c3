# Formal model of paulasmuth/fnordmetric (the "clip" chart renderer) in Rocq/Coq 8.16.1

Source of truth: `/repo/src` (C++), read as text. Properties: `properties.jsonl`
(C01..). Theorems: `rocq/theories/*_Props.v`. Status per property: `MANIFEST.json`.

## Conventions of the model

* One area = up to four files: `<Area>_Model.v` (executable Gallina transcription of
  the C++, every definition cites file:lines), `<Area>_Spec.v` (small independent
  specification: grammars, reference functions, written without the model),
  `<Area>_Proofs.v` (lemmas), `<Area>_Props.v` (only `Theorem ... exact lemma.`,
  a satisfiability `Example` beside each theorem, and `Print Assumptions`).
* C++ outcomes are kept apart by `outcome` (Base.v): `Ret v` (normal return), `Err`
  (an `ERROR` return code), `Throw` (a C++ exception escapes), `UB` (undefined
  behaviour: out-of-bounds access, null dereference, `back()` of an empty container).
  Loops whose termination is not structural carry explicit fuel; running out gives
  `Diverge`, a separate outcome that every positive theorem excludes, and the
  non-termination theorems say "for every amount of fuel the result is Diverge".
* Bytes are Coq `ascii` (`list ascii` = `std::string`) in parsers and `N` < 256 in codecs.
* `uint64_t`/`int` arithmetic is `Z`/`N` with explicit `mod 2^64` where the property
  is about wrap-around.
* `double`/`float` arithmetic (`Num.v`): a number is a real, an infinity or a NaN
  (`xr`), and each operation rounds its real result with a rounding function that is a
  parameter of the model. `exact` (the identity) gives exact real arithmetic, `rnd64` /
  `rnd32` (Flocq) round to nearest even in binary64 / binary32. A theorem's statement
  shows which one it is about. Simplifications: one zero (no sign of zero), no overflow.
  Where only the numbers' identity matters a model is generic over the number type.
* Library functions are modelled by their contracts: `std::sort` by "some sorted permutation"
  (a parameter or a relation), `lower_bound`/`upper_bound` by the position they return,
  `strtol`/`stod`/`stoi` by the C standard's description, `malloc`/`realloc` as glibc does,
  streams with `std::fixed` as correctly rounded decimals. `sin`, `cos`, `acos`, `sqrt`,
  `log`, `pow` are the real functions followed by one rounding. `isdigit` etc. are those of
  the C locale. String lengths are taken to be below 2^31 where the code stores them in `int`.
* When the code falsifies a property: `..._refuted` gives the witness, `..._partial`
  the strongest positive statement that is true of the code.

## Per-property plan

| id | modelled | proof |
|----|----------|-------|
| C01 | `expr_parse*` as state machine over bytes + storage stack | equivalence with inductive grammar |
| C02 | same, with fuel | refuted by bare `\`; bound on fuel for all other inputs |
| C03 | same | writer/reader round trip by induction on trees, arbitrary separators |
| C04 | `expr_clone` on rose trees and on a heap of nodes | induction; freshness |
| C05 | `expr_walk_map*` over an arbitrary handler monad (trace) | induction on the argument list |
| C06 | `sexpr_conv.cc` conversions | exact characterisation per shape |
| C07-C08 | `csv.cc` functions over stream state | grammar, round trip, refutation for trailing comma |
| C09 | column loaders | exact characterisation, refutation of off-by-one |
| C10-C12 | `UTF8.cc`, `stringutil.cc` conversions over `N` | arithmetic on shifts; refutations for 5/6 byte forms, validity check |
| C13-C15 | `json.cc`, `geojson.cc` | induction on documents; refutations |
| C16-C17 | `plist_parser.cc` | round trip; refutations |
| C18-C19 | `data.cc` | refinement to lists |
| C20-C25 | `scale.cc` over `R`/`Q` | real analysis (stdlib), induction |
| C26-C27 | `units.cc`, `layer.cc`, `measure.cc` | field arithmetic |
| C28-C31 | `ISO8601.cc`, `CivilTime.cc`, `UnixTime*.{h,cc}`, `duration*` | induction over years; Gregorian spec |
| C32-C37 | `stringutil.cc`, `bufferutil.cc` | list induction |
| C38 | `buffer.cc` as byte array with capacity | refinement |
| C39 | `color.cc`, binary32 rounding by `SpecFloat` | exhaustive over the 256 component values, lifted |
| C40-C41 | `color_map.cc`, `color_reader.cc` | Q arithmetic |
| C42, C48, C64 | `export_svg.cc`, `draw_cmd.cc:draw_shape` | an independent reader for SVG files (`Svg_Spec.v`): XML subset, number and path grammar, painting order and defaults of SVG; the written document is read back and compared with the drawing by induction on draw list, path, digits |
| C43-C45 | `vmath.cc`, `path.cc`, `layout.cc` | ring/lra |
| C46, C65, C66 | `legend.cc`, `legend_item.cc` | invariant of the layout loop over all items, lra; a direct specification of the keywords |
| C47, C67 | `text_support.cc`, `text_backend*.cc` | an independent statement of the Unicode rule; stage invariant of the reversal loops, uniqueness of the order |
| C68, C69 | `text_layout.cc`, `text_shaper.cc` (fallback), `draw/text.cc`, `draw_cmd.cc` (draw_text) | induction over spans and glyphs; shaping and outlines are parameters |
| C49 | `image.cc` | arithmetic |
| C50 | `format.cc` | arithmetic |
| C51 | `data.cc` format detection by file name | case analysis |
| C51-C52 | `data_load_points2`, `utils/algo_impl.h` (at_or, fallback) | as C18-C19; position arithmetic |
| C53-C55 | `layer.cc` size, dpi, font-size commands; `typographic_map.cc` | case analysis, lra |
| C56-C57 | `duration.cc` inspect, `stringutil` find/findLast/includes | division with remainder; first/last occurrence by induction |
| C58 | `stringutil` toString(double) | the trailing-zero loop is trimmed text |
| C59 | colour, colour map and palette expressions | exact characterisation |
| C60-C61 | `path.cc` circles, `layout.cc` rotated boxes | polynomial inequalities (nra) |
| C62-C63 | `intersect.cc`, `shape_hatch.cc` | Cramer's rule, Archimedean bound on stripes; refutation by NaN hits |
| C70, C72-C79 | `plot/{lines,points,bars,areas,errorbars,vectors,rectangles,polygons,labels}.cc` with their option tables | the result is determined option by option (projections of the table run), data loading, scales and drawing loops; examples in a concrete world (`Demo.v`, `Plot_Examples.v`) |
| C71, C83 | `plot/plotgen.cc` (plot_prepare, plot_draw, plot_eval) with the autorange functions of all elements | every entry of the two tables: fitting commutes with the scale options (refit), fitting the same data twice changes nothing, drawing only appends |
| C80-C82, C92 | `plot/axis.cc`, `plot/grid.cc` | the table of 150 options split into one table per side (checked by computation); placements produce pairs of positions and values; drawing loops; `Axis_Examples.v` runs `(axes)` in a concrete world |
| C84-C88 | `eval.cc`, `layer.cc`, `figure/legend.cc` (command), `cli.cc`, `utils/flagparser.cc`, `api.cc` | the run of the settings table separated from the rest of the program; option words listed independently and compared with the tables; the legend option by option; the command line as a function of the last options and of what the operating system does |
| C89-C91 | `style_reader.cc`, `marker.cc`, `draw.cc` (styles), `data.cc` (data options), `data_impl.h` | the forms of each option stated as a relation between expressions and styles, shapes or values, proved equivalent to what the reader accepts; the departures as `_refuted` theorems |
| C93 | `draw.cc`, `draw/rectangle.cc`, `draw/text.cc`, `draw/path.cc` | the meaning of elements as a relation, proved equivalent to evaluation |
| C94 | `graphics/font_lookup.cc` (glyph outlines) | curves and the ways of writing them as a grammar; the reader is proved to invert it, by induction on the grammar, in binary64 |
| C95 | `sexpr_conv.cc`, `typographic_reader.cc`, `color_reader.cc`, `scale.cc` (readers as options use them) | meanings as relations on argument lists, proved equivalent to the readers bound to a page |
| C96 | `utils/fileutil.cc`, `utils/file.cc` over a tree with POSIX path resolution | `mkdir_p` is a program of system calls (a tree of continuations) executed with arbitrary changes by other processes before each call; loop invariant over the spelled path; induction over trees for sizes |
| C97 | `plot/axis.cc`: settings, drawing and space | each field of the axis is a projection of the option table (generic lemma over named settings, distinctness of the option names by computation); drawing and space computed in exact arithmetic from the measured texts |
| C98 | `utils/option*.h`: each Option as its pointer and the object in its storage; objects numbered by construction, destructor calls recorded | simulation between histories on the model and on a map from Options to optional values, with the invariant that numbers of live and destroyed objects partition those constructed |
| C99 | `layer.cc` (new pages, fonts), `plotgen.cc` (background), head of the document | option table split into independent stroke and fill options; literal text of the head of the document |
| C100 | `utils/exception.*` | array of written and unwritten characters; invariant: the array holds a text and its end |
| C101 | `utils/outputstream.cc` | histories of calls against an arbitrary kernel; invariant on the set of descriptors |
| C102 | `utils/random.cc` | base-256 digits, injectivity of the printed digits |
| C103 | `graphics/rasterize.cc`, `graphics/export_image.cc` | the calls of cairo, interpreted by a small machine after cairo's manual (trusted); invariant: no transformation, no error |
| C104 | `utils/UnixTime.cc`, `utils/CivilTime.cc` | gmtime_r as day-by-day counting, strftime and strptime for six conversions, UnixTime::toString/parseString and CivilTime::parseString on them; round trip and order by the day numbers of C29, acceptance by inverting the reader |
| C105 | `scale.cc` (scale_configure_kind, scale_translate_magnitude) | what an option says as an inductive relation, what is said last by a fold; induction over the options, which are shown to be classified by that relation |
| C106 | `cli.cc`, `plist_parser.cc`, `eval.cc`, `plotgen.cc`, `lines.cc`, `scale.cc`, `export_svg.cc` together | the picture as a list of paints over the reals; composition of C16 (text to tree), C99 (new page), a lines element in any arithmetic, error bounds for the roundings of a coordinate and of the discs of points, bars and areas (Flocq), C91 (columns of CSV files), induction over the series, C48 (file to paints) and C87 (exit status and file) |
| C107 | `return_code.h`, `return_code.cc`, the walks of `sexpr_util.cc`, the readers of `layer.cc`, `scale.cc`, `format.cc`, `color_reader.cc`, `style_reader.cc`, `data.cc`, `typographic_reader.cc` that list values, `eval.cc`, `cli.cc` with stderr | models with messages and trace; erasing the messages gives the other models (proved); a relation for the first fault; lists of values as relations, compared with what the reader accepts; messages of fonts, modules and the C library are parameters |
| C108 | `graphics/font_lookup.cc` (`font_load_best` and its helpers), `layer_create` and the `font` command, `text_shaper.cc`, `text.cc` | fontconfig and freetype as a record of functions (`library`); order of the fonts by induction over the entries of the program; fallback by induction over the fonts; sizes in integers as freetype gets them |
| C109 | `stringutil_impl.h` (`formatNumberMetric`) | exact numbers, the buffer of 128 bytes modelled; case analysis by magnitude and the rounding theorem of `printf` (`Format_Proofs`) |
| C110 | `graphics/png.cc` | libpng as a recorder of the calls; rows as pointers into the pixel buffer; induction over rows |
| C111 | `utils/file.cc`, `utils/file.h` | File objects over a model of the kernel's tables (names, contents, open file descriptions, descriptors); operations as a transition system with short reads and writes chosen by the system; an invariant over histories |
| C112 | `plist_parser.cc` with `error_msg_`, and `eval.cc` | the parser with its message as state; it is proved to be a machine over tokens, whose states can all be led to an accepting end, so that the token on which it stops is the first that no continuation can mend; a spelling relation for tokens |
| C113 | the elements of a plot (`plot/*.cc`), readers, columns, scales, colour maps | an outcome is defined when it is neither undefined behaviour nor a hang; every entry of every option table is shown defined on any arguments, then invariants over the options (columns well formed, colour maps total on their data) carry through configure and draw |
| C114 | `eval.cc`, `plotgen.cc`, `plot/axis.cc`, `plot/grid.cc`, `plot/legend.cc`, the elements, `cli.cc` | the class of modest programs is defined on the expressions (words, lists and options); every option table keeps an invariant of its configuration (usable scales, plain placements, total formats) on arguments taken from a modest program, and the invariant is carried through prepare, draw, eval and the tool |
| C115 | `graphics/font_lookup.cc`, `text_shaper.cc`, `rasterize.cc` (creation and release of library objects) | each function is the list of library calls it makes for given answers of the libraries; a small specification says which calls are allowed; an invariant over histories of shared references (what exists is what the references hold, and what has been left behind) |
| C116 | the option tables of all commands, `plotgen.cc`, `eval.cc` | the things that the state of a command consists of are given as named views; each callback is shown to change only the views of its own topics and to do so whatever the other views hold; two callbacks on disjoint views commute, and exchanges of neighbours compose to any order (`Order_*`) |
| C117 | `plotgen.cc`, all `plot_*_draw` and `plot_*_autorange`, `scale.cc`, `eval.cc` | a relation between plots whose scales differ at most in the seen ranges, which do not matter once the limits are given; every callback of the preparing table keeps it, every drawing callback gives the same part for related plots and appends it; whole programs by induction over their entries, with masks for what is left out; without limits, the prepared plot of an exchanged program is the same plot because fitting does not depend on the order, and drawing leaves it fitted (`Given_*`) |
| C118 | `data.cc` loaders, all `*_configure`, `expr_to_copy` | descriptions of a column that the loaders cannot tell apart; two runs of an element's option table stay related (equal but for the stored source); the loaders give the same columns for related sources, so preparing and drawing agree; whole programs by induction over their entries. For lines, the source made by (data FILE) and the one made by two columns load alike, and no other option reads or changes it (`Respell_*`) |
| C119 | option tables of all drawing commands and of the plot, `expr_calln_fn` | a shorthand's entry runs the entries it stands for in turn (or is the same entry under another name), so the two runs of the table are equal wherever it stands; what reads as a colour is read by fill as a solid fill; limit-x A B reads exactly what limit-x-min and limit-x-max read, since neither reader looks at the other's field; whole programs by splitting them around the replaced stretch; a single axis is read in two walks that skip what they do not know (`Short_*`) |

## Trusted base

* Coq 8.16.1's kernel (and its VM for `vm_compute`).
* What `Print Assumptions` reports for each theorem: nothing ("Closed under the global
  context"), except for theorems about `R`, which rest on the standard library's axioms
  of the classical reals (`ClassicalDedekindReals.sig_forall_dec`,
  `ClassicalDedekindReals.sig_not_dec`, `FunctionalExtensionality.functional_extensionality_dep`
  and, where `classic` is used, `Classical_Prop.classic`).
* The reading of the C++ source: nothing is extracted from or run against the code.

## Modelled

| files in `src/` | theories |
|---|---|
| `sexpr.cc`, `sexpr_parser.cc` | `Sexpr_*` |
| `sexpr.cc` (expr_clone) | `Clone_*` |
| `return_code.h`, `sexpr_conv.cc`, `sexpr_conv_impl.h`, `sexpr_util.cc`, `sexpr_util_impl.h`, `units.cc` | `Dispatch_*` |
| further theorems of C05, C22, C23, C39, C48, C50 | `Tight_Props` |
| `plist_parser.cc`: messages | `PlistSay_*` |
| absence of undefined behaviour in the elements | `Safe_*` (over `Cmd_Model`, `Style_Model`, `Plot_Model`) |
| creation and release of fontconfig, freetype, harfbuzz and cairo objects | `Release_*` |
| termination and definedness of whole programs | `Ends_*` (over `Axis_Model`, `Eval_Model`) |
| `return_code.cc`, messages of the readers and of `cli.cc` | `Say_*` |
| text of a program to SVG file in binary64, for lines and points | `Whole_*` (composes the other models) |
| `graphics/font_lookup.cc`, fonts of `layer.cc`, `text_shaper.cc`, `text.cc` | `Font_*` |
| `utils/stringutil_impl.h` `formatNumberMetric` | `Metric_*` |
| `graphics/png.cc` | `Png_*` |
| `utils/file.cc` | `Handle_*` |
| `data_impl.h` `data_load_as` | `Load_*` |
| `utils/csv.cc`, `data.cc` (reading CSV) | `Csv_*` |
| `data.cc`, `data.h`, `utils/algo*`, parts of `utils/fileutil.cc` and `utils/stringutil.cc` | `Data_*` |
| `utils/fileutil.cc` (without mv, truncate, cp), reading of `utils/file.cc` | `File_*` |
| `utils/option.h`, `utils/option_impl.h` | `Opt_*` |
| `utils/UTF8.cc` | `Utf8_*` |
| `utils/json.cc` | `Json_*` |
| `utils/geojson.cc`, `data.cc` (reading GeoJSON) | `Geojson_*` |
| `plist_parser.cc`, `eval.cc` (reading the input) | `Plist_*` |
| `scale.cc`, `scale.h` | `Scale_*` |
| `graphics/measure.cc`, `layer.cc`, `typographic_map.cc`, `typographic_reader.cc`, `units.cc`, part of `draw/rectangle.cc` | `Units_*` |
| `utils/CivilTime*`, `utils/ISO8601.cc`, `utils/UnixTime*`, `utils/duration*` | `Time_*` |
| `utils/UnixTime.cc`, `utils/CivilTime.cc` (printing and reading; with gmtime_r, strftime and strptime) | `TimeText_*` |
| `utils/stringutil.cc`, `utils/bufferutil.cc` | `Str_*` |
| `utils/buffer.cc` | `Buffer_*` |
| `graphics/color.cc`, `color_map.cc`, `color_palette.cc`, `color_reader.cc` | `Color_*` |
| `vmath.cc`, `graphics/{geometry,path,layout,intersect,shape_hatch}.cc` | `Geo_*` |
| `graphics/export_svg.cc`, `draw_cmd.cc`, `style.cc`, `style.h` | `Svg_*`, `Dec` |
| `figure/legend.cc`, `figure/legend_item.cc` | `Legend_*` |
| `graphics/text_support.cc`, `graphics/text_backend.cc`, `graphics/text_backend_freetype.cc`, `graphics/text_layout.cc`, `graphics/text_shaper.cc` (font fallback), `draw/text.cc` (drawing), `graphics/draw_cmd.cc` (draw_text) | `Text_*` |
| `format.cc` (all formatters and their configuration; the printf digits are `Dec`) | `Format_*` |
| `utils/exception.*` | `Exc_*` |
| `utils/outputstream.cc` | `Stream_*` |
| `utils/random.cc` (the generator is any sequence of numbers) | `Random_*` |
| `graphics/rasterize.cc`, `graphics/export_image.cc` (calls of cairo; without memory management and PNG encoding) | `Raster_*` |
| `graphics/image.cc` (pixel storage, conversion, clearing) | `Image_*` |
| `sexpr_util.cc` (tables over outcomes), `layer.h`, readers bound to a layer | `Cmd_*`, `Source_*`, `Value_*` |
| `style.cc`, `style_reader.cc`, `marker.cc`, `draw/*.cc` (draw commands), `color_reader.cc`, `typographic_reader.cc` (bound) | `Style_Model` |
| `plot/{lines,points,bars,areas,errorbars,vectors,rectangles,polygons,labels}.cc` | `Plot_*`, `Demo` |
| `plot/{axis,grid}.cc`, `figure/axis*.cc` | `Axis_*` |
| `plot/plotgen.cc`, `figure/legend.cc` (command), `eval.cc`, `cli.cc`, `api.cc`, `utils/flagparser.cc` | `Eval_*`, `Page_Props` |
| `graphics/font_lookup.cc` (font_get_glyph_path) | `Glyph_*` |

## Not modelled

Outside /repo: the insides of the third-party libraries (cairo, freetype, harfbuzz, fontconfig, fribidi,
libpng), of the C and C++ libraries and of the operating system; what the code asks of them appears as
parameters of the models or as small models of their documented behaviour (`strtod`, `printf`, `strftime`,
`std::sort`, `open`/`read`/`write`/`dup`, libpng's row interface).

In general: failure of memory allocation, concurrency (the tool has one thread), performance, and the
rounding of `double` where a theorem says that it uses exact numbers.

Code of /repo that has no model, and no caller in the tool: `WallClock` and `MonotonicClock`
(`utils/wallclock.cc`), `StringUtil::toStringV` and the overloads of `toString` but that for `double`
(`utils/stringutil.cc:23-91`; all but the strings are `std::to_string`), `FileUtil::mv`, `truncate` (one system
call each) and `cp` (always raises "not implemented"), the overloads of `convert_unit` that do nothing
(`graphics/measure.cc:148-158`), `sort_ccw` and the stream operators of vectors (`vmath.cc:198-214`),
`find_ptr` and `find_maybe` (`utils/algo_impl.h:27-60`).

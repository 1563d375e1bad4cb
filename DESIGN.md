# Formal model of ass-rs in Rocq (Coq 8.16.1)

## Trusted base

* Coq's kernel (the build is also re-checked by `coqchk`).
* Axioms: see "Print Assumptions" at the end of this file.  The aim is
  "Closed under the global context" for every property theorem.
* The reading of the Rust code: nothing in `/repo` is executed.  Every
  definition of the model cites the file and lines it models.

## Conventions of the model

* `str` is `list N`, the list of Unicode scalar values of a Rust `&str`.
  `blen` is its UTF-8 length.  Byte offsets are `nat`; slicing at a byte
  offset (`cut`) is a partial function that returns `None` when Rust would
  panic (not on a character boundary, or out of range).
* `char::is_whitespace` (used by `trim`) is the Unicode `White_Space` list.
* Byte arrays are `list N` (with a `< 256` hypothesis where needed).
* `u32`/`u8`/`i32` values are `N`/`Z`; every arithmetic operation whose
  overflow can matter is written out.  In a debug build overflow panics, in a
  release build it wraps: the model returns an explicit `None`/`Panic`
  outcome, and the theorems say exactly when it cannot happen.
* `&mut self` methods return the new value.  Loops are structural recursion,
  folds, or fuelled recursion where exhaustion is a distinguished outcome
  that a theorem excludes.
* A property that the faithful model violates is split into a guarded or
  exact positive theorem, whose guard is part of the English statement in
  `properties.jsonl`, and a theorem with the suffix `_refuted` that exhibits
  a concrete counterexample to the statement without the guard.  These are
  findings; the manifest's note names what is refuted.

## File layout (rocq/theories)

* `Base.v` – strings, UTF-8 lengths, trimming, splitting, numbers.
* `XxxModel.v` – executable model of one area, with citations.
* `XxxSpec.v` – independent specification vocabulary for that area.
* `XxxProofs.v` – lemmas.
* `XxxProps.v` – only the property theorems (`exact lemma`), examples that
  meet their hypotheses, and `Print Assumptions`.

## Plan per property

| id | what is modelled | how it is proved |
|----|------------------|------------------|
| C01, C02 | `utils/time.rs` both functions, u32 arithmetic | decimal print/parse lemma, division algebra; refutation for overflow |
| C03 | `parse_bgr_color` | hex print/parse lemma, byte extraction |
| C04, C05 | `uuencode_data`, `decode_uu_data`, `collect_data_lines` | induction over chunks of 45 and groups of 3 |
| C06-C10 | `bom.rs`, `validate_bom_handling`, `normalization`, truncation | induction on the string |
| C11-C15 | `parser/main`, section and line parsers, writers | progress measure instead of fuel; split/join lemmas |
| C16, C17 | `range_adjust`, `build_modified_source`, `line_calc` | list algebra |
| C18 | `streaming` | induction over chunks |
| C19-C21 | `script/batch.rs`, `types.rs` | fold invariants |
| C22, C23 | `overlap`, `ordering` | sweep-line invariant; stable sort |
| C24-C26 | `tags/parser.rs`, `text_analysis`, `scoring` | induction on the string |
| C27 | `styles/analyzer/dependency.rs` | Kahn loop invariant; refutation |
| C28 | `tokenizer` | progress and coverage invariant |
| C29 | `linting/runner.rs` | induction over rules |
| C30-C36 | `ass-editor/core/document`, `core/history`, `core/position` | refinement to string splicing; op-list invariants |
| C37-C41, C81-C83 | `commands/event_commands` | loops over lines; refutations |
| C42 | `formats/srt/time.rs`, `formats/webvtt/time.rs` | decimal lemmas |
| C43 | `renderer/event_selector.rs`, `time_index.rs` | invariant linking index and scan |
| C44-C47 | dirty regions, caches, atlas, collision | op-list invariants; f32 arithmetic of `FloatModel` |
| C48-C50 | plugin registry, sessions, event channel | op-list invariants over interleaved steps |
| C51-C80 | see `properties.jsonl`; extensions of the areas above | as above |
| C84-C87 | `commands/tag_commands` | induction on the string |
| C88, C89 | `core/builders` | last-write semantics, then the line parser |
| C90-C94 | `commands/style_commands` | first-occurrence lemmas, loop over lines |
| C95-C97 | `commands/script_info_commands`, `core/fluent/script_info.rs` | a section as a list of lines; first-occurrence lemmas |
| C98-C100 | `commands/fonts_graphics_commands`, `core/fluent/media.rs` | the same; shape of encoded lines |
| C101-C104 | `commands/karaoke_commands`, `core/fluent/karaoke*.rs` | syllables and words as relations; parts of a text (as for the tag commands); adjustment relation |
| C105-C110 | `utils/search`, `utils/indexing` | whole words, places and lines of a text; swapped pieces; subsequence |
| C111-C112 | `core/fluent/event_query*`, `core/document/ass_api.rs` readers | filter as a proposition, sorted order as a relation on pairs |
| C113-C115 | `core/fluent/position.rs`, `core/fluent/selection.rs` | text cut in pieces; the lines of a text as a relation |
| C116-C118 | `core/document/{event_edit,event_line,builder_edit,ass_api,section_lines}.rs` | a text cut at the first place of a pattern; last value given for a field |
| C119-C121 | `core/document/{delta_apply,delta_sections,delta_undo,undo_redo,incremental_edit,incremental_fast,incremental_parse}.rs`, `core/incremental/*`, `commands/delta_commands/*` | a text as a prefix and blocks, each a header and a body free of header text; a delta as the blocks kept, rewritten and added |

The status of each is in `MANIFEST.json`, with what is missing or false.

## What is modelled

Everything named here is modelled function by function, with the lines cited
at each definition.

| model | code |
|-------|------|
| `TimeModel`, `ColorModel`, `Utf8Model`, `UuModel` | `ass-core/utils/{time,color,uu}.rs`, `utils/utf8`, encoding validation |
| `ParseModel` | `ass-core/parser/main`, `parser/sections/{script_info,styles,events}`, `parser/binary_data`, `parser/position_tracker` |
| `IncrModel` | `ass-core/parser/incremental`, `parser/script/{incremental,partial}.rs`, `parser/streaming/source.rs` |
| `StreamModel` | `ass-core/parser/streaming` (parser, result, processor, state, delta) |
| `ScriptModel` | `ass-core/parser/script/{auto,update,mutate,batch,tracking,types,lookup}.rs` |
| `TokenModel` | `ass-core/tokenizer`, with and without the feature `simd` |
| `TagModel`, `EventsModel` | `ass-core/analysis/events` |
| `StyleModel` | `ass-core/analysis/styles` |
| `LintModel` | `ass-core/analysis/linting`, `analysis/{construction,queries}.rs` |
| `PluginModel` | `ass-core/plugin/registry.rs` |
| `HandlerModel` | `ass-core/plugin/tags/**` (all 47 built-in tag handlers), `ass-core/plugin/sections/aegisub/processors.rs`, `ass-editor/extensions/registry_integration/builtins.rs` (the order and early return of the registration; the message text around the group name is not kept) |
| `ExtModel` | `ass-editor/extensions/{manager,manager_access,manager_lifecycle,manager_loading,context,command}.rs`, the `initialize` methods of the two built-in extensions; extensions are values of any type with any methods, written as scripts of context calls; each critical section is one step of a thread; the current document of a context is part of what a method computes; error texts are kinds |
| `SyncModel` | `ass-editor/core/thread_safety/{sync_document,scoped_lock,document_pool}.rs` and, through them, `async_document.rs`; the document is a value of any type, an edit or command any function on it that may fail or panic half way; std's `RwLock` and `Mutex` are exclusive, not reentrant and poisoned by a panic; a waiting writer does not hold up readers; a call that takes and releases its lock is one step; a document pool maps identifiers to shared handles |
| `HighlightModel` | `ass-editor/extensions/builtin/syntax_highlight/{document,events,sections,tags,extension}.rs` and the settings read in `editor_ext.rs`; `char::is_alphanumeric` is an argument, offsets are below `usize::MAX`, the two settings that no code reads are left out |
| `ValidModel` | `ass-editor/utils/validator/*.rs` and its uses in `core/document/validation.rs` (features `std` and `analysis`); what `Script::parse` and `ScriptAnalysis` find is any function of the text and the analysis options, clock readings are arguments, `at_location` and `with_suggestion` and the durations in a result are left out |
| `CompleteModel` | `ass-editor/extensions/builtin/auto_complete/*.rs`: `get_completions` with its context, tables and order, and the `autocomplete.trigger` command; lower-casing, the alphanumeric test and the style names that parsing finds are arguments, `initialize`, `commands` and `config_schema` are left out |
| `RasterModel` | `ass-renderer/src/backends/raster/{mod,span}.rs` (scalar `convert_span`) and `CoverageTile::rasterize` of `backends/coverage/mod.rs`. The code is written once over a record of arithmetic operations and used twice: with binary32 for safety (no panic, sizes) and with rationals for exactness. The rounding error of the binary32 version is not bounded. A tiny-skia path is a list of segments with any bounds that contain its points; `powi(2)` is a product; `sqrt` is an argument, and how close the chords are to a curve is not claimed |
| `TileModel` | text layers of the software backend: `backends/software/text/{mod,prepare}.rs`, the cache use in `text/blur.rs`, `backends/software/cache/*.rs`, `composite_layers` and `render_to_bitmaps` of `backends/software/mod.rs`, `shadow_delta` of `backends/geometry.rs`, `pipeline/shaping/shape.rs` 33-77 and `pipeline/shaping/glyph_renderer.rs` 47-175. The shaper, the font lookup, glyph outlines, transforms, path merging, stroking, rasterising, the making of one blurred tile and the passes of the vector path are functions of a record; theorems hold for every such record. A font file reads the same each time; the context has the pixmap's size, so no resize happens |
| `BlurModel` | `ass-renderer/src/backends/blur.rs`, `apply_gaussian_blur`, over a record of arithmetic operations used with binary32 and with rationals; `exp` is an argument |
| `FrameModel` | `ass-renderer/src/renderer/frame.rs`, with std's `Arc` as a heap of counted cells; each operation is one step |
| `GpuModel` | `ass-renderer/src/backends/gpu/{compositor/{mod,tiles,present},pool,readback,target,layer}.rs`: textures, buffers, tile pool, uniform slots, read-back rows, presenting. wgpu is a parameter: a device with limits, and two functions for what a clear and a draw make of a texture's pixels; a call that breaks a limit is `None`, as is a panic. Shader arithmetic is not modelled; `GpuPlaceSpec` says which pixels and texels a quad has under WebGPU's viewport and nearest sampling |
| `FontModel` | `ass-renderer/src/pipeline/shaping/font_select.rs`; fontdb's query and the glyphs of a face are parameters, a file is readable or not for the whole call |
| `PlayerModel` | `ass-renderer/src/debug/player/{mod,playback,render}.rs`; parser and renderer are parameters, the clock is an argument of each call, printing and saving frames are left out |
| `AnalyzeModel` | `ass-renderer/src/debug/analyzer/{mod,report}.rs` without printing; the flood fill's stack loop has fuel, proved enough |
| `CompareModel` | `ass-renderer/src/debug/visual_comparison/mod.rs` `compare_with_libass` |
| `ShapeModel` | `ass-renderer/src/pipeline/shaping/{shape,glyph_renderer,font_metrics,mod}.rs`; fontdb, ttf-parser, rustybuzz and tiny-skia are parameters (what a face shapes, its boxes and outlines, building and moving a path); font files do not change while a thread runs |
| `LayoutModel` | `ass-renderer/src/layout/{alignment,context,multiline}.rs` and `layout/positioning/{coords,info,mod}.rs`; of the metrics the width and height, of the tags the alignment, position, movement and origin |
| `MatrixModel` | `ass-renderer/src/utils/math.rs` and `pipeline/validation.rs` (without the checkers that accept everything); sine and cosine are parameters, of an error only its presence is kept |
| `MemModel` | `ass-editor/sessions/memory/{config,stats,pool,gc,strategy}.rs` (features `std` and `arena`); an arena is the bytes it reports, what a reset leaves is a parameter, clock readings are arguments |
| `FormatRegModel` | `ass-editor/formats/registry.rs` and the default methods of `formats/traits.rs`; a handler is its name, extensions and an arbitrary value; the order of a map is an argument |
| `SpanModel` | `ass-core/utils/spans.rs`, `utils/utf8/validation/recovery.rs`, limit checks of `utils/errors/resource.rs`; a slice is an address and a length; `from_utf8_lossy` after core's `Utf8Chunks` |
| `DiagModel` | `ass-renderer/src/debug/color_diagnostic.rs` (analysis), `ass-renderer/src/renderer/probing.rs` (which back ends are compiled in and can be created is a parameter), `ass-core/utils/fields.rs` (`validate_ass_name`) |
| `InspectModel` | `ass-renderer/src/debug/inspector/{mod,info}.rs` without printing, the set of distinct colours and the float distance, luminance and CSS text of pixels; a panic of checked arithmetic is explicit |
| `EffectPlugModel` | `ass-renderer/src/plugin/mod.rs`; a plugin is its name, shader text and an arbitrary value; the order of a map is an argument (`plugin/effects/mod.rs` is a stub that does nothing) |
| `IssueModel` | `ass-core/parser/errors/parse_issue/{issue,severity,category}.rs`, `parser/errors/parse_result/result_with_issues.rs`, `tokenizer/state/{issue,level,collector}.rs`; numbers are unbounded, a parse error is an arbitrary value (`From` conversions and `location_string` not modelled) |
| `DocModel` | `ass-editor/core/{document,history,position}`, `commands/text_commands.rs`, `commands/batch_command.rs` |
| `EventCmdModel`, `StyleCmdModel`, `TagCmdModel` | `ass-editor/commands/{event,style,tag}_commands` |
| `InfoCmdModel`, `MediaCmdModel` | `ass-editor/commands/{script_info,fonts_graphics}_commands`, `core/fluent/{script_info,media}.rs` |
| `KaraokeModel` | `ass-editor/commands/karaoke_commands`, `core/fluent/karaoke*.rs` |
| `SearchModel` | `ass-editor/utils/search` (without regular expressions and the result cache, which nothing fills), `ass-editor/utils/indexing`; the Unicode functions are a parameter record |
| `QueryModel` | `core/fluent/event_query*.rs`, `event_ops.rs` (get, all, count), `event_deleter.rs` by query, the readers of `core/document/ass_api.rs`; lower-casing is a parameter; sort_by is a stable sort on precomputed keys, and a key is computed exactly if some comparison must need it |
| `AtModel` | `core/fluent/position.rs`, `core/fluent/selection.rs` with feature rope; ropey's byte_slice panics off character boundaries |
| `LineEditModel` | `core/document/{event_edit,event_line,builder_edit,ass_api,section_lines}.rs`; closures are functions of the event or of the builder; error values are not told apart |
| `ScriptDeltaModel` | `core/document/{delta_apply,delta_sections,delta_undo,undo_redo,incremental_edit,incremental_fast,incremental_parse}.rs`, `core/incremental/*`, `commands/delta_commands/*`; the Debug output of a section is a parameter, any function; error values are not told apart; the history limit is not modelled here (it is in `DocModel`) |
| `SegmentModel` | ass-renderer `pipeline/tag_processor/{mod,parse,types}.rs`, `pipeline/text_segmenter/{mod,apply,split}.rs`, `pipeline/transform/{mod,parse}.rs` (reading only); the nested records of `ProcessedTags` are one function from fields to values; no extension registry |
| `AnimModel` | ass-renderer `pipeline/transform/{mod,parse}.rs` (how far an animation has come, blending) and `pipeline/build/animation.rs`; `sin` and `powf` are parameters, constrained only where a theorem says so; the style of a run is a record of the fields `\t` can change |
| `ShowModel` | ass-renderer `pipeline/build/text/colors.rs` and the karaoke part of `pipeline/build/text/mod.rs`; event times are the numbers the accessors return |
| `WrapModel` | ass-renderer `pipeline/build/wrap.rs`; what the shaper reports, letter spacing and scale are arguments, so the choice of font and size (lines 65-85) is not modelled |
| `PlaceModel` | ass-renderer `pipeline/build/position.rs`, `pipeline/animation.rs`, `pipeline/build/text/position.rs` and the line and wrap parts of `pipeline/build/text/mod.rs`; the size and advance of a shaped run are arguments, drawing runs are left out of a line, and the factor 1.0 of the line spacing is omitted; `event_bounding_box` is not modelled here |
| `RunModel` | ass-renderer `pipeline/build/{run,position,drawing,style,mod}.rs`, `pipeline/build/text/{mod,defaults}.rs`, `renderer/{mod,context}.rs`, the composing functions of `backends/software/mod.rs`; shaping, measuring, further effects, outlines of drawings and pixels are functions in a `platform` record the theorems quantify over; the caches of shaped text and of drawing paths, fonts, frame statistics and the video backends are left out |
| `TrackModel` | ass-renderer `animation/{timing,track,value,state,controller}.rs`; `powf` is an argument |
| `EffectModel` | ass-renderer `pipeline/build/text/effects.rs`, font and spacing in `pipeline/build/text/mod.rs`, and `pipeline/build/drawing.rs` from the bounds on (alignment, shift, stroke, clip, blur); a path's bounds are an argument. It fills in the `pf_effects` of `RunModel` |
| `DrawModel` | ass-renderer `pipeline/drawing/{mod,parse,spline}.rs`: words, commands, splines and the calls made to the path builder (tiny-skia) |
| `BuilderModel` | `ass-editor/core/builders` |
| `FormatModel` | `ass-editor/utils/formats`, `formats/{srt,webvtt}` |
| `SessionModel`, `ChannelModel` | `ass-editor/sessions`, `ass-editor/events` |
| `SelectModel` | `ass-renderer/renderer/{time_index,event_selector}.rs`, `utils/regions.rs` |
| `CacheModel`, `AtlasModel` | `ass-renderer/utils/caches.rs`, `cache/mod.rs` |
| `CollideModel` | `ass-renderer/collision` |
| `PixelModel` | `ass-renderer/backends/coverage/{blend,composite}.rs`, `backends/software` (dirty rectangles), `pipeline/compositing/mod.rs` |
| `FloatModel` | IEEE binary32/binary64 arithmetic as Rust defines it (no signed zero) |

## What is not modelled

The libraries that rasterise paths, shape text and read font files (their
answers are parameters of the models above), the GPU's shader arithmetic
and blending, web back ends;
rope internals (the rope is its character sequence); how an arena lays out
memory (`MemModel` sees only its reported size) and allocation failure; log output, error messages and `Display` texts unless a
property speaks of them; benchmarks, examples and the C and JS bindings;
memory-usage estimates other than those named above; the preemption of threads inside a lock (a call that
holds a lock is one step).  A hash map is a list of entries with distinct
keys, and where its order can be seen the theorems hold for every order.
Regular expressions are hand-written matchers of what the pattern says.
`usize` is unbounded unless the property is about its overflow.

## Print Assumptions

Every theorem in `MANIFEST.json` is followed by a `Print Assumptions` in its
Props file, and each one prints "Closed under the global context".  No axiom
of the standard library is used by any of them.  Loading parts of the standard
library brings the seven opaque constants of `Coq.ssr.ssrunder.Under_rel` into
the environment (a sealed module of ssreflect); no theorem depends on them.
No `Admitted`, `Axiom`, `Parameter`, functor or kernel flag occurs in
`theories`.

## Testing the theorems

`seeded/LOG.jsonl` records wrong programs: each line names a definition, the
edit made to it in a scratch copy, the English claim the edit breaks, the
theorems that no longer prove, and those tightened because they still did.

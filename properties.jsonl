{"id": "C01", "title": "Time text round trip", "statement": "Formatting a centisecond count with format_ass_time and parsing the text with parse_ass_time gives back exactly the same count.", "quantifier": "every u32 centisecond value", "why_tests_cant": "2^32 values times the decimal widths of four fields; the carry boundaries between fields cannot be enumerated by examples.", "anchors": ["crates/ass-core/utils/time.rs:format_ass_time", "crates/ass-core/utils/time.rs:parse_ass_time"]}
{"id": "C02", "title": "Time parsing is total and exact", "statement": "parse_ass_time reads exactly the texts of the form hours:minutes:seconds.fraction whose fields are 32-bit numbers with minutes and seconds below 60, and returns hours*360000+minutes*6000+seconds*100+centiseconds. It never returns anything else; all other texts are rejected, except that a sum above 32 bits panics (exactly then).", "quantifier": "every string", "why_tests_cant": "The language of accepted strings is infinite and the arithmetic is u32; the overflow region is reachable only with unusual hours or fraction fields.", "anchors": ["crates/ass-core/utils/time.rs:parse_ass_time"]}
{"id": "C03", "title": "Colour text means the BGR(A) value it spells", "statement": "Every RGBA quadruple written as &HAABBGGRR (and every RGB triple written as &HBBGGRR, with or without the trailing &) parses with parse_bgr_color to exactly those components. Accepted is exactly a dressed numeral of 6 or 8 hexadecimal digits, with the one addition that a plus sign may stand for the first digit; everything else is rejected and nothing panics.", "quantifier": "all 2^32 colours; every string for rejection", "why_tests_cant": "Byte order and alpha placement mistakes affect only asymmetric values, and the rejection claim ranges over all strings.", "anchors": ["crates/ass-core/utils/color.rs:parse_bgr_color"]}
{"id": "C04", "title": "UU encode then decode is the identity", "statement": "Decoding with decode_uu_data the lines produced by the editor's UU encoder returns exactly the original bytes.", "quantifier": "every byte sequence of every length", "why_tests_cant": "Lengths modulo 45 and modulo 3 and all byte values interact; only finitely many can be tested.", "anchors": ["crates/ass-core/utils/uu.rs:decode_uu_data", "crates/ass-editor/commands/fonts_graphics_commands/encoding.rs:uuencode_data"]}
{"id": "C05", "title": "An embedded font survives being written to and read from a script", "statement": "If the encoder's lines for some bytes are placed under a fontname entry that is the only one of a [Fonts] section and the section is read, the name comes back trimmed and the data lines decode to exactly the original bytes, unless the number of bytes is 1 or 27 modulo 45, or 3 modulo 45 with the third byte from the end below 4. In exactly those cases the last encoded line looks like a comment or a header and the bytes of the last incomplete group of 45 are lost. Reading a section always ends at the end of the text or at a section header.", "quantifier": "every byte sequence of every length", "why_tests_cant": "Whether a data line looks like a comment or a heading depends on the chunk length and on the data, so only some sizes fail.", "anchors": ["crates/ass-core/parser/binary_data/binary_parser.rs:collect_data_lines", "crates/ass-core/utils/uu.rs:decode_uu_data", "crates/ass-editor/commands/fonts_graphics_commands/encoding.rs:uuencode_data"]}
{"id": "C06", "title": "BOM detection and stripping", "statement": "strip_bom removes exactly a leading byte-order mark of a supported encoding and nothing else; detect_bom names the encoding whose mark the data starts with, preferring the longest mark.", "quantifier": "every byte sequence", "why_tests_cant": "Marks are prefixes of one another (UTF-16LE of UTF-32LE), so the answer depends on order over all inputs.", "anchors": ["crates/ass-core/utils/utf8/bom.rs:strip_bom", "crates/ass-core/utils/utf8/bom.rs:detect_bom", "crates/ass-core/utils/errors/encoding/validation.rs:validate_bom_handling"]}
{"id": "C07", "title": "Truncation at a character boundary is the longest valid prefix", "statement": "truncate_at_char_boundary(text, n) returns a prefix of text of at most n bytes that ends on a character boundary, no longer such prefix exists, and the truncated flag is set iff something was removed; it never panics.", "quantifier": "every Unicode string and every byte limit", "why_tests_cant": "Every position of every multi-byte character is a separate case.", "anchors": ["crates/ass-core/utils/utf8/validation.rs:truncate_at_char_boundary"]}
{"id": "C08", "title": "Line-ending normalisation", "statement": "normalize_line_endings leaves no carriage return, changes nothing else, keeps the sequence of lines, and applying it twice equals applying it once.", "quantifier": "every string", "why_tests_cant": "Interleavings of CR, LF and CRLF are unbounded.", "anchors": ["crates/ass-core/utils/utf8/normalization/mod.rs"]}
{"id": "C09", "title": "Whitespace normalisation", "statement": "The output of normalize_whitespace contains no whitespace other than space, tab and newline, has no run of two spaces when collapsing is requested, keeps the sequence of non-whitespace characters, and applying it twice equals applying it once; without collapsing every character keeps its position.", "quantifier": "every string and every flag setting", "why_tests_cant": "Runs of mixed whitespace of any length are unbounded.", "anchors": ["crates/ass-core/utils/utf8/normalization/whitespace.rs:normalize_whitespace", "crates/ass-core/utils/utf8/normalization/mod.rs:collapse_consecutive_spaces"]}
{"id": "C10", "title": "Control-character removal keeps everything else", "statement": "remove_control_chars keeps exactly the characters that are not control characters (except those it documents as kept), in order.", "quantifier": "every string", "why_tests_cant": "Ranges over all code points and all positions.", "anchors": ["crates/ass-core/utils/utf8/normalization/mod.rs:remove_control_chars"]}
{"id": "C11", "title": "Parsing always ends with a script whose spans lie in the source", "statement": "Script::parse terminates on every string, never panics, returns a script, and every span it reports for a field, style, event or embedded file is a piece of the source on character boundaries at the reported byte offsets and column.", "quantifier": "every string and every extension registry", "why_tests_cant": "Termination, progress and slice validity over all inputs is a universally quantified claim.", "anchors": ["crates/ass-core/parser/main/parse.rs", "crates/ass-core/parser/main/section.rs", "crates/ass-core/parser/main/helpers.rs", "crates/ass-core/parser/sections"]}
{"id": "C12", "title": "Reported line numbers are the real line numbers", "statement": "When headers are closed and no blank line stands before a header, the line number and column the parser gives for every section, style, event and media entry are those of the place where it starts: one plus the number of newlines before it. In any text whatever, the line number of an event is never above the real one.", "quantifier": "every string and every reported position", "why_tests_cant": "Blank and comment lines may be placed anywhere in any number.", "anchors": ["crates/ass-core/parser/main/helpers.rs:skip_whitespace_and_comments", "crates/ass-core/parser/main/parse.rs"]}
{"id": "C13", "title": "Event line serialise/parse round trip", "statement": "An event written with to_ass_string and parsed with the default format gives back the same fields, provided no field other than the text contains a comma, newline or outer whitespace.", "quantifier": "every event with fields satisfying the provisos", "why_tests_cant": "Field contents range over all strings, including commas and override blocks in the text.", "anchors": ["crates/ass-core/parser/ast/event", "crates/ass-core/parser/sections/events/parser.rs"]}
{"id": "C14", "title": "Style line serialise/parse round trip", "statement": "A style line whose values hold no comma reads as the values under the names of the format, and a first value with a star as the parent. A style that was read and has no parent, written with to_ass_string and read again, gives exactly the same style, with the default format and with every format that spells the columns it needs.", "quantifier": "every style with fields satisfying the proviso", "why_tests_cant": "Twenty-odd string fields over all strings.", "anchors": ["crates/ass-core/parser/ast/style", "crates/ass-core/parser/sections/styles/parse_line.rs"]}
{"id": "C15", "title": "Text field keeps its commas", "statement": "When the Format line ends with Text, everything after the (n-1)-th comma of an event line becomes the text, whatever it contains.", "quantifier": "every event line and every format with Text last", "why_tests_cant": "Unbounded numbers of commas in the text.", "anchors": ["crates/ass-core/parser/sections/events/event_data.rs", "crates/ass-core/parser/sections/events/static_parser.rs"]}
{"id": "C16", "title": "Incremental span adjustment", "statement": "After an edit, spans entirely before the edit keep their offsets, spans entirely after move by exactly the length difference, and the text they denote is unchanged.", "quantifier": "every source, edit range, replacement and span", "why_tests_cant": "Offsets are arbitrary; boundary equalities (touching spans) are the risky cases.", "anchors": ["crates/ass-core/parser/incremental/range_adjust.rs", "crates/ass-core/parser/streaming/source.rs:build_modified_source"]}
{"id": "C17", "title": "Line number from byte offset", "statement": "calculate_line_number returns one plus the number of newlines before the offset, for every offset on a character boundary.", "quantifier": "every string and offset", "why_tests_cant": "All offsets of all strings.", "anchors": ["crates/ass-core/parser/incremental/line_calc.rs"]}
{"id": "C18", "title": "Streaming is independent of chunk boundaries", "statement": "Feeding the streaming parser some bytes in chunks leaves the same state for every division that cuts between characters and not directly after a carriage return: that of feeding them at once, determined by the complete lines and the rest. Deltas and the final result are always empty, whatever is fed.", "quantifier": "every input and every division into chunks", "why_tests_cant": "The number of divisions is exponential in the input length; multi-byte characters and CRLF pairs may be cut anywhere.", "anchors": ["crates/ass-core/parser/streaming/parser.rs:feed_chunk", "crates/ass-core/parser/streaming/processor", "crates/ass-core/parser/streaming/state"]}
{"id": "C19", "title": "Batch updates are all or nothing", "statement": "atomic_batch_update either applies every requested change or leaves the script exactly as it was.", "quantifier": "every script and every list of operations", "why_tests_cant": "Failure may occur at any position of an arbitrarily long batch.", "anchors": ["crates/ass-core/parser/script/batch.rs:atomic_batch_update"]}
{"id": "C20", "title": "Batch updates touch only what they name", "statement": "batch_update_lines and batch_add_events change exactly the addressed lines, keep the others and their order, and report one outcome per operation.", "quantifier": "every script and batch", "why_tests_cant": "Order-dependence between operations in a batch is unbounded.", "anchors": ["crates/ass-core/parser/script/batch.rs"]}
{"id": "C21", "title": "Change tracking records exactly the enabled changes", "statement": "A change tracker records every change made while enabled, none made while disabled, in order, and clearing empties it.", "quantifier": "every sequence of enable/disable/record/clear calls", "why_tests_cant": "Histories are unbounded.", "anchors": ["crates/ass-core/parser/script/types.rs:ChangeTracker"]}
{"id": "C22", "title": "Overlap detection reports every overlapping pair once", "statement": "On readable times, find_overlapping_events returns each pair once, and exactly the pairs of an event and one that starts later while it is still running; for events that end after they start these are exactly the pairs whose half-open time ranges intersect. An event that ends no later than it starts is paired with every later one. An unreadable time makes the call fail (or panic, if the time does) unless there are fewer than two events.", "quantifier": "every list of events", "why_tests_cant": "Quadratically many pairs over all orderings and ties of the end points.", "anchors": ["crates/ass-core/analysis/events/overlap/detection.rs", "crates/ass-core/analysis/events/overlap/sweep.rs"]}
{"id": "C23", "title": "Sorting events by time is a stable permutation", "statement": "sort_events_by_time returns the same events in non-decreasing start order, keeping the original order among equals.", "quantifier": "every list of events", "why_tests_cant": "All permutations with ties.", "anchors": ["crates/ass-core/analysis/events/utils/ordering.rs"]}
{"id": "C24", "title": "Override-block parsing never panics and its spans lie in the block", "statement": "Every override block divides uniquely into pieces. Parsing reports exactly the tags and diagnostics of the pieces, with spans inside the block and on character boundaries; it panics exactly if some piece has a backslash directly before a multi-byte character.", "quantifier": "every string", "why_tests_cant": "Any character may follow a backslash.", "anchors": ["crates/ass-core/analysis/events/tags/parser.rs:parse_override_block", "crates/ass-core/analysis/events/tags/parser.rs:scan_tag_name"]}
{"id": "C25", "title": "Plain text of an event", "statement": "Every event text divides into segments. TextAnalysis panics exactly when a segment is unsafe (such as an open brace at the very end of the text); otherwise its plain text is the text with the closed override blocks removed and escapes translated, except that a final backslash is dropped, and its tags and diagnostics are those of the blocks in order.", "quantifier": "every string", "why_tests_cant": "Unclosed and nested braces at any offset of any text.", "anchors": ["crates/ass-core/analysis/events/text_analysis/parser.rs"]}
{"id": "C26", "title": "Complexity scores stay within their documented bounds", "statement": "The animation score is the sum of the points of the tags capped at 10, the complexity score is at most 100 and grows with each of its inputs, and the performance bands are the documented ones. The animation score panics exactly if the uncapped sum exceeds 255.", "quantifier": "every list of tags and every text", "why_tests_cant": "Sums over arbitrarily many tags in a u8.", "anchors": ["crates/ass-core/analysis/events/scoring/calculators.rs"]}
{"id": "C27", "title": "Style inheritance is resolved when acyclic", "statement": "A cycle in the parent relation is reported iff one exists; undefined parents and duplicate names are reported exactly. Resolving a style gives its own readable fields, adjusted to the resolution, and never a value of its parent: removing all parents changes no resolved style.", "quantifier": "every finite parent relation", "why_tests_cant": "All acyclic and cyclic graphs.", "anchors": ["crates/ass-core/analysis/styles/analyzer/dependency.rs", "crates/ass-core/analysis/styles/analyzer/analysis.rs"]}
{"id": "C28", "title": "Tokenising succeeds and covers the input", "statement": "Tokenising any text terminates without panic, every step advances, token spans are in order and within the source, and no text is lost except the skipped whitespace. It fails exactly if there are more than 50 tokens or the text ends in a carriage return that is a token.", "quantifier": "every string", "why_tests_cant": "Context-dependent lexing over all strings.", "anchors": ["crates/ass-core/tokenizer/next_token.rs", "crates/ass-core/tokenizer/scanner"]}
{"id": "C29", "title": "Lint results obey the configuration", "statement": "The linter reports only issues of enabled rules at or above the minimum severity, in rule order, and never more than max_issues when it is positive.", "quantifier": "every configuration and every list of rules and their findings", "why_tests_cant": "All subsets of rules and all limits.", "anchors": ["crates/ass-core/analysis/linting/runner.rs", "crates/ass-core/analysis/linting/config.rs"]}
{"id": "C30", "title": "Edits behave like string splicing", "statement": "On every document reached by editing, insert, delete and replace at character boundaries in range succeed and give the old text with that byte range replaced and nothing else changed; out of range they are refused and change nothing; nothing panics. A replace whose start lies inside a character is refused after its deletion may already have happened (refuted).", "quantifier": "every document reached by any sequence of edits, every range and text", "why_tests_cant": "All offsets of all texts.", "anchors": ["crates/ass-editor/core/document/editing_raw.rs", "crates/ass-editor/core/document/editing.rs"]}
{"id": "C31", "title": "Undo restores the text before the edit", "statement": "For every sequence of insertions, deletions, same-length replacements, undos and redos at character boundaries on a fresh document, the text is that of an editor keeping texts before and after: undo gives back exactly the text before the edit, and a redo after it exactly the edited text. While no more actions are made than the history holds, none of them is refused. Undoing another replacement puts the old text over as many bytes of the new one and leaves the rest of it.", "quantifier": "every document, edit and sequence of edits", "why_tests_cant": "Histories of edits are unbounded and the byte lengths of old and new text vary independently.", "anchors": ["crates/ass-editor/core/document/undo_redo.rs", "crates/ass-editor/core/document/editing.rs", "crates/ass-editor/core/history/stack_impl.rs"]}
{"id": "C32", "title": "How undo and redo follow each other", "statement": "Undoing and redoing follow, for every sequence of edits, undos and redos at character boundaries, an editor in which any number of undos step back one edit each and a redo brings back the text that was undone last and forgets the other undone texts. So an undo followed by a redo is the identity, and one redo follows a run of undos, not more.", "quantifier": "every edit history and k", "why_tests_cant": "Unbounded histories.", "anchors": ["crates/ass-editor/core/document/undo_redo.rs", "crates/ass-editor/core/history/manager.rs"]}
{"id": "C33", "title": "Undo history stays within its limits", "statement": "The undo stack never holds more than the configured number of entries and the accounted memory equals the sum over the held entries and respects the limit.", "quantifier": "every sequence of push/undo/redo/clear operations", "why_tests_cant": "Unbounded operation sequences.", "anchors": ["crates/ass-editor/core/history/stack_impl.rs"]}
{"id": "C34", "title": "A new edit discards the redo branch", "statement": "After a new edit, redo is not possible; redoing does not itself lose the remaining redo entries.", "quantifier": "every history", "why_tests_cant": "Unbounded histories.", "anchors": ["crates/ass-editor/core/history/stack_impl.rs:push", "crates/ass-editor/core/document/undo_redo.rs:redo"]}
{"id": "C35", "title": "Position/line-column conversion is faithful", "statement": "position_to_line_column gives the number of newlines before the position plus one and the character distance to the line start plus one, for every position on a character boundary, and PositionBuilder given line and column inverts it. The builder's end of line is before the newline only: it keeps a carriage return and may leave the character grid (refuted).", "quantifier": "every document and every in-range position", "why_tests_cant": "All offsets in all texts, including multi-byte characters and CRLF.", "anchors": ["crates/ass-editor/core/document/text_access.rs", "crates/ass-editor/core/position/builder.rs"]}
{"id": "C36", "title": "Range algebra", "statement": "Ranges behave as sets of offsets: contains is membership, the intersection holds exactly the common offsets, the union is the least range that holds both, non-empty ranges overlap iff they share an offset, and construction orders the ends. Empty ranges inside another count as overlapping (refuted).", "quantifier": "all ranges and positions", "why_tests_cant": "All orderings of four end points.", "anchors": ["crates/ass-editor/core/position/range.rs"]}
{"id": "C37", "title": "Batch commands are atomic", "statement": "A batch command has exactly the effect of running its commands one after the other up to the first that fails; on failure the effects of the earlier ones stay, so it is not atomic (refuted).", "quantifier": "every batch and document", "why_tests_cant": "Failure at any index.", "anchors": ["crates/ass-editor/commands/batch_command.rs"]}
{"id": "C38", "title": "Toggling event types affects exactly the selected events", "statement": "ToggleEventType on one selected event flips Dialogue and Comment on it, leaves all other text as it is, reports the changed range and, applied twice, restores the document; it panics when a Dialogue line turned to a Comment is followed by a line that starts with a character beyond ASCII. For every selection, of any number of events, the command ends.", "quantifier": "every document and selection", "why_tests_cant": "Any number of events.", "anchors": ["crates/ass-editor/commands/event_commands/toggle.rs"]}
{"id": "C39", "title": "Shifting times changes only times", "statement": "TimingAdjust changes the start and end of exactly the selected events by the offsets, clamped, and leaves the remaining fields and other lines byte for byte as they were: for every selection of events whose changed line has the length it had or resumes inside itself, and for every single event. Events must have their commas only inside parentheses of the text and an ASCII effect.", "quantifier": "every document, selection and offsets", "why_tests_cant": "All texts containing commas, spaces and multi-byte characters.", "anchors": ["crates/ass-editor/commands/event_commands/timing.rs", "crates/ass-editor/commands/event_commands/helpers.rs:parse_event_line"]}
{"id": "C40", "title": "Merging events keeps both texts and all other events", "statement": "MergeEvents puts one event in the place of two, with the fields of the first, the end of the second and both texts with the separator between, and leaves every other line as it was when they are neighbours. Everything between two events that are not neighbours is taken out. It is refused, without a change, when the second line is the last and has no newline. The events must be clean: commas in the text only inside parentheses.", "quantifier": "every document and pair of indices", "why_tests_cant": "All pairs and texts.", "anchors": ["crates/ass-editor/commands/event_commands/merge.rs"]}
{"id": "C41", "title": "Deleting an event removes exactly that line", "statement": "DeleteEvent removes exactly the line of the indexed event, counted over all lines of the events section, and with an index past the last event changes nothing. A last line without newline that ends in a multi-byte character makes it panic (refuted).", "quantifier": "every document of newline-ended lines, and every index", "why_tests_cant": "Last-line and multi-byte cases at every position.", "anchors": ["crates/ass-editor/commands/event_commands/delete.rs"]}
{"id": "C42", "title": "SRT/WebVTT time conversion round trip", "statement": "Converting an ASS time to SRT or WebVTT and back gives the same time, for both writers and both readers; a time with milliseconds is cut to centiseconds. A fraction of many digits makes the export panic (refuted).", "quantifier": "every time whose fields fit in 32 bits, with two-digit minutes and seconds and centisecond resolution", "why_tests_cant": "All hours/minutes/seconds/centiseconds.", "anchors": ["crates/ass-editor/formats/srt/time.rs", "crates/ass-editor/formats/webvtt/time.rs"]}
{"id": "C43", "title": "Active-event selection equals a linear scan", "statement": "For every history of queries with times below 2^31 on event lists that do not change at the same address and length, EventSelector returns exactly the events whose half-open time range contains the query time, in script order, with the events that came and went since the query before, and it never panics.", "quantifier": "every event list and every sequence of query times", "why_tests_cant": "Index staleness depends on the history of calls.", "anchors": ["crates/ass-renderer/src/renderer/event_selector.rs", "crates/ass-renderer/src/renderer/time_index.rs"]}
{"id": "C44", "title": "Dirty regions cover what changed", "statement": "After recording dirty regions every recorded pixel is covered by the stored regions, and merging does not lose area.", "quantifier": "every sequence of regions", "why_tests_cant": "Merging order and overlaps are unbounded.", "anchors": ["crates/ass-renderer/src/renderer/event_selector.rs:add_dirty_region", "crates/ass-renderer/src/utils/regions.rs"]}
{"id": "C45", "title": "Caches never exceed their capacity and return what was stored", "statement": "Glyph and render caches never hold more than their limit, a lookup returns the value last stored under that key or nothing, and never another key's value.", "quantifier": "every sequence of cache operations", "why_tests_cant": "Unbounded operation sequences.", "anchors": ["crates/ass-renderer/src/utils/caches.rs:GlyphCache", "crates/ass-renderer/src/cache/mod.rs"]}
{"id": "C46", "title": "Atlas allocations are disjoint and in bounds", "statement": "Rectangles handed out by the texture atlas never overlap, have the size asked for, and lie inside the atlas if no request is wider than it; a wider one is granted past the right edge (refuted). Writing changes exactly the pixels of its rectangle.", "quantifier": "every sequence of allocation requests", "why_tests_cant": "Unbounded sequences of sizes.", "anchors": ["crates/ass-renderer/src/utils/caches.rs:TextureAtlas"]}
{"id": "C47", "title": "Where collision resolution places boxes", "statement": "On the 1/64 pixel grid up to 16384 pixels, for every sequence of requests, each event is put at the nearest free place in its direction and then clamped to the screen: it keeps clear of all earlier ones of its layer by the margin, or sits at the very top or bottom. A box that is free and on screen stays where it is; nothing is ever placed off screen above or below, and nothing panics.", "quantifier": "every sequence of boxes", "why_tests_cant": "Unbounded sequences and sizes.", "anchors": ["crates/ass-renderer/src/collision/resolver.rs"]}
{"id": "C48", "title": "Plugin registration is unique and lookups are consistent", "statement": "Registering a tag handler or section processor under a taken name is refused and leaves the registry unchanged; otherwise lookups find exactly it.", "quantifier": "every sequence of registrations", "why_tests_cant": "Unbounded sequences.", "anchors": ["crates/ass-core/plugin/registry.rs"]}
{"id": "C49", "title": "Session limits and lookup", "statement": "For every sequence of calls the session manager never holds more sessions than allowed, every look-up gives the document last put under the name, the active session is one that exists, and switching leaves documents as they are; calls about other names never change a document. Cleanup on its own drops exactly the sessions not used for longer than the age and reports their number.", "quantifier": "every sequence of session operations", "why_tests_cant": "Unbounded sequences.", "anchors": ["crates/ass-editor/sessions"]}
{"id": "C50", "title": "Event channel delivers matching events exactly once per handler", "statement": "For every history the handlers stand in rank order, at most as many as allowed, under names of their own. A dispatched event goes to the handlers whose filter accepts it, in that order, up to the first that fails; while none fails every handler gets exactly the events it is due, each once. A batch stops at the first event that fails; with a receiver asynchronous events come out in the order put in.", "quantifier": "every sequence of dispatches and handlers", "why_tests_cant": "Unbounded sequences.", "anchors": ["crates/ass-editor/events"]}
{"id": "C51", "title": "Which of several embedded fonts can be read back", "statement": "Of two fonts written one after the other in a [Fonts] section, whatever their names and data that survive on their own, the reader gives exactly the first, with its data unchanged; the second is lost.", "quantifier": "every document and every pair of fonts", "why_tests_cant": "Whether an entry is delimited depends on the text that happens to follow it.", "anchors": ["crates/ass-editor/commands/fonts_graphics_commands/add.rs:AddFontCommand", "crates/ass-core/parser/binary_data/binary_parser.rs"]}
{"id": "C52", "title": "Line trimming", "statement": "trim_lines writes every line of the text back without its outer whitespace, in order, with single newlines between them, and drops an empty last line. Applied to its own output it removes one newline from the end if there is one, and otherwise changes nothing; so it is not stable on texts that end in blank lines.", "quantifier": "every string", "why_tests_cant": "Depends on the number of trailing blank lines, which is unbounded.", "anchors": ["crates/ass-core/utils/utf8/normalization/whitespace.rs:trim_lines"]}
{"id": "C53", "title": "Content check finds the first bad character", "statement": "validate_ass_text_content reports exactly the byte offset of the first character that is a control character other than tab, LF and CR; it accepts every text without such characters, and in particular every output of remove_control_chars.", "quantifier": "every string", "why_tests_cant": "Ranges over all code points at all byte offsets.", "anchors": ["crates/ass-core/utils/errors/encoding/validation.rs:validate_ass_text_content", "crates/ass-core/utils/utf8/validation/validate.rs:is_valid_ass_text"]}
{"id": "C54", "title": "Commands run by execute_command can be undone", "statement": "After execute_command of an insertion succeeds and is recorded, undo restores the text before it. Deletions and replacements run by execute_command are not restored (refuted).", "quantifier": "every document, history and insertion", "why_tests_cant": "Ranges over all texts, positions and command kinds.", "anchors": ["crates/ass-editor/core/document/validation.rs:execute_command", "crates/ass-editor/core/document/undo_redo.rs:undo"]}
{"id": "C55", "title": "The parse result is the line-by-line reading of the source", "statement": "When section headers are closed on their line, the sections of a parsed script are, in order, the readings of the known sections of the source taken line by line; version and formats are those of the last declarations; an extension registry cannot change sections, formats or version.", "quantifier": "every string below the size cap with closed headers, every registry", "why_tests_cant": "The claim relates arbitrary inputs to an independent specification of the format.", "anchors": ["crates/ass-core/parser/main/parse.rs", "crates/ass-core/parser/sections", "crates/ass-core/parser/script/parsing.rs"]}
{"id": "C56", "title": "Whole-script serialise/parse round trip", "statement": "A script whose fields are expressible in the format is recovered, up to spans, by parsing what to_ass_string wrote: the same sections, version and formats. A text that parses to such a script (one spelled format per kind, no style parent, closed headers) is read, written and read again with the same result.", "quantifier": "every expressible script and every parsed script", "why_tests_cant": "Ranges over all scripts: any number of sections, formats, events and field contents.", "anchors": ["crates/ass-core/parser/script/serialization.rs", "crates/ass-core/parser/ast/section", "crates/ass-core/parser/main/parse.rs"]}
{"id": "C57", "title": "Difference of two scripts", "statement": "calculate_delta of an old and a new script, read as instructions (drop the removed indices, replace the modified ones, append the added sections) turns the old script's sections into the new script's sections up to spans and order; a section is reported as modified only if its contents differ.", "quantifier": "every pair of scripts in which no section type is repeated (repetition is refuted)", "why_tests_cant": "All pairs of section lists; the risky cases are reorderings and repeated section types.", "anchors": ["crates/ass-core/parser/script/delta.rs:calculate_delta", "crates/ass-core/parser/script/delta_eq.rs"]}
{"id": "C58", "title": "Incremental parsing agrees with parsing afresh", "statement": "For texts of one block per section type and edits that keep the blocks' types and whose changed blocks overlap the edit, parse_incremental gives the same sections, up to offsets, as parsing the edited text from scratch. The sections it takes as affected are exactly those that overlap the edit, and it never panics on any script and edit.", "quantifier": "every text made of one block per section type, every edit whose changed blocks are reported as affected", "why_tests_cant": "All texts, all edits; an edit may land on any boundary.", "anchors": ["crates/ass-core/parser/script/incremental.rs:parse_incremental", "crates/ass-core/parser/script/partial.rs", "crates/ass-core/parser/incremental/"]}
{"id": "C59", "title": "Section boundary search finds the enclosing headers", "statement": "Partial reparsing takes a section to end at the start of the line holding the first section header after the hint, or at the end of the text when there is none, and to start at the line holding the last such header before the hint within the search window, if the window starts on a character boundary; otherwise it panics (refuted).", "quantifier": "every text, every hint on a character boundary, every section type", "why_tests_cant": "Any mix of headers at any offset, including headers of several types whose order decides the answer.", "anchors": ["crates/ass-core/parser/incremental/section_bounds.rs:find_section_end", "crates/ass-core/parser/incremental/section_bounds.rs:find_section_header_start"]}
{"id": "C60", "title": "Line breaks of an event", "statement": "TextWithLineBreaks turns \\N, \\n and \\h into line breaks and no-break spaces, records each at its byte offset with its kind and nothing else, and keeps all other text; outside blocks it agrees with the text analysis.", "quantifier": "every text, with and without drawing mode", "why_tests_cant": "offsets depend on everything before them, for texts of any length and with any multi-byte characters", "anchors": ["crates/ass-core/analysis/events/line_breaks.rs:TextWithLineBreaks::from_text", "crates/ass-core/analysis/events/line_breaks.rs:break_type_at"]}
{"id": "C61", "title": "Tag handlers of plugins do not hide tags", "statement": "Parsing an override block with any extension registry reports the same tags at the same places as without, and the same empty-override diagnostics; only a failed handler adds a diagnostic.", "quantifier": "every override block and every registry", "why_tests_cant": "a handler may answer differently for each name and argument", "anchors": ["crates/ass-core/analysis/events/tags/registry_parser.rs"]}
{"id": "C62", "title": "Relations of events in time", "statement": "timing_relation says Identical, NoOverlap, FullOverlap or PartialOverlap exactly when the two time ranges have the same instants, none in common, one contains the other, or neither; it is symmetric; find_events_in_range lists in order exactly the events with an instant in the non-empty range. For an empty range it may list events (refuted).", "quantifier": "every pair of analysed events, every range", "why_tests_cant": "the classification has to be right for all relative positions of four end points", "anchors": ["crates/ass-core/analysis/events/dialogue_info/accessors.rs:timing_relation", "crates/ass-core/analysis/events/dialogue_info/accessors.rs:overlaps_time_range", "crates/ass-core/analysis/events/utils/ordering.rs:find_events_in_range"]}
{"id": "C63", "title": "Durations of events", "statement": "An analysed event's duration is positive and never underflows; the total duration is the distance from the earliest start to the latest end; the average is the floor of the mean duration. Panics are exactly: milliseconds above 32 bits, and a sum of durations above 32 bits for the average.", "quantifier": "every list of analysed events", "why_tests_cant": "extreme times are needed to overflow", "anchors": ["crates/ass-core/analysis/events/utils/duration.rs", "crates/ass-core/analysis/events/dialogue_info/accessors.rs:duration_ms"]}
{"id": "C64", "title": "The vector routines agree with their scalar meaning", "statement": "Scanning for delimiters returns the byte offset of the first of : , { } [ ] LF CR, whatever the length of the text and whichever build is used; parsing up to eight hexadecimal digits returns their value. Also accepted, and only that, is a plus sign before at most 7 digits (at most 2 with simd).", "quantifier": "every string, both builds (with and without simd)", "why_tests_cant": "Chunk boundaries, remainders and multi-byte characters interact at every length and offset.", "anchors": ["crates/ass-core/tokenizer/simd/delimiters.rs", "crates/ass-core/tokenizer/simd/hex.rs"]}
{"id": "C65", "title": "UTF-8 validation accepts exactly UTF-8", "statement": "Validating bytes succeeds iff they are the encoding of a text, in both builds. Without simd an error names the length of the longest valid beginning; with simd it is relative to the last partial chunk (refuted).", "quantifier": "every byte string, both builds", "why_tests_cant": "The fast path decides per 16-byte chunk; all splits of multi-byte characters matter.", "anchors": ["crates/ass-core/tokenizer/simd/utf8.rs"]}
{"id": "C66", "title": "Tokens are those of the lexical grammar", "statement": "The token sequence is determined by the text: section headers, override blocks up to the matching brace, comments, separators, line ends, values and texts of maximal length, with kinds decided by their characters; a line Key: v1,v2,... yields the key, a colon and the values with commas between them.", "quantifier": "every string, both builds", "why_tests_cant": "The grammar is context dependent and unbounded; only the whole language settles it.", "anchors": ["crates/ass-core/tokenizer/next_token.rs", "crates/ass-core/tokenizer/scanner"]}
{"id": "C67", "title": "Token positions and build independence", "statement": "Without the simd feature each token carries the line and column at which it starts. With it the lines are exact in texts where every carriage return is followed by a line feed, and the kinds and texts of the tokens are the same as without it in every text without a semicolon.", "quantifier": "every string, both builds", "why_tests_cant": "Line ends of three kinds, multi-byte characters and skipped blanks combine freely.", "anchors": ["crates/ass-core/tokenizer/scanner/navigator.rs", "crates/ass-core/tokenizer/scanner/text_scanner.rs"]}
{"id": "C68", "title": "Numbers in text read as the nearest float", "statement": "A decimal numeral in a style, a tag or a header reads as the representable value nearest to the number it spells, with ties going to the even one; a numeral too large reads as infinity; other text is refused. Arithmetic results round the same way and casts to integers cut off towards zero and clamp.", "quantifier": "every text and every format; every rational value", "why_tests_cant": "There are infinitely many numerals, and halfway cases and overflows sit between any two test values.", "anchors": ["crates/ass-core/analysis/styles/resolved_style/parsing.rs:parse_font_size", "crates/ass-core/analysis/styles/resolved_style/scaling.rs:apply_resolution_scaling"]}
{"id": "C69", "title": "A resolved style has the values its fields spell", "statement": "A style resolves exactly when each field spells a value of its kind and range, and then holds those values, with the documented defaults; resolved under a parent, the fields that are absent or hold the default take the parent's values; scaling multiplies sizes and margins by the ratio of the resolutions and nothing else; the complexity of a style is bounded. NaN counts as a size, and a child cannot override its parent with a default value (refuted).", "quantifier": "every style, every parent and every scale", "why_tests_cant": "Twenty-three free-text fields with their own grammars and bounds.", "anchors": ["crates/ass-core/analysis/styles/resolved_style/from_style.rs", "crates/ass-core/analysis/styles/resolved_style/inheritance.rs", "crates/ass-core/analysis/styles/resolved_style/scaling.rs"]}
{"id": "C70", "title": "Each lint rule reports exactly what it documents", "statement": "On a script whose texts and times do not crash the analysis, the overlap, duration, colour, missing-style, tag, performance, encoding and accessibility rules report exactly the findings specified for them: every pair of overlapping lines, every line that ends no later than it starts, every malformed colour of a style or an override tag, every line naming a style that is not defined readably, every tag diagnostic, every expensive line, every control or replacement character, and every line whose whole seconds are too few or that is read too fast, in the first events section. The departures from the documentation (crashing texts, almost five seconds called short, unreadable styles, later sections) are refuted.", "quantifier": "every script", "why_tests_cant": "Reports must be neither missing nor spurious for every script; tests fix a few scripts.", "anchors": ["crates/ass-core/analysis/linting/rules", "crates/ass-core/analysis/linting/mod.rs:lint_script"]}
{"id": "C71", "title": "The performance summary counts and scores the script", "statement": "The summary gives the number of lines, the number of overlapping pairs, of heavily animated lines and of styles with large fonts; its score is 100 less fixed points for each threshold passed, so it stays between 50 and 100, and the recommendation names the first excess.", "quantifier": "every script that can be analysed", "why_tests_cant": "Counts and thresholds range over all scripts.", "anchors": ["crates/ass-core/analysis/mod.rs:ScriptAnalysis::performance_summary", "crates/ass-core/analysis/mod.rs:PerformanceSummary"]}
{"id": "C72", "title": "Blending arithmetic is exact to rounding on every build", "statement": "Drawing a colour through a coverage value onto a pixel never overflows or wraps, comes within two levels of the ideal over operator in every channel, leaves the pixel alone at zero coverage or alpha, replaces it at full coverage and alpha, keeps premultiplied pixels premultiplied and never lowers alpha; the SIMD and the scalar build give the same bytes.", "quantifier": "every colour, coverage, destination pixel and row", "why_tests_cant": "The byte values, row lengths and their alignment to four-pixel groups are far too many to enumerate; a test compares a few pixels on one build.", "anchors": ["crates/ass-renderer/src/backends/coverage/blend.rs:mul255", "crates/ass-renderer/src/backends/coverage/blend.rs:blend_row"]}
{"id": "C73", "title": "Compositing a bitmap changes exactly the pixels it covers", "statement": "composite_bitmap never panics for a bitmap in reach of the frame; every frame pixel under the bitmap is blended with the bitmap pixel at that offset and every other pixel keeps its bytes, whatever part of the bitmap lies off screen.", "quantifier": "every frame, every coverage or RGBA bitmap, every position", "why_tests_cant": "Clipping has to be right for all positions and sizes, including negative and partly visible ones.", "anchors": ["crates/ass-renderer/src/backends/coverage/composite.rs:composite_bitmap"]}
{"id": "C74", "title": "Bitmaps emitted for layers redraw the layers", "statement": "crop_pixmap returns the smallest rectangle around the visible pixels with those pixels unchanged (nothing for an empty picture); drawing it on an empty frame gives the picture back; rendering a list of layers to bitmaps yields for each layer its own bitmaps and nothing of other layers.", "quantifier": "every picture, hint and list of layers", "why_tests_cant": "Depends on every picture and on what earlier layers left in the shared scratch buffer.", "anchors": ["crates/ass-renderer/src/backends/software/dirty.rs:crop_pixmap", "crates/ass-renderer/src/backends/software/dirty.rs:clear_region", "crates/ass-renderer/src/backends/software/mod.rs:render_to_bitmaps"]}
{"id": "C75", "title": "alpha_blend mixes within one level", "statement": "alpha_blend returns the destination for a transparent source, the source for an opaque one, and otherwise every channel within one level of the exact mix.", "quantifier": "every source and destination colour", "why_tests_cant": "2^64 pairs of colours.", "anchors": ["crates/ass-renderer/src/pipeline/compositing/mod.rs:alpha_blend"]}
{"id": "C76", "title": "Batches of subtitles, free places and shared areas", "statement": "SmartCollisionResolver::process_events treats events from the highest priority down (ties in the order given), leaves those at or above the threshold where they are and places the others as find_position does; find_free_position returns the first of its candidate places that collides with nothing; overlap_area is positive exactly when two boxes overlap. Priority i32::MIN panics, and a free place may lie outside the bounds given (refuted).", "quantifier": "every batch of events, every set of boxes on the 1/64 pixel grid", "why_tests_cant": "Any number of boxes in any arrangement.", "anchors": ["crates/ass-renderer/src/collision/resolver.rs:process_events", "crates/ass-renderer/src/collision/resolver.rs:find_free_position", "crates/ass-renderer/src/collision/mod.rs:overlap_area"]}
{"id": "C77", "title": "SRT files survive import and export", "statement": "Importing an SRT file (FormatConverter or the SRT format) gives a script whose dialogues carry exactly the file's cues: times to the centisecond, text lines joined by \\N, b/i/u (and s for the SRT format) tags as override tags; exporting that script gives the same file, and any script whose dialogues say those cues is written as that file.", "quantifier": "every list of cues with any times in range, any number of lines and any text that uses none of the characters < { } \\ other than in the tags", "why_tests_cant": "Unbounded files and texts.", "anchors": ["crates/ass-editor/utils/formats/import_srt.rs", "crates/ass-editor/utils/formats/export_srt.rs", "crates/ass-editor/formats/srt/import.rs", "crates/ass-editor/formats/srt/export.rs", "crates/ass-editor/formats/srt/styling.rs"]}
{"id": "C78", "title": "WebVTT files survive import and export", "statement": "Importing a WebVTT file (FormatConverter or the WebVTT format), with or without cue identifiers, gives a script whose dialogues carry exactly the file's cues, and exporting gives the same cues back in the writer's layout.", "quantifier": "every list of cues with any times in range, any number of lines and any text that uses none of the characters < { } \\ other than in the tags", "why_tests_cant": "Unbounded files and texts.", "anchors": ["crates/ass-editor/utils/formats/import_webvtt.rs", "crates/ass-editor/utils/formats/export_webvtt.rs", "crates/ass-editor/formats/webvtt/cue.rs", "crates/ass-editor/formats/webvtt/importer.rs", "crates/ass-editor/formats/webvtt/exporter.rs", "crates/ass-editor/formats/webvtt/styling.rs"]}
{"id": "C79", "title": "Importing any text is safe and yields a readable script", "statement": "Importing through the converter never panics, and the SubRip format never does, whatever the content; the WebVTT format does not when every timing line has something after the arrow. What they give always parses, and the SubRip format reports exactly the number of events in it. Well-formed SubRip and WebVTT files without script headers in them are recognised as such.", "quantifier": "every content", "why_tests_cant": "All texts.", "anchors": ["crates/ass-editor/utils/formats/converter.rs", "crates/ass-editor/utils/formats/types.rs", "crates/ass-editor/formats/srt/import.rs", "crates/ass-editor/formats/webvtt/importer.rs"]}
{"id": "C80", "title": "Stripping removes exactly the override blocks", "statement": "Exporting with formatting stripped removes every {...} block that has an end, from the left, and no other character; plain text export writes the text of every dialogue in order.", "quantifier": "every text and script", "why_tests_cant": "All texts.", "anchors": ["crates/ass-editor/utils/formats/export_srt.rs:strip_ass_tags", "crates/ass-editor/utils/formats/plain_text.rs"]}
{"id": "C81", "title": "Changing effects changes only effects", "statement": "EventEffect sets, clears, appends to or prepends to the effect of exactly the selected events and leaves all other text as it is: for every single clean event, and for every selection in which each new line is as long as the old one or the loop resumes inside it.", "quantifier": "every document, selection, operation and effect", "why_tests_cant": "Any number of events; whether the loop ends depends on the effect text.", "anchors": ["crates/ass-editor/commands/event_commands/effect_exec.rs", "crates/ass-editor/commands/event_commands/effect.rs"]}
{"id": "C82", "title": "Splitting an event", "statement": "SplitEvent replaces the named event by two that differ from it only in their times, meeting at the given time, if the commas of the line are those of its fields; a time outside the event is refused and the document stays as it is. Commas in the text are mistaken for fields (refuted).", "quantifier": "every document, index and time; events without commas in effect or text beyond the format's", "why_tests_cant": "All documents and times.", "anchors": ["crates/ass-editor/commands/event_commands/split.rs"]}
{"id": "C83", "title": "Deleting many events", "statement": "BatchDeleteEvents removes exactly the lines of the named events, however the indices are ordered or repeated, ignores indices that do not exist, and reports how many were removed. A last line without newline that ends in a multi-byte character makes it panic (refuted).", "quantifier": "every document of newline-ended lines, and every list of indices", "why_tests_cant": "Unbounded lists of indices in any order.", "anchors": ["crates/ass-editor/commands/event_commands/batch_delete.rs"]}
{"id": "C84", "title": "Inserting or wrapping a tag changes only that place", "statement": "Inserting a tag that starts with a backslash at a place, or wrapping a range with an opening and closing tag, yields the old text with exactly the tags (in braces, if asked) added there; the reported range is what was inserted or wrapped; any other tag or place is refused and changes nothing. The automatic closing tag of b, i, u and s switches them off. A tag given in braces is refused, other closing tags go by the first letter, and none of it can be undone (refuted).", "quantifier": "every document, place or range on character boundaries, and tag text", "why_tests_cant": "Any text and any tag.", "anchors": ["crates/ass-editor/commands/tag_commands/insert.rs", "crates/ass-editor/commands/tag_commands/wrap.rs", "crates/ass-editor/core/fluent/tag.rs"]}
{"id": "C85", "title": "Removing tags keeps everything else", "statement": "Removing all tags from a range leaves exactly the characters outside override blocks, and doing it again changes nothing. Removing one kind of tag gives, for every text, exactly the stated text: each block loses what begins with the pattern, or the command panics exactly where a block makes it cut inside a character. In closed blocks made of tags only, nothing changes when no tag has a name that begins with the pattern.", "quantifier": "every text, pattern and option", "why_tests_cant": "Nested and open braces, comments, multi-byte characters in any arrangement.", "anchors": ["crates/ass-editor/commands/tag_commands/remove.rs"]}
{"id": "C86", "title": "Replacing tags keeps everything else", "statement": "Replacing a tag rewrites every override block of the range as its tags, of which the first (or all) that start with the text sought have that beginning exchanged, and leaves the text outside blocks as it was. Comments in blocks and everything after an open brace are lost (refuted).", "quantifier": "every text, search text and replacement", "why_tests_cant": "Unbounded texts.", "anchors": ["crates/ass-editor/commands/tag_commands/replace.rs"]}
{"id": "C87", "title": "Listing tags is complete and positions are right", "statement": "Listing the tags of a range gives every tag in its override blocks once, in order, with its parameters; it panics exactly if a block has a backslash directly before a multi-byte character. The reported positions are not those of the tags (refuted).", "quantifier": "every text and range", "why_tests_cant": "Positions depend on all the text before.", "anchors": ["crates/ass-editor/commands/tag_commands/parse.rs", "crates/ass-editor/core/fluent/tag.rs"]}
{"id": "C88", "title": "Built event lines read back as told", "statement": "The line an event builder makes for a script version, or for any format of known columns ending in the text, reads back under that format as an event whose every column is what the last setter call for it said (or the documented default), provided no value but the text has a comma and none has blanks around it; a format is refused exactly when it is empty or names an unknown column.", "quantifier": "every sequence of setter calls, every version and format, every value", "why_tests_cant": "Calls come in any order and number, values are unbounded strings.", "anchors": ["crates/ass-editor/core/builders/event.rs", "crates/ass-core/parser/sections/events.rs"]}
{"id": "C89", "title": "Built style lines read back as told", "statement": "The line a style builder makes, with build or for any format of columns the parser knows, reads back under that format as a style whose every column is what the last setter call for it said (or the default), provided values have no comma, no blanks around and no leading star; a format is refused exactly when it is empty or names an unknown column.", "quantifier": "every sequence of setter calls, every format, every value, every way of displaying numbers", "why_tests_cant": "Calls come in any order and number, values are unbounded strings.", "anchors": ["crates/ass-editor/core/builders/style.rs", "crates/ass-core/parser/sections/styles.rs"]}
{"id": "C90", "title": "Creating a style adds one line that reads back as built", "statement": "Creating a style adds exactly one line, below the line that follows the styles header (or, in a document without styles, a new styles section before the events or at the end), leaves all other text as it was, and the line reads back as the style the builder was told, under the name given.", "quantifier": "every document, name, sequence of builder calls", "why_tests_cant": "Unbounded documents and call sequences; must hold after any editing history.", "anchors": ["crates/ass-editor/commands/style_commands/create.rs"]}
{"id": "C91", "title": "Deleting a style removes its line only", "statement": "Deleting a style removes exactly the line that holds the first 'Style: Name' of the document, with its newline, and nothing else; it fails exactly when there is none, changes nothing then, and never panics.", "quantifier": "every document, reached by any edits, and every name", "why_tests_cant": "Unbounded documents.", "anchors": ["crates/ass-editor/commands/style_commands/delete.rs"]}
{"id": "C92", "title": "Editing a style changes the named fields only", "statement": "Editing a style sets each field named in the updates to its new value, keeps all other fields and all other text, whatever the order in which the map of updates is iterated.", "quantifier": "every document whose styles have a format line written with ', ', every style line, every map of updates", "why_tests_cant": "Hash maps iterate in any order; unbounded documents.", "anchors": ["crates/ass-editor/commands/style_commands/edit.rs"]}
{"id": "C93", "title": "Cloning a style adds a copy below it", "statement": "Cloning a style adds, below its line, a copy with only the name changed, and leaves all other text as it was; it fails exactly when 'Style: Target' is in the document or 'Style: Source' is not, and changes nothing then.", "quantifier": "every document and pair of names", "why_tests_cant": "Unbounded documents.", "anchors": ["crates/ass-editor/commands/style_commands/clone.rs"]}
{"id": "C94", "title": "Applying a style changes the style of matching events only", "statement": "Applying a style gives the new style to every event that has the old one (and contains the filter text), reports their number and changes nothing else, for any number of events, when each change keeps the length of its line or ends inside the changed line in a way that looks like no event. It always ends when the new name has no comma and no newline.", "quantifier": "every document, pair of names and filter", "why_tests_cant": "The loop moves over a text it is changing; the number of events is unbounded.", "anchors": ["crates/ass-editor/commands/style_commands/apply.rs"]}
{"id": "C95", "title": "Script properties can be set, read and deleted", "statement": "For every document with a script info section: reading a property gives the trimmed text after the first line of the section holding 'name: '; setting a property that has such a line replaces exactly that line's value, setting a new one adds exactly one line at the head of the section, and reading it back gives the value; properties none of whose names contains the other's do not disturb each other; deleting removes exactly the line and leaves every other line; without a section nothing is written. A header that is the last thing in the text without a line break, names matched inside longer names or comments, and undo of an added property are stated exactly as they are.", "quantifier": "all documents reached by any operations, all section contents, names and values without line breaks", "why_tests_cant": "Depends on where in an arbitrary section a pattern first occurs; tests fix a handful of scripts.", "anchors": ["crates/ass-editor/commands/script_info_commands: SetScriptInfoCommand", "crates/ass-editor/commands/script_info_commands: GetScriptInfoCommand", "crates/ass-editor/commands/script_info_commands: DeleteScriptInfoCommand"]}
{"id": "C96", "title": "Listing script properties gives the section's lines", "statement": "Listing all properties returns, in order, the trimmed name and value of every line of the section that holds a colon, and nothing outside the section.", "quantifier": "all documents and section contents", "why_tests_cant": "Ranges over arbitrary sections.", "anchors": ["crates/ass-editor/commands/script_info_commands: GetAllScriptInfoCommand", "crates/ass-editor/core/fluent/script_info.rs"]}
{"id": "C97", "title": "Typed script properties round-trip", "statement": "Setting the resolution, wrap style or scaled border flag through the typed calls and reading it back gives the same value, for every number.", "quantifier": "all documents with a section, all 32-bit numbers", "why_tests_cant": "Range over all numbers and documents.", "anchors": ["crates/ass-editor/core/fluent/script_info.rs: resolution", "crates/ass-editor/core/fluent/script_info.rs: wrap_style", "crates/ass-editor/core/fluent/script_info.rs: scaled_border_and_shadow"]}
{"id": "C98", "title": "An added font or graphic is listed last", "statement": "Listing gives the trimmed names in the lines of the section that start with the key, in order. Adding a file to a section that ends in an empty line, or to a document without the section, changes nothing else and makes the list one name longer at the end, also for every binary file once encoded. Where the section does not end in an empty line the file is glued to its last line, which is stated exactly.", "quantifier": "all documents, section contents, file names without line breaks, all byte sequences", "why_tests_cant": "Depends on arbitrary section contents and on every encoding of binary data.", "anchors": ["crates/ass-editor/commands/fonts_graphics_commands/add.rs", "crates/ass-editor/commands/fonts_graphics_commands/list.rs", "crates/ass-editor/core/fluent/media.rs"]}
{"id": "C99", "title": "Removing a font or graphic takes that file and nothing else", "statement": "Removing the first file whose name starts with the given text empties its lines up to the next file or the end of the section; the list loses exactly that name and every other line stays. A name that does not occur changes nothing. That longer names are matched, and that the last file is deleted up to a file in a later section, is stated by counterexample.", "quantifier": "all documents, section contents and names", "why_tests_cant": "Ranges over arbitrary sections and positions.", "anchors": ["crates/ass-editor/commands/fonts_graphics_commands/remove.rs"]}
{"id": "C100", "title": "Clearing fonts or graphics empties the section only", "statement": "Clearing leaves the header and everything outside the section, and the list is empty afterwards; without a section the document is unchanged.", "quantifier": "all documents and section contents", "why_tests_cant": "Ranges over arbitrary sections.", "anchors": ["crates/ass-editor/commands/fonts_graphics_commands/clear.rs"]}
{"id": "C101", "title": "Generating karaoke times every syllable and keeps the words", "statement": "Generating karaoke in a range puts a duration of the chosen kind before every syllable and changes nothing else, when the range has no braces, no two spaces together and none at its end; a range with braces is refused unchanged. With syllable detection off the visible text is always kept. What runs of spaces become in general is stated exactly: n spaces become n(n+1)/2 and a final one is lost.", "quantifier": "all documents, ranges, durations, kinds and texts", "why_tests_cant": "Syllable boundaries and spaces fall anywhere in arbitrary text.", "anchors": ["crates/ass-editor/commands/karaoke_commands/generate.rs"]}
{"id": "C102", "title": "Splitting karaoke cuts the text at the given places", "statement": "Splitting cuts the range at exactly the positions that lie inside it and come after the one before, and puts a duration before each piece; the text without the tags is unchanged. It does not panic when the positions are character boundaries; that a position inside a character panics and that unsorted positions are skipped is stated by counterexample.", "quantifier": "all documents, ranges, lists of positions and durations", "why_tests_cant": "Positions are arbitrary offsets into arbitrary text.", "anchors": ["crates/ass-editor/commands/karaoke_commands/split.rs"]}
{"id": "C103", "title": "A karaoke template times the words in order", "statement": "Applying an equal, beat or pattern template keeps exactly the words of the visible text, in order, one space apart, each with the duration the template gives it; applying it again gives the same text. An empty pattern panics on any word, and all other tags are dropped, by counterexample.", "quantifier": "all texts, templates and durations", "why_tests_cant": "Ranges over arbitrary texts with blocks and arbitrary templates.", "anchors": ["crates/ass-editor/commands/karaoke_commands/apply_impl.rs", "crates/ass-editor/commands/karaoke_commands/apply.rs"]}
{"id": "C104", "title": "Adjusting karaoke changes the durations and nothing else", "statement": "In a text where each override block has at most one karaoke duration, scaling, shifting, setting or replacing the durations changes just these numbers, in order, and leaves the visible text and all other tags; setting after generating is the same as generating with the other duration. Two durations in a block, upper case tags, durations after a space, open blocks and large durations are shown to go wrong.", "quantifier": "all texts made of characters and override blocks, all adjustments", "why_tests_cant": "Ranges over arbitrary blocks, tag orders and durations.", "anchors": ["crates/ass-editor/commands/karaoke_commands/adjust_impl.rs", "crates/ass-editor/commands/karaoke_commands/adjust.rs"]}
{"id": "C105", "title": "Word search finds exactly the whole words asked for", "statement": "With the word index (the default build), a search reports exactly the starts of the whole words whose lower-cased form is the pattern (lower-cased unless case-sensitive), in order, cut off at max_results; nothing else is ever reported. It follows that the scope is ignored, phrases and parts of words are never found, a case-sensitive search for a pattern with capitals finds nothing, and a case-sensitive search for a lower-case pattern also reports capitalised words.", "quantifier": "every text, pattern, option set, and every choice of the Unicode functions that leaves lower-case words alone", "why_tests_cant": "The set of words and the order of results must be right for all texts; tests look at a few words.", "anchors": ["crates/ass-editor/utils/search/index.rs:extract_words", "crates/ass-editor/utils/search/query.rs:search", "crates/ass-editor/utils/search/trait_impl.rs:search"]}
{"id": "C106", "title": "Search without the index finds every occurrence in scope", "statement": "Without the index, a search whose pattern starts with a one-byte character reports exactly the occurrences that lie within the scope, in order and up to max_results, with their true text, line, column and line text, provided case folding keeps the byte lengths of characters. A pattern that starts with a longer character panics when it occurs and more than one result is allowed; an empty pattern with no limit panics. A line scope from line 0 loses the first character, one from a missing line searches everything.", "quantifier": "every text, pattern, scope and limit", "why_tests_cant": "Depends on byte offsets of every character; tests use ASCII and one scope.", "anchors": ["crates/ass-editor/utils/search/basic.rs:basic_search", "crates/ass-editor/utils/search/options.rs:SearchScope"]}
{"id": "C107", "title": "Find and replace changes exactly what was found", "statement": "With the index, find_replace turns exactly the wanted whole words into the replacement (the first max_results of them) and leaves all other text as it was, when these words have as many bytes as the pattern. Without the index the same holds for the occurrences of the pattern when no two overlap; overlapping ones corrupt the text.", "quantifier": "every document reachable by edits, pattern, replacement and options", "why_tests_cant": "Replacing from the back must keep all earlier offsets valid for any number of matches.", "anchors": ["crates/ass-editor/utils/search/trait_impl.rs:find_replace", "crates/ass-editor/utils/search/query.rs:search"]}
{"id": "C108", "title": "Updating the search index after edits", "statement": "update_index with more than ten changes or more than 1000 changed bytes gives the index of the new text, and so does any update without the index feature; with no changes nothing happens. With one change near the front of a short text no word of the new text is missed. With any one change of at most 1000 bytes, where the window of 50 bytes before and 100 after its start cuts no character and holds a word, a search then finds exactly the old words before the change, the old words after it moved by the guessed difference of lengths (new text up to the end of the line, else twice the old length), and the words of the window. So the index may hold words at wrong places (already for a same-length replacement), and a window may cut a character and panic.", "quantifier": "every engine, text and list of changes", "why_tests_cant": "The new lengths are guessed; whether the guess holds depends on all the text after the change.", "anchors": ["crates/ass-editor/utils/search/incremental.rs:update_index"]}
{"id": "C109", "title": "The FST index reports words by subsequence", "statement": "For text without carriage returns, a search of the FST index reports exactly the words of at least two bytes, within the scope, whose lower-cased bytes contain those of the query in order, sorted by word and then by place and cut off at max_results, each with its true start, line, column, line text and section. The end reported is the start plus the pattern length, so the text found need not be the pattern. Replacing puts the replacement for every place found and changes nothing else, as long as the places lie in the text and do not overlap.", "quantifier": "every CR-free text, query, scope and limit", "why_tests_cant": "Positions are summed over lines and words grouped in a map; tests check counts only.", "anchors": ["crates/ass-editor/utils/indexing/fst_build.rs:build_index", "crates/ass-editor/utils/indexing/fst_search.rs:search", "crates/ass-editor/utils/indexing/fst.rs:matches_scope"]}
{"id": "C110", "title": "The linear index reports words that contain the pattern", "statement": "A search of the linear index gives one result for each white-space separated word whose lower-cased form contains the lower-cased pattern, whatever the order of the map, with the true line number and line text; the place it gives is the start of the line plus the number of the word in it, which is wrong for all but the first word of a line.", "quantifier": "every text, pattern and iteration order of the map", "why_tests_cant": "Holds for every hash order and text.", "anchors": ["crates/ass-editor/utils/indexing/linear.rs:LinearSearchIndex"]}
{"id": "C111", "title": "An event query gives exactly the matching events in the order asked for", "statement": "The result of a query is a prefix of a list that holds every event meeting the type, style, speaker, text, effect, layer and time conditions exactly once, sorted by the first criterion, then the second, then script order, and cut at the limit; first gives the head of that list. A query with a time range panics when an event meeting the other conditions has a time of 2^32 hundredths or more. The line and range reported with each event are always 1 and 0..0.", "quantifier": "every document that parses, every filter, sorting and limit, every lower-casing function", "why_tests_cant": "Tests run a few filters on short scripts; the ordering, the ties and the arithmetic panic depend on every event of an arbitrary script", "anchors": ["crates/ass-editor/core/fluent/event_query_exec.rs", "crates/ass-editor/core/fluent/event_ops.rs"]}
{"id": "C112", "title": "The readers of a document agree with the parsed script", "statement": "get gives the i-th event of the script or nothing, all gives all events in order with their indices, the counts are the numbers of events, styles and sections, the text search gives the texts holding the pattern in order, and a field reader gives the value of the first script info line with that key.", "quantifier": "every document that parses, every index, pattern and key", "why_tests_cant": "Several sections of the same kind, duplicate keys and empty scripts cannot be enumerated by tests", "anchors": ["crates/ass-editor/core/document/ass_api.rs", "crates/ass-editor/core/fluent/event_ops.rs"]}
{"id": "C113", "title": "Editing at a position changes exactly the bytes asked for", "statement": "Inserting puts the text at the position; deleting forwards and backspacing remove the given number of bytes, backspace stopping at the start and delete failing beyond the end; replacing to the line end replaces the rest of the line and keeps its break, except that of a CR LF only the LF stays; the line and column given are those of the position, and a position beyond the end panics.", "quantifier": "every document, position between characters, text and count", "why_tests_cant": "Line breaks of eight kinds and characters of one to four bytes at arbitrary places cannot be enumerated", "anchors": ["crates/ass-editor/core/fluent/position.rs:AtPosition"]}
{"id": "C114", "title": "Editing a selection changes exactly the selection", "statement": "The text of a selection, replacing it, deleting it and wrapping it in tags act on exactly the selected bytes; reading and wrapping panic for a selection that is not between characters of the text, replacing does not.", "quantifier": "every document, selection and tag texts", "why_tests_cant": "Selections at arbitrary byte offsets of arbitrary texts", "anchors": ["crates/ass-editor/core/fluent/selection.rs:SelectRange"]}
{"id": "C115", "title": "Indenting and unindenting change exactly the selected lines, and unindent undoes indent", "statement": "Indenting puts n spaces before each line the selection touches and nothing else changes; unindenting removes at most n leading spaces from each of them; unindenting the same lines after indenting gives back the text.", "quantifier": "every document, selection and number of spaces", "why_tests_cant": "The edits are made one after the other with offsets computed before; that they do not disturb each other must hold for any number of lines and all line breaks", "anchors": ["crates/ass-editor/core/fluent/selection.rs:SelectRange::indent", "crates/ass-editor/core/fluent/selection.rs:SelectRange::unindent"]}
{"id": "C116", "title": "Editing an event by its index", "statement": "Editing the event with a given index writes, in place of that event's line, the event with each named field set to the last value given for it, and changes nothing else, when the first text in the document that looks like the start of the event's line is that line; the new line reads back as the changed event when its fields can stand in a line. A missing event, an unknown field or a line that is not found is an error without effect. Without the condition it is false: two events of the same kind, layer and times, other spacing, another order or number of columns.", "quantifier": "every document, index and list of modifications", "why_tests_cant": "documents, indices and field values are unbounded, and the place is found by text search", "anchors": ["crates/ass-editor/core/document/event_edit.rs edit_event_by_index", "crates/ass-editor/core/document/event_line.rs"]}
{"id": "C117", "title": "Editing an event through a builder", "statement": "Editing an event through a builder writes in its place a line that, under the document's format line, says what the builder was told last about each column and otherwise what the event said. Missing events, unknown columns and lines not found are errors without effect. The kind is kept for dialogues and comments only, and layers and margins that are not plain numbers become 0.", "quantifier": "every document, index, format line and sequence of builder calls", "why_tests_cant": "any sequence of calls under any format line", "anchors": ["crates/ass-editor/core/document/builder_edit.rs edit_event_with_builder"]}
{"id": "C118", "title": "Editing texts, fields and lines by search", "statement": "Editing an event's text replaces the first occurrence of the old text; setting a field of the script info replaces the line from the first place the name and a colon stand; adding an event or a style puts its line right after the format line of its section, or adds a section; editing a style replaces its line or adds it. Where the first occurrence is elsewhere, or the format line is missing or last, the wrong place is changed.", "quantifier": "every document, text, name and line", "why_tests_cant": "the text searched is arbitrary", "anchors": ["crates/ass-editor/core/document/ass_api.rs edit_event_text set_script_info_field", "crates/ass-editor/core/document/section_lines.rs"]}
{"id": "C119", "title": "Incremental edits change the text as ordinary edits do, or panic", "statement": "EditorDocument::edit_incremental, edit_safe and the incremental commands (insert, replace, event edit) change the text exactly as the ordinary replacement does whenever the edit is small (under the fast-path limits), or the parser remembers no text, or has gone past its reparse limit, or the text it remembers can be cut at the same byte positions. In the remaining case they panic. The remembered text follows the large incremental edits only: it is left as it was by small incremental edits and by ordinary edits, so opening a document, inserting a line by an ordinary edit and then editing incrementally at the end panics.", "quantifier": "every document, remembered text, threshold, range at character boundaries and replacement text; every Debug rendering of sections", "why_tests_cant": "A test edits one document in one order; the panic depends on how the remembered text and the document have drifted apart over the history.", "anchors": ["crates/ass-editor/core/document/incremental_edit.rs edit_incremental", "crates/ass-editor/core/document/incremental_fast.rs", "crates/ass-editor/core/document/incremental_parse.rs", "crates/ass-editor/core/incremental", "crates/ass-editor/commands/delta_commands"]}
{"id": "C120", "title": "Undo of a large incremental edit", "statement": "After a large incremental edit that changed at most two sections and added none, undo reports success and takes the entry off the history while leaving the text as it is; redo then replaces the section by the Debug rendering of its parsed form. In a document created empty and filled by an insertion, undoing the first large edit deletes every section. So undo does not bring back the text before the edit, and redo destroys the section.", "quantifier": "every document, edit and Debug rendering; every block structure of the text for the redo", "why_tests_cant": "Tests check that undo returns Ok; that the text never comes back holds for all large edits and needs the model of the stored undo data.", "anchors": ["crates/ass-editor/core/document/delta_undo.rs", "crates/ass-editor/core/document/undo_redo.rs undo redo", "crates/ass-editor/core/document/incremental_edit.rs"]}
{"id": "C121", "title": "Script deltas change the sections they name", "statement": "In a text made of sections of different kinds with no header text elsewhere, apply_script_delta removes the sections with the removed indices, puts the new text for the modified ones, appends the added ones (on a line of their own) and leaves all else byte for byte. It is not recorded in the history. With two sections of one kind the first is changed whichever index is given; old-style [V4 Styles] sections are not found and the call fails after having done the part of the delta before it; text stored for undo reaches from the header to the end of the document.", "quantifier": "every text cut into any number of sections, every set of removed, modified and added sections", "why_tests_cant": "The indices, kinds and positions combine in unboundedly many ways, and each removal moves the others.", "anchors": ["crates/ass-editor/core/document/delta_apply.rs apply_script_delta", "crates/ass-editor/core/document/delta_sections.rs", "crates/ass-editor/core/document/delta_undo.rs"]}
{"id": "C122", "title": "Meaning of an override block when drawn", "statement": "When a block is applied, its text is divided at the backslashes outside parentheses, each piece has one name and one argument text, and afterwards every property (colour, size, position, clip, fade, karaoke and so on) has the value given by the last piece that sets it, is unset if the last such piece is a reset, and otherwise is what it was before. Applying a block panics exactly when a piece starts with a digit followed by a multi-byte character or is a \\fade whose times run backwards. A style name after \\r prevents the reset; an unmatched closing parenthesis swallows the following tags; text without a backslash can act as a tag.", "quantifier": "every block text and every set of tags in force before it", "why_tests_cant": "The 44 properties depend on every piece of arbitrary text, on nesting of parentheses and on the order of tags.", "anchors": ["crates/ass-renderer/src/pipeline/text_segmenter/apply.rs process_tag_block", "crates/ass-renderer/src/pipeline/text_segmenter/split.rs split_tags_respecting_parens", "crates/ass-renderer/src/pipeline/tag_processor/parse.rs"]}
{"id": "C123", "title": "Animated transforms are read exactly", "statement": "The argument of \\t is accepted exactly when, without surrounding blanks, it is a parenthesised text with a backslash and at least one animatable tag with a readable value; start, end, acceleration and the list of targets are then those written, in order. Reading never panics. A single number is the acceleration only below 10; from 10 on it is taken as the end time.", "quantifier": "every argument text", "why_tests_cant": "Argument texts are unbounded and the reading scans them by hand.", "anchors": ["crates/ass-renderer/src/pipeline/transform/mod.rs parse_transform_tag", "crates/ass-renderer/src/pipeline/transform/parse.rs"]}
{"id": "C124", "title": "Event text is cut into styled segments", "statement": "For an event text with at least one tag the segments are the non-empty stretches between the blocks, each with its byte range, its displayed text and the tags of all blocks before it; together they show everything outside the blocks once and in order. A text of blocks only gives one empty segment, a text without tags one segment with the plain text. It is an error exactly when braces nest too deep and panics exactly when the analysis panics or a block is fatal.", "quantifier": "every event text", "why_tests_cant": "Texts are unbounded; offsets must be right for all mixes of characters, escapes, blocks and unclosed ends.", "anchors": ["crates/ass-renderer/src/pipeline/text_segmenter/mod.rs segment_text_with_tags"]}
{"id": "C125", "title": "Tags of a whole event", "statement": "Processing an event gives every property the value of the last tag that sets it, \\kt adds a start time to the karaoke so far, the transforms in order, the plain text, and the byte offsets of its line breaks and hard spaces. It panics exactly when the analysis panics or a \\fade runs backwards. \\r does not reset anything here, so the result can differ from the segments of the same text.", "quantifier": "every event text", "why_tests_cant": "Every tag and every order of tags matters, over texts of any length.", "anchors": ["crates/ass-renderer/src/pipeline/tag_processor/mod.rs process_event_tags"]}
{"id": "C126", "title": "An animation waits, moves and ends on time", "statement": "For every \\t animation and every moment: it has no progress up to its start, full progress from its end on (its own end, or the event's length when none is given), in between its progress lies between 0 and 1 and never falls, and for accelerations 1, 2 and 3 it is the share of the time passed to that power within 2^-22.", "quantifier": "every animation, event length and time, every accuracy of the platform's powf that keeps [0,1] and its order", "why_tests_cant": "Progress is floating point over all 32-bit times and accelerations; tests sample a few.", "anchors": ["ass-renderer/src/pipeline/transform/mod.rs:TransformAnimation::calculate_progress", "ass-renderer/src/pipeline/transform/parse.rs:apply_acceleration_curve"]}
{"id": "C127", "title": "Animated values stay between their ends", "statement": "Blending two bytes, two colours, or two numbers whose difference is exact gives the start at progress 0, the target at progress 1, a value between them in between, one that moves only towards the target as progress grows, and for bytes one within 1 + 2^-15 of the exact mixture.", "quantifier": "all bytes, colours, numbers and all progress values between 0 and 1", "why_tests_cant": "Rounding errors can overshoot for particular operands only.", "anchors": ["ass-renderer/src/pipeline/transform/mod.rs:interpolate_f32", "interpolate_color", "interpolate_alpha"]}
{"id": "C128", "title": "Animations change exactly the fields they name", "statement": "At any time, each field of a text run is what its animations, taken in order, make of it: one that has not started leaves it, one that has ended gives it its last target, one under way blends from the value so far or the default. Fields no animation names are unchanged, and the only panic is a time more than 429496729 centiseconds after the event's start.", "quantifier": "every list of animations, every field, style and time", "why_tests_cant": "The result depends on the order and overlap of any number of animations.", "anchors": ["ass-renderer/src/pipeline/build/animation.rs:apply_transform_animations"]}
{"id": "C129", "title": "Text of an event is divided into lines exactly at its line breaks", "statement": "The renderer's lines, read as characters with the tags and place of their run, are the groups the event's characters fall into at the newlines, in order, without the empty groups. No character is lost, moved or given other tags, and no run on a line is empty. Runs without a newline stay whole. A blank line is dropped, so two breaks in a row look like one.", "quantifier": "every list of text runs, with any text and tags", "why_tests_cant": "A run may hold any number of breaks anywhere and a line may collect pieces of many runs; tests see a few.", "anchors": ["crates/ass-renderer/src/pipeline/build/text/colors.rs:split_into_lines"]}
{"id": "C130", "title": "Colours and fades of a run", "statement": "Without a fade the fill takes its colour tag over the style's colour and its alpha from \\1a, else \\alpha, else the style; outline and shadow take only \\3a and \\4a, so \\alpha does not reach them. A fade leaves red, green and blue alone and scales each alpha by the opacity the tag prescribes for that moment, to within one step of 255 (plus 2^-14); it never raises alpha, keeps it at full opacity and makes it 0 at none. During \\fad in, alpha never falls, from then on it never rises. The only panic is a fade whose moments exceed 32 bits.", "quantifier": "every tag set, style, event time, moment, and fade with ramps of at most 65536 centiseconds", "why_tests_cant": "The result goes through several rounded single precision operations; the bound must hold for every alpha, ramp and moment.", "anchors": ["crates/ass-renderer/src/pipeline/build/text/colors.rs:resolve_run_colors"]}
{"id": "C131", "title": "How far each syllable has been sung", "statement": "On a line, a syllable starts when the syllables before it on that line are over. Before that its progress is 0, after its end 1, in between the share of its length (error at most 2^-25 up to 2^24 centiseconds); always within 0 and 1 and never falling over time. Runs that are no syllables have no progress and take no time. Rendering panics exactly if the end of a line's last syllable exceeds 32 bits. Each line starts anew at the event's start, so the second line does not wait for the first, and a syllable whose text changes looks is counted twice.", "quantifier": "every list of lines of runs, event start and moment", "why_tests_cant": "Depends on the sum over any number of earlier syllables.", "anchors": ["crates/ass-renderer/src/pipeline/build/text/mod.rs:process_text_segments"]}
{"id": "C132", "title": "Wrapping loses no text", "statement": "Automatic wrapping returns the line unchanged or divides it at spaces: each break takes the place of exactly one space, every other character stays, in order, with the tags and place of its run. A line left without characters is dropped.", "quantifier": "every line of runs, every width, every shaper (any reported widths), balanced or not", "why_tests_cant": "Words and runs interleave arbitrarily; breaks depend on measured widths.", "anchors": ["ass-renderer/src/pipeline/build/wrap.rs:wrap_segments"]}
{"id": "C133", "title": "How wrapped lines are filled", "statement": "Without balancing, each line takes as many words as fit, and at least one: every line of several words fits the width and no line could take the next word. Balanced lines are filled in the same way for some other limit and are never more than the unbalanced ones; if every word fits the width by itself the limit is no wider than the width, so that all lines fit. If a word does not fit, balancing makes other lines wider than the width although they could be broken (refuted).", "quantifier": "every list of words, every width, every shaper", "why_tests_cant": "The balanced limit comes from twenty-four rounded halvings over repeated greedy fills.", "anchors": ["ass-renderer/src/pipeline/build/wrap.rs:wrap_segments"]}
{"id": "C134", "title": "A \\pos names a pixel, a \\move travels evenly between its points", "statement": "When the frame has the PlayRes of the script and no LayoutRes is set, text with \\pos(x,y) is anchored exactly at (x,y), at every time, whatever \\move or alignment it has besides. On a frame of another size it is anchored at the scaled point, with a relative error of at most 2^-22, and with a LayoutRes at the point counted in that, within 2^-21. A \\move is anchored where \\pos of its first point would be until it begins, where \\pos of its last point would be from its end on, never turns back or leaves the way between them, and on a frame of native size is never further than 1/256 of a pixel from the even movement. \\move without times lasts the whole event. The program panics exactly when the start of the event plus one of the times does not fit 32 bits.", "quantifier": "every frame and script resolution from 1 to 2^24, all finite coordinates (for \\move: coordinates and their difference single-precision numbers), all times", "why_tests_cant": "coordinates, times and resolutions range over all floats and integers; rounding errors cannot be bounded by examples", "anchors": ["crates/ass-renderer/src/pipeline/build/position.rs:calculate_position_from_tags", "crates/ass-renderer/src/pipeline/animation.rs:calculate_move_progress"]}
{"id": "C135", "title": "Margins and numpad alignment decide the anchor, and the text box is put at it", "statement": "A margin is the number written in the event unless that is absent, 0 or no number, else the number of the style, else 0 (so 0000 in the event is a margin of zero, not that of the style). Alignments 1 to 9 follow the numeric keypad and 10 to 12 repeat 4 to 6: the anchor is at the left margin, the middle or the right margin and at the bottom margin, the middle or the top margin of the frame, within 1/256 of a pixel; the text box has its left edge, middle or right edge, and its bottom, middle or top, at the anchor, within 2^(k-23) of a pixel for numbers below 2^k.", "quantifier": "every margin text, frames and scripts up to 16384, natural margins up to the size of the script, alignments 1 to 12, all anchors and box sizes below 2^20", "why_tests_cant": "margin texts, sizes and resolutions are unbounded and every rounding matters", "anchors": ["crates/ass-renderer/src/pipeline/build/position.rs:calculate_position_from_alignment", "crates/ass-renderer/src/pipeline/build/position.rs:apply_alignment_offset", "crates/ass-renderer/src/pipeline/build/position.rs:margin_or_style"]}
{"id": "C136", "title": "Lines are stacked as one block and runs follow each other", "statement": "On a frame of native size the n lines of an event without \\pos or \\move, of natural height h, are put exactly below each other in order, as one block of height n*h whose bottom, middle or top is at the anchor, for every alignment 1 to 12. On each line the first run starts where the whole line is aligned and every other run starts where the one before it ends. Two exceptions are proved: lines of \\pos or \\move text are all put at the same height, one over the other, and alignments off the keypad, such as \\an0, let the lower lines run into the margin.", "quantifier": "any number of lines with n*h up to 2^21, any frame height up to 10^6, every run and pen", "why_tests_cant": "number and height of lines and runs are unbounded", "anchors": ["crates/ass-renderer/src/pipeline/build/text/position.rs:position_segment", "crates/ass-renderer/src/pipeline/build/text/mod.rs:process_text_segments"]}
{"id": "C137", "title": "Splitting and wrapping an event loses no visible text", "statement": "However an event is divided into lines, every character except blanks and line breaks appears on exactly one line, in the order of the text and with the tags of its run. The first \\q among the runs decides how lines are wrapped if it is 0 to 3, and the WrapStyle of the script otherwise; style 2 and positioned events keep exactly the written lines. An event counts as positioned when \\pos or \\move occurs anywhere in its text, even where that is no tag.", "quantifier": "all event texts, runs, fonts, margins and frames", "why_tests_cant": "the text and the widths reported by a font are arbitrary", "anchors": ["crates/ass-renderer/src/pipeline/build/text/mod.rs:process_text_segments", "crates/ass-renderer/src/pipeline/build/position.rs:event_is_positioned", "crates/ass-renderer/src/pipeline/build/wrap.rs:wrap_segments"]}
{"id": "C138", "title": "Layers of a frame", "statement": "For the events on screen, the layers of a frame are the events' own layers, grouped by event in ascending layer number, then start time, then script order; a group differs from what the event shows alone only in that an event with neither \\pos nor \\move in its text may have its text (never its drawings) moved vertically by one common distance over half a pixel. A frame exists exactly when every event yields layers. A single event whose reckoned box fits 1080 pixels is not moved.", "quantifier": "all platforms (fonts, shaping, effects), pipelines, contexts, moments and lists of events", "why_tests_cant": "the ordering, stability and rigid shift must hold for every list of events; tests try a few scripts", "anchors": ["crates/ass-renderer/src/pipeline/build/run.rs:process_events", "crates/ass-renderer/src/pipeline/build/position.rs", "crates/ass-renderer/src/collision/resolver.rs"]}
{"id": "C139", "title": "Events that open with a drawing", "statement": "An event whose first segment is a drawing shows at most that drawing and no text, and unless the drawing has a \\move it looks the same at every moment.", "quantifier": "all platforms, scripts, contexts, moments and event texts", "why_tests_cant": "ranges over all event texts and moments", "anchors": ["crates/ass-renderer/src/pipeline/build/run.rs:process_event", "crates/ass-renderer/src/pipeline/build/drawing.rs"]}
{"id": "C140", "title": "Text without timed tags stands still", "statement": "Events whose texts contain none of \\t, \\move, \\fad, \\k, \\K and no block starting with the bare name of a timed tag give the same layers at every moment.", "quantifier": "all platforms, prepared scripts, contexts, pairs of moments and lists of such events", "why_tests_cant": "must hold for every text without timed tags and all moments", "anchors": ["crates/ass-renderer/src/pipeline/build/run.rs", "crates/ass-renderer/src/pipeline/build/text/mod.rs", "crates/ass-renderer/src/pipeline/tag_processor/mod.rs"]}
{"id": "C141", "title": "Preparing a script", "statement": "Preparing a script whose script info precedes its styles is idempotent; after it a style name means the last style of that name with its lengths converted from layout to script resolution, the default style is the last named Default or *Default, and each setting is that of the last script info giving it; nothing of an earlier script remains if the script gives PlayRes, LayoutRes and ScaledBorderAndShadow before its styles.", "quantifier": "all platforms, section lists and pipelines", "why_tests_cant": "ranges over all scripts and all histories of scripts", "anchors": ["crates/ass-renderer/src/pipeline/build/run.rs:prepare_script", "crates/ass-renderer/src/pipeline/build/mod.rs"]}
{"id": "C142", "title": "Kept frames are fresh", "statement": "Rendering one script with one renderer at any sequence of moments gives at each moment the frame a new renderer gives, provided its script info precedes its styles, its event texts lie at different addresses and every text either contains one of the marks of animation or no timed tag at all.", "quantifier": "all platforms, scripts meeting the conditions, and all sequences of moments", "why_tests_cant": "the one-frame cache and the selector's state depend on the whole history of calls", "anchors": ["crates/ass-renderer/src/renderer/mod.rs:render_frame", "crates/ass-renderer/src/renderer/event_selector.rs"]}
{"id": "C143", "title": "Incremental rendering", "statement": "Incremental rendering returns the previous frame unchanged when every event on screen was on screen at that frame's time, and otherwise paints all layers of the moment over the previous pixels (over an empty frame if the size differs); over an empty previous frame the result is the full frame.", "quantifier": "all platforms, scripts, histories of frames, moments and previous frames", "why_tests_cant": "depends on the history and on all combinations of events", "anchors": ["crates/ass-renderer/src/renderer/mod.rs:render_frame_incremental", "crates/ass-renderer/src/pipeline/build/run.rs:compute_dirty_regions", "crates/ass-renderer/src/backends/software/mod.rs"]}
{"id": "C144", "title": "Progress of an animation track", "statement": "AnimationTiming::progress is 0 up to the start of the timing and 1 from its end on. In between it stays in [0, 1] and never falls as time passes, for a powf that keeps the unit interval and its order. With an acceleration near 1 and a span of up to 2^24 centiseconds it is within 2^-25 of the share of time passed; with one away from 1 it is powf of such a number.", "quantifier": "every timing, every time, every powf with the stated properties", "why_tests_cant": "ranges over all u32 times and f32 accelerations, with rounding in every step", "anchors": ["crates/ass-renderer/src/animation/timing.rs::AnimationTiming::progress"]}
{"id": "C145", "title": "Value of an animation track", "statement": "AnimationTrack::evaluate gives the first value up to the start and the last value from the end on, and a value between the two at all times, for integers at most 2^24 apart, colours, and floats, positions and scales whose differences are f32 numbers. The three interpolations follow their polynomials within 2^-18. Integers are within 1 + 2^(k-25) of the exact blend when less than 2^k apart. Integers whose difference does not fit i32 panic; a difference that fits can panic too, or miss its end.", "quantifier": "every track, every time, every interpolation", "why_tests_cant": "floating-point rounding and integer overflow over all values", "anchors": ["crates/ass-renderer/src/animation/track.rs::AnimationTrack::evaluate", "crates/ass-renderer/src/animation/value.rs::AnimatedValue::interpolate"]}
{"id": "C146", "title": "State of an animation controller", "statement": "AnimationController::evaluate gives each property the value of the last track that names it, and no other property. It panics exactly when some track does. active_tracks and is_active report the tracks whose span includes the time. The state's accessors read the properties of the matching kind only, and a missing scale counts as 100. A later track overrides an earlier one even before it starts.", "quantifier": "every list of tracks and every time", "why_tests_cant": "ranges over all lists of tracks with repeated properties", "anchors": ["crates/ass-renderer/src/animation/controller.rs::AnimationController::evaluate", "crates/ass-renderer/src/animation/state.rs::AnimationState"]}
{"id": "C147", "title": "Tracks made from a tag", "statement": "AnimationController::add_from_tag appends, in order, one linear track for each modifier that begins with one of the known tags and has exactly two values between its first '(' and its first ')', with the span start + t1 to start + t2 (or the event's end). Other modifiers give none. It panics exactly when the event ends before it starts, a time exceeds u32, or a known modifier has ')' before '('. Colours of six or eight hexadecimal digits and alphas are read as written. Ordinary modifiers such as \\fs40 give no track, and \\fsp(a,b) animates the font size.", "quantifier": "every tag, modifier text and event time", "why_tests_cant": "ranges over all modifier texts", "anchors": ["crates/ass-renderer/src/animation/controller.rs::AnimationController::add_from_tag"]}
{"id": "C148", "title": "How a drawing's text is split into words", "statement": "A drawing is read as words: white space separates words, each ASCII letter is a word of its own in lower case, every other longest run of characters is one word, and a backslash ends the drawing, so nothing after it counts. Two texts with the same words draw the same; the case of a letter and spaces next to a letter never matter.", "quantifier": "every drawing text", "why_tests_cant": "the words must be right for every mix of letters, numbers, spaces and trailing tags", "anchors": ["crates/ass-renderer/src/pipeline/drawing/parse.rs::parse_draw_commands", "crates/ass-renderer/src/pipeline/drawing/parse.rs::tokenize_drawing_commands"]}
{"id": "C149", "title": "Which commands a drawing makes", "statement": "Reading a drawing never panics and always finishes. It succeeds exactly when its words, cut at the command letters m n l b s p c, make blocks that each hold whole groups of numbers (two, or six for b): words before the first letter count for nothing; m needs a pair and draws lines to further pairs; n, l and b need a group unless the last command is of their own kind; s and p need three points or none; numbers after c are passed over; and words left over after the last whole group are passed over only where they and all the words after them are too few for another group, and otherwise the drawing is refused. The commands are then exactly those of the blocks in order, an s spline being closed with its first point when its ends are more than a hundredth apart.", "quantifier": "every drawing text, any number of commands and of points", "why_tests_cant": "the reader indexes ahead in the word list; every arrangement of letters, numbers and leftovers must be read without leaving the list and with the stated result", "anchors": ["crates/ass-renderer/src/pipeline/drawing/parse.rs::parse_draw_commands", "crates/ass-renderer/src/pipeline/drawing/parse.rs::tokenize_drawing_commands"]}
{"id": "C150", "title": "The path a drawing makes", "statement": "Turning a drawing into a path gives nothing exactly when the drawing is refused or makes no command; otherwise it makes, command by command in order, one move, line, curve or close, and for a spline of n points n-1 curves ending at its second to last points in turn. Every control point lies within 1/256 of the point bent by a sixth of the line between its neighbours, for coordinates up to 16384, with the first and last points standing in for missing neighbours, in splines and extended splines alike. With whole coordinates a spline is closed exactly when its last point differs from its first.", "quantifier": "every drawing text and every list of points with moderate coordinates", "why_tests_cant": "the shapes must be right for every list of points, and rounding must stay small for all of them", "anchors": ["crates/ass-renderer/src/pipeline/drawing/mod.rs::process_drawing_commands", "crates/ass-renderer/src/pipeline/drawing/spline.rs::spline_to_bezier"]}
{"id": "C151", "title": "Built-in tag handlers accept exactly their grammars", "statement": "For each of the 47 built-in override-tag handlers and every argument text, validation never panics and answers true exactly when the text, without surrounding white space, is in the handler's grammar (e.g. signed decimals for rotations, &Hbbggrr& for colours, (a1,a2,a3,t1..t4) for fade); processing makes the same decision, answers Processed or Failed with the handler's fixed message, and never Ignored. White space around the arguments never changes either answer. Infinite sizes and widths are accepted.", "quantifier": "all handlers, all argument texts, all surrounding white space", "why_tests_cant": "The argument texts are unbounded and slicing at byte positions may panic on multi-byte text; tests try a handful of literals.", "anchors": ["crates/ass-core/plugin/tags/advanced/handlers.rs", "crates/ass-core/plugin/tags/alignment/handlers.rs", "crates/ass-core/plugin/tags/animation/fade_handlers.rs", "crates/ass-core/plugin/tags/clipping/clip_handler.rs", "crates/ass-core/plugin/tags/color/validation.rs", "crates/ass-core/plugin/tags/font/font_handlers.rs", "crates/ass-core/plugin/tags/formatting.rs", "crates/ass-core/plugin/tags/karaoke/handlers.rs", "crates/ass-core/plugin/tags/misc/handlers.rs", "crates/ass-core/plugin/tags/position/position_handler.rs", "crates/ass-core/plugin/tags/special/handlers.rs", "crates/ass-core/plugin/tags/transform/validation.rs"]}
{"id": "C152", "title": "Registering the built-in handlers and reading blocks with them", "statement": "Registered in any order, no built-in handler is refused, each name is answered by its own grammar and every other name by nobody. Reading any override block with them registered reports accepted tags with complexity 2, rejected tags with their usual complexity and a malformed-tag diagnostic for the tag's whole text at its offset, and everything else as without handlers; it panics only where it does without handlers. Positions and movements written with brackets, as scripts write them, are always reported as malformed.", "quantifier": "all orders of registration, all names and arguments, all blocks and start offsets", "why_tests_cant": "Orders of 47 registrations and the texts of blocks cannot be enumerated.", "anchors": ["crates/ass-core/plugin/registry.rs", "crates/ass-core/plugin/tags/mod.rs", "crates/ass-core/analysis/events/tags/registry_parser.rs"]}
{"id": "C153", "title": "Aegisub section processors", "statement": "For every header and list of lines, the Aegisub Project processor ignores headers that differ in more than ASCII case, succeeds when every trimmed line is empty, starts with '!' or contains '=' or ':', and fails with its message otherwise; validation also asks for at least one line. The Extradata processor does the same with lines of at most 10000 bytes after trimming. Both register in either order and answer to exactly their own names.", "quantifier": "all headers, all lists of lines, both orders of registration", "why_tests_cant": "Lines and their number are unbounded, and the limit counts bytes after trimming.", "anchors": ["crates/ass-core/plugin/sections/aegisub/processors.rs", "crates/ass-core/plugin/registry.rs"]}
{"id": "C154", "title": "Registering the built-in handlers stops at the first clash and keeps what came before", "statement": "Registering the editor's built-in tag handlers goes through a fixed order of groups and tags. Every tag before the first one whose name is already taken is registered and answers by the documented rules; the call then fails naming the group of that tag; every other tag and every section keeps its previous owner. It succeeds exactly when all built-in names are free, and a second call fails in the first group and changes nothing. Registering the built-in sections adds the Aegisub project section only.", "quantifier": "every registry state, every tag name and argument, every section name, header and lines", "why_tests_cant": "tests register into an empty registry once; a partial registration depends on which names any earlier plugin took", "anchors": ["crates/ass-editor/extensions/registry_integration/builtins.rs:register_builtin_handlers", "crates/ass-editor/extensions/registry_integration/builtins.rs:register_builtin_sections", "crates/ass-core/plugin/registry.rs:register_tag_handler"]}
{"id": "C155", "title": "Clones of the extension manager on any threads behave as their common history says", "statement": "Let any number of threads use clones of one extension manager, each call being made of the critical sections it locks, interleaved in any order. Then which extensions are listed and with which object, each one's state, which commands are listed and who runs them, every configuration value and every piece of extension data are determined by the sequence of completed sections in the stated way; each section answers as that past demands (dependencies known, name free, owner of the command, result of the method); a thread can begin a call exactly when its last one is over, and a section never returns exactly when the method it calls never returns.", "quantifier": "every number of threads, every schedule of critical sections, every extension type with any methods, every context", "why_tests_cant": "tests run one thread and no interleaving of the two halves of a call", "anchors": ["crates/ass-editor/extensions/manager_loading.rs:load_extension", "crates/ass-editor/extensions/manager_loading.rs:initialize_extension", "crates/ass-editor/extensions/manager_loading.rs:unload_extension", "crates/ass-editor/extensions/manager_access.rs:execute_command", "crates/ass-editor/extensions/manager.rs:with_inner_mut"]}
{"id": "C156", "title": "Every command has a loaded owner and every loaded extension a state, in every schedule", "statement": "In every state reachable by any threads in any interleaving: each listed extension has a state, never Paused; a name with a state that is not listed is Initializing or ShuttingDown; each listed command belongs to a listed extension, under its own identifier; a state Shutdown is seen only while some thread is between the halves of an unload. The following do not hold: that the dependencies of a loaded extension are loaded; that they were known when it was inserted; that an unload removes only an extension that was shut down; that only Active extensions run commands; that an Active extension's commands stay listed.", "quantifier": "every schedule, every extension type with any methods", "why_tests_cant": "needs all interleavings and histories", "anchors": ["crates/ass-editor/extensions/manager_loading.rs:load_extension", "crates/ass-editor/extensions/manager_loading.rs:unload_extension", "crates/ass-editor/extensions/manager_access.rs:list_commands"]}
{"id": "C157", "title": "Loading, initializing, unloading and running a command change exactly what they say", "statement": "With no other thread in between: load is refused without change if a dependency has no state or the name is loaded, and otherwise adds the extension as Uninitialized; initialize sets Active and announces the commands, Error, or leaves Initializing for an unknown name or after a panic; unload removes the extension, its state, all its commands and all its data if the shutdown succeeds or the name is unknown, and otherwise leaves it loaded with its commands and state ShuttingDown; a command is run by its owner. Nothing else changes. These calls are the sections of the concurrent model made one after the other.", "quantifier": "every manager state, extension, context, name, command and arguments", "why_tests_cant": "depends on all states and methods", "anchors": ["crates/ass-editor/extensions/manager_loading.rs:load_extension", "crates/ass-editor/extensions/manager_loading.rs:initialize_extension", "crates/ass-editor/extensions/manager_loading.rs:unload_extension", "crates/ass-editor/extensions/manager_access.rs:execute_command"]}
{"id": "C158", "title": "A method given a context of its own manager returns exactly if it asks for no configuration or data", "statement": "A method called by the manager with a context made from a clone of that manager returns exactly if, the other calls being answered, it never reads or writes configuration or extension data; otherwise the call, and with it every later use of the manager, hangs. Both built-in extensions read the configuration when initialized, so they hang. With a context of another manager every call returns, and initialized directly the built-in extensions take up exactly what the configuration says. A context sees its own settings and its data go under its name; without multi-thread its settings reach neither itself nor the manager.", "quantifier": "every extension, method, manager state and configuration", "why_tests_cant": "a hang is not observable by a test that passes", "anchors": ["crates/ass-editor/extensions/context.rs:EditorContext", "crates/ass-editor/extensions/manager_lifecycle.rs:create_context", "crates/ass-editor/extensions/builtin/auto_complete/editor_ext.rs:initialize", "crates/ass-editor/extensions/builtin/syntax_highlight/editor_ext.rs:initialize"]}
{"id": "C159", "title": "A shared document is exactly what the edits so far, in their order, made of it", "statement": "For any number of threads with any programs of calls on clones of one shared document, in any interleaving: the document is the initial one with all edits applied in the order in which they happened; the guards out are those taken and not given back; each call of a thread, in program order, is answered as the past demands (guard, value, refusal after a panic) and waits exactly as long as no answer is allowed.", "quantifier": "every document type, edits and commands that may fail or panic, thread programs and schedules", "why_tests_cant": "interleavings and panics cannot be enumerated", "anchors": ["crates/ass-editor/core/thread_safety/sync_document.rs:SyncDocument", "crates/ass-editor/core/thread_safety/scoped_lock.rs:ScopedDocumentLock"]}
{"id": "C160", "title": "Readers of a shared document see finished edits only", "statement": "Any value seen by a thread that does not itself hold the write guard is the document as the last finished edit left it. While a thread has a read guard the document does not change; while one has the write guard no other thread sees or changes it. After an edit was left half way by a panic, no thread ever sees or changes the document again: every call is refused.", "quantifier": "every history of every set of threads", "why_tests_cant": "atomicity must hold at every point of every interleaving", "anchors": ["crates/ass-editor/core/thread_safety/sync_document.rs:SyncDocument", "crates/ass-editor/core/thread_safety/scoped_lock.rs:ScopedDocumentLock"]}
{"id": "C161", "title": "Threads that take one guard at a time and give it back always finish", "statement": "If every thread calls for the document only while it holds no guard and gives back what it takes, some thread can always move, every run can be continued until all threads are done, and no run takes more than two steps an operation. A call for the document under one's own guard (reading under a write guard, editing or executing a command under either) never returns, and threads that do so can all end up waiting.", "quantifier": "every number of threads, tidy programs and schedules", "why_tests_cant": "deadlock freedom is about all schedules", "anchors": ["crates/ass-editor/core/thread_safety/sync_document.rs:SyncDocument", "crates/ass-editor/core/thread_safety/scoped_lock.rs:ScopedDocumentLock"]}
{"id": "C162", "title": "A document pool holds the last document added under each identifier", "statement": "After any calls, looking up an identifier gives the last document added under it since it was last removed; the list has each such identifier once and the count is its length. A document created at the same clock reading as another takes its place.", "quantifier": "every sequence of pool calls", "why_tests_cant": "depends on the whole history", "anchors": ["crates/ass-editor/core/thread_safety/document_pool.rs:DocumentPool", "crates/ass-editor/core/document/constructors.rs:generate_id"]}
{"id": "C163", "title": "The syntax highlighter colours each piece of a document by its section, fields and tags", "statement": "Highlighting never fails, and its tokens are those of the document cut line by line: headers and comments whole, names and values of info lines, Format lines, the fields of styles and events with the style name and the two times marked, and in the text of an event the plain pieces, braces, tag names and tag parameters, an unclosed brace as an error to the end of the line. Lines follow until the number of tokens has reached the limit.", "quantifier": "every text, every notion of a letter, both settings of tag highlighting and every limit", "why_tests_cant": "the scanner keeps its own offsets through several nested loops", "anchors": ["crates/ass-editor/extensions/builtin/syntax_highlight/document.rs:tokenize_document", "crates/ass-editor/extensions/builtin/syntax_highlight/events.rs:tokenize_event_line", "crates/ass-editor/extensions/builtin/syntax_highlight/tags.rs:tokenize_text_with_tags", "crates/ass-editor/extensions/builtin/syntax_highlight/sections.rs:tokenize_style_line"]}
{"id": "C164", "title": "Highlight tokens follow each other inside the document and, with plain line feeds, cover what they name", "statement": "For every document the tokens are in order, do not overlap and end within it. In a document without carriage returns each token covers exactly its piece of the line, except in a style line with blanks before its first field. With CRLF line ends, and in such style lines, the ranges are too far left.", "quantifier": "every text, every line of it", "why_tests_cant": "offsets are summed over all lines before", "anchors": ["crates/ass-editor/extensions/builtin/syntax_highlight/document.rs:tokenize_document", "crates/ass-editor/extensions/builtin/syntax_highlight/sections.rs:tokenize_style_line"]}
{"id": "C165", "title": "The highlighter answers from the first text it saw of a document since that was forgotten", "statement": "After any calls, a request gives the tokens of the text and the settings of the first request under the same document identifier since the cache was last cleared or that document invalidated; later edits and settings have no effect until then.", "quantifier": "every sequence of requests, clears, invalidations and settings", "why_tests_cant": "depends on the whole history", "anchors": ["crates/ass-editor/extensions/builtin/syntax_highlight/document.rs:tokenize_document", "crates/ass-editor/extensions/builtin/syntax_highlight/extension.rs:invalidate_document"]}
{"id": "C166", "title": "A validation reports the first issues that are severe enough, and is valid when none of them is an error", "statement": "A validation fails only when the text cannot be parsed. Otherwise its issues are those of the analysis, in order, a hint shown as an info, then remarks on an empty text and on missing [Script Info] and [Events] headers; those below the threshold are left out and the rest cut to the limit. The counts and the flag are those of what is left. When the limit does not cut and errors are not below the threshold, the flag tells whether there is an error or critical issue at all; otherwise it can be set although there is one.", "quantifier": "every text, every result of the analysis, every configuration", "why_tests_cant": "the analysis can give any list of issues", "anchors": ["crates/ass-editor/utils/validator/core_validation.rs:validate_with_core", "crates/ass-editor/utils/validator/result.rs:ValidationResult", "crates/ass-editor/core/document/validation.rs:validate_comprehensive"]}
{"id": "C167", "title": "The validator's cache is not noticed unless two texts share a hash", "statement": "After any uses, through the document or directly, at any times, a validation gives what a fresh one with the current configuration gives, provided no other text checked before has the same 64-bit FNV-1a hash; a forced one always does. Two different texts with the same hash exist, and the second then gets the result of the first.", "quantifier": "every history of validations, forced validations, cache clears and configuration changes, at any times", "why_tests_cant": "depends on the whole history, the clock and hash collisions", "anchors": ["crates/ass-editor/utils/validator/api.rs:validate", "crates/ass-editor/utils/validator/api.rs:should_use_cache", "crates/ass-editor/utils/validator/lazy_validator.rs:set_config"]}
{"id": "C168", "title": "Completion suggests exactly what fits the cursor", "statement": "For a cursor anywhere in a script, auto-completion returns exactly these suggestions: sections when the line is empty or starts with '[' and the typed part matches; the fields of the section whose header is the last one above the cursor, when they extend what the line holds and the cursor is not between braces; override tags between braces, extending the name typed after the last backslash; the style names at the fourth field of an event line. The first of each kind come first, then the second ones, and the list is cut at the configured maximum. After a backslash earlier on the line an open brace gets no tags, and a blank CRLF line gets no sections.", "quantifier": "every script text, cursor offset, configuration, list of style names and classification of characters", "why_tests_cant": "The answer depends on all the text before the cursor and the order interleaves four lists of any length; tests look at a few cursors.", "anchors": ["crates/ass-editor/extensions/builtin/auto_complete/extension.rs: get_completions", "crates/ass-editor/extensions/builtin/auto_complete/context.rs: get_completion_context, should_complete_style", "crates/ass-editor/extensions/builtin/auto_complete/completions.rs", "crates/ass-editor/extensions/builtin/auto_complete/tags.rs"]}
{"id": "C169", "title": "Completion stops the program only at a header's first column or off a character", "statement": "Asking for completions panics exactly when the offset is past the end or inside a character, or when the cursor stands before the '[' that begins its line. The trigger-completion command without a position never panics; with one it answers for that offset, or for the end when the position is not a number, and lists the text of the first ten suggestions.", "quantifier": "every script text, offset, configuration, list of style names and position argument", "why_tests_cant": "The panic depends on where in the text the cursor is; tests do not put it before a header.", "anchors": ["crates/ass-editor/extensions/builtin/auto_complete/completions.rs: get_section_completions", "crates/ass-editor/extensions/builtin/auto_complete/editor_ext.rs: execute_command"]}
{"id": "C170", "title": "A rasterized outline shows, in every pixel, the area it encloses there", "statement": "With nothing rounded, the tile made for a path shows at every pixel of the screen the byte nearest to 255 times the area the path's edges enclose in that pixel (at most 255), and beyond the tile that area is nothing. Curves count as chords between points of the curve. For a rectangle the area is what the pixel and the rectangle have in common. Outlines that overlap add up: a half-covered pixel drawn twice shows as full.", "quantifier": "every path that starts with a move (lines, quadratic and cubic curves, closes, any number of outlines) with points within bounds of magnitude up to 2^30, every pixel of the plane, every rule for the number of chords", "why_tests_cant": "Coverage depends on where each edge crosses each row and column; tests compare a few shapes with another rasterizer to a tolerance and cannot show that the areas, the touched column spans and the padding are right for every path.", "anchors": ["crates/ass-renderer/src/backends/raster/mod.rs:Rasterizer::line", "crates/ass-renderer/src/backends/raster/mod.rs:Rasterizer::finish", "crates/ass-renderer/src/backends/raster/span.rs:convert_span", "crates/ass-renderer/src/backends/coverage/mod.rs:CoverageTile::rasterize"]}
{"id": "C171", "title": "Rasterizing never leaves its buffer", "statement": "Any sequence of line, quadratic and cubic calls on a rasterizer narrower than 2^24 pixels succeeds whatever floats the lines are given (NaN and infinities included), as long as curve points are at most 2^45, and finishing gives width times height bytes. A path with bounds up to 2^22 gets a tile that is its bounds grown by one pixel on every side. Beyond that range there are panics: the count of chords of a far curve overflows, and so does the padding of bounds outside an i32; None is never returned.", "quantifier": "every size, every list of calls with every binary32 value, every path and bounds in range", "why_tests_cant": "Out-of-bounds indices need particular float values (NaN, infinities, values just at the right edge) in particular rows; no finite test set covers all floats.", "anchors": ["crates/ass-renderer/src/backends/raster/mod.rs:Rasterizer::line", "crates/ass-renderer/src/backends/raster/mod.rs:Rasterizer::quad", "crates/ass-renderer/src/backends/raster/mod.rs:Rasterizer::cubic", "crates/ass-renderer/src/backends/raster/mod.rs:Rasterizer::finish", "crates/ass-renderer/src/backends/coverage/mod.rs:CoverageTile::rasterize"]}
{"id": "C172", "title": "Cue settings carry the position of a subtitle", "statement": "Exported with cue settings, a WebVTT cue gets the line 100 minus the vertical margin of its subtitle, and no setting for a margin of 0; the style block comes before the cues when asked for. Importing a WebVTT cue with whole-number line and position settings puts a \\pos with 640 times the position and 480 times the line before its text, and an align setting becomes \\an1, \\an2 or \\an3; the last value of a repeated setting counts.", "quantifier": "every list of well-formed cues, every 32-bit margin from -2147483547 up, every list of settings without dashes", "why_tests_cant": "Tests fix a few margins and settings; the claim ranges over every file, margin and list of settings.", "anchors": ["crates/ass-editor/utils/formats/export_webvtt.rs", "crates/ass-editor/formats/webvtt/cue.rs: cue_settings_to_ass_positioning"]}
{"id": "C173", "title": "Exporting as SSA renames two headers and nothing else", "statement": "Exporting a script as SSA turns every [V4+ Styles] into [V4 Styles] and every ScriptType: v4.00+ into ScriptType: v4.00, from the left, and leaves every other character as it is.", "quantifier": "every script text", "why_tests_cant": "The claim is about every text, including ones that quote the headers elsewhere.", "anchors": ["crates/ass-editor/utils/formats/export_srt.rs: export_ssa"]}
{"id": "C174", "title": "What is drawn does not depend on what was drawn before", "statement": "After any sequence of calls on a thread (shaping texts, drawing frames, making bitmap lists), drawing a frame, making a bitmap list or shaping a text gives what a fresh backend on a fresh thread gives. It takes font sizes whose 16.16 numbers differ, one way of shaping for all databases, no earlier bitmap list that ended in an error, and blurred texts that are not turned out of the plane and whose padding fits 32 bits; bitmap lists must hold no blurred text. Without those conditions it fails.", "quantifier": "every platform (shaper, fonts, rasteriser, row blender), canvas size, history of calls and list of layers", "why_tests_cant": "Four caches and two thread-local slots carry state from call to call; tests draw one frame at a time.", "anchors": ["crates/ass-renderer/src/backends/software/cache/mod.rs: coverage_key", "crates/ass-renderer/src/backends/software/cache/coverage.rs: coverage_hit rasterize_coverage_miss", "crates/ass-renderer/src/backends/software/cache/blur_tile.rs: blur_tile_hit", "crates/ass-renderer/src/backends/software/mod.rs: composite_layers render_to_bitmaps", "crates/ass-renderer/src/pipeline/shaping/shape.rs: shape_text_cached", "crates/ass-renderer/src/pipeline/shaping/glyph_renderer.rs: render_shaped_text"]}
{"id": "C175", "title": "The caches stay within their limits", "statement": "Whatever is drawn, the shape cache holds at most 8192 texts, the coverage cache at most 256 runs and the blur cache at most 512 tiles.", "quantifier": "every history of calls, including failed ones", "why_tests_cant": "A test cannot draw every sequence of texts.", "anchors": ["crates/ass-renderer/src/pipeline/shaping/shape.rs: shape_text_cached", "crates/ass-renderer/src/backends/software/cache/coverage.rs: rasterize_coverage_miss", "crates/ass-renderer/src/backends/software/text/blur.rs: draw_blurred_text"]}
{"id": "C176", "title": "The bitmap list of a frame makes the frame", "statement": "For layers of text with bold, italic, outline, shadow, scale, shear, rotation in the plane and karaoke, blending the bitmaps of render_to_bitmaps in order on a clear canvas gives the bytes of composite_layers.", "quantifier": "every list of such layers, canvas and platform", "why_tests_cant": "The two entry points take different paths through the backend (a sink, a scratch pixmap and a crop against direct blending).", "anchors": ["crates/ass-renderer/src/backends/software/mod.rs: render_to_bitmaps composite_layers", "crates/ass-renderer/src/backends/software/cache/blur_tile.rs: composite_cached emit_cached"]}
{"id": "C177", "title": "A bordered text with a shadow is shadow, border, fill", "statement": "A text with one outline and one shadow gives exactly three bitmaps: the fill's coverage in the shadow colour at the anchor moved by the shadow, the border's coverage in the outline colour, and the fill's coverage in the text colour, the last two at the rounded anchor. A karaoke sweep cuts the first columns of a tile and keeps every byte in its place.", "quantifier": "every text, position, colour, width, shadow and platform whose coordinates fit 32 bits", "why_tests_cant": "Order and position must be right for all positions and sizes, not for one picture.", "anchors": ["crates/ass-renderer/src/backends/software/cache/blur_tile.rs: emit_cached crop_coverage_columns", "crates/ass-renderer/src/backends/geometry.rs: shadow_delta"]}
{"id": "C178", "title": "Blurring is the two-pass Gaussian and does not panic", "statement": "For a positive deviation whose radius is at most 46340, blurring a canvas gives a canvas of the same size in which every pixel is the Gaussian average along its row and then along its column, of colours multiplied by their alpha, with the border pixel repeated outside. A deviation that is zero, negative or not a number changes nothing. A radius above 46340 panics on any canvas with a pixel.", "quantifier": "every canvas, deviation, arithmetic and exp function", "why_tests_cant": "The statement is about every pixel of every canvas and every radius.", "anchors": ["crates/ass-renderer/src/backends/blur.rs: apply_gaussian_blur"]}
{"id": "C179", "title": "A blur reaches no further than its radius", "statement": "A blurred pixel depends only on the pixels within the radius in both directions. Where those are all transparent it is transparent black, also when the kernel overflows or is not a number. A transparent pixel of the result has no colour.", "quantifier": "every canvas, deviation, radius, exp function", "why_tests_cant": "Tests look at a few glyphs; the claim is about every pixel of every picture.", "anchors": ["crates/ass-renderer/src/backends/blur.rs: apply_gaussian_blur"]}
{"id": "C180", "title": "A blur averages", "statement": "With nothing rounded but the resulting bytes, the weights add up to one, a blurred pixel's alpha lies between the least and the greatest alpha within the radius, and an opaque area of one colour keeps it exactly.", "quantifier": "every canvas, deviation, radius and positive exp function", "why_tests_cant": "The bounds must hold for every picture and radius.", "anchors": ["crates/ass-renderer/src/backends/blur.rs: apply_gaussian_blur"]}
{"id": "C181", "title": "A blurred white picture is white with varying alpha", "statement": "Blurring a picture of opaque white and transparent pixels gives pixels that are transparent black or white with some alpha. The result is therefore not premultiplied, although the code that draws it takes it to be: drawn on white it darkens pixels.", "quantifier": "every such picture, deviation, radius and arithmetic; one picture for the failure", "why_tests_cant": "The first part ranges over all pictures; the second is about the meaning of bytes handed from one function to another, which no test of either checks.", "anchors": ["crates/ass-renderer/src/backends/blur.rs: apply_gaussian_blur", "crates/ass-renderer/src/backends/coverage/composite.rs: composite_rgba", "crates/ass-renderer/src/backends/software/text/blur.rs: draw_blurred_text"]}
{"id": "C182", "title": "A run of text gets exactly the effects its tags and style ask for, in a fixed order", "statement": "For every run of text, with whatever tags are in force, whatever style and whatever frame, an effect (bold, italic, underline, strike-out, box, outline, shadow, blur, edge blur, rotation, shear, stretch, clip) is attached to the run's layer if and only if the tags or, where they are silent, the style ask for it, with the values these give; effects come in one fixed order, each kind at most once; and every text layer an event yields has the size, colour and effects of one of the event's runs after its animations.", "quantifier": "every set of tags, style, frame size, script resolution, ScaledBorderAndShadow value, colour pair, event and moment", "why_tests_cant": "There are infinitely many combinations of tags, style cells (numbers or junk) and frame sizes; tests try a few.", "anchors": ["crates/ass-renderer/src/pipeline/build/text/effects.rs:push_text_effects", "crates/ass-renderer/src/pipeline/build/text/mod.rs", "crates/ass-renderer/src/pipeline/build/text/defaults.rs"]}
{"id": "C183", "title": "What plays no part in the look of text and drawings", "statement": "The effects of a text depend on 22 tag fields and nine style cells only; where tags give weight, slant, lines, border, shadow and scale the style has no say; a drawing's colour, place, stroke, clip and blur depend on 12 tag fields only.", "quantifier": "every pair of tag sets agreeing on those fields, every pair of styles agreeing on those cells, every frame and moment", "why_tests_cant": "Independence is a statement about all pairs of inputs.", "anchors": ["crates/ass-renderer/src/pipeline/build/text/effects.rs:push_text_effects", "crates/ass-renderer/src/pipeline/build/drawing.rs:process_drawing_command"]}
{"id": "C184", "title": "Without ScaledBorderAndShadow the frame size changes only blur, rotation centre and clip", "statement": "If a script says ScaledBorderAndShadow: no, then for every text the outline, box, shadow, edge blur, shear and stretch are the same on frames of every size; and whether blur, rotation and clip are there at all never depends on the frame.", "quantifier": "every two frames, every style and set of tags", "why_tests_cant": "It compares all pairs of frame sizes for all tags.", "anchors": ["crates/ass-renderer/src/pipeline/build/text/effects.rs:push_text_effects"]}
{"id": "C185", "title": "The point of a drawing named by its alignment is put on the drawing's position", "statement": "For every drawing whose bounds and position lie within 10000 pixels, and every alignment 1 to 9, the corner, edge middle or centre of the bounds named by the alignment lands within 1/512 of a pixel of the position, in 32-bit float arithmetic.", "quantifier": "every bounding box, position and alignment", "why_tests_cant": "The claim is about rounding for all coordinates.", "anchors": ["crates/ass-renderer/src/pipeline/build/drawing.rs:process_drawing_command"]}
{"id": "C186", "title": "Frames that share pixels behave as separate values", "statement": "A program over frames - new, with_format, empty, clone, with_timestamp, data_mut, to_rgba, into_buffer, drop and all readers - sees exactly what it would see if every frame owned its bytes: writing to one frame never changes another. No freed buffer is used, a buffer is kept exactly while some frame uses it, clone and with_timestamp make no new buffer, and a frame that shares with no other is written in place.", "quantifier": "every sequence of operations on any number of frames", "why_tests_cant": "Copy-on-write errors show only in particular histories of sharing, writing and dropping; the claim is about all of them.", "anchors": ["crates/ass-renderer/src/renderer/frame.rs:Frame"]}
{"id": "C187", "title": "to_rgba keeps the picture and is_empty tells whether it is transparent", "statement": "Converting a frame keeps colour and alpha of every pixel (RGB pixels become opaque), size and time; it fails only for an RGB frame whose RGBA size does not fit in 32 bits; is_empty holds exactly when the format has alpha and every pixel's alpha is zero.", "quantifier": "every frame reachable by any program, every buffer (also of a length that is no whole number of pixels), every pixel", "why_tests_cant": "Ranges over all buffers, formats and pixels.", "anchors": ["crates/ass-renderer/src/renderer/frame.rs:Frame::to_rgba", "crates/ass-renderer/src/renderer/frame.rs:Frame::is_empty", "crates/ass-renderer/src/renderer/frame.rs:Frame::empty"]}
{"id": "C188", "title": "The GPU compositor's reuse of resources cannot be seen", "statement": "For any list of composite, render, read-back and present calls of any sizes on one GPU compositor, including failed ones, every composite answers the bytes of its tiles drawn in order on a clear frame: target textures, pooled tile textures, uniform slots and read-back buffers kept from earlier calls leave no trace, and no call breaks a device limit or panics when its own sizes fit.", "quantifier": "every list of calls, every bitmap list and size that fits, every device with WebGPU's guarantees, every outcome of mapping the read-back buffer", "why_tests_cant": "The tile pool, growing uniform buffer and cached target depend on the whole history of sizes; the tests composite a few frames and need a GPU.", "anchors": ["crates/ass-renderer/src/backends/gpu/compositor/mod.rs:composite", "crates/ass-renderer/src/backends/gpu/compositor/tiles.rs:prepare_tiles", "crates/ass-renderer/src/backends/gpu/pool.rs:TilePool", "crates/ass-renderer/src/backends/gpu/readback.rs"]}
{"id": "C189", "title": "A GPU layer is the composited picture until it is rendered again", "statement": "After rendering a layer, reading it back gives the bytes composite gives for the same tiles; composite and present calls in between do not change it; presenting on a view draws the background and then that layer over the whole view and changes no other texture of the user; presenting without a layer of that size is an error that changes nothing.", "quantifier": "every list of calls, backgrounds and views", "why_tests_cant": "Layer, frame target and screen texture are separate cached slots keyed by size; mixing them up shows only in particular histories.", "anchors": ["crates/ass-renderer/src/backends/gpu/compositor/mod.rs:render_layer", "crates/ass-renderer/src/backends/gpu/compositor/present.rs", "crates/ass-renderer/src/backends/gpu/layer.rs"]}
{"id": "C190", "title": "The GPU draws each tile on exactly its own pixels", "statement": "For every tile whose edges lie within 65536 pixels of the origin on a frame of at most 16384 by 16384, the rounded device coordinates cover exactly the columns x to x+w-1 and rows y to y+h-1, and each of those pixels shows the one texel with the same offset in the tile.", "quantifier": "every tile position and size, every frame size in range", "why_tests_cant": "Three single-precision roundings per edge depend on position and frame size; an off-by-one pixel or doubled texel would show only for particular combinations.", "anchors": ["crates/ass-renderer/src/backends/gpu/pool.rs:tile_rect", "crates/ass-renderer/src/backends/gpu/shader.rs"]}
{"id": "C191", "title": "The face for a text is the best one, and the one asked for unless another shows more", "statement": "When every installed face can be read, choosing a face always succeeds: it is the face asked for unless another shows strictly more of the text's characters; then, for a text with Chinese, Japanese or Korean characters, the first best of the known faces for those if one is better, and otherwise the first best of all faces. A face that shows the whole text is kept whatever else is installed.", "quantifier": "every database of faces, every query answer, family, weight, slant and text", "why_tests_cant": "The outcome depends on which faces are installed and what each covers; tests run with the fonts of one machine.", "anchors": ["crates/ass-renderer/src/pipeline/shaping/font_select.rs:find_font_for_text"]}
{"id": "C192", "title": "The debug player shows frames of the loaded script, from a bounded cache", "statement": "After any calls to the player, a frame it shows comes from the script last loaded with success and was drawn for a moment in the same 40 ms slot as the reported position; with the cache off it was drawn for exactly that position. The cache holds at most its limit (one when the limit is zero) and nothing when off.", "quantifier": "every list of player calls at every clock, every script, parser and renderer", "why_tests_cant": "A stale frame after a reload, seek or resize needs a particular history of calls; tests replay a few", "anchors": ["crates/ass-renderer/src/debug/player/mod.rs: load_script", "crates/ass-renderer/src/debug/player/render.rs: render_current_frame", "crates/ass-renderer/src/debug/player/playback.rs: set_cache_enabled set_max_cache_size"]}
{"id": "C193", "title": "The debug player's position follows the clock at the chosen speed and stays in the script", "statement": "With playing started or the position set at one moment, and only updates and renders since, an update puts the position at the start plus elapsed time times speed to within a millisecond and a millionth of the distance, never goes back, and stops at the end. Between loads the position never passes the end, and the speed stays between a tenth and ten.", "quantifier": "every history of calls before, every elapsed time below 2^44 ns, every speed that is a number, every schedule of updates", "why_tests_cant": "Rounding of the elapsed time depends on its value; the range property depends on histories", "anchors": ["crates/ass-renderer/src/debug/player/render.rs: update", "crates/ass-renderer/src/debug/player/playback.rs: play seek step_forward step_backward set_speed"]}
{"id": "C194", "title": "The frame analyser finds exactly the connected areas", "statement": "For a frame with one byte per channel and pixel, analysis does not panic, and its regions are exactly the sets of visible pixels joined side by side that have more than ten pixels, in reading order of their first pixels, each once, with the exact bounding box, pixel count and floor of the mean of each channel. Text areas are exactly the boxes of those wider than 1.5 times their height, 15 to 199 high and above 200 in some colour channel.", "quantifier": "every frame of every size below 2^32 pixels with any bytes (width up to 2^24 for text areas)", "why_tests_cant": "Connectivity depends on the whole picture; a flood fill that misses or repeats a pixel does so on particular shapes only", "anchors": ["crates/ass-renderer/src/debug/analyzer/mod.rs: analyze detect_regions flood_fill detect_text_areas"]}
{"id": "C195", "title": "The frame analyser's counts are exact", "statement": "For such a frame the histogram entry of each value of each channel is the number of pixels with that value, visible pixels and the white, black, grey and coloured ones among them are counted exactly, the dominant value of a channel is the first most frequent one, and the transparent share in percent is right to 1/10000.", "quantifier": "every frame as above; not empty for the share", "why_tests_cant": "Rounding and ties depend on the data", "anchors": ["crates/ass-renderer/src/debug/analyzer/mod.rs: calculate_pixel_histogram", "crates/ass-renderer/src/debug/analyzer/report.rs: calculate_statistics calculate_dominant_color"]}
{"id": "C196", "title": "A comparison of two pictures reports exactly the pixels that differ", "statement": "Comparing two pictures looks at the area they share, in reading order. It lists exactly the places whose four channel differences add up to more than 40 (a mean above 10), each with its place, both colours and the exact mean; the count is the length of that list and the greatest difference is exact. The greatest difference is zero exactly when the pictures agree on the shared area. While the picture has at most 2^24 pixels and the differences sum to less than 2^24, the pixel count is exact and the average is the true average rounded once. A picture whose pixel count exceeds 32 bits ends the program.", "quantifier": "all pairs of pictures of any sizes and any pixels", "why_tests_cant": "Every pair of pictures gives its own accumulation of floats over millions of pixels; a test compares a handful of small ones.", "anchors": ["crates/ass-renderer/src/debug/visual_comparison/mod.rs: compare_with_libass"]}
{"id": "C197", "title": "Shaped text has its glyphs, edges and height where the font says", "statement": "Shaping gives the shaper's glyphs in order with their ids and clusters, the width is the sum of the advances and the baseline is the ascent, at every size. In a font with a power of two of units per em and at a size of whole pixels, while every product of units and size fits 24 bits, every position, offset, advance, the width, ascent, descent, height and the left and right edge of the ink are exactly the font's numbers times size over units; the Windows metrics count when present. Text without ink has its advance as ink. Shaping ends the program exactly when a Windows metric is the least 16-bit number.", "quantifier": "all fonts, all texts, all sizes", "why_tests_cant": "Fonts and texts are unbounded and the positions are accumulated floats; a test shapes a few strings with an installed font.", "anchors": ["crates/ass-renderer/src/pipeline/shaping/shape.rs: shape_text_with_style", "crates/ass-renderer/src/pipeline/shaping/font_metrics.rs: FontMetrics", "crates/ass-renderer/src/pipeline/shaping/mod.rs: ShapedText"]}
{"id": "C198", "title": "The cache of shaped texts is not seen with one font database", "statement": "A thread that shapes any sequence of texts with one font database, through the cache or not, gets for each text what shaping it afresh would give, errors and panics included, and the cache never holds more than 8192 texts. With several databases each answer is still what some database asked before for the same text, family, size and style gives.", "quantifier": "all sequences of shaping calls of one thread", "why_tests_cant": "The answer depends on the whole history of the thread; tests look at a call or two.", "anchors": ["crates/ass-renderer/src/pipeline/shaping/shape.rs: shape_text_cached", "crates/ass-renderer/src/pipeline/shaping/shape.rs: cached_font_file"]}
{"id": "C199", "title": "The cache of glyph outlines is not seen when sizes differ visibly", "statement": "A glyph renderer that draws any sequence of texts with one font database gives for each the outlines of its glyphs at its font and size, moved to their positions plus the spacing before them, as long as texts whose sizes agree in their first sixteen binary places have the same size. In general every outline is the right glyph of the right font at the size of some text drawn so far that agrees to sixteen places.", "quantifier": "all sequences of drawing calls, fonts, sizes and spacings", "why_tests_cant": "The answer depends on everything drawn before; tests draw one text.", "anchors": ["crates/ass-renderer/src/pipeline/shaping/glyph_renderer.rs: GlyphRenderer::render_shaped_text"]}
{"id": "C200", "title": "A text box stands where its alignment says", "statement": "For whole-number screens, margins and boxes, the position computed for any alignment number is exact: the left margin, the middle or the right margin across, and the top margin, the middle or the bottom margin down, numbers outside 1-9 counting as 2. When the box and the margins fit, the whole box lies on the screen. Scaling from script to screen coordinates is exact when the screen is a whole multiple of the script's resolution. Both readers of the old SSA alignment numbers read the nine defined numbers correctly, and they agree with each other exactly on the bytes with a column and without the mark 12, or divisible by 16.", "quantifier": "all alignment bytes and all whole-number screens, margins and boxes up to 2^20", "why_tests_cant": "Tests try a few screens; the positions are float arithmetic over all sizes and the two SSA readers differ on bytes no test uses.", "anchors": ["crates/ass-renderer/src/layout/alignment.rs Alignment", "crates/ass-renderer/src/layout/context.rs LayoutContext::calculate_position", "crates/ass-renderer/src/layout/positioning/coords.rs scale_coordinates convert_ssa_alignment"]}
{"id": "C201", "title": "Lines of a text are stacked without loss", "statement": "Laying out a text gives one line for each part between line breaks, and joining the lines with line breaks gives the text back. For whole-number line spacing each line stands at its number times fifty plus the spacing, is twenty times its bytes wide, is flush left, centred or flush right within the widest line, and never sticks out of it; the total width is the widest line and the total height ends at the bottom of the last line.", "quantifier": "all texts, all alignments; geometry for all whole-number spacings, with widths and heights up to 2^20", "why_tests_cant": "Tests lay out one or two lines; the claim is for every text and spacing.", "anchors": ["crates/ass-renderer/src/layout/multiline.rs MultiLineLayout::new"]}
{"id": "C202", "title": "Positions and movements put the box's anchor on the point", "statement": "With a position or movement tag, the anchor of the box is put exactly on the named point; a position tag wins over the start of a movement, and without either the box stands at its alignment. The rotation origin is the tag's point or the middle of the box at its alignment. With a movement the box is exactly at the first point until the movement begins, exactly at the last point from its end on (or always, when the times are not in order), and in between it moves one way only.", "quantifier": "all tags, whole-number boxes, screens and points up to 2^20, all u32 times and pairs of times", "why_tests_cant": "Tests check three instants of one movement; being monotone and exact at the ends is for every pair of times and every rounding.", "anchors": ["crates/ass-renderer/src/layout/positioning/info.rs PositionInfo::calculate PositionInfo::calculate_with_movement"]}
{"id": "C203", "title": "Matrices compose and transforms interpolate between their ends", "statement": "Multiplying whole-number matrices gives the textbook product, and mapping a point by the product gives exactly the point mapped by the second and then the first, while the sizes allow; the identity changes no matrix of f32 numbers. A transform's matrix scales, then turns, then moves a point, exactly so for quarter turns and whole numbers. Interpolating two transforms gives exactly the first at 0 and the second at 1, and each field goes one way in between. The cubic curve starts at 0 and ends at 1 for all finite control values.", "quantifier": "all whole-number matrices and points within the stated product of sizes, all f32 matrices for the identity, all pairs of parameters in [0,1]", "why_tests_cant": "Tests multiply one or two matrices; rounding and order of the factors matter for every entry and every parameter.", "anchors": ["crates/ass-renderer/src/utils/math.rs Matrix3x3::multiply Matrix3x3::transform_point Transform2D::to_matrix Transform2D::lerp lerp cubic_bezier"]}
{"id": "C204", "title": "Tag parameters are accepted exactly in their ranges", "statement": "Each checker of a tag parameter returns the value unchanged when it lies in its range and an error otherwise, NaN and infinities being in no range. A checked clip rectangle has its corners in order and made of the given coordinates, and is refused only when a coordinate is not finite. A rotation becomes an angle between 0 and 360 that differs from it by whole turns, exactly for angles from 0 up and for all whole angles, and otherwise within 2^-16.", "quantifier": "all bytes, all u32, all f32 values including NaN and infinities", "why_tests_cant": "The ends of the ranges, NaN and the rounding of negative angles are not reached by example tests.", "anchors": ["crates/ass-renderer/src/pipeline/validation.rs validate_alignment validate_rotation validate_clip_rect"]}
{"id": "C205", "title": "The memory pool's statistics and resets, for every history", "statement": "For every history of allocations, resets, collections and configuration changes: the reported use never exceeds what the arenas hold, the peak is at least every use ever reported and at most the most ever held, and the count of resets never falls. Asking for the primary arena as many times as the reset threshold, whatever else is done except changing the configuration, resets it at least once; each request either counts one more below the threshold or resets the arena, for a reason, and starts the count again. A collection resets the temporary arena, counts one cycle and returns exactly what it freed when the use was up to date; a cleanup resets both arenas and the counters. Each reset strategy fires exactly at its threshold, and the manual one never. The pool is under pressure only when its use exceeds the configured share of its limit, and collects by itself only when configured, not sooner than the interval after the last collection, and when the use has grown by more than the factor, or is over half the limit before any was recorded.", "quantifier": "all sequences of operations, all configurations and clock readings, any behaviour of an arena's reset that does not grow it", "why_tests_cant": "Unit tests run one short sequence; the bounds must hold after any interleaving of allocations, resets and collections.", "anchors": ["crates/ass-editor/sessions/memory/pool.rs MemoryPool", "crates/ass-editor/sessions/memory/gc.rs MemoryPool::collect_garbage", "crates/ass-editor/sessions/memory/strategy.rs SmartArenaManager::evaluate_reset_strategy"]}
{"id": "C206", "title": "The format registry answers for exactly what is registered", "statement": "After any history of registrations each name stands for the format, importer or exporter registered last under it, and nothing else is in the registry. Looking up an extension, ignoring ASCII case, returns a registered handler that lists it, a combined format whenever one does, and nothing only when none lists it, whatever the order in which the maps are visited. The list of supported extensions is strictly sorted, contains each listed extension once and nothing else, does not depend on map order, and each of its entries can be looked up. A file is refused exactly when it has no extension or none of the registered handlers lists it. When two formats list the same extension, the map order decides which one answers (shown by a counterexample to a fixed choice).", "quantifier": "all histories of registrations, all sets of handlers with any names and extensions, all iteration orders of the maps, all extensions", "why_tests_cant": "The lookup iterates over hash maps whose order varies between runs; a test sees one order and a few registered formats.", "anchors": ["ass-editor/formats/registry.rs FormatRegistry", "ass-editor/formats/traits.rs FormatImporter::can_import FormatExporter::can_export Format::name"]}
{"id": "C207", "title": "A slice's offset, line and column in its source", "statement": "For a slice of the source text the reported byte offset is the size of what stands before it, the line is one more than the newlines before it, the column one more than the characters since the last newline, and taking that range gives the slice back; nothing panics, also with multi-byte characters. A slice outside the memory of the source is refused by every question. Two slices with the same line and column begin at the same place. Memory and size limits accept exactly the numbers within them, an overflowing sum is its own error, and the error carries the numbers.", "quantifier": "all source texts, all slices of them, all addresses; all usize numbers for the limits", "why_tests_cant": "Offsets are byte offsets into UTF-8 text, so a test settles only its own mixture of newlines and multi-byte characters.", "anchors": ["ass-core/utils/spans.rs Spans", "ass-core/utils/errors/resource.rs check_memory_limit check_input_size_limit check_depth_limit"]}
{"id": "C208", "title": "Text recovered from damaged bytes", "statement": "Every sequence of bytes is read in exactly one way as characters and broken pieces, where a broken piece is the longest beginning of a character that does not go on, or one byte with which no character begins. The recovered text has the characters in place and one replacement character for each broken piece; it is valid text of at most three bytes for each byte given. Well-formed bytes come back unchanged with a count of zero, even if they contain replacement characters. Otherwise the count is the number of replacement characters in the result, which is not the number of broken pieces when the bytes already contained some (shown by a counterexample).", "quantifier": "all byte sequences, all texts", "why_tests_cant": "Which bytes can follow which depends on the previous ones; a test covers a few broken sequences, not every interleaving with valid text.", "anchors": ["ass-core/utils/utf8/validation/recovery.rs recover_utf8 count_replacement_chars"]}
{"id": "C209", "title": "Colour diagnosis, name checks and back-end choice", "statement": "The colour diagnosis exists exactly for a text made of &H, a hexadecimal number that fits 32 bits and any number of ampersands; it shows the bytes of that number, the alpha byte only from eight digits on, and the label naming exactly those bytes. Where the parser reads a colour written with &H the diagnosis shows the same channels. Colour overrides are reported exactly when a text contains \\c or \\1c (which \\clip does too). A name is accepted exactly when it is not empty and has no comma, colon, brace or control character other than a tab. The chosen back end is the first of the preferred order that is compiled in and can be created, and none is reported only when none can.", "quantifier": "all texts, all lists of events, all preference orders and all outcomes of creating a back end", "why_tests_cant": "Digits, trailing marks and orders combine without bound; a test fixes a few colours and one preference order.", "anchors": ["ass-renderer/src/debug/color_diagnostic.rs ColorDiagnostic::analyze_script", "ass-core/utils/fields.rs validate_ass_name", "ass-renderer/src/renderer/probing.rs BackendProber"]}
{"id": "C210", "title": "The frame inspector shows the frame as it is", "statement": "For every picture stored row after row: asking for a pixel gives exactly its colour, or nothing outside the picture. For every history of loading frames, moving and setting the cursor, the cursor is on a pixel of the loaded frame, and a move or a set lands on the requested position clamped to the frame. A region holds exactly the pixels of the requested rectangle that exist, row by row, with the right size, sums and mean. The bounds of what is not transparent are the smallest box holding it, or nothing. A scanned line's segments hold exactly its visible pixels in order; each is an unbroken run whose pixels are within 30 of its first, and two neighbours have a gap between them or differ. Two pixels are similar exactly when no channel differs by more than the threshold. False as the code stands: a region starting beyond the frame, or a very long move, is a panic in a checked build, and a segment that ends before the line does reports its first pixel's colour as its average.", "quantifier": "all pictures of up to 2^30 pixels, all positions, rectangles and lines, all sequences of cursor operations", "why_tests_cant": "A test looks at a few pixels of one picture; these must hold for every picture, rectangle and history.", "anchors": ["crates/ass-renderer/src/debug/inspector/mod.rs FrameInspector", "crates/ass-renderer/src/debug/inspector/info.rs LineScanSegment", "crates/ass-renderer/src/debug/inspector/info.rs ColorHistogram"]}
{"id": "C211", "title": "Effect parameters and the effect registry keep what was last given", "statement": "For every sequence of settings, a parameter reads back as the last value given to its key, and the float, integer and colour readers answer exactly when that value has their type. For every history of registering, removing and clearing, the effect found under a name is the one last registered under it with no removal or clearing since, removing returns that same effect, and the list names each standing effect exactly once.", "quantifier": "all sequences of settings and of registry operations, any order in which the hash map yields its entries", "why_tests_cant": "Tests register one or two effects; the answer depends on the whole history and on the map's order.", "anchors": ["crates/ass-renderer/src/plugin/mod.rs EffectParams", "crates/ass-renderer/src/plugin/mod.rs PluginRegistry"]}
{"id": "C212", "title": "Problem reports lose nothing", "statement": "The text of a parse problem determines its line, column, category and severity, and, when its message is one line, its message and suggestion (a message of two lines can pass for a suggestion). The text of a tokenizer problem determines its level, message, line and column whatever the message contains. Adding problems to a result keeps the result and every problem in order; the critical ones listed are exactly those with that severity, a result is blocking exactly when there is one, and the four counts add up. Whatever sequence of adding and taking is made on the tokenizer's collector, each problem added is handed out once or still held, in order; clearing or taking leaves nothing.", "quantifier": "all problems, messages, results and histories of calls", "why_tests_cant": "Messages and histories are unbounded; a test shows one text.", "anchors": ["crates/ass-core/parser/errors/parse_issue/issue.rs ParseIssue::format_for_display", "crates/ass-core/parser/errors/parse_result/result_with_issues.rs ParseResultWithIssues", "crates/ass-core/tokenizer/state/issue.rs TokenIssue::format_issue", "crates/ass-core/tokenizer/state/collector.rs IssueCollector"]}

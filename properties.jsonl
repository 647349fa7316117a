{"id": "C01", "title": "Every HTTP/1 resume call terminates", "statement": "Parser::resume always returns: the dispatch loop inside one call executes a number of state-function invocations bounded by a linear function of the length of the supplied stream, whatever the handler answers.", "quantifier": "for every parser state reachable through the public API, every byte stream and every handler (any pattern of true/false answers and content_length answers)", "why_tests_cant": "Non-termination shows only on particular state/byte combinations in which a state hands a byte back (replay) to another state; the number of state x input combinations is unbounded.", "anchors": ["src/http1/parser.rs:Parser::resume", "src/http1/parser.rs:Parser::parse"]}
{"id": "C02", "title": "HTTP/1 return values tell the truth about consumption", "statement": "Ok(Success::Eos(n)) is returned only with n equal to the whole supplied stream (for URL-encoded bodies: the stream cut to the remaining declared length); Ok(Success::Callback(n)) and Ok(Success::Finished(n)) have n at most that length.", "quantifier": "for every reachable parser state, every stream, every handler", "why_tests_cant": "Tests check the returned number on a few dozen fixed inputs; a caller slices its buffer at n for every input, so one wrong n silently drops or repeats bytes.", "anchors": ["src/http1/parser.rs:Parser::resume", "src/fsm.rs:Success"]}
{"id": "C03", "title": "An HTTP/1 error is sticky", "statement": "After resume returns an error, state() is Dead, and every later resume on any stream returns Err(ParserError::Dead), calls no handler method and changes nothing, until init_*/reset is called.", "quantifier": "for every reachable parser state, every stream producing an error, every later sequence of streams and handlers", "why_tests_cant": "A test tries one later call; a server under attack keeps feeding data and must never receive callbacks from a desynchronised parser.", "anchors": ["src/http1/parser.rs:Parser::resume", "src/http1/parser.rs:dead"]}
{"id": "C04", "title": "Finished is absorbing for HTTP/1", "statement": "After resume returns Finished, state() is Finished and every later resume returns Finished(0) without any callback and without consuming input, so pipelined bytes are never misread as part of the finished message.", "quantifier": "for every reachable state in which Finished was returned, every following stream and handler", "why_tests_cant": "Requires quantification over all continuations after all finishing inputs.", "anchors": ["src/http1/parser.rs:finished", "src/http1/parser.rs:Parser::resume"]}
{"id": "C05", "title": "byte_count counts consumed bytes (head, chunked, multipart)", "statement": "Across any sequence of resume calls on a head, chunked or multipart parser, byte_count() grows by exactly the number of bytes consumed, so that it equals the total consumed since the parser was created (init_*/reset do not clear it).", "quantifier": "for every sequence of resume calls, any segmentation, any handler", "why_tests_cant": "Accounting errors appear only with particular interleavings of pauses, segment ends and errors.", "anchors": ["src/http1/parser.rs:Parser::byte_count", "src/http1/parser.rs:Parser::resume"]}
{"id": "C06", "title": "byte_count counts consumed bytes (URL-encoded)", "statement": "For a URL-encoded body the same holds: after the body has finished byte_count() equals the number of body bytes consumed. (Expected of the API; the code counts the bytes consumed by the call that ends the body twice and those of all other calls once - refuted with a witness, and the exact count proved, for one call and for a stream in pieces: until the body has ended every byte is counted once; when it ends, the bytes of the body in the last piece are counted twice, or fewer of them if the handler paused in that piece.)", "quantifier": "for every URL-encoded body and segmentation", "why_tests_cant": "No test reads byte_count after a URL-encoded body.", "anchors": ["src/http1/parser.rs:Parser::resume", "src/http1/parser.rs:Parser::byte_count"]}
{"id": "C07", "title": "Head parsing is independent of segmentation and pausing", "statement": "For one byte sequence fed to a head parser, the callbacks observed (with consecutive fragments of the same item concatenated), the final outcome, the bytes left unconsumed and the final state() do not depend on how the bytes are cut into resume calls nor on which callbacks return false, provided the message does not begin with an 'H' that is not the start of \"HTTP/\" (or at least 9 bytes of it are present in the segment in which it is detected). In case of an error, two ways of feeding differ at most in how many of the last bytes of the item containing the error have been reported.", "quantifier": "for every byte sequence, every two segmentations, every two handlers pausing at arbitrary callbacks", "why_tests_cant": "A sequence of n bytes has 2^(n-1) segmentations, times all pause patterns, and the fast paths (9-byte version match, whole-header-name match) are taken only for some of them.", "anchors": ["src/http1/parser.rs:detect1", "src/http1/parser.rs:first_header_name", "src/http1/parser.rs:request_http1", "src/http1/parser.rs:Parser::resume"]}
{"id": "C08", "title": "Methods beginning with H survive segmentation", "statement": "A request whose method begins with 'H' (for example HEAD) is reported with its full method name for every segmentation. (Expected; false in the code: with fewer than 9 bytes available at detection the leading letters are dropped - refuted with a witness; with nine bytes in the first piece the full name is reported - proved.)", "quantifier": "for every request line with an H-method and every segmentation", "why_tests_cant": "The tests for methods never split inside the first nine bytes of an H-method.", "anchors": ["src/http1/parser.rs:detect1", "src/http1/parser.rs:detect2", "src/http1/parser.rs:detect3", "src/http1/parser.rs:detect4", "src/http1/parser.rs:detect5"]}
{"id": "C09", "title": "Chunked-body parsing is independent of segmentation and pausing", "statement": "For one byte sequence fed to a chunked parser, concatenated callbacks, outcome, unconsumed bytes and state() do not depend on the cutting into resume calls nor on the pausing pattern. In case of an error, two ways of feeding differ at most in how many of the last bytes of the item containing the error have been reported.", "quantifier": "for every byte sequence, every two segmentations, every two handlers", "why_tests_cant": "Exponentially many segmentations; chunk length, extension, data and trailer states all may be interrupted.", "anchors": ["src/http1/parser.rs:chunk_length1", "src/http1/parser.rs:chunk_data", "src/http1/parser.rs:chunk_extension_value", "src/http1/parser.rs:Parser::resume"]}
{"id": "C10", "title": "Multipart parsing is independent of segmentation and pausing", "statement": "For one byte sequence and one boundary (without CR, of at most 2^14 bytes; it may be empty) fed to a multipart parser, concatenated callbacks, outcome kind, unconsumed bytes and state() do not depend on segmentation or pausing, with content_length answers depending only on what has been reported so far. In case of an error, two ways of feeding differ at most in how many of the last bytes of the item containing the error have been reported. Both conditions on the boundary are needed: with a CR in the boundary, or with a boundary one byte longer than 2^14, one cut of a stream is finished and another is not.", "quantifier": "for every boundary, byte sequence, two segmentations, two handlers", "why_tests_cant": "A boundary can be interrupted at any byte and a false boundary must be re-delivered as data; the state space is the product of boundary position and input.", "anchors": ["src/http1/parser.rs:multipart_boundary", "src/http1/parser.rs:multipart_data_by_byte", "src/http1/parser.rs:multipart_data_by_length", "src/http1/parser.rs:Parser::set_boundary"]}
{"id": "C11", "title": "URL-encoded parsing is independent of segmentation and pausing", "statement": "For one body and its declared length, concatenated name/value callbacks, outcome and unconsumed bytes do not depend on segmentation or pausing. In case of an error, two ways of feeding differ at most in how many of the last bytes of the item containing the error have been reported.", "quantifier": "for every body, every two segmentations, every two handlers", "why_tests_cant": "Percent escapes can be cut in any place; the last segment takes a different path in resume.", "anchors": ["src/http1/parser.rs:url_encoded_name", "src/http1/parser.rs:url_encoded_value", "src/http1/parser.rs:Parser::resume", "src/http1/parser.rs:Parser::set_length"]}
{"id": "C12", "title": "The client loop always makes progress", "statement": "A client that re-feeds the unconsumed bytes after each Callback(n) reaches, after finitely many calls, end of stream, Finished or an error: a handler answering false cannot make the parser repeat a callback for the same bytes or livelock.", "quantifier": "for every reachable state, stream, handler (including always-false)", "why_tests_cant": "Requires reasoning over unbounded pause sequences.", "anchors": ["src/http1/parser.rs:Parser::resume", "src/fsm.rs:callback_transition"]}
{"id": "C13", "title": "HTTP/1 parsing never reads out of bounds or panics on 0xFF-free input", "statement": "On streams free of byte 0xFF, resume neither panics nor performs an out-of-range access, provided a multipart parser has been given its boundary before parsing starts and the first stream passed to a parser fresh from new() is not empty.", "quantifier": "for every parser obtained from the public functions under these conditions, every such stream, every handler", "why_tests_cant": "The unsafe comparisons and slice indexing are valid only by virtue of checks in other places; each must hold for all stream lengths.", "anchors": ["src/http1/parser.rs:detect1", "src/http1/parser.rs:first_header_name", "src/byte.rs:is_header_field", "src/collect.rs:collect_field"]}
{"id": "C14", "title": "HTTP/1 parsing never panics on any byte", "statement": "No byte value can make resume panic. (Expected; false: the lookup tables have 255 entries, so byte 0xFF in a header value, header name or chunk extension panics - refuted with a witness; also a fresh Parser fed an empty stream performs an out-of-bounds read, and multipart without a boundary panics.)", "quantifier": "for every stream", "why_tests_cant": "The tests loop over byte ranges built from the same 255-entry helper tables and never try 0xFF there.", "anchors": ["src/byte.rs:HEADER_FIELDS", "src/byte.rs:TOKENS", "src/http1/parser.rs:detect1", "src/http1/parser.rs:multipart_boundary"]}
{"id": "C15", "title": "Header names are reported as non-control lower-case tokens", "statement": "Every byte passed to on_header_name is an RFC token byte that is not an upper-case letter, for heads, chunked trailers and multipart part headers.", "quantifier": "for every reachable state, stream, segmentation and handler", "why_tests_cant": "An invariant over all outputs for all inputs.", "anchors": ["src/http1/parser.rs:upper_header_name", "src/http1/parser.rs:lower_header_name", "src/http1/parser.rs:first_header_name"]}
{"id": "C16", "title": "Header values cannot smuggle line breaks", "statement": "No byte passed to on_header_value or on_chunk_extension_value is CR, LF, NUL or any other control byte except TAB.", "quantifier": "for every reachable state, stream, segmentation and handler", "why_tests_cant": "Response-splitting safety is a universally quantified statement on outputs.", "anchors": ["src/http1/parser.rs:header_value", "src/http1/parser.rs:header_quoted_value", "src/http1/parser.rs:header_escaped_value", "src/http1/parser.rs:chunk_extension_value"]}
{"id": "C17", "title": "Methods, URLs and reason phrases contain only the documented bytes", "statement": "on_method only reports upper-case letters, on_url only visible 7-bit bytes, on_status never a control byte.", "quantifier": "for every reachable state, stream, segmentation and handler", "why_tests_cant": "Universal over inputs and cut points.", "anchors": ["src/http1/parser.rs:request_method", "src/http1/parser.rs:request_url2", "src/http1/parser.rs:response_status2"]}
{"id": "C18", "title": "Well-formed requests are parsed exactly", "statement": "Rendering any request (method, URL, version numbers, header list) to the wire and feeding it reports exactly that method, URL, version, the lower-cased names and the values in order, one on_initial_finished and one on_headers_finished, and finishes exactly at the end of the head, leaving all following bytes untouched.", "quantifier": "for every well-formed request, every segmentation and pausing pattern (H-methods: single buffer), any trailing bytes", "why_tests_cant": "Infinite family of requests times segmentations; the fast-path table of 27 header names and the version fast path must agree with the slow path.", "anchors": ["src/http1/parser.rs:Parser::init_head", "src/http1/parser.rs:Parser::resume", "src/http1/parser.rs:first_header_name"]}
{"id": "C19", "title": "Well-formed responses are parsed exactly", "statement": "Rendering any response head (version, three-digit status code, non-empty reason, headers) and feeding it reports exactly these, and finishes exactly at the end of the head.", "quantifier": "for every well-formed response, every segmentation and pausing pattern, any trailing bytes", "why_tests_cant": "As for requests; numeric values must survive packing in a 14-bit field for every code and version up to three digits.", "anchors": ["src/http1/parser.rs:response_version_major1", "src/http1/parser.rs:response_status_code1", "src/http1/parser.rs:Parser::resume"]}
{"id": "C20", "title": "Chunked bodies are decoded exactly", "statement": "Rendering any list of non-empty chunks (each below 2^32 bytes, hexadecimal size in either case without leading zero, optional extensions) and the final \"0\" chunk with trailers reports each chunk's length, extensions and data unchanged and in order, then the trailers, and finishes exactly at the end.", "quantifier": "for every list of chunks, extensions and trailers, every segmentation and pausing pattern, any trailing bytes", "why_tests_cant": "Requires all sizes and contents, in particular data containing CR LF or chunk-looking text.", "anchors": ["src/http1/parser.rs:chunk_length1", "src/http1/parser.rs:chunk_data", "src/http1/parser.rs:chunk_extension_finished", "src/http1/parser.rs:Parser::init_chunked"]}
{"id": "C21", "title": "Chunk data length equals the announced length", "statement": "Between two consecutive on_chunk_length(n) callbacks exactly n bytes of chunk data are reported (at most n if the input stops in between).", "quantifier": "for every stream (well-formed or not), segmentation and handler", "why_tests_cant": "Request-smuggling safety: quantified over arbitrary hostile streams.", "anchors": ["src/http1/parser.rs:chunk_data", "src/http1/parser.rs:chunk_length_cr"]}
{"id": "C22", "title": "A zero-size chunk ends the body, with or without extensions", "statement": "A last chunk of size 0 ends the chunk sequence also when it carries chunk extensions. (Expected from RFC 7230 4.1; false in the code - refuted with a witness. In fact no such chunk ends the body: it is taken for a chunk without data, after it the parser waits for another chunk, and whatever body follows is read as the rest of this one - proved for all extensions and all that follows.)", "quantifier": "for every zero-size chunk", "why_tests_cant": "No test has an extension on the zero chunk.", "anchors": ["src/http1/parser.rs:chunk_extensions_finished", "src/http1/parser.rs:chunk_length_lf", "src/http1/parser.rs:chunk_data"]}
{"id": "C23", "title": "Multipart bodies are decoded exactly (data delimited by boundary)", "statement": "Rendering any list of parts (headers and data) with a boundary and feeding it reports each part's headers and data unchanged and in order and finishes exactly after the closing boundary, provided no part's data contains CR.", "quantifier": "for every boundary (no CR, at most 2^14 bytes), part list, segmentation and pausing pattern", "why_tests_cant": "Infinite family; data may contain any partial match of the boundary.", "anchors": ["src/http1/parser.rs:multipart_boundary", "src/http1/parser.rs:multipart_data_by_byte", "src/http1/parser.rs:multipart_detect_data"]}
{"id": "C24", "title": "Multipart data is exact for arbitrary data without the delimiter", "statement": "The previous property for arbitrary data not containing CRLF--boundary. (Expected; false: data ending in CR, CRLF or CRLF- makes the parser miss the following boundary - refuted with a witness. Proved: the parts are reported as they were written, and the body finished where it ends, exactly if no beginning of a delimiter inside the data swallows the first bytes of the delimiter behind it, a condition given as a small grammar; data without CR meets it, data whose only CR begins a CR, CRLF or CRLF- at the end does not.)", "quantifier": "for every part data", "why_tests_cant": "Needs the interplay of data tail and delimiter.", "anchors": ["src/http1/parser.rs:multipart_data_by_byte_lf", "src/http1/parser.rs:multipart_hyphen1", "src/http1/parser.rs:multipart_hyphen2"]}
{"id": "C25", "title": "Multipart data with a declared length is exact for any data", "statement": "When the handler's content_length answers the length of the part, the part's data is reported unchanged whatever bytes it contains (including the boundary), and the next boundary is then required: with other bytes in its place the parser reports MultipartBoundary, with everything before reported.", "quantifier": "for every boundary (no CR, at most 2^14 bytes), part list, data, segmentation and pausing pattern", "why_tests_cant": "Quantified over all data.", "anchors": ["src/http1/parser.rs:multipart_data_by_length", "src/http1/parser.rs:multipart_detect_data", "src/http1/http_handler.rs:HttpHandler::content_length"]}
{"id": "C26", "title": "URL-encoded bodies are decoded exactly", "statement": "Percent-encoding any list of name/value pairs, joining them with '=' and '&' and feeding them with the right length reports exactly the original bytes per name and value, one on_url_encoded_begin per pair, one on_body_finished, and consumes exactly the body.", "quantifier": "for every list of pairs of byte strings (first name non-empty), every segmentation and pausing pattern", "why_tests_cant": "Infinite family times segmentations cutting escapes.", "anchors": ["src/http1/parser.rs:url_encoded_name_hex1", "src/http1/parser.rs:url_encoded_value_hex2", "src/http1/parser.rs:url_encoded_value_plus", "src/http1/parser.rs:Parser::set_length"]}
{"id": "C27", "title": "Truncated percent escapes are errors", "statement": "A URL-encoded body ending inside a percent escape is reported as an error. (Expected from the documented errors; false: it is accepted as finished - refuted. Proved of every body: an escape cut off by the end of the body is dropped silently, and everything before it is reported.)", "quantifier": "for every body ending in '%' or '%x'", "why_tests_cant": "No test ends the declared length inside an escape.", "anchors": ["src/http1/parser.rs:Parser::resume", "src/http1/parser.rs:url_encoded_value_hex1"]}
{"id": "C28", "title": "URL-encoded parsing never looks beyond the declared length", "statement": "resume on a URL-encoded parser never consumes more bytes than remain of the length given to set_length, whatever follows, and finishes exactly when they are used up.", "quantifier": "for every length, stream (shorter or longer), segmentation and handler", "why_tests_cant": "Needs all alignments of segment ends and the declared end.", "anchors": ["src/http1/parser.rs:Parser::resume", "src/http1/parser.rs:Parser::set_length"]}
{"id": "C29", "title": "Errors point at the offending byte", "statement": "When resume returns an error carrying a byte, that byte is the last byte consumed by the call, so byte_count() locates the offending byte.", "quantifier": "for every reachable state, erroneous stream, handler", "why_tests_cant": "Universal over failing inputs; the state that reports the byte is often not the one that read it.", "anchors": ["src/http1/parser_error.rs:ParserError", "src/http1/parser.rs:Parser::resume"]}
{"id": "C30", "title": "init_*/reset give a fresh parser", "statement": "After init_head, init_chunked, init_multipart, init_url_encoded or reset, the parser's future behaviour does not depend on anything it processed before; only byte_count() keeps counting.", "quantifier": "for every history of the parser, every following stream and handler", "why_tests_cant": "Leaked bits of the packed bit_data field from any prior history would show only in particular follow-ups.", "anchors": ["src/http1/parser.rs:Parser::reset", "src/http1/parser.rs:Parser::init_head", "src/http1/parser.rs:Parser::init_chunked", "src/http1/parser.rs:Parser::init_multipart", "src/http1/parser.rs:Parser::init_url_encoded"]}
{"id": "C31", "title": "A new parser behaves as one after init_head", "statement": "Parser::new() can be used for head parsing directly, as the README shows, with the same results as after init_head(). (Expected; false: leading whitespace is skipped only after init_head/reset - refuted; equal on streams that do not start with whitespace.)", "quantifier": "for every stream", "why_tests_cant": "Tests always go through one of both ways.", "anchors": ["src/http1/parser.rs:Parser::new", "src/http1/parser.rs:Parser::init_head", "src/http1/parser.rs:strip_detect"]}
{"id": "C32", "title": "Head callbacks come in protocol order", "statement": "The callbacks of one head always are: method fragments, then URL fragments, then on_version - or on_version, on_status_code, status fragments - then exactly one on_initial_finished, then header names/values, then exactly one on_headers_finished and nothing more. That last callback has been made exactly when the client's last call reported success, never in a stream that ended early, in an error or in a fault.", "quantifier": "for every stream, segmentation and handler, also malformed streams (prefix of such an order)", "why_tests_cant": "An ordering invariant over all callback traces.", "anchors": ["src/http1/http_handler.rs:HttpHandler", "src/http1/parser.rs:initial_end", "src/http1/parser.rs:header_end"]}
{"id": "C33", "title": "Every HTTP/2 resume call terminates and never fails", "statement": "http2 Parser::resume returns for every input; it never returns an error nor Finished; Eos(n) is the whole stream length and Callback(n) has n at most the length.", "quantifier": "for every reachable parser state, byte stream and handler, in builds without overflow checks; with overflow checks unless a frame's fixed or padding part exceeds its declared length", "why_tests_cant": "Frame contents are attacker-controlled 24-bit lengths and flags; tests try one frame per type.", "anchors": ["src/http2/parser.rs:Parser::resume", "src/http2/parser.rs:frame_format_end"]}
{"id": "C34", "title": "HTTP/2 frame parsing is independent of segmentation and pausing", "statement": "Concatenated callbacks do not depend on cutting or pausing, provided no cut falls inside the frame header's stream id, a GOAWAY last-stream-id or a SETTINGS value.", "quantifier": "for every byte sequence of well-formed frames, every two such segmentations, every two handlers", "why_tests_cant": "Exponentially many segmentations; each multi-byte field has a fast and a byte-wise path.", "anchors": ["src/http2/parser.rs:Parser::resume", "src/http2/parser.rs:frame_length1", "src/http2/parser.rs:frame_stream_id1"]}
{"id": "C35", "title": "HTTP/2 stream ids survive segmentation", "statement": "The stream id reported by on_frame_format does not depend on where the 9-byte frame header is cut. (Expected; false: the byte-wise path overwrites instead of or-ing - refuted.) Proved of every cut: when a piece ends inside the identifier, its low 16 bits alone are reported.", "quantifier": "for every stream id and cut", "why_tests_cant": "Tests only use single-buffer frame headers for multi-byte ids or ids for which the loss is invisible.", "anchors": ["src/http2/parser.rs:frame_stream_id1", "src/http2/parser.rs:frame_stream_id2", "src/http2/parser.rs:frame_stream_id3"]}
{"id": "C36", "title": "HTTP/2 GOAWAY and SETTINGS frames survive segmentation", "statement": "A GOAWAY or SETTINGS frame cut inside its 32-bit field is still reported. (Expected; false: state 3 transitions to itself and the frame never completes - refuted.) Proved of every cut: when a piece ends inside that field, neither its contents nor anything that follows is ever reported.", "quantifier": "for every GOAWAY/SETTINGS frame and cut", "why_tests_cant": "No test cuts there.", "anchors": ["src/http2/parser.rs:go_away_stream_id3", "src/http2/parser.rs:settings_value3"]}
{"id": "C37", "title": "HTTP/2 frames are decoded exactly", "statement": "Serialising a DATA, HEADERS, PRIORITY, RST_STREAM, SETTINGS (one setting), PUSH_PROMISE, PING, GOAWAY, WINDOW_UPDATE, CONTINUATION or unknown frame, with or without padding and priority where applicable, and feeding it followed by any further byte reports exactly its header fields and contents and leaves the parser at the next frame.", "quantifier": "for every frame of these shapes with any field values, and any pausing pattern", "why_tests_cant": "Infinite family; flags x padding x priority x sizes.", "anchors": ["src/http2/parser.rs:frame_format_end", "src/http2/parser.rs:headers_callback", "src/http2/parser.rs:frame_padding"]}
{"id": "C38", "title": "HTTP/2 payload accounting", "statement": "For DATA, HEADERS, CONTINUATION, PING, GOAWAY debug data and unknown frames the reported data bytes number exactly the payload length minus pad-length byte, padding and fixed fields; the finished flag is passed exactly once, with the last fragment; the next frame starts exactly payload-length bytes after the frame header.", "quantifier": "for every well-formed frame header and payload, segmentation, handler", "why_tests_cant": "Desynchronisation would appear only for particular lengths and cuts.", "anchors": ["src/http2/parser.rs:parse_payload_data", "src/http2/parser.rs:frame_padding"]}
{"id": "C39", "title": "HTTP/2 over-long padding is rejected safely", "statement": "A frame whose pad length exceeds its payload is handled without arithmetic overflow. (Expected from RFC 7540 6.1; false: u32 subtraction underflows - panic with overflow checks, wrap-around without - refuted.) Proved of every padded DATA frame whose pad length is not less than its length: overflow with overflow checks; without them what follows is reported as data.", "quantifier": "for every padded frame with pad length at least payload length", "why_tests_cant": "No test has inconsistent padding.", "anchors": ["src/http2/parser.rs:dec_payload_length", "src/http2/parser.rs:data_pad_length", "src/http2/parser.rs:frame_format_end"]}
{"id": "C40", "title": "HTTP/2 SETTINGS frames of any size", "statement": "A SETTINGS frame with zero or several settings is reported setting by setting and leaves the parser at the next frame. (Expected; false: exactly one setting is read whatever the payload length - refuted.) Proved of every SETTINGS frame: exactly six bytes are read as one setting, whatever length the frame header announces, and the next byte begins the next frame.", "quantifier": "for every SETTINGS frame", "why_tests_cant": "The only test uses one setting.", "anchors": ["src/http2/parser.rs:settings_id1", "src/http2/parser.rs:settings_value1"]}
{"id": "C41", "title": "Reserved bits are removed from 31-bit HTTP/2 fields", "statement": "Stream identifiers (frame header, GOAWAY, priority dependency) are reported below 2^31 for every input; the same is expected of PUSH_PROMISE's promised id and WINDOW_UPDATE's increment (refuted for these two).", "quantifier": "for every stream", "why_tests_cant": "Reserved bit set is never tested for all fields.", "anchors": ["src/http2/parser.rs:frame_stream_id1", "src/http2/parser.rs:go_away_stream_id1", "src/http2/parser.rs:push_promise_stream_id1", "src/http2/parser.rs:window_update_increment1"]}
{"id": "C42", "title": "HTTP/2 callbacks are delivered when the frame is complete", "statement": "Once the last byte of a frame has been fed, all its callbacks have been made. (Expected; false for frames with empty data part, whose data callback is delayed until a byte of the next frame arrives - refuted.) Proved of every frame: the frames with data or padding at their end and those of fixed fields have made all callbacks, of each other frame some last callbacks are missing.", "quantifier": "for every frame", "why_tests_cant": "Tests append no further byte and do not check empty payloads.", "anchors": ["src/http2/parser.rs:data_data", "src/http2/parser.rs:parse_payload_data"]}
{"id": "C43", "title": "HTTP/2 flags, frame types, error codes and settings encode and decode consistently", "statement": "FrameType, ErrorCode and Setting conversions to and from their wire values are mutually inverse on known values, unknown values map to Unsupported, and FrameFormat returns the packed fields.", "quantifier": "for every byte value and every field value in range", "why_tests_cant": "Finite but not enumerated by tests; packing involves shifts that can lose bits.", "anchors": ["src/http2/frame_format.rs:FrameFormat", "src/http2/frame_type.rs:FrameType", "src/http2/error_code.rs:ErrorCode", "src/http2/setting.rs:Setting", "src/http2/flags.rs:Flags"]}
{"id": "C44", "title": "decode inverts percent-encoding", "statement": "util::decode applied to the percent-encoding of any byte string gives back these bytes; plain visible bytes are themselves, '+' is a space.", "quantifier": "for every byte string and every mixture of encoded and literal bytes and hex-digit cases", "why_tests_cant": "Infinite inputs.", "anchors": ["src/util/decode.rs:decode", "src/collect.rs:collect_hex8"]}
{"id": "C45", "title": "decode reports exactly the malformed inputs", "statement": "decode fails exactly when the input contains a byte that is not visible 7-bit or a '%' not followed by two hexadecimal digits, and reports the first such problem.", "quantifier": "for every byte string", "why_tests_cant": "Infinite inputs.", "anchors": ["src/util/decode.rs:decode", "src/util/decode.rs:DecodeError"]}
{"id": "C46", "title": "Strings returned by the utilities are valid UTF-8", "statement": "The Strings returned by decode, QueryIterator and FieldIterator are valid UTF-8. (Required by Rust; false: \"%FF\" gives a String holding byte 0xFF, and the iterators do the same - refuted; true of decode when the text has no escape.)", "quantifier": "for every byte string", "why_tests_cant": "No test decodes a non-ASCII escape.", "anchors": ["src/util/decode.rs:decode", "src/util/mod.rs:submit_name_value"]}
{"id": "C47", "title": "QueryIterator yields the encoded pairs", "statement": "Iterating over the query rendering of a list of pairs yields exactly the pairs in order and then None without calling the error callback, for names that need no escape and arbitrary values.", "quantifier": "for every list of pairs, with or without values", "why_tests_cant": "Infinite family.", "anchors": ["src/util/query.rs:QueryIterator"]}
{"id": "C48", "title": "QueryIterator decodes percent escapes in names", "statement": "Percent escapes in parameter names are decoded. (Documented; false: every escape in a name ends the iteration with an error - refuted.)", "quantifier": "for every name containing an escape", "why_tests_cant": "The test for it has only assertions inside the loop body, which is never executed.", "anchors": ["src/util/query.rs:QueryIterator::next"]}
{"id": "C49", "title": "QueryIterator and FieldIterator terminate, and stop for good", "statement": "Each next() call terminates, each Some consumes input, so iteration ends; once the input is used up None is returned forever. (FieldIterator returns None only then; QueryIterator returns None after an invalid escape although a later call yields another item - the expectation that it is fused is refuted.)", "quantifier": "for every input and every number of next() calls", "why_tests_cant": "Universal over inputs.", "anchors": ["src/util/query.rs:QueryIterator::next", "src/util/field.rs:FieldIterator::next"]}
{"id": "C50", "title": "FieldIterator yields the rendered fields", "statement": "Iterating over a rendering of unquoted name/value parameters separated by the delimiter and optional whitespace yields exactly the (lower-cased when normalising) names and the values.", "quantifier": "for every list of fields, any delimiter other than '=', '/', the double quote, white space and 255 (see C55)", "why_tests_cant": "Infinite family.", "anchors": ["src/util/field.rs:FieldIterator"]}
{"id": "C51", "title": "FieldIterator handles quoted values in any position", "statement": "A quoted value is unescaped and yielded, whatever field follows it, and every last name is yielded. (Expected; false: a quoted value followed by another field is an error, and a last name ending in an upper-case letter is lost when normalising, one ending in / always - refuted. Proved: in the last position every byte string, quoted, is yielded. In every other position, the byte after the closing quote and white space being skipped whatever it is: if the next byte is the delimiter, the value and the fields after it are yielded; otherwise the fields before it are yielded, and it and all fields after it are lost with one error. Every last name of the kinds above is lost without an error.)", "quantifier": "for every list of fields before, all names, quoted values, white space and following bytes, delimiters other than white space, quotes, = and /, with and without normalising", "why_tests_cant": "The tests quote values in some positions only and try a few names.", "anchors": ["src/util/field.rs:FieldIterator::next", "src/collect.rs:collect_quoted_field"]}
{"id": "C52", "title": "Body callbacks come in protocol order", "statement": "A client feeding a body parser sees callbacks only in the order the format prescribes - chunked: chunk length, extensions (name then value), extensions finished, that chunk's data, ..., then trailers, then body finished; multipart: per part begin, header name before header value, headers finished, data; url-encoded: name fragments before value fragments - and success is reported exactly when the final callback of the format has been made.", "quantifier": "for every input, every segmentation and every behaviour of the handler, on a chunked, multipart or url-encoded parser", "why_tests_cant": "Tests check fixed inputs; the order is a property of all callback histories over unboundedly many inputs and segmentations.", "anchors": ["src/http1/parser.rs:Parser::resume", "src/http1/http_handler.rs:HttpHandler"]}
{"id": "C53", "title": "HTTP/2 byte_count counts consumed bytes", "statement": "http2 Parser::byte_count advances at every resume call by exactly the number n of bytes reported as consumed by Callback(n) or Eos(n).", "quantifier": "for every reachable parser state, byte stream and handler (byte counts below the range of usize)", "why_tests_cant": "Tests look at the counter after one frame in one buffer; pausing and cutting patterns are unbounded.", "anchors": ["src/http2/parser.rs:Parser::resume", "src/http2/parser.rs:Parser::byte_count"]}
{"id": "C54", "title": "QueryIterator on every input", "statement": "For every query string, also malformed ones, the items yielded, the error passed to on_error (which kind, which byte) and the position at which the iterator stops are those prescribed by the query grammar: names and values up to a separator, first offending byte reported, nothing yielded after an error.", "quantifier": "for every byte string and every position of the iterator in it", "why_tests_cant": "Tests check a few malformed strings; the grammar has unboundedly many contexts in which an error can occur.", "anchors": ["src/util/query.rs:QueryIterator::next", "src/util/query.rs:QueryError", "src/util/mod.rs:submit_error"]}
{"id": "C55", "title": "FieldIterator on every input", "statement": "For every field text, also malformed ones, and every delimiter, the items yielded, the error passed to on_error and the position at which the iterator stops are those prescribed by the field grammar. (The delimiters '=', '/', the double quote and white space keep their own meaning where they have one, 255 never delimits.) No call panics. (The last part is false: byte 255 is outside the 255-entry lookup tables - refuted, and proved for texts without this byte.)", "quantifier": "for every byte string, every delimiter, with and without normalising", "why_tests_cant": "Tests check a few strings; no test uses byte 255, quoted values followed by fields, or escapes at the end.", "anchors": ["src/util/field.rs:FieldIterator::next", "src/util/field.rs:FieldError", "src/byte.rs:is_token"]}
{"id": "C56", "title": "HTTP/1 heads: exactly the grammar is accepted", "statement": "A head parser reports Finished on a stream if and only if the stream begins with a head of the accepted grammar (request or response line, header lines incl. continuation lines, empty line); what the handler is told is determined by that head, and the bytes after it are left unconsumed. In particular every other stream is never accepted. (Streams whose method starts with H need nine bytes in the first piece, cf. C08.)", "quantifier": "for every byte stream, every cut of it into pieces, every handler and every previously used parser", "why_tests_cant": "Tests show single accepted and single refused heads; that nothing outside the grammar is accepted ranges over all byte strings.", "anchors": ["src/http1/parser.rs:Parser::init_head", "src/http1/parser.rs:Parser::resume", "src/http1/http_handler.rs:HttpHandler"]}
{"id": "C57", "title": "HTTP/1 chunked bodies: exactly the grammar is accepted", "statement": "A chunked parser reports Finished on a stream if and only if the stream begins with a chunked body of the accepted grammar (chunks with hexadecimal length of at most eight digits without leading zero, extensions, data of exactly that length, last chunk, trailers); what the handler is told is determined by that body, and the bytes after it are left unconsumed.", "quantifier": "for every byte stream, every cut of it into pieces, every handler and every previously used parser", "why_tests_cant": "Tests show single accepted and single refused bodies; that nothing outside the grammar is accepted ranges over all byte strings.", "anchors": ["src/http1/parser.rs:Parser::init_chunked", "src/http1/parser.rs:Parser::resume"]}
{"id": "C58", "title": "HTTP/1 multipart bodies: exactly the grammar is accepted", "statement": "A multipart parser with a boundary without CR reports Finished on a stream if and only if the stream begins with a multipart body of the accepted grammar (delimiters, header lines, data of the length the handler declares or else up to the delimiter); what the handler is told is determined by that body and its answers, and the bytes after it are left unconsumed.", "quantifier": "for every byte stream, every cut of it into pieces, every boundary of at most 2^14 bytes, every handler whose declared lengths depend on what it was told, and every previously used parser", "why_tests_cant": "Tests show single bodies; occurrences of parts of the boundary in data and their cuts are unbounded.", "anchors": ["src/http1/parser.rs:Parser::init_multipart", "src/http1/parser.rs:Parser::set_boundary", "src/http1/http_handler.rs:HttpHandler::content_length"]}
{"id": "C59", "title": "HTTP/1 URL-encoded bodies: exactly the grammar is accepted", "statement": "A URL-encoded parser given the length n reports Finished on a stream if and only if the first n bytes of the stream are a URL-encoded body of the accepted grammar (pairs separated by & or ;, possibly empty, the last one possibly cut off inside an escape); what the handler is told is determined by those bytes, and the bytes after them are left unconsumed.", "quantifier": "for every byte stream, every cut of it into at least one piece, every length, every handler and every previously used parser", "why_tests_cant": "Tests show single bodies; that nothing else is accepted ranges over all byte strings and lengths.", "anchors": ["src/http1/parser.rs:Parser::init_url_encoded", "src/http1/parser.rs:Parser::set_length"]}
{"id": "C60", "title": "HTTP/1: errors exactly when no completion exists", "statement": "Whatever the stream so far: Finished means that it begins with a message of the accepted grammar; Eos (more input expected) means that it contains no complete message yet but that there are bytes which complete it to a message, and what the handler was told is a beginning of what it is told of that message; an error (or panic) means that no continuation of the stream begins with a message. Hence malformed input is reported at the first byte that rules out every completion, never earlier and never later than the end of the piece containing it. For heads, chunked, multipart and URL-encoded bodies.", "quantifier": "for every byte stream, every cut of it into pieces (heads: a method beginning with H needs nine bytes in the first piece, cf. C08), every handler (multipart: whose declared lengths depend on what it was told), every boundary without CR of at most 2^14 bytes, every declared length, and every previously used parser", "why_tests_cant": "Absence of dead ends (input accepted so far that nothing can complete) and of premature errors quantifies over all prefixes and all their continuations.", "anchors": ["src/http1/parser.rs:Parser::resume", "src/http1/parser_error.rs:ParserError", "src/fsm.rs:Success"]}
{"id": "C61", "title": "HTTP/2 reset and frame boundaries leave nothing behind", "statement": "After http2 Parser::reset, every following sequence of resume and reset calls returns the same values, makes the same handler calls and shows the same state() and byte_count() as on a parser from Parser::new. The same holds, with byte_count() counted from there, for any parser whose state() is FrameLength1, that is, between two frames: how a frame is decoded never depends on the frames before it.", "quantifier": "for every history of the parser, every following sequence of operations, every byte stream and handler, with and without overflow checks", "why_tests_cant": "The four packed bit_data fields keep values of earlier frames; a leak shows only for particular sequences of frames.", "anchors": ["src/http2/parser.rs:Parser::reset", "src/http2/parser.rs:Parser::reset_bit_data", "src/http2/parser.rs:Parser::frame_length1", "src/http2/parser.rs:Parser::new"]}
{"id": "C62", "title": "HTTP/2 on arbitrary bytes", "statement": "Whatever the bytes are (also unknown types, any flags, any lengths, contents of the wrong size, a frame that stops midway), a new parser reports exactly what a plain description of the format reads in them: frame headers, fixed fields, data and its end, frame after frame. A frame whose length is too small for its pad length, padding or fixed fields ends in an arithmetic overflow in builds with overflow checks, after exactly the callbacks for what precedes; every other stream ends in Eos, with the parser between two frames (state FrameLength1) if and only if no frame is incomplete, and otherwise in the state of a new parser that has been given the incomplete frame only. Excepted are segmentations that cut inside a stream id, a GOAWAY last-stream-id or a SETTINGS value (C35, C36).", "quantifier": "for every byte stream, every such segmentation of it, every handler; with and without overflow checks, without them only for streams in which no frame is too short", "why_tests_cant": "All byte streams in all segmentations; the interesting ones are malformed in ways that nobody thinks of.", "anchors": ["src/http2/parser.rs:Parser::resume", "src/http2/parser.rs:frame_format_end", "src/http2/parser.rs:parse_payload_data", "src/http2/parser.rs:frame_padding"]}
{"id": "C63", "title": "HTTP/1: what is made of an arbitrary stream", "statement": "On any stream of bytes, each of the HTTP/1 parsers behaves like a small reader written along the grammar: it reports Finished, Eos, an error or a panic exactly where the reader finds the stream complete, partial, wrong or hitting the table bug; the error is the one of the item that is wrong, with the offending byte (multipart: of the same kind); the handler is told exactly what the reader sees - also of incomplete messages - and exactly the bytes after a complete message are left. Afterwards state() is Finished, the state that stands for the byte expected next at this place of the grammar, or Dead. On an error or panic, only last bytes of the item in question may be missing.", "quantifier": "for every byte stream, every cut of it into pieces (heads: a method beginning with H needs nine bytes in the first piece, cf. C08), every handler (multipart: whose declared lengths depend on what it was told), every boundary without CR of at most 2^14 bytes, every declared length, and every previously used parser", "why_tests_cant": "Tests fix some streams and errors; here incomplete and malformed streams are covered as well, and each of them can be cut anywhere.", "anchors": ["src/http1/parser.rs:Parser::resume", "src/http1/parser_error.rs:ParserError", "src/http1/parser.rs:Parser::init_head", "src/http1/parser.rs:Parser::init_chunked", "src/http1/parser.rs:Parser::init_multipart", "src/http1/parser.rs:Parser::init_url_encoded"]}
{"id": "C64", "title": "A handler pauses the parser exactly by answering false", "statement": "During one resume call, as soon as a handler method answers false, no further handler method is called and resume returns Callback(n); and resume returns Callback only in this case. So every call of a handler but possibly the last one of a resume call was answered with true. Holds of both the HTTP/1 and the HTTP/2 parser, also when the same call ends the stream, the message or the declared length.", "quantifier": "for every handler, whatever its answers depend on, every stream and every state the parser can be in", "why_tests_cant": "There is one place per callback at which the answer has to be obeyed, with fast and slow paths for most items; tests pause at some of them.", "anchors": ["src/fsm.rs:callback!", "src/fsm.rs:Success::Callback", "src/http1/parser.rs:Parser::resume", "src/http2/parser.rs:Parser::resume"]}
{"id": "C65", "title": "Texts of values say what the values are", "statement": "The Debug and Display texts name the type and the kind of a value and show the byte or number it carries in plain decimal: HTTP/1 and HTTP/2 parser errors, Success (Display: the number alone), FrameType, ErrorCode and Setting (named after their codes on the wire as in RFC 7540), the errors of decode, QueryIterator and FieldIterator; Flags and FrameFormat show what their accessors answer. Different values of one type have different texts, except: Display of Success leaves out the kind, Flags and FrameFormat leave out the undefined flag bits, an unsupported Setting leaves out its identifier.", "quantifier": "for every value of every such type, every code on the wire, every byte and number carried", "why_tests_cant": "No test of the crate looks at a text; the values carry bytes, u32 and usize numbers, and pairs of values have to be told apart.", "anchors": ["src/http1/parser_error.rs:ParserError::format", "src/http2/parser.rs:ParserError::format", "src/fsm.rs:fmt::Debug for Success", "src/fsm.rs:fmt::Display for Success", "src/http2/frame_type.rs:FrameType::format", "src/http2/error_code.rs:ErrorCode::format", "src/http2/setting.rs:Setting::format", "src/http2/flags.rs:Flags::format", "src/http2/frame_format.rs:FrameFormat::format", "src/util/decode.rs:DecodeError::format", "src/util/query.rs:QueryError::format", "src/util/field.rs:FieldError::format"]}
{"id": "C66", "title": "The handler of the documentation collects heads", "statement": "The handler of examples/http1_head_parsing.md, used with Parser::new() as shown there or after init_head(), has collected exactly the head when the parser reports Finished: method and URL or status code and reason, version, and for every name in lower case the value (lines joined) of the last header field of that name and nothing else; is_request() tells requests from responses. At every moment before that, also of a head that is incomplete or in error, it holds what has been reported so far: the bytes of method, URL and reason, the last version and status code (zero before), and the two flags that say whether on_initial_finished and on_headers_finished have been called. It panics (unwrap of String::from_utf8) exactly if the value of some field is not UTF-8. Header lines without a name, which the parser accepts, are not told apart from continuations: their value is appended to that of the field before.", "quantifier": "for every well-formed request and response head, every cut of the stream into pieces (methods beginning with H: nine bytes in the first piece, see C08) and every bytes following the head", "why_tests_cant": "The program is documentation and is run by no test; it has to put fragments together at every possible cut, for any number of fields.", "anchors": ["examples/http1_head_parsing.md:Handler", "src/http1/parser.rs:Parser::resume", "src/http1/parser_state.rs:State"]}
{"id": "C67", "title": "HTTP/2 on arbitrary bytes, however they are cut, in every build", "statement": "Whatever the bytes are and wherever the stream is cut into pieces, what a handler is told, whether there is an arithmetic overflow, and what state() is at the end (which byte of which field is expected next; FrameLength1 exactly between two frames) is what a plain description of the format says, which extends that of C62. A frame whose length is too small for its pad length, padding or fixed fields ends in an overflow in builds with overflow checks; in builds without them the missing bytes are taken modulo 2^24 from the length, so that up to 2^24 bytes of the following frames are reported as the data of this one. Of a stream id in which a piece ends only the last two bytes are reported, in every frame; if a piece ends inside the last-stream-id of a GOAWAY frame or the value of a setting, nothing is reported any more, whatever follows, and state() stays GoAwayStreamId3 or SettingsValue3.", "quantifier": "for every byte stream, every segmentation of it (without overflow checks: into pieces of at most 2^24 - 256 bytes), every handler, with and without overflow checks", "why_tests_cant": "All byte streams in all segmentations and both kinds of build; the tests of the crate feed well-formed frames in one or two pieces and are built with overflow checks.", "anchors": ["src/http2/parser.rs:Parser::resume", "src/http2/parser.rs:frame_stream_id2", "src/http2/parser.rs:go_away_stream_id2", "src/http2/parser.rs:settings_value2", "src/http2/parser.rs:dec_payload_length!", "src/http2/parser.rs:parse_payload_data"]}
{"id": "C68", "title": "HTTP/1 heads on arbitrary bytes, wherever they are cut", "statement": "Whatever the bytes are and wherever the stream is cut into pieces, a head parser reports what a plain description of heads says (that of C63, state() included), with one exception: when the message begins with H but not with a part of HTTP/, and the piece in which it begins (the first that is not all white space) has fewer than nine bytes of it, the letters it shares with HTTP are not reported and not checked, so that HEAD becomes EAD and 'H ' a wrong method. This is the only way in which the cuts matter. A parser from Parser::new() does the same, except that it does not skip white space and reads out of bounds if the first piece is empty.", "quantifier": "for every byte stream, every segmentation of it (empty pieces included), every handler (also one that pauses the parser), after init_head() whatever the parser did before and from new()", "why_tests_cant": "All byte streams in all segmentations; the tests of the crate cut a few messages at single places and none cuts a method beginning with H.", "anchors": ["src/http1/parser.rs:Parser::resume", "src/http1/parser.rs:strip_detect", "src/http1/parser.rs:detect1", "src/http1/parser.rs:detect2", "src/http1/parser.rs:detect5"]}
{"id": "C69", "title": "How HTTP/2 data is handed over in fragments", "statement": "The data handed to a handler in one call of resume() are slices of the supplied piece: from left to right, not overlapping. A fragment of an item that is not complete with it is not empty, reaches to the end of the piece and is the last thing reported for this piece; all other data is reported with the flag that it is complete. After every piece exactly what the description of C67 says about the pieces so far has been reported: nothing is held back. Hence the calls, with their arguments, depend on the pieces only, not on where the handler pauses the parser.", "quantifier": "for every parser and handler, every piece and every segmentation of every byte stream (from new(), without overflow checks: into pieces of at most 2^24 - 256 bytes), in every kind of build", "why_tests_cant": "All segmentations; the tests of the crate collect the fragments into a vector, so that they do not see how data is cut, nor how often a callback is called.", "anchors": ["src/http2/parser.rs:Parser::resume", "src/http2/parser.rs:parse_payload_data", "src/http2/http_handler.rs:HttpHandler"]}
{"id": "C70", "title": "Pausing an HTTP/1 parser changes nothing", "statement": "Two handlers that give the same answers to content_length(), whatever they answer to the other callbacks, are called in the same way: same callbacks, in the same order, with the same slices; the same bytes of the stream remain, and the stream ends in the same way (more expected, finished, the same error). When more is expected the two parsers are equal in every field; when finished or after an error they are in the same state and equal, except for a URL-encoded body, whose byte_count() at the end depends on where the handler paused (cf. C06).", "quantifier": "for every parser a program can hold, every pair of handlers, every byte stream and every segmentation of it", "why_tests_cant": "Every subset of the callbacks may pause, at every cut; the tests of the crate pause at one callback at a time, and only for some.", "anchors": ["src/http1/parser.rs:Parser::resume", "src/http1/parser.rs:Parser::parse", "src/fsm.rs:callback!", "src/fsm.rs:exit_callback!"]}
{"id": "C71", "title": "How HTTP/1 data is handed over in fragments", "statement": "The data handed to a handler in one call of resume() come from the piece of that call, from left to right and not overlapping, and are never empty. They are the bytes of the piece as they are, except that letters of header names and chunk extension names are in lower case, that a plus sign and an escape sequence of a URL-encoded body are reported as one decoded byte, and that multipart data which looked like the beginning of a delimiter (possibly in an earlier piece) is reported once it is known not to be one. A method, a URL, a status text and the data of a chunk are never cut by the parser itself: within a piece there is at most one call in a row for each. The calls that belong to a piece do not depend on what comes after it nor on where the handler pauses the parser within it.", "quantifier": "for every parser and handler and every piece; for streams: every parser a program can hold, every byte stream and every segmentation of it", "why_tests_cant": "All segmentations; the tests of the crate collect the fragments into a vector, so that they do not see how data is cut, nor how often a callback is called.", "anchors": ["src/http1/parser.rs:Parser::resume", "src/http1/parser.rs:Parser::parse", "src/http1/http_handler.rs:HttpHandler", "src/fsm.rs:callback!"]}
{"id": "C72", "title": "Messages back to back on one connection", "statement": "A program reads a series of messages with one parser and one handler: for each message it calls init_head(), init_chunked(), init_multipart() and set_boundary(), or init_url_encoded() and set_length(), and then resume() on what is left of the pieces received so far, and on further pieces. If the bytes received begin with well-formed messages of the expected kinds (heads of requests and responses, chunked, multipart and URL-encoded bodies, in any number and order), every one of them ends with Finished where it ends, what the handler is told is exactly what the messages say, one after the other, and what remains is exactly what follows the last message. Nothing is lost between messages, and no message depends on the earlier ones. byte_count() has grown by the number of bytes used by all messages together, also if they are not well-formed, except that bytes of URL-encoded bodies may be counted twice (C06).", "quantifier": "for every parser, every series of well-formed messages (methods beginning with H excepted, cf. C08), everything that follows, every segmentation, every handler; multipart parts with content_length() answers that depend on everything the handler was told before, also in earlier messages", "why_tests_cant": "Series of any length of five kinds of messages, cut anywhere, also across the ends of messages; the tests of the crate parse one message with a parser.", "anchors": ["src/http1/parser.rs:Parser::resume", "src/http1/parser.rs:Parser::init_head", "src/http1/parser.rs:Parser::init_chunked", "src/http1/parser.rs:Parser::init_multipart", "src/http1/parser.rs:Parser::init_url_encoded", "src/http1/parser.rs:Parser::set_boundary", "src/http1/parser.rs:Parser::set_length"]}
{"id": "C73", "title": "The three decoders of URL-encoded text agree", "statement": "Let t be a text that does not begin with '=', '&' or ';', in which every '%' stands in a value and is followed by at least two bytes. An HTTP/1 parser made ready with init_url_encoded() and set_length(length of t) that receives t (and anything after it) reports exactly the names and values that a loop over QueryIterator::new(t) yields, and ends with Finished at the end of t; or, if the iterator reports an error, it fails with the corresponding error (UrlEncodedName or UrlEncodedValue) at the same byte, after reporting the same pairs. The value the iterator yields is what decode() gives for the text of the value, and it fails at the byte that decode() names. Names and values reported by the parser are what decode() gives for their texts, and it fails at the byte that decode() names, if two bytes follow every '%' in the name and in the value. Without these conditions the parser and the iterator disagree: the parser accepts escapes in names, an escape cut off by the end of the body, and an empty first name.", "quantifier": "for every text, everything that follows it, every segmentation, every handler and every parser used before", "why_tests_cant": "Three separate implementations compared on all inputs; the tests of the crate test each of them on a few inputs of its own.", "anchors": ["src/http1/parser.rs:Parser::resume", "src/http1/parser.rs:Parser::init_url_encoded", "src/http1/parser.rs:Parser::set_length", "src/util/query.rs:QueryIterator", "src/util/decode.rs:decode"]}
{"id": "C74", "title": "Errors are noticed at the first wrong byte", "statement": "When resume() fails with an error, the byte that byte_count() says was read last is the first byte that makes the stream wrong: everything before it is the beginning of some acceptable message as far as the reader of C63 can tell (it asks for more), and with that byte added the reader reports this very error. Nothing after the wrong byte is read, and no error is noticed late. This holds for heads (with the reader of C68 also for methods beginning with H that are cut), chunked bodies, URL-encoded bodies and multipart bodies. The one exception is an error in a multipart boundary: the boundary is compared with all the bytes at hand at once, so that the error may be noticed before the byte that differs, by less than the length of the boundary (not at all if it is empty); where exactly depends on how the stream is cut.", "quantifier": "for every byte stream, every segmentation, every handler, every boundary without CR of at most 2^14 bytes, every length of a URL-encoded body and every parser, used before or new (which does not skip white space, C31)", "why_tests_cant": "The tests of the crate look at the error that is returned, hardly ever at byte_count() after it, and never at the same wrong stream cut in different ways.", "anchors": ["src/http1/parser.rs:Parser::resume", "src/http1/parser.rs:Parser::byte_count", "src/http1/parser.rs:Parser::init_head", "src/http1/parser.rs:Parser::init_chunked", "src/http1/parser.rs:Parser::init_url_encoded", "src/http1/parser.rs:Parser::init_multipart"]}
{"id": "C75", "title": "HTTP/1: the number of callbacks and the amount of data are bounded by the input", "statement": "A handler is called at most once for every byte that is read, plus at most two: one call of resume() on any parser that can be reached makes at most two calls more than the bytes it read (the number in Callback, Eos or Finished, or the growth of byte_count() on an error). Over a whole message, however it is cut and wherever the handler pauses, the handler receives at most as many calls as bytes were read in case of heads and multipart bodies, one more in case of chunked bodies, two more in case of URL-encoded bodies (the questions content_length() included). The data passed to the callbacks are together never longer than the bytes read: nothing is reported twice.", "quantifier": "for every byte stream, well-formed or not, every segmentation, every handler with any answers, every parser that can be reached (one call, any number of calls) and every parser used before (whole messages), every boundary and every declared length", "why_tests_cant": "A bound on all executions over unbounded streams; a repeated callback for a rare cut or pause would not be seen by tests that check the contents of single messages.", "anchors": ["src/http1/parser.rs:Parser::resume", "src/http1/parser.rs:Parser::byte_count", "src/http1/http_handler.rs:HttpHandler"]}
{"id": "C76", "title": "HTTP/2: the number of callbacks and the amount of data are bounded by the input", "statement": "One call of resume() on any HTTP/2 parser that can be reached makes at most two calls of the handler more than it reads bytes, and passes at most as many bytes of data as it reads. From new() or reset() on, the number of calls plus seven times the number of frames reported is at most the number of bytes: the nine bytes of a frame header pay for two calls, every other byte for at most one. Empty frames, padding, lengths that are too short and pauses do not make for more calls.", "quantifier": "for every byte stream, every segmentation, every handler with any answers, every parser that can be reached, builds with overflow checks (until they panic) and without", "why_tests_cant": "A bound on all executions over unbounded streams, also of malformed frames with lengths that wrap around.", "anchors": ["src/http2/parser.rs:Parser::resume", "src/http2/http_handler.rs:HttpHandler"]}
{"id": "C77", "title": "HTTP/1: what the handler has not been told when an error is reported", "statement": "When resume() returns an error, everything the stream says before the wrong byte has been passed to the callbacks, except perhaps for the last bytes of the item (method, URL, name, value, status, data) in which the wrong byte is. These missing bytes are exactly those immediately before the wrong byte, and they are in the same piece as it: nothing of an earlier piece is ever lost, a client that feeds single bytes loses nothing, and an error about a multipart boundary loses nothing.", "quantifier": "for every byte stream, every segmentation, every handler with any answers, every parser used before or not, heads (methods beginning with H that are cut: as understood by the reader of C68), chunked bodies, URL-encoded bodies of every length, multipart bodies with boundaries of at most 2^14 bytes without CR", "why_tests_cant": "A statement about every malformed stream and every place to cut it; tests show the calls made before an error for a few streams in one piece.", "anchors": ["src/http1/parser.rs:Parser::resume", "src/http1/parser.rs:Parser::byte_count", "src/http1/http_handler.rs:HttpHandler", "src/fsm.rs:exit_error!", "src/fsm.rs:callback_eos_expr!", "src/fsm.rs:transition_no_remark!"]}
{"id": "C78", "title": "A program at work on a connection of arbitrary bytes", "statement": "A program reads message after message from one connection with one parser and one handler, and decides by what it has been told so far (for example, by the header fields) whether to expect a head, a chunked, multipart or URL-encoded body next, or to stop: it calls the init function and resume() on what is left of the pieces received. Whatever bytes arrive, well-formed or not, what the handler is told, whether the messages are complete, incomplete (and in which state()), wrong (and with which error) or make the parser panic, and which bytes are left, is what the plain description of single messages (C63, C68) says, applied message after message to what the previous message left. So two readers cannot disagree on where a message ends: except for heads that begin with H but not with HTTP/ (C08), the result depends on the bytes only, not on where they are cut, where the handler pauses, or what the parser was used for before.", "quantifier": "for every byte stream, every segmentation, every program deciding by what it has seen (boundaries of at most 2^14 bytes without CR), every handler whose content_length() answers depend on what it has seen, every parser, any number of messages", "why_tests_cant": "The tests never read two messages with one parser; a statement about every stream, every cut and every program.", "anchors": ["src/http1/parser.rs:Parser::resume", "src/http1/parser.rs:Parser::init_head", "src/http1/parser.rs:Parser::init_chunked", "src/http1/parser.rs:Parser::init_multipart", "src/http1/parser.rs:Parser::init_url_encoded", "src/http1/parser.rs:Parser::set_boundary", "src/http1/parser.rs:Parser::set_length"]}
{"id": "C79", "title": "HTTP/1: a program can pass on what its handler has been told", "statement": "The callbacks contain everything that is needed to pass a message on. If a head, a chunked, a multipart or a URL-encoded body is read to the end, and a program writes down each callback in a plain form (one line for each header field, \": \" after names, values of chunk extensions in quotes, escapes for all bytes of URL-encoded data that are not letters or digits), then a parser that reads what was written makes the same callbacks with the same data, finishes exactly at the end of it, and leaves alone what follows. So whatever leniency the parser had with the original (folded lines, empty names, white space, cut escapes), two parsers in a row do not disagree about the message. A head written in this way is a well-formed request or response without continuation lines, provided that its first header line has a name; URL-encoded data written in this way is always well-formed.", "quantifier": "for every byte stream that is read to the end, every segmentation of the original and of what is written, all handlers (multipart: with the same answers to content_length() for the same history), all parsers used before or not, boundaries of at most 2^14 bytes without CR, heads beginning with H as in C56", "why_tests_cant": "A statement about every accepted message, also those with tricks, and two parsers in a row; tests compare the callbacks of single messages.", "anchors": ["src/http1/parser.rs:Parser::resume", "src/http1/parser.rs:Parser::init_head", "src/http1/parser.rs:Parser::init_chunked", "src/http1/parser.rs:Parser::init_multipart", "src/http1/parser.rs:Parser::init_url_encoded", "src/http1/parser.rs:Parser::set_length", "src/http1/http_handler.rs:HttpHandler"]}
{"id": "C80", "title": "HTTP/2: a program can pass on what its handler has been told", "statement": "The callbacks contain everything that is needed to pass HTTP/2 frames on. If bytes are read up to the end of a frame and a program writes down, for each on_frame_format, a frame header with the reported length, type, flags and stream identifier and after it what is reported until the next one (numbers in network byte order, the data as it is, as many zero bytes of padding as are missing to the length), then a parser that reads what was written makes the same callbacks with the same data and ends between two frames. This holds whatever the bytes are, also if the length of a frame does not fit its contents or if a piece ended in a stream identifier that was therefore misread: two parsers in a row do not disagree. Of well-formed frames exactly the same frames are written, except that the padding and the reserved bits of the frame header and of GOAWAY, which are not reported, are zero.", "quantifier": "for all byte streams, all cuts of the original into pieces, all handlers (pausing or not), first parser in a build with overflow checks, second parser in every build; what is written may be cut anywhere except inside the stream identifier of a header, the last-stream-id of GOAWAY and the value of a setting", "why_tests_cant": "A statement about every stream of frames, also malformed ones, and two parsers in a row; tests look at the callbacks of single frames.", "anchors": ["src/http2/parser.rs:Parser::resume", "src/http2/http_handler.rs:HttpHandler", "src/http2/http_handler.rs:HttpHandler::on_frame_format", "src/http2/parser.rs:Parser::new"]}
{"id": "C81", "title": "A stream can be read as a message in one way only", "statement": "The accepted formats (C56-C59) are unambiguous: of two accepted heads, chunked bodies or multipart bodies (same boundary, without CR, and same answers to content_length()) at the beginning of one stream of bytes, none is longer than the other, and both say the same; a URL-encoded body of given length says one thing only. Hence no message is the beginning of another one, and if two clients have read a message to its end (Finished), from streams of which they may have received different amounts, with other cuts, other pauses and other parsers, they were told the same and agree on the first byte after the message.", "quantifier": "for all byte streams; for the clients: every two handlers, parsers used before or not, and segmentations (heads: a method beginning with H has nine bytes in the first piece, cf. C08)", "why_tests_cant": "It compares every two readings of every stream.", "anchors": ["src/http1/parser.rs:Parser::resume", "src/http1/parser.rs:header_end", "src/http1/parser.rs:chunk_length_cr", "src/http1/parser.rs:multipart_boundary"]}
{"id": "C82", "title": "What set_boundary() and set_length() change, and what happens without them", "statement": "set_boundary() on a parser that does not parse multipart data, and set_length() on one that parses heads, or multipart data outside of data of known length, change nothing of what any later calls show. On a parser for chunked data set_length() is not harmless: the length set is taken for the size of a first chunk of size 0, so that an empty body is read as a chunk with data (refuted). A multipart parser to which no boundary was given makes no callback whatsoever: it asks for two hyphens, answers any other byte with MultipartBoundary(byte), and panics at the first byte after them. A URL-encoded parser to which no length was given takes the body to be empty: it makes the callback on_body_finished() only, consumes nothing and finishes.", "quantifier": "for all handlers, all parsers reachable by any sequence of calls, all later sequences of calls; for the missing values: all parsers after init_*, all byte streams and segmentations", "why_tests_cant": "Absence of an effect is a claim about every later use of the parser.", "anchors": ["src/http1/parser.rs:Parser::set_boundary", "src/http1/parser.rs:Parser::set_length", "src/http1/parser.rs:multipart_boundary", "src/http1/parser.rs:chunk_length1", "src/http1/parser.rs:Parser::resume"]}
{"id": "C83", "title": "A program made of the parser and FieldIterator receives forms", "statement": "Take the program that reads a head with the HTTP/1 parser, finds the parameter boundary of the header field content-type with FieldIterator, reads a multipart body with it, and finds the parameter name of the header field content-disposition of every part with FieldIterator. Of every form as user agents write it (Content-Type: multipart/form-data; boundary=..., parts with Content-Disposition: form-data; name=\"...\", quotes and backslashes of the names escaped, data in which no CR precedes CR, LF or the delimiter) it gets back exactly the field names and values that were sent, in order, however the stream is cut, on a parser with any past, with any other header fields around, and leaves what comes behind the form unread. The same holds of every other way to write the two parameters that FieldIterator accepts, and of any further header fields of the parts. It does not hold of uploaded files: with name=\"...\"; filename=\"...\" the name is lost, since FieldIterator stops at a quoted value that is not the last (refuted); of every form with files in it the program gets the fields with their names and values, and the contents of the files without a name.", "quantifier": "for all well-formed requests (methods beginning with H excepted, cf. C08) whose first field content-type is the one described, non-empty boundaries of at most 70 visible ASCII characters other than quotes and semicolons, field names of printable bytes and tabs, values, further header fields, trailing bytes, segmentations, parsers in any state, and all handlers that answer None to content_length()", "why_tests_cant": "The tests try the parser and the iterators separately, on fixed inputs; that the output of the one is what the other needs, for every form and every segmentation, is a claim about their composition.", "anchors": ["src/http1/parser.rs:Parser::resume", "src/http1/parser.rs:header_value", "src/http1/parser.rs:multipart_data_by_byte", "src/util/field.rs:FieldIterator::next"]}
{"id": "C84", "title": "Forms sent in the body of a request or in its URL", "statement": "Take the form that user agents write as application/x-www-form-urlencoded: name=value, joined by '&', with letters, digits and *-._ as they are, '+' for a space and an escape of two capital hexadecimal digits for any other byte. A program that reads a head with the HTTP/1 parser and then a URL-encoded body of the length that the header field content-length tells gets back exactly the names and values that were sent, in order, however the stream is cut and on a parser with any past, and leaves what comes behind the form unread. A program that reads a head and applies QueryIterator to what follows the first '?' of the URL gets back exactly the pairs before the first one whose name contains a byte that is written as an escape, and nothing if the first name is empty; so it gets all of them if the names consist of letters, digits, spaces and *-._ and the first is not empty. That it always gets the same as in a body is refuted: of a=1&b%5B%5D=2&c=3 only a=1 arrives.", "quantifier": "for all well-formed requests (methods beginning with H excepted, cf. C08) whose first field content-length is a numeral of the length (leading zeros allowed) or whose URL is a path without '?', '?' and the form; all names and values of arbitrary bytes, trailing bytes, segmentations, parsers in any state, and all handlers whose content_length() answers depend on what they have seen", "why_tests_cant": "The tests try the parser and the iterator separately, on fixed inputs; that what one sender writes arrives in both ways, for every form and every segmentation, or which part of it does, is a claim about their composition.", "anchors": ["src/http1/parser.rs:Parser::resume", "src/http1/parser.rs:url_encoded_name", "src/http1/parser.rs:url_encoded_value", "src/util/query.rs:QueryIterator::next"]}
{"id": "C85", "title": "HTTP/2: a program can put together what is sent on each stream", "statement": "Take a peer that sends header blocks (HEADERS or PUSH_PROMISE and any number of CONTINUATION frames directly after it, END_HEADERS on the last, with or without priority), data (DATA frames) and ends of streams (END_STREAM) on any streams in any order, with or without padding, and frames of other types between them. A handler that notes down on_frame_format() and collects the data of on_data() and on_headers_fragment() until the finished flag and END_HEADERS gets back exactly these header blocks, promises, data and ends, each with its stream identifier, in the order in which they were sent; so the data it has for a stream is exactly what was sent on it. Nothing is mixed up between streams, and padding is not taken for data. If a piece ends inside a stream identifier this is not so: data is put down to another stream that is in use (refuted: what is sent on stream 65537 arrives as data of stream 1).", "quantifier": "for all sequences of such messages, all segmentations without a cut inside the stream identifier of a frame header, the last-stream-id of GOAWAY and the value of a setting (one setting in a SETTINGS frame), all handlers (pausing or not), builds with and without overflow checks, with at least one byte of what follows (C42)", "why_tests_cant": "The tests look at single frames of fixed contents; that frames of many streams, fragments, padding, pauses and cuts together never mix up what belongs to different streams is a claim about all interleavings.", "anchors": ["src/http2/parser.rs:frame_format_end", "src/http2/parser.rs:data_data", "src/http2/parser.rs:headers_fragment", "src/http2/http_handler.rs:HttpHandler"]}
{"id": "C86", "title": "A program made of the parser and FieldIterator serves requests with chunked bodies on one connection", "statement": "Take the program that reads heads with the HTTP/1 parser and, whenever the last transfer coding that FieldIterator finds in the header field transfer-encoding is chunked, reads a chunked body after the head. Of every sequence of requests on a connection, each without a body or with a chunked body and trailers, it gets back exactly the methods, URLs, header fields, bodies and trailers that were sent, each with its own request, however the stream is cut and wherever the handler pauses, and leaves what comes behind the last request unread. Nothing in a body, not even text that looks like a request, is taken for a request. The name of the coding may be written in any letter case except for its last letter: of a request with Transfer-Encoding: CHUNKED the body is taken for the next request, although names of codings are case-insensitive (refuted); every request whose last coding ends in a capital letter (and the one before it, if any, is not chunked) is served without a body, and what follows is read as the next request.", "quantifier": "for all sequences of well-formed requests (methods beginning with H excepted, cf. C08) that have a first field transfer-encoding exactly if they have a body, in which chunked is the last of the codings, which are written as in C50; all non-empty chunks below 2^32 bytes, chunk extensions and trailers; all segmentations, parsers in any state and all handlers, pausing or not, whose content_length() answers by what they were told byte for byte", "why_tests_cant": "The tests try single messages and the iterators separately, on fixed inputs; that the end of each message is found so that the next one begins at the right byte, for every sequence of requests and every segmentation, is a claim about their composition.", "anchors": ["src/http1/parser.rs:Parser::resume", "src/http1/parser.rs:header_value", "src/http1/parser.rs:chunk_data", "src/http1/parser.rs:init_chunked", "src/util/field.rs:FieldIterator::next"]}
{"id": "C87", "title": "A program made of the parser and FieldIterator receives responses with chunked bodies on one connection", "statement": "Take the program that reads response heads with the HTTP/1 parser and, whenever the last transfer coding that FieldIterator finds in the header field transfer-encoding is chunked, reads a chunked body after the head. Of every sequence of responses on a connection, each without a body or with a chunked body and trailers, it gets back exactly the versions, status codes, reasons, header fields, bodies and trailers that were sent, each with its own response, however the stream is cut (also inside HTTP/) and wherever the handler pauses, and leaves what comes behind the last response unread. The reason must be non-empty and without tabs: responses with an empty reason or a tab in it, which RFC 7230 allows, are rejected (refuted); every response with an empty reason or a control byte in it ends in ParserError::Status at this byte, however it is cut.", "quantifier": "for all sequences of well-formed responses (C19) that have a field transfer-encoding exactly if they have a body, in the first of which chunked is the last of the codings, which are written as in C50; all non-empty chunks below 2^32 bytes, chunk extensions and trailers; all segmentations, parsers in any state and all handlers, pausing or not, whose content_length() answers by what they were told byte for byte; for the rejected ones all versions, status codes, reasons, handlers and segmentations", "why_tests_cant": "The tests try single heads and bodies, on fixed inputs, and always with a reason; that the end of each message is found so that the next one begins at the right byte, for every sequence of responses and every segmentation, is a claim about their composition.", "anchors": ["src/http1/parser.rs:Parser::resume", "src/http1/parser.rs:response_status1", "src/http1/parser.rs:response_status2", "src/http1/parser.rs:chunk_data", "src/util/field.rs:FieldIterator::next"]}
{"id": "C88", "title": "Which header values of RFC 7230 are accepted", "statement": "A request or response head whose header fields have values as RFC 7230 allows them is understood, and the values are reported as they were sent. Refuted: an empty value, a value that begins with a byte from 128, a value with a single double quote in it (5\" disk) and one with an escaped tilde in quotes (\"a\\~\") end in ParserError::HeaderValue. In every case, for values without the byte 255: a head with one more field is understood, with all fields reported, exactly if the value begins with a visible ASCII byte and every quote in it is closed, with only bytes from 0x20 to 0x7A escaped between quotes; otherwise it ends in ParserError::HeaderValue, however it is cut. The byte reported is the first one of the value if that is not visible, the CR at the end of the line if a quote is open, the escaped byte, or the first byte that is no text. White space between a value and the end of its line is no part of the value (RFC 7230, 3.2.4); refuted: on_header_value reports it with the value, in every case.", "quantifier": "for all well-formed requests (C18) and responses (C19) with one more field, of any name, any white space before the value and any one-line value that RFC 7230 allows without the byte 255; all handlers and segmentations (for methods that begin with H the condition of C63); the byte reported for all values that stop being read", "why_tests_cant": "The tests try a few well-formed values and each forbidden byte on its own; none has an empty value or an open quote, and which of all allowed values are accepted for every segmentation is not a matter of single inputs.", "anchors": ["src/http1/parser.rs:strip_header_value", "src/http1/parser.rs:header_value", "src/http1/parser.rs:header_quoted_value"]}
{"id": "C89", "title": "Which methods of RFC 7230 are accepted", "statement": "A request whose method is a token, as RFC 7230 allows, is understood. Refuted: M-SEARCH (a registered method) and get are rejected with ParserError::Method. In every case: a request is understood, and its method reported as it was sent, exactly if the method consists of capital letters; otherwise it ends in ParserError::Method with the first byte that is no capital letter, however it is cut.", "quantifier": "for all well-formed requests (C18) with any token as the method, all handlers and segmentations (for methods that begin with H the condition of C63), whatever follows", "why_tests_cant": "The tests try some registered methods and single forbidden bytes; the claim is about every token and every segmentation.", "anchors": ["src/http1/parser.rs:request_method", "src/http1/parser.rs:detect1", "src/http1/parser.rs:Parser::resume"]}
{"id": "C90", "title": "Which chunk sizes of RFC 7230 are accepted", "statement": "A chunked body is decoded whatever hexadecimal digits its sizes are written with, as RFC 7230 allows. Refuted: a size with a zero before it (03), one of more than eight digits, and a last chunk written as 00 are rejected with ParserError::ChunkLength. In every case: a body with one more chunk is decoded, everything reported, exactly if the size of this chunk has at most eight digits and does not begin with 0; otherwise it ends in ParserError::ChunkLength, with the digit that follows the first 0 (also in the last chunk) or with the ninth digit, however it is cut.", "quantifier": "for all lists of well-formed chunks (C20) with one more non-empty chunk whose size is written in any digits, all extensions, trailers, handlers and segmentations, whatever follows", "why_tests_cant": "The tests try sizes of one to eight digits without zeros before them; the claim is about every way of writing a size, behind any chunks and with every segmentation.", "anchors": ["src/http1/parser.rs:chunk_length1", "src/http1/parser.rs:chunk_length8", "src/http1/parser.rs:chunk_length_cr"]}
{"id": "C91", "title": "Preambles and padding of multipart bodies", "statement": "A multipart body is understood as RFC 2046 frames it, with or without a preamble before the first delimiter and white space behind a boundary. Refuted: a body with a preamble, with an empty preamble (CRLF before the delimiter) or with a space behind a boundary is rejected with ParserError::MultipartBoundary. In every case: a body that differs from its first delimiter at any byte, hence every preamble that does not itself begin with the delimiter, ends in ParserError::MultipartBoundary with nothing reported; and behind any parts a byte after a boundary that is neither CR nor a hyphen ends in the same error, with the parts before it reported, however the body is cut.", "quantifier": "for every boundary (no CR, at most 2^14 bytes), preamble, byte that differs, list of well-formed parts (C23, C25), handler whose lengths depend only on what it was told, and segmentation, whatever follows", "why_tests_cant": "The tests begin with the delimiter and have CR LF behind boundaries; the claim is about every preamble and every place where a body leaves the delimiter, behind any parts and with every segmentation.", "anchors": ["src/http1/parser.rs:multipart_hyphen1", "src/http1/parser.rs:multipart_boundary", "src/http1/parser.rs:multipart_boundary_cr"]}
{"id": "C92", "title": "White space in chunk extensions", "statement": "Chunk extensions are understood with white space around their semicolons and equal signs, as RFC 9112 (7.1.1) requires of recipients. Refuted: white space before the semicolon is rejected with ParserError::ChunkLength, before the equal sign with ParserError::ChunkExtensionName, and white space behind a value is reported with the value. In every case: a byte behind the size of a chunk (or in its place) that is no digit and neither CR nor a semicolon ends in ParserError::ChunkLength with this byte; a byte behind the name of an extension that cannot be in a name and is neither an equal sign nor a semicolon nor CR ends in ParserError::ChunkExtensionName with this byte; and a body whose extension has white space behind its value is decoded, the value reported with this white space, however the body is cut.", "quantifier": "for all lists of well-formed chunks (C20) before, all sizes, extensions, names, values, bytes (below 255 behind names), trailers, handlers and segmentations, whatever follows", "why_tests_cant": "The tests have a few extensions without such white space; the claim is about every byte behind every size and name, behind any chunks and with every segmentation.", "anchors": ["src/http1/parser.rs:chunk_length_cr", "src/http1/parser.rs:lower_chunk_extension_name", "src/http1/parser.rs:chunk_extension_value"]}
{"id": "C93", "title": "Which names of header fields are accepted", "statement": "A header line whose name is not a token of RFC 7230, or whose name is not followed at once by a colon, is rejected. Refuted: an empty name is accepted, and the value of such a field is reported behind the value of the field before it, without a name in between. In every other case it holds: behind any fields of a request or response, of the trailers of a chunked body or of a part of a multipart body, a name followed by a byte that is neither a token byte nor a colon - white space before the colon, or the CR of a line without colon - ends in ParserError::HeaderName with this byte, and so does such a byte in the place of a name (other than the white space of a folded line and the CR that ends the fields). In every case of an empty name in a request: the request is accepted and everything reported, however it is cut.", "quantifier": "for all well-formed requests (with C08's condition on methods beginning with H), responses, chunks and parts before the line, all names, bytes below 255, handlers and segmentations, whatever follows", "why_tests_cant": "The names the parser compares as a whole are read by other code than the rest, depending on how much of the stream is available; the claim is about every name, every byte behind it and every segmentation.", "anchors": ["src/http1/parser.rs:check_header_name", "src/http1/parser.rs:first_header_name", "src/http1/parser.rs:lower_header_name"]}
{"id": "C94", "title": "Lines end in CR LF only", "statement": "A CR that ends the first line, a header field or the empty line of a request or response, the line with the size of a chunk (with or without extensions), the line of the last chunk or the empty line behind the trailers of a chunked body, must be followed by LF: any other byte, a second CR included, ends the parse in ParserError::CrlfSequence with this byte. The data of a chunk must be followed by CR LF: a wrong byte in either place ends in the same error with this byte. LF without CR ends neither a field nor the head: at the end of a field value it is rejected with ParserError::HeaderValue, in place of the empty line with ParserError::HeaderName.", "quantifier": "for all well-formed requests (with C08's condition on methods beginning with H) and responses up to the empty line, all names, padding and values of a further field, all well-formed chunks before and of this chunk, all well-formed trailers, all bytes, handlers and segmentations, whatever follows", "why_tests_cant": "Parsers that take a bare LF or skip a byte after CR disagree with others about where a message ends; the claim is about every byte in every such place, wherever the stream is cut.", "anchors": ["src/http1/parser.rs:initial_lf", "src/http1/parser.rs:header_lf1", "src/http1/parser.rs:header_lf2", "src/http1/parser.rs:chunk_length_lf", "src/http1/parser.rs:chunk_data_cr", "src/http1/parser.rs:chunk_data_lf"]}

# Design

Subject: `/repo` (seankerr/rust-http-box, pinned commit), a push parser library
for HTTP/1 and HTTP/2 plus three utilities (percent decoding, query iterator,
header-field iterator).  The properties are listed in `properties.jsonl`
(C01 ...), their status and theorems in `MANIFEST.json`, the experiments with
wrong programs in `seeded/LOG.jsonl`.

## Trusted base

* The Coq 8.16.1 kernel, including `vm_compute` (used for concrete witnesses,
  examples and a few finite tables).
* Axioms: none.  `Print Assumptions` stands under every property theorem and
  prints "Closed under the global context" for each of them - no axiom of the
  standard library is used either.
* The transcription of the Rust source to Gallina (files `*Model.v`,
  `ByteStream.v`, `Bytes.v`, `Http2Types.v`), done by hand, function by
  function; each definition carries the file and lines it models.
* The external crate `byte_slice` 0.1.11 is not part of `/repo` and not
  available here.  Its macros (`bs_next!`, `bs_replay!`, `bs_mark!`,
  `bs_slice!`, `bs_collect!`, `bs_starts_withN!`, `is_digit!`, ...) are
  modelled in `ByteStream.v`/`Bytes.v` from their names, their use in `/repo`
  and the behaviour the crate's tests require:
  `bs_next!` fetches `stream[stream_index]` and increments the index,
  `bs_replay!` decrements it, `bs_mark!` sets the mark, `bs_slice!` is
  `stream[mark..index]`, `bs_slice_ignore!` the same without its last byte,
  `bs_collect!` is `loop { if eos {..}; bs_next!; body }`, `bs_starts_withN!`
  compares N bytes without a bounds check, `bs_has_bytes!(n)` is
  `available >= n`, visible 7-bit is 0x21..0x7E.
* A handler (the user's trait object) is an arbitrary function from the
  history of calls made to it to its answers (`true`/`false`, and for
  multipart `content_length`).  Handlers that panic or do not return are
  outside the model.
* `usize` is 64 bits wide; streams are shorter than that.

## What is modelled

| code | model | remark |
|---|---|---|
| `src/byte.rs` | `Bytes.v` | the three tables literally (255 entries; index 255 = panic) |
| `src/collect.rs`, `byte_slice` macros | `ByteStream.v` | context = mark, slice since the mark, rest of the stream |
| `src/fsm.rs` macros | `Http1Model.v`, `Http2Model.v` | |
| `src/http1/parser.rs`: all 97 state functions, `parse`, `resume`, `new`, `init_*`, `reset`, `set_boundary`, `set_length`, `state`, `byte_count` | `Http1Model.v` | packed 32-bit field with its exact shifts and masks |
| `src/http1/http_handler.rs` | `handler`, `event` in `Http1Model.v` | |
| `src/http2/parser.rs`: all state functions, `parse`, `resume`, `new`, `reset` | `Http2Model.v` | u32 arithmetic, both with overflow checks (`chk = true`: panic) and without (wrap) |
| `src/http2/http_handler.rs` | `handler`, `event` in `Http2Model.v` | |
| `src/http2/{flags,frame_format,frame_type,error_code,setting}.rs` | `Http2Types.v` | |
| `src/util/{decode,query,field}.rs`, macros of `src/util/mod.rs` | `UtilModel.v` | |
| the `Debug` and `Display` implementations written by hand (11 types) | `FormatModel.v` | `{}` of numbers and booleans is Rust's, modelled by Coq's decimal notation |
| the handler in `examples/http1_head_parsing.md` | `ExampleModel.v` | `HashMap` and `String::from_utf8` are Rust's; the map is an association list, UTF-8 as in the Unicode standard |

Not modelled: derived implementations (`Debug` of the two state types, `Clone`,
`PartialEq`), padding and other options of format strings,
allocation and performance.

### Simplifications (also stated at the definitions)

* A byte is a natural number (`N`).  Where a statement needs it, it says
  "< 256"; most do not.
* `byte_count` is an unbounded number (no wrap-around after 2^64 bytes); the
  `u32` fields of the parsers are exact.
* `loop { ... }` is a function with fuel; fuel exhaustion is a separate result,
  excluded by theorems (C01, C33, C49).  The fuel is linear in the input.
* Panics, reads outside the stream and overflow are explicit results
  (`Faulted`, `RFault`, `NPanic`), excluded or exhibited by theorems.
* The name and value buffers of the iterators are accumulators of the loops
  (they are cleared at the start of every call in the source).  `on_error` is
  the list of errors passed to it.
* `String::from_utf8_unchecked` is the identity on bytes; C46 says what that
  means.
* `FrameFormat::new` and `Setting::new` are written with `&mut self` in the
  source, so that no value of these types can be made by a caller; the model
  takes them as plain constructor functions.

## The model against the crate's own tests

As a check of the transcription (and of the reading of `byte_slice`), the tests
of the crate are carried out in the model as `Example`s by `vm_compute`; they are
not used in any proof.

| tests | file | number |
|---|---|---|
| `/repo/src/http1/test` | `Http1Tests.v` (with `Http1TestKit.v`) | 133 |
| `/repo/src/http2/test` | `Http2Tests.v` (with `Http2TestKit.v`) | 19 |
| `/repo/src/util/test` | `UtilTests.v` | 28 |
| `/repo/tests` (head, chunked, URL encoded, with their data files) | `Http1FileTests.v` | 3 |
| `/repo/examples` | `DocTests.v`, `PropsExample.v` | 6 |

All of them give what the tests assert.  The remaining integration test,
`/repo/tests/http1_multipart.rs`, was run in the model with its data file of
101640 bytes as well: the four parts have the lengths 3, 8, 62260 and 38310 the
test asks for.  It is not in the repository because of the size of the literal.
The test of the query iterator for escapes passes for an accidental reason, see
C48.

## Vocabulary of the statements

Small separate files, to be read with the theorems:

* `Http1Spec.v`: `feed` - a client that cuts a message into pieces, passes them
  to `resume`, and after `Callback(n)` feeds the piece again from `n` on;
  `flat` - the calls made to the handler with data callbacks split into single
  bytes tagged with the callback's kind, so that fragmentation is invisible
  and everything else (kind, order, contents) is kept; `alike`; `reachable`.
* `Http1Use.v`: `error_byte`, `proper` use, `observe` (all a caller sees of a
  sequence of operations).
* `Http1Protocol.v`: the order of callbacks as a small automaton.
* `Http1Wire.v`: well-formed messages, how they are written, what a handler
  must see of them.
* `Http1Accept.v`: the grammars of everything that is accepted, with what a
  handler is told; they contain the well-formed messages of `Http1Wire.v`.
* `Http1Reader.v`: a recursive-descent reader for arbitrary, also incomplete and
  wrong streams, which also says which state stands for the byte expected next;
  `understood` - a client observes what the reader says, `state()` included.
* `Http1Cuts.v`: the same for heads that are cut at the worst places.
* `Http1Pause.v`, `Http2Pause.v`: what a handler's answers have to do.
* `Http1Pieces.v`, `Http2Pieces.v`: how the data of calls are cut out of a piece.
* `Http1Bound.v`, `Http2Bound.v`: how many bytes of data and how many frames calls report.
* `Http1Program.v`: a program that reads message after message, and what it should make of a stream (readers of C63 and C68 one after the other).
* `Http1Forward.v`, `Http2Forward.v`: writers - what a program writes down for each callback to pass a message or frames on.
* `Http1Lost.v`: bytes of an item that are directly before a wrong byte, in the same piece.
* `Http1Conn.v`: messages back to back, and the program that reads them.
* `Http1Verdict.v`: what each outcome has to mean, given a grammar.
* `Http2Any.v`, `Http2Full.v`: readers for arbitrary streams of HTTP/2 frames; the
  second also for every cut, with `state()`, and for builds without overflow checks.
* `Http2Spec.v`, `Http2Raw.v`: the same for HTTP/2 frames; `Http2Use.v`: what
  a caller of the HTTP/2 parser sees.
* `Http2TypesSpec.v`: the tables of RFC 7540.
* `FormatSpec.v`: the form of the texts of values, names by the tables of RFC 7540.
* `Http1Setting.v`: how a multipart body ends when no boundary was set.
* `FormSpec.v`: the program that receives forms, and forms as user agents write them.
* `ServerSpec.v`, `ClientSpec.v`: programs that receive requests and responses with chunked bodies.
* `ValueSpec.v`: header values of RFC 7230, and where they stop being read.
* `MethodSpec.v`: requests with other methods; `SizeSpec.v`: chunk sizes of RFC 7230.
* `ExampleSpec.v`: what a program should have collected from a head.
* `UtilSpec.v`: percent encoding, UTF-8, queries, fields, and the step
  relations of both iterators.
* `Agree.v`: conditions on escapes under which the decoders agree.

Property theorems are in `Props*.v` only, each closed by `exact lemma`.

## How the properties are proved

HTTP/1.
1. *Termination* (`Http1Term.v`): a rank on (state, next byte) decreases with
   every step that consumes nothing.
2. *Reference automaton* (`Http1Sem.v`): one byte at a time, over an abstract
   state, with neither buffers nor slices nor fast paths.  A proof device; no
   statement mentions it.
3. *Simulation* (`Http1Sim.v`, `Http1Step.v`): every state function, whatever
   the handler answers, preserves "calls so far ++ pending slice, then the
   automaton on the rest".  Lifted to `resume` and `feed` (`Http1Run.v`,
   `Http1Client.v`, `Http1Api.v`).
4. *Step invariants* (`Http1Misc.v`, `Http1Data.v`, `Http1Order.v`,
   `Http1Fault.v`, `Http1Url.v`): symbolic execution of all state functions
   with a weakest-precondition tactic (`Http1Wp.v`).
5. *Round trips* (`Http1Round.v`, `Http1Round2.v`): the automaton on rendered
   messages, transported to all segmentations by 3.
6. *Exact acceptance* (`Http1Parse.v`, `Http1Parse2.v`, `Http1Parse3.v`,
   `Http1Parse4.v`): accepting runs of the automaton, inverted phrase by
   phrase, and the converse; transported to all segmentations by 3.
   `Http1Viable.v`: from every state that waits for input some input leads to
   the end of the message.  `Http1Reads.v`, `Http1Reads2.v`, `Http1Reads3.v`,
   `Http1Understood.v`: the automaton does what the readers do.
7. *Freshness* (`Http1Fresh.v`, `Http1New.v`): the byte counter and the byte
   fetched last do not influence parsing.

HTTP/2 follows the same plan (`Http2Term.v`, `Http2Sem.v`, `Http2Sim.v`,
`Http2Run.v`, `Http2Frame.v`, `Http2Cut.v`, `Http2Misc.v`, `Http2Api.v`,
`Http2Over.v`, `Http2AnyFacts.v`, `Http2FullSem.v` and following).
The utilities: `UtilRef.v` (functions without cursor equal to the model),
`UtilFacts.v`, `UtilFields.v`, `UtilIter.v` (inductions on the input).

Where the code violates an expected property, the property text says so, the
violation is proved (`..._refuted`, concrete witness by computation), and what
does hold is proved beside it.

## Per property

HTTP/1 parser
* C01 rank argument; the number of dispatched state functions is at most 8 len + 16.
* C02 context is a split of the stream; Eos only with empty rest.
* C03, C04 from the dead and finished states and `reachable`.
* C05 counting invariant, for a call and for a whole client.  C06 refuted: the call that ends a URL-encoded body counts its bytes twice; the exact count is proved, also for a whole client (`Http1Count.v`).
* C07, C09, C10, C11 simulation: two clients with different cuts and different handlers see the same; on an error they may differ only by last bytes of one item (`nearly`).  C07 excludes methods starting with H that are cut within nine bytes: C08, refuted (and proved for the other cuts).  C10 excludes boundaries with CR or of more than 2^14 bytes: for both a cut that changes the outcome is given (`C10_..._refuted`).
* C12 rank argument on the client.
* C13 invariants "no fault" under proper use.  C14 refuted by five witnesses.
* C15, C16, C17 invariant on reported bytes, for every parser state whatever.
* C18, C19, C20, C23, C25, C26 round trips for all cuts and handlers.  C25: an error about a missing delimiter comes after everything before it has been reported (`Http1Required.v`, by C77).
* C56, C57, C58, C59 accepted if and only if in the grammar, for all cuts and handlers.
* C60 acceptance, an invariant on the states of the automaton, and a way to the end from each of them.
* C63 the readers `Http1Reader.v` equal the reference automaton on every byte stream, by
  recursion along the reader (`Http1Reads*.v`); then the simulation, which also gives `state()`.
* C68 streams outside the simulation (a method beginning with H, cut early): the states that
  detect "HTTP/" followed step by step until the simulation applies again (`Http1CutsFacts.v`);
  the readers tell the two cases apart (`Http1CutsMatter.v`).
* C64 (both parsers) post-condition of every state function: at most one call, and what follows from its answer.
* C70 one step: a state function does the same on a fresh context (`run_fn_rel`), and a handler that
  answers false only replaces "go on" by "return" (`run_fn_paused`); induction over the loop of a
  handler that never pauses, then over the pieces (`Http1Same*.v`).
* C71 post-conditions of every state function: where the reported bytes lie in the piece (`run_fn_cut`), and
  after which calls no more data of the same kind follows (`run_fn_uncut`); induction over the loop, and over
  the pieces for a handler that never pauses; C70 gives every other handler (`Http1PiecesRun.v`).
* C72 a call does the same whatever the handler was told before, except for what content_length() answers
  (`run_fn_shift` in `Http1Shift.v`); then the round trips (C18-C20, C25, C26), message by message (`Http1ConnFacts.v`).
* C73 the reader of C63 against the steps of `QueryIterator` (C54), by induction over the steps; the grammar of
  `decode` (C44) against both.  Without the conditions: refuted (`AgreeFacts.v`).
* C74 the reference automaton keeps the unread bytes of an error, the simulation compares them with those of the model
  (`placed`), and the counts of C05 give the place (`Http1Place.v`).  Errors of boundaries: an interval; the exact place
  depends on the cut, refuted.
* C77 at an error the slice of the parser ends with the wrong byte and contains what the reference automaton has and the
  handler has not been told (`Http1LostStep.v`); the slice is contiguous in the piece (`window` in `Http1LostFacts.v`).
  C74 and C77 for methods beginning with H that are cut: the runs of C68 from the middle of a piece (`Http1CutErrors.v`).
  C74 and C77 for `new()`: by C31, or white space is refused at once (`Http1NewErrors.v`).
* C78 the simulation of C63/C68 for a handler with a history (`Http1Shift.v`), message by message; pieces that are used up
  do not matter (`Http1ProgramFacts.v`).
* C79 for each grammar of C56-C59: what is accepted has a normal form, and what the writer makes of the observation is
  in the grammar with the same observation (`Http1ForwardFacts.v`); C56-C59 then give both directions. Modelled besides the
  parser: a writer for each kind of message, as a function of the last and the present callback (specification, not code of the crate).
* C75, C76 a potential for every state: calls that may still be made without reading a byte, and (HTTP/1) bytes that
  were read and may be reported later, such as the text of a possible boundary.  Every step pays for its calls and data
  with bytes or potential (`Http1BoundFacts.v`, `Http2BoundFacts.v`); the rest is summation (`Http1BoundRun.v`).
* C66 round trips (C18, C19) and a fold of the documented handler over the calls, which does not depend on how items are cut.
* C21 ghost counter over the calls.  C22, C24, C27 refuted; what happens in all their cases follows from
  the exact grammars of C57-C59 and the verdicts of C60 (`Http1Always.v`).
* C28 truncation in `resume`, and exact accounting of the declared length.
* C29 invariant on failing steps.
* C30 `reset`/`init_*`: equal observations whatever was done before.  C31 refuted for leading white space; otherwise equal observations.
* C32, C52 protocol automata over the calls, also for malformed input; the automaton has reached its
  last phase if and only if the client was told that the parser finished.

HTTP/2 parser
* C33 rank argument; the only fault is an overflow in a frame too short for its fixed fields.
* C34, C37, C38, C42 reference automaton on rendered frames, for all cuts outside the fragile places.
* C35, C36 refuted: cuts inside a stream id, GOAWAY or SETTINGS.  C39, C40 refuted: padding longer than the frame, SETTINGS of other than one entry.
  What happens in every such case, and that every frame outside `prompt` is late (C42), follows from `h2_full` of C67 (`Http2Always.v`).
* C41 invariant over histories; refuted for PUSH_PROMISE and WINDOW_UPDATE.
* C53 counting invariant.
* C61 parsers that differ only in byte_count(), or are both at the beginning of a
  frame, cannot be told apart (`Http2Fresh.v`).
* C62 the specification `Http2Any.v` equals the reference automaton on every byte
  stream (`Http2AnyFacts.v`); the simulation, extended to streams on which a length
  becomes negative (`Http2Over.v`).
* C67 a second reference automaton (`Http2FullSem.v`) that knows where pieces end and
  computes lengths as the build does; simulation (`Http2FullSim.v`, `Http2FullRun.v`);
  it equals the specification `Http2Full.v` on every byte stream (`Http2FullFacts.v`).
  That this specification extends the one of C62 is shown without the model, frame by frame (`Http2Extends.v`).
* C80 without the model: what `Http2Full.v` says of a frame is written and then read by `Http2Any.v` with the same result,
  whatever follows (`Http2ForwardFacts.v`); C67 for the first parser, C62 for the second. Only the first run is restricted
  to checked builds: with wrapped lengths the padding cannot be computed from the reported length.
* C81 the semantics of the parser on the grammars is a function (`head_run` etc., from C56-C59), so two derivations for the
  same bytes have the same end and the same observation (`Http1Unique.v`).
* C82 every state function commutes with a change of the boundary or the length outside of the states that read it
  (`Http1Setup.v`); the missing values by computing the few steps.  Refuted for `set_length` on a chunked parser.
* C83 composition of C78 (a program of one head and one body), C18/C23 (what is reported of a head and of parts) and C50
  (what FieldIterator yields), with the handler that collects header fields (`FormFacts.v`).  Refuted for uploaded files; what is
  received of forms with files is proved as well (`FormUpload.v`).
* C84 composition of C78, C18, C26 (URL-encoded bodies) and C54 (what a loop over QueryIterator yields); the pairs that are
  lost are found by induction over the form with the steps of the iterator.
* C86 induction over the requests: C78 (programs), C18/C20 (heads, chunked bodies) and C50 (codings), with the invariant
  that the handler has the requests so far and stands outside of a head (`ServerFacts.v`).  Refuted for `CHUNKED`.
* C87 likewise for responses (C19), in `ClientFacts.v`.  Refuted for empty reasons and for tabs in them; what the reader of
  C63 makes of such status lines is computed (`ClientLost.v`).
* C88 a value is taken (C18, C19) or stops being read, by induction over the value (`ValueWhich.v`); the byte automaton is run to
  the byte where it stops (`ValueLost.v`).  Refuted for empty values, open quotes and white space behind values.
* C89 the method is split at the first byte that is no capital letter; C18 or the reader of C63 (`MethodFacts.v`).  Refuted for `M-SEARCH`.
* C90 C20, or a run of the byte automaton to the digit that is one too many (`SizeFacts.v`).  Refuted for sizes with zeros before them.
* C91 a run of the byte automaton to the byte that differs from the delimiter or follows a boundary, with C77 for what was
  reported (`PreambleFacts.v`); a preamble leaves the delimiter at some byte (`PreambleMore.v`).  Refuted for preambles and padding.
* C92 a run of the byte automaton over chunks, size and extensions to the byte that may not follow (`ExtFacts.v`); C20 for white space
  behind values (`ExtSpace.v`).  Refuted for white space before `;` and `=`.
* C93 a run of the byte automaton over a message to the byte behind the name (`FieldNameFacts.v`, `FieldNameBodies.v`), or over the nameless field to the
  end of the head (`FieldNameless.v`).  Refuted for empty names.
* C94 a run of the byte automaton over what comes before to the wrong byte (`LineFacts.v`, `LineFirst.v`, `LineChunk.v`,
  `LineLast.v`); theorems in `PropsLine.v`.
* C69 post-condition of every state function on where its slice lies in the piece; with C67, which says
  what has been reported after every piece, this determines the calls (`Http2PiecesFacts.v`).
* C85 composition of C37 (what is reported of frames) with a handler that keeps the current stream and what it has of the
  current block (`Http2StreamsFacts.v`).  Refuted for cuts inside stream identifiers.
* C43 types: case analysis and bit lemmas.
* C65 (all types with a text) the texts against a description of their form and tables of RFC 7540;
  injectivity by cancelling prefixes and numerals.  Refuted for Display of `Success`, `Flags`, `FrameFormat` and settings under unknown identifiers.

Utilities
* C44, C45 `decode` characterised exactly.  C46 refuted (any bytes can be in the returned `String`), with the exact extent.
* C47, C48, C54 `QueryIterator` characterised exactly, for every input.  Escapes in names: refuted.
* C50, C51, C55 `FieldIterator` likewise.  Quoted values before the end, last names: refuted, and what happens in every such
  case is proved (`UtilLost.v`).
* C49 termination; fusedness of `QueryIterator` refuted.

## Findings about the code

HTTP/1
* A method beginning with H is reported without its H.. prefix if the first piece ends within it ("HEAD" cut after 3 bytes: "EAD") - C08.
* `byte_count()` counts a URL-encoded body twice when it finishes - C06.
* `set_length()` before a chunked body that is empty turns its size 0 into the length set - C82.
* The usual `Content-Disposition: form-data; name="a"; filename="b"` cannot be read with FieldIterator: the name is lost - C83, C51.
* Without `set_boundary()` a multipart parser panics at the first byte after two hyphens - C82.
* The byte 255 panics in header names, header values, chunk extensions and fields (tables have 255 entries) - C14, C55.
* `new()` followed by an empty stream reads out of bounds; a multipart parser without boundary panics - C14.
* A zero-size chunk with an extension does not end the body - C22.
* CR in multipart data can hide the delimiter - C24.
* A boundary containing CR, or one of more than 2^14 bytes (its position is kept in 14 bits), is recognised or not depending on the cut - C10.
* A URL-encoded body may end inside an escape - C27.
* A response with an empty reason ("HTTP/1.1 200 ") or with a tab in it is rejected, although RFC 7230 allows both - C87.
* A header field with an empty value, with a value that begins with a byte from 128 or with a quote that is not closed (`5" disk`) or with an escaped byte above 0x7A (`"a\~"`) is rejected, although RFC 7230 allows all of them - C88.
* White space behind a header value is reported with the value - C88.
* Methods other than of capital letters, such as `M-SEARCH`, are rejected - C89.
* Chunk sizes with zeros before them, also the last chunk `00`, are rejected - C90.
* Multipart bodies with a preamble, with CRLF before the first delimiter or with white space behind a boundary are rejected, although RFC 2046 allows all of them - C91.
* White space before the `;` or the `=` of a chunk extension is rejected, and reported with the value when it is behind one; RFC 9112 has it parsed and removed - C92.
* A header field with an empty name is accepted; a handler that collects values gets its value appended to that of the field before - C93.
* `new()` does not skip leading white space, `init_head()` does - C31.
* Leniencies: empty header names and chunk-extension names are accepted (no call is made), a folded line before any header is accepted.
* After an error in a multipart boundary `byte_count()` depends on the cut: "--abx" for the boundary "abc" gives 3, in one piece, or 5 - C74.
* The state `MultipartBoundaryLf` is never entered: the LF after a boundary is awaited in `InitialLf` (parser.rs:2667) - C63.
* The handler shown in the documentation panics on header values that are not UTF-8 and takes a line without a name for a continuation of the field before - C66.

HTTP/2
* Cuts: of a stream id inside which a piece ends only the low 16 bits are kept (C35), so that data of stream 65537 is reported as data of stream 1 (C85); after a cut in GOAWAY or SETTINGS nothing is reported any more (C36).
* Padding longer than the payload: overflow (C39); without overflow checks up to 2^24 bytes of what follows are taken for data (C67).  SETTINGS with zero or several entries derail the parser (C40).
* Reserved bits are kept in PUSH_PROMISE and WINDOW_UPDATE (C41).
* Frames with empty data are completed only by the next frame's first byte (C42).
* `FrameFormat::new` and `Setting::new` cannot be called from outside.
* The text of a `Flags` or `FrameFormat` does not show flag bits 1, 4, 6 and 7, that of an unsupported `Setting` not its identifier (C65).

Utilities
* "%41=b", "a=%4" and "=b" are accepted as URL-encoded bodies but not as queries (C73).
* `decode("%FF")` gives a `String` that is not UTF-8; the iterators too (C46).
* Any escape in a query name is an error (C48): of a form sent in a URL the pairs from the first such name on are lost (C84).  An invalid escape in a query ends the iteration without moving to the end, so that the next call goes on (C49).  Leading delimiter and "=" are rejected only at the very first byte of the query (C54).
* A quoted field value followed by another field is an error; one arbitrary byte after the closing quote is accepted (C51).
* A last name ending in "/" - or, when normalising, in an upper-case letter - is lost (C51), so that the body of a request with `Transfer-Encoding: CHUNKED` is taken for the next request (C86); white space after such a byte is dropped (C55).
* "a=;b" gives `Some("")` for a (C55).

## Wrong programs

`seeded/LOG.jsonl` has one line for each edit of the model that was tried, outside of `/verif`: `definition` and `edit` (what was changed), `claim` (the statement that is false of the edited program), `failed` (the theorems that no longer hold), `tightened`, and where there is one a `counterexample`.  The edits were written by hand or generated from the text of the models (a comparison or constant changed by one, a state or callback exchanged, a branch or an update dropped, an entry of a table flipped).  The field `method` says how an edit was tested:

* "files rebuilt": the proofs were built in order; `failed` are the theorems that rest on the first proof that fails.  Other theorems may be false as well.
* "evaluated ...": as the rebuild takes long, the statements of the theorems were also written as functions into bool (for all prefixes, cuts and pauses of a message, compared with the specifications), which are true of the model on about 14000 streams for HTTP/1 and 38000 for HTTP/2, and were run on the edited model, by vm_compute or after extraction.  `failed` are the theorems whose instances were found false: the first one, or all of them where the line says so.
* "instances by vm_compute": theorems that are refutations or about single cases, evaluated on the edited model.

Edits after which nothing failed were judged by reading.  Lines with the claim "none" are edits that do not change what a program can see (e.g. of a state that cannot be reached, or of a bit that is never read).  The others led to changes: the theorems under `tightened` (C30 and C61 did not speak about everything that a used parser remembers, C66 not about what the documentation's handler holds in the midst of a head) were strengthened until they failed for the edit.

A few theorems are about the specifications alone, and no edit of the program makes them false: C24_hidden, C26_url_encoded_any_pairs, C55_field_step_total, C68_cuts_that_matter, C84_plain_names, C85_data, and C81_head, C81_chunked, C81_multipart, C81_url_encoded, which are the reason for the theorems C81_..._agree about the program.

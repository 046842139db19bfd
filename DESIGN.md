# Formal model of bobbobbio/http_io in Rocq (Coq 8.16.1)

Contents: 1 what is modelled, 2 what is not, 3 trusted base, 4 conventions of the statements, 5 how each property is
proved, 6 findings (claims that are false of the code, and surprises), 7 how the theorems were tested, 8 layout,
9 theorems per property.

## 1. What is modelled

Everything in `/repo/src` that is logic, function by function; every definition of the model cites the lines it models.

| Source | Model file | Notes |
|--------|------------|-------|
| `src/protocol.rs` 25-190 bodies | `Message.v` | `HttpChunkedBody`, `HttpBody`, `HttpBodyChunk` |
| `src/protocol.rs` 215-263 `CrLfStream` | `Message.v` | over any reader |
| `src/protocol.rs` 304-415 `Parser` | `Parser.v` | every method; slices panic off a char boundary |
| `src/protocol.rs` 539-877 versions, statuses | `Types.v` | parse, print, categories |
| `src/protocol.rs` 1373-1522 headers | `Types.v`, `Message.v` | `BTreeMap` as a sorted list, `Peekable` explicit |
| `src/protocol.rs` 1564-1626 responses | `Message.v`, `Outgoing.v`, `Server.v` | parse, serialize, `new`, `from_string` |
| `src/protocol.rs` 1646-1694 methods | `Types.v` | |
| `src/protocol.rs` 1750-1903 requests, `OutgoingRequest`, `OutgoingBody` | `Message.v`, `Outgoing.v` | including `Drop` of the `BufWriter` |
| `src/io.rs` (no_std I/O) | `Io.v` | every type and function |
| `src/client.rs` | `Client.v` | builder, `send_request`, `get`, `put`, `HttpClient`, both connectors, `StreamEither` |
| `src/server.rs` | `Server.v`, `Lent.v` | handlers, dispatch, `serve_one`, `serve_forever`, default methods; `Lent.v` with bodies that borrow the handler |
| `src/url.rs` | `Client.v` | `Scheme`, `HttpUrl` on top of an abstract `Url` |
| `src/error.rs` | `Base.v` | variants and conversions, without message strings |
| `src/ssl/rustls.rs` | `Ssl.v` | both handshake loops, `Acceptor` use, `SslListener::new`/`accept`, over an arbitrary TLS engine |
| `src/ssl/native_tls.rs`, `openssl.rs` | `Ssl.v` `listener_accept` | the library's handshake is an oracle |

Library code the crate rests on is modelled from its documented behaviour, because the properties depend on it:
`std::io::{BufReader, BufWriter, Take, Bytes, Cursor, copy, Read::read_exact, Write::write_all, write_fmt}` (with the
retry on `Interrupted`), `str` slicing and `from_utf8`, `from_str_radix`/`parse`/`Display` of unsigned integers,
`to_lowercase`/`to_uppercase` (Unicode 14 tables, final sigma rule), `Peekable`, `BTreeMap`, `HashMap`.

Both builds are modelled: a parameter `bld : build` (`Std` / `NoStd`) selects the std or no_std I/O layer, and every
theorem holds for both unless it says otherwise.

The network of C58 (`Net.v`) is a client and a server, each a function of the answers its socket calls got so far, and a
step relation that answers one blocked call: a read gets any non-empty part of what is in the queue, or the end if the peer
has ended; a write puts any non-empty part of its data into the queue, as far as there is room.

## 2. What is not modelled

* Message strings of errors, outside `ErrText.v`. `error` keeps the variant (and io kind, int kind, status, method). The text of a 500
  response, `e.to_string()`, is an arbitrary function `etext`, so theorems hold whatever it says. `ErrText.v` repeats
  the parsers of heads with the messages, and C74 is about them. There the text of a transport's error remains an arbitrary function,
  and which characters outside ASCII the `Debug` of a `str` escapes an arbitrary predicate; NUL is escaped as `\0`, as recent versions of Rust do. Messages
  of errors in bodies are not modelled: no answer of the server shows them.
* The `url` crate (a URL is the record of what its accessors return; which records it can produce is an explicit
  hypothesis of C45), DNS, TCP, and the TLS libraries (arbitrary functions; C53's `sane` states what is assumed of
  the rustls engine where something is).
* `HttpHeaders::iter`/`IntoIterator` wrappers, `Debug`/`Default`/`Clone` derives, `read_vectored`/`write_vectored` forwarding,
  `println!`, and test-only code (`#[cfg(test)]`). Of `examples/` the file server is modelled (`Files.v`), the loop of `connection_reuse.rs`
  (`Session.v`), and the programs `client.rs`, `advance_client.rs` and `no_std.rs` without what they print for debugging and
  without their command line parsers (`Commands.v`); the file server over a file system that is a tree: no symbolic links, special files, permissions, limits or full disks, no other process that changes
  files, and Unix paths. The handler in the documentation of `src/server.rs` is modelled over the same file system (`Docs.v`).
* Handlers that take an `HttpBody` apart to reach the raw stream. Response bodies whose `read` changes the handler's state
  while the response is being copied are modelled in `Lent.v` only (C87); in `Server.v`, which the other theorems are about,
  `dynread` objects have their own state only.
* Transports that deliver data again after reporting end-of-file, or that claim to have read or written more than
  they were given. The model has an explicit `Panic` there, and the transport hypotheses exclude it.
* Memory exhaustion, stack depth (except the recursion of a chunked read, C54), timing, and integer widths of `usize`.
  Lengths of buffers are `nat`; content lengths and chunk sizes are bounded by `u64` as in the code.
* Threads: the crate has none. A client and a server that run at the same time are interleaved at socket calls (C58,
  `Net.v`). The sockets there block and do not fail, and what is written after the peer has ended is accepted and lost,
  where TCP would at some point answer with a reset. C61 says in which states TCP may do so, and what the client then
  returns; C71 says what the client returns whose writes fail from
  such a moment on. A reset in the middle of an answer is not modelled.

## 3. Trusted base

* Coq 8.16.1's kernel (`coqc`), including its virtual machine: `vm_compute` is used on closed terms, in
  Examples, refutations, table sweeps and a few lemmas.
  No `native_compute`, no plugins beyond those shipped with Coq (ltac, lia/zify, ring), no flags that switch off checks.
* Axioms: none. `Print Assumptions` follows every theorem in the `P*.v` files, and prints
  `Closed under the global context` for each of them. (The gate lists seven `Coq.ssr.ssrunder` constants as library axioms. They
  are in a standard library file that is loaded whenever `Setoid`, and so `ZArith` or `Lia`, is required; no theorem here
  depends on them.)
* That the model is what the code does. This is by reading: each definition cites the lines. It is the weakest link.
* That the specifications say what the English says. The specification-level definitions are small and separate from
  the model: `Transport.v` (items, `delivers`, `honest`, `reliable`), `ChunkSpec.v` (the grammar of chunked bodies),
  and the definitions at the head of each `P*.v`.

## 4. Conventions

* `bytes := list byte`; a `&str`/`String` is its UTF-8 bytes. Slicing at a non-boundary is an explicit `Panic`.
* Results: `Ok a | Err e | Panic | Fuel`. `Panic` is a Rust panic. `Fuel` is "the loop was cut off": every loop that
  is unbounded in Rust takes fuel, and theorems are stated for every fuel above an explicit bound, so `Fuel` is
  excluded by the statement. C54 is the theorem that such bounds exist: the code terminates.
* A reader is a state type `S` and a function `rd : nat -> S -> res bytes * S` (buffer size in, bytes out). A transport
  is described by the sequence of items (bytes `B b` and errors `E e`) it will deliver. `delivers rd s xs` says that
  `rd` started in `s` produces that sequence under every sequence of buffer sizes, in whatever segments. Theorems
  quantify over all `S`, `rd` and `xs`, so over all segmentations and fault positions.
* A writer is a state with `wr : bytes -> W -> res nat * W` and a flush. `honest wt log` says that `log w` are the bytes
  accepted so far; such a writer may accept any part of a buffer, or fail, at every call. `reliable` adds that it
  never fails.
* `noisy bld d xs`: the items `xs` are the bytes `d`, interspersed with errors the build's loops retry.
* `drains rd s got e s'`: reading with non-empty buffers (any sizes) until the first end-of-file or error gives `got`.
* The code's `&mut` state is returned as a new value.
* Where the unconditional English claim is false, the theorem is the exact characterization, and a theorem ending in
  `_refuted` (or the Example) gives the witness.

## 5. How each property is proved

The theorem names are in section 9 and in MANIFEST.json; each is followed in its file by an Example (`Cnn_case`) with a
concrete case that meets its hypotheses.

| Id | Modelled as | Proof |
|----|-------------|-------|
| C01, C02 | `crlf_next` over any reader | induction over the delivered items |
| C03 | request/response deserialize over any reader | simulation: run on any reader = run on the item list |
| C04, C06, C07, C10 | `chunked_read` | simulation between the reader state and a grammar of chunked wires |
| C05 | `outbody_write`, `finish` over `BufWriter` composed with C04 | the encoder produces the grammar; writer-log invariant |
| C08, C09 | `chunked_read` on `CDone`; size 0 reads | case analysis, witness for the refuted part |
| C11, C12, C14, C31 | `take_read`, `body_read` | simulation with `firstn` on items; histories of reads incl. failed ones |
| C13 | `body_new` | case analysis on the parsed headers |
| C15, C16 | `Parser` functions with panicking slices | string lemmas, UTF-8 boundary lemmas |
| C17 | `from_str_radix`, `show_radix` | induction; positional value spec |
| C18, C19 | enum of 40 statuses + Unknown | case analysis over the enum / `N` |
| C20, C21 | string comparison, Unicode upper-casing table | case analysis and table sweep |
| C22, C23, C26 | sorted association list for `BTreeMap` | induction |
| C24, C25, C27 | `headers_deserialize` with an explicit `Peekable` | induction over lines |
| C28, C29, C30 | serialize / deserialize | composition |
| C32, C33, C36 | `read_exact`, `write_all`, `copy`, `Cursor`, slices | induction on fuel/items |
| C34, C35 | std `BufReader`, `BufWriter` with arbitrary capacity | simulation / invariant |
| C37..C41 | request builder, outgoing request, `send_request` | composition + writer-log invariant |
| C42, C43 | pool as association list, connector oracle | invariant over operation histories |
| C44 | dropping the body returns the underlying stream | position of the reader after a body; witnesses for refuted parts |
| C45 | `Url` record (oracle for the `url` crate) | case analysis |
| C46..C51 | server with handlers as body-reading programs | case analysis, coinductive handler runs, induction over connections |
| C52 | client, network and server composed | corollary of C05, C50, C40 |
| C53, C57 | handshake loops over an oracle TLS engine | induction on fuel, well-founded measure for termination |
| C54 | fuel bounds, reads counted by an instrumented reader | counting simulation |
| C55 | event trace of an instrumented writer | invariant |
| C56 | instrumented reader/writer recording the errors they returned | invariant |
| C58 | two programs that are replayed on the answers given so far | a program looks at its transport through reads and writes only (parametricity, by induction over the model), so what it does next is computed on a transport that grants everything; then C52 |
| C59 | pool histories, a stream at its end | C42's dead-stream theorem applied to what C50 leaves to read |
| C60 | builder and responses with a list of `add_header` calls | induction over the calls, then the round trips C28 and C29 |
| C61 | the network of C58, and the states in which TCP resets a connection | an execution that holds back the last two bytes, by induction on the bound of C58; for requests without a body, C58's facts about the server with no byte unread |
| C62 | any number of clients, one server program that accepts the next connection when it is done with the last | the network of n clients splits into that of the first (C58) and that of the others, in which nobody is accepted before the first is done |
| C63 | parser and serializer composed twice | what an accepted header block can contain (C30), then its lines as a block again; map order decides which line a leading blank is folded into |
| C64 | the file handler as a server handler, a tree of files | the copy loop as a program on the body (C46), then the answer on the wire (C50); laws of lookup and update in the tree |
| C65 | two trees that agree on the served directory | path resolution step by step: the walk stays below the root as long as ups do not exceed downs |
| C66 | many clients (C62) on the file handler (C64), compared with a map from paths to contents | every upload and download is a good exchange (C58) for the tree as the earlier clients left it; then the theorems of C62 |
| C67 | `finish` for a request with any method; the network of C58 with an arbitrary peer | framing (C13) and delivery (C11, C14, C44); a client that returned would have the same result for two different bodies |
| C68 | a client with any list of requests over the network of C58, against any peer that waits for the whole request and then sends the whole answer; the pooled client equals it on the one stream | the client ends every answer on its last byte (C44 with the read-ahead of the std build: nothing is in flight behind it), so client and peer stay in step; the step bound and progress as in C58 |
| C69 | the example clients over any connector, stream and standard output | sending succeeds on a stream that takes what is written (C60), the head and the framing are those of C44, and `copy` to a writer that takes everything is the bytes before the first error |
| C70 | the handler and the program in the documentation of `src/server.rs`, over the file system of C64 and the network of C58 | C46 and C50 for the answers, C58_put for the program, C69 for what the client makes of the directory's answer |
| C71 | the network of C58 with a handler that does not read the body; a socket whose writes fail from some moment on | while it reads the head the server asks for at most one buffer full, so it takes at most `ahead` bytes of the body; from that, invariants over all executions, and one execution that gives the server single bytes |
| C72 | a handler that returns an answer it received from another server, with the old or with other headers; three parties, two connections | the body of the first is what C04, C06 and C11 deliver; C50 and C70 put it on the wire; C63 gives the second head, and the exact language of chunked bodies (C07) what is read of data taken for chunks |
| C73 | transports that deliver an infinite sequence of bytes; not returning is `Fuel` for every bound | the lines and heads read from an endless stream are those read from every finite stream with the same beginning, up to the position reached; for acceptance the finite run is compared with the endless one (NetLemmas) |
| C74 | the head parsers with messages (ErrText.v), `Debug` of strings; the server with the text they give | the model with messages is the model (C74_same); every stream begins with lines and an end of one of five kinds (C74_streams), and for these the message is computed line by line; the escaping is a prefix-free code |
| C75 | the server with any write failure or failing body; the client's `deserialize` and body reads | a head cut anywhere is lines and one of two ends, on which C74 says what is reported; a body cut anywhere is the reader theorems of C11/C14 on the shorter stream; C50 says that what a failed server sent is such a beginning |
| C76 | `request_deserialize`, `response_deserialize` and the framing they choose; the RFC's rules as `http_framing` over the raw fields | C30 gives the header lines, C13 the choice; the header map's last value is the last field of that name because no character outside ASCII lower-cases into these names (checked over the whole case table) |
| C77 | `request_deserialize`, `response_deserialize`; the RFC's grammar of heads as predicates on lines | the lines of a head are determined by its bytes; C30 both ways; token splits are unique |
| C78 | `body_read` on `BChunked`; the RFC's grammar of chunked bodies as data | such a body is `loose_wire` or `bad_wire` of C07 |
| C79 | `request_pieces`, `response_pieces`, `send`, `run_ops`, `finish_send`; the grammar of C76-C78 | lines and fields correspond one to one; digits end at the first other byte; C05 and C60 |
| C80 | `builder_new`, `builder_add_header`, `request_pieces`; the effective request URI of RFC 7230 section 5.5 | C37: the head is read back; lengths of the missing parts |
| C81 | `Net.v`, `server_run`; clients are arbitrary programs over the socket that wait | invariant over reachable states; `server_facts` of C58 |
| C82 | `to_uppercase`, `to_lowercase`, `parse_method`, `headers_get` | the tables are searched for characters that map into ASCII, by computation; induction over the text |
| C83 | `request_deserialize`, `response_deserialize`, `body_read`, `serve_one_inner`, `serve_stream` in `Std` and `NoStd` | line sources of the two builds simulate each other; decoding of chunked bodies related by induction; C50 for the bytes sent |
| C84 | `serve_one_inner`, `request_deserialize`, `body_new` | C46 for methods without a body; what a framed body delivers is a function of the framing and the rest |
| C85 | `serve_one`, `serve_forever`, `respond`, `run_prog` | C16's equivalence for the head; termination of writing, copying and of the handler's program; induction over the connections |
| C86 | `request_pieces`, `response_pieces`, `chunk_of`, `send`, `run_ops`, `finish_send` | splitting equal byte strings at the first space, colon, line end; injectivity of the printed numbers; induction over headers, writes and requests |
| C87 | `lent_stream`, `lent_forever`, `respond_with`, `lent_inner` (Lent.v), `serve_stream` | simulation with the plain server for handlers that lend nothing; induction over the reads of `copy`, then over connections |
| C88 | `turn`, `turns` (Turns.v), `client_start`, `request_rest`, `pooled` | the pool entry and the part of the world of an address as an invariant; induction over the requests |
| C89 | `exchange`, `send`, `outgoing_write`, `finish` | sending returns on every stream that is not interrupted for ever, by the invariants of the buffered writer; what the peer sends as an invariant; C16's equivalence for the head |

## 6. Findings

Claims a user could reasonably rely on that do not hold. Those with a property id follow from its theorems; items marked
(reading) are from reading the source only and no theorem states them.

* **A peer can panic the process.** A header line whose character after the first colon is not ASCII, or a version token
  with a non-ASCII character at a sliced position, makes parsing panic (C16). In the server this unwinds out of
  `serve_forever` and ends it (C51, C85); in a client such an answer makes the request panic,
  and nothing else does (C89).
* **Silent truncation with `Interrupted`.** An `Interrupted` error inside a chunked body drops the stream; the retry in
  `io::copy`/`read_to_end` then sees a clean end-of-file (C10).
* **A zero-length read corrupts a chunked body**: inside a chunk it eats two payload bytes and re-synchronises on payload
  (C09).
* **A short `Content-Length` body ends cleanly**; the shortfall is only visible through `content_length()` (C12).
* **Request smuggling surface**: `Transfer-Encoding` must be exactly `chunked` (case-sensitive, no list); otherwise it is
  ignored in favour of `Content-Length` (C13). The two bytes after a chunk are not checked, and a leading `+` in a chunk
  size is accepted (C07).
* **Header injection and response splitting**: nothing removes CR LF from header keys, values or the URI (C27).
* **Header sets built with `http_headers!` or `collect` with an upper-case letter in a key can never be looked up** (C26).
* **Connection reuse is broken after chunked responses**: the final CR LF of the body is never read, so the next
  response fails to parse unless it happened to be buffered; and in the std build bytes of the next response that were
  read ahead are lost (C44). A pooled stream is never evicted, so after the peer closes it every request to that address
  fails (C42). In particular the crate's own server closes after one answer, so the second request of an `HttpClient` to it
  always fails with `UnexpectedEof` (C59).
* `add_header("Transfer-Encoding", …)` on the request builder replaces the framing header while the body is still sent
  in chunks; this crate's server then answers 411 or, with a Content-Length, reads chunk text as the body (C60).
* **The query string and port of a URL are not sent** (C37).
* **Without feature `ssl`, `https` URLs are sent in plain text** (C43).
* **An error from `send` does not mean that nothing was sent.** The `BufWriter` inside the error is dropped, and dropping it
  flushes once more, so the server may act on a request that the caller believes unsent (C39_sent_anyway).
* **Only status 200 counts as success** for `client::get`/`put` (C41).
* **The response can be lost on TCP**: the server does not wait for the CR LF behind the last chunk of a request body, so
  for every upload there is a run in which it answers and closes with those two bytes unread. TCP then resets the
  connection, and the client reports an I/O error although the handler has succeeded (C61). A `DELETE` through the request
  builder is sent with an (empty) chunked body, which the server does not read at all.
* **Client and server can wait for each other for ever** (C58): a client that sends a large body to a handler that answers
  without reading it (such as the crate's default 405) blocks in a write, while the server blocks writing an answer that does
  not fit into the other queue. The client never reads before it has sent everything (C40), and the server never drains a body.
* **Uploads that are answered unread always lose their connection to a reset** unless the whole body was read together
  with the head, whatever the sizes of the queues (C71). If the rest of the body does not fit into the queue, the client is
  still writing at that moment, and with its next write it loses the answer; so a client of a server that refuses large
  uploads sees an I/O error in place of the 405. If the answer does not fit either, both always wait for ever. Nothing in the
  server drains or bounds a body.
* **One silent client stops the server**: connections are served one after the other without timeouts, so a client that
  sends a part of a request and waits keeps all others waiting for ever (C62).
* **There is no limit on the size of a head**: lines and header blocks are collected until they are complete, so a client that
  never ends its line keeps the server reading (and storing) for ever (C73).
* **Framing that differs from HTTP's** (C76): `Transfer-Encoding: Chunked` or `gzip, chunked` is not taken for chunked, and then a
  `Content-Length`, which HTTP says to ignore, decides; of two different `Content-Length` the last one counts; `+5` is a length;
  `Content-Length :` (blank before the colon) is another header. Behind a proxy that follows the RFC the two see different bodies. As
  a connection serves one request only, the rest is dropped and not read as a second request (C51).
* **Valid heads that are refused** (C77): a field without a blank after its colon (`Host:h`, or an empty value), with a tab there, or
  with a value that is not UTF-8. A value keeps all blanks around it but the first.
* **Chunked bodies** (C78): a chunk extension, which a recipient must ignore, makes the body unreadable; trailer fields and the empty
  line that ends every chunked body stay in the stream, for whatever reads it next (C44, C68); `+5` and any two bytes instead of the
  CR LF behind the data are accepted.
* **Invalid status lines** (C79): for a status without a name `HttpStatus` prints only the number, so the line ends `418` CR LF where
  HTTP requires a blank; header names and values are sent as given, valid or not.
* **The wrong URL is requested** (C37, C80): `HttpRequestBuilder` sends only the path, so a query is lost and there is no way to send one; the `Host`
  header lacks the port, which HTTP requires when it is not the scheme's own.
* **`Expect: 100-continue` is honoured by neither side** (C81, C67): the server never sends 100, so a client that waits for it waits for ever if
  the handler wants the body; the client takes a 100 for the answer.
* **Methods and names outside ASCII** (C20, C82): `PO` followed by the ligature U+FB06 is served as `POST`, and `Coo` U+212A `ie` is stored as `cookie`;
  HTTP allows neither, and a filter in front of the server need not see them as such.
* **The builds differ in errors** (C83): a chunk without a size gives a crate error in no_std and an io error of kind Other in std; a handler that answers one
  and gives up on the other behaves differently. An interrupted read is retried in std only.
* **Host is not looked at** (C84): requests of HTTP/1.1 without a Host field, or with several, are served, and so is any version.
* **A handler that lends itself loses what was read for a failed answer** (C87). The copy buffer of `serve_one` is dropped with
  the error, and nothing tells the handler that its body did not go out.
* **A failed answer looks complete** (C75): if the server's write or the reading of the response body fails, `serve_one` returns the error to
  the server's caller and closes the connection; the client reads a shorter body and a clean end. The server adds no Content-Length, so unless
  the handler sets one there is no way to tell.
* **Rejected requests are answered with internal error texts that quote the request** (C74): `ParseError("Expected ':' in '...'")`
  with the whole line, verbatim where Rust's `Debug` does not escape, in an answer without Content-Type. Line breaks cannot be smuggled in,
  markup can.
* **A proxy can change a message it passes on**: the first header line may start with a blank, and if a header with an empty
  name (or one that starts with a control character) is present too, the next hop reads the former as a part of the latter's
  value (C63).
* **Passing a chunked answer on breaks it, or worse** (C72): reading the body removes the chunks, the header that announces
  them stays, and nothing checks that headers and body of an answer agree. The next client decodes the data as if it were
  chunks; what it then takes for the body is up to whoever chose the data. With the header replaced, an answer that was cut
  off arrives as a complete one.
* **The example file server loses data and says 200**: if a client announces 5 bytes, sends 2 and closes, the old file is
  replaced by the 2 bytes and the answer is 200, because a length-delimited body that ends early looks complete (C12, C64). A
  cut-off chunked upload is answered 500, but the old contents are gone as well.
* **The example file server serves the whole disk**: `..` in a request path is followed, for reading and for writing (C65).
* **HEAD, 1xx, 204 and 304 are not treated specially**: the client waits for, or takes from the next answer, the body that the
  headers announce; a `100 Continue` is taken for the final answer; the server sends a body in answer to HEAD (C67).
* Connection reuse is not dependable with chunked answers: the client leaves the empty line behind the last chunk
  unread, and takes it for the head of the next answer, unless it happens to have been read ahead into the buffer that is
  thrown away with the response. Whether the second request of examples/connection_reuse.rs succeeds then depends on how
  the network cuts the first answer; with Content-Length it always succeeds (C68).
* A download that is cut off is a success for the example clients if the length was announced, and a failure if it was
  chunked; so a script cannot trust their exit status (C69).
* The file server in the documentation answers GET of a directory with 200 and an empty body, because `File::open` of a
  directory succeeds and only reading fails, after the head has been sent (C70). In general, when the
  body of an answer fails, the bytes sent are the same as if it had ended there (`C70_failing_body`).
* **The server never flushes** its stream (C55).
* **TLS**: a ClientHello that arrives in two reads is refused, because `Acceptor::read_tls` is called once (C53); a
  zero-byte transport write during a handshake panics and ends `serve_forever` (C57); a key file without a private key
  panics in `SslListener::new` (C57); (reading) the handshake runs inside `accept`, so one slow client
  blocks all; (reading) the handshake loops spin if the engine wants neither to read nor to write, which C53_terminates assumes away.
* Texts: the default `post` handler says "PUT not allowed" (C49); "407 Prozy Authentication Required", "304 NotModified" and "203 No
  Authoritative Information" are what is printed (they parse back, C18).

## 7. How the theorems were tested

Wrong programs are tried in a scratch copy of the model, one edit at a time; `/verif/seeded/LOG.jsonl` has one line per
attempt that has been evaluated: the definition edited, the edit, the claim it breaks, the theorems that failed and those
tightened. The scratch tool admits each proof that stops working, carries on, and then asks `Print Assumptions` of every
theorem. So "failed" means that the theorem's proof, or one it uses, no longer goes through. That is weaker than the theorem
being false of the wrong program: a script can break although the statement still holds. Lines say where the difference
was looked into.

## 8. Layout

`rocq/theories/`: model (`Base Utf8 UnicodeTables Case Num Io Parser Types Message Outgoing Client Server Ssl Net Files Commands Session Turns Lent Docs ErrText`),
specification vocabulary (`Transport ChunkSpec`), lemmas (`*Lemmas.v`, `NetSock NetStep NetFav NetFacts`), properties (`P*.v`: theorems `Cnn_*`).
`tools/mkmanifest.py` regenerates MANIFEST.json and the list below from the sources; `tools/notes.json` holds the notes.

## 9. Theorems per property

All of them print `Closed under the global context`.

* **C01** Line framing: a line is exactly the bytes before the first CRLF (PBody.v): `C01_line_framing`
* **C02** Line framing failures are errors, never partial lines (PBody.v): `C02_no_partial_line`, `C02_line_was_there`
* **C03** Message parsing does not depend on how the transport splits the bytes (PHead.v): `C03_request`, `C03_response`, `C03_interruptions`
* **C04** Chunked bodies decode exactly (PBody.v): `C04_chunked_decode`, `C04_chunked_drain`
* **C05** What a client writes as a body is what a server reads (POut.v): `C05_wire`, `C05_encodes`, `C05_read_back`, `C05_succeeds`
* **C06** A truncated chunked body is never mistaken for a complete one (PBody.v): `C06_truncated_is_error`
* **C07** Exact language of accepted chunked bodies (PBody.v): `C07_exact_language`, `C07_accepts_iff`, `C07_bad_size_line`
* **C08** A chunked body stays finished (PBody.v): `C08_chunked_stays_finished`
* **C09** Empty-buffer reads (PBody.v): `C09_empty_read_harmless`, `C09_empty_read_in_chunk`, `C09_empty_read_refuted`
* **C10** Transport errors inside a chunked body (PIo.v): `C10_error_reported_once`, `C10_covers_all_cuts`, `C10_interrupted_copy_truncates`
* **C11** Content-Length bodies deliver exactly the announced bytes (PBody.v): `C11_limited_exact`, `C11_limited_items`, `C11_limited_finished`
* **C12** content_length reports what is left (PIo.v): `C12_content_length`, `C12_short_body_is_clean_eof`
* **C13** Body framing selection (PHead.v): `C13_request`, `C13_response`, `C13_bad_length`
* **C14** Read-until-close bodies deliver everything that follows the header block (PHead.v): `C14_request`, `C14_response`
* **C15** Parser primitives (PParse.v): `C15_expect`, `C15_parse_until`, `C15_parse_token`, `C15_parse_token_total`, `C15_parse_remaining`, `C15_parse_char`, `C15_parse_digit`, `C15_parse_number`, `C15_parse_until_any`
* **C16** Which inputs make parsing panic (PHead.v, PPanic.v, PParse.v): `C16_ascii_never_panics`, `C16_peer_can_panic`, `C16_no_input_panics_refuted`, `C16_request_panics_iff`, `C16_response_panics_iff`, `C16_header_line_panics_iff`, `C16_version_panics_iff`
* **C17** Numbers are parsed and printed exactly (PIo.v): `C17_number_syntax`, `C17_otherwise_error`, `C17_value_unique`, `C17_print_parse`, `C17_print_is_numeral`
* **C18** Status codes round-trip (PParse.v): `C18_from_to`, `C18_to_from`, `C18_show_parse`
* **C19** Status categories follow the hundreds digit (PParse.v): `C19_categories`
* **C20** Methods round-trip and parse case-insensitively (PParse.v): `C20_show_parse`, `C20_parse_iff`, `C20_has_body`, `C20_unicode_refuted`
* **C21** Versions (PParse.v): `C21_show_parse`, `C21_parse_iff`, `C21_two_digits_refuted`
* **C22** Header map semantics (PParse.v): `C22_insert`, `C22_latest_wins`
* **C23** Header order and uniqueness (PParse.v): `C23_sorted_unique`, `C23_order_is_lexicographic`, `C23_extensional`, `C23_same_gets`, `C23_insert_order`
* **C24** Header block parsing (PHead.v): `C24_block`, `C24_bad_line`
* **C25** Header block round-trip (PHead.v): `C25_round_trip`
* **C26** Header sets collected from pairs are not lower-cased (PParse.v): `C26_collect_keeps_keys`, `C26_get_on_collected`, `C26_upper_case_lost_refuted`
* **C27** Header injection (PHead.v): `C27_safe`, `C27_injected_header`, `C27_injected_body`, `C27_response_splitting`, `C27_never_received`
* **C28** Request head round-trip (PHead.v): `C28_request_round_trip`
* **C29** Response head round-trip (PHead.v): `C29_response_round_trip`
* **C30** Head parsing consumes exactly the head (PHead.v): `C30_request`, `C30_response`, `C30_request_accepts`, `C30_response_accepts`, `C30_request_accepts_retries`, `C30_response_accepts_retries`
* **C31** Take never exceeds its limit (PIo.v): `C31_take_delivers`, `C31_take_first_bytes`, `C31_take_limit`, `C31_take_zero_untouched`
* **C32** read_exact is all-or-error (PEdges.v, PIo.v): `C32_short`, `C32_interrupted`, `C32_read_exact`
* **C33** write_all and copy are complete or fail (PEdges.v, PIo.v): `C33_nothing_taken`, `C33_interrupted`, `C33_write_all`, `C33_copy`, `C33_copy_succeeds`
* **C34** Buffered and unbuffered builds read the same data (PIo.v): `C34_bufreader_transparent`, `C34_builds_agree`
* **C35** Buffered writing preserves order and loses nothing on success (PIo.v): `C35_bufwriter_write`, `C35_bufwriter_flush`, `C35_bufwriter_drop`, `C35_bufwriter_starts_empty`
* **C36** In-memory readers (PIo.v): `C36_slice`, `C36_slice_read_exact`, `C36_cursor`
* **C37** What the client sends as request head (PUrl.v): `C37_head`, `C37_query_and_port_dropped`, `C37_parsed`
* **C38** Bodies only for methods that have one (POut.v): `C38_methods`, `C38_write_fails`, `C38_only_head`
* **C39** The wire is always a prefix of the intended message (PEdges.v, POut.v): `C39_sent_anyway`, `C39_prefix`, `C39_write_after_error_refuted`
* **C40** finish reads a response only after the whole request was accepted (POut.v): `C40_complete`, `C40_no_read_before`, `C40_exchange`
* **C41** client::get / client::put succeed only on status 200 (POut.v): `C41_exchange`, `C41_codes`, `C41_get`, `C41_put`
* **C42** Connection pool (PPool.v): `C42_isolation`, `C42_never_evicted`, `C42_stored_stream_used`, `C42_connect_fails`, `C42_dead_stream`, `C42_connect_once`
* **C43** HTTPS requests go over verified TLS streams only (PEdges.v, PPool.v): `C43_no_address`, `C43_right_stream`, `C43_one_shot`, `C43_separate`, `C43_plain_build_refuted`
* **C44** Reusing a connection after a response (PReuse.v): `C44_left_over`, `C44_after_length`, `C44_after_chunks`, `C44_segments`, `C44_segments_chunked`
* **C45** URL acceptance (PUrl.v): `C45_conversion`, `C45_crate_urls`, `C45_scheme`
* **C46** Server dispatch (PServer.v): `C46_dispatch`, `C46_body`, `C46_limited_body`, `C46_broken_body`
* **C47** Length required (PServer.v): `C47_refused`, `C47_called`
* **C48** Malformed requests never reach the handler (PServer.v): `C48_only_requests`, `C48_malformed`
* **C49** Default handlers refuse (PServer.v): `C49_refuses`
* **C50** Server response on the wire (PServer.v): `C50_wire`, `C50_served`, `C50_complete`
* **C51** Server histories (PServer.v): `C51_history`, `C51_writes_do_not_matter`, `C51_bad_connections_do_not_matter`, `C51_panic_ends_loop`, `C51_survives_refuted`
* **C52** End to end (PEnd.v): `C52_client_sends`, `C52_upload`, `C52_download`, `C52_end_to_end`, `C52_reading_to_the_end`
* **C53** TLS handshake loop (rustls backend) (PSsl.v): `C53_client`, `C53_server`, `C53_errors`, `C53_closing_is_an_error`, `C53_terminates`
* **C54** Termination of parsing and reading (PCount.v): `C54_request`, `C54_response`, `C54_counter_harmless`, `C54_body_read`, `C54_recursion`, `C54_empty_buffer_recursion`
* **C55** Flushing (PFlush.v): `C55_client_flushes`, `C55_flush`, `C55_server_never_flushes`, `C55_response_delivered_refuted`
* **C56** Where errors come from (PErr.v): `C56_request`, `C56_response`, `C56_body`, `C56_exchange`, `C56_serve`
* **C57** Serving and connecting through TLS (PTls.v): `C57_accept`, `C57_failed_handshakes_invisible`, `C57_zero_write_ends_the_server`, `C57_listener_new`, `C57_client`
* **C58** Client and server at the same time never block each other for ever (PNet.v, PPut.v): `C58_progress`, `C58_bounded`, `C58_result`, `C58_ends`, `C58_deadlock_refuted`, `C58_put`
* **C59** A pooled client gets one answer per connection from this crate's own server (PTwice.v): `C59_second_request`
* **C60** Headers added by the caller arrive, replace the builder's own, and can take the framing away (PAdd.v): `C60_request`, `C60_response`, `C60_framing_lost`
* **C61** The answer to a request with a body can be lost to a connection reset; the answer to one without cannot (PReset.v): `C61_no_body_no_reset`, `C61_upload_reset`
* **C62** Clients connected at the same time are served one after the other; well-behaved ones all get their answers, and one that goes silent blocks all others for ever (PMany.v): `C62_first_blocks_all`, `C62_partial_request_blocks_all`, `C62_progress`, `C62_bounded`, `C62_result`, `C62_ends`
* **C63** A received head can be sent on and is read the same, except when a header line at the top starts with a blank and another key sorts before it (PForward.v): `C63_request`, `C63_response`, `C63_second_hop`, `C63_always_same_refuted`
* **C64** The example file server stores and returns exactly the bytes, but a short upload replaces the file and is answered 200 (PEdges.v, PFile.v): `C64_other_methods`, `C64_get`, `C64_put`, `C64_put_short`, `C64_put_broken`, `C64_missing`, `C64_put_refused`, `C64_directory`, `C64_nul`, `C64_stored_refuted`
* **C65** The example file server stays in its directory if the path never has a surplus of dot-dots, and can be led out of it otherwise (PEdges.v, PFile.v): `C65_no_dot_files`, `C65_dots`, `C65_confined`, `C65_always_confined_refuted`
* **C66** Clients of the file server that are connected at the same time see the uploads in the order of acceptance (PShare.v): `C66_share`, `C66_last_upload`
* **C67** Answers that have no body by HTTP's rules (HEAD, 1xx, 204, 304) are read as if they had one (PBodiless.v): `C67_takes`, `C67_eats_next`, `C67_interim`, `C67_waits`, `C67_keep_alive`, `C67_server_sends`, `C67_no_body_refuted`
* **C68** Requests over one kept connection are all answered if the answers announce their length; after a chunked answer it depends on the timing (PSession.v): `C68_bounded`, `C68_result`, `C68_in_step`, `C68_in_turn`, `C68_progress`, `C68_ends`, `C68_steady`, `C68_pool`, `C68_chunked_refuted`
* **C69** What the example programs print: the body of the answer; a download that ends early is reported as success unless it was chunked (PCommands.v): `C69_prints`, `C69_refuses`, `C69_short_succeeds`, `C69_cut_fails`, `C69_methods`, `C69_sends`, `C69_advance`, `C69_upload`, `C69_advance_sends`, `C69_no_std`
* **C70** The file server in the documentation sends exactly the file, and an empty 200 for a directory (PDocs.v): `C70_like_example`, `C70_get`, `C70_failing_body`, `C70_directory`, `C70_missing`, `C70_program`, `C70_directory_looks_empty`
* **C71** An upload that the handler answers without reading always has its connection reset, and hangs for ever when neither it nor the answer fits the queues (PUnread.v): `C71_ends`, `C71_always_deadlock`, `C71_deadlock_iff`, `C71_resets`, `C71_answer_lost`
* **C72** An answer that a handler passes on arrives the same unless it was chunked; then the next client never gets it (PRelay.v): `C72_not_chunked`, `C72_own_headers`, `C72_same_for_both_refuted`
* **C73** A peer that sends without end is read without end (PEndless.v): `C73_request`, `C73_response`, `C73_no_line_end`, `C73_serve`, `C73_client`, `C73_decided`, `C73_accepts`, `C73_body`, `C73_chunks`
* **C74** What a rejected client is told: the error's text, with its own line quoted and escaped (PTell.v, PText.v): `C74_streams`, `C74_request`, `C74_response`, `C74_shows`, `C74_readable`, `C74_tells`, `C74_answer`, `C74_reflects`, `C74_same`, `C74_valid_up_to`, `C74_error_len`
* **C75** A client does not learn that its server failed in the middle of an answer, unless the connection is reset (PCut.v): `C75_head`, `C75_body`, `C75_server`, `C75_told_refuted`
* **C76** The library frames a message as HTTP does exactly if the last Transfer-Encoding reads "chunked", or there is none and all Content-Length agree (PFraming.v): `C76_request`, `C76_response`, `C76_accepted`, `C76_same_refuted`
* **C77** Which valid HTTP heads are taken: those with a blank after every colon, UTF-8 values, one of seven methods and a length below 2^64 (PValid.v): `C77_request`, `C77_response`, `C77_all_taken_refuted`
* **C78** Chunked bodies that HTTP allows: read exactly unless a chunk has an extension, trailers are left in the stream (PTrailer.v): `C78_plain`, `C78_refused`, `C78_all_read_refuted`, `C78_only_valid_refuted`
* **C79** What the library sends is valid HTTP if the caller's names and values are, except answers with an unnamed status (PConform.v): `C79_request`, `C79_response`, `C79_client`, `C79_server`, `C79_every_status_refuted`, `C79_every_header_refuted`
* **C80** The request names the caller's URL exactly if it has no query and the scheme's own port (PTarget.v): `C80_effective`, `C80_same`, `C80_no_query`, `C80_repaired`, `C80_every_url_refuted`
* **C81** A client that waits for 100 Continue, or any other sign of life, before it sends all of its upload waits for ever (PExpect.v): `C81_waits_for_ever`, `C81_such_a_client`, `C81_continue_refuted`
* **C82** Among all Unicode texts, exactly ASCII case variants are taken for methods and header names, plus dotless i, long s and the st ligatures in methods and the Kelvin sign in names (PCase.v, PEdges.v): `C82_upper`, `C82_method`, `C82_method_ascii`, `C82_name`, `C82_name_ascii`, `C82_framing_names`, `C82_ascii_refuted`, `C82_sigma`
* **C83** On a transport without interrupted reads the std and no_std builds read the same messages and serve the same answers, except for which error a broken body gives (PBuilds.v): `C83_request`, `C83_response`, `C83_server`, `C83_sent`, `C83_interrupted_refuted`, `C83_any_handler_refuted`
* **C84** The answer depends on the method, the path, the framing and the body of a request, not on its version, its Host or any other header (PAgnostic.v): `C84_plain`, `C84_body`, `C84_host_refuted`
* **C85** The server's loop goes on exactly until a client sends a head with a character outside ASCII in one of the few wrong places (PCrash.v): `C85_one`, `C85_survives`, `C85_ends`
* **C86** No two requests look the same on the wire, and none is the beginning of another (PUnique.v): `C86_request_head`, `C86_response_head`, `C86_request`, `C86_connection`, `C86_sent`, `C86_response`, `C86_target_refuted`, `C86_header_refuted`, `C86_unannounced_refuted`
* **C87** Answers that borrow the handler: what its state is after a connection, and what its client got (PLent.v): `C87_owned`, `C87_lent`, `C87_queue_one`, `C87_queue`, `C87_lost_refuted`
* **C88** Requests to different servers through one HttpClient do not influence each other (PTurns.v): `C88_apart`, `C88_same`, `C88_pooled`, `C88_stops`, `C88_always_refuted`
* **C89** An answer makes the client panic exactly if its head has a character outside ASCII in one of the few wrong places (PClientCrash.v): `C89_one`, `C89_reactive`, `C89_body`, `C89_reliable`

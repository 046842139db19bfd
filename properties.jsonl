{"id": "C01", "title": "Line framing: a line is exactly the bytes before the first CRLF", "statement": "Iterating a CrLfStream returns precisely the bytes before the first CR LF of the remaining stream as one line, consumes those bytes and that CR LF and nothing else, and signals the end of a block exactly on an empty line. Lone CR, lone LF and CR CR LF are ordinary content.", "quantifier": "every byte stream, every way the transport cuts it into reads, every placement of interrupted (retryable) reads", "why_tests_cant": "unbounded line contents and all splits of CR LF across reads cannot be enumerated", "anchors": ["src/protocol.rs: CrLfStream::inner_next, expect_next, Iterator::next"]}
{"id": "C02", "title": "Line framing failures are errors, never partial lines", "statement": "If the stream ends before a CR LF the reader gets Err(UnexpectedEof); if the transport fails with a non-retried error before the CR LF the reader gets that error; if the line is not UTF-8 the reader gets a UTF-8 error. No partial line is ever returned as a line.", "quantifier": "every byte stream without CRLF, every failure point, every error, every non UTF-8 line", "why_tests_cant": "the failure can happen after any byte of any line", "anchors": ["src/protocol.rs: CrLfStream::inner_next"]}
{"id": "C03", "title": "Message parsing does not depend on how the transport splits the bytes", "statement": "HttpRequest::deserialize and HttpResponse::deserialize give the same result (same success value, or same error, or same panic) and leave the same bytes unread for any two transports that deliver the same byte/error sequence, whatever the sizes of individual reads.", "quantifier": "all byte/error sequences, all pairs of segmentations of that sequence", "why_tests_cant": "number of segmentations is exponential in the message length", "anchors": ["src/protocol.rs: HttpRequest::deserialize, HttpResponse::deserialize, HttpHeaders::deserialize, CrLfStream"]}
{"id": "C04", "title": "Chunked bodies decode exactly", "statement": "Reading a chunked body with non-empty buffers yields exactly the concatenation of the chunk data followed by end-of-file, independently of chunk sizes, hex spelling (case, leading zeros), buffer sizes and transport segmentation, and stops reading the transport right after the CR LF of the last-chunk line.", "quantifier": "every payload, every division into chunks, every hex spelling, every sequence of positive buffer sizes, every segmentation", "why_tests_cant": "chunk boundaries, buffer boundaries and segment boundaries interact in unboundedly many ways", "anchors": ["src/protocol.rs: HttpChunkedBody::read, HttpBodyChunk::new, HttpBody::read"]}
{"id": "C05", "title": "What a client writes as a body is what a server reads", "statement": "For every sequence of write calls (any sizes, including empty writes) on an outgoing PUT/POST/DELETE request followed by finish, the bytes put on the wire after the header block, read back through a chunked HttpBody, are exactly the concatenation of the written buffers followed by end-of-file; an empty write never terminates the body early.", "quantifier": "all lists of written buffers, all BufWriter capacities, all partial-write behaviours of the socket, all reader buffer sizes and segmentations", "why_tests_cant": "round trip over unbounded sequences of writes and reads", "anchors": ["src/protocol.rs: OutgoingBody::write, OutgoingBody::finish, HttpChunkedBody::read"]}
{"id": "C06", "title": "A truncated chunked body is never mistaken for a complete one", "statement": "If the transport closes anywhere before the last-chunk line is complete, reading a chunked body delivers a prefix of the payload and then an error; it never reports a clean end-of-file.", "quantifier": "every well-formed chunked message and every cut point", "why_tests_cant": "cut points range over every byte of every message", "anchors": ["src/protocol.rs: HttpChunkedBody::read, HttpBodyChunk::new"]}
{"id": "C07", "title": "Exact language of accepted chunked bodies", "statement": "For arbitrary input bytes the chunked reader either ends cleanly, in which case the input starts with chunks `[+]HEX CRLF data any-two-bytes`* followed by a zero-size line and the delivered bytes are exactly the data parts, or it delivers the data of the longest such sequence and then reports an error. Sizes are never wrapped: values above u64::MAX, chunk extensions, signs other than one leading plus, and blanks are errors. The two bytes after chunk data are not checked to be CR LF. A line that is not a size line is reported as UnexpectedEof if it is empty, Utf8Error if it is not UTF-8 and ParseIntError otherwise (in the std build all of them as the same I/O error).", "quantifier": "all byte strings", "why_tests_cant": "quantifies over arbitrary hostile input", "anchors": ["src/protocol.rs: HttpChunkedBody::read, HttpBodyChunk::new"]}
{"id": "C08", "title": "A chunked body stays finished", "statement": "After a chunked body has returned end-of-file or an error, every later read returns Ok(0) and does not touch the transport.", "quantifier": "all inputs, all later sequences of reads", "why_tests_cant": "unbounded histories of reads after the end", "anchors": ["src/protocol.rs: HttpChunkedBody::read"]}
{"id": "C09", "title": "Empty-buffer reads", "statement": "read with an empty buffer must not consume body data. It is harmless for length-delimited and read-until-close bodies and for a finished chunked body, but for a chunked body inside a chunk it discards two bytes of payload and re-synchronises on body data, so the claim fails there.", "quantifier": "all body states reachable by reading", "why_tests_cant": "needs the exact state in which the claim breaks, and a proof for all others", "anchors": ["src/protocol.rs: HttpChunkedBody::read, HttpBody::read"]}
{"id": "C10", "title": "Transport errors inside a chunked body", "statement": "If the transport fails with an error the framing loops do not retry, while chunk data or framing is being read, the payload bytes already received are delivered, the error is reported exactly once, and afterwards the body reports end-of-file. An Interrupted error between the data bytes of a chunk has the same effect, so in the std build a copy, which retries after Interrupted, reports success with a truncated body.", "quantifier": "every failure position and error, every buffer-size sequence", "why_tests_cant": "fault positions range over all bytes of all bodies", "anchors": ["src/protocol.rs: HttpChunkedBody::read"]}
{"id": "C11", "title": "Content-Length bodies deliver exactly the announced bytes", "statement": "A body with length n delivers exactly the first n bytes that follow the header block, then end-of-file forever, and never delivers a byte beyond them; transport errors inside it surface without losing position.", "quantifier": "all n in u64, all streams, all buffer sizes, all segmentations", "why_tests_cant": "unbounded sizes and schedules", "anchors": ["src/protocol.rs: HttpBody::new, HttpBody::read", "src/io.rs: Take::read"]}
{"id": "C12", "title": "content_length reports what is left", "statement": "HttpBody::content_length of a length-delimited body equals the announced length minus the bytes delivered so far, for a chunked body it is the announced header value unchanged, for read-until-close it is None. When the peer closes early a length-delimited body ends with a clean end-of-file, and the shortfall is visible only as content_length() > 0.", "quantifier": "all histories of reads", "why_tests_cant": "must hold after every sequence of reads", "anchors": ["src/protocol.rs: HttpBody::content_length", "src/io.rs: Take::limit"]}
{"id": "C13", "title": "Body framing selection", "statement": "The body is chunked exactly when the Transfer-Encoding header value is the exact string `chunked`; otherwise it is length-delimited exactly when a Content-Length header is present; otherwise it is read until close. Transfer-Encoding wins over Content-Length. A Content-Length that is not a u64 is an error even when the body is chunked.", "quantifier": "all header sets", "why_tests_cant": "quantifies over all header values", "anchors": ["src/protocol.rs: HttpBody::new, HttpRequest::deserialize, HttpResponse::deserialize"]}
{"id": "C14", "title": "Read-until-close bodies deliver everything that follows the header block", "statement": "Without framing headers, the body delivers every byte after the blank line until the transport ends, in order, none lost to header parsing.", "quantifier": "all streams and schedules", "why_tests_cant": "unbounded streams", "anchors": ["src/protocol.rs: HttpBody::read, HttpResponse::deserialize"]}
{"id": "C15", "title": "Parser primitives", "statement": "expect succeeds exactly when the unread text starts with the expected text and then consumes just it; parse_until returns the text before the first occurrence of the divider and stops on it; parse_token returns the text up to the first blank and skips all blanks after it; parse_remaining returns all unread text once and then fails; a failed expect or parse_until consumes nothing; the remaining parser methods are characterized likewise.", "quantifier": "all texts, positions reachable by parser calls and arguments", "why_tests_cant": "all strings", "anchors": ["src/protocol.rs: Parser"]}
{"id": "C16", "title": "Which inputs make parsing panic", "statement": "Parsing a header line panics exactly when the character after its first colon is not ASCII; parsing a version token panics exactly when a non-ASCII character straddles or starts at the byte positions the parser slices at; parsing a request or response whose bytes are all ASCII never panics. A whole message panics exactly when complete lines arrive such that the first line has a known method and such a version token (or is a status line starting with one), or the first line is good, the header lines but the last are good, and the last, joined with its continuation lines, has a non-ASCII character after its first colon; what follows those lines, be it an error or the end of the input, does not matter. The unconditional claim that no input panics is false: a peer can crash serve_one / finish.", "quantifier": "all byte strings received from a peer", "why_tests_cant": "panics hide in rare byte alignments of arbitrary input", "anchors": ["src/protocol.rs: Parser::expect, Parser::parse_digit, HttpHeader::deserialize, HttpVersion::from_str, HttpHeaders::deserialize, HttpRequest::deserialize, HttpResponse::deserialize"]}
{"id": "C17", "title": "Numbers are parsed and printed exactly", "statement": "Decimal and hexadecimal numbers accepted for Content-Length, status and chunk sizes are exactly an optional leading plus and one or more digits whose value fits the integer type; the value is the positional value (no wrap-around); values too large, empty, signed or decorated inputs are errors. Printing then parsing any u64 in decimal or lower-case hex gives the number back.", "quantifier": "all strings, all u32/u64 values", "why_tests_cant": "2^64 values and all strings", "anchors": ["src/protocol.rs: HttpBodyChunk::new, HttpStatus::from_str, HttpRequest::deserialize, OutgoingBody::write"]}
{"id": "C18", "title": "Status codes round-trip", "statement": "HttpStatus::from_code then to_code is the identity on every u32; to_code then from_code is the identity on every status that is not Unknown(c) with c a known code; parsing the printed form of a status gives the status with the same code.", "quantifier": "all 2^32 codes and all statuses", "why_tests_cant": "the repository test covers 0..600 only", "anchors": ["src/protocol.rs: HttpStatus::from_code, to_code, FromStr, Display"]}
{"id": "C19", "title": "Status categories follow the hundreds digit", "statement": "to_category is Informational/Success/Redirection/ClientError/ServerError exactly for codes 1xx..5xx and Unknown otherwise, for every status including Unknown(c).", "quantifier": "all statuses", "why_tests_cant": "2^32 codes", "anchors": ["src/protocol.rs: HttpStatus::to_category, HttpStatusCategory::from_code"]}
{"id": "C20", "title": "Methods round-trip and parse case-insensitively", "statement": "Parsing the printed form of a method gives the method; an ASCII text parses to a method exactly when it equals that method's name up to ASCII case; exactly DELETE, POST and PUT have a body.", "quantifier": "all texts", "why_tests_cant": "all strings", "anchors": ["src/protocol.rs: HttpMethod"]}
{"id": "C21", "title": "Versions", "statement": "Printing then parsing HTTP/x.y with single-digit x,y gives it back; a text parses successfully exactly when it starts with HTTP/digit.digit; what follows is ignored.", "quantifier": "all texts", "why_tests_cant": "all strings", "anchors": ["src/protocol.rs: HttpVersion"]}
{"id": "C22", "title": "Header map semantics", "statement": "get(k) returns the value of the most recent insert whose key equals k up to Unicode lower-casing, and None if there is none; inserting under one key never affects lookups of a different key.", "quantifier": "all sequences of inserts and lookups", "why_tests_cant": "unbounded histories", "anchors": ["src/protocol.rs: HttpHeaders::insert, get"]}
{"id": "C23", "title": "Header order and uniqueness", "statement": "Iteration and serialization list each key once, in increasing byte order of the keys, whatever the insertion order; two header sets built by inserts with the same lookups serialize identically.", "quantifier": "all sequences of inserts", "why_tests_cant": "unbounded histories", "anchors": ["src/protocol.rs: HttpHeaders (BTreeMap), serialize"]}
{"id": "C24", "title": "Header block parsing", "statement": "Each header line `name: value` gives one entry with lower-cased name; lines starting with blank or tab are appended, with their leading blank, to the previous line; of several lines with the same name the last wins; a line without `: ` after the first colon is an error; parsing stops right after the blank line.", "quantifier": "all header blocks", "why_tests_cant": "arbitrary number and content of lines", "anchors": ["src/protocol.rs: HttpHeaders::deserialize, HttpHeader::deserialize"]}
{"id": "C25", "title": "Header block round-trip", "statement": "Any header set with lower-case keys free of `:` and CR LF, not starting with a blank, and values free of CR LF is read back exactly from its serialization followed by a blank line.", "quantifier": "all such header sets", "why_tests_cant": "unbounded maps", "anchors": ["src/protocol.rs: HttpHeaders::serialize, deserialize"]}
{"id": "C26", "title": "Header sets collected from pairs are not lower-cased", "statement": "Collecting pairs into HttpHeaders (FromIterator, http_headers!) keeps keys verbatim, so get finds exactly the keys that are already lower-case: a key containing an upper-case letter can never be found by get under any spelling. The claim that lookups are case-insensitive therefore fails for such sets.", "quantifier": "all pair lists and lookup keys", "why_tests_cant": "all keys", "anchors": ["src/protocol.rs: HttpHeaders FromIterator, http_headers!"]}
{"id": "C27", "title": "Header injection", "statement": "add_header on a request or response with a value (or key) containing CR LF changes the message: the receiver sees additional header lines. Without CR LF, colon in the key or a leading blank in the key, the receiver sees exactly the added header.", "quantifier": "all keys and values", "why_tests_cant": "all strings", "anchors": ["src/client.rs: HttpRequestBuilder::add_header", "src/protocol.rs: HttpHeaders::serialize"]}
{"id": "C28", "title": "Request head round-trip", "statement": "Serializing a request whose uri is non-empty and free of blanks, tabs and CR LF, with transmissible headers, and deserializing the bytes gives the same method, uri, version and headers, and the body starts at the first byte after the blank line.", "quantifier": "all such requests, all transports", "why_tests_cant": "unbounded inputs", "anchors": ["src/protocol.rs: HttpRequest::serialize, HttpRequest::deserialize"]}
{"id": "C29", "title": "Response head round-trip", "statement": "Serializing a response with transmissible headers and deserializing the bytes gives the same version, the status with the same code, the same headers, and the body starts at the first byte after the blank line.", "quantifier": "all such responses, all transports", "why_tests_cant": "unbounded inputs", "anchors": ["src/protocol.rs: HttpResponse::serialize, HttpResponse::deserialize"]}
{"id": "C30", "title": "Head parsing consumes exactly the head", "statement": "Whenever a request or response head is parsed successfully, the consumed bytes end with the first empty line, and the following bytes are all still available to the body.", "quantifier": "all inputs that parse", "why_tests_cant": "all streams", "anchors": ["src/protocol.rs: HttpRequest::deserialize, HttpResponse::deserialize"]}
{"id": "C31", "title": "Take never exceeds its limit", "statement": "Reading through take(n) delivers exactly the first n bytes of the inner stream (or all if shorter); limit() plus delivered bytes is invariant; at limit 0 the inner stream is not touched.", "quantifier": "all n, streams, read sequences", "why_tests_cant": "unbounded", "anchors": ["src/io.rs: Take"]}
{"id": "C32", "title": "read_exact is all-or-error", "statement": "read_exact either returns exactly the requested number of bytes, namely the next ones of the stream, or an error; it never succeeds short and never consumes more than requested. A short input is an error of kind UnexpectedEof with std and the crate's UnexpectedEof without. An interrupted read is repeated with std and ends the call without.", "quantifier": "all lengths, streams, schedules", "why_tests_cant": "unbounded", "anchors": ["src/io.rs: Read::read_exact, Read for &[u8]::read_exact"]}
{"id": "C33", "title": "write_all and copy are complete or fail", "statement": "write_all returning Ok has handed over every byte in order; on failure the bytes handed over are a prefix. copy returning Ok(n) has transferred exactly the reader's whole remaining content, n bytes; on failure the writer has received a prefix of the reader's content. A writer that takes nothing is an error of kind WriteZero with std and the crate's UnexpectedEof without. An interrupted write is repeated with std and ends the call without.", "quantifier": "all data, all partial-write and failure schedules", "why_tests_cant": "unbounded schedules", "anchors": ["src/io.rs: Write::write_all, copy"]}
{"id": "C34", "title": "Buffered and unbuffered builds read the same data", "statement": "BufReader in the std build (any capacity) and the pass-through BufReader in the no_std build deliver the same byte/error sequence as the wrapped stream.", "quantifier": "all streams, capacities, read sequences", "why_tests_cant": "unbounded", "anchors": ["src/io.rs: BufReader", "src/protocol.rs: HttpReadTilCloseBody"]}
{"id": "C35", "title": "Buffered writing preserves order and loses nothing on success", "statement": "Up to and including the first failing write, the bytes accepted by the socket followed by the bytes still buffered are a prefix of the bytes the caller wrote, equal to all of them while no error has occurred; a successful flush or into_inner leaves the buffer empty.", "quantifier": "all write sequences, capacities, partial-write and failure schedules", "why_tests_cant": "unbounded", "anchors": ["src/io.rs: BufWriter", "src/protocol.rs: HttpRequest::serialize, OutgoingBody"]}
{"id": "C36", "title": "In-memory readers", "statement": "Cursor and byte-slice readers deliver exactly their bytes in order, once, then end-of-file; their read_exact fails without consuming when too short (slice).", "quantifier": "all contents, all read sequences", "why_tests_cant": "unbounded", "anchors": ["src/io.rs: Cursor::read, Read for &[u8]"]}
{"id": "C37", "title": "What the client sends as request head", "statement": "HttpRequestBuilder for method m and URL u produces the head `m path(u) HTTP/1.1` (with / for an empty path) with exactly the headers accept, host (= host of u), user-agent and, exactly for methods with a body, transfer-encoding: chunked, and, if path and host hold no blank, CR LF or invalid UTF-8, a server parses it back to m, path(u) and those headers. The query string and the port are not transmitted.", "quantifier": "all http/https URLs and methods", "why_tests_cant": "all URLs", "anchors": ["src/client.rs: HttpRequestBuilder::new, send"]}
{"id": "C38", "title": "Bodies only for methods that have one", "statement": "Writing to a request whose method has no body always fails and puts nothing on the wire; finishing such a request sends only the head.", "quantifier": "all buffers", "why_tests_cant": "all inputs", "anchors": ["src/protocol.rs: OutgoingRequest::write, finish"]}
{"id": "C39", "title": "The wire is always a prefix of the intended message", "statement": "For a caller that stops at the first error (and then drops the request, or does nothing), at every point while a request is being sent, whatever writes fail or are partial, the bytes the socket has accepted are a prefix of head ++ encoded chunks ++ terminator. A caller that goes on writing after a failed write garbles the message. An error does not mean that nothing was sent: with std, dropping the buffer tries once more, so a request without a body whose head is refused once and then taken is on the wire in full although send returned an error.", "quantifier": "all requests, write sequences, fault schedules and abort points", "why_tests_cant": "crash points are unbounded", "anchors": ["src/protocol.rs: HttpRequest::serialize, OutgoingBody::write, OutgoingBody::finish, io::BufWriter"]}
{"id": "C40", "title": "finish reads a response only after the whole request was accepted", "statement": "If finish returns a response then the socket accepted the complete head, all chunks and the terminating chunk, in order, exactly once, before the first response byte was read.", "quantifier": "all requests, writes, fault schedules", "why_tests_cant": "all schedules", "anchors": ["src/protocol.rs: OutgoingRequest::finish, OutgoingBody::finish"]}
{"id": "C41", "title": "client::get / client::put succeed only on status 200", "statement": "They return a body exactly when the exchange succeeded and the response's status code is 200; any other code gives UnexpectedStatus with that code.", "quantifier": "all responses", "why_tests_cant": "all responses", "anchors": ["src/client.rs: send_request, get, put"]}
{"id": "C42", "title": "Connection pool", "statement": "HttpClient connects to an address at most once after which every request with that stream address uses the stored stream; requests with different stream addresses never share a stream; a failed connect leaves the pool unchanged and is retried next time; a stored stream is never evicted, so after its peer closed it every later request to that address fails.", "quantifier": "all histories of client calls and all connector behaviours", "why_tests_cant": "unbounded histories", "anchors": ["src/client.rs: HttpClient::get_stream, get, put"]}
{"id": "C43", "title": "HTTPS requests go over verified TLS streams only", "statement": "With the ssl feature, a request for an https URL is sent only on a stream produced by the TLS handshake for that URL's host, and an http URL only on a plain stream; streams are never shared between http and https or between different hosts. Without the ssl feature an https URL is sent in plain text, so the claim fails for that build. For a name that has no address or cannot be looked up, no connection is made, the pool stays as it is and the request fails with AddrNotAvailable.", "quantifier": "all URLs, histories and resolver answers", "why_tests_cant": "security property over all histories", "anchors": ["src/client.rs: StreamConnector for TcpStream, StreamId, HttpClient::get_stream"]}
{"id": "C44", "title": "Reusing a connection after a response", "statement": "After a length-delimited response has been read to its end, the next response on the connection is parsed from its first byte provided no bytes of it were buffered. After a chunked response read to its end, the final empty line is left unread, so in the unbuffered build the next response always fails to parse, and in the buffered build it does so when that empty line arrives in a later segment.", "quantifier": "all responses, segmentations, following responses", "why_tests_cant": "timing-dependent", "anchors": ["src/protocol.rs: HttpChunkedBody::read, HttpResponse::deserialize", "src/client.rs: HttpClient"]}
{"id": "C45", "title": "URL acceptance", "statement": "A URL as the url crate produces them (lower-case scheme; http and https have a host) is accepted exactly when its scheme is http or https; host and scheme accessors agree with the URL; the port is the explicit one or 80/443; conversion and port never panic for such URLs; they panic exactly for an http or https URL without host.", "quantifier": "all parsed URLs", "why_tests_cant": "all URLs", "anchors": ["src/url.rs: HttpUrl, Scheme"]}
{"id": "C46", "title": "Server dispatch", "statement": "For a request that parses, exactly one handler method is called, the one for the request's method, once, with the parsed uri and, for PUT/POST, the request body; DELETE, GET, HEAD, OPTIONS, TRACE handlers are never given the body. The handler computes its answer from exactly the payload of a complete body; if a chunked body breaks off it gets a part of the payload and then an error, and of a length-delimited one it sees every transport error in its place.", "quantifier": "all requests, handlers, transports", "why_tests_cant": "all requests and handlers", "anchors": ["src/server.rs: HttpServer::serve_one_inner"]}
{"id": "C47", "title": "Length required", "statement": "A PUT or POST request with neither `Transfer-Encoding: chunked` nor Content-Length is answered with status 411 and the handler is not called; with either header it is called.", "quantifier": "all requests", "why_tests_cant": "all requests", "anchors": ["src/server.rs: serve_one_inner", "src/protocol.rs: HttpBody::require_length"]}
{"id": "C48", "title": "Malformed requests never reach the handler", "statement": "If the request does not parse, no handler method is called, the handler state is unchanged, and (unless parsing panics) the peer is sent a complete 500 response.", "quantifier": "all malformed inputs", "why_tests_cant": "arbitrary hostile input", "anchors": ["src/server.rs: serve_one, serve_one_inner, From<Error> for HttpResponse"]}
{"id": "C49", "title": "Default handlers refuse", "statement": "A handler that overrides nothing answers every request that reaches it (all acceptable requests except PUT and POST without a length, which get 411) with 405 and reads nothing of the body. The text of the default POST answer names PUT.", "quantifier": "all requests", "why_tests_cant": "all requests", "anchors": ["src/server.rs: HttpRequestHandler default methods"]}
{"id": "C50", "title": "Server response on the wire", "statement": "serve_one returning Ok has written exactly one response: status line, headers, blank line, then all bytes of the response body, in order; on a write failure a prefix of that was written; a failed accept is returned as an error and no handler is called; nothing is written before the request was parsed and the handler returned.", "quantifier": "all handlers, responses, fault schedules", "why_tests_cant": "unbounded", "anchors": ["src/server.rs: serve_one", "src/protocol.rs: HttpResponse::serialize"]}
{"id": "C51", "title": "Server histories", "statement": "Over any sequence of connections the handler is invoked exactly once per connection that carried an acceptable request, in order of acceptance, and its state depends only on those; I/O errors on one connection do not affect later ones. This holds for connections that deliver a finite sequence of bytes and errors. A panic while parsing ends the serving loop.", "quantifier": "all finite sequences of connections", "why_tests_cant": "unbounded histories", "anchors": ["src/server.rs: serve_forever, serve_one"]}
{"id": "C52", "title": "End to end", "statement": "A client PUT/POST of any body through any segmentation to a server whose handler reads the body to the end gives the handler exactly the client's bytes, and gives the client exactly the handler's status, headers and body bytes. Side conditions: request uri and headers and response headers are transmissible (C25, C28), the response's headers do not contradict the length of its body, and all writes are eventually accepted. Here client and server take turns; C58 is about running at the same time.", "quantifier": "all bodies, body-reader behaviours, segmentations, buffer sizes, handlers", "why_tests_cant": "composition of all layers", "anchors": ["src/client.rs: send_request", "src/server.rs: serve_one", "src/protocol.rs"]}
{"id": "C53", "title": "TLS handshake loop (rustls backend)", "statement": "SslClientStream::new and the listener's accept return a stream only when the TLS connection has finished its handshake; with an engine that does not finish a handshake on hearing of the close, a peer that closes during the handshake yields an error. If the first read does not bring the whole ClientHello, the server refuses the connection. A handshake of boundedly many steps terminates if the engine always wants to read or to write.", "quantifier": "all behaviours of the TLS engine and transport", "why_tests_cant": "adversarial peer", "anchors": ["src/ssl/rustls.rs: SslClientStream::new, SslListener::get_conn_from_stream"]}
{"id": "C54", "title": "Termination of parsing and reading", "statement": "Parsing a head and each body read terminate on every stream that eventually ends, after a number of transport reads bounded by the number of bytes and errors delivered; a chunked read with a non-empty buffer recurses at most three levels deep.", "quantifier": "all finite streams", "why_tests_cant": "non-termination and recursion depth are not observable by tests on samples", "anchors": ["src/protocol.rs: CrLfStream, HttpHeaders::deserialize, HttpChunkedBody::read"]}
{"id": "C55", "title": "Flushing", "statement": "When finish starts to wait for the response, a flush is the last thing that happened to the client's stream; a successful flush of a request with a body puts every byte written so far on the stream and flushes it. The server never flushes its stream, so a stream that holds output back until flushed may never carry the response.", "quantifier": "all writers (partial, failing), buffer sizes, sequences of writes and flushes; all handlers and connections for the server part", "why_tests_cant": "TcpStream::flush does nothing, so tests over TCP cannot see a missing flush", "anchors": ["src/protocol.rs: OutgoingRequest::finish, OutgoingBody::finish, OutgoingRequest::flush", "src/server.rs: serve_one"]}
{"id": "C56", "title": "Where errors come from", "statement": "Every error parsing a head reports is one of the crate's parse errors or one the transport returned during that parse; a body read reports the transport's error, an unexpected end of file, or (for a malformed chunk size) the parser's error; an exchange fails only with an error its body reader or stream returned during it, a zero write, a status other than 200, a parse error, a body for a bodiless method, or an io error of kind Other; serve_one fails only because writing the response or reading the response's own body failed, never because of what the client sent.", "quantifier": "all transports, writers, body readers, handlers and their states reachable during the call; both builds", "why_tests_cant": "which error a caller sees depends on where a failure strikes; there are as many cases as read and write calls", "anchors": ["src/protocol.rs: HttpRequest::deserialize, HttpResponse::deserialize, HttpChunkedBody::read, OutgoingRequest", "src/client.rs: send_request", "src/server.rs: serve_one"]}
{"id": "C57", "title": "Serving and connecting through TLS", "statement": "SslListener::accept (rustls) hands over a connection only after a completed handshake and otherwise fails with the inner listener's error or the ssl error; a server over TLS that is still running did exactly what it would have done on the established connections alone. A secure client connection is a TLS stream with a finished handshake, never the bare TCP stream. A transport that accepts zero bytes of a handshake record panics inside accept and ends serve_forever. SslListener::new succeeds exactly if a private key is found, every certificate parses and the library accepts them, and panics on a key file without a private key.", "quantifier": "all TLS engines, transports, sequences of accepts, handlers; all key and certificate files as parsed by the library", "why_tests_cant": "tests use one correct TLS library over a reliable loopback connection; which prefix of a handshake a hostile peer completes is unbounded", "anchors": ["src/ssl/rustls.rs: SslListener::accept, SslListener::new, get_conn_from_stream, SslClientStream::new", "src/server.rs: serve_forever", "src/client.rs: connect"]}
{"id": "C58", "title": "Client and server at the same time never block each other for ever", "statement": "A client that sends a request, with any writes and flushes of a body, and then reads the response, and a server that answers it, running at the same time over two bounded byte queues under any schedule and any segmentation: as long as one of them has not ended something can happen, at most 2|request| + 2|answer| + 2 reads and writes return, and when both have ended the handler was called once with the client's method, uri and body and the client has the handler's status, headers and body. This needs that the part of the request that the handler leaves unread fits into the queue (for a handler that reads the body to its end: two bytes, because the server never reads the empty line behind the last chunk). The same holds for client::get and client::put, which copy the body from a reader and accept only status 200 (the error then names the status). Without it both can wait for each other for ever, for example with the crate's default 405 answer to a PUT whose body and whose answer are both longer than the queues.", "quantifier": "all schedules, segmentations, queue sizes, buffer sizes, requests, sequences of body writes, handlers and clients reading the body in any way; both builds on either side", "why_tests_cant": "the number of interleavings is unbounded, and loopback queues are so large that a test never fills them", "anchors": ["src/client.rs: HttpRequestBuilder::send", "src/protocol.rs: OutgoingRequest, OutgoingBody::finish, HttpChunkedBody", "src/server.rs: serve_one, RequestHandler default methods", "src/client.rs: send_request"]}
{"id": "C59", "title": "A pooled client gets one answer per connection from this crate's own server", "statement": "The crate's server answers one request per connection and closes it (C50). After HttpClient has read such an answer to its end, the connection stays in the pool under its address, and no later request to that address is ever answered: it goes to the closed connection, and once it has been written finish reports UnexpectedEof. The connection is never replaced, so HttpClient and HttpServer do not work together beyond one request per address.", "quantifier": "all answers with honest framing, all transports that stay at end of file once the peer has closed, all histories of further requests, both builds", "why_tests_cant": "the repository's tests send one request per client; the claim is about every later history of requests", "anchors": ["src/client.rs: HttpClient::get_stream, HttpClient::get, HttpClient::put", "src/server.rs: serve_one"]}
{"id": "C60", "title": "Headers added by the caller arrive, replace the builder's own, and can take the framing away", "statement": "A request built with HttpRequestBuilder and any sequence of add_header calls with names and values that are safe (C27) is read by the peer with the builder's method, path and version and, for every name compared without regard to case, the value added last, or the builder's own header if none was added. A response built with HttpResponse::new and add_header is read with exactly the headers added. Adding a Transfer-Encoding other than chunked replaces the builder's: the body is still sent in chunks, but the server sees no framing; a POST or PUT is then refused by this crate's server with Length Required (C47), or, if a Content-Length was added as well, the server takes that many bytes of the chunk text for the body.", "quantifier": "all URLs, methods, sequences of safe header names and values, transports and segmentations, both builds", "why_tests_cant": "the order, case and collisions of header names are unbounded; a test fixes one list of headers", "anchors": ["src/client.rs: HttpRequestBuilder::new, HttpRequestBuilder::add_header", "src/protocol.rs: HttpRequest::add_header, HttpResponse::add_header, HttpBody::new, HttpBody::require_length"]}
{"id": "C61", "title": "The answer to a request with a body can be lost to a connection reset; the answer to one without cannot", "statement": "TCP may reset a connection when one side has closed it with bytes for it unread or still to come, and the other side then loses what it has not read. Let a client of this crate send a request to a server of this crate, both running at the same time (C58). If the request has no body (GET, HEAD, OPTIONS, TRACE), then in no execution is there a moment at which the server has closed and a byte of the request is unread or unsent, so no reset can happen. If it has one (PUT, POST, DELETE), then for every request, handler, client and pair of queue sizes as in C58 there is an execution in which the server has called the handler, returned success and closed, with the CR LF behind the last chunk unread and a part of the answer not yet read by the client; if the answer fits into the socket buffer that part is all of it, and a client whose connection is then reset returns the error of the socket.", "quantifier": "all requests, handlers, clients, queue sizes, segmentations and interleavings as in C58, both builds on either side; all executions for the first claim, one constructed execution for each exchange for the second", "why_tests_cant": "whether the last two bytes of a request arrive before the server closes is a race that a test on a loopback interface practically never loses", "anchors": ["src/server.rs: HttpServer::serve_one", "src/protocol.rs: HttpChunkedBody::read, OutgoingBody::finish, HttpMethod::has_body", "src/client.rs: StreamConnector for std::net::TcpStream"]}
{"id": "C62", "title": "Clients connected at the same time are served one after the other; well-behaved ones all get their answers, and one that goes silent blocks all others for ever", "statement": "Let any number of clients be connected to serve_forever, with any queue sizes, and any interleaving of their calls and the server's. If all of them are clients of this crate with exchanges as in C58, no state is a deadlock, every run is finite with an explicit bound, and when everybody is done serve_forever has called the handler once per connection in the order of acceptance, each call with the handler state the last one left, is ready for the next connection, and every client has the answer meant for it. If the first client sends only a part of a request (any part that is shorter than what the handler needs) and then waits, then in no execution is any byte sent to it or to any other client, no other connection is accepted or closed: there is no timeout. More generally this holds for whatever first client the server is never done with.", "quantifier": "all numbers of clients, requests, handlers, queue sizes, segmentations and interleavings, both builds; arbitrary programs for the clients that are starved", "why_tests_cant": "the schedules of several clients grow exponentially, and that something never happens cannot be observed by waiting", "anchors": ["src/server.rs: HttpServer::serve_forever, HttpServer::serve_one, Listen::accept", "src/client.rs: HttpRequestBuilder::send"]}
{"id": "C63", "title": "A received head can be sent on and is read the same, except when a header line at the top starts with a blank and another key sorts before it", "statement": "Let a request (or response) have been parsed successfully from any transport. If its head is serialized and any peer reads it, over any transport and with anything behind it, then the peer reads the same method, URI and version (or version and status), its body is framed as the first reader's, and the headers are the same exactly when no key but the first in map order starts with a blank. Otherwise exactly one key does, the key before it is empty or starts with a control character, and the peer reads that pair's line as a part of the value before it. From the second hop on heads are passed on unchanged.", "quantifier": "all messages the parser accepts, all transports, segmentations and trailing data on both hops, both builds", "why_tests_cant": "the set of accepted messages is infinite (foldings, repeated keys, Unicode names, odd spacing), and the one exception needs a leading blank in the first header line together with a key that sorts before a blank", "anchors": ["src/protocol.rs: HttpHeaders::deserialize, HttpHeaders::serialize, HttpRequest::deserialize, HttpRequest::serialize, HttpResponse::deserialize, HttpResponse::serialize"]}
{"id": "C64", "title": "The example file server stores and returns exactly the bytes, but a short upload replaces the file and is answered 200", "statement": "On the server, with the handler of examples/server.rs and a path of plain names: GET of a file answers 200 with its length and exactly its contents and changes nothing; PUT of a whole body (by length or chunked) leaves a file with exactly the payload, every path that does not lead to or through the file unchanged, and answers an empty 200; a PUT with a Content-Length of which only a part arrives before the peer closes leaves a file with that part and the same 200, so a 200 does not mean that what was announced is stored; a chunked PUT that is cut off is answered 500, with the old contents replaced by a part of the payload; GET where nothing is found is a 500 that tells a missing name from a file in the place of a directory; GET of a directory lists exactly its UTF-8 names, in order; a PUT onto a directory, into something that is no directory or to a path that ends in a slash is a 500 and changes nothing; a path with a zero byte is refused. All other methods are refused with 405 and change nothing.", "quantifier": "all trees, names, contents, payloads, framings, segmentations of the stream, buffer sizes of the copy loop, and reliable sockets; both builds (std for the cut chunked body)", "why_tests_cant": "the contents, the tree and the place where the upload is cut are unbounded, and the loss of data only shows when the peer closes in the middle of a body", "anchors": ["examples/server.rs: FileHandler::get, FileHandler::put", "src/server.rs: serve_one_inner, serve_one", "src/protocol.rs: HttpBody::read"]}
{"id": "C65", "title": "The example file server stays in its directory if the path never has a surplus of dot-dots, and can be led out of it otherwise", "statement": "If no prefix of the request path has more '..' components than names, then what FileHandler answers to GET and PUT, whatever the body delivers, depends only on the served directory, and nothing outside it changes. Without that condition both are false: '/../key' is read and overwritten. Inside a path to a file, empty components, '.', and a directory followed by '..' make no difference. (That percent-encoded dots are not decoded is shown by an example only.) No file is made whose name is empty, '.' or '..'.", "quantifier": "all uris, all trees that agree on the served directory, all bodies including failing ones", "why_tests_cant": "it compares executions on all file systems that differ outside the served directory; a test can only show single escapes", "anchors": ["examples/server.rs: FileHandler::get, FileHandler::put"]}
{"id": "C66", "title": "Clients of the file server that are connected at the same time see the uploads in the order of acceptance", "statement": "For the file server of examples/server.rs with any number of clients connected at the same time, each of which uploads a file in chunks or downloads one that is there when its turn comes, and reads the whole answer: whatever the order in which calls of clients and server are answered and however the bytes are split, the system never comes to a standstill and ends after a bounded number of steps; then every client has a 200; a download holds exactly the bytes of the last upload to the same path accepted before it, or the initial contents if there was none; and the files are in the end as if the uploads had been made one after the other, with the same directories.", "quantifier": "all interleavings, segmentations, numbers of clients, paths of plain names, contents, ways of writing the upload, trees, queue and buffer sizes (at least 2 bytes of queue towards the server), both builds on either side", "why_tests_cant": "the interleavings of several clients with the server and the sizes of contents and queues are unbounded; a test sees a few schedules", "anchors": ["examples/server.rs: FileHandler::get, FileHandler::put", "src/server.rs: serve_forever, serve_one", "src/client.rs: HttpRequestBuilder::send", "src/protocol.rs: OutgoingRequest::finish"]}
{"id": "C67", "title": "Answers that have no body by HTTP's rules (HEAD, 1xx, 204, 304) are read as if they had one", "statement": "What the client takes for the body of an answer depends on the answer's headers only, neither on the method of the request nor on the status: after the head of an answer to HEAD, or of a 1xx, 204 or 304, it delivers the announced number of bytes of whatever follows, or everything if no length is given. So on a reused connection the first bytes of the next answer are delivered as the body and the next answer is read from its middle; an interim answer such as 100 is the result of client::get and client::put, as an error; and with a peer that keeps the connection open, reading the body never returns in any execution. The server sends the body that a HEAD handler returns.", "quantifier": "all requests, heads, lengths, following bytes and failures, transports and segmentations, buffer sizes, and (for the waiting client) all interleavings with the peer; both builds", "why_tests_cant": "that a client never returns is a statement about all infinite executions; the rest is about arbitrary bytes that follow an answer", "anchors": ["src/protocol.rs: HttpBody::new, HttpResponse::deserialize, OutgoingRequest::finish", "src/client.rs: send_request", "src/server.rs: serve_one"]}
{"id": "C68", "title": "Requests over one kept connection are all answered if the answers announce their length; after a chunked answer it depends on the timing", "statement": "A client that makes any number of requests, one after the other, over one connection (as HttpClient does for one address), and a server that answers each request when it has it completely, running at the same time over two bounded byte queues under any schedule and segmentation: if every answer has a Content-Length that is right and the caller reads every body to its end, then something can happen until both have ended, at most 2|requests| + 2|answers| reads and writes return, the client never sends a byte of a request before it has read the answers to all earlier ones, the server is never ahead of the requests, and the i-th result is the status, headers and body of the i-th answer. With chunked answers that end with the empty line of RFC 9112, one and the same system has runs in which all requests succeed and runs in which the second fails with UnexpectedEof, because the client never reads that empty line; the no_std client has failing runs even where the std client's read-ahead buffer hides it.", "quantifier": "all numbers of requests, methods, bodies, sequences of writes and flushes, answers, ways to read the bodies to the end, peers that answer what they have been asked, schedules, segmentations, queue and buffer sizes; both builds", "why_tests_cant": "the failure depends on how the network cuts the answer into segments; a test on the loopback interface nearly always sees one segment", "anchors": ["examples/connection_reuse.rs: main", "src/client.rs: HttpClient::get, HttpClient::put, get_stream", "src/protocol.rs: OutgoingRequest::finish, HttpResponse::deserialize, HttpBody::read, HttpChunkedBody::read"]}
{"id": "C69", "title": "What the example programs print: the body of the answer; a download that ends early is reported as success unless it was chunked", "statement": "examples/client.rs with GET or PUT, whatever the answer: if the status is 200 it prints exactly the bytes of the body before the first error, in order and nothing else, and it succeeds if and only if there is no error; for every other status it prints nothing and fails with that status; other methods fail without a connection. If the answer announces more bytes than come before the connection ends, it prints what came and succeeds; if a chunked answer is cut anywhere, it prints a prefix of the body and fails. examples/advance_client.rs prints the body in the same way whatever the status is. examples/no_std.rs prints \"hello world\" for get and put in any case of letters, whatever the URL and the data, and fails with UnexpectedMethod for the other methods and with ParseError for other words. An upload in the manner of the third example looks at an answer only if all of the data could be read and the whole request went out.", "quantifier": "all answers with a well-formed head and, if chunked, well-formed or cut-off chunks, bodies, read errors, transports and segmentations, writers that take everything in pieces, URLs, data (text or file), buffer sizes", "why_tests_cant": "the examples are not tested at all, and the exit status depends on where in the body the connection breaks and on how the reads are cut", "anchors": ["examples/client.rs: main", "examples/advance_client.rs: main", "examples/no_std.rs: main, MyFakeTcpStream", "src/client.rs: get, put", "src/protocol.rs: HttpBody::read"]}
{"id": "C70", "title": "The file server in the documentation sends exactly the file, and an empty 200 for a directory", "statement": "The handler in the documentation of src/server.rs (run as a documentation test) answers GET of a file with a 200 without a length, followed by exactly the contents; GET of a directory with the head of a 200 and nothing after it, while serve_one returns an error, so that the client sees a successful download of an empty file; GET where nothing is with a 500 (for any handler, an answer whose body fails after some bytes puts exactly the same bytes on the wire as one whose body ends there); and every request that is not a GET exactly as examples/server.rs does (C64, C65). The program of the documentation, client and server running at the same time, ends in every execution after a bounded number of steps, without an error on the server's side and with exactly the contents of the file on the client's.", "quantifier": "all trees, paths of plain names, contents, requests with well-formed heads, transports and segmentations, buffer sizes, and for the program all interleavings and queue sizes", "why_tests_cant": "the documentation test serves one file over the loopback interface; contents, schedules and segmentations are unbounded, and the directory case looks like success to the client", "anchors": ["src/server.rs: module documentation (FileHandler, main)", "src/server.rs: serve_one", "src/client.rs: get", "src/protocol.rs: HttpResponse::new"]}
{"id": "C71", "title": "An upload that the handler answers without reading always has its connection reset, and hangs for ever when neither it nor the answer fits the queues", "statement": "A client of this crate sends a request with a body to a server of this crate whose handler answers without reading it (the default 405 answer to PUT or POST, any other handler that returns at once, and every DELETE), both running at the same time over queues of room1 and room2 bytes. Let ahead be min(room1, b) - 1, where b is the size of the server's BufReader in the std build and 1 otherwise. (1) If the body fits room1 or the answer fits room2, every execution ends, within 2|request| + 2|answer| + 2 steps and with the result of C58. (2) A deadlock is reachable if and only if neither fits. (3) If room1 + ahead < |body| and room2 < |answer|, every execution ends in a deadlock: neither side ever returns, the client has read nothing, room1 bytes are in one queue and the first room2 bytes of the answer in the other. (4) If ahead < |body|, then in every execution, for all queue sizes, the server closes with a part of the body unread or unsent, so TCP resets the connection. (5) If room1 + ahead < |body|, the client is still writing and has read nothing when the server returns, and if its next write fails it does not return the response, although that was sent completely.", "quantifier": "all requests with a body, sequences of writes and flushes, handlers that do not read it, clients, queue sizes, buffer sizes, segmentations and interleavings; both builds on either side", "why_tests_cant": "whether the exchange hangs depends on socket buffer sizes and schedules; on a loopback interface with small bodies every such test passes", "anchors": ["src/server.rs: serve_one, serve_one_inner, RequestHandler default methods", "src/protocol.rs: HttpRequest::deserialize, OutgoingBody::finish, HttpMethod::has_body", "src/io.rs: BufReader", "src/client.rs: StreamConnector for std::net::TcpStream"]}
{"id": "C72", "title": "An answer that a handler passes on arrives the same unless it was chunked; then the next client never gets it", "statement": "A handler fetches an answer with this crate's client and returns it: HttpResponse::new(resp.status, Box::new(resp.body)) with headers set. (1) If the answer was not chunked and its headers are kept, the next client reads the same status, the same headers (up to C63) and exactly the bytes the first one read; also when the body was shorter than its Content-Length, which nobody on the way notices. (2) If it was chunked and its headers are kept, the next client never reads the data: it gets fewer bytes (or, if there was no data, an error), and it gets a complete body p if and only if the data itself starts with a chunked encoding of p. So whoever chose the data chooses what the next client takes for the body. (3) With headers that announce neither chunks nor a length, the next client reads exactly the data of a complete chunked answer; but if the chunked answer was cut off, which the first reader is told as an error, serve_one returns an error and the next client reads the part before the cut as a complete body.", "quantifier": "all answers and headers, payloads, chunkings and cuts, handlers, streams, segmentations, buffer sizes, buffer capacities; both builds on either side", "why_tests_cant": "what the second client decodes depends on the bytes of the payload; tests use one server at a time and payloads that do not look like chunks", "anchors": ["src/protocol.rs: HttpResponse::new, HttpResponse::serialize, HttpResponse::deserialize, HttpBody, HttpChunkedBody", "src/server.rs: HttpServer::serve_one"]}
{"id": "C73", "title": "A peer that sends without end is read without end", "statement": "The library sets no limit on what a peer may send before it decides. If every beginning of an endless stream is the beginning of an acceptable request head (for example one header line that goes on for ever, or header lines without end), then HttpRequest::deserialize does not return: it neither accepts nor rejects; serve_one does not return, and the handler is not called. The same holds for the client waiting for a response, and for any endless stream that contains no CR LF, whatever its bytes are (a first line or the size line of a chunk that never ends is not rejected, however wrong it is already). A body delimited by the end of the connection has no end then either, and neither has a body of endlessly many chunks: no consumer ever sees its end or an error. Conversely, an outcome is decided by a finite beginning of the stream: if deserialize returns, every transport that starts with the same bytes gets the same outcome, whatever follows; and a stream that starts with an acceptable head is accepted, with the rest left for the body.", "quantifier": "all endless streams, transports and segmentations, buffer capacities, handlers, continuations; both builds", "why_tests_cant": "no test can send infinitely many bytes, and a large finite one only shows that the limit, if any, is larger", "anchors": ["src/protocol.rs: CrLfStream::inner_next, HttpHeaders::deserialize, HttpRequest::deserialize, HttpResponse::deserialize, HttpBodyChunk::new", "src/server.rs: HttpServer::serve_one"]}
{"id": "C74", "title": "What a rejected client is told: the error's text, with its own line quoted and escaped", "statement": "A request whose head is rejected is answered with `HTTP/1.1 500 Internal Server Error`, no headers, and the text of the error as body; the handler is not called. Which text that is is determined by the first thing that is wrong, in this order: the first line (the method, in upper case and whatever it is, is quoted; then a missing uri or version; then the version: the first five bytes of what stands there are quoted, or the one character in the place of the dot, or a digit is asked for), each header line with its continuation lines (a line without a colon is quoted in full; a colon not followed by a space, with the one character after it), a line that is not UTF-8 (with the length of the longest well-formed beginning of that line, and how many of the bytes after it could still be the beginning of a character, unless the line ends there), an end of the stream or a transport error before the empty line, and last the value of the last Content-Length (empty, not a digit, too large: what comes first counts). The text has no control characters, whatever the client sent: quotes, backslashes and control characters are escaped so that the text determines the message; two different messages never have the same text. But what needs no escaping is sent back as it is: a header line such as `<script>...` without a colon comes back verbatim in an answer without Content-Type.", "quantifier": "all streams, segmentations, transports, handlers, buffer capacities, character tables of the escaping; both builds; requests, and the messages also for responses", "why_tests_cant": "there is a text for every malformed head; tests look at error kinds of a few", "anchors": ["src/error.rs: Error, Display for Error", "src/protocol.rs: CrLfStream::inner_next, Parser::expect, Parser::parse_digit, Parser::parse_until, Parser::parse_token, Parser::parse_number, HttpMethod::from_str, HttpVersion::from_str, HttpStatus::from_str, HttpHeader::deserialize, HttpRequest::deserialize, HttpResponse::deserialize", "src/server.rs: From<Error> for HttpResponse, HttpServer::serve_one"]}
{"id": "C75", "title": "A client does not learn that its server failed in the middle of an answer, unless the connection is reset", "statement": "Once the handler has returned its response, a failing write, a response body that cannot be read to its end, or a broken connection leaves the client with a beginning of the answer. If that beginning ends within the head, reading the response is an error: UnexpectedEof if the connection was closed, the transport's error if it broke. Otherwise the client gets the status and headers as they were sent and exactly the bytes of the body that came through, never others. A transport error is passed on, unless the announced length was already complete. But a connection that is closed, which is what serve_one does when it fails, looks like the end of the body: there is no error. If the response has a Content-Length, content_length() after the end says how many bytes are missing (0 if none are); without one (the server adds none, and from_string sets none) nothing does. The claim that the client of a failed server always sees an error is false.", "quantifier": "all handlers, responses whose headers can be sent and do not contradict the body, write and body failures, segmentations, ends of the connection, buffer sizes, both builds at each end", "why_tests_cant": "every byte position and every failure at either end; a test sees a clean end in both cases", "anchors": ["src/server.rs: HttpServer::serve_one", "src/protocol.rs: HttpResponse::serialize, HttpResponse::deserialize, HttpBody::read, HttpBody::content_length"]}
{"id": "C76", "title": "The library frames a message as HTTP does exactly if the last Transfer-Encoding reads \"chunked\", or there is none and all Content-Length agree", "statement": "Against the rules of RFC 7230 section 3.3.3 (written down as a relation between the header fields and the framing, independently of the parser): the framing that HttpRequest::deserialize gives an accepted request is one that HTTP allows if and only if every field name is a token and either the last Transfer-Encoding field reads exactly ' chunked' after its colon, or there is no Transfer-Encoding and all elements of all Content-Length fields are the same number in decimal digits (or there is none). The library takes a body for chunked only if HTTP does. For responses with a body the condition is the same, except that HTTP also allows a last coding other than chunked, and then the library agrees if there is no Content-Length. The claim that the library always finds the end where HTTP says it is is false: 'Transfer-Encoding: Chunked' with 'Content-Length: 5', or 'gzip, chunked', is chunked to HTTP and not to the library; two different Content-Length, '+5', or a name with a trailing blank are to be rejected and are accepted; two blanks before a length are to be accepted and are rejected. Field names are compared the same way: the Unicode lower-casing of the library finds these two names exactly where ASCII lower-casing does.", "quantifier": "all header blocks (any names, values, folding, repetitions), segmentations, retries, both builds", "why_tests_cant": "the comparison is over all combinations of header fields; differences in framing between two readers of the same bytes are what request smuggling uses", "anchors": ["src/protocol.rs: HttpRequest::deserialize, HttpResponse::deserialize, HttpBody::new, HttpHeaders::deserialize, HttpHeaders::get"]}
{"id": "C77", "title": "Which valid HTTP heads are taken: those with a blank after every colon, UTF-8 values, one of seven methods and a length below 2^64", "statement": "Against the grammar of RFC 7230 section 3 (request-line, status-line and header-field, written down independently of the parser; without continued lines): HttpRequest::deserialize succeeds on a valid request head if and only if the method is one of the seven in any letter case, the colon of every field is followed by a space, every value is UTF-8, and the last Content-Length, if any, is a number below 2^64. It then yields that method, exactly the request target, the version's two digits, and for every name the last field's value without that one space; other blanks around a value, which do not belong to it by the grammar, stay. HttpResponse::deserialize likewise, for every status code and every reason that is UTF-8. The claim that every valid head with a known method is accepted is false: 'Host:h' (valid, as blanks after the colon are optional) is refused.", "quantifier": "all heads that the grammar allows, segmentations, what follows the head, both builds", "why_tests_cant": "the grammar has infinitely many heads; tests use the one spelling that the crate itself writes", "anchors": ["src/protocol.rs: HttpRequest::deserialize, HttpResponse::deserialize, HttpHeader::deserialize, HttpMethod::from_str, HttpStatus::from_str, HttpVersion::from_str, CrLfStream"]}
{"id": "C78", "title": "Chunked bodies that HTTP allows: read exactly unless a chunk has an extension, trailers are left in the stream", "statement": "Against the grammar of RFC 7230 section 4.1 (chunks with a hexadecimal size, an optional extension and data; a last chunk of size 0; trailer fields; an empty line): if no chunk carries an extension and every size is below 2^64, reading a chunked body delivers exactly the concatenated data and then the end, and leaves the trailer fields and the closing empty line unread in the transport. Otherwise it delivers the data of the chunks before the first one with an extension (or too large), and then an error. The claim that every valid chunked body can be read is false (a chunk extension is refused with InvalidDigit), and so is the claim that only valid ones are read (a '+' before the size and any two bytes behind the data are accepted).", "quantifier": "all chunked bodies of the grammar, what follows them, segmentations, buffer sizes, both builds", "why_tests_cant": "the tests of the crate use two bodies, without extensions or trailers", "anchors": ["src/protocol.rs: HttpBodyChunk::new, HttpChunkedBody::read, HttpBody::read"]}
{"id": "C79", "title": "What the library sends is valid HTTP if the caller's names and values are, except answers with an unnamed status", "statement": "Against the grammar of RFC 7230 (that of C77 and C78): a request that is sent has a valid head that says exactly its method, target and headers if and only if the version numbers have one digit, the target is not empty and all visible characters, every header name is a token and every value consists of field characters. A response likewise, if and only if in addition its status is one that the library has a name for: for others the required blank behind the code is missing. When a client sends a request from HttpRequestBuilder::new to finish without error, with valid headers of its own that do not include Transfer-Encoding or Content-Length, what goes out is one valid request, framed as HTTP frames it, whose chunked body is valid and carries exactly the bytes written (or which has no body). A response made with HttpResponse::new and add_header is framed by its Content-Length or by the end of the connection. The claims that every status and every UTF-8 header yields a valid head are false.", "quantifier": "all requests, responses, header maps, statuses, sequences of writes, transports that accept bytes in any pieces, both builds", "why_tests_cant": "the tests compare a few printed messages; they never compare with the grammar", "anchors": ["src/protocol.rs: HttpRequest::serialize, HttpResponse::serialize, HttpHeaders::serialize, Display for HttpStatus, OutgoingBody::write, OutgoingBody::finish", "src/client.rs: HttpRequestBuilder::new, add_header, send"]}
{"id": "C80", "title": "The request names the caller's URL exactly if it has no query and the scheme's own port", "statement": "By RFC 7230 sections 5.3 to 5.5 a server reconstructs the URL of a request from the connection (TLS or not), the Host header and the target. For every http or https URL as the url crate produces them, with a path and host free of blanks, CR LF and invalid UTF-8, every method and every transport, what it reconstructs from the client's request is scheme://host/path, so it is the caller's URL if and only if that has no query and its port is the scheme's own. Two requests of the client are the same bytes if and only if method, path (an empty one being /) and host agree, so no server can tell apart URLs that differ in query, port or scheme only. The target never has a question mark unless the path has. A caller who replaces Host by host:port repairs the port. The claim that the request always names the URL is false.", "quantifier": "all URLs, methods, transports, both builds", "why_tests_cant": "the tests never send a URL with a query or port to a server that looks at them, and equality of requests for all pairs of URLs is no matter of examples", "anchors": ["src/client.rs: HttpRequestBuilder::new, add_header", "src/url.rs: HttpUrl", "src/protocol.rs: HttpRequest::new, HttpRequest::serialize, HttpRequest::deserialize"]}
{"id": "C81", "title": "A client that waits for 100 Continue, or any other sign of life, before it sends all of its upload waits for ever", "statement": "Let a client program (not necessarily one of this crate) send no more than w and not end as long as it has heard nothing, as RFC 7231 section 5.1.1 allows with w the head of a request that says Expect: 100-continue, and let w lack more of a well-formed request than the handler can do without (two bytes for a handler that reads the body to its end). Then, whatever the headers of the request say, whatever the sizes of the queues and however the calls of the two are interleaved, the server never sends a byte and stays in a read, the client never gets a byte and never ends, and no execution is longer than twice the length of w. A client that writes its head, waits for a read and then does anything is such a client. The claim that such a client gets an answer is false.", "quantifier": "all client programs that wait, requests, handlers that need the body, queue sizes, interleavings, both builds", "why_tests_cant": "the test would hang; the tests run a client that never waits", "anchors": ["src/server.rs: HttpServer::serve_one, serve_one_inner", "src/protocol.rs: HttpRequest::deserialize, HttpBody::read, HttpStatus::Continue"]}
{"id": "C82", "title": "Among all Unicode texts, exactly ASCII case variants are taken for methods and header names, plus dotless i, long s and the st ligatures in methods and the Kelvin sign in names", "statement": "A UTF-8 text parses to a method if and only if it is the method's name with ASCII letters in either case, where an I may be written U+0131, an S U+017F, and an ST U+FB05 or U+FB06; so for all methods but POST and OPTIONS it is ASCII. (In general the upper case of a text is a given word of capital letters if and only if it is spelled with those, U+00DF or the ligatures U+FB00 to U+FB04.) A UTF-8 text is stored and looked up under an ASCII header name if and only if it is that name with ASCII letters in either case, where a k may be written U+212A; so Transfer-Encoding, Content-Length and Host, which have no k, are recognised in ASCII only. The claims that methods and names are recognised in ASCII only are false. A capital sigma is lower-cased to the final form exactly at the end of a word, where characters that are ignored for case do not count.", "quantifier": "all UTF-8 texts, all methods, all ASCII names", "why_tests_cant": "the claim is about all of Unicode and all lengths; the tests use ASCII", "anchors": ["src/protocol.rs: FromStr for HttpMethod, HttpHeaders::get, HttpHeaders::insert, HttpHeader::new, HttpHeader::deserialize"]}
{"id": "C83", "title": "On a transport without interrupted reads the std and no_std builds read the same messages and serve the same answers, except for which error a broken body gives", "statement": "If one transport delivers the same to each build and no read of it is interrupted by a signal (it may fail otherwise, and cut the bytes differently), request and response deserialization give the same head or the same error in both; the bodies then give the same bytes and both end or both fail, where the errors may differ in kind only. A server whose body methods read the body to its end or first error without looking at which error it is makes the same calls, changes its state in the same way and sends the same bytes in both builds. Both hypotheses are needed: with an interrupted read only std calls the handler, and a handler that looks at the error can answer differently.", "quantifier": "all transports of both builds, all byte strings and failures, all portions and buffer sizes, all such handlers, texts and states", "why_tests_cant": "the tests run one build; comparing the builds on all inputs, failures and portions is a relation between two programs", "anchors": ["src/io.rs", "src/error.rs: From<Error> for std::io::Error", "src/protocol.rs: HttpRequest::deserialize, HttpResponse::deserialize, HttpBody::read", "src/server.rs: HttpServer::serve_one"]}
{"id": "C84", "title": "The answer depends on the method, the path, the framing and the body of a request, not on its version, its Host or any other header", "statement": "Two accepted requests with the same method and path lead to the same call, the same change of the handler's state and the same response: for methods without a body whatever their versions, headers and what follows the head; for POST and PUT with a handler that reads the body to its end or first error, if the headers frame the body alike (both chunked, or the same length, or none) and the same follows the head, however the framing is spelled. So the library never refuses a version, nor a request of HTTP/1.1 with no Host or several, for which HTTP demands 400.", "quantifier": "all pairs of accepted requests, transports, builds, portions and buffer sizes, all handlers (of that kind for POST and PUT) and states", "why_tests_cant": "it relates all pairs of requests; a test compares a few", "anchors": ["src/server.rs: HttpServer::serve_one_inner", "src/protocol.rs: HttpBody::new, HttpRequest::deserialize"]}
{"id": "C85", "title": "The server's loop goes on exactly until a client sends a head with a character outside ASCII in one of the few wrong places", "statement": "For every handler that does not itself panic or run for ever, and sockets that may fail in any way but are not interrupted for ever: serving one connection panics if and only if complete lines arrive on it of which the request line has a character outside ASCII at the version's slash, digits or dot, or a header has one right after its colon; otherwise serving returns. serve_forever survives every sequence of connections and failed accepts without such a head, whatever else is sent, and ends at the first one with it, so that later connections are not served.", "quantifier": "all such handlers, states, sockets and texts, all sequences of connections of any length, both builds", "why_tests_cant": "it is an equivalence over all byte streams and all sequences of connections", "anchors": ["src/server.rs: HttpServer::serve_one, HttpServer::serve_forever", "src/protocol.rs: HttpVersion::from_str, HttpHeader::deserialize, Parser"]}
{"id": "C86", "title": "No two requests look the same on the wire, and none is the beginning of another", "statement": "If the target has no space, no header name has a colon and no name or value has a line end, then two requests whose bytes, with anything after them, are equal have the same method, target, version, headers and non-empty calls to write, and the same bytes follow. Hence the bytes of a connection determine the list of requests on it, and two successful clients that sent the same bytes were asked for the same. Heads of answers are determined in the same way, and whole answers if they announce their length truly. Each condition is needed: a space in a target or a line end in a value can stand for headers, and an unannounced answer can be the beginning of another.", "quantifier": "all pairs of requests, answers, sequences of writes and of requests, all sockets that write honestly, both builds", "why_tests_cant": "injectivity speaks about all pairs of messages", "anchors": ["src/protocol.rs: HttpRequest::serialize, HttpResponse::serialize, HttpHeaders::serialize, HttpVersion, HttpStatus, HttpMethod Display", "src/protocol.rs: OutgoingBody::write, OutgoingBody::finish"]}
{"id": "C87", "title": "Answers that borrow the handler: what its state is after a connection, and what its client got", "statement": "The body of an answer may borrow the handler mutably, so that each read of it changes the handler. For every such handler the server reads the body in pieces of the copy buffer up to its end, its first failure or the first failure to write; the handler is afterwards what exactly these reads made of it, and the client has the head and everything read, except that of the last piece before a failure to write it may have only a part. If not all of the head went out, no read took place. Handlers that lend nothing are served as by the plain model. Hence a handler that answers with what it takes out of a queue gives its contents out in order over any number of connections, and loses at most one buffer per connection that broke while its answer was written. Such a loss does occur: what was read for an answer that did not go out is not given to the next client.", "quantifier": "all handlers, states, requests, sockets that write honestly, numbers of connections, both builds", "why_tests_cant": "the order of reads, writes and failures on every connection determines the state for the next", "anchors": ["src/server.rs: HttpRequestHandler (lifetime 'a), serve_one, serve_one_inner, serve_forever", "src/io.rs: copy, BufReader", "src/server.rs: LendingHandler (tests)"]}
{"id": "C88", "title": "Requests to different servers through one HttpClient do not influence each other", "statement": "Take a caller that makes any requests with one HttpClient and goes on after errors, and a connector for which a URL always leads to the same address and connecting to one address does not influence how connecting to another ends. The results of the requests that go to an address are those they would have had if the requests to other addresses had not been made, up to a request that panics; if none panics, the stream to that address in the pool at the end is the same too. So two callers that make the same requests to a server in the same order get the same answers from it, whatever they ask of others in between. While all goes well, a caller that stops at the first error does the same. The condition about panics is needed: an answer of one server on which the parser panics keeps the caller from making later requests to others.", "quantifier": "all connectors that treat addresses apart, sockets, lists of requests, pools, writes and uses of the answers, buffer sizes, both builds", "why_tests_cant": "independence is about all pairs of interleavings, and about servers that fail in any way in between", "anchors": ["src/client.rs: HttpClient (251-296), get_socket", "examples/connection_reuse.rs"]}
{"id": "C89", "title": "An answer makes the client panic exactly if its head has a character outside ASCII in one of the few wrong places", "statement": "For a stream whose writes and flushes may fail in any way but are not interrupted for ever, and for a peer that sends the same bytes whatever it is sent: connecting aside, sending a request with a body, and reading the head of the answer, always returns. It panics if and only if the request gets out and complete lines arrive of which the status line has a character outside ASCII at the version's slash, digits or dot, or a header has one right after its colon. The request does not get out if sending fails, with one error whatever the peer would have sent. Over a stream that takes everything the answer alone decides. With a peer that reacts to what it is sent, it panics only on an answer of that kind. Neither the body the caller sends, nor its errors, nor a failing stream make the client panic. If it returns a body, every read of the body returns too, with bytes or an error, whatever the peer sends as body.", "quantifier": "all requests, bodies and their readers, streams, answers, buffer sizes, both builds", "why_tests_cant": "it is an equivalence over all answers, all ways in which a stream can fail and all segmentations of the body", "anchors": ["src/client.rs: send_request (299-316), HttpRequestBuilder::send", "src/protocol.rs: OutgoingRequest::finish, HttpResponse::deserialize, HttpVersion::from_str, HttpHeader::deserialize"]}

{
 "C09": "Unconditional claim false: C09_empty_read_refuted. The positive part holds for the other body kinds.",
 "C10": "is_retry: the std build retries Interrupted when reading framing; there the error is invisible.",
 "C16": "Unconditional claim false; exact conditions for header lines, version tokens and whole requests and responses (any transport, any failures), and ASCII messages never panic.",
 "C26": "Case-insensitive lookup is false for collected sets; exact condition given.",
 "C35": "Per write from any invariant state; a caller that goes on after an error is outside the claim (see C39).",
 "C39": "C39_write_after_error_refuted is the witness for callers that go on after an error.",
 "C43": "Claim refuted for the build without ssl: C43_plain_build_refuted. TLS itself is an oracle.",
 "C44": "Position of the stream after a body, for every segmentation; loss of read-ahead bytes is part of the statement.",
 "C45": "crate_url states what the url crate guarantees; it is a hypothesis, not proved of the crate.",
 "C49": "Requests without a length are the subject of C47.",
 "C51": "C51_survives_refuted: one malformed request can end the loop.",
 "C52": "Server run on what the client wrote and client on what the server wrote; C58 is the interleaving. C52_client_sends gives success of the sending side on a reliable stream.",
 "C53": "rustls is an oracle; `sane` and the never-idle condition are hypotheses.",
 "C55": "C55_response_delivered_refuted: a stream that holds back unflushed output never carries the response.",
 "C57": "TLS library, key and certificate parsing are oracles.",
 "C58": "C58_put is the theorem for the top-level get and put of the client (after the connection is made). Sockets that block, do not fail and are not reset; a write after the peer has ended is accepted and lost. The step bound counts socket reads and writes that return.",
 "C59": "That the server sends one answer and closes is C50 and C51; the theorem starts where that answer is on its way to the client.",
 "C68": "C68_steady shows that the assumption about the peer (responsive) is met by a server that reads each request and then writes its answer. C68_chunked_refuted: with chunked answers the same system has runs that succeed and runs that fail. Sockets as in C58.",
 "C69": "C69_refuses, C69_short_succeeds and C69_cut_fails are about client.rs. The head of the answer is a good_head (what C44 calls readable); the stream takes all writes and writing does not change what is read. Debug output of the examples is not modelled.",
 "C70": "File system as in C64 (a tree; reading an opened directory fails with EISDIR, as on Unix). C70_program is the network of C58; the directory case is stated for the server and for the client on the bytes the server sent.",
 "C71": "unread: the handler answers without a read of the body (a method without body argument, or one that returns at once). `resets` and still_writing are the states of C61; what a failed write does to the client is stated for every error and for everything it could still read, as: it does not return a response (C71_lost_case shows the error).",
 "C72": "The handler that passes an answer on is user code written with the crate's public interface (passed_on); /repo has none. Both connections as streams (C44, C50), not as concurrent processes. C72_same_for_both_refuted: what the first client reads in full, the second may not.",
 "C73": "`Fuel` for every bound means that the code does not return. That the bytes read so far are kept in memory is not part of the statement (memory is not modelled). C73_chunks says that no reader of an endless chunked body sees an end or an error; what the chunks contain is C04 for the finite beginnings.",
 "C74": "ErrText.v models the messages; C74_same ties it to the model that all other theorems are about, and `head_text` is one instance of the arbitrary `etext` of those. C74_request/C74_response: a message is reported if and only if the lines and the end of the stream (C74_streams: every stream has them) call for it. C74_valid_up_to and C74_error_len say what the two numbers of a UTF-8 error are, C74_shows how each character of a message is shown. The text of a transport's error is an arbitrary function, which non-ASCII characters Rust's Debug escapes an arbitrary predicate; C74_readable and C74_tells are for the other errors. Messages of errors in bodies are not modelled (no answer shows them).",
 "C75": "C75_server joins C50_wire (any failure at the server) to C75_head and C75_body (what the client makes of it). Framing of the response: Content-Length equal to the body's length, or none; not chunked (the server sends a body as the handler encoded it; a handler that encodes chunks itself is C06/C72). C75_told_refuted: a run in which the server fails and the client sees nothing.",
 "C76": "http_framing is the standard as we read it (RFC 7230 3.3.3; identical repeated Content-Length allowed, as a MAY there; commas in quoted strings of coding parameters are not treated specially). C76_accepted states the same with the fields given and says which requests are accepted. Unsized is a request without body or a response until close; responses without body are C67. That a request without length and with a body method is answered 411 is C47.",
 "C77": "The grammar is the RFC's as we read it: tokens, visible characters, obs-text; any visible characters are a request target. Continued lines (obs-fold) are C24. Refusals are errors, except that a value which starts with a non-ASCII character right after the colon makes the parser panic (last line of C77_case, C16).",
 "C78": "Exact for the grammar without the inner syntax of extensions (anything without CR behind a semicolon); continued trailer lines are left out. Which error a refused size line gives is C07.",
 "C79": "Targets are any visible characters and field values any field characters, as in C77. Unconditional claims false: C79_every_status_refuted, C79_every_header_refuted.",
 "C80": "User information and fragment are not part of the URL here (they are not to be sent). Unconditional claim false: C80_every_url_refuted.",
 "C81": "Over the network of C58. What this crate's client makes of a 100 Continue is C67. Unconditional claim false: C81_continue_refuted.",
 "C82": "For the case tables of Unicode 14. Unconditional claims false: C82_ascii_refuted.",
 "C83": "Error texts are taken to be the same function of the error in both builds. Unconditional claims false: C83_interrupted_refuted, C83_any_handler_refuted.",
 "C84": "The claim of RFC 7230 about Host is false: C84_host_refuted.",
 "C85": "C85_survives and C85_ends together say exactly when the loop ends; the handler's assumptions are the record careful.",
 "C86": "Proved on the bytes, without the parsers; the three refuted theorems show that the conditions are needed.",
 "C87": "Lent.v models bodies that change the handler by being read; C87_owned shows that it agrees with Server.v on handlers that lend nothing. C87_lost_refuted shows that the loss of at most one buffer can happen.",
 "C88": "Turns.v models a caller that goes on after errors; C88_pooled relates it to Session.pooled. C88_always_refuted shows that a panic caused by one server ends the program before its other requests.",
 "C89": "The counterpart of C85 for the client. In C89_one, C89_reliable and C89_body the peer's bytes do not depend on what is written (peer_sends); C89_reactive drops that. Fuel must exceed the lengths of the request head, chunks, body and answer."
}
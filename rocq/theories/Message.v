(** Line streams, header blocks, bodies and messages: src/protocol.rs 25-263, 1459-1626, 1750-1903. *)
From Verif Require Import Base Utf8 Case Num Io Parser Types.

Section CrLf.
  Context {St : Type} (bld : build) (rd : reader St).

  (** The test at src/protocol.rs 244-246. *)
  Definition ends_crlf (line : bytes) : bool :=
    (2 <=? length line)%nat
    && Byte.eqb (nth (length line - 2) line x00) CR
    && Byte.eqb (nth (length line - 1) line x00) LF.

  (** src/protocol.rs 239-257 [CrLfStream::inner_next]: [Ok None] is an empty line. *)
  Fixpoint crlf_loop (fuel : nat) (line : bytes) (s : St) : res (option bytes) * St :=
    match fuel with
    | O => (Fuel, s)
    | S f =>
        match bytes_next bld rd fuel s with
        | (Ok None, s') => (Err UnexpectedEof, s')
        | (Ok (Some b), s') =>
            let line' := line ++ [b] in
            if ends_crlf line' then
              let before := firstn (length line' - 2) line' in
              match before with
              | [] => (Ok None, s')
              | _ => if utf8_valid before then (Ok (Some before), s') else (Err Utf8Error, s')
              end
            else crlf_loop f line' s'
        | (Err e, s') => (Err e, s')
        | (Panic, s') => (Panic, s')
        | (Fuel, s') => (Fuel, s')
        end
    end.

  (** src/protocol.rs 228-236 [CrLfStream::next]; an iterator item [Some(Err e)] is [Err e] and the
      iterator's end is [Ok None]. *)
  Definition crlf_next (fuel : nat) (s : St) : res (option bytes) * St := crlf_loop fuel [] s.
End CrLf.

Section Lines.
  (** A source of lines: [next] of a [CrLfStream]. *)
  Context {L : Type} (nl : L -> res (option bytes) * L).

  (** src/protocol.rs 259-262 [CrLfStream::expect_next]. *)
  Definition expect_next (s : L) : res bytes * L :=
    match nl s with
    | (Ok (Some l), s') => (Ok l, s')
    | (Ok None, s') => (Err UnexpectedEof, s')
    | (Err e, s') => (Err e, s')
    | (Panic, s') => (Panic, s')
    | (Fuel, s') => (Fuel, s')
    end.

  (** [iter::Peekable]: the stored peeked item, if any. *)
  Definition peeked := option (res (option bytes)).

  (** [Peekable::next]. *)
  Definition pk_next (pk : peeked) (s : L) : res (option bytes) * L :=
    match pk with Some r => (r, s) | None => nl s end.

  (** src/protocol.rs 1464-1469: append continuation lines. Returns the merged line, the peeked item
      and the source. *)
  Fixpoint cont_loop (fuel : nat) (line : bytes) (s : L) : bytes * peeked * L :=
    match fuel with
    | O => (line, Some Fuel, s)
    | S f =>
        match nl s with
        | (Ok (Some next_line), s') =>
            if starts_blank next_line then cont_loop f (line ++ next_line) s'
            else (line, Some (Ok (Some next_line)), s')
        | (r, s') => (line, Some r, s')
        end
    end.

  (** src/protocol.rs 1459-1473 [HttpHeaders::deserialize]; [acc] is the vector of headers so far. A panic in [peek],
      or a [peek] that does not return, comes before the line is parsed. *)
  Fixpoint headers_loop (fuel : nat) (acc : list header) (pk : peeked) (s : L) : res headers * L :=
    match fuel with
    | O => (Fuel, s)
    | S f =>
        match pk_next pk s with
        | (Ok None, s') => (Ok (headers_from acc), s')
        | (Ok (Some line), s') =>
            let '(line', pk', s'') := cont_loop fuel line s' in
            match pk' with
            | Some Panic => (Panic, s'')
            | Some Fuel => (Fuel, s'')
            | _ =>
                match header_deserialize line' with
                | Ok h => headers_loop f (acc ++ [h]) pk' s''
                | Err e => (Err e, s'')
                | Panic => (Panic, s'')
                | Fuel => (Fuel, s'')
                end
            end
        | (Err e, s') => (Err e, s')
        | (Panic, s') => (Panic, s')
        | (Fuel, s') => (Fuel, s')
        end
    end.

  (** src/protocol.rs 1459-1473 [HttpHeaders::deserialize]. *)
  Definition headers_deserialize (fuel : nat) (s : L) : res headers * L :=
    headers_loop fuel [] None s.

  (** [headers.get("Content-Length").map(str::parse).transpose()?], src/protocol.rs 1600 and 1876. *)
  Definition content_length_of (h : headers) : res (option N) :=
    match headers_get (bs "Content-Length") h with
    | None => Ok None
    | Some v => do n <- parse_u64 v; Ok (Some n)
    end.

  (** The head of a message and the framing parameters handed to [HttpBody::new]. *)
  Record req_head := mkReqHead {
    qh_method : method; qh_uri : bytes; qh_version : version; qh_headers : headers;
    qh_encoding : option bytes; qh_length : option N }.
  (** The same for a response, src/protocol.rs 1589-1600. *)
  Record resp_head := mkRespHead {
    sh_version : version; sh_status : status; sh_headers : headers;
    sh_encoding : option bytes; sh_length : option N }.

  (** src/protocol.rs 1865-1876: the part of [HttpRequest::deserialize] before the body is built. *)
  Definition request_head (fuel : nat) (s : L) : res req_head * L :=
    dos first_line, s1 <- expect_next s;
    match
      (dos mt, p1 <- parse_token (parser_new first_line);
       match parse_method mt with
       | Ok m =>
           dos uri, p2 <- parse_token p1;
           dos vt, p3 <- parse_token p2;
           (do v <- parse_version vt; Ok (m, uri, v), p3)
       | Err e => (Err e, p1) | Panic => (Panic, p1) | Fuel => (Fuel, p1)
       end)
    with
    | (Ok (m, uri, v), _) =>
        dos h, s2 <- headers_deserialize fuel s1;
        (do n <- content_length_of h;
         Ok (mkReqHead m uri v h (headers_get (bs "Transfer-Encoding") h) n), s2)
    | (Err e, _) => (Err e, s1)
    | (Panic, _) => (Panic, s1)
    | (Fuel, _) => (Fuel, s1)
    end.

  (** src/protocol.rs 1589-1600: the part of [HttpResponse::deserialize] before the body is built. *)
  Definition response_head (fuel : nat) (s : L) : res resp_head * L :=
    dos first_line, s1 <- expect_next s;
    match
      (dos vt, p1 <- parse_token (parser_new first_line);
       match parse_version vt with
       | Ok v =>
           dos st, p2 <- parse_remaining p1;
           (do x <- parse_status st; Ok (v, x), p2)
       | Err e => (Err e, p1) | Panic => (Panic, p1) | Fuel => (Fuel, p1)
       end)
    with
    | (Ok (v, st), _) =>
        dos h, s2 <- headers_deserialize fuel s1;
        (do n <- content_length_of h;
         Ok (mkRespHead v st h (headers_get (bs "Transfer-Encoding") h) n), s2)
    | (Err e, _) => (Err e, s1)
    | (Panic, _) => (Panic, s1)
    | (Fuel, _) => (Fuel, s1)
    end.
End Lines.

(** [HttpChunkedBody]'s pair of options (src/protocol.rs 29-33): [CStream t] is stream = Some,
    chunk = None; [CChunk lim t] is chunk = Some (a [Take] with [lim] bytes left), stream = None;
    [CDone t] is both None. In the last case the code has dropped the reader [t]; the model keeps
    it so that theorems can speak about what was left unread. *)
Inductive cbody (T : Type) :=
| CStream (t : T)
| CChunk (limit : N) (t : T)
| CDone (t : T).
Arguments CStream {T} t.
Arguments CChunk {T} limit t.
Arguments CDone {T} t.

(** The reader inside a chunked body, for statements about what is left unread. *)
Definition cb_reader {T} (c : cbody T) : T :=
  match c with CStream t => t | CChunk _ t => t | CDone t => t end.

Section Bodies.
  (** [T]/[rd] is the [HttpReadTilCloseBody], i.e. the BufReader (src/protocol.rs 135). *)
  Context {T : Type} (bld : build) (rd : reader T).

  (** src/protocol.rs 46-58 [HttpBodyChunk::new]: [Ok None] is a chunk of size 0. *)
  Definition chunk_new (fuel : nat) (t : T) : res (option N) * T :=
    dos size_str, t1 <- expect_next (crlf_next bld rd fuel) t;
    (do size <- from_str_radix 16 u64_max size_str;
     Ok (if (size =? 0)%N then None else Some size), t1).

  (** src/protocol.rs 71-98 [HttpChunkedBody::read]; the recursion is the code's. *)
  Fixpoint chunked_read (fuel : nat) (n : nat) (c : cbody T) : res bytes * cbody T :=
    match fuel with
    | O => (Fuel, c)
    | S f =>
        match c with
        | CChunk lim t =>
            match take_read rd n (lim, t) with
            | (Ok [], (_, t1)) =>
                match read_exact bld rd fuel 2 [] t1 with
                | (Ok _, t2) => chunked_read f n (CStream t2)
                | (Err e, t2) => (Err e, CDone t2)
                | (Panic, t2) => (Panic, CDone t2)
                | (Fuel, t2) => (Fuel, CDone t2)
                end
            | (Ok got, (lim1, t1)) => (Ok got, CChunk lim1 t1)
            | (Err e, (_, t1)) => (Err e, CDone t1)
            | (Panic, (_, t1)) => (Panic, CDone t1)
            | (Fuel, (_, t1)) => (Fuel, CDone t1)
            end
        | CStream t =>
            match chunk_new fuel t with
            | (Ok (Some size), t1) => chunked_read f n (CChunk size t1)
            | (Ok None, t1) => (Ok [], CDone t1)
            | (Err e, t1) => (Err (to_io bld e), CDone t1)
            | (Panic, t1) => (Panic, CDone t1)
            | (Fuel, t1) => (Fuel, CDone t1)
            end
        | CDone t => (Ok [], CDone t)
        end
    end.
End Bodies.

(** src/protocol.rs 138-142 [HttpBody]; [BChunked] carries [content_length] (line 30). *)
Inductive hbody (T : Type) :=
| BChunked (len : option N) (c : cbody T)
| BLimited (limit : N) (t : T)
| BTilClose (t : T).
Arguments BChunked {T} len c.
Arguments BLimited {T} limit t.
Arguments BTilClose {T} t.

(** src/protocol.rs 155-167 [HttpBody::new]. *)
Definition body_new {T} (encoding : option bytes) (content_length : option N) (t : T) : hbody T :=
  if (match encoding with Some e => beqb e (bs "chunked") | None => false end)
  then BChunked content_length (CStream t)
  else match content_length with
       | Some n => BLimited n t
       | None => BTilClose t
       end.

(** src/protocol.rs 144-152 [HttpBody::read]. *)
Definition body_read {T} (bld : build) (rd : reader T) (fuel : nat) : reader (hbody T) :=
  fun n b =>
  match b with
  | BChunked len c => let (x, c') := chunked_read bld rd fuel n c in (x, BChunked len c')
  | BLimited lim t => let '(x, (lim', t')) := take_read rd n (lim, t) in (x, BLimited lim' t')
  | BTilClose t => let (x, t') := rd n t in (x, BTilClose t')
  end.

(** src/protocol.rs 169-181 [require_length]. *)
Definition require_length {T} (b : hbody T) : res unit :=
  match b with BTilClose _ => Err LengthRequired | _ => Ok tt end.

(** src/protocol.rs 183-189 [content_length]. *)
Definition body_content_length {T} (b : hbody T) : option N :=
  match b with
  | BChunked len _ => len
  | BLimited lim _ => Some lim
  | BTilClose _ => None
  end.

(** The reader inside a body (what is left when the body is dropped). *)
Definition body_reader {T} (b : hbody T) : T :=
  match b with BChunked _ c => cb_reader c | BLimited _ t => t | BTilClose t => t end.

(** src/protocol.rs 1750-1756 [HttpRequest], 1564-1569 [HttpResponse]. *)
Record request (B : Type) := mkRequest {
  rq_method : method; rq_uri : bytes; rq_version : version; rq_headers : headers; rq_body : B }.
Arguments mkRequest {B} rq_method rq_uri rq_version rq_headers rq_body.
Arguments rq_method {B} r. Arguments rq_uri {B} r. Arguments rq_version {B} r.
Arguments rq_headers {B} r. Arguments rq_body {B} r.
(** src/protocol.rs 1564-1569 [HttpResponse]. *)
Record response (B : Type) := mkResponse {
  rs_version : version; rs_status : status; rs_headers : headers; rs_body : B }.
Arguments mkResponse {B} rs_version rs_status rs_headers rs_body.
Arguments rs_version {B} r. Arguments rs_status {B} r. Arguments rs_headers {B} r.
Arguments rs_body {B} r.

(** src/protocol.rs 1864-1886 [HttpRequest::deserialize]: lines are read from the BufReader [t],
    which then becomes the body's reader. The second component is the reader state also when parsing
    fails. *)
Definition request_deserialize {T} (bld : build) (rd : reader T) (fuel : nat) (t : T)
  : res (request (hbody T)) * T :=
  dos h, t1 <- request_head (crlf_next bld rd fuel) fuel t;
  (Ok (mkRequest (qh_method h) (qh_uri h) (qh_version h) (qh_headers h)
         (body_new (qh_encoding h) (qh_length h) t1)), t1).

(** src/protocol.rs 1588-1610 [HttpResponse::deserialize]: lines are read from the bare socket, which
    is then wrapped in a fresh BufReader. *)
Definition response_deserialize {St} (bld : build) (rd : reader St) (fuel : nat) (s : St)
  : res (response (hbody (bufr St))) * St :=
  dos h, s1 <- response_head (crlf_next bld rd fuel) fuel s;
  (Ok (mkResponse (sh_version h) (sh_status h) (sh_headers h)
         (body_new (sh_encoding h) (sh_length h) (bufr_new s1))), s1).

(** src/protocol.rs 1620-1625 [HttpResponse::serialize], the three [write!] calls. *)
Definition response_pieces {B} (r : response B) : list bytes :=
  version_pieces (rs_version r) ++ [bs " "; show_status (rs_status r); CRLF]
  ++ headers_pieces (rs_headers r) ++ [CRLF].

(** src/protocol.rs 1894-1896 in [HttpRequest::serialize]. *)
Definition request_pieces {B} (r : request B) : list bytes :=
  [show_method (rq_method r); bs " "; rq_uri r; bs " "] ++ version_pieces (rq_version r) ++ [CRLF]
  ++ headers_pieces (rq_headers r) ++ [CRLF].

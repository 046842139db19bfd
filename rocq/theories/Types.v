(** Versions, statuses, methods, headers: src/protocol.rs 539-877, 1373-1522, 1646-1694. *)
From Verif Require Import Base Utf8 Case Num Parser.

(** src/protocol.rs 539-549 [HttpVersion]. *)
Record version := mkVersion { vmajor : N; vminor : N }.
(** The version written into every new message, src/protocol.rs 1581, 1770. *)
Definition v11 : version := mkVersion 1 1.

(** src/protocol.rs 551-563 [HttpVersion::from_str]. *)
Definition parse_version (s : bytes) : res version :=
  fst (
    dos _, p1 <- expect (parser_new s) (bs "HTTP/");
    dos major, p2 <- parse_digit p1;
    dos _, p3 <- expect p2 (bs ".");
    dos minor, p4 <- parse_digit p3;
    (Ok (mkVersion major minor), p4)).

(** src/protocol.rs 565-569 [Display for HttpVersion], as formatted pieces. *)
Definition version_pieces (v : version) : list bytes :=
  [bs "HTTP/"; show_dec (vmajor v); bs "."; show_dec (vminor v)].
(** [HttpVersion::to_string]. *)
Definition show_version (v : version) : bytes := concat (version_pieces v).

(** src/protocol.rs 683-727 [HttpStatus::to_code]. *)
Definition to_code (s : status) : N :=
  match s with
  | Continue => 100 | SwitchingProtocols => 101
  | OK => 200 | Created => 201 | Accepted => 202 | NonAuthoritativeInformation => 203
  | NoContent => 204 | ResetContent => 205 | PartialContent => 206
  | MultipleChoices => 300 | MovedPermanently => 301 | Found => 302 | SeeOther => 303
  | NotModified => 304 | UseProxy => 305 | TemporaryRedirect => 307
  | BadRequest => 400 | Unauthorized => 401 | PaymentRequired => 402 | Forbidden => 403
  | NotFound => 404 | MethodNotAllowed => 405 | NotAcceptable => 406
  | ProxyAuthenticationRequired => 407 | RequestTimeout => 408 | Conflict => 409 | Gone => 410
  | StLengthRequired => 411 | PreconditionFailed => 412 | RequestEntityTooLarge => 413
  | RequestUriTooLong => 414 | UnsupportedMediaType => 415 | RequestedRangeNotSatisfiable => 416
  | ExpectationFailed => 417
  | InternalServerError => 500 | NotImplemented => 501 | BadGateway => 502
  | ServiceUnavailable => 503 | GatewayTimeout => 504 | HttpVersionNotSupported => 505
  | StUnknown c => c
  end%N.

(** src/protocol.rs 729-773 [HttpStatus::from_code]. *)
Definition from_code (c : N) : status :=
  match c with
  | 100 => Continue | 101 => SwitchingProtocols
  | 200 => OK | 201 => Created | 202 => Accepted | 203 => NonAuthoritativeInformation
  | 204 => NoContent | 205 => ResetContent | 206 => PartialContent
  | 300 => MultipleChoices | 301 => MovedPermanently | 302 => Found | 303 => SeeOther
  | 304 => NotModified | 305 => UseProxy | 307 => TemporaryRedirect
  | 400 => BadRequest | 401 => Unauthorized | 402 => PaymentRequired | 403 => Forbidden
  | 404 => NotFound | 405 => MethodNotAllowed | 406 => NotAcceptable
  | 407 => ProxyAuthenticationRequired | 408 => RequestTimeout | 409 => Conflict | 410 => Gone
  | 411 => StLengthRequired | 412 => PreconditionFailed | 413 => RequestEntityTooLarge
  | 414 => RequestUriTooLong | 415 => UnsupportedMediaType | 416 => RequestedRangeNotSatisfiable
  | 417 => ExpectationFailed
  | 500 => InternalServerError | 501 => NotImplemented | 502 => BadGateway
  | 503 => ServiceUnavailable | 504 => GatewayTimeout | 505 => HttpVersionNotSupported
  | v => StUnknown v
  end%N.

(** src/protocol.rs 655-663. *)
Inductive category := Informational | Success | Redirection | ClientError | ServerError
| UnknownCategory.

(** src/protocol.rs 665-676. *)
Definition category_from_code (c : N) : category :=
  match c with
  | 1 => Informational | 2 => Success | 3 => Redirection | 4 => ClientError | 5 => ServerError
  | _ => UnknownCategory
  end%N.

(** src/protocol.rs 679-681. *)
Definition to_category (s : status) : category := category_from_code (to_code s / 100)%N.

(** src/protocol.rs 816-823 [HttpStatus::from_str]. *)
Definition parse_status (s : bytes) : res status :=
  do c <- fst (parse_number (parser_new s)); Ok (from_code c).

(** src/protocol.rs 825-877 [Display for HttpStatus]. *)
Definition show_status (s : status) : bytes :=
  match s with
  | Accepted => bs "202 Accepted"
  | BadGateway => bs "502 Bad Gateway"
  | BadRequest => bs "400 Bad Request"
  | Conflict => bs "409 Conflict"
  | Continue => bs "100 Continue"
  | Created => bs "201 Created"
  | ExpectationFailed => bs "417 Expectation Failed"
  | Forbidden => bs "403 Forbidden"
  | Found => bs "302 Found"
  | GatewayTimeout => bs "504 Gateway Timeout"
  | Gone => bs "410 Gone"
  | HttpVersionNotSupported => bs "505 HTTP Version Not Supported"
  | InternalServerError => bs "500 Internal Server Error"
  | StLengthRequired => bs "411 Length Required"
  | MethodNotAllowed => bs "405 Method Not Allowed"
  | MovedPermanently => bs "301 Moved Permanently"
  | MultipleChoices => bs "300 Multiple Choices"
  | NoContent => bs "204 No Content"
  | NonAuthoritativeInformation => bs "203 No Authoritative Information"
  | NotAcceptable => bs "406 Not Acceptable"
  | NotFound => bs "404 Not Found"
  | NotImplemented => bs "501 Not Implemented"
  | NotModified => bs "304 NotModified"
  | OK => bs "200 OK"
  | PartialContent => bs "206 Partial Content"
  | PaymentRequired => bs "402 Payment Required"
  | PreconditionFailed => bs "412 Precondition Failed"
  | ProxyAuthenticationRequired => bs "407 Prozy Authentication Required"
  | RequestEntityTooLarge => bs "413 Request Entity Too Large"
  | RequestTimeout => bs "408 Request Timeout"
  | RequestUriTooLong => bs "414 Request URI Too Long"
  | RequestedRangeNotSatisfiable => bs "416 Requested Range Not Satisfiable"
  | ResetContent => bs "205 Reset Content"
  | SeeOther => bs "303 See Other"
  | ServiceUnavailable => bs "503 Service Unavailable"
  | SwitchingProtocols => bs "101 Switching Protocols"
  | TemporaryRedirect => bs "307 Temporary Redirect"
  | Unauthorized => bs "401 Unauthorized"
  | UnsupportedMediaType => bs "415 Unsupported Media Type"
  | UseProxy => bs "305 Use Proxy"
  | StUnknown v => show_dec v
  end.

(** src/protocol.rs 1657-1671 [HttpMethod::from_str]. *)
Definition parse_method (s : bytes) : res method :=
  let u := to_uppercase s in
  if beqb u (bs "DELETE") then Ok Delete
  else if beqb u (bs "GET") then Ok Get
  else if beqb u (bs "HEAD") then Ok Head
  else if beqb u (bs "OPTIONS") then Ok Options
  else if beqb u (bs "POST") then Ok Post
  else if beqb u (bs "PUT") then Ok Put
  else if beqb u (bs "TRACE") then Ok Trace
  else Err ParseError.

(** src/protocol.rs 1673-1685 [Display for HttpMethod]. *)
Definition show_method (m : method) : bytes :=
  match m with
  | Delete => bs "DELETE" | Get => bs "GET" | Head => bs "HEAD" | Options => bs "OPTIONS"
  | Post => bs "POST" | Put => bs "PUT" | Trace => bs "TRACE"
  end.

(** src/protocol.rs 1687-1694 [has_body]. *)
Definition has_body (m : method) : bool :=
  match m with
  | Delete | Post | Put => true
  | Trace | Get | Head | Options => false
  end.

(** src/protocol.rs 1373-1385 [HttpHeader], [HttpHeader::new] (the key is lower-cased). *)
Definition header := (bytes * bytes)%type.
(** src/protocol.rs 1379-1385 [HttpHeader::new]. *)
Definition header_new (key value : bytes) : header := (to_lowercase key, value).

(** src/protocol.rs 1387-1394 [HttpHeader::deserialize]. *)
Definition header_deserialize (s : bytes) : res header :=
  fst (
    dos key, p1 <- parse_until (parser_new s) (bs ":");
    dos _, p2 <- expect p1 (bs ": ");
    dos value, p3 <- parse_remaining p2;
    (Ok (header_new (to_lowercase key) value), p3)).

(** src/protocol.rs 1419-1422 [HttpHeaders]: [BTreeMap<String, String>] as an association list in
    increasing key order. *)
Definition headers := list header.

(** [BTreeMap::get]. *)
Fixpoint hm_get (k : bytes) (m : headers) : option bytes :=
  match m with
  | [] => None
  | (k', v) :: t => if beqb k k' then Some v else hm_get k t
  end.

(** [BTreeMap::insert]: replaces the value of an equal key. *)
Fixpoint hm_insert (k v : bytes) (m : headers) : headers :=
  match m with
  | [] => [(k, v)]
  | (k', v') :: t =>
      match bcompare k k' with
      | Lt => (k, v) :: m
      | Eq => (k', v) :: t
      | Gt => (k', v') :: hm_insert k v t
      end
  end.

(** src/protocol.rs 1442-1446. *)
Definition headers_new : headers := [].

(** src/protocol.rs 1448-1452 [HttpHeaders::get]. *)
Definition headers_get (key : bytes) (m : headers) : option bytes := hm_get (to_lowercase key) m.

(** src/protocol.rs 1454-1457 [HttpHeaders::insert] (also [add_header], 1616-1618 and 1860-1862). *)
Definition headers_insert (key value : bytes) (m : headers) : headers :=
  hm_insert (to_lowercase key) value m.

(** src/protocol.rs 1483-1489 [FromIterator] (used by [http_headers!], 1424-1439): keys are kept as
    given. *)
Definition headers_collect (l : list (bytes * bytes)) : headers :=
  fold_left (fun m kv => hm_insert (fst kv) (snd kv) m) l [].

(** src/protocol.rs 1514-1522 [From<Vec<HttpHeader>>]. *)
Definition headers_from (l : list header) : headers :=
  fold_left (fun m kv => hm_insert (fst kv) (snd kv) m) l [].

(** The test for a continuation line, src/protocol.rs 1465. *)
Definition starts_blank (s : bytes) : bool :=
  match s with b :: _ => is_blank b | [] => false end.

(** src/protocol.rs 1475-1480 [HttpHeaders::serialize], as formatted pieces. *)
Definition headers_pieces (m : headers) : list bytes :=
  flat_map (fun kv => [fst kv; bs ": "; snd kv; CRLF]) m.

(** The texts of errors: src/error.rs with its message strings, and the parsers of src/protocol.rs once more, with
    the messages that the rest of the model leaves out ([error] in Base.v). *)
From Verif Require Import Base Utf8 Case Num Io Parser Types Message.

(** src/error.rs 8-28 [Error], with the data of the variants that parsing a head can make: [ParseError],
    [ParseIntError], [Utf8Error] (its [valid_up_to] and [error_len]) and [UnexpectedEof]. Simplification: an error of
    the transport is [MsgOther]. *)
Inductive message :=
| MsgParse (text : bytes)
| MsgInt (k : intkind)
| MsgUtf8 (upto : nat) (len : option N)
| MsgEof (text : bytes)
| MsgOther (e : error).

(** The variant (src/error.rs 8-28) without its message. *)
Definition kind_of (m : message) : error :=
  match m with
  | MsgParse _ => ParseError
  | MsgInt k => ParseIntError k
  | MsgUtf8 _ _ => Utf8Error
  | MsgEof _ => UnexpectedEof
  | MsgOther e => e
  end.

(** [Result<A, Error>] (src/error.rs 30) with messages; panics and bounds as in [res]. *)
Inductive mres (A : Type) := MOk (a : A) | MErr (m : message) | MPanic | MFuel.
Arguments MOk {A} a.
Arguments MErr {A} m.
Arguments MPanic {A}.
Arguments MFuel {A}.

(** Without the message. *)
Definition forget {A} (r : mres A) : res A :=
  match r with MOk a => Ok a | MErr m => Err (kind_of m) | MPanic => Panic | MFuel => Fuel end.

(** The [?] operator on a result and on a result with a state. *)
Definition mbind {A B} (r : mres A) (k : A -> mres B) : mres B :=
  match r with MOk a => k a | MErr m => MErr m | MPanic => MPanic | MFuel => MFuel end.
(** See [mbind]. *)
Definition msbind {A B S} (x : mres A * S) (k : A -> S -> mres B * S) : mres B * S :=
  match x with
  | (MOk a, s) => k a s
  | (MErr m, s) => (MErr m, s)
  | (MPanic, s) => (MPanic, s)
  | (MFuel, s) => (MFuel, s)
  end.
Notation "'mdo' x <- r ; k" := (mbind r (fun x => k)) (at level 200, x name, r at level 100, k at level 200).
Notation "'mdos' x , s <- r ; k" := (msbind r (fun x s => k)) (at level 200, x name, s name, r at level 100, k at level 200).

(** Results of the model that carry no text: number parsing ([From<ParseIntError>], src/error.rs 54-58), slices, and the
    transport ([From<io::Error>], src/error.rs 47-52). *)
Definition no_text {A} (r : res A) : mres A :=
  match r with
  | Ok a => MOk a
  | Err (ParseIntError k) => MErr (MsgInt k)
  | Err e => MErr (MsgOther e)
  | Panic => MPanic
  | Fuel => MFuel
  end.

(** ** Lines *)

(** [str::from_utf8] as used at src/protocol.rs 252: [None] for valid text, else [valid_up_to] and [error_len] of the
    [Utf8Error] (core::str::validations [run_utf8_validation]). [at_] is the number of bytes before [s]. *)
Fixpoint utf8_error (at_ : nat) (s : bytes) : option (nat * option N) :=
  match s with
  | [] => None
  | a :: t =>
    if (bval a <? 128)%N then utf8_error (at_ + 1) t
    else if in_range 194 223 a then
      match t with
      | [] => Some (at_, None)
      | b :: t2 => if is_cont b then utf8_error (at_ + 2) t2 else Some (at_, Some 1%N)
      end
    else if in_range 224 239 a then
      match t with
      | [] => Some (at_, None)
      | b :: t2 =>
        if ok3 a b then
          match t2 with
          | [] => Some (at_, None)
          | c :: t3 => if is_cont c then utf8_error (at_ + 3) t3 else Some (at_, Some 2%N)
          end
        else Some (at_, Some 1%N)
      end
    else if in_range 240 244 a then
      match t with
      | [] => Some (at_, None)
      | b :: t2 =>
        if ok4 a b then
          match t2 with
          | [] => Some (at_, None)
          | c :: t3 =>
            if is_cont c then
              match t3 with
              | [] => Some (at_, None)
              | d :: t4 => if is_cont d then utf8_error (at_ + 4) t4 else Some (at_, Some 3%N)
              end
            else Some (at_, Some 2%N)
          end
        else Some (at_, Some 1%N)
      end
    else Some (at_, Some 1%N)
  end.

Section CrLfText.
  Context {St : Type} (bld : build) (rd : reader St).

  (** src/protocol.rs 239-257 [CrLfStream::inner_next]. *)
  Fixpoint crlf_loop_m (fuel : nat) (line : bytes) (s : St) : mres (option bytes) * St :=
    match fuel with
    | O => (MFuel, s)
    | S f =>
        match bytes_next bld rd fuel s with
        | (Ok None, s') => (MErr (MsgEof (bs "Expected \r\n")), s')
        | (Ok (Some b), s') =>
            let line' := line ++ [b] in
            if ends_crlf line' then
              match firstn (length line' - 2) line' with
              | [] => (MOk None, s')
              | before =>
                  match utf8_error 0 before with
                  | None => (MOk (Some before), s')
                  | Some (upto, len) => (MErr (MsgUtf8 upto len), s')
                  end
              end
            else crlf_loop_m f line' s'
        | (Err e, s') => (MErr (MsgOther e), s')
        | (Panic, s') => (MPanic, s')
        | (Fuel, s') => (MFuel, s')
        end
    end.

  (** src/protocol.rs 228-236 [CrLfStream::next]. *)
  Definition crlf_next_m (fuel : nat) (s : St) : mres (option bytes) * St := crlf_loop_m fuel [] s.
End CrLfText.

(** ** Parsers within a line *)

(** src/protocol.rs 314-330 [expect]. *)
Definition expect_m (p : parser) (expected : bytes) : mres unit * parser :=
  if (length (ps p) <=? ppos p)%nat then (MErr (MsgEof (bs "Expected " ++ expected)), p) else
  match str_slice (ps p) (ppos p) (Nat.min (length (ps p)) (ppos p + length expected)) with
  | Ok actual =>
      if beqb actual expected then (MOk tt, mkParser (ps p) (ppos p + length expected))
      else (MErr (MsgParse (bs "Expected '" ++ expected ++ bs "', got '" ++ actual ++ bs "'")), p)
  | Err e => (MErr (MsgOther e), p)
  | Panic => (MPanic, p)
  | Fuel => (MFuel, p)
  end.

(** src/protocol.rs 345-353 [parse_digit]. *)
Definition parse_digit_m (p : parser) : mres N * parser :=
  if (length (ps p) <=? ppos p)%nat then (MErr (MsgEof (bs "Expected digit")), p) else
  match str_slice (ps p) (ppos p) (ppos p + 1) with
  | Ok digit => (no_text (parse_u32 digit), mkParser (ps p) (ppos p + 1))
  | Err e => (MErr (MsgOther e), p)
  | Panic => (MPanic, p)
  | Fuel => (MFuel, p)
  end.

(** src/protocol.rs 355-366 [parse_until]. *)
Definition parse_until_m (p : parser) (div : bytes) : mres bytes * parser :=
  if (length (ps p) <=? ppos p)%nat then (MErr (MsgEof (bs "Expected '" ++ div ++ bs "'")), p) else
  match remaining p with
  | Ok rest =>
      match find_sub div rest with
      | None => (MErr (MsgParse (bs "Expected '" ++ div ++ bs "' in '" ++ rest ++ bs "'")), p)
      | Some pos => (no_text (str_slice rest 0 pos), mkParser (ps p) (ppos p + pos))
      end
  | Err e => (MErr (MsgOther e), p)
  | Panic => (MPanic, p)
  | Fuel => (MFuel, p)
  end.

(** src/protocol.rs 390-401 [parse_token]. *)
Definition parse_token_m (p : parser) : mres bytes * parser :=
  if (length (ps p) <=? ppos p)%nat then (MErr (MsgEof (bs "Expected token")), p) else
  let (r, p') := parse_token p in (no_text r, p').

(** src/protocol.rs 403-405 [parse_number]. *)
Definition parse_number_m (p : parser) : mres N * parser :=
  mdos t, p1 <- parse_token_m p; (no_text (parse_u32 t), p1).

(** src/protocol.rs 407-414 [parse_remaining]. *)
Definition parse_remaining_m (p : parser) : mres bytes * parser :=
  if (length (ps p) <? ppos p)%nat then (MErr (MsgEof (bs "Expected token")), p) else
  let (r, p') := parse_remaining p in (no_text r, p').

(** src/protocol.rs 551-563 [HttpVersion::from_str]. *)
Definition parse_version_m (s : bytes) : mres version :=
  fst (
    mdos u1, p1 <- expect_m (parser_new s) (bs "HTTP/");
    mdos major, p2 <- parse_digit_m p1;
    mdos u2, p3 <- expect_m p2 (bs ".");
    mdos minor, p4 <- parse_digit_m p3;
    (MOk (mkVersion major minor), p4)).

(** src/protocol.rs 816-823 [HttpStatus::from_str]. *)
Definition parse_status_m (s : bytes) : mres status :=
  mdo c <- fst (parse_number_m (parser_new s)); MOk (from_code c).

(** src/protocol.rs 1657-1671 [HttpMethod::from_str]: the message has the upper-case text. *)
Definition parse_method_m (s : bytes) : mres method :=
  match parse_method s with
  | Ok m => MOk m
  | _ => MErr (MsgParse (bs "Unknown method " ++ to_uppercase s))
  end.

(** src/protocol.rs 1387-1394 [HttpHeader::deserialize]. *)
Definition header_deserialize_m (s : bytes) : mres header :=
  fst (
    mdos key, p1 <- parse_until_m (parser_new s) (bs ":");
    mdos u, p2 <- expect_m p1 (bs ": ");
    mdos value, p3 <- parse_remaining_m p2;
    (MOk (header_new (to_lowercase key) value), p3)).

(** ** Heads *)
Section LinesText.
  (** A source of lines: [next] of a [CrLfStream], src/protocol.rs 228-236. *)
  Context {L : Type} (nl : L -> mres (option bytes) * L).

  (** src/protocol.rs 259-262 [CrLfStream::expect_next]. *)
  Definition expect_next_m (s : L) : mres bytes * L :=
    mdos o, s' <- nl s;
    match o with Some l => (MOk l, s') | None => (MErr (MsgEof (bs "Expected line")), s') end.

  (** [Peekable::next], see Message.v. *)
  Definition pk_next_m (pk : option (mres (option bytes))) (s : L) : mres (option bytes) * L :=
    match pk with Some r => (r, s) | None => nl s end.

  (** src/protocol.rs 1464-1469. *)
  Fixpoint cont_loop_m (fuel : nat) (line : bytes) (s : L) : bytes * option (mres (option bytes)) * L :=
    match fuel with
    | O => (line, Some MFuel, s)
    | S f =>
        match nl s with
        | (MOk (Some next_line), s') =>
            if starts_blank next_line then cont_loop_m f (line ++ next_line) s'
            else (line, Some (MOk (Some next_line)), s')
        | (r, s') => (line, Some r, s')
        end
    end.

  (** src/protocol.rs 1459-1473 [HttpHeaders::deserialize]. *)
  Fixpoint headers_loop_m (fuel : nat) (acc : list header) (pk : option (mres (option bytes))) (s : L) : mres headers * L :=
    match fuel with
    | O => (MFuel, s)
    | S f =>
        match pk_next_m pk s with
        | (MOk None, s') => (MOk (headers_from acc), s')
        | (MOk (Some line), s') =>
            let '(line', pk', s'') := cont_loop_m fuel line s' in
            match pk' with
            | Some MPanic => (MPanic, s'')
            | Some MFuel => (MFuel, s'')
            | _ =>
                match header_deserialize_m line' with
                | MOk h => headers_loop_m f (acc ++ [h]) pk' s''
                | MErr m => (MErr m, s'')
                | MPanic => (MPanic, s'')
                | MFuel => (MFuel, s'')
                end
            end
        | (MErr m, s') => (MErr m, s')
        | (MPanic, s') => (MPanic, s')
        | (MFuel, s') => (MFuel, s')
        end
    end.

  (** src/protocol.rs 1864-1886: [HttpRequest::deserialize] up to the body. *)
  Definition request_head_m (fuel : nat) (s : L) : mres req_head * L :=
    mdos first_line, s1 <- expect_next_m s;
    match
      (mdos mt, p1 <- parse_token_m (parser_new first_line);
       mdos m, p1' <- (parse_method_m mt, p1);
       mdos uri, p2 <- parse_token_m p1';
       mdos vt, p3 <- parse_token_m p2;
       (mdo v <- parse_version_m vt; MOk (m, uri, v), p3))
    with
    | (MOk (m, uri, v), _) =>
        mdos h, s2 <- headers_loop_m fuel [] None s1;
        (mdo n <- no_text (content_length_of h);
         MOk (mkReqHead m uri v h (headers_get (bs "Transfer-Encoding") h) n), s2)
    | (MErr e, _) => (MErr e, s1)
    | (MPanic, _) => (MPanic, s1)
    | (MFuel, _) => (MFuel, s1)
    end.

  (** src/protocol.rs 1588-1610: [HttpResponse::deserialize] up to the body. *)
  Definition response_head_m (fuel : nat) (s : L) : mres resp_head * L :=
    mdos first_line, s1 <- expect_next_m s;
    match
      (mdos vt, p1 <- parse_token_m (parser_new first_line);
       mdos v, p1' <- (parse_version_m vt, p1);
       mdos st, p2 <- parse_remaining_m p1';
       (mdo x <- parse_status_m st; MOk (v, x), p2))
    with
    | (MOk (v, st), _) =>
        mdos h, s2 <- headers_loop_m fuel [] None s1;
        (mdo n <- no_text (content_length_of h);
         MOk (mkRespHead v st h (headers_get (bs "Transfer-Encoding") h) n), s2)
    | (MErr e, _) => (MErr e, s1)
    | (MPanic, _) => (MPanic, s1)
    | (MFuel, _) => (MFuel, s1)
    end.
End LinesText.

(** ** Showing errors *)

(** [core::fmt] of an [IntErrorKind], in [ParseIntError]'s derived [Debug] (src/error.rs 33-37). *)
Definition show_intkind (k : intkind) : bytes :=
  match k with IEmpty => bs "Empty" | IInvalidDigit => bs "InvalidDigit" | IPosOverflow => bs "PosOverflow" end.

(** [Debug] of a [str] (core::fmt), one character at a time: [char::escape_debug_ext] without escaping single quotes.
    [hidden] says which characters outside ASCII are not printable or combining, a table of the Rust library that is
    not modelled. *)
Definition debug_char (hidden : N -> bool) (c : N) : bytes :=
  if (c =? 0)%N then bs "\0"
  else if (c =? 9)%N then bs "\t"
  else if (c =? 10)%N then bs "\n"
  else if (c =? 13)%N then bs "\r"
  else if (c =? 34)%N then [x5c; x22]
  else if (c =? 92)%N then [x5c; x5c]
  else if ((c <? 32) || (c =? 127) || ((127 <? c) && hidden c))%N then bs "\u{" ++ show_hex c ++ bs "}"
  else encode_char c.

(** [{:?}] of a [String]; on ill-formed bytes (which no [String] contains) the model shows the bytes. *)
Definition debug_str (hidden : N -> bool) (s : bytes) : bytes :=
  [x22] ++ (match utf8_decode s with Some cs => flat_map (debug_char hidden) cs | None => s end) ++ [x22].

(** src/error.rs 35-39 [Display for Error], which is the derived [Debug] of src/error.rs 8. [other] is the text of the
    transport's errors. *)
Definition show_error (hidden : N -> bool) (other : error -> bytes) (m : message) : bytes :=
  match m with
  | MsgParse t => bs "ParseError(" ++ debug_str hidden t ++ bs ")"
  | MsgInt k => bs "ParseIntError(ParseIntError { kind: " ++ show_intkind k ++ bs " })"
  | MsgUtf8 upto len => bs "Utf8Error(Utf8Error { valid_up_to: " ++ show_dec (N.of_nat upto) ++ bs ", error_len: "
      ++ (match len with Some n => bs "Some(" ++ show_dec n ++ bs ")" | None => bs "None" end) ++ bs " })"
  | MsgEof t => bs "UnexpectedEof(" ++ debug_str hidden t ++ bs ")"
  | MsgOther e => other e
  end.

(** The text that src/server.rs 81-90 puts into the answer to a request whose head was not accepted (213-216): the
    [etext] of Server.v. *)
Definition head_text {S} (hidden : N -> bool) (other : error -> bytes) (bld : build) (cap : nat) (rd : reader S) (fuel : nat)
    (e : error) (s : S) : bytes :=
  match fst (request_head_m (crlf_next_m bld (bufr_read bld cap rd) fuel) fuel (bufr_new s)) with
  | MErr m => show_error hidden other m
  | _ => other e
  end.

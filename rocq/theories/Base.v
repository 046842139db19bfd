(** Base types of the model: bytes, results, errors, statuses, methods.
    A Rust [&str]/[String] is modelled by its UTF-8 bytes. *)
From Coq Require Export Strings.String Strings.Byte.
From Coq Require Export NArith Arith Lia Bool List.
Export ListNotations.
Open Scope list_scope.

(** [Vec<u8>], [&[u8]], and the UTF-8 bytes of [&str]/[String]. *)
Notation bytes := (list byte).

(** Rust string/byte literals. *)
Definition bs (s : string) : bytes := list_byte_of_string s.
Arguments bs s%string.

(** The characters named in src/protocol.rs 245-246 ([b'\r'], [b'\n']), 383-384, 396 and 1465 ([' '],
    ['\t']), 1389-1390 ([':']). *)
Definition CR : byte := x0d.
(** ['\n'], src/protocol.rs 246. *)
Definition LF : byte := x0a.
(** [' '], src/protocol.rs 383, 396, 1465. *)
Definition SP : byte := x20.
(** ['\t'], src/protocol.rs 384, 396, 1465. *)
Definition TAB : byte := x09.
(** [':'], src/protocol.rs 1389. *)
Definition COLON : byte := x3a.
(** ["\r\n"], src/protocol.rs 1477, 1621-1623, 1834-1836, 1851, 1894-1896. *)
Definition CRLF : bytes := [CR; LF].

(** [b as u32]. *)
Definition bval (b : byte) : N := Byte.to_N b.

(** [==] on strings, e.g. src/protocol.rs 322, 1660-1668. *)
Fixpoint beqb (x y : bytes) : bool :=
  match x, y with
  | [], [] => true
  | a :: x', b :: y' => Byte.eqb a b && beqb x' y'
  | _, _ => false
  end.

(** [String: Ord] / [str: Ord] is the lexicographic order of the bytes. *)
Fixpoint bcompare (x y : bytes) : comparison :=
  match x, y with
  | [], [] => Eq
  | [], _ :: _ => Lt
  | _ :: _, [] => Gt
  | a :: x', b :: y' =>
      match N.compare (bval a) (bval b) with
      | Eq => bcompare x' y'
      | c => c
      end
  end.

(** [str::starts_with], used by [find_sub] (src/protocol.rs 362). *)
Fixpoint is_prefix (p s : bytes) : bool :=
  match p, s with
  | [], _ => true
  | a :: p', b :: s' => Byte.eqb a b && is_prefix p' s'
  | _ :: _, [] => false
  end.

(** Integer limits. *)
Definition u32_max : N := 4294967295.
(** [u64::MAX]: content lengths and chunk sizes, src/protocol.rs 50, 1600, 1876. *)
Definition u64_max : N := 18446744073709551615.

(** Which build of the crate: with feature "std" ([std::io]) or without (src/io.rs).
    src/lib.rs 21-25. *)
Inductive build := Std | NoStd.

(** src/protocol.rs 610-653 [HttpStatus]. *)
Inductive status :=
| Accepted | BadGateway | BadRequest | Conflict | Continue | Created | ExpectationFailed
| Forbidden | Found | GatewayTimeout | Gone | HttpVersionNotSupported | InternalServerError
| StLengthRequired | MethodNotAllowed | MovedPermanently | MultipleChoices | NoContent
| NonAuthoritativeInformation | NotAcceptable | NotFound | NotImplemented | NotModified | OK
| PartialContent | PaymentRequired | PreconditionFailed | ProxyAuthenticationRequired
| RequestEntityTooLarge | RequestTimeout | RequestUriTooLong | RequestedRangeNotSatisfiable
| ResetContent | SeeOther | ServiceUnavailable | SwitchingProtocols | TemporaryRedirect
| Unauthorized | UnsupportedMediaType | UseProxy
| StUnknown (c : N).

(** src/protocol.rs 1646-1655 [HttpMethod]. *)
Inductive method := Delete | Get | Head | Options | Post | Put | Trace.

(** [std::io::ErrorKind], the kinds the code or std's loops distinguish; any other kind is
    [KOther n]. *)
Inductive iokind := Interrupted | KUnexpectedEof | KWriteZero | KInvalidInput
| KAddrNotAvailable | KOther (n : N).

(** [core::num::IntErrorKind]. *)
Inductive intkind := IEmpty | IInvalidDigit | IPosOverflow.

(** src/error.rs 8-28 [Error]. Simplification: the human readable message strings are dropped.
    A [std::io::Error] is represented by [IoError kind]: the conversion [From<io::Error> for Error]
    (src/error.rs 47-52) wraps it, which in this representation is the identity. *)
Inductive error :=
| ParseError
| ParseIntError (k : intkind)
| Utf8Error
| UnexpectedScheme
| UnexpectedEof
| UnexpectedStatus (s : status)
| UnexpectedMethod (m : method)
| UrlError
| LengthRequired
| EOther
| IoError (k : iokind)
| SslError.

(** Outcome of a modelled Rust function. [Panic] is a Rust panic (unwinding). [Fuel] means that
    the model's loop bound was reached; it has no counterpart in the code and the theorems exclude
    it by stating a sufficient bound. *)
Inductive res (A : Type) := Ok (a : A) | Err (e : error) | Panic | Fuel.
Arguments Ok {A} a.
Arguments Err {A} e.
Arguments Panic {A}.
Arguments Fuel {A}.

(** The [?] operator. *)
Definition rbind {A B} (r : res A) (k : A -> res B) : res B :=
  match r with Ok a => k a | Err e => Err e | Panic => Panic | Fuel => Fuel end.
(** [let x = m?; k]. *)
Notation "'do' x <- m ; k" := (rbind m (fun x => k))
  (at level 200, x pattern, m at level 100, k at level 200).

(** [?] in a function that also threads a state. *)
Definition sbind {A B St} (r : res A * St) (k : A -> St -> res B * St) : res B * St :=
  match r with
  | (Ok a, s) => k a s
  | (Err e, s) => (Err e, s)
  | (Panic, s) => (Panic, s)
  | (Fuel, s) => (Fuel, s)
  end.
(** [let x = m?; k] with the state [s] that [m] leaves. *)
Notation "'dos' x , s <- m ; k" := (sbind m (fun x s => k))
  (at level 200, x pattern, s name, m at level 100, k at level 200).

(** [impl From<Error> for std::io::Error] (src/error.rs 70-75), applied by [?] in functions that
    return [io::Result]: in the std build every crate error becomes an [io::Error] of kind Other;
    in the no_std build [io::Result] is the crate's [Result] (src/io.rs 3). *)
Definition to_io (bld : build) (e : error) : error :=
  match bld with Std => IoError (KOther 0) | NoStd => e end.

(** The io error produced when a reader ends early ([ErrorKind::UnexpectedEof] in std, src/io.rs 36
    in no_std). *)
Definition io_eof (bld : build) : error :=
  match bld with Std => IoError KUnexpectedEof | NoStd => UnexpectedEof end.

(** The io error produced when a writer accepts 0 bytes ([ErrorKind::WriteZero] in std, src/io.rs 62
    in no_std). *)
Definition io_write_zero (bld : build) : error :=
  match bld with Std => IoError KWriteZero | NoStd => UnexpectedEof end.

(** std's [Bytes], [read_exact], [write_all], [copy] and [BufWriter] silently retry on
    [ErrorKind::Interrupted]; src/io.rs (no_std) never retries. *)
Definition is_retry (bld : build) (e : error) : bool :=
  match bld, e with Std, IoError Interrupted => true | _, _ => false end.

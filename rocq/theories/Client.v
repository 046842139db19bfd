(** URLs and the client: src/url.rs, src/client.rs. *)
From Verif Require Import Base Utf8 Case Num Io Types Message Outgoing.

(** What the crate uses of a [url::Url] (an external crate): [scheme()], [host_str()], [port()],
    [path()], [query()]. [known_port] models [Url::port_or_known_default]. *)
Record url := mkUrl {
  u_scheme : bytes; u_host : option bytes; u_port : option N; u_path : bytes; u_query : option bytes }.

(** url crate [port_or_known_default]: the explicit port, else the scheme's default. *)
Definition known_port (u : url) : option N :=
  match u_port u with
  | Some p => Some p
  | None =>
      if beqb (u_scheme u) (bs "http") || beqb (u_scheme u) (bs "ws") then Some 80%N
      else if beqb (u_scheme u) (bs "https") || beqb (u_scheme u) (bs "wss") then Some 443%N
      else if beqb (u_scheme u) (bs "ftp") then Some 21%N
      else None
  end.

(** src/url.rs 11-17. *)
Inductive scheme := Http | Https | File | OtherScheme (s : bytes).

(** src/url.rs 19-30 [Scheme::from_str]. *)
Definition parse_scheme (s : bytes) : scheme :=
  let l := to_lowercase s in
  if beqb l (bs "http") then Http
  else if beqb l (bs "https") then Https
  else if beqb l (bs "file") then File
  else OtherScheme l.

(** src/url.rs 32-41 [Display for Scheme]. *)
Definition show_scheme (s : scheme) : bytes :=
  match s with Http => bs "http" | Https => bs "https" | File => bs "file" | OtherScheme l => l end.

(** src/url.rs 43-48. *)
Record http_url := mkHttpUrl { hu_url : url; hu_scheme : scheme; hu_host : bytes }.

(** src/url.rs 71-89 [TryFrom<Url> for HttpUrl]; [host_str().unwrap()] may panic. *)
Definition http_url_of (u : url) : res http_url :=
  match parse_scheme (u_scheme u) with
  | Http | Https =>
      match u_host u with
      | Some h => Ok (mkHttpUrl u (parse_scheme (u_scheme u)) h)
      | None => Panic
      end
  | _ => Err UrlError
  end.

(** src/url.rs 51-54 [HttpUrl::port]. *)
Definition hu_port (h : http_url) : res N :=
  match known_port (hu_url h) with Some p => Ok p | None => Panic end.

(** src/client.rs 125-140 [HttpRequestBuilder::new] from a [Url]; the error of [try_into] becomes a
    ParseError (129-131). The constructors [get], [put], … (77-122) only fix the method. *)
Definition builder_new (u : url) (m : method) : res (request unit) :=
  match http_url_of u with
  | Ok h =>
      let r0 := request_new m (u_path (hu_url h)) in
      let r1 := request_add_header (bs "Host") (hu_host h) r0 in
      let r2 := request_add_header (bs "User-Agent") (bs "http_io") r1 in
      let r3 := request_add_header (bs "Accept") (bs "*/*") r2 in
      Ok (if has_body m then request_add_header (bs "Transfer-Encoding") (bs "chunked") r3 else r3)
  | Err _ => Err ParseError
  | Panic => Panic
  | Fuel => Fuel
  end.

(** src/client.rs 148-151 [HttpRequestBuilder::add_header]. *)
Definition builder_add_header (k v : bytes) (r : request unit) : request unit := request_add_header k v r.

Section Send.
  Context {S : Type} (bld : build) (cap : nat) (rd : reader S) (wt : writer S).

  (** src/client.rs 143-145 [HttpRequestBuilder::send]. *)
  Definition send (fuel : nat) (r : request unit) (s : S) : res (outgoing S) * S :=
    request_serialize bld cap wt fuel r (bufw_new s).

  (** src/client.rs 307-315: [send_request] after the stream is connected. [bufsz] is [io::copy]'s
      buffer size; [rdb] reads the caller's body. The socket is returned in every case (in the code
      it is owned by the returned body, or dropped). *)
  Definition exchange {Bd} (bufsz : nat) (rdb : reader Bd) (fuel : nat) (r : request unit) (body : Bd)
      (s : S) : res (hbody (bufr S)) * S :=
    dos o, _ <- send fuel r s;
    match copy bld rdb (outgoing_writer bld cap wt fuel) bufsz fuel body o with
    | (Ok _, (_, o1)) =>
        dos resp, s2 <- finish bld cap rd wt fuel o1;
        match rs_status resp with
        | OK => (Ok (rs_body resp), s2)
        | st => (Err (UnexpectedStatus st), s2)
        end
    | (Err e, (_, o1)) => (Err e, outgoing_drop bld wt fuel o1)
    | (Panic, (_, o1)) => (Panic, out_sock o1)
    | (Fuel, (_, o1)) => (Fuel, out_sock o1)
    end.
End Send.

(** src/client.rs 155-160 [StreamConnector]: connecting and address lookup act on the outside world
    [Wd]. *)
Record connector (Addr S Wd : Type) := mkConnector {
  c_connect : Addr -> Wd -> res S * Wd;
  c_addr : url -> Wd -> res Addr * Wd }.
Arguments mkConnector {Addr S Wd} c_connect c_addr.
Arguments c_connect {Addr S Wd} c.
Arguments c_addr {Addr S Wd} c.

Section Pool.
  Context {Addr S Wd : Type} (aeq : forall x y : Addr, {x = y} + {x <> y})
    (conn : connector Addr S Wd) (bld : build) (cap : nat) (rd : reader S) (wt : writer S).

  (** src/client.rs 251-253 [HttpClient]: [HashMap<StreamAddr, Stream>]. *)
  Definition pool := list (Addr * S).

  (** [HashMap::get], src/client.rs 266 and 270. *)
  Fixpoint pool_get (a : Addr) (p : pool) : option S :=
    match p with
    | [] => None
    | (a', s) :: t => if aeq a a' then Some s else pool_get a t
    end.

  (** Insertion of an absent key, or update through the [&mut] handed out for a present one. *)
  Fixpoint pool_set (a : Addr) (s : S) (p : pool) : pool :=
    match p with
    | [] => [(a, s)]
    | (a', s') :: t => if aeq a a' then (a, s) :: t else (a', s') :: pool_set a s t
    end.

  (** A stream that is used through the reference [get_stream] returns (src/client.rs 270, [get_mut]): its new state is
      stored if there is an entry for the address; no entry is made. *)
  Fixpoint pool_update (a : Addr) (s : S) (p : pool) : pool :=
    match p with
    | [] => []
    | (a', s') :: t => if aeq a a' then (a', s) :: t else (a', s') :: pool_update a s t
    end.

  (** src/client.rs 264-271 [get_stream]. *)
  Definition get_stream (u : url) (p : pool) (w : Wd) : res (Addr * S) * (pool * Wd) :=
    match c_addr conn u w with
    | (Ok a, w1) =>
        match pool_get a p with
        | Some s => (Ok (a, s), (p, w1))
        | None =>
            match c_connect conn a w1 with
            | (Ok s, w2) => (Ok (a, s), (pool_set a s p, w2))
            | (Err e, w2) => (Err e, (p, w2))
            | (Panic, w2) => (Panic, (p, w2))
            | (Fuel, w2) => (Fuel, (p, w2))
            end
        end
    | (Err e, w1) => (Err e, (p, w1))
    | (Panic, w1) => (Panic, (p, w1))
    | (Fuel, w1) => (Fuel, (p, w1))
    end.

  (** src/client.rs 275-295 [HttpClient::get], [HttpClient::put] for a [Url]. The outgoing request
      borrows the pooled stream: its address is returned so that [pool_update] can store the stream's
      later states. *)
  Definition client_start (m : method) (fuel : nat) (u : url) (p : pool) (w : Wd)
    : res (Addr * outgoing S) * (pool * Wd) :=
    match builder_new u m with
    | Ok r =>
        match get_stream u p w with
        | (Ok (a, s), (p1, w1)) =>
            match send bld cap wt fuel r s with
            | (Ok o, s1) => (Ok (a, o), (pool_update a s1 p1, w1))
            | (Err e, s1) => (Err e, (pool_update a s1 p1, w1))
            | (Panic, s1) => (Panic, (pool_update a s1 p1, w1))
            | (Fuel, s1) => (Fuel, (pool_update a s1 p1, w1))
            end
        | (Err e, pw) => (Err e, pw)
        | (Panic, pw) => (Panic, pw)
        | (Fuel, pw) => (Fuel, pw)
        end
    | Err e => (Err e, (p, w))
    | Panic => (Panic, (p, w))
    | Fuel => (Fuel, (p, w))
    end.
End Pool.

(** src/client.rs 162-190 [StreamEither]: forwards to whichever stream it holds. *)
Definition either_read {A B} (ra : reader A) (rb : reader B) : reader (A + B) := fun n s =>
  match s with
  | inl a => let (r, a') := ra n a in (r, inl a')
  | inr b => let (r, b') := rb n b in (r, inr b')
  end.
(** src/client.rs 176-190. *)
Definition either_writer {A B} (wa : writer A) (wb : writer B) : writer (A + B) :=
  mkWriter
    (fun d s => match s with
                | inl a => let (r, a') := wr wa d a in (r, inl a')
                | inr b => let (r, b') := wr wb d b in (r, inr b')
                end)
    (fun s => match s with
              | inl a => let (r, a') := fl wa a in (r, inl a')
              | inr b => let (r, b') := fl wb b in (r, inr b')
              end).

(** src/client.rs 192-197 [StreamId]. *)
Record stream_id (Addr : Type) := mkStreamId { si_addr : Addr; si_host : bytes; si_secure : bool }.
Arguments mkStreamId {Addr} si_addr si_host si_secure.
Arguments si_addr {Addr} s.
Arguments si_host {Addr} s.
Arguments si_secure {Addr} s.

Section TcpConnector.
  (** The operating system and the TLS library: TCP connect, name lookup (the list of addresses or
      a failure), TLS handshake for a host name on a connected stream. *)
  Context {Addr Tcp Tls Wd : Type}
    (tcp_connect : Addr -> Wd -> res Tcp * Wd)
    (resolve : bytes -> N -> Wd -> res (list Addr) * Wd)
    (tls_new : bytes -> Tcp -> Wd -> res Tls * Wd).

  (** src/client.rs 228-247 [to_stream_addr]. *)
  Definition tcp_stream_addr (u : url) (w : Wd) : res (stream_id Addr) * Wd :=
    match http_url_of u with
    | Ok h =>
        match hu_port h with
        | Ok port =>
            match resolve (hu_host h) port w with
            | (Ok (a :: _), w1) =>
                (Ok (mkStreamId a (hu_host h)
                       (match hu_scheme h with Https => true | _ => false end)), w1)
            | (Ok [], w1) => (Err (IoError KAddrNotAvailable), w1)
            | (Err _, w1) => (Err (IoError KAddrNotAvailable), w1)
            | (Panic, w1) => (Panic, w1)
            | (Fuel, w1) => (Fuel, w1)
            end
        | Err e => (Err e, w) | Panic => (Panic, w) | Fuel => (Fuel, w)
        end
    | Err e => (Err e, w) | Panic => (Panic, w) | Fuel => (Fuel, w)
    end.

  (** src/client.rs 216-226 [connect] with feature "ssl". *)
  Definition connect_ssl (id : stream_id Addr) (w : Wd) : res (Tcp + Tls) * Wd :=
    dos s, w1 <- tcp_connect (si_addr id) w;
    if si_secure id then
      dos t, w2 <- tls_new (si_host id) s w1; (Ok (inr t), w2)
    else (Ok (inl s), w1).

  (** src/client.rs 211-214 [connect] without feature "ssl". *)
  Definition connect_plain (id : stream_id Addr) (w : Wd) : res Tcp * Wd :=
    tcp_connect (si_addr id) w.

  (** src/client.rs 207-248 [impl StreamConnector for TcpStream], with and without feature "ssl". *)
  Definition ssl_connector : connector (stream_id Addr) (Tcp + Tls) Wd :=
    mkConnector connect_ssl tcp_stream_addr.
  (** The connector without feature "ssl", src/client.rs 207-214, 228-248. *)
  Definition plain_connector : connector (stream_id Addr) Tcp Wd :=
    mkConnector connect_plain tcp_stream_addr.
End TcpConnector.

Section TopLevel.
  Context {Addr S Wd : Type} (conn : connector Addr S Wd)
    (cap : nat) (rd : reader S) (wt : writer S).

  (** src/client.rs 298-316 [send_request], std build. *)
  Definition send_request {Bd} (bufsz : nat) (rdb : reader Bd) (fuel : nat) (r : request unit)
      (u : url) (body : Bd) (w : Wd) : res (hbody (bufr S)) * Wd :=
    dos a, w1 <- c_addr conn u w;
    dos s, w2 <- c_connect conn a w1;
    (fst (exchange Std cap rd wt bufsz rdb fuel r body s), w2).

  (** src/client.rs 330-339 [get]. *)
  Definition client_get (fuel : nat) (u : url) (w : Wd) : res (hbody (bufr S)) * Wd :=
    match builder_new u Get with
    | Ok r => send_request default_buf_size empty_read fuel r u tt w
    | Err e => (Err e, w) | Panic => (Panic, w) | Fuel => (Fuel, w)
    end.

  (** src/client.rs 410-419 [put]. *)
  Definition client_put {Bd} (rdb : reader Bd) (fuel : nat) (u : url) (body : Bd) (w : Wd)
    : res (hbody (bufr S)) * Wd :=
    match builder_new u Put with
    | Ok r => send_request default_buf_size rdb fuel r u body w
    | Err e => (Err e, w) | Panic => (Panic, w) | Fuel => (Fuel, w)
    end.
End TopLevel.

(** The server: src/server.rs. *)
From Verif Require Import Base Io Types Message Outgoing.

(** [Box<dyn io::Read>]: an object whose only operation is [read]. *)
CoInductive dynread := DR (step : nat -> res bytes * dynread).

(** [read] of a boxed reader. *)
Definition dyn_read : reader dynread := fun n d => match d with DR f => f n end.

(** Boxing a reader. *)
CoFixpoint dyn_of {T} (rd : reader T) (t : T) : dynread :=
  DR (fun n => match rd n t with (r, t') => (r, dyn_of rd t') end).

(** [HttpResponse<Box<dyn io::Read>>], src/server.rs 79. *)
Definition dyn_response := response (hbody (bufr dynread)).

(** src/protocol.rs 1571-1575 [HttpResponse::from_string]. *)
Definition from_string (st : status) (s : bytes) : dyn_response :=
  response_new st (dyn_of cursor_read (s, 0%N)).

(** What a PUT/POST handler does with the body it is given: [read] with a buffer of [n] bytes,
    [content_length], and finally a result. Coinductive, so that handlers may loop on the body.
    Simplification: a handler that takes the [HttpBody] enum apart to get at the raw stream is not
    modelled. *)
Inductive outcome := Got (data : bytes) | Failed (e : error).
(** The body argument of [put]/[post], src/server.rs 151-171, as seen by the handler. *)
CoInductive prog (A : Type) :=
| Ret (a : A)
| ReadBody (n : nat) (k : outcome -> prog A)
| BodyLength (k : option N -> prog A).
Arguments Ret {A} a.
Arguments ReadBody {A} n k.
Arguments BodyLength {A} k.

(** src/server.rs 108-182 [HttpRequestHandler] with state [H]. The result of a handler method is a
    response on both sides: [Self::Error: Into<HttpResponse>] (109) is applied at line 234.
    [inl] is Ok, [inr] the converted error; [Panic] in [res] is a panicking handler.
    Simplification: the response body may borrow the handler (lifetime ['a]); a body whose [read]
    changes the handler's state is modelled in Lent.v only. *)
Definition hresult := res (dyn_response + dyn_response)%type.
(** src/server.rs 108-182 [HttpRequestHandler]. *)
Record handler (H : Type) := mkHandler {
  h_delete : bytes -> H -> hresult * H;
  h_get : bytes -> H -> hresult * H;
  h_head : bytes -> H -> hresult * H;
  h_options : bytes -> H -> hresult * H;
  h_trace : bytes -> H -> hresult * H;
  h_put : bytes -> H -> prog (hresult * H);
  h_post : bytes -> H -> prog (hresult * H) }.
Arguments mkHandler {H} h_delete h_get h_head h_options h_trace h_put h_post.
Arguments h_delete {H} h. Arguments h_get {H} h. Arguments h_head {H} h.
Arguments h_options {H} h. Arguments h_trace {H} h. Arguments h_put {H} h. Arguments h_post {H} h.

(** src/server.rs 111-181: the default methods (note the text of [post]). *)
Definition default_handler {H : Type} : handler H :=
  let no (t : bytes) := fun (_ : bytes) (h : H) => (Ok (inl (from_string MethodNotAllowed t)), h) in
  let nob (t : bytes) := fun (_ : bytes) (h : H) =>
    Ret (Ok (inl (from_string MethodNotAllowed t)), h) in
  mkHandler (no (bs "DELETE not allowed")) (no (bs "GET not allowed")) (no (bs "HEAD not allowed"))
    (no (bs "OPTIONS not allowed")) (no (bs "TRACE not allowed"))
    (nob (bs "PUT not allowed")) (nob (bs "PUT not allowed")).

Section Server.
  Context {S H : Type} (bld : build) (cap : nat) (rd : reader S) (wt : writer S).

  (** Running a handler program on a body; [Fuel] when the step bound is reached. A panic in the
      body's [read] unwinds through the handler. *)
  Fixpoint run_prog {A T} (rdt : reader T) (bfuel fuel : nat) (p : prog A) (b : hbody T)
    : res A * hbody T :=
    match fuel with
    | O => (Fuel, b)
    | Datatypes.S f =>
        match p with
        | Ret a => (Ok a, b)
        | ReadBody n k =>
            match body_read bld rdt bfuel n b with
            | (Ok data, b') => run_prog rdt bfuel f (k (Got data)) b'
            | (Err e, b') => run_prog rdt bfuel f (k (Failed e)) b'
            | (Panic, b') => (Panic, b')
            | (Fuel, b') => (Fuel, b')
            end
        | BodyLength k => run_prog rdt bfuel f (k (body_content_length b)) b
        end
    end.

  (** The text of an error, [e.to_string()] (src/server.rs 87): it includes message details that
      [error] leaves out, so it is an arbitrary function of the error and the stream. *)
  Context (etext : error -> S -> bytes).

  (** src/server.rs 81-90 [From<Error> for HttpResponse]. *)
  Definition error_response (e : error) (s : S) : dyn_response :=
    match e with
    | LengthRequired => from_string StLengthRequired (bs "length required")
    | _ => from_string InternalServerError (etext e s)
    end.

  (** Which handler method was invoked, with which uri and whether it got a body; recorded for the
      theorems only. *)
  Inductive call := Called (m : method) (uri : bytes).

  (** src/server.rs 220-223, 232: a method without a body argument; the request (and so the BufReader
      with what it has buffered) is dropped. *)
  Definition plain_call (m : method) (uri : bytes) (x : hresult * H) (s : S)
    : hresult * list call * H * S :=
    (fst x, [Called m uri], snd x, s).

  (** src/server.rs 224-231: [require_length()?], then the method with the body. An error of
      [require_length] is turned into a response by [From<Error>] (81-90). *)
  Definition body_call (m : method) (uri : bytes) (p : prog (hresult * H)) (b : hbody (bufr S))
      (hs : H) (fuel : nat) (s0 : S) : hresult * list call * H * S :=
    match require_length b with
    | Ok _ =>
        match run_prog (bufr_read bld cap rd) fuel fuel p b with
        | (Ok (r, hs'), b') => (r, [Called m uri], hs', br_inner (body_reader b'))
        | (Err e, b') => (Err e, [Called m uri], hs, br_inner (body_reader b'))
        | (Panic, b') => (Panic, [Called m uri], hs, br_inner (body_reader b'))
        | (Fuel, b') => (Fuel, [Called m uri], hs, br_inner (body_reader b'))
        end
    | Err e => (Ok (inr (error_response e s0)), [], hs, br_inner (body_reader b))
    | Panic => (Panic, [], hs, br_inner (body_reader b))
    | Fuel => (Fuel, [], hs, br_inner (body_reader b))
    end.

  (** src/server.rs 213-235 [serve_one_inner]: the response (either side), the handler calls made,
      the handler state, the stream. *)
  Definition serve_one_inner (h : handler H) (fuel : nat) (hs : H) (s : S)
    : hresult * list call * H * S :=
    match request_deserialize bld (bufr_read bld cap rd) fuel (bufr_new s) with
    | (Ok rq, t) =>
        let uri := rq_uri rq in
        match rq_method rq with
        | Delete => plain_call Delete uri (h_delete h uri hs) (br_inner t)
        | Get => plain_call Get uri (h_get h uri hs) (br_inner t)
        | Head => plain_call Head uri (h_head h uri hs) (br_inner t)
        | Options => plain_call Options uri (h_options h uri hs) (br_inner t)
        | Post => body_call Post uri (h_post h uri hs) (rq_body rq) hs fuel s
        | Put => body_call Put uri (h_put h uri hs) (rq_body rq) hs fuel s
        | Trace => plain_call Trace uri (h_trace h uri hs) (br_inner t)
        end
    | (Err e, t) => (Ok (inr (error_response e s)), [], hs, br_inner t)
    | (Panic, t) => (Panic, [], hs, br_inner t)
    | (Fuel, t) => (Fuel, [], hs, br_inner t)
    end.

  (** src/server.rs 206-209: writing the response. [bufsz] is the buffer size of [io::copy]. *)
  Definition respond (bufsz fuel : nat) (r : dyn_response) (s : S) : res unit * S :=
    match write_pieces bld wt fuel (response_pieces r) s with
    | (Ok _, s1) =>
        match copy bld (body_read bld (bufr_read bld cap dyn_read) fuel) wt bufsz fuel (rs_body r) s1 with
        | (Ok _, (_, s2)) => (Ok tt, s2)
        | (Err e, (_, s2)) => (Err e, s2)
        | (Panic, (_, s2)) => (Panic, s2)
        | (Fuel, (_, s2)) => (Fuel, s2)
        end
    | (Err e, s1) => (Err (to_io bld e), s1)
    | (Panic, s1) => (Panic, s1)
    | (Fuel, s1) => (Fuel, s1)
    end.

  (** src/server.rs 199-210 [serve_one] on an accepted stream. *)
  Definition serve_stream (h : handler H) (bufsz fuel : nat) (hs : H) (s : S)
    : res unit * list call * H * S :=
    match serve_one_inner h fuel hs s with
    | (Ok (inl r), cs, hs1, s1) => let (x, s2) := respond bufsz fuel r s1 in (x, cs, hs1, s2)
    | (Ok (inr r), cs, hs1, s1) => let (x, s2) := respond bufsz fuel r s1 in (x, cs, hs1, s2)
    | (Err e, cs, hs1, s1) => (Err e, cs, hs1, s1)
    | (Panic, cs, hs1, s1) => (Panic, cs, hs1, s1)
    | (Fuel, cs, hs1, s1) => (Fuel, cs, hs1, s1)
    end.

  (** src/server.rs 199-210 [serve_one]; [acc] is the result of [accept()] (93-105). The stream, if
      any, is dropped (closed) at the end; its final state is returned. *)
  Definition serve_one (h : handler H) (bufsz fuel : nat) (hs : H) (acc : res S)
    : res unit * list call * H * option S :=
    match acc with
    | Ok s =>
        let '(x, cs, hs1, s1) := serve_stream h bufsz fuel hs s in (x, cs, hs1, Some s1)
    | Err e => (Err (to_io bld e), [], hs, None)
    | Panic => (Panic, [], hs, None)
    | Fuel => (Fuel, [], hs, None)
    end.

  (** src/server.rs 237-247 [serve_forever] over the first connections of the listener: errors are
      printed and ignored; a panic unwinds out of the loop. [true] means the loop is still running
      after the given accepts. *)
  Fixpoint serve_forever (h : handler H) (bufsz fuel : nat) (hs : H) (accs : list (res S))
    : bool * list call * H * list (option S) :=
    match accs with
    | [] => (true, [], hs, [])
    | acc :: rest =>
        match serve_one h bufsz fuel hs acc with
        | (Ok _, cs, hs1, s1) =>
            let '(alive, cs2, hs2, ss) := serve_forever h bufsz fuel hs1 rest in
            (alive, cs ++ cs2, hs2, s1 :: ss)
        | (Err _, cs, hs1, s1) =>
            let '(alive, cs2, hs2, ss) := serve_forever h bufsz fuel hs1 rest in
            (alive, cs ++ cs2, hs2, s1 :: ss)
        | (_, cs, hs1, s1) => (false, cs, hs1, [s1])
        end
    end.
End Server.

(** Handlers whose answer borrows them: the [Box<dyn io::Read + 'a>] of src/server.rs 111-181, with [&'a mut self]. In
    Server.v a body has a state of its own; here each read of the body may look at the handler's state and change it. *)
From Verif Require Import Base Io Types Message Outgoing Server.

(** [Box<dyn io::Read + 'a>] where ['a] is the borrow of the handler: a read works on the handler's state, src/server.rs 111-181. *)
CoInductive lent (H : Type) := LR (step : nat -> H -> res bytes * lent H * H).
Arguments LR {H} step.

(** [read] of such a box, together with the handler it borrows. *)
Definition lent_read {H} : reader (lent H * H) := fun n st =>
  match fst st with LR f => match f n (snd st) with (r, l, h) => (r, (l, h)) end end.

(** [HttpResponse<Box<dyn io::Read + 'a>>], src/server.rs 114. *)
Definition lent_response (H : Type) := response (hbody (bufr (lent H))).
(** What a method returns: an answer that may borrow the handler, or an error, which is turned into an answer that does not
    ([Self::Error: Into<HttpResponse<Box<dyn io::Read>>>], src/server.rs 109). *)
Definition lent_result (H : Type) := res (lent_response H + dyn_response)%type.
(** src/server.rs 108-182 [HttpRequestHandler]; as in Server.v the handler's state is returned beside the result. If the
    answer borrows the handler this is the state at the beginning of the borrow. *)
Record lender (H : Type) := mkLender {
  l_delete : bytes -> H -> lent_result H * H;
  l_get : bytes -> H -> lent_result H * H;
  l_head : bytes -> H -> lent_result H * H;
  l_options : bytes -> H -> lent_result H * H;
  l_trace : bytes -> H -> lent_result H * H;
  l_put : bytes -> H -> prog (lent_result H * H);
  l_post : bytes -> H -> prog (lent_result H * H) }.
Arguments mkLender {H} l_delete l_get l_head l_options l_trace l_put l_post.
Arguments l_delete {H} l. Arguments l_get {H} l. Arguments l_head {H} l.
Arguments l_options {H} l. Arguments l_trace {H} l. Arguments l_put {H} l. Arguments l_post {H} l.

(** The same [HttpBody] (src/protocol.rs 138-142) on another reader. *)
Definition hbody_map {A B} (f : A -> B) (b : hbody A) : hbody B :=
  match b with
  | BChunked len (CStream t) => BChunked len (CStream (f t))
  | BChunked len (CChunk n t) => BChunked len (CChunk n (f t))
  | BChunked len (CDone t) => BChunked len (CDone (f t))
  | BLimited n t => BLimited n (f t)
  | BTilClose t => BTilClose (f t)
  end.
(** The body of an answer, with the handler it borrows. *)
Definition borrow {H A} (h : H) (b : hbody (bufr A)) : hbody (bufr (A * H)) :=
  hbody_map (fun r => mkBufr (br_inner r, h) (br_buf r)) b.
(** The handler's state when the borrow ends. *)
Definition given_back {H A} (b : hbody (bufr (A * H))) : H := snd (br_inner (body_reader b)).

Section Lender.
  Context {S H : Type} (bld : build) (cap : nat) (rd : reader S) (wt : writer S) (etext : error -> S -> bytes).

  (** src/server.rs 206-209 for an answer with any kind of body: the head is written, then the body is copied. The result has
      the state of the body as well. *)
  Definition respond_with {D B0} (rdb : reader D) (bufsz fuel : nat) (r : response B0) (b : hbody (bufr D)) (s : S)
    : res unit * hbody (bufr D) * S :=
    match write_pieces bld wt fuel (response_pieces r) s with
    | (Ok _, s1) =>
        match copy bld (body_read bld (bufr_read bld cap rdb) fuel) wt bufsz fuel b s1 with
        | (Ok _, (b', s2)) => (Ok tt, b', s2)
        | (Err e, (b', s2)) => (Err e, b', s2)
        | (Panic, (b', s2)) => (Panic, b', s2)
        | (Fuel, (b', s2)) => (Fuel, b', s2)
        end
    | (Err e, s1) => (Err (to_io bld e), b, s1)
    | (Panic, s1) => (Panic, b, s1)
    | (Fuel, s1) => (Fuel, b, s1)
    end.

  (** src/server.rs 213-235 [serve_one_inner] for such a handler: the answer, the handler's state, the stream. *)
  Definition lent_inner (h : lender H) (fuel : nat) (hs : H) (s : S) : lent_result H * H * S :=
    match request_deserialize bld (bufr_read bld cap rd) fuel (bufr_new s) with
    | (Ok rq, t) =>
        let with_body p :=
          match require_length (rq_body rq) with
          | Ok _ =>
              match run_prog bld (bufr_read bld cap rd) fuel fuel p (rq_body rq) with
              | (Ok (r, hs'), b') => (r, hs', br_inner (body_reader b'))
              | (Err e, b') => (Err e, hs, br_inner (body_reader b'))
              | (Panic, b') => (Panic, hs, br_inner (body_reader b'))
              | (Fuel, b') => (Fuel, hs, br_inner (body_reader b'))
              end
          | Err e => (Ok (inr (error_response etext e s)), hs, br_inner (body_reader (rq_body rq)))
          | Panic => (Panic, hs, br_inner (body_reader (rq_body rq)))
          | Fuel => (Fuel, hs, br_inner (body_reader (rq_body rq)))
          end in
        match rq_method rq with
        | Delete => (l_delete h (rq_uri rq) hs, br_inner t)
        | Get => (l_get h (rq_uri rq) hs, br_inner t)
        | Head => (l_head h (rq_uri rq) hs, br_inner t)
        | Options => (l_options h (rq_uri rq) hs, br_inner t)
        | Post => with_body (l_post h (rq_uri rq) hs)
        | Put => with_body (l_put h (rq_uri rq) hs)
        | Trace => (l_trace h (rq_uri rq) hs, br_inner t)
        end
    | (Err e, t) => (Ok (inr (error_response etext e s)), hs, br_inner t)
    | (Panic, t) => (Panic, hs, br_inner t)
    | (Fuel, t) => (Fuel, hs, br_inner t)
    end.

  (** src/server.rs 199-210 [serve_one] on an accepted stream: the body is read while the handler is borrowed. *)
  Definition lent_stream (h : lender H) (bufsz fuel : nat) (hs : H) (s : S) : res unit * H * S :=
    match lent_inner h fuel hs s with
    | (Ok (inl r), hs1, s1) =>
        let '(x, b', s2) := respond_with lent_read bufsz fuel r (borrow hs1 (rs_body r)) s1 in (x, given_back b', s2)
    | (Ok (inr r), hs1, s1) => let '(x, _, s2) := respond_with dyn_read bufsz fuel r (rs_body r) s1 in (x, hs1, s2)
    | (Err e, hs1, s1) => (Err e, hs1, s1)
    | (Panic, hs1, s1) => (Panic, hs1, s1)
    | (Fuel, hs1, s1) => (Fuel, hs1, s1)
    end.

  (** src/server.rs 237-247 [serve_forever], over the first connections; see [Server.serve_forever]. *)
  Fixpoint lent_forever (h : lender H) (bufsz fuel : nat) (hs : H) (accs : list (res S)) : bool * H * list (option S) :=
    match accs with
    | [] => (true, hs, [])
    | Ok s :: rest =>
        match lent_stream h bufsz fuel hs s with
        | (Ok _, hs1, s1) | (Err _, hs1, s1) =>
            let '(alive, hs2, ss) := lent_forever h bufsz fuel hs1 rest in (alive, hs2, Some s1 :: ss)
        | (_, hs1, s1) => (false, hs1, [Some s1])
        end
    | Err _ :: rest => let '(alive, hs2, ss) := lent_forever h bufsz fuel hs rest in (alive, hs2, None :: ss)
    | _ :: _ => (false, hs, [None])
    end.
End Lender.

(** A handler of Server.v as a lender: its answers own their bodies (src/server.rs 108-182). *)
CoFixpoint own {H} (d : dynread) : lent H :=
  LR (fun n h => match dyn_read n d with (r, d') => (r, own d', h) end).
(** The answer of such a handler. *)
Definition own_result {H} (x : hresult) : lent_result H :=
  match x with
  | Ok (inl r) => Ok (inl (mkResponse (rs_version r) (rs_status r) (rs_headers r)
                            (hbody_map (fun t => mkBufr (own (br_inner t)) (br_buf t)) (rs_body r))))
  | Ok (inr r) => Ok (inr r)
  | Err e => Err e
  | Panic => Panic
  | Fuel => Fuel
  end.
(** The program of such a handler, src/server.rs 151-171. *)
CoFixpoint own_prog {H} (p : prog (hresult * H)) : prog (lent_result H * H) :=
  match p with
  | Ret (x, h) => Ret (own_result x, h)
  | ReadBody n k => ReadBody n (fun o => own_prog (k o))
  | BodyLength k => BodyLength (fun o => own_prog (k o))
  end.
(** The handler as a whole. *)
Definition owner {H} (h : handler H) : lender H :=
  let plain f := fun u hs => (own_result (fst (f u hs)), snd (f u hs)) in
  mkLender (plain (h_delete h)) (plain (h_get h)) (plain (h_head h)) (plain (h_options h)) (plain (h_trace h))
    (fun u hs => own_prog (h_put h u hs)) (fun u hs => own_prog (h_post h u hs)).

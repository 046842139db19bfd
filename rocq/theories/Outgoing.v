(** Outgoing requests: src/protocol.rs 1758-1857 and 1889-1903. A socket is a state type [S] with a
    reader and a writer; the BufWriter around it is [bufw S]. *)
From Verif Require Import Base Num Io Types Message.

(** src/protocol.rs 1758-1775 [HttpRequest::new]; the (empty) body plays no role when serializing
    and is left out ([unit]). *)
Definition request_new (m : method) (uri : bytes) : request unit :=
  mkRequest m (match uri with [] => bs "/" | _ => uri end) v11 headers_new tt.

(** src/protocol.rs 1860-1862 [HttpRequest::add_header]. *)
Definition request_add_header {B} (k v : bytes) (r : request B) : request B :=
  mkRequest (rq_method r) (rq_uri r) (rq_version r) (headers_insert k v (rq_headers r)) (rq_body r).

(** src/protocol.rs 1577-1586 [HttpResponse::new]: [body] is what the BufReader is built on. *)
Definition response_new {B} (st : status) (body : B) : response (hbody (bufr B)) :=
  mkResponse v11 st headers_new (BTilClose (bufr_new body)).

(** src/protocol.rs 1616-1618 [HttpResponse::add_header]. *)
Definition response_add_header {B} (k v : bytes) (r : response B) : response B :=
  mkResponse (rs_version r) (rs_status r) (headers_insert k v (rs_headers r)) (rs_body r).

(** src/protocol.rs 1777-1780 [OutgoingRequest], 1824-1826 [OutgoingBody]. *)
Inductive outgoing (S : Type) :=
| ONoBody (s : S)
| OWithBody (b : bufw S).
Arguments ONoBody {S} s.
Arguments OWithBody {S} b.

(** The socket below an outgoing request (not counting buffered bytes). *)
Definition out_sock {S} (o : outgoing S) : S :=
  match o with ONoBody s => s | OWithBody b => bw_inner b end.

Section Outgoing.
  Context {S : Type} (bld : build) (cap : nat) (rd : reader S) (wt : writer S).

  (** A function that owns a BufWriter and returns an error drops it, which in std flushes it.
      After a panic in the inner writer std does not flush. *)
  Definition fail_drop {A} (fuel : nat) (r : res unit) (b : bufw S) : res A * S :=
    match r with
    | Err e => (Err e, bufw_drop bld wt fuel b)
    | Fuel => (Fuel, bw_inner b)
    | _ => (Panic, bw_inner b)
    end.

  (** src/protocol.rs 1890-1902 [HttpRequest::serialize]; the second component is the socket also
      when an error is returned. *)
  Definition request_serialize {B} (fuel : nat) (r : request B) (b : bufw S) : res (outgoing S) * S :=
    match bufw_pieces bld cap wt fuel (request_pieces r) b with
    | (Ok _, b1) =>
        if has_body (rq_method r) then (Ok (OWithBody b1), bw_inner b1)
        else
          match bufw_into_inner bld wt fuel b1 with
          | (Ok _, b2) => (Ok (ONoBody (bw_inner b2)), bw_inner b2)
          | (e, b2) => fail_drop fuel e b2
          end
    | (e, b1) => fail_drop fuel e b1
    end.

  (** src/protocol.rs 1828-1838 [OutgoingBody::write]. *)
  Definition outbody_write (fuel : nat) (data : bytes) (b : bufw S) : res nat * bufw S :=
    match data with
    | [] => (Ok 0, b)
    | _ =>
        dos _, b1 <- bufw_pieces bld cap wt fuel [show_hex (N.of_nat (length data)); CRLF] b;
        dos _, b2 <- bufw_write_all bld cap wt fuel data b1;
        dos _, b3 <- bufw_pieces bld cap wt fuel [CRLF] b2;
        (Ok (length data), b3)
    end.

  (** src/protocol.rs 1803-1814 [OutgoingRequest::write]. *)
  Definition outgoing_write (fuel : nat) (data : bytes) (o : outgoing S) : res nat * outgoing S :=
    match o with
    | ONoBody s => (Err (match bld with Std => IoError KInvalidInput | NoStd => EOther end), o)
    | OWithBody b => let (r, b') := outbody_write fuel data b in (r, OWithBody b')
    end.

  (** src/protocol.rs 1816-1821 [OutgoingRequest::flush], 1840-1842 [OutgoingBody::flush]. *)
  Definition outgoing_flush (fuel : nat) (o : outgoing S) : res unit * outgoing S :=
    match o with
    | ONoBody s => (Ok tt, o)
    | OWithBody b => let (r, b') := bufw_flush bld wt fuel b in (r, OWithBody b')
    end.

  (** [io::Write for OutgoingRequest], src/protocol.rs 1802-1822. *)
  Definition outgoing_writer (fuel : nat) : writer (outgoing S) :=
    mkWriter (outgoing_write fuel) (outgoing_flush fuel).

  (** The sending half of src/protocol.rs 1850-1854 [OutgoingBody::finish] and 1793-1794: everything
      up to the point where the response is read. *)
  Definition finish_send (fuel : nat) (o : outgoing S) : res unit * S :=
    match o with
    | ONoBody s => fl wt s
    | OWithBody b =>
        match bufw_pieces bld cap wt fuel [bs "0" ++ CRLF ++ CRLF] b with
        | (Ok _, b1) =>
            match bufw_flush bld wt fuel b1 with
            | (Ok _, b2) =>
                match bufw_into_inner bld wt fuel b2 with
                | (Ok _, b3) => (Ok tt, bw_inner b3)
                | (e, b3) => fail_drop fuel e b3
                end
            | (e, b2) => fail_drop fuel e b2
            end
        | (e, b1) => fail_drop fuel e b1
        end
    end.

  (** src/protocol.rs 1791-1799 [OutgoingRequest::finish], 1850-1856 [OutgoingBody::finish]. *)
  Definition finish (fuel : nat) (o : outgoing S) : res (response (hbody (bufr S))) * S :=
    dos _, s1 <- finish_send fuel o;
    response_deserialize bld rd fuel s1.

  (** Dropping an [OutgoingRequest] without finishing it. *)
  Definition outgoing_drop (fuel : nat) (o : outgoing S) : S :=
    match o with
    | ONoBody s => s
    | OWithBody b => bufw_drop bld wt fuel b
    end.
End Outgoing.

(** A caller that makes several requests with one [HttpClient]. *)
From Verif Require Import Base Io Types Message Outgoing Client Server OutLemmas Net.

Section Rest.
  Context {S : Type} (bld : build) (cap : nat) (rd : reader S) (wt : writer S).

  (** What the caller does with the [OutgoingRequest] that [HttpClient::get] or [HttpClient::put] returns
      (examples/connection_reuse.rs 20): any sequence of writes and flushes, stopping at the first error,
      [finish] (src/protocol.rs 1791-1799, 1850-1856), and then with the body of the response what [p] says. *)
  Definition request_rest {A} (fuel : nat) (ops : list op) (p : status -> headers -> prog A) (o : outgoing S)
    : res (status * headers * A) * S :=
    match run_ops bld cap wt fuel ops o with
    | (Ok _, ob) =>
        match finish bld cap rd wt fuel ob with
        | (Ok resp, _) =>
            let (x, b) := run_prog bld (bufr_read bld cap rd) fuel fuel (p (rs_status resp) (rs_headers resp)) (rs_body resp) in
            (do a <- x; Ok (rs_status resp, rs_headers resp, a), br_inner (body_reader b))
        | (Err e, s1) => (Err e, s1)
        | (Panic, s1) => (Panic, s1)
        | (Fuel, s1) => (Fuel, s1)
        end
    | (Err e, ob) => (Err e, outgoing_drop bld wt fuel ob)
    | (Panic, ob) => (Panic, out_sock ob)
    | (Fuel, ob) => (Fuel, out_sock ob)
    end.

  (** One request after the other on the same stream, stopping at the first error: the loop of
      examples/connection_reuse.rs 17-21 on the stream the pool hands out. *)
  Fixpoint session {A} (fuel : nat) (l : list (request unit * list op * (status -> headers -> prog A))) (s : S)
    : res (list (status * headers * A)) * S :=
    match l with
    | [] => (Ok [], s)
    | (r, ops, p) :: t =>
        dos x, s1 <- client_run bld cap rd wt fuel r ops p s;
        dos xs, s2 <- session fuel t s1;
        (Ok (x :: xs), s2)
    end.
End Rest.

Section Pooled.
  Context {Addr S Wd : Type} (aeq : forall x y : Addr, {x = y} + {x <> y})
    (conn : connector Addr S Wd) (bld : build) (cap : nat) (rd : reader S) (wt : writer S).

  (** The loop of examples/connection_reuse.rs 17-21 with any methods, URLs and callers: [HttpClient::get] or [put]
      (src/client.rs 275-295), then [request_rest]; the pooled stream (src/client.rs 251-253) is borrowed meanwhile and
      keeps its new state. *)
  Fixpoint pooled {A} (fuel : nat) (l : list (method * url * list op * (status -> headers -> prog A))) (pl : pool) (w : Wd)
    : res (list (status * headers * A)) * (@pool Addr S * Wd) :=
    match l with
    | [] => (Ok [], (pl, w))
    | (m, u, ops, p) :: t =>
        match client_start aeq conn bld cap wt m fuel u pl w with
        | (Ok (a, o), (pl1, w1)) =>
            match request_rest bld cap rd wt fuel ops p o with
            | (Ok x, s) => dos xs, pw <- pooled fuel t (pool_update aeq a s pl1) w1; (Ok (x :: xs), pw)
            | (Err e, s) => (Err e, (pool_update aeq a s pl1, w1))
            | (Panic, s) => (Panic, (pool_update aeq a s pl1, w1))
            | (Fuel, s) => (Fuel, (pool_update aeq a s pl1, w1))
            end
        | (Err e, pw) => (Err e, pw)
        | (Panic, pw) => (Panic, pw)
        | (Fuel, pw) => (Fuel, pw)
        end
    end.
End Pooled.

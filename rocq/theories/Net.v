(** A client and a server that run at the same time, connected by two bounded byte queues. *)
From Verif Require Import Base Io Types Message Outgoing Client Server OutLemmas.

(** ** The two programs *)
Section Programs.
  Context {S : Type} (bld : build) (cap : nat) (rd : reader S) (wt : writer S).

  (** A caller of the client that sends a request: [HttpRequestBuilder::send] (src/client.rs 143-145), any sequence
      of writes and flushes on the [OutgoingRequest], stopping at the first error, and the sending half of [finish]
      (src/protocol.rs 1791-1799, 1850-1856). After an error the outgoing request is dropped. *)
  Definition client_send (fuel : nat) (r : request unit) (ops : list op) (s : S) : res unit * S :=
    match send bld cap wt fuel r s with
    | (Ok o, _) =>
        match run_ops bld cap wt fuel ops o with
        | (Ok _, ob) => finish_send bld cap wt fuel ob
        | (Err e, ob) => (Err e, outgoing_drop bld wt fuel ob)
        | (Panic, ob) => (Panic, out_sock ob)
        | (Fuel, ob) => (Fuel, out_sock ob)
        end
    | (Err e, s1) => (Err e, s1)
    | (Panic, s1) => (Panic, s1)
    | (Fuel, s1) => (Fuel, s1)
    end.

  (** The receiving half of [finish] (src/protocol.rs 1588-1610) and a caller that, having seen the status and the
      headers, does with the body of the response what [p] says. *)
  Definition client_recv {A} (fuel : nat) (p : status -> headers -> prog A) (s : S) : res (status * headers * A) * S :=
    match response_deserialize bld rd fuel s with
    | (Ok resp, _) =>
        let (x, b) := run_prog bld (bufr_read bld cap rd) fuel fuel (p (rs_status resp) (rs_headers resp)) (rs_body resp) in
        (do a <- x; Ok (rs_status resp, rs_headers resp, a), br_inner (body_reader b))
    | (Err e, s1) => (Err e, s1)
    | (Panic, s1) => (Panic, s1)
    | (Fuel, s1) => (Fuel, s1)
    end.

  (** The whole client. *)
  Definition client_run {A} (fuel : nat) (r : request unit) (ops : list op) (p : status -> headers -> prog A) (s : S)
    : res (status * headers * A) * S :=
    dos _, s1 <- client_send fuel r ops s; client_recv fuel p s1.

  (** The same with [send_request] (src/client.rs 307-315; [client::get] and [client::put] call it): the body is copied
      from the caller's reader [rdb], only a response with status 200 counts, and the caller does with its body what
      [p] says. *)
  Definition request_run {A Bd} (cbuf : nat) (rdb : reader Bd) (fuel : nat) (r : request unit) (body : Bd) (p : prog A)
      (s : S) : res A * S :=
    match exchange bld cap rd wt cbuf rdb fuel r body s with
    | (Ok b, _) => let (x, b') := run_prog bld (bufr_read bld cap rd) fuel fuel p b in (x, br_inner (body_reader b'))
    | (Err e, s1) => (Err e, s1)
    | (Panic, s1) => (Panic, s1)
    | (Fuel, s1) => (Fuel, s1)
    end.

  (** The whole server on one connection: [serve_one] (src/server.rs 199-210), with its results gathered in a tuple.
      The text of an error response is some function of the error. *)
  Definition server_run {H} (etext : error -> bytes) (hd : handler H) (bufsz fuel : nat) (hs : H) (s : S)
    : res (res unit * list call * H) * S :=
    let '(x, cs, hs', s') := serve_stream bld cap rd wt (fun e _ => etext e) hd bufsz fuel hs s in
    (Ok (x, cs, hs'), s').
End Programs.

(** ** A blocking socket *)
(** What a program can be waiting for. *)
Inductive ask := ARead (n : nat) | AWrite (data : bytes).

(** A socket with the answers it has been given so far: [k_reads] are the results of the next reads, [k_writes] the
    numbers of bytes the next writes take, [k_end] says that the peer has closed the connection. [k_sent] and
    [k_taken] are the bytes written and read. When a program asks for more than there is an answer to, the socket
    records that in [k_stop], and nothing the program does after that counts.
    Stands for the [TcpStream] of src/client.rs 204-214 and src/server.rs 99-105 in blocking mode: a run of the program that ends
    with [k_stop = Some a] is a program that is blocked in the call [a]. Simplification: reads and writes of the
    socket do not fail, and a connection is not reset. *)
Record sock := mkSock {
  k_reads : list bytes; k_writes : list nat; k_end : bool; k_sent : bytes; k_taken : bytes; k_stop : option ask }.

(** [TcpStream::read], src/client.rs 204-214 and src/server.rs 99-105. A read with an empty buffer does not block. *)
Definition sock_read : reader sock := fun n s =>
  match k_stop s with
  | Some _ => (Fuel, s)
  | None =>
      match n with
      | O => (Ok [], s)
      | _ =>
          match k_reads s with
          | d :: t =>
              (Ok (firstn n d),
               mkSock (match skipn n d with [] => t | d' => d' :: t end) (k_writes s) (k_end s) (k_sent s)
                 (k_taken s ++ firstn n d) None)
          | [] =>
              if k_end s then (Ok [], s)
              else (Fuel, mkSock [] (k_writes s) false (k_sent s) (k_taken s) (Some (ARead n)))
          end
      end
  end.

(** How many bytes of [data] are taken when the answer is [k]: at least one, at most all. *)
Definition clip (k : nat) (data : bytes) : nat := Nat.max 1 (Nat.min k (length data)).

(** [TcpStream::write] and [flush], src/client.rs 204-214 and src/server.rs 99-105. *)
Definition sock_write (data : bytes) (s : sock) : res nat * sock :=
  match k_stop s with
  | Some _ => (Fuel, s)
  | None =>
      match data with
      | [] => (Ok 0, s)
      | _ =>
          match k_writes s with
          | k :: t =>
              (Ok (clip k data),
               mkSock (k_reads s) t (k_end s) (k_sent s ++ firstn (clip k data) data) (k_taken s) None)
          | [] => (Fuel, mkSock (k_reads s) [] (k_end s) (k_sent s) (k_taken s) (Some (AWrite data)))
          end
      end
  end.
(** The socket as a writer; flushing a [TcpStream] does nothing (src/client.rs 204-214). *)
Definition sock_writer : writer sock :=
  mkWriter sock_write (fun s => match k_stop s with Some _ => (Fuel, s) | None => (Ok tt, s) end).

(** ** The network *)
Section Network.
  (** Two programs, each given the answers of the network so far; [room1] and [room2] are the sizes of the queues
      (the socket buffers of src/client.rs 204-214 and src/server.rs 99-105). *)
  Context {A1 A2 : Type} (prog1 : sock -> res A1 * sock) (prog2 : sock -> res A2 * sock) (room1 room2 : nat).

  (** The answers one side has been given. *)
  Record answers := mkAnswers { a_reads : list bytes; a_writes : list nat; a_end : bool }.
  (** A state of the network: the answers of both sides (client, server). *)
  Definition conf : Type := answers * answers.

  (** The socket before the program starts. *)
  Definition fresh (a : answers) : sock := mkSock (a_reads a) (a_writes a) (a_end a) [] [] None.
  (** How far the two programs got. *)
  Definition side1 (c : conf) : sock := snd (prog1 (fresh (fst c))).
  (** The same for the server. *)
  Definition side2 (c : conf) : sock := snd (prog2 (fresh (snd c))).

  (** What is under way to the server, and to the client. *)
  Definition queue1 (c : conf) : bytes := skipn (length (k_taken (side2 c))) (k_sent (side1 c)).
  (** To the client. *)
  Definition queue2 (c : conf) : bytes := skipn (length (k_taken (side1 c))) (k_sent (side2 c)).

  (** The program has returned; its socket is dropped, so closed. *)
  Definition ended (s : sock) : Prop := k_stop s = None.

  (** One more read, write or end of file. *)
  Definition got (d : bytes) (a : answers) : answers := mkAnswers (a_reads a ++ [d]) (a_writes a) (a_end a).
  (** One more write. *)
  Definition took (k : nat) (a : answers) : answers := mkAnswers (a_reads a) (a_writes a ++ [k]) (a_end a).
  (** End of file. *)
  Definition closed (a : answers) : answers := mkAnswers (a_reads a) (a_writes a) true.

  (** What the network may answer a side that is blocked at [s], with [inq] the queue towards it, [outq] the queue
      away from it, of size [room], and [peer] the other side. A read gets some of the bytes that have arrived, or end
      of file if there are none and the peer has closed. A write puts as many bytes into the queue as fit, or
      fewer; if the peer has closed they are lost. *)
  Inductive answer (s : sock) (inq outq : bytes) (room : nat) (peer : sock) : (answers -> answers) -> Prop :=
  | ans_read n d rest : k_stop s = Some (ARead n) -> inq = d ++ rest -> d <> [] -> length d <= n ->
      answer s inq outq room peer (got d)
  | ans_end n : k_stop s = Some (ARead n) -> inq = [] -> ended peer -> answer s inq outq room peer closed
  | ans_write data k : k_stop s = Some (AWrite data) -> 1 <= k <= length data ->
      length outq + k <= room \/ ended peer -> answer s inq outq room peer (took k).

  (** One step of the network: one side is answered. *)
  Inductive step : conf -> conf -> Prop :=
  | step1 c f : answer (side1 c) (queue2 c) (queue1 c) room1 (side2 c) f -> step c (f (fst c), snd c)
  | step2 c f : answer (side2 c) (queue1 c) (queue2 c) room2 (side1 c) f -> step c (fst c, f (snd c)).

  (** The beginning: nothing has been answered. *)
  Definition start : conf := (mkAnswers [] [] false, mkAnswers [] [] false).

  (** Reachable after [n] steps. *)
  Inductive reach : nat -> conf -> Prop :=
  | reach_start : reach 0 start
  | reach_step n c c' : reach n c -> step c c' -> reach (S n) c'.

  (** Nothing can happen any more although one of them is still waiting. *)
  Definition deadlock (c : conf) : Prop := ~ (ended (side1 c) /\ ended (side2 c)) /\ forall c', ~ step c c'.
End Network.

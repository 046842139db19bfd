(** The programs of examples/ that make a request and print the answer. Command lines are given as parsed by clap or by
    [std::env::args]; what the programs print besides the body (debug output) is left out. *)
From Verif Require Import Base Io Types Message Outgoing Client.

Section Print.
  Context {S O : Type} (bld : build) (cap : nat) (rd : reader S) (out : writer O).

  (** [io::copy(&mut body, &mut io::stdout())?; Ok(())]: examples/client.rs 30-31, advance_client.rs 20-21, no_std.rs
      119-120. Standard output is any writer. *)
  Definition print_body (fuel : nat) (b : hbody (bufr S)) (o : O) : res unit * O :=
    let (x, so) := copy bld (body_read bld (bufr_read bld cap rd) fuel) out default_buf_size fuel b o in
    (do _ <- x; Ok tt, snd so).

  (** Printing the body that a step before it has returned, if it has (the [?] behind that step). *)
  Definition then_print {X} (fuel : nat) (x : res (hbody (bufr S)) * X) (o : O) : res unit * (X * O) :=
    match x with
    | (Ok b, w) => let (y, o1) := print_body fuel b o in (y, (w, o1))
    | (Err e, w) => (Err e, (w, o))
    | (Panic, w) => (Panic, (w, o))
    | (Fuel, w) => (Fuel, (w, o))
    end.
End Print.

Section Requests.
  Context {S : Type} (bld : build) (cap : nat) (rd : reader S) (wt : writer S).

  (** [HttpRequestBuilder::get(url)?.send(s)?.finish()?.body]: examples/advance_client.rs 17, no_std.rs 111. *)
  Definition get_body (fuel : nat) (r : request unit) (s : S) : res (hbody (bufr S)) * S :=
    dos o, _ <- send bld cap wt fuel r s;
    dos resp, s2 <- finish bld cap rd wt fuel o;
    (Ok (rs_body resp), s2).

  (** [let mut request = HttpRequestBuilder::put(url)?.send(s)?; io::copy(&mut data, &mut request)?; request.finish()?.body]:
      examples/no_std.rs 113-115. *)
  Definition put_body {Bd} (bufsz : nat) (rdb : reader Bd) (fuel : nat) (r : request unit) (body : Bd) (s : S)
    : res (hbody (bufr S)) * S :=
    dos o, _ <- send bld cap wt fuel r s;
    match copy bld rdb (outgoing_writer bld cap wt fuel) bufsz fuel body o with
    | (Ok _, (_, o1)) => dos resp, s2 <- finish bld cap rd wt fuel o1; (Ok (rs_body resp), s2)
    | (Err e, (_, o1)) => (Err e, outgoing_drop bld wt fuel o1)
    | (Panic, (_, o1)) => (Panic, out_sock o1)
    | (Fuel, (_, o1)) => (Fuel, out_sock o1)
    end.
End Requests.

Section Client.
  Context {Addr S Wd Fl O : Type} (conn : connector Addr S Wd) (cap : nat) (rd : reader S) (wt : writer S)
    (open : bytes -> option Fl) (flrd : reader Fl) (out : writer O).

  (** examples/client.rs 17-32; [open] is [File::open] without its error. *)
  Definition client_main (fuel : nat) (m : method) (data : bytes) (u : url) (w : Wd) (o : O) : res unit * (Wd * O) :=
    then_print Std cap rd out fuel
      match m with
      | Get => client_get conn cap rd wt fuel u w
      | Put =>
          match open data with
          | Some f => client_put conn cap rd wt flrd fuel u f w
          | None => client_put conn cap rd wt slice_read fuel u data w
          end
      | m => (Err (UnexpectedMethod m), w)
      end o.

  (** examples/advance_client.rs 8-22: [parsed] is the url the argument stands for, [c_connect] is
      [TcpStream::connect], with host and port for an address. *)
  Definition advance_main (tcp : bytes * N -> Wd -> res S * Wd) (fuel : nat) (parsed : res url) (w : Wd) (o : O)
    : res unit * (Wd * O) :=
    match (do u <- parsed; do h <- http_url_of u; do p <- hu_port h; Ok (u, h, p)) with
    | Ok (u, h, p) =>
        let (x, w1) := tcp (hu_host h, p) w in
        match x with
        | Ok s =>
            match builder_new u Get with
            | Ok r => let (y, so) := then_print Std cap rd out fuel (get_body Std cap rd wt fuel r s) o in (y, (w1, snd so))
            | Err e => (Err e, (w1, o)) | Panic => (Panic, (w1, o)) | Fuel => (Fuel, (w1, o))
            end
        | Err e => (Err e, (w1, o))
        | Panic => (Panic, (w1, o))
        | Fuel => (Fuel, (w1, o))
        end
    | Err e => (Err e, (w, o))
    | Panic => (Panic, (w, o))
    | Fuel => (Fuel, (w, o))
    end.
End Client.

(** examples/no_std.rs 10-17. *)
Definition canned_response : bytes :=
  bs "HTTP/1.1 200 OK" ++ CRLF ++ bs "Content-Length: 11" ++ CRLF ++ bs "Content-Type: text/html" ++ CRLF
  ++ bs "Connection: Closed" ++ CRLF ++ CRLF ++ bs "hello world" ++ [LF].

(** examples/no_std.rs 39-83 [MyFakeTcpStream]: what has been written to it (it is printed, line 75) and its [data]. *)
Definition fake : Type := bytes * bytes.
(** examples/no_std.rs 46-54: connecting always succeeds. *)
Definition fake_connect : fake := ([], canned_response).
(** examples/no_std.rs 57-71. *)
Definition fake_read : reader fake := fun n s => (Ok (firstn n (snd s)), (fst s, skipn n (snd s))).
(** examples/no_std.rs 73-83. *)
Definition fake_writer : writer fake := mkWriter (fun d s => (Ok (length d), (fst s ++ d, snd s))) (fun s => (Ok tt, s)).

Section NoStdExample.
  Context {O : Type} (cap : nat) (out : writer O).

  (** examples/no_std.rs 102-121. [parsed] is what the url crate makes of the argument. Also returns what was written to the
      stream (line 75 prints it). *)
  Definition no_std_main (fuel : nat) (mtext data : bytes) (parsed : res url) (o : O) : res unit * (bytes * O) :=
    match (do m <- parse_method mtext; do u <- parsed; do h <- http_url_of u; do _ <- hu_port h; Ok (m, u)) with
    | Ok (m, u) =>
        let s := fake_connect in
        let x :=
          match m with
          | Get =>
              match builder_new u Get with
              | Ok r => get_body NoStd cap fake_read fake_writer fuel r s
              | Err e => (Err e, s) | Panic => (Panic, s) | Fuel => (Fuel, s)
              end
          | Put =>
              match builder_new u Put with
              | Ok r => put_body NoStd cap fake_read fake_writer default_buf_size slice_read fuel r data s
              | Err e => (Err e, s) | Panic => (Panic, s) | Fuel => (Fuel, s)
              end
          | m => (Err (UnexpectedMethod m), s)
          end in
        let (y, so) := then_print NoStd cap fake_read out fuel x o in (y, (fst (fst so), snd so))
    | Err e => (Err e, ([], o))
    | Panic => (Panic, ([], o))
    | Fuel => (Fuel, ([], o))
    end.
End NoStdExample.

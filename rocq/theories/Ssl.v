(** The handshake loops of src/ssl/rustls.rs over an arbitrary TLS engine. *)
From Verif Require Import Base.

(** The operations of [rustls::Connection] the loops use, on a connection state [C] and a transport
    [S]. *)
Record engine (C S : Type) := mkEngine {
  is_handshaking : C -> bool;
  wants_write : C -> bool;
  wants_read : C -> bool;
  write_tls : C -> S -> res nat * (C * S);
  read_tls : C -> S -> res nat * (C * S);
  process : C -> res unit * C }.
Arguments is_handshaking {C S} e. Arguments wants_write {C S} e. Arguments wants_read {C S} e.
Arguments write_tls {C S} e. Arguments read_tls {C S} e. Arguments process {C S} e.

Section Handshake.
  Context {C S : Type} (g : engine C S).

  (** src/ssl/rustls.rs 55-57 and 175-177: [assert_ne!(conn.write_tls(..)?, 0)]. Every error becomes
      the ssl error (212-216). *)
  Fixpoint write_loop (fuel : nat) (c : C) (s : S) : res unit * (C * S) :=
    if wants_write g c then
      match fuel with
      | O => (Fuel, (c, s))
      | Datatypes.S f =>
          match write_tls g c s with
          | (Ok O, cs) => (Panic, cs)
          | (Ok _, (c1, s1)) => write_loop f c1 s1
          | (Err _, cs) => (Err SslError, cs)
          | (Panic, cs) => (Panic, cs)
          | (Fuel, cs) => (Fuel, cs)
          end
      end
    else (Ok tt, (c, s)).

  (** src/ssl/rustls.rs 59-64 and 168-173; [Ok false] is [break 'outer]. *)
  Fixpoint read_loop (fuel : nat) (c : C) (s : S) : res bool * (C * S) :=
    if is_handshaking g c && wants_read g c then
      match fuel with
      | O => (Fuel, (c, s))
      | Datatypes.S f =>
          match read_tls g c s with
          | (Ok O, cs) => (Ok false, cs)
          | (Ok _, (c1, s1)) =>
              match process g c1 with
              | (Ok _, c2) => read_loop f c2 s1
              | (Err _, c2) => (Err SslError, (c2, s1))
              | (Panic, c2) => (Panic, (c2, s1))
              | (Fuel, c2) => (Fuel, (c2, s1))
              end
          | (Err _, cs) => (Err SslError, cs)
          | (Panic, cs) => (Panic, cs)
          | (Fuel, cs) => (Fuel, cs)
          end
      end
    else (Ok true, (c, s)).

  (** src/ssl/rustls.rs 54-65: the client's loop (write, then read). *)
  Fixpoint client_loop (fuel : nat) (c : C) (s : S) : res unit * (C * S) :=
    if is_handshaking g c then
      match fuel with
      | O => (Fuel, (c, s))
      | Datatypes.S f =>
          match write_loop fuel c s with
          | (Ok _, (c1, s1)) =>
              match read_loop fuel c1 s1 with
              | (Ok true, (c2, s2)) => client_loop f c2 s2
              | (Ok false, cs) => (Ok tt, cs)
              | (Err e, cs) => (Err e, cs)
              | (Panic, cs) => (Panic, cs)
              | (Fuel, cs) => (Fuel, cs)
              end
          | r => r
          end
      end
    else (Ok tt, (c, s)).

  (** src/ssl/rustls.rs 167-178: the server's loop (read, then write). *)
  Fixpoint server_loop (fuel : nat) (c : C) (s : S) : res unit * (C * S) :=
    if is_handshaking g c then
      match fuel with
      | O => (Fuel, (c, s))
      | Datatypes.S f =>
          match read_loop fuel c s with
          | (Ok true, (c1, s1)) =>
              match write_loop fuel c1 s1 with
              | (Ok _, (c2, s2)) => server_loop f c2 s2
              | r => r
              end
          | (Ok false, cs) => (Ok tt, cs)
          | (Err e, cs) => (Err e, cs)
          | (Panic, cs) => (Panic, cs)
          | (Fuel, cs) => (Fuel, cs)
          end
      end
    else (Ok tt, (c, s)).

  (** src/ssl/rustls.rs 67-71 and 180-184. *)
  Definition check_done (r : res unit * (C * S)) : res C * S :=
    match r with
    | (Ok _, (c, s)) => if is_handshaking g c then (Err SslError, s) else (Ok c, s)
    | (Err e, (_, s)) => (Err e, s)
    | (Panic, (_, s)) => (Panic, s)
    | (Fuel, (_, s)) => (Fuel, s)
    end.

  (** src/ssl/rustls.rs 44-72 [SslClientStream::new] once the connection object [c0] exists (51-52:
      certificate store, SNI and host name are the library's business; failing to build it is
      [Err]). *)
  Definition ssl_client_new (fuel : nat) (c0 : res C) (s : S) : res C * S :=
    match c0 with
    | Ok c => check_done (client_loop fuel c s)
    | Err _ => (Err SslError, s)
    | Panic => (Panic, s)
    | Fuel => (Fuel, s)
    end.

  (** src/ssl/rustls.rs 156-185 [get_conn_from_stream]. The [Acceptor] is a second engine state [A]:
      it reads once (161) and must then have a complete ClientHello ([Ok (Some c)]). *)
  Definition get_conn_from_stream {A} (acc_read : A -> S -> res nat * (A * S))
      (acc_accept : A -> res (option C)) (fuel : nat) (a0 : A) (s : S) : res C * S :=
    match acc_read a0 s with
    | (Ok _, (a1, s1)) =>
        match acc_accept a1 with
        | Ok (Some c) => check_done (server_loop fuel c s1)
        | Ok None => (Err SslError, s1)
        | Err _ => (Err SslError, s1)
        | Panic => (Panic, s1)
        | Fuel => (Fuel, s1)
        end
    | (Err _, (_, s1)) => (Err SslError, s1)
    | (Panic, (_, s1)) => (Panic, s1)
    | (Fuel, (_, s1)) => (Fuel, s1)
    end.
End Handshake.

(** [SslListener::accept] of all three backends, given what the inner listener's [accept] returned and
    the backend's handshake (a handshake that fails drops the stream): src/ssl/rustls.rs 191-197,
    src/ssl/native_tls.rs 103-108, src/ssl/openssl.rs 109-114. *)
Definition listener_accept {S St} (handshake : S -> res St) (acc : res S) : res St :=
  match acc with
  | Ok s => match handshake s with Err _ => Err SslError | r => r end
  | Err e => Err e
  | Panic => Panic
  | Fuel => Fuel
  end.

(** src/ssl/rustls.rs 191-197: the stream handed to the server is [StreamOwned(conn, stream)]; its
    [read] and [write] (103-125) are the library's. *)
Definition rustls_accept {C S A} (g : engine C S) (acc_read : A -> S -> res nat * (A * S))
    (acc_accept : A -> res (option C)) (fuel : nat) (a0 : A) : res S -> res (C * S) :=
  listener_accept (fun s =>
    match get_conn_from_stream g acc_read acc_accept fuel a0 s with
    | (Ok c, s') => Ok (c, s')
    | (Err e, _) => Err e
    | (Panic, _) => Panic
    | (Fuel, _) => Fuel
    end).

(** src/ssl/rustls.rs 141-143: the certificates of the PEM file, up to the first that does not parse. *)
Fixpoint all_certs {Cert} (l : list (res Cert)) : res (list Cert) :=
  match l with
  | [] => Ok []
  | Ok c :: t => do cs <- all_certs t; Ok (c :: cs)
  | Err _ :: _ => Err SslError
  | Panic :: _ => Panic
  | Fuel :: _ => Fuel
  end.

(** src/ssl/rustls.rs 133-154 [SslListener::new]: [key] is what [rustls_pemfile::private_key] finds in
    the key file ([None]: no private key in it; the [unwrap] at 136), [certs] what
    [rustls_pemfile::certs] yields, [single] is [with_single_cert]. *)
Definition listener_new {Key Cert Cfg} (key : res (option Key)) (certs : list (res Cert))
    (single : list Cert -> Key -> res Cfg) : res Cfg :=
  match key with
  | Ok (Some k) =>
      do cs <- all_certs certs;
      match single cs k with Err _ => Err SslError | r => r end
  | Ok None => Panic
  | Err _ => Err SslError
  | Panic => Panic
  | Fuel => Fuel
  end.

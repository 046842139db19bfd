(** The file server in the documentation of the library, src/server.rs 4-69, over the file system of [Files.v] and with
    the simplifications made there. *)
From Verif Require Import Base Io Types Message Outgoing Server Files.

(** src/server.rs 36: an opened directory ([File::open] succeeds on Unix), each read of which fails. *)
Definition open_dir : dynread := dyn_of (fun _ (_ : unit) => (Err EISDIR, tt)) tt.

Section Handler.
  (** [file_root] (line 16); [text] is [to_string] of the library's error made from an [io::Error] by the [?] of lines 36,
      46 and 47 (lines 81-90 make the answer of it; it is never [LengthRequired]). *)
  Context (root : list bytes) (text : error -> bytes).

  (** src/server.rs 29-38. *)
  Definition doc_get (uri : bytes) (t : node) : hresult * node :=
    (match find root uri t with
     | Ok (File d) => Ok (inl (from_string OK d))
     | Ok (Dir _) => Ok (inl (response_new OK open_dir))
     | Err e => file_error text e
     | Panic => Panic
     | Fuel => Fuel
     end, t).

  (** src/server.rs 27-50; [put] (lines 40-49) is that of examples/server.rs, but for the texts of errors. *)
  Definition doc_handler (bufsz : nat) : handler node :=
    mkHandler (h_delete default_handler) doc_get (h_head default_handler) (h_options default_handler)
      (h_trace default_handler) (file_put root text bufsz) (h_post default_handler).
End Handler.

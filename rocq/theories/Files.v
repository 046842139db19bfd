(** The file server of examples/server.rs over a file system that is a tree. (The one in the documentation,
    src/server.rs 15-50, is in [Docs.v].)
    Simplifications: no symbolic links, special files, permissions, limits on names and paths or full disks;
    nobody else changes the files; and the system is Unix (a path is a sequence of names separated by slashes,
    and cannot contain the zero byte). The [println!]s (lines 42 and 89) are left out. *)
From Verif Require Import Base Num Utf8 Io Types Message Outgoing Server.

(** A file with its contents, or a directory with its entries in the order in which [read_dir] (line 46) yields
    them. *)
Inductive node := File (data : bytes) | Dir (entries : list (bytes * node)).

(** The entry of that name in a directory. *)
Fixpoint entry (n : bytes) (es : list (bytes * node)) : option node :=
  match es with
  | [] => None
  | (m, x) :: t => if beqb n m then Some x else entry n t
  end.
(** Replacing or adding an entry. *)
Fixpoint set_entry (n : bytes) (x : node) (es : list (bytes * node)) : list (bytes * node) :=
  match es with
  | [] => [(n, x)]
  | (m, y) :: t => if beqb n m then (m, x) :: t else (m, y) :: set_entry n x t
  end.

(** What is found at an absolute path of plain names. *)
Fixpoint at_path (t : node) (p : list bytes) : option node :=
  match p with
  | [] => Some t
  | n :: p' => match t with
               | Dir es => match entry n es with Some x => at_path x p' | None => None end
               | File _ => None
               end
  end.
(** Putting [x] at an absolute path whose directory exists. *)
Fixpoint put_at (t : node) (p : list bytes) (x : node) : node :=
  match p with
  | [] => x
  | n :: p' => match t with
               | Dir es => Dir (set_entry n (put_at (match entry n es with Some y => y | None => Dir [] end) p' x) es)
               | File _ => t
               end
  end.

(** The character ['/'] of lines 41 and 88. *)
Definition SLASH : byte := x2f.
(** examples/server.rs 41, 88: [uri.trim_start_matches("/")]. *)
Fixpoint trim_slashes (s : bytes) : bytes :=
  match s with
  | b :: t => if Byte.eqb b SLASH then trim_slashes t else s
  | [] => []
  end.
(** A path as the system reads it: the texts between the slashes. *)
Fixpoint components (s : bytes) : list bytes :=
  match s with
  | [] => [[]]
  | b :: t => if Byte.eqb b SLASH then [] :: components t
              else match components t with c :: cs => (b :: c) :: cs | [] => [[b]] end
  end.

(** Path resolution from the directory [cur]. The kinds of the errors (2 for ENOENT, 20 for ENOTDIR, 21 for EISDIR)
    stand for whatever the system says. *)
Definition ENOENT : error := IoError (KOther 2).
(** See [ENOENT]. *)
Definition ENOTDIR : error := IoError (KOther 20).
(** See [ENOENT]. *)
Definition EISDIR : error := IoError (KOther 21).
(** Components that are no names: nothing between two slashes, ["."] and [".."]. *)
Definition is_dots (c : bytes) : bool := beqb c [] || beqb c (bs ".") || beqb c (bs "..").
(** Following a path, component by component; only a directory can be gone through. *)
Fixpoint walk (t : node) (cur : list bytes) (cs : list bytes) : res (list bytes) :=
  match cs with
  | [] => Ok cur
  | c :: cs' =>
      match at_path t cur with
      | Some (Dir es) =>
          if beqb c [] || beqb c (bs ".") then walk t cur cs'
          else if beqb c (bs "..") then walk t (removelast cur) cs'
          else match entry c es with Some _ => walk t (cur ++ [c]) cs' | None => Err ENOENT end
      | Some (File _) => Err ENOTDIR
      | None => Err ENOENT
      end
  end.

(** A path with a zero byte is refused by [std::fs]. *)
Definition has_nul (s : bytes) : bool := existsb (Byte.eqb x00) s.

Section Handler.
  (** [file_root] (line 9): the current directory (line 97), an absolute path without dots. [text] is
      [io::Error::to_string] (line 33). *)
  Context (root : list bytes) (text : error -> bytes).

  (** examples/server.rs 31-35. *)
  Definition file_error (e : error) : hresult := Ok (inr (from_string InternalServerError (text e))).

  (** examples/server.rs 41, 43: [metadata] of the path (which cannot be absolute, having no leading slash, so
      [join] appends it); together with what [read_dir] (46) and [File::open] (76) give. *)
  Definition find (uri : bytes) (t : node) : res node :=
    if has_nul uri then Err (IoError KInvalidInput)
    else do p <- walk t root (components (trim_slashes uri));
         match at_path t p with Some x => Ok x | None => Err ENOENT end.

  (** examples/server.rs 47-51; names that are not UTF-8 are left out (48). *)
  Definition list_item (e : bytes * node) : bytes :=
    if utf8_valid (fst e) then
      bs "<li><a href=""" ++ fst e ++ (match snd e with Dir _ => bs "/" | File _ => [] end) ++ bs """>" ++ fst e ++ bs "</a></br>"
    else [].
  (** A line of the page, examples/server.rs 54-66. *)
  Definition page_line (indent : string) (s : bytes) : bytes := LF :: bs indent ++ s.
  (** examples/server.rs 53-68: neither the uri nor the names are escaped. *)
  Definition page (uri : bytes) (es : list (bytes * node)) : bytes :=
    let l := page_line "                " in
    l (bs "<html>") ++ l (bs "<title>Directory listing for " ++ uri ++ bs "</title>")
    ++ l (bs "<h2>Directory listing for " ++ uri ++ bs "</h2>") ++ l (bs "<body>") ++ l (bs "<hr>") ++ l (bs "<ul>")
    ++ l (flat_map list_item es) ++ l (bs "</ul>") ++ l (bs "<hr>") ++ l (bs "</body>") ++ l (bs "</html>")
    ++ page_line "            " [].

  (** examples/server.rs 40-81. A [File] that is read from its beginning behaves like a [Cursor]. *)
  Definition file_get (uri : bytes) (t : node) : hresult * node :=
    (match find uri t with
     | Ok (Dir es) => Ok (inl (from_string OK (page uri es)))
     | Ok (File d) =>
         Ok (inl (response_add_header (bs "Content-Length") (show_dec (N.of_nat (length d))) (from_string OK d)))
     | Err e => file_error e
     | Panic => Panic
     | Fuel => Fuel
     end, t).

  (** examples/server.rs 88, 90: [File::create], which makes the file or empties it; the path of the file. *)
  Definition create (uri : bytes) (t : node) : res (list bytes) :=
    if has_nul uri then Err (IoError KInvalidInput)
    else let cs := components (trim_slashes uri) in
         do d <- walk t root (removelast cs);
         let n := last cs [] in
         match at_path t d with
         | Some (Dir es) =>
             if is_dots n then Err EISDIR
             else match entry n es with Some (Dir _) => Err EISDIR | _ => Ok (d ++ [n]) end
         | Some (File _) => Err ENOTDIR
         | None => Err ENOENT
         end.

  (** examples/server.rs 91-92: [io::copy] from the body to the file at [p], of which [acc] is written. *)
  CoFixpoint file_copy (bufsz : nat) (p : list bytes) (t : node) (acc : bytes) : prog (hresult * node) :=
    ReadBody bufsz (fun o =>
      match o with
      | Got [] => Ret (Ok (inl (response_new OK (dyn_of cursor_read ([], 0%N)))), put_at t p (File acc))
      | Got d => file_copy bufsz p t (acc ++ d)
      | Failed (IoError Interrupted) => file_copy bufsz p t acc
      | Failed e => Ret (file_error e, put_at t p (File acc))
      end).

  (** examples/server.rs 83-93. *)
  Definition file_put (bufsz : nat) (uri : bytes) (t : node) : prog (hresult * node) :=
    match create uri t with
    | Ok p => file_copy bufsz p t []
    | Err e => Ret (file_error e, t)
    | Panic => Ret (Panic, t)
    | Fuel => Ret (Fuel, t)
    end.

  (** examples/server.rs 37-94 [FileHandler]; the other methods are the defaults. *)
  Definition file_handler (bufsz : nat) : handler node :=
    mkHandler (h_delete default_handler) file_get (h_head default_handler) (h_options default_handler)
      (h_trace default_handler) (file_put bufsz) (h_post default_handler).
End Handler.

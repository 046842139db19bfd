(** The I/O layer. In the std build these are [std::io] types; in the no_std build they are
    src/io.rs. The parameter [bld] selects the build wherever they differ. *)
From Verif Require Import Base.

(** An [io::Read] implementor: [rd n s] is [read] with a buffer of [n] bytes; the returned list are
    the bytes written to the front of the buffer. *)
Definition reader (St : Type) := nat -> St -> res bytes * St.

(** [io::Bytes::next]: src/io.rs 229-241; std retries on Interrupted. The result [Ok None] is
    iterator end. *)
Fixpoint bytes_next {St} (bld : build) (rd : reader St) (fuel : nat) (s : St)
  : res (option byte) * St :=
  match fuel with
  | O => (Fuel, s)
  | S f =>
      match rd 1 s with
      | (Ok [], s') => (Ok None, s')
      | (Ok (b :: _), s') => (Ok (Some b), s')
      | (Err e, s') => if is_retry bld e then bytes_next bld rd f s' else (Err e, s')
      | (Panic, s') => (Panic, s')
      | (Fuel, s') => (Fuel, s')
      end
  end.

(** [Read::read_exact] with a buffer of [n] bytes: src/io.rs 24-40, std [default_read_exact].
    std's [BufReader::read_exact] has a fast path with the same result. [acc] are the bytes already
    stored. *)
Fixpoint read_exact {St} (bld : build) (rd : reader St) (fuel : nat) (n : nat) (acc : bytes)
    (s : St) : res bytes * St :=
  match n with
  | O => (Ok acc, s)
  | _ =>
    match fuel with
    | O => (Fuel, s)
    | S f =>
      match rd n s with
      | (Ok [], s') => (Err (io_eof bld), s')
      | (Ok got, s') =>
          if (length got <=? n)%nat
          then read_exact bld rd f (n - length got) (acc ++ got) s'
          else (Panic, s') (* &mut tmp[n..] out of range *)
      | (Err e, s') => if is_retry bld e then read_exact bld rd f n acc s' else (Err e, s')
      | (Panic, s') => (Panic, s')
      | (Fuel, s') => (Fuel, s')
      end
    end
  end.

(** [Take::read]: src/io.rs 212-223. The state is (remaining limit, inner). An inner reader that
    returns more than it was asked for makes the subtraction underflow: modelled as [Panic]. *)
Definition take_read {St} (rd : reader St) : reader (N * St) := fun n st =>
  let (limit, s) := st in
  if (limit =? 0)%N then (Ok [], (limit, s)) else
  let max := N.to_nat (N.min (N.of_nat n) limit) in
  match rd max s with
  | (Ok got, s') =>
      if (N.of_nat (length got) <=? limit)%N
      then (Ok got, ((limit - N.of_nat (length got))%N, s'))
      else (Panic, (limit, s'))
  | (Err e, s') => (Err e, (limit, s'))
  | (Panic, s') => (Panic, (limit, s'))
  | (Fuel, s') => (Fuel, (limit, s'))
  end.

(** [io::BufReader]: in std a buffer of [cap] bytes; in no_std (src/io.rs 149-168) a pass-through
    wrapper, whose buffer stays empty. *)
Record bufr (St : Type) := mkBufr { br_inner : St; br_buf : bytes }.
Arguments mkBufr {St} br_inner br_buf.
Arguments br_inner {St} b.
Arguments br_buf {St} b.

(** [BufReader::new]. *)
Definition bufr_new {St} (s : St) : bufr St := mkBufr s [].

(** [BufReader::read]: std: bypass the buffer when it is empty and the request is at least the
    capacity; otherwise [fill_buf] and copy out of the buffer. no_std: src/io.rs 163-167. *)
Definition bufr_read {St} (bld : build) (cap : nat) (rd : reader St) : reader (bufr St) :=
  fun n r =>
  match bld with
  | NoStd => let (x, s') := rd n (br_inner r) in (x, mkBufr s' (br_buf r))
  | Std =>
    match br_buf r with
    | [] =>
      if (cap <=? n)%nat
      then let (x, s') := rd n (br_inner r) in (x, mkBufr s' [])
      else
        match rd cap (br_inner r) with
        | (Ok got, s') => (Ok (firstn n got), mkBufr s' (skipn n got))
        | (Err e, s') => (Err e, mkBufr s' [])
        | (Panic, s') => (Panic, mkBufr s' [])
        | (Fuel, s') => (Fuel, mkBufr s' [])
        end
    | buf => (Ok (firstn n buf), mkBufr (br_inner r) (skipn n buf))
    end
  end.

(** An [io::Write] implementor: [wr data w] is one [write] call (how many bytes were accepted) and
    [fl w] is [flush]. *)
Record writer (W : Type) := mkWriter {
  wr : bytes -> W -> res nat * W;
  fl : W -> res unit * W
}.
Arguments mkWriter {W} wr fl.
Arguments wr {W} w.
Arguments fl {W} w.

(** [Write::write_all]: src/io.rs 59-68; std retries on Interrupted. *)
Fixpoint write_all {W} (bld : build) (wt : writer W) (fuel : nat) (data : bytes) (w : W)
  : res unit * W :=
  match data with
  | [] => (Ok tt, w)
  | _ =>
    match fuel with
    | O => (Fuel, w)
    | S f =>
      match wr wt data w with
      | (Ok O, w') => (Err (io_write_zero bld), w')
      | (Ok k, w') =>
          if (k <=? length data)%nat then write_all bld wt f (skipn k data) w'
          else (Panic, w') (* &buf[n..] out of range *)
      | (Err e, w') => if is_retry bld e then write_all bld wt f data w' else (Err e, w')
      | (Panic, w') => (Panic, w')
      | (Fuel, w') => (Fuel, w')
      end
    end
  end.

(** [write!(w, ...)], i.e. [Write::write_fmt] (src/io.rs 70-102, std likewise): one [write_all] per
    formatted piece, stopping at the first error, which is returned. *)
Fixpoint write_pieces {W} (bld : build) (wt : writer W) (fuel : nat) (ps : list bytes) (w : W)
  : res unit * W :=
  match ps with
  | [] => (Ok tt, w)
  | p :: t => dos _, w1 <- write_all bld wt fuel p w; write_pieces bld wt fuel t w1
  end.

(** [io::copy]: src/io.rs 171-187; std retries on Interrupted. [bufsz] is DEFAULT_BUF_SIZE.
    [wall] is the writer's [write_all] (a type may override the default).
    The state is the pair (reader, writer). *)
Fixpoint copy_with {St W} (bld : build) (rd : reader St) (wall : bytes -> W -> res unit * W)
    (bufsz fuel : nat) (written : N) (s : St) (w : W) : res N * (St * W) :=
  match fuel with
  | O => (Fuel, (s, w))
  | S f =>
      match rd bufsz s with
      | (Ok [], s') => (Ok written, (s', w))
      | (Ok got, s') =>
          match wall got w with
          | (Ok _, w') =>
              copy_with bld rd wall bufsz f (written + N.of_nat (length got))%N s' w'
          | (Err e, w') => (Err e, (s', w'))
          | (Panic, w') => (Panic, (s', w'))
          | (Fuel, w') => (Fuel, (s', w'))
          end
      | (Err e, s') => if is_retry bld e then copy_with bld rd wall bufsz f written s' w
                       else (Err e, (s', w))
      | (Panic, s') => (Panic, (s', w))
      | (Fuel, s') => (Fuel, (s', w))
      end
  end.

(** [io::copy] into a writer with the default [write_all], src/client.rs 308 and src/server.rs 207. *)
Definition copy {St W} (bld : build) (rd : reader St) (wt : writer W) (bufsz fuel : nat)
    (s : St) (w : W) : res N * (St * W) :=
  copy_with bld rd (write_all bld wt fuel) bufsz fuel 0%N s w.

(** DEFAULT_BUF_SIZE, src/io.rs 169; also the default capacity of std's BufReader and BufWriter. *)
Definition default_buf_size : nat := 8 * 1024.

(** [io::BufWriter]: in std a buffer of [cap] bytes in front of the inner writer; in no_std
    (src/io.rs 125-147) a pass-through wrapper whose buffer stays empty. *)
Record bufw (W : Type) := mkBufw { bw_inner : W; bw_buf : bytes }.
Arguments mkBufw {W} bw_inner bw_buf.
Arguments bw_inner {W} b.
Arguments bw_buf {W} b.

(** [BufWriter::new], src/client.rs 144 and src/io.rs 130-132. *)
Definition bufw_new {W} (w : W) : bufw W := mkBufw w [].

(** std [BufWriter::flush_buf]: write the buffered bytes until none are left; what was accepted is
    removed from the buffer even when an error occurs. *)
Fixpoint flush_buf {W} (wt : writer W) (fuel : nat) (b : bufw W) : res unit * bufw W :=
  match bw_buf b with
  | [] => (Ok tt, b)
  | buf =>
    match fuel with
    | O => (Fuel, b)
    | S f =>
      match wr wt buf (bw_inner b) with
      | (Ok O, w') => (Err (IoError KWriteZero), mkBufw w' buf)
      | (Ok k, w') => flush_buf wt f (mkBufw w' (skipn k buf))
      | (Err e, w') => if is_retry Std e then flush_buf wt f (mkBufw w' buf)
                       else (Err e, mkBufw w' buf)
      | (Panic, w') => (Panic, mkBufw w' buf)
      | (Fuel, w') => (Fuel, mkBufw w' buf)
      end
    end
  end.

(** [BufWriter::write_all]: std buffers the data when it fits, else flushes first and writes large
    data straight through. no_std: default [write_all] on the pass-through [write]. *)
Definition bufw_write_all {W} (bld : build) (cap : nat) (wt : writer W) (fuel : nat)
    (data : bytes) (b : bufw W) : res unit * bufw W :=
  match bld with
  | NoStd => let (x, w') := write_all NoStd wt fuel data (bw_inner b) in (x, mkBufw w' (bw_buf b))
  | Std =>
    let spare := (cap - length (bw_buf b))%nat in
    if (length data <? spare)%nat
    then (Ok tt, mkBufw (bw_inner b) (bw_buf b ++ data))
    else
      dos _, b1 <- (if (spare <? length data)%nat then flush_buf wt fuel b else (Ok tt, b));
      if (cap <=? length data)%nat
      then let (x, w') := write_all Std wt fuel data (bw_inner b1) in (x, mkBufw w' (bw_buf b1))
      else (Ok tt, mkBufw (bw_inner b1) (bw_buf b1 ++ data))
  end.

(** [write!] on a [BufWriter] (see [write_pieces]), src/protocol.rs 1834-1836, 1851, 1894-1896. *)
Fixpoint bufw_pieces {W} (bld : build) (cap : nat) (wt : writer W) (fuel : nat)
    (ps : list bytes) (b : bufw W) : res unit * bufw W :=
  match ps with
  | [] => (Ok tt, b)
  | p :: t => dos _, b1 <- bufw_write_all bld cap wt fuel p b; bufw_pieces bld cap wt fuel t b1
  end.

(** [BufWriter::flush]: std: [flush_buf] then inner flush; no_std: src/io.rs 144-146. *)
Definition bufw_flush {W} (bld : build) (wt : writer W) (fuel : nat) (b : bufw W)
  : res unit * bufw W :=
  dos _, b1 <- (match bld with Std => flush_buf wt fuel b | NoStd => (Ok tt, b) end);
  let (x, w') := fl wt (bw_inner b1) in (x, mkBufw w' (bw_buf b1)).

(** [BufWriter::into_inner]: std: [flush_buf], an error hands the BufWriter back inside the error;
    no_std: src/io.rs 134-136. The result state is kept as a [bufw]; on success its inner writer is
    what the caller gets. *)
Definition bufw_into_inner {W} (bld : build) (wt : writer W) (fuel : nat) (b : bufw W)
  : res unit * bufw W :=
  match bld with
  | Std =>
      match flush_buf wt fuel b with
      | (Err _, b') => (Err (IoError (KOther 0)), b') (* src/error.rs 60-68: kind Other *)
      | r => r
      end
  | NoStd => (Ok tt, b)
  end.

(** [Drop for BufWriter] in std: try to flush the buffer, ignoring errors. What remains of the
    BufWriter is the inner writer. *)
Definition bufw_drop {W} (bld : build) (wt : writer W) (fuel : nat) (b : bufw W) : W :=
  match bld with
  | Std => bw_inner (snd (flush_buf wt fuel b))
  | NoStd => bw_inner b
  end.

(** [Read for &[u8]]: src/io.rs 280-294; std likewise. *)
Definition slice_read : reader bytes := fun n s => (Ok (firstn n s), skipn n s).

(** [<&[u8] as Read>::read_exact]: src/io.rs 296-310 (no_std; fails without consuming). *)
Definition slice_read_exact (n : nat) (s : bytes) : res bytes * bytes :=
  if (length s <? n)%nat then (Err UnexpectedEof, s) else (Ok (firstn n s), skipn n s).

(** [Cursor]: src/io.rs 248-278; std likewise. State: (contents, position). *)
Definition cursor_read : reader (bytes * N) := fun n c =>
  let (inner, pos) := c in
  let amt := N.min pos (N.of_nat (length inner)) in
  let buf := skipn (N.to_nat amt) inner in
  let got := firstn n buf in
  (Ok got, (inner, (pos + N.of_nat (length got))%N)).

(** [io::Empty]: src/io.rs 189-195. *)
Definition empty_read : reader unit := fun _ u => (Ok [], u).

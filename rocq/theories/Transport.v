(** Specification vocabulary: what a transport delivers. *)
From Verif Require Import Base Utf8 Io.

(** A transport is described by the sequence of things it will still deliver: bytes and failed
    read calls. After the last item it is at end of file. *)
Inductive item := B (b : byte) | E (e : error).

(** [rd] delivers item sequences as related by [R], for non-empty buffers: at end of file it returns
    0 bytes and stays there; a failure is returned once and then passed; otherwise it returns at
    least one and at most [n] of the next bytes, whatever number it likes. *)
Definition reader_pos {St} (rd : reader St) (R : St -> list item -> Prop) : Prop :=
  forall n s xs, 0 < n -> R s xs ->
  match xs with
  | [] => exists s', rd n s = (Ok [], s') /\ R s' []
  | E e :: xs' => exists s', rd n s = (Err e, s') /\ R s' xs'
  | B _ :: _ => exists got xs' s',
      rd n s = (Ok got, s') /\ got <> [] /\ length got <= n /\ xs = map B got ++ xs' /\ R s' xs'
  end.

(** The same for empty buffers: nothing is consumed, except possibly a pending failure. *)
Definition reader_zero {St} (rd : reader St) (R : St -> list item -> Prop) : Prop :=
  forall s xs, R s xs ->
  (exists s', rd 0 s = (Ok [], s') /\ R s' xs)
  \/ (exists e xs' s', xs = E e :: xs' /\ rd 0 s = (Err e, s') /\ R s' xs').

(** From state [s] the reader delivers exactly [xs], then end of file, under every choice of
    (non-empty) buffer sizes. *)
Definition delivers {St} (rd : reader St) (s : St) (xs : list item) : Prop :=
  exists R, reader_pos rd R /\ R s xs.

(** The same, also tolerating reads with an empty buffer. *)
Definition delivers0 {St} (rd : reader St) (s : St) (xs : list item) : Prop :=
  exists R, reader_pos rd R /\ reader_zero rd R /\ R s xs.

(** [delivers], and whichever way the end is reached, the state after the read that reported end of
    file satisfies [P]. *)
Definition delivers_end {St} (rd : reader St) (s : St) (xs : list item) (P : St -> Prop) : Prop :=
  exists R, reader_pos rd R /\ R s xs /\ forall n s', 0 < n -> R s' [] -> P (snd (rd n s')).

(** [xs] is the byte string [data], with failed reads that the build's byte iterator silently
    retries ([ErrorKind::Interrupted], std build only) anywhere in between. *)
Inductive noisy (bld : build) : bytes -> list item -> Prop :=
| noisy_nil : noisy bld [] []
| noisy_byte b data xs : noisy bld data xs -> noisy bld (b :: data) (B b :: xs)
| noisy_retry e data xs : is_retry bld e = true -> noisy bld data xs -> noisy bld data (E e :: xs).

(** What a consumer sees that reads with any positive buffer sizes until end of file or the first
    error: the bytes received, the error if any, and the final state. *)
Inductive drains {St} (rd : reader St) : St -> bytes -> option error -> St -> Prop :=
| drains_eof n s s' : 0 < n -> rd n s = (Ok [], s') -> drains rd s [] None s'
| drains_err n s e s' : 0 < n -> rd n s = (Err e, s') -> drains rd s [] (Some e) s'
| drains_step n s got s' rest o s'' :
    0 < n -> rd n s = (Ok got, s') -> got <> [] -> drains rd s' rest o s'' ->
    drains rd s (got ++ rest) o s''.

(** A concrete transport, for examples and as the canonical one: a list of items, read in pieces as
    given by a segmentation. [seg_read] returns at most the next segment. *)
Inductive event := Seg (b : byte) (more : bytes) | Fail (e : error).
Definition seg_read : reader (list event) := fun n evs =>
  match evs with
  | [] => (Ok [], [])
  | Fail e :: t => (Err e, t)
  | Seg b more :: t =>
      match n with
      | O => (Ok [], evs)
      | S m => (Ok (b :: firstn m more),
                match skipn m more with [] => t | b' :: more' => Seg b' more' :: t end)
      end
  end.
Definition event_items (ev : event) : list item :=
  match ev with Seg b more => map B (b :: more) | Fail e => [E e] end.
Definition items_of (evs : list event) : list item := flat_map event_items evs.

(** The items up to and including the [n]-th byte; failures in between stay. *)
Fixpoint take_items (n : N) (xs : list item) : list item :=
  match xs with
  | [] => []
  | B b :: t => if (n =? 0)%N then [] else B b :: take_items (n - 1) t
  | E e :: t => if (n =? 0)%N then [] else E e :: take_items n t
  end.

(** [s] does not contain CR LF. *)
Definition no_crlf (s : bytes) : Prop := ~ exists a b, s = a ++ CRLF ++ b.

(** [s] is well-formed UTF-8: the encoding of a sequence of Unicode scalar values. *)
Definition is_utf8 (s : bytes) : Prop :=
  exists cs, Forall (fun c => scalar c = true) cs /\ s = utf8_encode cs.

(** [log w] are the bytes the sink [w] has accepted so far. A writer is honest about it: a [write]
    that returns [Ok k] has accepted the first [k] bytes of the buffer, a failing one accepted
    nothing, and [flush] accepts nothing. Writes may be partial or fail at any point. *)
Record honest {W} (wt : writer W) (log : W -> bytes) : Prop := {
  honest_write : forall data w r w', wr wt data w = (r, w') ->
    match r with
    | Ok k => k <= length data /\ log w' = log w ++ firstn k data
    | _ => log w' = log w
    end;
  honest_flush : forall w r w', fl wt w = (r, w') -> log w' = log w
}.

(** A writer that never fails: it accepts at least one byte of a non-empty buffer, and flushes. *)
Definition reliable {W} (wt : writer W) : Prop :=
  (forall data w, data <> [] -> exists k w', wr wt data w = (Ok k, w') /\ 0 < k <= length data)
  /\ (forall w, exists w', fl wt w = (Ok tt, w')).

(** [p] is a prefix of [s]. *)
Definition prefix (p s : bytes) : Prop := exists t, s = p ++ t.

(** A concrete sink for examples: accepts what its script says. *)
Inductive wstep := Accept (k : nat) | Refuse (e : error).
Definition script_write (data : bytes) (w : list wstep * bytes) : res nat * (list wstep * bytes) :=
  match w with
  | ([], out) => (Ok (length data), ([], out ++ data))
  | (Accept k :: t, out) => let k' := Nat.min k (length data) in (Ok k', (t, out ++ firstn k' data))
  | (Refuse e :: t, out) => (Err e, (t, out))
  end.
Definition script_writer : writer (list wstep * bytes) := mkWriter script_write (fun w => (Ok tt, w)).

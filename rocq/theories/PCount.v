(** Properties of termination and cost. *)
From Verif Require Import Base Utf8 Case Num Io Parser Types Message Transport Lemmas ReadLemmas
  ChunkSpec ChunkLemmas BodyLemmas HeadLemmas MsgLemmas SimLemmas CountLemmas PHead.

(** ** C54. Termination *)
(** [counted rd] is [rd] with a counter of the reads made. A request is read through a BufReader, a response
    head directly. On a stream of [length xs] bytes and errors the fuel [length xs + 1] is always enough, that
    is, the loops of the code end, after at most [length xs + 1] reads of the socket. *)
Theorem C54_request : forall St bld cap (rd : reader St) s xs fuel,
  0 < cap -> delivers rd s xs -> length xs < fuel ->
  let o := request_deserialize bld (bufr_read bld cap (counted rd)) fuel (bufr_new (s, 0)) in
  fst o <> Fuel /\ snd (br_inner (snd o)) <= length xs + 1.
Proof.
  intros St bld cap rd s xs fuel Hc Hd Hf.
  apply (request_measure bld (bufr_read bld cap (counted rd)) (fun t => snd (br_inner t))
    (bufr_one bld cap _ snd (counted_one rd)) fuel (bufr_new (s, 0)) xs); auto.
  apply bufr_delivers; auto. now apply counted_delivers.
Qed.
Print Assumptions C54_request.

Theorem C54_response : forall St bld (rd : reader St) s xs fuel,
  delivers rd s xs -> length xs < fuel ->
  let o := response_deserialize bld (counted rd) fuel (s, 0) in
  fst o <> Fuel /\ snd (snd o) <= length xs + 1.
Proof.
  intros St bld rd s xs fuel Hd Hf.
  apply (response_measure bld (counted rd) snd (counted_one rd) fuel (s, 0) xs); auto. now apply counted_delivers.
Qed.
Print Assumptions C54_response.

(** The counting reader is the reader: the outcome is the same, and so is the socket. *)
Theorem C54_counter_harmless : forall St bld (rd : reader St) s fuel k,
  fst (response_head (crlf_next bld (counted rd) fuel) fuel (s, k)) = fst (response_head (crlf_next bld rd fuel) fuel s)
  /\ fst (request_head (crlf_next bld (counted rd) fuel) fuel (s, k)) = fst (request_head (crlf_next bld rd fuel) fuel s)
  /\ fst (snd (response_head (crlf_next bld (counted rd) fuel) fuel (s, k))) = snd (response_head (crlf_next bld rd fuel) fuel s)
  /\ fst (snd (request_head (crlf_next bld (counted rd) fuel) fuel (s, k))) = snd (request_head (crlf_next bld rd fuel) fuel s).
Proof.
  intros St bld rd s fuel k.
  assert (HQ : sim (fun a b => fst a = b) (counted rd) rd).
  { intros n [a c] b H. cbn in H. subst b. unfold counted. cbn [fst snd]. now destruct (rd n a). }
  destruct (response_head_alike _ _ _ (crlf_sim bld _ _ _ HQ fuel []) fuel (s, k) s eq_refl) as [H1 H2].
  destruct (request_head_alike _ _ _ (crlf_sim bld _ _ _ HQ fuel []) fuel (s, k) s eq_refl) as [H3 H4]. auto.
Qed.
Print Assumptions C54_counter_harmless.

(** One read of a body, whatever its framing and whatever it has read before. *)
Theorem C54_body_read : forall St bld cap (rd : reader St) b xs fuel n,
  0 < n -> delivers (bufr_read bld cap (counted rd)) (body_reader b) xs -> length xs + 1 < fuel ->
  let o := body_read bld (bufr_read bld cap (counted rd)) fuel n b in
  fst o <> Fuel /\ fst o <> Panic
  /\ snd (br_inner (body_reader (snd o))) <= snd (br_inner (body_reader b)) + length xs + 2.
Proof.
  intros St bld cap rd b xs fuel n Hn Hd Hf.
  apply (body_measure bld (bufr_read bld cap (counted rd)) (fun t => snd (br_inner t))
    (bufr_one bld cap _ snd (counted_one rd)) fuel n b xs Hn Hd Hf).
Qed.
Print Assumptions C54_body_read.

(** The recursion of a chunked read is at most three calls deep, whatever the peer sends. *)
Theorem C54_recursion : forall St bld (rd : reader St) c xs fuel n,
  0 < n -> delivers rd (cb_reader c) xs -> length xs + 1 < fuel -> chunked_calls bld rd fuel n c <= 3.
Proof.
  intros St bld rd c xs fuel n Hn Hd Hf.
  now apply (chunked_measure bld rd (fun _ => 0) ltac:(intros ? ?; lia) fuel n c xs).
Qed.
Print Assumptions C54_recursion.

(** With an empty buffer there is no such bound: a peer that sends [k] chunks of two bytes makes one read of an
    empty buffer recurse [2 * k] deep. *)
Theorem C54_empty_buffer_recursion : forall k rest fuel, 2 * k + 4 < fuel ->
  2 * k <= chunked_calls Std slice_read fuel 0
             (CStream (concat (repeat (bs "2" ++ CRLF ++ CRLF) k) ++ rest)).
Proof.
  induction k as [|k IH]; intros rest fuel Hf; [lia|].
  destruct fuel as [|[|f]]; [lia|lia|]. cbn [repeat concat]. rewrite <- !app_assoc.
  change (bs "2") with [x32]. change CRLF with [x0d; x0a]. cbn [app].
  cbn [chunked_calls]. unfold chunk_new, expect_next, crlf_next.
  destruct f as [|f]; [lia|]. specialize (IH rest (S f)).
  set (tail := concat _ ++ rest) in *.
  assert (E1 : crlf_loop Std slice_read (S (S (S f))) [] (x32 :: x0d :: x0a :: x0d :: x0a :: tail)
    = (Ok (Some [x32]), x0d :: x0a :: tail)).
  { destruct f as [|f]; [lia|]. reflexivity. }
  rewrite E1. cbn [sbind]. change (from_str_radix 16 u64_max [x32]) with (@Ok N 2%N). cbn [rbind]. change (2 =? 0)%N with false. cbn iota.
  unfold take_read. cbn. unfold tail, CRLF in *. apply (Nat.le_trans _ (S (S (2 * k)))); [lia|]. apply le_n_S, le_n_S, IH. lia.
Qed.
Print Assumptions C54_empty_buffer_recursion.

Definition C54_stream : list event :=
  [Seg x35 []; Seg x0d []; Fail (IoError Interrupted); Seg x0a [x61; x62]; Seg x63 [x64; x65; x0d; x0a]; Seg x30 [x0d; x0a]].
Example C54_case :
  chunked_calls Std seg_read 30 8 (CStream C54_stream) = 2
  /\ (let (_, c1) := body_read Std (bufr_read Std 4 (counted seg_read)) 30 8 (BChunked None (CStream (bufr_new (C54_stream, 0)))) in
      let (_, c2) := body_read Std (bufr_read Std 4 (counted seg_read)) 30 8 c1 in
      let (r, c3) := body_read Std (bufr_read Std 4 (counted seg_read)) 30 8 c2 in
      r = Ok [] /\ snd (br_inner (body_reader c3)) = 7)
  /\ (let o := response_deserialize Std (counted slice_read) 60 (bs "HTTP/1.1 200 OK" ++ CRLF ++ bs "A: b" ++ CRLF ++ CRLF ++ bs "x", 0) in
      snd (snd o) = 25).
Proof. vm_compute. repeat split. Qed.

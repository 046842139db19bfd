(** A client that waits for [100 Continue], or for any other sign of life, before it sends the rest of its request: C81. *)
From Verif Require Import Base Utf8 Case Num Io Parser Types Message Outgoing Client Server Transport.
From Verif Require Import Lemmas ReadLemmas NumLemmas ChunkSpec ChunkLemmas BodyLemmas WriteLemmas ParserLemmas CaseLemmas TypesLemmas HeadLemmas
  BlockLemmas MsgLemmas SimLemmas OutLemmas KeepLemmas PBody PIo PParse PHead POut PReuse PServer PEnd NetLemmas Net NetSock NetStep NetFav NetFacts PNet PBodiless.

(** ** Clients that wait *)
(** As long as it has not heard anything, the program sends no more than [w], and does not end. RFC 7231 section 5.1.1: a client that
    sends the header [Expect: 100-continue] may do so with [w] the head of its request. *)
Definition waits {A} (F : process A) (w : bytes) : Prop :=
  lax_process F /\ forall a, a_reads a = [] -> a_end a = false ->
    let s := snd (F sock sock_read sock_writer (fresh a)) in prefix (k_sent s) w /\ ~ ended s.

(** ** C81 *)
Section Waiting.
  Context {A H : Type} (bld : build) (cap : nat) (etext : error -> bytes) (hd : handler H) (bufsz fuel : nat) (hs : H) (room1 room2 : nat).
  Notation server := (server_run bld cap sock_read sock_writer etext hd bufsz fuel hs).

  (** The server does not send [100 Continue], whatever the headers say, nor anything else, before it has all of the request that the
      handler wants ([spare] are the bytes at the end that it does not need: for one that reads the body to its end, the last two). So
      it and such a client wait for each other: neither ever gets a byte from the other beyond the [w], and no execution is
      longer than twice its length. *)
  Theorem C81_waits_for_ever : forall (F : process A) r ops spare q hs' ys out w rest,
    waits F w -> whole_request r ops = w ++ rest -> spare < length rest ->
    sendable_uri (rq_uri r) -> small_version (rq_version r) -> sendable (rq_headers r) -> good_length (rq_headers r) ->
    Forall (fun d => (N.of_nat (length d) <= u64_max)%N) (written ops) ->
    handles hd fuel hs r ops spare q hs' ->
    0 < cap -> length (whole_request r ops) + 4 < fuel -> 0 < bufsz <= fuel ->
    delivers (body_read bld (bufr_read bld cap dyn_read) fuel) (rs_body q) ys -> noisy bld out ys ->
    length (response_wire q []) <= fuel -> length ys < fuel ->
    forall n c, reach (F sock sock_read sock_writer) server room1 room2 n c ->
    let s1 := side1 (F sock sock_read sock_writer) c in let s2 := side2 server c in
    k_sent s2 = [] /\ k_taken s1 = [] /\ prefix (k_sent s1) w /\ ~ ended s1 /\ (exists m, k_stop s2 = Some (ARead m)) /\ n <= 2 * length w.
  Proof.
    intros F r ops spare q hs' ys out w rest [HF Hwait] Hw Hrest Hu Hv Hh Hg Hsz Hha Hcap Hf Hb Hdel Hno Hl1 Hl2.
    pose proof (server_process_lax bld cap etext hd bufsz fuel hs) as HF2. set (F2 := server_process bld cap etext hd bufsz fuel hs) in *.
    assert (Hblock : forall n c, reach (F sock sock_read sock_writer) server room1 room2 n c ->
        a_reads (fst c) = [] -> a_end (fst c) = false -> a_end (snd c) = false ->
        k_sent (side2 server c) = [] /\ (exists m, k_stop (side2 server c) = Some (ARead m))).
    { intros n c Hr Hn1 Hn2 He. destruct (reach_half F F2 HF HF2 room1 room2 n c Hr) as (_ & [_ [t2 B2] B3 B4 _] & _).
      destruct (Hwait (fst c) Hn1 Hn2) as [[t3 Ht3] _]. change (snd (F sock sock_read sock_writer (fresh (fst c)))) with (side1 (F sock sock_read sock_writer) c) in Ht3.
      rewrite B2, <- B3 in Ht3. pose proof Hw as Hw'. rewrite Ht3, <- !app_assoc in Hw'.
      destruct (server_facts bld cap etext hd bufsz fuel hs r ops spare q hs' ys out Hcap Hu Hv Hh Hg Hsz Hf Hha (proj1 Hb) (proj2 Hb) Hdel Hno Hl1 Hl2
        (snd c) (t2 ++ t3 ++ rest) Hw' B4 He) as [(m & K1 & _ & K2)|[K1 _]].
      - split; [exact K2|]. exists m. exact K1.
      - rewrite !app_length in K1. lia. }
    assert (Hinv : forall n c, reach (F sock sock_read sock_writer) server room1 room2 n c ->
      a_reads (fst c) = [] /\ a_end (fst c) = false /\ a_end (snd c) = false).
    { induction 1 as [|n c c' Hr (I1 & I2 & I3) Hst]; [cbn; auto|].
      destruct (Hblock n c Hr I1 I2 I3) as [I4 [m0 I5]].
      destruct Hst as [c f Ha|c f Ha]; destruct Ha as [m x y E1 E2 E3 E4|m E1 E2 E3|x k E1 E2 E3]; cbn [fst snd got closed took a_reads a_end]; auto.
      - exfalso. unfold queue2 in E2. rewrite I4, skipn_nil in E2. now destruct x.
      - exfalso. unfold ended in E3. congruence.
      - exfalso. exact (proj2 (Hwait (fst c) I1 I2) E3). }
    intros n c Hr. cbv zeta. destruct (Hinv n c Hr) as (I1 & I2 & I3). destruct (Hblock n c Hr I1 I2 I3) as [J1 J2].
    destruct (Hwait (fst c) I1 I2) as [J3 J4].
    destruct (reach_half F F2 HF HF2 room1 room2 n c Hr) as ([_ _ G1 _ _] & [_ G2 _ _ _] & G3). rewrite I1 in G1. cbn in G1.
    assert (Hp : length (k_sent (side1 (F sock sock_read sock_writer) c)) <= length w) by (destruct J3 as [t ->]; rewrite app_length; unfold side1; lia).
    split; auto. split; auto. split; auto. split; auto. split; auto.
    unfold count in G3. change (F2 sock sock_read sock_writer) with server in G2, G3. rewrite <- G1, J1, I2, I3 in G3.
    destruct G2 as [t G2]. rewrite G2, app_length in *. cbn [length Nat.b2n] in G3. lia.
  Qed.
End Waiting.
Print Assumptions C81_waits_for_ever.

(** ** A client that does as the RFC says *)
(** It sends the head, waits until it is told something, and then goes on with the program [G] (send the body, if it was told 100). *)
Definition asking {A} (head : bytes) (G : bytes -> process A) : process A :=
  fun S rd wt s => dos _, s1 <- write_all Std wt (length head) head s; dos d, s2 <- rd 4096 s1; G d S rd wt s2.
Theorem C81_such_a_client : forall A head (G : bytes -> process A), (forall d, lax_process (G d)) -> waits (asking head G) head.
Proof.
  intros A head G HG. split.
  - intros S1 S2 R Q rd1 rd2 wt1 wt2 H1 H2 H3. unfold asking.
    apply (lg_sbind Q (fun s => s) (fun s => s) R (fun s => s) (fun s => s) R (write_all Std wt1 (length head) head) (write_all Std wt2 (length head) head)).
    + now apply write_all_lax.
    + intros _. apply (lg_sbind Q (fun s => s) (fun s => s) R (fun s => s) (fun s => s) R (rd1 4096) (rd2 4096)); [apply H1|].
      intros d. now apply HG.
  - intros a Hr He. cbv zeta. unfold asking.
    pose proof (sock_write_all (length head) head (fresh a) eq_refl (le_n _)) as K.
    destruct (write_all Std sock_writer (length head) head (fresh a)) as [x s1]. destruct K as (K1 & K2 & K3 & K4).
    cbn [fresh k_sent app k_reads k_end] in K1, K2, K3. rewrite Hr in K2. rewrite He in K3. destruct K4 as [[-> K4]|[K4 ->]]; cbn [sbind snd].
    + assert (E : sock_read 4096 s1 = (Fuel, mkSock [] (k_writes s1) false (k_sent s1) (k_taken s1) (Some (ARead 4096)))).
      { unfold sock_read. now rewrite K4, K2, K3. }
      rewrite E. cbn [sbind snd k_sent]. split; auto. discriminate.
    + split; auto.
Qed.
Print Assumptions C81_such_a_client.

(** So the claim that a client gets an answer if it waits for one before it sends the body, as HTTP allows, is false: this one, of a
    [PUT] with the header [Expect: 100-continue] to a handler that reads the body, gets to a state where nothing happens any more. *)
Definition C81_req : request unit :=
  mkRequest Put (bs "/up") (mkVersion 1 1) [(bs "expect", bs "100-continue"); (bs "transfer-encoding", bs "chunked")] tt.
Definition C81_head : bytes := concat (request_pieces C81_req).
Definition C81_rest (d : bytes) : process bytes := fun S rd wt s =>
  dos _, s1 <- write_all Std wt 400 (body_wire C81_req C58_ops) s; read_exact Std rd 400 15 [] s1.
Definition C81_client : sock -> res bytes * sock := asking C81_head C81_rest sock sock_read sock_writer.

Lemma C81_rest_lax d : lax_process (C81_rest d).
Proof.
  intros S1 S2 R Q rd1 rd2 wt1 wt2 HR HW HF. unfold C81_rest. apply lg_sbind; [now apply (write_all_lax R Q)|]. intros _. now apply (read_exact_lax Q).
Qed.

Theorem C81_continue_refuted :
  ~ (forall (F : process bytes) hd room1 room2 n c, waits F C81_head ->
       reach (F sock sock_read sock_writer) (C58_server Std hd) room1 room2 n c ->
       ~ deadlock (F sock sock_read sock_writer) (C58_server Std hd) room1 room2 c).
Proof.
  intros C. assert (Hw : waits (asking C81_head C81_rest) C81_head) by (apply C81_such_a_client; exact C81_rest_lax).
  destruct (greedy_deadlock C81_client (C58_server Std echo) 7 3 200 (fun _ => True)) as (n & c & Hr & Hd & _); [vm_compute; exact I|].
  exact (C _ echo 7 3 n c Hw Hr Hd).
Qed.
Print Assumptions C81_continue_refuted.

(** The hypotheses of the theorem hold for it, on queues of any size; and against a peer that says something it goes on. *)
Example C81_case : forall room1 room2 n c, reach C81_client (C58_server Std echo) room1 room2 n c ->
  k_sent (side2 (C58_server Std echo) c) = [] /\ ~ ended (side1 C81_client c) /\ n <= 2 * length C81_head.
Proof.
  intros room1 room2 n c Hr. pose proof (C58_echo_good Std 2 1 (le_n _) (le_n _)) as [].
  destruct (C81_waits_for_ever Std 8 (fun _ => []) echo 4 400 [] room1 room2 (asking C81_head C81_rest) C81_req C58_ops 2
    (from_string OK (bs "hello, world, how are you now?")) [bs "hello, world, how are you now?"]
    (map B (bs "hello, world, how are you now?")) (bs "hello, world, how are you now?") C81_head (body_wire C81_req C58_ops)) with (n := n) (c := c)
    as (K1 & _ & _ & K2 & _ & K3); auto.
  - apply C81_such_a_client. exact C81_rest_lax.
  - vm_compute. lia.
  - apply sendable_check; [reflexivity|]. exact (headers_from_sorted (rq_headers C81_req)).
  - vm_compute. lia.
  - apply ge_fuel2.
  - apply ge_fuel2.
Qed.
Example C81_told : fst (C81_client (mkSock [bs "HTTP/1.1 100 Continue" ++ CRLF ++ CRLF; bs "HTTP/1.1 200 OK" ++ CRLF ++ CRLF] [400; 400] false [] [] None))
  = Ok (bs "HTTP/1.1 200 OK").
Proof. vm_compute. reflexivity. Qed.

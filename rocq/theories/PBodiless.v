(** Property C67: answers that have no body by the rules of HTTP. *)
From Verif Require Import Base Utf8 Case Num Io Parser Types Message Outgoing Client Server Transport.
From Verif Require Import Lemmas ReadLemmas NumLemmas ChunkSpec ChunkLemmas BodyLemmas WriteLemmas ParserLemmas CaseLemmas TypesLemmas HeadLemmas
  BlockLemmas MsgLemmas SimLemmas OutLemmas KeepLemmas PBody PIo PParse PHead POut PReuse PServer PEnd NetLemmas Net NetSock NetStep NetFav NetFacts PNet.

(** RFC 9110, 6.4.1: the answer to a HEAD request, and every answer with a code below 200, 204 or 304, ends with its
    head, whatever its headers say. *)
Definition bodiless (m : method) (code : N) : Prop := m = Head \/ (100 <= code < 200)%N \/ code = 204%N \/ code = 304%N.

(** ** The client takes what follows for the body *)
(** The request [r] with any method is sent, and the stream then carries an answer's head and [zs]. The body is what the
    headers say: with a Content-Length the items of [zs] up to that number of bytes, without it all of [zs]. *)
Theorem C67_takes : forall S bld cap (rd : reader S) (wt : writer S) fuel (r : request unit) s o sa ops ob s1 first lines v st h zs,
  0 < cap -> send bld cap wt fuel r s = (Ok o, sa) -> run_ops bld cap wt fuel ops o = (Ok tt, ob) ->
  finish_send bld cap wt fuel ob = (Ok tt, s1) ->
  good_head first lines v st h -> hm_get (bs "transfer-encoding") h <> Some (bs "chunked") ->
  delivers rd s1 (map B (head_bytes first lines) ++ zs) -> length (map B (head_bytes first lines) ++ zs) < fuel ->
  exists b s2, finish bld cap rd wt fuel ob = (Ok (mkResponse v st h b), s2)
    /\ (hm_get (bs "content-length") h = None -> delivers (body_read bld (bufr_read bld cap rd) fuel) b zs)
    /\ (forall w n, hm_get (bs "content-length") h = Some w -> u64_text w n ->
          delivers (body_read bld (bufr_read bld cap rd) fuel) b (take_items n zs) /\ body_content_length b = Some n).
Proof.
  intros S bld cap rd wt fuel r s o sa ops ob s1 first lines v st h zs Hcap E1 E2 E3 Hh Hte (R & HR & Hs) Hf.
  destruct (response_accepts_rel bld rd R fuel s1 first lines zs v st h HR Hh Hs Hf) as (b & s2 & E & (len & Hlen & Hb) & Hs2).
  destruct Hb as [[Hb _]|[_ ->]]; [congruence|]. exists (match len with Some n => BLimited n (bufr_new s2) | None => BTilClose (bufr_new s2) end), s2.
  assert (D : delivers (bufr_read bld cap rd) (bufr_new s2) zs).
  { exists (bufr_rel bld R). split; [now apply bufr_read_pos|now apply bufr_new_rel]. }
  split; [unfold finish; rewrite E3; exact E|]. split.
  - intros Hn. destruct Hlen as [[_ ->]|(w & n & Hw & _)]; [|congruence]. now apply tilclose_delivers.
  - intros w n Hw Hn. destruct Hlen as [[Hx _]|(w' & n' & Hw' & Hn' & ->)]; [congruence|].
    pose proof (content_length_good h w n Hw Hn) as K1. pose proof (content_length_good h w' n' Hw' Hn') as K2.
    assert (n' = n) by congruence. subst n'. split; [|reflexivity]. now apply C11_limited_items.
Qed.
Print Assumptions C67_takes.

(** On a connection that is used again: of the next answer [mine ++ rest] the first bytes are delivered as the body of
    this one, and the rest is where the reading of the next answer begins (unless it was read ahead, and is lost). *)
Theorem C67_eats_next : forall S bld cap (rd : reader S) (wt : writer S) fuel (r : request unit) s o sa ops ob s1 first lines v st h w mine rest zs,
  0 < cap -> send bld cap wt fuel r s = (Ok o, sa) -> run_ops bld cap wt fuel ops o = (Ok tt, ob) ->
  finish_send bld cap wt fuel ob = (Ok tt, s1) ->
  good_head first lines v st h -> hm_get (bs "transfer-encoding") h <> Some (bs "chunked") ->
  hm_get (bs "content-length") h = Some w -> u64_text w (N.of_nat (length mine)) ->
  delivers rd s1 (map B (head_bytes first lines ++ mine ++ rest) ++ zs) ->
  length (map B (head_bytes first lines ++ mine ++ rest) ++ zs) + 3 < fuel ->
  exists b s2, finish bld cap rd wt fuel ob = (Ok (mkResponse v st h b), s2)
    /\ forall got e b', drains (body_read bld (bufr_read bld cap rd) fuel) b got e b' ->
       got = mine /\ e = None
       /\ (br_buf (body_reader b') = [] \/ bld = NoStd -> delivers rd (br_inner (body_reader b')) (map B rest ++ zs)).
Proof.
  intros S bld cap rd wt fuel r s o sa ops ob s1 first lines v st h w mine rest zs Hcap E1 E2 E3 Hh Hte Hw Hn Hd Hf.
  rewrite (app_assoc (head_bytes first lines)), map_app, <- app_assoc in Hd, Hf.
  destruct (C44_after_length S bld cap rd fuel s1 first lines v st h mine w _ Hcap Hh Hte Hw Hn Hd Hf) as (b & s2 & E & K).
  exists b, s2. split; [unfold finish; rewrite E3; exact E|]. exact K.
Qed.
Print Assumptions C67_eats_next.

(** ** An interim answer is taken for the final one *)
(** [client::get] and [client::put] (through [exchange], src/client.rs 299-316): if the server says 100, 102 or 103 first,
    that is the result, an error; the answer that follows is not looked at. *)
Theorem C67_interim : forall S Bd bld cap (rd : reader S) (wt : writer S) bufsz (rdb : reader Bd) fuel (r : request unit) body s o sa n body' o1 s1 first lines v st h zs,
  send bld cap wt fuel r s = (Ok o, sa) ->
  copy bld rdb (outgoing_writer bld cap wt fuel) bufsz fuel body o = (Ok n, (body', o1)) ->
  finish_send bld cap wt fuel o1 = (Ok tt, s1) ->
  good_head first lines v st h -> (100 <= to_code st < 200)%N ->
  delivers rd s1 (map B (head_bytes first lines) ++ zs) -> length (map B (head_bytes first lines) ++ zs) < fuel ->
  fst (exchange bld cap rd wt bufsz rdb fuel r body s) = Err (UnexpectedStatus st).
Proof.
  intros S Bd bld cap rd wt bufsz rdb fuel r body s o sa n body' o1 s1 first lines v st h zs E1 E2 E3 Hh Hst (R & HR & Hs) Hf.
  destruct (response_accepts_rel bld rd R fuel s1 first lines zs v st h HR Hh Hs Hf) as (b & s2 & E & _ & _).
  destruct (C41_exchange S Bd bld cap rd wt bufsz rdb fuel r body s) as [_ K].
  apply (K (mkResponse v st h b)).
  - exists o, sa, n, body', o1, s2. split; [exact E1|]. split; [exact E2|]. unfold finish. rewrite E3. exact E.
  - cbn [rs_status]. intros ->. cbn in Hst. lia.
Qed.
Print Assumptions C67_interim.

(** ** Waiting for a body that does not come *)
Section Wait.
  (* the client, which reads the whole body of the answer *)
  Context (bld : build) (cap fuel : nat) (r : request unit) (ops : list op) (nbuf : nat).
  Context {A : Type} (done : bytes -> A) (failed : error -> prog A) (Hdone : forall x y, done x = done y -> x = y)
    (Hfailed : forall e, reads_some (failed e)).
  Notation client := (client_run bld cap sock_read sock_writer fuel r ops (fun _ _ => slurp nbuf (fun d => Ret (done d)) failed [])).
  Context (Hops : has_body (rq_method r) = true \/ ops = []) (Hcap : 0 < cap <= fuel) (Hbuf : 0 < nbuf) (H5 : 5 <= fuel)
    (Hl : length (concat (request_pieces r)) <= fuel) (Hw : Forall (fun d => length (chunk_of d) <= fuel) (written ops)).
  (* the peer's answer *)
  Context {X : Type} (q : response X) (part : bytes).
  Context (Hv : small_version (rs_version q)) (Hcode : (to_code (rs_status q) < 2 ^ 32)%N) (Hsend : sendable (rs_headers q)).
  (* its headers announce more than [part], or nothing *)
  Context (Hte : hm_get (bs "transfer-encoding") (rs_headers q) <> Some (bs "chunked")).
  Context (size : nat) (Hsize : length part < size) (Hlen : hm_get (bs "content-length") (rs_headers q) = None
    \/ exists w, hm_get (bs "content-length") (rs_headers q) = Some w /\ u64_text w (N.of_nat size)).
  Context (Hfuel : length (response_wire q []) + size + 5 < fuel).

  Lemma full_wire out : response_wire q out = response_wire q [] ++ out.
  Proof. unfold response_wire. now rewrite app_nil_r, <- !app_assoc. Qed.

  (** As long as the client has been given no more than that, and no end, it has not returned. *)
  Lemma client_waits a : prefix (concat (a_reads a)) (response_wire q part) -> Forall (fun d => d <> []) (a_reads a) -> a_end a = false ->
    ~ ended (snd (client (fresh a))).
  Proof.
    intros [rest Hp] Hne He Hk.
    set (out := fun x : byte => part ++ repeat x (size - length part)).
    assert (Hout : forall x, length (out x) = size) by (intros; unfold out; rewrite app_length, repeat_length; lia).
    assert (G : forall x, exists st, fst (client (fresh a)) = Ok (st, rs_headers q, done (out x))).
    { intros x.
      destruct (client_gets bld cap fuel r ops (fun _ _ => slurp nbuf (fun d => Ret (done d)) failed []) Hops ltac:(lia) H5 Hl Hw a X q (out x)
        (rest ++ repeat x (size - length part))) as (st & y & l & K1 & _ & _ & _ & K2); auto; try lia.
      - split; [exact Hte|]. rewrite Hout. exact Hlen.
      - rewrite full_wire, app_length, Hout. lia.
      - intros st h. apply slurp_reads_some; auto. intros d. constructor.
      - intros len st _. apply (C52_reading_to_the_end A nbuf done failed len fuel (out x)); auto. rewrite Hout. lia.
      - unfold out. rewrite full_wire, app_assoc, <- full_wire, Hp. now rewrite app_assoc.
      - congruence.
      - exists st. apply (C52_reading_to_the_end A nbuf done failed l (length (out x) + 2) (out x)) in K2; auto. now rewrite K2 in K1. }
    destruct (G x00) as (st0 & G0). destruct (G x01) as (st1 & G1). rewrite G0 in G1. injection G1 as _ G1. apply Hdone in G1.
    unfold out in G1. apply app_inv_head in G1. destruct (size - length part) eqn:E; [lia|]. cbn [repeat] in G1. discriminate.
  Qed.

  (** A peer that sends this and keeps the connection open as long as the client does: the client never returns. *)
  Theorem C67_waits : forall B (F : process B) room1 room2, lax_process F ->
    (forall a, prefix (k_sent (snd (F sock sock_read sock_writer (fresh a)))) (response_wire q part)) ->
    (forall n c, reach client (F sock sock_read sock_writer) room1 room2 n c ->
       ended (side2 (F sock sock_read sock_writer) c) -> ended (side1 client c)) ->
    forall n c, reach client (F sock sock_read sock_writer) room1 room2 n c -> ~ ended (side1 client c).
  Proof.
    intros Bt F room1 room2 HF Hsent Hopen.
    assert (Hend : forall n c, reach client (F sock sock_read sock_writer) room1 room2 n c -> a_end (fst c) = false).
    { intros n c Hr. induction Hr as [|n c c' Hr IH Hs]; [reflexivity|]. inversion Hs as [c0 f Ha|c0 f Ha]; subst; cbn [fst]; [|exact IH].
      inversion Ha as [m d rest K1 K2 K3 K4|m K1 K2 K3|data k K1 K2 K3]; subst; cbn [got took a_end]; auto.
      apply Hopen with (n := n) in K3; auto. unfold ended in K3. congruence. }
    intros n c Hr. destruct (reach_half (client_process bld cap fuel r ops (fun _ _ => slurp nbuf (fun d => Ret (done d)) failed [])) F
      (client_process_lax _ _ _ _ _ _) HF room1 room2 n c Hr) as ([_ H1 H2 H3 _] & _ & _).
    apply client_waits.
    - rewrite H2. destruct H1 as [t1 H1]. destruct (Hsent (snd c)) as [t2 H4]. exists (t1 ++ t2). unfold side2 in H1. rewrite app_assoc, <- H1. exact H4.
    - exact H3.
    - exact (Hend n c Hr).
  Qed.
End Wait.
Print Assumptions C67_waits.

(** *** A peer that keeps the connection open *)
(** It sends its answer and then waits for a next request: for more bytes than the client's request has. *)
Definition keep_alive (answer : bytes) (n fuel : nat) : process bytes :=
  fun S rd wt s => sbind (write_all Std wt fuel answer s) (fun _ => read_exact Std rd fuel n []).
Lemma keep_alive_lax answer n fuel : lax_process (keep_alive answer n fuel).
Proof.
  intros S1 S2 R Q rd1 rd2 wt1 wt2 HR HW HF. unfold keep_alive. apply lg_sbind; [now apply (write_all_lax R Q)|]. intros _. now apply (read_exact_lax Q).
Qed.

Lemma sock_write_all fuel : forall data s, k_stop s = None -> length data <= fuel ->
  let (x, s') := write_all Std sock_writer fuel data s in
  prefix (k_sent s') (k_sent s ++ data) /\ k_reads s' = k_reads s /\ k_end s' = k_end s
  /\ ((x = Ok tt /\ k_stop s' = None) \/ (k_stop s' <> None /\ x = Fuel)).
Proof.
  induction fuel as [|f IH]; intros [|b data] s Hs Hl; cbn [write_all length] in *; try lia.
  1,2: rewrite app_nil_r; split; [exists []; now rewrite app_nil_r|auto].
  unfold sock_writer at 1, sock_write. cbn [wr]. rewrite Hs. destruct (k_writes s) as [|k t].
  - cbn [k_sent k_reads k_end k_stop]. split; [now exists (b :: data)|]. split; [auto|]. split; [auto|]. right. easy.
  - destruct (clip_bounds k b data) as [C1 C2]. destruct (clip k (b :: data)) as [|c] eqn:Ec; [lia|].
    assert (Hle : (Datatypes.S c <=? Datatypes.S (length data)) = true) by (apply Nat.leb_le; exact C2). rewrite Hle.
    specialize (IH (skipn (Datatypes.S c) (b :: data))
      (mkSock (k_reads s) t (k_end s) (k_sent s ++ firstn (Datatypes.S c) (b :: data)) (k_taken s) None) eq_refl).
    rewrite skipn_length in IH. specialize (IH ltac:(cbn [length]; lia)).
    destruct (write_all Std sock_writer f _ _) as [x s']. cbn [k_sent k_reads k_end] in IH. rewrite <- app_assoc, firstn_skipn in IH. exact IH.
Qed.

Lemma sock_read_exact fuel : forall n acc s, k_stop s = None -> k_end s = false -> Forall (fun d => d <> []) (k_reads s) ->
  length (concat (k_reads s)) < n -> n <= fuel -> k_stop (snd (read_exact Std sock_read fuel n acc s)) <> None.
Proof.
  induction fuel as [|f IH]; intros [|n] acc s Hs He Hr Hl Hf; try lia. cbn [read_exact]. unfold sock_read at 1. rewrite Hs.
  destruct (k_reads s) as [|d t] eqn:E; [now rewrite He|]. apply Forall_cons_iff in Hr as [Hd Ht]. destruct d as [|b d]; [easy|].
  cbn [concat] in Hl. rewrite app_length in Hl. rewrite firstn_all2 by lia. rewrite skipn_all2 by lia.
  destruct (Nat.leb_spec (length (b :: d)) (Datatypes.S n)); [|lia]. apply IH; cbn [k_stop k_end k_reads length] in *; auto; lia.
Qed.

(** For instance the answer to a HEAD request, or a 204 or a 304 without a length, from a server that keeps connections
    alive: whoever reads the body waits for ever. *)
Theorem C67_keep_alive : forall bld cap fuel (r : request unit) ops nbuf A (done : bytes -> A) failed X (q : response X) size n fuel2 room1 room2,
  (forall x y, done x = done y -> x = y) -> (forall e, reads_some (failed e)) ->
  has_body (rq_method r) = true \/ ops = [] -> 0 < cap <= fuel -> 0 < nbuf ->
  length (concat (request_pieces r)) <= fuel -> Forall (fun d => length (chunk_of d) <= fuel) (written ops) ->
  small_version (rs_version q) -> (to_code (rs_status q) < 2 ^ 32)%N -> sendable (rs_headers q) ->
  hm_get (bs "transfer-encoding") (rs_headers q) <> Some (bs "chunked") ->
  0 < size -> (hm_get (bs "content-length") (rs_headers q) = None
    \/ exists w, hm_get (bs "content-length") (rs_headers q) = Some w /\ u64_text w (N.of_nat size)) ->
  length (response_wire q []) + size + 5 < fuel ->
  length (whole_request r ops) < n <= fuel2 -> length (response_wire q []) <= fuel2 ->
  forall k c, reach (client_run bld cap sock_read sock_writer fuel r ops (fun _ _ => slurp nbuf (fun d => Ret (done d)) failed []))
                (keep_alive (response_wire q []) n fuel2 sock sock_read sock_writer) room1 room2 k c ->
  ~ ended (side1 (client_run bld cap sock_read sock_writer fuel r ops (fun _ _ => slurp nbuf (fun d => Ret (done d)) failed [])) c).
Proof.
  intros bld cap fuel r ops nbuf A done failed X q size n fuel2 room1 room2 Hdone Hfailed Hops Hcap Hbuf Hl Hw Hv Hcode Hsend Hte Hsize Hlen Hfuel Hn Hf2 k c Hr.
  refine (C67_waits bld cap fuel r ops nbuf done failed Hdone Hfailed Hops Hcap Hbuf ltac:(lia) Hl Hw q [] Hv Hcode Hsend Hte size Hsize Hlen Hfuel
    bytes (keep_alive (response_wire q []) n fuel2) room1 room2 (keep_alive_lax _ _ _) _ _ k c Hr).
  - intros a. unfold keep_alive. pose proof (sock_write_all fuel2 (response_wire q []) (fresh a) eq_refl Hf2) as K.
    destruct (write_all Std sock_writer fuel2 (response_wire q []) (fresh a)) as [x s'] eqn:E. destruct K as (K1 & _ & _ & K). cbn [fresh k_sent app] in K1.
    destruct K as [[-> K]|[K ->]]; cbn [sbind snd]; [|exact K1].
    pose proof (reads_keep (fun S rd wt => read_exact Std rd fuel2 n []) s'
      ltac:(intros S1 S2 R Q rd1 rd2 wt1 wt2 HR HW HF; now apply (read_exact_lax Q)) ltac:(easy) K) as (_ & _ & K2). cbv beta in K2. now rewrite K2.
  - clear k c Hr. intros k c Hr Hend.
    destruct (reach_half (client_process bld cap fuel r ops (fun _ _ => slurp nbuf (fun d => Ret (done d)) failed [])) (keep_alive (response_wire q []) n fuel2)
      (client_process_lax _ _ _ _ _ _) (keep_alive_lax _ _ _) room1 room2 k c Hr) as (_ & [_ H1 H2 H3 H4] & _).
    destruct (a_end (snd c)) eqn:Ee; [exact (proj1 (H4 eq_refl))|]. exfalso.
    assert (Hlt : length (concat (a_reads (snd c))) < n).
    { rewrite H2. destruct H1 as [t1 H1]. apply (f_equal (@length byte)) in H1. rewrite app_length in H1.
      assert (Hp : prefix (k_sent (side1 (client_process bld cap fuel r ops (fun _ _ => slurp nbuf (fun d => Ret (done d)) failed []) sock sock_read sock_writer) c)) (whole_request r ops)).
      { destruct (client_sends bld cap fuel r ops (fun _ _ => slurp nbuf (fun d => Ret (done d)) failed []) Hops ltac:(lia) ltac:(lia) Hl Hw (fst c)) as [(d & _ & [t Ht])|[_ Ht]].
        - exists (d ++ t). now rewrite app_assoc.
        - exists []. rewrite app_nil_r. now symmetry. }
      destruct Hp as [t2 Hp]. apply (f_equal (@length byte)) in Hp. rewrite app_length in Hp. lia. }
    unfold side2, keep_alive in Hend. pose proof (sock_write_all fuel2 (response_wire q []) (fresh (snd c)) eq_refl Hf2) as K.
    destruct (write_all Std sock_writer fuel2 (response_wire q []) (fresh (snd c))) as [x s'] eqn:E. destruct K as (_ & K1 & K2 & K). cbn [fresh k_reads k_end] in *.
    destruct K as [[-> K]|[K ->]]; cbn [sbind snd] in Hend; [|contradiction].
    revert Hend. apply sock_read_exact; rewrite ?K1, ?K2; auto; lia.
Qed.
Print Assumptions C67_keep_alive.

(** ** The server sends the body of a HEAD answer *)
(** What the handler for HEAD (or any other method without a body) returns is sent with its body. *)
Theorem C67_server_sends : forall S H bld cap (rd : reader S) (wt : writer S) etext log (hd : handler H) bufsz fuel hs s first lines zs m u v h f q hs' xs out,
  0 < cap -> good_request first lines m u v h -> plain_method hd m = Some f -> f u hs = (Ok (inl q), hs') \/ f u hs = (Ok (inr q), hs') ->
  delivers rd s (map B (head_bytes first lines) ++ zs) -> length (map B (head_bytes first lines) ++ zs) < fuel ->
  honest wt log -> reliable wt -> silent rd log -> 0 < bufsz -> bufsz <= fuel ->
  delivers (body_read bld (bufr_read bld cap dyn_read) fuel) (rs_body q) xs -> noisy bld out xs ->
  length (response_wire q []) <= fuel -> length xs < fuel ->
  exists s2, serve_stream bld cap rd wt etext hd bufsz fuel hs s = (Ok tt, [Called m u], hs', s2) /\ log s2 = log s ++ response_wire q out.
Proof.
  intros S H bld cap rd wt etext log hd bufsz fuel hs s first lines zs m u v h f q hs' xs out Hcap Hq Hm Hfq Hs Hf Hh Hr Hsil Hz1 Hz2 Hd Hn H1 H2.
  destruct (serve_one_inner bld cap rd etext hd fuel hs s) as [[[y cs] hs1] s1] eqn:E.
  destruct (C46_dispatch S H bld cap rd etext hd fuel hs s first lines zs m u v h Hcap Hq Hs Hf y cs hs1 s1 E) as [K _].
  destruct (K f Hm) as [-> K2]. destruct Hfq as [Eq|Eq]; rewrite Eq in K2; injection K2 as -> ->.
  - exact (C50_complete S H bld cap rd wt etext log hd bufsz fuel hs s _ _ _ s1 q xs out Hh Hr Hsil Hz1 E (or_introl eq_refl) Hd Hn H1 Hz2 H2).
  - exact (C50_complete S H bld cap rd wt etext log hd bufsz fuel hs s _ _ _ s1 q xs out Hh Hr Hsil Hz1 E (or_intror eq_refl) Hd Hn H1 Hz2 H2).
Qed.
Print Assumptions C67_server_sends.

(** ** The rule does not hold *)
Definition C67_request (m : method) : request unit := mkRequest m (bs "/x") (mkVersion 1 1) [] tt.
Definition C67_next : bytes := reply (bs "404 Not Found") (bs "no").
(** The result of [finish] and the first read of the body, on a stream that carries [wire]. *)
Definition C67_try (bld : build) (m : method) (wire : bytes) : option (status * res bytes) :=
  match send bld 16 wire3_writer 300 (C67_request m) ([], segs [wire]) with
  | (Ok o, _) => match finish bld 16 wire3_read wire3_writer 300 o with
                 | (Ok resp, _) => Some (rs_status resp, fst (body_read bld (bufr_read bld 16 wire3_read) 300 100 (rs_body resp)))
                 | _ => None
                 end
  | _ => None
  end.

(** Not every answer that has no body is read as having none. *)
Theorem C67_no_body_refuted : ~ forall S bld cap (rd : reader S) (wt : writer S) fuel (r : request unit) s o sa s1 first lines v st h zs resp s2 n got b,
  0 < cap -> send bld cap wt fuel r s = (Ok o, sa) -> finish_send bld cap wt fuel o = (Ok tt, s1) ->
  good_head first lines v st h -> bodiless (rq_method r) (to_code st) ->
  delivers rd s1 (map B (head_bytes first lines) ++ zs) -> finish bld cap rd wt fuel o = (Ok resp, s2) ->
  0 < n -> body_read bld (bufr_read bld cap rd) fuel n (rs_body resp) = (Ok got, b) -> got = [].
Proof.
  intros H.
  set (wire := head_bytes (bs "HTTP/1.1 200 OK") [bs "Content-Length: 2"] ++ C67_next).
  destruct (send NoStd 16 wire3_writer 300 (C67_request Head) ([], segs [wire])) as [[o| | |] sa] eqn:E1; vm_compute in E1; try discriminate.
  destruct (finish_send NoStd 16 wire3_writer 300 o) as [[[]| | |] s1] eqn:E2; [|injection E1 as <- <-; vm_compute in E2; discriminate ..].
  destruct (finish NoStd 16 wire3_read wire3_writer 300 o) as [[resp| | |] s2] eqn:E3; [|injection E1 as <- <-; vm_compute in E3; discriminate ..].
  destruct (body_read NoStd (bufr_read NoStd 16 wire3_read) 300 100 (rs_body resp)) as [[got| | |] b] eqn:E4;
    [|injection E1 as <- <-; vm_compute in E3; injection E3 as <- <-; vm_compute in E4; discriminate ..].
  assert (Hgot : got = bs "HT").
  { injection E1 as <- <-. vm_compute in E3. injection E3 as <- <-. vm_compute in E4. injection E4 as <- _. reflexivity. }
  assert (Hs1 : snd s1 = segs [wire]) by (injection E1 as <- <-; vm_compute in E2; injection E2 as <-; reflexivity).
  assert (E1' : send NoStd 16 wire3_writer 300 (C67_request Head) ([], segs [wire]) = (Ok o, sa)) by (injection E1 as <- <-; vm_compute; reflexivity).
  enough (got = []) by (subst got; discriminate).
  refine (H wire3 NoStd 16 wire3_read wire3_writer 300 (C67_request Head) _ o sa s1 (bs "HTTP/1.1 200 OK") [bs "Content-Length: 2"] (mkVersion 1 1) OK
    [(bs "content-length", bs "2")] (map B C67_next) resp s2 100 got b ltac:(lia) E1' E2 _ (or_introl eq_refl) _ E3 ltac:(lia) E4).
  - exact (proj1 C44_case).
  - rewrite <- map_app. fold wire. destruct s1 as [w1 evs1]. cbn [snd] in Hs1. subst evs1. exact (wire3_delivers w1 (segs [wire])).
Qed.
Print Assumptions C67_no_body_refuted.

Definition C67_answer : response unit := mkResponse (mkVersion 1 1) OK [(bs "content-length", bs "2")] tt.
Definition C67_client := client_run Std 16 sock_read sock_writer 300 (C67_request Head) [] (fun _ _ => slurp 5 (fun d => Ret (Some d)) (fun _ => Ret None) []).
Definition C67_peer := keep_alive (response_wire C67_answer []) 50 300 sock sock_read sock_writer.
Lemma C67_never n c : reach C67_client C67_peer 64 64 n c -> ~ ended (side1 C67_client c).
Proof.
  unfold C67_client, C67_peer.
  apply (C67_keep_alive Std 16 300 (C67_request Head) [] 5 (option bytes) Some (fun _ => Ret None) unit C67_answer 2 50 300 64 64).
  - congruence.
  - intros. constructor.
  - now right.
  - lia.
  - lia.
  - vm_compute. lia.
  - constructor.
  - split; reflexivity.
  - reflexivity.
  - apply sendable_check; [reflexivity|]. exact (headers_from_sorted [(bs "content-length", bs "2")]).
  - discriminate.
  - lia.
  - right. exists (bs "2"). split; [reflexivity|]. split; [reflexivity|]. left. split; [easy|]. exists [2%N]. split; [repeat constructor; vm_compute; congruence|reflexivity].
  - vm_compute. lia.
  - vm_compute. lia.
  - vm_compute. lia.
Qed.
Example C67_case :
  (* the next answer is taken for the body of the answer to HEAD, and without a length everything is *)
  C67_try NoStd Head (head_bytes (bs "HTTP/1.1 200 OK") [bs "Content-Length: 2"] ++ C67_next) = Some (OK, Ok (bs "HT"))
  /\ C67_try Std Head (head_bytes (bs "HTTP/1.1 200 OK") [] ++ bs "later") = Some (OK, Ok (bs "later"))
  /\ C67_try Std Put (head_bytes (bs "HTTP/1.1 100 Continue") [] ++ bs "HTTP/1.1 200 OK") = Some (Continue, Ok (bs "HTTP/1.1 200 OK"))
  /\ C67_try Std Get (head_bytes (bs "HTTP/1.1 204 No Content") [] ++ bs "later") = Some (NoContent, Ok (bs "later"))
  /\ bodiless Head 200 /\ bodiless Put 100 /\ bodiless Get 204 /\ ~ bodiless Get 200
  (* the server's answer to HEAD has a body *)
  /\ serve_text echo [bs "HEAD /x HTTP/1.1" ++ CRLF ++ CRLF] = (Ok tt, [Called Head (bs "/x")], [bs "/x"], reply (bs "200 OK") (bs "/x"))
  (* a peer that keeps the connection open: the client has the whole head, and has not returned *)
  /\ exists n c, reach C67_client C67_peer 64 64 n c /\ concat (a_reads (fst c)) = response_wire C67_answer [] /\ ~ ended (side1 C67_client c).
Proof.
  do 4 (split; [vm_compute; reflexivity|]). split; [now left|]. split; [right; left; lia|]. split; [right; right; left; reflexivity|].
  split; [intros [H|[H|[H|H]]]; [discriminate|lia|discriminate|discriminate]|]. split; [vm_compute; reflexivity|].
  destruct (greedy_outcome C67_client C67_peer 64 64 200 (fun _ c => concat (a_reads (fst c)) = response_wire C67_answer [])) as (n & c & Hr & Hc).
  { vm_compute. reflexivity. }
  exists n, c. split; [exact Hr|]. split; [exact Hc|].
  exact (C67_never n c Hr).
Qed.

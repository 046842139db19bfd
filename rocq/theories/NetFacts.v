(** What the client and the server do on a blocking socket, however far they get. *)
From Verif Require Import Base Utf8 Case Num Io Parser Types Message Outgoing Client Server Transport.
From Verif Require Import Lemmas ReadLemmas NumLemmas ChunkSpec ChunkLemmas BodyLemmas WriteLemmas ParserLemmas CaseLemmas TypesLemmas HeadLemmas
  BlockLemmas MsgLemmas SimLemmas OutLemmas KeepLemmas PBody PIo PParse PHead POut PReuse PServer PEnd NetLemmas Net NetSock NetStep NetFav.

(** ** The client *)
Lemma client_send_reliable {S} bld cap (wt : writer S) log fuel r ops s : honest wt log -> reliable wt ->
  has_body (rq_method r) = true \/ ops = [] -> cap <= fuel -> 5 <= fuel -> length (concat (request_pieces r)) <= fuel ->
  Forall (fun d => length (chunk_of d) <= fuel) (written ops) ->
  exists s1, client_send bld cap wt fuel r ops s = (Ok tt, s1) /\ log s1 = log s ++ whole_request r ops.
Proof.
  intros Hh Hr Hb Hc H5 Hl Hw. destruct (has_body (rq_method r)) eqn:Eb.
  - destruct (C05_succeeds S bld cap wt log fuel r s ops Hh Hr Eb Hc H5 Hl Hw) as (o & sa & ob & s1 & E1 & E2 & E3 & E4).
    exists s1. unfold client_send. rewrite E1, E2, E3. split; auto. unfold whole_request. now rewrite Eb.
  - destruct Hb as [Hb| ->]; [discriminate|].
    destruct (send_reliable bld cap wt log fuel r s Hh Hr Hc Hl) as (o & sa & E1).
    destruct (C38_write_fails S bld cap wt log fuel r s o sa [] Hh Eb E1) as [_ Eo].
    destruct (proj2 Hr sa) as [s1 E2].
    assert (E3 : finish_send bld cap wt fuel o = (Ok tt, s1)) by (subst o; exact E2).
    exists s1. unfold client_send. rewrite E1. cbn [run_ops]. split; [exact E3|].
    destruct (C38_only_head S bld cap wt log fuel r s o sa [] (Ok tt) o _ _ Hh Eb E1 eq_refl E3) as (_ & _ & E4).
    rewrite E4. unfold whole_request. rewrite Eb. now rewrite app_nil_r.
Qed.

(** The [content_length] of a response body with [k] bytes to go. *)
Definition plain_length (h : headers) (len : nat -> option N) : Prop :=
  (hm_get (bs "content-length") h = None /\ forall k, len k = None)
  \/ (hm_get (bs "content-length") h <> None /\ forall k, len k = Some (N.of_nat k)).

Lemma client_recv_gets {S A} bld cap (rd : reader S) fuel (p : status -> headers -> prog A) s Q (q : response Q) out :
  0 < cap -> small_version (rs_version q) -> (to_code (rs_status q) < 2 ^ 32)%N -> sendable (rs_headers q) ->
  honest_framing (rs_headers q) out ->
  delivers rd s (map B (response_wire q out)) -> length (response_wire q out) + 3 < fuel ->
  (forall st h, reads_some (p st h)) ->
  (forall len st, to_code st = to_code (rs_status q) -> stops len fuel (p st (rs_headers q)) out) ->
  exists st x s2 len, client_recv bld cap rd fuel p s = (Ok (st, rs_headers q, x), s2)
    /\ to_code st = to_code (rs_status q) /\ ((forall c, rs_status q <> StUnknown c) -> st = rs_status q)
    /\ plain_length (rs_headers q) len /\ runs len (p st (rs_headers q)) out x.
Proof.
  intros Hc Hv Hcode Hs [Hte Hcl] Hd Hf Hp Hst.
  assert (Ew : map B (response_wire q out) = map B (concat (response_pieces q)) ++ map B out).
  { rewrite <- map_app. f_equal. rewrite response_pieces_wire. unfold response_wire. now rewrite <- !app_assoc. }
  assert (Hg : good_length (rs_headers q)).
  { intros w Hw. destruct Hcl as [Hcl|(w' & Hcl & Hn)]; [congruence|]. rewrite Hw in Hcl. injection Hcl as <-. eauto. }
  rewrite Ew in Hd. assert (Hf' : length (map B (concat (response_pieces q)) ++ map B out) + 3 < fuel) by (rewrite <- Ew, map_length; lia).
  destruct (C29_response_round_trip S bld rd fuel s Q q (map B out) Hv Hcode Hs Hg Hd ltac:(lia)) as (st & b & s2 & E & H1 & H2 & Hfr & Ds2).
  assert (K : exists R (I : hbody (bufr S) -> bytes -> Prop) len, reader_pos (body_read bld (bufr_read bld cap rd) fuel) R /\ R b (map B out)
     /\ plain_length (rs_headers q) len /\ I b out
     /\ (forall n b b' got rest, I b (got ++ rest) -> body_read bld (bufr_read bld cap rd) fuel n b = (Ok got, b') -> I b' rest)
     /\ (forall b d, I b d -> body_content_length b = len (length d))).
  { destruct Hcl as [Hcl|(w & Hcl & Hn)].
    - destruct Hfr as (l & Hlen & Hb). destruct Hb as [[Hb _]|[_ ->]]; [congruence|].
      destruct Hlen as [[_ ->]|(w & n & Hw & _)]; [|congruence].
      destruct (tilclose_delivers bld (bufr_read bld cap rd) (bufr_new s2) (map B out) fuel (bufr_delivers bld cap rd s2 _ Hc Ds2)) as (R & HR & Hb).
      exists R, (fun b _ => exists t, b = BTilClose t), (fun _ => None). repeat (split; auto).
      + now left.
      + eauto.
      + intros n0 b0 b1 got rest (t0 & ->) Eb. apply body_length_step in Eb. exact Eb.
      + intros b0 d (t0 & ->). reflexivity.
    - pose proof (carries_length (rs_headers q) out w Hte Hcl Hn) as Hcar.
      destruct (bufr_delivers bld cap rd s2 (map B out) Hc Ds2) as (R0 & HR0 & Hs2).
      destruct (carries_read bld (bufr_read bld cap rd) R0 (bufr_new s2) (rs_headers q) out out [] b fuel HR0 Hfr Hcar) as (R & HR & Hb & _).
      + now rewrite app_nil_r.
      + rewrite app_length in Hf'. rewrite app_nil_r. lia.
      + exists R, (fun b d => exists t, b = BLimited (N.of_nat (length d)) t), (fun k => Some (N.of_nat k)). split; auto. split; auto.
        split; [right; split; auto; congruence|]. split; [|split].
        * destruct Hfr as (l & Hlen & Hfb). destruct Hfb as [[Hfb _]|[_ ->]]; [congruence|].
          destruct Hlen as [[Hl _]|(w' & n & Hl & Hn' & ->)]; [congruence|]. rewrite Hcl in Hl. injection Hl as <-.
          assert (En : n = N.of_nat (length out)).
          { pose proof (content_length_good (rs_headers q) w _ Hcl Hn). pose proof (content_length_good (rs_headers q) w _ Hcl Hn'). congruence. }
          subst. eauto.
        * intros n0 b0 b1 got rest (t0 & ->) Eb. apply body_length_step in Eb as (t1 & ->). exists t1. f_equal. rewrite app_length. lia.
        * intros b0 d (t0 & ->). reflexivity. }
  destruct K as (R & I & len & HR & Hb & Hpl & Ib & HI & HL).
  destruct (run_prog bld (bufr_read bld cap rd) fuel fuel (p st (rs_headers q)) b) as [x b'] eqn:Ep.
  destruct (run_prog_runs bld (bufr_read bld cap rd) fuel len R I HR HI HL fuel (p st (rs_headers q)) b out x b' Hb Ib (Hp _ _) Ep) as [[_ Hn]|(a & -> & Ha)].
  { destruct (Hn (Hst len st H1)). }
  exists st, a, (br_inner (body_reader b')), len. unfold client_recv. rewrite E. cbn [rs_body rs_status rs_headers]. rewrite Ep. cbn [rbind].
  repeat (split; auto).
Qed.

Lemma send_only_writes bld cap fuel r ops : only_writes (send_process bld cap fuel r ops).
Proof. intros S rd rd' wt s. reflexivity. Qed.
Lemma recv_only_reads {A} bld cap fuel (p : status -> headers -> prog A) : only_reads (recv_process bld cap fuel p).
Proof. intros S rd wt wt' s. reflexivity. Qed.

Section ClientFacts.
  Context {A : Type} (bld : build) (cap fuel : nat) (r : request unit) (ops : list op) (p : status -> headers -> prog A).
  Context (Hb : has_body (rq_method r) = true \/ ops = []) (Hc : cap <= fuel) (H5 : 5 <= fuel)
    (Hl : length (concat (request_pieces r)) <= fuel) (Hw : Forall (fun d => length (chunk_of d) <= fuel) (written ops)).
  Notation run := (client_process bld cap fuel r ops p sock sock_read sock_writer).

  (** The sending half. *)
  Lemma client_send_facts a :
    let '(x, s1) := client_send bld cap sock_writer fuel r ops (fresh a) in
    (exists d, k_stop s1 = Some (AWrite d) /\ prefix (k_sent s1 ++ d) (whole_request r ops))
    \/ (x = Ok tt /\ k_stop s1 = None /\ k_sent s1 = whole_request r ops /\ k_reads s1 = a_reads a /\ k_end s1 = a_end a /\ k_taken s1 = []).
  Proof using Hb Hc H5 Hl Hw.
    set (F := send_process bld cap fuel r ops). pose proof (send_process_lax bld cap fuel r ops : lax_process F) as HF.
    destruct (writes_keep F (fresh a) HF (send_only_writes bld cap fuel r ops) eq_refl) as (K1 & K2 & K3 & K4).
    change (client_send bld cap sock_writer fuel r ops (fresh a)) with (F sock sock_read sock_writer (fresh a)).
    pose proof (fav [] F (fresh a) (goes_on [] (fresh a)) HF (goes_on_R [] (fresh a) eq_refl)) as Hfav.
    destruct (client_send_reliable bld cap f_writer f_sent fuel r ops (goes_on [] (fresh a)) f_honest f_reliable Hb Hc H5 Hl Hw) as (s2 & E2 & L2).
    change (F fsock f_read f_writer (goes_on [] (fresh a))) with (client_send bld cap f_writer fuel r ops (goes_on [] (fresh a))) in Hfav.
    rewrite E2 in Hfav. cbn [fst snd] in Hfav. cbn [f_sent goes_on fresh k_sent app] in L2.
    destruct (F sock sock_read sock_writer (fresh a)) as [x s1]. cbn [fst snd] in *.
    destruct Hfav as [[Hx (R1 & _ & _ & _ & R5 & _)]|HQ].
    - right. repeat (split; auto). congruence.
    - left. unfold fQ in HQ. destruct (k_stop s1) as [[n|d]|]; [now destruct (K1 n)| |contradiction].
      exists d. split; auto. now rewrite L2 in HQ.
  Qed.

  (** As long as the client is blocked in a write there is more of its request to come; otherwise it has sent it all. *)
  Lemma client_sends a : let s := snd (run (fresh a)) in
    (exists d, k_stop s = Some (AWrite d) /\ prefix (k_sent s ++ d) (whole_request r ops))
    \/ ((forall d, k_stop s <> Some (AWrite d)) /\ k_sent s = whole_request r ops).
  Proof using Hb Hc H5 Hl Hw.
    cbv zeta. unfold client_process, client_run. pose proof (client_send_facts a) as K.
    destruct (client_send bld cap sock_writer fuel r ops (fresh a)) as [x s1].
    pose proof (recv_process_lax bld cap fuel p) as HF.
    destruct K as [(d & Hs & Hp)|(-> & Hs & Hse & _)].
    - left. exists d. assert (E : snd (sbind (x, s1) (fun _ s => client_recv bld cap sock_read fuel p s)) = s1).
      { destruct x; cbn [sbind]; auto. apply (stopped_keep (recv_process bld cap fuel p) s1 _ HF Hs). }
      now rewrite E.
    - right. cbn [sbind]. destruct (reads_keep (recv_process bld cap fuel p) s1 HF (recv_only_reads bld cap fuel p) Hs) as (K1 & _ & K3).
      split; [exact K1|]. rewrite <- Hse. exact K3.
  Qed.

  (** Once it has returned, with the whole response given to it or on its way, its result is determined. *)
  Lemma client_gets a Q (q : response Q) out rest :
    0 < cap -> small_version (rs_version q) -> (to_code (rs_status q) < 2 ^ 32)%N -> sendable (rs_headers q) ->
    honest_framing (rs_headers q) out -> length (response_wire q out) + 3 < fuel ->
    (forall st h, reads_some (p st h)) ->
  (forall len st, to_code st = to_code (rs_status q) -> stops len fuel (p st (rs_headers q)) out) ->
    response_wire q out = concat (a_reads a) ++ rest -> Forall (fun d => d <> []) (a_reads a) -> (a_end a = true -> rest = []) ->
    k_stop (snd (run (fresh a))) = None ->
    exists st x len, fst (run (fresh a)) = Ok (st, rs_headers q, x)
      /\ to_code st = to_code (rs_status q) /\ ((forall c, rs_status q <> StUnknown c) -> st = rs_status q)
      /\ plain_length (rs_headers q) len /\ runs len (p st (rs_headers q)) out x.
  Proof using Hb Hc H5 Hl Hw.
    intros G1 G2 G3 G4 G5 G6 G7 G8 Er Hne Hend. unfold client_process, client_run. pose proof (client_send_facts a) as K.
    destruct (client_send bld cap sock_writer fuel r ops (fresh a)) as [x s1].
    pose proof (recv_process_lax bld cap fuel p) as HF.
    destruct K as [(d & Hs & Hp)|(-> & Hs & Hse & Hr & He & Ht)].
    - intros Hn. exfalso.
      assert (E : snd (sbind (x, s1) (fun _ s => client_recv bld cap sock_read fuel p s)) = s1).
      { destruct x; cbn [sbind]; auto. apply (stopped_keep (recv_process bld cap fuel p) s1 _ HF Hs). }
      rewrite E in Hn. congruence.
    - cbn [sbind]. intros Hn.
      pose proof (fav (map B rest) (recv_process bld cap fuel p) s1 (goes_on (map B rest) s1) HF (goes_on_R _ s1 Hs)) as Hfav.
      unfold recv_process in Hfav.
      destruct (client_recv_gets bld cap f_read fuel p (goes_on (map B rest) s1) Q q out G1 G2 G3 G4 G5) as (st & y & s2 & len & E & W1 & W2 & W3 & W4); auto.
      { exists fpos. split; [exact fpos_read|]. unfold fpos, goes_on. cbn [f_reads f_end f_more]. rewrite Hr, He. split; auto.
        rewrite Er, map_app. f_equal. destruct (a_end a); auto. now rewrite Hend. }
      rewrite E in Hfav. cbn [fst snd] in Hfav.
      destruct Hfav as [[Hx _]|HQ]; [|unfold fQ in HQ; rewrite Hn in HQ; contradiction].
      exists st, y, len. repeat (split; auto).
  Qed.
End ClientFacts.

(** ** The server *)
Lemma ends_with_failure (buf : bytes) (ys pre : list item) e : map B buf ++ ys = pre ++ [E e] ->
  (exists pre', ys = pre' ++ [E e]) /\ length ys <= length pre + 1.
Proof.
  intros H. split.
  - destruct ys as [|y ys0] using rev_ind.
    + rewrite app_nil_r in H. destruct buf as [|b buf _] using rev_ind; [now destruct pre|].
      rewrite map_app in H. cbn in H. apply app_inj_tail in H as [_ H]. discriminate.
    + rewrite app_assoc in H. apply app_inj_tail in H as [_ ->]. eauto.
  - apply (f_equal (@length item)) in H. rewrite !app_length, map_length in H. cbn in H. lia.
Qed.

(** The part of a request after its head. *)
Definition body_wire {B} (r : request B) (ops : list op) : bytes :=
  if has_body (rq_method r) then flat_map chunk_of (written ops) ++ bs "0" ++ CRLF ++ CRLF else [].

(** The handler answers the request with [q] and goes on with [hs'], whatever the segmentation of the body, and when
    it returns no more than [room] bytes of the request are unread. *)
Definition handles {H} (hd : handler H) (fuel : nat) (hs : H) (r : request unit) (ops : list op) (room : nat)
    (q : dyn_response) (hs' : H) : Prop :=
  exists y, (y = Ok (inl q) \/ y = Ok (inr q))
  /\ ((exists f, plain_method hd (rq_method r) = Some f /\ f (rq_uri r) hs = (y, hs') /\ length (body_wire r ops) <= room)
      \/ (exists f, body_method hd (rq_method r) = Some f /\ hm_get (bs "transfer-encoding") (rq_headers r) = Some (bs "chunked")
          /\ (forall len, stops len fuel (f (rq_uri r) hs) (concat (written ops)))
          /\ (forall len a, runs len (f (rq_uri r) hs) (concat (written ops)) a -> a = (y, hs'))
          /\ ((to_end (f (rq_uri r) hs) /\ 2 <= room) \/ (reads_some (f (rq_uri r) hs) /\ length (body_wire r ops) <= room)))).

Section ServerFacts.
  Context {H : Type} (bld : build) (cap : nat) (etext : error -> bytes) (hd : handler H) (bufsz fuel : nat) (hs : H).
  Context (r : request unit) (ops : list op) (room : nat) (q : dyn_response) (hs' : H) (ys : list item) (out : bytes).
  Context (Hcap : 0 < cap) (Hu : sendable_uri (rq_uri r)) (Hv : small_version (rq_version r)) (Hs : sendable (rq_headers r))
    (Hg : good_length (rq_headers r)) (Hw : Forall (fun d => (N.of_nat (length d) <= u64_max)%N) (written ops))
    (Hf : length (whole_request r ops) + 4 < fuel) (Hh : handles hd fuel hs r ops room q hs').

  Lemma whole_body : whole_request r ops = concat (request_pieces r) ++ body_wire r ops.
  Proof. reflexivity. Qed.

  (** Reading the request and running the handler, on a reader that fails if it is asked for more. *)
  Lemma inner_on {S} (rd : reader S) R s e : reader_pos rd R -> R s (map B (whole_request r ops) ++ [E e]) ->
    exists y s1 zs pre, inner bld cap etext hd rd fuel hs s = (Ok (y, [Called (rq_method r) (rq_uri r)], hs'), s1)
      /\ (y = Ok (inl q) \/ y = Ok (inr q))
      /\ R s1 zs /\ zs = pre ++ [E e] /\ length zs <= room + 1.
  Proof using Hcap Hu Hv Hs Hg Hw Hf Hh.
    intros HR HRs. destruct Hh as (y & Hy & Hcase). exists y.
    destruct (sent_request r Hu Hv Hs Hg) as (first & lines & Hq & Eh).
    rewrite whole_body, map_app, <- app_assoc, <- Eh in HRs.
    assert (Hlen : length (map B (head_bytes first lines) ++ map B (body_wire r ops) ++ [E e]) + 3 < fuel).
    { rewrite whole_body, <- Eh, app_length in Hf. rewrite !app_length, !map_length. cbn [length]. lia. }
    set (L := length (body_wire r ops) + 1).
    destruct (request_accepts_rel bld (bufr_read bld cap rd) (bufr_rel bld R) fuel (bufr_new s) first lines (map B (body_wire r ops) ++ [E e])
      (rq_method r) (rq_uri r) (rq_version r) (rq_headers r)
      (bufr_read_pos bld cap rd R Hcap HR) Hq (bufr_new_rel bld R s _ HRs) ltac:(lia)) as (b & t & Eq & Hb & Ht).
    assert (Hfin : forall t' xs pre, bufr_rel bld R t' xs -> xs = pre ++ [E e] -> length pre <= room ->
      exists zs pre', R (br_inner t') zs /\ zs = pre' ++ [E e] /\ length zs <= room + 1).
    { intros t' xs pre Ht' -> Hl. destruct Ht' as (zs & E1 & E2 & _). exists zs. symmetry in E1.
      destruct (ends_with_failure _ _ _ _ E1) as [[pre' E3] E4]. exists pre'. repeat split; auto. lia. }
    unfold inner, serve_one_inner. rewrite Eq. cbn [rq_method rq_uri rq_body].
    destruct Hcase as [(f & Hm & Hfy & Hroom)|(f & Hm & Hte & Hst & Hru & Hroom)].
    - destruct (Hfin t _ (map B (body_wire r ops)) Ht eq_refl) as (zs & pre & F1 & F2 & F3); [now rewrite map_length|].
      exists (br_inner t), zs, pre. split; auto.
      destruct (rq_method r); cbn in Hm; try discriminate; injection Hm as ->; unfold plain_call; now rewrite Hfy.
    - assert (Hbody : has_body (rq_method r) = true) by (destruct (rq_method r); cbn in Hm; try discriminate; reflexivity).
      assert (Hz : sized (rq_headers r)) by now left.
      assert (Ebw : map B (body_wire r ops) ++ [E e] = map B (flat_map chunk_of (written ops) ++ bs "0" ++ CRLF) ++ map B CRLF ++ [E e]).
      { unfold body_wire. rewrite Hbody, !map_app, <- !app_assoc. reflexivity. }
      pose proof Hb as Hb0. destruct Hb as (l & _ & [[_ Hb]|[Hb _]]); [|congruence].
      set (R2 := fun t xs => bufr_rel bld R t xs /\ length xs <= L).
      assert (HR2 : reader_pos (bufr_read bld cap rd) R2) by (apply reader_pos_bound, bufr_read_pos; auto).
      set (zs0 := map B CRLF ++ [E e]).
      assert (Hb2 : bR bld R2 fuel l zs0 b (map B (concat (written ops)))).
      { exists (CStream t). split; auto. exists (map B (body_wire r ops) ++ [E e]). split; [|split].
        - split; auto. unfold L. rewrite app_length, map_length. cbn [length]. lia.
        - rewrite Ebw. apply loose_decodes, chunked_loose, C05_encodes, Hw.
        - rewrite app_length in Hlen. lia. }
      assert (Hrs : reads_some (f (rq_uri r) hs)) by (destruct Hroom as [[Hroom _]|[Hroom _]]; auto using to_end_reads_some).
      destruct (run_prog bld (bufr_read bld cap rd) fuel fuel (f (rq_uri r) hs) b) as [x b'] eqn:Ep.
      assert (Hx : x = Ok (y, hs')).
      { assert (HI : forall n (b b' : hbody (bufr S)) (got rest : bytes), (exists c, b = BChunked l c) ->
          body_read bld (bufr_read bld cap rd) fuel n b = (Ok got, b') -> exists c, b' = BChunked l c).
        { intros n0 b0 b1 got rest (c & ->) Eb. apply body_length_step in Eb. exact Eb. }
        assert (HL : forall (b : hbody (bufr S)) (d : bytes), (exists c, b = BChunked l c) -> body_content_length b = l).
        { intros b0 d (c & ->). reflexivity. }
        destruct (run_prog_runs bld (bufr_read bld cap rd) fuel (fun _ => l) (bR bld R2 fuel l zs0)
          (fun b _ => exists c, b = BChunked l c) (bR_read bld (bufr_read bld cap rd) R2 HR2 fuel l zs0) HI HL
          fuel (f (rq_uri r) hs) b (concat (written ops)) x b' Hb2 (ex_intro _ _ Hb) Hrs Ep) as [[_ Hn]|(a & -> & Ha)].
        - now destruct (Hn (Hst _)).
        - f_equal. eauto. }
      subst x.
      assert (Hleft : exists zs pre', R (br_inner (body_reader b')) zs /\ zs = pre' ++ [E e] /\ length zs <= room + 1).
      { destruct Hroom as [[Hend Hroom]|[_ Hroom]].
        - pose proof (run_prog_to_end bld (bufr_read bld cap rd) R2 HR2 fuel l zs0 fuel _ b _ _ _ Hb2 Hend Ep) as [Hl _].
          apply (Hfin _ _ (map B CRLF) Hl); auto.
        - destruct (run_prog_left bld (bufr_read bld cap rd) R2 HR2 fuel l zs0 fuel _ b _ _ _ Hb2 Hrs Ep) as [d' Hd'].
          destruct (bR_left bld R2 fuel l zs0 _ _ Hd') as [pre [Hl1 Hl2]].
          apply (Hfin _ _ (pre ++ map B CRLF) Hl1); [unfold zs0; now rewrite app_assoc|].
          unfold zs0, L in Hl2. rewrite !app_length in Hl2. rewrite app_length. cbn [length] in Hl2. lia. }
      destruct Hleft as (zs & pre & F1 & F2 & F3). exists (br_inner (body_reader b')), zs, pre. split; auto.
      assert (Hreq : require_length b = Ok tt) by exact (proj1 (framed_length (rq_headers r) t b Hb0) Hz).
      destruct (rq_method r); cbn in Hm; try discriminate; injection Hm as ->; unfold body_call; now rewrite Hreq, Ep.
  Qed.

  Lemma inner_only_reads : only_reads (inner_process bld cap etext hd fuel hs).
  Proof. intros S rd wt wt' s. reflexivity. Qed.
  Lemma answered_only_writes o : only_writes (answered_process (H := H) bld cap bufsz fuel o).
  Proof. intros S rd rd' wt s. reflexivity. Qed.

  Context (Hbz : 0 < bufsz) (Hbz2 : bufsz <= fuel) (Hq : delivers (body_read bld (bufr_read bld cap dyn_read) fuel) (rs_body q) ys)
    (Hno : noisy bld out ys) (Hl1 : length (response_wire q []) <= fuel) (Hl2 : length ys < fuel).
  Notation run := (server_process bld cap etext hd bufsz fuel hs sock sock_read sock_writer).

  (** As long as the server is blocked in a read, it has not been given the whole request, and has sent nothing. After
      that it has been given all but at most [room] bytes of it, and sends its response. *)
  Lemma server_facts a rest : whole_request r ops = concat (a_reads a) ++ rest -> Forall (fun d => d <> []) (a_reads a) -> a_end a = false ->
    let s := snd (run (fresh a)) in
    (exists n, k_stop s = Some (ARead n) /\ rest <> [] /\ k_sent s = [])
    \/ (length rest <= room
        /\ ((exists d, k_stop s = Some (AWrite d) /\ prefix (k_sent s ++ d) (response_wire q out))
            \/ (k_stop s = None /\ k_sent s = response_wire q out
                /\ fst (run (fresh a)) = Ok (Ok tt, [Called (rq_method r) (rq_uri r)], hs')))).
  Proof using Hcap Hu Hv Hs Hg Hw Hf Hh Hbz Hbz2 Hq Hno Hl1 Hl2.
    intros Er Hne Hend. cbv zeta.
    assert (Erun : run (fresh a) = sbind (inner bld cap etext hd sock_read fuel hs (fresh a)) (answered bld cap sock_writer bufsz fuel))
      by apply server_run_phases.
    rewrite Erun. clear Erun.
    set (F := inner_process bld cap etext hd fuel hs). pose proof (inner_process_lax bld cap etext hd fuel hs : lax_process F) as HF.
    set (e0 := UnexpectedEof). set (M := map B rest ++ [E e0]).
    pose proof (fav M F (fresh a) (goes_on M (fresh a)) HF (goes_on_R M (fresh a) eq_refl)) as Hfav.
    destruct (inner_on f_read fpos (goes_on M (fresh a)) e0 fpos_read) as (y & s2 & zs & pre & E2 & Hy & (Z1 & _) & Z2 & Z3).
    { unfold fpos, goes_on. cbn [f_reads f_end f_more fresh k_reads k_end]. rewrite Hend. split; auto.
      rewrite Er, map_app, <- app_assoc. reflexivity. }
    destruct (reads_keep F (fresh a) HF inner_only_reads eq_refl) as (K1 & K2 & K3).
    change (F fsock f_read f_writer (goes_on M (fresh a))) with (inner bld cap etext hd f_read fuel hs (goes_on M (fresh a))) in Hfav.
    change (F sock sock_read sock_writer (fresh a)) with (inner bld cap etext hd sock_read fuel hs (fresh a)) in Hfav, K1, K2, K3.
    rewrite E2 in Hfav. cbn [fst snd] in Hfav.
    destruct (inner bld cap etext hd sock_read fuel hs (fresh a)) as [x s1]. cbn [fst snd] in *.
    assert (Hmore : 0 < length (f_more s2) <= length zs).
    { assert (Z : map B (concat (f_reads s2)) ++ (if f_end s2 then [] else f_more s2) = pre ++ [E e0]) by congruence.
      destruct (ends_with_failure _ _ _ _ Z) as [[pre' E3] E4]. rewrite Z2, app_length.
      destruct (f_end s2); [now destruct pre'|]. cbn [length]. split; [|lia]. rewrite E3, app_length. cbn [length]. lia. }
    destruct Hfav as [[Hx (R1 & R2 & R3 & R4 & R5 & R6 & R7)]|HQ].
    - right. subst x. cbn [sbind]. split.
      { rewrite R7 in Hmore. unfold M in Hmore. rewrite app_length, map_length in Hmore. cbn [length] in Hmore. lia. }
      set (o := (y, [Called (rq_method r) (rq_uri r)], hs')).
      set (G := answered_process (H := H) bld cap bufsz fuel o). pose proof (answered_process_lax bld cap bufsz fuel o : lax_process G) as HG.
      pose proof (fav [] G s1 (goes_on [] s1) HG (goes_on_R [] s1 R1)) as Hfav.
      destruct (writes_keep G s1 HG (answered_only_writes o) R1) as (W1 & W2 & W3 & W4).
      change (answered bld cap sock_writer bufsz fuel o s1) with (G sock sock_read sock_writer s1).
      destruct (respond_reliable bld cap f_writer f_sent bufsz fuel q ys out (goes_on [] s1) f_honest f_reliable Hbz Hq Hno Hl1 Hbz2 Hl2) as (s3 & E3 & L3).
      assert (EG : G fsock f_read f_writer (goes_on [] s1) = (Ok (Ok tt, [Called (rq_method r) (rq_uri r)], hs'), s3)).
      { unfold G, answered_process, o, answered. destruct Hy as [-> | ->]; now rewrite E3. }
      rewrite EG in Hfav. cbn [fst snd] in Hfav. unfold goes_on in L3. cbn [f_sent] in L3. rewrite K3 in L3. cbn [fresh k_sent app] in L3.
      destruct Hfav as [[HxG (Q1 & _ & _ & _ & Q5 & _)]|HQ].
      + right. split; [|split]; [exact Q1|congruence|exact HxG].
      + left. unfold fQ in HQ. destruct (k_stop (snd (G sock sock_read sock_writer s1))) as [[n|d]|]; [now destruct (W1 n)| |contradiction].
        exists d. split; auto. now rewrite L3 in HQ.
    - left. unfold fQ in HQ. destruct (k_stop s1) as [[n|d]|] eqn:Est; [|now destruct (K1 d)|contradiction].
      exists n.
      assert (E : snd (sbind (x, s1) (answered bld cap sock_writer bufsz fuel)) = s1).
      { destruct x as [o|e| |]; cbn [sbind]; auto. apply (stopped_keep (answered_process bld cap bufsz fuel o) s1 _ (answered_process_lax bld cap bufsz fuel o) Est). }
      rewrite E. split; [exact Est|]. split; [|now rewrite K3].
      intros ->. destruct HQ as [HQ|HQ]; [discriminate|]. unfold M in HQ. cbn in HQ. lia.
  Qed.
End ServerFacts.

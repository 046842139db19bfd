(** Property C61: which exchanges can be cut short by a reset of the connection. *)
From Verif Require Import Base Utf8 Case Num Io Parser Types Message Outgoing Client Server Transport.
From Verif Require Import Lemmas ReadLemmas NumLemmas ChunkSpec ChunkLemmas BodyLemmas WriteLemmas ParserLemmas CaseLemmas TypesLemmas HeadLemmas
  BlockLemmas MsgLemmas SimLemmas OutLemmas KeepLemmas PBody PIo PParse PHead POut PReuse PServer PEnd NetLemmas Net NetSock NetStep NetFav NetFacts PNet.

(** ** A server that has everything but the last two bytes of an upload *)
Section Early.
  Context {H : Type} (bld : build) (cap : nat) (etext : error -> bytes) (hd : handler H) (bufsz fuel : nat) (hs : H).
  Context (r : request unit) (ops : list op) (room : nat) (q : dyn_response) (hs' : H).
  Context (Hcap : 0 < cap) (Hu : sendable_uri (rq_uri r)) (Hv : small_version (rq_version r)) (Hs : sendable (rq_headers r))
    (Hg : good_length (rq_headers r)) (Hw : Forall (fun d => (N.of_nat (length d) <= u64_max)%N) (written ops))
    (Hf : length (whole_request r ops) + 4 < fuel) (Hh : handles hd fuel hs r ops room q hs') (Hbody : has_body (rq_method r) = true).

  (** The request without the line end after its last chunk. *)
  Definition early : bytes := concat (request_pieces r) ++ flat_map chunk_of (written ops) ++ bs "0" ++ CRLF.
  Lemma early_whole : whole_request r ops = early ++ CRLF.
  Proof using Hbody. unfold early, whole_request. rewrite Hbody, <- !app_assoc. reflexivity. Qed.

  Lemma inner_early {S} (rd : reader S) R s e : reader_pos rd R -> R s (map B early ++ [E e]) ->
    exists y s1 zs pre, inner bld cap etext hd rd fuel hs s = (Ok (y, [Called (rq_method r) (rq_uri r)], hs'), s1)
      /\ R s1 zs /\ zs = pre ++ [E e].
  Proof using Hcap Hu Hv Hs Hg Hw Hf Hh Hbody.
    intros HR HRs. destruct Hh as (y & Hy & Hcase). exists y.
    destruct (sent_request r Hu Hv Hs Hg) as (first & lines & Hq & Eh).
    set (bw := flat_map chunk_of (written ops) ++ bs "0" ++ CRLF).
    unfold early in HRs. fold bw in HRs. rewrite map_app, <- app_assoc, <- Eh in HRs.
    assert (Hlen : length (map B (head_bytes first lines) ++ map B bw ++ [E e]) + 3 < fuel).
    { rewrite early_whole in Hf. unfold early in Hf. fold bw in Hf. rewrite <- Eh, !app_length in Hf. rewrite !app_length, !map_length. cbn [length] in *. lia. }
    destruct (request_accepts_rel bld (bufr_read bld cap rd) (bufr_rel bld R) fuel (bufr_new s) first lines (map B bw ++ [E e])
      (rq_method r) (rq_uri r) (rq_version r) (rq_headers r)
      (bufr_read_pos bld cap rd R Hcap HR) Hq (bufr_new_rel bld R s _ HRs) ltac:(lia)) as (b & t & Eq & Hb & Ht).
    assert (Hfin : forall t' xs pre, bufr_rel bld R t' xs -> xs = pre ++ [E e] ->
      exists zs pre', R (br_inner t') zs /\ zs = pre' ++ [E e]).
    { intros t' xs pre Ht' ->. destruct Ht' as (zs & E1 & E2 & _). exists zs. symmetry in E1.
      destruct (ends_with_failure _ _ _ _ E1) as [[pre' E3] E4]. exists pre'. auto. }
    unfold inner, serve_one_inner. rewrite Eq. cbn [rq_method rq_uri rq_body].
    destruct Hcase as [(f & Hm & Hfy & _)|(f & Hm & Hte & Hst & Hru & Hroom)].
    - destruct (Hfin t _ (map B bw) Ht eq_refl) as (zs & pre & F1 & F2).
      exists (br_inner t), zs, pre. split; auto.
      destruct (rq_method r); cbn in Hm; try discriminate; injection Hm as ->; unfold plain_call; now rewrite Hfy.
    - assert (Hz : sized (rq_headers r)) by now left.
      pose proof Hb as Hb0. destruct Hb as (l & _ & [[_ Hb]|[Hb _]]); [|congruence].
      assert (Hb2 : bR bld (bufr_rel bld R) fuel l [E e] b (map B (concat (written ops)))).
      { exists (CStream t). split; auto. exists (map B bw ++ [E e]). split; [|split]; auto.
        - apply loose_decodes, chunked_loose, C05_encodes, Hw.
        - rewrite app_length in Hlen. lia. }
      assert (Hrs : reads_some (f (rq_uri r) hs)) by (destruct Hroom as [[Hroom _]|[Hroom _]]; auto using to_end_reads_some).
      pose proof (bufr_read_pos bld cap rd R Hcap HR) as HR2.
      destruct (run_prog bld (bufr_read bld cap rd) fuel fuel (f (rq_uri r) hs) b) as [x b'] eqn:Ep.
      assert (Hx : x = Ok (y, hs')).
      { assert (HI : forall n (b b' : hbody (bufr S)) (got rest : bytes), (exists c, b = BChunked l c) ->
          body_read bld (bufr_read bld cap rd) fuel n b = (Ok got, b') -> exists c, b' = BChunked l c).
        { intros n0 b0 b1 got rest (c & ->) Eb. apply body_length_step in Eb. exact Eb. }
        assert (HL : forall (b : hbody (bufr S)) (d : bytes), (exists c, b = BChunked l c) -> body_content_length b = l).
        { intros b0 d (c & ->). reflexivity. }
        destruct (run_prog_runs bld (bufr_read bld cap rd) fuel (fun _ => l) (bR bld (bufr_rel bld R) fuel l [E e])
          (fun b _ => exists c, b = BChunked l c) (bR_read bld (bufr_read bld cap rd) (bufr_rel bld R) HR2 fuel l [E e]) HI HL
          fuel (f (rq_uri r) hs) b (concat (written ops)) x b' Hb2 (ex_intro _ _ Hb) Hrs Ep) as [[_ Hn]|(a & -> & Ha)].
        - now destruct (Hn (Hst _)).
        - f_equal. eauto. }
      subst x.
      destruct (run_prog_left bld (bufr_read bld cap rd) (bufr_rel bld R) HR2 fuel l [E e] fuel _ b _ _ _ Hb2 Hrs Ep) as [d' Hd'].
      destruct (bR_left bld (bufr_rel bld R) fuel l [E e] _ _ Hd') as [pre Hl].
      destruct (Hfin _ _ pre Hl eq_refl) as (zs & pre' & F1 & F2).
      exists (br_inner (body_reader b')), zs, pre'. split; auto.
      assert (Hreq : require_length b = Ok tt) by exact (proj1 (framed_length (rq_headers r) t b Hb0) Hz).
      destruct (rq_method r); cbn in Hm; try discriminate; injection Hm as ->; unfold body_call; now rewrite Hreq, Ep.
  Qed.

  (** It does not wait for them. *)
  Lemma server_early a : concat (a_reads a) = early -> Forall (fun d => d <> []) (a_reads a) -> a_end a = false ->
    forall n, k_stop (snd (server_process bld cap etext hd bufsz fuel hs sock sock_read sock_writer (fresh a))) <> Some (ARead n).
  Proof using Hcap Hu Hv Hs Hg Hw Hf Hh Hbody.
    intros Er Hne Hend m.
    assert (Erun : server_process bld cap etext hd bufsz fuel hs sock sock_read sock_writer (fresh a)
      = sbind (inner bld cap etext hd sock_read fuel hs (fresh a)) (answered bld cap sock_writer bufsz fuel)) by apply server_run_phases.
    rewrite Erun. clear Erun.
    set (F := inner_process bld cap etext hd fuel hs). pose proof (inner_process_lax bld cap etext hd fuel hs : lax_process F) as HF.
    set (e0 := UnexpectedEof). set (M := [E e0]).
    pose proof (fav M F (fresh a) (goes_on M (fresh a)) HF (goes_on_R M (fresh a) eq_refl)) as Hfav.
    destruct (inner_early f_read fpos (goes_on M (fresh a)) e0 fpos_read) as (y & s2 & zs & pre & E2 & (Z1 & _) & Z2).
    { unfold fpos, goes_on. cbn [f_reads f_end f_more fresh k_reads k_end]. rewrite Hend, Er. split; auto. }
    destruct (reads_keep F (fresh a) HF (inner_only_reads bld cap etext hd fuel hs) eq_refl) as (K1 & K2 & K3).
    change (F fsock f_read f_writer (goes_on M (fresh a))) with (inner bld cap etext hd f_read fuel hs (goes_on M (fresh a))) in Hfav.
    change (F sock sock_read sock_writer (fresh a)) with (inner bld cap etext hd sock_read fuel hs (fresh a)) in Hfav, K1, K2, K3.
    rewrite E2 in Hfav. cbn [fst snd] in Hfav.
    destruct (inner bld cap etext hd sock_read fuel hs (fresh a)) as [x s1]. cbn [fst snd] in *.
    assert (Hmore : 0 < length (f_more s2)).
    { assert (Z : map B (concat (f_reads s2)) ++ (if f_end s2 then [] else f_more s2) = pre ++ [E e0]) by congruence.
      destruct (ends_with_failure _ _ _ _ Z) as [[pre' E3] E4].
      destruct (f_end s2); [now destruct pre'|]. rewrite E3, app_length. cbn [length]. lia. }
    destruct Hfav as [[Hx (R1 & _)]|HQ].
    - subst x. cbn [sbind].
      set (o := (y, [Called (rq_method r) (rq_uri r)], hs')).
      set (G := answered_process (H := H) bld cap bufsz fuel o). pose proof (answered_process_lax bld cap bufsz fuel o : lax_process G) as HG.
      destruct (writes_keep G s1 HG (answered_only_writes bld cap bufsz fuel o) R1) as (W1 & _).
      apply W1.
    - unfold fQ in HQ. destruct (k_stop s1) as [[n|d]|] eqn:Est; [|now destruct (K1 d)|contradiction].
      destruct HQ as [HQ|HQ]; [discriminate|]. unfold M in HQ. cbn in HQ. lia.
  Qed.
End Early.

(** ** C61. Resets *)
Section Reset.
  (* as in C58 *)
  Context {A : Type} (bld1 : build) (cap1 fuel1 : nat) (r : request unit) (ops : list op) (p : status -> headers -> prog A).
  Context {H : Type} (bld2 : build) (cap2 : nat) (etext : error -> bytes) (hd : handler H) (bufsz fuel2 : nat) (hs : H).
  Context (room1 room2 : nat) (q : dyn_response) (hs' : H) (ys : list item) (out : bytes).

  Notation client := (client_run bld1 cap1 sock_read sock_writer fuel1 r ops p).
  Notation server := (server_run bld2 cap2 sock_read sock_writer etext hd bufsz fuel2 hs).
  Notation request_wire := (whole_request r ops).
  Notation answer_wire := (response_wire q out).

  (** TCP resets a connection when one side has closed its socket and there are bytes for it that it has not read, or
      when more bytes arrive (RFC 1122, 4.2.2.13). What the other side has not read by then may be discarded, and its
      next call fails. Stands for the closing of the stream when [serve_one] returns, src/server.rs 199-210. *)
  Definition resets (c : conf) : Prop :=
    ended (side2 server c) /\ (queue1 client server c <> [] \/ exists d, k_stop (side1 client c) = Some (AWrite d)).

  (** What the client returns if its connection is reset in the state [c] and everything it has not yet read is
      lost: its next read fails with [e]. *)
  Definition after_reset (e : error) (c : conf) : res (status * headers * A) :=
    fst (client_run bld1 cap1 f_read f_writer fuel1 r ops p (goes_on [E e] (fresh (fst c)))).

  Context (G : good_exchange cap1 fuel1 r ops p bld2 cap2 hd bufsz fuel2 hs room1 room2 q hs' ys out).

  (** A request without a body is never answered before the server has read all of it, so the connection is never
      reset. *)
  Theorem C61_no_body_no_reset : has_body (rq_method r) = false ->
    forall n c, reach client server room1 room2 n c -> ~ resets c.
  Proof using G.
    intros Hb n c Hr [He Hq].
    destruct (progress_facts bld1 cap1 fuel1 r ops p bld2 cap2 etext hd bufsz fuel2 hs room1 room2 q hs' ys out G n c Hr)
      as (Q1 & _ & _ & _ & _ & _ & _ & _ & _ & Hc & _).
    destruct (reach_half _ _ (client_process_lax bld1 cap1 fuel1 r ops p) (server_process_lax bld2 cap2 etext hd bufsz fuel2 hs) room1 room2 n c Hr)
      as (_ & [_ _ B3 B4 B5] & _).
    change (side1 (client_process bld1 cap1 fuel1 r ops p sock sock_read sock_writer) c) with (side1 client c) in *.
    change (side2 (server_process bld2 cap2 etext hd bufsz fuel2 hs sock sock_read sock_writer) c) with (side2 server c) in *.
    assert (Hsent : k_taken (side2 server c) = request_wire).
    { assert (Hpre : exists t, request_wire = k_sent (side1 client c) ++ t).
      { destruct Hc as [(d & _ & [t E])|[_ ->]]; [rewrite E, <- app_assoc; now eexists|exists []; now rewrite app_nil_r]. }
      destruct Hpre as [t Ht].
      destruct (a_end (snd c)) eqn:Ee.
      - destruct (B5 eq_refl) as [E1 E2]. rewrite E2. destruct Hc as [(d & Ed & _)|[_ Ed]]; auto. unfold ended in E1. congruence.
      - assert (Hh0 : handles hd fuel2 hs r ops 0 q hs').
        { destruct (ge_handles _ _ _ _ _ _ _ _ _ _ _ _ _ _ _ _ _ G) as (y & Hy & [(f & K1 & K2 & _)|(f & K1 & _)]).
          - exists y. split; auto. left. exists f. repeat split; auto. unfold body_wire. rewrite Hb. cbn. lia.
          - exfalso. destruct (rq_method r); cbn in K1, Hb; discriminate. }
        destruct (server_facts bld2 cap2 etext hd bufsz fuel2 hs r ops 0 q hs' ys out) with (a := snd c) (rest := queue1 client server c ++ t)
          as [(m & K1 & _)|[K1 _]]; try apply G; auto.
        + rewrite B3, app_assoc, <- Q1. exact Ht.
        + unfold ended in He. unfold side2 in He. cbv zeta in K1.
          change (server_process bld2 cap2 etext hd bufsz fuel2 hs sock sock_read sock_writer) with server in K1. congruence.
        + destruct (queue1 client server c ++ t) eqn:Eq; [|cbn in K1; lia].
          apply app_eq_nil in Eq. destruct Eq as [Eq ->]. rewrite app_nil_r in Ht. rewrite Eq, app_nil_r in Q1. congruence. }
    rewrite Hsent in Q1.
    destruct Hc as [(d & Ed & [t E])|[Hn E]].
    - destruct (progress_facts bld1 cap1 fuel1 r ops p bld2 cap2 etext hd bufsz fuel2 hs room1 room2 q hs' ys out G n c Hr)
        as (_ & _ & _ & _ & _ & W & _). specialize (W d Ed).
      rewrite Q1 in E. rewrite <- !app_assoc in E. rewrite <- (app_nil_r request_wire) in E at 1. apply app_inv_head in E.
      symmetry in E. apply app_eq_nil in E. destruct E as [_ E]. apply app_eq_nil in E. now destruct E.
    - rewrite E in Q1. rewrite <- (app_nil_r request_wire) in Q1 at 1. apply app_inv_head in Q1.
      destruct Hq as [Hq|[d Hd]]; [now symmetry in Q1|now destruct (Hn d)].
  Qed.

  Context (Hbody : has_body (rq_method r) = true).

  (** The state of affairs kept up below. *)
  Definition not_read (c : conf) : Prop :=
    length (k_taken (side2 server c)) + 2 <= length request_wire
    /\ (ended (side2 server c) -> queue2 client server c <> [])
    /\ (length answer_wire <= room2 -> k_taken (side1 client c) = []).

  Lemma answer_wire_some : answer_wire <> [].
  Proof. unfold response_wire, response_pieces, version_pieces. cbn. discriminate. Qed.

  Lemma not_read_step n c : reach client server room1 room2 n c -> not_read c ->
    (ended (side2 server c) /\ forall d, k_stop (side1 client c) <> Some (AWrite d))
    \/ exists c', step client server room1 room2 c c' /\ not_read c'.
  Proof using G Hbody.
    intros Hr (N1 & N2 & N3).
    pose proof (client_process_lax bld1 cap1 fuel1 r ops p) as HF1. pose proof (server_process_lax bld2 cap2 etext hd bufsz fuel2 hs) as HF2.
    set (F1 := client_process bld1 cap1 fuel1 r ops p) in *. set (F2 := server_process bld2 cap2 etext hd bufsz fuel2 hs) in *.
    pose proof (progress_facts bld1 cap1 fuel1 r ops p bld2 cap2 etext hd bufsz fuel2 hs room1 room2 q hs' ys out G) as PF.
    destruct (PF n c Hr) as (Q1 & Q2 & _ & _ & _ & W1 & W2 & W3 & W4 & Hc & rest & Hrest & Hs).
    destruct (reach_half F1 F2 HF1 HF2 room1 room2 n c Hr) as (Hh1 & Hh2 & _).
    change (side1 (F1 sock sock_read sock_writer) c) with (side1 client c) in *.
    change (side2 (F2 sock sock_read sock_writer) c) with (side2 server c) in *.
    pose proof (ge_room1 _ _ _ _ _ _ _ _ _ _ _ _ _ _ _ _ _ G) as Hr1. pose proof (ge_room2 _ _ _ _ _ _ _ _ _ _ _ _ _ _ _ _ _ G) as Hr2.
    (* the client writes a byte *)
    assert (Write1 : forall d, k_stop (side1 client c) = Some (AWrite d) -> length (queue1 client server c) + 1 <= room1 \/ ended (side2 server c) ->
      exists c', step client server room1 room2 c c' /\ not_read c').
    { intros d Ed Hq. pose proof (W1 d Ed) as Hd.
      assert (Ha : answer (side1 client c) (queue2 client server c) (queue1 client server c) room1 (side2 server c) (took 1)).
      { apply (ans_write _ _ _ _ _ d 1); auto. destruct d; [easy|]. cbn. lia. }
      destruct (answer_half F1 (fst c) (side2 server c) _ _ _ HF1 Hh1 Ha) as (K1 & _).
      eexists. split; [apply step1, Ha|].
      assert (Et : k_taken (side1 client (took 1 (fst c), snd c)) = k_taken (side1 client c)).
      { destruct K1 as [_ _ K1 _ _]. destruct Hh1 as [_ _ K2 _ _]. unfold side1. cbn [fst]. etransitivity; [symmetry; exact K1|]. exact K2. }
      unfold not_read, queue2. rewrite Et. auto. }
    (* the server writes a byte *)
    assert (Write2 : forall d, k_stop (side2 server c) = Some (AWrite d) -> length (queue2 client server c) + 1 <= room2 \/ ended (side1 client c) ->
      exists c', step client server room1 room2 c c' /\ not_read c').
    { intros d Ed Hq. pose proof (W2 d Ed) as Hd.
      assert (Ha : answer (side2 server c) (queue1 client server c) (queue2 client server c) room2 (side1 client c) (took 1)).
      { apply (ans_write _ _ _ _ _ d 1); auto. destruct d; [easy|]. cbn. lia. }
      pose proof (answer_half F2 (snd c) (side1 client c) _ _ _ HF2 Hh2 Ha) as (K1 & K2 & _ & K4).
      exists (fst c, took 1 (snd c)). split; [apply step2, Ha|].
      assert (Et : k_taken (side2 server (fst c, took 1 (snd c))) = k_taken (side2 server c)).
      { destruct K1 as [_ _ K1 _ _]. destruct Hh2 as [_ _ K3 _ _]. unfold side2. cbn [snd]. etransitivity; [symmetry; exact K1|]. exact K3. }
      change (snd (F2 sock sock_read sock_writer (fresh (snd c)))) with (side2 server c) in *.
      change (snd (F2 sock sock_read sock_writer (fresh (took 1 (snd c))))) with (side2 server (fst c, took 1 (snd c))) in *.
      rewrite Et in K4. cbn [took a_end] in K4.
      split; [rewrite Et; exact N1|]. split; [|exact N3].
      intros _ Hn. unfold queue2 in Hn. change (side1 client (fst c, took 1 (snd c))) with (side1 client c) in Hn.
      apply (f_equal (@length byte)) in Hn. rewrite skipn_length in Hn. cbn [length] in Hn.
      apply (f_equal (@length byte)) in Q2. rewrite app_length in Q2. lia. }
    assert (Hrest1 : k_sent (side1 client c) = request_wire -> rest = queue1 client server c).
    { intros E. rewrite E, Hrest in Q1. now apply app_inv_head in Q1. }
    destruct Hs as [(m & Em & Hne & Hno)|[Hlen [(d & Ed & Hd)|(En & _ & _)]]].
    - (* the server reads *)
      right. destruct (list_eq_dec Byte.byte_eq_dec (queue1 client server c) []) as [Eq|Eq].
      { destruct Hc as [(d & Ed & _)|[_ E]]; [|destruct Hne; now rewrite Hrest1].
        apply (Write1 d Ed). left. rewrite Eq. cbn. lia. }
      destruct (queue1 client server c) as [|b l] eqn:Eql; [easy|].
      assert (Ha : answer (side2 server c) (queue1 client server c) (queue2 client server c) room2 (side1 client c) (got [b])).
      { apply (ans_read _ _ _ _ _ m [b] l); auto; [easy|]. pose proof (W4 m Em). cbn. lia. }
      pose proof (answer_half F2 (snd c) (side1 client c) _ _ _ HF2 Hh2 Ha) as (K1 & K2 & _ & K4).
      assert (Hst : step client server room1 room2 c (fst c, got [b] (snd c))) by apply step2, Ha.
      exists (fst c, got [b] (snd c)). split; [exact Hst|].
      assert (Et : k_taken (side2 server (fst c, got [b] (snd c))) = k_taken (side2 server c) ++ [b]).
      { destruct K1 as [_ _ K1 _ _]. destruct Hh2 as [_ _ K3 _ _]. unfold side2. cbn [snd].
        etransitivity; [symmetry; exact K1|]. cbn [got a_reads]. rewrite concat_app, K3. cbn [concat]. now rewrite app_nil_r. }
      split; [|split; [|exact N3]].
      + rewrite Et, app_length. cbn [length].
        destruct (Nat.eq_dec (length (k_taken (side2 server c)) + 2) (length request_wire)) as [E|E]; [|lia]. exfalso.
        assert (Hearly : concat (a_reads (snd c)) = early r ops).
        { destruct Hh2 as [_ _ K3 _ _]. rewrite K3. rewrite (early_whole r ops Hbody) in Hrest, E. rewrite app_length in E. cbn [length CRLF] in E.
          assert (E' : length (k_taken (side2 server c)) = length (early r ops)) by (change (length CRLF) with 2 in E; lia).
          apply (f_equal (firstn (length (early r ops)))) in Hrest. rewrite firstn_app, firstn_all, Nat.sub_diag, <- E', firstn_app, firstn_all, Nat.sub_diag in Hrest.
          cbn [firstn] in Hrest. rewrite !app_nil_r in Hrest. now symmetry. }
        apply (server_early bld2 cap2 etext hd bufsz fuel2 hs r ops room1 q hs') with (a := snd c) (n := m); try apply G; auto.
        * apply Hh2.
        * exact (fresh_end F2 (snd c) m HF2 Em).
      + intros He. exfalso.
        assert (Hr' : reach client server room1 room2 (S n) (fst c, got [b] (snd c))) by (econstructor; eauto).
        destruct (PF _ _ Hr') as (_ & _ & _ & _ & _ & _ & _ & _ & _ & _ & rest' & _ & Hs').
        unfold ended in He.
        destruct Hs' as [(m' & Em' & _)|[_ [(d & Ed & _)|(_ & Es & _)]]]; try congruence.
        pose proof (fresh_end F2 (snd c) m HF2 Em) as Ee. destruct Hh2 as [Hsp _ _ _ _].
        destruct (one_read F2 HF2 [b] ltac:(easy) (fresh (snd c)) (fresh (got [b] (snd c))) m) as (_ & J2 & _); auto.
        * unfold rd_R, got, fresh. cbn. rewrite Ee. now repeat split.
        * pose proof (W4 m Em). cbn. lia.
        * apply Hsp.
        * change (snd (F2 sock sock_read sock_writer (fresh (snd c)))) with (side2 server c) in J2.
          change (snd (F2 sock sock_read sock_writer (fresh (got [b] (snd c))))) with (side2 server (fst c, got [b] (snd c))) in J2.
          rewrite Hno in J2. rewrite J2 in Es. now destruct answer_wire_some.
    - (* the server writes *)
      right. destruct (le_lt_dec (length (queue2 client server c) + 1) room2) as [Hle|Hgt]; [eauto|].
      destruct Hc as [(d1 & Ed1 & [t Ht])|[Hn E]].
      + apply (Write1 d1 Ed1). left. rewrite Q1, Hrest in Ht. rewrite <- !app_assoc in Ht. apply app_inv_head in Ht.
        apply (f_equal (@length byte)) in Ht. rewrite !app_length in Ht. pose proof (W1 d1 Ed1). destruct d1; [easy|]. cbn [length] in Ht. lia.
      + destruct (k_stop (side1 client c)) as [[m|d1]|] eqn:E1.
        * destruct (queue2 client server c) as [|b l] eqn:Eql; [cbn in Hgt; lia|].
          assert (Ha : answer (side1 client c) (queue2 client server c) (queue1 client server c) room1 (side2 server c) (got [b])).
          { apply (ans_read _ _ _ _ _ m [b] l); auto; [easy|]. pose proof (W3 m eq_refl). cbn. lia. }
          exists (got [b] (fst c), snd c). split; [apply step1, Ha|]. split; [exact N1|]. split.
          -- intros He. unfold ended in He. change (side2 server (got [b] (fst c), snd c)) with (side2 server c) in He. congruence.
          -- intros Hroom. exfalso. specialize (N3 Hroom). rewrite N3 in Q2. cbn [app] in Q2. rewrite Q2 in Hd.
             destruct Hd as [t Ht]. apply (f_equal (@length byte)) in Ht. rewrite !app_length in Ht.
             pose proof (W2 d Ed). destruct d; [easy|]. cbn [length] in *. lia.
        * now destruct (Hn d1).
        * apply (Write2 d Ed). now right.
    - (* the server is done *)
      destruct (k_stop (side1 client c)) as [[m|d1]|] eqn:E1.
      + left. split; [exact En|]. easy.
      + right. apply (Write1 d1 eq_refl). now right.
      + left. split; [exact En|]. easy.
  Qed.

  (** A reset before the client has read anything makes it fail with the error of the socket. *)
  Lemma answer_lost : forall n c k, reach client server room1 room2 n c -> k_sent (side1 client c) = request_wire ->
    k_taken (side1 client c) = [] -> a_end (fst c) = false -> after_reset (IoError (KOther k)) c = Err (IoError (KOther k)).
  Proof using G.
    intros n c k Hr Es Et Hend.
    destruct (reach_half _ _ (client_process_lax bld1 cap1 fuel1 r ops p) (server_process_lax bld2 cap2 etext hd bufsz fuel2 hs) room1 room2 n c Hr)
      as ([_ _ A3 A4 _] & _).
    change (side1 (client_process bld1 cap1 fuel1 r ops p sock sock_read sock_writer) c) with (side1 client c) in A3.
    rewrite Et in A3. assert (Ea : a_reads (fst c) = []).
    { destruct (a_reads (fst c)) as [|d l]; auto. rewrite Forall_cons_iff in A4. destruct A4 as [A4 _]. now destruct d. }
    unfold after_reset, client_run. set (e := IoError (KOther k)).
    set (s0 := goes_on [E e] (fresh (fst c))).
    destruct (client_send_reliable bld1 cap1 f_writer f_sent fuel1 r ops s0 f_honest f_reliable) as (s1 & E1 & _); try apply G.
    pose proof (process_keep (send_process bld1 cap1 fuel1 r ops) no_reader f_writer
      (fun s => f_reads s = [] /\ f_end s = false /\ f_more s = [E e]) s0 (send_process_lax bld1 cap1 fuel1 r ops)) as Hk.
    unfold send_process in Hk. rewrite E1 in Hk |- *. cbn [snd] in Hk. destruct Hk as (K1 & K2 & K3).
    { split.
      - intros m s Hp. exact Hp.
      - intros d s Hp. cbn. unfold f_write. destruct d; auto. destruct (f_writes s); exact Hp.
      - intros s Hp. exact Hp. }
    { unfold s0, goes_on. cbn. now rewrite Ea, Hend. }
    cbn [sbind]. unfold client_recv.
    assert (Er : response_deserialize bld1 f_read fuel1 s1 = (Err e, mkF [] (f_writes s1) (f_end s1) [] (f_sent s1) (f_taken s1))).
    { pose proof (proj1 (ge_fuel1 _ _ _ _ _ _ _ _ _ _ _ _ _ _ _ _ _ G)) as H5. destruct fuel1 as [|[|f]]; [lia|lia|].
      assert (Eb : f_read 1 s1 = (Err e, mkF [] (f_writes s1) (f_end s1) [] (f_sent s1) (f_taken s1))).
      { unfold f_read. now rewrite K1, K2, K3. }
      assert (En : bytes_next bld1 f_read (S (S f)) s1 = (Err e, mkF [] (f_writes s1) (f_end s1) [] (f_sent s1) (f_taken s1))).
      { cbn [bytes_next]. rewrite Eb. unfold e. now destruct bld1. }
      assert (El : crlf_next bld1 f_read (S (S f)) s1 = (Err e, mkF [] (f_writes s1) (f_end s1) [] (f_sent s1) (f_taken s1))).
      { unfold crlf_next. cbn [crlf_loop]. now rewrite En. }
      unfold response_deserialize, response_head, expect_next. now rewrite El. }
    now rewrite Er.
  Qed.
  (** Every upload can be reset: the server, which does not wait for the last line end of the body, answers and closes
      before it has read that, with the call of the handler done and successful in its eyes. There is then a part of the
      answer that the client has not read; if the answer fits into the queue, all of it, and then the client returns the
      error of the socket. *)
  Theorem C61_upload_reset : exists n c, reach client server room1 room2 n c /\ resets c
    /\ fst (server (fresh (snd c))) = Ok (Ok tt, [Called (rq_method r) (rq_uri r)], hs')
    /\ k_sent (side1 client c) = request_wire /\ (exists t, queue1 client server c = t ++ CRLF)
    /\ queue2 client server c <> []
    /\ (length answer_wire <= room2 -> k_taken (side1 client c) = []
         /\ forall k, after_reset (IoError (KOther k)) c = Err (IoError (KOther k))).
  Proof using G Hbody.
    assert (Hgo : forall k n c, 2 * length request_wire + 2 * length answer_wire + 2 - n = k ->
      reach client server room1 room2 n c -> not_read c ->
      exists m c', reach client server room1 room2 m c' /\ not_read c' /\ ended (side2 server c')
        /\ forall d, k_stop (side1 client c') <> Some (AWrite d)).
    { induction k as [k IH] using lt_wf_ind. intros n c Ek Hr Hn.
      destruct (not_read_step n c Hr Hn) as [[E1 E2]|(c' & Hst & Hn')]; [exists n, c; auto|].
      assert (Hr' : reach client server room1 room2 (S n) c') by (econstructor; eauto).
      pose proof (C58_bounded bld1 cap1 fuel1 r ops p bld2 cap2 etext hd bufsz fuel2 hs room1 room2 q hs' ys out G _ _ Hr').
      apply (IH (2 * length request_wire + 2 * length answer_wire + 2 - S n) ltac:(lia) (S n) c'); auto. }
    pose proof (progress_facts bld1 cap1 fuel1 r ops p bld2 cap2 etext hd bufsz fuel2 hs room1 room2 q hs' ys out G) as PF.
    destruct (Hgo _ 0 start eq_refl (reach_start _ _ _ _)) as (m & c & Hr & (N1 & N2 & N3) & He & Hnw).
    { destruct (reach_half _ _ (client_process_lax bld1 cap1 fuel1 r ops p) (server_process_lax bld2 cap2 etext hd bufsz fuel2 hs) room1 room2 0 start
        (reach_start _ _ _ _)) as ([_ _ A3 _ _] & [_ _ B3 _ _] & _).
      change (concat (a_reads (fst start))) with (@nil byte) in A3. change (concat (a_reads (snd start))) with (@nil byte) in B3.
      change (side1 (client_process bld1 cap1 fuel1 r ops p sock sock_read sock_writer) start) with (side1 client start) in *.
      change (side2 (server_process bld2 cap2 etext hd bufsz fuel2 hs sock sock_read sock_writer) start) with (side2 server start) in *.
      assert (Hl2 : 2 <= length request_wire) by (rewrite (early_whole r ops Hbody), app_length; change (length CRLF) with 2; lia).
      split; [rewrite <- B3; exact Hl2|]. split; [|auto].
      intros He. exfalso. unfold ended in He.
      destruct (PF 0 start (reach_start _ _ _ _)) as (_ & _ & _ & _ & _ & _ & _ & _ & _ & _ & rest & _ & Hs).
      destruct Hs as [(m' & Em' & _)|[Hl [(d & Ed & _)|(_ & Es & _)]]]; try congruence.
      (* nothing was written yet *)
      destruct (process_keep (server_process bld2 cap2 etext hd bufsz fuel2 hs) sock_read sock_writer _ (fresh (mkAnswers [] [] false))
        (server_process_lax bld2 cap2 etext hd bufsz fuel2 hs) (spent_still_kept [] [])) as (_ & K2 & _); [now repeat split|].
      apply answer_wire_some. rewrite <- Es. exact K2. }
    destruct (PF m c Hr) as (Q1 & Q2 & _ & _ & Hend & _ & _ & _ & _ & Hc & rest & Hrest & Hs).
    assert (Esent : k_sent (side1 client c) = request_wire).
    { destruct Hc as [(d & Ed & _)|[_ Ed]]; auto. now destruct (Hnw d). }
    assert (Hcr : exists t, queue1 client server c = t ++ CRLF).
    { rewrite Esent in Q1. rewrite Q1, app_length in N1. rewrite (early_whole r ops Hbody) in Q1.
      exists (firstn (length (queue1 client server c) - 2) (queue1 client server c)).
      rewrite <- (firstn_skipn (length (queue1 client server c) - 2) (queue1 client server c)) at 1. f_equal.
      assert (Es : forall x y : bytes, 2 <= length y -> skipn (length (x ++ y) - 2) (x ++ y) = skipn (length y - 2) y).
      { intros x y Hy. rewrite app_length, skipn_app, skipn_all2 by lia. cbn [app]. f_equal. lia. }
      apply (f_equal (fun l => skipn (length l - 2) l)) in Q1. rewrite !Es in Q1; [now symmetry|lia|auto]. }
    exists m, c. split; [exact Hr|]. split.
    { split; [exact He|]. left. destruct Hcr as [t ->]. now destruct t. }
    assert (Hq2 : queue2 client server c <> []) by auto.
    split; [|split; [auto|split; [auto|split; [auto|intros Hroom; split; [auto|intros k; apply (answer_lost m); auto]]]]].
    2: { destruct (a_end (fst c)) eqn:Ee; auto. destruct (Hend eq_refl) as [_ Et]. rewrite <- Et in Q2.
         rewrite <- (app_nil_r (k_taken (side1 client c))) in Q2 at 1. apply app_inv_head in Q2. now destruct Hq2. }
    unfold ended in He. destruct Hs as [(m' & Em' & _)|[_ [(d & Ed & _)|(_ & _ & Ex)]]]; try congruence.
  Qed.

End Reset.
Print Assumptions C61_no_body_no_reset.
Print Assumptions C61_upload_reset.

(** *** Examples *)
(** The exchange of C58: the answer is 49 bytes long, and there is room for it. The handler has the thirty bytes, the
    server is content, and the client has an error. *)
Example C61_case : exists n c, reach (C58_client Std) (C58_server NoStd echo) 7 64 n c
  /\ fst (C58_server NoStd echo (fresh (snd c))) = Ok (Ok tt, [Called Put (bs "/up")], [bs "hello, world, how are you now?"])
  /\ resets Std 16 400 C58_req C58_ops C58_reader NoStd 8 (fun _ => []) echo 4 400 [] c
  /\ after_reset Std 16 400 C58_req C58_ops C58_reader (IoError (KOther 104)) c = Err (IoError (KOther 104)).
Proof.
  destruct (C61_upload_reset Std 16 400 C58_req C58_ops C58_reader NoStd 8 (fun _ => []) echo 4 400 [] 7 64 _ _ _ _
    (C58_echo_good NoStd 7 64 ltac:(lia) ltac:(lia)) eq_refl) as (n & c & K1 & K2 & K3 & _ & _ & _ & K4).
  exists n, c. split; [exact K1|]. split; [exact K3|]. split; [exact K2|]. apply K4. vm_compute. lia.
Qed.

(** A request without a body. *)
Definition C61_req : request unit := mkRequest Get (bs "/up") (mkVersion 1 1) [(bs "host", bs "a.b")] tt.
Lemma C61_get_good bld2 room1 room2 : 1 <= room1 -> 1 <= room2 ->
  good_exchange 16 400 C61_req [] C58_reader bld2 8 echo 4 400 [] room1 room2
    (from_string OK (bs "/up")) [bs "/up"] (map B (bs "/up")) (bs "/up").
Proof.
  intros Hr1 Hr2. split; try lia; try (cbn; lia); auto.
  - apply (C58_echo_good bld2 2 1); lia.
  - split; reflexivity.
  - apply sendable_check; [reflexivity|]. exact (headers_from_sorted [(bs "host", bs "a.b")]).
  - intros w H. vm_compute in H. discriminate.
  - constructor.
  - exists (Ok (inl (from_string OK (bs "/up")))). split; [now left|]. left.
    eexists. split; [reflexivity|]. split; [reflexivity|]. cbn. lia.
  - apply from_string_delivers. lia.
  - generalize (bs "/up") as d. induction d; cbn; constructor; auto.
  - split; reflexivity.
  - apply sendable_check; [reflexivity|]. exact (headers_from_sorted []).
  - split; [discriminate|now left].
  - intros st h. unfold C58_reader. apply slurp_reads_some; [lia|constructor|constructor].
  - intros len st _. apply C58_slurps. cbn. lia.
  - repeat split; try (vm_compute; lia). constructor.
Qed.
Example C61_get_case : forall n c,
  reach (client_run Std 16 sock_read sock_writer 400 C61_req [] C58_reader) (C58_server NoStd echo) 7 64 n c ->
  ~ resets Std 16 400 C61_req [] C58_reader NoStd 8 (fun _ => []) echo 4 400 [] c.
Proof.
  exact (C61_no_body_no_reset Std 16 400 C61_req [] C58_reader NoStd 8 (fun _ => []) echo 4 400 [] 7 64 _ _ _ _
    (C61_get_good NoStd 7 64 ltac:(lia) ltac:(lia)) eq_refl).
Qed.

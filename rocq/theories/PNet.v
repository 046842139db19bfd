(** Property C58: a client and a server that run at the same time. *)
From Verif Require Import Base Utf8 Case Num Io Parser Types Message Outgoing Client Server Transport.
From Verif Require Import Lemmas ReadLemmas NumLemmas ChunkSpec ChunkLemmas BodyLemmas WriteLemmas ParserLemmas CaseLemmas TypesLemmas HeadLemmas
  BlockLemmas MsgLemmas SimLemmas OutLemmas KeepLemmas PBody PIo PParse PHead POut PReuse PServer PEnd NetLemmas Net NetSock NetStep NetFav NetFacts.

(** ** Any two programs *)
Section Pair.
  Context {A1 A2 : Type} (F1 : process A1) (F2 : process A2) (HF1 : lax_process F1) (HF2 : lax_process F2) (room1 room2 : nat).
  Notation p1 := (F1 sock sock_read sock_writer).
  Notation p2 := (F2 sock sock_read sock_writer).
  Notation s1 := (side1 (A1 := A1) p1).
  Notation s2 := (side2 (A2 := A2) p2).

  (** One side: what it was given is what it took, which is a part of what the other side sent. *)
  Record half (a : answers) (s peer : sock) : Prop := {
    half_spent : spent s;
    half_from : prefix (k_taken s) (k_sent peer);
    half_given : concat (a_reads a) = k_taken s;
    half_some : Forall (fun d => d <> []) (a_reads a);
    half_end : a_end a = true -> ended peer /\ k_taken s = k_sent peer }.

  Lemma fresh_end {A} (F : process A) a n : lax_process F -> k_stop (snd (F sock sock_read sock_writer (fresh a))) = Some (ARead n) -> a_end a = false.
  Proof.
    intros HF H.
    destruct (process_keep F sock_read sock_writer _ (fresh a) HF (end_kept (a_end a))) as [_ K]; [split; easy|].
    now destruct (K n H).
  Qed.

  (** One answer. *)
  Lemma answer_half {A} (F : process A) a peer outq room f : lax_process F ->
    let s := snd (F sock sock_read sock_writer (fresh a)) in
    let s' := snd (F sock sock_read sock_writer (fresh (f a))) in
    half a s peer -> answer s (skipn (length (k_taken s)) (k_sent peer)) outq room peer f ->
    half (f a) s' peer /\ prefix (k_sent s) (k_sent s') /\ k_stop s <> None
    /\ length (k_sent s) + length (k_taken s) + Nat.b2n (a_end a) < length (k_sent s') + length (k_taken s') + Nat.b2n (a_end (f a)).
  Proof.
    intros HF s s' [Hsp Hfr Hgi Hso Hen] Ha. destruct Ha as [n d rest Es Ei Hd Hn|n Es Ei Hp|data k Es Hk Hroom].
    - pose proof (fresh_end F a n HF Es) as Ee.
      destruct (one_read F HF d Hd (fresh a) (fresh (got d a)) n) as (K1 & K2 & K3); auto.
      { unfold rd_R, got, fresh. cbn. rewrite Ee. now repeat split. }
      { apply Hsp. }
      fold s s' in K1, K2, K3.
      assert (Et : k_sent peer = (k_taken s ++ d) ++ rest).
      { destruct Hfr as [t Ht]. rewrite Ht in Ei. rewrite skipn_app, skipn_all2, Nat.sub_diag in Ei by lia. cbn in Ei.
        rewrite Ht, Ei. apply app_assoc. }
      split; [split|]; auto.
      + rewrite K3. now exists rest.
      + cbn. rewrite concat_app, Hgi, K3. cbn. now rewrite app_nil_r.
      + cbn. apply Forall_app. auto.
      + cbn. rewrite Ee. discriminate.
      + split; [rewrite K2; exists []; now rewrite app_nil_r|]. split; [congruence|].
        rewrite K2, K3, app_length. cbn. destruct d; [easy|]. cbn. lia.
    - pose proof (fresh_end F a n HF Es) as Ee.
      destruct (one_end F HF (fresh a) (fresh (closed a)) n) as (K1 & K2 & K3); auto.
      { unfold en_R, closed, fresh. cbn. now repeat split. }
      { apply Hsp. }
      fold s s' in K1, K2, K3. split; [split|]; auto.
      + now rewrite K3.
      + cbn. now rewrite K3.
      + intros _. split; auto. rewrite K3. destruct Hfr as [t Ht]. rewrite Ht in Ei |- *.
        rewrite skipn_app, skipn_all2, Nat.sub_diag in Ei by lia. cbn in Ei. rewrite Ei. now rewrite app_nil_r.
      + split; [rewrite K2; exists []; now rewrite app_nil_r|]. split; [congruence|]. rewrite K2, K3, Ee. cbn. lia.
    - destruct (one_write F HF k (fresh a) (fresh (took k a)) data) as (K1 & K2 & K3); auto.
      { unfold wr_R, took, fresh. cbn. now repeat split. }
      { apply Hsp. }
      fold s s' in K1, K2, K3. split; [split|]; auto.
      + now rewrite K3.
      + cbn. now rewrite K3.
      + cbn. rewrite K3. auto.
      + split; [rewrite K2; now eexists|]. split; [congruence|].
        rewrite K2, K3, app_length, firstn_length. cbn. lia.
  Qed.

  Lemma peer_half a s peer peer' : half a s peer -> prefix (k_sent peer) (k_sent peer') -> k_stop peer <> None -> half a s peer'.
  Proof.
    intros [H1 [t H2] H3 H4 H5] [t' Hp] Hs. split; auto.
    - rewrite Hp, H2, <- app_assoc. now eexists.
    - intros H. destruct (H5 H) as [H6 _]. contradiction.
  Qed.

  Definition count (c : conf) : nat :=
    length (k_sent (s1 c)) + length (k_taken (s1 c)) + Nat.b2n (a_end (fst c)) + (length (k_sent (s2 c)) + length (k_taken (s2 c)) + Nat.b2n (a_end (snd c))).

  (** In every reachable state both programs have used up their answers, and what one has read is a part of what the
      other has written. *)
  Lemma reach_half n c : reach p1 p2 room1 room2 n c -> half (fst c) (s1 c) (s2 c) /\ half (snd c) (s2 c) (s1 c) /\ n <= count c.
  Proof using HF1 HF2.
    assert (Hstart : forall A (F : process A) peer, lax_process F -> half (mkAnswers [] [] false) (snd (F sock sock_read sock_writer (fresh (mkAnswers [] [] false)))) peer).
    { intros A F peer HF.
      destruct (process_keep F sock_read sock_writer _ (fresh (mkAnswers [] [] false)) HF (spent_still_kept [] [])) as (K1 & K2 & K3); [now repeat split|].
      split; [exact K1| |now rewrite K3|constructor|discriminate]. rewrite K3. exists (k_sent peer). reflexivity. }
    induction 1 as [|n c c' Hr (IH1 & IH2 & IHn) Hst].
    - split; [apply (Hstart _ F1); auto|]. split; [apply (Hstart _ F2); auto|lia].
    - destruct Hst as [c f Ha|c f Ha]; unfold count, side1, side2 in *; cbn [fst snd] in *.
      + destruct (answer_half F1 (fst c) (snd (p2 (fresh (snd c)))) _ _ f HF1 IH1 Ha) as (K1 & K2 & K3 & K4). split; auto. split; [|lia].
        now apply (peer_half _ _ _ _ IH2).
      + destruct (answer_half F2 (snd c) (snd (p1 (fresh (fst c)))) _ _ f HF2 IH2 Ha) as (K1 & K2 & K3 & K4). split; [|split]; auto; [|lia].
        now apply (peer_half _ _ _ _ IH1).
  Qed.
End Pair.

(** ** C58. The client and the server *)
Section Exchange.
  (* the client *)
  Context {A : Type} (bld1 : build) (cap1 fuel1 : nat) (r : request unit) (ops : list op) (p : status -> headers -> prog A).
  (* the server *)
  Context {H : Type} (bld2 : build) (cap2 : nat) (etext : error -> bytes) (hd : handler H) (bufsz fuel2 : nat) (hs : H).
  (* the network *)
  Context (room1 room2 : nat).
  (* what the handler answers *)
  Context (q : dyn_response) (hs' : H) (ys : list item) (out : bytes).

  Notation client := (client_run bld1 cap1 sock_read sock_writer fuel1 r ops p).
  Notation server := (server_run bld2 cap2 sock_read sock_writer etext hd bufsz fuel2 hs).
  Notation request_wire := (whole_request r ops).
  Notation answer_wire := (response_wire q out).

  Record good_exchange : Prop := {
    (* the client sends a well-formed request, writing a body only with a method that has one *)
    ge_ops : has_body (rq_method r) = true \/ ops = [];
    ge_uri : sendable_uri (rq_uri r);
    ge_version : small_version (rq_version r);
    ge_headers : sendable (rq_headers r);
    ge_length : good_length (rq_headers r);
    ge_sizes : Forall (fun d => (N.of_nat (length d) <= u64_max)%N) (written ops);
    (* there is room in the queues *)
    ge_room1 : 1 <= room1;
    ge_room2 : 1 <= room2;
    (* the handler answers, and has then left at most as much of the request unread as fits into the queue *)
    ge_handles : handles hd fuel2 hs r ops room1 q hs';
    ge_body : delivers (body_read bld2 (bufr_read bld2 cap2 dyn_read) fuel2) (rs_body q) ys;
    ge_out : noisy bld2 out ys;
    (* the answer is well-formed *)
    ge_version2 : small_version (rs_version q);
    ge_code : (to_code (rs_status q) < 2 ^ 32)%N;
    ge_headers2 : sendable (rs_headers q);
    ge_framing : honest_framing (rs_headers q) out;
    (* the client, having seen the status and the headers, reads the body in any way, and stops some time *)
    ge_reads : forall st h, reads_some (p st h);
    ge_stops : forall len st, to_code st = to_code (rs_status q) -> stops len fuel1 (p st (rs_headers q)) out;
    (* buffers and bounds on the number of steps *)
    ge_cap1 : 0 < cap1 <= fuel1;
    ge_fuel1 : 5 <= fuel1 /\ length (concat (request_pieces r)) <= fuel1 /\ Forall (fun d => length (chunk_of d) <= fuel1) (written ops)
               /\ length answer_wire + 3 < fuel1;
    ge_cap2 : 0 < cap2;
    ge_bufsz : 0 < bufsz <= fuel2;
    ge_fuel2 : length request_wire + 4 < fuel2 /\ length (response_wire q []) <= fuel2 /\ length ys < fuel2 }.

  Context (G : good_exchange).

  (** [rm] is the size of the queue to the server, which need not be [room1]. *)
  Lemma progress_any rm n c : reach client server rm room2 n c ->
    let s1 := side1 client c in let s2 := side2 server c in
    (* the queues *)
    k_sent s1 = k_taken s2 ++ queue1 client server c /\ k_sent s2 = k_taken s1 ++ queue2 client server c
    /\ concat (a_reads (fst c)) = k_taken s1 /\ Forall (fun d => d <> []) (a_reads (fst c))
    /\ (a_end (fst c) = true -> ended s2 /\ k_taken s1 = k_sent s2)
    /\ (forall d, k_stop s1 = Some (AWrite d) -> d <> []) /\ (forall d, k_stop s2 = Some (AWrite d) -> d <> [])
    /\ (forall n, k_stop s1 = Some (ARead n) -> 0 < n) /\ (forall n, k_stop s2 = Some (ARead n) -> 0 < n)
    (* the client *)
    /\ ((exists d, k_stop s1 = Some (AWrite d) /\ prefix (k_sent s1 ++ d) request_wire)
        \/ ((forall d, k_stop s1 <> Some (AWrite d)) /\ k_sent s1 = request_wire))
    (* the server *)
    /\ exists rest, request_wire = k_taken s2 ++ rest
    /\ ((exists n, k_stop s2 = Some (ARead n) /\ rest <> [] /\ k_sent s2 = [])
        \/ (length rest <= room1
            /\ ((exists d, k_stop s2 = Some (AWrite d) /\ prefix (k_sent s2 ++ d) answer_wire)
                \/ (k_stop s2 = None /\ k_sent s2 = answer_wire
                    /\ fst (server (fresh (snd c))) = Ok (Ok tt, [Called (rq_method r) (rq_uri r)], hs'))))).
  Proof using G.
    intros Hr. cbv zeta.
    pose proof (client_process_lax bld1 cap1 fuel1 r ops p) as HF1. pose proof (server_process_lax bld2 cap2 etext hd bufsz fuel2 hs) as HF2.
    set (F1 := client_process bld1 cap1 fuel1 r ops p) in *. set (F2 := server_process bld2 cap2 etext hd bufsz fuel2 hs) in *.
    assert (Hinv : forall n c, reach client server rm room2 n c ->
       half (fst c) (side1 client c) (side2 server c) /\ half (snd c) (side2 server c) (side1 client c)).
    { intros n0 c0 H0. destruct (reach_half F1 F2 HF1 HF2 rm room2 n0 c0 H0) as (K1 & K2 & _). auto. }
    assert (Hcl : forall c, (exists d, k_stop (side1 client c) = Some (AWrite d) /\ prefix (k_sent (side1 client c) ++ d) request_wire)
        \/ ((forall d, k_stop (side1 client c) <> Some (AWrite d)) /\ k_sent (side1 client c) = request_wire)).
    { intros c0. apply (client_sends bld1 cap1 fuel1 r ops p); try apply G. }
    assert (Hpre : forall c, prefix (k_sent (side1 client c)) request_wire).
    { intros c0. destruct (Hcl c0) as [(d & _ & [t E])|[_ ->]]; [|exists []; now rewrite app_nil_r]. rewrite E, <- app_assoc. now eexists. }
    assert (Hsrv : forall a rest, request_wire = concat (a_reads a) ++ rest -> Forall (fun d => d <> []) (a_reads a) -> a_end a = false ->
      let s := snd (server (fresh a)) in
      (exists n, k_stop s = Some (ARead n) /\ rest <> [] /\ k_sent s = [])
      \/ (length rest <= room1
          /\ ((exists d, k_stop s = Some (AWrite d) /\ prefix (k_sent s ++ d) answer_wire)
              \/ (k_stop s = None /\ k_sent s = answer_wire /\ fst (server (fresh a)) = Ok (Ok tt, [Called (rq_method r) (rq_uri r)], hs'))))).
    { apply (server_facts bld2 cap2 etext hd bufsz fuel2 hs r ops room1 q hs' ys out); apply G. }
    (* the server is never told that the client has closed *)
    assert (Hend : forall n c, reach client server rm room2 n c -> a_end (snd c) = false).
    { induction 1 as [|n0 c0 c1 H0 IH Hst]; auto.
      destruct Hst as [c0 f Ha|c0 f Ha]; cbn [fst snd]; auto.
      destruct Ha as [m d rest Es Ei Hd Hm|m Es Ei Hp|data k Es Hk Hroom]; cbn [got closed took a_end]; auto. exfalso.
      destruct (Hinv _ _ H0) as [_ [_ [t Ht] Hgi Hso _]].
      unfold queue1 in Ei. rewrite Ht, skipn_app, skipn_all2, Nat.sub_diag in Ei by lia. cbn in Ei. subst t. rewrite app_nil_r in Ht.
      destruct (Hpre c0) as [rest Hrest].
      destruct (Hsrv (snd c0) rest) as [(m' & K1 & K2 & _)|[_ [(d & K1 & _)|[K1 _]]]]; auto.
      - now rewrite Hgi, <- Ht.
      - destruct (Hcl c0) as [(d & Ed & _)|[_ Ed]]; [unfold ended in Hp; congruence|].
        apply K2. rewrite Ed in Hrest. apply (app_inv_head request_wire). now rewrite app_nil_r.
      - unfold side2 in Es. congruence.
      - unfold side2 in Es. congruence. }
    destruct (Hinv n c Hr) as [[A1 [t1 A2] A3 A4 A5] [B1 [t2 B2] B3 B4 B5]].
    pose proof (process_keep F1 sock_read sock_writer _ (fresh (fst c)) HF1 write_kept ltac:(easy)) as W1.
    pose proof (process_keep F2 sock_read sock_writer _ (fresh (snd c)) HF2 write_kept ltac:(easy)) as W2.
    destruct (process_keep F1 sock_read sock_writer _ (fresh (fst c)) HF1 (end_kept (a_end (fst c))) ltac:(split; easy)) as [_ W3].
    destruct (process_keep F2 sock_read sock_writer _ (fresh (snd c)) HF2 (end_kept (a_end (snd c))) ltac:(split; easy)) as [_ W4].
    split; [unfold queue1; rewrite B2 at 2; rewrite skipn_app, skipn_all2, Nat.sub_diag by lia; exact B2|].
    split; [unfold queue2; rewrite A2 at 2; rewrite skipn_app, skipn_all2, Nat.sub_diag by lia; exact A2|].
    split; auto. split; auto. split; auto.
    split; [intros d Hd; apply (W1 d Hd)|]. split; [intros d Hd; apply (W2 d Hd)|].
    split; [intros d Hd; apply (W3 d Hd)|]. split; [intros d Hd; apply (W4 d Hd)|].
    split; auto.
    destruct (Hpre c) as [t Ht]. exists (t2 ++ t). split; [rewrite Ht, B2; now rewrite <- app_assoc|].
    apply Hsrv; auto; [|eapply Hend; eauto]. rewrite Ht, B2, B3. now rewrite <- app_assoc.
  Qed.

  Lemma progress_facts n c : reach client server room1 room2 n c ->
    let s1 := side1 client c in let s2 := side2 server c in
    (* the queues *)
    k_sent s1 = k_taken s2 ++ queue1 client server c /\ k_sent s2 = k_taken s1 ++ queue2 client server c
    /\ concat (a_reads (fst c)) = k_taken s1 /\ Forall (fun d => d <> []) (a_reads (fst c))
    /\ (a_end (fst c) = true -> ended s2 /\ k_taken s1 = k_sent s2)
    /\ (forall d, k_stop s1 = Some (AWrite d) -> d <> []) /\ (forall d, k_stop s2 = Some (AWrite d) -> d <> [])
    /\ (forall n, k_stop s1 = Some (ARead n) -> 0 < n) /\ (forall n, k_stop s2 = Some (ARead n) -> 0 < n)
    (* the client *)
    /\ ((exists d, k_stop s1 = Some (AWrite d) /\ prefix (k_sent s1 ++ d) request_wire)
        \/ ((forall d, k_stop s1 <> Some (AWrite d)) /\ k_sent s1 = request_wire))
    (* the server *)
    /\ exists rest, request_wire = k_taken s2 ++ rest
    /\ ((exists n, k_stop s2 = Some (ARead n) /\ rest <> [] /\ k_sent s2 = [])
        \/ (length rest <= room1
            /\ ((exists d, k_stop s2 = Some (AWrite d) /\ prefix (k_sent s2 ++ d) answer_wire)
                \/ (k_stop s2 = None /\ k_sent s2 = answer_wire
                    /\ fst (server (fresh (snd c))) = Ok (Ok tt, [Called (rq_method r) (rq_uri r)], hs'))))).
  Proof using G. apply progress_any. Qed.

  (** As long as one of them has not returned, something can happen: no deadlock. *)
  Theorem C58_progress : forall n c, reach client server room1 room2 n c ->
    (ended (side1 client c) /\ ended (side2 server c)) \/ exists c', step client server room1 room2 c c'.
  Proof using G.
    intros n c Hr.
    destruct (progress_facts n c Hr) as (Q1 & Q2 & _ & _ & _ & W1 & W2 & W3 & W4 & Hc & rest & Hrest & Hs).
    pose proof (ge_room1 G) as Hr1. pose proof (ge_room2 G) as Hr2.
    (* a read of what is there, a write of one byte *)
    assert (Read1 : forall m, k_stop (side1 client c) = Some (ARead m) -> queue2 client server c <> [] -> exists c', step client server room1 room2 c c').
    { intros m Em Hq. destruct (queue2 client server c) as [|b l] eqn:Eq; [easy|]. eexists. apply step1, (ans_read _ _ _ _ _ m [b] l); auto; try easy.
      pose proof (W3 m Em). cbn. lia. }
    assert (Read2 : forall m, k_stop (side2 server c) = Some (ARead m) -> queue1 client server c <> [] -> exists c', step client server room1 room2 c c').
    { intros m Em Hq. destruct (queue1 client server c) as [|b l] eqn:Eq; [easy|]. eexists. apply step2, (ans_read _ _ _ _ _ m [b] l); auto; try easy.
      pose proof (W4 m Em). cbn. lia. }
    assert (Write1 : forall d, k_stop (side1 client c) = Some (AWrite d) -> length (queue1 client server c) + 1 <= room1 \/ ended (side2 server c) ->
      exists c', step client server room1 room2 c c').
    { intros d Ed Hq. eexists. apply step1, (ans_write _ _ _ _ _ d 1); auto. pose proof (W1 d Ed). destruct d; [easy|]. cbn. lia. }
    assert (Write2 : forall d, k_stop (side2 server c) = Some (AWrite d) -> length (queue2 client server c) + 1 <= room2 \/ ended (side1 client c) ->
      exists c', step client server room1 room2 c c').
    { intros d Ed Hq. eexists. apply step2, (ans_write _ _ _ _ _ d 1); auto. pose proof (W2 d Ed). destruct d; [easy|]. cbn. lia. }
    assert (Hrest1 : k_sent (side1 client c) = request_wire -> rest = queue1 client server c).
    { intros E. rewrite E, Hrest in Q1. now apply app_inv_head in Q1. }
    destruct Hs as [(m & Em & Hne & _)|[Hlen [(d & Ed & _)|(En & _ & _)]]].
    - (* the server reads *)
      right. destruct (list_eq_dec Byte.byte_eq_dec (queue1 client server c) []) as [Eq|Eq]; [|eauto].
      destruct Hc as [(d & Ed & _)|[_ E]]; [|destruct Hne; now rewrite Hrest1].
      apply (Write1 d Ed). left. rewrite Eq. cbn. lia.
    - (* the server writes *)
      right. destruct (le_lt_dec (length (queue2 client server c) + 1) room2) as [Hle|Hgt]; [eauto|].
      destruct Hc as [(d1 & Ed1 & [t Ht])|[Hn E]].
      + apply (Write1 d1 Ed1). left. rewrite Q1, Hrest in Ht. rewrite <- !app_assoc in Ht. apply app_inv_head in Ht.
        apply (f_equal (@length byte)) in Ht. rewrite !app_length in Ht. pose proof (W1 d1 Ed1). destruct d1; [easy|]. cbn [length] in Ht. lia.
      + destruct (k_stop (side1 client c)) as [[m|d1]|] eqn:E1.
        * apply (Read1 m eq_refl). destruct (queue2 client server c); [cbn in Hgt; lia|easy].
        * now destruct (Hn d1).
        * apply (Write2 d Ed). now right.
    - (* the server is done *)
      destruct (k_stop (side1 client c)) as [[m|d1]|] eqn:E1.
      + right. destruct (queue2 client server c) as [|b l] eqn:Eq.
        * eexists. apply step1, (ans_end _ _ _ _ _ m); auto.
        * apply (Read1 m eq_refl). easy.
      + right. apply (Write1 d1 eq_refl). now right.
      + left. now split.
  Qed.

  Lemma bounded_any : forall rm n c, reach client server rm room2 n c -> n <= 2 * length request_wire + 2 * length answer_wire + 2.
  Proof using G.
    intros rm n c Hr.
    destruct (reach_half _ _ (client_process_lax bld1 cap1 fuel1 r ops p) (server_process_lax bld2 cap2 etext hd bufsz fuel2 hs) rm room2 n c Hr) as (_ & _ & Hn).
    destruct (progress_any rm n c Hr) as (Q1 & Q2 & _ & _ & _ & _ & _ & _ & _ & Hc & rest & Hrest & Hs).
    unfold count in Hn. change (side1 (client_process bld1 cap1 fuel1 r ops p sock sock_read sock_writer) c) with (side1 client c) in Hn.
    change (side2 (server_process bld2 cap2 etext hd bufsz fuel2 hs sock sock_read sock_writer) c) with (side2 server c) in Hn.
    assert (L1 : length (k_sent (side1 client c)) <= length request_wire).
    { destruct Hc as [(d & _ & [t ->])|[_ ->]]; rewrite ?app_length; lia. }
    assert (L2 : length (k_sent (side2 server c)) <= length answer_wire).
    { destruct Hs as [(m & _ & _ & ->)|[_ [(d & _ & [t ->])|(_ & -> & _)]]]; rewrite ?app_length; cbn; lia. }
    apply (f_equal (@length byte)) in Q1, Q2. rewrite app_length in Q1, Q2.
    destruct (a_end (fst c)), (a_end (snd c)); cbn [Nat.b2n] in Hn; lia.
  Qed.

  (** Every run is finite: it has at most as many steps as there are bytes to write and to read, and two more. *)
  Theorem C58_bounded : forall n c, reach client server room1 room2 n c -> n <= 2 * length request_wire + 2 * length answer_wire + 2.
  Proof using G. apply bounded_any. Qed.

  Lemma result_any : forall rm n c, reach client server rm room2 n c -> ended (side1 client c) -> ended (side2 server c) ->
    fst (server (fresh (snd c))) = Ok (Ok tt, [Called (rq_method r) (rq_uri r)], hs')
    /\ k_sent (side1 client c) = request_wire /\ k_sent (side2 server c) = answer_wire
    /\ exists st x len, fst (client (fresh (fst c))) = Ok (st, rs_headers q, x)
       /\ to_code st = to_code (rs_status q) /\ ((forall code, rs_status q <> StUnknown code) -> st = rs_status q)
       /\ plain_length (rs_headers q) len /\ runs len (p st (rs_headers q)) out x.
  Proof using G.
    intros rm n c Hr E1 E2. unfold ended in *.
    destruct (progress_any rm n c Hr) as (Q1 & Q2 & Hg & Hso & Hend & _ & _ & _ & _ & Hc & rest & Hrest & Hs).
    destruct Hs as [(m & Em & _)|[_ [(d & Ed & _)|(_ & Es & Ex)]]]; try congruence.
    split; [exact Ex|]. split; [destruct Hc as [(d & Ed & _)|[_ E]]; congruence|]. split; [exact Es|].
    destruct G.
    apply (client_gets bld1 cap1 fuel1 r ops p) with (out := out) (rest := queue2 client server c); try tauto.
    - rewrite <- Es, Hg. exact Q2.
    - intros He. destruct (Hend He) as [_ Et]. rewrite <- Et in Q2. rewrite <- (app_nil_r (k_taken (side1 client c))) in Q2 at 1.
      now apply app_inv_head in Q2.
  Qed.

  (** When both have returned, the server has called the handler once and sent its answer, and the client has it: the
      same headers and code, and what the client computed is a run of its program on the body of the answer. *)
  Theorem C58_result : forall n c, reach client server room1 room2 n c -> ended (side1 client c) -> ended (side2 server c) ->
    fst (server (fresh (snd c))) = Ok (Ok tt, [Called (rq_method r) (rq_uri r)], hs')
    /\ k_sent (side1 client c) = request_wire /\ k_sent (side2 server c) = answer_wire
    /\ exists st x len, fst (client (fresh (fst c))) = Ok (st, rs_headers q, x)
       /\ to_code st = to_code (rs_status q) /\ ((forall code, rs_status q <> StUnknown code) -> st = rs_status q)
       /\ plain_length (rs_headers q) len /\ runs len (p st (rs_headers q)) out x.
  Proof using G. apply result_any. Qed.

  (** Hence every run ends, in a state as described. *)
  Theorem C58_ends : forall n c, reach client server room1 room2 n c -> exists m c', reach client server room1 room2 m c' /\ n <= m
    /\ ended (side1 client c') /\ ended (side2 server c').
  Proof using G.
    intros n c Hr. remember (2 * length request_wire + 2 * length answer_wire + 2 - n) as k eqn:Ek.
    revert n c Hr Ek. induction k as [k IH] using lt_wf_ind. intros n c Hr Ek.
    destruct (C58_progress n c Hr) as [[E1 E2]|[c' Hst]]; [exists n, c; auto|].
    assert (Hr' : reach client server room1 room2 (S n) c') by (econstructor; eauto). pose proof (C58_bounded _ _ Hr').
    destruct (IH (2 * length request_wire + 2 * length answer_wire + 2 - S n) ltac:(lia) (S n) c' Hr' eq_refl) as (m & c2 & H1 & H2 & H3 & H4).
    exists m, c2. repeat split; auto. lia.
  Qed.
End Exchange.
Print Assumptions C58_progress.
Print Assumptions C58_bounded.
Print Assumptions C58_result.
Print Assumptions C58_ends.

(** ** Examples *)
(** One way to run the network: whoever can be answered is, the client first, with as much as possible. *)
Section Greedy.
  Context {A1 A2 : Type} (p1 : sock -> res A1 * sock) (p2 : sock -> res A2 * sock) (room1 room2 : nat).
  Definition reply_to (s : sock) (inq outq : bytes) (room : nat) (peer : sock) : option (answers -> answers) :=
    match k_stop s with
    | Some (ARead n) =>
        match inq with
        | [] => match k_stop peer with None => Some closed | Some _ => None end
        | _ => match n with O => None | _ => Some (got (firstn n inq)) end
        end
    | Some (AWrite d) =>
        let k := match k_stop peer with None => length d | Some _ => Nat.min (length d) (room - length outq) end in
        match k with O => None | _ => Some (took k) end
    | None => None
    end.
  Definition next (c : conf) : option conf :=
    let s1 := side1 p1 c in
    let s2 := side2 p2 c in
    match reply_to s1 (queue2 p1 p2 c) (queue1 p1 p2 c) room1 s2 with
    | Some f => Some (f (fst c), snd c)
    | None => match reply_to s2 (queue1 p1 p2 c) (queue2 p1 p2 c) room2 s1 with
              | Some f => Some (fst c, f (snd c))
              | None => None
              end
    end.
  Fixpoint run_greedy (n : nat) (c : conf) : nat * conf :=
    match n with
    | O => (O, c)
    | S m => match next c with Some c' => let (k, d) := run_greedy m c' in (S k, d) | None => (O, c) end
    end.

  Lemma reply_sound s inq outq room peer f : reply_to s inq outq room peer = Some f -> answer s inq outq room peer f.
  Proof.
    unfold reply_to. destruct (k_stop s) as [[n|d]|] eqn:Es; [| |discriminate].
    - destruct inq as [|x inq].
      + destruct (k_stop peer) eqn:Ep; [discriminate|]. intros [= <-]. now apply (ans_end _ _ _ _ _ n).
      + destruct n as [|n]; [discriminate|]. intros [= <-]. apply (ans_read _ _ _ _ _ (S n) _ (skipn (S n) (x :: inq))); auto.
        * symmetry. exact (firstn_skipn (S n) (x :: inq)).
        * easy.
        * exact (firstn_le_length (S n) (x :: inq)).
    - destruct (match k_stop peer with None => length d | Some _ => Nat.min (length d) (room - length outq) end) as [|k] eqn:Ek; [discriminate|].
      intros [= <-]. apply (ans_write _ _ _ _ _ d (S k)); auto.
      + destruct (k_stop peer); lia.
      + destruct (k_stop peer) eqn:Ep; [left; lia|right; exact Ep].
  Qed.
  Lemma reply_complete s inq outq room peer f : reply_to s inq outq room peer = None -> ~ answer s inq outq room peer f.
  Proof.
    unfold reply_to. intros H Ha. destruct Ha as [n d rest Es -> Hd Hn|n Es -> Hp|d k Es Hk Hr]; rewrite Es in H.
    - destruct d as [|x d]; [easy|]. cbn in H, Hn. destruct n; [lia|discriminate].
    - unfold ended in Hp. rewrite Hp in H. discriminate.
    - unfold ended in Hr. destruct (k_stop peer) eqn:Ep.
      + destruct Hr as [Hr|Hr]; [|discriminate]. destruct (Nat.min (length d) (room - length outq)) eqn:E; [lia|discriminate].
      + destruct d; [cbn in Hk; lia|discriminate].
  Qed.
  Lemma greedy_reach : forall n m c k d, reach p1 p2 room1 room2 m c -> run_greedy n c = (k, d) -> reach p1 p2 room1 room2 (k + m) d.
  Proof.
    induction n as [|n IH]; intros m c k d Hr E; cbn [run_greedy] in E; [now injection E as <- <-|].
    destruct (next c) as [c'|] eqn:En; [|now injection E as <- <-].
    destruct (run_greedy n c') as [k' d'] eqn:E'. injection E as <- <-.
    assert (Hst : step p1 p2 room1 room2 c c').
    { unfold next in En. destruct (reply_to (side1 p1 c) _ _ _ _) as [f|] eqn:E1; [injection En as <-; now apply step1, reply_sound|].
      destruct (reply_to (side2 p2 c) _ _ _ _) as [f|] eqn:E2; [injection En as <-; now apply step2, reply_sound|discriminate]. }
    change (S k' + m) with (S (k' + m)). rewrite plus_n_Sm. apply (IH _ c'); auto. now apply (reach_step _ _ _ _ m c).
  Qed.
  Lemma greedy_stuck c : next c = None -> forall c', ~ step p1 p2 room1 room2 c c'.
  Proof.
    unfold next. intros H c' Hst.
    destruct (reply_to (side1 p1 c) _ _ _ _) as [f|] eqn:E1; [discriminate|]. destruct (reply_to (side2 p2 c) _ _ _ _) as [f|] eqn:E2; [discriminate|].
    inversion Hst; subst; [exact (reply_complete _ _ _ _ _ _ E1 ltac:(eassumption))|exact (reply_complete _ _ _ _ _ _ E2 ltac:(eassumption))].
  Qed.
End Greedy.

(** A client that sends thirty bytes and reads the whole answer, with a buffer of 5 bytes. *)
Definition C58_req : request unit := mkRequest Put (bs "/up") (mkVersion 1 1) [(bs "transfer-encoding", bs "chunked")] tt.
Definition C58_ops : list op := [Write (bs "hello, "); Flush; Write (bs "world, how are you now?")].
Definition C58_reader : status -> headers -> prog bytes := fun _ _ => slurp 5 (fun d => Ret d) (fun _ => Ret []) [].
(** The handlers of [echo] (C46) and those that refuse every method (C49). *)
Definition C58_client (bld : build) := client_run bld 16 sock_read sock_writer 400 C58_req C58_ops C58_reader.
Definition C58_server (bld : build) (hd : handler (list bytes)) := server_run bld 8 sock_read sock_writer (fun _ => []) hd 4 400 [].

Lemma C58_slurps data fuel len st h : length data + 2 <= fuel -> stops len fuel (C58_reader st h) data.
Proof. intros Hl. now apply (C52_reading_to_the_end bytes 5 (fun d => d) (fun _ => Ret []) len fuel data); try lia; intros; try constructor. Qed.

Lemma C58_echo_good bld2 room1 room2 : 2 <= room1 -> 1 <= room2 ->
  good_exchange 16 400 C58_req C58_ops C58_reader bld2 8 echo 4 400 [] room1 room2
    (from_string OK (bs "hello, world, how are you now?")) [bs "hello, world, how are you now?"]
    (map B (bs "hello, world, how are you now?")) (bs "hello, world, how are you now?").
Proof.
  intros Hr1 Hr2. split; try lia; try (cbn; lia); auto.
  - repeat split; try easy.
    + now apply utf8_bs_ascii.
    + assert (H : forallb (fun b => negb (is_blank b)) (bs "/up") = true) by reflexivity. rewrite forallb_forall in H.
      apply Forall_forall. intros b Hb. apply H, negb_true_iff in Hb. now apply is_blank_false.
    + apply no_cr_no_crlf. cbn. intuition easy.
  - split; reflexivity.
  - apply sendable_check; [reflexivity|]. exact (headers_from_sorted [(bs "transfer-encoding", bs "chunked")]).
  - intros w H. vm_compute in H. discriminate.
  - repeat constructor; vm_compute; discriminate.
  - exists (Ok (inl (from_string OK (bs "hello, world, how are you now?")))). split; [now left|]. right.
    eexists. split; [reflexivity|]. split; [reflexivity|]. cbn [rq_uri C58_req].
    set (done := fun d : bytes => (Ok (inl (from_string OK d)) : hresult, [d])).
    set (failed := fun (_ : error) => Ret (Ok (inr (from_string BadRequest (bs "?"))) : hresult, @nil bytes)).
    assert (Hf : forall e, reads_some (failed e)) by (intros; constructor).
    assert (Hd : forall d, reads_some (Ret (done d))) by (intros; constructor).
    split; [|split].
    + intros len. apply (C52_reading_to_the_end _ 2 done failed len 400 (bs "hello, world, how are you now?")); auto; cbn; lia.
    + intros len a Ha. apply (C52_reading_to_the_end _ 2 done failed len 400 (bs "hello, world, how are you now?")); auto; cbn; lia.
    + left. split; auto. apply (slurp_to_end 2 (fun d => Ret (done d)) failed); auto.
  - apply from_string_delivers. lia.
  - generalize (bs "hello, world, how are you now?") as d. induction d; cbn; constructor; auto.
  - split; reflexivity.
  - apply sendable_check; [reflexivity|]. exact (headers_from_sorted []).
  - split; [discriminate|now left].
  - intros st h. unfold C58_reader. apply slurp_reads_some; [lia|constructor|constructor].
  - intros len st _. apply C58_slurps. cbn. lia.
  - repeat split; try (vm_compute; lia). repeat constructor; vm_compute; lia.
Qed.

Section Outcome.
  Context {A1 A2 : Type} (p1 : sock -> res A1 * sock) (p2 : sock -> res A2 * sock) (room1 room2 : nat).
  Lemma greedy_outcome k (P : nat -> conf -> Prop) : (let (n, c) := run_greedy p1 p2 room1 room2 k start in P n c) ->
    exists n c, reach p1 p2 room1 room2 n c /\ P n c.
  Proof.
    destruct (run_greedy p1 p2 room1 room2 k start) as [n c] eqn:E. intros H. exists n, c. split; auto.
    rewrite <- (Nat.add_0_r n). apply (greedy_reach _ _ _ _ k 0 start n c (reach_start _ _ _ _) E).
  Qed.
  Lemma greedy_deadlock k (P : conf -> Prop) :
    (let (n, c) := run_greedy p1 p2 room1 room2 k start in
     match k_stop (side1 p1 c), next p1 p2 room1 room2 c with Some _, None => P c | _, _ => False end) ->
    exists n c, reach p1 p2 room1 room2 n c /\ deadlock p1 p2 room1 room2 c /\ P c.
  Proof.
    intros H. destruct (greedy_outcome k (fun _ c => deadlock p1 p2 room1 room2 c /\ P c)) as (n & c & Hr & Hd & HP); [|now exists n, c].
    destruct (run_greedy p1 p2 room1 room2 k start) as [n c]. destruct (k_stop (side1 p1 c)) eqn:Es; [|easy].
    destruct (next p1 p2 room1 room2 c) eqn:En; [easy|]. split; auto. split; [|now apply greedy_stuck]. unfold ended. rewrite Es. intros [? _]. discriminate.
  Qed.
End Outcome.

(** The exchange written out, with seven bytes of room in one direction and three in the other: 209 steps. *)
Example C58_case : exists n c, reach (C58_client Std) (C58_server NoStd echo) 7 3 n c
  /\ ended (side1 (C58_client Std) c) /\ ended (side2 (C58_server NoStd echo) c) /\ n = 209
  /\ fst (C58_client Std (fresh (fst c))) = Ok (OK, [], bs "hello, world, how are you now?")
  /\ fst (C58_server NoStd echo (fresh (snd c))) = Ok (Ok tt, [Called Put (bs "/up")], [bs "hello, world, how are you now?"]).
Proof.
  apply (greedy_outcome (C58_client Std) (C58_server NoStd echo) 7 3 1000). vm_compute. repeat split.
Qed.

(** A handler that answers without reading. The exchange goes well if the rest of the request has room in the queue. *)
Lemma C58_refuse_good bld2 room1 room2 : length (body_wire C58_req C58_ops) <= room1 -> 1 <= room2 ->
  good_exchange 16 400 C58_req C58_ops C58_reader bld2 8 (@default_handler (list bytes)) 4 400 [] room1 room2
    (from_string MethodNotAllowed (bs "PUT not allowed")) [] (map B (bs "PUT not allowed")) (bs "PUT not allowed").
Proof.
  intros Hr1 Hr2. split; try (cbn; lia); auto.
  - apply (C58_echo_good bld2 2 1); lia.
  - apply (C58_echo_good bld2 2 1); lia.
  - apply (C58_echo_good bld2 2 1); lia.
  - apply (C58_echo_good bld2 2 1); lia.
  - apply (C58_echo_good bld2 2 1); lia.
  - revert Hr1. vm_compute (length _). lia.
  - exists (Ok (inl (from_string MethodNotAllowed (bs "PUT not allowed")))). split; [now left|]. right.
    eexists. split; [reflexivity|]. split; [reflexivity|]. split; [|split].
    + intros len. constructor.
    + intros len a Ha. now inversion Ha.
    + right. split; [constructor|exact Hr1].
  - apply from_string_delivers. lia.
  - generalize (bs "PUT not allowed") as d. induction d; cbn; constructor; auto.
  - split; reflexivity.
  - apply sendable_check; [reflexivity|]. exact (headers_from_sorted []).
  - split; [discriminate|now left].
  - intros st h. unfold C58_reader. apply slurp_reads_some; [lia|constructor|constructor].
  - intros len st _. apply C58_slurps. cbn. lia.
  - repeat split; try (vm_compute; lia). repeat constructor; vm_compute; lia.
Qed.

(** The condition on [room1] cannot be dropped. Both sides wait for each other for ever when
    - the handler (here the crate's own answer to a method that the handler does not implement) answers without reading
      the body, and neither the rest of the body nor the answer fits into its queue: the client waits for room for the
      body, the server for room for the answer;
    - the handler reads the body to its end, but there is room for one byte only: the empty line behind the last chunk,
      which the server never reads, does not fit into the queue. *)
Theorem C58_deadlock_refuted :
  (exists n c, reach (C58_client Std) (C58_server Std default_handler) 8 8 n c
     /\ deadlock (C58_client Std) (C58_server Std default_handler) 8 8 c
     /\ k_stop (side1 (C58_client Std) c) = Some (AWrite (bs ", " ++ CRLF))
     /\ k_stop (side2 (C58_server Std default_handler) c) = Some (AWrite (bs " ")))
  /\ (exists n c, reach (C58_client Std) (C58_server NoStd echo) 1 8 n c
     /\ deadlock (C58_client Std) (C58_server NoStd echo) 1 8 c
     /\ k_stop (side1 (C58_client Std) c) = Some (AWrite [LF])
     /\ k_stop (side2 (C58_server NoStd echo) c) = Some (AWrite (bs " "))).
Proof.
  split.
  - apply (greedy_deadlock (C58_client Std) (C58_server Std default_handler) 8 8 1000). vm_compute. now split.
  - apply (greedy_deadlock (C58_client Std) (C58_server NoStd echo) 1 8 1000). vm_compute. now split.
Qed.
Print Assumptions C58_deadlock_refuted.

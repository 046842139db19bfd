(** Property C71: uploads that the handler answers without reading the body. *)
From Verif Require Import Base Utf8 Case Num Io Parser Types Message Outgoing Client Server Transport.
From Verif Require Import Lemmas ReadLemmas NumLemmas ChunkSpec ChunkLemmas BodyLemmas WriteLemmas ParserLemmas CaseLemmas TypesLemmas HeadLemmas
  BlockLemmas MsgLemmas SimLemmas OutLemmas KeepLemmas PBody PIo PParse PHead POut PReuse PServer PEnd NetLemmas Net NetSock NetStep NetFav NetFacts
  PNet PReset.

(** The handler answers this request with [q] and goes on with [hs'] without looking at the body: a method that has no
    body argument (such as DELETE), or one that returns at once. *)
Definition unread {H} (hd : handler H) (hs : H) (r : request unit) (q : dyn_response) (hs' : H) : Prop :=
  exists y, (y = Ok (inl q) \/ y = Ok (inr q))
  /\ ((exists f, plain_method hd (rq_method r) = Some f /\ f (rq_uri r) hs = (y, hs'))
      \/ (exists f, body_method hd (rq_method r) = Some f /\ hm_get (bs "transfer-encoding") (rq_headers r) = Some (bs "chunked")
          /\ f (rq_uri r) hs = Ret (y, hs'))).

Lemma unread_handles {H} (hd : handler H) fuel hs r ops q hs' : 0 < fuel -> unread hd hs r q hs' ->
  handles hd fuel hs r ops (length (body_wire r ops)) q hs'.
Proof.
  intros Hf (y & Hy & [(f & H1 & H2)|(f & H1 & H2 & H3)]); exists y; split; auto.
  - left. exists f. auto.
  - right. exists f. rewrite H3. split; auto. split; auto. split; [|split].
    + intros len. destruct fuel; [lia|constructor].
    + intros len a Ha. now inversion Ha.
    + right. split; [constructor|lia].
Qed.

(** What the server asks of its socket at a time while it reads a head: in the std build a buffer full (the
    [BufReader] of src/protocol.rs 1864-1886), otherwise a byte (src/io.rs 163-167). *)
Definition ask_size (bld : build) (cap : nat) : nat := match bld with Std => cap | NoStd => 1 end.

(** ** The server on its socket *)
Section Server.
  Context {H : Type} (bld : build) (cap : nat) (etext : error -> bytes) (hd : handler H) (bufsz fuel : nat) (hs : H).
  Context (r : request unit) (ops : list op) (q : dyn_response) (hs' : H).
  Context (Hcap : 0 < cap) (Hu : sendable_uri (rq_uri r)) (Hv : small_version (rq_version r)) (Hs : sendable (rq_headers r))
    (Hg : good_length (rq_headers r))
    (Hf : length (whole_request r ops) + 4 < fuel) (Hh : unread hd hs r q hs').
  Notation head := (concat (request_pieces r)).
  Notation run := (server_process bld cap etext hd bufsz fuel hs sock sock_read sock_writer).

  Definition modest (t : bufr sock) : Prop := forall n, k_stop (br_inner t) = Some (ARead n) -> n <= ask_size bld cap.

  Lemma modest_byte t : modest t -> modest (snd (bufr_read bld cap sock_read 1 t)).
  Proof using Hcap.
    clear Hf. intros Ht. destruct t as [s buf]. unfold modest, ask_size, bufr_read in *. cbn [br_inner br_buf] in *.
    assert (K : forall m, (m = 1 \/ m = cap) -> forall n, k_stop (snd (sock_read m s)) = Some (ARead n) -> k_stop s = Some (ARead n) \/ n = m).
    { intros m Hm n. unfold sock_read. destruct (k_stop s) as [z|] eqn:Ez; [cbn [snd]; rewrite Ez; auto|]. destruct m as [|m]; [lia|].
      destruct (k_reads s); [destruct (k_end s)|]; cbn [snd k_stop]; intros E; try congruence. injection E as ->. auto. }
    destruct bld.
    - destruct buf as [|b buf]; [|exact Ht]. destruct (Nat.leb_spec cap 1) as [Hle|Hgt].
      + pose proof (K 1 (or_introl eq_refl)) as K1. destruct (sock_read 1 s) as [x s']. cbn [snd br_inner] in *.
        intros n Hn. destruct (K1 n Hn) as [K2| ->]; auto; lia.
      + pose proof (K cap (or_intror eq_refl)) as K1. destruct (sock_read cap s) as [[d|e| |] s']; cbn [snd br_inner] in *;
          intros n Hn; destruct (K1 n Hn) as [K2| ->]; auto; lia.
    - pose proof (K 1 (or_introl eq_refl)) as K1. destruct (sock_read 1 s) as [x s']. cbn [snd br_inner] in *.
      intros n Hn. destruct (K1 n Hn) as [K2| ->]; auto; lia.
  Qed.

  Lemma modest_head t : modest t -> modest (snd (request_head (crlf_next bld (bufr_read bld cap sock_read) fuel) fuel t)).
  Proof using Hcap.
    intros Ht. set (rd := bufr_read bld cap sock_read).
    assert (Hb : forall f t, modest t -> modest (snd (bytes_next bld rd f t))).
    { induction f as [|f IH]; intros t0 H0; cbn [bytes_next]; auto.
      pose proof (modest_byte t0 H0) as H1. fold rd in H1. destruct (rd 1 t0) as [[[|b d]|e| |] t1]; auto. destruct (is_retry bld e); auto. }
    assert (Hc : forall f line t, modest t -> modest (snd (crlf_loop bld rd f line t))).
    { induction f as [|f IH]; intros line t0 H0; cbn [crlf_loop]; auto.
      pose proof (Hb (S f) t0 H0) as H1. destruct (bytes_next bld rd (S f) t0) as [[[b|]|e| |] t1]; auto.
      destruct (ends_crlf (line ++ [b])); auto. destruct (firstn _ _); auto. now destruct (utf8_valid _). }
    set (Q := fun (t : bufr sock) (_ : unit) => modest t).
    assert (L : laxg Q (fun t => t) (fun u => u) (fun _ _ => False) (fun t => t) (fun u => u) (fun _ _ => False)
      (crlf_next bld rd fuel) (fun u : unit => (@Panic (option bytes), u))).
    { split; cbn; [easy| |auto]. intros a u Ha. apply Hc, Ha. }
    exact (lg_l _ _ _ _ _ _ _ _ _ (request_head_lax Q (fun t => t) (fun u => u) (fun _ _ => False) _ _ L fuel) t tt Ht).
  Qed.

  (** A stopped socket does not change while the handler runs. *)
  Lemma prog_frozen {A} (p : prog A) b z : k_stop (br_inner (body_reader b)) = Some z ->
    br_inner (body_reader (snd (run_prog bld (bufr_read bld cap sock_read) fuel fuel p b))) = br_inner (body_reader b).
  Proof.
    intros Hz. set (s0 := br_inner (body_reader b)) in *.
    set (rd2 := fun (_ : nat) (u : unit) => (@Panic bytes, u)).
    set (Q := fun (s : sock) (_ : unit) => s = s0).
    assert (L : laxr Q br_inner (fun u => u) (fun _ _ => False) (bufr_read bld cap sock_read) rd2).
    { intros n. split; cbn; [easy| |auto]. unfold Q. intros [s buf] u E. cbn [br_inner] in E. subst s.
      assert (K : forall m, sock_read m s0 = (Fuel, s0)) by (intros m; unfold sock_read; now rewrite Hz).
      unfold bufr_read. cbn [br_inner br_buf]. rewrite !K. destruct bld; auto. destruct buf; auto. now destruct (cap <=? n). }
    pose proof (run_prog_lax Q bld br_inner (fun u => u) (fun _ _ => False) _ _ L fuel fuel p) as Z.
    pose proof (lg_l _ _ _ _ _ _ _ _ _ Z b tt eq_refl) as E. exact E.
  Qed.

  (** The request arrives, however far; the reader fails if it is asked for more. *)
  Lemma head_on {S} (rd : reader S) R s x e : reader_pos rd R -> R s (map B (head ++ x) ++ [E e]) -> length x <= length (body_wire r ops) ->
    exists b t, request_deserialize bld (bufr_read bld cap rd) fuel (bufr_new s) = (Ok (mkRequest (rq_method r) (rq_uri r) (rq_version r) (rq_headers r) b), t)
      /\ framed (rq_headers r) t b /\ bufr_rel bld R t (map B x ++ [E e]).
  Proof using Hcap Hu Hv Hs Hg Hf etext.
    intros HR HRs Hx.
    destruct (sent_request r Hu Hv Hs Hg) as (first & lines & Hq & Eh).
    rewrite map_app, <- app_assoc, <- Eh in HRs.
    assert (Hlen : length (map B (head_bytes first lines) ++ map B x ++ [E e]) < fuel).
    { rewrite (whole_body r ops), <- Eh, app_length in Hf. rewrite !app_length, !map_length. cbn [length]. lia. }
    exact (request_accepts_rel bld (bufr_read bld cap rd) (bufr_rel bld R) fuel (bufr_new s) first lines (map B x ++ [E e])
      (rq_method r) (rq_uri r) (rq_version r) (rq_headers r)
      (bufr_read_pos bld cap rd R Hcap HR) Hq (bufr_new_rel bld R s _ HRs) Hlen).
  Qed.

  (** Having read the head, it calls the handler, and leaves the socket as it is. *)
  Lemma inner_after {S} (rd : reader S) s b t :
    request_deserialize bld (bufr_read bld cap rd) fuel (bufr_new s) = (Ok (mkRequest (rq_method r) (rq_uri r) (rq_version r) (rq_headers r) b), t) ->
    framed (rq_headers r) t b ->
    exists y, (y = Ok (inl q) \/ y = Ok (inr q))
      /\ inner bld cap etext hd rd fuel hs s = (Ok (y, [Called (rq_method r) (rq_uri r)], hs'), br_inner t).
  Proof using Hh Hf Hcap.
    intros Eq Hb. destruct Hh as (y & Hy & Hcase). exists y. split; auto.
    unfold inner, serve_one_inner. rewrite Eq. cbn [rq_method rq_uri rq_body].
    destruct Hcase as [(f & Hm & Hfy)|(f & Hm & Hte & Hfy)].
    - destruct (rq_method r); cbn in Hm; try discriminate; injection Hm as ->; unfold plain_call; now rewrite Hfy.
    - assert (Hz : sized (rq_headers r)) by now left.
      assert (Hreq : require_length b = Ok tt) by exact (proj1 (framed_length (rq_headers r) t b Hb) Hz).
      assert (Hbt : body_reader b = t) by (destruct Hb as (l & _ & [[_ ->]|[Hb _]]); [reflexivity|congruence]).
      destruct fuel as [|f0]; [lia|].
      destruct (rq_method r); cbn in Hm; try discriminate; injection Hm as ->; unfold body_call; rewrite Hreq, Hfy; cbn [run_prog]; now rewrite Hbt.
  Qed.

  (** On the socket, unless it waits, it has the same head. *)
  Lemma head_sock a rest : whole_request r ops = concat (a_reads a) ++ rest -> Forall (fun d => d <> []) (a_reads a) -> a_end a = false ->
    let t := snd (request_head (crlf_next bld (bufr_read bld cap sock_read) fuel) fuel (bufr_new (fresh a))) in
    k_stop (br_inner t) = None -> exists b, request_deserialize bld (bufr_read bld cap sock_read) fuel (bufr_new (fresh a))
      = (Ok (mkRequest (rq_method r) (rq_uri r) (rq_version r) (rq_headers r) b), t) /\ framed (rq_headers r) t b.
  Proof using Hcap Hu Hv Hs Hg Hf etext.
    clear Hh. intros Er Hne Hend t K. set (e0 := UnexpectedEof). set (M := map B rest ++ [E e0]).
    destruct (head_on f_read fpos (goes_on M (fresh a)) (body_wire r ops) e0 fpos_read) as (b & t2 & E2 & Hb & Ht2); auto.
    { unfold fpos, goes_on. cbn [f_reads f_end f_more fresh k_reads k_end]. rewrite Hend. split; auto.
      unfold M. rewrite app_assoc, <- map_app, <- Er. now rewrite (whole_body r ops). }
    pose proof (request_head_lax (fQ M) br_inner br_inner (brR (fR M)) _ _ (crlf_next_lax (fQ M) bld br_inner br_inner (brR (fR M)) _ _
      (bufr_lax (fR M) (fQ M) bld cap sock_read f_read (fav_read M)) fuel) fuel) as Z.
    destruct (lg_both _ _ _ _ _ _ _ _ _ Z (bufr_new (fresh a)) (bufr_new (goes_on M (fresh a)))) as [[Z1 Z2]|Z1].
    { split; [reflexivity|]. cbn [br_inner bufr_new]. now apply goes_on_R. }
    - unfold request_deserialize in E2 |- *. unfold t in *. clear Z Ht2.
      destruct (request_head (crlf_next bld (bufr_read bld cap f_read) fuel) fuel (bufr_new (goes_on M (fresh a)))) as [[h|e| |] tf]; cbn [sbind] in E2; try discriminate.
      injection E2 as M1 M2 M3 M4 M5 M6. subst b t2. cbn [fst snd] in *.
      destruct (request_head (crlf_next bld (bufr_read bld cap sock_read) fuel) fuel (bufr_new (fresh a))) as [xs ts]. cbn [fst snd] in *. subst xs. cbn [sbind].
      rewrite M1, M2, M3, M4. eexists. split; [reflexivity|]. destruct Hb as (l & Hl & Hb). exists l. split; auto.
      destruct Hb as [[Hc Hb]|[Hc Hb]]; [left|right]; (split; [exact Hc|]); revert Hb; unfold body_new.
      + destruct (qh_encoding h) as [v|]; [destruct (beqb v (bs "chunked"))|]; intros Hb; try (destruct (qh_length h); discriminate).
        injection Hb as ->. reflexivity.
      + destruct (qh_encoding h) as [v|]; [destruct (beqb v (bs "chunked"))|]; intros Hb; try (destruct l; discriminate);
          destruct (qh_length h), l; try discriminate; try (injection Hb as ->); reflexivity.
    - fold t in Z1. unfold fQ in Z1. now rewrite K in Z1.
  Qed.

  (** What it asks for at a time. *)
  Lemma server_asks a rest n : whole_request r ops = concat (a_reads a) ++ rest -> Forall (fun d => d <> []) (a_reads a) -> a_end a = false ->
    k_stop (snd (run (fresh a))) = Some (ARead n) -> n <= ask_size bld cap.
  Proof using Hcap Hu Hv Hs Hg Hf Hh.
    intros Er Hne Hend.
    assert (Erun : run (fresh a) = sbind (inner bld cap etext hd sock_read fuel hs (fresh a)) (answered bld cap sock_writer bufsz fuel))
      by apply server_run_phases.
    rewrite Erun. clear Erun. intros Hstop.
    assert (Hin : k_stop (snd (inner bld cap etext hd sock_read fuel hs (fresh a))) = Some (ARead n)).
    { destruct (inner bld cap etext hd sock_read fuel hs (fresh a)) as [x s1] eqn:Ei. cbn [fst snd] in *.
      destruct x as [o|e| |]; cbn [sbind snd] in Hstop; auto.
      pose proof (answered_process_lax bld cap bufsz fuel o) as HG.
      destruct (k_stop s1) as [z|] eqn:Ez.
      - rewrite <- Hstop, <- Ez. f_equal. symmetry. exact (stopped_keep (answered_process bld cap bufsz fuel o) s1 z HG Ez).
      - destruct (writes_keep (answered_process bld cap bufsz fuel o) s1 HG (answered_only_writes bld cap bufsz fuel o) Ez) as (W1 & _).
        now destruct (W1 n). }
    clear Hstop.
    pose proof (modest_head (bufr_new (fresh a)) ltac:(easy)) as Hm.
    pose proof (head_sock a rest Er Hne Hend) as Hk. cbv zeta in Hk.
    set (t := snd (request_head (crlf_next bld (bufr_read bld cap sock_read) fuel) fuel (bufr_new (fresh a)))) in *.
    destruct (k_stop (br_inner t)) as [z|] eqn:Ez.
    - apply Hm. rewrite <- Hin. f_equal.
      unfold inner, serve_one_inner, request_deserialize.
      unfold t in *. clear t Hk Hm.
      destruct (request_head (crlf_next bld (bufr_read bld cap sock_read) fuel) fuel (bufr_new (fresh a))) as [[h|e| |] t]; cbn [sbind snd] in *; auto.
      cbn [rq_method rq_uri rq_body]. set (b := body_new (qh_encoding h) (qh_length h) t).
      assert (Hbt : body_reader b = t).
      { unfold b, body_new. destruct (match qh_encoding h with Some _ => _ | None => _ end); auto. now destruct (qh_length h). }
      assert (Hc : forall m u p, snd (let '(x, cs, h0, s) := body_call bld cap sock_read (fun e _ => etext e) m u p b hs fuel (fresh a) in (Ok (x, cs, h0), s)) = br_inner t).
      { intros m u p. unfold body_call. destruct (require_length b) as [|e| |]; cbn [snd]; try (now rewrite Hbt).
        pose proof (prog_frozen p b z) as Hz. rewrite Hbt in Hz. specialize (Hz Ez).
        destruct (run_prog bld (bufr_read bld cap sock_read) fuel fuel p b) as [[[u1 u2]|e| |] b']; exact Hz. }
      destruct (qh_method h); try reflexivity; symmetry; apply Hc.
    - destruct (Hk eq_refl) as (b & E1 & Hb). destruct (inner_after sock_read (fresh a) b t E1 Hb) as (y & _ & E2).
      rewrite E2 in Hin. cbn [snd] in Hin. congruence.
  Qed.

  (** Once it has been given the head, it waits for nothing. *)
  Lemma server_given a x y : concat (a_reads a) = head ++ x -> body_wire r ops = x ++ y -> Forall (fun d => d <> []) (a_reads a) -> a_end a = false ->
    forall n, k_stop (snd (run (fresh a))) <> Some (ARead n).
  Proof using Hcap Hu Hv Hs Hg Hf Hh.
    intros Er Ey Hne Hend m.
    assert (Erun : run (fresh a) = sbind (inner bld cap etext hd sock_read fuel hs (fresh a)) (answered bld cap sock_writer bufsz fuel))
      by apply server_run_phases.
    rewrite Erun. clear Erun.
    set (F := inner_process bld cap etext hd fuel hs). pose proof (inner_process_lax bld cap etext hd fuel hs : lax_process F) as HF.
    set (e0 := UnexpectedEof). set (M := [E e0]).
    pose proof (fav M F (fresh a) (goes_on M (fresh a)) HF (goes_on_R M (fresh a) eq_refl)) as Hfav.
    destruct (head_on f_read fpos (goes_on M (fresh a)) x e0 fpos_read) as (b & t & E1 & Hb & zs & E3 & (Z1 & _) & _).
    { unfold fpos, goes_on. cbn [f_reads f_end f_more fresh k_reads k_end]. rewrite Hend, Er. split; auto. }
    { rewrite Ey, app_length. lia. }
    destruct (inner_after f_read (goes_on M (fresh a)) b t E1 Hb) as (z & _ & E2).
    destruct (reads_keep F (fresh a) HF (inner_only_reads bld cap etext hd fuel hs) eq_refl) as (K1 & K2 & K3).
    change (F fsock f_read f_writer (goes_on M (fresh a))) with (inner bld cap etext hd f_read fuel hs (goes_on M (fresh a))) in Hfav.
    change (F sock sock_read sock_writer (fresh a)) with (inner bld cap etext hd sock_read fuel hs (fresh a)) in Hfav, K1, K2, K3.
    rewrite E2 in Hfav. cbn [fst snd] in Hfav.
    destruct (inner bld cap etext hd sock_read fuel hs (fresh a)) as [w s1]. cbn [fst snd] in *.
    assert (Hmore : 0 < length (f_more (br_inner t))).
    { rewrite Z1 in E3. symmetry in E3. destruct (ends_with_failure _ _ _ _ E3) as [[pre' E4] _].
      destruct (ends_with_failure _ _ _ _ E4) as [[pre2 E5] _].
      destruct (f_end (br_inner t)); [now destruct pre2|]. rewrite E5, app_length. cbn [length]. lia. }
    destruct Hfav as [[Hx (R1 & _)]|HQ].
    - subst w. cbn [sbind].
      set (o := (z, [Called (rq_method r) (rq_uri r)], hs')).
      set (G := answered_process (H := H) bld cap bufsz fuel o). pose proof (answered_process_lax bld cap bufsz fuel o : lax_process G) as HG.
      destruct (writes_keep G s1 HG (answered_only_writes bld cap bufsz fuel o) R1) as (W1 & _).
      apply W1.
    - unfold fQ in HQ. destruct (k_stop s1) as [[n|d]|] eqn:Est; [|now destruct (K1 d)|contradiction].
      destruct HQ as [HQ|HQ]; [discriminate|]. unfold M in HQ. cbn in HQ. lia.
  Qed.
End Server.

(** ** Any two programs: the queues stay within their sizes *)
Lemma answer_effect {A} (F : process A) a peer outq room f : lax_process F ->
  let s := snd (F sock sock_read sock_writer (fresh a)) in
  let s' := snd (F sock sock_read sock_writer (fresh (f a))) in
  half a s peer -> answer s (skipn (length (k_taken s)) (k_sent peer)) outq room peer f ->
  (exists n d, f = got d /\ k_stop s = Some (ARead n) /\ length d <= n /\ length (k_taken s) + length d <= length (k_sent peer)
     /\ k_sent s' = k_sent s /\ k_taken s' = k_taken s ++ d)
  \/ (exists n, f = closed /\ k_stop s = Some (ARead n) /\ k_sent s' = k_sent s /\ k_taken s' = k_taken s)
  \/ (exists x k, f = took k /\ k_stop s = Some (AWrite x) /\ 1 <= k <= length x /\ (length outq + k <= room \/ ended peer)
      /\ k_sent s' = k_sent s ++ firstn k x /\ k_taken s' = k_taken s).
Proof.
  intros HF s s' [Hsp Hfr Hgi Hso Hen] Ha. destruct Ha as [n d rest Es Ei Hd Hn|n Es Ei Hp|data k Es Hk Hroom].
  - left. exists n, d. pose proof (fresh_end F a n HF Es) as Ee.
    destruct (one_read F HF d Hd (fresh a) (fresh (got d a)) n) as (_ & K2 & K3); auto.
    { unfold rd_R, got, fresh. cbn. rewrite Ee. now repeat split. }
    { apply Hsp. }
    repeat split; auto.
    destruct Hfr as [t Ht]. apply (f_equal (@length byte)) in Ei. rewrite skipn_length, app_length in Ei.
    apply (f_equal (@length byte)) in Ht. rewrite app_length in Ht. lia.
  - right. left. exists n.
    destruct (one_end F HF (fresh a) (fresh (closed a)) n) as (_ & K2 & K3); auto.
    { pose proof (fresh_end F a n HF Es) as Ee. unfold en_R, closed, fresh. cbn. now repeat split. }
    { apply Hsp. }
  - right. right. exists data, k.
    destruct (one_write F HF k (fresh a) (fresh (took k a)) data) as (_ & K2 & K3); auto.
    { unfold wr_R, took, fresh. cbn. now repeat split. }
    { apply Hsp. }
    repeat split; auto; lia.
Qed.

Section Rooms.
  Context {A1 A2 : Type} (F1 : process A1) (F2 : process A2) (HF1 : lax_process F1) (HF2 : lax_process F2) (room1 room2 : nat).
  Notation p1 := (F1 sock sock_read sock_writer).
  Notation p2 := (F2 sock sock_read sock_writer).
  Lemma starts_silent {A} (F : process A) : lax_process F -> k_sent (snd (F sock sock_read sock_writer (fresh (mkAnswers [] [] false)))) = [].
  Proof.
    intros HF. apply (process_keep F sock_read sock_writer _ (fresh (mkAnswers [] [] false)) HF (spent_still_kept [] [])). now repeat split.
  Qed.
  Lemma reach_rooms n c : reach p1 p2 room1 room2 n c ->
    (ended (side2 p2 c) \/ length (queue1 p1 p2 c) <= room1) /\ (ended (side1 p1 c) \/ length (queue2 p1 p2 c) <= room2).
  Proof using HF1 HF2.
    induction 1 as [|n c c' Hr [IH1 IH2] Hst].
    - unfold queue1, queue2, side1, side2, start. cbn [fst snd]. rewrite !starts_silent by auto. rewrite !skipn_length. cbn. split; right; lia.
    - destruct (reach_half F1 F2 HF1 HF2 room1 room2 n c Hr) as (H1 & H2 & _).
      destruct Hst as [c f Ha|c f Ha].
      + pose proof (answer_effect F1 (fst c) (side2 p2 c) _ _ f HF1 H1 Ha) as He.
        assert (Hn : k_stop (side1 p1 c) <> None) by (inversion Ha; congruence).
        unfold ended, queue1, queue2, side1, side2 in *. cbn [fst snd] in *. rewrite !skipn_length in *.
        destruct He as [(m & d & _ & _ & _ & _ & E1 & E2)|[(m & _ & _ & E1 & E2)|(x & k & _ & _ & Hk & Hro & E1 & E2)]]; rewrite ?E1, ?E2, ?app_length, ?firstn_length.
        * split; [exact IH1|]. right. destruct IH2; [contradiction|lia].
        * split; [exact IH1|]. right. destruct IH2; [contradiction|lia].
        * split; [|right; destruct IH2; [contradiction|lia]]. destruct Hro as [Hro|Hro]; [right; lia|now left].
      + pose proof (answer_effect F2 (snd c) (side1 p1 c) _ _ f HF2 H2 Ha) as He.
        assert (Hn : k_stop (side2 p2 c) <> None) by (inversion Ha; congruence).
        unfold ended, queue1, queue2, side1, side2 in *. cbn [fst snd] in *. rewrite !skipn_length in *.
        destruct He as [(m & d & _ & _ & _ & _ & E1 & E2)|[(m & _ & _ & E1 & E2)|(x & k & _ & _ & Hk & Hro & E1 & E2)]]; rewrite ?E1, ?E2, ?app_length, ?firstn_length.
        * split; [|exact IH2]. right. destruct IH1; [contradiction|lia].
        * split; [|exact IH2]. right. destruct IH1; [contradiction|lia].
        * split; [right; destruct IH1; [contradiction|lia]|]. destruct Hro as [Hro|Hro]; [right; lia|now left].
  Qed.
End Rooms.

(** ** A socket whose writes fail *)
(** It has the answers of a blocking socket; after the last answer to a write all further writes fail with [e], as they
    do on a connection that was reset. Stands for the [TcpStream] of src/client.rs 204-214. *)
Definition cut_writer (e : error) : writer fsock :=
  mkWriter (fun data s => match data, f_writes s with [], _ => (Ok 0, s) | _, [] => (Err e, s) | _, _ => f_write data s end) (fun s => (Ok tt, s)).

Lemma cut_honest e : honest (cut_writer e) f_sent.
Proof.
  split.
  - intros data w r w' H. destruct f_honest as [K _]. cbn in H. destruct data as [|x data]; [exact (K [] w r w' H)|].
    destruct (f_writes w) eqn:Ew; [|exact (K _ w r w' H)]. injection H as <- <-. auto.
  - intros w r w' H. injection H as <- <-. auto.
Qed.

Section Cut.
  Context (e : error) (M : list item).
  Definition cutQ (a : sock) (b : fsock) : Prop :=
    match k_stop a with Some (AWrite _) => f_sent b = k_sent a /\ f_writes b = [] | Some (ARead _) => True | None => False end.
  Ltac frozen := let H := fresh in let Eq := fresh in
    intros a b H; unfold cutQ in *; destruct (k_stop a) as [?q|] eqn:Eq; [|contradiction];
    unfold sock_read, sock_writer, sock_write; cbn [wr fl]; rewrite Eq; cbn [snd]; now rewrite Eq.
  Ltac open := unfold sock_read, f_read, sock_writer, cut_writer, sock_write, f_write;
    cbn [wr fl k_reads k_writes k_end k_sent k_taken k_stop f_reads f_writes f_end f_more f_sent f_taken].
  Ltac pair a b := destruct a as [rs ws en se ta st], b as [rs' ws' en' mo se' ta']; cbn [k_reads k_writes k_end k_sent k_taken k_stop f_reads f_writes f_end f_more f_sent f_taken] in *.

  Lemma cut {A} (F : process A) s : lax_process F -> k_stop s = None ->
    (fst (F sock sock_read sock_writer s) = fst (F fsock f_read (cut_writer e) (goes_on M s))
     /\ fR M (snd (F sock sock_read sock_writer s)) (snd (F fsock f_read (cut_writer e) (goes_on M s))))
    \/ cutQ (snd (F sock sock_read sock_writer s)) (snd (F fsock f_read (cut_writer e) (goes_on M s))).
  Proof.
    intros HF H.
    refine (lg_both _ _ _ _ _ _ _ _ _ (HF _ _ (fR M) cutQ sock_read f_read sock_writer (cut_writer e) _ _ _) s (goes_on M s) (goes_on_R M s H)).
    - intros n. split; [|frozen|].
      + intros a b (K1 & K2 & K3 & K4 & K5 & K6 & K7). pair a b. subst. open. destruct n as [|n]; [left; now repeat split|].
        destruct rs as [|x rs].
        * destruct en; [left; now repeat split|]. right. exact I.
        * left. cbn [fst snd]. repeat split.
      + intros a b. unfold cutQ. destruct (k_stop a) as [[m|d]|]; auto. intros [K1 K2]. rewrite f_silent. split; auto.
        unfold f_read. destruct n; auto. f_cases b. destruct rs; auto. destruct en; auto. destruct mo as [|[x|e'] mo]; auto.
    - intros d. split; [|frozen|].
      + intros a b (K1 & K2 & K3 & K4 & K5 & K6 & K7). pair a b. subst. open. destruct d as [|x d]; [left; now repeat split|].
        destruct ws as [|k ws]; [right; unfold cutQ; cbn; auto|]. left. now repeat split.
      + intros a b. unfold cutQ. destruct (k_stop a) as [[m|d0]|]; auto. intros [K1 K2]. cbn [wr cut_writer]. destruct d; auto. rewrite K2. auto.
    - split; [|frozen|intros a b K; exact K].
      intros a b (K1 & K2 & K3 & K4 & K5 & K6 & K7). pair a b. subst. open. left. now repeat split.
  Qed.
End Cut.

(** A client that can write no more before its request is complete has no response to return, whatever it could read. *)
Lemma cut_client {A} bld cap fuel r ops (p : status -> headers -> prog A) e M a d :
  has_body (rq_method r) = true \/ ops = [] -> cap <= fuel -> 5 <= fuel -> length (concat (request_pieces r)) <= fuel ->
  Forall (fun d => length (chunk_of d) <= fuel) (written ops) ->
  k_stop (snd (client_run bld cap sock_read sock_writer fuel r ops p (fresh a))) = Some (AWrite d) -> d <> [] ->
  forall y, fst (client_run bld cap f_read (cut_writer e) fuel r ops p (goes_on M (fresh a))) <> Ok y.
Proof.
  intros Hb Hc H5 Hl Hw Hd Hne y E.
  pose proof (client_sends bld cap fuel r ops p Hb Hc H5 Hl Hw a) as K. cbv zeta in K.
  change (client_process bld cap fuel r ops p sock sock_read sock_writer) with (client_run bld cap sock_read sock_writer fuel r ops p) in K.
  destruct K as [(d' & Ed & [t Ht])|[Kn _]]; [|now destruct (Kn d)]. rewrite Hd in Ed. injection Ed as <-.
  destruct (cut e M (client_process bld cap fuel r ops p) (fresh a) (client_process_lax bld cap fuel r ops p) eq_refl) as [[_ (K & _)]|K].
  { unfold client_process in K. congruence. }
  change (client_process bld cap fuel r ops p sock sock_read sock_writer) with (client_run bld cap sock_read sock_writer fuel r ops p) in K.
  change (client_process bld cap fuel r ops p fsock f_read (cut_writer e)) with (client_run bld cap f_read (cut_writer e) fuel r ops p) in K.
  unfold cutQ in K. rewrite Hd in K. destruct K as [K _].
  unfold client_run in E, K at 1.
  destruct (client_send bld cap (cut_writer e) fuel r ops (goes_on M (fresh a))) as [x s1] eqn:Es.
  destruct x as [[]|x| |]; cbn [sbind fst] in E; try discriminate.
  assert (L : f_sent s1 = whole_request r ops).
  { unfold client_send in Es. destruct (send bld cap (cut_writer e) fuel r (goes_on M (fresh a))) as [[o|x| |] sa] eqn:E1; try discriminate.
    destruct (run_ops bld cap (cut_writer e) fuel ops o) as [[[]|x| |] ob] eqn:E2; try discriminate.
    pose proof (cut_honest e) as Hh.
    apply (request_serialize_log bld cap _ f_sent Hh) in E1 as [_ E1]. destruct (E1 o eq_refl) as (L1 & I1 & _ & K1).
    apply (run_ops_log bld cap _ f_sent Hh) in E2 as ((_ & L2) & I2 & K2 & _); auto.
    apply (finish_send_log bld cap _ f_sent Hh) in Es as (_ & _ & L3); auto.
    rewrite (L3 eq_refl), (L2 (ex_intro _ tt eq_refl)), L1, K2, K1. unfold whole_request, terminator. cbn [goes_on f_sent fresh k_sent app].
    destruct (has_body (rq_method r)).
    - rewrite written_wire. now rewrite <- !app_assoc.
    - rewrite no_body_wire. now rewrite <- !app_assoc. }
  assert (L2 : f_sent (snd (client_recv bld cap f_read fuel p s1)) = f_sent s1).
  { apply (process_keep (recv_process bld cap fuel p) f_read no_writer (fun s => f_sent s = f_sent s1) s1 (recv_process_lax bld cap fuel p)); auto.
    split; [intros m s Hp; now rewrite f_silent|intros x s Hp; exact Hp|intros s Hp; exact Hp]. }
  cbn [sbind] in K. rewrite L2, L, Ht in K. apply (f_equal (@length byte)) in K. rewrite !app_length in K.
  unfold client_run in K. destruct d; [easy|]. cbn [length] in K. lia.
Qed.

(** ** C71. Uploads that are answered unread *)
Section Unread.
  (* the client and the server of C58 *)
  Context {A : Type} (bld1 : build) (cap1 fuel1 : nat) (r : request unit) (ops : list op) (p : status -> headers -> prog A).
  Context {H : Type} (bld2 : build) (cap2 : nat) (etext : error -> bytes) (hd : handler H) (bufsz fuel2 : nat) (hs : H).
  (* the network *)
  Context (room1 room2 : nat) (q : dyn_response) (hs' : H) (ys : list item) (out : bytes).

  Notation client := (client_run bld1 cap1 sock_read sock_writer fuel1 r ops p).
  Notation server := (server_run bld2 cap2 sock_read sock_writer etext hd bufsz fuel2 hs).
  Notation head := (concat (request_pieces r)).
  Notation body := (body_wire r ops).
  Notation answer_wire := (response_wire q out).

  (* everything is well-formed, and the handler does not look at the body *)
  Context (G : good_exchange cap1 fuel1 r ops p bld2 cap2 hd bufsz fuel2 hs (length body) room2 q hs' ys out)
    (Hun : unread hd hs r q hs') (Hbody : has_body (rq_method r) = true) (Hroom : 1 <= room1).

  (** How much of the body the server can read together with the head. *)
  Definition ahead : nat := Nat.min room1 (ask_size bld2 cap2) - 1.

  Lemma unread_facts n c : reach client server room1 room2 n c ->
    let s1 := side1 client c in let s2 := side2 server c in
    k_sent s1 = k_taken s2 ++ queue1 client server c /\ k_sent s2 = k_taken s1 ++ queue2 client server c
    /\ (ended s2 \/ length (queue1 client server c) <= room1) /\ (ended s1 \/ length (queue2 client server c) <= room2)
    /\ (forall m, k_stop s1 = Some (ARead m) -> 0 < m) 
    (* the client *)
    /\ length (k_sent s1) <= length head + length body
    /\ ((exists d, k_stop s1 = Some (AWrite d) /\ d <> [] /\ length (k_sent s1) + length d <= length head + length body)
        \/ ((forall d, k_stop s1 <> Some (AWrite d)) /\ length (k_sent s1) = length head + length body))
    (* the server *)
    /\ ((exists m, k_stop s2 = Some (ARead m) /\ 0 < m <= ask_size bld2 cap2 /\ length (k_taken s2) < length head /\ k_sent s2 = [])
        \/ (length head <= length (k_taken s2) <= length head + ahead
            /\ ((exists d, k_stop s2 = Some (AWrite d) /\ d <> [] /\ prefix (k_sent s2 ++ d) answer_wire)
                \/ (k_stop s2 = None /\ k_sent s2 = answer_wire)))).
  Proof using G Hun Hbody Hroom.
    intros Hr. cbv zeta.
    pose proof (client_process_lax bld1 cap1 fuel1 r ops p) as HF1. pose proof (server_process_lax bld2 cap2 etext hd bufsz fuel2 hs) as HF2.
    set (F1 := client_process bld1 cap1 fuel1 r ops p) in *. set (F2 := server_process bld2 cap2 etext hd bufsz fuel2 hs) in *.
    assert (Hw : whole_request r ops = head ++ body) by apply whole_body.
    set (PF := progress_any bld1 cap1 fuel1 r ops p bld2 cap2 etext hd bufsz fuel2 hs (length body) room2 q hs' ys out G room1).
    (* the server, while it reads *)
    assert (Hrd : forall n c m, reach client server room1 room2 n c -> k_stop (side2 server c) = Some (ARead m) ->
      m <= ask_size bld2 cap2 /\ length (k_taken (side2 server c)) < length head).
    { intros n0 c0 m H0 Em.
      destruct (PF n0 c0 H0) as (_ & _ & _ & _ & _ & _ & _ & _ & _ & _ & rest & Hrest & _).
      destruct (reach_half F1 F2 HF1 HF2 room1 room2 n0 c0 H0) as (_ & [_ _ B3 B4 _] & _).
      change (side2 (F2 sock sock_read sock_writer) c0) with (side2 server c0) in *.
      pose proof (fresh_end F2 (snd c0) m HF2 Em) as Ee.
      split.
      - apply (server_asks bld2 cap2 etext hd bufsz fuel2 hs r ops q hs') with (a := snd c0) (rest := rest); try apply G; auto. now rewrite B3.
      - destruct (le_lt_dec (length head) (length (k_taken (side2 server c0)))) as [Hle|]; auto. exfalso.
        rewrite Hw in Hrest.
        assert (Hx : exists x, k_taken (side2 server c0) = head ++ x /\ body = x ++ rest).
        { exists (skipn (length head) (k_taken (side2 server c0))).
          pose proof (f_equal (firstn (length head)) Hrest) as X1. pose proof (f_equal (skipn (length head)) Hrest) as X2.
          rewrite !firstn_app, firstn_all, Nat.sub_diag in X1. rewrite !skipn_app, skipn_all, Nat.sub_diag in X2.
          replace (length head - length (k_taken (side2 server c0))) with 0 in X1, X2 by lia. cbn [firstn skipn app] in X1, X2. rewrite !app_nil_r in X1.
          split; auto. rewrite X1 at 1. now rewrite firstn_skipn. }
        destruct Hx as (x & X1 & X2).
        apply (server_given bld2 cap2 etext hd bufsz fuel2 hs r ops q hs') with (a := snd c0) (x := x) (y := rest) (n := m); try apply G; auto.
        now rewrite B3. }
    assert (Hask : 1 <= ask_size bld2 cap2).
    { pose proof (ge_cap2 _ _ _ _ _ _ _ _ _ _ _ _ _ _ _ _ _ G). destruct bld2; cbn; lia. }
    assert (Hah : forall n c, reach client server room1 room2 n c -> length (k_taken (side2 server c)) <= length head + ahead).
    { induction 1 as [|n0 c0 c1 H0 IH Hst].
      - destruct (reach_half F1 F2 HF1 HF2 room1 room2 0 start (reach_start _ _ _ _)) as (_ & [_ _ B3 _ _] & _).
        change (side2 (F2 sock sock_read sock_writer) start) with (side2 server start) in *.
        rewrite <- B3. cbn. lia.
      - destruct Hst as [c0 f Ha|c0 f Ha]; [exact IH|].
        destruct (reach_half F1 F2 HF1 HF2 room1 room2 n0 c0 H0) as (_ & H2 & _).
        destruct (reach_rooms F1 F2 HF1 HF2 room1 room2 n0 c0 H0) as [HR1 _].
        pose proof (answer_effect F2 (snd c0) (side1 client c0) _ _ f HF2 H2 Ha) as He.
        change (side2 (F2 sock sock_read sock_writer) c0) with (side2 server c0) in *.
        change (queue1 (F1 sock sock_read sock_writer) (F2 sock sock_read sock_writer) c0) with (queue1 client server c0) in *.
        change (snd (F2 sock sock_read sock_writer (fresh (snd c0)))) with (side2 server c0) in *.
        change (snd (F2 sock sock_read sock_writer (fresh (f (snd c0))))) with (side2 server (fst c0, f (snd c0))) in *.
        destruct He as [(m & d & _ & Em & Hd & Hl & _ & E2)|[(m & _ & _ & _ & E2)|(x & k & _ & _ & _ & _ & _ & E2)]]; rewrite E2; auto.
        destruct (Hrd n0 c0 m H0 Em) as [Hm Ht]. rewrite app_length.
        destruct HR1 as [HR1|HR1]; [unfold ended in HR1; congruence|].
        unfold queue1 in HR1. rewrite skipn_length in HR1. unfold ahead. lia. }
    destruct (PF n c Hr) as (Q1 & Q2 & _ & _ & _ & W1 & W2 & W3 & W4 & Hc & rest & Hrest & Hs).
    destruct (reach_rooms F1 F2 HF1 HF2 room1 room2 n c Hr) as [HR1 HR2].
    assert (Hlw : length (whole_request r ops) = length head + length body) by (rewrite Hw; apply app_length).
    split; [exact Q1|]. split; [exact Q2|]. split; [exact HR1|]. split; [exact HR2|]. split; [exact W3|].
    split; [|split].
    - rewrite <- Hlw. destruct Hc as [(d & _ & [t ->])|[_ ->]]; rewrite ?app_length; lia.
    - rewrite <- Hlw. destruct Hc as [(d & Ed & [t E])|[Hn E]].
      + left. exists d. split; [exact Ed|]. split; [auto|]. rewrite E, !app_length. lia.
      + right. split; [exact Hn|]. now rewrite E.
    - apply (f_equal (@length byte)) in Hrest. rewrite Hlw, app_length in Hrest.
      destruct Hs as [(m & Em & _ & Hno)|[Hlen Hs]].
      + left. exists m. destruct (Hrd n c m Hr Em). specialize (W4 m Em). repeat split; auto.
      + right. specialize (Hah n c Hr). split; [lia|].
        destruct Hs as [(d & Ed & Hd)|(En & Es & _)]; [left|right]; [exists d|]; auto.
  Qed.

  (** *** When such an exchange can come to a halt *)
  (** If the rest of the body or the answer fits into its queue, something can always happen until both have returned. *)
  Lemma unread_progress n c : length body <= room1 \/ length answer_wire <= room2 -> reach client server room1 room2 n c ->
    (ended (side1 client c) /\ ended (side2 server c)) \/ exists c', step client server room1 room2 c c'.
  Proof using G Hun Hbody Hroom.
    intros Hfit Hr. destruct (unread_facts n c Hr) as (Q1 & Q2 & R1 & R2 & W3 & L1 & Hc & Hs).
    pose proof (ge_room2 _ _ _ _ _ _ _ _ _ _ _ _ _ _ _ _ _ G) as Hr2.
    apply (f_equal (@length byte)) in Q1, Q2. rewrite app_length in Q1, Q2.
    assert (Write1 : forall d, k_stop (side1 client c) = Some (AWrite d) -> d <> [] -> length (queue1 client server c) + 1 <= room1 \/ ended (side2 server c) ->
      exists c', step client server room1 room2 c c').
    { intros d Ed Hd Hq. eexists. apply step1, (ans_write _ _ _ _ _ d 1); auto. destruct d; [easy|]. cbn. lia. }
    assert (Read1 : forall m, k_stop (side1 client c) = Some (ARead m) -> queue2 client server c <> [] -> exists c', step client server room1 room2 c c').
    { intros m Em Hq. destruct (queue2 client server c) as [|b l] eqn:Eq; [easy|]. eexists. apply step1, (ans_read _ _ _ _ _ m [b] l); auto; try easy.
      pose proof (W3 m Em). cbn. lia. }
    destruct Hs as [(m & Em & Hm & Ht & Hno)|[Hl [(d & Ed & Hd & Hp)|[En Es]]]].
    - right. destruct (queue1 client server c) as [|b l] eqn:Eq.
      + destruct Hc as [(d & Ed & Hd & _)|[_ E]]; [|cbn [length] in Q1; lia]. apply (Write1 d Ed Hd). left. cbn. lia.
      + eexists. apply step2, (ans_read _ _ _ _ _ m [b] l); auto; try easy; cbn; lia.
    - right. destruct (le_lt_dec (length (queue2 client server c) + 1) room2) as [Hle|Hgt].
      { eexists. apply step2, (ans_write _ _ _ _ _ d 1); auto. destruct d; [easy|]. cbn. lia. }
      destruct Hc as [(d1 & Ed1 & Hd1 & Hl1)|[Hn E]].
      + apply (Write1 d1 Ed1 Hd1). left.
        destruct Hfit as [Hfit|Hfit].
        * destruct d1; [easy|]. cbn [length] in Hl1. lia.
        * exfalso. destruct Hp as [t Hp]. apply (f_equal (@length byte)) in Hp. rewrite !app_length in Hp.
          destruct d; [easy|]. cbn [length] in Hp. lia.
      + destruct (k_stop (side1 client c)) as [[m|d1]|] eqn:E1.
        * apply (Read1 m eq_refl). destruct (queue2 client server c); [cbn in Hgt; lia|easy].
        * now destruct (Hn d1).
        * eexists. apply step2, (ans_write _ _ _ _ _ d 1); auto. destruct d; [easy|]. cbn. lia.
    - destruct (k_stop (side1 client c)) as [[m|d1]|] eqn:E1.
      + right. destruct (queue2 client server c) as [|b l] eqn:Eq.
        * eexists. apply step1, (ans_end _ _ _ _ _ m); auto.
        * apply (Read1 m eq_refl). easy.
      + right. destruct Hc as [(d2 & Ed & Hd & _)|[Hn _]]; [|now destruct (Hn d1)]. injection Ed as <-. apply (Write1 d1 eq_refl Hd). now right.
      + left. now split.
  Qed.

  (** If the rest of the body or the answer fits into its queue, every run ends, with the result of C58. *)
  Theorem C71_ends : length body <= room1 \/ length answer_wire <= room2 -> forall n c, reach client server room1 room2 n c ->
    n <= 2 * (length head + length body) + 2 * length answer_wire + 2
    /\ exists m c', reach client server room1 room2 m c' /\ n <= m /\ ended (side1 client c') /\ ended (side2 server c')
       /\ fst (server (fresh (snd c'))) = Ok (Ok tt, [Called (rq_method r) (rq_uri r)], hs')
       /\ exists st x len, fst (client (fresh (fst c'))) = Ok (st, rs_headers q, x)
          /\ to_code st = to_code (rs_status q) /\ plain_length (rs_headers q) len /\ runs len (p st (rs_headers q)) out x.
  Proof using G Hun Hbody Hroom.
    intros Hfit n c Hr.
    assert (Hlw : length (whole_request r ops) = length head + length body) by (rewrite whole_body; apply app_length).
    pose proof (bounded_any bld1 cap1 fuel1 r ops p bld2 cap2 etext hd bufsz fuel2 hs (length body) room2 q hs' ys out G room1) as HB. rewrite Hlw in HB.
    split; [exact (HB n c Hr)|].
    remember (2 * (length head + length body) + 2 * length answer_wire + 2 - n) as k eqn:Ek.
    revert n c Hr Ek. induction k as [k IH] using lt_wf_ind. intros n c Hr Ek.
    destruct (unread_progress n c Hfit Hr) as [[E1 E2]|[c' Hst]].
    - exists n, c. split; [exact Hr|]. split; [auto|]. split; [exact E1|]. split; [exact E2|].
      destruct (result_any bld1 cap1 fuel1 r ops p bld2 cap2 etext hd bufsz fuel2 hs (length body) room2 q hs' ys out G room1 n c Hr E1 E2)
        as (K1 & _ & _ & st & x & len & K2 & K3 & _ & K4 & K5).
      split; [exact K1|]. exists st, x, len. auto.
    - assert (Hr' : reach client server room1 room2 (S n) c') by (econstructor; eauto). pose proof (HB _ _ Hr').
      destruct (IH (2 * (length head + length body) + 2 * length answer_wire + 2 - S n) ltac:(lia) (S n) c' Hr' eq_refl) as (m & c2 & H1 & H2 & H3).
      exists m, c2. split; [exact H1|]. split; [lia|exact H3].
  Qed.

  (** The client is still writing and has read nothing. *)
  Definition still_writing (c : conf) : Prop := (exists d, k_stop (side1 client c) = Some (AWrite d)) /\ k_taken (side1 client c) = [].

  Lemma starts_writing : still_writing start.
  Proof using G Hun Hbody Hroom etext.
    pose proof (client_process_lax bld1 cap1 fuel1 r ops p) as HF1.
    destruct (process_keep (client_process bld1 cap1 fuel1 r ops p) sock_read sock_writer _ (fresh (mkAnswers [] [] false)) HF1 (spent_still_kept [] []))
      as (_ & K2 & K3); [now repeat split|].
    change (snd (client_process bld1 cap1 fuel1 r ops p sock sock_read sock_writer (fresh (mkAnswers [] [] false)))) with (side1 client start) in *.
    split; [|exact K3].
    destruct (unread_facts 0 start (reach_start _ _ _ _)) as (_ & _ & _ & _ & _ & _ & [(d & Ed & _)|[_ E]] & Hs); [eauto|].
    rewrite K2 in E. cbn [length] in E.
    pose proof (ge_room1 _ _ _ _ _ _ _ _ _ _ _ _ _ _ _ _ _ G). lia.
  Qed.

  (** A step after which the client is still writing and has read nothing if it was before; a client that is not done
      writing. *)
  Lemma keeps_writing n c c' : reach client server room1 room2 n c -> still_writing c -> step client server room1 room2 c c' ->
    length (k_sent (side1 client c')) < length head + length body -> still_writing c'.
  Proof using G Hun Hbody Hroom.
    intros Hr [[d Ed] Et] Hst Hl.
    assert (Hr' : reach client server room1 room2 (S n) c') by (econstructor; eauto).
    destruct (unread_facts _ c' Hr') as (_ & _ & _ & _ & _ & _ & [(d' & Ed' & _)|[_ E]] & _); [|lia].
    split; [eauto|].
    destruct Hst as [c f Ha|c f Ha]; [|exact Et].
    pose proof (client_process_lax bld1 cap1 fuel1 r ops p) as HF1. pose proof (server_process_lax bld2 cap2 etext hd bufsz fuel2 hs) as HF2.
    destruct (reach_half _ _ HF1 HF2 room1 room2 n c Hr) as (H1 & _ & _).
    pose proof (answer_effect (client_process bld1 cap1 fuel1 r ops p) (fst c) (side2 server c) _ _ f HF1 H1 Ha) as He.
    change (snd (client_process bld1 cap1 fuel1 r ops p sock sock_read sock_writer (fresh (fst c)))) with (side1 client c) in He.
    change (snd (client_process bld1 cap1 fuel1 r ops p sock sock_read sock_writer (fresh (f (fst c))))) with (side1 client (f (fst c), snd c)) in He.
    destruct He as [(m & x & _ & Em & _)|[(m & _ & Em & _)|(x & k & _ & _ & _ & _ & _ & E2)]]; congruence.
  Qed.

  (** If neither fits, by a wide margin, both sides wait for each other in the end, whatever happens: neither the client
      nor the server ever returns. *)
  Theorem C71_always_deadlock : room1 + ahead < length body -> room2 < length answer_wire ->
    forall n c, reach client server room1 room2 n c ->
    ~ ended (side1 client c) /\ ~ ended (side2 server c) /\ still_writing c
    /\ ((exists c', step client server room1 room2 c c')
        \/ (deadlock client server room1 room2 c
            /\ length (queue1 client server c) = room1 /\ k_sent (side2 server c) = firstn room2 answer_wire
            /\ length head <= length (k_taken (side2 server c)) <= length head + ahead)).
  Proof using G Hun Hbody Hroom.
    intros Hw1 Hw2.
    assert (Hinv : forall n c, reach client server room1 room2 n c -> still_writing c /\ ~ ended (side2 server c)).
    { assert (Hst2 : forall n c, reach client server room1 room2 n c -> still_writing c -> ~ ended (side2 server c)).
      { intros n c Hr [[d Ed] Et] He. unfold ended in He.
        destruct (unread_facts n c Hr) as (_ & Q2 & _ & R2 & _ & _ & _ & Hs).
        destruct R2 as [R2|R2]; [unfold ended in R2; congruence|].
        destruct Hs as [(m & Em & _)|[_ [(d' & Ed' & _)|[_ Es]]]]; try congruence.
        rewrite Et, Es in Q2. cbn [app] in Q2. rewrite <- Q2 in R2. lia. }
      induction 1 as [|n c c' Hr [IH1 IH2] Hst].
      - split; [exact starts_writing|]. apply (Hst2 0 start (reach_start _ _ _ _)), starts_writing.
      - assert (Hr' : reach client server room1 room2 (S n) c') by (econstructor; eauto).
        assert (Hk : still_writing c').
        { apply (keeps_writing n c c' Hr IH1 Hst).
          destruct (unread_facts _ c Hr) as (Q1 & _ & R1 & _).
          destruct (unread_facts _ c' Hr') as (Q1' & _ & R1' & _ & _ & _ & _ & Hs').
          assert (Ht : length (k_taken (side2 server c')) <= length head + ahead) by (destruct Hs' as [(? & ? & ? & ? & ?)|[? ?]]; lia).
          apply (f_equal (@length byte)) in Q1'. rewrite app_length in Q1'.
          inversion Hst as [c0 f Ha E1 E2|c0 f Ha E1 E2]; subst c0.
          - rewrite E2. destruct R1' as [R1'|R1']; [|lia]. destruct IH2. now rewrite <- E2 in R1'.
          - destruct (unread_facts _ c Hr) as (_ & _ & _ & _ & _ & _ & _ & Hs).
            apply (f_equal (@length byte)) in Q1. rewrite app_length in Q1.
            assert (Ht0 : length (k_taken (side2 server c)) <= length head + ahead) by (destruct Hs as [(? & ? & ? & ? & ?)|[? ?]]; lia).
            destruct R1 as [R1|R1]; [contradiction|].
            change (side1 client (fst c, f (snd c))) with (side1 client c). lia. }
        split; [exact Hk|]. now apply (Hst2 _ _ Hr'). }
    intros n c Hr. destruct (Hinv n c Hr) as [HS HE]. pose proof HS as [[d Ed] Et].
    assert (HE1 : ~ ended (side1 client c)) by (unfold ended; congruence).
    split; [exact HE1|]. split; [exact HE|]. split; [exact HS|].
    destruct (unread_facts n c Hr) as (Q1 & Q2 & R1 & R2 & W3 & L1 & Hc & Hs).
    destruct R1 as [R1|R1]; [contradiction|]. destruct R2 as [R2|R2]; [contradiction|].
    destruct Hc as [(d0 & Ed0 & Hd & Hl1)|[Hn _]]; [|now destruct (Hn d)]. rewrite Ed in Ed0. injection Ed0 as <-.
    destruct (le_lt_dec (length (queue1 client server c) + 1) room1) as [Hle|Hgt].
    { left. eexists. apply step1, (ans_write _ _ _ _ _ d 1); auto. destruct d; [easy|]. cbn. lia. }
    destruct Hs as [(m & Em & Hm & Ht & Hno)|[Hl [(d2 & Ed2 & Hd2 & Hp)|[En Es]]]]; [| |contradiction].
    { left. destruct (queue1 client server c) as [|b l] eqn:Eq; [cbn in Hgt; lia|].
      eexists. apply step2, (ans_read _ _ _ _ _ m [b] l); auto; try easy; cbn; lia. }
    destruct (le_lt_dec (length (queue2 client server c) + 1) room2) as [Hle|Hgt2].
    { left. eexists. apply step2, (ans_write _ _ _ _ _ d2 1); auto. destruct d2; [easy|]. cbn. lia. }
    right. rewrite Et in Q2. cbn [app] in Q2.
    split; [|split; [lia|split; [|exact Hl]]].
    - split; [tauto|]. intros c' Hst. inversion Hst as [c0 f Ha E1 E2|c0 f Ha E1 E2]; subst c0; inversion Ha; try congruence.
      + rewrite Ed in H0. injection H0 as <-. destruct H2; [lia|contradiction].
      + rewrite Ed2 in H0. injection H0 as <-. destruct H2; [lia|contradiction].
    - destruct Hp as [t Hp]. rewrite Hp, <- app_assoc, firstn_app. rewrite <- Q2 in R2, Hgt2.
      replace (room2 - length (k_sent (side2 server c))) with 0 by lia. rewrite firstn_all2 by lia. cbn [firstn]. now rewrite app_nil_r.
  Qed.

  (** Such an exchange can deadlock exactly if neither the body nor the answer fits into its queue. *)
  Theorem C71_deadlock_iff :
    (exists n c, reach client server room1 room2 n c /\ deadlock client server room1 room2 c) <-> room1 < length body /\ room2 < length answer_wire.
  Proof using G Hun Hbody Hroom.
    split.
    { intros (n & c & Hr & Hd & Hn).
      destruct (le_lt_dec (length body) room1) as [K|K1].
      { destruct (unread_progress n c (or_introl K) Hr) as [X|[c' X]]; [contradiction|]. now destruct (Hn c'). }
      destruct (le_lt_dec (length answer_wire) room2) as [K|K2]; auto.
      destruct (unread_progress n c (or_intror K) Hr) as [X|[c' X]]; [contradiction|]. now destruct (Hn c'). }
    intros [Hw1 Hw2].
    (* the server is given one byte at a time, the client nothing *)
    set (I := fun c => still_writing c /\ length (k_taken (side2 server c)) <= length head).
    assert (Hne : forall n c, reach client server room1 room2 n c -> still_writing c -> ~ ended (side2 server c)).
    { intros n c Hr [[d Ed] Et] He. unfold ended in He.
      destruct (unread_facts n c Hr) as (_ & Q2 & _ & R2 & _ & _ & _ & Hs).
      destruct R2 as [R2|R2]; [unfold ended in R2; congruence|].
      destruct Hs as [(m & Em & _)|[_ [(d' & Ed' & _)|[_ Es]]]]; try congruence.
      rewrite Et, Es in Q2. cbn [app] in Q2. rewrite <- Q2 in R2. lia. }
    pose proof (client_process_lax bld1 cap1 fuel1 r ops p) as HF1. pose proof (server_process_lax bld2 cap2 etext hd bufsz fuel2 hs) as HF2.
    assert (Hnext : forall n c, reach client server room1 room2 n c -> I c ->
      deadlock client server room1 room2 c \/ exists c', step client server room1 room2 c c' /\ I c').
    { intros n c Hr [HS Ht]. pose proof HS as [[d Ed] Et]. pose proof (Hne n c Hr HS) as HE.
      assert (HE1 : ~ ended (side1 client c)) by (unfold ended; congruence).
      destruct (unread_facts n c Hr) as (Q1 & Q2 & R1 & R2 & W3 & L1 & Hc & Hs).
      destruct R1 as [R1|R1]; [contradiction|]. destruct R2 as [R2|R2]; [contradiction|].
      apply (f_equal (@length byte)) in Q1. rewrite app_length in Q1.
      destruct Hc as [(d0 & Ed0 & Hd & Hl1)|[Hn _]]; [|now destruct (Hn d)]. rewrite Ed in Ed0. injection Ed0 as <-.
      destruct (le_lt_dec (length (queue1 client server c) + 1) room1) as [Hle|Hgt].
      { (* the client writes a byte *)
        right. assert (Hst : step client server room1 room2 c (took 1 (fst c), snd c)).
        { apply step1, (ans_write _ _ _ _ _ d 1); auto. destruct d; [easy|]. cbn. lia. }
        exists (took 1 (fst c), snd c). split; [exact Hst|]. split; [|exact Ht].
        apply (keeps_writing n c _ Hr HS Hst).
        assert (Hr' : reach client server room1 room2 (S n) (took 1 (fst c), snd c)) by (econstructor; eauto).
        destruct (unread_facts _ _ Hr') as (Q1' & _ & R1' & _).
        destruct R1' as [R1'|R1']; [contradiction|]. rewrite Q1', app_length.
        change (side2 server (took 1 (fst c), snd c)) with (side2 server c). lia. }
      assert (Hkw : forall f, step client server room1 room2 c (fst c, f (snd c)) -> still_writing (fst c, f (snd c))).
      { intros f Hst. apply (keeps_writing n c _ Hr HS Hst). change (side1 client (fst c, f (snd c))) with (side1 client c). lia. }
      destruct (reach_half _ _ HF1 HF2 room1 room2 n c Hr) as (_ & H2 & _).
      destruct Hs as [(m & Em & Hm & Hth & Hno)|[Hl [(d2 & Ed2 & Hd2 & Hp)|[En Es]]]]; [| |contradiction].
      { (* the server reads a byte *)
        right. destruct (queue1 client server c) as [|b l] eqn:Eq; [cbn in Hgt; lia|].
        assert (Ha : answer (side2 server c) (queue1 client server c) (queue2 client server c) room2 (side1 client c) (got [b])).
        { apply (ans_read _ _ _ _ _ m [b] l); auto; try easy; cbn; lia. }
        assert (Hst : step client server room1 room2 c (fst c, got [b] (snd c))) by now apply step2.
        exists (fst c, got [b] (snd c)). split; [exact Hst|]. split; [now apply Hkw|].
        pose proof (answer_half (server_process bld2 cap2 etext hd bufsz fuel2 hs) (snd c) (side1 client c) _ _ _ HF2 H2 Ha) as ([_ _ K3 _ _] & _).
        destruct H2 as [_ _ K4 _ _].
        change (snd (server_process bld2 cap2 etext hd bufsz fuel2 hs sock sock_read sock_writer (fresh (got [b] (snd c)))))
          with (side2 server (fst c, got [b] (snd c))) in K3.
        change (side2 (server_process bld2 cap2 etext hd bufsz fuel2 hs sock sock_read sock_writer) c) with (side2 server c) in K4.
        rewrite <- K3. cbn [got a_reads]. rewrite concat_app, K4, app_length. change (length (concat [[b]])) with 1. lia. }
      destruct (le_lt_dec (length (queue2 client server c) + 1) room2) as [Hle|Hgt2].
      { (* the server writes a byte *)
        right.
        assert (Ha : answer (side2 server c) (queue1 client server c) (queue2 client server c) room2 (side1 client c) (took 1)).
        { apply (ans_write _ _ _ _ _ d2 1); auto. destruct d2; [easy|]. cbn. lia. }
        assert (Hst : step client server room1 room2 c (fst c, took 1 (snd c))) by now apply step2.
        exists (fst c, took 1 (snd c)). split; [exact Hst|]. split; [now apply Hkw|].
        pose proof (answer_half (server_process bld2 cap2 etext hd bufsz fuel2 hs) (snd c) (side1 client c) _ _ _ HF2 H2 Ha) as ([_ _ K3 _ _] & _).
        destruct H2 as [_ _ K4 _ _].
        change (snd (server_process bld2 cap2 etext hd bufsz fuel2 hs sock sock_read sock_writer (fresh (took 1 (snd c)))))
          with (side2 server (fst c, took 1 (snd c))) in K3.
        change (side2 (server_process bld2 cap2 etext hd bufsz fuel2 hs sock sock_read sock_writer) c) with (side2 server c) in K4.
        rewrite <- K3. cbn [took a_reads]. rewrite K4. exact Ht. }
      left. split; [tauto|]. intros c' Hst. inversion Hst as [c0 f Ha E1 E2|c0 f Ha E1 E2]; subst c0; inversion Ha; try congruence.
      + rewrite Ed in H0. injection H0 as <-. destruct H3; [lia|contradiction].
      + rewrite Ed2 in H0. injection H0 as <-. destruct H3; [lia|contradiction]. }
    assert (Hlw : length (whole_request r ops) = length head + length body) by (rewrite whole_body; apply app_length).
    pose proof (bounded_any bld1 cap1 fuel1 r ops p bld2 cap2 etext hd bufsz fuel2 hs (length body) room2 q hs' ys out G room1) as HB.
    assert (Hgo : forall k n c, 2 * length (whole_request r ops) + 2 * length answer_wire + 2 - n = k -> reach client server room1 room2 n c -> I c ->
      exists n c, reach client server room1 room2 n c /\ deadlock client server room1 room2 c).
    { induction k as [k IH] using lt_wf_ind. intros n c Ek Hr Hi. destruct (Hnext n c Hr Hi) as [Hd|(c' & Hst & Hi')]; [eauto|].
      assert (Hr' : reach client server room1 room2 (S n) c') by (econstructor; eauto). pose proof (HB _ _ Hr').
      apply (IH (2 * length (whole_request r ops) + 2 * length answer_wire + 2 - S n) ltac:(lia) (S n) c'); auto. }
    apply (Hgo _ 0 start eq_refl (reach_start _ _ _ _)). split; [exact starts_writing|].
    destruct (reach_half _ _ HF1 HF2 room1 room2 0 start (reach_start _ _ _ _)) as (_ & [_ _ B3 _ _] & _).
    change (side2 (server_process bld2 cap2 etext hd bufsz fuel2 hs sock sock_read sock_writer) start) with (side2 server start) in B3.
    rewrite <- B3. cbn. lia.
  Qed.

  (** A client that is still writing has read nothing. *)
  Lemma writing_unread n c d : reach client server room1 room2 n c -> k_stop (side1 client c) = Some (AWrite d) -> still_writing c.
  Proof using G Hun Hbody Hroom.
    intros Hr. revert d. induction Hr as [|n c c' Hr IH Hst]; intros d Ed; [apply starts_writing|].
    assert (Hr' : reach client server room1 room2 (S n) c') by (econstructor; eauto).
    destruct (unread_facts _ _ Hr') as (_ & _ & _ & _ & _ & _ & [(d' & Ed' & Hd' & Hl')|[Hn _]] & _); [|now destruct (Hn d)].
    apply (keeps_writing n c c' Hr); auto; [|destruct d'; [easy|]; cbn [length] in Hl'; lia].
    destruct (unread_facts _ _ Hr) as (_ & _ & _ & _ & _ & _ & [(d0 & Ed0 & _)|[_ E]] & _); [eauto|exfalso].
    assert (Hp : length (k_sent (side1 client c)) <= length (k_sent (side1 client c'))).
    { destruct Hst as [c f Ha|c f Ha]; [|auto].
      pose proof (client_process_lax bld1 cap1 fuel1 r ops p) as HF1. pose proof (server_process_lax bld2 cap2 etext hd bufsz fuel2 hs) as HF2.
      destruct (reach_half _ _ HF1 HF2 room1 room2 n c Hr) as (H1 & _ & _).
      pose proof (answer_half (client_process bld1 cap1 fuel1 r ops p) (fst c) (side2 server c) _ _ f HF1 H1 Ha) as (_ & [t K] & _).
      change (snd (client_process bld1 cap1 fuel1 r ops p sock sock_read sock_writer (fresh (fst c)))) with (side1 client c) in K.
      change (snd (client_process bld1 cap1 fuel1 r ops p sock sock_read sock_writer (fresh (f (fst c))))) with (side1 client (f (fst c), snd c)) in K.
      rewrite K, app_length. lia. }
    destruct d'; [easy|]. cbn [length] in Hl'. lia.
  Qed.

  (** *** The reset of the connection *)
  (** Unless all of the body may have been read together with the head, TCP resets the connection of every such upload,
      in every run, no matter how large the queues are. *)
  Theorem C71_resets : ahead < length body -> forall n c, reach client server room1 room2 n c -> ended (side2 server c) ->
    resets bld1 cap1 fuel1 r ops p bld2 cap2 etext hd bufsz fuel2 hs c.
  Proof using G Hun Hbody Hroom.
    intros Hw n c Hr He. split; [exact He|].
    destruct (unread_facts n c Hr) as (Q1 & _ & _ & _ & _ & _ & Hc & Hs).
    destruct Hc as [(d & Ed & _)|[_ E]]; [right; eauto|]. left. intros Eq. rewrite Eq, app_nil_r in Q1. rewrite Q1 in E.
    unfold ended in He. destruct Hs as [(m & Em & _)|[Hl _]]; [congruence|lia].
  Qed.

  (** If the rest of the body does not fit into the queue, the client has, when the server returns, not sent all of the
      body and not read anything. When its writes fail from then on, it does not return the response, although it has
      been sent completely: whatever the socket would give it to read ([M]). *)
  Theorem C71_answer_lost : room1 + ahead < length body -> forall n c c', reach client server room1 room2 n c ->
    step client server room1 room2 c c' -> ~ ended (side2 server c) -> ended (side2 server c') ->
    k_sent (side2 server c') = answer_wire /\ still_writing c'
    /\ forall e M y, fst (client_run bld1 cap1 f_read (cut_writer e) fuel1 r ops p (goes_on M (fresh (fst c')))) <> Ok y.
  Proof using G Hun Hbody Hroom.
    intros Hw n c c' Hr Hst Hn He.
    destruct (unread_facts n c Hr) as (Q1 & _ & R1 & _ & _ & _ & Hc & Hs).
    destruct R1 as [R1|R1]; [contradiction|].
    assert (Ht : length (k_taken (side2 server c)) <= length head + ahead) by (destruct Hs as [(? & ? & ? & ? & ?)|[? ?]]; lia).
    apply (f_equal (@length byte)) in Q1. rewrite app_length in Q1.
    assert (Hr' : reach client server room1 room2 (S n) c') by (econstructor; eauto).
    assert (Hd : exists d, k_stop (side1 client c') = Some (AWrite d) /\ d <> []).
    { destruct Hst as [c f Ha|c f Ha]; [contradiction|]. destruct Hc as [(d & Ed & Hd & _)|[_ E]]; [exists d; auto|lia]. }
    destruct Hd as (d & Ed & Hd).
    split; [|split; [eapply writing_unread; eauto|]].
    - destruct (unread_facts _ _ Hr') as (_ & _ & _ & _ & _ & _ & _ & Hs').
      unfold ended in He. destruct Hs' as [(m & Em & _)|[_ [(x & Ex & _)|[_ Es]]]]; congruence.
    - intros e M. apply (cut_client bld1 cap1 fuel1 r ops p e M (fst c') d); auto; try apply G.
  Qed.
End Unread.
Print Assumptions C71_ends.
Print Assumptions C71_always_deadlock.
Print Assumptions C71_deadlock_iff.
Print Assumptions C71_resets.
Print Assumptions C71_answer_lost.

(** *** Examples *)
(** The client of C58, and a server with the handler that implements no method. The body takes 46 bytes, the answer 50; the
    server reads 8 bytes at a time. *)
Lemma C71_unread : unread (@default_handler (list bytes)) [] C58_req (from_string MethodNotAllowed (bs "PUT not allowed")) [].
Proof.
  exists (Ok (inl (from_string MethodNotAllowed (bs "PUT not allowed")))). split; [now left|]. right.
  eexists. split; [reflexivity|]. split; reflexivity.
Qed.
Lemma C71_good bld2 room2 : 1 <= room2 ->
  good_exchange 16 400 C58_req C58_ops C58_reader bld2 8 (@default_handler (list bytes)) 4 400 [] (length (body_wire C58_req C58_ops)) room2
    (from_string MethodNotAllowed (bs "PUT not allowed")) [] (map B (bs "PUT not allowed")) (bs "PUT not allowed").
Proof. intros H. now apply C58_refuse_good. Qed.

(** With room for 8 bytes each way neither side ever returns. With room for 8 and 64 bytes both return. With room for 64
    bytes each way the connection is reset all the same. *)
Example C71_case :
  (forall n c, reach (C58_client Std) (C58_server Std default_handler) 8 8 n c ->
     ~ ended (side1 (C58_client Std) c) /\ ~ ended (side2 (C58_server Std default_handler) c))
  /\ (forall n c, reach (C58_client Std) (C58_server Std default_handler) 8 64 n c ->
     exists m c', reach (C58_client Std) (C58_server Std default_handler) 8 64 m c' /\ n <= m
       /\ ended (side1 (C58_client Std) c') /\ ended (side2 (C58_server Std default_handler) c'))
  /\ (forall n c, reach (C58_client Std) (C58_server Std default_handler) 64 64 n c -> ended (side2 (C58_server Std default_handler) c) ->
     resets Std 16 400 C58_req C58_ops C58_reader Std 8 (fun _ => []) (@default_handler (list bytes)) 4 400 [] c).
Proof.
  assert (H1 : 8 + ahead Std 8 8 < length (body_wire C58_req C58_ops)) by (apply Nat.ltb_lt; vm_compute; reflexivity).
  assert (H2 : 8 < length (response_wire (from_string MethodNotAllowed (bs "PUT not allowed")) (bs "PUT not allowed"))) by (apply Nat.ltb_lt; vm_compute; reflexivity).
  assert (H3 : length (response_wire (from_string MethodNotAllowed (bs "PUT not allowed")) (bs "PUT not allowed")) <= 64) by (apply Nat.leb_le; vm_compute; reflexivity).
  assert (H4 : ahead Std 8 64 < length (body_wire C58_req C58_ops)) by (apply Nat.ltb_lt; vm_compute; reflexivity).
  pose proof (C71_always_deadlock Std 16 400 C58_req C58_ops C58_reader Std 8 (fun _ => []) (@default_handler (list bytes)) 4 400 [] 8 8 _ _ _ _
    (C71_good Std 8 ltac:(lia)) C71_unread eq_refl ltac:(lia) H1 H2) as K1.
  pose proof (C71_ends Std 16 400 C58_req C58_ops C58_reader Std 8 (fun _ => []) (@default_handler (list bytes)) 4 400 [] 8 64 _ _ _ _
    (C71_good Std 64 ltac:(lia)) C71_unread eq_refl ltac:(lia) (or_intror H3)) as K2.
  pose proof (C71_resets Std 16 400 C58_req C58_ops C58_reader Std 8 (fun _ => []) (@default_handler (list bytes)) 4 400 [] 64 64 _ _ _ _
    (C71_good Std 64 ltac:(lia)) C71_unread eq_refl ltac:(lia) H4) as K3.
  unfold C58_client, C58_server. split; [|split; [|exact K3]].
  - intros n c Hr. destruct (K1 n c Hr) as (E1 & E2 & _). exact (conj E1 E2).
  - intros n c Hr. destruct (K2 n c Hr) as (_ & m & c' & E1 & E2 & E3 & E4 & _). exists m, c'. exact (conj E1 (conj E2 (conj E3 E4))).
Qed.

(** With room for 8 and 64 bytes, after 28 steps: the server has returned, the whole answer is under way, and the client has
    sent the head and a part of the body. When its next write fails, it returns the error of the socket. *)
Example C71_lost_case : exists n c, reach (C58_client Std) (C58_server Std default_handler) 8 64 n c
  /\ n = 28 /\ ended (side2 (C58_server Std default_handler) c)
  /\ queue2 (C58_client Std) (C58_server Std default_handler) c = bs "HTTP/1.1 405 Method Not Allowed" ++ CRLF ++ CRLF ++ bs "PUT not allowed"
  /\ fst (client_run Std 16 f_read (cut_writer (IoError (KOther 104))) 400 C58_req C58_ops C58_reader
       (goes_on (map B (bs "HTTP/1.1 405 Method Not Allowed" ++ CRLF ++ CRLF ++ bs "PUT not allowed")) (fresh (fst c)))) = Err (IoError (KOther 104)).
Proof.
  apply (greedy_outcome (C58_client Std) (C58_server Std default_handler) 8 64 28). vm_compute. repeat split.
Qed.

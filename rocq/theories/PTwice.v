(** Property C59: a second request to this crate's server over a pooled connection. *)
From Verif Require Import Base Utf8 Case Num Io Parser Types Message Outgoing Client Server Transport.
From Verif Require Import Lemmas ReadLemmas NumLemmas ChunkSpec ChunkLemmas BodyLemmas WriteLemmas ParserLemmas CaseLemmas
  TypesLemmas HeadLemmas BlockLemmas MsgLemmas OutLemmas SimLemmas KeepLemmas ErrLemmas PBody PIo PParse PHead POut PReuse PServer PEnd PUrl PPool.

(** The peer has closed the connection and everything it sent has been read. *)
Definition exhausted {S} (rd : reader S) (s : S) : Prop := delivers0 rd s [].

(** Writing to a stream whose peer has closed does not make the peer send something. *)
Definition stays_exhausted {S} (rd : reader S) (wt : writer S) : Prop :=
  (forall d s, exhausted rd s -> exhausted rd (snd (wr wt d s))) /\ (forall s, exhausted rd s -> exhausted rd (snd (fl wt s))).

Lemma exhausted_kept {S} (rd : reader S) wt : stays_exhausted rd wt -> kept rd wt (exhausted rd).
Proof.
  intros [Hw Hf]. split; auto. intros n s (R & HR & HZ & Hs). exists R. split; [exact HR|]. split; [exact HZ|]. destruct n as [|n].
  - destruct (HZ s [] Hs) as [(s' & E & Hs')|(e & xs & s' & E & _)]; [now rewrite E|discriminate].
  - destruct (HR (Datatypes.S n) s [] ltac:(lia) Hs) as (s' & E & Hs'). now rewrite E.
Qed.
Lemma exhausted_silent {S} (rd : reader S) n s b t : exhausted rd s -> fst (rd n s) <> Ok (b :: t).
Proof.
  intros (R & HR & HZ & Hs). destruct n as [|n].
  - destruct (HZ s [] Hs) as [(s' & E & Hs')|(e & xs & s' & E & _)]; [now rewrite E|discriminate].
  - destruct (HR (Datatypes.S n) s [] ltac:(lia) Hs) as (s' & E & Hs'). now rewrite E.
Qed.

(** Reading a response of this crate's server to its end leaves nothing to read. *)
Lemma response_exhausts {S} bld cap (rd : reader S) fuel s Q (q : response Q) out :
  0 < cap -> small_version (rs_version q) -> (to_code (rs_status q) < 2 ^ 32)%N -> sendable (rs_headers q) -> honest_framing (rs_headers q) out ->
  delivers0 rd s (map B (response_wire q out)) -> length (response_wire q out) + 3 < fuel ->
  exists resp s2, response_deserialize bld rd fuel s = (Ok resp, s2)
    /\ forall got e b, drains (body_read bld (bufr_read bld cap rd) fuel) (rs_body resp) got e b ->
       got = out /\ e = None /\ exhausted rd (br_inner (body_reader b)).
Proof.
  intros Hc Hv Hcode Hs [Hte Hcl] (R & HR & HZ & Ht) Hf.
  assert (Hg : good_length (rs_headers q)).
  { intros w Hw. destruct Hcl as [Hcl|(w' & Hcl & Hn)]; [congruence|]. rewrite Hw in Hcl. injection Hcl as <-. eauto. }
  assert (Ew : response_wire q out = concat (response_pieces q) ++ out).
  { rewrite response_pieces_wire. unfold response_wire. now rewrite <- !app_assoc. }
  rewrite Ew, map_app, response_pieces_wire in Ht. rewrite Ew in Hf.
  destruct (good_length_of _ Hg) as [n Hn].
  edestruct (response_items bld rd R s _ fuel HR Ht) as (t' & H1 & E).
  { rewrite app_length, map_length, <- response_pieces_wire, map_length. rewrite app_length in Hf. lia. }
  rewrite (resp_round_trip bld _ _ _ n (map B out) Hv) in *; auto; try (unfold u32_max; lia). cbn [fst snd rbind] in *.
  eexists _, t'. split; [exact E|]. cbn [rs_body resp_with].
  assert (Hfr : framed (rs_headers q) (bufr_new t') (rs_body (resp_with (mkRespHead (rs_version q) (from_code (to_code (rs_status q))) (rs_headers q)
     (headers_get (bs "Transfer-Encoding") (rs_headers q)) n) t'))) by now apply framed_new.
  cbn [resp_with rs_body sh_encoding sh_length] in Hfr. set (b := body_new _ _ _) in *.
  pose proof (bufr_read_pos bld cap rd R Hc HR) as HRb. pose proof (bufr_new_rel bld R t' _ H1) as Hb.
  assert (K : delivers_end (body_read bld (bufr_read bld cap rd) fuel) b (map B out) (fun b' => bufr_rel bld R (body_reader b') [])).
  { destruct Hcl as [Hcl|(w & Hcl & Hw)].
    - destruct Hfr as (len & Hlen & [[Hx _]|[_ Eb]]); [congruence|]. rewrite Eb. destruct Hlen as [[_ ->]|(w & n' & Hw & _)]; [|congruence].
      exists (fun x xs => exists r, x = BTilClose r /\ bufr_rel bld R r xs). split; [|split; [eauto|]].
      + intros k x xs Hk (r & -> & Hr). pose proof (HRb k r xs Hk Hr) as H. rewrite body_read_tilclose. destruct xs as [|[c|e] xs].
        * destruct H as (r' & -> & Hr'). cbn. eauto.
        * destruct H as (dt & xs' & r' & -> & A1 & A2 & A3 & Hr'). cbn. eauto 10.
        * destruct H as (r' & -> & Hr'). cbn. eauto.
      + intros k x Hk (r & -> & Hr). rewrite body_read_tilclose. destruct (HRb k r [] Hk Hr) as (r' & -> & Hr'). exact Hr'.
    - pose proof (carries_length (rs_headers q) out w Hte Hcl Hw) as Hcar.
      apply (carries_read bld (bufr_read bld cap rd) (bufr_rel bld R) (bufr_new t') (rs_headers q) out out [] b fuel HRb Hfr Hcar).
      + now rewrite app_nil_r.
      + rewrite app_nil_r, map_length. rewrite app_length in Hf. lia. }
  intros got e b1 Hd. destruct (delivers_end_drains _ _ _ _ _ _ _ K Hd) as (-> & -> & HP). rewrite lead_map, fault_map in *.
  split; [auto|]. split; [auto|]. destruct (HP eq_refl) as (zs & A1 & A2 & _). destruct (br_buf (body_reader b1)); [|discriminate]. cbn in A1. subst zs.
  now exists R.
Qed.

Section Twice.
  Context {Addr S Wd : Type} (aeq : forall x y : Addr, {x = y} + {x <> y}) (conn : connector Addr S Wd).
  Context (bld : build) (cap : nat) (rd : reader S) (wt : writer S).

  (** A request of a pooling client ([HttpClient]) to this crate's server, which sends one response, [response_wire q out] (C50),
      and then closes the connection. The client gets the response and may read all of it. But the connection stays
      in the pool: whatever happens in between, no later request to the same address is ever answered, and a caller
      who sends one gets an unexpected end of file. The connection is never replaced. *)
  Theorem C59_second_request : forall m fuel u p w a o p1 w1 ops o1 s1 Q (q : response Q) out,
    stays_exhausted rd wt -> 0 < cap ->
    (* the first request, sent completely *)
    client_start aeq conn bld cap wt m fuel u p w = (Ok (a, o), (p1, w1)) ->
    run_ops bld cap wt fuel ops o = (Ok tt, o1) -> finish_send bld cap wt fuel o1 = (Ok tt, s1) ->
    (* the answer *)
    small_version (rs_version q) -> (to_code (rs_status q) < 2 ^ 32)%N -> sendable (rs_headers q) -> honest_framing (rs_headers q) out ->
    delivers0 rd s1 (map B (response_wire q out)) -> length (response_wire q out) + 3 < fuel ->
    exists resp s2, finish bld cap rd wt fuel o1 = (Ok resp, s2)
    /\ forall got e b, drains (body_read bld (bufr_read bld cap rd) fuel) (rs_body resp) got e b ->
       got = out /\ e = None
       /\ forall ls p' w', history aeq conn bld cap rd wt ls (pool_update aeq a (br_inner (body_reader b)) p1) w1 p' w' ->
       forall m' fuel' u' c o' pw, fst (c_addr conn u' w') = Ok a ->
       client_start aeq conn bld cap wt m' fuel' u' p' w' = (Ok (c, o'), pw) ->
       c = a /\ (forall resp', ~ answered bld cap rd wt o' resp')
       /\ forall ops' o1' s1', run_ops bld cap wt fuel' ops' o' = (Ok tt, o1') -> finish_send bld cap wt fuel' o1' = (Ok tt, s1') -> 0 < fuel' ->
          fst (finish bld cap rd wt fuel' o1') = Err UnexpectedEof.
  Proof.
    intros m fuel u p w a o p1 w1 ops o1 s1 Q q out Hst Hc Est Eops Efs Hv Hcode Hs Hf Hd Hl.
    destruct (response_exhausts bld cap rd fuel s1 Q q out Hc Hv Hcode Hs Hf Hd Hl) as (resp & s2 & E & Hdr).
    exists resp, s2. split. { unfold finish. rewrite Efs. exact E. }
    intros got e b Hb. destruct (Hdr got e b Hb) as (-> & -> & Hx). split; [auto|]. split; [auto|].
    intros ls p' w' Hh m' fuel' u' c o' pw Ha Ec.
    pose proof (exhausted_kept rd wt Hst) as HK. pose proof (start_has aeq conn bld cap wt m fuel u p w a o p1 w1 Est) as Hhas.
    destruct (pool_get aeq a p1) as [s0|] eqn:Eg; [|easy].
    assert (Eg' : pool_get aeq a (pool_update aeq a (br_inner (body_reader b)) p1) = Some (br_inner (body_reader b))).
    { rewrite (now_at_had aeq a s0 _ _ Eg). now destruct (aeq a a). }
    destruct (C42_dead_stream aeq conn bld cap rd wt (exhausted rd) ls _ w1 p' w' a _ HK ltac:(intros; now apply exhausted_silent) Eg' Hx Hh m' fuel' u' c o' pw Ha Ec) as [-> Hn].
    split; [auto|]. split; [exact Hn|]. intros ops' o1' s1' Eo Ef Hf'.
    assert (Ko : exhausted rd (out_sock o')).
    { destruct (stored_keep aeq conn bld cap rd wt (exhausted rd) ls _ w1 p' w' a _ HK Hh Eg' Hx) as (s3 & Eg3 & Hs3). destruct pw as [p2 w2].
      pose proof (hi_cons aeq conn bld cap rd wt _ _ _ _ _ _ _ _ (st_sent aeq conn bld cap rd wt m' fuel' u' p' w' a o' p2 w2 _ Ec (us_forget bld cap rd wt o')) (hi_nil aeq conn bld cap rd wt _ _)) as H1.
      destruct (stored_keep aeq conn bld cap rd wt (exhausted rd) _ p' w' _ _ a s3 HK H1 Eg3 Hs3) as (s4 & Eg4 & Hs4).
      pose proof (start_has aeq conn bld cap wt m' fuel' u' p' w' a o' p2 w2 Ec) as Hhas2. destruct (pool_get aeq a p2) as [s5|] eqn:Eg5; [|easy].
      rewrite (now_at_had aeq a s5 _ _ Eg5) in Eg4. destruct (aeq a a); [|easy]. now injection Eg4 as <-. }
    assert (K1 : exhausted rd (out_sock o1')).
    { clear - HK Ko Eo. revert o' Ko Eo. induction ops' as [|[d|] ops IH]; intros o Ko Eo; cbn [run_ops] in Eo.
      - now injection Eo as <-.
      - pose proof (outgoing_write_keep bld cap rd wt _ HK fuel' d o Ko) as K. destruct (outgoing_write bld cap wt fuel' d o) as [[k|e| |] o2]; cbn [sbind] in Eo; try easy. now apply (IH o2).
      - pose proof (outgoing_flush_keep bld rd wt _ HK fuel' o Ko) as K. destruct (outgoing_flush bld wt fuel' o) as [[k|e| |] o2]; cbn [sbind] in Eo; try easy. now apply (IH o2). }
    pose proof (finish_send_keep bld cap rd wt _ HK fuel' o1' K1) as K2. rewrite Ef in K2. cbn [snd] in K2.
    unfold finish. rewrite Ef. cbn [sbind].
    destruct K2 as (R & HR & HZ & HRs). destruct (response_items bld rd R s1' [] fuel' HR HRs Hf') as (t' & _ & ->). destruct bld; reflexivity.
  Qed.
End Twice.
Print Assumptions C59_second_request.

(** A server that answers the first request and closes: the second request is sent over the same connection, and finds end of file. *)
Definition C59_answer : response (list byte) := mkResponse (mkVersion 1 1) OK [(bs "content-length", bs "2")] (bs "hi").
Definition C59_conn : connector nat duplex nat :=
  mkConnector (fun a n => (Ok (([], []), segs [response_wire C59_answer (bs "hi")]), Datatypes.S n)) (fun u n => (Ok 7, n)).
Definition C59_start := client_start Nat.eq_dec C59_conn Std 64 duplex_writer.
Lemma duplex_exhausted w w' evs : exhausted duplex_read (w, evs) -> exhausted duplex_read (w', evs).
Proof.
  intros (R & HR & HZ & Hs). exists (fun s xs => exists w0, R (w0, snd s) xs). split; [|split; [|cbn; eauto]].
  - intros n s xs Hn (w0 & H0). pose proof (HR n (w0, snd s) xs Hn H0) as H. unfold duplex_read in *. cbn [fst snd] in *.
    destruct (seg_read n (snd s)) as [x evs1]. destruct xs as [|[c|e] xs].
    + destruct H as (s' & [= -> <-] & H). eexists. split; [reflexivity|]. cbn. eauto.
    + destruct H as (dt & xs' & s' & [= -> <-] & A1 & A2 & A3 & H). exists dt, xs'. eexists. repeat (split; [eassumption || reflexivity|]). cbn. eauto.
    + destruct H as (s' & [= -> <-] & H). eexists. split; [reflexivity|]. cbn. eauto.
  - intros s xs (w0 & H0). pose proof (HZ (w0, snd s) xs H0) as H. unfold duplex_read in *. cbn [fst snd] in *.
    destruct (seg_read 0 (snd s)) as [x evs1]. destruct H as [(s' & [= -> <-] & H)|(e & xs' & s' & -> & [= -> <-] & H)]; [left|right].
    + eexists. split; [reflexivity|]. cbn. eauto.
    + eexists _, _, _. split; [reflexivity|]. split; [reflexivity|]. cbn. eauto.
Qed.
Example C59_case :
  stays_exhausted duplex_read duplex_writer
  /\ (let (r1, pw1) := C59_start Get 99 C42_url [] 0 in
      match r1 with
      | Ok (a, o) =>
          match finish Std 64 duplex_read duplex_writer 99 o with
          | (Ok resp, _) =>
              let (x, b) := body_read Std (bufr_read Std 64 duplex_read) 99 9 (rs_body resp) in
              let (r2, pw2) := C59_start Get 99 C42_url (pool_update Nat.eq_dec a (br_inner (body_reader b)) (fst pw1)) (snd pw1) in
              match r2 with
              | Ok (a2, o2) => (x, a2, match fst (finish Std 64 duplex_read duplex_writer 99 o2) with Err e => Some e | _ => None end, snd pw2)
              | _ => (x, 0, None, 0)
              end
          | _ => (Panic, 0, None, 0)
          end
      | _ => (Panic, 0, None, 0)
      end) = (Ok (bs "hi"), 7, Some UnexpectedEof, 1).
Proof.
  split; [|reflexivity]. split; [intros d [w evs] H|intros [w evs] H; exact H].
  cbn [wr duplex_writer fst snd]. destruct (wr script_writer d w) as [x w']. now apply (duplex_exhausted w).
Qed.

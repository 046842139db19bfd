(** The two builds of the crate on one transport: C83. *)
From Verif Require Import Base Utf8 Case Num Io Parser Types Message Outgoing Server Transport.
From Verif Require Import Lemmas ReadLemmas NumLemmas ChunkSpec ChunkLemmas BodyLemmas WriteLemmas ParserLemmas CaseLemmas
  TypesLemmas HeadLemmas BlockLemmas MsgLemmas SimLemmas KeepLemmas ErrLemmas PBody PIo PParse PHead POut PReuse PServer.

(** No read of the transport is interrupted by a signal. Reads may fail in any other way. *)
Definition uninterrupted (xs : list item) : Prop := ~ In (Transport.E (IoError Interrupted)) xs.

(** The error of a body in the std build and the one of the same body in the no_std build: the transport's own error in both; or the
    crate's error, which std turns into an io error of kind Other; or the end of the transport inside a body. *)
Inductive alike_errors : error -> error -> Prop :=
| ae_same e : alike_errors e e
| ae_crate e : alike_errors (IoError (KOther 0)) e
| ae_eof : alike_errors (IoError KUnexpectedEof) UnexpectedEof.

Inductive alike : list item -> list item -> Prop :=
| al_nil : alike [] []
| al_byte b xs ys : alike xs ys -> alike (B b :: xs) (B b :: ys)
| al_fail e1 e2 xs ys : alike_errors e1 e2 -> alike xs ys -> alike (Transport.E e1 :: xs) (Transport.E e2 :: ys).

Lemma alike_refl xs : alike xs xs.
Proof. induction xs as [|[b|e] xs IH]; constructor; auto using alike_errors. Qed.

Lemma is_retry_un e : e <> IoError Interrupted -> is_retry Std e = false.
Proof. destruct e; try easy; now destruct k. Qed.
Lemma un_cons x xs : uninterrupted (x :: xs) -> uninterrupted xs.
Proof. unfold uninterrupted. cbn. tauto. Qed.
Lemma un_suffix pre xs : uninterrupted (pre ++ xs) -> uninterrupted xs.
Proof. unfold uninterrupted. rewrite in_app_iff. tauto. Qed.

Lemma items_line_un xs : forall acc, uninterrupted xs -> items_line Std acc xs = items_line NoStd acc xs.
Proof.
  induction xs as [|[b|e] xs IH]; intros acc Hu; cbn [items_line]; auto.
  - now rewrite (IH _ (un_cons _ _ Hu)).
  - rewrite is_retry_un; [reflexivity|]. intros ->. apply Hu. now left.
Qed.
Lemma il_un xs : uninterrupted xs -> il Std xs = il NoStd xs.
Proof. apply items_line_un. Qed.
Lemma il_un_rest bld xs : uninterrupted xs -> uninterrupted (snd (il bld xs)).
Proof. intros Hu. destruct (items_line_suffix bld xs []) as [pre Hp]. rewrite Hp in Hu. now apply un_suffix in Hu. Qed.

Lemma lines_sim k a b : a = b /\ uninterrupted a /\ length a <= k -> fst (il Std a) = fst (il NoStd b)
  /\ (snd (il Std a) = snd (il NoStd b) /\ uninterrupted (snd (il Std a)) /\ length (snd (il Std a)) <= k).
Proof.
  intros (<- & Hu & Hl). split; [now rewrite il_un|]. split; [now rewrite il_un|]. split; [now apply il_un_rest|].
  pose proof (items_line_length Std [] a). unfold il. lia.
Qed.

Lemma req_of_un xs : uninterrupted xs ->
  req_of Std xs = req_of NoStd xs /\ uninterrupted (snd (req_of Std xs)) /\ length (snd (req_of Std xs)) <= length xs.
Proof.
  intros Hu. rewrite <- !(req_fuel _ (S (length xs))) by lia.
  destruct (request_head_sim (il Std) (il NoStd) _ (lines_sim (length xs)) (S (length xs)) xs xs (conj eq_refl (conj Hu (le_n _))))
    as (r & a & b & -> & -> & <- & Ha). auto.
Qed.
Lemma resp_of_un xs : uninterrupted xs ->
  resp_of Std xs = resp_of NoStd xs /\ uninterrupted (snd (resp_of Std xs)) /\ length (snd (resp_of Std xs)) <= length xs.
Proof.
  intros Hu. rewrite <- !(resp_fuel _ (S (length xs))) by lia.
  destruct (response_head_sim (il Std) (il NoStd) _ (lines_sim (length xs)) (S (length xs)) xs xs (conj eq_refl (conj Hu (le_n _))))
    as (r & a & b & -> & -> & <- & Ha). auto.
Qed.

Lemma chunk_head_un xs : uninterrupted xs -> chunk_head Std xs = chunk_head NoStd xs.
Proof. intros Hu. unfold chunk_head, expect_next. now rewrite (items_line_un xs [] Hu). Qed.
Lemma chunk_head_rest bld xs : uninterrupted xs -> uninterrupted (snd (chunk_head bld xs)).
Proof.
  intros Hu. destruct (items_line_suffix bld xs []) as [pre Hp]. unfold chunk_head, expect_next.
  destruct (items_line bld [] xs) as [[[l|]| | |] ys]; cbn [fst snd sbind] in *; rewrite Hp in Hu; now apply un_suffix in Hu.
Qed.
Lemma items_exact_un xs : forall n acc, uninterrupted xs ->
  snd (items_exact Std n acc xs) = snd (items_exact NoStd n acc xs)
  /\ (fst (items_exact Std n acc xs) = fst (items_exact NoStd n acc xs)
      \/ (fst (items_exact Std n acc xs) = Err (io_eof Std) /\ fst (items_exact NoStd n acc xs) = Err (io_eof NoStd)))
  /\ uninterrupted (snd (items_exact Std n acc xs)).
Proof.
  induction xs as [|[b|e] xs IH]; intros n acc Hu; destruct n as [|n]; cbn [items_exact fst snd]; auto.
  - apply IH. now apply un_cons in Hu.
  - rewrite is_retry_un by (intros ->; apply Hu; now left). cbn [is_retry fst snd]. split; auto. split; auto. now apply un_cons in Hu.
Qed.

Lemma decodes_un o xs out rest : decodes Std o xs out rest -> uninterrupted xs ->
  length out <= length xs + 1 /\ exists out', decodes NoStd o xs out' rest /\ alike out out'.
Proof.
  induction 1 as [xs rest H|xs e rest H|xs n xs1 out rest H Hd IH|n b xs out rest Hn Hd IH|n e xs Hn|n Hn|xs x xs1 out rest H Hd IH|xs e xs1 H];
    intros Hu; cbn [length].
  - rewrite chunk_head_un in H by auto. split; [lia|]. eexists. split; [now apply d_last|constructor].
  - rewrite chunk_head_un in H by auto. split; [lia|]. eexists. split; [apply d_bad, H|]. repeat constructor.
  - pose proof (chunk_head_rest Std xs Hu) as Hu1. rewrite H in Hu1. cbn [snd] in Hu1. destruct (IH Hu1) as (Hl & out' & Hd' & Ha).
    pose proof (chunk_head_lt Std xs _ _ H). rewrite chunk_head_un in H by auto.
    split; [lia|]. exists out'. split; auto. now apply d_size with n xs1.
  - destruct (IH (un_cons _ _ Hu)) as (Hl & out' & Hd' & Ha). split; [lia|]. exists (B b :: out'). split; [now apply d_byte|now constructor].
  - split; [lia|]. eexists. split; [now apply d_fail|apply alike_refl].
  - split; [lia|]. eexists. split; [now apply d_eof|]. repeat constructor.
  - destruct (items_exact_un xs 2 [] Hu) as (E1 & E2 & Hu1). rewrite H in E1, E2, Hu1. cbn [fst snd] in *.
    destruct E2 as [E2|[E2 _]]; [|discriminate E2]. destruct (IH Hu1) as (Hl & out' & Hd' & Ha).
    assert (Hle : length xs1 <= length xs).
    { pose proof (items_exact_length Std 2 [] xs) as Hx. rewrite H in Hx. exact Hx. }
    split; [lia|]. exists out'. split; auto. apply d_sep with x xs1; auto. destruct (items_exact NoStd 2 [] xs); cbn in *. congruence.
  - destruct (items_exact_un xs 2 [] Hu) as (E1 & E2 & Hu1). rewrite H in E1, E2. cbn [fst snd] in *. split; [lia|].
    destruct (items_exact NoStd 2 [] xs) as [r ys] eqn:En. cbn [fst snd] in *. subst ys. destruct E2 as [<-|[E2 ->]].
    + eexists. split; [apply d_sepbad, En|apply alike_refl].
    + injection E2 as ->. eexists. split; [apply d_sepbad, En|]. repeat constructor.
Qed.

Lemma take_items_length n xs : length (take_items n xs) <= length xs.
Proof.
  revert n. induction xs as [|[b|e] xs IH]; intros n; cbn; destruct (n =? 0)%N; cbn; try lia;
    [specialize (IH (n - 1)%N)|specialize (IH n)]; lia.
Qed.

Lemma body_alike {T1 T2} (rd1 : reader T1) (rd2 : reader T2) t1 t2 xs enc len f1 f2 : uninterrupted xs ->
  delivers rd1 t1 xs -> delivers rd2 t2 xs -> length xs + 3 < f1 -> length xs + 3 < f2 ->
  exists o1 o2, delivers (body_read Std rd1 f1) (body_new enc len t1) o1 /\ delivers (body_read NoStd rd2 f2) (body_new enc len t2) o2
    /\ alike o1 o2 /\ length o1 <= length xs + 1.
Proof.
  intros Hu D1 D2 H1 H2. unfold body_new. destruct (match enc with Some e => _ | None => false end).
  - destruct (decodes_total Std None xs) as (out & rest & Hd). destruct (decodes_un _ _ _ _ Hd Hu) as (Hl & out' & Hd' & Ha).
    exists out, out'. split; [|split; [|split; auto]].
    + destruct (chunked_body_delivers Std rd1 t1 xs out rest f1 len D1 Hd H1) as (R & HR & HS & _). now exists R.
    + destruct (chunked_body_delivers NoStd rd2 t2 xs out' rest f2 len D2 Hd' H2) as (R & HR & HS & _). now exists R.
  - destruct len as [n|].
    + exists (take_items n xs), (take_items n xs). split; [now apply limited_delivers|]. split; [now apply limited_delivers|].
      split; [apply alike_refl|]. pose proof (take_items_length n xs). lia.
    + exists xs, xs. split; [now apply tilclose_delivers|]. split; [now apply tilclose_delivers|]. split; [apply alike_refl|lia].
Qed.

(** ** C83 *)
(** A request that the std build reads on one transport and the no_std build on another that delivers the same: both refuse it with the
    same error, or both read the same head, and from the bodies the same bytes and then both the end or both an error. *)
Theorem C83_request : forall T1 T2 (rd1 : reader T1) (rd2 : reader T2) t1 t2 xs f1 f2,
  uninterrupted xs -> delivers rd1 t1 xs -> delivers rd2 t2 xs -> length xs + 3 < f1 -> length xs + 3 < f2 ->
  let x1 := request_deserialize Std rd1 f1 t1 in let x2 := request_deserialize NoStd rd2 f2 t2 in
  (exists q1 q2, fst x1 = Ok q1 /\ fst x2 = Ok q2
     /\ rq_method q1 = rq_method q2 /\ rq_uri q1 = rq_uri q2 /\ rq_version q1 = rq_version q2 /\ rq_headers q1 = rq_headers q2
     /\ require_length (rq_body q1) = require_length (rq_body q2)
     /\ body_content_length (rq_body q1) = body_content_length (rq_body q2)
     /\ exists o1 o2, delivers (body_read Std rd1 f1) (rq_body q1) o1 /\ delivers (body_read NoStd rd2 f2) (rq_body q2) o2
          /\ alike o1 o2 /\ length o1 <= length xs + 1)
  \/ (exists e, fst x1 = Err e /\ fst x2 = Err e) \/ (fst x1 = Panic /\ fst x2 = Panic).
Proof.
  intros T1 T2 rd1 rd2 t1 t2 xs f1 f2 Hu D1 D2 H1 H2 x1 x2.
  destruct (req_of_un xs Hu) as (E & Hu' & Hlen).
  destruct (request_delivers Std rd1 t1 xs f1 D1 ltac:(lia)) as (u1 & R1 & E1).
  destruct (request_delivers NoStd rd2 t2 xs f2 D2 ltac:(lia)) as (u2 & R2 & E2).
  subst x1 x2. rewrite E1, E2. rewrite <- E in *. clear E1 E2. cbn [fst].
  pose proof (req_not_fuel Std xs) as Hnf.
  destruct (fst (req_of Std xs)) as [h|e| |]; cbn [rbind]; [left|right; left; eauto|right; right; auto|easy].
  exists (req_with h u1), (req_with h u2). do 6 (split; [reflexivity|]).
  assert (Hb : require_length (rq_body (req_with h u1)) = require_length (rq_body (req_with h u2))
    /\ body_content_length (rq_body (req_with h u1)) = body_content_length (rq_body (req_with h u2))).
  { cbn. unfold body_new. destruct (match qh_encoding h with Some e => _ | None => false end); auto. destruct (qh_length h); auto. }
  destruct Hb as [Hb1 Hb2]. split; auto. split; auto.
  destruct (body_alike rd1 rd2 u1 u2 _ (qh_encoding h) (qh_length h) f1 f2 Hu' R1 R2) as (o1 & o2 & A1 & A2 & A3 & A4); [lia|lia|].
  exists o1, o2. split; auto. split; auto. split; auto. lia.
Qed.
Print Assumptions C83_request.

(** The same for the response a client gets. *)
Theorem C83_response : forall T1 T2 (rd1 : reader T1) (rd2 : reader T2) t1 t2 xs f1 f2 cap1 cap2,
  uninterrupted xs -> delivers rd1 t1 xs -> delivers rd2 t2 xs -> length xs + 3 < f1 -> length xs + 3 < f2 -> 0 < cap1 -> 0 < cap2 ->
  let x1 := response_deserialize Std rd1 f1 t1 in let x2 := response_deserialize NoStd rd2 f2 t2 in
  (exists q1 q2, fst x1 = Ok q1 /\ fst x2 = Ok q2
     /\ rs_version q1 = rs_version q2 /\ rs_status q1 = rs_status q2 /\ rs_headers q1 = rs_headers q2
     /\ exists o1 o2, delivers (body_read Std (bufr_read Std cap1 rd1) f1) (rs_body q1) o1
          /\ delivers (body_read NoStd (bufr_read NoStd cap2 rd2) f2) (rs_body q2) o2 /\ alike o1 o2)
  \/ (exists e, fst x1 = Err e /\ fst x2 = Err e) \/ (fst x1 = Panic /\ fst x2 = Panic).
Proof.
  intros T1 T2 rd1 rd2 t1 t2 xs f1 f2 cap1 cap2 Hu D1 D2 H1 H2 C1 C2 x1 x2.
  destruct (resp_of_un xs Hu) as (E & Hu' & Hlen).
  destruct (response_delivers Std rd1 t1 xs f1 D1 ltac:(lia)) as (u1 & R1 & E1).
  destruct (response_delivers NoStd rd2 t2 xs f2 D2 ltac:(lia)) as (u2 & R2 & E2).
  subst x1 x2. rewrite E1, E2. rewrite <- E in *. clear E1 E2. cbn [fst].
  pose proof (resp_not_fuel Std xs) as Hnf.
  destruct (fst (resp_of Std xs)) as [h|e| |]; cbn [rbind]; [left|right; left; eauto|right; right; auto|easy].
  exists (resp_with h u1), (resp_with h u2). do 5 (split; [reflexivity|]).
  destruct (body_alike (bufr_read Std cap1 rd1) (bufr_read NoStd cap2 rd2) (bufr_new u1) (bufr_new u2) _ (sh_encoding h) (sh_length h) f1 f2 Hu')
    as (o1 & o2 & A1 & A2 & A3 & _); auto using bufr_delivers; try lia.
  exists o1, o2. auto.
Qed.
Print Assumptions C83_response.

(** A handler whose POST and PUT methods read the body to its end, or to its first error, with buffers of [n] bytes, and do not look at
    which error it is ([None]). *)
Definition reads_all {H} (h : handler H) (n : nat) (post put : bytes -> H -> option bytes -> hresult * H) : Prop :=
  0 < n
  /\ (forall u hs, h_post h u hs = slurp n (fun d => Ret (post u hs (Some d))) (fun _ => Ret (post u hs None)) [])
  /\ (forall u hs, h_put h u hs = slurp n (fun d => Ret (put u hs (Some d))) (fun _ => Ret (put u hs None)) []).

Fixpoint until (acc : bytes) (xs : list item) : option bytes :=
  match xs with
  | [] => Some acc
  | B b :: t => until (acc ++ [b]) t
  | Transport.E _ :: _ => None
  end.
Lemma until_app got : forall acc xs, until acc (map B got ++ xs) = until (acc ++ got) xs.
Proof. induction got as [|b got IH]; intros acc xs; cbn; [now rewrite app_nil_r|]. rewrite IH. now rewrite <- app_assoc. Qed.
Lemma until_alike xs ys : alike xs ys -> forall acc, until acc xs = until acc ys.
Proof. induction 1; intros acc; cbn; auto. Qed.
Lemma alike_length xs ys : alike xs ys -> length xs = length ys.
Proof. induction 1; cbn; auto. Qed.

Lemma slurp_run {A T} bld (rd : reader T) bfuel R n (f : option bytes -> A) : reader_pos (body_read bld rd bfuel) R -> 0 < n ->
  forall k xs, length xs <= k -> forall fuel b acc, R b xs -> length xs + 1 < fuel ->
  fst (run_prog bld rd bfuel fuel (slurp n (fun d => Ret (f (Some d))) (fun _ => Ret (f None)) acc) b) = Ok (f (until acc xs)).
Proof.
  intros HR Hn. induction k as [|k IH]; intros xs Hk fuel b acc Hb Hf; (destruct fuel as [|fuel]; [lia|]); rewrite slurp_eq; cbn [run_prog];
    pose proof (HR n b xs Hn Hb) as H; destruct xs as [|[x|e] xs]; try (cbn in Hk; lia).
  - destruct H as (s' & -> & _). destruct fuel as [|fuel]; [cbn in Hf; lia|]. reflexivity.
  - destruct H as (s' & -> & _). destruct fuel as [|fuel]; [cbn in Hf; lia|]. reflexivity.
  - destruct H as (got & xs' & s' & -> & Hg & _ & Ex & Hs). rewrite Ex, until_app.
    assert (Hl : length (B x :: xs) = length got + length xs') by (rewrite Ex, app_length, map_length; reflexivity).
    destruct got as [|g got]; [easy|]. cbn [length] in *. apply IH; auto; lia.
  - destruct H as (s' & -> & _). destruct fuel as [|fuel]; [cbn in Hf; lia|]. reflexivity.
Qed.

(** The server: for such handlers (the other methods may do anything) the two builds make the same calls, with the same effect on the
    handler's state and the same response. *)
Theorem C83_server : forall S1 S2 H (rd1 : reader S1) (rd2 : reader S2) cap1 cap2 text (hd : handler H) n post put f1 f2 hs s1 s2 xs,
  uninterrupted xs -> delivers rd1 s1 xs -> delivers rd2 s2 xs -> length xs + 3 < f1 -> length xs + 3 < f2 -> 0 < cap1 -> 0 < cap2 ->
  reads_all hd n post put ->
  exists r cs hs' u1 u2,
    serve_one_inner Std cap1 rd1 (fun e _ => text e) hd f1 hs s1 = (r, cs, hs', u1)
    /\ serve_one_inner NoStd cap2 rd2 (fun e _ => text e) hd f2 hs s2 = (r, cs, hs', u2).
Proof.
  intros S1 S2 H rd1 rd2 cap1 cap2 text hd n post put f1 f2 hs s1 s2 xs Hu D1 D2 H1 H2 C1 C2 (Hn & Hpost & Hput).
  pose proof (C83_request _ _ (bufr_read Std cap1 rd1) (bufr_read NoStd cap2 rd2) (bufr_new s1) (bufr_new s2) xs f1 f2 Hu
    (bufr_delivers Std cap1 rd1 s1 xs C1 D1) (bufr_delivers NoStd cap2 rd2 s2 xs C2 D2) H1 H2) as HQ.
  cbn zeta in HQ. unfold serve_one_inner.
  destruct (request_deserialize Std (bufr_read Std cap1 rd1) f1 (bufr_new s1)) as [r1 t1].
  destruct (request_deserialize NoStd (bufr_read NoStd cap2 rd2) f2 (bufr_new s2)) as [r2 t2]. cbn [fst] in HQ.
  destruct HQ as [(q1 & q2 & -> & -> & Em & Eu & _ & _ & Er & _ & o1 & o2 & (R1 & P1 & B1) & (R2 & P2 & B2) & Ha & Hl)|[(e & -> & ->)|[-> ->]]].
  - assert (Hbody : forall m f, exists r cs hs' u1 u2,
      body_call Std cap1 rd1 (fun e _ => text e) m (rq_uri q1) (slurp n (fun d => Ret (f (Some d))) (fun _ => Ret (f None)) []) (rq_body q1) hs f1 s1
        = (r, cs, hs', u1)
      /\ body_call NoStd cap2 rd2 (fun e _ => text e) m (rq_uri q1) (slurp n (fun d => Ret (f (Some d))) (fun _ => Ret (f None)) []) (rq_body q2) hs f2 s2
        = (r, cs, hs', u2)).
    { intros m f.
      pose proof (slurp_run Std (bufr_read Std cap1 rd1) f1 R1 n f P1 Hn (length o1) o1 (le_n _) f1 (rq_body q1) [] B1 ltac:(lia)) as X1.
      assert (Hl2 : length o2 + 1 < f2) by (rewrite <- (alike_length _ _ Ha); lia).
      pose proof (slurp_run NoStd (bufr_read NoStd cap2 rd2) f2 R2 n f P2 Hn (length o2) o2 (le_n _) f2 (rq_body q2) [] B2 Hl2) as X2.
      rewrite <- (until_alike _ _ Ha) in X2. unfold body_call. rewrite <- Er.
      destruct (run_prog Std _ f1 f1 _ (rq_body q1)) as [y1 b1]. destruct (run_prog NoStd _ f2 f2 _ (rq_body q2)) as [y2 b2].
      cbn [fst] in X1, X2. subst y1 y2.
      destruct (f (until [] o1)) as [r hs']. destruct (require_length (rq_body q1)); do 5 eexists; split; reflexivity. }
    rewrite <- Em, <- Eu. destruct (rq_method q1); try (do 5 eexists; split; reflexivity).
    + rewrite Hpost. apply Hbody.
    + rewrite Hput. apply Hbody.
  - do 5 eexists. split; reflexivity.
  - do 5 eexists. split; reflexivity.
Qed.
Print Assumptions C83_server.

(** So they send the same bytes, if writing works and the body of the response can be read. *)
Theorem C83_sent : forall S1 S2 H (rd1 : reader S1) (rd2 : reader S2) (wt1 : writer S1) (wt2 : writer S2) log1 log2 cap1 cap2 text
    (hd : handler H) n post put bufsz1 bufsz2 f1 f2 hs s1 s2 xs y r data cs hs' u1,
  uninterrupted xs -> delivers rd1 s1 xs -> delivers rd2 s2 xs -> length xs + 3 < f1 -> length xs + 3 < f2 -> 0 < cap1 -> 0 < cap2 ->
  reads_all hd n post put ->
  honest wt1 log1 -> reliable wt1 -> silent rd1 log1 -> honest wt2 log2 -> reliable wt2 -> silent rd2 log2 ->
  0 < bufsz1 <= f1 -> 0 < bufsz2 <= f2 ->
  serve_one_inner Std cap1 rd1 (fun e _ => text e) hd f1 hs s1 = (Ok y, cs, hs', u1) -> y = inl r \/ y = inr r ->
  (forall bld cap f, 0 < cap -> delivers (body_read bld (bufr_read bld cap dyn_read) f) (rs_body r) (map B data)) ->
  length (response_wire r data) < f1 -> length (response_wire r data) < f2 ->
  exists v1 v2,
    serve_stream Std cap1 rd1 wt1 (fun e _ => text e) hd bufsz1 f1 hs s1 = (Ok tt, cs, hs', v1)
    /\ serve_stream NoStd cap2 rd2 wt2 (fun e _ => text e) hd bufsz2 f2 hs s2 = (Ok tt, cs, hs', v2)
    /\ log1 v1 = log1 s1 ++ response_wire r data /\ log2 v2 = log2 s2 ++ response_wire r data.
Proof.
  intros S1 S2 H rd1 rd2 wt1 wt2 log1 log2 cap1 cap2 text hd n post put bufsz1 bufsz2 f1 f2 hs s1 s2 xs y r data cs hs' u1
    Hu D1 D2 F1 F2 C1 C2 Hr A1 A2 A3 A4 A5 A6 Z1 Z2 E1 Hy Hd L1 L2.
  destruct (C83_server _ _ _ rd1 rd2 cap1 cap2 text hd n post put f1 f2 hs s1 s2 xs Hu D1 D2 F1 F2 C1 C2 Hr) as (r0 & cs0 & hs0 & w1 & w2 & X1 & X2).
  rewrite E1 in X1. injection X1 as <- <- <- <-.
  assert (Hlen : length (response_wire r data) = length (response_wire r []) + length data).
  { unfold response_wire. rewrite !app_length. cbn [length]. lia. }
  destruct (C50_complete _ _ Std cap1 rd1 wt1 (fun e _ => text e) log1 hd bufsz1 f1 hs s1 y cs hs' u1 r (map B data) data) as (v1 & V1 & W1);
    auto using noisy_map; try lia; try (rewrite map_length; lia).
  destruct (C50_complete _ _ NoStd cap2 rd2 wt2 (fun e _ => text e) log2 hd bufsz2 f2 hs s2 y cs hs' w2 r (map B data) data) as (v2 & V2 & W2);
    auto using noisy_map; try lia; try (rewrite map_length; lia).
  exists v1, v2. auto.
Qed.
Print Assumptions C83_sent.

(** ** Example: a PUT whose second chunk has no size, in three portions for one build and in one for the other *)
Definition C83_wire : bytes :=
  bs "put /x HTTP/1.1" ++ CRLF ++ bs "transfer-encoding: chunked" ++ CRLF ++ CRLF ++ bs "3" ++ CRLF ++ bs "abc" ++ CRLF ++ bs "zz" ++ CRLF.
Definition portion (l : bytes) : list event := match l with [] => [] | b :: t => [Seg b t] end.
Definition C83_one : wire3 := ([], portion C83_wire).
Definition C83_three : wire3 := ([], portion (firstn 20 C83_wire) ++ portion (firstn 30 (skipn 20 C83_wire)) ++ portion (skipn 50 C83_wire)).

Lemma echo_reads_all : reads_all echo 2
  (fun u h o => match o with Some d => (Ok (inl (from_string OK d)), h ++ [d]) | None => (Ok (inr (from_string BadRequest (bs "?"))), h) end)
  (fun u h o => match o with Some d => (Ok (inl (from_string OK d)), h ++ [d]) | None => (Ok (inr (from_string BadRequest (bs "?"))), h) end).
Proof. split; [lia|]. split; reflexivity. Qed.

Example C83_case :
  exists v1 v2,
    serve_stream Std 8 wire3_read wire3_writer (fun _ _ => bs "went wrong") echo 4 200 [] C83_three = (Ok tt, [Called Put (bs "/x")], [], v1)
    /\ serve_stream NoStd 8 wire3_read wire3_writer (fun _ _ => bs "went wrong") echo 4 200 [] C83_one = (Ok tt, [Called Put (bs "/x")], [], v2)
    /\ fst v1 = reply (bs "400 Bad Request") (bs "?") /\ fst v2 = reply (bs "400 Bad Request") (bs "?").
Proof.
  pose proof (wire3_delivers [] (snd C83_three)) as D1. pose proof (wire3_delivers [] (snd C83_one)) as D2.
  assert (Ei : items_of (snd C83_three) = items_of (snd C83_one)) by reflexivity. rewrite Ei in D1.
  assert (E1 : exists u1, serve_one_inner Std 8 wire3_read (fun _ _ => bs "went wrong") echo 200 [] C83_three
    = (Ok (inr (from_string BadRequest (bs "?"))), [Called Put (bs "/x")], [], u1)) by (eexists; vm_compute; reflexivity).
  destruct E1 as [u1 E1].
  assert (Hu : uninterrupted (items_of (snd C83_one))).
  { intros Hin. vm_compute in Hin. repeat (destruct Hin as [Hin|Hin]; [discriminate Hin|]). exact Hin. }
  destruct (C83_sent wire3 wire3 (list bytes) wire3_read wire3_read wire3_writer wire3_writer fst fst 8 8 (fun _ => bs "went wrong") echo 2 _ _ 4 4 200 200
    [] C83_three C83_one _ _ (from_string BadRequest (bs "?")) (bs "?") _ _ u1 Hu D1 D2 ltac:(cbn; lia) ltac:(cbn; lia) ltac:(lia) ltac:(lia)
    echo_reads_all wire3_honest wire3_reliable wire3_silent wire3_honest wire3_reliable wire3_silent ltac:(lia) ltac:(lia) E1 (or_intror eq_refl)
    (fun bld cap f Hc => from_string_delivers bld cap f BadRequest (bs "?") Hc) ltac:(vm_compute; lia) ltac:(vm_compute; lia))
    as (v1 & v2 & V1 & V2 & W1 & W2).
  exists v1, v2. split; [exact V1|]. split; [exact V2|]. rewrite W1, W2. split; reflexivity.
Qed.

(** A read that a signal interrupts: std reads on, no_std answers with an error. *)
Theorem C83_interrupted_refuted : ~ (forall evs : list event,
  snd (fst (fst (serve_one_inner Std 8 wire3_read (fun _ _ => bs "went wrong") echo 200 [] ([], evs))))
  = snd (fst (fst (serve_one_inner NoStd 8 wire3_read (fun _ _ => bs "went wrong") echo 200 [] ([], evs))))).
Proof.
  intros H. specialize (H (portion (firstn 20 C83_wire) ++ Fail (IoError Interrupted) :: portion (skipn 20 C83_wire))). vm_compute in H.
  discriminate H.
Qed.
Print Assumptions C83_interrupted_refuted.

(** A handler that does look at the error of the body: one that takes a failure of the transport for a reason to close the connection
    without an answer, and answers everything else. *)
Definition picky : handler unit :=
  let bodyful (u : bytes) (h : unit) :=
    slurp 2 (fun d => Ret (Ok (inl (from_string OK d)), h))
      (fun e => match e with IoError _ => Ret (Err e, h) | _ => Ret (Ok (inr (from_string BadRequest (bs "bad chunk"))), h) end) [] in
  let plain (u : bytes) (h : unit) := (Ok (inl (from_string OK u)), h) in
  mkHandler plain plain plain plain plain bodyful bodyful.

Theorem C83_any_handler_refuted : ~ (forall H (hd : handler H) hs xs (s : wire3) fuel, delivers wire3_read s xs -> uninterrupted xs -> length xs + 3 < fuel ->
  fst (fst (fst (serve_one_inner Std 8 wire3_read (fun _ _ => bs "went wrong") hd fuel hs s)))
  = fst (fst (fst (serve_one_inner NoStd 8 wire3_read (fun _ _ => bs "went wrong") hd fuel hs s)))).
Proof.
  intros H. specialize (H unit picky tt (items_of (snd C83_one)) C83_one 200 (wire3_delivers [] (snd C83_one))).
  assert (Hu : uninterrupted (items_of (snd C83_one))).
  { intros Hin. vm_compute in Hin. repeat (destruct Hin as [Hin|Hin]; [discriminate Hin|]). exact Hin. }
  specialize (H Hu ltac:(cbn; lia)). vm_compute in H. discriminate H.
Qed.
Print Assumptions C83_any_handler_refuted.

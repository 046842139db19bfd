(** Property C56: where errors come from. *)
From Verif Require Import Base Utf8 Case Num Io Parser Types Message Outgoing Client Server Transport Lemmas SimLemmas KeepLemmas ErrLemmas POut PServer PFlush.

(** ** C56. Where errors come from *)
(** The states a reader gets into, starting from [s0], and the errors it returns there. *)
Inductive read_on {T} (rd : reader T) (s0 : T) : T -> Prop :=
| read_here : read_on rd s0 s0
| read_more n s : read_on rd s0 s -> read_on rd s0 (snd (rd n s)).
Definition read_error {T} (rd : reader T) (s0 : T) (e : error) : Prop :=
  exists s n s', read_on rd s0 s /\ rd n s = (Err e, s').

(** The same for a stream that is read, written and flushed. *)
Inductive used {S} (rd : reader S) (wt : writer S) (s0 : S) : S -> Prop :=
| used_here : used rd wt s0 s0
| used_read n s : used rd wt s0 s -> used rd wt s0 (snd (rd n s))
| used_write d s : used rd wt s0 s -> used rd wt s0 (snd (wr wt d s))
| used_flush s : used rd wt s0 s -> used rd wt s0 (snd (fl wt s)).
Inductive stream_error {S} (rd : reader S) (wt : writer S) (s0 : S) (e : error) : Prop :=
| on_read n s s' : used rd wt s0 s -> rd n s = (Err e, s') -> stream_error rd wt s0 e
| on_write d s s' : used rd wt s0 s -> wr wt d s = (Err e, s') -> stream_error rd wt s0 e
| on_flush s s' : used rd wt s0 s -> fl wt s = (Err e, s') -> stream_error rd wt s0 e.

Lemma used_kept {S} (rd : reader S) (wt : writer S) s0 : kept rd wt (used rd wt s0).
Proof. split; intros; now constructor. Qed.

(** A reader restricted to the states satisfying [I]. *)
Definition guard {T} (rd : reader T) (I : T -> Prop) (HI : forall n s, I s -> I (snd (rd n s))) : reader {s | I s} :=
  fun n x => (fst (rd n (proj1_sig x)), exist _ (snd (rd n (proj1_sig x))) (HI n _ (proj2_sig x))).
Lemma guard_sim {T} (rd : reader T) I HI : sim (fun s (x : {s | I s}) => s = proj1_sig x) rd (guard rd I HI).
Proof. intros n s x ->. split; reflexivity. Qed.

Section Guarded.
  Context {T : Type} (P : error -> Prop) (bld : build) (rd : reader T) (I : T -> Prop).
  Context (HI : forall n s, I s -> I (snd (rd n s))) (Hrd : forall n s, I s -> errs P (fst (rd n s))).
  Let Q (s : T) (x : {s | I s}) := s = proj1_sig x.
  Let HQ : sim Q rd (guard rd I HI) := guard_sim rd I HI.

  Lemma guard_errs n x : errs P (fst (guard rd I HI n x)).
  Proof. destruct x as [s Hs]. cbn. now apply Hrd. Qed.
  Lemma guarded_request (HP : forall e, syntax_error e -> P e) fuel s : I s -> errs P (fst (request_deserialize bld rd fuel s)).
  Proof.
    intros Hs. pose proof (request_errs P HP bld (guard rd I HI) guard_errs fuel (exist _ s Hs)) as H.
    unfold request_deserialize in *.
    pose proof (request_head_alike Q (crlf_next bld rd fuel) (crlf_next bld (guard rd I HI) fuel)
      (fun a b h => crlf_sim bld Q rd (guard rd I HI) HQ fuel [] a b h) fuel s (exist _ s Hs) eq_refl) as [Ho _].
    destruct (request_head (crlf_next bld rd fuel) fuel s) as [r1 t1], (request_head (crlf_next bld (guard rd I HI) fuel) fuel _) as [r2 t2].
    cbn [fst] in Ho. subst r2. destruct r1; cbn [sbind fst] in *; try easy. eapply errs_same; eassumption.
  Qed.
  Lemma guarded_response (HP : forall e, syntax_error e -> P e) fuel s : I s -> errs P (fst (response_deserialize bld rd fuel s)).
  Proof.
    intros Hs. pose proof (response_errs P HP bld (guard rd I HI) guard_errs fuel (exist _ s Hs)) as H.
    unfold response_deserialize in *.
    pose proof (response_head_alike Q (crlf_next bld rd fuel) (crlf_next bld (guard rd I HI) fuel)
      (fun a b h => crlf_sim bld Q rd (guard rd I HI) HQ fuel [] a b h) fuel s (exist _ s Hs) eq_refl) as [Ho _].
    destruct (response_head (crlf_next bld rd fuel) fuel s) as [r1 t1], (response_head (crlf_next bld (guard rd I HI) fuel) fuel _) as [r2 t2].
    cbn [fst] in Ho. subst r2. destruct r1; cbn [sbind fst] in *; try easy. eapply errs_same; eassumption.
  Qed.
End Guarded.

Lemma read_on_kept {T} (rd : reader T) s0 n s : read_on rd s0 s -> read_on rd s0 (snd (rd n s)).
Proof. now constructor. Qed.
Lemma read_error_errs {T} (rd : reader T) s0 (P : error -> Prop) : (forall e, read_error rd s0 e -> P e) ->
  forall n s, read_on rd s0 s -> errs P (fst (rd n s)).
Proof. intros H n s Hs e He. apply H. destruct (rd n s) as [r s'] eqn:E. cbn in He. subst. now exists s, n, s'. Qed.

(** The errors of the crate that say the input does not parse. *)
Definition parsing_error (e : error) : Prop := In e [ParseError; Utf8Error; UnexpectedEof] \/ exists k, e = ParseIntError k.
Lemma parsing_syntax e : syntax_error e -> parsing_error e.
Proof. destruct e; cbn; try easy; unfold parsing_error; cbn; eauto 6. Qed.

(** A request or response that cannot be parsed is reported with one of these errors, unless the
    transport failed while it was being read: then with the transport's error. *)
Theorem C56_request : forall T bld (rd : reader T) fuel t e t',
  request_deserialize bld rd fuel t = (Err e, t') -> parsing_error e \/ read_error rd t e.
Proof.
  intros T bld rd fuel t e t' H.
  refine (guarded_request (fun e => parsing_error e \/ read_error rd t e) bld rd (read_on rd t) (read_on_kept rd t) _ _ fuel t _ e _).
  - apply read_error_errs. auto.
  - intros x Hx. left. now apply parsing_syntax.
  - constructor.
  - now rewrite H.
Qed.
Print Assumptions C56_request.

Theorem C56_response : forall T bld (rd : reader T) fuel t e t',
  response_deserialize bld rd fuel t = (Err e, t') -> parsing_error e \/ read_error rd t e.
Proof.
  intros T bld rd fuel t e t' H.
  refine (guarded_response (fun e => parsing_error e \/ read_error rd t e) bld rd (read_on rd t) (read_on_kept rd t) _ _ fuel t _ e _).
  - apply read_error_errs. auto.
  - intros x Hx. left. now apply parsing_syntax.
  - constructor.
  - now rewrite H.
Qed.
Print Assumptions C56_response.

(** Reading a body fails with the transport's error, with an unexpected end of file, or, for a malformed chunk size,
    with the parser's error (in the std build wrapped into an [io::Error] of kind Other). *)
Definition body_error (bld : build) (from : error -> Prop) (e : error) : Prop :=
  from e \/ e = io_eof bld \/ match bld with Std => e = IoError (KOther 0) | NoStd => parsing_error e end.

Lemma body_error_errs {T} bld (rd : reader T) (F : error -> Prop) (HF : forall n s, errs F (fst (rd n s))) fuel n b :
  errs (body_error bld F) (fst (body_read bld rd fuel n b)).
Proof.
  set (Q := fun e => parsing_error e \/ F e). set (P := body_error bld F).
  assert (HQ : forall e, syntax_error e -> Q e) by (intros x Hx; left; now apply parsing_syntax).
  assert (HrQ : forall n s, errs Q (fst (rd n s))) by (intros k s e He; right; now apply (HF k s)).
  assert (HrP : forall n s, errs P (fst (rd n s))) by (intros k s e He; left; now apply (HF k s)).
  assert (Hio : forall e, Q e -> P (to_io bld e)).
  { unfold Q, P, body_error. intros x Hx. destruct bld; cbn [to_io]; [auto|]. destruct Hx as [Hx|Hx]; auto. }
  assert (Heof : P (io_eof bld)) by (unfold P, body_error; auto).
  assert (Hc : forall fuel n c, errs P (fst (chunked_read bld rd fuel n c))).
  { clear - HQ HrQ HrP Hio Heof. induction fuel as [|f IH]; intros n c; cbn [chunked_read]; [easy|]. destruct c as [t|l t|t]; [| |easy].
    - assert (H : errs Q (fst (chunk_new bld rd (S f) t))).
      { unfold chunk_new. apply errs_sbind; [apply expect_next_errs; auto; intros; now apply crlf_errs|]. intros.
        apply errs_rbind; [now apply from_str_radix_errs|easy]. }
      destruct (chunk_new bld rd (S f) t) as [[[z|]|e| |] t1]; try easy. apply errs_err, Hio. now apply H.
    - pose proof (take_errs P rd HrP n (l, t)) as H. destruct (take_read rd n (l, t)) as [[[|b g]|e| |] [l1 t1]]; try easy.
      pose proof (read_exact_errs P bld rd HrP Heof (S f) 2 [] t1) as H2.
      destruct (read_exact bld rd (S f) 2 [] t1) as [[x|e| |] t2]; try easy. }
  destruct b as [l c|l t|t]; cbn [body_read].
  - pose proof (Hc fuel n c) as K. now destruct (chunked_read bld rd fuel n c).
  - pose proof (take_errs P rd HrP n (l, t)) as K. now destruct (take_read rd n (l, t)) as [x [l' t']].
  - pose proof (HrP n t) as K. now destruct (rd n t).
Qed.

Theorem C56_body : forall T bld (rd : reader T) fuel n b e b', body_read bld rd fuel n b = (Err e, b') ->
  body_error bld (read_error rd (body_reader b)) e.
Proof.
  intros T bld rd fuel n b e b' H. set (t := body_reader b). set (I := read_on rd t).
  pose (g := guard rd I (read_on_kept rd t)). pose (x0 := exist I t (read_here rd t)).
  pose (b2 := match b with
    | BChunked l c => BChunked l (match c with CStream _ => CStream x0 | CChunk k _ => CChunk k x0 | CDone _ => CDone x0 end)
    | BLimited l _ => BLimited l x0
    | BTilClose _ => BTilClose x0
    end).
  assert (Hs : hb_sim (fun s (x : {s | I s}) => s = proj1_sig x) b b2).
  { subst b2 x0 t. destruct b as [l c|l s|s]; cbn; auto. destruct c; cbn; auto. }
  pose proof (body_sim bld _ rd g (guard_sim rd I _) fuel n b b2 Hs) as [Ho _]. rewrite H in Ho. cbn [fst] in Ho.
  apply (body_error_errs bld g (read_error rd t)) with (fuel := fuel) (n := n) (b := b2); [|now symmetry].
  apply guard_errs. apply read_error_errs. auto.
Qed.
Print Assumptions C56_body.

(** *** Writing *)
Lemma errs_sbind_eq {A B St} (P : error -> Prop) (m : res A * St) (k : A -> St -> res B * St) :
  errs P (fst m) -> (forall a, fst m = Ok a -> errs P (fst (k a (snd m)))) -> errs P (fst (sbind m k)).
Proof. destruct m as [[a|e| |] s]; cbn; auto; try easy. intros H _. exact (errs_same P e H). Qed.

Section Writers.
  Context {S : Type} (P : error -> Prop) (bld : build) (cap : nat) (rd : reader S) (wt : writer S) (I : S -> Prop) (HI : kept rd wt I).
  Context (Hwr : forall d s, I s -> errs P (fst (wr wt d s))) (Hfl : forall s, I s -> errs P (fst (fl wt s))).
  Context (Hz : P (io_write_zero bld)).

  Lemma write_all_errs : forall fuel d s, I s -> errs P (fst (write_all bld wt fuel d s)).
  Proof using Hwr HI Hz.
    induction fuel as [|f IH]; intros d s Hs; destruct d as [|x d]; cbn [write_all]; try easy.
    pose proof (Hwr (x :: d) s Hs) as H. pose proof (kept_write _ _ _ HI (x :: d) s Hs) as Hk.
    destruct (wr wt (x :: d) s) as [[[|k]|e| |] s']; cbn [snd] in Hk; try easy.
    - now apply errs_err.
    - destruct (_ <=? _); [now apply IH|easy].
    - destruct (is_retry bld e); [now apply IH|]. eapply errs_same; eassumption.
  Qed.
  Lemma write_pieces_errs fuel : forall ps s, I s -> errs P (fst (write_pieces bld wt fuel ps s)).
  Proof using Hwr HI Hz.
    induction ps as [|p ps IH]; intros s Hs; cbn [write_pieces]; [easy|]. apply errs_sbind_eq; [now apply write_all_errs|].
    intros. apply IH. now apply (write_all_keep bld rd wt I HI).
  Qed.
  Lemma flush_buf_errs (Hzs : P (IoError KWriteZero)) : forall fuel b, I (bw_inner b) -> errs P (fst (flush_buf wt fuel b)).
  Proof using Hwr HI.
    induction fuel as [|f IH]; intros [w d] Hs; destruct d as [|x d]; cbn [flush_buf bw_buf bw_inner] in *; try easy.
    pose proof (Hwr (x :: d) w Hs) as H. pose proof (kept_write _ _ _ HI (x :: d) w Hs) as Hk.
    destruct (wr wt (x :: d) w) as [[[|k]|e| |] w']; cbn [snd] in Hk; try easy.
    - now apply errs_err.
    - now apply IH.
    - destruct (is_retry Std e); [now apply IH|]. eapply errs_same; eassumption.
  Qed.
End Writers.

Section Buffered.
  Context {S : Type} (P : error -> Prop) (bld : build) (cap : nat) (rd : reader S) (wt : writer S) (I : S -> Prop) (HI : kept rd wt I).
  Context (Hwr : forall d s, I s -> errs P (fst (wr wt d s))) (Hfl : forall s, I s -> errs P (fst (fl wt s))).
  Context (Hz : P (io_write_zero bld)) (Ho : bld = Std -> P (IoError (KOther 0))).

  Lemma bufw_write_all_errs fuel d b : I (bw_inner b) -> errs P (fst (bufw_write_all bld cap wt fuel d b)).
  Proof using Hwr HI Hz.
    clear Ho. intros Hs. unfold bufw_write_all. pose proof (write_all_errs P bld rd wt I HI Hwr Hz fuel d) as Ha. destruct bld.
    - destruct (_ <? _); [easy|].
      assert (Hf : errs P (fst (if cap - length (bw_buf b) <? length d then flush_buf wt fuel b else (Ok tt, b)))
        /\ I (bw_inner (snd (if cap - length (bw_buf b) <? length d then flush_buf wt fuel b else (Ok tt, b))))).
      { destruct (_ <? _); [|now split]. split; [now apply (flush_buf_errs P rd wt I HI Hwr)|now apply (flush_buf_keep rd wt I HI)]. }
      destruct Hf as [Hf1 Hf2]. apply errs_sbind_eq; [exact Hf1|]. intros u _. destruct (_ <=? _); [|easy]. apply Ha in Hf2.
      now destruct (write_all Std wt fuel d _).
    - apply Ha in Hs. now destruct (write_all NoStd wt fuel d (bw_inner b)).
  Qed.
  Lemma bufw_pieces_errs fuel : forall ps b, I (bw_inner b) -> errs P (fst (bufw_pieces bld cap wt fuel ps b)).
  Proof using Hwr HI Hz.
    induction ps as [|p ps IH]; intros b Hs; cbn [bufw_pieces]; [easy|]. apply errs_sbind_eq; [now apply bufw_write_all_errs|].
    intros. apply IH. now apply (bufw_write_all_keep bld cap rd wt I HI).
  Qed.
  Lemma bufw_flush_errs fuel b : I (bw_inner b) -> errs P (fst (bufw_flush bld wt fuel b)).
  Proof using Hwr HI Hz Hfl.
    clear Ho. intros Hs. unfold bufw_flush.
    assert (Hf : errs P (fst (match bld with Std => flush_buf wt fuel b | NoStd => (Ok tt, b) end))
      /\ I (bw_inner (snd (match bld with Std => flush_buf wt fuel b | NoStd => (Ok tt, b) end)))).
    { destruct bld; [|now split]. split; [now apply (flush_buf_errs P rd wt I HI Hwr)|now apply (flush_buf_keep rd wt I HI)]. }
    destruct Hf as [Hf1 Hf2]. apply errs_sbind_eq; [exact Hf1|]. intros u _. apply Hfl in Hf2. now destruct (fl wt _).
  Qed.
  Lemma bufw_into_inner_errs fuel b : errs P (fst (bufw_into_inner bld wt fuel b)).
  Proof using Ho.
    clear Hz. unfold bufw_into_inner. destruct bld; [|easy]. destruct (flush_buf wt fuel b) as [[u|e| |] b']; try easy. now apply errs_err, Ho.
  Qed.
  Lemma fail_drop_errs {A} fuel r b : errs P r -> errs P (fst (@fail_drop S bld wt A fuel r b)).
  Proof. intros H. destruct r; try easy. cbn. eapply errs_same; eassumption. Qed.
  Lemma request_serialize_errs {B} fuel (r : request B) b : I (bw_inner b) -> errs P (fst (request_serialize bld cap wt fuel r b)).
  Proof using Hwr HI Hz Ho.
    intros Hs. unfold request_serialize. pose proof (bufw_pieces_errs fuel (request_pieces r) b Hs) as H.
    destruct (bufw_pieces bld cap wt fuel (request_pieces r) b) as [[u|e| |] b1]; try (now apply fail_drop_errs).
    destruct (has_body _); [easy|]. pose proof (bufw_into_inner_errs fuel b1) as H2.
    destruct (bufw_into_inner bld wt fuel b1) as [[v|e| |] b2]; try easy; now apply fail_drop_errs.
  Qed.
  Lemma outgoing_write_errs (Hb : P (match bld with Std => IoError KInvalidInput | NoStd => EOther end)) fuel d o :
    I (out_sock o) -> errs P (fst (outgoing_write bld cap wt fuel d o)).
  Proof using Hwr HI Hz.
    intros Hs. destruct o as [s|b]; cbn [outgoing_write]; [now apply errs_err|].
    assert (H : errs P (fst (outbody_write bld cap wt fuel d b))).
    { unfold outbody_write. destruct d as [|x d]; [easy|]. apply errs_sbind_eq; [now apply bufw_pieces_errs|]. intros u _.
      apply (bufw_pieces_keep bld cap rd wt I HI fuel [show_hex (N.of_nat (length (x :: d))); CRLF]) in Hs.
      apply errs_sbind_eq; [now apply bufw_write_all_errs|]. intros u2 _.
      apply (bufw_write_all_keep bld cap rd wt I HI fuel (x :: d)) in Hs.
      apply errs_sbind_eq; [now apply bufw_pieces_errs|easy]. }
    now destruct (outbody_write bld cap wt fuel d b).
  Qed.
  Lemma outgoing_flush_errs fuel o : I (out_sock o) -> errs P (fst (outgoing_flush bld wt fuel o)).
  Proof using Hwr HI Hz Hfl.
    intros Hs. destruct o as [s|b]; cbn [outgoing_flush]; [easy|]. pose proof (bufw_flush_errs fuel b Hs) as H.
    now destruct (bufw_flush bld wt fuel b).
  Qed.
  Lemma finish_send_errs fuel o : I (out_sock o) -> errs P (fst (finish_send bld cap wt fuel o)).
  Proof using Hwr HI Hz Ho Hfl.
    intros Hs. destruct o as [s|b]; cbn [finish_send]; [now apply Hfl|]. change (I (bw_inner b)) in Hs.
    pose proof (bufw_pieces_errs fuel [bs "0" ++ CRLF ++ CRLF] b Hs) as H.
    apply (bufw_pieces_keep bld cap rd wt I HI fuel [bs "0" ++ CRLF ++ CRLF]) in Hs.
    destruct (bufw_pieces bld cap wt fuel [bs "0" ++ CRLF ++ CRLF] b) as [[u|e| |] b1]; cbn [snd] in Hs; try (now apply fail_drop_errs).
    pose proof (bufw_flush_errs fuel b1 Hs) as H1. destruct (bufw_flush bld wt fuel b1) as [[u1|e| |] b2]; try (now apply fail_drop_errs).
    pose proof (bufw_into_inner_errs fuel b2) as H2. destruct (bufw_into_inner bld wt fuel b2) as [[u2|e| |] b3]; try easy; now apply fail_drop_errs.
  Qed.
End Buffered.

Lemma copy_with_errs {T W} (P : error -> Prop) bld (rd : reader T) (wall : bytes -> W -> res unit * W) bufsz (I : T -> Prop) (J : W -> Prop) :
  (forall n s, I s -> I (snd (rd n s))) -> (forall n s, I s -> errs P (fst (rd n s))) ->
  (forall d w, J w -> J (snd (wall d w))) -> (forall d w, J w -> errs P (fst (wall d w))) ->
  forall fuel n s w, I s -> J w -> errs P (fst (copy_with bld rd wall bufsz fuel n s w)) /\ J (snd (snd (copy_with bld rd wall bufsz fuel n s w))).
Proof.
  intros Hk Hr Hj Ha. induction fuel as [|f IH]; intros n s w Hs Hw; cbn [copy_with]; [now split|].
  pose proof (Hr bufsz s Hs) as H. pose proof (Hk bufsz s Hs) as Hs'. destruct (rd bufsz s) as [[[|x g]|e| |] s']; cbn [snd] in Hs'; try now split.
  - pose proof (Ha (x :: g) w Hw) as H1. pose proof (Hj (x :: g) w Hw) as Hw'.
    destruct (wall (x :: g) w) as [[u|e| |] w']; cbn [snd] in Hw'; try now split; cbn [fst snd].
    + now apply IH.
    + split; [eapply errs_same; eassumption|exact Hw'].
  - destruct (is_retry bld e); [now apply IH|]. split; [eapply errs_same; eassumption|exact Hw].
Qed.

(** An exchange fails with: an error the caller's body reader or the stream returned during it, a write of zero
    bytes, a status other than 200, a response that does not parse, a body offered to a method without one; or, in the
    std build, an [io::Error] of kind Other (what [BufWriter::into_inner]'s failure is turned into). *)
Definition exchange_error {S Bd} bld (rd : reader S) (wt : writer S) (rdb : reader Bd) (body : Bd) (s : S) (e : error) : Prop :=
  read_error rdb body e \/ stream_error rd wt s e \/ e = io_write_zero bld
  \/ (exists st, e = UnexpectedStatus st /\ st <> OK) \/ parsing_error e
  \/ e = (match bld with Std => IoError KInvalidInput | NoStd => EOther end)
  \/ (bld = Std /\ e = IoError (KOther 0)).

Theorem C56_exchange : forall S Bd bld cap (rd : reader S) (wt : writer S) bufsz (rdb : reader Bd) fuel r body s e s',
  exchange bld cap rd wt bufsz rdb fuel r body s = (Err e, s') -> exchange_error bld rd wt rdb body s e.
Proof.
  intros S Bd bld cap rd wt bufsz rdb fuel r body s e s' H. set (P := exchange_error bld rd wt rdb body s).
  set (I := used rd wt s). pose proof (used_kept rd wt s : kept rd wt I) as HI.
  assert (Hwr : forall d x, I x -> errs P (fst (wr wt d x))).
  { intros d x Hx e0 He. right; left. destruct (wr wt d x) as [y x'] eqn:E. cbn in He. subst y. now apply (on_write rd wt s e0 d x x'). }
  assert (Hfl : forall x, I x -> errs P (fst (fl wt x))).
  { intros x Hx e0 He. right; left. destruct (fl wt x) as [y x'] eqn:E. cbn in He. subst y. now apply (on_flush rd wt s e0 x x'). }
  assert (Hrd : forall n x, I x -> errs P (fst (rd n x))).
  { intros n x Hx e0 He. right; left. destruct (rd n x) as [y x'] eqn:E. cbn in He. subst y. now apply (on_read rd wt s e0 n x x'). }
  assert (Hz : P (io_write_zero bld)) by (unfold P, exchange_error; auto).
  assert (Ho : bld = Std -> P (IoError (KOther 0))) by (unfold P, exchange_error; auto 12).
  assert (Hb : P (match bld with Std => IoError KInvalidInput | NoStd => EOther end)) by (unfold P, exchange_error; auto 12).
  change (P e). unfold exchange, send in H.
  assert (Hs0 : I (bw_inner (bufw_new s))) by constructor.
  pose proof (request_serialize_errs P bld cap rd wt I HI Hwr Hz Ho fuel r (bufw_new s) Hs0) as E1.
  destruct (request_serialize_keep bld cap rd wt I HI fuel r (bufw_new s) Hs0) as [_ K1].
  destruct (request_serialize bld cap wt fuel r (bufw_new s)) as [[o|x| |] s1]; cbn [sbind] in H; try easy.
  2: { injection H as <- <-. now apply E1. }
  specialize (K1 o eq_refl).
  set (ow := outgoing_writer bld cap wt fuel) in *.
  assert (HJ : kept (fun _ x => (Ok [], x)) ow (okeep I)).
  { split; cbn [ow outgoing_writer wr fl]; intros; [assumption|now apply (outgoing_write_keep bld cap rd wt I HI)|now apply (outgoing_flush_keep bld rd wt I HI)]. }
  destruct (copy_with_errs P bld rdb (write_all bld ow fuel) bufsz (read_on rdb body) (okeep I) (read_on_kept rdb body)
    ltac:(apply read_error_errs; left; assumption)
    (fun d w h => write_all_keep bld _ ow (okeep I) HJ fuel d w h)
    (fun d w h => write_all_errs P bld _ ow (okeep I) HJ
       (fun d' x hx => outgoing_write_errs P bld cap rd wt I HI Hwr Hz Hb fuel d' x hx) Hz fuel d w h)
    fuel 0%N body o (read_here rdb body) K1) as [E2 K2].
  unfold copy in H. destruct (copy_with bld rdb (write_all bld ow fuel) bufsz fuel 0%N body o) as [[n|x| |] [b o1]]; try easy.
  2: { injection H as <- <-. now apply E2. }
  cbn [snd] in K2. unfold finish in H. pose proof (finish_send_errs P bld cap rd wt I HI Hwr Hfl Hz Ho fuel o1 K2) as E3.
  apply (finish_send_keep bld cap rd wt I HI fuel) in K2.
  destruct (finish_send bld cap wt fuel o1) as [[u|x| |] s2]; cbn [sbind] in H; try easy.
  2: { injection H as <- <-. now apply E3. }
  cbn [snd] in K2.
  assert (E4 : errs P (fst (response_deserialize bld rd fuel s2))).
  { apply (guarded_response P bld rd I (kept_read _ _ _ HI) Hrd); [|exact K2]. intros y Hy. apply parsing_syntax in Hy. unfold P, exchange_error. auto 8. }
  destruct (response_deserialize bld rd fuel s2) as [[q|x| |] s3]; cbn [sbind] in H; try easy.
  - unfold P, exchange_error. do 3 right. left. destruct (rs_status q); try discriminate H; injection H as <- <-; eexists; (split; [reflexivity|easy]).
  - injection H as <- <-. now apply E4.
Qed.
Print Assumptions C56_exchange.

(** Serving a connection fails only because writing the response did, or reading the response's own body: what the
    client sent never shows up as an error of [serve_one] (it is answered instead). A handler method's result is a
    response, so [responds] says that it is not an error of the model's result type. *)
Definition responds {H} (hd : handler H) : Prop :=
  (forall m f u h e, plain_method hd m = Some f -> fst (f u h) <> Err e)
  /\ (forall m f u h, body_method hd m = Some f ->
        forall T bld (rd : reader T) bf fuel b e h', fst (run_prog bld rd bf fuel (f u h) b) <> Ok (Err e, h')).

Lemma run_prog_no_err {A T} bld (rd : reader T) bf : forall f (p : prog A) b e, fst (run_prog bld rd bf f p b) <> Err e.
Proof.
  induction f as [|f IH]; intros p b e; cbn [run_prog]; [easy|]. destruct p as [a|n k|k]; [easy| |apply IH].
  destruct (body_read bld rd bf n b) as [[g|x| |] b']; try easy; apply IH.
Qed.

Definition answered_with {S H} bld cap (rd : reader S) etext (hd : handler H) fuel hs s (q : dyn_response) : Prop :=
  exists cs hs1 s1, serve_one_inner bld cap rd etext hd fuel hs s = (Ok (inl q), cs, hs1, s1)
    \/ serve_one_inner bld cap rd etext hd fuel hs s = (Ok (inr q), cs, hs1, s1).

Lemma respond_errs {S} bld cap (rd : reader S) (wt : writer S) bufsz fuel q s0 s1 : used rd wt s0 s1 ->
  errs (fun e => e = io_write_zero bld \/ stream_error rd wt s0 e
     \/ (exists e', e = to_io bld e' /\ (e' = io_write_zero bld \/ stream_error rd wt s0 e'))
     \/ read_error (body_read bld (bufr_read bld cap dyn_read) fuel) (rs_body q) e)
   (fst (respond bld cap wt bufsz fuel q s1)).
Proof.
  intros Hs. unfold respond. set (I := used rd wt s0). pose proof (used_kept rd wt s0 : kept rd wt I) as HI.
  set (F := fun e => e = io_write_zero bld \/ stream_error rd wt s0 e).
  assert (Hwr : forall d x, I x -> errs F (fst (wr wt d x))).
  { intros d x Hx e0 He. right. destruct (wr wt d x) as [y x'] eqn:E. cbn in He. subst y. now apply (on_write rd wt s0 e0 d x x'). }
  assert (Hz : F (io_write_zero bld)) by now left.
  pose proof (write_pieces_errs F bld rd wt I HI Hwr Hz fuel (response_pieces q) s1 Hs) as E1.
  assert (K1 : forall ps x, I x -> I (snd (write_pieces bld wt fuel ps x))).
  { clear - HI. induction ps as [|p ps IH]; intros x Hx; cbn [write_pieces]; [exact Hx|].
    apply (write_all_keep bld rd wt I HI fuel p) in Hx. destruct (write_all bld wt fuel p x) as [[u|e| |] x']; cbn [sbind snd] in *; auto. }
  specialize (K1 (response_pieces q) s1 Hs).
  destruct (write_pieces bld wt fuel (response_pieces q) s1) as [[u|e| |] s2]; cbn [snd] in K1; try easy.
  2: { intros x [= <-]. right; right; left. exists e. split; [reflexivity|]. now apply E1. }
  set (rb := body_read bld (bufr_read bld cap dyn_read) fuel).
  destruct (copy_with_errs (fun e => F e \/ read_error rb (rs_body q) e) bld rb (write_all bld wt fuel) bufsz (read_on rb (rs_body q)) I
    (read_on_kept rb (rs_body q)) ltac:(apply read_error_errs; right; assumption)
    (fun d w h => write_all_keep bld rd wt I HI fuel d w h)
    (fun d w h e0 He => or_introl (write_all_errs F bld rd wt I HI Hwr Hz fuel d w h e0 He))
    fuel 0%N (rs_body q) s2 (read_here _ _) K1) as [E2 _].
  unfold copy. fold rb. destruct (copy_with bld rb (write_all bld wt fuel) bufsz fuel 0%N (rs_body q) s2) as [[n|e| |] [b s3]]; try easy.
  intros x [= <-]. destruct (E2 e eq_refl) as [[K|K]|K]; auto.
Qed.

Theorem C56_serve : forall S H bld cap (rd : reader S) (wt : writer S) etext (hd : handler H) bufsz fuel hs s e cs hs' s',
  responds hd -> serve_stream bld cap rd wt etext hd bufsz fuel hs s = (Err e, cs, hs', s') ->
  exists q, answered_with bld cap rd etext hd fuel hs s q
   /\ (e = io_write_zero bld \/ stream_error rd wt s e
     \/ (exists e', e = to_io bld e' /\ (e' = io_write_zero bld \/ stream_error rd wt s e'))
     \/ read_error (body_read bld (bufr_read bld cap dyn_read) fuel) (rs_body q) e).
Proof.
  intros S H bld cap rd wt etext hd bufsz fuel hs s e cs hs' s' [Hp Hb] E. unfold serve_stream in E.
  pose proof (inner_keep bld cap rd etext hd (used rd wt s) (used_read rd wt s) fuel hs s (used_here rd wt s)) as Hk.
  unfold answered_with. destruct (serve_one_inner bld cap rd etext hd fuel hs s) as [[[y c1] h1] s1] eqn:Ei. cbn [snd] in Hk.
  destruct y as [[q|q]|x| |]; try easy.
  - pose proof (respond_errs bld cap rd wt bufsz fuel q s s1 Hk) as Er. destruct (respond bld cap wt bufsz fuel q s1) as [z s2].
    injection E as -> <- <- <-. exists q. split; [eauto|]. now apply Er.
  - pose proof (respond_errs bld cap rd wt bufsz fuel q s s1 Hk) as Er. destruct (respond bld cap wt bufsz fuel q s1) as [z s2].
    injection E as -> <- <- <-. exists q. split; [eauto 6|]. now apply Er.
  - exfalso. clear E Hk. unfold serve_one_inner in Ei.
    destruct (request_deserialize bld (bufr_read bld cap rd) fuel (bufr_new s)) as [[rq|x0| |] t]; try easy.
    assert (Hbody : forall m u f, body_method hd m = Some f -> body_call bld cap rd etext m u (f u hs) (rq_body rq) hs fuel s <> (Err x, c1, h1, s1)).
    { intros m u f Hm K. specialize (Hb m f u hs Hm _ bld (bufr_read bld cap rd) fuel fuel (rq_body rq) x).
      unfold body_call in K. destruct (require_length (rq_body rq)); try easy.
      pose proof (run_prog_no_err bld (bufr_read bld cap rd) fuel fuel (f u hs) (rq_body rq)) as Hn.
      destruct (run_prog bld (bufr_read bld cap rd) fuel fuel (f u hs) (rq_body rq)) as [[[r0 h']|x0| |] b']; try easy.
      - injection K as -> <- <- <-. now apply (Hb h').
      - now apply (Hn x0). }
    assert (Hplain : forall m u f t', plain_method hd m = Some f -> plain_call m u (f u hs) t' <> (Err x, c1, h1, s1)).
    { intros m u f t' Hm K. injection K as K _ _ _. now apply (Hp m f u hs x Hm). }
    destruct (rq_method rq); revert Ei; first [now apply Hplain | now apply Hbody].
Qed.
Print Assumptions C56_serve.

(** Examples. The transport of the examples returns just the errors in its script. *)
Lemma seg_read_error evs e : read_error seg_read evs e -> In (Fail e) evs.
Proof.
  intros (s & n & s' & Hs & E).
  assert (Hi : forall x, In (Fail x) s -> In (Fail x) evs).
  { clear E. induction Hs as [|k s Hs IH]; auto. intros x Hx. apply IH. clear IH Hs.
    destruct s as [|[b more|y] t]; cbn in *; auto. destruct k as [|m]; cbn in Hx; auto.
    destruct (skipn m more); cbn in Hx; [now right|]. destruct Hx as [Hx|Hx]; [discriminate|now right]. }
  apply Hi. destruct s as [|[b more|y] t]; cbn in E; try easy; [now destruct n|]. injection E as -> <-. now left.
Qed.

(** A head cut short by a failing transport; a chunk size that is not a number; an upload whose own reader fails; and
    a connection that closes before the response can be written. *)
Definition C56_socket : writer (list event * list wstep) := mkWriter
  (fun d s => match snd s with
              | Accept k :: w => (Ok (Nat.min k (length d)), (fst s, w))
              | Refuse e :: w => (Err e, (fst s, w))
              | [] => (Ok (length d), s) end)
  (fun s => (Ok tt, s)).
Definition C56_read : reader (list event * list wstep) := fun n s => let (x, evs) := seg_read n (fst s) in (x, (evs, snd s)).
Example C56_case :
  fst (request_deserialize Std seg_read 50 [Seg x47 (bs "ET / HT"); Fail (IoError (KOther 7)); Seg x54 (bs "P/1.1")])
    = Err (IoError (KOther 7))
  /\ ~ read_error seg_read [Seg x47 (bs "ET / HT"); Fail (IoError (KOther 7)); Seg x54 (bs "P/1.1")] (IoError (KOther 8))
  /\ fst (body_read Std seg_read 50 9 (BChunked None (CStream (segs [bs "5z" ++ CRLF])))) = Err (IoError (KOther 0))
  /\ fst (body_read NoStd seg_read 50 9 (BChunked None (CStream (segs [bs "5z" ++ CRLF])))) = Err (ParseIntError IInvalidDigit)
  /\ fst (exchange Std 16 C56_read C56_socket 4 seg_read 100 (mkRequest Put (bs "/") v11 [] tt)
        [Seg x61 (bs "b"); Fail (IoError (KOther 3))] ([], [])) = Err (IoError (KOther 3))
  /\ fst (exchange Std 16 C56_read C56_socket 4 seg_read 100 (mkRequest Put (bs "/") v11 [] tt)
        [Seg x61 (bs "b")] ([], [Accept 3; Refuse (IoError (KOther 4))])) = Err (IoError (KOther 4))
  /\ fst (exchange Std 16 C56_read C56_socket 4 seg_read 100 (mkRequest Put (bs "/") v11 [] tt)
        [Seg x61 (bs "b")] (segs [bs "HTTP/1.1 404 Not Found" ++ CRLF ++ CRLF], [])) = Err (UnexpectedStatus NotFound)
  /\ responds echo
  /\ fst (fst (fst (serve_stream Std 16 C56_read C56_socket (fun _ _ => bs "bad") echo 4 100 []
        (segs [bs "GET / HTTP/1.1" ++ CRLF ++ CRLF], [Accept 20; Refuse (IoError (KOther 5))])))) = Err (IoError (KOther 0))
  /\ fst (fst (fst (serve_stream Std 16 C56_read C56_socket (fun _ _ => bs "bad") echo 4 100 []
        (segs [bs "nonsense" ++ CRLF ++ CRLF], [])))) = Ok tt.
Proof.
  split; [reflexivity|]. split; [intros H; apply seg_read_error in H; cbn in H; intuition discriminate|].
  do 5 (split; [reflexivity|]). split.
  - split.
    + intros m f u h e Hm. destruct m; cbn in Hm; try discriminate Hm; injection Hm as <-; easy.
    + intros m f u h Hm T bld rd bf fuel b e h'.
      assert (K : forall fuel acc b, fst (run_prog bld rd bf fuel (slurp 2 (fun d => Ret (Ok (inl (from_string OK d)), h ++ [d]))
         (fun _ => Ret (Ok (inr (from_string BadRequest (bs "?"))), h)) acc) b) <> Ok (Err e, h')).
      { clear. induction fuel as [|k IH]; intros acc b; [easy|]. cbn [run_prog slurp].
        destruct (body_read bld rd bf 2 b) as [[[|x g]|y| |] b']; try easy; destruct k; easy. }
      destruct m; cbn in Hm; try discriminate Hm; injection Hm as <-; apply K.
  - split; reflexivity.
Qed.

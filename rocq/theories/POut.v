(** Properties of what the client sends. *)
From Verif Require Import Base Utf8 Case Num Io Parser Types Message Outgoing Client Transport Lemmas ReadLemmas NumLemmas
  ChunkSpec ChunkLemmas BodyLemmas WriteLemmas OutLemmas HeadLemmas MsgLemmas SimLemmas PBody PParse.

(** ** C05. The body on the wire *)
(** What the caller does between [send] and [finish], up to the first error: a list of [Write data] and [Flush]. *)
Definition written (ops : list op) : list bytes :=
  flat_map (fun x => match x with Write d => [d] | Flush => [] end) ops.

Lemma written_wire ops : flat_map (op_wire true) ops = flat_map chunk_of (written ops).
Proof. induction ops as [|[d|] ops IH]; cbn; auto. now rewrite IH. Qed.
Lemma no_body_wire ops : flat_map (op_wire false) ops = [].
Proof. induction ops as [|[d|] ops IH]; cbn; auto. Qed.

(** The whole request, from [send] to [finish], when no call reports an error. *)
Theorem C05_wire : forall S bld cap (wt : writer S) log fuel r s o sa ops ob s1,
  honest wt log -> has_body (rq_method r) = true ->
  send bld cap wt fuel r s = (Ok o, sa) ->
  run_ops bld cap wt fuel ops o = (Ok tt, ob) ->
  finish_send bld cap wt fuel ob = (Ok tt, s1) ->
  log s1 = log s ++ concat (request_pieces r) ++ flat_map chunk_of (written ops) ++ bs "0" ++ CRLF ++ CRLF.
Proof.
  intros S bld cap wt log fuel r s o sa ops ob s1 Hh Hb H1 H2 H3.
  apply (request_serialize_log bld cap wt log Hh) in H1 as [_ H1]. destruct (H1 o eq_refl) as (L1 & I1 & _ & K1).
  apply (run_ops_log bld cap wt log Hh) in H2 as ((_ & L2) & I2 & K2 & _); auto.
  apply (finish_send_log bld cap wt log Hh) in H3 as (_ & _ & L3); auto.
  rewrite (L3 eq_refl), (L2 (ex_intro _ tt eq_refl)), L1, K2, K1, Hb, written_wire. cbn [terminator].
  now rewrite <- !app_assoc.
Qed.
Print Assumptions C05_wire.

(** Those chunks are a chunked encoding of the bytes written; empty writes leave no trace. *)
Theorem C05_encodes : forall ws, Forall (fun d => (N.of_nat (length d) <= u64_max)%N) ws ->
  chunked_wire (concat ws) (flat_map chunk_of ws ++ bs "0" ++ CRLF)
  /\ flat_map chunk_of ws = flat_map chunk_of (filter (fun d => match d with [] => false | _ => true end) ws).
Proof.
  intros ws H. split.
  - induction H as [|d ws Hd H IH]; [exact (cw_last (bs "0") (show_radix_numeral 16 0 ltac:(lia) ltac:(lia)))|].
    destruct d as [|b d]; [exact IH|]. cbn [concat flat_map].
    change (chunk_of (b :: d)) with (show_hex (N.of_nat (length (b :: d))) ++ CRLF ++ (b :: d) ++ CRLF).
    rewrite <- !app_assoc. apply (cw_chunk _ (b :: d)); auto; [easy|]. apply show_radix_numeral; lia.
  - clear H. induction ws as [|[|b d] ws IH]; cbn [flat_map filter app]; auto. now f_equal.
Qed.
Print Assumptions C05_encodes.

(** Hence a chunked body on any transport that carries these bytes reads as exactly the bytes written, then end
    of file; the final empty line and whatever follows stays unread. *)
Theorem C05_read_back : forall T bld (rd : reader T) t ws rest len fuel got o b,
  Forall (fun d => (N.of_nat (length d) <= u64_max)%N) ws ->
  delivers rd t (map B (flat_map chunk_of ws ++ bs "0" ++ CRLF ++ CRLF) ++ rest) ->
  length (map B (flat_map chunk_of ws ++ bs "0" ++ CRLF ++ CRLF) ++ rest) + 3 < fuel ->
  drains (body_read bld rd fuel) (BChunked len (CStream t)) got o b ->
  got = concat ws /\ o = None /\ delivers rd (body_reader b) (map B CRLF ++ rest).
Proof.
  intros T bld rd t ws rest len fuel got o b Hw Hd Hf H.
  replace (map B (flat_map chunk_of ws ++ bs "0" ++ CRLF ++ CRLF) ++ rest)
    with (map B (flat_map chunk_of ws ++ bs "0" ++ CRLF) ++ (map B CRLF ++ rest)) in *.
  2: { rewrite app_assoc, <- map_app, <- !app_assoc. reflexivity. }
  eapply C04_chunked_drain; eauto. now apply C05_encodes.
Qed.
Print Assumptions C05_read_back.

Lemma run_ops_reliable {S} bld cap (wt : writer S) log fuel : honest wt log -> reliable wt -> cap <= fuel ->
  forall ops o, Forall (fun d => length (chunk_of d) <= fuel) (written ops) -> oinv bld cap o -> is_body o = true ->
  exists o', run_ops bld cap wt fuel ops o = (Ok tt, o') /\ oinv bld cap o' /\ is_body o' = true.
Proof.
  intros Hh Hr Hc. induction ops as [|[d|] ops IH]; intros o Hf Hi Ho; cbn [run_ops]; [eauto| |].
  - inversion_clear Hf. destruct d as [|x d].
    + destruct o as [s|b]; [easy|]. cbn. now apply IH.
    + destruct (outgoing_write_reliable bld cap wt log Hh fuel (x :: d) o Hr Hi Ho ltac:(easy) H Hc) as (o1 & -> & H1 & H2 & _).
      cbn [sbind]. now apply IH.
  - destruct o as [s|b]; [easy|]. cbn [outgoing_flush]. cbn [oinv] in Hi.
    destruct (bufw_flush_reliable wt log Hh bld cap fuel b Hr Hi Hc) as (b1 & -> & _ & _ & H2). cbn [sbind]. now apply IH.
Qed.
Lemma send_reliable {S} bld cap (wt : writer S) log fuel r s : honest wt log -> reliable wt -> cap <= fuel ->
  length (concat (request_pieces r)) <= fuel -> exists o sa, send bld cap wt fuel r s = (Ok o, sa).
Proof.
  intros Hh Hr Hc Hl. unfold send, request_serialize.
  destruct (bufw_pieces_reliable wt log Hh bld cap fuel (request_pieces r) (bufw_new s) Hr (bufw_new_inv _ _ _) Hl Hc) as (b1 & -> & _ & I1).
  destruct (has_body (rq_method r)); [eauto|].
  destruct (bufw_into_inner_reliable wt log Hh bld cap fuel b1 Hr I1 Hc) as (b2 & -> & _). eauto.
Qed.
Lemma finish_send_reliable {S} bld cap (wt : writer S) log fuel o : honest wt log -> reliable wt -> cap <= fuel -> 5 <= fuel ->
  oinv bld cap o -> exists s1, finish_send bld cap wt fuel o = (Ok tt, s1).
Proof.
  intros Hh Hr Hc Hl Hi. destruct o as [s|b]; cbn [finish_send].
  - destruct Hr as [_ Hr]. apply Hr.
  - cbn [oinv] in Hi.
    destruct (bufw_pieces_reliable wt log Hh bld cap fuel [bs "0" ++ CRLF ++ CRLF] b Hr Hi Hl Hc) as (b1 & -> & _ & I1).
    destruct (bufw_flush_reliable wt log Hh bld cap fuel b1 Hr I1 Hc) as (b2 & -> & _ & _ & I2).
    destruct (bufw_into_inner_reliable wt log Hh bld cap fuel b2 Hr I2 Hc) as (b3 & -> & _). eauto.
Qed.

(** On a socket that keeps accepting bytes (in pieces of any size) no call fails, so all of it is sent. *)
Theorem C05_succeeds : forall S bld cap (wt : writer S) log fuel r s ops,
  honest wt log -> reliable wt -> has_body (rq_method r) = true ->
  cap <= fuel -> 5 <= fuel -> length (concat (request_pieces r)) <= fuel ->
  Forall (fun d => length (chunk_of d) <= fuel) (written ops) ->
  exists o sa ob s1, send bld cap wt fuel r s = (Ok o, sa) /\ run_ops bld cap wt fuel ops o = (Ok tt, ob)
    /\ finish_send bld cap wt fuel ob = (Ok tt, s1)
    /\ log s1 = log s ++ concat (request_pieces r) ++ flat_map chunk_of (written ops) ++ bs "0" ++ CRLF ++ CRLF.
Proof.
  intros S bld cap wt log fuel r s ops Hh Hr Hb Hc Hf Hl Ho.
  destruct (send_reliable bld cap wt log fuel r s Hh Hr Hc Hl) as (o & sa & E1).
  pose proof E1 as E. apply (request_serialize_log bld cap wt log Hh) in E as [_ E]. destruct (E o eq_refl) as (_ & I1 & _ & K1).
  rewrite Hb in K1. destruct (run_ops_reliable bld cap wt log fuel Hh Hr Hc ops o Ho I1 K1) as (ob & E2 & I2 & _).
  destruct (finish_send_reliable bld cap wt log fuel ob Hh Hr Hc Hf I2) as (s1 & E3).
  exists o, sa, ob, s1. repeat split; auto. eapply C05_wire; eauto.
Qed.
Print Assumptions C05_succeeds.

Definition C05_req : request unit := request_new Put (bs "/x").
Example C05_case :
  match send Std 16 script_writer 99 C05_req ([Accept 3; Refuse (IoError Interrupted); Accept 1], []) with
  | (Ok o, _) =>
      match run_ops Std 16 script_writer 99 [Write (bs "hello"); Write []; Flush; Write (bs " world, again")] o with
      | (Ok _, ob) => snd (snd (finish_send Std 16 script_writer 99 ob))
      | _ => []
      end
  | _ => []
  end = bs "PUT /x HTTP/1.1" ++ CRLF ++ CRLF ++ bs "5" ++ CRLF ++ bs "hello" ++ CRLF
        ++ bs "d" ++ CRLF ++ bs " world, again" ++ CRLF ++ bs "0" ++ CRLF ++ CRLF.
Proof. vm_compute. reflexivity. Qed.

(** ** C38. Methods without a body *)
Theorem C38_methods : forall m, has_body m = false <-> In m [Get; Head; Options; Trace].
Proof. destruct m; cbn; intuition easy. Qed.
Print Assumptions C38_methods.

(** Every write fails and leaves the request and the socket as they were. *)
Theorem C38_write_fails : forall S bld cap (wt : writer S) log fuel r s o sa data,
  honest wt log -> has_body (rq_method r) = false -> send bld cap wt fuel r s = (Ok o, sa) ->
  outgoing_write bld cap wt fuel data o
    = (Err (match bld with Std => IoError KInvalidInput | NoStd => EOther end), o)
  /\ o = ONoBody sa.
Proof.
  intros S bld cap wt log fuel r s o sa data Hh Hb H. pose proof H as H'.
  apply (request_serialize_log bld cap wt log Hh) in H as [_ H]. destruct (H o eq_refl) as (_ & _ & H1 & H2).
  rewrite Hb in H2. destruct o; [|easy]. cbn in *. subst. auto.
Qed.
Print Assumptions C38_write_fails.

(** [send] alone has put the whole head on the wire, and finishing adds nothing. *)
Theorem C38_only_head : forall S bld cap (wt : writer S) log fuel r s o sa ops x ob y s1,
  honest wt log -> has_body (rq_method r) = false -> send bld cap wt fuel r s = (Ok o, sa) ->
  run_ops bld cap wt fuel ops o = (x, ob) -> finish_send bld cap wt fuel ob = (y, s1) ->
  log sa = log s ++ concat (request_pieces r)
  /\ log (out_sock ob) = log s ++ concat (request_pieces r)
  /\ log s1 = log s ++ concat (request_pieces r).
Proof.
  intros S bld cap wt log fuel r s o sa ops x ob y s1 Hh Hb H1 H2 H3.
  apply (request_serialize_log bld cap wt log Hh) in H1 as [_ H1]. destruct (H1 o eq_refl) as (L1 & I1 & E1 & K1).
  rewrite Hb in K1. destruct o as [s0|b]; [|easy]. cbn in E1, L1. subst s0.
  apply (run_ops_log bld cap wt log Hh) in H2 as (((p & P1 & P2) & _) & I2 & K2 & _); auto. cbn [is_body] in *.
  rewrite no_body_wire in P1. destruct P1 as [q P1]. symmetry in P1. apply app_eq_nil in P1 as [-> _].
  rewrite app_nil_r in P2. destruct ob as [s0|b]; [|easy]. cbn in *. rewrite P2.
  apply (honest_flush _ _ Hh) in H3. rewrite H3. repeat split; congruence.
Qed.
Print Assumptions C38_only_head.

Example C38_case :
  match send NoStd 0 script_writer 99 (request_new Get (bs "/")) ([Accept 2], []) with
  | (Ok o, _) => run_ops NoStd 0 script_writer 99 [Flush; Write (bs "x"); Write (bs "y")] o
  | _ => (Panic, ONoBody ([], []))
  end = (Err EOther, ONoBody ([], bs "GET / HTTP/1.1" ++ CRLF ++ CRLF)).
Proof. vm_compute. reflexivity. Qed.

(** ** C39. Never anything but a prefix of the message *)
Definition whole_request {B} (r : request B) (ops : list op) : bytes :=
  concat (request_pieces r)
  ++ (if has_body (rq_method r) then flat_map chunk_of (written ops) ++ bs "0" ++ CRLF ++ CRLF else []).

(** For a caller that stops at the first error (and then drops the request or finishes it, or does nothing),
    whatever the socket does: partial writes, failures at any point. *)
Theorem C39_prefix : forall S bld cap (wt : writer S) log fuel r s x sa,
  honest wt log -> send bld cap wt fuel r s = (x, sa) ->
  (exists p, prefix p (concat (request_pieces r)) /\ log sa = log s ++ p)
  /\ forall o ops y ob, x = Ok o -> run_ops bld cap wt fuel ops o = (y, ob) ->
     forall sb, sb = out_sock ob \/ sb = outgoing_drop bld wt fuel ob
                \/ (y = Ok tt /\ sb = snd (finish_send bld cap wt fuel ob)) ->
     exists p, prefix p (whole_request r ops) /\ log sb = log s ++ p.
Proof.
  intros S bld cap wt log fuel r s x sa Hh H1. pose proof H1 as H1'.
  apply (request_serialize_log bld cap wt log Hh) in H1 as [(p1 & P1 & P1') H1].
  split; [eauto|]. intros o ops y ob -> H2 sb Hsb. destruct (H1 o eq_refl) as (L1 & I1 & E1 & K1).
  apply (run_ops_log bld cap wt log Hh) in H2 as (Hext & I2 & K2 & G2); auto.
  rewrite E1 in G2. rewrite K1 in *.
  assert (Hw : forall q, prefix q (flat_map (op_wire (has_body (rq_method r))) ops) ->
    prefix (concat (request_pieces r) ++ q) (whole_request r ops)).
  { intros q [t Ht]. unfold whole_request. destruct (has_body (rq_method r)).
    - rewrite written_wire in Ht. rewrite Ht. exists (t ++ bs "0" ++ CRLF ++ CRLF). now rewrite <- !app_assoc.
    - rewrite no_body_wire in Ht. symmetry in Ht. apply app_eq_nil in Ht as [-> ->]. apply prefix_refl. }
  assert (Hg : prefix (log s) (log (out_sock ob))).
  { apply prefix_trans with (log sa); auto. rewrite P1'. apply prefix_self_app. }
  destruct Hext as [(q & Q1 & Q2) Q3].
  assert (Hp : forall sb, prefix (log (out_sock ob)) (log sb) -> prefix (log sb) (olog log ob) ->
    exists p, prefix p (whole_request r ops) /\ log sb = log s ++ p).
  { intros sb0 A B0. rewrite Q2, L1, <- app_assoc in B0.
    destruct (bs_app_prefix (log s) (log sb0) (concat (request_pieces r) ++ q)) as (p & -> & Hp); eauto using prefix_trans. }
  destruct Hsb as [-> |[-> |[-> ->]]].
  - apply Hp; auto using prefix_refl, olog_sock.
  - destruct (outgoing_drop_log bld wt log Hh fuel ob). auto.
  - destruct (finish_send bld cap wt fuel ob) as [z s1] eqn:H3.
    apply (finish_send_log bld cap wt log Hh) in H3 as (A & B0 & _); auto. cbn [snd].
    rewrite (Q3 (ex_intro _ tt eq_refl)), L1, K2, <- !app_assoc in B0.
    destruct (bs_app_prefix (log s) (log s1) _ ltac:(eauto using prefix_trans) B0) as (p & -> & Hp').
    exists p. split; auto. eapply prefix_trans; eauto. unfold whole_request, terminator.
    destruct (has_body (rq_method r)).
    + rewrite written_wire. apply prefix_refl.
    + rewrite no_body_wire. apply prefix_refl.
Qed.
Print Assumptions C39_prefix.

(** A caller that goes on writing after a failed write garbles the message, in both builds: the second write
    puts a size line behind half a size line. *)
Theorem C39_write_after_error_refuted :
  exists (bld1 bld2 : build) o1 o2,
    bld1 = Std /\ bld2 = NoStd
    /\ (let (x1, oa) := outgoing_write Std 2 script_writer 99 (bs "ab") o1 in
        let (x2, ob) := outgoing_write Std 2 script_writer 99 (bs "cd") oa in
        (exists e, x1 = Err e) /\ x2 = Ok 2 /\ olog snd ob = bs "22" ++ CRLF ++ bs "cd" ++ CRLF)
    /\ (let (x1, oa) := outgoing_write NoStd 2 script_writer 99 (bs "ab") o2 in
        let (x2, ob) := outgoing_write NoStd 2 script_writer 99 (bs "cd") oa in
        (exists e, x1 = Err e) /\ x2 = Ok 2 /\ olog snd ob = bs "22" ++ CRLF ++ bs "cd" ++ CRLF)
    /\ ~ prefix (bs "22" ++ CRLF ++ bs "cd" ++ CRLF) (chunk_of (bs "ab") ++ chunk_of (bs "cd") ++ last_chunk)
    /\ ~ prefix (bs "22" ++ CRLF ++ bs "cd" ++ CRLF) (chunk_of (bs "cd") ++ last_chunk).
Proof.
  exists Std, NoStd, (OWithBody (bufw_new ([Refuse (IoError (KOther 1))], []))),
    (OWithBody (bufw_new ([Accept 1; Refuse (IoError (KOther 1))], []))).
  split; [reflexivity|]. split; [reflexivity|]. split; [|split; [|split]].
  - vm_compute. repeat split. eauto.
  - vm_compute. repeat split. eauto.
  - intros [t H]. vm_compute in H. discriminate.
  - intros [t H]. vm_compute in H. discriminate.
Qed.
Print Assumptions C39_write_after_error_refuted.

Example C39_case :
  match send Std 8 script_writer 99 C05_req ([Accept 3; Accept 100; Accept 100; Accept 2; Refuse (IoError (KOther 1))], []) with
  | (Ok o, _) =>
      match run_ops Std 8 script_writer 99 [Write (bs "hello"); Write (bs "world")] o with
      | (y, ob) => (y, snd (out_sock ob), snd (outgoing_drop Std script_writer 99 ob))
      end
  | _ => (Panic, [], [])
  end = (Err (IoError (KOther 1)), bs "PUT /x HTTP/1.1" ++ CRLF, bs "PUT /x HTTP/1.1" ++ CRLF ++ CRLF ++ bs "5" ++ CRLF).
Proof. vm_compute. reflexivity. Qed.

(** ** C40. The response is read after the whole request was accepted *)
Theorem C40_complete : forall S bld cap (rd : reader S) (wt : writer S) log fuel r s o sa ops ob resp s2,
  honest wt log -> send bld cap wt fuel r s = (Ok o, sa) ->
  run_ops bld cap wt fuel ops o = (Ok tt, ob) ->
  finish bld cap rd wt fuel ob = (Ok resp, s2) ->
  exists s1, log s1 = log s ++ whole_request r ops /\ response_deserialize bld rd fuel s1 = (Ok resp, s2).
Proof.
  intros S bld cap rd wt log fuel r s o sa ops ob resp s2 Hh H1 H2 H3. unfold finish in H3.
  destruct (finish_send bld cap wt fuel ob) as [[[]|e| |] s1] eqn:E; cbn [sbind] in H3; try easy.
  exists s1. split; auto.
  apply (request_serialize_log bld cap wt log Hh) in H1 as [_ H1]. destruct (H1 o eq_refl) as (L1 & I1 & _ & K1).
  apply (run_ops_log bld cap wt log Hh) in H2 as ((_ & L2) & I2 & K2 & _); auto.
  apply (finish_send_log bld cap wt log Hh) in E as (_ & _ & L3); auto.
  rewrite (L3 eq_refl), (L2 (ex_intro _ tt eq_refl)), L1, K2, K1. unfold whole_request, terminator.
  destruct (has_body (rq_method r)).
  - rewrite written_wire. now rewrite <- !app_assoc.
  - rewrite no_body_wire. now rewrite <- !app_assoc.
Qed.
Print Assumptions C40_complete.

(** A socket whose reader panics as long as the request is not complete behaves the same: no read happens
    before that. [silent]: reading does not change what was written. *)
Definition silent {S} (rd : reader S) (log : S -> bytes) : Prop := forall n s, log (snd (rd n s)) = log s.
Definition guarded {S} (rd : reader S) (log : S -> bytes) (want : bytes) : reader S := fun n s =>
  if beqb (log s) want then rd n s else (Panic, s).

Lemma response_silent {S} bld (rd : reader S) log fuel s : silent rd log -> log (snd (response_deserialize bld rd fuel s)) = log s.
Proof.
  intros Hs. assert (HQ : sim (fun a b => a = b /\ log a = log s) rd rd).
  { intros n a b [-> H]. split; auto. split; auto. now rewrite Hs. }
  pose proof (response_head_alike _ _ _ (crlf_sim bld _ _ _ HQ fuel []) fuel s s (conj eq_refl eq_refl)) as H.
  apply outs_cases in H as (r & s1 & s2 & H1 & H2 & H3 & H4). unfold response_deserialize. 
  change (crlf_loop bld rd fuel []) with (crlf_next bld rd fuel) in *. rewrite H1. destruct r; cbn; auto.
Qed.

Theorem C40_no_read_before : forall S bld cap (rd : reader S) (wt : writer S) log fuel r s o sa ops ob,
  honest wt log -> silent rd log -> send bld cap wt fuel r s = (Ok o, sa) ->
  run_ops bld cap wt fuel ops o = (Ok tt, ob) ->
  finish bld cap (guarded rd log (log s ++ whole_request r ops)) wt fuel ob = finish bld cap rd wt fuel ob.
Proof.
  intros S bld cap rd wt log fuel r s o sa ops ob Hh Hs H1 H2. unfold finish.
  destruct (finish_send bld cap wt fuel ob) as [[[]|e| |] s1] eqn:E; cbn [sbind]; try easy.
  apply (request_serialize_log bld cap wt log Hh) in H1 as [_ H1]. destruct (H1 o eq_refl) as (L1 & I1 & _ & K1).
  apply (run_ops_log bld cap wt log Hh) in H2 as ((_ & L2) & I2 & K2 & _); auto.
  apply (finish_send_log bld cap wt log Hh) in E as (_ & _ & L3); auto.
  assert (L : log s1 = log s ++ whole_request r ops).
  { rewrite (L3 eq_refl), (L2 (ex_intro _ tt eq_refl)), L1, K2, K1. unfold whole_request, terminator.
    destruct (has_body (rq_method r)).
    - rewrite written_wire. now rewrite <- !app_assoc.
    - rewrite no_body_wire. now rewrite <- !app_assoc. }
  set (want := log s ++ whole_request r ops) in *.
  assert (HQ : sim (fun a b => a = b /\ log a = want) (guarded rd log want) rd).
  { intros n a b [-> H]. unfold guarded. rewrite H, beqb_refl. split; auto. split; auto. now rewrite Hs. }
  pose proof (response_head_alike _ _ _ (crlf_sim bld _ _ _ HQ fuel []) fuel s1 s1 (conj eq_refl L)) as H.
  apply outs_cases in H as (x & u1 & u2 & E1 & E2 & -> & _). unfold response_deserialize.
  change (crlf_loop bld (guarded rd log want) fuel []) with (crlf_next bld (guarded rd log want) fuel) in E1.
  change (crlf_loop bld rd fuel []) with (crlf_next bld rd fuel) in E2. now rewrite E1, E2.
Qed.
Print Assumptions C40_no_read_before.

(** A socket for examples: a script of writes, what was written, and what can be read. *)
Definition duplex : Type := (list wstep * bytes) * list event.
Definition duplex_read : reader duplex := fun n d => let (x, evs) := seg_read n (snd d) in (x, (fst d, evs)).
Definition duplex_writer : writer duplex :=
  mkWriter (fun data d => let (x, w) := wr script_writer data (fst d) in (x, (w, snd d)))
           (fun d => (Ok tt, d)).
Definition segs (l : list bytes) : list event := flat_map (fun s => match s with [] => [] | b :: t => [Seg b t] end) l.

Lemma duplex_honest : honest duplex_writer (fun d => snd (fst d)).
Proof.
  split.
  - intros data [w evs] r [w' evs'] H. cbn [wr duplex_writer fst snd] in H.
    destruct (wr script_writer data w) as [x w1] eqn:E. injection H as <- <- <-. cbn [fst snd].
    exact (honest_write _ _ script_honest data w x w1 E).
  - intros w r w' [= <- <-]. reflexivity.
Qed.
Lemma duplex_silent : silent duplex_read (fun d => snd (fst d)).
Proof. intros n [w evs]. unfold duplex_read. cbn [fst snd]. now destruct (seg_read n evs). Qed.

Example C40_case :
  match send Std 8 duplex_writer 99 C05_req (([Accept 3], []), segs [bs "HTTP/1.1 204 No"; bs " Content" ++ CRLF ++ CRLF; bs "next"]) with
  | (Ok o, _) =>
      match run_ops Std 8 duplex_writer 99 [Write (bs "hello")] o with
      | (Ok _, ob) =>
          match finish Std 8 duplex_read duplex_writer 99 ob with
          | (Ok resp, s2) => Some (rs_status resp, snd (fst s2), snd s2)
          | _ => None
          end
      | _ => None
      end
  | _ => None
  end = Some (NoContent, whole_request C05_req [Write (bs "hello")], segs [bs "next"]).
Proof. vm_compute. reflexivity. Qed.

(** ** C41. Success means status 200 *)
(** What [send_request] did up to the response. *)
Definition exchanged {S Bd} bld cap (rd : reader S) (wt : writer S) bufsz (rdb : reader Bd) fuel r body s
    (resp : response (hbody (bufr S))) : Prop :=
  exists o sa n body' o1 s2, send bld cap wt fuel r s = (Ok o, sa)
    /\ copy bld rdb (outgoing_writer bld cap wt fuel) bufsz fuel body o = (Ok n, (body', o1))
    /\ finish bld cap rd wt fuel o1 = (Ok resp, s2).

Lemma exchange_cases {S Bd} bld cap (rd : reader S) (wt : writer S) bufsz (rdb : reader Bd) fuel r body s x s' :
  exchange bld cap rd wt bufsz rdb fuel r body s = (x, s') ->
  (exists resp, exchanged bld cap rd wt bufsz rdb fuel r body s resp
     /\ x = match rs_status resp with OK => Ok (rs_body resp) | st => Err (UnexpectedStatus st) end)
  \/ ((forall b, x <> Ok b) /\ forall resp, ~ exchanged bld cap rd wt bufsz rdb fuel r body s resp).
Proof.
  intros H. unfold exchange in H.
  destruct (send bld cap wt fuel r s) as [[o|e| |] sa] eqn:E1; cbn [sbind] in H.
  2-4: right; injection H as <- <-; split; [easy|]; intros resp (o & sb & n & b' & o1 & s2 & F1 & _); congruence.
  destruct (copy bld rdb (outgoing_writer bld cap wt fuel) bufsz fuel body o) as [[n|e| |] [b' o1]] eqn:E2.
  2-4: right; injection H as <- <-; split; [easy|]; intros resp (o' & sb & n & b2 & o2 & s2 & F1 & F2 & _); congruence.
  destruct (finish bld cap rd wt fuel o1) as [[resp|e| |] s2] eqn:E3; cbn [sbind] in H.
  2-4: right; injection H as <- <-; split; [easy|]; intros resp (o' & sb & n' & b2 & o2 & s3 & F1 & F2 & F3); congruence.
  left. exists resp. split; [now exists o, sa, n, b', o1, s2|]. destruct (rs_status resp); now injection H as <- <-.
Qed.

Theorem C41_exchange : forall S Bd bld cap (rd : reader S) (wt : writer S) bufsz (rdb : reader Bd) fuel r body s,
  let x := fst (exchange bld cap rd wt bufsz rdb fuel r body s) in
  (forall b, x = Ok b <-> exists resp, exchanged bld cap rd wt bufsz rdb fuel r body s resp
      /\ rs_status resp = OK /\ rs_body resp = b)
  /\ (forall resp, exchanged bld cap rd wt bufsz rdb fuel r body s resp ->
      rs_status resp <> OK -> x = Err (UnexpectedStatus (rs_status resp))).
Proof.
  intros S Bd bld cap rd wt bufsz rdb fuel r body s x. subst x.
  destruct (exchange bld cap rd wt bufsz rdb fuel r body s) as [x s'] eqn:E. cbn [fst].
  assert (Hu : forall q1 q2, exchanged bld cap rd wt bufsz rdb fuel r body s q1 -> exchanged bld cap rd wt bufsz rdb fuel r body s q2 -> q1 = q2).
  { intros q1 q2 (? & ? & ? & ? & ? & ? & A1 & A2 & A3) (? & ? & ? & ? & ? & ? & B1 & B2 & B3). congruence. }
  apply exchange_cases in E as [(resp & E1 & ->)|[E1 E2]].
  - split.
    + intros b. split.
      * destruct (rs_status resp) eqn:Es; intros H; try easy. injection H as <-. exists resp. auto.
      * intros (q & Q1 & Q2 & <-). rewrite (Hu q resp Q1 E1) in *. now rewrite Q2.
    + intros q Q1 Q2. rewrite (Hu q resp Q1 E1) in *. now destruct (rs_status resp).
  - split.
    + intros b. split; [intros H; now apply E1 in H|]. intros (q & Q1 & _). now apply E2 in Q1.
    + intros q Q1. now apply E2 in Q1.
Qed.
Print Assumptions C41_exchange.

(** On a parsed response [OK] is the same as the code 200, and the reported status carries the peer's code. *)
Theorem C41_codes : forall S bld (rd : reader S) fuel s resp s2,
  response_deserialize bld rd fuel s = (Ok resp, s2) -> (rs_status resp = OK <-> to_code (rs_status resp) = 200%N).
Proof.
  intros S bld rd fuel s resp s2 H.
  assert (Hc : exists n, rs_status resp = from_code n).
  { unfold response_deserialize in H. destruct (response_head _ fuel s) as [[h|e| |] s1] eqn:E; cbn [sbind] in H; try easy.
    injection H as <- <-. cbn [rs_status]. unfold response_head in E.
    destruct (expect_next _ s) as [[l|e| |] s2]; cbn [sbind] in E; try easy.
    destruct (parse_token (parser_new l)) as [[vt|e| |] p1]; cbn [sbind] in E; try easy.
    destruct (parse_version vt) as [v|e| |]; try easy.
    destruct (parse_remaining p1) as [[st|e| |] p2]; cbn [sbind] in E; try easy.
    destruct (parse_status st) as [x|e| |] eqn:Ep; cbn [rbind] in E; try easy.
    destruct (headers_deserialize _ fuel s2) as [[hh|e| |] s3]; cbn [sbind] in E; try easy.
    destruct (content_length_of hh) as [len|e| |]; cbn [rbind] in E; try easy. injection E as <- <-. cbn [sh_status].
    unfold parse_status in Ep. destruct (fst (parse_number (parser_new st))) as [n|e| |]; cbn [rbind] in Ep; try easy.
    injection Ep as <-. eauto. }
  destruct Hc as [n Hn]. rewrite Hn. split; [now intros ->|]. intros H1. 
  rewrite C18_from_to in H1. now subst n.
Qed.
Print Assumptions C41_codes.

(** [client::get] and [client::put]: a body exactly when every step succeeded and the status is 200. *)
Definition reached {Addr S Wd} (conn : connector Addr S Wd) (u : url) (w : Wd) (s : S) : Prop :=
  exists a w1 w2, c_addr conn u w = (Ok a, w1) /\ c_connect conn a w1 = (Ok s, w2).

Lemma send_request_cases {Addr S Wd Bd} (conn : connector Addr S Wd) cap rd wt bufsz (rdb : reader Bd) fuel r u body w b :
  fst (send_request conn cap rd wt bufsz rdb fuel r u body w) = Ok b <->
  exists s, reached conn u w s /\ fst (exchange Std cap rd wt bufsz rdb fuel r body s) = Ok b.
Proof.
  unfold send_request, reached. split.
  - destruct (c_addr conn u w) as [[a|e| |] w1] eqn:E1; cbn [sbind]; try easy.
    destruct (c_connect conn a w1) as [[s|e| |] w2] eqn:E2; cbn [sbind fst]; try easy. intros H. exists s. eauto 8.
  - intros (s & (a & w1 & w2 & E1 & E2) & E3). rewrite E1. cbn [sbind]. rewrite E2. exact E3.
Qed.

Theorem C41_get : forall Addr S Wd (conn : connector Addr S Wd) cap rd wt fuel u w b,
  fst (client_get conn cap rd wt fuel u w) = Ok b <->
  exists r s resp, builder_new u Get = Ok r /\ reached conn u w s
    /\ exchanged Std cap rd wt default_buf_size empty_read fuel r tt s resp
    /\ to_code (rs_status resp) = 200%N /\ rs_body resp = b.
Proof.
  intros Addr S Wd conn cap rd wt fuel u w b. unfold client_get.
  destruct (builder_new u Get) as [r|e| |].
  2-4: split; [easy|]; intros (r & s & resp & H & _); easy.
  rewrite send_request_cases. split.
  - intros (s & H1 & H2). apply C41_exchange in H2 as (resp & H2 & H3 & H4). exists r, s, resp. rewrite H3. auto.
  - intros (r' & s & resp & H0 & H1 & H2 & H3 & H4). injection H0 as <-. exists s. split; auto. apply C41_exchange. exists resp.
    repeat split; auto. destruct H2 as (o & sa & n & b' & o1 & s2 & A1 & A2 & A3). unfold finish in A3.
    destruct (finish_send Std cap wt fuel o1) as [[?|?| |] s1]; cbn [sbind] in A3; try easy. now apply (C41_codes _ _ _ _ _ _ _ A3).
Qed.
Print Assumptions C41_get.

Theorem C41_put : forall Addr S Wd Bd (conn : connector Addr S Wd) cap rd wt (rdb : reader Bd) fuel u body w b,
  fst (client_put conn cap rd wt rdb fuel u body w) = Ok b <->
  exists r s resp, builder_new u Put = Ok r /\ reached conn u w s
    /\ exchanged Std cap rd wt default_buf_size rdb fuel r body s resp
    /\ to_code (rs_status resp) = 200%N /\ rs_body resp = b.
Proof.
  intros Addr S Wd Bd conn cap rd wt rdb fuel u body w b. unfold client_put.
  destruct (builder_new u Put) as [r|e| |].
  2-4: split; [easy|]; intros (r & s & resp & H & _); easy.
  rewrite send_request_cases. split.
  - intros (s & H1 & H2). apply C41_exchange in H2 as (resp & H2 & H3 & H4). exists r, s, resp. rewrite H3. auto.
  - intros (r' & s & resp & H0 & H1 & H2 & H3 & H4). injection H0 as <-. exists s. split; auto. apply C41_exchange. exists resp.
    repeat split; auto. destruct H2 as (o & sa & n & b' & o1 & s2 & A1 & A2 & A3). unfold finish in A3.
    destruct (finish_send Std cap wt fuel o1) as [[?|?| |] s1]; cbn [sbind] in A3; try easy. now apply (C41_codes _ _ _ _ _ _ _ A3).
Qed.
Print Assumptions C41_put.

(** What was sent when the exchange got as far as a response: the whole body the caller supplied, cut into chunks
    by the reads of [copy]. *)
Theorem C40_exchange : forall S Bd bld cap (rd : reader S) (wt : writer S) log bufsz (rdb : reader Bd) fuel r body xs s resp,
  honest wt log -> 0 < bufsz -> 0 < fuel -> delivers rdb body xs ->
  exchanged bld cap rd wt bufsz rdb fuel r body s resp ->
  exists pieces s1 s2, noisy bld (concat pieces) xs
    /\ Forall (fun p => p <> [] /\ length p <= bufsz) pieces
    /\ log s1 = log s ++ whole_request r (map Write pieces)
    /\ (has_body (rq_method r) = false -> pieces = [])
    /\ response_deserialize bld rd fuel s1 = (Ok resp, s2).
Proof.
  intros S Bd bld cap rd wt log bufsz rdb fuel r body xs s resp Hh Hb Hf Hd (o & sa & n & b' & o1 & s2 & E1 & E2 & E3).
  apply (request_serialize_log bld cap wt log Hh) in E1 as [_ E1]. destruct (E1 o eq_refl) as (L1 & I1 & _ & K1).
  unfold copy in E2. apply (copy_out_log bld cap wt log Hh rdb bufsz Hb fuel Hf) with (xs := xs) in E2; auto.
  destruct E2 as (ps & xs1 & xs2 & q & -> & N1 & N2 & N3 & N4 & N5 & N6 & N7 & -> & -> & _ & N8).
  unfold finish in E3. destruct (finish_send bld cap wt fuel o1) as [[[]|e| |] s1] eqn:E; cbn [sbind] in E3; try easy.
  apply (finish_send_log bld cap wt log Hh) in E as (_ & _ & L3); auto.
  exists ps, s1, s2. rewrite app_nil_r. rewrite K1 in *. repeat split; auto.
  rewrite (L3 eq_refl), N4, L1, N6. unfold whole_request, terminator, encoded. destruct (has_body (rq_method r)).
  - replace (written (map Write ps)) with ps by (clear; induction ps as [|p ps IH]; [reflexivity|]; cbn; f_equal; exact IH). now rewrite <- !app_assoc.
  - replace (flat_map _ ps) with (@nil byte) by (clear; induction ps; cbn; auto). now rewrite !app_nil_r.
Qed.
Print Assumptions C40_exchange.

Definition C41_url : url := mkUrl (bs "http") (Some (bs "h")) None (bs "/p") (Some (bs "q=1")).
Definition C41_connector (reply : list bytes) : connector unit duplex unit :=
  mkConnector (fun _ w => (Ok (([Accept 7], []), segs reply), w)) (fun _ w => (Ok tt, w)).
Example C41_case :
  (match fst (client_put (C41_connector [bs "HTTP/1.1 200 OK" ++ CRLF ++ CRLF; bs "fine"]) 64 duplex_read duplex_writer slice_read 999
           C41_url (bs "abc") tt) with
   | Ok b => let (x, b') := body_read Std (bufr_read Std 64 duplex_read) 99 10 b in (x, snd (fst (br_inner (body_reader b'))))
   | _ => (Panic, [])
   end = (Ok (bs "fine"),
          bs "PUT /p HTTP/1.1" ++ CRLF ++ bs "accept: */*" ++ CRLF ++ bs "host: h" ++ CRLF ++ bs "transfer-encoding: chunked" ++ CRLF
          ++ bs "user-agent: http_io" ++ CRLF ++ CRLF ++ bs "3" ++ CRLF ++ bs "abc" ++ CRLF ++ bs "0" ++ CRLF ++ CRLF))
  /\ fst (client_get (C41_connector [bs "HTTP/1.1 201 Created" ++ CRLF ++ CRLF]) 64 duplex_read duplex_writer 999 C41_url tt)
     = Err (UnexpectedStatus Created).
Proof. vm_compute. split; reflexivity. Qed.

(** Property C55: flushing. *)
From Verif Require Import Base Utf8 Case Num Io Parser Types Message Outgoing Client Server Transport Lemmas ReadLemmas NumLemmas
  ChunkSpec ChunkLemmas BodyLemmas WriteLemmas OutLemmas HeadLemmas MsgLemmas SimLemmas PBody PParse POut PServer.

(** ** C55. Flushing *)
(** [flushed] is any property of the stream that a successful flush establishes (for instance "everything written so
    far has left the machine"); writing may destroy it. *)
Definition by_flush {S} (wt : writer S) (flushed : S -> Prop) : Prop := forall s s', fl wt s = (Ok tt, s') -> flushed s'.

Lemma flush_buf_empties {W} (wt : writer W) : forall fuel b u b', flush_buf wt fuel b = (Ok u, b') -> bw_buf b' = [].
Proof.
  induction fuel as [|f IH]; intros [w buf] u b' H; destruct buf as [|d data]; cbn [flush_buf bw_buf bw_inner] in H; try easy;
    try (injection H as <- <-; reflexivity).
  destruct (wr wt (d :: data) w) as [[[|k]|e| |] w1]; try easy; [now apply IH in H|]. destruct (is_retry Std e); [now apply IH in H|easy].
Qed.

Lemma bufw_flush_done {W} bld (wt : writer W) fuel b b' (flushed : W -> Prop) : by_flush wt flushed ->
  bufw_flush bld wt fuel b = (Ok tt, b') -> flushed (bw_inner b') /\ (bld = Std -> bw_buf b' = []).
Proof.
  intros Hf H. unfold bufw_flush in H.
  destruct (match bld with Std => flush_buf wt fuel b | NoStd => (Ok tt, b) end) as [[u|e| |] b1] eqn:E; cbn [sbind] in H; try easy.
  destruct (fl wt (bw_inner b1)) as [x w'] eqn:Ef. injection H as -> <-. cbn [bw_inner bw_buf]. split; [now apply Hf in Ef|].
  intros ->. now apply flush_buf_empties in E.
Qed.

(** When the client starts to wait for the response, a flush is the last thing that happened to the stream. *)
Theorem C55_client_flushes : forall S bld cap (wt : writer S) fuel o s1 (flushed : S -> Prop),
  by_flush wt flushed -> finish_send bld cap wt fuel o = (Ok tt, s1) -> flushed s1.
Proof.
  intros S bld cap wt fuel [s|b] s1 flushed Hf H; cbn [finish_send] in H; [now apply Hf in H|].
  destruct (bufw_pieces bld cap wt fuel [bs "0" ++ CRLF ++ CRLF] b) as [[u1|e| |] b1]; cbn [fail_drop] in H; try easy.
  destruct (bufw_flush bld wt fuel b1) as [[[]|e| |] b2] eqn:E2; cbn [fail_drop] in H; try easy.
  destruct (bufw_flush_done _ _ _ _ _ _ Hf E2) as [K1 K2].
  assert (E3 : bufw_into_inner bld wt fuel b2 = (Ok tt, b2)).
  { destruct bld; cbn [bufw_into_inner]; [|reflexivity]. destruct b2 as [w buf]. cbn in K2. rewrite K2; auto. now destruct fuel. }
  rewrite E3 in H. now injection H as <-.
Qed.
Print Assumptions C55_client_flushes.

(** A successful [flush] of a request with a body puts every byte written so far on the stream, and flushes that. *)
Theorem C55_flush : forall S bld cap (wt : writer S) log fuel r s o sa ops ob oc (flushed : S -> Prop),
  honest wt log -> by_flush wt flushed -> has_body (rq_method r) = true ->
  send bld cap wt fuel r s = (Ok o, sa) -> run_ops bld cap wt fuel ops o = (Ok tt, ob) ->
  outgoing_flush bld wt fuel ob = (Ok tt, oc) ->
  flushed (out_sock oc)
  /\ log (out_sock oc) = log s ++ concat (request_pieces r) ++ flat_map chunk_of (written ops).
Proof.
  intros S bld cap wt log fuel r s o sa ops ob oc flushed Hh Hf Hb E1 E2 E3.
  apply (request_serialize_log bld cap wt log Hh) in E1 as [_ E1]. destruct (E1 o eq_refl) as (L1 & I1 & _ & K1).
  apply (run_ops_log bld cap wt log Hh) in E2 as ((_ & L2) & I2 & K2 & _); auto.
  split.
  - rewrite K1, Hb in K2. destruct ob as [s0|b]; [easy|]. cbn [outgoing_flush] in E3.
    destruct (bufw_flush bld wt fuel b) as [x b'] eqn:E. injection E3 as -> <-. cbn [out_sock].
    now destruct (bufw_flush_done _ _ _ _ _ _ Hf E).
  - apply (outgoing_flush_log bld cap wt log Hh) in E3 as (_ & _ & _ & _ & L3); auto.
    rewrite (L3 eq_refl), (L2 (ex_intro _ tt eq_refl)), L1, K1, Hb, written_wire. now rewrite <- app_assoc.
Qed.
Print Assumptions C55_flush.

(** The server, on the other hand, never flushes: what [flush] does makes no difference to it. *)
Theorem C55_server_never_flushes : forall S H bld cap (rd : reader S) write fl1 fl2 etext (hd : handler H) bufsz fuel hs s accs,
  serve_stream bld cap rd (mkWriter write fl1) etext hd bufsz fuel hs s
    = serve_stream bld cap rd (mkWriter write fl2) etext hd bufsz fuel hs s
  /\ serve_forever bld cap rd (mkWriter write fl1) etext hd bufsz fuel hs accs
    = serve_forever bld cap rd (mkWriter write fl2) etext hd bufsz fuel hs accs.
Proof.
  intros S H bld cap rd write fl1 fl2 etext hd bufsz fuel hs s accs.
  assert (Hw : forall f d w, write_all bld (mkWriter write fl1) f d w = write_all bld (mkWriter write fl2) f d w).
  { induction f as [|f IH]; intros d w; destruct d as [|x d]; cbn [write_all]; auto. cbn [wr].
    destruct (write (x :: d) w) as [[[|k]|e| |] w1]; auto; [destruct (_ <=? _); auto|destruct (is_retry bld e); auto]. }
  assert (Hp : forall ps w, write_pieces bld (mkWriter write fl1) fuel ps w = write_pieces bld (mkWriter write fl2) fuel ps w).
  { induction ps as [|p ps IH]; intros w; cbn [write_pieces]; auto. rewrite Hw.
    destruct (write_all bld (mkWriter write fl2) fuel p w) as [[u|e| |] w1]; cbn [sbind]; auto. }
  assert (Hc : forall rdb f n b w, copy_with bld rdb (write_all bld (mkWriter write fl1) fuel) bufsz f n b w
    = copy_with (St := hbody (bufr dynread)) bld rdb (write_all bld (mkWriter write fl2) fuel) bufsz f n b w).
  { induction f as [|f IH]; intros n b w; cbn [copy_with]; auto. destruct (rdb bufsz b) as [[[|x d]|e| |] b']; auto.
    - rewrite Hw. destruct (write_all bld (mkWriter write fl2) fuel (x :: d) w) as [[u|e| |] w']; auto.
    - destruct (is_retry bld e); auto. }
  assert (Hr : forall r w, respond bld cap (mkWriter write fl1) bufsz fuel r w = respond bld cap (mkWriter write fl2) bufsz fuel r w).
  { intros r w. unfold respond. rewrite Hp. destruct (write_pieces bld (mkWriter write fl2) fuel (response_pieces r) w) as [[u|e| |] w1]; auto.
    unfold copy. now rewrite Hc. }
  assert (Hs : forall hs s, serve_stream bld cap rd (mkWriter write fl1) etext hd bufsz fuel hs s
    = serve_stream bld cap rd (mkWriter write fl2) etext hd bufsz fuel hs s).
  { intros hs0 s0. unfold serve_stream. destruct (serve_one_inner bld cap rd etext hd fuel hs0 s0) as [[[[[r|r]|e| |] cs] h1] s1]; auto; now rewrite Hr. }
  split; [apply Hs|]. revert hs. induction accs as [|a accs IH]; intros hs; cbn [serve_forever]; auto.
  unfold serve_one. destruct a as [s0|e| |]; auto.
  - rewrite Hs. destruct (serve_stream bld cap rd (mkWriter write fl2) etext hd bufsz fuel hs s0) as [[[[u|e| |] cs] h1] s1]; auto; now rewrite IH.
  - now rewrite IH.
Qed.
Print Assumptions C55_server_never_flushes.

(** So over a stream that holds its output back until it is flushed, a served request can be answered by nothing:
    [hold] is such a stream (sent bytes, held bytes, input). *)
Definition hold := (bytes * bytes * list event)%type.
Definition hold_read : reader hold := fun n s => let '(x, t) := seg_read n (snd s) in (x, (fst s, t)).
Definition hold_writer : writer hold :=
  mkWriter (fun d s => (Ok (length d), (fst (fst s), snd (fst s) ++ d, snd s)))
           (fun s => (Ok tt, (fst (fst s) ++ snd (fst s), [], snd s))).

Lemma hold_honest : honest hold_writer (fun s => fst (fst s) ++ snd (fst s)).
Proof.
  split.
  - intros d [[a b] i] r s' H. cbn in H. injection H as <- <-. cbn. split; [lia|]. now rewrite firstn_all, app_assoc.
  - intros [[a b] i] r s' H. cbn in H. injection H as <- <-. cbn. apply app_nil_r.
Qed.

Theorem C55_response_delivered_refuted :
  exists (s : hold), let '(x, cs, _, s') := serve_stream Std 16 hold_read hold_writer (fun _ _ => []) (echo) 16 300 [] s in
    x = Ok tt /\ cs = [Called Get (bs "/x")] /\ snd (fst s') = reply (bs "200 OK") (bs "/x") /\ fst (fst s') = [].
Proof.
  exists ([], [], segs [bs "GET /x HTTP/1.1" ++ CRLF ++ CRLF]). vm_compute. repeat split; reflexivity.
Qed.
Print Assumptions C55_response_delivered_refuted.

(** The client over the same stream: after [finish_send] nothing is held back. *)
Example C55_case :
  by_flush hold_writer (fun s => snd (fst s) = [])
  /\ match send Std 16 hold_writer 300 (mkRequest Put (bs "/up") v11 [(bs "host", bs "h")] tt) ([], [], []) with
     | (Ok o, _) =>
         match run_ops Std 16 hold_writer 300 [Write (bs "hello"); Flush; Write (bs "!")] o with
         | (Ok _, o1) =>
             match finish_send Std 16 hold_writer 300 o1 with
             | (Ok _, (sent, held, _)) => held = [] /\ sent = bs "PUT /up HTTP/1.1" ++ CRLF ++ bs "host: h" ++ CRLF ++ CRLF
                 ++ bs "5" ++ CRLF ++ bs "hello" ++ CRLF ++ bs "1" ++ CRLF ++ bs "!" ++ CRLF ++ bs "0" ++ CRLF ++ CRLF
             | _ => False
             end
         | _ => False
         end
     | _ => False
     end.
Proof. split; [intros [[a b] i] s' H; injection H as <-; reflexivity|]. vm_compute. split; reflexivity. Qed.

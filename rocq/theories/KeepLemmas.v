(** What every operation of the client preserves about the socket below it. *)
From Verif Require Import Base Num Io Types Message Outgoing Client Lemmas SimLemmas.

(** [P] survives every read, write and flush of the socket. *)
Record kept {S} (rd : reader S) (wt : writer S) (P : S -> Prop) : Prop := {
  kept_read : forall n s, P s -> P (snd (rd n s));
  kept_write : forall d s, P s -> P (snd (wr wt d s));
  kept_flush : forall s, P s -> P (snd (fl wt s)) }.

Section Keep.
  Context {S : Type} (bld : build) (cap : nat) (rd : reader S) (wt : writer S) (P : S -> Prop) (HP : kept rd wt P).

  Definition bkeep (b : bufw S) : Prop := P (bw_inner b).
  Definition okeep (o : outgoing S) : Prop := P (out_sock o).

  Lemma write_all_keep : forall fuel data s, P s -> P (snd (write_all bld wt fuel data s)).
  Proof using HP.
    induction fuel as [|f IH]; intros data s H; destruct data as [|d data]; cbn [write_all]; auto.
    pose proof (kept_write _ _ _ HP (d :: data) s H) as H1. destruct (wr wt (d :: data) s) as [[[|k]|e| |] s1]; cbn [snd] in *; auto.
    - destruct (_ <=? _); auto.
    - destruct (is_retry bld e); auto.
  Qed.
  Lemma flush_buf_keep : forall fuel b, bkeep b -> bkeep (snd (flush_buf wt fuel b)).
  Proof using HP.
    unfold bkeep. induction fuel as [|f IH]; intros [w buf] H; destruct buf as [|d data]; cbn [flush_buf bw_buf bw_inner] in *; auto.
    pose proof (kept_write _ _ _ HP (d :: data) w H) as H1. destruct (wr wt (d :: data) w) as [[[|k]|e| |] s1]; cbn [snd bw_inner] in *; auto.
    destruct (is_retry Std e); auto.
  Qed.
  Lemma bufw_write_all_keep fuel data b : bkeep b -> bkeep (snd (bufw_write_all bld cap wt fuel data b)).
  Proof using HP.
    intros H. unfold bufw_write_all. pose proof (write_all_keep fuel data) as Hw. destruct bld.
    - destruct (_ <? _); [exact H|].
      assert (Hf : bkeep (snd (if cap - length (bw_buf b) <? length data then flush_buf wt fuel b else (Ok tt, b)))).
      { destruct (_ <? _); [now apply flush_buf_keep|exact H]. }
      destruct (if _ <? _ then flush_buf wt fuel b else (Ok tt, b)) as [[u|e| |] b1]; cbn [sbind snd] in *; auto.
      destruct (_ <=? _); [|exact Hf]. apply Hw in Hf. now destruct (write_all Std wt fuel data (bw_inner b1)).
    - apply Hw in H. now destruct (write_all NoStd wt fuel data (bw_inner b)).
  Qed.
  Lemma bufw_pieces_keep fuel : forall ps b, bkeep b -> bkeep (snd (bufw_pieces bld cap wt fuel ps b)).
  Proof using HP.
    induction ps as [|p ps IH]; intros b H; cbn [bufw_pieces]; auto. apply (bufw_write_all_keep fuel p) in H.
    destruct (bufw_write_all bld cap wt fuel p b) as [[u|e| |] b1]; cbn [sbind snd] in *; auto.
  Qed.
  Lemma bufw_flush_keep fuel b : bkeep b -> bkeep (snd (bufw_flush bld wt fuel b)).
  Proof using HP.
    intros H. unfold bufw_flush.
    assert (Hf : bkeep (snd (match bld with Std => flush_buf wt fuel b | NoStd => (Ok tt, b) end))).
    { destruct bld; [now apply flush_buf_keep|exact H]. }
    destruct (match bld with Std => flush_buf wt fuel b | NoStd => (Ok tt, b) end) as [[u|e| |] b1]; cbn [sbind snd] in *; auto.
    apply (kept_flush _ _ _ HP) in Hf. now destruct (fl wt (bw_inner b1)).
  Qed.
  Lemma bufw_into_inner_keep fuel b : bkeep b -> bkeep (snd (bufw_into_inner bld wt fuel b)).
  Proof using HP.
    intros H. unfold bufw_into_inner. destruct bld; [|exact H]. apply (flush_buf_keep fuel) in H.
    destruct (flush_buf wt fuel b) as [[u|e| |] b1]; exact H.
  Qed.
  Lemma bufw_drop_keep fuel b : bkeep b -> P (bufw_drop bld wt fuel b).
  Proof using HP. intros H. unfold bufw_drop. destruct bld; [|exact H]. now apply (flush_buf_keep fuel) in H. Qed.
  Lemma fail_drop_keep {A} fuel e b : bkeep b -> P (snd (@fail_drop S bld wt A fuel e b)).
  Proof using HP. intros H. unfold fail_drop. destruct e; try exact H. now apply bufw_drop_keep. Qed.

  Lemma request_serialize_keep {B} fuel (r : request B) b : bkeep b ->
    P (snd (request_serialize bld cap wt fuel r b))
    /\ forall o, fst (request_serialize bld cap wt fuel r b) = Ok o -> okeep o.
  Proof using HP.
    intros H. unfold request_serialize. apply (bufw_pieces_keep fuel (request_pieces r)) in H.
    destruct (bufw_pieces bld cap wt fuel (request_pieces r) b) as [[u|e| |] b1]; cbn [snd] in H.
    2-4: (split; [now apply fail_drop_keep|]); now intros o.
    destruct (has_body (rq_method r)).
    { split; [exact H|]. intros o [= <-]. exact H. }
    apply (bufw_into_inner_keep fuel) in H. destruct (bufw_into_inner bld wt fuel b1) as [[v|e| |] b2]; cbn [snd] in H.
    2-4: (split; [now apply fail_drop_keep|]); now intros o.
    split; [exact H|]. intros o [= <-]. exact H.
  Qed.
  Lemma send_keep fuel r s : P s ->
    P (snd (send bld cap wt fuel r s)) /\ forall o, fst (send bld cap wt fuel r s) = Ok o -> okeep o.
  Proof using HP. intros H. now apply request_serialize_keep. Qed.

  Lemma outgoing_write_keep fuel data o : okeep o -> okeep (snd (outgoing_write bld cap wt fuel data o)).
  Proof using HP.
    intros H. destruct o as [s|b]; cbn [outgoing_write]; [exact H|]. change (bkeep b) in H. unfold outbody_write.
    destruct data as [|d data]; [exact H|].
    apply (bufw_pieces_keep fuel [show_hex (N.of_nat (length (d :: data))); CRLF]) in H.
    destruct (bufw_pieces bld cap wt fuel [show_hex (N.of_nat (length (d :: data))); CRLF] b) as [[u|e| |] b1]; cbn [sbind snd] in *; auto.
    apply (bufw_write_all_keep fuel (d :: data)) in H.
    destruct (bufw_write_all bld cap wt fuel (d :: data) b1) as [[u2|e| |] b2]; cbn [sbind snd] in *; auto.
    apply (bufw_pieces_keep fuel [CRLF]) in H.
    destruct (bufw_pieces bld cap wt fuel [CRLF] b2) as [[u3|e| |] b3]; cbn [sbind snd] in *; auto.
  Qed.
  Lemma outgoing_flush_keep fuel o : okeep o -> okeep (snd (outgoing_flush bld wt fuel o)).
  Proof using HP.
    intros H. destruct o as [s|b]; cbn [outgoing_flush]; [exact H|]. apply (bufw_flush_keep fuel) in H.
    now destruct (bufw_flush bld wt fuel b).
  Qed.
  Lemma outgoing_drop_keep fuel o : okeep o -> P (outgoing_drop bld wt fuel o).
  Proof using HP. intros H. destruct o; [exact H|]. now apply bufw_drop_keep. Qed.
  Lemma finish_send_keep fuel o : okeep o -> P (snd (finish_send bld cap wt fuel o)).
  Proof using HP.
    intros H. destruct o as [s|b]; cbn [finish_send]; [now apply (kept_flush _ _ _ HP)|].
    apply (bufw_pieces_keep fuel [bs "0" ++ CRLF ++ CRLF]) in H.
    destruct (bufw_pieces bld cap wt fuel [bs "0" ++ CRLF ++ CRLF] b) as [[u|e| |] b1]; cbn [snd] in H; try now apply fail_drop_keep.
    apply (bufw_flush_keep fuel) in H.
    destruct (bufw_flush bld wt fuel b1) as [[u2|e| |] b2]; cbn [snd] in H; try now apply fail_drop_keep.
    apply (bufw_into_inner_keep fuel) in H.
    destruct (bufw_into_inner bld wt fuel b2) as [[u3|e| |] b3]; cbn [snd] in H; try now apply fail_drop_keep. exact H.
  Qed.

  (** Reading: the socket compared with itself. *)
  Let Q (a b : S) : Prop := a = b /\ P a.
  Lemma read_self : sim Q rd rd.
  Proof using HP. intros n a b [<- H]. split; [reflexivity|]. split; [reflexivity|]. now apply (kept_read _ _ _ HP). Qed.
  Lemma response_keep fuel s : P s -> P (snd (response_deserialize bld rd fuel s))
    /\ forall resp, fst (response_deserialize bld rd fuel s) = Ok resp -> P (br_inner (body_reader (rs_body resp))).
  Proof using HP.
    intros H. unfold response_deserialize.
    pose proof (response_head_alike Q (crlf_next bld rd fuel) (crlf_next bld rd fuel)
      (fun a b h => crlf_sim bld Q rd rd read_self fuel [] a b h) fuel s s (conj eq_refl H)) as [_ [_ Hs]].
    destruct (response_head (crlf_next bld rd fuel) fuel s) as [[h|e| |] s1]; cbn [sbind fst snd] in *; split; auto; try easy.
    intros resp [= <-]. cbn. unfold body_new. destruct (match sh_encoding h with Some _ => _ | None => _ end); auto.
    destruct (sh_length h); auto.
  Qed.
  Lemma finish_keep fuel o : okeep o -> P (snd (finish bld cap rd wt fuel o))
    /\ forall resp, fst (finish bld cap rd wt fuel o) = Ok resp -> P (br_inner (body_reader (rs_body resp))).
  Proof using HP.
    intros H. unfold finish. apply (finish_send_keep fuel) in H.
    destruct (finish_send bld cap wt fuel o) as [[u|e| |] s1]; cbn [sbind snd fst] in *; auto; try now split.
    now apply response_keep.
  Qed.

  Let QB (a b : bufr S) : Prop := a = b /\ P (br_inner a).
  Lemma bufr_self : sim QB (bufr_read bld cap rd) (bufr_read bld cap rd).
  Proof using HP.
    intros n a b [<- H]. split; [reflexivity|]. split; [reflexivity|]. unfold bufr_read. destruct bld.
    - destruct (br_buf a) as [|c l]; [|exact H].
      destruct (_ <=? _).
      + apply (kept_read _ _ _ HP n) in H. now destruct (rd n (br_inner a)).
      + apply (kept_read _ _ _ HP cap) in H. destruct (rd cap (br_inner a)) as [[g|e| |] s1]; exact H.
    - apply (kept_read _ _ _ HP n) in H. now destruct (rd n (br_inner a)).
  Qed.
  Lemma body_read_keep fuel n b : P (br_inner (body_reader b)) ->
    P (br_inner (body_reader (snd (body_read bld (bufr_read bld cap rd) fuel n b)))).
  Proof using HP.
    intros H. assert (Hb : hb_sim QB b b).
    { destruct b as [l c|l t|t]; cbn in *; auto; try now split. split; auto. destruct c; cbn in *; now repeat split. }
    pose proof (body_sim bld QB _ _ bufr_self fuel n b b Hb) as [_ Hs]. apply hb_sim_reader in Hs. apply Hs.
  Qed.
End Keep.

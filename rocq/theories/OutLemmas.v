(** What outgoing requests put on the wire. *)
From Verif Require Import Base Num Io Types Message Outgoing Client Transport Lemmas WriteLemmas NumLemmas ChunkSpec.

(** One encoded chunk, as the client writes it, and the end of a body. *)
Definition chunk_of (data : bytes) : bytes :=
  match data with [] => [] | _ => show_hex (N.of_nat (length data)) ++ CRLF ++ data ++ CRLF end.
Definition last_chunk : bytes := bs "0" ++ CRLF ++ CRLF.

Lemma bs_app_prefix (l0 l m : bytes) : prefix l0 l -> prefix l (l0 ++ m) -> exists p, l = l0 ++ p /\ prefix p m.
Proof.
  intros [p ->] [q Hq]. exists p. split; auto. rewrite <- app_assoc in Hq. apply app_inv_head in Hq. now exists q.
Qed.

Section Grow.
  Context {W : Type} (wt : writer W) (log : W -> bytes) (Hh : honest wt log).
  Notation grows a b := (prefix (log a) (log b)).

  Lemma write_all_grows bld fuel data w r w' : write_all bld wt fuel data w = (r, w') -> grows w w'.
  Proof using Hh. intros H. apply (write_all_log _ _ Hh) in H as [(p & _ & ->) _]. apply prefix_self_app. Qed.
  Lemma wr_grows data w r w' : wr wt data w = (r, w') -> grows w w'.
  Proof using Hh.
    intros H. apply (honest_write _ _ Hh) in H. destruct r; [destruct H as [_ ->]; apply prefix_self_app| | |]; rewrite H; apply prefix_refl.
  Qed.
  Lemma flush_buf_grows : forall fuel b r b', flush_buf wt fuel b = (r, b') -> grows (bw_inner b) (bw_inner b').
  Proof using Hh.
    induction fuel as [|f IH]; intros [w buf] r b' H; destruct buf as [|d data]; cbn [flush_buf bw_buf bw_inner] in *;
      try (injection H as <- <-; apply prefix_refl).
    destruct (wr wt (d :: data) w) as [[[|k]|e| |] w1] eqn:E; apply wr_grows in E;
      try (injection H as <- <-; exact E).
    - apply IH in H. cbn in H. eauto using prefix_trans.
    - destruct (is_retry Std e); [|injection H as <- <-; exact E]. apply IH in H. cbn in H. eauto using prefix_trans.
  Qed.
  Lemma bufw_write_all_grows bld cap fuel data b r b' : bufw_write_all bld cap wt fuel data b = (r, b') ->
    grows (bw_inner b) (bw_inner b').
  Proof using Hh.
    intros H. unfold bufw_write_all in H. destruct bld.
    - destruct (_ <? _); [injection H as <- <-; apply prefix_refl|].
      destruct (if _ <? _ then flush_buf wt fuel b else (Ok tt, b)) as [rf b1] eqn:Ef.
      assert (H1 : grows (bw_inner b) (bw_inner b1)).
      { destruct (_ <? _); [now apply flush_buf_grows in Ef|]. injection Ef as <- <-. apply prefix_refl. }
      destruct rf; cbn [sbind] in H; try (injection H as <- <-; exact H1).
      destruct (_ <=? _); [|injection H as <- <-; exact H1].
      destruct (write_all Std wt fuel data (bw_inner b1)) as [x w'] eqn:E. apply write_all_grows in E.
      injection H as <- <-. cbn. eauto using prefix_trans.
    - destruct (write_all NoStd wt fuel data (bw_inner b)) as [x w'] eqn:E. apply write_all_grows in E.
      injection H as <- <-. exact E.
  Qed.
  Lemma bufw_pieces_grows bld cap fuel : forall ps b r b', bufw_pieces bld cap wt fuel ps b = (r, b') ->
    grows (bw_inner b) (bw_inner b').
  Proof using Hh.
    induction ps as [|p ps IH]; intros b r b' H; cbn [bufw_pieces] in H; [injection H as <- <-; apply prefix_refl|].
    destruct (bufw_write_all bld cap wt fuel p b) as [[u|e| |] b1] eqn:E; apply bufw_write_all_grows in E; cbn [sbind] in H;
      try (injection H as <- <-; exact E). apply IH in H. eauto using prefix_trans.
  Qed.
  Lemma bufw_flush_grows bld fuel b r b' : bufw_flush bld wt fuel b = (r, b') -> grows (bw_inner b) (bw_inner b').
  Proof using Hh.
    intros H. unfold bufw_flush in H.
    destruct (match bld with Std => flush_buf wt fuel b | NoStd => (Ok tt, b) end) as [rf b1] eqn:E.
    assert (H1 : grows (bw_inner b) (bw_inner b1)).
    { destruct bld; [now apply flush_buf_grows in E|]. injection E as <- <-. apply prefix_refl. }
    destruct rf as [[]|e| |]; cbn [sbind] in H; try (injection H as <- <-; exact H1).
    destruct (fl wt (bw_inner b1)) as [x w'] eqn:Ef. apply (honest_flush _ _ Hh) in Ef. injection H as <- <-. cbn. now rewrite Ef.
  Qed.
  Lemma bufw_into_inner_grows bld fuel b r b' : bufw_into_inner bld wt fuel b = (r, b') -> grows (bw_inner b) (bw_inner b').
  Proof using Hh.
    intros H. unfold bufw_into_inner in H. destruct bld; [|injection H as <- <-; apply prefix_refl].
    destruct (flush_buf wt fuel b) as [rf b1] eqn:E. apply flush_buf_grows in E. destruct rf; injection H as <- <-; exact E.
  Qed.
  Lemma bufw_drop_grows bld fuel b : grows (bw_inner b) (bufw_drop bld wt fuel b).
  Proof using Hh.
    unfold bufw_drop. destruct bld; [|apply prefix_refl]. destruct (flush_buf wt fuel b) as [r b'] eqn:E.
    now apply flush_buf_grows in E.
  Qed.
End Grow.

Section Out.
  Context {S : Type} (bld : build) (cap : nat) (wt : writer S) (log : S -> bytes) (Hh : honest wt log).

  (** Everything accepted by the socket followed by what is still buffered. *)
  Definition olog (o : outgoing S) : bytes :=
    match o with ONoBody s => log s | OWithBody b => log (bw_inner b) ++ bw_buf b end.
  Definition oinv (o : outgoing S) : Prop :=
    match o with ONoBody s => True | OWithBody b => bufw_inv bld cap b end.
  Definition is_body (o : outgoing S) : bool := match o with ONoBody _ => false | OWithBody _ => true end.
  Definition terminator (body : bool) : bytes := if body then last_chunk else [].
  Definition encoded (body : bool) (data : bytes) : bytes := if body then chunk_of data else [].

  Lemma olog_sock o : prefix (log (out_sock o)) (olog o).
  Proof. destruct o; cbn; [apply prefix_refl|apply prefix_self_app]. Qed.

  (** A failing function drops the BufWriter. *)
  Lemma fail_drop_log {A} fuel e b (r : res A) s : fail_drop bld wt fuel e b = (r, s) ->
    prefix (log (bw_inner b)) (log s) /\ prefix (log s) (log (bw_inner b) ++ bw_buf b) /\ (forall a, r <> Ok a).
  Proof using Hh.
    unfold fail_drop. intros H.
    assert (H1 : forall s, s = bw_inner b \/ s = bufw_drop bld wt fuel b ->
      prefix (log (bw_inner b)) (log s) /\ prefix (log s) (log (bw_inner b) ++ bw_buf b)).
    { intros x [-> | ->]; split; auto using prefix_refl, prefix_self_app.
      - now apply bufw_drop_grows.
      - now apply (bufw_drop_log wt log Hh). }
    destruct e; injection H as <- <-; repeat split; try easy; apply H1; auto.
  Qed.

  Lemma request_serialize_log {B} fuel (r : request B) s x s1 :
    request_serialize bld cap wt fuel r (bufw_new s) = (x, s1) ->
    (exists p, prefix p (concat (request_pieces r)) /\ log s1 = log s ++ p)
    /\ (forall o, x = Ok o -> olog o = log s ++ concat (request_pieces r) /\ oinv o /\ out_sock o = s1
          /\ is_body o = has_body (rq_method r)).
  Proof using Hh.
    unfold request_serialize. intros H.
    destruct (bufw_pieces bld cap wt fuel (request_pieces r) (bufw_new s)) as [rp b1] eqn:E.
    pose proof (bufw_pieces_grows wt log Hh _ _ _ _ _ _ _ E) as G1. cbn [bw_inner bufw_new] in G1.
    apply (bufw_pieces_log wt log Hh) in E as [[(p & Hp & E) E1] Hi]; [|apply bufw_new_inv].
    unfold blog in *. cbn [bw_inner bw_buf bufw_new] in *. rewrite app_nil_r in *.
    assert (Hpre : forall s2, prefix (log (bw_inner b1)) (log s2) -> prefix (log s2) (log (bw_inner b1) ++ bw_buf b1) ->
      exists p, prefix p (concat (request_pieces r)) /\ log s2 = log s ++ p).
    { intros s2 A B0. rewrite E in B0.
      destruct (bs_app_prefix (log s) (log s2) p) as (q & -> & Hq); eauto using prefix_trans. }
    destruct rp as [u|e| |]; try (apply fail_drop_log in H as (A & B0 & C); split; [eauto|]; intros o ->; now elim (C o)).
    specialize (E1 (ex_intro _ u eq_refl)).
    destruct (has_body (rq_method r)).
    { injection H as <- <-. split; [apply Hpre; auto using prefix_refl, prefix_self_app|].
      intros o [= <-]. cbn. auto. }
    destruct (bufw_into_inner bld wt fuel b1) as [ri b2] eqn:E2.
    pose proof (bufw_into_inner_grows wt log Hh _ _ _ _ _ E2) as G2.
    apply (bufw_into_inner_log wt log Hh bld cap) in E2 as (F1 & F2 & F3); auto. unfold blog in *.
    destruct ri as [v|e| |].
    - specialize (F2 (ex_intro _ v eq_refl)). rewrite F2, app_nil_r in F1. injection H as <- <-. split.
      + apply Hpre; auto. rewrite <- F1. apply prefix_refl.
      + intros o [= <-]. cbn. rewrite F1, E1. auto.
    - apply fail_drop_log in H as (A & B0 & C). rewrite F1 in B0. split; [apply Hpre; eauto using prefix_trans|]. intros o ->. now elim (C o).
    - apply fail_drop_log in H as (A & B0 & C). rewrite F1 in B0. split; [apply Hpre; eauto using prefix_trans|]. intros o ->. now elim (C o).
    - apply fail_drop_log in H as (A & B0 & C). rewrite F1 in B0. split; [apply Hpre; eauto using prefix_trans|]. intros o ->. now elim (C o).
  Qed.

  Lemma outgoing_write_log fuel data o r o' : oinv o -> outgoing_write bld cap wt fuel data o = (r, o') ->
    extends r (olog o) (olog o') (encoded (is_body o) data) /\ oinv o' /\ is_body o' = is_body o
    /\ prefix (log (out_sock o)) (log (out_sock o'))
    /\ (forall n, r = Ok n -> n = length data /\ is_body o = true).
  Proof using Hh.
    intros Hi H. destruct o as [s|b]; cbn [outgoing_write] in H.
    { injection H as <- <-. split; [apply extends_nil|]. repeat split; easy. }
    destruct (outbody_write bld cap wt fuel data b) as [rw b'] eqn:E. injection H as <- <-. cbn [oinv olog is_body out_sock] in *.
    unfold encoded, outbody_write in *. destruct data as [|d data].
    { injection E as <- <-. repeat split; auto using prefix_refl; try congruence.
      - exists []. split; [apply prefix_refl|]. now rewrite app_nil_r.
      - intros _. cbn. now rewrite app_nil_r.
      - now injection H as <-. }
    set (dd := d :: data) in *. change (chunk_of dd) with (show_hex (N.of_nat (length dd)) ++ CRLF ++ dd ++ CRLF).
    destruct (bufw_pieces bld cap wt fuel [show_hex (N.of_nat (length dd)); CRLF] b) as [r1 b1] eqn:E1.
    pose proof (bufw_pieces_grows wt log Hh _ _ _ _ _ _ _ E1) as G1.
    apply (bufw_pieces_log wt log Hh) in E1 as [E1 I1]; auto. cbn [concat] in E1. rewrite app_nil_r in E1.
    change (CRLF ++ dd ++ CRLF) with (CRLF ++ (dd ++ CRLF)). rewrite (app_assoc (show_hex _) CRLF).
    destruct r1 as [u1|e| |]; cbn [sbind] in E.
    2-4: injection E as <- <-; repeat split; auto; try easy;
      [destruct (@extends_stop _ nat _ (Err EOther) _ _ _ (dd ++ CRLF) E1 ltac:(easy)) as [X _]; exact X
      |intros [? ?]; easy].
    destruct (bufw_write_all bld cap wt fuel dd b1) as [r2 b2] eqn:E2.
    pose proof (bufw_write_all_grows wt log Hh _ _ _ _ _ _ _ E2) as G2.
    apply (bufw_write_all_log wt log Hh) in E2 as [E2 I2]; auto.
    pose proof (extends_seq _ _ _ _ _ _ _ E1 (ex_intro _ u1 eq_refl) E2) as E12.
    rewrite (app_assoc _ dd CRLF). 
    destruct r2 as [u2|e| |]; cbn [sbind] in E.
    2-4: injection E as <- <-; repeat split; auto; try easy; eauto using prefix_trans;
      [destruct (@extends_stop _ nat _ (Err EOther) _ _ _ CRLF E12 ltac:(easy)) as [X _]; exact X
      |intros [? ?]; easy].
    destruct (bufw_pieces bld cap wt fuel [CRLF] b2) as [r3 b3] eqn:E3.
    pose proof (bufw_pieces_grows wt log Hh _ _ _ _ _ _ _ E3) as G3.
    apply (bufw_pieces_log wt log Hh) in E3 as [E3 I3]; auto. change (concat [CRLF]) with CRLF in E3.
    pose proof (extends_seq _ _ _ _ _ _ _ E12 (ex_intro _ u2 eq_refl) E3) as E123.
    destruct r3 as [u3|e| |]; cbn [sbind] in E; injection E as <- <-; repeat split; auto; try easy; eauto 6 using prefix_trans;
      try (destruct E123 as [X Y]; first [exact X|intros [? ?]; easy|intros _; apply Y; eauto]); try (intros [? ?]; easy).
    all: try (match goal with H : Ok _ = Ok _ |- _ => now injection H as <- end).
  Qed.

  Lemma outgoing_flush_log fuel o r o' : oinv o -> outgoing_flush bld wt fuel o = (r, o') ->
    olog o' = olog o /\ oinv o' /\ is_body o' = is_body o /\ prefix (log (out_sock o)) (log (out_sock o'))
    /\ (r = Ok tt -> log (out_sock o') = olog o).
  Proof using Hh.
    intros Hi H. destruct o as [s|b]; cbn [outgoing_flush] in H.
    { injection H as <- <-. repeat split; auto using prefix_refl. }
    destruct (bufw_flush bld wt fuel b) as [rf b'] eqn:E. injection H as <- <-. cbn in *.
    pose proof (bufw_flush_grows wt log Hh _ _ _ _ _ E) as G.
    apply (bufw_flush_log wt log Hh bld cap) in E as (E1 & E2 & E3); auto. unfold blog in *. repeat split; auto.
    intros ->. rewrite (E2 (ex_intro _ tt eq_refl)), app_nil_r in E1. auto.
  Qed.

  Lemma finish_send_log fuel o r s1 : oinv o -> finish_send bld cap wt fuel o = (r, s1) ->
    prefix (log (out_sock o)) (log s1) /\ prefix (log s1) (olog o ++ terminator (is_body o))
    /\ (r = Ok tt -> log s1 = olog o ++ terminator (is_body o)).
  Proof using Hh.
    intros Hi H. destruct o as [s|b]; cbn [finish_send] in H; cbn [out_sock olog is_body terminator].
    { apply (honest_flush _ _ Hh) in H. rewrite H, app_nil_r. repeat split; auto using prefix_refl. }
    cbn [oinv] in Hi. change (bs "0" ++ CRLF ++ CRLF) with last_chunk in H.
    destruct (bufw_pieces bld cap wt fuel [last_chunk] b) as [r1 b1] eqn:E1.
    pose proof (bufw_pieces_grows wt log Hh _ _ _ _ _ _ _ E1) as G1.
    apply (bufw_pieces_log wt log Hh) in E1 as [[(p & Hp & E1) E1'] I1]; auto. change (concat [last_chunk]) with last_chunk in *.
    unfold blog in *.
    assert (P1 : prefix (log (bw_inner b1) ++ bw_buf b1) ((log (bw_inner b) ++ bw_buf b) ++ last_chunk)).
    { rewrite E1. now apply prefix_cons. }
    destruct r1 as [u1|e| |].
    2-4: apply fail_drop_log in H as (A & B0 & C); repeat split; eauto using prefix_trans; intros ->; now elim (C tt).
    specialize (E1' (ex_intro _ u1 eq_refl)).
    destruct (bufw_flush bld wt fuel b1) as [r2 b2] eqn:E2.
    pose proof (bufw_flush_grows wt log Hh _ _ _ _ _ E2) as G2.
    apply (bufw_flush_log wt log Hh bld cap) in E2 as (E2 & E2' & I2); auto. unfold blog in *.
    destruct r2 as [u2|e| |].
    2-4: apply fail_drop_log in H as (A & B0 & C); rewrite E2 in B0; repeat split; eauto 6 using prefix_trans; intros ->; now elim (C tt).
    destruct (bufw_into_inner bld wt fuel b2) as [r3 b3] eqn:E3.
    pose proof (bufw_into_inner_grows wt log Hh _ _ _ _ _ E3) as G3.
    apply (bufw_into_inner_log wt log Hh bld cap) in E3 as (E3 & E3' & I3); auto. unfold blog in *.
    rewrite E2 in E3.
    destruct r3 as [u3|e| |].
    2-4: apply fail_drop_log in H as (A & B0 & C); rewrite E3 in B0; repeat split; eauto 7 using prefix_trans; intros ->; now elim (C tt).
    injection H as <- <-. rewrite (E3' (ex_intro _ u3 eq_refl)), app_nil_r in E3. rewrite E3, E1'.
    repeat split; auto using prefix_refl. rewrite <- E1', <- E3. eauto using prefix_trans.
  Qed.

  Lemma outgoing_drop_log fuel o : prefix (log (out_sock o)) (log (outgoing_drop bld wt fuel o))
    /\ prefix (log (outgoing_drop bld wt fuel o)) (olog o).
  Proof using Hh.
    destruct o as [s|b]; cbn; [split; apply prefix_refl|]. split; [now apply bufw_drop_grows|now apply (bufw_drop_log wt log Hh)].
  Qed.

  (** *** A caller that stops at the first error *)
  Inductive op := Write (data : bytes) | Flush.
  Definition op_wire (body : bool) (x : op) : bytes := match x with Write d => encoded body d | Flush => [] end.
  Fixpoint run_ops (fuel : nat) (ops : list op) (o : outgoing S) : res unit * outgoing S :=
    match ops with
    | [] => (Ok tt, o)
    | Write d :: t => dos _, o1 <- outgoing_write bld cap wt fuel d o; run_ops fuel t o1
    | Flush :: t => dos _, o1 <- outgoing_flush bld wt fuel o; run_ops fuel t o1
    end.

  Lemma run_ops_log fuel : forall ops o r o', oinv o -> run_ops fuel ops o = (r, o') ->
    extends r (olog o) (olog o') (flat_map (op_wire (is_body o)) ops) /\ oinv o' /\ is_body o' = is_body o
    /\ prefix (log (out_sock o)) (log (out_sock o')).
  Proof using Hh.
    induction ops as [|[d|] ops IH]; intros o r o' Hi H; cbn [run_ops] in H; cbn [flat_map op_wire].
    - injection H as <- <-. repeat split; auto using prefix_refl; try (intros _); try (now rewrite app_nil_r).
      exists []. split; [apply prefix_refl|now rewrite app_nil_r].
    - destruct (outgoing_write bld cap wt fuel d o) as [rw o1] eqn:E. apply outgoing_write_log in E as (E1 & E2 & E3 & E4 & E5); auto.
      destruct rw as [n|e| |]; cbn [sbind] in H.
      2-4: injection H as <- <-; repeat split; auto; [|intros [? ?]; easy];
        destruct (@extends_stop _ nat _ (Err EOther) _ _ _ (flat_map (op_wire (is_body o)) ops) E1 ltac:(easy)) as [X _]; exact X.
      apply IH in H as (H1 & H2 & H3 & H4); auto. rewrite E3 in *. repeat split; auto; eauto using prefix_trans.
      + now destruct (extends_seq _ _ _ _ _ _ _ E1 (ex_intro _ n eq_refl) H1) as [X Y].
      + intros Hr. now apply (extends_seq _ _ _ _ _ _ _ E1 (ex_intro _ n eq_refl) H1).
    - destruct (outgoing_flush bld wt fuel o) as [rw o1] eqn:E. apply outgoing_flush_log in E as (E1 & E2 & E3 & E4 & _); auto.
      cbn [app]. destruct rw as [n|e| |]; cbn [sbind] in H.
      2-4: injection H as <- <-; repeat split; auto; [|intros [? ?]; easy];
        exists []; split; [apply prefix_nil|now rewrite app_nil_r].
      apply IH in H as (H1 & H2 & H3 & H4); auto. rewrite E3, E1 in *. repeat split; auto; eauto using prefix_trans.
      + now destruct H1.
      + now destruct H1.
  Qed.
End Out.

(** *** Copying a body into an outgoing request *)
Definition firm {A} (bld : build) (r : res A) : Prop := forall e, r = Err e -> is_retry bld e = false.
Section NoRetry.
  Context {W : Type} (bld : build) (cap : nat) (wt : writer W).

  Lemma write_all_firm : forall fuel data w, firm bld (fst (write_all bld wt fuel data w)).
  Proof.
    induction fuel as [|f IH]; intros data w; destruct data as [|d data]; cbn [write_all]; try (intros e H; easy).
    destruct (wr wt (d :: data) w) as [[[|k]|e| |] w1]; try (intros e0 H; easy).
    - intros e [= <-]. now destruct bld.
    - destruct (_ <=? _); [apply IH|easy].
    - destruct (is_retry bld e) eqn:E; [apply IH|]. intros e0 [= <-]. exact E.
  Qed.
  Lemma flush_buf_firm : forall fuel b e, fst (flush_buf wt fuel b) = Err e -> is_retry Std e = false.
  Proof.
    induction fuel as [|f IH]; intros [w buf] e; destruct buf as [|d data]; cbn [flush_buf bw_buf bw_inner]; try easy.
    destruct (wr wt (d :: data) w) as [[[|k]|e1| |] w1]; try easy.
    - now intros [= <-].
    - apply IH.
    - destruct (is_retry Std e1) eqn:E; [apply IH|]. now intros [= <-].
  Qed.
  Lemma bufw_write_all_firm fuel data b : firm bld (fst (bufw_write_all bld cap wt fuel data b)).
  Proof.
    unfold bufw_write_all. pose proof write_all_firm as Hw. destruct bld.
    - destruct (_ <? _); [easy|]. destruct (if _ <? _ then flush_buf wt fuel b else (Ok tt, b)) as [rf b1] eqn:Ef.
      assert (Hf : forall e, rf = Err e -> is_retry Std e = false).
      { intros e ->. destruct (_ <? _); [|easy]. apply (flush_buf_firm fuel b). now rewrite Ef. }
      destruct rf as [u|e| |]; cbn [sbind]; [|intros e0 [= <-]; now apply Hf|easy|easy].
      destruct (_ <=? _); [|easy]. specialize (Hw fuel data (bw_inner b1)). now destruct (write_all Std wt fuel data (bw_inner b1)).
    - specialize (Hw fuel data (bw_inner b)). now destruct (write_all NoStd wt fuel data (bw_inner b)).
  Qed.
  Lemma bufw_pieces_firm fuel : forall ps b, firm bld (fst (bufw_pieces bld cap wt fuel ps b)).
  Proof.
    induction ps as [|p ps IH]; intros b; cbn [bufw_pieces]; [easy|]. pose proof (bufw_write_all_firm fuel p b) as H.
    destruct (bufw_write_all bld cap wt fuel p b) as [[u|e| |] b1]; cbn [sbind]; easy.
  Qed.
  Lemma outgoing_write_firm fuel data o : firm bld (fst (outgoing_write bld cap wt fuel data o)).
  Proof.
    destruct o as [s|b]; cbn [outgoing_write]. { intros e [= <-]. now destruct bld. }
    unfold outbody_write. destruct data as [|d data]; [easy|]. set (dd := d :: data).
    pose proof (bufw_pieces_firm fuel [show_hex (N.of_nat (length dd)); CRLF] b) as H1.
    destruct (bufw_pieces bld cap wt fuel [show_hex (N.of_nat (length dd)); CRLF] b) as [[u|e| |] b1]; cbn [sbind]; try easy; try (intros e0 [= <-]; first [now apply H1]).
    pose proof (bufw_write_all_firm fuel dd b1) as H2.
    destruct (bufw_write_all bld cap wt fuel dd b1) as [[u2|e| |] b2]; cbn [sbind]; try easy; try (intros e0 [= <-]; first [now apply H2|now apply H1]).
    pose proof (bufw_pieces_firm fuel [CRLF] b2) as H3.
    destruct (bufw_pieces bld cap wt fuel [CRLF] b2) as [[u3|e| |] b3]; cbn [sbind]; try easy; try (intros e0 [= <-]; first [now apply H3|now apply H2|now apply H1]).
  Qed.
End NoRetry.

Section CopyOut.
  Context {S Bd : Type} (bld : build) (cap : nat) (wt : writer S) (log : S -> bytes) (Hh : honest wt log)
    (rdb : reader Bd) (bufsz : nat) (Hb : 0 < bufsz) (wfuel : nat) (Hw : 0 < wfuel).
  Notation wall := (write_all bld (outgoing_writer bld cap wt wfuel) wfuel).

  (** [write_all] on an outgoing request is one [write]. *)
  Lemma wall_once data o : data <> [] ->
    wall data o = match outgoing_write bld cap wt wfuel data o with
                  | (Ok _, o1) => (Ok tt, o1)
                  | (Err e, o1) => (Err e, o1)
                  | (Panic, o1) => (Panic, o1)
                  | (Fuel, o1) => (Fuel, o1)
                  end.
  Proof using Hw.
    clear dependent bufsz. intros Hd. destruct data as [|d data]; [easy|]. destruct wfuel as [|f] eqn:Ef; [lia|]. rewrite <- Ef in *.
    assert (E : forall g, write_all bld (outgoing_writer bld cap wt wfuel) (Datatypes.S g) (d :: data) o
      = match outgoing_write bld cap wt wfuel (d :: data) o with
        | (Ok O, w') => (Err (io_write_zero bld), w')
        | (Ok k, w') => if k <=? length (d :: data) then write_all bld (outgoing_writer bld cap wt wfuel) g (skipn k (d :: data)) w' else (Panic, w')
        | (Err e, w') => if is_retry bld e then write_all bld (outgoing_writer bld cap wt wfuel) g (d :: data) w' else (Err e, w')
        | (Panic, w') => (Panic, w') | (Fuel, w') => (Fuel, w') end) by reflexivity.
    rewrite Ef at 2. rewrite E. pose proof (outgoing_write_firm bld cap wt wfuel (d :: data) o) as Hf.
    destruct (outgoing_write bld cap wt wfuel (d :: data) o) as [[n|e| |] o1] eqn:Ew; auto.
    - assert (Hn : n = length (d :: data)).
      { destruct o as [s|b]; cbn [outgoing_write] in Ew; [easy|]. cbn [outbody_write] in Ew.
        destruct (bufw_pieces bld cap wt wfuel _ b) as [[?|?| |] b1]; cbn [sbind] in Ew; try easy.
        destruct (bufw_write_all bld cap wt wfuel _ b1) as [[?|?| |] b2]; cbn [sbind] in Ew; try easy.
        destruct (bufw_pieces bld cap wt wfuel _ b2) as [[?|?| |] b3]; cbn [sbind] in Ew; try easy.
        now injection Ew as <- _. }
      rewrite Hn. cbn [length]. change (Datatypes.S (length data)) with (length (d :: data)). rewrite Nat.leb_refl, skipn_all. now destruct f.
    - cbn [fst] in Hf. now rewrite (Hf e eq_refl).
  Qed.

  (** The chunks written by [copy]: [pieces] is how the reads cut the body. *)
  Lemma copy_out_log : forall fuel written s o xs r s' o', delivers rdb s xs -> oinv bld cap o ->
    copy_with bld rdb wall bufsz fuel written s o = (r, (s', o')) ->
    exists pieces xs1 xs2 q, xs = xs1 ++ xs2 /\ noisy bld (concat pieces) xs1
      /\ Forall (fun p => p <> [] /\ length p <= bufsz) pieces
      /\ prefix q (flat_map (encoded (is_body o)) pieces) /\ olog log o' = olog log o ++ q
      /\ oinv bld cap o' /\ is_body o' = is_body o /\ prefix (log (out_sock o)) (log (out_sock o'))
      /\ match r with
         | Ok n => xs2 = [] /\ q = flat_map (encoded (is_body o)) pieces /\ n = (written + N.of_nat (length (concat pieces)))%N
                   /\ (is_body o = false -> pieces = [])
         | _ => True
         end.
  Proof using Hb Hh Hw.
    induction fuel as [|f IH]; intros written s o xs r s' o' Hs Hi H; cbn [copy_with] in H.
    { injection H as <- <- <-. exists [], [], xs, []. rewrite app_nil_r. repeat split; auto using noisy_nil, prefix_refl. }
    specialize (delivers_pos rdb bufsz s xs Hb Hs) as Hr. destruct xs as [|[b|e] xs].
    - destruct Hr as (s1 & E1 & E2). rewrite E1 in H. injection H as <- <- <-.
      exists [], [], [], []. rewrite app_nil_r. repeat split; auto using noisy_nil, prefix_refl; [now rewrite app_nil_r|cbn; lia].
    - destruct Hr as (got & xs' & s1 & E1 & E2 & E3 & E4 & E5). rewrite E1 in H.
      destruct got as [|g got]; [easy|]. rewrite E4. set (gg := g :: got) in *. rewrite wall_once in H by easy.
      destruct (outgoing_write bld cap wt wfuel gg o) as [rw o1] eqn:Ew.
      apply (outgoing_write_log bld cap wt log Hh) in Ew as (W1 & W2 & W3 & W4 & W5); auto.
      destruct rw as [n|e| |].
      2-4: destruct W1 as [(p & P1 & P2) _]; injection H as <- <- <-; exists [gg], (map B gg), xs', p; cbn [concat flat_map];
        rewrite !app_nil_r; repeat split; auto using noisy_map_B.
      specialize (W5 n eq_refl) as [W5 W6]. apply IH with (xs := xs') in H; auto.
      destruct H as (ps & xs1 & xs2 & q & -> & H1 & H2 & H3 & H4 & H5 & H6 & H7 & H8).
      destruct W1 as [_ W1]. rewrite (W1 (ex_intro _ n eq_refl)) in H4. rewrite W3 in *.
      exists (gg :: ps), (map B gg ++ xs1), xs2, (encoded (is_body o) gg ++ q). cbn [concat flat_map]. repeat split; auto; eauto using prefix_trans.
      + now rewrite app_assoc.
      + now apply noisy_app_map.
      + now apply prefix_cons.
      + now rewrite H4, app_assoc.
      + destruct r as [m|e| |]; auto. destruct H8 as (-> & -> & -> & H8). repeat split; auto.
        * rewrite app_length. lia.
        * rewrite W6. easy.
    - destruct Hr as (s1 & E1 & E2). rewrite E1 in H. destruct (is_retry bld e) eqn:Ee.
      + apply IH with (xs := xs) in H; auto. destruct H as (ps & xs1 & xs2 & q & -> & H1 & H2 & H3 & H4 & H5 & H6 & H7 & H8).
        exists ps, (E e :: xs1), xs2, q. repeat split; auto. now constructor.
      + injection H as <- <- <-. exists [], [], (E e :: xs), []. rewrite app_nil_r. repeat split; auto using noisy_nil, prefix_refl.
  Qed.

  (** On a reliable socket everything is sent. *)
  Lemma outgoing_write_reliable data o : reliable wt -> oinv bld cap o -> is_body o = true -> data <> [] ->
    length (chunk_of data) <= wfuel -> cap <= wfuel ->
    exists o', outgoing_write bld cap wt wfuel data o = (Ok (length data), o') /\ oinv bld cap o' /\ is_body o' = true
      /\ olog log o' = olog log o ++ chunk_of data.
  Proof using Hh.
    clear Hw. clear dependent bufsz. intros Hr Hi Ho Hd Hf Hc. destruct o as [s|b]; [easy|]. cbn [outgoing_write oinv olog] in *.
    destruct data as [|d data]; [easy|]. cbn [outbody_write]. set (dd := d :: data) in *.
    change (chunk_of dd) with (show_hex (N.of_nat (length dd)) ++ CRLF ++ dd ++ CRLF) in *.
    rewrite !app_length in Hf.
    destruct (bufw_pieces_reliable wt log Hh bld cap wfuel [show_hex (N.of_nat (length dd)); CRLF] b Hr Hi) as (b1 & -> & E1 & I1); auto.
    { cbn [concat]. rewrite app_nil_r, app_length. lia. }
    cbn [sbind]. destruct (bufw_write_all_reliable wt log Hh bld cap wfuel dd b1 Hr I1) as (b2 & -> & E2 & I2); [lia|eauto using bufw_inv_fuel|].
    cbn [sbind]. destruct (bufw_pieces_reliable wt log Hh bld cap wfuel [CRLF] b2 Hr I2) as (b3 & -> & E3 & I3); auto.
    { cbn [concat]. rewrite app_nil_r. lia. }
    cbn [sbind]. exists (OWithBody b3). repeat split; auto. cbn [olog]. unfold blog in *.
    rewrite E3, E2, E1. cbn [concat]. rewrite !app_nil_r, <- !app_assoc. reflexivity.
  Qed.
  Lemma copy_out_reliable : reliable wt -> cap <= wfuel ->
    (forall data, length data <= bufsz -> length (chunk_of data) <= wfuel) ->
    forall fuel written s o xs data, delivers rdb s xs -> noisy bld data xs -> length xs < fuel ->
    oinv bld cap o -> is_body o = true ->
    exists s' o' n, copy_with bld rdb wall bufsz fuel written s o = (Ok n, (s', o')).
  Proof using Hb Hh Hw.
    intros Hr Hc Hl. induction fuel as [|f IH]; intros written s o xs data Hs Hn Hf Hi Ho; [lia|]. cbn [copy_with].
    specialize (delivers_pos rdb bufsz s xs Hb Hs) as Hp. destruct xs as [|[b|e] xs].
    - destruct Hp as (s1 & -> & _). eauto.
    - destruct Hp as (got & xs' & s1 & -> & E2 & E3 & E4 & E5). destruct got as [|g got]; [easy|]. set (gg := g :: got) in *.
      rewrite wall_once by easy.
      destruct (outgoing_write_reliable gg o Hr Hi Ho ltac:(easy) (Hl gg E3) Hc) as (o1 & -> & H1 & H2 & H3).
      rewrite E4 in Hn.
      assert (Hd : exists data', noisy bld data' xs').
      { clear -Hn. clearbody gg. revert data Hn; induction gg as [|x gg IH]; intros data Hn; simpl in *.
        - eauto.
        - inversion Hn as [|? d ? Hn'|]; subst. eauto. }
      destruct Hd as [data' Hd]. apply (IH _ s1 o1 xs' data'); auto.
      assert (Hx : length (B b :: xs) = length (map B gg ++ xs')) by congruence.
      rewrite app_length, map_length in Hx. subst gg. simpl in *. lia.
    - destruct Hp as (s1 & -> & E2). inversion Hn as [| |? ? ? He Hn']; subst. rewrite He.
      apply (IH _ s1 o xs data); auto. simpl in Hf. lia.
  Qed.
End CopyOut.

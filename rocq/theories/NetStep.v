(** What one more answer does, and what a blocked program would do if it were answered. *)
From Verif Require Import Base Utf8 Case Num Io Parser Types Message Outgoing Client Server Transport Lemmas SimLemmas OutLemmas KeepLemmas NetLemmas Net NetSock.

(** A program that uses its socket only by reading, writing and flushing. *)
Definition process (A : Type) := forall S, reader S -> writer S -> S -> res A * S.
Definition lax_process {A} (F : process A) : Prop :=
  forall S1 S2 (R Q : S1 -> S2 -> Prop) rd1 rd2 wt1 wt2,
  laxr Q (fun s => s) (fun s => s) R rd1 rd2 ->
  (forall d, laxg Q (fun s => s) (fun s => s) R (fun s => s) (fun s => s) R (wr wt1 d) (wr wt2 d)) ->
  laxg Q (fun s => s) (fun s => s) R (fun s => s) (fun s => s) R (fl wt1) (fl wt2) ->
  laxg Q (fun s => s) (fun s => s) R (fun s => s) (fun s => s) R (F S1 rd1 wt1) (F S2 rd2 wt2).

Lemma process_keep {A S} (F : process A) rd (wt : writer S) P s : lax_process F -> kept rd wt P -> P s -> P (snd (F S rd wt s)).
Proof.
  intros HF [K1 K2 K3] Hs.
  set (wt2 := mkWriter (fun d (u : unit) => (@Panic nat, u)) (fun u => (@Panic unit, u))).
  assert (H : laxg (fun a (_ : unit) => P a) (fun s => s) (fun s => s) (fun _ _ => False) (fun s => s) (fun s => s) (fun _ _ => False)
    (F S rd wt) (F unit (fun n u => (@Panic bytes, u)) wt2)).
  { apply HF; [intros n|intros d|]; split; cbn; auto; intros; contradiction. }
  exact (lg_l _ _ _ _ _ _ _ _ _ H s tt Hs).
Qed.

(** *** The processes *)
Definition client_process {A} bld cap fuel r ops (p : status -> headers -> prog A) : process (status * headers * A) :=
  fun S rd wt => client_run bld cap rd wt fuel r ops p.
Lemma client_process_lax {A} bld cap fuel r ops (p : status -> headers -> prog A) : lax_process (client_process bld cap fuel r ops p).
Proof. intros S1 S2 R Q rd1 rd2 wt1 wt2 H1 H2 H3. now apply client_run_lax. Qed.
Definition send_process bld cap fuel r ops : process unit := fun S rd wt => client_send bld cap wt fuel r ops.
Lemma send_process_lax bld cap fuel r ops : lax_process (send_process bld cap fuel r ops).
Proof. intros S1 S2 R Q rd1 rd2 wt1 wt2 H1 H2 H3. now apply client_send_lax. Qed.
Definition recv_process {A} bld cap fuel (p : status -> headers -> prog A) : process (status * headers * A) := fun S rd wt => client_recv bld cap rd fuel p.
Lemma recv_process_lax {A} bld cap fuel (p : status -> headers -> prog A) : lax_process (recv_process bld cap fuel p).
Proof. intros S1 S2 R Q rd1 rd2 wt1 wt2 H1 H2 H3. now apply client_recv_lax. Qed.
Definition server_process {H} bld cap etext (hd : handler H) bufsz fuel hs : process (res unit * list call * H) :=
  fun S rd wt => server_run bld cap rd wt etext hd bufsz fuel hs.
Lemma server_process_lax {H} bld cap etext (hd : handler H) bufsz fuel hs : lax_process (server_process bld cap etext hd bufsz fuel hs).
Proof. intros S1 S2 R Q rd1 rd2 wt1 wt2 H1 H2 H3. now apply server_run_lax. Qed.
Definition inner_process {H} bld cap etext (hd : handler H) fuel hs : process (hresult * list call * H) :=
  fun S rd wt => inner bld cap etext hd rd fuel hs.
Lemma inner_process_lax {H} bld cap etext (hd : handler H) fuel hs : lax_process (inner_process bld cap etext hd fuel hs).
Proof. intros S1 S2 R Q rd1 rd2 wt1 wt2 H1 H2 H3. now apply inner_lax. Qed.
Definition answered_process {H} bld cap bufsz fuel (o : hresult * list call * H) : process (res unit * list call * H) :=
  fun S rd wt => answered bld cap wt bufsz fuel o.
Lemma answered_process_lax {H} bld cap bufsz fuel (o : hresult * list call * H) : lax_process (answered_process bld cap bufsz fuel o).
Proof. intros S1 S2 R Q rd1 rd2 wt1 wt2 H1 H2 H3. now apply answered_lax. Qed.

(** *** Invariants of the blocking socket *)
Ltac sock_cases s :=
  destruct s as [rs ws en se ta st]; cbn [k_reads k_writes k_end k_sent k_taken k_stop] in *.

(** A stopped socket stays as it is. *)
Lemma frozen_kept s0 q : k_stop s0 = Some q -> kept sock_read sock_writer (fun s => s = s0).
Proof.
  intros H. split; [intros n s ->|intros d s ->|intros s ->]; [unfold sock_read|cbn; unfold sock_write|cbn]; now rewrite H.
Qed.
(** What was given is what was taken and what is left. *)
Lemma given_kept all : kept sock_read sock_writer (fun s => k_taken s ++ concat (k_reads s) = all).
Proof.
  split; [intros n s H|intros d s H|intros s H]; sock_cases s; unfold sock_read, sock_writer, sock_write; cbn [wr fl k_reads k_writes k_end k_sent k_taken k_stop];
    destruct st; cbn; auto.
  - destruct n as [|n]; cbn; auto. destruct rs as [|x rs]; [now destruct en|].
    cbn [snd k_taken k_reads]. rewrite <- H. cbn [concat]. rewrite <- (firstn_skipn (S n) x) at 3. rewrite <- !app_assoc. do 2 f_equal.
    change (match x with [] => [] | _ :: l => skipn n l end) with (skipn (S n) x). now destruct (skipn (S n) x).
  - destruct d; cbn; auto. destruct ws; cbn; auto.
Qed.
Lemma end_kept e : kept sock_read sock_writer (fun s => k_end s = e /\ forall n, k_stop s = Some (ARead n) -> e = false /\ k_reads s = [] /\ 0 < n).
Proof.
  split; [intros n s [H K]|intros d s [H K]|intros s [H K]]; sock_cases s; unfold sock_read, sock_writer, sock_write; cbn [wr fl k_reads k_writes k_end k_sent k_taken k_stop];
    destruct st; cbn; auto.
  - destruct n as [|n]; cbn; auto. destruct rs as [|x rs]; [destruct en; cbn; auto|cbn; now split].
    split; auto. intros m [= <-]. repeat split; auto. lia.
  - destruct d; cbn; auto. destruct ws; cbn; split; auto; easy.
Qed.
Lemma write_kept : kept sock_read sock_writer (fun s => forall d, k_stop s = Some (AWrite d) -> k_writes s = [] /\ d <> []).
Proof.
  split; [intros n s K|intros d s K|intros s K]; sock_cases s; unfold sock_read, sock_writer, sock_write; cbn [wr fl k_reads k_writes k_end k_sent k_taken k_stop];
    destruct st; cbn; auto.
  - destruct n as [|n]; cbn; auto. destruct rs as [|x rs]; [destruct en; cbn; auto|cbn; easy]. easy.
  - destruct d; cbn; auto. destruct ws; cbn; try easy. intros d0 [= <-]. easy.
Qed.
(** Nothing left to answer with. *)
Definition spent (s : sock) : Prop := k_reads s = [] /\ k_writes s = [].
Lemma spent_kept : kept sock_read sock_writer spent.
Proof.
  split; [intros n s [H K]|intros d s [H K]|intros s [H K]]; sock_cases s; subst; unfold sock_read, sock_writer, sock_write; cbn [wr fl k_reads k_writes k_end k_sent k_taken k_stop];
    destruct st; cbn; try (split; auto; fail).
  - destruct n as [|n]; cbn; [split; auto|]. destruct en; split; auto.
  - destruct d; cbn; split; auto.
Qed.
Lemma sent_only_kept : forall x, kept sock_read sock_writer (fun s => prefix x (k_sent s)).
Proof.
  intros x. split; [intros n s H|intros d s H|intros s H]; sock_cases s; unfold sock_read, sock_writer, sock_write; cbn [wr fl k_reads k_writes k_end k_sent k_taken k_stop];
    destruct st; cbn; auto.
  - destruct n as [|n]; cbn; auto. destruct rs as [|y rs]; [destruct en|]; cbn; auto.
  - destruct d; cbn; auto. destruct ws; cbn; auto. destruct H as [t ->]. rewrite <- app_assoc. eexists. reflexivity.
Qed.
(** A spent socket sends and takes nothing any more. *)
Lemma spent_still_kept se0 ta0 : kept sock_read sock_writer (fun s => spent s /\ k_sent s = se0 /\ k_taken s = ta0).
Proof.
  split; [intros n s ((H & K) & <- & <-)|intros d s ((H & K) & <- & <-)|intros s ((H & K) & <- & <-)]; sock_cases s; subst;
    unfold sock_read, sock_writer, sock_write; cbn [wr fl k_reads k_writes k_end k_sent k_taken k_stop]; destruct st; cbn; try (repeat split; auto; fail).
  - destruct n as [|n]; cbn; [repeat split; auto|]. destruct en; repeat split; auto.
  - destruct d; cbn; repeat split; auto.
Qed.

(** *** One more answer *)
Section OneMore.
  Context {A : Type} (F : process A) (HF : lax_process F).
  Notation run s := (snd (F sock sock_read sock_writer s)).

  Ltac one a b := destruct a as [rs ws en se ta st], b as [rs' ws' en' se' ta' st']; cbn [k_reads k_writes k_end k_sent k_taken k_stop] in *.
  Ltac open := unfold sock_read, sock_writer, sock_write; cbn [wr fl k_reads k_writes k_end k_sent k_taken k_stop].

  Section Read.
    Context (d : bytes) (Hd : d <> []).
    Definition rd_R (a b : sock) : Prop :=
      k_stop a = None /\ k_stop b = None /\ k_reads b = k_reads a ++ [d] /\ k_writes b = k_writes a /\ k_end a = false /\ k_end b = false
      /\ k_sent b = k_sent a /\ k_taken b = k_taken a.
    Definition rd_Q (a b : sock) : Prop :=
      match k_stop a with
      | Some (ARead m) => length d <= m -> k_writes a = [] -> spent b /\ k_sent b = k_sent a /\ k_taken b = k_taken a ++ d
      | Some (AWrite _) => True
      | None => False
      end.
    Lemma rd_left rd (wt : writer sock) : rd = sock_read -> wt = sock_writer ->
      (forall n a b, rd_Q a b -> rd_Q (snd (rd n a)) b) /\ (forall n a b, rd_Q a b -> rd_Q (snd (wr wt n a)) b) /\ (forall a b, rd_Q a b -> rd_Q (snd (fl wt a)) b).
    Proof.
      intros -> ->. repeat split; [intros n a b H|intros n a b H|intros a b H]; unfold rd_Q in *; (destruct (k_stop a) as [q|] eqn:E; [|contradiction]);
        open; rewrite E; cbn [snd]; now rewrite E.
    Qed.
    Lemma rd_right a : forall n b, rd_Q a b -> rd_Q a (snd (sock_read n b)).
    Proof.
      intros n b H. unfold rd_Q in *. destruct (k_stop a) as [[m|x]|]; auto. intros H1 H2. specialize (H H1 H2).
      now apply (kept_read _ _ _ (spent_still_kept _ _)).
    Qed.
    Lemma rd_right_w a : forall x b, rd_Q a b -> rd_Q a (snd (sock_write x b)).
    Proof.
      intros n b H. unfold rd_Q in *. destruct (k_stop a) as [[m|x]|]; auto. intros H1 H2. specialize (H H1 H2).
      now apply (kept_write _ _ _ (spent_still_kept (k_sent a) (k_taken a ++ d)) n b).
    Qed.
    Lemma rd_right_f a : forall b, rd_Q a b -> rd_Q a (snd (fl sock_writer b)).
    Proof. intros b H. cbn. now destruct (k_stop b). Qed.
    Lemma one_read s s' n : rd_R s s' -> k_stop (run s) = Some (ARead n) -> length d <= n -> k_writes (run s) = [] ->
      spent (run s') /\ k_sent (run s') = k_sent (run s) /\ k_taken (run s') = k_taken (run s) ++ d.
    Proof using HF Hd.
      intros H0 E Hn Hw.
      assert (L : laxg rd_Q (fun s => s) (fun s => s) rd_R (fun s => s) (fun s => s) rd_R (F sock sock_read sock_writer) (F sock sock_read sock_writer)).
      { apply HF.
        - intros m. split; [|intros; now apply (rd_left sock_read sock_writer)|intros; now apply rd_right].
          intros a b (K1 & K2 & K3 & K4 & K5 & K6 & K7 & K8). one a b. subst. open. destruct m as [|m]; [left; now repeat split|].
          destruct rs as [|x rs]; cbn [app].
          + right. unfold rd_Q. cbn [snd k_stop]. cbn [k_writes k_sent k_taken snd]. intros Hl ->.
            rewrite skipn_all2, firstn_all2 by lia. repeat split; auto.
          + left. cbn [fst snd]. split; auto. repeat split; cbn; auto.
            change (match x with [] => [] | _ :: l => skipn m l end) with (skipn (S m) x). now destruct (skipn (S m) x).
        - intros x. cbn [wr sock_writer]. split; [|intros a b; now apply (rd_left sock_read sock_writer)|intros; now apply rd_right_w].
          intros a b (K1 & K2 & K3 & K4 & K5 & K6 & K7 & K8). one a b. subst. open. destruct x as [|x0 x]; [left; now repeat split|].
          destruct ws as [|k ws]; [right; exact I|]. left. now repeat split.
        - split; [|intros; now apply (rd_left sock_read sock_writer)|intros; now apply rd_right_f].
          intros a b (K1 & K2 & K3 & K4 & K5 & K6 & K7 & K8). one a b. subst. open. left. now repeat split. }
      destruct (lg_both _ _ _ _ _ _ _ _ _ L s s' H0) as [[_ (K & _)]|K]; [congruence|]. unfold rd_Q in K. rewrite E in K. auto.
    Qed.
  End Read.

  Section End_.
    Definition en_R (a b : sock) : Prop :=
      k_stop a = None /\ k_stop b = None /\ k_reads b = k_reads a /\ k_writes b = k_writes a /\ k_end a = false /\ k_end b = true
      /\ k_sent b = k_sent a /\ k_taken b = k_taken a.
    Definition en_Q (a b : sock) : Prop :=
      match k_stop a with
      | Some (ARead m) => k_writes a = [] -> spent b /\ k_sent b = k_sent a /\ k_taken b = k_taken a
      | Some (AWrite _) => True
      | None => False
      end.
    Lemma one_end s s' n : en_R s s' -> k_stop (run s) = Some (ARead n) -> k_writes (run s) = [] ->
      spent (run s') /\ k_sent (run s') = k_sent (run s) /\ k_taken (run s') = k_taken (run s).
    Proof using HF.
      intros H0 E Hw.
      assert (Hleft : forall P : sock -> Prop, kept sock_read sock_writer P -> True) by auto.
      assert (L : laxg en_Q (fun s => s) (fun s => s) en_R (fun s => s) (fun s => s) en_R (F sock sock_read sock_writer) (F sock sock_read sock_writer)).
      { apply HF.
        - intros m. split.
          + intros a b (K1 & K2 & K3 & K4 & K5 & K6 & K7 & K8). one a b. subst. open. destruct m as [|m]; [left; now repeat split|].
            destruct rs as [|x rs].
            * right. unfold en_Q. cbn [snd k_stop k_writes k_sent k_taken]. intros H. cbn in *. subst. repeat split; auto.
            * left. cbn [fst snd]. split; auto. repeat split; cbn; auto.
          + intros a b H. unfold en_Q in *. destruct (k_stop a) as [q|] eqn:Eq; [|contradiction]. open. rewrite Eq. cbn. now rewrite Eq.
          + intros a b H. unfold en_Q in *. destruct (k_stop a) as [[q|q]|]; auto. intros H2. specialize (H H2). now apply (kept_read _ _ _ (spent_still_kept _ _)).
        - intros x. cbn [wr sock_writer]. split.
          + intros a b (K1 & K2 & K3 & K4 & K5 & K6 & K7 & K8). one a b. subst. open. destruct x as [|x0 x]; [left; now repeat split|].
            destruct ws as [|k ws]; [right; exact I|]. left. now repeat split.
          + intros a b H. unfold en_Q in *. destruct (k_stop a) as [q|] eqn:Eq; [|contradiction]. open. rewrite Eq. cbn. now rewrite Eq.
          + intros a b H. unfold en_Q in *. destruct (k_stop a) as [[q|q]|]; auto. intros H2. specialize (H H2).
            now apply (kept_write _ _ _ (spent_still_kept (k_sent a) (k_taken a)) x b).
        - split.
          + intros a b (K1 & K2 & K3 & K4 & K5 & K6 & K7 & K8). one a b. subst. open. left. now repeat split.
          + intros a b H. cbn. now destruct (k_stop a).
          + intros a b H. cbn. now destruct (k_stop b). }
      destruct (lg_both _ _ _ _ _ _ _ _ _ L s s' H0) as [[_ (K & _)]|K]; [congruence|]. unfold en_Q in K. rewrite E in K. auto.
    Qed.
  End End_.

  Section Write.
    Context (k : nat).
    Definition wr_R (a b : sock) : Prop :=
      k_stop a = None /\ k_stop b = None /\ k_reads b = k_reads a /\ k_writes b = k_writes a ++ [k] /\ k_end b = k_end a
      /\ k_sent b = k_sent a /\ k_taken b = k_taken a.
    Definition wr_Q (a b : sock) : Prop :=
      match k_stop a with
      | Some (AWrite x) => 1 <= k <= length x -> k_reads a = [] -> spent b /\ k_sent b = k_sent a ++ firstn k x /\ k_taken b = k_taken a
      | Some (ARead _) => True
      | None => False
      end.
    Lemma one_write s s' x : wr_R s s' -> k_stop (run s) = Some (AWrite x) -> 1 <= k <= length x -> k_reads (run s) = [] ->
      spent (run s') /\ k_sent (run s') = k_sent (run s) ++ firstn k x /\ k_taken (run s') = k_taken (run s).
    Proof using HF.
      intros H0 E Hk Hw.
      assert (L : laxg wr_Q (fun s => s) (fun s => s) wr_R (fun s => s) (fun s => s) wr_R (F sock sock_read sock_writer) (F sock sock_read sock_writer)).
      { apply HF.
        - intros m. split.
          + intros a b (K1 & K2 & K3 & K4 & K5 & K7 & K8). one a b. subst. open. destruct m as [|m]; [left; now repeat split|].
            destruct rs as [|y rs].
            * destruct en; [left; now repeat split|right; exact I].
            * left. cbn [fst snd]. split; auto. repeat split; cbn; auto.
          + intros a b H. unfold wr_Q in *. destruct (k_stop a) as [q|] eqn:Eq; [|contradiction]. open. rewrite Eq. cbn. now rewrite Eq.
          + intros a b H. unfold wr_Q in *. destruct (k_stop a) as [[q|q]|]; auto. intros H1 H2. specialize (H H1 H2).
            now apply (kept_read _ _ _ (spent_still_kept _ _)).
        - intros y. cbn [wr sock_writer]. split.
          + intros a b (K1 & K2 & K3 & K4 & K5 & K7 & K8). one a b. subst. open. destruct y as [|y0 y]; [left; now repeat split|].
            destruct ws as [|j ws]; cbn [app].
            * right. unfold wr_Q. cbn [snd k_stop k_reads k_sent k_taken]. intros H1 H2. cbn in H2. subst.
              assert (Ec : clip k (y0 :: y) = k) by (unfold clip; lia). rewrite Ec. repeat split; auto.
            * left. now repeat split.
          + intros a b H. unfold wr_Q in *. destruct (k_stop a) as [q|] eqn:Eq; [|contradiction]. open. rewrite Eq. cbn. now rewrite Eq.
          + intros a b H. unfold wr_Q in *. destruct (k_stop a) as [[q|q]|]; auto. intros H1 H2. specialize (H H1 H2).
            now apply (kept_write _ _ _ (spent_still_kept (k_sent a ++ firstn k q) (k_taken a)) y b).
        - split.
          + intros a b (K1 & K2 & K3 & K4 & K5 & K7 & K8). one a b. subst. open. left. now repeat split.
          + intros a b H. cbn. now destruct (k_stop a).
          + intros a b H. cbn. now destruct (k_stop b). }
      destruct (lg_both _ _ _ _ _ _ _ _ _ L s s' H0) as [[_ (K & _)]|K]; [congruence|]. unfold wr_Q in K. rewrite E in K. auto.
    Qed.
  End Write.
End OneMore.

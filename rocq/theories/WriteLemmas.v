(** Writers. *)
From Verif Require Import Base Io Transport Lemmas.

Lemma prefix_refl s : prefix s s.
Proof. exists []. now rewrite app_nil_r. Qed.
Lemma prefix_app p s t : prefix p s -> prefix p (s ++ t).
Proof. intros [u ->]. exists (u ++ t). now rewrite app_assoc. Qed.
Lemma prefix_cons a p s : prefix p s -> prefix (a ++ p) (a ++ s).
Proof. intros [u ->]. exists u. now rewrite app_assoc. Qed.
Lemma prefix_nil s : prefix [] s.
Proof. now exists s. Qed.
Lemma prefix_firstn k s : prefix (firstn k s) s.
Proof. exists (skipn k s). now rewrite firstn_skipn. Qed.
Lemma prefix_trans a b c : prefix a b -> prefix b c -> prefix a c.
Proof. intros [u ->] [v ->]. exists (u ++ v). now rewrite app_assoc. Qed.
Lemma prefix_self_app s t : prefix s (s ++ t).
Proof. now exists t. Qed.
#[export] Hint Resolve prefix_refl prefix_nil prefix_firstn prefix_self_app : core.

Lemma script_honest : honest script_writer snd.
Proof.
  split.
  - intros data [[|[k|e] t] out] r w' H; simpl in H; inversion H; subst; simpl; auto.
    + split; auto. now rewrite firstn_all.
    + split; auto. lia.
  - intros w r w' H. now inversion H.
Qed.

(** [log w' = log w ++ some prefix of data], all of it on success. *)
Definition extends {A} (r : res A) (before after data : bytes) : Prop :=
  (exists p, prefix p data /\ after = before ++ p) /\ ((exists a, r = Ok a) -> after = before ++ data).

Lemma extends_nil {A} (r : res A) l : extends r l l [].
Proof. split; intros; [exists []; split; auto|]; now rewrite app_nil_r. Qed.

Lemma extends_seq {A B} (r1 : res A) (r2 : res B) a b c x y :
  extends r1 a b x -> (exists v, r1 = Ok v) -> extends r2 b c y -> extends r2 a c (x ++ y).
Proof.
  intros [_ H1] Hr [[p [Hp ->]] H2]. rewrite (H1 Hr) in *. split.
  - exists (x ++ p). split; [now apply prefix_cons|]. now rewrite <- app_assoc.
  - intros H. rewrite (H2 H). now rewrite <- app_assoc.
Qed.

Lemma extends_stop {A B} (r1 : res A) (r2 : res B) a b x y :
  extends r1 a b x -> (forall v, r2 <> Ok v) -> extends r2 a b (x ++ y).
Proof.
  intros [[p [Hp ->]] _] Hr. split.
  - exists p. split; auto using prefix_app.
  - intros [v Hv]. now apply Hr in Hv.
Qed.

Section Honest.
  Context {W : Type} (wt : writer W) (log : W -> bytes) (Hh : honest wt log).

  Lemma write_all_log bld fuel data w r w' : write_all bld wt fuel data w = (r, w') ->
    extends r (log w) (log w') data.
  Proof using Hh.
    revert data w; induction fuel as [|f IH]; intros data w H; destruct data as [|d data]; cbn [write_all] in H.
    - inversion H; subst. apply extends_nil.
    - inversion H; subst. split; [|intros [? ?]; easy]. exists []. split; auto. now rewrite app_nil_r.
    - inversion H; subst. apply extends_nil.
    - destruct (wr wt (d :: data) w) as [rk w1] eqn:E. pose proof (honest_write _ _ Hh _ _ _ _ E) as Hw.
      assert (Hfail : log w1 = log w -> (forall a, r <> Ok a) -> w' = w1 -> extends r (log w) (log w') (d :: data)).
      { intros Hl Hr ->. split; [|intros [a Ha]; now apply Hr in Ha]. exists []. split; auto. now rewrite app_nil_r. }
      destruct rk as [k|e| |].
      + destruct Hw as [Hk Hl]. destruct k as [|k].
        * inversion H; subst. apply Hfail; auto; [|easy]. rewrite Hl. simpl. now rewrite app_nil_r.
        * rewrite (proj2 (Nat.leb_le _ _) Hk) in H. apply IH in H as [[p [Hp Hl']] Hok].
          rewrite Hl in *. split.
          -- exists (firstn (S k) (d :: data) ++ p). split; [|now rewrite app_assoc].
             rewrite <- (firstn_skipn (S k) (d :: data)) at 2. now apply prefix_cons.
          -- intros Ha. rewrite (Hok Ha), <- app_assoc. now rewrite firstn_skipn.
      + destruct (is_retry bld e).
        * apply IH in H. now rewrite Hw in H.
        * inversion H; subst. now apply Hfail.
      + inversion H; subst. now apply Hfail.
      + inversion H; subst. now apply Hfail.
  Qed.

  Lemma write_pieces_log bld fuel ps w r w' : write_pieces bld wt fuel ps w = (r, w') ->
    extends r (log w) (log w') (concat ps).
  Proof using Hh.
    revert w; induction ps as [|p ps IH]; intros w H; simpl in *.
    - inversion H; subst. apply extends_nil.
    - destruct (write_all bld wt fuel p w) as [[u|e| |] w1] eqn:E; apply write_all_log in E; simpl in H.
      + apply IH in H. eapply extends_seq; eauto.
      + inversion H; subst. eapply extends_stop; eauto. easy.
      + inversion H; subst. eapply extends_stop; eauto. easy.
      + inversion H; subst. eapply extends_stop; eauto. easy.
  Qed.

  (** Reliable writers succeed. *)
  Lemma write_all_reliable bld fuel data w : reliable wt -> length data <= fuel ->
    exists w', write_all bld wt fuel data w = (Ok tt, w') /\ log w' = log w ++ data.
  Proof using Hh.
    intros [Hr _] Hf.
    assert (Hex : exists w', write_all bld wt fuel data w = (Ok tt, w')).
    { revert data w Hf; induction fuel as [|f IH]; intros data w Hf; destruct data as [|d data]; cbn [write_all].
      - eauto.
      - simpl in Hf. lia.
      - eauto.
      - destruct (Hr (d :: data) w ltac:(easy)) as (k & w1 & E & Hk). rewrite E.
        destruct k as [|k]; [lia|]. rewrite (proj2 (Nat.leb_le _ _) (proj2 Hk)). apply IH.
        rewrite skipn_length. simpl in *. lia. }
    destruct Hex as [w' E]. exists w'. split; auto. apply write_all_log in E as [_ E]. apply E. eauto.
  Qed.

  Lemma write_pieces_reliable bld fuel ps w : reliable wt -> length (concat ps) <= fuel ->
    exists w', write_pieces bld wt fuel ps w = (Ok tt, w') /\ log w' = log w ++ concat ps.
  Proof using Hh.
    intros Hr. revert w; induction ps as [|p ps IH]; intros w Hf; simpl in *.
    - exists w. split; auto. now rewrite app_nil_r.
    - rewrite app_length in Hf.
      destruct (write_all_reliable bld fuel p w Hr ltac:(lia)) as (w1 & E1 & E2). rewrite E1. simpl.
      destruct (IH w1 ltac:(lia)) as (w' & E3 & E4). exists w'. split; auto. now rewrite E4, E2, app_assoc.
  Qed.

  (** *** BufWriter *)
  Definition blog (b : bufw W) : bytes := log (bw_inner b) ++ bw_buf b.

  Lemma flush_buf_log fuel b r b' : flush_buf wt fuel b = (r, b') ->
    blog b' = blog b /\ ((exists a, r = Ok a) -> bw_buf b' = []) /\ length (bw_buf b') <= length (bw_buf b).
  Proof using Hh.
    revert b; induction fuel as [|f IH]; intros [w buf] H; destruct buf as [|d data]; cbn [flush_buf bw_buf bw_inner] in H.
    - inversion H; subst. auto.
    - inversion H; subst. repeat split; auto. intros [? ?]; easy.
    - inversion H; subst. auto.
    - destruct (wr wt (d :: data) w) as [rk w1] eqn:E. pose proof (honest_write _ _ Hh _ _ _ _ E) as Hw.
      destruct rk as [k|e| |].
      + destruct Hw as [Hk Hl]. destruct k as [|k].
        * inversion H; subst. unfold blog. simpl in *. rewrite app_nil_r in Hl. rewrite Hl.
          repeat split; auto. intros [? ?]; easy.
        * apply IH in H as (H1 & H2 & H3). unfold blog in *. cbn [bw_inner bw_buf] in *. rewrite H1, Hl, <- app_assoc.
          change (d :: skipn k data) with (d :: skipn k data). repeat split; auto.
          -- f_equal. apply (firstn_skipn (S k) (d :: data)).
          -- eapply Nat.le_trans; [apply H3|]. rewrite skipn_length. simpl. lia.
      + destruct (is_retry Std e).
        * apply IH in H as (H1 & H2 & H3). unfold blog in *. simpl in *. rewrite H1, Hw. auto.
        * inversion H; subst. unfold blog. simpl. rewrite Hw. repeat split; auto. intros [? ?]; easy.
      + inversion H; subst. unfold blog. simpl. rewrite Hw. repeat split; auto. intros [? ?]; easy.
      + inversion H; subst. unfold blog. simpl. rewrite Hw. repeat split; auto. intros [? ?]; easy.
  Qed.

  Lemma flush_buf_reliable fuel b : reliable wt -> length (bw_buf b) <= fuel ->
    exists b', flush_buf wt fuel b = (Ok tt, b').
  Proof using W wt.
    intros [Hr _]. revert b; induction fuel as [|f IH]; intros [w buf] Hf; simpl in *; destruct buf as [|d data]; eauto.
    - simpl in Hf. lia.
    - destruct (Hr (d :: data) w ltac:(easy)) as (k & w1 & E & Hk). rewrite E.
      destruct k as [|k]; [lia|]. apply IH. cbn [bw_buf]. rewrite skipn_length. simpl in *. lia.
  Qed.

  (** The invariant of a BufWriter: no_std never buffers, std never beyond the capacity. *)
  Definition bufw_inv (bld : build) (cap : nat) (b : bufw W) : Prop :=
    match bld with Std => length (bw_buf b) <= cap | NoStd => bw_buf b = [] end.

  Lemma bufw_new_inv bld cap w : bufw_inv bld cap (bufw_new w).
  Proof. destruct bld; simpl; auto. lia. Qed.

  Lemma bufw_write_all_log bld cap fuel data b r b' : bufw_inv bld cap b ->
    bufw_write_all bld cap wt fuel data b = (r, b') ->
    extends r (blog b) (blog b') data /\ bufw_inv bld cap b'.
  Proof using Hh.
    intros Hi H. destruct bld; simpl in H.
    - destruct (length data <? cap - length (bw_buf b)) eqn:E1.
      { inversion H; subst. unfold blog. simpl. apply Nat.ltb_lt in E1. split.
        - rewrite app_assoc. split; eauto.
        - simpl in *. rewrite app_length. lia. }
      apply Nat.ltb_ge in E1. simpl in Hi.
      assert (Hfl : exists rf b1, (if cap - length (bw_buf b) <? length data then flush_buf wt fuel b else (Ok tt, b)) = (rf, b1)
         /\ blog b1 = blog b /\ length (bw_buf b1) <= length (bw_buf b)
         /\ ((exists a, rf = Ok a) -> bw_buf b1 = [] \/ length data = cap - length (bw_buf b) /\ b1 = b)).
      { destruct (cap - length (bw_buf b) <? length data) eqn:E2.
        - destruct (flush_buf wt fuel b) as [rf b1] eqn:E. apply flush_buf_log in E as (F1 & F2 & F3).
          exists rf, b1. auto 10.
        - apply Nat.ltb_ge in E2. exists (Ok tt), b. repeat split; auto. right. split; auto. lia. }
      destruct Hfl as (rf & b1 & Ef & Hl & Hlen & Hb1). rewrite Ef in H.
      assert (Hstop : forall rr : res unit, (forall v, rr <> Ok v) -> extends rr (blog b) (blog b1) data).
      { intros rr Hrr. split; [|intros [v Hv]; now apply Hrr in Hv]. exists []. split; auto.
        now rewrite app_nil_r. }
      destruct rf as [[]|e| |]; simpl in H.
      + specialize (Hb1 (ex_intro _ tt eq_refl)). destruct (cap <=? length data) eqn:E3.
        * apply Nat.leb_le in E3. destruct (write_all Std wt fuel data (bw_inner b1)) as [rw w1] eqn:Ew.
          inversion H; subst. apply write_all_log in Ew.
          assert (Hbuf : bw_buf b1 = [] \/ data = []).
          { destruct Hb1 as [Hb1|[Hb1 ->]]; auto. destruct (bw_buf b); auto. simpl in *.
            right. apply length_zero_iff_nil. lia. }
          unfold blog in *. simpl. rewrite <- Hl. split; [|simpl in *; lia].
          destruct Hbuf as [Hbuf| ->].
          -- rewrite Hbuf, !app_nil_r. exact Ew.
          -- destruct Ew as [[p [[t Ht] Hp]] _]. symmetry in Ht. apply app_eq_nil in Ht as [-> ->].
             rewrite Hp, app_nil_r. apply extends_nil.
        * inversion H; subst. apply Nat.leb_gt in E3. unfold blog in *. simpl. rewrite app_assoc, Hl. split.
          -- split; eauto.
          -- simpl. rewrite app_length. destruct Hb1 as [->|[Hb1 ->]]; simpl; lia.
      + inversion H; subst. split; [apply Hstop; easy|]. simpl. lia.
      + inversion H; subst. split; [apply Hstop; easy|]. simpl. lia.
      + inversion H; subst. split; [apply Hstop; easy|]. simpl. lia.
    - destruct (write_all NoStd wt fuel data (bw_inner b)) as [rw w1] eqn:Ew. inversion H; subst.
      apply write_all_log in Ew. unfold blog, bufw_inv in *. simpl. rewrite Hi, !app_nil_r. auto.
  Qed.

  Lemma bufw_pieces_log bld cap fuel ps b r b' : bufw_inv bld cap b ->
    bufw_pieces bld cap wt fuel ps b = (r, b') ->
    extends r (blog b) (blog b') (concat ps) /\ bufw_inv bld cap b'.
  Proof using Hh.
    revert b; induction ps as [|p ps IH]; intros b Hi H; simpl in *.
    - inversion H; subst. split; auto using extends_nil.
    - destruct (bufw_write_all bld cap wt fuel p b) as [[u|e| |] b1] eqn:E;
        apply bufw_write_all_log in E as [E Hi1]; auto; simpl in H.
      + apply IH in H as [H Hi2]; auto. split; auto. eapply extends_seq; eauto.
      + inversion H; subst. split; auto. eapply extends_stop; eauto. easy.
      + inversion H; subst. split; auto. eapply extends_stop; eauto. easy.
      + inversion H; subst. split; auto. eapply extends_stop; eauto. easy.
  Qed.

  Lemma bufw_flush_log bld cap fuel b r b' : bufw_inv bld cap b -> bufw_flush bld wt fuel b = (r, b') ->
    blog b' = blog b /\ ((exists a, r = Ok a) -> bw_buf b' = []) /\ bufw_inv bld cap b'.
  Proof using Hh.
    intros Hi H. unfold bufw_flush in H.
    destruct (match bld with Std => flush_buf wt fuel b | NoStd => (Ok tt, b) end) as [rf b1] eqn:E.
    assert (Hf : blog b1 = blog b /\ ((exists a, rf = Ok a) -> bw_buf b1 = []) /\ bufw_inv bld cap b1).
    { destruct bld.
      - apply flush_buf_log in E as (H1 & H2 & H3). repeat split; auto. simpl in *. lia.
      - inversion E; subst. auto. }
    destruct Hf as (H1 & H2 & H3). destruct rf as [[]|e| |]; simpl in H.
    - destruct (fl wt (bw_inner b1)) as [x w'] eqn:Ef. apply (honest_flush _ _ Hh) in Ef. inversion H; subst.
      unfold blog in *. simpl. rewrite Ef, H1, H2 by eauto. repeat split; auto.
      unfold bufw_inv in *. simpl. rewrite (H2 (ex_intro _ tt eq_refl)) in H3. auto.
    - inversion H; subst. repeat split; auto.
    - inversion H; subst. repeat split; auto.
    - inversion H; subst. repeat split; auto.
  Qed.

  Lemma bufw_into_inner_log bld cap fuel b r b' : bufw_inv bld cap b -> bufw_into_inner bld wt fuel b = (r, b') ->
    blog b' = blog b /\ ((exists a, r = Ok a) -> bw_buf b' = []) /\ bufw_inv bld cap b'.
  Proof using Hh.
    intros Hi H. unfold bufw_into_inner in H. destruct bld.
    - destruct (flush_buf wt fuel b) as [rf b1] eqn:E. apply flush_buf_log in E as (H1 & H2 & H3).
      assert (Hl : bufw_inv Std cap b1) by (simpl in *; lia).
      destruct rf as [[]|e| |]; inversion H; subst; repeat split; auto; intros [? ?]; easy.
    - inversion H; subst. auto.
  Qed.

  (** Dropping a BufWriter flushes what it can. *)
  Lemma bufw_drop_log bld fuel b : prefix (log (bufw_drop bld wt fuel b)) (blog b).
  Proof using Hh.
    unfold bufw_drop. destruct bld.
    - destruct (flush_buf wt fuel b) as [r b'] eqn:E. apply flush_buf_log in E as (H1 & H2 & H3). simpl.
      rewrite <- H1. apply prefix_self_app.
    - apply prefix_self_app.
  Qed.

  Lemma bufw_write_all_reliable bld cap fuel data b : reliable wt -> bufw_inv bld cap b ->
    length data <= fuel -> length (bw_buf b) <= fuel ->
    exists b', bufw_write_all bld cap wt fuel data b = (Ok tt, b') /\ blog b' = blog b ++ data /\ bufw_inv bld cap b'.
  Proof using Hh.
    intros Hr Hi Hf1 Hf2.
    assert (Hex : exists b', bufw_write_all bld cap wt fuel data b = (Ok tt, b')).
    { unfold bufw_write_all. destruct bld.
      - destruct (length data <? cap - length (bw_buf b)); eauto.
        assert (Hex : exists b1, (if cap - length (bw_buf b) <? length data then flush_buf wt fuel b else (Ok tt, b)) = (Ok tt, b1)).
        { destruct (_ <? _); eauto. now apply flush_buf_reliable. }
        destruct Hex as [b1 ->]. cbn [sbind]. destruct (cap <=? length data); eauto.
        destruct (write_all_reliable Std fuel data (bw_inner b1) Hr Hf1) as (w' & -> & _). eauto.
      - destruct (write_all_reliable NoStd fuel data (bw_inner b) Hr Hf1) as (w' & -> & _). eauto. }
    destruct Hex as [b' E]. exists b'. split; auto. apply bufw_write_all_log in E as [[_ E] Hi']; auto.
    split; auto. apply E. eauto.
  Qed.

  Lemma bufw_inv_fuel bld cap b fuel : bufw_inv bld cap b -> cap <= fuel -> length (bw_buf b) <= fuel.
  Proof. unfold bufw_inv. destruct bld; intros H Hf; [lia|]. rewrite H. simpl. lia. Qed.

  Lemma bufw_pieces_reliable bld cap fuel ps b : reliable wt -> bufw_inv bld cap b ->
    length (concat ps) <= fuel -> cap <= fuel ->
    exists b', bufw_pieces bld cap wt fuel ps b = (Ok tt, b') /\ blog b' = blog b ++ concat ps /\ bufw_inv bld cap b'.
  Proof using Hh.
    intros Hr. revert b; induction ps as [|p ps IH]; intros b Hi Hf Hc; simpl in *.
    - exists b. rewrite app_nil_r. auto.
    - rewrite app_length in Hf.
      destruct (bufw_write_all_reliable bld cap fuel p b Hr Hi ltac:(lia)) as (b1 & -> & E2 & E3).
      { eauto using bufw_inv_fuel. }
      cbn [sbind]. destruct (IH b1 E3 ltac:(lia) Hc) as (b2 & E4 & E5 & E6).
      exists b2. repeat split; auto. now rewrite E5, E2, app_assoc.
  Qed.

  Lemma bufw_flush_reliable bld cap fuel b : reliable wt -> bufw_inv bld cap b -> cap <= fuel ->
    exists b', bufw_flush bld wt fuel b = (Ok tt, b') /\ blog b' = blog b /\ bw_buf b' = [] /\ bufw_inv bld cap b'.
  Proof using Hh.
    intros Hr Hi Hc.
    assert (Hex : exists b', bufw_flush bld wt fuel b = (Ok tt, b')).
    { unfold bufw_flush.
      assert (Hex : exists b1, (match bld with Std => flush_buf wt fuel b | NoStd => (Ok tt, b) end) = (Ok tt, b1)).
      { destruct bld; eauto. apply flush_buf_reliable; eauto using bufw_inv_fuel. }
      destruct Hex as [b1 ->]. cbn [sbind]. destruct Hr as [_ Hfl]. destruct (Hfl (bw_inner b1)) as [w' ->]. eauto. }
    destruct Hex as [b' E]. exists b'. split; auto. apply (bufw_flush_log bld cap) in E as (E1 & E2 & E3); auto.
    repeat split; auto. apply E2. eauto.
  Qed.

  Lemma bufw_into_inner_reliable bld cap fuel b : reliable wt -> bufw_inv bld cap b -> cap <= fuel ->
    exists b', bufw_into_inner bld wt fuel b = (Ok tt, b') /\ blog b' = blog b /\ bw_buf b' = [].
  Proof using Hh.
    intros Hr Hi Hc.
    assert (Hex : exists b', bufw_into_inner bld wt fuel b = (Ok tt, b')).
    { unfold bufw_into_inner. destruct bld; eauto.
      destruct (flush_buf_reliable fuel b Hr) as [b' ->]; eauto. simpl in Hi. lia. }
    destruct Hex as [b' E]. exists b'. split; auto. apply (bufw_into_inner_log bld cap) in E as (E1 & E2 & E3); auto.
    split; auto. apply E2. eauto.
  Qed.
End Honest.

(** *** copy *)
(** What a [write_all]-like operation does to the log. *)
Definition wall_ok {W} (log : W -> bytes) (wall : bytes -> W -> res unit * W) : Prop :=
  forall data w r w', wall data w = (r, w') -> extends r (log w) (log w') data.

Lemma noisy_app_map bld got data xs : noisy bld data xs -> noisy bld (got ++ data) (map B got ++ xs).
Proof. induction got; simpl; auto. constructor; auto. Qed.

(** The outcome of [copy]: [data] was read (as the items [xs1]), a prefix of it was written. *)
Lemma copy_log {St W} bld (rd : reader St) wall (log : W -> bytes) bufsz : 0 < bufsz -> wall_ok log wall ->
  forall fuel written s w xs r s' w', delivers rd s xs ->
  copy_with bld rd wall bufsz fuel written s w = (r, (s', w')) ->
  exists data xs1 xs2 p, xs = xs1 ++ xs2 /\ noisy bld data xs1 /\ prefix p data /\ log w' = log w ++ p
    /\ match r with
       | Ok n => xs2 = [] /\ p = data /\ n = (written + N.of_nat (length data))%N /\ delivers rd s' []
       | Err e => (exists xs3, xs2 = E e :: xs3 /\ is_retry bld e = false /\ p = data /\ delivers rd s' xs3)
                  \/ delivers rd s' xs2
       | _ => delivers rd s' xs2
       end.
Proof.
  intros Hb Hw. induction fuel as [|f IH]; intros written s w xs r s' w' Hs H; cbn [copy_with] in H.
  { inversion H; subst. exists [], [], xs, []. repeat split; auto using noisy_nil. now rewrite app_nil_r. }
  specialize (delivers_pos rd bufsz s xs Hb Hs) as Hr. destruct xs as [|[b|e] xs].
  - destruct Hr as (s1 & E1 & E2). rewrite E1 in H. inversion H; subst.
    exists [], [], [], []. repeat split; auto using noisy_nil; try (now rewrite app_nil_r). simpl. lia.
  - destruct Hr as (got & xs' & s1 & E1 & E2 & E3 & E4 & E5). rewrite E1 in H.
    destruct got as [|g got]; [easy|]. rewrite E4. set (gg := g :: got) in *.
    destruct (wall gg w) as [rw w1] eqn:Ew. apply Hw in Ew. destruct rw as [[]|e| |].
    + apply IH with (xs := xs') in H; auto. destruct H as (data & xs1 & xs2 & p & -> & H1 & H2 & H3 & H4).
      destruct Ew as [_ Ew]. rewrite (Ew (ex_intro _ tt eq_refl)) in H3.
      exists (gg ++ data), (map B gg ++ xs1), xs2, (gg ++ p). repeat split.
      * now rewrite app_assoc.
      * now apply noisy_app_map.
      * now apply prefix_cons.
      * now rewrite H3, app_assoc.
      * destruct r as [n|e| |]; auto.
        -- destruct H4 as (-> & -> & -> & H5). repeat split; auto. rewrite app_length. lia.
        -- destruct H4 as [(xs3 & -> & H5 & -> & H6)|H4]; auto. left. exists xs3. auto.
    + destruct Ew as [[p [Hp Hl]] _]. inversion H; subst.
      exists gg, (map B gg), xs', p. repeat split; auto using noisy_map_B.
    + destruct Ew as [[p [Hp Hl]] _]. inversion H; subst.
      exists gg, (map B gg), xs', p. repeat split; auto using noisy_map_B.
    + destruct Ew as [[p [Hp Hl]] _]. inversion H; subst.
      exists gg, (map B gg), xs', p. repeat split; auto using noisy_map_B.
  - destruct Hr as (s1 & E1 & E2). rewrite E1 in H. destruct (is_retry bld e) eqn:Ee.
    + apply IH with (xs := xs) in H; auto. destruct H as (data & xs1 & xs2 & p & -> & H1 & H2 & H3 & H4).
      exists data, (E e :: xs1), xs2, p. repeat split; auto. now constructor.
    + inversion H; subst. exists [], [], (E e :: xs), []. repeat split; auto using noisy_nil.
      * now rewrite app_nil_r.
      * left. exists xs. auto.
Qed.

(** With a sink that takes everything, and enough fuel, [copy] transfers everything. *)
Lemma copy_complete {St W} bld (rd : reader St) wall (log : W -> bytes) bufsz : 0 < bufsz ->
  (forall data w, length data <= bufsz -> exists w', wall data w = (Ok tt, w') /\ log w' = log w ++ data) ->
  forall fuel written s w xs data, delivers rd s xs -> noisy bld data xs -> length xs < fuel ->
  exists s' w', copy_with bld rd wall bufsz fuel written s w
      = (Ok (written + N.of_nat (length data))%N, (s', w'))
    /\ log w' = log w ++ data /\ delivers rd s' [].
Proof.
  intros Hb Hw. induction fuel as [|f IH]; intros written s w xs data Hs Hn Hf; [lia|]. cbn [copy_with].
  specialize (delivers_pos rd bufsz s xs Hb Hs) as Hr. destruct xs as [|[b|e] xs].
  - destruct Hr as (s1 & E1 & E2). rewrite E1. inversion Hn; subst.
    exists s1, w. rewrite app_nil_r. repeat split; auto. f_equal. f_equal. simpl. lia.
  - destruct Hr as (got & xs' & s1 & E1 & E2 & E3 & E4 & E5). rewrite E1.
    destruct got as [|g got]; [easy|]. set (gg := g :: got) in *.
    destruct (Hw gg w E3) as (w1 & -> & Hl).
    rewrite E4 in Hn.
    assert (Hd : exists data', data = gg ++ data' /\ noisy bld data' xs').
    { clear -Hn. clearbody gg. revert data Hn; induction gg as [|x gg IH]; intros data Hn; simpl in *.
      - eauto.
      - inversion Hn as [|? d ? Hn'|]; subst. apply IH in Hn' as (data' & -> & H). eauto. }
    destruct Hd as (data' & -> & Hn').
    destruct (IH (written + N.of_nat (length gg))%N s1 w1 xs' data' E5 Hn') as (s' & w' & F1 & F2 & F3).
    { assert (Hx : length (B b :: xs) = length (map B gg ++ xs')) by congruence.
      rewrite app_length, map_length in Hx. subst gg. simpl in *. lia. }
    exists s', w'. rewrite F1. repeat split; auto.
    + do 2 f_equal. rewrite app_length. lia.
    + now rewrite F2, Hl, app_assoc.
  - destruct Hr as (s1 & E1 & E2). rewrite E1. inversion Hn as [| |? ? ? He Hn']; subst. rewrite He.
    apply IH with (xs := xs); auto. simpl in Hf. lia.
Qed.

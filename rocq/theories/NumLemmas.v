(** Number parsing and printing. *)
From Verif Require Import Base Utf8 Num Lemmas.
Local Open Scope N_scope.

(** Specification: digits, positional value, accepted spellings. *)
Definition digit (radix : N) (c : byte) (d : N) : Prop :=
  d < radix /\ ((d < 10 /\ bval c = 48 + d) \/ (10 <= d /\ (bval c = 87 + d \/ bval c = 55 + d))).
Definition positional (radix : N) (ds : list N) : N := fold_left (fun a d => a * radix + d) ds 0.
(** [s] is a non-empty string of digits with value [n]. *)
Definition numeral (radix : N) (s : bytes) (n : N) : Prop :=
  s <> [] /\ exists ds, Forall2 (digit radix) s ds /\ positional radix ds = n.

Lemma bval_lt b : bval b < 256.
Proof. unfold bval. pose proof (Byte.to_N_bounded b). lia. Qed.

Lemma byte_of_bval b : byte_of (bval b) = b.
Proof. unfold byte_of, bval. now rewrite Byte.of_to_N. Qed.

Lemma bval_byte_of n : n < 256 -> bval (byte_of n) = n.
Proof.
  intros H. unfold byte_of, bval. destruct (Byte.of_N n) eqn:E.
  - now apply Byte.to_of_N in E.
  - apply Byte.of_N_None_iff in E. lia.
Qed.

Lemma bval_inj a b : bval a = bval b -> a = b.
Proof. intros H. rewrite <- (byte_of_bval a), <- (byte_of_bval b). congruence. Qed.

Lemma to_digit_spec radix c d : radix <= 36 -> to_digit radix c = Some d <-> digit radix c d.
Proof.
  intros Hr. unfold to_digit, digit. pose proof (bval_lt c) as Hc.
  destruct ((48 <=? bval c) && (bval c <=? 57)) eqn:E1;
  [|destruct ((97 <=? bval c) && (bval c <=? 122)) eqn:E2;
    [|destruct ((65 <=? bval c) && (bval c <=? 90)) eqn:E3]];
  repeat match goal with
  | H : _ && _ = true |- _ => apply andb_true_iff in H as [?H ?H]
  | H : _ && _ = false |- _ => apply andb_false_iff in H
  | H : (_ <=? _) = true |- _ => apply N.leb_le in H
  | H : (_ <=? _) = false \/ (_ <=? _) = false |- _ => rewrite !N.leb_gt in H
  end;
  match goal with |- (if ?x <? ?y then _ else _) = _ <-> _ => destruct (x <? y) eqn:E4 end;
  try apply N.ltb_lt in E4; try apply N.ltb_ge in E4;
  (split; [intros H; try easy; inversion H; subst; lia|intros H; try f_equal; lia]).
Qed.

Lemma fold_ge radix ds a : 0 < radix -> a <= fold_left (fun a d => a * radix + d) ds a.
Proof.
  intros Hr. revert a; induction ds as [|d ds IH]; intros a; simpl; [lia|].
  specialize (IH (a * radix + d)). nia.
Qed.

Lemma parse_digits_spec radix max acc s n : 0 < radix -> radix <= 36 -> acc <= max ->
  parse_digits radix max acc s = Ok n <->
  (exists ds, Forall2 (digit radix) s ds /\ fold_left (fun a d => a * radix + d) ds acc = n /\ n <= max).
Proof.
  intros Hr Hr2. revert acc; induction s as [|c s IH]; intros acc Ha; simpl.
  - split.
    + intros H; inversion H; subst. exists []. auto.
    + intros (ds & H1 & H2 & H3). inversion H1; subst. reflexivity.
  - destruct (to_digit radix c) as [d|] eqn:Ed.
    + apply to_digit_spec in Ed; auto. destruct (acc * radix <=? max) eqn:E1; [|split; [easy|]].
      * destruct (acc * radix + d <=? max) eqn:E2; [|split; [easy|]].
        -- apply N.leb_le in E2. rewrite IH by auto. split.
           ++ intros (ds & H1 & H2 & H3). exists (d :: ds). repeat split; auto.
           ++ intros (ds & H1 & H2 & H3). inversion H1 as [|? d' ? ds' Hd Hds]; subst.
              assert (d' = d).
              { unfold digit in *. lia. }
              subst. exists ds'. auto.
        -- apply N.leb_gt in E2. intros (ds & H1 & H2 & H3). inversion H1 as [|? d' ? ds' Hd Hds]; subst.
           assert (d' = d) by (unfold digit in *; lia). subst. simpl in H3.
           pose proof (fold_ge radix ds' (acc * radix + d) Hr). lia.
      * apply N.leb_gt in E1. intros (ds & H1 & H2 & H3). inversion H1 as [|? d' ? ds' Hd Hds]; subst.
        simpl in H3. pose proof (fold_ge radix ds' (acc * radix + d') Hr). lia.
    + split; [easy|]. intros (ds & H1 & H2 & H3). inversion H1 as [|? d' ? ds' Hd Hds]; subst.
      apply to_digit_spec in Hd; auto. congruence.
Qed.

Lemma parse_digits_err radix max acc s :
  (exists n, parse_digits radix max acc s = Ok n)
  \/ exists k, parse_digits radix max acc s = Err (ParseIntError k).
Proof.
  revert acc; induction s as [|c s IH]; intros acc; simpl; eauto.
  destruct (to_digit radix c); eauto. destruct (_ <=? _); eauto. destruct (_ <=? _); eauto.
Qed.

Lemma from_str_radix_err radix max s :
  (exists n, from_str_radix radix max s = Ok n)
  \/ exists k, from_str_radix radix max s = Err (ParseIntError k).
Proof.
  unfold from_str_radix. destruct s as [|c [|c' t]]; eauto.
  - destruct (_ || _); eauto using parse_digits_err.
  - destruct (Byte.eqb c x2b); eauto using parse_digits_err.
Qed.

Lemma digit_not_plus radix c d : digit radix c d -> c <> x2b.
Proof. intros [_ H] ->. change (bval x2b) with 43 in H. lia. Qed.
Lemma digit_not_minus radix c d : digit radix c d -> c <> x2d.
Proof. intros [_ H] ->. change (bval x2d) with 45 in H. lia. Qed.

(** Exactly an optional plus and digits, value within range. *)
Lemma from_str_radix_spec radix max s n : 0 < radix -> radix <= 36 ->
  from_str_radix radix max s = Ok n <->
  (n <= max /\ (numeral radix s n \/ exists t, s = x2b :: t /\ numeral radix t n)).
Proof.
  intros Hr Hr2. unfold from_str_radix, numeral, positional.
  assert (Hp : forall s, parse_digits radix max 0 s = Ok n <->
     (exists ds, Forall2 (digit radix) s ds /\ fold_left (fun a d => a * radix + d) ds 0 = n /\ n <= max))
    by (intros; apply parse_digits_spec; auto; lia).
  destruct s as [|c [|c' t]].
  - split; [easy|]. intros [_ [[H _]|(t & H & _)]]; easy.
  - destruct (Byte.eqb c x2b || Byte.eqb c x2d) eqn:E.
    + split; [easy|]. intros [_ [[_ (ds & H & _)]|(t & H & H' & _)]].
      * inversion H as [|? d ? ? Hd]; subst. apply orb_true_iff in E as [E|E]; apply byte_eqb_true in E.
        -- now apply digit_not_plus in Hd. -- now apply digit_not_minus in Hd.
      * inversion H; subst. easy.
    + apply orb_false_iff in E as [E _]. apply byte_eqb_false in E. rewrite Hp. split.
      * intros (ds & H1 & H2 & H3). split; auto. left. split; [easy|]. eauto.
      * intros [H [[_ (ds & H1 & H2)]|(t & H1 & H' & _)]]; [eauto|]. inversion H1; subst; easy.
  - destruct (Byte.eqb c x2b) eqn:E.
    + apply byte_eqb_true in E; subst. rewrite Hp. split.
      * intros (ds & H1 & H2 & H3). split; auto. right. exists (c' :: t). split; auto. split; [easy|]. eauto.
      * intros [H [[_ (ds & H1 & H2)]|(t' & H1 & H' & (ds & H2 & H3))]].
        -- inversion H1 as [|? d ? ? Hd]; subst. now apply digit_not_plus in Hd.
        -- inversion H1; subst. eauto.
    + apply byte_eqb_false in E. rewrite Hp. split.
      * intros (ds & H1 & H2 & H3). split; auto. left. split; [easy|]. eauto.
      * intros [H [[_ (ds & H1 & H2)]|(t' & H1 & H' & _)]]; [eauto|]. inversion H1; subst; easy.
Qed.

Lemma digit_functional radix c d d' : radix <= 36 -> digit radix c d -> digit radix c d' -> d = d'.
Proof. unfold digit. lia. Qed.

Lemma numeral_functional radix s n m : radix <= 36 -> numeral radix s n -> numeral radix s m -> n = m.
Proof.
  intros Hr [_ (ds & H1 & <-)] [_ (ds' & H2 & <-)]. f_equal. revert ds' H2.
  induction H1 as [|c d s ds Hd Hds IH]; intros ds' H2; inversion H2 as [|? d' ? ? Hd']; subst; auto.
  f_equal; eauto using digit_functional.
Qed.

(** ** Printing *)
Lemma digit_char_digit radix d : radix <= 36 -> d < radix -> digit radix (digit_char d) d.
Proof.
  intros Hr Hd. unfold digit_char, digit. split; auto. destruct (d <? 10) eqn:E.
  - apply N.ltb_lt in E. left. split; auto. apply bval_byte_of. lia.
  - apply N.ltb_ge in E. right. split; auto. left. rewrite bval_byte_of; lia.
Qed.

Lemma positional_app radix ds d : positional radix (ds ++ [d]) = positional radix ds * radix + d.
Proof. unfold positional. now rewrite fold_left_app. Qed.

Lemma show_loop_spec radix f n acc : 2 <= radix -> radix <= 36 -> n < 2 ^ N.of_nat f ->
  (0 < f)%nat ->
  exists s ds, show_loop f radix n acc = s ++ acc /\ s <> [] /\ Forall2 (digit radix) s ds
    /\ positional radix ds = n.
Proof.
  intros Hr Hr2. revert n acc; induction f as [|f IH]; intros n acc Hn Hf; [lia|]. cbn [show_loop].
  pose proof (N.div_mod n radix ltac:(lia)) as Hdm.
  pose proof (N.mod_lt n radix ltac:(lia)) as Hm.
  destruct (n / radix =? 0) eqn:E.
  - apply N.eqb_eq in E. exists [digit_char (n mod radix)], [n mod radix]. repeat split; try easy.
    + constructor; [now apply digit_char_digit|constructor].
    + unfold positional; simpl. rewrite E, N.mul_0_r in Hdm. lia.
  - apply N.eqb_neq in E.
    assert (Hlt : n / radix < 2 ^ N.of_nat f).
    { apply N.div_lt_upper_bound; [lia|]. replace (N.of_nat (S f)) with (N.succ (N.of_nat f)) in Hn by lia.
      rewrite N.pow_succ_r' in Hn. nia. }
    assert (Hf0 : (0 < f)%nat). { destruct f; [|lia]. change (2 ^ N.of_nat 0) with 1 in Hlt. revert Hlt E. generalize (n / radix). clear. intros; lia. }
    destruct (IH (n / radix) (digit_char (n mod radix) :: acc) Hlt Hf0) as (s & ds & H1 & H2 & H3 & H4).
    exists (s ++ [digit_char (n mod radix)]), (ds ++ [n mod radix]). repeat split.
    + rewrite H1. now rewrite <- app_assoc.
    + now destruct s.
    + apply Forall2_app; auto. constructor; [now apply digit_char_digit|constructor].
    + rewrite positional_app, H4. lia.
Qed.

Lemma size_nat_gt n : n < 2 ^ N.of_nat (N.size_nat n).
Proof.
  destruct n as [|p]; simpl; [lia|]. induction p as [p IH|p IH|].
  - simpl Pos.size_nat. replace (N.of_nat (S (Pos.size_nat p))) with (N.succ (N.of_nat (Pos.size_nat p))) by lia.
    rewrite N.pow_succ_r'. lia.
  - simpl Pos.size_nat. replace (N.of_nat (S (Pos.size_nat p))) with (N.succ (N.of_nat (Pos.size_nat p))) by lia.
    rewrite N.pow_succ_r'. lia.
  - simpl. lia.
Qed.

Lemma show_radix_numeral radix n : 2 <= radix -> radix <= 36 -> numeral radix (show_radix radix n) n.
Proof.
  intros Hr Hr2. unfold show_radix.
  destruct (show_loop_spec radix (S (N.size_nat n)) n [] Hr Hr2) as (s & ds & H1 & H2 & H3 & H4).
  - pose proof (size_nat_gt n). replace (N.of_nat (S (N.size_nat n))) with (N.succ (N.of_nat (N.size_nat n))) by lia.
    rewrite N.pow_succ_r'. lia.
  - lia.
  - rewrite H1, app_nil_r. split; auto. eauto.
Qed.

Lemma numeral_ascii radix s n : numeral radix s n -> radix <= 36 -> ascii s = true.
Proof.
  intros [_ (ds & H & _)] Hr. unfold ascii. apply forallb_forall. intros c Hc.
  apply N.ltb_lt. clear - H Hc Hr. induction H as [|c' d s ds [H0 H1] H2 IH]; [easy|].
  destruct Hc as [->|Hc]; auto. lia.
Qed.

Lemma parse_show radix max n : 2 <= radix -> radix <= 36 -> n <= max ->
  from_str_radix radix max (show_radix radix n) = Ok n.
Proof.
  intros. apply from_str_radix_spec; try lia. split; auto. left. now apply show_radix_numeral.
Qed.

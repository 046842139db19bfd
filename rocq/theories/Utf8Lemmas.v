(** UTF-8: the decoder accepts exactly the encodings of sequences of Unicode scalar values. *)
From Verif Require Import Base Utf8 Lemmas NumLemmas.
From Coq Require Import ZArith.

Local Open Scope N_scope.
Ltac Zify.zify_post_hook ::= Z.to_euclidean_division_equations.

Ltac bool_prop := repeat match goal with
  | H : _ && _ = true |- _ => apply andb_true_iff in H; destruct H
  | H : _ || _ = true |- _ => apply orb_true_iff in H; destruct H
  | H : (_ <=? _) = true |- _ => apply N.leb_le in H
  | H : (_ <? _) = true |- _ => apply N.ltb_lt in H
  | H : (_ <? _) = false |- _ => apply N.ltb_ge in H
  | H : (_ =? _) = true |- _ => apply N.eqb_eq in H
  | H : (_ =? _) = false |- _ => apply N.eqb_neq in H
  end.

Lemma in_range_true lo hi b : in_range lo hi b = true <-> lo <= bval b <= hi.
Proof. unfold in_range. rewrite andb_true_iff, !N.leb_le. tauto. Qed.
Lemma in_range_false lo hi b : in_range lo hi b = false <-> ~ (lo <= bval b <= hi).
Proof. rewrite <- in_range_true. destruct (in_range lo hi b); split; congruence. Qed.

Lemma ok3_true a b : ok3 a b = true <->
  224 <= bval a <= 239 /\ 128 <= bval b <= 191 /\ (bval a = 224 -> 160 <= bval b) /\ (bval a = 237 -> bval b <= 159).
Proof. unfold ok3, is_cont. rewrite !orb_true_iff, !andb_true_iff, !in_range_true, !N.eqb_eq. lia. Qed.
Lemma ok4_true a b : ok4 a b = true <->
  240 <= bval a <= 244 /\ 128 <= bval b <= 191 /\ (bval a = 240 -> 144 <= bval b) /\ (bval a = 244 -> bval b <= 143).
Proof. unfold ok4, is_cont. rewrite !orb_true_iff, !andb_true_iff, !in_range_true, !N.eqb_eq. lia. Qed.

Lemma scalar_true n : scalar n = true <-> n < 55296 \/ 57344 <= n < 1114112.
Proof. unfold scalar. rewrite orb_true_iff, andb_true_iff, !N.ltb_lt, N.leb_le. tauto. Qed.

Lemma decode_encode_char n t : scalar n = true -> utf8_decode (encode_char n ++ t) = ocons n (utf8_decode t).
Proof.
  intros H. apply scalar_true in H. unfold encode_char.
  destruct (n <? 128) eqn:E1; [|destruct (n <? 2048) eqn:E2; [|destruct (n <? 65536) eqn:E3]]; bool_prop.
  - cbn [app utf8_decode]. rewrite bval_byte_of by lia. replace (n <? 128) with true by (symmetry; apply N.ltb_lt; lia). reflexivity.
  - set (a := byte_of _). set (b := byte_of _).
    assert (Ha : bval a = 192 + n / 64) by (apply bval_byte_of; lia).
    assert (Hb : bval b = 128 + n mod 64) by (apply bval_byte_of; lia).
    cbn [app utf8_decode].
    replace (bval a <? 128) with false by (symmetry; apply N.ltb_ge; lia).
    replace (in_range 194 223 a) with true by (symmetry; apply in_range_true; lia).
    replace (is_cont b) with true by (symmetry; apply in_range_true; lia).
    f_equal. rewrite Ha, Hb. lia.
  - set (a := byte_of (224 + _)). set (b := byte_of (128 + (n / 64) mod 64)). set (c := byte_of (128 + n mod 64)).
    assert (Ha : bval a = 224 + n / 4096) by (apply bval_byte_of; lia).
    assert (Hb : bval b = 128 + (n / 64) mod 64) by (apply bval_byte_of; lia).
    assert (Hc : bval c = 128 + n mod 64) by (apply bval_byte_of; lia).
    cbn [app utf8_decode].
    replace (bval a <? 128) with false by (symmetry; apply N.ltb_ge; lia).
    replace (in_range 194 223 a) with false by (symmetry; apply in_range_false; lia).
    replace (ok3 a b) with true by (symmetry; apply ok3_true; lia).
    replace (is_cont c) with true by (symmetry; apply in_range_true; lia).
    f_equal. rewrite Ha, Hb, Hc. lia.
  - set (a := byte_of (240 + _)). set (b := byte_of (128 + (n / 4096) mod 64)).
    set (c := byte_of (128 + (n / 64) mod 64)). set (d := byte_of (128 + n mod 64)).
    assert (Ha : bval a = 240 + n / 262144) by (apply bval_byte_of; lia).
    assert (Hb : bval b = 128 + (n / 4096) mod 64) by (apply bval_byte_of; lia).
    assert (Hc : bval c = 128 + (n / 64) mod 64) by (apply bval_byte_of; lia).
    assert (Hd : bval d = 128 + n mod 64) by (apply bval_byte_of; lia).
    cbn [app utf8_decode].
    replace (bval a <? 128) with false by (symmetry; apply N.ltb_ge; lia).
    replace (in_range 194 223 a) with false by (symmetry; apply in_range_false; lia).
    assert (ok3 a b = false) as ->.
    { destruct (ok3 a b) eqn:E; auto. apply ok3_true in E. lia. }
    replace (ok4 a b) with true by (symmetry; apply ok4_true; lia).
    replace (is_cont c) with true by (symmetry; apply in_range_true; lia).
    replace (is_cont d) with true by (symmetry; apply in_range_true; lia).
    cbn [andb]. f_equal. rewrite Ha, Hb, Hc, Hd. lia.
Qed.

Lemma decode_encode l : Forall (fun n => scalar n = true) l -> utf8_decode (utf8_encode l) = Some l.
Proof.
  induction 1 as [|n l H1 H2 IH]; simpl; auto. rewrite decode_encode_char by auto.
  fold (utf8_encode l). now rewrite IH.
Qed.

Lemma byte_of_eq n b : n = bval b -> byte_of n = b.
Proof. intros ->. apply byte_of_bval. Qed.

Lemma encode_decode s l : utf8_decode s = Some l -> Forall (fun n => scalar n = true) l /\ s = utf8_encode l.
Proof.
  remember (length s) as k eqn:Hk. revert s l Hk. induction k as [k IH] using lt_wf_ind; intros s l Hk H.
  destruct s as [|a t]; simpl in H.
  { inversion H; subst. split; constructor. }
  assert (Hrec : forall n t' o, (length t' < k)%nat -> o = ocons n (utf8_decode t') -> o = Some l ->
     scalar n = true -> exists l', l = n :: l' /\ Forall (fun n => scalar n = true) l /\ t' = utf8_encode l').
  { intros n t' o Hl -> Hs Hn. destruct (utf8_decode t') as [l'|] eqn:E; [|easy]. simpl in Hs. inversion Hs; subst l.
    destruct (IH _ Hl t' l' eq_refl E) as [H1 H2]. exists l'. repeat split; auto. }
  destruct (bval a <? 128) eqn:E1.
  { bool_prop. destruct (Hrec _ t _ ltac:(subst k; simpl; lia) eq_refl H) as (l' & -> & H1 & ->).
    - apply scalar_true. lia.
    - split; auto. simpl. unfold encode_char. rewrite (proj2 (N.ltb_lt _ _) E1), byte_of_bval. reflexivity. }
  destruct t as [|b t2]; [easy|]. bool_prop. pose proof (bval_lt a). pose proof (bval_lt b).
  destruct (in_range 194 223 a) eqn:E2.
  { apply in_range_true in E2. destruct (is_cont b) eqn:E3; [|easy]. apply in_range_true in E3.
    destruct (Hrec _ t2 _ ltac:(subst k; simpl; lia) eq_refl H) as (l' & -> & H3 & ->).
    - apply scalar_true. lia.
    - split; auto. cbn [utf8_encode flat_map]. unfold encode_char. set (n := (bval a - 192) * 64 + (bval b - 128)).
      replace (n <? 128) with false by (symmetry; apply N.ltb_ge; subst n; lia).
      replace (n <? 2048) with true by (symmetry; apply N.ltb_lt; subst n; lia).
      cbn [app]. f_equal; [|f_equal]; symmetry; apply byte_of_eq; subst n; lia. }
  destruct t2 as [|c t3]; [easy|]. pose proof (bval_lt c).
  destruct (ok3 a b) eqn:E3.
  { apply ok3_true in E3. destruct (is_cont c) eqn:E4; [|easy]. apply in_range_true in E4.
    destruct (Hrec _ t3 _ ltac:(subst k; simpl; lia) eq_refl H) as (l' & -> & H4 & ->).
    - apply scalar_true. lia.
    - split; auto. cbn [utf8_encode flat_map]. unfold encode_char.
      set (n := (bval a - 224) * 4096 + (bval b - 128) * 64 + (bval c - 128)).
      replace (n <? 128) with false by (symmetry; apply N.ltb_ge; subst n; lia).
      replace (n <? 2048) with false by (symmetry; apply N.ltb_ge; subst n; lia).
      replace (n <? 65536) with true by (symmetry; apply N.ltb_lt; subst n; lia).
      cbn [app]. f_equal; [|f_equal; [|f_equal]]; symmetry; apply byte_of_eq; subst n; lia. }
  destruct t3 as [|d t4]; [easy|]. pose proof (bval_lt d).
  destruct (ok4 a b && is_cont c && is_cont d) eqn:E4; [|easy].
  apply andb_true_iff in E4 as [E4 E6]. apply andb_true_iff in E4 as [E4 E5].
  apply ok4_true in E4. apply in_range_true in E5, E6.
  destruct (Hrec _ t4 _ ltac:(subst k; simpl; lia) eq_refl H) as (l' & -> & H5 & ->).
  - apply scalar_true. lia.
  - split; auto. cbn [utf8_encode flat_map]. unfold encode_char.
    set (n := (bval a - 240) * 262144 + (bval b - 128) * 4096 + (bval c - 128) * 64 + (bval d - 128)).
    replace (n <? 128) with false by (symmetry; apply N.ltb_ge; subst n; lia).
    replace (n <? 2048) with false by (symmetry; apply N.ltb_ge; subst n; lia).
    replace (n <? 65536) with false by (symmetry; apply N.ltb_ge; subst n; lia).
    cbn [app]. f_equal; [|f_equal; [|f_equal; [|f_equal]]]; symmetry; apply byte_of_eq; subst n; lia.
Qed.

Lemma utf8_valid_spec s : utf8_valid s = true <-> exists l, Forall (fun n => scalar n = true) l /\ s = utf8_encode l.
Proof.
  unfold utf8_valid. split.
  - destruct (utf8_decode s) as [l|] eqn:E; [|easy]. intros _. exists l. now apply encode_decode.
  - intros (l & H & ->). now rewrite decode_encode.
Qed.

Lemma encode_app a b : utf8_encode (a ++ b) = utf8_encode a ++ utf8_encode b.
Proof. apply flat_map_app. Qed.

Lemma valid_app a b : utf8_valid a = true -> utf8_valid b = true -> utf8_valid (a ++ b) = true.
Proof.
  rewrite !utf8_valid_spec. intros (l1 & H1 & ->) (l2 & H2 & ->). exists (l1 ++ l2).
  split; [now apply Forall_app|]. now rewrite encode_app.
Qed.

Lemma encode_char_nonempty n : encode_char n <> [].
Proof. unfold encode_char. repeat destruct (_ <? _); easy. Qed.

(** A character's first byte is never a continuation byte, the others always are. *)
Lemma encode_char_shape n : scalar n = true ->
  exists b r, encode_char n = b :: r /\ is_cont b = false /\ forallb is_cont r = true
    /\ (n < 128 <-> bval b < 128) /\ (n < 128 -> r = [] /\ bval b = n).
Proof.
  intros H. apply scalar_true in H. unfold encode_char, is_cont.
  destruct (n <? 128) eqn:E1; [|destruct (n <? 2048) eqn:E2; [|destruct (n <? 65536) eqn:E3]]; bool_prop;
    eexists _, _; (split; [reflexivity|]); (split; [apply in_range_false; rewrite bval_byte_of; lia|]);
    (split; [cbn [forallb]; rewrite ?(proj2 (in_range_true _ _ _)); auto; rewrite bval_byte_of; lia|]);
    rewrite bval_byte_of by lia; split; try lia; auto.
Qed.

Lemma decode_prefix_char s l : utf8_decode s = Some l -> forall n l', l = n :: l' ->
  exists t, s = encode_char n ++ t /\ utf8_decode t = Some l'.
Proof.
  intros H n l' ->. apply encode_decode in H as [H1 ->]. exists (utf8_encode l'). split; auto.
  apply decode_encode. now inversion H1.
Qed.

Lemma ascii_valid s : ascii s = true -> utf8_valid s = true.
Proof.
  unfold utf8_valid. induction s as [|b s IH]; simpl; auto.
  intros H. apply andb_true_iff in H as [-> H]. specialize (IH H).
  destruct (utf8_decode s); simpl; easy.
Qed.

Lemma ascii_decode s : ascii s = true -> utf8_decode s = Some (map bval s).
Proof.
  induction s as [|b s IH]; simpl; auto. intros H. apply andb_true_iff in H as [-> H]. now rewrite IH.
Qed.

(** ** Splitting *)
Lemma valid_nil : utf8_valid [] = true.
Proof. reflexivity. Qed.

Lemma valid_encode l : Forall (fun n => scalar n = true) l -> utf8_valid (utf8_encode l) = true.
Proof. intros H. apply utf8_valid_spec. eauto. Qed.

Lemma valid_cancel a b : utf8_valid (a ++ b) = true -> utf8_valid a = true -> utf8_valid b = true.
Proof.
  intros H Ha. apply utf8_valid_spec in Ha as (l & Hl & ->). induction Hl as [|n l Hn Hl IH]; auto.
  apply IH. cbn [utf8_encode flat_map] in H. fold (utf8_encode l) in H. rewrite <- app_assoc in H.
  unfold utf8_valid in *. rewrite decode_encode_char in H by auto.
  now destruct (utf8_decode (utf8_encode l ++ b)).
Qed.

Lemma valid_cons_cases s : utf8_valid s = true -> s = [] \/
  exists n t, scalar n = true /\ s = encode_char n ++ t /\ utf8_valid t = true.
Proof.
  intros H. apply utf8_valid_spec in H as (l & Hl & ->). destruct Hl as [|n l Hn Hl]; auto.
  right. exists n, (utf8_encode l). auto using valid_encode.
Qed.

(** The first byte of a valid text is not a continuation byte. *)
Lemma valid_head b t : utf8_valid (b :: t) = true -> is_cont b = false.
Proof.
  intros H. apply valid_cons_cases in H as [|(n & u & Hn & He & _)]; [easy|].
  apply encode_char_shape in Hn as (b' & r & E & Hb & _). rewrite E in He. now inversion He; subst.
Qed.

Lemma is_boundary_app a b : utf8_valid b = true -> is_boundary (a ++ b) (length a) = true.
Proof.
  intros Hb. unfold is_boundary. destruct b as [|x b].
  - rewrite app_nil_r, Nat.eqb_refl. now rewrite orb_true_r.
  - rewrite nth_error_app2, Nat.sub_diag by lia. simpl. rewrite (valid_head _ _ Hb). apply orb_true_r.
Qed.

(** Boundaries are exactly the places that split a text into texts. *)
Lemma boundary_split a b : utf8_valid (a ++ b) = true -> is_boundary (a ++ b) (length a) = true ->
  utf8_valid a = true /\ utf8_valid b = true.
Proof.
  remember (length a) as k eqn:Hk. revert a b Hk. induction k as [k IH] using lt_wf_ind; intros a b Hk Hv Hb.
  destruct a as [|x a]; [now split|].
  apply valid_cons_cases in Hv as [|(n & t & Hn & He & Ht)]; [easy|].
  pose proof (encode_char_shape n Hn) as (c & r & Ec & _ & Hr & _).
  destruct (Nat.lt_ge_cases k (length (encode_char n))) as [Hlt|Hge].
  - exfalso. unfold is_boundary in Hb. rewrite He in Hb. rewrite Ec in *.
    cbn [length] in Hlt, Hk. apply orb_true_iff in Hb as [Hb|Hb].
    + apply orb_true_iff in Hb as [Hb|Hb]; apply Nat.eqb_eq in Hb; [lia|].
      rewrite app_length in Hb. simpl in Hb. lia.
    + rewrite nth_error_app1 in Hb by (simpl; lia). rewrite Hk in Hb. simpl in Hb.
      destruct (nth_error r (length a)) as [y|] eqn:Ey; [|easy].
      apply nth_error_In in Ey. rewrite forallb_forall in Hr. now rewrite (Hr y Ey) in Hb.
  - assert (Ha : exists a', x :: a = encode_char n ++ a' /\ t = a' ++ b).
    { exists (skipn (length (encode_char n)) (x :: a)). split.
      - rewrite <- (firstn_skipn (length (encode_char n)) (x :: a)) at 1. f_equal.
        assert (Hf : firstn (length (encode_char n)) ((x :: a) ++ b) = firstn (length (encode_char n)) (encode_char n ++ t)) by now rewrite He.
        rewrite firstn_app in Hf. replace (length (encode_char n) - length (x :: a))%nat with 0%nat in Hf by lia.
        rewrite firstn_O, app_nil_r in Hf. rewrite Hf, firstn_app, Nat.sub_diag, firstn_all, firstn_O. apply app_nil_r.
      - assert (Hf : skipn (length (encode_char n)) ((x :: a) ++ b) = skipn (length (encode_char n)) (encode_char n ++ t)) by now rewrite He.
        rewrite skipn_app in Hf. replace (length (encode_char n) - length (x :: a))%nat with 0%nat in Hf by lia.
        rewrite skipn_app, Nat.sub_diag, skipn_all in Hf. simpl in Hf. now rewrite <- Hf. }
    destruct Ha as (a' & Ha & ->). rewrite Ha in *. rewrite app_length in Hk.
    assert (Hpos : (0 < length (encode_char n))%nat) by (rewrite Ec; simpl; lia).
    destruct (IH (length a') ltac:(lia) a' b eq_refl Ht) as [H1 H2].
    + unfold is_boundary in Hb |- *. rewrite Hk in Hb. rewrite <- app_assoc in Hb.
      rewrite nth_error_app2 in Hb by lia.
      replace (length (encode_char n) + length a' - length (encode_char n))%nat with (length a') in Hb by lia.
      rewrite !app_length in Hb. 
      apply orb_true_iff in Hb as [Hb|Hb].
      * apply orb_true_iff in Hb as [Hb|Hb]; apply Nat.eqb_eq in Hb; [lia|].
        replace (length a' =? length (a' ++ b))%nat with true; [now rewrite orb_true_r|].
        symmetry. apply Nat.eqb_eq. rewrite app_length. lia.
      * rewrite Hb. apply orb_true_r.
    + split; auto. apply valid_app; auto. apply utf8_valid_spec. exists [n]. split; auto.
      simpl. now rewrite app_nil_r.
Qed.

Lemma str_slice_ok a b c : utf8_valid (b ++ c) = true -> utf8_valid b = true ->
  str_slice (a ++ b ++ c) (length a) (length a + length b) = Ok b.
Proof.
  intros H1 H2. unfold str_slice.
  rewrite (is_boundary_app a (b ++ c)) by auto.
  assert (Hb : is_boundary (a ++ b ++ c) (length a + length b) = true).
  { rewrite app_assoc, <- app_length. apply is_boundary_app. eapply valid_cancel; eauto. }
  rewrite Hb. rewrite !app_length.
  replace (length a <=? length a + length b)%nat with true by (symmetry; apply Nat.leb_le; lia).
  replace (length a + length b <=? length a + (length b + length c))%nat with true by (symmetry; apply Nat.leb_le; lia).
  cbn [andb]. f_equal. rewrite skipn_app, skipn_all, Nat.sub_diag. simpl.
  replace (length a + length b - length a)%nat with (length b) by lia.
  rewrite firstn_app, Nat.sub_diag, firstn_all, firstn_O. apply app_nil_r.
Qed.

Lemma str_slice_panic a b c : utf8_valid (b ++ c) = true -> utf8_valid b = false ->
  str_slice (a ++ b ++ c) (length a) (length a + length b) = Panic.
Proof.
  intros H1 H2. unfold str_slice.
  destruct (is_boundary (a ++ b ++ c) (length a + length b)) eqn:Hb; [|now rewrite andb_false_r].
  exfalso. assert (Hb2 : is_boundary (b ++ c) (length b) = true).
  { unfold is_boundary in *. rewrite nth_error_app2 in Hb by lia.
    replace (length a + length b - length a)%nat with (length b) in Hb by lia. rewrite app_length in Hb.
    apply orb_true_iff in Hb as [Hb|Hb].
    - apply orb_true_iff in Hb as [Hb|Hb]; apply Nat.eqb_eq in Hb.
      + replace (length b =? 0)%nat with true by (symmetry; apply Nat.eqb_eq; lia). reflexivity.
      + replace (length b =? length (b ++ c))%nat with true by (symmetry; apply Nat.eqb_eq; lia). now rewrite orb_true_r.
    - rewrite Hb. apply orb_true_r. }
  apply boundary_split in Hb2 as [Hb2 _]; auto. congruence.
Qed.

Lemma str_from_ok a b : utf8_valid b = true -> str_from (a ++ b) (length a) = Ok b.
Proof.
  intros H. unfold str_from. pose proof (str_slice_ok a b []) as Hs. rewrite !app_nil_r in Hs.
  rewrite app_length. auto.
Qed.

(** ASCII bytes are characters. *)
Lemma encode_ascii b : (bval b < 128) -> encode_char (bval b) = [b].
Proof. intros H. unfold encode_char. rewrite (proj2 (N.ltb_lt _ _) H). now rewrite byte_of_bval. Qed.

Lemma valid_ascii_cons b t : bval b < 128 -> utf8_valid (b :: t) = utf8_valid t.
Proof.
  intros H. unfold utf8_valid. cbn [utf8_decode]. rewrite (proj2 (N.ltb_lt _ _) H).
  now destruct (utf8_decode t).
Qed.

(** An ASCII byte inside a valid text splits it. *)
Lemma valid_split_ascii a b t : bval b < 128 -> utf8_valid (a ++ b :: t) = true ->
  utf8_valid a = true /\ utf8_valid t = true.
Proof.
  intros Hb H. destruct (boundary_split a (b :: t) H) as [H1 H2].
  - unfold is_boundary. rewrite nth_error_app2, Nat.sub_diag by lia. simpl.
    replace (is_cont b) with false; [apply orb_true_r|]. symmetry. apply in_range_false. lia.
  - split; auto. now rewrite valid_ascii_cons in H2.
Qed.

Lemma valid_or_not_ascii b t : utf8_valid (b :: t) = true -> bval b < 128 \/
  exists n u, scalar n = true /\ 128 <= n /\ b :: t = encode_char n ++ u /\ utf8_valid [b] = false.
Proof.
  intros H. destruct (N.lt_ge_cases (bval b) 128) as [|Hb]; auto. right.
  apply valid_cons_cases in H as [|(n & u & Hn & He & Hu)]; [easy|]. exists n, u.
  pose proof (encode_char_shape n Hn) as (c & r & Ec & _ & _ & Hiff & _).
  rewrite Ec in He. inversion He; subst c. rewrite Ec.
  repeat split; auto.
  - destruct (N.lt_ge_cases n 128); auto. lia.
  - unfold utf8_valid. cbn [utf8_decode]. now rewrite (proj2 (N.ltb_ge _ _) Hb).
Qed.

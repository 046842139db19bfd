(** Lemmas on the text parser (src/protocol.rs 304-415). *)
From Verif Require Import Base Utf8 Num Parser Transport Lemmas Utf8Lemmas.
Local Open Scope nat_scope.

(** The parser has read [pre] and [rest] is unread; both are whole texts. *)
Definition reading (p : parser) (pre rest : bytes) : Prop :=
  ps p = pre ++ rest /\ ppos p = length pre /\ is_utf8 pre /\ is_utf8 rest.

Lemma is_utf8_valid s : is_utf8 s <-> utf8_valid s = true.
Proof. symmetry. apply utf8_valid_spec. Qed.

Lemma reading_new s : is_utf8 s -> reading (parser_new s) [] s.
Proof. intros H. repeat split; auto. exists []. now split. Qed.

Lemma reading_empty_pos p pre rest : reading p pre rest ->
  (length (ps p) <=? ppos p) = match rest with [] => true | _ => false end.
Proof.
  intros (H1 & H2 & _). rewrite H1, H2, app_length. destruct rest; simpl.
  - apply Nat.leb_le. lia.
  - apply Nat.leb_gt. lia.
Qed.

Lemma reading_remaining p pre rest : reading p pre rest -> remaining p = Ok rest.
Proof.
  intros (H1 & H2 & _ & H4). unfold remaining. rewrite H1, H2. apply str_from_ok. now apply is_utf8_valid.
Qed.

Lemma reading_step p pre a rest k : reading p pre (a ++ rest) -> is_utf8 a -> k = length a ->
  reading (mkParser (ps p) (ppos p + k)) (pre ++ a) rest.
Proof.
  intros (H1 & H2 & H3 & H4) Ha ->. repeat split; cbn [ps ppos].
  - now rewrite H1, app_assoc.
  - now rewrite H2, app_length.
  - rewrite is_utf8_valid in *. now apply valid_app.
  - rewrite is_utf8_valid in *. eapply valid_cancel; eauto.
Qed.

Lemma reading_slice p pre a rest : reading p pre (a ++ rest) -> is_utf8 a ->
  str_slice (ps p) (ppos p) (ppos p + length a) = Ok a.
Proof.
  intros (H1 & H2 & H3 & H4) Ha. rewrite H1, H2. apply str_slice_ok; now apply is_utf8_valid.
Qed.

(** ** expect *)
Lemma expect_ok p pre x rest : reading p pre (x ++ rest) -> is_utf8 x -> x ++ rest <> [] ->
  exists p', expect p x = (Ok tt, p') /\ reading p' (pre ++ x) rest.
Proof.
  intros H Hx Hne. unfold expect. rewrite (reading_empty_pos _ _ _ H).
  destruct (x ++ rest) as [|y t] eqn:E; [easy|]. rewrite <- E in *. clear Hne.
  pose proof H as (H1 & H2 & H3 & H4).
  cbv zeta. replace (Nat.min (length (ps p)) (ppos p + length x)) with (ppos p + length x)
    by (rewrite H1, H2, !app_length; lia).
  rewrite (reading_slice _ _ _ _ H) by auto.
  rewrite beqb_refl. eexists. split; eauto. now apply reading_step.
Qed.

Lemma expect_eof p pre x : reading p pre [] -> expect p x = (Err UnexpectedEof, p).
Proof. intros H. unfold expect. now rewrite (reading_empty_pos _ _ _ H). Qed.

(** With non-empty unread text, the outcome is decided by its first [length x] bytes. *)
Lemma expect_other p pre x rest : reading p pre rest -> rest <> [] -> ~ prefix x rest ->
  expect p x = (if utf8_valid (firstn (length x) rest) then Err ParseError else Panic, p).
Proof.
  intros H Hne Hnp. unfold expect. rewrite (reading_empty_pos _ _ _ H).
  destruct rest as [|y t] eqn:E; [easy|]. rewrite <- E in *. clear Hne.
  pose proof H as (H1 & H2 & H3 & H4).
  rewrite <- (firstn_skipn (length x) rest) in H1, H4.
  cbv zeta. replace (Nat.min (length (ps p)) (ppos p + length x)) with (ppos p + length (firstn (length x) rest))
    by (rewrite H1, H2, !app_length, firstn_length, skipn_length; lia).
  rewrite H1, H2. apply is_utf8_valid in H4. destruct (utf8_valid (firstn (length x) rest)) eqn:Ev.
  - rewrite str_slice_ok by auto. destruct (beqb _ x) eqn:Eb; auto.
    apply beqb_true in Eb. exfalso. apply Hnp. exists (skipn (length x) rest). rewrite <- Eb at 1.
    now rewrite firstn_skipn.
  - now rewrite str_slice_panic.
Qed.

Lemma expect_ok_inv p pre x rest p' : is_utf8 x -> reading p pre rest -> expect p x = (Ok tt, p') ->
  exists r, rest = x ++ r /\ rest <> [] /\ reading p' (pre ++ x) r.
Proof.
  intros Hx H He. destruct rest as [|y t]; [rewrite (expect_eof _ _ _ H) in He; easy|].
  destruct (is_prefix x (y :: t)) eqn:Ep.
  - assert (exists r, y :: t = x ++ r) as (r & Er).
    { clear -Ep. revert Ep. generalize (y :: t) as s. induction x as [|a x IH]; intros s H; [now exists s|].
      destruct s as [|b s]; [easy|]. simpl in H. apply andb_true_iff in H as [H1 H2].
      apply byte_eqb_true in H1. subst. destruct (IH _ H2) as (r & ->). now exists r. }
    exists r. split; auto. split; [easy|]. rewrite Er in H.
    destruct (expect_ok p pre x r H Hx) as (p2 & E2 & H2); [rewrite <- Er; easy|].
    rewrite E2 in He. now inversion He; subst.
  - rewrite (expect_other _ _ _ _ H) in He; [|easy|].
    + now destruct (utf8_valid _) in He.
    + intros (r & Er). rewrite Er in Ep. clear -Ep. induction x as [|a x IH]; [easy|].
      simpl in Ep. rewrite byte_eqb_refl in Ep. auto.
Qed.

(** ** digits *)
Lemma parse_digit_ascii p pre b rest : reading p pre (b :: rest) -> (bval b < 128)%N ->
  exists p', parse_digit p = (parse_u32 [b], p') /\ reading p' (pre ++ [b]) rest.
Proof.
  intros H Hb. unfold parse_digit. rewrite (reading_empty_pos _ _ _ H).
  pose proof H as (H1 & H2 & H3 & H4).
  assert (Hv : utf8_valid [b] = true) by (rewrite valid_ascii_cons; auto).
  replace (ppos p + 1) with (ppos p + length [b]) by reflexivity.
  rewrite (reading_slice p pre [b] rest) by (auto; now apply is_utf8_valid).
  eexists. split; eauto. apply reading_step; auto. now apply is_utf8_valid.
Qed.

Lemma parse_digit_other p pre b rest : reading p pre (b :: rest) -> (128 <= bval b)%N ->
  parse_digit p = (Panic, p).
Proof.
  intros H Hb. unfold parse_digit. rewrite (reading_empty_pos _ _ _ H).
  pose proof H as (H1 & H2 & H3 & H4). apply is_utf8_valid in H4.
  replace (ppos p + 1) with (ppos p + length [b]) by reflexivity.
  rewrite H1, H2. change (b :: rest) with ([b] ++ rest).
  rewrite str_slice_panic; auto. apply valid_or_not_ascii in H4 as [|(n & u & _ & _ & _ & ?)]; [lia|auto].
Qed.

Lemma parse_digit_eof p pre : reading p pre [] -> parse_digit p = (Err UnexpectedEof, p).
Proof. intros H. unfold parse_digit. now rewrite (reading_empty_pos _ _ _ H). Qed.

(** ** parse_until *)
(** [d] occurs in [s] at [a] and nowhere earlier. *)
Definition first_at (d s a b : bytes) : Prop :=
  s = a ++ d ++ b /\ forall a' b', s = a' ++ d ++ b' -> length a <= length a'.

Lemma find_sub_some d s k : find_sub d s = Some k -> exists a b, first_at d s a b /\ length a = k.
Proof.
  revert k. induction s as [|x s IH]; intros k H; cbn [find_sub] in H.
  - destruct (is_prefix d []) eqn:E; [|easy]. inversion H; subst. apply is_prefix_true in E as (r & E).
    exists [], r. repeat split; auto. simpl. lia.
  - destruct (is_prefix d (x :: s)) eqn:E.
    + inversion H; subst. apply is_prefix_true in E as (r & E). exists [], r. repeat split; auto. simpl. lia.
    + destruct (find_sub d s) as [j|] eqn:Ej; [|easy]. inversion H; subst.
      destruct (IH _ eq_refl) as (a & b & (-> & Hm) & Hl). exists (x :: a), b. simpl. split; [|now f_equal].
      split; auto. intros [|y a'] b' Hs.
      * exfalso. apply eq_true_false_abs with (2 := E). apply is_prefix_true. exists b'. exact Hs.
      * inversion Hs; subst. simpl. apply le_n_S. eapply Hm; eauto.
Qed.

Lemma find_sub_none d s : find_sub d s = None -> forall a b, s <> a ++ d ++ b.
Proof.
  induction s as [|x s IH]; intros H a b Hs; cbn [find_sub] in H.
  - destruct (is_prefix d []) eqn:E; [easy|]. destruct a, d; try easy.
  - destruct (is_prefix d (x :: s)) eqn:E; [easy|].
    destruct (find_sub d s) eqn:Ej; [easy|]. destruct a as [|y a].
    + apply eq_true_false_abs with (2 := E). apply is_prefix_true. now exists b.
    + inversion Hs; subst. now apply (IH eq_refl a b).
Qed.

Lemma find_sub_first d s a b : first_at d s a b -> find_sub d s = Some (length a).
Proof.
  intros (Hs & Hm). destruct (find_sub d s) as [k|] eqn:E.
  - apply find_sub_some in E as (a' & b' & (Hs' & Hm') & <-). f_equal.
    apply Nat.le_antisymm; [apply (Hm' a b Hs)|apply (Hm a' b' Hs')].
  - now apply find_sub_none with (a := a) (b := b) in E.
Qed.

Lemma split_before d a b : is_utf8 d -> is_utf8 (a ++ d ++ b) -> is_utf8 a \/ d = [].
Proof.
  intros Hd H. destruct d as [|x d]; auto. left. apply is_utf8_valid in H, Hd. apply is_utf8_valid.
  assert (Hb : is_boundary (a ++ (x :: d) ++ b) (length a) = true).
  { unfold is_boundary. rewrite nth_error_app2, Nat.sub_diag by lia. simpl.
    rewrite (valid_head _ _ Hd). apply orb_true_r. }
  now apply boundary_split in Hb.
Qed.

Lemma parse_until_ok p pre d rest a b : reading p pre rest -> rest <> [] -> is_utf8 d ->
  first_at d rest a b ->
  exists p', parse_until p d = (Ok a, p') /\ reading p' (pre ++ a) (d ++ b).
Proof.
  intros H Hne Hd Hf. pose proof Hf as (Hs & Hm). unfold parse_until. rewrite (reading_empty_pos _ _ _ H), (reading_remaining _ _ _ H).
  destruct rest as [|y t] eqn:E; [easy|]. rewrite <- E in *. rewrite (find_sub_first _ _ _ _ Hf).
  assert (Ha : is_utf8 a).
  { pose proof H as (_ & _ & _ & H4). rewrite Hs in H4. destruct (split_before d a b Hd H4); auto.
    subst d. specialize (Hm [] rest eq_refl). destruct a; [|simpl in Hm; lia]. exists []. now split. }
  eexists. split; [f_equal|].
  - pose proof (str_slice_ok [] a (d ++ b)) as Hsl. cbn [app length Nat.add] in Hsl. rewrite Hs. apply Hsl.
    + rewrite <- Hs. apply is_utf8_valid. now destruct H as (_ & _ & _ & H4).
    + now apply is_utf8_valid.
  - rewrite Hs in H. now apply reading_step.
Qed.

Lemma parse_until_none p pre d rest : reading p pre rest -> rest <> [] ->
  (forall a b, rest <> a ++ d ++ b) -> parse_until p d = (Err ParseError, p).
Proof.
  intros H Hne Hno. unfold parse_until. rewrite (reading_empty_pos _ _ _ H), (reading_remaining _ _ _ H).
  destruct rest as [|y t] eqn:E; [easy|]. rewrite <- E in *.
  destruct (find_sub d rest) as [k|] eqn:Ek; auto.
  apply find_sub_some in Ek as (a & b & (Hs & _) & _). now apply Hno in Hs.
Qed.

Lemma parse_until_eof p pre d : reading p pre [] -> parse_until p d = (Err UnexpectedEof, p).
Proof. intros H. unfold parse_until. now rewrite (reading_empty_pos _ _ _ H). Qed.

(** One-byte dividers. *)
Lemma first_byte c a b : ~ In c a -> first_at [c] (a ++ c :: b) a b.
Proof.
  intros Hn. split; auto. intros a' b' Hs. destruct (Nat.le_gt_cases (length a) (length a')); auto.
  exfalso. apply Hn. simpl in Hs.
  assert (Hnth : nth_error (a ++ c :: b) (length a') = Some c).
  { rewrite Hs, nth_error_app2, Nat.sub_diag by lia. reflexivity. }
  rewrite nth_error_app1 in Hnth by auto. now apply nth_error_In in Hnth.
Qed.

Lemma in_split_first (c : byte) s : In c s -> exists a b, s = a ++ c :: b /\ ~ In c a.
Proof.
  induction s as [|x s IH]; [easy|]. intros H. destruct (Byte.byte_eq_dec x c) as [->|Hne].
  - exists [], s. split; auto.
  - destruct H as [|H]; [easy|]. destruct (IH H) as (a & b & -> & Hn). exists (x :: a), b. split; auto.
    intros [|]; easy.
Qed.

(** ** tokens *)
Definition blank (b : byte) : Prop := b = SP \/ b = TAB.

Lemma is_blank_true b : is_blank b = true <-> blank b.
Proof. unfold is_blank, blank. rewrite orb_true_iff. split; intros [H|H].
  - left. now apply byte_eqb_true in H.
  - right. now apply byte_eqb_true in H.
  - left. subst. reflexivity.
  - right. subst. reflexivity. Qed.
Lemma is_blank_false b : is_blank b = false <-> ~ blank b.
Proof. rewrite <- is_blank_true. now destruct (is_blank b). Qed.
Lemma blank_ascii b : blank b -> (bval b < 128)%N.
Proof. intros [->| ->]; reflexivity. Qed.
Lemma blanks_utf8 w : Forall blank w -> is_utf8 w.
Proof.
  intros H. apply is_utf8_valid. induction H; auto. rewrite valid_ascii_cons; auto. now apply blank_ascii.
Qed.

(** [rest] is a token, the blanks after it, and what follows. *)
Definition token_split (rest tok ws r : bytes) : Prop :=
  rest = tok ++ ws ++ r /\ Forall (fun b => ~ blank b) tok /\ Forall blank ws
  /\ (forall b t, r = b :: t -> ~ blank b) /\ (ws = [] -> r = []).

Lemma token_split_exists rest : exists tok ws r, token_split rest tok ws r.
Proof.
  assert (Hb : forall s, exists ws r, s = ws ++ r /\ Forall blank ws /\ (forall b t, r = b :: t -> ~ blank b)).
  { induction s as [|b s (ws & r & -> & H1 & H2)].
    - exists [], []. repeat split; auto. easy.
    - destruct (is_blank b) eqn:E.
      + exists (b :: ws), r. repeat split; auto. constructor; auto. now apply is_blank_true.
      + exists [], (b :: ws ++ r). repeat split; auto. intros ? ? [= <- _]. now apply is_blank_false. }
  induction rest as [|b s (tok & ws & r & -> & H1 & H2 & H3 & H4)].
  - exists [], [], []. repeat split; auto. easy.
  - destruct (is_blank b) eqn:E.
    + destruct (Hb (b :: tok ++ ws ++ r)) as (ws' & r' & He & H5 & H6).
      exists [], ws', r'. repeat split; auto. intros ->. simpl in He. subst. exfalso.
      apply (H6 b _ eq_refl). now apply is_blank_true.
    + exists (b :: tok), ws, r. repeat split; auto. constructor; auto. now apply is_blank_false.
Qed.

Lemma before_blank_app tok r : Forall (fun b => ~ blank b) tok -> (forall b t, r = b :: t -> blank b) ->
  before_blank (tok ++ r) = tok.
Proof.
  intros H Hr. induction H as [|b tok Hb H IH]; simpl.
  - destruct r as [|b t]; auto. simpl. rewrite (proj2 (is_blank_true b)); auto. now apply (Hr b t).
  - rewrite (proj2 (is_blank_false b)); auto. now f_equal.
Qed.

Lemma consume_ws_spec ws : forall fuel p pre r, length ws <= fuel -> Forall blank ws ->
  reading p pre (ws ++ r) -> (forall b t, r = b :: t -> ~ blank b) ->
  exists p', consume_ws fuel p = (Ok tt, p') /\ reading p' (pre ++ ws) r.
Proof.
  assert (Hpos : forall p pre rest, reading p pre rest ->
    (ppos p <? length (ps p)) = match rest with [] => false | _ => true end).
  { intros p pre rest (H1 & H2 & _). rewrite H1, H2, app_length. destruct rest; simpl.
    - apply Nat.ltb_ge. lia.
    - apply Nat.ltb_lt. lia. }
  induction ws as [|b ws IH]; intros fuel p pre r Hf Hw H Hr.
  - destruct fuel; cbn [consume_ws]; rewrite (Hpos _ _ _ H), (reading_remaining _ _ _ H); cbn [app] in *;
      (destruct r as [|c t]; [|rewrite (proj2 (is_blank_false c)) by (now apply (Hr c t))]); exists p;
      rewrite app_nil_r; auto.
  - destruct fuel as [|f]; [simpl in Hf; lia|]. cbn [consume_ws].
    rewrite (Hpos _ _ _ H), (reading_remaining _ _ _ H). cbn [app].
    inversion Hw as [|? ? Hb Hw']; subst. rewrite (proj2 (is_blank_true b) Hb).
    destruct (IH f (mkParser (ps p) (ppos p + 1)) (pre ++ [b]) r) as (p' & E & H').
    + simpl in Hf. lia.
    + auto.
    + change ((b :: ws) ++ r) with ([b] ++ (ws ++ r)) in H. apply reading_step; auto.
      apply blanks_utf8. auto.
    + auto.
    + exists p'. rewrite <- app_assoc in H'. auto.
Qed.

Lemma parse_token_spec p pre rest tok ws r : reading p pre rest -> rest <> [] ->
  token_split rest tok ws r ->
  exists p', parse_token p = (Ok tok, p') /\ reading p' (pre ++ tok ++ ws) r.
Proof.
  intros H Hne (Hs & H1 & H2 & H3 & H4). unfold parse_token.
  rewrite (reading_empty_pos _ _ _ H), (reading_remaining _ _ _ H).
  destruct rest as [|y t] eqn:E; [easy|]. rewrite <- E in *.
  assert (Hbb : before_blank rest = tok).
  { rewrite Hs. apply before_blank_app; auto. intros b u Hb. destruct ws as [|c ws].
    - rewrite (H4 eq_refl) in Hb. easy.
    - inversion Hb; subst. now inversion H2. }
  rewrite Hbb. assert (Htok : is_utf8 tok).
  { pose proof H as (_ & _ & _ & Hu). rewrite Hs in Hu. destruct ws as [|c ws].
    - rewrite (H4 eq_refl) in Hu. simpl in Hu. now rewrite app_nil_r in Hu.
    - apply is_utf8_valid in Hu. apply is_utf8_valid. inversion H2; subst.
      apply valid_split_ascii in Hu as [Hu _]; auto. now apply blank_ascii. }
  destruct (consume_ws_spec ws (length (ps p)) (mkParser (ps p) (ppos p + length tok)) (pre ++ tok) r)
    as (p' & Ep & H').
  - destruct H as (-> & _). rewrite Hs, !app_length. lia.
  - auto.
  - rewrite Hs in H. now apply reading_step.
  - auto.
  - rewrite Ep. cbn [sbind]. exists p'. rewrite <- app_assoc in H'. auto.
Qed.

Lemma parse_token_eof p pre : reading p pre [] -> parse_token p = (Err UnexpectedEof, p).
Proof. intros H. unfold parse_token. now rewrite (reading_empty_pos _ _ _ H). Qed.

(** ** parse_remaining *)
Lemma parse_remaining_spec p pre rest : reading p pre rest ->
  exists p', parse_remaining p = (Ok rest, p') /\ parse_remaining p' = (Err UnexpectedEof, p')
    /\ ps p' = ps p.
Proof.
  intros H. unfold parse_remaining at 1. rewrite (reading_remaining _ _ _ H).
  pose proof H as (H1 & H2 & _).
  replace (length (ps p) <? ppos p) with false by (symmetry; apply Nat.ltb_ge; rewrite H1, H2, app_length; lia).
  eexists. split; [reflexivity|]. split; [|reflexivity]. unfold parse_remaining. cbn [ps ppos].
  replace (length (ps p) <? length (ps p) + 1) with true; auto. symmetry. apply Nat.ltb_lt. lia.
Qed.

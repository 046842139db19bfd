(** Lemmas on Unicode case mapping and on header maps. *)
From Verif Require Import Base Utf8 UnicodeTables Case Types Transport Lemmas NumLemmas Utf8Lemmas ParserLemmas.
Local Open Scope N_scope.

(** ** Facts about the tables, by computation *)
Definition special (c : N) : bool :=
  (c =? 9) || (c =? 10) || (c =? 13) || (c =? 32) || (c =? 58).
Definition lower_ok (c : N) : bool :=
  scalar c && negb (c =? 931) && negb (special c)
  && match assocN lower_table c with None => true | Some l => match l with [d] => d =? c | _ => false end end.
Lemma lower_table_ok : forallb (fun e => forallb lower_ok (snd e) && negb (special (fst e))
  && match snd e with [] => false | _ => true end) lower_table = true.
Proof. vm_compute. reflexivity. Qed.

Lemma assocN_in {A} (l : list (N * A)) k v : assocN l k = Some v -> In (k, v) l.
Proof.
  induction l as [|[k' v'] l IH]; [easy|]. simpl. destruct (k =? k') eqn:E.
  - apply N.eqb_eq in E. intros [= ->]. subst. auto.
  - auto.
Qed.

(** Characters that lower-casing leaves alone, wherever they stand. *)
Definition low (c : N) : Prop := c <> 931 /\ lower_char c = [c].

Lemma lower_ok_low c : lower_ok c = true -> low c /\ scalar c = true /\ special c = false.
Proof.
  unfold lower_ok, low, lower_char. intros H. apply andb_true_iff in H as [H H4].
  apply andb_true_iff in H as [H H3]. apply andb_true_iff in H as [H1 H2].
  apply negb_true_iff in H2, H3. apply N.eqb_neq in H2. repeat split; auto.
  destruct (assocN lower_table c) as [[|d [|]]|]; try easy. apply N.eqb_eq in H4. now subst.
Qed.

Lemma lower_char_cases c : c <> 931 -> scalar c = true ->
  (lower_char c = [c] \/ special c = false) /\ lower_char c <> []
  /\ Forall (fun d => low d /\ scalar d = true /\ (d = c \/ special d = false)) (lower_char c).
Proof.
  intros Hc Hs. unfold lower_char. destruct (assocN lower_table c) as [l|] eqn:E.
  - pose proof lower_table_ok as H. rewrite forallb_forall in H. apply assocN_in in E. specialize (H _ E).
    cbn [fst snd] in H. apply andb_true_iff in H as [H H3]. apply andb_true_iff in H as [H1 H2].
    apply negb_true_iff in H2. repeat split; auto.
    + now destruct l.
    + rewrite forallb_forall in H1. apply Forall_forall. intros d Hd. apply H1, lower_ok_low in Hd as (H4 & H5 & H6). auto.
  - repeat split; auto; [easy|]. constructor; auto. repeat split; auto. unfold lower_char. now rewrite E.
Qed.

Lemma lower_chars_low cs : forall before, Forall (fun c => scalar c = true) cs ->
  Forall (fun d => low d /\ scalar d = true) (lower_chars before cs).
Proof.
  induction cs as [|c cs IH]; intros before H; cbn [lower_chars]; [constructor|].
  inversion H; subst. apply Forall_app. split; auto.
  destruct (c =? 931) eqn:E.
  - destruct (negb _ && _); repeat constructor; easy.
  - apply N.eqb_neq in E. destruct (lower_char_cases c E) as (_ & _ & Hf); auto.
    eapply Forall_impl; [|exact Hf]. simpl. tauto.
Qed.

Lemma lower_chars_id cs : forall before, Forall low cs -> lower_chars before cs = cs.
Proof.
  induction cs as [|c cs IH]; intros before H; cbn [lower_chars]; auto.
  inversion H as [|? ? [H1 H2] H3]; subst. apply N.eqb_neq in H1. rewrite H1, H2. simpl. f_equal. auto.
Qed.

Lemma to_lowercase_utf8 s : is_utf8 s -> is_utf8 (to_lowercase s).
Proof.
  intros (cs & Hc & ->). unfold to_lowercase. rewrite decode_encode by auto.
  eexists. split; [|reflexivity]. eapply Forall_impl; [|apply lower_chars_low; auto]. simpl. tauto.
Qed.

Lemma to_lowercase_idem s : to_lowercase (to_lowercase s) = to_lowercase s.
Proof.
  unfold to_lowercase at 2 3. destruct (utf8_decode s) as [cs|] eqn:E.
  - apply encode_decode in E as [Hc ->]. unfold to_lowercase.
    rewrite decode_encode.
    + f_equal. apply lower_chars_id. eapply Forall_impl; [|apply lower_chars_low; auto]. simpl. tauto.
    + eapply Forall_impl; [|apply lower_chars_low; auto]. simpl. tauto.
  - unfold to_lowercase. now rewrite E.
Qed.

(** Lower-casing creates no separator. *)
Lemma in_encode b cs : bval b < 128 -> Forall (fun c => scalar c = true) cs ->
  In b (utf8_encode cs) -> In (bval b) cs.
Proof.
  intros Hb Hc. induction Hc as [|c cs Hs Hc IH]; cbn [utf8_encode flat_map]; [easy|].
  intros H. apply in_app_iff in H as [H|H]; [|right; auto].
  left. pose proof (encode_char_shape c Hs) as (x & r & E & _ & Hr & Hi & Hl). rewrite E in H.
  destruct H as [->|H].
  - assert (c < 128) by tauto. unfold encode_char in E. rewrite (proj2 (N.ltb_lt _ _) H) in E.
    injection E as <- _. symmetry. apply bval_byte_of. lia.
  - rewrite forallb_forall in Hr. apply Hr in H. apply in_range_true in H. lia.
Qed.

Lemma to_lowercase_special b s : is_utf8 s -> bval b < 128 -> special (bval b) = true ->
  In b (to_lowercase s) -> In b s.
Proof.
  intros (cs & Hc & ->) Hb Hsp. unfold to_lowercase. rewrite decode_encode by auto. intros H.
  apply in_encode in H; auto.
  - assert (Hin : forall before, In (bval b) (lower_chars before cs) -> In (bval b) cs).
    { clear H. induction Hc as [|c cs Hs Hc IH]; intros before H; cbn [lower_chars] in H; [easy|].
      apply in_app_iff in H as [H|H]; [|right; eauto]. left.
      destruct (c =? 931) eqn:E.
      - destruct (negb _ && _) in H; destruct H as [H|[]]; rewrite <- H in Hsp; easy.
      - apply N.eqb_neq in E. destruct (lower_char_cases c E) as (_ & _ & Hf); auto.
        rewrite Forall_forall in Hf. destruct (Hf _ H) as (_ & _ & [|]); auto. congruence. }
    apply Hin in H. unfold utf8_encode. apply in_flat_map. exists (bval b). split; auto.
    rewrite encode_ascii by auto. now left.
  - eapply Forall_impl; [|apply lower_chars_low; auto]. simpl. tauto.
Qed.

(** The first character, if a separator, stays first; if not, no separator becomes first. *)
Lemma to_lowercase_head b t s : is_utf8 s -> bval b < 128 -> special (bval b) = true ->
  to_lowercase s = b :: t -> exists t', s = b :: t'.
Proof.
  intros (cs & Hc & ->) Hb Hsp. unfold to_lowercase. rewrite decode_encode by auto.
  destruct Hc as [|c cs Hs Hc]; [easy|]. cbn [lower_chars]. intros H.
  assert (Hfirst : forall l r, Forall (fun d => scalar d = true /\ (d = c \/ special d = false)) l -> l <> [] ->
     utf8_encode (l ++ r) = b :: t -> c = bval b).
  { intros [|d l] r Hl Hne He; [easy|]. inversion Hl as [|? ? [H1 H2] _]; subst.
    cbn [app utf8_encode flat_map] in He. pose proof (encode_char_shape d H1) as (x & u & E & _ & _ & Hi & _).
    rewrite E in He. injection He as -> _. assert (Hd : d < 128) by tauto. unfold encode_char in E.
    rewrite (proj2 (N.ltb_lt _ _) Hd) in E. injection E as <- _. rewrite bval_byte_of in * by lia.
    destruct H2; auto. congruence. }
  assert (Hcb : c = bval b).
  { destruct (c =? 931) eqn:E.
    - eapply Hfirst; [| |exact H].
      + apply N.eqb_eq in E. destruct (negb _ && _); repeat constructor; right; reflexivity.
      + now destruct (negb _ && _).
    - apply N.eqb_neq in E. destruct (lower_char_cases c E) as (_ & Hn & Hf); auto.
      eapply Hfirst; [|exact Hn|exact H]. eapply Forall_impl; [|exact Hf]. simpl. tauto. }
  subst c. exists (utf8_encode cs). cbn [utf8_encode flat_map]. now rewrite encode_ascii.
Qed.

(** CR LF is not created either. *)
Lemma lower_piece c (before t : list N) : scalar c = true ->
  let l := if c =? 931 then
         if negb (ignorable_then_cased t) && ignorable_then_cased before then [962] else [963]
       else lower_char c in
  l <> [] /\ Forall (fun d => d = c \/ special d = false) l /\ (special c = true -> l = [c]).
Proof.
  intros Hs. cbv zeta. destruct (c =? 931) eqn:E.
  - apply N.eqb_eq in E. subst. destruct (negb _ && _); repeat split; try easy; repeat constructor; right; reflexivity.
  - apply N.eqb_neq in E. destruct (lower_char_cases c E Hs) as (H1 & H2 & H3). repeat split; auto.
    + eapply Forall_impl; [|exact H3]. simpl. tauto.
    + intros H. destruct H1; congruence.
Qed.

Lemma lower_chars_pair x y cs : special x = true -> special y = true ->
  Forall (fun c => scalar c = true) cs -> forall before a b,
  lower_chars before cs = a ++ x :: y :: b -> exists a' b', cs = a' ++ x :: y :: b'.
Proof.
  intros Hx Hy H. induction H as [|c cs Hs H IH]; intros before a b E; cbn [lower_chars] in E.
  { now destruct a. }
  pose proof (lower_piece c before cs Hs) as (P1 & P2 & P3).
  set (l := if c =? 931 then _ else _) in *. cbv zeta in *. clearbody l.
  destruct (Nat.lt_ge_cases (length a) (length l)) as [Hlt|Hge].
  - (* x is in the piece *)
    assert (Hin : In x l).
    { assert (Hn : nth_error (l ++ lower_chars (c :: before) cs) (length a) = Some x).
      { rewrite E, nth_error_app2, Nat.sub_diag by lia. reflexivity. }
      rewrite nth_error_app1 in Hn by lia. now apply nth_error_In in Hn. }
    rewrite Forall_forall in P2. destruct (P2 x Hin) as [->|P]; [|congruence].
    rewrite (P3 Hx) in *. destruct a as [|z a]; [|cbn in Hlt; lia]. injection E as E.
    destruct cs as [|c2 cs2]; [easy|]. inversion H; subst. cbn [lower_chars] in E.
    pose proof (lower_piece c2 (c :: before) cs2 H2) as (Q1 & Q2 & Q3).
    set (l2 := if c2 =? 931 then _ else _) in *. cbv zeta in *. clearbody l2.
    destruct l2 as [|z l2]; [easy|]. injection E as -> E. inversion Q2 as [|? ? [->|Q] _]; subst; [|congruence].
    exists [], cs2. reflexivity.
  - assert (E' : lower_chars (c :: before) cs = skipn (length l) a ++ x :: y :: b).
    { apply (f_equal (skipn (length l))) in E. rewrite !skipn_app, Nat.sub_diag, skipn_all in E. cbn [app skipn] in E.
      rewrite E. replace (length l - length a)%nat with 0%nat by lia. reflexivity. }
    apply IH in E' as (a' & b' & ->). exists (c :: a'), b'. reflexivity.
Qed.

Lemma encode_pair x y cs a b : bval x < 128 -> bval y < 128 -> Forall (fun c => scalar c = true) cs ->
  utf8_encode cs = a ++ x :: y :: b -> exists a' b', cs = a' ++ bval x :: bval y :: b'.
Proof.
  intros Hx Hy Hc E. assert (Hv : utf8_valid (a ++ x :: y :: b) = true) by (rewrite <- E; now apply valid_encode).
  destruct (valid_split_ascii a x (y :: b) Hx Hv) as [Ha Hb]. rewrite valid_ascii_cons in Hb by auto.
  apply utf8_valid_spec in Ha as (ca & Hca & ->), Hb as (cb & Hcb & ->).
  exists ca, cb. assert (E2 : utf8_encode cs = utf8_encode (ca ++ bval x :: bval y :: cb)).
  { rewrite E. unfold utf8_encode. rewrite flat_map_app. cbn [flat_map]. rewrite !encode_ascii by auto. reflexivity. }
  apply (f_equal utf8_decode) in E2. rewrite !decode_encode in E2; auto.
  - now injection E2 as ->.
  - apply Forall_app. split; auto. repeat constructor; auto; apply scalar_true; lia.
Qed.

Lemma to_lowercase_crlf s : is_utf8 s -> no_crlf s -> no_crlf (to_lowercase s).
Proof.
  intros (cs & Hc & ->) Hn (a & b & E). unfold to_lowercase in E. rewrite decode_encode in E by auto.
  apply encode_pair in E as (a' & b' & E); try easy.
  - apply lower_chars_pair in E as (a2 & b2 & ->); auto. apply Hn. exists (utf8_encode a2), (utf8_encode b2).
    unfold utf8_encode. now rewrite flat_map_app.
  - eapply Forall_impl; [|apply lower_chars_low; auto]. simpl. tauto.
Qed.

(** ** ASCII *)
Definition ascii_lower (b : byte) : byte :=
  if (65 <=? bval b) && (bval b <=? 90) then byte_of (bval b + 32) else b.
Definition ascii_upper (b : byte) : byte :=
  if (97 <=? bval b) && (bval b <=? 122) then byte_of (bval b - 32) else b.

Lemma lower_char_ascii b : bval b < 128 -> lower_char (bval b) = [bval (ascii_lower b)] /\ bval (ascii_lower b) < 128.
Proof. destruct b; intros H; try (exfalso; revert H; vm_compute; easy); split; vm_compute; reflexivity. Qed.
Lemma upper_char_ascii b : bval b < 128 -> upper_char (bval b) = [bval (ascii_upper b)] /\ bval (ascii_upper b) < 128.
Proof. destruct b; intros H; try (exfalso; revert H; vm_compute; easy); split; vm_compute; reflexivity. Qed.

Lemma ascii_cons b s : ascii (b :: s) = true <-> bval b < 128 /\ ascii s = true.
Proof. unfold ascii. cbn [forallb]. rewrite andb_true_iff, N.ltb_lt. tauto. Qed.

Lemma to_lowercase_ascii s : ascii s = true -> to_lowercase s = map ascii_lower s.
Proof.
  intros H. unfold to_lowercase. rewrite ascii_decode by auto. generalize (@nil N) as before.
  induction s as [|b s IH]; intros before; [reflexivity|]. apply ascii_cons in H as [Hb Hs].
  cbn [map lower_chars]. replace (bval b =? 931) with false by (symmetry; apply N.eqb_neq; lia).
  destruct (lower_char_ascii b Hb) as [-> Hl]. cbn [app utf8_encode flat_map]. rewrite encode_ascii by auto.
  cbn [app]. f_equal. apply (IH Hs).
Qed.

Lemma to_uppercase_ascii s : ascii s = true -> to_uppercase s = map ascii_upper s.
Proof.
  intros H. unfold to_uppercase. rewrite ascii_decode by auto.
  induction s as [|b s IH]; [reflexivity|]. apply ascii_cons in H as [Hb Hs].
  cbn [map flat_map]. destruct (upper_char_ascii b Hb) as [-> Hl]. cbn [app utf8_encode flat_map].
  rewrite encode_ascii by auto. cbn [app]. f_equal. apply (IH Hs).
Qed.

(** ** Byte order *)
Lemma bcompare_eq a b : bcompare a b = Eq <-> a = b.
Proof.
  revert b. induction a as [|x a IH]; intros [|y b]; simpl; try easy.
  destruct (bval x ?= bval y) eqn:E.
  - apply N.compare_eq in E. apply bval_inj in E. subst. rewrite IH. split; [now intros ->|now intros [= ->]].
  - split; [easy|]. intros [= -> ->]. rewrite N.compare_refl in E. easy.
  - split; [easy|]. intros [= -> ->]. rewrite N.compare_refl in E. easy.
Qed.

Lemma bcompare_antisym a b : bcompare b a = CompOpp (bcompare a b).
Proof.
  revert b. induction a as [|x a IH]; intros [|y b]; simpl; auto.
  rewrite N.compare_antisym. destruct (bval x ?= bval y); simpl; auto.
Qed.

Definition blt (a b : bytes) : Prop := bcompare a b = Lt.

Lemma blt_irrefl a : ~ blt a a.
Proof. unfold blt. rewrite (proj2 (bcompare_eq a a) eq_refl). easy. Qed.

Lemma blt_trans a b c : blt a b -> blt b c -> blt a c.
Proof.
  unfold blt. revert b c. induction a as [|x a IH]; intros [|y b] [|z c]; simpl; try easy.
  destruct (bval x ?= bval y) eqn:E1, (bval y ?= bval z) eqn:E2; try easy; intros H1 H2;
    rewrite ?N.compare_eq_iff, ?N.compare_lt_iff in *.
  - rewrite (proj2 (N.compare_eq_iff _ _)) by congruence. eauto.
  - rewrite (proj2 (N.compare_lt_iff _ _)) by lia. auto.
  - rewrite (proj2 (N.compare_lt_iff _ _)) by lia. auto.
  - rewrite (proj2 (N.compare_lt_iff _ _)) by lia. auto.
Qed.

Lemma blt_gt a b : bcompare a b = Gt -> blt b a.
Proof. intros H. unfold blt. rewrite bcompare_antisym, H. reflexivity. Qed.

(** ** Header maps: association lists with strictly increasing keys *)
Inductive sorted : headers -> Prop :=
| sorted_nil : sorted []
| sorted_cons k v m : (forall k' v', In (k', v') m -> blt k k') -> sorted m -> sorted ((k, v) :: m).

Lemma hm_insert_in k v m : forall k' v', In (k', v') (hm_insert k v m) -> (k' = k /\ v' = v) \/ In (k', v') m.
Proof.
  induction m as [|[k0 v0] m IH]; simpl; intros k' v' H.
  - destruct H as [[= <- <-]|[]]. auto.
  - destruct (bcompare k k0) eqn:E.
    + apply bcompare_eq in E. subst. destruct H as [[= <- <-]|H]; auto.
    + destruct H as [[= <- <-]|H]; auto.
    + destruct H as [[= <- <-]|H]; auto. destruct (IH _ _ H) as [|]; auto.
Qed.

Lemma hm_insert_sorted k v m : sorted m -> sorted (hm_insert k v m).
Proof.
  intros H. induction H as [|k0 v0 m Hlt Hs IH]; simpl.
  - constructor; [easy|constructor].
  - destruct (bcompare k k0) eqn:E.
    + constructor; auto.
    + constructor; [|constructor; auto]. intros k' v' [[= <- <-]|Hin]; auto.
      eapply blt_trans; [exact E|eauto].
    + constructor; auto. intros k' v' Hin. apply hm_insert_in in Hin as [[-> ->]|Hin]; eauto using blt_gt.
Qed.

Lemma hm_get_in k m v : hm_get k m = Some v -> In (k, v) m.
Proof.
  induction m as [|[k0 v0] m IH]; simpl; [easy|]. destruct (beqb k k0) eqn:E.
  - apply beqb_true in E. intros [= ->]. subst. auto.
  - auto.
Qed.

Lemma hm_get_none k m : (forall k' v', In (k', v') m -> k' <> k) -> hm_get k m = None.
Proof.
  intros H. destruct (hm_get k m) as [v|] eqn:E; auto. apply hm_get_in in E. now apply H in E.
Qed.

Lemma hm_get_insert k v m k' : sorted m ->
  hm_get k' (hm_insert k v m) = if beqb k' k then Some v else hm_get k' m.
Proof.
  intros H. induction H as [|k0 v0 m Hlt Hs IH]; simpl.
  - reflexivity.
  - destruct (bcompare k k0) eqn:E; simpl.
    + apply bcompare_eq in E. subst. destruct (beqb k' k0); auto.
    + reflexivity.
    + rewrite IH. destruct (beqb k' k0) eqn:E1, (beqb k' k) eqn:E2; auto.
      apply beqb_true in E1, E2. subst. rewrite (proj2 (bcompare_eq _ _) eq_refl) in E. easy.
Qed.

Lemma sorted_get k v m : sorted m -> In (k, v) m -> hm_get k m = Some v.
Proof.
  intros H. induction H as [|k0 v0 m Hlt Hs IH]; simpl; [easy|]. intros [[= -> ->]|Hin].
  - now rewrite beqb_refl.
  - destruct (beqb k k0) eqn:E; auto. apply beqb_true in E. subst. apply Hlt in Hin. now apply blt_irrefl in Hin.
Qed.

Lemma sorted_ext m1 m2 : sorted m1 -> sorted m2 -> (forall k, hm_get k m1 = hm_get k m2) -> m1 = m2.
Proof.
  intros H1. revert m2. induction H1 as [|k v m Hlt Hs IH]; intros m2 H2 Heq.
  - destruct H2 as [|k v m Hlt Hs]; auto. specialize (Heq k). simpl in Heq. now rewrite beqb_refl in Heq.
  - destruct H2 as [|k2 v2 m2 Hlt2 Hs2].
    + specialize (Heq k). simpl in Heq. now rewrite beqb_refl in Heq.
    + assert (k = k2).
      { destruct (bcompare k k2) eqn:E.
        - now apply bcompare_eq in E.
        - pose proof (Heq k) as He. cbn [hm_get] in He. rewrite beqb_refl in He.
          destruct (beqb k k2) eqn:Eb; [now apply beqb_true in Eb|].
          symmetry in He. apply hm_get_in, Hlt2 in He. exfalso. apply (blt_irrefl k). eapply blt_trans; eauto.
        - pose proof (Heq k2) as He. cbn [hm_get] in He. rewrite beqb_refl in He.
          destruct (beqb k2 k) eqn:Eb; [now apply beqb_true in Eb|].
          apply hm_get_in, Hlt in He. apply blt_gt in E. exfalso. apply (blt_irrefl k). eapply blt_trans; eauto. }
      subst k2. pose proof (Heq k) as He. cbn [hm_get] in He. rewrite beqb_refl in He. injection He as ->.
      f_equal. apply IH; auto. intros k'. pose proof (Heq k') as He. cbn [hm_get] in He.
      destruct (beqb k' k) eqn:E; auto. apply beqb_true in E. subst k'.
      rewrite !hm_get_none; auto; intros k' v' Hin ->; [apply Hlt2 in Hin|apply Hlt in Hin]; now apply blt_irrefl in Hin.
Qed.

(** A list of entries folded in: the last one with a key wins. *)
Fixpoint last_value (k : bytes) (l : list (bytes * bytes)) : option bytes :=
  match l with
  | [] => None
  | (k', v) :: t => match last_value k t with
                    | Some w => Some w
                    | None => if beqb k k' then Some v else None
                    end
  end.

Lemma fold_insert l : forall m, sorted m ->
  let m' := fold_left (fun m (kv : header) => hm_insert (fst kv) (snd kv) m) l m in
  sorted m' /\ forall k, hm_get k m' = match last_value k l with Some v => Some v | None => hm_get k m end.
Proof.
  induction l as [|[k0 v0] l IH]; intros m Hm; cbn [fold_left fst snd last_value].
  - split; auto.
  - destruct (IH (hm_insert k0 v0 m)) as [H1 H2]; [now apply hm_insert_sorted|]. split; auto.
    intros k. rewrite H2. destruct (last_value k l); auto. rewrite hm_get_insert by auto. now destruct (beqb k k0).
Qed.

Lemma headers_from_sorted l : sorted (headers_from l).
Proof. apply (fold_insert l []). constructor. Qed.
Lemma headers_from_get l k : hm_get k (headers_from l) = last_value k l.
Proof.
  destruct (fold_insert l [] sorted_nil) as [_ H]. unfold headers_from. rewrite H. now destruct (last_value k l).
Qed.

Lemma last_value_in k l v : last_value k l = Some v -> In (k, v) l.
Proof.
  induction l as [|[k0 v0] l IH]; simpl; [easy|]. destruct (last_value k l) eqn:E.
  - intros [= ->]. auto.
  - destruct (beqb k k0) eqn:Eb; [|easy]. apply beqb_true in Eb. intros [= ->]. subst. auto.
Qed.

Lemma last_value_none k l : (forall v, ~ In (k, v) l) -> last_value k l = None.
Proof. intros H. destruct (last_value k l) eqn:E; auto. apply last_value_in in E. now apply H in E. Qed.

Lemma last_value_sorted k m : sorted m -> last_value k m = hm_get k m.
Proof.
  intros H. induction H as [|k0 v0 m Hlt Hs IH]; simpl; auto. rewrite IH.
  destruct (beqb k k0) eqn:E.
  - apply beqb_true in E. subst. rewrite hm_get_none; auto. intros k' v' Hin ->. apply Hlt in Hin. now apply blt_irrefl in Hin.
  - now destruct (hm_get k m).
Qed.

Lemma headers_from_id m : sorted m -> headers_from m = m.
Proof.
  intros H. apply sorted_ext; auto using headers_from_sorted. intros k. now rewrite headers_from_get, last_value_sorted.
Qed.

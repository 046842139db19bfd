(** Byte iterator, read_exact, take, BufReader and line framing over item sequences. *)
From Verif Require Import Base Utf8 Io Message Transport Lemmas.

(** ** Byte iterator *)
Fixpoint items_next (bld : build) (xs : list item) : res (option byte) * list item :=
  match xs with
  | [] => (Ok None, [])
  | B b :: t => (Ok (Some b), t)
  | E e :: t => if is_retry bld e then items_next bld t else (Err e, t)
  end.

Lemma items_next_length bld xs : length (snd (items_next bld xs)) <= length xs.
Proof. induction xs as [|[b|e] xs]; simpl; try lia. destruct (is_retry bld e); simpl; lia. Qed.

Lemma bytes_next_items {St} bld (rd : reader St) R : reader_pos rd R ->
  forall xs s fuel, R s xs -> length xs < fuel ->
  exists s', bytes_next bld rd fuel s = (fst (items_next bld xs), s') /\ R s' (snd (items_next bld xs)).
Proof.
  intros HR. induction xs as [|[b|e] xs IH]; intros s fuel Hs Hf; (destruct fuel as [|f]; simpl in Hf; [lia|]);
    simpl; specialize (read_one _ _ _ _ HR Hs) as H.
  - destruct H as (s' & H1 & H2). rewrite H1. eauto.
  - destruct H as (s' & H1 & H2). rewrite H1. eauto.
  - destruct H as (s' & H1 & H2). rewrite H1. destruct (is_retry bld e).
    + apply IH; auto; lia.
    + eauto.
Qed.

(** ** Lines *)
Definition line_result (line : bytes) : res (option bytes) :=
  match line with
  | [] => Ok None
  | _ => if utf8_valid line then Ok (Some line) else Err Utf8Error
  end.

Fixpoint items_line (bld : build) (acc : bytes) (xs : list item) : res (option bytes) * list item :=
  match xs with
  | [] => (Err UnexpectedEof, [])
  | E e :: t => if is_retry bld e then items_line bld acc t else (Err e, t)
  | B b :: t =>
      if ends_crlf (acc ++ [b]) then (line_result (firstn (length (acc ++ [b]) - 2) (acc ++ [b])), t)
      else items_line bld (acc ++ [b]) t
  end.

Lemma items_line_length bld acc xs : length (snd (items_line bld acc xs)) <= length xs.
Proof.
  revert acc; induction xs as [|[b|e] xs]; intros acc; simpl; try lia.
  - destruct (ends_crlf _); simpl; auto.
  - destruct (is_retry bld e); simpl; auto.
Qed.

Lemma items_line_lt bld acc xs l xs' : items_line bld acc xs = (Ok l, xs') -> length xs' < length xs.
Proof.
  revert acc; induction xs as [|[b|e] xs IH]; intros acc H; simpl in H.
  - easy.
  - destruct (ends_crlf _); [inversion H; subst; simpl; lia|]. apply IH in H; simpl; lia.
  - destruct (is_retry bld e); [|easy]. apply IH in H; simpl; lia.
Qed.

Lemma crlf_loop_items {St} bld (rd : reader St) R : reader_pos rd R ->
  forall xs s fuel acc, R s xs -> length xs < fuel ->
  exists s', crlf_loop bld rd fuel acc s = (fst (items_line bld acc xs), s')
             /\ R s' (snd (items_line bld acc xs)).
Proof.
  intros HR xs. remember (length xs) as k eqn:Hk. assert (Hle : length xs <= k) by lia. clear Hk.
  revert xs Hle. induction k as [|k IH]; intros xs Hle s fuel acc Hs Hf;
    (destruct fuel as [|f]; [lia|]); cbn [crlf_loop];
    destruct (bytes_next_items bld rd R HR xs s (S f) Hs ltac:(lia)) as (s' & H1 & H2);
    rewrite H1; clear H1.
  - destruct xs; simpl in *; [|lia]. eauto.
  - revert H2. clear Hs. induction xs as [|[b|e] xs IHx]; simpl; intros H2.
    + eauto.
    + destruct (ends_crlf (acc ++ [b])).
      * eexists; split; [|exact H2]. unfold line_result.
        destruct (firstn _ _); [reflexivity|]. now destruct (utf8_valid _).
      * apply IH; auto; simpl in Hle; lia.
    + destruct (is_retry bld e).
      * apply IHx; auto; simpl in Hle; lia.
      * simpl in *; eauto.
Qed.

Lemma crlf_next_items {St} bld (rd : reader St) R xs s fuel :
  reader_pos rd R -> R s xs -> length xs < fuel ->
  exists s', crlf_next bld rd fuel s = (fst (items_line bld [] xs), s')
             /\ R s' (snd (items_line bld [] xs)).
Proof. intros. now apply crlf_loop_items. Qed.

(** Where the first CR LF is. *)

Lemma nth_skipn_add {A} k (l : list A) i d : nth i (skipn k l) d = nth (k + i) l d.
Proof. revert l; induction k; intros [|x l]; simpl; auto. now destruct i. Qed.

Lemma ends_crlf_spec l : ends_crlf l = true <-> exists a, l = a ++ CRLF.
Proof.
  unfold ends_crlf. rewrite !andb_true_iff, Nat.leb_le, !byte_eqb_true. split.
  - intros [[H1 H2] H3]. exists (firstn (length l - 2) l).
    rewrite <- (firstn_skipn (length l - 2) l) at 1. f_equal.
    assert (Hs : length (skipn (length l - 2) l) = 2) by (rewrite skipn_length; lia).
    assert (Hn : forall i, nth i (skipn (length l - 2) l) x00 = nth (length l - 2 + i) l x00).
    { intros i. apply nth_skipn_add. }
    destruct (skipn (length l - 2) l) as [|x [|y [|z r]]]; simpl in Hs; try lia.
    specialize (Hn 0) as Hx. specialize (Hn 1) as Hy. simpl in Hx, Hy.
    rewrite Nat.add_0_r in Hx. replace (length l - 2 + 1) with (length l - 1) in Hy by lia.
    rewrite H2 in Hx. rewrite H3 in Hy. now subst.
  - intros [a ->]. rewrite app_length. simpl. repeat split; try lia.
    + rewrite app_nth2 by lia. now replace (_ - length a) with 0 by lia.
    + rewrite app_nth2 by lia. now replace (_ - length a) with 1 by lia.
Qed.

Lemma no_crlf_prefix a b : no_crlf (a ++ b) -> no_crlf a.
Proof. intros H [x [y ->]]. apply H. exists x, (y ++ b). now rewrite <- !app_assoc. Qed.

Lemma ends_crlf_line a : ends_crlf (a ++ CRLF) = true.
Proof. apply ends_crlf_spec. eauto. Qed.

Lemma no_crlf_ends a : no_crlf a -> ends_crlf a = false.
Proof.
  intros H. destruct (ends_crlf a) eqn:E; auto. apply ends_crlf_spec in E as [x ->].
  exfalso. apply H. exists x, []. now rewrite app_nil_r.
Qed.

Lemma no_crlf_cr a : no_crlf a -> no_crlf (a ++ [CR]).
Proof.
  intros H [x [y Hxy]]. destruct y as [|z y] using rev_ind.
  - rewrite app_nil_r in Hxy. change CRLF with ([CR] ++ [LF]) in Hxy. rewrite app_assoc in Hxy.
    apply app_inj_tail in Hxy as [_ Hxy]. easy.
  - rewrite !app_assoc in Hxy. apply app_inj_tail in Hxy as [Hxy _].
    apply H. exists x, y. now rewrite <- app_assoc in Hxy.
Qed.

(** The line accumulated so far contains no CR LF: what happens with the rest. *)
Lemma items_line_noisy bld acc pre xs ys : no_crlf (acc ++ pre) -> noisy bld pre xs ->
  items_line bld acc (xs ++ ys) = items_line bld (acc ++ pre) ys.
Proof.
  intros H Hn. revert acc H. induction Hn as [|b data xs Hn IH|e data xs He Hn IH]; intros acc H; simpl.
  - now rewrite app_nil_r.
  - rewrite no_crlf_ends.
    + rewrite IH; rewrite <- app_assoc; auto.
    + apply (no_crlf_prefix _ data). now rewrite <- app_assoc.
  - rewrite He. now apply IH.
Qed.

Lemma items_line_found bld line xs rest : no_crlf line -> noisy bld (line ++ CRLF ++ rest) xs ->
  exists xs', items_line bld [] xs = (line_result line, xs') /\ noisy bld rest xs'.
Proof.
  intros H Hn. rewrite app_assoc in Hn.
  replace ((line ++ CRLF) ++ rest) with ((line ++ [CR]) ++ [LF] ++ rest) in Hn by (unfold CRLF; now rewrite <- !app_assoc).
  apply noisy_split in Hn as (x1 & x2 & -> & H1 & H2).
  rewrite (items_line_noisy bld [] (line ++ [CR]) x1 x2); simpl; auto using no_crlf_cr.
  revert H2. clear H1 x1. simpl. remember (LF :: rest) as d eqn:Hd. intros H2; revert Hd.
  induction H2 as [|b data xs H2 IH|e data xs He H2 IH]; intros Hd; try easy.
  - inversion Hd; subst. simpl.
    replace ((line ++ [CR]) ++ [LF]) with (line ++ CRLF) by (unfold CRLF; now rewrite <- app_assoc).
    rewrite ends_crlf_line. exists xs. split; auto. f_equal. f_equal. rewrite app_length. simpl.
    replace (length line + 2 - 2) with (length line) by lia. rewrite firstn_app, Nat.sub_diag. simpl.
    now rewrite app_nil_r, firstn_all.
  - destruct (IH Hd) as (xs' & H3 & H4). exists xs'. split; auto. simpl. now rewrite He.
Qed.

Lemma items_line_error bld pre xs e ys : no_crlf pre -> noisy bld pre xs -> is_retry bld e = false ->
  items_line bld [] (xs ++ E e :: ys) = (Err e, ys).
Proof. intros H Hn He. rewrite (items_line_noisy bld [] pre); auto. simpl. now rewrite He. Qed.

Lemma items_line_eof bld pre xs : no_crlf pre -> noisy bld pre xs ->
  items_line bld [] xs = (Err UnexpectedEof, []).
Proof.
  intros H Hn. rewrite <- (app_nil_r xs). now rewrite (items_line_noisy bld [] pre).
Qed.

(** Every byte string either has a first CR LF or none. *)
Lemma crlf_cases s : no_crlf s \/ exists line rest, s = line ++ CRLF ++ rest /\ no_crlf line.
Proof.
  induction s as [|b s IH] using rev_ind.
  - left. intros [a [c H]]. destruct a; easy.
  - destruct IH as [H|(line & rest & -> & H)].
    + destruct (ends_crlf (s ++ [b])) eqn:E.
      * apply ends_crlf_spec in E as [a Ha]. right. exists a, []. rewrite app_nil_r. split; auto.
        change CRLF with ([CR] ++ [LF]) in Ha. rewrite app_assoc in Ha.
        apply app_inj_tail in Ha as [-> ->]. now apply no_crlf_prefix in H.
      * left. intros [a [c Hac]]. destruct c as [|z c] using rev_ind.
        -- rewrite app_nil_r in Hac. rewrite Hac, ends_crlf_line in E. easy.
        -- clear IHc. rewrite !app_assoc in Hac. apply app_inj_tail in Hac as [Hac _].
           apply H. exists a, c. now rewrite <- app_assoc in Hac.
    + right. exists line, (rest ++ [b]). split; auto. now rewrite <- !app_assoc.
Qed.

(** Every item sequence is bytes with retried failures, up to its end or its first other failure. *)
Lemma items_cases bld xs :
  (exists pre, noisy bld pre xs)
  \/ exists pre ys e zs, xs = ys ++ E e :: zs /\ noisy bld pre ys /\ is_retry bld e = false.
Proof.
  induction xs as [|[b|e] xs IH].
  - left. exists []. constructor.
  - destruct IH as [[pre H]|(pre & ys & e & zs & -> & H1 & H2)].
    + left. exists (b :: pre). now constructor.
    + right. exists (b :: pre), (B b :: ys), e, zs. repeat split; auto. now constructor.
  - destruct (is_retry bld e) eqn:He.
    + destruct IH as [[pre H]|(pre & ys & e' & zs & -> & H1 & H2)].
      * left. exists pre. now constructor.
      * right. exists pre, (E e :: ys), e', zs. repeat split; auto. now constructor.
    + right. exists [], [], e, xs. repeat split; auto. constructor.
Qed.

(** ** read_exact *)
Fixpoint items_exact (bld : build) (n : nat) (acc : bytes) (xs : list item) : res bytes * list item :=
  match n, xs with
  | O, _ => (Ok acc, xs)
  | S m, [] => (Err (io_eof bld), [])
  | S m, B b :: t => items_exact bld m (acc ++ [b]) t
  | S m, E e :: t => if is_retry bld e then items_exact bld n acc t else (Err e, t)
  end.

Lemma items_exact_app bld got n acc xs : length got <= n ->
  items_exact bld n acc (map B got ++ xs) = items_exact bld (n - length got) (acc ++ got) xs.
Proof.
  revert n acc; induction got as [|b got IH]; intros n acc H; simpl in *.
  - now rewrite app_nil_r, Nat.sub_0_r.
  - destruct n as [|n]; [lia|]. simpl. rewrite IH by lia. now rewrite <- app_assoc.
Qed.

Lemma items_exact_length bld n acc xs : length (snd (items_exact bld n acc xs)) <= length xs.
Proof.
  revert n acc; induction xs as [|[b|e] xs IH]; intros n acc; destruct n; simpl; try lia.
  - rewrite IH; lia.
  - destruct (is_retry bld e); simpl; try lia. rewrite IH; lia.
Qed.

Lemma read_exact_items {St} bld (rd : reader St) R : reader_pos rd R ->
  forall xs n acc s fuel, R s xs -> length xs < fuel ->
  exists s', read_exact bld rd fuel n acc s = (fst (items_exact bld n acc xs), s')
             /\ R s' (snd (items_exact bld n acc xs)).
Proof.
  intros HR xs. remember (length xs) as k eqn:Hk. assert (Hle : length xs <= k) by lia. clear Hk.
  revert xs Hle. induction k as [|k IH]; intros xs Hle n acc s fuel Hs Hf;
    (destruct n as [|n]; [destruct fuel; simpl; destruct xs as [|[b|e] xs]; eauto|]);
    (destruct fuel as [|f]; [lia|]); cbn [read_exact];
    specialize (HR (S n) s xs (Nat.lt_0_succ n) Hs) as H.
  - destruct xs; simpl in *; [|lia]. destruct H as (s' & H1 & H2). rewrite H1. eauto.
  - destruct xs as [|[b|e] xs].
    + destruct H as (s' & H1 & H2). rewrite H1. simpl. eauto.
    + destruct H as (got & xs' & s' & H1 & H2 & H3 & H4 & H5). rewrite H1.
      destruct got as [|g got]; [easy|]. remember (g :: got) as gg.
      rewrite (proj2 (Nat.leb_le _ _) H3). rewrite H4, items_exact_app by lia.
      apply IH; auto.
      * assert (Hl : length (B b :: xs) = length (map B gg ++ xs')) by congruence.
        rewrite app_length, map_length in Hl. subst gg. simpl in *. lia.
      * assert (Hl : length (B b :: xs) = length (map B gg ++ xs')) by congruence.
        rewrite app_length, map_length in Hl. subst gg. simpl in *. lia.
    + destruct H as (s' & H1 & H2). rewrite H1. cbn [items_exact]. destruct (is_retry bld e).
      * apply IH; auto; simpl in *; lia.
      * eauto.
Qed.

(** ** Take *)
Lemma take_items_0 xs : take_items 0 xs = [].
Proof. destruct xs as [|[b|e] xs]; reflexivity. Qed.

Lemma take_items_app got n xs : (N.of_nat (length got) <= n)%N ->
  take_items n (map B got ++ xs) = map B got ++ take_items (n - N.of_nat (length got)) xs.
Proof.
  revert n; induction got as [|b got IH]; intros n H; simpl in *.
  - now rewrite N.sub_0_r.
  - destruct (n =? 0)%N eqn:E; [apply N.eqb_eq in E; lia|]. rewrite IH by lia. do 3 f_equal. lia.
Qed.

Definition take_rel {St} (R : St -> list item -> Prop) : N * St -> list item -> Prop :=
  fun st out => exists xs, R (snd st) xs /\ out = take_items (fst st) xs.

Lemma take_read_pos {St} (rd : reader St) R : reader_pos rd R -> reader_pos (take_read rd) (take_rel R).
Proof.
  intros HR n [lim s] out Hn (xs & Hs & Ho). simpl in Hs, Ho. unfold take_read.
  destruct (lim =? 0)%N eqn:El.
  - apply N.eqb_eq in El; subst lim. rewrite take_items_0 in Ho. subst out.
    eexists; split; eauto. exists xs. split; auto. simpl. now rewrite take_items_0.
  - apply N.eqb_neq in El. set (m := N.to_nat (N.min (N.of_nat n) lim)).
    assert (Hm : 0 < m) by (unfold m; lia).
    specialize (HR m s xs Hm Hs) as H. destruct xs as [|[b|e] xs].
    + simpl in Ho; subst out. destruct H as (s' & H1 & H2). rewrite H1. simpl.
      replace (0 <=? lim)%N with true by (symmetry; apply N.leb_le; lia).
      eexists; split; eauto. exists []. split; auto.
    + destruct H as (got & xs' & s' & H1 & H2 & H3 & H4 & H5). rewrite H1.
      assert (Hgl : (N.of_nat (length got) <= lim)%N) by (unfold m in H3; lia).
      rewrite (proj2 (N.leb_le _ _) Hgl). rewrite Ho, H4, take_items_app by auto.
      destruct got as [|g got]; [easy|]. cbn [map app].
      exists (g :: got), (take_items (lim - N.of_nat (length (g :: got))) xs'),
        ((lim - N.of_nat (length (g :: got)))%N, s').
      repeat split; auto.
      * unfold m in H3. lia.
      * exists xs'. split; auto.
    + simpl in Ho. rewrite (proj2 (N.eqb_neq _ _) El) in Ho. subst out.
      destruct H as (s' & H1 & H2). rewrite H1. eexists; split; eauto. exists xs. auto.
Qed.

Lemma take_read_zero {St} (rd : reader St) R : reader_zero rd R -> reader_zero (take_read rd) (take_rel R).
Proof.
  intros HR [lim s] out (xs & Hs & Ho). simpl in Hs, Ho. unfold take_read.
  destruct (lim =? 0)%N eqn:El.
  - left. eexists; split; eauto. exists xs; auto.
  - replace (N.to_nat (N.min (N.of_nat 0) lim)) with 0 by lia.
    destruct (HR s xs Hs) as [(s' & H1 & H2)|(e & xs' & s' & H1 & H2 & H3)].
    + left. rewrite H1. simpl. replace (0 <=? lim)%N with true by (symmetry; apply N.leb_le; lia).
      eexists; split; eauto. exists xs. split; auto. simpl. now rewrite N.sub_0_r.
    + right. rewrite H2. subst xs. simpl in Ho. rewrite El in Ho. subst out. do 3 eexists.
      repeat split; eauto. exists xs'; auto.
Qed.

(** ** BufReader *)
Definition bufr_rel {St} (bld : build) (R : St -> list item -> Prop) : bufr St -> list item -> Prop :=
  fun r xs => exists ys, xs = map B (br_buf r) ++ ys /\ R (br_inner r) ys
              /\ (bld = NoStd -> br_buf r = []).

Lemma bufr_read_pos {St} bld cap (rd : reader St) R : 0 < cap ->
  reader_pos rd R -> reader_pos (bufr_read bld cap rd) (bufr_rel bld R).
Proof.
  intros Hc HR n [s buf] xs Hn (ys & -> & Hs & Hb). simpl in *. unfold bufr_read. simpl.
  destruct bld.
  - destruct buf as [|g buf]; simpl.
    + destruct (cap <=? n) eqn:Ec.
      * specialize (HR n s ys Hn Hs) as H. destruct ys as [|[b|e] ys].
        -- destruct H as (s' & H1 & H2). rewrite H1. eexists; split; eauto. exists []. auto.
        -- destruct H as (got & xs' & s' & H1 & H2 & H3 & H4 & H5). rewrite H1.
           do 3 eexists. repeat split; eauto. exists xs'. auto.
        -- destruct H as (s' & H1 & H2). rewrite H1. eexists; split; eauto. exists ys. auto.
      * apply Nat.leb_gt in Ec. specialize (HR cap s ys Hc Hs) as H. destruct ys as [|[b|e] ys].
        -- destruct H as (s' & H1 & H2). rewrite H1. rewrite firstn_nil, skipn_nil.
           eexists; split; eauto. exists []. auto.
        -- destruct H as (got & xs' & s' & H1 & H2 & H3 & H4 & H5). rewrite H1.
           destruct got as [|g got]; [easy|]. exists (firstn n (g :: got)), (map B (skipn n (g :: got)) ++ xs').
           eexists. repeat split.
           ++ destruct n; simpl; [lia|easy].
           ++ rewrite firstn_length. lia.
           ++ rewrite app_assoc, <- map_app, firstn_skipn. auto.
           ++ exists xs'. simpl. repeat split; auto. easy.
        -- destruct H as (s' & H1 & H2). rewrite H1. eexists; split; eauto. exists ys. auto.
    + exists (firstn n (g :: buf)), (map B (skipn n (g :: buf)) ++ ys). eexists. repeat split.
      * destruct n; simpl; [lia|easy].
      * rewrite firstn_length. lia.
      * rewrite app_assoc, <- map_app, firstn_skipn. auto.
      * exists ys. simpl. repeat split; auto. easy.
  - rewrite (Hb eq_refl). simpl. specialize (HR n s ys Hn Hs) as H. destruct ys as [|[b|e] ys].
    + destruct H as (s' & H1 & H2). rewrite H1. eexists; split; eauto. exists []. auto.
    + destruct H as (got & xs' & s' & H1 & H2 & H3 & H4 & H5). rewrite H1.
      do 3 eexists. repeat split; eauto. exists xs'. auto.
    + destruct H as (s' & H1 & H2). rewrite H1. eexists; split; eauto. exists ys. auto.
Qed.

Lemma bufr_read_zero {St} bld cap (rd : reader St) R : 0 < cap ->
  reader_pos rd R -> reader_zero rd R -> reader_zero (bufr_read bld cap rd) (bufr_rel bld R).
Proof.
  intros Hc HR HZ [s buf] xs (ys & -> & Hs & Hb). simpl in *. unfold bufr_read. simpl.
  destruct bld.
  - destruct buf as [|g buf]; simpl.
    + destruct cap as [|cap]; [lia|]. cbn [Nat.leb].
      specialize (HR (S cap) s ys Hc Hs) as H. destruct ys as [|[b|e] ys].
      * left. destruct H as (s' & H1 & H2). rewrite H1. eexists; split; eauto. exists []. auto.
      * left. destruct H as (got & xs' & s' & H1 & H2 & H3 & H4 & H5). rewrite H1.
        eexists; split; eauto. exists xs'. simpl. repeat split; auto. easy.
      * right. destruct H as (s' & H1 & H2). rewrite H1. do 3 eexists; repeat split; eauto. exists ys. auto.
    + left. eexists; split; eauto. exists ys. simpl. auto.
  - rewrite (Hb eq_refl). simpl. destruct (HZ s ys Hs) as [(s' & H1 & H2)|(e & xs' & s' & H1 & H2 & H3)].
    + left. rewrite H1. eexists; split; eauto. exists ys; auto.
    + right. rewrite H2. subst ys. do 3 eexists; repeat split; eauto. exists xs'. auto.
Qed.

Lemma bufr_new_rel {St} bld (R : St -> list item -> Prop) s xs : R s xs -> bufr_rel bld R (bufr_new s) xs.
Proof. intros H. exists xs. auto. Qed.

(** A line that is already here. *)
Lemma items_line_map bld line ys : no_crlf line ->
  items_line bld [] (map B (line ++ CRLF) ++ ys) = (line_result line, ys).
Proof.
  intros H. rewrite map_app, <- app_assoc.
  rewrite (items_line_noisy bld [] line); simpl; auto using noisy_map_B.
  rewrite no_crlf_ends by now apply no_crlf_cr. simpl.
  replace ((line ++ [CR]) ++ [LF]) with (line ++ CRLF) by now rewrite <- app_assoc.
  rewrite ends_crlf_line. do 2 f_equal.
  rewrite app_length. simpl. replace (length line + 2 - 2) with (length line) by lia.
  rewrite firstn_app, Nat.sub_diag, firstn_all. simpl. apply app_nil_r.
Qed.

Lemma no_crlf_snoc s b : no_crlf s -> ends_crlf (s ++ [b]) = false -> no_crlf (s ++ [b]).
Proof.
  intros H He (x & y & Hxy). destruct y as [|z y _] using rev_ind.
  - rewrite app_nil_r in Hxy. rewrite Hxy, ends_crlf_line in He. easy.
  - rewrite !app_assoc in Hxy. apply app_inj_tail in Hxy as [-> _]. apply H.
    exists x, y. now rewrite <- app_assoc.
Qed.

Lemma no_crlf_nil : no_crlf [].
Proof. intros (a & b & H). destruct a; easy. Qed.

(** A returned line was there. *)
Lemma items_line_inv bld acc xs r ys : no_crlf acc -> items_line bld acc xs = (Ok r, ys) ->
  exists pre w line, xs = pre ++ B LF :: ys /\ noisy bld w pre /\ acc ++ w = line ++ [CR]
    /\ no_crlf line /\ line_result line = Ok r.
Proof.
  revert acc; induction xs as [|[b|e] xs IH]; intros acc Ha H; simpl in H; [easy| |].
  - destruct (ends_crlf (acc ++ [b])) eqn:Ee.
    + inversion H; subst. apply ends_crlf_spec in Ee as [a Ee].
      replace (a ++ CRLF) with ((a ++ [CR]) ++ [LF]) in Ee by (now rewrite <- app_assoc).
      apply app_inj_tail in Ee as [-> ->]. exists [], [], a. repeat split; auto using noisy_nil, app_nil_r.
      * now apply no_crlf_prefix in Ha.
      * f_equal. rewrite !app_length. cbn [length].
        replace (length a + 1 + 1 - 2) with (length a) by lia.
        now rewrite <- app_assoc, firstn_app, Nat.sub_diag, firstn_all, firstn_O, app_nil_r.
    + apply IH in H as (pre & w & line & -> & Hn & Hw & Hl & Hr); auto using no_crlf_snoc.
      exists (B b :: pre), (b :: w), line. repeat split; auto.
      * now constructor.
      * rewrite <- Hw, <- app_assoc. reflexivity.
  - destruct (is_retry bld e) eqn:Ee; [|easy].
    apply IH in H as (pre & w & line & -> & Hn & Hw & Hl & Hr); auto.
    exists (E e :: pre), w, line. repeat split; auto. now constructor.
Qed.

(** Lemmas on bytes and transports. *)
From Verif Require Import Base Io Transport.

Lemma byte_eqb_true a b : Byte.eqb a b = true <-> a = b.
Proof. split. - apply Byte.byte_dec_bl. - apply Byte.byte_dec_lb. Qed.

Lemma byte_eqb_refl a : Byte.eqb a a = true.
Proof. now apply byte_eqb_true. Qed.

Lemma byte_eqb_false a b : Byte.eqb a b = false <-> a <> b.
Proof.
  split.
  - intros H ->. now rewrite byte_eqb_refl in H.
  - intros H. destruct (Byte.eqb a b) eqn:E; auto. now apply byte_eqb_true in E.
Qed.

Lemma beqb_true x y : beqb x y = true <-> x = y.
Proof.
  revert y; induction x as [|a x IH]; intros [|b y]; simpl; split; intros H; try easy.
  - apply andb_true_iff in H as [H1 H2]. apply byte_eqb_true in H1. apply IH in H2. now subst.
  - inversion H; subst. now rewrite byte_eqb_refl, (proj2 (IH y) eq_refl).
Qed.

Lemma beqb_refl x : beqb x x = true.
Proof. now apply beqb_true. Qed.

Lemma beqb_false x y : beqb x y = false <-> x <> y.
Proof.
  split.
  - intros H ->. now rewrite beqb_refl in H.
  - intros H. destruct (beqb x y) eqn:E; auto. now apply beqb_true in E.
Qed.

Lemma is_prefix_true p s : is_prefix p s = true <-> exists t, s = p ++ t.
Proof.
  revert s; induction p as [|a p IH]; intros s; simpl.
  - split; eauto.
  - destruct s as [|b s]; simpl.
    + split; [easy|]. intros [t Ht]; easy.
    + rewrite andb_true_iff, byte_eqb_true, IH. split.
      * intros [-> [t ->]]. now exists t.
      * intros [t Ht]. inversion Ht; subst. eauto.
Qed.

Lemma map_B_inj x y : map B x = map B y -> x = y.
Proof. revert y; induction x; intros [|]; simpl; intros H; try easy. inversion H. f_equal; auto. Qed.

(** ** The transport vocabulary *)

Lemma reader_pos_delivers {St} (rd : reader St) R s xs :
  reader_pos rd R -> R s xs -> delivers rd s xs.
Proof. intros; exists R; auto. Qed.

(** The union of all relations that are delivery relations. *)
Lemma delivers_pos {St} (rd : reader St) : reader_pos rd (delivers rd).
Proof.
  intros n s xs Hn [R [HR Hs]]. specialize (HR n s xs Hn Hs) as H.
  destruct xs as [|[b|e] xs].
  - destruct H as (s' & H1 & H2). exists s'. split; auto. now exists R.
  - destruct H as (got & xs' & s' & H1 & H2 & H3 & H4 & H5). exists got, xs', s'.
    repeat split; auto. now exists R.
  - destruct H as (s' & H1 & H2). exists s'. split; auto. now exists R.
Qed.

Lemma delivers0_delivers {St} (rd : reader St) s xs : delivers0 rd s xs -> delivers rd s xs.
Proof. intros (R & H1 & _ & H2). now exists R. Qed.

Lemma delivers0_pos {St} (rd : reader St) : reader_pos rd (delivers0 rd).
Proof.
  intros n s xs Hn (R & HR & HZ & Hs). specialize (HR n s xs Hn Hs) as H.
  destruct xs as [|[b|e] xs].
  - destruct H as (s' & H1 & H2). exists s'. split; auto. now exists R.
  - destruct H as (got & xs' & s' & H1 & H2 & H3 & H4 & H5). exists got, xs', s'.
    repeat split; auto. now exists R.
  - destruct H as (s' & H1 & H2). exists s'. split; auto. now exists R.
Qed.

Lemma delivers0_zero {St} (rd : reader St) : reader_zero rd (delivers0 rd).
Proof.
  intros s xs (R & HR & HZ & Hs). destruct (HZ s xs Hs) as [(s' & H1 & H2)|(e & xs' & s' & H1 & H2 & H3)].
  - left. exists s'. split; auto. now exists R.
  - right. exists e, xs', s'. repeat split; auto. now exists R.
Qed.

Lemma delivers_end_delivers {St} (rd : reader St) s xs P : delivers_end rd s xs P -> delivers rd s xs.
Proof. intros (R & H & Hs & _). now exists R. Qed.

(** Reading one byte is deterministic. *)
Lemma read_one {St} (rd : reader St) R s xs : reader_pos rd R -> R s xs ->
  match xs with
  | [] => exists s', rd 1 s = (Ok [], s') /\ R s' []
  | E e :: xs' => exists s', rd 1 s = (Err e, s') /\ R s' xs'
  | B b :: xs' => exists s', rd 1 s = (Ok [b], s') /\ R s' xs'
  end.
Proof.
  intros HR Hs. specialize (HR 1 s xs (le_n 1) Hs) as H.
  destruct xs as [|[b|e] xs]; auto.
  destruct H as (got & xs' & s' & H1 & H2 & H3 & H4 & H5).
  destruct got as [|g [|g' got]]; simpl in *; try easy; try lia.
  inversion H4; subst. exists s'. auto.
Qed.

Lemma noisy_map_B bld data : noisy bld data (map B data).
Proof. induction data; simpl; constructor; auto. Qed.

Lemma noisy_app bld d1 x1 d2 x2 :
  noisy bld d1 x1 -> noisy bld d2 x2 -> noisy bld (d1 ++ d2) (x1 ++ x2).
Proof. induction 1; simpl; intros; auto; constructor; auto. Qed.

Lemma noisy_split bld d1 d2 xs : noisy bld (d1 ++ d2) xs ->
  exists x1 x2, xs = x1 ++ x2 /\ noisy bld d1 x1 /\ noisy bld d2 x2.
Proof.
  remember (d1 ++ d2) as d eqn:Hd. intros H; revert d1 Hd.
  induction H as [|b data xs H IH|e data xs He H IH]; intros d1 Hd.
  - symmetry in Hd. apply app_eq_nil in Hd as [-> ->]. exists [], []. repeat split; constructor.
  - destruct d1 as [|b' d1]; simpl in Hd.
    + subst d2. exists [], (B b :: xs). repeat split; try constructor; auto.
    + inversion Hd; subst. destruct (IH d1 eq_refl) as (x1 & x2 & -> & H1 & H2).
      exists (B b' :: x1), x2. repeat split; auto. now constructor.
  - destruct (IH d1 Hd) as (x1 & x2 & -> & H1 & H2).
    exists (E e :: x1), x2. repeat split; auto. now constructor.
Qed.

Lemma noisy_length bld d xs : noisy bld d xs -> length d <= length xs.
Proof. induction 1; simpl; lia. Qed.

Lemma noisy_nostd d xs : noisy NoStd d xs -> xs = map B d.
Proof. induction 1; simpl; try congruence. destruct e; easy. Qed.

Lemma seg_read_pos : reader_pos seg_read (fun s xs => xs = items_of s).
Proof.
  intros n s xs Hn ->. destruct s as [|[b more|e] t]; simpl.
  - eauto.
  - destruct n as [|m]; [lia|]. exists (b :: firstn m more).
    exists (map B (skipn m more) ++ items_of t). eexists. repeat split.
    + easy.
    + simpl. rewrite firstn_length. lia.
    + simpl. now rewrite app_assoc, <- map_app, firstn_skipn.
    + destruct (skipn m more); reflexivity.
  - eauto.
Qed.

Lemma seg_read_zero : reader_zero seg_read (fun s xs => xs = items_of s).
Proof.
  intros s xs ->. destruct s as [|[b more|e] t]; simpl.
  - left; eauto.
  - left; eauto.
  - right; exists e, (items_of t), t; auto.
Qed.

Lemma seg_delivers s : delivers seg_read s (items_of s).
Proof. exists (fun s xs => xs = items_of s). split; auto. apply seg_read_pos. Qed.

Lemma seg_delivers0 s : delivers0 seg_read s (items_of s).
Proof.
  exists (fun s xs => xs = items_of s). repeat split; auto using seg_read_pos, seg_read_zero.
Qed.

(** Draining a reader that delivers [xs] yields the bytes before the first failure. *)
Fixpoint lead (xs : list item) : bytes :=
  match xs with B b :: t => b :: lead t | _ => [] end.
Fixpoint fault (xs : list item) : option error :=
  match xs with B _ :: t => fault t | E e :: _ => Some e | [] => None end.

Lemma lead_app got xs : lead (map B got ++ xs) = got ++ lead xs.
Proof. induction got; simpl; congruence. Qed.
Lemma fault_app got xs : fault (map B got ++ xs) = fault xs.
Proof. induction got; simpl; congruence. Qed.
Lemma lead_map got : lead (map B got) = got.
Proof. induction got; simpl; congruence. Qed.
Lemma fault_map got : fault (map B got) = None.
Proof. induction got; simpl; congruence. Qed.

Lemma delivers_end_drains {St} (rd : reader St) s xs P got o s' :
  delivers_end rd s xs P -> drains rd s got o s' ->
  got = lead xs /\ o = fault xs /\ (o = None -> P s').
Proof.
  intros (R & HR & Hs & HP) Hd. revert xs Hs.
  induction Hd as [n s s' Hn Hr|n s e s' Hn Hr|n s got s' rest o s'' Hn Hr Hg Hd IH]; intros xs Hs.
  - specialize (HR n s xs Hn Hs) as H. destruct xs as [|[b|e] xs].
    + repeat split; auto. intros _. specialize (HP n s Hn Hs). now rewrite Hr in HP.
    + destruct H as (g & ? & ? & H1 & H2 & _). rewrite Hr in H1. inversion H1; subst. easy.
    + destruct H as (? & H1 & _). rewrite Hr in H1. easy.
  - specialize (HR n s xs Hn Hs) as H. destruct xs as [|[b|e'] xs].
    + destruct H as (? & H1 & _). rewrite Hr in H1. easy.
    + destruct H as (g & ? & ? & H1 & _). rewrite Hr in H1. easy.
    + destruct H as (? & H1 & _). rewrite Hr in H1. inversion H1; subst. repeat split; easy.
  - specialize (HR n s xs Hn Hs) as H. destruct xs as [|[b|e'] xs].
    + destruct H as (? & H1 & _). rewrite Hr in H1. inversion H1; subst. easy.
    + destruct H as (g & xs' & s1 & H1 & H2 & H3 & H4 & H5). rewrite Hr in H1. inversion H1; subst g s1.
      rewrite H4, lead_app, fault_app. destruct (IH _ H5) as (-> & -> & ?). auto.
    + destruct H as (? & H1 & _). rewrite Hr in H1. easy.
Qed.

Lemma delivers_delivers_end {St} (rd : reader St) s xs : delivers rd s xs -> delivers_end rd s xs (fun _ => True).
Proof. intros (R & H & Hs). exists R. auto. Qed.

Lemma delivers_drains {St} (rd : reader St) s xs got o s' :
  delivers rd s xs -> drains rd s got o s' -> got = lead xs /\ o = fault xs.
Proof.
  intros H Hd. apply delivers_delivers_end in H.
  destruct (delivers_end_drains _ _ _ _ _ _ _ H Hd) as (? & ? & _). auto.
Qed.

(** A reader that delivers a finite sequence can be drained. *)
Lemma delivers_can_drain {St} (rd : reader St) s xs : delivers rd s xs ->
  exists s', drains rd s (lead xs) (fault xs) s'.
Proof.
  intros (R & HR & Hs). revert s Hs. induction xs as [|[b|e] xs IH]; intros s Hs; simpl;
    specialize (read_one _ _ _ _ HR Hs) as H.
  - destruct H as (s' & H1 & _). exists s'. eapply (drains_eof rd 1); eauto.
  - destruct H as (s' & H1 & H2). destruct (IH s' H2) as (s'' & H3). exists s''.
    apply (drains_step rd 1 s [b] s' _ _ _ (le_n 1) H1); easy.
  - destruct H as (s' & H1 & _). exists s'. eapply (drains_err rd 1); eauto.
Qed.

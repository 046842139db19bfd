(** Which heads that are valid by the grammar of HTTP (RFC 7230 section 3) the library takes: C77. *)
From Verif Require Import Base Utf8 Case Num Io Parser Types Message Outgoing Client Server Transport Lemmas ReadLemmas
  NumLemmas Utf8Lemmas ChunkSpec ChunkLemmas BodyLemmas WriteLemmas ParserLemmas CaseLemmas TypesLemmas HeadLemmas BlockLemmas MsgLemmas OutLemmas
  KeepLemmas PBody PIo PHead POut PReuse PServer PEnd PFile ErrText PText PTell PCut PFraming.

(** ** The grammar *)
(** Visible ASCII; and the characters of a field value, [obs-text] included. *)
Definition vchar (b : byte) : Prop := (33 <= bval b <= 126)%N.
Definition field_char (b : byte) : Prop := vchar b \/ b = SP \/ b = TAB \/ (128 <= bval b)%N.

(** request-line; a target is any visible characters here (the grammar of targets is narrower). *)
Definition http_request_line (first m u : bytes) (d1 d2 : byte) : Prop :=
  token m /\ u <> [] /\ Forall vchar u /\ dec_digit d1 /\ dec_digit d2
  /\ first = m ++ SP :: u ++ SP :: bs "HTTP/" ++ d1 :: bs "." ++ [d2].
(** status-line. *)
Definition http_status_line (first : bytes) (d1 d2 c1 c2 c3 : byte) (reason : bytes) : Prop :=
  dec_digit d1 /\ dec_digit d2 /\ Forall dec_digit [c1; c2; c3] /\ Forall field_char reason
  /\ first = bs "HTTP/" ++ d1 :: bs "." ++ d2 :: SP :: [c1; c2; c3] ++ SP :: reason.
(** header-field: the name, and what follows the colon (blanks, value, blanks). Continued lines (obs-fold) are left out. *)
Definition http_field (line : bytes) (f : bytes * bytes) : Prop := field_of line f /\ token (fst f) /\ Forall field_char (snd f).

(** ** The lines of a head are determined by its bytes *)
Lemma line_unique l l' x x' : no_crlf l -> no_crlf l' -> l ++ CRLF ++ x = l' ++ CRLF ++ x' -> l = l' /\ x = x'.
Proof.
  assert (K : forall l l' x x' v, no_crlf l -> l = l' ++ v -> CRLF ++ x' = v ++ CRLF ++ x -> v = []).
  { intros a a' y y' v Ha E E2. destruct v as [|b [|c v]]; auto; cbn in E2.
    - injection E2 as <- E2. discriminate E2.
    - injection E2 as <- <- _. exfalso. apply Ha. exists a', v. rewrite E. reflexivity. }
  intros H H' E. apply app_eq_app in E as [v [[E1 E2]|[E1 E2]]].
  - assert (v = []) by (apply (K l l' x x' v); auto). subst v. rewrite app_nil_r in E1. subst. split; auto. cbn [app] in E2. apply (app_inv_head CRLF) in E2. auto.
  - assert (v = []) by (apply (K l' l x' x v); auto). subst v. rewrite app_nil_r in E1. subst. split; auto. cbn [app] in E2. apply (app_inv_head CRLF) in E2. auto.
Qed.
Definition raw_line (l : bytes) : Prop := l <> [] /\ no_crlf l.
Lemma block_unique : forall ls ls' r r', Forall raw_line ls -> Forall raw_line ls' ->
  wire_lines ls ++ CRLF ++ r = wire_lines ls' ++ CRLF ++ r' -> ls = ls' /\ r = r'.
Proof.
  induction ls as [|l ls IH]; intros [|l' ls'] r r' H H' E; rewrite ?wire_lines_cons, <- ?app_assoc in E.
  - split; auto. apply app_inv_head in E. now apply app_inv_head in E.
  - apply Forall_cons_iff in H' as [[H1 H2] _]. cbn [wire_lines flat_map app] in E.
    change (CRLF ++ r) with ([] ++ CRLF ++ r) in E. apply line_unique in E as [E _]; auto using no_crlf_nil. now subst.
  - apply Forall_cons_iff in H as [[H1 H2] _]. cbn [wire_lines flat_map app] in E.
    change (CRLF ++ r') with ([] ++ CRLF ++ r') in E. apply line_unique in E as [E _]; auto using no_crlf_nil. now subst.
  - apply Forall_cons_iff in H as [[H1 H2] H3], H' as [[H1' H2'] H3']. apply line_unique in E as [-> E]; auto.
    destruct (IH _ _ _ H3 H3' E) as [-> ->]. auto.
Qed.
Lemma head_unique bld ls ls' xs zs cx ys : Forall raw_line ls -> Forall raw_line ls' ->
  xs = map B (wire_lines ls ++ CRLF) ++ zs -> xs = cx ++ B LF :: ys -> noisy bld (wire_lines ls' ++ CRLF) (cx ++ [B LF]) -> ls = ls'.
Proof.
  intros H H' E E' Hn. rewrite E in E'. change (B LF :: ys) with ([B LF] ++ ys) in E'. rewrite app_assoc in E'.
  pose proof (item_bytes_noisy _ _ _ Hn) as Hi.
  assert (Hm : forall d, item_bytes (map B d) = d) by (induction d as [|b d IH]; cbn; [auto|now f_equal]).
  apply app_eq_app in E' as [v [[E1 _]|[E1 _]]].
  - apply (f_equal item_bytes) in E1. rewrite item_bytes_app, Hm, Hi in E1. rewrite <- app_assoc in E1.
    destruct (block_unique ls ls' [] (item_bytes v) H H') as [-> _]; auto; now rewrite app_nil_r.
  - rewrite E1, item_bytes_app, Hm in Hi. rewrite <- app_assoc in Hi.
    destruct (block_unique ls ls' (item_bytes v) [] H H') as [-> _]; auto; now rewrite app_nil_r.
Qed.

(** ** Characters *)
Lemma tchar_vchar b : tchar b -> vchar b.
Proof.
  unfold tchar, vchar. intros [H|H]; [lia|]. revert H. generalize b. apply Forall_forall. repeat constructor; vm_compute; congruence.
Qed.
Lemma vchar_ascii s : Forall vchar s -> ascii s = true.
Proof. induction 1 as [|b s H _ IH]; auto. apply ascii_cons. split; auto. unfold vchar in H. lia. Qed.
Lemma vchar_no_blank b : vchar b -> ~ blank b.
Proof. unfold vchar, blank. intros H [-> | ->]; revert H; vm_compute; intuition congruence. Qed.
Lemma vchar_no_cr b : vchar b -> b <> CR.
Proof. intros H ->. revert H. vm_compute. intuition congruence. Qed.
Lemma field_char_no_cr b : field_char b -> b <> CR.
Proof. intros [H|[->|[->|H]]]; try discriminate; [now apply vchar_no_cr|]. intros ->. revert H. vm_compute. intuition congruence. Qed.
Lemma digit_vchar b : dec_digit b -> vchar b.
Proof. unfold dec_digit, vchar. lia. Qed.
Lemma token_vchar s : token s -> s <> [] /\ Forall vchar s.
Proof. intros [H1 H2]. split; auto. eapply Forall_impl; [|exact H2]. apply tchar_vchar. Qed.
Lemma http_version_vchar d1 d2 : dec_digit d1 -> dec_digit d2 -> Forall vchar (bs "HTTP/" ++ d1 :: bs "." ++ [d2]).
Proof.
  intros H1 H2. change (bs "HTTP/" ++ d1 :: bs "." ++ [d2]) with ([x48; x54; x54; x50; x2f; d1; x2e; d2]).
  repeat (apply Forall_cons || apply Forall_nil); auto using digit_vchar; split; vm_compute; congruence.
Qed.
Lemma no_cr_forall (P : byte -> Prop) s : (forall b, P b -> b <> CR) -> Forall P s -> no_crlf s.
Proof. intros H F. apply no_cr_no_crlf. intros K. rewrite Forall_forall in F. apply F in K. now apply H in K. Qed.

Lemma field_raw line f : http_field line f -> raw_line line /\ ~ blank_first line.
Proof.
  intros ([_ ->] & Ht & Hv). apply token_vchar in Ht as [Hn Ht]. split; [split|].
  - now destruct (fst f).
  - apply (no_cr_forall field_char); [apply field_char_no_cr|]. apply Forall_app. split; [eapply Forall_impl; [|exact Ht]; now left|].
    constructor; auto. left. split; vm_compute; congruence.
  - intros (b & t & E & Hb). destruct (fst f) as [|c k]; [easy|]. injection E as -> _. inversion Ht as [|? ? Hc _]; subst. now apply vchar_no_blank in Hc.
Qed.
Lemma fields_raw lines fs : Forall2 http_field lines fs -> Forall raw_line lines /\ folded lines lines /\ Forall2 field_of lines fs.
Proof.
  intros H. assert (K : Forall (fun l => raw_line l /\ ~ blank_first l) lines).
  { induction H as [|l f ls fs H _ IH]; constructor; auto. eapply field_raw; eauto. }
  split; [eapply Forall_impl; [|exact K]; now intros a [Ha _]|]. split.
  - apply folded_plain. eapply Forall_impl; [|exact K]. now intros a [_ Ha].
  - induction H as [|l f ls fs H _ IH]; constructor; auto; [apply H|]. apply IH. now inversion K.
Qed.

(** ** The first line *)
Lemma sp_split a b : Forall vchar a -> (forall c t, b = c :: t -> ~ blank c) -> token_split (a ++ SP :: b) a [SP] b.
Proof.
  intros Ha Hb. split; [reflexivity|]. split; [eapply Forall_impl; [apply vchar_no_blank|exact Ha]|]. split; [constructor; [now left|constructor]|].
  split; auto. discriminate.
Qed.
Lemma end_split a : Forall vchar a -> token_split a a [] [].
Proof.
  intros Ha. split; [now rewrite !app_nil_r|]. split; [eapply Forall_impl; [apply vchar_no_blank|exact Ha]|]. repeat split; auto. discriminate.
Qed.
Lemma vchar_first a : Forall vchar a -> forall c t, a = c :: t -> ~ blank c.
Proof. intros H c t ->. apply vchar_no_blank. now inversion H. Qed.
Lemma vchar_first_app a b : a <> [] -> Forall vchar a -> forall c t, a ++ b = c :: t -> ~ blank c.
Proof. intros Hn H c t E. destruct a as [|x a]; [easy|]. injection E as -> _. apply vchar_no_blank. now inversion H. Qed.

Lemma request_line_valid first m u d1 d2 : http_request_line first m u d1 d2 ->
  text_line first /\ forall m' u' v', request_line_says first m' u' v' <->
    map ascii_upper m = show_method m' /\ u' = u /\ v' = mkVersion (dec_value d1) (dec_value d2).
Proof.
  intros (Hm & Hu1 & Hu & Hd1 & Hd2 & ->). apply token_vchar in Hm as [Hm1 Hm].
  pose proof (http_version_vchar d1 d2 Hd1 Hd2) as Hv. set (v := bs "HTTP/" ++ d1 :: bs "." ++ [d2]) in *.
  assert (S1 : token_split (m ++ SP :: u ++ SP :: v) m [SP] (u ++ SP :: v)) by (apply sp_split; auto; now apply vchar_first_app).
  assert (S2 : token_split (u ++ SP :: v) u [SP] v) by (apply sp_split; auto; now apply vchar_first).
  assert (S3 : token_split v v [] []) by now apply end_split.
  assert (Up : to_uppercase m = map ascii_upper m) by now apply to_uppercase_ascii, vchar_ascii.
  split.
  - split; [now destruct m|]. split.
    + apply (no_cr_forall (fun b => vchar b \/ b = SP)); [intros b [H| ->]; [now apply vchar_no_cr|discriminate]|].
      assert (W : forall s, Forall vchar s -> Forall (fun b => vchar b \/ b = SP) s) by (intros s H; eapply Forall_impl; [|exact H]; auto).
      apply Forall_app. split; auto. constructor; auto. apply Forall_app. split; auto.
    + apply is_utf8_valid, ascii_valid.
      assert (A : forall a b, ascii a = true -> ascii b = true -> ascii (a ++ SP :: b) = true).
      { intros a b Ha Hb. unfold ascii in *. rewrite forallb_app. cbn [forallb]. rewrite Ha, Hb. reflexivity. }
      apply A; [now apply vchar_ascii|]. apply A; now apply vchar_ascii.
  - intros m' u' v'. split.
    + intros (t1 & w1 & r1 & w2 & r2 & t3 & w3 & r3 & K1 & K2 & K3 & _ & _ & Km & e1 & e2 & rest & _ & _ & E & ->).
      destruct (token_split_unique _ _ _ _ _ _ _ S1 K1) as (<- & _ & <-). destruct (token_split_unique _ _ _ _ _ _ _ S2 K2) as (<- & _ & <-).
      destruct (token_split_unique _ _ _ _ _ _ _ S3 K3) as (<- & _ & _). split; [congruence|]. split; auto.
      unfold v in E. cbn in E. now injection E as <- <- _.
    + intros (Km & -> & ->). exists m, [SP], (u ++ SP :: v), [SP], v, v, [], []. repeat (split; [assumption|]). split; [now destruct u|]. split; [discriminate|].
      split; [congruence|]. exists d1, d2, []. repeat (split; [assumption|]). auto.
Qed.

(** ** The header lines *)
Lemma colon_unique : forall a b r s, ~ In COLON a -> ~ In COLON b -> a ++ COLON :: r = b ++ COLON :: s -> a = b /\ r = s.
Proof.
  induction a as [|x a IH]; intros [|y b] r s Ha Hb E; cbn [app] in E.
  - now injection E as ->.
  - injection E as <- _. exfalso. apply Hb. now left.
  - injection E as -> _. exfalso. apply Ha. now left.
  - injection E as -> E. destruct (IH b r s ltac:(intros H; apply Ha; now right) ltac:(intros H; apply Hb; now right) E) as [-> ->]. auto.
Qed.

(** The header that the library makes of a field: the name in lower case, and what follows the blank after the colon. *)
Definition taken (f : bytes * bytes) : bytes * bytes := (map ascii_lower (fst f), tl (snd f)).
Definition takes (f : bytes * bytes) : Prop := exists w, snd f = SP :: w /\ is_utf8 w.

Lemma field_text line f : http_field line f -> (text_line line /\ exists h, header_of line h) <-> takes f.
Proof.
  intros Hf. destruct (field_raw _ _ Hf) as [[Hr1 Hr2] _]. destruct Hf as ([Hc ->] & Ht & Hv). apply token_vchar in Ht as [Ht1 Ht].
  pose proof (vchar_ascii _ Ht) as Ha. split.
  - intros [(_ & _ & Hu) (h & k & w & Hk & E & ->)]. change (bs ": " ++ w) with (COLON :: SP :: w) in E. apply colon_unique in E as [_ E]; auto.
    exists w. split; auto. rewrite E, is_utf8_valid in *. apply valid_split_ascii in Hu as [_ Hu]; [|reflexivity].
    rewrite valid_ascii_cons in Hu by reflexivity. auto.
  - intros (w & E & Hw). rewrite E in *. split.
    + split; auto. split; auto. rewrite is_utf8_valid in *. apply valid_app; [now apply ascii_valid|]. now rewrite !valid_ascii_cons by reflexivity.
    + exists (to_lowercase (fst f), w), (fst f), w. auto.
Qed.
Lemma field_taken line f h : http_field line f -> header_of line h -> h = taken f.
Proof.
  intros ([Hc E] & Ht & _) (k & w & Hk & E2 & ->). rewrite E in E2. change (bs ": " ++ w) with (COLON :: SP :: w) in E2.
  apply colon_unique in E2 as [<- E2]; auto. unfold taken. rewrite E2. cbn [tl]. f_equal. apply token_vchar in Ht as [_ Ht].
  now apply to_lowercase_ascii, vchar_ascii.
Qed.

Lemma fields_block lines fs : Forall2 http_field lines fs ->
  (Forall takes fs -> Forall text_line lines /\ accepted_block lines (headers_from (map taken fs)))
  /\ (forall h, Forall text_line lines -> accepted_block lines h -> Forall takes fs /\ h = headers_from (map taken fs)).
Proof.
  intros H. destruct (fields_raw _ _ H) as (_ & Hfo & _). split.
  - intros Ht. assert (K : Forall text_line lines /\ Forall2 header_of lines (map taken fs)).
    { clear Hfo. induction H as [|line f lines fs Hf H IH]; [split; constructor|]. apply Forall_cons_iff in Ht as [H1 H2].
      destruct (IH H2) as [I1 I2]. apply (field_text _ _ Hf) in H1 as [H1 [h Hh]]. split; [now constructor|]. constructor; auto.
      now rewrite <- (field_taken _ _ _ Hf Hh). }
    destruct K as [K1 K2]. split; auto. exists lines, (map taken fs). auto.
  - intros h Ht (logical & hs & Hfo2 & Hh & ->). rewrite <- (folded_det _ _ Hfo _ Hfo2) in Hh. clear Hfo Hfo2.
    assert (K : Forall takes fs /\ hs = map taken fs); [|now destruct K as [K ->]].
    revert hs Hh. induction H as [|line f lines fs Hf H IH]; intros hs Hh; inversion Hh as [|? h ? hs' Hl Hh']; subst; [split; constructor|].
    apply Forall_cons_iff in Ht as [H1 H2]. destruct (IH H2 _ Hh') as [I1 ->]. split.
    + constructor; auto. apply (field_text _ _ Hf). eauto.
    + cbn [map]. f_equal. eapply field_taken; eauto.
Qed.

(** ** The theorems *)
(** The last Content-Length, if there is one, is a number that the library can read. *)
Definition readable_length (fs : list (bytes * bytes)) : Prop :=
  forall v, last_value (bs "content-length") (map taken fs) = Some v -> exists n, u64_text v n.

Lemma framed_length {T} hs (t : T) b : framed (headers_from hs) t b ->
  forall v, last_value (bs "content-length") hs = Some v -> exists n, u64_text v n.
Proof.
  intros (len & Hlen & _) v Hv. rewrite headers_from_get, Hv in Hlen. destruct Hlen as [[K _]|(w & n & K & Hw & _)]; [discriminate|].
  injection K as <-. now exists n.
Qed.

(** A valid request head is taken if and only if its method is one of the seven (in any case), there is a blank after the colon of each
    field, the values are UTF-8, and the length is readable. Then it says what the grammar says, but only the one blank is taken off a value. *)
Theorem C77_request :
  forall T bld (rd : reader T) fuel t first lines fs zs m u d1 d2,
  http_request_line first m u d1 d2 -> Forall2 http_field lines fs ->
  delivers rd t (map B (first ++ CRLF ++ wire_lines lines ++ CRLF) ++ zs) ->
  length (map B (first ++ CRLF ++ wire_lines lines ++ CRLF) ++ zs) < fuel ->
  ((exists q t', request_deserialize bld rd fuel t = (Ok q, t')) <->
     (exists m', map ascii_upper m = show_method m') /\ Forall takes fs /\ readable_length fs)
  /\ (forall q t', request_deserialize bld rd fuel t = (Ok q, t') ->
        map ascii_upper m = show_method (rq_method q) /\ rq_uri q = u /\ rq_version q = mkVersion (dec_value d1) (dec_value d2)
        /\ sorted (rq_headers q) /\ (forall k, hm_get k (rq_headers q) = last_value k (map taken fs)) /\ delivers rd t' zs).
Proof.
  intros T bld rd fuel t first lines fs zs m u d1 d2 Hf Hh D L.
  destruct (request_line_valid _ _ _ _ _ Hf) as [Htf Hsays]. destruct (fields_block _ _ Hh) as [Hb1 Hb2]. destruct (fields_raw _ _ Hh) as (Hraw & _ & _).
  assert (Hinv : forall q t', request_deserialize bld rd fuel t = (Ok q, t') -> Forall takes fs /\ readable_length fs
     /\ request_line_says first (rq_method q) (rq_uri q) (rq_version q) /\ rq_headers q = headers_from (map taken fs)).
  { intros q t' E. destruct (C30_request _ _ _ _ _ _ _ _ D L E) as (first' & lines' & cx & ys & E1 & Hn & Ht & Hts & Hl & Ha & _ & _).
    assert (Er : forall x : list bytes, Forall text_line x -> Forall raw_line x) by (intros x Hx; eapply Forall_impl; [|exact Hx]; intros a (A1 & A2 & _); now split).
    assert (K : first :: lines = first' :: lines').
    { apply (head_unique bld (first :: lines) (first' :: lines') (map B (first ++ CRLF ++ wire_lines lines ++ CRLF) ++ zs) zs cx ys).
      - constructor; auto. destruct Htf as (A1 & A2 & _). now split.
      - apply Er. now constructor.
      - rewrite wire_lines_cons, <- !app_assoc. reflexivity.
      - exact E1.
      - rewrite wire_lines_cons, <- !app_assoc. exact Hn. }
    injection K as <- <-. destruct (Hb2 _ Hts Ha) as [K1 K2]. split; auto. split; [|auto].
    pose proof (C13_request _ _ _ _ _ _ _ E) as F. rewrite K2 in F. exact (framed_length _ _ _ F). }
  split; [split|].
  - intros (q & t' & E). destruct (Hinv _ _ E) as (K1 & K2 & K3 & _). split; auto. apply Hsays in K3 as [K3 _]. eauto.
  - intros ([m' Hm'] & Hs & Hc). destruct (Hb1 Hs) as [K1 K2].
    destruct (C30_request_accepts _ bld rd fuel t first lines zs m' u (mkVersion (dec_value d1) (dec_value d2)) (headers_from (map taken fs)) Htf K1) as (b & t' & E & _); auto.
    + now apply Hsays.
    + intros v Hv. rewrite headers_from_get in Hv. now apply Hc.
    + eauto.
  - intros q t' E. destruct (Hinv _ _ E) as (K1 & K2 & K3 & K4). apply Hsays in K3 as (S1 & S2 & S3). repeat (split; [assumption|]).
    rewrite K4. split; [apply headers_from_sorted|]. split; [intros k; apply headers_from_get|].
    destruct (Hb1 K1) as [T1 T2].
    destruct (C30_request_accepts _ bld rd fuel t first lines zs (rq_method q) u (mkVersion (dec_value d1) (dec_value d2)) (headers_from (map taken fs)) Htf T1) as (b & t2 & E2 & _ & D2); auto.
    + now apply Hsays.
    + intros v Hv. rewrite headers_from_get in Hv. now apply K2.
    + rewrite E in E2. now injection E2 as _ ->.
Qed.
Print Assumptions C77_request.

Lemma blanks_exist s : exists ws r, s = ws ++ r /\ Forall blank ws /\ (forall b t, r = b :: t -> ~ blank b).
Proof.
  induction s as [|b s (ws & r & -> & H1 & H2)]; [exists [], []; repeat split; auto; discriminate|].
  destruct (is_blank b) eqn:E.
  - exists (b :: ws), r. repeat split; auto. constructor; auto. now apply is_blank_true.
  - exists [], (b :: ws ++ r). split; [reflexivity|]. split; [constructor|]. intros b' t' [= <- _] K. apply is_blank_true in K. congruence.
Qed.

Definition code_of (c1 c2 c3 : byte) : N := (100 * dec_value c1 + 10 * dec_value c2 + dec_value c3)%N.

Lemma status_line_valid first d1 d2 c1 c2 c3 reason : http_status_line first d1 d2 c1 c2 c3 reason ->
  raw_line first /\ (text_line first <-> is_utf8 reason)
  /\ forall v st, status_line_says first v st <-> v = mkVersion (dec_value d1) (dec_value d2) /\ st = from_code (code_of c1 c2 c3).
Proof.
  intros (Hd1 & Hd2 & Hc & Hr & E0).
  pose proof (http_version_vchar d1 d2 Hd1 Hd2) as Hv. set (v0 := bs "HTTP/" ++ d1 :: bs "." ++ [d2]) in *.
  assert (E : first = v0 ++ SP :: [c1; c2; c3] ++ SP :: reason) by (rewrite E0; unfold v0; reflexivity). clear E0. subst first.
  assert (Hcv : Forall vchar [c1; c2; c3]) by (eapply Forall_impl; [apply digit_vchar|exact Hc]).
  assert (S1 : token_split (v0 ++ SP :: [c1; c2; c3] ++ SP :: reason) v0 [SP] ([c1; c2; c3] ++ SP :: reason)) by (apply sp_split; auto; now apply vchar_first_app).
  destruct (blanks_exist reason) as (ws & r & Er & Hws & Hrr).
  assert (S2 : token_split ([c1; c2; c3] ++ SP :: reason) [c1; c2; c3] (SP :: ws) r).
  { split; [now rewrite Er|]. split; [eapply Forall_impl; [apply vchar_no_blank|exact Hcv]|]. split; [constructor; auto; now left|]. split; auto. discriminate. }
  assert (Hn : numeral 10 [c1; c2; c3] (code_of c1 c2 c3)).
  { split; [discriminate|]. exists [dec_value c1; dec_value c2; dec_value c3]. apply Forall_cons_iff in Hc as [H1 Hc]. apply Forall_cons_iff in Hc as [H2 Hc]. apply Forall_cons_iff in Hc as [H3 _].
    assert (K : forall c, dec_digit c -> digit 10 c (dec_value c)) by (unfold dec_digit, digit, dec_value; intros; lia).
    split; [repeat (apply Forall2_cons; [now apply K|]); apply Forall2_nil|]. unfold positional, code_of. cbn [fold_left]. lia. }
  assert (Hlt : (code_of c1 c2 c3 < 2 ^ 32)%N).
  { unfold code_of, dec_value. repeat match goal with |- context [bval ?c] => pose proof (bval_lt c); generalize dependent (bval c); intros end. lia. }
  assert (Hraw : raw_line (v0 ++ SP :: [c1; c2; c3] ++ SP :: reason)).
  { split; [discriminate|]. apply (no_cr_forall field_char); [apply field_char_no_cr|].
    assert (W : forall s, Forall vchar s -> Forall field_char s) by (intros s H; eapply Forall_impl; [|exact H]; now left).
    apply Forall_app. split; auto. constructor; [right; now left|]. apply Forall_app. split; auto. constructor; auto. right. now left. }
  split; [exact Hraw|]. split; [|].
  - split.
    + intros (_ & _ & K). rewrite is_utf8_valid in *. apply valid_split_ascii in K as [_ K]; [|reflexivity]. now apply valid_split_ascii in K as [_ K].
    + intros K. destruct Hraw as [R1 R2]. split; auto. split; auto. rewrite is_utf8_valid in *.
      apply valid_app; [now apply ascii_valid, vchar_ascii|]. rewrite valid_ascii_cons by reflexivity.
      apply valid_app; [now apply ascii_valid, vchar_ascii|]. now rewrite valid_ascii_cons by reflexivity.
  - intros v st. split.
    + intros (t1 & w1 & r1 & t2 & w2 & r2 & n & K1 & (e1 & e2 & rest & _ & _ & E & ->) & K2 & _ & _ & Kn & ->).
      destruct (token_split_unique _ _ _ _ _ _ _ S1 K1) as (<- & _ & <-). destruct (token_split_unique _ _ _ _ _ _ _ S2 K2) as (<- & _ & _).
      unfold v0 in E. cbn in E. injection E as <- <- _. split; auto. f_equal. destruct Kn as [Kn|(t & Et & Kn)].
      * eapply numeral_functional; eauto. lia.
      * exfalso. injection Et as -> _ . inversion Hcv as [|? ? _ _]. inversion Hc as [|? ? Hp _]. revert Hp. vm_compute. intuition congruence.
    + intros [-> ->]. exists v0, [SP], ([c1; c2; c3] ++ SP :: reason), [c1; c2; c3], (SP :: ws), r, (code_of c1 c2 c3).
      split; [exact S1|]. split; [exists d1, d2, []; auto|]. split; [exact S2|]. split; [discriminate|]. auto.
Qed.

(** The same for responses; any code and any reason is taken, if it is UTF-8. *)
Theorem C77_response :
  forall T bld (rd : reader T) fuel t first lines fs zs d1 d2 c1 c2 c3 reason,
  http_status_line first d1 d2 c1 c2 c3 reason -> Forall2 http_field lines fs ->
  delivers rd t (map B (first ++ CRLF ++ wire_lines lines ++ CRLF) ++ zs) ->
  length (map B (first ++ CRLF ++ wire_lines lines ++ CRLF) ++ zs) < fuel ->
  ((exists q t', response_deserialize bld rd fuel t = (Ok q, t')) <-> is_utf8 reason /\ Forall takes fs /\ readable_length fs)
  /\ (forall q t', response_deserialize bld rd fuel t = (Ok q, t') ->
        rs_status q = from_code (code_of c1 c2 c3) /\ rs_version q = mkVersion (dec_value d1) (dec_value d2)
        /\ sorted (rs_headers q) /\ (forall k, hm_get k (rs_headers q) = last_value k (map taken fs)) /\ delivers rd t' zs).
Proof.
  intros T bld rd fuel t first lines fs zs d1 d2 c1 c2 c3 reason Hf Hh D L.
  destruct (status_line_valid _ _ _ _ _ _ _ Hf) as (Hrf & Htf & Hsays). destruct (fields_block _ _ Hh) as [Hb1 Hb2]. destruct (fields_raw _ _ Hh) as (Hraw & _ & _).
  assert (Hinv : forall q t', response_deserialize bld rd fuel t = (Ok q, t') -> text_line first /\ Forall takes fs /\ readable_length fs
     /\ status_line_says first (rs_version q) (rs_status q) /\ rs_headers q = headers_from (map taken fs)).
  { intros q t' E. destruct (C30_response _ _ _ _ _ _ _ _ D L E) as (first' & lines' & cx & ys & E1 & Hn & Ht & Hts & Hl & Ha & _ & _).
    assert (Er : forall x : list bytes, Forall text_line x -> Forall raw_line x) by (intros x Hx; eapply Forall_impl; [|exact Hx]; intros a (A1 & A2 & _); now split).
    assert (K : first :: lines = first' :: lines').
    { apply (head_unique bld (first :: lines) (first' :: lines') (map B (first ++ CRLF ++ wire_lines lines ++ CRLF) ++ zs) zs cx ys).
      - constructor; auto.
      - apply Er. now constructor.
      - rewrite wire_lines_cons, <- !app_assoc. reflexivity.
      - exact E1.
      - rewrite wire_lines_cons, <- !app_assoc. exact Hn. }
    injection K as <- <-. destruct (Hb2 _ Hts Ha) as [K1 K2]. split; auto. split; auto. split; [|auto].
    pose proof (C13_response _ _ _ _ _ _ _ E) as F. rewrite K2 in F. exact (framed_length _ _ _ F). }
  split; [split|].
  - intros (q & t' & E). destruct (Hinv _ _ E) as (K0 & K1 & K2 & K3 & _). split; auto. now apply Htf.
  - intros (Hu & Hs & Hc). destruct (Hb1 Hs) as [K1 K2].
    destruct (C30_response_accepts _ bld rd fuel t first lines zs (mkVersion (dec_value d1) (dec_value d2)) (from_code (code_of c1 c2 c3)) (headers_from (map taken fs)) (proj2 Htf Hu) K1) as (b & t' & E & _); auto.
    + now apply Hsays.
    + intros v Hv. rewrite headers_from_get in Hv. now apply Hc.
    + eauto.
  - intros q t' E. destruct (Hinv _ _ E) as (K0 & K1 & K2 & K3 & K4). apply Hsays in K3 as (S1 & S2). repeat (split; [assumption|]).
    rewrite K4. split; [apply headers_from_sorted|]. split; [intros k; apply headers_from_get|].
    destruct (Hb1 K1) as [T1 T2].
    destruct (C30_response_accepts _ bld rd fuel t first lines zs (mkVersion (dec_value d1) (dec_value d2)) (from_code (code_of c1 c2 c3)) (headers_from (map taken fs)) K0 T1) as (b & t2 & E2 & _ & D2); auto.
    + now apply Hsays.
    + intros v Hv. rewrite headers_from_get in Hv. now apply K2.
    + rewrite E in E2. now injection E2 as _ ->.
Qed.
Print Assumptions C77_response.

(** ** Cases *)
Definition C77_lines (fs : list (bytes * bytes)) : list bytes := map (fun f => fst f ++ COLON :: snd f) fs.
Definition C77_get (m : bytes) (fs : list (bytes * bytes)) : res (method * bytes * headers) :=
  match fst (request_deserialize Std seg_read 300 (POut.segs [m ++ bs " /x?y HTTP/1.1" ++ CRLF ++ wire_lines (C77_lines fs) ++ CRLF])) with
  | Ok q => Ok (rq_method q, rq_uri q, rq_headers q) | Err e => Err e | Panic => Panic | Fuel => Fuel end.
Example C77_case :
  (* valid and taken *)
  C77_get (bs "GET") [(bs "Host", bs " h"); (bs "Accept", bs " */*")] = Ok (Get, bs "/x?y", [(bs "accept", bs "*/*"); (bs "host", bs "h")])
  /\ C77_get (bs "gEt") [] = Ok (Get, bs "/x?y", [])
  (* blanks around a value stay *)
  /\ C77_get (bs "GET") [(bs "Host", bs "  h ")] = Ok (Get, bs "/x?y", [(bs "host", bs " h ")])
  (* valid and refused: no blank or a tab after the colon, a value in Latin-1, another method *)
  /\ C77_get (bs "GET") [(bs "Host", bs "h")] = Err ParseError
  /\ C77_get (bs "GET") [(bs "Host", [])] = Err ParseError
  /\ C77_get (bs "GET") [(bs "Host", TAB :: bs "h")] = Err ParseError
  /\ C77_get (bs "GET") [(bs "X", [SP; xe9])] = Err Utf8Error
  /\ C77_get (bs "PATCH") [] = Err ParseError
  (* valid, and the server panics (C16) *)
  /\ C77_get (bs "GET") [(bs "X", [xc3; xa9])] = Panic.
Proof. repeat split; vm_compute; reflexivity. Qed.

Example C77_case_hypotheses :
  http_request_line (bs "GET /x?y HTTP/1.1") (bs "GET") (bs "/x?y") x31 x31
  /\ http_status_line (bs "HTTP/1.1 404 Not " ++ [xe9]) x31 x31 x34 x30 x34 (bs "Not " ++ [xe9])
  /\ Forall2 http_field (C77_lines [(bs "Host", bs "h"); (bs "X", [SP; xe9])]) [(bs "Host", bs "h"); (bs "X", [SP; xe9])]
  /\ ~ takes (bs "Host", bs "h") /\ takes (bs "Host", bs " h")
  /\ readable_length [(bs "Host", bs "h")].
Proof.
  assert (V : forall s, forallb (fun b => (33 <=? bval b)%N && (bval b <=? 126)%N) s = true -> Forall vchar s).
  { intros s H. rewrite forallb_forall in H. apply Forall_forall. intros b Hb. apply H in Hb. apply andb_true_iff in Hb as [H1 H2]. apply N.leb_le in H1, H2. now split. }
  assert (Tk : forall s, forallb (fun s => negb (beqb s []) && forallb tcharb s) [s] = true -> token s).
  { intros s H. apply tokens_of in H. now inversion H. }
  assert (F : forall s, forallb (fun b => ((33 <=? bval b) && (bval b <=? 126) || (bval b =? 32) || (128 <=? bval b))%N) s = true -> Forall field_char s).
  { intros s H. rewrite forallb_forall in H. apply Forall_forall. intros b Hb. apply H in Hb. rewrite !orb_true_iff, andb_true_iff, !N.leb_le, N.eqb_eq in Hb.
    destruct Hb as [[Hb|Hb]|Hb]; [now left| |right; right; now right]. right. left. rewrite <- (byte_of_bval b), Hb. reflexivity. }
  split; [|split; [|split; [|split; [|split]]]].
  - split; [now apply Tk|]. split; [discriminate|]. split; [now apply V|]. split; [split; vm_compute; congruence|]. split; [split; vm_compute; congruence|reflexivity].
  - split; [split; vm_compute; congruence|]. split; [split; vm_compute; congruence|]. split; [|split; [now apply F|reflexivity]].
    repeat (apply Forall_cons || apply Forall_nil); split; vm_compute; congruence.
  - repeat (apply Forall2_cons || apply Forall2_nil); (split; [split; [apply in_byte_false; reflexivity|reflexivity]|]); (split; [now apply Tk|now apply F]).
  - intros (w & E & _). discriminate.
  - exists (bs "h"). split; [reflexivity|]. apply is_utf8_valid. reflexivity.
  - intros v H. discriminate H.
Qed.

(** So not every valid request for a method that the library knows is taken. *)
Theorem C77_all_taken_refuted :
  ~ (forall first m u d1 d2 lines fs m', http_request_line first m u d1 d2 -> Forall2 http_field lines fs -> map ascii_upper m = show_method m' ->
       exists q t', request_deserialize Std seg_read 300 (POut.segs [first ++ CRLF ++ wire_lines lines ++ CRLF]) = (Ok q, t')).
Proof.
  intros H. destruct C77_case_hypotheses as (H1 & _ & H2 & _).
  destruct (H _ _ _ _ _ _ _ Get H1 H2 eq_refl) as (q & t' & E). vm_compute in E. discriminate E.
Qed.
Print Assumptions C77_all_taken_refuted.

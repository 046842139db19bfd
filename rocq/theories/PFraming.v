(** The framing of a message against the rules of HTTP (RFC 7230 section 3.3.3, RFC 9112 section 6.3): C76. *)
From Verif Require Import Base Utf8 UnicodeTables Case Num Io Parser Types Message Transport Lemmas ReadLemmas NumLemmas Utf8Lemmas
  ChunkSpec ChunkLemmas BodyLemmas ParserLemmas CaseLemmas TypesLemmas HeadLemmas BlockLemmas MsgLemmas PBody PIo PHead.

(** ** What HTTP says *)
(** A header field: a name without colon, and everything that follows the colon. *)
Definition field_of (line : bytes) (f : bytes * bytes) : Prop := ~ In COLON (fst f) /\ line = fst f ++ COLON :: snd f.

(** tchar and token of RFC 7230 section 3.2.6. *)
Definition tchar (b : byte) : Prop :=
  (48 <= bval b <= 57 \/ 65 <= bval b <= 90 \/ 97 <= bval b <= 122)%N \/ In b (bs "!#$%&'*+-.^_`|~").
Definition token (s : bytes) : Prop := s <> [] /\ Forall tchar s.

(** The fields called [name] (in lower case), in order. *)
Definition named (name : bytes) (fs : list (bytes * bytes)) : list (bytes * bytes) :=
  filter (fun f => beqb (map ascii_lower (fst f)) name) fs.

(** The elements of comma-separated lists, without the blanks around them.
    Not like HTTP: a comma in a quoted string separates too. *)
Fixpoint commas (s : bytes) : list bytes :=
  match s with
  | [] => [[]]
  | b :: t => if Byte.eqb b x2c then [] :: commas t
              else match commas t with e :: es => (b :: e) :: es | [] => [[b]] end
  end.
Fixpoint skip_blanks (s : bytes) : bytes :=
  match s with
  | b :: t => if Byte.eqb b x20 || Byte.eqb b x09 then skip_blanks t else s
  | [] => []
  end.
Definition trim (s : bytes) : bytes := rev (skip_blanks (rev (skip_blanks s))).
Definition elements (name : bytes) (fs : list (bytes * bytes)) : list bytes :=
  map trim (flat_map (fun f => commas (snd f)) (named name fs)).

(** The last transfer coding, in lower case; empty elements do not count. *)
Definition final_coding (fs : list (bytes * bytes)) : bytes :=
  last (filter (fun e => negb (beqb e [])) (map (map ascii_lower) (elements (bs "transfer-encoding") fs))) [].

Inductive framing := Chunks | Length (n : N) | Unsized.

(** The framings that HTTP lets a message with these fields have; if there is none, the message is to be rejected.
    [Unsized]: a request without body, a response that lasts until the connection is closed.
    Responses without body (to HEAD, 1xx, 204, 304) are left out, see C67. *)
Inductive http_framing (request : bool) (fs : list (bytes * bytes)) : framing -> Prop :=
| hf_chunked : Forall token (map fst fs) -> named (bs "transfer-encoding") fs <> [] -> final_coding fs = bs "chunked" ->
    http_framing request fs Chunks
| hf_other : Forall token (map fst fs) -> request = false -> named (bs "transfer-encoding") fs <> [] -> final_coding fs <> bs "chunked" ->
    http_framing request fs Unsized
| hf_length n : Forall token (map fst fs) -> named (bs "transfer-encoding") fs = [] -> named (bs "content-length") fs <> [] ->
    Forall (fun e => numeral 10 e n) (elements (bs "content-length") fs) -> http_framing request fs (Length n)
| hf_none : Forall token (map fst fs) -> named (bs "transfer-encoding") fs = [] -> named (bs "content-length") fs = [] ->
    http_framing request fs Unsized.

(** The framing of the body that the library hands out. *)
Definition body_framing {T} (b : hbody T) : framing :=
  match b with BChunked _ _ => Chunks | BLimited n _ => Length n | BTilClose _ => Unsized end.

(** ** Names: the library lower-cases by Unicode, HTTP by ASCII *)
Definition plain (c : N) : bool := (c =? 45)%N || ((97 <=? c)%N && (c <=? 122)%N && negb (c =? 107)%N).

Lemma lower_table_plain : forallb (fun e => (fst e <? 128)%N || negb (forallb plain (snd e))) lower_table = true.
Proof. vm_compute. reflexivity. Qed.

Lemma lower_chars_plain cs : forall before, forallb plain (lower_chars before cs) = true -> Forall (fun c => (c < 128)%N) cs.
Proof.
  induction cs as [|c cs IH]; intros before H; constructor.
  - cbn [lower_chars] in H. rewrite forallb_app in H. apply andb_true_iff in H as [H _].
    destruct (N.eqb_spec c 931) as [->|_]; [destruct (_ && _); discriminate H|].
    unfold lower_char in H. destruct (assocN lower_table c) as [l|] eqn:E.
    + apply assocN_in in E. pose proof lower_table_plain as K. rewrite forallb_forall in K. apply K in E. cbn [fst snd] in E.
      rewrite H in E. apply orb_true_iff in E as [E|E]; [now apply N.ltb_lt|discriminate].
    + cbn [forallb] in H. rewrite andb_true_r in H. unfold plain in H. apply orb_true_iff in H as [H|H].
      * apply N.eqb_eq in H. lia.
      * rewrite !andb_true_iff, !N.leb_le in H. lia.
  - cbn [lower_chars] in H. rewrite forallb_app in H. apply andb_true_iff in H as [_ H]. eapply IH; eauto.
Qed.

Lemma ascii_encode cs : Forall (fun c => (c < 128)%N) cs -> ascii (utf8_encode cs) = true.
Proof.
  induction 1 as [|c cs H _ IH]; [reflexivity|]. unfold utf8_encode. cbn [flat_map]. fold (utf8_encode cs).
  replace c with (bval (byte_of c)).
  - rewrite encode_ascii; [|unfold byte_of; destruct (Byte.of_N c) eqn:E; [apply Byte.to_of_N in E; unfold bval; lia|apply Byte.of_N_None_iff in E; lia]].
    cbn [app]. apply ascii_cons. split; auto. unfold byte_of. destruct (Byte.of_N c) eqn:E; [apply Byte.to_of_N in E; unfold bval; lia|apply Byte.of_N_None_iff in E; lia].
  - unfold byte_of. destruct (Byte.of_N c) eqn:E; [now apply Byte.to_of_N in E|apply Byte.of_N_None_iff in E; lia].
Qed.

Lemma ascii_lower_ascii s : ascii (map ascii_lower s) = true -> ascii s = true.
Proof.
  induction s as [|b s IH]; [easy|]. cbn [map]. rewrite !ascii_cons. intros [H1 H2]. split; auto.
  revert H1. destruct b; vm_compute; auto.
Qed.

Lemma same_name name key : ascii name = true -> forallb plain (map bval name) = true ->
  to_lowercase key = name <-> map ascii_lower key = name.
Proof.
  intros Ha Hp. assert (H : ascii key = true -> to_lowercase key = name <-> map ascii_lower key = name)
    by (intros H; now rewrite to_lowercase_ascii).
  split; intros K; apply H; auto; clear H.
  - unfold to_lowercase in K. destruct (utf8_decode key) as [cs|] eqn:E.
    + destruct (encode_decode _ _ E) as [Hs ->]. apply ascii_encode. apply (lower_chars_plain cs []).
      replace (lower_chars [] cs) with (map bval name); auto.
      apply ascii_decode in Ha. rewrite <- K in Ha at 1. rewrite decode_encode in Ha; [now injection Ha as ->|].
      apply Forall_forall. intros c Hc. pose proof (lower_chars_low cs [] Hs) as L. rewrite Forall_forall in L. now apply L.
    + now rewrite K.
  - apply ascii_lower_ascii. now rewrite K.
Qed.

Lemma te_name key : to_lowercase key = bs "transfer-encoding" <-> map ascii_lower key = bs "transfer-encoding".
Proof. now apply same_name. Qed.
Lemma cl_name key : to_lowercase key = bs "content-length" <-> map ascii_lower key = bs "content-length".
Proof. now apply same_name. Qed.

(** ** The header map and the fields *)
Lemma last_named name logical : (forall key, to_lowercase key = name <-> map ascii_lower key = name) -> forall hs fs,
  Forall2 header_of logical hs -> Forall2 field_of logical fs ->
  match last_value name hs with
  | Some v => exists l k, named name fs = l ++ [(k, SP :: v)]
  | None => named name fs = []
  end.
Proof.
  intros Hn. induction logical as [|line logical IH]; intros hs fs Hh Hf; inversion Hh as [|? h ? hs' Hl Hh']; inversion Hf as [|? f ? fs' Hl2 Hf']; subst.
  - reflexivity.
  - specialize (IH _ _ Hh' Hf'). destruct Hl as (key & value & Hk & E1 & ->). destruct f as [k r]. destruct Hl2 as [Hk2 E2]. cbn [fst snd] in *.
    assert (E : key = k /\ r = SP :: value).
    { rewrite E1 in E2. change (bs ": " ++ value) with (COLON :: SP :: value) in E2. clear - E2 Hk Hk2.
      revert k Hk2 E2. induction key as [|a key IH]; intros [|b k] Hk2 E2; cbn [app] in E2.
      - now injection E2 as <-.
      - injection E2 as <- _. exfalso. apply Hk2. now left.
      - injection E2 as -> _. exfalso. apply Hk. now left.
      - injection E2 as -> E2. destruct (IH ltac:(intros H; apply Hk; now right) k ltac:(intros H; apply Hk2; now right) E2) as [-> ->]. auto. }
    destruct E as [-> ->]. cbn [last_value named filter fst]. fold (named name fs').
    destruct (last_value name hs') as [w|].
    + destruct IH as (l & k0 & E). destruct (beqb (map ascii_lower k) name).
      * exists ((k, SP :: value) :: l), k0. rewrite E. reflexivity.
      * exists l, k0. exact E.
    + rewrite IH. destruct (beqb name (to_lowercase k)) eqn:B.
      * apply beqb_true in B. symmetry in B. apply Hn in B. rewrite B, beqb_refl. now exists [], k.
      * replace (beqb (map ascii_lower k) name) with false; auto. symmetry. apply beqb_false. intros K. apply Hn in K. rewrite K, beqb_refl in B. discriminate.
Qed.

Lemma fields_exist logical hs : Forall2 header_of logical hs -> exists fs, Forall2 field_of logical fs.
Proof.
  induction 1 as [|line h logical hs (key & value & Hk & -> & _) _ [fs IH]].
  - exists []. constructor.
  - exists ((key, SP :: value) :: fs). constructor; auto. split; auto.
Qed.

(** ** Numbers have no commas and no blanks *)
Lemma digit_byte b d : digit 10 b d -> (48 <= bval b <= 57)%N.
Proof. intros [H [[H1 H2]|[H1 _]]]; lia. Qed.
Lemma numeral_bytes s n : numeral 10 s n -> s <> [] /\ Forall (fun b => (48 <= bval b <= 57)%N) s.
Proof.
  intros [H (ds & F & _)]. split; auto. clear H n. induction F as [|b d s ds H F IH]; constructor; auto. eapply digit_byte; eauto.
Qed.

Definition word (s : bytes) : Prop := Forall (fun b => b <> x20 /\ b <> x09 /\ b <> x2c) s.
Lemma u64_word v n : u64_text v n -> word v.
Proof.
  assert (K : forall s m, numeral 10 s m -> word s).
  { intros s m H. apply numeral_bytes in H as [_ H]. eapply Forall_impl; [|exact H]. intros b Hb. repeat split; intros ->; vm_compute in Hb; destruct Hb; congruence. }
  intros [_ [H|(t & -> & H)]]; [eapply K; eauto|]. constructor; [repeat split; discriminate|exact (K _ _ H)].
Qed.
Lemma commas_word s : word s -> commas s = [s].
Proof.
  induction 1 as [|b s (H1 & H2 & H3) _ IH]; [reflexivity|]. cbn [commas]. destruct (Byte.eqb b x2c) eqn:E.
  - apply Byte.byte_dec_bl in E. congruence.
  - now rewrite IH.
Qed.
Lemma skip_word s : word s -> skip_blanks s = s.
Proof.
  destruct 1 as [|b s (H1 & H2 & H3) _]; [reflexivity|]. cbn [skip_blanks].
  destruct (Byte.eqb b x20) eqn:E; [apply Byte.byte_dec_bl in E; congruence|].
  destruct (Byte.eqb b x09) eqn:E2; [apply Byte.byte_dec_bl in E2; congruence|]. reflexivity.
Qed.
Lemma trim_word s : word s -> trim (SP :: s) = s.
Proof.
  intros H. unfold trim. change (skip_blanks (SP :: s)) with (skip_blanks s). rewrite (skip_word s H), skip_word.
  - apply rev_involutive.
  - apply Forall_rev, H.
Qed.
Lemma commas_blank s : word s -> commas (SP :: s) = [SP :: s].
Proof. intros H. cbn [commas]. rewrite (commas_word s H). reflexivity. Qed.

Lemma elements_last name fs l k v : named name fs = l ++ [(k, SP :: v)] -> word v ->
  exists es, elements name fs = es ++ [v].
Proof.
  intros E H. unfold elements. rewrite E, flat_map_app, map_app. eexists. f_equal. cbn [flat_map snd]. rewrite (commas_blank v H).
  cbn [app map]. now rewrite trim_word.
Qed.

Lemma final_chunked fs l k : named (bs "transfer-encoding") fs = l ++ [(k, bs " chunked")] -> final_coding fs = bs "chunked".
Proof.
  intros E. destruct (elements_last (bs "transfer-encoding") fs l k (bs "chunked")) as [es Ee]; auto.
  - repeat constructor; discriminate.
  - unfold final_coding. rewrite Ee, map_app, filter_app. cbn [map filter]. apply last_last.
Qed.

(** ** The theorem *)
(** The last Transfer-Encoding field reads exactly " chunked" after its colon. *)
Definition says_chunked (fs : list (bytes * bytes)) : Prop :=
  exists l k, named (bs "transfer-encoding") fs = l ++ [(k, bs " chunked")].
(** All elements of all Content-Length fields are the same number, in decimal digits. *)
Definition one_length (fs : list (bytes * bytes)) : Prop := exists n, Forall (fun e => numeral 10 e n) (elements (bs "content-length") fs).

Lemma framing_core {T} (h : headers) (t : T) b logical hs fs :
  Forall2 header_of logical hs -> h = headers_from hs -> Forall2 field_of logical fs -> framed h t b ->
  (http_framing true fs (body_framing b) <->
     Forall token (map fst fs) /\ (says_chunked fs \/ (named (bs "transfer-encoding") fs = [] /\ one_length fs)))
  /\ (http_framing false fs (body_framing b) <->
     Forall token (map fst fs) /\ (says_chunked fs \/ (named (bs "transfer-encoding") fs = [] /\ one_length fs)
       \/ (named (bs "transfer-encoding") fs <> [] /\ final_coding fs <> bs "chunked" /\ named (bs "content-length") fs = [])))
  /\ (body_framing b = Chunks <-> says_chunked fs).
Proof.
  intros Hh -> Hf (len & Hlen & Hb). rewrite !headers_from_get in *.
  pose proof (last_named _ _ te_name _ _ Hh Hf) as Ht. pose proof (last_named _ _ cl_name _ _ Hh Hf) as Hc.
  assert (Hlast : forall (l l' : list (bytes * bytes)) x y, l ++ [x] = l' ++ [y] -> x = y) by (intros; now apply app_inj_tail in H).
  assert (Hsc : says_chunked fs <-> last_value (bs "transfer-encoding") hs = Some (bs "chunked")).
  { split.
    - intros (l & k & E). destruct (last_value (bs "transfer-encoding") hs) as [v|].
      + destruct Ht as (l' & k' & E'). rewrite E in E'. apply Hlast in E'. now injection E' as _ <-.
      + rewrite E in Ht. now destruct l.
    - intros E. rewrite E in Ht. destruct Ht as (l & k & E'). now exists l, k. }
  destruct Hb as [[Hte ->]|[Hte ->]]; cbn [body_framing].
  - assert (S : says_chunked fs) by now apply Hsc.
    assert (N : named (bs "transfer-encoding") fs <> []) by (destruct S as (l & k & ->); now destruct l).
    assert (F : final_coding fs = bs "chunked") by (destruct S as (l & k & E); eapply final_chunked; eauto).
    assert (V : forall r, http_framing r fs Chunks -> Forall token (map fst fs)) by (intros r K; now inversion K).
    split; [|split]; (split; [intros K|]); eauto; intros [K _]; now constructor.
  - assert (S : ~ says_chunked fs) by (intros K; now apply Hsc in K).
    set (f := body_framing (match len with Some n => BLimited n t | None => BTilClose t end)).
    assert (Fc : f <> Chunks) by (unfold f; destruct len; discriminate).
    assert (Fl : named (bs "transfer-encoding") fs = [] -> (Forall token (map fst fs) -> one_length fs -> forall r, http_framing r fs f)).
    { intros N K [m Hm] r. destruct Hlen as [[Hcl ->]|(v & n & Hcl & Hu & ->)]; rewrite Hcl in Hc; subst f; cbn [body_framing].
      - now apply hf_none.
      - destruct Hc as (l & k & E). apply hf_length; auto; [rewrite E; now destruct l|].
        replace n with m; auto. destruct (elements_last _ _ _ _ _ E (u64_word _ _ Hu)) as [es Ee]. rewrite Ee in Hm.
        apply Forall_app in Hm as [_ Hm]. inversion Hm as [|? ? Hv _]; subst. destruct Hu as [_ [Hu|(t0 & -> & Hu)]].
        + eapply numeral_functional; eauto. lia.
        + exfalso. apply numeral_bytes in Hv as [_ Hv]. inversion Hv as [|? ? Hp _]. vm_compute in Hp. destruct Hp. congruence. }
    assert (Bl : forall r, http_framing r fs f -> Forall token (map fst fs) /\
              ((named (bs "transfer-encoding") fs = [] /\ one_length fs)
               \/ (r = false /\ f = Unsized /\ named (bs "transfer-encoding") fs <> [] /\ final_coding fs <> bs "chunked"))).
    { intros r K. inversion K as [K1 K2 K3 K4|K1 K2 K3 K4 K5|n K1 K2 K3 K4 K5|K1 K2 K3 K4]; split; auto.
      - congruence.
      - left. split; auto. now exists n.
      - left. split; auto. exists 0%N. unfold elements. rewrite K3. constructor. }
    assert (Uc : f = Unsized -> named (bs "content-length") fs = []).
    { destruct Hlen as [[Hcl ->]|(v & n & Hcl & Hu & ->)]; rewrite Hcl in Hc; subst f; [auto|discriminate]. }
    assert (Ucl : named (bs "content-length") fs = [] -> f = Unsized).
    { intros K. destruct Hlen as [[Hcl ->]|(v & n & Hcl & Hu & ->)]; rewrite Hcl in Hc; subst f; auto.
      destruct Hc as (l & k & E). rewrite K in E. now destruct l. }
    split; [|split].
    + split; [intros K; destruct (Bl _ K) as [K1 [K2|[K2 _]]]; [auto|discriminate]|]. intros [K1 [K2|[K2 K3]]]; [easy|auto].
    + split.
      * intros K. destruct (Bl _ K) as [K1 [K2|(_ & K2 & K3 & K4)]]; (split; [exact K1|]); [auto|]. right. right. auto.
      * intros [K1 [K2|[[K2 K3]|(K2 & K3 & K4)]]]; [easy|auto|]. rewrite (Ucl K4). now apply hf_other.
    + split; [congruence|easy].
Qed.

(** A request that the library accepts has these fields, and the framing that the library gives it is one that HTTP allows exactly if
    every name is a token and either the last Transfer-Encoding reads exactly " chunked", or there is no Transfer-Encoding and all of the
    Content-Length say the same in digits. It takes a body for chunked only if HTTP does so too. *)
Theorem C76_request :
  forall T bld (rd : reader T) fuel t xs q t',
  delivers rd t xs -> length xs < fuel -> request_deserialize bld rd fuel t = (Ok q, t') ->
  exists first lines logical fs cx ys,
    xs = cx ++ B LF :: ys /\ noisy bld (first ++ CRLF ++ wire_lines lines ++ CRLF) (cx ++ [B LF])
    /\ Forall text_line (first :: lines) /\ folded lines logical /\ Forall2 field_of logical fs
    /\ (http_framing true fs (body_framing (rq_body q)) <->
          Forall token (map fst fs) /\ (says_chunked fs \/ (named (bs "transfer-encoding") fs = [] /\ one_length fs)))
    /\ (body_framing (rq_body q) = Chunks -> Forall token (map fst fs) -> http_framing true fs Chunks).
Proof.
  intros T bld rd fuel t xs q t' D Hf H.
  destruct (C30_request _ _ _ _ _ _ _ _ D Hf H) as (first & lines & cx & ys & E & Hn & Ht & Hts & _ & (logical & hs & Hfo & Hh & Eh) & _ & _).
  destruct (fields_exist _ _ Hh) as [fs Hfs]. pose proof (C13_request _ _ _ _ _ _ _ H) as F. rewrite Eh in F.
  destruct (framing_core _ _ _ _ _ _ Hh eq_refl Hfs F) as (H1 & H2 & H3).
  exists first, lines, logical, fs, cx, ys. split; [exact E|]. split; [exact Hn|]. split; [now constructor|]. split; [exact Hfo|].
  split; [exact Hfs|]. split; [exact H1|].
  intros K Ht'. rewrite <- K. apply H1. split; auto. left. now apply H3.
Qed.
Print Assumptions C76_request.

(** The same for a response that has a body; here HTTP also allows another coding than chunked, and then the body lasts until the
    connection is closed, whatever the Content-Length. *)
Theorem C76_response :
  forall T bld (rd : reader T) fuel t xs q t',
  delivers rd t xs -> length xs < fuel -> response_deserialize bld rd fuel t = (Ok q, t') ->
  exists first lines logical fs cx ys,
    xs = cx ++ B LF :: ys /\ noisy bld (first ++ CRLF ++ wire_lines lines ++ CRLF) (cx ++ [B LF])
    /\ Forall text_line (first :: lines) /\ folded lines logical /\ Forall2 field_of logical fs
    /\ (http_framing false fs (body_framing (rs_body q)) <->
          Forall token (map fst fs) /\ (says_chunked fs \/ (named (bs "transfer-encoding") fs = [] /\ one_length fs)
            \/ (named (bs "transfer-encoding") fs <> [] /\ final_coding fs <> bs "chunked" /\ named (bs "content-length") fs = [])))
    /\ (body_framing (rs_body q) = Chunks -> Forall token (map fst fs) -> http_framing false fs Chunks).
Proof.
  intros T bld rd fuel t xs q t' D Hf H.
  destruct (C30_response _ _ _ _ _ _ _ _ D Hf H) as (first & lines & cx & ys & E & Hn & Ht & Hts & _ & (logical & hs & Hfo & Hh & Eh) & _).
  destruct (fields_exist _ _ Hh) as [fs Hfs]. pose proof (C13_response _ _ _ _ _ _ _ H) as F. rewrite Eh in F.
  destruct (framing_core _ _ _ _ _ _ Hh eq_refl Hfs F) as (H1 & H2 & H3).
  exists first, lines, logical, fs, cx, ys. split; [exact E|]. split; [exact Hn|]. split; [now constructor|]. split; [exact Hfo|].
  split; [exact Hfs|]. split; [exact H2|].
  intros K Ht'. rewrite <- K. apply H2. split; auto. left. now apply H3.
Qed.
Print Assumptions C76_response.

(** Which requests those are: any first line that is one, and any fields whose colon is followed by a blank, of which the last
    Content-Length, if there is one, is a number that the library can read. *)
Theorem C76_accepted :
  forall T bld (rd : reader T) fuel t first lines logical fs zs m u v,
  text_line first -> Forall text_line lines -> request_line_says first m u v ->
  folded lines logical -> Forall2 field_of logical fs -> Forall (fun f => exists w, snd f = SP :: w) fs ->
  (forall l k w, named (bs "content-length") fs = l ++ [(k, SP :: w)] -> exists n, u64_text w n) ->
  delivers rd t (map B (first ++ CRLF ++ wire_lines lines ++ CRLF) ++ zs) ->
  length (map B (first ++ CRLF ++ wire_lines lines ++ CRLF) ++ zs) < fuel ->
  exists h b t', request_deserialize bld rd fuel t = (Ok (mkRequest m u v h b), t') /\ delivers rd t' zs
    /\ (http_framing true fs (body_framing b) <->
          Forall token (map fst fs) /\ (says_chunked fs \/ (named (bs "transfer-encoding") fs = [] /\ one_length fs))).
Proof.
  intros T bld rd fuel t first lines logical fs zs m u v Hf Hl Hr Hfo Hfs Hsp Hc D Hlen.
  assert (Hh : exists hs, Forall2 header_of logical hs).
  { clear - Hfs Hsp. induction Hfs as [|line [k r] logical fs [Hk E] _ IH]; [exists []; constructor|].
    inversion Hsp as [|? ? [w Hw] Hsp']; subst. destruct (IH Hsp') as [hs Hhs]. cbn [fst snd] in *. subst r.
    exists ((to_lowercase k, w) :: hs). constructor; auto. exists k, w. auto. }
  destruct Hh as [hs Hh].
  assert (Hg : good_length (headers_from hs)).
  { intros w Hw. rewrite headers_from_get in Hw. pose proof (last_named _ _ cl_name _ _ Hh Hfs) as K. rewrite Hw in K.
    destruct K as (l & k & K). eapply Hc; eauto. }
  destruct (C30_request_accepts _ bld rd fuel t first lines zs m u v (headers_from hs) Hf Hl Hr) as (b & t' & E & F & D'); auto.
  { exists logical, hs. auto. }
  exists (headers_from hs), b, t'. split; [exact E|]. split; [exact D'|].
  destruct (framing_core _ _ _ _ _ _ Hh eq_refl Hfs F) as (H1 & _ & _). exact H1.
Qed.
Print Assumptions C76_accepted.

(** ** Cases *)
Definition C76_wire (fs : list (bytes * bytes)) : bytes :=
  bs "PUT /x HTTP/1.1" ++ CRLF ++ wire_lines (map (fun f => fst f ++ COLON :: snd f) fs) ++ CRLF.
Definition C76_library (fs : list (bytes * bytes)) : option framing :=
  match fst (request_deserialize Std seg_read 300 (text (C76_wire fs))) with Ok q => Some (body_framing (rq_body q)) | _ => None end.
Definition C76_te (v : bytes) : bytes * bytes := (bs "Transfer-Encoding", v).
Definition C76_cl (v : bytes) : bytes * bytes := (bs "Content-LENGTH", v).

Definition tcharb (b : byte) : bool :=
  ((48 <=? bval b) && (bval b <=? 57) || (65 <=? bval b) && (bval b <=? 90) || (97 <=? bval b) && (bval b <=? 122))%N
  || existsb (Byte.eqb b) (bs "!#$%&'*+-.^_`|~").
Lemma tokens_of names : forallb (fun s => negb (beqb s []) && forallb tcharb s) names = true -> Forall token names.
Proof.
  intros H. rewrite forallb_forall in H. apply Forall_forall. intros s Hs. apply H in Hs. apply andb_true_iff in Hs as [H1 H2]. split.
  - intros ->. discriminate.
  - rewrite forallb_forall in H2. apply Forall_forall. intros b Hb. apply H2 in Hb. unfold tcharb in Hb.
    apply orb_true_iff in Hb as [Hb|Hb].
    + left. rewrite !orb_true_iff, !andb_true_iff, !N.leb_le in Hb. tauto.
    + right. apply existsb_exists in Hb as (c & Hc & E). apply Byte.byte_dec_bl in E. now subst.
Qed.
Ltac tokens := apply tokens_of; vm_compute; reflexivity.
Ltac number n := split; [discriminate|]; exists [n]; split; [repeat constructor; vm_compute; reflexivity|reflexivity].

Lemma in_byte_false b l : existsb (Byte.eqb b) l = false -> ~ In b l.
Proof.
  intros H K. assert (E : existsb (Byte.eqb b) l = true) by (apply existsb_exists; exists b; split; auto; now apply Byte.byte_dec_lb). congruence.
Qed.

Example C76_case :
  (* as HTTP has it *)
  (C76_library [C76_cl (bs " 7"); C76_te (bs " chunked")] = Some Chunks /\ http_framing true [C76_cl (bs " 7"); C76_te (bs " chunked")] Chunks)
  /\ (C76_library [C76_cl (bs " 5"); C76_cl (bs " 5")] = Some (Length 5) /\ http_framing true [C76_cl (bs " 5"); C76_cl (bs " 5")] (Length 5))
  (* chunked to HTTP, but not to the library *)
  /\ (C76_library [C76_te (bs " Chunked"); C76_cl (bs " 5")] = Some (Length 5)
      /\ http_framing true [C76_te (bs " Chunked"); C76_cl (bs " 5")] Chunks
      /\ forall f, http_framing true [C76_te (bs " Chunked"); C76_cl (bs " 5")] f -> f = Chunks)
  /\ (C76_library [C76_te (bs " gzip, chunked")] = Some Unsized /\ http_framing true [C76_te (bs " gzip, chunked")] Chunks
      /\ forall f, http_framing true [C76_te (bs " gzip, chunked")] f -> f = Chunks)
  (* to be rejected, but accepted *)
  /\ (C76_library [C76_cl (bs " 5"); C76_cl (bs " 7")] = Some (Length 7) /\ forall f, ~ http_framing true [C76_cl (bs " 5"); C76_cl (bs " 7")] f)
  /\ (C76_library [C76_cl (bs " +5")] = Some (Length 5) /\ forall f, ~ http_framing true [C76_cl (bs " +5")] f)
  /\ (C76_library [(bs "Content-Length ", bs " 5")] = Some Unsized /\ forall f, ~ http_framing true [(bs "Content-Length ", bs " 5")] f)
  (* to be accepted, but rejected *)
  /\ (C76_library [C76_cl (bs "  5")] = None /\ http_framing true [C76_cl (bs "  5")] (Length 5)).
Proof.
  assert (Hne : forall l n, Forall (fun e => numeral 10 e n) l -> Forall (fun e => forallb (fun b => (48 <=? bval b)%N && (bval b <=? 57)%N) e = true) l).
  { intros l n H. eapply Forall_impl; [|exact H]. intros e He. apply numeral_bytes in He as [_ He]. apply forallb_forall. rewrite Forall_forall in He.
    intros b Hb. apply He in Hb. now rewrite andb_true_iff, !N.leb_le. }
  split; [split; [vm_compute; reflexivity|]|]; [apply hf_chunked; [tokens|discriminate|reflexivity]|].
  split; [split; [vm_compute; reflexivity|]|]; [apply hf_length; [tokens|reflexivity|discriminate|repeat (apply Forall_cons || apply Forall_nil); number 5%N]|].
  split; [split; [vm_compute; reflexivity|split]|]; [apply hf_chunked; [tokens|discriminate|reflexivity]|intros f H; inversion H; auto; discriminate|].
  split; [split; [vm_compute; reflexivity|split]|]; [apply hf_chunked; [tokens|discriminate|reflexivity]|intros f H; inversion H; auto; discriminate|].
  split; [split; [vm_compute; reflexivity|]|].
  { intros f H. inversion H as [_ K|_ K|n _ _ _ K|_ _ K]; [discriminate K || now apply K|discriminate|..|discriminate K].
    change (elements (bs "content-length") [C76_cl (bs " 5"); C76_cl (bs " 7")]) with [bs "5"; bs "7"] in K.
    inversion K as [|? ? K1 K']; subst. inversion K' as [|? ? K2 _]; subst.
    assert (E : (n = 5)%N) by (eapply (numeral_functional 10 (bs "5")); [lia|exact K1|number 5%N]).
    assert (E' : (n = 7)%N) by (eapply (numeral_functional 10 (bs "7")); [lia|exact K2|number 7%N]). congruence. }
  split; [split; [vm_compute; reflexivity|]|].
  { intros f H. inversion H as [_ K|_ K|n _ _ _ K|_ _ K]; [discriminate K || now apply K|discriminate|..|discriminate K].
    apply Hne in K. inversion K. discriminate. }
  split; [split; [vm_compute; reflexivity|]|].
  { intros f H. assert (K : Forall token (map fst [(bs "Content-Length ", bs " 5")])) by (now inversion H). inversion K as [|? ? [_ K1] _]; subst.
   cbn [map fst] in K1. assert (K2 : tchar SP) by (rewrite Forall_forall in K1; apply K1; vm_compute; tauto).
    destruct K2 as [K2|K2]; [change (bval SP) with 32%N in K2; lia|].
    revert K2. apply (in_byte_false SP). reflexivity. }
  split; [vm_compute; reflexivity|]. apply hf_length; [tokens|reflexivity|discriminate|repeat (apply Forall_cons || apply Forall_nil); number 5%N].
Qed.

(** So the library does not always find the end of a request where HTTP says it is. *)
Theorem C76_same_refuted :
  ~ (forall fs f g, C76_library fs = Some f -> http_framing true fs g -> f = g).
Proof.
  intros H. destruct C76_case as (_ & _ & (H1 & H2 & _) & _). discriminate (H _ _ _ H1 H2).
Qed.
Print Assumptions C76_same_refuted.

Example C76_case_hypotheses :
  let fs := [C76_te (bs " Chunked"); C76_cl (bs " 5")] in
  Forall (fun f => exists w, snd f = SP :: w) fs
  /\ (forall l k w, named (bs "content-length") fs = l ++ [(k, SP :: w)] -> exists n, u64_text w n)
  /\ folded (map (fun f => fst f ++ COLON :: snd f) fs) (map (fun f => fst f ++ COLON :: snd f) fs)
  /\ Forall2 field_of (map (fun f => fst f ++ COLON :: snd f) fs) fs
  (* the server reads five bytes, the framing of the chunks among them *)
  /\ (match request_deserialize Std seg_read 300 (text (C76_wire fs) ++ text (bs "5" ++ CRLF ++ bs "hello" ++ CRLF ++ bs "0" ++ CRLF ++ CRLF)) with
      | (Ok q, _) => fst (body_read Std seg_read 300 100 (rq_body q))
      | _ => Panic
      end = Ok (bs "5" ++ CRLF ++ bs "he")).
Proof.
  cbv zeta. split; [repeat constructor; eexists; reflexivity|]. split.
  { intros l k w E. change (named _ _) with [C76_cl (bs " 5")] in E. destruct l as [|? [|]]; try discriminate E.
    injection E as _ <-. exists 5%N. split; [reflexivity|]. left. number 5%N. }
  split; [|split; [|reflexivity]].
  - cbn [map]. rewrite <- (app_nil_r (fst (C76_te (bs " Chunked")) ++ COLON :: snd (C76_te (bs " Chunked")))) at 2.
    apply (folded_group _ [] [_] [_]); [constructor| |].
    + intros l' t' [= <- <-] (b & t & E & [Hb|Hb]); injection E as <- _; discriminate Hb.
    + rewrite <- (app_nil_r (fst (C76_cl (bs " 5")) ++ COLON :: snd (C76_cl (bs " 5")))) at 2.
      apply (folded_group _ [] [] []); [constructor|discriminate|constructor].
  - repeat constructor; apply in_byte_false; reflexivity.
Qed.

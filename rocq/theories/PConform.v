(** What the library sends, against the grammar of HTTP (RFC 7230 sections 3 and 4.1): C79. *)
From Verif Require Import Base Utf8 UnicodeTables Case Num Io Parser Types Message Outgoing Client Server Transport Lemmas ReadLemmas NumLemmas Utf8Lemmas
  ChunkSpec ChunkLemmas BodyLemmas WriteLemmas OutLemmas ParserLemmas CaseLemmas TypesLemmas HeadLemmas BlockLemmas MsgLemmas SimLemmas PBody PIo PParse PHead
  POut PUrl PAdd PServer PFraming PValid PTrailer.

(** ** Valid heads *)
(** The fields that a header map stands for: the library writes one blank after the colon. *)
Definition fields_of (h : list (bytes * bytes)) : list (bytes * bytes) := map (fun kv => (fst kv, SP :: snd kv)) h.
(** [w] is a request head of the grammar, with this method, target and fields. *)
Definition valid_request (w m u : bytes) (fs : list (bytes * bytes)) : Prop :=
  exists first d1 d2 lines, http_request_line first m u d1 d2 /\ Forall2 http_field lines fs /\ w = first ++ CRLF ++ wire_lines lines ++ CRLF.
(** [w] is a response head of the grammar, with this code and these fields. *)
Definition valid_response (w : bytes) (code : N) (fs : list (bytes * bytes)) : Prop :=
  exists first d1 d2 c1 c2 c3 reason lines, http_status_line first d1 d2 c1 c2 c3 reason /\ numeral 10 [c1; c2; c3] code
    /\ Forall2 http_field lines fs /\ w = first ++ CRLF ++ wire_lines lines ++ CRLF.
(** Names and values that the grammar allows. *)
Definition http_headers (h : list (bytes * bytes)) : Prop := Forall (fun kv => token (fst kv) /\ Forall field_char (snd kv)) h.

Lemma tchar_no_colon b : tchar b -> b <> COLON.
Proof.
  intros H ->. destruct H as [H|H]; [change (bval COLON) with 58%N in H; lia|]. revert H. apply in_byte_false. reflexivity.
Qed.
Lemma fields_iff h : Forall2 http_field (map header_line h) (fields_of h) <-> http_headers h.
Proof.
  unfold http_headers, fields_of. induction h as [|[k v] h IH]; cbn [map]; [split; constructor|]. rewrite Forall_cons_iff, <- IH. cbn [fst snd]. split.
  - intros H. inversion H as [|? ? ? ? (_ & Ht & Hv) H']; subst. cbn [fst snd] in *. apply Forall_cons_iff in Hv as [_ Hv]. auto.
  - intros [[Ht Hv] H]. apply Forall2_cons; auto. split; [split|split]; cbn [fst snd]; auto.
    + intros Hi. destruct Ht as [_ Ht]. rewrite Forall_forall in Ht. apply Ht, tchar_no_colon in Hi. now elim Hi.
    + constructor; auto. right. now left.
Qed.
Lemma lines_headers lines h : Forall2 http_field lines (fields_of h) -> lines = map header_line h /\ http_headers h.
Proof.
  intros H. assert (E : lines = map header_line h).
  { revert lines H. induction h as [|[k v] h IH]; intros lines H; inversion H as [|l f ls fs Hf H']; subst; auto. cbn [map].
    f_equal; auto. now destruct Hf as [[_ ->] _]. }
  split; auto. apply fields_iff. now rewrite <- E.
Qed.

Lemma dec_byte n b : show_dec n = [b] -> dec_digit b /\ (n < 10)%N.
Proof.
  intros E. pose proof (show_radix_numeral 10 n ltac:(lia) ltac:(lia)) as [_ (ds & F & P)]. unfold show_dec in E. rewrite E in F.
  inversion F as [|? d ? ds' [Hd Hb] F']; subst. inversion F'; subst. unfold positional. cbn [fold_left]. split; [|lia].
  unfold dec_digit. destruct Hb as [[Hb ->]|[Hb _]]; lia.
Qed.
Lemma dec_small n : (n < 10)%N -> exists b, show_dec n = [b] /\ dec_digit b.
Proof.
  intros H. assert (K : In n [0;1;2;3;4;5;6;7;8;9]%N) by (cbn [In]; lia). cbn [In] in K.
  repeat (destruct K as [<-|K]; [eexists; split; [reflexivity|]; split; vm_compute; congruence|]). destruct K.
Qed.
Lemma dec_digits n : Forall dec_digit (show_dec n) /\ show_dec n <> [].
Proof.
  pose proof (show_radix_numeral 10 n ltac:(lia) ltac:(lia)) as H. apply numeral_bytes in H as [H1 H2]. auto.
Qed.
(** Digits up to the first byte that is none. *)
Lemma digits_split s c x t y : Forall dec_digit s -> Forall dec_digit t -> ~ dec_digit c ->
  forall c', ~ dec_digit c' -> s ++ c :: x = t ++ c' :: y -> s = t /\ c = c' /\ x = y.
Proof.
  intros Hs Ht Hc c' Hc'. revert t Ht. induction Hs as [|b s Hb Hs IH]; intros t Ht E; destruct Ht as [|b' t Hb' Ht]; cbn [app] in E.
  - injection E as -> ->. auto.
  - injection E as -> _. easy.
  - injection E as -> _. easy.
  - injection E as -> E. destruct (IH t Ht E) as (-> & -> & ->). auto.
Qed.
Lemma no_digit c : In c [x2e; CR; SP] -> ~ dec_digit c.
Proof. intros [<-|[<-|[<-|[]]]]; unfold dec_digit; intros H; vm_compute in H; destruct H as [H1 H2]; congruence. Qed.
Lemma version_split v d1 d2 c x y : dec_digit d1 -> dec_digit d2 -> In c [CR; SP] -> show_version v ++ c :: x = bs "HTTP/" ++ d1 :: bs "." ++ d2 :: c :: y ->
  small_version v /\ show_version v = bs "HTTP/" ++ d1 :: bs "." ++ [d2] /\ x = y.
Proof.
  intros H1 H2 Hc E. unfold show_version, version_pieces in *. cbn [concat] in *. rewrite app_nil_r in *. rewrite <- !app_assoc in E.
  apply app_inv_head in E. destruct (dec_digits (vmajor v)) as [D1 _], (dec_digits (vminor v)) as [D2 _].
  change (d1 :: bs "." ++ d2 :: c :: y) with ([d1] ++ x2e :: [d2] ++ c :: y) in E. change (bs "." ++ show_dec (vminor v) ++ c :: x) with (x2e :: show_dec (vminor v) ++ c :: x) in E.
  apply digits_split in E as (E1 & _ & E); auto using no_digit, in_eq.
  apply digits_split in E as (E2 & _ & E); auto; [|apply no_digit; right; exact Hc..].
  split; [split; [now apply dec_byte in E1|now apply dec_byte in E2]|]. rewrite E1, E2. auto.
Qed.
Lemma version_valid v : small_version v -> exists d1 d2, dec_digit d1 /\ dec_digit d2 /\ show_version v = bs "HTTP/" ++ d1 :: bs "." ++ [d2].
Proof.
  intros [H1 H2]. destruct (dec_small _ H1) as (d1 & E1 & D1), (dec_small _ H2) as (d2 & E2 & D2). exists d1, d2. repeat split; try apply D1; try apply D2.
  unfold show_version, version_pieces. cbn [concat]. now rewrite E1, E2.
Qed.

Lemma cons_tail (a b : byte) x y : a :: x = b :: y -> x = y.
Proof. now intros [= _ ->]. Qed.
Lemma method_token m : token (show_method m).
Proof.
  assert (K : Forall token (map show_method [Delete; Get; Head; Options; Post; Put; Trace])) by tokens.
  rewrite Forall_forall in K. apply K, in_map. destruct m; cbn [In]; auto 10.
Qed.

(** The head of a request is valid, and says what the request says, exactly if the version's numbers have one digit, the
    target is visible characters, and names and values are those of HTTP. *)
Theorem C79_request : forall B0 (r : request B0),
  valid_request (concat (request_pieces r)) (show_method (rq_method r)) (rq_uri r) (fields_of (rq_headers r))
  <-> small_version (rq_version r) /\ rq_uri r <> [] /\ Forall vchar (rq_uri r) /\ http_headers (rq_headers r).
Proof.
  intros B0 r. rewrite request_pieces_wire, headers_pieces_wire. split.
  - intros (first & d1 & d2 & lines & (_ & Hu & Hv & H1 & H2 & ->) & Hl & E). apply lines_headers in Hl as [-> Hh].
    split; [|auto]. unfold request_line_of in E. rewrite <- !app_assoc in E. apply app_inv_head in E. rewrite <- !app_comm_cons in E. apply cons_tail in E.
    rewrite <- !app_assoc in E. apply app_inv_head in E. rewrite <- !app_comm_cons in E. apply cons_tail in E.
    eapply (version_split (rq_version r) d1 d2 CR); [exact H1|exact H2|now left|exact E].
  - intros (Hv & Hu & Hc & Hh). destruct (version_valid _ Hv) as (d1 & d2 & D1 & D2 & E).
    exists (request_line_of (rq_method r) (rq_uri r) (rq_version r)), d1, d2, (map header_line (rq_headers r)).
    split; [|split; [now apply fields_iff|reflexivity]]. unfold request_line_of. rewrite E.
    split; [apply method_token|]. split; [exact Hu|]. split; [exact Hc|]. split; [exact D1|]. split; [exact D2|reflexivity].
Qed.
Print Assumptions C79_request.

Definition known_line (st : status) : Prop :=
  exists c1 c2 c3 reason, Forall dec_digit [c1; c2; c3] /\ numeral 10 [c1; c2; c3] (to_code st) /\ Forall field_char reason
    /\ show_status st = [c1; c2; c3] ++ SP :: reason.
Lemma field_charb s : forallb (fun b => ((33 <=? bval b) && (bval b <=? 126) || (bval b =? 32))%N) s = true -> Forall field_char s.
Proof.
  intros H. rewrite forallb_forall in H. apply Forall_forall. intros b Hb. apply H in Hb. rewrite !orb_true_iff, andb_true_iff, !N.leb_le, N.eqb_eq in Hb.
  destruct Hb as [Hb|Hb]; [now left|]. right. left. rewrite <- (byte_of_bval b), Hb. reflexivity.
Qed.
Lemma numeral_three c1 c2 c3 n : Forall dec_digit [c1; c2; c3] -> n = code_of c1 c2 c3 -> numeral 10 [c1; c2; c3] n.
Proof.
  intros H ->. apply Forall_cons_iff in H as [H1 H]. apply Forall_cons_iff in H as [H2 H]. apply Forall_inv in H as H3. split; [discriminate|].
  exists [dec_value c1; dec_value c2; dec_value c3]. unfold dec_digit, code_of, dec_value, positional in *. cbn [fold_left].
  split; [|lia]. repeat (apply Forall2_cons; [split; [lia|left; lia]|]). constructor.
Qed.
Lemma status_known st : (forall c, st <> StUnknown c) -> known_line st.
Proof.
  intros H. destruct st; [..|now elim (H c)].
  all: unfold known_line; cbn [to_code show_status]; eexists _, _, _, _; split; [|split; [|split; [|reflexivity]]].
  all: try (apply field_charb; vm_compute; reflexivity).
  all: try (repeat (apply Forall_cons || apply Forall_nil); split; vm_compute; congruence).
  all: apply numeral_three; [repeat (apply Forall_cons || apply Forall_nil); split; vm_compute; congruence|reflexivity].
Qed.

(** The head of a response: the same, and the status must be one of those that the library has a name for. *)
Theorem C79_response : forall B0 (r : response B0),
  valid_response (concat (response_pieces r)) (to_code (rs_status r)) (fields_of (rs_headers r))
  <-> small_version (rs_version r) /\ (forall c, rs_status r <> StUnknown c) /\ http_headers (rs_headers r).
Proof.
  intros B0 r. rewrite response_pieces_wire, headers_pieces_wire. split.
  - intros (first & d1 & d2 & c1 & c2 & c3 & reason & lines & (H1 & H2 & Hc & Hr & ->) & _ & Hl & E). apply lines_headers in Hl as [-> Hh].
    unfold status_line_of in E. rewrite <- !app_assoc in E. cbn [app] in E.
    assert (E' : show_version (rs_version r) ++ SP :: show_status (rs_status r) ++ CRLF ++ wire_lines (map header_line (rs_headers r)) ++ CRLF
                 = bs "HTTP/" ++ d1 :: bs "." ++ d2 :: SP :: c1 :: c2 :: c3 :: SP :: reason ++ CRLF ++ wire_lines (map header_line (rs_headers r)) ++ CRLF).
    { exact E. }
    clear E. apply version_split in E' as (Hv & _ & E); auto; [|right; now left]. split; auto. split; auto. intros c Es. rewrite Es in E. cbn [show_status] in E.
    destruct (dec_digits c) as [D _]. change (CRLF ++ ?x) with (CR :: LF :: x) in E.
    change (c1 :: c2 :: c3 :: SP :: ?y) with ([c1; c2; c3] ++ SP :: y) in E.
    apply digits_split in E as (_ & E & _); auto; [discriminate|apply no_digit; right; now left|apply no_digit; right; right; now left].
  - intros (Hv & Hs & Hh). destruct (version_valid _ Hv) as (d1 & d2 & D1 & D2 & E). destruct (status_known _ Hs) as (c1 & c2 & c3 & reason & K1 & K2 & K3 & K4).
    exists (status_line_of (rs_version r) (rs_status r)), d1, d2, c1, c2, c3, reason, (map header_line (rs_headers r)).
    split; [|split; [exact K2|split; [now apply fields_iff|reflexivity]]]. unfold status_line_of. rewrite E, K4.
    split; [exact D1|]. split; [exact D2|]. split; [exact K1|]. split; [exact K3|]. rewrite <- !app_assoc. reflexivity.
Qed.
Print Assumptions C79_response.

(** ** Framing *)
Definition lower_names (h : list (bytes * bytes)) : Prop := Forall (fun kv => map ascii_lower (fst kv) = fst kv) h.

Lemma named_sorted name h : sorted h -> lower_names h ->
  named name (fields_of h) = match hm_get name h with Some v => [(name, SP :: v)] | None => [] end.
Proof.
  intros Hs. induction Hs as [|k v m Hlt Hs IH]; intros Hl; auto. apply Forall_cons_iff in Hl as [Hk Hl]. cbn [fst] in Hk.
  unfold fields_of, named in *. cbn [map filter fst snd hm_get]. rewrite Hk, (IH Hl). destruct (beqb k name) eqn:E.
  - apply beqb_true in E. subst name. rewrite beqb_refl, hm_get_none; auto. intros k' v' Hin ->. apply Hlt in Hin. now apply blt_irrefl in Hin.
  - destruct (beqb name k) eqn:E2; auto. apply beqb_true in E2. subst. now rewrite beqb_refl in E.
Qed.
Lemma names_token h : http_headers h -> Forall token (map fst (fields_of h)).
Proof. intros H. unfold fields_of. rewrite map_map. cbn [fst]. apply Forall_forall. intros k Hk. apply in_map_iff in Hk as (kv & <- & Hi).
  unfold http_headers in H. rewrite Forall_forall in H. now apply H.
Qed.
Lemma lower_twice b : ascii_lower (ascii_lower b) = ascii_lower b.
Proof. destruct b; reflexivity. Qed.
Lemma lower_tchar b : tchar b -> tchar (ascii_lower b).
Proof.
  intros H. assert (K : forall c, tcharb c = true -> tchar c).
  { intros c Hc. assert (F : Forall token [[c]]). { apply tokens_of. cbn [forallb]. rewrite Hc. reflexivity. }
    apply Forall_inv in F as [_ F]. now apply Forall_inv in F. }
  apply K. assert (Hb : tcharb b = true).
  { destruct H as [H|H]; unfold tcharb; apply orb_true_iff; [left|right].
    - rewrite !orb_true_iff, !andb_true_iff, !N.leb_le. lia.
    - apply existsb_exists. exists b. split; auto. apply Byte.byte_dec_lb. reflexivity. }
  clear H K. revert Hb. destruct b; intros H; vm_compute in H; try discriminate H; reflexivity.
Qed.
Lemma lower_token k : token k -> to_lowercase k = map ascii_lower k /\ token (map ascii_lower k).
Proof.
  intros Ht. split.
  - apply to_lowercase_ascii. destruct (token_vchar _ Ht) as [_ Hv]. unfold ascii. apply forallb_forall. rewrite Forall_forall in Hv. intros b Hb.
    apply Hv in Hb. destruct Hb as [_ Hb]. apply N.ltb_lt. lia.
  - destruct Ht as [H1 H2]. split; [now destruct k|]. apply Forall_map. eapply Forall_impl; [|exact H2]. apply lower_tchar.
Qed.
Lemma inserts_http l : forall h, http_headers l -> http_headers h /\ lower_names h /\ sorted h ->
  http_headers (inserts l h) /\ lower_names (inserts l h) /\ sorted (inserts l h).
Proof.
  induction l as [|[k v] l IH]; intros h Hl Hh; auto. apply Forall_cons_iff in Hl as [[Hk Hv] Hl]. cbn [fst snd] in *.
  cbn [inserts fold_left fst snd]. apply IH; auto. destruct Hh as (H1 & H2 & H3). destruct (lower_token k Hk) as [E Ht].
  unfold headers_insert. unfold http_headers, lower_names in *. rewrite E.
  split; [|split; [|now apply hm_insert_sorted]]; apply Forall_forall; intros kv Hi.
  - rewrite Forall_forall in H1. destruct kv as [k' v']. destruct (CaseLemmas.hm_insert_in _ _ _ _ _ Hi) as [[-> ->]|Hi']; [cbn [fst snd]; auto|now apply (H1 (k', v'))].
  - rewrite Forall_forall in H2. destruct kv as [k' v']. destruct (CaseLemmas.hm_insert_in _ _ _ _ _ Hi) as [[-> ->]|Hi']; [|now apply (H2 (k', v'))].
    cbn [fst snd]. rewrite map_map. apply map_ext. apply lower_twice.
Qed.
Lemma client_http m host : Forall field_char host ->
  http_headers (client_headers m host) /\ lower_names (client_headers m host) /\ sorted (client_headers m host).
Proof.
  intros Hh. split; [|split].
  - assert (K : Forall token [bs "accept"; bs "host"; bs "transfer-encoding"; bs "user-agent"]) by tokens.
    assert (C : Forall field_char (bs "*/*") /\ Forall field_char (bs "chunked") /\ Forall field_char (bs "http_io")) by (repeat split; apply field_charb; reflexivity).
    rewrite Forall_forall in K. destruct C as (C1 & C2 & C3).
    destruct m; cbn [client_headers app]; repeat (apply Forall_cons; [split; cbn [fst snd]; [apply K; cbn [In]; auto 6|assumption]|]); apply Forall_nil.
  - destruct m; repeat (apply Forall_cons; [reflexivity|]); apply Forall_nil.
  - replace (client_headers m host) with (headers_from (client_headers m host)) by (destruct m; reflexivity). apply headers_from_sorted.
Qed.

(** The chunks that the writes of a body make. *)
Definition chunk_for (d : bytes) : chunk := (show_hex (N.of_nat (length d)), [], d).
Definition nonempty (d : bytes) : bool := match d with [] => false | _ => true end.
Lemma body_http ws : let cs := map chunk_for (filter nonempty ws) in
  http_chunked cs (bs "0", [], []) [] /\ payload cs = concat ws
  /\ flat_map chunk_of ws ++ bs "0" ++ CRLF ++ CRLF = http_body cs (bs "0", [], []) [].
Proof.
  cbv zeta. split; [split; [|split; [|split]]|split].
  - apply Forall_app. split.
    + apply Forall_map, Forall_forall. intros d _. split; [apply show_radix_numeral; lia|now left].
    + apply Forall_cons; [split; [exact (show_radix_numeral 16 0 ltac:(lia) ltac:(lia))|now left]|constructor].
  - apply Forall_map, Forall_forall. intros d Hd. apply filter_In in Hd as [_ Hd]. now destruct d.
  - reflexivity.
  - exists []. constructor.
  - unfold payload. induction ws as [|[|b d] ws IH]; auto. cbn [filter nonempty map flat_map concat]. now rewrite IH.
  - unfold http_body. assert (E : flat_map chunk_of ws = flat_map chunk_wire (map chunk_for (filter nonempty ws))).
    { induction ws as [|[|b d] ws IH]; auto. cbn [filter nonempty map flat_map]. rewrite <- IH. f_equal. unfold chunk_wire, chunk_line, chunk_for. cbn [fst snd].
      rewrite app_nil_r. reflexivity. }
    rewrite E. reflexivity.
Qed.

(** The whole message that a client sends, from [send] to [finish], when no call reports an error and the caller's headers
    are HTTP's and none of the two about framing: a valid request that is framed as HTTP frames it, and carries the bytes
    written. *)
Theorem C79_client : forall S bld cap (wt : writer S) log fuel u m h r0 l s o sa ops ob s1,
  honest wt log -> http_url_of u = Ok h -> builder_new u m = Ok r0 ->
  Forall vchar (u_path u) -> Forall field_char (hu_host h) -> http_headers l ->
  added (bs "Transfer-Encoding") l = None -> added (bs "Content-Length") l = None ->
  send bld cap wt fuel (add_all l r0) s = (Ok o, sa) ->
  run_ops bld cap wt fuel ops o = (Ok tt, ob) ->
  finish_send bld cap wt fuel ob = (Ok tt, s1) ->
  exists head body fs, log s1 = log s ++ head ++ body
    /\ valid_request head (show_method m) (match u_path u with [] => bs "/" | p => p end) fs
    /\ match m with
       | Delete | Post | Put => http_framing true fs Chunks /\ exists cs z, http_chunked cs z [] /\ body = http_body cs z [] /\ payload cs = concat (written ops)
       | _ => http_framing true fs Unsized /\ body = [] /\ written ops = []
       end.
Proof.
  intros S bld cap wt log fuel u m h r0 l s o sa ops ob s1 Hh Eu Er Hp Hc Hl Ht Hn H1 H2 H3.
  rewrite (builder_request u m h Eu) in Er. injection Er as <-. rewrite add_all_request in *. cbn [rq_method rq_uri rq_version rq_headers rq_body] in *.
  destruct (inserts_http l _ Hl (client_http m _ Hc)) as (K1 & K2 & K3).
  set (r := mkRequest m (match u_path u with [] => bs "/" | _ => u_path u end) v11 (inserts l (client_headers m (hu_host h))) tt) in *.
  assert (Hte : hm_get (bs "transfer-encoding") (rq_headers r) = match m with Delete | Post | Put => Some (bs "chunked") | _ => None end).
  { change (hm_get (bs "transfer-encoding") (rq_headers r)) with (headers_get (bs "Transfer-Encoding") (inserts l (client_headers m (hu_host h)))).
    rewrite inserts_get, Ht by now apply client_http. destruct m; reflexivity. }
  assert (Hcl : hm_get (bs "content-length") (rq_headers r) = None).
  { change (hm_get (bs "content-length") (rq_headers r)) with (headers_get (bs "Content-Length") (inserts l (client_headers m (hu_host h)))).
    rewrite inserts_get, Hn by now apply client_http. destruct m; reflexivity. }
  pose proof (named_sorted (bs "transfer-encoding") _ K3 K2) as N1. pose proof (named_sorted (bs "content-length") _ K3 K2) as N2.
  cbn [r rq_headers] in Hte, Hcl. rewrite Hte in N1. rewrite Hcl in N2. pose proof (names_token _ K1) as Tk.
  pose proof H1 as H1'. apply (request_serialize_log bld cap wt log Hh) in H1 as [_ H1]. destruct (H1 o eq_refl) as (L1 & I1 & _ & B1).
  pose proof H2 as H2'. apply (run_ops_log bld cap wt log Hh) in H2 as ((_ & L2) & I2 & B2 & _); auto.
  apply (finish_send_log bld cap wt log Hh) in H3 as (_ & _ & L3); auto.
  rewrite (L2 (ex_intro _ tt eq_refl)), L1, B2, B1 in L3. specialize (L3 eq_refl). rewrite <- !app_assoc in L3.
  exists (concat (request_pieces r)), (flat_map (op_wire (has_body m)) ops ++ terminator (has_body m)), (fields_of (rq_headers r)).
  split; [exact L3|]. split.
  { replace (match u_path u with [] => bs "/" | b :: p => b :: p end) with (rq_uri r) by (cbn [r rq_uri]; now destruct (u_path u)).
    apply (C79_request unit r). split; [split; reflexivity|]. cbn [r rq_uri rq_headers]. split; [now destruct (u_path u)|]. split; [|exact K1].
    destruct (u_path u); [|exact Hp]. constructor; [split; vm_compute; congruence|constructor]. }
  cbn [r rq_headers].
  assert (NB : is_body o = false -> written ops = []).
  { clear - H2'. revert o H2'. induction ops as [|[d|] ops IH]; intros [so|bo] H2; cbn [is_body]; auto; try discriminate; intros _; cbn [run_ops outgoing_write outgoing_flush sbind] in H2.
    cbn [written flat_map app]. apply (IH (ONoBody so)); auto. }
  destruct m; cbn [has_body] in *.
  2-4,7: split; [apply hf_none; auto|]; split; [now rewrite no_body_wire|auto].
  all: split; [apply hf_chunked; [auto|now rewrite N1|unfold final_coding, elements; now rewrite N1]|].
  all: destruct (body_http (written ops)) as (C1 & C2 & C3); exists (map chunk_for (filter nonempty (written ops))), (bs "0", [], []).
  all: split; [exact C1|]; split; [|exact C2].
  all: rewrite written_wire, <- C3; reflexivity.
Qed.
Print Assumptions C79_client.

(** What a server sends for a response made with [HttpResponse::new] and [add_header] calls, under the same conditions: a
    valid head, framed by its Content-Length if there is one, else by the end of the connection. *)
Theorem C79_server : forall B0 (body : B0) st l data,
  (forall c, st <> StUnknown c) -> http_headers l -> added (bs "Transfer-Encoding") l = None ->
  let r := respond_all l (response_new st body) in
  exists head fs, response_wire r data = head ++ data /\ valid_response head (to_code st) fs
    /\ match added (bs "Content-Length") l with
       | None => http_framing false fs Unsized
       | Some v => forall n, numeral 10 v n -> http_framing false fs (Length n)
       end.
Proof.
  intros B0 body st l data Hst Hl Ht r. exists (concat (response_pieces r)), (fields_of (rs_headers r)).
  assert (Er : r = mkResponse v11 st (inserts l headers_new) (BTilClose (bufr_new body))) by apply respond_all_response.
  assert (K0 : http_headers headers_new /\ lower_names headers_new /\ sorted headers_new) by (split; [|split]; constructor).
  destruct (inserts_http l _ Hl K0) as (K1 & K2 & K3). split; [|split].
  - unfold response_wire. rewrite response_pieces_wire. now rewrite <- !app_assoc.
  - replace (to_code st) with (to_code (rs_status r)) by now rewrite Er. apply C79_response. rewrite Er. cbn [rs_version rs_status rs_headers]. split; [split; reflexivity|auto].
  - rewrite Er. cbn [rs_headers]. pose proof (named_sorted (bs "transfer-encoding") _ K3 K2) as N1. pose proof (named_sorted (bs "content-length") _ K3 K2) as N2.
    change (hm_get (bs "transfer-encoding") (inserts l headers_new)) with (headers_get (bs "Transfer-Encoding") (inserts l headers_new)) in N1.
    change (hm_get (bs "content-length") (inserts l headers_new)) with (headers_get (bs "Content-Length") (inserts l headers_new)) in N2.
    rewrite inserts_get in N1, N2 by apply K0. rewrite Ht in N1. change (headers_get _ headers_new) with (@None bytes) in N1, N2.
    destruct (added (bs "Content-Length") l) as [v|]; [|apply hf_none; auto using names_token].
    intros n Hv. apply hf_length; auto using names_token; [now rewrite N2|]. unfold elements. rewrite N2. cbn [flat_map snd app].
    assert (Hw : word v). { apply numeral_bytes in Hv as [_ Hv]. eapply Forall_impl; [|exact Hv]. intros b Hb. repeat split; intros ->; vm_compute in Hb; destruct Hb; congruence. }
    rewrite (commas_blank v Hw). cbn [app map]. rewrite (trim_word v Hw). apply Forall_cons; [exact Hv|constructor].
Qed.
Print Assumptions C79_server.

(** A response with a status that the library has no name for is not valid: the blank behind the code is missing. The
    library sends one if a handler passes on an answer that it got elsewhere. *)
Theorem C79_every_status_refuted :
  ~ (forall st, (100 <= to_code st <= 599)%N -> valid_response (concat (response_pieces (response_new st tt))) (to_code st) []).
Proof.
  intros H. specialize (H (StUnknown 418) ltac:(cbn; lia)). apply (C79_response _ (response_new (StUnknown 418) tt)) in H as (_ & H & _). now apply (H 418%N).
Qed.
Print Assumptions C79_every_status_refuted.

(** Nor does the library see to it that names and values are valid: headers are sent as they are given. *)
Theorem C79_every_header_refuted :
  ~ (forall k v, is_utf8 k -> is_utf8 v ->
       let r := request_add_header k v (request_new Get (bs "/")) in
       valid_request (concat (request_pieces r)) (bs "GET") (bs "/") (fields_of (rq_headers r))).
Proof.
  intros H. specialize (H (bs "a b") (bs "c") ltac:(now apply utf8_bs_ascii) ltac:(now apply utf8_bs_ascii)). cbv zeta in H.
  apply (C79_request _ (request_add_header (bs "a b") (bs "c") (request_new Get (bs "/")))) in H as (_ & _ & _ & H).
  apply Forall_inv in H as [[_ H] _]. change (fst (bs "a b", bs "c")) with (bs "a b") in H. rewrite Forall_forall in H.
  assert (K : In x20 (bs "a b")) by (right; now left). apply H, tchar_vchar in K. destruct K as [K _]. change (bval x20) with 32%N in K. lia.
Qed.
Print Assumptions C79_every_header_refuted.

Definition C79_url : url := mkUrl (bs "http") (Some (bs "example.com")) None (bs "/a") None.
Definition C79_added : list (bytes * bytes) := [(bs "X-A", bs "b c")].
Definition C79_req : request unit := match builder_new C79_url Put with Ok r => r | _ => request_new Get [] end.
Example C79_case :
  honest script_writer snd /\ http_url_of C79_url = Ok (mkHttpUrl C79_url Http (bs "example.com")) /\ builder_new C79_url Put = Ok C79_req
  /\ Forall vchar (u_path C79_url) /\ Forall field_char (bs "example.com") /\ http_headers C79_added
  /\ added (bs "Transfer-Encoding") C79_added = None /\ added (bs "Content-Length") C79_added = None
  /\ match send Std 16 script_writer 99 (add_all C79_added C79_req) ([Accept 3; Accept 1], []) with
     | (Ok o, _) =>
         match run_ops Std 16 script_writer 99 [Write (bs "hello"); Write []; Flush; Write (bs " world, again")] o with
         | (Ok _, ob) => let (x, s) := finish_send Std 16 script_writer 99 ob in (x, snd s)
         | _ => (Panic, [])
         end
     | _ => (Panic, [])
     end = (Ok tt, bs "PUT /a HTTP/1.1" ++ CRLF ++ bs "accept: */*" ++ CRLF ++ bs "host: example.com" ++ CRLF
                   ++ bs "transfer-encoding: chunked" ++ CRLF ++ bs "user-agent: http_io" ++ CRLF ++ bs "x-a: b c" ++ CRLF ++ CRLF
                   ++ bs "5" ++ CRLF ++ bs "hello" ++ CRLF ++ bs "d" ++ CRLF ++ bs " world, again" ++ CRLF ++ bs "0" ++ CRLF ++ CRLF)
  (* and an answer *)
  /\ concat (response_pieces (respond_all [(bs "Content-Length", bs "5")] (response_new NotFound tt)))
     = bs "HTTP/1.1 404 Not Found" ++ CRLF ++ bs "content-length: 5" ++ CRLF ++ CRLF
  /\ concat (response_pieces (response_new (StUnknown 418) tt)) = bs "HTTP/1.1 418" ++ CRLF ++ CRLF.
Proof.
  split; [apply script_honest|]. split; [reflexivity|]. split; [reflexivity|]. split; [|split; [|split]].
  - repeat (apply Forall_cons; [split; vm_compute; congruence|]). constructor.
  - apply field_charb. reflexivity.
  - apply Forall_cons; [|constructor]. split; [|apply field_charb; reflexivity].
    assert (K : Forall token [bs "X-A"]) by tokens. now apply Forall_inv in K.
  - vm_compute. repeat split; reflexivity.
Qed.

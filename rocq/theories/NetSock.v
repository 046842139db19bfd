(** The two programs of Net.v on sockets that answer alike for a while. *)
From Verif Require Import Base Utf8 Case Num Io Parser Types Message Outgoing Client Server Transport Lemmas SimLemmas OutLemmas KeepLemmas NetLemmas Net.

Section Programs.
  Context {S1 S2 : Type} (R Q : S1 -> S2 -> Prop) (bld : build) (cap : nat)
    (rd1 : reader S1) (rd2 : reader S2) (wt1 : writer S1) (wt2 : writer S2)
    (HR : laxr Q (fun s => s) (fun s => s) R rd1 rd2)
    (HW : forall d, laxg Q (fun s => s) (fun s => s) R (fun s => s) (fun s => s) R (wr wt1 d) (wr wt2 d))
    (HF : laxg Q (fun s => s) (fun s => s) R (fun s => s) (fun s => s) R (fl wt1) (fl wt2)).
  Notation id1 := (fun s : S1 => s).
  Notation id2 := (fun s : S2 => s).
  Notation lx := (laxg Q id1 id2 R id1 id2 R).
  Notation lo := (laxg Q out_sock out_sock (ogR R) out_sock out_sock (ogR R)).

  Lemma outgoing_flush_lax fuel : lo (outgoing_flush bld wt1 fuel) (outgoing_flush bld wt2 fuel).
  Proof using HW HF.
    apply from_out; cbn [outgoing_flush]; [apply lg_ret; cbn; auto|].
    eapply lg_bind; [now apply bufw_flush_lax|]. intros r. apply lg_ret; cbn; auto.
  Qed.
  Lemma run_ops_lax fuel : forall ops, lo (run_ops bld cap wt1 fuel ops) (run_ops bld cap wt2 fuel ops).
  Proof using HW HF.
    induction ops as [|[d|] ops IH]; cbn [run_ops]; [apply lg_ret; auto| |].
    - apply lg_sbind; [now apply outgoing_write_lax|]. intros _. exact IH.
    - apply lg_sbind; [now apply outgoing_flush_lax|]. intros _. exact IH.
  Qed.
  Lemma outgoing_drop_lax fuel (e : error) : laxg Q out_sock out_sock (ogR R) id1 id2 R
    (fun o => (@Err unit e, outgoing_drop bld wt1 fuel o)) (fun o => (Err e, outgoing_drop bld wt2 fuel o)).
  Proof using HW.
    apply from_out; cbn [outgoing_drop]; [apply lg_ret; cbn; auto|].
    destruct (bufw_drop_lax R Q bld wt1 wt2 HW fuel) as [Hb Hl Hr]. split; cbn [fst snd] in *; auto.
    intros a b H. destruct (Hb a b H) as [[_ Hx]|Hx]; auto.
  Qed.
  Lemma client_send_lax fuel r ops : lx (client_send bld cap wt1 fuel r ops) (client_send bld cap wt2 fuel r ops).
  Proof using HW HF.
    set (K2 := fun S (wt : writer S) (x : res unit) (ob : outgoing S) =>
      match x with
      | Ok _ => finish_send bld cap wt fuel ob
      | Err e => (Err e, outgoing_drop bld wt fuel ob)
      | Panic => (Panic, out_sock ob) | Fuel => (Fuel, out_sock ob)
      end).
    set (K := fun S (wt : writer S) (x : res unit) (o : outgoing S) =>
      match x with
      | Ok _ => let (x, ob) := run_ops bld cap wt fuel ops o in K2 S wt x ob
      | Err e => (Err e, out_sock o) | Panic => (Panic, out_sock o) | Fuel => (Fuel, out_sock o)
      end).
    assert (Hos : forall x : res unit, laxg Q out_sock out_sock (ogR R) id1 id2 R (fun o => (x, out_sock o)) (fun o => (x, out_sock o))).
    { intros x. apply lg_ret; auto. intros [a|a] [b|b] H; cbn in *; try contradiction; auto. apply H. }
    assert (HK2 : forall x, laxg Q out_sock out_sock (ogR R) id1 id2 R (K2 S1 wt1 x) (K2 S2 wt2 x)).
    { intros [u|e| |]; unfold K2; [now apply finish_send_lax|apply outgoing_drop_lax|apply Hos|apply Hos]. }
    assert (HK : forall x, laxg Q out_sock out_sock (ogR R) id1 id2 R (K S1 wt1 x) (K S2 wt2 x)).
    { intros [u|e| |]; unfold K; try apply Hos. eapply lg_bind; [apply run_ops_lax|apply HK2]. }
    pose proof (lg_bind Q _ _ _ _ _ _ _ _ _ _ _ _ _ (send_lax R Q bld cap wt1 wt2 HW fuel r) HK) as [Hb Hl Hr].
    assert (HE : forall S (wt : writer S) s, client_send bld cap wt fuel r ops s = (let (x, o) := send' bld cap wt fuel r s in K S wt x o)).
    { intros S wt s. unfold client_send, send', K, K2. destruct (send bld cap wt fuel r s) as [[o|e| |] s1]; reflexivity. }
    split; intros; rewrite ?HE; auto.
  Qed.

  Lemma body_new_sim {A1 A2} (RT : A1 -> A2 -> Prop) te cl a b : RT a b -> hb_sim RT (body_new te cl a) (body_new te cl b).
  Proof. intros H. unfold body_new. destruct (match te with Some x => beqb x (bs "chunked") | None => false end), cl; cbn; auto. Qed.
  Lemma body_new_reader {T} te cl (t : T) : body_reader (body_new te cl t) = t.
  Proof. unfold body_new. destruct (match te with Some x => beqb x (bs "chunked") | None => false end), cl; reflexivity. Qed.

  Notation h1 := (fun b : hbody (bufr S1) => br_inner (body_reader b)).
  Notation h2 := (fun b : hbody (bufr S2) => br_inner (body_reader b)).
  Lemma from_body {A T1 T2} (p1 : T1 -> S1) (p2 : T2 -> S2) (RT : T1 -> T2 -> Prop) (rdt1 : reader T1) (rdt2 : reader T2) te cl bfuel fuel (p : prog A) :
    laxr Q p1 p2 RT rdt1 rdt2 ->
    laxg Q p1 p2 RT (fun b => p1 (body_reader b)) (fun b => p2 (body_reader b)) (hb_sim RT)
      (fun t => run_prog bld rdt1 bfuel fuel p (body_new te cl t)) (fun t => run_prog bld rdt2 bfuel fuel p (body_new te cl t)).
  Proof.
    intros H.
    eapply (lg_pre Q p1 p2 RT (fun b => p1 (body_reader b)) (fun b => p2 (body_reader b)) (hb_sim RT) _ _ _ (body_new te cl) (body_new te cl)).
    - apply body_new_sim.
    - intros a. now rewrite body_new_reader.
    - intros a. now rewrite body_new_reader.
    - now apply run_prog_lax.
  Qed.
  Lemma body_sim_inner a b : hb_sim (brR R) a b -> R (h1 a) (h2 b).
  Proof.
    destruct a as [l [x|k x|x]|l x|x], b as [m [y|j y|y]|m y|y]; cbn; try contradiction; unfold brR; tauto.
  Qed.

  Lemma client_recv_lax {A} fuel (p : status -> headers -> prog A) : lx (client_recv bld cap rd1 fuel p) (client_recv bld cap rd2 fuel p).
  Proof using HR.
    set (K2 := fun S (h : resp_head) (x : res A) (b : hbody (bufr S)) =>
      (do a <- x; Ok (sh_status h, sh_headers h, a), br_inner (body_reader b))).
    set (K := fun S (rd : reader S) (x : res resp_head) (s : S) =>
      match x with
      | Ok h => let (x, b) := run_prog bld (bufr_read bld cap rd) fuel fuel (p (sh_status h) (sh_headers h)) (body_new (sh_encoding h) (sh_length h) (bufr_new s)) in K2 S h x b
      | Err e => (Err e, s) | Panic => (Panic, s) | Fuel => (Fuel, s)
      end).
    assert (HK2 : forall h x, laxg Q h1 h2 (hb_sim (brR R)) id1 id2 R (K2 S1 h x) (K2 S2 h x)).
    { intros h x. apply lg_ret; auto. apply body_sim_inner. }
    assert (HK : forall x, lx (K S1 rd1 x) (K S2 rd2 x)).
    { intros [h|e| |]; unfold K; try (apply lg_ret; auto).
      eapply lg_bind; [|apply (HK2 h)].
      pose proof (from_body br_inner br_inner (brR R) _ _ (sh_encoding h) (sh_length h) fuel fuel (p (sh_status h) (sh_headers h)) (bufr_lax R Q bld cap rd1 rd2 HR)) as Hx.
      apply (lg_pre Q id1 id2 R br_inner br_inner (brR R) _ _ _ (@bufr_new S1) (@bufr_new S2)) in Hx; auto. intros a b H. now split. }
    pose proof (lg_bind Q _ _ _ _ _ _ _ _ _ _ _ _ _
      (response_head_lax Q id1 id2 R _ _ (crlf_next_lax Q bld id1 id2 R rd1 rd2 HR fuel) fuel) HK) as [Hb Hl Hr].
    assert (HE : forall S (rd : reader S) s, client_recv bld cap rd fuel p s = (let (x, s1) := response_head (crlf_next bld rd fuel) fuel s in K S rd x s1)).
    { intros S rd s. unfold client_recv, response_deserialize.
      destruct (response_head (crlf_next bld rd fuel) fuel s) as [[h|e| |] s1]; cbn [sbind]; auto. }
    split; intros; rewrite ?HE; auto.
  Qed.
  Lemma client_run_lax {A} fuel r ops (p : status -> headers -> prog A) : lx (client_run bld cap rd1 wt1 fuel r ops p) (client_run bld cap rd2 wt2 fuel r ops p).
  Proof using HR HW HF.
    unfold client_run. apply lg_sbind; [apply client_send_lax|]. intros _. apply client_recv_lax.
  Qed.

  (** *** The server *)
  Context {H : Type} (etext : error -> bytes) (hd : handler H).
  (** [serve_one_inner] with its results gathered. *)
  Definition inner {S} (rd : reader S) fuel (hs : H) (s : S) : res (hresult * list call * H) * S :=
    let '(x, cs, hs', s') := serve_one_inner bld cap rd (fun e _ => etext e) hd fuel hs s in (Ok (x, cs, hs'), s').

  Lemma inner_lax fuel hs : lx (inner rd1 fuel hs) (inner rd2 fuel hs).
  Proof using HR.
    set (K2 := fun S (m : method) (u : bytes) (x : res (hresult * H)) (b : hbody (bufr S)) =>
      (match x with
       | Ok (r, hs') => Ok (r, [Called m u], hs')
       | Err e => Ok (Err e, [Called m u], hs) | Panic => Ok (Panic, [Called m u], hs) | Fuel => Ok (Fuel, [Called m u], hs)
       end, br_inner (body_reader b))).
    set (bc := fun S (rd : reader S) m h (f : prog (hresult * H)) (t : bufr S) =>
      match require_length (body_new (qh_encoding h) (qh_length h) t) with
      | Ok _ => let (x, b) := run_prog bld (bufr_read bld cap rd) fuel fuel f (body_new (qh_encoding h) (qh_length h) t) in K2 S m (qh_uri h) x b
      | Err e => (Ok (Ok (inr (error_response (fun e (_ : unit) => etext e) e tt)), [], hs), br_inner t)
      | Panic => (Ok (Panic, [], hs), br_inner t)
      | Fuel => (Ok (Fuel, [], hs), br_inner t)
      end).
    set (pc := fun S m u (x : hresult * H) (t : bufr S) => (Ok (fst x, [Called m u], snd x) : res (hresult * list call * H), br_inner t)).
    set (K := fun S (rd : reader S) (x : res req_head) (t : bufr S) =>
      match x with
      | Ok h =>
          let u := qh_uri h in
          match qh_method h with
          | Delete => pc S Delete u (h_delete hd u hs) t
          | Get => pc S Get u (h_get hd u hs) t
          | Head => pc S Head u (h_head hd u hs) t
          | Options => pc S Options u (h_options hd u hs) t
          | Trace => pc S Trace u (h_trace hd u hs) t
          | Post => bc S rd Post h (h_post hd u hs) t
          | Put => bc S rd Put h (h_put hd u hs) t
          end
      | Err e => (Ok (Ok (inr (error_response (fun e (_ : unit) => etext e) e tt)), [], hs), br_inner t)
      | Panic => (Ok (Panic, [], hs), br_inner t)
      | Fuel => (Ok (Fuel, [], hs), br_inner t)
      end).
    assert (Hret : forall x : res (hresult * list call * H), laxg Q br_inner br_inner (brR R) id1 id2 R (fun t => (x, br_inner t)) (fun t => (x, br_inner t))).
    { intros x. apply lg_ret; auto. intros a b Hx. apply Hx. }
    assert (Hbc : forall m h f, laxg Q br_inner br_inner (brR R) id1 id2 R (bc S1 rd1 m h f) (bc S2 rd2 m h f)).
    { intros m h f. unfold bc.
      assert (E : forall T (t : T), require_length (body_new (qh_encoding h) (qh_length h) t) = require_length (body_new (qh_encoding h) (qh_length h) tt)).
      { intros T t. unfold body_new. destruct (match qh_encoding h with Some x => beqb x (bs "chunked") | None => false end), (qh_length h); reflexivity. }
      assert (G : forall S (rd : reader S) t, bc S rd m h f t = match require_length (body_new (qh_encoding h) (qh_length h) tt) with
        | Ok _ => let (x, b) := run_prog bld (bufr_read bld cap rd) fuel fuel f (body_new (qh_encoding h) (qh_length h) t) in K2 S m (qh_uri h) x b
        | Err e => (Ok (Ok (inr (error_response (fun e (_ : unit) => etext e) e tt)), [], hs), br_inner t)
        | Panic => (Ok (Panic, [], hs), br_inner t)
        | Fuel => (Ok (Fuel, [], hs), br_inner t)
        end) by (intros; unfold bc; now rewrite E).
      assert (Z : laxg Q br_inner br_inner (brR R) id1 id2 R
        (fun t => match require_length (body_new (qh_encoding h) (qh_length h) tt) with
        | Ok _ => let (x, b) := run_prog bld (bufr_read bld cap rd1) fuel fuel f (body_new (qh_encoding h) (qh_length h) t) in K2 S1 m (qh_uri h) x b
        | Err e => (Ok (Ok (inr (error_response (fun e (_ : unit) => etext e) e tt)), [], hs), br_inner t)
        | Panic => (Ok (Panic, [], hs), br_inner t)
        | Fuel => (Ok (Fuel, [], hs), br_inner t)
        end)
        (fun t => match require_length (body_new (qh_encoding h) (qh_length h) tt) with
        | Ok _ => let (x, b) := run_prog bld (bufr_read bld cap rd2) fuel fuel f (body_new (qh_encoding h) (qh_length h) t) in K2 S2 m (qh_uri h) x b
        | Err e => (Ok (Ok (inr (error_response (fun e (_ : unit) => etext e) e tt)), [], hs), br_inner t)
        | Panic => (Ok (Panic, [], hs), br_inner t)
        | Fuel => (Ok (Fuel, [], hs), br_inner t)
        end)).
      { destruct (require_length _); try apply Hret.
        eapply lg_bind; [apply (from_body br_inner br_inner (brR R)); now apply bufr_lax|].
        intros x. apply lg_ret; auto. apply body_sim_inner. }
      destruct Z as [Zb Zl Zr]. fold (bc S1 rd1 m h f) (bc S2 rd2 m h f). split; intros; rewrite ?G; auto. }
    assert (HK : forall x, laxg Q br_inner br_inner (brR R) id1 id2 R (K S1 rd1 x) (K S2 rd2 x)).
    { intros [h|e| |]; unfold K; try apply Hret. destruct (qh_method h); try apply Hret; apply Hbc. }
    pose proof (lg_bind Q _ _ _ _ _ _ _ _ _ _ _ _ _
      (request_head_lax Q br_inner br_inner (brR R) _ _ (crlf_next_lax Q bld br_inner br_inner (brR R) _ _ (bufr_lax R Q bld cap rd1 rd2 HR) fuel) fuel) HK) as Hx.
    apply (lg_pre Q id1 id2 R br_inner br_inner (brR R) _ _ _ (@bufr_new S1) (@bufr_new S2)) in Hx; auto; [|intros a b Hab; now split].
    destruct Hx as [Xb Xl Xr].
    assert (HE : forall S (rd : reader S) s, inner rd fuel hs s =
      (let (x, t) := request_head (crlf_next bld (bufr_read bld cap rd) fuel) fuel (bufr_new s) in K S rd x t)).
    { intros S rd s. unfold inner, serve_one_inner, request_deserialize.
      destruct (request_head (crlf_next bld (bufr_read bld cap rd) fuel) fuel (bufr_new s)) as [[h|e| |] t]; cbn [sbind]; auto.
      - cbn [rq_method rq_uri rq_body]. unfold K. destruct (qh_method h); try reflexivity; unfold body_call, bc;
          rewrite body_new_reader; destruct (require_length _) as [u|e| |]; try reflexivity;
          try (unfold error_response; destruct e; reflexivity);
          destruct (run_prog _ _ _ _ _ _) as [[[r hs']|e| |] b]; reflexivity. }
    split; intros; rewrite ?HE; auto.
  Qed.

  Lemma respond_lax bufsz fuel r : lx (respond bld cap wt1 bufsz fuel r) (respond bld cap wt2 bufsz fuel r).
  Proof using HW.
    set (K2 := fun S (x : res N) (s : S) =>
      match x with Ok _ => (Ok tt, s) | Err e => (Err e, s) | Panic => (Panic, s) | Fuel => (Fuel, s) end).
    set (K := fun S (wt : writer S) (x : res unit) (s : S) =>
      match x with
      | Ok _ => let (x, s2) := copied (copy_with bld (body_read bld (bufr_read bld cap dyn_read) fuel) (write_all bld wt fuel) bufsz fuel 0%N (rs_body r) s) in K2 S x s2
      | Err e => (Err (to_io bld e), s) | Panic => (Panic, s) | Fuel => (Fuel, s)
      end).
    assert (HK2 : forall x, lx (K2 S1 x) (K2 S2 x)) by (intros [n|e| |]; apply lg_ret; auto).
    assert (HK : forall x, lx (K S1 wt1 x) (K S2 wt2 x)).
    { intros [u|e| |]; unfold K; try (apply lg_ret; auto).
      eapply lg_bind; [|apply HK2]. apply (copy_with_lax Q id1 id2 R). intros d. now apply write_all_lax. }
    pose proof (lg_bind Q _ _ _ _ _ _ _ _ _ _ _ _ _ (write_pieces_lax R Q bld wt1 wt2 HW fuel (response_pieces r)) HK) as [Hb Hl Hr].
    assert (HE : forall S (wt : writer S) s, respond bld cap wt bufsz fuel r s = (let (x, s1) := write_pieces bld wt fuel (response_pieces r) s in K S wt x s1)).
    { intros S wt s. unfold respond, copy. destruct (write_pieces bld wt fuel (response_pieces r) s) as [[u|e| |] s1]; auto.
      unfold K, copied. destruct (copy_with _ _ _ _ _ _ _ _) as [[n|e| |] [x s2]]; reflexivity. }
    split; intros; rewrite ?HE; auto.
  Qed.

  Definition answered {S} (wt : writer S) bufsz fuel (o : hresult * list call * H) (s : S) : res (res unit * list call * H) * S :=
    let '(x, cs, hs') := o in
    match x with
    | Ok (inl r) | Ok (inr r) => let (y, s') := respond bld cap wt bufsz fuel r s in (Ok (y, cs, hs'), s')
    | Err e => (Ok (Err e, cs, hs'), s) | Panic => (Ok (Panic, cs, hs'), s) | Fuel => (Ok (Fuel, cs, hs'), s)
    end.
  Lemma answered_lax bufsz fuel o : lx (answered wt1 bufsz fuel o) (answered wt2 bufsz fuel o).
  Proof using HW.
    destruct o as [[[[r|r]|e| |] cs] hs']; cbn [answered]; try (apply lg_ret; auto);
      (eapply lg_bind; [apply respond_lax|]; intros y; apply lg_ret; auto).
  Qed.
  Lemma server_run_phases {S} (rd : reader S) (wt : writer S) bufsz fuel hs s :
    server_run bld cap rd wt etext hd bufsz fuel hs s = sbind (inner rd fuel hs s) (answered wt bufsz fuel).
  Proof.
    unfold server_run, serve_stream, inner. destruct (serve_one_inner _ _ _ _ _ _ _ _) as [[[[[r|r]|e| |] cs] hs'] s1]; cbn [sbind answered]; auto;
      destruct (respond _ _ _ _ _ _ _) as [y s2]; reflexivity.
  Qed.
  Lemma server_run_lax bufsz fuel hs : lx (server_run bld cap rd1 wt1 etext hd bufsz fuel hs) (server_run bld cap rd2 wt2 etext hd bufsz fuel hs).
  Proof using HR HW.
    pose proof (lg_sbind Q id1 id2 R id1 id2 R _ _ _ _ (inner_lax fuel hs) (answered_lax bufsz fuel)) as [Hb Hl Hr].
    split; intros; rewrite ?server_run_phases; auto.
  Qed.
End Programs.

(** Answers that borrow the handler: C87. *)
From Verif Require Import Base Utf8 Case Num Io Parser Types Message Outgoing Server Lent Transport Lemmas ReadLemmas ChunkSpec ChunkLemmas BodyLemmas WriteLemmas
  HeadLemmas BlockLemmas MsgLemmas SimLemmas KeepLemmas PBody PIo PParse PHead POut PServer.

(** ** Handlers that do not lend are served as before *)
Lemma copy_sim {S1 S2 W} bld (Q : S1 -> S2 -> Prop) rd1 rd2 (wall : bytes -> W -> res unit * W) bufsz : sim Q rd1 rd2 ->
  forall fuel n s1 s2 w, Q s1 s2 ->
  exists r t1 t2 w', copy_with bld rd1 wall bufsz fuel n s1 w = (r, (t1, w')) /\ copy_with bld rd2 wall bufsz fuel n s2 w = (r, (t2, w')) /\ Q t1 t2.
Proof.
  intros HQ. induction fuel as [|f IH]; intros n s1 s2 w H; cbn [copy_with]; [eauto 8|].
  destruct (outs_cases _ _ _ (HQ bufsz s1 s2 H)) as (r & t1 & t2 & -> & -> & Ht). destruct r as [[|x g]|e| |]; eauto 8.
  - destruct (wall (x :: g) w) as [[u|e| |] w']; eauto 8.
  - destruct (is_retry bld e); eauto 8.
Qed.
Lemma bufr_sim {S1 S2} bld cap (Q : S1 -> S2 -> Prop) rd1 rd2 : sim Q rd1 rd2 ->
  sim (fun a b => br_buf a = br_buf b /\ Q (br_inner a) (br_inner b)) (bufr_read bld cap rd1) (bufr_read bld cap rd2).
Proof.
  intros HQ n [s1 b1] [s2 b2] [Hb Hs]. cbn [br_buf br_inner] in *. subst b2. unfold bufr_read. cbn [br_buf br_inner].
  destruct bld.
  - destruct b1 as [|c b1]; [|now repeat split]. destruct (cap <=? n).
    + destruct (outs_cases _ _ _ (HQ n s1 s2 Hs)) as (r & t1 & t2 & -> & -> & Ht). now repeat split.
    + destruct (outs_cases _ _ _ (HQ cap s1 s2 Hs)) as (r & t1 & t2 & -> & -> & Ht). destruct r; now repeat split.
  - destruct (outs_cases _ _ _ (HQ n s1 s2 Hs)) as (r & t1 & t2 & -> & -> & Ht). now repeat split.
Qed.
Lemma own_read {H} (h : H) : sim (fun d p => p = (own d, h)) dyn_read lent_read.
Proof.
  intros n d p ->. unfold lent_read. cbn [fst snd own]. destruct (dyn_read n d) as [r d'] eqn:E. unfold own. cbn. split; reflexivity.
Qed.
Lemma own_borrow {H} (h : H) (b : hbody (bufr dynread)) :
  hb_sim (fun a c => br_buf a = br_buf c /\ br_inner c = (own (br_inner a), h)) b
    (borrow h (hbody_map (fun t => mkBufr (@own H (br_inner t)) (br_buf t)) b)).
Proof. destruct b as [l [t|n t|t]|n t|t]; cbn; auto. Qed.
Lemma hb_given {H} (h : H) b b' :
  hb_sim (fun a c => br_buf a = br_buf c /\ br_inner c = (@own H (br_inner a), h)) b b' -> given_back b' = h.
Proof. intros K. apply hb_sim_reader in K as [_ K]. unfold given_back. now rewrite K. Qed.

Lemma respond_same {S} bld cap (wt : writer S) bufsz fuel (r : dyn_response) s :
  respond bld cap wt bufsz fuel r s = let '(x, _, s') := respond_with bld cap wt dyn_read bufsz fuel r (rs_body r) s in (x, s').
Proof.
  unfold respond, respond_with. destruct (write_pieces bld wt fuel (response_pieces r) s) as [[u|e| |] s1]; auto.
  destruct (copy _ _ _ _ _ _ _) as [[n|e| |] [b' s2]]; reflexivity.
Qed.
Lemma respond_owned {S H} bld cap (wt : writer S) bufsz fuel (r : dyn_response) (h : H) s r' : own_result (Ok (inl r)) = Ok (inl r') ->
  exists b', respond_with bld cap wt lent_read bufsz fuel r' (borrow h (rs_body r')) s
    = (fst (respond bld cap wt bufsz fuel r s), b', snd (respond bld cap wt bufsz fuel r s)) /\ given_back b' = h.
Proof.
  intros E. cbn [own_result] in E. injection E as <-. unfold respond, respond_with. cbn [rs_body].
  change (response_pieces (mkResponse (rs_version r) (rs_status r) (rs_headers r) _)) with (response_pieces r).
  destruct (write_pieces bld wt fuel (response_pieces r) s) as [[u|e| |] s1]; try (eexists; split; [reflexivity|]; apply (hb_given h (rs_body r)), own_borrow).
  destruct (copy_sim bld _ _ _ (write_all bld wt fuel) bufsz (body_sim bld _ _ _ (bufr_sim bld cap _ _ _ (own_read h)) fuel) fuel 0%N _ _ s1 (own_borrow h (rs_body r)))
    as (x & b1 & b2 & s2 & E1 & E2 & K). unfold copy. rewrite E1, E2. apply hb_given in K. destruct x; eexists; split; auto; exact K.
Qed.

Lemma own_prog_eq {H} (p : prog (hresult * H)) : own_prog p =
  match p with
  | Ret (x, h) => Ret (own_result x, h)
  | ReadBody n k => ReadBody n (fun o => own_prog (k o))
  | BodyLength k => BodyLength (fun o => own_prog (k o))
  end.
Proof.
  transitivity (match own_prog p with Ret a => Ret a | ReadBody n k => ReadBody n k | BodyLength k => BodyLength k end).
  { now destruct (own_prog p). }
  destruct p as [[x h]|n k|k]; reflexivity.
Qed.
Lemma own_run {T H} bld (rdt : reader T) bfuel : forall fuel (p : prog (hresult * H)) b,
  run_prog bld rdt bfuel fuel (own_prog p) b =
  (match fst (run_prog bld rdt bfuel fuel p b) with Ok (x, h) => Ok (own_result x, h) | Err e => Err e | Panic => Panic | Fuel => Fuel end,
   snd (run_prog bld rdt bfuel fuel p b)).
Proof.
  induction fuel as [|f IH]; intros p b; [reflexivity|]. rewrite own_prog_eq. destruct p as [[x h]|n k|k]; cbn [run_prog]; auto.
  destruct (body_read bld rdt bfuel n b) as [[d|e| |] b']; auto.
Qed.

Lemma own_inner {S H} bld cap (rd : reader S) etext (h : handler H) fuel hs s :
  lent_inner bld cap rd etext (owner h) fuel hs s =
  let '(x, _, hs1, s1) := serve_one_inner bld cap rd etext h fuel hs s in (own_result x, hs1, s1).
Proof.
  unfold lent_inner, serve_one_inner, body_call, plain_call.
  destruct (request_deserialize bld (bufr_read bld cap rd) fuel (bufr_new s)) as [[rq|e| |] t]; try reflexivity.
  destruct (rq_method rq); try reflexivity.
  - change (l_post (owner h) (rq_uri rq) hs) with (own_prog (h_post h (rq_uri rq) hs)). destruct (require_length (rq_body rq)); try reflexivity.
    pose proof (own_run bld (bufr_read bld cap rd) fuel fuel (h_post h (rq_uri rq) hs) (rq_body rq)) as E. unfold lent_result, hresult in *. rewrite E. clear E.
    match goal with |- context [fst ?X] => destruct X as [[[x h1]|e| |] b'] end; reflexivity.
  - change (l_put (owner h) (rq_uri rq) hs) with (own_prog (h_put h (rq_uri rq) hs)). destruct (require_length (rq_body rq)); try reflexivity.
    pose proof (own_run bld (bufr_read bld cap rd) fuel fuel (h_put h (rq_uri rq) hs) (rq_body rq)) as E. unfold lent_result, hresult in *. rewrite E. clear E.
    match goal with |- context [fst ?X] => destruct X as [[[x h1]|e| |] b'] end; reflexivity.
Qed.

(** A handler whose answers own their bodies is served in the same way in both models. *)
Theorem C87_owned : forall S H bld cap (rd : reader S) (wt : writer S) etext (h : handler H) bufsz fuel hs s,
  lent_stream bld cap rd wt etext (owner h) bufsz fuel hs s =
  let '(x, _, hs', s') := serve_stream bld cap rd wt etext h bufsz fuel hs s in (x, hs', s').
Proof.
  intros S H bld cap rd wt etext h bufsz fuel hs s. unfold lent_stream, serve_stream. rewrite own_inner.
  destruct (serve_one_inner bld cap rd etext h fuel hs s) as [[[x cs] hs1] s1]. destruct x as [[r|r]|e| |]; try reflexivity.
  - destruct (@own_result H (Ok (inl r))) as [[r'|r']|e| |] eqn:E; try discriminate E.
    destruct (respond_owned bld cap wt bufsz fuel r hs1 s1 r' E) as (b' & -> & ->). now destruct (respond bld cap wt bufsz fuel r s1).
  - cbn [own_result]. rewrite respond_same. now destruct (respond_with _ _ _ _ _ _ _ _ _) as [[x b'] s2].
Qed.
Print Assumptions C87_owned.

(** ** How far a lent body is read *)
(** Reads of [n] bytes each, starting at [t], that give [data] in all and leave [t']; interrupted ones are repeated. *)
Inductive pulled {T} (bld : build) (rd : reader T) (n : nat) : T -> bytes -> T -> Prop :=
| pulled_none t : pulled bld rd n t [] t
| pulled_some t got t1 data t2 : rd n t = (Ok got, t1) -> got <> [] -> pulled bld rd n t1 data t2 -> pulled bld rd n t (got ++ data) t2
| pulled_again t e t1 data t2 : rd n t = (Err e, t1) -> is_retry bld e = true -> pulled bld rd n t1 data t2 -> pulled bld rd n t data t2.

(** After [data] the body came to its end, or failed, or gave [got], of which the client's socket took no more than [took] before it failed. *)
Inductive stopped {T} (bld : build) (rd : reader T) (n : nat) (t t' : T) : res unit -> bytes -> Prop :=
| stop_end : rd n t = (Ok [], t') -> stopped bld rd n t t' (Ok tt) []
| stop_fail e : rd n t = (Err e, t') -> is_retry bld e = false -> stopped bld rd n t t' (Err e) []
| stop_sock e got took : rd n t = (Ok got, t') -> got <> [] -> prefix took got -> stopped bld rd n t t' (Err e) took.

Lemma copy_pulled {T W} bld (rd : reader T) (wt : writer W) log bufsz wfuel : honest wt log ->
  forall fuel n t w r t' w', copy_with bld rd (write_all bld wt wfuel) bufsz fuel n t w = (r, (t', w')) ->
  (exists k, r = Ok k) \/ (exists e, r = Err e) ->
  exists data t1 took, pulled bld rd bufsz t data t1 /\ stopped bld rd bufsz t1 t' (do _ <- r; Ok tt) took /\ log w' = log w ++ data ++ took.
Proof.
  intros Hh. induction fuel as [|f IH]; intros n t w r t' w' H Hr; cbn [copy_with] in H.
  { injection H as <- _ _. destruct Hr as [[k K]|[k K]]; discriminate K. }
  destruct (rd bufsz t) as [[[|c got]|e| |] t1] eqn:E.
  - injection H as <- <- <-. exists [], t, []. split; [constructor|]. split; [now constructor|]. now rewrite app_nil_r.
  - destruct (write_all bld wt wfuel (c :: got) w) as [[u|e| |] w1] eqn:Ew; apply (write_all_log wt log Hh) in Ew as [(p & Hp & Hl) Hok].
    + destruct (IH _ _ _ _ _ _ H Hr) as (data & t2 & took & H1 & H2 & H3). exists ((c :: got) ++ data), t2, took.
      split; [now apply pulled_some with t1|]. split; [exact H2|]. rewrite H3, (Hok (ex_intro _ u eq_refl)). now rewrite <- !app_assoc.
    + injection H as <- <- <-. exists [], t, p. split; [constructor|]. split; [now apply stop_sock with (c :: got)|exact Hl].
    + injection H as <- _ _. destruct Hr as [[k K]|[k K]]; discriminate K.
    + injection H as <- _ _. destruct Hr as [[k K]|[k K]]; discriminate K.
  - destruct (is_retry bld e) eqn:Er.
    + destruct (IH _ _ _ _ _ _ H Hr) as (data & t2 & took & H1 & H2 & H3). exists data, t2, took. split; [now apply pulled_again with e t1|auto].
    + injection H as <- <- <-. exists [], t, []. split; [constructor|]. split; [now constructor|]. now rewrite app_nil_r.
  - injection H as <- _ _. destruct Hr as [[k K]|[k K]]; discriminate K.
  - injection H as <- _ _. destruct Hr as [[k K]|[k K]]; discriminate K.
Qed.

(** What the server does with an answer [r] whose body borrows the handler, when it returns: either not all of the head was sent, and then
    the handler is as the method left it; or the body was read, [bufsz] bytes at a time, up to its end, its first failure or the
    first failure to write, and the handler is what these reads made of it. The client has the head and everything that was
    read, except that of the last read before a failure to write it may have a part. *)
Theorem C87_lent : forall S H bld cap (rd : reader S) (wt : writer S) log etext (l : lender H) bufsz fuel hs s r hs1 s1 x hs' s',
  honest wt log ->
  lent_inner bld cap rd etext l fuel hs s = (Ok (inl r), hs1, s1) ->
  lent_stream bld cap rd wt etext l bufsz fuel hs s = (x, hs', s') ->
  x = Ok tt \/ (exists e, x = Err e) ->
  let rdb := body_read bld (bufr_read bld cap lent_read) fuel in
  let head := concat (response_pieces r) in
  (exists p e, x = Err e /\ prefix p head /\ log s' = log s1 ++ p /\ hs' = hs1)
  \/ (exists data b1 b2 took, pulled bld rdb bufsz (borrow hs1 (rs_body r)) data b1 /\ stopped bld rdb bufsz b1 b2 x took
      /\ log s' = log s1 ++ head ++ data ++ took /\ hs' = given_back b2).
Proof.
  intros S H bld cap rd wt log etext l bufsz fuel hs s r hs1 s1 x hs' s' Hh Hi Hs Hx rdb head.
  unfold lent_stream in Hs. rewrite Hi in Hs. unfold respond_with in Hs.
  destruct (write_pieces bld wt fuel (response_pieces r) s1) as [w s2] eqn:Ew. apply (write_pieces_log wt log Hh) in Ew as [(p & Hp & Hl) Hok].
  destruct w as [u|e| |].
  - specialize (Hok (ex_intro _ u eq_refl)). right. unfold copy in Hs. fold rdb in Hs.
    destruct (copy_with bld rdb (write_all bld wt fuel) bufsz fuel 0 (borrow hs1 (rs_body r)) s2) as [y [b2 s3]] eqn:Ec.
    assert (Ey : x = (do _ <- y; Ok tt) /\ hs' = given_back b2 /\ s' = s3) by (destruct y; injection Hs as <- <- <-; auto). destruct Ey as (Ey & Eh & Es).
    apply (copy_pulled bld rdb wt log bufsz fuel Hh) in Ec as (data & b1 & took & H1 & H2 & H3).
    + exists data, b1, b2, took. rewrite <- Ey in H2. split; [exact H1|]. split; [exact H2|]. split; [|exact Eh]. rewrite Es, H3, Hok. unfold head. now rewrite <- !app_assoc.
    + rewrite Ey in Hx. destruct y as [k|e| |]; eauto; destruct Hx as [Hx|[e Hx]]; discriminate Hx.
  - injection Hs as <- <- <-. left. exists p, (to_io bld e). split; auto. split; auto. split; auto.
    unfold borrow, given_back. destruct (rs_body r) as [k [t|m t|t]|m t|t]; reflexivity.
  - injection Hs as <- <- <-. destruct Hx as [Hx|[e Hx]]; discriminate Hx.
  - injection Hs as <- <- <-. destruct Hx as [Hx|[e Hx]]; discriminate Hx.
Qed.
Print Assumptions C87_lent.

(** ** A queue *)
(** Each read of the answer to a GET takes bytes out of the queue that the handler holds; other methods are refused. *)
CoFixpoint queue_body : lent bytes := LR (fun n q => (Ok (firstn n q), queue_body, skipn n q)).
Definition queue : lender bytes :=
  let refuse (q : bytes) : lent_result bytes * bytes := (Ok (inr (from_string MethodNotAllowed (bs "GET only"))), q) in
  mkLender (fun _ => refuse) (fun _ q => (Ok (inl (response_new OK queue_body)), q)) (fun _ => refuse) (fun _ => refuse) (fun _ => refuse)
    (fun _ q => Ret (refuse q)) (fun _ q => Ret (refuse q)).

Lemma queue_inner {S} bld cap (rd : reader S) etext log fuel q s : silent rd log ->
  snd (fst (lent_inner bld cap rd etext queue fuel q s)) = q /\ log (snd (lent_inner bld cap rd etext queue fuel q s)) = log s
  /\ forall r, fst (fst (lent_inner bld cap rd etext queue fuel q s)) = Ok (inl r) -> r = response_new OK queue_body.
Proof.
  intros Hs. unfold lent_inner. destruct (request_keep bld cap rd (fun s' => log s' = log s) (fun n s' Hx => eq_trans (Hs n s') Hx) fuel s eq_refl) as [H1 H2].
  destruct (request_deserialize bld (bufr_read bld cap rd) fuel (bufr_new s)) as [[rq|e| |] t]; cbn [fst snd] in *;
    try (split; [reflexivity|split; [assumption|intros r E; discriminate E]]).
  specialize (H2 rq eq_refl). unfold queue. destruct (rq_method rq); cbn [l_delete l_get l_head l_options l_trace l_put l_post fst snd].
  1,3,4,7: split; [reflexivity|split; [assumption|intros r E; discriminate E]].
  1: split; [reflexivity|split; [assumption|intros r [= <-]; reflexivity]].
  all: destruct (require_length (rq_body rq)); try (split; [reflexivity|split; [assumption|intros r E; discriminate E]]).
  all: destruct fuel as [|f]; cbn [run_prog fst snd]; (split; [reflexivity|split; [assumption|intros r E; discriminate E]]).
Qed.

Definition queue_state (q : bytes) : hbody (bufr (lent bytes * bytes)) := BTilClose (mkBufr (queue_body, q) []).
Lemma queue_read bld cap fuel n q : cap <= n -> body_read bld (bufr_read bld cap lent_read) fuel n (queue_state q) = (Ok (firstn n q), queue_state (skipn n q)).
Proof.
  intros Hc. unfold queue_state, body_read, bufr_read. cbn [br_buf br_inner]. destruct bld; [|reflexivity].
  assert (E : (cap <=? n) = true) by now apply Nat.leb_le. rewrite E. reflexivity.
Qed.
Lemma queue_pulled bld cap fuel n : cap <= n -> forall b data b1, pulled bld (body_read bld (bufr_read bld cap lent_read) fuel) n b data b1 ->
  forall q, b = queue_state q -> exists q1, b1 = queue_state q1 /\ q = data ++ q1.
Proof.
  intros Hc. induction 1 as [t|t got t1 data t2 E Hg Hp IH|t e t1 data t2 E He Hp IH]; intros q ->.
  - now exists q.
  - rewrite queue_read in E by auto. injection E as <- <-. destruct (IH _ eq_refl) as (q1 & -> & Eq). exists q1. split; auto.
    rewrite <- app_assoc, <- Eq. now rewrite firstn_skipn.
  - rewrite queue_read in E by auto. discriminate E.
Qed.

(** What became of the queue [q] when a connection had been served, with result [x] and queue [q'] left: [sent] went out after
    the head of an answer, and [lost] is gone though it was not sent. *)
Definition dispensed {S} (log : S -> bytes) (bufsz : nat) (x : res unit) (s s' : S) (sent lost q' : bytes) : Prop :=
  (log s' = log s ++ concat (response_pieces (response_new OK queue_body)) ++ sent /\ length lost <= bufsz /\ (x = Ok tt -> lost = [] /\ q' = []))
  \/ (sent = [] /\ lost = []).
Theorem C87_queue_one : forall S bld cap (rd : reader S) (wt : writer S) log etext bufsz fuel q s x q' s',
  honest wt log -> silent rd log -> 0 < bufsz -> cap <= bufsz ->
  lent_stream bld cap rd wt etext queue bufsz fuel q s = (x, q', s') -> x = Ok tt \/ (exists e, x = Err e) ->
  exists sent lost, q = sent ++ lost ++ q' /\ dispensed log bufsz x s s' sent lost q'.
Proof.
  intros S bld cap rd wt log etext bufsz fuel q s x q' s' Hh Hs Hb Hc E Hx.
  destruct (queue_inner bld cap rd etext log fuel q s Hs) as (H1 & H2 & H3).
  destruct (lent_inner bld cap rd etext queue fuel q s) as [[y q1] s1] eqn:Ei. cbn [fst snd] in *. subst q1.
  destruct y as [[r|r]|e| |].
  - specialize (H3 r eq_refl). subst r.
    destruct (C87_lent S bytes bld cap rd wt log etext queue bufsz fuel q s _ _ _ x q' s' Hh Ei E Hx) as [(p & e & _ & _ & _ & ->)|(data & b1 & b2 & took & P1 & P2 & P3 & P4)].
    + exists [], []. split; [reflexivity|right; auto].
    + change (borrow q (rs_body (response_new OK queue_body))) with (queue_state q) in P1.
      destruct (queue_pulled bld cap fuel bufsz Hc _ _ _ P1 q eq_refl) as (q1 & -> & Eq). rewrite H2 in P3.
      inversion P2 as [K|e K K'|e got took' K Hg Hp]; subst; rewrite queue_read in K by auto.
      * injection K as K1 <-. exists data, []. rewrite app_nil_r in P3.
        split; [change (given_back (queue_state (skipn bufsz q1))) with (skipn bufsz q1); rewrite <- (firstn_skipn bufsz q1) at 1; now rewrite K1|]. left.
        split; [exact P3|]. split; [cbn; lia|]. intros _. split; [reflexivity|]. destruct bufsz, q1; easy.
      * discriminate K.
      * injection K as <- <-. destruct Hp as [lost Hl]. exists (data ++ took), lost. split.
        -- change (given_back (queue_state (skipn bufsz q1))) with (skipn bufsz q1). rewrite <- (firstn_skipn bufsz q1) at 1. rewrite Hl. now rewrite <- !app_assoc.
        -- left. split; [exact P3|]. split; [|intros K; discriminate K]. pose proof (firstn_le_length bufsz q1) as Hk. rewrite Hl, app_length in Hk. lia.
  - unfold lent_stream in E. rewrite Ei in E. destruct (respond_with _ _ _ _ _ _ _ _ _) as [[x0 b'] s2]. injection E as _ <- _.
    exists [], []. split; [reflexivity|right; auto].
  - unfold lent_stream in E. rewrite Ei in E. injection E as _ <- _. exists [], []. split; [reflexivity|right; auto].
  - unfold lent_stream in E. rewrite Ei in E. injection E as <- _ _. destruct Hx as [Hx|[e Hx]]; discriminate Hx.
  - unfold lent_stream in E. rewrite Ei in E. injection E as <- _ _. destruct Hx as [Hx|[e Hx]]; discriminate Hx.
Qed.
Print Assumptions C87_queue_one.

(** Any number of connections: what was in the queue went out in order, one part per connection, except at most [bufsz] bytes
    for each connection that broke while its answer was written. *)
Theorem C87_queue : forall S bld cap (rd : reader S) (wt : writer S) log etext bufsz fuel q accs q' outs,
  honest wt log -> silent rd log -> 0 < bufsz -> cap <= bufsz ->
  lent_forever bld cap rd wt etext queue bufsz fuel q accs = (true, q', outs) ->
  exists parts, q = flat_map (fun p => fst p ++ snd p) parts ++ q'
    /\ length parts = length accs /\ length outs = length accs
    /\ Forall2 (fun p c => match c with
         | (Ok s, Some s') => exists x q1 q2, lent_stream bld cap rd wt etext queue bufsz fuel q1 s = (x, q2, s') /\ q1 = fst p ++ snd p ++ q2
                               /\ dispensed log bufsz x s s' (fst p) (snd p) q2
         | _ => p = ([], [])
         end) parts (combine accs outs).
Proof.
  intros S bld cap rd wt log etext bufsz fuel q accs q' outs Hh Hs Hb Hc. revert q q' outs.
  induction accs as [|acc accs IH]; intros q q' outs E; cbn [lent_forever] in E.
  { injection E as <- <-. exists []. repeat split; constructor. }
  destruct acc as [s|e| |]; try discriminate E.
  - destruct (lent_stream bld cap rd wt etext queue bufsz fuel q s) as [[x q1] s1] eqn:E1.
    assert (Hx : x = Ok tt \/ exists e, x = Err e) by (destruct x as [[]|e| |]; eauto; discriminate E).
    assert (E' : (let '(alive, hs2, ss) := lent_forever bld cap rd wt etext queue bufsz fuel q1 accs in (alive, hs2, Some s1 :: ss)) = (true, q', outs))
      by (destruct x; (exact E || discriminate E)).
    destruct (lent_forever bld cap rd wt etext queue bufsz fuel q1 accs) as [[a q2] ss] eqn:E2. injection E' as -> -> <-.
    destruct (C87_queue_one S bld cap rd wt log etext bufsz fuel q s x q1 s1 Hh Hs Hb Hc E1 Hx) as (sent & lost & -> & Hd).
    destruct (IH _ _ _ E2) as (parts & -> & L1 & L2 & F). exists ((sent, lost) :: parts). cbn [flat_map fst snd length combine].
    split; [now rewrite <- !app_assoc|]. split; [now rewrite L1|]. split; [now rewrite L2|]. constructor; [exists x, (sent ++ lost ++ flat_map (fun p => fst p ++ snd p) parts ++ q'), (flat_map (fun p => fst p ++ snd p) parts ++ q'); now split|exact F].
  - destruct (lent_forever bld cap rd wt etext queue bufsz fuel q accs) as [[a q2] ss] eqn:E2. injection E as -> -> <-.
    destruct (IH _ _ _ E2) as (parts & -> & L1 & L2 & F). exists (([], []) :: parts). cbn [flat_map fst snd length combine app].
    split; [reflexivity|]. split; [now rewrite L1|]. split; [now rewrite L2|]. constructor; [reflexivity|exact F].
Qed.
Print Assumptions C87_queue.

(** A connection: what its client sends, and how it takes what it is sent. *)
Definition C87_sock := (list event * (list wstep * bytes))%type.
Definition C87_read : reader C87_sock := fun n s => let (x, evs) := seg_read n (fst s) in (x, (evs, snd s)).
Definition C87_write : writer C87_sock := mkWriter
  (fun d s => let (x, w) := script_write d (snd s) in (x, (fst s, w))) (fun s => (Ok tt, s)).
Definition C87_log (s : C87_sock) : bytes := snd (snd s).
Definition C87_get : list event := segs [bs "GET /next HTTP/1.1" ++ CRLF ++ CRLF].
Definition C87_put : list event := segs [bs "PUT /next HTTP/1.1" ++ CRLF ++ bs "Content-Length: 0" ++ CRLF ++ CRLF].
Definition C87_head : bytes := bs "HTTP/1.1 200 OK" ++ CRLF ++ CRLF.
(** The first client of [C87_accs] sends a PUT; the second takes the head and two bytes and breaks the connection; accepting
    the third fails; the fourth takes all there is; and the fifth finds the queue empty. *)
Definition C87_accs : list (res C87_sock) :=
  [Ok (C87_put, ([], [])); Ok (C87_get, (repeat (Accept 1) 21 ++ [Refuse (IoError (KOther 1))], [])); Err (IoError (KOther 2));
   Ok (C87_get, ([Accept 3; Accept 2], [])); Ok (C87_get, ([], []))].

(** What was read for an answer that did not go out is not given to the next client: the second client got "01", the fourth gets
    what follows "0123", and "23" reaches nobody. *)
Theorem C87_lost_refuted : exists q s1 s2 s1' s2' q1 e,
  lent_stream Std 4 C87_read C87_write (fun _ _ => bs "bad") queue 4 200 q s1 = (Err e, q1, s1')
  /\ lent_stream Std 4 C87_read C87_write (fun _ _ => bs "bad") queue 4 200 q1 s2 = (Ok tt, [], s2')
  /\ C87_log s1' = C87_head ++ bs "01" /\ C87_log s2' = C87_head ++ bs "456789" /\ q = bs "0123456789".
Proof.
  exists (bs "0123456789"), (C87_get, (repeat (Accept 1) 21 ++ [Refuse (IoError (KOther 1))], [])), (C87_get, ([], [])),
    ([], ([], C87_head ++ bs "01")), ([], ([], C87_head ++ bs "456789")), (bs "456789"), (IoError (KOther 1)).
  split; [vm_compute; reflexivity|]. split; [vm_compute; reflexivity|]. repeat split.
Qed.
Print Assumptions C87_lost_refuted.

Example C87_case : honest C87_write C87_log /\ silent C87_read C87_log
  /\ (let '(a, q, outs) := lent_forever Std 4 C87_read C87_write (fun _ _ => bs "bad") queue 4 200 (bs "0123456789") C87_accs in
      a = true /\ q = [] /\ map (option_map C87_log) outs =
        [Some (bs "HTTP/1.1 405 Method Not Allowed" ++ CRLF ++ CRLF ++ bs "GET only");
         Some (C87_head ++ bs "01"); None; Some (C87_head ++ bs "456789"); Some C87_head])
  /\ lent_stream Std 4 wire3_read wire3_writer (fun _ _ => bs "bad") (owner echo) 4 200 [] ([], C87_put)
     = (let '(x, _, h, s) := serve_stream Std 4 wire3_read wire3_writer (fun _ _ => bs "bad") echo 4 200 [] ([], C87_put) in (x, h, s)).
Proof.
  split; [|split; [|split]].
  - destruct script_honest as [K1 K2]. split.
    + intros d [evs w] r [evs' w'] E. cbn in E. destruct (script_write d w) as [x v] eqn:Ev. injection E as <- <- <-. exact (K1 d w x v Ev).
    + now intros s r s' [= <- <-].
  - intros n [evs w]. unfold C87_read, C87_log. cbn [fst snd]. destruct (seg_read n evs); reflexivity.
  - cbv zeta. vm_compute. do 2 (split; [reflexivity|]). reflexivity.
  - vm_compute. reflexivity.
Qed.

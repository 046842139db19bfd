(** Property C88: requests to different servers through one [HttpClient] do not influence each other. *)
From Verif Require Import Base Utf8 Case Num Io Parser Types Message Outgoing Client Server Transport.
From Verif Require Import Lemmas ReadLemmas HeadLemmas SimLemmas KeepLemmas OutLemmas POut PUrl PPool Net Session Turns Commands.

(** The outside world treats servers apart: a URL always leads to the same address, and how connecting to an address ends
    depends on a part of the world, [view a], that neither looking up addresses nor connecting to others changes. *)
Record apart {Addr S Wd V} (conn : connector Addr S Wd) (leads : url -> res Addr) (view : Addr -> Wd -> V) : Prop := {
  ap_leads : forall u w, fst (c_addr conn u w) = leads u;
  ap_lookup : forall a u w, view a (snd (c_addr conn u w)) = view a w;
  ap_connect : forall a w1 w2, view a w1 = view a w2 -> fst (c_connect conn a w1) = fst (c_connect conn a w2)
                 /\ view a (snd (c_connect conn a w1)) = view a (snd (c_connect conn a w2));
  ap_other : forall a b w, a <> b -> view a (snd (c_connect conn b w)) = view a w }.

Definition ends_program {X} (x : res X) : Prop := x = Panic \/ x = Fuel.

Section Turns.
  Context {Addr S Wd A V : Type} (aeq : forall x y : Addr, {x = y} + {x <> y})
    (conn : connector Addr S Wd) (bld : build) (cap : nat) (rd : reader S) (wt : writer S)
    (leads : url -> res Addr) (view : Addr -> Wd -> V).
  Hypothesis Hap : apart conn leads view.
  Notation turn := (@turn Addr S Wd A aeq conn bld cap rd wt).
  Notation turns := (@turns Addr S Wd A aeq conn bld cap rd wt).

  (** The request goes to the address [a]. *)
  Definition goes_to (a : Addr) (q : @asked A) : bool :=
    match leads (snd (fst (fst q))) with Ok b => if aeq a b then true else false | _ => false end.
  (** The results of those requests that go to [a]. *)
  Definition results_at (a : Addr) (l : list asked) (xs : list (res (status * headers * A))) : list (res (status * headers * A)) :=
    map snd (filter (fun p => goes_to a (fst p)) (combine l xs)).

  Definition same_at (a : Addr) (pl1 pl2 : @pool Addr S) (w1 w2 : Wd) : Prop := pool_get aeq a pl1 = pool_get aeq a pl2 /\ view a w1 = view a w2.

  Lemma turn_other a fuel q pl w : goes_to a q = false ->
    let '(_, (pl', w')) := turn fuel q pl w in same_at a pl' pl w' w.
  Proof.
    destruct q as [[[m u] ops] p]. unfold goes_to, Turns.turn, client_start, get_stream. cbn [fst snd]. intros Hg.
    pose proof (ap_leads _ _ _ Hap u w) as H1. pose proof (ap_lookup _ _ _ Hap a u w) as H2.
    destruct (builder_new u m) as [r|e| |]; try (now split).
    destruct (c_addr conn u w) as [[b|e| |] w1]; cbn [fst snd] in *; rewrite <- H1 in Hg; try (now split).
    destruct (aeq a b) as [|Hab]; [discriminate Hg|].
    assert (Hset : forall (s : S) pl0, pool_get aeq a (pool_set aeq b s pl0) = pool_get aeq a pl0).
    { intros s pl0. rewrite pool_get_set. now destruct (aeq a b). }
    assert (Hupd : forall (s : S) pl0, pool_get aeq a (pool_update aeq b s pl0) = pool_get aeq a pl0).
    { intros s pl0. destruct (pool_get aeq b pl0) eqn:E.
      - rewrite pool_get_update by congruence. now destruct (aeq a b).
      - clear -E Hab. induction pl0 as [|[c t] pl0 IH]; auto. cbn in *. destruct (aeq b c) as [|Hb]; [discriminate E|]. cbn.
        destruct (aeq a c); auto. }
    pose proof (ap_other _ _ _ Hap a b w1 Hab) as H3. unfold same_at.
    destruct (pool_get aeq b pl) as [s|]; [|destruct (c_connect conn b w1) as [[s|e| |] w2]; cbn [snd] in H3; try (split; [reflexivity|congruence])].
    all: destruct (send bld cap wt fuel r s) as [[o|e| |] s1]; try (rewrite ?Hupd, ?Hset; split; [reflexivity|congruence]).
    all: destruct (request_rest bld cap rd wt fuel ops p o) as [x s2]; rewrite ?Hupd, ?Hset; (split; [reflexivity|congruence]).
  Qed.

  Lemma turn_same a fuel q pl1 w1 pl2 w2 : goes_to a q = true -> same_at a pl1 pl2 w1 w2 ->
    let '(x1, (pl1', w1')) := turn fuel q pl1 w1 in let '(x2, (pl2', w2')) := turn fuel q pl2 w2 in x1 = x2 /\ same_at a pl1' pl2' w1' w2'.
  Proof.
    destruct q as [[[m u] ops] p]. unfold goes_to, Turns.turn, client_start, get_stream. cbn [fst snd]. intros Hg [Hp Hw].
    pose proof (ap_leads _ _ _ Hap u w1) as K1. pose proof (ap_lookup _ _ _ Hap a u w1) as L1.
    pose proof (ap_leads _ _ _ Hap u w2) as K2. pose proof (ap_lookup _ _ _ Hap a u w2) as L2.
    destruct (builder_new u m) as [r|e| |]; try (now repeat split).
    destruct (leads u) as [b|e| |]; try discriminate Hg. destruct (aeq a b) as [<-|]; [|discriminate Hg].
    destruct (c_addr conn u w1) as [x1 v1]. destruct (c_addr conn u w2) as [x2 v2]. cbn [fst snd] in *. subst x1 x2.
    assert (Hv : view a v1 = view a v2) by congruence. unfold same_at. rewrite Hp.
    assert (Hset : forall (s : S) pl0, pool_get aeq a (pool_set aeq a s pl0) = Some s).
    { intros s pl0. rewrite pool_get_set. now destruct (aeq a a). }
    assert (Hupd : forall (s : S) pl0, pool_get aeq a pl0 <> None -> pool_get aeq a (pool_update aeq a s pl0) = Some s).
    { intros s pl0 H. rewrite pool_get_update by auto. now destruct (aeq a a). }
    assert (Rest : forall s pa pb va vb, pool_get aeq a pa <> None -> pool_get aeq a pb <> None -> view a va = view a vb ->
      forall F : @pool Addr S -> Wd -> res (status * headers * A) * (@pool Addr S * Wd),
      F = (fun pz vz => match (match send bld cap wt fuel r s with
            | (Ok o, s1) => (Ok (a, o), (pool_update aeq a s1 pz, vz)) | (Err e, s1) => (Err e, (pool_update aeq a s1 pz, vz))
            | (Panic, s1) => (Panic, (pool_update aeq a s1 pz, vz)) | (Fuel, s1) => (Fuel, (pool_update aeq a s1 pz, vz)) end) with
          | (Ok (a, o), (pl1, w1)) => let (x, s) := request_rest bld cap rd wt fuel ops p o in (x, (pool_update aeq a s pl1, w1))
          | (Err e, pw) => (Err e, pw) | (Panic, pw) => (Panic, pw) | (Fuel, pw) => (Fuel, pw) end) ->
      let '(y1, (pa', va')) := F pa va in let '(y2, (pb', vb')) := F pb vb in
      y1 = y2 /\ pool_get aeq a pa' = pool_get aeq a pb' /\ view a va' = view a vb').
    { intros s pa pb va vb Ha Hb Hvv F ->. destruct (send bld cap wt fuel r s) as [[o|e| |] s1];
        try (split; [reflexivity|split; [now rewrite !Hupd by auto|exact Hvv]]).
      destruct (request_rest bld cap rd wt fuel ops p o) as [x s2]. split; [reflexivity|]. split; [|exact Hvv].
      rewrite !Hupd by (rewrite ?Hupd by auto; try discriminate; auto). reflexivity. }
    destruct (pool_get aeq a pl2) as [s|] eqn:E2.
    - exact (Rest s pl1 pl2 v1 v2 ltac:(congruence) ltac:(congruence) Hv _ eq_refl).
    - destruct (ap_connect _ _ _ Hap a v1 v2 Hv) as [C1 C2]. destruct (c_connect conn a v1) as [y1 z1]. destruct (c_connect conn a v2) as [y2 z2].
      cbn [fst snd] in *. subst y2. destruct y1 as [s|e| |]; try (repeat split; auto; congruence).
      exact (Rest s (pool_set aeq a s pl1) (pool_set aeq a s pl2) z1 z2 ltac:(rewrite Hset; discriminate) ltac:(rewrite Hset; discriminate) C2 _ eq_refl).
  Qed.

  (** The results of the requests to [a] are those they would have had if the other requests had not been made, up to a
      request that ends the program. *)
  Theorem C88_apart : forall a fuel l pl w xs pl' w' ys pl2 w2,
    turns fuel l pl w = (xs, (pl', w')) -> turns fuel (filter (goes_to a) l) pl w = (ys, (pl2, w2)) ->
    (exists rest, ys = results_at a l xs ++ rest)
    /\ (Forall (fun x => ~ ends_program x) xs -> ys = results_at a l xs /\ pool_get aeq a pl' = pool_get aeq a pl2 /\ view a w' = view a w2).
  Proof.
    intros a fuel l pl w xs pl' w' ys pl2 w2 H1 H2.
    assert (Hs : same_at a pl pl w w) by now split. revert H1 H2 Hs. generalize w at 2 4. generalize pl at 2 4. intros plb wb. revert pl w plb wb xs ys.
    induction l as [|q l IH]; intros pl w plb wb xs ys H1 H2 Hs.
    { cbn in H1, H2. injection H1 as <- <- <-. injection H2 as <- <- <-. split; [now exists []|]. intros _. split; [reflexivity|exact Hs]. }
    cbn [Turns.turns filter] in *. destruct (goes_to a q) eqn:Eg; cbn [Turns.turns] in H2.
    - pose proof (turn_same a fuel q pl w plb wb Eg Hs) as Ht.
      destruct (turn fuel q pl w) as [x [pa wa]]. destruct (turn fuel q plb wb) as [x2 [pb wb']]. destruct Ht as [<- Hs'].
      assert (Hcut : ends_program x -> xs = [x] /\ ys = [x]).
      { intros [-> | ->]; injection H1 as <- _ _; injection H2 as <- _ _; now split. }
      assert (Hgo : ~ ends_program x -> exists xs0 ys0, turns fuel l pa wa = (xs0, (pl', w')) /\ turns fuel (filter (goes_to a) l) pb wb' = (ys0, (pl2, w2))
        /\ xs = x :: xs0 /\ ys = x :: ys0).
      { intros Hn. destruct (turns fuel l pa wa) as [xs0 pw0]. destruct (turns fuel (filter (goes_to a) l) pb wb') as [ys0 pw1].
        exists xs0, ys0. destruct x; try (elim Hn; red; auto; fail); injection H1 as <- ->; injection H2 as <- ->; auto. }
      assert (Hd : ends_program x \/ ~ ends_program x) by (unfold ends_program; destruct x; auto; right; intros [K|K]; discriminate K).
      unfold results_at. destruct Hd as [Hd|Hd].
      + destruct (Hcut Hd) as [-> ->]. cbn [combine filter fst]. destruct l; cbn [combine filter]; rewrite Eg; cbn [map snd]; (split; [now exists []|]).
        all: intros Hf; now elim (Forall_inv Hf).
      + destruct (Hgo Hd) as (xs0 & ys0 & G1 & G2 & -> & ->). cbn [combine filter fst]. rewrite Eg. cbn [map snd].
        destruct (IH _ _ _ _ _ _ G1 G2 Hs') as [[rest R1] R2]. split; [exists rest; now rewrite R1 at 1|].
        intros Hf. destruct (R2 (Forall_inv_tail Hf)) as (R3 & R4). split; [now rewrite R3 at 1|exact R4].
    - pose proof (turn_other a fuel q pl w Eg) as Ht.
      destruct (turn fuel q pl w) as [x [pa wa]].
      assert (Hs' : same_at a pa plb wa wb) by (unfold same_at in *; intuition congruence).
      unfold results_at. destruct x as [y|e| |].
      1,2: destruct (turns fuel l pa wa) as [xs0 pw0] eqn:G1; injection H1 as <- ->; cbn [combine filter fst]; rewrite Eg;
        destruct (IH _ _ _ _ _ _ G1 H2 Hs') as [R1 R2]; (split; [exact R1|]); intros Hf; exact (R2 (Forall_inv_tail Hf)).
      all: injection H1 as <- <- <-; cbn [combine filter fst]; destruct l; cbn [combine filter]; rewrite Eg; cbn [map]; (split; [now exists ys|]);
        intros Hf; apply Forall_inv in Hf; cbv beta in Hf; elim Hf; unfold ends_program; auto.
  Qed.
End Turns.
Print Assumptions C88_apart.

Section Corollaries.
  Context {Addr S Wd A V : Type} (aeq : forall x y : Addr, {x = y} + {x <> y})
    (conn : connector Addr S Wd) (bld : build) (cap : nat) (rd : reader S) (wt : writer S)
    (leads : url -> res Addr) (view : Addr -> Wd -> V).

  (** Two callers that make the same requests to [a], in the same order, get the same answers from [a] and leave the same
      stream to it in the pool, whatever they ask of other servers in between. *)
  Theorem C88_same : apart conn leads view -> forall a fuel l1 l2 pl w xs1 pl1 w1 xs2 pl2 w2,
    filter (goes_to aeq leads a) l1 = filter (goes_to aeq leads a) l2 ->
    @turns Addr S Wd A aeq conn bld cap rd wt fuel l1 pl w = (xs1, (pl1, w1)) ->
    turns aeq conn bld cap rd wt fuel l2 pl w = (xs2, (pl2, w2)) ->
    Forall (fun x => ~ ends_program x) xs1 -> Forall (fun x => ~ ends_program x) xs2 ->
    results_at aeq leads a l1 xs1 = results_at aeq leads a l2 xs2 /\ pool_get aeq a pl1 = pool_get aeq a pl2 /\ view a w1 = view a w2.
  Proof.
    intros Hap a fuel l1 l2 pl w xs1 pl1 w1 xs2 pl2 w2 Hf H1 H2 F1 F2.
    destruct (turns aeq conn bld cap rd wt fuel (filter (goes_to aeq leads a) l1) pl w) as [ys [pl0 w0]] eqn:E.
    destruct (C88_apart aeq conn bld cap rd wt leads view Hap a fuel l1 pl w xs1 pl1 w1 ys pl0 w0 H1 E) as [_ K1].
    rewrite Hf in E.
    destruct (C88_apart aeq conn bld cap rd wt leads view Hap a fuel l2 pl w xs2 pl2 w2 ys pl0 w0 H2 E) as [_ K2].
    destruct (K1 F1) as (-> & -> & ->). destruct (K2 F2) as (<- & -> & ->). auto.
  Qed.

  (** A caller that stops at the first error ([Session.pooled]) and one that goes on do the same while all goes well. *)
  Theorem C88_pooled : forall fuel l pl w xs pw,
    @pooled Addr S Wd aeq conn bld cap rd wt A fuel l pl w = (Ok xs, pw)
    <-> turns aeq conn bld cap rd wt fuel l pl w = (map Ok xs, pw) /\ length xs = length l.
  Proof.
    intros fuel l. induction l as [|q l IH]; intros pl w xs pw.
    { cbn. split.
      - intros H. injection H as <- <-. now split.
      - intros [H H0]. destruct xs; [|discriminate H0]. now injection H as <-. }
    destruct q as [[[m u] ops] p]. cbn [pooled turns length]. unfold turn.
    destruct (client_start aeq conn bld cap wt m fuel u pl w) as [[[a o]|e| |] [pl1 w1]].
    2-4: split; [intros H; discriminate H|].
    2: { intros [H _]. destruct (turns aeq conn bld cap rd wt fuel l pl1 w1) as [ys pw0]. destruct xs; discriminate H. }
    2-3: intros [H _]; destruct xs; discriminate H.
    destruct (request_rest bld cap rd wt fuel ops p o) as [[x|e| |] s].
    2-4: split; [intros H; discriminate H|].
    2: { intros [H _]. destruct (turns aeq conn bld cap rd wt fuel l _ w1) as [ys pw0]. destruct xs; discriminate H. }
    2-3: intros [H _]; destruct xs; discriminate H.
    specialize (IH (pool_update aeq a s pl1) w1). split.
    - intros H. destruct (pooled aeq conn bld cap rd wt fuel l (pool_update aeq a s pl1) w1) as [[ys|e| |] pw0]; try discriminate H.
      injection H as <- <-. destruct (proj1 (IH _ _) eq_refl) as [-> K]. cbn [map length]. now rewrite K.
    - intros [H K]. destruct xs as [|y xs]; [discriminate K|]. cbn [length map] in *. injection K as K.
      destruct (turns aeq conn bld cap rd wt fuel l (pool_update aeq a s pl1) w1) as [ys pw0]. injection H as <- -> ->.
      now rewrite (proj2 (IH xs pw) (conj eq_refl K)).
  Qed.
  (** All requests are made, unless one ends the program; that one is the last. *)
  Theorem C88_stops : forall fuel l pl w xs pw, @turns Addr S Wd A aeq conn bld cap rd wt fuel l pl w = (xs, pw) ->
    (length xs = length l /\ Forall (fun x => ~ ends_program x) xs)
    \/ (exists ys x, xs = ys ++ [x] /\ length xs <= length l /\ Forall (fun x => ~ ends_program x) ys /\ ends_program x).
  Proof.
    intros fuel l. induction l as [|q l IH]; intros pl w xs pw H.
    { injection H as <- <-. left. split; [reflexivity|constructor]. }
    cbn [turns] in H. destruct (turn aeq conn bld cap rd wt fuel q pl w) as [[y|e| |] [pl1 w1]].
    3,4: injection H as <- <-; right; eexists [], _; cbn [length app]; repeat split; [lia|constructor|unfold ends_program; auto].
    1,2: destruct (turns aeq conn bld cap rd wt fuel l pl1 w1) as [xs0 pw0] eqn:E; injection H as <- <-;
      destruct (IH _ _ _ _ E) as [[K1 K2]|(ys & x & -> & K1 & K2 & K3)];
      [left; cbn [length]; split; [lia|constructor; [intros [K|K]; discriminate K|exact K2]]
      |right; eexists (_ :: ys), x; split; [reflexivity|]; split; [cbn [length app] in *; lia|]; split; [constructor; [intros [K|K]; discriminate K|exact K2]|exact K3]].
  Qed.
End Corollaries.
Print Assumptions C88_stops.
Print Assumptions C88_same.
Print Assumptions C88_pooled.

(** Two servers: a connector for the hosts a and b, and a world with the connections each of them will accept (what has been written and
    what is still to be read). *)
Definition C88_view (a : bool) (w : list fake * list fake) : list fake := if a then fst w else snd w.
Definition C88_leads (u : url) : res bool := match u_host u with Some h => Ok (beqb h (bs "a")) | None => Err UrlError end.
Definition C88_conn : connector bool fake (list fake * list fake) := mkConnector
  (fun a w => match a, w with
              | true, (s :: t, z) => (Ok s, (t, z)) | false, (z, s :: t) => (Ok s, (z, t))
              | _, _ => (Err (IoError (KOther 111)), w) end)
  (fun u w => (C88_leads u, w)).
Lemma C88_conn_apart : apart C88_conn C88_leads C88_view.
Proof.
  split.
  - reflexivity.
  - reflexivity.
  - intros [|] [x1 y1] [x2 y2] H; cbn in H; subst; destruct x1 || idtac; destruct x2 || idtac; destruct y2 || idtac; cbn; auto.
  - intros [|] [|] [[|s1 t1] [|s2 t2]] H; try (now elim H); reflexivity.
Qed.

Definition C88_ask (host path : bytes) : @asked outcome :=
  (Get, mkUrl (bs "http") (Some host) None path None, [], fun _ _ => ReadBody 64 (fun x => Ret x)).
Definition C88_ok (b : bytes) : bytes := bs "HTTP/1.1 200 OK" ++ CRLF ++ bs "Content-Length: 1" ++ CRLF ++ CRLF ++ b.
(** An answer whose head is a panic of the parser (C16). *)
Definition C88_bad : bytes := bs "HTTP/1.1 200 OK" ++ CRLF ++ bs "a:" ++ [xc3; xa9] ++ CRLF ++ CRLF.
(** With a buffer of one byte, so that nothing is read ahead. *)
Definition C88_turns (l : list (@asked outcome)) (sa sb : list bytes) :=
  turns Bool.bool_dec C88_conn Std 1 fake_read fake_writer 300 l [] (map (fun b => ([], b)) sa, map (fun b => ([], b)) sb).

(** "Up to a request that ends the program" cannot be left out: an answer from one server on which the parser panics keeps the
    caller from making the later requests to the others. *)
Theorem C88_always_refuted :
  ~ (forall (conn : connector bool fake (list fake * list fake)) leads (view : bool -> list fake * list fake -> list fake),
       apart conn leads view -> forall bld cap a fuel l pl w xs pw ys pw',
       @turns _ _ _ outcome Bool.bool_dec conn bld cap fake_read fake_writer fuel l pl w = (xs, pw) ->
       turns Bool.bool_dec conn bld cap fake_read fake_writer fuel (filter (goes_to Bool.bool_dec leads a) l) pl w = (ys, pw') ->
       ~ In Fuel xs -> ys = results_at Bool.bool_dec leads a l xs).
Proof.
  intros C.
  set (l := [C88_ask (bs "b") (bs "/"); C88_ask (bs "a") (bs "/")]).
  set (w := ([([] : bytes, C88_ok (bs "x"))], [([] : bytes, C88_bad)])).
  specialize (C C88_conn C88_leads C88_view C88_conn_apart Std 1 true 300 l [] w _ _ _ _ (surjective_pairing _) (surjective_pairing _)).
  apply (f_equal (@length _)) in C; [vm_compute in C; discriminate C|].
  clear C. intros K. vm_compute in K. destruct K as [K|[]]. discriminate K.
Qed.
Print Assumptions C88_always_refuted.

(** Server a answers two requests over one connection; server b answers nonsense, then ends the connection. The caller gets both
    answers of a, and would have got them without asking b. *)
Example C88_case :
  let l := [C88_ask (bs "a") (bs "/1"); C88_ask (bs "b") (bs "/"); C88_ask (bs "a") (bs "/2"); C88_ask (bs "b") (bs "/")] in
  let la := [C88_ask (bs "a") (bs "/1"); C88_ask (bs "a") (bs "/2")] in
  let sa := [C88_ok (bs "x") ++ C88_ok (bs "y")] in let sb := [bs "nonsense" ++ CRLF] in
  let ok b := Ok (OK, [(bs "content-length", bs "1")], Got b) in
  apart C88_conn C88_leads C88_view
  /\ filter (goes_to Bool.bool_dec C88_leads true) l = la
  /\ fst (C88_turns l sa sb) = [ok (bs "x"); Err ParseError; ok (bs "y"); Err UnexpectedEof]
  /\ fst (C88_turns la sa sb) = [ok (bs "x"); ok (bs "y")]
  /\ Forall (fun x => ~ ends_program x) (fst (C88_turns l sa sb))
  /\ pooled Bool.bool_dec C88_conn Std 1 fake_read fake_writer 300 la [] (map (fun b => ([], b)) sa, map (fun b => ([], b)) sb)
     = (Ok [(OK, [(bs "content-length", bs "1")], Got (bs "x")); (OK, [(bs "content-length", bs "1")], Got (bs "y"))], snd (C88_turns la sa sb)).
Proof.
  cbv zeta. split; [exact C88_conn_apart|]. split; [vm_compute; reflexivity|]. split; [vm_compute; reflexivity|]. split; [vm_compute; reflexivity|].
  split; [|vm_compute; reflexivity].
  match goal with |- Forall _ ?x => let y := eval vm_compute in x in replace x with y by (vm_compute; reflexivity) end.
  repeat (constructor; [intros [K|K]; discriminate K|]). constructor.
Qed.

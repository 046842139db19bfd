(** The file server of examples/server.rs on the library's server. *)
From Verif Require Import Base Utf8 Case Num Io Parser Types Message Outgoing Server Files Transport.
From Verif Require Import Lemmas ReadLemmas NumLemmas ChunkSpec ChunkLemmas BodyLemmas WriteLemmas ParserLemmas CaseLemmas
  TypesLemmas HeadLemmas BlockLemmas MsgLemmas SimLemmas KeepLemmas ErrLemmas PBody PIo PParse PHead POut PReuse PServer.

(** ** The tree *)
Lemma at_path_app t p q : at_path t (p ++ q) = match at_path t p with Some x => at_path x q | None => None end.
Proof.
  revert t. induction p as [|n p IH]; intros t; [reflexivity|]. cbn [app at_path]. destruct t as [|es]; auto.
  destruct (entry n es); auto.
Qed.

Lemma entry_set n x es m : entry m (set_entry n x es) = if beqb m n then Some x else entry m es.
Proof.
  induction es as [|[k y] es IH]; cbn [set_entry entry]; [reflexivity|].
  destruct (beqb n k) eqn:E; cbn [entry].
  - apply beqb_true in E. subst k. now destruct (beqb m n).
  - rewrite IH. destruct (beqb m k) eqn:E2, (beqb m n) eqn:E3; auto.
    apply beqb_true in E2, E3. subst. now rewrite beqb_refl in E.
Qed.
Lemma set_entry_same n x es : entry n es = Some x -> set_entry n x es = es.
Proof.
  induction es as [|[k y] es IH]; cbn [set_entry entry]; [easy|]. destruct (beqb n k); [now intros [= ->]|]. intros H. now rewrite IH.
Qed.
Lemma set_entry_twice n x y es : set_entry n x (set_entry n y es) = set_entry n x es.
Proof.
  induction es as [|[k z] es IH]; cbn [set_entry].
  - now rewrite beqb_refl.
  - destruct (beqb n k) eqn:E; cbn [set_entry]; rewrite E; auto. now rewrite IH.
Qed.

Lemma put_at_same p : forall t x, at_path t p = Some x -> put_at t p x = t.
Proof.
  induction p as [|n p IH]; intros t x; cbn [at_path put_at]; [now intros [= ->]|]. destruct t as [|es]; [easy|].
  destruct (entry n es) as [y|] eqn:E; [|easy]. intros H. rewrite IH; auto. now rewrite set_entry_same.
Qed.
Lemma put_at_app p q : forall t y x, at_path t p = Some y -> put_at t (p ++ q) x = put_at t p (put_at y q x).
Proof.
  induction p as [|n p IH]; intros t y x; cbn [at_path put_at app]; [now intros [= ->]|]. destruct t as [|es]; [easy|].
  destruct (entry n es) as [z|]; [|easy]. intros H. now rewrite (IH z y x H).
Qed.
Lemma at_put_at p : forall t y x, at_path t p = Some y -> at_path (put_at t p x) p = Some x.
Proof.
  induction p as [|n p IH]; intros t y x; cbn [at_path put_at]; auto. destruct t as [|es]; [easy|].
  destruct (entry n es) as [z|]; [|easy]. intros H. rewrite entry_set, beqb_refl. now apply (IH z y x).
Qed.

Lemma put_get p n x t es : at_path t p = Some (Dir es) -> at_path (put_at t (p ++ [n]) x) (p ++ [n]) = Some x.
Proof.
  intros H. rewrite (put_at_app p [n] t _ x H), at_path_app, (at_put_at p t _ _ H). cbn [put_at at_path].
  rewrite entry_set, beqb_refl. reflexivity.
Qed.
Lemma put_other p x : forall t q y, at_path t p = Some y -> (forall s, q <> p ++ s) -> (forall s, p <> q ++ s) ->
  at_path (put_at t p x) q = at_path t q.
Proof.
  induction p as [|n p IH]; intros t q y Hy H1 H2; [destruct (H1 q eq_refl)|]. destruct q as [|m q]; [destruct (H2 (n :: p) eq_refl)|].
  cbn [at_path put_at] in *. destruct t as [|es]; [easy|]. destruct (entry n es) as [z|] eqn:E; [|easy]. rewrite entry_set.
  destruct (beqb m n) eqn:Em; [|reflexivity]. apply beqb_true in Em. subst m. rewrite E.
  apply (IH z q y Hy); intros s ->; [now apply (H1 s)|now apply (H2 s)].
Qed.
Lemma put_new p n x t es : at_path t p = Some (Dir es) -> forall q, (forall s, q <> p ++ n :: s) -> (forall s, p ++ [n] <> q ++ s) ->
  at_path (put_at t (p ++ [n]) x) q = at_path t q.
Proof.
  intros H q H1 H2. rewrite (put_at_app p [n] t _ x H). cbn [put_at].
  destruct (list_eq_dec (list_eq_dec Byte.byte_eq_dec) (firstn (length p) q) p) as [Ep|Ep].
  - assert (Eq : q = p ++ skipn (length p) q) by (rewrite <- Ep at 1; symmetry; apply firstn_skipn).
    destruct (skipn (length p) q) as [|m s] eqn:Es.
    + exfalso. rewrite app_nil_r in Eq. subst q. now apply (H2 [n]).
    + rewrite Eq, !at_path_app, (at_put_at p t _ _ H), H. cbn [at_path]. rewrite entry_set.
      destruct (beqb m n) eqn:Em; [|reflexivity]. apply beqb_true in Em. subst m. exfalso. now apply (H1 s).
  - apply (put_other p _ t q _ H).
    + intros s ->. apply Ep. rewrite firstn_app, Nat.sub_diag, firstn_all, firstn_O. apply app_nil_r.
    + intros s Hs. apply (H2 (s ++ [n])). now rewrite Hs, app_assoc.
Qed.

(** ** Paths *)
(** A name that means itself. *)
Definition plain_name (n : bytes) : Prop := n <> [] /\ n <> bs "." /\ n <> bs ".." /\ ~ In SLASH n /\ ~ In x00 n.
(** ["/a/b/c"]. *)
Definition uri_of (names : list bytes) : bytes := flat_map (fun n => SLASH :: n) names.

Lemma eqb_slash b : Byte.eqb b SLASH = true <-> b = SLASH.
Proof. split; [apply Byte.byte_dec_bl|apply Byte.byte_dec_lb]. Qed.
Lemma components_name n rest : ~ In SLASH n -> components (n ++ SLASH :: rest) = n :: components rest.
Proof.
  induction n as [|b n IH]; intros H; cbn [app components]; [reflexivity|].
  destruct (Byte.eqb b SLASH) eqn:E; [apply eqb_slash in E; subst; now destruct H; left|].
  rewrite IH; auto. intros Hn. apply H. now right.
Qed.
Lemma components_last n : ~ In SLASH n -> components n = [n].
Proof.
  induction n as [|b n IH]; intros H; cbn [components]; [reflexivity|].
  destruct (Byte.eqb b SLASH) eqn:E; [apply eqb_slash in E; subst; now destruct H; left|].
  rewrite IH; auto. intros Hn. apply H. now right.
Qed.
Lemma components_names n names : Forall plain_name (n :: names) -> components (n ++ uri_of names) = n :: names.
Proof.
  revert n. induction names as [|m names IH]; intros n H; apply Forall_cons_iff in H as [(_ & _ & _ & Hs & _) H].
  - cbn [uri_of flat_map]. rewrite app_nil_r. now apply components_last.
  - cbn [uri_of flat_map app]. fold (uri_of names). rewrite components_name; auto. now rewrite (IH m H).
Qed.
Lemma trim_name n rest : n <> [] -> ~ In SLASH n -> trim_slashes (SLASH :: n ++ rest) = n ++ rest.
Proof.
  intros Hn Hs. destruct n as [|b n]; [easy|]. change (trim_slashes (SLASH :: (b :: n) ++ rest)) with (trim_slashes (b :: n ++ rest)).
  cbn [trim_slashes]. destruct (Byte.eqb b SLASH) eqn:E; auto. apply eqb_slash in E. subst. now destruct Hs; left.
Qed.
Lemma uri_components names : names <> [] -> Forall plain_name names -> components (trim_slashes (uri_of names)) = names.
Proof.
  destruct names as [|n names]; [easy|]. intros _ H. cbn [uri_of flat_map]. fold (uri_of names).
  change ((SLASH :: n) ++ uri_of names) with (SLASH :: n ++ uri_of names).
  rewrite trim_name; [now apply components_names| |]; now apply Forall_cons_iff in H as [(? & ? & ? & ? & ?) _].
Qed.
Lemma components_slashed n names : Forall (fun n => ~ In SLASH n) (n :: names) -> components (n ++ uri_of names) = n :: names.
Proof.
  revert n. induction names as [|m names IH]; intros n H; apply Forall_cons_iff in H as [Hs H].
  - cbn [uri_of flat_map]. rewrite app_nil_r. now apply components_last.
  - cbn [uri_of flat_map app]. fold (uri_of names). rewrite components_name; auto. now rewrite (IH m H).
Qed.
Lemma uri_components_gen n names : n <> [] -> Forall (fun n => ~ In SLASH n) (n :: names) -> components (trim_slashes (uri_of (n :: names))) = n :: names.
Proof.
  intros Hn H. cbn [uri_of flat_map]. fold (uri_of names). change ((SLASH :: n) ++ uri_of names) with (SLASH :: n ++ uri_of names).
  rewrite trim_name; auto; [now apply components_slashed|]. now apply Forall_cons_iff in H as [? _].
Qed.
Lemma plain_slashless names : Forall plain_name names -> Forall (fun n => ~ In SLASH n) names.
Proof. apply Forall_impl. now intros n (_ & _ & _ & ? & _). Qed.
Lemma uri_of_app a b : uri_of (a ++ b) = uri_of a ++ uri_of b.
Proof. apply flat_map_app. Qed.
Lemma uri_components_slash names : names <> [] -> Forall plain_name names -> components (trim_slashes (uri_of names ++ [SLASH])) = names ++ [[]].
Proof.
  intros Hne Hp. change [SLASH] with (uri_of [[]]). rewrite <- uri_of_app. destruct names as [|n names]; [easy|].
  cbn [app]. apply uri_components_gen; [now apply Forall_cons_iff in Hp as [(? & _) _]|].
  apply (Forall_app _ (n :: names)). split; [now apply plain_slashless|]. repeat constructor. intros [].
Qed.
Lemma uri_no_nul names : Forall plain_name names -> has_nul (uri_of names) = false.
Proof.
  intros H. unfold has_nul. apply not_true_is_false. rewrite existsb_exists. intros (b & Hin & Hb).
  unfold uri_of in Hin. apply in_flat_map in Hin as (n & Hn & [<-|Hin]); [discriminate|].
  rewrite Forall_forall in H. apply Byte.byte_dec_bl in Hb. subst b. now apply (H n Hn).
Qed.

Lemma not_dots n : plain_name n -> is_dots n = false /\ beqb n [] || beqb n (bs ".") = false /\ beqb n (bs "..") = false.
Proof.
  intros (H1 & H2 & H3 & _). apply beqb_false in H1, H2, H3. unfold is_dots. now rewrite H1, H2, H3.
Qed.
Lemma walk_names t names : forall cur x, Forall plain_name names -> at_path t (cur ++ names) = Some x -> walk t cur names = Ok (cur ++ names).
Proof.
  induction names as [|n names IH]; intros cur x Hp H; cbn [walk]; [now rewrite app_nil_r|].
  apply Forall_cons_iff in Hp as [Hn Hp]. destruct (not_dots n Hn) as (_ & E1 & E2). rewrite E1, E2.
  replace (cur ++ n :: names) with ((cur ++ [n]) ++ names) in * by (now rewrite <- app_assoc).
  assert (Hx := H). rewrite at_path_app in H. destruct (at_path t (cur ++ [n])) as [y|] eqn:Ey; [|easy].
  rewrite at_path_app in Ey. destruct (at_path t cur) as [[|es]|]; try easy. cbn [at_path] in Ey.
  destruct (entry n es); [|easy]. now apply (IH (cur ++ [n]) x).
Qed.

(** ** The copy loop *)
Section Copy.
  Context (text : error -> bytes) (n : nat) (p : list bytes) (t : node).
  Notation copying := (file_copy text n p t).

  Lemma file_copy_eq acc : copying acc =
    ReadBody n (fun o =>
      match o with
      | Got [] => Ret (Ok (inl (response_new OK (dyn_of cursor_read ([], 0%N)))), put_at t p (File acc))
      | Got d => copying (acc ++ d)
      | Failed (IoError Interrupted) => copying acc
      | Failed e => Ret (file_error text e, put_at t p (File acc))
      end).
  Proof. now rewrite (unfold_prog (copying acc)) at 1. Qed.

  Lemma file_copy_reads : 0 < n -> forall acc, reads_some (copying acc).
  Proof.
    intros Hn. cofix IH. intros acc. rewrite file_copy_eq. constructor; auto.
    intros [[|b d]|e]; [constructor|apply IH|]. destruct e as [| | | | | | | | | |[]|]; try constructor. apply IH.
  Qed.

  Lemma file_copy_sees : forall xs acc a, sees (copying acc) xs a ->
    (exists data, noisy Std data xs /\ a = (Ok (inl (from_string OK [])), put_at t p (File (acc ++ data))))
    \/ (exists data e xs1 xs2, xs = xs1 ++ E e :: xs2 /\ noisy Std data xs1 /\ is_retry Std e = false
          /\ a = (file_error text e, put_at t p (File (acc ++ data)))).
  Proof.
    intros xs acc a H. remember (copying acc) as q eqn:Eq. revert acc Eq.
    induction H as [| n0 k got xs a Hg Hn H IH|n0 k e xs a H IH|n0 k a Hn H _|]; intros acc Eq; rewrite file_copy_eq in Eq; try easy.
    - injection Eq as -> ->. destruct got as [|g got]; [easy|].
      destruct (IH _ eq_refl) as [(data & Hd & ->)|(data & e & xs1 & xs2 & -> & Hd & He & ->)].
      + left. exists ((g :: got) ++ data). rewrite <- app_assoc. split; auto. apply noisy_app; auto. apply noisy_map.
      + right. exists ((g :: got) ++ data), e, (map B (g :: got) ++ xs1), xs2. rewrite <- !app_assoc. split; auto. split; auto.
        apply noisy_app; auto. apply noisy_map.
    - injection Eq as -> ->. destruct (is_retry Std e) eqn:Er.
      + assert (e = IoError Interrupted) as -> by (destruct e as [| | | | | | | | | |[]|]; try discriminate; reflexivity).
        destruct (IH _ eq_refl) as [(data & Hd & ->)|(data & e & xs1 & xs2 & -> & Hd & He & ->)].
        * left. exists data. split; auto. now constructor.
        * right. exists data, e, (E (IoError Interrupted) :: xs1), xs2. split; auto. split; auto. now constructor.
      + right. exists [], e, [], xs. split; auto. split; [constructor|]. split; auto. rewrite app_nil_r.
        destruct e as [| | | | | | | | | |[]|]; try discriminate; now inversion H.
    - injection Eq as -> ->. left. exists []. split; [constructor|]. rewrite app_nil_r. now inversion H.
  Qed.

  Lemma file_copy_halts : 0 < n -> forall xs acc k, length xs + 1 < k -> halts k (copying acc) xs.
  Proof.
    intros Hn xs. induction xs as [xs IH] using (induction_ltof1 _ (@length _)). unfold ltof in IH. intros acc k Hk.
    destruct k as [|k]; [lia|]. rewrite file_copy_eq. constructor.
    - intros got ys -> Hl Hg. destruct got as [|g got].
      + destruct k as [|k]; [lia|]. constructor.
      + apply IH; rewrite app_length, map_length in *; cbn [length] in *; lia.
    - intros e ys ->. destruct k as [|k]; [cbn [length] in Hk; lia|].
      destruct e as [| | | | | | | | | |[]|]; try constructor. apply IH; cbn [length] in *; lia.
  Qed.

  Lemma file_copy_runs len data acc a : runs len (copying acc) data a ->
    a = (Ok (inl (from_string OK [])), put_at t p (File (acc ++ data))).
  Proof.
    intros H. remember (copying acc) as q eqn:Eq. revert acc Eq.
    induction H as [| n0 k got rest a Hg Hn H IH|n0 k a Hn H _|]; intros acc Eq; rewrite file_copy_eq in Eq; try easy.
    - injection Eq as -> ->. destruct got as [|g got]; [easy|]. rewrite app_assoc. now apply IH.
    - injection Eq as -> ->. rewrite app_nil_r. now inversion H.
  Qed.
  Lemma file_copy_stops len : 0 < n -> forall data acc k, length data + 1 < k -> stops len k (copying acc) data.
  Proof.
    intros Hn data. induction data as [data IH] using (induction_ltof1 _ (@length _)). unfold ltof in IH. intros acc k Hk.
    destruct k as [|k]; [lia|]. rewrite file_copy_eq. constructor. intros got rest -> Hl Hg. destruct got as [|g got].
    - destruct k as [|k]; [lia|]. constructor.
    - apply IH; rewrite app_length in *; cbn [length] in *; lia.
  Qed.
End Copy.

Lemma noisy_bytes bld d part : noisy bld d (map B part) -> part = d.
Proof.
  revert d. induction part as [|b part IH]; intros d H; inversion H; subst; auto. f_equal. auto.
Qed.

(** ** C64. The file server *)
Lemma find_names root names t x : Forall plain_name names -> names <> [] -> at_path t (root ++ names) = Some x -> find root (uri_of names) t = Ok x.
Proof.
  intros Hp Hne Hx. unfold find. rewrite uri_no_nul, uri_components; auto.
  rewrite (walk_names t names root x Hp Hx). cbn [rbind]. now rewrite Hx.
Qed.
Lemma create_names root names n t es : Forall plain_name (names ++ [n]) -> at_path t (root ++ names) = Some (Dir es) ->
  (forall es', entry n es <> Some (Dir es')) -> create root (uri_of (names ++ [n])) t = Ok (root ++ names ++ [n]).
Proof.
  intros Hp Hd Hn. unfold create. rewrite uri_no_nul, uri_components; auto; [|now destruct names].
  rewrite removelast_last, last_last. apply Forall_app in Hp as [Hp Hq]. apply Forall_cons_iff in Hq as [Hq _].
  rewrite (walk_names t names root _ Hp Hd). cbn [rbind]. rewrite Hd.
  destruct (not_dots n Hq) as [-> _]. rewrite <- app_assoc. destruct (entry n es) as [[|es']|]; auto. now destruct (Hn es').
Qed.

(** Everything but the file at [p], and the directories on the way to it, is the same in both trees. *)
Definition same_but (p : list bytes) (t t' : node) : Prop :=
  forall q, (forall s, q <> p ++ s) -> (forall s, p <> q ++ s) -> at_path t' q = at_path t q.

(** GET of a file: its length and exactly its contents, and the tree is unchanged. *)
Theorem C64_get : forall S bld cap (rd : reader S) (wt : writer S) etext log root text n0 bufsz fuel t s first lines zs v h names data,
  0 < cap -> good_request first lines Get (uri_of names) v h -> names <> [] -> Forall plain_name names ->
  at_path t (root ++ names) = Some (File data) ->
  delivers rd s (map B (head_bytes first lines) ++ zs) -> length (map B (head_bytes first lines) ++ zs) < fuel ->
  honest wt log -> reliable wt -> silent rd log -> 0 < bufsz -> bufsz <= fuel -> length data < fuel ->
  length (show_dec (N.of_nat (length data))) + 50 <= fuel ->
  exists s2, serve_stream bld cap rd wt etext (file_handler root text n0) bufsz fuel t s = (Ok tt, [Called Get (uri_of names)], t, s2)
    /\ log s2 = log s ++ bs "HTTP/1.1 200 OK" ++ CRLF ++ bs "content-length: " ++ show_dec (N.of_nat (length data)) ++ CRLF ++ CRLF ++ data.
Proof.
  intros S bld cap rd wt etext log root text n0 bufsz fuel t s first lines zs v h names data Hc Hg Hne Hp Hx D Hl Hh Hr Hs Hb Hbf Hd Hf.
  destruct (serve_one_inner bld cap rd etext (file_handler root text n0) fuel t s) as [[[r cs] t'] s1] eqn:E1.
  destruct (C46_dispatch S node bld cap rd etext (file_handler root text n0) fuel t s first lines zs Get _ v h Hc Hg D Hl _ _ _ _ E1) as [HP _].
  destruct (HP _ eq_refl) as [-> Hr']. cbn [file_handler h_get] in Hr'. unfold file_get in Hr'.
  rewrite (find_names root names t (File data) Hp Hne Hx) in Hr'. injection Hr' as -> ->.
  set (q := response_add_header _ _ _) in E1.
  assert (W : forall d, response_wire q d = bs "HTTP/1.1 200 OK" ++ CRLF ++ bs "content-length: " ++ show_dec (N.of_nat (length data)) ++ CRLF ++ CRLF ++ d).
  { intros d. unfold response_wire, q. cbn [response_add_header from_string response_new rs_version rs_status rs_headers].
    change (status_line_of _ _) with (bs "HTTP/1.1 200 OK"). change (headers_pieces _) with [bs "content-length"; bs ": "; show_dec (N.of_nat (length data)); CRLF].
    cbn [concat]. rewrite app_nil_r. change (bs "content-length: ") with (bs "content-length" ++ bs ": "). now rewrite <- !app_assoc. }
  destruct (C50_complete S node bld cap rd wt etext log (file_handler root text n0) bufsz fuel t s _ _ _ _ q (map B data) data
    Hh Hr Hs Hb E1 (or_introl eq_refl)) as (s2 & E2 & L2); auto.
  - exact (from_string_delivers bld cap fuel OK data Hc).
  - apply noisy_map.
  - rewrite W, !app_length. change (length (bs "HTTP/1.1 200 OK")) with 15. change (length (bs "content-length: ")) with 16.
    change (length CRLF) with 2. change (length (@nil byte)) with 0. lia.
  - now rewrite map_length.
  - exists s2. split; auto. now rewrite L2, W.
Qed.
Print Assumptions C64_get.

(** PUT of a whole body: the file has exactly that payload, everything else is as it was, and the answer is an empty 200. *)
Theorem C64_put : forall S bld cap (rd : reader S) (wt : writer S) etext log root text n0 bufsz fuel t s first lines zs v h names n es payload wire,
  0 < cap -> 0 < n0 -> good_request first lines Put (uri_of (names ++ [n])) v h -> Forall plain_name (names ++ [n]) ->
  at_path t (root ++ names) = Some (Dir es) -> (forall es', entry n es <> Some (Dir es')) ->
  carries h payload wire -> delivers rd s (map B (head_bytes first lines ++ wire) ++ zs) ->
  length (map B (head_bytes first lines ++ wire) ++ zs) + 3 < fuel -> length payload + 1 < fuel ->
  honest wt log -> reliable wt -> silent rd log -> 0 < bufsz -> bufsz <= fuel -> 30 <= fuel ->
  exists t' s2, serve_stream bld cap rd wt etext (file_handler root text n0) bufsz fuel t s
                  = (Ok tt, [Called Put (uri_of (names ++ [n]))], t', s2)
    /\ log s2 = log s ++ bs "HTTP/1.1 200 OK" ++ CRLF ++ CRLF
    /\ at_path t' (root ++ names ++ [n]) = Some (File payload) /\ same_but (root ++ names ++ [n]) t t'.
Proof.
  intros S bld cap rd wt etext log root text n0 bufsz fuel t s first lines zs v h names n es payload wire
    Hc Hn0 Hg Hp Hd Hn Hca D Hl Hpl Hh Hr Hs Hb Hbf Hf.
  assert (EP : h_put (file_handler root text n0) (uri_of (names ++ [n])) t = file_copy text n0 (root ++ names ++ [n]) t []).
  { cbn [file_handler h_put]. unfold file_put. now rewrite (create_names root names n t es Hp Hd Hn). }
  destruct (serve_one_inner bld cap rd etext (file_handler root text n0) fuel t s) as [[[r cs] t'] s1] eqn:E1.
  destruct (C46_body S node bld cap rd etext (file_handler root text n0) fuel t s first lines zs Put _ v h payload wire _ Hc Hg eq_refl Hca D Hl
    ltac:(rewrite EP; now apply file_copy_reads) _ _ _ _ E1) as [-> (len & _ & [(_ & _ & Hst)|Hrun])]; rewrite EP in *.
  { destruct Hst. now apply file_copy_stops. }
  apply file_copy_runs in Hrun. injection Hrun as -> ->. cbn [app] in *.
  destruct (C50_complete S node bld cap rd wt etext log (file_handler root text n0) bufsz fuel t s _ _ _ _ (from_string OK []) [] []
    Hh Hr Hs Hb E1 (or_introl eq_refl)) as (s2 & E2 & L2); auto.
  - exact (from_string_delivers bld cap fuel OK [] Hc).
  - constructor.
  - change (length (response_wire (from_string OK []) [])) with 19. lia.
  - cbn. lia.
  - exists (put_at t (root ++ names ++ [n]) (File payload)), s2. split; [exact E2|]. split; [exact L2|].
    rewrite !app_assoc. split; [exact (put_get (root ++ names) n (File payload) t es Hd)|].
    intros q H1 H2. apply (put_new (root ++ names) n (File payload) t es Hd q); [intros s0 Hq; apply (H1 s0); rewrite Hq; exact (app_assoc (root ++ names) [n] s0)|exact H2].
Qed.
Print Assumptions C64_put.

Lemma noisy_same bld d1 d2 xs : noisy bld d1 xs -> noisy bld d2 xs -> d1 = d2.
Proof. intros H. revert d2. induction H; intros d2 H2; inversion H2; subst; auto. f_equal. auto. Qed.
Lemma noisy_no_error bld d xs e : noisy bld d xs -> is_retry bld e = false -> ~ In (E e) xs.
Proof. intros H He. induction H; cbn [In]; [easy| |]; intros [Hx|Hx]; auto; try discriminate. injection Hx as ->. congruence. Qed.
(** A take at least as long as the data keeps the data (and may leave interruptions at the end). *)
Lemma noisy_take bld d xs n : noisy bld d xs -> (N.of_nat (length d) <= n)%N ->
  exists ys zs, take_items n xs = ys /\ noisy bld d ys /\ xs = ys ++ zs.
Proof.
  intros H. revert n. induction H as [|b d xs H IH|e d xs He H IH]; intros n Hn; cbn [take_items length] in *.
  - exists [], []. repeat split. constructor.
  - destruct (N.eqb_spec n 0); [lia|]. destruct (IH (n - 1)%N ltac:(lia)) as (ys & zs & -> & Hy & ->).
    exists (B b :: ys), zs. repeat split. now constructor.
  - destruct (N.eqb_spec n 0) as [->|Hn0].
    + assert (d = []) as -> by (destruct d; [auto|cbn [length] in Hn; lia]). exists [], (E e :: xs). repeat split. constructor.
    + destruct (IH n Hn) as (ys & zs & -> & Hy & ->). exists (E e :: ys), zs. repeat split. now constructor.
Qed.

(** PUT with a Content-Length of which the peer sends only the first bytes [part] before it closes, with interrupted reads (std) in
    between: the old contents are lost, the file has the part, and the answer is the same empty 200 as for a whole upload. *)
Theorem C64_put_short : forall S bld cap (rd : reader S) (wt : writer S) etext log root text n0 bufsz fuel t s first lines v h names n es part zs w len,
  0 < cap -> 0 < n0 -> good_request first lines Put (uri_of (names ++ [n])) v h -> Forall plain_name (names ++ [n]) ->
  at_path t (root ++ names) = Some (Dir es) -> (forall es', entry n es <> Some (Dir es')) ->
  hm_get (bs "transfer-encoding") h <> Some (bs "chunked") -> hm_get (bs "content-length") h = Some w -> u64_text w len ->
  (N.of_nat (length part) <= len)%N -> noisy Std part zs -> delivers rd s (map B (head_bytes first lines) ++ zs) ->
  length (map B (head_bytes first lines) ++ zs) + 3 < fuel ->
  honest wt log -> reliable wt -> silent rd log -> 0 < bufsz -> bufsz <= fuel -> 30 <= fuel ->
  exists t' s2, serve_stream bld cap rd wt etext (file_handler root text n0) bufsz fuel t s
                  = (Ok tt, [Called Put (uri_of (names ++ [n]))], t', s2)
    /\ log s2 = log s ++ bs "HTTP/1.1 200 OK" ++ CRLF ++ CRLF
    /\ at_path t' (root ++ names ++ [n]) = Some (File part) /\ same_but (root ++ names ++ [n]) t t'.
Proof.
  intros S bld cap rd wt etext log root text n0 bufsz fuel t s first lines v h names n es part zs w len
    Hc Hn0 Hg Hp Hd Hn Ht Hw Hu Hlen Hz D Hl Hh Hr Hs Hb Hbf Hf.
  assert (EP : h_put (file_handler root text n0) (uri_of (names ++ [n])) t = file_copy text n0 (root ++ names ++ [n]) t []).
  { cbn [file_handler h_put]. unfold file_put. now rewrite (create_names root names n t es Hp Hd Hn). }
  destruct (serve_one_inner bld cap rd etext (file_handler root text n0) fuel t s) as [[[r cs] t'] s1] eqn:E1.
  destruct (C46_limited_body S node bld cap rd etext (file_handler root text n0) fuel t s first lines zs Put _ v h w len _ Hc Hg eq_refl Ht Hw Hu D Hl
    ltac:(rewrite EP; now apply file_copy_reads) _ _ _ _ E1) as [-> Hx]. rewrite EP in Hx.
  destruct (noisy_take Std part zs len Hz Hlen) as (ys & zs' & Hy & Hny & Hzs). rewrite Hy in Hx.
  destruct Hx as [(_ & _ & Hst)|Hsee].
  { destruct Hst. apply file_copy_halts; auto. rewrite app_length, Hzs, app_length in Hl. lia. }
  apply file_copy_sees in Hsee. destruct Hsee as [(d & Hd' & Ha)|(d & e & xs1 & xs2 & Hx & _ & He & _)].
  2: { exfalso. apply (noisy_no_error Std part ys e Hny); auto. rewrite Hx. apply in_or_app. right. now left. }
  rewrite <- (noisy_same Std part d ys Hny Hd') in Ha. injection Ha as -> ->. cbn [app] in *.
  destruct (C50_complete S node bld cap rd wt etext log (file_handler root text n0) bufsz fuel t s _ _ _ _ (from_string OK []) [] []
    Hh Hr Hs Hb E1 (or_introl eq_refl)) as (s2 & E2 & L2); auto.
  - exact (from_string_delivers bld cap fuel OK [] Hc).
  - constructor.
  - change (length (response_wire (from_string OK []) [])) with 19. lia.
  - cbn. lia.
  - exists (put_at t (root ++ names ++ [n]) (File part)), s2. split; [exact E2|]. split; [exact L2|].
    rewrite !app_assoc. split; [exact (put_get (root ++ names) n (File part) t es Hd)|].
    intros q H1 H2. apply (put_new (root ++ names) n (File part) t es Hd q); [intros s0 Hq; apply (H1 s0); rewrite Hq; exact (app_assoc (root ++ names) [n] s0)|exact H2].
Qed.
Print Assumptions C64_put_short.

Lemma last_error p e xs1 e' xs2 : map B p ++ [E e] = xs1 ++ E e' :: xs2 -> xs1 = map B p /\ e' = e.
Proof.
  revert xs1. induction p as [|b p IH]; intros xs1 H; destruct xs1 as [|x xs1]; cbn in H.
  - now injection H as -> _.
  - injection H as _ H. now destruct xs1.
  - discriminate.
  - injection H as <- H. apply IH in H as [-> ->]. auto.
Qed.
Lemma noisy_error_end bld d p e : noisy bld d (map B p ++ [E e]) -> is_retry bld e = true.
Proof.
  revert d. induction p as [|b p IH]; intros d H; inversion H; subst; eauto.
Qed.

(** PUT of a chunked body that is cut off: the client is told, by a 500, but the old contents are lost all the same
    and the file has a part of the payload. *)
Theorem C64_put_broken : forall S cap (rd : reader S) (wt : writer S) etext log root text n0 bufsz fuel t s first lines v h names n es payload wire cut missing tail,
  0 < cap -> 0 < n0 -> good_request first lines Put (uri_of (names ++ [n])) v h -> Forall plain_name (names ++ [n]) ->
  at_path t (root ++ names) = Some (Dir es) -> (forall es', entry n es <> Some (Dir es')) ->
  hm_get (bs "transfer-encoding") h = Some (bs "chunked") ->
  chunked_wire payload wire -> wire = cut ++ missing -> missing <> [] ->
  (tail = [] \/ exists e ys, tail = E e :: ys /\ is_retry Std e = false) ->
  delivers rd s (map B (head_bytes first lines ++ cut) ++ tail) ->
  length (map B (head_bytes first lines ++ cut) ++ tail) + 3 < fuel -> length payload + 2 < fuel ->
  honest wt log -> reliable wt -> silent rd log -> 0 < bufsz -> bufsz <= fuel -> (forall e, length (text e) + 50 <= fuel) ->
  exists p q e t' s2, payload = p ++ q
    /\ serve_stream Std cap rd wt etext (file_handler root text n0) bufsz fuel t s
         = (Ok tt, [Called Put (uri_of (names ++ [n]))], t', s2)
    /\ log s2 = log s ++ bs "HTTP/1.1 500 Internal Server Error" ++ CRLF ++ CRLF ++ text e
    /\ (forall e0 ys, tail = E e0 :: ys -> e = e0 \/ e = to_io Std e0)
    /\ (tail = [] -> e = io_eof Std \/ e = to_io Std UnexpectedEof)
    /\ at_path t' (root ++ names ++ [n]) = Some (File p) /\ same_but (root ++ names ++ [n]) t t'.
Proof.
  intros S cap rd wt etext log root text n0 bufsz fuel t s first lines v h names n es payload wire cut missing tail
    Hc Hn0 Hg Hp Hd Hn Ht Hw Hcut Hm Htail D Hl Hpl Hh Hr Hs Hb Hbf Hf.
  assert (EP : h_put (file_handler root text n0) (uri_of (names ++ [n])) t = file_copy text n0 (root ++ names ++ [n]) t []).
  { cbn [file_handler h_put]. unfold file_put. now rewrite (create_names root names n t es Hp Hd Hn). }
  destruct (serve_one_inner Std cap rd etext (file_handler root text n0) fuel t s) as [[[r cs] t'] s1] eqn:E1.
  destruct (C46_broken_body S node Std cap rd etext (file_handler root text n0) fuel t s first lines Put _ v h payload wire cut missing tail _
    Hc Hg eq_refl Ht Hw Hcut Hm Htail D Hl ltac:(rewrite EP; now apply file_copy_reads) _ _ _ _ E1)
    as [-> (p & q & e & Hpq & He1 & He2 & Hx)]. rewrite EP in Hx.
  assert (Hre : is_retry Std e = false).
  { destruct Htail as [->|(e0 & ys & -> & He0)].
    - destruct (He2 eq_refl) as [->| ->]; reflexivity.
    - destruct (He1 _ _ eq_refl) as [->| ->]; auto. }
  destruct Hx as [(_ & _ & Hst)|Hsee].
  { destruct Hst. apply file_copy_halts; auto. rewrite Hpq, app_length in Hpl. rewrite app_length, map_length. cbn [length]. lia. }
  apply file_copy_sees in Hsee. destruct Hsee as [(d & Hd' & _)|(d & e' & xs1 & xs2 & Hx & Hd' & _ & Ha)].
  { apply noisy_error_end in Hd'. congruence. }
  apply last_error in Hx as [-> ->]. rewrite <- (noisy_bytes Std d p Hd') in Ha. injection Ha as -> ->. cbn [app] in *.
  destruct (C50_complete S node Std cap rd wt etext log (file_handler root text n0) bufsz fuel t s _ _ _ _
    (from_string InternalServerError (text e)) (map B (text e)) (text e) Hh Hr Hs Hb E1 (or_intror eq_refl)) as (s2 & E2 & L2); auto.
  - exact (from_string_delivers Std cap fuel InternalServerError (text e) Hc).
  - apply noisy_map.
  - change (length (response_wire (from_string InternalServerError (text e)) [])) with 38. specialize (Hf e). lia.
  - rewrite map_length. specialize (Hf e). lia.
  - exists p, q, e, (put_at t (root ++ names ++ [n]) (File p)), s2. split; [exact Hpq|]. split; [exact E2|]. split; [exact L2|].
    split; [exact He1|]. split; [exact He2|].
    rewrite !app_assoc. split; [exact (put_get (root ++ names) n (File p) t es Hd)|].
    intros q0 H1 H2. apply (put_new (root ++ names) n (File p) t es Hd q0); [intros s0 Hq; apply (H1 s0); rewrite Hq; exact (app_assoc (root ++ names) [n] s0)|exact H2].
Qed.
Print Assumptions C64_put_broken.

Lemma answer_500 S bld cap (rd : reader S) (wt : writer S) etext log (hd : handler node) bufsz fuel t s cs t' s1 (text : bytes) :
  0 < cap -> serve_one_inner bld cap rd etext hd fuel t s = (Ok (inr (from_string InternalServerError text)), cs, t', s1) ->
  honest wt log -> reliable wt -> silent rd log -> 0 < bufsz -> bufsz <= fuel -> length text + 50 <= fuel ->
  exists s2, serve_stream bld cap rd wt etext hd bufsz fuel t s = (Ok tt, cs, t', s2)
    /\ log s2 = log s ++ bs "HTTP/1.1 500 Internal Server Error" ++ CRLF ++ CRLF ++ text.
Proof.
  intros Hc E1 Hh Hr Hs Hb Hbf Hf.
  destruct (C50_complete S node bld cap rd wt etext log hd bufsz fuel t s _ _ _ _
    (from_string InternalServerError text) (map B text) text Hh Hr Hs Hb E1 (or_intror eq_refl)) as (s2 & E2 & L2); auto.
  - exact (from_string_delivers bld cap fuel InternalServerError text Hc).
  - apply noisy_map.
  - change (length (response_wire (from_string InternalServerError text) [])) with 38. lia.
  - rewrite map_length. lia.
  - exists s2. split; [exact E2|exact L2].
Qed.

(** A file is where the path needs a directory. *)
Definition through_file (t : node) (root names : list bytes) : Prop :=
  exists pre post d, names = pre ++ post /\ post <> [] /\ at_path t (root ++ pre) = Some (File d).

Lemma walk_missing t names : forall root x, Forall plain_name names -> at_path t root = Some x -> at_path t (root ++ names) = None ->
  (walk t root names = Err ENOTDIR /\ through_file t root names) \/ (walk t root names = Err ENOENT /\ ~ through_file t root names).
Proof.
  induction names as [|n names IH]; intros root x Hp Hx Hn; [rewrite app_nil_r in Hn; congruence|].
  apply Forall_cons_iff in Hp as [Hpn Hp]. destruct (not_dots n Hpn) as (_ & E1 & E2). cbn [walk]. rewrite Hx, E1, E2.
  assert (Ea : root ++ n :: names = (root ++ [n]) ++ names) by (now rewrite <- app_assoc).
  destruct x as [d|es].
  - left. split; auto. exists [], (n :: names), d. rewrite app_nil_r. split; auto. split; [discriminate|auto].
  - assert (Hnx : at_path t (root ++ [n]) = entry n es) by (rewrite at_path_app, Hx; cbn [at_path]; now destruct (entry n es)).
    destruct (entry n es) as [y|] eqn:Ey.
    + rewrite Ea in Hn. destruct (IH (root ++ [n]) y Hp Hnx Hn) as [[-> (pre & post & d & -> & H2 & H3)]|[-> H]].
      * left. split; auto. exists (n :: pre), post, d. rewrite <- app_assoc in H3. auto.
      * right. split; auto. intros (pre & post & d & H1 & H2 & H3). apply H. destruct pre as [|m pre].
        -- rewrite app_nil_r in H3. congruence.
        -- injection H1 as <- ->. exists pre, post, d. rewrite <- app_assoc. auto.
    + right. split; auto. intros (pre & post & d & H1 & H2 & H3). destruct pre as [|m pre].
      * rewrite app_nil_r in H3. congruence.
      * injection H1 as <- H1. replace (root ++ n :: pre) with ((root ++ [n]) ++ pre) in H3 by (now rewrite <- app_assoc).
        rewrite at_path_app, Hnx in H3. discriminate.
Qed.

(** GET where nothing is: a 500, not a 404. *)
Theorem C64_missing : forall S bld cap (rd : reader S) (wt : writer S) etext log root text n0 bufsz fuel t s first lines zs v h names x,
  0 < cap -> good_request first lines Get (uri_of names) v h -> Forall plain_name names ->
  at_path t root = Some x -> at_path t (root ++ names) = None ->
  delivers rd s (map B (head_bytes first lines) ++ zs) -> length (map B (head_bytes first lines) ++ zs) < fuel ->
  honest wt log -> reliable wt -> silent rd log -> 0 < bufsz -> bufsz <= fuel -> (forall e, length (text e) + 50 <= fuel) ->
  exists e s2, serve_stream bld cap rd wt etext (file_handler root text n0) bufsz fuel t s = (Ok tt, [Called Get (uri_of names)], t, s2)
    /\ log s2 = log s ++ bs "HTTP/1.1 500 Internal Server Error" ++ CRLF ++ CRLF ++ text e
    /\ ((e = ENOTDIR /\ through_file t root names) \/ (e = ENOENT /\ ~ through_file t root names)).
Proof.
  intros S bld cap rd wt etext log root text n0 bufsz fuel t s first lines zs v h names x Hc Hg Hp Hx Hn D Hl Hh Hr Hs Hb Hbf Hf.
  assert (Hne : names <> []) by (intros ->; rewrite app_nil_r in Hn; congruence).
  destruct (serve_one_inner bld cap rd etext (file_handler root text n0) fuel t s) as [[[r cs] t'] s1] eqn:E1.
  destruct (C46_dispatch S node bld cap rd etext (file_handler root text n0) fuel t s first lines zs Get _ v h Hc Hg D Hl _ _ _ _ E1) as [HP _].
  destruct (HP _ eq_refl) as [-> Hr']. cbn [file_handler h_get] in Hr'. unfold file_get, find in Hr'.
  rewrite uri_no_nul, uri_components in Hr' by auto.
  assert (EW : exists e, walk t root names = Err e /\ ((e = ENOTDIR /\ through_file t root names) \/ (e = ENOENT /\ ~ through_file t root names)))
    by (destruct (walk_missing t names root x Hp Hx Hn) as [[-> H]|[-> H]]; eauto).
  destruct EW as (e & EW & He). rewrite EW in Hr'. cbn [rbind] in Hr'. injection Hr' as -> ->.
  destruct (answer_500 S bld cap rd wt etext log _ bufsz fuel t s _ _ _ _ Hc E1 Hh Hr Hs Hb Hbf (Hf e)) as (s2 & E2 & L2). eauto.
Qed.
Print Assumptions C64_missing.

(** PUT onto a directory, into something that is no directory, or to a path that ends in a slash: a 500, and nothing is changed. *)
Theorem C64_put_refused : forall S bld cap (rd : reader S) (wt : writer S) etext log root text n0 bufsz fuel t s first lines zs v h names n u payload wire,
  0 < cap -> 0 < n0 -> good_request first lines Put u v h -> Forall plain_name (names ++ [n]) -> (exists x, at_path t root = Some x) ->
  ((u = uri_of (names ++ [n]) /\ ((exists es, at_path t (root ++ names ++ [n]) = Some (Dir es)) \/ (forall es, at_path t (root ++ names) <> Some (Dir es))))
   \/ u = uri_of (names ++ [n]) ++ [SLASH]) ->
  carries h payload wire -> delivers rd s (map B (head_bytes first lines ++ wire) ++ zs) ->
  length (map B (head_bytes first lines ++ wire) ++ zs) + 3 < fuel ->
  honest wt log -> reliable wt -> silent rd log -> 0 < bufsz -> bufsz <= fuel -> (forall e, length (text e) + 50 <= fuel) ->
  exists e s2, serve_stream bld cap rd wt etext (file_handler root text n0) bufsz fuel t s = (Ok tt, [Called Put u], t, s2)
    /\ log s2 = log s ++ bs "HTTP/1.1 500 Internal Server Error" ++ CRLF ++ CRLF ++ text e.
Proof.
  intros S bld cap rd wt etext log root text n0 bufsz fuel t s first lines zs v h names n u payload wire
    Hc Hn0 Hg Hp (x & Hx) Hu Hca D Hl Hh Hr Hs Hb Hbf Hf.
  assert (EC : exists e, create root u t = Err e).
  { unfold create. assert (Hns : Forall plain_name names /\ plain_name n) by (apply Forall_app in Hp as [? Hq]; now apply Forall_cons_iff in Hq as [? _]).
    destruct Hns as [Hps Hpn].
    assert (Hw : forall ns, Forall plain_name ns -> (exists e, walk t root ns = Err e) \/ (walk t root ns = Ok (root ++ ns) /\ exists y, at_path t (root ++ ns) = Some y)).
    { intros ns Hns. destruct (at_path t (root ++ ns)) as [y|] eqn:Ey.
      - right. split; eauto. now apply (walk_names t ns root y).
      - left. destruct (walk_missing t ns root x Hns Hx Ey) as [[-> _]|[-> _]]; eauto. }
    destruct Hu as [[-> Hu]| ->].
    - rewrite uri_no_nul, uri_components by (auto; now destruct names). rewrite removelast_last, last_last.
      destruct (Hw names Hps) as [[e ->]|[-> [y Ey]]]; cbn [rbind]; eauto. rewrite Ey. destruct y as [d|es]; eauto.
      destruct Hu as [[es' Hu]|Hu]; [|now destruct (Hu es)]. destruct (not_dots n Hpn) as [-> _].
      rewrite app_assoc, at_path_app, Ey in Hu. cbn [at_path] in Hu. destruct (entry n es) as [[|]|]; try discriminate. eauto.
    - assert (En : has_nul (uri_of (names ++ [n]) ++ [SLASH]) = false).
      { unfold has_nul. rewrite existsb_app. fold (has_nul (uri_of (names ++ [n]))). now rewrite uri_no_nul. }
      rewrite En, uri_components_slash by (auto; now destruct names).
      rewrite removelast_last, last_last. destruct (Hw _ Hp) as [[e ->]|[-> [y Ey]]]; cbn [rbind]; eauto. rewrite Ey. destruct y; [eauto|]. exists EISDIR. reflexivity. }
  destruct EC as [e EC].
  assert (EP : h_put (file_handler root text n0) u t = Ret (file_error text e, t)).
  { cbn [file_handler h_put]. unfold file_put. now rewrite EC. }
  destruct (serve_one_inner bld cap rd etext (file_handler root text n0) fuel t s) as [[[r cs] t'] s1] eqn:E1.
  destruct (C46_body S node bld cap rd etext (file_handler root text n0) fuel t s first lines zs Put _ v h payload wire _ Hc Hg eq_refl Hca D Hl
    ltac:(rewrite EP; constructor) _ _ _ _ E1) as [-> (len & _ & [(_ & _ & Hst)|Hrun])]; rewrite EP in *.
  { destruct Hst. destruct fuel; [lia|]. constructor. }
  inversion Hrun; subst.
  destruct (answer_500 S bld cap rd wt etext log _ bufsz fuel _ s _ _ _ _ Hc E1 Hh Hr Hs Hb Hbf (Hf e)) as (s2 & E2 & L2). eauto.
Qed.
Print Assumptions C64_put_refused.

(** GET of a directory: a page with one item for every entry whose name is UTF-8, in the order of the directory. *)
Definition item_of (e : bytes * node) (i : bytes) : Prop :=
  (is_utf8 (fst e) /\ exists slash, i = bs "<li><a href=""" ++ fst e ++ slash ++ bs """>" ++ fst e ++ bs "</a></br>"
     /\ ((exists es, snd e = Dir es) /\ slash = bs "/" \/ (exists d, snd e = File d) /\ slash = []))
  \/ (~ is_utf8 (fst e) /\ i = []).
Lemma page_shape uri es : exists a b c, page uri es = a ++ bs "<h2>Directory listing for " ++ uri ++ bs "</h2>" ++ b ++ bs "<ul>"
  ++ LF :: bs "                " ++ flat_map list_item es ++ LF :: bs "                " ++ bs "</ul>" ++ c.
Proof.
  set (sp := bs "                "). unfold page, page_line. cbv zeta. fold sp.
  exists ((LF :: sp ++ bs "<html>") ++ (LF :: sp ++ bs "<title>Directory listing for " ++ uri ++ bs "</title>") ++ LF :: sp),
    ((LF :: sp ++ bs "<body>") ++ (LF :: sp ++ bs "<hr>") ++ LF :: sp), ((LF :: sp ++ bs "<hr>") ++ (LF :: sp ++ bs "</body>")
    ++ (LF :: sp ++ bs "</html>") ++ LF :: bs "            " ++ []).
  repeat (rewrite <- app_assoc || rewrite <- app_comm_cons). reflexivity.
Qed.
Theorem C64_directory : forall S bld cap (rd : reader S) (wt : writer S) etext log root text n0 bufsz fuel t s first lines zs v h names es,
  0 < cap -> good_request first lines Get (uri_of names) v h -> names <> [] -> Forall plain_name names ->
  at_path t (root ++ names) = Some (Dir es) ->
  delivers rd s (map B (head_bytes first lines) ++ zs) -> length (map B (head_bytes first lines) ++ zs) < fuel ->
  honest wt log -> reliable wt -> silent rd log -> 0 < bufsz -> bufsz <= fuel -> length (page (uri_of names) es) + 30 <= fuel ->
  exists s2 a b c items, serve_stream bld cap rd wt etext (file_handler root text n0) bufsz fuel t s = (Ok tt, [Called Get (uri_of names)], t, s2)
    /\ log s2 = log s ++ bs "HTTP/1.1 200 OK" ++ CRLF ++ CRLF
         ++ a ++ bs "<h2>Directory listing for " ++ uri_of names ++ bs "</h2>" ++ b ++ bs "<ul>" ++ LF :: bs "                " ++ concat items
         ++ LF :: bs "                " ++ bs "</ul>" ++ c
    /\ Forall2 item_of es items.
Proof.
  intros S bld cap rd wt etext log root text n0 bufsz fuel t s first lines zs v h names es Hc Hg Hne Hp Hx D Hl Hh Hr Hs Hb Hbf Hf.
  destruct (serve_one_inner bld cap rd etext (file_handler root text n0) fuel t s) as [[[r cs] t'] s1] eqn:E1.
  destruct (C46_dispatch S node bld cap rd etext (file_handler root text n0) fuel t s first lines zs Get _ v h Hc Hg D Hl _ _ _ _ E1) as [HP _].
  destruct (HP _ eq_refl) as [-> Hr']. cbn [file_handler h_get] in Hr'. unfold file_get in Hr'.
  rewrite (find_names root names t (Dir es) Hp Hne Hx) in Hr'. injection Hr' as -> ->.
  destruct (C50_complete S node bld cap rd wt etext log (file_handler root text n0) bufsz fuel t s _ _ _ _
    (from_string OK (page (uri_of names) es)) (map B (page (uri_of names) es)) (page (uri_of names) es) Hh Hr Hs Hb E1 (or_introl eq_refl)) as (s2 & E2 & L2); auto.
  - exact (from_string_delivers bld cap fuel OK _ Hc).
  - apply noisy_map.
  - change (length (response_wire (from_string OK (page (uri_of names) es)) [])) with 19. lia.
  - rewrite map_length. lia.
  - destruct (page_shape (uri_of names) es) as (a & b & c & Hpage).
    exists s2, a, b, c, (map list_item es). split; [exact E2|]. split.
    + rewrite L2. f_equal. change (response_wire (from_string OK (page (uri_of names) es)) (page (uri_of names) es))
        with (bs "HTTP/1.1 200 OK" ++ CRLF ++ CRLF ++ page (uri_of names) es). now rewrite Hpage, flat_map_concat_map.
    + clear. induction es as [|[n x] es IH]; constructor; auto. unfold item_of, list_item. cbn [fst snd].
      destruct (utf8_valid n) eqn:En; [left|right].
      * split; [now apply is_utf8_valid|]. destruct x; eexists; (split; [reflexivity|]); [right|left]; eauto.
      * split; auto. rewrite is_utf8_valid. congruence.
Qed.
Print Assumptions C64_directory.

(** A path with a zero byte is refused. *)
Theorem C64_nul : forall root text n0 u t, In x00 u ->
  h_get (file_handler root text n0) u t = (Ok (inr (from_string InternalServerError (text (IoError KInvalidInput)))), t)
  /\ h_put (file_handler root text n0) u t = Ret (Ok (inr (from_string InternalServerError (text (IoError KInvalidInput)))), t).
Proof.
  intros root text n0 u t H. assert (E : has_nul u = true) by (apply existsb_exists; exists x00; auto).
  cbn [file_handler h_get h_put]. unfold file_get, file_put, find, create. rewrite E. auto.
Qed.
Print Assumptions C64_nul.

(** ** C65. What stays inside the served directory *)
(** At no point of the path have there been more [".."] than names. *)
Definition ups (cs : list bytes) : nat := length (filter (fun c => beqb c (bs "..")) cs).
Definition downs (cs : list bytes) : nat := length (filter (fun c => negb (beqb c [] || beqb c (bs ".") || beqb c (bs ".."))) cs).
Definition within (k : nat) (cs : list bytes) : Prop := forall pre post, cs = pre ++ post -> ups pre <= k + downs pre.
Definition stays (uri : bytes) : Prop := within 0 (components (trim_slashes uri)).

Lemma within_step k c cs : within k (c :: cs) ->
  if beqb c [] || beqb c (bs ".") then within k cs
  else if beqb c (bs "..") then 0 < k /\ within (k - 1) cs else within (k + 1) cs.
Proof.
  intros H. destruct (beqb c [] || beqb c (bs ".")) eqn:E1; [|destruct (beqb c (bs "..")) eqn:E2].
  - intros pre post ->. specialize (H (c :: pre) post eq_refl). unfold ups, downs in *. cbn [filter] in H. rewrite E1 in H. cbn [orb negb] in H.
    destruct (beqb c (bs "..")) eqn:E2; [|exact H]. apply beqb_true in E2. subst c. discriminate.
  - assert (0 < k). { specialize (H [c] cs eq_refl). unfold ups, downs in H. cbn [filter] in H. rewrite E1, E2 in H. cbn in H. lia. }
    split; auto. intros pre post ->. specialize (H (c :: pre) post eq_refl). unfold ups, downs in *. cbn [filter] in H.
    rewrite E1, E2 in H. cbn [orb negb length] in H. lia.
  - intros pre post ->. specialize (H (c :: pre) post eq_refl). unfold ups, downs in *. cbn [filter] in H.
    rewrite E1, E2 in H. cbn [orb negb length] in H. lia.
Qed.
Lemma walk_within root t t' x : at_path t root = Some x -> at_path t' root = Some x -> forall cs b, within (length b) cs ->
  walk t (root ++ b) cs = walk t' (root ++ b) cs /\ forall p, walk t (root ++ b) cs = Ok p -> exists b', p = root ++ b'.
Proof.
  intros H1 H2. induction cs as [|c cs IH]; intros b Hw; cbn [walk].
  - split; auto. intros p [= <-]. eauto.
  - apply within_step in Hw. rewrite !at_path_app, H1, H2. destruct (at_path x b) as [[d|es]|]; try (split; [reflexivity|discriminate]).
    destruct (beqb c [] || beqb c (bs ".")); [now apply IH|]. destruct (beqb c (bs "..")).
    + destruct Hw as [Hk Hw]. destruct b as [|m b] using rev_ind; [cbn in Hk; lia|]. clear IHb.
      rewrite app_assoc, removelast_last. apply IH. rewrite app_length in Hw. cbn [length] in Hw. now replace (length b) with (length b + 1 - 1) by lia.
    + destruct (entry c es); [|split; [reflexivity|discriminate]]. rewrite <- app_assoc. apply IH. now rewrite app_length.
Qed.
Lemma within_prefix k cs ds : within k (cs ++ ds) -> within k cs.
Proof. intros H pre post ->. apply (H pre (post ++ ds)). now rewrite app_assoc. Qed.

Lemma find_within root t t' x uri : at_path t root = Some x -> at_path t' root = Some x -> stays uri -> find root uri t = find root uri t'.
Proof.
  intros H1 H2 Hs. unfold find. destruct (has_nul uri); auto.
  destruct (walk_within root t t' x H1 H2 _ [] Hs) as [E Hp]. rewrite app_nil_r in *. rewrite <- E.
  destruct (walk t root _) as [p| | |]; auto. destruct (Hp p eq_refl) as [b ->]. cbn [rbind]. now rewrite !at_path_app, H1, H2.
Qed.
Lemma create_within root t t' x uri : at_path t root = Some x -> at_path t' root = Some x -> stays uri ->
  create root uri t = create root uri t' /\ forall p, create root uri t = Ok p -> exists b, p = root ++ b.
Proof.
  intros H1 H2 Hs. unfold create. destruct (has_nul uri); [split; [reflexivity|discriminate]|]. unfold stays in Hs.
  set (cs := components (trim_slashes uri)) in *.
  assert (Hw : within 0 (removelast cs)).
  { destruct cs as [|c cs'] using rev_ind; [exact Hs|]. rewrite removelast_last. now apply within_prefix in Hs. }
  destruct (walk_within root t t' x H1 H2 _ [] Hw) as [E Hp]. rewrite app_nil_r in *. rewrite <- E.
  destruct (walk t root (removelast cs)) as [d| | |]; try (split; [reflexivity|discriminate]). destruct (Hp d eq_refl) as [b ->]. cbn [rbind].
  rewrite !at_path_app, H1, H2. split; auto. destruct (at_path x b) as [[|es]|]; try discriminate.
  destruct (is_dots _); [discriminate|]. intros p. destruct (entry _ es) as [[|]|]; try discriminate; intros [= <-]; rewrite <- app_assoc; eauto.
Qed.

Lemma file_copy_moves text n p t t' : forall xs acc a, sees (file_copy text n p t acc) xs a ->
  exists r d, a = (r, put_at t p (File d)) /\ sees (file_copy text n p t' acc) xs (r, put_at t' p (File d)).
Proof.
  intros xs acc a H. remember (file_copy text n p t acc) as q eqn:Eq. revert acc Eq.
  induction H as [| n0 k got xs a Hg Hn H IH|n0 k e xs a H IH|n0 k a Hn H _|]; intros acc Eq; rewrite file_copy_eq in Eq; try easy;
    injection Eq as -> ->.
  - destruct got as [|g got]; [easy|]. destruct (IH _ eq_refl) as (r & d & -> & Hs). exists r, d. split; auto.
    rewrite file_copy_eq. now apply (sees_read n _ (g :: got)).
  - destruct (is_retry Std e) eqn:Er.
    + assert (e = IoError Interrupted) as -> by (destruct e as [| | | | | | | | | |[]|]; try discriminate; reflexivity).
      destruct (IH _ eq_refl) as (r & d & -> & Hs). exists r, d. split; auto. rewrite file_copy_eq. now constructor.
    + exists (file_error text e), acc. rewrite file_copy_eq.
      split; [destruct e as [| | | | | | | | | |[]|]; try discriminate; now inversion H|].
      constructor. destruct e as [| | | | | | | | | |[]|]; try discriminate; constructor.
  - eexists _, acc. rewrite file_copy_eq. split; [inversion H; reflexivity|]. constructor; auto. constructor.
Qed.

Lemma walk_app t a : forall cur b, walk t cur (a ++ b) = do p <- walk t cur a; walk t p b.
Proof.
  induction a as [|c a IH]; intros cur b; [reflexivity|]. cbn [app walk]. destruct (at_path t cur) as [[|es]|]; auto.
  destruct (_ || _); [apply IH|]. destruct (beqb c (bs "..")); [apply IH|]. destruct (entry c es); [apply IH|reflexivity].
Qed.
Lemma find_slashed root n names t : n <> [] -> Forall (fun n => ~ In SLASH n) (n :: names) -> Forall (fun n => ~ In x00 n) (n :: names) ->
  find root (uri_of (n :: names)) t = do p <- walk t root (n :: names); match at_path t p with Some x => Ok x | None => Err ENOENT end.
Proof.
  intros Hn Hs Hz. unfold find. rewrite uri_components_gen by auto. assert (E : has_nul (uri_of (n :: names)) = false); [|now rewrite E].
  unfold has_nul. apply not_true_is_false. rewrite existsb_exists. intros (b & Hin & Hb). unfold uri_of in Hin.
  apply in_flat_map in Hin as (m & Hm & [<-|Hin]); [discriminate|]. rewrite Forall_forall in Hz. apply Byte.byte_dec_bl in Hb. subst b.
  now apply (Hz m Hm).
Qed.
Lemma plain_nulless names : Forall plain_name names -> Forall (fun n => ~ In x00 n) names.
Proof. apply Forall_impl. now intros n (_ & _ & _ & _ & ?). Qed.

(** Inside a path, nothing between two slashes, a dot, and a directory followed by two dots make no difference. *)
Theorem C65_dots : forall root text n0 t a mid b data, a <> [] -> b <> [] -> Forall plain_name (a ++ b) ->
  at_path t (root ++ a ++ b) = Some (File data) ->
  (mid = [[]] \/ mid = [bs "."] \/ exists m es, mid = [m; bs ".."] /\ plain_name m /\ at_path t (root ++ a ++ [m]) = Some (Dir es)) ->
  fst (h_get (file_handler root text n0) (uri_of (a ++ mid ++ b)) t) = fst (h_get (file_handler root text n0) (uri_of (a ++ b)) t).
Proof.
  intros root text n0 t a mid b data Ha Hb Hp Hx Hm. cbn [file_handler h_get]. unfold file_get. cbn [fst].
  rewrite (find_names root (a ++ b) t (File data) Hp ltac:(now destruct a) Hx).
  enough (E : find root (uri_of (a ++ mid ++ b)) t = Ok (File data)) by now rewrite E.
  assert (Hpa := Hp). apply Forall_app in Hpa as [Hpa Hpb].
  assert (Hmid : Forall (fun n => ~ In SLASH n) mid /\ Forall (fun n => ~ In x00 n) mid).
  { destruct Hm as [->|[->|(m & es & -> & (_ & _ & _ & H1 & H2) & _)]]; split; repeat constructor; auto; cbn; intuition discriminate. }
  destruct Hmid as [Hm1 Hm2].
  assert (Hda : exists es, at_path t (root ++ a) = Some (Dir es)).
  { rewrite app_assoc, at_path_app in Hx. destruct (at_path t (root ++ a)) as [[d|es]|]; eauto; destruct b; easy. }
  destruct Hda as [es Hda].
  assert (EF : find root (uri_of (a ++ mid ++ b)) t = do p <- walk t root (a ++ mid ++ b); match at_path t p with Some x => Ok x | None => Err ENOENT end).
  { destruct a as [|n a]; [easy|]. cbn [app]. apply find_slashed.
    - now apply Forall_cons_iff in Hpa as [(? & _) _].
    - change (n :: a ++ mid ++ b) with ((n :: a) ++ mid ++ b). rewrite !Forall_app. auto using plain_slashless.
    - change (n :: a ++ mid ++ b) with ((n :: a) ++ mid ++ b). rewrite !Forall_app. auto using plain_nulless. }
  assert (EM : walk t (root ++ a) mid = Ok (root ++ a)).
  { destruct Hm as [->|[->|(m & es' & -> & Hpm & Hdm)]]; cbn [walk]; rewrite Hda; try reflexivity.
    destruct (not_dots m Hpm) as (_ & -> & ->). assert (Hdm2 := Hdm). rewrite app_assoc, at_path_app, Hda in Hdm2. cbn [at_path] in Hdm2.
    destruct (entry m es); [|discriminate]. rewrite <- app_assoc, Hdm. change (beqb (bs "..") [] || beqb (bs "..") (bs ".")) with false.
    change (beqb (bs "..") (bs "..")) with true. cbv iota. now rewrite app_assoc, removelast_last. }
  rewrite EF, walk_app, (walk_names t a root _ Hpa Hda). cbn [rbind]. rewrite walk_app, EM. cbn [rbind].
  rewrite (walk_names t b (root ++ a) (File data) Hpb) by (now rewrite <- app_assoc). cbn [rbind]. now rewrite <- app_assoc, Hx.
Qed.
Print Assumptions C65_dots.

(** If no prefix of the path leads above the served directory, then what the handler answers, whatever the body does,
    depends on nothing outside that directory, and nothing outside it is changed. *)
Theorem C65_confined : forall root text n0 uri t t' x, at_path t root = Some x -> at_path t' root = Some x -> stays uri ->
  (fst (h_get (file_handler root text n0) uri t) = fst (h_get (file_handler root text n0) uri t')
   /\ snd (h_get (file_handler root text n0) uri t) = t)
  /\ forall xs r t1, sees (h_put (file_handler root text n0) uri t) xs (r, t1) ->
     exists y, t1 = put_at t root y /\ sees (h_put (file_handler root text n0) uri t') xs (r, put_at t' root y)
       /\ forall q, (forall s, q <> root ++ s) -> (forall s, root <> q ++ s) -> at_path t1 q = at_path t q.
Proof.
  intros root text n0 uri t t' x H1 H2 Hs. cbn [file_handler h_get h_put]. split.
  - unfold file_get. cbn [fst snd]. now rewrite (find_within root t t' x uri H1 H2 Hs).
  - intros xs r t1 H. unfold file_put in *. destruct (create_within root t t' x uri H1 H2 Hs) as [E Hp]. rewrite <- E.
    assert (Same : forall y, t1 = put_at t root y -> forall q, (forall s, q <> root ++ s) -> (forall s, root <> q ++ s) -> at_path t1 q = at_path t q).
    { intros y -> q. now apply (put_other root y t q x). }
    destruct (create root uri t) as [p|e| |].
    + destruct (Hp p eq_refl) as [b ->]. destruct (file_copy_moves text n0 (root ++ b) t t' xs [] _ H) as (r' & d & [= <- ->] & Hm).
      exists (put_at x b (File d)). rewrite (put_at_app root b t x _ H1), (put_at_app root b t' x _ H2) in *. split; auto. split; auto. now apply (Same (put_at x b (File d))).
    + inversion H; subst. exists x. rewrite !put_at_same by auto. split; auto. split; [constructor|auto].
    + inversion H; subst. exists x. rewrite !put_at_same by auto. split; auto. split; [constructor|auto].
    + inversion H; subst. exists x. rewrite !put_at_same by auto. split; auto. split; [constructor|auto].
Qed.
Print Assumptions C65_confined.

(** ** Examples *)
(** The served directory is [/srv]; the key is outside. *)
Definition disk : node := Dir [(bs "srv", Dir [(bs "a.txt", File (bs "old text")); (bs "sub", Dir [])]); (bs "key", File (bs "secret"))].
Definition say : error -> bytes := fun e => match e with IoError (KOther 2) => bs "no such file" | _ => bs "failed" end.
Definition serve_files (t : node) (parts : list bytes) :=
  match serve_stream Std 8 wire3_read wire3_writer no_text (file_handler [bs "srv"] say 3) 4 300 t ([], segs parts) with
  | (x, cs, t', s) => (x, cs, t', fst s)
  end.
Definition srv_with (data : bytes) : node :=
  Dir [(bs "srv", Dir [(bs "a.txt", File data); (bs "sub", Dir [])]); (bs "key", File (bs "secret"))].

(** GET; PUT; a PUT cut off at "he" by length (200) and in chunks (500); a missing file. *)
Example C64_case :
  serve_files disk [bs "GET /a.txt HTTP/1.1" ++ CRLF ++ CRLF]
    = (Ok tt, [Called Get (bs "/a.txt")], disk, bs "HTTP/1.1 200 OK" ++ CRLF ++ bs "content-length: 8" ++ CRLF ++ CRLF ++ bs "old text")
  /\ serve_files disk [bs "PUT /a.txt HTTP/1.1" ++ CRLF ++ bs "Content-Length: 5" ++ CRLF ++ CRLF ++ bs "he"; bs "llo"]
    = (Ok tt, [Called Put (bs "/a.txt")], srv_with (bs "hello"), reply (bs "200 OK") [])
  /\ serve_files disk [bs "PUT /a.txt HTTP/1.1" ++ CRLF ++ bs "Content-Length: 5" ++ CRLF ++ CRLF ++ bs "he"]
    = (Ok tt, [Called Put (bs "/a.txt")], srv_with (bs "he"), reply (bs "200 OK") [])
  /\ serve_files disk [bs "PUT /a.txt HTTP/1.1" ++ CRLF ++ bs "Transfer-Encoding: chunked" ++ CRLF ++ CRLF ++ bs "5" ++ CRLF ++ bs "he"]
    = (Ok tt, [Called Put (bs "/a.txt")], srv_with (bs "he"), reply (bs "500 Internal Server Error") (bs "failed"))
  /\ serve_files disk [bs "GET /b HTTP/1.1" ++ CRLF ++ CRLF]
    = (Ok tt, [Called Get (bs "/b")], disk, reply (bs "500 Internal Server Error") (bs "no such file"))
  /\ serve_files disk [bs "GET /a.txt/b HTTP/1.1" ++ CRLF ++ CRLF]
    = (Ok tt, [Called Get (bs "/a.txt/b")], disk, reply (bs "500 Internal Server Error") (bs "failed"))
  /\ serve_files disk [bs "PUT /sub HTTP/1.1" ++ CRLF ++ bs "Content-Length: 2" ++ CRLF ++ CRLF ++ bs "he"]
    = (Ok tt, [Called Put (bs "/sub")], disk, reply (bs "500 Internal Server Error") (bs "failed"))
  /\ serve_files disk [bs "PUT /b/ HTTP/1.1" ++ CRLF ++ bs "Content-Length: 2" ++ CRLF ++ CRLF ++ bs "he"]
    = (Ok tt, [Called Put (bs "/b/")], disk, reply (bs "500 Internal Server Error") (bs "no such file"))
  /\ (let es := [(bs "x", File []); ([xff], File []); (bs "y", Dir [])] in
      flat_map list_item es = bs "<li><a href=""x"">x</a></br><li><a href=""y/"">y</a></br>")
  /\ Forall plain_name [bs "sub"; bs "a.txt"] /\ uri_of [bs "sub"; bs "a.txt"] = bs "/sub/a.txt"
  /\ at_path disk ([bs "srv"] ++ [bs "a.txt"]) = Some (File (bs "old text")).
Proof.
  split; [vm_compute; reflexivity|]. split; [vm_compute; reflexivity|]. split; [vm_compute; reflexivity|]. split; [vm_compute; reflexivity|].
  do 5 (split; [vm_compute; reflexivity|]). split; [|split; reflexivity].
  repeat constructor; try discriminate; vm_compute; intuition discriminate.
Qed.

(** "After a 200 the file has as many bytes as were announced" is false. *)
Theorem C64_stored_refuted : ~ (forall t s first lines zs v h names n w len cs t' s2,
  good_request first lines Put (uri_of (names ++ [n])) v h -> hm_get (bs "transfer-encoding") h <> Some (bs "chunked") ->
  hm_get (bs "content-length") h = Some w -> u64_text w len -> delivers wire3_read s (map B (head_bytes first lines) ++ zs) ->
  serve_stream Std 8 wire3_read wire3_writer no_text (file_handler [bs "srv"] say 3) 4 300 t s = (Ok tt, cs, t', s2) ->
  fst s2 = fst s ++ bs "HTTP/1.1 200 OK" ++ CRLF ++ CRLF ->
  exists data, at_path t' ([bs "srv"] ++ names ++ [n]) = Some (File data) /\ N.of_nat (length data) = len).
Proof.
  intros H. destruct C46_request as [Hg Hc].
  assert (H5 : u64_text (bs "5") 5).
  { split; [reflexivity|]. left. split; [easy|]. exists [5%N]. split; [|reflexivity]. repeat constructor; vm_compute; congruence. }
  set (s0 := ([], segs [head_bytes (bs "put /x HTTP/1.1") [bs "Content-Length: 5"] ++ bs "he"]) : wire3).
  destruct (serve_stream Std 8 wire3_read wire3_writer no_text (file_handler [bs "srv"] say 3) 4 300 disk s0) as [[[x cs] t'] s2] eqn:E.
  assert (Ex := E). vm_compute in Ex. injection Ex as <- <- Et Es.
  destruct (H disk s0 _ _ (map B (bs "he")) _ _ [] (bs "x") (bs "5") 5%N _ t' s2 Hg ltac:(vm_compute; discriminate) eq_refl H5
    ltac:(exact (wire3_delivers _ _)) E ltac:(subst s2; vm_compute; reflexivity)) as (d & Hd & Hl).
  subst t'. vm_compute in Hd. injection Hd as <-. discriminate.
Qed.
Print Assumptions C64_stored_refuted.

(** Without the condition on the path, C65 is false: [/../key] is read, and overwritten. *)
Theorem C65_always_confined_refuted :
  ~ (forall root text n0 uri t t' x, at_path t root = Some x -> at_path t' root = Some x ->
       fst (h_get (file_handler root text n0) uri t) = fst (h_get (file_handler root text n0) uri t'))
  /\ ~ (forall root text n0 uri t x xs r t1, at_path t root = Some x -> sees (h_put (file_handler root text n0) uri t) xs (r, t1) ->
       forall q, (forall s, q <> root ++ s) -> (forall s, root <> q ++ s) -> at_path t1 q = at_path t q).
Proof.
  split; intros H.
  - specialize (H [bs "srv"] say 3 (bs "/../key") disk (Dir [(bs "srv", Dir [(bs "a.txt", File (bs "old text")); (bs "sub", Dir [])])])
      _ eq_refl eq_refl). discriminate.
  - assert (Hs : sees (h_put (file_handler [bs "srv"] say 3) (bs "/../key") disk) (map B (bs "ha"))
      (Ok (inl (from_string OK [])), put_at disk [bs "key"] (File (bs "ha")))).
    { change (h_put (file_handler [bs "srv"] say 3) (bs "/../key") disk) with (file_copy say 3 [bs "key"] disk []).
      rewrite file_copy_eq. change (map B (bs "ha")) with (map B (bs "ha") ++ []). apply (sees_read 3 _ (bs "ha")); [discriminate|cbn; lia|].
      change (bs "ha") with (x68 :: [x61]). cbv iota. rewrite file_copy_eq. constructor; [lia|]. constructor. }
    specialize (H [bs "srv"] say 3 (bs "/../key") disk _ _ _ _ eq_refl Hs [bs "key"] ltac:(intros s E; discriminate E) ltac:(intros s E; discriminate E)).
    discriminate.
Qed.
Print Assumptions C65_always_confined_refuted.

(** Through the server: the key is sent to whoever asks, and can be replaced; dots written as [%2e] are just a name. *)
Example C65_case :
  serve_files disk [bs "GET /sub/../../key HTTP/1.1" ++ CRLF ++ CRLF]
    = (Ok tt, [Called Get (bs "/sub/../../key")], disk, bs "HTTP/1.1 200 OK" ++ CRLF ++ bs "content-length: 6" ++ CRLF ++ CRLF ++ bs "secret")
  /\ serve_files disk [bs "PUT /../key HTTP/1.1" ++ CRLF ++ bs "Content-Length: 2" ++ CRLF ++ CRLF ++ bs "ha"]
    = (Ok tt, [Called Put (bs "/../key")], put_at disk [bs "key"] (File (bs "ha")), reply (bs "200 OK") [])
  /\ serve_files disk [bs "GET /%2e%2e/key HTTP/1.1" ++ CRLF ++ CRLF]
    = (Ok tt, [Called Get (bs "/%2e%2e/key")], disk, reply (bs "500 Internal Server Error") (bs "no such file"))
  /\ serve_files (srv_with (bs "a")) [bs "GET /sub/.././/a.txt HTTP/1.1" ++ CRLF ++ CRLF]
    = (Ok tt, [Called Get (bs "/sub/.././/a.txt")], srv_with (bs "a"), bs "HTTP/1.1 200 OK" ++ CRLF ++ bs "content-length: 1" ++ CRLF ++ CRLF ++ bs "a")
  /\ stays (bs "/sub/.././/a.txt") /\ ~ stays (bs "/sub/../../key").
Proof.
  do 4 (split; [vm_compute; reflexivity|]). split.
  - intros pre post H. change (components _) with [bs "sub"; bs ".."; bs "."; []; bs "a.txt"] in H.
    do 6 (destruct pre as [|c pre]; [vm_compute; lia|injection H as <- H || discriminate H]).
  - intros H. specialize (H [bs "sub"; bs ".."; bs ".."] [bs "key"] eq_refl). vm_compute in H. lia.
Qed.

(** Proofs about sockets. *)
From Verif Require Import Bytes Bytes_proofs Socket SpecSocket.
Local Open Scope nat_scope.


Lemma skipn_skipn_add {A} a b (l : list A) : skipn a (skipn b l) = skipn (b + a) l.
Proof. revert l. induction b; intro l; [reflexivity|]. destruct l; cbn; [apply skipn_nil|apply IHb]. Qed.

Lemma read_bytes_true need : forall ks s buf b s', read_bytes need s buf ks = Some (true, b, s') ->
  need <= length s /\ b = buf ++ firstn need s /\ s' = skipn need s.
Proof.
  intro ks. revert need. induction ks as [|[k| |] ks IH]; intros [|need] s buf b s' H; cbn [read_bytes] in H; try discriminate;
    try (injection H as <- <-; cbn; rewrite app_nil_r; repeat split; lia).
  - cbv zeta in H. destruct (Nat.min (S k) (Nat.min (S need) (length s))) as [|n] eqn:E; [discriminate|].
    apply IH in H. destruct H as (H1 & -> & ->). rewrite skipn_length in H1. split; [lia|].
    rewrite <- app_assoc. assert (L : S n <= S need) by lia. split.
    + f_equal. rewrite <- (firstn_skipn (S n) (firstn (S need) s)). rewrite firstn_firstn, Nat.min_l by assumption.
      f_equal. rewrite skipn_firstn_comm. reflexivity.
    + rewrite skipn_skipn_add. f_equal. lia.
  - apply IH in H. assumption.
Qed.

Lemma read_bytes_false need : forall ks s buf b s', read_bytes need s buf ks = Some (false, b, s') ->
  length s < need \/ In KR_err ks.
Proof.
  intro ks. revert need. induction ks as [|[k| |] ks IH]; intros [|need] s buf b s' H; cbn [read_bytes] in H; try discriminate.
  - cbv zeta in H. destruct (Nat.min (S k) (Nat.min (S need) (length s))) as [|n] eqn:E; [left; lia|].
    apply IH in H. rewrite skipn_length in H. destruct H as [H|H]; [left; lia|right; right; exact H].
  - apply IH in H. destruct H; [auto|right; right; assumption].
  - right. left. reflexivity.
Qed.

(** Bytes obtained before a failure are an initial part of the stream. *)
Lemma read_bytes_prefix need : forall ks s buf x b s', read_bytes need s buf ks = Some (x, b, s') ->
  exists n, b = buf ++ firstn n s /\ s' = skipn n s /\ n <= need.
Proof.
  intro ks. revert need. induction ks as [|[k| |] ks IH]; intros [|need] s buf x b s' H; cbn [read_bytes] in H; try discriminate;
    try (injection H as <- <- <-; exists 0; cbn; rewrite app_nil_r; repeat split; lia).
  - cbv zeta in H. destruct (Nat.min (S k) (Nat.min (S need) (length s))) as [|n] eqn:E.
    + injection H as <- <- <-. exists 0. cbn. rewrite app_nil_r. repeat split; lia.
    + apply IH in H. destruct H as (m & -> & -> & L). exists (S n + m). split; [|split; [|lia]].
      * rewrite <- app_assoc. f_equal. rewrite <- (firstn_skipn (S n) (firstn (S n + m) s)). rewrite firstn_firstn, Nat.min_l by lia.
        f_equal. rewrite skipn_firstn_comm. f_equal. lia.
      * rewrite skipn_skipn_add. reflexivity.
  - apply IH in H. assumption.
Qed.

Lemma read_bytes_total need : forall ks s buf, need <= length s -> ~ In KR_err ks ->
  need <= deliveries ks -> exists b s', read_bytes need s buf ks = Some (true, b, s').
Proof.
  intro ks. revert need. induction ks as [|[k| |] ks IH]; intros [|need] s buf L NE C; cbn [read_bytes]; eauto.
  - unfold deliveries in C. cbn in C. lia.
  - cbv zeta. destruct (Nat.min (S k) (Nat.min (S need) (length s))) as [|n] eqn:E; [lia|].
    apply IH; [rewrite skipn_length; lia|intro; apply NE; right; assumption|unfold deliveries in *; cbn in C; lia].
  - apply IH; auto. intro; apply NE; right; assumption.
  - exfalso. apply NE. left. reflexivity.
Qed.

(** ** Writes *)
Lemma trim_length iov : forall cur n, length (trim iov cur n) = length iov.
Proof. induction iov; intros [|cur] n; cbn; auto. Qed.

Lemma advance_spec rest : forall cur w cur' w', advance rest cur w = Some (cur', w') ->
  exists pre v post, rest = pre ++ v :: post /\ cur' = cur + length pre /\ w = length (concat pre) + w' /\ w' < length v.
Proof.
  induction rest as [|v rest IH]; intros cur w cur' w' H; cbn in H; [discriminate|].
  destruct (length v <=? w) eqn:E.
  - apply IH in H. destruct H as (pre & u & post & -> & -> & E2 & L). exists (v :: pre), u, post. cbn. rewrite app_length. repeat split; lia.
  - injection H as <- <-. exists [], v, rest. cbn. repeat split; lia.
Qed.

Lemma trim_app pre v post w : trim (pre ++ v :: post) (length pre) w = pre ++ skipn w v :: post.
Proof. induction pre; cbn; [reflexivity|]. f_equal. assumption. Qed.

(** Whether earlier sends took nothing. *)
Lemma op_write_success ks : forall nbytes (iov : list bytes) cur (wire W : bytes),
  (* invariant: before anything was sent, or some bytes are gone *)
  (wire = [] /\ length (concat iov) = nbytes) \/ (cur = 0 -> length (concat iov) < nbytes) ->
  op_write_loop ks nbytes iov cur wire = W_ret r_success W -> wire = [] /\ W = concat iov.
Proof.
  induction ks as [|[k| |] ks IH]; intros nbytes iov cur wire W I H; cbn [op_write_loop] in H; try discriminate.
  - cbv zeta in H. set (n := Nat.min k (length (concat iov))) in *.
    destruct ((cur =? 0) && (n =? nbytes)) eqn:E.
    + injection H as <-. destruct I as [[-> I]|I]; [|lia].
      split; [reflexivity|]. cbn [app]. apply firstn_all2. lia.
    + destruct (advance (skipn cur iov) cur n) as [[cur' w']|] eqn:A; [|discriminate].
      apply advance_spec in A. destruct A as (pre & v & post & E1 & -> & E2 & L).
      assert (CL : cur < length iov).
      { assert (length (skipn cur iov) = length iov - cur) by apply skipn_length. rewrite E1, app_length in H0. cbn in H0. lia. }
      destruct (cur + length pre =? length iov) eqn:E3.
      { exfalso. assert (length (skipn cur iov) = length iov - cur) by apply skipn_length. rewrite E1, app_length in H0. cbn in H0. lia. }
      set (iov' := trim iov (cur + length pre) w') in H.
      assert (EI : iov = (firstn cur iov ++ pre) ++ v :: post) by (rewrite <- app_assoc, <- E1; symmetry; apply firstn_skipn).
      assert (LP : length (firstn cur iov ++ pre) = cur + length pre) by (rewrite app_length, firstn_length; lia).
      assert (ET : iov' = (firstn cur iov ++ pre) ++ skipn w' v :: post).
      { unfold iov'. rewrite <- LP. rewrite EI at 1. apply trim_app. }
      assert (LT : length (concat iov') + w' = length (concat iov)).
      { rewrite ET. rewrite EI at 2. rewrite !concat_app, !app_length. cbn [concat]. rewrite !app_length, skipn_length. lia. }
      apply IH in H.
      * destruct H as [Hw ->]. apply app_eq_nil in Hw. destruct Hw as [-> Hf]. split; [reflexivity|].
        assert (n = 0).
        { destruct n as [|n0] eqn:En; [reflexivity|]. exfalso. assert (length (firstn (S n0) (concat iov)) = S n0) by (rewrite firstn_length; lia). rewrite Hf in H. discriminate. }
        assert (w' = 0) by lia. subst w'. rewrite ET. rewrite EI at 2. reflexivity.
      * destruct (Nat.eq_dec n 0) as [N0|N0].
        -- assert (w' = 0) by lia. subst w'. rewrite N0. cbn [firstn]. rewrite app_nil_r.
           destruct I as [[-> I]|I]; [left; split; [reflexivity|lia]|right]. intro C0. assert (cur = 0) by lia. specialize (I H0). lia.
        -- right. intro C0. assert (cur = 0) by lia. assert (pre = []) by (destruct pre; [reflexivity|cbn in C0; lia]). subst pre. cbn in E2.
           destruct I as [[_ I]|I]; [lia|]. specialize (I H0). lia.
  - eapply IH; eassumption.
Qed.

Lemma op_write_exact (iov : list bytes) ks W : op_write true iov ks = W_ret r_success W -> W = concat iov.
Proof.
  unfold op_write. cbn [negb]. intro H. apply op_write_success in H; [apply H|]. left. auto.
Qed.

(** EINTR any number of times, then everything taken. *)
Lemma op_write_whole (iov : list bytes) n k ks : length (concat iov) <= k ->
  op_write true iov (repeat KS_eintr n ++ KS_sent k :: ks) = W_ret r_success (concat iov).
Proof.
  intro L. unfold op_write. cbn [negb]. induction n as [|n IH]; [|exact IH].
  cbn [repeat app op_write_loop]. cbv zeta. rewrite Nat.min_r by assumption. rewrite !Nat.eqb_refl. cbn [andb].
  rewrite firstn_all. reflexivity.
Qed.

(** Same for any number of sends that take nothing, of a non-empty first buffer. *)
Lemma op_write_partial_bad (iov : list bytes) ks W : forall pre k, Forall (fun x => x = KS_eintr) pre -> 1 <= k -> k < length (concat iov) ->
  op_write true iov (pre ++ KS_sent k :: ks) <> W_ret r_success W.
Proof.
  intros pre k F K1 K2. unfold op_write. cbn [negb]. induction F as [|x pre -> F IH]; [|exact IH].
  cbn [app op_write_loop]. cbv zeta. rewrite Nat.min_l by lia. cbn [Nat.eqb andb].
  destruct (k =? length (concat iov)) eqn:E; [lia|]. cbn [skipn].
  destruct (advance iov 0 k) as [[cur w']|] eqn:A; [|discriminate].
  apply advance_spec in A. destruct A as (p & v & q & -> & -> & E2 & L). cbn [Nat.add].
  destruct (length p =? length (p ++ v :: q)) eqn:E3; [rewrite app_length in E3; cbn in E3; lia|].
  intro H. apply op_write_success in H.
  - destruct H as [H _]. cbn in H. assert (Q : length (firstn k (concat (p ++ v :: q))) = k) by (rewrite firstn_length; lia).
    rewrite H in Q. cbn in Q. lia.
  - right. intro C0. assert (p = []) by (destruct p; [reflexivity|discriminate]). subst p. cbn [length trim app concat] in *.
    rewrite ?app_length in *. rewrite skipn_length. lia.
Qed.

(** One buffer: what was sent is always an initial part. *)
Lemma op_write_one (b : bytes) : forall ks (n wire : bytes), wire ++ n = b -> wire <> [] \/ n = b ->
  exists l, b = wout_wire (op_write_loop ks (length b) [n] 0 wire) ++ l.
Proof.
  induction ks as [|[k| |] ks IH]; intros n wire E D; cbn [op_write_loop wout_wire].
  - exists n. auto.
  - cbv zeta. cbn [concat]. rewrite app_nil_r.
    assert (S1 : firstn (Nat.min k (length n)) n ++ skipn (Nat.min k (length n)) n = n) by apply firstn_skipn.
    cbn [Nat.eqb andb skipn].
    destruct (Nat.min k (length n) =? length b).
    { cbn. exists (skipn (Nat.min k (length n)) n). rewrite <- app_assoc, S1. auto. }
    cbn [advance]. destruct (length n <=? Nat.min k (length n)) eqn:EL.
    { cbn. exists (skipn (Nat.min k (length n)) n). rewrite <- app_assoc, S1. auto. }
    cbn [length Nat.eqb trim].
    apply IH; [rewrite <- app_assoc, S1; assumption|].
    destruct (Nat.min k (length n)) as [|m] eqn:EM.
    + cbn. rewrite app_nil_r. destruct D as [D|D]; auto.
    + left. intro Q. apply app_eq_nil in Q. destruct Q as [_ Q]. destruct n; [cbn in EM; lia|discriminate].
  - apply IH; assumption.
  - exists n. auto.
Qed.

(** Exactly when a write succeeds. *)
Lemma op_write_moved ks : forall nbytes (iov : list bytes) cur wire W, 0 < cur ->
  op_write_loop ks nbytes iov cur wire <> W_ret r_success W.
Proof.
  induction ks as [|[k| |] ks IH]; intros nbytes iov cur wire W C; cbn [op_write_loop]; try discriminate; [|apply IH; exact C].
  cbv zeta. destruct ((cur =? 0) && _) eqn:E; [lia|].
  destruct (advance (skipn cur iov) cur _) as [[cur' w']|] eqn:A; [|discriminate].
  apply advance_spec in A. destruct A as (pre & v & post & E1 & -> & _ & _).
  assert (L : length (skipn cur iov) = length iov - cur) by apply skipn_length. rewrite E1, app_length in L. cbn in L.
  destruct (cur + length pre =? length iov) eqn:E3; [lia|]. apply IH. lia.
Qed.

Definition send_idle (iov : list bytes) (x : ksend) : Prop := x = KS_eintr \/ (x = KS_sent 0 /\ hd [] iov <> []).

Lemma op_write_iff c iov ks W : op_write c iov ks = W_ret r_success W <->
  c = true /\ W = concat iov /\
  exists pre k post, ks = pre ++ KS_sent k :: post /\ Forall (send_idle iov) pre /\ length (concat iov) <= k.
Proof.
  split.
  - intro H. destruct c; [|discriminate H]. split; [reflexivity|]. split; [exact (op_write_exact iov ks W H)|].
    unfold op_write in H. cbn [negb] in H. revert H. induction ks as [|[k| |] ks IH]; intro H; cbn [op_write_loop] in H; try discriminate H.
    + cbv zeta in H. cbn [Nat.eqb andb app skipn] in H.
      destruct (Nat.min k (length (concat iov)) =? length (concat iov)) eqn:E.
      { exists [], k, ks. split; [reflexivity|]. split; [constructor|]. lia. }
      destruct k as [|k].
      * destruct iov as [|v iov]; [discriminate H|]. cbn [advance Nat.min] in H.
        destruct v as [|b v].
        { cbn [length Nat.leb Nat.sub] in H. exfalso.
          destruct (advance iov 1 0) as [[cur w']|] eqn:A; [|discriminate H].
          apply advance_spec in A. destruct A as (p & v & q & -> & -> & _ & _).
          destruct (1 + length p =? S (length (p ++ v :: q))) eqn:E3; [rewrite app_length in E3; cbn in E3; lia|].
          revert H. apply op_write_moved. lia. }
        cbn [length Nat.leb Nat.eqb trim skipn firstn] in H.
        destruct (IH H) as (pre & k & post & -> & F & L). exists (KS_sent 0 :: pre), k, post. split; [reflexivity|].
        split; [|exact L]. constructor; [right; split; [reflexivity|discriminate]|exact F].
      * exfalso. eapply (op_write_partial_bad iov ks W [] (S k)); [constructor|lia|lia|]. unfold op_write. cbn [negb app op_write_loop]. cbv zeta.
        cbn [Nat.eqb andb app skipn]. rewrite E. exact H.
    + destruct (IH H) as (pre & k & post & -> & F & L). exists (KS_eintr :: pre), k, post. split; [reflexivity|].
      split; [|exact L]. constructor; [left; reflexivity|exact F].
  - intros (-> & -> & pre & k & post & -> & F & L). unfold op_write. cbn [negb]. induction F as [|x pre [->|[-> N]] F IH].
    + exact (op_write_whole iov 0 k post L).
    + exact IH.
    + cbn [app op_write_loop]. cbv zeta. cbn [Nat.min Nat.eqb andb app skipn].
      destruct iov as [|v iov]; [contradiction N; reflexivity|]. destruct v as [|b v]; [contradiction N; reflexivity|].
      cbn [concat app length Nat.eqb advance Nat.leb trim skipn firstn]. exact IH.
Qed.

(** ** Descriptors *)
Lemma fds_after_app a : forall l b, fds_after l (a ++ b) = match fds_after l a with Some l' => fds_after l' b | None => None end.
Proof.
  induction a as [|[n|n|] a IH]; intros l b; cbn; auto.
  destruct (take_fd n l); auto.
Qed.

Definition fds_of (w : sockw) : list nat :=
  if s_connected w then match s_fd w with Some n => [n] | None => [] end else [].

Lemma do_sockops_fds os : forall w rs w' ev, do_sockops w os = (rs, w', ev) ->
  (s_connected w = true -> exists n, s_fd w = Some n) ->
  (s_connected w' = true -> exists n, s_fd w' = Some n) /\
  fds_after (fds_of w) ev = Some (fds_of w').
Proof.
  induction os as [|o os IH]; intros w rs w' ev H I; cbn [do_sockops] in H.
  - injection H as <- <- <-. auto.
  - destruct (do_sockop w o) as [[r w1] e1] eqn:E1. destruct (do_sockops w1 os) as [[rs2 w2] e2] eqn:E2.
    injection H as <- <- <-.
    assert (A : (s_connected w1 = true -> exists n, s_fd w1 = Some n) /\ fds_after (fds_of w) e1 = Some (fds_of w1)).
    { destruct w as [[] fd]; destruct o as [k|b]; unfold do_sockop, op_open, op_close in E1; cbn in *.
      - injection E1 as <- <- <-. auto.
      - destruct (I eq_refl) as [n ->]. injection E1 as <- <- <-. cbn. rewrite Nat.eqb_refl. split; [discriminate|reflexivity].
      - destruct k; injection E1 as <- <- <-; cbn; rewrite ?Nat.eqb_refl; split; eauto; discriminate.
      - injection E1 as <- <- <-. split; [discriminate|reflexivity]. }
    destruct A as [A1 A2]. specialize (IH _ _ _ _ E2 A1). destruct IH as [B1 B2]. split; [exact B1|].
    rewrite fds_after_app, A2. exact B2.
Qed.

(** ** The property statements *)
Lemma op_read_success w need s ks buf s' : op_read w need s ks = Some (r_success, buf, s') ->
  length buf = need /\ buf ++ s' = s.
Proof.
  unfold op_read. destruct (s_connected w); [|discriminate].
  destruct (read_bytes need s [] ks) as [[[[] b] s2]|] eqn:E; try discriminate. intro H. injection H as <- <-.
  apply read_bytes_true in E. destruct E as (L & -> & ->). cbn [app]. split; [rewrite firstn_length; lia|apply firstn_skipn].
Qed.

Lemma op_read_failure w need s ks r buf s' : op_read w need s ks = Some (r, buf, s') -> r <> r_success ->
  (s_connected w = false \/ length s < need \/ In KR_err ks) /\ buf ++ s' = s.
Proof.
  unfold op_read. destruct (s_connected w).
  2:{ intros H _. injection H as <- <- <-. auto. }
  destruct (read_bytes need s [] ks) as [[[[] b] s2]|] eqn:E; try discriminate; intros H N; injection H as <- <- <-; [congruence|].
  split; [right; eapply read_bytes_false; exact E|].
  apply read_bytes_prefix in E. destruct E as (n & -> & -> & _). apply firstn_skipn.
Qed.

Lemma op_read_completes w need s ks : s_connected w = true -> need <= length s -> ~ In KR_err ks ->
  need <= deliveries ks -> op_read w need s ks = Some (r_success, firstn need s, skipn need s).
Proof.
  intros C L N D. unfold op_read. rewrite C. destruct (read_bytes_total need ks s [] L N D) as (b & s' & E). rewrite E.
  apply read_bytes_true in E. destruct E as (_ & -> & ->). reflexivity.
Qed.

Lemma op_read_chunking w need s ks ks' x x' : op_read w need s ks = Some x -> op_read w need s ks' = Some x' ->
  ~ In KR_err ks -> ~ In KR_err ks' -> fst (fst x) = r_success -> x = x'.
Proof.
  destruct x as [[r b] s1], x' as [[r' b'] s2]. cbn. intros H H' N N' ->.
  assert (r' = r_success).
  { assert (C : s_connected w = true) by (unfold op_read in H; destruct (s_connected w); congruence).
    assert (D : r' = r_success \/ r' <> r_success) by (destruct r'; auto; right; discriminate).
    destruct D as [D|D]; [exact D|].
    destruct (op_read_failure _ _ _ _ _ _ _ H' D) as [[X|[X|X]] _]; [congruence| |contradiction].
    destruct (op_read_success _ _ _ _ _ _ H) as [L <-]. rewrite app_length in X. lia. }
  subst r'. destruct (op_read_success _ _ _ _ _ _ H) as [L <-]. destruct (op_read_success _ _ _ _ _ _ H') as [L' E].
  assert (b = b' /\ s1 = s2) as [-> ->]; [|reflexivity].
  clear H H'. subst need. revert b' L' E. clear. induction b; intros [|c b'] L' E; cbn in *; try discriminate; auto.
  injection E as -> E. destruct (IHb b') as [-> ->]; auto.
Qed.

Lemma op_write_ok c iov ks W : op_write c iov ks = W_ret r_success W -> c = true /\ W = concat iov.
Proof. destruct c; [|discriminate]. intro H. split; [reflexivity|]. eapply op_write_exact, H. Qed.

Lemma op_write_short iov pre k ks W : Forall (fun x => x = KS_eintr) pre -> 1 <= k -> k < length (concat iov) ->
  op_write true iov (pre ++ KS_sent k :: ks) <> W_ret r_success W.
Proof. intros. apply op_write_partial_bad; assumption. Qed.

Lemma op_write_single b ks : initial_part (wout_wire (op_write true [b] ks)) b.
Proof.
  unfold op_write. cbn [negb]. cbn [concat]. rewrite app_nil_r. apply (op_write_one b ks b []); auto.
Qed.

Lemma op_write_duplicates : exists iov ks, ~ initial_part (wout_wire (op_write true iov ks)) (concat iov).
Proof.
  exists [[x61]; [x62]], [KS_sent 1; KS_sent 1]. intros [c H]. vm_compute in H. discriminate.
Qed.

Lemma op_write_oob : exists iov ks W, op_write true iov ks = W_ub ub_load_oob W /\ W = concat iov.
Proof. exists [[x61; x62]], [KS_sent 1; KS_sent 1], [x61; x62]. split; vm_compute; reflexivity. Qed.

Lemma sock_accounting os rs w ev : do_sockops sock_init os = (rs, w, ev) ->
  exists l, fds_after [] ev = Some l /\ (length l = if s_connected w then 1 else 0).
Proof.
  intro H. apply do_sockops_fds in H; [|discriminate]. destruct H as [H1 H2].
  exists (fds_of w). split; [exact H2|]. unfold fds_of. destruct (s_connected w); [|reflexivity].
  destruct (H1 eq_refl) as [n ->]. reflexivity.
Qed.

Lemma sock_leak : exists os rs w ev l, do_sockops sock_init os = (rs, w, ev) /\ fds_after [] (ev ++ op_destroy w) = Some l /\ l <> [].
Proof.
  exists [SO_open (KO_ok 3)], [r_success], (mk_sockw true (Some 3)), [FD_socket 3], [3]. split; [|split]; [reflexivity|reflexivity|discriminate].
Qed.

Lemma sock_reports os : forall w rs w' ev, (s_connected w = true -> exists n, s_fd w = Some n) ->
  do_sockops w os = (rs, w', ev) -> rs = sock_results (s_connected w) os.
Proof.
  induction os as [|o os IH]; intros w rs w' ev F H; cbn [do_sockops] in H; [injection H as <- _ _; reflexivity|].
  destruct (do_sockop w o) as [[r w1] e1] eqn:E. destruct (do_sockops w1 os) as [[rs2 w2] e2] eqn:E2. injection H as <- _ _.
  assert (A : (s_connected w1 = true -> exists n, s_fd w1 = Some n) /\ r :: sock_results (s_connected w1) os = sock_results (s_connected w) (o :: os)).
  { destruct o as [k|ok]; cbn [do_sockop] in E; unfold op_open, op_close in E; cbn [sock_results].
    - destruct (s_connected w) eqn:C; [injection E as <- <- _; rewrite C; auto|].
      destruct k; injection E as <- <- _; cbn; split; eauto; discriminate.
    - destruct (s_connected w) eqn:C; [|injection E as <- <- _; rewrite C; split; [congruence|reflexivity]].
      destruct (F eq_refl) as [n Fn]. rewrite Fn in E. injection E as <- <- _. cbn. split; [discriminate|reflexivity]. }
  destruct A as [A1 A2]. rewrite <- A2. f_equal. eapply IH; eassumption.
Qed.

Lemma sock_destroyed os rs w ev : do_sockops sock_init os = (rs, w, ev) ->
  exists l, fds_after [] (ev ++ op_destroy w) = Some l /\ (length l = if s_connected w then 1 else 0).
Proof.
  intro E. destruct (sock_accounting os rs w ev E) as (l & H & L). exists l. split; [|exact L].
  rewrite fds_after_app, H. reflexivity.
Qed.

(** C25-C27: a writer and a reader at the two ends of a connection. *)
From Verif Require Import Bytes Spec SpecTrace SpecStream Io Control Rdwr Reader Writer Api SpecApi SpecReader SpecNet
  Net Net4_proofs Prop_Writer Prop_Reader.
Local Open Scope N_scope.

(** C25.  Exactly one of three outcomes applies to every two sets of content
    types... *)
Theorem C25_outcome_is_a_function : forall W R,
  exists h, handshake_outcome W R h /\ forall h', handshake_outcome W R h' -> h' = h.
Proof.
  intros W R. destruct (outcome_exists W R) as (h & H). exists h. split; [exact H|].
  intros h' H'. exact (outcome_unique W R h' h H' H).
Qed.
Print Assumptions C25_outcome_is_a_function.

(** ... and whatever the interleaving and however little the connection buffers,
    the two opens end that way, and only that way. *)
Theorem C25_handshake_outcome : forall iovm W rww w o rwr r fuel cap h,
  pair_ok iovm W rww w o rwr r -> (1 <= cap)%nat -> handshake_outcome W (ro_cts o) h ->
  match h with
  | H_agree =>
      (* both succeed and both report the same START frame *)
      always_ends cap (connect (calls_then_get w [WOpen] T_START) (rcalls_then_get fuel r [ROpen] T_START))
        (mk_net (PRet ([r_success], r_success, Some (Some (mk_control T_START (optl (hd_error W))))))
                (PRet ([(r_success, None)], r_success, Some (Some (mk_control T_START (optl (hd_error W))))))
                [] [] false false)
  | H_reader_refuses =>
      (* the writer's open succeeds, the reader's fails *)
      exists w' r', always_ends cap (connect (do_wcalls w [WOpen]) (do_rcalls fuel r [ROpen]))
        (mk_net (PRet ([r_success], w')) (PRet ([(r_failure, None)], r')) [] [] false false)
  | H_writer_refuses =>
      (* the writer's open fails, and even after the writer was destroyed the
         reader's open is still waiting for input *)
      exists k, always_ends cap (connect (writer_life w [WOpen]) (do_rcalls fuel r [ROpen]))
        (mk_net (PRet ([r_failure], r_failure)) (PGet k) [] [] false false)
  end.
Proof.
  intros iovm W rww w o rwr r fuel cap h P C HO. destruct h.
  - exact (agree_control iovm W rww w o rwr r P cap fuel C HO).
  - exact (reader_refuses iovm W rww w o rwr r P cap fuel C HO).
  - exact (writer_refuses iovm W rww w o rwr r P cap fuel C HO).
Qed.
Print Assumptions C25_handshake_outcome.

(** [always_ends] is not vacuous: the final state is reached. *)
Theorem C25_outcome_reached : forall X Y cap (c cf : net X Y), always_ends cap c cf -> exists n, steps cap n c cf.
Proof. exact @always_reaches. Qed.
Print Assumptions C25_outcome_reached.

(** Objects meeting the hypotheses, one for each outcome. *)
Definition ex_nw (W : list bytes) : writer := mk_writer ws_opening W ex_sock None None None None 1024.
Lemma ex_pair_ok W R : fits true T_READY W -> fits true T_ACCEPT R ->
  pair_ok 1024 W ex_sock (ex_nw W) (mk_ropt R 1000) ex_sock (mk_r (mk_ropt R 1000) ex_sock).
Proof. intros F1 F2. split; try reflexivity; try assumption; try apply Nat.lt_0_succ; repeat split. Qed.

Ltac solve_fits := split; [repeat constructor; vm_compute; discriminate|vm_compute; discriminate].

Example C25_agree_nonvacuous :
  pair_ok 1024 [[x61]; [x62]] ex_sock (ex_nw [[x61]; [x62]]) (mk_ropt [[x61]] 1000) ex_sock (mk_r (mk_ropt [[x61]] 1000) ex_sock) /\
  handshake_outcome [[x61]; [x62]] [[x61]] H_agree.
Proof.
  split; [apply ex_pair_ok; solve_fits|]. right. right. exists [x61]. split; [reflexivity|left; reflexivity].
Qed.
Example C25_reader_refuses_nonvacuous :
  pair_ok 1024 [[x61]] ex_sock (ex_nw [[x61]]) (mk_ropt [[x62]] 1000) ex_sock (mk_r (mk_ropt [[x62]] 1000) ex_sock) /\
  handshake_outcome [[x61]] [[x62]] H_reader_refuses.
Proof.
  split; [apply ex_pair_ok; solve_fits|]. split; [discriminate|]. split; [discriminate|].
  intros (c & [<-|[]] & [I|[]]). discriminate I.
Qed.
Example C25_writer_refuses_nonvacuous :
  pair_ok 1024 [[x61]; [x62]] ex_sock (ex_nw [[x61]; [x62]]) (mk_ropt [[x62]] 1000) ex_sock (mk_r (mk_ropt [[x62]] 1000) ex_sock) /\
  handshake_outcome [[x61]; [x62]] [[x62]] H_writer_refuses.
Proof.
  split; [apply ex_pair_ok; solve_fits|]. split.
  - exists [x62]. split; [right; left; reflexivity|left; reflexivity].
  - intros w0 [= <-] [I|[]]. discriminate I.
Qed.

(** C26 is false.  A common content type that is not the writer's first is not
    found: the writer gives up and the reader waits for ever... *)
Theorem C26_common_type_found_refuted : exists iovm W rww w o rwr r,
  pair_ok iovm W rww w o rwr r /\ common W (ro_cts o) /\
  forall cap fuel, (1 <= cap)%nat -> exists k,
    always_ends cap (connect (writer_life w [WOpen]) (do_rcalls fuel r [ROpen]))
      (mk_net (PRet ([r_failure], r_failure)) (PGet k) [] [] false false).
Proof.
  destruct C25_writer_refuses_nonvacuous as [P H].
  do 7 eexists. split; [exact P|]. split; [exact (proj1 H)|].
  intros cap fuel C. exact (writer_refuses _ _ _ _ _ _ _ P cap fuel C H).
Qed.
Print Assumptions C26_common_type_found_refuted.

(** ... and with nothing in common the writer's open reports success. *)
Theorem C26_disjoint_types_rejected_refuted : exists iovm W rww w o rwr r,
  pair_ok iovm W rww w o rwr r /\ W <> [] /\ ro_cts o <> [] /\ ~ common W (ro_cts o) /\
  forall cap fuel, (1 <= cap)%nat -> exists w' r',
    always_ends cap (connect (do_wcalls w [WOpen]) (do_rcalls fuel r [ROpen]))
      (mk_net (PRet ([r_success], w')) (PRet ([(r_failure, None)], r')) [] [] false false).
Proof.
  destruct C25_reader_refuses_nonvacuous as [P H].
  do 7 eexists. split; [exact P|]. split; [exact (proj1 H)|]. split; [exact (proj1 (proj2 H))|]. split; [exact (proj2 (proj2 H))|].
  intros cap fuel C. exact (reader_refuses _ _ _ _ _ _ _ P cap fuel C H).
Qed.
Print Assumptions C26_disjoint_types_rejected_refuted.

(** What is true of C26: the handshake succeeds on both sides if the writer's
    first type is common (in particular if it has only one), and a reader never
    accepts a stream of a type it did not ask for. *)
Theorem C26_single_type_negotiation_partial : forall iovm c rww w o rwr r cap fuel,
  pair_ok iovm [c] rww w o rwr r -> (1 <= cap)%nat -> ro_cts o <> [] ->
  (In c (ro_cts o) ->
     always_ends cap (connect (calls_then_get w [WOpen] T_START) (rcalls_then_get fuel r [ROpen] T_START))
       (mk_net (PRet ([r_success], r_success, Some (Some (mk_control T_START [c]))))
               (PRet ([(r_success, None)], r_success, Some (Some (mk_control T_START [c])))) [] [] false false)) /\
  (~ In c (ro_cts o) -> exists w' r',
     always_ends cap (connect (do_wcalls w [WOpen]) (do_rcalls fuel r [ROpen]))
       (mk_net (PRet ([r_success], w')) (PRet ([(r_failure, None)], r')) [] [] false false)).
Proof.
  intros iovm c rww w o rwr r cap fuel P C NE. split.
  - intro I. refine (agree_control iovm [c] rww w o rwr r P cap fuel C _). right. right. exists c. split; [reflexivity|exact I].
  - intro I. refine (reader_refuses iovm [c] rww w o rwr r P cap fuel C _). split; [discriminate|]. split; [exact NE|].
    intros (c' & [<-|[]] & J). exact (I J).
Qed.
Print Assumptions C26_single_type_negotiation_partial.

(** Exactly what the content types decide: which of the two opens succeeds.  Two
    types in common are found exactly if the writer's first is among them; types
    with nothing in common are rejected by the reader, never by the writer. *)
Theorem C26_opens_exactly : forall iovm W rww w o rwr r fuel cap,
  pair_ok iovm W rww w o rwr r -> (1 <= cap)%nat ->
  exists cf, always_ends cap (connect (do_wcalls w [WOpen]) (do_rcalls fuel r [ROpen])) cf /\
    ((exists w', n_a _ _ cf = PRet ([r_success], w')) <->
       ~ common W (ro_cts o) \/ exists w0, hd_error W = Some w0 /\ In w0 (ro_cts o)) /\
    ((exists r', n_b _ _ cf = PRet ([(r_success, None)], r')) <->
       W = [] \/ ro_cts o = [] \/ exists w0, hd_error W = Some w0 /\ In w0 (ro_cts o)) /\
    ((exists r', n_b _ _ cf = PRet ([(r_failure, None)], r')) <->
       W <> [] /\ ro_cts o <> [] /\ ~ common W (ro_cts o)).
Proof. exact opens_exactly. Qed.
Print Assumptions C26_opens_exactly.

Example C26_nonvacuous : exists iovm c rww w o rwr r, pair_ok iovm [c] rww w o rwr r /\ ro_cts o <> [] /\ ~ In c (ro_cts o).
Proof.
  destruct C25_reader_refuses_nonvacuous as [P H]. do 7 eexists. split; [exact P|]. split; [discriminate|].
  intros [I|[]]. discriminate I.
Qed.

(** C27.  Any history of calls that opens the writer and does not close it,
    followed by destroy, against a reader that reads [m] times more than needed:
    every execution ends with every payload received once and in order, STOP seen,
    FINISH exchanged, both destroys successful and both ends closed. *)
Theorem C27_end_to_end_delivery : forall iovm W rww w o rwr r cap fuel cs m (early : bool),
  pair_ok iovm W rww w o rwr r -> (1 <= cap)%nat ->
  W = [] \/ ro_cts o = [] \/ (exists w0, hd_error W = Some w0 /\ In w0 (ro_cts o)) ->
  Forall wcall_ok cs -> Forall (fun c => c <> WClose) cs -> Exists opens_writer cs ->
  let ds := concat (map wpayloads cs) in
  Forall (fun p => data_ok p /\ lenN p <= ro_max o) ds -> (length (datas ds ++ stop_frame) < fuel)%nat ->
  always_ends cap
    (connect (writer_life w cs)
             (reader_life fuel r ((if early then [ROpen] else []) ++ repeat RRead (length ds + 1 + m))))
    (mk_net (PRet (map wresult cs, r_success))
            (PRet ((if early then [(r_success, None)] else []) ++
                   map (fun d => (r_success, Some d)) ds ++ (r_stop, None) :: repeat (r_failure, None) m, r_success))
            [] [] true true).
Proof.
  intros iovm W rww w o rwr r cap fuel cs m early P C HO K N X. cbv zeta.
  exact (delivery iovm W rww w o rwr r P cap fuel cs m early C HO K N X).
Qed.
Print Assumptions C27_end_to_end_delivery.

(** One call that opens implicitly, three frames, an introspection call. *)
Example C27_nonvacuous : let cs := [WWritev [[x01]; [x02; x03]]; WGetControl T_ACCEPT; WWrite [x04]] in
  pair_ok 1024 [[x61]; [x62]] ex_sock (ex_nw [[x61]; [x62]]) (mk_ropt [[x61]] 1000) ex_sock (mk_r (mk_ropt [[x61]] 1000) ex_sock) /\
  Forall wcall_ok cs /\ Forall (fun c => c <> WClose) cs /\ Exists opens_writer cs /\
  Forall (fun p => data_ok p /\ lenN p <= 1000) (concat (map wpayloads cs)) /\
  exists n, steps 1 n
    (connect (writer_life (ex_nw [[x61]; [x62]]) cs)
             (reader_life 100 (mk_r (mk_ropt [[x61]] 1000) ex_sock) (repeat RRead 6)))
    (mk_net (PRet ([r_success; r_success; r_success], r_success))
            (PRet ([(r_success, Some [x01]); (r_success, Some [x02; x03]); (r_success, Some [x04]); (r_stop, None);
                    (r_failure, None); (r_failure, None)], r_success))
            [] [] true true).
Proof.
  intro cs. destruct C25_agree_nonvacuous as [P H].
  assert (D : Forall (fun p => data_ok p /\ lenN p <= 1000) (concat (map wpayloads cs))).
  { repeat constructor; vm_compute; (discriminate || reflexivity). }
  assert (K : Forall wcall_ok cs) by (repeat constructor; vm_compute; reflexivity).
  assert (N : Forall (fun c => c <> WClose) cs) by (repeat constructor; discriminate).
  assert (X : Exists opens_writer cs) by (constructor; discriminate).
  split; [exact P|]. split; [exact K|]. split; [exact N|]. split; [exact X|]. split; [exact D|].
  apply always_reaches.
  refine (C27_end_to_end_delivery 1024 _ _ _ _ _ _ 1 100 cs 2 false P (Nat.le_refl 1) H K N X D _).
  vm_compute. repeat constructor.
Qed.

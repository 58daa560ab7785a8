(** C78: starting and stopping an I/O thread. *)
From Coq Require Import Permutation.
From Verif Require Import Bytes Queue Mem SpecMem Mem_proofs Thread SpecThread Thread_proofs Iothr Writer Prop_Iothr.
Local Open Scope nat_scope.

(** On a platform with the clocks the build asks for and with a queue size that is
    a power of two (or no queue at all), for any calls made while the thread runs,
    whatever the writer, the queues and the timing decide: creation succeeds, no
    call runs into undefined behaviour or a failing assertion, and destroying the
    thread releases exactly what it made and what it was given - memory, locks,
    the condition variable, the thread, the writer and every block submitted with a
    free function - each once, and nothing that belongs to others. *)
Theorem C78_released : forall pf spsc n size w cs o h rest, (size < 2 ^ 32)%N -> sane pf -> startable pf n size ->
  holds h (own_writer w ++ rest) -> exists o' h', th_life pf spsc n size w cs o h = MOk true o' h' /\ holds h' rest.
Proof. exact life_ok. Qed.
Print Assumptions C78_released.

(** While it runs, what exists is what the thread owns and what it was never given. *)
Theorem C78_accounted : forall pf spsc n size w cs o h rest, (size < 2 ^ 32)%N -> sane pf -> startable pf n size ->
  holds h (own_writer w ++ rest) ->
  exists t o1 h1 t' o2 h2, th_init pf spsc n size w o h = MOk (Some t) o1 h1 /\ th_calls pf t cs o1 h1 = MOk t' o2 h2 /\ holds h2 (own_th t' ++ rest).
Proof. exact running_ok. Qed.
Print Assumptions C78_accounted.

(** The clock that retries are timed with is the best steady one; the clock the
    thread's deadlines are computed with is the one its condition variable waits
    on, and it is the best steady clock if the platform has a choice. *)
Theorem C78_clocks : forall pf spsc n size w o h t o' h', th_init pf spsc n size w o h = MOk (Some t) o' h' ->
  (pf_gettime pf = true -> best (readable pf) (th_gclk t)) /\
  (exists b, th_cv t = Some (b, deadline_clock pf t)) /\
  (pf_gettime pf && pf_setclock pf = true -> best (waitable pf) (deadline_clock pf t)).
Proof.
  intros pf spsc n size w o h t o' h' E. destruct (init_clocks _ _ _ _ _ _ _ _ _ _ E) as [[G P] V].
  split; [intro X; rewrite X in G; exact G|]. split; [exact V|]. intro X. rewrite X in P. unfold deadline_clock.
  destruct (pf_gettime pf), (pf_setclock pf); try discriminate X. exact P.
Qed.
Print Assumptions C78_clocks.

(** Creation never reports failure: where it cannot succeed it is undefined (it
    signals a condition variable and joins a thread that do not exist). *)
Theorem C78_failure_refuted : forall pf spsc n size w cs o h, (size < 2 ^ 32)%N -> ~ startable pf n size ->
  exists u, th_life pf spsc n size w cs o h = MUb u.
Proof. exact life_raw. Qed.
Print Assumptions C78_failure_refuted.

(** The condition is the one under which the model of C35 creates the thread. *)
Theorem C78_same_condition : forall pf iov_max opt w, (io_input_queue_size opt < 2 ^ 32)%N -> clocks_exist pf ->
  (exists t, iothr_init iov_max true (Some opt) w = Ok t) <-> startable pf (N.to_nat (io_num_input_queues opt)) (io_input_queue_size opt).
Proof.
  intros pf iov_max opt w B C. rewrite (startable_iff _ _ _ B).
  assert (NC : best_clocks pf <> None) by (pose proof (best_clocks_spec pf) as K; destruct (best_clocks pf); [discriminate|contradiction]).
  unfold iothr_init. cbn [negb].
  set (o := if (_ <? _)%N then _ else opt). assert (E : io_num_input_queues o = io_num_input_queues opt /\ io_input_queue_size o = io_input_queue_size opt) by (subst o; destruct (_ <? _)%N; split; reflexivity).
  destruct E as [-> ->]. destruct (N.leb_spec 1 (io_num_input_queues opt)) as [H|H]; cbn [andb].
  - destruct (queue_init_ok _); cbn [negb]; split; try (intros (t & X); discriminate X); intro X.
    + split; [exact NC|right; reflexivity].
    + eexists; reflexivity.
    + destruct X as [_ [X|X]]; [lia|discriminate X].
  - split; intro X; [split; [exact NC|left; lia]|eexists; reflexivity].
Qed.
Print Assumptions C78_same_condition.

(** ** Cases *)
(** Linux: no CLOCK_MONOTONIC_FAST; condition variables wait only on
    CLOCK_MONOTONIC and CLOCK_REALTIME. *)
Definition linux : platform :=
  mk_pf true true true (fun c => match c with K_fast => false | _ => true end) (fun _ => true) (fun c => match c with K_mono | K_real => true | _ => false end).
Example C78_linux : sane linux /\ startable linux 2 512 /\ best_clocks linux = Some (K_coarse, K_mono).
Proof.
  split; [reflexivity|]. split; [|reflexivity]. split.
  - intros _. split; [exists K_mono|intros _; exists K_mono]; repeat split; discriminate.
  - right. exists 9%N. split; [lia|reflexivity].
Qed.
(** A writer over a user's transport, made by the program of C77 in front of one
    other block. *)
Definition th_case (o : list nat) (cs : list tcall) : option (bool * list blk * blk) :=
  match msteps [] [MC_new N_ropt; MC_new (N_rdwr true false true); MC_writer None (TR_rdwr 1)] [] heap0 with
  | MOk (_, s) _ h =>
      match var s 2 with
      | O_writer w => match th_life linux true 2 4 w cs o h with MOk b _ h' => Some (b, h_live h', h_next h') | MUb _ => None end
      | _ => None
      end
  | MUb _ => None
  end.
Definition th_hyp : bool :=
  match msteps [] [MC_new N_ropt; MC_new (N_rdwr true false true); MC_writer None (TR_rdwr 1)] [] heap0 with
  | MOk (_, s) _ h => match var s 2 with O_writer w => forallb (fun b => inb b (own_writer w ++ own (var s 0))) (h_live h) && Nat.eqb (length (h_live h)) (length (own_writer w ++ own (var s 0))) | _ => false end
  | MUb _ => false
  end.
(** The same program up to the moment before the destruction: the queues' entries,
    the output queue and whether the writer is open. *)
Definition th_look (o : list nat) (cs : list tcall) : option (list (list entry) * list entry * bool) :=
  match msteps [] [MC_new N_ropt; MC_new (N_rdwr true false true); MC_writer None (TR_rdwr 1)] [] heap0 with
  | MOk (_, s) _ h =>
      match var s 2 with
      | O_writer w =>
          match th_init linux true 2 4 w o h with
          | MOk (Some t) o h =>
              match th_calls linux t cs o h with
              | MOk t _ _ => Some (map (fun q => match q with Some q => q_items q | None => [] end) (th_qs t), th_out t, th_opened t)
              | MUb _ => None
              end
          | _ => None
          end
      | _ => None
      end
  | MUb _ => None
  end.
(** Four submissions, one of them refused, one without a free function; a round of
    the thread opens the writer and moves two entries to the output queue; the
    block left in the end is that of the options nobody gave away. *)
Definition th_cs : list tcall := [TC_get_queue; TC_submit 0 true; TC_submit 1 false; TC_submit 0 true; TC_submit 1 true; TC_round].
Example C78_case : th_hyp = true /\ th_look [1; 1; 0; 1; 1; 1; 1; 1] th_cs = Some ([[]; [Some 23]], [Some 20; None], true) /\
  th_case [1; 1; 0; 1; 1; 1; 1; 1] th_cs = Some (true, [0], 30).
Proof. vm_compute. repeat split. Qed.
(** Two queues of six entries, a size the setter accepts ([C35_input_queue_size_refuted]). *)
Example C78_failure_case : ~ startable linux 2 6.
Proof. rewrite startable_iff by reflexivity. intros [_ [H|H]]; discriminate H. Qed.

(** C93: which connections fstrm_capture has open. *)
From Coq Require Import ZArith Lia.
From Verif Require Import Bytes Spec SpecTrace SpecStream Capture SpecCapture SpecCaptureOpen Capture5_proofs CaptureOpen_proofs Prop_Capture.
Import ListNotations.
Local Open Scope N_scope.

(** At any time, whatever the peers, signals, clock and failures: the open
    connections are exactly those accepted whose peer has not left, that were not
    hung up on, and on which no FINISH has been written; each is there once. *)
Theorem C93_open_exactly : forall e a H c, reach e a H c -> NoDup (map fst (x_conns c)) /\
  forall id, (exists k, In (id, k) (x_conns c)) <-> accepted id H /\ ~ over e a id H c.
Proof. exact open_exactly. Qed.
Print Assumptions C93_open_exactly.

(** What the other theorems about fstrm_capture look up is what is there. *)
Theorem C93_looked_up : forall e a H c id k, reach e a H c -> (find_conn id (x_conns c) = Some k <-> In (id, k) (x_conns c)).
Proof. exact lookup_right. Qed.
Print Assumptions C93_looked_up.

(** Nothing is forgotten either: once over, always over. *)
Theorem C93_for_good : forall e a H c x c' id, reach e a H c -> legal a H c x -> step e a x c = Go c' ->
  over e a id H c -> over e a id (H ++ [x]) c'.
Proof. exact over_for_good. Qed.
Print Assumptions C93_for_good.

(** The run of Prop_Capture.v: connection 1 has been sent FINISH and is open
    until that is written; on connection 2 it has been; 3 was never there. *)
Example C93_run : reach ex_env ex_args ex_H ex_c /\ map fst (x_conns ex_c) = [1%nat] /\
  accepted 1 ex_H /\ ~ over ex_env ex_args 1 ex_H ex_c /\ In (Answer finish_frame) (acts_of 1 (x_log ex_c)) /\
  accepted 2 ex_H /\ over ex_env ex_args 2 ex_H ex_c /\ ~ accepted 3 ex_H /\
  over ex_env ex_args 1 (ex_H ++ [E_written 1]) ex_c.
Proof.
  split; [exact ex_run|]. split; [vm_compute; reflexivity|].
  split; [vm_compute; tauto|]. split.
  { apply (C93_open_exactly _ _ _ _ ex_run). destruct (x_conns ex_c) as [|[i k] l] eqn:E; [vm_compute in E; discriminate|].
    exists k. left. f_equal. vm_compute in E. congruence. }
  split; [vm_compute; tauto|]. split; [vm_compute; tauto|].
  split.
  { right. right. exists (firstn 8 ex_H), (skipn 9 ex_H). destruct (play0 ex_env ex_args (firstn 8 ex_H)) as [c|] eqn:E; [|vm_compute in E; discriminate].
    exists c. split; [reflexivity|]. split; [apply play0_sound; exact E|]. vm_compute in E. injection E as <-. vm_compute. tauto. }
  split; [vm_compute; intuition discriminate|].
  right. right. exists ex_H, [], ex_c. split; [reflexivity|]. split; [exact ex_run|]. vm_compute. tauto.
Qed.

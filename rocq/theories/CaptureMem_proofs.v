(** The footprint of every function of CaptureMem.v. *)
From Coq Require Import Permutation.
From Verif Require Import Bytes Mem SpecMem Mem_proofs CaptureMem SpecCaptureMem.
Local Open Scope nat_scope.

Lemma reads_any {A} (p : mem A) pre : reads p pre -> spec p pre (fun _ r => r = pre).
Proof. intro R. apply R, incl_refl. Qed.
Lemma reads_need b l : In b l -> reads (m_need (Some b)) l.
Proof. intro I. unfold m_need. apply reads_bind; [now apply reads_use|intros _; apply reads_ret]. Qed.
Lemma reads_opt p l : incl (own_opt own_blk p) l -> reads (m_use_opt p) l.
Proof. intro I. destruct p as [b|]; [|apply reads_ret]. apply reads_use, I. left. reflexivity. Qed.
Lemma reads_if {A} (b : bool) (p q : mem A) l : reads p l -> reads q l -> reads (if b then p else q) l.
Proof. now destruct b. Qed.
(** The result of [m_need]. *)
Lemma sp_need {B} b (k : blk -> mem B) pre Q : In b pre -> spec (k b) pre Q -> spec (mbind (m_need (Some b)) k) pre Q.
Proof. intros I K. unfold m_need. apply sp_assoc, sp_use; [exact I|]. apply sp_ret. exact K. Qed.

Lemma reads_file x : x_file x <> None -> reads (use_file x) (own_out x).
Proof.
  unfold use_file, own_out. destruct (x_file x) as [[f d]|]; [|contradiction]. intros _. cbn [own_opt fst snd].
  apply reads_bind; [apply reads_use, in_or_app; right; cbn; auto|intros _; apply reads_use, in_or_app; right; cbn; auto].
Qed.

(** Ends of the functions that build a control frame. *)
Lemma f_end k (ok : bool) l : spec (mbind (co_destroy (Some k)) (fun _ => mret ok)) (own_ctl k ++ l) (fun b r => r = l /\ b = ok).
Proof. eapply sp_call with (f := l); [apply (f_co_destroy (Some k))|reflexivity|]. cbv beta. intros _ ? ->. eapply spec_ret; [|split; reflexivity]. reflexivity. Qed.
Lemma f_end' k (ok : bool) l : spec (mbind (co_destroy (Some k)) (fun _ => mret ok)) (own_ctl k ++ l) (fun b r => r = l).
Proof. eapply spec_mono; [apply f_end|]. cbv beta. intros b r [-> _]. eauto. Qed.

Lemma f_close_stop x : x_file x <> None -> spec (close_stop x) (own_out x) (fun _ l => l = own_out x).
Proof.
  intro F. unfold close_stop. eapply sp_new; [apply f_co_init|]. cbv beta. intros k ? ->.
  apply sp_use; [inn|]. apply sp_flag. intros []; cbn [negb]; [|apply f_end'].
  eapply sp_reads; [apply reads_co_read|apply incl_appl, incl_refl|]. intros _. apply sp_flag. intros []; cbn [negb]; [|apply f_end'].
  eapply sp_reads; [apply reads_file, F|apply incl_appr, incl_refl|]. intros _. apply sp_flag. intro ok. apply f_end'.
Qed.
Lemma f_open_start x : x_file x <> None -> spec (open_start x) (own_out x) (fun _ l => l = own_out x).
Proof.
  intro F. unfold open_start. eapply sp_new; [apply f_co_init|]. cbv beta. intros k ? ->.
  apply sp_use; [inn|]. apply sp_flag. intros []; cbn [negb]; [|apply f_end'].
  apply sp_flag. intros []; cbn [negb]; [|apply f_end'].
  eapply sp_call with (f := own_out x); [apply f_co_add|reflexivity|]. cbv beta. intros k2 ? ->.
  eapply sp_reads; [apply reads_co_read|apply incl_appl, incl_refl|]. intros _. apply sp_flag. intros []; cbn [negb]; [|apply f_end'].
  eapply sp_reads; [apply reads_file, F|apply incl_appr, incl_refl|]. intros _. apply sp_flag. intro ok.
  eapply sp_reads with (l := own_out x); [|apply incl_appr, incl_refl|].
  { apply reads_if; [apply reads_file, F|apply reads_ret]. }
  intros _. apply f_end'.
Qed.
Lemma f_do_fclose x : x_file x <> None -> spec (do_fclose x) (own_out x) (fun y l => l = own_out y /\ y = set_file x None).
Proof.
  unfold do_fclose, own_out. destruct (x_file x) as [[f d]|] eqn:E; [|contradiction]. intros _. cbn [own_opt fst snd].
  eapply sp_free with (pre' := own_opt own_blk (x_name x) ++ [f]); [pm|]. eapply sp_free with (pre' := own_opt own_blk (x_name x)); [pm|].
  eapply spec_ret; [|split; reflexivity]. cbn [set_file x_name x_file own_opt]. now rewrite app_nil_r.
Qed.

(** What stays the same. *)
Definition same (x y : mcap) : Prop := own_loop y = own_loop x.
Lemma f_new_name x : spec (new_name x) (own_out x) (fun r l => l = own_out (snd r) /\ same x (snd r) /\ x_file (snd r) = x_file x /\ (fst r = true -> x_name (snd r) <> None)).
Proof.
  unfold new_name. apply sp_free_opt with (pre' := own_opt (fun f => [fst f; snd f]) (x_file x)); [reflexivity|].
  apply sp_alloc. intro b. apply sp_use; [inn|]. apply sp_flag. intros [].
  - eapply spec_ret; [|split; [reflexivity|split; [reflexivity|split; [reflexivity|discriminate]]]]. unfold own_out. cbn [snd set_name x_name x_file own_opt own_blk app]. reflexivity.
  - eapply sp_free; [reflexivity|]. eapply spec_ret; [|split; [reflexivity|split; [reflexivity|split; [reflexivity|discriminate]]]].
    unfold own_out. cbn [snd set_name x_name x_file own_opt app]. reflexivity.
Qed.
Lemma reads_name b x : reads (m_use_opt (if b : bool then x_name x else None)) (own_out x).
Proof. apply reads_opt. destruct b; [apply incl_appl, incl_refl|intros ? []]. Qed.

Lemma f_open_file std cal x : x_file x = None ->
  spec (open_file std cal x) (own_out x) (fun r l => l = own_out (snd r) /\ same x (snd r) /\ (fst r = true -> x_file (snd r) <> None)).
Proof.
  intro F. unfold open_file.
  assert (O : forall y f d, x_file y = None -> Permutation (own_out (set_file y (Some (f, d)))) (f :: d :: own_out y)).
  { intros y f d E. unfold own_out. rewrite E. cbn [set_file x_name x_file own_opt fst snd]. pm. }
  eapply spec_bind with (R := fun r l => Permutation l (own_out (snd r)) /\ same x (snd r) /\ (fst r = true -> x_file (snd r) <> None)).
  - destruct std.
    + apply sp_alloc. intro f. apply sp_alloc. intro d. eapply spec_ret with (l := own_out (set_file x (Some (f, d)))).
      * rewrite O by exact F. pm.
      * cbn [fst snd]. split; [reflexivity|]. split; [reflexivity|discriminate].
    + eapply spec_bind with (R := fun r l => l = own_out (snd r) /\ same x (snd r) /\ x_file (snd r) = None).
      * destruct cal.
        -- eapply spec_mono; [apply f_new_name|]. cbv beta. intros r l (-> & A & B & _). exists (own_out (snd r)). split; [reflexivity|].
           split; [reflexivity|]. split; [exact A|congruence].
        -- eapply spec_ret; [reflexivity|]. cbn [snd]. split; [reflexivity|]. split; [reflexivity|exact F].
      * cbv beta. intros [ok y] ? (-> & A & B). cbn [fst snd] in *. destruct ok; cbn [negb].
        2:{ eapply spec_ret; [reflexivity|]. cbn [fst snd]. split; [reflexivity|]. split; [exact A|discriminate]. }
        cbv zeta. eapply sp_reads; [apply reads_name|apply incl_refl|]. intros _. apply sp_flag. intros []; cbn [negb].
        2:{ eapply sp_reads; [apply reads_name|apply incl_refl|]. intros _. eapply spec_ret; [reflexivity|]. cbn [fst snd]. split; [reflexivity|]. split; [exact A|discriminate]. }
        apply sp_alloc. intro d. apply sp_flag. intros []; cbn [negb].
        -- apply sp_alloc. intro f. eapply spec_ret with (l := own_out (set_file y (Some (f, d)))); [symmetry; now apply O|].
           cbn [fst snd]. split; [reflexivity|]. split; [exact A|discriminate].
        -- eapply sp_free; [reflexivity|]. eapply spec_ret with (l := own_out (set_file y None)).
           ++ unfold own_out. rewrite B. reflexivity.
           ++ cbn [fst snd]. split; [reflexivity|]. split; [exact A|discriminate].
  - cbv beta. intros [ok y] l (P & A & B). cbn [fst snd] in *. eapply spec_conv; [symmetry; exact P|]. clear l P.
    destruct ok; cbn [negb].
    2:{ eapply spec_ret; [reflexivity|]. cbn [fst snd]. split; [reflexivity|]. split; [exact A|discriminate]. }
    specialize (B eq_refl). cbv zeta. eapply spec_bind; [apply f_open_start, B|]. cbv beta. intros [] ? ->.
    + eapply sp_reads; [apply reads_name|apply incl_refl|]. intros _. eapply spec_ret; [reflexivity|]. cbn [fst snd]. split; [reflexivity|]. split; [exact A|auto].
    + eapply spec_bind; [apply f_do_fclose, B|]. cbv beta. intros z ? [-> ->]. eapply spec_ret; [reflexivity|]. cbn [fst snd].
      split; [reflexivity|]. split; [exact A|discriminate].
Qed.
Lemma f_close_file x : spec (close_file x) (own_out x) (fun r l => l = own_out (snd r) /\ same x (snd r) /\ (fst r = true -> x_file (snd r) = None)).
Proof.
  unfold close_file. eapply spec_bind with (R := fun r l => l = own_out (snd r) /\ same x (snd r) /\ (fst r = true -> x_file (snd r) = None)).
  - destruct (x_file x) as [f|] eqn:E.
    + eapply spec_bind; [apply f_close_stop; congruence|]. cbv beta. intros [] ? ->.
      * eapply spec_bind; [apply f_do_fclose; congruence|]. cbv beta. intros z ? [-> ->]. eapply spec_ret; [reflexivity|]. cbn [fst snd]. split; [reflexivity|]. split; reflexivity.
      * eapply spec_ret; [reflexivity|]. cbn [fst snd]. split; [reflexivity|]. split; [reflexivity|discriminate].
    + eapply spec_ret; [reflexivity|]. cbn [fst snd]. split; [reflexivity|]. split; [reflexivity|auto].
  - cbv beta. intros [ok y] ? (-> & A & B). cbn [fst snd] in *. destruct ok; cbn [negb].
    + eapply sp_reads; [apply (reads_name true)|apply incl_refl|]. intros _. eapply spec_ret; [reflexivity|]. cbn [fst snd]. auto.
    + eapply spec_ret; [reflexivity|]. cbn [fst snd]. auto.
Qed.
(** After exit() nothing is asked. *)
Definition out_left (x : mcap) (r : option mcap) (l : list blk) : Prop :=
  match r with Some y => l = own_out y /\ same x y /\ x_file y <> None | None => True end.
Lemma f_rotate std cal x : x_file x <> None -> spec (rotate std cal x) (own_out x) (out_left x).
Proof.
  intro F. unfold rotate. destruct std.
  - eapply spec_ret; [reflexivity|]. split; [reflexivity|]. split; [reflexivity|exact F].
  - eapply spec_bind; [apply f_close_file|]. cbv beta. intros [ok y] ? (-> & A & B). cbn [fst snd] in *. destruct ok; cbn [negb]; [|eapply spec_ret; [reflexivity|exact I]].
    eapply spec_bind; [apply f_open_file; auto|]. cbv beta. intros [ok z] ? (-> & C & D). cbn [fst snd] in *. eapply spec_ret; [reflexivity|].
    destruct ok; [|exact I]. cbn [out_left]. split; [reflexivity|]. split; [unfold same in *; congruence|auto].
Qed.
Lemma f_maybe std cal x : x_file x <> None -> spec (maybe std cal x) (own_out x) (out_left x).
Proof.
  intro F. unfold maybe. apply sp_flag. intros []; [now apply f_rotate|]. eapply spec_ret; [reflexivity|]. split; [reflexivity|]. split; [reflexivity|exact F].
Qed.

(** ** Connections *)
Definition wfc (c : mconn) : Prop := mc_field c = None \/ mc_field c = Some (mc_bev c).
Definition bound (c : mconn) : Prop := mc_field c = Some (mc_bev c).
Ltac inc := unfold own_conn; cbn [In app]; repeat (rewrite in_app_iff); cbn [In]; tauto.
Ltac ru := apply reads_bind; [apply reads_use; inc|intros _].
Lemma own_ctl_incl c : incl (own_ctl (mc_ctl c)) (own_conn c).
Proof. intros y H. right. apply in_or_app. left. exact H. Qed.
Lemma reads_ctl c : reads (co_read (mc_ctl c)) (own_conn c).
Proof. eapply reads_incl; [apply own_ctl_incl|apply reads_co_read]. Qed.
Lemma reads_field c : bound c -> reads (m_need (mc_field c)) (own_conn c).
Proof. intros ->. apply reads_need. inc. Qed.
Lemma reads_log c : wfc c -> reads (log c) (own_conn c).
Proof.
  intro W. unfold log. ru. apply reads_bind; [apply reads_flag|]. intro b. apply reads_if; [|apply reads_ret].
  apply reads_opt. destruct W as [->| ->]; cbn [own_opt own_blk]; [intros ? []|]. intros y [<-|[]]. inc.
Qed.
Lemma reads_log_data c d : bound c -> incl (own_opt own_blk d) (own_conn c) -> reads (log_data c d) (own_conn c).
Proof.
  intros W I. unfold log_data. ru. apply reads_bind; [apply reads_flag|]. intro b. apply reads_if; [|apply reads_ret].
  apply reads_bind; [now apply reads_field|intros _]. now apply reads_opt.
Qed.
Lemma bound_wfc c : bound c -> wfc c. Proof. now right. Qed.
Lemma reads_input c : bound c -> reads (use_input c) (own_conn c).
Proof. intro W. unfold use_input. ru. apply reads_bind; [now apply reads_field|intros _]. apply reads_use. inc. Qed.
Lemma f_move c : spec (move_input c) (own_conn c) (fun d l => l = own_conn d /\ exists b, d = set_chain c b).
Proof.
  unfold move_input. apply sp_use; [inc|].
  apply sp_realloc with (pre' := mc_blk c :: own_ctl (mc_ctl c) ++ [mc_bev c; mc_fd c]); [unfold own_conn; pm|].
  intro b. eapply spec_ret; [|split; [reflexivity|exists b; reflexivity]]. unfold own_conn. cbn [set_chain mc_blk mc_ctl mc_bev mc_chain mc_fd]. pm.
Qed.
Lemma f_close_conn x c : wfc c ->
  spec (close_conn x (mc_bev c) c) (x_listener x :: own_conn c) (fun _ l => l = [x_listener x]).
Proof.
  intro W. unfold close_conn. apply sp_use; [right; inc|]. apply sp_flag. intro bad.
  eapply sp_reads with (l := own_conn c); [apply reads_if; [now apply reads_log|apply reads_ret]|apply incl_tl, incl_refl|]. intros _.
  eapply sp_reads; [now apply reads_log|apply incl_tl, incl_refl|]. intros _. apply sp_use; [right; inc|].
  apply sp_free with (pre' := x_listener x :: mc_blk c :: own_ctl (mc_ctl c) ++ [mc_bev c; mc_fd c]); [unfold own_conn; pm|].
  apply sp_free with (pre' := x_listener x :: mc_blk c :: own_ctl (mc_ctl c) ++ [mc_bev c]); [pm|].
  apply sp_free with (pre' := x_listener x :: mc_blk c :: own_ctl (mc_ctl c)); [pm|].
  apply sp_use; [cbn [In]; tauto|].
  eapply sp_call with (f := [x_listener x; mc_blk c]); [apply (f_co_destroy (Some (mc_ctl c)))|cbn [own_opt]; pm|]. cbv beta. intros _ ? ->. cbn [app].
  apply sp_free with (pre' := [x_listener x]); [pm|]. apply sp_flag. intros []; [|eapply spec_ret; reflexivity].
  apply sp_last, sp_use; [cbn; tauto|]. eapply spec_ret; reflexivity.
Qed.
Lemma f_data_frame x c : x_file x <> None -> bound c ->
  spec (data_frame x c) (own_conn c ++ own_out x) (fun r l => fst r = true -> l = own_conn (snd r) ++ own_out x /\ bound (snd r)).
Proof.
  intros F W. unfold data_frame. eapply sp_reads; [apply reads_log, bound_wfc, W|apply incl_appl, incl_refl|]. intros _.
  eapply sp_reads; [apply reads_input, W|apply incl_appl, incl_refl|]. intros _.
  eapply sp_reads; [apply reads_file, F|apply incl_appr, incl_refl|]. intros _. apply sp_flag. intros []; cbn [negb].
  - eapply sp_call with (f := own_out x); [apply f_move|reflexivity|]. cbv beta. intros d ? (-> & b & ->).
    apply sp_use; [apply in_or_app; left; inc|]. eapply spec_ret; [reflexivity|]. cbn [fst snd]. intros _. split; [reflexivity|exact W].
  - eapply spec_ret; [reflexivity|discriminate].
Qed.
Lemma reads_write_frame c : bound c -> reads (write_frame c) (own_conn c).
Proof.
  intro W. unfold write_frame. ru. apply reads_bind; [apply reads_ctl|intros _]. apply reads_bind; [apply reads_flag|]. intros []; cbn [negb]; [|apply reads_ret].
  apply reads_bind; [apply reads_ctl|intros _]. apply reads_bind; [apply reads_log, bound_wfc, W|intros _].
  apply reads_bind; [apply reads_log_data; [exact W|intros ? []]|intros _]. ru. apply reads_bind; [apply reads_field, W|intros _].
  apply reads_bind; [apply reads_flag|]. intro ok. apply reads_bind; [apply reads_if; [apply reads_ret|apply reads_log, bound_wfc, W]|intros _; apply reads_ret].
Qed.
Lemma reads_match_type c : bound c -> reads (match_type c) (own_conn c).
Proof.
  intro W. unfold match_type. ru. apply reads_bind; [apply reads_ctl|intros _]. apply reads_bind; [apply reads_flag|]. intro ok.
  apply reads_bind; [apply reads_if; [apply reads_ret|apply reads_log, bound_wfc, W]|intros _; apply reads_ret].
Qed.
Lemma reads_log_each c l : bound c -> incl l (bv_items (c_vec (mc_ctl c))) -> reads (log_each c l) (own_conn c).
Proof.
  intro W. induction l as [|d l IH]; intro I; cbn [log_each]; [apply reads_ret|]. ru. apply reads_bind; [apply reads_ctl|intros _].
  apply reads_bind; [apply reads_flag|]. intros []; cbn [negb]; [|apply reads_ret].
  apply reads_bind; [|intros _; apply IH; intros y Y; apply I; right; exact Y]. apply reads_log_data; [exact W|].
  intros y [<-|[]]. apply own_ctl_incl. unfold own_ctl, own_vec. do 3 right. apply I. left. reflexivity.
Qed.
Definition conn_left (c : mconn) (r : bool * mconn) (l : list blk) : Prop := l = own_conn (snd r) /\ (bound c -> bound (snd r)).
Lemma f_reset c : spec (co_reset (mc_ctl c)) (own_ctl (mc_ctl c)) (fun k l => l = own_ctl k).
Proof. eapply spec_mono; [apply f_co_reset|]. cbv beta. intros k l [-> _]. eauto. Qed.
Lemma own_set c k : Permutation (own_ctl k ++ [mc_blk c; mc_bev c; mc_chain c; mc_fd c]) (own_conn (set_ctl c k)).
Proof. unfold own_conn. cbn [set_ctl mc_blk mc_ctl mc_bev mc_chain mc_fd]. pm. Qed.
Lemma own_split c : Permutation (own_conn c) (own_ctl (mc_ctl c) ++ [mc_blk c; mc_bev c; mc_chain c; mc_fd c]).
Proof. unfold own_conn. pm. Qed.
Lemma f_ready c : bound c -> spec (ctl_ready c) (own_conn c) (conn_left c).
Proof.
  intro W. unfold ctl_ready. apply sp_use; [inc|]. apply sp_use; [apply own_ctl_incl; left; reflexivity|].
  assert (No : forall d, bound d -> spec (mret (false, d)) (own_conn d) (conn_left c)) by (intros d Wd; eapply spec_ret; [reflexivity|split; [reflexivity|auto]]).
  apply sp_flag. intros []; cbn [negb]; [|now apply No].
  eapply sp_reads; [apply reads_log_each; [exact W|apply incl_refl]|apply incl_refl|]. intros []; cbn [negb]; [|now apply No].
  eapply sp_reads; [apply reads_match_type, W|apply incl_refl|]. intros []; cbn [negb]; [|now apply No].
  apply sp_use; [inc|]. eapply sp_call; [apply f_reset|apply own_split|]. cbv beta. intros k ? ->.
  apply sp_flag. intros []; cbn [negb]; [|eapply spec_conv; [symmetry; apply own_set|now apply No]].
  eapply sp_call; [apply f_co_add|reflexivity|]. cbv beta. intros k2 ? ->. eapply spec_conv; [symmetry; apply own_set|].
  eapply sp_reads; [apply (reads_write_frame (set_ctl c k2)), W|apply incl_refl|]. intro ok.
  apply sp_use; [inc|]. eapply spec_ret; [reflexivity|]. split; [reflexivity|auto].
Qed.
Lemma f_start c : bound c -> spec (ctl_start c) (own_conn c) (conn_left c).
Proof.
  intro W. unfold ctl_start. eapply sp_reads; [apply reads_match_type, W|apply incl_refl|]. intro ok. apply sp_use; [inc|]. eapply spec_ret; [reflexivity|split; [reflexivity|auto]].
Qed.
Lemma f_stop c : bound c -> spec (ctl_stop c) (own_conn c) (conn_left c).
Proof.
  intro W. unfold ctl_stop. apply sp_use; [inc|]. eapply sp_call; [apply f_reset|apply own_split|]. cbv beta. intros k ? ->.
  apply sp_flag. intros []; cbn [negb]; (eapply spec_conv; [symmetry; apply own_set|]); [|eapply spec_ret; [reflexivity|split; [reflexivity|auto]]].
  eapply sp_reads; [apply (reads_write_frame (set_ctl c k)), W|apply incl_refl|]. intro ok.
  apply sp_use; [inc|]. eapply spec_ret; [reflexivity|]. split; [reflexivity|auto].
Qed.
Lemma f_ctl c : bound c -> spec (ctl_frame c) (own_conn c) (conn_left c).
Proof.
  intro W. unfold ctl_frame. apply sp_use; [inc|]. apply sp_use; [apply own_ctl_incl; left; reflexivity|].
  assert (No : spec (mret (false, c)) (own_conn c) (conn_left c)) by (eapply spec_ret; [reflexivity|split; [reflexivity|auto]]).
  apply sp_flag. intros []; cbn [negb]; [|exact No]. eapply sp_reads; [apply reads_log, bound_wfc, W|apply incl_refl|]. intros _.
  apply sp_choose. intros [|[|[|n]]]; [now apply f_ready|now apply f_start|now apply f_stop|exact No].
Qed.
Lemma f_load c : bound c -> spec (load_frame c) (own_conn c) (conn_left c).
Proof.
  intro W. unfold load_frame. apply sp_use; [inc|].
  assert (No : spec (mret (false, c)) (own_conn c) (conn_left c)) by (eapply spec_ret; [reflexivity|split; [reflexivity|auto]]).
  apply sp_flag. intros []; cbn [negb]; [|exact No]. eapply sp_reads; [apply reads_input, W|apply incl_refl|]. intros _.
  apply sp_flag. intros []; cbn [negb]; [|exact No]. eapply spec_bind; [apply f_move|]. cbv beta. intros d ? (-> & b & ->).
  set (d := set_chain c b). assert (Wd : bound d) by exact W. cbv zeta.
  eapply sp_reads; [apply reads_log_data; [exact Wd|]|apply incl_refl|]. { intros y [<-|[]]. inc. }
  intros _. apply sp_use; [inc|]. apply sp_use; [inc|].
  eapply sp_call; [apply f_co_decode|apply own_split|]. cbv beta. intros [ok k] ? ->. cbn [fst snd].
  apply sp_use; [apply in_or_app; right; cbn; tauto|]. eapply spec_conv; [symmetry; apply own_set|]. destruct ok; cbn [negb].
  - eapply sp_reads; [apply (reads_input (set_ctl d k)), W|apply incl_refl|]. intros _. eapply spec_bind; [apply f_move|]. cbv beta. intros d2 ? (-> & b2 & ->).
    eapply spec_ret; [reflexivity|]. split; [reflexivity|auto].
  - eapply spec_ret; [reflexivity|]. split; [reflexivity|auto].
Qed.
Lemma f_can_read x c : bound c ->
  spec (can_read x c) (x_listener x :: own_conn c)
    (fun r l => if snd r then fst r = false /\ l = [x_listener x] else l = x_listener x :: own_conn c).
Proof.
  intro W. unfold can_read. apply sp_use; [right; inc|]. apply sp_choose. intros [|[|[|n]]].
  - eapply spec_ret; reflexivity.
  - eapply sp_reads; [apply reads_input, W|apply incl_tl, incl_refl|]. intros _. rewrite W. apply sp_need; [right; inc|].
    eapply spec_bind; [apply f_close_conn, bound_wfc, W|]. cbv beta. intros _ ? ->. eapply spec_ret; [reflexivity|]. split; reflexivity.
  - eapply sp_reads; [apply reads_input, W|apply incl_tl, incl_refl|]. intros _.
    eapply sp_reads; [apply reads_log, bound_wfc, W|apply incl_tl, incl_refl|]. intros _.
    eapply sp_reads; [apply reads_log, bound_wfc, W|apply incl_tl, incl_refl|]. intros _. apply sp_use; [right; inc|]. eapply spec_ret; reflexivity.
  - eapply sp_reads; [apply reads_input, W|apply incl_tl, incl_refl|]. intros _. eapply spec_ret; reflexivity.
Qed.

(** ** Callbacks *)
Definition whole (x : mcap) : list blk := own_loop x ++ own_out x.
Definition served_left (r : served) (l : list blk) : Prop :=
  match r with
  | S_open y d => l = own_conn d ++ whole y /\ wfc d /\ x_file y <> None
  | S_over y => l = whole y /\ x_file y <> None
  | S_exit => True
  end.
Definition rest (x : mcap) : list blk := [x_base x; x_hup x; x_usr1 x] ++ own_out x.
Lemma own_split2 c x : Permutation (own_conn c ++ whole x) ((x_listener x :: own_conn c) ++ rest x).
Proof. unfold whole, rest, own_loop. pm. Qed.
Lemma whole_split x : Permutation (x_listener x :: rest x) (whole x).
Proof. unfold whole, rest, own_loop. pm. Qed.
(** Closing a connection and returning. *)
Lemma f_over x c b : wfc c -> b = mc_bev c -> x_file x <> None ->
  spec (mbind (close_conn x b c) (fun _ => mret (S_over x))) (own_conn c ++ whole x) served_left.
Proof.
  intros W -> F. eapply sp_call; [apply f_close_conn, W|apply own_split2|]. cbv beta. intros _ ? ->. eapply spec_ret; [apply (whole_split x)|split; [reflexivity|exact F]].
Qed.
Lemma f_loop std cal n : forall x c, x_file x <> None -> bound c -> spec (read_loop std cal n x c) (own_conn c ++ whole x) served_left.
Proof.
  induction n as [|n IH]; intros x c F W; cbn [read_loop].
  - apply sp_use; [apply in_or_app; left; inc|]. eapply sp_reads; [apply reads_field, W|apply incl_appl, incl_refl|]. intros _.
    apply sp_use; [apply in_or_app; left; inc|]. eapply spec_ret; [reflexivity|]. split; [reflexivity|]. split; [apply bound_wfc, W|exact F].
  - apply sp_use; [apply in_or_app; left; inc|]. eapply sp_reads; [apply reads_field, W|apply incl_appl, incl_refl|]. intros _.
    apply sp_use; [apply in_or_app; left; inc|]. apply sp_flag. intro skipping.
    eapply sp_call with (R := fun (r : bool * bool) l => if snd r then fst r = false /\ l = [x_listener x] else l = x_listener x :: own_conn c); [|apply own_split2|].
    { destruct skipping; [eapply spec_ret; reflexivity|apply f_can_read, W]. }
    cbv beta. intros [ok gone] l. cbn [fst snd]. destruct gone.
    { intros [-> ->]. cbn [negb]. eapply spec_ret; [apply (whole_split x)|]. split; [reflexivity|exact F]. }
    intros ->. eapply spec_conv; [apply own_split2|]. destruct ok; cbn [negb].
    2:{ eapply spec_ret; [reflexivity|]. split; [reflexivity|]. split; [apply bound_wfc, W|exact F]. }
    apply sp_use; [apply in_or_app; left; inc|]. destruct skipping.
    + eapply sp_reads; [apply reads_log, bound_wfc, W|apply incl_appl, incl_refl|]. intros _.
      eapply sp_reads; [apply reads_input, W|apply incl_appl, incl_refl|]. intros _.
      eapply sp_call; [apply f_move|reflexivity|]. cbv beta. intros d ? (-> & b & ->). apply sp_use; [apply in_or_app; left; inc|]. apply IH; assumption.
    + apply sp_flag. intros [].
      * eapply sp_call with (f := own_loop x); [apply f_data_frame; [exact F|exact W]|unfold whole; pm|]. cbv beta. intros [ok d] l. cbn [fst snd]. destruct ok; cbn [negb].
        2:{ intros _. eapply spec_ret; [reflexivity|exact I]. }
        intro X. destruct (X eq_refl) as [-> Wd]. cbv zeta. apply sp_use; [apply in_or_app; left; apply in_or_app; left; inc|].
        eapply sp_call with (f := own_conn d ++ own_loop x); [apply f_maybe, F|pm|]. intros [y|] l' L; cbn [out_left] in L; [|eapply spec_ret; [reflexivity|exact I]].
        destruct L as (-> & S1 & S2). eapply spec_conv; [|apply IH; [exact S2|exact Wd]]. unfold whole. rewrite S1. pm.
      * eapply sp_call with (f := whole x); [apply f_load, W|reflexivity|]. intros [ok d] ? [-> Wd]. specialize (Wd W). cbn [fst snd] in *. cbv zeta. destruct ok; cbn [negb].
        2:{ apply sp_use; [apply in_or_app; left; inc|]. rewrite Wd. apply sp_need; [apply in_or_app; left; inc|]. apply f_over; [apply bound_wfc, Wd|reflexivity|exact F]. }
        eapply sp_call with (f := whole x); [apply f_ctl, Wd|reflexivity|]. intros [ok d2] ? [-> Wd2]. specialize (Wd2 Wd). cbn [fst snd] in *. cbv zeta. destruct ok; cbn [negb].
        2:{ apply sp_use; [apply in_or_app; left; inc|]. rewrite Wd2. apply sp_need; [apply in_or_app; left; inc|]. apply f_over; [apply bound_wfc, Wd2|reflexivity|exact F]. }
        apply IH; assumption.
Qed.
Lemma f_on_read std cal x c : x_file x <> None -> spec (on_read std cal x c) (own_conn c ++ whole x) served_left.
Proof.
  intro F. unfold on_read. eapply sp_call; [apply f_move|reflexivity|]. cbv beta. intros d ? (-> & b & ->).
  apply sp_use; [apply in_or_app; left; inc|]. cbv zeta. apply sp_use; [apply in_or_app; left; inc|]. apply sp_choose. intro n.
  eapply spec_conv; [|apply f_loop; [exact F|reflexivity]]. reflexivity.
Qed.
Lemma f_on_write x c : x_file x <> None -> wfc c -> spec (on_write x c) (own_conn c ++ whole x) served_left.
Proof.
  intros F W. unfold on_write. apply sp_use; [apply in_or_app; left; inc|]. apply sp_use; [apply in_or_app; left; inc|]. apply sp_flag. intros [].
  - now apply f_over.
  - eapply spec_ret; [reflexivity|]. split; [reflexivity|]. split; assumption.
Qed.
Lemma f_on_close x c : x_file x <> None -> wfc c -> spec (on_close x c) (own_conn c ++ whole x) (fun r l => r = S_over x /\ l = whole x).
Proof.
  intros F W. unfold on_close. apply sp_use; [apply in_or_app; left; inc|].
  eapply sp_call; [apply f_close_conn, W|apply own_split2|]. cbv beta. intros _ ? ->. eapply spec_ret; [apply (whole_split x)|split; reflexivity].
Qed.
Lemma f_on_accept x : spec (on_accept x) (whole x)
  (fun r l => match r with Some c => l = own_conn c ++ whole x /\ wfc c | None => l = whole x end).
Proof.
  unfold on_accept. apply sp_use; [cbn; tauto|]. apply sp_alloc. intro fd. apply sp_use; [cbn; tauto|]. apply sp_flag. intros []; cbn [negb].
  - apply sp_alloc. intro bev. apply sp_alloc. intro chain. apply sp_alloc. intro b. apply sp_use; [left; reflexivity|].
    eapply sp_new; [apply f_co_init|]. cbv beta. intros k ? ->. apply sp_use; [apply in_or_app; right; cbn; tauto|].
    apply sp_flag. intro last. eapply sp_reads with (l := [x_listener x]).
    { apply reads_if; [apply reads_use; left; reflexivity|apply reads_ret]. }
    { intros y [<-|[]]. apply in_or_app. right. cbn; tauto. }
    intros _. eapply spec_ret; [|split; [reflexivity|left; reflexivity]]. unfold own_conn. cbn [mc_blk mc_ctl mc_bev mc_chain mc_fd]. pm.
  - eapply sp_free; [reflexivity|]. eapply spec_ret; reflexivity.
Qed.

(** ** The server *)
Definition own_srv (s : msrv) : list blk := own_conns (s_conns s) ++ whole (s_cap s).
Definition wfs (s : msrv) : Prop := x_file (s_cap s) <> None /\ Forall (fun p => wfc (snd p)) (s_conns s) /\
  NoDup (map fst (s_conns s)) /\ Forall (fun p => fst p < s_next s) (s_conns s).
Definition srv_left (r : option msrv) (l : list blk) : Prop := match r with Some s => l = own_srv s /\ wfs s | None => True end.
Lemma drop_perm id c l : find_mc id l = Some c -> Permutation l ((id, c) :: drop_mc id l).
Proof.
  induction l as [|[i d] l IH]; [discriminate|]. cbn. destruct (Nat.eqb_spec i id) as [->|N]; [intros [= ->]; reflexivity|].
  intro E. rewrite (IH E) at 1. apply perm_swap.
Qed.
Lemma own_conns_perm l l' : Permutation l l' -> Permutation (own_conns l) (own_conns l').
Proof. intro P. unfold own_conns. induction P; cbn [map concat]; [reflexivity|now rewrite IHP|pm|etransitivity; eassumption]. Qed.
Lemma wfs_drop s id c : wfs s -> find_mc id (s_conns s) = Some c -> wfc c /\ wfs (mk_srv (s_cap s) (s_next s) (drop_mc id (s_conns s))) /\
  ~ In id (map fst (drop_mc id (s_conns s))) /\ id < s_next s.
Proof.
  intros (A & B & C & D) E. apply drop_perm in E. pose proof (Permutation_Forall E B) as B'. pose proof (Permutation_Forall E D) as D'.
  pose proof (Permutation_NoDup (Permutation_map fst E) C) as C'. cbn [map fst] in C'. inversion B'; inversion C'; inversion D'; subst.
  split; [assumption|]. split; [|split; assumption]. split; [exact A|]. split; [assumption|]. split; assumption.
Qed.
Lemma f_on_conn s id f : wfs s -> (forall c, wfc c -> spec (f (s_cap s) c) (own_conn c ++ whole (s_cap s)) served_left) ->
  spec (on_conn s id f) (own_srv s) srv_left.
Proof.
  intros W Sf. unfold on_conn. destruct (find_mc id (s_conns s)) as [c|] eqn:E.
  2:{ eapply spec_ret; [reflexivity|split; [reflexivity|exact W]]. }
  destruct (wfs_drop _ _ _ W E) as (Wc & (A & B & C & D) & N & L). cbn [s_cap s_conns s_next] in *.
  eapply sp_call with (f := own_conns (drop_mc id (s_conns s))); [apply Sf, Wc| |].
  { pose proof (own_conns_perm _ _ (drop_perm _ _ _ E)) as P. unfold own_srv. unfold own_conns at 2 in P. cbn [map concat snd] in P. fold (own_conns (drop_mc id (s_conns s))) in P. pm. }
  intros [y d|y|] l Q; cbn [served_left] in Q.
  - destruct Q as (-> & Q1 & Q2). eapply spec_ret; [|split; [reflexivity|]].
    + unfold own_srv. cbn [s_conns s_cap]. unfold own_conns at 2. cbn [map concat snd]. fold (own_conns (drop_mc id (s_conns s))). pm.
    + split; [exact Q2|]. split; [constructor; assumption|]. split; [constructor; assumption|]. constructor; assumption.
  - destruct Q as (-> & Q2). eapply spec_ret; [|split; [reflexivity|]].
    + unfold own_srv. cbn [s_conns s_cap]. pm.
    + split; [exact Q2|]. split; [assumption|]. split; assumption.
  - eapply spec_ret; [reflexivity|exact I].
Qed.
Lemma f_event std cal s e : wfs s -> spec (mevent_step std cal s e) (own_srv s) srv_left.
Proof.
  intro W. pose proof W as (A & B & C & D). destruct e as [|id|id|id| |]; cbn [mevent_step].
  - eapply sp_call with (f := own_conns (s_conns s)); [apply f_on_accept|unfold own_srv; pm|]. cbv beta. intros [c|] l Q.
    + destruct Q as [-> Wc]. eapply spec_ret; [|split; [reflexivity|]].
      * unfold own_srv. cbn [s_conns s_cap]. unfold own_conns at 2. cbn [map concat snd]. fold (own_conns (s_conns s)). pm.
      * split; [exact A|]. split; [constructor; assumption|]. cbn [s_conns s_next map fst]. split.
        -- constructor; [|exact C]. intro I. apply in_map_iff in I as (p & E & I). rewrite Forall_forall in D. specialize (D _ I). lia.
        -- constructor; [cbn; lia|]. eapply Forall_impl; [|exact D]. cbv beta. intros; lia.
    + subst l. eapply spec_ret; [|split; [reflexivity|exact W]]. unfold own_srv. pm.
  - apply f_on_conn; [exact W|]. intros c Wc. now apply f_on_read.
  - apply f_on_conn; [exact W|]. intros c Wc. now apply f_on_write.
  - apply f_on_conn; [exact W|]. intros c Wc. eapply spec_mono; [now apply f_on_close|]. cbv beta. intros r l [-> ->]. eexists. split; [reflexivity|]. split; [reflexivity|exact A].
  - apply sp_use; [apply in_or_app; right; cbn; tauto|]. destruct (x_file (s_cap s)) as [f|] eqn:E; [|congruence].
    eapply sp_call with (f := own_conns (s_conns s) ++ own_loop (s_cap s)); [apply f_rotate; congruence|unfold own_srv, whole; pm|].
    intros [y|] l Q; cbn [out_left] in Q; [|eapply spec_ret; [reflexivity|exact I]]. destruct Q as (-> & Q1 & Q2).
    eapply spec_ret; [|split; [reflexivity|]].
    + unfold own_srv, whole. cbn [s_conns s_cap]. rewrite Q1. pm.
    + split; [exact Q2|]. split; [assumption|]. split; assumption.
  - apply sp_use; [apply in_or_app; right; cbn; tauto|]. eapply sp_reads with (l := own_out (s_cap s)).
    + destruct (x_file (s_cap s)) eqn:E; [apply reads_file; congruence|apply reads_ret].
    + apply incl_appr, incl_appr, incl_refl.
    + intros _. eapply spec_ret; [reflexivity|]. split; [reflexivity|exact W].
Qed.
Lemma f_events std cal es : forall s, wfs s -> spec (mevents std cal s es) (own_srv s) srv_left.
Proof.
  induction es as [|e es IH]; intros s W; cbn [mevents]; [eapply spec_ret; [reflexivity|split; [reflexivity|exact W]]|].
  eapply spec_bind; [apply f_event, W|]. intros [s'|] l Q; cbn [srv_left] in Q; [|eapply spec_ret; [reflexivity|exact I]].
  destruct Q as [-> W']. now apply IH.
Qed.
Lemma f_setup std cal : spec (msetup std cal) [] srv_left.
Proof.
  unfold msetup. eapply spec_bind; [apply (f_open_file std cal (mk_cap None None 0 0 0 0)); reflexivity|]. cbv beta. intros [ok x] ? (-> & _ & B). cbn [fst snd] in *.
  destruct ok; cbn [negb]; [|eapply spec_ret; [reflexivity|exact I]]. specialize (B eq_refl).
  apply sp_alloc. intro base. apply sp_flag. intros []; cbn [negb].
  2:{ eapply sp_free; [reflexivity|]. eapply spec_ret; [reflexivity|exact I]. }
  apply sp_alloc. intro l. apply sp_use; [left; reflexivity|]. apply sp_alloc. intro h. apply sp_use; [left; reflexivity|].
  apply sp_alloc. intro u. apply sp_use; [left; reflexivity|]. apply sp_use; [cbn; tauto|].
  eapply spec_ret; [|split; [reflexivity|]].
  - unfold own_srv, own_conns, whole, own_loop, own_out. cbn [s_conns s_cap map concat x_base x_listener x_hup x_usr1 x_name x_file]. pm.
  - split; [exact B|]. split; [constructor|]. split; constructor.
Qed.
Lemma f_server std cal es : spec (mserver std cal es) [] srv_left.
Proof.
  unfold mserver. eapply spec_bind; [apply f_setup|]. intros [s|] l Q; cbn [srv_left] in Q; [|eapply spec_ret; [reflexivity|exact I]].
  destruct Q as [-> W]. now apply f_events.
Qed.
Lemma f_shutdown s : wfs s -> spec (mshutdown s) (own_srv s) (fun ok l => ok = true -> l = own_conns (s_conns s)).
Proof.
  intros (A & _). unfold mshutdown. eapply sp_call with (f := own_conns (s_conns s) ++ own_loop (s_cap s)); [apply f_close_file|unfold own_srv, whole; pm|].
  cbv beta. intros [ok x] ? (-> & S1 & S2). cbn [fst snd] in *. destruct ok; cbn [negb]; [|eapply spec_ret; [reflexivity|discriminate]].
  specialize (S2 eq_refl). rewrite <- S1. unfold own_out. rewrite S2. cbn [own_opt]. cbv zeta. unfold own_loop.
  set (n := own_opt own_blk (x_name x)). set (cs := own_conns (s_conns s)).
  apply sp_free with (pre' := n ++ cs ++ [x_base x; x_listener x; x_usr1 x]); [pm|].
  apply sp_free with (pre' := n ++ cs ++ [x_base x; x_listener x]); [pm|].
  apply sp_free with (pre' := n ++ cs ++ [x_base x]); [pm|].
  apply sp_free with (pre' := n ++ cs); [pm|].
  apply sp_free_opt with (pre' := cs); [reflexivity|]. eapply spec_ret; [reflexivity|reflexivity].
Qed.

(** ** From the start *)
Lemma hwf0 : hwf heap0.
Proof. split; constructor. Qed.
Lemma server_run std cal es o : exists r o' h, mserver std cal es o heap0 = MOk r o' h /\ hwf h /\
  match r with Some s => Permutation (h_live h) (own_srv s) /\ wfs s | None => True end.
Proof.
  destruct (f_server std cal es o heap0 [] hwf0) as (r & o' & h & l & E & W & _ & Q & P); [reflexivity|].
  exists r, o', h. split; [exact E|]. split; [exact W|]. destruct r as [s|]; [|exact I]. destruct Q as [-> Q]. rewrite app_nil_r in P. auto.
Qed.
Lemma accounted std cal es o : exists r o' h, mserver std cal es o heap0 = MOk r o' h /\
  match r with
  | None => True
  | Some s => NoDup (h_live h) /\ NoDup (map fst (s_conns s)) /\
      Permutation (h_live h) (own_conns (s_conns s) ++ own_loop (s_cap s) ++ own_out (s_cap s))
  end.
Proof.
  destruct (server_run std cal es o) as (r & o' & h & E & W & Q). exists r, o', h. split; [exact E|]. destruct r as [s|]; [|exact I].
  destruct Q as [P (_ & _ & N & _)]. split; [apply W|]. split; [exact N|exact P].
Qed.
Lemma events_app std cal es e : forall s o h, mevents std cal s (es ++ [e]) o h =
  match mevents std cal s es o h with
  | MOk (Some s') o' h' => mevent_step std cal s' e o' h'
  | MOk None o' h' => MOk None o' h'
  | MUb u => MUb u
  end.
Proof.
  induction es as [|e0 es IH]; intros s o h; cbn [mevents app].
  - unfold mbind, mret. destruct (mevent_step std cal s e o h) as [[s'|] o' h'|u]; reflexivity.
  - unfold mbind. destruct (mevent_step std cal s e0 o h) as [[s'|] o' h'|u]; try reflexivity. apply IH.
Qed.
Lemma server_app std cal es e o s o1 h1 : mserver std cal es o heap0 = MOk (Some s) o1 h1 ->
  mserver std cal (es ++ [e]) o heap0 = mevent_step std cal s e o1 h1.
Proof.
  unfold mserver, mbind. destruct (msetup std cal o heap0) as [[s0|] o0 h0|u]; [|discriminate|discriminate]. intro E. now rewrite events_app, E.
Qed.
Lemma reached std cal es o s o1 h1 : mserver std cal es o heap0 = MOk (Some s) o1 h1 -> hwf h1 /\ Permutation (h_live h1) (own_srv s) /\ wfs s.
Proof. intro E. destruct (server_run std cal es o) as (r & o' & h & E' & W & Q). rewrite E in E'. injection E' as <- <- <-. tauto. Qed.

Lemma over_gone std cal es o s o1 h1 id c : mserver std cal es o heap0 = MOk (Some s) o1 h1 -> find_mc id (s_conns s) = Some c ->
  exists o2 h2, mserver std cal (es ++ [ME_closed id]) o heap0 = MOk (Some (mk_srv (s_cap s) (s_next s) (drop_mc id (s_conns s)))) o2 h2 /\
    Permutation (h_live h1) (own_conn c ++ h_live h2).
Proof.
  intros E F. destruct (reached _ _ _ _ _ _ _ E) as (W & P & Q). rewrite (server_app _ _ _ _ _ _ _ _ E). cbn [mevent_step]. unfold on_conn. rewrite F.
  destruct (wfs_drop _ _ _ Q F) as (Wc & _). pose proof (own_conns_perm _ _ (drop_perm _ _ _ F)) as P2.
  unfold own_conns at 2 in P2. cbn [map concat snd] in P2. fold (own_conns (drop_mc id (s_conns s))) in P2.
  destruct (f_on_close (s_cap s) c (proj1 Q) Wc o1 h1 (own_conns (drop_mc id (s_conns s))) W) as (r & o2 & h2 & l & E2 & _ & _ & [-> ->] & P3).
  { unfold own_srv in P. pm. }
  exists o2, h2. split; [unfold mbind; now rewrite E2|]. unfold own_srv in P. pm.
Qed.
Lemma find_drop id i l : id <> i -> find_mc id (drop_mc i l) = find_mc id l.
Proof.
  intro N. induction l as [|[j d] l IH]; [reflexivity|]. cbn. destruct (Nat.eqb_spec j i) as [->|N2].
  - destruct (Nat.eqb_spec i id); [congruence|reflexivity].
  - cbn. destruct (Nat.eqb j id); [reflexivity|exact IH].
Qed.
Lemma on_conn_others s i f id o h s' o' h' : id <> i -> on_conn s i f o h = MOk (Some s') o' h' -> find_mc id (s_conns s') = find_mc id (s_conns s).
Proof.
  intros N. unfold on_conn. destruct (find_mc i (s_conns s)) as [c|]; [|intros [= <- _ _]; reflexivity].
  unfold mbind, mret. destruct (f (s_cap s) c o h) as [[y d|y|] o2 h2|]; try discriminate; intros [= <- _ _]; cbn [s_conns find_mc].
  - replace (Nat.eqb i id) with false by (symmetry; apply Nat.eqb_neq; congruence). now apply find_drop.
  - now apply find_drop.
Qed.
Lemma others std cal es o s o1 h1 id c e s' o2 h2 : mserver std cal es o heap0 = MOk (Some s) o1 h1 -> find_mc id (s_conns s) = Some c ->
  ~ In e [ME_data id; ME_written id; ME_closed id] -> mserver std cal (es ++ [e]) o heap0 = MOk (Some s') o2 h2 ->
  find_mc id (s_conns s') = Some c /\ incl (own_conn c) (h_live h2).
Proof.
  intros E F N E2. destruct (reached _ _ _ _ _ _ _ E) as (W & P & Q). destruct (reached _ _ _ _ _ _ _ E2) as (W2 & P2 & Q2).
  assert (F2 : find_mc id (s_conns s') = Some c).
  { rewrite (server_app _ _ _ _ _ _ _ _ E) in E2. rewrite <- F. destruct e as [|i|i|i| |]; cbn [mevent_step In] in *.
    - unfold mbind, mret in E2. destruct (on_accept (s_cap s) o1 h1) as [[d|] o3 h3|]; try discriminate; injection E2 as <- _ _; [|reflexivity].
      cbn [s_conns find_mc]. destruct (wfs_drop _ _ _ Q F) as (_ & _ & _ & L). replace (Nat.eqb (s_next s) id) with false by (symmetry; apply Nat.eqb_neq; lia). reflexivity.
    - eapply on_conn_others; [|exact E2]. intros ->. tauto.
    - eapply on_conn_others; [|exact E2]. intros ->. tauto.
    - eapply on_conn_others; [|exact E2]. intros ->. tauto.
    - unfold mbind, mret in E2. destruct (m_use _ o1 h1) as [[] o3 h3|]; [|discriminate]. destruct (x_file (s_cap s)).
      + destruct (rotate std cal (s_cap s) o3 h3) as [[y|] o4 h4|]; try discriminate. injection E2 as <- _ _. reflexivity.
      + injection E2 as <- _ _. reflexivity.
    - unfold mbind, mret in E2. destruct (m_use _ o1 h1) as [[] o3 h3|]; [|discriminate].
      destruct (x_file (s_cap s)); [destruct (use_file (s_cap s) o3 h3) as [[] o4 h4|]; [|discriminate]|]; injection E2 as <- _ _; reflexivity. }
  split; [exact F2|]. intros y Y. eapply Permutation_in; [symmetry; exact P2|]. apply in_or_app. left.
  eapply Permutation_in; [symmetry; apply own_conns_perm, drop_perm, F2|]. unfold own_conns. cbn [map concat snd]. apply in_or_app. now left.
Qed.
Lemma ended std cal es o s o1 h1 : mserver std cal es o heap0 = MOk (Some s) o1 h1 ->
  exists ok o2 h2, mshutdown s o1 h1 = MOk ok o2 h2 /\ (ok = true -> Permutation (h_live h2) (own_conns (s_conns s))).
Proof.
  intro E. destruct (reached _ _ _ _ _ _ _ E) as (W & P & Q).
  destruct (f_shutdown s Q o1 h1 [] W) as (ok & o2 & h2 & l & E2 & _ & _ & R & P2); [rewrite app_nil_r; exact P|].
  exists ok, o2, h2. split; [exact E2|]. intro K. rewrite P2, (R K), app_nil_r. reflexivity.
Qed.

(** The same in terms of the connections there are. *)
Lemma find_in id c l : NoDup (map fst l) -> (In (id, c) l <-> find_mc id l = Some c).
Proof.
  induction l as [|[i d] l IH]; cbn [In map fst find_mc]; intro D; [split; [intros []|discriminate]|]. inversion D as [|? ? A B]; subst.
  destruct (Nat.eqb_spec i id) as [->|N].
  - split; [|intros [= ->]; now left]. intros [[= ->]|I]; [reflexivity|]. exfalso. apply A. apply (in_map fst) in I. exact I.
  - rewrite <- (IH B). split; [intros [[= ? ?]|I]; [congruence|exact I]|auto].
Qed.
Lemma gone_in std cal es o s o1 h1 id c : mserver std cal es o heap0 = MOk (Some s) o1 h1 -> In (id, c) (s_conns s) ->
  exists s' o2 h2, mserver std cal (es ++ [ME_closed id]) o heap0 = MOk (Some s') o2 h2 /\
    s_cap s' = s_cap s /\ Permutation (s_conns s) ((id, c) :: s_conns s') /\ Permutation (h_live h1) (own_conn c ++ h_live h2).
Proof.
  intros E I. destruct (reached _ _ _ _ _ _ _ E) as (_ & _ & Q). apply find_in in I; [|apply Q].
  destruct (over_gone _ _ _ _ _ _ _ _ _ E I) as (o2 & h2 & E2 & P). eexists _, o2, h2. split; [exact E2|]. split; [reflexivity|]. split; [apply drop_perm, I|exact P].
Qed.
Lemma others_in std cal es o s o1 h1 id c e s' o2 h2 : mserver std cal es o heap0 = MOk (Some s) o1 h1 -> In (id, c) (s_conns s) ->
  ~ In e [ME_data id; ME_written id; ME_closed id] -> mserver std cal (es ++ [e]) o heap0 = MOk (Some s') o2 h2 ->
  In (id, c) (s_conns s') /\ incl (own_conn c) (h_live h2).
Proof.
  intros E I N E2. destruct (reached _ _ _ _ _ _ _ E) as (_ & _ & Q). destruct (reached _ _ _ _ _ _ _ E2) as (_ & _ & Q2). apply find_in in I; [|apply Q].
  destruct (others _ _ _ _ _ _ _ _ _ _ _ _ _ E I N E2) as [A B]. split; [|exact B]. apply find_in; [apply Q2|exact A].
Qed.

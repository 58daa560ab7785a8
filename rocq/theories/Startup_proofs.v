(** Proofs about starting fstrm_capture. *)
From Coq Require Import ZArith Lia.
From Verif Require Import Bytes Bytes_proofs Spec SpecStream SpecMisc Control Misc Misc_proofs Capture Capture_proofs Startup SpecStartup.
Import ListNotations.
Local Open Scope N_scope.

Lemma bytes_eqb_sym a b : bytes_eqb a b = bytes_eqb b a.
Proof. destruct (bytes_eqb a b) eqn:E; symmetry; [apply bytes_eqb_eq in E; subst; apply bytes_eqb_refl|]. apply bytes_eqb_neq in E. apply bytes_eqb_neq. congruence. Qed.

(** ** Arguments *)
Lemma parse_args_some tty m a : parse_args tty m = Some a ->
  m_help m = false /\ m_type m = Some (a_ctype a) /\ m_write m = Some (a_fname a) /\
  (m_unix m <> None \/ m_addr m <> None) /\ (m_addr m <> None -> m_port m <> None) /\
  (a_fname a = dash -> tty = false /\ m_split m = 0%Z) /\
  ~ (m_localtime m = true /\ m_gmtime m = true) /\ (m_split m <> 0%Z -> m_localtime m = true \/ m_gmtime m = true) /\
  a = mk_args (a_ctype a) (a_fname a) (m_buffer m) (m_conns m) (m_split m) (m_localtime m) (m_gmtime m).
Proof.
  unfold parse_args. destruct (m_help m); [discriminate|]. destruct (m_type m) as [ct|]; [|discriminate].
  destruct (match m_unix m, m_addr m with None, None => true | _, _ => false end) eqn:E1; [discriminate|].
  destruct (match m_addr m, m_port m with Some _, None => true | _, _ => false end) eqn:E2; [discriminate|].
  destruct (m_write m) as [o|]; [|discriminate]. cbv zeta. unfold args_accepted, is_stdout, has_calendar. cbn [a_fname a_split a_localtime a_gmtime a_ctype].
  destruct (bytes_eqb o [x2d] && tty) eqn:E3; [discriminate|].
  destruct (_ && _ && _)%bool eqn:E4; [|discriminate]. intros [= <-]. cbn.
  apply Bool.andb_true_iff in E4. destruct E4 as [E4 E6]. apply Bool.andb_true_iff in E4. destruct E4 as [E4 E5].
  split; [reflexivity|]. split; [reflexivity|]. split; [reflexivity|]. split.
  { destruct (m_unix m); [left; discriminate|]. destruct (m_addr m); [right; discriminate|discriminate]. }
  split. { intros N E. destruct (m_addr m); [|congruence]. rewrite E in E2. discriminate. }
  split. { intros ->. cbn in *. destruct tty; [discriminate|]. split; [reflexivity|]. destruct (Z.eqb_spec (m_split m) 0); [assumption|discriminate]. }
  split. { intros [A B]. rewrite A, B in E5. discriminate. }
  split; [|reflexivity]. intro N. destruct (Z.eqb_spec (m_split m) 0); [contradiction|]. destruct (m_localtime m), (m_gmtime m); try tauto; discriminate.
Qed.
Lemma parse_args_none tty m : parse_args tty m = None ->
  m_help m = true \/ m_type m = None \/ m_write m = None \/ (m_unix m = None /\ m_addr m = None) \/ (m_addr m <> None /\ m_port m = None) \/
  (m_write m = Some dash /\ (tty = true \/ m_split m <> 0%Z)) \/ (m_localtime m = true /\ m_gmtime m = true) \/
  (m_split m <> 0%Z /\ m_localtime m = false /\ m_gmtime m = false).
Proof.
  unfold parse_args. destruct (m_help m); [tauto|]. destruct (m_type m) as [ct|]; [|tauto].
  destruct (m_unix m), (m_addr m), (m_port m); try (intros _; right; right; right; tauto || (right; left; split; congruence) || fail).
  all: try (intros _; do 4 right; left; split; congruence).
  all: destruct (m_write m) as [o|]; [|tauto]; cbv zeta; unfold args_accepted, is_stdout, has_calendar; cbn [a_fname a_split a_localtime a_gmtime a_ctype];
    destruct (bytes_eqb o [x2d]) eqn:EO; [apply bytes_eqb_eq in EO; subst o|]; destruct tty; cbn [andb]; try (intros _; do 5 right; left; split; [reflexivity|left; reflexivity]);
    destruct (Z.eqb_spec (m_split m) 0); cbn [negb andb]; try (intros _; do 5 right; left; split; [reflexivity|right; assumption]);
    destruct (m_localtime m), (m_gmtime m); cbn; intro X; try discriminate; try (do 6 right; left; split; reflexivity); try (do 7 right; split; [assumption|split; reflexivity]).
Qed.

(** ** The listening address *)
Lemma tcp_some w a p l : open_read_tcp w a p = Some l <-> exists n, port_ok p n /\
  ((exists x, w_pton4 w a = Some x /\ l = L_tcp (Inet4 x) n) \/ (w_pton4 w a = None /\ exists x, w_pton6 w a = Some x /\ l = L_tcp (Inet6 x) n)).
Proof.
  unfold open_read_tcp, tcp_address. split.
  - destruct (parse_port p) as [n|] eqn:EP; [|discriminate]. apply parse_port_spec in EP. intro H. exists n. split; [exact EP|].
    destruct (w_pton4 w a) as [x|]; [injection H as <-; left; eauto|]. destruct (w_pton6 w a) as [x|]; [injection H as <-; right; eauto|discriminate].
  - intros (n & P & [(x & E & ->)|(E & x & E6 & ->)]); apply parse_port_spec in P; rewrite P, E; [reflexivity|]. rewrite E6. reflexivity.
Qed.

Lemma remove_clearable w f p : clearable w f (L_unix p) -> exists f', do_remove w f p = (true, f') /\ same f' (cleared f (L_unix p)).
Proof.
  intros [R N]. unfold do_remove. rewrite R. cbn [negb]. destruct (f p) as [[b| |[|]]|] eqn:E; try congruence.
  all: eexists; split; [reflexivity|]; intro q; unfold cleared; unfold fs_set; try reflexivity.
  destruct (bytes_eqb p q) eqn:Q; [|reflexivity]. apply bytes_eqb_eq in Q. subst q. exact E.
Qed.
Lemma remove_not w f p : ~ clearable w f (L_unix p) -> do_remove w f p = (false, f).
Proof.
  intro N. unfold do_remove. destruct (w_rm w p) eqn:R; cbn [negb]; [|reflexivity].
  destruct (f p) as [[b| |[|]]|] eqn:E; try reflexivity; exfalso; apply N; split; congruence.
Qed.

Lemma input_ok w m f l : m_unix m <> None \/ m_addr m <> None -> listens_at w m l -> clearable w f l -> exists f', open_input w m f = (Some l, f') /\ same f' (cleared f l).
Proof.
  intros _ [_ L] C. unfold open_input. destruct (m_unix m) as [p|].
  - destruct L as [L ->]. unfold open_read_unix. unfold sun_path_size. destruct (Nat.ltb_spec 108 (length p + 1)); [lia|].
    destruct (remove_clearable _ _ _ C) as (f' & -> & S). exists f'. auto.
  - destruct L as (a & p & n & -> & -> & P & K). exists f. split.
    + f_equal. apply tcp_some. eauto.
    + destruct K as [(x & _ & ->)|(_ & x & _ & ->)]; intro q; reflexivity.
Qed.
Lemma input_stuck w m f l : listens_at w m l -> ~ clearable w f l -> open_input w m f = (None, f).
Proof.
  intros [_ L] C. unfold open_input. destruct (m_unix m) as [p|].
  - destruct L as [L ->]. unfold open_read_unix. destruct (_ <? _)%nat; [reflexivity|]. rewrite remove_not by assumption. reflexivity.
  - destruct L as (a & p & n & _ & _ & _ & K). exfalso. apply C. destruct K as [(x & _ & ->)|(_ & x & _ & ->)]; exact Logic.I.
Qed.
Lemma input_none w m f : (m_addr m <> None -> m_port m <> None) -> (forall l, ~ listens_at w m l) -> open_input w m f = (None, f).
Proof.
  intros AP N. unfold open_input. destruct (m_unix m) as [p|] eqn:EU.
  - unfold open_read_unix, sun_path_size. destruct (Nat.ltb_spec 108 (length p + 1)); [reflexivity|]. exfalso. apply (N (L_unix p)). split; [exact AP|]. rewrite EU. split; [lia|reflexivity].
  - destruct (m_addr m) as [a|] eqn:EA; [|reflexivity]. destruct (m_port m) as [p|] eqn:EP; [|reflexivity].
    destruct (open_read_tcp w a p) as [l|] eqn:E; [|reflexivity]. exfalso. apply (N l). split; [congruence|]. rewrite EU.
    apply tcp_some in E. destruct E as (n & P & K). exists a, p, n. auto.
Qed.

(** ** The output *)
Definition c_fail : ctx := mk_ctx [] false 0 0 0 true [] [] [].
Lemma boot_outs w m a f : parse_args (w_tty w) m = Some a ->
  match output w m with
  | None => exists c, boot (out_env w a f) a = Exit c /\ x_outs c = []
  | Some out =>
      if match out with Some n => can_open w f n | None => true end then
        exists n, (match out with Some n' => is_stdout a = false /\ n = n' | None => is_stdout a = true end) /\
        if (lenN (a_ctype a) <=? 256) && w_fwrite w
        then exists c, boot (out_env w a f) a = Go c /\ x_outs c = [(n, start_frame (Some (a_ctype a)))]
        else exists c, boot (out_env w a f) a = Exit c /\ x_outs c = [(n, [])]
      else exists c, boot (out_env w a f) a = Exit c /\ x_outs c = []
  end.
Proof.
  intro P. apply parse_args_some in P. destruct P as (_ & _ & EW & _ & _ & _ & _ & _ & EA).
  unfold output. rewrite EW. change (bytes_eqb (a_fname a) dash) with (is_stdout a).
  assert (HC : has_calendar a = m_localtime m || m_gmtime m) by (rewrite EA; reflexivity). rewrite <- HC.
  unfold boot, open_write_file. cbv zeta.
  assert (B : forall name c1, x_outs c1 = [] ->
    if (lenN (a_ctype a) <=? 256) && w_fwrite w
    then exists c, rbind (rbind (open_write_start (out_env w a f) a (note_io (set_outs c1 (x_outs c1 ++ [(name, [])]) true) IoOpen)) (fun '(ok, c2) => if ok then Go (true, c2) else Go (false, note_io (set_outs c2 (x_outs c2) false) IoClose))) (fun '(ok, c) => if ok then Go c else Exit c) = Go c /\ x_outs c = [(name, start_frame (Some (a_ctype a)))]
    else exists c, rbind (rbind (open_write_start (out_env w a f) a (note_io (set_outs c1 (x_outs c1 ++ [(name, [])]) true) IoOpen)) (fun '(ok, c2) => if ok then Go (true, c2) else Go (false, note_io (set_outs c2 (x_outs c2) false) IoClose))) (fun '(ok, c) => if ok then Go c else Exit c) = Exit c /\ x_outs c = [(name, [])]).
  { intros name c1 E1. rewrite open_write_start_eq. rewrite E1. cbn [app]. destruct (lenN (a_ctype a) <=? 256); cbn [andb rbind].
    2:{ eexists. split; [reflexivity|]. reflexivity. }
    unfold fwrite. cbn [out_env e_fwrite]. destruct (w_fwrite w); cbn [rbind]; eexists; (split; [reflexivity|]); reflexivity. }
  destruct (is_stdout a) eqn:SO.
  - exists (a_fname a). split; [reflexivity|]. apply B. reflexivity.
  - destruct (has_calendar a) eqn:CAL.
    + unfold update_output_fname. cbv zeta. cbn [out_env e_strftime e_time]. destruct (w_strftime w (w_time w)) as [n|] eqn:ES.
      * cbn [e_open out_env]. rewrite ?CAL, ?ES. destruct (can_open w f n); [exists n; split; [auto|]; apply B; reflexivity|]. eexists. split; [reflexivity|]. reflexivity.
      * eexists. split; [reflexivity|]. reflexivity.
    + cbn [e_open out_env]. rewrite ?CAL. destruct (can_open w f (a_fname a)); [exists (a_fname a); split; [auto|]; apply B; reflexivity|]. eexists. split; [reflexivity|]. reflexivity.
Qed.

Definition writableb (w : world) (f : fs) (l : listen) (out : option bytes) : bool :=
  match out with Some n => can_open w (cleared f l) n | None => true end.
Lemma writableb_spec w f l out : writableb w f l out = true <-> writable w f l out.
Proof.
  unfold writableb, writable. destruct out as [n|]; [|tauto]. unfold can_open, cleared. rewrite Bool.andb_true_iff. destruct l as [p|i k].
  - destruct (bytes_eqb p n) eqn:E.
    + apply bytes_eqb_eq in E. subst p. tauto.
    + apply bytes_eqb_neq in E. split; intros [A B]; (split; [assumption|]).
      * destruct (f n) as [[b| |[|]]|]; try discriminate; eauto.
      * destruct B as [B|[->|(b & ->)]]; try reflexivity. congruence.
  - split; intros [A B]; (split; [assumption|]).
    + destruct (f n) as [[b| |[|]]|]; try discriminate; eauto.
    + destruct B as [B|[->|(b & ->)]]; try reflexivity. discriminate.
Qed.

Lemma setup_bind w l f out b : clearable w f l ->
  match setup_event_loop w l (with_output (cleared f l) out b) with
  | Some f' => bindable w l out /\ same f' (with_socket (with_output (cleared f l) out b) l)
  | None => ~ bindable w l out
  end.
Proof.
  intros _. unfold setup_event_loop, bindable. destruct (w_base w); cbn [negb]; [|intuition congruence]. destruct l as [p|i n].
  - assert (E0 : with_output (cleared f (L_unix p)) out b p = match out with Some n => if bytes_eqb n p then Some (NFile b) else None | None => None end)
      by (unfold with_output, cleared; rewrite bytes_eqb_refl; destruct out; reflexivity).
    rewrite E0. clear E0. destruct out as [n|].
    + destruct (bytes_eqb n p) eqn:E.
      * apply bytes_eqb_eq in E. subst n. intros (_ & _ & X). apply X. reflexivity.
      * apply bytes_eqb_neq in E. destruct (w_bind w p); [|intuition congruence]. split; [split; [reflexivity|split; [reflexivity|congruence]]|]. intro q. reflexivity.
    + destruct (w_bind w p); [|intros (_ & X & _); discriminate]. split; [split; [reflexivity|split; [reflexivity|congruence]]|]. intro q. reflexivity.
  - destruct (w_listen w i n); [|intuition congruence]. split; [auto|]. intro q. reflexivity.
Qed.
Lemma setup_ext w l f g : same f g -> match setup_event_loop w l f, setup_event_loop w l g with Some f', Some g' => same f' g' | None, None => True | _, _ => False end.
Proof.
  intro S. unfold setup_event_loop. destruct (w_base w); cbn [negb]; [|exact Logic.I]. destruct l as [p|i n].
  - rewrite <- (S p). destruct (f p); [exact Logic.I|]. destruct (w_bind w p); [|exact Logic.I]. intro q. unfold fs_set. rewrite (S q). reflexivity.
  - destruct (w_listen w i n); [exact S|exact Logic.I].
Qed.

Lemma on_fs_one a c n b f g out : x_outs c = [(n, b)] -> same f g ->
  match out with Some n' => is_stdout a = false /\ n = n' | None => is_stdout a = true end -> same (on_fs a c f) (with_output g out b).
Proof.
  intros E S K q. unfold on_fs, with_output. destruct out as [n'|].
  - destruct K as [-> <-]. rewrite E. cbn. unfold fs_set. rewrite (S q). reflexivity.
  - rewrite K. apply S.
Qed.
Lemma on_fs_none a c f : x_outs c = [] -> on_fs a c f = f.
Proof. intro E. unfold on_fs. rewrite E. destruct (is_stdout a); reflexivity. Qed.

Definition fails_with (r : sres) (g : fs) : Prop := exists f', r = SFail f' /\ same f' g.

Section Start.
Variables (w : world) (m : cmdline) (f : fs).

Lemma start_invalid : ~ valid w m -> fails_with (main_start w m f) f.
Proof.
  intro N. unfold main_start. destruct (parse_args (w_tty w) m) as [a|] eqn:P; [|exists f; split; [reflexivity|intro; reflexivity]].
  apply parse_args_some in P. destruct P as (A1 & A2 & A3 & A4 & A5 & A6 & A7 & A8 & A9).
  rewrite input_none; [exists f; split; [reflexivity|intro; reflexivity]|exact A5|].
  intros l L. apply N. split; [exact A1|]. split; [congruence|]. split; [exists (a_fname a); auto|]. split; [exact A7|]. split; [exact A8|]. exists l. exact L.
Qed.

Lemma valid_parse : valid w m -> exists a, parse_args (w_tty w) m = Some a.
Proof.
  intros (V1 & V2 & (o & V3 & V3') & V4 & V5 & l & V6 & V7). destruct (parse_args (w_tty w) m) as [a|] eqn:P; [eauto|]. exfalso.
  apply parse_args_none in P. destruct P as [P|[P|[P|[P|[P|[P|[P|P]]]]]]]; try congruence; try tauto.
  - destruct P as [PU PA]. rewrite PU in V7. destruct V7 as (x & y & n & E & _). congruence.
  - destruct P as [E [T|T]]; assert (o = dash) by congruence; destruct (V3' H); congruence.
  - destruct P as (S & P1 & P2). destruct (V5 S); congruence.
Qed.

Variables (l : listen).
Hypothesis Hv : valid w m.
Hypothesis Hl : listens_at w m l.

Lemma start_not_cleared : ~ clearable w f l -> fails_with (main_start w m f) f.
Proof.
  intro C. destruct (valid_parse Hv) as (a & P). unfold main_start. rewrite P, (input_stuck _ _ _ _ Hl C). exists f. split; [reflexivity|intro; reflexivity].
Qed.

Hypothesis Hc : clearable w f l.
Lemma has_input : m_unix m <> None \/ m_addr m <> None.
Proof. destruct Hl as [_ L]. destruct (m_unix m); [left; discriminate|]. destruct L as (x & y & n & -> & _). right. discriminate. Qed.

Lemma can_open_ext f1 f2 n : same f1 f2 -> can_open w f1 n = can_open w f2 n.
Proof. intro S. unfold can_open. rewrite (S n). reflexivity. Qed.

Lemma start_no_name : output w m = None -> fails_with (main_start w m f) (cleared f l).
Proof.
  intro O. destruct (valid_parse Hv) as (a & P). unfold main_start. rewrite P. destruct (input_ok _ _ f _ has_input Hl Hc) as (f1 & -> & S1).
  pose proof (boot_outs w m a f1 P) as B. rewrite O in B. destruct B as (c & -> & E). rewrite on_fs_none by assumption. exists f1. auto.
Qed.

Variable out : option bytes.
Hypothesis Ho : output w m = Some out.

Lemma start_not_writable : ~ writable w f l out -> fails_with (main_start w m f) (cleared f l).
Proof.
  intro N. destruct (valid_parse Hv) as (a & P). unfold main_start. rewrite P. destruct (input_ok _ _ f _ has_input Hl Hc) as (f1 & -> & S1).
  pose proof (boot_outs w m a f1 P) as B. rewrite Ho in B.
  replace (match out with Some n => can_open w f1 n | None => true end) with (writableb w f l out) in B by (unfold writableb; destruct out; [symmetry; apply can_open_ext, S1|reflexivity]).
  destruct (writableb w f l out) eqn:WB; [apply writableb_spec in WB; contradiction|]. destruct B as (c & -> & E). rewrite on_fs_none by assumption. exists f1. auto.
Qed.

Hypothesis Hw : writable w f l out.
Variable ct : bytes.
Hypothesis Ht : m_type m = Some ct.

Lemma start_no_start : 256 < lenN ct \/ w_fwrite w = false -> fails_with (main_start w m f) (with_output (cleared f l) out []).
Proof.
  intro N. destruct (valid_parse Hv) as (a & P). unfold main_start. rewrite P. destruct (input_ok _ _ f _ has_input Hl Hc) as (f1 & -> & S1).
  pose proof (boot_outs w m a f1 P) as B. rewrite Ho in B.
  replace (match out with Some n => can_open w f1 n | None => true end) with (writableb w f l out) in B by (unfold writableb; destruct out; [symmetry; apply can_open_ext, S1|reflexivity]).
  apply writableb_spec in Hw. rewrite Hw in B. destruct B as (n & K & B). apply parse_args_some in P. destruct P as (_ & P2 & _). assert (a_ctype a = ct) by congruence.
  replace ((lenN (a_ctype a) <=? 256) && w_fwrite w) with false in B by (symmetry; subst ct; destruct N as [N|N]; [|rewrite N, Bool.andb_false_r; reflexivity]; destruct (N.leb_spec (lenN (a_ctype a)) 256); [lia|reflexivity]).
  destruct B as (c & -> & E). eexists. split; [reflexivity|]. eapply on_fs_one; eassumption.
Qed.

Hypothesis Hs : lenN ct <= 256.
Hypothesis Hf : w_fwrite w = true.

Lemma start_rest : (bindable w l out /\ exists f' a c, main_start w m f = SRun f' l a c /\ parse_args (w_tty w) m = Some a /\
    same f' (with_socket (with_output (cleared f l) out (start_frame (Some ct))) l) /\
    boot (out_env w a (snd (open_input w m f))) a = Go c) \/
  (~ bindable w l out /\ fails_with (main_start w m f) (with_output (cleared f l) out (start_frame (Some ct)))).
Proof.
  destruct (valid_parse Hv) as (a & P). unfold main_start. rewrite P. destruct (input_ok _ _ f _ has_input Hl Hc) as (f1 & -> & S1).
  pose proof (boot_outs w m a f1 P) as B. rewrite Ho in B.
  replace (match out with Some n => can_open w f1 n | None => true end) with (writableb w f l out) in B by (unfold writableb; destruct out; [symmetry; apply can_open_ext, S1|reflexivity]).
  apply writableb_spec in Hw. rewrite Hw in B. destruct B as (n & K & B). pose proof P as P'. apply parse_args_some in P'. destruct P' as (_ & P2 & _). assert (E : a_ctype a = ct) by congruence.
  rewrite E, Hf in B. destruct (N.leb_spec (lenN ct) 256); [|lia]. cbn [andb] in B.
  destruct B as (c & EB & EO). rewrite EB. cbv zeta.
  assert (S2 : same (on_fs a c f1) (with_output (cleared f l) out (start_frame (Some ct)))) by (eapply on_fs_one; eassumption).
  pose proof (setup_ext w l _ _ S2) as X. pose proof (setup_bind w l f out (start_frame (Some ct)) Hc) as Y.
  destruct (setup_event_loop w l (on_fs a c f1)) as [f3|], (setup_event_loop w l (with_output _ _ _)) as [f4|]; try contradiction.
  - destruct Y as [Y1 Y2]. left. split; [exact Y1|]. exists f3, a, c. split; [reflexivity|]. split; [reflexivity|]. split; [|exact EB].
    intro q. rewrite (X q). apply Y2.
  - right. split; [exact Y|]. eexists. split; [reflexivity|]. exact S2.
Qed.
End Start.

Lemma clearable_dec w f l : clearable w f l \/ ~ clearable w f l.
Proof. destruct l as [p|]; [|left; exact Logic.I]. unfold clearable. destruct (w_rm w p); [|right; intros [? _]; discriminate]. destruct (f p) as [[b| |[|]]|]; (right; intros [_ X]; congruence) || (left; split; congruence). Qed.
Lemma writable_dec w f l out : writable w f l out \/ ~ writable w f l out.
Proof. destruct (writableb w f l out) eqn:E; [left; apply writableb_spec, E|right]. intro W. apply writableb_spec in W. congruence. Qed.
Lemma valid_dec w m : valid w m \/ ~ valid w m.
Proof.
  destruct (parse_args (w_tty w) m) as [a|] eqn:P.
  2:{ right. intro V. destruct (valid_parse _ _ V) as (a & E). congruence. }
  apply parse_args_some in P. destruct P as (A1 & A2 & A3 & A4 & A5 & A6 & A7 & A8 & A9).
  assert (D : (exists l, listens_at w m l) \/ forall l, ~ listens_at w m l).
  { unfold listens_at. destruct (m_unix m) as [p|] eqn:EU.
    - destruct (Nat.le_gt_cases (length p) 107); [left; exists (L_unix p); auto|right; intros l [_ [L _]]; lia].
    - destruct (m_addr m) as [x|] eqn:EA; [|right; intros l [_ (y & z & n & E & _)]; discriminate].
      destruct (m_port m) as [p|] eqn:EP; [|exfalso; apply A5; congruence].
      destruct (open_read_tcp w x p) as [l|] eqn:E.
      + left. exists l. split; [congruence|]. apply tcp_some in E. destruct E as (n & P & K). exists x, p, n. auto.
      + right. intros l [_ (y & z & n & [= <-] & [= <-] & P & K)]. assert (open_read_tcp w x p = Some l) by (apply tcp_some; eauto). congruence. }
  destruct D as [D|D]; [left|right; intros (_ & _ & _ & _ & _ & l & L); exact (D l L)].
  split; [exact A1|]. split; [congruence|]. split; [exists (a_fname a); auto|]. split; [exact A7|]. split; [exact A8|]. exact D.
Qed.

(** Every case. *)
Lemma start_cases w m f :
  (~ valid w m /\ fails_with (main_start w m f) f) \/
  (valid w m /\ exists l, listens_at w m l /\
    ((~ clearable w f l /\ fails_with (main_start w m f) f) \/
     (clearable w f l /\
       ((output w m = None /\ fails_with (main_start w m f) (cleared f l)) \/
        exists out ct, output w m = Some out /\ m_type m = Some ct /\
         ((~ writable w f l out /\ fails_with (main_start w m f) (cleared f l)) \/
          (writable w f l out /\ (256 < lenN ct \/ w_fwrite w = false) /\ fails_with (main_start w m f) (with_output (cleared f l) out [])) \/
          (writable w f l out /\ lenN ct <= 256 /\ w_fwrite w = true /\
            ((~ bindable w l out /\ fails_with (main_start w m f) (with_output (cleared f l) out (start_frame (Some ct)))) \/
             (bindable w l out /\ exists f' a c, main_start w m f = SRun f' l a c /\ parse_args (w_tty w) m = Some a /\
                same f' (with_socket (with_output (cleared f l) out (start_frame (Some ct))) l) /\
                boot (out_env w a (snd (open_input w m f))) a = Go c)))))))).
Proof.
  destruct (valid_dec w m) as [V|V]; [right; split; [exact V|]|left; split; [exact V|apply start_invalid, V]].
  pose proof V as V'. destruct V' as (_ & NT & _ & _ & _ & l & L). exists l. split; [exact L|].
  destruct (clearable_dec w f l) as [C|C]; [right; split; [exact C|]|left; split; [exact C|eapply start_not_cleared; eassumption]].
  destruct (output w m) as [out|] eqn:O; [right|left; split; [reflexivity|eapply start_no_name; eassumption]].
  destruct (m_type m) as [ct|] eqn:T; [|congruence]. exists out, ct. split; [reflexivity|]. split; [reflexivity|].
  destruct (writable_dec w f l out) as [W|W]; [right|left; split; [exact W|eapply start_not_writable; eassumption]].
  destruct (N.le_gt_cases (lenN ct) 256) as [S|S].
  2:{ left. split; [exact W|]. split; [auto|]. eapply start_no_start; eauto. }
  destruct (w_fwrite w) eqn:F; [right|left; split; [exact W|split; [auto|eapply start_no_start; eauto]]].
  split; [exact W|]. split; [exact S|]. split; [reflexivity|].
  destruct (start_rest w m f l V L C out O W ct T S F) as [[B K]|[B K]]; [right; split; assumption|left; split; assumption].
Qed.

(** ** Consequences *)
Lemma fail_not_run w m f g : fails_with (main_start w m f) g -> forall f' l a c, main_start w m f <> SRun f' l a c.
Proof. intros (f0 & -> & _). discriminate. Qed.

Lemma listens_fun w m l l' : listens_at w m l -> listens_at w m l' -> l = l'.
Proof.
  intros [_ A] [_ B]. destruct (m_unix m) as [p|]; [destruct A, B; congruence|].
  destruct A as (a & p & n & E1 & E2 & P & K). destruct B as (a' & p' & n' & E1' & E2' & P' & K'). assert (a' = a) by congruence. assert (p' = p) by congruence. subst a' p'.
  assert (n' = n) by (apply parse_port_spec in P; apply parse_port_spec in P'; congruence). subst n'.
  destruct K as [(x & X & ->)|(X & x & Y & ->)], K' as [(x' & X' & ->)|(X' & x' & Y' & ->)]; congruence.
Qed.

Lemma start_exactly w m f : (exists f' l a c, main_start w m f = SRun f' l a c) <->
  valid w m /\ exists l out ct, listens_at w m l /\ output w m = Some out /\ m_type m = Some ct /\
    clearable w f l /\ writable w f l out /\ lenN ct <= 256 /\ w_fwrite w = true /\ bindable w l out.
Proof.
  split.
  - intros (f' & l0 & a & c & E). destruct (start_cases w m f) as [[_ F]|(V & l & L & [[_ F]|(C & [[_ F]|(out & ct & O & T & [[_ F]|[(_ & _ & F)|(W & S & FW & [[_ F]|(B & _)])]])])])].
    all: try (destruct (fail_not_run _ _ _ _ F _ _ _ _ E)).
    split; [exact V|]. exists l, out, ct. auto 10.
  - intros (V & l & out & ct & L & O & T & C & W & S & F & B).
    destruct (start_rest w m f l V L C out O W ct T S F) as [(_ & f' & a & c & E & _)|[N _]]; [eauto|contradiction].
Qed.

Lemma running w m f f' l a c : main_start w m f = SRun f' l a c ->
  listens_at w m l /\ exists out ct, output w m = Some out /\ m_type m = Some ct /\
    same f' (with_socket (with_output (cleared f l) out (start_frame (Some ct))) l) /\ parse_args (w_tty w) m = Some a /\
    boot (out_env w a (snd (open_input w m f))) a = Go c.
Proof.
  intro E. destruct (start_cases w m f) as [[_ F]|(V & l' & L & [[_ F]|(C & [[_ F]|(out & ct & O & T & [[_ F]|[(_ & _ & F)|(W & S & FW & [[_ F]|(B & f2 & a2 & c2 & E2 & P2 & S2 & B2)])]])])])].
  all: try (destruct (fail_not_run _ _ _ _ F _ _ _ _ E)).
  rewrite E in E2. injection E2 as <- <- <- <-. split; [exact L|]. exists out, ct. auto.
Qed.

Definition result_fs (r : sres) : option fs := match r with SFail f => Some f | SRun f _ _ _ => Some f | SBroke => None end.
Lemma always_result w m f : exists f', result_fs (main_start w m f) = Some f'.
Proof.
  destruct (start_cases w m f) as [[_ F]|(V & l' & L & [[_ F]|(C & [[_ F]|(out & ct & O & T & [[_ F]|[(_ & _ & F)|(W & S & FW & [[_ F]|(B & f2 & a2 & c2 & E2 & _)])]])])])].
  all: try (destruct F as (f' & -> & _); exists f'; reflexivity). rewrite E2. exists f2. reflexivity.
Qed.
Lemma cleared_other w m f l q : listens_at w m l -> ~ named w m q -> cleared f l q = f q.
Proof.
  intros [_ L] N. unfold cleared. destruct l as [p|]; [|reflexivity]. destruct (bytes_eqb p q) eqn:E; [|reflexivity]. apply bytes_eqb_eq in E. subst q. exfalso. apply N. left.
  destruct (m_unix m) as [p'|]; [destruct L as [_ L]; congruence|]. destruct L as (? & ? & ? & _ & _ & _ & [(? & _ & X)|(_ & ? & _ & X)]); discriminate.
Qed.
Lemma output_other w m f out b q : output w m = Some out -> ~ named w m q -> with_output f out b q = f q.
Proof.
  intros O N. unfold with_output. destruct out as [n|]; [|reflexivity]. destruct (bytes_eqb n q) eqn:E; [|reflexivity]. apply bytes_eqb_eq in E. subst n. exfalso. apply N. right. exact O.
Qed.
Lemma socket_other w m f l q : listens_at w m l -> ~ named w m q -> with_socket f l q = f q.
Proof.
  intros [_ L] N. unfold with_socket. destruct l as [p|]; [|reflexivity]. destruct (bytes_eqb p q) eqn:E; [|reflexivity]. apply bytes_eqb_eq in E. subst q. exfalso. apply N. left.
  destruct (m_unix m) as [p'|]; [destruct L as [_ L]; congruence|]. destruct L as (? & ? & ? & _ & _ & _ & [(? & _ & X)|(_ & ? & _ & X)]); discriminate.
Qed.
Lemma only_named w m f f' : result_fs (main_start w m f) = Some f' -> forall q, ~ named w m q -> f' q = f q.
Proof.
  intros R q N.
  destruct (start_cases w m f) as [[_ F]|(V & l & L & [[_ F]|(C & [[_ F]|(out & ct & O & T & [[_ F]|[(_ & _ & F)|(W & S & FW & [[_ F]|(B & f2 & a2 & c2 & E2 & _ & S2 & _)])]])])])].
  all: try (destruct F as (f0 & E0 & S0); rewrite E0 in R; injection R as <-; rewrite (S0 q)).
  all: try reflexivity.
  all: try (apply (cleared_other w m); assumption).
  1, 2: rewrite (output_other w m) by assumption; apply (cleared_other w m); assumption.
  rewrite E2 in R. injection R as <-. rewrite (S2 q), (socket_other w m), (output_other w m) by assumption. apply (cleared_other w m); assumption.
Qed.

(** What a failed start does to the output file. *)
Lemma failed_output w m f f' n : main_start w m f = SFail f' -> output w m = Some (Some n) -> m_unix m <> Some n ->
  f' n = f n \/
  exists l ct, valid w m /\ listens_at w m l /\ clearable w f l /\ writable w f l (Some n) /\ m_type m = Some ct /\
    ((256 < lenN ct \/ w_fwrite w = false) /\ f' n = Some (NFile []) \/
     lenN ct <= 256 /\ w_fwrite w = true /\ ~ bindable w l (Some n) /\ f' n = Some (NFile (start_frame (Some ct)))).
Proof.
  intros E O' U.
  assert (CL : forall l, listens_at w m l -> cleared f l n = f n).
  { intros l [_ L]. unfold cleared. destruct l as [p|]; [|reflexivity]. destruct (bytes_eqb p n) eqn:X; [|reflexivity]. apply bytes_eqb_eq in X. subst p. exfalso. apply U.
    destruct (m_unix m) as [p'|]; [destruct L as [_ L]; congruence|]. destruct L as (? & ? & ? & _ & _ & _ & [(? & _ & X)|(_ & ? & _ & X)]); discriminate. }
  destruct (start_cases w m f) as [[_ F]|(V & l & L & [[_ F]|(C & [[_ F]|(out & ct & O & T & [[_ F]|[(W & K & F)|(W & S & FW & [[B F]|(B & f2 & a2 & c2 & E2 & _ & S2 & _)])]])])])].
  all: try (destruct F as (f0 & E0 & S0); rewrite E0 in E; injection E as <-; rewrite (S0 n)).
  1, 2: left; reflexivity.
  1, 2: left; apply CL, L.
  3:{ rewrite E2 in E. discriminate. }
  all: assert (out = Some n) by congruence; subst out; right; exists l, ct; do 5 (split; [assumption|]).
  - left. split; [exact K|]. unfold with_output. rewrite bytes_eqb_refl. reflexivity.
  - right. do 3 (split; [assumption|]). unfold with_output. rewrite bytes_eqb_refl. reflexivity.
Qed.

(** The same path for the socket and the output. *)
Lemma same_path w m f p : m_unix m = Some p -> output w m = Some (Some p) ->
  exists f', main_start w m f = SFail f' /\
  (f' p = f p \/ f' p = None \/ f' p = Some (NFile []) \/ exists ct, m_type m = Some ct /\ f' p = Some (NFile (start_frame (Some ct)))).
Proof.
  intros U O'.
  destruct (start_cases w m f) as [[_ F]|(V & l & L & [[_ F]|(C & [[_ F]|(out & ct & O & T & [[_ F]|[(W & K & F)|(W & S & FW & [[B F]|(B & _)])]])])])].
  7:{ exfalso. pose proof L as [_ L']. rewrite U in L'. destruct L' as [_ ->]. destruct B as (_ & _ & B). apply B. congruence. }
  all: destruct F as (f0 & E0 & S0); exists f0; (split; [exact E0|]); rewrite (S0 p).
  1, 2: auto.
  1, 2: right; left; pose proof L as [_ L']; rewrite U in L'; destruct L' as [_ ->]; unfold cleared; rewrite bytes_eqb_refl; reflexivity.
  all: assert (out = Some p) by congruence; subst out; unfold with_output; rewrite bytes_eqb_refl.
  - right. right. left. reflexivity.
  - right. right. right. exists ct. auto.
Qed.

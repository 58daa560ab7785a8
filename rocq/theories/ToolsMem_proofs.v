(** Proofs about the memory of fstrm_dump and fstrm_replay. *)
From Coq Require Import Permutation.
From Verif Require Import Bytes Mem SpecMem Mem_proofs Mem2_proofs ToolsMem SpecToolsMem.
Local Open Scope nat_scope.

Definition own_w (w : option mwriter) : list blk := own_opt own_writer w.
Definition oo (o : option oobj) : list blk := own_opt own_o o.
Definition ends (t : tool) (l : list blk) : Prop := l = left_of t.
Definition returns (t : tool) (l : list blk) : Prop := l = left_of t /\ match t with T_exit _ _ _ => False | _ => True end.

Lemma f_each {A} (f : A -> mem unit) own x : (forall a, spec (f a) (own a) (fun _ l => l = [])) -> spec (each f x) (own_opt own x) (fun _ l => l = []).
Proof. intro H. destruct x; [apply H|eapply spec_ret; reflexivity]. Qed.
Lemma f_path : spec (mbind po_init (fun f => po_set f false true)) [] (fun f l => l = own_p f).
Proof.
  eapply spec_bind; [apply f_po_init|]. cbv beta. intros f ? ->. apply f_po_set.
Qed.
Lemma f_file_reader f : spec (file_reader f) (own_p f) (fun r l => l = own_opt own_reader r ++ own_p f /\ match r with Some r => mr_stop r = None | None => True end).
Proof.
  unfold file_reader. eapply spec_bind; [apply f_ro_file|]. cbv beta. intros x ? [-> X]. destruct x as [x|]; cbn [own_opt app].
  - eapply spec_conv; [|eapply spec_frame with (pre := own_opt own_o None ++ own_rdwr x) (f := own_p f); [apply f_mr_init|]]; [cbn [own_opt]; pm|].
    cbv beta. intros [r|]; [intros ? [-> E]; cbn [own_opt app]; split; [reflexivity|exact E]|intros ? [_ E]; destruct X; congruence].
  - eapply spec_ret; [reflexivity|]. split; [reflexivity|exact I].
Qed.
Lemma f_any_writer o x : match x with Some x => rw_write x = true | None => True end ->
  spec (any_writer o x) (oo o ++ own_opt own_rdwr x) (fun w l => l = oo o ++ own_w w).
Proof.
  intro X. destruct x as [x|]; cbn [any_writer own_opt].
  - eapply spec_mono; [apply f_mw_init|]. cbv beta. intros [w|] l; [intros ->; eexists; split; [reflexivity|reflexivity]|intros [_ E]; congruence].
  - eapply spec_ret; [reflexivity|]. reflexivity.
Qed.

(** ** fstrm_dump *)
Lemma f_dump_start r o : mr_stop r = None ->
  spec (dump_start r o) (own_reader r ++ oo o) (fun x l => l = own_reader (fst (snd x)) ++ oo (snd (snd x)) /\ mr_stop (fst (snd x)) = None).
Proof.
  intro ST. unfold dump_start. eapply sp_call with (l := own_reader r) (f := oo o); [apply f_mr_get|reflexivity|].
  cbv beta. intros [k r'] ? (-> & E & _ & K). cbn [fst snd] in *. rewrite ST in E.
  destruct k as [k|]; [|eapply spec_ret; [reflexivity|split; [reflexivity|exact E]]].
  assert (IN : forall b, In b (own_ctl k) -> In b (own_reader r' ++ oo o)) by (intros b B; apply in_or_app; left; apply K, B).
  apply sp_use; [apply IN; left; reflexivity|]. apply sp_use; [apply IN; right; left; reflexivity|].
  destruct (bv_items (c_vec k)) as [|t ts] eqn:T; [eapply spec_ret; [reflexivity|split; [reflexivity|exact E]]|].
  assert (TI : In t (own_reader r' ++ oo o)) by (apply IN; unfold own_ctl, own_vec; rewrite T; cbn [In]; tauto).
  apply sp_use; [apply IN; right; right; left; reflexivity|]. apply sp_use; [exact TI|].
  destruct o as [o|]; [|eapply spec_ret; [reflexivity|split; [reflexivity|exact E]]].
  apply sp_flag. intro ok. apply sp_use; [exact TI|]. cbn [oo own_opt].
  eapply sp_call with (l := own_o o) (f := own_reader r'); [apply f_oo_add|pm|]. cbv beta. intros o' ? ->.
  eapply spec_ret; [|split; [reflexivity|exact E]]. cbn [fst snd oo own_opt]. pm.
Qed.
Lemma f_dump_writer f o : spec (dump_writer f o) (own_p f ++ oo o) (fun x l => l = own_p f ++ oo o ++ own_w (snd x)).
Proof.
  unfold dump_writer. eapply sp_call with (l := own_p f) (f := oo o); [apply f_ro_file|reflexivity|]. cbv beta. intros x ? [-> X].
  eapply sp_call with (l := oo o ++ own_opt own_rdwr x) (f := own_p f); [apply f_any_writer; destruct x; [destruct X as [_ ->]; reflexivity|exact I]|pm|].
  cbv beta. intros w ? ->. destruct w as [w|]; cbn [own_w own_opt].
  - eapply sp_call with (l := own_writer w) (f := oo o ++ own_p f); [apply f_mw_open|pm|]. intros [ok w'] ? ->. cbn [snd].
    destruct ok; [eapply spec_ret; [|reflexivity]; cbn [snd own_w own_opt]; pm|].
    eapply sp_call with (l := own_writer w') (f := oo o ++ own_p f); [apply f_mw_destroy|reflexivity|]. cbv beta. intros _ ? ->.
    eapply spec_ret; [|reflexivity]. cbn [snd own_w own_opt]. pm.
  - eapply spec_ret; [|reflexivity]. cbn [snd own_w own_opt]. pm.
Qed.
Lemma data_in r b f : b = ub_v (mr_buf r) -> In b (own_reader r ++ f).
Proof. intros ->. unfold own_reader. repeat (rewrite in_app_iff; cbn [In]). tauto. Qed.
Lemma f_dump_loop n : forall r w, mr_stop r = None ->
  spec (dump_loop n r w) (own_reader r ++ own_w w) (fun x l => l = own_reader (fst (snd x)) ++ own_w (snd (snd x))).
Proof.
  induction n as [|n IH]; intros r w ST; cbn [dump_loop]; [eapply spec_ret; reflexivity|].
  eapply sp_call with (l := own_reader r) (f := own_w w); [apply f_mr_read|reflexivity|].
  cbv beta. intros [d r'] ? (lost & -> & H). cbn [fst snd] in *. destruct d as [b| |].
  - destruct H as (-> & E & B). cbn [own_opt]. rewrite app_nil_r. rewrite ST in E. apply sp_use; [apply data_in, B|].
    destruct w as [w|]; [|apply (IH r' None E)]. cbn [own_w own_opt].
    eapply sp_call with (l := own_writer w) (f := own_reader r'); [apply f_mw_write|pm|]. cbv beta. intros w' ? ->.
    apply sp_use; [apply in_or_app; right; rewrite <- (app_nil_r (own_reader r')); apply data_in, B|].
    apply sp_flag. intros [|].
    + eapply spec_conv; [|apply (IH r' (Some w') E)]. cbn [own_w own_opt]. pm.
    + eapply spec_ret; [|reflexivity]. cbn [fst snd own_w own_opt]. pm.
  - destruct H as [-> _]. rewrite ST. cbn [own_opt]. rewrite app_nil_r.
    eapply sp_call with (l := own_reader r') (f := own_w w); [apply f_mr_get|reflexivity|]. cbv beta. intros [k r2] ? (-> & _). cbn [snd].
    eapply spec_ret; reflexivity.
  - destruct H as (-> & _). cbn [own_opt]. rewrite app_nil_r. eapply spec_ret; reflexivity.
Qed.
Lemma f_dump_out f o r w : spec (dump_out f o r w) (own_p f ++ oo o ++ own_opt own_reader r ++ own_w w) returns.
Proof.
  unfold dump_out. eapply sp_call with (f := oo o ++ own_opt own_reader r ++ own_w w); [apply f_po_destroy|pm|]. cbv beta. intros _ ? ->.
  eapply sp_call with (f := own_opt own_reader r ++ own_w w); [apply (f_each _ own_o), f_oo_destroy|unfold oo; pm|]. cbv beta. intros _ ? ->.
  eapply sp_call with (f := own_w w); [apply (f_each _ own_reader), f_mr_destroy|pm|]. cbv beta. intros _ ? ->.
  eapply sp_call with (l := own_w w) (f := []); [apply (f_each _ own_writer)|cbn [app]; pm|].
  { intro v. eapply spec_bind; [apply f_mw_close|]. cbv beta. intros v' ? ->. apply f_mw_destroy. }
  cbv beta. intros _ ? ->. eapply spec_ret; [reflexivity|]. split; [reflexivity|exact I].
Qed.
Lemma f_dump out n : spec (dump out n) [] returns.
Proof.
  unfold dump. eapply spec_bind; [apply f_po_init|]. cbv beta. intros f ? ->. eapply spec_bind; [apply f_po_set|]. cbv beta. intros f1 ? ->. clear f.
  eapply spec_bind; [apply f_file_reader|]. cbv beta. intros r ? [-> ST]. destruct r as [r|]; cbn [own_opt app].
  2: { eapply spec_conv; [|apply f_dump_out]. cbn [oo own_w own_opt app]. pm. }
  eapply sp_call with (l := own_reader r) (f := own_p f1); [apply f_mr_open|reflexivity|]. cbv beta. intros [ok r'] ? (-> & E & _). cbn [snd] in *. rewrite ST in E.
  destruct ok; cbn [negb]; [|eapply spec_conv; [|apply f_dump_out]; cbn [oo own_w own_opt app]; pm].
  eapply sp_call with (l := own_p f1) (f := own_reader r') (R := fun (f : pobj) l => l = own_p f); [destruct out; [apply f_po_set|eapply spec_ret; reflexivity]|pm|].
  cbv beta. intros f2 ? ->.
  eapply sp_call with (l := []) (f := own_p f2 ++ own_reader r') (R := fun (o : option oobj) l => l = oo o); [|pm|].
  { destruct out; [eapply spec_bind; [apply f_oo_init|]; cbv beta; intros o ? ->|]; eapply spec_ret; reflexivity. }
  cbv beta. intros o ? ->.
  eapply sp_call with (l := own_reader r' ++ oo o) (f := own_p f2); [apply f_dump_start, E|pm|]. cbv beta. intros [ok [r2 o2]] ? [-> E2]. cbn [fst snd] in *.
  destruct ok; cbn [negb]; [|eapply spec_conv; [|apply f_dump_out]; cbn [oo own_w own_opt app]; unfold oo; pm].
  eapply sp_call with (l := own_p f2 ++ oo o2) (f := own_reader r2) (R := fun (x : bool * option mwriter) l => l = own_p f2 ++ oo o2 ++ own_w (snd x)); [|pm|].
  { destruct out; [apply f_dump_writer|]. eapply spec_ret; [|reflexivity]. cbn [snd own_w own_opt]. pm. }
  cbv beta. intros [ok w] ? ->. cbn [snd].
  destruct ok; cbn [negb]; [|eapply spec_conv; [|apply f_dump_out]; cbn [own_opt]; pm].
  eapply sp_call with (l := own_reader r2 ++ own_w w) (f := own_p f2 ++ oo o2); [apply f_dump_loop, E2|pm|]. cbv beta. intros [done [r3 w3]] ? ->. cbn [fst snd].
  destruct done; [eapply spec_conv; [|apply f_dump_out]; cbn [own_opt]; pm|].
  eapply spec_ret; [|split; [reflexivity|exact I]]. cbn [left_of own_opt].
  change (own_opt (fun o => own (O_wopt o)) o2) with (oo o2). change (own (O_path f2)) with (own_p f2). change (own_opt own_writer w3) with (own_w w3). pm.
Qed.

(** ** fstrm_replay *)
Definition goes_on {A} (own_a : A -> list blk) (x : tool + A) (l : list blk) : Prop :=
  match x with inl e => ends e l | inr a => l = own_a a end.
Lemma f_open_or_none w : spec (open_or_none w) (own_w w) (goes_on own_w).
Proof.
  destruct w as [w|]; cbn [open_or_none own_w own_opt]; [|eapply spec_ret; reflexivity].
  eapply spec_bind; [apply f_mw_open|]. intros [ok w'] ? ->. cbn [snd]. destruct ok; [eapply spec_ret; reflexivity|].
  eapply spec_bind; [apply f_mw_destroy|]. cbv beta. intros _ ? ->. eapply spec_ret; reflexivity.
Qed.
Lemma f_replay_writer unix : spec (replay_writer unix) [] (goes_on own_w).
Proof.
  unfold replay_writer. eapply spec_bind; [apply f_oo_init|]. cbv beta. intros o0 ? ->. apply sp_flag. intro ok.
  eapply spec_bind; [apply f_oo_add|]. cbv beta. intros o ? ->. destruct ok; cbn [negb].
  2: { eapply spec_bind; [apply f_oo_destroy|]. cbv beta. intros _ ? ->. eapply spec_ret; reflexivity. }
  assert (T : forall p x, match x with Some x => rw_write x = true | None => True end ->
    spec (mbind (any_writer (Some o) x) (fun w => mbind (po_destroy p) (fun _ => mbind (oo_destroy o) (fun _ => open_or_none w))))
         (own_opt own_rdwr x ++ own_p p ++ own_o o) (goes_on own_w)).
  { intros p x X. eapply sp_call with (l := oo (Some o) ++ own_opt own_rdwr x) (f := own_p p); [apply f_any_writer, X|cbn [oo own_opt]; pm|].
    cbv beta. intros w ? ->. cbn [oo own_opt].
    eapply sp_call with (l := own_p p) (f := own_o o ++ own_w w); [apply f_po_destroy|pm|]. cbv beta. intros _ ? ->.
    eapply sp_call with (l := own_o o) (f := own_w w); [apply f_oo_destroy|pm|]. cbv beta. intros _ ? ->. apply f_open_or_none. }
  destruct unix.
  - eapply sp_new; [apply f_po_init|]. cbv beta. intros p0 ? ->. eapply sp_call with (l := own_p p0) (f := own_o o); [apply f_po_set|pm|]. cbv beta. intros p ? ->.
    eapply sp_call with (l := own_p p) (f := own_o o); [apply f_ro_unix|pm|]. cbv beta. intros x ? [-> X].
    eapply spec_conv; [|apply (T p x X)]. pm.
  - apply sp_flag. intros [|]; cbn [negb]; [|eapply spec_ret; [|reflexivity]; cbn [left_of own_opt]; rewrite !app_nil_r; reflexivity].
    eapply sp_new; [apply f_po_init|]. cbv beta. intros p0 ? ->. eapply sp_call with (l := own_p p0) (f := own_o o); [apply f_po_set|pm|]. cbv beta. intros p1 ? ->.
    eapply sp_call with (l := own_p p1) (f := own_o o); [apply f_po_set|pm|]. cbv beta. intros p ? ->.
    eapply sp_call with (l := own_p p) (f := own_o o); [apply f_ro_tcp|pm|]. cbv beta. intros x ? [-> X].
    eapply spec_conv; [|apply (T p x X)]. pm.
Qed.
Lemma f_close_reader r (w : mwriter) : spec (mbind (mr_destroy r) (fun _ => mret (@inr tool mwriter w))) (own_reader r ++ own_writer w) (goes_on own_writer).
Proof.
  eapply sp_call with (f := own_writer w); [apply f_mr_destroy|reflexivity|]. cbv beta. intros _ ? ->. eapply spec_ret; reflexivity.
Qed.
Lemma f_replay_loop n : forall r w, mr_stop r = None -> spec (replay_loop n r w) (own_reader r ++ own_writer w) (goes_on own_writer).
Proof.
  induction n as [|n IH]; intros r w ST; cbn [replay_loop]; [eapply spec_ret; [|reflexivity]; reflexivity|].
  eapply sp_call with (l := own_reader r) (f := own_writer w); [apply f_mr_read|reflexivity|].
  cbv beta. intros [d r'] ? (lost & -> & H). cbn [fst snd] in *. destruct d as [b| |].
  - destruct H as (-> & E & B). cbn [own_opt]. rewrite app_nil_r. rewrite ST in E. apply sp_use; [apply data_in, B|].
    eapply sp_call with (l := own_writer w) (f := own_reader r'); [apply f_mw_write|pm|]. cbv beta. intros w' ? ->.
    apply sp_use; [apply in_or_app; right; rewrite <- (app_nil_r (own_reader r')); apply data_in, B|].
    apply sp_flag. intros [|].
    + eapply spec_conv; [|apply (IH r' w' E)]. pm.
    + eapply spec_ret; [|reflexivity]. cbn [left_of own_opt app]. pm.
  - destruct H as [-> _]. rewrite ST. cbn [own_opt]. rewrite app_nil_r.
    eapply sp_call with (l := own_reader r') (f := own_writer w); [apply f_mr_get|reflexivity|]. cbv beta. intros [k r2] ? (-> & _). cbn [snd]. apply f_close_reader.
  - destruct H as (-> & _). cbn [own_opt]. rewrite app_nil_r. apply f_close_reader.
Qed.
Lemma f_replay_file n w : spec (replay_file n w) (own_writer w) (goes_on own_writer).
Proof.
  unfold replay_file. eapply sp_new; [apply f_po_init|]. cbv beta. intros f0 ? ->.
  eapply sp_call with (l := own_p f0) (f := own_writer w); [apply f_po_set|pm|]. cbv beta. intros f ? ->.
  eapply sp_call with (l := own_p f) (f := own_writer w); [apply f_file_reader|pm|]. cbv beta. intros r ? [-> ST].
  eapply sp_call with (l := own_p f) (f := own_opt own_reader r ++ own_writer w); [apply f_po_destroy|pm|]. cbv beta. intros _ ? ->.
  destruct r as [r|]; cbn [own_opt app]; [|eapply spec_ret; reflexivity].
  eapply sp_call with (l := own_reader r) (f := own_writer w); [apply f_mr_get|reflexivity|]. cbv beta. intros [k r'] ? (-> & E & _ & K). cbn [fst snd] in *. rewrite ST in E.
  destruct k as [k|]; [|apply f_close_reader].
  eapply sp_reads; [apply reads_co_read|intros b B; apply in_or_app; left; apply K, B|]. intros _. apply sp_flag.
  intros [|]; cbn [negb]; [apply (f_replay_loop n r' w E)|apply f_close_reader].
Qed.
Lemma f_replay_files ns : forall w, spec (replay_files ns w) (own_writer w) (goes_on own_writer).
Proof.
  induction ns as [|n ns IH]; intro w; cbn [replay_files]; [eapply spec_ret; reflexivity|].
  eapply spec_bind; [apply f_replay_file|]. intros [e|w'] l H; cbn [goes_on] in H; [eapply spec_ret; [reflexivity|exact H]|subst l; apply IH].
Qed.
Lemma f_replay unix ns : spec (replay unix ns) [] ends.
Proof.
  unfold replay. eapply spec_bind; [apply f_replay_writer|]. intros [e|[w|]] l H; cbn [goes_on] in H; [eapply spec_ret; [reflexivity|exact H]| |].
  - subst l. cbn [own_w own_opt]. eapply spec_bind; [apply f_replay_files|]. intros [e|w'] l H; cbn [goes_on] in H; [eapply spec_ret; [reflexivity|exact H]|subst l].
    eapply spec_bind; [apply f_mw_close|]. cbv beta. intros w2 ? ->. eapply spec_bind; [apply f_mw_destroy|]. cbv beta. intros _ ? ->. eapply spec_ret; reflexivity.
  - subst l. eapply spec_ret; reflexivity.
Qed.

Lemma from_start (p : mem tool) Q o : spec p [] Q -> exists t o' h l, p o heap0 = MOk t o' h /\ NoDup (h_live h) /\ Permutation (h_live h) l /\ Q t l.
Proof.
  intro S. destruct (S o heap0 []) as (t & o' & h & l & E & W & _ & X & P); [split; constructor|reflexivity|].
  exists t, o', h, l. split; [exact E|]. split; [apply W|]. rewrite app_nil_r in P. split; [exact P|exact X].
Qed.
Lemma dump_accounted out n o : exists t o' h, dump out n o heap0 = MOk t o' h /\ NoDup (h_live h) /\ Permutation (h_live h) (left_of t) /\
  match t with T_exit _ _ _ => False | _ => True end.
Proof. destruct (from_start _ _ o (f_dump out n)) as (t & o' & h & l & E & N & P & -> & X). exists t, o', h. auto. Qed.
Lemma replay_accounted unix ns o : exists t o' h, replay unix ns o heap0 = MOk t o' h /\ NoDup (h_live h) /\ Permutation (h_live h) (left_of t).
Proof. destruct (from_start _ _ o (f_replay unix ns)) as (t & o' & h & l & E & N & P & ->). exists t, o', h. auto. Qed.

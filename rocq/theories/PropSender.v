(** PropSender.v -- C41 to C49: executions of a Sender, for every schedule, every behaviour of the
    network and every sequence of user calls. *)
From Verif Require Import Base BaseFacts MTransport MSData MMessage MSender LSender.

(** A witness: one frame *)
Definition fr (x : bytes) : bytes := x ++ [LF].

(** ** C41 *)
Theorem C41_no_loss : forall acts s, srun sender_init acts = Some s ->
  written (s_log s) ++ concat (s_queue s) = concat (sends acts) /\
  written (s_log s) = concat (map (fun c => on c (s_log s)) (seq 0 (connects acts))).
Proof.
  intros acts s H. destruct (srun_inv _ _ H). split; [assumption|]. rewrite <- v_next. assumption.
Qed.
Print Assumptions C41_no_loss.

(** WriteTo on a connection that takes one Write per frame is the same as one write of the whole
    queue: the bytes accepted are the first n of the queue, all of them without error, and then
    each Write was one whole frame. *)
Fixpoint writer_ok {E} (q : list bytes) (results : list (nat * option E)) : Prop :=
  match q, results with
  | [], _ => True
  | b :: q', (k, Some _) :: _ => (k <= length b)%nat
  | b :: q', (k, None) :: more => k = length b /\ writer_ok q' more
  | _, [] => False
  end.
Theorem C41_write_each : forall E q (results : list (nat * option E)) w n e, writer_ok q results -> write_each q results = (w, n, e) ->
  concat w = firstn n (concat q) /\ (n <= length (concat q))%nat /\
  match e with None => w = q /\ n = length (concat q) | Some _ => exists whole k b rest, q = whole ++ b :: rest /\ w = whole ++ [firstn k b] /\ n = (length (concat whole) + k)%nat /\ (k <= length b)%nat end.
Proof.
  intros E q. induction q as [|b q IH]; intros results w n e Hok H.
  - injection H as <- <- <-. cbn. auto.
  - destruct results as [|[k [e0|]] more]; [contradiction| |].
    + cbn in H, Hok. injection H as <- <- <-. cbn [concat]. rewrite app_nil_r, firstn_app. replace (k - length b)%nat with 0%nat by lia. rewrite firstn_O, app_nil_r.
      split; [reflexivity|]. split; [rewrite app_length; lia|]. exists [], k, b, q. cbn. auto.
    + cbn in Hok. destruct Hok as [-> Hok]. cbn in H. destruct (write_each q more) as [[w0 n0] e1] eqn:E1. injection H as <- <- <-.
      destruct (IH _ _ _ _ Hok E1) as (H1 & H2 & H3). cbn [concat]. rewrite firstn_all, H1.
      rewrite firstn_app, (firstn_all2 (n := length b + n0) b) by lia. replace (length b + n0 - length b)%nat with n0 by lia. split; [reflexivity|].
      rewrite app_length. split; [lia|]. destruct e1.
      * destruct H3 as (whole & k & b0 & rest & -> & -> & -> & Hk). exists (b :: whole), k, b0, rest. cbn. rewrite app_length. repeat split; auto. lia.
      * destruct H3 as [-> ->]. auto.
Qed.
Print Assumptions C41_write_each.

Definition busy : list saction :=
  [ASend (fr (bs "one")); ATick; AConnect (Some 7%nat); ASend (fr (bs "two")); APushErrConn; AUserErr; ATick; AConnect None; ALock; AWrite 6 (WErr 8%nat); APushErrWrite;
   ASend (fr (bs "three")); ATick; AConnect None; ALock; AWrite 3 WNoBufs; AEndCall; ASelectEnd; ADrain; ALock; AWrite 5 WOk; AWriteDone; ADrain; ACloseOut; ACloseDone; ACloseErr].
Example C41_nonvacuous : exists s, srun sender_init busy = Some s /\ s_pc s = PExit /\ written (s_log s) = fr (bs "one") ++ fr (bs "two") ++ fr (bs "three") /\
  on 0 (s_log s) = fr (bs "one") ++ bs "tw" /\ on 1 (s_log s) = bs "o" ++ [LF] ++ fr (bs "three") /\ s_goterr s = [7%nat] /\ s_errq s = [8%nat].
Proof. vm_compute. eexists. repeat split. Qed.

(** ** C42 *)

(** When End can return, the connections have accepted exactly the frames queued before the last
    look at the queue, which came after End was called: *)
Theorem C42_flushed : forall acts s, srun sender_init acts = Some s -> s_completed s = true ->
  (exists p q, acts = p ++ ADrain :: q /\ In AEndCall p /\ written (s_log s) = concat (sends p)) /\
  forall a b, acts = a ++ AEndCall :: b -> ~ In AEndCall a -> exists rest, written (s_log s) = concat (sends a) ++ rest.
Proof.
  intros acts s H Hc. destruct (srun_inv _ _ H). apply v_completed in Hc.
  assert (Hd : after_drain (s_pc s) = true) by (destruct Hc as [-> | ->]; reflexivity). specialize (v_drain Hd). split; [assumption|].
  destruct v_drain as (p & q & E & Hp & Hw). intros a b Ea Ha. rewrite Hw.
  assert (exists c, p = a ++ c) as (c & ->).
  { clear - E Ea Ha Hp. rewrite Ea in E. clear Ea acts. revert p E Hp Ha. induction a as [|x a IH]; intros p E Hp Ha; [exists p; reflexivity|].
    destruct p as [|y p]; cbn in E; [destruct Hp|]. injection E as -> E. destruct (IH p E) as (c & ->).
    - destruct Hp as [->|Hp]; [exfalso; apply Ha; left; reflexivity | exact Hp].
    - intro Hi. apply Ha. right. exact Hi.
    - exists c. reflexivity. }
  exists (concat (sends c)). rewrite sends_app, concat_app. reflexivity.
Qed.
Print Assumptions C42_flushed.

(** Nothing is written before End when there is no tick (auto flush disabled). *)
Theorem C42_nothing_without_tick : forall acts s, srun sender_init acts = Some s -> ~ In ATick acts -> ~ In ASelectEnd acts ->
  s_log s = [] /\ s_queue s = sends acts.
Proof.
  assert (Hi : forall acts s, srun sender_init acts = Some s -> ~ In ATick acts -> ~ In ASelectEnd acts -> s_pc s = PSelect /\ s_log s = [] /\ s_queue s = sends acts).
  { intros acts. induction acts as [|a acts IH] using rev_ind; intros s H H1 H2; [injection H as <-; auto|].
    rewrite srun_app in H. destruct (srun sender_init acts) as [s0|] eqn:E; [|discriminate]. cbn in H.
    rewrite in_app_iff in H1, H2. destruct (IH s0 eq_refl) as (Hpc & Hl & Hq); [tauto|tauto|].
    destruct (sstep s0 a) as [s1|] eqn:Es; [|discriminate]. injection H as <-.
    unfold sstep in Es. destruct (s_crashed s0); [discriminate|]. unfold locked in Es. rewrite Hpc in Es. rewrite sends_app.
    destruct a; try discriminate; cbn [sends flat_map app]; rewrite ?app_nil_r.
    - injection Es as <-. cbn. rewrite Hq. auto.
    - cbn in H1. tauto.
    - injection Es as <-. destruct (s_end s0); cbn; auto.
    - cbn in H2. tauto.
    - destruct (s_errq s0); [discriminate|]. injection Es as <-. cbn. auto. }
  intros acts s H H1 H2. destruct (Hi _ _ H H1 H2) as (_ & Hl & Hq). auto.
Qed.
Print Assumptions C42_nothing_without_tick.

Lemma nothing_step s a s1 : after_drain (s_pc s) = false -> concat (s_queue s) <> [] -> sstep s a = Some s1 -> (forall k r, a = AWrite k r -> k = 0%nat) ->
  after_drain (s_pc s1) = false /\ concat (s_queue s1) <> [].
Proof.
  intros Hd Hq E Hk. unfold sstep in E. destruct (s_crashed s); [discriminate|].
  assert (Hr : forall d, after_drain (flush_return d) = false) by (intros []; reflexivity).
  assert (Hf : forall d, after_drain (flush_entry s d) = false) by (intro d; unfold flush_entry; destruct (s_out s); reflexivity).
  destruct a.
  - destruct (locked s); [discriminate|]. injection E as <-. snorm. split; [exact Hd|]. rewrite concat_app_one. intro Hx. apply app_eq_nil in Hx. tauto.
  - destruct (s_pc s); try discriminate. injection E as <-. snorm. auto.
  - injection E as <-. destruct (s_end s); snorm; auto.
  - destruct (s_pc s); try discriminate. destruct (s_end s); [|discriminate]. injection E as <-. snorm. auto.
  - destruct (s_pc s); try discriminate. destruct err; injection E as <-; snorm; auto.
  - destruct (s_pc s) eqn:Epc; try discriminate. destruct (s_errclosed s); [injection E as <-; snorm; rewrite ?Epc; auto|].
    destruct (length (s_errq s) <? serr_cap)%nat; [|discriminate]. injection E as <-. snorm. auto.
  - destruct (s_pc s); try discriminate. injection E as <-. snorm. auto.
  - specialize (Hk _ _ eq_refl). subst k. destruct (s_pc s) eqn:Epc; try discriminate. destruct (s_queue s) as [|f q] eqn:Eq; [discriminate|]. rewrite <- Eq in *.
    destruct (s_out s); [|injection E as <-; snorm; rewrite ?Epc; auto]. cbv zeta in E.
    destruct ((0 <=? length (concat (s_queue s)))%nat && _) in E; [|discriminate]. injection E as <-. snorm.
    split; [destruct r; auto|]. rewrite consume_concat by lia. exact Hq.
  - destruct (s_pc s) eqn:Epc; try discriminate. destruct (s_queue s) eqn:Eq; [|discriminate]. cbn in Hq. congruence.
  - destruct (s_pc s) eqn:Epc; try discriminate. destruct (s_errclosed s); [injection E as <-; snorm; rewrite ?Epc; auto|].
    destruct (length (s_errq s) <? serr_cap)%nat; [|discriminate]. injection E as <-. snorm. auto.
  - destruct (s_pc s); try discriminate. injection E as <-. snorm. split; [|exact Hq]. destruct (s_queue s); [cbn in Hq; congruence | auto].
  - destruct (s_pc s); discriminate.
  - destruct (s_pc s); discriminate.
  - destruct (s_pc s); discriminate.
  - destruct (s_errq s); [discriminate|]. injection E as <-. snorm. auto.
Qed.

(** End never returns while the network accepts nothing and something is queued. *)
Theorem C42_end_waits : forall acts s, srun sender_init acts = Some s -> after_drain (s_pc s) = false -> concat (s_queue s) <> [] ->
  forall more s', srun s more = Some s' -> accepted_bytes more = 0%nat -> s_completed s' = false.
Proof.
  intros acts s H Hd Hq more s' H' Hk.
  assert (Hi : forall more s s', after_drain (s_pc s) = false -> concat (s_queue s) <> [] -> srun s more = Some s' -> accepted_bytes more = 0%nat -> after_drain (s_pc s') = false).
  { clear. induction more as [|a more IH]; intros s s' Hd Hq H Hk; [injection H as <-; exact Hd|]. cbn in H. destruct (sstep s a) as [s1|] eqn:E; [|discriminate].
    change (a :: more) with ([a] ++ more) in Hk. rewrite accepted_app in Hk.
    destruct (nothing_step _ _ _ Hd Hq E) as [Hd1 Hq1]; [intros k r ->; unfold accepted_bytes in Hk; cbn in Hk; lia|].
    apply (IH s1 s' Hd1 Hq1 H). lia. }
  specialize (Hi _ _ _ Hd Hq H' Hk). destruct (srun_inv (acts ++ more) s') as []; [rewrite srun_app, H; exact H'|].
  destruct (s_completed s'); [|reflexivity]. destruct v_completed as [Hv _]. destruct (Hv eq_refl) as [Hx|Hx]; rewrite Hx in Hi; discriminate.
Qed.
Print Assumptions C42_end_waits.

(** and it does return once the network works and the user reads the error channel: from every
    state there is such a continuation, without any other call of the user (it ends in the crash of
    C43 when there is neither a connection nor a frame to send). *)
Definition good_network (a : saction) : Prop :=
  match a with ASend _ | AEndCall | ATick => False | AConnect (Some _) => False | AWrite _ WNoBufs | AWrite _ (WErr _) => False | _ => True end.

Lemma close_run s : s_crashed s = false -> s_pc s = PClose -> s_completed s = false ->
  exists more s', Forall good_network more /\ srun s more = Some s' /\ (if match s_out s with Some _ => true | None => false end then s_completed s' else s_crashed s') = true.
Proof.
  intros Hc Hpc Hcp. destruct (s_out s) as [c|] eqn:Eo.
  - exists [ACloseOut; ACloseDone]. eexists. split; [repeat constructor|]. cbn [srun]. unfold sstep at 1. rewrite Hc, Hpc, Eo.
    unfold sstep. snorm. rewrite Hcp. split; reflexivity.
  - exists [ACloseOut]. eexists. split; [repeat constructor|]. cbn [srun]. unfold sstep at 1. rewrite Hc, Hpc, Eo. split; reflexivity.
Qed.

Lemma drain_run s : s_crashed s = false -> s_pc s = PDrain -> s_completed s = false ->
  exists more s', Forall good_network more /\ srun s more = Some s' /\
    (if match s_out s, s_queue s with None, [] => false | _, _ => true end then s_completed s' else s_crashed s') = true.
Proof.
  intros Hc Hpc Hcp. destruct (s_queue s) as [|f q] eqn:Eq.
  - destruct (close_run (set_pc s PClose)) as (more & s' & Hg & Hr & Hx); snorm; auto.
    exists (ADrain :: more), s'. split; [constructor; [exact I | exact Hg]|]. split.
    + cbn [srun]. unfold sstep at 1. rewrite Hc, Hpc, Eq. exact Hr.
    + destruct (s_out s); exact Hx.
  - assert (Hw : forall s1 c, s_crashed s1 = false -> s_pc s1 = PWrite true -> s_completed s1 = false -> s_queue s1 = f :: q -> s_out s1 = Some c ->
      exists more s', Forall good_network more /\ srun s1 more = Some s' /\ s_completed s' = true).
    { intros s1 c Hc1 Hp1 Hcp1 Hq1 Ho1.
      set (s2 := {| s_pc := PClose; s_queue := []; s_out := Some c; s_end := s_end s1; s_completed := false; s_errq := s_errq s1;
                            s_errclosed := s_errclosed s1; s_goterr := s_goterr s1; s_log := s_log s1 ++ [EWrite c (concat (f :: q))]; s_next := s_next s1; s_crashed := false |}).
      destruct (close_run s2) as (more & s' & Hg & Hr & Hx); try reflexivity.
      exists (AWrite (length (concat (f :: q))) WOk :: AWriteDone :: ADrain :: more), s'. split; [repeat (constructor; [exact I|]); exact Hg|]. split; [|exact Hx].
      cbn [srun]. unfold sstep at 1. rewrite Hc1, Hp1, Hq1, Ho1. cbv zeta. rewrite Nat.leb_refl, Nat.eqb_refl. cbn [andb].
      rewrite consume_all, firstn_all. unfold sstep at 1. snorm. unfold sstep at 1. snorm. unfold flush_return. rewrite Hcp1. exact Hr. }
    destruct (s_out s) as [c|] eqn:Eo.
    + destruct (Hw (set_pc s (PWrite true)) c) as (more & s' & Hg & Hr & Hx); snorm; auto.
      exists (ADrain :: ALock :: more), s'. split; [repeat (constructor; [exact I|]); exact Hg|]. split; [|exact Hx].
      cbn [srun]. unfold sstep at 1. rewrite Hc, Hpc, Eq. unfold flush_entry. rewrite Eo. unfold sstep at 1. snorm. rewrite Hc. exact Hr.
    + set (s1 := {| s_pc := PWrite true; s_queue := s_queue s; s_out := Some (s_next s); s_end := s_end s; s_completed := s_completed s; s_errq := s_errq s;
                            s_errclosed := s_errclosed s; s_goterr := s_goterr s; s_log := s_log s ++ [EOpen (s_next s)]; s_next := S (s_next s); s_crashed := false |}).
      destruct (Hw s1 (s_next s)) as (more & s' & Hg & Hr & Hx); unfold s1; snorm; auto.
      exists (ADrain :: AConnect None :: ALock :: more), s'. split; [repeat (constructor; [exact I|]); exact Hg|]. split; [|exact Hx].
      cbn [srun]. unfold sstep at 1. rewrite Hc, Hpc, Eq. unfold flush_entry. rewrite Eo. unfold sstep at 1. snorm. rewrite Hc. unfold sstep at 1. snorm. exact Hr.
Qed.

Lemma returned_run s d : s_crashed s = false -> s_pc s = flush_return d -> s_end s = true -> s_completed s = false ->
  exists more s', Forall good_network more /\ srun s more = Some s' /\
    (if match s_out s, s_queue s with None, [] => false | _, _ => true end then s_completed s' else s_crashed s') = true.
Proof.
  intros Hc Hpc He Hcp. destruct d; [apply drain_run; assumption|].
  destruct (drain_run (set_pc s PDrain)) as (more & s' & Hg & Hr & Hx); snorm; auto. exists (ASelectEnd :: more), s'.
  split; [constructor; [exact I | exact Hg]|]. split; [|exact Hx]. cbn [srun]. unfold sstep at 1. rewrite Hc, Hpc. cbn [flush_return]. rewrite He. exact Hr.
Qed.

Lemma writing_run s d c : s_crashed s = false -> s_pc s = PWrite d -> s_end s = true -> s_completed s = false -> s_out s = Some c ->
  exists more s', Forall good_network more /\ srun s more = Some s' /\ s_completed s' = true.
Proof.
  intros Hc Hpc He Hcp Ho. destruct (s_queue s) as [|f q] eqn:Eq.
  - destruct (returned_run (set_pc s (flush_return d)) d) as (more & s' & Hg & Hr & Hx); snorm; auto. rewrite Ho in Hx.
    exists (AWriteDone :: more), s'. split; [constructor; [exact I | exact Hg]|]. split; [|exact Hx]. cbn [srun]. unfold sstep at 1. rewrite Hc, Hpc, Eq. exact Hr.
  - set (s2 := {| s_pc := flush_return d; s_queue := []; s_out := Some c; s_end := s_end s; s_completed := s_completed s; s_errq := s_errq s;
                            s_errclosed := s_errclosed s; s_goterr := s_goterr s; s_log := s_log s ++ [EWrite c (concat (f :: q))]; s_next := s_next s; s_crashed := false |}).
    destruct (returned_run s2 d) as (more & s' & Hg & Hr & Hx); unfold s2; snorm; auto.
    exists (AWrite (length (concat (f :: q))) WOk :: AWriteDone :: more), s'. split; [repeat (constructor; [exact I|]); exact Hg|]. split; [|exact Hx].
    cbn [srun]. unfold sstep at 1. rewrite Hc, Hpc, Eq, Ho. cbv zeta. rewrite Nat.leb_refl, Nat.eqb_refl. cbn [andb]. rewrite consume_all, firstn_all.
    unfold sstep at 1. snorm. exact Hr.
Qed.

Lemma locking_run s d c : s_crashed s = false -> s_pc s = PLock d -> s_end s = true -> s_completed s = false -> s_out s = Some c ->
  exists more s', Forall good_network more /\ srun s more = Some s' /\ s_completed s' = true.
Proof.
  intros Hc Hpc He Hcp Ho. destruct (writing_run (set_pc s (PWrite d)) d c) as (more & s' & Hg & Hr & Hx); snorm; auto.
  exists (ALock :: more), s'. split; [constructor; [exact I | exact Hg]|]. split; [|exact Hx]. cbn [srun]. unfold sstep at 1. rewrite Hc, Hpc. exact Hr.
Qed.

(** Can End return from here: is there, or will there be, a connection to close? *)
Definition will_have_connection (s : sstate) : bool :=
  match s_pc s with
  | PErrWrite _ _ => match s_queue s with [] => false | _ => true end
  | PConnect _ => true
  | PClose => match s_out s with None => false | _ => true end
  | _ => match s_out s, s_queue s with None, [] => false | _, _ => true end
  end.

Theorem C42_end_returns : forall acts s, srun sender_init acts = Some s -> s_crashed s = false -> In AEndCall acts ->
  exists more s', Forall good_network more /\ srun s more = Some s' /\ (if will_have_connection s then s_completed s' else s_crashed s') = true.
Proof.
  intros acts s H Hc He. pose proof (srun_inv _ _ H) as I0. apply (v_end _ _ I0) in He.
  pose proof (v_out _ _ I0) as Io. pose proof (v_completed _ _ I0) as Icp. pose proof (v_errclosed _ _ I0) as Iec.
  pose proof (v_errq _ _ I0) as Ieq.
  assert (Hpush : forall d e b, (s_pc s = PErrConnect d e /\ b = APushErrConn \/ s_pc s = PErrWrite d e /\ b = APushErrWrite) ->
    exists q s1, Forall good_network q /\ srun s (q ++ [b]) = Some s1 /\ s_crashed s1 = false /\ s_pc s1 = flush_return d /\ s_end s1 = true /\ s_completed s1 = false /\
      s_queue s1 = s_queue s /\ s_out s1 = None).
  { intros d e b Hb.
    assert (Hcl : s_errclosed s = false /\ s_completed s = false).
    { split; [destruct (s_errclosed s) | destruct (s_completed s)]; try reflexivity; exfalso;
      destruct Hb as [[Hb _]|[Hb _]]; rewrite Hb in *; intuition congruence. }
    destruct Hcl as [Hec Hcp].
    assert (Hout : forall d e, s_pc s = PErrConnect d e -> s_out s = None) by (intros d0 e0 Hx; rewrite Hx in Io; exact Io).
    destruct (s_errq s) as [|x q] eqn:Eq.
    - exists []. destruct Hb as [[Hb ->]|[Hb ->]]; eexists; (split; [constructor|]); cbn [app srun]; unfold sstep; rewrite Hc, Hb, Hec, Eq; cbn [length Nat.ltb Nat.leb serr_cap];
        (split; [reflexivity|]); snorm; repeat split; auto. eapply Hout; exact Hb.
    - assert (q = []) as -> by (destruct q; [reflexivity | cbn in Ieq; lia]).
      exists [AUserErr]. destruct Hb as [[Hb ->]|[Hb ->]]; eexists; (split; [repeat constructor|]); cbn [app srun]; unfold sstep at 1; rewrite Hc, Eq; unfold sstep; snorm; rewrite Hb, Hec; cbn [length Nat.ltb Nat.leb serr_cap];
        (split; [reflexivity|]); snorm; repeat split; auto. eapply Hout; exact Hb. }
  destruct (s_pc s) eqn:Epc; unfold will_have_connection; rewrite ?Epc.
  - assert (Hcp : s_completed s = false) by (destruct (s_completed s); intuition congruence). apply (returned_run s false); assumption.
  - assert (Hcp : s_completed s = false) by (destruct (s_completed s); intuition congruence).
    set (s1 := {| s_pc := PLock d; s_queue := s_queue s; s_out := Some (s_next s); s_end := s_end s; s_completed := s_completed s; s_errq := s_errq s;
                            s_errclosed := s_errclosed s; s_goterr := s_goterr s; s_log := s_log s ++ [EOpen (s_next s)]; s_next := S (s_next s); s_crashed := false |}).
    destruct (locking_run s1 d (s_next s)) as (more & s' & Hg & Hr & Hx); unfold s1; snorm; auto.
    exists (AConnect None :: more), s'. split; [constructor; [exact I | exact Hg]|]. split; [|exact Hx]. cbn [srun]. unfold sstep at 1. rewrite Hc, Epc. exact Hr.
  - destruct (Hpush d e APushErrConn) as (q & s1 & Hq & Hr1 & Hc1 & Hp1 & He1 & Hcp1 & Hq1 & Ho1); [auto|].
    destruct (returned_run s1 d Hc1 Hp1 He1 Hcp1) as (more & s' & Hg & Hr & Hx).
    exists ((q ++ [APushErrConn]) ++ more), s'. split.
    + repeat (apply Forall_app; split); auto. repeat constructor.
    + split; [rewrite srun_app, Hr1; exact Hr|]. rewrite Ho1, Hq1 in Hx. rewrite Io. exact Hx.
  - assert (Hcp : s_completed s = false) by (destruct (s_completed s); intuition congruence). destruct (s_out s) as [c|] eqn:Eo; [|congruence].
    apply (locking_run s d c); assumption.
  - assert (Hcp : s_completed s = false) by (destruct (s_completed s); intuition congruence). destruct (s_out s) as [c|] eqn:Eo; [|congruence].
    apply (writing_run s d c); assumption.
  - destruct (Hpush d e APushErrWrite) as (q & s1 & Hq & Hr1 & Hc1 & Hp1 & He1 & Hcp1 & Hq1 & Ho1); [auto|].
    destruct (returned_run s1 d Hc1 Hp1 He1 Hcp1) as (more & s' & Hg & Hr & Hx).
    exists ((q ++ [APushErrWrite]) ++ more), s'. split.
    + repeat (apply Forall_app; split); auto. repeat constructor.
    + split; [rewrite srun_app, Hr1; exact Hr|]. rewrite Ho1, Hq1 in Hx. exact Hx.
  - assert (Hcp : s_completed s = false) by (destruct (s_completed s); intuition congruence). apply drain_run; assumption.
  - assert (Hcp : s_completed s = false) by (destruct (s_completed s); intuition congruence).
    destruct (close_run s Hc Epc Hcp) as (more & s' & Hg & Hr & Hx). exists more, s'. split; [exact Hg|]. split; [exact Hr|]. destruct (s_out s); exact Hx.
  - assert (Hcp : s_completed s = false) by (destruct (s_completed s); intuition congruence). destruct (s_out s) as [c|] eqn:Eo; [|congruence].
    exists [ACloseDone]. eexists. split; [repeat constructor|]. cbn [srun]. unfold sstep. rewrite Hc, Epc, Hcp. split; reflexivity.
  - destruct (s_out s) as [c|] eqn:Eo; [|congruence]. exists [], s. split; [constructor|]. split; [reflexivity|]. apply Icp. auto.
  - destruct (s_out s) as [c|] eqn:Eo; [|congruence]. exists [], s. split; [constructor|]. split; [reflexivity|]. apply Icp. auto.
Qed.
Print Assumptions C42_end_returns.

(** PropSender3.v -- C44 (failures inside a frame) and C45 to C49. *)
From Verif Require Import Base BaseFacts MTransport MSData MMessage MSender LSender PropSender PropSender2.

Lemma sinv_from acts s more s' : srun sender_init acts = Some s -> srun s more = Some s' -> sinv (acts ++ more) s'.
Proof. intros H H'. apply srun_inv. rewrite srun_app, H. exact H'. Qed.

Lemma snoc_ind_run (P : list saction -> sstate -> Prop) s0 acts0 : srun sender_init acts0 = Some s0 -> P [] s0 ->
  (forall more a s1 s2, srun s0 more = Some s1 -> sinv (acts0 ++ more) s1 -> P more s1 -> s_crashed s1 = false -> sstep s1 a = Some s2 -> P (more ++ [a]) s2) ->
  forall more s', srun s0 more = Some s' -> P more s'.
Proof.
  intros H0 Hi Hstep more. induction more as [|a more IH] using rev_ind; intros s' H; [injection H as <-; exact Hi|].
  rewrite srun_app in H. destruct (srun s0 more) as [s1|] eqn:E; [|discriminate]. cbn in H. destruct (sstep s1 a) as [s2|] eqn:E2; [|discriminate].
  injection H as <-. eapply Hstep; eauto.
  - eapply sinv_from; eauto.
  - unfold sstep in E2. destruct (s_crashed s1); [discriminate | reflexivity].
Qed.

(** ** C44: a write that fails inside a frame *)
Theorem C44_failure_inside : forall p k e q s, srun sender_init (p ++ AWrite k (WErr e) :: q) = Some s ->
  ~ boundary (sends p) (accepted_bytes p + k) ->
  length (before (connects p) (s_log s)) = (accepted_bytes p + k)%nat /\ ~ boundary (sends (p ++ AWrite k (WErr e) :: q)) (length (before (connects p) (s_log s))).
Proof.
  intros p k e q s H Hnb.
  assert (Hlen : length (before (connects p) (s_log s)) = (accepted_bytes p + k)%nat).
  { change (p ++ AWrite k (WErr e) :: q) with (p ++ [AWrite k (WErr e)] ++ q) in H. rewrite app_assoc in H. rewrite srun_app in H.
    destruct (srun sender_init (p ++ [AWrite k (WErr e)])) as [s1|] eqn:E1; [|discriminate].
    pose proof (srun_inv _ _ E1) as I1. destruct (last_step _ _ _ E1) as (s0 & H0 & Hc0 & Hs). pose proof (srun_inv _ _ H0) as I0.
    assert (Hn1 : s_next s1 = connects p /\ s_out s1 <> None /\ exists d, s_pc s1 = PErrWrite d e).
    { unfold sstep in Hs. rewrite Hc0 in Hs. destruct (s_pc s0) eqn:Epc; try discriminate. destruct (s_queue s0) as [|f q0] eqn:Eq; [discriminate|]. rewrite <- Eq in *.
      pose proof (v_out _ _ I0) as Io. rewrite Epc in Io. destruct (s_out s0) as [c0|] eqn:Eo; [|congruence]. cbv zeta in Hs.
      destruct ((k <=? length (concat (s_queue s0)))%nat && _) in Hs; [|discriminate]. injection Hs as <-. snorm. rewrite (v_next _ _ I0). repeat split; eauto. }
    destruct Hn1 as (Hn1 & Ho1 & d & Hp1).
    assert (Hb1 : length (before (connects p) (s_log s1)) = (accepted_bytes p + k)%nat).
    { unfold before. rewrite <- Hn1, <- (v_order _ _ I1), (v_accepted _ _ I1), accepted_app. unfold accepted_bytes at 2. cbn. lia. }
    rewrite <- Hb1. f_equal.
    apply (snoc_ind_run (fun _ s' => before (connects p) (s_log s') = before (connects p) (s_log s1) /\ (connects p <= s_next s')%nat /\
      ((exists d e, s_pc s' = PErrWrite d e) \/ match s_out s' with None => True | Some c => (connects p <= c)%nat end)) s1 _ E1) with (more := q) (s' := s); [|clear s H Hb1 Hp1 Ho1 Hs H0 Hc0 I0|exact H].
    { repeat split; [lia | left; eauto]. }
    intros more a s s2 Hr I2 (Hb & Hn & Hx) Hc Hs. unfold sstep in Hs. rewrite Hc in Hs. destruct a.
    - destruct (locked s); [discriminate|]. injection Hs as <-. snorm. auto.
    - destruct (s_pc s) eqn:Epc; try discriminate. injection Hs as <-. snorm. split; [exact Hb|]. split; [exact Hn|]. right. destruct Hx as [(? & ? & Hx)|Hx]; [discriminate | exact Hx].
    - injection Hs as <-. destruct (s_end s); snorm; auto.
    - destruct (s_pc s) eqn:Epc; try discriminate. destruct (s_end s); [|discriminate]. injection Hs as <-. snorm. split; [exact Hb|]. split; [exact Hn|]. right. destruct Hx as [(? & ? & Hx)|Hx]; [discriminate | exact Hx].
    - destruct (s_pc s) eqn:Epc; try discriminate. destruct Hx as [(? & ? & Hx)|Hx]; [discriminate|]. destruct err; injection Hs as <-; snorm; [auto|].
      rewrite before_event by congruence. repeat split; [exact Hb | lia | right; lia].
    - destruct (s_pc s) eqn:Epc; try discriminate. destruct Hx as [(? & ? & Hx)|Hx]; [discriminate|]. destruct (s_errclosed s); [injection Hs as <-; snorm; auto|].
      destruct (length (s_errq s) <? serr_cap)%nat; [|discriminate]. injection Hs as <-. snorm. auto.
    - destruct (s_pc s) eqn:Epc; try discriminate. destruct Hx as [(? & ? & Hx)|Hx]; [discriminate|]. injection Hs as <-. snorm. auto.
    - destruct (s_pc s) eqn:Epc; try discriminate. destruct Hx as [(? & ? & Hx)|Hx]; [discriminate|]. destruct (s_queue s) as [|f q0] eqn:Eq; [discriminate|]. rewrite <- Eq in *.
      destruct (s_out s) as [c0|] eqn:Eo; [|injection Hs as <-; snorm; rewrite Eo; auto]. cbv zeta in Hs.
      destruct ((k0 <=? length (concat (s_queue s)))%nat && _) in Hs; [|discriminate]. injection Hs as <-. snorm. rewrite before_other by lia. auto.
    - destruct (s_pc s) eqn:Epc; try discriminate. destruct Hx as [(? & ? & Hx)|Hx]; [discriminate|]. destruct (s_queue s); [|discriminate]. injection Hs as <-. snorm. auto.
    - destruct (s_pc s) eqn:Epc; try discriminate. destruct (s_errclosed s); [injection Hs as <-; snorm; rewrite Epc; repeat split; eauto|].
      destruct (length (s_errq s) <? serr_cap)%nat; [|discriminate]. injection Hs as <-. snorm. auto.
    - destruct (s_pc s) eqn:Epc; try discriminate. destruct Hx as [(? & ? & Hx)|Hx]; [discriminate|]. injection Hs as <-. snorm. auto.
    - destruct (s_pc s) eqn:Epc; try discriminate. destruct Hx as [(? & ? & Hx)|Hx]; [discriminate|]. destruct (s_out s) eqn:Eo; injection Hs as <-; snorm.
      + rewrite before_event by congruence. auto.
      + rewrite Eo. auto.
    - destruct (s_pc s) eqn:Epc; try discriminate. destruct Hx as [(? & ? & Hx)|Hx]; [discriminate|]. destruct (s_completed s); injection Hs as <-; snorm; auto.
    - destruct (s_pc s) eqn:Epc; try discriminate. destruct Hx as [(? & ? & Hx)|Hx]; [discriminate|]. destruct (s_errclosed s); injection Hs as <-; snorm; auto.
    - destruct (s_errq s); [discriminate|]. injection Hs as <-. snorm. auto. }
  split; [exact Hlen|]. rewrite Hlen. rewrite sends_app. intros (pre & post & E & El). apply Hnb.
  assert (Hle : (accepted_bytes p + k <= length (concat (sends p)))%nat).
  { change (p ++ AWrite k (WErr e) :: q) with (p ++ [AWrite k (WErr e)] ++ q) in H. rewrite app_assoc in H. rewrite srun_app in H.
    destruct (srun sender_init (p ++ [AWrite k (WErr e)])) as [s1|] eqn:E1; [|discriminate]. pose proof (srun_inv _ _ E1) as I1.
    pose proof (v_bytes _ _ I1) as Hb. pose proof (v_accepted _ _ I1) as Ha. rewrite sends_app in Hb. cbn [sends flat_map] in Hb. rewrite app_nil_r in Hb.
    rewrite <- Hb, app_length, Ha, accepted_app. unfold accepted_bytes at 3. cbn. lia. }
  destruct (Nat.le_gt_cases (length pre) (length (sends p))) as [Hl|Hl].
  - exists pre, (skipn (length pre) (sends p)). split; [|exact El]. rewrite <- (firstn_skipn (length pre) (sends p)) at 1. f_equal.
    replace (firstn (length pre) (sends p)) with (firstn (length pre) (sends p ++ sends (AWrite k (WErr e) :: q))) by (rewrite firstn_app; replace (length pre - length (sends p))%nat with 0%nat by lia; rewrite firstn_O, app_nil_r; reflexivity).
    rewrite E, firstn_app, Nat.sub_diag, firstn_O, app_nil_r, firstn_all. reflexivity.
  - assert (exists x, pre = sends p ++ x) as (x & ->).
    { exists (skipn (length (sends p)) pre). rewrite <- (firstn_skipn (length (sends p)) pre) at 1. f_equal.
      replace (firstn (length (sends p)) pre) with (firstn (length (sends p)) (pre ++ post)) by (rewrite firstn_app; replace (length (sends p) - length pre)%nat with 0%nat by lia; rewrite firstn_O, app_nil_r; reflexivity).
      rewrite <- E, firstn_app, Nat.sub_diag, firstn_O, app_nil_r, firstn_all. reflexivity. }
    exists (sends p), []. split; [rewrite app_nil_r; reflexivity|]. rewrite concat_app, app_length in El. lia.
Qed.
Print Assumptions C44_failure_inside.

(** ** C45: the error channel *)
(** In order, none lost, at most one buffered: *)
Theorem C45_errors_in_order : forall acts s, srun sender_init acts = Some s ->
  s_goterr s ++ s_errq s ++ pending_error s = net_errors acts /\ (length (s_errq s) <= 1)%nat /\ (length (pending_error s) <= 1)%nat.
Proof.
  intros acts s H. destruct (srun_inv _ _ H). split; [assumption|]. split; [assumption|]. unfold pending_error. destruct (s_pc s); cbn; lia.
Qed.
Print Assumptions C45_errors_in_order.

(** It is closed at most once, after which no error is sent (no sequence of actions sends one, so
    none panics: C43_crash_iff lists the only panics). *)
Theorem C45_close : forall acts s, srun sender_init acts = Some s ->
  (s_errclosed s = true <-> In ACloseErr acts) /\
  (forall a b, acts = a ++ ACloseErr :: b -> ~ In ACloseErr a /\ ~ In APushErrConn b /\ ~ In APushErrWrite b /\ ~ In ACloseErr b /\ In AEndCall a).
Proof.
  assert (Hex : forall acts s, srun sender_init acts = Some s -> s_pc s = PExit -> forall more s', srun s more = Some s' ->
     s_pc s' = PExit /\ ~ In APushErrConn more /\ ~ In APushErrWrite more /\ ~ In ACloseErr more).
  { intros acts s H Hpc. apply (snoc_ind_run (fun more s' => s_pc s' = PExit /\ ~ In APushErrConn more /\ ~ In APushErrWrite more /\ ~ In ACloseErr more) s acts H); [cbn; tauto|].
    intros more a s1 s2 _ _ (Hp & H1 & H2 & H3) Hc Hs. rewrite !in_app_iff. unfold sstep in Hs. rewrite Hc, Hp in Hs.
    destruct a; try discriminate.
    - destruct (locked s1); [discriminate|]. injection Hs as <-. snorm. cbn. intuition congruence.
    - injection Hs as <-. destruct (s_end s1); snorm; cbn; intuition congruence.
    - destruct (s_errq s1); [discriminate|]. injection Hs as <-. snorm. cbn. intuition congruence. }
  intros acts s H. split.
  - revert s H. induction acts as [|a acts IH] using rev_ind; intros s H; [injection H as <-; cbn; intuition congruence|].
    destruct (last_step _ _ _ H) as (s0 & H0 & Hc & Hs). pose proof (srun_inv _ _ H) as I1. pose proof (srun_inv _ _ H0) as I0. specialize (IH s0 H0).
    rewrite in_app_iff, <- IH. cbn. rewrite (v_errclosed _ _ I1), (v_errclosed _ _ I0).
    unfold sstep in Hs. rewrite Hc in Hs. destruct a.
    + destruct (locked s0); [discriminate|]. injection Hs as <-. snorm. intuition congruence.
    + destruct (s_pc s0) eqn:Ep; try discriminate. injection Hs as <-. snorm. unfold flush_entry. destruct (s_out s0); intuition congruence.
    + injection Hs as <-. destruct (s_end s0); snorm; intuition congruence.
    + destruct (s_pc s0) eqn:Ep; try discriminate. destruct (s_end s0); [|discriminate]. injection Hs as <-. snorm. intuition congruence.
    + destruct (s_pc s0) eqn:Ep; try discriminate. destruct err; injection Hs as <-; snorm; intuition congruence.
    + destruct (s_pc s0) eqn:Ep; try discriminate. destruct (s_errclosed s0); [injection Hs as <-; snorm; rewrite ?Ep; intuition congruence|].
      destruct (length (s_errq s0) <? serr_cap)%nat; [|discriminate]. injection Hs as <-. snorm. destruct d; cbn; intuition congruence.
    + destruct (s_pc s0) eqn:Ep; try discriminate. injection Hs as <-. snorm. intuition congruence.
    + destruct (s_pc s0) eqn:Ep; try discriminate. destruct (s_queue s0) as [|f q0] eqn:Eq; [discriminate|]. rewrite <- Eq in *.
      destruct (s_out s0) as [c0|] eqn:Eo; [|injection Hs as <-; snorm; rewrite ?Ep; intuition congruence]. cbv zeta in Hs.
      destruct ((k <=? length (concat (s_queue s0)))%nat && _) in Hs; [|discriminate]. injection Hs as <-. snorm. destruct r; try destruct d; cbn; intuition congruence.
    + destruct (s_pc s0) eqn:Ep; try discriminate. destruct (s_queue s0); [|discriminate]. injection Hs as <-. snorm. destruct d; cbn; intuition congruence.
    + destruct (s_pc s0) eqn:Ep; try discriminate. destruct (s_errclosed s0); [injection Hs as <-; snorm; rewrite ?Ep; intuition congruence|].
      destruct (length (s_errq s0) <? serr_cap)%nat; [|discriminate]. injection Hs as <-. snorm. destruct d; cbn; intuition congruence.
    + destruct (s_pc s0) eqn:Ep; try discriminate. injection Hs as <-. snorm. unfold flush_entry. destruct (s_queue s0), (s_out s0); intuition congruence.
    + destruct (s_pc s0) eqn:Ep; try discriminate. destruct (s_out s0); injection Hs as <-; snorm; rewrite ?Ep; intuition congruence.
    + destruct (s_pc s0) eqn:Ep; try discriminate. destruct (s_completed s0); injection Hs as <-; snorm; rewrite ?Ep; intuition congruence.
    + destruct (s_pc s0) eqn:Ep; try discriminate. pose proof (v_errclosed _ _ I0) as Hec. rewrite Ep in Hec. destruct (s_errclosed s0); [exfalso; intuition congruence|].
      injection Hs as <-. snorm. intuition congruence.
    + destruct (s_errq s0); [discriminate|]. injection Hs as <-. snorm. intuition congruence.
  - intros a b ->. change (a ++ ACloseErr :: b) with (a ++ [ACloseErr] ++ b) in H. rewrite app_assoc, srun_app in H.
    destruct (srun sender_init (a ++ [ACloseErr])) as [s1|] eqn:E1; [|discriminate]. destruct (last_step _ _ _ E1) as (s0 & H0 & Hc & Hs).
    pose proof (srun_inv _ _ H0) as I0. pose proof (srun_inv _ _ E1) as I1. unfold sstep in Hs. rewrite Hc in Hs. destruct (s_pc s0) eqn:Ep; try discriminate.
    pose proof (v_errclosed _ _ I0) as Hec. rewrite Ep in Hec. destruct (s_errclosed s0) eqn:Ec; [exfalso; intuition congruence|]. injection Hs as <-.
    destruct (Hex _ _ E1 eq_refl _ _ H) as (_ & H1 & H2 & H3).
    assert (H4 : In AEndCall a) by (apply (v_end _ _ I0), (v_deferred _ _ I0); rewrite Ep; reflexivity).
    split; [|tauto].
    intro Hi. apply in_split in Hi. destruct Hi as (a1 & a2 & ->). change (a1 ++ ACloseErr :: a2) with (a1 ++ [ACloseErr] ++ a2) in H0. rewrite app_assoc, srun_app in H0.
    destruct (srun sender_init (a1 ++ [ACloseErr])) as [s2|] eqn:E2; [|discriminate]. destruct (last_step _ _ _ E2) as (s3 & H5 & Hc3 & Hs3).
    pose proof (srun_inv _ _ H5) as I3. unfold sstep in Hs3. rewrite Hc3 in Hs3. destruct (s_pc s3) eqn:Ep3; try discriminate.
    pose proof (v_errclosed _ _ I3) as Hec3. rewrite Ep3 in Hec3. destruct (s_errclosed s3) eqn:Ec3; [exfalso; intuition congruence|]. injection Hs3 as <-.
    destruct (Hex _ _ E2 eq_refl _ _ H0) as (Hq & _). congruence.
Qed.
Print Assumptions C45_close.
Example C45_nonvacuous : exists s, srun sender_init busy = Some s /\ In ACloseErr busy /\ net_errors busy = [7; 8]%nat.
Proof. eexists. split; [vm_compute; reflexivity|]. split; [vm_compute; tauto | reflexivity]. Qed.

(** ** C46: exactly when Send can block forever *)
Theorem C46_blocked_forever_iff : forall acts s f, srun sender_init acts = Some s -> s_crashed s = false ->
  ((forall more, ~ In AUserErr more -> srun s (more ++ [ASend f]) = None) <-> (exists d e, s_pc s = PErrWrite d e /\ s_errq s <> [])).
Proof.
  intros acts s f H Hc. pose proof (srun_inv _ _ H) as I0. split.
  - intro Hb. destruct (locked s) eqn:El.
    + unfold locked in El. destruct (s_pc s) eqn:Ep; try discriminate.
      * exfalso. pose proof (v_out _ _ I0) as Io. rewrite Ep in Io. destruct (s_out s) as [c|] eqn:Eo; [|congruence]. destruct (s_queue s) as [|f0 q] eqn:Eq.
        -- specialize (Hb [AWriteDone]). cbn [app srun] in Hb. unfold sstep in Hb at 1. rewrite Hc, Ep, Eq in Hb. unfold sstep in Hb. snorm. rewrite Hc in Hb.
           unfold locked in Hb. snorm. destruct d; cbn in Hb; assert (Hno : ~ (AWriteDone = AUserErr \/ False)) by (intuition congruence); (specialize (Hb Hno); discriminate).
        -- specialize (Hb [AWrite (length (concat (f0 :: q))) WOk; AWriteDone]). cbn [app srun] in Hb. unfold sstep in Hb at 1. rewrite Hc, Ep, Eq, Eo in Hb. cbv zeta in Hb.
           rewrite Nat.leb_refl, Nat.eqb_refl in Hb. cbn [andb] in Hb. rewrite consume_all in Hb. unfold sstep in Hb at 1. snorm. unfold sstep in Hb. snorm.
           unfold locked in Hb. snorm. destruct d; cbn in Hb; assert (Hno : ~ (AWrite (length (f0 ++ concat q)) WOk = AUserErr \/ AWriteDone = AUserErr \/ False)) by (intuition congruence); (specialize (Hb Hno); discriminate).
      * exists d, e. split; [reflexivity|]. intro Hq. specialize (Hb [APushErrWrite]). cbn [app srun] in Hb. unfold sstep in Hb at 1.
        assert (Hec : s_errclosed s = false) by (pose proof (v_errclosed _ _ I0) as Hx; rewrite Ep in Hx; destruct (s_errclosed s); intuition congruence).
        rewrite Hc, Ep, Hec, Hq in Hb. cbn [length Nat.ltb Nat.leb serr_cap] in Hb. unfold sstep in Hb. snorm. unfold locked in Hb. snorm.
        destruct d; cbn in Hb; assert (Hno : ~ (APushErrWrite = AUserErr \/ False)) by (intuition congruence); (specialize (Hb Hno); discriminate).
    + exfalso. specialize (Hb []). cbn [app srun] in Hb. unfold sstep in Hb. rewrite Hc, El in Hb. assert (Hno : ~ In AUserErr []) by (cbn; tauto). specialize (Hb Hno). discriminate.
  - intros (d & e & Hp & Hq) more Hm.
    assert (Hst : forall more s', srun s more = Some s' -> ~ In AUserErr more -> s_pc s' = PErrWrite d e /\ s_errq s' <> []).
    { clear more Hm. apply (snoc_ind_run (fun more s' => ~ In AUserErr more -> s_pc s' = PErrWrite d e /\ s_errq s' <> []) s acts H); [auto|].
      intros more a s1 s2 _ I1 IH Hc1 Hs Hm. rewrite in_app_iff in Hm. destruct IH as [Hp1 Hq1]; [tauto|].
      unfold sstep in Hs. rewrite Hc1 in Hs. unfold locked in Hs. rewrite Hp1 in Hs. destruct a; try discriminate.
      - injection Hs as <-. destruct (s_end s1); snorm; auto.
      - destruct (s_errclosed s1); [injection Hs as <-; snorm; auto|]. destruct (s_errq s1); [congruence|]. cbn in Hs. discriminate.
      - cbn in Hm. tauto. }
    rewrite srun_app. destruct (srun s more) as [s'|] eqn:E; [|reflexivity]. destruct (Hst _ _ E Hm) as [Hp' _]. cbn. unfold sstep. destruct (s_crashed s'); [reflexivity|].
    unfold locked. rewrite Hp'. reflexivity.
Qed.
Print Assumptions C46_blocked_forever_iff.

(** Send waits only for the lock, which the goroutine holds exactly during a write and while it
    reports the error of a write; in particular it never waits for Connect. *)
Theorem C46_enabled_iff : forall acts s f, srun sender_init acts = Some s -> s_crashed s = false ->
  (sstep s (ASend f) <> None <-> ~ exists d, s_pc s = PWrite d \/ exists e, s_pc s = PErrWrite d e).
Proof.
  intros acts s f H Hc. unfold sstep. rewrite Hc. unfold locked. destruct (s_pc s) eqn:E; split; try congruence; try (intros _ (d0 & [Hx|(e0 & Hx)]); congruence).
  - intros Hx. exfalso. apply Hx. eauto.
  - intros Hx. exfalso. apply Hx. eauto.
Qed.
Print Assumptions C46_enabled_iff.

(** Two errors the user does not read are enough. *)
Theorem C46_refuted : exists s, srun sender_init [ASend (fr (bs "x")); ATick; AConnect (Some 1%nat); APushErrConn; ATick; AConnect None; ALock; AWrite 0 (WErr 2)] = Some s /\
  s_crashed s = false /\ forall more, ~ In AUserErr more -> srun s (more ++ [ASend (fr (bs "y"))]) = None.
Proof.
  eexists. split; [vm_compute; reflexivity|]. split; [reflexivity|].
  eapply C46_blocked_forever_iff; [|reflexivity|].
  - instantiate (1 := [ASend (fr (bs "x")); ATick; AConnect (Some 1%nat); APushErrConn; ATick; AConnect None; ALock; AWrite 0 (WErr 2)]). vm_compute. reflexivity.
  - exists false, 2%nat. split; [reflexivity | discriminate].
Qed.
Print Assumptions C46_refuted.

(** ** C47: connections *)
(** A connection is opened only when none is current; writes only go to the last one opened, before
    it is closed; at most one is current. *)
Definition tidy (log : list sevent) : Prop :=
  forall l1 e l2, log = l1 ++ e :: l2 ->
    match e with
    | EOpen c => opened l1 = seq 0 c /\ closed l1 = []
    | EWrite c _ => opened l1 = seq 0 (S c) /\ closed l1 = []
    | EClose c => opened l1 = seq 0 (S c) /\ closed l1 = [] /\ l2 = []
    end.

Lemma tidy_snoc log e : tidy log -> closed log = [] ->
  match e with EOpen c => opened log = seq 0 c | EWrite c _ => opened log = seq 0 (S c) | EClose c => opened log = seq 0 (S c) end -> tidy (log ++ [e]).
Proof.
  intros Ht Hc He l1 x l2 E. destruct l2 as [|y l2 _] using rev_ind.
  - apply app_inj_tail in E. destruct E as [<- <-]. destruct e; auto.
  - change (x :: l2 ++ [y]) with ((x :: l2) ++ [y]) in E. rewrite app_assoc in E. apply app_inj_tail in E. destruct E as [E _]. specialize (Ht _ _ _ E).
    destruct x; auto. destruct Ht as (_ & _ & ->). exfalso. rewrite E, closed_app in Hc. cbn in Hc. apply app_eq_nil in Hc. destruct Hc; discriminate.
Qed.

Theorem C47_connections : forall acts s, srun sender_init acts = Some s ->
  tidy (s_log s) /\ opened (s_log s) = seq 0 (connects acts) /\ (connects acts <= S (lost acts))%nat /\ (lost acts <= connects acts)%nat /\
  (forall s', sstep s (AConnect None) = Some s' -> connects acts = lost acts).
Proof.
  intros acts s H. pose proof (srun_inv _ _ H) as I0. split; [|split; [rewrite <- (v_next _ _ I0); apply (v_opened _ _ I0)|]].
  - clear I0. revert s H. induction acts as [|a acts IH] using rev_ind; intros s H; [injection H as <-; intros [|? ?] ? ? E; discriminate|].
    destruct (last_step _ _ _ H) as (s0 & H0 & Hc & Hs). specialize (IH s0 H0). pose proof (srun_inv _ _ H0) as I0. pose proof (v_opened _ _ I0) as Iop. pose proof (v_closed _ _ I0) as Icl.
    unfold sstep in Hs. rewrite Hc in Hs. destruct a.
    + destruct (locked s0); [discriminate|]. injection Hs as <-. exact IH.
    + destruct (s_pc s0); try discriminate. injection Hs as <-. exact IH.
    + injection Hs as <-. destruct (s_end s0); exact IH.
    + destruct (s_pc s0); try discriminate. destruct (s_end s0); [|discriminate]. injection Hs as <-. exact IH.
    + destruct (s_pc s0) eqn:Ep; try discriminate. destruct err; injection Hs as <-; [exact IH|]. snorm. apply tidy_snoc; assumption.
    + destruct (s_pc s0); try discriminate. destruct (s_errclosed s0); [injection Hs as <-; exact IH|]. destruct (length (s_errq s0) <? serr_cap)%nat; [|discriminate]. injection Hs as <-. exact IH.
    + destruct (s_pc s0); try discriminate. injection Hs as <-. exact IH.
    + destruct (s_pc s0) eqn:Ep; try discriminate. destruct (s_queue s0) as [|f q0] eqn:Eq; [discriminate|]. rewrite <- Eq in *.
      destruct (s_out s0) as [c0|] eqn:Eo; [|injection Hs as <-; exact IH]. cbv zeta in Hs.
      destruct ((k <=? length (concat (s_queue s0)))%nat && _) in Hs; [|discriminate]. injection Hs as <-. snorm. apply tidy_snoc; try assumption. rewrite Iop, (v_cur _ _ I0 c0 Eo). reflexivity.
    + destruct (s_pc s0); try discriminate. destruct (s_queue s0); [|discriminate]. injection Hs as <-. exact IH.
    + destruct (s_pc s0); try discriminate. destruct (s_errclosed s0); [injection Hs as <-; exact IH|]. destruct (length (s_errq s0) <? serr_cap)%nat; [|discriminate]. injection Hs as <-. exact IH.
    + destruct (s_pc s0); try discriminate. injection Hs as <-. exact IH.
    + destruct (s_pc s0) eqn:Ep; try discriminate. destruct (s_out s0) as [c0|] eqn:Eo; injection Hs as <-; [|exact IH]. snorm. apply tidy_snoc; try assumption. rewrite Iop, (v_cur _ _ I0 c0 Eo). reflexivity.
    + destruct (s_pc s0); try discriminate. destruct (s_completed s0); injection Hs as <-; exact IH.
    + destruct (s_pc s0); try discriminate. destruct (s_errclosed s0); injection Hs as <-; exact IH.
    + destruct (s_errq s0); [discriminate|]. injection Hs as <-. exact IH.
  - pose proof (v_lost _ _ I0) as Hl. split; [destruct (s_out s); lia|]. split; [destruct (s_out s); lia|].
    intros s' Hs. unfold sstep in Hs. destruct (s_crashed s); [discriminate|]. destruct (s_pc s) eqn:Ep; try discriminate. pose proof (v_out _ _ I0) as Io. rewrite Ep in Io. rewrite Io in Hl. lia.
Qed.
Print Assumptions C47_connections.

(** When End returns, exactly the last connection opened has been closed: the connections given up
    after a write error, one per error, never are. *)
Theorem C47_released_iff : forall acts s, srun sender_init acts = Some s -> s_completed s = true ->
  opened (s_log s) = seq 0 (S (lost acts)) /\ closed (s_log s) = [lost acts] /\
  ((forall c, In c (opened (s_log s)) -> In c (closed (s_log s))) <-> lost acts = 0%nat).
Proof.
  intros acts s H Hc. pose proof (srun_inv _ _ H) as I0. pose proof (v_lost _ _ I0) as Hl. apply (v_completed _ _ I0) in Hc.
  assert (Ho : s_out s <> None) by (pose proof (v_out _ _ I0) as Io; destruct Hc as [Hc|Hc]; rewrite Hc in Io; exact Io).
  destruct (s_out s); [|congruence]. rewrite (v_opened _ _ I0). pose proof (v_closed _ _ I0) as Hcl. rewrite (v_next _ _ I0) in *. replace (connects acts) with (S (lost acts)) in * by lia.
  assert (Hcl' : closed (s_log s) = [lost acts]) by (destruct Hc as [Hc|Hc]; rewrite Hc in Hcl; exact Hcl).
  split; [reflexivity|]. split; [exact Hcl'|]. rewrite Hcl'. split.
  - intro Hx. destruct (lost acts) as [|n0]; [reflexivity|]. specialize (Hx 0%nat). cbn in Hx. destruct Hx; [auto | discriminate | contradiction].
  - intros Hx c Hi. rewrite Hx in *. cbn in *. tauto.
Qed.
Print Assumptions C47_released_iff.

Theorem C47_leak_refuted : exists s, srun sender_init busy = Some s /\ s_completed s = true /\ opened (s_log s) = [0; 1]%nat /\ closed (s_log s) = [1]%nat.
Proof. vm_compute. eexists. repeat split. Qed.
Print Assumptions C47_leak_refuted.

(** ** C48: after End *)
(** From the moment the goroutine has left its last flush, nothing more is ever written; Send still
    succeeds (returns nil). *)
Theorem C48_send_after_end_is_lost : forall acts s, srun sender_init acts = Some s -> after_drain (s_pc s) = true ->
  (forall more s', srun s more = Some s' -> written (s_log s') = written (s_log s) /\ s_queue s' = s_queue s ++ sends more) /\
  (s_crashed s = false -> forall f, sstep s (ASend f) <> None).
Proof.
  intros acts s H Hd. split.
  - assert (Hi : forall more s', srun s more = Some s' -> after_drain (s_pc s') = true /\ written (s_log s') = written (s_log s) /\ s_queue s' = s_queue s ++ sends more).
    { apply (snoc_ind_run (fun more s' => after_drain (s_pc s') = true /\ written (s_log s') = written (s_log s) /\ s_queue s' = s_queue s ++ sends more) s acts H).
      - cbn. rewrite app_nil_r. auto.
      - intros more a s1 s2 _ _ (Hp & Hw & Hq) Hc Hs. rewrite sends_app. unfold sstep in Hs. rewrite Hc in Hs. destruct a; cbn [sends flat_map app]; rewrite ?app_nil_r.
        + destruct (locked s1); [discriminate|]. injection Hs as <-. snorm. rewrite Hq, app_assoc. auto.
        + destruct (s_pc s1); discriminate.
        + injection Hs as <-. destruct (s_end s1); snorm; auto.
        + destruct (s_pc s1); discriminate.
        + destruct (s_pc s1); discriminate.
        + destruct (s_pc s1); discriminate.
        + destruct (s_pc s1); discriminate.
        + destruct (s_pc s1); discriminate.
        + destruct (s_pc s1); discriminate.
        + destruct (s_pc s1); discriminate.
        + destruct (s_pc s1); discriminate.
        + destruct (s_pc s1) eqn:Ep; try discriminate. destruct (s_out s1); injection Hs as <-; snorm; rewrite ?Ep; auto.
          rewrite written_app. unfold written at 2. cbn. rewrite app_nil_r. auto.
        + destruct (s_pc s1) eqn:Ep; try discriminate. destruct (s_completed s1); injection Hs as <-; snorm; rewrite ?Ep; auto.
        + destruct (s_pc s1) eqn:Ep; try discriminate. destruct (s_errclosed s1); injection Hs as <-; snorm; rewrite ?Ep; auto.
        + destruct (s_errq s1); [discriminate|]. injection Hs as <-. snorm. auto. }
    intros more s' H'. apply Hi. exact H'.
  - intros Hc f. unfold sstep. rewrite Hc. unfold locked. destruct (s_pc s); discriminate.
Qed.
Print Assumptions C48_send_after_end_is_lost.

(** A second End always crashes. *)
Theorem C48_second_end_crashes : forall acts s, srun sender_init acts = Some s -> s_crashed s = false -> In AEndCall acts ->
  exists s', sstep s AEndCall = Some s' /\ s_crashed s' = true.
Proof.
  intros acts s H Hc He. pose proof (srun_inv _ _ H) as I0. apply (v_end _ _ I0) in He. unfold sstep. rewrite Hc, He. eexists. split; reflexivity.
Qed.
Print Assumptions C48_second_end_crashes.

Example C48_nonvacuous : exists s, srun sender_init busy = Some s /\ after_drain (s_pc s) = true /\ s_completed s = true /\ s_crashed s = false /\
  exists s', srun s [ASend (fr (bs "late"))] = Some s' /\ s_queue s' = [fr (bs "late")].
Proof. eexists. split; [vm_compute; reflexivity|]. repeat split. eexists. split; [vm_compute; reflexivity | reflexivity]. Qed.

(** ** C49: what Send does with a message *)
Theorem C49_send : forall uni t m,
  match send uni (Some t) m with
  | Val (inl e) => message_marshal uni m = Val (inl e)                              (* the error, nothing queued *)
  | Val (inr frame) => exists enc, message_marshal uni m = Val (inr enc) /\ frame = encode t enc (* nil, one frame *)
  | Panic => message_marshal uni m = Panic
  | NoFuel => message_marshal uni m = NoFuel
  end.
Proof. intros uni t m. unfold send. destruct (message_marshal uni m) as [[e|b]| |]; eauto. Qed.
Print Assumptions C49_send.

(** Over a whole execution: if the user sends the messages [ms], the queued frames are those of the
    messages that encode, in order, and these are exactly the bytes on the wire and in the queue. *)
Definition encodings (uni : N -> bool) (ms : list message) : list bytes :=
  flat_map (fun m => match message_marshal uni m with Val (inr enc) => [enc] | _ => [] end) ms.
Definition critical_sections (uni : N -> bool) (t : transport) (ms : list message) : list bytes :=
  flat_map (fun m => match send uni (Some t) m with Val (inr f) => [f] | _ => [] end) ms.
Theorem C49_stream : forall uni t ms acts s, srun sender_init acts = Some s -> sends acts = critical_sections uni t ms ->
  written (s_log s) ++ concat (s_queue s) = concat (map (encode t) (encodings uni ms)).
Proof.
  intros uni t ms acts s H Hs. rewrite (v_bytes _ _ (srun_inv _ _ H)), Hs. f_equal. clear. unfold critical_sections, encodings. induction ms as [|m ms IH]; [reflexivity|].
  cbn [flat_map]. rewrite map_app, IH. unfold send. destruct (message_marshal uni m) as [[e|b]| |]; reflexivity.
Qed.
Print Assumptions C49_stream.

(** Without transport (NewSender does not check) the first Send of a message that encodes panics. *)
Theorem C49_nil_transport : forall uni m enc, message_marshal uni m = Val (inr enc) -> send uni None m = Panic.
Proof. intros uni m enc H. unfold send. rewrite H. reflexivity. Qed.
Print Assumptions C49_nil_transport.

(** LSender.v -- the invariants of a Sender over every execution. *)
From Verif Require Import Base BaseFacts MTransport MSender.

(** ** specification vocabulary: histories *)

(** The frames of the Sends so far, in the order they were queued *)
Definition sends (acts : list saction) : list bytes := flat_map (fun a => match a with ASend f => [f] | _ => [] end) acts.
(** The errors of Connect and of writes so far *)
Definition net_errors (acts : list saction) : list nat :=
  flat_map (fun a => match a with AConnect (Some e) => [e] | AWrite _ (WErr e) => [e] | _ => [] end) acts.
(** How many bytes connections have accepted so far *)
Definition accepted_bytes (acts : list saction) : nat := list_sum (map (fun a => match a with AWrite k _ => k | _ => 0%nat end) acts).
(** Successful Connects, and write errors reported (each gives up a connection) *)
Definition connects (acts : list saction) : nat := length (filter (fun a => match a with AConnect None => true | _ => false end) acts).
Definition lost (acts : list saction) : nat := length (filter (fun a => match a with APushErrWrite => true | _ => false end) acts).

(** All bytes accepted, and those of one connection, in order *)
Definition written (log : list sevent) : bytes := concat (map (fun e => match e with EWrite _ d => d | _ => [] end) log).
Definition on (c : nat) (log : list sevent) : bytes := concat (map (fun e => match e with EWrite c' d => if (c' =? c)%nat then d else [] | _ => [] end) log).
Definition opened (log : list sevent) : list nat := flat_map (fun e => match e with EOpen c => [c] | _ => [] end) log.
Definition closed (log : list sevent) : list nat := flat_map (fun e => match e with EClose c => [c] | _ => [] end) log.

(** the error the goroutine is about to send *)
Definition pending_error (s : sstate) : list nat := match s_pc s with PErrConnect _ e | PErrWrite _ e => [e] | _ => [] end.
(** after the deferred loop *)
Definition after_drain (pc : spc) : bool := match pc with PClose | PCloseDone | PCloseErr | PExit => true | _ => false end.
Definition in_deferred (pc : spc) : bool :=
  match pc with PConnect d | PErrConnect d _ | PLock d | PWrite d | PErrWrite d _ => d | PSelect => false | _ => true end.

(** ** consume *)
Lemma concat_app_one {A} (l : list (list A)) x : concat (l ++ [x]) = concat l ++ x.
Proof. rewrite concat_app. cbn. rewrite app_nil_r. reflexivity. Qed.

Lemma consume_concat q : forall n, (n <= length (concat q))%nat -> concat (consume n q) = skipn n (concat q).
Proof.
  induction q as [|b q IH]; intros n H; cbn [consume concat]; [rewrite skipn_nil; reflexivity|].
  cbn [concat] in H. rewrite app_length in H. destruct (Nat.ltb_spec n (length b)).
  - cbn [concat]. rewrite skipn_app. replace (n - length b)%nat with 0%nat by lia. reflexivity.
  - rewrite IH by lia. rewrite skipn_app, (skipn_all2 b) by lia. reflexivity.
Qed.

Lemma consume_all q : consume (length (concat q)) q = [].
Proof.
  induction q as [|b q IH]; [reflexivity|]. cbn [consume concat]. rewrite app_length.
  destruct (Nat.ltb_spec (length b + length (concat q)) (length b)); [lia|]. replace (length b + length (concat q) - length b)%nat with (length (concat q)) by lia. exact IH.
Qed.

Lemma written_app a b : written (a ++ b) = written a ++ written b.
Proof. unfold written. rewrite map_app, concat_app. reflexivity. Qed.
Lemma on_app c a b : on c (a ++ b) = on c a ++ on c b.
Proof. unfold on. rewrite map_app, concat_app. reflexivity. Qed.
Lemma sends_app a b : sends (a ++ b) = sends a ++ sends b.
Proof. apply flat_map_app. Qed.
Lemma net_errors_app a b : net_errors (a ++ b) = net_errors a ++ net_errors b.
Proof. apply flat_map_app. Qed.
Lemma opened_app a b : opened (a ++ b) = opened a ++ opened b.
Proof. apply flat_map_app. Qed.
Lemma closed_app a b : closed (a ++ b) = closed a ++ closed b.
Proof. apply flat_map_app. Qed.
Lemma connects_app a b : connects (a ++ b) = (connects a + connects b)%nat.
Proof. unfold connects. rewrite filter_app, app_length. reflexivity. Qed.
Lemma lost_app a b : lost (a ++ b) = (lost a + lost b)%nat.
Proof. unfold lost. rewrite filter_app, app_length. reflexivity. Qed.
Lemma accepted_app a b : accepted_bytes (a ++ b) = (accepted_bytes a + accepted_bytes b)%nat.
Proof. unfold accepted_bytes. rewrite map_app, list_sum_app. reflexivity. Qed.

(** ** the invariant *)
Record sinv (acts : list saction) (s : sstate) : Prop := {
  v_bytes : written (s_log s) ++ concat (s_queue s) = concat (sends acts);
  v_accepted : length (written (s_log s)) = accepted_bytes acts;
  v_end : s_end s = true <-> In AEndCall acts;
  v_deferred : in_deferred (s_pc s) = true -> s_end s = true;
  v_out : match s_pc s with
          | PConnect _ | PErrConnect _ _ => s_out s = None
          | PLock _ | PWrite _ | PErrWrite _ _ | PCloseDone | PCloseErr | PExit => s_out s <> None
          | _ => True end;
  v_cur : forall c, s_out s = Some c -> s_next s = S c;
  v_completed : s_completed s = true <-> (s_pc s = PCloseErr \/ s_pc s = PExit);
  v_errclosed : s_errclosed s = true <-> s_pc s = PExit;
  v_errq : (length (s_errq s) <= 1)%nat;
  v_errs : s_goterr s ++ s_errq s ++ pending_error s = net_errors acts;
  v_next : s_next s = connects acts;
  v_lost : connects acts = (lost acts + match s_out s with Some _ => 1 | None => 0 end)%nat;
  v_opened : opened (s_log s) = seq 0 (s_next s);
  v_closed : closed (s_log s) = match s_pc s with PCloseDone | PCloseErr | PExit => [pred (s_next s)] | _ => [] end;
  v_on : forall c, (s_next s <= c)%nat -> on c (s_log s) = [];
  v_order : written (s_log s) = concat (map (fun c => on c (s_log s)) (seq 0 (s_next s)));
  v_drain : after_drain (s_pc s) = true -> exists p q, acts = p ++ ADrain :: q /\ In AEndCall p /\ written (s_log s) = concat (sends p) }.

Lemma order_write n log c d : n = S c ->
  written log = concat (map (fun c => on c log) (seq 0 n)) ->
  written (log ++ [EWrite c d]) = concat (map (fun c' => on c' (log ++ [EWrite c d])) (seq 0 n)).
Proof.
  intros -> H. rewrite written_app, H. rewrite seq_S, !map_app, !concat_app. cbn [Nat.add map concat]. rewrite !app_nil_r, <- app_assoc. f_equal.
  - f_equal. apply map_ext_in. intros a Ha. apply in_seq in Ha. rewrite on_app. unfold on at 3. cbn. destruct (Nat.eqb_spec c a); [lia|]. cbn. rewrite app_nil_r. reflexivity.
  - rewrite on_app. unfold on at 3. cbn. rewrite Nat.eqb_refl. unfold written. cbn. rewrite !app_nil_r. reflexivity.
Qed.

Lemma order_open n log : (forall c, (n <= c)%nat -> on c log = []) ->
  written log = concat (map (fun c => on c log) (seq 0 n)) ->
  written (log ++ [EOpen n]) = concat (map (fun c => on c (log ++ [EOpen n])) (seq 0 (S n))).
Proof.
  intros Hn H. rewrite written_app, H. rewrite seq_S, !map_app, !concat_app. cbn [Nat.add map concat].
  assert (E : forall c, on c (log ++ [EOpen n]) = on c log) by (intro c; rewrite on_app; unfold on at 2; cbn; apply app_nil_r).
  rewrite E, (Hn n) by lia. unfold written. cbn. rewrite !app_nil_r. f_equal. apply map_ext. intro c. symmetry. apply E.
Qed.

Lemma order_close n log c0 : 
  written log = concat (map (fun c => on c log) (seq 0 n)) ->
  written (log ++ [EClose c0]) = concat (map (fun c => on c (log ++ [EClose c0])) (seq 0 n)).
Proof.
  intros H. rewrite written_app, H. unfold written at 1. cbn. rewrite app_nil_r. f_equal. apply map_ext. intro c. rewrite on_app. unfold on at 3. cbn. rewrite app_nil_r. reflexivity.
Qed.

Lemma srun_app a : forall s b, srun s (a ++ b) = match srun s a with Some s' => srun s' b | None => None end.
Proof. induction a as [|x a IH]; intros s b; cbn; [reflexivity|]. destruct (sstep s x); auto. Qed.

Lemma end_snoc acts a (b : bool) : (b = true <-> In AEndCall acts) -> a <> AEndCall -> (b = true <-> In AEndCall (acts ++ [a])).
Proof. intros H Ha. rewrite in_app_iff. cbn. intuition congruence. Qed.

Lemma drain_snoc acts a (w : bytes) : (exists p q, acts = p ++ ADrain :: q /\ In AEndCall p /\ w = concat (sends p)) ->
  exists p q, acts ++ [a] = p ++ ADrain :: q /\ In AEndCall p /\ w = concat (sends p).
Proof. intros (p & q & -> & Hp & Hw). exists p, (q ++ [a]). rewrite <- app_assoc. auto. Qed.

Ltac snorm := cbn [set_pc scrash s_pc s_queue s_out s_end s_completed s_errq s_errclosed s_goterr s_log s_next s_crashed pending_error after_drain in_deferred] in *.
Ltac hist := rewrite ?sends_app, ?net_errors_app, ?accepted_app, ?connects_app, ?lost_app; cbn [sends net_errors flat_map accepted_bytes map list_sum connects lost filter length app]; rewrite ?app_nil_r, ?Nat.add_0_r.

Ltac fin0 := try assumption; try congruence; try (apply end_snoc; [assumption | congruence]); try (repeat match goal with H : _ = net_errors _ |- _ => rewrite ?app_nil_r in H end; assumption).
Ltac fin := fin0; try (intuition congruence).

Lemma sstep_inv acts s a s' : sinv acts s -> sstep s a = Some s' -> sinv (acts ++ [a]) s'.
Proof.
  intros I Hs. unfold sstep in Hs. destruct (s_crashed s) eqn:Ecr; [discriminate|].
  destruct I as [Ib Ia Ie Idf Io Ic Icp Iec Ieq Ierr In Il Iop Icl Ion Ior Idr].
  destruct a.
  - (* Send *)
    destruct (locked s) eqn:El; [discriminate|]. injection Hs as <-.
    constructor; snorm; hist; fin0.
    + rewrite concat_app_one, app_assoc, Ib, concat_app_one. reflexivity.
    + intro H. apply drain_snoc. auto.
  - (* tick *)
    destruct (s_pc s) eqn:Epc; try discriminate. injection Hs as <-. unfold flush_entry.
    destruct (s_out s) eqn:Eo; constructor; snorm; unfold pending_error in *; snorm; rewrite ?Epc in *; hist; rewrite ?Eo in *; fin.
  - (* End *)
    destruct (s_end s) eqn:Ee; injection Hs as <-; constructor; snorm; unfold pending_error in *; snorm; hist; rewrite ?Ee in *; fin.
    + rewrite in_app_iff. cbn. tauto.
    + intro H. apply drain_snoc. auto.
    + rewrite in_app_iff. cbn. tauto.
    + intro H. apply drain_snoc. auto.
  - (* select sees End *)
    destruct (s_pc s) eqn:Epc; try discriminate. destruct (s_end s) eqn:Ee; [|discriminate]. injection Hs as <-.
    constructor; snorm; unfold pending_error in *; snorm; rewrite ?Epc in *; hist; rewrite ?Ee in *; fin.
  - (* Connect *)
    destruct (s_pc s) eqn:Epc; try discriminate. destruct err as [e|]; injection Hs as <-.
    + constructor; snorm; unfold pending_error in *; snorm; rewrite ?Epc in *; hist; fin.
      * rewrite <- Ierr, app_nil_r, <- app_assoc. reflexivity.
    + constructor; snorm; unfold pending_error in *; snorm; rewrite ?Epc in *; hist; fin.
      * rewrite written_app. unfold written at 2. cbn. rewrite app_nil_r. exact Ib.
      * rewrite written_app. unfold written at 2. cbn. rewrite app_nil_r. exact Ia.
      * rewrite <- In. lia.
      * rewrite Il, Io. lia.
      * rewrite opened_app, Iop, seq_S. reflexivity.
      * rewrite closed_app, Icl. reflexivity.
      * intros c Hc. rewrite on_app, Ion by lia. reflexivity.
      * apply order_open; assumption.
  - (* error of Connect sent *)
    destruct (s_pc s) eqn:Epc; try discriminate. destruct (s_errclosed s) eqn:Eec.
    { injection Hs as <-. exfalso. destruct Iec as [Iec _]. specialize (Iec eq_refl). discriminate. }
    destruct (Nat.ltb_spec (length (s_errq s)) serr_cap) as [Hlt|]; [|discriminate]. injection Hs as <-. unfold serr_cap in Hlt.
    constructor; snorm; unfold pending_error in *; snorm; rewrite ?Epc in *; hist; fin0.
    + destruct d; cbn; auto; discriminate.
    + destruct d; cbn; auto.
    + destruct d; cbn; intuition congruence.
    + rewrite ?Eec. destruct d; cbn; intuition congruence.
    + rewrite app_length. cbn. lia.
    + rewrite <- Ierr. destruct d; cbn; rewrite app_nil_r; reflexivity.
    + destruct d; cbn; exact Icl.
    + destruct d; cbn; discriminate.
  - (* lock *)
    destruct (s_pc s) eqn:Epc; try discriminate. injection Hs as <-.
    constructor; snorm; unfold pending_error in *; snorm; rewrite ?Epc in *; hist; fin.
  - (* write *)
    destruct (s_pc s) eqn:Epc; try discriminate. destruct (s_queue s) as [|f q] eqn:Eq; [discriminate|].
    destruct (s_out s) as [c|] eqn:Eo; [|congruence]. cbv zeta in Hs. rewrite <- Eq in Hs.
    destruct (Nat.leb_spec k (length (concat (s_queue s)))) as [Hk|]; [|discriminate]. cbn [andb] in Hs.
    assert (Hs' : s' = {| s_pc := match r with WOk => PWrite d | WNoBufs => flush_return d | WErr e => PErrWrite d e end;
                            s_queue := consume k (s_queue s); s_out := Some c; s_end := s_end s; s_completed := s_completed s; s_errq := s_errq s;
                            s_errclosed := s_errclosed s; s_goterr := s_goterr s; s_log := s_log s ++ [EWrite c (firstn k (concat (s_queue s)))]; s_next := s_next s; s_crashed := false |}).
    { destruct r; [destruct (k =? length (concat (s_queue s)))%nat|..]; congruence. }
    clear Hs. subst s'.
    assert (Hc : s_next s = S c) by (apply Ic; reflexivity).
    rewrite <- Eq in *. constructor; snorm; unfold pending_error in *; snorm; rewrite ?Epc in *; hist; fin0.
    + rewrite written_app. unfold written at 2. cbn [map concat]. rewrite app_nil_r, consume_concat by assumption. rewrite <- app_assoc, firstn_skipn. exact Ib.
    + rewrite written_app, app_length, Ia. unfold written. cbn [map concat]. rewrite app_nil_r, firstn_length_le by assumption. unfold accepted_bytes. cbn. lia.
    + destruct r; cbn; auto. unfold flush_return. destruct d; cbn; auto; discriminate.
    + destruct r; [| destruct d; cbn|]; auto; congruence.
    + destruct r; [| destruct d; cbn|]; intuition congruence.
    + destruct r; [| destruct d; cbn|]; intuition congruence.
    + destruct r as [| |e]; [| destruct d; cbn|]; rewrite ?app_nil_r in *; fin0. rewrite <- Ierr, <- app_assoc. reflexivity.
    + rewrite opened_app. cbn. rewrite app_nil_r. exact Iop.
    + rewrite closed_app, Icl. destruct r; [| destruct d; cbn|]; reflexivity.
    + intros c' Hc'. rewrite on_app, Ion by assumption. unfold on. cbn. destruct (Nat.eqb_spec c c'); [lia | reflexivity].
    + apply order_write; assumption.
    + destruct r; [| destruct d; cbn|]; discriminate.
  - (* queue empty *)
    destruct (s_pc s) eqn:Epc; try discriminate. destruct (s_queue s) as [|f q] eqn:Eq; [|discriminate]. injection Hs as <-.
    constructor; snorm; unfold pending_error in *; snorm; rewrite ?Epc in *; hist; rewrite ?Eq in *; fin0.
    + destruct d; cbn; auto; discriminate.
    + destruct d; cbn; auto.
    + destruct d; cbn; intuition congruence.
    + destruct d; cbn; intuition congruence.
    + destruct d; cbn; exact Ierr.
    + destruct d; cbn; exact Icl.
    + destruct d; cbn; discriminate.
  - (* error of a write sent *)
    destruct (s_pc s) eqn:Epc; try discriminate. destruct (s_errclosed s) eqn:Eec.
    { injection Hs as <-. exfalso. destruct Iec as [Iec _]. specialize (Iec eq_refl). discriminate. }
    destruct (Nat.ltb_spec (length (s_errq s)) serr_cap) as [Hlt|]; [|discriminate]. injection Hs as <-. unfold serr_cap in Hlt.
    constructor; snorm; unfold pending_error in *; snorm; rewrite ?Epc in *; hist; fin0.
    + destruct d; cbn; auto; discriminate.
    + destruct d; cbn; auto.
    + destruct d; cbn; intuition congruence.
    + rewrite ?Eec. destruct d; cbn; intuition congruence.
    + rewrite app_length. cbn. lia.
    + rewrite <- Ierr. destruct d; cbn; rewrite app_nil_r; reflexivity.
    + rewrite Il. destruct (s_out s); [lia | congruence].
    + destruct d; cbn; exact Icl.
    + destruct d; cbn; discriminate.
  - (* the test of the deferred loop *)
    destruct (s_pc s) eqn:Epc; try discriminate. injection Hs as <-. destruct (s_queue s) as [|f q] eqn:Eq.
    + constructor; snorm; unfold pending_error in *; snorm; rewrite ?Epc in *; hist; rewrite ?Eq in *; fin.
      * intros _. exists acts, []. split; [reflexivity|]. split; [apply Ie, Idf; reflexivity|]. cbn in Ib. rewrite app_nil_r in Ib. exact Ib.
    + unfold flush_entry. destruct (s_out s) eqn:Eo; constructor; snorm; unfold pending_error in *; snorm; rewrite ?Epc in *; hist; rewrite ?Eq, ?Eo in *; fin.
  - (* output.Close *)
    destruct (s_pc s) eqn:Epc; try discriminate. destruct (s_out s) as [c|] eqn:Eo; injection Hs as <-.
    + constructor; snorm; unfold pending_error in *; snorm; rewrite ?Epc in *; hist; rewrite ?Eo in *; fin.
      * rewrite written_app. unfold written at 2. cbn. rewrite app_nil_r. exact Ib.
      * rewrite written_app. unfold written at 2. cbn. rewrite app_nil_r. exact Ia.
      * rewrite opened_app. cbn. rewrite app_nil_r. exact Iop.
      * rewrite closed_app, Icl, (Ic c eq_refl). reflexivity.
      * intros c' Hc'. rewrite on_app, Ion by assumption. reflexivity.
      * apply order_close; assumption.
      * intros _. apply drain_snoc. rewrite written_app. unfold written at 2. cbn. setoid_rewrite app_nil_r. auto.
    + constructor; snorm; unfold pending_error in *; snorm; rewrite ?Epc in *; hist; rewrite ?Eo in *; fin.
      * intros _. apply drain_snoc. auto.
  - (* close(endCompleted) *)
    destruct (s_pc s) eqn:Epc; try discriminate. destruct (s_completed s) eqn:Ecp.
    { exfalso. destruct Icp as [Icp _]. destruct (Icp eq_refl); discriminate. }
    injection Hs as <-. constructor; snorm; unfold pending_error in *; snorm; rewrite ?Epc in *; hist; fin.
    + intros _. apply drain_snoc. auto.
  - (* close(errChan) *)
    destruct (s_pc s) eqn:Epc; try discriminate. destruct (s_errclosed s) eqn:Eec.
    { exfalso. destruct Iec as [Iec _]. specialize (Iec eq_refl). discriminate. }
    injection Hs as <-. constructor; snorm; unfold pending_error in *; snorm; rewrite ?Epc in *; hist; fin.
    + intros _. apply drain_snoc. auto.
  - (* the user reads an error *)
    destruct (s_errq s) as [|e q] eqn:Eq; [discriminate|]. injection Hs as <-.
    constructor; snorm; unfold pending_error in *; snorm; hist; fin0.
    + cbn in Ieq. lia.
    + rewrite <- app_assoc. exact Ierr.
    + intro H. apply drain_snoc. auto.
Qed.

Lemma sinit_inv : sinv [] sender_init.
Proof. constructor; cbn; try reflexivity; try tauto; try lia; try (intuition congruence). Qed.

Lemma srun_inv acts s : srun sender_init acts = Some s -> sinv acts s.
Proof.
  revert s. induction acts as [|a acts IH] using rev_ind; intros s H.
  - injection H as <-. apply sinit_inv.
  - rewrite srun_app in H. destruct (srun sender_init acts) as [s0|]; [|discriminate]. cbn in H.
    destruct (sstep s0 a) eqn:E; [|discriminate]. injection H as <-. eapply sstep_inv; eauto.
Qed.

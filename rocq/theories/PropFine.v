(** PropFine.v -- C95: a Sender used by any number of goroutines, at the granularity of memory accesses. *)
From Verif Require Import Base BaseFacts MTransport MSData MMessage MSender MSenderFine LSender PropSender.

(** ** vocabulary *)
(** The frames in the order in which the calls of Send stored them, each with its goroutine ([cur i]:
    the frame of the current call of goroutine i) *)
Fixpoint stored (cur : nat -> bytes) (acts : list faction) : list (nat * bytes) :=
  match acts with
  | [] => []
  | FCall i f :: more => stored (fun j => if (j =? i)%nat then f else cur j) more
  | FPut i :: more => (i, cur i) :: stored cur more
  | _ :: more => stored cur more
  end.
(** The frames that goroutine i has given to Send, in order *)
Definition calls (i : nat) (acts : list faction) : list bytes := flat_map (fun a => match a with FCall j f => if (j =? i)%nat then [f] else [] | _ => [] end) acts.
(** of those stored, the ones of goroutine i *)
Definition stored_by (i : nat) (l : list (nat * bytes)) : list bytes := map snd (filter (fun x => (fst x =? i)%nat) l).
(** the frame of a call of Send that has not stored it yet *)
Definition in_send (u : upc) : list bytes := match u with UWant f | UHeld f | URead f _ => [f] | _ => [] end.

(** Two goroutines are about to access the same memory, one of them writing: a data race. *)
Definition race (s : fstate) : Prop :=
  (exists i loc w w', user_access (f_users s i) = Some (loc, w) /\ go_access (f_pc s) = Some (loc, w') /\ (w || w' = true)) \/
  (exists i j loc w w', i <> j /\ user_access (f_users s i) = Some (loc, w) /\ user_access (f_users s j) = Some (loc, w') /\ (w || w' = true)).

(** The state of MSender.v that a state stands for *)
Definition abs_pc (out : option nat) (pc : fpc) : spc :=
  match pc with
  | FSelect => PSelect | FEntry d => match out with None => PConnect d | Some _ => PLock d end
  | FConnect d => PConnect d | FErrConnect d e => PErrConnect d e | FLock d => PLock d | FLoop d | FWrite d _ => PWrite d
  | FStore d _ _ r => match r with WOk => PWrite d | WNoBufs => flush_return d | WErr e => PErrWrite d e end
  | FErrWrite d e => PErrWrite d e | FForget d | FCap d | FUnlock d => flush_return d
  | FDrain => PDrain | FClose => PClose | FCloseDone => PCloseDone | FCloseErr => PCloseErr | FExit => PExit
  end.
Definition abs_queue (s : fstate) : list bytes := match f_pc s with FStore _ q k _ => consume k q | _ => f_queue s end.
Definition abs_out (s : fstate) : option nat := match f_pc s with FForget _ => None | _ => f_out s end.
Definition abs (s : fstate) : sstate :=
  {| s_pc := abs_pc (f_out s) (f_pc s); s_queue := abs_queue s; s_out := abs_out s; s_end := f_end s; s_completed := f_completed s; s_errq := f_errq s;
     s_errclosed := f_errclosed s; s_goterr := f_goterr s; s_log := f_log s; s_next := f_next s; s_crashed := f_crashed s |}.

(** ** the invariant *)
Definition go_holds (pc : fpc) : Prop := match pc with FLoop _ | FWrite _ _ | FStore _ _ _ _ | FErrWrite _ _ | FForget _ | FCap _ | FUnlock _ => True | _ => False end.
Definition user_holds (u : upc) : Prop := match u with UHeld _ | URead _ _ | UStored => True | _ => False end.

Record finv (cur : nat -> bytes) (s : fstate) : Prop := {
  fi_go : f_lock s = Some OGo <-> go_holds (f_pc s);
  fi_user : forall i, f_lock s = Some (OUser i) <-> user_holds (f_users s i);
  fi_read : forall i f q, f_users s i = URead f q -> q = f_queue s;
  fi_pc : match f_pc s with FWrite _ q => q = f_queue s /\ q <> [] | FStore _ q _ _ => q = f_queue s | FCap _ => f_queue s = [] | _ => True end;
  fi_cur : forall i, match f_users s i with UWant f | UHeld f | URead f _ => cur i = f | _ => True end }.

Lemma init_finv : finv (fun _ => []) fine_init.
Proof. constructor; cbn; intros; try exact I; try discriminate; split; try discriminate; intros []. Qed.

Definition cur_after (cur : nat -> bytes) (a : faction) : nat -> bytes := match a with FCall i f => fun j => if (j =? i)%nat then f else cur j | _ => cur end.

Ltac fin := cbn [user_to go_to go_pc chans_to fcrash f_pc f_users f_lock f_queue f_out f_end f_completed f_errq f_errclosed f_goterr f_log f_next f_crashed] in *.

Lemma upd_same u i x : upd_user u i x i = x.
Proof. unfold upd_user. rewrite Nat.eqb_refl. reflexivity. Qed.
Lemma upd_other u i x j : j <> i -> upd_user u i x j = u j.
Proof. unfold upd_user. intros H. destruct (Nat.eqb_spec j i); [contradiction|reflexivity]. Qed.

(** a step of the caller i *)
Lemma user_inv cur cur' s i x lock q : finv cur s ->
  (forall j, j <> i -> cur' j = cur j) -> match x with UWant f | UHeld f | URead f _ => cur' i = f | _ => True end ->
  (lock = Some OGo <-> f_lock s = Some OGo) ->
  (forall j, j <> i -> lock = Some (OUser j) <-> f_lock s = Some (OUser j)) ->
  (lock = Some (OUser i) <-> user_holds x) ->
  (forall f q', x = URead f q' -> q' = q) -> (q = f_queue s \/ f_lock s = Some (OUser i)) ->
  finv cur' (user_to s i x lock q).
Proof.
  intros [Ig Iu Ir Ip Ic] Hcur Hx Hgo Hj Hi Hr Hq. constructor; fin.
  - rewrite Hgo. exact Ig.
  - intros j. destruct (Nat.eq_dec j i) as [->|Hn]; [rewrite upd_same; exact Hi|]. rewrite upd_other, Hj by exact Hn. apply Iu.
  - intros j f q' E. destruct (Nat.eq_dec j i) as [->|Hn]; [rewrite upd_same in E; exact (Hr _ _ E)|]. rewrite upd_other in E by exact Hn.
    destruct Hq as [->|Hq]; [exact (Ir _ _ _ E)|]. exfalso. assert (Hh : f_lock s = Some (OUser j)) by (apply Iu; rewrite E; exact I). congruence.
  - destruct Hq as [->|Hq]; [exact Ip|]. assert (Hng : ~ go_holds (f_pc s)) by (rewrite <- Ig, Hq; discriminate). destruct (f_pc s); try exact I; exfalso; apply Hng; exact I.
  - intros j. destruct (Nat.eq_dec j i) as [->|Hn]; [rewrite upd_same; exact Hx|]. rewrite upd_other by exact Hn. specialize (Ic j). rewrite Hcur by exact Hn. exact Ic.
Qed.

(** a step of the goroutine *)
Lemma go_inv cur s s' : finv cur s -> f_users s' = f_users s ->
  (f_lock s' = Some OGo <-> go_holds (f_pc s')) -> (forall i, f_lock s' = Some (OUser i) <-> f_lock s = Some (OUser i)) ->
  (f_queue s' = f_queue s \/ f_lock s = Some OGo) ->
  match f_pc s' with FWrite _ q => q = f_queue s' /\ q <> [] | FStore _ q _ _ => q = f_queue s' | FCap _ => f_queue s' = [] | _ => True end -> finv cur s'.
Proof.
  intros [Ig Iu Ir Ip Ic] Hu Hg Hl Hq Hp. constructor; rewrite ?Hu; try assumption.
  - intros i. rewrite Hl. apply Iu.
  - intros i f q E. destruct Hq as [->|Hq]; [exact (Ir _ _ _ E)|]. exfalso. assert (Hh : f_lock s = Some (OUser i)) by (apply Iu; rewrite E; exact I). congruence.
Qed.

Ltac gostep I Hpc := injection Hpc as <-; apply (go_inv _ _ _ I); fin.

Lemma step_finv cur s a s' : finv cur s -> fstep s a = Some s' -> finv (cur_after cur a) s'.
Proof.
  intros I H. unfold fstep in H. destruct (f_crashed s); [discriminate|]. pose proof I as [Ig Iu Ir Ip Ic]. destruct a; cbn [cur_after].
  - destruct (f_users s i) eqn:Eu; try discriminate. injection H as <-. apply (user_inv cur); fin; auto.
    + intros j Hn. destruct (Nat.eqb_spec j i); [contradiction|reflexivity].
    + rewrite Nat.eqb_refl. reflexivity.
    + tauto.
    + tauto.
    + rewrite Iu, Eu. tauto.
    + intros; discriminate.
  - destruct (f_users s i) eqn:Eu; try discriminate. destruct (f_lock s) eqn:El; [discriminate|]. injection H as <-. apply (user_inv cur); fin; auto.
    + specialize (Ic i). rewrite Eu in Ic. exact Ic.
    + rewrite El. split; discriminate.
    + intros j Hn. rewrite El. split; intros E; [injection E as E; congruence|discriminate].
    + cbn. tauto.
    + intros; discriminate.
  - destruct (f_users s i) eqn:Eu; try discriminate. injection H as <-. apply (user_inv cur); fin; auto; try tauto.
    + specialize (Ic i). rewrite Eu in Ic. exact Ic.
    + rewrite Iu, Eu. cbn. tauto.
    + intros f' q' E. injection E as _ <-. reflexivity.
  - destruct (f_users s i) eqn:Eu; try discriminate. injection H as <-. apply (user_inv cur); fin; auto; try tauto.
    + rewrite Iu, Eu. cbn. tauto.
    + intros; discriminate.
    + right. apply Iu. rewrite Eu. exact Logic.I.
  - destruct (f_users s i) eqn:Eu; try discriminate. injection H as <-. assert (El : f_lock s = Some (OUser i)) by (apply Iu; rewrite Eu; exact Logic.I). apply (user_inv cur); fin; auto; try tauto.
    + rewrite El. split; discriminate.
    + intros j Hn. rewrite El. split; intros E; [discriminate|congruence].
    + cbn. split; [discriminate|tauto].
    + intros; discriminate.
  - destruct (f_pc s) eqn:Ep; try discriminate. gostep I H; rewrite ?Ep; auto; try tauto.
  - injection H as <-. destruct (f_end s); apply (go_inv _ _ _ I); fin; auto; tauto.
  - destruct (f_pc s) eqn:Ep; try discriminate. destruct (f_end s); [|discriminate]. gostep I H; auto; try tauto.
  - destruct (f_pc s) eqn:Ep; try discriminate. gostep I H; auto; try tauto; destruct (f_out s); auto; tauto.
  - destruct (f_pc s) eqn:Ep; try discriminate. destruct err; gostep I H; auto; try tauto.
  - destruct (f_pc s) eqn:Ep; try discriminate. destruct (f_errclosed s); [gostep I H; rewrite ?Ep; auto; tauto|]. destruct (length (f_errq s) <? serr_cap)%nat; [|discriminate].
    gostep I H; auto; try tauto; destruct d; cbn; auto; tauto.
  - destruct (f_pc s) eqn:Ep; try discriminate. destruct (f_lock s) eqn:El; [discriminate|]. gostep I H; auto; cbn; try tauto.
    intros i. rewrite El. split; discriminate.
  - destruct (f_pc s) eqn:Ep; try discriminate. gostep I H; auto; try tauto; destruct (f_queue s); cbn; auto; try tauto. split; [reflexivity|discriminate].
  - destruct (f_pc s) eqn:Ep; try discriminate. destruct (f_out s); [|gostep I H; rewrite ?Ep; auto; tauto].
    destruct (_ && _); [|discriminate]. gostep I H; auto; cbn; tauto.
  - destruct (f_pc s) eqn:Ep; try discriminate. gostep I H; auto; try tauto; [|right; apply Ig; exact Logic.I|destruct r; exact Logic.I].
    rewrite Ig. destruct r; cbn; tauto.
  - destruct (f_pc s) eqn:Ep; try discriminate. destruct (f_errclosed s); [gostep I H; rewrite ?Ep; auto; tauto|]. destruct (length (f_errq s) <? serr_cap)%nat; [|discriminate].
    gostep I H; auto; cbn; try tauto.
  - destruct (f_pc s) eqn:Ep; try discriminate. gostep I H; auto; cbn; try tauto.
  - destruct (f_pc s) eqn:Ep; try discriminate. gostep I H; auto; cbn; try tauto. destruct (f_queue s); auto.
  - destruct (f_pc s) eqn:Ep; try discriminate. assert (El : f_lock s = Some OGo) by (apply Ig; exact Logic.I). gostep I H; auto.
    + destruct d; cbn; split; try discriminate; tauto.
    + intros i. rewrite El. split; discriminate.
    + destruct d; exact Logic.I.
  - destruct (f_pc s) eqn:Ep; try discriminate. gostep I H; auto; try tauto; destruct (f_queue s); cbn; auto; tauto.
  - destruct (f_pc s) eqn:Ep; try discriminate. destruct (f_out s); gostep I H; rewrite ?Ep; auto; tauto.
  - destruct (f_pc s) eqn:Ep; try discriminate. destruct (f_completed s); gostep I H; rewrite ?Ep; auto; tauto.
  - destruct (f_pc s) eqn:Ep; try discriminate. destruct (f_errclosed s); gostep I H; rewrite ?Ep; auto; tauto.
  - destruct (f_errq s); [discriminate|]. gostep I H; auto; tauto.
Qed.

Ltac ab s := change (s_crashed (abs s)) with (f_crashed s); change (s_pc (abs s)) with (abs_pc (f_out s) (f_pc s)); change (s_queue (abs s)) with (abs_queue s);
  change (s_out (abs s)) with (abs_out s); change (s_errclosed (abs s)) with (f_errclosed s); change (s_errq (abs s)) with (f_errq s); change (s_completed (abs s)) with (f_completed s);
  change (s_end (abs s)) with (f_end s); change (s_goterr (abs s)) with (f_goterr s); change (s_log (abs s)) with (f_log s); change (s_next (abs s)) with (f_next s).

(** ** each step is a step of MSender.v, or none *)
(** the atomic action a step stands for, if any *)
Definition step_of (s : fstate) (a : faction) : list saction :=
  match a with
  | FPut i => match f_users s i with URead f _ => [ASend f] | _ => [] end
  | FTick => [ATick] | FEndCall => [AEndCall] | FSelectEnd => [ASelectEnd] | FConnected e => [AConnect e] | FPushErrConn => [APushErrConn] | FTake => [ALock]
  | FTestLen => match f_queue s with [] => [AWriteDone] | _ => [] end
  | FNet k r => [AWrite k r] | FPushErrWrite => [APushErrWrite] | FTestDrain => [ADrain] | FCloseOut => [ACloseOut] | FCompleted => [ACloseDone] | FCloseErrs => [ACloseErr]
  | FUserErr => [AUserErr]
  | FCall _ _ | FAcquire _ | FRead _ | FRelease _ | FTestOut | FConsume | FDrop | FRealloc | FGive => []
  end.

Lemma sim_step cur s a s' : finv cur s -> fstep s a = Some s' ->
  srun (abs s) (step_of s a) = Some (abs s') /\ sends (step_of s a) = match a with FPut i => [cur i] | _ => [] end.
Proof.
  intros I H. pose proof I as [Ig Iu Ir Ip Ic]. unfold fstep in H. destruct (f_crashed s) eqn:Ec; [discriminate|]. destruct a; cbn [step_of].
  - destruct (f_users s i) eqn:Eu; try discriminate. injection H as <-. split; reflexivity.
  - destruct (f_users s i) eqn:Eu; try discriminate. destruct (f_lock s) eqn:El; [discriminate|]. injection H as <-. split; reflexivity.
  - destruct (f_users s i) eqn:Eu; try discriminate. injection H as <-. split; reflexivity.
  - destruct (f_users s i) eqn:Eu; try discriminate. injection H as <-. split; [|specialize (Ic i); rewrite Eu in Ic; cbn; rewrite Ic; reflexivity].
    assert (El : f_lock s = Some (OUser i)) by (apply Iu; rewrite Eu; exact Logic.I). assert (Hng : ~ go_holds (f_pc s)) by (rewrite <- Ig, El; discriminate).
    rewrite (Ir _ _ _ Eu). cbn [srun sstep]. unfold abs, abs_queue, abs_out, locked. cbn [s_crashed s_pc]. fin. rewrite Ec.
    destruct (f_pc s) eqn:Ep; cbn [abs_pc]; try (exfalso; apply Hng; exact Logic.I); cbn; try reflexivity. destruct (f_out s); reflexivity.
  - destruct (f_users s i) eqn:Eu; try discriminate. injection H as <-. split; reflexivity.
  - destruct (f_pc s) eqn:Ep; try discriminate. injection H as <-. split; [|reflexivity]. cbn [srun sstep]. unfold abs, abs_queue, abs_out. cbn [s_crashed s_pc]. fin. rewrite Ec, Ep. reflexivity.
  - injection H as <-. split; [|reflexivity]. cbn [srun sstep]. unfold abs, abs_queue, abs_out. cbn [s_crashed s_pc]. fin. rewrite Ec. cbn [s_end]. destruct (f_end s) eqn:Ee; unfold scrash; fin; cbn; rewrite ?Ec, ?Ee; reflexivity.
  - destruct (f_pc s) eqn:Ep; try discriminate. destruct (f_end s) eqn:Ee; [|discriminate]. injection H as <-. split; [|reflexivity].
    cbn [srun sstep]. unfold abs, abs_queue, abs_out. cbn [s_crashed s_pc]. fin. rewrite Ec, Ep. cbn. rewrite Ee. reflexivity.
  - destruct (f_pc s) eqn:Ep; try discriminate. injection H as <-. split; [|reflexivity]. cbn [srun]. unfold abs, abs_queue, abs_out. fin. rewrite Ep. destruct (f_out s); reflexivity.
  - destruct (f_pc s) eqn:Ep; try discriminate. split; [|destruct err; reflexivity]. cbn [srun]. unfold sstep. ab s. rewrite Ec, Ep. cbn.
    destruct err; injection H as <-; unfold abs, abs_queue, abs_out; fin; cbn; rewrite ?Ep, ?Ec; reflexivity.
  - destruct (f_pc s) eqn:Ep; try discriminate. split; [|reflexivity]. cbn [srun]. unfold sstep. ab s. rewrite Ec, Ep. cbn [abs_pc].
    destruct (f_errclosed s) eqn:Ex.
    + injection H as <-. unfold abs, abs_queue, abs_out. fin. cbn. rewrite ?Ep, ?Ex. reflexivity.
    + destruct (length (f_errq s) <? serr_cap)%nat eqn:El; [|discriminate]. injection H as <-. unfold abs, abs_queue, abs_out. fin. cbn. rewrite ?Ep, ?Ex, ?Ec. destruct d; reflexivity.
  - destruct (f_pc s) eqn:Ep; try discriminate. destruct (f_lock s) eqn:El; [discriminate|]. injection H as <-. split; [|reflexivity].
    cbn [srun sstep]. unfold abs, abs_queue, abs_out. cbn [s_crashed s_pc]. fin. rewrite Ec, Ep. reflexivity.
  - destruct (f_pc s) eqn:Ep; try discriminate. injection H as <-. destruct (f_queue s) as [|b q] eqn:Eq.
    + split; [|reflexivity]. cbn [srun sstep]. unfold abs, abs_queue, abs_out. cbn [s_crashed s_pc]. fin. rewrite Ec, Ep. cbn. rewrite Eq. reflexivity.
    + split; [|reflexivity]. cbn [srun]. unfold abs, abs_queue, abs_out. fin. rewrite Ep, Eq. reflexivity.
  - destruct (f_pc s) as [| | | | | |d q| | | | | | | | | |] eqn:Ep; try discriminate. destruct Ip as [-> Hne]. split; [|reflexivity].
    cbn [srun]. unfold sstep. ab s. rewrite Ec, Ep. cbn [abs_pc].
    assert (Eaq : abs_queue s = f_queue s) by (unfold abs_queue; rewrite Ep; reflexivity). assert (Eao : abs_out s = f_out s) by (unfold abs_out; rewrite Ep; reflexivity).
    rewrite Eaq, Eao. destruct (f_queue s) as [|b q'] eqn:Eq; [congruence|]. destruct (f_out s) as [c|] eqn:Eo; cbv zeta.
    + destruct (_ && _) eqn:Eb; [|discriminate]. injection H as <-. rewrite ?Eb. unfold abs, abs_queue, abs_out. fin. rewrite ?Eo, ?Ec. destruct r; reflexivity.
    + injection H as <-. unfold scrash, abs, abs_queue, abs_out. fin. rewrite Ep. reflexivity.
  - destruct (f_pc s) eqn:Ep; try discriminate. subst q. injection H as <-. split; [|reflexivity]. cbn [srun]. unfold abs, abs_queue, abs_out. fin. rewrite Ep. destruct r; reflexivity.
  - destruct (f_pc s) eqn:Ep; try discriminate. split; [|reflexivity]. cbn [srun]. unfold sstep. ab s. rewrite Ec, Ep. cbn [abs_pc].
    destruct (f_errclosed s) eqn:Ex.
    + injection H as <-. unfold abs, abs_queue, abs_out. fin. cbn. rewrite ?Ep, ?Ex. reflexivity.
    + destruct (length (f_errq s) <? serr_cap)%nat eqn:El; [|discriminate]. injection H as <-. unfold abs, abs_queue, abs_out. fin. cbn. rewrite ?Ep, ?Ex, ?Ec. reflexivity.
  - destruct (f_pc s) eqn:Ep; try discriminate. injection H as <-. split; [|reflexivity]. cbn [srun]. unfold abs, abs_queue, abs_out. fin. rewrite Ep. reflexivity.
  - destruct (f_pc s) eqn:Ep; try discriminate. injection H as <-. split; [|reflexivity]. cbn [srun]. unfold abs, abs_queue, abs_out. fin. rewrite Ep. destruct (f_queue s); reflexivity.
  - destruct (f_pc s) eqn:Ep; try discriminate. injection H as <-. split; [|reflexivity]. cbn [srun]. unfold abs, abs_queue, abs_out. fin. rewrite Ep. destruct d; reflexivity.
  - destruct (f_pc s) eqn:Ep; try discriminate. injection H as <-. split; [|reflexivity]. cbn [srun sstep]. unfold abs, abs_queue, abs_out. cbn [s_crashed s_pc]. fin. rewrite Ec, Ep. cbn.
    destruct (f_queue s) eqn:Eq; unfold set_pc; cbn; rewrite ?Eq; reflexivity.
  - destruct (f_pc s) eqn:Ep; try discriminate. split; [|reflexivity]. cbn [srun]. unfold sstep. ab s. rewrite Ec, Ep. cbn [abs_pc].
    destruct (f_out s) eqn:Eo; injection H as <-; unfold abs, abs_queue, abs_out; fin; cbn; rewrite ?Ep, ?Eo, ?Ec; reflexivity.
  - destruct (f_pc s) eqn:Ep; try discriminate. split; [|reflexivity]. cbn [srun]. unfold sstep. ab s. rewrite Ec, Ep. cbn [abs_pc].
    destruct (f_completed s) eqn:Eo; injection H as <-; unfold abs, abs_queue, abs_out; fin; cbn; rewrite ?Ep, ?Eo, ?Ec; reflexivity.
  - destruct (f_pc s) eqn:Ep; try discriminate. split; [|reflexivity]. cbn [srun]. unfold sstep. ab s. rewrite Ec, Ep. cbn [abs_pc].
    destruct (f_errclosed s) eqn:Eo; injection H as <-; unfold abs, abs_queue, abs_out; fin; cbn; rewrite ?Ep, ?Eo, ?Ec; reflexivity.
  - destruct (f_errq s) eqn:Eq; [discriminate|]. injection H as <-. split; [|reflexivity]. cbn [srun]. unfold sstep. ab s. rewrite Ec, Eq. unfold abs, abs_queue, abs_out. fin. cbn. rewrite Ec. reflexivity.
Qed.

(** ** executions *)
Lemma frun_app a : forall s b, frun s (a ++ b) = match frun s a with Some s' => frun s' b | None => None end.
Proof. induction a as [|x a IH]; intros s b; [reflexivity|]. cbn [app frun]. destruct (fstep s x); auto. Qed.

Lemma sim_run acts : forall cur s s', finv cur s -> frun s acts = Some s' ->
  (exists cur', finv cur' s') /\ exists sacts, srun (abs s) sacts = Some (abs s') /\ sends sacts = map snd (stored cur acts).
Proof.
  induction acts as [|a acts IH]; intros cur s s' I H; [injection H as <-; split; [eauto|exists []; split; reflexivity]|]. cbn [frun] in H.
  destruct (fstep s a) as [s1|] eqn:Es; [|discriminate]. destruct (sim_step cur s a s1 I Es) as (R1 & S1). set (l1 := step_of s a) in *.
  destruct (IH _ _ _ (step_finv _ _ _ _ I Es) H) as (Hc & l2 & R2 & S2). split; [exact Hc|].
  exists (l1 ++ l2). rewrite srun_app, R1. split; [exact R2|]. unfold sends in *. rewrite flat_map_app, S1, S2. destruct a; reflexivity.
Qed.

Lemma reach_finv acts s : frun fine_init acts = Some s -> exists cur, finv cur s.
Proof. intros H. exact (proj1 (sim_run acts _ _ _ init_finv H)). Qed.

Lemma abs_init : abs fine_init = sender_init.
Proof. reflexivity. Qed.

(** Every execution at the granularity of memory accesses, with any number of goroutines inside Send,
    is an execution with atomic critical sections: same network events, same errors, same channels,
    the frames in the order in which they were stored.  (When no store of WriteTo and no assignment of
    c.output is under way the queue and the connection are also the same, see abs.) *)
Theorem C95_atomic : forall acts s, frun fine_init acts = Some s ->
  exists sacts s0, srun sender_init sacts = Some s0 /\ sends sacts = map snd (stored (fun _ => []) acts) /\
    s_log s0 = f_log s /\ s_goterr s0 = f_goterr s /\ s_errq s0 = f_errq s /\ s_errclosed s0 = f_errclosed s /\ s_end s0 = f_end s /\ s_completed s0 = f_completed s /\ s_crashed s0 = f_crashed s /\
    (go_access (f_pc s) = None -> s_queue s0 = f_queue s /\ s_out s0 = f_out s).
Proof.
  intros acts s H. destruct (sim_run acts _ _ _ init_finv H) as (_ & sacts & R & S). rewrite abs_init in R. exists sacts, (abs s). split; [exact R|]. split; [exact S|].
  repeat (split; [reflexivity|]). intros Hn. unfold abs. cbn. unfold abs_queue, abs_out. destruct (f_pc s); try discriminate; auto.
Qed.
Print Assumptions C95_atomic.

(** So, for instance, no interleaving of Sends loses or duplicates a byte, *)
Theorem C95_no_loss : forall acts s, frun fine_init acts = Some s -> (forall d q k r, f_pc s <> FStore d q k r) ->
  written (f_log s) ++ concat (f_queue s) = concat (map snd (stored (fun _ => []) acts)).
Proof.
  intros acts s H Hn. destruct (sim_run acts _ _ _ init_finv H) as (_ & sacts & R & S). rewrite abs_init in R. destruct (C41_no_loss _ _ R) as [E _]. rewrite S in E.
  cbn [abs s_log s_queue] in E. unfold abs_queue in E. destruct (f_pc s); try exact E. exfalso. eapply Hn. reflexivity.
Qed.
Print Assumptions C95_no_loss.

Lemma stored_calls acts : forall cur s s' i, finv cur s -> frun s acts = Some s' ->
  in_send (f_users s i) ++ calls i acts = stored_by i (stored cur acts) ++ in_send (f_users s' i).
Proof.
  induction acts as [|a acts IH]; intros cur s s' i I H; [injection H as <-; cbn; rewrite app_nil_r; reflexivity|]. cbn [frun] in H.
  destruct (fstep s a) as [s1|] eqn:Es; [|discriminate]. specialize (IH _ _ _ i (step_finv _ _ _ _ I Es) H). unfold calls. cbn [flat_map]. fold (calls i acts).
  assert (Hs : stored_by i (stored cur (a :: acts)) = match a with FPut j => if (j =? i)%nat then [cur j] else [] | _ => [] end ++ stored_by i (stored (cur_after cur a) acts)).
  { destruct a; cbn [stored cur_after]; try reflexivity. unfold stored_by. cbn [filter fst]. destruct (i0 =? i)%nat; reflexivity. }
  rewrite Hs, <- app_assoc, <- IH. clear IH Hs H. destruct I as [_ _ _ _ Ic]. rewrite !app_assoc. f_equal. unfold fstep in Es. destruct (f_crashed s); [discriminate|].
  assert (Hu : forall j x lock q, f_users (user_to s j x lock q) i = if (i =? j)%nat then x else f_users s i) by reflexivity.
  assert (Hgo : f_users s1 i = f_users s i -> (forall j f, a <> FCall j f) -> (forall j, a <> FPut j) ->
     in_send (f_users s i) ++ match a with FCall j f => if (j =? i)%nat then [f] else [] | _ => [] end = match a with FPut j => if (j =? i)%nat then [cur j] else [] | _ => [] end ++ in_send (f_users s1 i)).
  { intros -> Ha Hb. destruct a; try (rewrite app_nil_r; reflexivity); [exfalso; eapply Ha; reflexivity|exfalso; eapply Hb; reflexivity]. }
  destruct a.
  - destruct (f_users s i0) eqn:Eu; try discriminate. injection Es as <-. rewrite Hu. destruct (Nat.eqb_spec i0 i) as [->|Hn]; [rewrite Nat.eqb_refl, Eu; reflexivity|].
    destruct (Nat.eqb_spec i i0); [congruence|]. rewrite app_nil_r. reflexivity.
  - destruct (f_users s i0) eqn:Eu; try discriminate. destruct (f_lock s); [discriminate|]. injection Es as <-. rewrite Hu, app_nil_r. cbn [app].
    destruct (Nat.eqb_spec i i0) as [->|Hn]; [rewrite Eu|]; reflexivity.
  - destruct (f_users s i0) eqn:Eu; try discriminate. injection Es as <-. rewrite Hu, app_nil_r. cbn [app].
    destruct (Nat.eqb_spec i i0) as [->|Hn]; [rewrite Eu|]; reflexivity.
  - destruct (f_users s i0) eqn:Eu; try discriminate. injection Es as <-. rewrite Hu, app_nil_r. destruct (Nat.eqb_spec i0 i) as [->|Hn].
    + rewrite Nat.eqb_refl. specialize (Ic i). rewrite Eu in *. cbn. rewrite Ic. reflexivity.
    + destruct (Nat.eqb_spec i i0); [congruence|]. reflexivity.
  - destruct (f_users s i0) eqn:Eu; try discriminate. injection Es as <-. rewrite Hu, app_nil_r. cbn [app].
    destruct (Nat.eqb_spec i i0) as [->|Hn]; [rewrite Eu|]; reflexivity.
  - destruct (f_pc s); try discriminate. injection Es as <-. apply Hgo; [reflexivity|congruence..].
  - injection Es as <-. apply Hgo; [destruct (f_end s); reflexivity|congruence..].
  - destruct (f_pc s); try discriminate. destruct (f_end s); [|discriminate]. injection Es as <-. apply Hgo; [reflexivity|congruence..].
  - destruct (f_pc s); try discriminate. injection Es as <-. apply Hgo; [reflexivity|congruence..].
  - destruct (f_pc s); try discriminate. apply Hgo; [destruct err; injection Es as <-; reflexivity|congruence..].
  - destruct (f_pc s); try discriminate. apply Hgo; [|congruence..]. destruct (f_errclosed s); [injection Es as <-; reflexivity|]. destruct (length (f_errq s) <? serr_cap)%nat; [|discriminate]. injection Es as <-. reflexivity.
  - destruct (f_pc s); try discriminate. destruct (f_lock s); [discriminate|]. injection Es as <-. apply Hgo; [reflexivity|congruence..].
  - destruct (f_pc s); try discriminate. injection Es as <-. apply Hgo; [reflexivity|congruence..].
  - destruct (f_pc s); try discriminate. apply Hgo; [|congruence..]. destruct (f_out s); [|injection Es as <-; reflexivity]. destruct (_ && _); [|discriminate]. injection Es as <-. reflexivity.
  - destruct (f_pc s); try discriminate. injection Es as <-. apply Hgo; [reflexivity|congruence..].
  - destruct (f_pc s); try discriminate. apply Hgo; [|congruence..]. destruct (f_errclosed s); [injection Es as <-; reflexivity|]. destruct (length (f_errq s) <? serr_cap)%nat; [|discriminate]. injection Es as <-. reflexivity.
  - destruct (f_pc s); try discriminate. injection Es as <-. apply Hgo; [reflexivity|congruence..].
  - destruct (f_pc s); try discriminate. injection Es as <-. apply Hgo; [reflexivity|congruence..].
  - destruct (f_pc s); try discriminate. injection Es as <-. apply Hgo; [reflexivity|congruence..].
  - destruct (f_pc s); try discriminate. injection Es as <-. apply Hgo; [reflexivity|congruence..].
  - destruct (f_pc s); try discriminate. apply Hgo; [destruct (f_out s); injection Es as <-; reflexivity|congruence..].
  - destruct (f_pc s); try discriminate. apply Hgo; [injection Es as <-; destruct (f_completed s); reflexivity|congruence..].
  - destruct (f_pc s); try discriminate. apply Hgo; [injection Es as <-; destruct (f_errclosed s); reflexivity|congruence..].
  - destruct (f_errq s); [discriminate|]. injection Es as <-. apply Hgo; [reflexivity|congruence..].
Qed.

(** and each goroutine's frames are stored once each, in its order; only that of a Send that has not
    returned may be missing. *)
Theorem C95_each_send_once : forall acts s i, frun fine_init acts = Some s ->
  calls i acts = stored_by i (stored (fun _ => []) acts) ++ in_send (f_users s i).
Proof. intros acts s i H. exact (stored_calls acts _ _ _ i init_finv H). Qed.
Print Assumptions C95_each_send_once.

(** ** data races *)
(** A data race is possible exactly when End's goroutine tests the length of the queue (connector.go:112,
    without the lock) while a Send is about to store the queue. *)
Theorem C95_race_iff : forall acts s, frun fine_init acts = Some s ->
  (race s <-> f_pc s = FDrain /\ exists i f q, f_users s i = URead f q).
Proof.
  intros acts s H. destruct (reach_finv _ _ H) as (cur & [Ig Iu Ir Ip Ic]). split.
  - intros [(i & loc & w & w' & Hu & Hg & Hw)|(i & j & loc & w & w' & Hn & Hu & Hv & Hw)].
    + assert (Hlock : f_lock s = Some (OUser i)) by (apply Iu; destruct (f_users s i); try discriminate; exact I).
      assert (Hng : ~ go_holds (f_pc s)) by (rewrite <- Ig, Hlock; discriminate).
      destruct (f_users s i) eqn:Eu; try discriminate; injection Hu as <- <-; destruct (f_pc s); try discriminate; try (exfalso; apply Hng; exact I).
      * injection Hg as <-. discriminate.
      * split; [reflexivity|eauto].
    + exfalso. assert (H1 : f_lock s = Some (OUser i)) by (apply Iu; destruct (f_users s i); try discriminate; exact I).
      assert (H2 : f_lock s = Some (OUser j)) by (apply Iu; destruct (f_users s j); try discriminate; exact I). congruence.
  - intros (Ep & i & f & q & Eu). left. exists i, LQueue, true, false. rewrite Eu, Ep. auto.
Qed.
Print Assumptions C95_race_iff.

(** So there is none before End is called: *)
Theorem C95_no_race_before_end : forall acts s, frun fine_init acts = Some s -> f_end s = false -> ~ race s.
Proof.
  intros acts s H He Hr. apply (C95_race_iff acts s H) in Hr. destruct Hr as [Ep _]. destruct (sim_run acts _ _ _ init_finv H) as (_ & sacts & R & _). rewrite abs_init in R.
  assert (Hd : s_end (abs s) = true) by (apply (v_deferred _ _ (srun_inv _ _ R)); cbn [abs s_pc]; rewrite Ep; reflexivity).
  cbn [abs s_end] in Hd. congruence.
Qed.
Print Assumptions C95_no_race_before_end.

(** ** the table of accesses is that of the steps *)
(** which goroutine an action is of (an End or a receive from the error channel touches no memory) *)
Definition mover (a : faction) : option owner :=
  match a with
  | FCall i _ | FAcquire i | FRead i | FPut i | FRelease i => Some (OUser i)
  | FEndCall | FUserErr => None
  | _ => Some OGo
  end.
Definition access (s : fstate) (a : faction) : option (location * bool) :=
  match mover a with Some (OUser i) => user_access (f_users s i) | Some OGo => go_access (f_pc s) | None => None end.
(** the same state with another content of *c.queue, of c.output *)
Definition set_queue (s : fstate) (q : list bytes) : fstate :=
  {| f_pc := f_pc s; f_users := f_users s; f_lock := f_lock s; f_queue := q; f_out := f_out s; f_end := f_end s; f_completed := f_completed s;
     f_errq := f_errq s; f_errclosed := f_errclosed s; f_goterr := f_goterr s; f_log := f_log s; f_next := f_next s; f_crashed := f_crashed s |}.
Definition set_out (s : fstate) (o : option nat) : fstate :=
  {| f_pc := f_pc s; f_users := f_users s; f_lock := f_lock s; f_queue := f_queue s; f_out := o; f_end := f_end s; f_completed := f_completed s;
     f_errq := f_errq s; f_errclosed := f_errclosed s; f_goterr := f_goterr s; f_log := f_log s; f_next := f_next s; f_crashed := f_crashed s |}.

(** A step that changes the queue or the connection is one that the table calls a write of it; a step
    that does not access one of them by the table neither looks at it nor changes it. *)
Theorem C95_accesses : forall s a s', fstep s a = Some s' ->
  (f_queue s' <> f_queue s -> access s a = Some (LQueue, true)) /\
  (f_out s' <> f_out s -> access s a = Some (LOutput, true)) /\
  ((forall w, access s a <> Some (LQueue, w)) -> forall q, fstep (set_queue s q) a = Some (set_queue s' q)) /\
  ((forall w, access s a <> Some (LOutput, w)) -> forall o, fstep (set_out s o) a = Some (set_out s' o)).
Proof.
  intros s a s' H. destruct s as [pc users lock q out fend comp errq errc got log next crashed]. unfold fstep in *. cbn [f_crashed] in H. destruct crashed; [discriminate|].
  unfold access, set_queue, set_out in *.
  destruct a; cbn [mover f_pc f_users f_lock f_queue f_out f_end f_completed f_errq f_errclosed f_goterr f_log f_next f_crashed] in *.
  1-5: destruct (users i) eqn:Eu; try discriminate; cbn [user_access] in *.
  1-5: try (destruct lock; try discriminate); injection H as <-; fin; (split; [congruence|split; [congruence|]]);
       (split; [intros Hn; first [exfalso; exact (Hn _ eq_refl) | intros; reflexivity]|intros Hn; first [exfalso; exact (Hn _ eq_refl) | intros; reflexivity]]).
  all: try (destruct pc; try discriminate; cbn [go_access] in * ).
  all: repeat match type of H with
       | (match ?x with _ => _ end) = Some _ => destruct x eqn:?; try discriminate
       end; try (injection H as <-).
  all: repeat match goal with |- context [if ?b then fcrash _ else _] => destruct b eqn:? end.
  all: fin; (split; [congruence|split; [congruence|]]).
  all: split; intros Hn; first [exfalso; exact (Hn _ eq_refl) | intros ?q'; try reflexivity].
  all: repeat match goal with E : _ = _ |- _ => rewrite E end; try reflexivity.
Qed.
Print Assumptions C95_accesses.

(** Conversely the table has no access that the code does not make: what it calls a write changes the
    content in some state (except the assignment of a new empty queue to an empty one, connector.go:105),
    what it calls a read depends on it. *)
Theorem C95_accesses_needed :
  (forall pc loc, go_access pc = Some (loc, true) ->
     (exists d, pc = FCap d /\ loc = LQueue) \/
     exists s a s', f_pc s = pc /\ mover a = Some OGo /\ fstep s a = Some s' /\ match loc with LQueue => f_queue s' <> f_queue s | LOutput => f_out s' <> f_out s end) /\
  (forall pc loc, go_access pc = Some (loc, false) ->
     exists s a, f_pc s = pc /\ mover a = Some OGo /\
       match loc with LQueue => exists q, fstep (set_queue s q) a <> option_map (fun s' => set_queue s' q) (fstep s a)
                    | LOutput => exists o, fstep (set_out s o) a <> option_map (fun s' => set_out s' o) (fstep s a) end) /\
  (forall u loc, user_access u = Some (loc, true) ->
     loc = LQueue /\ exists s i a s', f_users s i = u /\ mover a = Some (OUser i) /\ fstep s a = Some s' /\ f_queue s' <> f_queue s) /\
  (forall u loc, user_access u = Some (loc, false) ->
     loc = LQueue /\ exists s i a q, f_users s i = u /\ mover a = Some (OUser i) /\ fstep (set_queue s q) a <> option_map (fun s' => set_queue s' q) (fstep s a)) /\
  (forall d, go_access (FCap d) = Some (LQueue, true)).
Proof.
  pose (mk := fun pc u q o => {| f_pc := pc; f_users := fun _ => u; f_lock := None; f_queue := q; f_out := o; f_end := false; f_completed := false; f_errq := []; f_errclosed := false;
    f_goterr := []; f_log := []; f_next := 0; f_crashed := false |}).
  split; [|split; [|split; [|split]]].
  - intros pc loc H. destruct pc; cbn in H; try discriminate; injection H as <-.
    + right. exists (mk (FConnect d) UIdle [] None), (FConnected None). eexists. repeat split. cbn. discriminate.
    + right. exists (mk (FStore d q k r) UIdle ([] :: consume k q) None), FConsume. eexists. repeat split. cbn. intros E. apply (f_equal (@length _)) in E. cbn [length] in E. lia.
    + right. exists (mk (FForget d) UIdle [] (Some 0%nat)), FDrop. eexists. repeat split. cbn. discriminate.
    + left. eauto.
  - intros pc loc H. destruct pc; cbn in H; try discriminate; injection H as <-.
    + exists (mk (FEntry d) UIdle [] None), FTestOut. repeat split. exists (Some 0%nat). cbn. discriminate.
    + exists (mk (FLoop d) UIdle [] None), FTestLen. repeat split. exists [[]]. cbn. discriminate.
    + exists (mk (FWrite d q) UIdle [] None), (FNet 0 WNoBufs). repeat split. exists (Some 0%nat). cbn. discriminate.
    + exists (mk FDrain UIdle [] None), FTestDrain. repeat split. exists [[]]. cbn. discriminate.
    + exists (mk FClose UIdle [] None), FCloseOut. repeat split. exists (Some 0%nat). cbn. discriminate.
  - intros u loc H. destruct u; cbn in H; try discriminate; injection H as <-. split; [reflexivity|]. exists (mk FSelect (URead f q) (tl (q ++ [f])) None), 0%nat, (FPut 0). eexists. repeat split.
    cbn. intros E. apply (f_equal (@length _)) in E. destruct q; cbn [tl app length] in E; lia.
  - intros u loc H. destruct u; cbn in H; try discriminate; injection H as <-. split; [reflexivity|]. exists (mk FSelect (UHeld f) [] None), 0%nat, (FRead 0), [[]]. repeat split.
    cbn. intros E. injection E as E. apply (f_equal (fun u => u 0%nat)) in E. discriminate E.
  - reflexivity.
Qed.
Print Assumptions C95_accesses_needed.

(** ** no behaviour is lost: every execution with atomic critical sections is one of these *)
(** nobody is inside a critical section, apart from the goroutine between two calls of WriteTo *)
Definition quiet (s : fstate) : Prop :=
  f_crashed s = true \/
  (forall i, f_users s i = UIdle) /\
  match f_pc s with FEntry _ | FWrite _ _ | FStore _ _ _ _ | FForget _ | FCap _ | FUnlock _ => False | FLoop _ => f_lock s = Some OGo | FErrWrite _ _ => f_lock s = Some OGo | _ => f_lock s = None end.

(** the steps of an atomic action *)
Definition steps (s : fstate) (a : saction) : list faction :=
  match a with
  | ASend f => [FCall 0 f; FAcquire 0; FRead 0; FPut 0; FRelease 0]
  | ATick => [FTick; FTestOut]
  | AEndCall => [FEndCall] | ASelectEnd => [FSelectEnd] | AConnect e => [FConnected e] | APushErrConn => [FPushErrConn] | ALock => [FTake]
  | AWrite k r => match f_out s with None => [FTestLen; FNet k r] | Some _ => [FTestLen; FNet k r; FConsume] ++ match r with WNoBufs => [FGive] | _ => [] end end
  | AWriteDone => [FTestLen; FRealloc; FGive]
  | APushErrWrite => if f_errclosed s then [FPushErrWrite] else [FPushErrWrite; FDrop; FGive]
  | ADrain => match f_queue s with [] => [FTestDrain] | _ => [FTestDrain; FTestOut] end
  | ACloseOut => [FCloseOut] | ACloseDone => [FCompleted] | ACloseErr => [FCloseErrs] | AUserErr => [FUserErr]
  end.

Lemma steps_sound s a s0 : quiet s -> sstep (abs s) a = Some s0 -> exists s', frun s (steps s a) = Some s' /\ abs s' = s0 /\ quiet s'.
Proof.
  intros [Hq|[Hu Hq]] H; [unfold sstep in H; cbn [abs s_crashed] in H; rewrite Hq in H; discriminate|].
  destruct s as [pc users lock q out fend comp errq errc got log next crashed]. cbn [f_users f_pc f_lock] in Hu, Hq.
  destruct crashed; [discriminate|].
  assert (Hidle : forall f, (forall i, upd_user (upd_user (upd_user (upd_user (upd_user users 0 (UWant f)) 0 (UHeld f)) 0 (URead f q)) 0 UStored) 0 UIdle i = UIdle)) by (intros f [|i]; cbn; auto).
  unfold sstep in H. cbn [abs s_crashed f_crashed] in H.
  destruct a; cbn [abs s_pc s_queue s_out s_end s_completed s_errq s_errclosed s_goterr s_log s_next f_pc f_out f_queue f_end f_completed f_errq f_errclosed f_goterr f_log f_next abs_queue abs_out locked] in H.
  - destruct pc; cbn in Hq; try contradiction; subst lock; cbn in H; try discriminate; injection H as <-;
      cbn; rewrite Hu; cbn; (eexists; split; [reflexivity|]; split; [reflexivity|]; right; cbn; split; [exact (Hidle frame)|reflexivity]).
  - destruct pc; cbn in Hq; try contradiction; subst lock; cbn in H; try discriminate; injection H as <-. cbn. destruct out; (eexists; split; [reflexivity|]; split; [reflexivity|]; right; cbn; auto).
  - injection H as <-. destruct fend; (eexists; split; [reflexivity|]; split; [reflexivity|]); [left; reflexivity|right; cbn; auto].
  - destruct pc; cbn in Hq; try contradiction; subst lock; cbn in H; try discriminate. destruct fend; [|discriminate]. injection H as <-. eexists; split; [reflexivity|]; split; [reflexivity|]; right; cbn; auto.
  - destruct pc; cbn in Hq; try contradiction; subst lock; cbn in H; try discriminate. destruct err; injection H as <-; (eexists; split; [reflexivity|]; split; [reflexivity|]; right; cbn; auto).
  - destruct pc; cbn in Hq; try contradiction; subst lock; cbn [abs_pc] in H; try discriminate. destruct errc; [injection H as <-; (eexists; split; [reflexivity|]; split; [reflexivity|]; left; reflexivity)|].
    cbn [steps frun fstep f_crashed f_pc f_errclosed f_errq]. destruct (length errq <? serr_cap)%nat; [|discriminate]. injection H as <-. destruct d; (eexists; split; [reflexivity|]; split; [reflexivity|]; right; cbn; auto).
  - destruct pc; cbn in Hq; try contradiction; subst lock; cbn in H; try discriminate. injection H as <-; (eexists; split; [reflexivity|]; split; [reflexivity|]; right; cbn; auto).
  - destruct pc; cbn in Hq; try contradiction; subst lock; cbn [abs_pc] in H; try discriminate. destruct q as [|b q]; [discriminate|]. destruct out as [c|].
    + unfold steps. cbn [f_out app frun fstep f_crashed f_pc f_queue go_pc go_to]. cbn zeta in H. destruct (_ && _); [|discriminate]. injection H as <-.
      destruct r; [| destruct d |]; (eexists; split; [reflexivity|]; split; [reflexivity|]; right; cbn; auto).
    + injection H as <-. eexists; split; [reflexivity|]; split; [reflexivity|]; left; reflexivity.
  - destruct pc; cbn in Hq; try contradiction; subst lock; cbn in H; try discriminate. destruct q as [|b q]; [|discriminate]. injection H as <-. destruct d; (eexists; split; [reflexivity|]; split; [reflexivity|]; right; cbn; auto).
  - destruct pc; cbn in Hq; try contradiction; subst lock; cbn [abs_pc] in H; try discriminate. destruct errc; [injection H as <-; (eexists; split; [reflexivity|]; split; [reflexivity|]; left; reflexivity)|].
    unfold steps. cbn [frun fstep f_crashed f_pc f_errclosed f_errq]. destruct (length errq <? serr_cap)%nat; [|discriminate]. injection H as <-. destruct d; (eexists; split; [reflexivity|]; split; [reflexivity|]; right; cbn; auto).
  - destruct pc; cbn in Hq; try contradiction; subst lock; cbn in H; try discriminate. injection H as <-. destruct q as [|b q]; [|destruct out]; (eexists; split; [reflexivity|]; split; [reflexivity|]; right; cbn; auto).
  - destruct pc; cbn in Hq; try contradiction; subst lock; cbn in H; try discriminate. destruct out; injection H as <-; (eexists; split; [reflexivity|]; split; [reflexivity|]); [right; cbn; auto|left; reflexivity].
  - destruct pc; cbn in Hq; try contradiction; subst lock; cbn in H; try discriminate. destruct comp; injection H as <-; (eexists; split; [reflexivity|]; split; [reflexivity|]); [left; reflexivity|right; cbn; auto].
  - destruct pc; cbn in Hq; try contradiction; subst lock; cbn in H; try discriminate. destruct errc; injection H as <-; (eexists; split; [reflexivity|]; split; [reflexivity|]); [left; reflexivity|right; cbn; auto].
  - destruct errq; [discriminate|]. injection H as <-. (eexists; split; [reflexivity|]; split; [reflexivity|]; right; cbn; auto).
Qed.

Lemma complete_run acts : forall s s0, quiet s -> srun (abs s) acts = Some s0 -> exists facts s', frun s facts = Some s' /\ abs s' = s0 /\ quiet s'.
Proof.
  induction acts as [|a acts IH]; intros s s0 Q H; [injection H as <-; exists [], s; auto|]. cbn [srun] in H. destruct (sstep (abs s) a) as [s1|] eqn:Es; [|discriminate].
  destruct (steps_sound s a s1 Q Es) as (s2 & R2 & <- & Q2). destruct (IH s2 s0 Q2 H) as (facts & s' & R & E & Q'). exists (steps s a ++ facts), s'. rewrite frun_app, R2. auto.
Qed.

(** Conversely the atomic model has no behaviour that the code at this granularity lacks: each of its
    executions is reached, with nobody inside Send. *)
Theorem C95_complete : forall sacts s0, srun sender_init sacts = Some s0 ->
  exists acts s, frun fine_init acts = Some s /\ (s_crashed s0 = false -> forall i, f_users s i = UIdle) /\
    s_log s0 = f_log s /\ s_goterr s0 = f_goterr s /\ s_errq s0 = f_errq s /\ s_errclosed s0 = f_errclosed s /\ s_end s0 = f_end s /\ s_completed s0 = f_completed s /\ s_crashed s0 = f_crashed s /\
    (s_crashed s0 = false -> s_queue s0 = f_queue s /\ s_out s0 = f_out s).
Proof.
  intros sacts s0 H. rewrite <- abs_init in H. assert (Q : quiet fine_init) by (right; split; [reflexivity|reflexivity]).
  destruct (complete_run sacts _ _ Q H) as (acts & s & R & <- & Qs). exists acts, s. split; [exact R|].
  split; [intros Hc; destruct Qs as [Qs|Qs]; [cbn in Hc; congruence|exact (proj1 Qs)]|]. repeat (split; [reflexivity|]).
  intros Hc. cbn [abs s_queue s_out s_crashed] in *. destruct Qs as [Qs|[_ Qs]]; [congruence|]. unfold abs_queue, abs_out. destruct (f_pc s); try contradiction; auto.
Qed.
Print Assumptions C95_complete.

(** ** progress *)
(** A Send that waits for the lock waits for another Send that can go on, or for the goroutine, which
    can go on unless the channel of errors is full. *)
Theorem C95_waiting : forall acts s i f, frun fine_init acts = Some s -> f_crashed s = false -> f_users s i = UWant f -> fstep s (FAcquire i) = None ->
  (exists j a s', j <> i /\ In a [FRead j; FPut j; FRelease j] /\ fstep s a = Some s') \/
  (exists a s', In a [FTestLen; FNet 0 WNoBufs; FConsume; FPushErrWrite; FDrop; FRealloc; FGive] /\ fstep s a = Some s') \/
  (exists d e, f_pc s = FErrWrite d e /\ (serr_cap <= length (f_errq s))%nat).
Proof.
  intros acts s i f H Hc Hu Hn. destruct (reach_finv _ _ H) as (cur & [Ig Iu _ _ _]). unfold fstep in Hn. rewrite Hc, Hu in Hn. destruct (f_lock s) as [[j|]|] eqn:El; [| |discriminate].
  - left. assert (Hh : user_holds (f_users s j)) by (apply Iu; reflexivity). assert (Hj : j <> i) by (intros ->; rewrite Hu in Hh; exact Hh).
    destruct (f_users s j) eqn:Ej; try (exfalso; exact Hh); [exists j, (FRead j)|exists j, (FPut j)|exists j, (FRelease j)]; (eexists; split; [exact Hj|]; split; [cbn; auto|]; unfold fstep; rewrite Hc, Ej; reflexivity).
  - right. assert (Hh : go_holds (f_pc s)) by (apply Ig; reflexivity).
    destruct (f_pc s) eqn:Ep; try (exfalso; exact Hh).
    + left. exists FTestLen. eexists. split; [cbn; auto|]. unfold fstep. rewrite Hc, Ep. reflexivity.
    + left. exists (FNet 0 WNoBufs). unfold fstep. rewrite Hc, Ep. destruct (f_out s); (eexists; split; [cbn; auto|reflexivity]).
    + left. exists FConsume. eexists. split; [cbn; auto|]. unfold fstep. rewrite Hc, Ep. reflexivity.
    + destruct (f_errclosed s) eqn:Ex; [left; exists FPushErrWrite; unfold fstep; rewrite Hc, Ep, Ex; eexists; split; [cbn; auto|reflexivity]|].
      destruct (length (f_errq s) <? serr_cap)%nat eqn:Eq; [left; exists FPushErrWrite; unfold fstep; rewrite Hc, Ep, Ex, Eq; eexists; split; [cbn; auto|reflexivity]|].
      right. apply Nat.ltb_ge in Eq. eauto.
    + left. exists FDrop. eexists. split; [cbn; auto 10|]. unfold fstep. rewrite Hc, Ep. reflexivity.
    + left. exists FRealloc. eexists. split; [cbn; auto 10|]. unfold fstep. rewrite Hc, Ep. reflexivity.
    + left. exists FGive. eexists. split; [cbn; auto 10|]. unfold fstep. rewrite Hc, Ep. reflexivity.
Qed.
Print Assumptions C95_waiting.

(** ** examples *)
(** two goroutines in Send at the same time, then a flush over a connection *)
Definition two_users : list faction :=
  [FCall 1 (bs "a"); FCall 2 (bs "b"); FAcquire 2; FTick; FRead 2; FTestOut; FPut 2; FConnected None; FRelease 2; FAcquire 1; FRead 1; FPut 1; FRelease 1;
   FTake; FTestLen; FCall 1 (bs "c"); FNet 2 WOk; FConsume; FTestLen; FRealloc; FGive; FAcquire 1].
(** goroutine 1 may not take the lock that goroutine 2 holds *)
Example C95_nonvacuous :
  (exists s, frun fine_init two_users = Some s /\ f_log s = [EOpen 0; EWrite 0 (bs "ba")] /\ f_queue s = [] /\ ~ race s /\ calls 1 two_users = [bs "a"; bs "c"] /\
     stored (fun _ => []) two_users = [(2, bs "b"); (1, bs "a")]%nat) /\
  frun fine_init [FCall 1 (bs "a"); FCall 2 (bs "b"); FAcquire 2; FRead 2; FAcquire 1] = None.
Proof.
  split; [|vm_compute; reflexivity]. assert (H : exists s, frun fine_init two_users = Some s /\ f_end s = false /\ f_log s = [EOpen 0; EWrite 0 (bs "ba")] /\ f_queue s = []).
  { eexists. split; [vm_compute; reflexivity|]. split; [reflexivity|]. split; vm_compute; reflexivity. }
  destruct H as (s & R & He & H1 & H2). exists s. split; [exact R|]. split; [exact H1|]. split; [exact H2|]. split; [exact (C95_no_race_before_end _ _ R He)|]. split; vm_compute; reflexivity.
Qed.
Print Assumptions C95_nonvacuous.

(** End during a Send is a data race *)
Theorem C95_end_race_refuted : ~ (forall acts s, frun fine_init acts = Some s -> ~ race s).
Proof.
  intros H. assert (Hr : exists s, frun fine_init [FCall 1 (bs "a"); FAcquire 1; FRead 1; FEndCall; FSelectEnd] = Some s /\ f_pc s = FDrain /\ f_users s 1%nat = URead (bs "a") []).
  { eexists. split; [vm_compute; reflexivity|]. split; vm_compute; reflexivity. }
  destruct Hr as (s & R & Hp & Hu). apply (H _ _ R). apply (C95_race_iff _ _ R). eauto.
Qed.
Print Assumptions C95_end_race_refuted.

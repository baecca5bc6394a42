(** PropLive3.v -- C101: the Sender with concurrent Sends, access by access, never spins nor gets stuck. *)
From Coq Require Import ZifyBool ZifyNat.
From Verif Require Import Base BaseFacts MTransport MSender MSenderFine LSender PropSender PropSender2 PropLive PropLive2 PropFine PropConcurrent.

(** ** specification *)
(** What gives the Sender more to do: a new Send, a tick, a network operation that fails. *)
Definition is_call (a : faction) : bool := match a with FCall _ _ => true | _ => false end.
Definition is_return (a : faction) : bool := match a with FRelease _ => true | _ => false end.
Definition net_failure (a : faction) : bool := match a with FConnected (Some _) | FNet _ WNoBufs | FNet _ (WErr _) => true | _ => false end.
Definition tick_or_failure (a : faction) : bool := match a with FTick => true | _ => net_failure a end.
Definition count {A} (p : A -> bool) (l : list A) : nat := length (filter p l).
(** Sends that have begun and not returned *)
Definition under_way (acts : list faction) : nat := count is_call acts - count is_return acts.
(** Nothing can happen but a new Send, a tick, End or a failure *)
Definition stuck (s : fstate) : Prop := forall a, is_call a = false -> tick_or_failure a = false -> a <> FEndCall -> fstep s a = None.

(** ** counting *)
Lemma count_app {A} (p : A -> bool) a b : count p (a ++ b) = (count p a + count p b)%nat.
Proof. unfold count. rewrite filter_app, app_length. reflexivity. Qed.
Lemma count_cons {A} (p : A -> bool) a l : count p (a :: l) = ((if p a then 1 else 0) + count p l)%nat.
Proof. unfold count. cbn [filter]. destruct (p a); reflexivity. Qed.

Lemma counts_length (l1 : list nat) : forall l2, (forall i, count_occ Nat.eq_dec l1 i <= count_occ Nat.eq_dec l2 i)%nat -> (length l1 <= length l2)%nat.
Proof.
  induction l1 as [|x l1 IH]; intros l2 H; [cbn; lia|].
  assert (Hin : In x l2). { apply (count_occ_In Nat.eq_dec). specialize (H x). rewrite count_occ_cons_eq in H by reflexivity. lia. }
  apply in_split in Hin as (a & b & ->). rewrite app_length. cbn [length]. rewrite Nat.add_succ_r, <- app_length. apply le_n_S. apply IH. intros i. specialize (H i).
  rewrite count_occ_app in *. cbn [count_occ] in H. destruct (Nat.eq_dec x i); lia.
Qed.

Definition who_calls (a : faction) : list nat := match a with FCall i _ => [i] | _ => [] end.
Definition who_acquires (a : faction) : list nat := match a with FAcquire i => [i] | _ => [] end.
Definition who_reads (a : faction) : list nat := match a with FRead i => [i] | _ => [] end.
Definition who_puts (a : faction) : list nat := match a with FPut i => [i] | _ => [] end.
Definition who_returns (a : faction) : list nat := match a with FRelease i => [i] | _ => [] end.
Definition is_acquire (a : faction) : bool := match a with FAcquire _ => true | _ => false end.
Definition is_read (a : faction) : bool := match a with FRead _ => true | _ => false end.
Definition is_put (a : faction) : bool := match a with FPut _ => true | _ => false end.

Lemma who_count (w : faction -> list nat) (p : faction -> bool) acts : (forall a, length (w a) = if p a then 1%nat else 0%nat) -> length (flat_map w acts) = count p acts.
Proof. intros H. induction acts as [|a acts IH]; [reflexivity|]. cbn [flat_map]. rewrite app_length, IH, count_cons, H. reflexivity. Qed.

Definition n (w : faction -> list nat) (i : nat) (acts : list faction) : nat := count_occ Nat.eq_dec (flat_map w acts) i.
(** how far each goroutine is *)
Definition stage (u : upc) (c a r p e : nat) : Prop :=
  match u with
  | UIdle => c = e /\ a = e /\ r = e /\ p = e
  | UWant _ => c = S e /\ a = e /\ r = e /\ p = e
  | UHeld _ => c = S e /\ a = S e /\ r = e /\ p = e
  | URead _ _ => c = S e /\ a = S e /\ r = S e /\ p = e
  | UStored => c = S e /\ a = S e /\ r = S e /\ p = S e
  end%nat.

Lemma n_snoc w i acts a : n w i (acts ++ [a]) = (n w i acts + count_occ Nat.eq_dec (w a) i)%nat.
Proof. unfold n. rewrite flat_map_app, count_occ_app. cbn [flat_map]. rewrite app_nil_r. reflexivity. Qed.

Lemma users_kept s a s' i : fstep s a = Some s' -> (forall w, In w [who_calls; who_acquires; who_reads; who_puts; who_returns] -> count_occ Nat.eq_dec (w a) i = 0%nat) -> f_users s' i = f_users s i.
Proof.
  intros H Hw. unfold fstep in H. destruct (f_crashed s); [discriminate|].
  assert (Hu : forall j x, (forall w, In w [who_calls; who_acquires; who_reads; who_puts; who_returns] -> count_occ Nat.eq_dec (w a) i = 0%nat) -> (count_occ Nat.eq_dec [j] i = 0%nat) -> upd_user (f_users s) j x i = f_users s i).
  { intros j x _ Hj. apply upd_other. intros ->. rewrite count_occ_cons_eq in Hj by reflexivity. lia. }
  destruct a; cbn [In] in Hw.
  1-5: destruct (f_users s i0) eqn:Eu; try discriminate; try (destruct (f_lock s); [discriminate|]); injection H as <-; cbn [user_to f_users]; apply Hu; [exact Hw|].
  1: exact (Hw who_calls (or_introl eq_refl)).
  1: exact (Hw who_acquires (or_intror (or_introl eq_refl))).
  1: exact (Hw who_reads (or_intror (or_intror (or_introl eq_refl)))).
  1: exact (Hw who_puts (or_intror (or_intror (or_intror (or_introl eq_refl))))).
  1: exact (Hw who_returns (or_intror (or_intror (or_intror (or_intror (or_introl eq_refl)))))).
  all: clear Hw Hu; repeat match type of H with
    | Some _ = Some _ => injection H as <-; reflexivity
    | None = Some _ => discriminate H
    | context [match ?x with _ => _ end] => destruct x
    end.
Qed.

Lemma stages acts : forall s i, frun fine_init acts = Some s ->
  stage (f_users s i) (n who_calls i acts) (n who_acquires i acts) (n who_reads i acts) (n who_puts i acts) (n who_returns i acts).
Proof.
  induction acts as [|a acts IH] using rev_ind; intros s i H; [injection H as <-; cbn; auto|].
  rewrite frun_app in H. destruct (frun fine_init acts) as [s0|] eqn:E0; [|discriminate]. cbn [frun] in H. destruct (fstep s0 a) as [s1|] eqn:Es; [|discriminate]. injection H as ->.
  specialize (IH s0 i eq_refl). rewrite !n_snoc.
  assert (Hkeep : (forall w, In w [who_calls; who_acquires; who_reads; who_puts; who_returns] -> count_occ Nat.eq_dec (w a) i = 0%nat) ->
    stage (f_users s i) (n who_calls i acts + count_occ Nat.eq_dec (who_calls a) i) (n who_acquires i acts + count_occ Nat.eq_dec (who_acquires a) i) (n who_reads i acts + count_occ Nat.eq_dec (who_reads a) i)
      (n who_puts i acts + count_occ Nat.eq_dec (who_puts a) i) (n who_returns i acts + count_occ Nat.eq_dec (who_returns a) i)).
  { intros Hw. rewrite (users_kept s0 a s i Es Hw), !Hw by (cbn [In]; tauto). rewrite !Nat.add_0_r. exact IH. }
  destruct a; try (apply Hkeep; intros w [<-|[<-|[<-|[<-|[<-|[]]]]]]; reflexivity);
    (destruct (Nat.eq_dec i0 i) as [<-|Hi];
     [|apply Hkeep; intros w [<-|[<-|[<-|[<-|[<-|[]]]]]]; try reflexivity; cbn [who_calls who_acquires who_reads who_puts who_returns]; rewrite count_occ_cons_neq by exact Hi; reflexivity]);
    cbn [who_calls who_acquires who_reads who_puts who_returns count_occ]; destruct (Nat.eq_dec i0 i0) as [_|K]; try congruence;
    unfold fstep in Es; destruct (f_crashed s0); try discriminate; destruct (f_users s0 i0) eqn:Eu; try discriminate; try (destruct (f_lock s0); [discriminate|]);
    injection Es as <-; cbn [user_to f_users]; rewrite upd_same; cbn [stage] in *; lia.
Qed.

Lemma counts acts s : frun fine_init acts = Some s ->
  (count is_return acts <= count is_put acts <= count is_read acts /\ count is_read acts <= count is_acquire acts <= count is_call acts)%nat.
Proof.
  intros H.
  rewrite <- (who_count who_calls is_call), <- (who_count who_acquires is_acquire), <- (who_count who_reads is_read), <- (who_count who_puts is_put), <- (who_count who_returns is_return) by (intros []; reflexivity).
  assert (Hs : forall i, (n who_returns i acts <= n who_puts i acts <= n who_reads i acts /\ n who_reads i acts <= n who_acquires i acts <= n who_calls i acts)%nat).
  { intros i. pose proof (stages acts s i H) as Hst. destruct (f_users s i); cbn [stage] in Hst; lia. }
  repeat split; apply counts_length; intros i; specialize (Hs i); unfold n in Hs; lia.
Qed.

(** the Sends still to finish in [more] *)
Lemma more_counts acts more s s' : frun fine_init acts = Some s -> frun s more = Some s' ->
  (count is_acquire more <= under_way acts + count is_call more /\ count is_read more <= under_way acts + count is_call more /\
   count is_put more <= under_way acts + count is_call more /\ count is_return more <= under_way acts + count is_call more)%nat.
Proof.
  intros H H'. assert (Hall : frun fine_init (acts ++ more) = Some s') by (rewrite frun_app, H; exact H').
  pose proof (counts _ _ H) as (H1 & H2). pose proof (counts _ _ Hall) as (H3 & H4). rewrite !count_app in H3, H4. unfold under_way. lia.
Qed.

(** ** silent steps of the goroutine *)
Definition is_silent (a : faction) : bool := match a with FTestOut | FConsume | FDrop | FRealloc | FGive => true | _ => false end.
Definition silent (s : fstate) (a : faction) : bool := is_silent a || match a with FTestLen => match f_queue s with [] => false | _ => true end | _ => false end.
Definition local (s : fstate) : nat :=
  match f_pc s with
  | FEntry _ => 1
  | FLoop _ => match f_queue s with [] => 0 | _ => 1 end
  | FStore _ _ _ (WErr _) => 1
  | FStore _ q k _ => 2
  | FForget _ | FCap _ => 2
  | FUnlock _ => 1
  | _ => 0
  end.
Definition is_user (a : faction) : bool := match a with FCall _ _ | FAcquire _ | FRead _ | FRelease _ => true | _ => false end.

(** a step of the goroutine or of the user on the channels is silent or stands for one atomic action *)
Lemma step_kinds cur s a s' : finv cur s -> fstep s a = Some s' ->
  (length (step_of s a) + (if silent s a then 1 else 0) + (if is_user a then 1 else 0) = 1)%nat /\
  (local s' + (if silent s a then 1 else 0) <= local s + 2 * length (step_of s a))%nat.
Proof.
  intros [Ig Iu Ir Ip Ic] H. unfold fstep in H. destruct (f_crashed s) eqn:Ec; [discriminate|]. unfold silent, local.
  destruct a; cbn [step_of is_silent is_user orb length].
  1-5: destruct (f_users s i) eqn:Eu; try discriminate; try (destruct (f_lock s) eqn:El; [discriminate|]); injection H as <-; cbn [user_to f_pc f_queue length]; split; try lia.
  - (* FPut *) assert (El : f_lock s = Some (OUser i)) by (apply Iu; rewrite Eu; exact Logic.I). assert (Hng : ~ go_holds (f_pc s)) by (rewrite <- Ig, El; discriminate).
    destruct (f_pc s); cbn [go_holds] in Hng; try lia; tauto.
  - destruct (f_pc s) eqn:Ep; try discriminate. injection H as <-. fin. rewrite ?Ep. lia.
  - injection H as <-. destruct (f_end s); fin; lia.
  - destruct (f_pc s) eqn:Ep; try discriminate. destruct (f_end s); [|discriminate]. injection H as <-. fin. lia.
  - destruct (f_pc s) eqn:Ep; try discriminate. injection H as <-. fin. destruct (f_out s); lia.
  - destruct (f_pc s) eqn:Ep; try discriminate. destruct err; injection H as <-; fin; lia.
  - destruct (f_pc s) eqn:Ep; try discriminate. destruct (f_errclosed s); [injection H as <-; fin; rewrite Ep; lia|]. destruct (_ <? _)%nat; [|discriminate]. injection H as <-. fin. destruct d; cbn [back]; lia.
  - destruct (f_pc s) eqn:Ep; try discriminate. destruct (f_lock s); [discriminate|]. injection H as <-. fin. destruct (f_queue s); lia.
  - destruct (f_pc s) eqn:Ep; try discriminate. injection H as <-. fin. destruct (f_queue s); cbn [length]; lia.
  - destruct (f_pc s) as [| | | | | |d q| | | | | | | | | |] eqn:Ep; try discriminate. destruct (f_out s); [destruct (_ && _); [|discriminate]|]; injection H as <-; fin; rewrite ?Ep; destruct r; lia.
  - destruct (f_pc s) as [| | | | | | |d q k r| | | | | | | | |] eqn:Ep; try discriminate. injection H as <-. fin. destruct r; try lia. destruct (consume k q); lia.
  - destruct (f_pc s) eqn:Ep; try discriminate. destruct (f_errclosed s); [injection H as <-; fin; rewrite Ep; lia|]. destruct (_ <? _)%nat; [|discriminate]. injection H as <-. fin. lia.
  - destruct (f_pc s) eqn:Ep; try discriminate. injection H as <-. fin. lia.
  - destruct (f_pc s) eqn:Ep; try discriminate. injection H as <-. fin. lia.
  - destruct (f_pc s) eqn:Ep; try discriminate. injection H as <-. fin. destruct d; cbn [back]; lia.
  - destruct (f_pc s) eqn:Ep; try discriminate. injection H as <-. fin. destruct (f_queue s); lia.
  - destruct (f_pc s) eqn:Ep; try discriminate. destruct (f_out s); injection H as <-; fin; rewrite ?Ep; lia.
  - destruct (f_pc s) eqn:Ep; try discriminate. destruct (f_completed s); injection H as <-; fin; rewrite ?Ep; lia.
  - destruct (f_pc s) eqn:Ep; try discriminate. destruct (f_errclosed s); injection H as <-; fin; rewrite ?Ep; lia.
  - destruct (f_errq s); [discriminate|]. injection H as <-. fin. lia.
Qed.

Lemma local_le s : (local s <= 2)%nat.
Proof. unfold local. destruct (f_pc s); try lia; [destruct (f_queue s); lia|destruct r; lia]. Qed.

Lemma steps_bound more : forall cur s s', finv cur s -> frun s more = Some s' ->
  (length more + local s' <= 3 * length (coarse s more) + count is_user more + local s)%nat.
Proof.
  induction more as [|a more IH]; intros cur s s' I H; [injection H as <-; cbn; lia|]. cbn [frun] in H. cbn [coarse].
  destruct (fstep s a) as [s1|] eqn:Es; [|discriminate]. pose proof (step_kinds cur s a s1 I Es) as [K1 K2].
  pose proof (IH _ _ _ (step_finv _ _ _ _ I Es) H) as HI. rewrite app_length, count_cons. cbn [length]. destruct (silent s a), (is_user a); lia.
Qed.

Lemma coarse_disturbances more : forall cur s s', finv cur s -> frun s more = Some s' ->
  (disturbances (coarse s more) = count tick_or_failure more + count is_put more)%nat.
Proof.
  induction more as [|a more IH]; intros cur s s' I H; [reflexivity|]. cbn [frun] in H. cbn [coarse].
  destruct (fstep s a) as [s1|] eqn:Es; [|discriminate]. specialize (IH _ _ _ (step_finv _ _ _ _ I Es) H).
  unfold disturbances in *. rewrite filter_app, app_length, IH, !count_cons.
  destruct a; cbn [step_of filter disturbance tick_or_failure net_failure is_put length]; try lia.
  - unfold fstep in Es. destruct (f_crashed s); [discriminate|]. destruct (f_users s i); try discriminate. cbn. lia.
  - destruct err; cbn; lia.
  - destruct (f_queue s); cbn; lia.
  - destruct r; cbn; lia.
Qed.

(** ** C101 *)
(** Whatever the interleaving, the number of steps is bounded by the Sends under way or begun, the
    ticks and the failures of the network: nobody spins. *)
Theorem C101_bounded_work : forall acts s more s', frun fine_init acts = Some s -> frun s more = Some s' ->
  (length more <= 47 + 22 * (under_way acts + count is_call more) + 18 * count tick_or_failure more)%nat.
Proof.
  intros acts s more s' H H'. destruct (reach_finv acts s H) as (cur & I).
  pose proof (steps_bound more cur s s' I H') as Hb. pose proof (more_counts _ _ _ _ H H') as (M1 & M2 & M3 & M4). pose proof (local_le s) as Hl.
  assert (Hu : count is_user more = (count is_call more + count is_acquire more + count is_read more + count is_return more)%nat).
  { clear. induction more as [|a more IH]; [reflexivity|]. rewrite !count_cons, IH. destruct a; cbn; lia. }
  destruct (coarse_run acts _ _ _ init_finv H) as (R1 & _). destruct (coarse_run more cur s s' I H') as (R2 & _).
  pose proof (C92_bounded_work _ _ _ _ R1 R2) as Hc. rewrite (coarse_disturbances more cur s s' I H') in Hc.
  lia.
Qed.
Print Assumptions C101_bounded_work.

Lemma coarse_end a : forall s s', frun s a = Some s' -> In FEndCall a -> In AEndCall (coarse s a).
Proof.
  induction a as [|x a IH]; intros s s' H Hin; [destruct Hin|]. cbn [frun] in H. cbn [coarse]. destruct (fstep s x) as [s1|] eqn:Es; [|discriminate].
  apply in_or_app. destruct Hin as [->|Hin]; [left; left; reflexivity|right; exact (IH _ _ H Hin)].
Qed.

Lemma end_called acts s : frun fine_init acts = Some s -> (f_end s = true <-> In FEndCall acts).
Proof.
  intros H. destruct (coarse_run acts _ _ _ init_finv H) as (R & _). pose proof (v_end _ _ (srun_inv _ _ R)) as He. change (s_end (abs s)) with (f_end s) in He.
  rewrite He. split; intros K; [|exact (coarse_end _ _ _ H K)]. destruct (in_dec (fun a b : faction => ltac:(repeat decide equality) : {a = b} + {a <> b}) FEndCall acts) as [Hi|Hi]; [exact Hi|].
  exfalso. exact (coarse_no_end acts _ Hi K).
Qed.

(** Where only a new Send, a tick, End or a failure could happen, every Send has returned, and the
    Sender waits for a tick, End not having been called, or End has returned. *)
Theorem C101_at_rest : forall acts s, frun fine_init acts = Some s -> f_crashed s = false -> stuck s ->
  (forall i, f_users s i = UIdle) /\ ((fstep s FTick <> None /\ ~ In FEndCall acts) \/ f_completed s = true).
Proof.
  intros acts s H Hc Hs. destruct (reach_finv _ _ H) as (cur & [Ig Iu Ir Ip Ic]).
  destruct (coarse_run acts _ _ _ init_finv H) as (R & _). pose proof (srun_inv _ _ R) as J.
  assert (Hno : forall a, is_call a = false -> tick_or_failure a = false -> a <> FEndCall -> fstep s a <> None -> False) by (intros a H1 H2 H3 H4; exact (H4 (Hs a H1 H2 H3))).
  assert (Heq : f_errq s = []).
  { destruct (f_errq s) as [|e q] eqn:Eq; [reflexivity|]. exfalso. apply (Hno FUserErr); try reflexivity; [discriminate|]. unfold fstep. rewrite Hc, Eq. discriminate. }
  assert (Hu : forall i, ~ user_holds (f_users s i)).
  { intros i Hh. destruct (f_users s i) as [|f|f|f q|] eqn:Eu; try exact Hh; [apply (Hno (FRead i))|apply (Hno (FPut i))|apply (Hno (FRelease i))]; try reflexivity; try discriminate; unfold fstep; rewrite Hc, Eu; discriminate. }
  assert (Hlock : f_lock s = None \/ go_holds (f_pc s)).
  { destruct (f_lock s) as [[i|]|] eqn:El; [|right; apply Ig; reflexivity|left; reflexivity]. exfalso. apply (Hu i). apply Iu. reflexivity. }
  assert (Hpc : f_pc s = FSelect \/ f_pc s = FExit).
  { destruct (f_pc s) as [|d|d|d e|d|d|d q|d q k r|d e|d|d|d| | | | |] eqn:Ep; auto; exfalso.
    - apply (Hno FTestOut); try reflexivity; try discriminate. unfold fstep. rewrite Hc, Ep. discriminate.
    - apply (Hno (FConnected None)); try reflexivity; try discriminate. unfold fstep. rewrite Hc, Ep. discriminate.
    - apply (Hno FPushErrConn); try reflexivity; try discriminate. unfold fstep. rewrite Hc, Ep, Heq. destruct (f_errclosed s); discriminate.
    - destruct Hlock as [Hl|[]]. apply (Hno FTake); try reflexivity; try discriminate. unfold fstep. rewrite Hc, Ep, Hl. discriminate.
    - apply (Hno FTestLen); try reflexivity; try discriminate. unfold fstep. rewrite Hc, Ep. discriminate.
    - apply (Hno (FNet (length (concat q)) WOk)); try reflexivity; try discriminate. unfold fstep. rewrite Hc, Ep, Nat.leb_refl, Nat.eqb_refl. destruct (f_out s); discriminate.
    - apply (Hno FConsume); try reflexivity; try discriminate. unfold fstep. rewrite Hc, Ep. discriminate.
    - apply (Hno FPushErrWrite); try reflexivity; try discriminate. unfold fstep. rewrite Hc, Ep, Heq. destruct (f_errclosed s); discriminate.
    - apply (Hno FDrop); try reflexivity; try discriminate. unfold fstep. rewrite Hc, Ep. discriminate.
    - apply (Hno FRealloc); try reflexivity; try discriminate. unfold fstep. rewrite Hc, Ep. discriminate.
    - apply (Hno FGive); try reflexivity; try discriminate. unfold fstep. rewrite Hc, Ep. discriminate.
    - apply (Hno FTestDrain); try reflexivity; try discriminate. unfold fstep. rewrite Hc, Ep. discriminate.
    - apply (Hno FCloseOut); try reflexivity; try discriminate. unfold fstep. rewrite Hc, Ep. destruct (f_out s); discriminate.
    - apply (Hno FCompleted); try reflexivity; try discriminate. unfold fstep. rewrite Hc, Ep. discriminate.
    - apply (Hno FCloseErrs); try reflexivity; try discriminate. unfold fstep. rewrite Hc, Ep. discriminate. }
  split.
  - intros i. assert (Hl : f_lock s = None) by (destruct Hlock as [Hl|Hl]; [exact Hl|destruct Hpc as [E|E]; rewrite E in Hl; destruct Hl]).
    specialize (Hu i). destruct (f_users s i) as [|f|f|f q|] eqn:Eu; [reflexivity| |exfalso; apply Hu; exact Logic.I ..].
    exfalso. apply (Hno (FAcquire i)); try reflexivity; try discriminate. unfold fstep. rewrite Hc, Eu, Hl. discriminate.
  - destruct Hpc as [Ep|Ep].
    + left. split; [unfold fstep; rewrite Hc, Ep; discriminate|]. intros Hin. apply (end_called _ _ H) in Hin.
      apply (Hno FSelectEnd); try reflexivity; try discriminate. unfold fstep. rewrite Hc, Ep, Hin. discriminate.
    + right. change (f_completed s) with (s_completed (abs s)). apply (v_completed _ _ J). right. unfold abs. cbn [s_pc]. rewrite Ep. reflexivity.
Qed.
Print Assumptions C101_at_rest.

Lemma coarse_failures more : forall s, count net_failure more = 0%nat -> forall a, In a (coarse s more) -> failure a = false.
Proof.
  induction more as [|x more IH]; intros s Hf a Hin; [destruct Hin|]. cbn [coarse] in Hin. rewrite count_cons in Hf. apply in_app_or in Hin as [Hin|Hin].
  - destruct x; cbn [step_of net_failure] in *; try contradiction; try (destruct Hin as [<-|[]]; reflexivity).
    + destruct (f_users s i); try contradiction; destruct Hin as [<-|[]]; reflexivity.
    + destruct err; [lia|]. destruct Hin as [<-|[]]; reflexivity.
    + destruct (f_queue s); try contradiction; destruct Hin as [<-|[]]; reflexivity.
    + destruct Hin as [<-|[]]. destruct r; [reflexivity|lia|lia].
  - destruct (fstep s x) as [s1|]; [|destruct Hin]. apply (IH s1); [lia|exact Hin].
Qed.

(** Once a tick is taken and the network does not fail: by the time the next tick can be taken, or End
    returns, all the frames stored before the tick are written, whatever Sends go on meanwhile. *)
Theorem C101_one_tick : forall acts more s, frun fine_init (acts ++ FTick :: more) = Some s -> count net_failure more = 0%nat ->
  fstep s FTick <> None \/ f_completed s = true -> exists rest, written (f_log s) = concat (map snd (stored (fun _ => []) acts)) ++ rest.
Proof.
  intros acts more s H Hf Hw. destruct (coarse_run _ _ _ _ init_finv H) as (R & _).
  rewrite frun_app in H. destruct (frun fine_init acts) as [s0|] eqn:E0; [|discriminate].
  rewrite (coarse_app acts _ _ _ E0) in R. cbn [frun] in H. destruct (fstep s0 FTick) as [s1|] eqn:E1; [|discriminate].
  cbn [coarse] in R. rewrite E1 in R. cbn [step_of app] in R. destruct (coarse_run acts _ _ _ init_finv E0) as (_ & S0 & _). rewrite <- S0.
  apply (C98_one_tick _ (coarse s1 more) (abs s) R).
  - apply coarse_failures. exact Hf.
  - destruct Hw as [Hw|Hw]; [left|right; exact Hw]. unfold fstep in Hw. unfold sstep. change (s_crashed (abs s)) with (f_crashed s). destruct (f_crashed s); [exfalso; apply Hw; reflexivity|].
    unfold abs. cbn [s_pc]. destruct (f_pc s) eqn:Ep; try (exfalso; apply Hw; reflexivity). cbn [abs_pc]. discriminate.
Qed.
Print Assumptions C101_one_tick.

(** After a tick, if nobody calls Send and the network does not fail, every schedule stops after a number of
    steps bounded by the Sends under way; every Send has returned and what was stored before the tick is written. *)
Theorem C101_tick_flushes : forall acts more s, frun fine_init (acts ++ FTick :: more) = Some s -> count is_call more = 0%nat -> count tick_or_failure more = 0%nat ->
  (length more <= 47 + 22 * under_way acts)%nat /\
  (stuck s -> f_crashed s = false -> (forall i, f_users s i = UIdle) /\ exists rest, written (f_log s) = concat (map snd (stored (fun _ => []) acts)) ++ rest).
Proof.
  intros acts more s H Hc Hf.
  assert (Hf' : count net_failure more = 0%nat).
  { clear - Hf. induction more as [|a more IH]; [reflexivity|]. rewrite count_cons in *. rewrite IH by lia. destruct a; cbn [tick_or_failure] in Hf; cbn [net_failure] in *; lia. }
  split.
  - change (FTick :: more) with ([FTick] ++ more) in H. rewrite app_assoc, frun_app in H. destruct (frun fine_init (acts ++ [FTick])) as [s1|] eqn:E1; [|discriminate].
    pose proof (C101_bounded_work _ _ _ _ E1 H) as Hb. rewrite Hc, Hf in Hb. unfold under_way in *. rewrite !count_app in Hb. cbn in Hb. lia.
  - intros Hst Hcr. destruct (C101_at_rest _ _ H Hcr Hst) as [Hu Hr]. split; [exact Hu|]. apply (C101_one_tick _ _ _ H Hf'). destruct Hr as [[Hr _]|Hr]; auto.
Qed.
Print Assumptions C101_tick_flushes.

(** Once End is called, if nobody calls Send, no tick comes and the network does not fail, every schedule stops after
    a bounded number of steps, and then End and every Send have returned, or the process has crashed because
    the Sender had no connection to close. *)
Theorem C101_end_terminates : forall acts s more s', frun fine_init acts = Some s -> In FEndCall acts -> f_crashed s = false -> frun s more = Some s' ->
  ~ In FEndCall more -> count is_call more = 0%nat -> count tick_or_failure more = 0%nat ->
  (length more <= 47 + 22 * under_way acts)%nat /\
  (stuck s' -> ((forall i, f_users s' i = UIdle) /\ f_completed s' = true) \/ (f_crashed s' = true /\ f_out s' = None)).
Proof.
  intros acts s more s' H He Hcs H' Hne Hc Hf. split; [pose proof (C101_bounded_work _ _ _ _ H H') as Hb; rewrite Hc, Hf in Hb; lia|].
  intros Hst. assert (Hall : frun fine_init (acts ++ more) = Some s') by (rewrite frun_app, H; exact H').
  destruct (f_crashed s') eqn:Ecr.
  - right. split; [reflexivity|]. destruct more as [|a more _] using rev_ind; [injection H' as <-; congruence|].
    rewrite app_assoc, frun_app in Hall. destruct (frun fine_init (acts ++ more)) as [s1|] eqn:E1; [|discriminate]. cbn [frun] in Hall. destruct (fstep s1 a) as [s2|] eqn:Es; [|discriminate]. injection Hall as ->.
    destruct (reach_finv _ _ E1) as (cur & [Ig Iu Ir Ip Ic]). destruct (coarse_run _ _ _ _ init_finv E1) as (R & _). pose proof (srun_inv _ _ R) as J.
    unfold fstep in Es. destruct (f_crashed s1) eqn:Ec1; [discriminate|].
    assert (Hx : f_errclosed s1 = true -> f_pc s1 = FExit).
    { intros K. apply (v_errclosed _ _ J) in K. unfold abs in K. cbn [s_pc] in K. destruct (f_pc s1) as [|d|d|d e|d|d|d q|d q k [| |e]|d e|d|d|d| | | | |]; try discriminate K; try reflexivity; try (destruct (f_out s1); discriminate K); destruct d; discriminate K. }
    destruct a; try (repeat match type of Es with
      | Some _ = Some _ => injection Es as <-; cbn in Ecr; congruence
      | None = Some _ => discriminate Es
      | context [match ?x with _ => _ end] => destruct x
      end; fail).
    + exfalso. apply Hne. apply in_or_app. right. left. reflexivity.
    + destruct (f_pc s1) eqn:Ep; try discriminate. destruct (f_errclosed s1); [specialize (Hx eq_refl); congruence|]. destruct (_ <? _)%nat; [|discriminate]. injection Es as <-. cbn in Ecr. congruence.
    + destruct (f_pc s1) eqn:Ep; try discriminate. destruct (f_out s1) eqn:Eo.
      * destruct (_ && _); [|discriminate]. injection Es as <-. cbn in Ecr. congruence.
      * injection Es as <-. cbn. exact Eo.
    + destruct (f_pc s1) eqn:Ep; try discriminate. destruct (f_errclosed s1); [specialize (Hx eq_refl); congruence|]. destruct (_ <? _)%nat; [|discriminate]. injection Es as <-. cbn in Ecr. congruence.
    + destruct (f_pc s1) eqn:Ep; try discriminate. destruct (f_out s1) eqn:Eo; injection Es as <-; [cbn in Ecr; congruence|]. cbn. exact Eo.
    + destruct (f_pc s1) eqn:Ep; try discriminate. destruct (f_completed s1) eqn:Eco; [|injection Es as <-; cbn in Ecr; congruence].
      exfalso. change (f_completed s1) with (s_completed (abs s1)) in Eco. apply (v_completed _ _ J) in Eco. unfold abs in Eco. cbn [s_pc] in Eco. rewrite Ep in Eco. destruct Eco; discriminate.
    + destruct (f_pc s1) eqn:Ep; try discriminate. destruct (f_errclosed s1); [specialize (Hx eq_refl); congruence|]. injection Es as <-. cbn in Ecr. congruence.
  - left. destruct (C101_at_rest _ _ Hall Ecr Hst) as [Hu [[_ Hr]|Hr]]; [exfalso; apply Hr; apply in_or_app; left; exact He|]. split; assumption.
Qed.
Print Assumptions C101_end_terminates.

(** ** examples *)
(** Two Sends under way when the tick comes: the first has stored its frame, the second has just begun. *)
Definition two_sends : list faction := [FCall 1 (bs "abc"); FAcquire 1; FRead 1; FPut 1; FCall 2 (bs "de")].
Definition two_sends_tick : list faction :=
  [FRelease 1; FTestOut; FConnected None; FAcquire 2; FRead 2; FPut 2; FRelease 2; FTake; FTestLen; FNet 5 WOk; FConsume; FTestLen; FRealloc; FGive].
Definition two_sends_end : list faction := [FEndCall; FSelectEnd; FTestDrain; FCloseOut; FCompleted; FCloseErrs].
Lemma idle_users s : (forall i, f_users s i = UIdle) -> f_errq s = [] -> (f_pc s = FSelect /\ f_end s = false) \/ f_pc s = FExit -> stuck s.
Proof.
  intros Hu He Hp a H1 H2 H3. unfold fstep. destruct (f_crashed s); [reflexivity|]. destruct a; try discriminate; try congruence; rewrite ?Hu, ?He; try reflexivity; destruct Hp as [[-> He']| ->]; rewrite ?He'; try reflexivity; try (destruct (f_lock s); reflexivity).
Qed.
Theorem C101_nonvacuous : exists s s',
  frun fine_init (two_sends ++ FTick :: two_sends_tick) = Some s /\ under_way two_sends = 2%nat /\ count is_call two_sends_tick = 0%nat /\ count tick_or_failure two_sends_tick = 0%nat /\
  stuck s /\ f_crashed s = false /\ written (f_log s) = bs "abcde" /\
  frun s two_sends_end = Some s' /\ stuck s' /\ f_completed s' = true.
Proof.
  assert (Hu : forall acts s, frun fine_init acts = Some s -> count is_call acts = count is_return acts -> forall i, f_users s i = UIdle).
  { intros acts s H E i. pose proof (stages _ _ i H) as Hst.
    rewrite <- (who_count who_calls is_call), <- (who_count who_returns is_return) in E by (intros []; reflexivity).
    assert (Hle : forall j, (n who_returns j acts <= n who_calls j acts)%nat) by (intros j; pose proof (stages _ _ j H) as K; destruct (f_users s j); cbn [stage] in K; lia).
    destruct (f_users s i) eqn:Eu; [reflexivity|exfalso ..]; cbn [stage] in Hst;
      (assert (Hlt : (length (i :: flat_map who_returns acts) <= length (flat_map who_calls acts))%nat); [|cbn [length] in Hlt; lia]);
      apply counts_length; intros j; cbn [count_occ]; specialize (Hle j); unfold n in *; destruct (Nat.eq_dec i j) as [<-|]; lia. }
  eexists; eexists. split; [vm_compute; reflexivity|]. do 3 (split; [reflexivity|]). split; [|split; [reflexivity|split; [vm_compute; reflexivity|]]].
  - apply idle_users; [|reflexivity|left; split; reflexivity]. apply (Hu (two_sends ++ FTick :: two_sends_tick)); [vm_compute; reflexivity|reflexivity].
  - split; [vm_compute; reflexivity|]. split; [|reflexivity]. apply idle_users; [|reflexivity|right; reflexivity].
    apply (Hu ((two_sends ++ FTick :: two_sends_tick) ++ two_sends_end)); [vm_compute; reflexivity|reflexivity].
Qed.
Print Assumptions C101_nonvacuous.

(** LSyslog.v -- facts about MSyslog. *)
From Verif Require Import Base BaseFacts Spec MPriority MHelpers MText MTime MSData MMessage MTransport MSender MSyslog LPriority PropPriority PropMessage.

(** ** specification vocabulary: the calls that lead to a Syslog *)
Inductive sys_op := OTestMode | OChannel (sev : Z) | OSub (name : bytes).
(** OSub goes on with the Syslog returned *)
Definition sys_do (s : syslog) (o : sys_op) : res syslog :=
  match o with
  | OTestMode => Val (syslog_test_mode s)
  | OChannel sev => do r <- syslog_channel s sev; Val (fst r)
  | OSub name => syslog_sub s name
  end.
Fixpoint sys_run (s : syslog) (ops : list sys_op) : res syslog :=
  match ops with [] => Val s | o :: more => do s' <- sys_do s o; sys_run s' more end.

Lemma sys_run_snoc ops : forall s o, sys_run s (ops ++ [o]) = do s' <- sys_run s ops; sys_do s' o.
Proof.
  induction ops as [|p ops IH]; intros s o; cbn [app sys_run bind].
  - destruct (sys_do s o); reflexivity.
  - destruct (sys_do s p); cbn [bind]; [apply IH|reflexivity..].
Qed.

(** ** the table of channels *)
Definition table (fac : Z) (host pid app : bytes) (out : option nat) (minsev : nat) : list channel :=
  map (sev_channel fac host pid app out) (seq 0 (S minsev)) ++ repeat DevNull (7 - minsev).

Lemma fill_levels mk n : (n <= 7)%nat -> fill mk (levels n) null_channels = Some (map mk (seq 0 (S n)) ++ repeat DevNull (7 - n)).
Proof. intros H. do 8 (destruct n as [|n]; [reflexivity|]). lia. Qed.

Lemma table_nth fac host pid app out minsev k : (minsev <= 7)%nat -> (k <= 7)%nat ->
  nth_error (table fac host pid app out minsev) k = Some (if (k <=? minsev)%nat then sev_channel fac host pid app out k else DevNull).
Proof.
  intros H1 H2. unfold table. destruct (Nat.leb_spec k minsev).
  - rewrite nth_error_app1 by (rewrite map_length, seq_length; lia). rewrite nth_error_map.
    rewrite (nth_error_nth' (seq 0 (S minsev)) 0%nat) by (rewrite seq_length; lia). rewrite seq_nth by lia. reflexivity.
  - rewrite nth_error_app2 by (rewrite map_length, seq_length; lia). rewrite map_length, seq_length. apply nth_error_repeat. lia.
Qed.

Lemma severity_nat p : (Z.to_nat (priority_severity p) <= 7)%nat.
Proof. pose proof (severity_range p). lia. Qed.

(** ** the state reached *)
(** (was TestMode called; the table: not made yet, or made in test mode or not) *)
Definition mode_step (x : bool * option bool) (o : sys_op) : bool * option bool :=
  match o with
  | OTestMode => (true, snd x)
  | OChannel _ => (fst x, Some (match snd x with Some b => b | None => fst x end))
  | OSub _ => (fst x, Some (fst x))
  end.
Definition mode (ops : list sys_op) : bool * option bool := fold_left mode_step ops (false, None).
(** the app name: sub names joined to that of New *)
Definition app_of (app : bytes) (ops : list sys_op) : bytes := fold_left (fun a o => match o with OSub n => app_join a n | _ => a end) ops app.

Definition host_of (hostname : option bytes) (b : bool) : bytes := if b then bs "localhost" else valid_host (match hostname with Some h => h | None => bs "-" end).
Definition pid_of (pid : Z) (b : bool) : bytes := if b then bs "1234" else itoa pid.

Lemma itoa_nonnil z : itoa z <> [].
Proof. unfold itoa. destruct (z <? 0)%Z; [discriminate|]. apply utoa_nonnil. Qed.

Record sys_inv (hostname : option bytes) (pid : Z) (out : option nat) (minp : Z) (app : bytes) (ops : list sys_op) (s : syslog) : Prop := {
  yi_fac : y_facility s = priority_facility minp;
  yi_sev : y_minsev s = Z.to_nat (priority_severity minp);
  yi_out : y_out s = out;
  yi_app : y_app s = app_of (valid_app app) ops;
  yi_host : y_host s = host_of hostname (fst (mode ops));
  yi_pid : y_pid s = pid_of pid (fst (mode ops));
  yi_chans : y_channels s = match snd (mode ops) with
     | None => None
     | Some b => Some (table (y_facility s) (host_of hostname b) (pid_of pid b) (y_app s) out (y_minsev s)) end }.

Lemma mode_snoc ops o : mode (ops ++ [o]) = mode_step (mode ops) o.
Proof. unfold mode. rewrite fold_left_app. reflexivity. Qed.
Lemma app_of_snoc app ops o : app_of app (ops ++ [o]) = match o with OSub n => app_join (app_of app ops) n | _ => app_of app ops end.
Proof. unfold app_of. rewrite fold_left_app. reflexivity. Qed.

Lemma new_inv hostname pid out minp app s : syslog_new hostname pid out minp app = Some s -> sys_inv hostname pid out minp app [] s.
Proof.
  unfold syslog_new. cbv zeta. destruct app as [|a app]; [discriminate|]. intros E. injection E as <-. constructor; try reflexivity.
  cbn [y_pid]. unfold pid_of. cbn. pose proof (itoa_nonnil pid). destruct (itoa pid); [congruence|reflexivity].
Qed.

Lemma channel_ok hostname pid out minp app ops s sev : sys_inv hostname pid out minp app ops s ->
  exists s', syslog_channel s sev = Val (s', let b := match snd (mode ops) with Some b => b | None => fst (mode ops) end in
    if (Z.to_nat (priority_severity sev) <=? Z.to_nat (priority_severity minp))%nat
    then sev_channel (priority_facility minp) (host_of hostname b) (pid_of pid b) (app_of (valid_app app) ops) out (Z.to_nat (priority_severity sev)) else DevNull) /\
    sys_inv hostname pid out minp app (ops ++ [OChannel sev]) s'.
Proof.
  intros [Hf Hs Ho Ha Hh Hp Hc]. unfold syslog_channel. cbv zeta.
  pose proof (severity_nat minp) as L1. pose proof (severity_nat sev) as L2.
  assert (E : match y_channels s with Some l => Some l | None => fill (sev_channel (y_facility s) (y_host s) (y_pid s) (y_app s) (y_out s)) (levels (y_minsev s)) null_channels end
    = Some (table (y_facility s) (host_of hostname (match snd (mode ops) with Some b => b | None => fst (mode ops) end))
              (pid_of pid (match snd (mode ops) with Some b => b | None => fst (mode ops) end)) (y_app s) out (y_minsev s))).
  { rewrite Hc. destruct (snd (mode ops)); [reflexivity|]. rewrite Hs. rewrite fill_levels by exact L1. unfold table. rewrite Hh, Hp, Ho. reflexivity. }
  rewrite E. rewrite table_nth by (rewrite ?Hs; assumption). eexists. rewrite Hf, Ha, Hs. split; [reflexivity|].
  constructor; cbn [y_facility y_minsev y_out y_app y_host y_pid y_channels]; rewrite ?app_of_snoc, ?mode_snoc; cbn [mode_step fst snd]; auto.
Qed.

Lemma sub_ok hostname pid out minp app ops s name : sys_inv hostname pid out minp app ops s ->
  exists s', syslog_sub s name = Val s' /\ sys_inv hostname pid out minp app (ops ++ [OSub name]) s'.
Proof.
  intros [Hf Hs Ho Ha Hh Hp Hc]. unfold syslog_sub. cbv zeta. pose proof (severity_nat minp) as L1. rewrite Hs, fill_levels by exact L1.
  eexists. split; [reflexivity|].
  constructor; cbn [y_facility y_minsev y_out y_app y_host y_pid y_channels]; rewrite ?app_of_snoc, ?mode_snoc; cbn [mode_step fst snd]; auto.
  - rewrite Ha. reflexivity.
  - unfold table. rewrite Hh, Hp, Ho. reflexivity.
Qed.

Lemma sys_run_inv hostname pid out minp app s0 ops : syslog_new hostname pid out minp app = Some s0 ->
  exists s, sys_run s0 ops = Val s /\ sys_inv hostname pid out minp app ops s.
Proof.
  intros H0. induction ops as [|o ops IH] using rev_ind.
  - exists s0. split; [reflexivity|]. exact (new_inv _ _ _ _ _ _ H0).
  - destruct IH as (s & E & I). rewrite sys_run_snoc, E. cbn [bind]. destruct o as [|sev|name]; cbn [sys_do].
    + eexists. split; [reflexivity|]. destruct I as [Hf Hs Ho Ha Hh Hp Hc].
      constructor; cbn [syslog_test_mode y_facility y_minsev y_out y_app y_host y_pid y_channels]; rewrite ?app_of_snoc, ?mode_snoc; cbn [mode_step fst snd]; auto.
    + destruct (channel_ok _ _ _ _ _ _ _ sev I) as (s' & E' & I'). rewrite E'. cbn [bind fst]. eauto.
    + destruct (sub_ok _ _ _ _ _ _ _ name I) as (s' & E' & I'). rewrite E'. eauto.
Qed.

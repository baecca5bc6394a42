(** PropSyslog.v -- C50 to C56: Syslog and Channel (syslog.go, channel.go). *)
From Verif Require Import Base BaseFacts Spec MPriority MHelpers MText MTime MSData MMessage MParse MTransport MSender MSyslog
  LPriority LText LSyslog PropPriority PropMessage PropParse.

(** ** C50 *)

(** New fails exactly for an empty app name. *)
Theorem C50_new : forall hostname pid out minp app, syslog_new hostname pid out minp app = None <-> app = [].
Proof. intros. unfold syslog_new. cbv zeta. destruct app; split; intros H; try reflexivity; discriminate. Qed.
Print Assumptions C50_new.

(** Whatever was called before on the Syslog made by New or a Syslog derived from it: Channel
    returns, a logging channel exactly for the severities at or below minPriority's, and its
    messages have the facility of minPriority and the severity asked. *)
Theorem C50_severity_filter : forall hostname pid out minp app s0 ops s sev,
  syslog_new hostname pid out minp app = Some s0 -> sys_run s0 ops = Val s ->
  exists s' c, syslog_channel s sev = Val (s', c) /\
    (chan_is_devnull c = false <-> (sev mod 8 <= minp mod 8)%Z) /\
    (chan_is_devnull c = false -> exists x, c = TrueChannel x /\ x_prio x = (8 * (minp / 8 mod 32) + sev mod 8)%Z /\ x_out x = out /\ x_msgid x = bs "-").
Proof.
  intros hostname pid out minp app s0 ops s sev H0 Hr. destruct (sys_run_inv _ _ _ _ _ _ ops H0) as (s1 & E & I).
  rewrite Hr in E. injection E as <-. destruct (channel_ok _ _ _ _ _ _ _ sev I) as (s' & E' & _). eexists. eexists. split; [exact E'|]. cbv zeta.
  pose proof (severity_range minp). pose proof (severity_range sev). rewrite <- !severity_mod.
  destruct (Nat.leb_spec (Z.to_nat (priority_severity sev)) (Z.to_nat (priority_severity minp))) as [L|L].
  - split; [cbn; split; [lia|reflexivity]|]. intros _. unfold sev_channel. eexists. split; [reflexivity|]. cbn [x_prio x_out x_msgid].
    split; [|split; reflexivity]. rewrite Z2Nat.id by lia. rewrite facility_shift, lor_facility_severity by lia. reflexivity.
  - split; [cbn; split; [discriminate|lia]|]. cbn. discriminate.
Qed.
Print Assumptions C50_severity_filter.

Example C50_nonvacuous : exists s0 s s1 s2 c1 c2, syslog_new (Some (bs "h")) 42 (Some 0%nat) (LogUSER + LogNOTICE) (bs "app") = Some s0 /\
  sys_run s0 [OChannel LogDEBUG; OSub (bs "sub"); OTestMode] = Val s /\
  syslog_channel s LogERR = Val (s1, c1) /\ chan_is_devnull c1 = false /\ syslog_channel s LogINFO = Val (s2, c2) /\ chan_is_devnull c2 = true.
Proof. do 6 eexists. repeat (split; [vm_compute; reflexivity|]). reflexivity. Qed.

(** ** C51 *)
Inductive chan_op := CAppName (name : bytes) | CMsgid (id : bytes).
Definition derive1 (c : channel) (o : chan_op) : channel := match o with CAppName n => chan_app_name c n | CMsgid i => chan_msgid c i end.
Definition derive (c : channel) (ops : list chan_op) : channel := fold_left derive1 ops c.

Lemma derive_null ops : derive DevNull ops = DevNull.
Proof. induction ops as [|[n|i] ops IH]; [reflexivity| |]; exact IH. Qed.

Theorem C51_null_channel : forall uni tr c ops, chan_is_devnull c = true ->
  chan_is_devnull (derive c ops) = true /\
  (forall now d, chan_write uni tr (derive c ops) now d = Val (length d, [])) /\
  (forall now d sd, chan_log uni tr (derive c ops) now d sd = Val []) /\
  (forall prefix caller now s, chan_print uni tr (derive c ops) prefix caller now s = Val []).
Proof. intros uni tr c ops H. destruct c; try discriminate. rewrite derive_null. repeat split. Qed.
Print Assumptions C51_null_channel.

(** ... and an operation on any channel that IsDevNull denies does queue (when the Sender exists). *)
Theorem C51_only_null : forall uni tr c now d, (forall x, c = MsgChannel x \/ c = TrueChannel x -> exists o t, x_out x = Some o /\ tr o = Some t) ->
  (chan_is_devnull c = true <-> chan_write uni tr c now d = Val (length d, [])).
Proof.
  intros uni tr c now d H.
  assert (K : forall x o t, x_out x = Some o -> tr o = Some t -> chan_send uni tr (x_out x) (chan_message x now d) <> Val []).
  { intros x o t Eo Et. rewrite Eo. cbn [chan_send]. rewrite Et. unfold send, message_marshal, chan_message, forge_message.
    cbn [m_sd m_text m_prio m_time m_host m_app m_procid m_msgid list_marshal]. cbv zeta. unfold emit. destruct (trim_right d); discriminate. }
  destruct c as [|x|x]; [split; reflexivity| |]; (split; [discriminate|]); intros E; exfalso; (destruct (H x) as (o & t & Eo & Et); [auto|]); apply (K x o t Eo Et);
    cbn [chan_write] in E; destruct (chan_send uni tr (x_out x) (chan_message x now d)); cbn [bind] in E; congruence.
Qed.
Print Assumptions C51_only_null.

(** ** C52 *)

(** the wire format of the message of a channel, with structured data [encs] *)
Definition chan_wire (x : context) (now : gotime) (encs : list bytes) (text : bytes) : bytes :=
  wire (bs "<" ++ decimal (Z.to_N (x_prio x)) ++ bs ">1") (time_format now) (x_host x) (x_app x) (x_pid x) (x_msgid x) (sd_field encs) text.

Theorem C52_write : forall uni tr c x o t now d text, c = MsgChannel x \/ c = TrueChannel x -> (0 <= x_prio x <= 299)%Z -> x_out x = Some o -> tr o = Some t ->
  trimmed d text ->
  chan_write uni tr c now d = Val (length d, [(o, encode t (chan_wire x now [] text))]).
Proof.
  intros uni tr c x o t now d text Hc Hp Ho Ht Hx.
  assert (E : chan_send uni tr (x_out x) (chan_message x now d) = Val [(o, encode t (chan_wire x now [] text))]).
  { rewrite Ho. cbn [chan_send]. rewrite Ht. unfold send. destruct (C11_wire_format uni (chan_message x now d) [] Hp) as [E _]; [constructor|].
    rewrite E. unfold chan_message, forge_message in *. cbn [m_sd m_text m_prio m_time m_host m_app m_procid m_msgid] in *.
    rewrite (C08_trimmed_unique d _ _ (trim_right_spec d) Hx). reflexivity. }
  destruct Hc as [-> | ->]; cbn [chan_write]; rewrite E; reflexivity.
Qed.
Print Assumptions C52_write.

(** Log: one frame if every structured data element encodes; else nothing is queued, and nothing is
    reported, or it panics, as the first element that does not encode. *)
Theorem C52_log : forall uni tr c x o t now d sd text, c = MsgChannel x \/ c = TrueChannel x -> (0 <= x_prio x <= 299)%Z -> x_out x = Some o -> tr o = Some t ->
  trimmed d text ->
  (forall encs, Forall2 (fun s e => sd_marshal uni s = Val (inr e)) sd encs -> chan_log uni tr c now d sd = Val [(o, encode t (chan_wire x now encs text))]) /\
  (forall l1 bad l2 encs, sd = l1 ++ bad :: l2 -> Forall2 (fun s e => sd_marshal uni s = Val (inr e)) l1 encs ->
     (forall e, sd_marshal uni bad = Val (inl e) -> chan_log uni tr c now d sd = Val []) /\
     (sd_marshal uni bad = Panic -> chan_log uni tr c now d sd = Panic)).
Proof.
  intros uni tr c x o t now d sd text Hc Hp Ho Ht Hx.
  set (m := match sd with [] => chan_message x now d | _ => msg_add_sd (chan_message x now d) sd end).
  assert (Em : m_prio m = x_prio x /\ m_time m = now /\ m_host m = x_host x /\ m_app m = x_app x /\ m_procid m = x_pid x /\ m_msgid m = x_msgid x /\ m_sd m = sd /\ m_text m = trim_right d).
  { subst m. destruct sd; repeat split; reflexivity. }
  destruct Em as (E1 & E2 & E3 & E4 & E5 & E6 & E7 & E8).
  assert (El : chan_log uni tr c now d sd = chan_send uni tr (x_out x) m) by (destruct Hc as [-> | ->]; reflexivity).
  rewrite El, Ho. cbn [chan_send]. rewrite Ht. clearbody m. split.
  - intros encs H. unfold send. destruct (C11_wire_format uni m encs) as [E _]; [rewrite E1; exact Hp|rewrite E7; exact H|]. rewrite E.
    unfold chan_wire. rewrite E1, E2, E3, E4, E5, E6, E8, (C08_trimmed_unique d _ _ (trim_right_spec d) Hx). reflexivity.
  - intros l1 bad l2 encs -> H.
    assert (K : (forall b, sd_marshal uni bad <> Val (inr b)) -> list_marshal uni (m_sd m) = sd_marshal uni bad).
    { intros Hb. rewrite E7. unfold list_marshal. assert (Hne : l1 ++ bad :: l2 <> []) by (destruct l1; discriminate).
      destruct (l1 ++ bad :: l2) as [|y ys] eqn:Ey; [congruence|]. rewrite <- Ey. rewrite (marshal_all_fail uni l1 bad l2 encs H Hb).
      destruct (sd_marshal uni bad) as [[e|b]| |]; try reflexivity. exfalso. exact (Hb b eq_refl). }
    split; intros; unfold send, message_marshal; cbv zeta.
    + rewrite K by (intros b Hb; congruence). rewrite H0. reflexivity.
    + rewrite K by (intros b Hb; congruence). rewrite H0. reflexivity.
Qed.
Print Assumptions C52_log.

Lemma all_ws_snoc_lf w : all_ws w -> all_ws (w ++ [LF]).
Proof.
  intros (l & H & ->). exists (l ++ [[LF]]). split; [|rewrite concat_app; reflexivity]. apply Forall_app. split; [exact H|].
  constructor; [cbn; auto 10|constructor].
Qed.

(** The Logger of a channel: Print(s) is a Write of the prefix, the caller for debug channels, and
    s; so one message whose text is that without trailing white space. *)
Theorem C52_logger : forall uni tr c x o t prefix caller now s text, c = MsgChannel x \/ c = TrueChannel x -> (0 <= x_prio x <= 299)%Z -> x_out x = Some o -> tr o = Some t ->
  trimmed (prefix ++ (if (x_prio x mod 8 =? 7)%Z then caller ++ bs ": " else []) ++ s) text ->
  chan_print uni tr c prefix caller now s = Val [(o, encode t (chan_wire x now [] text))].
Proof.
  intros uni tr c x o t prefix caller now s text Hc Hp Ho Ht Hx. unfold chan_print.
  rewrite (C52_write uni tr c x o t now _ text Hc Hp Ho Ht); [reflexivity|].
  assert (E : chan_logger_shortfile c = (x_prio x mod 8 =? 7)%Z) by (rewrite <- severity_mod; destruct Hc as [-> | ->]; reflexivity).
  rewrite E. unfold logger_line. destruct (N.eqb (last s 0%N) LF); [rewrite app_nil_r; exact Hx|].
  destruct Hx as (w & Hw & Ha & Hn). exists (w ++ [LF]). split; [rewrite !app_assoc in *; rewrite Hw; reflexivity|]. split; [|exact Hn].
  clear -Ha. apply all_ws_snoc_lf. exact Ha.
Qed.
Print Assumptions C52_logger.

(** Its flags: the caller is asked for exactly on the channels of severity debug that log something. *)
Theorem C52_logger_flags : forall c, chan_logger_shortfile c = true <-> exists x, (c = MsgChannel x \/ c = TrueChannel x) /\ (x_prio x mod 8 = 7)%Z.
Proof.
  intros c. split.
  - destruct c as [|x|x]; cbn; [discriminate|..]; rewrite severity_mod, Z.eqb_eq; eauto.
  - intros (x & [-> | ->] & H); cbn; rewrite severity_mod, Z.eqb_eq; exact H.
Qed.
Print Assumptions C52_logger_flags.

(** The priority of a channel obtained from a Syslog, and of those derived from it, is 0..255. *)
Lemma derive_context ops : forall c x', derive c ops = MsgChannel x' \/ derive c ops = TrueChannel x' ->
  exists x, (c = MsgChannel x \/ c = TrueChannel x) /\ x_prio x' = x_prio x /\ x_host x' = x_host x /\ x_pid x' = x_pid x /\ x_out x' = x_out x.
Proof.
  induction ops as [|o ops IH]; intros c x' H; [eauto 10|]. cbn [derive fold_left] in H. destruct (IH (derive1 c o) x' H) as (x1 & Hx1 & E).
  destruct c as [|y|y], o as [n|i]; cbn in Hx1; destruct Hx1 as [Hx1|Hx1]; try discriminate; injection Hx1 as <-; exists y; cbn in E; auto 10.
Qed.

Theorem C52_priority_in_range : forall hostname pid out minp app s0 ops s sev s' c cops x,
  syslog_new hostname pid out minp app = Some s0 -> sys_run s0 ops = Val s -> syslog_channel s sev = Val (s', c) ->
  derive c cops = MsgChannel x \/ derive c cops = TrueChannel x ->
  x_prio x = (8 * (minp / 8 mod 32) + sev mod 8)%Z /\ (0 <= x_prio x <= 255)%Z /\ x_out x = out.
Proof.
  intros hostname pid out minp app s0 ops s sev s' c cops x H0 Hr Hc Hd.
  destruct (C50_severity_filter _ _ _ _ _ _ _ _ sev H0 Hr) as (s1 & c1 & E & _ & H). rewrite Hc in E. injection E as <- <-.
  destruct (derive_context _ _ _ Hd) as (y & Hy & E1 & _ & _ & E2).
  destruct H as (z & -> & Hz & Hz2 & _); [destruct Hy as [-> | ->]; reflexivity|].
  destruct Hy as [Hy|Hy]; [discriminate|]. injection Hy as ->. rewrite E1, E2, Hz, Hz2. split; [reflexivity|]. split; [|reflexivity].
  pose proof (Z.mod_pos_bound (minp / 8) 32 ltac:(lia)). pose proof (Z.mod_pos_bound sev 8 ltac:(lia)). lia.
Qed.
Print Assumptions C52_priority_in_range.

Example C52_nonvacuous : exists s0 s c, syslog_new (Some (bs "h")) 42 (Some 0%nat) (LogUSER + LogDEBUG) (bs "app") = Some s0 /\
  syslog_channel s0 LogDEBUG = Val (s, c) /\
  chan_print (fun _ => true) (fun _ => Some TLFEnded) (derive c [CAppName (bs "web"); CMsgid (bs "GET")]) (bs "pre ") (bs "f.go:3") {| t_sec := 0; t_nsec := 0; t_off := 0 |} (bs "hello ")
    = Val [(0%nat, bs "<15>1 1970-01-01T00:00:00Z h app/web 42 GET - pre f.go:3: hello" ++ [LF])].
Proof. do 3 eexists. repeat (split; [vm_compute; reflexivity|]). vm_compute. reflexivity. Qed.

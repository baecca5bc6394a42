(** PropProgram.v -- C78, C83: whole logging programs: any sequence of New, TestMode, Channel,
    SubSyslog, AppName, Msgid, Write, Log and Print calls, on any of the objects obtained, in any
    order; and what is received at the other end. *)
From Verif Require Import Base BaseFacts Spec MPriority MHelpers MText MTime MSData MMessage MParse MTransport MSender MTokenize MReceiver MSyslog
  LPriority LParse LText LTime LSyslog LTokenize PropPriority PropMessage PropParse PropTransport LReceiver LSender PropSender2 PropSender3 PropSyslog PropSyslog2 PropEndToEnd.

(** ** where the objects of a program come from *)

(** the arguments of a New *)
Record birth := { b_host : option bytes; b_pid : Z; b_out : option nat; b_minp : Z; b_app : bytes }.
(** what was called on a Syslog and on those it comes from; the same for a Channel: the Syslog's
    history, the severity, and the derivations *)
Notation sys_history := (birth * list sys_op)%type.
Notation chan_history := (birth * list sys_op * Z * list chan_op)%type.

Fixpoint change_at {A} (l : list A) (i : nat) (f : A -> A) : list A :=
  match l, i with [], _ => [] | x :: l', O => f x :: l' | x :: l', S i' => x :: change_at l' i' f end.

(** the histories after one more call: only the object the call is made on matters *)
Definition told (h : list sys_history * list chan_history) (c : logcall) : list sys_history * list chan_history :=
  let '(ss, cs) := h in
  match c with
  | LNew host pid out minp app => match app with [] => h | _ => (ss ++ [({| b_host := host; b_pid := pid; b_out := out; b_minp := minp; b_app := app |}, [])], cs) end
  | LTestMode i => (change_at ss i (fun x => (fst x, snd x ++ [OTestMode])), cs)
  | LChannel i sev => match nth_error ss i with
      | Some (b, ops) => (change_at ss i (fun x => (fst x, snd x ++ [OChannel sev])), cs ++ [(b, ops, sev, [])])
      | None => h end
  | LSub i name => match nth_error ss i with Some (b, ops) => (ss ++ [(b, ops ++ [OSub name])], cs) | None => h end
  | LAppName k n => match nth_error cs k with Some (b, ops, sev, d) => (ss, cs ++ [(b, ops, sev, d ++ [CAppName n])]) | None => h end
  | LMsgid k i => match nth_error cs k with Some (b, ops, sev, d) => (ss, cs ++ [(b, ops, sev, d ++ [CMsgid i])]) | None => h end
  | _ => h
  end.

Definition is_syslog (h : sys_history) (s : syslog) : Prop :=
  let '(b, ops) := h in exists s0, syslog_new (b_host b) (b_pid b) (b_out b) (b_minp b) (b_app b) = Some s0 /\ sys_run s0 ops = Val s.
Definition is_channel (h : chan_history) (c : channel) : Prop :=
  let '(b, ops, sev, d) := h in
  exists s s' c0, is_syslog (b, ops) s /\ syslog_channel s sev = Val (s', c0) /\ c = derive c0 d.

Lemma Forall2_nth {A B} (R : A -> B -> Prop) l l' : Forall2 R l l' -> forall i y, nth_error l' i = Some y -> exists x, nth_error l i = Some x /\ R x y.
Proof. induction 1 as [|a b l l' H HF IH]; intros [|i] y E; cbn in *; try discriminate; [injection E as <-; eauto|eauto]. Qed.

Lemma Forall2_change {A B} (R : A -> B -> Prop) (set : list B -> nat -> B -> list B)
  (Hs0 : forall i x, set [] i x = []) (Hs1 : forall y l x, set (y :: l) 0%nat x = x :: l) (Hs2 : forall y l i x, set (y :: l) (S i) x = y :: set l i x)
  f l l' : Forall2 R l l' -> forall i y, (forall x, nth_error l i = Some x -> R (f x) y) -> Forall2 R (change_at l i f) (set l' i y).
Proof.
  induction 1 as [|a b l l' H HF IH]; intros i y Hy; [rewrite Hs0; constructor|]. destruct i as [|i]; cbn [change_at].
  - rewrite Hs1. constructor; [apply Hy; reflexivity|exact HF].
  - rewrite Hs2. constructor; [exact H|]. apply IH. intros x Hx. apply Hy. exact Hx.
Qed.

Lemma is_syslog_ok h s : is_syslog h s -> sys_inv (b_host (fst h)) (b_pid (fst h)) (b_out (fst h)) (b_minp (fst h)) (b_app (fst h)) (snd h) s.
Proof.
  destruct h as [b ops]. intros (s0 & H0 & Hr). cbn [fst snd]. destruct (sys_run_inv _ _ _ _ _ _ ops H0) as (s1 & E & I). rewrite Hr in E. injection E as <-. exact I.
Qed.
Lemma is_syslog_snoc b ops o s s' : is_syslog (b, ops) s -> sys_do s o = Val s' -> is_syslog (b, ops ++ [o]) s'.
Proof. intros (s0 & H0 & Hr) Hd. exists s0. split; [exact H0|]. rewrite sys_run_snoc, Hr. exact Hd. Qed.

Definition consistent (h : list sys_history * list chan_history) (g : logstate) : Prop := Forall2 is_syslog (fst h) (g_sys g) /\ Forall2 is_channel (snd h) (g_chan g).

(** The calls on a Syslog or a Channel never fail; only Write, Log and Print can. *)
Definition logs (c : logcall) : bool := match c with LWrite _ _ _ | LLog _ _ _ _ | LPrint _ _ _ _ _ => true | _ => false end.

Lemma step_consistent uni tr h g c r : consistent h g -> log_step uni tr g c = Some r ->
  (logs c = false -> exists g', r = Val g') /\ (forall g', r = Val g' -> consistent (told h c) g' /\ exists ext, g_chan g' = g_chan g ++ ext).
Proof.
  intros [Hs Hc] E. destruct h as [hs hc]. cbn [fst snd] in *.
  assert (Keep : exists ext, g_chan g = g_chan g ++ ext) by (exists []; rewrite app_nil_r; reflexivity).
  destruct c as [host pid out minp app|i|i sev|i name|k name|k id|k now d|k now d sd|k prefix caller now s]; cbn [log_step logs told] in E |- *.
  - injection E as <-. split; [eauto|]. intros g' E. injection E as <-. destruct (syslog_new host pid out minp app) as [s|] eqn:En.
    + assert (Ha : app <> []) by (intros ->; discriminate). destruct app as [|a app]; [congruence|]. split; [|exact Keep]. split; cbn [fst snd g_sys g_chan]; [|exact Hc].
      apply Forall2_app; [exact Hs|]. constructor; [|constructor]. exists s. split; [exact En|reflexivity].
    + apply C50_new in En. subst app. split; [split; assumption|exact Keep].
  - destruct (nth_error (g_sys g) i) as [s|] eqn:Ei; [|discriminate]. injection E as <-. split; [eauto|]. intros g' E. injection E as <-. split; [|exact Keep].
    split; cbn [fst snd g_sys g_chan]; [|exact Hc]. apply (Forall2_change is_syslog set_sys); try reflexivity; [exact Hs|]. intros [b ops] Hx.
    destruct (Forall2_nth _ _ _ Hs _ _ Ei) as ([b' ops'] & Hx' & Hr). rewrite Hx in Hx'. injection Hx' as <- <-. cbn [fst snd]. eapply is_syslog_snoc; [exact Hr|reflexivity].
  - destruct (nth_error (g_sys g) i) as [s|] eqn:Ei; [|discriminate]. destruct (Forall2_nth _ _ _ Hs _ _ Ei) as ([b ops] & Hx & Hr). rewrite Hx.
    destruct (channel_ok _ _ _ _ _ _ _ sev (is_syslog_ok _ _ Hr)) as (s' & Ec & _). match type of Ec with _ = Val (_, ?z) => set (c0 := z) in Ec; clearbody c0 end. rewrite Ec in E. cbn [bind fst snd] in E. injection E as <-. split; [eauto|].
    intros g' E. injection E as <-. cbn [g_chan]. split; [|eauto]. split; cbn [fst snd g_sys g_chan].
    + apply (Forall2_change is_syslog set_sys); try reflexivity; [exact Hs|]. intros [b' ops'] Hx'. rewrite Hx in Hx'. injection Hx' as <- <-. cbn [fst snd].
      eapply is_syslog_snoc; [exact Hr|]. cbn [sys_do]. rewrite Ec. reflexivity.
    + apply Forall2_app; [exact Hc|]. constructor; [|constructor]. exists s, s', c0. auto.
  - destruct (nth_error (g_sys g) i) as [s|] eqn:Ei; [|discriminate]. destruct (Forall2_nth _ _ _ Hs _ _ Ei) as ([b ops] & Hx & Hr). rewrite Hx.
    destruct (sub_ok _ _ _ _ _ _ _ name (is_syslog_ok _ _ Hr)) as (s' & Ec & _). rewrite Ec in E. cbn [bind] in E. injection E as <-. split; [eauto|].
    intros g' E. injection E as <-. split; [|exact Keep]. split; cbn [fst snd g_sys g_chan]; [|exact Hc]. apply Forall2_app; [exact Hs|]. constructor; [|constructor].
    eapply is_syslog_snoc; [exact Hr|exact Ec].
  - destruct (nth_error (g_chan g) k) as [c|] eqn:Ei; [|discriminate]. injection E as <-. split; [eauto|]. intros g' E. injection E as <-.
    destruct (Forall2_nth _ _ _ Hc _ _ Ei) as ([[[b ops] sev] dd] & Hx & Hr). rewrite Hx. cbn [g_chan]. split; [|eauto]. split; cbn [fst snd g_sys g_chan]; [exact Hs|].
    apply Forall2_app; [exact Hc|]. constructor; [|constructor]. destruct Hr as (s & s' & c0 & H1 & H2 & ->). exists s, s', c0. split; [exact H1|]. split; [exact H2|].
    unfold derive. rewrite fold_left_app. reflexivity.
  - destruct (nth_error (g_chan g) k) as [c|] eqn:Ei; [|discriminate]. injection E as <-. split; [eauto|]. intros g' E. injection E as <-.
    destruct (Forall2_nth _ _ _ Hc _ _ Ei) as ([[[b ops] sev] dd] & Hx & Hr). rewrite Hx. cbn [g_chan]. split; [|eauto]. split; cbn [fst snd g_sys g_chan]; [exact Hs|].
    apply Forall2_app; [exact Hc|]. constructor; [|constructor]. destruct Hr as (s & s' & c0 & H1 & H2 & ->). exists s, s', c0. split; [exact H1|]. split; [exact H2|].
    unfold derive. rewrite fold_left_app. reflexivity.
  - destruct (nth_error (g_chan g) k) as [c|] eqn:Ei; [|discriminate]. injection E as <-. split; [discriminate|]. intros g' E.
    match type of E with bind ?q _ = _ => destruct q; cbn [bind] in E; try discriminate end. injection E as <-. split; [split; assumption|exact Keep].
  - destruct (nth_error (g_chan g) k) as [c|] eqn:Ei; [|discriminate]. injection E as <-. split; [discriminate|]. intros g' E.
    match type of E with bind ?q _ = _ => destruct q; cbn [bind] in E; try discriminate end. injection E as <-. split; [split; assumption|exact Keep].
  - destruct (nth_error (g_chan g) k) as [c|] eqn:Ei; [|discriminate]. injection E as <-. split; [discriminate|]. intros g' E.
    match type of E with bind ?q _ = _ => destruct q; cbn [bind] in E; try discriminate end. injection E as <-. split; [split; assumption|exact Keep].
Qed.

Lemma run_consistent uni tr cs : forall h g g', consistent h g -> log_run uni tr g cs = Some (Val g') ->
  consistent (fold_left told cs h) g' /\ exists ext, g_chan g' = g_chan g ++ ext.
Proof.
  induction cs as [|c cs IH]; intros h g g' Hc H; cbn [log_run fold_left] in *.
  - injection H as <-. split; [exact Hc|]. exists []. rewrite app_nil_r. reflexivity.
  - destruct (log_step uni tr g c) as [[g1| |]|] eqn:E; try discriminate. destruct (step_consistent _ _ _ _ _ _ Hc E) as [_ Hv].
    destruct (Hv g1 eq_refl) as [Hc1 [e1 E1]]. destruct (IH _ _ _ Hc1 H) as [Hc2 [e2 E2]]. split; [exact Hc2|]. exists (e1 ++ e2). rewrite E2, E1, app_assoc. reflexivity.
Qed.

Lemma consistent_init : consistent ([], []) log_init.
Proof. split; constructor. Qed.

(** In every program, each Syslog is what the calls of its own history make, and each Channel what
    the Syslog had at that moment gives, then derived: calls on other objects have no influence, and
    a Channel obtained never changes. *)
Theorem C78_histories : forall uni tr cs g, log_run uni tr log_init cs = Some (Val g) ->
  Forall2 is_syslog (fst (fold_left told cs ([], []))) (g_sys g) /\ Forall2 is_channel (snd (fold_left told cs ([], []))) (g_chan g).
Proof. intros uni tr cs g H. exact (proj1 (run_consistent _ _ _ _ _ _ consistent_init H)). Qed.
Print Assumptions C78_histories.

Theorem C78_channels_stay : forall uni tr cs1 cs2 g1 g2, log_run uni tr log_init cs1 = Some (Val g1) -> log_run uni tr g1 cs2 = Some (Val g2) ->
  forall k c, nth_error (g_chan g1) k = Some c -> nth_error (g_chan g2) k = Some c.
Proof.
  intros uni tr cs1 cs2 g1 g2 H1 H2 k c Hk. destruct (run_consistent _ _ _ _ _ _ consistent_init H1) as [Hc _].
  destruct (run_consistent _ _ _ _ _ _ Hc H2) as [_ [ext E]]. rewrite E, nth_error_app1; [exact Hk|]. apply nth_error_Some. congruence.
Qed.
Print Assumptions C78_channels_stay.

(** ** what a program logs *)

(** channel k of the program logs, in context x *)
Definition logging (g : logstate) (k : nat) (x : context) : Prop := nth_error (g_chan g) k = Some (MsgChannel x) \/ nth_error (g_chan g) k = Some (TrueChannel x).

(** message m has the context x, that time, structured data, and the given text without its
    trailing white space *)
Definition message_of (x : context) (now : gotime) (sd : list sdval) (text : bytes) (m : message) : Prop :=
  m_prio m = x_prio x /\ m_time m = now /\ m_host m = x_host x /\ m_app m = x_app x /\ m_procid m = x_pid x /\ m_msgid m = x_msgid x /\ m_sd m = sd /\ trimmed text (m_text m).

(** the call c submits message m to Sender o (None: a nil Sender); g: the Channels of the program *)
Definition submits (g : logstate) (c : logcall) (o : option nat) (m : message) : Prop :=
  match c with
  | LWrite k now d => exists x, logging g k x /\ x_out x = o /\ message_of x now [] d m
  | LLog k now d sd => exists x, logging g k x /\ x_out x = o /\ message_of x now sd d m
  | LPrint k prefix caller now s => exists x, logging g k x /\ x_out x = o /\
      message_of x now [] (prefix ++ (if (x_prio x mod 8 =? 7)%Z then caller ++ bs ": " else []) ++ s) m
  | _ => False
  end.

(** the messages the calls submit to Sender o, in order *)
Inductive logged (g : logstate) (o : nat) : list logcall -> list message -> Prop :=
| logged_nil : logged g o [] []
| logged_yes c cs m ms : submits g c (Some o) m -> logged g o cs ms -> logged g o (c :: cs) (m :: ms)
| logged_no c cs ms : (forall m, ~ submits g c (Some o) m) -> logged g o cs ms -> logged g o (c :: cs) ms.

(** the frames in the queue of Sender o *)
Definition for_sender {A} (o : nat) (l : list (nat * A)) : list A := flat_map (fun p => if (fst p =? o)%nat then [snd p] else []) l.

Lemma for_sender_app {A} o (a b : list (nat * A)) : for_sender o (a ++ b) = for_sender o a ++ for_sender o b.
Proof. apply flat_map_app. Qed.

(** the channel of a logging call, and the message it builds *)
Definition on_channel (c : logcall) : option nat := match c with LWrite k _ _ | LLog k _ _ _ | LPrint k _ _ _ _ => Some k | _ => None end.
Definition built_by (x : context) (c : logcall) : message :=
  match c with
  | LWrite _ now d => chan_message x now d
  | LLog _ now d sd => match sd with [] => chan_message x now d | _ => msg_add_sd (chan_message x now d) sd end
  | LPrint _ prefix caller now s => chan_message x now (logger_line (chan_logger_shortfile (TrueChannel x)) prefix caller s)
  | _ => chan_message x t0 []
  end.

Lemma message_of_forge x now d : message_of x now [] d (chan_message x now d).
Proof. unfold message_of, chan_message, forge_message. cbn [m_prio m_time m_host m_app m_procid m_msgid m_sd m_text]. repeat (split; [reflexivity|]). apply trim_right_spec. Qed.

Lemma trimmed_snoc_lf s t : trimmed (s ++ [LF]) t -> trimmed s t.
Proof.
  intros H. pose proof (trim_right_spec s) as Hs. destruct Hs as (w & Hw & Ha & Hn).
  assert (H' : trimmed (s ++ [LF]) (trim_right s)) by (exists (w ++ [LF]); split; [rewrite Hw at 1; rewrite app_assoc; reflexivity|split; [apply all_ws_snoc_lf; exact Ha|exact Hn]]).
  rewrite (C08_trimmed_unique _ _ _ H H'). exists w. auto.
Qed.

Lemma built_submits g c k x : on_channel c = Some k -> logging g k x -> submits g c (x_out x) (built_by x c).
Proof.
  intros Hk Hl. destruct c; try discriminate; cbn in Hk; injection Hk as ->; exists x; (split; [exact Hl|]); (split; [reflexivity|]); cbn [built_by].
  - apply message_of_forge.
  - destruct (message_of_forge x now d) as (A & B & C & D & E & F & G & H). destruct sd; [unfold message_of; auto 10|]. unfold message_of. cbn. auto 10.
  - destruct (message_of_forge x now (logger_line (chan_logger_shortfile (TrueChannel x)) prefix caller s)) as (A & B & C & D & E & F & G & H).
    unfold message_of. repeat (split; [assumption|]).
    assert (Es : chan_logger_shortfile (TrueChannel x) = (x_prio x mod 8 =? 7)%Z) by (rewrite <- severity_mod; reflexivity). rewrite Es in *.
    unfold logger_line in H at 1. destruct (N.eqb (last s 0%N) LF); [rewrite app_nil_r in H; exact H|].
    apply trimmed_snoc_lf. rewrite <- !app_assoc. exact H.
Qed.

(** one call *)
Lemma log_call uni tr g c k : on_channel c = Some k ->
  log_step uni tr g c = match nth_error (g_chan g) k with
    | None => None
    | Some DevNull => Some (Val g)
    | Some (MsgChannel x) | Some (TrueChannel x) =>
        Some (do q <- chan_send uni tr (x_out x) (built_by x c); Val {| g_sys := g_sys g; g_chan := g_chan g; g_queued := g_queued g ++ q |})
    end.
Proof.
  assert (Eg : g = {| g_sys := g_sys g; g_chan := g_chan g; g_queued := g_queued g ++ [] |}) by (destruct g; cbn; rewrite app_nil_r; reflexivity).
  intros Hk. destruct c as [| | | | | |k' now d|k' now d sd|k' prefix caller now s]; try discriminate; cbn in Hk; injection Hk as ->; cbn [log_step];
    destruct (nth_error (g_chan g) k) as [[|x|x]|]; try reflexivity; cbn [chan_write chan_log built_by].
  all: try (unfold chan_print; cbn [chan_write]).
  all: try (cbn [bind snd]; rewrite <- Eg; reflexivity).
  all: destruct (chan_send _ _ _ _); reflexivity.
Qed.

Lemma message_eq a b : m_prio a = m_prio b -> m_time a = m_time b -> m_host a = m_host b -> m_app a = m_app b -> m_procid a = m_procid b -> m_msgid a = m_msgid b ->
  m_sd a = m_sd b -> m_text a = m_text b -> a = b.
Proof. destruct a, b. cbn. congruence. Qed.

Lemma logging_unique g k x y : logging g k x -> logging g k y -> x = y.
Proof. intros [H|H] [H'|H']; congruence. Qed.

Lemma submits_built g c o m : submits g c o m -> exists k x, on_channel c = Some k /\ logging g k x /\ x_out x = o /\ m = built_by x c.
Proof.
  intros H.
  assert (K : exists k x now sd text, on_channel c = Some k /\ logging g k x /\ x_out x = o /\ message_of x now sd text m /\ message_of x now sd text (built_by x c)).
  { destruct c; try contradiction; destruct H as (x & Hl & Ho & Hm); cbn [on_channel]; do 5 eexists; (split; [reflexivity|]); (split; [exact Hl|]); (split; [exact Ho|]); (split; [exact Hm|]);
      [destruct (built_submits g (LWrite k now d) k x eq_refl Hl) as (y & Hy & _ & Hb)|destruct (built_submits g (LLog k now d sd) k x eq_refl Hl) as (y & Hy & _ & Hb)|
       destruct (built_submits g (LPrint k prefix caller now s) k x eq_refl Hl) as (y & Hy & _ & Hb)]; rewrite <- (logging_unique _ _ _ _ Hl Hy) in Hb; exact Hb. }
  destruct K as (k & x & now & sd & text & Hk & Hl & Ho & (A1 & A2 & A3 & A4 & A5 & A6 & A7 & A8) & (B1 & B2 & B3 & B4 & B5 & B6 & B7 & B8)).
  exists k, x. repeat (split; [assumption|]). apply message_eq; try congruence. exact (C08_trimmed_unique _ _ _ A8 B8).
Qed.

(** a call submits one message, or none *)
Theorem C78_one_message : forall g c o m o' m', submits g c o m -> submits g c o' m' -> o = o' /\ m = m'.
Proof.
  intros g c o m o' m' H H'. apply submits_built in H as (k & x & Hk & Hl & Ho & ->). apply submits_built in H' as (k' & x' & Hk' & Hl' & Ho' & ->).
  assert (k' = k) by congruence. subst k'. rewrite (logging_unique _ _ _ _ Hl' Hl) in *. split; congruence.
Qed.
Print Assumptions C78_one_message.

Lemma sections_one uni t m : critical_sections uni t [m] = match send uni (Some t) m with Val (inr f) => [f] | _ => [] end.
Proof. unfold critical_sections. cbn [flat_map]. apply app_nil_r. Qed.
Lemma sections_app uni t a b : critical_sections uni t (a ++ b) = critical_sections uni t a ++ critical_sections uni t b.
Proof. apply flat_map_app. Qed.

Lemma frames_from uni tr o t cs : tr o = Some t -> forall g g', log_run uni tr g cs = Some (Val g') -> (exists h, consistent h g) ->
  exists ms, logged g' o cs ms /\ for_sender o (g_queued g') = for_sender o (g_queued g) ++ critical_sections uni t ms.
Proof.
  intros Ht. induction cs as [|c cs IH]; intros g g' H [h Hc].
  - injection H as <-. exists []. split; [constructor|]. rewrite app_nil_r. reflexivity.
  - pose proof H as H'. cbn [log_run] in H. destruct (log_step uni tr g c) as [[g1| |]|] eqn:E; try discriminate.
    destruct (step_consistent _ _ _ _ _ _ Hc E) as [_ Hv]. destruct (Hv g1 eq_refl) as [Hc1 [e1 E1]].
    destruct (IH _ _ H (ex_intro (fun h => consistent h g1) _ Hc1)) as (ms & Hl & Hq). destruct (run_consistent _ _ _ _ _ _ Hc1 H) as [_ [e2 E2]].
    assert (Stay : forall k c0, nth_error (g_chan g) k = Some c0 -> nth_error (g_chan g') k = Some c0).
    { intros k c0 Hk. rewrite E2, E1, <- app_assoc, nth_error_app1; [exact Hk|]. apply nth_error_Some. congruence. }
    destruct (on_channel c) as [k|] eqn:Ek.
    + rewrite (log_call _ _ _ _ _ Ek) in E. destruct (nth_error (g_chan g) k) as [ch|] eqn:En; [|discriminate]. pose proof (Stay _ _ En) as En'.
      assert (Body : forall x, logging g' k x -> Some (do q <- chan_send uni tr (x_out x) (built_by x c); Val {| g_sys := g_sys g; g_chan := g_chan g; g_queued := g_queued g ++ q |}) = Some (Val g1) ->
        exists ms, logged g' o (c :: cs) ms /\ for_sender o (g_queued g') = for_sender o (g_queued g) ++ critical_sections uni t ms).
      { intros x Hx Es. destruct (chan_send uni tr (x_out x) (built_by x c)) as [q| |] eqn:Eq; try discriminate. cbn [bind] in Es. injection Es as <-. cbn [g_queued] in Hq.
        rewrite for_sender_app, <- app_assoc in Hq.
        destruct (x_out x) as [o'|] eqn:Eo.
        - destruct (Nat.eq_dec o' o) as [->|Hne].
          + exists (built_by x c :: ms). split; [constructor; [|exact Hl]; rewrite <- Eo; exact (built_submits _ _ _ _ Ek Hx)|].
            rewrite Hq. f_equal. change (built_by x c :: ms) with ([built_by x c] ++ ms). rewrite sections_app, sections_one. f_equal.
            cbn [chan_send] in Eq. rewrite Ht in Eq. destruct (send uni (Some t) (built_by x c)) as [[e|f]| |]; try discriminate; injection Eq as <-; [reflexivity|].
            unfold for_sender. cbn [flat_map fst snd]. rewrite Nat.eqb_refl. reflexivity.
          + exists ms. split.
            * constructor; [|exact Hl]. intros m Hm. apply submits_built in Hm as (k' & y & Hk' & Hy & Hoy & _). assert (k' = k) by congruence. subst k'.
              rewrite (logging_unique _ _ _ _ Hy Hx) in Hoy. congruence.
            * rewrite Hq. f_equal. cbn [chan_send] in Eq. destruct (send uni (tr o') (built_by x c)) as [[e|f]| |]; try discriminate; injection Eq as <-; [reflexivity|].
              unfold for_sender. cbn [flat_map fst snd]. destruct (Nat.eqb_spec o' o); [congruence|reflexivity].
        - exists ms. split.
          + constructor; [|exact Hl]. intros m Hm. apply submits_built in Hm as (k' & y & Hk' & Hy & Hoy & _). assert (k' = k) by congruence. subst k'.
            rewrite (logging_unique _ _ _ _ Hy Hx) in Hoy. congruence.
          + rewrite Hq. f_equal. cbn [chan_send] in Eq. destruct (message_marshal uni (built_by x c)) as [[e|f]| |]; try discriminate. injection Eq as <-. reflexivity. }
      destruct ch as [|x|x].
      * injection E as <-. exists ms. split; [|exact Hq]. constructor; [|exact Hl]. intros m Hm. apply submits_built in Hm as (k' & y & Hk' & Hy & _). assert (k' = k) by congruence. subst k'.
        destruct Hy as [Hy|Hy]; congruence.
      * apply (Body x); [left; exact En'|exact E].
      * apply (Body x); [right; exact En'|exact E].
    + assert (Eq1 : g_queued g1 = g_queued g).
      { destruct c; try discriminate; cbn [log_step] in E;
          repeat match type of E with context [match ?x with _ => _ end] => destruct x end; try discriminate;
          try (match type of E with Some (bind ?r _) = _ => destruct r; cbn [bind] in E; try discriminate end); injection E as <-; reflexivity. }
      rewrite <- Eq1. exists ms. split; [|exact Hq]. constructor; [|exact Hl]. intros m Hm. apply submits_built in Hm as (k' & y & Hk' & _). congruence.
Qed.

(** For every program that runs to its end and every Sender: the frames in its queue are those of the
    messages submitted to it, in the order of the calls, each encoded on its own; a message that does
    not encode leaves no trace. *)
Theorem C78_frames : forall uni tr cs g o t, log_run uni tr log_init cs = Some (Val g) -> tr o = Some t ->
  exists ms, logged g o cs ms /\ for_sender o (g_queued g) = critical_sections uni t ms.
Proof. intros uni tr cs g o t H Ht. exact (frames_from uni tr o t cs Ht log_init g H (ex_intro (fun h => consistent h log_init) _ consistent_init)). Qed.
Print Assumptions C78_frames.

(** [logged] is a function of the calls *)
Theorem C78_logged_unique : forall g o cs ms ms', logged g o cs ms -> logged g o cs ms' -> ms = ms'.
Proof.
  intros g o cs ms ms' H. revert ms'. induction H as [|c cs m ms Hs Hl IH|c cs ms Hn Hl IH]; intros ms' H'.
  - inversion H'. reflexivity.
  - inversion H' as [|c' cs' m' ms1 Hs' Hl'|c' cs' ms1 Hn' Hl']; subst; [|exfalso; exact (Hn' _ Hs)].
    f_equal; [exact (proj2 (C78_one_message _ _ _ _ _ _ Hs Hs'))|auto].
  - inversion H' as [|c' cs' m' ms1 Hs' Hl'|c' cs' ms1 Hn' Hl']; subst; [exfalso; exact (Hn _ Hs')|auto].
Qed.
Print Assumptions C78_logged_unique.

(** A program fails exactly at a logging call whose message makes the encoder panic, or encodes and
    goes to a nil Sender or to a Sender without transport. *)
Theorem C78_fails_iff : forall uni tr cs, (exists r, log_run uni tr log_init cs = Some r /\ forall g, r <> Val g) <->
  exists cs1 c cs2 g1 o m, cs = cs1 ++ c :: cs2 /\ log_run uni tr log_init cs1 = Some (Val g1) /\ submits g1 c o m /\
    ((forall b, message_marshal uni m <> Val b) \/ (exists b, message_marshal uni m = Val (inr b)) /\ forall i, o = Some i -> tr i = None).
Proof.
  intros uni tr cs.
  assert (G : forall cs g h, consistent h g -> (exists r, log_run uni tr g cs = Some r /\ forall g', r <> Val g') <->
    exists cs1 c cs2 g1 o m, cs = cs1 ++ c :: cs2 /\ log_run uni tr g cs1 = Some (Val g1) /\ submits g1 c o m /\
      ((forall b, message_marshal uni m <> Val b) \/ (exists b, message_marshal uni m = Val (inr b)) /\ forall i, o = Some i -> tr i = None)).
  { clear cs. induction cs as [|c cs IH]; intros g h Hc.
    - cbn [log_run]. split.
      + intros (r & E & Hr). injection E as <-. exfalso. exact (Hr g eq_refl).
      + intros (cs1 & c & cs2 & g1 & o & m & E & _). destruct cs1; discriminate.
    - assert (Now : (exists r, log_step uni tr g c = Some r /\ forall g', r <> Val g') <->
        exists o m, submits g c o m /\ ((forall b, message_marshal uni m <> Val b) \/ (exists b, message_marshal uni m = Val (inr b)) /\ forall i, o = Some i -> tr i = None)).
      { destruct (on_channel c) as [k|] eqn:Ek.
        - assert (Sx : forall x, (exists r, Some (do q <- chan_send uni tr (x_out x) (built_by x c); Val {| g_sys := g_sys g; g_chan := g_chan g; g_queued := g_queued g ++ q |}) = Some r /\ forall g', r <> Val g') <->
            ((forall b, message_marshal uni (built_by x c) <> Val b) \/ (exists b, message_marshal uni (built_by x c) = Val (inr b)) /\ forall i, x_out x = Some i -> tr i = None)).
          { intros x. unfold chan_send, send. destruct (x_out x) as [i|]; destruct (message_marshal uni (built_by x c)) as [[e|b]| |].
            - cbn [bind]. split; [intros (r & E & Hr); injection E as <-; exfalso; exact (Hr _ eq_refl)|intros [H|[[b H] _]]; [exfalso; exact (H _ eq_refl)|discriminate]].
            - destruct (tr i) as [t|] eqn:Et; cbn [bind].
              + split; [intros (r & E & Hr); injection E as <-; exfalso; exact (Hr _ eq_refl)|intros [H|[_ H]]; [exfalso; exact (H _ eq_refl)|specialize (H i eq_refl); congruence]].
              + split; [intros _; right; split; [eauto|]; intros j Hj; congruence|intros _; eexists; split; [reflexivity|]; intros; discriminate].
            - cbn [bind]. split; [intros _; left; intros b; discriminate|intros _; eexists; split; [reflexivity|]; intros; discriminate].
            - cbn [bind]. split; [intros _; left; intros b; discriminate|intros _; eexists; split; [reflexivity|]; intros; discriminate].
            - cbn [bind]. split; [intros (r & E & Hr); injection E as <-; exfalso; exact (Hr _ eq_refl)|intros [H|[[b H] _]]; [exfalso; exact (H _ eq_refl)|discriminate]].
            - cbn [bind]. split; [intros _; right; split; [eauto|]; intros j Hj; congruence|intros _; eexists; split; [reflexivity|]; intros; discriminate].
            - cbn [bind]. split; [intros _; left; intros b; discriminate|intros _; eexists; split; [reflexivity|]; intros; discriminate].
            - cbn [bind]. split; [intros _; left; intros b; discriminate|intros _; eexists; split; [reflexivity|]; intros; discriminate]. }
          rewrite (log_call _ _ _ _ _ Ek).
          assert (Ux : forall x, logging g k x -> (exists o m, submits g c o m /\ ((forall b, message_marshal uni m <> Val b) \/ (exists b, message_marshal uni m = Val (inr b)) /\ forall i, o = Some i -> tr i = None)) <->
            ((forall b, message_marshal uni (built_by x c) <> Val b) \/ (exists b, message_marshal uni (built_by x c) = Val (inr b)) /\ forall i, x_out x = Some i -> tr i = None)).
          { intros x Hx. split.
            - intros (o & m & Hm & H). apply submits_built in Hm as (k' & y & Hk' & Hy & <- & ->). assert (k' = k) by congruence. subst k'. rewrite (logging_unique _ _ _ _ Hy Hx) in H. exact H.
            - intros H. exists (x_out x), (built_by x c). split; [exact (built_submits _ _ _ _ Ek Hx)|exact H]. }
          destruct (nth_error (g_chan g) k) as [[|x|x]|] eqn:En.
          + split; [intros (r & E & Hr); injection E as <-; exfalso; exact (Hr _ eq_refl)|]. intros (o & m & Hm & _). apply submits_built in Hm as (k' & y & Hk' & Hy & _).
            assert (k' = k) by congruence. subst k'. destruct Hy; congruence.
          + rewrite (Ux x (or_introl En)). apply Sx.
          + rewrite (Ux x (or_intror En)). apply Sx.
          + split; [intros (r & E & _); discriminate|]. intros (o & m & Hm & _). apply submits_built in Hm as (k' & y & Hk' & Hy & _). assert (k' = k) by congruence. subst k'. destruct Hy; congruence.
        - split.
          + intros (r & E & Hr). exfalso. destruct (step_consistent _ _ _ _ _ _ Hc E) as [Hv _]. destruct Hv as [g' Hg]; [destruct c; try reflexivity; discriminate|]. exact (Hr _ Hg).
          + intros (o & m & Hm & _). apply submits_built in Hm as (k' & y & Hk' & _). congruence. }
      cbn [log_run]. split.
      + intros (r & E & Hr). destruct (log_step uni tr g c) as [[g1| |]|] eqn:Es; try discriminate.
        * destruct (step_consistent _ _ _ _ _ _ Hc Es) as [_ Hv]. destruct (Hv g1 eq_refl) as [Hc1 _].
          destruct (proj1 (IH _ _ Hc1) (ex_intro _ r (conj E Hr))) as (cs1 & c' & cs2 & g2 & o & m & -> & Hr1 & Hrest). exists (c :: cs1), c', cs2, g2, o, m. split; [reflexivity|].
          split; [cbn [log_run]; rewrite Es; exact Hr1|exact Hrest].
        * destruct (proj1 Now) as (o & m & H); [eexists; split; [reflexivity|]; intros; discriminate|]. exists [], c, cs, g, o, m. split; [reflexivity|]. split; [reflexivity|exact H].
        * destruct (proj1 Now) as (o & m & H); [eexists; split; [reflexivity|]; intros; discriminate|]. exists [], c, cs, g, o, m. split; [reflexivity|]. split; [reflexivity|exact H].
      + intros (cs1 & c' & cs2 & g1 & o & m & E & Hr1 & Hrest). destruct cs1 as [|c1 cs1].
        * cbn [app] in E. injection E as <- <-. cbn [log_run] in Hr1. injection Hr1 as <-. destruct (proj2 Now) as (r & Es & Hr); [exists o, m; exact Hrest|]. rewrite Es. exists r. split; [|exact Hr].
          destruct r; [exfalso; exact (Hr _ eq_refl)|reflexivity..].
        * cbn [app] in E. injection E as <- ->. cbn [log_run] in Hr1. destruct (log_step uni tr g c) as [[g2| |]|] eqn:Es; try discriminate.
          destruct (step_consistent _ _ _ _ _ _ Hc Es) as [_ Hv]. destruct (Hv g2 eq_refl) as [Hc1 _]. apply (IH _ _ Hc1). exists cs1, c', cs2, g1, o, m. auto. }
  exact (G cs log_init _ consistent_init).
Qed.
Print Assumptions C78_fails_iff.

(** Non-vacuity of C78: two Syslogs, a sub Syslog, derived channels, a null channel, a message that
    does not encode, and two Senders with different transports. *)
Definition demo_tr (o : nat) : option transport := match o with O => Some TRFC5425 | _ => Some TLFEnded end.
Definition demo_time : gotime := {| t_sec := 1500000000; t_nsec := 123456789; t_off := 7200 |}.
Definition demo : list logcall :=
  [ LNew (Some (bs "host")) 42 (Some 0%nat) (LogUSER + LogINFO) (bs "app"); LChannel 0 LogERR; LNew None 43 (Some 1%nat) (LogDAEMON + LogDEBUG) (bs "other");
    LSub 0 (bs "db"); LChannel 2 LogINFO; LChannel 1 LogDEBUG; LAppName 0 (bs "web"); LMsgid 3 (bs "GET"); LChannel 0 LogDEBUG; LMsgid 4 (bs "again");
    LWrite 4 demo_time (bs "first line  "); LWrite 5 demo_time (bs "filtered"); LPrint 2 (bs "p ") (bs "f.go:1") demo_time (bs "second Sender");
    LLog 1 demo_time (bs "dropped") [SDTimeQuality {| tzKnown := false; isSynced := true; syncAccuracy := None |}];
    LLog 1 demo_time (bs "sub") [SDUnknown (bs "x@1") [(bs "k", bs "v")]]; LWrite 6 demo_time (bs "null") ].
Example C78_nonvacuous : exists g, log_run uni0 demo_tr log_init demo = Some (Val g) /\
  length (g_sys g) = 3%nat /\ length (g_chan g) = 7%nat /\
  for_sender 0 (g_queued g) = [bs "71 <11>1 2017-07-14T04:40:00.123456+02:00 host app/web 42 GET - first line"] ++
                              [bs "71 <14>1 2017-07-14T04:40:00.123456+02:00 host app/db 42 - [x@1 k=" ++ [QUO] ++ bs "v" ++ [QUO] ++ bs "] sub"] /\
  for_sender 1 (g_queued g) = [bs "<31>1 2017-07-14T04:40:00.123456+02:00 - other 43 - - p f.go:1: second Sender" ++ [LF]].
Proof. vm_compute. eexists. split; [reflexivity|]. repeat split. Qed.

(** ** C83: from the program to the other end *)

(** the frames of a program's Sender, sent with RFC 5425 framing through any schedule whose write
    failures fall between frames, and read by a Receiver, in any pieces *)
Theorem C83_delivery : forall uni tr order cs g o sacts ss cap racts rs rc,
  log_run uni tr log_init cs = Some (Val g) -> tr o = Some TRFC5425 ->
  srun sender_init sacts = Some ss -> sends sacts = for_sender o (g_queued g) -> clean_failures sacts -> s_queue ss = [] ->
  rrun TRFC5425 cap receiver_init racts = Some rs ->
  (forall c, (c < connects sacts)%nat -> stream (reads_of (rc c) racts) = on c (s_log ss) /\ eof_last (reads_of (rc c) racts)) ->
  exists ms, logged g o cs ms /\
    (Forall fits (encodings uni ms) -> Forall (deliverable uni order) ms ->
     Forall2 (delivered_as uni order) ms (concat (map (fun c => delivered_on (rc c) rs) (seq 0 (connects sacts))))).
Proof.
  intros uni tr order cs g o sacts ss cap racts rs rc Hg Ht Hs Hq Hcl He Hr Hrc.
  destruct (C78_frames _ _ _ _ _ _ Hg Ht) as (ms & Hl & Hf). exists ms. split; [exact Hl|]. intros Hfit Hd.
  rewrite Hf in Hq. exact (C76_reconnections _ _ _ _ _ _ _ _ _ Hs Hq Hcl He Hr Hrc Hfit Hd).
Qed.
Print Assumptions C83_delivery.

(** A Channel whose app name is a valid word (of at most 48 printable bytes): the name given to New
    and to SubSyslog is, or AppName was called on the way (it sanitises). *)
Definition sound_channel (h : chan_history) : Prop :=
  let '(b, ops, _, d) := h in (0 <= b_pid b < 2 ^ 63)%Z /\ (header_word 48 (sub_path (b_app b) (subs ops)) \/ exists n, In (CAppName n) d).

(** a call whose time, structured data and text can be transmitted *)
Definition sound_call (uni : N -> bool) (order : nat -> list sdid) (c : logcall) : Prop :=
  match c with
  | LWrite _ now _ | LPrint _ _ _ now _ => time_valid now
  | LLog _ now d sd => time_valid now /\ Forall (comes_back uni order) sd /\ (sd = [] \/ forall t, trimmed d t -> t = [] \/ text_safe t)
  | _ => True
  end.

Lemma header_ok_fields a b : m_host a = m_host b -> m_app a = m_app b -> m_procid a = m_procid b -> m_msgid a = m_msgid b -> header_ok a -> header_ok b.
Proof. unfold header_ok. intros -> -> -> ->. exact (fun H => H). Qed.

Lemma channel_sound (hs : list chan_history) g k x : Forall2 is_channel hs (g_chan g) -> Forall sound_channel hs -> logging g k x ->
  (forall now d, header_ok (chan_message x now d)) /\ (0 <= x_prio x <= 255)%Z.
Proof.
  intros Hc Hs Hl.
  assert (K : exists c, nth_error (g_chan g) k = Some c /\ (c = MsgChannel x \/ c = TrueChannel x)) by (destruct Hl as [H|H]; eauto).
  destruct K as (c & Hk & Hx). destruct (Forall2_nth _ _ _ Hc _ _ Hk) as ([[[b ops] sev] d] & Hh & (s & s' & c0 & (s0 & H0 & Hr) & Hch & ->)).
  rewrite Forall_forall in Hs. destruct (Hs _ (nth_error_In _ _ Hh)) as [Hpid Hsound]. split.
  - intros now d'. apply (proj2 (C55_valid_iff _ _ _ _ _ _ _ _ _ _ _ _ _ now d' Hpid H0 Hr Hch Hx)). exact Hsound.
  - exact (proj1 (proj2 (C52_priority_in_range _ _ _ _ _ _ _ _ _ _ _ _ _ H0 Hr Hch Hx))).
Qed.

(** What a program has to do for every message it logs to be received: valid app names, times between
    the years 0 and 9999 with whole minute offsets, structured data in the default form, and no text
    with a bare closing bracket beside structured data. *)
Theorem C83_deliverable : forall uni tr order cs g o ms, log_run uni tr log_init cs = Some (Val g) ->
  Forall sound_channel (snd (fold_left told cs ([], []))) -> Forall (sound_call uni order) cs ->
  logged g o cs ms -> Forall (deliverable uni order) ms.
Proof.
  intros uni tr order cs g o ms Hg Hch Hcalls Hl. destruct (C78_histories _ _ _ _ Hg) as [_ Hc].
  clear Hg. remember (snd (fold_left told cs ([], []))) as hs eqn:Ehs. clear Ehs.
  induction Hl as [|c cs' m ms Hm Hl IH|c cs' ms Hn Hl IH]; [constructor| |].
  2:{ apply IH. exact (Forall_inv_tail Hcalls). }
  constructor; [|apply IH; exact (Forall_inv_tail Hcalls)]. pose proof (Forall_inv Hcalls) as Hok.
  assert (G : forall k x now sd text, logging g k x -> message_of x now sd text m -> time_valid now -> Forall (comes_back uni order) sd ->
    (sd = [] \/ forall t, trimmed text t -> t = [] \/ text_safe t) -> deliverable uni order m).
  { intros k x now sd text Hx (Ep & Et & Eh & Ea & Epi & Em & Es & Etx) Hv Hd Hs. destruct (channel_sound _ _ _ _ Hc Hch Hx) as [Hh Hp].
    split; [apply (header_ok_fields (chan_message x now text)); try (symmetry; assumption); apply Hh|]. split; [rewrite Ep; lia|]. split; [rewrite Et; exact Hv|].
    split; [rewrite Es; exact Hd|]. destruct Hs as [Hs|Hs]; [left; congruence|right; exact (Hs _ Etx)]. }
  destruct c as [| | | | | |k now d|k now d sd|k prefix caller now s]; cbn [submits] in Hm; try contradiction; destruct Hm as (x & Hx & _ & Hm); cbn [sound_call] in Hok.
  - eapply G; [exact Hx|exact Hm|exact Hok|constructor|left; reflexivity].
  - destruct Hok as (Hv & Hd & Hs). eapply G; eassumption.
  - eapply G; [exact Hx|exact Hm|exact Hok|constructor|left; reflexivity].
Qed.
Print Assumptions C83_deliverable.

(** Non-vacuity of C83: a program with a sub Syslog, a derived channel and structured data; its Sender
    is disconnected between the two frames. *)
Definition demo2 : list logcall :=
  [ LNew (Some (bs "host")) 42 (Some 0%nat) (LogUSER + LogINFO) (bs "app"); LChannel 0 LogERR; LSub 0 (bs "db"); LChannel 1 LogINFO; LAppName 0 (bs "web"); LMsgid 2 (bs "GET");
    LWrite 3 demo_time (bs "first line  "); LLog 1 demo_time (bs "sub") [SDUnknown (bs "x@1") [(bs "k", bs "v")]] ].
Definition demo2_state : logstate := match log_run uni0 demo_tr log_init demo2 with Some (Val g) => g | _ => log_init end.
Definition frame2 (i : nat) : bytes := nth i (for_sender 0 (g_queued demo2_state)) [].
Definition demo2_sender : list saction :=
  [ASend (frame2 0); ASend (frame2 1); ATick; AConnect None; ALock; AWrite (length (frame2 0)) (WErr 9); APushErrWrite; ATick; AConnect None; ALock;
   AWrite (length (frame2 1)) WOk; AWriteDone; AEndCall; ASelectEnd; ADrain; ACloseOut; ACloseDone; ACloseErr].
Definition demo2_receiver : list raction :=
  [RStepSelect; RAccepted true None; RStepSelect; RAccepted true None; KReadReturns 1 (firstn 7 (frame2 1)) None; KNextTurn 1;
   KReadReturns 0 (firstn 30 (frame2 0)) None; KNextTurn 0; KReadReturns 1 (skipn 7 (frame2 1)) None; KReadReturns 0 (skipn 30 (frame2 0)) (Some REOF);
   KPush 1; KNextTurn 1; KPush 0; RReceive].
Example C83_nonvacuous : exists ss rs,
  log_run uni0 demo_tr log_init demo2 = Some (Val demo2_state) /\ demo_tr 0 = Some TRFC5425 /\
  srun sender_init demo2_sender = Some ss /\ sends demo2_sender = for_sender 0 (g_queued demo2_state) /\ clean_failures demo2_sender /\ s_queue ss = [] /\ connects demo2_sender = 2%nat /\
  rrun TRFC5425 3 receiver_init demo2_receiver = Some rs /\
  (forall c, (c < 2)%nat -> stream (reads_of c demo2_receiver) = on c (s_log ss) /\ eof_last (reads_of c demo2_receiver)) /\
  Forall sound_channel (snd (fold_left told demo2 ([], []))) /\ Forall (sound_call uni0 (fun _ => [])) demo2 /\
  length (delivered_on 0 rs) = 1%nat /\ length (delivered_on 1 rs) = 1%nat.
Proof.
  destruct (srun sender_init demo2_sender) as [ss|] eqn:Es; [|vm_compute in Es; discriminate].
  destruct (rrun TRFC5425 3 receiver_init demo2_receiver) as [rs|] eqn:Er; [|vm_compute in Er; discriminate].
  exists ss, rs. split; [vm_compute; reflexivity|]. split; [reflexivity|]. split; [reflexivity|]. split; [vm_compute; reflexivity|]. split.
  { apply (clean_from_ok demo2_sender []); [|reflexivity]. unfold demo2_sender. cbn [clean_from]. repeat (split; [exact I|]). split; [|repeat (split; [exact I|]); exact I].
    exists [frame2 0], [frame2 1]. split; vm_compute; reflexivity. }
  vm_compute in Es. injection Es as <-. vm_compute in Er. injection Er as <-.
  split; [reflexivity|]. split; [reflexivity|]. split; [reflexivity|]. split.
  { intros [|[|c]] Hc; [| |lia]; split; try (vm_compute; reflexivity); vm_compute; repeat split; intros; discriminate. }
  assert (W : header_word 48 (bs "app") /\ header_word 48 (bs "app/db")) by (split; apply word_of; vm_compute; reflexivity).
  split.
  { cbn [demo2 fold_left told nth_error change_at fst snd app].
    repeat (constructor; [split; [cbn; lia|left; vm_compute sub_path; apply word_of; vm_compute; reflexivity]|]). constructor. }
  assert (T : time_valid demo_time) by (vm_compute; intuition discriminate).
  split; [|vm_compute; auto].
  unfold demo2. do 7 (constructor; [first [exact I|exact T]|]). constructor; [|constructor].
  split; [exact T|]. split.
  - constructor; [|constructor]. apply default_back. exists (bs "x@1"), [(bs "k", bs "v")]. split; [reflexivity|]. split; [exact sample_sd_ok|intros b d sp []].
  - right. intros t Ht. right. assert (E : t = bs "sub").
    { refine (C08_trimmed_unique (bs "sub") _ _ Ht _). pose proof (trim_right_spec (bs "sub")) as H. exact H. }
    subst t. split; [apply bracket_safe_none; cbn; intros [E|[E|[E|[]]]]; discriminate|]. intros [x E]. change (bs "sub") with (bs "su" ++ [98%N]) in E.
    apply app_inj_tail in E as [_ E]. discriminate.
Qed.

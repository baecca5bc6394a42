(** PropSyslog2.v -- C53 to C56. *)
From Verif Require Import Base BaseFacts Spec MPriority MHelpers MText MTime MSData MMessage MParse MTransport MSender MSyslog
  LPriority LText LTime LParse LSyslog PropPriority PropMessage PropParse PropSyslog.

(** ** C53 *)
Definition slashed (names : list bytes) : bytes := concat (map (fun n => bs "/" ++ n) names).

Lemma sanitize_idem b : sanitize_byte (sanitize_byte b) = sanitize_byte b.
Proof. apply sanitize_id, sanitize_printable. Qed.

Lemma app_prefix_nonnil (a b : bytes) : a <> [] -> a ++ b <> [].
Proof. destruct a; [congruence|discriminate]. Qed.

Lemma valid_app_absorb a b : a <> [] -> valid_app (valid_app a ++ b) = valid_app (a ++ b).
Proof.
  intros Ha. unfold valid_app.
  assert (Hv : validator_generic a 48 <> []) by (destruct (validator_word a 48 ltac:(lia)) as [H _]; exact H).
  rewrite (validator_nonempty _ 48 (app_prefix_nonnil _ b Hv)), (validator_nonempty _ 48 (app_prefix_nonnil a b Ha)), (validator_nonempty a 48 Ha).
  rewrite !firstn_app, !map_app, map_length, firstn_length. f_equal.
  - rewrite firstn_map, firstn_firstn, Nat.min_id, map_map. apply map_ext. apply sanitize_idem.
  - f_equal. f_equal. lia.
Qed.

Lemma sanitize_dash c : sanitize_byte c = DASH -> c = DASH.
Proof. unfold sanitize_byte. destruct ((c <? 33)%N || (126 <? c)%N); [discriminate|auto]. Qed.

Lemma valid_app_dash a : valid_app a = [DASH] <-> a = [] \/ a = [DASH].
Proof.
  split.
  - intros H. destruct a as [|c a]; [auto|right]. unfold valid_app in H. rewrite validator_nonempty in H by discriminate.
    change 48%nat with (S 47) in H. cbn [firstn map] in H. injection H as H1 H2. apply sanitize_dash in H1. subst c.
    destruct a as [|d a]; [reflexivity|discriminate].
  - intros [-> | ->]; reflexivity.
Qed.

Lemma bytes_eqb_dash a : bytes_eqb a [DASH] = true <-> a = [DASH].
Proof. split; [apply bytes_eqb_eq|intros ->; reflexivity]. Qed.

Lemma app_join_dash sup : app_join [DASH] sup = sup.
Proof. reflexivity. Qed.
Lemma app_join_other a sup : a <> [DASH] -> app_join a sup = a ++ bs "/" ++ sup.
Proof. intros H. unfold app_join. destruct (bytes_eqb a [DASH]) eqn:E; [apply bytes_eqb_dash in E; congruence|reflexivity]. Qed.

(** One call: the other fields are kept, the name is composed and sanitised. *)
Theorem C53_app_name : forall x sup, exists x', chan_app_name (TrueChannel x) sup = TrueChannel x' /\
  x_prio x' = x_prio x /\ x_host x' = x_host x /\ x_pid x' = x_pid x /\ x_msgid x' = x_msgid x /\ x_out x' = x_out x /\
  (x_app x = bs "-" -> sanitised 48 sup (x_app x')) /\ (x_app x <> bs "-" -> sanitised 48 (x_app x ++ bs "/" ++ sup) (x_app x')).
Proof.
  intros x sup. eexists. split; [reflexivity|]. cbn [x_prio x_host x_pid x_msgid x_out x_app]. repeat (split; [reflexivity|]). split; intros H.
  - rewrite H. apply C07_sanitise.
  - rewrite app_join_other by exact H. apply C07_sanitise.
Qed.
Print Assumptions C53_app_name.

Lemma chain_from names : forall x a, x_app x = valid_app a -> a <> [] -> a <> [DASH] ->
  exists x', derive (TrueChannel x) (map CAppName names) = TrueChannel x' /\ x_app x' = valid_app (a ++ slashed names) /\
    x_prio x' = x_prio x /\ x_host x' = x_host x /\ x_pid x' = x_pid x /\ x_msgid x' = x_msgid x /\ x_out x' = x_out x.
Proof.
  induction names as [|n names IH]; intros x a Ex Ha Hd.
  - exists x. cbn. unfold slashed. cbn. rewrite app_nil_r. auto 10.
  - cbn [map derive fold_left derive1 chan_app_name].
    assert (Hx : x_app x <> [DASH]) by (rewrite Ex; intros E; apply valid_app_dash in E; destruct E; contradiction).
    rewrite app_join_other by exact Hx. rewrite Ex, valid_app_absorb by exact Ha.
    destruct (IH {| x_prio := x_prio x; x_host := x_host x; x_pid := x_pid x; x_app := valid_app (a ++ bs "/" ++ n); x_msgid := x_msgid x; x_out := x_out x |}
                 (a ++ bs "/" ++ n) eq_refl) as (x' & E & E1 & E2).
    + apply app_prefix_nonnil. exact Ha.
    + destruct a as [|c a]; [congruence|]. cbn [app]. intros H. injection H as _ H. apply app_eq_nil in H as [_ H]. discriminate.
    + exists x'. split; [exact E|]. split; [|exact E2]. rewrite E1. unfold slashed. cbn [map concat]. rewrite <- !app_assoc. reflexivity.
Qed.

(** A chain of calls on a channel with a name: its name and the names given joined by slashes,
    sanitised and cut to 48 bytes as a whole. *)
Theorem C53_chain : forall x n names, x_app x <> bs "-" ->
  exists x', derive (TrueChannel x) (map CAppName (n :: names)) = TrueChannel x' /\
    sanitised 48 (x_app x ++ slashed (n :: names)) (x_app x') /\
    x_prio x' = x_prio x /\ x_host x' = x_host x /\ x_pid x' = x_pid x /\ x_msgid x' = x_msgid x /\ x_out x' = x_out x.
Proof.
  intros x n names Hx. cbn [map derive fold_left derive1 chan_app_name]. rewrite app_join_other by exact Hx.
  destruct (chain_from names {| x_prio := x_prio x; x_host := x_host x; x_pid := x_pid x; x_app := valid_app (x_app x ++ bs "/" ++ n); x_msgid := x_msgid x; x_out := x_out x |}
              (x_app x ++ bs "/" ++ n) eq_refl) as (x' & E & E1 & E2).
  - destruct (x_app x); discriminate.
  - destruct (x_app x) as [|c a]; [discriminate|]. cbn [app]. intros H. injection H as _ H. apply app_eq_nil in H as [_ H]. discriminate.
  - exists x'. split; [exact E|]. split; [|exact E2]. rewrite E1. unfold slashed. cbn [map concat]. rewrite <- !app_assoc. apply C07_sanitise.
Qed.
Print Assumptions C53_chain.

(** On a channel without name ("-") the leading names that are empty or "-" do not count. *)
Definition no_name (n : bytes) : Prop := n = [] \/ n = bs "-".
Theorem C53_chain_from_dash : forall x skipped, x_app x = bs "-" -> Forall no_name skipped ->
  (exists x', derive (TrueChannel x) (map CAppName skipped) = TrueChannel x' /\ x_app x' = bs "-") /\
  forall n names, ~ no_name n ->
    exists x', derive (TrueChannel x) (map CAppName (skipped ++ n :: names)) = TrueChannel x' /\ sanitised 48 (n ++ slashed names) (x_app x') /\
      x_prio x' = x_prio x /\ x_host x' = x_host x /\ x_pid x' = x_pid x /\ x_msgid x' = x_msgid x /\ x_out x' = x_out x.
Proof.
  intros x skipped. revert x. induction skipped as [|k skipped IH]; intros x Hx Hs.
  - split; [exists x; auto|]. intros n names Hn. cbn [app map derive fold_left derive1 chan_app_name]. rewrite Hx.
    change (app_join (bs "-") n) with n. unfold no_name in Hn.
    destruct (chain_from names {| x_prio := x_prio x; x_host := x_host x; x_pid := x_pid x; x_app := valid_app n; x_msgid := x_msgid x; x_out := x_out x |} n eq_refl)
      as (x' & E & E1 & E2); [tauto..|]. exists x'. split; [exact E|]. split; [|exact E2]. rewrite E1. apply C07_sanitise.
  - pose proof (Forall_inv Hs) as Hk. apply Forall_inv_tail in Hs.
    specialize (IH {| x_prio := x_prio x; x_host := x_host x; x_pid := x_pid x; x_app := valid_app k; x_msgid := x_msgid x; x_out := x_out x |}).
    assert (Ev : valid_app k = bs "-") by (apply valid_app_dash; exact Hk).
    destruct IH as [A B]; [exact Ev|exact Hs|]. cbn [app map derive fold_left derive1 chan_app_name]. rewrite Hx. change (app_join (bs "-") k) with k.
    split; [exact A|exact B].
Qed.
Print Assumptions C53_chain_from_dash.

Definition ctx0 (app : bytes) : context := {| x_prio := 13; x_host := bs "h"; x_pid := bs "1"; x_app := app; x_msgid := bs "-"; x_out := Some 0%nat |}.
Example C53_nonvacuous : (exists x', derive (TrueChannel (ctx0 (bs "web"))) (map CAppName [bs "a b"; bs ""; bs "0123456789012345678901234567890123456789x"; bs "gone"]) = TrueChannel x' /\
    x_app x' = bs "web/a%b//012345678901234567890123456789012345678") /\
  (exists x', derive (TrueChannel (ctx0 (bs "-"))) (map CAppName [bs ""; bs "-"; bs "api"; bs "-"]) = TrueChannel x' /\ x_app x' = bs "api/-") /\ ~ no_name (bs "api").
Proof.
  split; [eexists; split; vm_compute; reflexivity|]. split; [eexists; split; vm_compute; reflexivity|]. intros [H|H]; discriminate.
Qed.

(** ** C54 *)
(** Exactly when a derived channel still logs: nothing was derived from the result of a Msgid. *)
Theorem C54_logging_iff : forall x ops,
  (chan_is_devnull (derive (TrueChannel x) ops) = false <-> forall a i b, ops = a ++ CMsgid i :: b -> b = []) /\
  (chan_is_devnull (derive (MsgChannel x) ops) = false <-> ops = []).
Proof.
  intros x ops. split.
  - revert x. induction ops as [|o ops IH]; intros x.
    + split; [intros _ a i b H; destruct a; discriminate|reflexivity].
    + destruct o as [n|id]; cbn [derive fold_left derive1 chan_app_name chan_msgid].
      * match goal with |- context [fold_left derive1 ops ?z] => change (fold_left derive1 ops z) with (derive z ops) end. rewrite IH. split.
        -- intros H a i b E. destruct a as [|o a]; [discriminate|]. injection E as _ E. exact (H a i b E).
        -- intros H a i b E. apply (H (CAppName n :: a) i b). rewrite E. reflexivity.
      * destruct ops as [|o ops].
        -- split; [|reflexivity]. intros _ a i b E. destruct a as [|? a]; [injection E as _ <-; reflexivity|]. destruct a; discriminate.
        -- cbn [fold_left]. replace (derive1 (MsgChannel _) o) with DevNull by (destruct o; reflexivity). fold (derive DevNull ops). rewrite derive_null. split; [discriminate|].
           intros H. specialize (H [] id (o :: ops) eq_refl). discriminate.
  - destruct ops as [|o ops]; [split; reflexivity|]. cbn [derive fold_left]. replace (derive1 (MsgChannel x) o) with DevNull by (destruct o; reflexivity).
    fold (derive DevNull ops). rewrite derive_null. split; discriminate.
Qed.
Print Assumptions C54_logging_iff.

(** Msgid on a channel that logs sets the message id, sanitised to 32 bytes, and nothing else. *)
Theorem C54_msgid : forall x id, exists x', chan_msgid (TrueChannel x) id = MsgChannel x' /\ sanitised 32 id (x_msgid x') /\
  x_prio x' = x_prio x /\ x_host x' = x_host x /\ x_pid x' = x_pid x /\ x_app x' = x_app x /\ x_out x' = x_out x.
Proof. intros x id. eexists. split; [reflexivity|]. cbn [x_prio x_host x_pid x_msgid x_out x_app]. split; [apply C07_sanitise|]. auto 10. Qed.
Print Assumptions C54_msgid.

(** The claim that derived channels always log is false: messages are dropped silently. *)
Theorem C54_msgid_then_app_name_refuted : exists s0 s c, syslog_new (Some (bs "h")) 42 (Some 0%nat) (LogUSER + LogDEBUG) (bs "app") = Some s0 /\
  syslog_channel s0 LogERR = Val (s, c) /\ chan_is_devnull c = false /\
  forall uni tr now d name id id', chan_write uni tr (derive c [CMsgid id; CAppName name]) now d = Val (length d, []) /\
    chan_write uni tr (derive c [CMsgid id; CMsgid id']) now d = Val (length d, []).
Proof. do 3 eexists. repeat (split; [vm_compute; reflexivity|]). intros. split; reflexivity. Qed.
Print Assumptions C54_msgid_then_app_name_refuted.

(** ** C55 *)
Lemma digits_lower l : forall n, (0 <= n)%Z -> (n * 10 ^ Z.of_nat (length l) <= digits_value l n)%Z.
Proof.
  induction l as [|c l IH]; intros n Hn.
  - cbn. lia.
  - change (digits_value (c :: l) n) with (digits_value l (n * 10 + Z.of_N (c - C0))). specialize (IH (n * 10 + Z.of_N (c - C0))%Z ltac:(lia)).
    cbn [length]. rewrite Nat2Z.inj_succ, Z.pow_succ_r by lia. nia.
Qed.

Lemma utoa_length n k : (1 <= k)%nat -> (Z.of_N n < 10 ^ Z.of_nat k)%Z -> (length (utoa n) <= k)%nat.
Proof.
  intros Hk Hn. destruct (N.eq_dec n 0) as [->|H0]; [exact Hk|]. destruct (utoa_no_leading_zero n H0) as (c & l & E & Hc).
  pose proof (utoa_value n) as Hv. pose proof (utoa_digits n) as Hd. rewrite E in *. apply Forall_inv in Hd.
  change (digits_value (c :: l) 0) with (digits_value l (Z.of_N (c - C0))) in Hv.
  unfold is_digit in Hd. apply andb_true_iff in Hd as [H1 H2]. assert (Hge : (1 <= Z.of_N (c - C0))%Z) by (change 48%N with C0 in Hc; lia).
  pose proof (digits_lower l (Z.of_N (c - C0)) ltac:(lia)) as Hl.
  assert (Hp : (0 < 10 ^ Z.of_nat (length l))%Z) by (apply Z.pow_pos_nonneg; lia).
  assert (Hlt : (10 ^ Z.of_nat (length l) < 10 ^ Z.of_nat k)%Z) by nia.
  apply Z.pow_lt_mono_r_iff in Hlt; [|lia..]. cbn [length]. lia.
Qed.

Lemma itoa_word pid : (0 <= pid < 2 ^ 63)%Z -> header_word 128 (itoa pid).
Proof.
  intros H. split; [apply itoa_nonnil|]. unfold itoa. destruct (Z.ltb_spec pid 0); [lia|]. split.
  - assert (length (utoa (Z.to_N pid)) <= 19)%nat; [|lia]. apply utoa_length; [lia|]. rewrite Z2N.id by lia. change (10 ^ Z.of_nat 19)%Z with 10000000000000000000%Z.
    change (2 ^ 63)%Z with 9223372036854775808%Z in H. lia.
  - intros c Hc. pose proof (proj1 (Forall_forall _ _) (utoa_digits (Z.to_N pid)) c Hc) as Hd. unfold is_digit in Hd. unfold printusascii.
    apply andb_true_iff in Hd as [H1 H2]. change C0 with 48%N in H1. change C9 with 57%N in H2. lia.
Qed.

Lemma word_of (n : nat) (w : bytes) : ((1 <=? length w)%nat && (length w <=? n)%nat && forallb (fun c => (33 <=? c)%N && (c <=? 126)%N) w) = true -> header_word n w.
Proof. apply word_check. Qed.

(** The app name of a Syslog, from that given to New and the names given to SubSyslog: joined by
    slashes, a name "-" being replaced. *)
Definition subs (ops : list sys_op) : list bytes := flat_map (fun o => match o with OSub n => [n] | _ => [] end) ops.
Fixpoint dash_path (names : list bytes) : bytes :=
  match names with
  | [] => bs "-"
  | n :: r => if bytes_eqb n (bs "-") then dash_path r else n ++ slashed r
  end.
Definition sub_path (app : bytes) (names : list bytes) : bytes :=
  if bytes_eqb app (bs "-") then dash_path names else valid_app app ++ slashed names.

Lemma app_of_subs ops : forall a, app_of a ops = fold_left app_join (subs ops) a.
Proof. induction ops as [|[|sev|n] ops IH]; intros a; [reflexivity|apply IH..]. Qed.
Lemma fold_join names : forall a, a <> [DASH] -> fold_left app_join names a = a ++ slashed names.
Proof.
  induction names as [|n names IH]; intros a Ha; cbn [fold_left]; unfold slashed; cbn [map concat]; [symmetry; apply app_nil_r|].
  rewrite app_join_other by exact Ha. rewrite IH.
  - unfold slashed. rewrite <- !app_assoc. reflexivity.
  - destruct a as [|c a]; [discriminate|]. cbn [app]. intros H. injection H as _ H. apply app_eq_nil in H as [_ H]. discriminate.
Qed.
Lemma fold_dash names : fold_left app_join names [DASH] = dash_path names.
Proof.
  induction names as [|n names IH]; [reflexivity|]. cbn [fold_left dash_path]. change (app_join [DASH] n) with n. change (bs "-") with [DASH].
  destruct (bytes_eqb n [DASH]) eqn:E; [apply bytes_eqb_dash in E; subst; exact IH|]. apply fold_join. intros H. apply bytes_eqb_dash in H. congruence.
Qed.
Lemma app_of_path app ops : app <> [] -> app_of (valid_app app) ops = sub_path app (subs ops).
Proof.
  intros H. rewrite app_of_subs. unfold sub_path. change (bs "-") with [DASH]. destruct (bytes_eqb app [DASH]) eqn:E.
  - apply bytes_eqb_dash in E. subst. apply fold_dash.
  - apply fold_join. intros Hd. apply valid_app_dash in Hd as [Hd|Hd]; [contradiction|]. apply bytes_eqb_dash in Hd. congruence.
Qed.

(** Derivation: msgid is "-" or sanitised; the app name is the original or sanitised. *)
Lemma derive_fields ops : forall c x', derive c ops = MsgChannel x' \/ derive c ops = TrueChannel x' ->
  exists x, (c = MsgChannel x \/ c = TrueChannel x) /\ (x_msgid x' = x_msgid x \/ header_word 32 (x_msgid x')) /\
    ((exists n, In (CAppName n) ops) -> header_word 48 (x_app x')) /\ ((~ exists n, In (CAppName n) ops) -> x_app x' = x_app x).
Proof.
  induction ops as [|o ops IH]; intros c x' H.
  - exists x'. split; [exact H|]. split; [auto|]. split; [intros [n []]|auto].
  - cbn [derive fold_left] in H. destruct (IH (derive1 c o) x' H) as (x1 & Hx1 & Em & Ea & Ea').
    destruct c as [|y|y], o as [n|i]; cbn in Hx1; destruct Hx1 as [Hx1|Hx1]; try discriminate; injection Hx1 as <-; exists y; (split; [auto|]); cbn [x_msgid x_app] in *.
    + split; [exact Em|]. split.
      * intros _. assert (Hdec : (exists n, In (CAppName n) ops) \/ ~ exists n, In (CAppName n) ops).
        { clear. induction ops as [|[n|i] ops IH]; [right; intros [n []]|left; exists n; left; reflexivity|].
          destruct IH as [[n Hn]|Hn]; [left; exists n; right; exact Hn|right]. intros [n [E|E]]; [discriminate|]. apply Hn. exists n. exact E. }
        destruct Hdec as [Hd|Hd]; [exact (Ea Hd)|]. rewrite (Ea' Hd). apply validator_word. lia.
      * intros Hn. exfalso. apply Hn. exists n. left. reflexivity.
    + split; [right; destruct Em as [Em|Em]; [rewrite Em; apply validator_word; lia|exact Em]|]. split.
      * intros [n [E|E]]; [discriminate|]. apply Ea. exists n. exact E.
      * intros Hn. apply Ea'. intros [n E]. apply Hn. exists n. right. exact E.
Qed.

(** Every message logged through channels has valid header fields exactly when the app name, given
    to New and SubSyslog, is a valid word, or AppName was called (it sanitises). *)
Theorem C55_valid_iff : forall hostname pid out minp app s0 ops s sev s' c cops x now d, (0 <= pid < 2 ^ 63)%Z ->
  syslog_new hostname pid out minp app = Some s0 -> sys_run s0 ops = Val s -> syslog_channel s sev = Val (s', c) ->
  derive c cops = MsgChannel x \/ derive c cops = TrueChannel x ->
  (header_ok (chan_message x now d) <-> header_word 48 (sub_path app (subs ops)) \/ exists n, In (CAppName n) cops).
Proof.
  intros hostname pid out minp app s0 ops s sev s' c cops x now d Hpid H0 Hr Hc Hd.
  assert (Happ : app <> []) by (intros ->; discriminate).
  destruct (sys_run_inv _ _ _ _ _ _ ops H0) as (s1 & E & I). rewrite Hr in E. injection E as <-.
  destruct (channel_ok _ _ _ _ _ _ _ sev I) as (s2 & E' & _). rewrite Hc in E'. cbv zeta in E'. injection E' as <- E'.
  destruct (derive_context _ _ _ Hd) as (y & Hy & _ & Eh & Ep & _). destruct (derive_fields _ _ _ Hd) as (y' & Hy' & Em & Ea & Ea').
  assert (y' = y) by (destruct Hy, Hy'; congruence). subst y'. clear Hy'.
  set (b := match snd (mode ops) with Some b => b | None => fst (mode ops) end) in *.
  destruct (Z.to_nat (priority_severity sev) <=? Z.to_nat (priority_severity minp))%nat; [|subst c; destruct Hy; discriminate].
  unfold sev_channel in E'. rewrite E' in Hy. destruct Hy as [Hy|Hy]; [discriminate|]. injection Hy as <-. cbn [x_host x_pid x_app x_msgid] in *.
  rewrite app_of_path in * by exact Happ.
  assert (Hh : header_word 255 (x_host x)) by (rewrite Eh; unfold host_of; destruct b; [apply word_of; vm_compute; reflexivity|apply validator_word; lia]).
  assert (Hp : header_word 128 (x_pid x)) by (rewrite Ep; unfold pid_of; destruct b; [apply word_of; vm_compute; reflexivity|apply itoa_word; exact Hpid]).
  assert (Hm : header_word 32 (x_msgid x)) by (destruct Em as [Em|Em]; [rewrite Em; apply dash_ok; lia|exact Em]).
  assert (Hdec : (exists n, In (CAppName n) cops) \/ ~ exists n, In (CAppName n) cops).
  { clear. induction cops as [|[n|i] ops IH]; [right; intros [n []]|left; exists n; left; reflexivity|].
    destruct IH as [[n Hn]|Hn]; [left; exists n; right; exact Hn|right]. intros [n [E|E]]; [discriminate|]. apply Hn. exists n. exact E. }
  unfold header_ok, chan_message, forge_message. cbn [m_host m_app m_procid m_msgid].
  destruct Hdec as [Hdec|Hdec].
  - split; [intros _; right; exact Hdec|]. intros _. repeat (split; [first [exact Hh|exact (Ea Hdec)|exact Hp]|]). exact Hm.
  - rewrite (Ea' Hdec). split; [intros (_ & H & _); left; exact H|]. intros [H|H]; [|contradiction]. repeat (split; [first [exact Hh|exact H|exact Hp]|]). exact Hm.
Qed.
Print Assumptions C55_valid_iff.

(** SubSyslog stores its argument as it is, so the claim without the condition is false: a name with
    spaces forges the fields that follow, and an empty one gives a message no parser accepts. *)
Definition t0 : gotime := {| t_sec := 0; t_nsec := 0; t_off := 0 |}.
Theorem C55_sub_name_refuted :
  (exists s0 s s' x frame p, syslog_new (Some (bs "h")) 42 (Some 0%nat) (LogUSER + LogDEBUG) (bs "app") = Some s0 /\
    sys_run s0 [OSub (bs "x 1 2 - forged")] = Val s /\ syslog_channel s LogERR = Val (s', TrueChannel x) /\
    chan_write (fun _ => true) (fun _ => Some TLFEnded) (TrueChannel x) t0 (bs "hello") = Val (5%nat, [(0%nat, frame)]) /\
    parse frame (Some TLFEnded) true = Val (p, Some [], None) /\
    imm_appname p = Val (bs "app/x") /\ imm_procid p = Val (bs "1") /\ imm_msgid p = Val (bs "2") /\ imm_text p = Val (bs "forged 42 - - hello")) /\
  (exists s0 s s' x frame, syslog_new (Some (bs "h")) 42 (Some 0%nat) (LogUSER + LogDEBUG) (bs "-") = Some s0 /\
    sys_run s0 [OSub []] = Val s /\ syslog_channel s LogERR = Val (s', TrueChannel x) /\
    chan_write (fun _ => true) (fun _ => Some TRFC5425) (TrueChannel x) t0 (bs "hello") = Val (5%nat, [(0%nat, frame)]) /\
    exists e rest, parse frame (Some TRFC5425) true = Val (zero_immutable, rest, Some e)).
Proof.
  split.
  - do 6 eexists. repeat (split; [vm_compute; reflexivity|]). vm_compute; reflexivity.
  - do 5 eexists. repeat (split; [vm_compute; reflexivity|]). vm_compute. eexists. eexists. reflexivity.
Qed.
Print Assumptions C55_sub_name_refuted.

Example C55_nonvacuous : header_word 48 (sub_path (bs "app") (subs [OSub (bs "db"); OTestMode; OSub (bs "pool")])) /\
  sub_path (bs "app") (subs [OSub (bs "db"); OTestMode; OSub (bs "pool")]) = bs "app/db/pool" /\ ~ header_word 48 (sub_path (bs "app") [bs "a b"]).
Proof.
  split; [apply word_of; vm_compute; reflexivity|]. split; [vm_compute; reflexivity|]. intros (_ & _ & H). specialize (H 32%N). unfold printusascii in H.
  assert (In 32%N (sub_path (bs "app") [bs "a b"])) by (vm_compute; auto 10). specialize (H H0). lia.
Qed.

(** ** C56 *)
(** host name and pid of the channels of a Syslog made by New *)
Definition chan_identity (hostname : option bytes) (pid : Z) (test : Prop) (c : channel) : Prop :=
  forall x, c = TrueChannel x ->
    (test -> x_host x = bs "localhost" /\ x_pid x = bs "1234") /\
    (~ test -> sanitised 255 (match hostname with Some h => h | None => bs "-" end) (x_host x) /\ x_pid x = itoa pid).

Lemma mode_fst ops : fst (mode ops) = true <-> In OTestMode ops.
Proof.
  induction ops as [|o ops IH] using rev_ind; [split; [discriminate|intros []]|]. rewrite mode_snoc, in_app_iff. destruct o; cbn [mode_step fst]; split; intros H; auto.
  - right. left. reflexivity.
  - left. apply IH. exact H.
  - apply IH. destruct H as [H|[H|[]]]; [exact H|discriminate].
  - left. apply IH. exact H.
  - apply IH. destruct H as [H|[H|[]]]; [exact H|discriminate].
Qed.

Definition effective (ops : list sys_op) : bool := match snd (mode ops) with Some b => b | None => fst (mode ops) end.

Lemma effective_root ops : (forall n, ~ In (OSub n) ops) ->
  (effective ops = true <-> exists a b, ops = a ++ OTestMode :: b /\ forall sev, ~ In (OChannel sev) a) /\
  (snd (mode ops) = None <-> forall sev, ~ In (OChannel sev) ops).
Proof.
  induction ops as [|o ops IH] using rev_ind; intros Hn.
  - split; [split; [discriminate|]; intros (a & b & E & _); destruct a; discriminate|]. split; [intros _ sev []|reflexivity].
  - destruct IH as [IH1 IH2]; [intros n H; apply (Hn n), in_app_iff; auto|].
    assert (Hold : (exists a b, ops = a ++ OTestMode :: b /\ forall sev, ~ In (OChannel sev) a) -> exists a b, ops ++ [o] = a ++ OTestMode :: b /\ forall sev, ~ In (OChannel sev) a).
    { intros (a & b & -> & H). exists a, (b ++ [o]). split; [rewrite <- app_assoc; reflexivity|exact H]. }
    assert (Hnew : o <> OTestMode -> (exists a b, ops ++ [o] = a ++ OTestMode :: b /\ forall sev, ~ In (OChannel sev) a) -> exists a b, ops = a ++ OTestMode :: b /\ forall sev, ~ In (OChannel sev) a).
    { intros Ho (a & b & E & H). destruct (exists_last (l := OTestMode :: b)) as (b' & y & Eb); [discriminate|]. rewrite Eb in E. rewrite app_assoc in E. apply app_inj_tail in E as [E Ey].
      destruct b' as [|z b']; cbn in Eb; [injection Eb as E1 _; congruence|]. injection Eb as <- _. exists a, b'. split; [exact E|exact H]. }
    unfold effective in *. rewrite mode_snoc. destruct o as [|sev|n]; cbn [mode_step fst snd].
    + split.
      * destruct (snd (mode ops)) as [b|] eqn:Es.
        -- split; [intros H; apply Hold, IH1, H|]. intros (a & b' & E & H). apply IH1.
           destruct (exists_last (l := OTestMode :: b')) as (b2 & y & Eb); [discriminate|]. rewrite Eb in E. rewrite app_assoc in E. apply app_inj_tail in E as [E Ey]. clear Ey.
           destruct b2 as [|z b2]; cbn in Eb.
           ++ exfalso. rewrite app_nil_r in E. subst a. assert (Hc : Some b = None) by (apply IH2; exact H). discriminate.
           ++ injection Eb as <- _. exists a, b2. split; [exact E|exact H].
        -- split; [|reflexivity]. intros _. exists ops, []. split; [reflexivity|]. apply IH2. reflexivity.
      * rewrite IH2. split; intros H sev Hs; [apply in_app_iff in Hs as [Hs|[Hs|[]]]; [exact (H sev Hs)|discriminate]|apply (H sev), in_app_iff; auto].
    + split.
      * split; [intros H|intros H; apply IH1, Hnew; [discriminate|exact H]]. apply Hold, IH1. exact H.
      * split; [discriminate|]. intros H. exfalso. apply (H sev), in_app_iff. right. left. reflexivity.
    + exfalso. apply (Hn n), in_app_iff. right. left. reflexivity.
Qed.

Lemma effective_sub pre n post : (forall m, ~ In (OSub m) post) -> (effective (pre ++ OSub n :: post) = true <-> In OTestMode pre) /\ snd (mode (pre ++ OSub n :: post)) = Some (effective (pre ++ OSub n :: post)).
Proof.
  induction post as [|o post IH] using rev_ind; intros Hn.
  - unfold effective. rewrite mode_snoc. cbn [mode_step snd]. split; [apply mode_fst|reflexivity].
  - destruct IH as [IH1 IH2]; [intros m H; apply (Hn m), in_app_iff; auto|].
    change (pre ++ OSub n :: post ++ [o]) with (pre ++ (OSub n :: post) ++ [o]). rewrite app_assoc.
    assert (E : effective ((pre ++ OSub n :: post) ++ [o]) = effective (pre ++ OSub n :: post) /\ snd (mode ((pre ++ OSub n :: post) ++ [o])) = Some (effective (pre ++ OSub n :: post))).
    { unfold effective at 1. rewrite mode_snoc. destruct o as [|sev|m]; cbn [mode_step fst snd]; rewrite ?IH2; [auto|auto|].
      exfalso. apply (Hn m), in_app_iff. right. left. reflexivity. }
    destruct E as [-> ->]. split; [exact IH1|reflexivity].
Qed.

Lemma identity_of hostname pid out minp app ops s sev s' c : sys_inv hostname pid out minp app ops s -> syslog_channel s sev = Val (s', c) ->
  chan_identity hostname pid (effective ops = true) c.
Proof.
  intros I Hc x ->. destruct (channel_ok _ _ _ _ _ _ _ sev I) as (s2 & E' & _). rewrite Hc in E'. cbv zeta in E'. injection E' as _ E'. fold (effective ops) in E'.
  destruct (Z.to_nat (priority_severity sev) <=? Z.to_nat (priority_severity minp))%nat; [|discriminate]. injection E' as ->. cbn [x_host x_pid]. split.
  - intros ->. split; reflexivity.
  - intros H. destruct (effective ops); [congruence|]. split; [|reflexivity]. apply C07_sanitise.
Qed.

(** TestMode affects the channels of a Syslog made by New if and only if it is called before the
    first Channel. *)
Theorem C56_test_mode : forall hostname pid out minp app s0 ops s sev s' c,
  syslog_new hostname pid out minp app = Some s0 -> (forall n, ~ In (OSub n) ops) -> sys_run s0 ops = Val s -> syslog_channel s sev = Val (s', c) ->
  chan_identity hostname pid (exists a b, ops = a ++ OTestMode :: b /\ forall sv, ~ In (OChannel sv) a) c.
Proof.
  intros hostname pid out minp app s0 ops s sev s' c H0 Hn Hr Hc. destruct (sys_run_inv _ _ _ _ _ _ ops H0) as (s1 & E & I). rewrite Hr in E. injection E as <-.
  pose proof (identity_of _ _ _ _ _ _ _ _ _ _ I Hc) as K. destruct (effective_root ops Hn) as [Hi _]. intros x Ex. destruct (K x Ex) as [K1 K2]. split; intros H; [apply K1|apply K2]; rewrite Hi; exact H.
Qed.
Print Assumptions C56_test_mode.

(** The channels of a SubSyslog have the host name and pid its parent had when SubSyslog was called
    (in test mode if and only if TestMode had been called on it or an ancestor by then, even after
    Channel); calling TestMode on it changes none of them. *)
Theorem C56_sub_syslog : forall hostname pid out minp app s0 pre n post s sev s' c,
  syslog_new hostname pid out minp app = Some s0 -> (forall m, ~ In (OSub m) post) -> sys_run s0 (pre ++ OSub n :: post) = Val s -> syslog_channel s sev = Val (s', c) ->
  chan_identity hostname pid (In OTestMode pre) c.
Proof.
  intros hostname pid out minp app s0 pre n post s sev s' c H0 Hn Hr Hc. destruct (sys_run_inv _ _ _ _ _ _ (pre ++ OSub n :: post) H0) as (s1 & E & I). rewrite Hr in E. injection E as <-.
  pose proof (identity_of _ _ _ _ _ _ _ _ _ _ I Hc) as K. destruct (effective_sub pre n post Hn) as [Hi _]. intros x Ex. destruct (K x Ex) as [K1 K2]. split; intros H; [apply K1|apply K2]; rewrite Hi; exact H.
Qed.
Print Assumptions C56_sub_syslog.

(** Repeated calls return the same channel, whatever happens on that Syslog between. *)
Theorem C56_repeated : forall hostname pid out minp app s0 ops s sev s1 c between s2 s3 c',
  syslog_new hostname pid out minp app = Some s0 -> sys_run s0 ops = Val s -> syslog_channel s sev = Val (s1, c) ->
  (forall n, ~ In (OSub n) between) -> sys_run s1 between = Val s2 -> syslog_channel s2 sev = Val (s3, c') -> c' = c.
Proof.
  intros hostname pid out minp app s0 ops s sev s1 c between s2 s3 c' H0 Hr Hc Hn Hb Hc'.
  destruct (sys_run_inv _ _ _ _ _ _ ops H0) as (sx & E & I). rewrite Hr in E. injection E as <-.
  destruct (channel_ok _ _ _ _ _ _ _ sev I) as (s1' & E1 & I1). rewrite Hc in E1. cbv zeta in E1. fold (effective ops) in E1. injection E1 as <- E1.
  assert (K : forall l sA sB, sys_inv hostname pid out minp app l sA -> (exists b, snd (mode l) = Some b) -> sys_run sA between = Val sB ->
     exists l', sys_inv hostname pid out minp app l' sB /\ snd (mode l') = snd (mode l) /\ app_of (valid_app app) l' = app_of (valid_app app) l).
  { clear -Hn. induction between as [|o between IH]; intros l sA sB IA [b Hm] Hr.
    - cbn in Hr. injection Hr as <-. exists l. auto.
    - cbn [sys_run] in Hr. destruct (sys_do sA o) as [sC| |] eqn:Ed; try discriminate. cbn [bind] in Hr.
      assert (Hn' : forall n, ~ In (OSub n) between) by (intros n H; apply (Hn n); right; exact H). specialize (IH Hn').
      assert (IC : sys_inv hostname pid out minp app (l ++ [o]) sC).
      { destruct o as [|sev|n]; cbn [sys_do] in Ed.
        - injection Ed as <-. destruct IA as [Hf Hs Ho Ha Hh Hp Hc].
          constructor; cbn [syslog_test_mode y_facility y_minsev y_out y_app y_host y_pid y_channels]; rewrite ?app_of_snoc, ?mode_snoc; cbn [mode_step fst snd]; auto.
        - destruct (channel_ok _ _ _ _ _ _ _ sev IA) as (s' & E' & I'). rewrite E' in Ed. cbn [bind fst] in Ed. injection Ed as <-. exact I'.
        - exfalso. apply (Hn n). left. reflexivity. }
      assert (Hm' : snd (mode (l ++ [o])) = snd (mode l)) by (rewrite mode_snoc; destruct o as [|sev|n]; cbn [mode_step snd]; [reflexivity|rewrite Hm; reflexivity|exfalso; apply (Hn n); left; reflexivity]).
      assert (Ha' : app_of (valid_app app) (l ++ [o]) = app_of (valid_app app) l) by (rewrite app_of_snoc; destruct o as [|sev|n]; [reflexivity|reflexivity|exfalso; apply (Hn n); left; reflexivity]).
      destruct (IH (l ++ [o]) sC sB IC) as (l' & I' & E1 & E2); [rewrite Hm'; eauto|exact Hr|]. exists l'. split; [exact I'|]. split; congruence. }
  destruct (K (ops ++ [OChannel sev]) s1 s2 I1) as (l' & I2 & Em & Ea); [|exact Hb|].
  { rewrite mode_snoc. cbn [mode_step snd]. eauto. }
  destruct (channel_ok _ _ _ _ _ _ _ sev I2) as (s3' & E3 & _). rewrite Hc' in E3. cbv zeta in E3. injection E3 as <- E3.
  rewrite mode_snoc in Em. cbn [mode_step snd] in Em. rewrite app_of_snoc in Ea. rewrite E1, E3, Em, Ea. reflexivity.
Qed.
Print Assumptions C56_repeated.

Example C56_nonvacuous : exists s0 s s1 c s2 s3 c', syslog_new None 42 None (LogUSER + LogDEBUG) (bs "app") = Some s0 /\
  sys_run s0 [OChannel LogERR; OTestMode] = Val s /\ syslog_channel s LogERR = Val (s1, c) /\ (exists x, c = TrueChannel x /\ x_pid x = bs "42" /\ x_host x = bs "-") /\
  sys_run s0 [OChannel LogERR; OTestMode; OSub (bs "s")] = Val s2 /\ syslog_channel s2 LogERR = Val (s3, c') /\ (exists x, c' = TrueChannel x /\ x_pid x = bs "1234").
Proof. do 7 eexists. repeat (split; [vm_compute; reflexivity|]). split; [eexists; repeat split; vm_compute; reflexivity|]. repeat (split; [vm_compute; reflexivity|]). eexists; split; vm_compute; reflexivity. Qed.

(** PropIdentity.v -- C93: the header of what a Channel logs, from the whole history of the program. *)
From Verif Require Import Base BaseFacts Spec MPriority MHelpers MText MTime MSData MMessage MParse MTransport MSender MSyslog
  LPriority LText LTime LParse LSyslog PropPriority PropMessage PropParse PropSyslog PropSyslog2 PropProgram.

(** ** specification vocabulary *)
(** the app name of a Syslog called [a] after SubSyslog with each of the names: "-" is replaced, any
    other name is followed by a slash and the name given, as it is *)
Inductive joined : bytes -> list bytes -> bytes -> Prop :=
| joined_nil a : joined a [] a
| joined_dash n r p : joined n r p -> joined (bs "-") (n :: r) p
| joined_more a n r p : a <> bs "-" -> joined (a ++ bs "/" ++ n) r p -> joined a (n :: r) p.

(** the app name of a Channel called [a] after AppName with each of the names: the same, but
    sanitised to 48 bytes at every step *)
Inductive named : bytes -> list bytes -> bytes -> Prop :=
| named_nil a : named a [] a
| named_dash n r b p : sanitised 48 n b -> named b r p -> named (bs "-") (n :: r) p
| named_more a n r b p : a <> bs "-" -> sanitised 48 (a ++ bs "/" ++ n) b -> named b r p -> named a (n :: r) p.

(** TestMode counts: on a Syslog made by New when it is called before the first Channel; on a
    SubSyslog when it was called on an ancestor before SubSyslog *)
Definition in_test_mode (ops : list sys_op) : Prop :=
  ((forall n, ~ In (OSub n) ops) /\ exists a b, ops = a ++ OTestMode :: b /\ forall sv, ~ In (OChannel sv) a) \/
  (exists pre n post, ops = pre ++ OSub n :: post /\ (forall m, ~ In (OSub m) post) /\ In OTestMode pre).

(** ** facts *)
Lemma nth_ext {A} (l : list A) : forall l', (forall k, nth_error l k = nth_error l' k) -> l = l'.
Proof.
  induction l as [|a l IH]; intros [|b l'] H; [reflexivity|discriminate (H 0%nat)|discriminate (H 0%nat)|].
  pose proof (H 0%nat) as E. injection E as ->. f_equal. apply IH. intros k. exact (H (S k)).
Qed.
Lemma sanitised_unique n i o o' : sanitised n i o -> sanitised n i o' -> o = o'.
Proof.
  intros (_ & He & Hn) (_ & He' & Hn'). destruct i as [|c i]; [rewrite (He eq_refl), (He' eq_refl); reflexivity|].
  destruct (Hn ltac:(discriminate)) as [L H], (Hn' ltac:(discriminate)) as [L' H']. apply nth_ext. intros k.
  destruct (Nat.lt_ge_cases k (length o)) as [Hk|Hk].
  - destruct (nth_error (c :: i) k) as [b|] eqn:E; [|apply nth_error_None in E; lia].
    assert (Hk' : (k < length o')%nat) by lia. destruct (H k b Hk E) as [H1 H2], (H' k b Hk' E) as [H1' H2'].
    assert (D : printusascii b \/ ~ printusascii b) by (unfold printusascii; lia). destruct D as [D|D]; [rewrite (H1 D), (H1' D)|rewrite (H2 D), (H2' D)]; reflexivity.
  - assert (E : nth_error o k = None) by (apply nth_error_None; lia). assert (E' : nth_error o' k = None) by (apply nth_error_None; lia). congruence.
Qed.

Lemma joined_fold r : forall a, joined a r (fold_left app_join r a).
Proof.
  induction r as [|n r IH]; intros a; [constructor|]. cbn [fold_left]. destruct (list_eq_dec N.eq_dec a (bs "-")) as [->|H].
  - apply joined_dash. change (app_join (bs "-") n) with n. apply IH.
  - apply joined_more; [exact H|]. rewrite app_join_other by exact H. apply IH.
Qed.

Lemma joined_unique a r p : joined a r p -> forall p', joined a r p' -> p = p'.
Proof.
  induction 1; intros p' H'.
  - inversion H'; reflexivity.
  - inversion H' as [|? ? ? H1|? ? ? ? Hn]; subst; [apply IHjoined; assumption|congruence].
  - inversion H' as [|? ? ? H1|? ? ? ? Hn]; subst; [congruence|apply IHjoined; assumption].
Qed.
Lemma named_unique a r p : named a r p -> forall p', named a r p' -> p = p'.
Proof.
  induction 1 as [|n r b p Hs HN IH|a n r b p Ha Hs HN IH]; intros p' H'.
  - inversion H'; reflexivity.
  - inversion H' as [|? ? b' ? Hs' H1|? ? ? b' ? Hn]; subst; [|congruence]. rewrite (sanitised_unique _ _ _ _ Hs' Hs) in H1. apply IH. assumption.
  - inversion H' as [|? ? b' ? Hs' H1|? ? ? b' ? Hn Hs' H1]; subst; [congruence|]. rewrite (sanitised_unique _ _ _ _ Hs' Hs) in H1. apply IH. assumption.
Qed.

(** the derivations of a channel that logs *)
Lemma derive_true d : forall y x, derive (TrueChannel y) d = MsgChannel x \/ derive (TrueChannel y) d = TrueChannel x ->
  exists names ids, d = map CAppName names ++ map CMsgid ids /\ (length ids <= 1)%nat /\ named (x_app y) names (x_app x) /\
    (ids = [] -> x_msgid x = x_msgid y) /\ (forall id, ids = [id] -> sanitised 32 id (x_msgid x)).
Proof.
  induction d as [|o d IH]; intros y x H.
  - destruct H as [H|H]; [discriminate|]. injection H as ->. exists [], []. split; [reflexivity|]. split; [cbn; lia|]. split; [constructor|]. split; [reflexivity|discriminate].
  - destruct o as [n|i]; cbn [derive fold_left derive1 chan_app_name chan_msgid] in H.
    + destruct (IH _ _ H) as (names & ids & -> & Hl & Hn & H1 & H2). cbn [x_app x_msgid] in *. exists (n :: names), ids. split; [reflexivity|]. split; [exact Hl|].
      split; [|split; [exact H1|exact H2]]. destruct (list_eq_dec N.eq_dec (x_app y) (bs "-")) as [E|E].
      * rewrite E in *. change (app_join (bs "-") n) with n in Hn. eapply named_dash; [apply C07_sanitise|exact Hn].
      * rewrite app_join_other in Hn by exact E. eapply named_more; [exact E|apply C07_sanitise|exact Hn].
    + destruct d as [|o d].
      * cbn [fold_left] in H. destruct H as [H|H]; [|discriminate]. injection H as <-. exists [], [i]. cbn [x_app x_msgid length]. split; [reflexivity|]. split; [lia|]. split; [constructor|]. split; [discriminate|].
        intros id E. injection E as <-. apply C07_sanitise.
      * exfalso. cbn [fold_left] in H. replace (derive1 (MsgChannel _) o) with DevNull in H by (destruct o; reflexivity).
        fold (derive DevNull d) in H. rewrite derive_null in H. destruct H; discriminate.
Qed.

Lemma test_mode_iff ops : effective ops = true <-> in_test_mode ops.
Proof.
  assert (D : (forall n, ~ In (OSub n) ops) \/ exists pre n post, ops = pre ++ OSub n :: post /\ forall m, ~ In (OSub m) post).
  { induction ops as [|o ops IH]; [left; intros n []|]. destruct IH as [IH|(pre & n & post & -> & H)].
    - destruct o as [|sv|n]; [left|left|right].
      1,2: intros n [E|E]; [discriminate|exact (IH n E)].
      exists [], n, ops. split; [reflexivity|exact IH].
    - right. exists (o :: pre), n, post. split; [reflexivity|exact H]. }
  destruct D as [D|(pre & n & post & -> & D)].
  - destruct (effective_root ops D) as [-> _]. split; [intros H; left; split; [exact D|exact H]|]. intros [[_ H]|(pre & n & post & -> & _)]; [exact H|].
    exfalso. apply (D n), in_app_iff. right. left. reflexivity.
  - destruct (effective_sub pre n post D) as [-> _]. split.
    + intros H. right. exists pre, n, post. auto.
    + intros [[H _]|(pre' & n' & post' & E & D' & H)]; [exfalso; apply (H n), in_app_iff; right; left; reflexivity|].
      assert (Q : pre = pre').
      { clear H. revert pre' E. induction pre as [|o pre IH]; intros pre' E; destruct pre' as [|o' pre']; [reflexivity| | |].
        - exfalso. cbn in E. injection E as _ E. apply (D n'). rewrite E, in_app_iff. right. left. reflexivity.
        - exfalso. cbn in E. injection E as _ E. apply (D' n). rewrite <- E, in_app_iff. right. left. reflexivity.
        - cbn in E. injection E as -> E. f_equal. apply IH. exact E. }
      subst pre'. exact H.
Qed.

(** ** C93 *)
(** When a channel logs: its severity passes the filter of New, and it was made by calls of AppName
    followed by at most one of Msgid. *)
Theorem C93_logs_iff : forall b ops sev d c, is_channel (b, ops, sev, d) c ->
  (chan_is_devnull c = false <->
   (sev mod 8 <= b_minp b mod 8)%Z /\ exists names ids, d = map CAppName names ++ map CMsgid ids /\ (length ids <= 1)%nat).
Proof.
  intros b ops sev d c (s & s' & c0 & (s0 & H0 & Hr) & Hc & ->).
  destruct (C50_severity_filter _ _ _ _ _ _ _ _ sev H0 Hr) as (s1 & c1 & E & Hf & H). rewrite Hc in E. injection E as <- <-. rewrite <- Hf. split.
  - intros Hd. destruct (derive c0 d) as [|x|x] eqn:Ed; try discriminate;
      (assert (Hx : derive c0 d = MsgChannel x \/ derive c0 d = TrueChannel x) by auto; destruct (derive_context _ _ _ Hx) as (y & Hy & _);
       destruct H as (z & -> & _); [destruct Hy as [-> | ->]; reflexivity|]; split; [reflexivity|];
       destruct (derive_true d z x Hx) as (names & ids & E & Hl & _); exists names, ids; split; [exact E|exact Hl]).
  - intros [Hn (names & ids & -> & Hl)]. destruct (H Hn) as (z & -> & _). apply C54_logging_iff. intros a i b' E.
    destruct ids as [|i0 [|? ?]]; cbn [map length] in *; [|clear Hl|lia].
    + exfalso. rewrite app_nil_r in E. assert (Hi : In (CMsgid i) (map CAppName names)) by (rewrite E, in_app_iff; right; left; reflexivity).
      apply in_map_iff in Hi as (? & ? & _). discriminate.
    + destruct b' as [|o b']; [reflexivity|]. exfalso.
      destruct (exists_last (l := o :: b')) as (l & q & El); [discriminate|]. rewrite El in E.
      replace (a ++ CMsgid i :: l ++ [q]) with ((a ++ CMsgid i :: l) ++ [q]) in E by (rewrite <- app_assoc; reflexivity).
      apply app_inj_tail in E as [E _]. assert (Hi : In (CMsgid i) (map CAppName names)) by (rewrite E, in_app_iff; right; left; reflexivity).
      apply in_map_iff in Hi as (? & ? & _). discriminate.
Qed.
Print Assumptions C93_logs_iff.

(** The priority, host name, pid, message id, app name and Sender of a channel that logs, from what
    was given to New, SubSyslog, Channel, AppName and Msgid, and when TestMode was called. *)
Theorem C93_header : forall b ops sev d c x, is_channel (b, ops, sev, d) c -> c = MsgChannel x \/ c = TrueChannel x ->
  x_prio x = (8 * (b_minp b / 8 mod 32) + sev mod 8)%Z /\ x_out x = b_out b /\
  (in_test_mode ops -> x_host x = bs "localhost" /\ x_pid x = bs "1234") /\
  (~ in_test_mode ops -> sanitised 255 (match b_host b with Some h => h | None => bs "-" end) (x_host x) /\ x_pid x = itoa (b_pid b)) /\
  exists names ids, d = map CAppName names ++ map CMsgid ids /\ (length ids <= 1)%nat /\
    (ids = [] -> x_msgid x = bs "-") /\ (forall id, ids = [id] -> sanitised 32 id (x_msgid x)) /\
    exists a base, sanitised 48 (b_app b) a /\ joined a (subs ops) base /\ named base names (x_app x).
Proof.
  intros b ops sev d c x (s & s' & c0 & (s0 & H0 & Hr) & Hc & ->) Hd.
  destruct (C52_priority_in_range _ _ _ _ _ _ _ _ _ _ _ _ _ H0 Hr Hc Hd) as (Ep & _ & Eo). split; [exact Ep|]. split; [exact Eo|]. clear Ep Eo.
  destruct (sys_run_inv _ _ _ _ _ _ ops H0) as (s1 & E & I). rewrite Hr in E. injection E as <-.
  pose proof (identity_of _ _ _ _ _ _ _ _ _ _ I Hc) as K.
  destruct (channel_ok _ _ _ _ _ _ _ sev I) as (s2 & E' & _). rewrite Hc in E'. cbv zeta in E'. injection E' as <- E'.
  destruct (derive_context _ _ _ Hd) as (y & Hy & _ & Eh & Ei & _).
  destruct (Z.to_nat (priority_severity sev) <=? Z.to_nat (priority_severity (b_minp b)))%nat; [|subst c0; destruct Hy; discriminate].
  unfold sev_channel in E'. destruct Hy as [Hy|Hy]; [congruence|]. rewrite Hy in *. injection E' as E'. destruct (K y eq_refl) as [K1 K2].
  rewrite test_mode_iff in K1, K2. rewrite Eh, Ei. split; [exact K1|]. split; [exact K2|].
  destruct (derive_true d y x Hd) as (names & ids & E & Hl & Hn & H1 & H2). exists names, ids. split; [exact E|]. split; [exact Hl|].
  rewrite E' in H1, Hn. cbn [x_msgid x_app] in H1, Hn. split; [exact H1|]. split; [exact H2|].
  exists (valid_app (b_app b)), (app_of (valid_app (b_app b)) ops). split; [apply C07_sanitise|]. split; [|exact Hn]. rewrite app_of_subs. apply joined_fold.
Qed.
Print Assumptions C93_header.

(** This determines the header: the three relations used are functions of what was given. *)
Theorem C93_determined :
  (forall limit i o o', sanitised limit i o -> sanitised limit i o' -> o = o') /\
  (forall a names p p', joined a names p -> joined a names p' -> p = p') /\
  (forall a names p p', named a names p -> named a names p' -> p = p') /\
  (forall names ids names' ids', map CAppName names ++ map CMsgid ids = map CAppName names' ++ map CMsgid ids' -> names = names' /\ ids = ids').
Proof.
  split; [exact sanitised_unique|]. split; [exact (fun a n p p' H => joined_unique a n p H p')|]. split; [exact (fun a n p p' H => named_unique a n p H p')|].
  induction names as [|n names IH]; intros ids names' ids' E.
  - destruct names' as [|n' names'].
    + split; [reflexivity|]. revert ids' E. induction ids as [|i ids IH]; intros [|i' ids'] E; try discriminate; [reflexivity|]. cbn in E. injection E as -> E. f_equal. apply IH. exact E.
    + destruct ids; discriminate.
  - destruct names' as [|n' names']; [destruct ids'; discriminate|]. cbn in E. injection E as -> E. destruct (IH _ _ _ E) as [-> ->]. auto.
Qed.
Print Assumptions C93_determined.

(** a SubSyslog made after TestMode and Channel were called on its parent, then AppName and Msgid *)
Example C93_nonvacuous : exists c x,
  is_channel ({| b_host := Some (bs "my host"); b_pid := 42; b_out := Some 0%nat; b_minp := LogUSER + LogDEBUG; b_app := bs "web" |},
     [OChannel LogERR; OTestMode; OSub (bs "a b")], LogERR, [CAppName (bs "c d"); CMsgid (bs "i d")]) c /\
  c = MsgChannel x /\ x_app x = bs "web/a%b/c%d" /\ x_msgid x = bs "i%d" /\ x_host x = bs "localhost" /\ x_prio x = 11%Z.
Proof.
  do 2 eexists. split; [do 3 eexists; split; [eexists; split; vm_compute; reflexivity|]; split; [vm_compute; reflexivity|reflexivity]|].
  split; [vm_compute; reflexivity|]. vm_compute. auto.
Qed.

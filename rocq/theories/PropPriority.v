(** PropPriority.v -- properties C01..C07 (priority.go, helpers.go). *)
From Verif Require Import Base BaseFacts Spec MPriority MHelpers LPriority.

(** C01: canonical decimal wire form, decoded back. *)
Theorem C01_priority_roundtrip : forall p old : Z, (0 <= p <= 299)%Z ->
  priority_marshal p = bs "<" ++ decimal (Z.to_N p) ++ bs ">1" /\
  priority_unmarshal old (priority_marshal p) = Val (p, true).
Proof. intros p old H. split; [exact (marshal_canonical p H)|exact (unmarshal_marshal p old H)]. Qed.
Print Assumptions C01_priority_roundtrip.

Example C01_nonvacuous : (0 <= 165 <= 299)%Z /\ priority_marshal 165 = bs "<165>1".
Proof. split; [lia|reflexivity]. Qed.

(** C02: exact accepted language; receiver updated exactly on success. *)
Definition priority_text (ds d : bytes) : Prop :=
  d = bs "<" ++ ds ++ bs ">1" /\ (1 <= length ds <= 3)%nat /\ all_digits ds.

Theorem C02_unmarshal_exact : forall (old : Z) (d : bytes),
  (forall ds, priority_text ds d -> priority_unmarshal old d = Val (decimal_value ds, true)) /\
  (~ (exists ds, priority_text ds d) -> priority_unmarshal old d = Val (old, false)).
Proof.
  intros old d. split.
  - intros ds (-> & Hl & Hd). exact (unmarshal_accepts old ds Hl Hd).
  - intros Hn. destruct (unmarshal_total old d) as (q & [|] & E & H1 & H2).
    + exfalso. apply Hn. destruct (H1 eq_refl) as (ds & Hd & Hl & Ha & _). exists ds. exact (conj Hd (conj Hl Ha)).
    + rewrite E, (H2 eq_refl). reflexivity.
Qed.
Print Assumptions C02_unmarshal_exact.

Example C02_nonvacuous :
  priority_text (bs "034") (bs "<034>1") /\ priority_unmarshal 7 (bs "<034>1") = Val (34%Z, true) /\
  priority_unmarshal 7 (bs "<34>2") = Val (7%Z, false).
Proof.
  split; [|split; reflexivity]. split; [reflexivity|]. split; [cbn; lia|].
  intros c Hc. cbn in Hc. repeat (destruct Hc as [<-|Hc]; [lia|]). destruct Hc.
Qed.

(** C03: re-encoding a decoded priority.  False in general (a peer can send <300>1 .. <999>1):
    exact boundary for every decodable value, and a witness. *)
Theorem C03_reencode_refuted :
  exists d p old, priority_unmarshal old d = Val (p, true) /\
                  priority_unmarshal old (priority_marshal p) <> Val (p, true).
Proof. exists (bs "<300>1"), 300%Z, 0%Z. split; [reflexivity|vm_compute; discriminate]. Qed.
Print Assumptions C03_reencode_refuted.

Theorem C03_reencode_iff : forall d p old,
  priority_unmarshal old d = Val (p, true) ->
  ((p <= 299)%Z <-> priority_unmarshal old (priority_marshal p) = Val (p, true)).
Proof.
  intros d p old E.
  destruct (unmarshal_total old d) as (q & ok & E' & H1 & _). rewrite E in E'. inv E'.
  destruct (H1 eq_refl) as (ds & _ & Hl & Ha & ->). clear E H1.
  assert (Hr : (0 <= decimal_value ds < 1000)%Z).
  { unfold decimal_value. destruct ds as [|a [|b [|c [|]]]]; cbn [length] in Hl; try lia;
      cbn [fold_left]; unfold all_digits in Ha; cbn [In] in Ha.
    - pose proof (Ha a ltac:(auto)). lia.
    - pose proof (Ha a ltac:(auto)). pose proof (Ha b ltac:(auto)). lia.
    - pose proof (Ha a ltac:(auto)). pose proof (Ha b ltac:(auto)). pose proof (Ha c ltac:(auto)). lia. }
  split; intros H; [apply unmarshal_marshal; lia|].
  assert (Hs : (decimal_value ds <=? 299)%Z ||
     match priority_unmarshal old (priority_marshal (decimal_value ds)) with
     | Val (q, true) => negb (Z.eqb q (decimal_value ds)) | _ => true end = true).
  { apply (sweep (fun p => (p <=? 299)%Z ||
       match priority_unmarshal old (priority_marshal p) with
       | Val (q, true) => negb (Z.eqb q p) | _ => true end) 1000); [vm_compute; reflexivity|].
    change (Z.of_nat 1000) with 1000%Z. exact Hr. }
  apply orb_true_iff in Hs as [Hs|Hs]; [apply Z.leb_le in Hs; exact Hs|].
  rewrite H in Hs. rewrite Z.eqb_refl in Hs. discriminate.
Qed.
Print Assumptions C03_reencode_iff.

(** C04: Set / String. *)
Theorem C04_set_string : forall (old : Z) (d : bytes),
  (forall fn sn f s, d = fn ++ bs "." ++ sn -> facility_named fn f -> severity_named sn s ->
     priority_set old d = ((8 * f + s)%Z, true) /\ priority_string (8 * f + s) = Val d) /\
  (~ (exists fn sn f s, d = fn ++ bs "." ++ sn /\ facility_named fn f /\ severity_named sn s) ->
     priority_set old d = (old, false)).
Proof.
  intros old d. split.
  - intros fn sn f s -> Hf Hs. split; [exact (set_accepts old fn sn f s Hf Hs)|exact (string_of_named fn sn f s Hf Hs)].
  - intros Hn. pose proof (set_total old d) as H. destruct (priority_set old d) as [q [|]].
    + exfalso. destruct H as [H _]. destruct (H eq_refl) as (fn & sn & f & s & Hd & Hf & Hs & _).
      apply Hn. exists fn, sn, f, s. auto.
    + destruct H as [_ H]. rewrite (H eq_refl). reflexivity.
Qed.
Print Assumptions C04_set_string.

(** ... and Set undoes String for every priority whose facility has a name. *)
Theorem C04_string_set : forall (old p : Z) fn, (0 <= p <= 191)%Z -> facility_named fn (p / 8) ->
  exists s, priority_string p = Val s /\ priority_set old s = (p, true).
Proof.
  intros old p fn Hp Hf.
  destruct (severity_nth (p mod 8)) as [sn Hs]; [apply Z.mod_pos_bound; lia|].
  assert (Hn : severity_named sn (p mod 8)) by (split; [apply Z.mod_pos_bound; lia|exact Hs]).
  assert (Hpe : (8 * (p / 8) + p mod 8)%Z = p) by (symmetry; apply Z.div_mod; lia).
  exists (fn ++ bs "." ++ sn).
  pose proof (string_of_named _ _ _ _ Hf Hn) as H1. pose proof (set_accepts old _ _ _ _ Hf Hn) as H2.
  rewrite Hpe in H1, H2. split; [exact H1|exact H2].
Qed.
Print Assumptions C04_string_set.

Example C04_nonvacuous :
  facility_named (bs "local4") (165 / 8) /\ severity_named (bs "notice") 5 /\
  priority_set 0 (bs "local4.notice") = (165%Z, true) /\ priority_set 3 (bs "kern.emerg.info") = (3%Z, false).
Proof. split; [vm_compute; tauto|]. split; [split; [lia|reflexivity]|]. split; reflexivity. Qed.

(** C05: String panics on values a peer can send; exact condition for every integer. *)
Theorem C05_string_panics_refuted :
  exists d p, priority_unmarshal 0 d = Val (p, true) /\ priority_string p = Panic.
Proof. exists (bs "<192>1"), 192%Z. split; reflexivity. Qed.
Print Assumptions C05_string_panics_refuted.

Theorem C05_string_iff : forall p : Z,
  (exists s, priority_string p = Val s) <-> (p / 8 mod 32 < 24)%Z.
Proof.
  intros p. split.
  - intros [s H]. destruct (Z.lt_ge_cases (p / 8 mod 32) 24); [assumption|].
    rewrite priority_string_panics in H by assumption. discriminate.
  - exact (priority_string_total p).
Qed.
Print Assumptions C05_string_iff.

Theorem C05_string_rfc_range : forall p : Z, (0 <= p <= 191)%Z -> exists s, priority_string p = Val s.
Proof. intros p H. apply C05_string_iff. rewrite Z.mod_small; Z.div_mod_to_equations; lia. Qed.
Print Assumptions C05_string_rfc_range.

(** what String() returns: the two names (facilities 12 to 15 have none) *)
Theorem C05_string_value : forall p : Z, (p / 8 mod 32 < 24)%Z ->
  exists fn sn, severity_named sn (p mod 8) /\
    (facility_named fn (p / 8 mod 32) \/ ((12 <= p / 8 mod 32 <= 15)%Z /\ fn = bs "-")) /\
    priority_string p = Val (fn ++ bs "." ++ sn).
Proof.
  intros p H. rewrite priority_string_spec. pose proof (Z.mod_pos_bound p 8 ltac:(lia)) as H8. pose proof (Z.mod_pos_bound (p / 8) 32 ltac:(lia)) as H32.
  destruct (severity_nth (p mod 8) H8) as (sn & Hsn). rewrite Hsn. set (f := (p / 8 mod 32)%Z) in *.
  assert (Hf : exists fn, nth_error facility_string (Z.to_nat f) = Some fn /\ (facility_named fn f \/ ((12 <= f <= 15)%Z /\ fn = bs "-"))).
  { pose proof (zrange_in 24 f ltac:(lia)) as Hin. revert Hin. generalize f. clear. intros f Hin.
    repeat (destruct Hin as [<-|Hin]; [eexists; split; [reflexivity|]; first [right; split; [lia|reflexivity]|left; unfold facility_named, facility_numbers; cbn [In]; tauto]|]). destruct Hin. }
  destruct Hf as (fn & Hfn & Hc). rewrite Hfn. exists fn, sn. split; [split; [exact H8|exact Hsn]|]. split; [exact Hc|reflexivity].
Qed.
Print Assumptions C05_string_value.

(** C06 *)
(** of any integer: the severity is its value modulo 8, the facility the next five bits *)
Theorem C06_any : forall p : Z, priority_severity p = (p mod 8)%Z /\ priority_facility p = (8 * (p / 8 mod 32))%Z.
Proof. intros p. split; [apply severity_mod|apply facility_shift]. Qed.
Print Assumptions C06_any.

Theorem C06_partition : forall p : Z, (0 <= p <= 255)%Z ->
  Z.lor (priority_facility p) (priority_severity p) = p /\
  (priority_facility p + priority_severity p = p)%Z /\
  (0 <= priority_severity p <= 7)%Z /\ (priority_facility p mod 8 = 0)%Z.
Proof.
  intros p Hp. destruct (facility_severity_split p Hp) as (H1 & H2 & H3 & H4).
  split; [exact H1|]. split; [exact H2|]. pose proof (severity_range p). split; [lia|].
  rewrite H4, Z.mul_comm. apply Z.mod_mul. lia.
Qed.
Print Assumptions C06_partition.

Theorem C06_compose : forall f s : Z, (0 <= f < 32)%Z -> (0 <= s < 8)%Z ->
  priority_facility (Z.lor (8 * f) s) = (8 * f)%Z /\ priority_severity (Z.lor (8 * f) s) = s.
Proof. exact facility_of_pair. Qed.
Print Assumptions C06_compose.

(** The exported constants are the RFC 5424 codes. *)
Theorem C06_constants :
  [LogEMERG; LogALERT; LogCRIT; LogERR; LogWARNING; LogNOTICE; LogINFO; LogDEBUG] = [0; 1; 2; 3; 4; 5; 6; 7]%Z /\
  [LogKERN; LogUSER; LogMAIL; LogDAEMON; LogAUTH; LogSYSLOG; LogLPR; LogNEWS; LogUUCP; LogCRON; LogAUTHPRIV; LogFTP;
   LogLOCAL0; LogLOCAL1; LogLOCAL2; LogLOCAL3; LogLOCAL4; LogLOCAL5; LogLOCAL6; LogLOCAL7] =
  map (fun f => (8 * f)%Z) [0; 1; 2; 3; 4; 5; 6; 7; 8; 9; 10; 11; 16; 17; 18; 19; 20; 21; 22; 23]%Z.
Proof. split; reflexivity. Qed.
Print Assumptions C06_constants.

(** C07: sanitising. *)
Lemma sanitised_generic limit d : (1 <= limit)%nat -> sanitised limit d (validator_generic d limit).
Proof.
  intros Hn. split; [exact (validator_word d limit Hn)|]. split; [intros ->; reflexivity|].
  intros Hne. rewrite validator_nonempty by exact Hne.
  split; [rewrite map_length, firstn_length; reflexivity|].
  intros i b Hi Hb. rewrite map_length in Hi.
  assert (Hf : nth_error (firstn limit d) i = Some b).
  { rewrite firstn_length in Hi. rewrite <- Hb. rewrite <- (firstn_skipn limit d) at 2.
    rewrite nth_error_app1; [reflexivity|rewrite firstn_length; lia]. }
  split; intros Hp; rewrite nth_error_map, Hf; cbn [option_map]; f_equal.
  - apply sanitize_id, Hp.
  - unfold sanitize_byte. destruct ((b <? 33)%N || (126 <? b)%N) eqn:E; [reflexivity|].
    exfalso. apply Hp. unfold printusascii. apply orb_false_iff in E as [E1 E2].
    apply N.ltb_ge in E1. apply N.ltb_ge in E2. lia.
Qed.

Theorem C07_sanitise : forall d : bytes,
  sanitised 255 d (valid_host d) /\ sanitised 48 d (valid_app d) /\
  sanitised 128 d (valid_procid d) /\ sanitised 32 d (valid_msgid d).
Proof. intros d. split; [|split; [|split]]; apply sanitised_generic; lia. Qed.
Print Assumptions C07_sanitise.

Theorem C07_identity_on_valid : forall d : bytes,
  (header_word 255 d -> valid_host d = d) /\ (header_word 48 d -> valid_app d = d) /\
  (header_word 128 d -> valid_procid d = d) /\ (header_word 32 d -> valid_msgid d = d).
Proof. intros d. split; [|split; [|split]]; apply validator_id. Qed.
Print Assumptions C07_identity_on_valid.

Theorem C07_idempotent : forall d : bytes,
  valid_host (valid_host d) = valid_host d /\ valid_app (valid_app d) = valid_app d /\
  valid_procid (valid_procid d) = valid_procid d /\ valid_msgid (valid_msgid d) = valid_msgid d.
Proof. intros d. split; [|split; [|split]]; apply validator_id, validator_word; lia. Qed.
Print Assumptions C07_idempotent.

Example C07_nonvacuous :
  header_word 48 (bs "client-app") /\ valid_app (bs "my app") = bs "my%app" /\ valid_host [] = bs "-".
Proof.
  split; [|split; reflexivity]. split; [discriminate|]. split; [cbn; lia|].
  intros c Hc. cbn in Hc. unfold printusascii. repeat (destruct Hc as [<-|Hc]; [lia|]). destruct Hc.
Qed.

(** PropTime.v -- properties C73..C75 (timestamps). *)
From Verif Require Import Base BaseFacts Spec MPriority MHelpers MText MTime MSData MMessage.
From Verif Require Import LPriority LAtoi LCalendar LTime.
From Coq Require Import ZifyBool ZifyNat ZifyN.
Open Scope Z_scope.

(** ** Specification of the calendar, independent of the algorithms of the model *)
Definition leap_year (y : Z) : Prop := (4 | y) /\ (~ (100 | y) \/ (400 | y)).
Definition month_length (y m : Z) (n : Z) : Prop :=
  (m = 2 /\ leap_year y /\ n = 29) \/ (m = 2 /\ ~ leap_year y /\ n = 28) \/
  (In m [4; 6; 9; 11] /\ n = 30) \/ (In m [1; 3; 5; 7; 8; 10; 12] /\ n = 31).
(** [b] is the day after [a] *)
Definition next_day (a b : Z * Z * Z) : Prop :=
  let '(y, m, d) := a in exists n, month_length y m n /\
    ((d < n /\ b = (y, m, d + 1)) \/ (d = n /\ m < 12 /\ b = (y, m + 1, 1)) \/ (d = n /\ m = 12 /\ b = (y + 1, 1, 1))).

Lemma is_leap_spec y : is_leap y = true <-> leap_year y.
Proof.
  unfold is_leap, leap_year. rewrite andb_true_iff, orb_true_iff, negb_true_iff.
  rewrite <- !Z.mod_divide by lia. lia.
Qed.

Lemma days_in_spec m y : 1 <= m <= 12 -> month_length y m (days_in m y).
Proof.
  intros Hm. unfold days_in. destruct (Z.eqb_spec m 2) as [->|H2].
  - destruct (is_leap y) eqn:E; [left|right; left]; (split; [reflexivity|]); (split; [|reflexivity]).
    + apply is_leap_spec; exact E. + intros H. apply is_leap_spec in H. congruence.
  - right. right. assert (Hc : m = 1 \/ m = 3 \/ m = 4 \/ m = 5 \/ m = 6 \/ m = 7 \/ m = 8 \/ m = 9 \/ m = 10 \/ m = 11 \/ m = 12) by lia.
    cbn [In]. destruct (Z.eqb_spec m 4), (Z.eqb_spec m 6), (Z.eqb_spec m 9), (Z.eqb_spec m 11); cbn [orb]; lia.
Qed.

Lemma dfc_day y m d : days_from_civil y m (d + 1) = days_from_civil y m d + 1.
Proof. unfold days_from_civil. cbv zeta. lia. Qed.

Lemma year_days y : let era := y / 400 in let yoe := y - era * 400 in
  era * 146097 + (yoe * 365 + yoe / 4 - yoe / 100) = 365 * y + y / 4 - y / 100 + y / 400.
Proof.
  cbv zeta. set (e := y / 400). assert (Hy : y = (y - e * 400) + e * 400) by lia. set (r := y - e * 400) in *.
  assert (E4 : y / 4 = r / 4 + e * 100) by (rewrite Hy; replace (e * 400) with (e * 100 * 4) by lia; rewrite Z.div_add by lia; reflexivity).
  assert (E1 : y / 100 = r / 100 + e * 4) by (rewrite Hy; replace (e * 400) with (e * 4 * 100) by lia; rewrite Z.div_add by lia; reflexivity).
  rewrite E4, E1. lia.
Qed.

Lemma div_step y k : 0 < k -> y / k = (y - 1) / k + (if y mod k =? 0 then 1 else 0).
Proof.
  intros Hk. destruct (Z.eqb_spec (y mod k) 0) as [E|E].
  - pose proof (Z.div_mod y k ltac:(lia)). assert ((y - 1) / k = y / k - 1); [|lia]. symmetry. apply (Z.div_unique_pos _ _ _ (k - 1)); lia.
  - pose proof (Z.div_mod y k ltac:(lia)). pose proof (Z.mod_pos_bound y k Hk). assert ((y - 1) / k = y / k); [|lia].
    symmetry. apply (Z.div_unique_pos _ _ _ (y mod k - 1)); lia.
Qed.

Lemma dfc_month y m : 1 <= m < 12 -> days_from_civil y (m + 1) 1 = days_from_civil y m (days_in m y) + 1.
Proof.
  intros Hm. unfold days_from_civil, days_in.
  assert (Hc : m = 1 \/ m = 2 \/ m = 3 \/ m = 4 \/ m = 5 \/ m = 6 \/ m = 7 \/ m = 8 \/ m = 9 \/ m = 10 \/ m = 11) by lia.
  destruct Hc as [->|[->|[->|[->|[->|[->|[->|[->|[->|[->| ->]]]]]]]]]]; cbn -[Z.mul Z.div Z.add Z.sub is_leap].
  2: { (* February: the year starts in March *)
    change (2 + 1 <=? 2) with false. change (2 + 1 >? 2) with true. change (2 <=? 2) with true. cbv iota.
    pose proof (year_days y) as Ey. pose proof (year_days (y - 1)) as Ey1. cbv zeta in Ey, Ey1.
    change ((153 * (2 + 1 - 3) + 2) / 5) with 0. change ((153 * (2 + 9) + 2) / 5) with 337.
    pose proof (div_step y 4 ltac:(lia)) as D4. pose proof (div_step y 100 ltac:(lia)) as D1. pose proof (div_step y 400 ltac:(lia)) as D5.
    assert (M1 : y mod 400 = 0 -> y mod 100 = 0) by (intros; Z.div_mod_to_equations; lia).
    assert (M2 : y mod 100 = 0 -> y mod 4 = 0) by (intros; Z.div_mod_to_equations; lia).
    unfold is_leap. destruct (Z.eqb_spec (y mod 4) 0), (Z.eqb_spec (y mod 100) 0), (Z.eqb_spec (y mod 400) 0); cbn [negb andb orb]; lia. }
  all: repeat match goal with |- context [?a <=? ?b] => let v := eval vm_compute in (a <=? b) in change (a <=? b) with v end;
    repeat match goal with |- context [?a >? ?b] => let v := eval vm_compute in (a >? b) in change (a >? b) with v end; cbv iota;
    repeat match goal with |- context [(153 * ?a + 2) / 5] => let v := eval vm_compute in ((153 * a + 2) / 5) in change ((153 * a + 2) / 5) with v end; lia.
Qed.

Lemma dfc_year y : days_from_civil (y + 1) 1 1 = days_from_civil y 12 31 + 1.
Proof.
  unfold days_from_civil. change (1 <=? 2) with true. change (12 <=? 2) with false. change (1 >? 2) with false. change (12 >? 2) with true.
  cbv zeta iota. replace (y + 1 - 1) with y by lia. change ((153 * (1 + 9) + 2) / 5) with 306. change ((153 * (12 - 3) + 2) / 5) with 275. lia.
Qed.

(** The date the model gives to a day number: day 0 is 1970-01-01 and each day is followed by the
    next one. *)
Theorem C73_calendar : civil_from_days 0 = (1970, 1, 1) /\ forall n, next_day (civil_from_days n) (civil_from_days (n + 1)).
Proof.
  split; [reflexivity|]. intros n. pose proof (civil_from_days_ok n) as H. destruct (civil_from_days n) as [[y m] d] eqn:E.
  destruct H as (H1 & Hm & Hd). exists (days_in m y). split; [apply days_in_spec; exact Hm|].
  destruct (Z.lt_ge_cases d (days_in m y)) as [Hl|Hg].
  - left. split; [exact Hl|]. rewrite <- H1, <- dfc_day. apply civil_of_days_from; lia.
  - right. assert (Hde : d = days_in m y) by lia. destruct (Z.lt_ge_cases m 12) as [Hm1|Hm1].
    + left. split; [exact Hde|]. split; [exact Hm1|]. rewrite <- H1, Hde, <- dfc_month by lia.
      pose proof (days_in_bound (m + 1) y). apply civil_of_days_from; lia.
    + right. split; [exact Hde|]. split; [lia|]. assert (m = 12) by lia. subst m. change (days_in 12 y) with 31 in Hde. subst d.
      rewrite <- H1, <- dfc_year. apply civil_of_days_from; [lia|]. change (days_in 1 (y + 1)) with 31. lia.
Qed.
Print Assumptions C73_calendar.

(** ** C73 *)
Definition pad2 (n : Z) : bytes := [Z.to_N (48 + n / 10); Z.to_N (48 + n mod 10)].
Definition pad4 (n : Z) : bytes := pad2 (n / 100) ++ pad2 (n mod 100).

(** a fraction of seconds: '.', one to six digits, the last one not '0'; its value in microseconds *)
Definition fraction (f : bytes) (us : Z) : Prop :=
  (f = [] /\ us = 0) \/
  exists ds, f = bs "." ++ ds /\ all_digits ds /\ (1 <= length ds <= 6)%nat /\ last ds 48%N <> 48%N /\
    us = decimal_value ds * 10 ^ (6 - Z.of_nat (length ds)).

(** a zone: 'Z' or a sign, hours and minutes *)
Definition zone (z : bytes) (off : Z) : Prop :=
  (z = bs "Z" /\ off = 0) \/
  exists h m, 0 <= h < 24 /\ 0 <= m < 60 /\ off <> 0 /\
    ((off = (h * 60 + m) * 60 /\ z = bs "+" ++ pad2 h ++ bs ":" ++ pad2 m) \/
     (off = - ((h * 60 + m) * 60) /\ z = bs "-" ++ pad2 h ++ bs ":" ++ pad2 m)).

Lemma append2_pad n : 0 <= n <= 99 -> append_int n 2 = pad2 n.
Proof. intros H. rewrite append_int_2 by exact H. unfold pad2, dig. repeat f_equal; Z.div_mod_to_equations; lia. Qed.

Lemma append4_pad n : 0 <= n <= 9999 -> append_int n 4 = pad4 n.
Proof.
  intros H. rewrite append_int_4 by exact H. unfold pad4, pad2, dig. cbn [app].
  assert (E1 : n / 100 / 10 = n / 1000) by (rewrite Z.div_div by lia; reflexivity).
  assert (E2 : n mod 100 / 10 = n / 10 mod 10) by (Z.div_mod_to_equations; lia).
  assert (E3 : (n mod 100) mod 10 = n mod 10) by (Z.div_mod_to_equations; lia).
  rewrite E1, E2, E3. repeat f_equal; Z.div_mod_to_equations; lia.
Qed.

Lemma digits_to_decimal ds : Forall (fun c => is_digit c = true) ds -> digits_to_z ds = decimal_value ds.
Proof.
  unfold digits_to_z, decimal_value. generalize 0 as acc. induction ds as [|c ds IH]; intros acc H; [reflexivity|].
  inversion H as [|? ? Hc H']; subst. cbn [fold_left]. rewrite IH by exact H'. apply is_digit_spec in Hc.
  unfold digit_val. f_equal. lia.
Qed.

Lemma format_frac_spec n : 0 <= n < 1000000000 -> fraction (format_frac n) (n / 1000).
Proof.
  intros Hn. unfold format_frac. destruct (trim_zeros_spec (nano_digits n)) as [k Hk].
  pose proof (trim_digits _ (nano_digits_all n)) as Hd. pose proof (nano_digits_value n Hn) as Hv.
  pose proof (trim_zeros_last (nano_digits n) 48%N) as Hla.
  assert (Hlen : length (nano_digits n) = 6%nat) by reflexivity. rewrite Hk in Hv, Hlen.
  rewrite digits_to_z_zeros in Hv. rewrite app_length, repeat_length in Hlen.
  destruct (trim_zeros (nano_digits n)) as [|x ds] eqn:E.
  - left. split; [reflexivity|]. rewrite <- Hv. reflexivity.
  - right. exists (x :: ds). split; [reflexivity|]. split.
    { intros c Hc. rewrite Forall_forall in Hd. apply is_digit_spec, Hd, Hc. }
    split; [cbn [length] in *; lia|]. split; [apply Hla; discriminate|]. rewrite <- Hv, digits_to_decimal by exact Hd. f_equal. f_equal. lia.
Qed.

Lemma format_zone_spec off : - 86400 < off < 86400 -> off mod 60 = 0 -> zone (format_zone off) off.
Proof.
  intros H Hm. unfold format_zone. destruct (Z.eqb_spec off 0) as [->|Hne]; [left; auto|]. right.
  assert (Hq : off = 60 * Z.quot off 60).
  { pose proof (Z.quot_rem' off 60) as Hqr. assert (Z.rem off 60 = 0); [|lia].
    apply Z.rem_divide; [lia|]. apply Z.mod_divide; [lia|exact Hm]. }
  set (q := Z.quot off 60) in *. exists (Z.abs q / 60), (Z.abs q mod 60).
  pose proof (Z.div_mod (Z.abs q) 60 ltac:(lia)) as Hdm. pose proof (Z.mod_pos_bound (Z.abs q) 60 ltac:(lia)).
  set (h := Z.abs q / 60) in *. set (mi := Z.abs q mod 60) in *. clearbody h mi.
  split; [lia|]. split; [lia|]. split; [exact Hne|]. rewrite !append2_pad by lia.
  destruct (Z.ltb_spec q 0); [right|left]; (split; [lia|reflexivity]).
Qed.

(** the wire form of a timestamp: the wall clock of its zone, to the microsecond *)
Theorem C73_timestamp_form : forall t y mo d, time_valid t ->
  civil_from_days ((t_sec t + t_off t) / 86400) = (y, mo, d) ->
  let s := (t_sec t + t_off t) mod 86400 in
  exists f z, fraction f (t_nsec t / 1000) /\ zone z (t_off t) /\
    time_format t = pad4 y ++ bs "-" ++ pad2 mo ++ bs "-" ++ pad2 d ++ bs "T" ++
                    pad2 (s / 3600) ++ bs ":" ++ pad2 (s mod 3600 / 60) ++ bs ":" ++ pad2 (s mod 60) ++ f ++ z.
Proof.
  intros t y mo d Hv Hc s. pose proof (civil_of_valid t Hv) as (Hy & Hm & Hd & Hh & Hmi & Hs & Hn & Ho & Hom).
  pose proof (days_in_bound (c_month (civil_of t)) (c_year (civil_of t))) as Hb.
  exists (format_frac (t_nsec t)), (format_zone (t_off t)).
  unfold civil_of in *. rewrite Hc in *. cbn [c_year c_month c_day c_hour c_min c_sec c_nsec c_off] in *.
  split; [apply format_frac_spec; exact Hn|]. split; [apply format_zone_spec; assumption|].
  unfold time_format, format_civil, civil_of. rewrite Hc. cbn [c_year c_month c_day c_hour c_min c_sec c_nsec c_off]. fold s.
  fold s in Hh, Hmi, Hs. rewrite append4_pad by lia. rewrite !append2_pad by lia. reflexivity.
Qed.
Print Assumptions C73_timestamp_form.

(** the round trip *)
Theorem C73_round_trip : forall t, time_valid t ->
  time_parse (time_format t) = {| t_sec := t_sec t; t_nsec := t_nsec t / 1000 * 1000; t_off := t_off t |} /\ ~ In 32%N (time_format t).
Proof. intros t H. split; [exact (time_parse_format t H)|]. exact (proj2 (time_format_word t)). Qed.
Print Assumptions C73_round_trip.

(** 2003-08-24T05:14:15.000003-07:00 (RFC 5424, 6.2.3.1) *)
Example C73_nonvacuous : let t := {| t_sec := 1061727255; t_nsec := 3999; t_off := -25200 |} in
  time_valid t /\ time_format t = bs "2003-08-24T05:14:15.000003-07:00".
Proof. split; [|vm_compute; reflexivity]. unfold time_valid. vm_compute. repeat split; discriminate || reflexivity. Qed.

(** ** C74 *)
Definition nanos (t : gotime) : Z := t_sec t * 1000000000 + t_nsec t.

(** Decimal text above the 64-bit range, below it: a run of digits which is the whole text, or the
    first digits of it if they already exceed 64 unsigned bits. *)
Definition above (h : bytes) : Prop := exists sg ds rest, h = sg ++ ds ++ rest /\ (sg = [] \/ sg = bs "+") /\ all_digits ds /\
  (rest = [] /\ 2 ^ 63 <= decimal_value ds \/ 2 ^ 64 <= decimal_value ds).
Definition below (h : bytes) : Prop := exists ds rest, h = bs "-" ++ ds ++ rest /\ all_digits ds /\
  (rest = [] /\ 2 ^ 63 < decimal_value ds \/ 2 ^ 64 <= decimal_value ds).
(** The number a text argument counts as: itself, clamped, or zero when malformed. *)
Definition counts_as (h : bytes) (n : Z) : Prop :=
  int64_text h n \/ (above h /\ n = 2 ^ 63 - 1) \/ (below h /\ n = - 2 ^ 63) \/
  (~ (exists k, int64_text h k) /\ ~ above h /\ ~ below h /\ n = 0).

Lemma loop_over ds rest : forall n, 0 <= n <= max_uint64 -> all_digits ds ->
  max_uint64 < fold_left (fun acc c => acc * 10 + (Z.of_N c - 48)) ds n -> parse_uint_loop (ds ++ rest) n = (max_uint64, Some ErrRange).
Proof.
  induction ds as [|c ds IH]; intros n Hn Hd Hv; cbn [fold_left] in Hv; [lia|]. apply all_digits_cons in Hd as [Hc Hd].
  cbn [app parse_uint_loop]. assert (is_digit c = true) as -> by (apply is_digit_spec; exact Hc).
  replace (Z.of_N (c - C0)) with (Z.of_N c - 48) by lia. destruct (Z.leb_spec u64_cutoff n); [reflexivity|].
  destruct (Z.ltb_spec max_uint64 (n * 10 + (Z.of_N c - 48))); [reflexivity|]. apply IH; [lia|exact Hd|exact Hv].
Qed.
Lemma loop_range s : forall n v, 0 <= n <= max_uint64 -> parse_uint_loop s n = (v, Some ErrRange) ->
  v = max_uint64 /\ exists ds rest, s = ds ++ rest /\ all_digits ds /\ max_uint64 < fold_left (fun acc c => acc * 10 + (Z.of_N c - 48)) ds n.
Proof.
  induction s as [|c s IH]; intros n v Hn H; [discriminate|]. cbn [parse_uint_loop] in H.
  destruct (is_digit c) eqn:Ed; [|discriminate]. apply is_digit_spec in Ed.
  replace (Z.of_N (c - C0)) with (Z.of_N c - 48) in H by lia.
  assert (Hone : max_uint64 < n * 10 + (Z.of_N c - 48) -> exists ds rest, c :: s = ds ++ rest /\ all_digits ds /\ max_uint64 < fold_left (fun acc c => acc * 10 + (Z.of_N c - 48)) ds n).
  { intros Hb. exists [c], s. split; [reflexivity|]. split; [apply all_digits_cons; split; [exact Ed|intros x []]|exact Hb]. }
  destruct (Z.leb_spec u64_cutoff n) as [Hcut|].
  - split; [congruence|]. apply Hone. unfold u64_cutoff, max_uint64 in *. lia.
  - destruct (Z.ltb_spec max_uint64 (n * 10 + (Z.of_N c - 48))) as [Hb|Hb]; [split; [congruence|exact (Hone Hb)]|].
    destruct (IH _ v (ltac:(lia) : 0 <= n * 10 + (Z.of_N c - 48) <= max_uint64) H) as (Hv & ds & rest & E & Hd & Hf). split; [exact Hv|].
    exists (c :: ds), rest. split; [rewrite E; reflexivity|]. split; [apply all_digits_cons; split; assumption|exact Hf].
Qed.

Lemma uint_over ds rest : all_digits ds -> 2 ^ 64 <= decimal_value ds -> parse_uint (ds ++ rest) = (max_uint64, Some ErrRange).
Proof.
  intros Hd Hv. destruct ds as [|c ds]; [cbn in Hv; lia|]. unfold parse_uint. change ((c :: ds) ++ rest) with (c :: (ds ++ rest)).
  cbv beta iota. change (c :: (ds ++ rest)) with ((c :: ds) ++ rest). apply loop_over; [unfold max_uint64; lia|exact Hd|].
  unfold decimal_value in Hv. unfold max_uint64. lia.
Qed.
Lemma uint_cases s : let r := parse_uint s in
  (s <> [] /\ all_digits s /\ r = (decimal_value s, None) /\ 0 <= decimal_value s <= max_uint64) \/
  (r = (max_uint64, Some ErrRange) /\ exists ds rest, s = ds ++ rest /\ all_digits ds /\ 2 ^ 64 <= decimal_value ds) \/
  r = (0, Some ErrSyntax).
Proof.
  cbv zeta. destruct (parse_uint_spec s) as [H1 H2].
  assert (Hr : forall v, parse_uint s = (v, Some ErrRange) -> exists ds rest, s = ds ++ rest /\ all_digits ds /\ 2 ^ 64 <= decimal_value ds).
  { intros v H. destruct s as [|c s]; [discriminate|]. destruct (loop_range (c :: s) 0 v (ltac:(unfold max_uint64; lia)) H) as (_ & ds & rest & E & Hd & Hf).
    exists ds, rest. split; [exact E|]. split; [exact Hd|]. unfold decimal_value. unfold max_uint64 in Hf. lia. }
  destruct (all_digits_dec s) as [Hd|Hd].
  - assert (Hs : s = [] \/ s <> []) by (destruct s; [left; reflexivity|right; discriminate]). destruct Hs as [->|Hne]; [right; right; reflexivity|]. specialize (H1 Hne Hd). pose proof (decimal_value_nonneg _ Hd).
    destruct (Z.leb_spec (decimal_value s) max_uint64).
    + left. split; [exact Hne|]. split; [exact Hd|]. split; [exact H1|lia].
    + right; left. split; [exact H1|]. exact (Hr _ H1).
  - destruct (H2 (or_intror Hd)) as [E|E]; [right; right; exact E|right; left; split; [exact E|exact (Hr _ E)]].
Qed.

Lemma parse_int_text h n : int64_text h n -> parse_int h = (n, None).
Proof. intros H. apply atoi_iff in H. unfold atoi in H. destruct (parse_int h) as [v [e|]]; [discriminate|]. congruence. Qed.

Lemma digit_head ds : all_digits ds -> forall c r, ds = c :: r -> N.eqb c 43 = false /\ N.eqb c DASH = false.
Proof. intros Hd c r ->. apply all_digits_cons in Hd as [Hc _]. split; apply N.eqb_neq; lia. Qed.

Lemma parse_int_above h : above h -> parse_int h = (2 ^ 63 - 1, Some ErrRange).
Proof.
  intros (sg & ds & rest & -> & Hsg & Hd & Hv).
  assert (Hne : ds <> []) by (intros ->; cbn in Hv; lia).
  assert (Hu : exists un e, parse_uint (ds ++ rest) = (un, e) /\ e <> Some ErrSyntax /\ 2 ^ 63 <= un).
  { destruct Hv as [[-> Hv]|Hv].
    - rewrite app_nil_r. destruct (parse_uint_spec ds) as [H _]. rewrite (H Hne Hd).
      destruct (Z.leb_spec (decimal_value ds) max_uint64); do 2 eexists; (split; [reflexivity|]); (split; [discriminate|]); [exact Hv|unfold max_uint64; lia].
    - rewrite (uint_over ds rest Hd Hv). do 2 eexists. split; [reflexivity|]. split; [discriminate|unfold max_uint64; lia]. }
  destruct Hu as (un & e & Hu & He & Hb).
  assert (Hx : match parse_uint (ds ++ rest) with
               | (_, Some ErrSyntax) => (0, Some ErrSyntax)
               | (un, _) => if 2 ^ 63 <=? un then (2 ^ 63 - 1, Some ErrRange) else (un, None) end = (2 ^ 63 - 1, Some ErrRange)).
  { rewrite Hu. destruct (Z.leb_spec (2 ^ 63) un); [|lia]. destruct e as [[|]|]; try reflexivity. congruence. }
  destruct Hsg as [->| ->].
  - destruct ds as [|c r]; [congruence|]. destruct (digit_head _ Hd c r eq_refl) as [E1 E2]. unfold parse_int. cbn [app]. rewrite E1, E2.
    cbn [orb negb andb]. change (c :: r ++ rest) with ((c :: r) ++ rest). exact Hx.
  - unfold parse_int. change (bs "+" ++ ds ++ rest) with (43%N :: (ds ++ rest)). cbv beta iota zeta. change (N.eqb 43 43) with true. change (N.eqb 43 DASH) with false.
    cbn [orb negb andb]. exact Hx.
Qed.
Lemma parse_int_below h : below h -> parse_int h = (- 2 ^ 63, Some ErrRange).
Proof.
  intros (ds & rest & -> & Hd & Hv).
  assert (Hne : ds <> []) by (intros ->; cbn in Hv; lia).
  assert (Hu : exists un e, parse_uint (ds ++ rest) = (un, e) /\ e <> Some ErrSyntax /\ 2 ^ 63 < un).
  { destruct Hv as [[-> Hv]|Hv].
    - rewrite app_nil_r. destruct (parse_uint_spec ds) as [H _]. rewrite (H Hne Hd).
      destruct (Z.leb_spec (decimal_value ds) max_uint64); do 2 eexists; (split; [reflexivity|]); (split; [discriminate|]); [exact Hv|unfold max_uint64; lia].
    - rewrite (uint_over ds rest Hd Hv). do 2 eexists. split; [reflexivity|]. split; [discriminate|unfold max_uint64; lia]. }
  destruct Hu as (un & e & Hu & He & Hb).
  unfold parse_int. change (bs "-" ++ ds ++ rest) with (DASH :: (ds ++ rest)). cbv beta iota zeta. change (N.eqb DASH 43) with false. change (N.eqb DASH DASH) with true.
  cbn [orb negb andb]. rewrite Hu. destruct (Z.ltb_spec (2 ^ 63) un); [|lia]. destruct e as [[|]|]; try reflexivity. congruence.
Qed.
Lemma parse_int_error h v e : parse_int h = (v, Some e) ->
  (e = ErrSyntax /\ v = 0) \/ (e = ErrRange /\ v = 2 ^ 63 - 1 /\ above h) \/ (e = ErrRange /\ v = - 2 ^ 63 /\ below h).
Proof.
  intros H. destruct h as [|c r]; [left; cbn in H; split; congruence|]. unfold parse_int in H. cbv zeta in H.
  set (body := if N.eqb c 43 || N.eqb c DASH then r else c :: r) in *.
  assert (Hab : N.eqb c DASH = false -> exists sg, (sg = [] \/ sg = bs "+") /\ c :: r = sg ++ body).
  { intros E. unfold body. rewrite E. destruct (N.eqb c 43) eqn:E1; cbn [orb].
    - apply N.eqb_eq in E1. subst c. exists (bs "+"). split; [right; reflexivity|reflexivity].
    - exists []. split; [left; reflexivity|reflexivity]. }
  assert (Hbe : N.eqb c DASH = true -> c :: r = bs "-" ++ body).
  { intros E. unfold body. rewrite E, orb_true_r. apply N.eqb_eq in E. subst c. reflexivity. }
  destruct (uint_cases body) as [(Hne & Hd & Eu & Hr)|[(Eu & ds & rest & Eb & Hd & Hv)|Eu]]; rewrite Eu in H.
  - destruct (N.eqb c DASH) eqn:E; cbn [negb andb] in H.
    + destruct (Z.ltb_spec (2 ^ 63) (decimal_value body)); [|discriminate]. right; right. injection H as <- <-. split; [reflexivity|]. split; [reflexivity|].
      exists body, []. rewrite app_nil_r. split; [exact (Hbe eq_refl)|]. split; [exact Hd|]. left. split; [reflexivity|assumption].
    + destruct (Z.leb_spec (2 ^ 63) (decimal_value body)); [|discriminate]. right; left. injection H as <- <-. split; [reflexivity|]. split; [reflexivity|].
      destruct (Hab eq_refl) as (sg & Hs & Es). exists sg, body, []. rewrite app_nil_r. split; [exact Es|]. split; [exact Hs|]. split; [exact Hd|]. left. split; [reflexivity|assumption].
  - destruct (N.eqb c DASH) eqn:E; cbn [negb andb] in H.
    + right; right. injection H as <- <-. split; [reflexivity|]. split; [reflexivity|]. exists ds, rest. rewrite <- Eb. split; [exact (Hbe eq_refl)|]. split; [exact Hd|]. right. exact Hv.
    + right; left. injection H as <- <-. split; [reflexivity|]. split; [reflexivity|].
      destruct (Hab eq_refl) as (sg & Hs & Es). exists sg, ds, rest. rewrite <- Eb. split; [exact Es|]. split; [exact Hs|]. split; [exact Hd|]. right. exact Hv.
  - left. injection H as <- <-. split; reflexivity.
Qed.

(** [counts_as] gives every text exactly one value, the one strconv.ParseInt returns *)
Lemma counts_as_iff h n : counts_as h n <-> fst (parse_int h) = n.
Proof.
  split.
  - intros [H|[[H ->]|[[H ->]|(H1 & H2 & H3 & ->)]]].
    + rewrite (parse_int_text _ _ H). reflexivity.
    + rewrite (parse_int_above _ H). reflexivity.
    + rewrite (parse_int_below _ H). reflexivity.
    + destruct (parse_int h) as [v [e|]] eqn:E.
      * destruct (parse_int_error h v e E) as [(_ & ->)|[(_ & _ & H)|(_ & _ & H)]]; [reflexivity|contradiction|contradiction].
      * exfalso. apply H1. exists v. apply atoi_iff. unfold atoi. rewrite E. reflexivity.
  - intros <-. destruct (parse_int h) as [v [e|]] eqn:E; cbn [fst].
    + destruct (parse_int_error h v e E) as [(-> & ->)|[(_ & -> & H)|(_ & -> & H)]].
      * right; right; right. split; [intros [k Hk]; rewrite (parse_int_text _ _ Hk) in E; discriminate|].
        split; [intros H; rewrite (parse_int_above _ H) in E; discriminate|]. split; [intros H; rewrite (parse_int_below _ H) in E; discriminate|reflexivity].
      * right; left. split; [exact H|reflexivity].
      * right; right; left. split; [exact H|reflexivity].
    + left. apply atoi_iff. unfold atoi. rewrite E. reflexivity.
Qed.
Lemma parse_int_counts h n : counts_as h n -> fst (parse_int h) = n /\ - 2 ^ 63 <= n < 2 ^ 63.
Proof.
  intros H. split; [apply counts_as_iff; exact H|]. destruct H as [(ds & _ & _ & H & _)|[[_ ->]|[[_ ->]|(_ & _ & _ & ->)]]]; lia.
Qed.

(** Epoch: exact for every pair of decimal 64-bit integers (unless the instant is within 2000 years of
    the end of the range of int64 seconds) *)
Theorem C74_epoch : forall loc m ss ns s n, counts_as ss s -> counts_as ns n ->
  - 2 ^ 63 <= s + n / 1000000000 < 2 ^ 63 - 62135596800 ->
  let t := m_time (msg_epoch m loc ss ns) in
  nanos t = s * 1000000000 + n /\ 0 <= t_nsec t < 1000000000.
Proof.
  intros loc m ss ns s n Hs Hn Hr. cbn [msg_epoch msg_delta msg_timestamp m_time]. unfold epoch_to_ts. apply parse_int_counts in Hs as [-> Hs64]. apply parse_int_counts in Hn as [-> Hn64].
  unfold time_unix, nanos, unix_to_internal.
  assert (Hw : forall x y k, x = y + k * 2 ^ 64 -> wrap64 x = wrap64 y) by (intros x y k ->; unfold wrap64; replace (y + k * 2 ^ 64 + 2 ^ 63) with (y + 2 ^ 63 + k * 2 ^ 64) by lia; rewrite Z_mod_plus_full; reflexivity).
  assert (Hwe : forall x, exists k, wrap64 x = x + k * 2 ^ 64).
  { intros x. exists (- ((x + 2 ^ 63) / 2 ^ 64)). unfold wrap64. pose proof (Z.div_mod (x + 2 ^ 63) (2 ^ 64) ltac:(lia)). lia. }
  destruct ((n <? 0) || (1000000000 <=? n)) eqn:E.
  - pose proof (Z.quot_rem' n 1000000000) as Hqr. set (q := Z.quot n 1000000000) in *.
    assert (Hrem : n - q * 1000000000 = Z.rem n 1000000000) by lia. rewrite Hrem. set (r := Z.rem n 1000000000) in *.
    assert (Hrb : -1000000000 < r < 1000000000 /\ (r < 0 -> n < 0)).
    { subst r. destruct (Z.lt_ge_cases n 0).
      - pose proof (Z.rem_bound_pos_neg n 1000000000 ltac:(lia) ltac:(lia)). lia.
      - pose proof (Z.rem_bound_pos_pos n 1000000000 ltac:(lia) ltac:(lia)). lia. }
    destruct (Z.ltb_spec r 0) as [Hneg|Hpos]; cbn [t_sec t_nsec].
    + assert (Hd : n / 1000000000 = q - 1) by (symmetry; apply (Z.div_unique_pos n 1000000000 (q - 1) (r + 1000000000)); lia).
      destruct (Hwe (s + q)) as [k1 ->]. destruct (Hwe (s + q + k1 * 2 ^ 64 - 1)) as [k2 ->].
      rewrite (Hw _ (s + q - 1 + 62135596800) (k1 + k2)) by lia. rewrite wrap64_id by lia. lia.
    + assert (Hd : n / 1000000000 = q) by (symmetry; apply (Z.div_unique_pos n 1000000000 q r); lia).
      destruct (Hwe (s + q)) as [k1 ->]. rewrite (Hw _ (s + q + 62135596800) k1) by lia. rewrite wrap64_id by lia. lia.
  - apply orb_false_iff in E as [E1 E2]. apply Z.ltb_ge in E1. apply Z.leb_gt in E2. cbn [t_sec t_nsec].
    rewrite (Z.div_small n 1000000000) in Hr by lia. rewrite wrap64_id by lia. lia.
Qed.
Print Assumptions C74_epoch.

(** Delta: exact if and only if the elapsed time is a 64-bit number of nanoseconds (292 years) *)
Theorem C74_delta_iff : forall loc m boot ss ns s n, counts_as ss s -> counts_as ns n -> 0 <= t_nsec boot < 1000000000 ->
  let t := m_time (msg_delta m loc boot ss ns) in
  (nanos t = nanos boot + (s * 1000000000 + n) <-> - 2 ^ 63 <= s * 1000000000 + n < 2 ^ 63) /\ 0 <= t_nsec t < 1000000000.
Proof.
  intros loc m boot ss ns s n Hs Hn Hb. cbn [msg_epoch msg_delta msg_timestamp m_time]. unfold delta_boot_to_ts.
  apply parse_int_counts in Hs as [-> Hs64]. apply parse_int_counts in Hn as [-> Hn64].
  assert (Ew : wrap64 (wrap64 (n * 1) + wrap64 (s * 1000000000)) = wrap64 (s * 1000000000 + n)).
  { rewrite (wrap64_id (n * 1)) by lia. unfold wrap64.
    pose proof (Z.div_mod (s * 1000000000 + 2 ^ 63) (2 ^ 64) ltac:(lia)) as Hdm.
    replace (n * 1 + ((s * 1000000000 + 2 ^ 63) mod 2 ^ 64 - 2 ^ 63) + 2 ^ 63)
      with (s * 1000000000 + n + 2 ^ 63 + (- ((s * 1000000000 + 2 ^ 63) / 2 ^ 64)) * 2 ^ 64) by lia.
    rewrite Z_mod_plus_full. reflexivity. }
  rewrite Ew. set (d := wrap64 (s * 1000000000 + n)).
  assert (Ha : nanos (time_add loc boot d) = nanos boot + d /\ 0 <= t_nsec (time_add loc boot d) < 1000000000).
  { unfold time_add, nanos. pose proof (Z.quot_rem' d 1000000000) as Hqr. set (q := Z.quot d 1000000000) in *. set (r := Z.rem d 1000000000) in *.
    assert (Hrb : -1000000000 < r < 1000000000).
    { subst r. destruct (Z.lt_ge_cases d 0).
      - pose proof (Z.rem_bound_pos_neg d 1000000000 ltac:(lia) ltac:(lia)). lia.
      - pose proof (Z.rem_bound_pos_pos d 1000000000 ltac:(lia) ltac:(lia)). lia. }
    destruct (Z.leb_spec 1000000000 (t_nsec boot + r)); [cbn; lia|]. destruct (Z.ltb_spec (t_nsec boot + r) 0); cbn; lia. }
  destruct Ha as [Ha1 Ha2]. split; [|exact Ha2]. rewrite Ha1. split; intros H.
  - assert (E : s * 1000000000 + n = d) by lia. rewrite E. subst d. apply wrap64_range.
  - subst d. rewrite wrap64_id by exact H. reflexivity.
Qed.
Print Assumptions C74_delta_iff.

(** every text counts as exactly one number *)
Theorem C74_any_text : forall h, exists n, counts_as h n /\ (forall k, counts_as h k -> k = n) /\ - 2 ^ 63 <= n < 2 ^ 63.
Proof.
  intros h. exists (fst (parse_int h)). assert (H : counts_as h (fst (parse_int h))) by (apply counts_as_iff; reflexivity).
  split; [exact H|]. split; [intros k Hk; apply counts_as_iff in Hk; congruence|]. apply (parse_int_counts _ _ H).
Qed.
Print Assumptions C74_any_text.

(** the zone is the one in force at that instant: of the machine for Epoch, of the boot time for Delta *)
Theorem C74_zone : forall loc m boot ss ns,
  (let t := m_time (msg_epoch m loc ss ns) in t_off t = loc (t_sec t)) /\
  (let t := m_time (msg_delta m loc boot ss ns) in t_off t = loc (t_sec t)).
Proof.
  intros loc m boot ss ns. cbn [msg_epoch msg_delta m_time]. unfold epoch_to_ts, time_unix, delta_boot_to_ts, time_add. split.
  - destruct (_ || _); [destruct (_ <? 0)|]; reflexivity.
  - destruct (1000000000 <=? _); [reflexivity|]. destruct (_ <? 0); reflexivity.
Qed.
Print Assumptions C74_zone.

(** an uptime of 300 years is turned into a time before the boot *)
Theorem C74_delta_refuted : exists loc boot ss ns, 0 <= t_nsec boot < 1000000000 /\ int64_text ss 9467280000 /\ int64_text ns 0 /\
  nanos (m_time (msg_delta (empty_message 0) loc boot ss ns)) < nanos boot.
Proof.
  exists (fun _ => 0), {| t_sec := 0; t_nsec := 0; t_off := 0 |}, (bs "9467280000"), (bs "0").
  split; [cbn; lia|]. split; [apply atoi_iff; vm_compute; reflexivity|]. split; [apply atoi_iff; vm_compute; reflexivity|]. vm_compute. reflexivity.
Qed.
Print Assumptions C74_delta_refuted.

Example C74_nonvacuous : counts_as (bs "1061727255") 1061727255 /\ counts_as (bs "-1") (-1) /\ counts_as (bs "99999999999999999999x") (2 ^ 63 - 1) /\
  counts_as (bs "12x") 0 /\ counts_as [] 0 /\
  m_time (msg_epoch (empty_message 0) (fun _ => 0) (bs "1061727255") (bs "-1")) = {| t_sec := 1061727254; t_nsec := 999999999; t_off := 0 |}.
Proof. repeat (split; [apply counts_as_iff; vm_compute; reflexivity|]). vm_compute. reflexivity. Qed.

(** ** C75 *)
Definition month_name (m : Z) : bytes :=
  nth (Z.to_nat (m - 1)) [bs "Jan"; bs "Feb"; bs "Mar"; bs "Apr"; bs "May"; bs "Jun"; bs "Jul"; bs "Aug"; bs "Sep"; bs "Oct"; bs "Nov"; bs "Dec"] [].
(** the form of time.Stamp, "Jan _2 15:04:05": the day is padded with a space *)
Definition stamp_text (mo d h mi s : Z) : bytes :=
  month_name mo ++ bs " " ++ (if d <? 10 then bs " " ++ [Z.to_N (48 + d)] else pad2 d) ++ bs " " ++ pad2 h ++ bs ":" ++ pad2 mi ++ bs ":" ++ pad2 s.

Lemma pad2_getnum n r f : 0 <= n <= 99 -> getnum (pad2 n ++ r) f = Some (n, r).
Proof. intros H. rewrite <- append2_pad by exact H. apply getnum_append; exact H. Qed.

Lemma parse_stamp_text mo d h mi s : 1 <= mo <= 12 -> 1 <= d <= days_in mo 0 -> 0 <= h < 24 -> 0 <= mi < 60 -> 0 <= s < 60 ->
  parse_stamp (stamp_text mo d h mi s) =
    Some {| c_year := 0; c_month := mo; c_day := d; c_hour := h; c_min := mi; c_sec := s; c_nsec := 0; c_off := 0 |}.
Proof.
  intros Hmo Hd Hh Hmi Hs. pose proof (days_in_bound mo 0) as Hdb. unfold parse_stamp, stamp_text.
  set (R := bs " " ++ (if d <? 10 then bs " " ++ [Z.to_N (48 + d)] else pad2 d) ++ bs " " ++ pad2 h ++ bs ":" ++ pad2 mi ++ bs ":" ++ pad2 s).
  assert (Hlook : month_lookup month_names 1 (month_name mo ++ R) = Some mo /\ skipn 3 (month_name mo ++ R) = R).
  { assert (Hc : mo = 1 \/ mo = 2 \/ mo = 3 \/ mo = 4 \/ mo = 5 \/ mo = 6 \/ mo = 7 \/ mo = 8 \/ mo = 9 \/ mo = 10 \/ mo = 11 \/ mo = 12) by lia.
    clearbody R. destruct Hc as [->|[->|[->|[->|[->|[->|[->|[->|[->|[->|[->| ->]]]]]]]]]]]; split; reflexivity. }
  destruct Hlook as [-> ->].
  assert (Hp2 : forall n, 0 <= n <= 99 -> exists a b, pad2 n = [a; b] /\ a <> 32%N).
  { intros n Hn. unfold pad2. eexists. eexists. split; [reflexivity|]. assert (0 <= n / 10) by (apply Z.div_pos; lia). lia. }
  destruct (Hp2 h) as (h1 & h2 & Eh & Hh1); [lia|].
  set (T := pad2 h ++ bs ":" ++ pad2 mi ++ bs ":" ++ pad2 s) in *.
  assert (HT : exists r, T = h1 :: r) by (subst T; rewrite Eh; eexists; reflexivity).
  assert (Hskip : exists u, skip_space R = Some u /\ (match u with c :: r => if N.eqb c SP then r else u | [] => u end) = u /\ getnum u false = Some (d, bs " " ++ T)).
  { subst R. destruct (Z.ltb_spec d 10) as [Hlt|Hge].
    - exists (Z.to_N (48 + d) :: bs " " ++ T).
      assert (Hsp : N.eqb (Z.to_N (48 + d)) SP = false) by (apply N.eqb_neq; lia).
      assert (Hdg : is_digit (Z.to_N (48 + d)) = true) by (apply is_digit_spec; lia).
      split; [|split].
      + change (bs " " ++ (bs " " ++ [Z.to_N (48 + d)]) ++ bs " " ++ T) with (SP :: SP :: Z.to_N (48 + d) :: bs " " ++ T).
        unfold skip_space. change (N.eqb SP SP) with true. cbn [cut_space]. change (N.eqb SP SP) with true. rewrite Hsp. reflexivity.
      + rewrite Hsp. reflexivity.
      + change (bs " " ++ T) with (SP :: T). unfold getnum. rewrite Hdg. change (is_digit SP) with false. cbv iota. f_equal. f_equal. unfold digit_val. lia.
    - destruct (Hp2 d) as (d1 & d2 & Ed & Hd1); [lia|]. exists (pad2 d ++ bs " " ++ T).
      assert (Hsp : N.eqb d1 SP = false) by (apply N.eqb_neq; exact Hd1). split; [|split].
      + rewrite Ed. change (bs " " ++ [d1; d2] ++ bs " " ++ T) with (SP :: d1 :: d2 :: bs " " ++ T).
        unfold skip_space. change (N.eqb SP SP) with true. cbn [cut_space app]. change (N.eqb SP SP) with true. rewrite Hsp. reflexivity.
      + rewrite Ed. cbn [app]. rewrite Hsp. reflexivity.
      + apply pad2_getnum; lia. }
  destruct Hskip as (u & -> & -> & ->).
  assert (Hs2 : skip_space (bs " " ++ T) = Some T).
  { destruct HT as [r ->]. change (bs " " ++ h1 :: r) with (SP :: h1 :: r). unfold skip_space. change (N.eqb SP SP) with true.
    cbn [cut_space]. change (N.eqb SP SP) with true. destruct (N.eqb_spec h1 SP); [congruence|reflexivity]. }
  rewrite Hs2. subst T. rewrite pad2_getnum by lia. destruct (Z.leb_spec 24 h); [lia|].
  change (bs ":" ++ pad2 mi ++ bs ":" ++ pad2 s) with (58%N :: pad2 mi ++ bs ":" ++ pad2 s). rewrite expect_ok.
  rewrite pad2_getnum by lia. destruct (Z.leb_spec 60 mi); [lia|].
  change (bs ":" ++ pad2 s) with (58%N :: pad2 s). rewrite expect_ok.
  rewrite <- (app_nil_r (pad2 s)) at 1. rewrite pad2_getnum by lia. destruct (Z.leb_spec 60 s); [lia|]. cbn [parse_frac].
  destruct (Z.ltb_spec d 1); [lia|]. destruct (Z.ltb_spec (days_in mo 0) d); [lia|]. reflexivity.
Qed.

Lemma civil_of_time c : 1 <= c_month c <= 12 -> 1 <= c_day c <= days_in (c_month c) (c_year c) -> 0 <= c_hour c < 24 -> 0 <= c_min c < 60 -> 0 <= c_sec c < 60 ->
  civil_of (time_of_civil c) = c.
Proof.
  intros Hm Hd Hh Hmi Hs. destruct c as [y m d h mi s ns off]. cbn [c_year c_month c_day c_hour c_min c_sec c_nsec c_off] in *. unfold civil_of, time_of_civil. cbn [c_year c_month c_day c_hour c_min c_sec c_nsec c_off t_sec t_nsec t_off].
  set (D := days_from_civil y m d). 
  assert (E1 : (D * 86400 + h * 3600 + mi * 60 + s - off + off) / 86400 = D) by (symmetry; apply (Z.div_unique_pos _ 86400 D (h * 3600 + mi * 60 + s)); lia).
  assert (E2 : (D * 86400 + h * 3600 + mi * 60 + s - off + off) mod 86400 = h * 3600 + mi * 60 + s) by (symmetry; apply (Z.mod_unique_pos _ 86400 D (h * 3600 + mi * 60 + s)); lia).
  rewrite E1, E2. subst D. rewrite civil_of_days_from by assumption. f_equal.
  - symmetry; apply (Z.div_unique_pos _ 3600 h (mi * 60 + s)); lia.
  - assert (E3 : (h * 3600 + mi * 60 + s) mod 3600 = mi * 60 + s) by (symmetry; apply (Z.mod_unique_pos _ 3600 h (mi * 60 + s)); lia).
    rewrite E3. symmetry; apply (Z.div_unique_pos _ 60 mi s); lia.
  - symmetry; apply (Z.mod_unique_pos _ 60 (h * 60 + mi) s); lia.
Qed.

(** the year Timestamp picks *)
Definition picked_year (now : gotime) (mo : Z) : Z :=
  if (c_month (civil_of now) =? 1) && (mo =? 12) then c_year (civil_of now) - 1 else c_year (civil_of now).

Theorem C75_timestamp : forall m now mo d h mi s n29, 1 <= mo <= 12 -> month_length 0 mo n29 -> 1 <= d <= n29 ->
  0 <= h < 24 -> 0 <= mi < 60 -> 0 <= s < 60 ->
  let y := picked_year now mo in
  let c := civil_of (m_time (msg_timestamp m now (stamp_text mo d h mi s))) in
  c_year c = y /\ c_hour c = h /\ c_min c = mi /\ c_sec c = s /\ c_nsec c = 0 /\ c_off c = 0 /\
  (~ (mo = 2 /\ d = 29 /\ ~ leap_year y) -> c_month c = mo /\ c_day c = d) /\
  (mo = 2 /\ d = 29 /\ ~ leap_year y -> c_month c = 3 /\ c_day c = 1).
Proof.
  intros m now mo d h mi s n29 Hmo Hn Hd Hh Hmi Hs y.
  assert (Hn' : n29 = days_in mo 0).
  { pose proof (days_in_spec mo 0 Hmo) as H. unfold month_length in *. cbn [In] in *.
    assert (Hleap : leap_year 0) by (apply is_leap_spec; reflexivity). 
    destruct Hn as [(? & ? & ?)|[(? & Hx & ?)|[(? & ?)|(? & ?)]]], H as [(? & ? & ?)|[(? & Hy & ?)|[(? & ?)|(? & ?)]]]; try contradiction; lia. }
  subst n29.
  assert (Est : stamp_to_ts now (stamp_text mo d h mi s) =
    time_of_civil {| c_year := y; c_month := mo; c_day := d; c_hour := h; c_min := mi; c_sec := s; c_nsec := 0; c_off := 0 |}).
  { unfold stamp_to_ts. rewrite (parse_stamp_text mo d h mi s Hmo Hd Hh Hmi Hs). reflexivity. }
  cbn [msg_timestamp m_time]. rewrite Est. set (c := civil_of (time_of_civil _)).
  pose proof (days_in_bound mo y) as Hdb.
  assert (Hdd : days_in mo y = if (mo =? 2) && negb (is_leap y) then 28 else days_in mo 0).
  { unfold days_in. change (is_leap 0) with true. destruct (mo =? 2); [|reflexivity]. destruct (is_leap y); reflexivity. }
  assert (Hcase : (mo = 2 /\ d = 29 /\ is_leap y = false) \/ d <= days_in mo y).
  { rewrite Hdd. destruct (Z.eqb_spec mo 2) as [->|]; [|right; cbn; lia]. destruct (is_leap y) eqn:E; cbn [negb andb]; [right; lia|].
    change (days_in 2 0) with 29 in Hd. destruct (Z.eq_dec d 29); [left; auto|right; lia]. }
  destruct Hcase as [(-> & -> & El)|Hle].
  - assert (Ec : c = {| c_year := y; c_month := 3; c_day := 1; c_hour := h; c_min := mi; c_sec := s; c_nsec := 0; c_off := 0 |}).
    { subst c. rewrite <- (civil_of_time {| c_year := y; c_month := 3; c_day := 1; c_hour := h; c_min := mi; c_sec := s; c_nsec := 0; c_off := 0 |});
        [|cbn [c_month c_day c_year c_hour c_min c_sec]; try (change (days_in 3 y) with 31); lia..].
      f_equal. unfold time_of_civil. cbn [c_year c_month c_day c_hour c_min c_sec c_nsec c_off]. f_equal. pose proof (dfc_month y 2 ltac:(lia)) as Hf. unfold days_in in Hf. rewrite El in Hf.
      change (2 =? 2) with true in Hf. cbv iota in Hf. change (2 + 1) with 3 in Hf. rewrite Hf.
      replace 29 with (28 + 1) by lia. rewrite dfc_day. reflexivity. }
    assert (Hnl : ~ leap_year y) by (intros H; apply is_leap_spec in H; congruence).
    rewrite Ec. cbn. repeat split; try reflexivity; exfalso; auto.
  - assert (Ec : c = {| c_year := y; c_month := mo; c_day := d; c_hour := h; c_min := mi; c_sec := s; c_nsec := 0; c_off := 0 |}).
    { subst c. apply civil_of_time; cbn; lia. }
    rewrite Ec. cbn. repeat split; try reflexivity; destruct H as (-> & -> & Hnl); exfalso; apply Hnl, is_leap_spec; destruct (is_leap y) eqn:E; auto;
      rewrite Hdd in Hle; cbn in Hle; lia.
Qed.
Print Assumptions C75_timestamp.

(** anything else is silently taken for January 1st, 00:00:00 UTC of the current year *)
Theorem C75_unparsable : forall m now stamp, parse_stamp stamp = None ->
  civil_of (m_time (msg_timestamp m now stamp)) =
    {| c_year := c_year (civil_of now); c_month := 1; c_day := 1; c_hour := 0; c_min := 0; c_sec := 0; c_nsec := 0; c_off := 0 |}.
Proof.
  intros m now stamp H. cbn [msg_epoch msg_delta msg_timestamp m_time]. unfold stamp_to_ts. rewrite H.
  change (civil_of zero_time) with {| c_year := 1; c_month := 1; c_day := 1; c_hour := 0; c_min := 0; c_sec := 0; c_nsec := 0; c_off := 0 |}.
  cbn [c_year c_month c_day c_hour c_min c_sec c_nsec c_off]. change (1 =? 12) with false. rewrite andb_false_r. apply civil_of_time; cbn; try lia.
Qed.
Print Assumptions C75_unparsable.

(** "Feb 29" stamped in a year that is not leap is moved to March 1st *)
Example C75_nonvacuous :
  stamp_text 2 29 23 59 1 = bs "Feb 29 23:59:01" /\ stamp_text 12 3 4 5 6 = bs "Dec  3 04:05:06" /\
  (let c := civil_of (stamp_to_ts {| t_sec := 1061727255; t_nsec := 3; t_off := 0 |} (bs "Feb 29 23:59:01")) in (c_year c, c_month c, c_day c)) = (2003, 3, 1) /\
  parse_stamp (bs "yesterday") = None.
Proof. repeat split; vm_compute; reflexivity. Qed.

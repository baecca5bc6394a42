(** LTime.v -- proofs about the timestamp format. *)
From Verif Require Import Base BaseFacts Spec MTime LPriority LCalendar.
From Coq Require Import ZifyBool ZifyNat ZifyN.

Local Open Scope Z_scope.

(** [check_pow k z P]: [P] holds on the 2^k integers from [z] (binary recursion, so that no
    large unary number is built). *)
Fixpoint check_pow (k : nat) (z : Z) (P : Z -> bool) : bool :=
  match k with
  | O => P z
  | S k' => check_pow k' z P && check_pow k' (z + 2 ^ Z.of_nat k') P
  end.

Lemma check_pow_sound k : forall z P, check_pow k z P = true ->
  forall x, z <= x < z + 2 ^ Z.of_nat k -> P x = true.
Proof.
  induction k as [|k IH]; intros z P H x Hx.
  - change (2 ^ Z.of_nat 0) with 1 in Hx. cbn in H. replace x with z by lia. exact H.
  - cbn [check_pow] in H. apply andb_true_iff in H as [H1 H2].
    rewrite Nat2Z.inj_succ, Z.pow_succ_r in Hx by lia.
    set (q := 2 ^ Z.of_nat k) in *.
    destruct (Z_lt_le_dec x (z + q)) as [Hl|Hl].
    + apply (IH z P H1). lia.
    + apply (IH (z + q) P H2). lia.
Qed.

(** [P] on 0 .. n-1, where n <= 2^k *)
Definition check_below (k : nat) (n : Z) (P : Z -> bool) : bool :=
  check_pow k 0 (fun z => if z <? n then P z else true).
Lemma check_below_sound k n P : check_below k n P = true -> n <= 2 ^ Z.of_nat k ->
  forall x, 0 <= x < n -> P x = true.
Proof.
  intros H Hn x Hx. unfold check_below in H.
  assert (Hb : 0 <= x < 0 + 2 ^ Z.of_nat k) by lia.
  pose proof (check_pow_sound k 0 _ H x Hb) as Hc. cbv beta in Hc.
  destruct (Z.ltb_spec x n); [exact Hc|lia].
Qed.

(** ** digits *)
Definition dig (z : Z) : N := (48 + Z.to_N z)%N.

Lemma dig_digit z : 0 <= z < 10 -> is_digit (dig z) = true.
Proof. intros H. unfold is_digit, dig. lia. Qed.
Lemma dig_val z : 0 <= z -> digit_val (dig z) = z.
Proof. intros H. unfold digit_val, dig. lia. Qed.

Lemma append_int_2 x : 0 <= x <= 99 -> append_int x 2 = [dig (x / 10); dig (x mod 10)].
Proof.
  intros H. apply bytes_eqb_eq.
  apply (sweep (fun x => bytes_eqb (append_int x 2) [dig (x / 10); dig (x mod 10)]) 100); [vm_compute; reflexivity|].
  change (Z.of_nat 100) with 100. lia.
Qed.

Definition year_ok (x : Z) : bool :=
  bytes_eqb (append_int x 4) [dig (x / 1000); dig (x / 100 mod 10); dig (x / 10 mod 10); dig (x mod 10)].
Lemma all_year_ok : check_below 14 10000 year_ok = true.
Proof. vm_cast_no_check (eq_refl true). Qed.
Lemma append_int_4 x : 0 <= x <= 9999 ->
  append_int x 4 = [dig (x / 1000); dig (x / 100 mod 10); dig (x / 10 mod 10); dig (x mod 10)].
Proof.
  intros H. apply bytes_eqb_eq. apply (check_below_sound _ _ _ all_year_ok); lia.
Qed.

Lemma getnum_dig a b r fixed : 0 <= a < 10 -> 0 <= b < 10 -> getnum (dig a :: dig b :: r) fixed = Some (a * 10 + b, r).
Proof.
  intros Ha Hb. unfold getnum. rewrite !dig_digit by assumption. rewrite !dig_val by lia. reflexivity.
Qed.

Lemma getnum_append x r fixed : 0 <= x <= 99 -> getnum (append_int x 2 ++ r) fixed = Some (x, r).
Proof.
  intros H. rewrite append_int_2 by exact H. cbn [app].
  rewrite getnum_dig by (Z.div_mod_to_equations; lia). f_equal. f_equal. pose proof (Z.div_mod x 10). lia.
Qed.

Lemma get_year_append y r : 0 <= y <= 9999 -> get_year (append_int y 4 ++ r) = Some (y, r).
Proof.
  intros H. rewrite append_int_4 by exact H. cbn [app get_year].
  rewrite !dig_digit by (Z.div_mod_to_equations; lia). rewrite !dig_val by (Z.div_mod_to_equations; lia).
  cbn [andb]. f_equal. f_equal. Z.div_mod_to_equations; lia.
Qed.

Lemma expect_ok c r : expect c (c :: r) = Some r.
Proof. cbn. rewrite N.eqb_refl. reflexivity. Qed.

(** ** fraction *)
Lemma digit_z_dig z : digit_z z = dig (z mod 10).
Proof. unfold digit_z, dig. reflexivity. Qed.

Lemma trim_zeros_spec l : exists k, l = trim_zeros l ++ repeat 48%N k.
Proof.
  induction l as [|c l IH]; [exists 0%nat; reflexivity|]. destruct IH as [k IH]. cbn [trim_zeros].
  destruct (trim_zeros l) as [|d r] eqn:E.
  - destruct (N.eqb_spec c 48) as [->|Hc].
    + exists (S k). cbn in *. congruence.
    + exists k. cbn in *. congruence.
  - exists k. cbn in *. congruence.
Qed.

Lemma trim_zeros_last l d : trim_zeros l <> [] -> last (trim_zeros l) d <> 48%N.
Proof.
  induction l as [|c l IH]; cbn [trim_zeros]; [congruence|]. intros H.
  destruct (trim_zeros l) as [|x r] eqn:E.
  - destruct (N.eqb_spec c 48) as [->|Hc]; [congruence|exact Hc].
  - specialize (IH ltac:(discriminate)). exact IH.
Qed.

Lemma digits_to_z_app a b : digits_to_z (a ++ b) = fold_left (fun acc c => acc * 10 + digit_val c) b (digits_to_z a).
Proof. unfold digits_to_z. apply fold_left_app. Qed.

Lemma digits_to_z_zeros a k : digits_to_z (a ++ repeat 48%N k) = digits_to_z a * 10 ^ Z.of_nat k.
Proof.
  rewrite digits_to_z_app. set (x := digits_to_z a). clearbody x. revert x.
  induction k as [|k IH]; intros x; cbn [repeat fold_left]; [cbn; lia|].
  change (digit_val 48) with 0. rewrite IH, Nat2Z.inj_succ, Z.pow_succ_r by lia. ring.
Qed.

Lemma trim_digits l : Forall (fun c => is_digit c = true) l -> Forall (fun c => is_digit c = true) (trim_zeros l).
Proof.
  intros H. destruct (trim_zeros_spec l) as [k Hk]. rewrite Hk in H. apply Forall_app in H as [H _]. exact H.
Qed.

Lemma nano_digits_all n : Forall (fun c => is_digit c = true) (nano_digits n).
Proof.
  unfold nano_digits. repeat (constructor; [rewrite digit_z_dig; apply dig_digit, Z.mod_pos_bound; lia|]). constructor.
Qed.

Lemma nano_digits_value n : 0 <= n < 1000000000 -> digits_to_z (nano_digits n) = n / 1000.
Proof.
  intros H. unfold nano_digits, digits_to_z. rewrite !digit_z_dig. cbn [fold_left].
  rewrite !dig_val by (apply Z.mod_pos_bound; lia).
  set (x := n / 1000). assert (Hx : 0 <= x < 1000000) by (subst x; Z.div_mod_to_equations; lia).
  replace (n / 10000) with (x / 10) by (subst x; rewrite Z.div_div; lia).
  replace (n / 100000) with (x / 100) by (subst x; rewrite Z.div_div; lia).
  replace (n / 1000000) with (x / 1000) by (subst x; rewrite Z.div_div; lia).
  replace (n / 10000000) with (x / 10000) by (subst x; rewrite Z.div_div; lia).
  replace (n / 100000000) with (x / 100000) by (subst x; rewrite Z.div_div; lia).
  clearbody x. Z.div_mod_to_equations; lia.
Qed.

Lemma span_digits_app l r : Forall (fun c => is_digit c = true) l ->
  match r with [] => True | c :: _ => is_digit c = false end -> span_digits (l ++ r) = (l, r).
Proof.
  intros Hl Hr. induction Hl as [|c l Hc Hl IH]; cbn [app span_digits].
  - destruct r as [|c r]; [reflexivity|]. cbn. rewrite Hr. reflexivity.
  - rewrite Hc, IH. reflexivity.
Qed.

Lemma parse_frac_ok n r : 0 <= n < 1000000000 ->
  match r with [] => False | c :: _ => is_digit c = false /\ c <> DOT /\ c <> 44%N end ->
  parse_frac (format_frac n ++ r) = (n / 1000 * 1000, r).
Proof.
  intros Hn Hr. unfold format_frac. destruct (trim_zeros_spec (nano_digits n)) as [k Hk].
  pose proof (trim_digits _ (nano_digits_all n)) as Hd. pose proof (nano_digits_value n Hn) as Hv.
  assert (Hlen : length (nano_digits n) = 6%nat) by reflexivity.
  destruct (trim_zeros (nano_digits n)) as [|x ds] eqn:E.
  - cbn [app]. destruct r as [|c r]; [destruct Hr|]. destruct Hr as (H1 & H2 & H3).
    rewrite Hk in Hv. cbn [app] in Hv. pose proof (digits_to_z_zeros [] k) as Hz. cbn [app] in Hz. rewrite Hz in Hv.
    change (digits_to_z []) with 0 in Hv. cbn in Hv. rewrite <- Hv. cbn.
    destruct r as [|d r]; [reflexivity|].
    destruct (N.eqb_spec c 46); [congruence|]. destruct (N.eqb_spec c 44); [congruence|]. reflexivity.
  - cbn [app parse_frac]. change (N.eqb 46 46) with true. cbn [orb]. rewrite (Forall_inv Hd). cbn [andb tl].
    change (x :: ds ++ r) with ((x :: ds) ++ r). rewrite span_digits_app; [|exact Hd|destruct r; [exact I|tauto]].
    f_equal. unfold frac_nanos. rewrite Hk in Hv, Hlen. rewrite app_length, repeat_length in Hlen.
    rewrite firstn_all2 by lia.
    replace (9 - length (x :: ds))%nat with (k + 3)%nat by lia.
    rewrite digits_to_z_zeros in Hv. rewrite Nat2Z.inj_add, Z.pow_add_r by lia. change (10 ^ Z.of_nat 3) with 1000. rewrite <- Hv. ring.
Qed.

(** ** zone *)
Lemma parse_zone_ok off : - 86400 < off < 86400 -> off mod 60 = 0 -> parse_zone (format_zone off) = Some (off, []).
Proof.
  intros H Hm. unfold format_zone. destruct (Z.eqb_spec off 0) as [->|Hne]; [reflexivity|].
  assert (Hq : off = 60 * Z.quot off 60).
  { pose proof (Z.quot_rem' off 60) as Hqr. assert (Z.rem off 60 = 0); [|lia].
    apply Z.rem_divide; [lia|]. apply Z.mod_divide; [lia|exact Hm]. }
  set (zone := Z.quot off 60) in *.
  assert (Ha : 0 <= Z.abs zone / 60 <= 99) by (Z.div_mod_to_equations; lia).
  assert (Hb : 0 <= Z.abs zone mod 60 <= 99) by (Z.div_mod_to_equations; lia).
  rewrite (append_int_2 _ Ha), (append_int_2 _ Hb).
  set (h := Z.abs zone / 60) in *. set (mi := Z.abs zone mod 60) in *.
  assert (Hh : h <= 24) by (subst h; Z.div_mod_to_equations; lia).
  assert (Hmi : mi < 60) by (subst mi; apply Z.mod_pos_bound; lia).
  assert (Hz : Z.abs zone = h * 60 + mi) by (subst h mi; pose proof (Z.div_mod (Z.abs zone) 60); lia).
  unfold parse_zone.
  destruct (Z.ltb_spec zone 0) as [Hneg|Hpos]; cbn [app bs N_of_ascii];
    cbv [N_of_ascii N_of_digits N.add N.mul Pos.add Pos.mul Pos.succ]; cbn [N.eqb Pos.eqb negb];
    rewrite !getnum_dig by (Z.div_mod_to_equations; lia);
    replace (h / 10 * 10 + h mod 10) with h by (pose proof (Z.div_mod h 10); lia);
    replace (mi / 10 * 10 + mi mod 10) with mi by (pose proof (Z.div_mod mi 10); lia);
    (destruct (Z.ltb_spec 24 h); [lia|]); (destruct (Z.ltb_spec 60 mi); [lia|]); cbn [orb]; f_equal; f_equal; lia.
Qed.

Lemma format_zone_head off : exists c r, format_zone off = c :: r /\ is_digit c = false /\ c <> DOT /\ c <> 44%N.
Proof.
  unfold format_zone. destruct (off =? 0); [exists 90%N, []; repeat split; discriminate|].
  destruct (Z.quot off 60 <? 0); cbn [bs app]; eexists; eexists; (split; [reflexivity|]); repeat split; discriminate.
Qed.

(** ** round trip on wall clock fields *)
Definition civil_valid (c : civil) : Prop :=
  0 <= c_year c <= 9999 /\ 1 <= c_month c <= 12 /\ 1 <= c_day c <= days_in (c_month c) (c_year c) /\
  0 <= c_hour c < 24 /\ 0 <= c_min c < 60 /\ 0 <= c_sec c < 60 /\ 0 <= c_nsec c < 1000000000 /\
  - 86400 < c_off c < 86400 /\ c_off c mod 60 = 0.

Lemma parse_format_civil c : civil_valid c ->
  parse_civil (format_civil c) = Some {| c_year := c_year c; c_month := c_month c; c_day := c_day c; c_hour := c_hour c;
     c_min := c_min c; c_sec := c_sec c; c_nsec := c_nsec c / 1000 * 1000; c_off := c_off c |}.
Proof.
  intros (Hy & Hm & Hd & Hh & Hmi & Hs & Hn & Ho & Hom). pose proof (days_in_bound (c_month c) (c_year c)) as Hdi.
  unfold parse_civil, format_civil.
  change (bs "-") with [45%N]. change (bs "T") with [84%N]. change (bs ":") with [58%N].
  rewrite get_year_append by exact Hy. cbn [app]. rewrite expect_ok.
  rewrite getnum_append by lia.
  destruct (Z.leb_spec (c_month c) 0); [lia|]. destruct (Z.ltb_spec 12 (c_month c)); [lia|]. cbn [orb].
  rewrite expect_ok, getnum_append by lia. rewrite expect_ok, getnum_append by lia.
  destruct (Z.leb_spec 24 (c_hour c)); [lia|]. rewrite expect_ok, getnum_append by lia.
  destruct (Z.leb_spec 60 (c_min c)); [lia|]. rewrite expect_ok, getnum_append by lia.
  destruct (Z.leb_spec 60 (c_sec c)); [lia|].
  rewrite parse_frac_ok; [|exact Hn|].
  2: { destruct (format_zone_head (c_off c)) as (x0 & r0 & Hfz & Hz1 & Hz2 & Hz3). rewrite Hfz. auto. }
  rewrite parse_zone_ok by assumption.
  destruct (Z.ltb_spec (c_day c) 1); [lia|]. destruct (Z.ltb_spec (days_in (c_month c) (c_year c)) (c_day c)); [lia|].
  reflexivity.
Qed.

Definition time_valid (t : gotime) : Prop :=
  0 <= c_year (civil_of t) <= 9999 /\ 0 <= t_nsec t < 1000000000 /\ - 86400 < t_off t < 86400 /\ t_off t mod 60 = 0.

Lemma civil_of_valid t : time_valid t -> civil_valid (civil_of t).
Proof.
  intros (Hy & Hn & Ho & Hm). unfold civil_valid. revert Hy. unfold civil_of.
  pose proof (civil_from_days_ok ((t_sec t + t_off t) / 86400)) as Hc.
  destruct (civil_from_days ((t_sec t + t_off t) / 86400)) as [[y m] d]. cbn.
  pose proof (Z.mod_pos_bound (t_sec t + t_off t) 86400 ltac:(lia)).
  set (s := (t_sec t + t_off t) mod 86400) in *. clearbody s. destruct Hc as (_ & Hm2 & Hd).
  intros Hy. repeat split; try lia; try assumption; Z.div_mod_to_equations; lia.
Qed.

Lemma time_of_civil_of t : time_of_civil (civil_of t) = t.
Proof.
  unfold civil_of. pose proof (civil_from_days_ok ((t_sec t + t_off t) / 86400)) as Hc.
  destruct (civil_from_days ((t_sec t + t_off t) / 86400)) as [[y m] d]. destruct Hc as (Hc & _ & _).
  unfold time_of_civil. cbn. rewrite Hc. destruct t as [s n o]. cbn in *. f_equal.
  set (w := s + o) in *. assert (Hw : s = w - o) by (subst w; lia). rewrite Hw. clearbody w.
  pose proof (Z.div_mod w 86400 ltac:(lia)). set (x := w mod 86400) in *. clearbody x. Z.div_mod_to_equations; lia.
Qed.

Lemma time_parse_format t : time_valid t ->
  time_parse (time_format t) = {| t_sec := t_sec t; t_nsec := t_nsec t / 1000 * 1000; t_off := t_off t |}.
Proof.
  intros H. unfold time_parse, time_format. rewrite parse_format_civil by (apply civil_of_valid; exact H).
  pose proof (time_of_civil_of t) as Ht. set (c := civil_of t) in *. clearbody c. rewrite <- Ht.
  unfold time_of_civil. cbn [c_year c_month c_day c_hour c_min c_sec c_nsec c_off t_sec t_nsec t_off]. reflexivity.
Qed.

(** ** no space, printable *)
Lemma append_int_ascii x w c : In c (append_int x w) -> (c = 45 \/ 48 <= c <= 57)%N.
Proof.
  unfold append_int. intros H. apply in_app_or in H as [H|H].
  - destruct (x <? 0); [destruct H as [<-|[]]; lia|destruct H].
  - apply in_app_or in H as [H|H].
    + apply repeat_spec in H. lia.
    + pose proof (utoa_digits (Z.to_N (Z.abs x))) as Hd. rewrite Forall_forall in Hd. apply Hd, is_digit_spec in H. lia.
Qed.

Lemma format_frac_ascii n c : In c (format_frac n) -> (c = 46 \/ 48 <= c <= 57)%N.
Proof.
  unfold format_frac. pose proof (trim_digits _ (nano_digits_all n)) as Hd. rewrite Forall_forall in Hd.
  destruct (trim_zeros (nano_digits n)) as [|x l] eqn:E; [intros []|]. intros [<-|H]; [lia|].
  apply Hd, is_digit_spec in H. lia.
Qed.

Definition ts_byte (c : N) : Prop := (c = 43 \/ c = 45 \/ c = 46 \/ 48 <= c <= 58 \/ c = 84 \/ c = 90)%N.

Lemma time_format_bytes t c : In c (time_format t) -> ts_byte c.
Proof.
  unfold time_format, format_civil, format_zone, ts_byte.
  change (bs "-") with [45%N]. change (bs "T") with [84%N]. change (bs ":") with [58%N].
  change (bs "Z") with [90%N]. change (bs "+") with [43%N].
  intros H. rewrite !in_app_iff in H.
  repeat match type of H with _ \/ _ => destruct H as [H|H] end; try (apply append_int_ascii in H; lia);
    try (destruct H as [<-|[]]; lia).
  - apply format_frac_ascii in H; lia.
  - destruct (c_off (civil_of t) =? 0); [destruct H as [<-|[]]; lia|].
    rewrite !in_app_iff in H.
    repeat match type of H with _ \/ _ => destruct H as [H|H] end; try (apply append_int_ascii in H; lia);
      try (destruct H as [<-|[]]; lia).
    destruct (Z.quot (c_off (civil_of t)) 60 <? 0); destruct H as [<-|[]]; lia.
Qed.

Lemma time_format_word t : word (time_format t).
Proof.
  split.
  - unfold time_format, format_civil, append_int. intros H. apply app_eq_nil in H as [H _].
    apply app_eq_nil in H as [_ H]. apply app_eq_nil in H as [_ H]. exact (utoa_nonnil _ H).
  - intros H. apply time_format_bytes in H. unfold ts_byte in H. lia.
Qed.

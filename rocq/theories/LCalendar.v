(** LCalendar.v -- the day count and the calendar date are inverse to each other.  Finite sweeps
    are over the 400 years of an era and the 366 days of a year only. *)
From Verif Require Import Base BaseFacts Spec MTime LPriority.
From Coq Require Import ZifyBool ZifyNat ZifyN.

Local Open Scope Z_scope.

(** years start on March 1st; [S y]: days from the start of the era to that of year [y] *)
Definition ystart (y : Z) : Z := y * 365 + y / 4 - y / 100.
Definition yend (y : Z) : Z := if y =? 399 then 146097 else ystart (y + 1).
Definition ginv (doe : Z) : Z := doe - doe / 1460 + doe / 36524 - doe / 146096.

Lemma ginv_step x : 0 <= x -> ginv x <= ginv (x + 1).
Proof.
  intros Hx. unfold ginv. change 146096 with (36524 * 4). rewrite <- !Z.div_div by lia.
  set (a := x / 36524). set (b := (x + 1) / 36524).
  assert (Hab : a <= b) by (apply Z.div_le_mono; lia).
  assert (H1 : (x + 1) / 1460 <= x / 1460 + 1).
  { replace (x / 1460 + 1) with ((x + 1460) / 1460); [apply Z.div_le_mono; lia|].
    replace (x + 1460) with (x + 1 * 1460) by lia. rewrite Z.div_add by lia. lia. }
  assert (H2 : a - a / 4 <= b - b / 4) by (clearbody a b; Z.div_mod_to_equations; lia).
  lia.
Qed.

Lemma ginv_mono x y : 0 <= x <= y -> ginv x <= ginv y.
Proof.
  intros [H0 H1]. replace y with (x + Z.of_nat (Z.to_nat (y - x))) by lia.
  generalize (Z.to_nat (y - x)) as n. induction n as [|n IH]; [rewrite Z.add_0_r; lia|].
  replace (x + Z.of_nat (S n)) with (x + Z.of_nat n + 1) by lia.
  pose proof (ginv_step (x + Z.of_nat n) ltac:(lia)). lia.
Qed.

Definition year_ends_ok (y : Z) : bool :=
  (ginv (ystart y) / 365 =? y) && (ginv (yend y - 1) / 365 =? y) && (0 <=? ystart y) &&
  (yend y =? ystart y + (if is_leap (y + 1) then 366 else 365)).

Lemma all_year_ends_ok : forallb year_ends_ok (zrange 400) = true.
Proof. vm_compute. reflexivity. Qed.

Lemma year_facts y : 0 <= y < 400 ->
  0 <= ystart y /\ yend y = ystart y + (if is_leap (y + 1) then 366 else 365) /\
  forall doe, ystart y <= doe < yend y -> ginv doe / 365 = y.
Proof.
  intros Hy. pose proof (sweep year_ends_ok 400 y all_year_ends_ok ltac:(lia)) as H. unfold year_ends_ok in H.
  apply andb_true_iff in H as [H H4]. apply andb_true_iff in H as [H H3]. apply andb_true_iff in H as [H1' H2'].
  apply Z.eqb_eq in H1', H2', H4. apply Z.leb_le in H3.
  split; [exact H3|]. split; [exact H4|]. intros doe Hd.
  pose proof (ginv_mono (ystart y) doe ltac:(lia)) as H1. pose proof (ginv_mono doe (yend y - 1) ltac:(lia)) as H2.
  pose proof (Z.div_le_mono _ _ 365 ltac:(lia) H1). pose proof (Z.div_le_mono _ _ 365 ltac:(lia) H2). lia.
Qed.

Lemma find_year (n : nat) : forall doe, (n <= 399)%nat -> 0 <= doe < yend (Z.of_nat n) ->
  exists y, 0 <= y <= Z.of_nat n /\ ystart y <= doe < yend y.
Proof.
  induction n as [|n IH]; intros doe Hn Hd.
  - exists 0. split; [lia|]. change (ystart 0) with 0. exact Hd.
  - destruct (Z_lt_le_dec doe (ystart (Z.of_nat (S n)))) as [Hl|Hl].
    + destruct (IH doe ltac:(lia)) as (y & Hy & H).
      * split; [lia|]. unfold yend. destruct (Z.eqb_spec (Z.of_nat n) 399); [lia|].
        replace (Z.of_nat n + 1) with (Z.of_nat (S n)) by lia. exact Hl.
      * exists y. split; [lia|exact H].
    + exists (Z.of_nat (S n)). split; [lia|]. lia.
Qed.

Lemma doe_year doe : 0 <= doe < 146097 -> exists y, 0 <= y < 400 /\ ystart y <= doe < yend y /\ ginv doe / 365 = y.
Proof.
  intros H. destruct (find_year 399 doe (Nat.le_refl _)) as (y & Hy & Hr).
  { change (yend (Z.of_nat 399)) with 146097. exact H. }
  exists y. split; [lia|]. split; [exact Hr|]. apply year_facts; [lia|exact Hr].
Qed.

(** days of a March-based year *)
Definition mon (mp : Z) : Z := if mp <? 10 then mp + 3 else mp - 9.
Definition maxd (m : Z) : Z := if m =? 2 then 29 else if (m =? 4) || (m =? 6) || (m =? 9) || (m =? 11) then 30 else 31.

Definition doy_ok (doy : Z) : bool :=
  let mp := (5 * doy + 2) / 153 in
  let d := doy - (153 * mp + 2) / 5 + 1 in
  (0 <=? mp) && (mp <=? 11) && (1 <=? d) && (d <=? maxd (mon mp)) &&
  (if mp =? 11 then (d <=? 28) || ((doy =? 365) && (d =? 29)) else true).
Lemma all_doy_ok : forallb doy_ok (zrange 366) = true.
Proof. vm_compute. reflexivity. Qed.

Definition md_ok (x : Z) : bool :=
  let mp := x / 31 in let d := x mod 31 + 1 in
  if d <=? maxd (mon mp) then
    let doy := (153 * mp + 2) / 5 + d - 1 in
    ((5 * doy + 2) / 153 =? mp) && (0 <=? doy) && (if (mp =? 11) && (d =? 29) then doy =? 365 else doy <=? 364)
  else true.
Lemma all_md_ok : forallb md_ok (zrange 372) = true.
Proof. vm_compute. reflexivity. Qed.

Lemma md_facts mp d : 0 <= mp <= 11 -> 1 <= d <= maxd (mon mp) ->
  let doy := (153 * mp + 2) / 5 + d - 1 in
  (5 * doy + 2) / 153 = mp /\ 0 <= doy /\ (if (mp =? 11) && (d =? 29) then doy = 365 else doy <= 364).
Proof.
  intros Hm Hd. assert (H31 : maxd (mon mp) <= 31) by (unfold maxd; destruct (mon mp =? 2); [lia|]; destruct (_ || _); lia).
  pose proof (sweep md_ok 372 (mp * 31 + (d - 1)) all_md_ok ltac:(lia)) as H. unfold md_ok in H.
  rewrite Z.div_add_l, (Z.div_small (d - 1)), Z.add_0_r in H by lia.
  replace (mp * 31 + (d - 1)) with ((d - 1) + mp * 31) in H by lia. rewrite Z.mod_add, Z.mod_small in H by lia.
  replace (d - 1 + 1) with d in H by lia. cbv zeta.
  destruct (Z.leb_spec d (maxd (mon mp))); [|lia].
  apply andb_true_iff in H as [H H3]. apply andb_true_iff in H as [H1 H2].
  split; [lia|]. split; [lia|]. destruct ((mp =? 11) && (d =? 29)); lia.
Qed.

Lemma leap_shift y k : is_leap (y + 400 * k) = is_leap y.
Proof.
  unfold is_leap.
  replace ((y + 400 * k) mod 4) with (y mod 4) by (replace (y + 400 * k) with (y + (100 * k) * 4) by lia; rewrite Z.mod_add; lia).
  replace ((y + 400 * k) mod 100) with (y mod 100) by (replace (y + 400 * k) with (y + (4 * k) * 100) by lia; rewrite Z.mod_add; lia).
  replace ((y + 400 * k) mod 400) with (y mod 400) by (replace (y + 400 * k) with (y + k * 400) by lia; rewrite Z.mod_add; lia).
  reflexivity.
Qed.

Lemma days_in_maxd m y : days_in m y = if (m =? 2) && negb (is_leap y) then 28 else maxd m.
Proof. unfold days_in, maxd. destruct (m =? 2); [destruct (is_leap y); reflexivity|reflexivity]. Qed.

Lemma days_in_bound m y : 28 <= days_in m y <= 31.
Proof. unfold days_in. destruct (m =? 2); [destruct (is_leap y); lia|]. destruct (_ || _); lia. Qed.

Lemma mon_range mp : 0 <= mp <= 11 -> 1 <= mon mp <= 12 /\ (mon mp = 2 <-> mp = 11) /\ (mon mp <= 2 <-> 10 <= mp) /\
  (if mon mp >? 2 then mon mp - 3 else mon mp + 9) = mp.
Proof.
  intros H. unfold mon. destruct (Z.ltb_spec mp 10).
  - destruct (Z.gtb_spec (mp + 3) 2); lia.
  - destruct (Z.gtb_spec (mp - 9) 2); lia.
Qed.

Lemma mon_inv m : 1 <= m <= 12 -> exists mp, 0 <= mp <= 11 /\ m = mon mp.
Proof.
  intros H. exists (if m >? 2 then m - 3 else m + 9). unfold mon.
  destruct (Z.gtb_spec m 2); (split; [lia|]).
  - destruct (Z.ltb_spec (m - 3) 10); lia.
  - destruct (Z.ltb_spec (m + 9) 10); lia.
Qed.

Lemma civil_from_days_ok z :
  let '(y, m, d) := civil_from_days z in
  days_from_civil y m d = z /\ 1 <= m <= 12 /\ 1 <= d <= days_in m y.
Proof.
  unfold civil_from_days. set (w := z + 719468). set (era := w / 146097).
  assert (Hd : 0 <= w - era * 146097 < 146097).
  { subst era. pose proof (Z.div_mod w 146097 ltac:(lia)). pose proof (Z.mod_pos_bound w 146097 ltac:(lia)). lia. }
  set (doe := w - era * 146097) in *.
  destruct (doe_year doe Hd) as (yoe & Hy & Hr & Hg). unfold ginv in Hg. cbv zeta. rewrite Hg.
  destruct (year_facts yoe Hy) as (Hs0 & He & _). rewrite He in Hr.
  replace (365 * yoe + yoe / 4 - yoe / 100) with (ystart yoe) by (unfold ystart; lia).
  set (doy := doe - ystart yoe) in *.
  assert (Hdoy : 0 <= doy < (if is_leap (yoe + 1) then 366 else 365)) by (subst doy; lia).
  pose proof (sweep doy_ok 366 doy all_doy_ok ltac:(destruct (is_leap (yoe + 1)); lia)) as Hk. unfold doy_ok in Hk.
  set (mp := (5 * doy + 2) / 153) in *. set (d := doy - (153 * mp + 2) / 5 + 1) in *.
  fold (mon mp). destruct (mon_range mp ltac:(lia)) as (Hm1 & Hm2 & Hm3 & Hm4).
  set (y := yoe + era * 400 + (if mon mp <=? 2 then 1 else 0)).
  split; [|split; [exact Hm1|]].
  - unfold days_from_civil.
    replace (if mon mp <=? 2 then y - 1 else y) with (yoe + era * 400) by (subst y; destruct (mon mp <=? 2); lia).
    rewrite Z.div_add, (Z.div_small yoe) by lia. rewrite Hm4. cbv zeta.
    replace (yoe + era * 400 - (0 + era) * 400) with yoe by lia.
    replace (yoe * 365 + yoe / 4 - yoe / 100) with (ystart yoe) by (unfold ystart; lia).
    subst d doy doe w. clearbody era mp. lia.
  - rewrite days_in_maxd. destruct (Z.eqb_spec (mon mp) 2) as [E|E]; cbn [andb]; [|lia].
    assert (Hy1 : y = yoe + 1 + 400 * era) by (subst y; rewrite E; change (2 <=? 2) with true; cbv iota; lia).
    apply Hm2 in E. destruct (Z.eqb_spec mp 11); [|lia].
    assert (H29 : maxd (mon mp) = 29) by (rewrite E; reflexivity).
    rewrite Hy1, leap_shift. destruct (is_leap (yoe + 1)) eqn:El; cbn [negb]; [lia|]. lia.
Qed.

Lemma civil_of_days_from y m d : 1 <= m <= 12 -> 1 <= d <= days_in m y ->
  civil_from_days (days_from_civil y m d) = (y, m, d).
Proof.
  intros Hm Hd. destruct (mon_inv m Hm) as (mp & Hmp & ->). destruct (mon_range mp Hmp) as (_ & Hm2 & Hm3 & Hm4).
  rewrite days_in_maxd in Hd.
  assert (Hd' : 1 <= d <= maxd (mon mp)).
  { destruct (Z.eqb_spec (mon mp) 2) as [E|E]; cbn [andb] in Hd; [|exact Hd].
    rewrite E. change (maxd 2) with 29. rewrite E in Hd. change (maxd 2) with 29 in Hd. destruct (negb (is_leap y)); lia. }
  destruct (md_facts mp d Hmp Hd') as (Hf1 & Hf2 & Hf3).
  unfold days_from_civil. rewrite Hm4. cbv zeta.
  set (y' := if mon mp <=? 2 then y - 1 else y). set (era := y' / 400). set (yoe := y' - era * 400).
  assert (Hyoe : 0 <= yoe < 400).
  { subst yoe era. pose proof (Z.div_mod y' 400 ltac:(lia)). pose proof (Z.mod_pos_bound y' 400 ltac:(lia)). lia. }
  set (doy := (153 * mp + 2) / 5 + d - 1) in *.
  destruct (year_facts yoe Hyoe) as (Hs0 & He & Hg).
  replace (yoe * 365 + yoe / 4 - yoe / 100) with (ystart yoe) by (unfold ystart; lia).
  assert (Hdoy : 0 <= doy < (if is_leap (yoe + 1) then 366 else 365)).
  { split; [exact Hf2|]. destruct ((mp =? 11) && (d =? 29)) eqn:E; [|destruct (is_leap (yoe + 1)); lia].
    assert (mp = 11 /\ d = 29) as [-> ->] by lia. rewrite Hf3.
    assert (Hy2 : y = yoe + 1 + 400 * era).
    { subst yoe. assert (y' = y - 1) by (subst y'; destruct (Z.leb_spec (mon 11) 2); [lia|cbn in *; lia]). lia. }
    destruct (is_leap (yoe + 1)) eqn:El; [lia|]. exfalso.
    rewrite Hy2, leap_shift, El in Hd. change (mon 11) with 2 in Hd. cbn in Hd. lia. }
  assert (Hend : yend yoe <= 146097).
  { rewrite He. clear - Hyoe. pose proof (sweep (fun y => ystart y + (if is_leap (y + 1) then 366 else 365) <=? 146097) 400 yoe) as H.
    specialize (H ltac:(vm_compute; reflexivity) ltac:(lia)). lia. }
  unfold civil_from_days. replace (era * 146097 + (ystart yoe + doy) - 719468 + 719468) with ((ystart yoe + doy) + era * 146097) by lia.
  rewrite Z.div_add, (Z.div_small (ystart yoe + doy)) by lia. rewrite Z.add_0_l. cbv zeta.
  replace (ystart yoe + doy + era * 146097 - era * 146097) with (ystart yoe + doy) by lia.
  assert (Hgg : ginv (ystart yoe + doy) / 365 = yoe) by (apply Hg; lia). unfold ginv in Hgg. rewrite Hgg.
  replace (365 * yoe + yoe / 4 - yoe / 100) with (ystart yoe) by (unfold ystart; lia).
  replace (ystart yoe + doy - ystart yoe) with doy by lia. rewrite Hf1. fold (mon mp).
  f_equal; [f_equal|].
  - subst yoe. assert (y = y' + (if mon mp <=? 2 then 1 else 0)) by (subst y'; destruct (mon mp <=? 2); lia). lia.
  - subst doy. lia.
Qed.

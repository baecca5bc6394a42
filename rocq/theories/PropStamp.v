(** PropStamp.v -- C88: exactly which timestamps are understood: the second field of a received message
    (MessageImmutable.TimeStamp) and the BSD stamp given to Message.Timestamp. *)
From Verif Require Import Base BaseFacts Spec MPriority MHelpers MText MTime MSData MMessage MTransport MParse.
From Verif Require Import LPriority LAtoi LCalendar LTime LParse LRound PropTime PropParse.
From Coq Require Import ZifyBool ZifyNat ZifyN.
Open Scope Z_scope.

(** ** specification *)
Definition number (k : nat) (ds : bytes) (n : Z) : Prop := length ds = k /\ all_digits ds /\ n = decimal_value ds.
(** '.' or ',' and digits: their value in nanoseconds, rounded down *)
Definition any_fraction (f : bytes) (ns : Z) : Prop :=
  (f = [] /\ ns = 0) \/
  exists ds, (f = bs "." ++ ds \/ f = bs "," ++ ds) /\ ds <> [] /\ all_digits ds /\ ns = decimal_value ds * 10 ^ 9 / 10 ^ Z.of_nat (length ds).
(** the offset may reach 24:60 *)
Definition any_zone (z : bytes) (off : Z) : Prop :=
  (z = bs "Z" /\ off = 0) \/
  exists hs ms h m, number 2 hs h /\ number 2 ms m /\ h <= 24 /\ m <= 60 /\
    ((z = bs "+" ++ hs ++ bs ":" ++ ms /\ off = (h * 60 + m) * 60) \/ (z = bs "-" ++ hs ++ bs ":" ++ ms /\ off = - ((h * 60 + m) * 60))).
(** hours (one digit is enough), minutes, seconds *)
Definition clock (b : bytes) (h mi s : Z) : Prop :=
  exists hs ms ss, b = hs ++ bs ":" ++ ms ++ bs ":" ++ ss /\ (number 1 hs h \/ number 2 hs h) /\ number 2 ms mi /\ number 2 ss s /\ h < 24 /\ mi < 60 /\ s < 60.

Definition timestamp (b : bytes) (c : civil) : Prop :=
  exists ys ms ds cl f z n, b = ys ++ bs "-" ++ ms ++ bs "-" ++ ds ++ bs "T" ++ cl ++ f ++ z /\
    number 4 ys (c_year c) /\ number 2 ms (c_month c) /\ 1 <= c_month c <= 12 /\
    number 2 ds (c_day c) /\ month_length (c_year c) (c_month c) n /\ 1 <= c_day c <= n /\
    clock cl (c_hour c) (c_min c) (c_sec c) /\ any_fraction f (c_nsec c) /\ any_zone z (c_off c).

(** "Jan", "jAN"... *)
Definition month_word (b : bytes) (m : Z) : Prop :=
  1 <= m <= 12 /\ Forall2 (fun c x => c = x \/ (c + 32)%N = x) b
    (nth (Z.to_nat (m - 1)) [bs "jan"; bs "feb"; bs "mar"; bs "apr"; bs "may"; bs "jun"; bs "jul"; bs "aug"; bs "sep"; bs "oct"; bs "nov"; bs "dec"] []).
(** month, spaces, day of a leap year (one or two digits), spaces, clock, fraction *)
Definition bsd_stamp (b : bytes) (mo d h mi s ns : Z) : Prop :=
  exists name i ds j cl f n, b = name ++ repeat SP (S i) ++ ds ++ repeat SP (S j) ++ cl ++ f /\
    month_word name mo /\ (number 1 ds d \/ number 2 ds d) /\ month_length 0 mo n /\ 1 <= d <= n /\ clock cl h mi s /\ any_fraction f ns.

(** ** numbers *)
Lemma digit_range c : is_digit c = true <-> (48 <= c <= 57)%N.
Proof. apply is_digit_spec. Qed.
Lemma digit_val_eq c : is_digit c = true -> digit_val c = Z.of_N c - 48.
Proof. intros H. apply digit_range in H. unfold digit_val. lia. Qed.

Lemma number_2 a b : is_digit a = true -> is_digit b = true -> number 2 [a; b] (digit_val a * 10 + digit_val b).
Proof.
  intros Ha Hb. split; [reflexivity|]. split.
  - intros c [<-|[<-|[]]]; apply digit_range; assumption.
  - unfold decimal_value. cbn [fold_left]. rewrite !digit_val_eq by assumption. lia.
Qed.
Lemma number_1 a : is_digit a = true -> number 1 [a] (digit_val a).
Proof.
  intros Ha. split; [reflexivity|]. split.
  - intros c [<-|[]]; apply digit_range; assumption.
  - unfold decimal_value. cbn [fold_left]. rewrite !digit_val_eq by assumption. lia.
Qed.
Lemma number_2_inv ds n : number 2 ds n -> exists a b, ds = [a; b] /\ is_digit a = true /\ is_digit b = true /\ n = digit_val a * 10 + digit_val b.
Proof.
  intros (Hl & Hd & ->). destruct ds as [|a [|b [|]]]; try discriminate. exists a, b.
  assert (Ha : is_digit a = true) by (apply digit_range, Hd; left; reflexivity). assert (Hb : is_digit b = true) by (apply digit_range, Hd; right; left; reflexivity).
  split; [reflexivity|]. split; [exact Ha|]. split; [exact Hb|]. unfold decimal_value. cbn [fold_left]. rewrite !digit_val_eq by assumption. lia.
Qed.
Lemma number_1_inv ds n : number 1 ds n -> exists a, ds = [a] /\ is_digit a = true /\ n = digit_val a.
Proof.
  intros (Hl & Hd & ->). destruct ds as [|a [|]]; try discriminate. exists a.
  assert (Ha : is_digit a = true) by (apply digit_range, Hd; left; reflexivity).
  split; [reflexivity|]. split; [exact Ha|]. unfold decimal_value. cbn [fold_left]. rewrite !digit_val_eq by assumption. lia.
Qed.

(** the rest does not go on with a digit *)
Definition no_digit (r : bytes) : Prop := match r with c :: _ => is_digit c = false | [] => True end.

Lemma getnum_fixed s n r : getnum s true = Some (n, r) <-> exists ds, s = ds ++ r /\ number 2 ds n.
Proof.
  split.
  - destruct s as [|a [|b s]]; cbn [getnum]; try discriminate; destruct (is_digit a) eqn:Ha; try discriminate.
    destruct (is_digit b) eqn:Hb; [|discriminate]. intros E. injection E as <- <-. exists [a; b]. split; [reflexivity|]. apply number_2; assumption.
  - intros (ds & -> & H). apply number_2_inv in H as (a & b & -> & Ha & Hb & ->). cbn [app getnum]. rewrite Ha, Hb. reflexivity.
Qed.
Lemma getnum_free s n r : getnum s false = Some (n, r) -> exists ds, s = ds ++ r /\ (number 1 ds n \/ number 2 ds n).
Proof.
  destruct s as [|a [|b s]]; cbn [getnum]; try discriminate; destruct (is_digit a) eqn:Ha; try discriminate.
  - intros E. injection E as <- <-. exists [a]. split; [reflexivity|]. left. apply number_1; assumption.
  - destruct (is_digit b) eqn:Hb; intros E; injection E as <- <-.
    + exists [a; b]. split; [reflexivity|]. right. apply number_2; assumption.
    + exists [a]. split; [reflexivity|]. left. apply number_1; assumption.
Qed.
Lemma getnum_free_ok ds n r : (number 1 ds n \/ number 2 ds n) -> no_digit r -> getnum (ds ++ r) false = Some (n, r).
Proof.
  intros [H|H] Hr.
  - apply number_1_inv in H as (a & -> & Ha & ->). cbn [app getnum]. rewrite Ha. destruct r as [|c r]; [reflexivity|]. cbn in Hr. rewrite Hr. reflexivity.
  - apply number_2_inv in H as (a & b & -> & Ha & Hb & ->). cbn [app getnum]. rewrite Ha, Hb. reflexivity.
Qed.
Lemma get_year_iff s n r : get_year s = Some (n, r) <-> exists ds, s = ds ++ r /\ number 4 ds n.
Proof.
  split.
  - destruct s as [|a [|b [|c [|d s]]]]; cbn [get_year]; try discriminate. destruct (is_digit a) eqn:Ha, (is_digit b) eqn:Hb, (is_digit c) eqn:Hc, (is_digit d) eqn:Hd; try discriminate.
    cbn [andb]. intros E. injection E as <- <-. exists [a; b; c; d]. split; [reflexivity|]. split; [reflexivity|]. split.
    + intros x [<-|[<-|[<-|[<-|[]]]]]; apply digit_range; assumption.
    + unfold decimal_value. cbn [fold_left]. rewrite !digit_val_eq by assumption. lia.
  - intros (ds & -> & Hl & Hd & ->). destruct ds as [|a [|b [|c [|d [|]]]]]; try discriminate.
    assert (H : forall x, In x [a; b; c; d] -> is_digit x = true) by (intros x Hx; apply digit_range, Hd, Hx).
    cbn [app get_year]. rewrite !H by (cbn; tauto). cbn [andb]. unfold decimal_value. cbn [fold_left]. rewrite !digit_val_eq by (apply H; cbn; tauto). do 2 f_equal. lia.
Qed.
Lemma expect_iff c s r : expect c s = Some r <-> s = c :: r.
Proof.
  split; [|intros ->; apply expect_ok]. destruct s as [|x s]; cbn; [discriminate|]. destruct (N.eqb_spec x c) as [->|]; [|discriminate]. intros E. injection E as <-. reflexivity.
Qed.

(** ** fractions *)
Lemma dv_app a b : decimal_value (a ++ b) = decimal_value a * 10 ^ Z.of_nat (length b) + decimal_value b.
Proof.
  unfold decimal_value. rewrite fold_left_app. set (x := fold_left _ a 0). clearbody x.
  assert (H : forall l y, fold_left (fun acc c => acc * 10 + (Z.of_N c - 48)) l y = y * 10 ^ Z.of_nat (length l) + fold_left (fun acc c => acc * 10 + (Z.of_N c - 48)) l 0).
  { induction l as [|c l IH]; intros y; [cbn; lia|]. cbn [fold_left length]. rewrite IH, (IH (0 * 10 + _)). rewrite Nat2Z.inj_succ, Z.pow_succ_r by lia. ring. }
  apply H.
Qed.
Lemma dv_bound l : all_digits l -> 0 <= decimal_value l < 10 ^ Z.of_nat (length l).
Proof.
  induction l as [|c l IH]; intros H; [cbn; lia|]. change (c :: l) with ([c] ++ l). rewrite dv_app. apply all_digits_cons in H as [Hc Hl]. specialize (IH Hl).
  unfold decimal_value at 1 3. cbn [fold_left app length]. rewrite Nat2Z.inj_succ, Z.pow_succ_r by lia. nia.
Qed.

Lemma frac_nanos_value ds : all_digits ds -> frac_nanos ds = decimal_value ds * 10 ^ 9 / 10 ^ Z.of_nat (length ds).
Proof.
  intros H. assert (Hf : Forall (fun c => is_digit c = true) ds) by (apply Forall_forall; intros c Hc; apply digit_range, H, Hc).
  unfold frac_nanos. cbv zeta. rewrite firstn_length.
  destruct (Nat.le_gt_cases (length ds) 9) as [Hl|Hl].
  - rewrite firstn_all2 by exact Hl. rewrite Nat.min_r by exact Hl. rewrite digits_to_decimal by exact Hf.
    assert (E : 10 ^ 9 = 10 ^ Z.of_nat (9 - length ds) * 10 ^ Z.of_nat (length ds)) by (rewrite <- Z.pow_add_r by lia; f_equal; lia).
    rewrite E, Z.mul_assoc, Z.div_mul; [reflexivity|]. apply Z.pow_nonzero; lia.
  - rewrite Nat.min_l by lia. cbn [Nat.sub]. rewrite Z.mul_1_r.
    assert (Hf9 : Forall (fun c => is_digit c = true) (firstn 9 ds)) by (apply Forall_forall; intros c Hc; rewrite Forall_forall in Hf; apply Hf; rewrite <- (firstn_skipn 9 ds); apply in_or_app; left; exact Hc).
    rewrite digits_to_decimal by exact Hf9.
    assert (Hb : 0 <= decimal_value (skipn 9 ds) < 10 ^ Z.of_nat (length (skipn 9 ds))).
    { apply dv_bound. intros c Hc. apply H. rewrite <- (firstn_skipn 9 ds). apply in_or_app. right. exact Hc. }
    rewrite <- (firstn_skipn 9 ds) at 2. rewrite dv_app. set (x := decimal_value (firstn 9 ds)) in *. set (y := decimal_value (skipn 9 ds)) in *.
    assert (E : 10 ^ Z.of_nat (length ds) = 10 ^ Z.of_nat (length (skipn 9 ds)) * 10 ^ 9) by (rewrite <- Z.pow_add_r by lia; f_equal; rewrite skipn_length; lia).
    rewrite E. set (k := 10 ^ Z.of_nat (length (skipn 9 ds))) in *. rewrite Z.div_mul_cancel_r by lia. rewrite Z.add_comm, Z.div_add by lia. rewrite Z.div_small by lia. lia.
Qed.

Lemma span_digits_spec s : exists ds r, span_digits s = (ds, r) /\ s = ds ++ r /\ all_digits ds /\ no_digit r.
Proof.
  induction s as [|c s (ds & r & E & Es & Hd & Hr)]; [exists [], []; split; [reflexivity|]; split; [reflexivity|]; split; [intros ? []|exact I]|].
  cbn [span_digits]. destruct (is_digit c) eqn:Hc.
  - rewrite E. exists (c :: ds), r. split; [reflexivity|]. split; [rewrite Es; reflexivity|]. split; [|exact Hr]. intros x [<-|Hx]; [apply digit_range; exact Hc|exact (Hd x Hx)].
  - exists [], (c :: s). split; [reflexivity|]. split; [reflexivity|]. split; [intros ? []|exact Hc].
Qed.

Lemma parse_frac_inv s ns r : parse_frac s = (ns, r) -> exists f, s = f ++ r /\ any_fraction f ns.
Proof.
  intros H. assert (Hno : (0, s) = (ns, r) -> exists f, s = f ++ r /\ any_fraction f ns) by (intros E; injection E as <- <-; exists []; split; [reflexivity|left; auto]).
  unfold parse_frac in H. destruct s as [|c [|d s]]; try (apply Hno; exact H).
  destruct ((N.eqb c DOT || N.eqb c 44) && is_digit d) eqn:E; [|apply Hno; exact H]. apply andb_true_iff in E as [Ec Ed]. clear Hno.
  cbn [tl] in H. destruct (span_digits_spec (d :: s)) as (ds & r' & Es & Eq & Hd & Hr). rewrite Es in H. injection H as <- <-.
  assert (Hne : ds <> []). { intros ->. cbn in Eq. subst r'. cbn in Hr. congruence. }
  exists (c :: ds). split; [rewrite Eq; reflexivity|]. right. exists ds. split; [|split; [exact Hne|split; [exact Hd|apply frac_nanos_value; exact Hd]]].
  apply orb_true_iff in Ec as [Ec|Ec]; apply N.eqb_eq in Ec; subst c; [left|right]; reflexivity.
Qed.

(** what can follow a fraction *)
Definition no_fraction (r : bytes) : Prop := match r with c :: _ => is_digit c = false /\ c <> 46%N /\ c <> 44%N | [] => True end.

Lemma span_digits_all ds r : all_digits ds -> no_digit r -> span_digits (ds ++ r) = (ds, r).
Proof.
  intros Hd Hr. induction ds as [|c ds IH]; cbn [app].
  - destruct r as [|c r]; [reflexivity|]. cbn in Hr |- *. rewrite Hr. reflexivity.
  - apply all_digits_cons in Hd as [Hc Hd]. cbn [span_digits]. apply digit_range in Hc. rewrite Hc, IH by exact Hd. reflexivity.
Qed.

Lemma parse_frac_fwd f ns r : any_fraction f ns -> no_fraction r -> parse_frac (f ++ r) = (ns, r).
Proof.
  intros [(-> & ->)|(ds & Hf & Hne & Hd & ->)] Hr.
  - cbn [app]. unfold parse_frac. destruct r as [|c [|d r]]; try reflexivity. destruct Hr as (_ & H1 & H2).
    destruct (N.eqb_spec c DOT); [contradiction|]. destruct (N.eqb_spec c 44); [contradiction|]. reflexivity.
  - rewrite <- frac_nanos_value by exact Hd. destruct ds as [|d ds]; [congruence|].
    assert (Hd1 : is_digit d = true) by (apply digit_range, Hd; left; reflexivity).
    assert (Hnd : no_digit r) by (destruct r; [exact I|exact (proj1 Hr)]).
    pose proof (span_digits_all (d :: ds) r Hd Hnd) as Hs. cbn [app] in Hs.
    destruct Hf as [->| ->]; cbn [bs app]; unfold parse_frac; cbn -[span_digits frac_nanos is_digit]; rewrite Hd1; cbn [andb orb tl]; rewrite Hs; reflexivity.
Qed.

Lemma parse_zone_iff s off r : parse_zone s = Some (off, r) <-> exists z, s = z ++ r /\ any_zone z off.
Proof.
  split.
  - destruct s as [|z r0]; [discriminate|]. cbn [parse_zone]. destruct (N.eqb_spec z 90) as [->|Hz].
    + intros E. injection E as <- <-. exists (bs "Z"). split; [reflexivity|left; auto].
    + destruct r0 as [|h1 [|h2 [|col [|m1 [|m2 r1]]]]]; try discriminate. destruct (N.eqb_spec col 58) as [->|]; [cbn [negb]|discriminate].
      destruct (getnum [h1; h2] true) as [[hr ?]|] eqn:Eh; [|discriminate]. destruct (getnum [m1; m2] true) as [[mm ?]|] eqn:Em; [|discriminate].
      apply getnum_fixed in Eh as (hs & Eh & Hh). apply getnum_fixed in Em as (ms & Em & Hm).
      pose proof (proj1 Hh) as Lh. pose proof (proj1 Hm) as Lm. destruct hs as [|? [|? [|]]]; try discriminate Lh. destruct ms as [|? [|? [|]]]; try discriminate Lm.
      injection Eh as <- <- <-. injection Em as <- <- <-.
      destruct (Z.ltb_spec 24 hr); [discriminate|]. destruct (Z.ltb_spec 60 mm); [discriminate|]. cbn [orb].
      destruct (N.eqb_spec z 43) as [->|H43].
      * intros E. injection E as <- <-. exists (bs "+" ++ [h1; h2] ++ bs ":" ++ [m1; m2]). split; [reflexivity|]. right. exists [h1; h2], [m1; m2], hr, mm. auto 10.
      * destruct (N.eqb_spec z DASH) as [->|]; [|discriminate]. intros E. injection E as <- <-. exists (bs "-" ++ [h1; h2] ++ bs ":" ++ [m1; m2]). split; [reflexivity|]. right. exists [h1; h2], [m1; m2], hr, mm. auto 10.
  - intros (z & -> & [(-> & ->)|(hs & ms & h & m & Hh & Hm & Lh & Lm & Hz)]); [reflexivity|].
    pose proof (proj2 (getnum_fixed hs h []) (ex_intro _ hs (conj (eq_sym (app_nil_r hs)) Hh))) as Gh.
    pose proof (proj2 (getnum_fixed ms m []) (ex_intro _ ms (conj (eq_sym (app_nil_r ms)) Hm))) as Gm.
    apply number_2_inv in Hh as (h1 & h2 & -> & _ & _ & _). apply number_2_inv in Hm as (m1 & m2 & -> & _ & _ & _).
    destruct (Z.ltb_spec 24 h) as [|_]; [lia|]. destruct (Z.ltb_spec 60 m) as [|_]; [lia|].
    assert (H24 : 24 <? h = false) by lia. assert (H60 : 60 <? m = false) by lia.
    destruct Hz as [[-> ->]|[-> ->]]; cbn [bs app]; unfold parse_zone; cbn [N.eqb Pos.eqb negb]; rewrite Gh, Gm, H24, H60; reflexivity.
Qed.

Lemma zone_no_fraction z off r : any_zone z off -> no_fraction (z ++ r).
Proof.
  intros [(-> & _)|(hs & ms & h & m & _ & _ & _ & _ & [[-> _]|[-> _]])]; cbn; repeat split; discriminate.
Qed.

(** ** the clock, as both parsers read it *)
Definition clk (s : bytes) : option (Z * Z * Z * bytes) :=
  opt (h, s) <- getnum s false;
  if (24 <=? h)%Z then None else
  opt s <- expect 58 s; opt (mi, s) <- getnum s true;
  if (60 <=? mi)%Z then None else
  opt s <- expect 58 s; opt (se, s) <- getnum s true;
  if (60 <=? se)%Z then None else Some (h, mi, se, s).

Lemma clk_iff s h mi se r : clk s = Some (h, mi, se, r) <-> exists cl, s = cl ++ r /\ clock cl h mi se.
Proof.
  unfold clk. split.
  - destruct (getnum s false) as [[h0 s1]|] eqn:E1; [|discriminate]. destruct (Z.leb_spec 24 h0); [discriminate|].
    destruct (expect 58 s1) as [s2|] eqn:E2; [|discriminate]. destruct (getnum s2 true) as [[m0 s3]|] eqn:E3; [|discriminate]. destruct (Z.leb_spec 60 m0); [discriminate|].
    destruct (expect 58 s3) as [s4|] eqn:E4; [|discriminate]. destruct (getnum s4 true) as [[e0 s5]|] eqn:E5; [|discriminate]. destruct (Z.leb_spec 60 e0); [discriminate|].
    intros E. injection E as <- <- <- <-. apply getnum_free in E1 as (hs & -> & K1). apply expect_iff in E2 as ->. apply getnum_fixed in E3 as (ms & -> & K3).
    apply expect_iff in E4 as ->. apply getnum_fixed in E5 as (ss & -> & K5). exists (hs ++ bs ":" ++ ms ++ bs ":" ++ ss).
    split; [rewrite <- !app_assoc; reflexivity|]. exists hs, ms, ss. auto 10.
  - intros (cl & -> & hs & ms & ss & -> & H1 & H2 & H3 & L1 & L2 & L3).
    rewrite <- !app_assoc. rewrite (getnum_free_ok hs h) by (exact H1 || reflexivity). destruct (Z.leb_spec 24 h); [lia|].
    change (bs ":") with [58%N]. cbn [app]. rewrite expect_ok.
    rewrite (proj2 (getnum_fixed (ms ++ _) mi _) (ex_intro _ ms (conj eq_refl H2))). destruct (Z.leb_spec 60 mi); [lia|].
    rewrite expect_ok.
    rewrite (proj2 (getnum_fixed (ss ++ _) se _) (ex_intro _ ss (conj eq_refl H3))). destruct (Z.leb_spec 60 se); [lia|]. reflexivity.
Qed.

Lemma parse_civil_clk s : parse_civil s =
  (opt (y, s) <- get_year s; opt s <- expect DASH s; opt (mo, s) <- getnum s true;
   if (mo <=? 0)%Z || (12 <? mo)%Z then None else
   opt s <- expect DASH s; opt (d, s) <- getnum s true; opt s <- expect 84 s;
   opt (h, mi, se, s) <- clk s;
   let '(ns, s) := parse_frac s in
   opt (off, s) <- parse_zone s;
   match s with
   | _ :: _ => None
   | [] => if (d <? 1)%Z || (days_in mo y <? d)%Z then None
          else Some {| c_year := y; c_month := mo; c_day := d; c_hour := h; c_min := mi; c_sec := se; c_nsec := ns; c_off := off |}
   end).
Proof.
  unfold parse_civil, clk. destruct (get_year s) as [[? s0]|]; [|reflexivity]. destruct (expect DASH s0) as [s1|]; [|reflexivity].
  destruct (getnum s1 true) as [[mo s2]|]; [|reflexivity]. destruct (_ || _); [reflexivity|]. destruct (expect DASH s2) as [s3|]; [|reflexivity].
  destruct (getnum s3 true) as [[d s4]|]; [|reflexivity]. destruct (expect 84 s4) as [s5|]; [|reflexivity].
  destruct (getnum s5 false) as [[h s6]|]; [|reflexivity]. destruct (24 <=? h); [reflexivity|]. destruct (expect 58 s6) as [s7|]; [|reflexivity].
  destruct (getnum s7 true) as [[mi s8]|]; [|reflexivity]. destruct (60 <=? mi); [reflexivity|]. destruct (expect 58 s8) as [s9|]; [|reflexivity].
  destruct (getnum s9 true) as [[se s10]|]; [|reflexivity]. destruct (60 <=? se); reflexivity.
Qed.

Lemma month_length_fun y m n n' : month_length y m n -> month_length y m n' -> n = n'.
Proof.
  unfold month_length. cbn [In]. intros [(? & ? & ?)|[(? & Hx & ?)|[(? & ?)|(? & ?)]]] [(? & ? & ?)|[(? & Hy & ?)|[(? & ?)|(? & ?)]]]; try contradiction; lia.
Qed.

Lemma parse_civil_iff s c : parse_civil s = Some c <-> timestamp s c.
Proof.
  rewrite parse_civil_clk. split.
  - destruct (get_year s) as [[y s0]|] eqn:E0; [|discriminate]. destruct (expect DASH s0) as [s1|] eqn:E1; [|discriminate].
    destruct (getnum s1 true) as [[mo s2]|] eqn:E2; [|discriminate]. destruct (Z.leb_spec mo 0); [discriminate|]. destruct (Z.ltb_spec 12 mo); [discriminate|]. cbn [orb].
    destruct (expect DASH s2) as [s3|] eqn:E3; [|discriminate]. destruct (getnum s3 true) as [[d s4]|] eqn:E4; [|discriminate]. destruct (expect 84 s4) as [s5|] eqn:E5; [|discriminate].
    destruct (clk s5) as [[[[h mi] se] s6]|] eqn:E6; [|discriminate]. destruct (parse_frac s6) as [ns s7] eqn:E7. destruct (parse_zone s7) as [[off s8]|] eqn:E8; [|discriminate].
    destruct s8; [|discriminate]. destruct (Z.ltb_spec d 1); [discriminate|]. destruct (Z.ltb_spec (days_in mo y) d); [discriminate|]. intros E. injection E as <-.
    apply get_year_iff in E0 as (ys & -> & K0). apply expect_iff in E1 as ->. apply getnum_fixed in E2 as (ms & -> & K2). apply expect_iff in E3 as ->.
    apply getnum_fixed in E4 as (ds & -> & K4). apply expect_iff in E5 as ->. apply clk_iff in E6 as (cl & -> & K6). apply parse_frac_inv in E7 as (f & -> & K7).
    apply parse_zone_iff in E8 as (z & -> & K8). rewrite app_nil_r.
    exists ys, ms, ds, cl, f, z, (days_in mo y). cbn [c_year c_month c_day c_hour c_min c_sec c_nsec c_off].
    split; [reflexivity|]. split; [exact K0|]. split; [exact K2|]. split; [lia|]. split; [exact K4|]. split; [apply days_in_spec; lia|]. split; [lia|]. auto.
  - destruct c as [y mo d h mi se ns off]. intros (ys & ms & ds & cl & f & z & n & -> & K0 & K2 & Hmo & K4 & Hml & Hd & K6 & K7 & K8). cbn [c_year c_month c_day c_hour c_min c_sec c_nsec c_off] in *.
    rewrite (proj2 (get_year_iff _ y _) (ex_intro _ ys (conj eq_refl K0))). change (bs "-") with [DASH]. change (bs "T") with [84%N]. cbn [app]. rewrite expect_ok.
    rewrite (proj2 (getnum_fixed _ mo _) (ex_intro _ ms (conj eq_refl K2))). destruct (Z.leb_spec mo 0); [lia|]. destruct (Z.ltb_spec 12 mo); [lia|]. cbn [orb]. rewrite expect_ok.
    rewrite (proj2 (getnum_fixed _ d _) (ex_intro _ ds (conj eq_refl K4))). rewrite expect_ok.
    rewrite (proj2 (clk_iff _ h mi se _) (ex_intro _ cl (conj eq_refl K6))).
    rewrite (parse_frac_fwd f ns z K7) by (rewrite <- (app_nil_r z); exact (zone_no_fraction z off [] K8)).
    rewrite (proj2 (parse_zone_iff z off []) (ex_intro _ z (conj (eq_sym (app_nil_r z)) K8))).
    rewrite (month_length_fun _ _ _ _ Hml (days_in_spec mo y Hmo)) in Hd. destruct (Z.ltb_spec d 1); [lia|]. destruct (Z.ltb_spec (days_in mo y) d); [lia|]. reflexivity.
Qed.

(** ** the BSD stamp *)
Definition no_space (r : bytes) : Prop := match r with c :: _ => c <> SP | [] => True end.

Lemma cut_space_spec s : exists i, s = repeat SP i ++ cut_space s /\ no_space (cut_space s).
Proof.
  induction s as [|c s (i & E & H)]; [exists 0%nat; split; [reflexivity|exact I]|]. cbn [cut_space]. destruct (N.eqb_spec c SP) as [->|n].
  - exists (S i). split; [cbn; f_equal; exact E|exact H].
  - exists 0%nat. split; [reflexivity|exact n].
Qed.
Lemma cut_space_repeat i r : no_space r -> cut_space (repeat SP i ++ r) = r.
Proof.
  intros H. induction i as [|i IH]; cbn [repeat app]; [|exact IH]. destruct r as [|c r]; [reflexivity|]. cbn in H |- *. destruct (N.eqb_spec c SP); [contradiction|reflexivity].
Qed.
Lemma skip_space_inv s r : skip_space s = Some r -> r <> [] -> exists i, s = repeat SP (S i) ++ r /\ no_space r.
Proof.
  destruct s as [|c s]; cbn [skip_space]; [intros E; injection E as <-; congruence|]. destruct (N.eqb_spec c SP) as [->|]; [|discriminate].
  intros E _. injection E as <-. cbn [cut_space]. change (N.eqb SP SP) with true. cbn iota. destruct (cut_space_spec s) as (i & E & H). exists i. split; [cbn; f_equal; exact E|exact H].
Qed.
Lemma skip_space_ok i r : no_space r -> skip_space (repeat SP (S i) ++ r) = Some r.
Proof. intros H. cbn [repeat app skip_space]. change (N.eqb SP SP) with true. cbn iota. f_equal. exact (cut_space_repeat (S i) r H). Qed.

Lemma lower_spec c x : (97 <= x <= 122)%N -> lower c = x <-> c = x \/ (c + 32)%N = x.
Proof. intros Hx. unfold lower. destruct (N.leb_spec 65 c), (N.leb_spec c 90); cbn [andb]; lia. Qed.

Lemma lower_name b n : Forall (fun x => 97 <= x <= 122)%N n -> map lower b = n <-> Forall2 (fun c x => c = x \/ (c + 32)%N = x) b n.
Proof.
  intros Hn. revert b. induction Hn as [|x n Hx Hn IH]; intros [|c b]; cbn [map].
  - split; [constructor|reflexivity].
  - split; [discriminate|intros H; inversion H].
  - split; [discriminate|intros H; inversion H].
  - split.
    + intros E. injection E as E1 E2. constructor; [apply lower_spec; assumption|apply IH; exact E2].
    + intros H. inversion H as [|? ? ? ? H1 H2]; subst. f_equal; [apply lower_spec; assumption|apply IH; exact H2].
Qed.

Lemma month_lookup_spec names : forall i s m, month_lookup names i s = Some m ->
  exists k n, nth_error names k = Some n /\ m = i + Z.of_nat k /\ map lower (firstn 3 s) = n.
Proof.
  induction names as [|n names IH]; intros i s m H; cbn [month_lookup] in H; [discriminate|]. destruct (bytes_eqb_spec (map lower (firstn 3 s)) n) as [E|_].
  - exists 0%nat, n. split; [reflexivity|]. split; [assert (i = m) by congruence; lia|exact E].
  - destruct (IH _ _ _ H) as (k & n' & H1 & -> & H2). exists (S k), n'. split; [exact H1|]. split; [lia|exact H2].
Qed.
Lemma month_lookup_ok names : NoDup names -> forall i s k n, nth_error names k = Some n -> map lower (firstn 3 s) = n -> month_lookup names i s = Some (i + Z.of_nat k).
Proof.
  induction 1 as [|x names Hx Hnd IH]; intros i s k n Hk E; [destruct k; discriminate|]. cbn [month_lookup]. destruct k as [|k]; cbn [nth_error] in Hk.
  - assert (x = n) as -> by congruence. rewrite E, bytes_eqb_refl. f_equal. lia.
  - destruct (bytes_eqb_spec (map lower (firstn 3 s)) x) as [E'|_].
    + exfalso. apply Hx. rewrite <- E', E. exact (nth_error_In _ _ Hk).
    + rewrite (IH (i + 1) s k n Hk E). f_equal. lia.
Qed.

Lemma names_letters : Forall (fun n => length n = 3%nat /\ Forall (fun x => 97 <= x <= 122)%N n) month_names.
Proof. repeat (apply Forall_cons || apply Forall_nil); (split; [reflexivity|]); repeat (apply Forall_cons || apply Forall_nil); split; discriminate. Qed.
Lemma names_nodup : NoDup month_names.
Proof. repeat (apply NoDup_cons; [vm_compute; intuition discriminate|]). apply NoDup_nil. Qed.

Lemma F2_length {A B} (R : A -> B -> Prop) l l' : Forall2 R l l' -> length l = length l'.
Proof. induction 1; cbn; congruence. Qed.
Lemma month_iff s m : month_lookup month_names 1 s = Some m <-> exists name r, s = name ++ r /\ month_word name m.
Proof.
  split.
  - intros H. apply month_lookup_spec in H as (k & n & Hk & -> & E). exists (firstn 3 s), (skipn 3 s). split; [symmetry; apply firstn_skipn|].
    assert (Hlt : (k < 12)%nat) by (change 12%nat with (length month_names); apply nth_error_Some; congruence).
    split; [lia|]. replace (Z.to_nat (1 + Z.of_nat k - 1)) with k by lia. change (nth k _ []) with (nth k month_names []). rewrite (nth_error_nth _ _ _ Hk).
    apply lower_name; [|exact E]. pose proof names_letters as Hl. rewrite Forall_forall in Hl. exact (proj2 (Hl n (nth_error_In _ _ Hk))).
  - intros (name & r & -> & Hm & Hf). set (k := Z.to_nat (m - 1)) in *.
    destruct (nth_error month_names k) as [n|] eqn:Ek; [|apply nth_error_None in Ek; cbn in Ek; lia].
    change (nth k _ []) with (nth k month_names []) in Hf. rewrite (nth_error_nth _ _ _ Ek) in Hf. pose proof names_letters as Hl. rewrite Forall_forall in Hl.
    destruct (Hl n (nth_error_In _ _ Ek)) as [L3 La]. replace m with (1 + Z.of_nat k) by lia. apply (month_lookup_ok _ names_nodup 1 _ k n Ek).
    assert (Ln : length name = 3%nat) by (rewrite <- L3; exact (F2_length _ _ _ Hf)). rewrite <- Ln, firstn_app, firstn_all, Nat.sub_diag, app_nil_r. apply lower_name; assumption.
Qed.

Lemma month_word_length name m : month_word name m -> length name = 3%nat.
Proof.
  intros [Hm Hf]. apply F2_length in Hf. set (k := Z.to_nat (m - 1)) in *. change (nth k _ []) with (nth k month_names []) in Hf.
  destruct (nth_error month_names k) as [n|] eqn:Ek; [|apply nth_error_None in Ek; cbn in Ek; lia]. rewrite (nth_error_nth _ _ _ Ek) in Hf.
  pose proof names_letters as Hl. rewrite Forall_forall in Hl. destruct (Hl n (nth_error_In _ _ Ek)) as [L3 _]. congruence.
Qed.

Lemma parse_stamp_clk s : parse_stamp s =
  (opt mo <- month_lookup month_names 1 s; opt s <- skip_space (skipn 3 s);
   let s := match s with c :: r => if N.eqb c SP then r else s | [] => s end in
   opt (d, s) <- getnum s false; opt s <- skip_space s; opt (h, mi, se, s) <- clk s;
   let '(ns, s) := parse_frac s in
   match s with
   | _ :: _ => None
   | [] => if (d <? 1)%Z || (days_in mo 0 <? d)%Z then None
           else Some {| c_year := 0; c_month := mo; c_day := d; c_hour := h; c_min := mi; c_sec := se; c_nsec := ns; c_off := 0 |}
   end).
Proof.
  unfold parse_stamp, clk. destruct (month_lookup month_names 1 s); [|reflexivity]. destruct (skip_space (skipn 3 s)) as [s0|]; [|reflexivity]. cbv zeta.
  destruct (getnum _ false) as [[d s4]|]; [|reflexivity]. destruct (skip_space s4) as [s5|]; [|reflexivity].
  destruct (getnum s5 false) as [[h s6]|]; [|reflexivity]. destruct (24 <=? h); [reflexivity|]. destruct (expect 58 s6) as [s7|]; [|reflexivity].
  destruct (getnum s7 true) as [[mi s8]|]; [|reflexivity]. destruct (60 <=? mi); [reflexivity|]. destruct (expect 58 s8) as [s9|]; [|reflexivity].
  destruct (getnum s9 true) as [[se s10]|]; [|reflexivity]. destruct (60 <=? se); reflexivity.
Qed.

Lemma first_digit ds n r : number 1 ds n \/ number 2 ds n -> exists c r', ds ++ r = c :: r' /\ is_digit c = true.
Proof. intros [H|H]; [apply number_1_inv in H as (a & -> & Ha & _)|apply number_2_inv in H as (a & b & -> & Ha & _)]; cbn; eauto. Qed.
Lemma digit_no_space c r : is_digit c = true -> no_space (c :: r).
Proof. intros H E. apply digit_range in H. cbn in E. lia. Qed.

Lemma parse_stamp_iff s c : parse_stamp s = Some c <->
  bsd_stamp s (c_month c) (c_day c) (c_hour c) (c_min c) (c_sec c) (c_nsec c) /\ c_year c = 0 /\ c_off c = 0.
Proof.
  rewrite parse_stamp_clk. split.
  - destruct (month_lookup month_names 1 s) as [mo|] eqn:E0; [|discriminate]. apply month_iff in E0 as (name & r0 & -> & K0).
    pose proof (month_word_length _ _ K0) as L3. rewrite <- L3, skipn_app, skipn_all, Nat.sub_diag. cbn [app skipn].
    destruct (skip_space r0) as [s1|] eqn:E1; [|discriminate]. cbv zeta.
    destruct s1 as [|x s1]; [discriminate|]. apply skip_space_inv in E1 as (i & -> & Hx); [|discriminate]. cbn in Hx.
    destruct (N.eqb_spec x SP) as [|_]; [contradiction|].
    destruct (getnum (x :: s1) false) as [[d s2]|] eqn:E2; [|discriminate]. apply getnum_free in E2 as (ds & -> & K2).
    destruct (skip_space s2) as [s3|] eqn:E3; [|discriminate]. destruct s3 as [|y s3]; [discriminate|]. apply skip_space_inv in E3 as (j & -> & _); [|discriminate].
    destruct (clk (y :: s3)) as [[[[h mi] se] s4]|] eqn:E4; [|discriminate]. apply clk_iff in E4 as (cl & -> & K4).
    destruct (parse_frac s4) as [ns s5] eqn:E5. destruct s5; [|discriminate]. apply parse_frac_inv in E5 as (f & -> & K5). rewrite app_nil_r.
    destruct (Z.ltb_spec d 1); [discriminate|]. destruct (Z.ltb_spec (days_in mo 0) d); [discriminate|]. intros E. injection E as <-. cbn [c_year c_month c_day c_hour c_min c_sec c_nsec c_off].
    split; [|auto]. exists name, i, ds, j, cl, f, (days_in mo 0). split; [reflexivity|]. split; [exact K0|]. split; [exact K2|]. split; [apply days_in_spec; exact (proj1 K0)|]. split; [lia|]. auto.
  - destruct c as [y mo d h mi se ns off]. cbn [c_year c_month c_day c_hour c_min c_sec c_nsec c_off]. intros [(name & i & ds & j & cl & f & n & -> & K0 & K2 & Hml & Hd & K4 & K5) [-> ->]].
    rewrite (proj2 (month_iff _ mo) (ex_intro _ name (ex_intro _ _ (conj eq_refl K0)))).
    pose proof (month_word_length _ _ K0) as L3. rewrite <- L3, skipn_app, skipn_all, Nat.sub_diag. cbn [app skipn].
    destruct (first_digit ds d (repeat SP (S j) ++ cl ++ f) K2) as (x & r & Ex & Dx). rewrite Ex. rewrite skip_space_ok by (apply digit_no_space; exact Dx). cbv zeta.
    destruct (N.eqb_spec x SP) as [->|_]; [discriminate Dx|]. rewrite <- Ex. rewrite (getnum_free_ok ds d _ K2) by reflexivity.
    pose proof K4 as (hs & ms & ss & Ecl & Hh & _). destruct (first_digit hs h (bs ":" ++ ms ++ bs ":" ++ ss) Hh) as (z & r' & Ez & Dz). rewrite <- Ecl in Ez.
    rewrite skip_space_ok by (rewrite Ez; apply digit_no_space; exact Dz).
    rewrite (proj2 (clk_iff _ h mi se _) (ex_intro _ cl (conj eq_refl K4))).
    rewrite <- (app_nil_r f). rewrite (parse_frac_fwd f ns [] K5 I).
    rewrite (month_length_fun _ _ _ _ Hml (days_in_spec mo 0 (proj1 K0))) in Hd. destruct (Z.ltb_spec d 1); [lia|]. destruct (Z.ltb_spec (days_in mo 0) d); [lia|]. reflexivity.
Qed.

(** ** C88 *)
Lemma clock_range b h mi s : clock b h mi s -> 0 <= h < 24 /\ 0 <= mi < 60 /\ 0 <= s < 60.
Proof.
  assert (P : forall k ds n, number k ds n -> 0 <= n) by (intros k ds n (_ & Hd & ->); exact (proj1 (dv_bound ds Hd))).
  intros (hs & ms & ss & _ & Hh & Hm & Hs & H). pose proof (P _ _ _ Hm). pose proof (P _ _ _ Hs). assert (0 <= h) by (destruct Hh as [X|X]; exact (P _ _ _ X)). lia.
Qed.

Lemma timestamp_time b c : timestamp b c -> civil_of (time_of_civil c) = c.
Proof.
  intros (ys & ms & ds & cl & f & z & n & _ & _ & _ & Hm & _ & Hn & Hd & Hc & _). apply clock_range in Hc as (H1 & H2 & H3).
  rewrite (month_length_fun _ _ _ _ Hn (days_in_spec (c_month c) (c_year c) Hm)) in Hd. apply civil_of_time; assumption.
Qed.

(** the second field of every message Parse returns, whatever the transport: the date and time it
    denotes, or January 1st of the year 1 when it denotes none *)
Theorem C88_timestamp_iff : forall data t eof p rest e, parse data t eof = Val (p, rest, e) -> imm_string p <> [] ->
  exists w1 w2 r ts, imm_string p = w1 ++ bs " " ++ w2 ++ bs " " ++ r /\ word w1 /\ word w2 /\ imm_timestamp p = Val ts /\
    (forall c, timestamp w2 c -> civil_of ts = c) /\
    ((forall c, ~ timestamp w2 c) ->
       civil_of ts = {| c_year := 1; c_month := 1; c_day := 1; c_hour := 0; c_min := 0; c_sec := 0; c_nsec := 0; c_off := 0 |}).
Proof.
  intros data t eof p rest e H Hne. destruct (result_header _ _ _ _ _ _ H Hne) as [(ws & Hh & Hw) _].
  destruct (header_accessors p ws Hh) as (w1 & w2 & w3 & w4 & w5 & w6 & -> & _ & H2 & _). pose proof Hh as (_ & (tail & Hb) & _).
  pose proof (Forall_inv Hw) as W1. pose proof (Forall_inv (Forall_inv_tail Hw)) as W2.
  assert (Hj : exists r, imm_string p = w1 ++ bs " " ++ w2 ++ bs " " ++ r).
  { eexists. unfold imm_string. rewrite Hb. unfold join at 1; cbn [concat map app]; rewrite <- ?app_assoc; cbn [app]. reflexivity. }
  destruct Hj as [r Hj]. exists w1, w2, r, (time_parse w2). split; [exact Hj|]. split; [exact W1|]. split; [exact W2|]. split; [exact H2|]. unfold time_parse. split.
  - intros c Hc. rewrite (proj2 (parse_civil_iff w2 c) Hc). exact (timestamp_time _ _ Hc).
  - intros Hno. destruct (parse_civil w2) as [c|] eqn:E; [destruct (Hno c); apply parse_civil_iff; exact E|]. vm_compute. reflexivity.
Qed.
Print Assumptions C88_timestamp_iff.

(** a field denotes at most one date *)
Theorem C88_unambiguous : forall b c c', timestamp b c -> timestamp b c' -> c = c'.
Proof. intros b c c' H H'. apply parse_civil_iff in H. apply parse_civil_iff in H'. congruence. Qed.
Print Assumptions C88_unambiguous.

Lemma stamp_day y mo d h mi s ns : 1 <= mo <= 12 -> 1 <= d <= days_in mo 0 -> 0 <= h < 24 -> 0 <= mi < 60 -> 0 <= s < 60 ->
  let c := civil_of (time_of_civil {| c_year := y; c_month := mo; c_day := d; c_hour := h; c_min := mi; c_sec := s; c_nsec := ns; c_off := 0 |}) in
  c = (if (mo =? 2) && (d =? 29) && negb (is_leap y)
       then {| c_year := y; c_month := 3; c_day := 1; c_hour := h; c_min := mi; c_sec := s; c_nsec := ns; c_off := 0 |}
       else {| c_year := y; c_month := mo; c_day := d; c_hour := h; c_min := mi; c_sec := s; c_nsec := ns; c_off := 0 |}).
Proof.
  intros Hmo Hd Hh Hmi Hs c. subst c.
  assert (Hdd : days_in mo y = if (mo =? 2) && negb (is_leap y) then 28 else days_in mo 0).
  { unfold days_in. change (is_leap 0) with true. destruct (mo =? 2); [|reflexivity]. destruct (is_leap y); reflexivity. }
  destruct ((mo =? 2) && (d =? 29) && negb (is_leap y)) eqn:E.
  - apply andb_true_iff in E as [E El]. apply andb_true_iff in E as [E1 E2]. apply Z.eqb_eq in E1, E2. apply negb_true_iff in El. subst mo d.
    rewrite <- (civil_of_time {| c_year := y; c_month := 3; c_day := 1; c_hour := h; c_min := mi; c_sec := s; c_nsec := ns; c_off := 0 |});
      [|cbn [c_month c_day c_year c_hour c_min c_sec]; try (change (days_in 3 y) with 31); lia..].
    f_equal. unfold time_of_civil. cbn [c_year c_month c_day c_hour c_min c_sec c_nsec c_off]. f_equal. pose proof (dfc_month y 2 ltac:(lia)) as Hf. unfold days_in in Hf. rewrite El in Hf.
    change (2 =? 2) with true in Hf. cbv iota in Hf. change (2 + 1) with 3 in Hf. rewrite Hf. replace 29 with (28 + 1) by lia. rewrite dfc_day. reflexivity.
  - apply civil_of_time; cbn [c_month c_day c_year c_hour c_min c_sec]; try lia. rewrite Hdd.
    destruct (Z.eqb_spec mo 2) as [->|]; [|cbn [andb] in *; lia]. change (days_in 2 0) with 29 in *. cbn [andb] in *. destruct (is_leap y); cbn [negb] in *; [lia|].
    rewrite andb_true_r in E. apply Z.eqb_neq in E. lia.
Qed.

(** Message.Timestamp: every stamp, whatever its form; the year is the current one, the previous one for
    a December stamp seen in January, and February 29th of a common year is March 1st *)
Theorem C88_stamp_iff : forall m now stamp,
  let y mo := picked_year now mo in
  let c := civil_of (m_time (msg_timestamp m now stamp)) in
  (forall mo d h mi s ns, bsd_stamp stamp mo d h mi s ns ->
     (~ (mo = 2 /\ d = 29 /\ ~ leap_year (y mo)) -> c = {| c_year := y mo; c_month := mo; c_day := d; c_hour := h; c_min := mi; c_sec := s; c_nsec := ns; c_off := 0 |}) /\
     (mo = 2 /\ d = 29 /\ ~ leap_year (y mo) -> c = {| c_year := y mo; c_month := 3; c_day := 1; c_hour := h; c_min := mi; c_sec := s; c_nsec := ns; c_off := 0 |})) /\
  ((forall mo d h mi s ns, ~ bsd_stamp stamp mo d h mi s ns) ->
     c = {| c_year := c_year (civil_of now); c_month := 1; c_day := 1; c_hour := 0; c_min := 0; c_sec := 0; c_nsec := 0; c_off := 0 |}).
Proof.
  intros m now stamp y c. split.
  - intros mo d h mi s ns H. pose proof (proj2 (parse_stamp_iff stamp {| c_year := 0; c_month := mo; c_day := d; c_hour := h; c_min := mi; c_sec := s; c_nsec := ns; c_off := 0 |}) (conj H (conj eq_refl eq_refl))) as E.
    subst c. cbn [msg_timestamp m_time]. unfold stamp_to_ts. rewrite E. cbn [c_year c_month c_day c_hour c_min c_sec c_nsec c_off].
    destruct H as (name & i & ds & j & cl & f & n & _ & [Hm _] & _ & Hn & Hd & Hc & _). apply clock_range in Hc as (H1 & H2 & H3).
    rewrite (month_length_fun _ _ _ _ Hn (days_in_spec mo 0 Hm)) in Hd. pose proof (stamp_day (y mo) mo d h mi s ns Hm Hd H1 H2 H3) as Hc. cbv zeta in Hc. fold (picked_year now mo). fold (y mo). rewrite Hc.
    pose proof (is_leap_spec (y mo)) as Hl. split.
    + intros Hnot. destruct (Z.eqb_spec mo 2) as [->|]; [|reflexivity]. destruct (Z.eqb_spec d 29) as [->|]; [|reflexivity]. cbn [andb]. destruct (is_leap (y 2)) eqn:El; [reflexivity|].
      exfalso. apply Hnot. split; [reflexivity|]. split; [reflexivity|]. intros X. apply Hl in X. congruence.
    + intros (-> & -> & X). destruct (is_leap (y 2)) eqn:El; [|reflexivity]. exfalso. apply X, Hl. reflexivity.
  - intros Hno. apply (C75_unparsable m now stamp). destruct (parse_stamp stamp) as [x|] eqn:E; [|reflexivity]. apply parse_stamp_iff in E as [E _]. destruct (Hno _ _ _ _ _ _ E).
Qed.
Print Assumptions C88_stamp_iff.

(** ** RFC 5424, 6.2.3 *)
Definition rfc5424_timestamp (b : bytes) (c : civil) : Prop :=
  exists ys ms ds hs mis ss f z n, b = ys ++ bs "-" ++ ms ++ bs "-" ++ ds ++ bs "T" ++ hs ++ bs ":" ++ mis ++ bs ":" ++ ss ++ f ++ z /\
    number 4 ys (c_year c) /\ number 2 ms (c_month c) /\ 1 <= c_month c <= 12 /\
    number 2 ds (c_day c) /\ month_length (c_year c) (c_month c) n /\ 1 <= c_day c <= n /\
    number 2 hs (c_hour c) /\ c_hour c <= 23 /\ number 2 mis (c_min c) /\ c_min c <= 59 /\ number 2 ss (c_sec c) /\ c_sec c <= 59 /\
    ((f = [] /\ c_nsec c = 0) \/ exists fd v, f = bs "." ++ fd /\ (1 <= length fd <= 6)%nat /\ number (length fd) fd v /\ c_nsec c = v * 10 ^ (9 - Z.of_nat (length fd))) /\
    ((z = bs "Z" /\ c_off c = 0) \/
     exists zh zm h mi, number 2 zh h /\ h <= 23 /\ number 2 zm mi /\ mi <= 59 /\
       ((z = bs "+" ++ zh ++ bs ":" ++ zm /\ c_off c = (h * 60 + mi) * 60) \/ (z = bs "-" ++ zh ++ bs ":" ++ zm /\ c_off c = - ((h * 60 + mi) * 60)))).

(** everything RFC 5424 calls a timestamp is understood *)
Theorem C88_rfc5424 : forall b c, rfc5424_timestamp b c -> timestamp b c.
Proof.
  intros b c (ys & ms & ds & hs & mis & ss & f & z & n & -> & Hy & Hm & Hmr & Hd & Hn & Hdr & Hh & Hhr & Hmi & Hmir & Hs & Hsr & Hf & Hz).
  exists ys, ms, ds, (hs ++ bs ":" ++ mis ++ bs ":" ++ ss), f, z, n. split; [rewrite <- !app_assoc; reflexivity|]. do 6 (split; [assumption|]).
  split. { exists hs, mis, ss. split; [reflexivity|]. split; [right; exact Hh|]. split; [exact Hmi|]. split; [exact Hs|]. lia. }
  split.
  - destruct Hf as [Hf|(fd & v & -> & Hl & (_ & Hdg & ->) & ->)]; [left; exact Hf|right]. exists fd. split; [left; reflexivity|]. split; [intros ->; cbn in Hl; lia|]. split; [exact Hdg|].
    assert (E : 10 ^ 9 = 10 ^ (9 - Z.of_nat (length fd)) * 10 ^ Z.of_nat (length fd)) by (rewrite <- Z.pow_add_r by lia; f_equal; lia).
    rewrite E, Z.mul_assoc, Z.div_mul by (apply Z.pow_nonzero; lia). reflexivity.
  - destruct Hz as [Hz|(zh & zm & h & mi & Hzh & Hhl & Hzm & Hml & Hc)]; [left; exact Hz|right]. exists zh, zm, h, mi. split; [exact Hzh|]. split; [exact Hzm|]. split; [lia|]. split; [lia|exact Hc].
Qed.
Print Assumptions C88_rfc5424.

(** but more is: one digit hours, a comma, nine and more digits, offsets up to 24:60 *)
Theorem C88_rfc5424_only_refuted : let b := bs "2003-08-24T5:14:15,1234567891+24:60" in
  parse_civil b = Some {| c_year := 2003; c_month := 8; c_day := 24; c_hour := 5; c_min := 14; c_sec := 15; c_nsec := 123456789; c_off := 90000 |} /\
  forall c, ~ rfc5424_timestamp b c.
Proof.
  split; [vm_compute; reflexivity|]. intros c (ys & ms & ds & hs & mis & ss & f & z & n & E & Hy & Hm & Hmr & Hd & Hn & Hdr & Hh & _).
  destruct Hy as (Ly & _ & _), Hm as (Lm & _ & _), Hd as (Ld & _ & _), Hh as (Lh & Hh & _).
  destruct ys as [|y1 [|y2 [|y3 [|y4 [|]]]]]; try discriminate Ly. destruct ms as [|m1 [|m2 [|]]]; try discriminate Lm. destruct ds as [|d1 [|d2 [|]]]; try discriminate Ld.
  destruct hs as [|h1 [|h2 [|]]]; try discriminate Lh.
  assert (E2 : nth 12 (bs "2003-08-24T5:14:15,1234567891+24:60") 0%N = h2) by (rewrite E; reflexivity). vm_compute in E2. subst h2. specialize (Hh 58%N (or_intror (or_introl eq_refl))). lia.
Qed.
Print Assumptions C88_rfc5424_only_refuted.

Lemma no_timestamp b : parse_civil b = None -> forall c, ~ timestamp b c.
Proof. intros H c Hc. apply parse_civil_iff in Hc. congruence. Qed.
Lemma no_stamp b : parse_stamp b = None -> forall mo d h mi s ns, ~ bsd_stamp b mo d h mi s ns.
Proof.
  intros H mo d h mi s ns Hc.
  pose proof (proj2 (parse_stamp_iff b {| c_year := 0; c_month := mo; c_day := d; c_hour := h; c_min := mi; c_sec := s; c_nsec := ns; c_off := 0 |}) (conj Hc (conj eq_refl eq_refl))). congruence.
Qed.

(** RFC 5424's examples 1, 2 and 4; its NILVALUE, a leap second and lower case letters denote nothing *)
Example C88_nonvacuous :
  timestamp (bs "1985-04-12T23:20:50.52Z") {| c_year := 1985; c_month := 4; c_day := 12; c_hour := 23; c_min := 20; c_sec := 50; c_nsec := 520000000; c_off := 0 |} /\
  timestamp (bs "1985-04-12T19:20:50.52-04:00") {| c_year := 1985; c_month := 4; c_day := 12; c_hour := 19; c_min := 20; c_sec := 50; c_nsec := 520000000; c_off := -14400 |} /\
  timestamp (bs "2003-08-24T05:14:15.000003-07:00") {| c_year := 2003; c_month := 8; c_day := 24; c_hour := 5; c_min := 14; c_sec := 15; c_nsec := 3000; c_off := -25200 |} /\
  Forall (fun b => forall c, ~ timestamp b c) [bs "-"; bs "1985-04-12T23:59:60Z"; bs "1985-04-12t23:59:50Z"; bs "1985-04-12T23:59:50z"; bs "1985-02-29T23:59:50Z"; bs "1985-04-12T23:59:50"; bs "1985-04-12T23:59:50.Z"] /\
  bsd_stamp (bs "dEC    3  4:05:06.5") 12 3 4 5 6 500000000 /\
  Forall (fun b => forall mo d h mi s ns, ~ bsd_stamp b mo d h mi s ns) [bs "Dec 32 04:05:06"; bs "Feb 30 04:05:06"; bs "3 Dec 04:05:06"; bs "Dec 3 4:05"].
Proof.
  do 3 (split; [apply parse_civil_iff; vm_compute; reflexivity|]).
  split; [repeat (apply Forall_cons || apply Forall_nil); apply no_timestamp; vm_compute; reflexivity|]. split.
  - exact (proj1 (proj1 (parse_stamp_iff (bs "dEC    3  4:05:06.5") {| c_year := 0; c_month := 12; c_day := 3; c_hour := 4; c_min := 5; c_sec := 6; c_nsec := 500000000; c_off := 0 |}) ltac:(vm_compute; reflexivity))).
  - repeat (apply Forall_cons || apply Forall_nil); apply no_stamp; vm_compute; reflexivity.
Qed.

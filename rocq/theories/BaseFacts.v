(** BaseFacts.v -- lemmas about the Go primitives of Base.v. *)
From Verif Require Import Base.
From Coq Require Import ZifyBool ZifyNat ZifyN.
From Coq Require DecimalN DecimalPos DecimalFacts.

Ltac inv H := inversion H; subst; clear H.

Lemma bytes_eqb_spec a b : reflect (a = b) (bytes_eqb a b).
Proof.
  revert b; induction a as [|x a IH]; intros [|y b]; cbn [bytes_eqb]; try (constructor; congruence).
  destruct (N.eqb_spec x y) as [->|Hxy]; cbn [andb].
  - destruct (IH b) as [->|Hab]; constructor; congruence.
  - constructor; congruence.
Qed.

Lemma bytes_eqb_refl a : bytes_eqb a a = true.
Proof. destruct (bytes_eqb_spec a a); congruence. Qed.

Lemma bytes_eqb_eq a b : bytes_eqb a b = true <-> a = b.
Proof. destruct (bytes_eqb_spec a b); split; congruence. Qed.

(** ** index_byte *)
Lemma index_byte_app_notin c w r :
  ~ In c w -> index_byte c (w ++ c :: r) = Some (length w).
Proof.
  induction w as [|x w IH]; intros H; cbn [app index_byte length].
  - rewrite N.eqb_refl; reflexivity.
  - destruct (N.eqb_spec x c) as [->|Hx]; [exfalso; apply H; left; reflexivity|].
    rewrite IH; [reflexivity|]. intros Hc; apply H; right; exact Hc.
Qed.

Lemma index_byte_none c l : index_byte c l = None <-> ~ In c l.
Proof.
  induction l as [|x l IH]; cbn [index_byte]; [split; [intros _ []|reflexivity]|].
  destruct (N.eqb_spec x c) as [->|Hx].
  - split; [discriminate|]. intros H; exfalso; apply H; left; reflexivity.
  - destruct (index_byte c l) as [i|]; cbn [option_map].
    + split; [discriminate|]. intros H. exfalso.
      destruct IH as [_ IH]. discriminate IH. intros Hc; apply H; right; exact Hc.
    + split; [|reflexivity]. intros _ [Hc|Hc]; [congruence|]. apply IH in Hc; [exact Hc|reflexivity].
Qed.

Lemma index_byte_some c l i :
  index_byte c l = Some i -> exists w r, l = w ++ c :: r /\ length w = i /\ ~ In c w.
Proof.
  revert i; induction l as [|x l IH]; cbn [index_byte]; intros i H; [discriminate|].
  destruct (N.eqb_spec x c) as [->|Hx].
  - inv H. exists [], l. repeat split; auto.
  - destruct (index_byte c l) as [j|]; cbn [option_map] in H; [|discriminate]. inv H.
    destruct (IH j eq_refl) as (w & r & -> & Hl & Hn).
    exists (x :: w), r. cbn. repeat split; [congruence|]. intros [Hc|Hc]; [congruence|auto].
Qed.

Lemma index_byte_app_l c a b i : index_byte c a = Some i -> index_byte c (a ++ b) = Some i.
Proof.
  intros H. apply index_byte_some in H as (w & r & -> & <- & Hn).
  rewrite <- app_assoc. cbn. apply index_byte_app_notin; exact Hn.
Qed.

Lemma index_byte_app_none c a b :
  ~ In c a -> index_byte c (a ++ b) = option_map (fun i => length a + i) (index_byte c b).
Proof.
  intros H. induction a as [|x a IH]; cbn [app index_byte length].
  - destruct (index_byte c b); reflexivity.
  - destruct (N.eqb_spec x c) as [->|Hx]; [exfalso; apply H; left; reflexivity|].
    rewrite IH by (intros Hc; apply H; right; exact Hc).
    destruct (index_byte c b); reflexivity.
Qed.

Lemma skipn_app_exact {A} (a b : list A) : skipn (length a) (a ++ b) = b.
Proof. rewrite skipn_app, skipn_all, Nat.sub_diag; reflexivity. Qed.

Lemma firstn_app_exact {A} (a b : list A) : firstn (length a) (a ++ b) = a.
Proof. rewrite firstn_app, firstn_all, Nat.sub_diag, app_nil_r; reflexivity. Qed.

Lemma go_from_val b lo : (lo <= length b)%nat -> go_from b lo = Val (skipn lo b).
Proof. intros H. unfold go_from. destruct (Nat.leb_spec lo (length b)); [reflexivity|lia]. Qed.

Lemma go_slice_val b lo hi :
  (lo <= hi)%nat -> (hi <= length b)%nat -> go_slice b lo hi = Val (firstn (hi - lo) (skipn lo b)).
Proof.
  intros H1 H2. unfold go_slice.
  destruct (Nat.leb_spec lo hi); [|lia]. destruct (Nat.leb_spec hi (length b)); [reflexivity|lia].
Qed.

Lemma go_slice_app a b c : go_slice (a ++ b ++ c) (length a) (length a + length b) = Val b.
Proof.
  rewrite go_slice_val by (rewrite ?app_length; lia).
  rewrite skipn_app_exact. replace (length a + length b - length a)%nat with (length b) by lia.
  rewrite firstn_app_exact. reflexivity.
Qed.

Lemma go_at_app a x b : go_at (a ++ x :: b) (length a) = Val x.
Proof. unfold go_at. rewrite nth_error_app2, Nat.sub_diag by lia. reflexivity. Qed.

(** ** decimal *)
Definition digits_value (l : bytes) (n : Z) : Z :=
  fold_left (fun acc c => (acc * 10 + Z.of_N (c - C0))%Z) l n.

Lemma digits_value_app a b n : digits_value (a ++ b) n = digits_value b (digits_value a n).
Proof. apply fold_left_app. Qed.

Lemma digits_value_mono l : forall n, (0 <= n)%Z -> (n <= digits_value l n)%Z.
Proof.
  induction l as [|c l IH]; intros n Hn; cbn [digits_value fold_left]; [lia|].
  change (n <= digits_value l (n * 10 + Z.of_N (c - C0)))%Z.
  specialize (IH (n * 10 + Z.of_N (c - C0))%Z). lia.
Qed.

Lemma uint_bytes_digits u : Forall (fun c => is_digit c = true) (uint_bytes u).
Proof. induction u; cbn; constructor; auto. Qed.

Lemma of_uint_acc_value u : forall acc,
  digits_value (uint_bytes u) (Z.pos acc) = Z.pos (Pos.of_uint_acc u acc).
Proof.
  induction u; intros acc; cbn [uint_bytes Pos.of_uint_acc]; [reflexivity|..];
    cbn [digits_value fold_left]; rewrite <- IHu; unfold digits_value; f_equal; lia.
Qed.

Lemma of_uint_value u : digits_value (uint_bytes u) 0 = Z.of_N (N.of_uint u).
Proof.
  unfold N.of_uint.
  induction u; cbn [uint_bytes Pos.of_uint]; try reflexivity;
    cbn [digits_value fold_left].
  - exact IHu.
  - apply (of_uint_acc_value u 1).
  - apply (of_uint_acc_value u 2).
  - apply (of_uint_acc_value u 3).
  - apply (of_uint_acc_value u 4).
  - apply (of_uint_acc_value u 5).
  - apply (of_uint_acc_value u 6).
  - apply (of_uint_acc_value u 7).
  - apply (of_uint_acc_value u 8).
  - apply (of_uint_acc_value u 9).
Qed.

Lemma utoa_value n : digits_value (utoa n) 0 = Z.of_N n.
Proof. unfold utoa. rewrite of_uint_value, DecimalN.Unsigned.of_to. reflexivity. Qed.

Lemma utoa_digits n : Forall (fun c => is_digit c = true) (utoa n).
Proof. apply uint_bytes_digits. Qed.

Lemma utoa_nonnil n : utoa n <> [].
Proof.
  unfold utoa. intros H. assert (Hu : N.to_uint n <> Decimal.Nil).
  { destruct n; cbn; [discriminate|]. apply DecimalPos.Unsigned.to_uint_nonnil. }
  destruct (N.to_uint n); cbn in H; congruence.
Qed.

Lemma to_uint_unorm n : Decimal.unorm (N.to_uint n) = N.to_uint n.
Proof.
  rewrite <- (DecimalN.Unsigned.to_of (N.to_uint n)), DecimalN.Unsigned.of_to. reflexivity.
Qed.

Lemma utoa_no_leading_zero n : n <> 0%N -> exists c l, utoa n = c :: l /\ c <> 48%N.
Proof.
  intros Hn. unfold utoa. pose proof (to_uint_unorm n) as Hu.
  destruct (N.to_uint n) as [|u|u|u|u|u|u|u|u|u|u] eqn:E.
  1: { exfalso. apply (utoa_nonnil n). unfold utoa. rewrite E. reflexivity. }
  2-10: cbn; eexists; eexists; split; [reflexivity|lia].
  exfalso. cbn in Hu.
  unfold Decimal.unorm in Hu. cbn [Decimal.nzhead] in Hu.
  destruct (Decimal.nzhead u) eqn:Ez.
  - inv Hu. apply (f_equal N.of_uint) in E. rewrite DecimalN.Unsigned.of_to in E. cbn in E. congruence.
  - exfalso. revert Hu. pose proof (DecimalFacts.nzhead_nonzero u u0). congruence.
  - congruence. - congruence. - congruence. - congruence. - congruence.
  - congruence. - congruence. - congruence. - congruence.
Qed.

Lemma is_digit_spec c : is_digit c = true <-> (48 <= c <= 57)%N.
Proof. unfold is_digit. lia. Qed.

Lemma parse_uint_loop_digits s : forall n,
  Forall (fun c => is_digit c = true) s -> (0 <= n)%Z -> (digits_value s n <= max_uint64)%Z ->
  parse_uint_loop s n = (digits_value s n, None).
Proof.
  induction s as [|c s IH]; intros n Hd Hn Hv; [reflexivity|].
  inv Hd. cbn [parse_uint_loop]. rewrite H1.
  cbn [digits_value fold_left] in Hv |- *.
  change (fold_left (fun acc c => (acc * 10 + Z.of_N (c - C0))%Z) s (n * 10 + Z.of_N (c - C0))%Z)
    with (digits_value s (n * 10 + Z.of_N (c - C0))%Z) in *.
  pose proof (digits_value_mono s (n * 10 + Z.of_N (c - C0)) ltac:(lia)) as Hm.
  apply is_digit_spec in H1.
  unfold u64_cutoff, max_uint64 in *.
  destruct (Z.leb_spec 1844674407370955162 n); [lia|].
  destruct (Z.ltb_spec 18446744073709551615 (n * 10 + Z.of_N (c - C0))); [lia|].
  apply IH; [assumption|lia|lia].
Qed.

Lemma parse_int_utoa n : (Z.of_N n < 2 ^ 63)%Z -> parse_int (utoa n) = (Z.of_N n, None).
Proof.
  intros Hn. pose proof (utoa_digits n) as Hd. pose proof (utoa_nonnil n) as Hnn.
  pose proof (utoa_value n) as Hv.
  unfold parse_int. destruct (utoa n) as [|c r] eqn:E; [congruence|].
  pose proof (Forall_inv Hd) as Hc. cbv beta in Hc. apply is_digit_spec in Hc.
  destruct (N.eqb_spec c 43); [lia|]. destruct (N.eqb_spec c 45); [lia|].
  cbn [orb negb andb]. unfold parse_uint.
  rewrite parse_uint_loop_digits; [|assumption|lia|rewrite Hv; unfold max_uint64; lia].
  rewrite Hv. destruct (Z.leb_spec (2 ^ 63) (Z.of_N n)); [lia|]. reflexivity.
Qed.

Lemma parse_uint_utoa n : (Z.of_N n <= max_uint64)%Z -> parse_uint (utoa n) = (Z.of_N n, None).
Proof.
  intros Hn. pose proof (utoa_nonnil n) as Hnn.
  assert (H : parse_uint (utoa n) = parse_uint_loop (utoa n) 0)
    by (unfold parse_uint; destruct (utoa n); [congruence|reflexivity]).
  rewrite H, parse_uint_loop_digits, utoa_value;
    [reflexivity|apply utoa_digits|lia|rewrite utoa_value; exact Hn].
Qed.

Lemma atoi_itoa z : (- 2 ^ 63 <= z < 2 ^ 63)%Z -> atoi (itoa z) = Some z.
Proof.
  intros Hz. unfold atoi, itoa. destruct (Z.ltb_spec z 0).
  - unfold parse_int. change (N.eqb 45 43) with false. change (N.eqb 45 45) with true.
    cbn [orb negb andb]. rewrite parse_uint_utoa by (unfold max_uint64; lia).
    destruct (Z.ltb_spec (2 ^ 63) (Z.of_N (Z.to_N (- z)))); [lia|].
    f_equal. lia.
  - rewrite parse_int_utoa by lia. f_equal. lia.
Qed.

Lemma wrap64_id z : (- 2 ^ 63 <= z < 2 ^ 63)%Z -> wrap64 z = z.
Proof. intros H. unfold wrap64. rewrite Z.mod_small; lia. Qed.

Lemma wrap64_range z : (- 2 ^ 63 <= wrap64 z < 2 ^ 63)%Z.
Proof. unfold wrap64. pose proof (Z.mod_pos_bound (z + 2 ^ 63) (2 ^ 64)). lia. Qed.

(** ** misc list facts *)
Lemma in_bs_dec (c : N) (l : bytes) : {In c l} + {~ In c l}.
Proof. apply in_dec, N.eq_dec. Qed.

Lemma split_at {A} (l : list A) i : (i <= length l)%nat ->
  exists a b, l = a ++ b /\ length a = i.
Proof. intros H. exists (firstn i l), (skipn i l). rewrite firstn_skipn, firstn_length. split; [reflexivity|lia]. Qed.

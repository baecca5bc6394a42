(** LPriority.v -- proofs about priority.go and helpers.go. *)
From Verif Require Import Base BaseFacts Spec MPriority MHelpers.
From Coq Require Import ZifyBool ZifyNat ZifyN.

Lemma decimal_utoa n : decimal n = utoa n.
Proof. reflexivity. Qed.

(** Finite sweep over [0..n-1], lifted. *)
Fixpoint zrange (n : nat) : list Z :=
  match n with O => [] | S m => Z.of_nat m :: zrange m end.

Lemma zrange_in n z : (0 <= z < Z.of_nat n)%Z -> In z (zrange n).
Proof.
  induction n as [|n IH]; intros H; [lia|]. cbn [zrange].
  destruct (Z.eq_dec z (Z.of_nat n)); [left; lia|right; apply IH; lia].
Qed.

Lemma sweep (P : Z -> bool) n z :
  forallb P (zrange n) = true -> (0 <= z < Z.of_nat n)%Z -> P z = true.
Proof. intros H Hz. rewrite forallb_forall in H. apply H, zrange_in, Hz. Qed.

Lemma marshal_canonical p : (0 <= p <= 299)%Z ->
  priority_marshal p = bs "<" ++ decimal (Z.to_N p) ++ bs ">1".
Proof.
  intros Hp. apply bytes_eqb_eq.
  apply (sweep (fun p => bytes_eqb (priority_marshal p) (bs "<" ++ decimal (Z.to_N p) ++ bs ">1")) 300);
    [vm_compute; reflexivity|lia].
Qed.

Lemma unmarshal_marshal p old : (0 <= p <= 299)%Z ->
  priority_unmarshal old (priority_marshal p) = Val (p, true).
Proof.
  intros Hp.
  assert (H : match priority_unmarshal old (priority_marshal p) with
              | Val (q, true) => Z.eqb q p | _ => false end = true).
  { apply (sweep (fun p => match priority_unmarshal old (priority_marshal p) with
                           | Val (q, true) => Z.eqb q p | _ => false end) 300);
      [vm_compute; reflexivity|lia]. }
  destruct (priority_unmarshal old (priority_marshal p)) as [[q [|]]| |]; try discriminate.
  apply Z.eqb_eq in H. congruence.
Qed.

(** *** Unmarshal: exact language *)
Lemma unmarshal_digits_spec b : forall tp,
  unmarshal_digits b tp =
  if forallb is_digit b
  then Some (fold_left (fun acc c => (acc * 10 + (Z.of_N c - 48))%Z) b tp) else None.
Proof.
  induction b as [|c b IH]; intros tp; [reflexivity|].
  cbn [unmarshal_digits forallb fold_left].
  destruct (is_digit c) eqn:Hd.
  - apply is_digit_spec in Hd.
    replace ((c <? 48)%N || (57 <? c)%N) with false by lia.
    cbn [andb]. rewrite IH. replace (Z.of_N (c - 48)) with (Z.of_N c - 48)%Z by lia. reflexivity.
  - replace ((c <? 48)%N || (57 <? c)%N) with true by (unfold is_digit in Hd; lia).
    reflexivity.
Qed.

Lemma forallb_digits_spec b : forallb is_digit b = true <-> all_digits b.
Proof.
  unfold all_digits. rewrite forallb_forall. split; intros H c Hc;
    specialize (H c Hc); apply is_digit_spec; exact H.
Qed.

Lemma unmarshal_accepts old ds :
  (1 <= length ds <= 3)%nat -> all_digits ds ->
  priority_unmarshal old (bs "<" ++ ds ++ bs ">1") = Val (decimal_value ds, true).
Proof.
  intros Hl Hd. unfold priority_unmarshal.
  change (bs "<") with [LT]. change (bs ">1") with [GT; C1].
  rewrite !app_length. cbn [length].
  destruct (Nat.ltb_spec (1 + (length ds + 2)) 4); [lia|].
  destruct (Nat.ltb_spec 6 (1 + (length ds + 2))); [lia|].
  change ([LT] ++ ds ++ [GT; C1]) with (LT :: ds ++ [GT; C1]).
  cbn [bind go_at nth_error]. change (N.eqb 60 60) with true. cbn [negb].
  replace (go_at (LT :: ds ++ [GT; C1]) (1 + (length ds + 2) - 1)) with (Val C1).
  2: { unfold go_at. replace (1 + (length ds + 2) - 1)%nat with (S (length ds + 1)) by lia.
       cbn [nth_error]. rewrite nth_error_app2 by lia.
       replace (length ds + 1 - length ds)%nat with 1%nat by lia. reflexivity. }
  cbn [bind]. change (N.eqb 49 49) with true. cbn [negb].
  replace (go_at (LT :: ds ++ [GT; C1]) (1 + (length ds + 2) - 2)) with (Val GT).
  2: { unfold go_at. replace (1 + (length ds + 2) - 2)%nat with (S (length ds)) by lia.
       cbn [nth_error]. rewrite nth_error_app2 by lia. rewrite Nat.sub_diag. reflexivity. }
  cbn [bind]. change (N.eqb 62 62) with true. cbn [negb].
  replace (go_slice (LT :: ds ++ [GT; C1]) 1 (1 + (length ds + 2) - 2)) with (Val ds).
  2: { pose proof (go_slice_app [LT] ds [GT; C1]) as Hs. cbn [length app] in Hs.
       rewrite <- Hs. f_equal. lia. }
  cbn [bind]. rewrite unmarshal_digits_spec.
  apply forallb_digits_spec in Hd. rewrite Hd. reflexivity.
Qed.

Lemma unmarshal_total old d : exists q ok, priority_unmarshal old d = Val (q, ok) /\
  (ok = true -> exists ds, d = bs "<" ++ ds ++ bs ">1" /\ (1 <= length ds <= 3)%nat /\
                           all_digits ds /\ q = decimal_value ds) /\
  (ok = false -> q = old).
Proof.
  unfold priority_unmarshal.
  destruct (Nat.ltb_spec (length d) 4) as [H4|H4]; [exists old, false; repeat split; congruence|].
  destruct (Nat.ltb_spec 6 (length d)) as [H6|H6]; [exists old, false; repeat split; congruence|].
  destruct (split_at d 1 ltac:(lia)) as (a & t & -> & Ha).
  destruct a as [|x [|]]; try discriminate. rewrite app_length in *. cbn [length app] in *.
  destruct (split_at t (length t - 2) ltac:(lia)) as (ds & t' & -> & Hds).
  rewrite app_length in *.
  assert (length t' = 2%nat) by lia.
  destruct t' as [|y [|z [|]]]; try discriminate. cbn [length] in *.
  cbn [go_at nth_error bind].
  destruct (N.eqb_spec x 60) as [->|Hx]; cbn [negb]; [|exists old, false; repeat split; congruence].
  replace (go_at (60%N :: ds ++ [y; z]) (1 + (length ds + 2) - 1)) with (Val z).
  2: { unfold go_at. replace (1 + (length ds + 2) - 1)%nat with (S (length ds + 1)) by lia.
       cbn [nth_error]. rewrite nth_error_app2 by lia.
       replace (length ds + 1 - length ds)%nat with 1%nat by lia. reflexivity. }
  cbn [bind].
  destruct (N.eqb_spec z 49) as [->|Hz]; cbn [negb]; [|exists old, false; repeat split; congruence].
  replace (go_at (60%N :: ds ++ [y; 49%N]) (1 + (length ds + 2) - 2)) with (Val y).
  2: { unfold go_at. replace (1 + (length ds + 2) - 2)%nat with (S (length ds)) by lia.
       cbn [nth_error]. rewrite nth_error_app2 by lia. rewrite Nat.sub_diag. reflexivity. }
  cbn [bind].
  destruct (N.eqb_spec y 62) as [->|Hy]; cbn [negb]; [|exists old, false; repeat split; congruence].
  replace (go_slice (60%N :: ds ++ [62%N; 49%N]) 1 (1 + (length ds + 2) - 2)) with (Val ds).
  2: { pose proof (go_slice_app [60%N] ds [62%N; 49%N]) as Hs. cbn [length app] in Hs.
       rewrite <- Hs. f_equal. lia. }
  cbn [bind]. rewrite unmarshal_digits_spec.
  destruct (forallb is_digit ds) eqn:Hd.
  - eexists; exists true; split; [reflexivity|]. split; [|congruence]. intros _.
    exists ds. apply forallb_digits_spec in Hd. split; [reflexivity|]. split; [lia|]. split; [exact Hd|reflexivity].
  - exists old, false; repeat split; congruence.
Qed.

(** *** Facility / severity *)
Lemma facility_severity_split p : (0 <= p <= 255)%Z ->
  Z.lor (priority_facility p) (priority_severity p) = p /\
  (priority_facility p + priority_severity p = p)%Z /\
  priority_severity p = (p mod 8)%Z /\ priority_facility p = (8 * (p / 8))%Z.
Proof.
  intros Hp.
  assert (H : (Z.lor (priority_facility p) (priority_severity p) =? p)%Z &&
    (priority_facility p + priority_severity p =? p)%Z &&
    (priority_severity p =? p mod 8)%Z && (priority_facility p =? 8 * (p / 8))%Z = true).
  { apply (sweep (fun p => (Z.lor (priority_facility p) (priority_severity p) =? p)%Z &&
    (priority_facility p + priority_severity p =? p)%Z &&
    (priority_severity p =? p mod 8)%Z && (priority_facility p =? 8 * (p / 8))%Z) 256);
      [vm_compute; reflexivity|lia]. }
  lia.
Qed.

Lemma severity_mod p : priority_severity p = (p mod 8)%Z.
Proof. unfold priority_severity, severity_mask. change 7%Z with (Z.ones 3). apply Z.land_ones. lia. Qed.

Lemma severity_range p : (0 <= priority_severity p < 8)%Z.
Proof. rewrite severity_mod. apply Z.mod_pos_bound. lia. Qed.

Lemma facility_shift p : priority_facility p = (8 * (p / 8 mod 32))%Z.
Proof.
  unfold priority_facility, facility_mask.
  change 248%Z with (Z.shiftl (Z.ones 5) 3).
  change 32%Z with (2 ^ 5)%Z. rewrite <- Z.land_ones by lia.
  change 8%Z with (2 ^ 3)%Z. rewrite <- (Z.shiftr_div_pow2 p 3) by lia.
  rewrite Z.mul_comm, <- Z.shiftl_mul_pow2 by lia.
  rewrite Z.shiftl_land, <- Z.ldiff_ones_r by lia.
  apply Z.bits_inj'. intros n Hn. rewrite !Z.land_spec, Z.ldiff_spec.
  destruct (Z.testbit (Z.shiftl (Z.ones 5) 3) n) eqn:E; [|rewrite !andb_false_r; reflexivity].
  rewrite !andb_true_r. rewrite Z.shiftl_spec in E by lia.
  destruct (Z.testbit (Z.ones 3) n) eqn:E3; [|rewrite andb_true_r; reflexivity].
  exfalso. destruct (Z.ltb_spec n 3).
  - rewrite Z.testbit_neg_r in E by lia. discriminate.
  - rewrite Z.ones_spec_high in E3 by lia. discriminate.
Qed.

Lemma lor_facility_severity f s : (0 <= s < 8)%Z -> Z.lor (8 * f) s = (8 * f + s)%Z.
Proof.
  intros Hs.
  assert (Hl : Z.land (8 * f) s = 0%Z).
  { apply Z.bits_inj'. intros n Hn. rewrite Z.land_spec, Z.bits_0.
    destruct (Z.ltb_spec n 3).
    - change 8%Z with (2 ^ 3)%Z. rewrite Z.mul_comm, Z.mul_pow2_bits_low by lia. reflexivity.
    - destruct (Z.eq_dec s 0) as [->|Hz]; [rewrite Z.bits_0, andb_false_r; reflexivity|].
      rewrite (Z.bits_above_log2 s n); [apply andb_false_r|lia|].
      assert (Z.log2 s < 3)%Z by (apply Z.log2_lt_pow2; lia). lia. }
  rewrite <- Z.lxor_lor by exact Hl. rewrite <- Z.add_nocarry_lxor by exact Hl. reflexivity.
Qed.

Lemma facility_of_pair f s : (0 <= f < 32)%Z -> (0 <= s < 8)%Z ->
  priority_facility (Z.lor (8 * f) s) = (8 * f)%Z /\ priority_severity (Z.lor (8 * f) s) = s.
Proof.
  intros Hf Hs. rewrite lor_facility_severity by lia.
  rewrite facility_shift, severity_mod.
  replace ((8 * f + s) / 8)%Z with f by (Z.div_mod_to_equations; lia).
  rewrite Z.mod_small by lia. split; [lia|]. Z.div_mod_to_equations; lia.
Qed.

(** *** String *)
Lemma priority_string_spec p :
  priority_string p =
  match nth_error facility_string (Z.to_nat (p / 8 mod 32)), nth_error severity_names (Z.to_nat (p mod 8)) with
  | Some f, Some s => Val (f ++ bs "." ++ s)
  | _, _ => Panic
  end.
Proof.
  unfold priority_string. rewrite facility_shift, severity_mod.
  replace (Z.shiftr (8 * (p / 8 mod 32)) 3) with (p / 8 mod 32)%Z.
  2: { rewrite Z.shiftr_div_pow2 by lia. change (2 ^ 3)%Z with 8%Z.
       rewrite Z.mul_comm, Z.div_mul by lia. reflexivity. }
  destruct (nth_error facility_string _); reflexivity.
Qed.

Lemma facility_string_length : length facility_string = 24%nat.
Proof. reflexivity. Qed.

Lemma severity_nth s : (0 <= s < 8)%Z -> exists x, nth_error severity_names (Z.to_nat s) = Some x.
Proof.
  intros H. destruct (nth_error severity_names (Z.to_nat s)) eqn:E; [eauto|].
  apply nth_error_None in E. cbn in E. lia.
Qed.

Lemma priority_string_total p :
  (p / 8 mod 32 < 24)%Z -> exists s, priority_string p = Val s.
Proof.
  intros H. rewrite priority_string_spec.
  destruct (nth_error facility_string (Z.to_nat (p / 8 mod 32))) as [f|] eqn:E.
  2: { apply nth_error_None in E. rewrite facility_string_length in E.
       pose proof (Z.mod_pos_bound (p / 8) 32). lia. }
  destruct (severity_nth (p mod 8)) as [x ->]; [apply Z.mod_pos_bound; lia|]. eauto.
Qed.

Lemma priority_string_panics p :
  (24 <= p / 8 mod 32)%Z -> priority_string p = Panic.
Proof.
  intros H. rewrite priority_string_spec.
  replace (nth_error facility_string (Z.to_nat (p / 8 mod 32))) with (@None bytes); [reflexivity|].
  symmetry. apply nth_error_None. rewrite facility_string_length. lia.
Qed.

(** *** Set *)
Lemma lookup_in m k v : lookup m k = Some v -> In (k, v) m.
Proof.
  induction m as [|[k' v'] m IH]; cbn [lookup]; [discriminate|].
  destruct (bytes_eqb_spec k' k) as [->|Hk]; intros H; [inv H; left; reflexivity|right; auto].
Qed.

Lemma in_lookup m k v : NoDup (map fst m) -> In (k, v) m -> lookup m k = Some v.
Proof.
  induction m as [|[k' v'] m IH]; cbn [lookup map fst]; [intros _ []|].
  intros Hn [He|Hi]; inv Hn.
  - inv He. rewrite bytes_eqb_refl. reflexivity.
  - destruct (bytes_eqb_spec k' k) as [->|Hk]; [|auto].
    exfalso. apply H1. apply (in_map fst) in Hi. exact Hi.
Qed.

Fixpoint nodupb (l : list bytes) : bool :=
  match l with [] => true | x :: r => negb (existsb (bytes_eqb x) r) && nodupb r end.
Lemma nodupb_sound l : nodupb l = true -> NoDup l.
Proof.
  induction l as [|x l IH]; cbn [nodupb]; intros H; constructor.
  - intros Hx. apply andb_true_iff in H as [H _]. apply negb_true_iff in H.
    assert (existsb (bytes_eqb x) l = true); [|congruence].
    apply existsb_exists. exists x. split; [exact Hx|apply bytes_eqb_refl].
  - apply IH. apply andb_true_iff in H as [_ H]. exact H.
Qed.

Lemma facility_map_numbers : facility_map = map (fun kv => (fst kv, (8 * snd kv)%Z)) facility_numbers.
Proof. reflexivity. Qed.

Lemma lookup_facility k v :
  lookup facility_map k = Some v <-> exists f, facility_named k f /\ v = (8 * f)%Z.
Proof.
  split.
  - intros H. apply lookup_in in H. rewrite facility_map_numbers in H.
    apply in_map_iff in H as ([k' f] & He & Hin). cbn in He. inv He. exists f. split; [exact Hin|reflexivity].
  - intros (f & Hf & ->). apply in_lookup.
    + apply nodupb_sound. vm_compute. reflexivity.
    + rewrite facility_map_numbers. apply in_map_iff. exists (k, f). split; [reflexivity|exact Hf].
Qed.

Lemma lookup_severity k v :
  lookup severity_map k = Some v <-> severity_named k v.
Proof.
  split.
  - intros H. apply lookup_in in H. cbn in H.
    repeat (destruct H as [H|H]; [inv H; split; [unfold LogEMERG, LogALERT, LogCRIT, LogERR, LogWARNING, LogNOTICE, LogINFO, LogDEBUG; lia|reflexivity]|]).
    destruct H.
  - intros [Hr Hn]. apply in_lookup; [apply nodupb_sound; vm_compute; reflexivity|].
    assert (Hc : In v (zrange 8)) by (apply zrange_in; lia).
    cbn in Hc.
    repeat (destruct Hc as [Hc|Hc]; [subst v; cbn in Hn; inv Hn; cbn; tauto|]). destruct Hc.
Qed.

Lemma facility_named_no_dot k f : facility_named k f -> ~ In DOT k.
Proof.
  unfold facility_named. intros H.
  assert (Hall : forallb (fun kv => negb (existsb (N.eqb 46) (fst kv))) facility_numbers = true)
    by (vm_compute; reflexivity).
  rewrite forallb_forall in Hall. specialize (Hall _ H). cbn in Hall.
  intros Hd. apply negb_true_iff in Hall.
  assert (existsb (N.eqb 46) k = true); [|congruence].
  apply existsb_exists. exists 46%N. split; [exact Hd|reflexivity].
Qed.

Lemma facility_named_range k f : facility_named k f -> (0 <= f < 24)%Z.
Proof.
  intros H.
  assert (Hall : forallb (fun kv => (0 <=? snd kv)%Z && (snd kv <? 24)%Z) facility_numbers = true)
    by (vm_compute; reflexivity).
  rewrite forallb_forall in Hall. specialize (Hall _ H). cbn in Hall. lia.
Qed.

Lemma facility_named_string k f : facility_named k f -> nth_error facility_string (Z.to_nat f) = Some k.
Proof.
  intros H.
  assert (Hall : forallb (fun kv => match nth_error facility_string (Z.to_nat (snd kv)) with
                                    | Some x => bytes_eqb x (fst kv) | None => false end) facility_numbers = true)
    by (vm_compute; reflexivity).
  rewrite forallb_forall in Hall. specialize (Hall _ H). cbn [fst snd] in Hall.
  destruct (nth_error facility_string (Z.to_nat f)); [|discriminate].
  apply bytes_eqb_eq in Hall. congruence.
Qed.

Lemma set_accepts old fn sn f s :
  facility_named fn f -> severity_named sn s ->
  priority_set old (fn ++ bs "." ++ sn) = ((8 * f + s)%Z, true).
Proof.
  intros Hf Hs. unfold priority_set. change (bs "." ++ sn) with (DOT :: sn).
  rewrite index_byte_app_notin by (eapply facility_named_no_dot; eauto).
  rewrite firstn_app_exact.
  replace (skipn (length fn + 1) (fn ++ 46%N :: sn)) with sn.
  2: { rewrite skipn_app. rewrite skipn_all2 by lia.
       replace (length fn + 1 - length fn)%nat with 1%nat by lia. reflexivity. }
  destruct (lookup_facility fn (8 * f)) as [_ HF]. rewrite HF by (exists f; auto).
  destruct (lookup_severity sn s) as [_ HS]. rewrite HS by auto.
  destruct Hs as [Hs _]. rewrite lor_facility_severity by lia. reflexivity.
Qed.

Lemma set_total old d :
  let (q, ok) := priority_set old d in
  (ok = true -> exists fn sn f s, d = fn ++ bs "." ++ sn /\ facility_named fn f /\ severity_named sn s /\ q = (8 * f + s)%Z) /\
  (ok = false -> q = old).
Proof.
  unfold priority_set.
  destruct (index_byte 46 d) as [pos|] eqn:E; [|split; congruence].
  destruct (lookup facility_map (firstn pos d)) as [f|] eqn:F; [|split; congruence].
  destruct (lookup severity_map (skipn (pos + 1) d)) as [s|] eqn:G; [|split; congruence].
  split; [intros _|congruence].
  apply index_byte_some in E as (w & r & -> & <- & Hn).
  rewrite firstn_app_exact in F.
  replace (skipn (length w + 1) (w ++ 46%N :: r)) with r in G.
  2: { rewrite skipn_app. rewrite skipn_all2 by lia.
       replace (length w + 1 - length w)%nat with 1%nat by lia. reflexivity. }
  apply lookup_facility in F as (f' & Hf & ->). apply lookup_severity in G.
  exists w, r, f', s. repeat split; auto; try apply G.
  destruct G as [G _]. apply lor_facility_severity. lia.
Qed.

Lemma string_of_named fn sn f s :
  facility_named fn f -> severity_named sn s ->
  priority_string (8 * f + s) = Val (fn ++ bs "." ++ sn).
Proof.
  intros Hf [Hs Hn]. pose proof (facility_named_range _ _ Hf) as Hr.
  rewrite priority_string_spec.
  replace ((8 * f + s) / 8)%Z with f by (Z.div_mod_to_equations; lia).
  replace ((8 * f + s) mod 8)%Z with s by (Z.div_mod_to_equations; lia).
  rewrite Z.mod_small by lia.
  rewrite (facility_named_string _ _ Hf), Hn. reflexivity.
Qed.

(** *** helpers.go *)
Lemma sanitize_printable b : printusascii (sanitize_byte b).
Proof. unfold printusascii, sanitize_byte. destruct ((b <? 33)%N || (126 <? b)%N) eqn:E; lia. Qed.

Lemma sanitize_id b : printusascii b -> sanitize_byte b = b.
Proof. unfold printusascii, sanitize_byte. intros H. replace ((b <? 33)%N || (126 <? b)%N) with false by lia. reflexivity. Qed.

Lemma validator_nonempty d n : d <> [] -> validator_generic d n = map sanitize_byte (firstn n d).
Proof.
  intros H. unfold validator_generic.
  destruct (Nat.eqb_spec (length d) 0) as [H0|H0]; [destruct d; [congruence|discriminate]|].
  destruct (Nat.ltb_spec n (length d)); [reflexivity|].
  rewrite firstn_all, firstn_all2 by lia. reflexivity.
Qed.

Lemma validator_word d n : (1 <= n)%nat -> header_word n (validator_generic d n).
Proof.
  intros Hn. destruct d as [|x d].
  - cbn. split; [discriminate|]. split; [cbn; lia|]. intros c [<-|[]]. unfold printusascii; lia.
  - rewrite validator_nonempty by discriminate. destruct n as [|n]; [lia|]. split; [cbn; discriminate|]. split.
    + rewrite map_length, firstn_length. lia.
    + intros c Hc. apply in_map_iff in Hc as (b & <- & _). apply sanitize_printable.
Qed.

Lemma validator_id d n : header_word n d -> validator_generic d n = d.
Proof.
  intros (Hne & Hl & Hp). rewrite validator_nonempty by exact Hne. rewrite firstn_all2 by lia.
  rewrite <- (map_id d) at 2. apply map_ext_in. intros c Hc. apply sanitize_id, Hp, Hc.
Qed.

Lemma header_word_word n w : header_word n w -> word w.
Proof.
  intros (Hn & _ & Hp). split; [exact Hn|]. intros Hc. apply Hp in Hc. unfold printusascii in Hc. lia.
Qed.

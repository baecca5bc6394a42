(** PropAnyPriority.v -- property C102: what becomes of a priority that is any int (priority.go:136-187,
    message-immutable.go:41-46), the constructors and Priority() taking any value. *)
From Verif Require Import Base BaseFacts Spec MPriority MHelpers MText MTime MSData MMessage MTransport MParse.
From Verif Require Import LPriority LParse LTransport LRound LResult PropPriority PropMessage PropParse.
From Coq Require Import ZifyBool ZifyNat ZifyN.
Ltac Zify.zify_post_hook ::= Z.to_euclidean_division_equations.

(** The priorities whose text is a number: those that are not negative, and the negative multiples of 100 *)
Definition has_number (p : Z) : Prop := (0 <= p \/ p mod 100 = 0)%Z.

(** That number: the two last digits are those of p, the hundreds digit is the one of a byte *)
Definition number (p : Z) : Z := (100 * ((100 * (p / 100)) mod 256 / 100) + p mod 100)%Z.

Lemma number_range p : (0 <= number p <= 299)%Z.
Proof. unfold number. lia. Qed.

Lemma number_itself p : number p = p <-> (0 <= p <= 299)%Z.
Proof. unfold number. lia. Qed.

Lemma has_number_rem p : has_number p -> Z.rem p 100 = (p mod 100)%Z /\ Z.rem p 10 = (p mod 10)%Z.
Proof. unfold has_number. lia. Qed.

Lemma byte_small z : (0 <= z < 256)%Z -> to_byte z = Z.to_N z.
Proof. intros H. unfold to_byte. rewrite Z.mod_small by exact H. reflexivity. Qed.

Lemma div_to_N a b : (0 <= a)%Z -> (Z.to_N a / N.pos b)%N = Z.to_N (a / Z.pos b).
Proof. intros H. rewrite Z2N.inj_div by lia. reflexivity. Qed.

Lemma marshal_number p : has_number p -> priority_marshal p = priority_marshal (number p).
Proof.
  intros H. destruct (has_number_rem p H) as [Hr Hu].
  pose proof (number_range p) as Hn.
  assert (Hn' : has_number (number p)) by (left; lia). destruct (has_number_rem _ Hn') as [Hr' Hu'].
  unfold priority_marshal. rewrite Hr, Hu, Hr', Hu'.
  replace (number p mod 10)%Z with (p mod 10)%Z by (unfold number; lia).
  replace (number p mod 100)%Z with (p mod 100)%Z by (unfold number; lia).
  replace (to_byte (p - p mod 100) / 100)%N with (to_byte (number p - p mod 100) / 100)%N; [reflexivity|].
  replace (p - p mod 100)%Z with (100 * (p / 100))%Z by lia. unfold to_byte. rewrite !div_to_N by lia. f_equal. unfold number. lia.
Qed.

(** the negative priorities have as many texts as those between -399 and -100 *)
Lemma marshal_negative p : (p < 0)%Z ->
  exists k, (1 <= k <= 3)%Z /\ priority_marshal p = priority_marshal (- (100 * k + (- p) mod 100)).
Proof.
  intros H. set (c := ((p - Z.rem p 100) mod 256 / 100)%Z).
  assert (Hc : (0 <= c <= 2)%Z) by (unfold c; lia).
  assert (Hk : exists k, (1 <= k <= 3)%Z /\ ((- (100 * k)) mod 256 / 100 = c)%Z).
  { assert (c = 0 \/ c = 1 \/ c = 2)%Z as [E|[E|E]] by lia; rewrite E; [exists 2%Z|exists 1%Z|exists 3%Z]; split; (lia || reflexivity). }
  destruct Hk as (k & Hk & Ek). exists k. split; [exact Hk|].
  set (r := ((- p) mod 100)%Z). assert (Hr : Z.rem p 100 = (- r)%Z) by (unfold r; lia).
  assert (Hr' : (0 <= r < 100)%Z) by (unfold r; lia).
  set (q := (- (100 * k + r))%Z).
  assert (H100 : Z.rem q 100 = (- r)%Z) by (unfold q; clear - Hk Hr'; lia).
  assert (H10 : Z.rem q 10 = Z.rem p 10) by (unfold q; clear - Hk Hr Hr'; lia).
  unfold priority_marshal. rewrite H10, H100, Hr.
  replace (to_byte (p - - r) / 100)%N with (to_byte (q - - r) / 100)%N; [reflexivity|].
  unfold to_byte. rewrite !div_to_N by lia. f_equal. rewrite <- Hr at 2. fold c. rewrite <- Ek.
  replace (q - - r)%Z with (- (100 * k))%Z by (unfold q; lia). reflexivity.
Qed.

Lemma marshal_no_number p old : ~ has_number p -> priority_unmarshal old (priority_marshal p) = Val (old, false).
Proof.
  intros H. destruct (marshal_negative p) as (k & Hk & ->); [unfold has_number in H; lia|].
  set (z := (100 * k + - p mod 100)%Z).
  assert (Hz : (0 <= z < Z.of_nat 400)%Z) by (change (Z.of_nat 400) with 400%Z; unfold z; lia).
  assert (Hm : ((z <? 100) || (z mod 100 =? 0))%Z = false) by (unfold has_number in H; unfold z; lia).
  assert (Hs := sweep (fun z => ((z <? 100) || (z mod 100 =? 0))%Z ||
      match priority_unmarshal 7 (priority_marshal (- z)) with Val (_, false) => true | _ => false end) 400 z
      ltac:(vm_compute; reflexivity) Hz).
  cbv beta in Hs. rewrite Hm in Hs. cbn [orb] in Hs.
  destruct (C02_unmarshal_exact 7 (priority_marshal (- z))) as [A _]. destruct (C02_unmarshal_exact old (priority_marshal (- z))) as [_ B].
  apply B. intros (ds & Hd). rewrite (A ds Hd) in Hs. discriminate.
Qed.

(** no text of a priority has a space *)
Lemma marshal_word p : word (priority_marshal p).
Proof.
  destruct (Z.leb_spec 0 p) as [H|H].
  - rewrite marshal_number by (left; lia). rewrite marshal_canonical by apply number_range. apply prio_word.
  - destruct (marshal_negative p H) as (k & Hk & ->). set (z := (100 * k + - p mod 100)%Z).
    assert (Hz : (0 <= z < Z.of_nat 400)%Z) by (change (Z.of_nat 400) with 400%Z; unfold z; lia).
    assert (Hs := sweep (fun z => match priority_marshal (- z) with [] => false | l => negb (existsb (N.eqb SP) l) end) 400 z
      ltac:(vm_compute; reflexivity) Hz). cbv beta in Hs.
    destruct (priority_marshal (- z)) as [|c l]; [discriminate|]. split; [discriminate|]. intros Hin.
    apply negb_true_iff in Hs. rewrite <- not_true_iff_false in Hs. apply Hs, existsb_exists. exists SP. split; [exact Hin|reflexivity].
Qed.

(** every byte of the text of a priority is between ' and H *)
Lemma marshal_bytes p b : In b (priority_marshal p) -> (39 <= b <= 72)%N.
Proof.
  assert (K : forall z, (- 400 < z < 300)%Z -> forallb (fun b => (39 <=? b)%N && (b <=? 72)%N) (priority_marshal z) = true).
  { intros z Hz. replace z with ((z + 400) - 400)%Z by lia.
    refine (sweep (fun y => forallb (fun b => (39 <=? b)%N && (b <=? 72)%N) (priority_marshal (y - 400))) 700 (z + 400)%Z _ _);
      [vm_compute; reflexivity|change (Z.of_nat 700) with 700%Z; lia]. }
  intros Hin. assert (E : exists z, (- 400 < z < 300)%Z /\ priority_marshal p = priority_marshal z).
  { destruct (Z.leb_spec 0 p) as [H|H].
    - exists (number p). pose proof (number_range p). split; [lia|]. apply marshal_number. left. exact H.
    - destruct (marshal_negative p H) as (k & Hk & E). eexists. split; [|exact E]. lia. }
  destruct E as (z & Hz & E). rewrite E in Hin. specialize (K z Hz). rewrite forallb_forall in K. specialize (K b Hin). lia.
Qed.

(** ** C102 *)
(** The text of any priority, and what a reader makes of it *)
Theorem C102_any_priority : forall p old,
  (has_number p -> priority_marshal p = bs "<" ++ decimal (Z.to_N (number p)) ++ bs ">1" /\
                   priority_unmarshal old (priority_marshal p) = Val (number p, true)) /\
  (~ has_number p -> priority_unmarshal old (priority_marshal p) = Val (old, false)).
Proof.
  intros p old. split.
  - intros H. rewrite (marshal_number p H). exact (C01_priority_roundtrip (number p) old (number_range p)).
  - exact (marshal_no_number p old).
Qed.
Print Assumptions C102_any_priority.

(** A priority survives its own encoding exactly when it is between 0 and 299 *)
Theorem C102_survives_iff : forall p old,
  priority_unmarshal old (priority_marshal p) = Val (p, true) <-> (0 <= p <= 299)%Z.
Proof.
  intros p old. rewrite <- (number_itself p). destruct (C102_any_priority p old) as [A B]. split.
  - intros H. destruct (Z.leb_spec 0 p) as [Hp|Hp].
    + destruct (A (or_introl Hp)) as [_ E]. congruence.
    + destruct (Z.eq_dec (p mod 100) 0) as [E|E].
      * destruct (A (or_intror E)) as [_ E']. congruence.
      * assert (Hn : ~ has_number p) by (unfold has_number; lia). rewrite (B Hn) in H. discriminate.
  - intros H. assert (has_number p) by (left; pose proof (number_range p); lia). destruct (A H0) as [_ E]. congruence.
Qed.
Print Assumptions C102_survives_iff.

(** What Priority() of a received message returns: 0 when the text is not a number *)
Definition read_back (p : Z) : Z := if ((0 <=? p) || (p mod 100 =? 0))%Z then number p else 0%Z.

Lemma first_word a b x y : word a -> word b -> a ++ bs " " ++ x = b ++ bs " " ++ y -> a = b.
Proof.
  intros [_ Ha] [_ Hb]. revert b Hb. induction a as [|c a IH]; intros [|d b] Hb E; cbn [app] in E.
  - reflexivity.
  - exfalso. injection E as E _. apply Hb. left. rewrite <- E. reflexivity.
  - exfalso. injection E as E _. apply Ha. left. exact E.
  - injection E as -> E. f_equal. apply IH; [|intros Hin; apply Hb; right; exact Hin|exact E].
    intros Hin. apply Ha. right. exact Hin.
Qed.

Theorem C102_message : forall uni m enc eof q, message_marshal uni m = Val (inr enc) -> parse enc None eof = Val (q, None, None) ->
  imm_priority q = Val (read_back (m_prio m)).
Proof.
  intros uni m enc eof q He Hp.
  destruct (C19_header_split enc eof q Hp) as (w1 & w2 & w3 & w4 & w5 & w6 & r & E & Hw & _ & (v & ok & Hv & Hq) & _).
  assert (E1 : exists y, enc = priority_marshal (m_prio m) ++ bs " " ++ y).
  { unfold message_marshal in He. destruct (list_marshal uni (m_sd m)) as [[|sd]| |]; try discriminate.
    destruct (m_text m); unfold emit in He; injection He as <-; eexists; reflexivity. }
  destruct E1 as [y Ey]. rewrite Ey in E.
  assert (w1 = priority_marshal (m_prio m)) as ->.
  { symmetry. refine (first_word _ _ _ _ (marshal_word _) _ E). inv Hw. assumption. }
  rewrite Hq. f_equal. unfold read_back. destruct (C102_any_priority (m_prio m) 0) as [A B].
  destruct ((0 <=? m_prio m) || (m_prio m mod 100 =? 0))%Z eqn:Hn.
  - destruct A as [_ A]; [unfold has_number; lia|]. congruence.
  - rewrite B in Hv by (unfold has_number; lia). congruence.
Qed.
Print Assumptions C102_message.

(** so the receiver sees the priority of the message exactly when it is between 0 and 299 *)
Theorem C102_message_iff : forall uni m enc eof q, message_marshal uni m = Val (inr enc) -> parse enc None eof = Val (q, None, None) ->
  (imm_priority q = Val (m_prio m) <-> (0 <= m_prio m <= 299)%Z).
Proof.
  intros uni m enc eof q He Hp. rewrite (C102_message uni m enc eof q He Hp). unfold read_back.
  rewrite <- (number_itself (m_prio m)). pose proof (number_range (m_prio m)).
  destruct ((0 <=? m_prio m) || (m_prio m mod 100 =? 0))%Z eqn:Hn; split; intros E; [congruence|congruence| |].
  - injection E as E. lia.
  - lia.
Qed.
Print Assumptions C102_message_iff.

(** A priority never has an effect on the rest of the line: whatever the priority, the encoded bytes
    after the first word are the same *)
Theorem C102_rest_unchanged : forall uni m p enc, message_marshal uni m = Val (inr enc) ->
  exists y, enc = priority_marshal (m_prio m) ++ bs " " ++ y /\
            message_marshal uni (msg_set_prio m p) = Val (inr (priority_marshal p ++ bs " " ++ y)) /\
            word (priority_marshal p).
Proof.
  intros uni m p enc He. unfold message_marshal in *. unfold msg_set_prio. cbn [m_prio m_time m_host m_app m_procid m_msgid m_sd m_text].
  destruct (list_marshal uni (m_sd m)) as [[|sd]| |]; try discriminate.
  destruct (m_text m); unfold emit in *; injection He as <-; eexists; (split; [reflexivity|]); (split; [reflexivity|apply marshal_word]).
Qed.
Print Assumptions C102_rest_unchanged.

Example C102_nonvacuous :
  priority_marshal 300 = bs "<0>1" /\ priority_marshal 1500 = bs "<200>1" /\ priority_marshal (-1) = bs "</>1" /\
  priority_marshal (-100) = bs "<100>1" /\ priority_marshal (-10) = bs "<H0>1" /\ read_back (-1) = 0%Z /\ read_back (-100) = 100%Z /\
  ~ has_number (-1) /\
  (let m := msg_set_prio sample 434 in exists enc q, message_marshal (fun _ => true) m = Val (inr enc) /\
     parse enc None true = Val (q, None, None) /\ imm_priority q = Val 134%Z).
Proof.
  repeat (split; [reflexivity|]). split; [unfold has_number; lia|]. cbv zeta. do 2 eexists. split; [vm_compute; reflexivity|].
  split; [vm_compute; reflexivity|vm_compute; reflexivity].
Qed.

(** PropChain.v -- C116: logging programs and relays, in a tree of any shape and depth. *)
From Coq Require Import Permutation.
From Verif Require Import Base BaseFacts Spec MTime MTransport MSData MMessage MParse MTokenize MReceiver MSender
  LTime LTokenize LParse LRound LTransport PropMessage PropParse PropTransport LLines PropLines PropReceiver PropRelay PropMixed LReceiver PropRecvSys PropRecvLive LSender PropSender PropSender2 PropSender3 PropEndToEnd PropEndToEnd2 PropEndToEnd3 PropEndToEnd4 PropEndToEnd5 PropMany PropMany2.

(** A relay hands what Receive gave it, in that order, to the Sender it has: Send(p.Writable()).  The registry is
    tried in an order o that [ok] allows (map iteration). *)
Definition relayed (ok : (nat -> list sdid) -> Prop) (got : list (nat * pair_t)) (ms : list message) : Prop :=
  exists o, ok o /\ Forall2 (fun r m => snd (snd r) = None /\ exists spare, imm_writable o spare (fst (snd r)) = Val m) got ms.

(** Everything sent by the n senders of one Receiver is flushed, read, and received. *)
Definition hop (uni : N -> bool) (t : transport) (n : nat) (ms : nat -> list message) (sacts : nat -> list saction) (ss : nat -> sstate)
    (peer : nat -> nat * nat) (cap : nat) (racts : list raction) (rs : rstate) : Prop :=
  let width := fun j => connects (sacts j) in let wire := fun j k => on k (s_log (ss j)) in
  (forall j, (j < n)%nat -> served uni t (ms j) (sacts j) (ss j)) /\
  rrun t cap receiver_init racts = Some rs /\ network n width wire peer racts /\ ~ In REndCall racts /\ ~ In false (accepts racts) /\
  all_read n width wire peer racts /\ at_rest t cap rs.

(** What a stream with this transport asks of the messages and of the reads *)
Definition carries (uni : N -> bool) (t : transport) (n : nat) (ms : nat -> list message) (wire : nat -> nat -> bytes) (peer : nat -> nat * nat) (racts : list raction) : Prop :=
  match delimiter t with
  | None => forall j, (j < n)%nat -> Forall fits (encodings uni (ms j))
  | Some c => (forall j, (j < n)%nat -> Forall (fun m => m_text m <> [] /\ forall enc, message_marshal uni m = Val (inr enc) -> ~ In c enc) (ms j)) /\
      suitable_reads uni t n ms wire peer racts
  end.

(** [collector orig got]: a Receiver that has received [got], when the programs at the leaves behind it have logged [orig].
    [source orig ms]: a program that sends [ms]: messages of its own, messages it relays, or both, interleaved. *)
Inductive collector (uni : N -> bool) (ok : (nat -> list sdid) -> Prop) : list message -> list (nat * pair_t) -> Prop :=
| collects t n orig ms sacts ss peer cap racts rs :
    (forall j, (j < n)%nat -> source uni ok (orig j) (ms j)) ->
    hop uni t n ms sacts ss peer cap racts rs -> carries uni t n ms (fun j k => on k (s_log (ss j))) peer racts ->
    collector uni ok (concat (map orig (seq 0 n))) (received rs)
with source (uni : N -> bool) (ok : (nat -> list sdid) -> Prop) : list message -> list message -> Prop :=
| logs ms : source uni ok ms ms
| relays orig got ms : collector uni ok orig got -> relayed ok got ms -> source uni ok orig ms
| together orig1 ms1 orig2 ms2 ms : source uni ok orig1 ms1 -> source uni ok orig2 ms2 -> Permutation (ms1 ++ ms2) ms -> source uni ok (orig1 ++ orig2) ms.

Scheme collector_mut := Induction for collector Sort Prop with source_mut := Induction for source Sort Prop.

(** ** a message and the same message with its time at the microsecond *)
Definition same_us (m m' : message) : Prop := msg_set_time m (at_us (m_time m)) = msg_set_time m' (at_us (m_time m')).

Lemma same_refl m : same_us m m. Proof. reflexivity. Qed.
Lemma same_sym m m' : same_us m m' -> same_us m' m. Proof. unfold same_us. congruence. Qed.
Lemma same_trans a b c : same_us a b -> same_us b c -> same_us a c. Proof. unfold same_us. congruence. Qed.

Lemma at_us_idem t : at_us (at_us t) = at_us t.
Proof. unfold at_us. cbn [t_sec t_nsec t_off]. f_equal. rewrite Z.div_mul by lia. reflexivity. Qed.

Lemma same_set m : same_us m (msg_set_time m (at_us (m_time m))).
Proof. unfold same_us, msg_set_time. cbn. rewrite at_us_idem. reflexivity. Qed.

Lemma format_at_us t : time_format (at_us t) = time_format t.
Proof.
  unfold time_format, civil_of, at_us. cbn [t_sec t_nsec t_off]. destruct (civil_from_days ((t_sec t + t_off t) / 86400)) as [[y mo] d].
  unfold format_civil. cbn [c_year c_month c_day c_hour c_min c_sec c_nsec c_off].
  assert (E : nano_digits (t_nsec t / 1000 * 1000) = nano_digits (t_nsec t)).
  { unfold nano_digits. set (n := t_nsec t). assert (K : forall a k, (0 < k)%Z -> (a = 1000 * k)%Z -> (n / 1000 * 1000 / a = n / a)%Z).
    { intros a k Hk ->. rewrite <- !Z.div_div by lia. rewrite Z.div_mul by lia. reflexivity. }
    rewrite (K 100000000%Z 100000%Z eq_refl eq_refl), (K 10000000%Z 10000%Z eq_refl eq_refl), (K 1000000%Z 1000%Z eq_refl eq_refl), (K 100000%Z 100%Z eq_refl eq_refl), (K 10000%Z 10%Z eq_refl eq_refl), (K 1000%Z 1%Z eq_refl eq_refl). reflexivity. }
  unfold format_frac. rewrite E. reflexivity.
Qed.

Lemma same_fields m m' : same_us m m' -> at_us (m_time m) = at_us (m_time m') /\ m_prio m = m_prio m' /\ m_host m = m_host m' /\ m_app m = m_app m' /\
  m_procid m = m_procid m' /\ m_msgid m = m_msgid m' /\ m_sd m = m_sd m' /\ m_text m = m_text m'.
Proof.
  unfold same_us. intros E. split; [exact (f_equal m_time E)|]. split; [exact (f_equal m_prio E)|]. split; [exact (f_equal m_host E)|]. split; [exact (f_equal m_app E)|].
  split; [exact (f_equal m_procid E)|]. split; [exact (f_equal m_msgid E)|]. split; [exact (f_equal m_sd E)|exact (f_equal m_text E)].
Qed.

Lemma same_marshal uni m m' : same_us m m' -> message_marshal uni m = message_marshal uni m'.
Proof.
  intros H. destruct (same_fields m m' H) as (E1 & E2 & E3 & E4 & E5 & E6 & E7 & E8). unfold message_marshal.
  rewrite <- (format_at_us (m_time m)), E1, format_at_us, E2, E3, E4, E5, E6, E7, E8. reflexivity.
Qed.

Lemma at_us_valid t : time_valid t -> time_valid (at_us t).
Proof.
  intros (Hy & Hn & Ho & Hm). unfold time_valid. split; [|split; [|split]].
  - revert Hy. unfold civil_of, at_us. cbn [t_sec t_nsec t_off]. destruct (civil_from_days ((t_sec t + t_off t) / 86400)) as [[y mo] d]. exact (fun H => H).
  - cbn [at_us t_nsec]. split; [apply Z.mul_nonneg_nonneg; [apply Z.div_pos; lia|lia]|]. pose proof (Z.mul_div_le (t_nsec t) 1000 ltac:(lia)). lia.
  - exact Ho.
  - exact Hm.
Qed.

(** m' is what a relay sends for m *)
Lemma relay_deliverable uni o m : deliverable uni o m -> deliverable uni o (msg_set_time m (at_us (m_time m))).
Proof. intros (H1 & H2 & H3 & H4 & H5). split; [exact H1|]. split; [exact H2|]. split; [exact (at_us_valid _ H3)|]. split; [exact H4|exact H5]. Qed.

(** Two messages with one encoding, both deliverable with the same registry order *)
Lemma same_encoding uni o m m' : deliverable uni o m -> deliverable uni o m' -> message_marshal uni m = message_marshal uni m' -> same_us m m'.
Proof.
  intros D D' E. destruct (deliverable_marshal uni o m D) as [enc Em]. pose proof Em as Em'. rewrite E in Em'.
  destruct D as (Hh & Hp & Ht & Hd & Hx), D' as (Hh' & Hp' & Ht' & Hd' & Hx').
  destruct (proj2 (writable_iff uni m enc true o [] Hh Hp Ht Hd Em) Hx) as (q & Q1 & _ & Q3).
  destruct (proj2 (writable_iff uni m' enc true o [] Hh' Hp' Ht' Hd' Em') Hx') as (q' & Q1' & _ & Q3').
  rewrite Q1 in Q1'. injection Q1' as <-. rewrite Q3 in Q3'. unfold same_us. congruence.
Qed.

Lemma delivered_same uni o m m' p : same_us m m' -> delivered_as uni o m p -> delivered_as uni o m' p.
Proof. intros H (D1 & D2 & D3). unfold delivered_as. rewrite <- (same_marshal uni m m' H). split; [exact D1|]. split; [exact D2|]. intros spare. rewrite D3. f_equal. exact H. Qed.

(** ** from one hop *)
Lemma hop_delivers uni o t n ms sacts ss peer cap racts rs : hop uni t n ms sacts ss peer cap racts rs ->
  carries uni t n ms (fun j k => on k (s_log (ss j))) peer racts -> (forall j, (j < n)%nat -> Forall (deliverable uni o) (ms j)) ->
  exists l, Permutation l (concat (map ms (seq 0 n))) /\ Forall2 (delivered_as uni o) l (map snd (received rs)) /\
    (n = 1%nat -> connects (sacts 0%nat) = 1%nat -> l = ms 0%nat).
Proof.
  intros (Hs & Hr & Hnet & He & Hf & Har & Hrest) Hc Hd.
  assert (K : exists tagged, Forall2 (came_from uni o n (fun j => connects (sacts j)) peer) tagged (received rs) /\
    forall j, (j < n)%nat -> ms j = concat (map (fun k => from tag_dec (j, k) tagged) (seq 0 (connects (sacts j))))).
  { unfold carries in Hc. destruct (delimiter t) as [c|] eqn:Ec.
    - destruct Hc as [Hc1 Hc2]. destruct (C115_data_delivery uni o t c n ms sacts ss peer cap racts rs Ec Hs) as (bound & Hb); try assumption.
      + intros j Hj. specialize (Hd j Hj). specialize (Hc1 j Hj). rewrite Forall_forall in *. intros m Hm. destruct (Hc1 m Hm) as [K1 K2]. split; [exact (Hd m Hm)|]. split; assumption.
      + destruct (Hb [] rs eq_refl) as (_ & _ & Hx); [intros a []|]. exact (Hx Hrest).
    - destruct t; try discriminate. destruct (C115_delivery uni o n ms sacts ss peer cap racts rs Hs) as (bound & Hb); try assumption.
      + intros j Hj. split; [exact (Hc j Hj)|exact (Hd j Hj)].
      + destruct (Hb [] rs eq_refl) as (_ & _ & Hx); [intros a []|]. exact (Hx Hrest). }
  destruct K as (tagged & T1 & T2). exists (map snd tagged). split; [exact (C115_exactly_once uni o n ms _ peer _ tagged T1 T2)|]. split.
  - clear -T1. induction T1 as [|x r tg l (_ & _ & _ & H) F IH]; [constructor|]. cbn [map]. constructor; assumption.
  - intros -> Ec. rewrite (T2 0%nat) by lia. rewrite Ec. cbn [seq map concat]. rewrite app_nil_r.
    assert (Hall : Forall (fun x => fst x = (0%nat, 0%nat)) tagged).
    { clear -T1 Ec. induction T1 as [|x r tg l (_ & H1 & H2 & _) F IH]; [constructor|]. constructor; [|exact IH]. destruct x as [[j k] m]. cbn [fst snd] in *. assert (j = 0%nat) as -> by lia. rewrite Ec in H2. f_equal. lia. }
    clear -Hall. induction Hall as [|x tg Hx Hall IH]; [reflexivity|]. change (x :: tg) with ([x] ++ tg). rewrite from_app, map_app, IH. destruct x as [jk m]. cbn [fst] in Hx. subst jk. rewrite from_one_same. reflexivity.
Qed.

Lemma all_same uni o l : forall l' ps, Forall2 (delivered_as uni o) l ps -> Forall2 (fun m p => message_marshal uni m = Val (inr (imm_string (fst p)))) l' ps ->
  Forall (deliverable uni o) l -> Forall (deliverable uni o) l' -> Forall2 same_us l l'.
Proof.
  induction l as [|m l IH]; intros l' ps F F' D D'; inversion F; subst; inversion F'; subst; [constructor|].
  apply Forall_inv in D as Dm. apply Forall_inv_tail in D. apply Forall_inv in D' as Dm'. apply Forall_inv_tail in D'. constructor; [|eapply IH; eassumption].
  apply (same_encoding uni o); [exact Dm|exact Dm'|]. match goal with H : delivered_as _ _ m _ |- _ => destruct H as (E & _) end. congruence.
Qed.

Lemma f2_delivered uni o l : forall l' ps, Forall2 same_us l l' -> Forall2 (delivered_as uni o) l ps -> Forall2 (delivered_as uni o) l' ps.
Proof. induction l as [|m l IH]; intros l' ps S F; inversion S; subst; inversion F; subst; constructor; [eapply delivered_same; eassumption|eapply IH; eassumption]. Qed.

(** whatever order is used to look at it *)
Lemma hop_delivers_all uni (ok : (nat -> list sdid) -> Prop) t n ms sacts ss peer cap racts rs : hop uni t n ms sacts ss peer cap racts rs ->
  carries uni t n ms (fun j k => on k (s_log (ss j))) peer racts -> (exists o, ok o) -> (forall o, ok o -> forall j, (j < n)%nat -> Forall (deliverable uni o) (ms j)) ->
  exists l, Permutation l (concat (map ms (seq 0 n))) /\ (forall o, ok o -> Forall2 (delivered_as uni o) l (map snd (received rs))) /\
    (n = 1%nat -> connects (sacts 0%nat) = 1%nat -> l = ms 0%nat).
Proof.
  intros Hh Hc (o & Ho) Hd. destruct (hop_delivers uni o t n ms sacts ss peer cap racts rs Hh Hc (Hd o Ho)) as (l & P & F & One).
  exists l. split; [exact P|]. split; [|exact One]. intros o' Ho'. destruct (hop_delivers uni o' t n ms sacts ss peer cap racts rs Hh Hc (Hd o' Ho')) as (l' & P' & F' & _).
  assert (D : Forall (deliverable uni o') (concat (map ms (seq 0 n)))).
  { apply Forall_forall. intros m Hm. apply in_concat in Hm as (x & Hx & Hm). apply in_map_iff in Hx as (j & <- & Hj). apply in_seq in Hj. specialize (Hd o' Ho' j ltac:(lia)). rewrite Forall_forall in Hd. exact (Hd m Hm). }
  apply (f2_delivered uni o' l'); [|exact F']. apply (all_same uni o' l' l _ F'); [|exact (Permutation_Forall (Permutation_sym P') D)|exact (Permutation_Forall (Permutation_sym P) D)].
  clear -F. induction F as [|m p l ps (E & _) F IH]; constructor; assumption.
Qed.

Lemma f2_sym (l l' : list message) : Forall2 same_us l l' -> Forall2 same_us l' l.
Proof. induction 1; constructor; [apply same_sym|]; assumption. Qed.

Lemma f2_concat {A B} (R : A -> B -> Prop) (f : nat -> list A) (g : nat -> list B) js : (forall j, In j js -> Forall2 R (f j) (g j)) -> Forall2 R (concat (map f js)) (concat (map g js)).
Proof. induction js as [|j js IH]; intros H; cbn [map concat]; [constructor|]. apply Forall2_app; [apply H; left; reflexivity|apply IH; intros; apply H; right; assumption]. Qed.

Lemma perm_concat {A} (f g : nat -> list A) js : (forall j, In j js -> Permutation (f j) (g j)) -> Permutation (concat (map f js)) (concat (map g js)).
Proof. induction js as [|j js IH]; intros H; cbn [map concat]; [constructor|]. apply Permutation_app; [apply H; left; reflexivity|apply IH; intros; apply H; right; assumption]. Qed.

Definition got_all (uni : N -> bool) (ok : (nat -> list sdid) -> Prop) (orig : list message) (got : list (nat * pair_t)) : Prop :=
  exists l, Permutation orig l /\ forall o, ok o -> Forall2 (delivered_as uni o) l (map snd got).
Definition sends_all (uni : N -> bool) (ok : (nat -> list sdid) -> Prop) (orig ms : list message) : Prop :=
  (exists l, Permutation orig l /\ Forall2 same_us l ms) /\ forall o, ok o -> Forall (deliverable uni o) ms.

Lemma relay_sends uni (ok : (nat -> list sdid) -> Prop) l (got : list (nat * pair_t)) ms : (forall o, ok o -> Forall (deliverable uni o) l) -> (forall o, ok o -> Forall2 (delivered_as uni o) l (map snd got)) -> relayed ok got ms ->
  Forall2 same_us l ms /\ forall o, ok o -> Forall (deliverable uni o) ms.
Proof.
  intros D F (o & Ho & R).
  assert (E : ms = map (fun m => msg_set_time m (at_us (m_time m))) l).
  { specialize (F o Ho). clear -F R. revert l F. induction R as [|r m got ms (_ & spare & H) R IH]; intros l F; cbn [map] in F; inversion F; subst; [reflexivity|].
    cbn [map]. f_equal; [|apply IH; assumption]. match goal with H : delivered_as _ _ _ _ |- _ => destruct H as (_ & _ & W) end. specialize (W spare). congruence. }
  subst ms. split.
  - clear. induction l as [|m l IH]; constructor; [apply same_set|exact IH].
  - intros o' Ho'. specialize (D o' Ho'). clear -D. induction D as [|m l Hm D IH]; constructor; [apply relay_deliverable; exact Hm|exact IH].
Qed.

(** ** C116 *)
(** A tree of programs of any shape and depth: each logs, relays what it has received, or both, through one
    Sender (which may reconnect) to the Receiver of the next one; each stream with its framing.  When everything is
    flushed and read, the Receiver at the root has received every message logged anywhere exactly once, unchanged but for
    its time at the microsecond, and nothing else. *)
Theorem C116_tree : forall uni ok orig got, (exists o, ok o) -> (forall o, ok o -> Forall (deliverable uni o) orig) -> collector uni ok orig got ->
  exists l, Permutation orig l /\ forall o, ok o -> Forall2 (delivered_as uni o) l (map snd got).
Proof.
  intros uni ok orig got Hok Hd H. revert Hd. change (exists l, Permutation orig l /\ _) with (got_all uni ok orig got).
  apply (collector_mut uni ok (fun orig got _ => (forall o, ok o -> Forall (deliverable uni o) orig) -> got_all uni ok orig got)
    (fun orig ms _ => (forall o, ok o -> Forall (deliverable uni o) orig) -> sends_all uni ok orig ms)); [| | | |exact H]; clear orig got H.
  - intros t n orig ms sacts ss peer cap racts rs _ IH Hh Hc Hd.
    assert (Hs : forall j, (j < n)%nat -> sends_all uni ok (orig j) (ms j)).
    { intros j Hj. apply IH; [exact Hj|]. intros o Ho. specialize (Hd o Ho). rewrite Forall_forall in *. intros m Hm. apply Hd, in_concat. exists (orig j). split; [|exact Hm].
      apply in_map_iff. exists j. split; [reflexivity|apply in_seq; lia]. }
    destruct (hop_delivers_all uni ok t n ms sacts ss peer cap racts rs Hh Hc Hok) as (l & P & F & _); [intros o Ho j Hj; exact (proj2 (Hs j Hj) o Ho)|].
    destruct (finite_choice (fun j lj => Permutation (orig j) lj /\ Forall2 same_us lj (ms j)) [] n) as [lj Hl]; [intros j Hj; exact (proj1 (Hs j Hj))|].
    assert (S : Forall2 same_us (concat (map ms (seq 0 n))) (concat (map lj (seq 0 n)))) by (apply f2_sym, f2_concat; intros j Hj; apply in_seq in Hj; apply Hl; lia).
    destruct (Permutation_Forall2 (Permutation_sym P) S) as (l' & P' & S').
    exists l'. split; [eapply Permutation_trans; [|exact P']; apply perm_concat; intros j Hj; apply in_seq in Hj; apply Hl; lia|].
    intros o Ho. exact (f2_delivered uni o l l' _ S' (F o Ho)).
  - intros ms Hd. split; [exists ms; split; [apply Permutation_refl|]|exact Hd]. clear. induction ms; constructor; [apply same_refl|assumption].
  - intros orig got ms _ IH R Hd. destruct (IH Hd) as (l & P & F).
    destruct (relay_sends uni ok l got ms) as [S D]; [intros o Ho; exact (Permutation_Forall P (Hd o Ho))|exact F|exact R|]. split; [exists l; auto|exact D].
  - intros o1 m1 o2 m2 ms _ IH1 _ IH2 P Hd.
    destruct IH1 as ((l1 & P1 & S1) & D1); [intros o Ho; specialize (Hd o Ho); apply Forall_app in Hd; apply Hd|].
    destruct IH2 as ((l2 & P2 & S2) & D2); [intros o Ho; specialize (Hd o Ho); apply Forall_app in Hd; apply Hd|]. split.
    + destruct (Permutation_Forall2 P (f2_sym _ _ (Forall2_app S1 S2))) as (l & Pl & Sl).
      exists l. split; [eapply Permutation_trans; [apply Permutation_app; eassumption|exact Pl]|apply f2_sym; exact Sl].
    + intros o Ho. apply (Permutation_Forall P). apply Forall_app. auto.
Qed.
Print Assumptions C116_tree.

(** A chain of relays, one connection each: in the order sent. *)
Inductive chain (uni : N -> bool) (ok : (nat -> list sdid) -> Prop) (orig : list message) : list (nat * pair_t) -> Prop :=
| first_hop t sacts ss peer cap racts rs : connects (sacts 0%nat) = 1%nat -> hop uni t 1 (fun _ => orig) sacts ss peer cap racts rs ->
    carries uni t 1 (fun _ => orig) (fun j k => on k (s_log (ss j))) peer racts -> chain uni ok orig (received rs)
| next_hop got ms t sacts ss peer cap racts rs : chain uni ok orig got -> relayed ok got ms -> connects (sacts 0%nat) = 1%nat ->
    hop uni t 1 (fun _ => ms) sacts ss peer cap racts rs -> carries uni t 1 (fun _ => ms) (fun j k => on k (s_log (ss j))) peer racts ->
    chain uni ok orig (received rs).

Theorem C116_chain : forall uni ok orig got, (exists o, ok o) -> (forall o, ok o -> Forall (deliverable uni o) orig) -> chain uni ok orig got ->
  forall o, ok o -> Forall2 (delivered_as uni o) orig (map snd got).
Proof.
  intros uni ok orig got Hok Hd H. induction H as [t sacts ss peer cap racts rs Hone Hh Hc|got ms t sacts ss peer cap racts rs H IH R Hone Hh Hc].
  - destruct (hop_delivers_all uni ok t 1 _ sacts ss peer cap racts rs Hh Hc Hok) as (l & _ & F & One); [intros o Ho j Hj; exact (Hd o Ho)|].
    rewrite (One eq_refl Hone) in F. exact F.
  - destruct (relay_sends uni ok orig got ms Hd IH R) as [S D].
    destruct (hop_delivers_all uni ok t 1 _ sacts ss peer cap racts rs Hh Hc Hok) as (l & _ & F & One); [intros o Ho j Hj; exact (D o Ho)|].
    rewrite (One eq_refl Hone) in F. intros o Ho. exact (f2_delivered uni o ms orig _ (f2_sym _ _ S) (F o Ho)).
Qed.
Print Assumptions C116_chain.

(** ** at every moment *)
(** Nothing is asked of the schedules: streams read in part, messages on their way, relays that have relayed a part of
    what they received. *)
Definition hop_so_far (uni : N -> bool) (t : transport) (n : nat) (ms : nat -> list message) (sacts : nat -> list saction) (ss : nat -> sstate)
    (peer : nat -> nat * nat) (cap : nat) (racts : list raction) (rs : rstate) : Prop :=
  (forall j, (j < n)%nat -> served uni t (ms j) (sacts j) (ss j)) /\
  rrun t cap receiver_init racts = Some rs /\ network n (fun j => connects (sacts j)) (fun j k => on k (s_log (ss j))) peer racts.

Inductive collector_so_far (uni : N -> bool) (ok : (nat -> list sdid) -> Prop) : list message -> list (nat * pair_t) -> Prop :=
| so_far t n orig ms sacts ss peer cap racts rs :
    (forall j, (j < n)%nat -> source_so_far uni ok (orig j) (ms j)) ->
    hop_so_far uni t n ms sacts ss peer cap racts rs -> carries uni t n ms (fun j k => on k (s_log (ss j))) peer racts ->
    collector_so_far uni ok (concat (map orig (seq 0 n))) (received rs)
with source_so_far (uni : N -> bool) (ok : (nat -> list sdid) -> Prop) : list message -> list message -> Prop :=
| logs_so_far ms : source_so_far uni ok ms ms
| relays_so_far orig got later ms : collector_so_far uni ok orig (got ++ later) -> relayed ok got ms -> source_so_far uni ok orig ms
| together_so_far orig1 ms1 orig2 ms2 ms : source_so_far uni ok orig1 ms1 -> source_so_far uni ok orig2 ms2 -> Permutation (ms1 ++ ms2) ms -> source_so_far uni ok (orig1 ++ orig2) ms.

Scheme collector_so_far_mut := Induction for collector_so_far Sort Prop with source_so_far_mut := Induction for source_so_far Sort Prop.

Lemma hop_gives uni o t n ms sacts ss peer cap racts rs : hop_so_far uni t n ms sacts ss peer cap racts rs ->
  carries uni t n ms (fun j k => on k (s_log (ss j))) peer racts -> (forall j, (j < n)%nat -> Forall (deliverable uni o) (ms j)) ->
  exists l rest, Permutation (concat (map ms (seq 0 n))) (l ++ rest) /\ Forall2 (delivered_as uni o) l (map snd (received rs)).
Proof.
  intros (Hs & Hr & Hnet) Hc Hd.
  assert (K : exists tagged group, Forall2 (came_from uni o n (fun j => connects (sacts j)) peer) tagged (received rs) /\
    forall j, (j < n)%nat -> ms j = concat (map (group j) (seq 0 (connects (sacts j)))) /\ forall k, (k < connects (sacts j))%nat -> exists later : list message, group j k = from tag_dec (j, k) tagged ++ later).
  { unfold carries in Hc. destruct (delimiter t) as [c|] eqn:Ec.
    - destruct Hc as [Hc1 Hc2]. destruct (C115_data_at_every_moment uni o t c n ms sacts ss peer cap racts rs Ec Hs) as (_ & tagged & group & T1 & T2); try assumption.
      + intros j Hj. specialize (Hd j Hj). specialize (Hc1 j Hj). rewrite Forall_forall in *. intros m Hm. destruct (Hc1 m Hm) as [K1 K2]. split; [exact (Hd m Hm)|]. split; assumption.
      + exists tagged, group. split; [exact T1|]. intros j Hj. destruct (T2 j Hj) as [E1 E2]. split; [exact E1|]. intros k Hk. exact (proj2 (E2 k Hk)).
    - destruct t; try discriminate. destruct (C115_at_every_moment uni o n ms sacts ss peer cap racts rs Hs) as (_ & tagged & group & T1 & T2); try assumption.
      + intros j Hj. split; [exact (Hc j Hj)|exact (Hd j Hj)].
      + exists tagged, group. split; [exact T1|]. intros j Hj. destruct (T2 j Hj) as [E1 E2]. split; [exact E1|]. intros k Hk. exact (proj2 (E2 k Hk)). }
  destruct K as (tagged & group & T1 & T2). destruct (C115_no_duplicate uni o n ms _ peer _ tagged group T1 T2) as [rest P]. exists (map snd tagged), rest. split; [exact P|].
  clear -T1. induction T1 as [|x r tg l (_ & _ & _ & H) F IH]; [constructor|]. cbn [map]. constructor; assumption.
Qed.

Lemma hop_gives_all uni (ok : (nat -> list sdid) -> Prop) t n ms sacts ss peer cap racts rs : hop_so_far uni t n ms sacts ss peer cap racts rs ->
  carries uni t n ms (fun j k => on k (s_log (ss j))) peer racts -> (exists o, ok o) -> (forall o, ok o -> forall j, (j < n)%nat -> Forall (deliverable uni o) (ms j)) ->
  exists l rest, Permutation (concat (map ms (seq 0 n))) (l ++ rest) /\ (forall o, ok o -> Forall2 (delivered_as uni o) l (map snd (received rs))).
Proof.
  intros Hh Hc (o & Ho) Hd. destruct (hop_gives uni o t n ms sacts ss peer cap racts rs Hh Hc (Hd o Ho)) as (l & rest & P & F).
  exists l, rest. split; [exact P|]. intros o' Ho'. destruct (hop_gives uni o' t n ms sacts ss peer cap racts rs Hh Hc (Hd o' Ho')) as (l' & rest' & P' & F').
  assert (D : Forall (deliverable uni o') (concat (map ms (seq 0 n)))).
  { apply Forall_forall. intros m Hm. apply in_concat in Hm as (x & Hx & Hm). apply in_map_iff in Hx as (j & <- & Hj). apply in_seq in Hj. specialize (Hd o' Ho' j ltac:(lia)). rewrite Forall_forall in Hd. exact (Hd m Hm). }
  pose proof (Permutation_Forall P D) as D1. pose proof (Permutation_Forall P' D) as D2. apply Forall_app in D1 as [D1 _]. apply Forall_app in D2 as [D2 _].
  apply (f2_delivered uni o' l'); [|exact F']. apply (all_same uni o' l' l _ F'); [|exact D2|exact D1].
  clear -F. induction F as [|m p l ps (E & _) F IH]; constructor; assumption.
Qed.

Definition got_some (uni : N -> bool) (ok : (nat -> list sdid) -> Prop) (orig : list message) (got : list (nat * pair_t)) : Prop :=
  exists l rest, Permutation orig (l ++ rest) /\ forall o, ok o -> Forall2 (delivered_as uni o) l (map snd got).
Definition sends_some (uni : N -> bool) (ok : (nat -> list sdid) -> Prop) (orig ms : list message) : Prop :=
  (exists l rest, Permutation orig (l ++ rest) /\ Forall2 same_us l ms) /\ forall o, ok o -> Forall (deliverable uni o) ms.

Lemma perm_concat_rest {A} (f g h : nat -> list A) js : (forall j, In j js -> Permutation (f j) (g j ++ h j)) -> Permutation (concat (map f js)) (concat (map g js) ++ concat (map h js)).
Proof.
  induction js as [|j js IH]; intros H; cbn [map concat]; [constructor|].
  eapply Permutation_trans; [apply Permutation_app; [apply H; left; reflexivity|apply IH; intros; apply H; right; assumption]|].
  rewrite <- !app_assoc. apply Permutation_app_head. rewrite !app_assoc. apply Permutation_app_tail, Permutation_app_comm.
Qed.

(** At every moment what the root has received is some of the messages logged, each at most once, unchanged but for the time at the
    microsecond: nothing is invented, duplicated or altered. *)
Theorem C116_at_every_moment : forall uni ok orig got, (exists o, ok o) -> (forall o, ok o -> Forall (deliverable uni o) orig) -> collector_so_far uni ok orig got ->
  exists l rest, Permutation orig (l ++ rest) /\ forall o, ok o -> Forall2 (delivered_as uni o) l (map snd got).
Proof.
  intros uni ok orig got Hok Hd H. revert Hd. change (exists l rest, Permutation orig _ /\ _) with (got_some uni ok orig got).
  apply (collector_so_far_mut uni ok (fun orig got _ => (forall o, ok o -> Forall (deliverable uni o) orig) -> got_some uni ok orig got)
    (fun orig ms _ => (forall o, ok o -> Forall (deliverable uni o) orig) -> sends_some uni ok orig ms)); [| | | |exact H]; clear orig got H.
  - intros t n orig ms sacts ss peer cap racts rs _ IH Hh Hc Hd.
    assert (Hs : forall j, (j < n)%nat -> sends_some uni ok (orig j) (ms j)).
    { intros j Hj. apply IH; [exact Hj|]. intros o Ho. specialize (Hd o Ho). rewrite Forall_forall in *. intros m Hm. apply Hd, in_concat. exists (orig j). split; [|exact Hm].
      apply in_map_iff. exists j. split; [reflexivity|apply in_seq; lia]. }
    destruct (hop_gives_all uni ok t n ms sacts ss peer cap racts rs Hh Hc Hok) as (l & rest & P & F); [intros o Ho j Hj; exact (proj2 (Hs j Hj) o Ho)|].
    destruct (finite_choice (fun j (x : list message * list message) => Permutation (orig j) (fst x ++ snd x) /\ Forall2 same_us (fst x) (ms j)) ([], []) n) as [lj Hl].
    { intros j Hj. destruct (proj1 (Hs j Hj)) as (a & b & K). exists (a, b). exact K. }
    assert (S : Forall2 same_us (concat (map ms (seq 0 n))) (concat (map (fun j => fst (lj j)) (seq 0 n)))) by (apply f2_sym, f2_concat; intros j Hj; apply in_seq in Hj; apply Hl; lia).
    destruct (Permutation_Forall2 P S) as (l' & P' & S').
    apply Forall2_app_inv_l in S' as (l1 & l2 & S1 & S2 & ->).
    exists l1, (l2 ++ concat (map (fun j => snd (lj j)) (seq 0 n))). split.
    + eapply Permutation_trans; [apply (perm_concat_rest orig (fun j => fst (lj j)) (fun j => snd (lj j))); intros j Hj; apply in_seq in Hj; apply Hl; lia|].
      rewrite app_assoc. apply Permutation_app_tail. exact P'.
    + intros o Ho. exact (f2_delivered uni o l l1 _ S1 (F o Ho)).
  - intros ms Hd. split; [exists ms, []; rewrite app_nil_r; split; [apply Permutation_refl|]|exact Hd]. clear. induction ms; constructor; [apply same_refl|assumption].
  - intros orig got later ms _ IH R Hd. destruct (IH Hd) as (l & rest & P & F).
    assert (Hcut : exists l1 l2, l = l1 ++ l2 /\ length l1 = length got).
    { exists (firstn (length got) l), (skipn (length got) l). split; [symmetry; apply firstn_skipn|]. apply firstn_length_le. destruct Hok as [o Ho]. specialize (F o Ho). apply f2_length in F. rewrite map_length, app_length in F. lia. }
    destruct Hcut as (l1 & l2 & -> & L).
    assert (F1 : forall o, ok o -> Forall2 (delivered_as uni o) l1 (map snd got)).
    { intros o Ho. specialize (F o Ho). rewrite map_app in F. apply Forall2_app_inv_r in F as (a & b & Fa & _ & E).
      apply f2_length in Fa as La. rewrite map_length, <- L in La. pose proof (app_inv_length _ _ _ _ E) as K. rewrite K by lia. exact Fa. }
    destruct (relay_sends uni ok l1 got ms) as [S D]; [|exact F1|exact R|].
    + intros o Ho. pose proof (Permutation_Forall P (Hd o Ho)) as K. apply Forall_app in K as [K _]. apply Forall_app in K as [K _]. exact K.
    + split; [exists l1, (l2 ++ rest); rewrite app_assoc; auto|exact D].
  - intros o1 m1 o2 m2 ms _ IH1 _ IH2 P Hd.
    destruct IH1 as ((l1 & r1 & P1 & S1) & D1); [intros o Ho; specialize (Hd o Ho); apply Forall_app in Hd; apply Hd|].
    destruct IH2 as ((l2 & r2 & P2 & S2) & D2); [intros o Ho; specialize (Hd o Ho); apply Forall_app in Hd; apply Hd|]. split.
    + destruct (Permutation_Forall2 P (f2_sym _ _ (Forall2_app S1 S2))) as (l & Pl & Sl).
      exists l, (r1 ++ r2). split; [|apply f2_sym; exact Sl]. eapply Permutation_trans; [apply Permutation_app; eassumption|].
      eapply Permutation_trans; [|apply Permutation_app_tail; exact Pl]. rewrite <- !app_assoc. apply Permutation_app_head. rewrite !app_assoc. apply Permutation_app_tail, Permutation_app_comm.
    + intros o Ho. apply (Permutation_Forall P). apply Forall_app. auto.
Qed.
Print Assumptions C116_at_every_moment.

(** and what has been received in the end is among it: a finished tree is a tree so far. *)
Theorem C116_so_far : forall uni ok orig got, collector uni ok orig got -> collector_so_far uni ok orig got.
Proof.
  intros uni ok orig got H. apply (collector_mut uni ok (fun orig got _ => collector_so_far uni ok orig got) (fun orig ms _ => source_so_far uni ok orig ms)); [| | | |exact H]; clear orig got H.
  - intros t n orig ms sacts ss peer cap racts rs _ IH (H1 & H2 & H3 & _) Hc. apply (so_far uni ok t n orig ms sacts ss peer cap racts rs); [exact IH| |exact Hc]. split; [exact H1|]. split; [exact H2|exact H3].
  - intros ms. apply logs_so_far.
  - intros orig got ms _ IH R. apply (relays_so_far uni ok orig got [] ms); [rewrite app_nil_r; exact IH|exact R].
  - intros o1 m1 o2 m2 ms _ IH1 _ IH2 P. exact (together_so_far uni ok o1 m1 o2 m2 ms IH1 IH2 P).
Qed.
Print Assumptions C116_so_far.

(** Non-vacuity: one program logs three messages (RFC 5425 framing) to a relay, which sends them to a Receiver (LF framing)
    to which a second program logs; 2 + 1 programs, 6 messages. *)
Definition us_dmsgs : list message := map (fun m => msg_set_time m (at_us (m_time m))) dmsgs.
Definition leaf_sacts : list saction :=
  map ASend (map frame_of dmsgs) ++ [ATick; AConnect None; ALock; AWrite (length (concat (map frame_of dmsgs))) WOk; AWriteDone].
Definition leaf_ss : sstate := match srun sender_init leaf_sacts with Some s => s | None => sender_init end.
Definition relay_racts : list raction := [RStepSelect; RAccepted true None; KReadReturns 0 (concat (map frame_of dmsgs)) None; KPush 0; KPush 0; KPush 0; KNextTurn 0; RStepSelect; RReceive; RReceive; RReceive].
Definition leaf_peer (i : nat) : nat * nat := (0, i)%nat.
Definition root_racts : list raction := two_reads ++ [KNextTurn 0; KNextTurn 1; RStepSelect; RReceive; RReceive; RUserErr; RUserErr].

Lemma relay_run : exists rs, rrun TRFC5425 3 receiver_init relay_racts = Some rs /\ at_rest TRFC5425 3 rs /\ relayed (fun o => o = fun _ => []) (received rs) us_dmsgs.
Proof.
  eexists. split; [vm_compute; reflexivity|]. split; [|].
  - intros a s' Ho Hs. exfalso. destruct a; try discriminate; destruct i as [|[|i]]; discriminate.
  - exists (fun _ => []). split; [reflexivity|]. unfold us_dmsgs, dmsgs. cbn [map].
    repeat (constructor; [split; [vm_compute; reflexivity|exists []; vm_compute; reflexivity]|]). constructor.
Qed.

Lemma root_run : exists rs, rrun TLFEnded 3 receiver_init root_racts = Some rs /\ at_rest TLFEnded 3 rs /\ length (received rs) = 6%nat.
Proof.
  eexists. split; [vm_compute; reflexivity|]. split; [|vm_compute; reflexivity].
  intros a s' Ho Hs. exfalso. destruct a; try discriminate; destruct i as [|[|[|i]]]; discriminate.
Qed.

Lemma us_framable : Forall (framable uni0 (fun _ => []) 10%N) us_dmsgs.
Proof.
  destruct C84_data_nonvacuous as (ss & rs0 & Hf & _). unfold us_dmsgs. rewrite Forall_forall in *. intros m Hm. apply in_map_iff in Hm as (m0 & <- & Hm).
  destruct (Hf m0 Hm) as (H1 & H2 & H3). split; [exact (relay_deliverable _ _ _ H1)|]. split; [exact H2|]. intros enc E. apply H3. rewrite <- E. apply same_marshal, same_set.
Qed.

Example C116_nonvacuous : exists got, collector uni0 (fun o => o = fun _ => []) (dmsgs ++ us_dmsgs) got /\ length got = 6%nat /\
  Forall (deliverable uni0 (fun _ => [])) (dmsgs ++ us_dmsgs) /\ exists mid, chain uni0 (fun o => o = fun _ => []) dmsgs mid.
Proof.
  destruct C84_data_nonvacuous as (ss & rs0 & Hf & _ & Hs & _ & Hl & Hq & Hcl & _ & Hst & He & _).
  pose proof us_framable as Hu.
  assert (Ess : forall j, two_ss j = ss) by (intros j; unfold two_ss; rewrite Hs; reflexivity).
  assert (Er : forall i, (i < 2)%nat -> reads_of i root_racts = reads_of 0 data_receiver) by (intros i Hi; destruct i as [|[|i]]; [reflexivity|reflexivity|lia]).
  assert (Hno : forall i, reads_of i root_racts <> [] -> (i < 2)%nat) by (intros i Hi; destruct i as [|[|i]]; [lia|lia|exfalso; apply Hi; reflexivity]).
  assert (Hsd : sends data_sender = critical_sections uni0 TLFEnded us_dmsgs) by (vm_compute; reflexivity).
  assert (Ew : on 0 (s_log ss) = concat (map (encode TLFEnded) (encodings uni0 us_dmsgs))) by (rewrite <- Hst; vm_compute; reflexivity).
  assert (Hcc : ~ cut_after_data uni0 TLFEnded us_dmsgs (reads_of 0 data_receiver) /\ clear_past uni0 TLFEnded us_dmsgs (reads_of 0 data_receiver)).
  { destruct (rrun TLFEnded 1 receiver_init data_receiver) as [rs|] eqn:Err; [|vm_compute in Err; discriminate].
    apply (C84_structured_data_iff uni0 (fun _ => []) TLFEnded 10%N us_dmsgs data_sender ss 1 data_receiver rs 0 eq_refl Hu Hs Hsd Hl Hq Err Hst He).
    vm_compute in Err. injection Err as <-. unfold us_dmsgs, dmsgs. cbn [map]. repeat (constructor; [eexists; split; [vm_compute; reflexivity|]; split; vm_compute; reflexivity|]). constructor. }
  destruct Hcc as [Hc1 Hc2].
  assert (H1 : exists rs, hop uni0 TRFC5425 1 (fun _ => dmsgs) (fun _ => leaf_sacts) (fun _ => leaf_ss) leaf_peer 3 relay_racts rs /\
      carries uni0 TRFC5425 1 (fun _ => dmsgs) (fun j k => on k (s_log leaf_ss)) leaf_peer relay_racts /\ relayed (fun o => o = fun _ => []) (received rs) us_dmsgs).
  { destruct relay_run as (rs & R1 & R2 & R3). exists rs. split; [|split; [|exact R3]].
    - split; [|split; [exact R1|split; [|split; [|split; [|split; [|exact R2]]]]]].
      + intros j _. split; [vm_compute; reflexivity|]. split; [vm_compute; reflexivity|]. split; [|vm_compute; reflexivity].
        apply (clean_from_ok leaf_sacts []); [|reflexivity]. unfold leaf_sacts, dmsgs. cbn [map app clean_from]. repeat (split; [exact I|]). exact I.
      + split.
        * intros i Hi. destruct i as [|i]; [|exfalso; apply Hi; reflexivity]. split; [vm_compute; lia|]. split; [vm_compute; lia|]. exists []. split; [vm_compute; reflexivity|left; vm_compute; reflexivity].
        * intros i i' Hi Hi' E. injection E as E. exact E.
      + intros K. repeat (destruct K as [K|K]; [discriminate|]). exact K.
      + vm_compute. intros K. repeat (destruct K as [K|K]; [discriminate|]). exact K.
      + intros j k Hj Hk. assert (j = 0%nat) as -> by lia. assert (k = 0%nat) as -> by (vm_compute in Hk; lia). exists 0%nat. split; [reflexivity|vm_compute; reflexivity].
    - intros j _. vm_compute encodings. repeat (constructor; [apply small_fits; vm_compute; lia|]). constructor. }
  destruct H1 as (rs1 & H1 & H1c & H1r). destruct root_run as (rs & R1 & R2 & R3). exists (received rs). split; [|split; [exact R3|split]].
  - replace (dmsgs ++ us_dmsgs) with (concat (map (fun j => match j with 0%nat => dmsgs | _ => us_dmsgs end) (seq 0 2))) by (cbn [seq map concat]; rewrite app_nil_r; reflexivity).
    apply (collects uni0 _ TLFEnded 2 _ (fun _ => us_dmsgs) two_sacts two_ss two_peer 3 root_racts rs).
    + intros j Hj. destruct j as [|j]; [|apply logs]. apply (relays _ _ dmsgs (received rs1)); [|exact H1r].
      replace dmsgs with (concat (map (fun _ : nat => dmsgs) (seq 0 1))) by (cbn [seq map concat]; apply app_nil_r).
      apply (collects uni0 _ TRFC5425 1 _ (fun _ => dmsgs) (fun _ => leaf_sacts) (fun _ => leaf_ss) leaf_peer 3 relay_racts rs1); [intros; apply logs|exact H1|exact H1c].
    + split; [intros j _; rewrite Ess; split; [exact Hs|]; split; [exact Hsd|]; split; [exact Hcl|exact Hq]|]. split; [exact R1|]. split; [|split; [|split; [|split; [|exact R2]]]].
      * split.
        -- intros i Hi. specialize (Hno i Hi). rewrite (Er i Hno), Ess. destruct i as [|[|i]]; [| |lia]; (split; [vm_compute; lia|]; split; [vm_compute; lia|]; exists []; rewrite app_nil_r; split; [exact Hst|right; split; [reflexivity|exact He]]).
        -- intros i i' Hi Hi' E. specialize (Hno i Hi) as K. specialize (Hno i' Hi') as K'. destruct i as [|[|i]]; [| |lia]; (destruct i' as [|[|i']]; [| |lia]); first [reflexivity|discriminate].
      * intros K. repeat (destruct K as [K|K]; [discriminate|]). exact K.
      * vm_compute. intros K. repeat (destruct K as [K|K]; [discriminate|]). exact K.
      * intros j k Hj Hk. rewrite Ess. assert (k = 0%nat) as -> by (vm_compute in Hk; lia).
        destruct j as [|[|j]]; [exists 1%nat|exists 0%nat|lia]; (split; [reflexivity|rewrite Er by lia; exact Hst]).
    + cbn [carries delimiter]. split; [intros j _; eapply Forall_impl; [|exact Hu]; intros m (_ & Hm); exact Hm|].
      intros i g Hi _ Hp. specialize (Hno i Hi). rewrite (Er i Hno). rewrite Ess in Hp.
      replace (snd (two_peer i)) with 0%nat in Hp by (destruct i as [|[|i]]; [reflexivity|reflexivity|lia]). rewrite Ew in Hp.
      apply whole_part in Hp; [|exact (framable_marshals uni0 _ 10%N _ Hu)]. rewrite Hp. split; [exact Hc1|]. intros before m after rest E Hne _. exact (Hc2 before m after E Hne).
  - apply Forall_app. split; [eapply Forall_impl; [|exact Hf]|eapply Forall_impl; [|exact Hu]]; intros m Hm; exact (proj1 Hm).
  - exists (received rs1). exact (first_hop _ _ dmsgs TRFC5425 (fun _ => leaf_sacts) _ _ _ _ _ eq_refl H1 H1c).
Qed.

(** PropChanRace.v -- C57: concurrent calls of Channel on a fresh Syslog, for every schedule. *)
From Verif Require Import Base BaseFacts MPriority MMessage MSyslog LSyslog MChanRace.

Lemma upd_length {A} (l : list A) : forall i x, length (upd l i x) = length l.
Proof. induction l; intros [|i] x; cbn; auto. Qed.
Lemma upd_same {A} (l : list A) : forall i x y, nth_error l i = Some y -> nth_error (upd l i x) i = Some x.
Proof. induction l; intros [|i] x y H; try discriminate; cbn in *; eauto. Qed.
Lemma upd_other {A} (l : list A) : forall i j x, i <> j -> nth_error (upd l i x) j = nth_error l j.
Proof. induction l; intros [|i] [|j] x H; cbn; auto; congruence. Qed.
Lemma store_some l : forall k c, (k < length l)%nat -> exists l', store l k c = Some l' /\ length l' = length l /\
  nth_error l' k = Some c /\ forall j, j <> k -> nth_error l' j = nth_error l j.
Proof.
  induction l as [|x l IH]; intros [|k] c H; cbn in *; try lia.
  - exists (c :: l). split; [reflexivity|]. split; [reflexivity|]. split; [reflexivity|]. intros [|j] Hj; [congruence|reflexivity].
  - destruct (IH k c ltac:(lia)) as (l' & E & L & E1 & E2). rewrite E. exists (x :: l'). split; [reflexivity|]. split; [cbn; congruence|]. split; [exact E1|].
    intros [|j] Hj; [reflexivity|]. cbn. apply E2. lia.
Qed.

(** a call that has found channels == nil and has not finished the loop *)
Definition initialising (pc : cpc) : bool := match pc with CAssign | CFill _ | CStore _ _ => true | _ => false end.

Record cinv (mk : nat -> channel) (minsev : nat) (sevs : list nat) (es : list cevent) (s : cstate) : Prop := {
  ci_sev : map fst (c_calls s) = sevs;
  ci_field : c_field s = match length (c_arrays s) with O => None | S n => Some n end;
  ci_array : forall a l, nth_error (c_arrays s) a = Some l -> length l = 8%nat /\
      forall k, (k <= 7)%nat -> (In (EvStored a k) es -> nth_error l k = Some (mk k)) /\ (~ In (EvStored a k) es -> nth_error l k = Some DevNull);
  ci_stored : forall a k, In (EvStored a k) es -> (k <= minsev)%nat /\ (a < length (c_arrays s))%nat;
  ci_pc : forall i sev pc, nth_error (c_calls s) i = Some (sev, pc) ->
      match pc with
      | CFill _ | CLoad => c_arrays s <> []
      | CStore k a => (k <= minsev)%nat /\ (a < length (c_arrays s))%nat
      | CGet a => In (EvLoaded i a) es /\ (a < length (c_arrays s))%nat
      | _ => True
      end;
  ci_done : forall a, c_field s = Some a ->
      (forall k, (k <= minsev)%nat -> In (EvStored a k) es) \/
      (exists i sev k, (nth_error (c_calls s) i = Some (sev, CFill k) \/ nth_error (c_calls s) i = Some (sev, CStore k a)) /\ forall j, (j < k)%nat -> In (EvStored a j) es);
  ci_ret : forall e1 i a c e2, es = e1 ++ EvReturned i a c :: e2 ->
      exists sev, nth_error sevs i = Some sev /\ In (EvLoaded i a) e1 /\ (In (EvStored a sev) e1 -> c = mk sev) /\ (~ In (EvStored a sev) e1 -> c = DevNull) }.

Lemma stored_dec es a k : In (EvStored a k) es \/ ~ In (EvStored a k) es.
Proof.
  induction es as [|e es IH]; [right; intros []|]. destruct IH as [IH|IH]; [left; right; exact IH|].
  assert (D : e = EvStored a k \/ e <> EvStored a k).
  { destruct e as [b|b j|i b|i b c]; try (right; discriminate). destruct (Nat.eq_dec b a) as [->|]; [|right; congruence].
    destruct (Nat.eq_dec j k) as [->|]; [left; reflexivity|right; congruence]. }
  destruct D as [->|D]; [left; left; reflexivity|right]. intros [E|E]; contradiction.
Qed.

Lemma map_fst_upd (l : list (nat * cpc)) : forall i sev pc pc', nth_error l i = Some (sev, pc) -> map fst (upd l i (sev, pc')) = map fst l.
Proof. induction l as [|x l IH]; intros [|i] sev pc pc' H; try discriminate; cbn in *; [injection H as ->; reflexivity|]. f_equal. eapply IH. exact H. Qed.

Lemma snoc_split {A} (es : list A) x e1 y e2 : es ++ [x] = e1 ++ y :: e2 -> (exists e2', e2 = e2' ++ [x] /\ es = e1 ++ y :: e2') \/ (e2 = [] /\ es = e1 /\ x = y).
Proof.
  intros H. destruct e2 as [|z e2] using rev_ind.
  - apply app_inj_tail in H as [-> ->]. right. auto.
  - clear IHe2. change (e1 ++ y :: e2 ++ [z]) with (e1 ++ (y :: e2) ++ [z]) in H. rewrite app_assoc in H. apply app_inj_tail in H as [-> ->]. left. eauto.
Qed.

(** a step that changes only where call i is and adds no event *)
Lemma quiet_inv mk minsev sevs es s i sev pc pc' :
  cinv mk minsev sevs es s -> nth_error (c_calls s) i = Some (sev, pc) ->
  match pc' with
  | CFill _ | CLoad => c_arrays s <> []
  | CStore k a => (k <= minsev)%nat /\ (a < length (c_arrays s))%nat
  | CGet a => In (EvLoaded i a) es /\ (a < length (c_arrays s))%nat
  | _ => True
  end ->
  (match pc with CFill k => match pc' with CStore k' a => k' = k /\ c_field s = Some a | CLoad => (minsev < k)%nat | _ => False end | CStore _ _ => False | _ => True end) ->
  cinv mk minsev sevs es {| c_arrays := c_arrays s; c_field := c_field s; c_calls := upd (c_calls s) i (sev, pc') |}.
Proof.
  intros [Hs Hf Ha Hst Hp Hd Hr] Hi Hok Hpc. constructor; cbn [c_arrays c_field c_calls]; auto.
  - rewrite (map_fst_upd _ _ _ _ _ Hi). exact Hs.
  - intros j sv p Hj. destruct (Nat.eq_dec i j) as [<-|Hne].
    + rewrite (upd_same _ _ _ _ Hi) in Hj. injection Hj as <- <-. exact Hok.
    + rewrite upd_other in Hj by exact Hne. exact (Hp j sv p Hj).
  - intros a Ea. destruct (Hd a Ea) as [H|(j & sv & k & Hj & Hk)]; [left; exact H|].
    destruct (Nat.eq_dec i j) as [<-|Hne].
    + destruct Hj as [Hj|Hj]; rewrite Hi in Hj; injection Hj as -> ->; [|contradiction].
      destruct pc' as [| | |k' a'| | |]; try contradiction.
      * destruct Hpc as [-> Ea']. rewrite Ea in Ea'. injection Ea' as <-. right. exists i, sv, k. split; [right; exact (upd_same _ _ _ _ Hi)|exact Hk].
      * left. intros j Hj. apply Hk. lia.
    + right. exists j, sv, k. rewrite upd_other by exact Hne. split; [exact Hj|exact Hk].
Qed.

Lemma arrays_app l (a : nat) (x y : list channel) : nth_error (l ++ [x]) a = Some y -> (nth_error l a = Some y /\ (a < length l)%nat) \/ (a = length l /\ y = x).
Proof.
  intros H. destruct (Nat.lt_ge_cases a (length l)) as [L|L]; [left; rewrite nth_error_app1 in H by exact L; auto|right].
  rewrite nth_error_app2 in H by exact L. destruct (a - length l)%nat as [|n] eqn:E; cbn in H; [injection H as <-; split; [lia|reflexivity]|destruct n; discriminate].
Qed.

Lemma cstep_inv mk minsev sevs es s i s' e : (minsev <= 7)%nat -> Forall (fun k => (k <= 7)%nat) sevs ->
  cinv mk minsev sevs es s -> cstep mk minsev s i = Some (s', e) -> cinv mk minsev sevs (es ++ e) s'.
Proof.
  intros Hm7 Hs7 I H. unfold cstep in H. destruct (nth_error (c_calls s) i) as [[sev pc]|] eqn:Hi; [|discriminate]. cbv zeta in H.
  pose proof I as [Hs Hf Ha Hst Hp Hd Hr].
  assert (Hne : forall a l, nth_error (c_arrays s) a = Some l -> c_arrays s <> []) by (intros a l E E'; rewrite E' in E; destruct a; discriminate).
  assert (Hfl : forall a, c_field s = Some a -> (a < length (c_arrays s))%nat /\ c_arrays s <> []).
  { intros a E. rewrite Hf in E. destruct (c_arrays s); [discriminate|]. cbn in E. injection E as <-. split; [cbn; lia|discriminate]. }
  destruct pc as [| |k|k a| |a|c].
  - injection H as <- <-. rewrite app_nil_r. eapply quiet_inv; [exact I|exact Hi| |exact Logic.I].
    destruct (c_field s) as [a|] eqn:Ef; [apply (Hfl a eq_refl)|exact Logic.I].
  - (* install *) injection H as <- <-.
    assert (Hns : forall k, ~ In (EvStored (length (c_arrays s)) k) (es ++ [EvInstall (length (c_arrays s))])).
    { intros k Hin. apply in_app_iff in Hin as [Hin|[Hin|[]]]; [apply Hst in Hin; lia|discriminate]. }
    constructor; cbn [c_arrays c_field c_calls].
    + rewrite (map_fst_upd _ _ _ _ _ Hi). exact Hs.
    + rewrite app_length. cbn [length]. rewrite Nat.add_1_r. reflexivity.
    + intros a l El. apply arrays_app in El as [[El La]|[-> ->]].
      * destruct (Ha a l El) as [L K]. split; [exact L|]. intros k Hk. destruct (K k Hk) as [K1 K2]. split.
        -- intros Hin. apply in_app_iff in Hin as [Hin|[Hin|[]]]; [exact (K1 Hin)|discriminate].
        -- intros Hin. apply K2. intros Hin'. apply Hin, in_app_iff. auto.
      * split; [reflexivity|]. intros k Hk. split; [intros Hin; exfalso; exact (Hns k Hin)|]. intros _. unfold null_channels. apply nth_error_repeat. lia.
    + intros a k Hin. apply in_app_iff in Hin as [Hin|[Hin|[]]]; [|discriminate]. destruct (Hst a k Hin). rewrite app_length. split; [assumption|lia].
    + intros j sv p Hj. assert (Hnn : c_arrays s ++ [null_channels] <> []) by (destruct (c_arrays s); discriminate). rewrite app_length. cbn [length].
      destruct (Nat.eq_dec i j) as [<-|Hnij].
      * rewrite (upd_same _ _ _ _ Hi) in Hj. injection Hj as <- <-. exact Hnn.
      * rewrite upd_other in Hj by exact Hnij. specialize (Hp j sv p Hj). destruct p; auto; [destruct Hp; split; [assumption|lia]|].
        destruct Hp as [Hp1 Hp2]. split; [apply in_app_iff; auto|lia].
    + intros a Ea. injection Ea as <-. right. exists i, sev, 0%nat. split; [left; exact (upd_same _ _ _ _ Hi)|]. intros j Hj. lia.
    + intros e1 j a c e2 E. apply snoc_split in E as [(e2' & _ & E)|(_ & _ & E)]; [exact (Hr _ _ _ _ _ E)|discriminate].
  - (* loop head *) destruct (Nat.leb_spec k minsev) as [L|L].
    + destruct (c_field s) as [a|] eqn:Ef; [|discriminate]. injection H as <- <-. rewrite app_nil_r, <- Ef. eapply quiet_inv; [exact I|exact Hi| |].
      * split; [exact L|]. apply (Hfl a eq_refl).
      * split; [reflexivity|exact Ef].
    + injection H as <- <-. rewrite app_nil_r. eapply quiet_inv; [exact I|exact Hi|exact (Hp i sev _ Hi)|exact L].
  - (* store *) destruct (Hp i sev _ Hi) as [Lk La].
    destruct (nth_error (c_arrays s) a) as [l|] eqn:El; [|discriminate]. destruct (Ha a l El) as [L8 Hl].
    destruct (store_some l k (mk k) ltac:(lia)) as (l' & E & L' & E1 & E2). rewrite E in H. injection H as <- <-.
    assert (Hin : forall b j, In (EvStored b j) (es ++ [EvStored a k]) <-> In (EvStored b j) es \/ (b = a /\ j = k)).
    { intros b j. rewrite in_app_iff. cbn [In]. split; [intros [H|[H|[]]]; [auto|injection H as <- <-; auto]|intros [H|[-> ->]]; auto]. }
    constructor; cbn [c_arrays c_field c_calls].
    + rewrite (map_fst_upd _ _ _ _ _ Hi). exact Hs.
    + rewrite upd_length. exact Hf.
    + intros b lb Eb. destruct (Nat.eq_dec a b) as [<-|Hnab].
      * rewrite (upd_same _ _ _ _ El) in Eb. injection Eb as <-. split; [congruence|]. intros j Hj. destruct (Nat.eq_dec j k) as [->|Hjk].
        -- split; [intros _; exact E1|]. intros Hn. exfalso. apply Hn, Hin. auto.
        -- rewrite (E2 j Hjk). destruct (Hl j Hj) as [K1 K2]. split; intros Hx; [apply K1; apply Hin in Hx as [Hx|[_ Hx]]; [exact Hx|contradiction]|apply K2; intros Hy; apply Hx, Hin; auto].
      * rewrite upd_other in Eb by exact Hnab. destruct (Ha b lb Eb) as [L K]. split; [exact L|]. intros j Hj. destruct (K j Hj) as [K1 K2].
        split; intros Hx; [apply K1; apply Hin in Hx as [Hx|[Hx _]]; [exact Hx|congruence]|apply K2; intros Hy; apply Hx, Hin; auto].
    + intros b j Hx. rewrite upd_length. apply Hin in Hx as [Hx|[-> ->]]; [exact (Hst b j Hx)|auto].
    + intros j sv p Hj. rewrite upd_length.
      assert (Hnn : upd (c_arrays s) a l' <> []) by (intros E0; apply (f_equal (@length _)) in E0; rewrite upd_length in E0; cbn in E0; lia).
      destruct (Nat.eq_dec i j) as [<-|Hnij].
      * rewrite (upd_same _ _ _ _ Hi) in Hj. injection Hj as <- <-. exact Hnn.
      * rewrite upd_other in Hj by exact Hnij. specialize (Hp j sv p Hj). destruct p; auto. destruct Hp as [Hp1 Hp2]. split; [apply in_app_iff; auto|exact Hp2].
    + intros b Eb. destruct (Hd b Eb) as [Hall|(j & sv & k' & Hj & Hk)].
      * left. intros j Hj. apply Hin. left. exact (Hall j Hj).
      * destruct (Nat.eq_dec i j) as [<-|Hnij].
        -- destruct Hj as [Hj|Hj]; rewrite Hi in Hj; [discriminate|]. injection Hj as <- <- <-. right. exists i, sev, (S k).
           split; [left; exact (upd_same _ _ _ _ Hi)|]. intros j Hj. apply Hin. destruct (Nat.eq_dec j k) as [->|]; [auto|left; apply Hk; lia].
        -- right. exists j, sv, k'. rewrite upd_other by exact Hnij. split; [exact Hj|]. intros q Hq. apply Hin. left. exact (Hk q Hq).
    + intros e1 j b c e2 Ex. apply snoc_split in Ex as [(e2' & _ & Ex)|(_ & _ & Ex)]; [exact (Hr _ _ _ _ _ Ex)|discriminate].
  - (* load *) destruct (c_field s) as [a|] eqn:Ef; [|discriminate]. injection H as <- <-. rewrite <- Ef.
    assert (Hfa := Hfl a eq_refl). rewrite <- Ef in Hf, Hd. clear Hfl.
    assert (I2 : cinv mk minsev sevs (es ++ [EvLoaded i a]) s).
    { assert (Hin : forall b j, In (EvStored b j) (es ++ [EvLoaded i a]) <-> In (EvStored b j) es).
      { intros b j. rewrite in_app_iff. cbn [In]. split; [intros [H|[H|[]]]; [auto|discriminate]|auto]. }
      constructor; auto.
      - intros b l El. destruct (Ha b l El) as [L K]. split; [exact L|]. intros k Hk. rewrite Hin. exact (K k Hk).
      - intros b k Hx. apply Hin in Hx. exact (Hst b k Hx).
      - intros j sv p Hj. specialize (Hp j sv p Hj). destruct p; auto. destruct Hp as [Hp1 Hp2]. split; [apply in_app_iff; auto|exact Hp2].
      - intros b Eb. destruct (Hd b Eb) as [Hall|(j & sv & k & Hj & Hk)]; [left|right; exists j, sv, k; split; [exact Hj|]]; intros q Hq; apply Hin; auto.
      - intros e1 j b c e2 Ex. apply snoc_split in Ex as [(e2' & _ & Ex)|(_ & _ & Ex)]; [exact (Hr _ _ _ _ _ Ex)|discriminate]. }
    eapply quiet_inv; [exact I2|exact Hi| |exact Logic.I]. split; [apply in_app_iff; right; left; reflexivity|apply Hfa].
  - (* get *) destruct (Hp i sev _ Hi) as [Hld La]. destruct (nth_error (c_arrays s) a) as [l|] eqn:El; [|discriminate].
    destruct (nth_error l sev) as [c|] eqn:Ec; [|discriminate]. injection H as <- <-.
    assert (Esev : nth_error sevs i = Some sev) by (rewrite <- Hs, nth_error_map, Hi; reflexivity).
    assert (L7 : (sev <= 7)%nat) by (rewrite Forall_forall in Hs7; apply Hs7; eapply nth_error_In; exact Esev).
    assert (I2 : cinv mk minsev sevs (es ++ [EvReturned i a c]) s).
    { assert (Hin : forall b j, In (EvStored b j) (es ++ [EvReturned i a c]) <-> In (EvStored b j) es).
      { intros b j. rewrite in_app_iff. cbn [In]. split; [intros [H|[H|[]]]; [auto|discriminate]|auto]. }
      constructor; auto.
      - intros b lb Eb. destruct (Ha b lb Eb) as [L K]. split; [exact L|]. intros k Hk. rewrite Hin. exact (K k Hk).
      - intros b k Hx. apply Hin in Hx. exact (Hst b k Hx).
      - intros j sv p Hj. specialize (Hp j sv p Hj). destruct p; auto. destruct Hp as [Hp1 Hp2]. split; [apply in_app_iff; auto|exact Hp2].
      - intros b Eb. destruct (Hd b Eb) as [Hall|(j & sv & k & Hj & Hk)]; [left|right; exists j, sv, k; split; [exact Hj|]]; intros q Hq; apply Hin; auto.
      - intros e1 j b c' e2 Ex. apply snoc_split in Ex as [(e2' & _ & Ex)|(_ & <- & Ex)]; [exact (Hr _ _ _ _ _ Ex)|]. injection Ex as <- <- <-.
        exists sev. split; [exact Esev|]. split; [exact Hld|]. destruct (Ha a l El) as [_ K]. destruct (K sev L7) as [K1 K2].
        split; intros Hx; [specialize (K1 Hx)|specialize (K2 Hx)]; congruence. }
    eapply quiet_inv; [exact I2|exact Hi|exact Logic.I|exact Logic.I].
  - discriminate.
Qed.

Lemma crun_app mk minsev a : forall s b, crun mk minsev s (a ++ b) =
  match crun mk minsev s a with Some (s1, e1) => match crun mk minsev s1 b with Some (s2, e2) => Some (s2, e1 ++ e2) | None => None end | None => None end.
Proof.
  induction a as [|i a IH]; intros s b; cbn [app crun].
  - destruct (crun mk minsev s b) as [[s2 e2]|]; reflexivity.
  - destruct (cstep mk minsev s i) as [[s1 e]|]; [|reflexivity]. rewrite IH. destruct (crun mk minsev s1 a) as [[s2 e2]|]; [|reflexivity].
    destruct (crun mk minsev s2 b) as [[s3 e3]|]; [|reflexivity]. rewrite app_assoc. reflexivity.
Qed.

Lemma init_inv mk minsev sevs : cinv mk minsev sevs [] (calls_init sevs).
Proof.
  constructor; cbn [calls_init c_arrays c_field c_calls length].
  - rewrite map_map. cbn. apply map_id.
  - reflexivity.
  - intros [|a] l H; discriminate.
  - intros a k [].
  - intros i sev pc H. rewrite nth_error_map in H. destruct (nth_error sevs i); [|discriminate]. cbn in H. injection H as <- <-. exact I.
  - discriminate.
  - intros e1 i a c e2 H. destruct e1; discriminate.
Qed.

Lemma crun_inv mk minsev sevs : (minsev <= 7)%nat -> Forall (fun k => (k <= 7)%nat) sevs -> forall sched s es0 s' es,
  cinv mk minsev sevs es0 s -> crun mk minsev s sched = Some (s', es) -> cinv mk minsev sevs (es0 ++ es) s'.
Proof.
  intros Hm Hs. induction sched as [|i sched IH]; intros s es0 s' es I H; cbn [crun] in H.
  - injection H as <- <-. rewrite app_nil_r. exact I.
  - destruct (cstep mk minsev s i) as [[s1 e]|] eqn:E; [|discriminate]. destruct (crun mk minsev s1 sched) as [[s2 e2]|] eqn:E2; [|discriminate]. injection H as <- <-.
    rewrite app_assoc. eapply IH; [|exact E2]. eapply cstep_inv; eauto.
Qed.

(** ** C57 *)

(** Exactly which channel a call returns: it read the table [a] that was installed last when it looked;
    it gets the logging channel if and only if its element had been stored in that table before the
    call read it, and the null channel otherwise. *)
Theorem C57_returned_iff : forall mk minsev sevs sched s es e1 i a c e2, (minsev <= 7)%nat -> Forall (fun k => (k <= 7)%nat) sevs ->
  crun mk minsev (calls_init sevs) sched = Some (s, es) -> es = e1 ++ EvReturned i a c :: e2 ->
  exists sev, nth_error sevs i = Some sev /\ In (EvLoaded i a) e1 /\ (In (EvStored a sev) e1 -> c = mk sev) /\ (~ In (EvStored a sev) e1 -> c = DevNull).
Proof. intros mk minsev sevs sched s es e1 i a c e2 Hm Hs H E. destruct (crun_inv mk minsev sevs Hm Hs sched _ [] _ _ (init_inv mk minsev sevs) H) as [_ _ _ _ _ _ Hr]. exact (Hr _ _ _ _ _ E). Qed.
Print Assumptions C57_returned_iff.

(** The claim is false: a call can find the table before it is filled ... *)
Definition racy_mk : nat -> channel := sev_channel 8 (bs "h") (bs "1") (bs "app") (Some 0%nat).
Theorem C57_null_channel_refuted : exists s, crun racy_mk 7 (calls_init [3; 3]%nat) [0; 0; 1; 1; 1]%nat = Some (s, [EvInstall 0; EvLoaded 1 0; EvReturned 1 0 DevNull]) .
Proof. eexists. vm_compute. reflexivity. Qed.
Print Assumptions C57_null_channel_refuted.

(** ... and even a call that filled it can get the null channel of another call's table. *)
Theorem C57_filler_refuted : exists s es, crun racy_mk 1 (calls_init [0; 0]%nat) [0; 1; 0; 0; 0; 0; 0; 0; 1; 0; 0]%nat = Some (s, es) /\
  In (EvStored 0 0) es /\ last es (EvInstall 9) = EvReturned 0 1 DevNull.
Proof. do 2 eexists. split; [vm_compute; reflexivity|]. split; [cbn; auto|reflexivity]. Qed.
Print Assumptions C57_filler_refuted.

(** Once the table exists and no call is initialising it, it is complete and stays so: every call
    that starts from then on returns the right channel, in every schedule. *)
Lemma settled_field mk minsev sevs es s : cinv mk minsev sevs es s -> (forall i sev pc, nth_error (c_calls s) i = Some (sev, pc) -> initialising pc = false) ->
  forall a, c_field s = Some a -> forall k, (k <= minsev)%nat -> In (EvStored a k) es.
Proof.
  intros [_ _ _ _ _ Hd _] Hn a Ea. destruct (Hd a Ea) as [H|(i & sev & k & [Hi|Hi] & _)]; [exact H| |]; specialize (Hn _ _ _ Hi); discriminate.
Qed.

Lemma settled_step mk minsev s i s' e a : c_field s = Some a -> (forall j sev pc, nth_error (c_calls s) j = Some (sev, pc) -> initialising pc = false) -> cstep mk minsev s i = Some (s', e) ->
  c_field s' = Some a /\ (forall j sev pc, nth_error (c_calls s') j = Some (sev, pc) -> initialising pc = false) /\ forall j b, In (EvLoaded j b) e -> b = a.
Proof.
  intros Ef Hn H. unfold cstep in H. destruct (nth_error (c_calls s) i) as [[sev pc]|] eqn:Hi; [|discriminate]. cbv zeta in H.
  pose proof (Hn _ _ _ Hi) as Hpc. rewrite Ef in H.
  assert (K : forall pc', initialising pc' = false -> forall j sv p, nth_error (upd (c_calls s) i (sev, pc')) j = Some (sv, p) -> initialising p = false).
  { intros pc' Hp j sv p Hj. destruct (Nat.eq_dec i j) as [<-|Hne]; [rewrite (upd_same _ _ _ _ Hi) in Hj; injection Hj as <- <-; exact Hp|].
    rewrite upd_other in Hj by exact Hne. exact (Hn _ _ _ Hj). }
  destruct pc as [| |k|k b| |b|c]; try discriminate.
  - injection H as <- <-. cbn [c_field c_calls]. split; [reflexivity|]. split; [apply K; reflexivity|]. intros j b [].
  - injection H as <- <-. cbn [c_field c_calls]. split; [reflexivity|]. split; [apply K; reflexivity|]. intros j b [E|[]]. congruence.
  - destruct (nth_error (c_arrays s) b) as [l|]; [|discriminate]. destruct (nth_error l sev) as [c|]; [|discriminate]. injection H as <- <-. cbn [c_field c_calls].
    split; [reflexivity|]. split; [apply K; reflexivity|]. intros j b' [E|[]]. discriminate.
Qed.

Lemma settled_run mk minsev sched : forall s s' es a, c_field s = Some a -> (forall j sev pc, nth_error (c_calls s) j = Some (sev, pc) -> initialising pc = false) ->
  crun mk minsev s sched = Some (s', es) -> forall j b, In (EvLoaded j b) es -> b = a.
Proof.
  induction sched as [|i sched IH]; intros s s' es a Ef Hn H j b Hin; cbn [crun] in H.
  - injection H as <- <-. destruct Hin.
  - destruct (cstep mk minsev s i) as [[s1 e]|] eqn:E; [|discriminate]. destruct (crun mk minsev s1 sched) as [[s2 e2]|] eqn:E2; [|discriminate]. injection H as <- <-.
    destruct (settled_step _ _ _ _ _ _ _ Ef Hn E) as (Ef1 & Hn1 & Hl). apply in_app_iff in Hin as [Hin|Hin]; [exact (Hl _ _ Hin)|].
    exact (IH _ _ _ _ Ef1 Hn1 E2 _ _ Hin).
Qed.

(** every load is recorded when the call looks, not before it starts *)
Lemma not_started mk minsev sevs sched : (minsev <= 7)%nat -> Forall (fun k => (k <= 7)%nat) sevs -> forall s es, crun mk minsev (calls_init sevs) sched = Some (s, es) ->
  forall i sev, nth_error (c_calls s) i = Some (sev, CCheck) -> forall a, ~ In (EvLoaded i a) es.
Proof.
  intros Hm Hs7. induction sched as [|x sched IH] using rev_ind; intros s es H i sev Hi a Hin.
  - cbn in H. injection H as <- <-. destruct Hin.
  - rewrite crun_app in H. destruct (crun mk minsev (calls_init sevs) sched) as [[s1 e1]|] eqn:E1; [|discriminate]. cbn [crun] in H.
    destruct (cstep mk minsev s1 x) as [[s2 e]|] eqn:E; [|discriminate]. injection H as <- <-. rewrite app_nil_r in Hin.
    unfold cstep in E. destruct (nth_error (c_calls s1) x) as [[sv pc]|] eqn:Hx; [|discriminate]. cbv zeta in E.
    assert (Hne : i <> x).
    { intros ->. destruct pc as [| |k|k b| |b|c]; try discriminate.
      - destruct (c_field s1); injection E as <- _; cbn [c_calls] in Hi; rewrite (upd_same _ _ _ _ Hx) in Hi; discriminate.
      - injection E as <- _; cbn [c_calls] in Hi; rewrite (upd_same _ _ _ _ Hx) in Hi; discriminate.
      - destruct (k <=? minsev)%nat; [destruct (c_field s1); [|discriminate]|]; injection E as <- _; cbn [c_calls] in Hi; rewrite (upd_same _ _ _ _ Hx) in Hi; discriminate.
      - destruct (nth_error (c_arrays s1) b); [|discriminate]. destruct (store l k (mk k)); [|discriminate]. injection E as <- _; cbn [c_calls] in Hi; rewrite (upd_same _ _ _ _ Hx) in Hi; discriminate.
      - destruct (c_field s1); [|discriminate]. injection E as <- _; cbn [c_calls] in Hi; rewrite (upd_same _ _ _ _ Hx) in Hi; discriminate.
      - destruct (nth_error (c_arrays s1) b); [|discriminate]. destruct (nth_error l sv); [|discriminate]. injection E as <- _; cbn [c_calls] in Hi; rewrite (upd_same _ _ _ _ Hx) in Hi; discriminate. }
    assert (Hi1 : nth_error (c_calls s1) i = Some (sev, CCheck)).
    { destruct pc as [| |k|k b| |b|c]; try discriminate.
      - destruct (c_field s1); injection E as <- _; cbn [c_calls] in Hi; rewrite upd_other in Hi by congruence; exact Hi.
      - injection E as <- _; cbn [c_calls] in Hi; rewrite upd_other in Hi by congruence; exact Hi.
      - destruct (k <=? minsev)%nat; [destruct (c_field s1); [|discriminate]|]; injection E as <- _; cbn [c_calls] in Hi; rewrite upd_other in Hi by congruence; exact Hi.
      - destruct (nth_error (c_arrays s1) b); [|discriminate]. destruct (store l k (mk k)); [|discriminate]. injection E as <- _; cbn [c_calls] in Hi; rewrite upd_other in Hi by congruence; exact Hi.
      - destruct (c_field s1); [|discriminate]. injection E as <- _; cbn [c_calls] in Hi; rewrite upd_other in Hi by congruence; exact Hi.
      - destruct (nth_error (c_arrays s1) b); [|discriminate]. destruct (nth_error l sv); [|discriminate]. injection E as <- _; cbn [c_calls] in Hi; rewrite upd_other in Hi by congruence; exact Hi. }
    apply in_app_iff in Hin as [Hin|Hin]; [exact (IH _ _ eq_refl _ _ Hi1 _ Hin)|].
    destruct pc as [| |k|k b| |b|c]; try discriminate.
    + destruct (c_field s1); injection E as _ <-; destruct Hin.
    + injection E as _ <-. destruct Hin as [Hin|[]]; discriminate.
    + destruct (k <=? minsev)%nat; [destruct (c_field s1); [|discriminate]|]; injection E as _ <-; destruct Hin.
    + destruct (nth_error (c_arrays s1) b); [|discriminate]. destruct (store l k (mk k)); [|discriminate]. injection E as _ <-. destruct Hin as [Hin|[]]; discriminate.
    + destruct (c_field s1); [|discriminate]. injection E as _ <-. destruct Hin as [Hin|[]]. congruence.
    + destruct (nth_error (c_arrays s1) b); [|discriminate]. destruct (nth_error l sv); [|discriminate]. injection E as _ <-. destruct Hin as [Hin|[]]; discriminate.
Qed.

Lemma split_in_app {A} (a b e1 e2 : list A) x : a ++ b = e1 ++ x :: e2 -> ~ In x a -> exists e1', e1 = a ++ e1' /\ b = e1' ++ x :: e2.
Proof.
  revert e1. induction a as [|y a IH]; intros e1 H Hn; [exists e1; auto|]. destruct e1 as [|z e1]; cbn in H.
  - injection H as -> _. exfalso. apply Hn. left. reflexivity.
  - injection H as <- H. destruct (IH e1 H) as (e1' & -> & ->); [intros Hi; apply Hn; right; exact Hi|]. exists e1'. auto.
Qed.

Theorem C57_settled : forall mk minsev sevs before s es after s' es' i sev a c, (minsev <= 7)%nat -> Forall (fun k => (k <= 7)%nat) sevs ->
  crun mk minsev (calls_init sevs) before = Some (s, es) -> c_field s <> None ->
  (forall j sv pc, nth_error (c_calls s) j = Some (sv, pc) -> initialising pc = false) ->
  nth_error (c_calls s) i = Some (sev, CCheck) -> crun mk minsev s after = Some (s', es') -> In (EvReturned i a c) es' ->
  c = if (sev <=? minsev)%nat then mk sev else DevNull.
Proof.
  intros mk minsev sevs before s es after s' es' i sev a c Hm Hs Hb Hf Hn Hi Ha Hin.
  assert (Hall : crun mk minsev (calls_init sevs) (before ++ after) = Some (s', es ++ es')) by (rewrite crun_app, Hb, Ha; reflexivity).
  pose proof (crun_inv mk minsev sevs Hm Hs before _ [] _ _ (init_inv mk minsev sevs) Hb) as I. cbn [app] in I.
  apply in_split in Hin as (x1 & x2 & E). rewrite E in Hall.
  destruct (C57_returned_iff mk minsev sevs _ _ _ (es ++ x1) i a c x2 Hm Hs Hall) as (sv & Esv & Hl & Hy & Hno); [rewrite <- app_assoc; reflexivity|].
  assert (sv = sev). { destruct I as [Ic _ _ _ _ _ _]. rewrite <- Ic, nth_error_map, Hi in Esv. cbn in Esv. congruence. } subst sv.
  destruct (c_field s) as [f|] eqn:Ef; [|congruence].
  assert (a = f).
  { apply in_app_iff in Hl as [Hl|Hl]; [exfalso; exact (not_started mk minsev sevs before Hm Hs s es Hb i sev Hi a Hl)|].
    apply (settled_run mk minsev after s s' es' f Ef Hn Ha i a). rewrite E. apply in_app_iff. left. exact Hl. }
  subst f. destruct (Nat.leb_spec sev minsev) as [L|L].
  - apply Hy, in_app_iff. left. exact (settled_field _ _ _ _ _ I Hn a Ef sev L).
  - apply Hno. intros Hst.
    pose proof (crun_inv mk minsev sevs Hm Hs _ _ [] _ _ (init_inv mk minsev sevs) Hall) as [_ _ _ Hst' _ _ _]. cbn [app] in Hst'.
    assert (Hst2 : In (EvStored a sev) (es ++ x1 ++ EvReturned i a c :: x2)) by (rewrite app_assoc; apply in_app_iff; left; exact Hst).
    destruct (Hst' _ _ Hst2). lia.
Qed.
Print Assumptions C57_settled.

(** No schedule makes a call panic or block: a call that has not returned can take its next step. *)
Theorem C57_never_stuck : forall mk minsev sevs sched s es i sev pc, (minsev <= 7)%nat -> Forall (fun k => (k <= 7)%nat) sevs ->
  crun mk minsev (calls_init sevs) sched = Some (s, es) -> nth_error (c_calls s) i = Some (sev, pc) -> (forall c, pc <> CDone c) -> cstep mk minsev s i <> None.
Proof.
  intros mk minsev sevs sched s es i sev pc Hm Hs H Hi Hd. destruct (crun_inv mk minsev sevs Hm Hs sched _ [] _ _ (init_inv mk minsev sevs) H) as [Hsv Hf Ha Hst Hp _ _].
  unfold cstep. rewrite Hi. cbv zeta. specialize (Hp i sev pc Hi).
  assert (Hff : c_arrays s <> [] -> exists a, c_field s = Some a) by (rewrite Hf; destruct (c_arrays s); [congruence|eexists; reflexivity]).
  assert (Hsev : (sev <= 7)%nat).
  { rewrite Forall_forall in Hs. apply Hs. apply (nth_error_In _ i). rewrite <- Hsv, nth_error_map, Hi. reflexivity. }
  destruct pc as [| |k|k a| |a|c]; try discriminate.
  - destruct (k <=? minsev)%nat; [|discriminate]. destruct (Hff Hp) as [a ->]. discriminate.
  - destruct Hp as [Lk La]. apply nth_error_Some in La. destruct (nth_error (c_arrays s) a) as [l|] eqn:El; [|congruence].
    destruct (Ha a l El) as [L8 _]. destruct (store_some l k (mk k) ltac:(lia)) as (l' & E & _). rewrite E. discriminate.
  - destruct (Hff Hp) as [a ->]. discriminate.
  - destruct Hp as [_ La]. apply nth_error_Some in La. destruct (nth_error (c_arrays s) a) as [l|] eqn:El; [|congruence].
    destruct (Ha a l El) as [L8 _]. assert (Hl : nth_error l sev <> None) by (apply nth_error_Some; lia). destruct (nth_error l sev); [discriminate|congruence].
  - exfalso. exact (Hd c eq_refl).
Qed.
Print Assumptions C57_never_stuck.

(** Non-vacuity: one call alone, then two interleaved *)
Example C57_nonvacuous : exists s es s' es', crun racy_mk 1 (calls_init [1; 0; 5]%nat) (repeat 0%nat 9) = Some (s, es) /\ c_field s <> None /\
  (forall j sv pc, nth_error (c_calls s) j = Some (sv, pc) -> initialising pc = false) /\ nth_error (c_calls s) 1 = Some (0%nat, CCheck) /\
  crun racy_mk 1 s [1; 2; 2; 1; 1; 2]%nat = Some (s', es') /\ In (EvReturned 1 0 (racy_mk 0)) es' /\ In (EvReturned 2 0 DevNull) es'.
Proof.
  do 4 eexists. split; [vm_compute; reflexivity|]. split; [discriminate|]. split.
  - intros [|[|[|j]]] sv pc H; cbn in H; [injection H as <- <-; reflexivity..|destruct j; discriminate].
  - split; [reflexivity|]. split; [vm_compute; reflexivity|]. split; cbn; auto 10.
Qed.

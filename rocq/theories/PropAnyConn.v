(** PropAnyConn.v -- property C110: a Sender with any implementation of Connector and WriteCloser. *)
From Verif Require Import Base BaseFacts MSender MAnyConn LSender PropSender.

(** ** what is assumed of the user's methods, where something is *)
(** io.Writer's contract for the Writes of one WriteTo: counts within the buffers, and the whole buffer
    when there is no error *)
Fixpoint good_writes (q : list bytes) (rs : list (Z * option uerr)) : Prop :=
  match q, rs with
  | b :: q', (k, e) :: more => (0 <= k <= Z.of_nat (length b))%Z /\ match e with None => k = Z.of_nat (length b) /\ good_writes q' more | Some _ => True end
  | _, _ => True
  end.
(** counts within the buffers only *)
Fixpoint bounded_writes (q : list bytes) (rs : list (Z * option uerr)) : Prop :=
  match q, rs with
  | b :: q', (k, e) :: more => (0 <= k <= Z.of_nat (length b))%Z /\ match e with None => bounded_writes q' more | Some _ => True end
  | _, _ => True
  end.
(** a connection or an error, not both and not neither *)
Definition good_connect (conn : bool) (err : option nat) : Prop := match err with None => conn = true | Some _ => conn = false end.

(** [P] holds of every action of an execution in the state where it happens *)
Fixpoint along (P : sstate -> uaction -> Prop) (s : sstate) (acts : list uaction) : Prop :=
  match acts with
  | [] => True
  | a :: more => P s a /\ match ustep s a with Some s' => along P s' more | None => True end
  end.
Definition writer_abides (s : sstate) (a : uaction) : Prop := match a with UWrite rs => good_writes (s_queue s) rs | _ => True end.
Definition writer_bounded (s : sstate) (a : uaction) : Prop := match a with UWrite rs => bounded_writes (s_queue s) rs | _ => True end.
Definition all_abide (s : sstate) (a : uaction) : Prop :=
  match a with UWrite rs => good_writes (s_queue s) rs | UConnect conn err => good_connect conn err | UBase _ => True end.

Definition usends (acts : list uaction) : list bytes := flat_map (fun a => match a with UBase (ASend f) => [f] | _ => [] end) acts.
(** the same action, seen in MSender.v *)
Definition same (a : uaction) (b : saction) : Prop :=
  match a with
  | UBase a => a = b
  | UConnect _ err => b = AConnect err
  | UWrite _ => exists k r, b = AWrite k r
  end.

Lemma good_bounded : forall q rs, good_writes q rs -> bounded_writes q rs.
Proof. induction q as [|b q IH]; intros [|[k [e|]] rs]; cbn; intuition auto. Qed.

Lemma bounded_sum : forall q rs w n e, bounded_writes q rs -> uwrites q rs = Some (w, n, e) ->
  (0 <= n <= Z.of_nat (length (concat q)))%Z /\ length (taken w) = Z.to_nat n.
Proof.
  induction q as [|b q IH]; intros rs w n e H E; cbn [uwrites] in E.
  - injection E as <- <- <-. cbn. split; [lia|reflexivity].
  - destruct rs as [|[k [x|]] more]; [discriminate| |].
    + injection E as <- <- <-. cbn [bounded_writes] in H. destruct H as [H _]. cbn [concat]. rewrite app_length. split; [lia|]. unfold taken. cbn [map concat fst snd]. rewrite app_nil_r, firstn_length. lia.
    + destruct (uwrites q more) as [[[w' n'] e']|] eqn:Eu; [|discriminate]. injection E as <- <- <-. cbn [bounded_writes] in H. destruct H as [H1 H2]. destruct (IH _ _ _ _ H2 Eu) as [A B].
      cbn [concat]. rewrite app_length. split; [lia|]. unfold taken in *. cbn [map concat fst snd]. rewrite app_length, B, firstn_length. lia.
Qed.
Lemma good_taken : forall q rs w n e, good_writes q rs -> uwrites q rs = Some (w, n, e) ->
  taken w = firstn (Z.to_nat n) (concat q) /\ (e = None -> n = Z.of_nat (length (concat q))).
Proof.
  induction q as [|b q IH]; intros rs w n e H E; cbn [uwrites] in E.
  - injection E as <- <- <-. cbn. split; [reflexivity|reflexivity].
  - destruct rs as [|[k [x|]] more]; [discriminate| |].
    + injection E as <- <- <-. cbn [good_writes] in H. destruct H as [H _]. unfold taken. cbn [map concat fst snd]. rewrite app_nil_r. split; [|discriminate].
      rewrite firstn_app. replace (Z.to_nat k - length b)%nat with 0%nat by lia. cbn [firstn]. rewrite app_nil_r. reflexivity.
    + destruct (uwrites q more) as [[[w' n'] e']|] eqn:Eu; [|discriminate]. injection E as <- <- <-. cbn [good_writes] in H. destruct H as (H1 & -> & H2).
      destruct (IH _ _ _ _ H2 Eu) as [A B]. destruct (bounded_sum _ _ _ _ _ (good_bounded _ _ H2) Eu) as [C _]. unfold taken in *. cbn [map concat fst snd]. rewrite A, Nat2Z.id, firstn_all. split.
      * replace (Z.to_nat (Z.of_nat (length b) + n'))%nat with (length b + Z.to_nat n')%nat by lia. rewrite firstn_app_2. reflexivity.
      * intros E. rewrite app_length, (B E). lia.
Qed.


(** ** histories *)
(** does the Sender hold a connection after this history?  The last word is to the last Connect, or to
    the last report of a write error. *)
Definition holds (acts : list uaction) : bool :=
  fold_left (fun h a => match a with UConnect conn _ => conn | UBase APushErrWrite => false | _ => h end) acts false.
Definition ended (acts : list uaction) : bool := existsb (fun a => match a with UBase AEndCall => true | _ => false end) acts.
Lemma holds_snoc acts a : holds (acts ++ [a]) = match a with UConnect conn _ => conn | UBase APushErrWrite => false | _ => holds acts end.
Proof. unfold holds. rewrite fold_left_app. reflexivity. Qed.
Lemma ended_snoc acts a : ended (acts ++ [a]) = ended acts || match a with UBase AEndCall => true | _ => false end.
Proof. unfold ended. rewrite existsb_app. cbn [existsb]. rewrite orb_false_r. reflexivity. Qed.
Lemma usends_app a b : usends (a ++ b) = usends a ++ usends b.
Proof. unfold usends. apply flat_map_app. Qed.
Lemma urun_app a : forall s b, urun s (a ++ b) = match urun s a with Some s' => urun s' b | None => None end.
Proof. induction a as [|x a IH]; intros s b; [reflexivity|]. cbn [urun app]. destruct (ustep s x); [apply IH|reflexivity]. Qed.
Lemma along_app P a : forall s b, along P s (a ++ b) <-> along P s a /\ match urun s a with Some s' => along P s' b | None => True end.
Proof.
  induction a as [|x a IH]; intros s b; cbn [along urun app]; [tauto|]. destruct (ustep s x) as [s1|]; [rewrite IH; tauto|tauto].
Qed.

Definition uinv (acts : list uaction) (s : sstate) : Prop :=
  match s_pc s with PConnect _ => s_out s = None | _ => True end /\
  s_errclosed s = match s_pc s with PExit => true | _ => false end /\
  s_completed s = match s_pc s with PCloseErr | PExit => true | _ => false end /\
  s_end s = ended acts /\ match s_out s with Some _ => true | None => false end = holds acts.
Ltac usplit E :=
  repeat match type of E with
  | context [match ?x with _ => _ end] => destruct x eqn:?; try discriminate E
  end.
Lemma uinv_step acts s a s' : uinv acts s -> ustep s a = Some s' -> uinv (acts ++ [a]) s'.
Proof.
  unfold uinv. rewrite holds_snoc, ended_snoc. intros (H1 & H2 & H3 & H4 & H5) E. rewrite <- H4, <- H5. clear H4 H5.
  destruct a as [a|conn err|rs]; [destruct a; try discriminate E; cbn [ustep] in E; unfold sstep, flush_entry, flush_return in E|cbn [ustep] in E; unfold flush_return in E..];
    usplit E; injection E as <-; cbn [s_pc s_out s_errclosed s_completed s_end set_pc scrash];
    repeat match goal with H : s_pc s = _ |- _ => rewrite H in *; clear H end;
    repeat match goal with H : s_out s = _ |- _ => rewrite H in *; clear H end;
    repeat match goal with H : s_end s = _ |- _ => rewrite H in *; clear H end;
    rewrite ?orb_false_r, ?orb_true_r; try congruence; auto 10.
  all: try (destruct conn, err; auto 10).
Qed.
Lemma urun_inv acts : forall s, urun sender_init acts = Some s -> uinv acts s.
Proof.
  induction acts as [|a acts IH] using rev_ind; intros s H; [injection H as <-; cbv; auto|].
  rewrite urun_app in H. destruct (urun sender_init acts) as [s0|]; [|discriminate]. cbn [urun] in H. destruct (ustep s0 a) as [s1|] eqn:E; [|discriminate]. injection H as <-. eapply uinv_step; eauto.
Qed.

(** ** with contracts kept, it is the Sender of the other properties *)
Lemma abide_step acts s a s' : uinv acts s -> all_abide s a -> ustep s a = Some s' -> exists b, sstep s b = Some s' /\ same a b.
Proof.
  intros (H1 & _) Ha E. destruct a as [a|conn err|rs].
  - exists a. split; [destruct a; try discriminate E; exact E|reflexivity].
  - exists (AConnect err). split; [|reflexivity]. cbn [ustep] in E. unfold sstep. destruct (s_crashed s) eqn:Ec; [discriminate|]. destruct (s_pc s) eqn:Epc; try discriminate. injection E as <-.
    cbn [all_abide good_connect] in Ha. destruct err as [e|]; cbn in Ha; subst conn; [|reflexivity]. unfold set_pc. rewrite H1, Ec. reflexivity.
  - cbn [ustep] in E. cbn [all_abide] in Ha. destruct (s_crashed s) eqn:Ec; [discriminate|]. destruct (s_pc s) eqn:Epc; try discriminate. destruct (s_queue s) as [|b q] eqn:Eq; [discriminate|].
    destruct (s_out s) as [c|] eqn:Eo.
    2: { exists (AWrite 0 WNoBufs). split; [|eexists; eexists; reflexivity]. unfold sstep. rewrite Ec, Epc, Eq, Eo. exact E. }
    destruct (uwrites (b :: q) rs) as [[[w n] e]|] eqn:Eu; [|discriminate]. destruct (bounded_sum _ _ _ _ _ (good_bounded _ _ Ha) Eu) as [Hb _]. destruct (good_taken _ _ _ _ _ Ha Eu) as [Ht Hn].
    destruct (Z.ltb_spec n 0); [lia|]. injection E as <-. exists (AWrite (Z.to_nat n) (match e with None => WOk | Some UNoBufs => WNoBufs | Some (UErr x) => WErr x end)).
    split; [|eexists; eexists; reflexivity]. unfold sstep. rewrite Ec, Epc, Eq, Eo. cbv zeta. rewrite Ht.
    assert (Hl : (Z.to_nat n <=? length (concat (b :: q)))%nat = true) by (apply Nat.leb_le; lia). rewrite Hl. cbn [andb].
    destruct e as [[|x]|]; [reflexivity|reflexivity|]. assert (Hl2 : (Z.to_nat n =? length (concat (b :: q)))%nat = true) by (apply Nat.eqb_eq; rewrite (Hn eq_refl); lia). rewrite Hl2. reflexivity.
Qed.
Lemma forall2_snoc {A B} (R : A -> B -> Prop) l l' a b : Forall2 R l l' -> R a b -> Forall2 R (l ++ [a]) (l' ++ [b]).
Proof. intros H K. apply Forall2_app; [exact H|]. constructor; [exact K|constructor]. Qed.

(** Every execution in which Connect and the Writes keep their contracts is one of MSender.v, with the same
    calls, ticks and network events. *)
Theorem C110_contract_sound : forall acts s, urun sender_init acts = Some s -> along all_abide sender_init acts ->
  exists acts', srun sender_init acts' = Some s /\ Forall2 same acts acts'.
Proof.
  induction acts as [|a acts IH] using rev_ind; intros s H Ha; [exists []; split; [exact H|constructor]|].
  rewrite urun_app in H. apply along_app in Ha as [Ha1 Ha2]. destruct (urun sender_init acts) as [s0|] eqn:E0; [|discriminate]. cbn [urun along] in H, Ha2. destruct (ustep s0 a) as [s1|] eqn:E; [|discriminate]. injection H as <-.
  destruct (IH _ eq_refl Ha1) as (acts' & Hr & Hs). destruct (abide_step acts s0 a s1 (urun_inv _ _ E0) (proj1 Ha2) E) as (b & Hb & Hab).
  exists (acts' ++ [b]). split; [rewrite srun_app, Hr; cbn [srun]; rewrite Hb; reflexivity|apply forall2_snoc; assumption].
Qed.
Print Assumptions C110_contract_sound.

Lemma split_fail e : forall q k, (k <= length (concat q))%nat -> q <> [] -> exists rs w, good_writes q rs /\ uwrites q rs = Some (w, Z.of_nat k, Some e).
Proof.
  induction q as [|b q IH]; intros k Hk Hq; [congruence|]. destruct (Nat.le_gt_cases k (length b)) as [H|H].
  - exists [(Z.of_nat k, Some e)]. eexists. split; [cbn [good_writes]; split; [lia|exact I]|reflexivity].
  - cbn [concat] in Hk. rewrite app_length in Hk. destruct (IH (k - length b)%nat) as (rs & w & G & U); [lia|intros ->; cbn in Hk; lia|].
    exists ((Z.of_nat (length b), None) :: rs). eexists. split; [cbn [good_writes]; split; [lia|split; [reflexivity|exact G]]|]. cbn [uwrites]. rewrite U. do 3 f_equal. f_equal. lia.
Qed.
Lemma split_ok : forall q, exists rs w, good_writes q rs /\ uwrites q rs = Some (w, Z.of_nat (length (concat q)), None).
Proof.
  induction q as [|b q (rs & w & G & U)]; [exists [], []; split; [exact I|reflexivity]|].
  exists ((Z.of_nat (length b), None) :: rs). eexists. split; [cbn [good_writes]; split; [lia|split; [reflexivity|exact G]]|]. cbn [uwrites]. rewrite U. cbn [concat]. rewrite app_length. do 3 f_equal. f_equal. lia.
Qed.

(** ... and the other way round *)
Theorem C110_contract_complete : forall acts' s, srun sender_init acts' = Some s ->
  exists acts, urun sender_init acts = Some s /\ along all_abide sender_init acts /\ Forall2 same acts acts'.
Proof.
  induction acts' as [|b acts' IH] using rev_ind; intros s H; [exists []; split; [exact H|split; [exact I|constructor]]|].
  rewrite srun_app in H. destruct (srun sender_init acts') as [s0|] eqn:E0; [|discriminate]. cbn [srun] in H. destruct (sstep s0 b) as [s1|] eqn:E; [|discriminate]. injection H as <-.
  destruct (IH _ eq_refl) as (acts & Hr & Ha & Hs). pose proof (urun_inv _ _ Hr) as (Ho & _). pose proof (srun_inv _ _ E0) as Is.
  assert (K : exists a, ustep s0 a = Some s1 /\ all_abide s0 a /\ same a b).
  { destruct b; match goal with E : sstep s0 ?x = _ |- _ => try (exists (UBase x); split; [exact E|split; [exact I|reflexivity]]) end.
    - unfold sstep in E. destruct (s_crashed s0) eqn:Ec; [discriminate|]. destruct (s_pc s0) eqn:Epc; try discriminate.
      exists (UConnect (match err with None => true | Some _ => false end) err). cbn [ustep]. rewrite Ec, Epc. split; [|split; [destruct err; reflexivity|reflexivity]].
      rewrite <- E. destruct err as [e|]; [|reflexivity]. unfold set_pc. rewrite Ho, Ec. reflexivity.
    - unfold sstep in E. destruct (s_crashed s0) eqn:Ec; [discriminate|]. destruct (s_pc s0) eqn:Epc; try discriminate. destruct (s_queue s0) as [|x q] eqn:Eq; [discriminate|].
      destruct (s_out s0) as [c|] eqn:Eo; [|exfalso; pose proof (v_out _ _ Is) as V; rewrite Epc in V; congruence].
      cbv zeta in E. destruct (Nat.leb_spec k (length (concat (x :: q)))) as [Hk|Hk]; [|discriminate]. cbn [andb] in E.
      assert (K : exists rs w, good_writes (x :: q) rs /\ uwrites (x :: q) rs = Some (w, Z.of_nat k, match r with WOk => None | WNoBufs => Some UNoBufs | WErr e => Some (UErr e) end)).
      { destruct r; [|apply split_fail; [exact Hk|discriminate]..]. destruct (Nat.eqb_spec k (length (concat (x :: q)))) as [-> |]; [apply split_ok|discriminate]. }
      destruct K as (rs & w & G & U). exists (UWrite rs). cbn [ustep all_abide]. rewrite Ec, Epc, Eq, Eo, U. split; [|split; [exact G|eexists; eexists; reflexivity]].
      destruct (Z.ltb_spec (Z.of_nat k) 0); [lia|]. destruct (good_taken _ _ _ _ _ G U) as [Ht _]. rewrite Nat2Z.id in *. rewrite Ht.
      destruct r; [destruct (Nat.eqb_spec k (length (concat (x :: q)))); [|discriminate]|..]; exact E. }
  destruct K as (a & K1 & K2 & K3). exists (acts ++ [a]). split; [rewrite urun_app, Hr; cbn [urun]; rewrite K1; reflexivity|]. split; [|apply forall2_snoc; assumption].
  apply along_app. rewrite Hr. split; [exact Ha|]. cbn [along]. split; [exact K2|]. destruct (ustep s0 a); exact I.
Qed.
Print Assumptions C110_contract_complete.

(** ** any Connector, writers that keep io.Writer's contract *)
(** Whatever Connect returns, nothing is lost, duplicated or reordered. *)
Theorem C110_no_loss : forall acts s, urun sender_init acts = Some s -> along writer_abides sender_init acts ->
  written (s_log s) ++ concat (s_queue s) = concat (usends acts).
Proof.
  induction acts as [|a acts IH] using rev_ind; intros s H Ha; [injection H as <-; reflexivity|].
  rewrite urun_app in H. apply along_app in Ha as [Ha1 Ha2]. destruct (urun sender_init acts) as [s0|] eqn:E0; [|discriminate]. cbn [urun along] in H, Ha2. destruct (ustep s0 a) as [s1|] eqn:E; [|discriminate]. injection H as <-.
  specialize (IH _ eq_refl Ha1). destruct Ha2 as [Ha2 _]. rewrite usends_app, concat_app, <- IH.
  destruct a as [a|conn err|rs].
  - destruct a; try discriminate E; cbn [ustep] in E; unfold sstep in E; cbn [usends flat_map app concat]; rewrite ?app_nil_r;
      usplit E; injection E as <-; cbn [s_log s_queue set_pc scrash]; rewrite ?written_app, ?concat_app_one, ?app_assoc; try reflexivity.
    all: try (match goal with H : s_queue _ = _ |- _ => rewrite H end; cbn [concat]; rewrite ?app_nil_r, ?app_assoc; reflexivity).
    all: unfold written at 2; cbn; rewrite ?app_nil_r; reflexivity.
  - cbn [ustep] in E. cbn [usends flat_map app concat]. rewrite ?app_nil_r. usplit E; injection E as <-; cbn [s_log s_queue]; rewrite ?written_app; try reflexivity.
    all: unfold written at 2; cbn; rewrite ?app_nil_r; reflexivity.
  - cbn [ustep] in E. cbn [usends flat_map app concat]. rewrite ?app_nil_r. cbn [writer_abides] in Ha2. destruct (s_crashed s0); [discriminate|]. destruct (s_pc s0); try discriminate. remember (s_queue s0) as q eqn:Eq. assert (Hq : q <> []) by (intros ->; discriminate E).
    assert (E' : match s_out s0 with None => Some (scrash s0) | Some c => match uwrites q rs with None => None | Some (w, n, e) => if (n <? 0)%Z then Some (scrash s0) else
      Some {| s_pc := match e with None => PWrite d | Some UNoBufs => flush_return d | Some (UErr e) => PErrWrite d e end; s_queue := consume (Z.to_nat n) q; s_out := s_out s0; s_end := s_end s0;
              s_completed := s_completed s0; s_errq := s_errq s0; s_errclosed := s_errclosed s0; s_goterr := s_goterr s0; s_log := s_log s0 ++ [EWrite c (taken w)]; s_next := s_next s0; s_crashed := false |} end end = Some s1)
      by (destruct q; [congruence|exact E]). clear E. rename E' into E.
    destruct (s_out s0) as [c|]; [|injection E as <-; cbn [s_log s_queue scrash]; rewrite Eq; reflexivity].
    destruct (uwrites q rs) as [[[w n] e]|] eqn:Eu; [|discriminate]. destruct (bounded_sum _ _ _ _ _ (good_bounded _ _ Ha2) Eu) as [Hb _]. destruct (good_taken _ _ _ _ _ Ha2 Eu) as [Ht _].
    destruct (Z.ltb_spec n 0); [lia|]. injection E as <-. cbn [s_log s_queue]. rewrite written_app, consume_concat by lia. unfold written at 2. cbn [map concat]. rewrite app_nil_r, Ht, <- app_assoc, firstn_skipn. reflexivity.
Qed.
Print Assumptions C110_no_loss.

(** ** errors *)
(** the errors that Connect and the Writes returned in an execution; a Write error ENOBUFS is not one *)
Fixpoint uerrors (s : sstate) (acts : list uaction) : list nat :=
  match acts with
  | [] => []
  | a :: more =>
      match a with
      | UConnect _ (Some e) => [e]
      | UWrite rs => match uwrites (s_queue s) rs with Some (_, n, Some (UErr e)) => [e] | _ => [] end
      | _ => []
      end ++ match ustep s a with Some s' => uerrors s' more | None => [] end
  end.
Lemma uerrors_app a : forall s b s', urun s a = Some s' -> uerrors s (a ++ b) = uerrors s a ++ uerrors s' b.
Proof.
  induction a as [|x a IH]; intros s b s' H; cbn [urun uerrors app] in *; [injection H as <-; reflexivity|]. destruct (ustep s x) as [s1|]; [|discriminate]. rewrite (IH _ _ _ H), app_assoc. reflexivity.
Qed.
(** Whatever the user's methods return, as long as the process runs: every error of Connect and of a Write
    is given to the error channel, in order, each once. *)
Theorem C110_errors : forall acts s, urun sender_init acts = Some s -> s_crashed s = false -> s_goterr s ++ s_errq s ++ pending_error s = uerrors sender_init acts.
Proof.
  induction acts as [|a acts IH] using rev_ind; intros s H Hc; [injection H as <-; reflexivity|].
  rewrite urun_app in H. destruct (urun sender_init acts) as [s0|] eqn:E0; [|discriminate]. cbn [urun] in H. destruct (ustep s0 a) as [s1|] eqn:E; [|discriminate]. injection H as <-.
  rewrite (uerrors_app _ _ _ _ E0). cbn [uerrors]. rewrite E, app_nil_r.
  assert (Hc0 : s_crashed s0 = false) by (destruct (s_crashed s0) eqn:X; [|reflexivity]; destruct a as [a| |]; [destruct a|..]; cbn [ustep] in E; unfold sstep in E; rewrite ?X in E; discriminate).
  rewrite <- (IH _ eq_refl Hc0). clear IH. unfold pending_error. destruct a as [a|conn err|rs].
  - destruct a; try discriminate E; cbn [ustep] in E; unfold sstep, flush_entry, flush_return in E; rewrite ?app_nil_r;
      usplit E; injection E as <-; cbn [s_goterr s_errq s_pc set_pc scrash s_crashed] in *; try discriminate Hc;
      repeat match goal with H : s_pc s0 = _ |- _ => rewrite H; clear H end; repeat match goal with H : s_errq s0 = _ |- _ => rewrite H; clear H end; rewrite ?app_nil_r, <- ?app_assoc; reflexivity.
  - cbn [ustep] in E. usplit E; injection E as <-; cbn [s_goterr s_errq s_pc]; rewrite ?app_nil_r, <- ?app_assoc; reflexivity.
  - cbn [ustep] in E. unfold flush_return in E. usplit E; injection E as <-; cbn [s_goterr s_errq s_pc scrash s_crashed] in *; try discriminate Hc; rewrite ?app_nil_r, <- ?app_assoc; reflexivity.
Qed.
Print Assumptions C110_errors.

(** ** Connect's four answers *)
(** A connection and an error: the error is reported (C110_errors) and the connection is used; Connect is
    not called again until a write fails on it. *)
Definition write_error (rs : list (Z * option uerr)) : Prop := exists k e, In (k, Some (UErr e)) rs.
Lemma uwrites_error : forall q rs w n e, uwrites q rs = Some (w, n, Some (UErr e)) -> write_error rs.
Proof.
  induction q as [|b q IH]; intros rs w n e H; cbn [uwrites] in H; [discriminate|]. destruct rs as [|[k [x|]] more]; [discriminate| |].
  - injection H as <- <- ->. exists k, e. left. reflexivity.
  - destruct (uwrites q more) as [[[w' n'] e']|] eqn:Eu; [|discriminate]. injection H as <- <- ->. destruct (IH _ _ _ _ Eu) as (k' & x & Hi). exists k', x. right. exact Hi.
Qed.
Lemma keeps_conn c : forall more s s', s_out s = Some c -> (forall d, s_pc s <> PConnect d) -> (forall d e, s_pc s <> PErrWrite d e) -> urun s more = Some s' ->
  (forall rs, In (UWrite rs) more -> ~ write_error rs) -> s_out s' = Some c /\ forall conn err, ~ In (UConnect conn err) more.
Proof.
  induction more as [|a more IH]; intros s s' Ho Hp Hq H Hw; [injection H as <-; split; [exact Ho|intros ? ? []]|].
  cbn [urun] in H. destruct (ustep s a) as [s1|] eqn:E; [|discriminate].
  assert (K : s_out s1 = Some c /\ (forall d, s_pc s1 <> PConnect d) /\ (forall d e, s_pc s1 <> PErrWrite d e) /\ forall conn err, a <> UConnect conn err).
  { destruct a as [a|conn err|rs].
    - destruct a; try discriminate E; cbn [ustep] in E; unfold sstep, flush_entry, flush_return in E; rewrite ?Ho in E;
        usplit E; injection E as <-; cbn [s_out s_pc set_pc scrash]; split; auto; try (exfalso; exact (Hq _ _ eq_refl)); try (repeat split; intros; congruence).
    - exfalso. cbn [ustep] in E. usplit E; exact (Hp _ eq_refl).
    - cbn [ustep] in E. unfold flush_return in E. rewrite Ho in E. usplit E; injection E as <-; cbn [s_out s_pc scrash]; split; auto; repeat split; try congruence; try discriminate;
      exfalso; (eapply (Hw rs); [left; reflexivity|eapply uwrites_error; eassumption]). }
  destruct K as (K1 & K2 & K3 & K4). destruct (IH _ _ K1 K2 K3 H) as [A B]; [intros rs Hi; apply Hw; right; exact Hi|]. split; [exact A|]. intros conn err [Hi|Hi]; [exact (K4 _ _ Hi)|exact (B _ _ Hi)].
Qed.
Theorem C110_conn_and_error : forall acts e s more s', urun sender_init (acts ++ [UConnect true (Some e)]) = Some s -> urun s more = Some s' ->
  (forall rs, In (UWrite rs) more -> ~ write_error rs) ->
  (forall conn err, ~ In (UConnect conn err) more) /\ exists c log, s_log s = log ++ [EOpen c] /\ s_out s' = Some c.
Proof.
  intros acts e s more s' H Hm Hw. rewrite urun_app in H. destruct (urun sender_init acts) as [s0|]; [|discriminate]. cbn [urun ustep] in H. destruct (s_crashed s0); [discriminate|]. destruct (s_pc s0); try discriminate. injection H as <-.
  destruct (fun a b c => keeps_conn (s_next s0) more _ s' a b c Hm Hw) as [A B]; [reflexivity|discriminate..|]. split; [exact B|]. eexists. eexists. split; [reflexivity|exact A].
Qed.
Print Assumptions C110_conn_and_error.

(** Neither: with messages in the queue when the lock is taken, the process stops at the write; without,
    nothing happens and the next flush calls Connect again. *)
Theorem C110_neither : forall acts s s', urun sender_init (acts ++ [UConnect false None]) = Some s -> ustep s (UBase ALock) = Some s' ->
  (s_queue s' <> [] -> (forall rs, exists s2, ustep s' (UWrite rs) = Some s2 /\ s_crashed s2 = true) /\ ustep s' (UBase AWriteDone) = None) /\
  (s_queue s' = [] -> (forall rs, ustep s' (UWrite rs) = None) /\ exists s2 d, ustep s' (UBase AWriteDone) = Some s2 /\ s_out s2 = None /\ s_pc s2 = flush_return d /\ s_log s2 = s_log s).
Proof.
  intros acts s s' H Hl. rewrite urun_app in H. destruct (urun sender_init acts) as [s0|]; [|discriminate]. cbn [urun ustep] in H. destruct (s_crashed s0); [discriminate|]. destruct (s_pc s0); try discriminate. injection H as <-.
  cbn [ustep] in Hl. unfold sstep in Hl. cbn [s_crashed s_pc set_pc] in Hl. injection Hl as <-. split; intros Hq.
  - split; [intros rs|]; cbn [ustep]; unfold sstep; cbn [s_crashed s_pc s_queue s_out set_pc] in *; destruct (s_queue s0) as [|b q]; try congruence; try reflexivity. eexists. split; [reflexivity|reflexivity].
  - cbn [s_queue set_pc] in Hq. split; [intros rs|eexists; exists d]; cbn [ustep]; unfold sstep; cbn [s_crashed s_pc s_queue s_out set_pc s_log]; rewrite Hq; [reflexivity|]. split; [reflexivity|]. cbn. auto.
Qed.
Print Assumptions C110_neither.

(** ** when the process stops *)
(** For any Connector and WriteCloser: exactly at a second End, at a write or at the end of the queue without
    connection, and at a WriteTo whose counts sum below zero. *)
Theorem C110_crash_iff : forall acts a s, urun sender_init (acts ++ [a]) = Some s ->
  exists s0, urun sender_init acts = Some s0 /\ s_crashed s0 = false /\
  (s_crashed s = true <->
     (a = UBase AEndCall /\ In (UBase AEndCall) acts) \/
     (a = UBase ACloseOut /\ holds acts = false) \/
     (exists rs, a = UWrite rs /\ (holds acts = false \/ exists w n e, uwrites (s_queue s0) rs = Some (w, n, e) /\ (n < 0)%Z))).
Proof.
  intros acts a s H. rewrite urun_app in H. destruct (urun sender_init acts) as [s0|] eqn:E0; [|discriminate]. cbn [urun] in H. destruct (ustep s0 a) as [s1|] eqn:E; [|discriminate]. injection H as <-.
  exists s0. split; [reflexivity|].
  assert (Hc0 : s_crashed s0 = false) by (destruct (s_crashed s0) eqn:X; [|reflexivity]; destruct a as [a| |]; [destruct a|..]; cbn [ustep] in E; unfold sstep in E; rewrite ?X in E; discriminate).
  split; [exact Hc0|]. destruct (urun_inv _ _ E0) as (H1 & H2 & H3 & H4 & H5). rewrite <- H5.
  assert (He : In (UBase AEndCall) acts <-> s_end s0 = true).
  { rewrite H4. unfold ended. rewrite existsb_exists. split; [intros Hi; eexists; split; [exact Hi|reflexivity]|]. intros (x & Hi & Hx). destruct x as [[]| |]; try discriminate. exact Hi. }
  rewrite He. clear He H4 H5 E0.
  destruct a as [a|conn err|rs].
  - assert (N : forall (Q : Prop), (exists rs, UBase a = UWrite rs /\ Q) <-> False) by (intros Q; split; [intros (rs & X & _); discriminate|tauto]).
    destruct a; try discriminate E; cbn [ustep] in E; unfold sstep, flush_entry, flush_return in E; usplit E; injection E as <-; cbn [s_crashed set_pc scrash];
      repeat match goal with H : s_pc s0 = _ |- _ => rewrite H in *; clear H end; try congruence;
      (split; [intros X; first [discriminate X | congruence | solve [auto 10]]|intros [[X Y]|[[X Y]|(rs & X & Y)]]; first [discriminate X | discriminate Y | reflexivity | congruence]]).
  - cbn [ustep] in E. rewrite Hc0 in E. destruct (s_pc s0); try discriminate. injection E as <-. cbn [s_crashed]. split; [discriminate|]. intros [[X _]|[[X _]|(rs & X & _)]]; discriminate X.
  - cbn [ustep] in E. rewrite Hc0 in E. destruct (s_pc s0); try discriminate. remember (s_queue s0) as q eqn:Eq. destruct q as [|b q]; [discriminate|]. rewrite Eq in *. destruct (s_out s0) as [c|].
    + destruct (uwrites (s_queue s0) rs) as [[[w n] e]|] eqn:Eu; [|discriminate]. destruct (Z.ltb_spec n 0) as [Hn|Hn]; injection E as <-; cbn [s_crashed scrash].
      * split; [|reflexivity]. intros _. right; right. exists rs. split; [reflexivity|]. right. exists w, n, e. split; [exact Eu|exact Hn].
      * split; [discriminate|]. intros [[X _]|[[X _]|(rs' & X & Y)]]; try discriminate X. injection X as <-. destruct Y as [Y|(w' & n' & e' & Y & Hn')]; [discriminate|]. rewrite Eu in Y. injection Y as <- <- <-. lia.
    + injection E as <-. cbn [s_crashed scrash]. split; [|reflexivity]. intros _. right; right. exists rs. split; [reflexivity|]. left. reflexivity.
Qed.
Print Assumptions C110_crash_iff.

(** ** writers that do not keep the contract *)
Lemma consume_any q : forall n, concat (consume n q) = skipn n (concat q).
Proof.
  intros n. destruct (Nat.le_gt_cases n (length (concat q))) as [H|H]; [apply consume_concat; exact H|]. rewrite skipn_all2 by lia. revert n H.
  induction q as [|b q IH]; intros n H; [reflexivity|]. cbn [consume concat] in *. rewrite app_length in H. destruct (Nat.ltb_spec n (length b)); [lia|]. apply IH. lia.
Qed.
(** What one WriteTo does, for any counts that do not sum below zero: of each buffer goes out what its Write took, and
    as many bytes as the counts sum to leave the front of the queue, whichever they are. *)
Theorem C110_write_effect : forall s rs s' c w n e, s_crashed s = false -> s_out s = Some c -> uwrites (s_queue s) rs = Some (w, n, e) -> (0 <= n)%Z -> ustep s (UWrite rs) = Some s' ->
  s_log s' = s_log s ++ [EWrite c (concat (map (fun p => firstn (Z.to_nat (snd p)) (fst p)) w))] /\ concat (s_queue s') = skipn (Z.to_nat n) (concat (s_queue s)).
Proof.
  intros s rs s' c w n e Hc Ho Hu Hn E. cbn [ustep] in E. rewrite Hc, Ho, Hu in E. destruct (s_pc s); try discriminate. remember (s_queue s) as q eqn:Eq. destruct q as [|b q]; [discriminate|]. rewrite Eq in *.
  destruct (Z.ltb_spec n 0); [lia|]. rewrite <- (consume_any (s_queue s) (Z.to_nat n)). remember (consume (Z.to_nat n) (s_queue s)) as q'. injection E as <-. split; reflexivity.
Qed.
Print Assumptions C110_write_effect.

(** With counts within the buffers but short without error: as many bytes go out as were sent ... *)
Theorem C110_count : forall acts s, urun sender_init acts = Some s -> along writer_bounded sender_init acts ->
  (length (written (s_log s)) + length (concat (s_queue s)) = length (concat (usends acts)))%nat.
Proof.
  induction acts as [|a acts IH] using rev_ind; intros s H Ha; [injection H as <-; reflexivity|].
  rewrite urun_app in H. apply along_app in Ha as [Ha1 Ha2]. destruct (urun sender_init acts) as [s0|] eqn:E0; [|discriminate]. cbn [urun along] in H, Ha2. destruct (ustep s0 a) as [s1|] eqn:E; [|discriminate]. injection H as <-.
  specialize (IH _ eq_refl Ha1). destruct Ha2 as [Ha2 _]. rewrite usends_app, concat_app, app_length, <- IH. clear IH.
  destruct a as [a|conn err|rs].
  - destruct a; try discriminate E; cbn [ustep] in E; unfold sstep in E; cbn [usends flat_map app concat]; rewrite ?app_nil_r;
      usplit E; injection E as <-; cbn [s_log s_queue set_pc scrash]; rewrite ?written_app, ?concat_app_one, ?app_length; unfold written at 2; cbn [map concat length app]; rewrite ?Nat.add_0_r;
      try (match goal with H : s_queue _ = _ |- _ => rewrite H end); try reflexivity; try lia.
    all: fold (written (s_log s0)); cbn [concat length]; lia.
  - cbn [ustep] in E. cbn [usends flat_map app concat length]. destruct (s_crashed s0); [discriminate|]. destruct (s_pc s0); try discriminate. injection E as <-. cbn [s_log s_queue]. destruct conn; [|lia].
    rewrite written_app, app_length. unfold written at 2. cbn [map concat length app]. lia.
  - cbn [usends flat_map app concat length]. cbn [writer_bounded] in Ha2. destruct (s_crashed s0) eqn:Hc; [cbn [ustep] in E; rewrite Hc in E; discriminate|].
    destruct (s_out s0) as [c|] eqn:Ho.
    + destruct (uwrites (s_queue s0) rs) as [[[w n] e]|] eqn:Eu.
      * destruct (bounded_sum _ _ _ _ _ Ha2 Eu) as [Hb Hl]. destruct (C110_write_effect _ _ _ _ _ _ _ Hc Ho Eu ltac:(lia) E) as [-> ->]. fold (taken w). rewrite written_app, app_length, skipn_length. unfold written at 2. cbn [map concat]. rewrite app_nil_r, Hl. lia.
      * cbn [ustep] in E. rewrite Hc, Ho, Eu in E. destruct (s_pc s0); try discriminate. destruct (s_queue s0); discriminate.
    + cbn [ustep] in E. rewrite Hc, Ho in E. destruct (s_pc s0); try discriminate. destruct (s_queue s0) eqn:Eq; [discriminate|]. injection E as <-. cbn [s_log s_queue scrash]. rewrite Eq. lia.
Qed.
Print Assumptions C110_count.
(** ... but not the same ones: bytes are lost and others sent twice. *)
Definition short_writes : list uaction :=
  [UBase (ASend (bs "ab")); UBase (ASend (bs "cd")); UBase ATick; UConnect true None; UBase ALock; UWrite [(1%Z, None); (2%Z, None)]; UWrite [(1%Z, None)]].
Theorem C110_short_refuted : exists s, urun sender_init short_writes = Some s /\ along writer_bounded sender_init short_writes /\
  concat (usends short_writes) = bs "abcd" /\ s_queue s = [] /\ written (s_log s) = bs "acdd".
Proof. eexists. split; [vm_compute; reflexivity|]. split; [cbv; intuition discriminate|]. split; [reflexivity|]. split; reflexivity. Qed.
Print Assumptions C110_short_refuted.

(** A Writer that takes nothing and returns no error: the queue is written for ever with the lock held; no Send
    gets through. *)
Theorem C110_zero_writer : forall d more s s', s_pc s = PWrite d -> concat (s_queue s) <> [] -> s_out s <> None -> urun s more = Some s' ->
  (forall rs, In (UWrite rs) more -> forall k e, In (k, e) rs -> k = 0%Z /\ e = None) ->
  s_pc s' = PWrite d /\ concat (s_queue s') = concat (s_queue s) /\ usends more = [] /\ forall f, ustep s' (UBase (ASend f)) = None.
Proof.
  intros d. induction more as [|a more IH]; intros s s' Hp Hq Ho H Hz.
  - injection H as <-. split; [exact Hp|]. split; [reflexivity|]. split; [reflexivity|]. intros f. cbn [ustep]. unfold sstep, locked. rewrite Hp. destruct (s_crashed s); reflexivity.
  - cbn [urun] in H. destruct (ustep s a) as [s1|] eqn:E; [|discriminate].
    assert (K : s_pc s1 = PWrite d /\ concat (s_queue s1) = concat (s_queue s) /\ s_out s1 <> None /\ usends [a] = []).
    { destruct a as [a|conn err|rs].
      - destruct a; try discriminate E; cbn [ustep] in E; unfold sstep, locked in E; rewrite ?Hp in E; destruct (s_crashed s); try discriminate; usplit E; injection E as <-; cbn [s_pc s_queue s_out set_pc scrash]; auto.
        exfalso. apply Hq. reflexivity.
      - cbn [ustep] in E. rewrite Hp in E. destruct (s_crashed s); discriminate.
      - destruct (s_crashed s) eqn:Hc; [cbn [ustep] in E; rewrite Hc in E; discriminate|]. destruct (s_out s) as [c|] eqn:Eo; [|congruence].
        assert (Hsum : forall q rs' w n e, (forall k x, In (k, x) rs' -> k = 0%Z /\ x = None) -> uwrites q rs' = Some (w, n, e) -> n = 0%Z /\ e = None).
        { induction q as [|b q IHq]; intros rs' w n e Hr Hu; cbn [uwrites] in Hu; [injection Hu as <- <- <-; auto|]. destruct rs' as [|[k [x|]] rs']; [discriminate| |].
          - destruct (Hr k (Some x)); [left; reflexivity|discriminate].
          - destruct (uwrites q rs') as [[[w' n'] e']|] eqn:Eu; [|discriminate]. injection Hu as <- <- <-. destruct (Hr k None) as [-> _]; [left; reflexivity|]. apply (IHq rs' w' n' e'); [|exact Eu]. intros k0 x0 Hi. apply Hr. right. exact Hi. }
        destruct (uwrites (s_queue s) rs) as [[[w n] e]|] eqn:Eu; [|cbn [ustep] in E; rewrite Hc, Hp, Eo, Eu in E; destruct (s_queue s); discriminate].
        destruct (Hsum _ _ _ _ _ (Hz rs (or_introl eq_refl)) Eu) as [-> ->]. destruct (C110_write_effect _ _ _ _ _ _ _ Hc Eo Eu ltac:(lia) E) as [_ Hcq]. cbn [Z.to_nat skipn] in Hcq.
        split; [|split; [exact Hcq|]]; cbn [ustep] in E; rewrite Hc, Hp, Eo, Eu in E; destruct (s_queue s); try discriminate; injection E as <-; [reflexivity|]. split; [discriminate|reflexivity]. }
    destruct K as (K1 & K2 & K3 & K4). destruct (IH s1 s' K1 ltac:(rewrite K2; exact Hq) K3 H) as (A & B & C & D); [intros rs Hi; apply Hz; right; exact Hi|].
    split; [exact A|]. split; [rewrite B; exact K2|]. split; [|exact D]. change (a :: more) with ([a] ++ more). rewrite usends_app, K4, C. reflexivity.
Qed.
Print Assumptions C110_zero_writer.

(** concrete: a Connect that returns a connection and an error, then one that returns neither with an empty
    queue, and a partial write with an error *)
Definition odd_connector : list uaction :=
  [UBase ATick; UConnect false None; UBase ALock; UBase AWriteDone; UBase (ASend (bs "one;")); UBase ATick; UConnect true (Some 7%nat); UBase APushErrConn; UBase (ASend (bs "two;"));
   UBase AUserErr; UBase ATick; UBase ALock; UWrite [(4%Z, None); (1%Z, Some (UErr 8))]; UBase APushErrWrite; UBase ATick; UConnect true None; UBase ALock; UWrite [(3%Z, None)]; UBase AWriteDone].
Example C110_nonvacuous : exists s, urun sender_init odd_connector = Some s /\ along writer_abides sender_init odd_connector /\ s_crashed s = false /\
  s_log s = [EOpen 0; EWrite 0 (bs "one;t"); EOpen 1; EWrite 1 (bs "wo;")] /\ s_goterr s = [7%nat] /\ s_errq s = [8%nat] /\ holds odd_connector = true.
Proof. eexists. split; [vm_compute; reflexivity|]. split; [cbv; intuition discriminate|]. repeat split. Qed.
Print Assumptions C110_nonvacuous.
Example C110_neither_nonvacuous : exists s, urun sender_init [UBase (ASend (bs "x")); UBase ATick; UConnect false None; UBase ALock; UWrite []] = Some s /\ s_crashed s = true.
Proof. eexists. split; vm_compute; reflexivity. Qed.
Print Assumptions C110_neither_nonvacuous.
Example C110_zero_nonvacuous : exists s s', urun sender_init [UBase (ASend (bs "x")); UBase ATick; UConnect true None; UBase ALock] = Some s /\
  s_pc s = PWrite false /\ concat (s_queue s) <> [] /\ s_out s <> None /\ urun s [UWrite [(0%Z, None)]; UBase AEndCall; UWrite [(0%Z, None)]] = Some s' /\ s_crashed s' = false.
Proof. do 2 eexists. split; [vm_compute; reflexivity|]. split; [reflexivity|]. split; [discriminate|]. split; [discriminate|]. split; vm_compute; reflexivity. Qed.
Print Assumptions C110_zero_nonvacuous.

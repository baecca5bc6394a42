(** LText.v -- proofs about strings.TrimRightFunc(_, unicode.IsSpace). *)
From Verif Require Import Base BaseFacts Spec MText.
From Coq Require Import ZifyBool ZifyNat ZifyN.

Lemma rune_error_not_space : is_space rune_error = false.
Proof. reflexivity. Qed.

Ltac ws_pick := unfold white_space_chars; cbn [In]; tauto.

Lemma space1 b : (b < 128)%N -> is_space b = true -> In [b] white_space_chars.
Proof.
  intros Hb Hs. unfold is_space in Hs.
  assert (H : b = 9%N \/ b = 10%N \/ b = 11%N \/ b = 12%N \/ b = 13%N \/ b = 32%N).
  { destruct (N.leb_spec b 255); lia. }
  destruct H as [->|[->|[->|[->|[->| ->]]]]]; ws_pick.
Qed.

Lemma space2 b1 b0 : (194 <= b1 <= 223)%N -> (128 <= b0 <= 191)%N ->
  is_space ((b1 - 192) * 64 + (b0 - 128)) = true -> In [b1; b0] white_space_chars.
Proof.
  intros H1 H0 Hs. unfold is_space, in_rng in Hs.
  assert (H : (b1 = 194 /\ b0 = 133)%N \/ (b1 = 194 /\ b0 = 160)%N).
  { destruct (N.leb_spec ((b1 - 192) * 64 + (b0 - 128)) 255); lia. }
  destruct H as [[-> ->]|[-> ->]]; ws_pick.
Qed.

Lemma space3 b2 b1 b0 : (224 <= b2 <= 239)%N -> (128 <= b1 <= 191)%N -> (128 <= b0 <= 191)%N ->
  (b2 = 224%N -> (160 <= b1)%N) ->
  is_space ((b2 - 224) * 4096 + (b1 - 128) * 64 + (b0 - 128)) = true -> In [b2; b1; b0] white_space_chars.
Proof.
  intros H2 H1 H0 Ho Hs. unfold is_space, in_rng in Hs.
  set (r := ((b2 - 224) * 4096 + (b1 - 128) * 64 + (b0 - 128))%N) in *.
  assert (Hr : (255 < r)%N) by (subst r; lia).
  destruct (N.leb_spec r 255); [lia|].
  assert (H3 : (b2 = 225 /\ b1 = 154 /\ b0 = 128)%N \/ (b2 = 226 /\ b1 = 128 /\ 128 <= b0 <= 138)%N
      \/ (b2 = 226 /\ b1 = 128 /\ b0 = 168)%N \/ (b2 = 226 /\ b1 = 128 /\ b0 = 169)%N
      \/ (b2 = 226 /\ b1 = 128 /\ b0 = 175)%N \/ (b2 = 226 /\ b1 = 129 /\ b0 = 159)%N
      \/ (b2 = 227 /\ b1 = 128 /\ b0 = 128)%N).
  { assert (Hv : (r = 5760 \/ 8192 <= r <= 8202 \/ r = 8232 \/ r = 8233 \/ r = 8239 \/ r = 8287 \/ r = 12288)%N).
    { clearbody r. lia. }
    clear Hs. subst r.
    destruct Hv as [Hv|[Hv|[Hv|[Hv|[Hv|[Hv|Hv]]]]]].
    - left. lia.
    - right; left. lia.
    - right; right; left. lia.
    - right; right; right; left. lia.
    - right; right; right; right; left. lia.
    - right; right; right; right; right; left. lia.
    - right; right; right; right; right; right. lia. }
  destruct H3 as [H3|[H3|[H3|[H3|[H3|[H3|H3]]]]]]; destruct H3 as (-> & -> & H3); try (subst b0; ws_pick).
  assert (Hb : b0 = 128%N \/ b0 = 129%N \/ b0 = 130%N \/ b0 = 131%N \/ b0 = 132%N \/ b0 = 133%N \/
     b0 = 134%N \/ b0 = 135%N \/ b0 = 136%N \/ b0 = 137%N \/ b0 = 138%N) by lia.
  repeat (destruct Hb as [->|Hb]; [ws_pick|]). subst b0; ws_pick.
Qed.

Lemma space4 b3 b2 b1 b0 : (240 <= b3 <= 244)%N -> (128 <= b2 <= 191)%N -> (b3 = 240%N -> (144 <= b2)%N) ->
  is_space ((b3 - 240) * 262144 + (b2 - 128) * 4096 + (b1 - 128) * 64 + (b0 - 128)) = false.
Proof.
  intros H3 H2 Ho. unfold is_space, in_rng.
  set (r := ((b3 - 240) * 262144 + (b2 - 128) * 4096 + (b1 - 128) * 64 + (b0 - 128))%N).
  assert (Hr : (65536 <= r)%N) by (subst r; lia). clearbody r.
  destruct (N.leb_spec r 255); lia.
Qed.

(** What the backwards decoder says about the end of the string. *)
Lemma decode_last_fwd s : s <> [] ->
  let '(r, n) := decode_last_rune s in
  (1 <= n <= length s)%nat /\
  (is_space r = true -> In (skipn (length s - n) s) white_space_chars).
Proof.
  intros Hs. unfold decode_last_rune.
  rewrite <- (rev_involutive s). set (t := rev s) in *.
  assert (Ht : t <> []). { subst t. intros H. apply (f_equal (@rev N)) in H. rewrite rev_involutive in H. auto. }
  clearbody t. clear Hs s. rewrite rev_involutive.
  assert (Hsk : forall u v : bytes, skipn (length (rev (u ++ v)) - length u) (rev (u ++ v)) = rev u).
  { intros u v. rewrite rev_app_distr, app_length, !rev_length.
    replace (length v + length u - length u)%nat with (length (rev v)) by (rewrite rev_length; lia).
    apply skipn_app_exact. }
  rewrite rev_length. destruct t as [|b0 r]; [congruence|].
  destruct (N.ltb_spec b0 128) as [Hb0|Hb0].
  { split; [cbn; lia|]. intros Hsp. specialize (Hsk [b0] r). cbn [app length] in Hsk.
    rewrite rev_length in Hsk. cbn [length] in *. rewrite Hsk. cbn. apply space1; assumption. }
  assert (Herr : (1 <= 1 <= length (b0 :: r))%nat /\
     (is_space rune_error = true -> In (skipn (length (b0 :: r) - 1) (rev (b0 :: r))) white_space_chars)).
  { split; [cbn; lia|]. rewrite rune_error_not_space. discriminate. }
  destruct r as [|b1 r1]; [exact Herr|].
  destruct (rune_start b1) eqn:E1; unfold last_of.
  { unfold decode_rune. destruct (N.ltb_spec b1 128); [exact Herr|].
    destruct (in_rng b1 194 223) eqn:R1; [destruct (in_rng b0 128 191) eqn:R0|]; unfold in_rng in *.
    - cbn [snd]. change (2 =? 2)%nat with true. cbv iota.
      split; [cbn; lia|]. intros Hsp. specialize (Hsk [b0; b1] r1). cbn [app length] in Hsk.
      rewrite rev_length in Hsk. cbn [length] in *. rewrite Hsk. cbn. apply space2; [lia|lia|exact Hsp].
    - exact Herr.
    - destruct ((224 <=? b1)%N && (b1 <=? 239)%N); [exact Herr|].
      destruct ((240 <=? b1)%N && (b1 <=? 244)%N); exact Herr. }
  destruct r1 as [|b2 r2]; [exact Herr|].
  destruct (rune_start b2) eqn:E2.
  { unfold decode_rune. destruct (N.ltb_spec b2 128); [exact Herr|].
    destruct (in_rng b2 194 223) eqn:R2; [destruct (in_rng b1 128 191); exact Herr|].
    destruct (in_rng b2 224 239) eqn:R3.
    2: { destruct (in_rng b2 240 244); exact Herr. }
    cbv zeta. match goal with |- context [if ?c && ?d then _ else (rune_error, 1%nat)] => destruct (c && d) eqn:Ec end; [|exact Herr].
    cbn [snd]. change (3 =? 3)%nat with true. cbv iota.
    split; [cbn; lia|]. intros Hsp. specialize (Hsk [b0; b1; b2] r2). cbn [app length] in Hsk.
    rewrite rev_length in Hsk. cbn [length] in *. rewrite Hsk. cbn. unfold in_rng in *.
    apply andb_true_iff in Ec as [Ec0 Ec1].
    assert (B1 : (128 <= b1 <= 191)%N).
    { destruct (N.eqb_spec b2 224); destruct (N.eqb_spec b2 237); lia. }
    apply space3; [lia|lia|lia| |exact Hsp].
    intros ->. rewrite N.eqb_refl in Ec0. lia. }
  destruct r2 as [|b3 r3]; [exact Herr|].
  destruct (rune_start b3) eqn:E3; [|exact Herr].
  { unfold decode_rune. destruct (N.ltb_spec b3 128); [exact Herr|].
    destruct (in_rng b3 194 223) eqn:R2; [destruct (in_rng b2 128 191); exact Herr|].
    destruct (in_rng b3 224 239) eqn:R3.
    { cbv zeta. match goal with |- context [if ?c && ?d then _ else (rune_error, 1%nat)] => destruct (c && d) end; exact Herr. }
    destruct (in_rng b3 240 244) eqn:R4; [|exact Herr].
    cbv zeta. match goal with |- context [if ?c && ?d then _ else (rune_error, 1%nat)] => destruct (c && d) eqn:Ec end; [|exact Herr].
    cbn [snd]. change (4 =? 4)%nat with true. cbv iota.
    split; [cbn; lia|]. unfold in_rng in *.
    apply andb_true_iff in Ec as [Ec Ec0]. apply andb_true_iff in Ec as [Ec Ec1].
    rewrite space4; [discriminate|lia| |].
    - destruct (N.eqb_spec b3 240); destruct (N.eqb_spec b3 244); lia.
    - intros ->. rewrite N.eqb_refl in Ec. lia. }
Qed.

Lemma decode_last_bwd s : ends_with_ws s -> is_space (fst (decode_last_rune s)) = true.
Proof.
  intros (w & Hw & p & ->). unfold decode_last_rune. rewrite rev_app_distr.
  unfold white_space_chars in Hw. cbn [In] in Hw.
  repeat (destruct Hw as [<-|Hw]; [cbn; reflexivity|]). destruct Hw.
Qed.

Lemma all_ws_nil : all_ws [].
Proof. exists []. split; [constructor|reflexivity]. Qed.

Lemma all_ws_cons w s : In w white_space_chars -> all_ws s -> all_ws (w ++ s).
Proof. intros Hw (ws & Hf & ->). exists (w :: ws). split; [constructor; assumption|reflexivity]. Qed.

Lemma ws_head w : In w white_space_chars -> exists b r, w = b :: r /\ rune_start b = true.
Proof.
  unfold white_space_chars. cbn [In]. intros Hw.
  repeat (destruct Hw as [<-|Hw]; [eexists; eexists; split; reflexivity|]). destruct Hw.
Qed.

Lemma all_ws_head s : all_ws s -> match s with [] => True | b :: _ => rune_start b = true end.
Proof.
  intros (ws & Hf & ->). induction Hf as [|w ws Hw Hf IH]; [exact I|].
  cbn [concat]. destruct (ws_head w Hw) as (b & r & -> & Hb). exact Hb.
Qed.

Lemma lins_spec fuel : forall s i, (i <= length s)%nat -> (i < fuel)%nat -> all_ws (skipn i s) ->
  match last_index_nonspace fuel s i with
  | None => all_ws s
  | Some j => exists r n, (1 <= n)%nat /\ (j + n <= length s)%nat /\ all_ws (skipn (j + n) s) /\
        decode_last_rune (firstn (j + n) s) = (r, n) /\ is_space r = false
  end.
Proof.
  induction fuel as [|fuel IH]; intros s i Hi Hf Hw; [lia|].
  cbn [last_index_nonspace]. destruct (Nat.eqb_spec i 0) as [->|Hi0]; [exact Hw|].
  assert (Hne : firstn i s <> []).
  { intros H. apply (f_equal (@length N)) in H. rewrite firstn_length in H. cbn in H. lia. }
  pose proof (decode_last_fwd _ Hne) as Hd. destruct (decode_last_rune (firstn i s)) as [r n] eqn:E.
  destruct Hd as [Hn Hs]. rewrite firstn_length, Nat.min_l in Hn, Hs by lia.
  destruct (is_space r) eqn:Er.
  - apply IH; [lia|lia|]. specialize (Hs eq_refl).
    replace (skipn (i - n) s) with (skipn (i - n) (firstn i s) ++ skipn i s).
    + apply all_ws_cons; assumption.
    + rewrite <- (firstn_skipn i s) at 3. rewrite skipn_app.
      rewrite firstn_length, Nat.min_l by lia. replace (i - n - i)%nat with 0%nat by lia. reflexivity.
  - exists r, n. replace (i - n + n)%nat with i by lia. repeat split; auto; lia.
Qed.

Lemma decode_one b rest : (128 <= b)%N ->
  match rest with [] => True | c :: _ => rune_start c = true end -> snd (decode_rune (b :: rest)) = 1%nat.
Proof.
  intros Hb Hr. unfold decode_rune. destruct (N.ltb_spec b 128); [lia|].
  destruct rest as [|c rest].
  { destruct (in_rng b 194 223); [reflexivity|]. destruct (in_rng b 224 239); [reflexivity|].
    destruct (in_rng b 240 244); reflexivity. }
  unfold rune_start in Hr. apply negb_true_iff in Hr.
  destruct (in_rng b 194 223). { rewrite Hr. reflexivity. }
  assert (Hr' : forall lo hi, (128 <= lo)%N -> (hi <= 191)%N -> in_rng c lo hi = false).
  { unfold in_rng in *. intros. lia. }
  destruct (in_rng b 224 239).
  { destruct rest as [|d rest]; [reflexivity|]. rewrite Hr'; [reflexivity| |].
    - destruct (N.eqb b 224); lia. - destruct (N.eqb b 237); lia. }
  destruct (in_rng b 240 244); [|reflexivity].
  destruct rest as [|d rest]; [reflexivity|]. destruct rest as [|e rest]; [reflexivity|].
  rewrite Hr'; [reflexivity| |].
  - destruct (N.eqb b 240); lia. - destruct (N.eqb b 244); lia.
Qed.

(** A rune that the backwards decoder accepts with more than one byte is the one the forward
    decoder sees at its start. *)
Lemma decode_agree s r n : s <> [] -> decode_last_rune s = (r, n) -> forall rest,
  match rest with [] => True | c :: _ => rune_start c = true end ->
  match skipn (length s - n) (s ++ rest) with
  | [] => False
  | b :: _ => if (128 <=? b)%N then snd (decode_rune (skipn (length s - n) (s ++ rest))) = n else n = 1%nat
  end.
Proof.
  intros Hs. unfold decode_last_rune.
  rewrite <- (rev_involutive s). set (t := rev s) in *.
  assert (Ht : t <> []). { subst t. intros H. apply (f_equal (@rev N)) in H. rewrite rev_involutive in H. auto. }
  clearbody t. clear Hs s. rewrite rev_involutive.
  assert (Hsk : forall (u v rest : bytes),
      skipn (length (rev (u ++ v)) - length u) (rev (u ++ v) ++ rest) = rev u ++ rest).
  { intros u v rest. rewrite rev_app_distr, app_length, !rev_length, <- app_assoc.
    replace (length v + length u - length u)%nat with (length (rev v)) by (rewrite rev_length; lia).
    apply skipn_app_exact. }
  destruct t as [|b0 r0]; [congruence|].
  assert (Hone : forall r n rest, (rune_error, 1%nat) = (r, n) -> (128 <= b0)%N ->
     match rest with [] => True | c :: _ => rune_start c = true end ->
     match skipn (length (rev (b0 :: r0)) - n) (rev (b0 :: r0) ++ rest) with
     | [] => False
     | b :: _ => if (128 <=? b)%N then snd (decode_rune (skipn (length (rev (b0 :: r0)) - n) (rev (b0 :: r0) ++ rest))) = n
                 else n = 1%nat
     end).
  { intros r' n' rest Hd Hb Hr. inv Hd. pose proof (Hsk [b0] r0 rest) as Hk. cbn [app length] in Hk.
    cbn [length] in Hk. rewrite Hk. cbn [rev app]. destruct (N.leb_spec 128 b0); [|lia]. apply decode_one; assumption. }
  intros Hd rest Hr.
  destruct (N.ltb_spec b0 128) as [Hb0|Hb0].
  { inv Hd. pose proof (Hsk [r] r0 rest) as Hk. cbn [app length] in Hk. rewrite Hk. cbn [rev app].
    destruct (N.leb_spec 128 r); [lia|]. reflexivity. }
  destruct r0 as [|b1 r1]; [exact (Hone _ _ _ Hd Hb0 Hr)|].
  assert (Hgen : forall u v w, b0 :: b1 :: r1 = u ++ v -> (1 < w)%nat -> length u = w ->
     (forall rest, rune_start (last u 0%N) = true /\
        (snd (decode_rune (rev u)) = w -> snd (decode_rune (rev u ++ rest)) = w)) ->
     last_of (decode_rune (rev u)) w = (r, n) ->
     match skipn (length (rev (b0 :: b1 :: r1)) - n) (rev (b0 :: b1 :: r1) ++ rest) with
     | [] => False
     | b :: _ => if (128 <=? b)%N then snd (decode_rune (skipn (length (rev (b0 :: b1 :: r1)) - n) (rev (b0 :: b1 :: r1) ++ rest))) = n
                 else n = 1%nat
     end).
  { intros u v w He Hw Hl Hx Hlo. unfold last_of in Hlo.
    destruct (Nat.eqb_spec (snd (decode_rune (rev u))) w) as [Heq|Hneq].
    - assert (n = w) by (rewrite <- Heq, Hlo; reflexivity). subst n.
      rewrite He, <- Hl, Hsk, Hl. destruct (Hx rest) as [_ Hx2]. specialize (Hx2 Heq).
      destruct (rev u ++ rest) as [|b q] eqn:Eu.
      + apply (f_equal (@length N)) in Eu. rewrite app_length, rev_length in Eu. cbn in Eu. lia.
      + destruct (N.leb_spec 128 b); [exact Hx2|]. exfalso. unfold decode_rune in Hx2.
        destruct (N.ltb_spec b 128); cbn in Hx2; lia.
    - exact (Hone _ _ _ Hlo Hb0 Hr). }
  destruct (rune_start b1) eqn:E1.
  { apply (Hgen [b0; b1] r1 2%nat); [reflexivity|lia|reflexivity| |exact Hd].
    intros q. split; [exact E1|]. cbn [rev app]. unfold decode_rune.
    destruct (b1 <? 128)%N; [auto|]. destruct (in_rng b1 194 223); [auto|].
    destruct (in_rng b1 224 239); [cbn; lia|]. destruct (in_rng b1 240 244); cbn; lia. }
  destruct r1 as [|b2 r2]; [exact (Hone _ _ _ Hd Hb0 Hr)|].
  destruct (rune_start b2) eqn:E2.
  { apply (Hgen [b0; b1; b2] r2 3%nat); [reflexivity|lia|reflexivity| |exact Hd].
    intros q. split; [exact E2|]. cbn [rev app]. unfold decode_rune.
    destruct (b2 <? 128)%N; [auto|]. destruct (in_rng b2 194 223); [auto|].
    destruct (in_rng b2 224 239); [auto|]. destruct (in_rng b2 240 244); cbn; lia. }
  destruct r2 as [|b3 r3]; [exact (Hone _ _ _ Hd Hb0 Hr)|].
  destruct (rune_start b3) eqn:E3; [|exact (Hone _ _ _ Hd Hb0 Hr)].
  apply (Hgen [b0; b1; b2; b3] r3 4%nat); [reflexivity|lia|reflexivity| |exact Hd].
  intros q. split; [exact E3|]. cbn [rev app]. unfold decode_rune.
  destruct (b3 <? 128)%N; [auto|]. destruct (in_rng b3 194 223); [auto|].
  destruct (in_rng b3 224 239); [auto|]. destruct (in_rng b3 240 244); auto.
Qed.

Theorem trim_right_spec s : exists w,
  s = trim_right s ++ w /\ all_ws w /\ ~ ends_with_ws (trim_right s).
Proof.
  unfold trim_right.
  pose proof (lins_spec (S (length s)) s (length s) (Nat.le_refl _) (Nat.lt_succ_diag_r _)) as H.
  rewrite skipn_all in H. specialize (H all_ws_nil).
  destruct (last_index_nonspace (S (length s)) s (length s)) as [j|].
  - destruct H as (r & n & Hn & Hj & Hw & Hd & Hr).
    assert (Hl : length (firstn (j + n) s) = (j + n)%nat) by (rewrite firstn_length; lia).
    assert (Hne : firstn (j + n) s <> []).
    { intros H. rewrite H in Hl. cbn in Hl. lia. }
    pose proof (decode_agree _ _ _ Hne Hd (skipn (j + n) s) (all_ws_head _ Hw)) as Ha.
    rewrite firstn_skipn, Hl in Ha. replace (j + n - n)%nat with j in Ha by lia.
    assert (Hgoal : exists w, s = firstn (j + n) s ++ w /\ all_ws w /\ ~ ends_with_ws (firstn (j + n) s)).
    { exists (skipn (j + n) s). split; [symmetry; apply firstn_skipn|]. split; [exact Hw|].
      intros He. apply decode_last_bwd in He. rewrite Hd in He. cbn in He. congruence. }
    destruct (skipn j s) as [|b q] eqn:Es; [destruct Ha|].
    destruct (128 <=? b)%N; [rewrite Ha; exact Hgoal|]. subst n. exact Hgoal.
  - exists s. split; [reflexivity|]. split; [exact H|].
    intros (w & Hw & p & He). destruct (ws_head w Hw) as (b & q & -> & _). cbn in He. destruct p; discriminate.
Qed.

Lemma all_ws_last s : all_ws s -> s = [] \/ ends_with_ws s.
Proof.
  intros (ws & Hf & ->). destruct ws as [|w0 ws0] eqn:E; [left; reflexivity|]. right.
  rewrite <- E in *. destruct (exists_last (l := ws)) as (l & x & Hl); [congruence|].
  exists x. split.
  - rewrite Forall_forall in Hf. apply Hf. rewrite Hl. apply in_or_app. right. left. reflexivity.
  - exists (concat l). rewrite Hl, concat_app. cbn. rewrite app_nil_r. reflexivity.
Qed.

(** No two white space encodings overlap at the end: stripping is unambiguous. *)
Lemma trim_right_id s : ~ ends_with_ws s -> trim_right s = s.
Proof.
  intros H. destruct (trim_right_spec s) as (w & He & Hw & _).
  destruct (all_ws_last w Hw) as [->|(x & Hx & p & Hp)].
  - rewrite app_nil_r in He. congruence.
  - exfalso. apply H. exists x. split; [exact Hx|]. exists (trim_right s ++ p).
    rewrite He at 1. rewrite Hp, app_assoc. reflexivity.
Qed.

Lemma trim_right_idem s : trim_right (trim_right s) = trim_right s.
Proof. apply trim_right_id. destruct (trim_right_spec s) as (w & _ & _ & H). exact H. Qed.

(** Longest: a prefix of s that does not end in white space is no longer than the result. *)
Lemma ws_no_proper_suffix x y : In x white_space_chars -> In y white_space_chars ->
  forall p, x = p ++ y -> p = [].
Proof.
  intros Hx Hy p He. destruct (ws_head y Hy) as (b & r & -> & Hb).
  destruct p as [|c p]; [reflexivity|]. exfalso.
  assert (Hin : In b (tl x)) by (rewrite He; cbn; apply in_or_app; right; left; reflexivity).
  clear He Hy p. unfold white_space_chars in Hx. cbn [In] in Hx.
  repeat (destruct Hx as [<-|Hx];
    [cbn in Hin; repeat (destruct Hin as [<-|Hin]; [discriminate Hb|]); destruct Hin|]). destruct Hx.
Qed.

Lemma app_eq_suffix {A} (a b c d : list A) : a ++ b = c ++ d ->
  (exists e, a = c ++ e /\ d = e ++ b) \/ (exists e, c = a ++ e /\ b = e ++ d).
Proof.
  revert c. induction a as [|x a IH]; intros [|y c] H; cbn in H.
  - left. exists []. auto.
  - right. exists (y :: c). auto.
  - left. exists (x :: a). auto.
  - injection H as -> H. destruct (IH c H) as [(e & -> & ->)|(e & -> & ->)].
    + left. exists e. auto. + right. exists e. auto.
Qed.

Lemma ws_suffix_align ws1 : forall ws2 t1 t2,
  Forall (fun w => In w white_space_chars) ws1 -> Forall (fun w => In w white_space_chars) ws2 ->
  ~ ends_with_ws t1 -> ~ ends_with_ws t2 ->
  t1 ++ concat (rev ws1) = t2 ++ concat (rev ws2) -> t1 = t2.
Proof.
  induction ws1 as [|x ws1 IH]; intros [|y ws2] t1 t2 F1 F2 N1 N2 He; cbn [rev] in He;
    rewrite ?concat_app in He; cbn [concat] in He; rewrite ?app_nil_r in He.
  - exact He.
  - exfalso. apply N1. exists y. split; [exact (Forall_inv F2)|]. exists (t2 ++ concat (rev ws2)).
    rewrite He, app_assoc. reflexivity.
  - exfalso. apply N2. exists x. split; [exact (Forall_inv F1)|]. exists (t1 ++ concat (rev ws1)).
    rewrite <- He, app_assoc. reflexivity.
  - rewrite !app_assoc in He. pose proof (Forall_inv F1) as Hx. pose proof (Forall_inv F2) as Hy. cbv beta in Hx, Hy.
    destruct (app_eq_suffix _ _ _ _ He) as [(e & H1 & H2)|(e & H1 & H2)].
    + pose proof (ws_no_proper_suffix y x Hy Hx e H2) as ->. rewrite app_nil_r in H1.
      exact (IH ws2 t1 t2 (Forall_inv_tail F1) (Forall_inv_tail F2) N1 N2 H1).
    + pose proof (ws_no_proper_suffix x y Hx Hy e H2) as ->. rewrite app_nil_r in H1.
      exact (IH ws2 t1 t2 (Forall_inv_tail F1) (Forall_inv_tail F2) N1 N2 (eq_sym H1)).
Qed.

Lemma trim_right_unique s t w : s = t ++ w -> all_ws w -> ~ ends_with_ws t -> trim_right s = t.
Proof.
  intros He (ws & Hf & Hw) Hn. destruct (trim_right_spec s) as (w' & He' & (ws' & Hf' & Hw') & Hn').
  apply (ws_suffix_align (rev ws') (rev ws)).
  - apply Forall_rev; assumption.
  - apply Forall_rev; assumption.
  - assumption.
  - assumption.
  - rewrite !rev_involutive, <- Hw, <- Hw', <- He. symmetry. exact He'.
Qed.

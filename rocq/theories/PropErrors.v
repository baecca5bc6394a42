(** PropErrors.v -- C100: the text of an error of Parse. *)
From Coq Require Import ZifyN ZifyNat ZifyBool.
From Verif Require Import Base BaseFacts MText MTransport MErrors MParse LParse PropSData3 PropErrorKind.

Ltac Zify.zify_post_hook ::= Z.div_mod_to_equations.

(** ** runes *)
Lemma append_utf8 r : scalar_value r -> append_rune r = utf8 r.
Proof.
  intros H. unfold append_rune, utf8. destruct (r <? 128)%N eqn:E1; [reflexivity|]. destruct (r <? 2048)%N eqn:E2; [reflexivity|].
  assert (Hv : valid_rune r = true). { unfold valid_rune, in_rng. apply orb_true_iff. destruct H; [left|right]; lia. }
  rewrite Hv. reflexivity.
Qed.

(** what DecodeRune reads is the encoding of the character it returns *)
Lemma decode_inv s r w : decode_rune s = (r, w) -> (2 <= w)%nat ->
  scalar_value r /\ (128 <= r)%N /\ s = utf8 r ++ skipn w s /\ length (utf8 r) = w.
Proof.
  intros H Hw. unfold decode_rune in H. destruct s as [|p0 q]; [injection H as <- <-; lia|].
  destruct (p0 <? 128)%N eqn:E0; [injection H as <- <-; lia|].
  destruct (in_rng p0 194 223) eqn:E2.
  { destruct q as [|p1 q]; [injection H as <- <-; lia|]. destruct (in_rng p1 128 191) eqn:E3; [|injection H as <- <-; lia]. injection H as <- <-. unfold in_rng in *.
    assert (R : (128 <= (p0 - 192) * 64 + (p1 - 128) < 2048)%N) by lia. split; [unfold scalar_value; lia|]. split; [lia|].
    remember ((p0 - 192) * 64 + (p1 - 128))%N as r eqn:Er. unfold utf8. replace (r <? 128)%N with false by lia. replace (r <? 2048)%N with true by lia.
    split; [|reflexivity]. cbn [skipn app]. f_equal; [lia|f_equal; lia]. }
  destruct (in_rng p0 224 239) eqn:E3.
  { destruct q as [|p1 [|p2 q]]; try (injection H as <- <-; lia). destruct (_ && _) eqn:E4 in H; [|injection H as <- <-; lia]. injection H as <- <-. apply andb_true_iff in E4 as [E4 E5]. unfold in_rng in *.
    assert (R : (2048 <= (p0 - 224) * 4096 + (p1 - 128) * 64 + (p2 - 128) < 65536)%N) by (destruct (N.eqb_spec p0 224); destruct (N.eqb_spec p0 237); lia).
    assert (R2 : scalar_value ((p0 - 224) * 4096 + (p1 - 128) * 64 + (p2 - 128))) by (unfold scalar_value; destruct (N.eqb_spec p0 224); destruct (N.eqb_spec p0 237); lia).
    assert (P1 : (128 <= p1 <= 191)%N) by (destruct (N.eqb_spec p0 224); destruct (N.eqb_spec p0 237); lia). clear E4.
    split; [exact R2|]. split; [lia|].
    remember ((p0 - 224) * 4096 + (p1 - 128) * 64 + (p2 - 128))%N as r eqn:Er. unfold utf8. replace (r <? 128)%N with false by lia. replace (r <? 2048)%N with false by lia. replace (r <? 65536)%N with true by lia.
    split; [|reflexivity]. cbn [skipn app]. f_equal; [lia|f_equal; [lia|f_equal; lia]]. }
  destruct (in_rng p0 240 244) eqn:E4; [|injection H as <- <-; lia].
  destruct q as [|p1 [|p2 [|p3 q]]]; try (injection H as <- <-; lia). destruct (_ && _) eqn:E5 in H; [|injection H as <- <-; lia]. injection H as <- <-. apply andb_true_iff in E5 as [E5 E7]. apply andb_true_iff in E5 as [E5 E6]. unfold in_rng in *.
  assert (R : (65536 <= (p0 - 240) * 262144 + (p1 - 128) * 4096 + (p2 - 128) * 64 + (p3 - 128) < 1114112)%N) by (destruct (N.eqb_spec p0 240); destruct (N.eqb_spec p0 244); lia).
  assert (P1 : (128 <= p1 <= 191)%N) by (destruct (N.eqb_spec p0 240); destruct (N.eqb_spec p0 244); lia). clear E5.
  split; [unfold scalar_value; lia|]. split; [lia|].
  remember ((p0 - 240) * 262144 + (p1 - 128) * 4096 + (p2 - 128) * 64 + (p3 - 128))%N as r eqn:Er. unfold utf8.
  replace (r <? 128)%N with false by lia. replace (r <? 2048)%N with false by lia. replace (r <? 65536)%N with false by lia.
  split; [|reflexivity]. cbn [skipn app]. f_equal; [lia|f_equal; [lia|f_equal; [lia|f_equal; lia]]].
Qed.

(** ** reading a quoted text back *)
Definition hexval (c : N) : N := if (c <? 58)%N then (c - 48)%N else (c - 87)%N.
Fixpoint read_hex (n : nat) (acc : N) (t : bytes) : N * bytes :=
  match n, t with
  | S n', c :: t' => read_hex n' (acc * 16 + hexval c)%N t'
  | _, _ => (acc, t)
  end.
Definition unescape (c : N) : N :=
  if N.eqb c 97 then 7%N else if N.eqb c 98 then 8%N else if N.eqb c 102 then 12%N else if N.eqb c 110 then 10%N else if N.eqb c 114 then 13%N
  else if N.eqb c 116 then 9%N else if N.eqb c 118 then 11%N else c.
Definition unquote_one (t : bytes) : bytes * bytes :=
  match t with
  | [] => ([], [])
  | b :: q =>
      if N.eqb b 92 then
        match q with
        | [] => ([], [])
        | c :: q' =>
            if N.eqb c 120 then let '(v, y) := read_hex 2 0 q' in ([v], y)
            else if N.eqb c 117 then let '(v, y) := read_hex 4 0 q' in (utf8 v, y)
            else if N.eqb c 85 then let '(v, y) := read_hex 8 0 q' in (utf8 v, y)
            else ([unescape c], q')
        end
      else if (b <? 128)%N then ([b], q)
      else (firstn (snd (decode_rune t)) t, skipn (snd (decode_rune t)) t)
  end.

Lemma hexval_lowerhex n : (n < 16)%N -> hexval (lowerhex n) = n.
Proof. intros H. unfold hexval, lowerhex. destruct (n <? 10)%N eqn:E; [replace (48 + n <? 58)%N with true by lia|replace (87 + n <? 58)%N with false by lia]; lia. Qed.
Lemma lowerhex_range n : (n < 16)%N -> (48 <= lowerhex n <= 102)%N.
Proof. intros H. unfold lowerhex. destruct (n <? 10)%N eqn:E; lia. Qed.

Lemma read_hex_digits n : forall acc r y, read_hex n acc (hex_digits n r ++ y) = (acc * 16 ^ N.of_nat n + r mod 16 ^ N.of_nat n, y)%N.
Proof.
  induction n as [|n IH]; intros acc r y.
  - cbn [read_hex hex_digits app N.of_nat N.pow]. rewrite N.mod_1_r. f_equal. lia.
  - cbn [read_hex hex_digits app]. rewrite IH, hexval_lowerhex by (apply N.mod_lt; lia). f_equal.
    rewrite Nat2N.inj_succ, N.pow_succ_r'. set (P := (16 ^ N.of_nat n)%N). assert (HP : P <> 0%N) by (apply N.pow_nonzero; lia).
    rewrite (N.mul_comm 16 P), N.mod_mul_r by lia. lia.
Qed.
Lemma hex_digits_range n : forall r, Forall (fun c => (32 <= c <= 126)%N) (hex_digits n r).
Proof. induction n as [|n IH]; intros r; constructor; [|apply IH]. pose proof (lowerhex_range (r / 16 ^ N.of_nat n mod 16)%N ltac:(apply N.mod_lt; lia)). lia. Qed.

(** Texts made of printable characters only *)
Definition printable (pr : N -> bool) (t : bytes) : Prop := exists rs, t = concat (map utf8 rs) /\ Forall (fun r => scalar_value r /\ is_print pr r = true) rs.
Lemma printable_app pr a b : printable pr a -> printable pr b -> printable pr (a ++ b).
Proof. intros (x & -> & Hx) (y & -> & Hy). exists (x ++ y). rewrite map_app, concat_app. split; [reflexivity|]. apply Forall_app. auto. Qed.
Lemma printable_ascii pr t : Forall (fun c => (32 <= c <= 126)%N) t -> printable pr t.
Proof.
  intros H. exists t. split.
  - induction H as [|c t Hc _ IH]; [reflexivity|]. cbn [map concat]. rewrite <- IH. unfold utf8. replace (c <? 128)%N with true by lia. reflexivity.
  - eapply Forall_impl; [|exact H]. intros c Hc. cbn beta in Hc. split; [unfold scalar_value; lia|]. unfold is_print, in_rng. replace (c <=? 255)%N with true by lia. lia.
Qed.
Lemma printable_rune pr r : scalar_value r -> is_print pr r = true -> printable pr (utf8 r).
Proof. intros H1 H2. exists [r]. cbn [map concat]. rewrite app_nil_r. split; [reflexivity|]. constructor; auto. Qed.

Lemma decode_widths s : s <> [] -> decode_rune s = (rune_error, 1%nat) \/ (exists b q, s = b :: q /\ (b < 128)%N) \/ (2 <= snd (decode_rune s))%nat.
Proof.
  intros H. destruct s as [|p0 q]; [congruence|]. unfold decode_rune. destruct (p0 <? 128)%N eqn:E0; [right; left; exists p0, q; split; [reflexivity|lia]|].
  destruct (in_rng p0 194 223). { destruct q as [|p1 q]; [left; reflexivity|]. destruct (in_rng p1 128 191); [right; right; cbn; lia|left; reflexivity]. }
  destruct (in_rng p0 224 239). { destruct q as [|p1 [|p2 q]]; try (left; reflexivity). match goal with |- context [if ?x && ?y then _ else _] => destruct (x && y) end; [right; right; cbn; lia|left; reflexivity]. }
  destruct (in_rng p0 240 244); [|left; reflexivity]. destruct q as [|p1 [|p2 [|p3 q]]]; try (left; reflexivity).
  match goal with |- context [if ?x && ?y then _ else _] => destruct (x && y) end; [right; right; cbn; lia|left; reflexivity].
Qed.

(** one turn of the loop *)
Lemma quote_turn pr b s : Forall is_byte (b :: s) -> exists esc w, (1 <= w <= length (b :: s))%nat /\
  (forall f, quote_loop (S f) pr (b :: s) = esc ++ quote_loop f pr (skipn w (b :: s))) /\
  (forall y, unquote_one (esc ++ y) = (firstn w (b :: s), y)) /\ (forall y z, esc ++ y <> 34%N :: z) /\ printable pr esc.
Proof.
  intros Hb. assert (Hb0 : (b < 256)%N) by (apply Forall_inv in Hb; exact Hb). destruct (b <? 128)%N eqn:E0.
  - (* ASCII *)
    assert (Hq : forall f, quote_loop (S f) pr (b :: s) = escape_rune pr b ++ quote_loop f pr (skipn 1 (b :: s))).
    { intros f. cbn [quote_loop]. rewrite E0. replace (N.eqb b rune_error) with false by (unfold rune_error; lia). rewrite andb_false_r. reflexivity. }
    exists (escape_rune pr b), 1%nat. split; [cbn [length]; lia|]. split; [exact Hq|]. clear Hq. cbn [firstn].
    assert (Hsimple : forall c, (32 <= c <= 126)%N -> c <> 120%N -> c <> 117%N -> c <> 85%N -> unescape c = b -> escape_rune pr b = [92%N; c] ->
       (forall y, unquote_one (escape_rune pr b ++ y) = ([b], y)) /\ (forall y z, escape_rune pr b ++ y <> 34%N :: z) /\ printable pr (escape_rune pr b)).
    { intros c Hc H1 H2 H3 Hu ->. split; [|split; [discriminate|apply printable_ascii; constructor; [lia|constructor; [exact Hc|constructor]]]].
      intros y. cbn [app unquote_one]. rewrite N.eqb_refl. replace (N.eqb c 120) with false by lia. replace (N.eqb c 117) with false by lia. replace (N.eqb c 85) with false by lia. rewrite Hu. reflexivity. }
    assert (Hx : (forall y, unquote_one (([92; 120]%N ++ hex_digits 2 b) ++ y) = ([b], y)) /\ (forall y z, ([92; 120]%N ++ hex_digits 2 b) ++ y <> 34%N :: z) /\ printable pr ([92; 120]%N ++ hex_digits 2 b)).
    { split; [|split; [discriminate|apply printable_ascii; constructor; [lia|constructor; [lia|apply hex_digits_range]]]].
      intros y. rewrite <- app_assoc. remember (hex_digits 2 b ++ y) as t eqn:Et. cbn [app unquote_one]. rewrite !N.eqb_refl, Et, read_hex_digits. f_equal. f_equal. cbn. rewrite N.mod_small by lia. reflexivity. }
    unfold escape_rune in *. destruct (N.eqb b 34 || N.eqb b 92) eqn:Eq.
    { apply (Hsimple b); try reflexivity; try lia. assert (b = 34 \/ b = 92)%N as [-> | ->] by lia; reflexivity. }
    destruct (is_print pr b) eqn:Ep.
    { assert (Ea : append_rune b = [b]) by (unfold append_rune; rewrite E0; reflexivity). rewrite Ea. split; [|split].
      - intros y. cbn [app unquote_one]. replace (N.eqb b 92) with false by lia. rewrite E0. reflexivity.
      - intros y z. cbn [app]. intros K. apply (f_equal (hd 0%N)) in K. cbn [hd] in K. lia.
      - replace [b] with (utf8 b) by (unfold utf8; rewrite E0; reflexivity). apply printable_rune; [unfold scalar_value; lia|exact Ep]. }
    destruct (N.eqb_spec b 7) as [->|]; [apply (Hsimple 97%N); try reflexivity; lia|].
    destruct (N.eqb_spec b 8) as [->|]; [apply (Hsimple 98%N); try reflexivity; lia|].
    destruct (N.eqb_spec b 12) as [->|]; [apply (Hsimple 102%N); try reflexivity; lia|].
    destruct (N.eqb_spec b 10) as [->|]; [apply (Hsimple 110%N); try reflexivity; lia|].
    destruct (N.eqb_spec b 13) as [->|]; [apply (Hsimple 114%N); try reflexivity; lia|].
    destruct (N.eqb_spec b 9) as [->|]; [apply (Hsimple 116%N); try reflexivity; lia|].
    destruct (N.eqb_spec b 11) as [->|]; [apply (Hsimple 118%N); try reflexivity; lia|].
    assert (Hctl : (b <? 32)%N || N.eqb b 127 = true).
    { unfold is_print, in_rng in Ep. replace (b <=? 255)%N with true in Ep by lia. lia. }
    rewrite Hctl. exact Hx.
  - (* not ASCII *)
    destruct (decode_rune (b :: s)) as [r w] eqn:Ed. destruct (decode_widths (b :: s) ltac:(discriminate)) as [H1|[(b' & q & E & H1)|H1]].
    + rewrite Ed in H1. assert (r = rune_error) by congruence. assert (w = 1%nat) by congruence. subst r w.
      exists ([92; 120]%N ++ hex_digits 2 b), 1%nat. split; [cbn [length]; lia|]. split; [|split; [|split; [discriminate|]]].
      * intros f. cbn [quote_loop]. rewrite E0, Ed. rewrite Nat.eqb_refl, N.eqb_refl. rewrite <- app_assoc. reflexivity.
      * intros y. rewrite <- app_assoc. remember (hex_digits 2 b ++ y) as t eqn:Et. cbn [app unquote_one firstn]. rewrite !N.eqb_refl, Et, read_hex_digits. f_equal. f_equal. cbn. rewrite N.mod_small by lia. reflexivity.
      * apply printable_ascii; constructor; [lia|constructor; [lia|apply hex_digits_range]].
    + injection E as <- <-. lia.
    + rewrite Ed in H1. cbn [snd] in H1. destruct (decode_inv _ _ _ Ed H1) as (Hs & Hr & E & Hl).
      assert (Hw : (w <= length (b :: s))%nat) by (rewrite E, app_length; lia).
      assert (Ef : firstn w (b :: s) = utf8 r). { rewrite E at 1. rewrite firstn_app, Hl, Nat.sub_diag, firstn_all2 by lia. rewrite firstn_O, app_nil_r. reflexivity. }
      exists (escape_rune pr r), w. split; [lia|]. split.
      { intros f. cbn [quote_loop]. rewrite E0, Ed. replace (w =? 1)%nat with false by lia. reflexivity. }
      rewrite Ef. unfold escape_rune. replace (N.eqb r 34 || N.eqb r 92) with false by lia.
      assert (Hvr : valid_rune r = true). { unfold valid_rune, in_rng. destruct Hs; lia. }
      destruct (is_print pr r) eqn:Ep.
      { rewrite append_utf8 by exact Hs. split; [|split; [|apply printable_rune; assumption]].
        - intros y. pose proof (decode_utf8 r y Hs) as Hd. rewrite Hl in Hd.
          assert (Hne : exists c q, utf8 r ++ y = c :: q /\ (128 <= c)%N).
          { unfold utf8. replace (r <? 128)%N with false by lia. destruct (r <? 2048)%N; [|destruct (r <? 65536)%N]; cbn [app]; eexists; eexists; (split; [reflexivity|lia]). }
          destruct Hne as (c & q & Ec & Hc). rewrite Ec in *. unfold unquote_one. replace (N.eqb c 92) with false by lia. replace (c <? 128)%N with false by lia. rewrite Hd. cbn [snd].
          rewrite <- Ec. rewrite firstn_app, skipn_app, Hl, Nat.sub_diag, firstn_all2, skipn_all2 by lia. rewrite firstn_O, app_nil_r. reflexivity.
        - intros y z. unfold utf8. replace (r <? 128)%N with false by lia. destruct (r <? 2048)%N; [|destruct (r <? 65536)%N]; cbn [app]; intros K; apply (f_equal (hd 0%N)) in K; cbn [hd] in K; lia. }
      replace (N.eqb r 7) with false by lia. replace (N.eqb r 8) with false by lia. replace (N.eqb r 12) with false by lia. replace (N.eqb r 10) with false by lia.
      replace (N.eqb r 13) with false by lia. replace (N.eqb r 9) with false by lia. replace (N.eqb r 11) with false by lia. replace ((r <? 32)%N || N.eqb r 127) with false by lia.
      cbv zeta. rewrite Hvr. destruct (r <? 65536)%N eqn:Eu.
      * split; [|split; [discriminate|apply printable_ascii; constructor; [lia|constructor; [lia|apply hex_digits_range]]]].
        intros y. rewrite <- app_assoc. remember (hex_digits 4 r ++ y) as t eqn:Et. cbn [app unquote_one]. rewrite !N.eqb_refl. change (N.eqb 117 120) with false. cbv iota. rewrite Et, read_hex_digits.
        change (16 ^ N.of_nat 4)%N with 65536%N. rewrite N.mod_small by lia. reflexivity.
      * split; [|split; [discriminate|apply printable_ascii; constructor; [lia|constructor; [lia|apply hex_digits_range]]]].
        intros y. rewrite <- app_assoc. remember (hex_digits 8 r ++ y) as t eqn:Et. cbn [app unquote_one]. rewrite !N.eqb_refl. change (N.eqb 85 120) with false. change (N.eqb 85 117) with false. cbv iota. rewrite Et, read_hex_digits.
        change (16 ^ N.of_nat 8)%N with 4294967296%N. rewrite N.mod_small by (unfold scalar_value in Hs; lia). reflexivity.
Qed.

Lemma skipn_bytes w s : Forall is_byte s -> Forall is_byte (skipn w s).
Proof. intros H. rewrite <- (firstn_skipn w s) in H. apply Forall_app in H as [_ H]. exact H. Qed.

Lemma quote_printable pr f : forall s, (length s <= f)%nat -> Forall is_byte s -> printable pr (quote_loop f pr s).
Proof.
  induction f as [|f IH]; intros s Hl Hs; [exists []; split; [reflexivity|constructor]|]. destruct s as [|b s]; [exists []; split; [reflexivity|constructor]|].
  destruct (quote_turn pr b s Hs) as (esc & w & Hw & Hq & _ & _ & Hp). rewrite Hq. apply printable_app; [exact Hp|]. apply IH; [|apply skipn_bytes; exact Hs].
  rewrite skipn_length. lia.
Qed.

Lemma quote_inj pr f1 : forall f2 s1 s2 y1 y2, (length s1 <= f1)%nat -> (length s2 <= f2)%nat -> Forall is_byte s1 -> Forall is_byte s2 ->
  quote_loop f1 pr s1 ++ 34%N :: y1 = quote_loop f2 pr s2 ++ 34%N :: y2 -> s1 = s2 /\ y1 = y2.
Proof.
  induction f1 as [|f1 IH]; intros f2 s1 s2 y1 y2 H1 H2 B1 B2 E.
  - destruct s1; [|cbn [length] in H1; lia]. destruct s2 as [|b s2].
    + destruct f2; cbn [quote_loop app] in E; split; congruence.
    + exfalso. destruct f2 as [|f2]; [cbn [length] in H2; lia|]. destruct (quote_turn pr b s2 B2) as (esc & w & Hw & Hq & _ & Hn & _). rewrite Hq in E. cbn [quote_loop app] in E.
      rewrite <- app_assoc in E. symmetry in E. exact (Hn _ _ E).
  - destruct s1 as [|b1 s1]; destruct s2 as [|b2 s2].
    + destruct f2; cbn [quote_loop app] in E; split; congruence.
    + exfalso. destruct f2 as [|f2]; [cbn [length] in H2; lia|]. destruct (quote_turn pr b2 s2 B2) as (esc & w & Hw & Hq & _ & Hn & _). rewrite Hq in E. cbn [quote_loop app] in E.
      rewrite <- app_assoc in E. symmetry in E. exact (Hn _ _ E).
    + exfalso. destruct (quote_turn pr b1 s1 B1) as (esc & w & Hw & Hq & _ & Hn & _). rewrite Hq, <- app_assoc in E. destruct f2; cbn [quote_loop app] in E; exact (Hn _ _ E).
    + destruct f2 as [|f2]; [cbn [length] in H2; lia|].
      destruct (quote_turn pr b1 s1 B1) as (e1 & w1 & Hw1 & Hq1 & Hu1 & _). destruct (quote_turn pr b2 s2 B2) as (e2 & w2 & Hw2 & Hq2 & Hu2 & _).
      rewrite Hq1, Hq2, <- !app_assoc in E. pose proof (f_equal unquote_one E) as Eu. rewrite Hu1, Hu2 in Eu.
      assert (Ef : firstn w1 (b1 :: s1) = firstn w2 (b2 :: s2)) by congruence.
      assert (Er : quote_loop f1 pr (skipn w1 (b1 :: s1)) ++ 34%N :: y1 = quote_loop f2 pr (skipn w2 (b2 :: s2)) ++ 34%N :: y2) by congruence.
      destruct (IH f2 (skipn w1 (b1 :: s1)) (skipn w2 (b2 :: s2)) y1 y2) as [Es Ey]; try (apply skipn_bytes; assumption); try (rewrite skipn_length; lia); [exact Er|].
      split; [|exact Ey]. rewrite <- (firstn_skipn w1 (b1 :: s1)), <- (firstn_skipn w2 (b2 :: s2)), Ef, Es. reflexivity.
Qed.

(** ** C100 *)
Lemma digits_ascii n : Forall (fun c => (32 <= c <= 126)%N) (utoa n).
Proof. eapply Forall_impl; [|apply utoa_digits]. intros c Hc. cbn beta in Hc. apply is_digit_spec in Hc. lia. Qed.
Lemma itoa_ascii z : Forall (fun c => (32 <= c <= 126)%N) (itoa z).
Proof. unfold itoa. destruct (z <? 0)%Z; [constructor; [lia|]|]; apply digits_ascii. Qed.
Lemma utoa_no_space n : ~ In SP (utoa n).
Proof. intros H. pose proof (utoa_digits n) as Hd. rewrite Forall_forall in Hd. apply Hd, is_digit_spec in H. cbn in H. lia. Qed.
Lemma itoa_no_space z : ~ In SP (itoa z).
Proof. unfold itoa. destruct (z <? 0)%Z; [|apply utoa_no_space]. intros [H|H]; [discriminate|exact (utoa_no_space _ H)]. Qed.
Lemma utoa_inj a b : utoa a = utoa b -> a = b.
Proof. intros E. pose proof (utoa_value a) as H1. rewrite E, utoa_value in H1. lia. Qed.
Lemma itoa_inj a b : itoa a = itoa b -> a = b.
Proof.
  unfold itoa. destruct (Z.ltb_spec a 0); destruct (Z.ltb_spec b 0); intros E.
  - injection E as E. apply utoa_inj in E. lia.
  - exfalso. pose proof (utoa_digits (Z.to_N b)) as Hd. rewrite <- E in Hd. apply Forall_inv in Hd. discriminate.
  - exfalso. pose proof (utoa_digits (Z.to_N a)) as Hd. rewrite E in Hd. apply Forall_inv in Hd. discriminate.
  - apply utoa_inj in E. lia.
Qed.
Lemma before_space (a b : bytes) r r' : ~ In SP a -> ~ In SP b -> a ++ SP :: r = b ++ SP :: r' -> a = b /\ r = r'.
Proof.
  revert b. induction a as [|x a IH]; intros [|y b] Ha Hb E; cbn [app] in E.
  - split; congruence.
  - exfalso. apply Hb. left. congruence.
  - exfalso. apply Ha. left. congruence.
  - injection E as -> E. destruct (IH b) as [-> ->]; [intros H; apply Ha; right; exact H|intros H; apply Hb; right; exact H|exact E|auto].
Qed.

(** A ParseError prints on one line: characters that can be displayed only, whatever bytes were received. *)
Theorem C100_printable : forall pr buffer pos message, Forall is_byte buffer -> printable pr message -> printable pr (parse_error_text pr buffer pos message).
Proof.
  intros pr buffer pos message Hb Hm. unfold parse_error_text, quote.
  assert (Hc : forall c t, (32 <= c <= 126)%N -> printable pr t -> printable pr ([c] ++ t)).
  { intros c t Hc Ht. apply printable_app; [|exact Ht]. apply printable_ascii. constructor; [exact Hc|constructor]. }
  change (bs "{") with [123%N]. change (bs "} ") with ([125%N] ++ [32%N]). change (bs " ") with [32%N]. rewrite <- !app_assoc.
  apply Hc; [lia|]. apply Hc; [lia|]. apply printable_app; [apply quote_printable; [lia|exact Hb]|]. apply Hc; [lia|]. apply Hc; [lia|]. apply Hc; [lia|].
  apply printable_app; [apply printable_ascii, itoa_ascii|]. apply Hc; [lia|exact Hm].
Qed.
Print Assumptions C100_printable.

Theorem C100_one_line : forall pr t, printable pr t -> Forall (fun c => (32 <= c)%N /\ c <> 127%N) t.
Proof.
  intros pr t (rs & -> & H). induction H as [|r rs [Hs Hp] _ IH]; [constructor|]. cbn [map concat]. apply Forall_app. split; [|exact IH].
  unfold utf8. destruct (r <? 128)%N eqn:E1.
  - constructor; [|constructor]. unfold is_print, in_rng in Hp. replace (r <=? 255)%N with true in Hp by lia. lia.
  - destruct (r <? 2048)%N; [|destruct (r <? 65536)%N]; repeat (constructor; [split; [lia|intros K; lia]|]); constructor.
Qed.
Print Assumptions C100_one_line.

(** Nothing is lost in the text of a ParseError: it gives back the received bytes, the position and the message. *)
Theorem C100_faithful : forall pr b1 p1 m1 b2 p2 m2, Forall is_byte b1 -> Forall is_byte b2 ->
  parse_error_text pr b1 p1 m1 = parse_error_text pr b2 p2 m2 -> b1 = b2 /\ p1 = p2 /\ m1 = m2.
Proof.
  intros pr b1 p1 m1 b2 p2 m2 H1 H2 E. unfold parse_error_text, quote in E. rewrite <- !app_assoc in E.
  change (bs "{") with [123%N] in E. change (bs "} ") with [125%N; SP] in E. change (bs " ") with [SP] in E.
  apply (f_equal (skipn 2)) in E. cbn [skipn app] in E.
  apply quote_inj in E as [-> E]; try assumption; try lia. split; [reflexivity|].
  apply (f_equal (skipn 2)) in E. cbn [app skipn] in E.
  apply before_space in E as [E ->]; try apply itoa_no_space. apply itoa_inj in E. auto.
Qed.
Print Assumptions C100_faithful.

(** The text tells the errors apart, and for a ParseError the input. *)
Theorem C100_tells_apart : forall pr d1 e1 d2 e2, Forall is_byte d1 -> Forall is_byte d2 -> error_text pr d1 e1 = error_text pr d2 e2 ->
  e1 = e2 /\ (forall pos why, e1 = ErrParse pos why -> d1 = d2).
Proof.
  intros pr d1 e1 d2 e2 H1 H2 E. destruct e1 as [| | | | | |pos1 why1]; destruct e2 as [| | | | | |pos2 why2];
    try (exfalso; apply (f_equal (firstn 20)) in E; discriminate E); try (split; [reflexivity|discriminate]).
  cbn [error_text] in E. apply C100_faithful in E as (-> & Ep & ->); try assumption. apply Nat2Z.inj in Ep. subst pos2. split; [reflexivity|reflexivity].
Qed.
Print Assumptions C100_tells_apart.

(** Whatever Parse refuses, its error can be displayed on one line. *)
Theorem C100_parse : forall pr data eof e, Forall is_byte data -> parse data None eof = Val (zero_immutable, None, Some e) ->
  printable pr (error_text pr data e) /\ Forall (fun c => (32 <= c)%N /\ c <> 127%N) (error_text pr data e).
Proof.
  intros pr data eof e Hb H. apply C99_which_error in H.
  assert (Hall : Forall (fun w => Forall (fun c => (32 <= c <= 126)%N) w) [why_empty_field; why_empty_sd; why_expected; bs "Pos 0 Found"; bs "Pos Not Found"; bs "NO ONE EXPECT THE RETURN OF SPANISH INQUISITION"]).
  { repeat (constructor; [repeat (constructor; [split; vm_compute; discriminate|]); constructor|]). constructor. }
  rewrite Forall_forall in Hall.
  assert (Hp : forall n why, In why [why_empty_field; why_empty_sd; why_expected] -> printable pr (error_text pr data (ErrParse n why))).
  { intros n why Hin. apply C100_printable; [exact Hb|]. apply printable_ascii, Hall. cbn [In] in *. intuition. }
  assert (Hs : forall w, In w [bs "Pos 0 Found"; bs "Pos Not Found"; bs "NO ONE EXPECT THE RETURN OF SPANISH INQUISITION"] -> printable pr w).
  { intros w Hin. apply printable_ascii, Hall. cbn [In] in *. intuition. }
  assert (G : printable pr (error_text pr data e)).
  { destruct H as [H|(ws & tail & _ & _ & _ & H)]; destruct H; first [apply Hp; cbn [In]; tauto | cbn [error_text]; apply Hs; cbn [In]; tauto]. }
  split; [exact G|]. exact (C100_one_line pr _ G).
Qed.
Print Assumptions C100_parse.

(** An input with a line feed, a double quote, a backslash, a two byte character and a byte that is no character. *)
Definition odd_input : bytes := bs "<34>1 - h a p m x" ++ [SP; 10; 34; 92; 195; 169; 255; 0]%N.
Theorem C100_nonvacuous :
  parse odd_input None true = Val (zero_immutable, None, Some (ErrParse 16 why_empty_sd)) /\ Forall is_byte odd_input /\
  error_text (fun _ => false) odd_input (ErrParse 16 why_empty_sd) =
    bs "{""<34>1 - h a p m x \n\""\\" ++ [195; 169]%N ++ bs "\xff\x00""} 16 empty structured data expected" /\
  error_text (fun _ => false) [] ErrPos0 = bs "Pos 0 Found".
Proof. split; [vm_compute; reflexivity|]. split; [repeat (constructor; [vm_compute; reflexivity|]); constructor|]. split; vm_compute; reflexivity. Qed.
Print Assumptions C100_nonvacuous.

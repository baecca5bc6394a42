(** LAtoi.v -- exact characterisation of strconv.Atoi / ParseInt (base 10, 64 bits). *)
From Verif Require Import Base BaseFacts Spec LPriority.
From Coq Require Import ZifyBool ZifyNat ZifyN.
Local Open Scope Z_scope.

Lemma all_digits_cons c r : all_digits (c :: r) <-> (48 <= c <= 57)%N /\ all_digits r.
Proof.
  split.
  - intros H. split; [apply H; left; reflexivity|intros x Hx; apply H; right; exact Hx].
  - intros [H1 H2] x [<-|Hx]; [exact H1|exact (H2 x Hx)].
Qed.

Lemma dv_fold ds : forall n, 0 <= n -> all_digits ds ->
  n <= fold_left (fun acc c => acc * 10 + (Z.of_N c - 48)) ds n.
Proof.
  induction ds as [|c ds IH]; intros n Hn Hd; cbn; [lia|]. apply all_digits_cons in Hd as [Hc Hd].
  specialize (IH (n * 10 + (Z.of_N c - 48)) ltac:(lia) Hd). lia.
Qed.

(** the loop: exact on digits, never successful otherwise *)
Lemma loop_spec s : forall n, 0 <= n <= max_uint64 ->
  (all_digits s -> let v := fold_left (fun acc c => acc * 10 + (Z.of_N c - 48)) s n in
     parse_uint_loop s n = if v <=? max_uint64 then (v, None) else (max_uint64, Some ErrRange)) /\
  (~ all_digits s -> parse_uint_loop s n = (0, Some ErrSyntax) \/ parse_uint_loop s n = (max_uint64, Some ErrRange)).
Proof.
  induction s as [|c s IH]; intros n Hn.
  - split.
    + intros _. cbn. destruct (Z.leb_spec n max_uint64); [reflexivity|lia].
    + intros H. exfalso. apply H. intros x [].
  - assert (Hdig : is_digit c = true <-> (48 <= c <= 57)%N) by apply is_digit_spec.
    cbn [parse_uint_loop fold_left]. destruct (is_digit c) eqn:Ed.
    + assert (Hc : (48 <= c <= 57)%N) by (apply Hdig; reflexivity).
      replace (Z.of_N (c - C0)) with (Z.of_N c - 48) by lia.
      destruct (Z.leb_spec u64_cutoff n) as [Hcut|Hcut].
      * split; [|intros _; right; reflexivity]. intros Hall. cbv zeta. apply all_digits_cons in Hall as [_ Hall].
        pose proof (dv_fold s (n * 10 + (Z.of_N c - 48)) ltac:(lia) Hall) as Hm. unfold u64_cutoff, max_uint64 in *.
        match goal with |- context [?v <=? ?m] => destruct (Z.leb_spec v m); [lia|reflexivity] end.
      * destruct (Z.ltb_spec max_uint64 (n * 10 + (Z.of_N c - 48))) as [Hbig|Hok].
        -- split; [|intros _; right; reflexivity]. intros Hall. cbv zeta. apply all_digits_cons in Hall as [_ Hall].
           pose proof (dv_fold s (n * 10 + (Z.of_N c - 48)) ltac:(lia) Hall) as Hm.
           match goal with |- context [?v <=? ?m] => destruct (Z.leb_spec v m); [lia|reflexivity] end.
        -- destruct (IH (n * 10 + (Z.of_N c - 48)) ltac:(lia)) as [IH1 IH2]. split.
           ++ intros Hall. apply all_digits_cons in Hall as [_ Hall]. exact (IH1 Hall).
           ++ intros Hn'. apply IH2. intros Hall. apply Hn', all_digits_cons. auto.
    + split; [|intros _; left; reflexivity]. intros Hall. apply all_digits_cons in Hall as [Hc _]. apply Hdig in Hc. discriminate.
Qed.

Lemma all_digits_dec s : all_digits s \/ ~ all_digits s.
Proof.
  induction s as [|c s IH]; [left; intros x []|].
  destruct (is_digit c) eqn:E.
  - apply is_digit_spec in E. destruct IH as [H|H]; [left; apply all_digits_cons; auto|right; intros Hx; apply H; apply all_digits_cons in Hx; tauto].
  - right. intros Hx. apply all_digits_cons in Hx as [Hc _]. apply is_digit_spec in Hc. congruence.
Qed.

Lemma parse_uint_spec s :
  (s <> [] -> all_digits s -> parse_uint s = if decimal_value s <=? max_uint64 then (decimal_value s, None) else (max_uint64, Some ErrRange)) /\
  (s = [] \/ ~ all_digits s -> parse_uint s = (0, Some ErrSyntax) \/ parse_uint s = (max_uint64, Some ErrRange)).
Proof.
  assert (H0 : 0 <= 0 <= max_uint64) by (unfold max_uint64; lia). destruct (loop_spec s 0 H0) as [H1 H2].
  destruct s as [|c s]; [split; [congruence|intros _; left; reflexivity]|].
  split; [intros _ Hd; exact (H1 Hd)|]. intros [E|Hn]; [discriminate|exact (H2 Hn)].
Qed.

Lemma decimal_value_nonneg ds : all_digits ds -> 0 <= decimal_value ds.
Proof. intros H. exact (dv_fold ds 0 (Z.le_refl 0) H). Qed.

Lemma atoi_signed (neg : bool) body :
  match parse_uint body with
  | (_, Some ErrSyntax) => None
  | (un, _) =>
      if negb neg && (2 ^ 63 <=? un) then None
      else if neg && (2 ^ 63 <? un) then None
      else Some (if neg then - un else un)
  end =
  (if match body with [] => true | _ => false end then None
   else if forallb is_digit body then
     let v := if neg then - decimal_value body else decimal_value body in
     if (- 2 ^ 63 <=? v) && (v <? 2 ^ 63) then Some v else None
   else None).
Proof.
  destruct (parse_uint_spec body) as [H1 H2]. destruct body as [|c r] eqn:Eb; [reflexivity|]. rewrite <- Eb in *.
  assert (Hne : body <> []) by congruence. clear Eb c r.
  destruct (forallb is_digit body) eqn:Ed.
  - apply forallb_digits_spec in Ed. rewrite (H1 Hne Ed). pose proof (decimal_value_nonneg body Ed).
    unfold max_uint64 in *. destruct (Z.leb_spec (decimal_value body) 18446744073709551615).
    + destruct neg; cbn [negb andb];
        repeat match goal with |- context [?a <=? ?b] => destruct (Z.leb_spec a b) | |- context [?a <? ?b] => destruct (Z.ltb_spec a b) end;
        cbn [andb]; try reflexivity; lia.
    + destruct neg; cbn [negb andb];
        repeat match goal with |- context [?a <=? ?b] => destruct (Z.leb_spec a b) | |- context [?a <? ?b] => destruct (Z.ltb_spec a b) end;
        cbn [andb]; try reflexivity; lia.
  - assert (Hn : ~ all_digits body) by (intros H; apply forallb_digits_spec in H; congruence).
    destruct (H2 (or_intror Hn)) as [E|E]; rewrite E; [reflexivity|]. destruct neg; reflexivity.
Qed.

Lemma atoi_eq h : atoi h =
  match h with
  | [] => None
  | c :: r =>
      let neg := N.eqb c DASH in
      let body := if N.eqb c 43 || neg then r else h in
      (if match body with [] => true | _ => false end then None
       else if forallb is_digit body then
         let v := if neg then - decimal_value body else decimal_value body in
         if (- 2 ^ 63 <=? v) && (v <? 2 ^ 63) then Some v else None
       else None)
  end.
Proof.
  destruct h as [|c r]; [reflexivity|]. unfold atoi, parse_int. cbv zeta.
  rewrite <- atoi_signed. destruct (parse_uint _) as [un [[|]|]]; try reflexivity.
  - destruct (negb _ && _); [reflexivity|]. destruct (_ && _); reflexivity.
  - destruct (negb _ && _); [reflexivity|]. destruct (_ && _); reflexivity.
Qed.

Lemma atoi_iff h n : atoi h = Some n <-> int64_text h n.
Proof.
  rewrite atoi_eq. split.
  - destruct h as [|c r]; [discriminate|]. cbv zeta. intros H.
    set (body := if N.eqb c 43 || N.eqb c DASH then r else c :: r) in *.
    assert (Hne : body <> []) by (intros E; rewrite E in H; discriminate).
    replace (match body with [] => true | _ => false end) with false in H by (destruct body; [congruence|reflexivity]).
    destruct (forallb is_digit body) eqn:Ed; [|discriminate]. apply forallb_digits_spec in Ed.
    exists body. split; [exact Hne|]. split; [exact Ed|].
    match type of H with (if ?c then _ else _) = _ => destruct c eqn:Er; [|discriminate] end.
    injection H as <-. split; [lia|]. subst body.
    destruct (N.eqb_spec c DASH) as [->|Hd]; [right; cbn; auto|]. left.
    destruct (N.eqb_spec c 43) as [->|Hp]; cbn [orb]; auto.
  - intros (ds & Hne & Hd & Hr & [([->| ->] & ->)|(-> & ->)]).
    + destruct ds as [|c r] eqn:E; [congruence|]. rewrite <- E in *. 
      assert (Hc : (48 <= c <= 57)%N) by (apply Hd; rewrite E; left; reflexivity).
      rewrite E at 1. cbv zeta. destruct (N.eqb_spec c 43); [lia|]. destruct (N.eqb_spec c DASH); [lia|]. cbn [orb]. rewrite <- E.
      replace (match ds with [] => true | _ => false end) with false by (rewrite E; reflexivity).
      rewrite (proj2 (forallb_digits_spec ds) Hd).
      destruct (Z.leb_spec (- 2 ^ 63) (decimal_value ds)); [|lia]. destruct (Z.ltb_spec (decimal_value ds) (2 ^ 63)); [reflexivity|lia].
    + cbn [bs app]. cbv zeta. cbn [N_of_ascii]. change (N.eqb _ 43) with true. change (N.eqb _ DASH) with false. cbn [orb].
      replace (match ds with [] => true | _ => false end) with false by (destruct ds; [congruence|reflexivity]).
      rewrite (proj2 (forallb_digits_spec ds) Hd).
      destruct (Z.leb_spec (- 2 ^ 63) (decimal_value ds)); [|lia]. destruct (Z.ltb_spec (decimal_value ds) (2 ^ 63)); [reflexivity|lia].
    + cbn [bs app]. cbv zeta. change (N.eqb (N_of_ascii "-") 43) with false. change (N.eqb (N_of_ascii "-") DASH) with true. cbn [orb].
      replace (match ds with [] => true | _ => false end) with false by (destruct ds; [congruence|reflexivity]).
      rewrite (proj2 (forallb_digits_spec ds) Hd).
      destruct (Z.leb_spec (- 2 ^ 63) (- decimal_value ds)); [|lia]. destruct (Z.ltb_spec (- decimal_value ds) (2 ^ 63)); [reflexivity|lia].
Qed.

Lemma atoi_none h : atoi h = None <-> forall n, ~ int64_text h n.
Proof.
  split.
  - intros H n Hn. apply atoi_iff in Hn. congruence.
  - intros H. destruct (atoi h) as [n|] eqn:E; [|reflexivity]. exfalso. exact (H n (proj1 (atoi_iff h n) E)).
Qed.

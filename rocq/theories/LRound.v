(** LRound.v -- Parse on the encodings of messages. *)
From Verif Require Import Base BaseFacts Spec MPriority MHelpers MText MTime MSData MMessage MTransport MParse.
From Verif Require Import LPriority LText LTime LSData LParse.
From Coq Require Import ZifyBool ZifyNat ZifyN.

(** ** bracket_safe *)
Lemma bracket_safe_well v : well_escaped v -> bracket_safe v.
Proof.
  intros H. induction H as [|c v H1 H2 H3 H IH|c v H IH].
  - apply bracket_safe_none. intros [].
  - change (c :: v) with ([c] ++ v). apply bracket_safe_app; [|exact IH]. apply bracket_safe_none. intros [E|[]]. congruence.
  - change (BSL :: c :: v) with ([BSL; c] ++ v). apply bracket_safe_app; [|exact IH].
    intros x y E. destruct x as [|a x]; [discriminate|]. destruct x as [|b x].
    + exists []. cbn in E. injection E as <- _ _. reflexivity.
    + cbn in E. destruct x; discriminate.
Qed.

Lemma first_bracket (c : N) t : In c t -> exists x y, t = x ++ c :: y /\ ~ In c x.
Proof.
  intros Hin. destruct (index_byte c t) as [i|] eqn:Ei.
  - apply index_byte_some in Ei as (w & r & E & _ & Hn). exists w, r. auto.
  - apply index_byte_none in Ei. contradiction.
Qed.

Lemma bracket_safe_dec_n n : forall t, (length t <= n)%nat -> bracket_safe t \/ ~ bracket_safe t.
Proof.
  induction n as [|n IH]; intros t Hlen.
  - left. apply bracket_safe_none. destruct t; [intros []|cbn in Hlen; lia].
  - destruct (in_bs_dec RBR t) as [Hin|Hno]; [|left; apply bracket_safe_none; exact Hno].
    apply first_bracket in Hin as (x & y & -> & Hnx).
    destruct x as [|x0 x1] eqn:Ex0.
    { right. intros H. destruct (H [] y eq_refl) as [z Hz]. destruct z; discriminate. }
    rewrite <- Ex0 in *. destruct (exists_last (l := x)) as (x' & c & Ex); [congruence|]. rewrite Ex in *.
    destruct (N.eq_dec c BSL) as [->|Hc].
    + assert (Hy : (length y <= n)%nat) by (rewrite !app_length in Hlen; cbn in Hlen; lia).
      destruct (IH y Hy) as [Hs|Hs].
      * left. replace ((x' ++ [BSL]) ++ RBR :: y) with ((x' ++ [BSL; RBR]) ++ y) by (rewrite <- !app_assoc; reflexivity).
        apply bracket_safe_app; [|exact Hs]. apply bracket_safe_escaped. intros Hi. apply Hnx, in_or_app. left; exact Hi.
      * right. intros H. apply Hs. eapply bracket_safe_skip. exact H.
    + right. intros H. destruct (H (x' ++ [c]) y eq_refl) as [z Hz]. apply app_inj_tail in Hz as [_ ->]. congruence.
Qed.

Lemma text_safe_dec t : text_safe t \/ ~ text_safe t.
Proof.
  unfold text_safe. pose proof (bracket_safe_dec_n _ t (Nat.le_refl _)) as Hb.
  assert (Hl : (exists x, t = x ++ [RBR]) \/ ~ exists x, t = x ++ [RBR]).
  { destruct t as [|a t']; [right; intros [x E]; destruct x; discriminate|].
    destruct (exists_last (l := a :: t')) as (x & c & E); [discriminate|]. rewrite E.
    destruct (N.eq_dec c RBR) as [->|Hc]; [left; exists x; reflexivity|]. right. intros [y Ey]. apply app_inj_tail in Ey as [_ ->]. congruence. }
  tauto.
Qed.

Lemma sd_name_no_bracket n : sd_name n -> ~ In RBR n.
Proof. intros H Hin. destruct (H _ Hin) as (_ & _ & H3 & _). congruence. Qed.
Lemma sd_name_no_space n : sd_name n -> ~ In SP n.
Proof. intros H Hin. destruct (H _ Hin) as (H3 & _). lia. Qed.

Lemma element_scan e : sd_element e -> scan_element e.
Proof.
  intros (name & ps & -> & Hn & Hs & Hps & Hok). destruct (exists_last Hps) as (ps' & [k v] & ->).
  rewrite map_app, concat_app. cbn [map concat fst snd]. rewrite app_nil_r, param_text_eq.
  exists (bs "[" ++ name ++ concat (map (fun p => param_text (1%nat, fst p, snd p)) ps') ++ [SP] ++ k ++ [EQS; QUO] ++ v).
  split; [cbn [repeat app bs]; rewrite <- !app_assoc; cbn [app]; rewrite <- !app_assoc; cbn [app]; rewrite <- ?app_assoc; reflexivity|].
  apply Forall_app in Hok as [Hok1 Hok2]. inv Hok2. destruct H1 as [Hk Hv]. cbn [fst snd] in *.
  assert (Hps' : forall l, Forall (fun p : bytes * bytes => sd_name (fst p) /\ well_escaped (snd p)) l ->
     bracket_safe (concat (map (fun p => param_text (1%nat, fst p, snd p)) l))).
  { induction l as [|[k' v'] l IH]; intros Hf; [apply bracket_safe_none; intros []|]. inv Hf. destruct H1 as [Hk' Hv'].
    cbn [map concat fst snd] in *. apply bracket_safe_app; [|apply IH; assumption].
    rewrite param_text_eq. cbn [repeat]. change (EQS :: QUO :: v' ++ [QUO]) with ([EQS; QUO] ++ v' ++ [QUO]).
    apply bracket_safe_app; [apply bracket_safe_none; intros [E|[]]; discriminate|].
    apply bracket_safe_app; [apply bracket_safe_none, sd_name_no_bracket; assumption|].
    apply bracket_safe_app; [apply bracket_safe_none; intros [E|[E|[]]]; discriminate|].
    apply bracket_safe_app; [apply bracket_safe_well; assumption|]. apply bracket_safe_none; intros [E|[]]; discriminate. }
  apply bracket_safe_app; [apply bracket_safe_none; intros [E|[]]; discriminate|].
  apply bracket_safe_app; [apply bracket_safe_none, sd_name_no_bracket; assumption|].
  apply bracket_safe_app; [apply Hps'; assumption|].
  apply bracket_safe_app; [apply bracket_safe_none; intros [E|[]]; discriminate|].
  apply bracket_safe_app; [apply bracket_safe_none, sd_name_no_bracket; assumption|].
  apply bracket_safe_app; [apply bracket_safe_none; intros [E|[E|[]]]; discriminate|].
  apply bracket_safe_well; assumption.
Qed.

(** the first space of an element is neither at offset 0 nor 1 *)
Lemma element_space e r : sd_element e -> exists i, search_next_sep (e ++ r) SP = inl i /\ i <> 1%nat.
Proof.
  intros (name & ps & -> & Hn & Hs & Hps & Hok). destruct ps as [|[k v] ps]; [congruence|].
  exists (S (length name)). split.
  - cbn [map concat]. rewrite param_text_eq. cbn [repeat fst snd bs app]. unfold search_next_sep.
    match goal with |- context [index_byte SP ?d] => set (dd := d) end.
    assert (E : exists q, dd = (LBR :: name) ++ SP :: q).
    { subst dd. eexists. cbn [app]. rewrite <- !app_assoc. cbn [app]. reflexivity. }
    destruct E as [q ->]. rewrite index_byte_app_notin.
    + reflexivity.
    + intros [E|E]; [discriminate|]. exact (sd_name_no_space _ Hs E).
  - destruct name; [congruence|discriminate].
Qed.

(** ** the scanner after the elements *)
Lemma text_safe_skip w y : text_safe ((w ++ [BSL]) ++ RBR :: y) <-> y <> [] /\ bracket_safe (w ++ [BSL; RBR]) /\ text_safe y.
Proof.
  split.
  - intros [H1 H2]. split; [intros ->; apply H2; eexists; reflexivity|]. split.
    + intros a b E. apply (H1 a (b ++ y)). rewrite <- app_assoc. cbn [app]. rewrite app_comm_cons.
      change (RBR :: b) with ([RBR] ++ b) in E.
      transitivity ((w ++ [BSL; RBR]) ++ y); [rewrite <- app_assoc; reflexivity|]. rewrite E. rewrite <- app_assoc. reflexivity.
    + split; [eapply bracket_safe_skip; exact H1|]. intros [x ->]. apply H2. exists ((w ++ [BSL]) ++ RBR :: x).
      rewrite <- !app_assoc. reflexivity.
  - intros (Hne & Hb & H1 & H2). replace ((w ++ [BSL]) ++ RBR :: y) with ((w ++ [BSL; RBR]) ++ y) by (rewrite <- !app_assoc; reflexivity).
    split; [apply bracket_safe_app; assumption|]. intros [x E].
    destruct (exists_last Hne) as (y' & c & ->). rewrite app_assoc in E. apply app_inj_tail in E as [_ ->]. apply H2. exists y'. reflexivity.
Qed.

Lemma sd_loop_safe fuel : forall data pre mid tail idx,
  data = pre ++ mid ++ tail -> tail <> [] -> text_safe tail -> (length tail < fuel)%nat ->
  sd_loop fuel data (length pre + length mid) (length pre) idx = Val (SDReturn idx (Z.of_nat (length pre) + 1)).
Proof.
  induction fuel as [|fuel IH]; intros data pre mid tail idx Hd Hne Hs Hf; [lia|].
  cbn [sd_loop].
  assert (Hld : length data = (length pre + length mid + length tail)%nat) by (rewrite Hd, !app_length; lia).
  assert (Hsk : skipn (length pre + length mid) data = tail) by (rewrite Hd, app_assoc, <- app_length; apply skipn_app_exact).
  rewrite go_from_val by lia. rewrite Hsk. cbn [bind].
  destruct (Nat.eqb_spec (length tail) 0) as [E|E]; [destruct tail; [congruence|discriminate]|].
  destruct (search_next_sep tail RBR) as [e|e] eqn:Es.
  - apply search_inl in Es as (w & r & Ht & Hw & Hnin & Hwne).
    destruct Hs as [Hb Hend]. destruct (Hb w r Ht) as [w' ->].
    assert (Hat : go_at data (length pre + length mid + e - 1) = Val BSL).
    { rewrite app_length in Hw. cbn in Hw. replace (length pre + length mid + e - 1)%nat with (length (pre ++ mid ++ w')) by (rewrite !app_length; lia).
      rewrite Hd, Ht. replace (pre ++ mid ++ (w' ++ [BSL]) ++ RBR :: r) with ((pre ++ mid ++ w') ++ BSL :: RBR :: r)
        by (rewrite <- !app_assoc; reflexivity). apply go_at_app. }
    rewrite Hat. cbn [bind]. change (N.eqb BSL BSL) with true. cbv iota.
    clear Hsk. subst tail. destruct (proj1 (text_safe_skip w' r) (conj Hb Hend)) as (Hr & _ & Hsr).
    rewrite app_length in Hw. cbn [length] in Hw. rewrite !app_length in Hf. cbn [length] in Hf.
    replace (length pre + length mid + e + 1)%nat with (length pre + length (mid ++ w' ++ [BSL; RBR]))%nat
      by (rewrite !app_length; cbn; lia).
    apply (IH data pre (mid ++ w' ++ [BSL; RBR]) r idx); [rewrite Hd, <- !app_assoc; reflexivity|exact Hr|exact Hsr|lia].
  - apply search_inr in Es as [[-> _]|[-> (r & Hr)]]; [reflexivity|].
    exfalso. destruct Hs as [Hb _]. destruct (Hb [] r Hr) as [x' Hx]. destruct x'; discriminate.
Qed.

Lemma sd_loop_unsafe fuel : forall data pre mid tail idx,
  data = pre ++ mid ++ tail -> ~ (tail <> [] /\ text_safe tail) -> (length tail < fuel)%nat ->
  (exists e, sd_loop fuel data (length pre + length mid) (length pre) idx = Val (SDFail e)) \/
  (exists idx' text, sd_loop fuel data (length pre + length mid) (length pre) idx = Val (SDReturn idx' text) /\
     text <> (Z.of_nat (length pre) + 1)%Z).
Proof.
  induction fuel as [|fuel IH]; intros data pre mid tail idx Hd Hu Hf; [lia|].
  cbn [sd_loop].
  assert (Hld : length data = (length pre + length mid + length tail)%nat) by (rewrite Hd, !app_length; lia).
  assert (Hsk : skipn (length pre + length mid) data = tail) by (rewrite Hd, app_assoc, <- app_length; apply skipn_app_exact).
  rewrite go_from_val by lia. rewrite Hsk. cbn [bind].
  destruct (Nat.eqb_spec (length tail) 0) as [E|E]; [left; eexists; reflexivity|].
  destruct (search_next_sep tail RBR) as [e|e] eqn:Es.
  - apply search_inl in Es as (w & r & Ht & Hw & Hnin & Hwne).
    destruct (exists_last Hwne) as (w' & c & ->). rewrite app_length in Hw. cbn [length] in Hw.
    assert (Hat : go_at data (length pre + length mid + e - 1) = Val c).
    { replace (length pre + length mid + e - 1)%nat with (length (pre ++ mid ++ w')) by (rewrite !app_length; lia).
      rewrite Hd, Ht. replace (pre ++ mid ++ (w' ++ [c]) ++ RBR :: r) with ((pre ++ mid ++ w') ++ c :: RBR :: r)
        by (rewrite <- !app_assoc; reflexivity). apply go_at_app. }
    assert (Hlt : length tail = (length w' + 2 + length r)%nat) by (rewrite Ht, !app_length; cbn; lia).
    rewrite Hat. cbn [bind]. destruct (N.eqb_spec c BSL) as [->|Hc].
    + replace (length pre + length mid + e + 1)%nat with (length pre + length (mid ++ w' ++ [BSL; RBR]))%nat
        by (rewrite !app_length; cbn; lia).
      apply (IH data pre (mid ++ w' ++ [BSL; RBR]) r idx); [rewrite Hd, Ht, <- !app_assoc; reflexivity| |lia].
      intros [Hr Hs]. apply Hu. split; [intros Et; apply E; rewrite Et; reflexivity|]. rewrite Ht. apply text_safe_skip.
      split; [exact Hr|]. split; [|exact Hs].
      intros x y Ex. change [BSL; RBR] with ([BSL] ++ [RBR]) in Ex. rewrite app_assoc in Ex.
      destruct y as [|y0 y].
      * apply app_inj_tail in Ex as [Ex _]. exists w'. congruence.
      * exfalso. apply Hnin. destruct (exists_last (l := y0 :: y)) as (y' & z & Ey); [discriminate|]. rewrite Ey in Ex.
        rewrite app_comm_cons, app_assoc in Ex. apply app_inj_tail in Ex as [Ex _]. rewrite Ex. apply in_or_app. right. left. reflexivity.
    + destruct (N.eqb_spec c QUO) as [->|Hc2]; [|left; eexists; reflexivity].
      destruct (Nat.leb_spec (length data) (length pre + length mid + e + 1)).
      * right. do 2 eexists. split; [reflexivity|]. lia.
      * destruct (sd_loop_total fuel data (length pre + length mid + e + 1) (length pre + length mid + e + 1)
          (idx ++ [(length pre + length mid + e + 1)%nat])) as (o & Ho & Hp); [lia|lia|lia|].
        rewrite Ho. destruct o as [idx' text|e']; [|left; eexists; reflexivity]. right. do 2 eexists. split; [reflexivity|].
        destruct Hp as (more & _ & _ & [->|(b & -> & Hb & _)]); lia.
  - apply search_inr in Es as [[-> Hno]|[-> _]]; [|left; eexists; reflexivity].
    exfalso. apply Hu. split; [intros ->; cbn in E; lia|]. split; [apply bracket_safe_none; exact Hno|].
    intros [x ->]. apply Hno, in_or_app. right; left; reflexivity.
Qed.

(** the elements, then a tail *)
Lemma sd_loop_elements_then els : forall fuel data pre tail begin idx,
  els <> [] -> Forall scan_element els -> data = pre ++ concat els ++ tail -> tail <> [] ->
  (length (concat els ++ tail) < fuel)%nat ->
  exists fuel', (length tail < fuel')%nat /\
  sd_loop fuel data (length pre) begin idx =
    sd_loop fuel' data (length (pre ++ concat els)) (length (pre ++ concat els)) (idx ++ el_ends (length pre) els).
Proof.
  induction els as [|e els IH]; intros fuel data pre tail begin idx Hne Hf Hd Ht Hfu; [congruence|].
  pose proof (Forall_inv Hf) as (body & He & Hb). pose proof (Forall_inv_tail Hf) as Hf'.
  cbn [concat] in Hd, Hfu |- *. rewrite !app_length in Hfu.
  assert (Hle : length e = (length body + 2)%nat) by (rewrite He, app_length; reflexivity).
  destruct (sd_loop_element fuel data pre body (concat els ++ tail) begin idx) as (fuel' & Hfu' & Heq).
  { rewrite Hd, He. rewrite <- !app_assoc. reflexivity. }
  { exact Hb. } { lia. }
  rewrite Heq. cbv zeta. replace (length pre + length body + 2)%nat with (length (pre ++ e)) by (rewrite app_length; lia).
  assert (Hld : length data = (length pre + length e + length (concat els) + length tail)%nat) by (rewrite Hd, !app_length; lia).
  destruct (Nat.leb_spec (length data) (length (pre ++ e))) as [Hle2|Hgt].
  { exfalso. rewrite app_length in Hle2. destruct tail; [congruence|cbn in Hld; lia]. }
  cbn [el_ends]. replace (length pre + length e)%nat with (length (pre ++ e)) by (rewrite app_length; reflexivity).
  destruct els as [|e' els'].
  - exists fuel'. split; [cbn in *; lia|]. cbn [el_ends concat]. rewrite app_nil_r. reflexivity.
  - destruct (IH fuel' data (pre ++ e) tail (length (pre ++ e)) (idx ++ [length (pre ++ e)])) as (f2 & Hf2 & E2).
    + discriminate. + exact Hf'. + rewrite Hd, <- !app_assoc. reflexivity. + exact Ht.
    + rewrite app_length. lia.
    + exists f2. split; [exact Hf2|]. rewrite E2. rewrite <- !app_assoc. reflexivity.
Qed.

(** ** Parse on each shape *)
Definition mk (buf : bytes) (idx : list nat) (text : Z) : immutable := {| i_buf := buf; i_index := idx; i_text := text |}.

Section Words.
  Variable ws : list bytes.
  Hypothesis Hl : length ws = 6%nat.
  Hypothesis Hw : Forall word ws.

  Lemma parse_head data tail eof : data = join ws ++ tail -> parse data None eof =
    let begin := length (join ws) in
    if (length tail =? 0)%nat then Val (zero_immutable, None, Some (ErrParse begin why_empty_field))
    else if (length tail =? 1)%nat then
      do c <- go_at data begin;
      if negb (N.eqb c DASH) then Val (zero_immutable, None, Some (ErrParse begin why_empty_field))
      else Val (mk data (ends 0 ws ++ [(begin + 2)%nat]) (-1), None, None)
    else match search_next_sep tail SP with
         | inr e => Val (zero_immutable, None, Some e)
         | inl e =>
           if (e =? 1)%nat then
             do c <- go_at data begin;
             if negb (N.eqb c DASH) then Val (zero_immutable, None, Some (ErrParse begin why_empty_sd))
             else Val (mk data (ends 0 ws ++ [(begin + 1)%nat]) (Z.of_nat begin + 2), None, None)
           else
             do o <- sd_loop (S (length data)) data begin begin (ends 0 ws);
             match o with
             | SDFail e => Val (zero_immutable, None, Some e)
             | SDReturn idx text => Val (mk data idx text, None, None)
             end
         end.
  Proof.
    intros Hd. unfold parse, parse_body.
    pose proof (header_loop_ok 6 data [] ws tail [] Hl Hw Hd) as Hh. cbn [length] in Hh.
    rewrite Hh. cbn [bind app]. rewrite !Nat.add_0_l.
    rewrite go_from_val by (rewrite Hd, app_length; lia).
    replace (skipn (length (join ws)) data) with tail by (rewrite Hd, skipn_app_exact; reflexivity).
    cbn [bind]. cbv zeta. unfold dispatch_error, parse_return, mk.
    destruct (length tail =? 0)%nat; [reflexivity|]. destruct (length tail =? 1)%nat; [reflexivity|].
    destruct (search_next_sep tail SP) as [e|e]; [|reflexivity]. destruct (e =? 1)%nat; [reflexivity|]. reflexivity.
  Qed.

  Lemma parse_dash eof : parse (join ws ++ [DASH]) None eof =
    Val (mk (join ws ++ [DASH]) (ends 0 ws ++ [(length (join ws) + 2)%nat]) (-1), None, None).
  Proof. rewrite (parse_head _ [DASH] eof eq_refl). cbv zeta. cbn [length Nat.eqb]. rewrite go_at_app. reflexivity. Qed.

  Lemma parse_dash_text text eof : parse (join ws ++ DASH :: SP :: text) None eof =
    Val (mk (join ws ++ DASH :: SP :: text) (ends 0 ws ++ [(length (join ws) + 1)%nat]) (Z.of_nat (length (join ws)) + 2), None, None).
  Proof.
    rewrite (parse_head _ (DASH :: SP :: text) eof eq_refl). cbv zeta. cbn [length Nat.eqb].
    change (search_next_sep (DASH :: SP :: text) SP) with (@inl nat perr 1%nat). cbn [Nat.eqb].
    rewrite go_at_app. reflexivity.
  Qed.

  Lemma element_length e : sd_element e -> (2 <= length e)%nat.
  Proof. intros (n & ps & -> & _). cbn. rewrite !app_length. cbn. lia. Qed.

  Lemma parse_elements els eof : els <> [] -> Forall sd_element els ->
    parse (join ws ++ concat els) None eof =
    Val (mk (join ws ++ concat els) (ends 0 ws ++ el_ends (length (join ws)) els) (-1), None, None).
  Proof.
    intros Hne Hf. rewrite (parse_head _ (concat els) eof eq_refl). cbv zeta.
    assert (Hlen : (2 <= length (concat els))%nat).
    { destruct els as [|e els]; [congruence|]. inv Hf. cbn [concat]. rewrite app_length. pose proof (element_length e H1). lia. }
    destruct (Nat.eqb_spec (length (concat els)) 0); [lia|]. destruct (Nat.eqb_spec (length (concat els)) 1); [lia|].
    assert (Hsp : exists i, search_next_sep (concat els) SP = inl i /\ i <> 1%nat).
    { destruct els as [|e els]; [congruence|]. inv Hf. apply element_space. assumption. }
    destruct Hsp as (i & -> & Hi). destruct (Nat.eqb_spec i 1); [lia|].
    rewrite (sd_loop_elements els (S (length (join ws ++ concat els))) _ (join ws) []).
    - reflexivity. - exact Hne.
    - eapply Forall_impl; [|exact Hf]. exact element_scan.
    - rewrite app_nil_r. reflexivity. - intros []. - rewrite app_length. lia.
  Qed.

  Lemma parse_elements_loop els text eof : els <> [] -> Forall sd_element els ->
    let data := join ws ++ concat els ++ SP :: text in
    exists fuel', (S (length text) < fuel')%nat /\ parse data None eof =
      do o <- sd_loop fuel' data (length (join ws ++ concat els) + 0) (length (join ws ++ concat els)) (ends 0 ws ++ el_ends (length (join ws)) els);
      match o with
      | SDFail e => Val (zero_immutable, None, Some e)
      | SDReturn idx text => Val (mk data idx text, None, None)
      end.
  Proof.
    intros Hne Hf data. rewrite (parse_head data (concat els ++ SP :: text) eof eq_refl). cbv zeta.
    assert (Hlen : (2 <= length (concat els ++ SP :: text))%nat).
    { destruct els as [|e els]; [congruence|]. inv Hf. cbn [concat]. rewrite !app_length. pose proof (element_length e H1). lia. }
    destruct (Nat.eqb_spec (length (concat els ++ SP :: text)) 0); [lia|].
    destruct (Nat.eqb_spec (length (concat els ++ SP :: text)) 1); [lia|].
    assert (Hsp : exists i, search_next_sep (concat els ++ SP :: text) SP = inl i /\ i <> 1%nat).
    { destruct els as [|e els]; [congruence|]. inv Hf. cbn [concat]. rewrite <- app_assoc. apply element_space. assumption. }
    destruct Hsp as (i & -> & Hi). destruct (Nat.eqb_spec i 1); [lia|].
    destruct (sd_loop_elements_then els (S (length data)) data (join ws) (SP :: text) (length (join ws)) (ends 0 ws)) as (f' & Hf' & E).
    - exact Hne. - eapply Forall_impl; [|exact Hf]. exact element_scan. - reflexivity. - discriminate.
    - subst data. rewrite (app_length (join ws)). lia.
    - exists f'. split; [exact Hf'|]. rewrite Nat.add_0_r, E. reflexivity.
  Qed.

  Lemma safe_space text : text_safe (SP :: text) <-> text_safe text \/ text = [].
  Proof.
    split.
    - intros [H1 H2]. left. split.
      + intros x y E. destruct (H1 (SP :: x) y) as [x' Hx]; [rewrite E; reflexivity|].
        destruct x' as [|c x']; [cbn in Hx; discriminate|]. cbn in Hx. injection Hx as _ ->. exists x'. reflexivity.
      + intros [x ->]. apply H2. exists (SP :: x). reflexivity.
    - assert (Hs : bracket_safe [SP]) by (apply bracket_safe_none; intros [E|[]]; discriminate).
      intros [[H1 H2]| ->].
      + split; [change (SP :: text) with ([SP] ++ text); apply bracket_safe_app; assumption|].
        intros [x E]. destruct x as [|c x]; [discriminate|]. cbn in E. injection E as _ ->. apply H2. exists x. reflexivity.
      + split; [exact Hs|]. intros [x E]. destruct x as [|c x]; [discriminate|]. destruct x; discriminate.
  Qed.

  Lemma parse_elements_text els text eof : els <> [] -> Forall sd_element els -> text_safe text \/ text = [] ->
    parse (join ws ++ concat els ++ SP :: text) None eof =
    Val (mk (join ws ++ concat els ++ SP :: text) (ends 0 ws ++ el_ends (length (join ws)) els)
           (Z.of_nat (length (join ws ++ concat els)) + 1), None, None).
  Proof.
    intros Hne Hf Hs. destruct (parse_elements_loop els text eof Hne Hf) as (f' & Hf' & E). rewrite E.
    change (length (join ws ++ concat els) + 0)%nat with (length (join ws ++ concat els) + length (@nil N))%nat.
    rewrite (sd_loop_safe f' _ (join ws ++ concat els) [] (SP :: text)).
    - reflexivity. - cbn [app]. rewrite <- app_assoc. reflexivity. - discriminate. - apply safe_space; exact Hs. - cbn; lia.
  Qed.

  Lemma parse_elements_text_unsafe els text eof : els <> [] -> Forall sd_element els -> ~ (text_safe text \/ text = []) ->
    (exists e, parse (join ws ++ concat els ++ SP :: text) None eof = Val (zero_immutable, None, Some e)) \/
    (exists idx t, parse (join ws ++ concat els ++ SP :: text) None eof =
        Val (mk (join ws ++ concat els ++ SP :: text) idx t, None, None) /\
        t <> (Z.of_nat (length (join ws ++ concat els)) + 1)%Z).
  Proof.
    intros Hne Hf Hs. destruct (parse_elements_loop els text eof Hne Hf) as (f' & Hf' & E). rewrite E.
    change (length (join ws ++ concat els) + 0)%nat with (length (join ws ++ concat els) + length (@nil N))%nat.
    destruct (sd_loop_unsafe f' (join ws ++ concat els ++ SP :: text) (join ws ++ concat els) [] (SP :: text)
        (ends 0 ws ++ el_ends (length (join ws)) els)) as [(e & Hx)|(idx & t & Hx & Ht)].
    - cbn [app]. rewrite <- app_assoc. reflexivity.
    - intros [_ H]. apply Hs, safe_space, H.
    - cbn; lia.
    - rewrite Hx. left. eexists; reflexivity.
    - rewrite Hx. right. do 2 eexists. split; [reflexivity|exact Ht].
  Qed.
End Words.

(** ** StructuredData of an accepted message *)
Lemma sd_elements_ok order spare els : forall pre post sds,
  Forall2 (fun el sd => forall b sp, registry_found (order b) el sp = Val (Some sd)) els sds ->
  sd_elements order (pre ++ concat els ++ post) spare (length pre) (el_ends (length pre) els) = Val sds.
Proof.
  induction els as [|e els IH]; intros pre post sds H; inv H; [reflexivity|]. cbn [el_ends sd_elements concat].
  assert (Hsl : go_slice_cap (pre ++ (e ++ concat els) ++ post) spare (length pre) (length pre + length e) = Val e).
  { unfold go_slice_cap. destruct (Nat.leb_spec (length pre) (length pre + length e)); [|lia].
    destruct (Nat.leb_spec (length pre + length e) (length (pre ++ (e ++ concat els) ++ post) + length spare)) as [_|Hlt];
      [|rewrite !app_length in Hlt; lia].
    cbn [andb]. rewrite <- !app_assoc, skipn_app_exact. replace (length pre + length e - length pre)%nat with (length e) by lia.
    rewrite firstn_app_exact. reflexivity. }
  rewrite Hsl. cbn [bind]. rewrite H2. cbn [bind].
  specialize (IH (pre ++ e) post l' H4). rewrite app_length in IH.
  replace ((pre ++ e) ++ concat els ++ post) with (pre ++ (e ++ concat els) ++ post) in IH by (rewrite <- !app_assoc; reflexivity).
  rewrite IH. reflexivity.
Qed.

Lemma structured_data_elements order spare ws els post text sds :
  length ws = 6%nat -> els <> [] -> Forall sd_element els ->
  Forall2 (fun el sd => forall b sp, registry_found (order b) el sp = Val (Some sd)) els sds ->
  imm_structured_data order spare (mk (join ws ++ concat els ++ post) (ends 0 ws ++ el_ends (length (join ws)) els) text) = Val sds.
Proof.
  intros Hl Hne Hf H. unfold imm_structured_data, mk. cbn [i_index i_buf].
  assert (Hhd : idx_at {| i_buf := join ws ++ concat els ++ post; i_index := ends 0 ws ++ el_ends (length (join ws)) els; i_text := text |} 5
     = Val (length (join ws) - 1)%nat /\ (1 <= length (join ws))%nat).
  { do 6 (destruct ws as [|? ws]; [discriminate|]). destruct ws; [|discriminate].
    unfold idx_at. cbn [i_index ends app nth_error]. unfold join. cbn [map concat]. rewrite !app_length. cbn [length]. split; [f_equal|]; lia. }
  destruct Hhd as [Hi Hj]. 
  rewrite app_length, ends_length, Hl. destruct (Nat.ltb_spec (6 + length (el_ends (length (join ws)) els)) 5); [lia|].
  assert (Hel : length (el_ends (length (join ws)) els) = length els).
  { clear. generalize (length (join ws)) as b. induction els as [|e els IH]; intros b; cbn; [reflexivity|rewrite IH; reflexivity]. }
  assert (Hlen : (1 <= length els)%nat) by (destruct els; [congruence|cbn; lia]).
  assert (Hs5 : length (skipn 5 (ends 0 ws ++ el_ends (length (join ws)) els)) = S (length els)).
  { rewrite skipn_length, app_length, ends_length, Hl, Hel. lia. }
  rewrite Hs5. destruct (Nat.ltb_spec (S (length els)) 2); [lia|]. rewrite Hi. cbn [bind].
  replace (length (join ws) - 1 + 1)%nat with (length (join ws)) by lia.
  assert (Hc : go_at (join ws ++ concat els ++ post) (length (join ws)) = Val LBR).
  { destruct els as [|e els]; [congruence|]. pose proof (Forall_inv Hf) as (n & ps & -> & _). cbn [concat bs app]. apply go_at_app. }
  rewrite Hc. cbn [bind]. change (N.eqb LBR DASH) with false.
  match goal with |- context [if ?c then Val false else Val false] =>
    replace (if c then Val false else Val false) with (@Val bool false) by (destruct c; reflexivity) end.
  cbn [bind]. replace (skipn 6 (ends 0 ws ++ el_ends (length (join ws)) els)) with (el_ends (length (join ws)) els).
  - apply sd_elements_ok. exact H.
  - rewrite <- Hl, <- (ends_length 0 ws), skipn_app_exact. reflexivity.
Qed.

Lemma structured_data_dash order spare ws more k text :
  length ws = 6%nat -> imm_structured_data order spare (mk (join ws ++ DASH :: more) (ends 0 ws ++ [k]) text) = Val [].
Proof.
  intros Hl. unfold imm_structured_data, mk. cbn [i_index i_buf].
  rewrite app_length, ends_length, Hl. cbn [length Nat.add Nat.ltb Nat.leb].
  assert (Hs5 : length (skipn 5 (ends 0 ws ++ [k])) = 2%nat) by (rewrite skipn_length, app_length, ends_length, Hl; reflexivity).
  rewrite Hs5. cbn [Nat.ltb Nat.leb Nat.eqb].
  assert (Hhd : idx_at {| i_buf := join ws ++ DASH :: more; i_index := ends 0 ws ++ [k]; i_text := text |} 5
     = Val (length (join ws) - 1)%nat /\ (1 <= length (join ws))%nat).
  { do 6 (destruct ws as [|? ws]; [discriminate|]). destruct ws; [|discriminate].
    unfold idx_at. cbn [i_index ends app nth_error]. unfold join. cbn [map concat]. rewrite !app_length. cbn [length]. split; [f_equal|]; lia. }
  destruct Hhd as [Hi Hj]. rewrite Hi. cbn [bind]. replace (length (join ws) - 1 + 1)%nat with (length (join ws)) by lia.
  rewrite go_at_app. reflexivity.
Qed.

Lemma text_at pre x idx : imm_text (mk (pre ++ x) idx (Z.of_nat (length pre))) = Val (if (length pre =? 0)%nat then [] else x).
Proof.
  unfold imm_text, mk. cbn [i_text i_buf]. destruct (Z.ltb_spec (Z.of_nat (length pre)) 1).
  - destruct (Nat.eqb_spec (length pre) 0); [reflexivity|lia].
  - unfold go_from_z. destruct (Z.ltb_spec (Z.of_nat (length pre)) 0); [lia|]. rewrite Nat2Z.id.
    rewrite go_from_val by (rewrite app_length; lia). rewrite skipn_app_exact. destruct (Nat.eqb_spec (length pre) 0); [lia|reflexivity].
Qed.

(** ** The accepted language, exactly *)
Lemma accepted_parses data m eof : accepted data m -> parse data None eof = Val (m, None, None).
Proof.
  intros (ws & tail & Hl & Hw & Hd & Hb & Hc). destruct m as [buf idx text]. cbn [i_buf i_index i_text] in *. subst buf.
  destruct Hc as [(-> & -> & ->)|[(t & -> & -> & ->)|(els & tl & Hf & Ht & Hsp & -> & Hc)]].
  - rewrite Hd. exact (parse_dash ws Hl Hw eof).
  - rewrite Hd. exact (parse_dash_text ws Hl Hw t eof).
  - rewrite (parse_head ws Hl Hw data tail eof Hd). cbv zeta. destruct Hsp as (x & y & Hxy & Hx & Hlx).
    assert (Hlt : (3 <= length tail)%nat) by (rewrite Hxy, app_length; cbn; lia).
    destruct (Nat.eqb_spec (length tail) 0); [lia|]. destruct (Nat.eqb_spec (length tail) 1); [lia|].
    assert (Hs : search_next_sep tail SP = inl (length x)).
    { rewrite Hxy. apply search_word. split; [destruct x; [cbn in Hlx; lia|discriminate]|exact Hx]. }
    rewrite Hs. destruct (Nat.eqb_spec (length x) 1); [lia|].
    assert (Hlen : length data = (length (join ws) + length tail)%nat) by (rewrite Hd, app_length; reflexivity).
    destruct Hc as [(-> & Hne & ->)|(Hne & Hts & ->)].
    + rewrite (sd_loop_elements els (S (length data)) _ (join ws) []).
      * reflexivity. * exact Hne. * exact Hf. * rewrite Hd, Ht. reflexivity. * intros []. * rewrite app_nil_r in Ht. rewrite <- Ht. lia.
    + destruct els as [|e els].
      * cbn [concat app] in Ht. subst tl. cbn [concat length el_ends]. rewrite app_nil_r, Nat.add_0_r.
        replace (length (join ws)) with (length (join ws) + length (@nil N))%nat at 1 by (cbn; lia).
        rewrite (sd_loop_safe (S (length data)) data (join ws) [] tail); [reflexivity|exact Hd|exact Hne|exact Hts|lia].
      * destruct (sd_loop_elements_then (e :: els) (S (length data)) data (join ws) tl (length (join ws)) (ends 0 ws)) as (f' & Hf' & E).
        -- discriminate. -- exact Hf. -- rewrite Hd, Ht. reflexivity. -- exact Hne. -- rewrite <- Ht. lia.
        -- rewrite E. replace (length (join ws ++ concat (e :: els))) with (length (join ws ++ concat (e :: els)) + length (@nil N))%nat at 1 by (cbn; lia).
           rewrite (sd_loop_safe f' data (join ws ++ concat (e :: els)) [] tl).
           ++ cbn [bind]. unfold mk. rewrite app_length. reflexivity.
           ++ rewrite Hd, Ht. cbn [app]. rewrite <- app_assoc. reflexivity.
           ++ exact Hne. ++ exact Hts. ++ lia.
Qed.

Lemma parse_iff data m eof : parse data None eof = Val (m, None, None) <-> accepted data m.
Proof.
  split; [|apply accepted_parses]. intros H. destruct (parse_none_spec data eof) as (m' & e & H' & Hs).
  rewrite H in H'. injection H' as <- <-. exact Hs.
Qed.

(** LParse.v -- proofs about Parse and the accessors. *)
From Verif Require Import Base BaseFacts Spec MPriority MHelpers MTime MSData MMessage MTransport MParse LPriority LText.
From Coq Require Import ZifyBool ZifyNat ZifyN.

Fixpoint ends (b : nat) (ws : list bytes) : list nat :=
  match ws with [] => [] | w :: r => (b + length w)%nat :: ends (b + length w + 1) r end.

Lemma join_cons w ws : join (w :: ws) = w ++ SP :: join ws.
Proof. unfold join. cbn [map concat]. rewrite <- app_assoc. reflexivity. Qed.

Lemma ends_length b ws : length (ends b ws) = length ws.
Proof. revert b; induction ws; cbn; auto. Qed.

Lemma search_word w r : word w -> search_next_sep (w ++ SP :: r) SP = inl (length w).
Proof.
  intros [Hne Hns]. unfold search_next_sep. rewrite index_byte_app_notin by exact Hns.
  destruct w; [congruence|reflexivity].
Qed.

Lemma search_inl d c e : search_next_sep d c = inl e ->
  exists w r, d = w ++ c :: r /\ length w = e /\ ~ In c w /\ w <> [].
Proof.
  unfold search_next_sep. destruct (index_byte c d) as [[|p]|] eqn:E; try discriminate.
  intros H; inv H. apply index_byte_some in E as (w & r & -> & Hl & Hn).
  exists w, r. repeat split; auto. destruct w; [discriminate|congruence].
Qed.

Lemma search_inr d c e : search_next_sep d c = inr e ->
  (e = ErrPosNotFound /\ ~ In c d) \/ (e = ErrPos0 /\ exists r, d = c :: r).
Proof.
  unfold search_next_sep. destruct (index_byte c d) as [[|p]|] eqn:E; try discriminate.
  - intros H; inv H. right. split; [reflexivity|]. apply index_byte_some in E as (w & r & -> & Hl & _).
    destruct w; [|discriminate]. exists r; reflexivity.
  - intros H; inv H. left. split; [reflexivity|]. apply index_byte_none in E; exact E.
Qed.

Lemma header_loop_ok p : forall data pre ws tail idx,
  length ws = p -> Forall word ws -> data = pre ++ join ws ++ tail ->
  header_loop p data (length pre) idx = Val (inl (idx ++ ends (length pre) ws, (length pre + length (join ws))%nat)).
Proof.
  induction p as [|p IH]; intros data pre ws tail idx Hl Hw Hd.
  - destruct ws; [|discriminate]. cbn. rewrite app_nil_r, Nat.add_0_r. reflexivity.
  - destruct ws as [|w ws]; [discriminate|]. inv Hw. cbn [header_loop].
    rewrite join_cons. destruct (Nat.eqb_spec (length (pre ++ (w ++ SP :: join ws) ++ tail)) 0) as [E|E].
    { rewrite !app_length in E. cbn in E. lia. }
    rewrite go_from_val by (rewrite app_length; lia). rewrite skipn_app_exact. cbn [bind].
    rewrite <- app_assoc. cbn [app]. rewrite search_word by assumption.
    replace (length pre + length w + 1)%nat with (length (pre ++ w ++ [SP])) by (rewrite !app_length; cbn; lia).
    rewrite IH with (ws := ws) (tail := tail); [|cbn in Hl; lia|assumption|rewrite <- !app_assoc; reflexivity].
    f_equal. f_equal. f_equal.
    + rewrite <- app_assoc. cbn [ends]. rewrite !app_length. cbn [length].
      replace (length pre + (length w + 1))%nat with (length pre + length w + 1)%nat by lia. reflexivity.
    + rewrite !app_length. cbn. lia.
Qed.

Lemma header_loop_inv p : forall data pre rest idx,
  data = pre ++ rest -> data <> [] ->
  (exists ws tail, length ws = p /\ Forall word ws /\ rest = join ws ++ tail) \/
  (exists e, header_loop p data (length pre) idx = Val (inr e) /\ (e = ErrPos0 \/ e = ErrPosNotFound) /\
     ~ exists ws tail, length ws = p /\ Forall word ws /\ rest = join ws ++ tail).
Proof.
  induction p as [|p IH]; intros data pre rest idx Hd Hne.
  - left. exists [], rest. repeat split; auto.
  - cbn [header_loop]. destruct (Nat.eqb_spec (length data) 0) as [E|E].
    { destruct data; [congruence|discriminate]. }
    rewrite Hd. rewrite go_from_val by (rewrite app_length; lia). rewrite skipn_app_exact. cbn [bind].
    destruct (search_next_sep rest SP) as [e|e] eqn:Es.
    + apply search_inl in Es as (w & r & -> & <- & Hn & Hw).
      assert (Hd' : data = (pre ++ w ++ [SP]) ++ r) by (rewrite Hd, <- !app_assoc; reflexivity).
      destruct (IH data (pre ++ w ++ [SP]) r (idx ++ [(length pre + length w)%nat]) Hd' Hne) as [H|H].
      * destruct H as (ws & tail & Hl & Hf & ->). left. exists (w :: ws), tail.
        repeat split; [cbn; congruence|constructor; [split; assumption|assumption]|].
        rewrite join_cons, <- app_assoc. reflexivity.
      * destruct H as (e & H & He & Hno). right. exists e. split; [|split; [exact He|]].
        -- rewrite <- Hd. replace (length pre + length w + 1)%nat with (length (pre ++ w ++ [SP])) by (rewrite !app_length; cbn; lia).
           exact H.
        -- intros (ws & tail & Hl & Hf & He2). apply Hno. destruct ws as [|w' ws]; [discriminate|].
           rewrite join_cons, <- app_assoc in He2. cbn [app] in He2.
           inv Hf. destruct H2 as [Hw' Hn'].
           assert (Heq : index_byte SP (w ++ SP :: r) = index_byte SP (w' ++ SP :: join ws ++ tail)) by (rewrite He2; reflexivity).
           rewrite !index_byte_app_notin in Heq by assumption. injection Heq as Heq.
           assert (w = w' /\ SP :: r = SP :: join ws ++ tail) as [-> Hr].
           { revert He2 Heq. clear. revert w'.
             induction w as [|x w IH]; intros [|y w'] H Hl; cbn in *; try discriminate; auto.
             injection H as -> H. injection Hl as Hl. destruct (IH w' H Hl) as [-> Hr]. auto. }
           injection Hr as ->. exists ws, tail. repeat split; auto.
    + right. exists e. split; [reflexivity|]. split.
      * apply search_inr in Es as [[-> _]|[-> _]]; auto.
      * intros (ws & tail & Hl & Hf & ->). destruct ws as [|w ws]; [discriminate|].
        rewrite join_cons, <- app_assoc in Es. cbn [app] in Es. inv Hf. rewrite search_word in Es by assumption. discriminate.
Qed.

(** ** the structured data loop *)

Lemma bracket_safe_none b : ~ In RBR b -> bracket_safe b.
Proof. intros H x y ->. exfalso. apply H, in_or_app. right. left. reflexivity. Qed.

Lemma bracket_safe_app a b : bracket_safe a -> bracket_safe b -> bracket_safe (a ++ b).
Proof.
  intros Ha Hb x y E. apply app_eq_suffix in E as [(e & E1 & E2)|(e & E1 & E2)].
  - destruct e as [|c e].
    + cbn in E2. rewrite app_nil_r in E1. subst a. destruct (Hb [] y) as [x' Hx]; [symmetry; exact E2|destruct x'; discriminate].
    + cbn in E2. injection E2 as <- ->. exact (Ha x e E1).
  - destruct (Hb e y E2) as [e' ->]. exists (a ++ e'). rewrite E1, app_assoc. reflexivity.
Qed.

Lemma bracket_safe_escaped w : ~ In RBR w -> bracket_safe (w ++ [BSL; RBR]).
Proof.
  intros Hn x y E. change [BSL; RBR] with ([BSL] ++ [RBR]) in E. rewrite app_assoc in E. destruct y as [|y0 y].
  - apply app_inj_tail in E as [E _]. exists w. congruence.
  - exfalso. destruct (exists_last (l := y0 :: y)) as (y' & z & Ey); [discriminate|]. rewrite Ey in E.
    rewrite app_comm_cons, app_assoc in E. apply app_inj_tail in E as [E _].
    assert (Hin : In RBR (w ++ [BSL])) by (rewrite E; apply in_or_app; right; left; reflexivity).
    apply in_app_or in Hin as [Hin|[Hin|[]]]; [exact (Hn Hin)|discriminate].
Qed.

Lemma bracket_safe_skip x y : bracket_safe ((x ++ [BSL]) ++ RBR :: y) -> bracket_safe y.
Proof.
  intros H u v ->. destruct (H ((x ++ [BSL]) ++ RBR :: u) v) as [x' Hx'].
  { rewrite <- !app_assoc. reflexivity. }
  destruct (exists_last (l := RBR :: u)) as (l & z & Hl); [discriminate|].
  rewrite Hl, app_assoc in Hx'. apply app_inj_tail in Hx' as [_ ->].
  destruct l as [|c l].
  - cbn in Hl. discriminate.
  - cbn in Hl. injection Hl as <- ->. exists l. reflexivity.
Qed.

Lemma sd_loop_element fuel : forall data pre body tail begin idx,
  data = pre ++ body ++ [QUO; RBR] ++ tail -> bracket_safe body -> (length body < fuel)%nat ->
  exists fuel', (fuel - (length body + 1) <= fuel')%nat /\
  sd_loop fuel data (length pre) begin idx =
    let e := (length pre + length body + 2)%nat in
    if (length data <=? e)%nat then Val (SDReturn (idx ++ [e]) (-1))
    else sd_loop fuel' data e e (idx ++ [e]).
Proof.
  induction fuel as [|fuel IH]; intros data pre body tail begin idx Hd Hb Hf; [lia|].
  cbn [sd_loop]. rewrite Hd. rewrite go_from_val by (rewrite app_length; lia). rewrite skipn_app_exact. cbn [bind].
  destruct (Nat.eqb_spec (length (body ++ [QUO; RBR] ++ tail)) 0) as [E|_].
  { rewrite app_length in E. cbn in E. lia. }
  destruct (in_bs_dec RBR body) as [Hin|Hin].
  - destruct (index_byte RBR body) as [i|] eqn:Ei; [|apply index_byte_none in Ei; contradiction].
    apply index_byte_some in Ei as (w & r & -> & Hl & Hn).
    destruct (Hb w r eq_refl) as [w' ->].
    assert (Hs : search_next_sep (((w' ++ [BSL]) ++ RBR :: r) ++ [QUO; RBR] ++ tail) RBR = inl (length (w' ++ [BSL]))).
    { unfold search_next_sep. rewrite <- !app_assoc. cbn [app].
      replace (w' ++ BSL :: RBR :: r ++ QUO :: RBR :: tail) with ((w' ++ [BSL]) ++ RBR :: r ++ QUO :: RBR :: tail)
        by (rewrite <- app_assoc; reflexivity).
      rewrite index_byte_app_notin by assumption. rewrite app_length. cbn [length]. rewrite Nat.add_1_r. reflexivity. }
    rewrite Hs.
    assert (Hat : go_at (pre ++ ((w' ++ [BSL]) ++ RBR :: r) ++ [QUO; RBR] ++ tail) (length pre + length (w' ++ [BSL]) - 1) = Val BSL).
    { rewrite app_length. cbn [length]. replace (length pre + (length w' + 1) - 1)%nat with (length (pre ++ w')) by (rewrite app_length; lia).
      replace (pre ++ ((w' ++ [BSL]) ++ RBR :: r) ++ [QUO; RBR] ++ tail)
        with ((pre ++ w') ++ BSL :: (RBR :: r) ++ [QUO; RBR] ++ tail) by (rewrite <- !app_assoc; reflexivity).
      apply go_at_app. }
    rewrite Hat. cbn [bind]. change (N.eqb BSL BSL) with true. cbv iota.
    rewrite <- Hd.
    destruct (IH data (pre ++ w' ++ [BSL; RBR]) r tail begin idx) as (fuel' & Hfu & He).
    { rewrite Hd. rewrite <- !app_assoc. reflexivity. }
    { eapply bracket_safe_skip; exact Hb. }
    { rewrite !app_length in Hf. cbn [length] in Hf. lia. }
    exists fuel'. split; [rewrite !app_length in *; cbn [length] in *; lia|].
    replace (length pre + length (w' ++ [BSL]) + 1)%nat with (length (pre ++ w' ++ [BSL; RBR])) by (rewrite !app_length; cbn; lia).
    rewrite He. replace (length (pre ++ w' ++ [BSL; RBR]) + length r + 2)%nat
      with (length pre + length ((w' ++ [BSL]) ++ RBR :: r) + 2)%nat by (rewrite !app_length; cbn; lia).
    reflexivity.
  - assert (Hs : search_next_sep (body ++ [QUO; RBR] ++ tail) RBR = inl (S (length body))).
    { unfold search_next_sep. replace (body ++ [QUO; RBR] ++ tail) with ((body ++ [QUO]) ++ RBR :: tail) by (rewrite <- app_assoc; reflexivity).
      rewrite index_byte_app_notin.
      - rewrite app_length, Nat.add_1_r. reflexivity.
      - intros H. apply in_app_or in H as [H|[H|[]]]; [contradiction|discriminate]. }
    rewrite Hs.
    assert (Hat : go_at (pre ++ body ++ [QUO; RBR] ++ tail) (length pre + S (length body) - 1) = Val QUO).
    { replace (length pre + S (length body) - 1)%nat with (length (pre ++ body)) by (rewrite app_length; lia).
      replace (pre ++ body ++ [QUO; RBR] ++ tail) with ((pre ++ body) ++ QUO :: RBR :: tail) by (rewrite <- app_assoc; reflexivity).
      apply go_at_app. }
    rewrite Hat. cbn [bind]. change (N.eqb QUO BSL) with false. change (N.eqb QUO QUO) with true. cbv iota zeta.
    exists fuel. split; [lia|]. rewrite <- Hd.
    replace (length pre + S (length body) + 1)%nat with (length pre + length body + 2)%nat by lia. reflexivity.
Qed.

Fixpoint el_ends (b : nat) (els : list bytes) : list nat :=
  match els with [] => [] | e :: r => (b + length e)%nat :: el_ends (b + length e) r end.

Lemma sd_loop_tail fuel data pre tail begin idx :
  data = pre ++ tail -> tail <> [] -> ~ In RBR tail -> (0 < fuel)%nat ->
  sd_loop fuel data (length pre) begin idx = Val (SDReturn idx (Z.of_nat begin + 1)).
Proof.
  intros Hd Hne Hn Hf. destruct fuel; [lia|]. cbn [sd_loop]. rewrite Hd.
  rewrite go_from_val by (rewrite app_length; lia). rewrite skipn_app_exact. cbn [bind].
  destruct (Nat.eqb_spec (length tail) 0) as [E|_]; [destruct tail; [congruence|discriminate]|].
  unfold search_next_sep. apply index_byte_none in Hn. rewrite Hn. reflexivity.
Qed.

Lemma sd_loop_elements els : forall fuel data pre tail begin idx,
  els <> [] -> Forall scan_element els -> data = pre ++ concat els ++ tail -> ~ In RBR tail ->
  (length (concat els) < fuel)%nat ->
  sd_loop fuel data (length pre) begin idx =
    Val (SDReturn (idx ++ el_ends (length pre) els)
      (match tail with [] => (-1)%Z | _ => (Z.of_nat (length pre + length (concat els)) + 1)%Z end)).
Proof.
  induction els as [|e els IH]; intros fuel data pre tail begin idx Hne Hf Hd Hn Hfu; [congruence|].
  pose proof (Forall_inv Hf) as (body & He & Hb). pose proof (Forall_inv_tail Hf) as Hf'.
  cbn [concat] in Hd, Hfu |- *. rewrite app_length in Hfu.
  assert (Hle : length e = (length body + 2)%nat) by (rewrite He, app_length; reflexivity).
  destruct (sd_loop_element fuel data pre body (concat els ++ tail) begin idx) as (fuel' & Hfu' & Heq).
  { rewrite Hd, He. rewrite <- !app_assoc. reflexivity. }
  { exact Hb. }
  { lia. }
  rewrite Heq. cbv zeta. replace (length pre + length body + 2)%nat with (length pre + length e)%nat by lia.
  assert (Hld : length data = (length pre + length e + length (concat els ++ tail))%nat) by (rewrite Hd, !app_length; lia).
  cbn [el_ends]. destruct (Nat.leb_spec (length data) (length pre + length e)) as [Hle2|Hgt].
  - assert (Hz : concat els ++ tail = []) by (destruct (concat els ++ tail); [reflexivity|cbn in Hld; lia]).
    apply app_eq_nil in Hz as [Hz1 Hz2]. destruct els as [|e' els'].
    + subst tail. reflexivity.
    + exfalso. pose proof (Forall_inv Hf') as (b' & He' & _). cbn in Hz1. apply app_eq_nil in Hz1 as [Hz1 _].
      subst e'. destruct b'; discriminate.
  - replace (length pre + length e)%nat with (length (pre ++ e)) in * by (rewrite app_length; reflexivity).
    destruct els as [|e' els'].
    + cbn [concat app] in *. rewrite (sd_loop_tail fuel' data (pre ++ e) tail).
      * cbn [el_ends]. rewrite !app_nil_r. destruct tail as [|c tl]; [cbn in Hld; lia|]. rewrite app_length. reflexivity.
      * rewrite Hd. rewrite <- !app_assoc. reflexivity.
      * intros ->. cbn in Hld. lia.
      * exact Hn.
      * lia.
    + rewrite (IH fuel' data (pre ++ e) tail); [|discriminate|assumption| |assumption|lia].
      * rewrite <- app_assoc. cbn [app]. f_equal. f_equal. destruct tail; [reflexivity|].
        rewrite !app_length. f_equal. f_equal. lia.
      * rewrite Hd. rewrite <- !app_assoc. reflexivity.
Qed.

(** Fuel is never exhausted and the offsets stay inside the data. *)
Lemma sd_loop_total fuel : forall data t begin idx,
  (t <= length data)%nat -> (length data - t < fuel)%nat -> (begin <= t)%nat ->
  exists o, sd_loop fuel data t begin idx = Val o /\
    match o with
    | SDFail _ => True
    | SDReturn idx' text =>
        exists more, idx' = idx ++ more /\ Forall (fun i => begin < i <= length data)%nat more /\
          (text = (-1)%Z \/ exists b, text = (Z.of_nat b + 1)%Z /\ (begin <= b < length data)%nat /\
             Forall (fun i => i <= b)%nat more)
    end.
Proof.
  induction fuel as [|fuel IH]; intros data t begin idx Ht Hf Hb; [lia|].
  cbn [sd_loop]. rewrite go_from_val by exact Ht. cbn [bind].
  destruct (Nat.eqb_spec (length (skipn t data)) 0) as [E|E].
  { eexists; split; [reflexivity|exact I]. }
  rewrite skipn_length in E.
  destruct (search_next_sep (skipn t data) RBR) as [e|e] eqn:Es.
  - apply search_inl in Es as (w & r & Hsk & Hw & _ & Hwne).
    assert (Hlen : (t + e + 1 <= length data)%nat).
    { pose proof (skipn_length t data) as Hl. rewrite Hsk, app_length in Hl. cbn in Hl. lia. }
    assert (He : (1 <= e)%nat) by (subst e; destruct w; [congruence|cbn; lia]).
    unfold go_at. destruct (nth_error data (t + e - 1)) as [c|] eqn:Ec.
    2: { apply nth_error_None in Ec. lia. }
    cbn [bind]. destruct (N.eqb c BSL).
    { apply IH; lia. }
    destruct (N.eqb c QUO).
    2: { eexists; split; [reflexivity|exact I]. }
    destruct (Nat.leb_spec (length data) (t + e + 1)).
    { eexists; split; [reflexivity|]. exists [(t + e + 1)%nat]. split; [reflexivity|].
      split; [constructor; [lia|constructor]|]. left; reflexivity. }
    destruct (IH data (t + e + 1)%nat (t + e + 1)%nat (idx ++ [(t + e + 1)%nat])) as (o & Ho & Hp); [lia|lia|lia|].
    exists o. split; [exact Ho|]. destruct o as [idx' text|]; [|exact I].
    destruct Hp as (more & -> & Hm & Ht2). exists ((t + e + 1)%nat :: more).
    split; [rewrite <- app_assoc; reflexivity|]. split.
    + constructor; [lia|]. eapply Forall_impl; [|exact Hm]. cbv beta. intros; lia.
    + destruct Ht2 as [Ht2|(b & Ht2 & Hb2 & Hm2)]; [left; exact Ht2|]. right. exists b.
      split; [exact Ht2|]. split; [lia|]. constructor; [lia|exact Hm2].
  - apply search_inr in Es as [[-> _]|[-> _]].
    + eexists; split; [reflexivity|]. exists []. rewrite app_nil_r. split; [reflexivity|]. split; [constructor|].
      right. exists begin. split; [reflexivity|]. split; [lia|constructor].
    + eexists; split; [reflexivity|exact I].
Qed.

Lemma el_ends_app b e els : el_ends b (e :: els) = (b + length e)%nat :: el_ends (b + length e) els.
Proof. reflexivity. Qed.

Lemma sd_loop_shape fuel : forall data pre mid rest idx,
  data = pre ++ mid ++ rest -> bracket_safe mid -> (length rest < fuel)%nat ->
  exists o, sd_loop fuel data (length pre + length mid) (length pre) idx = Val o /\
    match o with
    | SDFail _ => True
    | SDReturn idx' text => exists els tl,
        Forall scan_element els /\ data = pre ++ concat els ++ tl /\ idx' = idx ++ el_ends (length pre) els /\
        ((tl = [] /\ els <> [] /\ text = (-1)%Z) \/
         (tl <> [] /\ text_safe tl /\ text = (Z.of_nat (length pre + length (concat els)) + 1)%Z))
    end.
Proof.
  induction fuel as [|fuel IH]; intros data pre mid rest idx Hd Hm Hf; [lia|].
  cbn [sd_loop].
  assert (Hld : length data = (length pre + length mid + length rest)%nat) by (rewrite Hd, !app_length; lia).
  assert (Hsk : skipn (length pre + length mid) data = rest).
  { rewrite Hd, app_assoc, <- app_length. apply skipn_app_exact. }
  rewrite go_from_val by lia. rewrite Hsk. cbn [bind].
  destruct (Nat.eqb_spec (length rest) 0) as [E|E].
  { eexists; split; [reflexivity|exact I]. }
  destruct (search_next_sep rest RBR) as [e|e] eqn:Es.
  - apply search_inl in Es as (w & r & -> & Hw & Hnin & Hwne).
    rewrite app_length in Hld, Hf. cbn [length] in Hld, Hf.
    destruct (exists_last Hwne) as (w' & c & ->). rewrite app_length in *. cbn [length] in *.
    assert (Hat : go_at data (length pre + length mid + e - 1) = Val c).
    { replace (length pre + length mid + e - 1)%nat with (length (pre ++ mid ++ w')) by (rewrite !app_length; lia).
      rewrite Hd. replace (pre ++ mid ++ (w' ++ [c]) ++ RBR :: r) with ((pre ++ mid ++ w') ++ c :: RBR :: r)
        by (rewrite <- !app_assoc; reflexivity). apply go_at_app. }
    rewrite Hat. cbn [bind]. destruct (N.eqb_spec c BSL) as [->|Hc].
    { replace (length pre + length mid + e + 1)%nat with (length pre + length (mid ++ w' ++ [BSL; RBR]))%nat
        by (rewrite !app_length; cbn; lia).
      apply (IH data pre (mid ++ w' ++ [BSL; RBR]) r idx); [rewrite Hd, <- !app_assoc; reflexivity| |lia].
      apply bracket_safe_app; [exact Hm|]. apply bracket_safe_escaped. intros Hi. apply Hnin, in_or_app. left; exact Hi. }
    destruct (N.eqb_spec c QUO) as [->|Hc2].
    2: { eexists; split; [reflexivity|exact I]. }
    set (el := mid ++ w' ++ [QUO; RBR]).
    assert (Hel : length el = (length mid + e + 1)%nat) by (subst el; rewrite !app_length; cbn; lia).
    assert (Hbl : scan_element el).
    { exists (mid ++ w'). split; [subst el; rewrite <- app_assoc; reflexivity|]. apply bracket_safe_app; [exact Hm|].
      apply bracket_safe_none. intros Hi. apply Hnin, in_or_app. left; exact Hi. }
    assert (Hd2 : data = pre ++ el ++ r) by (subst el; rewrite Hd, <- !app_assoc; reflexivity).
    replace (length pre + length mid + e + 1)%nat with (length pre + length el)%nat by lia.
    destruct (Nat.leb_spec (length data) (length pre + length el)).
    { eexists; split; [reflexivity|]. exists [el], []. split; [constructor; [exact Hbl|constructor]|].
      assert (r = []) by (destruct r; [reflexivity|cbn in *; lia]). subst r.
      split; [cbn; rewrite Hd2, !app_nil_r; reflexivity|]. split; [reflexivity|]. left. repeat split; discriminate. }
    destruct (IH data (pre ++ el) [] r (idx ++ [(length pre + length el)%nat])) as (o & Ho & Hp).
    { rewrite Hd2, <- !app_assoc. reflexivity. }
    { apply bracket_safe_none; intros []. }
    { lia. }
    cbn [length] in Ho. rewrite Nat.add_0_r, app_length in Ho.
    exists o. split; [exact Ho|]. destruct o as [idx' text|]; [|exact I].
    destruct Hp as (els & tl & Hf2 & Hd3 & -> & Hcase). exists (el :: els), tl.
    split; [constructor; assumption|]. split; [rewrite Hd3; cbn [concat]; rewrite <- !app_assoc; reflexivity|].
    split. { rewrite <- app_assoc, app_length. reflexivity. }
    destruct Hcase as [(-> & Hne & ->)|(Hne & Hts & ->)].
    + left. repeat split; discriminate.
    + right. split; [exact Hne|]. split; [exact Hts|]. cbn [concat]. rewrite !app_length. f_equal. f_equal. lia.
  - apply search_inr in Es as [[-> Hn]|[-> _]].
    + eexists; split; [reflexivity|]. exists [], (mid ++ rest).
      split; [constructor|]. split; [exact Hd|]. split; [cbn; rewrite app_nil_r; reflexivity|].
      assert (Hrn : rest <> []) by (destruct rest; [cbn in E; lia|discriminate]).
      right. split; [destruct mid; [exact Hrn|discriminate]|]. split; [split|].
      * apply bracket_safe_app; [exact Hm|apply bracket_safe_none; exact Hn].
      * intros [x Ex]. destruct (exists_last Hrn) as (y' & z & ->). rewrite app_assoc in Ex.
        apply app_inj_tail in Ex as [_ ->]. apply Hn, in_or_app. right; left; reflexivity.
      * cbn. f_equal. lia.
    + eexists; split; [reflexivity|exact I].
Qed.

(** ** Parse without transport *)

(** Shape of an accepted input and of the recorded message. *)
Definition accepted (data : bytes) (m : immutable) : Prop :=
  exists ws tail, length ws = 6%nat /\ Forall word ws /\ data = join ws ++ tail /\ i_buf m = data /\
    ( (tail = [DASH] /\ i_index m = ends 0 ws ++ [(length (join ws) + 2)%nat] /\ i_text m = (-1)%Z) \/
      (exists text, tail = DASH :: SP :: text /\ i_index m = ends 0 ws ++ [(length (join ws) + 1)%nat] /\
         i_text m = (Z.of_nat (length (join ws)) + 2)%Z) \/
      (exists els tl, Forall scan_element els /\ tail = concat els ++ tl /\ late_space tail /\
         i_index m = ends 0 ws ++ el_ends (length (join ws)) els /\
         ((tl = [] /\ els <> [] /\ i_text m = (-1)%Z) \/
          (tl <> [] /\ text_safe tl /\ i_text m = (Z.of_nat (length (join ws) + length (concat els)) + 1)%Z)))).

Lemma parse_none_spec data eof :
  exists m e, parse data None eof = Val (m, None, e) /\
    match e with
    | Some _ => m = zero_immutable
    | None => accepted data m
    end.
Proof.
  unfold parse, parse_body. destruct data as [|c0 data0] eqn:Edata.
  { cbn. eexists; eexists; split; [reflexivity|]. cbn. reflexivity. }
  rewrite <- Edata in *. assert (Hne : data <> []) by congruence. clear Edata c0 data0.
  destruct (header_loop_inv 6 data [] data [] eq_refl Hne) as [(ws & tail & Hl & Hw & Hd)|(e & He & _ & _)].
  2: { cbn [length] in He. rewrite He. cbn [bind]. eexists; eexists; split; [reflexivity|]. reflexivity. }
  pose proof (header_loop_ok 6 data [] ws tail [] Hl Hw Hd) as Hh. cbn [length] in Hh.
  rewrite Hh. cbn [bind app]. rewrite !Nat.add_0_l.
  assert (Hsk : skipn (length (join ws)) data = tail) by (rewrite Hd; apply skipn_app_exact).
  assert (Hld : length data = (length (join ws) + length tail)%nat) by (rewrite Hd, app_length; reflexivity).
  rewrite go_from_val by lia. rewrite Hsk. cbn [bind].
  destruct (Nat.eqb_spec (length tail) 0) as [E0|E0].
  { eexists; eexists; split; [reflexivity|]. reflexivity. }
  destruct tail as [|c tail']; [cbn in E0; lia|].
  assert (Hat : go_at data (length (join ws)) = Val c) by (rewrite Hd; apply go_at_app).
  destruct (Nat.eqb_spec (length (c :: tail')) 1) as [E1|E1].
  { rewrite Hat. cbn [bind]. destruct tail'; [|cbn in E1; lia].
    destruct (N.eqb_spec c DASH) as [->|Hc]; cbn [negb].
    - eexists; eexists; split; [reflexivity|]. cbn. exists ws, [DASH]. repeat split; auto.
    - eexists; eexists; split; [reflexivity|]. reflexivity. }
  destruct (search_next_sep (c :: tail') SP) as [e|e] eqn:Es.
  2: { eexists; eexists; split; [reflexivity|]. reflexivity. }
  destruct (Nat.eqb_spec e 1) as [->|Ee].
  { rewrite Hat. cbn [bind]. destruct (N.eqb_spec c DASH) as [->|Hc]; cbn [negb].
    - eexists; eexists; split; [reflexivity|]. cbn.
      apply search_inl in Es as (w & r & Heq & Hwl & _ & _).
      destruct w as [|x [|]]; try discriminate. injection Heq as <- ->.
      exists ws, (DASH :: SP :: r). split; [exact Hl|]. split; [exact Hw|]. split; [exact Hd|]. split; [reflexivity|].
      right. left. exists r. auto.
    - eexists; eexists; split; [reflexivity|]. reflexivity. }
  destruct (sd_loop_shape (S (length data)) data (join ws) [] (c :: tail') (ends 0 ws)) as (o & Ho & Hp).
  { exact Hd. } { apply bracket_safe_none; intros []. } { lia. }
  cbn [length] in Ho. rewrite Nat.add_0_r in Ho. rewrite Ho. cbn [bind].
  destruct o as [idx' text|e'].
  2: { eexists; eexists; split; [reflexivity|]. reflexivity. }
  eexists; eexists; split; [reflexivity|]. cbn.
  destruct Hp as (els & tl & Hf & Hd2 & -> & Hcase).
  exists ws, (c :: tail'). split; [exact Hl|]. split; [exact Hw|]. split; [exact Hd|]. split; [reflexivity|].
  right. right. exists els, tl. split; [exact Hf|].
  split. { rewrite Hd in Hd2. apply app_inv_head in Hd2. exact Hd2. }
  split; [|split; [reflexivity|exact Hcase]].
  apply search_inl in Es as (w & r & Heq & Hwl & Hnin & Hwn). exists w, r. split; [exact Heq|]. split; [exact Hnin|].
  destruct w as [|? [|]]; [congruence|cbn in Hwl; lia|cbn; lia].
Qed.

(** ** accessors on a header *)
Lemma nth_ends ws : forall b i w, nth_error ws i = Some w ->
  nth_error (ends b ws) i = Some (b + length (join (firstn i ws)) + length w)%nat.
Proof.
  induction ws as [|x ws IH]; intros b [|i] w H; cbn [nth_error firstn ends] in *; try discriminate.
  - injection H as ->. f_equal. cbn. lia.
  - rewrite (IH _ _ _ H). f_equal. rewrite join_cons, app_length. cbn [length]. lia.
Qed.

Lemma join_split ws : forall i w, nth_error ws i = Some w ->
  exists post, join ws = join (firstn i ws) ++ w ++ SP :: post.
Proof.
  induction ws as [|x ws IH]; intros [|i] w H; cbn [nth_error firstn ends] in *; try discriminate.
  - injection H as ->. exists (join ws). apply join_cons.
  - destruct (IH _ _ H) as [post Hp]. exists post. rewrite !join_cons. rewrite Hp. rewrite <- app_assoc. reflexivity.
Qed.

Lemma firstn_S_join ws i w : nth_error ws i = Some w -> join (firstn (S i) ws) = join (firstn i ws) ++ w ++ [SP].
Proof.
  intros H. assert (Hf : firstn (S i) ws = firstn i ws ++ [w]).
  { revert i H. induction ws as [|x ws IH]; intros [|i] H; cbn in *; try discriminate.
    - injection H as ->. reflexivity.
    - rewrite <- (IH i H). reflexivity. }
  rewrite Hf. unfold join. rewrite map_app, concat_app. cbn. rewrite app_nil_r. reflexivity.
Qed.

(** A message whose buffer starts with these words and whose index starts with their ends. *)
Definition has_header (m : immutable) (ws : list bytes) : Prop :=
  length ws = 6%nat /\ (exists tail, i_buf m = join ws ++ tail) /\ (exists more, i_index m = ends 0 ws ++ more).

Lemma idx_at_header m ws i w : has_header m ws -> nth_error ws i = Some w ->
  idx_at m i = Val (length (join (firstn i ws)) + length w)%nat.
Proof.
  intros (Hl & _ & more & Hi) Hw. unfold idx_at. rewrite Hi, nth_error_app1.
  - rewrite (nth_ends ws 0 i w Hw). reflexivity.
  - rewrite ends_length. apply nth_error_Some. congruence.
Qed.

Lemma imm_field_header m ws i w w' : has_header m ws ->
  nth_error ws i = Some w -> nth_error ws (S i) = Some w' -> imm_field m i = Val w'.
Proof.
  intros H Hw Hw'. unfold imm_field. rewrite (idx_at_header _ _ _ _ H Hw), (idx_at_header _ _ _ _ H Hw'). cbn [bind].
  rewrite (firstn_S_join _ _ _ Hw).
  destruct H as (_ & (tail & Hb) & _). destruct (join_split _ _ _ Hw') as (post & Hj).
  rewrite Hb, Hj, (firstn_S_join _ _ _ Hw).
  set (p := join (firstn i ws) ++ w ++ [SP]).
  replace (length (join (firstn i ws)) + length w + 1)%nat with (length p) by (subst p; rewrite !app_length; cbn; lia).
  rewrite <- !app_assoc. apply go_slice_app.
Qed.

Lemma imm_first_word m ws w : has_header m ws -> nth_error ws 0 = Some w ->
  imm_priority m = do r <- priority_unmarshal 0 w; Val (fst r).
Proof.
  intros H Hw. unfold imm_priority. rewrite (idx_at_header _ _ _ _ H Hw). cbn [firstn join map concat length bind].
  destruct H as (_ & (tail & Hb) & _). destruct (join_split _ _ _ Hw) as (post & Hj).
  rewrite Hb, Hj. cbn [firstn join map concat app]. rewrite <- app_assoc.
  pose proof (go_slice_app [] w ((SP :: post) ++ tail)) as Hg. cbn [app length] in Hg |- *. rewrite Hg. reflexivity.
Qed.

Lemma accepted_header data m : accepted data m -> exists ws, has_header m ws /\ Forall word ws.
Proof.
  intros (ws & tail & Hl & Hw & Hd & Hb & Hc). exists ws. split; [|exact Hw].
  split; [exact Hl|]. split; [exists tail; congruence|].
  destruct Hc as [(_ & H & _)|[(x & _ & H & _)|(els & tl & _ & _ & _ & H & _)]]; eexists; exact H.
Qed.

Definition header_values (m : immutable) (w1 w2 w3 w4 w5 w6 : bytes) : Prop :=
  imm_priority m = (do r <- priority_unmarshal 0 w1; Val (fst r)) /\ imm_timestamp m = Val (time_parse w2) /\
  imm_hostname m = Val (valid_host w3) /\ imm_appname m = Val (valid_app w4) /\
  imm_procid m = Val (valid_procid w5) /\ imm_msgid m = Val (valid_msgid w6).

Lemma header_accessors m ws : has_header m ws ->
  exists w1 w2 w3 w4 w5 w6, ws = [w1; w2; w3; w4; w5; w6] /\ header_values m w1 w2 w3 w4 w5 w6.
Proof.
  intros H. pose proof H as (Hl & _). do 6 (destruct ws as [|? ws]; [discriminate|]). destruct ws; [|discriminate].
  do 6 eexists. split; [reflexivity|].
  unfold header_values, imm_timestamp, imm_hostname, imm_appname, imm_procid, imm_msgid.
  split; [exact (imm_first_word _ _ _ H eq_refl)|].
  rewrite (imm_field_header _ _ 0 _ _ H eq_refl eq_refl), (imm_field_header _ _ 1 _ _ H eq_refl eq_refl),
    (imm_field_header _ _ 2 _ _ H eq_refl eq_refl), (imm_field_header _ _ 3 _ _ H eq_refl eq_refl),
    (imm_field_header _ _ 4 _ _ H eq_refl eq_refl). cbn [bind]. auto.
Qed.

(** LBlocked.v -- which inputs of a delimited stream can never become a message. *)
From Verif Require Import Base BaseFacts Spec MPriority MHelpers MText MTime MSData MMessage MTransport MParse MTokenize.
From Verif Require Import LPriority LText LAtoi LTime LSData LParse LTransport LRound LResult PropParse PropTransport LTokenize LLines.
From Coq Require Import ZifyBool ZifyNat ZifyN.

(** [b] is followed by a ']' that is not escaped and does not close an element *)
Definition stray_bracket (tail : bytes) : Prop :=
  exists els b r, Forall scan_element els /\ tail = concat els ++ b ++ RBR :: r /\ bracket_safe b /\
    (b = [] \/ exists b' x, b = b' ++ [x] /\ x <> BSL /\ x <> QUO).

(** An input that starts like this is not the start of any message: an empty word among the
    header fields, or a structured data field that is one byte but not '-', or (no '- ') one that
    has a ']' which neither is escaped nor follows a quote. *)
Definition blocked (data : bytes) : Prop :=
  (exists ws r, (length ws <= 6)%nat /\ Forall word ws /\ data = join ws ++ SP :: r) \/
  (exists ws tail, length ws = 6%nat /\ Forall word ws /\ data = join ws ++ tail /\
     ((exists x r, tail = x :: SP :: r /\ x <> DASH) \/
      ((forall r, tail <> DASH :: SP :: r) /\ stray_bracket tail))).

(** ** blocked inputs are never accepted *)
Lemma scan_not_safe e r : scan_element e -> ~ bracket_safe (e ++ r).
Proof.
  intros (body & -> & _) Hs. destruct (Hs (body ++ [QUO]) r) as [x' E].
  - rewrite <- !app_assoc. reflexivity.
  - apply app_inj_tail in E as [_ E]. discriminate.
Qed.

Lemma body_order body y b r : bracket_safe b -> (exists z, z <> [] /\ b = body ++ z) -> body ++ QUO :: RBR :: y = b ++ RBR :: r ->
  b = body ++ [QUO].
Proof.
  intros Hb (z & Hz & ->) E. rewrite <- app_assoc in E. apply app_inv_head in E. destruct z as [|z0 z]; [congruence|].
  cbn [app] in E. injection E as <- E. destruct z as [|z1 z]; [reflexivity|]. cbn [app] in E. injection E as <- E.
  exfalso. destruct (Hb (body ++ [QUO]) z) as [x' Ex]; [rewrite <- app_assoc; reflexivity|]. apply app_inj_tail in Ex as [_ Ex]. discriminate.
Qed.

Lemma app_order {A} (a b x y : list A) : a ++ x = b ++ y -> (exists z, a = b ++ z) \/ (exists z, z <> [] /\ b = a ++ z).
Proof.
  revert b. induction a as [|c a IH]; intros [|d b] E.
  - left. exists []. reflexivity.
  - right. exists (d :: b). split; [discriminate|reflexivity].
  - left. exists (c :: a). reflexivity.
  - injection E as -> E. destruct (IH b E) as [(z & ->)|(z & Hz & ->)]; [left; exists z; reflexivity|right; exists z; auto].
Qed.

Lemma scan_unique e e' x y : scan_element e -> scan_element e' -> e ++ x = e' ++ y -> e = e' /\ x = y.
Proof.
  intros (b & -> & Hb) (b' & -> & Hb') E.
  assert (Hl : forall b b' x y, bracket_safe b' -> (b ++ [QUO; RBR]) ++ x = (b' ++ [QUO; RBR]) ++ y -> ~ exists z, z <> [] /\ b' = b ++ z).
  { clear. intros b b' x y Hb' E (z & Hz & ->). rewrite <- !app_assoc in E. apply app_inv_head in E. cbn [app] in E.
    destruct z as [|z0 z]; [congruence|]. cbn [app] in E. injection E as <- E. destruct z as [|z1 z]; [discriminate|].
    cbn [app] in E. injection E as <- E. destruct (Hb' (b ++ [QUO]) z) as [x' Ex]; [rewrite <- app_assoc; reflexivity|].
    apply app_inj_tail in Ex as [_ Ex]. discriminate. }
  assert (Eb : b = b').
  { destruct (app_order b b' (QUO :: RBR :: x) (QUO :: RBR :: y)) as [(z & Ez)|Hz].
    - rewrite <- !app_assoc in E. exact E.
    - destruct z as [|z0 z]; [rewrite app_nil_r in Ez; exact Ez|]. exfalso. apply (Hl b' b y x Hb (eq_sym E)). exists (z0 :: z). split; [discriminate|exact Ez].
    - exfalso. exact (Hl b b' x y Hb' E Hz). }
  subst b'. apply app_inv_head in E. auto.
Qed.

Lemma stray_not_accepted els : forall b r els' tl, Forall scan_element els -> bracket_safe b ->
  (b = [] \/ exists b' x, b = b' ++ [x] /\ x <> BSL /\ x <> QUO) ->
  Forall scan_element els' -> (tl = [] \/ text_safe tl) -> concat els ++ b ++ RBR :: r = concat els' ++ tl -> False.
Proof.
  induction els as [|e els IH]; intros b r els' tl Hf Hb Hlast Hf' Htl E.
  - cbn [concat app] in E. destruct els' as [|e' els'].
    + cbn [concat app] in E. destruct Htl as [->|[Hs _]]; [destruct b; discriminate|].
      destruct (Hs b r (eq_sym E)) as [x' Ex]. destruct Hlast as [->|(b' & x & -> & Hx & _)]; [destruct x'; discriminate|].
      apply app_inj_tail in Ex as [_ Ex]. congruence.
    + inversion Hf' as [|? ? (body & -> & Hbody) _]; subst. cbn [concat] in E. rewrite <- !app_assoc in E. cbn [app] in E.
      destruct (app_order b body (RBR :: r) (QUO :: RBR :: concat els' ++ tl)) as [(z & Ez)|(z & Hz & ->)]; [exact E| |].
      * destruct z as [|z0 z].
        -- rewrite app_nil_r in Ez. subst b. apply app_inv_head in E. discriminate.
        -- assert (Eb : b = body ++ [QUO]).
           { apply (body_order body (concat els' ++ tl) b r Hb); [exists (z0 :: z); split; [discriminate|exact Ez]|symmetry; exact E]. }
           destruct Hlast as [->|(b' & x & -> & _ & Hx)]; [destruct body; discriminate|]. apply app_inj_tail in Eb as [_ Eb]. congruence.
      * rewrite <- app_assoc in E. apply app_inv_head in E. destruct z as [|z0 z]; [congruence|]. injection E as <- E.
        destruct (Hbody b z) as [x' Ex]; [reflexivity|]. destruct Hlast as [->|(b' & x & -> & Hx & _)]; [destruct x'; discriminate|].
        apply app_inj_tail in Ex as [_ Ex]. congruence.
  - inversion Hf as [|? ? He Hf1]; subst. cbn [concat] in E. rewrite <- app_assoc in E. destruct els' as [|e' els'].
    + cbn [concat app] in E. destruct Htl as [->|[Hs _]].
      * destruct He as (body & -> & _). apply app_eq_nil in E as [E _]. apply app_eq_nil in E as [_ E]. discriminate.
      * rewrite <- E in Hs. exact (scan_not_safe _ _ He Hs).
    + inversion Hf' as [|? ? He' Hf1']; subst. cbn [concat] in E. rewrite <- app_assoc in E.
      apply (scan_unique e e' _ _ He He') in E as [_ E]. exact (IH b r els' tl Hf1 Hb Hlast Hf1' Htl E).
Qed.

Lemma late_space_second x r : ~ late_space (x :: SP :: r).
Proof.
  intros (a & b & E & Hn & Hl). destruct a as [|a0 [|a1 a]]; cbn in Hl; try lia. cbn in E. injection E as _ <- _.
  apply Hn. right; left; reflexivity.
Qed.

Lemma blocked_not_accepted data ext m : blocked data -> ~ accepted (data ++ ext) m.
Proof.
  intros Hb (ws' & tail' & Hl' & Hw' & Hd & _ & Hc).
  assert (Hshape : (tail' = [DASH] \/ (exists t, tail' = DASH :: SP :: t) \/
     (late_space tail' /\ exists els tl, Forall scan_element els /\ tail' = concat els ++ tl /\ (tl = [] \/ text_safe tl)))).
  { destruct Hc as [(H & _)|[(t & H & _)|(els & tl & Hf & Ht & Hls & _ & Hx)]]; [auto|eauto|]. right. right. split; [exact Hls|].
    exists els, tl. split; [exact Hf|]. split; [exact Ht|]. destruct Hx as [(-> & _)|(_ & Hs & _)]; auto. }
  clear Hc. destruct Hb as [(ws & r & Hl & Hw & ->)|(ws & tail & Hl & Hw & -> & Hx)].
  - rewrite <- app_assoc in Hd. apply join_prefix in Hd as (ws2 & -> & E); [|assumption..|lia].
    destruct ws2 as [|w ws2].
    + cbn in E. subst tail'. destruct Hshape as [H|[(t & H)|((x & y & E & Hn & Hx) & _)]]; [discriminate..|].
      destruct x as [|x0 x]; [cbn in Hx; lia|]. injection E as E0 E. apply Hn. left; congruence.
    + rewrite Forall_app in Hw'. destruct Hw' as [_ Hw']. inversion Hw' as [|? ? [Hne Hn] _]; subst. rewrite join_cons in E.
      destruct w as [|w0 w]; [congruence|]. cbn in E. injection E as <- _. apply Hn. left; reflexivity.
  - rewrite <- app_assoc in Hd. apply join_unique in Hd as [_ Hd]; [|congruence|assumption..].
    destruct Hx as [(x & r & -> & Hx)|(Hnd & els & b & r & Hf & -> & Hb & Hlast)].
    + cbn [app] in Hd. destruct Hshape as [->|[(t & ->)|(Hls & _)]].
      * discriminate.
      * injection Hd as -> _. congruence.
      * rewrite <- Hd in Hls. exact (late_space_second _ _ Hls).
    + destruct Hshape as [->|[(t & ->)|(Hls & els' & tl & Hf' & -> & Htl)]].
      * assert (H : In RBR [DASH]).
        { rewrite <- Hd. apply in_or_app. left. apply in_or_app. right. apply in_or_app. right. left; reflexivity. }
        destruct H as [H|[]]; discriminate.
      * assert (Hne : exists y z, concat els ++ b ++ RBR :: r = y :: z).
        { destruct (concat els ++ b ++ RBR :: r) eqn:E; [|eauto]. apply app_eq_nil in E as [_ E]. apply app_eq_nil in E as [_ E]. discriminate. }
        destruct Hne as (y & z & Hyz). destruct z as [|z0 z].
        -- rewrite Hyz in Hd. cbn in Hd. injection Hd as -> _. assert (H : In RBR [DASH]).
           { rewrite <- Hyz. apply in_or_app. right. apply in_or_app. right. left; reflexivity. }
           destruct H as [H|[]]; discriminate.
        -- rewrite Hyz in Hd. cbn in Hd. injection Hd as -> -> _. exact (Hnd z Hyz).
      * rewrite <- !app_assoc in Hd. cbn [app] in Hd. exact (stray_not_accepted els b (r ++ ext) els' tl Hf Hb Hlast Hf' Htl Hd).
Qed.

(** ** the others can be completed *)
Lemma header_decomp k : forall data,
  (exists ws tail, length ws = k /\ Forall word ws /\ data = join ws ++ tail) \/
  (exists ws w, (length ws < k)%nat /\ Forall word ws /\ ~ In SP w /\ data = join ws ++ w) \/
  (exists ws r, (length ws < k)%nat /\ Forall word ws /\ data = join ws ++ SP :: r).
Proof.
  induction k as [|k IH]; intros data; [left; exists [], data; repeat split; constructor|].
  destruct (in_bs_dec SP data) as [Hin|Hno].
  - apply first_bracket in Hin as (w & r & -> & Hn). destruct w as [|w0 w].
    + right. right. exists [], r. split; [cbn; lia|]. split; [constructor|reflexivity].
    + assert (Hw : word (w0 :: w)) by (split; [discriminate|exact Hn]).
      destruct (IH r) as [(ws & tail & Hl & Hf & ->)|[(ws & v & Hl & Hf & Hv & ->)|(ws & q & Hl & Hf & ->)]].
      * left. exists ((w0 :: w) :: ws), tail. split; [cbn; lia|]. split; [constructor; assumption|]. rewrite join_cons, <- app_assoc. reflexivity.
      * right. left. exists ((w0 :: w) :: ws), v. split; [cbn; lia|]. split; [constructor; assumption|]. split; [exact Hv|]. rewrite join_cons, <- app_assoc. reflexivity.
      * right. right. exists ((w0 :: w) :: ws), q. split; [cbn; lia|]. split; [constructor; assumption|]. rewrite join_cons, <- app_assoc. reflexivity.
  - right. left. exists [], data. split; [cbn; lia|]. split; [constructor|]. auto.
Qed.

Lemma scan_decomp n : forall tail, (length tail <= n)%nat ->
  (exists els tl, Forall scan_element els /\ tail = concat els ++ tl /\ bracket_safe tl) \/ stray_bracket tail.
Proof.
  induction n as [|n IH]; intros tail Hlen.
  { left. exists [], tail. split; [constructor|]. split; [reflexivity|]. apply bracket_safe_none. destruct tail; [intros []|cbn in Hlen; lia]. }
  (* first bracket that is not escaped *)
  assert (Hfirst : forall k t, (length t <= k)%nat -> bracket_safe t \/ exists b r, t = b ++ RBR :: r /\ bracket_safe b /\ ~ exists b', b = b' ++ [BSL]).
  { clear. induction k as [|k IH]; intros t Hk.
    - left. apply bracket_safe_none. destruct t; [intros []|cbn in Hk; lia].
    - destruct (in_bs_dec RBR t) as [Hin|Hno]; [|left; apply bracket_safe_none; exact Hno].
      apply first_bracket in Hin as (w & r & -> & Hn).
      assert (Hd : (exists w', w = w' ++ [BSL]) \/ ~ exists w', w = w' ++ [BSL]).
      { destruct w as [|w0 w]; [right; intros [x E]; destruct x; discriminate|].
        destruct (exists_last (l := w0 :: w)) as (l & z & E); [discriminate|]. rewrite E in *.
        destruct (N.eq_dec z BSL) as [->|Hz]; [left; exists l; reflexivity|]. right. intros [x Ex]. apply app_inj_tail in Ex as [_ Ex]. congruence. }
      destruct Hd as [(w' & ->)|Hd]; [|right; exists w, r; split; [reflexivity|]; split; [apply bracket_safe_none; exact Hn|exact Hd]].
      rewrite app_length in Hk. cbn in Hk.
      assert (He : bracket_safe ((w' ++ [BSL]) ++ [RBR])).
      { rewrite <- app_assoc. apply bracket_safe_escaped. intros H. apply Hn. apply in_or_app. left; exact H. }
      destruct (IH r ltac:(lia)) as [Hs|(b & q & -> & Hb & Hnb)].
      + left. change (RBR :: r) with ([RBR] ++ r). rewrite app_assoc. apply bracket_safe_app; assumption.
      + right. exists (((w' ++ [BSL]) ++ [RBR]) ++ b), q. split; [rewrite <- !app_assoc; reflexivity|]. split; [apply bracket_safe_app; assumption|].
        intros [b' E]. destruct b as [|b0 b].
        * rewrite app_nil_r in E. apply app_inj_tail in E as [_ E]. discriminate.
        * destruct (exists_last (l := b0 :: b)) as (l & z & Ez); [discriminate|]. rewrite Ez in *. rewrite app_assoc in E. apply app_inj_tail in E as [_ ->].
          apply Hnb. exists l. reflexivity. }
  destruct (Hfirst _ tail (Nat.le_refl _)) as [Hs|(b & r & -> & Hb & Hnb)].
  { left. exists [], tail. split; [constructor|]. auto. }
  destruct (list_eq_dec N.eq_dec b []) as [->|Hbne].
  { right. exists [], [], r. split; [constructor|]. split; [reflexivity|]. split; [exact Hb|]. left; reflexivity. }
  destruct (exists_last (l := b) Hbne) as (l & z & ->).
  destruct (N.eq_dec z QUO) as [->|Hz].
  - assert (He : scan_element (l ++ [QUO; RBR])).
    { exists l. split; [reflexivity|]. intros x y E. subst l. rewrite <- !app_assoc in Hb. cbn [app] in Hb. destruct (Hb x (y ++ [QUO])) as [x' Ex]; [reflexivity|]. exists x'. exact Ex. }
    rewrite !app_length in Hlen. cbn in Hlen.
    destruct (IH r ltac:(lia)) as [(els & tl & Hf & -> & Ht)|(els & b & q & Hf & -> & Hb' & Hlast)].
    + left. exists ((l ++ [QUO; RBR]) :: els), tl. split; [constructor; assumption|]. split; [cbn [concat]; rewrite <- !app_assoc; reflexivity|exact Ht].
    + right. exists ((l ++ [QUO; RBR]) :: els), b, q. split; [constructor; assumption|]. split; [cbn [concat]; rewrite <- !app_assoc; reflexivity|]. auto.
  - right. exists [], (l ++ [z]), r. split; [constructor|]. split; [reflexivity|]. split; [exact Hb|]. right. exists l, z. split; [reflexivity|].
    split; [|exact Hz]. intros ->. apply Hnb. exists l. reflexivity.
Qed.

(** something is delivered *)
Definition delivers (t : transport) (data : bytes) : Prop := exists m r, parse data (Some t) false = Val (m, Some r, None).

Lemma accepted_delivers t c data m k : delim t = Some c -> accepted data m -> (1 <= i_text m)%Z ->
  In c (skipn k data) -> (i_text m <= Z.of_nat k)%Z -> delivers t data.
Proof.
  intros Hc Hacc Ht Hin Hk. destruct (accepted_text_range _ _ Hacc) as [Hbuf Hr].
  unfold delivers. rewrite (parse_accepted t c data false m Hc Hacc).
  destruct (parse_return_cases m t c false data Hc Hbuf ltac:(lia)) as (pre & tl & Hd & Hp & Hx).
  assert (Hi : In c tl).
  { rewrite Hd in Hin. rewrite skipn_app in Hin. apply in_app_or in Hin as [Hin|Hin].
    - rewrite skipn_all2 in Hin by lia. destruct Hin.
    - rewrite <- (firstn_skipn (k - length pre) tl). apply in_or_app. right; exact Hin. }
  destruct Hx as [(-> & _)|[(a & b & _ & _ & ->)|(_ & Hn & _)]]; [destruct Hi|eauto|contradiction].
Qed.

Lemma blocked_or_completed t c data : delim t = Some c ->
  blocked data \/ exists ext, (1 <= length ext <= 15)%nat /\ delivers t (data ++ ext).
Proof.
  intros Hc. assert (Hcb : c <> RBR /\ c <> SP) by (destruct t; try discriminate; injection Hc as <-; split; discriminate).
  destruct (header_decomp 6 data) as [(ws & tail & Hl & Hw & ->)|[(ws & w & Hl & Hw & Hn & ->)|(ws & r & Hl & Hw & ->)]].
  3: { left. left. exists ws, r. split; [lia|]. auto. }
  2: { right. exists (bs "x " ++ join (repeat (bs "x") (5 - length ws)) ++ bs "- " ++ [c]).
       assert (Hjl : forall n, length (join (repeat (bs "x") n)) = (2 * n)%nat).
       { induction n as [|n IH]; [reflexivity|]. cbn [repeat]. rewrite join_cons, app_length. change (length (SP :: join (repeat (bs "x") n))) with (S (length (join (repeat (bs "x") n)))). rewrite IH. cbn; lia. }
       split; [rewrite !app_length, Hjl; cbn [length bs]; lia|].
       assert (E : (join ws ++ w) ++ bs "x " ++ join (repeat (bs "x") (5 - length ws)) ++ bs "- " ++ [c] =
                   line (ws ++ (w ++ bs "x") :: repeat (bs "x") (5 - length ws), []) ++ c :: []).
       { unfold line. cbn [fst snd]. assert (Hj : forall a b, join (a ++ b) = join a ++ join b) by (intros; unfold join; rewrite map_app, concat_app; reflexivity).
         rewrite Hj, join_cons, <- !app_assoc. reflexivity. }
       assert (Hxw : forall n, Forall word (repeat (bs "x") n)).
       { intros n. apply Forall_forall. intros x Hx. apply repeat_spec in Hx as ->. split; [discriminate|]. intros [H|[]]; discriminate. }
       unfold delivers. rewrite E, (line_complete t c); [eauto|exact Hc|]. split; [|split].
       - cbn [fst]. rewrite app_length. cbn [length]. rewrite repeat_length. lia.
       - cbn [fst]. apply Forall_app. split; [exact Hw|]. constructor; [|apply Hxw]. split; [destruct w; discriminate|].
         intros H. apply in_app_or in H as [H|[H|[]]]; [contradiction|discriminate].
       - intros []. }
  destruct tail as [|x tail].
  { right. exists (bs "- " ++ [c]). split; [cbn; lia|]. rewrite app_nil_r.
    replace (join ws ++ bs "- " ++ [c]) with (line (ws, []) ++ c :: []) by (unfold line; cbn [fst snd]; rewrite <- app_assoc; reflexivity).
    unfold delivers. rewrite (line_complete t c); [eauto|exact Hc|]. split; [exact Hl|]. split; [exact Hw|]. intros []. }
  destruct (N.eq_dec x SP) as [->|Hx]; [left; left; exists ws, tail; split; [lia|]; auto|].
  destruct tail as [|y tail].
  { destruct (N.eq_dec x DASH) as [->|Hxd].
    - right. exists [SP; c]. split; [cbn; lia|].
      replace ((join ws ++ [DASH]) ++ [SP; c]) with (line (ws, []) ++ c :: []) by (unfold line; cbn [fst snd]; rewrite <- !app_assoc; reflexivity).
      unfold delivers. rewrite (line_complete t c); [eauto|exact Hc|]. split; [exact Hl|]. split; [exact Hw|]. intros [].
    - destruct (N.eq_dec x RBR) as [->|Hxr].
      + left. right. exists ws, [RBR]. split; [exact Hl|]. split; [exact Hw|]. split; [reflexivity|]. right. split; [discriminate|].
        exists [], [], []. split; [constructor|]. split; [reflexivity|]. split; [apply bracket_safe_none; intros []|left; reflexivity].
      + right. exists (bs "x " ++ [c]). split; [cbn; lia|].
        apply (accepted_delivers t c _ (mk ((join ws ++ [x]) ++ bs "x " ++ [c]) (ends 0 ws) (Z.of_nat (length (join ws)) + 1)) (length (join ws ++ [x])) Hc).
        * exists ws, (x :: bs "x " ++ [c]). split; [exact Hl|]. split; [exact Hw|]. split; [rewrite <- app_assoc; reflexivity|]. split; [reflexivity|].
          right. right. exists [], (x :: bs "x " ++ [c]). split; [constructor|]. split; [reflexivity|]. split.
          { exists [x; 120%N], [c]. split; [reflexivity|]. split; [intros [H|[H|[]]]; [congruence|discriminate]|cbn; lia]. }
          split; [cbn; rewrite app_nil_r; reflexivity|]. right. split; [discriminate|]. split; [|cbn [i_text mk concat length]; lia].
          split; [apply bracket_safe_none; destruct Hcb as [Hc1 Hc2]; intros [H|[H|[H|[H|[]]]]]; first [congruence|discriminate]|].
          intros [q E]. change (x :: bs "x " ++ [c]) with ((x :: bs "x ") ++ [c]) in E. apply app_inj_tail in E as [_ E]. destruct Hcb; congruence.
        * cbn [i_text mk]. lia.
        * rewrite skipn_app_exact. apply in_or_app. right; left; reflexivity.
        * cbn [i_text mk]. rewrite app_length. cbn. lia. }
  destruct (N.eq_dec y SP) as [->|Hy].
  { destruct (N.eq_dec x DASH) as [->|Hxd].
    - right. exists [c]. split; [cbn; lia|].
      pose proof (line_accepted ws (tail ++ [c]) Hl Hw) as Hacc.
      replace ((join ws ++ DASH :: SP :: tail) ++ [c]) with (join ws ++ bs "- " ++ tail ++ [c]) by (rewrite <- app_assoc; reflexivity).
      apply (accepted_delivers t c _ _ (length (join ws ++ bs "- ")) Hc Hacc).
      + cbn [i_text mk]. lia.
      + rewrite app_assoc, skipn_app_exact. apply in_or_app. right; left; reflexivity.
      + cbn [i_text mk]. rewrite app_length. cbn. lia.
    - left. right. exists ws, (x :: SP :: tail). split; [exact Hl|]. split; [exact Hw|]. split; [reflexivity|]. left. exists x, tail. auto. }
  destruct (scan_decomp _ (x :: y :: tail) (Nat.le_refl _)) as [(els & tl & Hf & E & Ht)|Hstray].
  2: { left. right. exists ws, (x :: y :: tail). split; [exact Hl|]. split; [exact Hw|]. split; [reflexivity|]. right. split; [|exact Hstray].
       intros r E. injection E as _ E _. contradiction. }
  right. exists (bs "x " ++ [c]). split; [cbn; lia|]. rewrite E.
  apply (accepted_delivers t c _ (mk ((join ws ++ concat els ++ tl) ++ bs "x " ++ [c]) (ends 0 ws ++ el_ends (length (join ws)) els)
          (Z.of_nat (length (join ws) + length (concat els)) + 1)) (length (join ws ++ concat els ++ tl) + 1) Hc).
  - exists ws, (concat els ++ tl ++ bs "x " ++ [c]). split; [exact Hl|]. split; [exact Hw|]. split; [rewrite <- !app_assoc; reflexivity|]. split; [reflexivity|].
    right. right. exists els, (tl ++ bs "x " ++ [c]). split; [exact Hf|]. split; [reflexivity|]. split.
    { rewrite app_assoc, <- E.
      assert (Hin : In SP ((x :: y :: tail) ++ bs "x " ++ [c])) by (apply in_or_app; right; right; left; reflexivity).
      apply first_bracket in Hin as (a & b & Eab & Hna). exists a, b. split; [exact Eab|]. split; [exact Hna|].
      destruct a as [|a0 [|a1 a]]; cbn in Eab; [injection Eab as E1 _|injection Eab as _ E1 _|cbn; lia]; congruence. }
    split; [reflexivity|]. right. split; [destruct tl; discriminate|]. split; [|reflexivity]. split.
    + apply bracket_safe_app; [exact Ht|]. apply bracket_safe_none. destruct Hcb as [Hc1 Hc2]. intros [H|[H|[H|[]]]]; first [congruence|discriminate].
    + intros [q Eq]. rewrite !app_assoc in Eq. apply app_inj_tail in Eq as [_ Eq]. destruct Hcb; congruence.
  - cbn [i_text mk]. lia.
  - rewrite skipn_app. apply in_or_app. right.
    replace (length (join ws ++ concat els ++ tl) + 1 - length (join ws ++ concat els ++ tl))%nat with 1%nat by lia. cbn. auto.
  - cbn [i_text mk]. rewrite !app_length. lia.
Qed.

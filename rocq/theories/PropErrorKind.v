(** PropErrorKind.v -- C99: exactly which error Parse reports (without transport), and where. *)
From Coq Require Import ZifyBool ZifyNat ZifyN.
From Verif Require Import Base BaseFacts Spec MPriority MHelpers MTime MSData MMessage MTransport MParse LPriority LText LParse LRound LTransport LResult.

(** ** specification *)
(** every ']' comes just after a backslash or a double quote *)
Definition brackets_follow (x : bytes) : Prop := forall a b, x = a ++ RBR :: b -> exists a' c, a = a' ++ [c] /\ (c = BSL \/ c = QUO).

(** Errors of Parse(data, nil, eof): in the header, *)
Inductive header_error : bytes -> perr -> Prop :=
| HNoData : header_error [] (ErrParse 0 why_empty_field)
| HEmptyWord ws r : (length ws < 6)%nat -> Forall word ws -> header_error (join ws ++ SP :: r) ErrPos0
| HMissing ws w : (length ws < 6)%nat -> Forall word ws -> join ws ++ w <> [] -> ~ In SP w -> header_error (join ws ++ w) ErrPosNotFound.
(** in what follows the header of length [n]. *)
Inductive tail_error (n : nat) : bytes -> perr -> Prop :=
| TNothing : tail_error n [] (ErrParse n why_empty_field)
| TOneByte c : c <> DASH -> tail_error n [c] (ErrParse n why_empty_field)
| TSpace c r : tail_error n (SP :: c :: r) ErrPos0
| TNoSpace t : (2 <= length t)%nat -> ~ In SP t -> tail_error n t ErrPosNotFound
| TNotNil c r : c <> DASH -> c <> SP -> tail_error n (c :: SP :: r) (ErrParse n why_empty_sd)
| TBracket x c r : late_space (x ++ c :: RBR :: r) -> brackets_follow (x ++ [c]) -> c <> BSL -> c <> QUO -> c <> RBR ->
    tail_error n (x ++ c :: RBR :: r) (ErrParse (n + length x) why_expected)
| TTwoBrackets x r : late_space (x ++ RBR :: r) -> brackets_follow x -> (x = [] \/ exists y, x = y ++ [RBR]) -> tail_error n (x ++ RBR :: r) ErrPos0
| TUnfinished x : late_space (x ++ [BSL; RBR]) -> brackets_follow x -> tail_error n (x ++ [BSL; RBR]) ErrImpossible.

(** ** the header *)
Lemma header_loop_error p : forall data pre rest idx e, data = pre ++ rest -> data <> [] -> header_loop p data (length pre) idx = Val (inr e) ->
  exists ws tl, (length ws < p)%nat /\ Forall word ws /\ rest = join ws ++ tl /\ ((e = ErrPos0 /\ exists r, tl = SP :: r) \/ (e = ErrPosNotFound /\ ~ In SP tl)).
Proof.
  induction p as [|p IH]; intros data pre rest idx e Hd Hne H; [discriminate|]. cbn [header_loop] in H.
  destruct (Nat.eqb_spec (length data) 0) as [E|E]; [destruct data; [congruence|discriminate]|].
  rewrite Hd in H. rewrite go_from_val in H by (rewrite app_length; lia). rewrite skipn_app_exact in H. cbn [bind] in H.
  destruct (search_next_sep rest SP) as [e1|e1] eqn:Es.
  - apply search_inl in Es as (w & r & Er & Hlw & Hn & Hw). subst e1 rest.
    assert (Hd' : data = (pre ++ w ++ [SP]) ++ r) by (rewrite Hd, <- !app_assoc; reflexivity).
    rewrite <- Hd in H. replace (length pre + length w + 1)%nat with (length (pre ++ w ++ [SP])) in H by (rewrite !app_length; cbn; lia).
    destruct (IH data _ r _ e Hd' Hne H) as (ws & tl & Hl & Hf & -> & Hc). exists (w :: ws), tl. split; [cbn [length]; lia|]. split; [constructor; [split; assumption|exact Hf]|].
    split; [rewrite join_cons, <- app_assoc; reflexivity|exact Hc].
  - assert (e1 = e) by congruence. subst e1. exists [], rest. split; [cbn; lia|]. split; [constructor|]. split; [reflexivity|].
    apply search_inr in Es as [[-> Hn]|[-> (r & ->)]]; [right; auto|left; eauto].
Qed.

Lemma header_loop_fails p : forall data pre ws tl idx e, data = pre ++ join ws ++ tl -> data <> [] -> (length ws < p)%nat -> Forall word ws -> search_next_sep tl SP = inr e ->
  header_loop p data (length pre) idx = Val (inr e).
Proof.
  induction p as [|p IH]; intros data pre ws tl idx e Hd Hne Hl Hw Hs; [lia|]. cbn [header_loop].
  destruct (Nat.eqb_spec (length data) 0) as [E|E]; [destruct data; [congruence|discriminate]|].
  rewrite Hd. rewrite go_from_val by (rewrite app_length; lia). rewrite skipn_app_exact. cbn [bind].
  destruct ws as [|w ws].
  - change (join []) with (@nil N). cbn [app]. rewrite Hs. reflexivity.
  - pose proof (Forall_inv Hw) as Hw1. apply Forall_inv_tail in Hw. rewrite join_cons, <- app_assoc. cbn [app]. rewrite search_word by assumption.
    assert (Hd' : data = (pre ++ w ++ [SP]) ++ join ws ++ tl) by (rewrite Hd, join_cons, <- !app_assoc; reflexivity).
    replace (length pre + length w + 1)%nat with (length (pre ++ w ++ [SP])) by (rewrite !app_length; cbn; lia).
    replace (pre ++ w ++ SP :: join ws ++ tl) with data by (rewrite Hd', <- !app_assoc; reflexivity).
    apply (IH data _ ws tl); try assumption. cbn [length] in Hl. lia.
Qed.

Lemma in_rev_last {A} (y : list A) : y <> [] -> exists y0 c, y = y0 ++ [c].
Proof. intros H. destruct (exists_last H) as (y0 & c & ->). eauto. Qed.

(** ** structured data *)
(** the bracket after [p] is the first one that follows neither a backslash nor a double quote *)
Definition stray (p : bytes) : Prop := brackets_follow p /\ forall q c, p = q ++ [c] -> c <> BSL /\ c <> QUO.
Definition stray_error (n : nat) (p : bytes) (e : perr) : Prop :=
  ((p = [] \/ exists y, p = y ++ [RBR]) /\ e = ErrPos0) \/ (exists x c, p = x ++ [c] /\ c <> RBR /\ e = ErrParse (n + length x) why_expected).
(** where the loop starts an iteration *)
Definition turn (x : bytes) : Prop := brackets_follow x /\ (x = [] \/ exists y, x = y ++ [RBR]).

Lemma app_split_eq {A} (a : list A) : forall b x c d, a ++ b = c ++ x :: d -> (exists u, c = a ++ u /\ b = u ++ x :: d) \/ (exists v, a = c ++ x :: v /\ d = v ++ b).
Proof.
  induction a as [|y a IH]; intros b x [|z c] d E; cbn [app] in E.
  - left. exists []. split; [reflexivity|exact E].
  - left. exists (z :: c). split; [reflexivity|exact E].
  - injection E as -> E. right. exists a. split; [reflexivity|symmetry; exact E].
  - injection E as -> E. destruct (IH _ _ _ _ E) as [(u & -> & ->)|(v & -> & ->)]; [left; exists u|right; exists v]; split; reflexivity.
Qed.

Lemma follow_app x w : brackets_follow x -> ~ In RBR w -> brackets_follow (x ++ w).
Proof.
  intros Hx Hw a b E. destruct (app_split_eq x w RBR a b E) as [(u & _ & ->)|(v & -> & _)].
  - exfalso. apply Hw. apply in_or_app. right. left. reflexivity.
  - exact (Hx a v eq_refl).
Qed.

Lemma follow_bracket x c : brackets_follow (x ++ [c]) -> (c = BSL \/ c = QUO) -> brackets_follow ((x ++ [c]) ++ [RBR]).
Proof.
  intros Hx Hc a b E. destruct (app_split_eq _ _ _ _ _ E) as [(u & -> & Eu)|(v & Ev & _)].
  - destruct u as [|u0 u]; [|destruct u; discriminate]. rewrite app_nil_r. exists x, c. auto.
  - exact (Hx a v Ev).
Qed.

Lemma turn_next x w c : turn x -> ~ In RBR (w ++ [c]) -> (c = BSL \/ c = QUO) -> turn (x ++ (w ++ [c]) ++ [RBR]).
Proof.
  intros [Hx _] Hw Hc. split; [|right; exists (x ++ (w ++ [c])); rewrite <- !app_assoc; reflexivity].
  pose proof (follow_app x _ Hx Hw) as H. rewrite !app_assoc in *. apply follow_bracket; assumption.
Qed.

Lemma stray_here x w c : turn x -> ~ In RBR (w ++ [c]) -> c <> BSL -> c <> QUO -> stray (x ++ w ++ [c]).
Proof.
  intros [Hx _] Hw H1 H2. split; [apply follow_app; assumption|]. intros q d E. rewrite app_assoc in E. apply app_inj_tail in E as [_ <-]. auto.
Qed.

Lemma stray_turn x : turn x -> stray x.
Proof.
  intros [Hx H]. split; [exact Hx|]. intros q c ->. destruct H as [H|(y & H)]; [destruct q; discriminate|]. apply app_inj_tail in H as [_ ->]. split; discriminate.
Qed.

Lemma sd_loop_sound fuel : forall data pre x y begin idx e, data = pre ++ x ++ y -> turn x -> sd_loop fuel data (length pre + length x) begin idx = Val (SDFail e) ->
  (exists p r, x ++ y = p ++ RBR :: r /\ stray p /\ stray_error (length pre) p e) \/ (e = ErrImpossible /\ (y = [] \/ exists p, x ++ y = p ++ [BSL; RBR] /\ brackets_follow p)).
Proof.
  induction fuel as [|fuel IH]; intros data pre x y begin idx e Hd Hx H; [discriminate|]. cbn [sd_loop] in H.
  assert (Hlen : (length pre + length x)%nat = length (pre ++ x)) by (rewrite app_length; reflexivity).
  assert (Hd1 : data = (pre ++ x) ++ y) by (rewrite <- app_assoc; exact Hd).
  rewrite Hlen in H. rewrite Hd1 in H. rewrite go_from_val in H by (rewrite !app_length; lia). rewrite skipn_app_exact in H. cbn [bind] in H.
  destruct (Nat.eqb_spec (length y) 0) as [E|E].
  { assert (e = ErrImpossible) by congruence. right. split; [assumption|]. left. destruct y; [reflexivity|discriminate]. }
  destruct (search_next_sep y RBR) as [e1|e1] eqn:Es.
  - apply search_inl in Es as (w & r & -> & Hlw & Hn & Hw). destruct w as [|c w _] using rev_ind; [congruence|]. clear Hw.
    assert (Hat : go_at ((pre ++ x) ++ (w ++ [c]) ++ RBR :: r) (length (pre ++ x) + e1 - 1) = Val c).
    { replace ((pre ++ x) ++ (w ++ [c]) ++ RBR :: r) with (((pre ++ x) ++ w) ++ c :: RBR :: r) by (rewrite <- !app_assoc; reflexivity).
      replace (length (pre ++ x) + e1 - 1)%nat with (length ((pre ++ x) ++ w)) by (rewrite app_length in *; subst e1; rewrite app_length; cbn [length]; lia).
      apply go_at_app. }
    rewrite Hat in H. cbn [bind] in H.
    assert (Hnext : (length (pre ++ x) + e1 + 1 = length pre + length (x ++ (w ++ [c]) ++ [RBR]))%nat) by (subst e1; rewrite !app_length; cbn [length]; lia).
    assert (Hd2 : (pre ++ x) ++ (w ++ [c]) ++ RBR :: r = pre ++ (x ++ (w ++ [c]) ++ [RBR]) ++ r) by (rewrite <- !app_assoc; reflexivity).
    assert (Htl : (x ++ (w ++ [c]) ++ [RBR]) ++ r = x ++ (w ++ [c]) ++ RBR :: r) by (rewrite <- !app_assoc; reflexivity).
    destruct (N.eqb_spec c BSL) as [Hb|Hb].
    + rewrite Hnext in H. destruct (IH _ pre _ r _ _ e Hd2 (turn_next x w c Hx Hn (or_introl Hb)) H) as [Hl|(He & Hr)]; rewrite Htl in *.
      * left. exact Hl.
      * right. split; [exact He|]. right. destruct Hr as [->|Hr]; [|exact Hr]. exists (x ++ w). subst c. split; [rewrite <- !app_assoc; reflexivity|].
        apply follow_app; [apply Hx|]. intros Hin. apply Hn. apply in_or_app. left. exact Hin.
    + destruct (N.eqb_spec c QUO) as [Hq|Hq].
      * destruct (Nat.leb_spec (length ((pre ++ x) ++ (w ++ [c]) ++ RBR :: r)) (length (pre ++ x) + e1 + 1)) as [Hle|Hlt]; [discriminate|].
        rewrite Hnext in H. destruct (IH _ pre _ r _ _ e Hd2 (turn_next x w c Hx Hn (or_intror Hq)) H) as [Hl|(He & Hr)]; rewrite Htl in *.
        -- left. exact Hl.
        -- right. split; [exact He|]. right. destruct Hr as [->|Hr]; [|exact Hr]. exfalso. subst e1. rewrite !app_length in Hlt. cbn [length] in Hlt. lia.
      * left. exists (x ++ w ++ [c]), r. split; [rewrite <- !app_assoc; reflexivity|]. split; [apply stray_here; assumption|].
        right. exists (x ++ w), c. split; [rewrite app_assoc; reflexivity|]. split; [intros ->; apply Hn; apply in_or_app; right; left; reflexivity|].
        injection H as <-. f_equal. subst e1. rewrite !app_length. cbn [length]. lia.
  - apply search_inr in Es as [[-> Hn]|[-> (r & ->)]]; [discriminate|]. assert (e = ErrPos0) by congruence. subst e.
    left. exists x, r. split; [reflexivity|]. split; [apply stray_turn; exact Hx|]. left. split; [apply Hx|reflexivity].
Qed.

(** the loop does fail there *)
Lemma stray_where x w r p r' : turn x -> ~ In RBR w -> x ++ w ++ RBR :: r = p ++ RBR :: r' -> stray p ->
  (p = x ++ w /\ r' = r) \/ (exists v c q, p = (x ++ w ++ [RBR]) ++ v /\ r = v ++ RBR :: r' /\ w = q ++ [c] /\ (c = BSL \/ c = QUO)).
Proof.
  intros [Hx Ht] Hn E [Hp Hs]. rewrite app_assoc in E. destruct (app_split_eq (x ++ w) _ _ _ _ E) as [(u & -> & Eu)|(v & Ev & _)].
  - destruct u as [|u0 u]; cbn [app] in Eu.
    + left. split; [apply app_nil_r|congruence].
    + injection Eu as <- Er. right. destruct (Hp (x ++ w) u eq_refl) as (a' & c & Ea & Hc).
      destruct w as [|c' q _] using rev_ind.
      { rewrite app_nil_r in Ea. subst x. destruct Ht as [Ht|(y & Ht)]; [destruct a'; discriminate|]. apply app_inj_tail in Ht as [_ ->]. destruct Hc; discriminate. }
      rewrite app_assoc in Ea. apply app_inj_tail in Ea as [_ ->]. exists u, c, q. split; [rewrite <- !app_assoc; reflexivity|]. split; [exact Er|]. split; [reflexivity|exact Hc].
  - destruct (app_split_eq x w RBR p v Ev) as [(u & _ & ->)|(v' & -> & _)].
    + exfalso. apply Hn. apply in_or_app. right. left. reflexivity.
    + destruct (Hx p v' eq_refl) as (a' & c & -> & Hc). destruct (Hs a' c eq_refl) as [H1 H2]. destruct Hc; contradiction.
Qed.

Lemma search_found w r c : ~ In c w -> w <> [] -> search_next_sep (w ++ c :: r) c = inl (length w).
Proof. intros Hn Hne. unfold search_next_sep. rewrite index_byte_app_notin by exact Hn. destruct w; [congruence|reflexivity]. Qed.

(** one turn of the loop *)
Lemma sd_loop_turn fuel data pre x w c r begin idx : data = pre ++ x ++ (w ++ [c]) ++ RBR :: r -> ~ In RBR (w ++ [c]) ->
  sd_loop (S fuel) data (length pre + length x) begin idx =
    let t' := (length pre + length (x ++ (w ++ [c]) ++ [RBR]))%nat in
    if N.eqb c BSL then sd_loop fuel data t' begin idx
    else if N.eqb c QUO then if (length data <=? t')%nat then Val (SDReturn (idx ++ [t']) (-1)) else sd_loop fuel data t' t' (idx ++ [t'])
    else Val (SDFail (ErrParse (length pre + length (x ++ w)) why_expected)).
Proof.
  intros Hd Hn. cbn [sd_loop].
  assert (Hlen : (length pre + length x)%nat = length (pre ++ x)) by (rewrite app_length; reflexivity).
  assert (Hd1 : data = (pre ++ x) ++ (w ++ [c]) ++ RBR :: r) by (rewrite <- app_assoc; exact Hd).
  rewrite Hlen. rewrite Hd1 at 1. rewrite go_from_val by (rewrite !app_length; lia). rewrite skipn_app_exact. cbn [bind].
  destruct (Nat.eqb_spec (length ((w ++ [c]) ++ RBR :: r)) 0) as [E|_]; [rewrite !app_length in E; cbn in E; lia|].
  rewrite search_found by (try assumption; destruct w; discriminate).
  assert (Hat : go_at data (length (pre ++ x) + length (w ++ [c]) - 1) = Val c).
  { replace data with (((pre ++ x) ++ w) ++ c :: RBR :: r) by (rewrite Hd1, <- !app_assoc; reflexivity).
    replace (length (pre ++ x) + length (w ++ [c]) - 1)%nat with (length ((pre ++ x) ++ w)) by (rewrite !app_length; cbn [length]; lia).
    apply go_at_app. }
  rewrite Hat. cbn [bind].
  replace (length (pre ++ x) + length (w ++ [c]) + 1)%nat with (length pre + length (x ++ (w ++ [c]) ++ [RBR]))%nat by (rewrite !app_length; cbn [length]; lia).
  replace (length (pre ++ x) + length (w ++ [c]) - 1)%nat with (length pre + length (x ++ w))%nat by (rewrite !app_length; cbn [length]; lia).
  reflexivity.
Qed.

Lemma sd_loop_stray fuel : forall data pre x y begin idx p r e, data = pre ++ x ++ y -> turn x -> (length y < fuel)%nat ->
  x ++ y = p ++ RBR :: r -> stray p -> stray_error (length pre) p e -> sd_loop fuel data (length pre + length x) begin idx = Val (SDFail e).
Proof.
  induction fuel as [|fuel IH]; intros data pre x y begin idx p r e Hd Hx Hf E Hs He; [lia|].
  destruct (in_dec N.eq_dec RBR y) as [Hin|Hout].
  - apply first_bracket in Hin as (w & r0 & -> & Hn).
    destruct (stray_where x w r0 p r Hx Hn E Hs) as [(-> & ->)|(v & c & q & -> & -> & -> & Hc)].
    + destruct w as [|c w _] using rev_ind.
      * rewrite app_nil_r in *. cbn [app] in *. assert (He0 : e = ErrPos0).
        { destruct He as [(_ & He)|(x0 & c & -> & Hc & _)]; [exact He|]. destruct Hx as [_ [Hx|(z & Hx)]]; [destruct x0; discriminate|]. apply app_inj_tail in Hx as [_ ->]. congruence. }
        subst e. cbn [sd_loop]. replace (length pre + length x)%nat with (length (pre ++ x)) by (rewrite app_length; reflexivity).
        replace data with ((pre ++ x) ++ RBR :: r0) by (rewrite Hd, <- app_assoc; reflexivity).
        rewrite go_from_val by (rewrite !app_length; lia). rewrite skipn_app_exact. cbn [bind]. reflexivity.
      * destruct (proj2 Hs (x ++ w) c ltac:(rewrite app_assoc; reflexivity)) as [H1 H2].
        rewrite (sd_loop_turn fuel data pre x w c r0 begin idx Hd Hn). cbv zeta.
        apply N.eqb_neq in H1, H2. rewrite H1, H2. do 2 f_equal.
        destruct He as [([He|(z & He)] & _)|(x0 & c0 & E0 & Hc0 & ->)].
        -- destruct x; [destruct w; discriminate|discriminate].
        -- rewrite app_assoc in He. apply app_inj_tail in He as [_ ->]. exfalso. apply Hn. apply in_or_app. right. left. reflexivity.
        -- rewrite app_assoc in E0. apply app_inj_tail in E0 as [<- <-]. reflexivity.
    + rewrite (sd_loop_turn fuel data pre x q c (v ++ RBR :: r) begin idx Hd Hn). cbv zeta.
      assert (Hgo : forall b i, sd_loop fuel data (length pre + length (x ++ (q ++ [c]) ++ [RBR])) b i = Val (SDFail e)).
      { intros b i. apply (IH data pre _ (v ++ RBR :: r) b i ((x ++ (q ++ [c]) ++ [RBR]) ++ v) r).
        - rewrite Hd, <- !app_assoc. reflexivity.
        - apply turn_next; assumption.
        - rewrite !app_length in Hf. cbn [length] in Hf. rewrite !app_length in Hf. cbn [length] in Hf. rewrite !app_length. cbn [length]. lia.
        - rewrite <- !app_assoc. reflexivity.
        - exact Hs.
        - exact He. }
      rewrite !Hgo. destruct (N.eqb_spec c BSL); [reflexivity|]. destruct (N.eqb_spec c QUO); [|destruct Hc; contradiction].
      destruct (Nat.leb_spec (length data) (length pre + length (x ++ (q ++ [c]) ++ [RBR]))) as [Hle|_]; [|reflexivity].
      exfalso. rewrite Hd, !app_length in Hle. cbn [length] in Hle. rewrite !app_length in Hle. cbn [length] in Hle. lia.
  - exfalso. destruct (app_split_eq x y RBR p r E) as [(u & _ & ->)|(v & -> & _)]; [apply Hout, in_or_app; right; left; reflexivity|].
    destruct (proj1 Hx p v eq_refl) as (a & c & -> & Hc). destruct (proj2 Hs a c eq_refl). destruct Hc; contradiction.
Qed.

Lemma sd_loop_unfinished fuel : forall data pre x y begin idx p, data = pre ++ x ++ y -> turn x -> (length y < fuel)%nat ->
  x ++ y = p ++ [BSL; RBR] -> brackets_follow p -> y <> [] -> sd_loop fuel data (length pre + length x) begin idx = Val (SDFail ErrImpossible).
Proof.
  induction fuel as [|fuel IH]; intros data pre x y begin idx p Hd Hx Hf E Hp Hy; [lia|].
  assert (Hall : brackets_follow (x ++ y)).
  { rewrite E. change [BSL; RBR] with ([BSL] ++ [RBR]). rewrite app_assoc. apply follow_bracket; [|auto]. apply follow_app; [exact Hp|]. intros [H|[]]; discriminate. }
  assert (Hin : In RBR y).
  { destruct (in_rev_last y Hy) as (y0 & c & ->). replace (p ++ [BSL; RBR]) with ((p ++ [BSL]) ++ [RBR]) in E by (rewrite <- app_assoc; reflexivity).
    rewrite app_assoc in E. apply app_inj_tail in E as [_ ->]. apply in_or_app. right. left. reflexivity. }
  apply first_bracket in Hin as (w & r & -> & Hn).
  destruct (Hall (x ++ w) r ltac:(rewrite <- app_assoc; reflexivity)) as (a & c & Ea & Hc).
  destruct w as [|c' w _] using rev_ind.
  { exfalso. rewrite app_nil_r in Ea. subst x. destruct Hx as [_ [Hx|(z & Hx)]]; [destruct a; discriminate|]. apply app_inj_tail in Hx as [_ ->]. destruct Hc; discriminate. }
  rewrite app_assoc in Ea. apply app_inj_tail in Ea as [<- ->].
  rewrite (sd_loop_turn fuel data pre x w c r begin idx Hd Hn). cbv zeta.
  assert (Hd2 : data = pre ++ (x ++ (w ++ [c]) ++ [RBR]) ++ r) by (rewrite Hd, <- !app_assoc; reflexivity).
  destruct r as [|r0 r].
  - assert (c = BSL).
    { replace (x ++ (w ++ [c]) ++ [RBR]) with (((x ++ w) ++ [c]) ++ [RBR]) in E by (rewrite <- !app_assoc; reflexivity).
      replace (p ++ [BSL; RBR]) with ((p ++ [BSL]) ++ [RBR]) in E by (rewrite <- app_assoc; reflexivity).
      apply app_inj_tail in E as [E _]. apply app_inj_tail in E as [_ E]. exact E. }
    subst c. rewrite N.eqb_refl.
    destruct fuel as [|fuel]; [rewrite !app_length in Hf; cbn [length] in Hf; lia|]. cbn [sd_loop].
    rewrite Hd2, app_nil_r. rewrite go_from_val by (rewrite (app_length pre); lia). rewrite skipn_all2 by (rewrite (app_length pre); lia). reflexivity.
  - assert (Hgo : forall b i, sd_loop fuel data (length pre + length (x ++ (w ++ [c]) ++ [RBR])) b i = Val (SDFail ErrImpossible)).
    { intros b i. apply (IH data pre _ (r0 :: r) b i p).
      - exact Hd2.
      - apply turn_next; assumption.
      - rewrite !app_length in Hf. cbn [length] in *. lia.
      - rewrite <- E, <- !app_assoc. reflexivity.
      - exact Hp.
      - discriminate. }
    rewrite !Hgo. destruct (N.eqb_spec c BSL); [reflexivity|]. destruct (N.eqb_spec c QUO); [|destruct Hc; contradiction].
    destruct (Nat.leb_spec (length data) (length pre + length (x ++ (w ++ [c]) ++ [RBR]))) as [Hle|_]; [|reflexivity].
    exfalso. rewrite Hd2, !app_length in Hle. cbn [length] in Hle. lia.
Qed.

(** ** C99 *)
Lemma stray_error_tail n p r e : late_space (p ++ RBR :: r) -> stray p -> stray_error n p e -> tail_error n (p ++ RBR :: r) e.
Proof.
  intros Hls [Hp Hs] [(Hp0 & ->)|(x & c & -> & Hc & ->)]; [apply TTwoBrackets; assumption|].
  destruct (Hs x c eq_refl) as [H1 H2]. rewrite <- app_assoc in *. cbn [app] in *. apply TBracket; assumption.
Qed.

Lemma late_space_ge tail : late_space tail -> (2 <= length tail)%nat.
Proof. intros (x & y & -> & _ & H). rewrite app_length. cbn [length]. lia. Qed.

Lemma late_space_search tail : late_space tail -> exists e, search_next_sep tail SP = inl e /\ (e =? 1)%nat = false.
Proof.
  intros (x & y & -> & Hn & Hl). exists (length x). split; [apply search_found; [exact Hn|destruct x; [cbn in Hl; lia|discriminate]]|]. apply Nat.eqb_neq. lia.
Qed.

Lemma no_space_first (a a' : bytes) r r' : ~ In SP a -> ~ In SP a' -> a ++ SP :: r = a' ++ SP :: r' -> a = a' /\ r = r'.
Proof.
  intros Ha Ha' E. destruct (app_split_eq a _ _ _ _ E) as [(u & -> & Eu)|(v & -> & _)].
  - destruct u as [|u0 u]; cbn [app] in Eu; [rewrite app_nil_r; split; [reflexivity|congruence]|]. exfalso. injection Eu as <- _. apply Ha'. apply in_or_app. right. left. reflexivity.
  - exfalso. apply Ha. apply in_or_app. right. left. reflexivity.
Qed.

Section Tail.
  Variables (ws : list bytes) (eof : bool).
  Hypothesis Hl : length ws = 6%nat.
  Hypothesis Hw : Forall word ws.

  Lemma parse_late tail : late_space tail -> parse (join ws ++ tail) None eof =
    do o <- sd_loop (S (length (join ws ++ tail))) (join ws ++ tail) (length (join ws)) (length (join ws)) (ends 0 ws);
    match o with SDFail e => Val (zero_immutable, None, Some e) | SDReturn idx text => Val (mk (join ws ++ tail) idx text, None, None) end.
  Proof.
    intros Hls. rewrite (parse_head ws Hl Hw _ tail eof eq_refl). cbv zeta. pose proof (late_space_ge _ Hls) as Hge.
    destruct (Nat.eqb_spec (length tail) 0); [lia|]. destruct (Nat.eqb_spec (length tail) 1); [lia|].
    destruct (late_space_search _ Hls) as (e & -> & ->). reflexivity.
  Qed.

  Lemma turn_nil : turn [].
  Proof. split; [intros a b E; destruct a; discriminate|left; reflexivity]. Qed.

  Lemma tail_sound tail e : parse (join ws ++ tail) None eof = Val (zero_immutable, None, Some e) -> tail_error (length (join ws)) tail e.
  Proof.
    intros H. rewrite (parse_head ws Hl Hw _ tail eof eq_refl) in H. cbv zeta in H.
    destruct (Nat.eqb_spec (length tail) 0) as [E0|E0]; [destruct tail; [|discriminate]; injection H as <-; constructor|].
    destruct (Nat.eqb_spec (length tail) 1) as [E1|E1].
    { destruct tail as [|c [|]]; try discriminate. rewrite go_at_app in H. cbn [bind] in H. destruct (N.eqb_spec c DASH) as [|Hc]; cbn [negb] in H; [discriminate|].
      injection H as <-. apply TOneByte. exact Hc. }
    destruct (search_next_sep tail SP) as [e1|e1] eqn:Es.
    - apply search_inl in Es as (w & r & Et & Hlw & Hn & Hne). destruct (Nat.eqb_spec e1 1) as [E|E].
      + destruct w as [|c [|]]; cbn [length] in Hlw; try lia. rewrite Et in *. cbn [app] in *. rewrite go_at_app in H. cbn [bind] in H.
        destruct (N.eqb_spec c DASH) as [|Hc]; cbn [negb] in H; [discriminate|]. injection H as <-. apply TNotNil; [exact Hc|]. intros ->. apply Hn. left. reflexivity.
      + assert (Hls : late_space tail). { exists w, r. split; [exact Et|]. split; [exact Hn|]. destruct w as [|? [|]]; cbn [length] in *; [congruence|lia|lia]. }
        destruct (sd_loop (S (length (join ws ++ tail))) (join ws ++ tail) (length (join ws)) (length (join ws)) (ends 0 ws)) as [[idx text|e2]| |] eqn:El; try discriminate.
        cbn [bind] in H. injection H as <-. pose proof (sd_loop_sound (S (length (join ws ++ tail))) (join ws ++ tail) (join ws) [] tail (length (join ws)) (ends 0 ws) e2 eq_refl turn_nil) as Hso.
        cbn [length] in Hso. rewrite Nat.add_0_r in Hso. destruct (Hso El) as [(p & r' & Ep & Hs & He)|(-> & [Ht|(p & Ep & Hp)])].
        * cbn [app] in Ep. rewrite Ep in *. apply stray_error_tail; assumption.
        * rewrite Ht in E0. cbn in E0. congruence.
        * cbn [app] in Ep. rewrite Ep in *. apply TUnfinished; assumption.
    - assert (e1 = e) by congruence. subst e1. apply search_inr in Es as [[-> Hn]|[-> (r & Er)]].
      + apply TNoSpace; [lia|exact Hn].
      + rewrite Er in *. destruct r as [|c r]; [cbn in E1; lia|]. apply TSpace.
  Qed.

  Lemma late_fails tail e : late_space tail ->
    sd_loop (S (length (join ws ++ tail))) (join ws ++ tail) (length (join ws) + length (@nil N)) (length (join ws)) (ends 0 ws) = Val (SDFail e) ->
    parse (join ws ++ tail) None eof = Val (zero_immutable, None, Some e).
  Proof. intros Hls H. rewrite (parse_late tail Hls). cbn [length] in H. rewrite Nat.add_0_r in H. rewrite H. reflexivity. Qed.

  Lemma tail_complete tail e : tail_error (length (join ws)) tail e -> parse (join ws ++ tail) None eof = Val (zero_immutable, None, Some e).
  Proof.
    intros H.
    assert (Hfuel : (length tail < S (length (join ws ++ tail)))%nat) by (rewrite app_length; lia).
    destruct H as [|c Hc|c r|t Hlt Hn|c r Hc Hs|x c r Hls Hf H1 H2 H3|x r Hls Hf Hx|x Hls Hf].
    1-5: rewrite (parse_head ws Hl Hw _ _ eof eq_refl); cbv zeta.
    - reflexivity.
    - cbn [length Nat.eqb]. rewrite go_at_app. cbn [bind]. apply N.eqb_neq in Hc. rewrite Hc. reflexivity.
    - reflexivity.
    - destruct (Nat.eqb_spec (length t) 0); [lia|]. destruct (Nat.eqb_spec (length t) 1); [lia|].
      unfold search_next_sep. apply index_byte_none in Hn. rewrite Hn. reflexivity.
    - cbn [length Nat.eqb]. change (c :: SP :: r) with ([c] ++ SP :: r). rewrite search_found; [|intros [|[]]; congruence|discriminate].
      cbn [length Nat.eqb app]. rewrite go_at_app. cbn [bind]. apply N.eqb_neq in Hc. rewrite Hc. reflexivity.
    - apply late_fails; [exact Hls|]. apply (sd_loop_stray _ _ (join ws) [] (x ++ c :: RBR :: r) _ _ (x ++ [c]) r); [reflexivity|exact turn_nil|exact Hfuel| | |].
      + cbn [app]. rewrite <- app_assoc. reflexivity.
      + split; [exact Hf|]. intros q d E. apply app_inj_tail in E as [_ <-]. auto.
      + right. exists x, c. auto.
    - apply late_fails; [exact Hls|]. apply (sd_loop_stray _ _ (join ws) [] (x ++ RBR :: r) _ _ x r); [reflexivity|exact turn_nil|exact Hfuel|reflexivity| |left; auto].
      apply stray_turn. split; assumption.
    - apply late_fails; [exact Hls|]. apply (sd_loop_unfinished _ _ (join ws) [] (x ++ [BSL; RBR]) _ _ x); [reflexivity|exact turn_nil|exact Hfuel|reflexivity|exact Hf|].
      destruct x; discriminate.
  Qed.
End Tail.

Theorem C99_which_error : forall (data : bytes) (eof : bool) (e : perr),
  parse data None eof = Val (zero_immutable, None, Some e) <->
  (header_error data e \/ exists ws tail, length ws = 6%nat /\ Forall word ws /\ data = join ws ++ tail /\ tail_error (length (join ws)) tail e).
Proof.
  intros data eof e. split.
  - intros H. destruct data as [|c0 data0] eqn:Edata.
    { left. cbn in H. injection H as <-. constructor. }
    rewrite <- Edata in *. assert (Hne : data <> []) by congruence. clear Edata c0 data0.
    destruct (header_loop_inv 6 data [] data [] eq_refl Hne) as [(ws & tail & Hl & Hw & Hd)|(e1 & He & _ & _)].
    + right. exists ws, tail. split; [exact Hl|]. split; [exact Hw|]. split; [exact Hd|]. subst data. apply (tail_sound ws eof Hl Hw tail e H).
    + left. unfold parse, parse_body in H. cbn [length] in He. rewrite He in H. cbn [bind dispatch_error] in H. injection H as <-.
      destruct (header_loop_error 6 data [] data [] e1 eq_refl Hne He) as (ws & tl & Hl & Hw & Hd & [(-> & r & ->)|(-> & Hn)]); rewrite Hd in *.
      * apply HEmptyWord; assumption.
      * apply HMissing; assumption.
  - intros [H|(ws & tail & Hl & Hw & -> & H)]; [|apply tail_complete; assumption].
    assert (Hh : forall data' ws tl, data' = join ws ++ tl -> data' <> [] -> (length ws < 6)%nat -> Forall word ws -> search_next_sep tl SP = inr e ->
      parse data' None eof = Val (zero_immutable, None, Some e)).
    { intros data' ws tl Hd Hne Hl Hw Hs. unfold parse, parse_body. pose proof (header_loop_fails 6 data' [] ws tl [] e Hd Hne Hl Hw Hs) as Hf. cbn [length] in Hf. rewrite Hf. reflexivity. }
    destruct H as [|ws r Hl Hw|ws w Hl Hw Hne Hn].
    + reflexivity.
    + apply (Hh _ ws (SP :: r)); try assumption; [reflexivity|destruct (join ws); discriminate|reflexivity].
    + apply (Hh _ ws w); try assumption; [reflexivity|]. unfold search_next_sep. apply index_byte_none in Hn. rewrite Hn. reflexivity.
Qed.
Print Assumptions C99_which_error.

(** there is one answer *)
Theorem C99_one_error : forall data e e', (header_error data e \/ exists ws tail, length ws = 6%nat /\ Forall word ws /\ data = join ws ++ tail /\ tail_error (length (join ws)) tail e) ->
  (header_error data e' \/ exists ws tail, length ws = 6%nat /\ Forall word ws /\ data = join ws ++ tail /\ tail_error (length (join ws)) tail e') -> e = e'.
Proof. intros data e e' H H'. apply (C99_which_error data true) in H. apply (C99_which_error data true) in H'. rewrite H in H'. injection H' as ->. reflexivity. Qed.
Print Assumptions C99_one_error.

(** On a transport that ends its messages, the whole buffer is checked: the error is the one of the buffer without framing. *)
Theorem C99_delimited : forall t data eof e, (t = TZeroEnded \/ t = TLFEnded) -> data <> [] ->
  (parse data (Some t) eof = Val (zero_immutable, None, Some e) <-> parse data None eof = Val (zero_immutable, None, Some e)).
Proof.
  intros t data eof e Ht Hne. assert (Hc : exists c, delim t = Some c) by (destruct Ht as [-> | ->]; eexists; reflexivity). destruct Hc as (c & Hc). split; intros H.
  - destruct (parse_delim_inv t c data eof _ _ _ Hc H) as [(_ & _ & [(E & _)|[(e0 & H0 & E)|(m0 & _ & _ & E)]])|(m0 & Hacc & _ & Htx & pre & tl & _ & Hpre & Hz & _)]; try congruence.
    exfalso. cbn in Htx. lia.
  - rewrite (parse_delim_eq t c data eof Hc Hne). rewrite (proj2 (parse_body_core (Some t) eof data None None eof) _ _ H). reflexivity.
Qed.
Print Assumptions C99_delimited.

(** On RFC 5425 it is the error of the content of the first frame, and what follows the frame is handed back. *)
Theorem C99_frame : forall d more eof e, (20 <= length (encode TRFC5425 d ++ more))%nat -> (Z.of_nat (length (encode TRFC5425 d)) < 2 ^ 63)%Z ->
  (parse (encode TRFC5425 d ++ more) (Some TRFC5425) eof = Val (zero_immutable, Some more, Some e) <-> parse d None eof = Val (zero_immutable, None, Some e)).
Proof.
  intros d more eof e H20 Hfit. split; intros H.
  - destruct (parse_none_spec d eof) as (m0 & e0 & H0 & _). rewrite (parse_rfc_frame d more eof H20 Hfit _ _ H0) in H. injection H as -> ->. exact H0.
  - exact (parse_rfc_frame d more eof H20 Hfit _ _ H).
Qed.
Print Assumptions C99_frame.

(** each kind of error does happen *)
Definition err_of (s : bytes) : option perr := match parse s None true with Val (_, _, e) => e | _ => None end.
Theorem C99_nonvacuous :
  map err_of [bs ""; bs "<34>1  h a p m - t"; bs "<34>1 - h a p"; bs "<34>1 - h a p m "; bs "<34>1 - h a p m x"; bs "<34>1 - h a p m  t"; bs "<34>1 - h a p m [x]"; bs "<34>1 - h a p m x t";
              bs "<34>1 - h a p m [a b=""c"" ] t"; bs "<34>1 - h a p m [a b=""c""]] t"; bs "<34>1 - h a p m [a b=""c\]"; bs "<34>1 - h a p m [a b=""c""] ok"] =
  [Some (ErrParse 0 why_empty_field); Some ErrPos0; Some ErrPosNotFound; Some (ErrParse 16 why_empty_field); Some (ErrParse 16 why_empty_field); Some ErrPos0; Some ErrPosNotFound; Some (ErrParse 16 why_empty_sd);
   Some (ErrParse 24 why_expected); Some ErrPos0; Some ErrImpossible; None] /\
  tail_error 16 (bs "[a b=""c"" ] t") (ErrParse 24 why_expected).
Proof.
  split; [vm_compute; reflexivity|].
  change (bs "[a b=""c"" ] t") with (bs "[a b=""c""" ++ SP :: RBR :: bs " t"). change 24%nat with (16 + length (bs "[a b=""c"""))%nat. apply TBracket; try discriminate.
  - exists (bs "[a"), (bs "b=""c"" ] t"). split; [reflexivity|]. split; [vm_compute; intuition discriminate|vm_compute; lia].
  - intros a b E. exfalso. assert (H : In RBR (bs "[a b=""c""" ++ [SP])) by (rewrite E; apply in_or_app; right; left; reflexivity). vm_compute in H. intuition discriminate.
Qed.
Print Assumptions C99_nonvacuous.

(** PropRfc.v -- property C107: the packets produced conform to RFC 5424 (message.go:132-199, list.go:85-107,
    structured-data-encoder.go, tq.go, sd-unknown.go), exactly when.  The grammar is Rfc5424.v. *)
From Verif Require Import Base BaseFacts Spec Rfc5424 MPriority MHelpers MText MTime MSData MMessage MTransport MParse.
From Verif Require Import LPriority LText LSData LCalendar LTime LParse LTransport LRound LResult LLines.
From Verif Require Import PropPriority PropMessage PropTime PropSData PropSData2 PropParse PropStamp PropAnyPriority.
From Verif Require PropSyslog2.
From Coq Require Import ZifyBool ZifyNat ZifyN.
Ltac Zify.zify_post_hook ::= Z.to_euclidean_division_equations.

(** ** UTF-8 *)
Lemma utf8_nonempty b : utf8_char b -> b <> [].
Proof. intros H; inv H; discriminate. Qed.
Lemma utf8_high b : utf8_char b -> (exists a, b = [a] /\ (a <= 127)%N) \/ Forall (fun c => (128 <= c)%N) b.
Proof.
  intros H; inv H; [left; eauto|..]; right; unfold utf8_tail in *; repeat constructor; lia.
Qed.

Lemma utf8_255 r : ~ utf8_string (255%N :: r).
Proof.
  intros (cs & Hc & E). destruct cs as [|x cs]; [discriminate E|]. apply Forall_cons_iff in Hc as [Hx _].
  destruct Hx; cbn [concat app] in E; first [discriminate E|injection E as E _; lia].
Qed.

Lemma escaped_app a b : escaped (a ++ b) = escaped a ++ escaped b.
Proof. unfold escaped. apply flat_map_app. Qed.
Lemma escaped_high b : Forall (fun c => (128 <= c)%N) b -> escaped b = b.
Proof.
  induction 1 as [|c b Hc H IH]; [reflexivity|]. unfold escaped in *. cbn [flat_map]. rewrite IH.
  destruct (N.eqb_spec c QUO) as [->|]; [lia|]. destruct (N.eqb_spec c BSL) as [->|]; [lia|]. destruct (N.eqb_spec c RBR) as [->|]; [lia|]. reflexivity.
Qed.
Lemma unescape_high b r : Forall (fun c => (128 <= c)%N) b -> unescape (b ++ r) = b ++ unescape r.
Proof.
  induction 1 as [|c b Hc H IH]; [reflexivity|]. cbn [app unescape]. rewrite IH. destruct (N.eqb_spec c BSL) as [->|]; [lia|reflexivity].
Qed.

(** a value written with its escapes is a PARAM-VALUE exactly when it is UTF-8 *)
Lemma escaped_value_iff v : rfc_param_value (escaped v) <-> utf8_string v.
Proof.
  split.
  - intros (cs & Hc & E). assert (U : v = unescape (concat cs)). { rewrite <- E, <- escape_eq, unescape_escape. reflexivity. }
    clear E. subst v. induction Hc as [|c cs Hc _ (us & Hu & IH)]; [exists []; split; [constructor|reflexivity]|]. cbn [concat].
    destruct Hc as [(Hu1 & N1 & N2 & N3)|Hc].
    + exists (c :: us). split; [constructor; assumption|]. cbn [concat]. rewrite <- IH. destruct (utf8_high c Hu1) as [(a & -> & Ha)|Hh]; [|apply unescape_high, Hh].
      cbn [app unescape]. destruct (N.eqb_spec a BSL) as [->|]; [congruence|reflexivity].
    + assert (K : exists d, c = [BSL; d] /\ (d <= 127)%N). { destruct Hc as [-> |[-> | ->]]; eexists; (split; [reflexivity|lia]). }
      destruct K as (d & -> & Hd). exists ([d] :: us). split; [constructor; [constructor; exact Hd|exact Hu]|]. cbn [concat app unescape]. rewrite <- IH. reflexivity.
  - intros (cs & Hc & ->). induction Hc as [|c cs Hc _ (us & Hu & IH)]; [exists []; split; [constructor|reflexivity]|]. cbn [concat]. rewrite escaped_app, IH.
    exists (escaped c :: us). split; [|reflexivity]. constructor; [|exact Hu]. destruct (utf8_high c Hc) as [(a & -> & Ha)|Hh].
    + unfold escaped. cbn [flat_map]. rewrite app_nil_r. destruct (N.eqb_spec a QUO) as [->|]; [right; left; reflexivity|].
      destruct (N.eqb_spec a BSL) as [->|]; [right; right; left; reflexivity|]. destruct (N.eqb_spec a RBR) as [->|]; [right; right; right; reflexivity|].
      left. split; [exact Hc|]. split; [|split]; intros K; injection K as ->; contradiction.
    + rewrite (escaped_high c Hh). left. split; [exact Hc|]. repeat split; intros ->; inv Hh; lia.
Qed.

Lemma well_high b r : Forall (fun c => (128 <= c)%N) b -> well_escaped r -> well_escaped (b ++ r).
Proof. intros H Hr. induction H as [|c b Hc H IH]; [exact Hr|]. cbn [app]. apply WE_plain; [| | |exact IH]; intros ->; lia. Qed.
Lemma rfc_value_well v : rfc_param_value v -> well_escaped v.
Proof.
  intros (cs & Hc & ->). induction Hc as [|c cs Hc _ IH]; [constructor|]. cbn [concat].
  destruct Hc as [(Hu & N1 & N2 & N3)|[-> |[-> | ->]]]; [|cbn [app]; apply WE_pair, IH..].
  destruct (utf8_high c Hu) as [(a & -> & Ha)|Hh]; [|apply well_high; assumption]. cbn [app]. apply WE_plain; [| | |exact IH]; congruence.
Qed.

Lemma rfc_name_loose n : rfc_sd_name n -> n <> [] /\ sd_name n.
Proof.
  intros [Hl H]. split; [intros ->; cbn in Hl; lia|]. intros c Hc. destruct (H c Hc) as (A & B & C & D). unfold sd_name_byte. repeat split; lia.
Qed.

(** ** elements made of names and values *)
(** [e] is the element with the name [id] and the parameters [ps]; the names have no byte that ends a
    name, the values no bare quote or bracket *)
Definition element (e id : bytes) (ps : list (bytes * bytes)) : Prop :=
  e = bs "[" ++ id ++ concat (map (fun p => param_text (1%nat, fst p, snd p)) ps) ++ bs "]" /\ sd_name id /\ Forall param_ok ps.

Lemma name_cut k : forall k' a b c c', sd_name k -> sd_name k' -> ~ sd_name_byte c -> ~ sd_name_byte c' -> k ++ c :: a = k' ++ c' :: b -> k = k' /\ c = c' /\ a = b.
Proof.
  induction k as [|x k IH]; intros [|x' k'] a b c c' Hk Hk' Hc Hc' E.
  - injection E as -> ->. auto.
  - injection E as -> _. exfalso. apply Hc, Hk'. left. reflexivity.
  - injection E as -> _. exfalso. apply Hc', Hk. left. reflexivity.
  - injection E as -> E. destruct (IH k' a b c c') as (-> & -> & ->); auto; intros d Hd; [apply Hk|apply Hk']; right; exact Hd.
Qed.

Lemma params_cut ps : forall ps' r r', Forall param_ok ps -> Forall param_ok ps' ->
  concat (map (fun p => param_text (1%nat, fst p, snd p)) ps) ++ RBR :: r = concat (map (fun p => param_text (1%nat, fst p, snd p)) ps') ++ RBR :: r' ->
  ps = ps' /\ r = r'.
Proof.
  induction ps as [|[k v] ps IH]; intros [|[k' v'] ps'] r r' H H' E.
  - injection E as ->. auto.
  - discriminate E.
  - discriminate E.
  - apply Forall_cons_iff in H as [[Hk Hv] H4]. apply Forall_cons_iff in H' as [[Hk' Hv'] H5]. cbn [map concat fst snd] in E, Hk, Hv, Hk', Hv'. rewrite !param_text_eq in E. cbn [repeat app] in E. injection E as E.
    rewrite <- !app_assoc in E. cbn [app] in E.
    apply name_cut in E as (-> & _ & E); [|assumption..|intros (? & ? & ? & ? & ?); lia|intros (? & ? & ? & ? & ?); lia].
    injection E as E. rewrite <- !app_assoc in E. cbn [app] in E.
    destruct (C59_value_unique v v' _ _ Hv Hv' E) as [-> E']. destruct (IH ps' r r' H4 H5 E') as [-> ->]. auto.
Qed.

Lemma element_cut e id ps e' id' ps' r r' : element e id ps -> element e' id' ps' -> e ++ r = e' ++ r' -> id = id' /\ ps = ps' /\ r = r' /\ e = e'.
Proof.
  intros (-> & Hi & Hp) (-> & Hi' & Hp') E. change (bs "[") with [LBR] in *. change (bs "]") with [RBR] in *. cbn [app] in E. apply (f_equal (@tl N)) in E. cbn [tl] in E.
  rewrite <- !app_assoc in E. cbn [app] in E.
  assert (K : forall qs t, exists c q, concat (map (fun p => param_text (1%nat, fst p, snd p)) qs) ++ RBR :: t = c :: q /\ ~ sd_name_byte c).
  { intros [|[k v] qs] t; [exists RBR, t; split; [reflexivity|intros (? & ? & ? & ? & ?); lia]|]. cbn [map concat fst snd]. rewrite param_text_eq. cbn [repeat app].
    eexists; eexists; split; [reflexivity|]. intros (? & ? & ? & ? & ?); lia. }
  destruct (K ps r) as (c & q & Eq & Hc). destruct (K ps' r') as (c' & q' & Eq' & Hc'). pose proof E as E0. rewrite Eq, Eq' in E0.
  apply name_cut in E0 as (-> & -> & ->); try assumption. rewrite <- Eq' in Eq. destruct (params_cut _ _ _ _ Hp Hp' Eq) as [-> ->]. auto.
Qed.

Lemma rfc_element_iff e id ps : element e id ps ->
  (rfc_element e <-> rfc_sd_name id /\ Forall (fun p => rfc_sd_name (fst p) /\ rfc_param_value (snd p)) ps).
Proof.
  intros He. split.
  - intros (id' & bs' & -> & Hi & Hb).
    assert (K : exists ps', concat (map (fun p => bs " " ++ p) bs') = concat (map (fun p => param_text (1%nat, fst p, snd p)) ps') /\
      Forall (fun p => rfc_sd_name (fst p) /\ rfc_param_value (snd p)) ps').
    { clear - Hb. induction Hb as [|b l (k & v & -> & Hk & Hv) _ (ps' & E & IH)]; [exists []; split; [reflexivity|constructor]|].
      exists ((k, v) :: ps'). split; [|constructor; [split; assumption|exact IH]]. cbn [map concat]. rewrite E. reflexivity. }
    destruct K as (ps' & E & Hp). rewrite E in He.
    assert (He' : element (bs "[" ++ id' ++ concat (map (fun p => param_text (1%nat, fst p, snd p)) ps') ++ bs "]") id' ps').
    { split; [reflexivity|]. split; [apply rfc_name_loose, Hi|]. eapply Forall_impl; [|exact Hp]. intros p [A B]. split; [apply rfc_name_loose, A|apply rfc_value_well, B]. }
    destruct (element_cut _ _ _ _ _ _ [] [] He He' eq_refl) as (-> & -> & _). split; assumption.
  - intros [Hi Hp]. destruct He as (-> & _ & _). exists id, (map (fun p => fst p ++ bs "=""" ++ snd p ++ bs """") ps). split; [|split; [exact Hi|]].
    + do 2 f_equal. f_equal. rewrite map_map. reflexivity.
    + apply Forall_map. eapply Forall_impl; [|exact Hp]. intros p [A B]. exists (fst p), (snd p). auto.
Qed.

Lemma rfc_element_parts e : rfc_element e -> exists id ps, element e id ps.
Proof.
  intros (id' & bs' & -> & Hi & Hb).
  assert (K : exists ps', concat (map (fun p => bs " " ++ p) bs') = concat (map (fun p => param_text (1%nat, fst p, snd p)) ps') /\ Forall param_ok ps').
  { clear - Hb. induction Hb as [|b l (k & v & -> & Hk & Hv) _ (ps' & E & IH)]; [exists []; split; [reflexivity|constructor]|].
    exists ((k, v) :: ps'). split; [|constructor; [split; [apply rfc_name_loose, Hk|apply rfc_value_well, Hv]|exact IH]]. cbn [map concat]. rewrite E. reflexivity. }
  destruct K as (ps' & E & Hp). rewrite E. exists id', ps'. split; [reflexivity|]. split; [apply rfc_name_loose, Hi|exact Hp].
Qed.

(** ** the time stamp *)
Lemma dec_zeros k l : decimal_value (repeat 48%N k ++ l) = decimal_value l.
Proof. induction k as [|k IH]; [reflexivity|]. cbn [repeat app]. unfold decimal_value in *. cbn [fold_left]. exact IH. Qed.
Lemma dec_utoa n : decimal_value (utoa n) = Z.of_N n.
Proof.
  rewrite <- (utoa_value n). pose proof (utoa_digits n) as H. unfold decimal_value. generalize 0%Z as acc. induction (utoa n) as [|c l IH]; intros acc; [reflexivity|].
  apply Forall_cons_iff in H as [Hc Hl]. cbn [fold_left digits_value]. rewrite IH by exact Hl. apply is_digit_spec in Hc. unfold digits_value. f_equal. lia.
Qed.
Lemma int_digits x w : (0 <= x)%Z -> all_digits (append_int x w) /\ decimal_value (append_int x w) = x.
Proof.
  intros Hx. unfold append_int. destruct (Z.ltb_spec x 0) as [|_]; [lia|]. cbn [app]. split.
  - intros c Hc. apply in_app_or in Hc as [Hc|Hc]; [apply repeat_spec in Hc as ->; lia|]. pose proof (utoa_digits (Z.to_N (Z.abs x))) as H. rewrite Forall_forall in H. apply is_digit_spec, H, Hc.
  - rewrite dec_zeros, dec_utoa. lia.
Qed.
Lemma int_number2 lo hi x : (0 <= lo)%Z -> (lo <= x <= hi)%Z -> (hi <= 99)%Z -> rfc_number 2 lo hi (append_int x 2).
Proof. intros H1 H2 H3. destruct (int_digits x 2) as [A B]; [lia|]. split; [rewrite append_int_2 by lia; reflexivity|]. split; [exact A|]. rewrite B. exact H2. Qed.

Lemma digits_cut a : forall a' c c' r r', all_digits a -> all_digits a' -> ~ (48 <= c <= 57)%N -> ~ (48 <= c' <= 57)%N -> a ++ c :: r = a' ++ c' :: r' -> a = a' /\ c = c' /\ r = r'.
Proof.
  induction a as [|x a IH]; intros [|x' a'] c c' r r' Ha Ha' Hc Hc' E.
  - injection E as -> ->. auto.
  - injection E as -> _. exfalso. apply Hc, Ha'. left. reflexivity.
  - injection E as -> _. exfalso. apply Hc', Ha. left. reflexivity.
  - injection E as -> E. destruct (IH a' c c' r r') as (-> & -> & ->); auto; intros d Hd; [apply Ha|apply Ha']; right; exact Hd.
Qed.

Lemma frac_shape n : format_frac n = [] \/ rfc_secfrac (format_frac n).
Proof.
  unfold format_frac. pose proof (trim_digits _ (nano_digits_all n)) as Hd. destruct (trim_zeros_spec (nano_digits n)) as [k Hk].
  assert (Hl : (length (trim_zeros (nano_digits n)) <= 6)%nat). { apply (f_equal (@length N)) in Hk. rewrite app_length in Hk. change (length (nano_digits n)) with 6%nat in Hk. lia. }
  destruct (trim_zeros (nano_digits n)) as [|x ds]; [left; reflexivity|right]. exists (x :: ds). split; [reflexivity|]. split; [cbn [length] in *; lia|].
  intros c Hc. rewrite Forall_forall in Hd. apply is_digit_spec, Hd, Hc.
Qed.

(** the first byte of an offset is no digit and no dot *)
Lemma zone_shape off : exists c r, format_zone off = c :: r /\ ~ (48 <= c <= 57)%N /\ c <> 46%N.
Proof.
  unfold format_zone. destruct (off =? 0)%Z; [exists 90%N, []; split; [reflexivity|lia]|]. destruct (_ <? 0)%Z; [exists 45%N|exists 43%N]; eexists; (split; [reflexivity|lia]).
Qed.
Lemma offset_shape z : rfc_offset z -> exists c r, z = c :: r /\ ~ (48 <= c <= 57)%N /\ c <> 46%N.
Proof.
  intros [-> |(s & h & m & -> & [-> | ->] & _)]; [exists 90%N|exists 43%N|exists 45%N]; eexists; (split; [reflexivity|lia]).
Qed.
Lemma frac_cut f f' z z' : (f = [] \/ rfc_secfrac f) -> (f' = [] \/ rfc_secfrac f') ->
  (exists c r, z = c :: r /\ ~ (48 <= c <= 57)%N /\ c <> 46%N) -> (exists c r, z' = c :: r /\ ~ (48 <= c <= 57)%N /\ c <> 46%N) -> f ++ z = f' ++ z' -> f = f' /\ z = z'.
Proof.
  intros Hf Hf' (c & r & -> & Hc & Hc1) (c' & r' & -> & Hc' & Hc1') E. destruct Hf as [-> |(d & -> & _ & Hd)], Hf' as [-> |(d' & -> & _ & Hd')]; cbn [app] in E.
  - auto.
  - injection E as -> _. congruence.
  - injection E as <- _. congruence.
  - change (bs ".") with [46%N] in *. cbn [app] in E. injection E as E. apply digits_cut in E as (-> & -> & ->); auto.
Qed.

Lemma zone_iff off : rfc_offset (format_zone off) <-> (- 86400 < off < 86400)%Z.
Proof.
  unfold format_zone. destruct (Z.eqb_spec off 0) as [->|H0]; [split; [lia|intros _; left; reflexivity]|].
  set (q := Z.abs (Z.quot off 60)). assert (Hq : (0 <= q)%Z) by lia. pose proof (int_digits (q / 60) 2 ltac:(lia)) as [Da Va]. pose proof (int_digits (q mod 60) 2 ltac:(lia)) as [Db Vb].
  assert (Hr : (q / 60 <= 23)%Z <-> (- 86400 < off < 86400)%Z) by (subst q; lia).
  rewrite <- Hr. split.
  - intros [E|(s & h & m & E & Hs & (Lh & Dh & Vh) & _)]; [destruct (_ <? 0)%Z in E; discriminate E|].
    assert (K : append_int (q / 60) 2 ++ bs ":" ++ append_int (q mod 60) 2 = h ++ bs ":" ++ m).
    { destruct (_ <? 0)%Z in E; destruct Hs as [-> | ->]; cbn [app bs] in E |- *; apply (f_equal (@tl N)) in E; exact E. }
    change (bs ":") with [58%N] in K. cbn [app] in K. apply digits_cut in K as (K & _ & _); [|assumption..|lia|lia]. rewrite <- K, Va in Vh. lia.
  - intros H. right. exists (if (Z.quot off 60 <? 0)%Z then bs "-" else bs "+"), (append_int (q / 60) 2), (append_int (q mod 60) 2).
    split; [reflexivity|]. split; [destruct (_ <? 0)%Z; auto|]. split; apply int_number2; lia.
Qed.

Lemma last_day_days_in y m : last_day y m = days_in m y.
Proof. unfold last_day, days_in, is_leap. cbn [existsb]. rewrite !orb_false_r, !orb_assoc. reflexivity. Qed.

Lemma civil_ranges t : let c := civil_of t in
  (1 <= c_month c <= 12 /\ 1 <= c_day c <= days_in (c_month c) (c_year c) /\ 0 <= c_hour c <= 23 /\ 0 <= c_min c <= 59 /\ 0 <= c_sec c <= 59)%Z.
Proof.
  cbn zeta. unfold civil_of. pose proof (civil_from_days_ok ((t_sec t + t_off t) / 86400)) as Hc.
  destruct (civil_from_days ((t_sec t + t_off t) / 86400)) as [[y m] d]. cbn [c_year c_month c_day c_hour c_min c_sec].
  destruct Hc as (_ & Hm2 & Hd). lia.
Qed.
Lemma civil_off t : c_off (civil_of t) = t_off t.
Proof. unfold civil_of. destruct (civil_from_days _) as [[? ?] ?]. reflexivity. Qed.
Lemma days_in_bound m y : (28 <= days_in m y <= 31)%Z.
Proof. unfold days_in. destruct (m =? 2)%Z; [destruct (is_leap y); lia|]. destruct (_ || _); lia. Qed.

(** Format writes an RFC 5424 time stamp exactly when the year has at most four digits and the zone is
    less than a day away from UTC *)
Theorem C107_time_iff : forall t, rfc_timestamp (time_format t) <-> (0 <= c_year (civil_of t) <= 9999 /\ - 86400 < t_off t < 86400)%Z.
Proof.
  intros t. unfold time_format, format_civil. rewrite <- (civil_off t). pose proof (civil_ranges t) as R. cbn zeta in R. set (c := civil_of t) in *. clearbody c.
  destruct R as (Rm & Rd & Rh & Ri & Rs). pose proof (days_in_bound (c_month c) (c_year c)) as Db. split.
  - intros [E|(y & mo & d & h & mi & s & f & z & E & (Ly & Dy & Vy) & (Lm & Dm & Vm) & (Ld & Dd & Vd) & (Lh & Dh & Vh) & (Li & Di & Vi) & (Ls & Ds & Vs) & Hf & Hz)].
    { exfalso. apply (f_equal (@length N)) in E. rewrite !app_length in E. cbn [length bs] in E. lia. }
    destruct (Z.ltb_spec (c_year c) 0) as [Hn|Hn].
    { exfalso. unfold append_int at 1 in E. rewrite (proj2 (Z.ltb_lt _ _) Hn) in E. destruct y as [|y0 y]; [cbn in Ly; lia|]. injection E as <- _. specialize (Dy 45%N (or_introl eq_refl)). lia. }
    destruct (int_digits (c_year c) 4 Hn) as [Ay By]. 
    change (bs "-") with [45%N] in E. change (bs "T") with [84%N] in E. change (bs ":") with [58%N] in E. cbn [app] in E.
    apply digits_cut in E as (Ey & _ & E); [|assumption|assumption|lia|lia].
    apply digits_cut in E as (_ & _ & E); [|apply int_digits; lia|assumption|lia|lia].
    apply digits_cut in E as (_ & _ & E); [|apply int_digits; lia|assumption|lia|lia].
    apply digits_cut in E as (_ & _ & E); [|apply int_digits; lia|assumption|lia|lia].
    apply digits_cut in E as (_ & _ & E); [|apply int_digits; lia|assumption|lia|lia].
    assert (E' : append_int (c_sec c) 2 = s /\ format_frac (c_nsec c) ++ format_zone (c_off c) = f ++ z).
    { rewrite append_int_2 in E |- * by lia. destruct s as [|s1 [|s2 [|]]]; try discriminate Ls. cbn [app] in E. injection E as E1 E2 E. rewrite E1, E2. auto. }
    destruct E' as [_ E']. apply frac_cut in E' as [_ Ez]; [|apply frac_shape|exact Hf|apply zone_shape|apply offset_shape, Hz].
    split; [rewrite <- Ey, By in Vy; lia|]. apply zone_iff. rewrite Ez. exact Hz.
  - intros [Hy Ho]. right. destruct (int_digits (c_year c) 4 ltac:(lia)) as [Ay By]. destruct (int_digits (c_month c) 2 ltac:(lia)) as [Am Bm].
    exists (append_int (c_year c) 4), (append_int (c_month c) 2), (append_int (c_day c) 2), (append_int (c_hour c) 2), (append_int (c_min c) 2), (append_int (c_sec c) 2), (format_frac (c_nsec c)), (format_zone (c_off c)).
    split; [reflexivity|]. split; [split; [rewrite append_int_4 by lia; reflexivity|split; [exact Ay|rewrite By; exact Hy]]|].
    split; [apply int_number2; lia|]. split; [rewrite By, Bm, last_day_days_in; apply int_number2; lia|]. do 3 (split; [apply int_number2; lia|]). split; [apply frac_shape|apply zone_iff, Ho].
Qed.

(** ** the priority *)
Lemma marshal_ends p : exists x, priority_marshal p = x ++ [GT; C1].
Proof.
  unfold priority_marshal. destruct (_ <? _)%N; [eexists [LT; _; _; _]; reflexivity|]. destruct (_ <? _)%N; [eexists [LT; _; _]; reflexivity|eexists [LT; _]; reflexivity].
Qed.

(** the text of a priority starts an RFC 5424 message exactly when it is a number up to 191 *)
Theorem C107_priority_iff : forall p,
  (exists pri ver, priority_marshal p = pri ++ ver /\ rfc_pri pri /\ rfc_version ver) <-> has_number p /\ (number p <= 191)%Z.
Proof.
  intros p. split.
  - intros (pri & ver & E & (d & -> & Ld & Dd & Vd) & (Lv & Dv & Hv)). destruct (marshal_ends p) as [x Ex].
    assert (V : ver = [49%N]).
    { rewrite Ex in E. apply (f_equal (@rev N)) in E. rewrite !rev_app_distr in E. cbn [rev app] in E.
      assert (Dr : all_digits (rev ver)) by (intros c Hc; apply Dv; rewrite in_rev; exact Hc). rewrite <- (rev_involutive ver).
      destruct (rev ver) as [|v1 [|v2 l]] eqn:Er; [|cbn [app] in E; injection E as <- _; reflexivity|].
      - apply (f_equal (@length N)) in Er. rewrite rev_length in Er. cbn [length] in Er. lia.
      - cbn [app] in E. injection E as _ <- _. specialize (Dr 62%N (or_intror (or_introl eq_refl))). lia. }
    subst ver. assert (T : priority_text d (priority_marshal p)) by (split; [rewrite E, <- !app_assoc; reflexivity|split; assumption]).
    pose proof (proj1 (C02_unmarshal_exact 0 _) d T) as U.
    assert (Hn : has_number p). { destruct (Z.leb_spec 0 p) as [Hp|Hp]; [left; exact Hp|]. destruct (Z.eq_dec (p mod 100) 0) as [H0|H0]; [right; exact H0|].
      exfalso. rewrite (proj2 (C102_any_priority p 0%Z)) in U; [discriminate U|unfold has_number; lia]. }
    split; [exact Hn|]. rewrite (proj2 (proj1 (C102_any_priority p 0%Z) Hn)) in U. injection U as ->. exact Vd.
  - intros [Hn H]. pose proof (number_range p) as R. exists (bs "<" ++ decimal (Z.to_N (number p)) ++ bs ">"), (bs "1").
    split; [rewrite (proj1 (proj1 (C102_any_priority p 0%Z) Hn)), <- !app_assoc; reflexivity|].
    split; [|split; [cbn [length bs]; lia|split; [intros c [<-|[]]; cbn; lia|cbn; lia]]].
    rewrite decimal_utoa. exists (utoa (Z.to_N (number p))). split; [reflexivity|]. split; [|split].
    + split; [pose proof (utoa_nonnil (Z.to_N (number p))); destruct (utoa _); [congruence|cbn [length]; lia]|]. apply PropSyslog2.utoa_length; lia.
    + intros c Hc. pose proof (utoa_digits (Z.to_N (number p))) as D. rewrite Forall_forall in D. apply is_digit_spec, D, Hc.
    + rewrite dec_utoa. lia.
Qed.

(** ** whole messages *)
Lemma rfc_field_word n b : rfc_field n b -> word b.
Proof. intros [-> |[Hl H]]; [split; [discriminate|intros [|[]]; discriminate]|]. split; [intros ->; cbn in Hl; lia|]. intros Hi. apply H in Hi. lia. Qed.
Lemma rfc_pri_word p v : rfc_pri p -> rfc_version v -> word (p ++ v).
Proof.
  intros (d & -> & _ & Hd & _) (_ & Hv & _). split; [discriminate|]. intros Hi. repeat (apply in_app_or in Hi as [Hi|Hi]).
  - destruct Hi as [|[]]; discriminate.
  - apply Hd in Hi. lia.
  - destruct Hi as [|[]]; discriminate.
  - apply Hv in Hi. lia.
Qed.
Lemma rfc_number_nospace w lo hi b : rfc_number w lo hi b -> ~ In SP b.
Proof. intros (_ & H & _) Hi. apply H in Hi. lia. Qed.
Lemma rfc_timestamp_word b : rfc_timestamp b -> word b.
Proof.
  intros [-> |(y & mo & d & h & mi & s & f & z & -> & Hy & Hm & Hd & Hh & Hi & Hs & Hf & Hz)]; [split; [discriminate|intros [|[]]; discriminate]|].
  split; [destruct y; discriminate|]. intros K.
  assert (Kf : ~ In SP f). { destruct Hf as [-> |(ds & -> & _ & Hds)]; [intros []|]. intros [|Q]; [discriminate|]. apply Hds in Q. lia. }
  assert (Kz : ~ In SP z). { destruct Hz as [-> |(sg & zh & zm & -> & Hsg & H1 & H2)]; [intros [|[]]; discriminate|]. apply rfc_number_nospace in H1, H2.
    intros Q. apply in_app_or in Q as [Q|Q]; [destruct Hsg as [-> | ->]; destruct Q as [|[]]; discriminate|]. apply in_app_or in Q as [Q|[|Q]]; [exact (H1 Q)|discriminate|exact (H2 Q)]. }
  apply rfc_number_nospace in Hy, Hm, Hd, Hh, Hi, Hs.
  repeat (apply in_app_or in K as [K|K]; [first [contradiction|destruct K as [K|[]]; discriminate K]|]). contradiction.
Qed.

Lemma element_starts e id ps : element e id ps -> exists r, e = LBR :: r.
Proof. intros (-> & _). eexists. reflexivity. Qed.

(** a run of elements followed by nothing or a space is cut in one way *)
Lemma elements_cut es : forall es' t t',
  Forall (fun e => exists id ps, element e id ps) es -> Forall (fun e => exists id ps, element e id ps) es' ->
  hd SP t = SP -> hd SP t' = SP -> concat es ++ t = concat es' ++ t' -> es = es' /\ t = t'.
Proof.
  induction es as [|e es IH]; intros [|e' es'] t t' H H' Ht Ht' E.
  - auto.
  - exfalso. apply Forall_cons_iff in H' as [(id & ps & He) _]. destruct (element_starts _ _ _ He) as [r ->]. cbn [concat app] in E. subst t. discriminate Ht.
  - exfalso. apply Forall_cons_iff in H as [(id & ps & He) _]. destruct (element_starts _ _ _ He) as [r ->]. cbn [concat app] in E. subst t'. discriminate Ht'.
  - apply Forall_cons_iff in H as [(id & ps & He) H]. apply Forall_cons_iff in H' as [(id' & ps' & He') H']. cbn [concat] in E. rewrite <- !app_assoc in E.
    destruct (element_cut _ _ _ _ _ _ _ _ He He' E) as (_ & _ & E2 & ->). destruct (IH es' t t' H H' Ht Ht' E2) as [-> ->]. auto.
Qed.

Lemma tail_iff encs text : Forall (fun e => exists id ps, element e id ps) encs ->
  ((exists sd tl, sd_field encs ++ (match text with [] => [] | _ => SP :: text end) = sd ++ tl /\ rfc_structured_data sd /\ (tl = [] \/ exists msg, tl = bs " " ++ msg /\ rfc_msg msg)) <->
   Forall rfc_element encs /\ rfc_msg text).
Proof.
  intros He. split.
  - intros (sd & tl & E & Hsd & Htl). assert (T : hd SP tl = SP) by (destruct Htl as [-> |(x & -> & _)]; reflexivity).
    assert (T' : hd SP (match text with [] => [] | _ => SP :: text end) = SP) by (destruct text; reflexivity).
    assert (M : match text with [] => [] | _ => SP :: text end = tl -> rfc_msg text).
    { intros Q. destruct Htl as [-> |(x & -> & Hx)]; destruct text as [|c text]; [left; intros [s Hs]; discriminate Hs|discriminate Q|discriminate Q|]. injection Q as <-. exact Hx. }
    destruct Hsd as [-> |(es & Hn & Hes & ->)].
    + destruct encs as [|e encs].
      * split; [constructor|]. apply M. cbn [sd_field bs app] in E. apply (f_equal (@List.tl N)) in E. exact E.
      * exfalso. apply Forall_cons_iff in He as [(id & ps & He) _]. destruct (element_starts _ _ _ He) as [r ->]. discriminate E.
    + assert (Hl : Forall (fun e => exists id ps, element e id ps) es) by (eapply Forall_impl; [|exact Hes]; intros e; apply rfc_element_parts).
      destruct encs as [|e encs].
      * exfalso. destruct es as [|e es]; [congruence|]. apply Forall_cons_iff in Hl as [(id & ps & Hl) _]. destruct (element_starts _ _ _ Hl) as [r ->]. discriminate E.
      * destruct (elements_cut (e :: encs) es _ _ He Hl T' T E) as [<- Q]. split; [exact Hes|exact (M Q)].
  - intros [H1 H2]. exists (sd_field encs), (match text with [] => [] | _ => SP :: text end). split; [reflexivity|]. split.
    + destruct encs as [|e encs]; [left; reflexivity|right]. exists (e :: encs). split; [discriminate|]. split; [exact H1|reflexivity].
    + destruct text as [|c text]; [left; reflexivity|right]. exists (c :: text). split; [reflexivity|exact H2].
Qed.

Lemma marshal_wire uni m encs enc : Forall2 (fun s e => sd_marshal uni s = Val (inr e)) (m_sd m) encs -> message_marshal uni m = Val (inr enc) ->
  enc = join [priority_marshal (m_prio m); time_format (m_time m); m_host m; m_app m; m_procid m; m_msgid m] ++ sd_field encs ++ (match m_text m with [] => [] | _ => SP :: m_text m end).
Proof.
  intros H E. unfold message_marshal in E. rewrite (list_marshal_ok uni _ _ H) in E. unfold join. cbn [map concat].
  destruct (m_text m); injection E as <-; rewrite <- !app_assoc; cbn [app]; rewrite ?app_nil_r; reflexivity.
Qed.

(** what a message that encodes must be for its encoding to be an RFC 5424 message *)
Theorem C107_message_iff : forall uni m encs enc, words_ok m ->
  Forall2 (fun s e => sd_marshal uni s = Val (inr e)) (m_sd m) encs -> Forall (fun e => exists id ps, element e id ps) encs ->
  message_marshal uni m = Val (inr enc) ->
  (syslog_msg enc <->
    (has_number (m_prio m) /\ number (m_prio m) <= 191)%Z /\
    (0 <= c_year (civil_of (m_time m)) <= 9999 /\ - 86400 < t_off (m_time m) < 86400)%Z /\
    (rfc_field 255 (m_host m) /\ rfc_field 48 (m_app m) /\ rfc_field 128 (m_procid m) /\ rfc_field 32 (m_msgid m)) /\
    Forall rfc_element encs /\ rfc_msg (m_text m)).
Proof.
  intros uni m encs enc Hw Hs He Em. apply (marshal_wire uni m encs enc Hs) in Em. subst enc.
  rewrite <- C107_priority_iff, <- C107_time_iff, <- (tail_iff encs (m_text m) He).
  assert (W : Forall word [priority_marshal (m_prio m); time_format (m_time m); m_host m; m_app m; m_procid m; m_msgid m]).
  { destruct Hw as (A & B & C & D). repeat constructor; auto; try apply (marshal_word (m_prio m)); try apply time_format_word; first [apply A|apply B|apply C|apply D]. }
  split.
  - intros (pri & ver & ts & host & app & procid & msgid & sd & tl & E & Hp & Hv & Ht & Hh & Ha & Hpi & Hmi & Hsd & Htl).
    assert (E' : join [priority_marshal (m_prio m); time_format (m_time m); m_host m; m_app m; m_procid m; m_msgid m] ++ sd_field encs ++ (match m_text m with [] => [] | _ => SP :: m_text m end) = join [pri ++ ver; ts; host; app; procid; msgid] ++ sd ++ tl).
    { rewrite E. unfold join. cbn [map concat]. rewrite <- !app_assoc. reflexivity. }
    apply join_unique in E' as [E1 E2]; [|reflexivity|exact W|].
    + injection E1 as -> -> -> -> -> ->. split; [exists pri, ver; auto|]. split; [exact Ht|]. split; [auto|]. exists sd, tl. auto.
    + constructor; [apply rfc_pri_word; assumption|]. constructor; [apply rfc_timestamp_word; exact Ht|]. eauto 10 using Forall_cons, Forall_nil, rfc_field_word.
  - intros ((pri & ver & Ep & Hp & Hv) & Ht & (Hh & Ha & Hpi & Hmi) & (sd & tl & Et & Hsd & Htl)).
    exists pri, ver, (time_format (m_time m)), (m_host m), (m_app m), (m_procid m), (m_msgid m), sd, tl. split; [|auto 10].
    rewrite Et, Ep. unfold join. cbn [map concat]. rewrite <- !app_assoc. reflexivity.
Qed.

(** ** the elements this library writes *)
Lemma plain_value v : (forall c, In c v -> (32 <= c <= 126)%N /\ c <> 34%N /\ c <> 92%N /\ c <> 93%N) -> rfc_param_value v.
Proof.
  induction v as [|c v IH]; intros H; [exists []; split; [constructor|reflexivity]|]. destruct IH as (cs & Hc & E); [intros d Hd; apply H; right; exact Hd|].
  exists ([c] :: cs). split; [|cbn [concat app]; rewrite <- E; reflexivity]. constructor; [|exact Hc]. destruct (H c (or_introl eq_refl)) as (A & B & C & D).
  left. split; [apply U1; lia|]. repeat split; congruence.
Qed.
Lemma ascii_name n : (1 <= length n <= 32)%nat -> forallb (fun c => (33 <=? c) && (c <=? 126) && negb (c =? 61) && negb (c =? 93) && negb (c =? 34))%N n = true -> rfc_sd_name n.
Proof. intros Hl H. split; [exact Hl|]. intros c Hc. rewrite forallb_forall in H. specialize (H c Hc). lia. Qed.

(** a time quality always *)
Theorem C107_timequality : forall uni t e, sd_marshal uni (SDTimeQuality t) = Val (inr e) -> rfc_element e.
Proof.
  intros uni t e H. cbn [sd_marshal] in H. unfold tq_marshal in H. destruct (negb (tq_is_valid t)); [discriminate H|].
  assert (P : forall n v, rfc_sd_name n -> rfc_param_value v -> rfc_param (n ++ bs "=""" ++ v ++ bs """")) by (intros n v Hn Hv; exists n, v; auto).
  assert (One : rfc_param_value (bs "1")) by (apply plain_value; intros c [<-|[]]; cbn; lia).
  assert (N1 : rfc_sd_name (bs "timeQuality")) by (apply ascii_name; [cbn; lia|reflexivity]).
  assert (N2 : rfc_sd_name (bs "tzKnown")) by (apply ascii_name; [cbn; lia|reflexivity]).
  assert (N3 : rfc_sd_name (bs "isSynced")) by (apply ascii_name; [cbn; lia|reflexivity]).
  assert (N4 : rfc_sd_name (bs "syncAccuracy")) by (apply ascii_name; [cbn; lia|reflexivity]).
  exists (bs "timeQuality"), ((if tzKnown t then [bs "tzKnown" ++ bs "=""" ++ bs "1" ++ bs """"] else []) ++ (if isSynced t then [bs "isSynced" ++ bs "=""" ++ bs "1" ++ bs """"] else []) ++
    match syncAccuracy t with Some a => [bs "syncAccuracy" ++ bs "=""" ++ itoa a ++ bs """"] | None => [] end).
  split; [|split; [exact N1|]].
  - rewrite !map_app, !concat_app. destruct (syncAccuracy t) as [a|].
    + destruct (a <=? 0)%Z; [discriminate H|]. injection H as <-. destruct (tzKnown t), (isSynced t); cbn [map concat app bs]; rewrite <- ?app_assoc; reflexivity.
    + injection H as <-. destruct (tzKnown t), (isSynced t); reflexivity.
  - apply Forall_app. split; [destruct (tzKnown t); repeat constructor; apply P; assumption|]. apply Forall_app. split; [destruct (isSynced t); repeat constructor; apply P; assumption|].
    destruct (syncAccuracy t) as [a|]; [|constructor]. constructor; [|constructor]. apply P; [exact N4|]. destruct (Z.leb_spec a 0); [discriminate H|].
    apply plain_value. intros c Hc. unfold itoa in Hc. destruct (Z.ltb_spec a 0); [lia|]. pose proof (utoa_digits (Z.to_N a)) as D. rewrite Forall_forall in D. apply D, is_digit_spec in Hc. lia.
Qed.
Print Assumptions C107_timequality.

(** an element decoded from the wire, or made of raw names and values *)
Theorem C107_unknown_iff : forall uni name ps, sd_name name -> Forall param_ok ps ->
  exists e, sd_marshal uni (SDUnknown name ps) = Val (inr e) /\ element e name ps /\
    (rfc_element e <-> rfc_sd_name name /\ Forall (fun p => rfc_sd_name (fst p) /\ rfc_param_value (snd p)) ps).
Proof.
  intros uni name ps Hn Hp. exists (unknown_marshal name ps). split; [reflexivity|].
  assert (E : element (unknown_marshal name ps) name ps). { split; [|split; assumption]. rewrite unknown_marshal_eq. unfold text_of. rewrite map_map. reflexivity. }
  split; [exact E|]. exact (rfc_element_iff _ _ _ E).
Qed.
Print Assumptions C107_unknown_iff.

Lemma escaped_element id kvs : sd_name id -> Forall (fun p => sd_name (fst p)) kvs ->
  let e := bs "[" ++ id ++ concat (map (fun p => param_text (1%nat, fst p, escaped (snd p))) kvs) ++ bs "]" in
  element e id (map (fun p => (fst p, escaped (snd p))) kvs) /\
  (rfc_element e <-> rfc_sd_name id /\ Forall (fun p => rfc_sd_name (fst p) /\ utf8_string (snd p)) kvs).
Proof.
  intros Hi Hk e.
  assert (E : element e id (map (fun p => (fst p, escaped (snd p))) kvs)).
  { split; [unfold e; rewrite map_map; reflexivity|]. split; [exact Hi|]. apply Forall_map. eapply Forall_impl; [|exact Hk]. intros p Hp. split; [exact Hp|]. cbn [snd]. rewrite <- escape_eq. apply escape_well. }
  split; [exact E|]. rewrite (rfc_element_iff _ _ _ E), Forall_map. cbn [fst snd]. 
  assert (Q : forall p : bytes * bytes, (rfc_sd_name (fst p) /\ rfc_param_value (escaped (snd p))) <-> (rfc_sd_name (fst p) /\ utf8_string (snd p))) by (intros p; rewrite escaped_value_iff; reflexivity).
  split; intros [A B]; (split; [exact A|]); eapply Forall_impl; try exact B; intros p; apply Q.
Qed.

(** a map with scalar values: its identifier and its keys are names of the RFC, its values UTF-8 *)
Theorem C107_map_iff : forall uni id pm es, sd_name id -> NoDup (map fst es) -> Forall (fun p => fst p <> [] /\ sd_name (fst p)) es ->
  exists e ps, sd_marshal uni (SDGeneric id pm (VMap true false (Some (scalars es)))) = Val (inr e) /\ element e id ps /\
    (rfc_element e <-> rfc_sd_name id /\ forall k v, In (k, v) es -> rfc_sd_name k /\ utf8_string v).
Proof.
  intros uni id pm es Hi Hn Hk. assert (Hk1 : Forall (fun p : bytes * bytes => fst p <> []) es) by (eapply Forall_impl; [|exact Hk]; cbn; tauto).
  destruct (C63_map_keys_sorted uni id pm es Hn Hk1) as (s & Hp & _ & E).
  assert (Hs : Forall (fun p => sd_name (fst p)) s). { rewrite Forall_forall in *. intros p Hin. apply Hk. eapply Permutation.Permutation_in; [exact Hp|exact Hin]. }
  destruct (escaped_element id s Hi Hs) as [El Iff]. eexists; eexists. split; [exact E|]. split; [exact El|]. rewrite Iff, Forall_forall.
  split; intros [A B]; (split; [exact A|]).
  - intros k v Hin. apply (B (k, v)). eapply Permutation.Permutation_in; [symmetry; exact Hp|exact Hin].
  - intros [k v] Hin. apply B. eapply Permutation.Permutation_in; [exact Hp|exact Hin].
Qed.
Print Assumptions C107_map_iff.

(** a struct: its identifier and the names of the fields written are names of the RFC, their values UTF-8 *)
Theorem C107_struct_iff : forall uni id pm fs e,
  Forall (fun p => f_exported (fst p) = true) fs -> sd_name id ->
  (forall p name, In p fs -> field_named uni (fst p) name -> sd_name name) ->
  sd_marshal uni (SDGeneric id pm (VStruct fs)) = Val (inr e) ->
  exists kvs ps, Forall2 (field_params uni) fs kvs /\ element e id ps /\
    (rfc_element e <-> rfc_sd_name id /\ forall k v, In (k, v) (concat kvs) -> rfc_sd_name k /\ utf8_string v).
Proof.
  intros uni id pm fs e Hex Hi Hnames Hm. apply C64_struct_encoding in Hm as (texts & Ht & ->); [|exact Hex].
  destruct (fields_params uni fs texts Ht) as (kvs & Hk & E). 
  assert (Hin : Forall (fun p => sd_name (fst p)) (concat kvs)).
  { apply Forall_forall. intros kv Hin. apply in_concat in Hin as (l & Hl & Hin). clear -Hnames Hk Hl Hin.
    induction Hk as [|p l0 fs kvs Hp Hk IH]; [destruct Hl|]. destruct Hl as [->|Hl]; [|apply IH; [intros q nm Hq; apply Hnames; right; exact Hq|exact Hl]].
    destruct Hp as (name & Hn & [(_ & ->)|(_ & Hne & ls & _ & ->)]); [destruct Hin|]. apply in_map_iff in Hin as (x & <- & _). cbn [fst].
    apply (Hnames p name); [left; reflexivity|exact Hn]. }
  destruct (escaped_element id (concat kvs) Hi Hin) as [El Iff]. rewrite E. exists kvs; eexists. split; [exact Hk|]. split; [exact El|]. rewrite Iff, Forall_forall.
  split; intros [A B]; (split; [exact A|]); [intros k v; apply (B (k, v))|intros [k v]; apply B].
Qed.
Print Assumptions C107_struct_iff.

(** ** from the constructors *)
(** whatever is done with the public constructors and setters on a machine with a proper name: a priority
    of the RFC, a year of four digits, elements that conform and a text that does not start with a byte order
    mark (or is UTF-8 after it) give an RFC 5424 message *)
Theorem C107_built : forall uni hostname o cs enc, header_word 255 hostname \/ ~ uses_local_host o cs ->
  let m := built hostname o cs in
  (0 <= m_prio m <= 191)%Z -> (0 <= c_year (civil_of (m_time m)) <= 9999)%Z -> (- 86400 < t_off (m_time m) < 86400)%Z ->
  (forall s e, In s (m_sd m) -> sd_marshal uni s = Val (inr e) -> rfc_element e) -> rfc_msg (m_text m) ->
  message_marshal uni m = Val (inr enc) -> syslog_msg enc.
Proof.
  intros uni hostname o cs enc Hh m Hp Hy Ho Hs Ht E.
  assert (Hok : header_ok m) by (destruct Hh as [Hh|Hh]; [apply C10_header_fields, Hh|apply C10_header_fields_any_machine, Hh]).
  assert (Hall : exists encs, Forall2 (fun s e => sd_marshal uni s = Val (inr e)) (m_sd m) encs).
  { pose proof (proj1 (C12_success_iff uni m) (ex_intro _ enc E)) as A. clear - A. induction (m_sd m) as [|s l IH]; [exists []; constructor|].
    destruct (A s (or_introl eq_refl)) as [b Hb]. destruct IH as [es He]; [intros x Hx; apply A; right; exact Hx|]. exists (b :: es). constructor; assumption. }
  destruct Hall as [encs Hall].
  assert (Hr : Forall rfc_element encs).
  { clear - Hall Hs. induction Hall as [|s e l es H1 _ IH]; [constructor|]. constructor; [apply (Hs s); [left; reflexivity|exact H1]|apply IH; intros s' e' Hi; apply Hs; right; exact Hi]. }
  apply (C107_message_iff uni m encs enc (header_ok_words m Hok) Hall); [eapply Forall_impl; [|exact Hr]; apply rfc_element_parts|exact E|].
  assert (F : forall n w, header_word n w -> rfc_field n w). { intros n w (A & B & C). right. split; [destruct w; [congruence|cbn [length] in *; lia]|exact C]. }
  destruct Hok as (A & B & C & D). split; [|split; [|split; [|split]]]; auto 6.
  split; [left; lia|]. rewrite (proj2 (number_itself (m_prio m))); lia.
Qed.
Print Assumptions C107_built.
Print Assumptions C107_message_iff.
Print Assumptions C107_time_iff.
Print Assumptions C107_priority_iff.

(** ** the README's claim (only compatible packets) is false without those conditions *)
Lemma syslog_rest ws r : length ws = 6%nat -> Forall word ws -> syslog_msg (join ws ++ r) ->
  exists sd tl, r = sd ++ tl /\ rfc_structured_data sd /\ (tl = [] \/ exists msg, tl = bs " " ++ msg /\ rfc_msg msg).
Proof.
  intros Hl Hw (pri & ver & ts & host & app & procid & msgid & sd & tl & E & Hp & Hv & Ht & Hh & Ha & Hpi & Hmi & Hsd & Htl).
  assert (E' : join ws ++ r = join [pri ++ ver; ts; host; app; procid; msgid] ++ sd ++ tl).
  { rewrite E. unfold join. cbn [map concat]. rewrite <- !app_assoc. reflexivity. }
  apply join_unique in E' as [_ E2]; [exists sd, tl; auto|exact Hl|exact Hw|].
  constructor; [apply rfc_pri_word; assumption|]. constructor; [apply rfc_timestamp_word; exact Ht|]. eauto 10 using Forall_cons, Forall_nil, rfc_field_word.
Qed.

Definition plain_message (sd : list sdval) (text : bytes) : message := built [] (OEmpty 0) [BSD sd; BMsg text].
Lemma plain_words sd text : words_ok (plain_message sd text).
Proof. unfold plain_message, words_ok. cbn. repeat split; (discriminate || (intros [|[]]; discriminate)). Qed.
Lemma rest_of sd text encs enc : Forall2 (fun s e => sd_marshal (fun _ => true) s = Val (inr e)) sd encs -> message_marshal (fun _ => true) (plain_message sd text) = Val (inr enc) ->
  syslog_msg enc -> exists sd' tl, sd_field encs ++ (match trim_right text with [] => [] | _ => SP :: trim_right text end) = sd' ++ tl /\
    rfc_structured_data sd' /\ (tl = [] \/ exists msg, tl = bs " " ++ msg /\ rfc_msg msg).
Proof.
  intros H E S. rewrite (marshal_wire _ (plain_message sd text) encs enc H E) in S.
  apply syslog_rest in S; [exact S|reflexivity|]. destruct (plain_words sd text) as (A & B & C & D).
  constructor; [apply marshal_word|]. constructor; [apply time_format_word|]. auto.
Qed.

(** the elements that do not conform although Marshal5424 succeeds: a nil map (it writes nothing: two
    spaces in a row), a field whose tag has a space, an identifier of 33 bytes, a value that is not UTF-8 *)
Theorem C107_elements_refuted : exists nilmap spaced long bin,
  nilmap = SDGeneric (bs "x@1") false (VMap true false None) /\
  spaced = SDGeneric (bs "x@1") false (VStruct [(fld "A" "a b", VBasic false (bs "v"))]) /\
  long = SDGeneric (repeat 120%N 33) false (VStruct [(fld "A" "", VBasic false (bs "v"))]) /\
  bin = SDGeneric (bs "x@1") false (VStruct [(fld "A" "", VBasic false [255%N])]) /\
  forall s, In s [nilmap; spaced; long; bin] -> forall text, exists enc,
    message_marshal (fun _ => true) (plain_message [s] text) = Val (inr enc) /\ ~ syslog_msg enc.
Proof.
  do 4 eexists. do 4 (split; [reflexivity|]). intros s Hs text.
  assert (M : exists enc, message_marshal (fun _ => true) (plain_message [s] text) = Val (inr enc)).
  { apply C12_success_iff. intros s' [<-|[]]. destruct Hs as [<-|[<-|[<-|[<-|[]]]]]; eexists; vm_compute; reflexivity. }
  destruct M as [enc M]. exists enc. split; [exact M|]. intros S.
  assert (W : exists e, sd_marshal (fun _ => true) s = Val (inr e)) by (destruct Hs as [<-|[<-|[<-|[<-|[]]]]]; eexists; vm_compute; reflexivity).
  destruct W as [e W]. assert (F : Forall2 (fun s e => sd_marshal (fun _ => true) s = Val (inr e)) [s] [e]) by (constructor; [exact W|constructor]).
  destruct Hs as [<-|[<-|[<-|[<-|[]]]]].
  - destruct (rest_of _ _ _ _ F M S) as (sd & tl & E & Hsd & Htl). vm_compute in W. injection W as <-. cbn [sd_field concat app] in E.
    assert (Q : exists c r, sd = c :: r /\ c <> SP). { destruct Hsd as [-> |(es & Hn & Hes & ->)]; [exists 45%N, []; split; [reflexivity|lia]|].
      destruct es as [|e es]; [congruence|]. apply Forall_cons_iff in Hes as [(id & ps & -> & _) _]. exists 91%N. eexists. split; [reflexivity|lia]. }
    destruct Q as (c & r & -> & Hc). destruct (trim_right text); [discriminate E|]. injection E as <- _. congruence.
  - destruct (rest_of _ _ _ _ F M S) as (sd & tl & E & Hsd & Htl). vm_compute in W. injection W as <-. 
    destruct Hsd as [-> |(es & Hn & Hes & ->)]; [discriminate E|]. destruct es as [|e es]; [congruence|]. apply Forall_cons_iff in Hes as [(id & ps & -> & Hid & Hps) _].
    cbn [sd_field concat] in E. change (bs "[") with [91%N] in E. rewrite <- !app_assoc in E. cbn [app] in E. apply (f_equal (@List.tl N)) in E. cbn [List.tl] in E.
    destruct ps as [|p ps].
    + cbn [map concat app] in E. change (120 :: 64 :: 49 :: 32 :: 97 :: ?x)%N with (bs "x@1" ++ 32 :: 97 :: x)%N in E. change (bs "]") with [93%N] in E. cbn [app] in E.
      apply name_cut in E as (_ & E & _); [discriminate E|intros c Hc; unfold sd_name_byte; cbn in Hc; decompose [or] Hc; subst; lia || contradiction|apply rfc_name_loose, Hid|unfold sd_name_byte; lia|unfold sd_name_byte; lia].
    + apply Forall_cons_iff in Hps as [(k & v & -> & Hk & Hv) _]. cbn [map concat] in E. change (bs " ") with [32%N] in E. rewrite <- !app_assoc in E. cbn [app] in E.
      change (120 :: 64 :: 49 :: 32 :: 97 :: ?x)%N with (bs "x@1" ++ 32 :: 97 :: x)%N in E.
      apply name_cut in E as (_ & _ & E); [|intros c Hc; unfold sd_name_byte; cbn in Hc; decompose [or] Hc; subst; lia || contradiction|apply rfc_name_loose, Hid|unfold sd_name_byte; lia|unfold sd_name_byte; lia].
      change (97 :: 32 :: ?x)%N with (bs "a" ++ 32 :: x)%N in E. change (bs "=""") with [61%N; 34%N] in E. cbn [app] in E.
      apply (name_cut (bs "a")) in E as (_ & E & _); [discriminate E|intros c [<-|[]]; unfold sd_name_byte; cbn; lia|apply rfc_name_loose, Hk|unfold sd_name_byte; lia|unfold sd_name_byte; lia].
  - assert (Hi : sd_name (repeat 120%N 33)) by (intros c Hc; apply repeat_spec in Hc as ->; unfold sd_name_byte; lia).
    assert (El : element e (repeat 120%N 33) [(bs "A", bs "v")]). { vm_compute in W. injection W as <-. split; [reflexivity|]. split; [exact Hi|]. constructor; [|constructor]. split.
      + intros c [<-|[]]. unfold sd_name_byte. cbn. lia. + cbn. apply WE_plain; [lia..|constructor]. }
    assert (Le : Forall (fun e => exists id ps, element e id ps) [e]) by (constructor; [eexists; eexists; exact El|constructor]).
    pose proof (proj1 (C107_message_iff (fun _ => true) (plain_message [_] text) [e] enc (plain_words _ _) F Le M) S) as (_ & _ & _ & S' & _). clear S. rename S' into S.
    apply Forall_cons_iff in S as [S _]. apply (rfc_element_iff _ _ _ El) in S as [[S _] _]. cbn in S. lia.
  - assert (El : element e (bs "x@1") [(bs "A", [255%N])]). { vm_compute in W. injection W as <-. split; [reflexivity|]. split; [|constructor; [|constructor]; split].
      + intros c Hc. cbn in Hc. unfold sd_name_byte. decompose [or] Hc; subst; lia || contradiction. + intros c [<-|[]]. unfold sd_name_byte. cbn. lia. + cbn. apply WE_plain; [lia..|constructor]. }
    assert (Le : Forall (fun e => exists id ps, element e id ps) [e]) by (constructor; [eexists; eexists; exact El|constructor]).
    pose proof (proj1 (C107_message_iff (fun _ => true) (plain_message [_] text) [e] enc (plain_words _ _) F Le M) S) as (_ & _ & _ & S' & _). clear S. rename S' into S.
    apply Forall_cons_iff in S as [S _]. apply (rfc_element_iff _ _ _ El) in S as [_ S]. apply Forall_cons_iff in S as [[_ S] _]. cbn [snd] in S.
    change [255%N] with (escaped [255%N]) in S. apply escaped_value_iff in S. exact (utf8_255 _ S).
Qed.
Print Assumptions C107_elements_refuted.

(** a priority of 192, a year of five digits, a byte order mark before bytes that are not UTF-8 *)
Theorem C107_message_refuted :
  let ok enc m := message_marshal (fun _ => true) m = Val (inr enc) in
  (exists enc, ok enc (built [] (OEmpty 0) [BPrio 192]) /\ ~ syslog_msg enc) /\
  (exists enc, ok enc (built [] (OEmpty 0) [BTime {| t_sec := 253402300800; t_nsec := 0; t_off := 0 |}]) /\ ~ syslog_msg enc) /\
  (exists enc, ok enc (built [] (OEmpty 0) [BMsg (rfc_bom ++ [255%N])]) /\ ~ syslog_msg enc).
Proof.
  assert (W : forall m, m_host m = bs "-" -> m_app m = bs "-" -> m_procid m = bs "-" -> m_msgid m = bs "-" -> words_ok m).
  { intros m A B C D. unfold words_ok. rewrite A, B, C, D. repeat split; (discriminate || (intros [|[]]; discriminate)). }
  cbn zeta. split; [|split].
  - set (m := built _ _ _). assert (M : exists enc, message_marshal (fun _ => true) m = Val (inr enc)) by (eexists; vm_compute; reflexivity). destruct M as [enc M]. exists enc. split; [exact M|].
    intros S. apply (proj1 (C107_message_iff (fun _ => true) m [] enc (W m eq_refl eq_refl eq_refl eq_refl) (Forall2_nil _) (Forall_nil _) M)) in S as ([_ S] & _). vm_compute in S. apply S. reflexivity.
  - set (m := built _ _ _). assert (M : exists enc, message_marshal (fun _ => true) m = Val (inr enc)) by (eexists; vm_compute; reflexivity). destruct M as [enc M]. exists enc. split; [exact M|].
    intros S. apply (proj1 (C107_message_iff (fun _ => true) m [] enc (W m eq_refl eq_refl eq_refl eq_refl) (Forall2_nil _) (Forall_nil _) M)) in S as (_ & ([_ S] & _) & _). vm_compute in S. apply S. reflexivity.
  - set (m := built _ _ _). assert (M : exists enc, message_marshal (fun _ => true) m = Val (inr enc)) by (eexists; vm_compute; reflexivity). destruct M as [enc M]. exists enc. split; [exact M|].
    intros S. apply (proj1 (C107_message_iff (fun _ => true) m [] enc (W m eq_refl eq_refl eq_refl eq_refl) (Forall2_nil _) (Forall_nil _) M)) in S as (_ & _ & _ & _ & S).
    change (m_text m) with (rfc_bom ++ [255%N]) in S. destruct S as [S|(u & E & Hu)]; [apply S; exists [255%N]; reflexivity|]. injection E as <-. exact (utf8_255 _ Hu).
Qed.
Print Assumptions C107_message_refuted.

(** a message with two elements and a text *)
Example C107_nonvacuous :
  let m := built (bs "host") (OEmpty 0) [BPrio 165; BTime {| t_sec := 1061727255; t_nsec := 3000000; t_off := 0 |}; BLocalHost;
    BSD [SDTimeQuality {| tzKnown := true; isSynced := true; syncAccuracy := Some 5%Z |}; SDGeneric (bs "x@1") false (VMap true false (Some (scalars [(bs "b", bs "1]"); (bs "a", [195; 169]%N)])))]; BMsg (bs "hello")] in
  exists enc, message_marshal (fun _ => true) m = Val (inr enc) /\ syslog_msg enc.
Proof.
  intros m. assert (M : exists enc, message_marshal (fun _ => true) m = Val (inr enc)) by (eexists; vm_compute; reflexivity). destruct M as [enc M]. exists enc. split; [exact M|].
  unfold m in M |- *. refine (C107_built (fun _ => true) (bs "host") (OEmpty 0) _ enc (or_introl _) _ _ _ _ _ M).
  - split; [discriminate|]. split; [cbn; lia|]. intros c Hc. unfold printusascii. cbn in Hc. decompose [or] Hc; subst; lia || contradiction.
  - cbn. lia.
  - vm_compute. split; discriminate.
  - cbn. lia.
  - intros s e Hs E. destruct Hs as [<-|[<-|[]]]; [exact (C107_timequality _ _ _ E)|].
    assert (Nm : forall n, (1 <= length n <= 32)%nat -> forallb (fun c => (33 <=? c) && (c <=? 126) && negb (c =? 61) && negb (c =? 93) && negb (c =? 34))%N n = true -> rfc_sd_name n) by exact ascii_name.
    destruct (C107_map_iff (fun _ => true) (bs "x@1") false [(bs "b", bs "1]"); (bs "a", [195; 169]%N)]) as (e' & ps & E' & _ & I).
    + apply rfc_name_loose, Nm; [cbn; lia|reflexivity].
    + repeat constructor; cbn; intros H; decompose [or] H; discriminate || contradiction.
    + apply Forall_forall. intros p [<-|[<-|[]]]; (split; [discriminate|]); intros c [<-|[]]; unfold sd_name_byte; cbn; lia.
    + rewrite E in E'. injection E' as <-. apply I. split; [apply Nm; [cbn; lia|reflexivity]|]. intros k v [Q|[Q|[]]]; injection Q as <- <-; (split; [apply Nm; [cbn; lia|reflexivity]|]).
      * exists [[49%N]; [93%N]]. split; [repeat constructor; lia|reflexivity].
      * exists [[195; 169]%N]. split; [|reflexivity]. constructor; [|constructor]. apply U2; unfold utf8_tail; lia.
  - left. intros [r Hr]. discriminate Hr.
Qed.

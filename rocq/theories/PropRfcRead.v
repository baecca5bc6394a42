(** PropRfcRead.v -- property C108: which RFC 5424 messages are read right (message-immutable.go:25-131,
    transport.go:181-251, sdata/sd-unknown.go:40-86).  The grammar is Rfc5424.v. *)
From Verif Require Import Base BaseFacts Spec Rfc5424 MPriority MHelpers MText MTime MSData MMessage MTransport MParse.
From Verif Require Import LPriority LText LSData LCalendar LTime LParse LTransport LRound LResult LLines.
From Verif Require Import PropPriority PropMessage PropTime PropSData PropSData2 PropSData3 PropParse PropScan PropStamp PropAnyPriority PropIdentity PropRfc.
From Coq Require Import ZifyBool ZifyNat ZifyN.
Ltac Zify.zify_post_hook ::= Z.to_euclidean_division_equations.

(** ** an RFC 5424 message with its parts *)
Definition rfc_sd_text (e : bytes * list (bytes * bytes)) : bytes :=
  bs "[" ++ fst e ++ concat (map (fun p => bs " " ++ fst p ++ bs "=""" ++ snd p ++ bs """") (snd e)) ++ bs "]".
Definition rfc_sd_ok (e : bytes * list (bytes * bytes)) : Prop :=
  rfc_sd_name (fst e) /\ Forall (fun p => rfc_sd_name (fst p) /\ rfc_param_value (snd p)) (snd e).

(** STRUCTURED-DATA, and what follows it *)
Definition rfc_sds (es : list (bytes * list (bytes * bytes))) : bytes := match es with [] => bs "-" | _ :: _ => concat (map rfc_sd_text es) end.
Definition rfc_tl (o : option bytes) : bytes := match o with None => [] | Some t => bs " " ++ t end.

Record parts := { r_pri : bytes; r_ver : bytes; r_ts : bytes; r_host : bytes; r_app : bytes; r_procid : bytes; r_msgid : bytes;
                  r_sd : list (bytes * list (bytes * bytes)); r_msg : option bytes }.
Definition rfc_text (r : parts) : bytes :=
  r_pri r ++ r_ver r ++ bs " " ++ r_ts r ++ bs " " ++ r_host r ++ bs " " ++ r_app r ++ bs " " ++ r_procid r ++ bs " " ++ r_msgid r ++ bs " " ++
  rfc_sds (r_sd r) ++ rfc_tl (r_msg r).
Definition rfc_ok (r : parts) : Prop :=
  rfc_pri (r_pri r) /\ rfc_version (r_ver r) /\ rfc_timestamp (r_ts r) /\ rfc_field 255 (r_host r) /\ rfc_field 48 (r_app r) /\
  rfc_field 128 (r_procid r) /\ rfc_field 32 (r_msgid r) /\ Forall rfc_sd_ok (r_sd r) /\ (forall t, r_msg r = Some t -> rfc_msg t).

Lemma rfc_element_sd e : rfc_element e <-> exists x, rfc_sd_ok x /\ e = rfc_sd_text x.
Proof.
  split.
  - intros (id & ps & -> & Hi & Hp).
    assert (K : exists qs, Forall (fun p => rfc_sd_name (fst p) /\ rfc_param_value (snd p)) qs /\ concat (map (fun p => bs " " ++ p) ps) = concat (map (fun p => bs " " ++ fst p ++ bs "=""" ++ snd p ++ bs """") qs)).
    { induction Hp as [|b l (k & v & -> & Hk & Hv) _ (qs & IH & E)]; [exists []; split; [constructor|reflexivity]|]. exists ((k, v) :: qs). split; [constructor; [auto|exact IH]|]. cbn [map concat]. rewrite E. reflexivity. }
    destruct K as (qs & Hq & E). exists (id, qs). split; [split; assumption|]. unfold rfc_sd_text. cbn [fst snd]. rewrite E. reflexivity.
  - intros ([id qs] & [Hi Hq] & ->). cbn [fst snd] in *. exists id, (map (fun p => fst p ++ bs "=""" ++ snd p ++ bs """") qs). split; [unfold rfc_sd_text; cbn [fst snd]; rewrite map_map; reflexivity|].
    split; [exact Hi|]. apply Forall_map. eapply Forall_impl; [|exact Hq]. intros p [A B]. exists (fst p), (snd p). auto.
Qed.

(** the messages of the grammar are the texts of such parts *)
Theorem C108_parts : forall b, syslog_msg b <-> exists r, rfc_ok r /\ b = rfc_text r.
Proof.
  intros b. split.
  - intros (pri & ver & ts & host & app & procid & msgid & sd & tl & -> & Hp & Hv & Ht & Hh & Ha & Hpi & Hmi & Hsd & Htl).
    assert (S : exists es, Forall rfc_sd_ok es /\ sd = rfc_sds es).
    { destruct Hsd as [-> |(es & Hn & Hes & ->)]; [exists []; auto|].
      assert (K : exists xs, Forall rfc_sd_ok xs /\ es = map rfc_sd_text xs).
      { clear Hn. induction Hes as [|e l He _ (xs & Hx & ->)]; [exists []; auto|]. apply rfc_element_sd in He as (x & Hx' & ->). exists (x :: xs). split; [constructor; assumption|reflexivity]. }
      destruct K as (xs & Hx & ->). exists xs. split; [exact Hx|]. destruct xs; [cbn in Hn; congruence|reflexivity]. }
    destruct S as (es & Hes & ->).
    assert (T : exists o, (forall t, o = Some t -> rfc_msg t) /\ tl = rfc_tl o).
    { destruct Htl as [-> |(msg & -> & Hm)]; [exists None; split; [discriminate|reflexivity]|exists (Some msg)]. split; [intros t E; injection E as <-; exact Hm|reflexivity]. }
    destruct T as (o & Ho & ->).
    exists {| r_pri := pri; r_ver := ver; r_ts := ts; r_host := host; r_app := app; r_procid := procid; r_msgid := msgid; r_sd := es; r_msg := o |}.
    split; [unfold rfc_ok; cbn; auto 10|reflexivity].
  - intros (r & (Hp & Hv & Ht & Hh & Ha & Hpi & Hmi & Hsd & Htl) & ->).
    exists (r_pri r), (r_ver r), (r_ts r), (r_host r), (r_app r), (r_procid r), (r_msgid r), (rfc_sds (r_sd r)), (rfc_tl (r_msg r)).
    split; [reflexivity|]. do 7 (split; [assumption|]). split.
    + destruct (r_sd r) as [|e es] eqn:E; [left; reflexivity|right]. exists (map rfc_sd_text (e :: es)). split; [discriminate|]. split; [|reflexivity].
      apply Forall_map. eapply Forall_impl; [|exact Hsd]. intros x Hx. apply rfc_element_sd. eauto.
    + destruct (r_msg r) as [t|]; [right; exists t; auto|left; reflexivity].
Qed.
Print Assumptions C108_parts.

Lemma rfc_sd_element x : rfc_sd_ok x -> element (rfc_sd_text x) (fst x) (snd x).
Proof.
  intros [Hi Hp]. split; [reflexivity|]. split; [apply rfc_name_loose, Hi|]. eapply Forall_impl; [|exact Hp]. intros p [A B]. split; [apply rfc_name_loose, A|apply rfc_value_well, B].
Qed.

Definition rfc_words (r : parts) : list bytes := [r_pri r ++ r_ver r; r_ts r; r_host r; r_app r; r_procid r; r_msgid r].
Definition rfc_tail (r : parts) : bytes := rfc_tl (r_msg r).
Lemma rfc_text_join r : rfc_text r = join (rfc_words r) ++ rfc_sds (r_sd r) ++ rfc_tail r.
Proof. unfold rfc_text, rfc_words, join, rfc_tail. cbn [map concat]. change [SP] with (bs " "). rewrite <- !app_assoc. reflexivity. Qed.
Lemma rfc_words_word r : rfc_ok r -> Forall word (rfc_words r).
Proof.
  intros (Hp & Hv & Ht & Hh & Ha & Hpi & Hmi & _). constructor; [apply rfc_pri_word; assumption|]. constructor; [apply rfc_timestamp_word; exact Ht|].
  eauto 10 using Forall_cons, Forall_nil, rfc_field_word.
Qed.
Lemma tail_hd r : hd SP (rfc_tail r) = SP.
Proof. unfold rfc_tail. destruct (r_msg r); reflexivity. Qed.

(** a message has one list of parts *)
Theorem C108_parts_unique : forall r r', rfc_ok r -> rfc_ok r' -> rfc_text r = rfc_text r' -> r = r'.
Proof.
  intros r r' H H' E. rewrite !rfc_text_join in E. apply join_unique in E as [Ew Et]; [|reflexivity|apply rfc_words_word; assumption..].
  destruct r as [pri ver ts host appn procid msgid sd msg], r' as [pri' ver' ts' host' appn' procid' msgid' sd' msg']. unfold rfc_words, rfc_tail, rfc_ok in *. cbn [r_pri r_ver r_ts r_host r_app r_procid r_msgid r_sd r_msg] in *.
  injection Ew as E1 <- <- <- <- <-. destruct H as ((d & -> & _ & Dd & _) & (_ & Dv & _) & _ & _ & _ & _ & _ & Hsd & _). destruct H' as ((d' & -> & _ & Dd' & _) & (_ & Dv' & _) & _ & _ & _ & _ & _ & Hsd' & _).
  assert (P : d = d' /\ ver = ver').
  { change (bs "<") with [60%N] in E1. change (bs ">") with [62%N] in E1. cbn [app] in E1. rewrite <- !app_assoc in E1. cbn [app] in E1. apply (f_equal (@List.tl N)) in E1. cbn [List.tl] in E1.
    apply digits_cut in E1 as (-> & _ & ->); auto; lia. }
  destruct P as [-> ->].
  assert (L : forall es, Forall rfc_sd_ok es -> Forall (fun e => exists id ps, element e id ps) (map rfc_sd_text es)).
  { intros es Hes. apply Forall_map. eapply Forall_impl; [|exact Hes]. intros x Hx. exists (fst x), (snd x). apply rfc_sd_element, Hx. }
  assert (T : forall o : option bytes, hd SP (rfc_tl o) = SP) by (intros [t|]; reflexivity).
  assert (M : forall o o' : option bytes, rfc_tl o = rfc_tl o' -> o = o').
  { intros [t|] [t'|] Q; [|discriminate Q|discriminate Q|reflexivity]. injection Q as ->. reflexivity. }
  assert (S : forall x es z, exists q, concat (map rfc_sd_text (x :: es)) ++ z = LBR :: q) by (intros; eexists; reflexivity).
  assert (Q : sd = sd' /\ msg = msg').
  { destruct sd as [|x es], sd' as [|x' es'].
    - split; [reflexivity|]. apply M. apply (f_equal (@List.tl N)) in Et. exact Et.
    - exfalso. destruct (S x' es' (rfc_tl msg')) as [q Eq]. unfold rfc_sds in Et. rewrite Eq in Et. discriminate Et.
    - exfalso. destruct (S x es (rfc_tl msg)) as [q Eq]. unfold rfc_sds in Et. rewrite Eq in Et. discriminate Et.
    - destruct (elements_cut _ _ _ _ (L _ Hsd) (L _ Hsd') (T msg) (T msg') Et) as [Ee Em]. split; [|apply M, Em].
      clear - Hsd Hsd' Ee. revert Hsd Hsd' Ee. generalize (x :: es) as a, (x' :: es') as b. clear. induction a as [|x a IH]; intros [|y b] Ha Hb E; try discriminate E; [reflexivity|].
      apply Forall_cons_iff in Ha as [Hx Ha]. apply Forall_cons_iff in Hb as [Hy Hb]. cbn [map] in E. remember (rfc_sd_text x) as tx. remember (rfc_sd_text y) as ty. injection E as E E2.
      f_equal; [|apply IH; assumption]. subst tx ty. destruct (element_cut _ _ _ _ _ _ [] [] (rfc_sd_element x Hx) (rfc_sd_element y Hy)) as (A & B & _); [rewrite E; reflexivity|].
      destruct x, y. cbn [fst snd] in *. congruence. }
  destruct Q as [-> ->]. reflexivity.
Qed.
Print Assumptions C108_parts_unique.

(** ** the header: right whenever Parse takes the message *)
Definition rfc_no_time : civil := {| c_year := 1; c_month := 1; c_day := 1; c_hour := 0; c_min := 0; c_sec := 0; c_nsec := 0; c_off := 0 |}.
Lemma rfc_field_valid n w : (1 <= n)%nat -> rfc_field n w -> header_word n w.
Proof.
  intros Hn [-> |[Hl H]].
  - split; [discriminate|]. split; [exact Hn|]. intros c [<-|[]]. unfold printusascii. cbn. lia.
  - split; [intros ->; cbn in Hl; lia|]. split; [lia|exact H].
Qed.

Lemma rfc_timestamp_civil b : rfc_timestamp b -> b = bs "-" \/ exists c, rfc5424_timestamp b c.
Proof.
  intros [-> |(y & mo & d & h & mi & s & f & z & -> & (Ly & Dy & Vy) & (Lm & Dm & Vm) & (Ld & Dd & Vd) & (Lh & Dh & Vh) & (Li & Di & Vi) & (Ls & Ds & Vs) & Hf & Hz)]; [left; reflexivity|right].
  assert (F : exists ns, (f = [] /\ ns = 0%Z) \/ exists fd v, f = bs "." ++ fd /\ (1 <= length fd <= 6)%nat /\ PropStamp.number (length fd) fd v /\ ns = (v * 10 ^ (9 - Z.of_nat (length fd)))%Z).
  { destruct Hf as [-> |(ds & -> & Hl & Hd)]; [exists 0%Z; left; auto|]. eexists. right. exists ds, (decimal_value ds). split; [reflexivity|]. split; [exact Hl|]. split; [split; [reflexivity|auto]|reflexivity]. }
  destruct F as [ns F].
  assert (O : exists off, (z = bs "Z" /\ off = 0%Z) \/ exists zh zm h mi, PropStamp.number 2 zh h /\ (h <= 23)%Z /\ PropStamp.number 2 zm mi /\ (mi <= 59)%Z /\
       ((z = bs "+" ++ zh ++ bs ":" ++ zm /\ off = ((h * 60 + mi) * 60)%Z) \/ (z = bs "-" ++ zh ++ bs ":" ++ zm /\ off = (- ((h * 60 + mi) * 60))%Z))).
  { destruct Hz as [-> |(sg & zh & zm & -> & Hsg & (L1 & D1 & V1) & (L2 & D2 & V2))]; [exists 0%Z; left; auto|].
    destruct Hsg as [-> | ->]; eexists; right; exists zh, zm, (decimal_value zh), (decimal_value zm); (split; [split; auto|]); (split; [lia|]); (split; [split; auto|]); (split; [lia|]); [left|right]; (split; reflexivity). }
  destruct O as [off O].
  exists {| c_year := decimal_value y; c_month := decimal_value mo; c_day := decimal_value d; c_hour := decimal_value h; c_min := decimal_value mi; c_sec := decimal_value s; c_nsec := ns; c_off := off |}.
  exists y, mo, d, h, mi, s, f, z, (days_in (decimal_value mo) (decimal_value y)). cbn [c_year c_month c_day c_hour c_min c_sec c_nsec c_off].
  split; [reflexivity|]. rewrite last_day_days_in in Vd. split; [split; auto|]. split; [split; auto|]. split; [lia|]. split; [split; auto|]. split; [apply days_in_spec; lia|]. split; [lia|].
  split; [split; auto|]. split; [lia|]. split; [split; auto|]. split; [lia|]. split; [split; auto|]. split; [lia|]. split; [exact F|exact O].
Qed.

Lemma nil_no_timestamp : forall c, ~ timestamp (bs "-") c.
Proof. apply no_timestamp. reflexivity. Qed.

Lemma sanitised_self n w : header_word n w -> sanitised n w w.
Proof.
  intros Hw. pose proof Hw as (Hn & Hl & Ha). split; [exact Hw|]. split; [intros ->; congruence|]. intros _. split; [lia|].
  intros i b _ Hb. split; [auto|]. intros Hx. destruct Hx. apply Ha. apply (nth_error_In _ _ Hb).
Qed.
Lemma parse_string data eof p : parse data None eof = Val (p, None, None) -> imm_string p = data.
Proof. intros H. apply parse_iff in H as (ws & tl & _ & _ & _ & H & _). exact H. Qed.

Theorem C108_header : forall r eof p, rfc_ok r -> parse (rfc_text r) None eof = Val (p, None, None) ->
  imm_hostname p = Val (r_host r) /\ imm_appname p = Val (r_app r) /\ imm_procid p = Val (r_procid r) /\ imm_msgid p = Val (r_msgid r) /\
  (forall d, r_pri r = bs "<" ++ d ++ bs ">" -> all_digits d -> (r_ver r = bs "1" -> imm_priority p = Val (decimal_value d)) /\ (r_ver r <> bs "1" -> imm_priority p = Val 0%Z)) /\
  exists ts, imm_timestamp p = Val ts /\ (forall c, rfc5424_timestamp (r_ts r) c -> civil_of ts = c) /\ (r_ts r = bs "-" -> civil_of ts = rfc_no_time).
Proof.
  intros r eof p Hr Hp. pose proof Hr as (Hpri & Hv & Ht & Hh & Ha & Hpi & Hmi & _).
  destruct (C19_header_split _ _ _ Hp) as (w1 & w2 & w3 & w4 & w5 & w6 & q & E & Hw & _ & (v & ok & Hpr & Hq) & Hts & (h & a & i & g & Eh & Ea & Ei & Eg & Sh & Sa & Si & Sg)).
  assert (E' : join (rfc_words r) ++ rfc_sds (r_sd r) ++ rfc_tail r = join [w1; w2; w3; w4; w5; w6] ++ q).
  { rewrite <- rfc_text_join, E. unfold join. cbn [map concat]. rewrite <- !app_assoc. reflexivity. }
  apply join_unique in E' as [Ew _]; [|reflexivity|apply rfc_words_word, Hr|exact Hw]. unfold rfc_words in Ew. injection Ew as <- <- <- <- <- <-.
  assert (San : forall n w o, (1 <= n)%nat -> header_word n w -> sanitised n w o -> o = w).
  { intros n w o Hn Hwd HS. apply (sanitised_unique n w); [exact HS|]. apply sanitised_self, Hwd. }
  rewrite Eh, Ea, Ei, Eg. rewrite (San 255%nat _ _ ltac:(lia) (rfc_field_valid 255 _ ltac:(lia) Hh) Sh), (San 48%nat _ _ ltac:(lia) (rfc_field_valid 48 _ ltac:(lia) Ha) Sa),
    (San 128%nat _ _ ltac:(lia) (rfc_field_valid 128 _ ltac:(lia) Hpi) Si), (San 32%nat _ _ ltac:(lia) (rfc_field_valid 32 _ ltac:(lia) Hmi) Sg).
  do 4 (split; [reflexivity|]). split.
  - intros d Ed Dd. rewrite Hq. destruct Hpri as (d' & Ed' & Ld & Dd' & _).
    assert (d' = d). { rewrite Ed in Ed'. injection Ed' as Ed'. change (bs ">") with [62%N] in Ed'. apply app_inj_tail in Ed' as [-> _]. reflexivity. } subst d'. split.
    + intros Ev. destruct (C02_unmarshal_exact 0 (r_pri r ++ r_ver r)) as [U _]. rewrite (U d) in Hpr; [injection Hpr as <- _; reflexivity|]. split; [rewrite Ed, Ev, <- !app_assoc; reflexivity|auto].
    + intros Ev. destruct (C02_unmarshal_exact 0 (r_pri r ++ r_ver r)) as [_ U]. rewrite U in Hpr; [injection Hpr as <- _; reflexivity|]. intros (d2 & E2 & _ & D2).
      apply Ev. rewrite Ed in E2. change (bs "<") with [60%N] in E2. change (bs ">") with [62%N] in E2. change (bs ">1") with [62%N; 49%N] in E2. cbn [app] in E2. rewrite <- app_assoc in E2. cbn [app] in E2.
      apply (f_equal (@List.tl N)) in E2. cbn [List.tl] in E2. apply digits_cut in E2 as (_ & _ & E2); auto; lia.
  - exists (time_parse (r_ts r)). split; [exact Hts|].
    destruct (C88_timestamp_iff _ _ _ _ _ _ Hp) as (y1 & y2 & y & ts & E3 & Hy1 & Hy2 & Hts' & A & B).
    { rewrite (parse_string _ _ _ Hp). rewrite rfc_text_join. unfold rfc_words, join. cbn [map concat]. destruct Hpri as (d & -> & _). discriminate. }
    rewrite Hts in Hts'. injection Hts' as <-.
    assert (y2 = r_ts r).
    { rewrite (parse_string _ _ _ Hp), rfc_text_join in E3. pose proof (rfc_words_word r Hr) as W. unfold rfc_words in *. 
      assert (E4 : join [r_pri r ++ r_ver r; r_ts r] ++ (join [r_host r; r_app r; r_procid r; r_msgid r] ++ rfc_sds (r_sd r) ++ rfc_tail r) = join [y1; y2] ++ y).
      { etransitivity; [|etransitivity; [exact E3|]]; unfold join; cbn [map concat]; rewrite <- !app_assoc; reflexivity. }
      apply join_unique in E4 as [E4 _]; [injection E4 as _ <-; reflexivity|reflexivity| |repeat constructor; [apply Hy1|apply Hy1|apply Hy2|apply Hy2]].
      apply Forall_cons_iff in W as [W1 W]. apply Forall_cons_iff in W as [W2 _]. constructor; [exact W1|constructor; [exact W2|constructor]]. }
    subst y2. split.
    + intros c Hc. apply A, C88_rfc5424, Hc.
    + intros En. apply B. rewrite En. exact nil_no_timestamp.
Qed.
Print Assumptions C108_header.

(** ** which messages of the grammar are read right *)
(** Parse takes the message and every part comes back: the number between the angle brackets, the date
    (the zero date for "-"), the four names, the structured data elements (with no decoder registered:
    name and parameters, values as they are written), and the text after the separator *)
Definition read_right (r : parts) (eof : bool) (spare : bytes) : Prop :=
  exists p d ts, parse (rfc_text r) None eof = Val (p, None, None) /\
    r_pri r = bs "<" ++ d ++ bs ">" /\ all_digits d /\ imm_priority p = Val (decimal_value d) /\
    imm_timestamp p = Val ts /\ (forall c, rfc5424_timestamp (r_ts r) c -> civil_of ts = c) /\ (r_ts r = bs "-" -> civil_of ts = rfc_no_time) /\
    imm_hostname p = Val (r_host r) /\ imm_appname p = Val (r_app r) /\ imm_procid p = Val (r_procid r) /\ imm_msgid p = Val (r_msgid r) /\
    imm_structured_data (fun _ => []) spare p = Val (map (fun e => SDUnknown (fst e) (snd e)) (r_sd r)) /\
    imm_text p = Val (match r_msg r with Some t => t | None => [] end).

Lemma rfc_unknown x : rfc_sd_ok x -> snd x <> [] -> unknown_found (rfc_sd_text x) = Val (Some (SDUnknown (fst x) (snd x))).
Proof.
  destruct x as [name ps]. intros [(Hl & Hn) Hp] Hps. cbn [fst snd] in *. apply C61_unknown_accepts_iff. split.
  - split; [intros ->; cbn in Hl; lia|]. split; [apply rfc_name_loose; split; assumption|]. split; [exact Hps|]. split.
    + eapply Forall_impl; [|exact Hp]. intros p [A B]. split; [apply rfc_name_loose, A|apply rfc_value_well, B].
    + intros _ E. destruct (exists_last Hps) as (l & q & ->). rewrite last_last in E. subst q. apply Forall_app in Hp as [_ Hp]. apply Forall_cons_iff in Hp as [[(Hx & _) _] _]. cbn in Hx. lia.
  - exists (repeat 1%nat (length ps)). split; [apply repeat_length|]. split; [apply Forall_forall; intros n Hi; apply repeat_spec in Hi; lia|].
    unfold rfc_sd_text. cbn [fst snd]. f_equal. f_equal. f_equal. clear. induction ps as [|[k v] ps IH]; [reflexivity|]. cbn [length repeat combine map concat fst snd]. rewrite IH. reflexivity.
Qed.
Lemma rfc_scan x : rfc_sd_ok x -> snd x <> [] -> scan_element (rfc_sd_text x).
Proof.
  intros [(Hl & Hn) Hp] Hps. apply element_scan. exists (fst x), (snd x). split; [unfold rfc_sd_text; f_equal; f_equal; f_equal; f_equal; apply map_ext; intros [k v]; reflexivity|].
  split; [intros E; rewrite E in Hl; cbn in Hl; lia|]. split; [apply rfc_name_loose; split; assumption|]. split; [exact Hps|].
  eapply Forall_impl; [|exact Hp]. intros p [A B]. split; [apply rfc_name_loose, A|apply rfc_value_well, B].
Qed.

Lemma rfc_late x es tl : rfc_sd_ok x -> snd x <> [] -> late_space (concat (map rfc_sd_text (x :: es)) ++ tl).
Proof.
  destruct x as [name ps]. intros [(Hl & Hn) Hp] Hps. cbn [fst snd] in *. destruct ps as [|[k v] ps]; [congruence|].
  eexists (LBR :: name), _. split; [cbn [map concat]; unfold rfc_sd_text at 1; cbn [fst snd map concat]; rewrite <- !app_assoc; reflexivity|].
  split; [|cbn [length]; lia]. intros [E|Hi]; [discriminate E|]. destruct (Hn _ Hi) as [? _]. lia.
Qed.

Theorem C108_read_right_iff : forall r eof spare, rfc_ok r ->
  (read_right r eof spare <->
   (r_ver r = bs "1" \/ decimal_value (removelast (List.tl (r_pri r))) = 0%Z) /\
   Forall (fun e => snd e <> []) (r_sd r) /\
   (r_sd r = [] \/ r_msg r = None \/ exists t, r_msg r = Some t /\ text_safe (SP :: t))).
Proof.
  intros r eof spare Hr. pose proof Hr as ((d & Ed & _ & Dd & _) & Hv & _ & _ & _ & _ & _ & Hsd & _).
  assert (Rd : removelast (List.tl (r_pri r)) = d) by (rewrite Ed; change (List.tl (bs "<" ++ d ++ bs ">")) with (d ++ [62%N]); apply removelast_last).
  rewrite Rd. split.
  - intros (p & d0 & ts & Hp & Ed0 & _ & Hpr & _ & _ & _ & _ & _ & _ & _ & Hs & Ht).
    assert (d0 = d) by (rewrite <- Rd, Ed0; change (List.tl (bs "<" ++ d0 ++ bs ">")) with (d0 ++ [62%N]); symmetry; apply removelast_last). subst d0.
    split; [|split].
    + destruct (C108_header r eof p Hr Hp) as (_ & _ & _ & _ & Q & _). destruct (Q d Ed Dd) as [_ Q2].
      destruct (list_eq_dec N.eq_dec (r_ver r) (bs "1")) as [E|E]; [left; exact E|right]. rewrite (Q2 E) in Hpr. injection Hpr as <-. reflexivity.
    + destruct (r_sd r) as [|x es] eqn:Esd; [constructor|].
      apply parse_iff in Hp as Ha. destruct (accepted_scanned _ _ Ha) as (ws & els & tl & Hc). 
      apply (C91_structured_data_iff _ _ _ _ _ _ _ spare _ Hp Hc) in Hs as [[_ E]|[_ Hval]]; [discriminate E|].
      assert (K : forall off l, values (fun _ => []) (tl ++ spare) off els l -> Forall (fun s => forall n ps, s = SDUnknown n ps -> ps <> []) l).
      { clear. intros off l H. induction H as [|off el els sd l Hl _ IH|off el els l _ _ IH]; [constructor| |exact IH]. constructor; [|exact IH]. intros n ps ->.
        inversion Hl as [pre dd post sd E|o _ Hu]; subst; [destruct pre; discriminate E|]. apply C61_unknown_accepts_iff in Hu as [(_ & _ & Hx & _) _]. exact Hx. }
      apply K in Hval. apply Forall_map in Hval. eapply Forall_impl; [|exact Hval]. intros [n ps] H. cbn [fst snd] in *. apply (H _ _ eq_refl).
    + destruct (r_sd r) as [|x es] eqn:Esd; [left; reflexivity|right]. destruct (r_msg r) as [t|] eqn:Em; [right|left; reflexivity]. exists t. split; [reflexivity|].
      assert (Hx : exists p, parse (rfc_text r) None eof = Val (p, None, None) /\ text_is p t) by (exists p; auto).
      apply C20_accepted_iff in Hx as (ws & tail & Hl & Hw & E & Hc). rewrite rfc_text_join, Esd in E. unfold rfc_tail in E. rewrite Em in E.
      apply join_unique in E as [_ E]; [|rewrite Hl; reflexivity|apply rfc_words_word, Hr|exact Hw]. cbn [rfc_sds rfc_tl] in E.
      destruct Hc as [[-> _]|[-> |[(_ & els & Hf & _ & Et & ->)|(_ & els & c & Hf & Et & Hsafe)]]].
      * discriminate E.
      * discriminate E.
      * split; [intros u v Eu; destruct u as [|? [|? ?]]; discriminate Eu|intros [u Eu]; destruct u as [|? [|? ?]]; discriminate Eu].
      * assert (c = SP); [|subst c; exact Hsafe]. rewrite Et in E. change (bs " ") with [SP] in E. apply (f_equal (@rev N)) in E.
        rewrite !rev_app_distr in E. cbn [rev app] in E. rewrite <- !app_assoc in E. apply app_inv_head in E. cbn [app] in E. injection E as <- _. reflexivity.
  - intros (Hver & Hps & Hm).
    assert (HP : exists p, parse (rfc_text r) None eof = Val (p, None, None) /\ text_is p (match r_msg r with Some t => t | None => [] end)).
    { apply C20_accepted_iff. exists (rfc_words r), (rfc_sds (r_sd r) ++ rfc_tail r). split; [reflexivity|]. split; [apply rfc_words_word, Hr|]. split; [apply rfc_text_join|]. unfold rfc_tail.
      destruct (r_sd r) as [|x es] eqn:Esd.
      - destruct (r_msg r) as [t|]; [right; left; reflexivity|left; split; reflexivity].
      - right; right. assert (Hf : Forall scan_element (map rfc_sd_text (x :: es))).
        { apply Forall_map. rewrite Forall_forall in *. intros y Hy. apply rfc_scan; [apply Hsd, Hy|apply Hps, Hy]. }
        apply Forall_cons_iff in Hsd as [Hx _]. apply Forall_cons_iff in Hps as [Hxp _].
        destruct (r_msg r) as [t|].
        + right. split; [apply rfc_late; assumption|]. exists (map rfc_sd_text (x :: es)), SP. split; [exact Hf|]. split; [reflexivity|].
          destruct Hm as [E|[E|(t' & E & Hs)]]; try discriminate E. injection E as <-. exact Hs.
        + left. cbn [rfc_tl]. rewrite app_nil_r. split; [rewrite <- (app_nil_r (rfc_sds _)); apply rfc_late; assumption|]. exists (map rfc_sd_text (x :: es)). split; [exact Hf|]. split; [discriminate|]. split; reflexivity. }
    destruct HP as (p & Hp & Ht). destruct (C108_header r eof p Hr Hp) as (Hh & Ha & Hpi & Hmi & Q & ts & Hts & Hts1 & Hts2).
    exists p, d, ts. split; [exact Hp|]. split; [exact Ed|]. split; [exact Dd|]. split.
    { destruct (Q d Ed Dd) as [Q1 Q2]. destruct (list_eq_dec N.eq_dec (r_ver r) (bs "1")) as [E|E]; [exact (Q1 E)|]. destruct Hver as [E'|E']; [congruence|]. rewrite E'. exact (Q2 E). }
    do 7 (split; [assumption|]). split; [|exact Ht].
    assert (Hc : exists tl, scanned (rfc_text r) (rfc_words r) (map rfc_sd_text (r_sd r)) tl).
    { exists (match r_sd r with [] => bs "-" | _ => [] end ++ rfc_tail r). split; [reflexivity|]. split; [apply rfc_words_word, Hr|]. split.
      { rewrite rfc_text_join. destruct (r_sd r); reflexivity. }
      assert (Hf : Forall scan_element (map rfc_sd_text (r_sd r))).
      { apply Forall_map. rewrite Forall_forall in *. intros y Hy. apply rfc_scan; [apply Hsd, Hy|apply Hps, Hy]. }
      split; [exact Hf|]. unfold rfc_tail. destruct (r_sd r) as [|x es] eqn:Esd.
      - left. split; [reflexivity|]. destruct (r_msg r) as [t|]; [right; exists t; reflexivity|left; reflexivity].
      - right. apply Forall_cons_iff in Hsd as [Hx _]. apply Forall_cons_iff in Hps as [Hxp _]. split; [apply rfc_late; assumption|].
        destruct (r_msg r) as [t|]; [right|left; split; [reflexivity|discriminate]]. split; [discriminate|]. destruct Hm as [E|[E|(t' & E & Hs)]]; try discriminate E. injection E as <-. exact Hs. }
    destruct Hc as [tl Hc]. rewrite (C91_default_decoder _ _ _ _ _ _ spare Hp Hc).
    + f_equal. clear - Hsd Hps. induction (r_sd r) as [|x es IH]; [reflexivity|]. apply Forall_cons_iff in Hsd as [Hx Hsd]. apply Forall_cons_iff in Hps as [Hxp Hps].
      cbn [map flat_map]. rewrite (rfc_unknown x Hx Hxp), (IH Hsd Hps). reflexivity.
    + intros [e E]. destruct (r_sd r) as [|x es]; [discriminate E|]. cbn [map] in E. unfold rfc_sd_text at 1 in E. apply (f_equal (@hd bytes [])) in E. discriminate E.
Qed.
Print Assumptions C108_read_right_iff.

(** ** concrete messages *)
Definition rfc_example (sd : list (bytes * list (bytes * bytes))) (ver : bytes) (msg : option bytes) : parts :=
  {| r_pri := bs "<165>"; r_ver := ver; r_ts := bs "2003-10-11T22:14:15.003Z"; r_host := bs "mymachine.example.com"; r_app := bs "evntslog"; r_procid := bs "-"; r_msgid := bs "ID47";
     r_sd := sd; r_msg := msg |}.
Lemma ascii_value b : forallb (fun c => (c <=? 127)%N && negb (c =? 34)%N && negb (c =? 92)%N && negb (c =? 93)%N)%bool b = true -> rfc_param_value b.
Proof.
  intros H. exists (map (fun c => [c]) b). split; [|clear; induction b as [|h b IH]; [reflexivity|cbn [map concat]; rewrite <- IH; reflexivity]].
  apply Forall_map. apply Forall_forall. intros c Hc. rewrite forallb_forall in H. specialize (H c Hc). left. split; [constructor; lia|]. split; [|split]; intros E; injection E as E; lia.
Qed.
Lemma example_name b : (1 <= length b <= 32)%nat -> forallb (fun c => (33 <=? c)%N && (c <=? 126)%N && negb (c =? 61)%N && negb (c =? 93)%N && negb (c =? 34)%N)%bool b = true -> rfc_sd_name b.
Proof. intros Hl H. split; [exact Hl|]. intros c Hc. rewrite forallb_forall in H. specialize (H c Hc). lia. Qed.
Lemma example_ok sd ver msg : Forall rfc_sd_ok sd -> rfc_version ver -> (forall t, msg = Some t -> rfc_msg t) -> rfc_ok (rfc_example sd ver msg).
Proof.
  intros Hsd Hv Hm. unfold rfc_ok, rfc_example. cbn [r_pri r_ver r_ts r_host r_app r_procid r_msgid r_sd r_msg].
  split; [exists (bs "165"); split; [reflexivity|]; split; [cbn; lia|]; split; [intros c Hc; cbn in Hc; lia|vm_compute; discriminate]|]. split; [exact Hv|].
  split.
  { right. exists (bs "2003"), (bs "10"), (bs "11"), (bs "22"), (bs "14"), (bs "15"), (bs ".003"), (bs "Z"). split; [reflexivity|].
    assert (D : forall w lo hi b, length b = w -> all_digits b -> (lo <= decimal_value b <= hi)%Z -> rfc_number w lo hi b) by (intros; split; auto).
    assert (Dg : forall b, forallb (fun c => (48 <=? c)%N && (c <=? 57)%N)%bool b = true -> all_digits b) by (intros b H c Hc; rewrite forallb_forall in H; specialize (H c Hc); lia).
    do 6 (split; [apply D; [reflexivity|apply Dg; reflexivity|vm_compute; split; discriminate]|]).
    split; [right; exists (bs "003"); split; [reflexivity|split; [cbn; lia|apply Dg; reflexivity]]|left; reflexivity]. }
  split; [right; split; [cbn; lia|intros c Hc; cbn in Hc; lia]|]. split; [right; split; [cbn; lia|intros c Hc; cbn in Hc; lia]|]. split; [left; reflexivity|].
  split; [right; split; [cbn; lia|intros c Hc; cbn in Hc; lia]|]. auto.
Qed.
Definition ex_sd : bytes * list (bytes * bytes) := (bs "exampleSDID@32473", [(bs "iut", bs "3"); (bs "eventSource", bs "Application")]).
Lemma ex_sd_ok : rfc_sd_ok ex_sd.
Proof.
  split; [apply example_name; [cbn; lia|reflexivity]|]. unfold ex_sd. cbn [snd]. apply Forall_forall. intros p [<- |[<- |[]]]; (split; [apply example_name; [cbn; lia|reflexivity]|apply ascii_value; reflexivity]).
Qed.
Lemma ascii_msg b : forallb (fun c => (c <=? 127)%N) b = true -> rfc_msg b.
Proof. intros H. left. intros [y ->]. cbn in H. discriminate H. Qed.
Lemma v1_ok : rfc_version (bs "1").
Proof. split; [cbn; lia|]. split; [intros c [<- |[]]; vm_compute; split; discriminate|discriminate]. Qed.

(** the first example of RFC 5424, 6.5, with structured data and a text, is read right *)
Example C108_nonvacuous :
  let r := rfc_example [ex_sd] (bs "1") (Some (bs "An application event log entry...")) in
  rfc_ok r /\ syslog_msg (rfc_text r) /\
  rfc_text r = bs "<165>1 2003-10-11T22:14:15.003Z mymachine.example.com evntslog - ID47 [exampleSDID@32473 iut=""3"" eventSource=""Application""] An application event log entry..." /\
  read_right r true [].
Proof.
  cbv zeta. assert (H : rfc_ok (rfc_example [ex_sd] (bs "1") (Some (bs "An application event log entry...")))).
  { apply example_ok; [constructor; [exact ex_sd_ok|constructor]|exact v1_ok|intros t E; injection E as <-; apply ascii_msg; reflexivity]. }
  split; [exact H|]. split; [apply C108_parts; eauto|]. split; [reflexivity|]. apply C108_read_right_iff; [exact H|]. split; [left; reflexivity|]. split; [constructor; [discriminate|constructor]|].
  right. right. eexists. split; [reflexivity|]. split.
  - intros x y E. assert (Hi : In RBR (SP :: bs "An application event log entry...")) by (rewrite E; apply in_elt). cbn in Hi. exfalso. repeat (destruct Hi as [Hi|Hi]; [discriminate Hi|]). exact Hi.
  - intros [x E]. assert (Hi : In RBR (SP :: bs "An application event log entry...")) by (rewrite E; apply in_elt). cbn in Hi. exfalso. repeat (destruct Hi as [Hi|Hi]; [discriminate Hi|]). exact Hi.
Qed.
Print Assumptions C108_nonvacuous.

(** "every message of the grammar is read right" is false, in each of the three ways: an element without
    parameter is refused, a text with a bracket beside structured data is refused or loses its beginning,
    a version other than 1 loses the priority *)
Theorem C108_every_message_refuted :
  (exists r, rfc_ok r /\ rfc_text r = bs "<165>1 2003-10-11T22:14:15.003Z mymachine.example.com evntslog - ID47 [x@1] hello" /\
     forall p, parse (rfc_text r) None true <> Val (p, None, None)) /\
  (exists r, rfc_ok r /\ rfc_text r = bs "<165>1 2003-10-11T22:14:15.003Z mymachine.example.com evntslog - ID47 [exampleSDID@32473 iut=""3"" eventSource=""Application""] see [1]" /\
     forall p, parse (rfc_text r) None true <> Val (p, None, None)) /\
  (exists r p, rfc_ok r /\ rfc_text r = bs "<165>1 2003-10-11T22:14:15.003Z mymachine.example.com evntslog - ID47 [exampleSDID@32473 iut=""3"" eventSource=""Application""] key=""[v""] done" /\
     parse (rfc_text r) None true = Val (p, None, None) /\ imm_text p = Val (bs "done")) /\
  (exists r p, rfc_ok r /\ rfc_text r = bs "<165>2 2003-10-11T22:14:15.003Z mymachine.example.com evntslog - ID47 - hello" /\
     parse (rfc_text r) None true = Val (p, None, None) /\ imm_priority p = Val 0%Z).
Proof.
  split; [|split; [|split]].
  - exists (rfc_example [(bs "x@1", [])] (bs "1") (Some (bs "hello"))). split.
    { apply example_ok; [constructor; [split; [apply example_name; [cbn; lia|reflexivity]|constructor]|constructor]|exact v1_ok|intros t E; injection E as <-; apply ascii_msg; reflexivity]. }
    split; [reflexivity|]. intros p. vm_compute. discriminate.
  - exists (rfc_example [ex_sd] (bs "1") (Some (bs "see [1]"))). split.
    { apply example_ok; [constructor; [exact ex_sd_ok|constructor]|exact v1_ok|intros t E; injection E as <-; apply ascii_msg; reflexivity]. }
    split; [reflexivity|]. intros p. vm_compute. discriminate.
  - eexists (rfc_example [ex_sd] (bs "1") (Some (bs "key=""[v""] done"))), _. split.
    { apply example_ok; [constructor; [exact ex_sd_ok|constructor]|exact v1_ok|intros t E; injection E as <-; apply ascii_msg; reflexivity]. }
    split; [reflexivity|]. split; [vm_compute; reflexivity|]. vm_compute. reflexivity.
  - eexists (rfc_example [] (bs "2") (Some (bs "hello"))), _. split.
    { apply example_ok; [constructor|split; [cbn; lia|split; [intros c [<- |[]]; vm_compute; split; discriminate|discriminate]]|intros t E; injection E as <-; apply ascii_msg; reflexivity]. }
    split; [reflexivity|]. split; [vm_compute; reflexivity|]. vm_compute. reflexivity.
Qed.
Print Assumptions C108_every_message_refuted.

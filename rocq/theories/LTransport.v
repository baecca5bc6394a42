(** LTransport.v -- proofs about framing and Parse with a transport. *)
From Verif Require Import Base BaseFacts Spec MPriority MHelpers MTime MSData MMessage MTransport MParse LPriority LParse.
From Coq Require Import ZifyBool ZifyNat ZifyN.

(** ** RFC 5425 frames *)
Lemma itoa_nat n : itoa (Z.of_nat n) = utoa (N.of_nat n).
Proof. unfold itoa. destruct (Z.ltb_spec (Z.of_nat n) 0); [lia|]. f_equal. lia. Qed.

Lemma digits_no_space l : Forall (fun c => is_digit c = true) l -> ~ In SP l.
Proof. intros H Hin. rewrite Forall_forall in H. specialize (H _ Hin). discriminate. Qed.

Lemma rfc_strip_frame d tail eof :
  (20 <= length (encode TRFC5425 d ++ tail))%nat ->
  (Z.of_nat (length (encode TRFC5425 d)) < 2 ^ 63)%Z ->
  rfc5425_prefix_strip (encode TRFC5425 d ++ tail) eof = Val (Some d, Some tail, None).
Proof.
  intros H20 H63. unfold rfc5425_prefix_strip. cbn [encode] in *.
  rewrite itoa_nat in *. set (h := utoa (N.of_nat (length d))) in *.
  destruct (Nat.eqb_spec (length ((h ++ [SP] ++ d) ++ tail)) 0); [lia|].
  destruct (Nat.ltb_spec (length ((h ++ [SP] ++ d) ++ tail)) 20); [lia|].
  assert (Hns : ~ In SP h) by (apply digits_no_space, utoa_digits).
  assert (Hix : index_byte SP ((h ++ [SP] ++ d) ++ tail) = Some (length h)).
  { rewrite <- !app_assoc. cbn [app]. apply index_byte_app_notin; exact Hns. }
  rewrite Hix. destruct (length h) as [|lh] eqn:Eh.
  { exfalso. apply (utoa_nonnil (N.of_nat (length d))). fold h. destruct h; [reflexivity|discriminate]. }
  rewrite <- Eh. rewrite <- !app_assoc, firstn_app_exact.
  assert (Hd63 : (Z.of_nat (length h) + 1 + Z.of_nat (length d) < 2 ^ 63)%Z) by (rewrite !app_length in H63; cbn in H63; lia).
  assert (Ha : atoi h = Some (Z.of_nat (length d))).
  { unfold atoi. subst h. rewrite parse_int_utoa by lia. f_equal. lia. }
  rewrite Ha. rewrite wrap64_id by lia.
  rewrite !app_length. cbn [length].
  replace (Z.of_nat (length h + 1) + Z.of_nat (length d))%Z with (Z.of_nat (length h + 1 + length d)) by lia.
  destruct (Z.ltb_spec (Z.of_nat (length h + (1 + (length d + length tail)))) (Z.of_nat (length h + 1 + length d))); [lia|].
  destruct (Z.ltb_spec (Z.of_nat (length h + 1 + length d)) 0); [lia|]. rewrite Nat2Z.id.
  replace (h ++ [SP] ++ d ++ tail) with ((h ++ [SP]) ++ d ++ tail) by (rewrite <- app_assoc; reflexivity).
  replace (length h + 1)%nat with (length (h ++ [SP])) by (rewrite app_length; reflexivity).
  rewrite go_slice_app. cbn [bind]. rewrite go_from_val by (rewrite !app_length; lia).
  cbn [bind]. replace (length (h ++ [SP]) + length d)%nat with (length ((h ++ [SP]) ++ d)) by (rewrite app_length; reflexivity).
  rewrite app_assoc, skipn_app_exact. reflexivity.
Qed.

(** ** parse_body in terms of the transport-less parser *)
Lemma parse_body_core t eof data rest me eof' :
  (forall m, parse data None eof' = Val (m, None, None) -> parse_body t eof data rest me = parse_return m t eof data rest) /\
  (forall m e, parse data None eof' = Val (m, None, Some e) -> parse_body t eof data rest me = Val (zero_immutable, rest, dispatch_error me e)).
Proof.
  unfold parse, parse_body.
  destruct (header_loop 6 data 0 []) as [[[idx begin]|e0]| |] eqn:Eh; cbn [bind].
  2: { split; intros; inv H; reflexivity. }
  2-3: split; intros; discriminate.
  destruct (go_from data begin) as [tail| |]; cbn [bind].
  2-3: split; intros; discriminate.
  destruct (length tail =? 0)%nat. { split; intros; inv H; reflexivity. }
  destruct (length tail =? 1)%nat.
  { destruct (go_at data begin) as [c| |]; cbn [bind].
    2-3: split; intros; discriminate.
    destruct (negb (c =? 45)%N). { split; intros; inv H; reflexivity. }
    cbn [parse_return]. split; intros; inv H; reflexivity. }
  destruct (search_next_sep tail SP) as [e|e].
  2: { split; intros; inv H; reflexivity. }
  destruct (e =? 1)%nat.
  { destruct (go_at data begin) as [c| |]; cbn [bind].
    2-3: split; intros; discriminate.
    destruct (negb (c =? 45)%N). { split; intros; inv H; reflexivity. }
    cbn [parse_return]. split; intros; inv H; reflexivity. }
  destruct (sd_loop (S (length data)) data begin begin idx) as [[idx' text|e']| |]; cbn [bind].
  - cbn [parse_return]. split; intros; inv H; reflexivity.
  - split; intros; inv H; reflexivity.
  - split; intros; discriminate.
  - split; intros; discriminate.
Qed.

Lemma parse_none_eof data e1 e2 : parse data None e1 = parse data None e2.
Proof.
  destruct (parse_none_spec data e1) as (m & e & H & _). rewrite H.
  destruct (parse_none_spec data e2) as (m2 & e' & H2 & Hs2).
  destruct e as [e|].
  - pose proof (proj2 (parse_body_core None e2 data None None e1) _ _ H) as Hc. unfold parse at 1. rewrite Hc.
    destruct (parse_none_spec data e1) as (m3 & e3 & H3 & Hs3). rewrite H in H3. inv H3. rewrite Hs3. reflexivity.
  - pose proof (proj1 (parse_body_core None e2 data None None e1) _ H) as Hc. unfold parse at 1. rewrite Hc. reflexivity.
Qed.

Lemma parse_body_rest t eof data r m e :
  parse data None eof = Val (m, None, e) ->
  parse_body (Some t) eof data (Some r) None = Val (m, Some r, e).
Proof.
  intros H. destruct e as [e|].
  - rewrite (proj2 (parse_body_core (Some t) eof data (Some r) None eof) _ _ H).
    destruct (parse_none_spec data eof) as (m3 & e3 & H3 & Hs3). rewrite H in H3. inv H3. rewrite Hs3. reflexivity.
  - rewrite (proj1 (parse_body_core (Some t) eof data (Some r) None eof) _ H). reflexivity.
Qed.

Lemma parse_rfc_frame d tail eof :
  (20 <= length (encode TRFC5425 d ++ tail))%nat ->
  (Z.of_nat (length (encode TRFC5425 d)) < 2 ^ 63)%Z ->
  forall m e, parse d None eof = Val (m, None, e) ->
  parse (encode TRFC5425 d ++ tail) (Some TRFC5425) eof = Val (m, Some tail, e).
Proof.
  intros H1 H2 m e H. unfold parse. cbn [prefix_strip]. rewrite rfc_strip_frame by assumption. cbn [bind].
  exact (parse_body_rest TRFC5425 eof d tail m e H).
Qed.

(** ** delimiter transports *)
Definition delim (t : transport) : option N :=
  match t with TZeroEnded => Some NUL | TLFEnded => Some LF | TRFC5425 => None end.

Lemma suffix_strip_found t c d tail eof : delim t = Some c -> ~ In c d ->
  suffix_strip t (d ++ c :: tail) eof = (Some d, Some tail, None).
Proof.
  intros Hc Hn. unfold suffix_strip.
  destruct (Nat.eqb_spec (length (d ++ c :: tail)) 0) as [E|_]; [rewrite app_length in E; cbn in E; lia|].
  destruct t; try discriminate; injection Hc as <-; rewrite index_byte_app_notin by exact Hn;
    rewrite firstn_app_exact;
    (replace (length d + 1)%nat with (length (d ++ [0%N])) by (rewrite app_length; reflexivity));
    do 2 f_equal.
  - rewrite app_length. cbn [length]. change (d ++ 0%N :: tail) with (d ++ [0%N] ++ tail). rewrite app_assoc.
    rewrite <- (app_length d [0%N]) at 1. rewrite skipn_app_exact. reflexivity.
  - rewrite app_length. cbn [length]. change (d ++ 10%N :: tail) with (d ++ [10%N] ++ tail). rewrite app_assoc.
    rewrite <- (app_length d [10%N]) at 1. rewrite skipn_app_exact. reflexivity.
Qed.

Lemma suffix_strip_none t c d eof : delim t = Some c -> ~ In c d -> d <> [] ->
  suffix_strip t d eof = (Some d, None, match t with TLFEnded => if eof then Some ErrTransportIncomplete else None | _ => None end).
Proof.
  intros Hc Hn Hne. unfold suffix_strip.
  destruct (Nat.eqb_spec (length d) 0) as [E|_]; [destruct d; [congruence|discriminate]|].
  apply index_byte_none in Hn.
  destruct t; try discriminate; injection Hc as <-; rewrite Hn; destruct eof; reflexivity.
Qed.

(** Every value of SuffixStrip on a delimiter transport. *)
Lemma suffix_strip_cases t c d eof : delim t = Some c ->
  (d = [] /\ suffix_strip t d eof = (None, None, None)) \/
  (exists a b, d = a ++ c :: b /\ ~ In c a /\ suffix_strip t d eof = (Some a, Some b, None)) \/
  (d <> [] /\ ~ In c d /\ suffix_strip t d eof =
     (Some d, None, match t with TLFEnded => if eof then Some ErrTransportIncomplete else None | _ => None end)).
Proof.
  intros Hc. destruct d as [|x d'] eqn:Ed; [left; split; reflexivity|]. right. rewrite <- Ed in *.
  destruct (in_bs_dec c d) as [Hin|Hin].
  - left. destruct (index_byte c d) as [i|] eqn:Ei; [|apply index_byte_none in Ei; contradiction].
    apply index_byte_some in Ei as (a & b & Heq & _ & Hn). exists a, b. split; [exact Heq|]. split; [exact Hn|].
    rewrite Heq. exact (suffix_strip_found t c a b eof Hc Hn).
  - right. assert (d <> []) by congruence. split; [assumption|]. split; [exact Hin|].
    exact (suffix_strip_none t c d eof Hc Hin H).
Qed.

(** ** Parse on a delimiter transport, in terms of the transport-less parser *)
Lemma parse_delim_eq t c data eof : delim t = Some c -> data <> [] ->
  parse data (Some t) eof = parse_body (Some t) eof data None None.
Proof.
  intros Hc Hne. unfold parse.
  assert (Hp : prefix_strip t data eof = Val (Some data, None, None)).
  { destruct t; try discriminate; cbn [prefix_strip];
      (destruct (Nat.eqb_spec (length data) 0) as [E|_]; [destruct data; [congruence|discriminate]|reflexivity]). }
  rewrite Hp. reflexivity.
Qed.

Lemma accepted_text_range data m : accepted data m ->
  i_buf m = data /\ (i_text m = (-1)%Z \/ (1 <= i_text m <= Z.of_nat (length data))%Z).
Proof.
  intros (ws & tail & Hl & Hw & Hd & Hb & Hc). split; [exact Hb|].
  assert (Hld : length data = (length (join ws) + length tail)%nat) by (rewrite Hd, app_length; reflexivity).
  destruct Hc as [(_ & _ & H)|[(x & Ht & _ & H)|(els & tl & _ & Ht & _ & _ & H)]].
  - left; exact H.
  - right. subst tail. cbn in Hld. lia.
  - destruct H as [(_ & _ & H)|(Hne & H)]; [left; exact H|]. right. subst tail. rewrite app_length in Hld.
    destruct tl; [congruence|]. cbn in Hld. lia.
Qed.

(** The text of an accepted message lies after the six words. *)
Lemma accepted_text_after data m : accepted data m -> exists ws tail,
  length ws = 6%nat /\ Forall word ws /\ data = join ws ++ tail /\ (exists more, i_index m = ends 0 ws ++ more) /\
  (i_text m = (-1)%Z \/ (Z.of_nat (length (join ws)) + 1 <= i_text m)%Z).
Proof.
  intros (ws & tail & Hl & Hw & Hd & Hb & Hc). exists ws, tail. repeat split; auto.
  - destruct Hc as [(_ & H & _)|[(x & _ & H & _)|(els & tl & _ & _ & _ & H & _)]]; eexists; exact H.
  - destruct Hc as [(_ & _ & H)|[(x & Ht & _ & H)|(els & tl & _ & Ht & _ & _ & H)]].
    + left; exact H. + right; lia. + destruct H as [(_ & _ & H)|(Hne & H)]; [left; exact H|right; lia].
Qed.

Lemma parse_return_cases m t c eof data : delim t = Some c -> i_buf m = data ->
  (1 <= i_text m <= Z.of_nat (length data))%Z ->
  exists pre tl, data = pre ++ tl /\ Z.of_nat (length pre) = i_text m /\
  ((tl = [] /\ parse_return m (Some t) eof data None = Val (zero_immutable, None, None)) \/
   (exists a b, tl = a ++ c :: b /\ ~ In c a /\
      parse_return m (Some t) eof data None =
        Val ({| i_buf := pre ++ a; i_index := i_index m; i_text := i_text m |}, Some b, None)) \/
   (tl <> [] /\ ~ In c tl /\ parse_return m (Some t) eof data None =
        Val (m, None, match t with TLFEnded => if eof then Some ErrTransportIncomplete else None | _ => None end))).
Proof.
  intros Hc Hb Ht. destruct (split_at data (Z.to_nat (i_text m))) as (pre & tl & Hd & Hl); [lia|].
  exists pre, tl. split; [exact Hd|]. split; [lia|].
  unfold parse_return, go_from_z. destruct (Z.ltb_spec (i_text m) 0); [lia|].
  rewrite go_from_val by lia. rewrite <- Hl. replace (skipn (length pre) data) with tl by (rewrite Hd, skipn_app_exact; reflexivity).
  cbn [bind].
  destruct (suffix_strip_cases t c tl eof Hc) as [(-> & He)|[(a & b & -> & Hn & He)|(Hne & Hn & He)]]; rewrite He.
  - left. auto.
  - right; left. exists a, b. split; [reflexivity|]. split; [exact Hn|].
    assert (Hx : (i_text m + Z.of_nat (length a))%Z = Z.of_nat (length (pre ++ a))) by (rewrite app_length; lia).
    rewrite Hx. rewrite Hb, Hd. destruct (Z.ltb_spec (Z.of_nat (length (pre ++ a))) (Z.of_nat (length (pre ++ a ++ c :: b)))) as [_|Hge].
    + rewrite Nat2Z.id. rewrite (app_assoc pre a), firstn_app_exact. reflexivity.
    + rewrite !app_length in Hge. cbn in Hge. lia.
  - right; right. split; [exact Hne|]. split; [exact Hn|].
    assert (Hx : (i_text m + Z.of_nat (length tl))%Z = Z.of_nat (length data)) by (rewrite Hd, app_length; lia).
    rewrite Hb, Hx. destruct (Z.ltb_spec (Z.of_nat (length data)) (Z.of_nat (length data))); [lia|].
    destruct t; try discriminate; destruct eof; reflexivity.
Qed.

(** ** shape of every RFC 5425 PrefixStrip result *)
Lemma rfc_strip_cases buf eof : 
  ((length buf < 20)%nat /\ rfc5425_prefix_strip buf eof = Val (None, None, None)) \/
  ((20 <= length buf)%nat /\
   ((rfc5425_prefix_strip buf eof = Val (None, None, Some ErrTransportNoHeader) /\ (~ In SP buf \/ exists r, buf = SP :: r)) \/
    exists h r, buf = h ++ SP :: r /\ h <> [] /\ ~ In SP h /\
     ((atoi h = None /\ rfc5425_prefix_strip buf eof = Val (None, None, Some ErrTransportInvHeader)) \/
      exists n, atoi h = Some n /\
        let total := wrap64 (Z.of_nat (length h + 1) + n) in
        ((Z.of_nat (length buf) < total)%Z /\
           rfc5425_prefix_strip buf eof = (if eof then Val (Some r, None, Some ErrTransportIncomplete) else Val (None, None, None))) \/
        ((total < Z.of_nat (length h + 1))%Z /\ rfc5425_prefix_strip buf eof = Panic) \/
        ((Z.of_nat (length h + 1) <= total <= Z.of_nat (length buf))%Z /\
           exists d q, r = d ++ q /\ Z.of_nat (length d) = (total - Z.of_nat (length h + 1))%Z /\
           rfc5425_prefix_strip buf eof = Val (Some d, Some q, None))))).
Proof.
  unfold rfc5425_prefix_strip.
  destruct (Nat.ltb_spec (length buf) 20) as [Hlt|Hge].
  { left. split; [exact Hlt|]. destruct (Nat.eqb_spec (length buf) 0); reflexivity. }
  right. split; [exact Hge|]. destruct (Nat.eqb_spec (length buf) 0); [lia|].
  destruct (index_byte SP buf) as [i|] eqn:Ei.
  2: { left. split; [reflexivity|]. left. apply index_byte_none in Ei; exact Ei. }
  apply index_byte_some in Ei as (h & r & Hb & Hl & Hn).
  destruct i as [|i].
  { left. split; [reflexivity|]. right. destruct h; [|discriminate]. exists r. exact Hb. }
  right. exists h, r. split; [exact Hb|]. split; [intros ->; discriminate|]. split; [exact Hn|].
  rewrite <- Hl. replace (firstn (length h) buf) with h by (rewrite Hb, firstn_app_exact; reflexivity).
  destruct (atoi h) as [n0|] eqn:Ea; [|left; auto].
  right. exists n0. split; [reflexivity|]. set (total := wrap64 (Z.of_nat (length h + 1) + n0)). cbv zeta.
  assert (Hb2 : buf = (h ++ [SP]) ++ r) by (rewrite Hb, <- app_assoc; reflexivity).
  assert (Hh1 : (length h + 1)%nat = length (h ++ [SP])) by (rewrite app_length; reflexivity).
  assert (Hlb : length buf = (length h + 1 + length r)%nat) by (rewrite Hb2, app_length, Hh1; reflexivity).
  destruct (Z.ltb_spec (Z.of_nat (length buf)) total) as [Hlt|Hle].
  { left. split; [exact Hlt|]. destruct eof; [|reflexivity].
    rewrite go_from_val by lia. cbn [bind]. rewrite Hh1, Hb2, skipn_app_exact. reflexivity. }
  right. destruct (Z.lt_ge_cases total (Z.of_nat (length h + 1))) as [Hneg|Hpos].
  { left. split; [exact Hneg|]. destruct (Z.ltb_spec total 0); [reflexivity|].
    unfold go_slice. destruct (Nat.leb_spec (length h + 1) (Z.to_nat total)); [lia|]. reflexivity. }
  right. split; [lia|]. destruct (Z.ltb_spec total 0); [lia|].
  destruct (split_at r (Z.to_nat (total - Z.of_nat (length h + 1)))) as (d & q & -> & Hd); [lia|].
  exists d, q. split; [reflexivity|]. split; [lia|].
  replace (Z.to_nat total) with (length (h ++ [SP]) + length d)%nat by lia.
  rewrite Hh1, Hb2, go_slice_app. cbn [bind].
  rewrite go_from_val by (rewrite !app_length; lia). cbn [bind].
  rewrite <- app_length, app_assoc, skipn_app_exact. reflexivity.
Qed.

(** PropTransport.v -- properties C22..C29 (transport.go and Parse with a transport). *)
From Verif Require Import Base BaseFacts Spec MPriority MHelpers MText MTime MSData MMessage MTransport MParse.
From Verif Require Import LPriority LText LAtoi LTime LSData LParse LTransport LRound LResult PropParse.
From Coq Require Import ZifyBool ZifyNat ZifyN.

(** the delimiter of a delimited transport; None for RFC 5425 *)
Definition delimiter (t : transport) : option N :=
  match t with TZeroEnded => Some 0%N | TLFEnded => Some 10%N | TRFC5425 => None end.

(** payload sizes: a frame fits in memory *)
Definition fits (d : bytes) : Prop := (Z.of_nat (length (encode TRFC5425 d)) < 2 ^ 63)%Z.

Lemma small_fits d : (length d <= 1000)%nat -> fits d.
Proof.
  intros H. unfold fits. cbn [encode]. rewrite !app_length, itoa_nat. cbn [length].
  assert (Hu : forall n, (n <= 1000)%nat -> (length (utoa (N.of_nat n)) <= 4)%nat).
  { intros n Hn. assert (Hc : forallb (fun k => (length (utoa (N.of_nat k)) <=? 4)%nat) (seq 0 1001) = true) by (vm_compute; reflexivity).
    rewrite forallb_forall in Hc. specialize (Hc n). apply Nat.leb_le, Hc, in_seq. lia. }
  specialize (Hu _ H). lia.
Qed.

(** ** C26 (and the wire form of each transport) *)
Theorem C26_encode_form : forall d, encode TRFC5425 d = decimal (N.of_nat (length d)) ++ bs " " ++ d /\
  encode TLFEnded d = d ++ [10%N] /\ encode TZeroEnded d = d ++ [0%N].
Proof. intros d. split; [|split; reflexivity]. cbn [encode]. rewrite itoa_nat. reflexivity. Qed.
Print Assumptions C26_encode_form.

Theorem C26_encode_strip : forall d tail eof, fits d -> (20 <= length (encode TRFC5425 d ++ tail))%nat ->
  prefix_strip TRFC5425 (encode TRFC5425 d ++ tail) eof = Val (Some d, Some tail, None).
Proof. intros d tail eof Hf H. exact (rfc_strip_frame d tail eof H Hf). Qed.
Print Assumptions C26_encode_strip.

Example C26_nonvacuous : fits (bs "<1>1 - h a p m - hello") /\
  encode TRFC5425 (bs "<1>1 - h a p m - hello") = bs "22 <1>1 - h a p m - hello".
Proof. split; [apply small_fits; vm_compute; lia|vm_compute; reflexivity]. Qed.

(** ** C22 *)
Theorem C22_frames_isolated : forall d tail eof, fits d -> (20 <= length (encode TRFC5425 d ++ tail))%nat ->
  exists p e, parse d None eof = Val (p, None, e) /\
    parse (encode TRFC5425 d ++ tail) (Some TRFC5425) eof = Val (p, Some tail, e).
Proof.
  intros d tail eof Hf H. destruct (parse_none_spec d eof) as (m & e & Hp & _). exists m, e. split; [exact Hp|].
  exact (parse_rfc_frame d tail eof H Hf m e Hp).
Qed.
Print Assumptions C22_frames_isolated.

Example C22_nonvacuous : exists p e,
  parse (bs "22 <1>1 - h a p m - hello" ++ bs "garbage") (Some TRFC5425) false = Val (p, Some (bs "garbage"), None) /\
  parse (bs "20 not a message 	[]] x" ++ bs "more") (Some TRFC5425) false = Val (zero_immutable, Some (bs "more"), Some e).
Proof. eexists. eexists. split; vm_compute; reflexivity. Qed.

(** ** C23: Parse panics exactly on ... *)
(** a message without text: it ends with the '-' of an empty structured data field or with the
    last structured data element *)
Definition textless (data : bytes) : Prop :=
  exists ws tail, length ws = 6%nat /\ Forall word ws /\ data = join ws ++ tail /\
    (tail = bs "-" \/ (late_space tail /\ exists els, Forall scan_element els /\ els <> [] /\ tail = concat els)).

Lemma textless_iff data : textless data <-> exists m, accepted data m /\ i_text m = (-1)%Z.
Proof.
  split.
  - intros (ws & tail & Hl & Hw & Hd & Hc). destruct Hc as [->|(Hls & els & Hf & Hne & ->)].
    + exists (mk data (ends 0 ws ++ [(length (join ws) + 2)%nat]) (-1)). split; [|reflexivity].
      exists ws, [DASH]. repeat split; auto.
    + exists (mk data (ends 0 ws ++ el_ends (length (join ws)) els) (-1)). split; [|reflexivity].
      exists ws, (concat els). split; [exact Hl|]. split; [exact Hw|]. split; [exact Hd|]. split; [reflexivity|].
      right. right. exists els, []. split; [exact Hf|]. split; [rewrite app_nil_r; reflexivity|]. split; [exact Hls|]. split; [reflexivity|]. auto.
  - intros (m & (ws & tail & Hl & Hw & Hd & _ & Hc) & Ht). exists ws, tail. split; [exact Hl|]. split; [exact Hw|]. split; [exact Hd|].
    destruct Hc as [(-> & _)|[(x & _ & _ & E)|(els & tl & Hf & Htl & Hls & _ & [(-> & Hne & _)|(_ & _ & E)])]].
    + left; reflexivity.
    + lia.
    + right. split; [exact Hls|]. exists els. rewrite app_nil_r in Htl. auto.
    + lia.
Qed.

(** an RFC 5425 length header whose value is negative, or wraps around the 64-bit range *)
Definition bad_length (data : bytes) : Prop :=
  exists h r n, data = h ++ bs " " ++ r /\ h <> [] /\ ~ In 32%N h /\ int64_text h n /\
    ((n < 0)%Z \/ (2 ^ 63 <= Z.of_nat (length h + 1) + n)%Z).

(** a frame cut by the end of the stream *)
Definition truncated_frame (data body : bytes) : Prop :=
  exists h n, data = h ++ bs " " ++ body /\ h <> [] /\ ~ In 32%N h /\ int64_text h n /\
    (Z.of_nat (length body) < n)%Z /\ (Z.of_nat (length h + 1) + n < 2 ^ 63)%Z.

Definition panics (data : bytes) (t : transport) (eof : bool) : Prop :=
  match t with
  | TRFC5425 => (20 <= length data)%nat /\
      (bad_length data \/ (eof = true /\ exists body, truncated_frame data body /\ textless body))
  | _ => textless data
  end.

Lemma wrap_cases k n : (0 <= k < 2 ^ 62)%Z -> (- 2 ^ 63 <= n < 2 ^ 63)%Z ->
  ((k + n < 2 ^ 63)%Z /\ wrap64 (k + n) = (k + n)%Z) \/ ((2 ^ 63 <= k + n)%Z /\ (wrap64 (k + n) < 0)%Z).
Proof.
  intros Hk Hn. destruct (Z_lt_le_dec (k + n) (2 ^ 63)) as [H|H].
  - left. split; [exact H|]. apply wrap64_id. lia.
  - right. split; [exact H|]. unfold wrap64.
    replace (k + n + 2 ^ 63)%Z with ((k + n - 2 ^ 63) + 1 * 2 ^ 64)%Z by lia. rewrite Z_mod_plus_full, Z.mod_small by lia. lia.
Qed.

(** the two words before the first space are unique *)
Lemma header_unique h r h' r' : ~ In SP h -> ~ In SP h' -> h ++ SP :: r = h' ++ SP :: r' -> h = h' /\ r = r'.
Proof. intros H1 H2 E. exact (split_unique SP h h' r r' H1 H2 E). Qed.

Theorem C23_panic_iff : forall data t eof, (Z.of_nat (length data) < 2 ^ 62)%Z ->
  (parse data (Some t) eof = Panic <-> panics data t eof) /\ parse data (Some t) eof <> NoFuel.
Proof.
  intros data t eof Hlen.
  assert (Hdelim : forall c, delim t = Some c -> (parse data (Some t) eof = Panic <-> textless data) /\ parse data (Some t) eof <> NoFuel).
  { intros c Hc. rewrite textless_iff. destruct data as [|x data'] eqn:Ed.
    { destruct t; try discriminate; (split; [|discriminate]); (split; [discriminate|]);
        intros (m & (ws & tail & Hl & Hw & Hd & _) & _); destruct ws as [|[|] ws]; try discriminate. }
    rewrite <- Ed in *. assert (Hne : data <> []) by congruence. clear Ed x data'.
    rewrite (parse_delim_eq t c data eof Hc Hne).
    destruct (parse_none_spec data eof) as (m0 & e0 & H0 & Hs).
    destruct (parse_body_core (Some t) eof data None None eof) as [Hc1 Hc2]. destruct e0 as [e0|].
    - rewrite (Hc2 _ _ H0). split; [|discriminate]. split; [discriminate|]. intros (m & Hacc & _).
      apply (parse_iff data m eof) in Hacc. congruence.
    - rewrite (Hc1 _ H0). destruct (accepted_text_range _ _ Hs) as [Hbuf [Htx|Htx]].
      + unfold parse_return. rewrite Htx. cbn. split; [|discriminate]. split; [|reflexivity]. intros _. exists m0. auto.
      + destruct (parse_return_cases m0 t c eof data Hc Hbuf Htx) as (pre & tl & Hd & Hpl & [(_ & Hr)|[(a & b & _ & _ & Hr)|(_ & _ & Hr)]]);
          rewrite Hr; (split; [|discriminate]); (split; [discriminate|]); intros (m & Hacc & Ht);
          apply (parse_iff data m eof) in Hacc; assert (m = m0) by congruence; subst m; lia. }
  destruct t; [exact (Hdelim NUL eq_refl)|exact (Hdelim LF eq_refl)|]. clear Hdelim. cbn [panics].
  unfold parse. cbn [prefix_strip].
  assert (Hz : forall er, parse_body (Some TRFC5425) eof [] None (Some er) = Val (zero_immutable, None, Some er)) by reflexivity.
  destruct (rfc_strip_cases data eof) as [(Hl & Hs)|(Hl & [(Hs & Hc)|(h & r & Hd & Hh & Hnh & Hx)])].
  - rewrite Hs. cbn. split; [|discriminate]. split; [discriminate|]. intros [H _]. lia.
  - rewrite Hs. cbn [bind]. rewrite Hz. split; [|discriminate]. split; [discriminate|]. intros [_ Hb].
    assert (Hsh : exists h r, data = h ++ SP :: r /\ h <> [] /\ ~ In SP h).
    { destruct Hb as [(h & r & n & E & Hn & Hi & _)|(_ & body & (h & n & E & Hn & Hi & _) & _)]; [exists h, r|exists h, body]; (split; [exact E|]); auto. }
    destruct Hsh as (h & r & E & Hn & Hi). exfalso. destruct Hc as [Hc|[q Hq]].
    + apply Hc. rewrite E. apply in_or_app. right; left; reflexivity.
    + rewrite E in Hq. destruct h as [|a h]; [congruence|]. injection Hq as -> _. apply Hi. left; reflexivity.
  - assert (Hk : (0 <= Z.of_nat (length h + 1) < 2 ^ 62)%Z).
    { rewrite Hd, app_length in Hlen. cbn [length] in Hlen. lia. }
    assert (Hld : length data = (length h + 1 + length r)%nat) by (rewrite Hd, app_length; cbn; lia).
    assert (Hbl : forall n, atoi h = Some n -> bad_length data -> (n < 0)%Z \/ (2 ^ 63 <= Z.of_nat (length h + 1) + n)%Z).
    { intros n Ha (h' & r' & n' & E & _ & Hi' & Hn' & Hbad). rewrite Hd in E. apply header_unique in E as [<- <-]; [|assumption..].
      apply atoi_iff in Hn'. rewrite Ha in Hn'. injection Hn' as <-. exact Hbad. }
    assert (Htf : forall n body, atoi h = Some n -> truncated_frame data body ->
       body = r /\ (Z.of_nat (length r) < n)%Z /\ (Z.of_nat (length h + 1) + n < 2 ^ 63)%Z).
    { intros n body Ha (h' & n' & E & _ & Hi' & Hn' & H1 & H2). rewrite Hd in E. apply header_unique in E as [<- <-]; [|assumption..].
      apply atoi_iff in Hn'. rewrite Ha in Hn'. injection Hn' as <-. auto. }
    destruct Hx as [(Ha & Hs)|(n & Ha & Hx)].
    { rewrite Hs. cbn [bind]. rewrite Hz. split; [|discriminate]. split; [discriminate|]. intros [_ Hb]. exfalso.
      pose proof (proj1 (atoi_none h) Ha) as Hno.
      destruct Hb as [(h' & r' & n' & E & _ & Hi' & Hn' & _)|(_ & body & (h' & n' & E & _ & Hi' & Hn' & _) & _)];
        rewrite Hd in E; apply header_unique in E as [<- _]; try assumption; exact (Hno _ Hn'). }
    pose proof (proj1 (atoi_iff h n) Ha) as Hit. pose proof Hit as (_ & _ & _ & Hrange & _).
    cbv zeta in Hx. destruct (wrap_cases (Z.of_nat (length h + 1)) n Hk Hrange) as [(Hnw & Hw)|(Hov & Hw)].
    + rewrite Hw in Hx. destruct Hx as [(Hlt & Hs)|[(Hlt & Hs)|(Hle & d & q & Hdq & Hld' & Hs)]]; rewrite Hs.
      * destruct eof; cbn [bind].
        -- destruct (parse_none_spec r true) as (m0 & e0 & H0 & Hs0).
           destruct (parse_body_core (Some TRFC5425) true r None (Some ErrTransportIncomplete) true) as [Hc1 Hc2]. destruct e0 as [e0|].
           ++ rewrite (Hc2 _ _ H0). split; [|discriminate]. split; [discriminate|]. intros (_ & [Hb|(_ & body & Hb & Htl)]).
              ** destruct (Hbl n Ha Hb); lia.
              ** destruct (Htf n body Ha Hb) as (-> & _). apply textless_iff in Htl as (m & Hacc & _).
                 apply (parse_iff r m true) in Hacc. congruence.
           ++ rewrite (Hc1 _ H0). destruct (accepted_text_range _ _ Hs0) as [Hbuf [Htx|Htx]].
              ** unfold parse_return. rewrite Htx. cbn. split; [|discriminate]. split; [|reflexivity]. intros _. split; [exact Hl|]. right.
                 split; [reflexivity|]. exists r. split.
                 --- exists h, n. split; [exact Hd|]. split; [exact Hh|]. split; [exact Hnh|]. split; [exact Hit|]. split; [lia|exact Hnw].
                 --- apply textless_iff. exists m0. auto.
              ** unfold parse_return. unfold go_from_z. destruct (Z.ltb_spec (i_text m0) 0); [lia|]. rewrite go_from_val by lia. cbn [bind].
                 assert (Hno : ~ ((20 <= length data)%nat /\ (bad_length data \/ true = true /\ (exists body, truncated_frame data body /\ textless body)))).
                 { intros (_ & [Hb|(_ & body & Hb & Htl)]).
                   - destruct (Hbl n Ha Hb); lia.
                   - destruct (Htf n body Ha Hb) as (-> & _). apply textless_iff in Htl as (m & Hacc & Ht).
                     apply (parse_iff r m true) in Hacc. assert (m = m0) by congruence. subst m. lia. }
                 unfold suffix_strip. destruct (_ =? 0)%nat; [|destruct (_ <? _)%Z];
                   (split; [|discriminate]); (split; [discriminate|]); intros HH; exfalso; exact (Hno HH).
        -- split; [|discriminate]. split; [discriminate|]. intros (_ & [Hb|(E & _)]); [destruct (Hbl n Ha Hb); lia|discriminate].
      * cbn. split; [|discriminate]. split; [|reflexivity]. intros _. split; [exact Hl|]. left. exists h, r, n.
        split; [exact Hd|]. split; [exact Hh|]. split; [exact Hnh|]. split; [exact Hit|]. left. lia.
      * cbn [bind]. destruct (parse_none_spec d eof) as (m0 & e0 & H0 & _). rewrite (parse_body_rest TRFC5425 eof d q m0 e0 H0).
        split; [|discriminate]. split; [discriminate|]. intros (_ & [Hb|(_ & body & Hb & _)]).
        -- destruct (Hbl n Ha Hb); lia.
        -- destruct (Htf n body Ha Hb) as (_ & H1 & _). lia.
    + destruct Hx as [(Hlt & _)|[(Hlt & Hs)|(Hle & _)]]; [lia| |lia]. rewrite Hs. cbn. split; [|discriminate].
      split; [|reflexivity]. intros _. split; [exact Hl|]. left. exists h, r, n.
      split; [exact Hd|]. split; [exact Hh|]. split; [exact Hnh|]. split; [exact Hit|]. right. exact Hov.
Qed.
Print Assumptions C23_panic_iff.

(** So the claim "never panics" is false, on inputs a peer can send. *)
Theorem C23_no_panic_refuted :
  parse (bs "<1>1 - h a p m -") (Some TLFEnded) false = Panic /\
  parse (bs "<1>1 - h a p m [x a=""b""]") (Some TZeroEnded) false = Panic /\
  parse (bs "-9 <1>1 - h a p m - x") (Some TRFC5425) false = Panic /\
  parse (bs "99 <1>1 - h a p mm -") (Some TRFC5425) true = Panic.
Proof. repeat split; vm_compute; reflexivity. Qed.
Print Assumptions C23_no_panic_refuted.

(** ** C24 *)
Lemma truncated_strip data body : truncated_frame data body -> (20 <= length data)%nat -> (Z.of_nat (length data) < 2 ^ 62)%Z ->
  forall eof, rfc5425_prefix_strip data eof = if eof then Val (Some body, None, Some ErrTransportIncomplete) else Val (None, None, None).
Proof.
  intros (h & n & Hd & Hh & Hnh & Hit & H1 & H2) H20 Hlen eof.
  destruct (rfc_strip_cases data eof) as [(Hl & Hs)|(Hl & [(Hs & Hc)|(h' & r & Hd' & Hh' & Hnh' & Hx)])]; [lia| |].
  - exfalso. destruct Hc as [Hc|[q Hq]].
    + apply Hc. rewrite Hd. apply in_or_app. right; left; reflexivity.
    + rewrite Hd in Hq. destruct h as [|a h]; [congruence|]. injection Hq as -> _. apply Hnh. left; reflexivity.
  - rewrite Hd' in Hd. apply header_unique in Hd as [-> ->]; [|assumption..].
    pose proof (proj2 (atoi_iff h n) Hit) as Ha.
    assert (Hw : wrap64 (Z.of_nat (length h + 1) + n) = (Z.of_nat (length h + 1) + n)%Z) by (apply wrap64_id; lia).
    assert (Hld : length data = (length h + 1 + length body)%nat) by (rewrite Hd', app_length; cbn; lia).
    destruct Hx as [(Ha' & _)|(n' & Ha' & Hx)]; [congruence|]. rewrite Ha in Ha'. injection Ha' as <-. cbv zeta in Hx. rewrite Hw in Hx.
    destruct Hx as [(_ & Hs)|[(Hlt & _)|(Hle & _)]]; [exact Hs|lia|lia].
Qed.

(** PrefixStrip reports the cut; Parse reports it exactly when what is left of the body is not
    itself a message with text. *)
Theorem C24_truncated_frame : forall data body, truncated_frame data body -> (20 <= length data)%nat -> (Z.of_nat (length data) < 2 ^ 62)%Z ->
  prefix_strip TRFC5425 data true = Val (Some body, None, Some ErrTransportIncomplete) /\
  prefix_strip TRFC5425 data false = Val (None, None, None) /\
  ((exists e, parse body None true = Val (zero_immutable, None, Some e)) ->
     parse data (Some TRFC5425) true = Val (zero_immutable, None, Some ErrTransportIncomplete)) /\
  (forall m, parse body None true = Val (m, None, None) ->
     (textless body /\ parse data (Some TRFC5425) true = Panic) \/
     (~ textless body /\ imm_text m = Val [] /\ parse data (Some TRFC5425) true = Val (zero_immutable, None, None)) \/
     (exists text, text <> [] /\ imm_text m = Val text /\ parse data (Some TRFC5425) true = Val (m, None, None))).
Proof.
  intros data body Ht H20 Hlen. pose proof (truncated_strip data body Ht H20 Hlen) as Hs.
  split; [exact (Hs true)|]. split; [exact (Hs false)|]. unfold parse at 2 4 5 6. cbn [prefix_strip]. rewrite (Hs true). cbn [bind].
  destruct (parse_body_core (Some TRFC5425) true body None (Some ErrTransportIncomplete) true) as [Hc1 Hc2]. split.
  - intros [e He]. rewrite (Hc2 _ _ He). reflexivity.
  - intros m Hm. rewrite (Hc1 _ Hm). pose proof Hm as Hpm. apply (parse_iff body m true) in Hm. destruct (accepted_text_range _ _ Hm) as [Hbuf [Htx|Htx]].
    + left. split; [apply textless_iff; eauto|]. unfold parse_return. rewrite Htx. reflexivity.
    + assert (Htl : ~ textless body).
      { intros Hx. apply textless_iff in Hx as (m' & Hm' & Hx). apply (parse_iff body m' true) in Hm'. rewrite Hpm in Hm'. injection Hm' as <-. lia. }
      assert (Hit : imm_text m = Val (skipn (Z.to_nat (i_text m)) body)).
      { unfold imm_text, go_from_z. destruct (Z.ltb_spec (i_text m) 1); [lia|]. destruct (Z.ltb_spec (i_text m) 0); [lia|]. rewrite Hbuf. apply go_from_val. lia. }
      right. unfold parse_return, go_from_z. destruct (Z.ltb_spec (i_text m) 0); [lia|]. rewrite go_from_val by lia. cbn [bind].
      unfold suffix_strip. rewrite skipn_length. destruct (Nat.eqb_spec (length body - Z.to_nat (i_text m)) 0) as [E|E].
      * left. split; [exact Htl|]. split; [|reflexivity]. rewrite Hit. f_equal. apply length_zero_iff_nil. rewrite skipn_length. exact E.
      * right. exists (skipn (Z.to_nat (i_text m)) body). split; [intros Hx; apply E; rewrite <- skipn_length, Hx; reflexivity|]. split; [exact Hit|]. destruct (Z.ltb_spec (i_text m + Z.of_nat (length (skipn (Z.to_nat (i_text m)) body))) (Z.of_nat (length (i_buf m)))) as [Hlt|_].
        -- exfalso. rewrite skipn_length, Hbuf in Hlt. lia.
        -- reflexivity.
Qed.
Print Assumptions C24_truncated_frame.

Example C24_nonvacuous : truncated_frame (bs "99 <1>1 - h a p m [x") (bs "<1>1 - h a p m [x").
Proof.
  exists (bs "99"), 99%Z. split; [reflexivity|]. split; [discriminate|]. split; [intros [H|[H|[]]]; discriminate|].
  split; [apply atoi_iff; vm_compute; reflexivity|]. split; vm_compute; reflexivity.
Qed.

(** The stream ends in the middle of a frame and nothing is reported: a shortened message comes
    out with a nil error, or nothing at all when fewer than 20 bytes are left. *)
Theorem C24_reported_refuted :
  (exists m, parse (bs "99 <1>1 - h a p m - pay 100 eu") (Some TRFC5425) true = Val (m, None, None) /\ imm_text m = Val (bs "pay 100 eu")) /\
  parse (bs "99 <1>1 - h") (Some TRFC5425) true = Val (zero_immutable, None, None).
Proof. split; [eexists; split; vm_compute; reflexivity|vm_compute; reflexivity]. Qed.
Print Assumptions C24_reported_refuted.

(** ** C25: where the bytes of a result come from *)
Definition or_nil (r : slice) : bytes := match r with Some b => b | None => [] end.

(** a length header: a non empty word and one space *)
Definition length_header (pre : bytes) : Prop := exists h, pre = h ++ bs " " /\ h <> [] /\ ~ In 32%N h /\ exists n, int64_text h n.

Theorem C25_bytes_accounted : forall data t eof m rest e, parse data t eof = Val (m, rest, e) ->
  (** the message, if there is one *)
  (m <> zero_immutable -> exists pre mid, data = pre ++ imm_string m ++ mid ++ or_nil rest /\
     match t with
     | None => pre = [] /\ mid = [] /\ rest = None
     | Some TRFC5425 => length_header pre /\ mid = []
     | Some TLFEnded => pre = [] /\ mid = (if rest then [10%N] else [])
     | Some TZeroEnded => pre = [] /\ mid = (if rest then [0%N] else [])
     end) /\
  (** what is left is always a suffix, and only RFC 5425 framing skips more than a delimiter: the frame it announces *)
  (m = zero_immutable -> imm_string m = [] /\
     forall r, rest = Some r -> t = Some TRFC5425 /\ exists pre d, length_header pre /\ data = pre ++ d ++ r).
Proof.
  intros data t eof m rest e H. destruct t as [t|].
  2: { destruct (parse_none_spec data eof) as (m0 & e0 & H0 & Hs). rewrite H0 in H. injection H as -> <- ->.
       split; [|intros ->; split; [reflexivity|discriminate]]. intros Hm. destruct e; [contradiction|].
       exists [], []. cbn. unfold imm_string. destruct Hs as (ws & tl & _ & _ & _ & -> & _). rewrite app_nil_r. auto. }
  assert (Hd : forall c, delim t = Some c ->
     (m <> zero_immutable -> exists pre mid, data = pre ++ imm_string m ++ mid ++ or_nil rest /\ pre = [] /\ mid = (if rest then [c] else [])) /\
     (m = zero_immutable -> forall r, rest <> Some r)).
  { intros c Hc. destruct (parse_delim_inv t c data eof m rest e Hc H) as [(-> & -> & _)|(m0 & Hacc & Hi & Ht & pre & tl & Hd & Hp1 & Hp & Hx)].
    { split; [congruence|discriminate]. }
    destruct Hx as [(a & b & -> & Hn & Hb & -> & ->)|(_ & _ & -> & -> & ->)].
    - split.
      + intros _. exists [], [c]. cbn. unfold imm_string. rewrite Hb, Hd, <- app_assoc. auto.
      + intros ->. cbn in Hb. destruct pre; [cbn in Hp1; lia|discriminate].
    - split.
      + intros _. exists [], []. cbn. rewrite app_nil_r. unfold imm_string. destruct (accepted_text_range _ _ Hacc) as [-> _]. auto.
      + discriminate. }
  destruct t; cbn [delim] in Hd.
  1,2: destruct (Hd _ eq_refl) as [H1 H2]; split;
    [intros Hm; destruct (H1 Hm) as (pre & mid & ? & ? & ?); exists pre, mid; auto
    |intros ->; split; [reflexivity|]; intros r Hr; exfalso; exact (H2 eq_refl r Hr)].
  clear Hd. destruct (parse_rfc_inv data eof m rest e H) as
    [(-> & -> & _)|[(h & n & d & q & Hd & Hh & Hnh & Ha & _ & -> & Hp)|(h & n & d & Hd & Hh & Hnh & Ha & -> & -> & _ & Hx)]].
  - split; [congruence|]. intros _. split; [reflexivity|discriminate].
  - assert (Hpre : length_header (h ++ bs " ")).
    { exists h. split; [reflexivity|]. split; [exact Hh|]. split; [exact Hnh|]. exists n. apply atoi_iff, Ha. }
    assert (Hd' : data = (h ++ bs " ") ++ d ++ q) by (rewrite Hd, <- app_assoc; reflexivity).
    destruct (parse_none_spec d eof) as (m0 & e0 & H0 & Hs). rewrite H0 in Hp. injection Hp as -> ->. split.
    + intros Hm. destruct e; [contradiction|]. exists (h ++ bs " "), []. split; [|auto]. unfold imm_string.
      destruct Hs as (ws & tl & _ & _ & _ & -> & _). exact Hd'.
    + intros ->. split; [reflexivity|]. intros r Hr. injection Hr as ->. split; [reflexivity|]. exists (h ++ bs " "), d. auto.
  - split; [|intros ->; split; [reflexivity|discriminate]]. intros Hm.
    exists (h ++ bs " "), []. split.
    + destruct Hx as [(-> & _)|(m0 & Hacc & _ & [(_ & ->)|(_ & ->)])]; try congruence.
      unfold imm_string. destruct (accepted_text_range _ _ Hacc) as [-> _]. rewrite Hd. cbn. rewrite <- app_assoc, app_nil_r. reflexivity.
    + split; [|reflexivity]. exists h. split; [reflexivity|]. split; [exact Hh|]. split; [exact Hnh|]. exists n. apply atoi_iff, Ha.
Qed.
Print Assumptions C25_bytes_accounted.

Example C25_nonvacuous : exists m1 m2,
  parse (bs "22 <1>1 - h a p m - hello" ++ bs "next") (Some TRFC5425) false = Val (m1, Some (bs "next"), None) /\ m1 <> zero_immutable /\
  parse (bs "<1>1 - h a p m - hello" ++ [10%N] ++ bs "next") (Some TLFEnded) false = Val (m2, Some (bs "next"), None) /\ m2 <> zero_immutable.
Proof. eexists. eexists. split; [vm_compute; reflexivity|]. split; [discriminate|]. split; [vm_compute; reflexivity|discriminate]. Qed.

(** ** C27 *)
Lemma app_inj_len (a : bytes) : forall b x y, length a = length b -> a ++ x = b ++ y -> a = b /\ x = y.
Proof.
  induction a as [|c a IH]; intros [|c' b] x y Hl E; try discriminate; [auto|].
  injection Hl as Hl. injection E as -> E. destruct (IH _ _ _ Hl E) as [-> ->]. auto.
Qed.

Theorem C27_delimited_round_trip : forall t c d tail eof, delimiter t = Some c -> ~ In c d ->
  suffix_strip t (encode t d ++ tail) eof = (Some d, Some tail, None).
Proof.
  intros t c d tail eof Hc Hn. assert (Hx : delim t = Some c) by (destruct t; exact Hc).
  assert (He : encode t d ++ tail = d ++ c :: tail) by (destruct t; try discriminate; injection Hc as <-; cbn [encode]; rewrite <- app_assoc; reflexivity).
  rewrite He. destruct (suffix_strip_cases t c (d ++ c :: tail) eof Hx) as [(E & _)|[(a & b & E & Ha & Hr)|(_ & Hno & _)]].
  - destruct d; discriminate.
  - apply (split_unique c d a tail b Hn Ha) in E as [-> ->]. exact Hr.
  - exfalso. apply Hno, in_or_app. right; left; reflexivity.
Qed.
Print Assumptions C27_delimited_round_trip.

Theorem C27_unterminated : forall t c d eof, delimiter t = Some c -> ~ In c d ->
  suffix_strip t d eof =
    match d, t, eof with
    | [], _, _ => (None, None, None)
    | _, TLFEnded, true => (Some d, None, Some ErrTransportIncomplete)
    | _, _, _ => (Some d, None, None)
    end.
Proof.
  intros t c d eof Hc Hn. assert (Hx : delim t = Some c) by (destruct t; exact Hc).
  destruct (suffix_strip_cases t c d eof Hx) as [(-> & Hr)|[(a & b & E & _)|(Hne & _ & Hr)]].
  - rewrite Hr. reflexivity.
  - exfalso. apply Hn. rewrite E. apply in_or_app. right; left; reflexivity.
  - rewrite Hr. destruct d; [congruence|]. destruct t, eof; try discriminate; reflexivity.
Qed.
Print Assumptions C27_unterminated.

(** two different payload lists never give the same stream *)
Theorem C27_streams_injective : forall t ds ds',
  (forall c, delimiter t = Some c -> Forall (fun d => ~ In c d) ds /\ Forall (fun d => ~ In c d) ds') ->
  concat (map (encode t) ds) = concat (map (encode t) ds') -> ds = ds'.
Proof.
  intros t ds. induction ds as [|d ds IH]; intros ds' Hc E.
  - destruct ds' as [|d' ds']; [reflexivity|]. exfalso. cbn in E. destruct t; cbn [encode] in E.
    + destruct d'; discriminate.
    + destruct d'; discriminate.
    + rewrite itoa_nat in E. destruct (utoa (N.of_nat (length d'))) eqn:Eu; [exact (utoa_nonnil _ Eu)|discriminate].
  - destruct ds' as [|d' ds'].
    { exfalso. cbn in E. destruct t; cbn [encode] in E.
      + destruct d; discriminate.
      + destruct d; discriminate.
      + rewrite itoa_nat in E. destruct (utoa (N.of_nat (length d))) eqn:Eu; [exact (utoa_nonnil _ Eu)|discriminate]. }
    cbn [map concat] in E.
    assert (Hh : d = d' /\ concat (map (encode t) ds) = concat (map (encode t) ds')).
    { destruct t; cbn [encode delimiter] in *.
      - destruct (Hc _ eq_refl) as [Hf Hf']. inversion Hf; inversion Hf'; subst. rewrite <- !app_assoc in E.
        apply (split_unique NUL) in E; assumption.
      - destruct (Hc _ eq_refl) as [Hf Hf']. inversion Hf; inversion Hf'; subst. rewrite <- !app_assoc in E.
        apply (split_unique LF) in E; assumption.
      - rewrite !itoa_nat, <- !app_assoc in E. cbn [app] in E.
        apply (split_unique SP) in E as [E1 E2]; [|apply digits_no_space, utoa_digits..].
        assert (El : length d = length d').
        { apply (f_equal (fun l => digits_value l 0)) in E1. rewrite !utoa_value in E1. lia. }
        exact (app_inj_len _ _ _ _ El E2). }
    destruct Hh as [-> Hh]. f_equal. apply IH; [|exact Hh]. intros c Hcc. destruct (Hc c Hcc) as [Hf Hf']. inversion Hf; inversion Hf'; auto.
Qed.
Print Assumptions C27_streams_injective.

Example C27_nonvacuous : ~ In 10%N (bs "<1>1 - h a p m - hello") /\ 
  suffix_strip TLFEnded (encode TLFEnded (bs "hello") ++ bs "next") false = (Some (bs "hello"), Some (bs "next"), None).
Proof. split; [|reflexivity]. intros H. cbn in H. repeat (destruct H as [H|H]; [discriminate|]). exact H. Qed.

(** ** C28 *)
Theorem C28_length_header : forall data eof, (20 <= length data)%nat -> (Z.of_nat (length data) < 2 ^ 62)%Z ->
  ((~ In 32%N data \/ exists r, data = 32%N :: r) -> prefix_strip TRFC5425 data eof = Val (None, None, Some ErrTransportNoHeader)) /\
  (forall h r, data = h ++ bs " " ++ r -> h <> [] -> ~ In 32%N h ->
     ((forall n, ~ int64_text h n) -> prefix_strip TRFC5425 data eof = Val (None, None, Some ErrTransportInvHeader)) /\
     (forall n, int64_text h n ->
        ((n < 0 \/ 2 ^ 63 <= Z.of_nat (length h + 1) + n)%Z -> prefix_strip TRFC5425 data eof = Panic) /\
        ((Z.of_nat (length r) < n /\ Z.of_nat (length h + 1) + n < 2 ^ 63)%Z ->
           prefix_strip TRFC5425 data eof = if eof then Val (Some r, None, Some ErrTransportIncomplete) else Val (None, None, None)) /\
        ((0 <= n <= Z.of_nat (length r))%Z ->
           exists d q, r = d ++ q /\ Z.of_nat (length d) = n /\ prefix_strip TRFC5425 data eof = Val (Some d, Some q, None)))).
Proof.
  intros data eof H20 Hlen. cbn [prefix_strip].
  destruct (rfc_strip_cases data eof) as [(Hl & _)|(_ & [(Hs & Hc)|(h0 & r0 & Hd & Hh & Hnh & Hx)])]; [lia| |].
  - split; [intros _; exact Hs|]. intros h r Hd Hh Hnh. exfalso. destruct Hc as [Hc|[q Hq]].
    + apply Hc. rewrite Hd. apply in_or_app. right; left; reflexivity.
    + rewrite Hd in Hq. destruct h as [|a h]; [congruence|]. injection Hq as -> _. apply Hnh. left; reflexivity.
  - split.
    { intros [Hc|[q Hq]]; exfalso.
      + apply Hc. rewrite Hd. apply in_or_app. right; left; reflexivity.
      + rewrite Hd in Hq. destruct h0 as [|a h]; [congruence|]. injection Hq as -> _. apply Hnh. left; reflexivity. }
    intros h r Hd' _ Hnh'. rewrite Hd in Hd'. apply header_unique in Hd' as [<- <-]; [|assumption..].
    assert (Hld : length data = (length h0 + 1 + length r0)%nat) by (rewrite Hd, app_length; cbn; lia).
    destruct Hx as [(Ha & Hs)|(n0 & Ha & Hx)].
    { split; [intros _; exact Hs|]. intros n Hn. apply atoi_iff in Hn. congruence. }
    pose proof (proj1 (atoi_iff h0 n0) Ha) as Hit. split; [intros Hno; exfalso; exact (Hno _ Hit)|].
    intros n Hn. apply atoi_iff in Hn. rewrite Ha in Hn. injection Hn as <-.
    pose proof Hit as (_ & _ & _ & Hrange & _). cbv zeta in Hx.
    destruct (wrap_cases (Z.of_nat (length h0 + 1)) n0) as [(Hnw & Hw)|(Hov & Hw)]; [lia|exact Hrange| |].
    + rewrite Hw in Hx. split; [|split].
      * intros Hb. destruct Hx as [(Hlt & Hs)|[(Hlt & Hs)|(Hle & _)]]; [lia|exact Hs|lia].
      * intros Hb. destruct Hx as [(Hlt & Hs)|[(Hlt & Hs)|(Hle & _)]]; [exact Hs|lia|lia].
      * intros Hb. destruct Hx as [(Hlt & Hs)|[(Hlt & Hs)|(Hle & d & q & E & Hd2 & Hs)]]; [lia|lia|]. exists d, q. split; [exact E|]. split; [lia|exact Hs].
    + split; [|split].
      * intros _. destruct Hx as [(Hlt & Hs)|[(Hlt & Hs)|(Hle & _)]]; [lia|exact Hs|lia].
      * intros; lia.
      * intros; lia.
Qed.
Print Assumptions C28_length_header.

Example C28_nonvacuous : int64_text (bs "+017") 17 /\ (forall n, ~ int64_text (bs "1x") n) /\
  prefix_strip TRFC5425 (bs "+017 <1>1 - h a p m -next") false = Val (Some (bs "<1>1 - h a p m -n"), Some (bs "ext"), None).
Proof. split; [apply atoi_iff; vm_compute; reflexivity|]. split; [apply atoi_none; vm_compute; reflexivity|vm_compute; reflexivity]. Qed.

(** ** C29: a complete frame at the start of the buffer is returned if and only if the buffer
    holds at least 20 bytes *)
Theorem C29_delivered_iff : forall d tail eof, fits d ->
  ((20 <= length (encode TRFC5425 d ++ tail))%nat <-> prefix_strip TRFC5425 (encode TRFC5425 d ++ tail) eof = Val (Some d, Some tail, None)) /\
  ((length (encode TRFC5425 d ++ tail) < 20)%nat <-> prefix_strip TRFC5425 (encode TRFC5425 d ++ tail) eof = Val (None, None, None)).
Proof.
  intros d tail eof Hf. cbn [prefix_strip].
  destruct (rfc_strip_cases (encode TRFC5425 d ++ tail) eof) as [(Hl & Hs)|(Hl & _)].
  - rewrite Hs. split; split; try reflexivity; try lia; try discriminate. 
  - rewrite (rfc_strip_frame d tail eof Hl Hf). split; split; try reflexivity; try lia; try discriminate.
Qed.
Print Assumptions C29_delivered_iff.

Theorem C29_delivered_refuted : prefix_strip TRFC5425 (encode TRFC5425 (bs "<1>1 - h a p m -")) true = Val (None, None, None) /\
  exists m, parse (bs "<1>1 - h a p m -") None true = Val (m, None, None).
Proof. split; [vm_compute; reflexivity|]. eexists. vm_compute. reflexivity. Qed.
Print Assumptions C29_delivered_refuted.

(** LTokenize.v -- facts about the tokenizer used by PropReceiver.v. *)
From Verif Require Import Base BaseFacts Spec MPriority MHelpers MText MTime MSData MMessage MTransport MParse MTokenize.
From Verif Require Import LPriority LText LAtoi LTime LSData LParse LTransport LRound LResult PropParse PropTransport.
From Coq Require Import ZifyBool ZifyNat ZifyN.

Lemma parse_return_no_fuel m t eof d r : parse_return m t eof d r <> NoFuel.
Proof.
  unfold parse_return. destruct t; [|discriminate]. destruct r; [discriminate|].
  unfold go_from_z, go_from. destruct (i_text m <? 0)%Z; [discriminate|]. destruct (Z.to_nat (i_text m) <=? length d)%nat; [|discriminate].
  cbn [bind]. destruct (suffix_strip t _ eof) as [[[?|] [?|]] [?|]]; discriminate.
Qed.

Lemma parse_body_no_fuel t eof data rest me : parse_body t eof data rest me <> NoFuel.
Proof.
  destruct (parse_none_spec data eof) as (m & e & H & _). destruct (parse_body_core t eof data rest me eof) as [H1 H2].
  destruct e as [e|]; [rewrite (H2 _ _ H); discriminate|rewrite (H1 _ H); apply parse_return_no_fuel].
Qed.

Lemma parse_no_fuel data t eof : parse data t eof <> NoFuel.
Proof.
  destruct t as [t|]; [|apply parse_body_no_fuel]. unfold parse.
  assert (H : (exists d r e, prefix_strip t data eof = Val (d, r, e)) \/ prefix_strip t data eof = Panic).
  { destruct t; cbn [prefix_strip].
    - destruct (length data =? 0)%nat; left; do 3 eexists; reflexivity.
    - destruct (length data =? 0)%nat; left; do 3 eexists; reflexivity.
    - destruct (rfc_strip_cases data eof) as [(_ & Hs)|(_ & [(Hs & _)|(h & r & _ & _ & _ & Hx)])]; [left; do 3 eexists; exact Hs..|].
      destruct Hx as [(_ & Hs)|(n & _ & Hx)]; [left; do 3 eexists; exact Hs|]. cbv zeta in Hx.
      destruct Hx as [(_ & Hs)|[(_ & Hs)|(_ & d & q & _ & _ & Hs)]]; rewrite Hs; [|right; reflexivity|left; do 3 eexists; reflexivity].
      destruct eof; left; do 3 eexists; reflexivity. }
  destruct H as [(d & r & e & ->)| ->]; [|discriminate]. cbn [bind].
  destruct d, r, e; try discriminate; apply parse_body_no_fuel.
Qed.

(** [piece] is the part of the stream that one pair was decoded from: with a delimited transport,
    the text of the message and the delimiter; with RFC 5425, a length header and a payload, and
    the pair is what decoding that payload alone gives. *)
Definition carries (t : transport) (piece : bytes) (p : immutable * option perr) : Prop :=
  match delimiter t with
  | Some c => imm_string (fst p) <> [] /\ snd p = None /\ piece = imm_string (fst p) ++ [c]
  | None => exists hdr d, piece = hdr ++ d /\ length_header hdr /\ parse d None true = Val (fst p, None, snd p)
  end.

Lemma parse_carries data t eof m r e : parse data (Some t) eof = Val (m, Some r, e) ->
  exists piece, data = piece ++ r /\ piece <> [] /\ carries t piece (m, e).
Proof.
  intros H. destruct t.
  1: assert (Hdel : delim TZeroEnded = Some NUL) by reflexivity.
  2: assert (Hdel : delim TLFEnded = Some LF) by reflexivity.
  1,2: destruct (parse_delim_inv _ _ data eof m (Some r) e Hdel H) as [(_ & E & _)|(m0 & Hacc & _ & _ & pre & tl & Hd & Hp & _ & Hx)];
    [discriminate|]; destruct Hx as [(a & b & Htl & _ & Hb & Er & He)|(_ & _ & _ & E & _)]; [|discriminate];
    injection Er as ->; cbn [carries delimiter fst snd]; unfold imm_string;
    eexists; split; [|split; [|split; [|split; [exact He|reflexivity]]]];
    [rewrite Hb, Hd, Htl, <- !app_assoc; reflexivity|intros E; apply app_eq_nil in E as [_ E]; discriminate
    |rewrite Hb; destruct pre; [cbn in Hp; lia|discriminate]].
  destruct (parse_rfc_inv data eof m (Some r) e H) as
    [(_ & E & _)|[(h & n & d & q & Hd & Hh & Hnh & Ha & _ & Er & Hp)|(_ & _ & _ & _ & _ & _ & _ & _ & E & _)]]; try discriminate.
  injection Er as ->. exists ((h ++ bs " ") ++ d). split; [rewrite Hd, <- !app_assoc; reflexivity|].
  split; [destruct h; [congruence|discriminate]|]. cbn [carries delimiter fst snd]. exists (h ++ bs " "), d. split; [reflexivity|].
  split; [|rewrite (parse_none_eof d true eof); exact Hp]. exists h. split; [reflexivity|]. split; [exact Hh|]. split; [exact Hnh|]. exists n. apply atoi_iff, Ha.
Qed.

(** the inner loop: no fuel problem, and every pair is carried by its part of the data *)
Lemma inner_spec fuel : forall t eof data, (length data < fuel)%nat ->
  let '(sent, r) := tok_inner fuel t eof data in
  exists pieces left, data = concat pieces ++ left /\ Forall2 (carries t) pieces sent /\
    match r with
    | Val d => d = left /\ (left = [] \/ exists m e, parse left (Some t) eof = Val (m, None, e))
    | Panic => parse left (Some t) eof = Panic
    | NoFuel => False
    end.
Proof.
  induction fuel as [|f IH]; intros t eof data Hf; [lia|]. cbn [tok_inner].
  destruct (parse data (Some t) eof) as [[[m [r|]] e]| |] eqn:Ep.
  - destruct (parse_carries _ _ _ _ _ _ Ep) as (piece & Hd & Hne & Hc).
    destruct (Nat.eqb_spec (length r) 0) as [E0|E0].
    + apply length_zero_iff_nil in E0 as ->. exists [piece], []. cbn. rewrite !app_nil_r in *. split; [exact Hd|]. split; [constructor; auto|]. auto.
    + specialize (IH t eof r). destruct (tok_inner f t eof r) as [sent x].
      destruct IH as (pieces & left & Hr & Hs & Hx).
      { rewrite Hd, app_length in Hf. destruct piece; [congruence|]. cbn in Hf. lia. }
      exists (piece :: pieces), left. cbn [concat]. rewrite <- app_assoc, <- Hr. split; [exact Hd|]. split; [constructor; assumption|exact Hx].
  - exists [], data. split; [reflexivity|]. split; [constructor|]. split; [reflexivity|]. right. eauto.
  - exists [], data. split; [reflexivity|]. split; [constructor|]. exact Ep.
  - exfalso. exact (parse_no_fuel _ _ _ Ep).
Qed.

Definition is_eof (err : option read_err) : bool := match err with Some REOF => true | _ => false end.

Lemma step_nonempty t st chunk err sent r : chunk <> [] ->
  tok_inner (S (length (t_pending st ++ chunk))) t (is_eof err) (t_pending st ++ chunk) = (sent, r) ->
  o_sent (tok_step t st chunk err) = sent /\
  o_next (tok_step t st chunk err) =
    match r with
    | Val d => if is_eof err then TReturn d
               else TCont {| t_pending := d;
                             t_buflen := let b := (t_buflen st - Z.of_nat (length (t_pending st ++ chunk) - length d))%Z in
                                         if (b <? 500)%Z then read_buffer else b |}
    | _ => TCrash
    end.
Proof.
  intros Hne Hi. unfold tok_step. fold (is_eof err). destruct chunk as [|c chunk]; [congruence|].
  change (length (c :: chunk) =? 0)%nat with false. cbn [andb]. cbv zeta. rewrite Hi. auto.
Qed.

Lemma step_empty t st err :
  tok_step t st [] err = {| o_sent := []; o_errs := match err with Some (ROther e) => [e] | _ => [] end;
                            o_next := if is_eof err then TReturn (t_pending st) else TCont st |}.
Proof. unfold tok_step. fold (is_eof err). cbn. destruct (is_eof err); reflexivity. Qed.

Lemma step_spec t st chunk err :
  let o := tok_step t st chunk err in
  exists pieces left, t_pending st ++ chunk = concat pieces ++ left /\ Forall2 (carries t) pieces (o_sent o) /\
    match o_next o with
    | TCont st' => is_eof err = false /\ t_pending st' = left
    | TReturn l => is_eof err = true /\ l = left
    | TCrash => parse left (Some t) (is_eof err) = Panic
    end.
Proof.
  destruct chunk as [|c chunk].
  - rewrite step_empty. cbn. exists [], (t_pending st). rewrite app_nil_r. split; [reflexivity|]. split; [constructor|].
    destruct (is_eof err); auto.
  - set (ch := c :: chunk) in *. destruct (tok_inner (S (length (t_pending st ++ ch))) t (is_eof err) (t_pending st ++ ch)) as [sent r] eqn:Ei.
    destruct (step_nonempty t st ch err sent r ltac:(discriminate) Ei) as [H1 H2]. cbv zeta. rewrite H1, H2.
    pose proof (inner_spec _ t (is_eof err) (t_pending st ++ ch) (Nat.lt_succ_diag_r _)) as H. rewrite Ei in H.
    destruct H as (pieces & left & Hd & Hf & Hr). exists pieces, left. split; [exact Hd|]. split; [exact Hf|].
    destruct r as [d| |]; [|exact Hr|contradiction]. destruct Hr as [-> _]. destruct (is_eof err); auto.
Qed.

(** all the bytes read *)
Definition stream (reads : list (bytes * option read_err)) : bytes := concat (map fst reads).

(** ** accounting over a run *)
Lemma run_spec t reads : forall st, reads_ok t st reads ->
  let o := tok_run t st reads in
  exists pieces left, t_pending st ++ stream reads = concat pieces ++ left /\ Forall2 (carries t) pieces (o_sent o) /\
    match o_next o with
    | TCont st' => t_pending st' = left
    | TReturn l => l = left
    | TCrash => exists eof, parse left (Some t) eof = Panic
    end.
Proof.
  induction reads as [|[chunk err] more IH]; intros st Hok; cbn [tok_run].
  - exists [], (t_pending st). cbn. rewrite app_nil_r. split; [reflexivity|]. split; [constructor|reflexivity].
  - cbn [reads_ok] in Hok. destruct Hok as [_ Hok]. pose proof (step_spec t st chunk err) as Hs. cbv zeta in Hs.
    destruct Hs as (pieces & left & Hd & Hf & Hn). unfold stream. cbn [map fst concat]. rewrite app_assoc, Hd.
    destruct (o_next (tok_step t st chunk err)) as [st'|l|] eqn:En.
    + destruct Hn as [_ <-]. destruct (IH st' Hok) as (pieces' & left' & Hd' & Hf' & Hn').
      exists (pieces ++ pieces'), left'. cbn [o_sent o_next]. rewrite concat_app, <- !app_assoc. unfold stream in Hd'. rewrite Hd'.
      split; [reflexivity|]. split; [apply Forall2_app; assumption|exact Hn'].
    + subst more. cbn. rewrite En, app_nil_r. exists pieces, left. split; [reflexivity|]. split; [exact Hf|]. apply Hn.
    + subst more. cbn. rewrite En, app_nil_r. exists pieces, left. split; [reflexivity|]. split; [exact Hf|]. eauto.
Qed.

(** ** RFC 5425 *)
Definition frames (ds : list bytes) : bytes := concat (map (encode TRFC5425) ds).

Lemma prefix_cases (a b x y : bytes) : a ++ x = b ++ y -> (exists z, a = b ++ z /\ y = z ++ x) \/ (exists z, b = a ++ z /\ x = z ++ y /\ z <> []).
Proof.
  revert b. induction a as [|c a IH]; intros b E.
  - destruct b as [|d b].
    + left. exists []. cbn in *. auto.
    + right. exists (d :: b). cbn in *. split; [reflexivity|]. split; [exact E|discriminate].
  - destruct b as [|d b].
    + left. exists (c :: a). cbn in *. auto.
    + injection E as -> E. destruct (IH b E) as [(z & -> & ->)|(z & -> & -> & Hz)]; [left|right]; exists z; auto.
Qed.

(** an incomplete frame is left alone *)
Lemma partial_frame p z d : fits d -> encode TRFC5425 d = p ++ z -> z <> [] ->
  exists e, parse p (Some TRFC5425) false = Val (zero_immutable, None, e).
Proof.
  intros Hf He Hz. unfold parse. cbn [prefix_strip].
  assert (Hzz : forall er, parse_body (Some TRFC5425) false [] None (Some er) = Val (zero_immutable, None, Some er)) by reflexivity.
  destruct (rfc_strip_cases p false) as [(_ & Hs)|(_ & [(Hs & _)|(h & r & Hd & Hh & Hnh & Hx)])].
  - rewrite Hs. cbn. eauto.
  - rewrite Hs. cbn [bind]. rewrite Hzz. eauto.
  - assert (Hw : h = utoa (N.of_nat (length d)) /\ d = r ++ z).
    { cbn [encode] in He. rewrite itoa_nat, Hd, <- app_assoc in He. cbn [app] in He.
      apply (split_unique SP) in He; [|apply digits_no_space, utoa_digits|exact Hnh]. destruct He as [-> ->]. auto. }
    destruct Hw as [-> Hdz].
    assert (Ha : atoi (utoa (N.of_nat (length d))) = Some (Z.of_nat (length d))).
    { rewrite <- itoa_nat. apply atoi_itoa. unfold fits in Hf. cbn [encode] in Hf. rewrite !app_length in Hf. lia. }
    destruct Hx as [(E & _)|(n & En & Hx)]; [congruence|]. rewrite Ha in En. injection En as <-. cbv zeta in Hx.
    assert (Hlen : length (encode TRFC5425 d) = (length (utoa (N.of_nat (length d))) + 1 + length d)%nat).
    { cbn [encode]. rewrite itoa_nat, !app_length. cbn. lia. }
    unfold fits in Hf. rewrite wrap64_id in Hx by lia.
    assert (Hlp : length p = (length (utoa (N.of_nat (length d))) + 1 + length r)%nat) by (rewrite Hd, app_length; cbn; lia).
    assert (Hld : length d = (length r + length z)%nat) by (rewrite Hdz at 1; apply app_length).
    destruct Hx as [(_ & Hs)|[(Hlt & _)|(Hle & _)]]; [|lia|destruct z; [congruence|cbn in Hld; lia]].
    rewrite Hs. cbn. eauto.
Qed.

(** what the decoder makes of one payload *)
Definition decodes (d : bytes) (p : immutable * option perr) : Prop := parse d None true = Val (fst p, None, snd p).

Lemma decodes_ex d : exists p, decodes d p.
Proof. destruct (parse_none_spec d true) as (m & e & H & _). exists (m, e). exact H. Qed.

Lemma frame_nonempty d : encode TRFC5425 d <> [].
Proof. cbn [encode]. rewrite itoa_nat. destruct (utoa (N.of_nat (length d))) eqn:E; [exact (fun _ => utoa_nonnil _ E)|discriminate]. Qed.

(** what remains undelivered once every complete frame is consumed: nothing, or less than 20 bytes, or a cut frame *)
Definition cut (ds : list bytes) (left : bytes) : Prop :=
  (length left < 20)%nat \/ exists d ds', ds = d :: ds' /\ (length left < length (encode TRFC5425 d))%nat.

Lemma inner_frames fuel : forall ds data unread eof, Forall fits ds -> data ++ unread = frames ds ->
  (eof = true -> unread = []) -> (length data < fuel)%nat ->
  exists ds1 ds2 sent left, tok_inner fuel TRFC5425 eof data = (sent, Val left) /\ ds = ds1 ++ ds2 /\
    Forall2 decodes ds1 sent /\ left ++ unread = frames ds2 /\ data = frames ds1 ++ left /\ cut ds2 left.
Proof.
  induction fuel as [|f IH]; intros ds data unread eof Hfit Hds Heof Hf; [lia|]. cbn [tok_inner].
  destruct (Nat.lt_ge_cases (length data) 20) as [Hl|Hl].
  { assert (Hp : parse data (Some TRFC5425) eof = Val (zero_immutable, None, None)).
    { unfold parse. cbn [prefix_strip]. destruct (rfc_strip_cases data eof) as [(_ & Hs)|(H & _)]; [rewrite Hs; reflexivity|lia]. }
    rewrite Hp. exists [], ds, [], data. split; [reflexivity|]. split; [reflexivity|]. split; [constructor|]. split; [exact Hds|].
    split; [reflexivity|]. left; exact Hl. }
  destruct ds as [|d ds]; [cbn in Hds; apply app_eq_nil in Hds as [-> _]; cbn in Hl; lia|].
  inversion Hfit as [|? ? Hd Hfit']; subst. unfold frames in Hds. cbn [map concat] in Hds. fold (frames ds) in Hds.
  destruct (prefix_cases _ _ _ _ Hds) as [(z & -> & Hz)|(z & Hz & -> & Hne)].
  - destruct (decodes_ex d) as [[m e] Hp]. unfold decodes in Hp. cbn [fst snd] in Hp. rewrite (parse_none_eof d true eof) in Hp.
    rewrite (parse_rfc_frame d z eof Hl Hd m e Hp).
    assert (Hdec : decodes d (m, e)) by (unfold decodes; cbn [fst snd]; rewrite (parse_none_eof d true eof); exact Hp).
    destruct (Nat.eqb_spec (length z) 0) as [E0|E0].
    + apply length_zero_iff_nil in E0 as ->. exists [d], ds, [(m, e)], []. split; [reflexivity|]. split; [reflexivity|].
      split; [constructor; [exact Hdec|constructor]|]. split; [symmetry; exact Hz|]. split; [unfold frames; cbn [map concat]; rewrite !app_nil_r; reflexivity|]. left; cbn; lia.
    + destruct (IH ds z unread eof Hfit' (eq_sym Hz) Heof) as (ds1 & ds2 & sent & left & Hi & -> & Hs & Hlu & -> & Hc).
      { rewrite app_length in Hf. pose proof (frame_nonempty d). destruct (encode TRFC5425 d); [congruence|]. cbn in Hf. lia. }
      rewrite Hi. exists (d :: ds1), ds2, ((m, e) :: sent), left. split; [reflexivity|]. split; [reflexivity|].
      split; [constructor; assumption|]. split; [exact Hlu|]. split; [|exact Hc]. unfold frames. cbn [map concat]. rewrite <- app_assoc. reflexivity.
  - destruct eof.
    { exfalso. specialize (Heof eq_refl). apply app_eq_nil in Heof as [-> _]. congruence. }
    destruct (partial_frame data z d Hd Hz Hne) as [e Hp]. rewrite Hp.
    exists [], (d :: ds), [], data. split; [reflexivity|]. split; [reflexivity|]. split; [constructor|]. split.
    { unfold frames. cbn [map concat]. fold (frames ds). rewrite Hz, <- app_assoc. reflexivity. }
    split; [reflexivity|]. right. exists d, ds. split; [reflexivity|]. rewrite Hz, app_length. destruct z; [congruence|]. cbn. lia.
Qed.


(** end of stream only on the last read, when everything is read *)
Fixpoint eof_last (reads : list (bytes * option read_err)) : Prop :=
  match reads with
  | [] => True
  | (_, err) :: more => (is_eof err = true -> more = []) /\ eof_last more
  end.
Definition ended (reads : list (bytes * option read_err)) : bool := existsb (fun r => is_eof (snd r)) reads.

(** the errors other than EOF reported by the reads *)
Definition read_errors (reads : list (bytes * option read_err)) : list nat :=
  concat (map (fun r => match snd r with Some (ROther e) => [e] | _ => [] end) reads).

Lemma step_errs t st chunk err : o_errs (tok_step t st chunk err) = match err with Some (ROther e) => [e] | _ => [] end.
Proof.
  unfold tok_step. fold (is_eof err). destruct ((length chunk =? 0)%nat && is_eof err); [reflexivity|].
  destruct (length chunk =? 0)%nat; [reflexivity|]. cbv zeta. destruct (tok_inner _ _ _ _). reflexivity.
Qed.

(** one turn on a frame stream *)
Lemma step_frames st chunk err ds unread : Forall fits ds -> t_pending st ++ chunk ++ unread = frames ds -> cut ds (t_pending st) ->
  (is_eof err = true -> unread = []) ->
  exists ds1 ds2 left, ds = ds1 ++ ds2 /\ t_pending st ++ chunk = frames ds1 ++ left /\ left ++ unread = frames ds2 /\ cut ds2 left /\
    Forall2 decodes ds1 (o_sent (tok_step TRFC5425 st chunk err)) /\
    o_next (tok_step TRFC5425 st chunk err) =
      if is_eof err then TReturn left
      else TCont {| t_pending := left;
                    t_buflen := let b := (t_buflen st - Z.of_nat (length (frames ds1)))%Z in
                                if (length chunk =? 0)%nat then t_buflen st else if (b <? 500)%Z then read_buffer else b |}.
Proof.
  intros Hf Hs Hc He. destruct chunk as [|c chunk].
  - exists [], ds, (t_pending st). rewrite step_empty, app_nil_r. cbn. split; [reflexivity|]. split; [reflexivity|]. split; [exact Hs|]. split; [exact Hc|].
    split; [constructor|]. destruct st; cbn. destruct (is_eof err); reflexivity.
  - set (ch := c :: chunk) in *. rewrite app_assoc in Hs.
    destruct (inner_frames (S (length (t_pending st ++ ch))) ds (t_pending st ++ ch) unread (is_eof err) Hf Hs He (Nat.lt_succ_diag_r _))
      as (ds1 & ds2 & sent & left & Hi & Hd & Hdec & Hl & Hdat & Hcut).
    destruct (step_nonempty TRFC5425 st ch err sent _ ltac:(discriminate) Hi) as [H1 H2].
    exists ds1, ds2, left. rewrite H1, H2. split; [exact Hd|]. split; [exact Hdat|]. split; [exact Hl|]. split; [exact Hcut|]. split; [exact Hdec|].
    destruct (is_eof err); [reflexivity|]. rewrite Hdat, app_length. cbv zeta. change (length ch =? 0)%nat with false. cbv iota.
    replace (length (frames ds1) + length left - length left)%nat with (length (frames ds1)) by lia. reflexivity.
Qed.

Lemma frames_app a b : frames (a ++ b) = frames a ++ frames b.
Proof. unfold frames. rewrite map_app, concat_app. reflexivity. Qed.

Lemma run_frames reads : forall st ds unread, Forall fits ds -> t_pending st ++ stream reads ++ unread = frames ds -> cut ds (t_pending st) ->
  eof_last reads -> (ended reads = true -> unread = []) ->
  let o := tok_run TRFC5425 st reads in
  exists ds1 ds2 left, ds = ds1 ++ ds2 /\ left ++ unread = frames ds2 /\ cut ds2 left /\
    Forall2 decodes ds1 (o_sent o) /\ o_errs o = read_errors reads /\
    if ended reads then o_next o = TReturn left else exists b, o_next o = TCont {| t_pending := left; t_buflen := b |}.
Proof.
  induction reads as [|[chunk err] more IH]; intros st ds unread Hf Hs Hc Hl He; cbv zeta; cbn [tok_run].
  - exists [], ds, (t_pending st). cbn. split; [reflexivity|]. split; [exact Hs|]. split; [exact Hc|]. split; [constructor|]. split; [reflexivity|].
    exists (t_buflen st). destruct st; reflexivity.
  - cbn [eof_last] in Hl. destruct Hl as [Hl1 Hl2]. unfold stream in Hs. cbn [map fst concat] in Hs. rewrite <- app_assoc in Hs. fold (stream more) in Hs.
    destruct (step_frames st chunk err ds (stream more ++ unread) Hf Hs Hc) as (ds1 & ds2 & left & -> & Hdat & Hlu & Hcut & Hdec & Hn).
    { intros E. rewrite (Hl1 E). cbn. apply He. cbn. rewrite E. reflexivity. }
    rewrite Hn. unfold read_errors. cbn [ended existsb snd map concat]. fold (ended more). fold (read_errors more).
    rewrite <- (step_errs TRFC5425 st chunk err). destruct (is_eof err) eqn:Ee.
    + specialize (Hl1 eq_refl). subst more. cbn [orb]. rewrite Hn. exists ds1, ds2, left. cbn in Hlu. split; [reflexivity|]. split; [exact Hlu|]. split; [exact Hcut|].
      split; [exact Hdec|]. cbn. rewrite app_nil_r. split; reflexivity.
    + cbn [orb].
      match type of Hn with _ = TCont ?s => destruct (IH s ds2 unread) as (ds1' & ds2' & left' & -> & Hlu' & Hcut' & Hdec' & Hx & Hn') end.
      * rewrite Forall_app in Hf. apply Hf.
      * exact Hlu.
      * exact Hcut.
      * exact Hl2.
      * intros E. apply He. cbn. rewrite Ee. exact E.
      * exists (ds1 ++ ds1'), ds2', left'. split; [apply app_assoc|]. split; [exact Hlu'|]. split; [exact Hcut'|]. cbn [o_sent o_errs o_next].
        split; [apply Forall2_app; assumption|]. split; [f_equal; exact Hx|exact Hn'].
Qed.

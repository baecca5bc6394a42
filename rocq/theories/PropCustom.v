(** PropCustom.v -- property C109: Parse and a Receiver with any implementation of Transport. *)
From Verif Require Import Base BaseFacts Spec MTransport MParse MTokenize MSender MCustom LText LAtoi LParse LTransport LRound LTokenize LSender PropParse PropTransport PropSender.

(** ** the transports of the package are instances *)
Definition lift_err (x : slice * slice * option perr) : slice * slice * option cerr := let '(d, r, e) := x in (d, r, option_map CPkg e).
Definition builtin (t : transport) : ctransport :=
  {| c_encode := encode t;
     c_prefix := fun b eof => match prefix_strip t b eof with Val x => Val (lift_err x) | Panic => Panic | NoFuel => NoFuel end;
     c_suffix := fun b eof => Val (lift_err (suffix_strip t b eof)) |}.
Definition lift_res (x : res (immutable * slice * option perr)) : res (immutable * slice * option cerr) :=
  match x with Val (m, r, e) => Val (m, r, option_map CPkg e) | Panic => Panic | NoFuel => NoFuel end.

Lemma return_builtin m t eof d r : cparse_return m (option_map builtin t) eof d r = lift_res (parse_return m t eof d r).
Proof.
  destruct t as [t|]; [|reflexivity]. unfold cparse_return, parse_return. cbn [option_map]. destruct r; [reflexivity|].
  destruct (go_from_z d (i_text m)) as [tl| |]; cbn [bind]; try reflexivity. unfold builtin. cbn [c_suffix]. cbn [bind].
  destruct (suffix_strip t tl eof) as [[[x|] [y|]] [z|]]; cbn [lift_err option_map lift_res]; reflexivity.
Qed.
Lemma dispatch_lift me e : cdispatch (option_map CPkg me) e = option_map CPkg (dispatch_error me e).
Proof. destruct me; reflexivity. Qed.
Lemma body_builtin t eof d r me : cparse_body (option_map builtin t) eof d r (option_map CPkg me) = lift_res (parse_body t eof d r me).
Proof.
  unfold cparse_body, parse_body. destruct (header_loop 6 d 0 []) as [[[idx begin]|e]| |]; cbn [bind]; [|cbn [lift_res]; rewrite dispatch_lift; reflexivity|reflexivity|reflexivity].
  destruct (go_from d begin) as [tl| |]; cbn [bind]; [|reflexivity|reflexivity].
  destruct (length tl =? 0)%nat; [cbn [lift_res]; rewrite dispatch_lift; reflexivity|]. destruct (length tl =? 1)%nat.
  - destruct (go_at d begin) as [c| |]; cbn [bind]; try reflexivity. destruct (negb (c =? DASH)%N); [cbn [lift_res]; rewrite dispatch_lift; reflexivity|apply return_builtin].
  - destruct (search_next_sep tl SP) as [e|e]; [|cbn [lift_res]; rewrite dispatch_lift; reflexivity]. destruct (e =? 1)%nat.
    + destruct (go_at d begin) as [c| |]; cbn [bind]; try reflexivity. destruct (negb (c =? DASH)%N); [cbn [lift_res]; rewrite dispatch_lift; reflexivity|apply return_builtin].
    + destruct (sd_loop (S (length d)) d begin begin idx) as [[i x|e0]| |]; cbn [bind]; try reflexivity; [apply return_builtin|cbn [lift_res]; rewrite dispatch_lift; reflexivity].
Qed.

(** Parse with an exported transport, or with nil, is Parse with its methods. *)
Theorem C109_builtin : forall data t eof, cparse data (option_map builtin t) eof = lift_res (parse data t eof).
Proof.
  intros data t eof. unfold cparse, parse. destruct t as [t|]; cbn [option_map]; [|exact (body_builtin None eof data None None)].
  cbn [builtin c_prefix]. destruct (prefix_strip t data eof) as [[[d r] e]| |]; cbn [bind lift_err]; try reflexivity.
  pose proof (body_builtin (Some t) eof (match d with Some d => d | None => [] end) r e) as H. cbn [option_map] in H.
  destruct d as [d|], r as [r|], e as [e|]; cbn [option_map] in *; try exact H; reflexivity.
Qed.
Print Assumptions C109_builtin.

Lemma inner_builtin t eof : forall fuel data, ctok_inner fuel (Some (builtin t)) eof data =
  let '(sent, r) := tok_inner fuel t eof data in (map (fun p => (fst p, option_map CPkg (snd p))) sent, r).
Proof.
  induction fuel as [|f IH]; intros data; [reflexivity|]. cbn [ctok_inner tok_inner].
  rewrite (C109_builtin data (Some t) eof : cparse data (Some (builtin t)) eof = _). destruct (parse data (Some t) eof) as [[[m [r|]] e]| |]; cbn [lift_res]; try reflexivity.
  destruct (length r =? 0)%nat; [reflexivity|]. rewrite IH. destruct (tok_inner f t eof r) as [sent x]. reflexivity.
Qed.
Lemma inner_fuel t eof : forall f1 f2 data, (length data < f1)%nat -> (length data < f2)%nat -> tok_inner f1 t eof data = tok_inner f2 t eof data.
Proof.
  induction f1 as [|f1 IH]; intros [|f2] data H1 H2; try lia. cbn [tok_inner]. destruct (parse data (Some t) eof) as [[[m [r|]] e]| |] eqn:Ep; try reflexivity.
  destruct (length r =? 0)%nat eqn:E0; [reflexivity|]. destruct (parse_carries _ _ _ _ _ _ Ep) as (piece & -> & Hne & _). rewrite app_length in *. destruct piece; [congruence|]. cbn [length] in *.
  rewrite (IH f2 r) by lia. reflexivity.
Qed.

(** ... and so is what a Receiver makes of a connection. *)
Definition lift_next (n : tok_next) : ctok_next := match n with TCont st => CCont st | TReturn _ => CReturn | TCrash => CCrash end.
Theorem C109_builtin_receiver : forall t reads fuel st, (length (t_pending st ++ stream reads) < fuel)%nat ->
  let o := tok_run t st reads in let c := ctok_run fuel (Some (builtin t)) st reads in
  co_sent c = map (fun p => (fst p, option_map CPkg (snd p))) (o_sent o) /\ co_errs c = o_errs o /\ co_next c = lift_next (o_next o).
Proof.
  intros t. induction reads as [|[chunk err] more IH]; intros fuel st Hf; cbv zeta; [split; [reflexivity|split; reflexivity]|].
  unfold stream in Hf. cbn [map fst concat] in Hf. fold (stream more) in Hf. rewrite !app_length in Hf.
  assert (S : let o := tok_step t st chunk err in let c := ctok_step fuel (Some (builtin t)) st chunk err in
    co_sent c = map (fun p => (fst p, option_map CPkg (snd p))) (o_sent o) /\ co_errs c = o_errs o /\ co_next c = lift_next (o_next o)).
  { cbv zeta. unfold ctok_step, tok_step. destruct (_ && _); [split; [reflexivity|split; reflexivity]|]. destruct (length chunk =? 0)%nat; [split; [reflexivity|split; reflexivity]|]. cbv zeta.
    set (eof := match err with Some REOF => true | _ => false end). rewrite inner_builtin. rewrite (inner_fuel t eof fuel (S (length (t_pending st ++ chunk)))) by (rewrite app_length; lia).
    pose proof (inner_spec _ t eof (t_pending st ++ chunk) (Nat.lt_succ_diag_r _)) as H. destruct (tok_inner _ t eof _) as [sent r].
    cbn [co_sent co_errs co_next o_sent o_errs o_next]. split; [reflexivity|]. split; [reflexivity|]. destruct H as (pieces & left & Hd & _ & Hr). destruct r as [d| |]; [|reflexivity|contradiction].
    destruct Hr as [-> _]. rewrite Hd, app_length. destruct (Nat.ltb_spec (length (concat pieces) + length left) (length left)); [lia|].
    replace (length (concat pieces) + length left - length left)%nat with (length (concat pieces)) by lia. rewrite skipn_app, skipn_all, Nat.sub_diag. cbn [skipn app]. destruct eof; reflexivity. }
  cbv zeta in S. destruct S as (S1 & S2 & S3). cbn [ctok_run tok_run]. rewrite S3. destruct (o_next (tok_step t st chunk err)) as [st'|l|] eqn:En; cbn [lift_next];
    [|split; [exact S1|split; [exact S2|rewrite S3, ?En; reflexivity]]..].
  assert (Hp : (length (t_pending st') <= length (t_pending st ++ chunk))%nat).
  { destruct (step_spec t st chunk err) as (pieces & left & Hd & _ & Hn). rewrite En in Hn. destruct Hn as [_ ->]. rewrite Hd, app_length. lia. }
  rewrite app_length in Hp. destruct (IH fuel st') as (I1 & I2 & I3); [rewrite app_length; lia|]. cbn [co_sent co_errs co_next o_sent o_errs o_next]. rewrite S1, S2, I1, I2, map_app. auto.
Qed.
Print Assumptions C109_builtin_receiver.

(** ** framing transports *)
(** A transport frames the payloads when no frame is empty, PrefixStrip cuts a whole frame off the front
    of any buffer, and of a part of a frame it takes nothing. *)
Record framing (T : ctransport) (payload : bytes -> Prop) : Prop := {
  fr_nonempty : forall d, payload d -> c_encode T d <> [];
  fr_whole : forall d r eof, payload d -> c_prefix T (c_encode T d ++ r) eof = Val (Some d, Some r, None);
  fr_part : forall d p q, payload d -> c_encode T d = p ++ q -> p <> [] -> q <> [] -> exists e, c_prefix T p false = Val (None, None, e) }.

(** what the user gets for a payload: the pair that Parse gives for it without transport *)
Definition cdecodes (d : bytes) (p : immutable * option cerr) : Prop := exists e, parse d None true = Val (fst p, None, e) /\ snd p = option_map CPkg e.
Definition cframes (T : ctransport) (ds : list bytes) : bytes := concat (map (c_encode T) ds).

Lemma body_rest T eof d r m e : parse d None eof = Val (m, None, e) -> cparse_body (Some T) eof d (Some r) None = Val (m, Some r, option_map CPkg e).
Proof.
  intros H. unfold parse, parse_body in H. unfold cparse_body. destruct (header_loop 6 d 0 []) as [[[idx begin]|e0]| |]; cbn [bind] in *; try discriminate; [|injection H as <- <-; reflexivity].
  destruct (go_from d begin) as [tl| |]; cbn [bind] in *; try discriminate. destruct (length tl =? 0)%nat; [injection H as <- <-; reflexivity|]. destruct (length tl =? 1)%nat.
  - destruct (go_at d begin) as [c| |]; cbn [bind] in *; try discriminate. destruct (negb (c =? DASH)%N); injection H as <- <-; reflexivity.
  - destruct (search_next_sep tl SP) as [e0|e0]; [|injection H as <- <-; reflexivity]. destruct (e0 =? 1)%nat.
    + destruct (go_at d begin) as [c| |]; cbn [bind] in *; try discriminate. destruct (negb (c =? DASH)%N); injection H as <- <-; reflexivity.
    + destruct (sd_loop (S (length d)) d begin begin idx) as [[i x|e1]| |]; cbn [bind] in *; try discriminate; injection H as <- <-; reflexivity.
Qed.

Lemma cparse_frame T payload d r eof : framing T payload -> payload d ->
  exists p, cdecodes d p /\ cparse (c_encode T d ++ r) (Some T) eof = Val (fst p, Some r, snd p).
Proof.
  intros F Hd. destruct (decodes_ex d) as [[m e] Hp]. unfold decodes in Hp. cbn [fst snd] in Hp. exists (m, option_map CPkg e). split; [exists e; auto|].
  unfold cparse. rewrite (fr_whole _ _ F d r eof Hd). cbn [bind fst snd]. apply body_rest. rewrite <- (parse_none_eof d true eof). exact Hp.
Qed.
Lemma cparse_part T payload d p q : framing T payload -> payload d -> c_encode T d = p ++ q -> p <> [] -> q <> [] ->
  exists e, cparse p (Some T) false = Val (zero_immutable, None, e).
Proof.
  intros F Hd E Hp Hq. destruct (fr_part _ _ F d p q Hd E Hp Hq) as [e He]. unfold cparse. rewrite He. cbn [bind]. destruct e as [e|]; [exists (Some e)|exists None]; reflexivity.
Qed.

Definition ccut (T : ctransport) (ds : list bytes) (left : bytes) : Prop :=
  left = [] \/ exists d ds', ds = d :: ds' /\ (length left < length (c_encode T d))%nat.

Lemma inner_cframes T payload : framing T payload -> forall fuel ds data unread eof, Forall payload ds -> data ++ unread = cframes T ds ->
  (eof = true -> unread = []) -> data <> [] -> (length data < fuel)%nat ->
  exists ds1 ds2 sent left, ctok_inner fuel (Some T) eof data = (sent, Val left) /\ ds = ds1 ++ ds2 /\
    Forall2 cdecodes ds1 sent /\ left ++ unread = cframes T ds2 /\ data = cframes T ds1 ++ left /\ ccut T ds2 left.
Proof.
  intros F. induction fuel as [|f IH]; intros ds data unread eof Hpay Hds Heof Hne Hf; [lia|]. cbn [ctok_inner].
  destruct ds as [|d ds]; [unfold cframes in Hds; cbn in Hds; apply app_eq_nil in Hds as [-> _]; congruence|].
  apply Forall_cons_iff in Hpay as [Hd Hpay]. unfold cframes in Hds. cbn [map concat] in Hds. fold (cframes T ds) in Hds.
  destruct (prefix_cases _ _ _ _ Hds) as [(z & -> & Hz)|(z & Hz & -> & Hzne)].
  - destruct (cparse_frame T payload d z eof F Hd) as ([m e] & Hdec & Hp). cbn [fst snd] in Hp. rewrite Hp.
    destruct (Nat.eqb_spec (length z) 0) as [E0|E0].
    + apply length_zero_iff_nil in E0 as ->. exists [d], ds, [(m, e)], []. split; [reflexivity|]. split; [reflexivity|].
      split; [constructor; [exact Hdec|constructor]|]. split; [symmetry; exact Hz|]. split; [unfold cframes; cbn [map concat]; rewrite !app_nil_r; reflexivity|]. left; reflexivity.
    + destruct (IH ds z unread eof Hpay (eq_sym Hz) Heof) as (ds1 & ds2 & sent & left & Hi & -> & Hs & Hlu & -> & Hc).
      { intros ->. apply E0. reflexivity. }
      { rewrite app_length in Hf. pose proof (fr_nonempty _ _ F d Hd). destruct (c_encode T d); [congruence|]. cbn in Hf. lia. }
      rewrite Hi. exists (d :: ds1), ds2, ((m, e) :: sent), left. split; [reflexivity|]. split; [reflexivity|].
      split; [constructor; assumption|]. split; [exact Hlu|]. split; [|exact Hc]. unfold cframes. cbn [map concat]. rewrite <- app_assoc. reflexivity.
  - destruct eof.
    { exfalso. specialize (Heof eq_refl). apply app_eq_nil in Heof as [-> _]. congruence. }
    destruct (cparse_part T payload d data z F Hd Hz Hne Hzne) as [e Hp]. rewrite Hp.
    exists [], (d :: ds), [], data. split; [reflexivity|]. split; [reflexivity|]. split; [constructor|]. split.
    { unfold cframes. cbn [map concat]. fold (cframes T ds). rewrite Hz, <- app_assoc. reflexivity. }
    split; [reflexivity|]. right. exists d, ds. split; [reflexivity|]. rewrite Hz, app_length. destruct z; [congruence|]. cbn. lia.
Qed.

Lemma cstep_errs fuel t st chunk err : co_errs (ctok_step fuel t st chunk err) = match err with Some (ROther e) => [e] | _ => [] end.
Proof. unfold ctok_step. destruct (_ && _); [reflexivity|]. destruct (length chunk =? 0)%nat; [reflexivity|]. cbv zeta. destruct (ctok_inner _ _ _ _). reflexivity. Qed.

Lemma step_cframes T payload fuel st chunk err ds unread : framing T payload -> Forall payload ds -> t_pending st ++ chunk ++ unread = cframes T ds -> ccut T ds (t_pending st) ->
  (is_eof err = true -> unread = []) -> (length (t_pending st ++ chunk) < fuel)%nat ->
  let o := ctok_step fuel (Some T) st chunk err in
  exists ds1 ds2 left, ds = ds1 ++ ds2 /\ t_pending st ++ chunk = cframes T ds1 ++ left /\ left ++ unread = cframes T ds2 /\ ccut T ds2 left /\
    Forall2 cdecodes ds1 (co_sent o) /\ if is_eof err then co_next o = CReturn else exists b, co_next o = CCont {| t_pending := left; t_buflen := b |}.
Proof.
  intros F Hpay Hs Hc He Hfu. cbv zeta. destruct chunk as [|c chunk].
  - exists [], ds, (t_pending st). rewrite app_nil_r. cbn [app] in Hs. unfold ctok_step. fold (is_eof err). change (length [] =? 0)%nat with true. cbn [andb].
    split; [reflexivity|]. split; [reflexivity|]. split; [exact Hs|]. split; [exact Hc|]. destruct (is_eof err); (split; [constructor|]); [reflexivity|]. exists (t_buflen st). destruct st; reflexivity.
  - set (ch := c :: chunk) in *. rewrite app_assoc in Hs.
    destruct (inner_cframes T payload F fuel ds (t_pending st ++ ch) unread (is_eof err) Hpay Hs He ltac:(destruct (t_pending st); discriminate) Hfu)
      as (ds1 & ds2 & sent & left & Hi & Hd & Hdec & Hl & Hdat & Hcut).
    exists ds1, ds2, left. split; [exact Hd|]. split; [exact Hdat|]. split; [exact Hl|]. split; [exact Hcut|].
    unfold ctok_step. fold (is_eof err). change (length ch =? 0)%nat with false. cbn [andb]. cbv zeta. rewrite Hi. cbn [co_sent co_next]. split; [exact Hdec|].
    rewrite Hdat, app_length. destruct (Nat.ltb_spec (length (cframes T ds1) + length left) (length left)); [lia|]. destruct (is_eof err); [reflexivity|].
    replace (length (cframes T ds1) + length left - length left)%nat with (length (cframes T ds1)) by lia. rewrite skipn_app, skipn_all, Nat.sub_diag. cbn [skipn app]. eexists. reflexivity.
Qed.

Lemma run_cframes T payload : framing T payload -> forall reads fuel st ds unread, Forall payload ds -> t_pending st ++ stream reads ++ unread = cframes T ds -> ccut T ds (t_pending st) ->
  eof_last reads -> (ended reads = true -> unread = []) -> (length (t_pending st ++ stream reads) < fuel)%nat ->
  let o := ctok_run fuel (Some T) st reads in
  exists ds1 ds2 left, ds = ds1 ++ ds2 /\ left ++ unread = cframes T ds2 /\ ccut T ds2 left /\
    Forall2 cdecodes ds1 (co_sent o) /\ co_errs o = read_errors reads /\
    if ended reads then co_next o = CReturn else exists b, co_next o = CCont {| t_pending := left; t_buflen := b |}.
Proof.
  intros F. induction reads as [|[chunk err] more IH]; intros fuel st ds unread Hf Hs Hc Hl He Hfu; cbv zeta; cbn [ctok_run].
  - exists [], ds, (t_pending st). cbn. split; [reflexivity|]. split; [exact Hs|]. split; [exact Hc|]. split; [constructor|]. split; [reflexivity|].
    exists (t_buflen st). destruct st; reflexivity.
  - cbn [eof_last] in Hl. destruct Hl as [Hl1 Hl2]. unfold stream in Hs, Hfu. cbn [map fst concat] in Hs, Hfu. rewrite <- app_assoc in Hs. fold (stream more) in Hs, Hfu.
    destruct (step_cframes T payload fuel st chunk err ds (stream more ++ unread) F Hf Hs Hc) as (ds1 & ds2 & left & -> & Hdat & Hlu & Hcut & Hdec & Hn).
    { intros E. rewrite (Hl1 E). cbn. apply He. cbn. rewrite E. reflexivity. }
    { rewrite !app_length in *. lia. }
    unfold read_errors. cbn [ended existsb snd map concat]. fold (ended more). fold (read_errors more).
    rewrite <- (cstep_errs fuel (Some T) st chunk err). destruct (is_eof err) eqn:Ee.
    + specialize (Hl1 eq_refl). subst more. cbn [orb]. rewrite Hn. exists ds1, ds2, left. cbn in Hlu. split; [reflexivity|]. split; [exact Hlu|]. split; [exact Hcut|].
      split; [exact Hdec|]. cbn. rewrite app_nil_r. split; [reflexivity|exact Hn].
    + cbn [orb]. destruct Hn as [b Hn]. rewrite Hn.
      destruct (IH fuel {| t_pending := left; t_buflen := b |} ds2 unread) as (ds1' & ds2' & left' & -> & Hlu' & Hcut' & Hdec' & Hx & Hn').
      * rewrite Forall_app in Hf. apply Hf.
      * exact Hlu.
      * exact Hcut.
      * exact Hl2.
      * intros E. apply He. cbn. rewrite Ee. exact E.
      * cbn [t_pending]. apply (f_equal (@length N)) in Hdat. rewrite !app_length in *. lia.
      * exists (ds1 ++ ds1'), ds2', left'. split; [apply app_assoc|]. split; [exact Hlu'|]. split; [exact Hcut'|]. cbn [co_sent co_errs co_next].
        split; [apply Forall2_app; assumption|]. split; [f_equal; exact Hx|exact Hn'].
Qed.

(** However the stream of frames is cut into reads, with whatever errors other than EOF between them, the
    pairs delivered are the payloads of the whole frames received so far, in order, each once, decoded as
    Parse does without transport; the rest is kept for later. *)
Theorem C109_reassembly : forall T payload ds reads unread fuel, framing T payload -> Forall payload ds ->
  stream reads ++ unread = concat (map (c_encode T) ds) -> eof_last reads -> (ended reads = true -> unread = []) -> (length (stream reads) < fuel)%nat ->
  let o := ctok_run fuel (Some T) tok_init reads in
  exists ds1 ds2 left, ds = ds1 ++ ds2 /\ stream reads = concat (map (c_encode T) ds1) ++ left /\
    (left = [] \/ exists d ds', ds2 = d :: ds' /\ (length left < length (c_encode T d))%nat) /\
    Forall2 cdecodes ds1 (co_sent o) /\ co_errs o = read_errors reads /\ (unread = [] -> ds2 = []) /\
    if ended reads then co_next o = CReturn else exists b, co_next o = CCont {| t_pending := left; t_buflen := b |}.
Proof.
  intros T payload ds reads unread fuel F Hpay Hs Hl He Hfu. cbv zeta.
  destruct (run_cframes T payload F reads fuel tok_init ds unread Hpay Hs (or_introl eq_refl) Hl He Hfu) as (ds1 & ds2 & left & -> & Hlu & Hc & Hdec & Herr & Hn).
  exists ds1, ds2, left. split; [reflexivity|]. split.
  { rewrite map_app, concat_app in Hs. fold (cframes T ds2) in Hs. rewrite <- Hlu in Hs. rewrite app_assoc in Hs. apply app_inv_tail in Hs. exact Hs. }
  split; [exact Hc|]. split; [exact Hdec|]. split; [exact Herr|]. split; [|exact Hn].
  intros ->. rewrite app_nil_r in Hlu. apply Forall_app in Hpay as [_ Hpay]. destruct ds2 as [|d ds2]; [reflexivity|]. exfalso. apply Forall_cons_iff in Hpay as [Hd _]. unfold cframes in Hlu. cbn [map concat] in Hlu.
  destruct Hc as [-> |(d' & ds' & E & Hlt)].
  - symmetry in Hlu. apply app_eq_nil in Hlu as [Hx _]. exact (fr_nonempty _ _ F d Hd Hx).
  - injection E as <- <-. rewrite Hlu, app_length in Hlt. lia.
Qed.
Print Assumptions C109_reassembly.

(** A Sender and a Receiver that use such a transport: of what the Sender has written, in any execution,
    on its connections, read in any way, exactly the whole frames are delivered, in the order of the
    calls of Send. *)
Theorem C109_end_to_end : forall T payload acts s reads fuel ds, framing T payload -> srun sender_init acts = Some s ->
  sends acts = map (c_encode T) ds -> Forall payload ds -> stream reads = written (s_log s) -> eof_last reads -> (ended reads = true -> s_queue s = []) -> (length (stream reads) < fuel)%nat ->
  exists ds1 ds2, ds = ds1 ++ ds2 /\ Forall2 cdecodes ds1 (co_sent (ctok_run fuel (Some T) tok_init reads)) /\ (s_queue s = [] -> ds2 = []).
Proof.
  intros T payload acts s reads fuel ds F Hr Hs Hpay Hst Hl He Hfu. destruct (C41_no_loss _ _ Hr) as [Hw _]. rewrite Hs, <- Hst in Hw.
  destruct (C109_reassembly T payload ds reads (concat (s_queue s)) fuel F Hpay Hw Hl) as (ds1 & ds2 & left & E & _ & _ & Hd & _ & Hu & _); [intros E; rewrite (He E); reflexivity|exact Hfu|].
  exists ds1, ds2. split; [exact E|]. split; [exact Hd|]. intros Hq. apply Hu. rewrite Hq. reflexivity.
Qed.
Print Assumptions C109_end_to_end.

(** ** transports that cut the end of the message *)
(** A message without framing whose text part is [u]: a header, then "- " and [u], or a header, structured
    data, a separator and [u] (C20) *)
Definition with_text (data : bytes) (ws : list bytes) (u : bytes) : Prop :=
  length ws = 6%nat /\ Forall word ws /\
  (data = join ws ++ bs "- " ++ u \/
   exists els c, late_space (concat els ++ c :: u) /\ Forall scan_element els /\ text_safe (c :: u) /\ data = join ws ++ concat els ++ c :: u).
(** ... and one without text part: a header and "-", or a header and structured data *)
Definition without_text (data : bytes) (ws : list bytes) : Prop :=
  length ws = 6%nat /\ Forall word ws /\
  (data = join ws ++ bs "-" \/ exists els, late_space (concat els) /\ Forall scan_element els /\ els <> [] /\ data = join ws ++ concat els).

Lemma body_none T eof d m : parse d None eof = Val (m, None, None) -> cparse_body (Some T) eof d None None = cparse_return m (Some T) eof d None.
Proof.
  intros H. unfold parse, parse_body in H. unfold cparse_body. destruct (header_loop 6 d 0 []) as [[[idx begin]|e0]| |]; cbn [bind] in *; try discriminate.
  destruct (go_from d begin) as [tl| |]; cbn [bind] in *; try discriminate. destruct (length tl =? 0)%nat; [discriminate|]. destruct (length tl =? 1)%nat.
  - destruct (go_at d begin) as [c| |]; cbn [bind] in *; try discriminate. destruct (negb (c =? DASH)%N); [discriminate|]. injection H as <-. reflexivity.
  - destruct (search_next_sep tl SP) as [e0|e0]; [|discriminate]. destruct (e0 =? 1)%nat.
    + destruct (go_at d begin) as [c| |]; cbn [bind] in *; try discriminate. destruct (negb (c =? DASH)%N); [discriminate|]. injection H as <-. reflexivity.
    + destruct (sd_loop (S (length d)) d begin begin idx) as [[i x|e1]| |]; cbn [bind] in *; try discriminate. injection H as <-. reflexivity.
Qed.

Lemma with_text_parse data ws u eof : with_text data ws u ->
  exists p pre, parse data None eof = Val (p, None, None) /\ data = pre ++ u /\ (exists q, pre = join ws ++ q) /\ i_buf p = data /\ i_text p = Z.of_nat (length pre) /\ (1 <= length pre)%nat /\
    has_header p ws.
Proof.
  intros (Hl & Hw & H).
  assert (K : exists p pre, accepted data p /\ data = pre ++ u /\ (exists q, pre = join ws ++ q) /\ i_text p = Z.of_nat (length pre) /\ i_buf p = data /\ exists more, i_index p = ends 0 ws ++ more).
  { destruct H as [-> |(els & c & Hls & Hf & Hs & ->)].
    - eexists {| i_buf := _; i_index := _; i_text := _ |}, (join ws ++ bs "- "). split.
      + exists ws, (DASH :: SP :: u). split; [exact Hl|]. split; [exact Hw|]. split; [reflexivity|]. split; [reflexivity|]. right; left. exists u. split; [reflexivity|]. split; reflexivity.
      + split; [rewrite <- app_assoc; reflexivity|]. split; [eauto|]. split; [cbn [i_text]; rewrite app_length; change (length (bs "- ")) with 2%nat; lia|]. split; [reflexivity|]. eexists. reflexivity.
    - eexists {| i_buf := _; i_index := _; i_text := _ |}, (join ws ++ concat els ++ [c]). split.
      + exists ws, (concat els ++ c :: u). split; [exact Hl|]. split; [exact Hw|]. split; [reflexivity|]. split; [reflexivity|]. right; right. exists els, (c :: u). split; [exact Hf|]. split; [reflexivity|].
        split; [exact Hls|]. split; [reflexivity|]. right. split; [discriminate|]. split; [exact Hs|]. reflexivity.
      + split; [rewrite <- !app_assoc; reflexivity|]. split; [eauto|]. split; [cbn [i_text]; rewrite !app_length; cbn [length]; lia|]. split; [reflexivity|]. eexists. reflexivity. }
  destruct K as (p & pre & Ha & Hd & Hq & Ht & Hb & Hi). exists p, pre. split; [apply parse_iff; exact Ha|]. split; [exact Hd|]. split; [exact Hq|]. split; [exact Hb|]. split; [exact Ht|].
  split; [|split; [exact Hl|split; [destruct Hq as [q ->]; rewrite <- app_assoc in Hd; eexists; rewrite Hb; exact Hd|exact Hi]]].
  destruct Hq as [q ->]. destruct ws as [|w ws]; [discriminate|]. rewrite join_cons, !app_length. cbn [length]. lia.
Qed.

(** Whatever SuffixStrip answers for the text part, the message keeps of its text as many bytes as
    SuffixStrip's first result has - its content is not looked at -, its header is not touched, and the
    other two results are those of Parse.  A message without text part makes Parse panic. *)
Theorem C109_suffix : forall T data ws u eof, c_prefix T data eof = Val (Some data, None, None) -> with_text data ws u ->
  exists pre p, data = pre ++ u /\ parse data None eof = Val (p, None, None) /\ imm_text p = Val u /\
   ((c_suffix T u eof = Panic -> cparse data (Some T) eof = Panic) /\
    (c_suffix T u eof = Val (None, None, None) -> cparse data (Some T) eof = Val (zero_immutable, None, None)) /\
    (forall x rest e, c_suffix T u eof = Val (x, rest, e) -> (x, rest, e) <> (None, None, None) ->
      exists m, cparse data (Some T) eof = Val (m, rest, e) /\
        let kept := firstn (length (match x with Some x => x | None => [] end)) u in
        imm_string m = pre ++ kept /\ imm_text m = Val kept /\
        imm_priority m = imm_priority p /\ imm_timestamp m = imm_timestamp p /\ imm_hostname m = imm_hostname p /\ imm_appname m = imm_appname p /\ imm_procid m = imm_procid p /\ imm_msgid m = imm_msgid p)).
Proof.
  intros T data ws u eof Hp Hw. destruct (with_text_parse data ws u eof Hw) as (p & pre & Hparse & Hd & (q & Hq) & Hb & Ht & Hl & Hh).
  exists pre, p. split; [exact Hd|]. split; [exact Hparse|].
  assert (Hgo : go_from_z data (i_text p) = Val u).
  { rewrite Ht. unfold go_from_z. destruct (Z.ltb_spec (Z.of_nat (length pre)) 0); [lia|]. rewrite Nat2Z.id, Hd. rewrite go_from_val by (rewrite app_length; lia). rewrite skipn_app_exact. reflexivity. }
  split. { unfold imm_text. destruct (Z.ltb_spec (i_text p) 1); [lia|]. rewrite Hb. exact Hgo. }
  assert (Hc : cparse data (Some T) eof = cparse_return p (Some T) eof data None).
  { unfold cparse. rewrite Hp. cbn [bind]. apply body_none. exact Hparse. }
  rewrite Hc. unfold cparse_return. rewrite Hgo. cbn [bind]. split; [intros ->; reflexivity|]. split; [intros ->; reflexivity|].
  intros x rest e Hs Hn. rewrite Hs. cbn [bind]. set (k := length (match x with Some x => x | None => [] end)).
  pose (m := if (i_text p + Z.of_nat k <? Z.of_nat (length (i_buf p)))%Z then {| i_buf := firstn (Z.to_nat (i_text p + Z.of_nat k)) (i_buf p); i_index := i_index p; i_text := i_text p |} else p).
  exists m. split.
  { subst m k. destruct x as [x|], rest as [rest|], e as [e|]; try reflexivity. congruence. }
  cbv zeta. fold k. assert (Hbuf : i_buf m = pre ++ firstn k u).
  { subst m. rewrite Hb, Ht. destruct (Z.ltb_spec (Z.of_nat (length pre) + Z.of_nat k) (Z.of_nat (length data))) as [H|H].
    - cbn [i_buf]. replace (Z.to_nat (Z.of_nat (length pre) + Z.of_nat k)) with (length pre + k)%nat by lia. rewrite Hd. apply firstn_app_2.
    - rewrite Hb, Hd. f_equal. symmetry. apply firstn_all2. rewrite Hd, app_length in H. lia. }
  assert (Hmt : i_text m = Z.of_nat (length pre)) by (subst m; destruct (_ <? _)%Z; exact Ht).
  assert (Hmi : i_index m = i_index p) by (subst m; destruct (_ <? _)%Z; reflexivity).
  assert (Hm : has_header m ws).
  { destruct Hh as (A & _ & B). split; [exact A|]. split; [exists (q ++ firstn k u); rewrite Hbuf, Hq, <- app_assoc; reflexivity|]. rewrite Hmi. exact B. }
  split; [exact Hbuf|]. split.
  { unfold imm_text. rewrite Hmt, Hbuf. destruct (Z.ltb_spec (Z.of_nat (length pre)) 1); [lia|]. unfold go_from_z. destruct (Z.ltb_spec (Z.of_nat (length pre)) 0); [lia|].
    rewrite Nat2Z.id, go_from_val by (rewrite app_length; lia). rewrite skipn_app_exact. reflexivity. }
  destruct (header_accessors m ws Hm) as (w1 & w2 & w3 & w4 & w5 & w6 & E & H1 & H2 & H3 & H4 & H5 & H6).
  destruct (header_accessors p ws Hh) as (v1 & v2 & v3 & v4 & v5 & v6 & E' & G1 & G2 & G3 & G4 & G5 & G6).
  rewrite E in E'. injection E' as <- <- <- <- <- <-. rewrite H1, H2, H3, H4, H5, H6, G1, G2, G3, G4, G5, G6. auto 10.
Qed.
Print Assumptions C109_suffix.

Theorem C109_suffix_no_text : forall T data ws eof, c_prefix T data eof = Val (Some data, None, None) -> without_text data ws -> cparse data (Some T) eof = Panic.
Proof.
  intros T data ws eof Hp (Hl & Hw & H).
  assert (K : exists p, accepted data p /\ i_text p = (-1)%Z).
  { destruct H as [-> |(els & Hls & Hf & Hne & ->)].
    - eexists {| i_buf := _; i_index := _; i_text := _ |}. split; [|reflexivity]. exists ws, [DASH]. split; [exact Hl|]. split; [exact Hw|]. split; [reflexivity|]. split; [reflexivity|]. left. split; [reflexivity|]. split; reflexivity.
    - eexists {| i_buf := _; i_index := _; i_text := _ |}. split; [|reflexivity]. exists ws, (concat els). split; [exact Hl|]. split; [exact Hw|]. split; [reflexivity|]. split; [reflexivity|]. right; right. exists els, [].
      rewrite app_nil_r. split; [exact Hf|]. split; [reflexivity|]. split; [exact Hls|]. split; [reflexivity|]. left. split; [reflexivity|]. split; [exact Hne|reflexivity]. }
  destruct K as (p & Ha & Ht). unfold cparse. rewrite Hp. cbn [bind]. rewrite (body_none T eof data p) by (apply parse_iff; exact Ha). unfold cparse_return. rewrite Ht. reflexivity.
Qed.
Print Assumptions C109_suffix_no_text.

(** ** what a Receiver does with a transport that is not a framing *)
(** A PrefixStrip that does not consume what it gives: the same message is delivered for ever. *)
Theorem C109_not_consuming : forall T data d eof, data <> [] -> c_prefix T data eof = Val (Some d, Some data, None) ->
  exists p, cdecodes d p /\ forall fuel, ctok_inner fuel (Some T) eof data = (repeat p fuel, NoFuel).
Proof.
  intros T data d eof Hne Hp. destruct (decodes_ex d) as [[m e] Hd]. unfold decodes in Hd. cbn [fst snd] in Hd. exists (m, option_map CPkg e). split; [exists e; auto|].
  assert (Hc : cparse data (Some T) eof = Val (m, Some data, option_map CPkg e)).
  { unfold cparse. rewrite Hp. cbn [bind]. apply body_rest. rewrite <- (parse_none_eof d true eof). exact Hd. }
  induction fuel as [|f IH]; [reflexivity|]. cbn [ctok_inner repeat]. rewrite Hc. destruct (Nat.eqb_spec (length data) 0) as [E|E]; [apply length_zero_iff_nil in E; congruence|]. rewrite IH. reflexivity.
Qed.
Print Assumptions C109_not_consuming.

(** Whatever the transport returns as rest, what is kept for the next read is the end of the bytes
    received: only the length of the rest counts. *)
Theorem C109_kept : forall fuel T st chunk err st', co_next (ctok_step fuel T st chunk err) = CCont st' -> exists pre, t_pending st ++ chunk = pre ++ t_pending st'.
Proof.
  intros fuel T st chunk err st'. unfold ctok_step. destruct (_ && _); [discriminate|]. destruct (Nat.eqb_spec (length chunk) 0) as [E|E].
  - cbn [co_next]. intros H. injection H as <-. apply length_zero_iff_nil in E as ->. exists []. rewrite app_nil_r. reflexivity.
  - cbv zeta. destruct (ctok_inner _ _ _ _) as [sent [d| |]]; cbn [co_next]; try discriminate. destruct (_ <? _)%nat; [discriminate|]. destruct err as [[|?]|]; try discriminate; intros H; injection H as <-; cbn [t_pending];
      eexists; symmetry; apply firstn_skipn.
Qed.
Print Assumptions C109_kept.
(** A rest longer than the buffer (a transport that decompresses, say) stops the process. *)
Theorem C109_longer_rest : forall fuel T st chunk err d r e, chunk <> [] -> c_prefix T (t_pending st ++ chunk) (is_eof err) = Val (Some d, Some r, None) ->
  (length (t_pending st ++ chunk) < length r)%nat -> c_prefix T r (is_eof err) = Val (None, None, e) -> co_next (ctok_step (S (S fuel)) (Some T) st chunk err) = CCrash.
Proof.
  intros fuel T st chunk err d r e Hne Hp Hlt Hr. unfold ctok_step. fold (is_eof err). destruct (Nat.eqb_spec (length chunk) 0) as [E|E]; [apply length_zero_iff_nil in E; congruence|]. cbn [andb]. cbv zeta.
  destruct (decodes_ex d) as [[m e0] Hd]. unfold decodes in Hd. cbn [fst snd] in Hd.
  assert (Hc : cparse (t_pending st ++ chunk) (Some T) (is_eof err) = Val (m, Some r, option_map CPkg e0)).
  { unfold cparse. rewrite Hp. cbn [bind]. apply body_rest. rewrite <- (parse_none_eof d true (is_eof err)). exact Hd. }
  assert (Hc2 : exists e1, cparse r (Some T) (is_eof err) = Val (zero_immutable, None, e1)).
  { unfold cparse. rewrite Hr. cbn [bind]. destruct e as [e|]; eexists; reflexivity. }
  destruct Hc2 as [e1 Hc2]. cbn [ctok_inner]. rewrite Hc, Hc2. destruct (Nat.eqb_spec (length r) 0); [lia|]. cbn [co_next]. destruct (Nat.ltb_spec (length (t_pending st ++ chunk)) (length r)); [reflexivity|lia].
Qed.
Print Assumptions C109_longer_rest.

(** ** instances *)
(** RFC 5425, for frames of at least 20 bytes *)
Theorem C109_rfc5425 : framing (builtin TRFC5425) (fun d => fits d /\ (20 <= length (encode TRFC5425 d))%nat).
Proof.
  constructor.
  - intros d _. apply frame_nonempty.
  - intros d r eof [Hf Hl]. cbn [builtin c_prefix c_encode prefix_strip]. rewrite rfc_strip_frame; [reflexivity| |exact Hf]. rewrite app_length. lia.
  - intros d p q [Hf Hl] E Hp Hq. cbn [builtin c_prefix c_encode prefix_strip] in *. destruct (partial_frame p q d Hf E Hq) as [e He].
    unfold parse in He. cbn [prefix_strip] in He.
    destruct (rfc_strip_cases p false) as [(_ & Hs)|(_ & [(Hs & _)|(h & r & Hd & Hh & Hnh & Hx)])]; [rewrite Hs; eexists; reflexivity..|].
    destruct Hx as [(_ & Hs)|(n & _ & Hx)]; [rewrite Hs; eexists; reflexivity|]. cbv zeta in Hx. destruct Hx as [(_ & Hs)|[(_ & Hs)|(_ & d' & q' & _ & _ & Hs)]].
    + rewrite Hs. eexists. reflexivity.
    + rewrite Hs in He. discriminate He.
    + rewrite Hs in He. cbn [bind] in He. exfalso. destruct (decodes_ex d') as [[m e0] Hd']. unfold decodes in Hd'. cbn [fst snd] in Hd'. rewrite (parse_none_eof d' true false) in Hd'.
      rewrite (parse_body_rest TRFC5425 false d' q' m e0 Hd') in He. discriminate He.
Qed.
Print Assumptions C109_rfc5425.

(** a user's transport: a length on two bytes, then the payload *)
Definition two_bytes : ctransport :=
  {| c_encode := fun d => N.of_nat (length d / 256) :: N.of_nat (length d mod 256) :: d;
     c_prefix := fun b _ => match b with
                            | hi :: lo :: more => let n := (N.to_nat hi * 256 + N.to_nat lo)%nat in
                                if (n <=? length more)%nat then Val (Some (firstn n more), Some (skipn n more), None) else Val (None, None, None)
                            | _ => Val (None, None, None)
                            end;
     c_suffix := fun b _ => Val (Some b, None, None) |}.
Theorem C109_two_bytes : framing two_bytes (fun d => (length d < 65536)%nat).
Proof.
  assert (L : forall d : bytes, (N.to_nat (N.of_nat (length d / 256)) * 256 + N.to_nat (N.of_nat (length d mod 256)))%nat = length d).
  { intros d. rewrite !Nat2N.id. pose proof (Nat.div_mod (length d) 256 ltac:(lia)). lia. }
  constructor.
  - intros d _. discriminate.
  - intros d r eof _. cbn [two_bytes c_prefix c_encode app]. cbv zeta. rewrite L, app_length. destruct (Nat.leb_spec (length d) (length d + length r)); [|lia].
    rewrite firstn_app, firstn_all, Nat.sub_diag, skipn_app, skipn_all, Nat.sub_diag. cbn [firstn skipn app]. rewrite app_nil_r. reflexivity.
  - intros d p q _ E _ Hq. cbn [two_bytes c_prefix c_encode] in *. destruct p as [|hi [|lo more]]; [eexists; reflexivity..|]. exists None. cbn [app] in E.
    assert (E1 := f_equal (@List.hd N 0%N) E). assert (E2 := f_equal (fun l : list N => List.hd 0%N (List.tl l)) E). assert (E3 := f_equal (fun l : list N => List.tl (List.tl l)) E).
    cbn [List.hd List.tl] in E1, E2, E3. rewrite <- E1, <- E2. cbv zeta. rewrite L. clear E. rename E3 into E.
    destruct (Nat.leb_spec (length d) (length more)) as [H|H]; [|reflexivity]. rewrite E, app_length in H. destruct q; [congruence|]. cbn [length] in H. lia.
Qed.
Print Assumptions C109_two_bytes.

(** concrete: two messages in such frames, read in three pieces *)
Example C109_nonvacuous :
  let d1 := bs "<13>1 - h a p m - one" in let d2 := bs "<14>1 - h a p m - two" in
  let s := concat (map (c_encode two_bytes) [d1; d2]) in
  let reads := [(firstn 10 s, None); (firstn 20 (skipn 10 s), Some (ROther 7)); (skipn 30 s, Some REOF)] in
  map (fun p => (imm_string (fst p), snd p)) (co_sent (ctok_run 100 (Some two_bytes) tok_init reads)) = [(d1, None); (d2, None)] /\
  co_errs (ctok_run 100 (Some two_bytes) tok_init reads) = [7%nat] /\ co_next (ctok_run 100 (Some two_bytes) tok_init reads) = CReturn.
Proof. vm_compute. split; [reflexivity|split; reflexivity]. Qed.
Print Assumptions C109_nonvacuous.

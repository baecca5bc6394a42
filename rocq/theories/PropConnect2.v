(** PropConnect2.v -- C80 (continued), C81, C82: TCP connections, unix listeners, and a sender whose
    connector cannot connect. *)
From Verif Require Import Base BaseFacts Spec LAtoi MTransport MConnect PropConnect MSender LSender PropSender2.

(** ** C80, continued *)

(** the port a port text stands for: 514 when empty *)
Definition port_of (text : bytes) (port : Z) : Prop := (text = [] /\ port = 514%Z) \/ (text <> [] /\ int64_text text port).

(** the addresses of the host that the network allows *)
Definition eligible (network : bytes) (ip : ipaddr) : Prop :=
  (network = bs "tcp4" -> ip_v4 ip = true) /\ (network = bs "tcp6" -> ip_v4 ip = false).
Inductive only {A} (P : A -> Prop) : list A -> list A -> Prop :=
| only_nil : only P [] []
| only_keep x l l' : P x -> only P l l' -> only P (x :: l) (x :: l')
| only_drop x l l' : ~ P x -> only P l l' -> only P (x :: l) l'.

Lemma only_filter {A} (P : A -> Prop) (f : A -> bool) l : (forall x, f x = true <-> P x) -> only P l (filter f l).
Proof.
  intros H. induction l as [|x l IH]; cbn [filter]; [constructor|]. destruct (f x) eqn:E; constructor; auto; [apply H; exact E|]. intros HP. apply H in HP. congruence.
Qed.
Lemma only_fun {A} (P : A -> Prop) l a : only P l a -> forall b, only P l b -> a = b.
Proof. induction 1; intros b Hb; inversion Hb; subst; try contradiction; try reflexivity; [f_equal|]; auto. Qed.

Lemma filter_ips_only network ips : only (eligible network) ips (filter_ips network ips).
Proof.
  unfold filter_ips, eligible. destruct (bytes_eqb_spec network (bs "tcp4")) as [->|H4].
  - apply only_filter. intros x. split; [intros H; split; [auto|intros E; vm_compute in E; discriminate]|intros [H _]; auto].
  - destruct (bytes_eqb_spec network (bs "tcp6")) as [->|H6].
    + apply only_filter. intros x. destruct (ip_v4 x); cbn; split; try discriminate; try (intros [_ H]; specialize (H eq_refl); discriminate); try reflexivity.
      intros _. split; [intros E; vm_compute in E; discriminate|reflexivity].
    + induction ips; constructor; auto. split; intros; congruence.
Qed.

(** what the dials of the addresses [ips] in order give: [tr] the dials made *)
Inductive dials : list ipaddr -> list (ipaddr * (nat + nat)) -> option (nat + nat) -> Prop :=
| dials_none : dials [] [] None                                                        (* nothing to dial *)
| dials_ok ip c more : dials (ip :: more) [(ip, inr c)] (Some (inr c))                 (* the first that answers *)
| dials_last ip e : dials [ip] [(ip, inl e)] (Some (inl e))                            (* the last error *)
| dials_next ip e ip' more tr r : dials (ip' :: more) tr r -> dials (ip :: ip' :: more) ((ip, inl e) :: tr) r.

Lemma dial_ips_ok {W} (dl : W -> bytes -> ipaddr -> Z -> (nat + nat) * W) network port ips : forall w e0 err conn w' tr,
  dial_ips dl network port ips w e0 None = (err, conn, w', tr) ->
  (ips = [] /\ err = e0 /\ conn = None /\ tr = []) \/ (exists e, dials ips tr (Some (inl e)) /\ err = Some e /\ conn = None) \/ (exists c, dials ips tr (Some (inr c)) /\ err = None /\ conn = Some c).
Proof.
  induction ips as [|ip ips IH]; intros w e0 err conn w' tr H; cbn [dial_ips] in H.
  - injection H as <- <- _ <-. left. auto.
  - right. destruct (dl w network ip port) as [[e|c] w1].
    + destruct (dial_ips dl network port ips w1 (Some e) None) as [[[err' conn'] w2] tr'] eqn:E. injection H as <- <- _ <-.
      destruct (IH _ _ _ _ _ _ E) as [(-> & -> & -> & ->)|[(e' & D & -> & ->)|(c & D & -> & ->)]].
      * left. exists e. split; [constructor|auto].
      * left. exists e'. split; [|auto]. destruct ips; [inversion D|]. constructor. exact D.
      * right. exists c. split; [|auto]. destruct ips; [inversion D|]. constructor. exact D.
    + injection H as <- <- _ <-. right. exists c. split; [constructor|auto].
Qed.

(** One Connect of a TCP connector, for every environment: the address must be host:port; the port is
    514 when empty and otherwise must be a decimal int; the host is looked up; the addresses the
    network allows are dialled in order, on that port, until one answers; the error is the last one.
    If the lookup succeeds and no address is of the kind asked for, it panics. *)
Theorem C80_connect : forall W lookup (dl : W -> bytes -> ipaddr -> Z -> (nat + nat) * W) network address w r w' tr,
  tcp_connect lookup dl network address w = (r, w', tr) ->
  ((forall h p, ~ host_port address h p) -> (exists why, r = Val (inl (ErrHostPort why))) /\ tr = [] /\ w' = w) /\
  forall h p, host_port address h p ->
    ((forall q, ~ port_of p q) -> r = Val (inl ErrAtoi) /\ tr = [] /\ w' = w) /\
    forall q, port_of p q ->
      (forall e w1, lookup w h = (inl e, w1) -> r = Val (inl (ErrSystem e)) /\ tr = []) /\
      (forall ips w1 allowed, lookup w h = (inr ips, w1) -> only (eligible network) ips allowed ->
         exists res tr0, dials allowed tr0 res /\ tr = map (fun x => (fst x, q, snd x)) tr0 /\
           r = match res with Some (inr c) => Val (inr (WTcp c)) | Some (inl e) => Val (inl (ErrSystem e)) | None => Panic end).
Proof.
  intros W lookup dl network address w r w' tr H. unfold tcp_connect in H. split.
  - intros Hn. destruct (split_host_port address) as [e|[h p]] eqn:E; [|exfalso; apply (Hn h p), C80_address; exact E].
    injection H as <- <- <-. split; [|auto].
    assert (K : exists why, e = ErrHostPort why); [|destruct K as [why ->]; eauto].
    revert E. unfold split_host_port. cbv zeta. repeat match goal with |- context [match ?x with _ => _ end] => destruct x end; intros E; try discriminate; injection E as <-; eauto.
  - intros h p Hhp. apply C80_address in Hhp. rewrite Hhp in H.
    assert (Hport : match (match p with [] => Some 514%Z | _ => atoi p end) with Some q0 => port_of p q0 | None => forall q, ~ port_of p q end).
    { destruct p as [|c p]; [left; auto|]. destruct (atoi (c :: p)) as [q0|] eqn:Ea.
      - right. split; [discriminate|]. apply atoi_iff. exact Ea.
      - intros q [[Hx _]|[_ Hx]]; [discriminate|]. apply atoi_iff in Hx. congruence. }
    assert (Huniq : forall q q', port_of p q -> port_of p q' -> q = q').
    { intros q q' [[E1 ->]|[E1 H1]] [[E2 ->]|[E2 H2]]; try congruence. apply atoi_iff in H1, H2. congruence. }
    cbv zeta in H. destruct (match p with [] => Some 514%Z | _ => atoi p end) as [q0|].
    + split; [intros Hx; exfalso; exact (Hx q0 Hport)|]. intros q Hq. rewrite <- (Huniq _ _ Hport Hq). clear q Hq. split.
      * intros e w1 El. rewrite El in H. injection H as <- _ <-. auto.
      * intros ips w1 allowed El Ho. rewrite El in H. pose proof (only_fun _ _ _ (filter_ips_only network ips) _ Ho) as Ef. rewrite Ef in H.
        destruct (dial_ips dl network q0 allowed w1 None None) as [[[err conn] w2] tr0] eqn:Ed.
        destruct (dial_ips_ok _ _ _ _ _ _ _ _ _ _ Ed) as [(-> & -> & -> & ->)|[(e & D & -> & ->)|(c & D & -> & ->)]]; injection H as <- _ <-.
        -- exists None, []. split; [constructor|auto].
        -- exists (Some (inl e)), tr0. auto.
        -- exists (Some (inr c)), tr0. auto.
    + injection H as <- <- <-. split; [auto|]. intros q Hq. exfalso. exact (Hport q Hq).
Qed.
Print Assumptions C80_connect.

(** so it panics exactly when the lookup gives no address of the kind asked for *)
Theorem C80_panics_iff : forall W lookup (dl : W -> bytes -> ipaddr -> Z -> (nat + nat) * W) network address w,
  fst (fst (tcp_connect lookup dl network address w)) = Panic <->
  exists h p q ips w1, host_port address h p /\ port_of p q /\ lookup w h = (inr ips, w1) /\ forall ip, In ip ips -> ~ eligible network ip.
Proof.
  intros W lookup dl network address w. destruct (tcp_connect lookup dl network address w) as [[r w'] tr] eqn:E. cbn [fst].
  destruct (C80_connect _ _ _ _ _ _ _ _ _ E) as [H0 H]. split.
  - intros ->. destruct (split_host_port address) as [e|[h p]] eqn:Es.
    { destruct H0 as ((why & Hw) & _); [|discriminate]. intros h p Hx. apply C80_address in Hx. congruence. }
    apply C80_address in Es. destruct (H h p Es) as [H1 H2].
    assert (D : (exists q, port_of p q) \/ forall q, ~ port_of p q).
    { unfold port_of. destruct p as [|c p]; [left; exists 514%Z; auto|]. destruct (atoi (c :: p)) as [q|] eqn:Ea; [left; exists q; right; split; [discriminate|apply atoi_iff; exact Ea]|].
      right. intros q [[Hx _]|[_ Hx]]; [discriminate|]. apply atoi_iff in Hx. congruence. }
    destruct D as [[q Hq]|D]; [|destruct (H1 D) as [Hx _]; discriminate]. destruct (H2 q Hq) as [H3 H4].
    destruct (lookup w h) as [[e|ips] w1] eqn:El; [destruct (H3 e w1 eq_refl); discriminate|].
    destruct (H4 ips w1 _ eq_refl (filter_ips_only network ips)) as (res & tr0 & D & _ & Hr). destruct res as [[e|c]|]; try discriminate.
    exists h, p, q, ips, w1. split; [exact Es|]. split; [exact Hq|]. split; [exact El|].
    assert (Hnil : filter_ips network ips = []).
    { remember (filter_ips network ips) as al. remember (@None (nat + nat)) as rr. clear -D Heqrr. induction D; try discriminate; [reflexivity|]. specialize (IHD Heqrr). discriminate. }
    pose proof (filter_ips_only network ips) as Ho. rewrite Hnil in Ho. remember ([] : list ipaddr) as nl eqn:En. clear -Ho En. induction Ho; try discriminate; intros ip Hin; [destruct Hin|].
    destruct Hin as [<-|Hin]; [assumption|exact (IHHo En ip Hin)].
  - intros (h & p & q & ips & w1 & Hh & Hp & El & Hn). destruct (H h p Hh) as [_ H2]. destruct (H2 q Hp) as [_ H4].
    assert (Ho : only (eligible network) ips []) by (clear -Hn; induction ips as [|x ips IH]; [constructor|]; apply only_drop; [apply Hn; left; reflexivity|apply IH; intros ip Hi; apply Hn; right; exact Hi]).
    destruct (H4 ips w1 [] El Ho) as (res & tr0 & D & _ & ->). inversion D. reflexivity.
Qed.
Print Assumptions C80_panics_iff.

(** Non-vacuity: the second address answers, on the default port; a name without port is refused; an
    IPv6 address and network tcp4 crash. *)
Definition two_ips : unit -> bytes -> (nat + list ipaddr) * unit :=
  fun w _ => (inr [{| ip_bytes := [1%N]; ip_zone := []; ip_v4 := true |}; {| ip_bytes := [2%N]; ip_zone := []; ip_v4 := true |}], w).
Definition second (w : unit) (n : bytes) (ip : ipaddr) (p : Z) : (nat + nat) * unit := (if bytes_eqb (ip_bytes ip) [2%N] then inr (Z.to_nat p) else inl 1%nat, w).
Example C80_nonvacuous :
  fst (fst (tcp_connect two_ips second (bs "tcp") (bs "[::1]:") tt)) = Val (inr (WTcp 514)) /\
  fst (fst (tcp_connect two_ips second (bs "tcp") (bs "host") tt)) = Val (inl (ErrHostPort (bs "missing port in address"))) /\
  fst (fst (tcp_connect two_ips second (bs "tcp6") (bs "host:1514") tt)) = Panic.
Proof. vm_compute. repeat split. Qed.

(** ** C81 *)

(** the calls a UnixListener or UnixgramListener makes: any number of rounds "in use, stat, remove",
    then a last call of listen, or of stat *)
Definition round (e : nat) : list lcall := [CListen (LInUse e); CStat true; CRemove].
Inductive listens : list lcall -> gerr + nat -> Prop :=
| listens_ok l : listens [CListen (LListening l)] (inr l)
| listens_other e : listens [CListen (LOther e)] (inl (ErrSystem e))
| listens_gone e : listens [CListen (LInUse e); CStat false] (inl (ErrSystem e))
| listens_again e tr r : listens tr r -> listens (round e ++ tr) r.

Theorem C81_calls : forall W listen stat remove fuel (w : W) r w' tr, bind_loop listen stat remove fuel w = (r, w', tr) ->
  match r with
  | Some res => listens tr res
  | None => exists es, length es = fuel /\ tr = concat (map round es)
  end.
Proof.
  intros W listen stat remove. induction fuel as [|fuel IH]; intros w r w' tr H; cbn [bind_loop] in H.
  - injection H as <- _ <-. exists []. auto.
  - destruct (listen w) as [[l|e|e] w1].
    + injection H as <- _ <-. constructor.
    + destruct (stat w1) as [[] w2].
      * destruct (bind_loop listen stat remove fuel (remove w2)) as [[r1 w3] tr1] eqn:E. injection H as <- _ <-. specialize (IH _ _ _ _ E). destruct r1 as [res|].
        -- apply (listens_again e). exact IH.
        -- destruct IH as (es & L & ->). exists (e :: es). split; [cbn; congruence|reflexivity].
      * injection H as <- _ <-. constructor.
    + injection H as <- _ <-. constructor.
Qed.
Print Assumptions C81_calls.

(** a round more does not change a finished run *)
Theorem C81_deterministic : forall W listen stat remove fuel fuel' (w : W) res w' tr, (fuel <= fuel')%nat ->
  bind_loop listen stat remove fuel w = (Some res, w', tr) -> bind_loop listen stat remove fuel' w = (Some res, w', tr).
Proof.
  intros W listen stat remove. induction fuel as [|fuel IH]; intros [|fuel'] w res w' tr L H; cbn [bind_loop] in *; try lia; try discriminate.
  destruct (listen w) as [[l|e|e] w1]; try exact H. destruct (stat w1) as [[] w2]; [|exact H].
  destruct (bind_loop listen stat remove fuel (remove w2)) as [[r1 w3] tr1] eqn:E. injection H as -> <- <-. rewrite (IH fuel' _ _ _ _ ltac:(lia) E). reflexivity.
Qed.
Print Assumptions C81_deterministic.

(** What is at the path: nothing; a socket, with or without a live owner; a file; an empty directory;
    another directory; a symbolic link to nothing.  bind(2) refuses any of them with EADDRINUSE;
    stat(2) follows links; remove(3) removes anything but a directory with entries, if the directory
    that holds it may be changed; bind(2) creates the socket under the same condition. *)
Inductive entry := Nothing | Socket (owner : option nat) | File (content : bytes) | EmptyDir | FullDir | Dangling.
Record place := { p_entry : entry; p_writable : bool; p_fresh : nat }.
Definition fs_listen (w : place) : lanswer * place :=
  match p_entry w with
  | Nothing => if p_writable w then (LListening (p_fresh w), {| p_entry := Socket (Some (p_fresh w)); p_writable := true; p_fresh := S (p_fresh w) |}) else (LOther 13, w)
  | _ => (LInUse 98, w)
  end.
Definition fs_stat (w : place) : bool * place := (match p_entry w with Nothing | Dangling => false | _ => true end, w).
Definition fs_remove (w : place) : place :=
  match p_entry w with FullDir | Nothing => w | _ => if p_writable w then {| p_entry := Nothing; p_writable := p_writable w; p_fresh := p_fresh w |} else w end.

(** So: on a free path it listens; a symbolic link to nothing is an error; anything else that can be
    removed is removed -- a regular file, the socket of a live listener -- and replaced by the socket;
    what cannot be removed makes the call loop forever. *)
Theorem C81_takes_over : forall w,
  (p_entry w = Nothing -> p_writable w = true -> forall f, (1 <= f)%nat -> exists w' tr, bind_loop fs_listen fs_stat fs_remove f w = (Some (inr (p_fresh w)), w', tr) /\ ~ In CRemove tr) /\
  (p_entry w = Nothing -> p_writable w = false -> forall f, (1 <= f)%nat -> exists tr, bind_loop fs_listen fs_stat fs_remove f w = (Some (inl (ErrSystem 13)), w, tr)) /\
  (p_entry w = Dangling -> forall f, (1 <= f)%nat -> exists tr, bind_loop fs_listen fs_stat fs_remove f w = (Some (inl (ErrSystem 98)), w, tr)) /\
  (p_entry w <> Nothing -> p_entry w <> Dangling -> p_entry w <> FullDir -> p_writable w = true -> forall f, (2 <= f)%nat ->
     exists w' tr, bind_loop fs_listen fs_stat fs_remove f w = (Some (inr (p_fresh w)), w', tr) /\ p_entry w' = Socket (Some (p_fresh w)) /\ In CRemove tr) /\
  (p_entry w <> Nothing -> p_entry w <> Dangling -> p_entry w = FullDir \/ p_writable w = false -> forall f, exists tr, bind_loop fs_listen fs_stat fs_remove f w = (None, w, tr)).
Proof.
  intros [en wr fr]. cbn [p_entry p_writable p_fresh]. repeat split.
  - intros -> -> [|f] L; [lia|]. do 2 eexists. split; [reflexivity|]. cbn. intros [H|[]]. discriminate.
  - intros -> -> [|f] L; [lia|]. eexists. reflexivity.
  - intros -> [|f] L; [lia|]. eexists. reflexivity.
  - intros H1 H2 H3 -> [|[|f]] L; [lia..|]. destruct en; try congruence; do 2 eexists; (split; [reflexivity|split; [reflexivity|cbn; auto]]).
  - intros H1 H2 H f.
    assert (K : fs_listen {| p_entry := en; p_writable := wr; p_fresh := fr |} = (LInUse 98, {| p_entry := en; p_writable := wr; p_fresh := fr |}) /\
                fs_stat {| p_entry := en; p_writable := wr; p_fresh := fr |} = (true, {| p_entry := en; p_writable := wr; p_fresh := fr |}) /\
                fs_remove {| p_entry := en; p_writable := wr; p_fresh := fr |} = {| p_entry := en; p_writable := wr; p_fresh := fr |}).
    { destruct en; try congruence; destruct H as [H| ->]; try discriminate; auto. }
    destruct K as (K1 & K2 & K3). induction f as [|f [tr IH]]; [eexists; reflexivity|]. cbn [bind_loop]. rewrite K1, K2, K3, IH. eexists. reflexivity.
Qed.
Print Assumptions C81_takes_over.

(** the expectation that only an unused socket is replaced is false *)
Theorem C81_unused_refuted : forall content owner f, (2 <= f)%nat ->
  (exists w' tr, bind_loop fs_listen fs_stat fs_remove f {| p_entry := File content; p_writable := true; p_fresh := 9 |} = (Some (inr 9%nat), w', tr) /\ p_entry w' = Socket (Some 9%nat)) /\
  (exists w' tr, bind_loop fs_listen fs_stat fs_remove f {| p_entry := Socket (Some owner); p_writable := true; p_fresh := 9 |} = (Some (inr 9%nat), w', tr) /\ p_entry w' = Socket (Some 9%nat)).
Proof. intros content owner [|[|f]] L; [lia..|]. split; do 2 eexists; split; reflexivity. Qed.
Print Assumptions C81_unused_refuted.

(** ** C82: a sender whose connector never connects *)

(** every Connect of the execution fails *)
Definition never_connects (acts : list saction) : Prop := forall e, In (AConnect e) acts -> e <> None.

Definition before_connection (pc : spc) : Prop := match pc with PLock _ | PWrite _ | PErrWrite _ _ | PCloseDone | PCloseErr | PExit => False | _ => True end.

Lemma never_connects_inv acts : forall s, srun sender_init acts = Some s -> never_connects acts ->
  s_queue s = sends acts /\ s_log s = [] /\ s_completed s = false /\ s_out s = None /\ before_connection (s_pc s).
Proof.
  induction acts as [|a acts IH] using rev_ind; intros s H Hn.
  - cbn in H. injection H as <-. cbn. auto.
  - destruct (last_step _ _ _ H) as (s0 & H0 & Hc & Ha).
    destruct (IH s0 H0) as (Eq & El & Ec & Eo & Ep); [intros e He; apply Hn, in_app_iff; auto|].
    assert (Ena : a <> AConnect None) by (intros ->; apply (Hn None); [apply in_app_iff; right; left|]; reflexivity).
    unfold sstep in Ha. rewrite Hc in Ha. unfold flush_entry in Ha. rewrite Eo in Ha. rewrite sends_app. unfold before_connection in *.
    destruct a as [f| | | |[e|]| | |k r| | | | | | |]; try congruence;
      destruct (s_pc s0) eqn:Epc; try contradiction;
      repeat match type of Ha with context [match ?x with _ => _ end] => destruct x eqn:?; try discriminate end;
      try discriminate; injection Ha as <-; cbn [s_queue s_log s_completed s_out s_pc set_pc scrash sends flat_map app]; rewrite ?app_nil_r, ?Eq, ?Epc, ?Eo;
      repeat (split; [first [assumption|reflexivity|congruence]|]); try exact I; try (unfold flush_return; destruct d; exact I); auto.
Qed.

(** Nothing is ever written, everything sent stays in the queue, and End never returns. *)
Theorem C82_never_connects : forall acts s, srun sender_init acts = Some s -> never_connects acts ->
  s_log s = [] /\ s_queue s = sends acts /\ s_completed s = false.
Proof. intros acts s H Hn. destruct (never_connects_inv acts s H Hn) as (? & ? & ? & _). auto. Qed.
Print Assumptions C82_never_connects.

(** That is every execution of a sender whose connector is the one Dial gives for a standard stream
    other than stderr: and stdout:, or for an empty tcp address: Dial itself reports nothing. *)
Theorem C82_bad_address : forall flush network address t,
  (network = bs "stdio" /\ ~ In address [bs "stderr:"; bs "stdout:"]) \/ (In network [bs "tcp"; bs "tcp4"; bs "tcp6"] /\ address = []) ->
  exists k tr tick, dialer_dial flush network address t = inr (k, tr, tick) /\
    forall W (env : network_env W) w, exists e, connect env k w = (k, Val (inl e), w).
Proof.
  intros flush network address t H. destruct (proj1 (C58_dial_accepts flush network address t)) as [_ Hex].
  assert (Hd : exists d, In (network, d) dial_networks).
  { unfold dial_networks. cbn [In] in *. destruct H as [[-> _]|[[<-|[<-|[<-|[]]]] _]]; eexists; cbn; eauto 12. }
  destruct (Hex Hd) as [[[k tr] tick] E]. exists k, tr, tick. split; [exact E|]. intros W env w.
  destruct (C58_dial_connects _ _ _ _ _ _ _ E W env w) as (_ & _ & H3 & H4 & H5 & _). destruct H as [[Hn Ha]|[Hn Ha]].
  - destruct address as [|c a]; [exists ErrEmptyNetworkAddress; apply H3; auto|]. exists ErrInvalidAddress. apply H4; [exact Hn|]. cbn [In] in *. intros [X|[X|[X|[]]]]; try discriminate; apply Ha; auto.
  - exists ErrEmptyNetworkAddress. apply H5; assumption.
Qed.
Print Assumptions C82_bad_address.

(** Non-vacuity: frames are queued, Connect fails, the errors are read, End is called and waits *)
Example C82_nonvacuous : exists s, srun sender_init [ASend [1%N]; ATick; AConnect (Some 5%nat); APushErrConn; AUserErr; AEndCall; ASelectEnd; ADrain; AConnect (Some 5%nat); APushErrConn; ADrain] = Some s /\
  s_queue s = [[1%N]] /\ s_goterr s = [5%nat].
Proof. eexists. split; [vm_compute; reflexivity|]. split; reflexivity. Qed.

(** An execution of the sender in which the Connects are those of connector k in the environment *)
Fixpoint conforms {W} (env : network_env W) (k : connector) (w : W) (acts : list saction) : Prop :=
  match acts with
  | [] => True
  | AConnect o :: more =>
      let '(k', r, w') := connect env k w in
      match r with Val (inr _) => o = None | Val (inl _) => o <> None | _ => False end /\ conforms env k' w' more
  | _ :: more => conforms env k w more
  end.

Lemma conforms_failing {W} (env : network_env W) k : (forall w, exists e, connect env k w = (k, Val (inl e), w)) -> forall acts w, conforms env k w acts -> never_connects acts.
Proof.
  intros Hk. induction acts as [|a acts IH]; intros w H e Hin; [destruct Hin|]. destruct Hin as [->|Hin].
  - cbn [conforms] in H. destruct (Hk w) as [e' E]. rewrite E in H. destruct H as [H _]. exact H.
  - destruct a; cbn [conforms] in H; try exact (IH w H e Hin). destruct (Hk w) as [e' E]. rewrite E in H. destruct H as [_ H]. exact (IH w H e Hin).
Qed.

(** Dial with such an address reports no error, and in every execution of the Sender it returns no
    byte is written, every frame of a Send stays in memory and End never returns. *)
Theorem C82_dialled : forall flush network address t,
  (network = bs "stdio" /\ ~ In address [bs "stderr:"; bs "stdout:"]) \/ (In network [bs "tcp"; bs "tcp4"; bs "tcp6"] /\ address = []) ->
  exists k tr tick, dialer_dial flush network address t = inr (k, tr, tick) /\
    forall W (env : network_env W) w acts s, srun sender_init acts = Some s -> conforms env k w acts ->
      s_log s = [] /\ s_queue s = sends acts /\ s_completed s = false.
Proof.
  intros flush network address t H. destruct (C82_bad_address flush network address t H) as (k & tr & tick & E & Hk). exists k, tr, tick. split; [exact E|].
  intros W env w acts s Hr Hc. apply (C82_never_connects acts s Hr). eapply (conforms_failing env k); [|exact Hc]. intros w0. apply Hk.
Qed.
Print Assumptions C82_dialled.

(** In contrast a Sender dialled on stderr: or stdout: never has a connection error. *)
Theorem C82_stdio : forall flush address t k tr tick, In address [bs "stderr:"; bs "stdout:"] -> dialer_dial flush (bs "stdio") address t = inr (k, tr, tick) ->
  forall W (env : network_env W) w acts, conforms env k w acts -> forall e, ~ In (AConnect (Some e)) acts.
Proof.
  intros flush address t k tr tick Ha E W env w acts.
  assert (Hk : forall w, exists c, connect env k w = (k, Val (inr c), w)).
  { intros w0. destruct (C58_dial_connects _ _ _ _ _ _ _ E W env w0) as (H1 & H2 & _). cbn [In] in Ha. destruct Ha as [<-|[<-|[]]]; eauto. }
  clear E. revert w. induction acts as [|a acts IH]; intros w H e Hin; [destruct Hin|]. destruct Hin as [->|Hin].
  - cbn [conforms] in H. destruct (Hk w) as [c E]. rewrite E in H. destruct H as [H _]. discriminate.
  - destruct a; cbn [conforms] in H; try exact (IH w H e Hin). destruct (Hk w) as [c E]. rewrite E in H. destruct H as [_ H]. exact (IH w H e Hin).
Qed.
Print Assumptions C82_stdio.

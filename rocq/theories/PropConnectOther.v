(** PropConnectOther.v -- C118: local connections in the build for other systems. *)
From Verif Require Import Base BaseFacts Spec MTransport MConnect MConnectOther PropConnect MSender LSender PropSender2 PropConnect2.

(** With a network and an address, Connect is that of the build for unix systems: one dial, of that
    network and address; its connection, or its error; the connector as it was. *)
Theorem C118_given : forall W (env : network_env W) network address w, network <> [] -> address <> [] ->
  connect_other env (KLocal network address) w = connect env (KLocal network address) w /\
  exists r w', env_dial_unix env w network address = (r, w') /\
    connect_other env (KLocal network address) w =
      (KLocal network address, Val (match r with inl e => inl (ErrSystem e) | inr c => inr (if bytes_eqb network (bs "unixgram") then WUnixgram c else WUnix c) end), w') /\
    local_connect_other (env_dial_unix env) (network, address) w =
      ((network, address), match r with inl e => inl (ErrSystem e) | inr c => inr (if bytes_eqb network (bs "unixgram") then WUnixgram c else WUnix c) end, w', [(network, address, r)]).
Proof.
  intros W env network address w Hn Ha. destruct network as [|n0 n]; [congruence|]. destruct address as [|a0 a]; [congruence|].
  unfold connect_other, connect, local_connect_other, local_connect. cbn [fst snd].
  destruct (env_dial_unix env w (n0 :: n) (a0 :: a)) as [r w'] eqn:E. split; [reflexivity|]. exists r, w'. split; [reflexivity|]. destruct r; split; reflexivity.
Qed.
Print Assumptions C118_given.

(** Otherwise nothing is dialled, and Connect fails with ErrNoConnection, at every call, whatever the
    system would have answered. *)
Theorem C118_guess : forall W (dl : udial W) network address, network = [] \/ address = [] ->
  (forall w, local_connect_other dl (network, address) w = ((network, address), inl ErrNoConnection, w, [])) /\
  (forall n w, local_connects_other dl n (network, address) w = repeat (inl ErrNoConnection, []) n).
Proof.
  intros W dl network address H.
  assert (K : forall w, local_connect_other dl (network, address) w = ((network, address), inl ErrNoConnection, w, [])).
  { intros w. unfold local_connect_other. cbn [fst snd]. destruct H as [-> | ->]; [reflexivity|]. destruct network; reflexivity. }
  split; [exact K|]. induction n as [|n IH]; intros w; [reflexivity|]. cbn [local_connects_other repeat]. rewrite K, IH. reflexivity.
Qed.
Print Assumptions C118_guess.

(** The other Connectors are those of both builds. *)
Theorem C118_others : forall W (env : network_env W) k w, (forall n a, k <> KLocal n a) -> connect_other env k w = connect env k w.
Proof. intros W env [ | | |n a| ] w H; try reflexivity. exfalso. exact (H n a eq_refl). Qed.
Print Assumptions C118_others.

(** An execution of the sender in which the Connects are those of connector k, in that build *)
Fixpoint conforms_other {W} (env : network_env W) (k : connector) (w : W) (acts : list saction) : Prop :=
  match acts with
  | [] => True
  | AConnect o :: more =>
      let '(k', r, w') := connect_other env k w in
      match r with Val (inr _) => o = None | Val (inl _) => o <> None | _ => False end /\ conforms_other env k' w' more
  | _ :: more => conforms_other env k w more
  end.

(** So on those systems Dial of network "local", whatever the address, and of "unix" and "unixgram"
    without address, reports no error and never connects: in every execution of its Sender no byte is
    written, every frame of a Send stays in memory, and End never returns. *)
Theorem C118_local_never_connects : forall flush network address t,
  network = bs "local" \/ (In network [bs "unix"; bs "unixgram"] /\ address = []) ->
  exists k tr tick, dialer_dial flush network address t = inr (k, tr, tick) /\
    forall W (env : network_env W) w acts s, srun sender_init acts = Some s -> conforms_other env k w acts ->
      s_log s = [] /\ s_queue s = sends acts /\ s_completed s = false.
Proof.
  intros flush network address t H.
  assert (K : exists n a tr tick, dialer_dial flush network address t = inr (KLocal n a, tr, tick) /\ (n = [] \/ a = [])).
  { destruct H as [-> |[[<-|[<-|[]]] ->]]; cbv [dialer_dial]; do 4 eexists; (split; [reflexivity|]); auto. }
  destruct K as (n & a & tr & tick & E & Hna). exists (KLocal n a), tr, tick. split; [exact E|].
  intros W env w acts s Hr Hc. apply (C82_never_connects acts s Hr).
  assert (Hk : forall w, connect_other env (KLocal n a) w = (KLocal n a, Val (inl ErrNoConnection), w)).
  { intros w0. unfold connect_other. rewrite (proj1 (C118_guess W (env_dial_unix env) n a Hna)). reflexivity. }
  clear -Hk Hc. revert w Hc. induction acts as [|x acts IH]; intros w Hc e Hin; [destruct Hin|]. destruct Hin as [->|Hin].
  - cbn [conforms_other] in Hc. rewrite Hk in Hc. exact (proj1 Hc).
  - destruct x; cbn [conforms_other] in Hc; try exact (IH w Hc e Hin). rewrite Hk in Hc. exact (IH w (proj2 Hc) e Hin).
Qed.
Print Assumptions C118_local_never_connects.

(** ... while the build for unix systems connects where some socket answers: with one listener at
    /dev/log, the same Dial connects there and not here. *)
Definition devlog : network_env unit := {|
  env_dial_unix := fun w n p => (if bytes_eqb n (bs "unixgram") && bytes_eqb p (bs "/dev/log") then inr 7%nat else inl 2%nat, w);
  env_lookup := fun w _ => (inl 1%nat, w);
  env_dial_tcp := fun w _ _ _ => (inl 1%nat, w) |}.
Example C118_nonvacuous :
  dial (bs "local") [] = inr (KLocal [] [], TZeroEnded, Some 500000000%Z) /\
  connect devlog (KLocal [] []) tt = (KLocal (bs "unixgram") (bs "/dev/log"), Val (inr (WUnixgram 7)), tt) /\
  connect_other devlog (KLocal [] []) tt = (KLocal [] [], Val (inl ErrNoConnection), tt) /\
  connect_other devlog (KLocal (bs "unixgram") (bs "/dev/log")) tt = (KLocal (bs "unixgram") (bs "/dev/log"), Val (inr (WUnixgram 7)), tt) /\
  connect_other devlog (KLocal (bs "unix") (bs "/dev/log")) tt = (KLocal (bs "unix") (bs "/dev/log"), Val (inl (ErrSystem 2)), tt) /\
  (exists s, srun sender_init [ASend [1%N]; ATick; AConnect (Some 5%nat); APushErrConn] = Some s /\
     conforms_other devlog (KLocal [] []) tt [ASend [1%N]; ATick; AConnect (Some 5%nat); APushErrConn] /\ s_queue s = [[1%N]]).
Proof. vm_compute. repeat split. eexists. repeat split. discriminate. Qed.

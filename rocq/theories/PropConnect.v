(** PropConnect.v -- C58, C79, C80: Dial, GuessListener and what Connect does, for every environment. *)
From Verif Require Import Base BaseFacts Spec LAtoi MTransport MConnect.

(** ** C58 *)

(** the documented networks of Dial and the common transport of each *)
Definition dial_networks : list (bytes * transport) :=
  [(bs "stdio", TLFEnded); (bs "local", TZeroEnded); (bs "unix", TZeroEnded); (bs "unixgram", TZeroEnded);
   (bs "tcp", TLFEnded); (bs "tcp4", TLFEnded); (bs "tcp6", TLFEnded)].

Ltac eqb1 a b := first [is_var a; destruct (bytes_eqb_spec a b) as [->|] | let v := eval vm_compute in (bytes_eqb a b) in match v with true => idtac | false => idtac end; change (bytes_eqb a b) with v in * | destruct (bytes_eqb_spec a b)].
Ltac eqbs :=
  repeat match goal with
  | |- context [bytes_eqb ?a ?b] => eqb1 a b
  | H : context [bytes_eqb ?a ?b] |- _ => eqb1 a b
  end; cbn [orb andb negb] in *.

Lemma network_unique n a b : In (n, a) dial_networks -> In (n, b) dial_networks -> a = b.
Proof.
  intros Ha Hb. unfold dial_networks in *. cbn [In] in Ha, Hb.
  repeat match goal with H : _ \/ _ |- _ => destruct H | H : False |- _ => destruct H end;
  match goal with H1 : (?x, ?u) = (n, a), H2 : (?y, ?v) = (n, b) |- _ =>
    let E := fresh in assert (E : x = y) by congruence; first [congruence|vm_compute in E; discriminate] end.
Qed.

Theorem C58_dial_accepts : forall flush network address t,
  ((exists r, dialer_dial flush network address t = inr r) <-> exists d, In (network, d) dial_networks) /\
  (forall e, dialer_dial flush network address t = inl e -> e = ErrUnknownNetwork).
Proof.
  intros flush network address t. unfold dialer_dial. cbv zeta. eqbs;
    (split; [|congruence || (intros e H; discriminate)]);
    (split; [intros _; eexists; cbn; eauto 10|intros _; eexists; reflexivity]) || idtac.
  split; [intros [r H]; discriminate|]. intros [d H]. exfalso. unfold dial_networks in H. cbn [In] in H.
  repeat (destruct H as [H|H]; [congruence|]). exact H.
Qed.
Print Assumptions C58_dial_accepts.

(** the transport is the given one, or the common one of the network; the ticker is off if and only
    if FlushDelay is at most one millisecond, and has that period otherwise *)
Theorem C58_dial_options : forall flush network address t k tr tick d, dialer_dial flush network address t = inr (k, tr, tick) -> In (network, d) dial_networks ->
  (forall g, t = Some g -> tr = g) /\ (t = None -> tr = d) /\
  (tick = None <-> (flush <= 1000000)%Z) /\ (forall p, tick = Some p -> p = flush).
Proof.
  intros flush network address t k tr tick d H Hd.
  assert (K : exists d', In (network, d') dial_networks /\ tr = match t with Some g => g | None => d' end /\ tick = if (flush <=? 1000000)%Z then None else Some flush).
  { unfold dialer_dial in H. cbv zeta in H. eqbs; try discriminate; injection H as _ <- <-; eexists; (split; [cbn; eauto 10|split; reflexivity]). }
  destruct K as (d' & Hd' & -> & ->). rewrite (network_unique _ _ _ Hd Hd').
  split; [intros g ->; reflexivity|]. split; [intros ->; reflexivity|].
  destruct (Z.leb_spec flush 1000000); (split; [split; intros; try reflexivity; try lia; discriminate|]); intros p Hp; congruence.
Qed.
Print Assumptions C58_dial_options.

(** Dial is Dialer.Dial with 500 ms and the common transport *)
Theorem C58_dial_default : forall network address k tr tick d, dial network address = inr (k, tr, tick) -> In (network, d) dial_networks -> tr = d /\ tick = Some 500000000%Z.
Proof.
  intros network address k tr tick d H Hd. destruct (C58_dial_options _ _ _ _ _ _ _ _ H Hd) as (_ & H1 & H2 & H3). split; [exact (H1 eq_refl)|].
  destruct tick as [p|]; [rewrite (H3 p eq_refl); reflexivity|]. destruct H2 as [H2 _]. specialize (H2 eq_refl). lia.
Qed.
Print Assumptions C58_dial_default.

(** What the connector chosen by Dial does when it connects.  An address that makes no sense is not
    an error of Dial: each Connect fails. *)
Theorem C58_dial_connects : forall flush network address t k tr tick, dialer_dial flush network address t = inr (k, tr, tick) ->
  forall W (env : network_env W) w,
  (network = bs "stdio" -> address = bs "stderr:" -> connect env k w = (k, Val (inr WStderr), w)) /\
  (network = bs "stdio" -> address = bs "stdout:" -> connect env k w = (k, Val (inr WStdout), w)) /\
  (network = bs "stdio" -> address = [] -> connect env k w = (k, Val (inl ErrEmptyNetworkAddress), w)) /\
  (network = bs "stdio" -> ~ In address [bs "stderr:"; bs "stdout:"; []] -> connect env k w = (k, Val (inl ErrInvalidAddress), w)) /\
  (In network [bs "tcp"; bs "tcp4"; bs "tcp6"] -> address = [] -> connect env k w = (k, Val (inl ErrEmptyNetworkAddress), w)) /\
  (In network [bs "tcp"; bs "tcp4"; bs "tcp6"] -> address <> [] -> k = KTcp network address) /\
  (network = bs "local" -> k = KLocal [] address) /\
  (In network [bs "unix"; bs "unixgram"] -> k = KLocal network address).
Proof.
  intros flush network address t k tr tick H W env w.
  assert (Hstd : network = bs "stdio" -> k = stdio_connector address) by (intros ->; cbn in H; injection H as <- _ _; reflexivity).
  assert (Htcp : In network [bs "tcp"; bs "tcp4"; bs "tcp6"] -> k = tcp_connector network address).
  { intros Hn. cbn [In] in Hn. destruct Hn as [<-|[<-|[<-|[]]]]; cbn in H; injection H as <- _ _; reflexivity. }
  repeat split.
  - intros Hn ->. rewrite (Hstd Hn). reflexivity.
  - intros Hn ->. rewrite (Hstd Hn). reflexivity.
  - intros Hn ->. rewrite (Hstd Hn). reflexivity.
  - intros Hn Ha. rewrite (Hstd Hn). unfold stdio_connector. cbn [In] in Ha. destruct address as [|c a]; [tauto|].
    destruct (bytes_eqb_spec (c :: a) (bs "stderr:")) as [E|_]; [rewrite E in Ha; tauto|].
    destruct (bytes_eqb_spec (c :: a) (bs "stdout:")) as [E|_]; [rewrite E in Ha; tauto|]. reflexivity.
  - intros Hn ->. rewrite (Htcp Hn). unfold tcp_connector. cbn [bytes_eqb]. rewrite Bool.orb_true_r. reflexivity.
  - intros Hn Ha. rewrite (Htcp Hn). unfold tcp_connector. destruct (bytes_eqb_spec address []) as [E|_]; [congruence|]. cbn [In] in Hn. destruct Hn as [<-|[<-|[<-|[]]]]; reflexivity.
  - intros ->. cbn in H. injection H as <- _ _. reflexivity.
  - intros Hn. cbn [In] in Hn. destruct Hn as [<-|[<-|[]]]; cbn in H; injection H as <- _ _; reflexivity.
Qed.
Print Assumptions C58_dial_connects.

(** the public constructors with any argument *)
Theorem C58_constructors : forall network address,
  (stdio_connector address = KStderr <-> address = bs "stderr:") /\ (stdio_connector address = KStdout <-> address = bs "stdout:") /\
  (tcp_connector network address = KTcp network address <-> In network [bs "tcp"; bs "tcp4"; bs "tcp6"] /\ address <> []) /\
  (tcp_connector network address = KInvalid ErrEmptyNetworkAddress <-> network = [] \/ address = []) /\
  (tcp_connector network address = KInvalid ErrInvalidNetwork <-> ~ In network [bs "tcp"; bs "tcp4"; bs "tcp6"; []] /\ address <> []).
Proof.
  intros network address. unfold stdio_connector, tcp_connector. cbn [In]. repeat split.
  - destruct address; [discriminate|]. eqbs; congruence.
  - intros ->. reflexivity.
  - destruct address; [discriminate|]. destruct (bytes_eqb_spec (n :: address) (bs "stderr:")) as [|]; [discriminate|].
    destruct (bytes_eqb_spec (n :: address) (bs "stdout:")) as [E|]; [intros _; exact E|discriminate].
  - intros ->. reflexivity.
  - eqbs; try discriminate; auto.
  - eqbs; try discriminate; congruence.
  - intros [[<-|[<-|[<-|[]]]] Ha]; (destruct (bytes_eqb_spec address []); [congruence|reflexivity]).
  - eqbs; try discriminate; auto.
  - intros [-> | ->]; cbn; rewrite ?Bool.orb_true_r; reflexivity.
  - intros HI. eqbs; try discriminate. destruct HI as [X|[X|[X|[X|[]]]]]; congruence.
  - eqbs; try discriminate; congruence.
  - intros [Hn Ha]. destruct (bytes_eqb_spec network []) as [->|_]; [tauto|]. destruct (bytes_eqb_spec address []) as [->|_]; [congruence|].
    destruct (bytes_eqb_spec network (bs "tcp")) as [->|]; [tauto|]. destruct (bytes_eqb_spec network (bs "tcp4")) as [->|]; [tauto|].
    destruct (bytes_eqb_spec network (bs "tcp6")) as [->|]; [tauto|]. reflexivity.
Qed.
Print Assumptions C58_constructors.

Theorem C58_guess_listener : forall network address,
  (In network [bs "tcp"; bs "tcp4"; bs "tcp6"] -> guess_listener network address = inr (GTcp network address)) /\
  (network = bs "unix" -> guess_listener network address = inr (GUnix address)) /\
  (network = bs "unixgram" -> guess_listener network address = inr (GUnixgram address)) /\
  (~ In network [bs "tcp"; bs "tcp4"; bs "tcp6"; bs "unix"; bs "unixgram"] -> guess_listener network address = inl ErrInvalidNetwork) /\
  forall W resolve listen (w : W), (exists l, fst (tcp_listener resolve listen network address w) = inr l) -> In network [bs "tcp"; bs "tcp4"; bs "tcp6"].
Proof.
  intros network address. cbn [In]. repeat split.
  - intros [<-|[<-|[<-|[]]]]; reflexivity.
  - intros ->. reflexivity.
  - intros ->. reflexivity.
  - intros Hn. unfold guess_listener.
    repeat match goal with |- context [bytes_eqb network ?x] => destruct (bytes_eqb_spec network x) as [E|_]; [exfalso; apply Hn; rewrite E; tauto|] end. reflexivity.
  - intros W resolve listen w [l H]. unfold tcp_listener in H.
    destruct (bytes_eqb_spec network (bs "tcp")) as [->|]; [auto|]. destruct (bytes_eqb_spec network (bs "tcp4")) as [->|]; [auto|].
    destruct (bytes_eqb_spec network (bs "tcp6")) as [->|]; [auto|]. discriminate.
Qed.
Print Assumptions C58_guess_listener.

(** ** C79 *)

(** what a LocalConnector tries, in order *)
Definition candidates (network address : bytes) : list (bytes * bytes) :=
  match network, address with
  | _ :: _, _ :: _ => [(network, address)]
  | _, _ :: _ => [(bs "unix", address); (bs "unixgram", address)]
  | _, [] => [(bs "unix", bs "/var/run/syslog"); (bs "unix", bs "/var/run/log"); (bs "unix", bs "/dev/log");
              (bs "unixgram", bs "/var/run/syslog"); (bs "unixgram", bs "/var/run/log"); (bs "unixgram", bs "/dev/log")]
  end.

(** the dials made when the candidates [cs] are tried in order until one answers *)
Definition failed (x : bytes * bytes * (nat + nat)) : Prop := exists e, snd x = inl e.
Definition first_success (cs : list (bytes * bytes)) (tr : list (bytes * bytes * (nat + nat))) (found : option (bytes * bytes * nat)) : Prop :=
  match found with
  | Some (n, p, k) => exists pre rest, tr = pre ++ [(n, p, inr k)] /\ Forall failed pre /\ cs = map fst pre ++ (n, p) :: rest
  | None => map fst tr = cs /\ Forall failed tr
  end.

Lemma dial_paths_ok {W} (dl : W -> bytes -> bytes -> (nat + nat) * W) n paths : forall w o w' tr, dial_paths dl n paths w = (o, w', tr) ->
  first_success (map (pair n) paths) tr (match o with Some (p, k) => Some (n, p, k) | None => None end).
Proof.
  induction paths as [|p paths IH]; intros w o w' tr H; cbn [dial_paths] in H.
  - injection H as <- <- <-. split; [reflexivity|constructor].
  - destruct (dl w n p) as [[e|k] w1].
    + destruct (dial_paths dl n paths w1) as [[o' w2] tr'] eqn:E. injection H as <- <- <-. specialize (IH _ _ _ _ E). destruct o' as [[q k]|].
      * destruct IH as (pre & rest & -> & Hf & Hc). exists ((n, p, inl e) :: pre), rest. split; [reflexivity|]. split; [constructor; [exists e; reflexivity|exact Hf]|]. cbn [map fst app]. rewrite Hc. reflexivity.
      * destruct IH as [Hm Hf]. split; [cbn [map fst]; rewrite Hm; reflexivity|constructor; [exists e; reflexivity|exact Hf]].
    + injection H as <- <- <-. exists [], (map (pair n) paths). split; [reflexivity|]. split; [constructor|reflexivity].
Qed.

Lemma list_prod_cons {A B} (x : A) l (m : list B) : list_prod (x :: l) m = map (pair x) m ++ list_prod l m.
Proof. reflexivity. Qed.

Lemma dial_types_ok {W} (dl : W -> bytes -> bytes -> (nat + nat) * W) networks paths : forall w o w' tr, dial_types dl networks paths w = (o, w', tr) ->
  first_success (list_prod networks paths) tr o.
Proof.
  induction networks as [|n networks IH]; intros w o w' tr H; cbn [dial_types] in H.
  - injection H as <- <- <-. split; [reflexivity|constructor].
  - destruct (dial_paths dl n paths w) as [[o1 w1] tr1] eqn:E1. pose proof (dial_paths_ok _ _ _ _ _ _ _ E1) as H1. destruct o1 as [[p k]|].
    + injection H as <- <- <-. destruct H1 as (pre & rest & -> & Hf & Hc). exists pre, (rest ++ list_prod networks paths). split; [reflexivity|]. split; [exact Hf|].
      rewrite list_prod_cons, Hc, <- app_assoc. reflexivity.
    + destruct (dial_types dl networks paths w1) as [[o2 w2] tr2] eqn:E2. injection H as <- <- <-. specialize (IH _ _ _ _ E2). destruct H1 as [Hm Hf]. rewrite list_prod_cons. destruct o2 as [[[n2 p2] k2]|].
      * destruct IH as (pre & rest & -> & Hf2 & Hc). exists (tr1 ++ pre), rest. split; [apply app_assoc|]. split; [apply Forall_app; auto|].
        rewrite Hc, map_app, Hm, <- app_assoc. reflexivity.
      * destruct IH as [Hm2 Hf2]. split; [rewrite map_app, Hm, Hm2; reflexivity|apply Forall_app; auto].
Qed.

(** One Connect: the candidates are dialled in order up to the first that answers; the connection is
    that one, as a datagram socket if and only if its network is unixgram, and the connector
    remembers it; if none answers the connector is unchanged and the error is that of the system
    when both network and address were given, ErrNoConnection otherwise. *)
Theorem C79_connect : forall W (dl : W -> bytes -> bytes -> (nat + nat) * W) n a w c' r w' tr, local_connect dl (n, a) w = (c', r, w', tr) ->
  exists found, first_success (candidates n a) tr found /\
    match found with
    | Some (n', a', k) => c' = (n', a') /\ (n' = bs "unixgram" -> r = inr (WUnixgram k)) /\ (n' <> bs "unixgram" -> r = inr (WUnix k))
    | None => c' = (n, a) /\ (n <> [] -> a <> [] -> exists e, tr = [(n, a, inl e)] /\ r = inl (ErrSystem e)) /\ (n = [] \/ a = [] -> r = inl ErrNoConnection)
    end.
Proof.
  intros W dl n a w c' r w' tr H.
  assert (Kind : forall n' k, (n' = bs "unixgram" -> (inr (if bytes_eqb n' (bs "unixgram") then WUnixgram k else WUnix k) : gerr + wconn) = inr (WUnixgram k)) /\
                              (n' <> bs "unixgram" -> (inr (if bytes_eqb n' (bs "unixgram") then WUnixgram k else WUnix k) : gerr + wconn) = inr (WUnix k))).
  { intros n' k. destruct (bytes_eqb_spec n' (bs "unixgram")); split; congruence. }
  destruct a as [|ca a].
  - assert (E : exists c1 r1, os_guess dl (n, []) w = (c1, r1, w', tr) /\ c' = c1 /\ r = local_write_closer c1 r1).
    { unfold local_connect in H. cbn [fst snd] in H. destruct n; destruct (os_guess dl _ w) as [[[c1 r1] w1] tr1]; injection H as <- <- <- <-; eauto. }
    destruct E as (c1 & r1 & E & -> & ->). unfold os_guess in E. cbn [snd] in E. destruct (dial_types dl log_types log_paths w) as [[o w1] tr1] eqn:Et.
    pose proof (dial_types_ok _ _ _ _ _ _ _ Et) as Ho.
    replace (list_prod log_types log_paths) with (candidates n []) in Ho by (destruct n; reflexivity).
    destruct o as [[[n' p'] k]|]; injection E as <- <- <- <-; eexists; (split; [exact Ho|]); cbn [local_write_closer fst].
    + split; [reflexivity|apply Kind].
    + split; [reflexivity|]. split; [congruence|reflexivity].
  - destruct n as [|cn n].
    + unfold local_connect in H. cbn [fst snd] in H. unfold os_guess in H. cbn [snd] in H.
      destruct (dial_types dl log_types [ca :: a] w) as [[o w1] tr1] eqn:Et. pose proof (dial_types_ok _ _ _ _ _ _ _ Et) as Ho.
      change (list_prod log_types [ca :: a]) with (candidates [] (ca :: a)) in Ho.
      destruct o as [[[n' p'] k]|]; injection H as <- <- <- <-; eexists; (split; [exact Ho|]); cbn [local_write_closer fst].
      * destruct Ho as (pre & rest & _ & _ & Hc). assert (Hp : p' = ca :: a).
        { assert (Hin : In (n', p') (candidates [] (ca :: a))) by (rewrite Hc; apply in_app_iff; right; left; reflexivity).
          cbn in Hin. destruct Hin as [Hin|[Hin|[]]]; injection Hin as _ <-; reflexivity. }
        rewrite Hp. split; [reflexivity|apply Kind].
      * split; [reflexivity|]. split; [congruence|reflexivity].
    + unfold local_connect in H. cbn [fst snd] in H. destruct (dl w (cn :: n) (ca :: a)) as [[e|k] w1] eqn:Ed; injection H as <- <- <- <-.
      * exists None. cbn [local_write_closer]. split; [split; [reflexivity|constructor; [exists e; reflexivity|constructor]]|]. split; [reflexivity|]. split; [intros _ _; exists e; auto|].
        intros [Hx|Hx]; discriminate.
      * exists (Some (cn :: n, ca :: a, k)). split; [exists [], []; split; [reflexivity|split; [constructor|reflexivity]]|]. split; [reflexivity|]. cbn [local_write_closer fst]. apply Kind.
Qed.
Print Assumptions C79_connect.

(** Successive Connects: until one succeeds each tries the candidates again ... *)
Lemma found_candidate n a n' a' : In (n', a') (candidates n a) -> candidates n' a' = [(n', a')].
Proof.
  unfold candidates at 1. destruct n as [|cn n], a as [|ca a]; cbn [In]; intros H;
  repeat (destruct H as [H|H]; [injection H as <- <-; reflexivity|]); destruct H.
Qed.

Lemma success_in cs tr n a k : first_success cs tr (Some (n, a, k)) -> In (n, a) cs.
Proof. intros (pre & rest & _ & _ & ->). apply in_app_iff. right. left. reflexivity. Qed.

Theorem C79_until_first : forall W (dl : W -> bytes -> bytes -> (nat + nat) * W) m j n a w r tr,
  (forall i, (i < j)%nat -> exists e tri, nth_error (local_connects dl m (n, a) w) i = Some (inl e, tri)) ->
  nth_error (local_connects dl m (n, a) w) j = Some (r, tr) -> exists found, first_success (candidates n a) tr found /\ (found = None <-> exists e, r = inl e).
Proof.
  intros W dl m j. revert m. induction j as [|j IH]; intros m n a w r tr Hf Hj; (destruct m as [|m]; [discriminate|]); cbn [local_connects] in *;
    destruct (local_connect dl (n, a) w) as [[[c' r'] w'] tr'] eqn:E; destruct (C79_connect _ _ _ _ _ _ _ _ _ E) as (found & Hs & Hm).
  - injection Hj as <- <-. exists found. split; [exact Hs|]. destruct found as [[[n' a'] k]|].
    + destruct Hm as (_ & H1 & H2). split; [discriminate|]. intros [e He]. exfalso. destruct (bytes_eqb_spec n' (bs "unixgram")) as [En|En]; [rewrite (H1 En) in He|rewrite (H2 En) in He]; discriminate.
    + destruct Hm as (_ & H1 & H2). split; [|reflexivity]. intros _. destruct n as [|cn n]; [exists ErrNoConnection; apply H2; auto|].
      destruct a as [|ca a]; [exists ErrNoConnection; apply H2; auto|]. destruct H1 as (e & _ & H1); [discriminate..|]. eauto.
  - destruct found as [[[n' a'] k]|].
    + exfalso. destruct (Hf 0%nat ltac:(lia)) as (e & tri & H0). injection H0 as -> _. destruct Hm as (_ & H1 & H2).
      destruct (bytes_eqb_spec n' (bs "unixgram")) as [En|En]; [specialize (H1 En)|specialize (H2 En)]; discriminate.
    + destruct Hm as (-> & _). apply (IH m n a w' r tr); [|exact Hj]. intros i Hi. destruct (Hf (S i) ltac:(lia)) as (e & tri & H0). exists e, tri. exact H0.
Qed.
Print Assumptions C79_until_first.

(** ... and once one succeeded, every later Connect dials that network and address only, whatever
    happened meanwhile: the other candidates are never tried again. *)
Lemma fixed_connects {W} (dl : W -> bytes -> bytes -> (nat + nat) * W) n a : candidates n a = [(n, a)] -> forall m j w r tr,
  nth_error (local_connects dl m (n, a) w) j = Some (r, tr) -> map fst tr = [(n, a)].
Proof.
  intros Hc. induction m as [|m IH]; intros j w r tr H; [destruct j; discriminate|]. cbn [local_connects] in H.
  destruct (local_connect dl (n, a) w) as [[[c' r'] w'] tr'] eqn:E. destruct (C79_connect _ _ _ _ _ _ _ _ _ E) as (found & Hs & Hm). rewrite Hc in Hs.
  assert (K : map fst tr' = [(n, a)] /\ c' = (n, a)).
  { destruct found as [[[n' a'] k]|].
    - pose proof (success_in _ _ _ _ _ Hs) as Hin. destruct Hin as [Hin|[]]. injection Hin as <- <-. destruct Hs as (pre & rest & -> & _ & Hcs). split; [|apply Hm].
      destruct pre as [|x pre]; [reflexivity|]. exfalso. destruct pre; discriminate.
    - destruct Hs as [Hs _]. split; [exact Hs|apply Hm]. }
  destruct K as [K ->]. destruct j as [|j]; cbn [nth_error] in H; [injection H as <- <-; exact K|exact (IH _ _ _ _ H)].
Qed.

Theorem C79_sticky : forall W (dl : W -> bytes -> bytes -> (nat + nat) * W) m i j n a w k tri r tr,
  nth_error (local_connects dl m (n, a) w) i = Some (inr k, tri) -> (i < j)%nat -> nth_error (local_connects dl m (n, a) w) j = Some (r, tr) ->
  exists pre n' a' c, tri = pre ++ [(n', a', inr c)] /\ map fst tr = [(n', a')].
Proof.
  intros W dl m i. revert m. induction i as [|i IH]; intros m j n a w k tri r tr Hi Hij Hj; (destruct m as [|m]; [discriminate|]); cbn [local_connects] in *;
    destruct (local_connect dl (n, a) w) as [[[c' r'] w'] tr'] eqn:E; destruct (C79_connect _ _ _ _ _ _ _ _ _ E) as (found & Hs & Hm);
    (destruct j as [|j]; [lia|]); cbn [nth_error] in *.
  - injection Hi as -> <-. destruct found as [[[n' a'] c]|].
    + pose proof (found_candidate _ _ _ _ (success_in _ _ _ _ _ Hs)) as Hc. destruct Hs as (pre & rest & -> & _ & _). destruct Hm as (-> & _).
      exists pre, n', a', c. split; [reflexivity|]. exact (fixed_connects dl n' a' Hc _ _ _ _ _ Hj).
    + exfalso. destruct Hm as (_ & H1 & H2). destruct n; [specialize (H2 (or_introl eq_refl)); discriminate|]. destruct a; [specialize (H2 (or_intror eq_refl)); discriminate|].
      destruct H1 as (e & _ & H1); [discriminate..|]. discriminate.
  - destruct c' as [n' a']. assert (L : (i < j)%nat) by lia. exact (IH _ _ _ _ _ _ _ _ _ Hi L Hj).
Qed.
Print Assumptions C79_sticky.

(** The network given is respected when an address is given too; LocalConnector("unixgram", "") can
    connect to a stream socket (and a datagram one is never tried if a stream one answers). *)
Theorem C79_network_kept : forall W (dl : W -> bytes -> bytes -> (nat + nat) * W) n a w c' k w' tr, n <> [] -> a <> [] ->
  local_connect dl (n, a) w = (c', inr k, w', tr) -> exists c, tr = [(n, a, inr c)] /\ (n = bs "unixgram" -> k = WUnixgram c) /\ (n <> bs "unixgram" -> k = WUnix c).
Proof.
  intros W dl n a w c' k w' tr Hn Ha H. destruct (C79_connect _ _ _ _ _ _ _ _ _ H) as (found & Hs & Hm).
  assert (Hc : candidates n a = [(n, a)]) by (destruct n, a; try congruence; reflexivity). rewrite Hc in Hs. destruct found as [[[n' a'] c]|].
  - pose proof (success_in _ _ _ _ _ Hs) as Hin. destruct Hin as [Hin|[]]. injection Hin as <- <-. destruct Hs as (pre & rest & -> & _ & Hcs). exists c.
    destruct pre as [|x pre]; [|exfalso; destruct pre; discriminate].
    split; [reflexivity|]. destruct Hm as (_ & H1 & H2). split; intros E; [specialize (H1 E); congruence|specialize (H2 E); congruence].
  - exfalso. destruct Hm as (_ & H1 & _). destruct (H1 Hn Ha) as (e & _ & E). discriminate.
Qed.
Print Assumptions C79_network_kept.

Theorem C79_unixgram_refuted : exists (dl : unit -> bytes -> bytes -> (nat + nat) * unit) c' w' tr, local_connect dl (bs "unixgram", []) tt = (c', inr (WUnix 7), w', tr).
Proof. exists (fun w n p => (inr 7%nat, w)). do 3 eexists. vm_compute. reflexivity. Qed.
Print Assumptions C79_unixgram_refuted.

(** Non-vacuity: /dev/log answers as a datagram socket only at first; later nothing else is tried *)
Definition flaky (w : nat) (n p : bytes) : (nat + nat) * nat :=
  (if bytes_eqb n (bs "unixgram") && bytes_eqb p (bs "/dev/log") && (w <? 6)%nat then inr w else inl w, S w).
Example C79_nonvacuous : map (fun x => (fst x, length (snd x))) (local_connects flaky 3 ([], []) 0%nat) =
  [(inr (WUnixgram 5), 6%nat); (inl (ErrSystem 6), 1%nat); (inl (ErrSystem 7), 1%nat)].
Proof. vm_compute. reflexivity. Qed.

(** ** C80 *)

Lemma last_index_some c l : forall i, last_index c l = Some i <-> exists a b, l = a ++ c :: b /\ length a = i /\ ~ In c b.
Proof.
  assert (None_ : forall l, last_index c l = None <-> ~ In c l).
  { clear l. induction l as [|x l IH]; [cbn; tauto|]. cbn [last_index In]. destruct (last_index c l) as [k|].
    - split; [discriminate|]. intros H. exfalso. apply H. right. destruct (in_bs_dec c l) as [|Hn]; [assumption|]. apply IH in Hn. discriminate.
    - assert (~ In c l) by (apply IH; reflexivity). destruct (N.eqb_spec x c); split; intros; try discriminate; try tauto. }
  induction l as [|x l IH]; intros i; cbn [last_index].
  - split; [discriminate|]. intros (a & b & H & _). destruct a; discriminate.
  - destruct (last_index c l) as [k|] eqn:E.
    + split.
      * intros H. injection H as <-. destruct (proj1 (IH k) eq_refl) as (a & b & -> & <- & Hb). exists (x :: a), b. auto.
      * intros (a & b & H & <- & Hb). destruct a as [|y a].
        -- injection H as -> ->. apply None_ in Hb. congruence.
        -- injection H as <- H. f_equal. cbn [length]. f_equal. assert (E2 : Some k = Some (length a)) by (apply (IH (length a)); eauto). congruence.
    + apply None_ in E. destruct (N.eqb_spec x c) as [->|Hx].
      * split.
        -- intros H. injection H as <-. exists [], l. auto.
        -- intros (a & b & H & <- & Hb). destruct a as [|y a]; [reflexivity|]. injection H as <- ->. exfalso. apply E, in_app_iff. right. left. reflexivity.
      * split; [discriminate|]. intros (a & b & H & <- & Hb). exfalso. destruct a as [|y a]; injection H as H1 H2; [congruence|]. apply E. rewrite H2. apply in_app_iff. right. left. reflexivity.
Qed.

(** host:port, or [host]:port with any colons in the host *)
Definition host_port (address host port : bytes) : Prop :=
  (forall c, In c port -> c <> COLON /\ c <> LBR /\ c <> RBR) /\ (forall c, In c host -> c <> LBR /\ c <> RBR) /\
  ((~ In COLON host /\ address = host ++ [COLON] ++ port) \/ address = [LBR] ++ host ++ [RBR; COLON] ++ port).

Lemma last_index_none_in c l : last_index c l = None -> ~ In c l.
Proof.
  intros E Hin. apply in_split in Hin as (a & b & ->).
  assert (K : forall b a, exists i, last_index c (a ++ c :: b) = Some i).
  { clear. induction a as [|x a [i IH]]; cbn [app last_index]; [destruct (last_index c b); [eauto|rewrite N.eqb_refl; eauto]|rewrite IH; eauto]. }
  destruct (K b a) as [i Hi]. congruence.
Qed.

Theorem C80_address : forall address host port, split_host_port address = inr (host, port) <-> host_port address host port.
Proof.
  intros address host port. split.
  - unfold split_host_port. destruct (last_index COLON address) as [i|] eqn:Ei; [|discriminate]. cbv zeta. apply last_index_some in Ei as (x & p & -> & <- & Hp).
    assert (Ep : skipn (S (length x)) (x ++ COLON :: p) = p).
    { change (x ++ COLON :: p) with (x ++ [COLON] ++ p). rewrite app_assoc. replace (S (length x)) with (length (x ++ [COLON])) by (rewrite app_length; cbn; lia). apply skipn_app_exact. }
    destruct (N.eqb_spec (hd 0%N (x ++ COLON :: p)) LBR) as [Hh|Hh].
    + destruct x as [|y x]; [discriminate|]. cbn in Hh. subst y.
      destruct (index_byte RBR ((LBR :: x) ++ COLON :: p)) as [e|] eqn:Ee; [|discriminate].
      destruct (Nat.eqb_spec (S e) (length ((LBR :: x) ++ COLON :: p))) as [|_]; [discriminate|].
      destruct (Nat.eqb_spec (S e) (length (LBR :: x))) as [He|_]; [|destruct (N.eqb _ COLON); discriminate].
      apply index_byte_some in Ee as (a & b & E & La & Ha). cbn [length] in He.
      assert (Hx : exists h, x = h ++ [RBR] /\ ~ In RBR h /\ a = LBR :: h /\ b = COLON :: p).
      { destruct a as [|y a]; [cbn in La; cbn in E; discriminate|]. cbn in E. injection E as <- E. cbn in La.
        assert (Lx : length x = length (a ++ [RBR])) by (rewrite app_length; cbn; lia).
        change (a ++ RBR :: b) with (a ++ [RBR] ++ b) in E. rewrite app_assoc in E.
        apply (f_equal (firstn (length x))) in E as E1. rewrite firstn_app_exact, Lx, firstn_app_exact in E1.
        exists a. split; [exact E1|]. split; [intros Hi; apply Ha; right; exact Hi|]. split; [reflexivity|]. subst x. apply app_inv_head in E. congruence. }
      destruct Hx as (h & -> & Hnh & -> & ->). cbn [length] in La.
      destruct (index_byte LBR _) as [|] eqn:Eb; [discriminate|]. destruct (index_byte RBR (skipn (S e) _)) as [|] eqn:Er; [discriminate|].
      apply index_byte_none in Eb. apply index_byte_none in Er. cbn [skipn app] in Eb.
      assert (Hs : skipn (S e) ((LBR :: h ++ [RBR]) ++ COLON :: p) = COLON :: p).
      { replace (S e) with (length (LBR :: h ++ [RBR])) by (cbn [length]; rewrite app_length; cbn; lia). apply skipn_app_exact. }
      rewrite Hs in Er.
      assert (Hf : skipn 1 (firstn e ((LBR :: h ++ [RBR]) ++ COLON :: p)) = h).
      { rewrite <- La. cbn [app firstn skipn]. rewrite <- app_assoc. apply firstn_app_exact. }
      rewrite Hf, Ep. intros H. injection H as <- <-. unfold host_port. split; [|split].
      * intros c Hc. split; [intros ->; contradiction|]. split; [intros ->; apply Eb; rewrite !in_app_iff; cbn; auto|intros ->; apply Er; right; exact Hc].
      * intros c Hc. split; [intros ->; apply Eb; rewrite !in_app_iff; auto|intros ->; contradiction].
      * right. cbn [app]. rewrite <- app_assoc. reflexivity.
    + rewrite firstn_app_exact. destruct (index_byte COLON x) as [|] eqn:Ex; [discriminate|]. rewrite Ep. cbn [skipn].
      destruct (index_byte LBR (x ++ COLON :: p)) as [|] eqn:Eb; [discriminate|]. destruct (index_byte RBR (x ++ COLON :: p)) as [|] eqn:Er; [discriminate|].
      intros H. injection H as <- <-. apply index_byte_none in Ex. apply index_byte_none in Eb. apply index_byte_none in Er. rewrite in_app_iff in Eb, Er. cbn [In] in Eb, Er.
      split; [|split].
      * intros c Hc. repeat split; intros ->; tauto.
      * intros c Hc. repeat split; intros ->; tauto.
      * left. auto.
  - intros (Hp & Hh & H).
    assert (Np : forall c, c = COLON \/ c = LBR \/ c = RBR -> ~ In c port) by (intros c Hc Hi; destruct (Hp c Hi) as (? & ? & ?); intuition congruence).
    assert (Nh : ~ In LBR host /\ ~ In RBR host) by (split; intros Hi; destruct (Hh _ Hi); congruence). destruct Nh as [Nl Nr].
    destruct H as [[Hc ->]| ->]; unfold split_host_port; cbn [app].
    + assert (Ei : last_index COLON (host ++ COLON :: port) = Some (length host)) by (apply last_index_some; exists host, port; split; [reflexivity|]; split; [reflexivity|]; apply Np; auto).
      rewrite Ei. cbv zeta. destruct (N.eqb_spec (hd 0%N (host ++ COLON :: port)) LBR) as [Hl|_].
      { exfalso. destruct host as [|y h]; cbn in Hl; [discriminate|]. apply Nl. left. exact Hl. }
      rewrite firstn_app_exact. rewrite (proj2 (index_byte_none COLON host) Hc).
      assert (Es : skipn (S (length host)) (host ++ COLON :: port) = port).
      { change (host ++ COLON :: port) with (host ++ [COLON] ++ port). rewrite app_assoc. replace (S (length host)) with (length (host ++ [COLON])) by (rewrite app_length; cbn; lia). apply skipn_app_exact. }
      rewrite Es. cbn [skipn].
      rewrite (proj2 (index_byte_none LBR _)), (proj2 (index_byte_none RBR _)); [|rewrite in_app_iff; cbn [In]; intros [?|[?|?]]; [tauto|discriminate|apply (Np RBR); auto]|rewrite in_app_iff; cbn [In]; intros [?|[?|?]]; [tauto|discriminate|apply (Np LBR); auto]].
      reflexivity.
    + set (x := LBR :: host ++ [RBR]).
      assert (Ea : LBR :: host ++ RBR :: COLON :: port = x ++ COLON :: port) by (subst x; cbn [app]; rewrite <- app_assoc; reflexivity).
      assert (Lx : length x = S (S (length host))) by (subst x; cbn [length]; rewrite app_length; cbn; lia).
      assert (Ei : last_index COLON (LBR :: host ++ RBR :: COLON :: port) = Some (length x)) by (apply last_index_some; exists x, port; split; [exact Ea|]; split; [reflexivity|]; apply Np; auto).
      rewrite Ei. cbv zeta. cbn [hd]. rewrite N.eqb_refl.
      assert (Ee : index_byte RBR (LBR :: host ++ RBR :: COLON :: port) = Some (S (length host))).
      { apply (index_byte_app_notin RBR (LBR :: host) (COLON :: port)). intros [Hi|Hi]; [discriminate|contradiction]. }
      rewrite Ee. destruct (Nat.eqb_spec (S (S (length host))) (length (LBR :: host ++ RBR :: COLON :: port))) as [Hb|_].
      { cbn [length] in Hb. rewrite app_length in Hb. cbn in Hb. lia. }
      rewrite Lx, Nat.eqb_refl.
      assert (Es : skipn (S (S (length host))) (LBR :: host ++ RBR :: COLON :: port) = COLON :: port) by (rewrite <- Lx, Ea; apply skipn_app_exact).
      rewrite Es.
      assert (Es2 : skipn (S (S (S (length host)))) (LBR :: host ++ RBR :: COLON :: port) = port).
      { change (LBR :: host ++ RBR :: COLON :: port) with ([LBR] ++ host ++ [RBR; COLON] ++ port). rewrite !app_assoc.
        replace (S (S (S (length host)))) with (length (([LBR] ++ host) ++ [RBR; COLON])) by (rewrite !app_length; cbn; lia). apply skipn_app_exact. }
      rewrite Es2.
      rewrite (proj2 (index_byte_none LBR (skipn 1 _))); [|cbn [skipn]; rewrite in_app_iff; cbn [In]; intros [?|[?|[?|?]]]; [tauto|discriminate|discriminate|apply (Np LBR); auto]].
      rewrite (proj2 (index_byte_none RBR _)); [|cbn [In]; intros [?|?]; [discriminate|apply (Np RBR); auto]].
      cbn [firstn skipn]. rewrite firstn_app_exact. reflexivity.
Qed.
Print Assumptions C80_address.

(** PropDatagram.v -- property C38: the stream made of datagrams (listener-unixdgram.go). *)
From Verif Require Import Base BaseFacts Spec MTransport MParse MTokenize.
From Coq Require Import ZifyBool ZifyNat ZifyN.

(** Successive calls of Read with slices of the given sizes, until one blocks for lack of datagram *)
Fixpoint fake_reads (buff : bytes) (queue : list dgram_res) (sizes : list nat)
  : list (bytes * nat * option read_err) * bytes * list dgram_res :=
  match sizes with
  | [] => ([], buff, queue)
  | n :: more =>
      match fake_read buff queue n with
      | None => ([], buff, queue)
      | Some (d, s, err, buff', queue') => let '(rs, b, q) := fake_reads buff' queue' more in ((d, s, err) :: rs, b, q)
      end
  end.

Definition bytes_of (r : bytes * nat * option read_err) : bytes := fst (fst r).
Definition payload (q : list dgram_res) : bytes := concat (map (fun r => match r with Datagram d => d | DgramErr _ _ => [] end) q).
Definition failures (q : list dgram_res) : list read_err := concat (map (fun r => match r with Datagram _ => [] | DgramErr _ e => [e] end) q).
Definition reported (rs : list (bytes * nat * option read_err)) : list read_err := concat (map (fun r => match snd r with Some e => [e] | None => [] end) rs).

Lemma fake_read_step buff queue n d s err b q : fake_read buff queue n = Some (d, s, err, b, q) ->
  d ++ b ++ payload q = buff ++ payload queue /\
  (match err with Some e => [e] | None => [] end) ++ failures q = failures queue /\
  (length d <= n)%nat /\ (err = None -> s = length d) /\ (err <> None -> d = []) /\
  (b = [] \/ (length d = n /\ err = None)) /\
  (buff <> [] -> queue = q) /\ (buff = [] -> exists r, queue = r :: q).
Proof.
  unfold fake_read. intros H.
  assert (Hserve : forall buff queue, (if (n <=? length buff)%nat then Some (firstn n buff, n, None, skipn n buff, queue) else Some (buff, length buff, None, [], queue)) = Some (d, s, err, b, q) ->
    d ++ b = buff /\ q = queue /\ err = None /\ (length d <= n)%nat /\ s = length d /\ (b = [] \/ length d = n)).
  { clear. intros buff queue H. destruct (Nat.leb_spec n (length buff)) as [Hle|Hgt]; injection H as <- <- <- <- <-.
    - rewrite firstn_skipn, firstn_length. repeat split; lia.
    - rewrite app_nil_r. repeat split; try lia. left; reflexivity. }
  destruct buff as [|x buff].
  - destruct queue as [|[dg|cnt e] queue]; [discriminate| |].
    + apply Hserve in H as (H1 & -> & -> & H4 & H5 & H6). unfold payload, failures. cbn [map concat app]. rewrite app_assoc, H1. split; [reflexivity|]. split; [reflexivity|].
      split; [exact H4|]. split; [auto|]. split; [congruence|]. split; [destruct H6; auto|]. split; [congruence|eauto].
    + injection H as <- <- <- <- <-. unfold payload, failures. cbn [map concat app length]. repeat split; try lia; try congruence; eauto.
  - apply Hserve in H as (H1 & -> & -> & H4 & H5 & H6). cbn [app]. rewrite app_assoc, H1. split; [reflexivity|]. split; [reflexivity|].
    split; [exact H4|]. split; [auto|]. split; [congruence|]. split; [destruct H6; auto|]. split; [reflexivity|discriminate].
Qed.

(** The bytes returned, what is kept and what is not read yet are exactly the datagrams, in order;
    the errors returned are those of the socket, in order *)
Theorem C38_exact_stream : forall sizes buff queue rs b q, fake_reads buff queue sizes = (rs, b, q) ->
  concat (map bytes_of rs) ++ b ++ payload q = buff ++ payload queue /\ reported rs ++ failures q = failures queue.
Proof.
  induction sizes as [|n sizes IH]; intros buff queue rs b q H; cbn [fake_reads] in H; [injection H as <- <- <-; split; reflexivity|].
  destruct (fake_read buff queue n) as [[[[[d s] err] b1] q1]|] eqn:E; [|injection H as <- <- <-; split; reflexivity].
  destruct (fake_reads b1 q1 sizes) as [[rs1 b2] q2] eqn:E2. injection H as <- <- <-.
  destruct (IH _ _ _ _ _ E2) as [H1 H2]. destruct (fake_read_step _ _ _ _ _ _ _ _ E) as (H3 & H4 & _).
  cbn [map concat]. unfold bytes_of at 1. cbn [fst]. rewrite <- app_assoc, H1. split; [exact H3|].
  unfold reported. cbn [map concat snd]. fold (reported rs1). rewrite <- app_assoc, H2. exact H4.
Qed.
Print Assumptions C38_exact_stream.

(** Each read returns at most the size asked for, a count equal to the number of bytes returned when
    there is no error, and no byte with an error *)
Theorem C38_sizes : forall sizes buff queue rs b q, fake_reads buff queue sizes = (rs, b, q) ->
  Forall2 (fun r n => (length (bytes_of r) <= n)%nat /\ (snd r = None -> snd (fst r) = length (bytes_of r)) /\ (snd r <> None -> bytes_of r = []))
    rs (firstn (length rs) sizes).
Proof.
  induction sizes as [|n sizes IH]; intros buff queue rs b q H; cbn [fake_reads] in H; [injection H as <- <- <-; constructor|].
  destruct (fake_read buff queue n) as [[[[[d s] err] b1] q1]|] eqn:E; [|injection H as <- <- <-; constructor].
  destruct (fake_reads b1 q1 sizes) as [[rs1 b2] q2] eqn:E2. injection H as <- <- <-. cbn [length firstn].
  destruct (fake_read_step _ _ _ _ _ _ _ _ E) as (_ & _ & H3 & H4 & H5 & _). constructor; [|exact (IH _ _ _ _ _ E2)]. unfold bytes_of. cbn [fst snd]. auto.
Qed.
Print Assumptions C38_sizes.

(** A read blocks only when nothing is kept and no datagram is available, and a short read means
    that the datagram is finished *)
Theorem C38_progress : forall buff queue n,
  (fake_read buff queue n = None <-> buff = [] /\ queue = []) /\
  (forall d s b q, fake_read buff queue n = Some (d, s, None, b, q) -> (length d < n)%nat -> b = []).
Proof.
  intros buff queue n. split.
  - unfold fake_read. destruct buff as [|x buff].
    + destruct queue as [|[dg|c e] queue]; [tauto| |split; [discriminate|intros [_ H]; discriminate]].
      split; [destruct (n <=? length dg)%nat; discriminate|intros [_ H]; discriminate].
    + split; [destruct (n <=? length (x :: buff))%nat; discriminate|intros [H _]; discriminate].
  - intros d s b q H Hl. destruct (fake_read_step _ _ _ _ _ _ _ _ H) as (_ & _ & _ & _ & _ & [H6|[H6 _]] & _); [exact H6|lia].
Qed.
Print Assumptions C38_progress.

Example C38_nonvacuous :
  let q := [Datagram (bs "hello"); Datagram []; DgramErr 0 (ROther 4); Datagram (bs "wor"); Datagram (bs "ld")] in
  fake_reads [] q [2; 100; 7; 1; 3; 9; 9]%nat =
    ([(bs "he", 2, None); (bs "llo", 3, None); ([], 0, None); ([], 0, Some (ROther 4)); (bs "wor", 3, None); (bs "ld", 2, None)]%nat, [], []).
Proof. vm_compute. reflexivity. Qed.

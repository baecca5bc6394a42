(** MDatagram.v -- model of a Sender whose connections are unix datagram sockets, and of a Receiver
    reading such a socket.  Definitions only. *)
From Verif Require Import Base MTransport MParse MTokenize MSender.

(** What a Write on a unix datagram socket does (connector-local.go:52-54): the slice is sent as one
    datagram, or nothing is sent and there is an error. *)
Inductive gram_res := GSent | GNoBufs | GErr (e : nat).

(** The (count, error) of the Writes that WriteTo makes, one per frame of the queue (connector.go:85, connector-local.go:52-54) *)
Definition gram_results (q : list bytes) (rs : list gram_res) : list (nat * option wres) :=
  map (fun x => match snd x with GSent => (length (fst x), None) | GNoBufs => (0%nat, Some WNoBufs) | GErr e => (0%nat, Some (WErr e)) end) (combine q rs).

(** The datagrams sent by these Writes (connector.go:85, connector-local.go:52-54) *)
Fixpoint grams_sent (q : list bytes) (rs : list gram_res) : list bytes :=
  match q, rs with
  | b :: q', GSent :: rs' => b :: grams_sent q' rs'
  | _, _ => []
  end.

(** An action of such a sender: WriteTo (connector.go:85), given by the results of the Writes, or an
    action of MSender.v that is not a write *)
Inductive gaction := GWrite (rs : list gram_res) | GAct (a : saction).

(** The action of MSender.v and the datagrams sent; connector.go:84-102 with net.Buffers.WriteTo as
    [write_each]. *)
Definition gram_act (s : sstate) (a : gaction) : option (saction * list bytes) :=
  match a with
  | GWrite rs =>
      let '(_, n, e) := write_each (s_queue s) (gram_results (s_queue s) rs) in
      Some (AWrite n (match e with None => WOk | Some r => r end), grams_sent (s_queue s) rs)
  | GAct (AWrite _ _) => None
  | GAct b => Some (b, [])
  end.

(** An execution: final state, the same execution as a list of actions of MSender.v, and the
    datagrams sent. (connector.go:71-131) *)
Fixpoint gram_run (s : sstate) (acts : list gaction) : option (sstate * list saction * list bytes) :=
  match acts with
  | [] => Some (s, [], [])
  | a :: more =>
      match gram_act s a with
      | None => None
      | Some (act, sent) =>
          match sstep s act with
          | None => None
          | Some s' => match gram_run s' more with Some (s'', l, g) => Some (s'', act :: l, sent ++ g) | None => None end
          end
      end
  end.

(** The first n results of conn.Read in the goroutine of a connection (listener.go:111) when the
    connection is the datagram adapter (listener-unixdgram.go:93-116): it asks for as many bytes as
    there is room in its buffer.  Fewer than n when a read blocks or the goroutine stops. *)
Fixpoint gram_reads (t : transport) (n : nat) (st : tstate) (buff : bytes) (queue : list dgram_res) : list (bytes * option read_err) :=
  match n with
  | O => []
  | S n' =>
      match fake_read buff queue (Z.to_nat (tok_room st)) with
      | None => []
      | Some (d, _, err, buff', queue') =>
          (d, err) :: match o_next (tok_step t st d err) with TCont st' => gram_reads t n' st' buff' queue' | _ => [] end
      end
  end.

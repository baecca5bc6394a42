(** MReceiver.v -- model of a Receiver (listener.go) as a transition system: the goroutine of
    runQueue, one goroutine per connection, the channels, and the calls of the user.  An execution
    is a sequence of actions; the scheduler, the network and the user choose them.  Channel
    operations are atomic.  Definitions only. *)
From Verif Require Import Base MTransport MParse MTokenize.

(** listener.go:53-78 NewReceiver: no receiver without transport; capacity of the pipeline *)
Definition new_receiver (t : option transport) (lenQueue : Z) : option (transport * nat) :=
  match t with
  | None => None
  | Some t => Some (t, if (lenQueue <=? 0)%Z then 0%nat else Z.to_nat lenQueue)
  end.

(** listener.go:73: capacity of chanErr *)
Definition err_cap : nat := 10.

(** Where the goroutine of runQueue is (listener.go:80-99): at the select, in Accept, sending an
    error to chanErr (then starting a connection goroutine or not having a connection), and in the
    deferred calls: close(pipeline), then listener.Close(). *)
Inductive rpc := RSelect | RAccept | RSendErr (e : nat) (conn : bool) | RClosePipe | RCloseListener | RDone.

(** Where the goroutine of a connection is (listener.go:101-161).  [KNil]: started with a nil
    connection, about to run "defer conn.Close()".  [KEmit errs pairs next]: has read, and sends
    these errors to chanErr, then these pairs to the pipeline, then does [next] (MTokenize.v). *)
Inductive kpc := KNil | KRead (st : tstate) | KEmit (errs : list nat) (pairs : list pair_t) (next : tok_next) | KDone.

(** listener.go:32-37 and the channels and goroutines made at 61-75, 95 *)
Record rstate := {
  r_pc : rpc;
  r_end : bool;                       (** r.end is closed *)
  r_queue : list (nat * pair_t);      (** the pipeline's buffer; each pair with its connection *)
  r_closed : bool;                    (** the pipeline is closed *)
  r_lclosed : bool;                   (** the listener is closed *)
  r_errq : list (option nat * nat);   (** chanErr's buffer; each error with its connection, None: from Accept *)
  r_conns : list kpc;                 (** connection goroutines, in order of creation *)
  r_got : list (option (nat * pair_t)); (** results of the calls of Receive so far; None: (.., .., false) *)
  r_goterr : list (option nat * nat); (** errors the user has read *)
  r_crashed : bool }.

(** listener.go:66-75 *)
Definition receiver_init : rstate :=
  {| r_pc := RSelect; r_end := false; r_queue := []; r_closed := false; r_lclosed := false; r_errq := []; r_conns := [];
     r_got := []; r_goterr := []; r_crashed := false |}.

(** listener.go:80-173: the steps, cited one by one in rstep *)
Inductive raction :=
| REndCall                            (** the user calls End *)
| RStepSelect                         (** runQueue's select *)
| RAccepted (conn : bool) (err : option nat) (** Accept returns: a connection or nil, and an error *)
| RPushErr                            (** runQueue sends the error *)
| RStepClosePipe | RStepCloseListener (** the deferred calls *)
| KStart (i : nat)                    (** goroutine i runs with a nil connection *)
| KReadReturns (i : nat) (chunk : bytes) (err : option read_err)
| KPushErr (i : nat) | KPush (i : nat) (** goroutine i sends one error / one pair *)
| KNextTurn (i : nat)                 (** goroutine i has sent everything *)
| RReceive                            (** a call of Receive returns *)
| RHandoff (i : nat)                  (** same, the pair coming straight from goroutine i (unbuffered) *)
| RUserErr.                           (** the user reads chanErr *)

(** (no code: replaces a connection goroutine) *)
Fixpoint set_nth {A} (l : list A) (i : nat) (x : A) : list A :=
  match l, i with
  | [], _ => []
  | _ :: l', O => x :: l'
  | y :: l', S i' => y :: set_nth l' i' x
  end.

(** (no code: the state after a step of runQueue, listener.go:80-99) *)
Definition with_pc (s : rstate) (pc : rpc) : rstate :=
  {| r_pc := pc; r_end := r_end s; r_queue := r_queue s; r_closed := r_closed s; r_lclosed := r_lclosed s; r_errq := r_errq s;
     r_conns := r_conns s; r_got := r_got s; r_goterr := r_goterr s; r_crashed := r_crashed s |}.
(** (no code: the state after a step of tokenize, listener.go:101-161) *)
Definition with_conn (s : rstate) (i : nat) (k : kpc) : rstate :=
  {| r_pc := r_pc s; r_end := r_end s; r_queue := r_queue s; r_closed := r_closed s; r_lclosed := r_lclosed s; r_errq := r_errq s;
     r_conns := set_nth (r_conns s) i k; r_got := r_got s; r_goterr := r_goterr s; r_crashed := r_crashed s |}.
(** listener.go:95 *)
Definition spawn (s : rstate) (conn : bool) : rstate :=
  {| r_pc := RSelect; r_end := r_end s; r_queue := r_queue s; r_closed := r_closed s; r_lclosed := r_lclosed s; r_errq := r_errq s;
     r_conns := r_conns s ++ [if conn then KRead tok_init else KNil]; r_got := r_got s; r_goterr := r_goterr s; r_crashed := r_crashed s |}.
(** listener.go:92, 120 *)
Definition with_errq (s : rstate) (q : list (option nat * nat)) : rstate :=
  {| r_pc := r_pc s; r_end := r_end s; r_queue := r_queue s; r_closed := r_closed s; r_lclosed := r_lclosed s; r_errq := q;
     r_conns := r_conns s; r_got := r_got s; r_goterr := r_goterr s; r_crashed := r_crashed s |}.
(** (an unrecovered panic stops the process: listener.go:102, 142, 172) *)
Definition crash (s : rstate) : rstate :=
  {| r_pc := r_pc s; r_end := r_end s; r_queue := r_queue s; r_closed := r_closed s; r_lclosed := r_lclosed s; r_errq := r_errq s;
     r_conns := r_conns s; r_got := r_got s; r_goterr := r_goterr s; r_crashed := true |}.
(** listener.go:142 *)
Definition with_queue (s : rstate) (q : list (nat * pair_t)) (got : list (option (nat * pair_t))) : rstate :=
  {| r_pc := r_pc s; r_end := r_end s; r_queue := q; r_closed := r_closed s; r_lclosed := r_lclosed s; r_errq := r_errq s;
     r_conns := r_conns s; r_got := got; r_goterr := r_goterr s; r_crashed := r_crashed s |}.

(** One action; None when it is not possible in this state (it blocks, or it is not where the
    goroutine is, or the process has crashed). (listener.go:80-173) *)
Definition rstep (t : transport) (cap : nat) (s : rstate) (a : raction) : option rstate :=
  if r_crashed s then None else
  match a with
  (* listener.go:171-173: closing a closed channel panics *)
  | REndCall => Some (if r_end s then crash s else
      {| r_pc := r_pc s; r_end := true; r_queue := r_queue s; r_closed := r_closed s; r_lclosed := r_lclosed s; r_errq := r_errq s;
         r_conns := r_conns s; r_got := r_got s; r_goterr := r_goterr s; r_crashed := r_crashed s |})
  (* listener.go:85-90 *)
  | RStepSelect => match r_pc s with RSelect => Some (with_pc s (if r_end s then RClosePipe else RAccept)) | _ => None end
  (* listener.go:90-95 *)
  | RAccepted conn err =>
      match r_pc s with
      | RAccept => Some (match err with Some e => with_pc s (RSendErr e conn) | None => spawn s conn end)
      | _ => None
      end
  (* listener.go:92-95: the goroutine is started even after an error *)
  | RPushErr =>
      match r_pc s with
      | RSendErr e conn => if (length (r_errq s) <? err_cap)%nat then Some (spawn (with_errq s (r_errq s ++ [(None, e)])) conn) else None
      | _ => None
      end
  (* listener.go:81-82, in reverse order *)
  | RStepClosePipe =>
      match r_pc s with
      | RClosePipe => Some {| r_pc := RCloseListener; r_end := r_end s; r_queue := r_queue s; r_closed := true; r_lclosed := r_lclosed s;
                              r_errq := r_errq s; r_conns := r_conns s; r_got := r_got s; r_goterr := r_goterr s; r_crashed := false |}
      | _ => None
      end
  | RStepCloseListener =>
      match r_pc s with
      | RCloseListener => Some {| r_pc := RDone; r_end := r_end s; r_queue := r_queue s; r_closed := r_closed s; r_lclosed := true;
                                  r_errq := r_errq s; r_conns := r_conns s; r_got := r_got s; r_goterr := r_goterr s; r_crashed := false |}
      | _ => None
      end
  (* listener.go:102: method call on a nil interface *)
  | KStart i => match nth_error (r_conns s) i with Some KNil => Some (crash s) | _ => None end
  (* listener.go:111-160 *)
  | KReadReturns i chunk err =>
      match nth_error (r_conns s) i with
      | Some (KRead st) =>
          if (Z.of_nat (length chunk) <=? tok_room st)%Z then
            let o := tok_step t st chunk err in Some (with_conn s i (KEmit (o_errs o) (o_sent o) (o_next o)))
          else None
      | _ => None
      end
  (* listener.go:120 *)
  | KPushErr i =>
      match nth_error (r_conns s) i with
      | Some (KEmit (e :: errs) pairs next) =>
          if (length (r_errq s) <? err_cap)%nat then Some (with_conn (with_errq s (r_errq s ++ [(Some i, e)])) i (KEmit errs pairs next)) else None
      | _ => None
      end
  (* listener.go:142: sending on a closed channel panics, also when the goroutine was already
     blocked in the send *)
  | KPush i =>
      match nth_error (r_conns s) i with
      | Some (KEmit [] (p :: pairs) next) =>
          if r_closed s then Some (crash s)
          else if (length (r_queue s) <? cap)%nat then Some (with_conn (with_queue s (r_queue s ++ [(i, p)]) (r_got s)) i (KEmit [] pairs next))
          else None
      | _ => None
      end
  | KNextTurn i =>
      match nth_error (r_conns s) i with
      | Some (KEmit [] [] next) =>
          Some (match next with TCont st => with_conn s i (KRead st) | TReturn _ => with_conn s i KDone | TCrash => crash s end)
      | _ => None
      end
  (* listener.go:164-168 *)
  | RReceive =>
      match r_queue s with
      | x :: q => Some (with_queue s q (r_got s ++ [Some x]))
      | [] => if r_closed s then Some (with_queue s [] (r_got s ++ [None])) else None
      end
  (* an unbuffered channel: the sender and the receiver meet *)
  | RHandoff i =>
      match nth_error (r_conns s) i with
      | Some (KEmit [] (p :: pairs) next) =>
          if r_closed s then None
          else if (length (r_queue s) =? 0)%nat then Some (with_conn (with_queue s [] (r_got s ++ [Some (i, p)])) i (KEmit [] pairs next)) else None
      | _ => None
      end
  | RUserErr =>
      match r_errq s with
      | e :: q => Some {| r_pc := r_pc s; r_end := r_end s; r_queue := r_queue s; r_closed := r_closed s; r_lclosed := r_lclosed s; r_errq := q;
                          r_conns := r_conns s; r_got := r_got s; r_goterr := r_goterr s ++ [e]; r_crashed := r_crashed s |}
      | [] => None
      end
  end.

(** An execution: every action possible in the state where it happens (listener.go:53-173) *)
Fixpoint rrun (t : transport) (cap : nat) (s : rstate) (acts : list raction) : option rstate :=
  match acts with
  | [] => Some s
  | a :: more => match rstep t cap s a with Some s' => rrun t cap s' more | None => None end
  end.

(** ** the unix datagram listener (listener-unixdgram.go:63-83) *)
(** Accept returns the connection the first time; later it waits for Close and returns (nil, error).
    [accepted] is r.accepted, [closed] whether Close was called.  None: blocks. (listener-unixdgram.go:69-83) *)
Definition unixgram_accept (accepted closed : bool) : option (bool * option nat) :=
  if accepted then (if closed then Some (false, Some 0%nat) else None) else Some (true, None).

(** An execution of a receiver on such a listener (listener-unixdgram.go:63-83, listener.go:53-173) *)
Fixpoint unixgram_run (t : transport) (cap : nat) (s : rstate) (accepted : bool) (acts : list raction) : option (rstate * bool) :=
  match acts with
  | [] => Some (s, accepted)
  | a :: more =>
      match a with
      | RAccepted conn err =>
          match unixgram_accept accepted (r_lclosed s) with
          | Some (c, e) => match rstep t cap s (RAccepted c e) with Some s' => unixgram_run t cap s' true more | None => None end
          | None => None
          end
      | _ => match rstep t cap s a with Some s' => unixgram_run t cap s' accepted more | None => None end
      end
  end.

(** MTokenize.v -- model of one connection of a Receiver: listener.go tokenize, and of the unix
    datagram adapter (listener-unixdgram.go fakeConn.Read).  Definitions only. *)
From Verif Require Import Base MTransport MParse.

(** listener.go:45 readBuffer *)
Definition read_buffer : Z := 65536.

(** listener.go:39-42 messageErrorPair *)
Notation pair_t := (immutable * option perr)%type.

(** The error result of conn.Read: io.EOF or another error. (listener.go:111-121) *)
Inductive read_err := REOF | ROther (e : nat).

(** What tokenize keeps between two reads (listener.go:106-109): the [done] bytes at the start of
    the buffer that are not consumed yet, and len(buffer).  [total] and [count] (listener.go:107-108)
    are only used by commented-out traces.  Where the bytes live is modelled in MTokMem.v. *)
Record tstate := { t_pending : bytes; t_buflen : Z }.

(** listener.go:106-109 *)
Definition tok_init : tstate := {| t_pending := []; t_buflen := read_buffer |}.

(** len(buffer[done:]), the size of the slice given to conn.Read (listener.go:111) *)
Definition tok_room (st : tstate) : Z := (t_buflen st - Z.of_nat (length (t_pending st)))%Z.

(** listener.go:131-146: the inner loop.  The pairs sent to the pipeline, then the final value of
    [data], or [Panic] when Parse panics. *)
Fixpoint tok_inner (fuel : nat) (t : transport) (eof : bool) (data : bytes) : list pair_t * res bytes :=
  match fuel with
  | O => ([], NoFuel)
  | S f =>
      match parse data (Some t) eof with
      | Panic => ([], Panic)
      | NoFuel => ([], NoFuel)
      | Val (_, None, _) => ([], Val data)
      | Val (msg, Some rest, e) =>
          if (length rest =? 0)%nat then ([(msg, e)], Val rest)
          else let '(sent, r) := tok_inner f t eof rest in ((msg, e) :: sent, r)
      end
  end.

(** What one turn of the outer loop leads to: another read, the end of the goroutine with [left]
    bytes dropped, or the crash of the process. (listener.go:110-160) *)
Inductive tok_next := TCont (st : tstate) | TReturn (left : bytes) | TCrash.

(** One turn: the pairs sent to the pipeline (in order), the error sent to chanErr before them. (listener.go:119-142) *)
Record tok_out := { o_sent : list pair_t; o_errs : list nat; o_next : tok_next }.

(** listener.go:110-161: one turn of the outer loop, conn.Read having returned [chunk] and [err].
    Sending blocks in the code when the pipeline or chanErr is full: see MReceiver.v. *)
Definition tok_step (t : transport) (st : tstate) (chunk : bytes) (err : option read_err) : tok_out :=
  let eof := match err with Some REOF => true | _ => false end in
  let errs := match err with Some (ROther e) => [e] | _ => [] end in
  if (length chunk =? 0)%nat && eof then {| o_sent := []; o_errs := errs; o_next := TReturn (t_pending st) |}
  else if (length chunk =? 0)%nat then {| o_sent := []; o_errs := errs; o_next := TCont st |}
  else
    let data := t_pending st ++ chunk in
    let lenRead := length data in
    let '(sent, r) := tok_inner (S lenRead) t eof data in
    {| o_sent := sent; o_errs := errs;
       o_next :=
         match r with
         | Val data =>
             let done := length data in
             let buflen := (t_buflen st - Z.of_nat (lenRead - done))%Z in
             let buflen := if (buflen <? 500)%Z then read_buffer else buflen in
             if eof then TReturn data else TCont {| t_pending := data; t_buflen := buflen |}
         | _ => TCrash
         end |}.

(** listener.go:101-161 for the successive results of conn.Read; the goroutine stops at TReturn
    or TCrash and later reads do not happen. *)
Fixpoint tok_run (t : transport) (st : tstate) (reads : list (bytes * option read_err)) : tok_out :=
  match reads with
  | [] => {| o_sent := []; o_errs := []; o_next := TCont st |}
  | (chunk, err) :: more =>
      let o := tok_step t st chunk err in
      match o_next o with
      | TCont st' =>
          let o' := tok_run t st' more in
          {| o_sent := o_sent o ++ o_sent o'; o_errs := o_errs o ++ o_errs o'; o_next := o_next o' |}
      | _ => o
      end
  end.

(** The contract of io.Reader: Read returns at most as many bytes as the slice it is given, and is
    not called again once the goroutine stopped. (listener.go:111) *)
Fixpoint reads_ok (t : transport) (st : tstate) (reads : list (bytes * option read_err)) : Prop :=
  match reads with
  | [] => True
  | (chunk, err) :: more =>
      (Z.of_nat (length chunk) <= tok_room st)%Z /\
      match o_next (tok_step t st chunk err) with TCont st' => reads_ok t st' more | _ => more = [] end
  end.

(** ** listener-unixdgram.go *)

(** Result of net.UnixConn.ReadFrom on the adapter's own 64 KiB buffer: a datagram, or an error
    with the byte count that came with it. (listener-unixdgram.go:95) *)
Inductive dgram_res := Datagram (d : bytes) | DgramErr (s : nat) (e : read_err).

(** listener-unixdgram.go:93-116 fakeConn.Read for a slice of [n] bytes; [buff] is r.buff.  Result:
    the bytes copied in the slice and the count returned (they differ only for an error that comes
    with a count), the error, the new r.buff, and the results of ReadFrom not used yet.  ReadFrom
    blocks when there is none: no result. *)
Definition fake_read (buff : bytes) (queue : list dgram_res) (n : nat)
  : option (bytes * nat * option read_err * bytes * list dgram_res) :=
  let serve buff queue :=
    if (n <=? length buff)%nat then Some (firstn n buff, n, None, skipn n buff, queue)
    else Some (buff, length buff, None, [], queue) in
  match buff with
  | [] =>
      match queue with
      | [] => None
      | DgramErr s e :: q => Some ([], s, Some e, [], q)
      | Datagram d :: q => serve d q
      end
  | _ => serve buff queue
  end.

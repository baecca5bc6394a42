(** MSender.v -- model of a Sender (connector.go) as a transition system: the goroutine of runQueue,
    the lock, the error channel, the network and the calls of the user.  An execution is a sequence
    of actions; the scheduler, the network and the user choose them.  Definitions only. *)
From Verif Require Import Base MTransport MSData MMessage.

(** ** net.Buffers (Go standard library, net/net.go) *)

(** net.Buffers.consume: drops the first [n] bytes of the queue (connector.go:85) *)
Fixpoint consume (n : nat) (q : list bytes) : list bytes :=
  match q with
  | [] => []
  | b :: q' => if (n <? length b)%nat then skipn n b :: q' else consume (n - length b) q'
  end.

(** net.Buffers.WriteTo on a connection without writev (os.File, the unixgram wrapper of
    connector-local.go:48-54): one Write per buffer.  [results]: what successive Writes return, a
    count and an error.  Result: the writes made (bytes accepted of each buffer), the byte count
    and the error. *)
Fixpoint write_each {E} (q : list bytes) (results : list (nat * option E)) : list bytes * nat * option E :=
  match q, results with
  | [], _ => ([], 0%nat, None)
  | _, [] => ([], 0%nat, None)
  | b :: q', (k, Some e) :: _ => ([firstn k b], k, Some e)
  | b :: q', (k, None) :: more => let '(w, n, e) := write_each q' more in (firstn k b :: w, (k + n)%nat, e)
  end.

(** ** the goroutine *)

(** Where the goroutine of runQueue is.  [d]: in the deferred function (connector.go:111-114).
    PConnect: in connector.Connect (connector.go:74); PErrConnect: sending its error (75);
    PLock: about to take the lock (81); PWrite: at the head of the loop (84), lock held;
    PErrWrite: sending the error of a write (93, 98), lock held; PDrain: at the head of the deferred
    loop (112); PClose: about to close the connection (115), endCompleted (116), errChan (117). *)
Inductive spc :=
| PSelect | PConnect (d : bool) | PErrConnect (d : bool) (e : nat) | PLock (d : bool) | PWrite (d : bool) | PErrWrite (d : bool) (e : nat)
| PDrain | PClose | PCloseDone | PCloseErr | PExit.

(** What happens on the network; connections are numbered by successful Connects (connector.go:74, 85, 115) *)
Inductive sevent := EOpen (c : nat) | EWrite (c : nat) (d : bytes) | EClose (c : nat).

(** connector.go:28-38, 54-66 *)
Record sstate := {
  s_pc : spc;
  s_queue : list bytes;               (** c.queue *)
  s_out : option nat;                 (** c.output *)
  s_end : bool;                       (** endAsked is closed *)
  s_completed : bool;                 (** endCompleted is closed: End can return *)
  s_errq : list nat;                  (** errChan's buffer, capacity 1 *)
  s_errclosed : bool;
  s_goterr : list nat;                (** errors the user has read *)
  s_log : list sevent;
  s_next : nat;                       (** number of successful Connects *)
  s_crashed : bool }.

(** connector.go:53-69 NewSender *)
Definition sender_init : sstate :=
  {| s_pc := PSelect; s_queue := []; s_out := None; s_end := false; s_completed := false; s_errq := []; s_errclosed := false;
     s_goterr := []; s_log := []; s_next := 0; s_crashed := false |}.

(** connector.go:60: capacity of errChan *)
Definition serr_cap : nat := 1.

(** connector.go:85-101: the three cases of the error *)
Inductive wres := WOk | WNoBufs | WErr (e : nat).

(** connector.go:71-153: the steps, cited one by one in sstep *)
Inductive saction :=
| ASend (frame : bytes)               (** the critical section of a Send (connector.go:142-144) *)
| ATick                               (** the select takes the ticker's case *)
| AEndCall                            (** End is called (connector.go:151) *)
| ASelectEnd                          (** the select takes the endAsked case *)
| AConnect (err : option nat)         (** Connect returns *)
| APushErrConn                        (** its error is sent *)
| ALock
| AWrite (k : nat) (r : wres)         (** queue.WriteTo returns: k bytes accepted *)
| AWriteDone                          (** the queue is empty: flushQueue returns *)
| APushErrWrite                       (** the error of a write is sent *)
| ADrain                              (** the test of the deferred loop *)
| ACloseOut | ACloseDone | ACloseErr
| AUserErr.                           (** the user reads errChan *)

(** (no code: the goroutine moves) *)
Definition set_pc (s : sstate) (pc : spc) : sstate :=
  {| s_pc := pc; s_queue := s_queue s; s_out := s_out s; s_end := s_end s; s_completed := s_completed s; s_errq := s_errq s; s_errclosed := s_errclosed s;
     s_goterr := s_goterr s; s_log := s_log s; s_next := s_next s; s_crashed := s_crashed s |}.
(** (an unrecovered panic stops the process: connector.go:75, 115, 151) *)
Definition scrash (s : sstate) : sstate :=
  {| s_pc := s_pc s; s_queue := s_queue s; s_out := s_out s; s_end := s_end s; s_completed := s_completed s; s_errq := s_errq s; s_errclosed := s_errclosed s;
     s_goterr := s_goterr s; s_log := s_log s; s_next := s_next s; s_crashed := true |}.

(** connector.go:72, start of flushQueue *)
Definition flush_entry (s : sstate) (d : bool) : spc := match s_out s with None => PConnect d | Some _ => PLock d end.
(** where flushQueue returns to: connector.go:122-123 or 112-114 *)
Definition flush_return (d : bool) : spc := if d then PDrain else PSelect.

(** Is the lock held?  (Send holds it only for its atomic step.) (connector.go:81-82, 142-144) *)
Definition locked (s : sstate) : bool := match s_pc s with PWrite _ | PErrWrite _ _ => true | _ => false end.

(** One action; None when it is not possible in this state (connector.go:71-153) *)
Definition sstep (s : sstate) (a : saction) : option sstate :=
  if s_crashed s then None else
  match a with
  (* connector.go:142-144 *)
  | ASend frame =>
      if locked s then None else
      Some {| s_pc := s_pc s; s_queue := s_queue s ++ [frame]; s_out := s_out s; s_end := s_end s; s_completed := s_completed s; s_errq := s_errq s;
              s_errclosed := s_errclosed s; s_goterr := s_goterr s; s_log := s_log s; s_next := s_next s; s_crashed := false |}
  (* connector.go:121-123 *)
  | ATick => match s_pc s with PSelect => Some (set_pc s (flush_entry s false)) | _ => None end
  (* connector.go:151: closing a closed channel panics *)
  | AEndCall => Some (if s_end s then scrash s else
      {| s_pc := s_pc s; s_queue := s_queue s; s_out := s_out s; s_end := true; s_completed := s_completed s; s_errq := s_errq s;
         s_errclosed := s_errclosed s; s_goterr := s_goterr s; s_log := s_log s; s_next := s_next s; s_crashed := false |})
  (* connector.go:125-128 *)
  | ASelectEnd => match s_pc s with PSelect => if s_end s then Some (set_pc s PDrain) else None | _ => None end
  (* connector.go:74-77; a Connect that fails returns a nil connection *)
  | AConnect err =>
      match s_pc s with
      | PConnect d =>
          match err with
          | Some e => Some (set_pc s (PErrConnect d e))
          | None => Some {| s_pc := PLock d; s_queue := s_queue s; s_out := Some (s_next s); s_end := s_end s; s_completed := s_completed s; s_errq := s_errq s;
                            s_errclosed := s_errclosed s; s_goterr := s_goterr s; s_log := s_log s ++ [EOpen (s_next s)]; s_next := S (s_next s); s_crashed := false |}
          end
      | _ => None
      end
  (* connector.go:75-76; sending on a closed channel panics *)
  | APushErrConn =>
      match s_pc s with
      | PErrConnect d e =>
          if s_errclosed s then Some (scrash s)
          else if (length (s_errq s) <? serr_cap)%nat then
            Some {| s_pc := flush_return d; s_queue := s_queue s; s_out := s_out s; s_end := s_end s; s_completed := s_completed s; s_errq := s_errq s ++ [e];
                    s_errclosed := s_errclosed s; s_goterr := s_goterr s; s_log := s_log s; s_next := s_next s; s_crashed := false |}
          else None
      | _ => None
      end
  (* connector.go:81 *)
  | ALock => match s_pc s with PLock d => Some (set_pc s (PWrite d)) | _ => None end
  (* connector.go:84-101; io.Writer: at most len bytes, all of them without error *)
  | AWrite k r =>
      match s_pc s with
      | PWrite d =>
          match s_queue s with
          | [] => None
          | _ =>
              match s_out s with
              | None => Some (scrash s)
              | Some c =>
                  let all := concat (s_queue s) in
                  if (k <=? length all)%nat && match r with WOk => (k =? length all)%nat | _ => true end then
                    Some {| s_pc := match r with WOk => PWrite d | WNoBufs => flush_return d | WErr e => PErrWrite d e end;
                            s_queue := consume k (s_queue s); s_out := s_out s; s_end := s_end s; s_completed := s_completed s; s_errq := s_errq s;
                            s_errclosed := s_errclosed s; s_goterr := s_goterr s; s_log := s_log s ++ [EWrite c (firstn k all)]; s_next := s_next s; s_crashed := false |}
                  else None
              end
          end
      | _ => None
      end
  (* connector.go:84, 104-107 *)
  | AWriteDone => match s_pc s with PWrite d => match s_queue s with [] => Some (set_pc s (flush_return d)) | _ => None end | _ => None end
  (* connector.go:93-95, 98-100: the connection is forgotten, not closed *)
  | APushErrWrite =>
      match s_pc s with
      | PErrWrite d e =>
          if s_errclosed s then Some (scrash s)
          else if (length (s_errq s) <? serr_cap)%nat then
            Some {| s_pc := flush_return d; s_queue := s_queue s; s_out := None; s_end := s_end s; s_completed := s_completed s; s_errq := s_errq s ++ [e];
                    s_errclosed := s_errclosed s; s_goterr := s_goterr s; s_log := s_log s; s_next := s_next s; s_crashed := false |}
          else None
      | _ => None
      end
  (* connector.go:112-114 *)
  | ADrain => match s_pc s with PDrain => Some (set_pc s (match s_queue s with [] => PClose | _ => flush_entry s true end)) | _ => None end
  (* connector.go:115: method call on a nil interface panics *)
  | ACloseOut =>
      match s_pc s with
      | PClose =>
          match s_out s with
          | None => Some (scrash s)
          | Some c => Some {| s_pc := PCloseDone; s_queue := s_queue s; s_out := s_out s; s_end := s_end s; s_completed := s_completed s; s_errq := s_errq s;
                              s_errclosed := s_errclosed s; s_goterr := s_goterr s; s_log := s_log s ++ [EClose c]; s_next := s_next s; s_crashed := false |}
          end
      | _ => None
      end
  (* connector.go:116 *)
  | ACloseDone =>
      match s_pc s with
      | PCloseDone => Some (if s_completed s then scrash s else
            {| s_pc := PCloseErr; s_queue := s_queue s; s_out := s_out s; s_end := s_end s; s_completed := true; s_errq := s_errq s;
               s_errclosed := s_errclosed s; s_goterr := s_goterr s; s_log := s_log s; s_next := s_next s; s_crashed := false |})
      | _ => None
      end
  (* connector.go:117 *)
  | ACloseErr =>
      match s_pc s with
      | PCloseErr => Some (if s_errclosed s then scrash s else
            {| s_pc := PExit; s_queue := s_queue s; s_out := s_out s; s_end := s_end s; s_completed := s_completed s; s_errq := s_errq s;
               s_errclosed := true; s_goterr := s_goterr s; s_log := s_log s; s_next := s_next s; s_crashed := false |})
      | _ => None
      end
  | AUserErr =>
      match s_errq s with
      | e :: q => Some {| s_pc := s_pc s; s_queue := s_queue s; s_out := s_out s; s_end := s_end s; s_completed := s_completed s; s_errq := q;
                          s_errclosed := s_errclosed s; s_goterr := s_goterr s ++ [e]; s_log := s_log s; s_next := s_next s; s_crashed := false |}
      | [] => None
      end
  end.

(** connector.go:53-153: executions *)
Fixpoint srun (s : sstate) (acts : list saction) : option sstate :=
  match acts with
  | [] => Some s
  | a :: more => match sstep s a with Some s' => srun s' more | None => None end
  end.

(** ** Send (connector.go:134-147): Val (inl e): returns the error e; Val (inr frame): returns nil after
    its critical section ASend frame; Panic.  [t]: None is a nil transport (NewSender does not
    check it; the call c.transport.Encode then panics while the lock is held). *)
Definition send (uni : N -> bool) (t : option transport) (m : message) : res (sderr + bytes) :=
  match message_marshal uni m with
  | Val (inr enc) => match t with Some t => Val (inr (encode t enc)) | None => Panic end
  | Val (inl e) => Val (inl e)
  | Panic => Panic
  | NoFuel => NoFuel
  end.

(** MSenderFine.v -- model of a Sender (connector.go) at the granularity of memory accesses: any number
    of goroutines calling Send, each taking the lock, reading c.queue, storing it and releasing the
    lock in separate steps, and the goroutine of runQueue likewise.  MSender.v has the same code
    with the critical sections as single steps; PropFine.v relates the two.  Definitions only. *)
From Verif Require Import Base MTransport MSender.

(** Who holds the lock (connector.go:81-82, 142, 144) *)
Inductive owner := OUser (i : nat) | OGo.

(** Where a goroutine that calls Send with the encoded frame [f] is (connector.go:142-144): not in
    Send; about to take the lock; lock held, about to read *c.queue; about to store the extended
    queue [q ++ [f]]; about to release the lock. *)
Inductive upc := UIdle | UWant (f : bytes) | UHeld (f : bytes) | URead (f : bytes) (q : list bytes) | UStored.

(** Where the goroutine of runQueue is.  [d]: in the deferred function.  FEntry: about to read c.output
    (connector.go:72); FConnect, FErrConnect, FLock, FErrWrite, FDrain, FClose...: as in MSender.v;
    FLoop: about to read len( *c.queue) at 84; FWrite: in WriteTo, having read the queue; FStore: WriteTo
    about to store what is left of it; FForget: about to set c.output to nil (94, 99); FCap: after the
    loop (104); FUnlock: about to run the deferred Unlock (82). *)
Inductive fpc :=
| FSelect | FEntry (d : bool) | FConnect (d : bool) | FErrConnect (d : bool) (e : nat) | FLock (d : bool) | FLoop (d : bool)
| FWrite (d : bool) (q : list bytes) | FStore (d : bool) (q : list bytes) (k : nat) (r : wres) | FErrWrite (d : bool) (e : nat) | FForget (d : bool)
| FCap (d : bool) | FUnlock (d : bool) | FDrain | FClose | FCloseDone | FCloseErr | FExit.

(** connector.go:28-38, 54-66 *)
Record fstate := {
  f_pc : fpc; f_users : nat -> upc; f_lock : option owner;
  f_queue : list bytes; f_out : option nat; f_end : bool; f_completed : bool; f_errq : list nat; f_errclosed : bool;
  f_goterr : list nat; f_log : list sevent; f_next : nat; f_crashed : bool }.

(** connector.go:53-69 NewSender *)
Definition fine_init : fstate :=
  {| f_pc := FSelect; f_users := fun _ => UIdle; f_lock := None; f_queue := []; f_out := None; f_end := false; f_completed := false; f_errq := [];
     f_errclosed := false; f_goterr := []; f_log := []; f_next := 0; f_crashed := false |}.

(** connector.go:71-153: the steps, cited one by one in fstep *)
Inductive faction :=
| FCall (i : nat) (f : bytes) | FAcquire (i : nat) | FRead (i : nat) | FPut (i : nat) | FRelease (i : nat)
| FTick | FEndCall | FSelectEnd | FTestOut | FConnected (err : option nat) | FPushErrConn | FTake | FTestLen | FNet (k : nat) (r : wres)
| FConsume | FPushErrWrite | FDrop | FRealloc | FGive | FTestDrain | FCloseOut | FCompleted | FCloseErrs | FUserErr.

(** (no code: replaces the state of one caller) *)
Definition upd_user (u : nat -> upc) (i : nat) (x : upc) : nat -> upc := fun j => if (j =? i)%nat then x else u j.

(** (no code: state after a step of a caller of Send, connector.go:142-144) *)
Definition user_to (s : fstate) (i : nat) (x : upc) (lock : option owner) (q : list bytes) : fstate :=
  {| f_pc := f_pc s; f_users := upd_user (f_users s) i x; f_lock := lock; f_queue := q; f_out := f_out s; f_end := f_end s; f_completed := f_completed s;
     f_errq := f_errq s; f_errclosed := f_errclosed s; f_goterr := f_goterr s; f_log := f_log s; f_next := f_next s; f_crashed := f_crashed s |}.
(** (no code: state after a step of the goroutine, connector.go:71-131) *)
Definition go_to (s : fstate) (pc : fpc) (lock : option owner) (q : list bytes) (out : option nat) (log : list sevent) : fstate :=
  {| f_pc := pc; f_users := f_users s; f_lock := lock; f_queue := q; f_out := out; f_end := f_end s; f_completed := f_completed s;
     f_errq := f_errq s; f_errclosed := f_errclosed s; f_goterr := f_goterr s; f_log := log; f_next := f_next s; f_crashed := f_crashed s |}.
(** (no code: the goroutine moves) *)
Definition go_pc (s : fstate) (pc : fpc) : fstate := go_to s pc (f_lock s) (f_queue s) (f_out s) (f_log s).
(** (no code: state after an operation on the channels, connector.go:75, 93, 98, 116, 117, 151) *)
Definition chans_to (s : fstate) (pc : fpc) (fend completed : bool) (errq : list nat) (errclosed : bool) (goterr : list nat) : fstate :=
  {| f_pc := pc; f_users := f_users s; f_lock := f_lock s; f_queue := f_queue s; f_out := f_out s; f_end := fend; f_completed := completed;
     f_errq := errq; f_errclosed := errclosed; f_goterr := goterr; f_log := f_log s; f_next := f_next s; f_crashed := f_crashed s |}.
(** (an unrecovered panic stops the process) *)
Definition fcrash (s : fstate) : fstate :=
  {| f_pc := f_pc s; f_users := f_users s; f_lock := f_lock s; f_queue := f_queue s; f_out := f_out s; f_end := f_end s; f_completed := f_completed s;
     f_errq := f_errq s; f_errclosed := f_errclosed s; f_goterr := f_goterr s; f_log := f_log s; f_next := f_next s; f_crashed := true |}.

(** where flushQueue returns to: connector.go:122-123 or 112-114 *)
Definition back (d : bool) : fpc := if d then FDrain else FSelect.

(** One action; None when it is not possible in this state (connector.go:71-153) *)
Definition fstep (s : fstate) (a : faction) : option fstate :=
  if f_crashed s then None else
  match a with
  (* connector.go:134-141: Send has encoded its message *)
  | FCall i f => match f_users s i with UIdle => Some (user_to s i (UWant f) (f_lock s) (f_queue s)) | _ => None end
  (* connector.go:142 *)
  | FAcquire i => match f_users s i, f_lock s with UWant f, None => Some (user_to s i (UHeld f) (Some (OUser i)) (f_queue s)) | _, _ => None end
  (* connector.go:143: the operand of append *)
  | FRead i => match f_users s i with UHeld f => Some (user_to s i (URead f (f_queue s)) (f_lock s) (f_queue s)) | _ => None end
  (* connector.go:143: the assignment *)
  | FPut i => match f_users s i with URead f q => Some (user_to s i UStored (f_lock s) (q ++ [f])) | _ => None end
  (* connector.go:144 *)
  | FRelease i => match f_users s i with UStored => Some (user_to s i UIdle None (f_queue s)) | _ => None end
  (* connector.go:121-123 *)
  | FTick => match f_pc s with FSelect => Some (go_pc s (FEntry false)) | _ => None end
  (* connector.go:151 *)
  | FEndCall => Some (if f_end s then fcrash s else chans_to s (f_pc s) true (f_completed s) (f_errq s) (f_errclosed s) (f_goterr s))
  (* connector.go:125-128 *)
  | FSelectEnd => match f_pc s with FSelect => if f_end s then Some (go_pc s FDrain) else None | _ => None end
  (* connector.go:72 *)
  | FTestOut => match f_pc s with FEntry d => Some (go_pc s (match f_out s with None => FConnect d | Some _ => FLock d end)) | _ => None end
  (* connector.go:74 *)
  | FConnected err =>
      match f_pc s with
      | FConnect d =>
          match err with
          | Some e => Some (go_pc s (FErrConnect d e))
          | None => Some {| f_pc := FLock d; f_users := f_users s; f_lock := f_lock s; f_queue := f_queue s; f_out := Some (f_next s); f_end := f_end s; f_completed := f_completed s;
                            f_errq := f_errq s; f_errclosed := f_errclosed s; f_goterr := f_goterr s; f_log := f_log s ++ [EOpen (f_next s)]; f_next := S (f_next s); f_crashed := false |}
          end
      | _ => None
      end
  (* connector.go:75-76 *)
  | FPushErrConn =>
      match f_pc s with
      | FErrConnect d e =>
          if f_errclosed s then Some (fcrash s)
          else if (length (f_errq s) <? serr_cap)%nat then Some (chans_to s (back d) (f_end s) (f_completed s) (f_errq s ++ [e]) (f_errclosed s) (f_goterr s)) else None
      | _ => None
      end
  (* connector.go:81 *)
  | FTake => match f_pc s, f_lock s with FLock d, None => Some (go_to s (FLoop d) (Some OGo) (f_queue s) (f_out s) (f_log s)) | _, _ => None end
  (* connector.go:84-85: the test, and WriteTo reading the queue *)
  | FTestLen => match f_pc s with FLoop d => Some (go_pc s (match f_queue s with [] => FCap d | q => FWrite d q end)) | _ => None end
  (* connector.go:85: the network accepts k bytes (net.Buffers.WriteTo, all its writes in one step) *)
  | FNet k r =>
      match f_pc s with
      | FWrite d q =>
          match f_out s with
          | None => Some (fcrash s)
          | Some c =>
              if (k <=? length (concat q))%nat && match r with WOk => (k =? length (concat q))%nat | _ => true end then
                Some (go_to s (FStore d q k r) (f_lock s) (f_queue s) (f_out s) (f_log s ++ [EWrite c (firstn k (concat q))]))
              else None
          end
      | _ => None
      end
  (* connector.go:85-101: WriteTo stores what is left; the cases of the error *)
  | FConsume =>
      match f_pc s with
      | FStore d q k r => Some (go_to s (match r with WOk => FLoop d | WNoBufs => FUnlock d | WErr e => FErrWrite d e end) (f_lock s) (consume k q) (f_out s) (f_log s))
      | _ => None
      end
  (* connector.go:93, 98 *)
  | FPushErrWrite =>
      match f_pc s with
      | FErrWrite d e =>
          if f_errclosed s then Some (fcrash s)
          else if (length (f_errq s) <? serr_cap)%nat then Some (chans_to s (FForget d) (f_end s) (f_completed s) (f_errq s ++ [e]) (f_errclosed s) (f_goterr s)) else None
      | _ => None
      end
  (* connector.go:94-95, 99-100 *)
  | FDrop => match f_pc s with FForget d => Some (go_to s (FUnlock d) (f_lock s) (f_queue s) None (f_log s)) | _ => None end
  (* connector.go:104-106: the queue is empty; a new empty one replaces it or not *)
  | FRealloc => match f_pc s with FCap d => Some (go_to s (FUnlock d) (f_lock s) (match f_queue s with [] => [] | q => q end) (f_out s) (f_log s)) | _ => None end
  (* connector.go:82 *)
  | FGive => match f_pc s with FUnlock d => Some (go_to s (back d) None (f_queue s) (f_out s) (f_log s)) | _ => None end
  (* connector.go:112: read without the lock *)
  | FTestDrain => match f_pc s with FDrain => Some (go_pc s (match f_queue s with [] => FClose | _ => FEntry true end)) | _ => None end
  (* connector.go:115 *)
  | FCloseOut =>
      match f_pc s with
      | FClose => match f_out s with None => Some (fcrash s) | Some c => Some (go_to s FCloseDone (f_lock s) (f_queue s) (f_out s) (f_log s ++ [EClose c])) end
      | _ => None
      end
  (* connector.go:116 *)
  | FCompleted => match f_pc s with FCloseDone => Some (if f_completed s then fcrash s else chans_to s FCloseErr (f_end s) true (f_errq s) (f_errclosed s) (f_goterr s)) | _ => None end
  (* connector.go:117 *)
  | FCloseErrs => match f_pc s with FCloseErr => Some (if f_errclosed s then fcrash s else chans_to s FExit (f_end s) (f_completed s) (f_errq s) true (f_goterr s)) | _ => None end
  | FUserErr =>
      match f_errq s with
      | e :: q => Some (chans_to s (f_pc s) (f_end s) (f_completed s) q (f_errclosed s) (f_goterr s ++ [e]))
      | [] => None
      end
  end.

(** connector.go:53-153: executions *)
Fixpoint frun (s : fstate) (acts : list faction) : option fstate :=
  match acts with
  | [] => Some s
  | a :: more => match fstep s a with Some s' => frun s' more | None => None end
  end.

(** The memory shared by goroutines without a channel: *c.queue and c.output (connector.go:30, 37) *)
Inductive location := LQueue | LOutput.
(** What a goroutine does next on that memory: location and whether it writes (connector.go:72-115, 143) *)
Definition go_access (pc : fpc) : option (location * bool) :=
  match pc with
  | FEntry _ => Some (LOutput, false)       (* connector.go:72 *)
  | FConnect _ => Some (LOutput, true)      (* connector.go:74 *)
  | FLoop _ => Some (LQueue, false)         (* connector.go:84-85 *)
  | FWrite _ _ => Some (LOutput, false)     (* connector.go:85 *)
  | FStore _ _ _ _ => Some (LQueue, true)   (* connector.go:85 *)
  | FForget _ => Some (LOutput, true)       (* connector.go:94, 99 *)
  | FCap _ => Some (LQueue, true)           (* connector.go:104-105 *)
  | FDrain => Some (LQueue, false)          (* connector.go:112 *)
  | FClose => Some (LOutput, false)         (* connector.go:115 *)
  | _ => None
  end.
(** The same for a caller of Send (connector.go:143) *)
Definition user_access (u : upc) : option (location * bool) :=
  match u with
  | UHeld _ => Some (LQueue, false)
  | URead _ _ => Some (LQueue, true)
  | _ => None
  end.

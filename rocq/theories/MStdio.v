(** MStdio.v -- model of several Senders whose Connector is that of the same standard file
    (StdioConnector "stderr:" or "stdout:", connector-fd.go:8-28): every Connect gives the one *os.File of
    the process, and the Close at the end of a Sender (connector.go:115) closes it for all.
    Definitions only. *)
From Verif Require Import Base MSender.

(** The Senders of the process on this file, numbered, each as in MSender.v; is the file closed? has a
    goroutine panicked (which stops the process)? (connector.go:28-38, connector-fd.go:14-22) *)
Record fdstate := { fd_senders : nat -> sstate; fd_closed : bool; fd_crashed : bool }.
(** connector.go:53-69, for each *)
Definition fd_init : fdstate := {| fd_senders := fun _ => sender_init; fd_closed := false; fd_crashed := false |}.

(** What the file can answer (connector.go:74, 85).  Connect never fails (connector-fd.go:14-22).
    The standard library: Write on a closed os.File accepts nothing and returns an error; no error of an
    os.File is a *net.OpError, so ENOBUFS is never recognised (connector.go:89-92). *)
Definition fd_answers (closed : bool) (a : saction) : bool :=
  match a with
  | AConnect err => match err with None => true | Some _ => false end
  | AWrite k r =>
      match r with
      | WOk => negb closed
      | WNoBufs => false
      | WErr _ => negb closed || (k =? 0)%nat
      end
  | _ => true
  end.

(** does the action close the connection? (connector.go:115) *)
Definition closes (a : saction) : bool := match a with ACloseOut => true | _ => false end.

(** An action of the Sender number [i] (connector.go:71-153).  Closing a closed os.File gives an error,
    which is ignored (connector.go:115). *)
Definition fd_step (s : fdstate) (x : nat * saction) : option fdstate :=
  if fd_crashed s then None else
  let (i, a) := x in
  if fd_answers (fd_closed s) a then
    match sstep (fd_senders s i) a with
    | Some s' => Some {| fd_senders := fun j => if (j =? i)%nat then s' else fd_senders s j;
                         fd_closed := fd_closed s || (closes a && negb (s_crashed s'));
                         fd_crashed := s_crashed s' |}
    | None => None
    end
  else None.

(** connector.go:53-153: executions *)
Fixpoint fd_run (s : fdstate) (acts : list (nat * saction)) : option fdstate :=
  match acts with
  | [] => Some s
  | a :: more => match fd_step s a with Some s' => fd_run s' more | None => None end
  end.

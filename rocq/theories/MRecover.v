(** MRecover.v -- model of the calls of Send (connector.go:134-147) whose user code panics: the
    Marshal5424 of a structured data, called before the lock is taken, and the Encode of the Transport,
    called while it is held.  The caller of Send may recover the panic and go on (as net/http does for
    its handlers), so the process does not stop.  Definitions only. *)
From Verif Require Import Base MSData MMessage MSender.

(** What a call of Send meets: Marshal5424 returns an error (connector.go:138-140) or panics (137); it
    returns and Encode panics (143); both return, Encode giving the frame [f] *)
Inductive scall := CMarshalError (e : sderr) | CMarshalPanics | CEncodePanics | CEncoded (f : bytes).
(** What the caller sees: the nil error, an error, or a panic (connector.go:134-147) *)
Inductive sreturn := SentOk | SentError (e : sderr) | SentPanic.

(** connector.go:137-143, for a message and any Transport.  [t]: None is a nil Transport, on which the
    call of Encode panics; its Encode gives None when it panics.  (Marshal5424 always ends:
    C112_call_of_message; the last case is never met.) *)
Definition send_call (uni : N -> bool) (t : option (bytes -> option bytes)) (m : message) : scall :=
  match message_marshal uni m with
  | Val (inl e) => CMarshalError e
  | Val (inr enc) =>
      match t with
      | None => CEncodePanics
      | Some encode => match encode enc with Some f => CEncoded f | None => CEncodePanics end
      end
  | Panic => CMarshalPanics
  | NoFuel => CMarshalPanics
  end.

(** The Sender (MSender.v), the lock left held by a call of Send that panicked, and what the calls that
    ended gave (connector.go:28-38, 134-147) *)
Record pstate := { p_s : sstate; p_stuck : bool; p_returned : list sreturn }.
(** connector.go:53-69 *)
Definition recover_init : pstate := {| p_s := sender_init; p_stuck := false; p_returned := [] |}.

(** a call of Send that ends, or another action of MSender.v (connector.go:71-153) *)
Inductive paction := PCall (c : scall) | PAct (a : saction).

(** connector.go:71-153; None: not possible in this state (a call that finds the lock held waits) *)
Definition pstep (s : pstate) (a : paction) : option pstate :=
  if s_crashed (p_s s) then None else
  match a with
  (* connector.go:137-140 *)
  | PCall (CMarshalError e) => Some {| p_s := p_s s; p_stuck := p_stuck s; p_returned := p_returned s ++ [SentError e] |}
  (* connector.go:137 *)
  | PCall CMarshalPanics => Some {| p_s := p_s s; p_stuck := p_stuck s; p_returned := p_returned s ++ [SentPanic] |}
  (* connector.go:142-143: Unlock (144) is not deferred *)
  | PCall CEncodePanics =>
      if p_stuck s || locked (p_s s) then None
      else Some {| p_s := p_s s; p_stuck := true; p_returned := p_returned s ++ [SentPanic] |}
  (* connector.go:142-146 *)
  | PCall (CEncoded f) =>
      if p_stuck s then None
      else match sstep (p_s s) (ASend f) with
           | Some s' => Some {| p_s := s'; p_stuck := false; p_returned := p_returned s ++ [SentOk] |}
           | None => None
           end
  (* the calls of Send are PCall *)
  | PAct (ASend _) => None
  (* connector.go:81 *)
  | PAct ALock =>
      if p_stuck s then None
      else match sstep (p_s s) ALock with Some s' => Some {| p_s := s'; p_stuck := false; p_returned := p_returned s |} | None => None end
  (* connector.go:71-153, the rest does not look at the lock *)
  | PAct a =>
      match sstep (p_s s) a with Some s' => Some {| p_s := s'; p_stuck := p_stuck s; p_returned := p_returned s |} | None => None end
  end.

(** connector.go:53-153: executions *)
Fixpoint prun (s : pstate) (acts : list paction) : option pstate :=
  match acts with
  | [] => Some s
  | a :: more => match pstep s a with Some s' => prun s' more | None => None end
  end.

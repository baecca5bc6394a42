(** MTimed.v -- model of a Sender with the clock and its ticker (dialer.go:40-47, connector.go:119-129):
    MSender.v where time passes between the actions.  Times in nanoseconds.  Definitions only. *)
From Verif Require Import Base MSender.

(** the Sender, the time since NewSender was called with the new ticker, the time of the next tick, and
    whether a tick waits in the ticker's channel, whose capacity is 1 (dialer.go:46, connector.go:121) *)
Record tstate := { ts_s : sstate; ts_now : Z; ts_next : Z; ts_tick : bool }.

(** [period]: that of the ticker; None: a channel on which nothing is ever sent (dialer.go:40-47).
    time.Tick: the first tick comes after one period. *)
Definition timed_init (period : option Z) : tstate :=
  {| ts_s := sender_init; ts_now := 0; ts_next := match period with Some d => d | None => 0 end; ts_tick := false |}.

(** time passes; the runtime's timer fires; an action of MSender.v.  A Connect or a write takes the
    time between the previous action of the goroutine and its own (connector.go:74, 85). *)
Inductive taction := TWait (dt : Z) | TFire | TAct (a : saction).

(** One action (dialer.go:40-47, connector.go:71-153; the standard library: a ticker fires at each multiple
    of its period; a tick is dropped when the previous one still waits in the channel).
    Simplified: timers are exact (a late timer is a late goroutine). *)
Definition tstep (period : option Z) (s : tstate) (x : taction) : option tstate :=
  match x with
  | TWait dt =>
      if (0 <? dt)%Z && negb (s_crashed (ts_s s)) && match period with Some _ => (ts_now s + dt <=? ts_next s)%Z | None => true end then
        Some {| ts_s := ts_s s; ts_now := ts_now s + dt; ts_next := ts_next s; ts_tick := ts_tick s |}
      else None
  | TFire =>
      match period with
      | Some d => if (ts_now s =? ts_next s)%Z then Some {| ts_s := ts_s s; ts_now := ts_now s; ts_next := ts_next s + d; ts_tick := true |} else None
      | None => None
      end
  | TAct a =>
      if match a with ATick => ts_tick s | _ => true end then
        match sstep (ts_s s) a with
        | Some y => Some {| ts_s := y; ts_now := ts_now s; ts_next := ts_next s; ts_tick := match a with ATick => false | _ => ts_tick s end |}
        | None => None
        end
      else None
  end.

(** connector.go:53-153: executions *)
Fixpoint trun (period : option Z) (s : tstate) (acts : list taction) : option tstate :=
  match acts with
  | [] => Some s
  | x :: more => match tstep period s x with Some s' => trun period s' more | None => None end
  end.

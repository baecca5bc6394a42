(** MChanRace.v -- model of concurrent calls of Syslog.Channel (syslog.go:62-82) on one Syslog, as a
    transition system.  Each read or write of the field syslog.channels and of an element is one
    atomic step, in any order the scheduler likes (sequential consistency: the Go memory model allows
    more to a program with data races; this model gives the program the best of cases).
    Definitions only. *)
From Verif Require Import Base MPriority MMessage MSyslog.

(** Where a call is.  CCheck: about to test channels == nil (63); CAssign: about to assign the new
    slice (64-67); CFill k: at the head of the loop with sev = k (69); CStore k a: has read the field,
    array a, about to store element k (70); CLoad: about to read the field (81); CGet a: about to read
    the element of array a (81); CDone c: returned c. (syslog.go:62-82) *)
Inductive cpc := CCheck | CAssign | CFill (k : nat) | CStore (k a : nat) | CLoad | CGet (a : nat) | CDone (c : channel).

(** The arrays allocated, numbered; the field; the calls: the severity asked and where it is (syslog.go:19, 64) *)
Record cstate := { c_arrays : list (list channel); c_field : option nat; c_calls : list (nat * cpc) }.

(** What a step does (syslog.go:63-81) *)
Inductive cevent := EvInstall (a : nat) | EvStored (a k : nat) | EvLoaded (i a : nat) | EvReturned (i a : nat) (c : channel).

(** syslog.go:70: assignment to an element of a slice *)
Fixpoint upd {A} (l : list A) (i : nat) (x : A) : list A :=
  match l, i with [], _ => [] | _ :: l', O => x :: l' | y :: l', S i' => y :: upd l' i' x end.

(** One step of call i.  [mk k]: the channel made for severity k; None: the call has returned, or an
    index is out of range (which does not happen). (syslog.go:62-82) *)
Definition cstep (mk : nat -> channel) (minsev : nat) (s : cstate) (i : nat) : option (cstate * list cevent) :=
  match nth_error (c_calls s) i with
  | None => None
  | Some (sev, pc) =>
      let go (pc' : cpc) := {| c_arrays := c_arrays s; c_field := c_field s; c_calls := upd (c_calls s) i (sev, pc') |} in
      match pc with
      | CCheck => Some (go (match c_field s with None => CAssign | Some _ => CLoad end), [])
      | CAssign => Some ({| c_arrays := c_arrays s ++ [null_channels]; c_field := Some (length (c_arrays s)); c_calls := upd (c_calls s) i (sev, CFill 0) |},
                         [EvInstall (length (c_arrays s))])
      | CFill k =>
          if (k <=? minsev)%nat
          then match c_field s with Some a => Some (go (CStore k a), []) | None => None end
          else Some (go CLoad, [])
      | CStore k a =>
          match nth_error (c_arrays s) a with
          | Some l => match store l k (mk k) with
                      | Some l' => Some ({| c_arrays := upd (c_arrays s) a l'; c_field := c_field s; c_calls := upd (c_calls s) i (sev, CFill (S k)) |}, [EvStored a k])
                      | None => None end
          | None => None
          end
      | CLoad => match c_field s with Some a => Some (go (CGet a), [EvLoaded i a]) | None => None end
      | CGet a =>
          match nth_error (c_arrays s) a with
          | Some l => match nth_error l sev with Some c => Some (go (CDone c), [EvReturned i a c]) | None => None end
          | None => None
          end
      | CDone _ => None
      end
  end.

(** A schedule: which call makes each step (syslog.go:62-82) *)
Fixpoint crun (mk : nat -> channel) (minsev : nat) (s : cstate) (sched : list nat) : option (cstate * list cevent) :=
  match sched with
  | [] => Some (s, [])
  | i :: more =>
      match cstep mk minsev s i with
      | Some (s', e) => match crun mk minsev s' more with Some (s'', es) => Some (s'', e ++ es) | None => None end
      | None => None
      end
  end.

(** A fresh Syslog and calls for these severities (of syslog.go:81, 0..7), none started *)
Definition calls_init (sevs : list nat) : cstate := {| c_arrays := []; c_field := None; c_calls := map (fun s => (s, CCheck)) sevs |}.

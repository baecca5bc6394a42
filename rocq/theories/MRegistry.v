(** MRegistry.v -- model of the global registry of package sdata (sdata/list.go:11-76) under its lock,
    used by any number of goroutines.  Definitions only. *)
From Verif Require Import Base MSData.
From Coq Require Import Permutation.

(** A call of the package: Parse (list.go:49), Register (list.go:54), RegisterGroup (list.go:66) *)
Inductive rcall := CallParse (data spare : bytes) | CallRegister (s : sdid) | CallGroup (l : list sdid).
(** What it returns; [RPanics]: a decoder panics, and so does Parse, with the lock released (the
    deferred Unlock, list.go:37) *)
Inductive rresult := RParsed (o : option sdval) | RPanics | RRegistered (s : sdid) | RGroupDone.

(** Where a goroutine is: not calling, at Lock (list.go:36, 55, 67), in the critical section with
    identifiers left to treat (decoders left to try, or identifiers left to add), or at the Lock of
    a call made by a method of one of these identifiers, inside the critical section *)
Inductive rthread := TIdle | TWait (c : rcall) | TIn (c : rcall) (todo : list sdid) | TStuck (c inner : rcall).

(** list.go:11-21 *)
Record gstate := {
  g_reg : registry;
  g_lock : option nat;
  g_threads : nat -> rthread;
  g_done : list (nat * rcall * rresult) }.   (** calls that returned, in order *)

(** list.go:18-21 *)
Definition registry_init : gstate := {| g_reg := []; g_lock := None; g_threads := fun _ => TIdle; g_done := [] |}.

(** (no code: changes one goroutine) *)
Definition upd (f : nat -> rthread) (i : nat) (x : rthread) : nat -> rthread := fun j => if Nat.eqb j i then x else f j.

(** (no code: the state after a step of list.go:35-76) *)
Definition move (s : gstate) (reg : registry) (lock : option nat) (i : nat) (x : rthread) : gstate :=
  {| g_reg := reg; g_lock := lock; g_threads := upd (g_threads s) i x; g_done := g_done s |}.
(** the deferred Unlock and the return (list.go:37, 56, 68) *)
Definition finish (s : gstate) (reg : registry) (i : nat) (c : rcall) (r : rresult) : gstate :=
  {| g_reg := reg; g_lock := None; g_threads := upd (g_threads s) i TIdle; g_done := g_done s ++ [(i, c, r)] |}.

(** list.go:58-61, 71-74 *)
Definition add_one (r : registry) (x : sdid) : registry :=
  match reg_lookup r (sdid_string x) with Some _ => r | None => (sdid_string x, x) :: r end.

(** What the critical section of a call starts with: Parse ranges over the map (list.go:39), in any
    order *)
Definition starts (reg : registry) (c : rcall) (todo : list sdid) : Prop :=
  match c with
  | CallParse _ _ => Permutation todo (map snd reg)
  | CallRegister x => todo = [x]
  | CallGroup l => todo = l
  end.

(** list.go:35-76: the steps, cited one by one in gstep *)
Inductive gact := GCall (i : nat) (c : rcall) | GLock (i : nat) | GStep (i : nat) | GReenter (i : nat) (inner : rcall).

(** list.go:35-76 *)
Inductive gstep (s : gstate) : gact -> gstate -> Prop :=
| StCall i c : g_threads s i = TIdle -> gstep s (GCall i c) (move s (g_reg s) (g_lock s) i (TWait c))
| StLock i c todo : g_threads s i = TWait c -> g_lock s = None -> starts (g_reg s) c todo ->
    gstep s (GLock i) (move s (g_reg s) (Some i) i (TIn c todo))
(* list.go:39-43 *)
| StFound i d sp x todo sd : g_threads s i = TIn (CallParse d sp) (x :: todo) -> sdid_found x d sp = Val (Some sd) ->
    gstep s (GStep i) (finish s (g_reg s) i (CallParse d sp) (RParsed (Some sd)))
| StNotFound i d sp x todo : g_threads s i = TIn (CallParse d sp) (x :: todo) -> sdid_found x d sp = Val None ->
    gstep s (GStep i) (move s (g_reg s) (g_lock s) i (TIn (CallParse d sp) todo))
| StDecoderPanics i d sp x todo : g_threads s i = TIn (CallParse d sp) (x :: todo) -> sdid_found x d sp = Panic ->
    gstep s (GStep i) (finish s (g_reg s) i (CallParse d sp) RPanics)
(* list.go:45 *)
| StUnknown i d sp r : g_threads s i = TIn (CallParse d sp) [] ->
    match unknown_found d with Val o => r = RParsed o | _ => r = RPanics end ->
    gstep s (GStep i) (finish s (g_reg s) i (CallParse d sp) r)
(* list.go:58-62 *)
| StRegister i x todo : g_threads s i = TIn (CallRegister x) (x :: todo) ->
    gstep s (GStep i) (finish s (add_one (g_reg s) x) i (CallRegister x) (RRegistered x))
(* list.go:70-75 *)
| StGroupOne i l x todo : g_threads s i = TIn (CallGroup l) (x :: todo) ->
    gstep s (GStep i) (move s (add_one (g_reg s) x) (g_lock s) i (TIn (CallGroup l) todo))
| StGroupEnd i l : g_threads s i = TIn (CallGroup l) [] ->
    gstep s (GStep i) (finish s (g_reg s) i (CallGroup l) RGroupDone)
(* Found or String of an identifier from outside the package calls the package; the lock is not
   reentrant (sync.Mutex) *)
| StReenter i c name f todo inner : g_threads s i = TIn c (IdForeign name f :: todo) ->
    gstep s (GReenter i inner) (move s (g_reg s) (g_lock s) i (TStuck c inner)).

(** list.go:35-76: executions *)
Inductive gruns : gstate -> list gact -> gstate -> Prop :=
| RunNil s : gruns s [] s
| RunCons s a s1 acts s2 : gstep s a s1 -> gruns s1 acts s2 -> gruns s (a :: acts) s2.

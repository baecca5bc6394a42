(** MConnectOther.v -- the local connector of the build for the systems that are none of darwin,
    linux, the BSDs and illumos: connector-local_other.go in place of connector-local_unix.go.
    Everything else of MConnect.v is shared by the two builds.  Definitions only. *)
From Verif Require Import Base MTransport MConnect.

(** connector-local_other.go:10-12 osGuessConnnector *)
Definition os_guess_other {W} (dial : udial W) (c : bytes * bytes) (w : W) : (bytes * bytes) * (gerr + nat) * W * list attempt :=
  (c, inl ErrNoConnection, w, []).

(** connector-local.go:24-30 Connect, calling it; [c]: network, address *)
Definition local_connect_other {W} (dial : udial W) (c : bytes * bytes) (w : W) : (bytes * bytes) * (gerr + wconn) * W * list attempt :=
  match fst c, snd c with
  | _ :: _, _ :: _ =>
      let '(r, w') := dial w (fst c) (snd c) in
      (c, local_write_closer c (match r with inl e => inl (ErrSystem e) | inr k => inr k end), w', [(fst c, snd c, r)])
  | _, _ =>
      let '(c', r, w', tr) := os_guess_other dial c w in
      (c', local_write_closer c' r, w', tr)
  end.

(** one Connect in that build (connector.go:14-16, and connector-fd.go, connector-tcp.go and
    connector-invalid.go, which are the same in both builds) *)
Definition connect_other {W} (env : network_env W) (k : connector) (w : W) : connector * res (gerr + wconn) * W :=
  match k with
  | KLocal n a => let '(c', r, w', _) := local_connect_other (env_dial_unix env) (n, a) w in (KLocal (fst c') (snd c'), Val r, w')
  | _ => connect env k w
  end.

(** successive Connects of one connector: the results, oldest first, with the dials of each (connector-local.go:24-30) *)
Fixpoint local_connects_other {W} (dial : udial W) (n : nat) (c : bytes * bytes) (w : W) : list ((gerr + wconn) * list attempt) :=
  match n with
  | O => []
  | S n' => let '(c', r, w', tr) := local_connect_other dial c w in (r, tr) :: local_connects_other dial n' c' w'
  end.

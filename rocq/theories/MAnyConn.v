(** MAnyConn.v -- a Sender with any implementation of Connector and of the WriteCloser it returns
    (connector.go:13-25), for instance written by the user.  MSender.v has the same code with a Connector
    and a WriteCloser that abide by their contracts; PropAnyConn.v proves that it is an instance.
    Simplification: a method of the user that panics is not modelled (the panic stops the process).
    Definitions only. *)
From Verif Require Import Base MSender.

(** connector.go:87-101: the kinds of error of a Write *)
Inductive uerr := UNoBufs | UErr (e : nat).

(** net.Buffers.WriteTo (Go standard library, net/net.go) on a Writer from outside package net: one Write
    per buffer.  [rs]: what the successive Writes return, a count and an error.  Result: the buffers given
    to Write with the counts returned, the sum of the counts and the error; None when [rs] is too short
    (connector.go:85). *)
Fixpoint uwrites (q : list bytes) (rs : list (Z * option uerr)) : option (list (bytes * Z) * Z * option uerr) :=
  match q with
  | [] => Some ([], 0%Z, None)
  | b :: q' =>
      match rs with
      | [] => None
      | (k, Some e) :: _ => Some ([(b, k)], k, Some e)
      | (k, None) :: more => match uwrites q' more with Some (w, n, e) => Some ((b, k) :: w, (k + n)%Z, e) | None => None end
      end
  end.

(** (no code) what the Writer says it took of each buffer *)
Definition taken (w : list (bytes * Z)) : bytes := concat (map (fun p => firstn (Z.to_nat (snd p)) (fst p)) w).

(** The actions: those of MSender.v, where Connect returns a connection or not and an error or not, and
    the Writes return any counts (connector.go:71-153) *)
Inductive uaction :=
| UBase (a : saction)                        (** any action of MSender.v but AConnect and AWrite *)
| UConnect (conn : bool) (err : option nat)
| UWrite (rs : list (Z * option uerr)).

(** One action (connector.go:71-153) *)
Definition ustep (s : sstate) (a : uaction) : option sstate :=
  match a with
  | UBase (AConnect _) | UBase (AWrite _ _) => None
  | UBase a => sstep s a
  (* connector.go:74-77: c.output is what Connect returned, whatever the error *)
  | UConnect conn err =>
      if s_crashed s then None else
      match s_pc s with
      | PConnect d =>
          Some {| s_pc := match err with Some e => PErrConnect d e | None => PLock d end; s_queue := s_queue s;
                  s_out := if conn then Some (s_next s) else None; s_end := s_end s; s_completed := s_completed s; s_errq := s_errq s;
                  s_errclosed := s_errclosed s; s_goterr := s_goterr s;
                  s_log := if conn then s_log s ++ [EOpen (s_next s)] else s_log s;
                  s_next := if conn then S (s_next s) else s_next s; s_crashed := false |}
      | _ => None
      end
  (* connector.go:84-101; a Write on a nil interface panics, and so does net.Buffers.consume below zero *)
  | UWrite rs =>
      if s_crashed s then None else
      match s_pc s with
      | PWrite d =>
          match s_queue s with
          | [] => None
          | _ =>
              match s_out s with
              | None => Some (scrash s)
              | Some c =>
                  match uwrites (s_queue s) rs with
                  | None => None
                  | Some (w, n, e) =>
                      if (n <? 0)%Z then Some (scrash s) else
                      Some {| s_pc := match e with None => PWrite d | Some UNoBufs => flush_return d | Some (UErr e) => PErrWrite d e end;
                              s_queue := consume (Z.to_nat n) (s_queue s); s_out := s_out s; s_end := s_end s; s_completed := s_completed s; s_errq := s_errq s;
                              s_errclosed := s_errclosed s; s_goterr := s_goterr s; s_log := s_log s ++ [EWrite c (taken w)]; s_next := s_next s; s_crashed := false |}
                  end
              end
          end
      | _ => None
      end
  end.

(** connector.go:53-153: executions *)
Fixpoint urun (s : sstate) (acts : list uaction) : option sstate :=
  match acts with
  | [] => Some s
  | a :: more => match ustep s a with Some s' => urun s' more | None => None end
  end.

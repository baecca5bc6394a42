(** MConnect.v -- model of the code that opens connections and listeners: dialer.go,
    connector-fd.go, connector-invalid.go, connector-local.go, connector-local_unix.go (the build
    for darwin, linux and the BSDs), connector-tcp.go, listener-guess.go and the constructors of
    listener-tcp.go, listener-unix.go, listener-unixdgram.go.
    The operating system is an environment: [W] is its state, and each system call is a function
    of the state at the moment it is made, so its answers may change from one call to the next.
    Definitions only. *)
From Verif Require Import Base MTransport.

(** errors.go:18-29, the errors of net.SplitHostPort and strconv.Atoi, and the errors of the
    operating system, numbered *)
Inductive gerr := ErrNoConnection | ErrInvalidNetwork | ErrInvalidAddress | ErrEmptyNetworkAddress
  | ErrUnknownNetwork | ErrHostPort (why : bytes) | ErrAtoi | ErrSystem (e : nat).

(** What a Connector gives: the standard files, or a connection, numbered by the environment (connector.go:21-25) *)
Inductive wconn := WStderr | WStdout | WUnix (c : nat) | WUnixgram (c : nat) | WTcp (c : nat).

(** The Connectors (connector-fd.go:8-28, connector-local.go:8-21, connector-tcp.go:11-32, connector-invalid.go:5-13) *)
Inductive connector := KInvalid (e : gerr) | KStderr | KStdout | KLocal (network address : bytes) | KTcp (network address : bytes).

(** ** connector-fd.go *)

(** connector-fd.go:8-28 StdioConnector *)
Definition stdio_connector (addr : bytes) : connector :=
  match addr with
  | [] => KInvalid ErrEmptyNetworkAddress
  | _ => if bytes_eqb addr (bs "stderr:") then KStderr
         else if bytes_eqb addr (bs "stdout:") then KStdout
         else KInvalid ErrInvalidAddress
  end.

(** ** connector-tcp.go *)

(** connector-tcp.go:21-32 TCPConnector *)
Definition tcp_connector (network address : bytes) : connector :=
  if bytes_eqb network [] || bytes_eqb address [] then KInvalid ErrEmptyNetworkAddress
  else if negb (bytes_eqb network (bs "tcp")) && negb (bytes_eqb network (bs "tcp4")) && negb (bytes_eqb network (bs "tcp6")) then KInvalid ErrInvalidNetwork
  else KTcp network address.

Notation COLON := 58%N (only parsing).

(** last index of a byte (called by net.SplitHostPort, connector-tcp.go:36) *)
Fixpoint last_index (c : N) (l : bytes) : option nat :=
  match l with
  | [] => None
  | x :: l' => match last_index c l' with Some i => Some (S i) | None => if N.eqb x c then Some 0%nat else None end
  end.

(** Go standard library, net.SplitHostPort: the host and the port (connector-tcp.go:36) *)
Definition split_host_port (hostport : bytes) : gerr + (bytes * bytes) :=
  match last_index COLON hostport with
  | None => inl (ErrHostPort (bs "missing port in address"))
  | Some i =>
      let finish (host : bytes) (j k : nat) :=
        match index_byte LBR (skipn j hostport) with
        | Some _ => inl (ErrHostPort (bs "unexpected '[' in address"))
        | None =>
            match index_byte RBR (skipn k hostport) with
            | Some _ => inl (ErrHostPort (bs "unexpected ']' in address"))
            | None => inr (host, skipn (S i) hostport)
            end
        end in
      if N.eqb (hd 0%N hostport) LBR then
        match index_byte RBR hostport with
        | None => inl (ErrHostPort (bs "missing ']' in address"))
        | Some e =>
            if (S e =? length hostport)%nat then inl (ErrHostPort (bs "missing port in address"))
            else if (S e =? i)%nat then finish (skipn 1 (firstn e hostport)) 1%nat (S e)
            else if N.eqb (nth (S e) hostport 0%N) COLON then inl (ErrHostPort (bs "too many colons in address"))
            else inl (ErrHostPort (bs "missing port in address"))
        end
      else
        let host := firstn i hostport in
        match index_byte COLON host with
        | Some _ => inl (ErrHostPort (bs "too many colons in address"))
        | None => finish host 0%nat 0%nat
        end
  end.

(** net.IPAddr; ip_v4: IP.To4() != nil (connector-tcp.go:49-71) *)
Record ipaddr := { ip_bytes : bytes; ip_zone : bytes; ip_v4 : bool }.

(** connector-tcp.go:56-71 *)
Definition filter_ips (network : bytes) (rawips : list ipaddr) : list ipaddr :=
  if bytes_eqb network (bs "tcp4") then filter ip_v4 rawips
  else if bytes_eqb network (bs "tcp6") then filter (fun ip => negb (ip_v4 ip)) rawips
  else rawips.

(** connector-tcp.go:74-80: the loop.  [err], [conn]: the variables err and contcp.  Result: they
    after the loop, the state, and the addresses dialled with the answers. *)
Fixpoint dial_ips {W} (dial : W -> bytes -> ipaddr -> Z -> (nat + nat) * W) (network : bytes) (port : Z) (ips : list ipaddr) (w : W)
    (err : option nat) (conn : option nat) : option nat * option nat * W * list (ipaddr * (nat + nat)) :=
  match ips with
  | [] => (err, conn, w, [])
  | ip :: more =>
      let '(r, w') := dial w network ip port in
      match r with
      | inr c => (None, Some c, w', [(ip, r)])
      | inl e => let '(err', conn', w'', tr) := dial_ips dial network port more w' (Some e) None in (err', conn', w'', (ip, r) :: tr)
      end
  end.

(** connector-tcp.go:34-93 Connect.  [lookup]: LookupIPAddr with its 5 seconds timeout.  A call of a
    method on the nil *net.TCPConn panics (Go specification, selectors: the promoted method ok of the
    embedded conn dereferences the pointer), so lines 85-89 panic when nothing was dialled.
    Result: None is that panic. *)
Definition tcp_connect {W} (lookup : W -> bytes -> (nat + list ipaddr) * W) (dial : W -> bytes -> ipaddr -> Z -> (nat + nat) * W)
    (network address : bytes) (w : W) : res (gerr + wconn) * W * list (ipaddr * Z * (nat + nat)) :=
  match split_host_port address with
  | inl e => (Val (inl e), w, [])
  | inr (addr, portStr) =>
      let port := match portStr with [] => Some 514%Z | _ => atoi portStr end in
      match port with
      | None => (Val (inl ErrAtoi), w, [])
      | Some port =>
          let '(l, w1) := lookup w addr in
          match l with
          | inl e => (Val (inl (ErrSystem e)), w1, [])
          | inr rawips =>
              let '(err, contcp, w2, tr) := dial_ips dial network port (filter_ips network rawips) w1 None None in
              let tr' := map (fun x => (fst x, port, snd x)) tr in
              match err with
              | Some e => (Val (inl (ErrSystem e)), w2, tr')
              | None => (match contcp with Some c => Val (inr (WTcp c)) | None => Panic end, w2, tr')
              end
          end
      end
  end.

(** ** connector-local.go, connector-local_unix.go *)

(** connector-local_unix.go:11-12 *)
Definition log_types : list bytes := [bs "unix"; bs "unixgram"].
(** connector-local_unix.go:12 *)
Definition log_paths : list bytes := [bs "/var/run/syslog"; bs "/var/run/log"; bs "/dev/log"].

Notation udial W := (W -> bytes -> bytes -> (nat + nat) * W) (only parsing).
(** a DialUnix: the network, the address and the answer *)
Notation attempt := (bytes * bytes * (nat + nat))%type (only parsing).

(** the loops over one list of addresses, for a network: connector-local_unix.go:30-41 (inner loop).
    net.ResolveUnixAddr only fails for networks other than unix, unixgram and unixpacket, so the
    [continue] of lines 17-19 and 33-35 is never taken. *)
Fixpoint dial_paths {W} (dial : udial W) (network : bytes) (paths : list bytes) (w : W) : option (bytes * nat) * W * list attempt :=
  match paths with
  | [] => (None, w, [])
  | p :: more =>
      let '(r, w') := dial w network p in
      match r with
      | inr c => (Some (p, c), w', [(network, p, r)])
      | inl _ => let '(o, w'', tr) := dial_paths dial network more w' in (o, w'', (network, p, r) :: tr)
      end
  end.

(** the outer loops: connector-local_unix.go:15-25, 29-42 *)
Fixpoint dial_types {W} (dial : udial W) (networks paths : list bytes) (w : W) : option (bytes * bytes * nat) * W * list attempt :=
  match networks with
  | [] => (None, w, [])
  | n :: more =>
      let '(o, w', tr) := dial_paths dial n paths w in
      match o with
      | Some (p, c) => (Some (n, p, c), w', tr)
      | None => let '(o', w'', tr') := dial_types dial more paths w' in (o', w'', tr ++ tr')
      end
  end.

(** connector-local_unix.go:10-44 osGuessConnnector: the connector's fields after it, and the result *)
Definition os_guess {W} (dial : udial W) (c : bytes * bytes) (w : W) : (bytes * bytes) * (gerr + nat) * W * list attempt :=
  match snd c with
  | [] =>
      let '(o, w', tr) := dial_types dial log_types log_paths w in
      match o with
      | Some (n, p, k) => ((n, p), inr k, w', tr)
      | None => (c, inl ErrNoConnection, w', tr)
      end
  | address =>
      let '(o, w', tr) := dial_types dial log_types [address] w in
      match o with
      | Some (n, _, k) => ((n, address), inr k, w', tr)
      | None => (c, inl ErrNoConnection, w', tr)
      end
  end.

(** connector-local.go:32-46 localWriteCloser *)
Definition local_write_closer (c : bytes * bytes) (r : gerr + nat) : gerr + wconn :=
  match r with
  | inl e => inl e
  | inr k => inr (if bytes_eqb (fst c) (bs "unixgram") then WUnixgram k else WUnix k)
  end.

(** connector-local.go:24-30 Connect; [c]: network, address *)
Definition local_connect {W} (dial : udial W) (c : bytes * bytes) (w : W) : (bytes * bytes) * (gerr + wconn) * W * list attempt :=
  match fst c, snd c with
  | _ :: _, _ :: _ =>
      let '(r, w') := dial w (fst c) (snd c) in
      (c, local_write_closer c (match r with inl e => inl (ErrSystem e) | inr k => inr k end), w', [(fst c, snd c, r)])
  | _, _ =>
      let '(c', r, w', tr) := os_guess dial c w in
      (c', local_write_closer c' r, w', tr)
  end.

(** successive Connects of one connector: the results, oldest first, with the dials of each (connector-local.go:24-30) *)
Fixpoint local_connects {W} (dial : udial W) (n : nat) (c : bytes * bytes) (w : W) : list ((gerr + wconn) * list attempt) :=
  match n with
  | O => []
  | S n' => let '(c', r, w', tr) := local_connect dial c w in (r, tr) :: local_connects dial n' c' w'
  end.

(** ** dialer.go *)

(** dialer.go:32-80 Dialer.Dial: the error, or what it gives to NewSender: the connector, the
    transport and the period of the ticker (None: a channel on which nothing is ever sent).
    [t]: None is a nil Transport.  [flush]: FlushDelay in nanoseconds. *)
Definition dialer_dial (flush : Z) (network address : bytes) (t : option transport) : gerr + (connector * transport * option Z) :=
  let ticker := if (flush <=? 1000000)%Z then None else Some flush in
  let default (d : transport) := match t with Some t => t | None => d end in
  if bytes_eqb network (bs "stdio") then inr (stdio_connector address, default TLFEnded, ticker)
  else if bytes_eqb network (bs "local") then inr (KLocal [] address, default TZeroEnded, ticker)
  else if bytes_eqb network (bs "unix") || bytes_eqb network (bs "unixgram") then inr (KLocal network address, default TZeroEnded, ticker)
  else if bytes_eqb network (bs "tcp") || bytes_eqb network (bs "tcp6") || bytes_eqb network (bs "tcp4") then inr (tcp_connector network address, default TLFEnded, ticker)
  else inl ErrUnknownNetwork.

(** dialer.go:20-24 Dial *)
Definition dial (network address : bytes) : gerr + (connector * transport * option Z) := dialer_dial 500000000 network address None.

(** ** the operating system and Connect of any connector *)

(** the three system calls a Connect makes (connector-local.go:26, connector-local_unix.go:20, 35, connector-tcp.go:49, 76) *)
Record network_env (W : Type) := {
  env_dial_unix : W -> bytes -> bytes -> (nat + nat) * W;
  env_lookup : W -> bytes -> (nat + list ipaddr) * W;
  env_dial_tcp : W -> bytes -> ipaddr -> Z -> (nat + nat) * W }.
Arguments env_dial_unix {W}. Arguments env_lookup {W}. Arguments env_dial_tcp {W}.

(** one Connect: the connector after it (only a localConn changes), the result, the state (the Connect methods, file by file below: connector.go:14-16, 48-50) *)
Definition connect {W} (env : network_env W) (k : connector) (w : W) : connector * res (gerr + wconn) * W :=
  match k with
  (* connector-invalid.go:11-13 *)
  | KInvalid e => (k, Val (inl e), w)
  (* connector-fd.go:14-22, connector.go ConnectorFunc *)
  | KStderr => (k, Val (inr WStderr), w)
  | KStdout => (k, Val (inr WStdout), w)
  | KLocal n a => let '(c', r, w', _) := local_connect (env_dial_unix env) (n, a) w in (KLocal (fst c') (snd c'), Val r, w')
  | KTcp n a => let '(r, w', _) := tcp_connect (env_lookup env) (env_dial_tcp env) n a w in (k, r, w')
  end.

(** ** listeners *)

(** what a net.ListenUnix or net.ListenUnixgram answers: the listener; an *net.OpError whose cause
    reads "bind: address already in use"; any other error (listener-unix.go:25, 43, listener-unixdgram.go:36, 53) *)
Inductive lanswer := LListening (l : nat) | LInUse (e : nat) | LOther (e : nat).
(** the system calls made, with their answers (listener-unix.go:25-43, listener-unixdgram.go:36-53) *)
Inductive lcall := CListen (a : lanswer) | CStat (ok : bool) | CRemove.

(** listener-unix.go:16-47 UnixListener, listener-unixdgram.go:25-61 UnixgramListener: the loop.
    [fuel]: a bound on the number of calls of ListenUnix; the result None means that it is not
    finished after that many.  The answer of os.Remove is ignored. *)
Fixpoint bind_loop {W} (listen : W -> lanswer * W) (stat : W -> bool * W) (remove : W -> W) (fuel : nat) (w : W) : option (gerr + nat) * W * list lcall :=
  match fuel with
  | O => (None, w, [])
  | S fuel' =>
      let '(a, w1) := listen w in
      match a with
      | LListening l => (Some (inr l), w1, [CListen a])
      | LOther e => (Some (inl (ErrSystem e)), w1, [CListen a])
      | LInUse e =>
          let '(ok, w2) := stat w1 in
          if ok then
            let '(r, w3, tr) := bind_loop listen stat remove fuel' (remove w2) in (r, w3, CListen a :: CStat ok :: CRemove :: tr)
          else (Some (inl (ErrSystem e)), w2, [CListen a; CStat ok])
      end
  end.

(** listener-tcp.go:14-33 TCPListener; [resolve], [listen]: net.ResolveTCPAddr, net.ListenTCP *)
Definition tcp_listener {W} (resolve : W -> bytes -> bytes -> (nat + nat) * W) (listen : W -> bytes -> nat -> (nat + nat) * W)
    (network address : bytes) (w : W) : (gerr + nat) * W :=
  if negb (bytes_eqb network (bs "tcp")) && negb (bytes_eqb network (bs "tcp4")) && negb (bytes_eqb network (bs "tcp6")) then (inl ErrInvalidNetwork, w)
  else
    let '(r, w1) := resolve w network address in
    match r with
    | inl e => (inl (ErrSystem e), w1)
    | inr laddr => let '(l, w2) := listen w1 network laddr in (match l with inl e => inl (ErrSystem e) | inr k => inr k end, w2)
    end.

(** listener-guess.go:4-16 GuessListener: which constructor is called, with which arguments *)
Inductive lchoice := GTcp (network address : bytes) | GUnix (address : bytes) | GUnixgram (address : bytes).
(** listener-guess.go:4-16 *)
Definition guess_listener (network address : bytes) : gerr + lchoice :=
  if bytes_eqb network (bs "tcp") || bytes_eqb network (bs "tcp4") || bytes_eqb network (bs "tcp6") then inr (GTcp network address)
  else if bytes_eqb network (bs "unix") then inr (GUnix address)
  else if bytes_eqb network (bs "unixgram") then inr (GUnixgram address)
  else inl ErrInvalidNetwork.

(** MMessage.v -- model of message.go.  Definitions only. *)
From Verif Require Import Base MPriority MHelpers MText MTime MSData.

(** message.go:14-23 *)
Record message := {
  m_prio : Z; m_time : gotime; m_host : bytes; m_app : bytes; m_procid : bytes; m_msgid : bytes;
  m_sd : list sdval; m_text : bytes }.

(** message.go:31-33; [hostname] is the value of the package variable of line 28 (os.Hostname(),
    "" on error), [now] what time.Now() returns. *)
Definition create_message (hostname : bytes) (now : gotime) (app : bytes) (prio : Z) (text : bytes) : message :=
  {| m_prio := prio; m_time := now; m_host := hostname; m_app := valid_app app; m_procid := [DASH]; m_msgid := [DASH];
     m_sd := []; m_text := trim_right text |}.

(** message.go:36-38 *)
Definition create_whole_message (prio : Z) (ts : gotime) (host app pid msgid text : bytes) : message :=
  {| m_prio := prio; m_time := ts; m_host := valid_host host; m_app := valid_app app; m_procid := valid_procid pid;
     m_msgid := valid_msgid msgid; m_sd := []; m_text := trim_right text |}.

(** message.go:42-44 *)
Definition forge_message (prio : Z) (ts : gotime) (host app pid msgid text : bytes) : message :=
  {| m_prio := prio; m_time := ts; m_host := host; m_app := app; m_procid := pid;
     m_msgid := msgid; m_sd := []; m_text := trim_right text |}.

(** message.go:47-49; [off] is the offset of time.Local at the epoch *)
Definition empty_message (off : Z) : message :=
  {| m_prio := 0; m_time := {| t_sec := 0; t_nsec := 0; t_off := off |}; m_host := [DASH]; m_app := [DASH];
     m_procid := [DASH]; m_msgid := [DASH]; m_sd := []; m_text := [] |}.

(** message.go:103-105 Time *)
Definition msg_set_time (m : message) (ts : gotime) : message :=
  {| m_prio := m_prio m; m_time := ts; m_host := m_host m; m_app := m_app m; m_procid := m_procid m;
     m_msgid := m_msgid m; m_sd := m_sd m; m_text := m_text m |}.

(** message.go:52-54 Now *)
Definition msg_now (m : message) (now : gotime) : message :=
  {| m_prio := m_prio m; m_time := now; m_host := m_host m; m_app := m_app m; m_procid := m_procid m;
     m_msgid := m_msgid m; m_sd := m_sd m; m_text := m_text m |}.

(** message.go:69-71 Timestamp *)
Definition msg_timestamp (m : message) (now : gotime) (stamp : bytes) : message :=
  {| m_prio := m_prio m; m_time := stamp_to_ts now stamp; m_host := m_host m; m_app := m_app m; m_procid := m_procid m;
     m_msgid := m_msgid m; m_sd := m_sd m; m_text := m_text m |}.

(** message.go:81-83 Delta *)
Definition msg_delta (m : message) (loc : Z -> Z) (boot : gotime) (sec nsec : bytes) : message :=
  {| m_prio := m_prio m; m_time := delta_boot_to_ts loc boot sec nsec; m_host := m_host m; m_app := m_app m;
     m_procid := m_procid m; m_msgid := m_msgid m; m_sd := m_sd m; m_text := m_text m |}.

(** message.go:93-95 Epoch *)
Definition msg_epoch (m : message) (loc : Z -> Z) (sec nsec : bytes) : message :=
  {| m_prio := m_prio m; m_time := epoch_to_ts loc sec nsec; m_host := m_host m; m_app := m_app m;
     m_procid := m_procid m; m_msgid := m_msgid m; m_sd := m_sd m; m_text := m_text m |}.

(** message.go:98-100 Host *)
Definition msg_set_host (m : message) (host : bytes) : message :=
  {| m_prio := m_prio m; m_time := m_time m; m_host := valid_host host; m_app := m_app m; m_procid := m_procid m;
     m_msgid := m_msgid m; m_sd := m_sd m; m_text := m_text m |}.

(** message.go:108-110 AppName *)
Definition msg_set_app (m : message) (app : bytes) : message :=
  {| m_prio := m_prio m; m_time := m_time m; m_host := m_host m; m_app := valid_app app; m_procid := m_procid m;
     m_msgid := m_msgid m; m_sd := m_sd m; m_text := m_text m |}.

(** message.go:113-115 ProcID *)
Definition msg_set_procid (m : message) (procid : bytes) : message :=
  {| m_prio := m_prio m; m_time := m_time m; m_host := m_host m; m_app := m_app m; m_procid := valid_procid procid;
     m_msgid := m_msgid m; m_sd := m_sd m; m_text := m_text m |}.

(** message.go:118-120 MsgID *)
Definition msg_set_msgid (m : message) (msgid : bytes) : message :=
  {| m_prio := m_prio m; m_time := m_time m; m_host := m_host m; m_app := m_app m; m_procid := m_procid m;
     m_msgid := valid_msgid msgid; m_sd := m_sd m; m_text := m_text m |}.

(** message.go:123-125 Priority *)
Definition msg_set_prio (m : message) (prio : Z) : message :=
  {| m_prio := prio; m_time := m_time m; m_host := m_host m; m_app := m_app m; m_procid := m_procid m;
     m_msgid := m_msgid m; m_sd := m_sd m; m_text := m_text m |}.

(** message.go:128-130 LocalHost: the raw machine host name, not sanitised *)
Definition msg_local_host (m : message) (hostname : bytes) : message :=
  {| m_prio := m_prio m; m_time := m_time m; m_host := hostname; m_app := m_app m; m_procid := m_procid m;
     m_msgid := m_msgid m; m_sd := m_sd m; m_text := m_text m |}.

(** message.go:133-135 Msg *)
Definition msg_set_text (m : message) (text : bytes) : message :=
  {| m_prio := m_prio m; m_time := m_time m; m_host := m_host m; m_app := m_app m; m_procid := m_procid m;
     m_msgid := m_msgid m; m_sd := m_sd m; m_text := trim_right text |}.

(** message.go:138-140 StructuredData; as a value, List.Add (list.go:79-82) is append.  The
    sharing of the backing array is modelled separately (MSlice.v). *)
Definition msg_add_sd (m : message) (data : list sdval) : message :=
  {| m_prio := m_prio m; m_time := m_time m; m_host := m_host m; m_app := m_app m; m_procid := m_procid m;
     m_msgid := m_msgid m; m_sd := m_sd m ++ data; m_text := m_text m |}.

(** message.go:143-199 Marshal5424 *)
Definition message_marshal (uni : N -> bool) (m : message) : eres :=
  let prio := priority_marshal (m_prio m) in
  let ts := time_format (m_time m) in
  match list_marshal uni (m_sd m) with
  | Val (inr sd) =>
      match m_text m with
      | [] => emit (prio ++ [SP] ++ ts ++ [SP] ++ m_host m ++ [SP] ++ m_app m ++ [SP] ++ m_procid m ++ [SP]
                    ++ m_msgid m ++ [SP] ++ sd)
      | _ => emit (prio ++ [SP] ++ ts ++ [SP] ++ m_host m ++ [SP] ++ m_app m ++ [SP] ++ m_procid m ++ [SP]
                   ++ m_msgid m ++ [SP] ++ sd ++ [SP] ++ m_text m)
      end
  | r => r
  end.

(** message.go:201-205 String: on error the empty string *)
Definition message_string (uni : N -> bool) (m : message) : res bytes :=
  match message_marshal uni m with
  | Val (inr b) => Val b
  | Val (inl _) => Val []
  | Panic => Panic
  | NoFuel => NoFuel
  end.

(** One public builder call on a message, as a datum (used to quantify over sequences of calls).
    [hostname] of BLocalHost is the machine's host name. (message.go:51-140) *)
Inductive build_call :=
| BNow (now : gotime) | BTime (ts : gotime) | BTimestamp (now : gotime) (stamp : bytes)
| BDelta (loc : Z -> Z) (boot : gotime) (sec nsec : bytes) | BEpoch (loc : Z -> Z) (sec nsec : bytes)
| BHost (h : bytes) | BApp (a : bytes) | BProcID (p : bytes) | BMsgID (i : bytes) | BPrio (p : Z)
| BLocalHost | BMsg (t : bytes) | BSD (l : list sdval).

(** message.go:51-140: the call *)
Definition build (hostname : bytes) (m : message) (c : build_call) : message :=
  match c with
  | BNow now => msg_now m now | BTime ts => msg_set_time m ts
  | BTimestamp now s => msg_timestamp m now s
  | BDelta loc boot s n => msg_delta m loc boot s n | BEpoch loc s n => msg_epoch m loc s n
  | BHost h => msg_set_host m h | BApp a => msg_set_app m a | BProcID p => msg_set_procid m p
  | BMsgID i => msg_set_msgid m i | BPrio p => msg_set_prio m p | BLocalHost => msg_local_host m hostname
  | BMsg t => msg_set_text m t | BSD l => msg_add_sd m l
  end.

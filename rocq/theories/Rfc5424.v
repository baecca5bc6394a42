(** Rfc5424.v -- the grammar of RFC 5424, section 6 (ABNF), and of RFC 3629, section 4 (UTF-8), rule by
    rule.  It depends on the byte type of Base.v and on the digit vocabulary of Spec.v only: nothing of
    the model is used. *)
From Verif Require Import Base Spec.

(** ** RFC 3629, section 4 *)
(** UTF8-tail = %x80-BF *)
Definition utf8_tail (c : N) : Prop := (128 <= c <= 191)%N.
(** UTF8-1, UTF8-2, UTF8-3 and UTF8-4 *)
Inductive utf8_char : bytes -> Prop :=
| U1 : forall a, (a <= 127)%N -> utf8_char [a]
| U2 : forall a b, (194 <= a <= 223)%N -> utf8_tail b -> utf8_char [a; b]
| U3_E0 : forall b c, (160 <= b <= 191)%N -> utf8_tail c -> utf8_char [224; b; c]%N
| U3_E1_EC : forall a b c, (225 <= a <= 236)%N -> utf8_tail b -> utf8_tail c -> utf8_char [a; b; c]
| U3_ED : forall b c, (128 <= b <= 159)%N -> utf8_tail c -> utf8_char [237; b; c]%N
| U3_EE_EF : forall a b c, (238 <= a <= 239)%N -> utf8_tail b -> utf8_tail c -> utf8_char [a; b; c]
| U4_F0 : forall b c d, (144 <= b <= 191)%N -> utf8_tail c -> utf8_tail d -> utf8_char [240; b; c; d]%N
| U4_F1_F3 : forall a b c d, (241 <= a <= 243)%N -> utf8_tail b -> utf8_tail c -> utf8_tail d -> utf8_char [a; b; c; d]
| U4_F4 : forall b c d, (128 <= b <= 143)%N -> utf8_tail c -> utf8_tail d -> utf8_char [244; b; c; d]%N.
(** UTF-8-STRING = *OCTET ; UTF-8 string as specified in RFC 3629 *)
Definition utf8_string (b : bytes) : Prop := exists cs, Forall utf8_char cs /\ b = concat cs.

(** ** RFC 5424, section 6: HEADER *)
(** PRI = "<" PRIVAL ">"   PRIVAL = 1*3DIGIT ; range 0 .. 191 *)
Definition rfc_pri (b : bytes) : Prop :=
  exists d, b = bs "<" ++ d ++ bs ">" /\ (1 <= length d <= 3)%nat /\ all_digits d /\ (decimal_value d <= 191)%Z.
(** VERSION = NONZERO-DIGIT 0*2DIGIT *)
Definition rfc_version (b : bytes) : Prop := (1 <= length b <= 3)%nat /\ all_digits b /\ hd 0%N b <> 48%N.
(** HOSTNAME, APP-NAME, PROCID, MSGID = NILVALUE / 1*nPRINTUSASCII (NILVALUE = "-" is printable) *)
Definition rfc_field (n : nat) (b : bytes) : Prop := b = bs "-" \/ (1 <= length b <= n)%nat /\ forall c, In c b -> (33 <= c <= 126)%N.

(** 2DIGIT or 4DIGIT with a range *)
Definition rfc_number (width : nat) (lo hi : Z) (b : bytes) : Prop :=
  length b = width /\ all_digits b /\ (lo <= decimal_value b <= hi)%Z.
(** DATE-MDAY: 01-28, 01-29, 01-30, 01-31 based on month/year *)
Definition last_day (y m : Z) : Z :=
  if (m =? 2)%Z then (if ((y mod 4 =? 0) && (negb (y mod 100 =? 0) || (y mod 400 =? 0)))%Z then 29 else 28)%Z
  else if existsb (Z.eqb m) [4; 6; 9; 11]%Z then 30%Z else 31%Z.
(** TIME-SECFRAC = "." 1*6DIGIT *)
Definition rfc_secfrac (b : bytes) : Prop := exists d, b = bs "." ++ d /\ (1 <= length d <= 6)%nat /\ all_digits d.
(** TIME-OFFSET = "Z" / TIME-NUMOFFSET   TIME-NUMOFFSET = ("+" / "-") TIME-HOUR ":" TIME-MINUTE *)
Definition rfc_offset (b : bytes) : Prop :=
  b = bs "Z" \/ exists s h m, b = s ++ h ++ bs ":" ++ m /\ (s = bs "+" \/ s = bs "-") /\ rfc_number 2 0 23 h /\ rfc_number 2 0 59 m.
(** TIMESTAMP = NILVALUE / FULL-DATE "T" FULL-TIME *)
Definition rfc_timestamp (b : bytes) : Prop :=
  b = bs "-" \/
  exists y mo d h mi s f z,
    b = y ++ bs "-" ++ mo ++ bs "-" ++ d ++ bs "T" ++ h ++ bs ":" ++ mi ++ bs ":" ++ s ++ f ++ z /\
    rfc_number 4 0 9999 y /\ rfc_number 2 1 12 mo /\ rfc_number 2 1 (last_day (decimal_value y) (decimal_value mo)) d /\
    rfc_number 2 0 23 h /\ rfc_number 2 0 59 mi /\ rfc_number 2 0 59 s /\ (f = [] \/ rfc_secfrac f) /\ rfc_offset z.

(** ** STRUCTURED-DATA *)
(** SD-NAME = 1*32PRINTUSASCII ; except '=', SP, ']', %d34 *)
Definition rfc_sd_name (b : bytes) : Prop :=
  (1 <= length b <= 32)%nat /\ forall c, In c b -> (33 <= c <= 126)%N /\ c <> 61%N /\ c <> 93%N /\ c <> 34%N.
(** PARAM-VALUE = UTF-8-STRING ; the quote (34), the backslash (92) and the bracket (93) MUST be escaped *)
Definition rfc_value_char (b : bytes) : Prop :=
  (utf8_char b /\ b <> [34]%N /\ b <> [92]%N /\ b <> [93]%N) \/ b = [92; 34]%N \/ b = [92; 92]%N \/ b = [92; 93]%N.
Definition rfc_param_value (b : bytes) : Prop := exists cs, Forall rfc_value_char cs /\ b = concat cs.
(** SD-PARAM = PARAM-NAME "=" %d34 PARAM-VALUE %d34 *)
Definition rfc_param (b : bytes) : Prop := exists k v, b = k ++ bs "=""" ++ v ++ bs """" /\ rfc_sd_name k /\ rfc_param_value v.
(** SD-ELEMENT = "[" SD-ID *(SP SD-PARAM) "]" *)
Definition rfc_element (b : bytes) : Prop :=
  exists id ps, b = bs "[" ++ id ++ concat (map (fun p => bs " " ++ p) ps) ++ bs "]" /\ rfc_sd_name id /\ Forall rfc_param ps.
(** STRUCTURED-DATA = NILVALUE / 1*SD-ELEMENT *)
Definition rfc_structured_data (b : bytes) : Prop := b = bs "-" \/ exists es, es <> [] /\ Forall rfc_element es /\ b = concat es.

(** ** MSG *)
(** BOM = %xEF.BB.BF *)
Definition rfc_bom : bytes := [239; 187; 191]%N.
(** MSG = MSG-ANY / MSG-UTF8   MSG-ANY = *OCTET ; not starting with BOM   MSG-UTF8 = BOM UTF-8-STRING *)
Definition rfc_msg (b : bytes) : Prop := ~ prefix_of rfc_bom b \/ exists u, b = rfc_bom ++ u /\ utf8_string u.

(** ** SYSLOG-MSG = HEADER SP STRUCTURED-DATA [SP MSG]
    HEADER = PRI VERSION SP TIMESTAMP SP HOSTNAME SP APP-NAME SP PROCID SP MSGID *)
Definition syslog_msg (b : bytes) : Prop :=
  exists pri ver ts host app procid msgid sd tl,
    b = pri ++ ver ++ bs " " ++ ts ++ bs " " ++ host ++ bs " " ++ app ++ bs " " ++ procid ++ bs " " ++ msgid ++ bs " " ++ sd ++ tl /\
    rfc_pri pri /\ rfc_version ver /\ rfc_timestamp ts /\ rfc_field 255 host /\ rfc_field 48 app /\ rfc_field 128 procid /\ rfc_field 32 msgid /\
    rfc_structured_data sd /\ (tl = [] \/ exists msg, tl = bs " " ++ msg /\ rfc_msg msg).

(** MErrors.v -- model of the texts of errors (errors.go), with the part of fmt and strconv they use.
    Definitions only. *)
From Verif Require Import Base MText MTransport.

(** strconv.IsPrint (strconv/quote.go): exact up to 255; [pr] tells the printable characters above
    (tables not modelled). *)
Definition is_print (pr : N -> bool) (r : N) : bool :=
  if (r <=? 255)%N then in_rng r 32 126 || (in_rng r 161 255 && negb (N.eqb r 173)) else pr r.

(** "0123456789abcdef"[n], strconv/quote.go lowerhex *)
Definition lowerhex (n : N) : N := if (n <? 10)%N then (48 + n)%N else (87 + n)%N.

(** utf8.ValidRune *)
Definition valid_rune (r : N) : bool := (r <? 55296)%N || in_rng r 57344 1114111.

(** utf8.AppendRune: the bytes appended *)
Definition append_rune (r : N) : bytes :=
  (if r <? 128 then [r]
   else if r <? 2048 then [192 + r / 64; 128 + r mod 64]
   else if negb (valid_rune r) then [239; 191; 189]
   else if r <? 65536 then [224 + r / 4096; 128 + r / 64 mod 64; 128 + r mod 64]
   else [240 + r / 262144; 128 + r / 4096 mod 64; 128 + r / 64 mod 64; 128 + r mod 64])%N.

(** the loop "for s := 4*(n-1); s >= 0; s -= 4 { append lowerhex[r>>s&0xF] }" of strconv/quote.go *)
Fixpoint hex_digits (n : nat) (r : N) : bytes :=
  match n with
  | O => []
  | S n' => lowerhex (r / 16 ^ N.of_nat n' mod 16)%N :: hex_digits n' r
  end.

(** strconv/quote.go appendEscapedRune with a double quote and both flags false *)
Definition escape_rune (pr : N -> bool) (r : N) : bytes :=
  if N.eqb r 34 || N.eqb r 92 then [92%N; r]
  else if is_print pr r then append_rune r
  else if N.eqb r 7 then [92; 97]%N
  else if N.eqb r 8 then [92; 98]%N
  else if N.eqb r 12 then [92; 102]%N
  else if N.eqb r 10 then [92; 110]%N
  else if N.eqb r 13 then [92; 114]%N
  else if N.eqb r 9 then [92; 116]%N
  else if N.eqb r 11 then [92; 118]%N
  else if (r <? 32)%N || N.eqb r 127 then [92; 120]%N ++ hex_digits 2 r
  else let r := if valid_rune r then r else rune_error in
       if (r <? 65536)%N then [92; 117]%N ++ hex_digits 4 r else [92; 85]%N ++ hex_digits 8 r.

(** strconv/quote.go appendQuotedWith, the loop.  Fuel: the length of the string. *)
Fixpoint quote_loop (fuel : nat) (pr : N -> bool) (s : bytes) : bytes :=
  match fuel, s with
  | S f, b :: _ =>
      let '(r, w) := if (b <? 128)%N then (b, 1%nat) else decode_rune s in
      if (w =? 1)%nat && N.eqb r rune_error then [92; 120]%N ++ hex_digits 2 b ++ quote_loop f pr (skipn w s)
      else escape_rune pr r ++ quote_loop f pr (skipn w s)
  | _, _ => []
  end.

(** strconv.Quote; fmt's %q on a []byte *)
Definition quote (pr : N -> bool) (s : bytes) : bytes := [34%N] ++ quote_loop (length s) pr s ++ [34%N].

(** errors.go:33-35, with the fields of errors.go:10-14 *)
Definition parse_error_text (pr : N -> bool) (buffer : bytes) (pos : Z) (message : bytes) : bytes :=
  bs "{" ++ quote pr buffer ++ bs "} " ++ itoa pos ++ bs " " ++ message.

(** errors.go:22-24, 29-31, 33-35: Error() of an error returned by Parse; [buffer] is the Buffer of a
    ParseError: the data left after PrefixStrip (message-immutable.go:146, 174, 180, 197, 229) *)
Definition error_text (pr : N -> bool) (buffer : bytes) (e : perr) : bytes :=
  match e with
  | ErrPos0 => bs "Pos 0 Found"
  | ErrPosNotFound => bs "Pos Not Found"
  | ErrImpossible => bs "NO ONE EXPECT THE RETURN OF SPANISH INQUISITION"
  | ErrTransportIncomplete => bs "Transport : Incomplete Message"
  | ErrTransportNoHeader => bs "T_RFC5425 Split: no header len"
  | ErrTransportInvHeader => bs "T_RFC5425 Split: invalid header len"
  | ErrParse pos why => parse_error_text pr buffer (Z.of_nat pos) why
  end.

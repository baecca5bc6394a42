(** MText.v -- model of strings.TrimRightFunc(_, unicode.IsSpace) as used by message.go:32,37,43,134
    (Go standard library: strings, unicode, unicode/utf8).  Definitions only. *)
From Verif Require Import Base.

Definition rune_error : N := 65533.  (* U+FFFD *)

(** continuation byte in the given range *)
Definition in_rng (b lo hi : N) : bool := (lo <=? b)%N && (b <=? hi)%N.

(** utf8.DecodeRune: rune and width.  (The "first"/"acceptRanges" tables of unicode/utf8.) *)
Definition decode_rune (p : bytes) : N * nat :=
  match p with
  | [] => (rune_error, 0)
  | p0 :: q =>
      if (p0 <? 128)%N then (p0, 1)
      else if in_rng p0 194 223 then
        match q with
        | p1 :: _ => if in_rng p1 128 191 then (((p0 - 192) * 64 + (p1 - 128))%N, 2%nat) else (rune_error, 1)
        | _ => (rune_error, 1)
        end
      else if in_rng p0 224 239 then
        let lo := if N.eqb p0 224 then 160%N else 128%N in
        let hi := if N.eqb p0 237 then 159%N else 191%N in
        match q with
        | p1 :: p2 :: _ =>
            if in_rng p1 lo hi && in_rng p2 128 191
            then (((p0 - 224) * 4096 + (p1 - 128) * 64 + (p2 - 128))%N, 3%nat) else (rune_error, 1)
        | _ => (rune_error, 1)
        end
      else if in_rng p0 240 244 then
        let lo := if N.eqb p0 240 then 144%N else 128%N in
        let hi := if N.eqb p0 244 then 143%N else 191%N in
        match q with
        | p1 :: p2 :: p3 :: _ =>
            if in_rng p1 lo hi && in_rng p2 128 191 && in_rng p3 128 191
            then (((p0 - 240) * 262144 + (p1 - 128) * 4096 + (p2 - 128) * 64 + (p3 - 128))%N, 4%nat)
            else (rune_error, 1)
        | _ => (rune_error, 1)
        end
      else (rune_error, 1)
  end.

(** utf8.RuneStart(b): b is not a continuation byte 10xxxxxx. *)
Definition rune_start (b : N) : bool := negb (in_rng b 128 191).

(** Accept a decoded rune only if it spans the [w] bytes up to the end of the string. *)
Definition last_of (d : N * nat) (w : nat) : N * nat :=
  if (snd d =? w)%nat then d else (rune_error, 1).

(** utf8.DecodeLastRuneInString.  Go walks back at most three bytes before the last one to a
    rune start; if there is none, the decoding cannot reach the end and RuneError/1 results. *)
Definition decode_last_rune (s : bytes) : N * nat :=
  match rev s with
  | [] => (rune_error, 0)
  | b0 :: r =>
      if (b0 <? 128)%N then (b0, 1)
      else match r with
           | b1 :: r1 =>
               if rune_start b1 then last_of (decode_rune [b1; b0]) 2
               else match r1 with
                    | b2 :: r2 =>
                        if rune_start b2 then last_of (decode_rune [b2; b1; b0]) 3
                        else match r2 with
                             | b3 :: _ =>
                                 if rune_start b3 then last_of (decode_rune [b3; b2; b1; b0]) 4
                                 else (rune_error, 1)
                             | [] => (rune_error, 1)
                             end
                    | [] => (rune_error, 1)
                    end
           | [] => (rune_error, 1)
           end
  end.

(** unicode.IsSpace *)
Definition is_space (r : N) : bool :=
  if (r <=? 255)%N then
    N.eqb r 9 || N.eqb r 10 || N.eqb r 11 || N.eqb r 12 || N.eqb r 13 || N.eqb r 32
    || N.eqb r 133 || N.eqb r 160
  else
    N.eqb r 5760 || in_rng r 8192 8202 || N.eqb r 8232 || N.eqb r 8233 || N.eqb r 8239
    || N.eqb r 8287 || N.eqb r 12288.

(** strings.lastIndexFunc(s, IsSpace, false): start of the last non-space rune of s[0:i]. *)
Fixpoint last_index_nonspace (fuel : nat) (s : bytes) (i : nat) : option nat :=
  match fuel with
  | O => None
  | S f =>
      if (i =? 0)%nat then None
      else
        let '(r, size) := decode_last_rune (firstn i s) in
        let i := (i - size)%nat in
        if is_space r then last_index_nonspace f s i else Some i
  end.

(** strings.TrimRightFunc(s, unicode.IsSpace) *)
Definition trim_right (s : bytes) : bytes :=
  match last_index_nonspace (S (length s)) s (length s) with
  | None => firstn 0 s                    (* i = -1, then i++ *)
  | Some i =>
      match skipn i s with
      | b :: _ =>
          if (128 <=? b)%N then firstn (i + snd (decode_rune (skipn i s))) s
          else firstn (i + 1) s
      | [] => firstn (i + 1) s
      end
  end.

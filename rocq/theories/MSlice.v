(** MSlice.v -- Go slices as headers over shared arrays, append, List.Add (sdata/list.go) and
    Transport.Encode (transport.go) with their effect on memory.  Definitions only. *)
From Verif Require Import Base MTransport.

Section Slices.
  Context {A : Type} (zero : A).

  (** The heap: array number n holds [nth n h]; its length is the capacity of the allocation. *)
  Definition heap := list (list A).

  (** A slice header: array, offset of the first element, len and cap (cap counted from the offset). *)
  Record gslice := { s_arr : nat; s_off : nat; s_len : nat; s_cap : nat }.

  Definition array (h : heap) (a : nat) : list A := nth a h [].

  (** the elements a slice shows *)
  Definition contents (h : heap) (s : gslice) : list A := firstn (s_len s) (skipn (s_off s) (array h (s_arr s))).

  (** overwrite the elements of [l] from position [i] on with [xs] *)
  Definition overwrite (l : list A) (i : nat) (xs : list A) : list A := firstn i l ++ xs ++ skipn (i + length xs) l.

  Fixpoint set_nth (h : heap) (a : nat) (l : list A) : heap :=
    match h, a with
    | [], _ => []
    | _ :: r, O => l :: r
    | x :: r, S a => x :: set_nth r a l
    end.

  (** The Go builtin append(s, xs...).  [newcap] is the capacity of the array allocated when the
      elements do not fit (the runtime's growth policy; at least the new length).  Appending
      nothing returns the slice unchanged. *)
  Definition go_append (newcap : nat) (h : heap) (s : gslice) (xs : list A) : heap * gslice :=
    let n := (s_len s + length xs)%nat in
    if (n <=? s_cap s)%nat then
      (set_nth h (s_arr s) (overwrite (array h (s_arr s)) (s_off s + s_len s) xs),
       {| s_arr := s_arr s; s_off := s_off s; s_len := n; s_cap := s_cap s |})
    else
      (h ++ [contents h s ++ xs ++ repeat zero (newcap - n)],
       {| s_arr := length h; s_off := 0; s_len := n; s_cap := newcap |}).

  (** make([]T, n) followed by writing [l] in it: a new array *)
  Definition go_new (h : heap) (l : list A) : heap * gslice :=
    (h ++ [l], {| s_arr := length h; s_off := 0; s_len := length l; s_cap := length l |}).
End Slices.
Arguments heap A : clear implicits.

(** list.go:23, 27-29: emptyList, a slice without capacity *)
Definition empty_list : gslice := {| s_arr := 0; s_off := 0; s_len := 0; s_cap := 0 |}.

(** list.go:79-82: List.Add, and with it Message.StructuredData (message.go:138-140), which puts the
    resulting header in the new message. *)
Definition list_add {A} (zero : A) (newcap : nat) (h : heap A) (l : gslice) (data : list A) : heap A * gslice :=
  go_append zero newcap h l data.

(** transport.go:148-150, 154-156: append in the caller's array; 160-169: a new one *)
Definition encode_mem (t : transport) (newcap : nat) (h : heap N) (d : gslice) : heap N * gslice :=
  match t with
  | TZeroEnded => go_append 0%N newcap h d [NUL]
  | TLFEnded => go_append 0%N newcap h d [LF]
  | TRFC5425 => go_new h (itoa (Z.of_nat (s_len d)) ++ [SP] ++ contents h d)
  end.

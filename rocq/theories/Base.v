(** Base.v -- the fragment of Go (language and standard library) that the model of
    nathanaelle/syslog5424 is written in.  Definitions only. *)
From Coq Require Export String Ascii.
From Coq Require Export NArith ZArith Lia Bool Arith.
From Coq Require Decimal.
From Coq Require Export List.
Export ListNotations.

(** A Go byte.  [N] is a superset: theorems quantify over every [list N]. *)
Notation byte := N (only parsing).
Notation bytes := (list N).

(** [is_byte b]: [b] is a value a Go byte can hold. *)
Definition is_byte (b : N) : Prop := (b < 256)%N.

(** Go string literals, as the list of their (ASCII) bytes. *)
Fixpoint bs (s : string) : bytes :=
  match s with
  | EmptyString => []
  | String a r => N_of_ascii a :: bs r
  end.
Arguments bs s%string_scope.

Notation NUL := 0%N (only parsing).
Notation LF := 10%N (only parsing).
Notation SP := 32%N (only parsing).     (* ' ' *)
Notation QUO := 34%N (only parsing).    (* double quote *)
Notation PCT := 37%N (only parsing).    (* '%' *)
Notation DASH := 45%N (only parsing).   (* '-' *)
Notation DOT := 46%N (only parsing).    (* '.' *)
Notation SLASH := 47%N (only parsing).  (* '/' *)
Notation C0 := 48%N (only parsing).     (* '0' *)
Notation C1 := 49%N (only parsing).     (* '1' *)
Notation C9 := 57%N (only parsing).     (* '9' *)
Notation LT := 60%N (only parsing).     (* '<' *)
Notation EQS := 61%N (only parsing).    (* '=' *)
Notation GT := 62%N (only parsing).     (* '>' *)
Notation LBR := 91%N (only parsing).    (* '[' *)
Notation BSL := 92%N (only parsing).    (* backslash *)
Notation RBR := 93%N (only parsing).    (* ']' *)
Notation DEL := 127%N (only parsing).

(** Result of a Go call that may panic.  [NoFuel] marks exhausted recursion fuel of the
    model; it is proved unreachable where it could appear. *)
Inductive res (A : Type) : Type :=
| Val (a : A)
| Panic
| NoFuel.
Arguments Val {A} a.
Arguments Panic {A}.
Arguments NoFuel {A}.

Definition bind {A B} (x : res A) (f : A -> res B) : res B :=
  match x with Val a => f a | Panic => Panic | NoFuel => NoFuel end.
Notation "'do' x <- e ; k" := (bind e (fun x => k))
  (at level 200, x pattern, e at level 100, k at level 200, right associativity).

(** Equality of Go strings / byte slices contents. *)
Fixpoint bytes_eqb (a b : bytes) : bool :=
  match a, b with
  | [], [] => true
  | x :: a', y :: b' => N.eqb x y && bytes_eqb a' b'
  | _, _ => false
  end.

(** bytes.IndexByte(l, c) (and bytes.Index(l, []byte{c})): [None] is Go's -1. *)
Fixpoint index_byte (c : N) (l : bytes) : option nat :=
  match l with
  | [] => None
  | x :: r => if N.eqb x c then Some 0 else option_map S (index_byte c r)
  end.

(** Go slice expressions b[lo:], b[lo:hi] and b[i] with their run-time bound checks.
    [hi] is checked against len(b) (where the code can legally go up to cap(b) the model
    uses [go_slice_cap] below). *)
Definition go_from (b : bytes) (lo : nat) : res bytes :=
  if (lo <=? length b)%nat then Val (skipn lo b) else Panic.

Definition go_from_z (b : bytes) (lo : Z) : res bytes :=
  if (lo <? 0)%Z then Panic else go_from b (Z.to_nat lo).

Definition go_slice (b : bytes) (lo hi : nat) : res bytes :=
  if (lo <=? hi)%nat && (hi <=? length b)%nat
  then Val (firstn (hi - lo) (skipn lo b)) else Panic.

(** b[lo:hi] where [spare] are the bytes of the backing array between len(b) and cap(b). *)
Definition go_slice_cap (b spare : bytes) (lo hi : nat) : res bytes :=
  if (lo <=? hi)%nat && (hi <=? length b + length spare)%nat
  then Val (firstn (hi - lo) (skipn lo (b ++ spare))) else Panic.

Definition go_at (b : bytes) (i : nat) : res N :=
  match nth_error b i with Some x => Val x | None => Panic end.

(** 64-bit two's complement wrap of a mathematical integer (Go int64 / int on amd64). *)
Definition wrap64 (z : Z) : Z :=
  ((z + 2 ^ 63) mod 2 ^ 64 - 2 ^ 63)%Z.

(** int -> byte conversion: keep the low 8 bits. *)
Definition to_byte (z : Z) : N := Z.to_N (z mod 256).

(** Decimal digits of a Coq standard library numeral. *)
Fixpoint uint_bytes (u : Decimal.uint) : bytes :=
  match u with
  | Decimal.Nil => []
  | Decimal.D0 u => 48%N :: uint_bytes u
  | Decimal.D1 u => 49%N :: uint_bytes u
  | Decimal.D2 u => 50%N :: uint_bytes u
  | Decimal.D3 u => 51%N :: uint_bytes u
  | Decimal.D4 u => 52%N :: uint_bytes u
  | Decimal.D5 u => 53%N :: uint_bytes u
  | Decimal.D6 u => 54%N :: uint_bytes u
  | Decimal.D7 u => 55%N :: uint_bytes u
  | Decimal.D8 u => 56%N :: uint_bytes u
  | Decimal.D9 u => 57%N :: uint_bytes u
  end.

Definition utoa (n : N) : bytes := uint_bytes (N.to_uint n).

(** strconv.Itoa / strconv.AppendInt(_, _, 10). *)
Definition itoa (z : Z) : bytes :=
  if (z <? 0)%Z then DASH :: utoa (Z.to_N (- z)) else utoa (Z.to_N z).

Definition is_digit (c : N) : bool := (C0 <=? c)%N && (c <=? C9)%N.

(** strconv errors. *)
Inductive numerr := ErrSyntax | ErrRange.

Definition max_uint64 : Z := 18446744073709551615%Z.   (* 1<<64 - 1 *)
Definition u64_cutoff : Z := 1844674407370955162%Z.     (* maxUint64/10 + 1 *)

(** strconv.ParseUint(s, 10, 64), digit loop (strconv/atoi.go): the range check happens
    before the following characters are looked at. *)
Fixpoint parse_uint_loop (s : bytes) (n : Z) : Z * option numerr :=
  match s with
  | [] => (n, None)
  | c :: r =>
      if is_digit c then
        if (u64_cutoff <=? n)%Z then (max_uint64, Some ErrRange)
        else
          let n1 := (n * 10 + Z.of_N (c - C0))%Z in
          if (max_uint64 <? n1)%Z then (max_uint64, Some ErrRange)
          else parse_uint_loop r n1
      else (0%Z, Some ErrSyntax)
  end.

Definition parse_uint (s : bytes) : Z * option numerr :=
  match s with
  | [] => (0%Z, Some ErrSyntax)
  | _ => parse_uint_loop s 0
  end.

(** strconv.ParseInt(s, 10, 64). *)
Definition parse_int (s : bytes) : Z * option numerr :=
  match s with
  | [] => (0%Z, Some ErrSyntax)
  | c :: r =>
      let neg := N.eqb c DASH in
      let body := if N.eqb c 43 (* '+' *) || neg then r else s in
      match parse_uint body with
      | (_, Some ErrSyntax) => (0%Z, Some ErrSyntax)
      | (un, _) =>
          if negb neg && (2 ^ 63 <=? un)%Z then ((2 ^ 63 - 1)%Z, Some ErrRange)
          else if neg && (2 ^ 63 <? un)%Z then ((- 2 ^ 63)%Z, Some ErrRange)
          else ((if neg then (- un)%Z else un), None)
      end
  end.

(** strconv.Atoi: value if no error. *)
Definition atoi (s : bytes) : option Z :=
  match parse_int s with
  | (v, None) => Some v
  | (_, Some _) => None
  end.

(** Machine words, bytes and the result type shared by every model file.

    Bytes, u16/u32/u64/usize words and f64 bit patterns are [N]; i64 values are
    [Z].  Wrap-around is written explicitly. *)
From Coq Require Export List Arith NArith ZArith Lia Bool.
From Coq Require Export ZifyBool ZifyNat ZifyN.
Export ListNotations.
#[global] Open Scope N_scope.

Arguments N.add : simpl never.
Arguments N.sub : simpl never.
Arguments N.mul : simpl never.
Arguments N.div : simpl never.
Arguments N.modulo : simpl never.
Arguments N.pow : simpl never.
Arguments N.shiftl : simpl never.
Arguments N.shiftr : simpl never.
Arguments N.land : simpl never.
Arguments N.lor : simpl never.
Arguments N.lxor : simpl never.
Arguments N.testbit : simpl never.
Arguments N.to_nat : simpl never.
Arguments N.of_nat : simpl never.

(** Outcome of a Rust call: a value, an [Err(..)], or a panic. *)
Inductive res (E A : Type) : Type :=
| Ok (a : A)
| Err (e : E)
| Panic.
Arguments Ok {E A} a.
Arguments Err {E A} e.
Arguments Panic {E A}.

Definition rbind {E A B} (x : res E A) (f : A -> res E B) : res E B :=
  match x with Ok a => f a | Err e => Err e | Panic => Panic end.
Notation "'do' x <- e ; f" := (rbind e (fun x => f))
  (at level 60, x pattern, e at level 200, f at level 200, right associativity).

(** Powers of two used as wrap-around moduli. *)
Definition two8  : N := 256.
Definition two32 : N := 4294967296.
Definition two64 : N := 18446744073709551616.

Definition is_byte (b : N) : Prop := b < 256.
Definition is_u64 (v : N) : Prop := v < two64.

(** Rust [x << n] on u64/u8 for n below the width: the bits shifted out are lost. *)
Definition shl64 (x n : N) : N := N.shiftl x n mod two64.
Definition shl8 (x n : N) : N := N.shiftl x n mod 256.

(** Rust wrapping subtraction on u32 / u64. *)
Definition wsub32 (a b : N) : N := (a + two32 - b mod two32) mod two32.
Definition wsub64 (a b : N) : N := (a + two64 - b mod two64) mod two64.

(** [u64::leading_zeros] and [u64::trailing_zeros]. *)
Definition clz64 (x : N) : N := 64 - N.size x.

Fixpoint pos_ctz (p : positive) : N :=
  match p with
  | xO q => 1 + pos_ctz q
  | _ => 0
  end.
Definition ctz64 (x : N) : N :=
  match x with N0 => 64 | Npos p => pos_ctz p end.

(** Little-endian encodings ([to_le_bytes] / [from_le_bytes]). *)
Fixpoint le_bytes (k : nat) (v : N) : list N :=
  match k with
  | O => []
  | S k' => v mod 256 :: le_bytes k' (v / 256)
  end.
Fixpoint le_val (bs : list N) : N :=
  match bs with
  | [] => 0
  | b :: bs' => b + 256 * le_val bs'
  end.

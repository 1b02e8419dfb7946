(** Sequences of writer / reader calls, and what they mean on bit strings. *)
From Verif Require Import Base BitSpec BitIO.

(** One call on the writer (BitWrite trait, bit_write.rs:1-64). *)
Inductive wop := OBit (b : bool) | OByte (y : N) | OBits (v n : N).

(** [write_byte] takes a u8; [write_bits] documents [n <= 64] and takes a u64. *)
Definition wop_ok (o : wop) : Prop :=
  match o with OBit _ => True | OByte y => y < 256 | OBits v n => v < two64 /\ n <= 64 end.

Definition do_write (w : bwriter) (o : wop) : bwriter :=
  match o with OBit b => write_bit w b | OByte y => write_byte w y | OBits v n => write_bits w v n end.
Definition do_writes (w : bwriter) (ops : list wop) : bwriter := fold_left do_write ops w.

(** Specification: the bits a call appends, and the number a matching read must return. *)
Definition wop_width (o : wop) : N :=
  match o with OBit _ => 1 | OByte _ => 8 | OBits _ n => n end.
Definition wop_bits (o : wop) : list bool :=
  match o with OBit b => [b] | OByte y => bits_of 8 y | OBits v n => bits_of (N.to_nat n) v end.
Definition wop_val (o : wop) : N :=
  match o with OBit b => if b then 1 else 0 | OByte y => y | OBits v n => v mod 2 ^ n end.

(** The read call matching a write call; the value read as a number. *)
Definition do_read (r : breader) (o : wop) : rd N :=
  match o with
  | OBit _ => match read_bit r with
              | Got b r' => Got (if b then 1 else 0) r' | End_ r' => End_ r' | RPanic => RPanic end
  | OByte _ => read_byte r
  | OBits _ n => read_bits r n
  end.
Fixpoint do_reads (r : breader) (ops : list wop) : option (list N) :=
  match ops with
  | [] => Some []
  | o :: ops' =>
      match do_read r o with
      | Got v r' => match do_reads r' ops' with Some vs => Some (v :: vs) | None => None end
      | _ => None
      end
  end.

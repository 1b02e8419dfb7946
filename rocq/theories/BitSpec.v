(** Model-independent specification of bit strings: most significant bit first. *)
From Verif Require Import Base.

(** The low [n] bits of [v], most significant first. *)
Fixpoint bits_of (n : nat) (v : N) : list bool :=
  match n with
  | O => []
  | S m => N.testbit v (N.of_nat m) :: bits_of m v
  end.

(** The number whose binary digits (most significant first) are [bs]. *)
Definition val_of (bs : list bool) : N :=
  fold_left (fun acc b => 2 * acc + N.b2n b) bs 0.

(** The bits of a byte string. *)
Definition bytes_bits (bs : list N) : list bool := flat_map (bits_of 8) bs.

#[global] Arguments bits_of : simpl never.
#[global] Arguments bytes_bits : simpl never.
#[global] Arguments val_of : simpl never.

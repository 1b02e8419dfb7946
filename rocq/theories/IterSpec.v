(** Specification vocabulary for record iterators. *)
From Verif Require Import Base Iter.

Section Calls.
  Context {S : Type}.
  Variable next : S -> item * S.
  (** The iterator after [k] calls, and what call number [k] (from 0) returns. *)
  Fixpoint after (k : nat) (s : S) : S := match k with O => s | Datatypes.S k => after k (snd (next s)) end.
  Definition call (s : S) (k : nat) : item := fst (next (after k s)).
  (** It returns exactly these records, and [None] from then on. *)
  Definition yields (s : S) (vs : list N) : Prop :=
    forall k, call s k = match nth_error vs k with Some v => Value v | None => Finished end.
  (** From some call on it returns [None]. *)
  Definition ends (s : S) : Prop := exists k, forall j, (k <= j)%nat -> call s j = Finished.
  (** [None] is followed by [None] only. *)
  Definition stays_finished (s : S) : Prop :=
    forall j k, (j <= k)%nat -> call s j = Finished -> call s k = Finished.
End Calls.

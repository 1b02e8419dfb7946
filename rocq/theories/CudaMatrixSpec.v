(** Specification vocabulary for the matrix experiment on the GPU. *)
From Verif Require Import Base F64 Query UcrSpec.

(** The library's sum does not tell 0 from -0 in its second factors, except by the sign
    of a zero. *)
Definition zero_blind (acc : list (N * N) -> f64) : Prop :=
  forall column row row', Forall is_u64 row -> Forall is_u64 row' -> Forall2 alike row row' ->
    same (acc (combine column row)) (acc (combine column row')).

(** Specification vocabulary for averages. *)
From Coq Require Import Reals.
From Flocq Require Import Core.
From Verif Require Import Base F64 F64Proofs F64Flocq Harness.
Local Open Scope R_scope.

(** Sums and means of real numbers. *)
Definition rsum (vs : list R) : R := fold_right Rplus 0 vs.
Definition mean (vs : list R) : R := rsum vs / INR (length vs).
(** The f64 [x] is [v] up to a relative error of one in a million. *)
Definition about (v : R) (x : f64) : Prop := finite x /\ Rabs (real x - v) <= v / 1000000.
(** Up to a million runs of up to a million data sets. *)
Definition million (n : nat) : Prop := (1 <= n)%nat /\ (Z.of_nat n <= 1000000)%Z.
(** Sizes in bytes and times in nanoseconds. *)
Definition quantity (x : N) : Prop := (1 <= Z.of_N x < 2 ^ 64)%Z.
Definition total (xs : list N) : R := rsum (map (fun x => IZR (Z.of_N x)) xs).
(** Bytes per nanosecond of all runs of a data set together. *)
Definition compression_speed (o : inner) : R := total (map r_uncompressed (i_compress o)) / total (map r_elapsed (i_compress o)).
Definition decompression_speed (o : inner) : R := total (map r_uncompressed (i_compress o)) / total (map r_elapsed (i_materialize o)).
(** A positive f64 of moderate size. *)
Definition moderate_ratio (x : f64) : Prop := canonical x /\ finite x /\ bpow radix2 (-100) <= real x <= bpow radix2 100.
(** [n] runs of each kind. *)
Definition runs_of (n : nat) (o : inner) : Prop := length (i_compress o) = n /\ length (i_materialize o) = n.

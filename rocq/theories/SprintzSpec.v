(** Specification vocabulary for DeltaSprintz. *)
From Verif Require Import Base Xor F64 Format FormatSpec File FileSpec Query QuerySpec Sprintz.

(** [z] is an integer nearest to [a] / 2^1074; of two equally near the one further
    from zero.  [number] (QuerySpec.v) gives numbers times 2^1074. *)
Definition nearest_integer (a z : Z) : Prop :=
  let unit := (2 ^ 1074)%Z in
  (2 * Z.abs (a - z * unit) < unit \/ (2 * Z.abs (a - z * unit) = unit /\ Z.abs a < Z.abs z * unit))%Z.

(** [q] is the integer stored for the record [x] under scale [s]: the f64 product
    x * s rounded to the nearest i64, out-of-range values and the infinities
    clamped, NaN as 0. *)
Definition stored_integer (s x : N) (q : Z) : Prop :=
  match number (to_bits (fmul (of_bits x) (of_Z (Z.of_N s)))) with
  | None => q = 0%Z
  | Some a => exists z, nearest_integer a z /\ q = Z.max (- 2 ^ 63) (Z.min (2 ^ 63 - 1) z)
  end.

(** The record returned for the integer [q]: the f64 quotient q / s. *)
Definition grid_value (s : N) (q : Z) : N := to_bits (fdiv (of_Z q) (of_Z (Z.of_N s))).

(** The records that are such quotients (for s = 10^d: the decimal numbers with at
    most d digits after the point), of moderate size. *)
Definition on_grid (s x : N) : Prop := exists k, (Z.abs k < 2 ^ 51)%Z /\ x = grid_value s k.

(** Consecutive stored integers differ by an i64 (a debug build panics
    otherwise). *)
Definition steps_fit (s : N) (xs : list N) : Prop :=
  forall before x y after p q, xs = before ++ x :: y :: after ->
    stored_integer s x p -> stored_integer s y q -> (- 2 ^ 63 <= q - p < 2 ^ 63)%Z.

(** What a record turns into. *)
Definition decodes (s x v : N) : Prop := exists q, stored_integer s x q /\ v = grid_value s q.

(** Input and settings for an encoder with this scale. *)
Definition sprintz_encodable (dbg : bool) (capacity s : N) (o : chunk_option) (timer : times) (elapsed : N)
    (input : list event) (xs : list N) : Prop :=
  1 <= s < 2 ^ 32 /\ usable o /\ readable o input /\
  (exists tail, delivered input = bytes_of xs ++ tail /\ (length tail < 8)%nat /\ Forall is_byte tail) /\
  Forall is_u64 xs /\ N.of_nat (length xs) < 2 ^ 60 /\ valid_run (CDeltaSprintz capacity s) o timer elapsed /\
  (dbg = true -> steps_fit s xs).

(** [m] describes [file], whose chunks were written by the compressor for the
    records [parts] and decode to [vss]. *)
Definition sprintz_stored (dbg neg : bool) (tie : f64 -> f64 -> bool) (s : N) (m : metadata) (file : list N)
    (precision : option N) (parts vss : list (list N)) : Prop :=
  let ex := sprintz_executor dbg neg tie in
  1 <= s < 2 ^ 32 /\
  stored dbg ex m file precision vss /\ Forall2 (Forall2 (decodes s)) parts vss /\
  forall i part, nth_error parts i = Some part ->
    Forall is_u64 part /\
    exists c, sp_compress dbg (sp_new s) part = Ok c /\
      chunk_reader dbg ex m file precision i = Ok (sp_open (N.of_nat (length part)) (sp_buffers c)).

(** The stored integers are small enough to be told apart after the division. *)
Definition small_integers (s : N) (parts : list (list N)) : Prop :=
  forall x q, In x (concat parts) -> stored_integer s x q -> (Z.abs q < 2 ^ 51)%Z.
(** Operands of predicates that are compared as given. *)
Definition grid_operand (s v : N) : Prop :=
  on_grid s v \/ of_bits v = S754_infinity false \/ of_bits v = S754_infinity true.

(** [q] satisfies the predicate after its operands have been rounded like
    records. *)
Definition rounded_satisfies (s : N) (p : fpred) (q : Z) : Prop :=
  let bound R b := match b with
                   | Inclusive v => exists w, stored_integer s v w /\ (R w q \/ w = q)
                   | Exclusive v => exists w, stored_integer s v w /\ R w q
                   | Unbounded => True
                   end in
  match p with
  | PEq v => stored_integer s v q
  | PNe v => ~ stored_integer s v q
  | PRange lo hi => bound Z.lt lo /\ bound Z.gt hi
  end.

(** The queries answered without decompressing the chunk. *)
Definition in_situ_query (q : qop) : Prop :=
  match q with QFilter _ _ | QSum _ | QMin _ | QMax _ => True | _ => False end.

(** A question to a fresh reader of the chunk compressed (debug build) under scale
    10 from these records. *)
Definition on_sprintz_chunk {A} (xs : list N) (q : spreader -> A) : option A :=
  match sp_compress true (sp_new 10) xs with
  | Ok c => Some (q (sp_open (N.of_nat (length xs)) (sp_buffers c)))
  | _ => None
  end.

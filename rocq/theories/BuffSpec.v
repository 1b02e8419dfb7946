(** Specification vocabulary for BUFF. *)
From Verif Require Import Base Xor F64 Format FormatSpec File FileSpec Query QuerySpec Buff.

(** Fractional bits kept for 0, 1, ..., 12 decimal digits after the point. *)
Definition bits_of_digits (digits : N) : option N :=
  nth_error [0; 5; 8; 11; 15; 18; 21; 25; 28; 31; 35; 38; 50] (N.to_nat digits).
(** The digits of a scale are its decimal logarithm [lg] (an f32 computation of the
    code, not interpreted here); scale 0 counts as no digits. *)
Definition digits_of (lg : N -> N) (scale : N) : N := if scale =? 0 then 0 else lg scale.

(** 2^-f in the unit of [number] (QuerySpec.v), which is 2^-1074. *)
Definition step (f : N) : Z := (2 ^ (1074 - Z.of_N f))%Z.
(** [v] is the fixed-point integer of the record [x]: x times 2^f truncated toward
    zero. *)
Definition fixed_point (f x : N) (v : Z) : Prop :=
  exists a, number x = Some a /\ (Z.abs v * step f <= Z.abs a < (Z.abs v + 1) * step f)%Z /\ (0 <= v * a)%Z.
(** The f64 returned for the integer [v]: v / 2^f; [fixed_value] is its bits. *)
Definition fixed_quotient (f : N) (v : Z) : f64 := fdiv (of_Z v) (of_Z (2 ^ Z.of_N f)).
Definition fixed_value (f : N) (v : Z) : N := to_bits (fixed_quotient f v).

(** Numbers whose fixed-point integer is an i64. *)
Definition in_range (f x : N) : Prop := exists a, number x = Some a /\ (Z.abs a < 2 ^ 63 * step f)%Z.
(** Differences of fixed-point integers are i64s (a debug build panics otherwise). *)
Definition spread_fits (f : N) (xs ys : list N) : Prop :=
  forall x y v w, In x xs -> In y ys -> fixed_point f x v -> fixed_point f y w -> (v - w < 2 ^ 63)%Z.
(** Records for one chunk. *)
Definition buff_storable (dbg : bool) (f : N) (xs : list N) : Prop :=
  xs <> [] /\ N.of_nat (length xs) < 2 ^ 32 /\ Forall is_u64 xs /\ Forall (in_range f) xs /\
  (dbg = true -> spread_fits f xs xs).
(** [bytes] is the chunk a new compressor makes of [xs]. *)
Definition buff_chunk (dbg : bool) (lg : N -> N) (scale : N) (xs bytes : list N) : Prop :=
  exists c, bf_compress dbg lg scale bf_new xs = Ok c /\ bf_buffers c = bytes.
(** A new reader of it. *)
Definition buff_reader (xs bytes : list N) : buffreader := bf_open (N.of_nat (length xs)) bytes.

(** What a record turns into. *)
Definition truncated (f x y : N) : Prop := exists v, fixed_point f x v /\ y = fixed_value f v.
(** The same with only [g] of the [f] fractional bits guaranteed. *)
Definition truncated_to (f g x y : N) : Prop :=
  exists v w, fixed_point f x v /\ y = fixed_value f w /\ (w <= v < w + 2 ^ Z.of_N (f - g))%Z.

(** Operands of predicates: in range, and in a debug build not too far above the
    records. *)
Definition operands_fit (dbg : bool) (f : N) (p : fpred) (xs : list N) : Prop :=
  Forall is_u64 (pred_operands p) /\ Forall (in_range f) (pred_operands p) /\
  (dbg = true -> spread_fits f (pred_operands p) xs).
(** [v] satisfies the predicate after its operands have been truncated like
    records. *)
Definition truncated_satisfies (f : N) (p : fpred) (v : Z) : Prop :=
  let bound R b := match b with
                   | Inclusive u => exists w, fixed_point f u w /\ (R w v \/ w = v)
                   | Exclusive u => exists w, fixed_point f u w /\ R w v
                   | Unbounded => True
                   end in
  match p with
  | PEq u => fixed_point f u v
  | PNe u => ~ fixed_point f u v
  | PRange lo hi => bound Z.lt lo /\ bound Z.gt hi
  end.
(** Record [i] is in the chunk (whose first record has number [first]) and its
    integer satisfies the predicate. *)
Definition matches (f : N) (p : fpred) (first : N) (xs : list N) (i : N) : Prop :=
  first <= i /\ exists x v, nth_error xs (N.to_nat (i - first)) = Some x /\ fixed_point f x v /\ truncated_satisfies f p v.
(** The bits of a column of fewer than 8 bits per record are counted in a u32. *)
Definition chunk_fits (xs : list N) : Prop := 7 * N.of_nat (length xs) < 2 ^ 32.
(** [v] is the least (greatest) fixed-point integer of the records [xs]. *)
Definition least_fixed (f : N) (xs : list N) (v : Z) : Prop :=
  (exists x, In x xs /\ fixed_point f x v) /\ forall x w, In x xs -> fixed_point f x w -> (v <= w)%Z.
Definition greatest_fixed (f : N) (xs : list N) (v : Z) : Prop :=
  (exists x, In x xs /\ fixed_point f x v) /\ forall x w, In x xs -> fixed_point f x w -> (w <= v)%Z.
(** Equality is tested on the low bits that the records of a chunk need: the
    constant must not lie beyond them. *)
Definition within_width (f : N) (p : fpred) (xs : list N) : Prop :=
  match p with
  | PEq u | PNe u => forall v w z k, least_fixed f xs v -> greatest_fixed f xs w -> (v < w)%Z -> fixed_point f u z ->
      (w - v < 2 ^ k)%Z -> (z - v < 2 ^ k)%Z
  | PRange _ _ => True
  end.
(** The chunk holds two different integers, and the operands lie between its least
    and its greatest. *)
Definition chunk_varies (f : N) (xs : list N) : Prop :=
  exists x y v w, In x xs /\ In y xs /\ fixed_point f x v /\ fixed_point f y w /\ (v < w)%Z.
Definition operands_inside (f : N) (p : fpred) (xs : list N) : Prop :=
  forall u z, In u (pred_operands p) -> fixed_point f u z ->
    exists x y v w, In x xs /\ In y xs /\ fixed_point f x v /\ fixed_point f y w /\ (v <= z <= w)%Z.
(** The mask is obeyed for certain. *)
Definition mask_obeyed (f : N) (p : fpred) (mask : option bitmap) (xs : list N) : Prop :=
  mask = None \/
  match p with
  | PEq _ => chunk_varies f xs
  | PNe _ => True
  | PRange _ _ => chunk_varies f xs /\ operands_inside f p xs
  end.
(** Records equal to their truncation. *)
Definition on_fixed_grid (f x : N) : Prop := exists v, fixed_point f x v /\ number x = Some (v * step f)%Z.

(** [t] is the sum of the fixed-point integers of the records. *)
Inductive fixed_sum (f : N) : list N -> Z -> Prop :=
| fixed_sum_nil : fixed_sum f [] 0
| fixed_sum_cons x xs v t : fixed_point f x v -> fixed_sum f xs t -> fixed_sum f (x :: xs) (v + t).
(** Sums of the integers stay within an i64. *)
Definition sums_fit (f : N) (xs : list N) : Prop :=
  exists B, (forall x v, In x xs -> fixed_point f x v -> Z.abs v <= B)%Z /\ (2 * B * Z.of_nat (length xs) < 2 ^ 63)%Z.

(** Input and settings for an encoder with this scale. *)
Definition buff_encodable (dbg : bool) (lg : N -> N) (scale f : N) (o : chunk_option) (timer : times) (elapsed : N)
    (input : list event) (xs : list N) : Prop :=
  bits_of_digits (digits_of lg scale) = Some f /\ usable o /\ readable o input /\
  (exists tail, delivered input = bytes_of xs ++ tail /\ (length tail < 8)%nat /\ Forall is_byte tail) /\
  Forall is_u64 xs /\ N.of_nat (length xs) < 2 ^ 32 /\ valid_run (CBuff scale) o timer elapsed /\
  Forall (in_range f) xs /\ (dbg = true -> spread_fits f xs xs).

(** The fractional bits left when decoding with a precision. *)
Definition kept_bits (f : N) (precision : option N) : option N :=
  match precision with None => Some f | Some k => bits_of_digits k end.

(** Histories of one reader that also change its precision: a precision or a
    query; [last_precision] is the one in force at the end. *)
Definition precision_step (dbg simd neg : bool) (off : N) (r : buffreader) (o : N + qop) : buffreader :=
  match o with
  | inl k => bf_with_precision k r
  | inr q => snd (q_step (buff_executor dbg simd neg) off r q)
  end.
Fixpoint last_precision (ops : list (N + qop)) (now : option N) : option N :=
  match ops with [] => now | inl k :: ops => last_precision ops (Some k) | inr _ :: ops => last_precision ops now end.

(** [m] describes [file], whose chunks were written by the compressor for the
    records [parts] and decode to [vss]. *)
Definition buff_stored (dbg simd neg : bool) (lg : N -> N) (scale f : N) (m : metadata) (file : list N)
    (precision : option N) (parts vss : list (list N)) : Prop :=
  let ex := buff_executor dbg simd neg in
  bits_of_digits (digits_of lg scale) = Some f /\
  stored dbg ex m file precision vss /\
  (exists g, kept_bits f precision = Some g /\ Forall2 (Forall2 (truncated_to f g)) parts vss) /\
  forall i part, nth_error parts i = Some part ->
    buff_storable dbg f part /\
    exists bytes, buff_chunk dbg lg scale part bytes /\
      chunk_reader dbg ex m file precision i =
        Ok (match precision with None => buff_reader part bytes | Some k => bf_with_precision k (buff_reader part bytes) end).

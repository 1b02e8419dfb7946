(** Specification vocabulary for queries. *)
From Coq Require Import Sorted.
From Verif Require Import Base Xor F64 Format File FileSpec Query.

(** The number an f64 bit pattern stands for, times 2^1074 (an integer for every
    finite pattern); the infinities lie beyond all finite numbers; NaN is not a
    number. *)
Definition number (x : N) : option Z :=
  let sign := x / 2 ^ 63 in
  let e := (x / 2 ^ 52) mod 2 ^ 11 in
  let frac := x mod 2 ^ 52 in
  let magnitude := Z.of_N (if e =? 0 then frac else (2 ^ 52 + frac) * 2 ^ (e - 1)) in
  if (e =? 2047) && negb (frac =? 0) then None
  else Some (if sign =? 0 then magnitude else Z.opp magnitude).

(** When a record satisfies a predicate. *)
Definition related (R : Z -> Z -> Prop) (x y : N) : Prop :=
  match number x, number y with Some a, Some b => R a b | _, _ => False end.
Definition above (b : bound N) (x : N) : Prop :=
  match b with
  | Inclusive v => related Z.le v x
  | Exclusive v => related Z.lt v x
  | Unbounded => True
  end.
Definition below (b : bound N) (x : N) : Prop :=
  match b with
  | Inclusive v => related Z.le x v
  | Exclusive v => related Z.lt x v
  | Unbounded => True
  end.
Definition satisfies (p : fpred) (x : N) : Prop :=
  match p with
  | PEq v => related eq x v
  | PNe v => ~ related eq x v
  | PRange lo hi => above lo x /\ below hi x
  end.
Definition pred_operands (p : fpred) : list N :=
  let of b := match b with Inclusive v | Exclusive v => [v] | Unbounded => [] end in
  match p with PEq v | PNe v => [v] | PRange lo hi => of lo ++ of hi end.

(** A set of u32 record numbers. *)
Definition is_bitmap (bm : bitmap) : Prop := StronglySorted N.lt bm /\ Forall (fun i => i < 2 ^ 32) bm.
Definition in_mask (mask : option bitmap) (i : N) : Prop :=
  match mask with Some bm => In i bm | None => True end.
Definition mask_ok (mask : option bitmap) : Prop :=
  match mask with Some bm => is_bitmap bm | None => True end.

(** The records of [xs], numbered from [first], whose number is in the mask. *)
Inductive choose {A} (mask : option bitmap) : N -> list A -> list A -> Prop :=
| choose_nil first : choose mask first [] []
| choose_take first x xs ys : in_mask mask first -> choose mask (first + 1) xs ys -> choose mask first (x :: xs) (x :: ys)
| choose_skip first x xs ys : ~ in_mask mask first -> choose mask (first + 1) xs ys -> choose mask first (x :: xs) ys.
(** Those that also satisfy a predicate. *)
Inductive keep (p : fpred) : list N -> list N -> Prop :=
| keep_nil : keep p [] []
| keep_take x xs ys : satisfies p x -> keep p xs ys -> keep p (x :: xs) (x :: ys)
| keep_skip x xs ys : ~ satisfies p x -> keep p xs ys -> keep p (x :: xs) ys.

(** [m] describes [file], which holds the chunks [parts], readable with [ex]
    (and the precision setting [precision]). *)
Definition stored (dbg : bool) (ex : executor) (m : metadata) (file : list N) (precision : option N)
    (parts : list (list N)) : Prop :=
  f_chunks (m_footer m) = N.of_nat (length parts) /\
  f_records (m_footer m) = N.of_nat (length (concat parts)) /\
  forall i part, nth_error parts i = Some part ->
    let before := N.of_nat (length (concat (firstn i parts))) in
    part <> [] /\ Forall is_u64 part /\
    chunk_offset m i = before /\
    chunk_range_u32 m i = Ok (before mod 2 ^ 32, (before + N.of_nat (length part)) mod 2 ^ 32) /\
    chunk_records dbg m i = Ok (N.of_nat (length part)) /\
    exists r, chunk_reader dbg ex m file precision i = Ok r /\
      exists r', ex_decompress ex r = (Ok part, r').

(** [r] is a least (greatest) of the numbers among [vs]; +inf (-inf) if there is
    no number among them. *)
Definition least (vs : list N) (r : f64) : Prop :=
  (Forall (fun v => number v = None) vs /\ r = S754_infinity false) \/
  exists v a, In v vs /\ r = of_bits v /\ number v = Some a /\
    forall w b, In w vs -> number w = Some b -> (a <= b)%Z.
Definition greatest (vs : list N) (r : f64) : Prop :=
  (Forall (fun v => number v = None) vs /\ r = S754_infinity true) \/
  exists v a, In v vs /\ r = of_bits v /\ number v = Some a /\
    forall w b, In w vs -> number w = Some b -> (b <= a)%Z.

(** Left-to-right f64 sum from 0.0. *)
Definition float_sum (vs : list f64) : f64 := fold_left fadd vs (S754_zero false).

(** The chunks a query with this chunk id looks at, with the number of their first
    record. *)
Definition first_of (parts : list (list N)) (i : nat) : N := N.of_nat (length (concat (firstn i parts))).
Definition looked_at (parts : list (list N)) (chunk_id : option nat) : list (N * list N) :=
  match chunk_id with
  | None => map (fun i => (first_of parts i, nth i parts [])) (seq 0 (length parts))
  | Some k => match nth_error parts k with Some part => [(first_of parts k, part)] | None => [] end
  end.

(** The records a query with this chunk id is about, and the number of the first:
    all records, the records of one chunk, or none if there is no such chunk. *)
Inductive scope (parts : list (list N)) : option nat -> N -> list N -> Prop :=
| scope_all : scope parts None 0 (concat parts)
| scope_chunk k part : nth_error parts k = Some part -> scope parts (Some k) (first_of parts k) part
| scope_missing k : nth_error parts k = None -> scope parts (Some k) 0 [].
Definition nonempty {A} (ys : list A) : bool := match ys with [] => false | _ => true end.

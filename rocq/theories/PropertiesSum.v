(** Exact sums.  [number y] is the value of the f64 [y] in units of 2^-1074
    (QuerySpec.v); [total] and [weight] are the sum of integers and the sum of
    their magnitudes (SumSpec.v).  No proofs here; see ExactSumProofs.v. *)
From Verif Require Import Base Xor F64 Format FormatSpec File FileSpec Uncompressed ByteCodec Codecs CodecSpec FileSummary
  Query Readers QuerySpec QuerySummary Buff BuffSpec BuffCodec BuffFileSummary SumSpec ExactSumProofs PropertiesQuery PropertiesBuff.

(** ** C32: sums over several chunks *)
(** If the chosen values are integer multiples k of one power of two 2^(t-1074) and
    the magnitudes |k| add up to at most 2^53, the sum over any number of chunks is
    the exact sum, and is the plain left-to-right f64 sum. *)
Theorem C32_exact_sums :
  forall dbg neg tie log10 lib c ex m file precision parts mask cid first xs,
  scheme_executor dbg neg tie log10 lib c = Some ex -> stored dbg ex m file precision parts ->
  N.of_nat (length (concat parts)) < 2 ^ 32 -> scope parts cid first xs ->
  exists ys, choose mask first xs ys /\
  forall t ks, (0 <= t <= 2044)%Z -> Forall2 (fun y k => number y = Some (k * 2 ^ t)%Z) ys ks -> (weight ks <= 2 ^ 53)%Z ->
  exists r, dec_sum dbg ex m file precision mask cid = Ok (of_bits r) /\ r < 2 ^ 64 /\
    number r = Some (total ks * 2 ^ t)%Z /\ of_bits r = float_sum (map of_bits ys).
Proof. exact c32_exact. Qed.
Print Assumptions C32_exact_sums.
(** Records 0, 1, 4 and 6 of the sample, from three chunks: 0, 1.5, 1.5, -1. *)
Example C32_exact_example :
  choose (Some [0; 1; 4; 6]) 0 q_records [0; 0x3ff8000000000000; 0x3ff8000000000000; 0xbff0000000000000] /\
  Forall2 (fun y k => number y = Some (k * 2 ^ 1073)%Z) [0; 0x3ff8000000000000; 0x3ff8000000000000; 0xbff0000000000000] [0; 3; 3; -2]%Z /\
  (weight [0; 3; 3; -2] <= 2 ^ 53)%Z /\ number 0x4000000000000000 = Some (4 * 2 ^ 1073)%Z.
Proof. exact c32_exact_sample. Qed.
Example C32_exact_example_sum :
  on_sample (fun ex m file => dec_sum false ex m file None (Some [0; 1; 4; 6]) None) = Some (Ok (of_bits 0x4000000000000000)).
Proof. vm_compute. reflexivity. Qed.
(** A condition is needed: (1) + (2^-53 + 2^-53) is not ((1 + 2^-53) + 2^-53). *)
Theorem C32_grouping_matters :
  exists xs parts, concat parts = xs /\
    float_sum (map (fun ys => float_sum (map of_bits ys)) (filter nonempty parts)) <> float_sum (map of_bits xs).
Proof. exact c32_grouping. Qed.
Print Assumptions C32_grouping_matters.

(** ** C40: BUFF sums over several chunks *)
Theorem C40_buff_exact_sums_partial :
  forall dbg simd neg lg scale f m file precision parts vss,
  buff_stored dbg simd neg lg scale f m file precision parts vss ->
  forall mask, mask_ok mask -> N.of_nat (length (concat parts)) < 2 ^ 32 ->
  forall cid first xs, scope parts cid first xs ->
  (forall off part, In (off, part) (looked_at parts cid) -> chunk_fits part) ->
  forall ws, scope vss cid first ws ->
  (forall off part, In (off, part) (looked_at parts cid) -> sums_fit f part /\ (mask = None \/ chunk_varies f part)) ->
  exists ys, choose mask first xs ys /\
    forall vs, Forall2 (fixed_point f) ys vs -> (weight vs <= 2 ^ 53)%Z ->
    dec_sum dbg (buff_executor dbg simd neg) m file precision mask cid = Ok (fixed_quotient f (total vs)) /\
    number (fixed_value f (total vs)) = Some (total vs * step f)%Z.
Proof. exact c40_exact. Qed.
Print Assumptions C40_buff_exact_sums_partial.
Example C40_exact_example :
  Forall2 (fixed_point 5) bf_records [10; 48; -80; 0; 10; 224; -3]%Z /\ (weight [10; 48; -80; 0; 10; 224; -3] <= 2 ^ 53)%Z /\
  total [10; 48; -80; 0; 10; 224; -3]%Z = 209%Z.
Proof. exact c40_exact_sample. Qed.

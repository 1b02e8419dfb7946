(** Which records a scheme returns unchanged. *)
From Verif Require Import Base Xor F64 Format FormatSpec Elf ElfSpec File FileSpec Sprintz Alp Codecs.

Definition storable (log10 : f64 -> f64) (c : config) (x : N) : Prop :=
  match c with
  | CGorilla _ | CChimp _ | CChimp128 _ => x <> nan_bits
  | CElf _ | CElfOnChimp _ => is_nan (of_bits x) = false /\ recoverable log10 x
  (* the record is the quotient of its stored integer (PropertiesSprintz.v: so are
     the records [on_grid]); no overflow in the differences *)
  | CDeltaSprintz _ s => s < 2 ^ 32 /\ (Z.abs (quantize s x) < 2 ^ 62)%Z /\ to_bits (unquantize s (quantize s x)) = x
  | _ => True
  end.

(** A library that decompresses what it compressed. *)
Definition faithful (lib : (list N -> res derr (list N)) * (list N -> res derr (list N))) : Prop :=
  forall bs, exists packed, fst lib bs = Ok packed /\ snd lib packed = Ok bs.
(** The same of ALP, which also keeps within 16386 bytes for each (begun) vector of
    1024 values, two more, and double that for fewer than 1024 values. *)
Definition alp_size_limit (n : N) : N :=
  let vectors := (n + 1023) / 1024 in
  if n <? 1024 then 2 * (16386 * vectors + 2) else 16386 * vectors + 2.
Definition faithful_alp (lib : (list N -> list N) * (N -> list N -> list N)) : Prop :=
  forall xs, Forall is_u64 xs -> snd lib (N.of_nat (length xs)) (fst lib xs) = xs /\
    N.of_nat (length (fst lib xs)) <= alp_size_limit (N.of_nat (length xs)).
Definition faithful_libraries (lib : libraries) : Prop := (forall c, faithful (lib c)) /\ faithful_alp (lib_alp lib).

(** Every chunk starts where the previous one ends, in bytes and in records; the
    first one right after the header, the last one ends at the footer. *)
Definition contiguous (dbg : bool) (m : metadata) : Prop :=
  (forall f, nth_error (f_index (m_footer m)) 0 = Some f -> f = mkCf 30 0) /\
  forall i f, nth_error (f_index (m_footer m)) i = Some f ->
    exists size n, chunk_size dbg m i = Ok size /\ chunk_records dbg m i = Ok n /\ 0 < n /\
      cf_physical f + size = match nth_error (f_index (m_footer m)) (S i) with
                             | Some g => cf_physical g
                             | None => h_footer_offset (m_header m)
                             end /\
      cf_logical f + n = match nth_error (f_index (m_footer m)) (S i) with
                         | Some g => cf_logical g
                         | None => f_records (m_footer m)
                         end.

(** The input delivers the records [xs], perhaps followed by fewer than eight
    more bytes, to an encoder that can be run; the scheme keeps these records. *)
Definition encodable (log10 : f64 -> f64) (lib : libraries) (c : config) (o : chunk_option)
    (timer : times) (elapsed : N) (input : list event) (xs : list N) : Prop :=
  faithful_libraries lib /\ usable o /\ readable o input /\
  (exists tail, delivered input = bytes_of xs ++ tail /\ (length tail < 8)%nat /\ Forall is_byte tail) /\
  Forall is_u64 xs /\ N.of_nat (length xs) < 2 ^ 60 /\ Forall (storable log10 c) xs /\
  valid_run c o timer elapsed.

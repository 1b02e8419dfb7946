(** Specification vocabulary for the file format: what values fit the fields of
    a header, a footer and a configuration. *)
From Verif Require Import Base Format.

Definition is_u16 (v : N) : Prop := v < 65536.
Definition is_u32 (v : N) : Prop := v < two32.

Definition valid_option (o : chunk_option) : Prop :=
  match o with Full => True | RecordCount n | ByteSizeBestEffort n => is_u64 n end.

Definition valid_header (h : header) : Prop :=
  length (h_magic h) = 4%nat /\ Forall is_byte (h_magic h) /\
  valid_option (h_option h) /\ is_u64 (h_footer_offset h) /\
  length (h_version h) = 3%nat /\ Forall is_u16 (h_version h).

Definition valid_config (c : config) : Prop :=
  match c with
  | CDeltaSprintz n s => is_u64 n /\ is_u64 s
  | CZstd l => (-2147483648 <= l < 2147483648)%Z
  | CGzip l => is_u32 l
  | CSnappy | CAlp => True
  | CUncompressed n | CRle n | CGorilla n | CBuff n | CChimp n | CChimp128 n
  | CElfOnChimp n | CElf n => is_u64 n
  end.

(** How many bytes the configuration of a scheme has. *)
Definition config_length (s : scheme) : N :=
  match s with
  | SDeltaSprintz => 16
  | SZstd | SGzip => 4
  | SSnappy | SAlp => 0
  | _ => 8
  end.

(** Nine durations, each below 2^64 seconds. *)
Definition valid_times (t : times) : Prop :=
  length t = 9%nat /\ Forall (fun d => d < duration_limit) t.

Definition valid_index (l : list chunk_footer) : Prop :=
  Forall (fun f => is_u64 (cf_physical f) /\ is_u64 (cf_logical f)) l.

Definition valid_footer (f : footer) : Prop :=
  is_u64 (f_records f) /\ f_chunks f = N.of_nat (length (f_index f)) /\
  f_chunks f < 2 ^ 59 /\ valid_index (f_index f) /\ valid_config (f_config f) /\
  f_elapsed f < 2 ^ 128 /\ valid_times (f_times f) /\ is_u32 (f_crc f).

(** The little-endian number in the [k] bytes at position [i]. *)
Definition word_at (k : nat) (i : N) (bs : list N) : N := le_val (firstn k (drop_n i bs)).

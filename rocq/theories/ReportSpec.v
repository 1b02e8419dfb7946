(** Specification vocabulary for tables of results and the embedding experiment. *)
From Coq Require Import String.
From Verif Require Import Base Xor F64 Format File FileSpec Codecs CodecSpec Query QuerySpec Sprintz SprintzSpec Buff BuffSpec Expr Tpch TpchSpec Harness Ucr Report.
Local Open Scope N_scope.

(** *** Tables *)

(** No data set comes twice, nor does a scheme in a data set. *)
Definition table (a : all_output) : Prop := NoDup (map fst a) /\ Forall (fun dm : string * outputs => NoDup (map fst (snd dm))) a.
(** The table has a result for a data set and a scheme. *)
Definition entry (a : all_output) (d : string) (s : scheme) (i : inner) : Prop := exists m, In (d, m) a /\ In (s, i) m.

(** *** Embedding *)

(** A file of these records, perhaps with a few bytes more. *)
Definition record_file (data xs : list N) : Prop :=
  xs <> [] /\ Forall is_u64 xs /\ N.of_nat (length xs) < 2 ^ 32 /\ exists tail, data = bytes_of xs ++ tail /\ (length tail < 8)%nat /\ Forall is_byte tail.
(** What a configuration needs of the records: BUFF keeps at least their fixed-point
    integers; the others keep every record (CodecSpec.v, BuffSpec.v). *)
Definition embeds (P : platform) (c : config) (xs : list N) : Prop :=
  match c with
  | CBuff s => is_u64 s /\ exists f, bits_of_digits (digits_of (p_lg P) s) = Some f /\ Forall (in_range f) xs /\ (p_dbg P = true -> spread_fits f xs xs)
  | CDeltaSprintz _ s => 1 <= s /\ Forall (storable (p_log10 P) c) xs
  | _ => Forall (storable (p_log10 P) c) xs
  end.
(** The encoded file; it is shorter than 2^63 bytes. *)
Definition encoded_file (P : platform) (c : config) (data : list N) : list N :=
  written [] (fst (encode (p_dbg P) (codec_of P c) default_chunk_option c (p_timer P) (p_elapsed P) [Data data])).
Definition file_fits (P : platform) (c : config) (data : list N) : Prop := N.of_nat (length (encoded_file P c data)) < 2 ^ 63.
(** What a configuration gives back: the records, or for BUFF their values cut to its
    fractional bits. *)
Definition gives (P : platform) (c : config) (xs vs : list N) : Prop :=
  match c with
  | CBuff s => exists f, bits_of_digits (digits_of (p_lg P) s) = Some f /\ Forall2 (truncated f) xs vs
  | _ => vs = xs
  end.
(** A right report of one run. *)
Definition right_report (P : platform) (c : config) (data xs : list N) (r : embedding_run) : Prop :=
  e_file r = [69; 66; 73; 49; 0] /\
  st_uncompressed (e_statistics r) = 8 * N.of_nat (length xs) /\
  st_file (e_statistics r) = N.of_nat (length (encoded_file P c data)) /\
  exists vs, gives P c xs vs /\ e_output r = firstn 5 (bytes_of vs).
(** Ten right reports of a configuration, kept under its scheme. *)
Definition right_reports (P : platform) (data xs : list N) (x : scheme * (config * list embedding_run)) : Prop :=
  fst x = config_scheme (fst (snd x)) /\ length (snd (snd x)) = 10%nat /\ Forall (right_report P (fst (snd x)) data xs) (snd (snd x)).
(** The configurations tried on a data set of [k] decimal places. *)
Definition tried (k : N) : list config :=
  filter (fun c => match c with CBuff _ | CDeltaSprintz _ _ => k <=? 12 | _ => true end) (experiment_configs false (10 ^ k)).
(** A number of decimal places as read from a file: it rounds to [k]. *)
Definition places (k : N) (v : f64) : Prop := exists b a, v = of_bits b /\ is_u64 b /\ number b = Some a /\ nearest_integer a (Z.of_N k).

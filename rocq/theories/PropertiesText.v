(** Decimal text, data sets and their statistics: C67 to C72. *)
From Coq Require Import String QArith Qabs.
From Verif Require Import Base Xor F64 Format FormatSpec File FileSpec Query QuerySpec Sprintz Buff BuffCodec Codecs DecimalSpec Text TextSpec TextSummary.
Local Open Scope N_scope.

(** ** C67: the exact precision of a document is the least that loses no digit *)
Theorem C67_exact_precision :
  forall dbg sep rows last ns, holds_numerals sep rows last ns ->
  exists p, get_appropriate_precision dbg sep true (document sep rows last) = Ok p /\
    Forall (fun n => exists t, is_decimal p t (value n)) ns /\ (p = 0 \/ exists n, In n ns /\ places n = Z.of_N p).
Proof. exact c67. Qed.
Print Assumptions C67_exact_precision.
Example C67_example : holds_numerals 44 sample_rows [] sample_numerals /\
  document 44 sample_rows [] = [51; 46; 50; 32; 44; 32; 45; 55; 101; 45; 49; 13; 10; 44; 49; 10] /\
  forall dbg, get_appropriate_precision dbg 44 true (document 44 sample_rows []) = Ok 1.
Proof. exact c67_sample. Qed.
(** Not so with an upper-case exponent, which the parser accepts: the digits are not seen. *)
Theorem C67_upper_case_refuted : exists n, moderate n /\ ~ (exists t, is_decimal 0 t (value n)) /\
  forall dbg exact, get_appropriate_precision dbg 44 exact (map (fun c => if c =? 101 then 69 else c) (spelling n)) = Ok 0 /\
    get_appropriate_precision dbg 44 exact (spelling n) = Ok 3.
Proof. exact c67_upper_refuted. Qed.
Print Assumptions C67_upper_case_refuted.

(** ** C68: otherwise fewer than one value in a hundred needs more digits *)
Theorem C68_common_precision :
  forall dbg sep rows last ns, holds_numerals sep rows last ns ->
  exists p, get_appropriate_precision dbg sep false (document sep rows last) = Ok p /\
    (forall k, how_many (fun n => Z.of_N p < places n)%Z ns k -> (100 * k < length ns)%nat) /\
    (p = 0 \/ forall k, how_many (fun n => Z.of_N p <= places n)%Z ns k -> (length ns <= 100 * k)%nat) /\
    get_appropriate_scale dbg sep (document sep rows last) = if p <=? 9 then Ok (10 ^ p) else Err tt.
Proof. exact c68. Qed.
Print Assumptions C68_common_precision.
Example C68_example : holds_numerals 44 many_rows many_last (repeat n_one 150 ++ [n_three]) /\
  (forall dbg, get_appropriate_precision dbg 44 false (document 44 many_rows many_last) = Ok 0) /\
  (forall dbg, get_appropriate_precision dbg 44 true (document 44 many_rows many_last) = Ok 1).
Proof. exact c68_sample. Qed.
(** The configurations written for a document: eleven, and the two with a scale,
    which is the power of ten of the precision, if it fits. *)
Theorem C68_default_configurations :
  forall dbg exact content p, get_appropriate_precision dbg 44 exact content = Ok p ->
  exists configs, default_configs dbg exact content = Ok configs /\
    map fst configs = (["uncompressed"; "chimp128"; "chimp"; "elf_on_chimp"; "elf"; "gorilla"; "rle"; "zstd"; "gzip"; "snappy"; "ffi_alp"]%string ++
      (if p <=? 19 then ["delta_sprintz"; "buff"]%string else [])) /\
    (p <= 19 -> In ("delta_sprintz"%string, CDeltaSprintz 8192 (10 ^ p)) configs /\ In ("buff"%string, CBuff (10 ^ p)) configs) /\
    Forall (fun nc => valid_config (snd nc)) configs.
Proof. exact c68_configs. Qed.
Print Assumptions C68_default_configurations.

(** ** C69: text, converted and encoded with its detected scale, comes back *)
(** DeltaSprintz: every record read from the file is the f64 nearest to the numeral
    in the text.  At most 9 digits and magnitudes below 2^51 units of the last digit. *)
Theorem C69_text_through_sprintz :
  forall parse rows last ns, holds_numerals 44 rows last ns -> Forall (reads parse) ns ->
  forall dbg neg tie p room o timer elapsed,
  get_appropriate_precision dbg 44 true (document 44 rows last) = Ok p -> p <= 9 -> Forall (smaller p (2 ^ 51)) ns ->
  (8 * length ns <= room)%nat -> N.of_nat (length ns) < 2 ^ 32 -> usable o -> valid_run (CDeltaSprintz 8192 (10 ^ p)) o timer elapsed ->
  exists bytes, csv2bin parse room (document 44 rows last) = (true, Some bytes) /\
  forall input, delivered input = bytes -> readable o input ->
  exists ops, encode dbg (sprintz_codec dbg (10 ^ p)) o (CDeltaSprintz 8192 (10 ^ p)) timer elapsed input = (ops, Ok tt) /\
  forall old, N.of_nat (length (written old ops)) < 2 ^ 63 ->
  exists m ys, open_file dbg (written old ops) = Ok m /\
    dec_materialize dbg (sprintz_executor dbg neg tie) m (written old ops) None None None = (bytes_of ys, Ok tt) /\
    Forall2 (fun n y => nearest_f64 (value n) y) ns ys.
Proof. exact sprintz_pipeline. Qed.
Print Assumptions C69_text_through_sprintz.
(** BUFF: every record rounds to the numeral.  At most 12 digits, magnitudes below
    10^15 units of the last digit, a logarithm that is right for the scale. *)
Theorem C69_text_through_buff :
  forall parse rows last ns, holds_numerals 44 rows last ns -> Forall (reads parse) ns ->
  forall dbg simd neg lg p room o timer elapsed,
  get_appropriate_precision dbg 44 true (document 44 rows last) = Ok p -> p <= 12 -> lg (10 ^ p) = p -> Forall (smaller p (10 ^ 15)) ns ->
  (8 * length ns <= room)%nat -> N.of_nat (length ns) < 2 ^ 32 -> usable o -> valid_run (CBuff (10 ^ p)) o timer elapsed ->
  exists bytes, csv2bin parse room (document 44 rows last) = (true, Some bytes) /\
  forall input, delivered input = bytes -> readable o input ->
  exists ops, encode dbg (buff_codec dbg lg (10 ^ p)) o (CBuff (10 ^ p)) timer elapsed input = (ops, Ok tt) /\
  forall old, N.of_nat (length (written old ops)) < 2 ^ 63 ->
  exists m ys, open_file dbg (written old ops) = Ok m /\
    dec_materialize dbg (buff_executor dbg simd neg) m (written old ops) None None None = (bytes_of ys, Ok tt) /\
    Forall2 (fun n y => exists t, is_decimal p t (value n) /\ rounds_to p t y) ns ys.
Proof. exact buff_pipeline. Qed.
Print Assumptions C69_text_through_buff.
Example C69_example : forall dbg, holds_numerals 44 sample_rows [] sample_numerals /\ Forall (reads small_parse) sample_numerals /\
  get_appropriate_precision dbg 44 true (document 44 sample_rows []) = Ok 1 /\
  Forall (smaller 1 (2 ^ 51)) sample_numerals /\ Forall (smaller 1 (10 ^ 15)) sample_numerals /\ usable (RecordCount 2) /\
  valid_run (CDeltaSprintz 8192 (10 ^ 1)) (RecordCount 2) (repeat 5 9) 77 /\ valid_run (CBuff (10 ^ 1)) (RecordCount 2) (repeat 5 9) 77.
Proof. exact c69_sample. Qed.

(** ** C70: the converter writes all numbers of a file or none *)
(** All words are numbers and the disk has room: eight bytes for each, in reading order. *)
Theorem C70_all_numbers :
  forall parse rows last, Forall (is_word 44) (words rows last) ->
  forall room xs, Forall2 (fun w x => parse w = Some x) (words rows last) xs -> (8 * length xs <= room)%nat ->
  csv2bin parse room (document 44 rows last) = (true, Some (bytes_of xs)).
Proof. exact c70_complete. Qed.
Print Assumptions C70_all_numbers.
(** A word is no number: failure, and no file. *)
Theorem C70_no_number :
  forall parse rows last, Forall (is_word 44) (words rows last) ->
  forall room w, In w (words rows last) -> parse w = None -> csv2bin parse room (document 44 rows last) = (false, None).
Proof. exact c70_failure. Qed.
Print Assumptions C70_no_number.
(** Success on a disk that takes [room] bytes only.  Missing: that all bytes are there;
    the last 8192 of them can be lost. *)
Theorem C70_success_partial :
  forall parse rows last, Forall (is_word 44) (words rows last) ->
  forall room out, csv2bin parse room (document 44 rows last) = (true, out) ->
  exists xs, Forall2 (fun w x => parse w = Some x) (words rows last) xs /\ out = Some (firstn room (bytes_of xs)) /\
    N.of_nat (8 * length xs) <= N.of_nat room + 8192.
Proof. exact c70_success. Qed.
Print Assumptions C70_success_partial.
Theorem C70_success_refuted : exists parse rows last room xs out, Forall (is_word 44) (words rows last) /\
  Forall2 (fun w x => parse w = Some x) (words rows last) xs /\
  csv2bin parse room (document 44 rows last) = (true, Some out) /\ out <> bytes_of xs.
Proof. exact c70_refuted. Qed.
Print Assumptions C70_success_refuted.
Example C70_example : exists xs, Forall2 (fun w x => small_parse w = Some x) (words sample_rows []) xs /\ length xs = 3%nat /\
  Forall (is_word 44) (words sample_rows []).
Proof. exact c70_sample. Qed.

(** ** C71: every series of a data set is loaded, rounded to its digits *)
(** Of at most 9 digits, and all but the first line.  Missing: the first line and more
    digits; both are false (below). *)
Theorem C71_loaded_series_partial :
  forall parse dbg train p rows, get_appropriate_precision dbg 9 false train = Ok p -> p <= 9 ->
  Forall (fun r : series * bool => Forall well_formed (series_numerals (fst r)) /\ Forall (reads parse) (series_numerals (fst r)) /\
    Forall (smaller p (2 ^ 49)) (snd (fst r))) rows ->
  exists data, load_dataset parse dbg train (series_text rows) = Ok (10 ^ p, data) /\ Forall2 (loaded p) (tl (map fst rows)) data.
Proof. exact c71. Qed.
Print Assumptions C71_loaded_series_partial.
Example C71_example : forall dbg, get_appropriate_precision dbg 9 false (series_text sample_series) = Ok 1 /\
  exists data, load_dataset small_parse dbg (series_text sample_series) (series_text sample_series) = Ok (10, data) /\ length data = 2%nat /\
    Forall (fun r => fst r = 1%Z /\ length (snd r) = 2%nat) data.
Proof. exact c71_sample. Qed.
Theorem C71_first_line_refuted : exists parse rows p, (forall dbg, get_appropriate_precision dbg 9 false (series_text rows) = Ok p) /\ p <= 9 /\
  Forall (fun r : series * bool => Forall well_formed (series_numerals (fst r)) /\ Forall (reads parse) (series_numerals (fst r)) /\
    Forall (smaller p (2 ^ 49)) (snd (fst r))) rows /\
  forall dbg s data, load_dataset parse dbg (series_text rows) (series_text rows) = Ok (s, data) -> (length data < length rows)%nat.
Proof. exact c71_first_refuted. Qed.
Print Assumptions C71_first_line_refuted.
Theorem C71_ten_digits_refuted : exists parse rows p, (forall dbg, get_appropriate_precision dbg 9 false (series_text rows) = Ok p) /\
  Forall (fun r : series * bool => Forall well_formed (series_numerals (fst r)) /\ Forall (reads parse) (series_numerals (fst r)) /\
    Forall (smaller p (2 ^ 49)) (snd (fst r))) rows /\
  forall dbg, exists data, load_dataset parse dbg (series_text rows) (series_text rows) = Ok (10 ^ p, data) /\
    ~ Forall2 (loaded p) (tl (map fst rows)) data.
Proof. exact c71_digits_refuted. Qed.
Print Assumptions C71_ten_digits_refuted.

(** ** C72: the statistics of a data set *)
(** Of fewer than 2^21 values, none of them NaN.  Missing: longer data sets, for which
    it is false (below); the averages and deviations of the values. *)
Theorem C72_statistics_partial :
  forall dbg xs, xs <> [] -> Forall is_u64 xs -> Forall (fun x => number x <> None) xs -> N.of_nat (length xs) < 2 ^ 21 ->
  exists st ds, compute_stats dbg xs = Ok st /\ st_values st = N.of_nat (length xs) /\ greatest xs (st_value_max st) /\ least xs (st_value_min st) /\
    (In (st_exponent_max st) (map exponent xs) /\ Forall (fun e => (e <= st_exponent_max st)%Z) (map exponent xs)) /\
    (In (st_exponent_min st) (map exponent xs) /\ Forall (fun e => (st_exponent_min st <= e)%Z) (map exponent xs)) /\
    st_exponent_avg st = fdiv (of_Z (total (map exponent xs))) (of_Z (Z.of_nat (length xs))) /\
    different xs ds /\ st_non_unique st = fdiv (of_Z (Z.of_nat (length xs) - Z.of_nat (length ds))) (of_Z (Z.of_nat (length xs))) /\
    ((2 <= length xs)%nat -> exists ls ts, Forall2 leading_zeros (neighbour_xors xs) ls /\ Forall2 trailing_zeros (neighbour_xors xs) ts /\
      st_leading st = fdiv (of_Z (total_n ls)) (of_Z (Z.of_nat (length xs) - 1)) /\
      st_trailing st = fdiv (of_Z (total_n ts)) (of_Z (Z.of_nat (length xs) - 1))).
Proof. exact c72_stats. Qed.
Print Assumptions C72_statistics_partial.
Example C72_example : let xs := [0x3ff0000000000000; 0x4000000000000000; 0x3ff0000000000000] in
  Forall (fun x => number x <> None) xs /\ exists st, compute_stats true xs = Ok st /\
  st_value_max st = 0x4000000000000000 /\ st_exponent_max st = 1%Z /\ st_values st = 3.
Proof. exact c72_sample. Qed.
(** A NaN among two or more values stops the program. *)
Theorem C72_nan_panics :
  forall dbg xs, (2 <= length xs)%nat -> Forall is_u64 xs -> Exists (fun x => number x = None) xs -> compute_stats dbg xs = Panic.
Proof. exact c72_nan. Qed.
Print Assumptions C72_nan_panics.
(** 2099203 zeros: debug builds panic; release builds report a positive average exponent. *)
Theorem C72_long_data_refuted : exists xs, Forall is_u64 xs /\ Forall (fun x => number x = Some 0%Z) xs /\ Forall (fun x => exponent x = (-1023)%Z) xs /\
  compute_stats true xs = Panic /\ exists st, compute_stats false xs = Ok st /\ flt (S754_zero false) (st_exponent_avg st) = true.
Proof. exact c72_refuted. Qed.
Print Assumptions C72_long_data_refuted.

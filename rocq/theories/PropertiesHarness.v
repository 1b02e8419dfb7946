(** The experiment runner: C73 to C78. *)
From Coq Require Import Reals String.
From Flocq Require Import Core.
From Verif Require Import Base Xor F64 F64Flocq Format Query QuerySpec Harness HarnessSpec HarnessMeanSpec HarnessProofs HarnessFileProofs HarnessMeanProofs HarnessSummary HarnessMeanSummary.
Local Open Scope N_scope.

(** ** C73: patching measures what was asked for and touches nothing else *)

(** Data sets that are not there, or skipped, and schemes not asked for keep their
    results.  For the others all compressions, filters and materializations are new,
    made on files of the right data set and configuration.  Maxima and sums are added
    to the old ones, once for each of the two reasons to patch. *)
Theorem C73_patch_partial : forall members read_result scheme_of measure lg64 s n es patching compressors w out w' out',
  listing es -> listing patching -> incl patching es -> (forall d, NoDup (s_filters s d) /\ one_per_scheme (s_configs s d)) -> saved_by_runs members w ->
  all_patch members read_result scheme_of measure lg64 s n es patching compressors w out = (w', Some out') ->
  (forall d, ~ In d (map e_stem es) \/ In d (s_skip s) -> get String.eqb d out' = get String.eqb d out) /\
  forall d, In d (map e_stem es) -> ~ In d (s_skip s) ->
    (forall k, (forall name c, In (name, c) (s_configs s d) -> config_scheme c = k -> ~ In name compressors /\ ~ In d (map e_stem patching)) ->
       has_results out' d k = has_results out d k /\ results_of out' d k = results_of out d k) /\
    forall name c, In (name, c) (s_configs s d) -> In name compressors \/ In d (map e_stem patching) ->
      has_results out' d (config_scheme c) = true /\
      let old := results_of out d (config_scheme c) in
      let new := results_of out' d (config_scheme c) in
      if skipped lg64 c (s_max s d) then new = mkInner [] [] [] (i_max old) (i_sum old)
      else measured (w_calls w) (w_calls w') n d c (s_filters s d) new /\
        let times := ((if in_dec string_dec name compressors then 1 else 0) + (if in_dec string_dec d (map e_stem patching) then 1 else 0))%nat in
        (exists more, i_max new = i_max old ++ more /\ groups (w_calls w) (w_calls w') n (Max d) c times more) /\
        (exists more, i_sum new = i_sum old ++ more /\ groups (w_calls w) (w_calls w') n (Sum d) c times more).
Proof. exact patched_results. Qed.
Print Assumptions C73_patch_partial.
Example C73_example : (listing sample_entries /\ listing sample_patching /\ incl sample_patching sample_entries /\
    (forall d, NoDup (s_filters sample_setting d) /\ one_per_scheme (s_configs sample_setting d)) /\ (0 < length sample_patching)%nat) /\
  run2 = (world_of run2, Some (output_of run2)) /\ saved_by_runs sample_members (world_of run1) /\
  (w_calls (world_of run1) < w_calls (world_of run2))%nat /\
  map r_number (i_compress (results_of (output_of run2) "a" SGorilla)) = [48; 49]%nat /\
  results_of (output_of run2) "a" SChimp = results_of (output_of run1) "a" SChimp.
Proof. exact (conj sample_listing c73_sample). Qed.
(** So maxima and sums are mixed: here two old ones (calls 32 and 33), then two and two
    new ones, beside two new compressions. *)
Theorem C73_maxima_refuted : exists w w' out out' d c,
  saved_by_runs sample_members w /\ sample_patch sample_entries sample_patching ["gorilla"%string] w out = (w', Some out') /\
  In ("gorilla"%string, c) (s_configs sample_setting d) /\ In d (map e_stem sample_patching) /\
  i_max (results_of out d (config_scheme c)) <> [] /\
  map r_number (i_compress (results_of out' d (config_scheme c))) = [72; 73]%nat /\
  map r_number (i_max (results_of out' d (config_scheme c))) = [32; 33; 68; 69; 80; 81]%nat /\
  w_calls w = 48%nat.
Proof. exact c73_refuted. Qed.
Print Assumptions C73_maxima_refuted.

(** ** C74: results saved by an interrupted run are used *)

(** They never are: no file the program saved can be read as what it looks for, so that
    a run makes the same calls, with the same results, as with nothing saved. *)
Theorem C74_never_resumes : forall members read_result scheme_of measure lg64 s n es patching compressors w out, listing patching -> saved_by_runs members w ->
  let with_saved := all_patch members read_result scheme_of measure lg64 s n es patching compressors w out in
  let without := all_patch members read_result scheme_of measure lg64 s n es patching compressors (mkWorld (w_calls w) (w_files w) []) out in
  w_calls (fst with_saved) = w_calls (fst without) /\ snd with_saved = snd without.
Proof. exact c74. Qed.
Print Assumptions C74_never_resumes.
(** A run that fails after data set [a] is complete; the next run measures it again. *)
Theorem C74_resume_refuted :
  saved_by_runs sample_members (fst (failing_patch first_world)) /\ snd (failing_patch first_world) = None /\ w_calls (fst (failing_patch first_world)) = 31%nat /\
  get String.eqb "a"%string (w_saved (fst (failing_patch first_world))) <> None /\
  exists w out, failing_patch (fst (failing_patch first_world)) = (w, Some out) /\ w_calls w = (31 + 48)%nat /\
    Forall (fun r => 31 <= r_number r)%nat (i_compress (results_of out "a" SGorilla)) /\ Forall (fun r => 31 <= r_number r)%nat (i_compress (results_of out "a" SChimp)).
Proof. exact c74_refuted. Qed.
Print Assumptions C74_resume_refuted.

(** ** C75: reported averages are the means of what was measured *)

(** The ratio is the mean over data sets of the mean over runs. *)
Theorem C75_ratio_partial : forall os, million (length os) ->
  Forall (fun o => million (length (i_compress o)) /\ Forall moderate_ratio (map r_ratio (i_compress o))) os ->
  about (mean (map (fun o => mean (map real (map r_ratio (i_compress o)))) os)) (average_compression_ratio os).
Proof. exact ratio_about. Qed.
Print Assumptions C75_ratio_partial.
(** The throughputs are the mean speed divided by the number of runs. *)
Theorem C75_throughput : forall n os, million n -> million (length os) -> Forall (runs_of n) os ->
  Forall (fun o => Forall quantity (map r_uncompressed (i_compress o)) /\ Forall quantity (map r_elapsed (i_compress o)) /\ Forall quantity (map r_elapsed (i_materialize o))) os ->
  about (mean (map compression_speed os) / INR n)%R (average_compression_throughput os) /\
  about (mean (map decompression_speed os) / INR n)%R (average_decompression_throughput os).
Proof. exact c75_throughput. Qed.
Print Assumptions C75_throughput.
Example C75_example : million 10 /\ million (length [ten_runs]) /\ Forall (runs_of 10) [ten_runs] /\
  Forall (fun o => Forall quantity (map r_uncompressed (i_compress o)) /\ Forall quantity (map r_elapsed (i_compress o)) /\ Forall quantity (map r_elapsed (i_materialize o))) [ten_runs] /\
  Forall (fun o => million (length (i_compress o)) /\ Forall moderate_ratio (map r_ratio (i_compress o))) [ten_runs] /\
  mean (map compression_speed [ten_runs]) = 1%R /\ mean (map decompression_speed [ten_runs]) = 1%R.
Proof. exact c75_sample. Qed.
(** So with ten runs they are ten times too small. *)
Theorem C75_throughput_refuted : exists os, os <> [] /\ Forall (runs_of 10) os /\
  Forall (fun o => Forall quantity (map r_uncompressed (i_compress o)) /\ Forall quantity (map r_elapsed (i_compress o)) /\ Forall quantity (map r_elapsed (i_materialize o))) os /\
  ~ about (mean (map compression_speed os)) (average_compression_throughput os) /\
  ~ about (mean (map decompression_speed os)) (average_decompression_throughput os).
Proof. exact c75_refuted. Qed.
Print Assumptions C75_throughput_refuted.
(** One data set for which the scheme was skipped makes all of them NaN. *)
Theorem C75_skipped_refuted : forall os, (exists o, In o os /\ i_compress o = []) ->
  average_compression_ratio os = S754_nan /\ average_compression_throughput os = S754_nan /\ average_decompression_throughput os = S754_nan.
Proof. exact no_runs_nan. Qed.
Print Assumptions C75_skipped_refuted.

(** ** C76: saving results loses none *)

(** Alone, it takes the least free number, and changes no other file. *)
Theorem C76_save_alone : forall k c, exists i, (forall j, (j < i)%nat -> dget j k <> None) /\ dget i k = None /\
  forall m, (i + 3 <= m)%nat -> exists k', run (repeat 0%nat m) k [start_save c] = (k', [mkProc c Done]) /\
    dget i k' = Some c /\ forall j, j <> i -> dget j k' = dget j k.
Proof. exact save_alone. Qed.
Print Assumptions C76_save_alone.
(** Whatever programs do, files that were there stay. *)
Theorem C76_old_files_stay : forall schedule k ps k' ps', Forall (fun p => exists c, p = start_save c \/ exists name, p = start_save_safely c name) ps ->
  run schedule k ps = (k', ps') -> forall name c, dget name k = Some c -> dget name k' = Some c.
Proof. exact old_files_stay. Qed.
Print Assumptions C76_old_files_stay.
(** [save_json_safely], any number of programs: when all are done, every name wanted
    holds what was there, or what exactly one of them wrote; the others have printed
    their results. *)
Theorem C76_save_safely : forall schedule k jobs k' ps', run schedule k (map (fun '(c, name) => start_save_safely c name) jobs) = (k', ps') ->
  Forall (fun p => p_step p = Done \/ p_step p = Printed) ps' -> forall a c name, nth_error jobs a = Some (c, name) ->
  match dget name k with
  | Some old => dget name k' = Some old /\ nth_error ps' a = Some (mkProc c Printed)
  | None => exists b d, nth_error jobs b = Some (d, name) /\ dget name k' = Some d /\
      nth_error ps' a = Some (mkProc c (if Nat.eqb a b then Done else Printed))
  end.
Proof. exact safe_finished. Qed.
Print Assumptions C76_save_safely.
Example C76_example : dget 0 [(0, [5%N]); (2, [6%N])]%nat = Some [5%N] /\
  run [0; 0; 0; 0; 0]%nat [(0, [5%N]); (2, [6%N])]%nat [start_save [7%N]] = ([(0, [5%N]); (2, [6%N]); (1, [7%N])]%nat, [mkProc [7%N] Done]) /\
  run [0; 1; 1; 0; 2; 2]%nat [(3, [5%N])]%nat (map (fun '(c, name) => start_save_safely c name) [([1%N], 7); ([2%N], 7); ([3%N], 3)]%nat) =
    ([(3, [5%N]); (7, [1%N])]%nat, [mkProc [1%N] Done; mkProc [2%N] Printed; mkProc [3%N] Printed]).
Proof. exact c76_sample. Qed.
(** Two programs that save numbered files at the same time: both are done, and the
    results of the first are nowhere. *)
Theorem C76_race_refuted : exists schedule k', run schedule [] [start_save [1%N]; start_save [2%N]] = (k', [mkProc [1%N] Done; mkProc [2%N] Done]) /\
  forall name, dget name k' <> Some [1%N].
Proof. exact c76_race. Qed.
Print Assumptions C76_race_refuted.
(** A crash between creating and writing leaves an empty file, which is then never
    replaced. *)
Theorem C76_crash_refuted : exists schedule k' ps', run schedule [] [start_save_safely [1%N] 7; start_save_safely [1%N] 7] = (k', ps') /\
  map p_step ps' = [Write 7; Printed] /\ dget 7 k' = Some [].
Proof. exact c76_torn. Qed.
Print Assumptions C76_crash_refuted.

(** ** C77: no scheme is run on values it cannot scale *)

(** A scheme is skipped unless all values that are not negative, times the scale, are
    finite and at most 2^63. *)
Theorem C77_nonnegative_partial : forall tie lg64 c s xs x a, Forall is_u64 xs -> s < 2 ^ 64 -> c = CBuff s \/ (exists k, c = CDeltaSprintz k s) ->
  skipped lg64 c (greatest_value tie xs) = false -> In x xs -> number x = Some a -> (0 <= a)%Z ->
  finite (fmul (of_bits x) (of_Z (Z.of_N s))) /\ (0 <= real (fmul (of_bits x) (of_Z (Z.of_N s))) <= bpow radix2 63)%R.
Proof. exact c77. Qed.
Print Assumptions C77_nonnegative_partial.
Example C77_example : Forall is_u64 [0x405edd2f1a9fbe77; 0]%N /\ skipped lg_sample (CBuff 1000) (greatest_value first_tie [0x405edd2f1a9fbe77; 0]%N) = false /\
  exists a, number 0x405edd2f1a9fbe77 = Some a /\ (0 <= a)%Z.
Proof. exact c77_sample. Qed.
(** The schemes without a scale are never skipped. *)
Theorem C77_unscaled : forall lg64 c m, (forall s, c <> CBuff s) -> (forall k s, c <> CDeltaSprintz k s) -> skipped lg64 c m = false.
Proof. exact c77_unscaled. Qed.
Print Assumptions C77_unscaled.
Example C77_unscaled_example : (forall s, CGorilla 7 <> CBuff s) /\ forall k s, CGorilla 7 <> CDeltaSprintz k s.
Proof. split; intros; discriminate. Qed.
(** Negative ones are not looked at (-1e300 times 1000 is below -2^63), *)
Theorem C77_negative_refuted : exists xs x, Forall ordinary xs /\ In x xs /\ forall tie, skipped lg_sample (CBuff 1000) (greatest_value tie xs) = false /\
  flt (fmul (of_bits x) (of_Z 1000)) (of_bits 0xc3e0000000000000) = true.
Proof. exact c77_refuted. Qed.
Print Assumptions C77_negative_refuted.
(** and 2^63 itself, which is not an i64, passes. *)
Theorem C77_boundary_refuted : exists xs x, Forall ordinary xs /\ In x xs /\ forall tie, skipped lg_sample (CDeltaSprintz 100 1) (greatest_value tie xs) = false /\
  fmul (of_bits x) (of_Z 1) = of_Z (2 ^ 63).
Proof. exact c77_boundary_refuted. Qed.
Print Assumptions C77_boundary_refuted.

(** ** C78: generated filters select what their names say *)
Theorem C78_filters : forall xs files, xs <> [] -> Forall ordinary xs -> exists ten half ninety files',
  create_filters xs files = (Ok files', files') /\
  percentile_of xs ten (length xs * 10 / 100) /\ percentile_of xs half (length xs * 50 / 100) /\ percentile_of xs ninety (length xs * 90 / 100) /\
  (forall m k, selects (PEq half) xs m -> selects (PNe half) xs k -> (1 <= m /\ m + k = length xs)%nat) /\
  map (fun name => get String.eqb name files') filter_files =
    [Some (PRange (Exclusive ten) Unbounded); Some (PRange (Exclusive half) Unbounded); Some (PRange (Exclusive ninety) Unbounded); Some (PEq half); Some (PNe half)] /\
  forall j, ~ In j filter_files -> get String.eqb j files' = get String.eqb j files.
Proof. exact c78. Qed.
Print Assumptions C78_filters.
Example C78_example : Forall ordinary ten_numbers /\
  snd (create_filters ten_numbers []) =
    [("greater_10th_percentile", PRange (Exclusive (to_bits (of_Z 2))) Unbounded); ("greater_50th_percentile", PRange (Exclusive (to_bits (of_Z 6))) Unbounded);
     ("greater_90th_percentile", PRange (Exclusive (to_bits (of_Z 10))) Unbounded); ("eq", PEq (to_bits (of_Z 6))); ("ne", PNe (to_bits (of_Z 6)))]%string.
Proof. exact c78_sample. Qed.
(** No records: a panic.  A NaN among them: an error, and nothing is changed. *)
Theorem C78_failure : forall xs files, Forall is_u64 xs ->
  (xs = [] -> create_filters xs files = (Panic, files)) /\ ((exists x, In x xs /\ number x = None) -> create_filters xs files = (Err tt, files)).
Proof. exact c78_failure. Qed.
Print Assumptions C78_failure.
(** An infinite operand: an error that leaves filters made for other data. *)
Theorem C78_infinite_refuted : exists files files', snd (create_filters ten_numbers []) = files /\ Forall (fun x => is_u64 x /\ number x <> None) infinities /\
  create_filters infinities files = (Err tt, files') /\ get String.eqb "eq"%string files' = Some (PEq (to_bits (of_Z 6))) /\
  get String.eqb "greater_10th_percentile"%string files' = None.
Proof. exact c78_refuted. Qed.
Print Assumptions C78_infinite_refuted.

(** C64-C66: the TPC-H experiment. *)
From Coq Require Import String.
From Verif Require Import Base Xor F64 Format FormatSpec File FileSpec Codecs CodecSpec Query QuerySpec Expr Tpch TpchSpec TpchSummary.
Local Open Scope N_scope.
Local Open Scope string_scope.

(** C64: query 6.  For a lineitem table in any number of batches, with its decimal
    columns in any order, every scheme but BUFF selects exactly the right rows and
    reports their revenue within a relative error of 2^-27. *)
Theorem C64_revenue_partial P batches names rows :
  good_platform P -> parquet_holds names batches rows -> usable_table names rows ->
  In "l_discount" names -> In "l_quantity" names -> In "l_extendedprice" names ->
  exists cols, extract_columns batches [] = Ok cols /\
  forall c, In c (all_configs 100) -> config_scheme c <> SBuff -> fits_memory P c cols ->
  exists o, run_h06 P c cols = Ok [o] /\ reports (q6_revenue rows) (10 ^ 4) o.
Proof. exact (c64 P batches names rows). Qed.
Print Assumptions C64_revenue_partial.

(** The whole run: one entry for each of the 13 schemes, all right but BUFF's. *)
Theorem C64_process_partial P batches names rows results :
  good_platform P -> parquet_holds names batches rows -> usable_table names rows ->
  In "l_discount" names -> In "l_quantity" names -> In "l_extendedprice" names ->
  (forall cols c, extract_columns batches [] = Ok cols -> In c (all_configs 100) -> fits_memory P c cols) ->
  process_h06 P batches = Ok results ->
  map fst results = map config_scheme (all_configs 100) /\
  forall s os, In (s, os) results -> s <> SBuff -> exists o, os = [o] /\ reports (q6_revenue rows) (10 ^ 4) o.
Proof. exact (c64_process P batches names rows results). Qed.
Print Assumptions C64_process_partial.

Example C64_example : good_platform tpch_platform /\ parquet_holds tpch_names tpch_batches tpch_rows /\ usable_table tpch_names tpch_rows.
Proof. exact tpch_sample. Qed.
Example C64_example_fits : exists cols, extract_columns tpch_batches [] = Ok cols /\ length cols = 4%nat /\
  Forall (fun c => fits_memory tpch_platform c cols) (all_configs 100).
Proof. exact tpch_fits. Qed.
Example C64_example_revenue : q6_revenue tpch_rows = 26923748%Z.
Proof. vm_compute. reflexivity. Qed.

(** The whole run ends without an error (100 having two decimal digits), with one entry
    for each scheme.  BUFF's revenue is that of the amounts it keeps, of exactly the
    right rows if every chunk has quantities on both sides of 24. *)
Theorem C64_run_partial P batches names rows :
  good_platform P -> p_lg P 100 = 2 -> parquet_holds names batches rows -> usable_table names rows ->
  In "l_discount" names -> In "l_quantity" names -> In "l_extendedprice" names ->
  (forall cols c, extract_columns batches [] = Ok cols -> In c (all_configs 100) -> fits_memory P c cols) ->
  exists results, process_h06 P batches = Ok results /\
    Forall2 (fun c r => fst r = config_scheme c /\ exists o, snd r = [o] /\
      (config_scheme c <> SBuff -> reports (q6_revenue rows) (10 ^ 4) o) /\
      (config_scheme c = SBuff -> quantities_mixed rows -> reports (q6_kept rows) (2 ^ 16) o)) (all_configs 100) results.
Proof. exact (c64_run P batches names rows). Qed.
Print Assumptions C64_run_partial.
Example C64_example_mixed : good_platform tpch_platform /\ p_lg tpch_platform 100 = 2 /\ quantities_mixed tpch_rows /\
  parquet_holds tpch_names tpch_batches tpch_rows /\ usable_table tpch_names tpch_rows.
Proof. exact (conj (proj1 tpch_sample) (conj (proj1 tpch_mixed) (conj (proj2 tpch_mixed) (proj2 tpch_sample)))). Qed.
Example C64_example_kept : q6_kept tpch_rows = 166902015%Z.
Proof. vm_compute. reflexivity. Qed.

(** On every such table BUFF's revenue is too low by 2% or more. *)
Theorem C64_buff_low_refuted P batches names rows :
  good_platform P -> p_lg P 100 = 2 -> parquet_holds names batches rows -> usable_table names rows ->
  In "l_discount" names -> In "l_quantity" names -> In "l_extendedprice" names -> quantities_mixed rows ->
  exists cols, extract_columns batches [] = Ok cols /\
  (fits_memory P (CBuff 100) cols -> exists x a, run_h06 P (CBuff 100) cols = Ok [Aggregated (Scalar (of_bits x))] /\ number x = Some a /\
    (100 * (a * 10 ^ 4) <= 98 * (q6_revenue rows * 2 ^ 1074))%Z).
Proof. exact (c64_buff_low P batches names rows). Qed.
Print Assumptions C64_buff_low_refuted.

(** BUFF can be more than a quarter too high. *)
Theorem C64_buff_refuted : exists P batches names rows results x a,
  good_platform P /\ parquet_holds names batches rows /\ usable_table names rows /\ incl ["l_discount"; "l_quantity"; "l_extendedprice"] names /\
  (forall cols c, extract_columns batches [] = Ok cols -> In c (all_configs 100) -> fits_memory P c cols) /\
  process_h06 P batches = Ok results /\ In (SBuff, [Aggregated (Scalar (of_bits x))]) results /\
  number x = Some a /\ (5 * q6_revenue rows * 2 ^ 1074 < 4 * a * 10 ^ 4)%Z.
Proof. exact c64_buff_refuted. Qed.
Print Assumptions C64_buff_refuted.

(** One NULL discount makes five schemes report another revenue, without an error. *)
Theorem C64_null_refuted : exists P names rows batch results,
  good_platform P /\ usable_table names rows /\ incl ["l_discount"; "l_quantity"; "l_extendedprice"] names /\ null_discount names rows batch /\
  (forall cols c, extract_columns [batch] [] = Ok cols -> In c (all_configs 100) -> fits_memory P c cols) /\
  process_h06 P [batch] = Ok results /\
  (exists o, In (SUncompressed, [o]) results /\ reports (q6_revenue rows) (10 ^ 4) o) /\
  forall s, In s [SChimp128; SChimp; SElfOnChimp; SElf; SGorilla] -> exists o, In (s, [o]) results /\ ~ reports (q6_revenue rows) (10 ^ 4) o.
Proof. exact c64_null_refuted. Qed.
Print Assumptions C64_null_refuted.

(** C65: query 1.  The sums stand where SQL puts them, each within a relative error of
    2^-27; the averages do not: price comes before quantity. *)
Theorem C65_q1_partial P batches names rows :
  good_platform P -> parquet_holds names batches rows -> usable_table names rows ->
  In "l_discount" names -> In "l_quantity" names -> In "l_extendedprice" names -> In "l_tax" names ->
  exists cols, extract_columns batches [] = Ok cols /\
  forall c, In c (all_configs 100) -> config_scheme c <> SBuff -> fits_memory P c cols ->
  exists sq sp sd sc ap aq ad, run_h01 P c cols = Ok [sq; sp; sd; sc; ap; aq; ad; Integer (N.of_nat (length rows))] /\
    reports (sum_of_column "l_quantity" rows) 100 sq /\ reports (sum_of_column "l_extendedprice" rows) 100 sp /\
    reports (sum_discounted rows) (10 ^ 4) sd /\ reports (sum_charge rows) (10 ^ 6) sc /\
    average_of_column "l_extendedprice" rows ap /\ average_of_column "l_quantity" rows aq /\ average_of_column "l_discount" rows ad.
Proof. exact (c65 P batches names rows). Qed.
Print Assumptions C65_q1_partial.
Example C65_example : good_platform tpch_platform /\ parquet_holds tpch_names tpch_batches tpch_rows /\ usable_table tpch_names tpch_rows.
Proof. exact tpch_sample. Qed.

(** The simplified query: two sums, the averages of discount, quantity and price, the
    count. *)
Theorem C65_simplified P batches names rows :
  good_platform P -> parquet_holds names batches rows -> usable_table names rows ->
  In "l_discount" names -> In "l_quantity" names -> In "l_extendedprice" names ->
  exists cols, extract_columns batches [] = Ok cols /\
  forall c, In c (all_configs 100) -> config_scheme c <> SBuff -> fits_memory P c cols ->
  exists sq sp ad aq ap, run_h01_simplified P c cols = Ok [sq; sp; ad; aq; ap; Integer (N.of_nat (length rows))] /\
    reports (sum_of_column "l_quantity" rows) 100 sq /\ reports (sum_of_column "l_extendedprice" rows) 100 sp /\
    average_of_column "l_discount" rows ad /\ average_of_column "l_quantity" rows aq /\ average_of_column "l_extendedprice" rows ap.
Proof. exact (c65_simplified P batches names rows). Qed.
Print Assumptions C65_simplified.

(** The whole run: BUFF's answers are those of the amounts it keeps. *)
Theorem C65_run_partial P batches names rows :
  good_platform P -> p_lg P 100 = 2 -> parquet_holds names batches rows -> usable_table names rows ->
  In "l_discount" names -> In "l_quantity" names -> In "l_extendedprice" names -> In "l_tax" names ->
  (forall cols c, extract_columns batches [] = Ok cols -> In c (all_configs 100) -> fits_memory P c cols) ->
  exists results, process_h01 P batches = Ok results /\
    Forall2 (fun c r => fst r = config_scheme c /\ exists sq sp sd sc ap aq ad, snd r = [sq; sp; sd; sc; ap; aq; ad; Integer (N.of_nat (length rows))] /\
      (config_scheme c <> SBuff ->
        reports (sum_of_column "l_quantity" rows) 100 sq /\ reports (sum_of_column "l_extendedprice" rows) 100 sp /\
        reports (sum_discounted rows) (10 ^ 4) sd /\ reports (sum_charge rows) (10 ^ 6) sc /\
        average_of_column "l_extendedprice" rows ap /\ average_of_column "l_quantity" rows aq /\ average_of_column "l_discount" rows ad) /\
      (config_scheme c = SBuff ->
        reports (kept_sum "l_quantity" rows) 256 sq /\ reports (kept_sum "l_extendedprice" rows) 256 sp /\
        reports (kept_discounted rows) (2 ^ 16) sd /\ reports (kept_charge rows) (2 ^ 24) sc /\
        kept_average "l_extendedprice" rows ap /\ kept_average "l_quantity" rows aq /\ kept_average "l_discount" rows ad)) (all_configs 100) results.
Proof. exact (c65_run P batches names rows). Qed.
Print Assumptions C65_run_partial.

(** The same for the simplified query. *)
Theorem C65_simplified_run P batches names rows :
  good_platform P -> p_lg P 100 = 2 -> parquet_holds names batches rows -> usable_table names rows ->
  In "l_discount" names -> In "l_quantity" names -> In "l_extendedprice" names ->
  (forall cols c, extract_columns batches [] = Ok cols -> In c (all_configs 100) -> fits_memory P c cols) ->
  exists results, process_h01_simplified P batches = Ok results /\
    Forall2 (fun c r => fst r = config_scheme c /\ exists sq sp ad aq ap, snd r = [sq; sp; ad; aq; ap; Integer (N.of_nat (length rows))] /\
      (config_scheme c <> SBuff ->
        reports (sum_of_column "l_quantity" rows) 100 sq /\ reports (sum_of_column "l_extendedprice" rows) 100 sp /\
        average_of_column "l_discount" rows ad /\ average_of_column "l_quantity" rows aq /\ average_of_column "l_extendedprice" rows ap) /\
      (config_scheme c = SBuff ->
        reports (kept_sum "l_quantity" rows) 256 sq /\ reports (kept_sum "l_extendedprice" rows) 256 sp /\
        kept_average "l_discount" rows ad /\ kept_average "l_quantity" rows aq /\ kept_average "l_extendedprice" rows ap)) (all_configs 100) results.
Proof. exact (c65_simplified_run P batches names rows). Qed.
Print Assumptions C65_simplified_run.

Example C65_run_example : good_platform tpch_platform /\ p_lg tpch_platform 100 = 2 /\ quantities_mixed tpch_rows /\
  parquet_holds tpch_names tpch_batches tpch_rows /\ usable_table tpch_names tpch_rows.
Proof. exact (conj (proj1 tpch_sample) (conj (proj1 tpch_mixed) (conj (proj2 tpch_mixed) (proj2 tpch_sample)))). Qed.

(** The answers are not in the order of SQL, nor beside their names. *)
Theorem C65_order_refuted : exists P batches names rows results,
  good_platform P /\ parquet_holds names batches rows /\ usable_table names rows /\ incl ["l_discount"; "l_quantity"; "l_extendedprice"; "l_tax"] names /\
  (forall cols c, extract_columns batches [] = Ok cols -> In c (all_configs 100) -> fits_memory P c cols) /\
  process_h01 P batches = Ok results /\
  exists os, In (SUncompressed, os) results /\ ~ q1_answers rows os /\
    exists sums averages, h01_names = Ok (sums :: averages) /\ ~ Forall2 (named_average rows) averages (firstn 3 (skipn 4 os)).
Proof. exact c65_refuted. Qed.
Print Assumptions C65_order_refuted.

(** C66: every decimal column is encoded once, and its statistics state eight bytes
    for each row, the size of the file and the size of its chunks. *)
Theorem C66_statistics P batches names rows :
  good_platform P -> parquet_holds names batches rows -> usable_table names rows ->
  exists cols, extract_columns batches [] = Ok cols /\ NoDup (map fst cols) /\ (forall n, In n (map fst cols) <-> In n names) /\
  forall c, In c (all_configs 100) -> config_scheme c <> SBuff -> fits_memory P c cols ->
  exists ds, open_columns P c cols = Ok ds /\
    Forall2 (fun col d => f_records (m_footer (d_meta (fst d))) = N.of_nat (length rows) /\ f_config (m_footer (d_meta (fst d))) = c /\
      st_uncompressed (snd d) = 8 * N.of_nat (length rows) /\
      st_file (snd d) = N.of_nat (length (written [] (fst (encode_column P c (snd col))))) /\
      st_file (snd d) = 30 + st_chunks (snd d) + footer_size (m_footer (d_meta (fst d)))) cols ds.
Proof. exact (c66 P batches names rows). Qed.
Print Assumptions C66_statistics.
(** BUFF too, if 100 has two decimal digits. *)
Theorem C66_statistics_all P batches names rows :
  good_platform P -> p_lg P 100 = 2 -> parquet_holds names batches rows -> usable_table names rows ->
  exists cols, extract_columns batches [] = Ok cols /\ NoDup (map fst cols) /\ (forall n, In n (map fst cols) <-> In n names) /\
  forall c, In c (all_configs 100) -> fits_memory P c cols ->
  exists ds, open_columns P c cols = Ok ds /\
    Forall2 (fun col d => f_records (m_footer (d_meta (fst d))) = N.of_nat (length rows) /\ f_config (m_footer (d_meta (fst d))) = c /\
      st_uncompressed (snd d) = 8 * N.of_nat (length rows) /\
      st_file (snd d) = N.of_nat (length (written [] (fst (encode_column P c (snd col))))) /\
      st_file (snd d) = 30 + st_chunks (snd d) + footer_size (m_footer (d_meta (fst d)))) cols ds.
Proof. exact (c66_buff P batches names rows). Qed.
Print Assumptions C66_statistics_all.

Example C66_example : exists cols, extract_columns tpch_batches [] = Ok cols /\ length cols = 4%nat /\
  Forall (fun c => fits_memory tpch_platform c cols) (all_configs 100).
Proof. exact tpch_fits. Qed.

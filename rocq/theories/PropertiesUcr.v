(** C79 and C80: what the classification and the matrix experiments report.  Each
    theorem is proved in UcrSummary.v; the vocabulary is in UcrSpec.v, TextSpec.v and
    ExprSpec.v. *)
From Verif Require Import Base F64 Format File FileSpec Codecs CodecSpec Query DecimalSpec Expr ExprSpec Text TextSpec TextSummary Tpch TpchSpec Ucr UcrSpec UcrProofs UcrMatrixProofs UcrSummary.
Local Open Scope N_scope.

(** ** C79: the accuracy is the share of vectors labelled like their nearest neighbour *)
(** For every scheme but BUFF, values it keeps, and vectors that do not span chunks.
    Missing: BUFF, for which it is false (below), and vectors that span chunks, which
    are not searched correctly (C48). *)
Theorem C79_accuracy_partial :
  forall P scale c fuel n precision train test len,
  good_platform P -> 1 <= scale < 2 ^ 32 -> In c (experiment_configs false scale) -> config_scheme c <> SBuff ->
  (0 < len)%nat -> vectors len train -> vectors len test ->
  N.of_nat (length (values train)) < 2 ^ 32 -> fitting len (N.of_nat (length (values train))) ->
  Forall (keeps (p_log10 P) c) (values train) -> fits P c (values train) -> (0 < n)%nat -> (length (values train) <= fuel)%nat ->
  exists k, how_many (fun x => nearest_label (p_neg P) train (snd x) (fst x)) test k /\
    accuracy P fuel n precision c train test = Some (Ok (fdiv (of_Z (Z.of_nat k)) (of_Z (Z.of_nat (length test))))).
Proof. exact accuracy_ok. Qed.
Print Assumptions C79_accuracy_partial.
(** Decimals with at most 9 digits after the point: every scheme but BUFF. *)
Theorem C79_decimals_partial :
  forall P p c fuel n precision train test len,
  good_platform P -> p <= 9 -> In c (experiment_configs false (10 ^ p)) -> config_scheme c <> SBuff ->
  (0 < len)%nat -> vectors len train -> vectors len test -> Forall (decimal_value p) (values train) ->
  N.of_nat (length (values train)) < 2 ^ 32 -> fitting len (N.of_nat (length (values train))) ->
  fits P c (values train) -> (0 < n)%nat -> (length (values train) <= fuel)%nat ->
  exists k, how_many (fun x => nearest_label (p_neg P) train (snd x) (fst x)) test k /\
    accuracy P fuel n precision c train test = Some (Ok (fdiv (of_Z (Z.of_nat k)) (of_Z (Z.of_nat (length test))))).
Proof. exact accuracy_decimals. Qed.
Print Assumptions C79_decimals_partial.
(** They all report the same. *)
Theorem C79_schemes_agree_partial :
  forall P p c1 c2 fuel n precision train test len,
  good_platform P -> p <= 9 -> (0 < len)%nat -> vectors len train -> vectors len test -> Forall (decimal_value p) (values train) ->
  N.of_nat (length (values train)) < 2 ^ 32 -> fitting len (N.of_nat (length (values train))) -> (0 < n)%nat -> (length (values train) <= fuel)%nat ->
  Forall (fun c => In c (experiment_configs false (10 ^ p)) /\ config_scheme c <> SBuff /\ fits P c (values train)) [c1; c2] ->
  accuracy P fuel n precision c1 train test = accuracy P fuel n precision c2 train test /\ exists a, accuracy P fuel n precision c1 train test = Some (Ok a).
Proof. exact accuracy_agrees. Qed.
Print Assumptions C79_schemes_agree_partial.
Example C79_example : good_platform ucr_platform /\ vectors 1 ucr_train /\ vectors 1 ucr_test /\ Forall (decimal_value 1) (values ucr_train) /\
  fitting 1 (N.of_nat (length (values ucr_train))) /\ length (experiment_configs false 10) = 13%nat /\ Forall (fun c => fits ucr_platform c (values ucr_train)) (experiment_configs false 10).
Proof. exact ucr_sample. Qed.
(** From the texts of the two files, up to six digits after the point; the first line of
    each file is lost (C71). *)
Theorem C79_files_partial :
  forall P parse p s fuel n precision c trains tests len,
  good_platform P -> get_appropriate_precision (p_dbg P) 9 false (series_text trains) = Ok p -> p <= 6 -> (0 < len)%nat ->
  (2 <= length trains)%nat -> (2 <= length tests)%nat -> Forall (series_line parse p len) trains -> Forall (series_line parse p len) tests ->
  let total := N.of_nat ((length trains - 1) * len) in total < 2 ^ 32 -> fitting len total -> (0 < n)%nat -> (N.to_nat total <= fuel)%nat ->
  In c (experiment_configs false s) -> config_scheme c <> SBuff ->
  exists train test, loaded_series p trains train /\ loaded_series p tests test /\
    (fits P (set_scale c (10 ^ p)) (values train) ->
     exists k, how_many (fun x => nearest_label (p_neg P) train (snd x) (fst x)) test k /\
       ucr_dataset P parse fuel n precision c (series_text trains) (series_text tests) =
         Ok (Some (Ok (fdiv (of_Z (Z.of_nat k)) (of_Z (Z.of_nat (length test))))))).
Proof. exact files_ok. Qed.
Print Assumptions C79_files_partial.
Example C79_files_example : Forall (series_line small_parse 1 2) sample_series /\ (2 <= length sample_series)%nat /\
  get_appropriate_precision (p_dbg ucr_platform) 9 false (series_text sample_series) = Ok 1 /\
  exists train, loaded_series 1 sample_series train /\ length train = 2%nat /\ Forall (fun c => fits ucr_platform (set_scale c 10) (values train)) (experiment_configs false 1).
Proof. exact files_sample. Qed.
(** BUFF stores 0.5 and 0.1 a little too small, so that the nearest to 0.3 is the other. *)
Theorem C79_buff_refuted : exists P p len train test, good_platform P /\ p <= 9 /\ (0 < len)%nat /\ vectors len train /\ vectors len test /\
  Forall (decimal_value p) (values train) /\ fits P (CBuff (10 ^ p)) (values train) /\
  forall precision, In precision [None; Some 1; Some 2; Some 12] -> exists a, accuracy P 9 1 precision (CBuff (10 ^ p)) train test = Some (Ok a) /\
    ~ exists k, how_many (fun x => nearest_label (p_neg P) train (snd x) (fst x)) test k /\ a = fdiv (of_Z (Z.of_nat k)) (of_Z (Z.of_nat (length test))).
Proof. exact buff_differs. Qed.
Print Assumptions C79_buff_refuted.

(** ** C80: every scheme multiplies the same matrices *)
(** For every scheme but BUFF and the sizes whose square divides 2^24: the entries of
    the product are those of the rounded numbers, summed up in order, up to the signs
    of zeros.  Missing: BUFF and other sizes, for which it is false (below). *)
Theorem C80_products_partial :
  forall P precision size data target,
  good_platform P -> 0 < size -> 2 ^ 24 mod (size * size) = 0 -> N.of_nat (length data) = 40 * size * size -> N.of_nat (length target) = size * size ->
  Forall fraction data -> Forall fraction target ->
  exists xs rows ys columns, Forall2 matrix_entry data xs /\ in_rows size xs rows /\ Forall2 matrix_entry target ys /\ in_rows size ys columns /\
    forall c, In c (experiment_configs false (10 ^ 8)) -> config_scheme c <> SBuff -> fits P c xs ->
      exists out, matrix_product P precision size c data target = Ok out /\ Forall2 same out (flat_map (fun row => map (dot (p_neg P) row) columns) rows).
Proof. exact product_exact. Qed.
Print Assumptions C80_products_partial.
Example C80_example : good_platform ucr_platform /\ 2 ^ 24 mod (1 * 1) = 0 /\ N.of_nat (length matrix_data) = 40 * 1 * 1 /\ N.of_nat (length matrix_target) = 1 * 1 /\
  Forall fraction matrix_data /\ Forall fraction matrix_target /\ Forall (fun c => fits ucr_platform c (map matrix_value matrix_data)) (experiment_configs false (10 ^ 8)).
Proof. exact matrix_sample. Qed.
Theorem C80_size_refuted :
  forall P precision size c data target, 2 ^ 24 mod (size * size) <> 0 \/ size = 0 -> matrix_product P precision size c data target = Panic.
Proof. exact product_size. Qed.
Print Assumptions C80_size_refuted.
Example C80_size_example : 2 ^ 24 mod (100 * 100) <> 0.
Proof. discriminate. Qed.
Theorem C80_buff_refuted : exists P precision size data target out out',
  good_platform P /\ 2 ^ 24 mod (size * size) = 0 /\ N.of_nat (length data) = 40 * size * size /\ N.of_nat (length target) = size * size /\
  Forall fraction data /\ Forall fraction target /\
  matrix_product P precision size (CBuff (10 ^ 8)) data target = Ok out /\ matrix_product P precision size (CUncompressed default_capacity) data target = Ok out' /\
  ~ Forall2 same out out'.
Proof. exact product_buff. Qed.
Print Assumptions C80_buff_refuted.

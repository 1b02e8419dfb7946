(** What the classification and the matrix experiments report; samples. *)
From Coq Require Import QArith Qabs.
From Verif Require Import Base WordProofs Xor F64 Format FormatSpec File FileSpec Codecs CodecSpec Query QuerySpec DecimalSpec Expr ExprSpec ExprSummary FileSummary
  DecimalFloatProofs Text TextSpec PipelineProofs TextSummary Tpch TpchSpec TpchSummary Ucr UcrSpec UcrDistanceProofs UcrColumnProofs UcrProofs UcrDecimalProofs UcrMatrixProofs.
Local Open Scope N_scope.

(** ** Decimals *)
Lemma how_many_unique {A} (Q : A -> Prop) xs k : how_many Q xs k -> forall j, how_many Q xs j -> k = j.
Proof. induction 1; intros j J; inversion J; subst; try contradiction; f_equal; auto. Qed.

Theorem accuracy_decimals P p c fuel n precision train test len :
  good_platform P -> p <= 9 -> In c (experiment_configs false (10 ^ p)) -> config_scheme c <> SBuff ->
  (0 < len)%nat -> vectors len train -> vectors len test -> Forall (decimal_value p) (values train) ->
  N.of_nat (length (values train)) < 2 ^ 32 -> fitting len (N.of_nat (length (values train))) ->
  fits P c (values train) -> (0 < n)%nat -> (length (values train) <= fuel)%nat ->
  exists k, how_many (fun x => nearest_label (p_neg P) train (snd x) (fst x)) test k /\
    accuracy P fuel n precision c train test = Some (Ok (fdiv (of_Z (Z.of_nat k)) (of_Z (Z.of_nat (length test))))).
Proof.
  intros GP Hp I NB LP TR TE D XL FI MEM NP FU. apply (accuracy_ok P (10 ^ p) c fuel n precision train test len); auto; [now apply scale_bounded|].
  eapply Forall_impl; [|exact D]. intros x X. now apply (decimals_kept _ p).
Qed.
Theorem accuracy_agrees P p c1 c2 fuel n precision train test len :
  good_platform P -> p <= 9 -> (0 < len)%nat -> vectors len train -> vectors len test -> Forall (decimal_value p) (values train) ->
  N.of_nat (length (values train)) < 2 ^ 32 -> fitting len (N.of_nat (length (values train))) -> (0 < n)%nat -> (length (values train) <= fuel)%nat ->
  Forall (fun c => In c (experiment_configs false (10 ^ p)) /\ config_scheme c <> SBuff /\ fits P c (values train)) [c1; c2] ->
  accuracy P fuel n precision c1 train test = accuracy P fuel n precision c2 train test /\ exists a, accuracy P fuel n precision c1 train test = Some (Ok a).
Proof.
  intros GP Hp LP TR TE D XL FI NP FU F. inversion F as [|? ? (I1 & N1 & M1) G]; subst. inversion G as [|? ? (I2 & N2 & M2) _]; subst.
  destruct (accuracy_decimals P p c1 fuel n precision train test len) as (k & K & E); auto.
  destruct (accuracy_decimals P p c2 fuel n precision train test len) as (j & J & E2); auto.
  rewrite E, E2, (how_many_unique _ _ _ K _ J). eauto.
Qed.

(** ** From the two files of a data set *)
Lemma loaded_decimal p m y : p <= 6 -> smaller 0 (10 ^ 9 - 1) m -> smaller p (2 ^ 49) m -> loaded_value p m y -> decimal_value p (to_bits y).
Proof.
  intros Hp S0 Sp ((t & q & ID & NF & CL) & _). apply (nearest_decimal _ _ _ _ ID) in NF. exists t. split; [|exact NF].
  unfold smaller in S0, Sp. change (10 ^ Z.of_N 0)%Z with 1%Z in S0.
  assert (T1 : (Z.abs t < 2 ^ 49 + 1)%Z /\ (Z.abs t < (10 ^ 9 - 1) * 10 ^ Z.of_N p + 1)%Z).
  { set (w := (10 ^ Z.of_N p)%Z) in *. assert (W : (0 < w)%Z) by (unfold w; apply Z.pow_pos_nonneg; lia).
    assert (TR : (inject_Z (Z.abs t) <= Qabs (value m) * inject_Z w + Qabs (value m * inject_Z w - inject_Z t))%Q).
    { change (inject_Z (Z.abs t)) with (Qabs (inject_Z t)).
      setoid_replace (inject_Z t) with (value m * inject_Z w + - (value m * inject_Z w - inject_Z t))%Q by ring. eapply Qle_trans; [apply Qabs_triangle|]. rewrite Qabs_opp, Qabs_Qmult, (Qabs_pos (inject_Z w)).
      { setoid_replace (value m * inject_Z w + - (value m * inject_Z w - inject_Z t))%Q with (inject_Z t) by ring. apply Qle_refl. }
      change 0%Q with (inject_Z 0). rewrite <- Zle_Qle. lia. }
    split; rewrite Zlt_Qlt.
    - rewrite inject_Z_plus. eapply Qle_lt_trans; [exact TR|]. apply Qplus_lt_le_compat; [exact Sp|now apply Qlt_le_weak].
    - rewrite inject_Z_plus, inject_Z_mult. eapply Qle_lt_trans; [exact TR|]. apply Qplus_lt_le_compat; [|now apply Qlt_le_weak].
      apply Qmult_lt_r; [change 0%Q with (inject_Z 0); now rewrite <- Zlt_Qlt|]. rewrite Qmult_1_r in S0. exact S0. }
  destruct T1 as [A B]. change (2 ^ 49 + 1)%Z with 562949953421313%Z in A. change (10 ^ 15)%Z with 1000000000000000%Z. change (10 ^ 9 - 1)%Z with 999999999%Z in B. change (10 ^ 9)%Z with 1000000000%Z.
  assert (W : (1 <= 10 ^ Z.of_N p <= 10 ^ 6)%Z). { split; [change 1%Z with (10 ^ 0)%Z|]; apply Z.pow_le_mono_r; lia. }
  split; [lia|]. split; [nia|]. destruct (Z.eq_dec t 0) as [Z|Z]; [now left|right]. change (10 ^ 6)%Z with 1000000%Z in *. lia.
Qed.

Lemma table_loaded parse dbg train p len rows : get_appropriate_precision dbg 9 false train = Ok p -> p <= 6 -> (2 <= length rows)%nat -> Forall (series_line parse p len) rows ->
  exists data, load_dataset parse dbg train (series_text rows) = Ok (10 ^ p, data) /\ loaded_series p rows (bits_of data) /\
    vectors len (bits_of data) /\ Forall (decimal_value p) (values (bits_of data)) /\ length (values (bits_of data)) = ((length rows - 1) * len)%nat.
Proof.
  intros E Hp L F. destruct (c71 parse dbg train p rows E ltac:(lia)) as (data & LD & FL).
  { eapply Forall_impl; [|exact F]. intros r (W & R & _ & S). split; [exact W|]. split; [exact R|]. eapply Forall_impl; [|exact S]. cbv beta. tauto. }
  exists data. split; [exact LD|]. split; [exists data; split; [reflexivity|exact FL]|].
  assert (G : Forall (fun x : Z * list N => length (snd x) = len /\ Forall (decimal_value p) (snd x)) (bits_of data)).
  { assert (FT : Forall (fun s : series => length (snd s) = len /\ Forall (fun n => smaller p (2 ^ 49) n /\ smaller 0 (10 ^ 9 - 1) n) (snd s)) (tl (map fst rows))).
    { assert (A : Forall (fun s : series => length (snd s) = len /\ Forall (fun n => smaller p (2 ^ 49) n /\ smaller 0 (10 ^ 9 - 1) n) (snd s)) (map fst rows)).
      { apply Forall_map. eapply Forall_impl; [|exact F]. intros r (_ & _ & A & B). split; assumption. }
      destruct (map fst rows); [constructor|now inversion A]. }
    clear - FL FT Hp. induction FL as [|s r ss data (_ & V) FL IH]; [constructor|]. inversion FT as [|? ? [LS SS] FT']; subst. cbn [bits_of map]. constructor; [|now apply IH]. cbn [snd].
    split; [rewrite map_length, <- (F2len _ _ _ V); reflexivity|]. clear - V SS Hp. induction V as [|m y ms ys LV V IH]; cbn [map]; constructor; inversion SS as [|? ? [A B] SS']; subst; [now apply (loaded_decimal p m)|now apply IH]. }
  assert (LN : length (bits_of data) = (length rows - 1)%nat).
  { unfold bits_of. rewrite map_length, <- (F2len _ _ _ FL). destruct rows; [reflexivity|]. cbn. rewrite map_length. lia. }
  split; [|split].
  - split; [intros X; rewrite X in LN; cbn in LN; lia|]. eapply Forall_impl; [|exact G]. cbv beta. intros x [A B]. split; [exact A|]. eapply Forall_impl; [|exact B]. intros y. apply decimals_finite. lia.
  - unfold values. apply Forall_concat, Forall_map. eapply Forall_impl; [|exact G]. cbv beta. tauto.
  - rewrite <- LN. unfold values. clear - G. induction G as [|x l [A _] G IH]; [reflexivity|]. cbn [map concat length]. rewrite app_length, IH, A. lia.
Qed.
Lemma set_scale_in c s s' : In c (experiment_configs false s') -> In (set_scale c s) (experiment_configs false s).
Proof. cbn [experiment_configs In]. intros I. repeat (destruct I as [<-|I]; [cbn [set_scale]; tauto|]). destruct I. Qed.
Lemma set_scale_scheme c s : config_scheme (set_scale c s) = config_scheme c.
Proof. now destruct c. Qed.
Theorem files_ok P parse p s fuel n precision c trains tests len :
  good_platform P -> get_appropriate_precision (p_dbg P) 9 false (series_text trains) = Ok p -> p <= 6 -> (0 < len)%nat ->
  (2 <= length trains)%nat -> (2 <= length tests)%nat -> Forall (series_line parse p len) trains -> Forall (series_line parse p len) tests ->
  let total := N.of_nat ((length trains - 1) * len) in total < 2 ^ 32 -> fitting len total -> (0 < n)%nat -> (N.to_nat total <= fuel)%nat ->
  In c (experiment_configs false s) -> config_scheme c <> SBuff ->
  exists train test, loaded_series p trains train /\ loaded_series p tests test /\
    (fits P (set_scale c (10 ^ p)) (values train) ->
     exists k, how_many (fun x => nearest_label (p_neg P) train (snd x) (fst x)) test k /\
       ucr_dataset P parse fuel n precision c (series_text trains) (series_text tests) =
         Ok (Some (Ok (fdiv (of_Z (Z.of_nat k)) (of_Z (Z.of_nat (length test))))))).
Proof.
  intros GP GA Hp LP L1 L2 F1 F2 total TL FI NP FU I NB.
  destruct (table_loaded parse (p_dbg P) _ p len trains GA Hp L1 F1) as (d1 & E1 & S1 & V1 & D1 & N1).
  destruct (table_loaded parse (p_dbg P) _ p len tests GA Hp L2 F2) as (d2 & E2 & S2 & V2 & _ & _).
  exists (bits_of d1), (bits_of d2). split; [exact S1|]. split; [exact S2|]. intros MEM.
  destruct (accuracy_decimals P p (set_scale c (10 ^ p)) fuel n precision (bits_of d1) (bits_of d2) len) as (k & K & E); auto; try (rewrite N1; assumption).
  - lia.
  - now apply (set_scale_in c _ s).
  - now rewrite set_scale_scheme.
  - rewrite N1. unfold total in FU. lia.
  - exists k. split; [exact K|]. unfold ucr_dataset. rewrite E1. cbn [rbind]. rewrite E2. cbn [rbind fst snd]. rewrite E. reflexivity.
Qed.

(** ** Samples *)
(** The logarithms of 10 and 10^8 are right. *)
Definition ucr_platform : platform :=
  mkPlatform false true false (fun _ _ => true) (fun x => x) simple_libraries (fun s => if s =? 10 then 1 else if s =? 10 ^ 8 then 8 else 0) (repeat 5 9) 77.
Lemma ucr_good : good_platform ucr_platform.
Proof. split; [exact simple_faithful|]. split; [|reflexivity]. split; [reflexivity|]. repeat constructor; vm_compute; reflexivity. Qed.
Definition tenth (z : Z) : N := to_bits (fdiv (of_Z z) (of_Z 10)).
Definition ucr_train : list (Z * list N) := [(1%Z, [tenth 5]); (2%Z, [tenth 1])].
Definition ucr_test : list (Z * list N) := [(2%Z, [tenth 3]); (1%Z, [tenth 9])].
Lemma tenth_decimal z : (0 <= z <= 10 ^ 9)%Z -> decimal_value 1 (tenth z).
Proof.
  intros B. exists z. split; [|apply (nearest_quotient 1 z); [lia|change (2 ^ 53)%Z with 9007199254740992%Z; lia]].
  change (10 ^ 15)%Z with 1000000000000000%Z. change (10 ^ 9 * 10 ^ Z.of_N 1)%Z with 10000000000%Z. change (10 ^ Z.of_N 1)%Z with 10%Z. change (10 ^ 6)%Z with 1000000%Z. lia.
Qed.
Lemma ucr_decimals : Forall (decimal_value 1) (values ucr_train) /\ Forall (decimal_value 1) (values ucr_test).
Proof. split; (repeat (constructor; [apply tenth_decimal; lia|])); constructor. Qed.
Lemma vectors_of p len data : p <= 9 -> data <> [] -> Forall (fun x : Z * list N => length (snd x) = len) data -> Forall (decimal_value p) (values data) -> vectors len data.
Proof.
  intros Hp NE L D. split; [exact NE|]. unfold values in D. apply Forall_concat_inv in D. rewrite Forall_map in D. rewrite Forall_forall in *. intros x I. split; [now apply L|].
  eapply Forall_impl; [|exact (D x I)]. intros y. now apply decimals_finite.
Qed.
Definition fits_b (P : platform) (c : config) (xs : list N) : bool := N.of_nat (length (written [] (fst (encode_column P c xs)))) <? 2 ^ 63.
Lemma ucr_sample : good_platform ucr_platform /\ vectors 1 ucr_train /\ vectors 1 ucr_test /\ Forall (decimal_value 1) (values ucr_train) /\
  fitting 1 (N.of_nat (length (values ucr_train))) /\ length (experiment_configs false 10) = 13%nat /\ Forall (fun c => fits ucr_platform c (values ucr_train)) (experiment_configs false 10).
Proof.
  destruct ucr_decimals as [D1 D2]. split; [exact ucr_good|]. split; [apply (vectors_of 1); [lia|discriminate|repeat constructor|exact D1]|].
  split; [apply (vectors_of 1); [lia|discriminate|repeat constructor|exact D2]|]. split; [exact D1|]. split; [left; vm_compute; discriminate|]. split; [reflexivity|].
  apply Forall_forall. intros c I. apply N.ltb_lt. fold (fits_b ucr_platform c (values ucr_train)). revert c I. apply Forall_forall.
  cbn [experiment_configs]. repeat (constructor; [vm_compute; reflexivity|]). constructor.
Qed.
(** BUFF stores 0.5 and 0.1 a little too small. *)
Lemma buff_differs : exists P p len train test, good_platform P /\ p <= 9 /\ (0 < len)%nat /\ vectors len train /\ vectors len test /\
  Forall (decimal_value p) (values train) /\ fits P (CBuff (10 ^ p)) (values train) /\
  forall precision, In precision [None; Some 1; Some 2; Some 12] -> exists a, accuracy P 9 1 precision (CBuff (10 ^ p)) train test = Some (Ok a) /\
    ~ exists k, how_many (fun x => nearest_label (p_neg P) train (snd x) (fst x)) test k /\ a = fdiv (of_Z (Z.of_nat k)) (of_Z (Z.of_nat (length test))).
Proof.
  destruct ucr_sample as (GP & V1 & V2 & D & FI & _ & FF). inversion FF as [|? ? MB FF']; subst. inversion FF' as [|? ? MU _]; subst.
  exists ucr_platform, 1, 1%nat, ucr_train, ucr_test. split; [exact GP|]. split; [lia|]. split; [lia|]. split; [exact V1|]. split; [exact V2|]. split; [exact D|]. split; [exact MB|].
  intros precision IP. exists (fdiv (of_Z 1) (of_Z 2)). split; [repeat (destruct IP as [<-|IP]; [vm_compute; reflexivity|]); destruct IP|]. clear IP. intros (k & K & E).
  destruct (accuracy_decimals ucr_platform 1 (CUncompressed default_capacity) 9 1 None ucr_train ucr_test 1 GP ltac:(lia) ltac:(right; left; reflexivity) ltac:(discriminate)
    ltac:(lia) V1 V2 D ltac:(vm_compute; reflexivity) FI MU ltac:(lia) ltac:(cbn; lia)) as (j & J & EJ).
  rewrite <- (how_many_unique _ _ _ K _ J) in EJ. rewrite <- E in EJ. vm_compute in EJ. discriminate EJ.
Qed.
Lemma files_sample : Forall (series_line small_parse 1 2) sample_series /\ (2 <= length sample_series)%nat /\
  get_appropriate_precision (p_dbg ucr_platform) 9 false (series_text sample_series) = Ok 1 /\
  exists train, loaded_series 1 sample_series train /\ length train = 2%nat /\ Forall (fun c => fits ucr_platform (set_scale c 10) (values train)) (experiment_configs false 1).
Proof.
  assert (G := sample_series_good 1 sample_series (or_introl (conj eq_refl eq_refl))).
  assert (F : Forall (series_line small_parse 1 2) sample_series).
  { rewrite Forall_forall in *. intros r I. destruct (G r I) as (A & B & C). split; [exact A|]. split; [exact B|]. apply repeat_spec in I. subst r. split; [reflexivity|].
    repeat constructor. }
  split; [exact F|]. split; [cbn; lia|]. split; [vm_compute; reflexivity|].
  destruct (table_loaded small_parse (p_dbg ucr_platform) (series_text sample_series) 1 2 sample_series) as (d & E & S & _); [vm_compute; reflexivity|lia|cbn; lia|exact F|].
  exists (bits_of d). split; [exact S|]. vm_compute in E. injection E as <-. split; [reflexivity|].
  apply Forall_forall. intros c I. apply N.ltb_lt. fold (fits_b ucr_platform (set_scale c 10) (values (bits_of [(1%Z, [S754_zero false])]))). 
  revert c I. apply Forall_forall. cbn [experiment_configs]. repeat (constructor; [vm_compute; reflexivity|]). constructor.
Qed.

(** ** Matrices *)
Theorem product_exact P precision size data target :
  good_platform P -> 0 < size -> 2 ^ 24 mod (size * size) = 0 -> N.of_nat (length data) = 40 * size * size -> N.of_nat (length target) = size * size ->
  Forall fraction data -> Forall fraction target ->
  exists xs rows ys columns, Forall2 matrix_entry data xs /\ in_rows size xs rows /\ Forall2 matrix_entry target ys /\ in_rows size ys columns /\
    forall c, In c (experiment_configs false (10 ^ 8)) -> config_scheme c <> SBuff -> fits P c xs ->
      exists out, matrix_product P precision size c data target = Ok out /\ Forall2 same out (flat_map (fun row => map (dot (p_neg P) row) columns) rows).
Proof.
  intros GP S0 DV LD LT FD FT.
  destruct (in_rows_total size (map matrix_value data) (40 * size) S0) as (rows & IR & _); [now rewrite map_length|].
  destruct (in_rows_total size (map matrix_value target) size S0) as (columns & IC & _); [now rewrite map_length|].
  exists (map matrix_value data), rows, (map matrix_value target), columns. split; [now apply entries_of|]. split; [exact IR|]. split; [now apply entries_of|]. split; [exact IC|].
  intros c I NB M. now apply product_ok.
Qed.
Lemma product_size P precision size c data target : 2 ^ 24 mod (size * size) <> 0 \/ size = 0 -> matrix_product P precision size c data target = Panic.
Proof.
  intros D. unfold matrix_product. destruct (N.eqb_spec (size * size) 0) as [E|E]; [reflexivity|]. destruct D as [D| ->]; [|now destruct E].
  change 16777216 with (2 ^ 24). now rewrite (proj2 (N.eqb_neq _ 0) D).
Qed.
(** 0.3 and 0.75: the entries are -1.6 and 2. *)
Definition matrix_data : list N := repeat 0x3fd3333333333333 40.
Definition matrix_target : list N := [0x3fe8000000000000].
Lemma fraction_b x v : is_u64 x -> number x = Some v -> ((0 <=? v) && (v <? 2 ^ 1074))%Z = true -> fraction x.
Proof. intros U E B. split; [exact U|]. exists v. split; [exact E|]. apply andb_true_iff in B as [A B]. apply Z.leb_le in A. apply Z.ltb_lt in B. split; assumption. Qed.
Lemma matrix_fractions : Forall fraction matrix_data /\ Forall fraction matrix_target.
Proof.
  assert (A : fraction 0x3fd3333333333333) by (eapply fraction_b; [reflexivity|vm_compute; reflexivity|vm_compute; reflexivity]).
  assert (B : fraction 0x3fe8000000000000) by (eapply fraction_b; [reflexivity|vm_compute; reflexivity|vm_compute; reflexivity]).
  split; [apply Forall_forall; intros x I; apply repeat_spec in I; now subst x|constructor; [exact B|constructor]].
Qed.
Lemma matrix_sample : good_platform ucr_platform /\ 2 ^ 24 mod (1 * 1) = 0 /\ N.of_nat (length matrix_data) = 40 * 1 * 1 /\ N.of_nat (length matrix_target) = 1 * 1 /\
  Forall fraction matrix_data /\ Forall fraction matrix_target /\ Forall (fun c => fits ucr_platform c (map matrix_value matrix_data)) (experiment_configs false (10 ^ 8)).
Proof.
  split; [exact ucr_good|]. split; [reflexivity|]. split; [reflexivity|]. split; [reflexivity|]. split; [apply matrix_fractions|]. split; [apply matrix_fractions|].
  apply Forall_forall. intros c I. apply N.ltb_lt. fold (fits_b ucr_platform c (map matrix_value matrix_data)). revert c I. apply Forall_forall.
  cbn [experiment_configs]. repeat (constructor; [vm_compute; reflexivity|]). constructor.
Qed.
Definition same_b (a b : f64) : bool :=
  match a, b with
  | S754_zero _, S754_zero _ => true
  | S754_finite s m e, S754_finite s' m' e' => Bool.eqb s s' && (m =? m')%positive && (e =? e')%Z
  | S754_infinity s, S754_infinity s' => Bool.eqb s s'
  | S754_nan, S754_nan => true
  | _, _ => false
  end.
Lemma same_bool a b : same a b -> same_b a b = true.
Proof.
  intros [->|(s & t & -> & ->)]; [|reflexivity]. destruct b as [s|s| |s m e]; cbn; try reflexivity; [apply Bool.eqb_reflx|]. now rewrite Bool.eqb_reflx, Pos.eqb_refl, Z.eqb_refl.
Qed.
Lemma product_buff : exists P precision size data target out out',
  good_platform P /\ 2 ^ 24 mod (size * size) = 0 /\ N.of_nat (length data) = 40 * size * size /\ N.of_nat (length target) = size * size /\
  Forall fraction data /\ Forall fraction target /\
  matrix_product P precision size (CBuff (10 ^ 8)) data target = Ok out /\ matrix_product P precision size (CUncompressed default_capacity) data target = Ok out' /\
  ~ Forall2 same out out'.
Proof.
  destruct matrix_sample as (GP & A & B & C & D & E & _).
  exists ucr_platform, 8, 1, matrix_data, matrix_target. eexists. eexists. repeat (split; [assumption|]). split; [vm_compute; reflexivity|]. split; [vm_compute; reflexivity|].
  intros F. inversion F as [|? ? ? ? S _]; subst. apply same_bool in S. vm_compute in S. discriminate S.
Qed.

(** TPC-H: theorems, samples and refutations. *)
From Coq Require Import String.
From Verif Require Import Base WordProofs Xor F64 F64Proofs F64BitsProofs Format FormatSpec File FileSpec FileSummary Codecs CodecSpec Readers Query QuerySpec QueryProofs QuerySummary
  Expr ExprSpec Tpch TpchSpec TpchExtractProofs TpchColumnProofs TpchQueryProofs TpchBuffProofs.
Local Open Scope N_scope.
Local Open Scope string_scope.

Lemma usable_names names L rows : (forall n, In n L <-> In n names) -> usable_table names rows -> usable_table L rows.
Proof. intros E (A & B & C & D). split; [exact A|]. split; [exact B|]. split; [|exact D]. intros r n I J. apply (C r n I), E, J. Qed.

(** ** Query 6 *)
Lemma c64 P batches names rows :
  good_platform P -> parquet_holds names batches rows -> usable_table names rows ->
  In "l_discount" names -> In "l_quantity" names -> In "l_extendedprice" names ->
  exists cols, extract_columns batches [] = Ok cols /\
  forall c, In c (all_configs 100) -> config_scheme c <> SBuff -> fits_memory P c cols ->
  exists o, run_h06 P c cols = Ok [o] /\ reports (q6_revenue rows) (10 ^ 4) o.
Proof.
  intros GP PH UT ID IQ IP. destruct (extracted names batches rows PH (proj1 UT)) as (L & ND & E & EX). eexists. split; [exact EX|].
  intros c CI NB FM. apply E in ID, IQ, IP. exact (h06_ok P GP c CI NB L rows (usable_names names L rows E UT) FM ID IQ IP).
Qed.
(** Runs of all schemes. *)
Lemma run_all_entry run cs cols : forall results, run_all run cs cols = Ok results ->
  map fst results = map config_scheme cs /\ forall s os, In (s, os) results -> exists c, In c cs /\ config_scheme c = s /\ run c cols = Ok os.
Proof.
  induction cs as [|c cs IH]; intros results H; cbn [run_all] in H.
  - injection H as <-. split; [reflexivity|]. intros s os [].
  - destruct (run c cols) as [r| |] eqn:R; cbn [rbind] in H; try discriminate H. destruct (run_all run cs cols) as [rs| |]; cbn [rbind] in H; try discriminate H.
    injection H as <-. destruct (IH rs eq_refl) as [M F]. split; [cbn [map fst]; now rewrite M|]. intros s os [X|X].
    + injection X as <- <-. exists c. split; [now left|]. split; [reflexivity|exact R].
    + destruct (F s os X) as (d & I & S & Q). exists d. split; [now right|]. split; assumption.
Qed.
Lemma process_right run P batches names rows answer results :
  parquet_holds names batches rows -> rows <> [] ->
  (exists cols, extract_columns batches [] = Ok cols /\ forall c, In c (all_configs 100) -> config_scheme c <> SBuff -> fits_memory P c cols -> exists os, run c cols = Ok os /\ answer os) ->
  (forall cols c, extract_columns batches [] = Ok cols -> In c (all_configs 100) -> fits_memory P c cols) ->
  process run batches = Ok results -> forall s os, In (s, os) results -> s <> SBuff -> answer os.
Proof.
  intros PH NE (cols & EX & W) FM PR s os I NB. unfold process in PR. rewrite EX in PR. cbn [rbind] in PR.
  destruct (run_all_entry run (all_configs 100) cols results PR) as [_ F]. destruct (F s os I) as (c & CI & SC & R).
  destruct (W c CI) as (os' & R' & A); [congruence|exact (FM cols c EX CI)|]. rewrite R in R'. injection R' as ->. exact A.
Qed.
Lemma c64_process P batches names rows results :
  good_platform P -> parquet_holds names batches rows -> usable_table names rows ->
  In "l_discount" names -> In "l_quantity" names -> In "l_extendedprice" names ->
  (forall cols c, extract_columns batches [] = Ok cols -> In c (all_configs 100) -> fits_memory P c cols) ->
  process_h06 P batches = Ok results ->
  map fst results = map config_scheme (all_configs 100) /\
  forall s os, In (s, os) results -> s <> SBuff -> exists o, os = [o] /\ reports (q6_revenue rows) (10 ^ 4) o.
Proof.
  intros GP PH UT ID IQ IP FM PR. split.
  - unfold process_h06, process in PR. destruct (extract_columns batches []) as [cols| |]; cbn [rbind] in PR; try discriminate PR. exact (proj1 (run_all_entry _ _ _ _ PR)).
  - apply (process_right (run_h06 P) P batches names rows (fun os => exists o, os = [o] /\ reports (q6_revenue rows) (10 ^ 4) o) results PH (proj1 UT)); [|exact FM|exact PR].
    destruct (c64 P batches names rows GP PH UT ID IQ IP) as (cols & EX & W). exists cols. split; [exact EX|]. intros c CI NB F. destruct (W c CI NB F) as (o & R & A). exists [o]. split; [exact R|]. exists o. split; [reflexivity|exact A].
Qed.

(** ** Query 1 *)
Lemma c65 P batches names rows :
  good_platform P -> parquet_holds names batches rows -> usable_table names rows ->
  In "l_discount" names -> In "l_quantity" names -> In "l_extendedprice" names -> In "l_tax" names ->
  exists cols, extract_columns batches [] = Ok cols /\
  forall c, In c (all_configs 100) -> config_scheme c <> SBuff -> fits_memory P c cols ->
  exists sq sp sd sc ap aq ad, run_h01 P c cols = Ok [sq; sp; sd; sc; ap; aq; ad; Integer (N.of_nat (length rows))] /\
    reports (sum_of_column "l_quantity" rows) 100 sq /\ reports (sum_of_column "l_extendedprice" rows) 100 sp /\
    reports (sum_discounted rows) (10 ^ 4) sd /\ reports (sum_charge rows) (10 ^ 6) sc /\
    average_of_column "l_extendedprice" rows ap /\ average_of_column "l_quantity" rows aq /\ average_of_column "l_discount" rows ad.
Proof.
  intros GP PH UT ID IQ IP IT. destruct (extracted names batches rows PH (proj1 UT)) as (L & ND & E & EX). eexists. split; [exact EX|].
  intros c CI NB FM. apply E in ID, IQ, IP, IT. exact (h01_ok P GP c CI NB L rows (usable_names names L rows E UT) FM ID IQ IP IT).
Qed.
Lemma c65_simplified P batches names rows :
  good_platform P -> parquet_holds names batches rows -> usable_table names rows ->
  In "l_discount" names -> In "l_quantity" names -> In "l_extendedprice" names ->
  exists cols, extract_columns batches [] = Ok cols /\
  forall c, In c (all_configs 100) -> config_scheme c <> SBuff -> fits_memory P c cols ->
  exists sq sp ad aq ap, run_h01_simplified P c cols = Ok [sq; sp; ad; aq; ap; Integer (N.of_nat (length rows))] /\
    reports (sum_of_column "l_quantity" rows) 100 sq /\ reports (sum_of_column "l_extendedprice" rows) 100 sp /\
    average_of_column "l_discount" rows ad /\ average_of_column "l_quantity" rows aq /\ average_of_column "l_extendedprice" rows ap.
Proof.
  intros GP PH UT ID IQ IP. destruct (extracted names batches rows PH (proj1 UT)) as (L & ND & E & EX). eexists. split; [exact EX|].
  intros c CI NB FM. apply E in ID, IQ, IP. exact (h01_simplified_ok P GP c CI NB L rows (usable_names names L rows E UT) FM ID IQ IP).
Qed.

(** ** Whole runs *)
Lemma is_buff c : In c (all_configs 100) -> c = CBuff 100 \/ config_scheme c <> SBuff.
Proof. cbn [all_configs In]. intuition (subst; first [now left|right; discriminate]). Qed.
Lemma run_all_total run cs cols (answer : config -> list outcome -> Prop) : (forall c, In c cs -> exists os, run c cols = Ok os /\ answer c os) ->
  exists results, run_all run cs cols = Ok results /\ Forall2 (fun c r => fst r = config_scheme c /\ answer c (snd r)) cs results.
Proof.
  induction cs as [|c cs IH]; intros H; [exists []; split; [reflexivity|constructor]|].
  destruct (H c (or_introl eq_refl)) as (os & R & A). destruct (IH (fun d I => H d (or_intror I))) as (rs & RS & F).
  exists ((config_scheme c, os) :: rs). split; [|constructor; [split; [reflexivity|exact A]|exact F]]. cbn [run_all]. rewrite R. cbn [rbind]. rewrite RS. reflexivity.
Qed.

Lemma some_buff : In (CBuff 100) (all_configs 100).
Proof. cbn [all_configs In]. tauto. Qed.
Lemma c64_buff P batches names rows :
  good_platform P -> p_lg P 100 = 2 -> parquet_holds names batches rows -> usable_table names rows ->
  In "l_discount" names -> In "l_quantity" names -> In "l_extendedprice" names ->
  exists cols, extract_columns batches [] = Ok cols /\
  (fits_memory P (CBuff 100) cols -> exists o, run_h06 P (CBuff 100) cols = Ok [o] /\ (quantities_mixed rows -> reports (q6_kept rows) (2 ^ 16) o)).
Proof.
  intros GP LG PH UT ID IQ IP. destruct (extracted names batches rows PH (proj1 UT)) as (L & ND & E & EX). eexists. split; [exact EX|].
  intros FM. apply E in ID, IQ, IP. destruct (h06_buff P GP LG L rows (usable_names names L rows E UT) FM ID IQ IP) as (x & R & Q). eexists. split; [exact R|exact Q].
Qed.
Lemma c64_run P batches names rows :
  good_platform P -> p_lg P 100 = 2 -> parquet_holds names batches rows -> usable_table names rows ->
  In "l_discount" names -> In "l_quantity" names -> In "l_extendedprice" names ->
  (forall cols c, extract_columns batches [] = Ok cols -> In c (all_configs 100) -> fits_memory P c cols) ->
  exists results, process_h06 P batches = Ok results /\
    Forall2 (fun c r => fst r = config_scheme c /\ exists o, snd r = [o] /\
      (config_scheme c <> SBuff -> reports (q6_revenue rows) (10 ^ 4) o) /\
      (config_scheme c = SBuff -> quantities_mixed rows -> reports (q6_kept rows) (2 ^ 16) o)) (all_configs 100) results.
Proof.
  intros GP LG PH UT ID IQ IP FM. destruct (c64 P batches names rows GP PH UT ID IQ IP) as (cols & EX & W). destruct (c64_buff P batches names rows GP LG PH UT ID IQ IP) as (cols2 & EX2 & W2).
  rewrite EX in EX2. injection EX2 as <-. unfold process_h06, process. rewrite EX. cbn [rbind].
  apply (run_all_total (run_h06 P) (all_configs 100) cols (fun c os => exists o, os = [o] /\ (config_scheme c <> SBuff -> reports (q6_revenue rows) (10 ^ 4) o) /\
      (config_scheme c = SBuff -> quantities_mixed rows -> reports (q6_kept rows) (2 ^ 16) o))).
  intros c CI. destruct (is_buff c CI) as [->|NB].
  - destruct (W2 (FM cols _ EX CI)) as (o & R & Q). exists [o]. split; [exact R|]. exists o. split; [reflexivity|]. split; [intros X; now destruct X|]. intros _. exact Q.
  - destruct (W c CI NB (FM cols c EX CI)) as (o & R & Q). exists [o]. split; [exact R|]. exists o. split; [reflexivity|]. split; [intros _; exact Q|]. intros X. now destruct NB.
Qed.
(** BUFF's answer to query 6 is too low. *)
Lemma kept_total (l : list row) : (forall r, In r l -> (0 <= r "l_extendedprice")%Z /\ (5 <= r "l_discount" <= 7)%Z) ->
  (total (fun r => (kept_amount (r "l_extendedprice") * kept_amount (r "l_discount"))%Z) l * 10000 <= 64000 * total (fun r => (r "l_extendedprice" * r "l_discount")%Z) l)%Z.
Proof.
  induction l as [|r l IH]; intros H; [vm_compute; discriminate|]. unfold total in *. cbn [map fold_right]. specialize (IH (fun s I => H s (or_intror I))). destruct (H r (or_introl eq_refl)) as [P0 D].
  revert IH. generalize (fold_right Z.add 0%Z (map (fun r0 : row => (kept_amount (r0 "l_extendedprice") * kept_amount (r0 "l_discount"))%Z) l)) (fold_right Z.add 0%Z (map (fun r0 : row => (r0 "l_extendedprice" * r0 "l_discount")%Z) l)).
  intros a b IH. revert P0 D. generalize (r "l_extendedprice") (r "l_discount"). intros p d P0 D. clear H.
  assert (KP : (0 <= kept_amount p /\ 100 * kept_amount p <= p * 256)%Z) by (unfold kept_amount; split; [apply Z.div_pos; lia|apply Z.mul_div_le; lia]).
  assert (KD : (0 <= kept_amount d /\ 100 * kept_amount d <= 250 * d)%Z) by (assert (C : (d = 5 \/ d = 6 \/ d = 7)%Z) by lia; destruct C as [->|[->| ->]]; vm_compute; split; discriminate).
  revert KP KD. generalize (kept_amount p) (kept_amount d). intros kp kd [KP0 KP1] [KD0 KD1].
  assert (X : ((100 * kp) * (100 * kd) <= (p * 256) * (250 * d))%Z) by (apply Z.mul_le_mono_nonneg; lia). lia.
Qed.
Lemma c64_buff_low P batches names rows :
  good_platform P -> p_lg P 100 = 2 -> parquet_holds names batches rows -> usable_table names rows ->
  In "l_discount" names -> In "l_quantity" names -> In "l_extendedprice" names -> quantities_mixed rows ->
  exists cols, extract_columns batches [] = Ok cols /\
  (fits_memory P (CBuff 100) cols -> exists x a, run_h06 P (CBuff 100) cols = Ok [Aggregated (Scalar (of_bits x))] /\ number x = Some a /\
    (100 * (a * 10 ^ 4) <= 98 * (q6_revenue rows * 2 ^ 1074))%Z).
Proof.
  intros GP LG PH UT ID IQ IP QM. destruct (c64_buff P batches names rows GP LG PH UT ID IQ IP) as (cols & EX & W). exists cols. split; [exact EX|]. intros FM.
  destruct (W FM) as (o & R & Q). destruct (Q QM) as (x & a & -> & _ & N & B). exists x, a. split; [exact R|]. split; [exact N|].
  assert (K : (q6_kept rows * 10000 <= 64000 * q6_revenue rows)%Z).
  { apply kept_total. intros r I. apply filter_In in I as [I S]. unfold q6_selected in S. rewrite !Bool.andb_true_iff, Z.leb_le, Z.leb_le in S. destruct UT as (_ & _ & UA & _). split; [apply (UA r _ I IP)|tauto]. }
  assert (K0 : (0 <= q6_kept rows)%Z).
  { unfold q6_kept. apply total_nonneg. intros r I. apply filter_In in I as [I _]. destruct UT as (_ & _ & UA & _). pose proof (UA r _ I IP). pose proof (UA r _ I ID). unfold kept_amount. apply Z.mul_nonneg_nonneg; apply Z.div_pos; lia. }
  revert B K K0. pose proof (Z.pow_pos_nonneg 2 1074 ltac:(lia) ltac:(lia)) as PP. revert PP. generalize (2 ^ 1074)%Z (q6_kept rows) (q6_revenue rows). clear. intros p k r PP B K K0.
  change (2 ^ 16)%Z with 65536%Z in B. change (2 ^ 27)%Z with 134217728%Z in B. change (10 ^ 4)%Z with 10000%Z.
  assert (KP : (k * p * 10000 <= 64000 * (r * p))%Z) by nia. assert (KP0 : (0 <= k * p)%Z) by nia. lia.
Qed.
Lemma c65_run P batches names rows :
  good_platform P -> p_lg P 100 = 2 -> parquet_holds names batches rows -> usable_table names rows ->
  In "l_discount" names -> In "l_quantity" names -> In "l_extendedprice" names -> In "l_tax" names ->
  (forall cols c, extract_columns batches [] = Ok cols -> In c (all_configs 100) -> fits_memory P c cols) ->
  exists results, process_h01 P batches = Ok results /\
    Forall2 (fun c r => fst r = config_scheme c /\ exists sq sp sd sc ap aq ad, snd r = [sq; sp; sd; sc; ap; aq; ad; Integer (N.of_nat (length rows))] /\
      (config_scheme c <> SBuff ->
        reports (sum_of_column "l_quantity" rows) 100 sq /\ reports (sum_of_column "l_extendedprice" rows) 100 sp /\
        reports (sum_discounted rows) (10 ^ 4) sd /\ reports (sum_charge rows) (10 ^ 6) sc /\
        average_of_column "l_extendedprice" rows ap /\ average_of_column "l_quantity" rows aq /\ average_of_column "l_discount" rows ad) /\
      (config_scheme c = SBuff ->
        reports (kept_sum "l_quantity" rows) 256 sq /\ reports (kept_sum "l_extendedprice" rows) 256 sp /\
        reports (kept_discounted rows) (2 ^ 16) sd /\ reports (kept_charge rows) (2 ^ 24) sc /\
        kept_average "l_extendedprice" rows ap /\ kept_average "l_quantity" rows aq /\ kept_average "l_discount" rows ad)) (all_configs 100) results.
Proof.
  intros GP LG PH UT ID IQ IP IT FM. destruct (c65 P batches names rows GP PH UT ID IQ IP IT) as (cols & EX & W). destruct (extracted names batches rows PH (proj1 UT)) as (L & _ & E & EX2).
  rewrite EX in EX2. injection EX2 as ->. apply E in ID, IQ, IP, IT. unfold process_h01, process. rewrite EX. cbn [rbind].
  set (cols := map (fun n => (n, map (cell n) rows)) L) in *.
  assert (X : forall c, In c (all_configs 100) -> exists os, run_h01 P c cols = Ok os /\ exists sq sp sd sc ap aq ad, os = [sq; sp; sd; sc; ap; aq; ad; Integer (N.of_nat (length rows))] /\
      (config_scheme c <> SBuff ->
        reports (sum_of_column "l_quantity" rows) 100 sq /\ reports (sum_of_column "l_extendedprice" rows) 100 sp /\
        reports (sum_discounted rows) (10 ^ 4) sd /\ reports (sum_charge rows) (10 ^ 6) sc /\
        average_of_column "l_extendedprice" rows ap /\ average_of_column "l_quantity" rows aq /\ average_of_column "l_discount" rows ad) /\
      (config_scheme c = SBuff ->
        reports (kept_sum "l_quantity" rows) 256 sq /\ reports (kept_sum "l_extendedprice" rows) 256 sp /\
        reports (kept_discounted rows) (2 ^ 16) sd /\ reports (kept_charge rows) (2 ^ 24) sc /\
        kept_average "l_extendedprice" rows ap /\ kept_average "l_quantity" rows aq /\ kept_average "l_discount" rows ad)).
  { intros c CI. destruct (is_buff c CI) as [->|NB].
    - destruct (h01_buff P GP LG L rows (usable_names names L rows E UT) (FM cols _ EX CI) ID IQ IP IT) as (sq & sp & sd & sc & ap & aq & ad & R & Q). eexists. split; [exact R|]. exists sq, sp, sd, sc, ap, aq, ad.
      split; [reflexivity|]. split; [intros Y; now destruct Y|]. intros _. exact Q.
    - destruct (W c CI NB (FM cols c EX CI)) as (sq & sp & sd & sc & ap & aq & ad & R & Q). eexists. split; [exact R|]. exists sq, sp, sd, sc, ap, aq, ad. split; [reflexivity|]. split; [intros _; exact Q|]. intros Y. now destruct NB. }
  exact (run_all_total (run_h01 P) (all_configs 100) cols _ X).
Qed.
Lemma c65_simplified_run P batches names rows :
  good_platform P -> p_lg P 100 = 2 -> parquet_holds names batches rows -> usable_table names rows ->
  In "l_discount" names -> In "l_quantity" names -> In "l_extendedprice" names ->
  (forall cols c, extract_columns batches [] = Ok cols -> In c (all_configs 100) -> fits_memory P c cols) ->
  exists results, process_h01_simplified P batches = Ok results /\
    Forall2 (fun c r => fst r = config_scheme c /\ exists sq sp ad aq ap, snd r = [sq; sp; ad; aq; ap; Integer (N.of_nat (length rows))] /\
      (config_scheme c <> SBuff ->
        reports (sum_of_column "l_quantity" rows) 100 sq /\ reports (sum_of_column "l_extendedprice" rows) 100 sp /\
        average_of_column "l_discount" rows ad /\ average_of_column "l_quantity" rows aq /\ average_of_column "l_extendedprice" rows ap) /\
      (config_scheme c = SBuff ->
        reports (kept_sum "l_quantity" rows) 256 sq /\ reports (kept_sum "l_extendedprice" rows) 256 sp /\
        kept_average "l_discount" rows ad /\ kept_average "l_quantity" rows aq /\ kept_average "l_extendedprice" rows ap)) (all_configs 100) results.
Proof.
  intros GP LG PH UT ID IQ IP FM. destruct (c65_simplified P batches names rows GP PH UT ID IQ IP) as (cols & EX & W). destruct (extracted names batches rows PH (proj1 UT)) as (L & _ & E & EX2).
  rewrite EX in EX2. injection EX2 as ->. apply E in ID, IQ, IP. unfold process_h01_simplified, process. rewrite EX. cbn [rbind].
  set (cols := map (fun n => (n, map (cell n) rows)) L) in *.
  assert (X : forall c, In c (all_configs 100) -> exists os, run_h01_simplified P c cols = Ok os /\ exists sq sp ad aq ap, os = [sq; sp; ad; aq; ap; Integer (N.of_nat (length rows))] /\
      (config_scheme c <> SBuff ->
        reports (sum_of_column "l_quantity" rows) 100 sq /\ reports (sum_of_column "l_extendedprice" rows) 100 sp /\
        average_of_column "l_discount" rows ad /\ average_of_column "l_quantity" rows aq /\ average_of_column "l_extendedprice" rows ap) /\
      (config_scheme c = SBuff ->
        reports (kept_sum "l_quantity" rows) 256 sq /\ reports (kept_sum "l_extendedprice" rows) 256 sp /\
        kept_average "l_discount" rows ad /\ kept_average "l_quantity" rows aq /\ kept_average "l_extendedprice" rows ap)).
  { intros c CI. destruct (is_buff c CI) as [->|NB].
    - destruct (h01_simplified_buff P GP LG L rows (usable_names names L rows E UT) (FM cols _ EX CI) ID IQ IP) as (sq & sp & ad & aq & ap & R & Q). eexists. split; [exact R|]. exists sq, sp, ad, aq, ap.
      split; [reflexivity|]. split; [intros Y; now destruct Y|]. intros _. exact Q.
    - destruct (W c CI NB (FM cols c EX CI)) as (sq & sp & ad & aq & ap & R & Q). eexists. split; [exact R|]. exists sq, sp, ad, aq, ap. split; [reflexivity|]. split; [intros _; exact Q|]. intros Y. now destruct NB. }
  exact (run_all_total (run_h01_simplified P) (all_configs 100) cols _ X).
Qed.

(** ** Statistics *)
Lemma c66 P batches names rows :
  good_platform P -> parquet_holds names batches rows -> usable_table names rows ->
  exists cols, extract_columns batches [] = Ok cols /\ NoDup (map fst cols) /\ (forall n, In n (map fst cols) <-> In n names) /\
  forall c, In c (all_configs 100) -> config_scheme c <> SBuff -> fits_memory P c cols ->
  exists ds, open_columns P c cols = Ok ds /\
    Forall2 (fun col d => f_records (m_footer (d_meta (fst d))) = N.of_nat (length rows) /\ f_config (m_footer (d_meta (fst d))) = c /\
      st_uncompressed (snd d) = 8 * N.of_nat (length rows) /\
      st_file (snd d) = N.of_nat (length (written [] (fst (encode_column P c (snd col))))) /\
      st_file (snd d) = 30 + st_chunks (snd d) + footer_size (m_footer (d_meta (fst d)))) cols ds.
Proof.
  intros GP PH UT. destruct (extracted names batches rows PH (proj1 UT)) as (L & ND & E & EX). eexists. split; [exact EX|]. rewrite map_map, map_id. split; [exact ND|]. split; [exact E|].
  intros c CI NB FM. destruct (rows_cut rows) as (rss & CR & RC). apply (usable_names names L rows E) in UT. rewrite <- CR in UT, FM |- *.
  destruct (columns_good P GP c CI NB L rss RC UT FM) as (ds & OC & DG). exists ds. split; [exact OC|]. clear OC FM EX ND E UT.
  induction DG as [|n d l ds G F IH]; cbn [map]; constructor; [|exact IH]. destruct G as (((_ & R & _) & _) & S1 & S2 & S3 & S4). cbn [snd].
  split; [|split; [exact S4|split; [exact S1|split; [exact S2|exact S3]]]]. rewrite R, concat_map_map, zcol_concat, !map_length. reflexivity.
Qed.

(** BUFF too. *)
Lemma c66_buff P batches names rows :
  good_platform P -> p_lg P 100 = 2 -> parquet_holds names batches rows -> usable_table names rows ->
  exists cols, extract_columns batches [] = Ok cols /\ NoDup (map fst cols) /\ (forall n, In n (map fst cols) <-> In n names) /\
  forall c, In c (all_configs 100) -> fits_memory P c cols ->
  exists ds, open_columns P c cols = Ok ds /\
    Forall2 (fun col d => f_records (m_footer (d_meta (fst d))) = N.of_nat (length rows) /\ f_config (m_footer (d_meta (fst d))) = c /\
      st_uncompressed (snd d) = 8 * N.of_nat (length rows) /\
      st_file (snd d) = N.of_nat (length (written [] (fst (encode_column P c (snd col))))) /\
      st_file (snd d) = 30 + st_chunks (snd d) + footer_size (m_footer (d_meta (fst d)))) cols ds.
Proof.
  intros GP LG PH UT. destruct (c66 P batches names rows GP PH UT) as (cols & EX & ND & E & W). exists cols. repeat (split; [assumption|]).
  intros c CI FM. destruct (is_buff c CI) as [->|NB]; [|exact (W c CI NB FM)].
  destruct (extracted names batches rows PH (proj1 UT)) as (L & _ & EL & EX2). rewrite EX in EX2. injection EX2 as ->.
  destruct (rows_cut rows) as (rss & CR & RC). apply (usable_names names L rows EL) in UT. rewrite <- CR in UT, FM |- *.
  destruct (buff_columns P GP LG L rss RC UT FM) as (ds & OC & DG). exists ds. split; [exact OC|]. clear - DG.
  induction DG as [|n d l ds G F IH]; cbn [map]; constructor; [|exact IH]. destruct G as (_ & S1 & S2 & S3 & S4 & S5). cbn [snd].
  repeat (split; [assumption|]). assumption.
Qed.

(** ** A sample *)
Definition tpch_platform : platform :=
  mkPlatform false true false (fun _ _ => true) (fun x => x) simple_libraries (fun _ => 2) (repeat 5 9) 77.
Definition line (quantity price discount tax : Z) : row := fun n =>
  if String.eqb n "l_quantity" then quantity else if String.eqb n "l_extendedprice" then price else if String.eqb n "l_discount" then discount else tax.
Definition decimal (rows : list row) (n : string) : field := mkField n (Some 2%Z) (map (fun r : row => Some (r n)) rows).
Definition tpch_batch (rows : list row) : list field :=
  [decimal rows "l_quantity"; mkField "l_returnflag" None []; decimal rows "l_extendedprice"; decimal rows "l_discount"; decimal rows "l_tax"].
Definition tpch_names : list string := ["l_tax"; "l_discount"; "l_extendedprice"; "l_quantity"].
Definition lines1 : list row := [line 1700 2116823 4 2; line 3600 4598316 9 6; line 800 1330960 5 2].
Definition lines2 : list row := [line 2300 2895564 7 6; line 2400 2895564 7 6].
Definition tpch_rows : list row := (lines1 ++ lines2)%list.
Definition tpch_batches : list (list field) := [tpch_batch lines1; tpch_batch lines2].
(** Rows with quantities below 24 only. *)
Definition small_rows : list row := [line 1700 2116823 4 2; line 800 1330960 5 2; line 2300 2895564 7 6].

Lemma tpch_batch_holds rows : batch_holds tpch_names rows (tpch_batch rows).
Proof.
  split.
  - repeat (constructor; [first [left; split; reflexivity|right; split; [reflexivity|now left]]|]). constructor.
  - cbn. split; [repeat constructor; cbn; intuition discriminate|]. intros n. tauto.
Qed.
Lemma tpch_sample : good_platform tpch_platform /\ parquet_holds tpch_names tpch_batches tpch_rows /\ usable_table tpch_names tpch_rows.
Proof.
  split; [|split].
  - split; [exact simple_faithful|]. split; [|reflexivity]. split; [reflexivity|]. repeat constructor; vm_compute; reflexivity.
  - exists [lines1; lines2]. split; [|reflexivity]. constructor; [apply tpch_batch_holds|]. constructor; [apply tpch_batch_holds|constructor].
  - split; [discriminate|]. split; [reflexivity|]. split.
    + intros r n R I. cbn in I. unfold tpch_rows, lines1, lines2 in R. cbn [app In] in R.
      repeat (destruct R as [<-|R]; [repeat (destruct I as [<-|I]; [vm_compute; split; discriminate|]); destruct I|]). destruct R.
    + intros r R. unfold tpch_rows, lines1, lines2 in R. cbn [app In] in R. repeat (destruct R as [<-|R]; [vm_compute; discriminate|]). destruct R.
Qed.
Lemma tpch_mixed : p_lg tpch_platform 100 = 2 /\ quantities_mixed tpch_rows.
Proof.
  split; [reflexivity|]. intros before chunk after E M C. assert (L : length tpch_rows = 5%nat) by reflexivity. rewrite E, !app_length in L.
  assert (B : before = []). { destruct before; [reflexivity|]. exfalso. rewrite N.mod_small in M; [cbn [length] in M; lia|]. change (2 ^ 24) with 16777216. lia. }
  subst before. destruct C as [C|[_ ->]]; [exfalso; change (2 ^ 24) with 16777216 in C; lia|]. cbn [app] in E. rewrite app_nil_r in E. subst chunk. split.
  - exists (line 1700 2116823 4 2). split; [now left|vm_compute; reflexivity].
  - exists (line 3600 4598316 9 6). split; [right; now left|vm_compute; discriminate].
Qed.
Definition small_files (P : platform) (c : config) (cols : columns) : bool :=
  forallb (fun col => N.of_nat (length (written [] (fst (encode_column P c (snd col))))) <? 2 ^ 63)%N cols.
Lemma small_files_fit P c cols : small_files P c cols = true -> fits_memory P c cols.
Proof. intros H n vs I. unfold small_files in H. rewrite forallb_forall in H. specialize (H _ I). now apply N.ltb_lt in H. Qed.
Lemma tpch_fits : exists cols, extract_columns tpch_batches [] = Ok cols /\ length cols = 4%nat /\ Forall (fun c => fits_memory tpch_platform c cols) (all_configs 100).
Proof.
  eexists. split; [vm_compute; reflexivity|]. split; [reflexivity|]. apply Forall_forall. intros c I. apply small_files_fit. revert c I. apply Forall_forall.
  cbn [all_configs]. repeat (constructor; [vm_compute; reflexivity|]). constructor.
Qed.

(** ** Refutations *)
Lemma not_reports e d f a : scaled f = Some a -> ~ (Z.abs (a * d - e * 2 ^ 1074) * 2 ^ 27 <= e * 2 ^ 1074)%Z -> ~ reports e d (Aggregated (Scalar f)).
Proof.
  intros S H (x & b & E & U & N & I). injection E as ->. apply H. rewrite (number_scaled x U) in N. assert (X : Some a = Some b) by (rewrite <- S, <- N; reflexivity). injection X as ->. exact I.
Qed.
Definition far (e d : Z) (o : outcome) : bool :=
  match o with
  | Aggregated (Scalar f) => match scaled f with Some a => (e * 2 ^ 1074 <? Z.abs (a * d - e * 2 ^ 1074) * 2 ^ 27)%Z | None => false end
  | _ => false
  end.
Lemma far_not e d o : far e d o = true -> ~ reports e d o.
Proof.
  destruct o as [[vs|f]|n]; cbn [far]; intros H; try discriminate H. destruct (scaled f) as [a|] eqn:S; [|discriminate H].
  apply (not_reports e d f a S). apply Z.ltb_lt in H. apply Z.lt_nge. exact H.
Qed.

Lemma small_sample : parquet_holds tpch_names [tpch_batch small_rows] small_rows /\ usable_table tpch_names small_rows.
Proof.
  split.
  - exists [small_rows]. split; [|reflexivity]. constructor; [apply tpch_batch_holds|constructor].
  - split; [discriminate|]. split; [reflexivity|]. split.
    + intros r n R I. cbn in I. unfold small_rows in R. cbn [In] in R.
      repeat (destruct R as [<-|R]; [repeat (destruct I as [<-|I]; [vm_compute; split; discriminate|]); destruct I|]). destruct R.
    + intros r R. unfold small_rows in R. cbn [In] in R. repeat (destruct R as [<-|R]; [vm_compute; discriminate|]). destruct R.
Qed.
(** BUFF: the revenue of [small_rows] counts the row with a discount of 4%, in part;
    it is more than a quarter too high. *)
Lemma c64_buff_refuted : exists P batches names rows results x a,
  good_platform P /\ parquet_holds names batches rows /\ usable_table names rows /\ incl ["l_discount"; "l_quantity"; "l_extendedprice"] names /\
  (forall cols c, extract_columns batches [] = Ok cols -> In c (all_configs 100) -> fits_memory P c cols) /\
  process_h06 P batches = Ok results /\ In (SBuff, [Aggregated (Scalar (of_bits x))]) results /\
  number x = Some a /\ (5 * q6_revenue rows * 2 ^ 1074 < 4 * a * 10 ^ 4)%Z.
Proof.
  exists tpch_platform, [tpch_batch small_rows], tpch_names, small_rows. eexists. exists 4659637054202707968. eexists.
  split; [exact (proj1 tpch_sample)|]. split; [exact (proj1 small_sample)|]. split; [exact (proj2 small_sample)|].
  split; [intros n I; cbn in I |- *; intuition|]. split.
  { intros cols c EX CI. vm_compute in EX. injection EX as <-. apply small_files_fit. revert c CI. apply Forall_forall.
    cbn [all_configs]. repeat (constructor; [vm_compute; reflexivity|]). constructor. }
  split; [vm_compute; reflexivity|]. split; [do 12 right; left; vm_compute; reflexivity|]. split; [vm_compute; reflexivity|]. vm_compute. reflexivity.
Qed.
Definition null_batch : list field :=
  map (fun n => mkField n (Some 2%Z) (map (fun r : row => Some (r n)) [line 1700 2116823 4 2; line 800 1330960 5 2] ++ (if String.eqb n "l_discount" then None else Some (line 900 100000 0 1 n)) :: map (fun r : row => Some (r n)) [line 2300 2895564 7 6])%list) tpch_names.
(** A NULL is a NaN in its column: Gorilla, Chimp, Chimp128, Elf and ElfOnChimp stop
    there, and the revenue of the rows after it is lost. *)
Lemma c64_null_refuted : exists P names rows batch results,
  good_platform P /\ usable_table names rows /\ incl ["l_discount"; "l_quantity"; "l_extendedprice"] names /\ null_discount names rows batch /\
  (forall cols c, extract_columns [batch] [] = Ok cols -> In c (all_configs 100) -> fits_memory P c cols) /\
  process_h06 P [batch] = Ok results /\
  (exists o, In (SUncompressed, [o]) results /\ reports (q6_revenue rows) (10 ^ 4) o) /\
  forall s, In s [SChimp128; SChimp; SElfOnChimp; SElf; SGorilla] -> exists o, In (s, [o]) results /\ ~ reports (q6_revenue rows) (10 ^ 4) o.
Proof.
  exists tpch_platform, tpch_names, small_rows, null_batch. eexists.
  split; [exact (proj1 tpch_sample)|]. split; [exact (proj2 small_sample)|]. split; [intros n I; cbn in I |- *; intuition|]. split.
  { exists [line 1700 2116823 4 2; line 800 1330960 5 2], [line 2300 2895564 7 6], (line 900 100000 0 1). split; reflexivity. }
  split.
  { intros cols c EX CI. vm_compute in EX. injection EX as <-. apply small_files_fit. revert c CI. apply Forall_forall.
    cbn [all_configs]. repeat (constructor; [vm_compute; reflexivity|]). constructor. }
  split; [vm_compute; reflexivity|]. split.
  - eexists. split; [left; reflexivity|]. exists 4658139009871584534. eexists. split; [vm_compute; reflexivity|]. split; [vm_compute; reflexivity|]. split; [vm_compute; reflexivity|]. vm_compute. discriminate.
  - intros s I. cbn [In] in I. destruct I as [<-|[<-|[<-|[<-|[<-|[]]]]]]; eexists.
    + split; [right; left; reflexivity|]. apply far_not. vm_compute. reflexivity.
    + split; [do 2 right; left; reflexivity|]. apply far_not. vm_compute. reflexivity.
    + split; [do 3 right; left; reflexivity|]. apply far_not. vm_compute. reflexivity.
    + split; [do 4 right; left; reflexivity|]. apply far_not. vm_compute. reflexivity.
    + split; [do 5 right; left; reflexivity|]. apply far_not. vm_compute. reflexivity.
Qed.

(** Query 1: not the order of SQL, not the order of the names. *)
Lemma c65_refuted : exists P batches names rows results,
  good_platform P /\ parquet_holds names batches rows /\ usable_table names rows /\ incl ["l_discount"; "l_quantity"; "l_extendedprice"; "l_tax"] names /\
  (forall cols c, extract_columns batches [] = Ok cols -> In c (all_configs 100) -> fits_memory P c cols) /\
  process_h01 P batches = Ok results /\
  exists os, In (SUncompressed, os) results /\ ~ q1_answers rows os /\
    exists sums averages, h01_names = Ok (sums :: averages) /\ ~ Forall2 (named_average rows) averages (firstn 3 (skipn 4 os)).
Proof.
  exists tpch_platform, tpch_batches, tpch_names, tpch_rows. eexists.
  split; [exact (proj1 tpch_sample)|]. split; [exact (proj1 (proj2 tpch_sample))|]. split; [exact (proj2 (proj2 tpch_sample))|]. split; [intros n I; cbn in I |- *; intuition|]. split.
  { intros cols c EX CI. vm_compute in EX. injection EX as <-. apply small_files_fit. revert c CI. apply Forall_forall.
    cbn [all_configs]. repeat (constructor; [vm_compute; reflexivity|]). constructor. }
  split; [vm_compute; reflexivity|]. eexists. split; [left; reflexivity|]. split.
  - intros (sq & sp & sd & sc & aq & ap & ad & E & _ & _ & _ & _ & A & _). injection E as _ _ _ _ <- _ _. revert A. apply far_not. vm_compute. reflexivity.
  - do 2 eexists. split; [vm_compute; reflexivity|]. cbn [firstn skipn]. intros F. inversion F as [|? ? ? ? (n & EN & A) _]. 
    assert (X : n = "l_discount").
    { cbn [append] in EN. injection EN as EN. destruct n as [|a0 n]; [discriminate EN|]. revert EN. clear. intros EN.
      change (String a0 n ++ ")" = "l_discount" ++ ")") in EN || idtac.
      assert (G : forall a b : string, a ++ ")" = b ++ ")" -> a = b).
      { induction a as [|c a IH]; intros [|d b] H; cbn in H; try reflexivity.
        - injection H as -> H. destruct b; discriminate H.
        - injection H as -> H. destruct a; discriminate H.
        - injection H as -> H. f_equal. now apply IH. }
      symmetry. apply G. exact EN. }
    subst n. revert A. apply far_not. vm_compute. reflexivity.
Qed.

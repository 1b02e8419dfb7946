(** The matrix experiment on the GPU. *)
From Verif Require Import Base WordProofs Xor F64 Format FormatSpec File FileSpec Codecs CodecSpec Query QuerySpec QuerySummary Readers DecimalSpec Expr ExprSpec VectorProofs ExprSummary FileSummary
  Text TextSpec Tpch TpchSpec TpchSummary Ucr UcrSpec UcrColumnProofs UcrMatrixProofs UcrSummary Cuda CudaSpec CudaSummary CudaMatrix CudaMatrixSpec.
Local Open Scope N_scope.

Lemma in_order_blind neg : zero_blind (in_order neg).
Proof. intros column row row' U U' A. rewrite !in_order_dot. now apply dot_same. Qed.
Lemma executor_settles P c : settles (executor_of P c).
Proof.
  destruct (all_settle (p_dbg P) (p_simd P) (p_neg P) (p_tie P) (p_log10 P) (p_lib P)) as (A & B & C).
  unfold executor_of. destruct (scheme_executor (p_dbg P) (p_neg P) (p_tie P) (p_log10 P) (p_lib P) c) as [ex|] eqn:E.
  - destruct c; try exact (A _ _ E); discriminate E.
  - destruct c; try exact B; try exact C; discriminate E.
Qed.
Lemma columns_u64 {B} (f : list N -> list N -> B) (R : B -> B -> Prop) cols : forall rows vs, Forall2 (Forall2 alike) rows vs -> Forall (Forall is_u64) rows -> Forall (Forall is_u64) vs ->
  (forall c r v, Forall is_u64 r -> Forall is_u64 v -> Forall2 alike v r -> R (f c v) (f c r)) ->
  Forall2 R (flat_map (fun row => map (fun c => f c row) cols) vs) (flat_map (fun row => map (fun c => f c row) cols) rows).
Proof.
  intros rows vs H U V D. induction H as [|r v rows vs A H IH]; cbn [flat_map]; [constructor|]. inversion U; inversion V; subst. apply Forall2_app; [|auto].
  assert (S : Forall2 alike v r) by (clear - A; induction A as [|x y a b [->|[E F]] A IH]; constructor; auto; [now left|right; auto]).
  clear IH. induction cols as [|w cols IH]; constructor; [now apply D|exact IH].
Qed.
Theorem cuda_product_ok P acc c precision size data target rows :
  good_platform P -> zero_blind acc -> In c (experiment_configs false (10 ^ 8)) -> config_scheme c <> SBuff ->
  0 < size -> 2 ^ 24 mod (size * size) = 0 -> N.of_nat (length data) = 40 * size * size -> N.of_nat (length target) = size * size ->
  Forall fraction data -> in_rows size (map matrix_value data) rows -> fits P c (map matrix_value data) ->
  exists out, matrix_cuda_product P acc precision size c data target = Ok out /\
    Forall2 same out (flat_map (fun row => map (fun column => acc (combine column row)) (row_major_columns (map matrix_value target) size size)) rows).
Proof.
  intros GP ZB CI NB S0 DV LD LT FD IR MEM.
  destruct (matrix_opens P c precision size data rows GP CI NB S0 DV LD FD IR MEM) as (d & s & vss & vs & OP & CS & _ & ST & EX & NE & SZ & WH & G & LR & FV & RU & VU).
  assert (SQ : 0 < size * size) by (apply N.mul_pos_pos; assumption).
  assert (SL : size * size <= 16777216). { apply N.mod_divide in DV; [|lia]. apply N.divide_pos_le; [reflexivity|exact DV]. }
  assert (S31 : size * size < 2 ^ 31) by (change (2 ^ 31) with 2147483648; lia).
  eexists. split.
  - unfold matrix_cuda_product. rewrite (proj2 (N.eqb_neq (size * size) 0)) by lia. change 16777216 with (2 ^ 24). rewrite DV. cbn [N.eqb negb]. rewrite OP. cbn [lift rbind]. rewrite CS. cbn [lift rbind].
    apply (c86 (p_dbg P) acc (with_precision d (Some precision)) vss size size size (map matrix_value target) vs); try assumption.
    + cbn [with_precision d_ex]. rewrite EX. apply executor_settles.
    + now rewrite map_length.
    + rewrite LR. change (2 ^ 63) with 9223372036854775808. clear - SL. nia.
  - apply (columns_u64 (fun c v => acc (combine c v)) same); auto.
Qed.
Theorem c87 P acc precision size data target :
  good_platform P -> zero_blind acc -> 0 < size -> 2 ^ 24 mod (size * size) = 0 -> N.of_nat (length data) = 40 * size * size -> N.of_nat (length target) = size * size ->
  Forall fraction data -> Forall fraction target ->
  exists xs rows ys, Forall2 matrix_entry data xs /\ in_rows size xs rows /\ Forall2 matrix_entry target ys /\
    forall c, In c (experiment_configs false (10 ^ 8)) -> config_scheme c <> SBuff -> fits P c xs ->
      exists out, matrix_cuda_product P acc precision size c data target = Ok out /\
        Forall2 same out (flat_map (fun row => map (fun column => acc (combine column row)) (row_major_columns ys size size)) rows).
Proof.
  intros GP ZB S0 DV LD LT FD FT.
  destruct (in_rows_total size (map matrix_value data) (40 * size) S0) as (rows & IR & _); [now rewrite map_length|].
  exists (map matrix_value data), rows, (map matrix_value target). split; [now apply entries_of|]. split; [exact IR|]. split; [now apply entries_of|].
  intros c I NB M. now apply cuda_product_ok.
Qed.
Lemma c87_size P acc precision size c data target : 2 ^ 24 mod (size * size) <> 0 \/ size = 0 -> matrix_cuda_product P acc precision size c data target = Panic.
Proof.
  intros D. unfold matrix_cuda_product. destruct (N.eqb_spec (size * size) 0) as [E|E]; [reflexivity|]. destruct D as [D| ->]; [|now destruct E].
  change 16777216 with (2 ^ 24). apply N.eqb_neq in D. now rewrite D.
Qed.
(** 0.3 everywhere; -2, 2, 0 and -4 after the mapping. *)
Definition gpu_data : list N := repeat 0x3fd3333333333333 160.
Definition gpu_target : list N := [0x3fd0000000000000; 0x3fe8000000000000; 0x3fe0000000000000; 0].
Lemma gpu_fractions : Forall fraction gpu_data /\ Forall fraction gpu_target.
Proof.
  split.
  - apply Forall_forall. intros x I. apply repeat_spec in I. subst x. eapply fraction_b; [reflexivity|vm_compute; reflexivity|vm_compute; reflexivity].
  - repeat (constructor; [eapply fraction_b; [reflexivity|vm_compute; reflexivity|vm_compute; reflexivity]|]). constructor.
Qed.
Lemma gpu_fits : fits ucr_platform (CUncompressed default_capacity) (map matrix_value gpu_data).
Proof. apply N.ltb_lt. fold (fits_b ucr_platform (CUncompressed default_capacity) (map matrix_value gpu_data)). vm_compute. reflexivity. Qed.
Lemma first_entry {A B C} (R : C -> C -> Prop) (f : A -> B -> C) out rows cols r rest c others : rows = r :: rest -> cols = c :: others ->
  Forall2 R out (flat_map (fun row => map (f row) cols) rows) -> exists o t, out = o :: t /\ R o (f r c).
Proof. intros -> -> F. cbn [flat_map map app] in F. inversion F; subst. eauto. Qed.
Lemma c87_differs : exists P precision size data target out out',
  good_platform P /\ 2 ^ 24 mod (size * size) = 0 /\ N.of_nat (length data) = 40 * size * size /\ N.of_nat (length target) = size * size /\
  Forall fraction data /\ Forall fraction target /\
  matrix_product P precision size (CUncompressed default_capacity) data target = Ok out /\
  matrix_cuda_product P (in_order (p_neg P)) precision size (CUncompressed default_capacity) data target = Ok out' /\ ~ Forall2 same out out'.
Proof.
  destruct gpu_fractions as [F1 F2]. set (v := matrix_value 0x3fd3333333333333). set (rows := repeat [v; v] 80).
  assert (IR : in_rows 2 (map matrix_value gpu_data) rows).
  { split; [unfold gpu_data, rows, v; cbn [repeat map]; generalize (matrix_value 0x3fd3333333333333); intros w; reflexivity|]. apply Forall_forall. intros r I. apply repeat_spec in I. subst r. reflexivity. }
  set (cols := [[matrix_value 0x3fd0000000000000; matrix_value 0x3fe8000000000000]; [matrix_value 0x3fe0000000000000; matrix_value 0]]).
  assert (IC : in_rows 2 (map matrix_value gpu_target) cols) by (split; [reflexivity|repeat constructor]).
  assert (CI : In (CUncompressed default_capacity) (experiment_configs false (10 ^ 8))) by (cbn; tauto).
  destruct (product_ok ucr_platform (CUncompressed default_capacity) 8 2 gpu_data gpu_target rows cols ucr_good CI ltac:(discriminate) eq_refl eq_refl eq_refl eq_refl F1 IR IC gpu_fits) as (out & O1 & S1).
  destruct (cuda_product_ok ucr_platform (in_order (p_neg ucr_platform)) (CUncompressed default_capacity) 8 2 gpu_data gpu_target rows ucr_good (in_order_blind _) CI ltac:(discriminate) eq_refl eq_refl eq_refl eq_refl F1 IR gpu_fits) as (out' & O2 & S2).
  exists ucr_platform, 8, 2, gpu_data, gpu_target, out, out'. split; [exact ucr_good|]. split; [reflexivity|]. split; [reflexivity|]. split; [reflexivity|]. split; [exact F1|]. split; [exact F2|]. split; [exact O1|]. split; [exact O2|].
  assert (RR : rows = [v; v] :: repeat [v; v] 79) by reflexivity. assert (CC : cols = [matrix_value 0x3fd0000000000000; matrix_value 0x3fe8000000000000] :: [[matrix_value 0x3fe0000000000000; matrix_value 0]]) by reflexivity.
  destruct (first_entry same (dot (p_neg ucr_platform)) out rows cols _ _ _ _ RR CC S1) as (o & t & E1 & A1).
  assert (GC : row_major_columns (map matrix_value gpu_target) 2 2 = row_major_column (map matrix_value gpu_target) 2 2 0 :: [row_major_column (map matrix_value gpu_target) 2 2 1]) by reflexivity.
  destruct (first_entry same (fun row column => in_order (p_neg ucr_platform) (combine column row)) out' rows _ _ _ _ _ RR GC S2) as (o' & t' & E2 & A2).
  clear - E1 E2 A1 A2. intros S. rewrite E1, E2 in S. assert (A3 : same o o') by (clear - S; inversion S; assumption). clear S E1 E2.
  assert (D1 : dot (p_neg ucr_platform) [v; v] [matrix_value 0x3fd0000000000000; matrix_value 0x3fe8000000000000] = S754_zero false) by (vm_compute; reflexivity).
  assert (D2 : exists m e, in_order (p_neg ucr_platform) (combine (row_major_column (map matrix_value gpu_target) 2 2 0) [v; v]) = S754_finite false m e) by (eexists; eexists; vm_compute; reflexivity).
  destruct D2 as (m & e & D2). rewrite D1 in A1. rewrite D2 in A2.
  destruct A2 as [->|(? & ? & _ & E)]; [|discriminate E]. destruct A3 as [->|(? & ? & _ & E)]; [|discriminate E].
  destruct A1 as [E|(? & ? & E & _)]; discriminate E.
Qed.
Lemma c87_buff : exists P precision size data target out out',
  good_platform P /\ 2 ^ 24 mod (size * size) = 0 /\ N.of_nat (length data) = 40 * size * size /\ N.of_nat (length target) = size * size /\
  Forall fraction data /\ Forall fraction target /\
  matrix_cuda_product P (in_order (p_neg P)) precision size (CBuff (10 ^ 8)) data target = Ok out /\
  matrix_cuda_product P (in_order (p_neg P)) precision size (CUncompressed default_capacity) data target = Ok out' /\ ~ Forall2 same out out'.
Proof.
  destruct matrix_sample as (GP & A & B & C & D & E & _).
  exists ucr_platform, 8, 1, matrix_data, matrix_target. eexists. eexists. repeat (split; [assumption|]). split; [vm_compute; reflexivity|]. split; [vm_compute; reflexivity|].
  intros F. inversion F as [|? ? ? ? S _]; subst. apply same_bool in S. vm_compute in S. discriminate S.
Qed.

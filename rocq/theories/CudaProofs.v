(** The product on the GPU. *)
From Verif Require Import Base Xor F64 Format File Query QuerySpec QuerySummary Expr ExprSpec AggregateProofs VectorProofs Text Cuda CudaSpec.

Lemma i32_small n : n < 2147483648 -> i32_of n = Z.of_N n.
Proof. intros L. unfold i32_of, wrap_i32. rewrite Z.mod_small by lia. lia. Qed.
Lemma mul_i32_small dbg a b : a * b < 2147483648 -> mul_i32 dbg (Z.of_N a) (Z.of_N b) = Ok (Z.of_N (a * b)).
Proof.
  intros L. unfold mul_i32. rewrite <- N2Z.inj_mul. assert (A : (-2147483648 <=? Z.of_N (a * b))%Z = true) by (apply Z.leb_le; lia).
  assert (B : (Z.of_N (a * b) <=? 2147483647)%Z = true) by (apply Z.leb_le; lia). now rewrite A, B.
Qed.
Lemma usize_small n : n < two64 -> usize_of_i32 (Z.of_N n) = n.
Proof. intros L. unfold usize_of_i32. rewrite Z.mod_small by lia. lia. Qed.

Lemma combine_nth (f : nat -> N) : forall row k, map (fun p => (f p, nth (p - k) row 0)) (seq k (length row)) = combine (map f (seq k (length row))) row.
Proof.
  induction row as [|x row IH]; intros k; [reflexivity|]. cbn [length seq map combine nth]. rewrite Nat.sub_diag. cbn [nth]. f_equal.
  rewrite <- IH. apply map_ext_in. intros p I. apply in_seq in I. replace (p - k)%nat with (S (p - S k))%nat by lia. reflexivity.
Qed.
Lemma nth_concat_rows k : forall vs j p, Forall (fun v => length v = k) vs -> (p < k)%nat -> nth (p + j * k) (concat vs) 0 = nth p (nth j vs []) 0.
Proof.
  induction vs as [|v vs IH]; intros j p F P; [destruct (p + j * k)%nat, j, p; reflexivity|]. inversion_clear F as [|? ? L F']. cbn [concat]. destruct j as [|j].
  - rewrite Nat.add_0_r. cbn [nth]. now rewrite app_nth1 by lia.
  - cbn [nth]. rewrite app_nth2 by (cbn [Nat.mul]; lia). rewrite <- (IH j p F' P). f_equal. cbn [Nat.mul]. lia.
Qed.
Lemma flat_map_nth {B} (f : list N -> list B) : forall vs k, flat_map (fun j => f (nth (j - k) vs [])) (seq k (length vs)) = flat_map f vs.
Proof.
  induction vs as [|v vs IH]; intros k; [reflexivity|]. cbn [length seq flat_map]. rewrite Nat.sub_diag. cbn [nth]. f_equal. rewrite <- (IH (S k)).
  rewrite !flat_map_concat_map. f_equal. apply map_ext_in. intros j I. apply in_seq in I. replace (j - k)%nat with (S (j - S k))%nat by lia. reflexivity.
Qed.

Section Product.
  Variable dbg : bool.
  Variable acc : list (N * N) -> f64.
  Variables rows columns tc : N.
  Hypothesis RP : 0 < rows.
  Hypothesis CP : 0 < columns.
  Hypothesis TP : 0 < tc.
  Hypothesis S1 : rows * columns < 2147483648.
  Hypothesis S2 : columns * tc < 2147483648.
  Hypothesis S3 : rows * tc < 2147483648.
  Variable target : list N.
  Hypothesis TL : N.of_nat (length target) = columns * tc.
  Let cfg := config_row_major rows tc columns.
  Definition answer (row : list N) : list f64 := map (fun c => acc (combine c row)) (row_major_columns target columns tc).
  Lemma gemm_ok vs : length vs = N.to_nat rows -> Forall (fun v => length v = N.to_nat columns) vs ->
    gemm dbg acc target (concat vs) (rows * tc) cfg = Ok (flat_map answer vs).
  Proof using RP CP TP S1 S2 S3 TL.
    intros LV F. assert (R31 : rows < 2147483648) by nia. assert (C31 : columns < 2147483648) by nia. assert (T31 : tc < 2147483648) by nia.
    assert (W : forall n, n < 2147483648 -> n < two64) by (intros n H; change two64 with 18446744073709551616; lia).
    unfold gemm, cfg, config_row_major. cbn [g_m g_n g_k g_lda g_ldb]. rewrite !i32_small by assumption.
    assert (A : (Z.of_N tc <=? 0)%Z = false) by (apply Z.leb_gt; lia). assert (B : (Z.of_N rows <=? 0)%Z = false) by (apply Z.leb_gt; lia). assert (C : (Z.of_N columns <=? 0)%Z = false) by (apply Z.leb_gt; lia).
    rewrite A, B, C. cbn [orb]. rewrite (mul_i32_small dbg tc columns) by lia. cbn [rbind]. rewrite usize_small by (apply W; lia). rewrite TL, (N.mul_comm columns tc), N.eqb_refl. cbn [negb].
    rewrite (mul_i32_small dbg columns rows) by lia. cbn [rbind]. rewrite usize_small by (apply W; lia). rewrite (concat_len (N.to_nat columns) vs F), LV.
    replace (N.of_nat (N.to_nat columns * N.to_nat rows)) with (columns * rows) by lia. rewrite N.eqb_refl. cbn [negb]. rewrite (mul_i32_small dbg tc rows) by lia. cbn [rbind]. rewrite usize_small by (apply W; lia).
    rewrite (N.mul_comm rows tc), N.eqb_refl. cbn [negb]. f_equal. unfold blas_gemm. cbn [g_m g_n g_k g_lda g_ldb]. replace (Z.to_nat (Z.of_N rows)) with (length vs) by lia.
    rewrite <- (flat_map_nth answer vs 0). rewrite !flat_map_concat_map. f_equal. apply map_ext_in. intros j J. apply in_seq in J. rewrite Nat.sub_0_r. unfold answer, row_major_columns. rewrite map_map.
    replace (Z.to_nat (Z.of_N tc)) with (N.to_nat tc) by lia. apply map_ext. intros i. f_equal. unfold row_major_column. rewrite Forall_forall in F.
    assert (LR : length (nth j vs []) = N.to_nat columns) by (apply F, nth_In; lia). replace (Z.to_nat (Z.of_N columns)) with (length (nth j vs [])) by lia. rewrite <- LR. rewrite <- combine_nth. apply map_ext_in. intros p P. apply in_seq in P.
    rewrite Nat.sub_0_r. f_equal; [f_equal; lia|]. rewrite LR. apply nth_concat_rows; [now apply Forall_forall|lia].
  Qed.

  Variable d : decoder.
  Variable parts : list (list N).
  Hypothesis HD : stored dbg (d_ex d) (d_meta d) (d_file d) (d_precision d) parts.
  Hypothesis SE : settles (d_ex d).
  Hypothesis WHOLE : Forall (fun p => N.of_nat (length p) mod (rows * columns) = 0) parts.
  Definition ready (r : rstate (d_ex d)) (part : list N) : Prop := exists r', ex_decompress (d_ex d) r = (Ok part, r').
  Let size := rows * columns.
  Let K := N.to_nat size.
  Lemma K_pos' : (0 < K)%nat.
  Proof using RP CP. clear - RP CP. unfold K, size. nia. Qed.
  Lemma reader_gemm_ok part o r vs more : ready r part -> skipn o part = concat vs ++ more -> length vs = N.to_nat rows -> Forall (fun v => length v = N.to_nat columns) vs ->
    exists s, reader_gemm dbg acc (d_ex d) (N.of_nat o) size target (rows * tc) true cfg r = (Ok (flat_map answer vs), s) /\ ready s part.
  Proof using RP CP TP S1 S2 S3 TL SE.
    clear HD WHOLE. intros (r' & D) E LV F. unfold reader_gemm. rewrite D. assert (LC : length (concat vs) = K) by (rewrite (concat_len (N.to_nat columns) vs F), LV; unfold K, size; lia).
    assert (LP : (o + K <= length part)%nat). { pose proof K_pos'. pose proof (skipn_length o part) as L. rewrite E, app_length, LC in L. lia. }
    assert (X : (N.of_nat (length part) <? N.of_nat o + size) = false) by (apply N.ltb_ge; unfold K in LP; lia). rewrite X. rewrite Nat2N.id. fold K. rewrite E, firstn_app, LC, Nat.sub_diag. cbn [firstn]. rewrite app_nil_r, firstn_all2 by lia.
    rewrite gemm_ok by assumption. eexists. split; [reflexivity|]. exists r'. exact (SE _ _ _ D).
  Qed.

  Lemma cuda_batch_ok : forall batch i part o r vs, nth_error parts i = Some part -> (o <= length part)%nat -> (Nat.modulo o K = 0)%nat ->
    ready r part ->
    (batch * K = length (skipn o part) + length (concat (skipn (S i) parts)))%nat ->
    grouped (N.to_nat columns) (skipn o part ++ concat (skipn (S i) parts)) vs [] ->
    cuda_batch dbg acc d size (rows * tc) target cfg batch i (N.of_nat o) r = Ok (flat_map answer vs).
  Proof using All.
    pose proof K_pos' as KP.
    assert (NE : forall j p, nth_error parts j = Some p -> p <> [] /\ (Nat.modulo (length p) K = 0)%nat).
    { intros j p E. destruct HD as (_ & _ & HC). destruct (HC j p E) as (PN & _). split; [exact PN|]. rewrite Forall_forall in WHOLE.
      specialize (WHOLE p (nth_error_In _ _ E)). fold size in WHOLE. apply N.mod_divide in WHOLE; [|unfold size; nia]. destruct WHOLE as (q & Q).
      replace (length p) with (N.to_nat q * K)%nat by (unfold K; lia). apply Nat.mod_mul. lia. }
    assert (STEP : forall batch i part o r vs, nth_error parts i = Some part -> (o < length part)%nat -> (Nat.modulo o K = 0)%nat ->
      (forall i part o r vs, nth_error parts i = Some part -> (o <= length part)%nat -> (Nat.modulo o K = 0)%nat ->
        ready r part -> (batch * K = length (skipn o part) + length (concat (skipn (S i) parts)))%nat ->
        grouped (N.to_nat columns) (skipn o part ++ concat (skipn (S i) parts)) vs [] ->
        cuda_batch dbg acc d size (rows * tc) target cfg batch i (N.of_nat o) r = Ok (flat_map answer vs)) ->
      ready r part ->
      (S batch * K = length (skipn o part) + length (concat (skipn (S i) parts)))%nat ->
      grouped (N.to_nat columns) (skipn o part ++ concat (skipn (S i) parts)) vs [] ->
      (let '(x, r) := reader_gemm dbg acc (d_ex d) (N.of_nat o) size target (rows * tc) true cfg r in
       do xs <- x ; do ys <- cuda_batch dbg acc d size (rows * tc) target cfg batch i (N.of_nat o + size) r ; Ok (xs ++ ys)) =
      Ok (flat_map answer vs)).
    { intros batch i part o r vs EP OL OM IH R LEN G. destruct (NE i part EP) as [PN PM].
      assert (OK : (o + K <= length part)%nat).
      { apply Nat.mod_divide in OM; [|lia]. apply Nat.mod_divide in PM; [|lia]. destruct OM as (a & A), PM as (b & B). clear - A B OL KP. assert (a < b)%nat by nia. nia. }
      set (here := firstn K (skipn o part)). set (after := skipn K (skipn o part)).
      assert (HA : skipn o part = here ++ after) by (symmetry; apply firstn_skipn).
      assert (LH : length here = K) by (unfold here; rewrite firstn_length, skipn_length; lia).
      assert (CP' : (0 < N.to_nat columns)%nat) by lia.
      destruct (grouped_total (N.to_nat columns) here CP') as (hvs & hrest & GH).
      assert (HR : hrest = []).
      { pose proof (grouped_mod _ _ _ _ GH) as M. rewrite LH in M. replace K with (N.to_nat rows * N.to_nat columns)%nat in M by (unfold K, size; lia).
        rewrite Nat.mod_mul in M by lia. destruct hrest; [reflexivity|discriminate M]. }
      subst hrest.
      destruct (grouped_total (N.to_nat columns) (after ++ concat (skipn (S i) parts)) CP') as (avs & arest & GA).
      pose proof (grouped_app _ _ _ _ _ _ GH GA) as GG. rewrite app_assoc, <- HA in GG. destruct (grouped_fun _ _ _ _ _ _ G GG) as [-> EA]. subst arest.
      assert (NV : length hvs = N.to_nat rows).
      { destruct GH as (C & F & _). apply (f_equal (@length N)) in C. rewrite app_length, (concat_len (N.to_nat columns)), LH in C by exact F. cbn [length] in C.
        unfold K, size in C. nia. }
      destruct (reader_gemm_ok part o r hvs after R) as (s & DR & R'); auto.
      { rewrite HA. destruct GH as (C & _ & _). now rewrite app_nil_r in C; rewrite C at 1. }
      { now destruct GH as (_ & F & _). }
      rewrite DR. cbn [rbind].
      replace (N.of_nat o + size) with (N.of_nat (o + K)) by (unfold K; lia).
      assert (AF : after = skipn (o + K) part).
      { unfold after. clear. generalize part. intros l. revert l. induction o as [|o IH]; intros l; [reflexivity|]. destruct l; [now rewrite !skipn_nil|]. cbn [skipn Nat.add]. apply IH. }
      rewrite (IH i part (o + K)%nat s avs); auto.
      - cbn [rbind]. now rewrite flat_map_app.
      - rewrite <- Nat.add_mod_idemp_l, OM by lia. cbn. apply Nat.mod_same. lia.
      - rewrite <- AF. rewrite HA in LEN. rewrite app_length in LEN. lia.
      - now rewrite <- AF. }
    induction batch as [|batch IH]; intros i part o r vs EP OL OM R LEN G.
    - assert (VN : vs = []).
      { destruct G as (C & F & _). destruct vs as [|v vs]; [reflexivity|]. exfalso. inversion_clear F. apply (f_equal (@length N)) in C. cbn [concat] in C. rewrite !app_length in C. cbn in C, LEN. lia. }
      subst vs. cbn [cuda_batch flat_map].
      assert (LAST : is_last_chunk (d_meta d) i = true).
      { unfold is_last_chunk. destruct HD as (NC & _ & _). rewrite NC. apply N.eqb_eq.
        assert (LI : (i < length parts)%nat) by (apply nth_error_Some; congruence).
        destruct (nth_error parts (S i)) as [p|] eqn:EN.
        - exfalso. destruct (NE (S i) p EN) as [PN _]. rewrite (skipn_cons parts (S i) p EN) in LEN. cbn [concat] in LEN. rewrite app_length in LEN. destruct p; [congruence|cbn in LEN; lia].
        - apply nth_error_None in EN. lia. }
      rewrite LAST. now rewrite andb_false_r.
    - cbn [cuda_batch]. pose proof HD as (_ & _ & HC). destruct (HC i part EP) as (_ & _ & _ & _ & CR & _). rewrite CR. cbn [lift rbind].
      destruct (N.of_nat (length part) <=? N.of_nat o) eqn:X.
      + apply N.leb_le in X. assert (o = length part) by lia. subst o. rewrite skipn_all in LEN, G. cbn [length app] in LEN, G.
        destruct (nth_error parts (S i)) as [p|] eqn:EN.
        2:{ exfalso. apply nth_error_None in EN. rewrite skipn_all2 in LEN by lia. cbn [concat length Nat.mul Nat.add] in LEN. clear - LEN KP. lia. }
        destruct (HC (S i) p EN) as (PN & _ & _ & _ & _ & q & RD & RR). rewrite RD. cbn [lift rbind].
        rewrite (skipn_cons parts (S i) p EN) in LEN, G. cbn [concat] in LEN, G.
        apply (STEP batch (S i) p 0%nat q vs EN); auto.
        * destruct p; [congruence|cbn; lia].
        * now rewrite Nat.mod_0_l by lia.
        * change (skipn 0 p) with p. rewrite app_length in LEN. lia.
      + apply N.leb_gt in X. cbn [rbind]. apply (STEP batch i part o r vs EP); auto. lia.
  Qed.

  Lemma cuda_ok rws : parts <> [] -> N.of_nat (length (concat parts)) < 2 ^ 60 -> grouped (N.to_nat columns) (concat parts) rws [] ->
    8 * (N.of_nat (length rws) * tc) < 2 ^ 63 ->
    matmul_cuda dbg acc d target (columns, tc) (rows, columns) = Ok (flat_map answer rws).
  Proof using All.
    intros NE SZ G CAP. unfold matmul_cuda. pose proof HD as (NC & NR & HC).
    assert (EX : exists p ps, parts = p :: ps) by (clear - NE; destruct parts as [|p ps]; [congruence|eauto]). destruct EX as (p & ps & EPS).
    destruct (HC 0%nat p ltac:(now rewrite EPS)) as (PN & _ & _ & _ & _ & r & RD & RR).
    fold size. set (total := N.of_nat (length (concat parts))) in *.
    assert (DV : (size | total)).
    { unfold total. assert (WH := WHOLE). clear - WH RP CP. induction WH as [|q qs M F IH]; [now exists 0|]. cbn [concat]. rewrite app_length, Nat2N.inj_add. apply N.divide_add_r; [|exact IH].
      apply N.mod_divide in M; [exact M|unfold size; nia]. }
    assert (TTP : 0 < total).
    { unfold total. rewrite EPS. cbn [concat]. rewrite app_length. destruct p; [congruence|cbn [length]; lia]. }
    assert (SP : 0 < size) by (unfold size; nia).
    assert (MU : mul_usize dbg rows columns = Ok size).
    { unfold mul_usize. fold size. assert (X : (size <? two64) = true) by (apply N.ltb_lt; unfold size; change two64 with 18446744073709551616; lia). now rewrite X. }
    rewrite MU. cbn [lift rbind].
    assert (X0 : (size =? 0) = false) by (apply N.eqb_neq; lia). rewrite X0.
    assert (MT : mul_usize dbg columns tc = Ok (columns * tc)).
    { unfold mul_usize. assert (X : (columns * tc <? two64) = true) by (apply N.ltb_lt; change two64 with 18446744073709551616; lia). now rewrite X. }
    rewrite MT. cbn [lift rbind]. rewrite N.eqb_refl, NR. fold total.
    assert (MZ : total mod size = 0) by (apply N.mod_divide; [lia|exact DV]). rewrite MZ, TL, (N.eqb_refl (columns * tc)). cbn [N.eqb negb orb].
    assert (MC : mul_usize dbg rows tc = Ok (rows * tc)).
    { unfold mul_usize. assert (X : (rows * tc <? two64) = true) by (apply N.ltb_lt; change two64 with 18446744073709551616; lia). now rewrite X. }
    rewrite MC. cbn [lift rbind].
    assert (BR : total / size * rows = N.of_nat (length rws)).
    { destruct DV as (q & Q). rewrite Q, N.div_mul by lia. destruct G as (C & F & _). apply (f_equal (@length N)) in C. rewrite app_length, (concat_len (N.to_nat columns) rws) in C by exact F.
      unfold total in Q. cbn [length] in C. unfold size in Q. assert (q * rows * columns = N.of_nat (length rws) * columns) by lia. nia. }
    assert (BC : total / size * (rows * tc) = N.of_nat (length rws) * tc) by (rewrite N.mul_assoc, BR; reflexivity).
    change (2 ^ 60) with 1152921504606846976 in SZ. change (2 ^ 63) with 9223372036854775808 in CAP.
    unfold mul_usize. rewrite BC. change two64 with 18446744073709551616.
    assert (X1 : (N.of_nat (length rws) * tc <? 18446744073709551616) = true) by (apply N.ltb_lt; clear - CAP; lia). rewrite X1. cbn [lift rbind].
    change isize_limit with 9223372036854775808.
    assert (X2 : (9223372036854775808 <=? 8 * (N.of_nat (length rws) * tc)) = false) by (apply N.leb_gt; clear - CAP; lia). rewrite X2.
    rewrite RD. cbn [lift rbind]. assert (X3 : (rows * tc =? 0) = false) by (apply N.eqb_neq; clear - RP TP; nia). rewrite X3.
    apply (cuda_batch_ok (N.to_nat (total / size)) 0%nat p 0%nat r rws); auto.
    - now rewrite EPS.
    - lia.
    - apply Nat.mod_0_l. unfold K. lia.
    - cbn [skipn]. rewrite EPS. cbn [skipn]. destruct DV as (q & Q). rewrite Q, N.div_mul by lia.
      assert (T : total = N.of_nat (length p + length (concat ps))) by (unfold total; rewrite EPS; cbn [concat]; now rewrite app_length). unfold K. lia.
    - cbn [skipn]. rewrite EPS in G |- *. exact G.
  Qed.
End Product.

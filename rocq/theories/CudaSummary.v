(** The product on the GPU in the form of the properties. *)
From Verif Require Import Base Xor F64 Format File FileSpec Codecs Query QuerySpec QuerySummary Readers ByteCodec Sprintz SprintzSpec SprintzSummary Buff BuffCodec BuffSpec BuffSummary
  Expr ExprSpec AggregateProofs VectorProofs ExprSummary Text Cuda CudaSpec CudaProofs.

Lemma buff_settles dbg simd neg : settles (buff_executor dbg simd neg).
Proof.
  intros r vs r' D. cbn [buff_executor ex_decompress rstate] in *. destruct (settled dbg r) as [S1 S2]. unfold buff_executor in D. cbn [ex_decompress] in D. rewrite D in S1, S2. cbn [fst snd] in S1, S2.
  change (bf_decompress dbg r' = (Ok vs, r')). destruct (bf_decompress dbg r') as [x y]. cbn [fst snd] in *. now subst.
Qed.
Lemma sprintz_settles dbg neg tie : settles (sprintz_executor dbg neg tie).
Proof.
  intros r vs r' D. change (sp_decompress dbg r = (Ok vs, r')) in D. change (sp_decompress dbg r' = (Ok vs, r')). unfold sp_decompress in D. destruct (spr_cache r) as [ws|] eqn:C.
  - injection D as -> <-. unfold sp_decompress. now rewrite C.
  - destruct (sp_header (spr_r r)) as [[[[? ?] ?]|e|] t]; try discriminate D. destruct (sp_collect _ _ _ _ _ _) as [[ws|e|] t2]; try discriminate D. injection D as -> <-. reflexivity.
Qed.
Lemma all_settle dbg simd neg tie log10 lib : (forall c ex, scheme_executor dbg neg tie log10 lib c = Some ex -> settles ex) /\
  settles (buff_executor dbg simd neg) /\ settles (sprintz_executor dbg neg tie).
Proof. split; [intros c ex H; exact (scheme_settles _ _ _ _ _ _ _ H)|]. split; [apply buff_settles|apply sprintz_settles]. Qed.

Lemma c86 : forall dbg acc d parts rows columns tc target rws,
  stored dbg (d_ex d) (d_meta d) (d_file d) (d_precision d) parts -> settles (d_ex d) -> parts <> [] ->
  0 < rows -> 0 < columns -> 0 < tc -> rows * columns < 2 ^ 31 -> columns * tc < 2 ^ 31 -> rows * tc < 2 ^ 31 ->
  N.of_nat (length (concat parts)) < 2 ^ 60 -> Forall (fun p => N.of_nat (length p) mod (rows * columns) = 0) parts ->
  grouped (N.to_nat columns) (concat parts) rws [] -> N.of_nat (length target) = columns * tc ->
  8 * (N.of_nat (length rws) * tc) < 2 ^ 63 ->
  matmul_cuda dbg acc d target (columns, tc) (rows, columns) =
    Ok (flat_map (fun row => map (fun column => acc (combine column row)) (row_major_columns target columns tc)) rws).
Proof. intros. apply (cuda_ok dbg acc rows columns tc) with (parts := parts); assumption. Qed.

Lemma mul_i32_range dbg a b z : mul_i32 dbg a b = Ok z -> (-2147483648 <= z <= 2147483647)%Z.
Proof.
  unfold mul_i32. destruct ((_ <=? _)%Z && _) eqn:C.
  - intros E. injection E as <-. apply andb_prop in C as [C1 C2]. apply Z.leb_le in C1, C2. lia.
  - destruct dbg; [discriminate|]. intros E. injection E as <-. unfold wrap_i32. pose proof (Z.mod_pos_bound (a * b + 2147483648) 4294967296 ltac:(lia)). lia.
Qed.
Lemma usize_range z n : (-2147483648 <= z <= 2147483647)%Z -> n < 2 ^ 60 -> (n =? usize_of_i32 z) = true -> n < 2 ^ 31.
Proof.
  intros R B E. apply N.eqb_eq in E. unfold usize_of_i32 in E. change (Z.of_N two64) with 18446744073709551616%Z in E. change (2 ^ 60) with 1152921504606846976 in B. change (2 ^ 31) with 2147483648.
  destruct (Z.ltb_spec z 0) as [L|L].
  - replace z with (z + 18446744073709551616 + (-1) * 18446744073709551616)%Z in E by lia. rewrite Z.mod_add, Z.mod_small in E by lia. lia.
  - rewrite Z.mod_small in E by lia. lia.
Qed.
Lemma gemm_bounds dbg acc a b c_len cfg xs : gemm dbg acc a b c_len cfg = Ok xs ->
  N.of_nat (length a) < 2 ^ 60 -> N.of_nat (length b) < 2 ^ 60 -> c_len < 2 ^ 60 ->
  N.of_nat (length a) < 2 ^ 31 /\ N.of_nat (length b) < 2 ^ 31 /\ c_len < 2 ^ 31.
Proof.
  unfold gemm. intros G A B C. destruct (_ || _ || _); [discriminate G|].
  destruct (mul_i32 dbg (g_m cfg) (g_k cfg)) as [z1| |] eqn:M1; try discriminate G. cbn [rbind] in G. destruct (_ =? usize_of_i32 z1) eqn:E1; [cbn [negb] in G|discriminate G].
  destruct (mul_i32 dbg (g_k cfg) (g_n cfg)) as [z2| |] eqn:M2; try discriminate G. cbn [rbind] in G. destruct (_ =? usize_of_i32 z2) eqn:E2; [cbn [negb] in G|discriminate G].
  destruct (mul_i32 dbg (g_m cfg) (g_n cfg)) as [z3| |] eqn:M3; try discriminate G. cbn [rbind] in G. destruct (_ =? usize_of_i32 z3) eqn:E3; [clear G|discriminate G].
  apply mul_i32_range in M1, M2, M3. split; [exact (usize_range _ _ M1 A E1)|]. split; [exact (usize_range _ _ M2 B E2)|exact (usize_range _ _ M3 C E3)].
Qed.
Lemma batch_gemm dbg acc d size c_len target cfg batch chunk offset r ys : cuda_batch dbg acc d size c_len target cfg (S batch) chunk offset r = Ok ys ->
  exists a zs, N.of_nat (length a) = size /\ gemm dbg acc target a c_len cfg = Ok zs.
Proof.
  cbn [cuda_batch]. destruct (lift (chunk_records _ _ _)) as [n| |]; try discriminate. cbn [rbind].
  destruct (if n <=? offset then _ else _) as [[[ch off] r0]| |]; try discriminate. cbn [rbind].
  unfold reader_gemm. destruct (ex_decompress (d_ex d) r0) as [[xs|e|] r1]; try discriminate.
  destruct (N.of_nat (length xs) <? off + size) eqn:L; [discriminate|]. apply N.ltb_ge in L.
  destruct (gemm dbg acc target _ c_len cfg) as [zs| |] eqn:G; try discriminate. intros _. eexists _, zs. split; [|exact G].
  rewrite firstn_length, skipn_length. lia.
Qed.
Lemma cap_arith q rows tc n : q * rows = n -> 8 * (n * tc) < 9223372036854775808 -> q * (rows * tc) < 1152921504606846976.
Proof. intros <- H. rewrite N.mul_assoc. lia. Qed.
Lemma below60 n : n < 1152921504606846976 -> (n <? two64) = true.
Proof. intros H. apply N.ltb_lt. change two64 with 18446744073709551616. lia. Qed.
Lemma c86_right : forall dbg acc d parts rows columns target_rows tc target rws xs,
  stored dbg (d_ex d) (d_meta d) (d_file d) (d_precision d) parts -> settles (d_ex d) -> parts <> [] ->
  rows * columns < 2 ^ 64 -> target_rows * tc < 2 ^ 64 -> rows * tc < 2 ^ 64 ->
  N.of_nat (length (concat parts)) < 2 ^ 60 -> Forall (fun p => N.of_nat (length p) mod (rows * columns) = 0) parts ->
  grouped (N.to_nat columns) (concat parts) rws [] -> N.of_nat (length target) < 2 ^ 60 ->
  8 * (N.of_nat (length rws) * tc) < 2 ^ 63 ->
  matmul_cuda dbg acc d target (target_rows, tc) (rows, columns) = Ok xs ->
  target_rows = columns /\ N.of_nat (length target) = target_rows * tc /\
  xs = flat_map (fun row => map (fun column => acc (combine column row)) (row_major_columns target columns tc)) rws.
Proof.
  intros dbg acc d parts rows columns tr tc target rws xs ST SE NE B1 B2 B3 SZ WH G TL CAP H. pose proof H as H0. unfold matmul_cuda, mul_usize in H. change (2 ^ 64) with two64 in B1, B2, B3. change (2 ^ 63) with 9223372036854775808 in CAP.
  pose proof ST as (NC & NR & HC). pose proof (proj2 (N.ltb_lt _ _) B1) as X1. pose proof (proj2 (N.ltb_lt _ _) B2) as X2. pose proof (proj2 (N.ltb_lt _ _) B3) as X3.
  rewrite X1 in H. cbn [lift rbind] in H. destruct (N.eqb_spec (rows * columns) 0) as [Z|NZ]; [discriminate H|]. rewrite X2 in H. cbn [lift rbind] in H.
  destruct (N.eqb_spec columns tr) as [C|C]; [|discriminate H]. cbn [negb orb] in H. rewrite NR in H.
  destruct (N.eqb_spec (N.of_nat (length (concat parts)) mod (rows * columns)) 0) as [DZ|DZ]; [|discriminate H]. cbn [negb orb] in H.
  destruct (N.eqb_spec (tr * tc) (N.of_nat (length target))) as [T|T]; [|discriminate H]. cbn [negb] in H. rewrite X3 in H. cbn [lift rbind] in H.
  set (total := N.of_nat (length (concat parts))) in *.
  assert (RP : 0 < rows) by (clear - NZ; nia). assert (CP : 0 < columns) by (clear - NZ; nia).
  assert (TT : 0 < total).
  { destruct parts as [|p ps]; [congruence|]. destruct (HC 0%nat p eq_refl) as (PN & _). unfold total. cbn [concat]. rewrite app_length. destruct p; [congruence|cbn [length]; lia]. }
  apply N.mod_divide in DZ; [|exact NZ]. destruct DZ as (q & Q). assert (QP : 0 < q) by (clear - Q TT; nia).
  assert (BR : q * rows = N.of_nat (length rws)).
  { destruct G as (GC & F & _). apply (f_equal (@length N)) in GC. rewrite app_length, (concat_len (N.to_nat columns) rws) in GC by exact F.
    cbn [length] in GC. unfold total in Q. clear - Q GC CP. assert (q * rows * columns = N.of_nat (length rws) * columns) by lia. nia. }
  rewrite Q, N.div_mul in H by exact NZ.
  assert (CL : q * (rows * tc) < 2 ^ 60) by exact (cap_arith q rows tc _ BR CAP).
  rewrite (below60 _ CL) in H. cbn [lift rbind] in H.
  destruct (isize_limit <=? _); [discriminate H|]. destruct (lift (chunk_reader _ _ _ _ _ 0)) as [r| |]; try discriminate H. cbn [rbind] in H.
  destruct (N.eqb_spec (rows * tc) 0) as [Z|NZ2]; [discriminate H|]. assert (TP : 0 < tc) by (clear - NZ2; nia).
  destruct (N.to_nat q) as [|q2] eqn:EQ; [clear - EQ QP; lia|]. destruct (batch_gemm _ _ _ _ _ _ _ _ _ _ _ _ H) as (a & zs & LA & GM).
  assert (S60 : rows * columns < 2 ^ 60) by (apply N.le_lt_trans with total; [rewrite Q; clear - QP; nia|exact SZ]).
  assert (C60 : rows * tc < 2 ^ 60) by (apply N.le_lt_trans with (q * (rows * tc)); [clear - QP; nia|exact CL]).
  destruct (gemm_bounds _ _ _ _ _ _ _ GM TL ltac:(rewrite LA; exact S60) C60) as (L1 & L2 & L3). rewrite LA in L2. subst tr.
  split; [reflexivity|]. split; [symmetry; exact T|].
  assert (E := c86 dbg acc d parts rows columns tc target rws ST SE NE RP CP TP L2 ltac:(rewrite T; exact L1) L3 SZ WH G (eq_sym T) CAP). rewrite E in H0. clear - H0. injection H0. intros X. symmetry. exact X.
Qed.
Lemma in_order_dot neg : forall c row, in_order neg (combine c row) = dot neg row c.
Proof.
  intros c row. unfold in_order, dot. f_equal. revert row. induction c as [|x c IH]; intros [|y row]; try reflexivity. cbn [combine map]. f_equal. apply IH.
Qed.
Lemma columns_grouped target columns tc : 0 < columns -> grouped (N.to_nat columns) (concat (row_major_columns target columns tc)) (row_major_columns target columns tc) [].
Proof.
  intros C. split; [now rewrite app_nil_r|]. split; [|cbn; lia]. apply Forall_forall. intros v I. unfold row_major_columns in I. apply in_map_iff in I as (i & <- & _). unfold row_major_column. now rewrite map_length, seq_length.
Qed.
Lemma c86_transposed : forall dbg neg tie log10 lib c d parts rows columns tc target rws,
  scheme_executor dbg neg tie log10 lib c = Some (d_ex d) ->
  stored dbg (d_ex d) (d_meta d) (d_file d) (d_precision d) parts -> parts <> [] ->
  0 < rows -> 0 < columns -> 0 < tc -> rows * columns < 2 ^ 31 -> columns * tc < 2 ^ 31 -> rows * tc < 2 ^ 31 ->
  N.of_nat (length (concat parts)) < 2 ^ 60 -> Forall (fun p => N.of_nat (length p) mod (rows * columns) = 0) parts ->
  grouped (N.to_nat columns) (concat parts) rws [] -> N.of_nat (length target) = columns * tc ->
  8 * (N.of_nat (length rws) * tc) < 2 ^ 63 ->
  exists xs, matmul_cuda dbg (in_order neg) d target (columns, tc) (rows, columns) = Ok xs /\
    matmul dbg d (concat (row_major_columns target columns tc)) (columns, tc) (rows, columns) = Ok xs.
Proof.
  intros dbg neg tie log10 lib c d parts rows columns tc target rws SE ST NE RP CP TP S1 S2 S3 SZ WH G TL CAP. eexists. split.
  - exact (c86 dbg (in_order neg) d parts rows columns tc target rws ST (scheme_settles _ _ _ _ _ _ _ SE) NE RP CP TP S1 S2 S3 SZ WH G TL CAP).
  - assert (HO : holds dbg neg d parts) by (destruct d as [ex m file precision]; exact (plain_holds _ _ _ _ _ _ _ _ _ _ _ SE ST)).
    rewrite (matmul_ok dbg neg d parts rows columns tc _ rws (row_major_columns target columns tc) HO NE RP CP SZ WH G (columns_grouped target columns tc CP)); [|unfold row_major_columns; rewrite map_length, seq_length; lia|exact CAP].
    f_equal. rewrite !flat_map_concat_map. f_equal. apply map_ext. intros row. apply map_ext. intros column. symmetry. apply in_order_dot.
Qed.
Lemma c86_rejects : forall dbg acc d target target_rows target_columns rows columns,
  0 < rows * columns < 2 ^ 64 -> target_rows * target_columns < 2 ^ 64 ->
  columns <> target_rows \/ f_records (m_footer (d_meta d)) mod (rows * columns) <> 0 \/ N.of_nat (length target) <> target_rows * target_columns ->
  matmul_cuda dbg acc d target (target_rows, target_columns) (rows, columns) = Err (CDecoder EPreconditionsNotMet).
Proof.
  intros dbg acc d target tr tc rows columns [P B] B2 H. unfold matmul_cuda, mul_usize. change two64 with (2 ^ 64). apply N.ltb_lt in B, B2. rewrite B. cbn [lift rbind].
  assert (X : (rows * columns =? 0) = false) by (apply N.eqb_neq; lia). rewrite X, B2. cbn [lift rbind].
  destruct H as [H|[H|H]]; apply N.eqb_neq in H.
  - now rewrite H.
  - rewrite H. cbn [negb]. now rewrite orb_true_r.
  - rewrite N.eqb_sym in H. rewrite H. cbn [negb]. now rewrite orb_true_r.
Qed.
Definition cuda_records : list N := map whole [1; 2; 3; 4; 5; 6; 7; 8]%Z.
Definition cuda_target : list N := map whole [1; 10; 100; 1000]%Z.
Lemma c86_differs : exists d parts,
  sample_decoder 4 cuda_records = Some d /\ stored false (d_ex d) (d_meta d) (d_file d) (d_precision d) parts /\ concat parts = cuda_records /\
  matmul false d cuda_target (2, 2) (2, 2) = Ok (map of_Z [21; 2100; 43; 4300; 65; 6500; 87; 8700]%Z) /\
  matmul_cuda false (in_order false) d cuda_target (2, 2) (2, 2) = Ok (map of_Z [201; 2010; 403; 4030; 605; 6050; 807; 8070]%Z).
Proof.
  assert (P : partition (Some 4) cuda_records (map (map whole) [[1; 2; 3; 4]; [5; 6; 7; 8]]%Z)) by (apply partition_check; [reflexivity|reflexivity|]; cbn [map]; cases_nth).
  destruct (sample_stored 4 cuda_records (map (map whole) [[1; 2; 3; 4]; [5; 6; 7; 8]]%Z)) as (d & SD & EX & ST); [discriminate|vm_compute; reflexivity|vm_compute; reflexivity|vm_compute; reflexivity|vm_compute; reflexivity|exact P|].
  exists d, (map (map whole) [[1; 2; 3; 4]; [5; 6; 7; 8]]%Z). split; [exact SD|]. split; [exact ST|]. split; [reflexivity|].
  assert (R : option_map (fun d => (matmul false d cuda_target (2, 2) (2, 2), matmul_cuda false (in_order false) d cuda_target (2, 2) (2, 2))) (sample_decoder 4 cuda_records) =
    Some (Ok (map of_Z [21; 2100; 43; 4300; 65; 6500; 87; 8700]%Z), Ok (map of_Z [201; 2010; 403; 4030; 605; 6050; 807; 8070]%Z))) by (vm_compute; reflexivity).
  rewrite SD in R. cbn [option_map] in R. injection R as R1 R2. split; assumption.
Qed.
(** A product of the shape that overflows. *)
Lemma c86_wraps : exists d, sample_decoder 4 cuda_records = Some d /\ f_records (m_footer (d_meta d)) = 8 /\
  matmul_cuda false (in_order false) d cuda_target (2, 2) (2 ^ 63 + 1, 2) = Ok (map of_Z [201; 2010; 403; 4030; 605; 6050; 807; 8070]%Z) /\
  matmul_cuda true (in_order false) d cuda_target (2, 2) (2 ^ 63 + 1, 2) = Panic.
Proof.
  destruct c86_differs as (d & _ & SD & _). exists d. split; [exact SD|].
  assert (R : option_map (fun d => (f_records (m_footer (d_meta d)), matmul_cuda false (in_order false) d cuda_target (2, 2) (2 ^ 63 + 1, 2), matmul_cuda true (in_order false) d cuda_target (2, 2) (2 ^ 63 + 1, 2))) (sample_decoder 4 cuda_records) =
    Some (8, Ok (map of_Z [201; 2010; 403; 4030; 605; 6050; 807; 8070]%Z), Panic)) by (vm_compute; reflexivity).
  rewrite SD in R. cbn [option_map] in R. apply (f_equal (fun o => match o with Some x => x | None => (0, Panic, Panic) end)) in R. cbn beta iota in R.
  split; [exact (f_equal (fun x => fst (fst x)) R)|]. split; [exact (f_equal (fun x => snd (fst x)) R)|exact (f_equal snd R)].
Qed.

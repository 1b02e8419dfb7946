(** Filters with and without the x86-64 code paths, on any chunk bytes. *)
From Coq Require Import Sorted.
From Verif Require Import Base WordProofs BitIO Xor F64 Query QuerySpec QueryProofs Sprintz SprintzProofs SprintzQueryProofs
  Buff BuffBitsProofs BuffReadProofs BuffScanProofs.

Section Simd.
  Variables (dbg : bool) (off n : N) (bytes : list N).
  Hypothesis BY : Forall is_byte bytes.
  Hypothesis SM : off + n < 2 ^ 32.
  Definition inside (bm : bitmap) : Prop := StronglySorted N.lt bm /\ Forall (fun x => off <= x < off + n) bm.

  Lemma column_read p column p' : unwrap (bp_read_n_byte bytes n p) = Ok (column, p') ->
    N.of_nat (length column) = n /\ Forall is_byte column.
  Proof using BY.
    clear SM. unfold bp_read_n_byte. destruct (N.ltb_spec (N.of_nat (length bytes)) (fst p + n)) as [L|L]; [discriminate|]. cbn [unwrap].
    intros E. injection E as <- _. split; [rewrite firstn_length, skipn_length; lia|].
    assert (BS : Forall is_byte (skipn (N.to_nat (fst p)) bytes)).
    { rewrite <- (firstn_skipn (N.to_nat (fst p)) bytes) in BY. now apply Forall_app in BY. }
    rewrite <- (firstn_skipn (N.to_nat n) (skipn _ bytes)) in BS. now apply Forall_app in BS.
  Qed.
  Lemma eq_columns_simd delta fuel : forall remaining p result,
    eq_columns dbg true bytes n delta off fuel remaining p result = eq_columns dbg false bytes n delta off fuel remaining p result.
  Proof using BY SM.
    induction fuel as [|fuel IH]; intros remaining p result; cbn [eq_columns]; [reflexivity|].
    destruct result as [bm|].
    - destruct (eq_masked _ _ _ _ _ _ _) as [[[next expected] p']|e|]; [|reflexivity|reflexivity]. cbn [rbind].
      destruct (records_left n expected) as [rest|e|]; [|reflexivity|reflexivity]. cbn [rbind]. destruct (bm_is_empty next); [reflexivity|]. apply IH.
    - destruct (unwrap (bp_read_n_byte bytes n p)) as [[column p']|e|] eqn:ER; [|reflexivity|reflexivity].
      destruct (column_read _ _ _ ER) as [LC BC]. cbn [rbind]. rewrite !eq_column_ok by lia. cbn [rbind].
      destruct (bm_is_empty _); [reflexivity|]. apply IH.
  Qed.
  Lemma cmp_columns_simd greater delta fuel : forall remaining p to_check q, match to_check with Some bm => inside bm | None => True end ->
    cmp_columns dbg true greater bytes n delta off fuel remaining p to_check q = cmp_columns dbg false greater bytes n delta off fuel remaining p to_check q.
  Proof using BY SM.
    induction fuel as [|fuel IH]; intros remaining p to_check q W; cbn [cmp_columns]; [reflexivity|].
    destruct (unwrap (bp_read_n_byte bytes n p)) as [[column p']|e|] eqn:ER; [|reflexivity|reflexivity].
    destruct (column_read _ _ _ ER) as [LC BC]. cbn [rbind].
    assert (PB : is_byte (N.shiftr delta (remaining - 8) mod 256)) by (apply N.mod_lt; discriminate).
    destruct to_check as [bm|].
    - assert (WX : StronglySorted N.lt bm /\ Forall (fun x => off <= x < off + N.of_nat (length column)) bm) by (rewrite LC; exact W).
      rewrite !cmp_masked_ok by (try assumption; try exact WX; lia). cbn [rbind].
      destruct (bm_is_empty _); [reflexivity|]. apply IH. destruct W as [S F]. split; [now apply sorted_filter|].
      rewrite Forall_forall in *. intros x I. apply filter_In in I as [I _]. auto.
    - rewrite !cmp_column_ok by (try assumption; lia). cbn [rbind].
      destruct (bm_is_empty _); [reflexivity|]. apply IH. split; [apply sorted_filter, n_seq_sorted|].
      apply Forall_forall. intros x I. apply filter_In in I as [I _]. apply n_seq_In in I. lia.
  Qed.

  Hypothesis HN : forall h p, bf_header bytes = Ok (h, p) -> bh_records h = n.
  Variable mask : option bitmap.
  Hypothesis MW : match mask with Some bm => inside bm | None => True end.
  Lemma equal_simd v : buff_equal_filter dbg true bytes v mask off = buff_equal_filter dbg false bytes v mask off.
  Proof using All.
    unfold buff_equal_filter. destruct (bf_header bytes) as [[h p]|e|] eqn:EH; [|reflexivity|reflexivity]. cbn [unwrap rbind].
    rewrite (HN h p eq_refl). destruct (fixed_of _ _ _) as [fixed|e|]; [|reflexivity|reflexivity]. cbn [rbind].
    destruct (_ <? _)%Z; [reflexivity|]. destruct (bh_bits h =? 0); [reflexivity|]. destruct (sub_i64 _ _ _) as [d|e|]; [|reflexivity|reflexivity]. cbn [rbind].
    now rewrite eq_columns_simd.
  Qed.
  Lemma cmp_simd greater inclusive v :
    buff_cmp_filter dbg true greater inclusive bytes v mask off = buff_cmp_filter dbg false greater inclusive bytes v mask off.
  Proof using All.
    unfold buff_cmp_filter. destruct (bf_header bytes) as [[h p]|e|] eqn:EH; [|reflexivity|reflexivity]. cbn [unwrap rbind].
    rewrite (HN h p eq_refl). destruct (fixed_of _ _ _) as [fixed|e|]; [|reflexivity|reflexivity]. cbn [rbind].
    destruct (_ <? _)%Z; [reflexivity|]. destruct (bh_bits h =? 0); [reflexivity|]. destruct (sub_i64 _ _ _) as [d|e|]; [|reflexivity|reflexivity]. cbn [rbind].
    destruct (bh_bits h <? _); [reflexivity|]. now rewrite (cmp_columns_simd greater) by exact MW.
  Qed.
End Simd.

Lemma mask_inside dbg bm off n : is_bitmap bm -> off + n < 2 ^ 32 -> exists xs, chunk_mask dbg bm off n = Ok xs /\ inside off n xs.
Proof.
  intros MO SM. pose proof (chunk_mask_ok dbg bm off (repeat tt (N.to_nat n)) MO) as E. rewrite repeat_length, N2Nat.id in E. specialize (E SM).
  eexists. split; [exact E|]. split; [apply pick_sorted|]. apply Forall_forall. intros x I. apply in_map_iff in I as ([y v] & <- & I).
  apply pick_ge in I. rewrite repeat_length, N2Nat.id in I. exact I.
Qed.
Lemma filter_simd dbg p mask off n bytes : Forall is_byte bytes -> mask_ok mask -> off + n < 2 ^ 32 ->
  (forall h q, bf_header bytes = Ok (h, q) -> bh_records h = n) ->
  fst (bf_filter dbg true p mask off (bf_open n bytes)) = fst (bf_filter dbg false p mask off (bf_open n bytes)).
Proof.
  intros BY MO SM HN. unfold bf_filter. cbn [fst].
  assert (EM : exists mk, restrict dbg mask off (bf_open n bytes) = Ok mk /\ match mk with Some bm => inside off n bm | None => True end).
  { unfold restrict. cbn [bf_open br_records]. destruct mask as [bm|]; [|eauto]. destruct (mask_inside dbg bm off n MO SM) as (xs & -> & W). cbn [rbind]. eauto. }
  destruct EM as (mk & EM & W). rewrite EM. cbn [rbind bf_open br_bytes br_records]. rewrite (N.mod_small off) by (change two32 with (2 ^ 32); lia).
  destruct p as [v|v|lo hi].
  - now apply equal_simd with n.
  - now rewrite (equal_simd dbg off n bytes BY SM HN mk W).
  - destruct lo as [v|v|], hi as [w|w|]; rewrite ?(cmp_simd dbg off n bytes BY SM HN mk W); reflexivity.
Qed.

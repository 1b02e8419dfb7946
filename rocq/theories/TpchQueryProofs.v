(** The queries on a table whose columns can be opened. *)
From Coq Require Import String Reals Lra.
From Flocq Require Import Core BinarySingleNaN.
From Verif Require Import Base WordProofs Xor F64 F64Proofs F64BitsProofs F64Flocq Format FormatSpec File FileSpec Codecs CodecSpec Readers Query QuerySpec QueryProofs
  Sprintz SprintzSpec Expr ExprSpec ExprProofs AggregateProofs ExprSummary
  RelErrorProofs Tpch TpchSpec TpchExtractProofs TpchGridProofs TpchColumnProofs.
Local Open Scope N_scope.

(** ** Selections *)
Lemma choose_filter {A B} mask (f : A -> B) sel rows : forall first ys,
  (forall i r, nth_error rows i = Some r -> (in_mask mask (first + N.of_nat i) <-> sel r = true)) ->
  choose mask first (map f rows) ys -> ys = map f (filter sel rows).
Proof.
  induction rows as [|r rows IH]; intros first ys M C; cbn [map] in C; inversion C as [|? ? ? ? IM C'|? ? ? ? IM C']; subst; [reflexivity| |].
  - cbn [filter]. pose proof (M 0%nat r eq_refl) as M0. rewrite N.add_0_r in M0. rewrite (proj1 M0 IM). cbn [map]. f_equal. apply (IH (first + 1)); [|exact C'].
    intros i q E. specialize (M (S i) q E). rewrite <- M. replace (first + 1 + N.of_nat i) with (first + N.of_nat (S i)) by lia. reflexivity.
  - cbn [filter]. pose proof (M 0%nat r eq_refl) as M0. rewrite N.add_0_r in M0. destruct (sel r); [now destruct IM; apply M0|]. apply (IH (first + 1)); [|exact C'].
    intros i q E. specialize (M (S i) q E). rewrite <- M. replace (first + 1 + N.of_nat i) with (first + N.of_nat (S i)) by lia. reflexivity.
Qed.
Lemma selected_filter {A} mask (f : A -> list N) sel rss : forall first yss,
  (forall i r, nth_error (concat rss) i = Some r -> (in_mask mask (first + N.of_nat i) <-> sel r = true)) ->
  selected mask first (map (map f) rss) yss -> yss = map (map f) (map (filter sel) rss).
Proof.
  induction rss as [|rs rss IH]; intros first yss M S; cbn [map] in S; inversion S as [|? ? ys ? yss' C S']; subst; [reflexivity|]. cbn [map]. cbn [concat] in M. f_equal.
  - apply (choose_filter mask f sel rs first); [|exact C]. intros i r E. apply M. rewrite nth_error_app1; [exact E|]. apply nth_error_Some. congruence.
  - apply (IH (first + N.of_nat (length (map f rs)))); [|exact S']. rewrite map_length. intros i r E. specialize (M (length rs + i)%nat r).
    rewrite nth_error_app2, Nat.add_comm, Nat.add_sub in M by lia. specialize (M E). rewrite <- M. replace (first + N.of_nat (length rs) + N.of_nat i) with (first + N.of_nat (i + length rs)) by lia. reflexivity.
Qed.
Lemma filter_concat {A} (sel : A -> bool) rss : concat (map (filter sel) rss) = filter sel (concat rss).
Proof. induction rss as [|rs rss IH]; [reflexivity|]. cbn [map concat]. now rewrite filter_app, IH. Qed.
Lemma filter_true {A} (l : list A) : filter (fun _ => true) l = l.
Proof. induction l as [|x l IH]; [reflexivity|]. cbn. now rewrite IH. Qed.

(** ** Literals *)
Lemma five_hundredths : 0x3fa999999999999a = grid_value 100 5. Proof. vm_compute. reflexivity. Qed.
Lemma seven_hundredths : 0x3fb1eb851eb851ec = grid_value 100 7. Proof. vm_compute. reflexivity. Qed.
Lemma twenty_four : 0x4038000000000000 = grid_value 100 2400. Proof. vm_compute. reflexivity. Qed.
Lemma on_grid_small z : amount z -> grid_operand 100 (grid_value 100 z).
Proof. intros A. left. exists z. split; [exact (amount_small z A)|reflexivity]. Qed.
Lemma discount_satisfied z : amount z -> (satisfies h06_discount (grid_value 100 z) <-> (5 <= z <= 7)%Z).
Proof.
  intros A. unfold h06_discount. rewrite five_hundredths, seven_hundredths. cbn [satisfies above below].
  assert (A5 : amount 5) by (unfold amount; lia). assert (A7 : amount 7) by (unfold amount; lia).
  rewrite (proj1 (grid_related Z.le 5 z A5 A) eq_refl), (proj1 (grid_related Z.le z 7 A A7) eq_refl). reflexivity.
Qed.
Lemma quantity_satisfied z : amount z -> (satisfies h06_quantity (grid_value 100 z) <-> (z < 2400)%Z).
Proof.
  intros A. unfold h06_quantity. rewrite twenty_four. cbn [satisfies above below]. assert (A24 : amount 2400) by (unfold amount; lia).
  rewrite (proj2 (grid_related Z.lt z 2400 A A24) eq_refl). tauto.
Qed.
Lemma discount_operands : Forall is_u64 (pred_operands h06_discount) /\ Forall (grid_operand 100) (pred_operands h06_discount).
Proof.
  unfold h06_discount. rewrite five_hundredths, seven_hundredths. cbn [pred_operands app]. split.
  - repeat constructor; apply grid_value_u64.
  - constructor; [apply on_grid_small; unfold amount; lia|]. constructor; [apply on_grid_small; unfold amount; lia|constructor].
Qed.
Lemma quantity_operands : Forall is_u64 (pred_operands h06_quantity) /\ Forall (grid_operand 100) (pred_operands h06_quantity).
Proof.
  unfold h06_quantity. rewrite twenty_four. cbn [pred_operands app]. split.
  - repeat constructor; apply grid_value_u64.
  - constructor; [apply on_grid_small; unfold amount; lia|constructor].
Qed.

Section Queries.
  Variable P : platform.
  Hypothesis GP : good_platform P.
  Variable c : config.
  Hypothesis CI : In c (all_configs 100).
  Hypothesis NB : config_scheme c <> SBuff.
  Variable L : list string.
  Variable rss : list (list row).
  Hypothesis RC : cut_rows rss.
  Hypothesis UT : usable_table L (concat rss).
  Let rows := concat rss.
  Definition cols_of : columns := map (fun n => (n, map (cell n) (concat rss))) L.
  Hypothesis FM : fits_memory P c cols_of.

  Definition zcol (n : string) : list (list Z) := map (map (fun r : row => r n)) rss.
  Lemma zcol_concat n : concat (zcol n) = map (fun r : row => r n) rows.
  Proof using. clear. unfold zcol, rows. apply concat_map_map. Qed.
  Lemma zcol_cells n : map (grid_value 100) (concat (zcol n)) = map (cell n) rows.
  Proof using. clear. rewrite zcol_concat, map_map. reflexivity. Qed.
  Lemma zcol_amounts n : In n L -> Forall amount (concat (zcol n)).
  Proof using UT. intros I. rewrite zcol_concat. apply Forall_map, Forall_forall. intros r R. destruct UT as (_ & _ & B & _). exact (B r n R I). Qed.
  Lemma zcol_length n : length (concat (zcol n)) = length rows.
  Proof using. clear. rewrite zcol_concat. apply map_length. Qed.

  Definition good_pair (n : string) (ds : decoder * statistics) : Prop :=
    good_column P (fst ds) (zcol n) /\ st_uncompressed (snd ds) = 8 * N.of_nat (length rows) /\
    st_file (snd ds) = N.of_nat (length (written [] (fst (encode_column P c (map (cell n) rows))))) /\
    st_file (snd ds) = 30 + st_chunks (snd ds) + footer_size (m_footer (d_meta (fst ds))) /\ f_config (m_footer (d_meta (fst ds))) = c.
  Lemma column_good n : In n L -> exists d s, open_column P c (map (cell n) rows) = Ok d /\ column_statistics P d = Ok s /\ good_pair n (d, s).
  Proof using GP CI NB RC UT FM.
    intros I. destruct (column_opened P GP (zcol n) (cut_map _ _ RC) (zcol_amounts n I)) with (c := c) as (d & s & O & S & G & S1 & S2 & S3 & S4).
    - rewrite zcol_length. apply UT.
    - intros E. apply (f_equal (@length Z)) in E. rewrite zcol_length in E. destruct UT as (NE & _). unfold rows in E. destruct (concat rss); [now destruct NE|discriminate E].
    - exact CI.
    - exact NB.
    - rewrite zcol_cells. apply (FM n). unfold cols_of. apply in_map_iff. exists n. split; [reflexivity|exact I].
    - exists d, s. rewrite zcol_cells in O, S1, S2. rewrite map_length in S1. split; [exact O|]. split; [exact S|]. split; [exact G|]. split; [exact S1|]. split; [exact S2|]. split; [exact S3|exact S4].
  Qed.
  Lemma columns_good : exists ds, open_columns P c cols_of = Ok ds /\ Forall2 good_pair L ds.
  Proof using GP CI NB RC UT FM.
    assert (G : forall l, (forall n, In n l -> In n L) -> exists ds, open_columns P c (map (fun n => (n, map (cell n) (concat rss))) l) = Ok ds /\ Forall2 good_pair l ds).
    { induction l as [|n l IH]; intros SUB; [exists []; split; [reflexivity|constructor]|].
      destruct (column_good n (SUB n (or_introl eq_refl))) as (d & s & O & S & G). destruct (IH ltac:(intros; apply SUB; now right)) as (ds & OS & F).
      exists ((d, s) :: ds). split; [|now constructor]. cbn [map open_columns]. unfold rows in O. rewrite O. cbn [rbind]. rewrite S. cbn [rbind]. rewrite OS. reflexivity. }
    exact (G L (fun n I => I)).
  Qed.

  Variable ds : list (decoder * statistics).
  Hypothesis DG : Forall2 good_pair L ds.
  Definition row_of (r : row) : list N := map (fun n => cell n r) L.
  Definition chunks := map (map row_of) rss.

  Lemma nth_good k n : nth_error L k = Some n -> exists d, nth_error (map fst ds) k = Some d /\ good_column P d (zcol n).
  Proof using DG.
    clear UT FM. intros E. revert k E. induction DG as [|m d ms es G F IH]; intros [|k] E; try discriminate E; cbn in E.
    - injection E as ->. exists (fst d). split; [reflexivity|]. apply G.
    - cbn [map nth_error]. exact (IH F k E).
  Qed.
  Lemma good_nth k d : nth_error (map fst ds) k = Some d -> exists n, nth_error L k = Some n /\ good_column P d (zcol n).
  Proof using DG.
    clear UT FM. intros E. revert k E. induction DG as [|m e ms es G F IH]; intros [|k] E; try discriminate E; cbn in E.
    - injection E as <-. exists m. split; [reflexivity|]. apply G.
    - cbn [nth_error]. exact (IH F k E).
  Qed.
  Lemma nth_row k n r : nth_error L k = Some n -> nth k (row_of r) 0 = cell n r.
  Proof using. clear. intros E. apply nth_error_nth. unfold row_of. now apply (map_nth_error (fun n => cell n r)). Qed.
  Lemma column_chunks k n : nth_error L k = Some n -> map (column k) chunks = map (map (grid_value 100)) (zcol n).
  Proof using.
    clear. intros E. unfold chunks, zcol. rewrite !map_map. apply map_ext. intros rs. unfold column. rewrite !map_map. apply map_ext. intros r. now rewrite (nth_row k n r E).
  Qed.
  Lemma table_of : table (p_dbg P) (p_neg P) (map fst ds) chunks.
  Proof using DG. clear UT FM. intros k d E. destruct (good_nth k d E) as (n & EL & G). rewrite (column_chunks k n EL). apply G. Qed.
  Lemma some_decoder n : In n L -> map fst ds <> [].
  Proof using DG. clear UT FM. intros I. destruct DG; [destruct I|discriminate]. Qed.
  Lemma chunk_rows_total : length (concat chunks) = length rows.
  Proof using. clear. unfold chunks, rows. rewrite concat_map_map. apply map_length. Qed.
  Lemma chunks_32 : N.of_nat (length (concat chunks)) < 2 ^ 32.
  Proof using UT. rewrite chunk_rows_total. apply UT. Qed.
  Lemma chunks_60 : N.of_nat (length (concat chunks)) < 2 ^ 60.
  Proof using UT. apply N.lt_trans with (2 ^ 32); [exact chunks_32|reflexivity]. Qed.
  Lemma index_below k n : nth_error L k = Some n -> (k < length (map fst ds))%nat.
  Proof using DG. clear UT FM. intros E. destruct (nth_good k n E) as (d & X & _). apply nth_error_Some. congruence. Qed.

  (** ** Sums *)
  Lemma values_near q k (f : row -> Z) (e : expr) rs : (forall r, In r rs -> near k (IZR (f r) * q) (value (row_of r) e)) ->
    Forall2 (fun m x => near k (IZR m * q) x) (map f rs) (map (fun r => value r e) (map row_of rs)).
  Proof using. clear. induction rs as [|r rs IH]; intros H; cbn [map]; constructor; [apply H; now left|apply IH; intros; apply H; now right]. Qed.
  Lemma sum_near mask sel q k (f : row -> Z) (e : expr) B :
    (Z.of_nat k <= 600)%Z -> (bpow radix2 (-100) <= q <= 1)%R -> (0 <= B)%Z -> (B * 2 ^ 32 <= 2 ^ 104)%Z ->
    (forall r, In r rows -> (0 <= f r <= B)%Z /\ near k (IZR (f r) * q) (value (row_of r) e)) ->
    (forall i r, nth_error rows i = Some r -> (in_mask mask (N.of_nat i) <-> sel r = true)) ->
    (mask = None \/ N.of_nat (length (concat chunks)) < 2 ^ 32) ->
    formula (length (map fst ds)) e -> ~ is_index e -> map fst ds <> [] ->
    exists x, compute (p_dbg P) (p_neg P) (p_tie P) (sum_of e) (map fst ds) mask = Ok (Scalar x) /\
      near roundings (IZR (total f (filter sel rows)) * q) x.
  Proof using RC UT DG.
    intros K Q B0 BS H M MO FE NI NE.
    destruct (compute_ok (p_dbg P) (p_neg P) (p_tie P) mask (map fst ds) chunks table_of NE MO chunks_60 (sum_of e) FE NI) as (yss & r & SEL & C & AG).
    cbn [sum_of a_kind a_expr] in AG. unfold aggregated in AG. subst r. eexists. split; [exact C|].
    rewrite (selected_filter mask row_of sel rss 0 yss M SEL). unfold total, rows. rewrite <- filter_concat, concat_map.
    assert (SUB : forall rs, In rs rss -> forall r, In r rs -> In r rows) by (intros rs I r J; apply in_concat; eauto).
    assert (LE : forall (g : row -> bool) rs, (length (filter g rs) <= length rs)%nat).
    { intros g rs. induction rs as [|x rs IHr]; [cbn; lia|]. cbn. destruct (g x); cbn; lia. }
    apply (near_chunks q k (map (map f) (map (filter sel) rss))); [exact K|exact Q| | | |rewrite !map_length; apply cut_few; [exact RC|apply UT]|].
    - apply Forall_map, Forall_map, Forall_forall. intros rs I. apply Forall_map, Forall_forall. intros r J. apply filter_In in J. apply (H r). apply (SUB rs I). apply J.
    - rewrite <- concat_map, filter_concat. fold rows.
      assert (ZB : (zsum (map f (filter sel rows)) <= B * Z.of_nat (length (map f (filter sel rows))))%Z).
      { apply zsum_bound; [exact B0|]. apply Forall_map, Forall_forall. intros r J. apply filter_In in J. apply (H r). apply J. }
      rewrite map_length in ZB. pose proof (LE sel rows) as LR. destruct UT as (_ & U32 & _). fold rows in U32.
      assert (LZ : (Z.of_nat (length (filter sel rows)) <= 2 ^ 32)%Z) by (clear - U32 LR; change (2 ^ 32) with 4294967296 in U32; change (2 ^ 32)%Z with 4294967296%Z; lia).
      apply Z.le_trans with (B * 2 ^ 32)%Z; [|exact BS]. eapply Z.le_trans; [exact ZB|]. apply Z.mul_le_mono_nonneg_l; assumption.
    - apply Forall_map, Forall_map. eapply Forall_impl; [|exact (cut_small rss RC)]. intros rs X. cbv beta in *. rewrite map_length. pose proof (LE sel rs) as LS. clear - X LS. lia.
    - assert (G : forall l, (forall rs, In rs l -> forall r, In r rs -> In r rows) ->
        Forall2 (Forall2 (fun m x => near k (IZR m * q) x)) (map (map f) (map (filter sel) l)) (map (map (fun row => value row e)) (map (map row_of) (map (filter sel) l)))).
      { induction l as [|rs l IH]; intros SL; cbn [map]; constructor; [|apply IH; intros; eapply SL; [right|]; eassumption].
        apply values_near. intros r J. apply filter_In in J. apply (H r). apply (SL rs); [now left|apply J]. }
      exact (G rss SUB).
  Qed.
  Lemma index_sum k n : nth_error L k = Some n -> exists x,
    compute (p_dbg P) (p_neg P) (p_tie P) (sum_of (Index k)) (map fst ds) None = Ok (Scalar x) /\ near roundings (IZR (sum_of_column n rows) * / 100) x.
  Proof using DG.
    clear UT FM. intros E. destruct (nth_good k n E) as (d & ED & (_ & _ & x & S & N)). exists x. unfold compute. cbn [sum_of a_expr a_kind]. rewrite ED. cbn [agg_dispatch]. rewrite S. cbn [rbind].
    split; [reflexivity|]. unfold sum_of_column, total. rewrite zcol_concat in N. exact N.
  Qed.

  (** ** Query 6 *)
  Lemma h06_mask i0 i1 d0 d1 : nth_error (map fst ds) i0 = Some d0 -> nth_error (map fst ds) i1 = Some d1 ->
    nth_error L i0 = Some "l_discount"%string -> nth_error L i1 = Some "l_quantity"%string ->
    exists m0 m1, filter_column P d0 h06_discount None = Ok m0 /\ filter_column P d1 h06_quantity (Some m0) = Ok m1 /\
      forall i r, nth_error rows i = Some r -> (in_mask (Some m1) (N.of_nat i) <-> q6_selected r = true).
  Proof using UT DG.
    intros E0 E1 L0 L1. destruct (nth_good i0 _ L0) as (d0' & X0 & (_ & F0 & _)). rewrite E0 in X0. injection X0 as <-.
    destruct (nth_good i1 _ L1) as (d1' & X1 & (_ & F1 & _)). rewrite E1 in X1. injection X1 as <-.
    destruct (F0 h06_discount None (proj1 discount_operands) (proj2 discount_operands)) as (m0 & FM0 & BM0 & H0).
    destruct (F1 h06_quantity (Some m0) (proj1 quantity_operands) (proj2 quantity_operands)) as (m1 & FM1 & BM1 & H1).
    exists m0, m1. split; [exact FM0|]. split; [exact FM1|]. intros i r E. cbn [in_mask] in *. rewrite H1, H0, Nat2N.id, !zcol_cells, !nth_error_map, E. cbn [option_map].
    assert (IR : In r rows) by (eapply nth_error_In, E). destruct UT as (_ & _ & B & _).
    assert (A0 : amount (r "l_discount"%string)) by (apply (B r _ IR); eapply nth_error_In, L0). assert (A1 : amount (r "l_quantity"%string)) by (apply (B r _ IR); eapply nth_error_In, L1).
    unfold q6_selected. rewrite !Bool.andb_true_iff, Z.leb_le, Z.leb_le, Z.ltb_lt. split.
    - intros ((_ & x & X & S0) & y & Y & S1). injection X as <-. injection Y as <-. apply (discount_satisfied _ A0) in S0. apply (quantity_satisfied _ A1) in S1. tauto.
    - intros ((S0 & S1) & S2). split.
      + split; [exact Logic.I|]. eexists. split; [reflexivity|]. apply (discount_satisfied _ A0). split; assumption.
      + eexists. split; [reflexivity|]. apply (quantity_satisfied _ A1). exact S2.
  Qed.

  Lemma reports_near k e d x : (0 <= e)%Z -> (0 < d)%Z -> (Z.of_nat k <= 2 ^ 25)%Z -> near k (IZR e / IZR d) x -> reports e d (Aggregated (Scalar x)).
  Proof using. clear. intros E D K N. destruct (near_reports k e d x E D K N) as (b & a & -> & U & NB' & A). exists b, a. split; [reflexivity|]. split; [exact U|]. split; [exact NB'|exact A]. Qed.
  Lemma total_nonneg f (l : list row) : (forall r, In r l -> (0 <= f r)%Z) -> (0 <= total f l)%Z.
  Proof using. clear. intros H. apply zsum_nonneg, Forall_map, Forall_forall. exact H. Qed.
  Lemma rows_amount r n : In r rows -> In n L -> amount (r n).
  Proof using UT. intros I J. destruct UT as (_ & _ & B & _). exact (B r n I J). Qed.
  Lemma rows_discount r : In r rows -> (r "l_discount"%string <= 100)%Z.
  Proof using UT. intros I. destruct UT as (_ & _ & _ & B). exact (B r I). Qed.
  Lemma roundings_25 : (Z.of_nat roundings <= 2 ^ 25)%Z.
  Proof using. clear. rewrite roundings_Z. vm_compute. discriminate. Qed.

  Lemma price_discount_near ip id r : nth_error L ip = Some "l_extendedprice"%string -> nth_error L id = Some "l_discount"%string -> In r rows ->
    near 3 (IZR (r "l_extendedprice"%string * r "l_discount"%string) * / 10000) (value (row_of r) (Binary Mul (Index ip) (Index id))).
  Proof using UT.
    intros LP LD I. cbn [value arith]. rewrite (nth_row _ _ r LP), (nth_row _ _ r LD). pose proof (rows_amount r _ I (nth_error_In _ _ LP)) as AP. pose proof (rows_amount r _ I (nth_error_In _ _ LD)) as AD.
    pose proof (near_grid _ AP) as NP. pose proof (near_grid _ AD) as ND. unfold cell. unfold amount in AP, AD. revert AP AD NP ND.
    generalize (r "l_extendedprice"%string) (r "l_discount"%string). intros a b AP AD NP ND. change (10 ^ 9)%Z with 1000000000%Z in *.
    assert (0 <= IZR a)%R by (apply IZR_le; lia). assert (0 <= IZR b)%R by (apply IZR_le; lia).
    apply (near_product 1 1 (IZR a * / 100) (IZR b * / 100) (a * b) _ _ (/ 10000)); [unfold few; lia|exact q10000| |lra|lra|rewrite mult_IZR; lra|exact NP|exact ND].
    split; [nia|]. apply Z.le_trans with 1000000000000000000%Z; [nia|vm_compute; discriminate].
  Qed.
  Lemma discounted_near ip id r : nth_error L ip = Some "l_extendedprice"%string -> nth_error L id = Some "l_discount"%string -> In r rows ->
    (0 <= r "l_extendedprice"%string * (100 - r "l_discount"%string) <= 10 ^ 11)%Z /\
    near 103 (IZR (r "l_extendedprice"%string * (100 - r "l_discount"%string)) * / 10000) (value (row_of r) (Binary Mul (Index ip) (Binary Sub one (Index id)))).
  Proof using UT.
    intros LP LD I. cbn [value arith one]. change (of_bits 4607182418800017408) with f_one. rewrite (nth_row _ _ r LP), (nth_row _ _ r LD).
    pose proof (rows_amount r _ I (nth_error_In _ _ LP)) as AP. pose proof (rows_amount r _ I (nth_error_In _ _ LD)) as AD. pose proof (rows_discount r I) as DD.
    pose proof (near_grid _ AP) as NP. pose proof (near_complement _ (conj (proj1 AD) DD)) as ND. unfold cell. unfold amount in AP, AD. revert AP AD DD NP ND.
    generalize (r "l_extendedprice"%string) (r "l_discount"%string). intros a b AP AD DD NP ND. change (10 ^ 9)%Z with 1000000000%Z in *.
    assert (0 <= IZR a)%R by (apply IZR_le; lia). assert (0 <= IZR (100 - b))%R by (apply IZR_le; lia).
    assert (M : (0 <= a * (100 - b) <= 100000000000)%Z) by nia. split; [exact M|].
    apply (near_product 1 101 (IZR a * / 100) (IZR (100 - b) * / 100) (a * (100 - b)) _ _ (/ 10000)); [unfold few; lia|exact q10000| |lra|lra|rewrite mult_IZR; lra|exact NP|exact ND].
    split; [apply M|]. apply Z.le_trans with 100000000000%Z; [apply M|vm_compute; discriminate].
  Qed.
  Lemma charge_near ip id it r : nth_error L ip = Some "l_extendedprice"%string -> nth_error L id = Some "l_discount"%string -> nth_error L it = Some "l_tax"%string -> In r rows ->
    (0 <= r "l_extendedprice"%string * (100 - r "l_discount"%string) * (100 + r "l_tax"%string) <= 100000010000000000000)%Z /\
    near 106 (IZR (r "l_extendedprice"%string * (100 - r "l_discount"%string) * (100 + r "l_tax"%string)) * / 1000000)
      (value (row_of r) (Binary Mul (Binary Mul (Index ip) (Binary Sub one (Index id))) (Binary Add one (Index it)))).
  Proof using UT.
    intros LP LD LT I. destruct (discounted_near ip id r LP LD I) as [M N]. change (10 ^ 11)%Z with 100000000000%Z in M.
    pose proof (rows_amount r _ I (nth_error_In _ _ LT)) as AT. pose proof (near_plus_one _ AT) as NT.
    set (e := Binary Mul (Index ip) (Binary Sub one (Index id))) in *. cbn [value arith one]. fold e. change (of_bits 4607182418800017408) with f_one. rewrite (nth_row _ _ r LT). unfold cell.
    unfold amount in AT. revert M N AT NT. generalize (r "l_extendedprice"%string * (100 - r "l_discount"%string))%Z (r "l_tax"%string) (value (row_of r) e). clear e. intros a b x M N AT NT.
    change (10 ^ 9)%Z with 1000000000%Z in *. assert (0 <= IZR a)%R by (apply IZR_le; lia). assert (0 <= IZR (100 + b))%R by (apply IZR_le; lia).
    assert (MM : (0 <= a * (100 + b) <= 100000010000000000000)%Z) by nia. split; [exact MM|].
    apply (near_product 103 2 (IZR a * / 10000) (IZR (100 + b) * / 100) (a * (100 + b)) _ _ (/ 1000000)); [unfold few; lia|exact q1000000| |lra|lra|rewrite mult_IZR; lra|exact N|exact NT].
    split; [apply MM|]. apply Z.le_trans with 100000010000000000000%Z; [apply MM|vm_compute; discriminate].
  Qed.
  Lemma all_rows i (r : row) : nth_error rows i = Some r -> (in_mask None (N.of_nat i) <-> true = true).
  Proof using. clear. intros _. split; [reflexivity|intros _; exact Logic.I]. Qed.
  Lemma records_of k d : nth_error (map fst ds) k = Some d -> f_records (m_footer (d_meta d)) = N.of_nat (length rows).
  Proof using DG.
    clear UT FM. intros E. destruct (good_nth k d E) as (n & _ & ((_ & R & _) & _)). rewrite R, concat_map_map, zcol_concat, !map_length. reflexivity.
  Qed.
  Lemma average_near n x : near roundings (IZR (sum_of_column n rows) * / 100) x -> In n L ->
    average_of_column n rows (Aggregated (Scalar (fdiv x (of_Z (Z.of_N (N.of_nat (length rows))))))).
  Proof using UT.
    intros N I. destruct UT as (NE & U32 & _). fold rows in NE, U32. rewrite nat_N_Z.
    assert (S0 : (0 <= sum_of_column n rows)%Z) by (apply total_nonneg; intros r J; exact (proj1 (rows_amount r n J I))).
    assert (SB : (sum_of_column n rows <= 10 ^ 9 * Z.of_nat (length rows))%Z).
    { unfold sum_of_column, total. rewrite <- (map_length (fun r : row => r n) rows). apply zsum_bound; [lia|]. apply Forall_map, Forall_forall. intros r J. exact (rows_amount r n J I). }
    assert (LB : (0 < Z.of_nat (length rows) < 4294967296)%Z).
    { change (2 ^ 32) with 4294967296 in U32. destruct rows as [|r0 rs]; [now destruct NE|]. cbn [length] in *. lia. }
    unfold average_of_column. revert N S0 SB LB. generalize (sum_of_column n rows) (Z.of_nat (length rows)). clear. intros s l N S0 SB LB. change (10 ^ 9)%Z with 1000000000%Z in SB.
    apply (reports_near (S roundings)); [exact S0|lia| |].
    - rewrite Nat2Z.inj_succ, roundings_Z. vm_compute. discriminate.
    - assert (L1 : (1 <= IZR l)%R) by (apply IZR_le; lia). assert (L2 : (IZR l <= 4294967296)%R) by (apply IZR_le; lia).
      replace (IZR s / IZR (100 * l))%R with (IZR s * / 100 / IZR l)%R by (rewrite mult_IZR; field; lra).
      apply near_div; [unfold few; rewrite roundings_Z; vm_compute; discriminate|change (2 ^ 53)%Z with 9007199254740992%Z; lia| |exact N].
      apply (tame_mid (/ (100 * IZR l))).
      + split.
        * apply Rle_trans with (/ bpow radix2 40)%R.
          -- rewrite <- bpow_opp. apply bpow_le. lia.
          -- apply Rinv_le; [lra|]. change (bpow radix2 40) with 1099511627776%R. lra.
        * rewrite <- Rinv_1. apply Rinv_le; lra.
      + exists s. split; [split; [exact S0|]; apply Z.le_trans with 4294967296000000000%Z; [lia|vm_compute; discriminate]|]. field. lra.
  Qed.
  Lemma scaled_reports e d q x : (0 <= e)%Z -> (0 < d)%Z -> q = (/ IZR d)%R -> near roundings (IZR e * q) x -> reports e d (Aggregated (Scalar x)).
  Proof using. clear. intros E D -> N. apply (reports_near roundings); [exact E|exact D|exact roundings_25|exact N]. Qed.
End Queries.

Section Runs.
  Variable P : platform.
  Hypothesis GP : good_platform P.
  Variable c : config.
  Hypothesis CI : In c (all_configs 100).
  Hypothesis NB : config_scheme c <> SBuff.
  Variable L : list string.
  Variable rows : list row.
  Hypothesis UT : usable_table L rows.
  Let cols : columns := map (fun n => (n, map (cell n) rows)) L.
  Hypothesis FM : fits_memory P c cols.
  Hypothesis LD : In "l_discount"%string L.
  Hypothesis LQ : In "l_quantity"%string L.
  Hypothesis LP : In "l_extendedprice"%string L.

  Lemma multi_values rss ds mask aggs outs : cut_rows rss -> usable_table L (concat rss) -> Forall2 (good_pair P c rss) L ds ->
    (mask = None \/ N.of_nat (length (concat (chunks L rss))) < 2 ^ 32) ->
    Forall (fun a => formula (length (map fst ds)) (a_expr a)) aggs ->
    Forall2 (fun a r => compute (p_dbg P) (p_neg P) (p_tie P) a (map fst ds) mask = Ok r) aggs outs ->
    compute_multiple (p_dbg P) (p_neg P) (p_tie P) aggs (map fst ds) mask = Ok outs.
  Proof using LD.
    clear UT FM cols. intros RC UT DG MO FA F2.
    apply (multi_ok (p_dbg P) (p_neg P) (p_tie P) mask (map fst ds) (chunks L rss) (table_of P c L rss ds DG) (some_decoder P c L rss ds DG _ LD) MO (chunks_60 L rss UT) aggs outs FA F2).
  Qed.

  Lemma h06_ok : exists o, run_h06 P c cols = Ok [o] /\ reports (q6_revenue rows) (10 ^ 4) o.
  Proof using All.
    destruct (rows_cut rows) as (rss & CR & RC). rewrite <- CR in UT. assert (FM' : fits_memory P c (cols_of L rss)) by (unfold cols_of; rewrite CR; exact FM).
    destruct (columns_good P GP c CI NB L rss RC UT FM') as (ds & OC & DG). unfold cols_of in OC. rewrite CR in OC. fold cols in OC.
    destruct (column_index_nth L rows _ LD) as (id & CD & ND). destruct (column_index_nth L rows _ LQ) as (iq & CQ & NQ). destruct (column_index_nth L rows _ LP) as (ip & CP & NP). fold cols in CD, CQ, CP.
    destruct (nth_good P c L rss ds DG id _ ND) as (dd & ED & _). destruct (nth_good P c L rss ds DG iq _ NQ) as (dq & EQ & _).
    destruct (h06_mask P c L rss UT ds DG id iq dd dq ED EQ ND NQ) as (m0 & m1 & F0 & F1 & SEL).
    assert (IB : forall k n, nth_error L k = Some n -> (k < length (map fst ds))%nat) by (intros k n; apply (index_below P c L rss ds DG)).
    assert (FO : formula (length (map fst ds)) (Binary Mul (Index ip) (Index id))) by (apply formula_both; constructor; eapply IB; eassumption).
    destruct (sum_near P c L rss RC UT ds DG (Some m1) q6_selected (/ 10000) 3 (fun r => (r "l_extendedprice"%string * r "l_discount"%string)%Z) (Binary Mul (Index ip) (Index id)) (10 ^ 18)) as (x & C & N).
    - lia.
    - exact q10000.
    - lia.
    - vm_compute. discriminate.
    - intros r I. split; [|exact (price_discount_near L rss UT ip id r NP ND I)].
      pose proof (rows_amount L rss UT r _ I LP) as A1. pose proof (rows_amount L rss UT r _ I LD) as A2. unfold amount in *. change (10 ^ 18)%Z with 1000000000000000000%Z. change (10 ^ 9)%Z with 1000000000%Z in *. nia.
    - exact SEL.
    - right. exact (chunks_32 L rss UT).
    - exact FO.
    - intros [].
    - exact (some_decoder P c L rss ds DG _ LD).
    - exists (Aggregated (Scalar x)). split.
      + unfold run_h06. rewrite OC. cbn [rbind]. rewrite CD, CQ, CP. cbn [rbind]. unfold at_index. rewrite ED. cbn [rbind]. rewrite F0. cbn [rbind]. rewrite EQ. cbn [rbind]. rewrite F1. cbn [rbind].
        rewrite (multi_values rss ds (Some m1) (h06_aggregations ip id) [Scalar x] RC UT DG (or_intror (chunks_32 L rss UT))); [reflexivity| |].
        * constructor; [exact FO|constructor].
        * constructor; [exact C|constructor].
      + unfold q6_revenue. rewrite <- CR. apply (scaled_reports _ _ (/ 10000)); [|lia|reflexivity|exact N]. apply total_nonneg. intros r I. apply filter_In in I as [I _].
        pose proof (rows_amount L rss UT r _ I LP) as A1. pose proof (rows_amount L rss UT r _ I LD) as A2. unfold amount in *. nia.
  Qed.

  Lemma columns_total rss n : usable_table L (concat rss) -> In n L -> (0 <= sum_of_column n (concat rss))%Z.
  Proof using. clear. intros UT I. apply total_nonneg. intros r J. exact (proj1 (rows_amount L rss UT r n J I)). Qed.

  Lemma h01_simplified_ok : exists sq sp ad aq ap, run_h01_simplified P c cols = Ok [sq; sp; ad; aq; ap; Integer (N.of_nat (length rows))] /\
    reports (sum_of_column "l_quantity"%string rows) 100 sq /\ reports (sum_of_column "l_extendedprice"%string rows) 100 sp /\
    average_of_column "l_discount"%string rows ad /\ average_of_column "l_quantity"%string rows aq /\ average_of_column "l_extendedprice"%string rows ap.
  Proof using All.
    destruct (rows_cut rows) as (rss & CR & RC). rewrite <- CR in UT. assert (FM' : fits_memory P c (cols_of L rss)) by (unfold cols_of; rewrite CR; exact FM).
    destruct (columns_good P GP c CI NB L rss RC UT FM') as (ds & OC & DG). unfold cols_of in OC. rewrite CR in OC. fold cols in OC.
    destruct (column_index_nth L rows _ LD) as (id & CD & ND). destruct (column_index_nth L rows _ LQ) as (iq & CQ & NQ). destruct (column_index_nth L rows _ LP) as (ip & CP & NP). fold cols in CD, CQ, CP.
    destruct (nth_error (map fst ds) 0) as [d0|] eqn:E0; [|exfalso; apply (some_decoder P c L rss ds DG _ LD); destruct (map fst ds); [reflexivity|discriminate E0]].
    pose proof (records_of P c L rss ds DG 0 d0 E0) as R0. rewrite CR in R0.
    assert (IB : forall k n, nth_error L k = Some n -> (k < length (map fst ds))%nat) by (intros k n; apply (index_below P c L rss ds DG)).
    destruct (index_sum P c L rss ds DG iq _ NQ) as (xq & SQ & XQ). destruct (index_sum P c L rss ds DG ip _ NP) as (xp & SP & XP). destruct (index_sum P c L rss ds DG id _ ND) as (xd & SD & XD).
    pose proof (columns_total rss _ UT LQ) as TQ. pose proof (columns_total rss _ UT LP) as TP.
    pose proof (average_near L rss UT _ xq XQ LQ) as AQ. pose proof (average_near L rss UT _ xp XP LP) as AP. pose proof (average_near L rss UT _ xd XD LD) as AD.
    rewrite CR in *. do 5 eexists. split.
    - unfold run_h01_simplified. rewrite OC. cbn [rbind]. rewrite CQ, CP, CD. cbn [rbind]. unfold at_index at 1. rewrite E0. cbn [rbind]. rewrite R0.
      rewrite (multi_values rss ds None (h01_simplified_aggregations iq ip id) [Scalar xq; Scalar xp; Scalar xd] RC ltac:(rewrite CR; exact UT) DG (or_introl eq_refl)); [reflexivity| |].
      + repeat constructor; eapply IB; eassumption.
      + constructor; [exact SQ|]. constructor; [exact SP|]. constructor; [exact SD|constructor].
    - split; [apply (scaled_reports _ _ (/ 100)); [exact TQ|lia|reflexivity|exact XQ]|]. split; [apply (scaled_reports _ _ (/ 100)); [exact TP|lia|reflexivity|exact XP]|].
      split; [exact AD|]. split; [exact AQ|exact AP].
  Qed.

  Hypothesis LT : In "l_tax"%string L.
  Lemma h01_ok : exists sq sp sd sc ap aq ad, run_h01 P c cols = Ok [sq; sp; sd; sc; ap; aq; ad; Integer (N.of_nat (length rows))] /\
    reports (sum_of_column "l_quantity"%string rows) 100 sq /\ reports (sum_of_column "l_extendedprice"%string rows) 100 sp /\
    reports (sum_discounted rows) (10 ^ 4) sd /\ reports (sum_charge rows) (10 ^ 6) sc /\
    average_of_column "l_extendedprice"%string rows ap /\ average_of_column "l_quantity"%string rows aq /\ average_of_column "l_discount"%string rows ad.
  Proof using All.
    destruct (rows_cut rows) as (rss & CR & RC). rewrite <- CR in UT. assert (FM' : fits_memory P c (cols_of L rss)) by (unfold cols_of; rewrite CR; exact FM).
    destruct (columns_good P GP c CI NB L rss RC UT FM') as (ds & OC & DG). unfold cols_of in OC. rewrite CR in OC. fold cols in OC.
    destruct (column_index_nth L rows _ LD) as (id & CD & ND). destruct (column_index_nth L rows _ LQ) as (iq & CQ & NQ). destruct (column_index_nth L rows _ LP) as (ip & CP & NP).
    destruct (column_index_nth L rows _ LT) as (it & CT & NT). fold cols in CD, CQ, CP, CT.
    destruct (nth_error (map fst ds) 0) as [d0|] eqn:E0; [|exfalso; apply (some_decoder P c L rss ds DG _ LD); destruct (map fst ds); [reflexivity|discriminate E0]].
    pose proof (records_of P c L rss ds DG 0 d0 E0) as R0. rewrite CR in R0.
    assert (IB : forall k n, nth_error L k = Some n -> (k < length (map fst ds))%nat) by (intros k n; apply (index_below P c L rss ds DG)).
    destruct (index_sum P c L rss ds DG iq _ NQ) as (xq & SQ & XQ). destruct (index_sum P c L rss ds DG ip _ NP) as (xp & SP & XP). destruct (index_sum P c L rss ds DG id _ ND) as (xd & SD & XD).
    pose proof (columns_total rss _ UT LQ) as TQ. pose proof (columns_total rss _ UT LP) as TP.
    pose proof (average_near L rss UT _ xq XQ LQ) as AQ. pose proof (average_near L rss UT _ xp XP LP) as AP. pose proof (average_near L rss UT _ xd XD LD) as AD.
    assert (FD : formula (length (map fst ds)) (Binary Mul (Index ip) (Binary Sub one (Index id)))) by (apply formula_both; [constructor; eapply IB; eassumption|apply formula_left; constructor; eapply IB; eassumption]).
    assert (FC : formula (length (map fst ds)) (Binary Mul (Binary Mul (Index ip) (Binary Sub one (Index id))) (Binary Add one (Index it)))).
    { apply formula_both; [exact FD|]. apply formula_left. constructor. eapply IB; eassumption. }
    pose proof (some_decoder P c L rss ds DG _ LD) as NE.
    destruct (sum_near P c L rss RC UT ds DG None (fun _ => true) (/ 10000) 103 (fun r => (r "l_extendedprice"%string * (100 - r "l_discount"%string))%Z) _ (10 ^ 11)
      ltac:(lia) q10000 ltac:(lia) ltac:(vm_compute; discriminate) (fun r => discounted_near L rss UT ip id r NP ND) (all_rows rss) (or_introl eq_refl) FD (fun X => X) NE) as (xs & SS & XS).
    destruct (sum_near P c L rss RC UT ds DG None (fun _ => true) (/ 1000000) 106 (fun r => (r "l_extendedprice"%string * (100 - r "l_discount"%string) * (100 + r "l_tax"%string))%Z) _ 100000010000000000000
      ltac:(lia) q1000000 ltac:(lia) ltac:(vm_compute; discriminate) (fun r => charge_near L rss UT ip id it r NP ND NT) (all_rows rss) (or_introl eq_refl) FC (fun X => X) NE) as (xc & SC & XC).
    rewrite filter_true in XS, XC.
    assert (TS : (0 <= sum_discounted (concat rss))%Z) by (apply total_nonneg; intros r I; exact (proj1 (proj1 (discounted_near L rss UT ip id r NP ND I)))).
    assert (TC : (0 <= sum_charge (concat rss))%Z) by (apply total_nonneg; intros r I; exact (proj1 (proj1 (charge_near L rss UT ip id it r NP ND NT I)))).
    rewrite CR in *. do 7 eexists. split.
    - unfold run_h01. rewrite OC. cbn [rbind]. rewrite CQ, CP, CD, CT. cbn [rbind]. unfold at_index at 1. rewrite E0. cbn [rbind]. rewrite R0.
      rewrite (multi_values rss ds None (h01_aggregations iq ip id it) [Scalar xq; Scalar xp; Scalar xs; Scalar xc; Scalar xd] RC ltac:(rewrite CR; exact UT) DG (or_introl eq_refl)); [reflexivity| |].
      + constructor; [constructor; eapply IB; eassumption|]. constructor; [constructor; eapply IB; eassumption|]. constructor; [exact FD|]. constructor; [exact FC|]. constructor; [constructor; eapply IB; eassumption|constructor].
      + constructor; [exact SQ|]. constructor; [exact SP|]. constructor; [exact SS|]. constructor; [exact SC|]. constructor; [exact SD|constructor].
    - split; [apply (scaled_reports _ _ (/ 100)); [exact TQ|lia|reflexivity|exact XQ]|]. split; [apply (scaled_reports _ _ (/ 100)); [exact TP|lia|reflexivity|exact XP]|].
      split; [apply (scaled_reports _ _ (/ 10000)); [exact TS|lia|reflexivity|exact XS]|]. split; [apply (scaled_reports _ _ (/ 1000000)); [exact TC|lia|reflexivity|exact XC]|].
      split; [exact AP|]. split; [exact AQ|exact AD].
  Qed.
End Runs.

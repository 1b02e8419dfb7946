From Coq Require Import Sorted.
From Verif Require Import Base WordProofs BitIO Xor F64 Query QuerySpec QueryProofs Sprintz SprintzProofs SprintzQueryProofs Buff BuffBitsProofs BuffChunkProofs.

(** ** The header *)
Lemma read_u32_ok pre v rest : v < 2 ^ 32 ->
  bp_read_u32 (pre ++ le_bytes 4 v ++ rest) (N.of_nat (length pre), 0) = Ok (v, (N.of_nat (length pre) + 4, 0)).
Proof.
  intros H. unfold bp_read_u32. rewrite !app_length, le_bytes_length.
  replace (N.of_nat (length pre + (4 + length rest)) * 8 <? N.of_nat (length pre) * 8 + 0 + 32) with false by lia.
  rewrite Nat2N.id, skipn_app, skipn_all, Nat.sub_diag. cbn [skipn app]. rewrite firstn_app, le_bytes_length, Nat.sub_diag, firstn_O.
  rewrite app_nil_r. rewrite firstn_all2 by (rewrite le_bytes_length; lia). rewrite le_val_bytes; [reflexivity|exact H].
Qed.
Lemma read_u32_at bytes pre v rest p q : bytes = pre ++ le_bytes 4 v ++ rest -> v < 2 ^ 32 -> p = N.of_nat (length pre) -> q = p + 4 ->
  bp_read_u32 bytes (p, 0) = Ok (v, (q, 0)).
Proof. intros -> H -> ->. now apply read_u32_ok. Qed.
Lemma word_halves x : N.lor (x mod two32) (N.shiftl (N.shiftr x 32) 32) = x.
Proof.
  change two32 with (2 ^ 32). bits_eq. rewrite N.lor_spec, mod_bit. destruct (N.ltb_spec j 32).
  - rewrite N.shiftl_spec_low by assumption. now rewrite orb_false_r.
  - rewrite N.shiftl_spec_high', N.shiftr_spec' by assumption. cbn [andb orb]. f_equal. lia.
Qed.
Lemma header_ok bytes base fraction bits ds : chunk_of bytes base fraction bits ds ->
  bf_header bytes = Ok (mkBh base (N.of_nat (length ds)) bits fraction, (20, 0)).
Proof.
  intros (IB & HF & HB & HN & _ & tail & -> & _). unfold header. rewrite <- !app_assoc.
  set (rest := columns (N.to_nat (bits / 8)) bits ds ++ tail).
  assert (B1 : i64_bits base mod two32 < 2 ^ 32) by (apply N.mod_lt; discriminate).
  assert (B2 : N.shiftr (i64_bits base) 32 < 2 ^ 32).
  { rewrite N.shiftr_div_pow2. apply N.div_lt_upper_bound; [discriminate|]. apply i64_bits_bound. }
  assert (B4 : bits < 2 ^ 32) by (apply N.le_lt_trans with 64; [assumption|reflexivity]).
  set (w1 := le_bytes 4 (i64_bits base mod two32)). set (w2 := le_bytes 4 (N.shiftr (i64_bits base) 32)).
  set (w3 := le_bytes 4 (N.of_nat (length ds))). set (w4 := le_bytes 4 bits). set (w5 := le_bytes 4 fraction).
  assert (S : w1 ++ w2 ++ w3 ++ w4 ++ w5 ++ rest = [] ++ w1 ++ (w2 ++ w3 ++ w4 ++ w5 ++ rest) /\
    w1 ++ w2 ++ w3 ++ w4 ++ w5 ++ rest = w1 ++ w2 ++ (w3 ++ w4 ++ w5 ++ rest) /\
    w1 ++ w2 ++ w3 ++ w4 ++ w5 ++ rest = (w1 ++ w2) ++ w3 ++ (w4 ++ w5 ++ rest) /\
    w1 ++ w2 ++ w3 ++ w4 ++ w5 ++ rest = (w1 ++ w2 ++ w3) ++ w4 ++ (w5 ++ rest) /\
    w1 ++ w2 ++ w3 ++ w4 ++ w5 ++ rest = (w1 ++ w2 ++ w3 ++ w4) ++ w5 ++ rest)
    by (cbn [app]; rewrite <- !app_assoc; repeat split; reflexivity).
  unfold bf_header. set (bytes := w1 ++ w2 ++ w3 ++ w4 ++ w5 ++ rest) in *. destruct S as (S1 & S2 & S3 & S4 & S5).
  assert (R1 : bp_read_u32 bytes (0, 0) = Ok (i64_bits base mod two32, (4, 0))) by exact (read_u32_at bytes [] _ _ 0 4 S1 B1 eq_refl eq_refl).
  assert (R2 : bp_read_u32 bytes (4, 0) = Ok (N.shiftr (i64_bits base) 32, (8, 0))).
  { eapply (read_u32_at bytes w1); [exact S2|exact B2| |reflexivity]. unfold w1. now rewrite le_bytes_length. }
  assert (R3 : bp_read_u32 bytes (8, 0) = Ok (N.of_nat (length ds), (12, 0))).
  { eapply (read_u32_at bytes (w1 ++ w2)); [exact S3|exact HN| |reflexivity]. unfold w1, w2. now rewrite !app_length, !le_bytes_length. }
  assert (R4 : bp_read_u32 bytes (12, 0) = Ok (bits, (16, 0))).
  { eapply (read_u32_at bytes (w1 ++ w2 ++ w3)); [exact S4|exact B4| |reflexivity]. unfold w1, w2, w3. now rewrite !app_length, !le_bytes_length. }
  assert (R5 : bp_read_u32 bytes (16, 0) = Ok (fraction, (20, 0))).
  { eapply (read_u32_at bytes (w1 ++ w2 ++ w3 ++ w4)); [exact S5|exact HF| |reflexivity]. unfold w1, w2, w3, w4. now rewrite !app_length, !le_bytes_length. }
  clearbody bytes.
  rewrite R1. cbn [rbind]. rewrite R2. cbn [rbind]. rewrite R3. cbn [rbind]. rewrite R4. cbn [rbind]. rewrite R5. cbn [rbind].
  rewrite word_halves, bits_i64_bits by assumption. reflexivity.
Qed.

(** ** Where the columns are *)
Definition tail_at (bytes : list N) (start r : N) (ds : list N) : Prop :=
  start + N.of_nat (length ds) * r <= 8 * N.of_nat (length bytes) /\
  forall i d, nth_error ds i = Some d -> window (le_val bytes) (start + N.of_nat i * r) r = d mod 2 ^ r.
(** [fuel] columns of bytes lie ahead, then a column of [r] bits. *)
Definition ahead (bytes : list N) (r : N) (ds : list N) (fuel : nat) (p : bpos) : Prop :=
  bytes_ok bytes /\ exists pre rest, bytes = pre ++ columns fuel (8 * N.of_nat fuel + r) ds ++ rest /\ p = (N.of_nat (length pre), 0) /\
    tail_at bytes (8 * N.of_nat (length pre + fuel * length ds)) r ds.

Lemma window_app a b pos k : bytes_ok a -> window (le_val (a ++ b)) (8 * N.of_nat (length a) + pos) k = window (le_val b) pos k.
Proof.
  intros H. bits_eq. rewrite !window_bit, le_app_bit by assumption.
  replace (j + (8 * N.of_nat (length a) + pos) <? 8 * N.of_nat (length a)) with false by lia. do 2 f_equal. lia.
Qed.
Lemma chunk_ahead bytes base fraction bits ds : chunk_of bytes base fraction bits ds ->
  ahead bytes (bits mod 8) ds (N.to_nat (bits / 8)) (20, 0) /\
  ahead (skipn 20 bytes) (bits mod 8) ds (N.to_nat (bits / 8)) (0, 0).
Proof.
  intros (IB & HF & HB & HN & _ & tail & -> & BT & LT & VT). set (n := length ds) in *. set (r := bits mod 8) in *.
  set (hd := header base (N.of_nat n) bits fraction). set (fuel := N.to_nat (bits / 8)).
  assert (E : 8 * N.of_nat fuel + r = bits) by (pose proof (N.div_mod bits 8 ltac:(discriminate)); subst fuel r; lia).
  assert (LH : length hd = 20%nat) by apply header_length. assert (BH : bytes_ok hd) by apply header_bytes.
  assert (BC : bytes_ok (columns fuel bits ds)) by apply columns_bytes.
  assert (LC : length (columns fuel bits ds) = (fuel * n)%nat) by apply columns_length.
  assert (W : forall pre, bytes_ok pre -> tail_at (pre ++ columns fuel bits ds ++ tail) (8 * N.of_nat (length pre + fuel * n)) r ds).
  { intros pre BP. split.
    - rewrite !app_length, LC. fold n. pose proof (bytes_for_spec (N.of_nat n * r)). lia.
    - intros i d HI. rewrite app_assoc. replace (length pre + fuel * n)%nat with (length (pre ++ columns fuel bits ds)) by (rewrite app_length; lia).
      rewrite window_app by (apply Forall_app; split; assumption). rewrite VT. now apply packed_window. }
  split; (split; [|]).
  - apply Forall_app. split; [assumption|]. apply Forall_app. split; assumption.
  - exists hd, tail. rewrite E. split; [reflexivity|]. split; [now rewrite LH|]. apply W. assumption.
  - replace 20%nat with (length hd). rewrite skipn_app, skipn_all, Nat.sub_diag. cbn [skipn app]. apply Forall_app. split; assumption.
  - exists [], tail. rewrite E. replace 20%nat with (length hd). rewrite skipn_app, skipn_all, Nat.sub_diag. cbn [skipn app].
    split; [reflexivity|]. split; [reflexivity|]. apply (W []). constructor.
Qed.

Section Ahead.
  Variables (bytes : list N) (r : N) (ds : list N).
  Let n := N.of_nat (length ds).

  Lemma ahead_step fuel p : ahead bytes r ds (S fuel) p ->
    bp_read_n_byte bytes n p = Ok (column (8 * N.of_nat fuel + r) ds, (fst p + n, 0)) /\ ahead bytes r ds fuel (fst p + n, 0) /\
    forall i d, nth_error ds i = Some d -> nth_error bytes (N.to_nat (fst p) + i) = Some (flip (N.shiftr d (8 * N.of_nat fuel + r) mod 256)).
  Proof using.
    intros (HB & pre & rest & E & -> & T). cbn [fst]. cbn [columns] in E.
    replace (8 * N.of_nat (S fuel) + r - 8) with (8 * N.of_nat fuel + r) in E by lia. set (s := 8 * N.of_nat fuel + r) in *.
    assert (LC : length (column s ds) = length ds) by apply column_length. split; [|split].
    - unfold bp_read_n_byte. cbn [fst snd]. rewrite E at 1. rewrite !app_length, LC.
      replace (N.of_nat (length pre + (length ds + length (columns fuel s ds) + length rest)) <? N.of_nat (length pre) + n) with false by lia.
      unfold n. rewrite !Nat2N.id, E, skipn_app, skipn_all, Nat.sub_diag. cbn [skipn app]. rewrite <- app_assoc, <- LC, firstn_app, firstn_all, Nat.sub_diag. cbn [firstn].
      now rewrite app_nil_r.
    - split; [assumption|]. exists (pre ++ column s ds), rest. fold s. split; [rewrite E; now rewrite <- !app_assoc|].
      rewrite app_length, LC. split; [f_equal; unfold n; lia|].
      replace (8 * N.of_nat (length pre + length ds + fuel * length ds)) with (8 * N.of_nat (length pre + S fuel * length ds)) by lia. exact T.
    - intros i d HI. rewrite Nat2N.id, E, nth_error_app2 by lia. replace (length pre + i - length pre)%nat with i by lia.
      assert (i < length ds)%nat by (apply nth_error_Some; congruence).
      rewrite <- app_assoc, nth_error_app1 by (rewrite LC; assumption). unfold column. exact (map_nth_error (fun d => flip (N.shiftr d s mod 256)) i ds HI).
  Qed.
  Lemma ahead_tail p : ahead bytes r ds 0 p -> bytes_ok bytes /\ snd p = 0 /\ tail_at bytes (8 * fst p) r ds.
  Proof using. intros (HB & pre & rest & E & -> & T). cbn [fst snd]. now rewrite Nat.add_0_r in T. Qed.
  Lemma ahead_bytes fuel p : ahead bytes r ds fuel p -> bytes_ok bytes.
  Proof using. now intros [H _]. Qed.
End Ahead.

(** ** Record numbers *)
Definition delta_of (off : N) (ds : list N) (x : N) : N := nth (N.to_nat (x - off)) ds 0.
Definition within (off : N) (ds : list N) (xs : list N) : Prop :=
  StronglySorted N.lt xs /\ Forall (fun x => off <= x < off + N.of_nat (length ds)) xs.

Lemma delta_nth off ds x : off <= x < off + N.of_nat (length ds) -> nth_error ds (N.to_nat (x - off)) = Some (delta_of off ds x).
Proof. intros H. unfold delta_of. apply nth_error_nth'. lia. Qed.
Lemma n_seq_In k : forall lo x, In x (n_seq lo k) <-> lo <= x < lo + N.of_nat k.
Proof.
  induction k as [|k IH]; intros lo x; cbn [n_seq In]; [lia|]. rewrite IH. lia.
Qed.
Lemma n_seq_sorted k : forall lo, StronglySorted N.lt (n_seq lo k).
Proof.
  induction k as [|k IH]; intros lo; cbn [n_seq]; constructor; auto. apply Forall_forall. intros x I. apply n_seq_In in I. lia.
Qed.
Lemma n_seq_app a b : forall lo, n_seq lo (a + b) = n_seq lo a ++ n_seq (lo + N.of_nat a) b.
Proof.
  induction a as [|a IH]; intros lo; cbn [n_seq Nat.add app]; [now rewrite N.add_0_r|]. rewrite IH. do 2 f_equal. f_equal. lia.
Qed.
Lemma n_seq_within off ds : within off ds (n_seq off (length ds)).
Proof. split; [apply n_seq_sorted|]. apply Forall_forall. intros x I. now apply n_seq_In in I. Qed.
Lemma sorted_filter (P : N -> bool) xs : StronglySorted N.lt xs -> StronglySorted N.lt (filter P xs).
Proof.
  induction 1 as [|x xs S IH F]; cbn [filter]; [constructor|]. destruct (P x); [|assumption]. constructor; [assumption|].
  apply Forall_forall. intros y I. apply filter_In in I. rewrite Forall_forall in F. now apply F.
Qed.
Lemma filter_within P off ds xs : within off ds xs -> within off ds (filter P xs).
Proof.
  intros [S F]. split; [now apply sorted_filter|]. rewrite Forall_forall in *. intros x I. apply filter_In in I. now apply F.
Qed.
Lemma pick_seq {V} (l : list V) : forall off, map fst (pick None off l) = n_seq off (length l).
Proof. induction l as [|x l IH]; intros off; cbn [pick allowed map fst n_seq length]; [reflexivity|]. now rewrite IH. Qed.
Lemma pick_within mask off ds : within off ds (map fst (pick mask off ds)).
Proof.
  split; [apply pick_sorted|]. apply Forall_forall. intros x I. apply in_map_iff in I as ([y d] & <- & I). now apply pick_ge in I.
Qed.
Lemma pick_delta mask ds : forall off x d, In (x, d) (pick mask off ds) -> d = delta_of off ds x.
Proof.
  induction ds as [|d0 ds IH]; intros off x d I; cbn [pick] in I; [contradiction|].
  assert (T : In (x, d) (pick mask (off + 1) ds) -> d = delta_of off (d0 :: ds) x).
  { intros J. pose proof (pick_ge _ _ _ _ _ J). apply IH in J. rewrite J. unfold delta_of. replace (N.to_nat (x - off)) with (S (N.to_nat (x - (off + 1)))) by lia. reflexivity. }
  destruct (allowed mask off); [|auto]. destruct I as [E|I]; [|auto]. injection E as <- <-. unfold delta_of. now rewrite N.sub_diag.
Qed.
Lemma pick_filter P mask off ds : map fst (filter (fun y => P (snd y)) (pick mask off ds)) = filter (fun x => P (delta_of off ds x)) (map fst (pick mask off ds)).
Proof.
  assert (G : forall l, (forall x d, In (x, d) l -> d = delta_of off ds x) -> map fst (filter (fun y => P (snd y)) l) = filter (fun x => P (delta_of off ds x)) (map fst l)).
  { induction l as [|[x d] l IH]; intros H; cbn [filter map fst snd]; [reflexivity|]. rewrite <- (H x d) by now left.
    destruct (P d); cbn [map fst]; rewrite IH; auto; intros; apply H; now right. }
  apply G. apply pick_delta.
Qed.
Lemma pick_snd mask off ds : map snd (pick mask off ds) = map (delta_of off ds) (map fst (pick mask off ds)).
Proof.
  rewrite map_map. apply map_ext_in. intros [x d] I. cbn [fst snd]. eapply pick_delta; eassumption.
Qed.

Lemma flip_flip b : flip (flip b) = b.
Proof. unfold flip. now rewrite N.lxor_assoc, N.lxor_nilpotent, N.lxor_0_r. Qed.
Definition byte_at (s d : N) : N := N.shiftr d s mod 256.
Lemma byte_at_byte s d : is_byte (byte_at s d).
Proof. apply N.mod_lt. discriminate. Qed.

(** ** Loops over columns of bytes *)
Lemma column_pick_ok {A} (f : N -> N -> A -> A) s off ds xs : within off ds xs -> forall acc,
  column_pick f off (column s ds) xs acc = Ok (fold_left (fun acc x => f x (byte_at s (delta_of off ds x)) acc) xs acc).
Proof.
  intros [_ F]. induction F as [|x xs H F IH]; intros acc; cbn [column_pick fold_left]; [reflexivity|].
  unfold column at 1. erewrite map_nth_error by now apply delta_nth. rewrite flip_flip. apply IH.
Qed.
Lemma column_all_gen {A} (f : N -> N -> A -> A) dbg off col : forall i acc, off + i + N.of_nat (length col) <= 2 ^ 32 ->
  column_all f dbg off i col acc = Ok (fold_left (fun acc '(x, b) => f x (flip b) acc) (pick None (off + i) col) acc).
Proof.
  induction col as [|b col IH]; intros i acc H; cbn [column_all pick allowed fold_left]; [reflexivity|]. cbn [length] in H.
  rewrite mod_small32 by lia. rewrite add_u32_ok by lia. cbn [rbind]. rewrite IH by lia. replace (i + off) with (off + i) by lia. now replace (off + (i + 1)) with (off + i + 1) by lia.
Qed.
Lemma fold_pick {A V} (f : N -> V -> A -> A) (l : list V) dflt : forall off acc,
  fold_left (fun acc '(x, b) => f x b acc) (pick None off l) acc = fold_left (fun acc x => f x (nth (N.to_nat (x - off)) l dflt) acc) (n_seq off (length l)) acc.
Proof.
  induction l as [|v l IH]; intros off acc; cbn [pick allowed fold_left n_seq length]; [reflexivity|]. rewrite IH.
  rewrite N.sub_diag. change (nth (N.to_nat 0) (v :: l) dflt) with v.
  assert (G : forall xs a, Forall (fun x => off + 1 <= x) xs ->
    fold_left (fun acc x => f x (nth (N.to_nat (x - (off + 1))) l dflt) acc) xs a = fold_left (fun acc x => f x (nth (N.to_nat (x - off)) (v :: l) dflt) acc) xs a).
  { induction xs as [|x xs IHx]; intros a' F; cbn [fold_left]; [reflexivity|]. inversion F; subst.
    replace (N.to_nat (x - off)) with (S (N.to_nat (x - (off + 1)))) by lia. cbn [nth]. now apply IHx. }
  apply G. apply Forall_forall. intros x I. apply n_seq_In in I. lia.
Qed.
Lemma fold_ext_in {A} (f g : A -> N -> A) xs : (forall x a, In x xs -> f a x = g a x) -> forall a, fold_left f xs a = fold_left g xs a.
Proof.
  induction xs as [|x xs IH]; intros H a; cbn [fold_left]; [reflexivity|]. rewrite H by now left. apply IH. intros; apply H; now right.
Qed.

From Coq Require Import Sorted.
From Verif Require Import Base WordProofs BitIO Xor F64 Query QuerySpec QueryProofs Sprintz SprintzProofs SprintzQueryProofs Buff BuffBitsProofs BuffChunkProofs BuffReadProofs.

(** ** Loops over the last column *)
Section Scan.
  Context {A : Type}.
  Variables (bytes : list N) (conv : forall T, res unit T -> res derr T) (f : N -> N -> A -> res derr A) (r : N).
  Hypothesis CV : forall T (x : T), conv T (Ok x) = Ok x.
  Hypothesis HB : bytes_ok bytes.
  Hypothesis HR : 1 <= r <= 7.

  Fixpoint each (xs : list (N * N)) (acc : A) : res derr A :=
    match xs with [] => Ok acc | (x, v) :: xs' => do acc <- f x v acc ; each xs' acc end.

  Lemma scan_all_ok start ds : tail_at bytes start r ds -> forall rest i p acc, (forall j, nth_error rest j = nth_error ds (i + j)) -> (i + length rest <= length ds)%nat ->
    at_bit p (start + N.of_nat i * r) ->
    (do (a, _) <- scan_all bytes conv f r (length rest) (N.of_nat i) p acc ; Ok a) =
    each (pick None (N.of_nat i) (map (fun d => d mod 2 ^ r) rest)) acc.
  Proof using CV HB HR.
    intros [TL TW]. induction rest as [|d rest IH]; intros i p acc HD LE AB; cbn [length scan_all map pick allowed each]; [reflexivity|].
    cbn [length] in LE.
    destruct (read_bits_ok bytes r p (start + N.of_nat i * r) HB ltac:(lia) AB ltac:(nia)) as (p' & E & AB').
    rewrite E, CV. cbn [rbind]. rewrite (TW i d) by (rewrite <- (HD O), Nat.add_0_r || idtac; specialize (HD O); cbn [nth_error] in HD; rewrite Nat.add_0_r in HD; now symmetry).
    destruct (f (N.of_nat i) (d mod 2 ^ r) acc) as [a|e|]; cbn [rbind]; [|reflexivity|reflexivity].
    replace (N.of_nat i + 1) with (N.of_nat (S i)) by lia. apply IH.
    - intros j. specialize (HD (S j)). cbn [nth_error] in HD. rewrite HD. f_equal. lia.
    - lia.
    - replace (start + N.of_nat (S i) * r) with (start + N.of_nat i * r + r) by nia. exact AB'.
  Qed.

  Variable mul : N -> N -> res derr N.
  Lemma scan_masked_ok start off ds xs : tail_at bytes start r ds -> within off ds xs ->
    (forall a, a <= N.of_nat (length ds) -> mul a r = Ok (a * r)) ->
    forall expected p acc, (forall x, In x xs -> off + expected <= x) -> expected <= N.of_nat (length ds) -> at_bit p (start + expected * r) ->
    exists expected' p', expected' <= N.of_nat (length ds) /\ at_bit p' (start + expected' * r) /\
    scan_masked bytes conv f r mul off xs expected p acc =
    do a <- each (map (fun x => (x, delta_of off ds x mod 2 ^ r)) xs) acc ; Ok (a, expected', p').
  Proof using CV HB HR.
    intros [TL TW] [S F] ML. revert S F.
    induction xs as [|x xs IH]; intros S F expected p acc HX HE AB; cbn [scan_masked map each].
    - exists expected, p. auto.
    - inversion S as [|? ? S' FS]; subst. inversion F as [|? ? FX F']; subst.
      assert (HE' : off + expected <= x) by (apply HX; now left).
      set (i := x - off). rewrite ML by lia. cbn [rbind].
      destruct (skip_ok bytes ((i - expected) * r) p (start + expected * r) AB ltac:(nia)) as (p1 & E1 & AB1).
      rewrite E1, CV. cbn [rbind].
      destruct (read_bits_ok bytes r p1 (start + i * r) HB ltac:(lia) ltac:(replace (start + i * r) with (start + expected * r + (i - expected) * r) by nia; exact AB1) ltac:(nia)) as (p2 & E2 & AB2).
      rewrite E2, CV. cbn [rbind].
      pose proof (TW (N.to_nat i) _ (delta_nth off ds x FX)) as W. rewrite N2Nat.id in W. rewrite W.
      destruct (f x (delta_of off ds x mod 2 ^ r) acc) as [a|e|]; cbn [rbind]; [|exists expected, p; auto|exists expected, p; auto].
      apply IH; try assumption.
      + intros y I. rewrite Forall_forall in FS. specialize (FS y I). lia.
      + lia.
      + replace (start + (i + 1) * r) with (start + i * r + r) by nia. exact AB2.
  Qed.
End Scan.
Lemma each_pure {A} (g : N -> N -> A -> A) xs : forall acc, each (fun x v a => Ok (g x v a)) xs acc = Ok (fold_left (fun a '(x, v) => g x v a) xs acc).
Proof. induction xs as [|[x v] xs IH]; intros acc; cbn [each fold_left rbind]; auto. Qed.
Lemma fold_map {A B C} (f : A -> B -> A) (g : C -> B) l : forall a, fold_left f (map g l) a = fold_left (fun a x => f a (g x)) l a.
Proof. induction l as [|x l IH]; intros a; cbn [map fold_left]; auto. Qed.
Lemma pick_map {V W} (g : V -> W) mask l : forall off, pick mask off (map g l) = map (fun '(x, v) => (x, g v)) (pick mask off l).
Proof. induction l as [|v l IH]; intros off; cbn [map pick]; [reflexivity|]. rewrite IH. now destruct (allowed mask off). Qed.
(** All the records of a list. *)
Lemma pick_none_seq (l : list N) : forall off, pick None off l = map (fun x => (x, delta_of off l x)) (n_seq off (length l)).
Proof.
  intros off. rewrite <- pick_seq, map_map. rewrite <- (map_id (pick None off l)) at 1. apply map_ext_in. intros [x d] I. cbn [fst]. f_equal. eapply pick_delta; eassumption.
Qed.

(** ** Filters in folds *)
Lemma fold_or (P : N -> bool) xs : forall acc, fold_left (fun q x => if P x then bm_insert x q else q) xs acc = bm_or acc (filter P xs).
Proof. unfold bm_or. induction xs as [|x xs IH]; intros acc; cbn [fold_left filter]; [reflexivity|]. rewrite IH. now destruct (P x). Qed.
Lemma bm_or_last b : forall a, StronglySorted N.lt b -> (forall x y, In x a -> In y b -> x < y) -> bm_or a b = a ++ b.
Proof.
  unfold bm_or. induction b as [|y b IH]; intros a S L; cbn [fold_left]; [now rewrite app_nil_r|].
  inversion S as [|? ? S' F]; subst. rewrite insert_last by (apply Forall_forall; intros x I; apply L; [assumption|now left]).
  rewrite IH; [now rewrite <- app_assoc|assumption|]. intros x z I J. apply in_app_or in I as [I|[<-|[]]]; [apply L; [assumption|now right]|].
  rewrite Forall_forall in F. now apply F.
Qed.
Lemma bm_or_nil b : StronglySorted N.lt b -> bm_or [] b = b.
Proof. intros S. now rewrite bm_or_last by (auto; contradiction). Qed.
Lemma bm_or_assoc a b c : bm_or (bm_or a b) c = bm_or a (b ++ c).
Proof. unfold bm_or. now rewrite fold_left_app. Qed.

(** ** SIMD *)
Lemma movemask_bit bs : forall j, N.testbit (movemask bs) (N.of_nat j) = nth j bs false.
Proof.
  unfold movemask. induction bs as [|b bs IH]; intros j; cbn [fold_right].
  - rewrite N.bits_0. now destruct j.
  - rewrite N.add_comm. destruct j as [|j]; cbn [nth].
    + rewrite N.testbit_0_r. now destruct b.
    + replace (N.of_nat (S j)) with (N.succ (N.of_nat j)) by lia. rewrite N.testbit_succ_r by (destruct b; lia). apply IH.
Qed.
Lemma movemask_bound bs : movemask bs < 2 ^ N.of_nat (length bs).
Proof.
  unfold movemask. induction bs as [|b bs IH]; cbn [fold_right length]; [reflexivity|].
  replace (N.of_nat (S (length bs))) with (1 + N.of_nat (length bs)) by lia. rewrite N.pow_add_r. change (2 ^ 1) with 2. destruct b; cbn [N.b2n]; lia.
Qed.
Lemma filter_map_ {A B} (P : B -> bool) (g : A -> B) l : filter P (map g l) = map g (filter (fun x => P (g x)) l).
Proof. induction l as [|x l IH]; cbn [map filter]; [reflexivity|]. destruct (P (g x)); cbn [map]; now rewrite IH. Qed.
Lemma n_seq_shift k : forall lo off, map (fun j => off + j) (n_seq lo k) = n_seq (off + lo) k.
Proof. induction k as [|k IH]; intros lo off; cbn [n_seq map]; [reflexivity|]. rewrite IH. f_equal. f_equal. lia. Qed.
Lemma filter_ext_In {A} (P Q : A -> bool) l : (forall x, In x l -> P x = Q x) -> filter P l = filter Q l.
Proof.
  induction l as [|x l IH]; intros H; cbn [filter]; [reflexivity|]. rewrite (H x) by now left. rewrite IH; [reflexivity|]. intros; apply H; now right.
Qed.
Lemma lsb0_ok bytes : forall off, bytes_ok bytes ->
  lsb0 off bytes = filter (fun x => N.testbit (le_val bytes) (x - off)) (n_seq off (8 * length bytes)).
Proof.
  induction bytes as [|b bytes IH]; intros off H; cbn [lsb0 length]; [reflexivity|]. inversion H; subst.
  replace (8 * S (length bytes))%nat with (8 + 8 * length bytes)%nat by lia. rewrite n_seq_app, filter_app. f_equal.
  - unfold n_range. change (N.to_nat (8 - 0)) with 8%nat. replace (n_seq off 8) with (map (fun j => off + j) (n_seq 0 8)) by (rewrite n_seq_shift; f_equal; lia).
    rewrite filter_map_. f_equal. apply filter_ext_In. intros j I. apply n_seq_In in I. replace (off + j - off) with j by lia.
    rewrite le_cons_bit by assumption. now replace (j <? 8) with true by lia.
  - rewrite IH by assumption. apply filter_ext_In. intros x I. apply n_seq_In in I. rewrite le_cons_bit by assumption.
    replace (x - off <? 8) with false by lia. f_equal. lia.
Qed.
Lemma words_ok (test : N -> bool) k : forall fuel l, length l = (32 * k)%nat -> (k <= fuel)%nat ->
  let bytes := flat_map (fun w => le_bytes 4 (movemask (map test w))) (words fuel l) in
  bytes_ok bytes /\ length bytes = (4 * k)%nat /\ forall j, (j < length l)%nat -> N.testbit (le_val bytes) (N.of_nat j) = test (nth j l 0).
Proof.
  induction k as [|k IH]; intros fuel l L LE.
  - assert (l = []) as -> by (destruct l; [reflexivity|cbn [length] in L; lia]).
    assert (words fuel (@nil N) = []) as -> by (destruct fuel; reflexivity). cbn zeta. cbn [flat_map length].
    split; [constructor|]. split; [reflexivity|]. intros j HJ. lia.
  - destruct fuel as [|fuel]; [lia|]. cbn [words]. replace (length l <? 32)%nat with false by lia. cbn [flat_map].
    specialize (IH fuel (skipn 32 l) ltac:(rewrite skipn_length; lia) ltac:(lia)). cbn zeta in *. destruct IH as (IB & IL & IT).
    set (rest := flat_map _ (words fuel (skipn 32 l))) in *. set (w := firstn 32 l). assert (LW : length w = 32%nat) by (unfold w; rewrite firstn_length; lia).
    split; [apply Forall_app; split; [apply le_bytes_byte|assumption]|]. split; [rewrite app_length, le_bytes_length; lia|].
    intros j HJ. rewrite le_app_bit by apply le_bytes_byte. rewrite le_bytes_length, le_val_bytes.
    2:{ eapply N.lt_le_trans; [apply movemask_bound|]. rewrite map_length, LW. reflexivity. }
    assert (NL : nth j l 0 = nth j (w ++ skipn 32 l) 0) by (unfold w; now rewrite firstn_skipn). rewrite NL. clear NL.
    destruct (N.ltb_spec (N.of_nat j) (8 * N.of_nat 4)) as [H|H].
    + rewrite movemask_bit. rewrite app_nth1 by lia.
      rewrite nth_indep with (d' := test 0) by (rewrite map_length; lia). now rewrite map_nth.
    + rewrite app_nth2 by lia. replace (N.of_nat j - 8 * N.of_nat 4) with (N.of_nat (j - length w)) by lia. apply IT. rewrite skipn_length. lia.
Qed.
Definition byte_of (off : N) (col : list N) (x : N) : N := nth (N.to_nat (x - off)) col 0.
Lemma simd_select_ok test off col k : length col = (32 * k)%nat -> (0 < k)%nat -> off mod 8 = 0 -> off + N.of_nat (length col) <= 2 ^ 32 ->
  simd_select test off col = Ok (filter (fun x => test (byte_of off col x)) (n_seq off (length col))).
Proof.
  intros L K M H. unfold simd_select. destruct (words_ok test k (length col) col L ltac:(lia)) as (HB & LB & HT).
  set (bytes := flat_map _ _) in *. unfold from_lsb0_bytes. rewrite M. cbn [N.eqb negb].
  destruct bytes as [|b bytes'] eqn:EB; [cbn [length] in LB; lia|]. rewrite <- EB in *. clear EB b bytes'.
  replace (two32 <? off + 8 * N.of_nat (length bytes)) with false.
  2:{ symmetry. apply N.ltb_ge. change two32 with (2 ^ 32). rewrite LB. lia. }
  f_equal. rewrite lsb0_ok by assumption. replace (8 * length bytes)%nat with (length col) by lia. apply filter_ext_In. intros x I. apply n_seq_In in I.
  unfold byte_of. rewrite <- HT by lia. f_equal. lia.
Qed.
Lemma skipn_add {A} a : forall b (l : list A), skipn a (skipn b l) = skipn (b + a) l.
Proof. induction b as [|b IH]; intros l; cbn [skipn Nat.add]; [reflexivity|]. destruct l; [now rewrite skipn_nil|apply IH]. Qed.
Lemma split_ok col off initial lanes rest : split_for_simd col off = (initial, lanes, rest) ->
  col = initial ++ lanes ++ rest /\ (lanes = [] \/ exists k, length lanes = (32 * k)%nat /\ (0 < k)%nat /\ (off + N.of_nat (length initial)) mod 8 = 0).
Proof.
  unfold split_for_simd. set (total := N.of_nat (length col)). set (up := (off + 7) / 8 * 8 - off).
  assert (UP : off <= (off + 7) / 8 * 8 < off + 8).
  { pose proof (N.div_mod (off + 7) 8 ltac:(discriminate)). pose proof (N.mod_lt (off + 7) 8 ltac:(discriminate)). lia. }
  destruct (N.ltb_spec up total) as [L|L].
  - set (sl := (total - up) / 32 * 32). intros E. injection E as <- <- <-.
    assert (SL : sl <= total - up < sl + 32).
    { unfold sl. pose proof (N.div_mod (total - up) 32 ltac:(discriminate)). pose proof (N.mod_lt (total - up) 32 ltac:(discriminate)). lia. }
    rewrite N.min_l by lia. split.
    + rewrite <- (firstn_skipn (N.to_nat up) col) at 1. f_equal. rewrite <- (firstn_skipn (N.to_nat sl) (skipn (N.to_nat up) col)) at 1. f_equal.
      rewrite skipn_add. destruct (N.ltb_spec (up + sl) total).
      * f_equal. lia.
      * apply skipn_all2. lia.
    + destruct (N.eq_dec ((total - up) / 32) 0) as [Z|Z].
      * left. unfold sl. now rewrite Z.
      * right. exists (N.to_nat ((total - up) / 32)). rewrite !firstn_length, skipn_length. split; [unfold sl in *; lia|]. split; [lia|].
        rewrite Nat.min_l by lia. replace (off + N.of_nat (N.to_nat up)) with ((off + 7) / 8 * 8) by lia. apply N.mod_mul. discriminate.
  - replace (up + 0 <? total) with false by lia. intros E. injection E as <- <- <-. rewrite N.min_r by lia. split; [|now left].
    unfold total. rewrite Nat2N.id, firstn_all. now rewrite app_nil_r.
Qed.

(** ** Columns read without a mask *)
Section Column.
  Variables (dbg simd : bool).
  Variables (off : N) (col : list N).
  Hypothesis SM : off + N.of_nat (length col) <= 2 ^ 32.

  Lemma column_all_ok {A} (f : N -> N -> A -> A) l o acc : o + N.of_nat (length l) <= 2 ^ 32 ->
    column_all f dbg o 0 l acc = Ok (fold_left (fun a x => f x (flip (byte_of o l x)) a) (n_seq o (length l)) acc).
  Proof using.
    clear SM. intros H. rewrite column_all_gen by lia. rewrite N.add_0_r.
    rewrite (fold_pick (fun x b a => f x (flip b) a) l 0). reflexivity.
  Qed.
  Lemma byte_of_app a b x : off + N.of_nat (length a) <= x -> byte_of (off + N.of_nat (length a)) b x = byte_of off (a ++ b) x.
  Proof using. clear SM. intros H. unfold byte_of. rewrite app_nth2 by lia. f_equal. lia. Qed.
  Lemma byte_of_app1 a b x : off <= x < off + N.of_nat (length a) -> byte_of off a x = byte_of off (a ++ b) x.
  Proof using. clear SM. intros H. unfold byte_of. rewrite app_nth1 by lia. reflexivity. Qed.

  (** Three consecutive parts. *)
  Lemma parts (Q : N -> bool) a b c : col = a ++ b ++ c ->
    filter (fun x => Q (byte_of off a x)) (n_seq off (length a)) ++
    filter (fun x => Q (byte_of (off + N.of_nat (length a)) b x)) (n_seq (off + N.of_nat (length a)) (length b)) ++
    filter (fun x => Q (byte_of (off + N.of_nat (length a) + N.of_nat (length b)) c x)) (n_seq (off + N.of_nat (length a) + N.of_nat (length b)) (length c)) =
    filter (fun x => Q (byte_of off col x)) (n_seq off (length col)).
  Proof using.
    clear SM. intros ->. rewrite !app_length, !n_seq_app, !filter_app. f_equal; [|f_equal].
    - apply filter_ext_In. intros x I. apply n_seq_In in I. now rewrite (byte_of_app1 a (b ++ c)).
    - apply filter_ext_In. intros x I. apply n_seq_In in I. rewrite <- (byte_of_app a (b ++ c)) by lia. unfold byte_of. now rewrite app_nth1 by lia.
    - replace (off + N.of_nat (length a) + N.of_nat (length b)) with (off + N.of_nat (length (a ++ b))) by (rewrite app_length; lia).
      apply filter_ext_In. intros x I. apply n_seq_In in I. rewrite byte_of_app by lia. now rewrite <- app_assoc.
  Qed.
  Lemma flip_eqb b v : (flip b =? v) = (b =? flip v).
  Proof using. destruct (N.eqb_spec (flip b) v) as [<-|H]; [now rewrite flip_flip, N.eqb_refl|]. symmetry. apply N.eqb_neq. intros ->. now rewrite flip_flip in H. Qed.

  Lemma seg_lt (P Q : N -> bool) o1 n1 o2 n2 x y : o1 + N.of_nat n1 <= o2 -> In x (filter P (n_seq o1 n1)) -> In y (filter Q (n_seq o2 n2)) -> x < y.
  Proof using. clear SM. intros L I J. apply filter_In in I as [I _]. apply filter_In in J as [J _]. apply n_seq_In in I. apply n_seq_In in J. lia. Qed.

  Lemma scalar_eq pred l o : o + N.of_nat (length l) <= 2 ^ 32 ->
    column_all (fun x b bm => if b =? pred then bm_insert x bm else bm) dbg o 0 l [] = Ok (filter (fun x => flip (byte_of o l x) =? pred) (n_seq o (length l))).
  Proof using.
    clear SM. intros H. rewrite column_all_ok by assumption. f_equal.
    rewrite (fold_or (fun x => flip (byte_of o l x) =? pred)). apply bm_or_nil. apply sorted_filter, n_seq_sorted.
  Qed.
  Lemma eq_column_ok pred : eq_column dbg simd col pred off = Ok (filter (fun x => flip (byte_of off col x) =? pred) (n_seq off (length col))).
  Proof using SM.
    unfold eq_column. destruct simd; [|apply scalar_eq; assumption].
    destruct (split_for_simd col off) as [[initial lanes] rest] eqn:ES. destruct (split_ok _ _ _ _ _ ES) as [EC HL].
    assert (LN : length col = (length initial + (length lanes + length rest))%nat) by (rewrite EC, !app_length; lia).
    rewrite scalar_eq by lia. cbn [rbind].
    assert (EL : (match lanes with [] => Ok [] | _ => if dbg && negb ((off + N.of_nat (length initial)) mod 8 =? 0) then Panic
        else simd_select (fun b => b =? flip pred) (off + N.of_nat (length initial)) lanes end) =
      @Ok derr _ (filter (fun x => flip (byte_of (off + N.of_nat (length initial)) lanes x) =? pred) (n_seq (off + N.of_nat (length initial)) (length lanes)))).
    { destruct HL as [-> |(k & KL & KP & KM)]; [reflexivity|]. rewrite KM. cbn [N.eqb negb]. rewrite andb_false_r.
      destruct lanes as [|b lanes'] eqn:EB; [cbn [length] in KL; lia|]. rewrite <- EB in *.
      rewrite (simd_select_ok _ _ _ k) by (try assumption; lia). f_equal. apply filter_ext_In. intros x _. symmetry. apply flip_eqb. }
    rewrite EL. cbn [rbind]. rewrite scalar_eq by lia. cbn [rbind]. f_equal.
    rewrite bm_or_last.
    2:{ apply sorted_filter, n_seq_sorted. }
    2:{ intros x y I J. apply bm_or_spec in I as [I|I]; eapply seg_lt; [|exact I|exact J| |exact I|exact J]; lia. }
    rewrite bm_or_last; [|apply sorted_filter, n_seq_sorted|intros x y I J; eapply seg_lt; [|exact I|exact J]; lia].
    rewrite <- app_assoc. apply (parts (fun b => flip b =? pred)). exact EC.
  Qed.

  Variables (greater : bool).
  (** The records whose byte decides the comparison. *)
  Definition decides (pred b : N) : bool := if greater then pred <? b else b <? pred.
  Lemma cmp_fold pred g xs : forall check q, StronglySorted N.lt xs -> (forall x y, In x check -> In y xs -> x < y) ->
    fold_left (fun a x => cmp_step greater pred x (g x) a) xs (check, q) =
    (check ++ filter (fun x => g x =? pred) xs, bm_or q (filter (fun x => decides pred (g x)) xs)).
  Proof using.
    clear SM. induction xs as [|x xs IH]; intros check q S L; cbn [fold_left filter]; [now rewrite app_nil_r|].
    inversion S as [|? ? S' F]; subst. rewrite Forall_forall in F. unfold cmp_step at 2. unfold decides.
    destruct (N.compare_spec (g x) pred) as [E|E|E].
    - rewrite E, N.eqb_refl. rewrite insert_last by (apply Forall_forall; intros y I; apply L; [assumption|now left]).
      replace (if greater then pred <? pred else pred <? pred) with false by (destruct greater; now rewrite N.ltb_irrefl).
      rewrite IH; [now rewrite <- app_assoc|assumption|]. intros y z I J. apply in_app_or in I as [I|[<-|[]]]; [apply L; [assumption|now right]|now apply F].
    - replace (g x =? pred) with false by lia. replace (g x <? pred) with true by lia. replace (pred <? g x) with false by lia.
      assert (L' : forall y z, In y check -> In z xs -> y < z) by (intros y z I J; apply L; [assumption|now right]).
      rewrite IH by assumption. unfold decides. now destruct greater.
    - replace (g x =? pred) with false by lia. replace (g x <? pred) with false by lia. replace (pred <? g x) with true by lia.
      assert (L' : forall y z, In y check -> In z xs -> y < z) by (intros y z I J; apply L; [assumption|now right]).
      rewrite IH by assumption. unfold decides. now destruct greater.
  Qed.
  Lemma flip_val b : is_byte b -> flip b = if b <? 128 then b + 128 else b - 128.
  Proof using. clear. intros H. assert (A : forall n, (n < 256)%nat -> flip (N.of_nat n) = if N.of_nat n <? 128 then N.of_nat n + 128 else N.of_nat n - 128).
    { assert (Z : forallb (fun n => flip (N.of_nat n) =? (if N.of_nat n <? 128 then N.of_nat n + 128 else N.of_nat n - 128)) (seq 0 256) = true) by (vm_compute; reflexivity).
      rewrite forallb_forall in Z. intros n L. apply N.eqb_eq. apply Z. apply in_seq. lia. }
    rewrite <- (N2Nat.id b). apply A. unfold is_byte in H. lia. Qed.
  Lemma i8_flip b : is_byte b -> i8 b = (Z.of_N (flip b) - 128)%Z.
  Proof using. clear. intros H. rewrite flip_val by assumption. unfold i8, is_byte in *. destruct (N.ltb_spec b 128); lia. Qed.

  Lemma comp_simd_ok pred l o k : is_byte pred -> bytes_ok l -> length l = (32 * k)%nat -> (0 < k)%nat -> o mod 8 = 0 -> o + N.of_nat (length l) <= 2 ^ 32 ->
    comp_simd greater l pred o = Ok (filter (fun x => flip (byte_of o l x) =? pred) (n_seq o (length l)), filter (fun x => decides pred (flip (byte_of o l x))) (n_seq o (length l))).
  Proof using.
    clear SM. intros HP HB KL KP KM H. unfold comp_simd. rewrite !(simd_select_ok _ _ _ k) by assumption. cbn [rbind]. do 2 f_equal.
    - apply filter_ext_In. intros x _. symmetry. apply flip_eqb.
    - apply filter_ext_In. intros x I. apply n_seq_In in I. set (b := byte_of o l x).
      assert (B : is_byte b). { unfold b, byte_of. apply (proj1 (Forall_forall _ _) HB). apply nth_In. lia. }
      rewrite !i8_flip by (try apply flip_byte; assumption). rewrite flip_flip. unfold decides. rewrite <- flip_eqb.
      destruct greater.
      + destruct (N.ltb_spec pred (flip b)), (Z.ltb_spec (Z.of_N pred - 128) (Z.of_N (flip b) - 128)); lia.
      + destruct (N.ltb_spec (flip b) pred), (Z.ltb_spec (Z.of_N (flip b) - 128) (Z.of_N pred - 128)); cbn [andb negb]; try lia.
  Qed.

  Lemma scalar_cmp pred l o check q : o + N.of_nat (length l) <= 2 ^ 32 -> (forall x y, In x check -> o <= y -> x < y) ->
    column_all (cmp_step greater pred) dbg o 0 l (check, q) =
    Ok (check ++ filter (fun x => flip (byte_of o l x) =? pred) (n_seq o (length l)), bm_or q (filter (fun x => decides pred (flip (byte_of o l x))) (n_seq o (length l)))).
  Proof using.
    clear SM. intros H L. rewrite column_all_ok by assumption. f_equal. rewrite (cmp_fold pred (fun x => flip (byte_of o l x))); [reflexivity|apply n_seq_sorted|].
    intros x y I J. apply L; [assumption|]. apply n_seq_In in J. lia.
  Qed.
  Lemma cmp_column_ok pred q : is_byte pred -> bytes_ok col ->
    cmp_column dbg simd greater col off pred q =
    Ok (filter (fun x => flip (byte_of off col x) =? pred) (n_seq off (length col)), bm_or q (filter (fun x => decides pred (flip (byte_of off col x))) (n_seq off (length col)))).
  Proof using SM.
    intros HP HB. unfold cmp_column. destruct simd; [|rewrite scalar_cmp; [reflexivity|assumption|contradiction]].
    destruct (split_for_simd col off) as [[initial lanes] rest] eqn:ES. destruct (split_ok _ _ _ _ _ ES) as [EC HL].
    assert (LN : length col = (length initial + (length lanes + length rest))%nat) by (rewrite EC, !app_length; lia).
    rewrite scalar_cmp; [|lia|contradiction]. cbn [rbind app].
    set (o1 := off + N.of_nat (length initial)). set (c1 := filter _ (n_seq off _)). set (q1 := filter _ (n_seq off _)).
    set (c2 := filter (fun x => flip (byte_of o1 lanes x) =? pred) (n_seq o1 (length lanes))).
    set (q2 := filter (fun x => decides pred (flip (byte_of o1 lanes x))) (n_seq o1 (length lanes))).
    assert (L1 : forall x, In x c1 -> x < o1).
    { intros x I. apply filter_In in I as [I _]. apply n_seq_In in I. subst o1. lia. }
    match goal with |- rbind ?m _ = _ => assert (EL : m = Ok (c1 ++ c2, bm_or (bm_or q q1) q2)) end.
    { destruct HL as [EN |(k & KL & KP & KM)].
      - subst c2 q2. rewrite EN. cbn. now rewrite app_nil_r.
      - unfold simd_misaligned. fold o1 in KM. rewrite KM. cbn [N.eqb negb]. rewrite andb_false_r.
        rewrite match_nonempty by (intros EN; rewrite EN in KL; cbn [length] in KL; lia).
        rewrite (comp_simd_ok pred lanes o1 k); try assumption; [|rewrite EC in HB; apply Forall_app in HB as [_ HB]; apply Forall_app in HB as [HB _]; exact HB|subst o1; lia].
        cbn [rbind]. fold c2 q2. do 2 f_equal. apply bm_or_last; [apply sorted_filter, n_seq_sorted|].
        intros x y I J. apply L1 in I. apply filter_In in J as [J _]. apply n_seq_In in J. lia. }
    rewrite EL. cbn [rbind]. rewrite scalar_cmp.
    - f_equal. f_equal; [rewrite <- app_assoc; subst c1 c2 o1; apply (parts (fun b => flip b =? pred)); exact EC|].
      rewrite !bm_or_assoc. f_equal. subst q1 q2 o1. apply (parts (fun b => decides pred (flip b))). exact EC.
    - subst o1. lia.
    - intros x y I J. apply in_app_or in I as [I|I]; [apply L1 in I; lia|]. apply filter_In in I as [I _]. apply n_seq_In in I. lia.
  Qed.

  (** *** Under a mask *)
  Variable xs : list N.
  Hypothesis WX : within off col xs.

  Lemma pick_bytes {A} (f : N -> N -> A -> A) l o ys : (forall y, In y ys -> o <= y < o + N.of_nat (length l)) -> forall acc,
    column_pick f o l ys acc = Ok (fold_left (fun a y => f y (flip (byte_of o l y)) a) ys acc).
  Proof using.
    clear WX SM. induction ys as [|y ys IH]; intros H acc; cbn [column_pick fold_left]; [reflexivity|].
    rewrite (nth_error_nth' l 0) by (specialize (H y (or_introl eq_refl)); lia). apply IH. intros; apply H; now right.
  Qed.
  Lemma xs_split o1 o2 : off <= o1 <= o2 -> o2 <= off + N.of_nat (length col) ->
    xs = filter (fun x => x <? o1) xs ++ filter (fun x => (o1 <=? x) && (x <? o2)) xs ++ filter (fun x => negb (x <? o2)) xs.
  Proof using WX.
    clear SM. intros L1 L2. destruct WX as [S _]. apply sorted_ext; [assumption| |].
    - assert (G : forall a b, StronglySorted N.lt a -> StronglySorted N.lt b -> (forall x y, In x a -> In y b -> x < y) -> StronglySorted N.lt (a ++ b)).
      { induction 1 as [|x a Sa IH Fa]; intros Sb H; cbn [app]; [assumption|]. constructor; [apply IH; [assumption|]; intros; apply H; [now right|assumption]|].
        apply Forall_app. split; [assumption|]. apply Forall_forall. intros y I. apply H; [now left|assumption]. }
      apply G; [now apply sorted_filter| |].
      + apply G; try now apply sorted_filter. intros x y I J. apply filter_In in I as [_ I]. apply filter_In in J as [_ J]. lia.
      + intros x y I J. apply filter_In in I as [_ I]. apply in_app_or in J as [J|J]; apply filter_In in J as [_ J]; lia.
    - intros x. rewrite !in_app_iff, !filter_In. split; [|tauto]. intros I.
      destruct (N.ltb_spec x o1); [tauto|]. right. destruct (N.ltb_spec x o2); [left|right]; split; auto; lia.
  Qed.
  Lemma cmp_masked_ok pred q n : is_byte pred -> bytes_ok col ->
    cmp_masked dbg simd greater col n off pred xs q =
    Ok (filter (fun x => flip (byte_of off col x) =? pred) xs, bm_or q (filter (fun x => decides pred (flip (byte_of off col x))) xs)).
  Proof using SM WX.
    intros HP HB. unfold cmp_masked. destruct WX as [SX FX]. rewrite Forall_forall in FX.
    destruct (simd && flt _ _).
    2:{ rewrite pick_bytes by assumption. rewrite (cmp_fold pred (fun x => flip (byte_of off col x))) by (try assumption; contradiction). reflexivity. }
    destruct (split_for_simd col off) as [[initial lanes] rest] eqn:ES. destruct (split_ok _ _ _ _ _ ES) as [EC HL].
    assert (LN : length col = (length initial + (length lanes + length rest))%nat) by (rewrite EC, !app_length; lia).
    set (o1 := off + N.of_nat (length initial)). set (o2 := o1 + N.of_nat (length lanes)).
    pose proof (xs_split o1 o2 ltac:(subst o1 o2; lia) ltac:(subst o1 o2; lia)) as XS.
    set (x1 := filter (fun x => x <? o1) xs) in *. set (x2 := filter (fun x => (o1 <=? x) && (x <? o2)) xs) in *. set (x3 := filter (fun x => negb (x <? o2)) xs) in *.
    assert (I1 : forall x, In x x1 -> off <= x < o1) by (intros x I; apply filter_In in I as [I J]; apply FX in I; lia).
    assert (I2 : forall x, In x x2 -> o1 <= x < o2) by (intros x I; apply filter_In in I as [I J]; lia).
    assert (I3 : forall x, In x x3 -> o2 <= x < o2 + N.of_nat (length rest)) by (intros x I; apply filter_In in I as [I J]; apply FX in I; subst o1 o2; lia).
    assert (F1 : forall Q, filter (fun x => Q (flip (byte_of off initial x))) x1 = filter (fun x => Q (flip (byte_of off col x))) x1).
    { intros Q. apply filter_ext_In. intros x I. apply I1 in I. rewrite EC. now rewrite (byte_of_app1 initial (lanes ++ rest)). }
    assert (F2 : forall Q, filter (fun x => Q (flip (byte_of o1 lanes x))) x2 = filter (fun x => Q (flip (byte_of off col x))) x2).
    { intros Q. apply filter_ext_In. intros x I. apply I2 in I. rewrite EC. subst o1 o2. rewrite <- (byte_of_app initial (lanes ++ rest)) by lia. unfold byte_of. now rewrite app_nth1 by lia. }
    assert (F3 : forall Q, filter (fun x => Q (flip (byte_of o2 rest x))) x3 = filter (fun x => Q (flip (byte_of off col x))) x3).
    { intros Q. apply filter_ext_In. intros x I. apply I3 in I. rewrite EC. subst o1 o2. rewrite app_assoc.
      replace (off + N.of_nat (length initial) + N.of_nat (length lanes)) with (off + N.of_nat (length (initial ++ lanes))) in * by (rewrite app_length; lia).
      now rewrite byte_of_app by lia. }
    assert (S1 : StronglySorted N.lt x1) by now apply sorted_filter. assert (S2 : StronglySorted N.lt x2) by now apply sorted_filter. assert (S3 : StronglySorted N.lt x3) by now apply sorted_filter.
    assert (IN : forall Q, filter (bm_contains xs) (filter Q (n_seq o1 (length lanes))) = filter Q x2).
    { intros Q. apply sorted_ext; [apply sorted_filter, sorted_filter, n_seq_sorted|now apply sorted_filter|].
      intros x. rewrite !filter_In, n_seq_In, bm_contains_In. unfold x2. rewrite filter_In. subst o2.
      assert (((o1 <=? x) && (x <? o1 + N.of_nat (length lanes)) = true) <-> (o1 <= x < o1 + N.of_nat (length lanes))) by lia. tauto. }
    assert (X2E : lanes = [] -> x2 = []).
    { intros EN. subst o2. rewrite EN in *. cbn [length] in *. destruct x2 as [|x x2']; [reflexivity|]. specialize (I2 x (or_introl eq_refl)). lia. }
    rewrite pick_bytes by (intros y I; apply I1 in I; subst o1; lia). rewrite (cmp_fold pred (fun x => flip (byte_of off initial x))) by (try assumption; contradiction).
    cbn [rbind app]. rewrite (F1 (fun b => b =? pred)), (F1 (decides pred)).
    match goal with |- rbind ?m _ = _ => assert (EL : m = Ok (filter (fun x => flip (byte_of off col x) =? pred) x2,
        bm_or (bm_or q (filter (fun x => decides pred (flip (byte_of off col x))) x1)) (filter (fun x => decides pred (flip (byte_of off col x))) x2))) end.
    { destruct HL as [EN |(k & KL & KP & KM)].
      - rewrite (X2E EN), EN. reflexivity.
      - unfold simd_misaligned. fold o1 in KM. rewrite KM. cbn [N.eqb negb]. rewrite andb_false_r.
        rewrite match_nonempty by (intros EN; rewrite EN in KL; cbn [length] in KL; lia).
        rewrite (comp_simd_ok pred lanes o1 k); try assumption; [|rewrite EC in HB; apply Forall_app in HB as [_ HB]; apply Forall_app in HB as [HB _]; exact HB|subst o1; lia].
        cbn [rbind]. unfold bm_and. rewrite !IN. rewrite (F2 (fun b => b =? pred)), (F2 (decides pred)). reflexivity. }
    rewrite EL. cbn [rbind].
    rewrite pick_bytes by assumption. rewrite (cmp_fold pred (fun x => flip (byte_of o2 rest x))) by (try assumption; contradiction).
    cbn [rbind app]. rewrite (F3 (fun b => b =? pred)), (F3 (decides pred)). do 2 f_equal.
    - assert (OL : forall P Q (a b : list N), (forall x y, In x a -> In y b -> x < y) -> StronglySorted N.lt b -> bm_or (filter P a) (filter Q b) = filter P a ++ filter Q b).
      { intros P Q a b L SB. apply bm_or_last; [now apply sorted_filter|]. intros x y I J. apply filter_In in I as [I _]. apply filter_In in J as [J _]. auto. }
      rewrite OL; [|intros x y I J; apply I1 in I; apply I2 in J; lia|assumption]. rewrite <- filter_app, OL.
      + rewrite <- filter_app, <- app_assoc, <- XS. reflexivity.
      + intros x y I J. apply in_app_or in I as [I|I]; apply I3 in J; [apply I1 in I|apply I2 in I]; lia.
      + assumption.
    - rewrite !bm_or_assoc, <- !filter_app, <- XS. reflexivity.
  Qed.
End Column.

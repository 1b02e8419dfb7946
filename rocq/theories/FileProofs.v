From Verif Require Import Base WordProofs Xor F64 Format FormatSpec FormatProofs FormatSummary File FileSpec.

(** ** Records in bytes *)
Lemma records_fuel_enough f1 : forall f2 bs, (length bs <= f1)%nat -> (length bs <= f2)%nat ->
  records_fuel f1 bs = records_fuel f2 bs.
Proof.
  induction f1 as [|f1 IH]; intros [|f2] bs H1 H2; try reflexivity; cbn [records_fuel].
  - destruct bs; [reflexivity|cbn in H1; lia].
  - destruct bs; [reflexivity|cbn in H2; lia].
  - destruct (Nat.ltb_spec (length bs) 8); [reflexivity|].
    f_equal. apply IH; rewrite skipn_length; lia.
Qed.

Lemma records_of_short bs : (length bs < 8)%nat -> records_of bs = [].
Proof.
  unfold records_of. destruct (length bs) eqn:E; [reflexivity|].
  cbn [records_fuel]. intros. now replace (length bs <? 8)%nat with true by lia.
Qed.

Lemma records_of_step a bs : length a = 8%nat -> records_of (a ++ bs) = le_val a :: records_of bs.
Proof.
  intros L. unfold records_of. rewrite app_length, L.
  change (8 + length bs)%nat with (S (7 + length bs)). set (f := (7 + length bs)%nat).
  assert (length bs <= f)%nat as Hf by (unfold f; lia). clearbody f. cbn [records_fuel].
  rewrite app_length, L. replace (8 + length bs <? 8)%nat with false by lia.
  rewrite firstn_app, skipn_app, L, Nat.sub_diag, firstn_O, skipn_O, app_nil_r.
  rewrite firstn_all2, skipn_all2 by lia. cbn [app]. f_equal.
  apply records_fuel_enough; lia.
Qed.

Lemma records_of_bytes xs tail : Forall is_u64 xs -> (length tail < 8)%nat ->
  records_of (bytes_of xs ++ tail) = xs.
Proof.
  intros F L. induction F as [|x xs Hx F IH]; cbn [bytes_of flat_map app].
  - now apply records_of_short.
  - rewrite <- app_assoc, records_of_step by apply le_bytes_length.
    rewrite le_val_bytes by assumption. f_equal. exact IH.
Qed.

Lemma bytes_of_length xs : length (bytes_of xs) = (8 * length xs)%nat.
Proof. induction xs as [|x xs IH]; [reflexivity|]. cbn [bytes_of flat_map]. rewrite app_length, le_bytes_length. cbn [length]. unfold bytes_of in IH. lia. Qed.
Lemma bytes_of_app a b : bytes_of (a ++ b) = bytes_of a ++ bytes_of b.
Proof. unfold bytes_of. now rewrite flat_map_app. Qed.

Lemma split8 (bs : list N) : (8 <= length bs)%nat -> exists a b, bs = a ++ b /\ length a = 8%nat.
Proof.
  intros L. exists (firstn 8 bs), (skipn 8 bs). split; [symmetry; apply firstn_skipn|].
  rewrite firstn_length. lia.
Qed.

(** Every byte sequence is the image of its records plus a short tail. *)
Lemma records_split n : forall bs, (length bs <= n)%nat -> Forall is_byte bs ->
  exists tail, bs = bytes_of (records_of bs) ++ tail /\ (length tail < 8)%nat /\ Forall is_u64 (records_of bs).
Proof.
  induction n as [|n IH]; intros bs L F.
  - exists []. destruct bs; [|cbn in L; lia]. repeat split; [cbn; lia|constructor].
  - destruct (Nat.ltb_spec (length bs) 8) as [Sh|Sh].
    + exists bs. rewrite records_of_short by assumption. repeat split; [assumption|constructor].
    + destruct (split8 bs Sh) as (a&b&->&L8).
      rewrite app_length in L. apply Forall_app in F. destruct F as [F1 F2].
      destruct (IH b) as (t&E&T&U); [lia|assumption|].
      exists t. rewrite records_of_step by assumption. split; [|split].
      * cbn [bytes_of flat_map]. rewrite <- app_assoc.
        replace (le_bytes 8 (le_val a)) with a by (rewrite <- L8; symmetry; now apply le_bytes_val).
        f_equal. exact E.
      * assumption.
      * constructor; [|assumption]. unfold is_u64.
        pose proof (le_val_bound _ F1) as B. now rewrite L8 in B.
Qed.
Lemma records_bytes bs : Forall is_byte bs ->
  exists tail, bs = bytes_of (records_of bs) ++ tail /\ (length tail < 8)%nat /\ Forall is_u64 (records_of bs).
Proof. intros. now apply (records_split (length bs)). Qed.

Lemma records_of_length bs : (8 * length (records_of bs) <= length bs)%nat.
Proof.
  unfold records_of. enough (H : forall f bs, (8 * length (records_fuel f bs) <= length bs)%nat) by apply H.
  clear. induction f as [|f IH]; intros bs; cbn [records_fuel]; [cbn; lia|].
  destruct (Nat.ltb_spec (length bs) 8); [cbn; lia|]. specialize (IH (skipn 8 bs)).
  rewrite skipn_length in IH. cbn [length]. lia.
Qed.

(** ** Reading the input *)
Lemma delivered_cons bs input : delivered (Data bs :: input) = bs ++ delivered input.
Proof. reflexivity. Qed.

Lemma read_loop_steady input : steady input -> forall want got,
  exists rest, read_loop want got input = Ok (got ++ firstn (N.to_nat want) (delivered input), rest) /\
    steady rest /\ delivered rest = skipn (N.to_nat want) (delivered input).
Proof.
  intros S. induction S as [|e input (bs&->&NE) S IH]; intros want got.
  - exists []. cbn [read_loop]. unfold delivered. cbn [map concat]. rewrite firstn_nil, skipn_nil, app_nil_r.
    destruct (want =? 0); (split; [reflexivity|split; [constructor|reflexivity]]).
  - rewrite delivered_cons. cbn [read_loop]. destruct (N.eqb_spec want 0) as [->|W].
    { exists (Data bs :: input). rewrite firstn_O, skipn_O, app_nil_r.
      split; [reflexivity|]. split; [|reflexivity]. constructor; [eauto|assumption]. }
    destruct (N.ltb_spec want (N.of_nat (length bs))) as [L|L].
    + exists (Data (skipn (N.to_nat want) bs) :: input).
      rewrite firstn_app, skipn_app.
      replace (N.to_nat want - length bs)%nat with O by lia. rewrite firstn_O, skipn_O, app_nil_r.
      split; [reflexivity|]. split; [|reflexivity].
      constructor; [|assumption]. eexists; split; [reflexivity|].
      intros E. apply (f_equal (@length N)) in E. rewrite skipn_length in E. cbn in E. lia.
    + destruct bs as [|b bs'] eqn:EB; [contradiction|]. rewrite <- EB in *.
      destruct (IH (want - N.of_nat (length bs)) (got ++ bs)) as (rest&R&SR&DR).
      exists rest. rewrite R. split; [|split; [assumption|]].
      * f_equal. f_equal. rewrite firstn_app, (firstn_all2 bs) by lia. rewrite app_assoc. do 2 f_equal. lia.
      * rewrite DR, skipn_app, (skipn_all2 bs) by lia. cbn [app]. f_equal. lia.
Qed.

Lemma read_to_end_patient input : patient input -> forall got,
  read_to_end got input = Ok (got ++ delivered input, []).
Proof.
  intros S. induction S as [|e input E S IH]; intros got.
  - cbn. now rewrite app_nil_r.
  - destruct E as [->|(bs&->&NE)].
    + cbn [read_to_end]. rewrite IH. reflexivity.
    + cbn [read_to_end]. destruct bs as [|b bs]; [contradiction|].
      rewrite IH, delivered_cons, app_assoc. reflexivity.
Qed.

Lemma steady_patient input : steady input -> patient input.
Proof. unfold steady, patient. apply Forall_impl. auto. Qed.

Lemma firstn_records k bs : Forall is_byte bs ->
  records_of (firstn (8 * k) bs) = firstn k (records_of bs) /\
  records_of (skipn (8 * k) bs) = skipn k (records_of bs).
Proof.
  revert bs. induction k as [|k IH]; intros bs F.
  - cbn [Nat.mul]. rewrite !firstn_O, !skipn_O. split; reflexivity.
  - destruct (Nat.ltb_spec (length bs) 8) as [Sh|Sh].
    + rewrite firstn_all2, skipn_all2 by lia. rewrite (records_of_short bs) by assumption.
      now rewrite firstn_nil, skipn_nil.
    + destruct (split8 bs Sh) as (a&b&->&L8).
      apply Forall_app in F. destruct F as [F1 F2]. destruct (IH _ F2) as [I1 I2].
      rewrite (records_of_step a b) by assumption.
      change (firstn (S k) (le_val a :: records_of b)) with (le_val a :: firstn k (records_of b)).
      change (skipn (S k) (le_val a :: records_of b)) with (skipn k (records_of b)).
      rewrite firstn_app, skipn_app, L8.
      rewrite (firstn_all2 a), (skipn_all2 a) by lia.
      replace (8 * S k - 8)%nat with (8 * k)%nat by lia. cbn [app].
      rewrite records_of_step by assumption. now rewrite I1, I2.
Qed.

Definition limit_of (o : chunk_option) (xs : list N) : nat :=
  match records_per_chunk o with None => length xs | Some k => N.to_nat k end.

(** One read: the next records, the rest of the input. *)

Lemma read_less_ok k input : 8 * k < 2 ^ 63 -> steady input -> Forall is_byte (delivered input) ->
  exists rest, read_less_or_equal (8 * k) input =
      Ok (firstn (N.to_nat k) (records_of (delivered input)), rest) /\
    steady rest /\ records_of (delivered rest) = skipn (N.to_nat k) (records_of (delivered input)) /\
    Forall is_byte (delivered rest).
Proof.
  intros B S F. unfold read_less_or_equal.
  assert (D : (8 * k + 7) / 8 = k) by (symmetry; apply (N.div_unique _ 8 k 7); lia).
  rewrite D. unfold isize_limit. change (2 ^ 63) with 9223372036854775808 in B.
  replace (9223372036854775808 <=? 8 * k) with false by lia.
  destruct (read_loop_steady input S (8 * k) []) as (rest&R&SR&DR).
  exists rest. rewrite R. cbn [rbind app].
  replace (N.to_nat (8 * k)) with (8 * N.to_nat k)%nat in * by lia.
  destruct (firstn_records (N.to_nat k) _ F) as [I1 I2]. rewrite DR, I1, I2.
  split; [reflexivity|]. split; [assumption|]. split; [reflexivity|].
  rewrite <- (firstn_skipn (8 * N.to_nat k)) in F. now apply Forall_app in F.
Qed.

Lemma read_chunk_input_ok dbg o input : usable o -> readable o input -> Forall is_byte (delivered input) ->
  let xs := records_of (delivered input) in
  exists rest, read_chunk_input dbg o input = Ok (firstn (limit_of o xs) xs, rest) /\
    readable o rest /\ records_of (delivered rest) = skipn (limit_of o xs) xs /\
    Forall is_byte (delivered rest).
Proof.
  intros U R F xs. unfold usable, limit_of, records_per_chunk in *.
  assert (M : forall k, 0 < k /\ 8 * k < 2 ^ 63 -> mul8 dbg k = Ok (8 * k)).
  { intros k [_ B]. unfold mul8, two64. change (2 ^ 63) with 9223372036854775808 in B.
    now replace (18446744073709551616 <=? 8 * k) with false by lia. }
  destruct o as [|k|b]; cbn [read_chunk_input readable] in *.
  - exists []. rewrite read_to_end_patient by assumption. cbn [rbind app].
    rewrite firstn_all2, skipn_all2 by lia. repeat split; constructor.
  - rewrite M by assumption. cbn [rbind]. now apply read_less_ok.
  - rewrite M by assumption. cbn [rbind]. now apply read_less_ok.
Qed.

(** ** The chunk loop *)
Lemma index_of_app image parts : forall p l more,
  index_of image p l (parts ++ more) =
  index_of image p l parts ++
  index_of image (p + N.of_nat (length (concat (map image parts)))) (l + N.of_nat (length (concat parts))) more.
Proof.
  induction parts as [|x parts IH]; intros; cbn [app index_of map concat length].
  - rewrite !N.add_0_r. reflexivity.
  - rewrite IH. cbn [app]. do 2 f_equal. rewrite !app_length. f_equal; lia.
Qed.

Lemma index_of_length image parts : forall p l, length (index_of image p l parts) = length parts.
Proof. induction parts; intros; cbn [index_of length]; [reflexivity|]. now rewrite IHparts. Qed.

Lemma partition_nil limit : partition limit [] [].
Proof.
  repeat split; [constructor|]. destruct limit; [|cbn; lia].
  intros i p E. destruct i; discriminate E.
Qed.

Section Loop.
  Variable dbg : bool.
  Variable cd : codec.
  Variable o : chunk_option.
  Variable good : list N -> Prop.
  Variables image view : list N -> list N.
  Hypothesis OK : codec_ok cd good image view.
  Hypothesis U : usable o.

  (** The writer after the chunks [done]. *)
  Definition fw_at (w : fwriter) (done : list (list N)) : Prop :=
    fw_total_in w = 8 * N.of_nat (length (concat done)) /\
    fw_total_out w = N.of_nat (length (concat (map image done))) /\
    fw_footers w = index_of image 30 0 done ++
      [mkCf (30 + fw_total_out w) (N.of_nat (length (concat done)))].

  Lemma fw_at_last w done : fw_at w done ->
    match rev (fw_footers w) with f :: _ => cf_logical f | [] => 0 end = N.of_nat (length (concat done)).
  Proof using. intros (_&_&->). rewrite rev_app_distr. reflexivity. Qed.

  Lemma chunk_write_empty s w done : fw_at w done -> readable o (fw_input w) ->
    Forall is_byte (delivered (fw_input w)) -> records_of (delivered (fw_input w)) = [] ->
    exists w', chunk_write dbg cd o s w = Ok ([], s, w') /\ fw_at w' done /\ fw_eof w' = true.
  Proof using U.
    intros A R F E. unfold chunk_write.
    destruct (read_chunk_input_ok dbg o (fw_input w) U R F) as (rest&RD&_).
    rewrite E, firstn_nil in RD. rewrite RD. cbn [rbind].
    eexists. split; [reflexivity|]. split; [exact A|reflexivity].
  Qed.

  Lemma chunk_write_ok s w done xs p rest : fw_at w done -> readable o (fw_input w) ->
    Forall is_byte (delivered (fw_input w)) -> records_of (delivered (fw_input w)) = xs ->
    p = firstn (limit_of o xs) xs -> rest = skipn (limit_of o xs) xs -> p <> [] ->
    N.of_nat (length p) < 2 ^ 60 -> good p ->
    exists s' w', chunk_write dbg cd o (cd_reset cd s) w = Ok (image p, s', w') /\
      fw_at w' (done ++ [p]) /\ fw_eof w' = false /\ readable o (fw_input w') /\
      Forall is_byte (delivered (fw_input w')) /\ records_of (delivered (fw_input w')) = rest.
  Proof using OK U.
    intros A R F E Ep Er NE B G. unfold chunk_write.
    destruct (read_chunk_input_ok dbg o (fw_input w) U R F) as (input'&RD&R'&E'&F').
    rewrite E, <- Ep in RD. rewrite E, <- Er in E'. rewrite RD. cbn [rbind].
    assert (U64 : Forall is_u64 p).
    { destruct (records_bytes _ F) as (t&_&_&H). rewrite E in H.
      rewrite <- (firstn_skipn (limit_of o xs) xs) in H. rewrite <- Ep in H. now apply Forall_app in H. }
    destruct (OK s p NE U64 B G) as (s'&C1&T1&T2&Bf&_).
    destruct p as [|x p'] eqn:EP; [contradiction|]. rewrite <- EP in *.
    rewrite C1. cbn [rbind].
    replace (cd_total_in cd s' =? 0) with false.
    2:{ rewrite T1, EP. cbn [length]. lia. }
    eexists _, _. split; [rewrite Bf; reflexivity|]. split; [|split; [reflexivity|cbn [fw_input]; auto]].
    pose proof (fw_at_last w done A) as LG. destruct A as (A1&A2&A3).
    unfold fw_at. cbn [fw_total_in fw_total_out fw_footers].
    rewrite concat_app, map_app, concat_app, !app_length. cbn [map concat]. rewrite !app_nil_r.
    split; [rewrite A1, T2; lia|]. split; [rewrite A2; lia|].
    rewrite index_of_app. cbn [index_of]. rewrite LG, A3, T2, ?Bf, A2.
    rewrite <- !app_assoc. cbn [app]. do 3 f_equal.
    rewrite (N.mul_comm 8), N.div_mul by discriminate. f_equal. f_equal. lia.
  Qed.

  Lemma partition_step xs p rest parts :
    p = firstn (limit_of o xs) xs -> rest = skipn (limit_of o xs) xs -> p <> [] ->
    partition (records_per_chunk o) rest parts -> partition (records_per_chunk o) xs (p :: parts).
  Proof using U.
    intros Ep Er NE (C&NEs&L). split; [|split].
    - cbn [concat]. rewrite C, Ep, Er. apply firstn_skipn.
    - constructor; assumption.
    - unfold limit_of in *. destruct (records_per_chunk o) as [k|].
      + intros [|i] q E; cbn [nth_error] in E.
        * injection E as <-. rewrite Ep, firstn_length. split; [lia|].
          cbn [length]. intros Hl. destruct parts as [|q' parts]; [cbn in Hl; lia|].
          assert (rest <> []).
          { rewrite <- C. cbn [concat]. intros Hn. apply app_eq_nil in Hn. destruct Hn as [Hn _].
            now inversion NEs. }
          destruct (Nat.leb_spec (N.to_nat k) (length xs)); [lia|].
          rewrite skipn_all2 in Er by lia. contradiction.
        * specialize (L i q E). cbn [length]. split; [tauto|]. intros. apply L. lia.
      + rewrite Er, skipn_all2 in C by lia. destruct parts as [|q parts]; [cbn; lia|].
        cbn [concat] in C. apply app_eq_nil in C. inversion NEs; subst. tauto.
  Qed.

  Lemma encode_loop_ok fuel : forall s w done xs,
    fw_at w done -> fw_eof w = false -> readable o (fw_input w) ->
    Forall is_byte (delivered (fw_input w)) -> records_of (delivered (fw_input w)) = xs ->
    (length xs < fuel)%nat -> N.of_nat (length xs) < 2 ^ 60 ->
    (forall parts, partition (records_per_chunk o) xs parts -> Forall good parts) ->
    exists parts w', partition (records_per_chunk o) xs parts /\
      encode_loop dbg cd o fuel s w = (map (fun p => WWrite (image p)) parts ++ [WWrite []], Ok w') /\
      fw_at w' (done ++ parts).
  Proof using OK U.
    induction fuel as [|fuel IH]; intros s w done xs A EO R F E L B G; [lia|].
    cbn [encode_loop]. rewrite EO.
    destruct xs as [|x0 xs0] eqn:EX.
    - destruct (chunk_write_empty (cd_reset cd s) w done A R F E) as (w'&CW&A'&EO').
      rewrite CW. exists [], w'. split; [apply partition_nil|].
      destruct fuel; cbn [encode_loop]; rewrite EO'; cbn [map app]; rewrite app_nil_r; (split; [reflexivity|assumption]).
    - rewrite <- EX in *.
      set (p := firstn (limit_of o xs) xs). set (rest := skipn (limit_of o xs) xs).
      assert (Ep : p = firstn (limit_of o xs) xs) by reflexivity.
      assert (Er : rest = skipn (limit_of o xs) xs) by reflexivity. clearbody p rest.
      assert (PR : concat [p; rest] = xs) by (cbn [concat]; rewrite app_nil_r, Ep, Er; apply firstn_skipn).
      assert (NE : p <> []).
      { intros ->. symmetry in Ep. apply (f_equal (@length N)) in Ep. rewrite firstn_length in Ep.
        unfold limit_of, usable in *. destruct (records_per_chunk o); rewrite EX in Ep; cbn [length] in Ep; lia. }
      assert (LR : (length rest < length xs)%nat).
      { rewrite <- PR. cbn [concat]. rewrite app_nil_r, app_length. destruct p; [contradiction|cbn [length]; lia]. }
      assert (LP : (length p <= length xs)%nat) by (rewrite Ep; rewrite firstn_length; lia).
      assert (EXP : exists parts, partition (records_per_chunk o) rest parts).
      { clear - U. unfold usable in U. destruct (records_per_chunk o) as [k|].
        - remember (length rest) as n eqn:En. assert (Hn : (length rest <= n)%nat) by lia. clear En. revert rest Hn.
          induction n as [|n IHn]; intros r Hn.
          + exists []. destruct r; [|cbn in Hn; lia]. apply partition_nil.
          + destruct r as [|y r0] eqn:Er0; [exists []; apply partition_nil|]. rewrite <- Er0 in *.
            destruct (IHn (skipn (N.to_nat k) r)) as (ps&C&NEs&Lk).
            { rewrite skipn_length, Er0. cbn [length]. rewrite Er0 in Hn. cbn [length] in Hn. lia. }
            assert (NE1 : firstn (N.to_nat k) r <> []).
            { intros Hq. apply (f_equal (@length N)) in Hq. rewrite firstn_length, Er0 in Hq. cbn [length] in Hq. lia. }
            exists (firstn (N.to_nat k) r :: ps). split; [|split].
            * cbn [concat]. rewrite C. apply firstn_skipn.
            * constructor; assumption.
            * intros [|i] q Eq; cbn [nth_error] in Eq.
              -- injection Eq as <-. rewrite firstn_length. split; [lia|].
                 intros Hl. destruct (Nat.leb_spec (N.to_nat k) (length r)); [lia|].
                 rewrite skipn_all2 in C by lia. destruct ps as [|q' ps]; [cbn in Hl; lia|].
                 cbn [concat] in C. apply app_eq_nil in C. inversion NEs; subst. tauto.
              -- specialize (Lk i q Eq). cbn [length]. split; [tauto|]. intros. apply Lk. lia.
        - destruct rest as [|y r] eqn:Er; [exists []; apply partition_nil|].
          exists [y :: r]. split; [cbn; now rewrite app_nil_r|]. split; [repeat constructor; discriminate|cbn; lia]. }
      assert (Gp : good p).
      { destruct EXP as (ps&PS). specialize (G (p :: ps) (partition_step xs p rest ps Ep Er NE PS)).
        now inversion G. }
      assert (Bp : N.of_nat (length p) < 2 ^ 60) by lia.
      destruct (chunk_write_ok s w done xs p rest A R F E Ep Er NE Bp Gp) as (s'&w'&CW&A'&EO'&R'&F'&E').
      rewrite CW.
      destruct (IH s' w' (done ++ [p]) rest A' EO' R' F' E' ltac:(lia) ltac:(lia)) as (parts&w''&P&EL&A'').
      { intros ps PS. specialize (G (p :: ps) (partition_step xs p rest ps Ep Er NE PS)). now inversion G. }
      exists (p :: parts), w''. rewrite EL. split; [now apply (partition_step xs p rest)|].
      split; [reflexivity|]. now rewrite <- app_assoc in A''.
  Qed.
End Loop.

(** ** The bytes written *)
Lemma skipn_plus {A} (a b : nat) (l : list A) : skipn a (skipn b l) = skipn (a + b) l.
Proof.
  revert l. induction b as [|b IH]; intros l; [now rewrite Nat.add_0_r|].
  rewrite Nat.add_succ_r. destruct l as [|x l]; [now rewrite !skipn_nil|]. cbn [skipn]. apply IH.
Qed.
Lemma overwrite_at done bs old :
  overwrite (length done) bs (done ++ skipn (length done) old) =
  (done ++ bs) ++ skipn (length (done ++ bs)) old.
Proof.
  unfold overwrite. rewrite firstn_app, firstn_all, Nat.sub_diag, firstn_O, app_nil_r.
  rewrite (app_length done (skipn _ _)). replace (length done - (length done + _))%nat with O by lia.
  cbn [repeat app]. rewrite skipn_app.
  rewrite (skipn_all2 done) by lia. cbn [app].
  rewrite <- app_assoc. do 2 f_equal.
  rewrite skipn_plus, app_length. f_equal. lia.
Qed.

Lemma out_run_writes bss : forall old done,
  out_run (done ++ skipn (length done) old, length done) (map WWrite bss) =
  ((done ++ concat bss) ++ skipn (length (done ++ concat bss)) old, length (done ++ concat bss)).
Proof.
  induction bss as [|bs bss IH]; intros old done.
  - cbn [map concat out_run fold_left]. now rewrite app_nil_r.
  - cbn [map concat]. unfold out_run in *. cbn [fold_left].
    destruct bs as [|b bs0] eqn:EB; [cbn [out_step app]; apply IH|]. rewrite <- EB.
    replace (out_step (done ++ skipn (length done) old, length done) (WWrite bs)) with
      (overwrite (length done) bs (done ++ skipn (length done) old), (length done + length bs)%nat)
      by (rewrite EB; reflexivity).
    rewrite overwrite_at, <- (app_length done bs), IH, app_assoc. reflexivity.
Qed.

Lemma out_run_app st a b : out_run st (a ++ b) = out_run (out_run st a) b.
Proof. apply fold_left_app. Qed.

(** A write inside what is already there. *)
Lemma overwrite_inside a x b bs : length x = length bs ->
  overwrite (length a) bs (a ++ x ++ b) = a ++ bs ++ b.
Proof.
  intros L. unfold overwrite. rewrite firstn_app, firstn_all, Nat.sub_diag, firstn_O, app_nil_r.
  rewrite (app_length a (x ++ b)). replace (length a - (length a + _))%nat with O by lia. cbn [repeat app].
  do 2 f_equal. rewrite skipn_app, skipn_all2 by lia. cbn [app].
  rewrite skipn_app, skipn_all2 by lia. cbn [app].
  replace (length a + length bs - length a - length x)%nat with O by lia. reflexivity.
Qed.

Lemma out_seek_write content p a x b bs :
  content = a ++ x ++ b -> length x = length bs -> bs <> [] -> N.to_nat p = length a ->
  forall q, fst (out_run (content, q) [WSeek p; WWrite bs]) = a ++ bs ++ b.
Proof.
  intros -> L NE P q. cbn [out_run fold_left out_step fst snd].
  destruct bs as [|y bs0] eqn:EB; [contradiction|]. rewrite <- EB in *. cbn [fst]. rewrite P.
  now apply overwrite_inside.
Qed.

Lemma removelast_snoc {A} (l : list A) x : removelast (l ++ [x]) = l.
Proof. induction l as [|y l IH]; [reflexivity|]. cbn [app removelast]. rewrite IH. destruct l; reflexivity. Qed.

Lemma map_WWrite (image : list N -> list N) parts : map (fun p => WWrite (image p)) parts = map WWrite (map image parts).
Proof. now rewrite map_map. Qed.

Section Layout.
  Variables (image : list N -> list N) (c : config) (o : chunk_option) (timer : times) (elapsed : N).

  (** The file before the two patches. *)
  Definition unpatched parts : list N :=
    write_header c o ++ layout_body image parts ++ footer_bytes (layout_footer image c timer 0 parts).

  Lemma fw_footer_layout w parts : fw_at image w parts ->
    fw_footer w c timer = layout_footer image c timer 0 parts /\
    fw_footer_offset w = 30 + N.of_nat (length (layout_body image parts)) /\
    fw_elapsed_slot w c = 30 + N.of_nat (length (layout_body image parts)) +
      (16 + 16 * N.of_nat (length parts) + config_serialized_size c).
  Proof using.
    intros A. pose proof (fw_at_last image w parts A) as LG. destruct A as (A1&A2&A3).
    unfold fw_footer, fw_footer_offset, fw_elapsed_slot, fw_footer_offset, layout_footer, layout_body.
    rewrite LG, A3, removelast_snoc, index_of_length, A2. repeat split. lia.
  Qed.

  Lemma footer_split e parts : exists pre post,
    footer_bytes (layout_footer image c timer e parts) = pre ++ le_bytes 16 e ++ post /\
    (forall e', footer_bytes (layout_footer image c timer e' parts) = pre ++ le_bytes 16 e' ++ post) /\
    N.of_nat (length pre) = 16 + 16 * N.of_nat (length parts) + config_serialized_size c.
  Proof using.
    exists (le_bytes 8 (N.of_nat (length (concat parts))) ++ le_bytes 8 (N.of_nat (length parts)) ++
      flat_map cf_bytes (index_of image 30 0 parts) ++ config_bytes c), (times_bytes timer ++ le_bytes 4 0).
    split; [|split].
    - unfold footer_bytes, layout_footer. cbn [f_records f_chunks f_index f_config f_elapsed f_times f_crc].
      now rewrite <- !app_assoc.
    - intros. unfold footer_bytes, layout_footer. cbn [f_records f_chunks f_index f_config f_elapsed f_times f_crc].
      now rewrite <- !app_assoc.
    - rewrite !app_length, !le_bytes_length, <- config_bytes_length.
      pose proof (index_bytes_length (index_of image 30 0 parts)) as I. rewrite index_of_length in I. lia.
  Qed.

  Lemma header_split off : exists pre post,
    header_bytes (mkHeader magic (config_scheme c) o off version) = pre ++ le_bytes 8 off ++ post /\
    (forall off', header_bytes (mkHeader magic (config_scheme c) o off' version) = pre ++ le_bytes 8 off' ++ post) /\
    length pre = 16%nat.
  Proof using.
    exists (magic ++ [0; scheme_code (config_scheme c); fst (chunk_option_fields o); 0] ++
      le_bytes 8 (snd (chunk_option_fields o))), (flat_map (le_bytes 2) version).
    split; [|split].
    - unfold header_bytes. cbn [h_magic h_scheme h_option h_footer_offset h_version]. now rewrite <- !app_assoc.
    - intros. unfold header_bytes. cbn [h_magic h_scheme h_option h_footer_offset h_version]. now rewrite <- !app_assoc.
    - rewrite !app_length, le_bytes_length. reflexivity.
  Qed.

  Lemma header30 h : length (h_magic h) = 4%nat -> length (h_version h) = 3%nat -> length (header_bytes h) = 30%nat.
  Proof using.
    intros M V. unfold header_bytes. rewrite !app_length, !le_bytes_length, M. cbn [length].
    destruct (h_version h) as [|? [|? [|? [|]]]]; try discriminate V. reflexivity.
  Qed.

  (** The final operations, from the chunk writes on. *)
  Lemma written_layout w parts old : fw_at image w parts ->
    let chunks := map (fun p => WWrite (image p)) parts ++ [WWrite []] in
    let start := WWrite (write_header c o) :: chunks ++ [WWrite (footer_bytes (fw_footer w c timer))] in
    let patch := [WSeek 16; WWrite (le_bytes 8 (fw_footer_offset w))] in
    let stamp := [WSeek (fw_elapsed_slot w c); WWrite (le_bytes 16 elapsed)] in
    written old start = unpatched parts ++ skipn (length (unpatched parts)) old /\
    written old (start ++ patch) = layout image c o timer 0 parts ++ skipn (length (unpatched parts)) old /\
    written old (start ++ patch ++ stamp) =
      layout image c o timer elapsed parts ++ skipn (length (unpatched parts)) old.
  Proof using.
    intros A chunks start patch stamp.
    destruct (fw_footer_layout w parts A) as (EF&EO&ES).
    assert (S0 : out_run (old, O) start =
      (unpatched parts ++ skipn (length (unpatched parts)) old, length (unpatched parts))).
    { unfold start, chunks. rewrite EF, map_WWrite.
      replace (WWrite (write_header c o) ::
        (map WWrite (map image parts) ++ [WWrite []]) ++ [WWrite (footer_bytes (layout_footer image c timer 0 parts))])
        with (map WWrite (write_header c o :: (map image parts ++ [[]]) ++ [footer_bytes (layout_footer image c timer 0 parts)]))
        by (cbn [map]; rewrite !map_app; reflexivity).
      pose proof (out_run_writes (write_header c o :: (map image parts ++ [[]]) ++
        [footer_bytes (layout_footer image c timer 0 parts)]) old []) as W.
      cbn [length app] in W. rewrite skipn_O in W. rewrite W. cbn [concat].
      rewrite !concat_app. cbn [concat]. rewrite !app_nil_r. reflexivity. }
    set (rest := skipn (length (unpatched parts)) old) in *. clearbody rest.
    destruct (header_split 0) as (hp&hq&H0&Hall&Hl).
    destruct (footer_split 0 parts) as (fp&fq&F0&Fall&Fl).
    assert (S1 : forall q, fst (out_run (unpatched parts ++ rest, q) patch) = layout image c o timer 0 parts ++ rest).
    { intros q. unfold patch.
      rewrite (out_seek_write (unpatched parts ++ rest) 16 hp (le_bytes 8 0)
        (hq ++ layout_body image parts ++ footer_bytes (layout_footer image c timer 0 parts) ++ rest)
        (le_bytes 8 (fw_footer_offset w))).
      - unfold layout, layout_header. rewrite (Hall (30 + _)), EO. now rewrite <- !app_assoc.
      - unfold unpatched, write_header. rewrite H0. now rewrite <- !app_assoc.
      - now rewrite !le_bytes_length.
      - discriminate.
      - rewrite Hl. reflexivity. }
    assert (S2 : forall q, fst (out_run (layout image c o timer 0 parts ++ rest, q) stamp) =
      layout image c o timer elapsed parts ++ rest).
    { intros q. unfold stamp.
      set (hb := header_bytes (layout_header image c o parts)).
      assert (Hb : length hb = 30%nat) by (unfold hb; now apply header30).
      assert (LF : forall e, layout image c o timer e parts = (hb ++ layout_body image parts ++ fp) ++ le_bytes 16 e ++ fq).
      { intros e. unfold layout. fold hb. rewrite (Fall e). now rewrite <- !app_assoc. }
      rewrite (out_seek_write _ (fw_elapsed_slot w c) (hb ++ layout_body image parts ++ fp) (le_bytes 16 0)
        (fq ++ rest) (le_bytes 16 elapsed)).
      - rewrite (LF elapsed). now rewrite <- !app_assoc.
      - rewrite (LF 0). now rewrite <- !app_assoc.
      - now rewrite !le_bytes_length.
      - discriminate.
      - rewrite ES, !app_length, Hb. lia. }
    unfold written. split; [|split].
    - now rewrite S0.
    - rewrite out_run_app, S0. apply S1.
    - rewrite !out_run_app, S0.
      pose proof (S1 (length (unpatched parts))) as P1.
      destruct (out_run (unpatched parts ++ rest, length (unpatched parts)) patch) as [ct q]. cbn [fst] in P1.
      rewrite P1. apply S2.
  Qed.

  Lemma unpatched_length parts : length (unpatched parts) = length (layout image c o timer elapsed parts).
  Proof using.
    unfold unpatched, layout, write_header. rewrite !app_length. rewrite !header30 by reflexivity.
    destruct (footer_split elapsed parts) as (fp&fq&_&F&_). rewrite !F, !app_length, !le_bytes_length. reflexivity.
  Qed.
End Layout.

(** Everything about a successful encoding. *)
Lemma input_size_length input : input_size input = length (delivered input).
Proof.
  induction input as [|e input IH]; [reflexivity|].
  unfold delivered in *. cbn [input_size fold_right map concat]. rewrite app_length, <- IH.
  destruct e; reflexivity.
Qed.

Lemma encode_layout dbg cd o c timer elapsed good image view input xs :
  codec_ok cd good image view -> usable o -> readable o input ->
  Forall is_byte (delivered input) -> records_of (delivered input) = xs ->
  N.of_nat (length xs) < 2 ^ 60 ->
  (forall parts, partition (records_per_chunk o) xs parts -> Forall good parts) ->
  exists parts w,
    partition (records_per_chunk o) xs parts /\ fw_at image w parts /\
    encode dbg cd o c timer elapsed input =
      (WWrite (write_header c o) :: (map (fun p => WWrite (image p)) parts ++ [WWrite []]) ++
        [WWrite (footer_bytes (fw_footer w c timer));
         WSeek 16; WWrite (le_bytes 8 (fw_footer_offset w));
         WSeek (fw_elapsed_slot w c); WWrite (le_bytes 16 elapsed)], Ok tt).
Proof.
  intros OK U R F E B G. unfold encode.
  destruct (encode_loop_ok dbg cd o good image view OK U (S (S (input_size input))) (cd_new cd) (fw_new input) [] xs)
    as (parts&w&P&EL&A); try assumption.
  - repeat split.
  - reflexivity.
  - rewrite input_size_length. pose proof (records_of_length (delivered input)). rewrite E in *. lia.
  - exists parts, w. rewrite EL. split; [assumption|]. split; [assumption|reflexivity].
Qed.

Lemma encode_file dbg cd o c timer elapsed good image view input xs :
  codec_ok cd good image view -> usable o -> readable o input ->
  Forall is_byte (delivered input) -> records_of (delivered input) = xs ->
  N.of_nat (length xs) < 2 ^ 60 ->
  (forall parts, partition (records_per_chunk o) xs parts -> Forall good parts) ->
  exists parts ops, partition (records_per_chunk o) xs parts /\
    encode dbg cd o c timer elapsed input = (ops, Ok tt) /\
    forall old, written old ops =
      layout image c o timer elapsed parts ++ skipn (length (layout image c o timer elapsed parts)) old.
Proof.
  intros OK U R F E B G.
  destruct (encode_layout dbg cd o c timer elapsed good image view input xs OK U R F E B G) as (parts&w&P&A&EN).
  exists parts. eexists. split; [assumption|]. split; [exact EN|]. intros old.
  pose proof (written_layout image c o timer elapsed w parts old A) as (_&_&W).
  rewrite (unpatched_length image c o timer elapsed) in W. rewrite <- W.
  f_equal. cbn [app]. f_equal. rewrite <- !app_assoc. reflexivity.
Qed.

(** ** Reading a laid-out file *)
Lemma index_of_nth image parts : forall p l i part, nth_error parts i = Some part ->
  nth_error (index_of image p l parts) i =
  Some (mkCf (p + N.of_nat (length (concat (map image (firstn i parts)))))
             (l + N.of_nat (length (concat (firstn i parts))))).
Proof.
  induction parts as [|x parts IH]; intros p l [|i] part E; try discriminate E; cbn [nth_error index_of].
  - cbn [firstn map concat length]. now rewrite !N.add_0_r.
  - cbn [nth_error] in E. rewrite (IH _ _ i part E). cbn [firstn map concat]. rewrite !app_length.
    do 2 f_equal; lia.
Qed.

Lemma firstn_snoc {A} (l : list A) i x : nth_error l i = Some x -> firstn (S i) l = firstn i l ++ [x].
Proof.
  revert i. induction l as [|y l IH]; intros [|i] E; try discriminate E; cbn [nth_error] in E.
  - injection E as ->. reflexivity.
  - change (firstn (S (S i)) (y :: l)) with (y :: firstn (S i) l). rewrite (IH i E). reflexivity.
Qed.

Lemma concat_firstn_length {A} (l : list (list A)) i : (length (concat (firstn i l)) <= length (concat l))%nat.
Proof. rewrite <- (firstn_skipn i l) at 2. rewrite concat_app, app_length. lia. Qed.

Section Read.
  Variables (image : list N -> list N) (c : config) (o : chunk_option) (timer : times) (elapsed : N).
  Variable parts : list (list N).
  Hypothesis VC : valid_config c.
  Hypothesis VO : valid_option o.
  Hypothesis VT : valid_times timer.
  Hypothesis VE : elapsed < 2 ^ 128.
  Hypothesis NE : parts <> [].
  Hypothesis SIZE : N.of_nat (length (layout image c o timer elapsed parts)) < 2 ^ 63.
  Hypothesis RECS : N.of_nat (length (concat parts)) < 2 ^ 60.

  Let lh := layout_header image c o parts.
  Let lf := layout_footer image c timer elapsed parts.
  Let lb := layout_body image parts.
  Let meta := mkMeta lh lf.

  Lemma layout_sizes : length (header_bytes lh) = 30%nat /\
    N.of_nat (length lb) + footer_size lf + 30 < 2 ^ 63 /\
    16 * N.of_nat (length parts) < 2 ^ 63 /\
    N.of_nat (length (footer_bytes lf)) = footer_size lf.
  Proof using All.
    assert (H30 : length (header_bytes lh) = 30%nat) by (unfold lh; now apply header30).
    assert (FS : N.of_nat (length (footer_bytes lf)) = footer_size lf).
    { unfold footer_bytes, footer_size. rewrite !app_length, !le_bytes_length, times_bytes_length.
      unfold lf at 3. cbn [layout_footer f_times]. rewrite (proj1 VT).
      pose proof (index_bytes_length (f_index lf)). pose proof (config_bytes_length (f_config lf)). lia. }
    unfold layout in SIZE. fold lh lf lb in SIZE. rewrite !app_length, H30 in SIZE.
    split; [assumption|]. split; [lia|]. split; [|assumption].
    unfold footer_size in FS. unfold lf at 2 in FS. cbn [layout_footer f_index] in FS.
    rewrite index_of_length in FS. lia.
  Qed.

  Lemma layout_valid : valid_header lh /\ valid_footer lf /\ f_index lf <> [].
  Proof using All.
    destruct layout_sizes as (H30&SZ&N16&FS).
    change (2 ^ 63) with 9223372036854775808 in *. change (2 ^ 60) with 1152921504606846976 in *.
    split; [|split].
    - split; [reflexivity|]. split; [repeat constructor; vm_compute; reflexivity|]. split; [assumption|].
      split; [|split; [reflexivity|repeat constructor; vm_compute; reflexivity]].
      unfold lh. cbn [layout_header h_footer_offset]. fold lb. unfold is_u64, two64. lia.
    - unfold valid_footer, lf. cbn [layout_footer f_records f_chunks f_index f_config f_elapsed f_times f_crc].
      split; [unfold is_u64, two64; lia|]. split; [now rewrite index_of_length|].
      split; [change (2 ^ 59) with 576460752303423488; lia|].
      split; [|split; [assumption|split; [assumption|split; [assumption|unfold is_u32, two32; lia]]]].
      apply Forall_nth. intros i d Hi. rewrite index_of_length in Hi.
      destruct (nth_error parts i) as [part|] eqn:E; [|apply nth_error_None in E; lia].
      pose proof (index_of_nth image parts 30 0 i part E) as I.
      apply (nth_error_nth _ _ d) in I. rewrite I. cbn [cf_physical cf_logical].
      pose proof (concat_firstn_length (map image parts) i). pose proof (concat_firstn_length parts i).
      rewrite firstn_map in *. fold (layout_body image parts) in *. fold lb in H.
      unfold is_u64, two64. lia.
    - unfold lf. cbn [layout_footer f_index]. destruct parts; [contradiction|discriminate].
  Qed.

  Lemma layout_open dbg rest : open_file dbg (layout image c o timer elapsed parts ++ rest) = Ok meta.
  Proof using All.
    destruct layout_valid as (VH&VF&NI). destruct layout_sizes as (H30&SZ&N16&FS).
    unfold open_file, layout. fold lh lf lb. rewrite <- !app_assoc.
    rewrite header_round_trip by assumption. cbn [rbind].
    replace (drop_n (h_footer_offset lh) (header_bytes lh ++ lb ++ footer_bytes lf ++ rest)) with (footer_bytes lf ++ rest).
    2:{ rewrite app_assoc, drop_n_app; [reflexivity|]. rewrite app_length, H30. unfold lh. cbn [layout_header h_footer_offset]. fold lb. lia. }
    replace (h_scheme lh) with (config_scheme (f_config lf)) by reflexivity.
    rewrite footer_round_trip by assumption. cbn [rbind].
    unfold lf at 1. cbn [layout_footer f_chunks]. change isize_limit with (2 ^ 63).
    replace (2 ^ 63 <=? 16 * N.of_nat (length parts)) with false by lia. reflexivity.
  Qed.

  Lemma layout_chunk i part : nth_error parts i = Some part ->
    nth_error (f_index lf) i =
      Some (mkCf (30 + N.of_nat (length (concat (map image (firstn i parts))))) (N.of_nat (length (concat (firstn i parts))))) /\
    next_physical meta i = 30 + N.of_nat (length (concat (map image (firstn (S i) parts)))) /\
    next_logical meta i = N.of_nat (length (concat (firstn (S i) parts))) /\
    (forall dbg, chunk_size dbg meta i = Ok (N.of_nat (length (image part)))) /\
    (forall dbg, chunk_records dbg meta i = Ok (N.of_nat (length part))).
  Proof using All.
    intros E.
    assert (I : nth_error (f_index lf) i = Some (mkCf (30 + N.of_nat (length (concat (map image (firstn i parts)))))
      (N.of_nat (length (concat (firstn i parts)))))).
    { unfold lf. cbn [layout_footer f_index]. now rewrite (index_of_nth image parts 30 0 i part E). }
    assert (NX : next_physical meta i = 30 + N.of_nat (length (concat (map image (firstn (S i) parts)))) /\
      next_logical meta i = N.of_nat (length (concat (firstn (S i) parts)))).
    { unfold next_physical, next_logical. cbn [meta m_header m_footer].
      destruct (nth_error parts (S i)) as [q|] eqn:EQ.
      - unfold lf. cbn [layout_footer f_index]. rewrite (index_of_nth image parts 30 0 (S i) q EQ).
        cbn [cf_physical cf_logical]. rewrite N.add_0_l. split; reflexivity.
      - assert (L : (length parts <= S i)%nat) by (now apply nth_error_None).
        replace (nth_error (f_index lf) (S i)) with (@None chunk_footer).
        2:{ symmetry. apply nth_error_None. unfold lf. cbn [layout_footer f_index]. now rewrite index_of_length. }
        rewrite firstn_all2 by assumption. split; reflexivity. }
    destruct NX as [NX1 NX2]. split; [assumption|]. split; [assumption|]. split; [assumption|].
    unfold chunk_size, chunk_records. cbn [meta m_footer]. rewrite I, NX1, NX2. cbn [cf_physical cf_logical].
    rewrite (firstn_snoc parts i part E), map_app, !concat_app, !app_length. cbn [map concat]. rewrite !app_nil_r.
    unfold sub_u64. split; intros dbg.
    - match goal with |- context [if ?b then _ else _] => replace b with false by lia end. f_equal. lia.
    - match goal with |- context [if ?b then _ else _] => replace b with false by lia end. f_equal. lia.
  Qed.

  Lemma layout_read dbg cd good view i part rest :
    codec_ok cd good image view -> nth_error parts i = Some part ->
    part <> [] -> Forall is_u64 part -> good part ->
    read_chunk dbg cd meta (layout image c o timer elapsed parts ++ rest) i = Ok (view part).
  Proof using All.
    intros OK E NP U G. destruct (layout_chunk i part E) as (I&_&_&CS&CR).
    destruct layout_sizes as (H30&SZ&N16&FS).
    unfold read_chunk. cbn [meta m_footer]. rewrite I, CR, CS. cbn [rbind cf_physical].
    assert (LE : (length (image part) <= length lb)%nat).
    { unfold lb, layout_body. pose proof (concat_firstn_length (map image parts) (S i)) as H.
      rewrite firstn_map, (firstn_snoc parts i part E), map_app, concat_app, app_length in H.
      cbn [map concat] in H. rewrite app_nil_r in H. lia. }
    change isize_limit with (2 ^ 63).
    replace (2 ^ 63 <=? N.of_nat (length (image part))) with false by lia.
    unfold layout. fold lh lf lb. rewrite <- !app_assoc.
    assert (LB : lb = concat (map image (firstn i parts)) ++ image part ++ concat (map image (skipn (S i) parts))).
    { unfold lb, layout_body. rewrite <- (firstn_skipn (S i) parts) at 1.
      rewrite map_app, concat_app, (firstn_snoc parts i part E), map_app, concat_app.
      cbn [map concat]. now rewrite app_nil_r, <- app_assoc. }
    rewrite LB, <- !app_assoc, (app_assoc (header_bytes lh)), drop_n_app.
    2:{ rewrite app_length, H30. lia. }
    rewrite read_n_app by reflexivity.
    assert (LP : N.of_nat (length part) < 2 ^ 60).
    { pose proof (concat_firstn_length parts (S i)) as H.
      rewrite (firstn_snoc parts i part E), concat_app, app_length in H. cbn [concat] in H. rewrite app_nil_r in H. lia. }
    destruct (OK (cd_new cd) part NP U LP G) as (_&_&_&_&_&D). exact D.
  Qed.

  Lemma layout_totals dbg :
    total_file_size meta = N.of_nat (length (layout image c o timer elapsed parts)) /\
    total_chunk_size dbg meta = Ok (N.of_nat (length (concat (map image parts)))).
  Proof using All.
    destruct layout_sizes as (H30&SZ&N16&FS). split.
    - unfold total_file_size. cbn [meta m_header m_footer]. rewrite <- FS. unfold layout. fold lh lf lb.
      rewrite !app_length, H30. unfold lh. cbn [layout_header h_footer_offset]. fold lb. lia.
    - unfold total_chunk_size. cbn [meta m_footer m_header].
      replace (match f_index lf with [] => h_footer_offset lh | f :: _ => cf_physical f end) with 30.
      2:{ unfold lf. cbn [layout_footer f_index]. destruct parts; [contradiction|reflexivity]. }
      unfold lh. cbn [layout_header h_footer_offset]. unfold sub_u64, layout_body.
      match goal with |- context [if ?b then _ else _] => replace b with false by lia end. f_equal. lia.
  Qed.
End Read.

(** An index without chunks. *)
Lemma layout_empty_panics image c o timer elapsed dbg rest :
  valid_config c -> valid_option o -> valid_times timer -> elapsed < 2 ^ 128 ->
  open_file dbg (layout image c o timer elapsed [] ++ rest) = Panic.
Proof.
  intros VC VO VT VE. unfold open_file, layout. rewrite <- !app_assoc.
  rewrite header_round_trip.
  2:{ split; [reflexivity|]. split; [repeat constructor; vm_compute; reflexivity|]. split; [assumption|].
      split; [vm_compute; reflexivity|]. split; [reflexivity|repeat constructor; vm_compute; reflexivity]. }
  cbn [rbind].
  change (h_footer_offset (layout_header image c o [])) with 30.
  change (layout_body image []) with (@nil N). cbn [app].
  rewrite drop_n_app by (now rewrite header30).
  change (h_scheme (layout_header image c o [])) with (config_scheme (f_config (layout_footer image c timer elapsed []))).
  rewrite FormatSummary.no_chunks_panics; [reflexivity| |reflexivity].
  unfold valid_footer. cbn [layout_footer f_records f_chunks f_index f_config f_elapsed f_times f_crc].
  split; [vm_compute; reflexivity|]. split; [reflexivity|]. split; [vm_compute; reflexivity|].
  split; [constructor|]. split; [assumption|]. split; [assumption|]. split; [assumption|]. vm_compute; reflexivity.
Qed.

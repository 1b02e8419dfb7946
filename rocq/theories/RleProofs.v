(** Run-length coding: proofs. *)
From Verif Require Import Base Xor RawSpec Rle WordProofs.

(** All runs, the open one included. *)
Definition runs (c : rle) : list field :=
  rl_fields c ++ (if rl_run c =? 0 then [] else [(rl_run c, rl_prev c)]).

Definition run_ok (f : field) : Prop := 1 <= fst f <= 255 /\ is_u64 (snd f).

(** The invariant of a compressor holding [xs]. *)
Record rinv (c : rle) (s : held) : Prop := {
  ri_count : rl_count c = N.of_nat (length (rl_fields c));
  ri_runs : Forall run_ok (runs c);
  ri_expand : expand (runs c) = records s;
  ri_in : rl_in c = 8 * N.of_nat (length (records s));
  ri_open : open_run s = negb (rl_run c =? 0)
}.

Lemma expand_app a b : expand (a ++ b) = expand a ++ expand b.
Proof. unfold expand. apply flat_map_app. Qed.

Lemma expand_cons f fs : expand (f :: fs) = repeat (snd f) (N.to_nat (fst f)) ++ expand fs.
Proof. reflexivity. Qed.

Lemma expand_one f : expand [f] = repeat (snd f) (N.to_nat (fst f)).
Proof. rewrite expand_cons. apply app_nil_r. Qed.

Lemma repeat_snoc {A} (x : A) n : repeat x (S n) = repeat x n ++ [x].
Proof. induction n as [|n IH]; auto. cbn [repeat app] in *. f_equal. exact IH. Qed.

Lemma greedy_app_one fs f g :
  greedy (fs ++ [f]) -> (snd f <> snd g \/ fst f = 255) -> greedy (fs ++ [f; g]).
Proof.
  induction fs as [|h fs IH]; intros HG Hd.
  - cbn in *. tauto.
  - destruct fs as [|h2 fs].
    + cbn in *. tauto.
    + destruct HG as [H1 H2]. split; [exact H1|]. apply IH; auto.
Qed.

(** Only the value of the last run matters for being greedy. *)
Lemma greedy_last fs f g : greedy (fs ++ [f]) -> snd f = snd g -> greedy (fs ++ [g]).
Proof.
  induction fs as [|h fs IH]; intros HG E.
  - cbn. auto.
  - destruct fs as [|h2 fs].
    + cbn in *. rewrite <- E. tauto.
    + destruct HG as [H1 H2]. split; [exact H1|]. apply IH; auto.
Qed.

Lemma greedy_prefix fs gs : greedy (fs ++ gs) -> greedy fs.
Proof.
  induction fs as [|h fs IH]; intros HG; [exact I|].
  destruct fs as [|h2 fs]; [cbn; auto|]. destruct HG as [H1 H2]. split; [exact H1|]. apply IH, H2.
Qed.

(** One loop iteration. *)
Lemma push_runs c v : rl_run c <> 0 -> Forall run_ok (runs c) -> is_u64 v ->
  let c' := rle_push c v in
  rl_run c' <> 0 /\ Forall run_ok (runs c') /\ expand (runs c') = expand (runs c) ++ [v] /\
  rl_in c' = rl_in c /\
  (rl_count c = N.of_nat (length (rl_fields c)) -> rl_count c' = N.of_nat (length (rl_fields c'))) /\
  (greedy (runs c) -> greedy (runs c')).
Proof.
  intros Hr HF Hv c'. unfold runs in HF. replace (rl_run c =? 0) with false in HF by lia.
  apply Forall_app in HF as [HF1 HF2]. inversion HF2 as [|? ? Hl _]; subst. destruct Hl as [Hl1 Hl2].
  cbn [fst snd] in Hl1, Hl2.
  unfold c', rle_push. destruct ((rl_prev c =? v) && (rl_run c <? 255)) eqn:E.
  - apply andb_true_iff in E as [E1 E2]. apply N.eqb_eq in E1. unfold runs. cbn [rl_run rl_fields rl_prev rl_in rl_count].
    replace (rl_run c =? 0) with false by lia. replace (rl_run c + 1 =? 0) with false by lia.
    split; [lia|]. split.
    { apply Forall_app. split; auto. constructor; auto. split; cbn [fst snd]; [lia|auto]. }
    split.
    { rewrite !expand_app, !expand_one. cbn [fst snd]. rewrite <- app_assoc. f_equal.
      rewrite <- E1. replace (N.to_nat (rl_run c + 1)) with (S (N.to_nat (rl_run c))) by lia.
      apply repeat_snoc. }
    split; auto. split; auto. intros HG. eapply greedy_last; [exact HG|reflexivity].
  - unfold runs, rle_add_field. cbn [rl_run rl_fields rl_prev rl_in rl_count].
    replace (rl_run c =? 0) with false by lia. change (1 =? 0) with false. cbn iota.
    split; [lia|]. split.
    { apply Forall_app. split; [apply Forall_app; split; auto|]. constructor; auto. split; cbn [fst snd]; [lia|auto]. }
    split.
    { rewrite !expand_app, !expand_one. cbn [fst snd]. reflexivity. }
    split; auto. split. { intros ->. rewrite app_length. cbn [length]. lia. }
    intros HG. rewrite <- app_assoc. apply greedy_app_one; auto. cbn [fst snd].
    apply andb_false_iff in E as [E|E]; [left|right]; lia.
Qed.

Lemma pushes_runs xs c : rl_run c <> 0 -> Forall run_ok (runs c) -> Forall is_u64 xs ->
  let c' := fold_left rle_push xs c in
  rl_run c' <> 0 /\ Forall run_ok (runs c') /\ expand (runs c') = expand (runs c) ++ xs /\
  rl_in c' = rl_in c /\
  (rl_count c = N.of_nat (length (rl_fields c)) -> rl_count c' = N.of_nat (length (rl_fields c'))) /\
  (greedy (runs c) -> greedy (runs c')).
Proof.
  revert c. induction xs as [|x xs IH]; intros c Hr HF HX.
  - cbn. rewrite app_nil_r. repeat split; auto.
  - inversion HX; subst. destruct (push_runs c x) as (R1 & R2 & R3 & R4 & R5 & R6); auto.
    destruct (IH (rle_push c x)) as (S1 & S2 & S3 & S4 & S5 & S6); auto.
    cbn [fold_left]. repeat split; auto.
    + rewrite S3, R3, <- app_assoc. reflexivity.
    + rewrite S4. exact R4.
Qed.

Lemma append_ok c s xs : rinv c s -> Forall is_u64 xs ->
  match rle_append c xs with
  | Ok c' => negb (open_run s) && (length xs =? 0)%nat = false /\ rinv c' (mkHeld (records s ++ xs) true) /\
             (greedy (runs c) -> (rl_run c = 0 -> rl_fields c = []) -> greedy (runs c'))
  | Err _ => False
  | Panic => negb (open_run s) && (length xs =? 0)%nat = true
  end.
Proof.
  intros [I1 I2 I3 I4 I5] HX. unfold rle_append. rewrite I5.
  destruct (rl_run c =? 0) eqn:E0; cbn [negb andb].
  - destruct xs as [|x xs]; [reflexivity|]. inversion HX; subst.
    set (c0 := mkRle (rl_in c) (rl_count c) (rl_fields c) x 1).
    assert (R0 : runs c0 = rl_fields c ++ [(1, x)]) by reflexivity.
    unfold runs in I2, I3. rewrite E0, app_nil_r in I2, I3.
    assert (F0 : Forall run_ok (runs c0)).
    { rewrite R0. apply Forall_app; split; auto. constructor; auto. split; cbn; [lia|auto]. }
    destruct (pushes_runs xs c0) as (S1 & S2 & S3 & S4 & S5 & S6); auto; [cbn; lia|].
    split; [reflexivity|]. split.
    + constructor; cbn [rl_count rl_fields rl_in rl_run records open_run]; auto.
      * transitivity (expand (runs (fold_left rle_push xs c0))); [reflexivity|].
        rewrite S3, R0, expand_app, I3, <- app_assoc. reflexivity.
      * rewrite S4. unfold c0. cbn [rl_in]. rewrite I4, app_length. lia.
      * destruct (N.eqb_spec (rl_run (fold_left rle_push xs c0)) 0); [contradiction|reflexivity].
    + intros _ HE. change (greedy (runs (fold_left rle_push xs c0))). apply S6.
      rewrite R0, HE by lia. cbn. auto.
  - destruct (pushes_runs xs c) as (S1 & S2 & S3 & S4 & S5 & S6); auto; [lia|].
    split; [reflexivity|]. split.
    + constructor; cbn [rl_count rl_fields rl_in rl_run records open_run]; auto.
      * transitivity (expand (runs (fold_left rle_push xs c))); [reflexivity|]. rewrite S3, <- I3. reflexivity.
      * rewrite S4, I4, app_length. lia.
      * destruct (N.eqb_spec (rl_run (fold_left rle_push xs c)) 0); [contradiction|reflexivity].
    + intros HG _. apply S6, HG.
Qed.

Lemma reset_ok c : rinv (rle_reset c) (mkHeld [] false).
Proof. constructor; cbn; auto. Qed.

Lemma new_ok : rinv rle_new (mkHeld [] false).
Proof. constructor; cbn; auto. Qed.

Lemma prepare_ok c s : rinv c s -> rinv (rle_prepare c) (mkHeld (records s) false) /\
  runs (rle_prepare c) = runs c /\ rl_fields (rle_prepare c) = runs c.
Proof.
  intros [I1 I2 I3 I4 I5]. unfold rle_prepare. destruct (rl_run c =? 0) eqn:E0.
  - assert (R : runs c = rl_fields c) by (unfold runs; rewrite E0; apply app_nil_r).
    split; [|split; auto]. constructor; auto. cbn [open_run]. rewrite E0. reflexivity.
  - assert (R : runs c = rl_fields c ++ [(rl_run c, rl_prev c)]) by (unfold runs; rewrite E0; reflexivity).
    rewrite R in *. unfold rle_add_field. cbn [rl_in rl_count rl_fields rl_prev rl_run].
    split; [|split; auto].
    + constructor; cbn [rl_in rl_count rl_fields rl_prev rl_run records open_run]; auto.
      * rewrite app_length. cbn [length]. lia.
      * unfold runs. cbn [rl_in rl_count rl_fields rl_prev rl_run]. change (0 =? 0) with true. rewrite app_nil_r. auto.
      * unfold runs. cbn [rl_in rl_count rl_fields rl_prev rl_run]. change (0 =? 0) with true. rewrite app_nil_r. auto.
    + unfold runs. cbn [rl_in rl_count rl_fields rl_prev rl_run]. change (0 =? 0) with true. apply app_nil_r.
Qed.

(** The rewind loop on the runs, last first. *)
Definition total (fs : list field) : N := N.of_nat (length (expand fs)).

Lemma total_app a b : total (a ++ b) = total a + total b.
Proof. unfold total. rewrite expand_app, app_length. lia. Qed.
Lemma total_one f : total [f] = fst f.
Proof. unfold total. rewrite expand_one, repeat_length. lia. Qed.
Lemma total_rev fs : total (rev fs) = total fs.
Proof.
  induction fs as [|f fs IH]; auto. cbn [rev]. rewrite total_app, IH, total_one.
  change (f :: fs) with ([f] ++ fs). rewrite total_app, total_one. lia.
Qed.

(** [gs] holds the runs in order; the loop visits them from the end. *)
Lemma rewind_loop gs n k : Forall run_ok gs ->
  match rle_rewind_loop (rev gs) n k with
  | (rem, vis, Some (run, v)) =>
      rem = 0 /\ n < total gs /\
      exists pre c0 post, gs = pre ++ (c0, v) :: post /\ vis = k + N.of_nat (length post) + 1 /\
        run = c0 - (n - total post) /\ total post <= n /\ n - total post < c0
  | (rem, vis, None) => total gs <= n /\ rem = n - total gs /\ vis = k + N.of_nat (length gs)
  end.
Proof.
  revert n k. induction gs as [|g gs IH] using rev_ind; intros n k HF.
  - cbn [rev rle_rewind_loop]. unfold total. cbn [expand flat_map length]. lia.
  - apply Forall_app in HF as [HF1 HF2]. inversion HF2 as [|? ? Hg _]; subst. destruct g as [c v].
    destruct Hg as [Hg _]. cbn [fst] in Hg.
    rewrite rev_unit. cbn [rle_rewind_loop]. destruct (N.leb_spec c n).
    + specialize (IH (n - c) (k + 1) HF1).
      destruct (rle_rewind_loop (rev gs) (n - c) (k + 1)) as [[rem vis] [[run v']|]].
      * destruct IH as (-> & H1 & pre & c0 & post & -> & -> & Hr & H2 & H3).
        split; auto. rewrite total_app, total_one. cbn [fst]. split; [lia|].
        exists pre, c0, (post ++ [(c, v)]). rewrite <- app_assoc. cbn [app].
        rewrite app_length, total_app, total_one. cbn [length fst].
        split; [reflexivity|]. split; [lia|]. split; [|split]; try lia.
      * destruct IH as (H1 & -> & ->). rewrite total_app, total_one, app_length. cbn [length fst]. lia.
    + split; auto. rewrite total_app, total_one. cbn [fst]. split; [lia|].
      exists gs, c, []. cbn [length]. unfold total. cbn [expand flat_map length].
      split; auto. split; [lia|]. split; [|split]; lia.
Qed.

Lemma rewind_ok c s n : rinv c s ->
  let '(b, c') := rle_rewind c n in
  exists s', held_step s (ORewind n) = Some (s', Some b) /\ rinv c' s' /\
    (greedy (runs c) -> greedy (runs c')) /\
    (rl_run c' = 0 -> rl_run c <> 0 -> rl_fields c' = []) /\ (rl_run c = 0 -> c' = c).
Proof.
  intros [I1 I2 I3 I4 I5]. unfold rle_rewind. cbn [held_step]. rewrite I5.
  destruct (rl_run c =? 0) eqn:E0.
  { cbn [negb andb]. exists s. split; auto. split; [constructor; auto; rewrite E0; auto|]. split; auto. split; [lia|auto]. }
  assert (R : runs c = rl_fields c ++ [(rl_run c, rl_prev c)]) by (unfold runs; rewrite E0; reflexivity).
  cbn [negb andb].
  assert (HL : total (runs c) = N.of_nat (length (records s))) by (unfold total; rewrite I3; auto).
  pose proof (rewind_loop (runs c) n 0 I2) as HW. rewrite R, rev_unit in HW.
  set (L := rle_rewind_loop _ n 0) in HW |- *. clearbody L.
  destruct L as [[rem vis] [[run v]|]].
  - destruct HW as (-> & Hn & pre & c0 & post & Eg & -> & -> & Hp & Hlt).
    rewrite <- R in Hn. rewrite HL in Hn.
    change (0 =? 0) with true. cbn [negb].
    replace (n <=? N.of_nat (length (records s))) with true by lia.
    replace (n <? N.of_nat (length (records s))) with true by lia.
    assert (HF : firstn (length (rl_fields c) - N.to_nat (0 + N.of_nat (length post) + 1 - 1)) (rl_fields c) = pre).
    { pose proof (f_equal (@length _) Eg) as EL. rewrite !app_length in EL. cbn [length] in EL.
      replace (length (rl_fields c) - N.to_nat (0 + N.of_nat (length post) + 1 - 1))%nat with (length pre) by lia.
      assert (EF : firstn (length pre) (rl_fields c ++ [(rl_run c, rl_prev c)]) = firstn (length pre) (rl_fields c)).
      { rewrite firstn_app. replace (length pre - length (rl_fields c))%nat with 0%nat by lia.
        cbn [firstn]. apply app_nil_r. }
      rewrite <- EF, Eg, firstn_app, Nat.sub_diag. cbn [firstn]. rewrite app_nil_r. apply firstn_all. }
    rewrite HF. clear HF. exists (mkHeld (firstn (N.to_nat (N.of_nat (length (records s)) - n)) (records s)) true).
    split; auto.
    set (run := c0 - (n - total post)).
    assert (Hrd : c0 - (n - total post) = run) by reflexivity. clearbody run.
    assert (Hrun : 1 <= run) by lia.
    rewrite R, Eg in I2. apply Forall_app in I2 as [F1 F2]. apply Forall_inv in F2. destruct F2 as [Fc Fv].
    cbn [fst snd] in Fc, Fv.
    set (c' := mkRle _ _ _ _ _).
    assert (R' : runs c' = pre ++ [(run, v)]).
    { unfold runs, c'. cbn [rl_run rl_fields rl_prev]. replace (run =? 0) with false by lia. reflexivity. }
    assert (EX : expand (runs c') = firstn (N.to_nat (N.of_nat (length (records s)) - n)) (records s)).
    { assert (EL : records s = expand pre ++ repeat v (N.to_nat run) ++ repeat v (N.to_nat (c0 - run)) ++ expand post).
      { rewrite <- I3, R, Eg, expand_app, expand_cons. cbn [fst snd]. f_equal. rewrite !app_assoc. f_equal.
        rewrite <- repeat_app. f_equal. lia. }
      rewrite R', expand_app, expand_one. cbn [fst snd]. rewrite EL, !app_length, !repeat_length.
      rewrite app_assoc, firstn_app.
      replace (N.to_nat _ - length (expand pre ++ repeat v (N.to_nat run)))%nat with 0%nat.
      2:{ rewrite app_length, repeat_length. unfold total in *. lia. }
      cbn [firstn]. rewrite app_nil_r. symmetry. apply firstn_all2.
      rewrite app_length, repeat_length. unfold total in *. lia. }
    split; [|split; [|split]].
    + constructor; auto.
      * unfold c'. cbn [rl_count rl_fields]. pose proof (f_equal (@length _) Eg) as EL.
        rewrite !app_length in EL. cbn [length] in EL. lia.
      * rewrite R'. apply Forall_app. split; auto. constructor; auto. split; cbn [fst snd]; auto. lia.
      * unfold c'. cbn [rl_in records]. rewrite firstn_length. lia.
      * unfold c'. cbn [rl_run open_run]. replace (run =? 0) with false by lia. reflexivity.
    + intros HG. rewrite R'. rewrite R, Eg in HG.
      change ((c0, v) :: post) with ([(c0, v)] ++ post) in HG. rewrite app_assoc in HG. apply greedy_prefix in HG.
      eapply greedy_last; [exact HG|reflexivity].
    + intros HZ. unfold c' in HZ. cbn [rl_run] in HZ. lia.
    + lia.
  - destruct HW as (H1 & -> & ->). rewrite <- R, HL in H1 |- *.
    destruct (N.eqb_spec (n - N.of_nat (length (records s))) 0) as [Ez|Ez]; cbn [negb].
    + replace (n <=? N.of_nat (length (records s))) with true by lia.
      replace (n <? N.of_nat (length (records s))) with false by lia.
      replace (N.to_nat (N.of_nat (length (records s)) - n)) with 0%nat by lia. cbn [firstn].
      exists (mkHeld [] false). split; auto.
      replace (length (rl_fields c) - _)%nat with 0%nat.
      2:{ rewrite R, app_length. cbn [length]. lia. }
      cbn [firstn].
      split; [|split; [|split]].
      * constructor; cbn [rl_count rl_fields rl_in records open_run rl_run]; auto.
        -- rewrite R, app_length. cbn [length]. lia.
        -- constructor.
        -- cbn [length]. lia.
      * intros _. exact I.
      * intros _ _. reflexivity.
      * lia.
    + replace (n <=? N.of_nat (length (records s))) with false by lia.
      exists s. split; auto. split; [constructor; auto; rewrite E0; auto|]. split; auto. split; [lia|auto].
Qed.

(** ** Histories *)
Lemma step_ok c s o : rinv c s -> op_u64 o ->
  match rle_step c o with
  | Ok (c', a) => exists s', held_step s o = Some (s', a) /\ rinv c' s' /\
      (~ is_prepare o -> greedy (runs c) -> (rl_run c = 0 -> rl_fields c = []) ->
       greedy (runs c') /\ (rl_run c' = 0 -> rl_fields c' = []))
  | Err _ => False
  | Panic => held_step s o = None
  end.
Proof.
  intros HI HU. destruct o as [xs|xs|n| |]; cbn [rle_step op_u64] in *.
  - pose proof (append_ok _ _ xs (reset_ok c) HU) as H. unfold rle_compress.
    destruct (rle_append (rle_reset c) xs) as [c'|e|]; cbn [rbind]; auto.
    + destruct H as (Hn & H & HG). destruct xs as [|x xs]; [discriminate|].
      exists (mkHeld (x :: xs) true). split; [reflexivity|]. split; [exact H|].
      intros _ _ _. split; [apply HG; [exact I|reflexivity]|].
      intros HZ. destruct H. cbn in ri_open0. rewrite HZ in ri_open0. discriminate.
    + destruct xs; [reflexivity|discriminate].
  - pose proof (append_ok _ _ xs HI HU) as H. cbn [held_step].
    destruct (rle_append c xs) as [c'|e|]; cbn [rbind]; auto.
    + destruct H as (-> & H & HG). eexists. split; [reflexivity|]. split; [exact H|].
      intros _ G0 G1. split; [apply HG; auto|].
      intros HZ. destruct H. cbn in ri_open0. rewrite HZ in ri_open0. discriminate.
    + rewrite H. reflexivity.
  - pose proof (rewind_ok c s n HI) as H. destruct (rle_rewind c n) as [b c'].
    destruct H as (s' & E & H & HG & HZ & HC). exists s'. split; auto. split; auto.
    intros _ G0 G1. split; auto. intros Hr. destruct (N.eq_dec (rl_run c) 0) as [Ec|Ec]; auto.
    rewrite HC by auto. auto.
  - destruct (prepare_ok c s HI) as (H & _ & _). eexists. split; [reflexivity|]. split; [exact H|]. intros HP. destruct HP. exact I.
  - eexists. split; [reflexivity|]. split; [apply reset_ok|]. intros _ _ _. split; [exact I|reflexivity].
Qed.

Lemma run_ok_all os c s : rinv c s -> Forall op_u64 os ->
  match rle_run c os with
  | Ok (c', l) => exists s', held_run s os = Some (s', l) /\ rinv c' s' /\
      (Forall (fun o => ~ is_prepare o) os -> greedy (runs c) -> (rl_run c = 0 -> rl_fields c = []) ->
       greedy (runs c'))
  | Err _ => False
  | Panic => held_run s os = None
  end.
Proof.
  revert c s. induction os as [|o os IH]; intros c s HI HU.
  - cbn. eauto.
  - inversion HU; subst. pose proof (step_ok c s o HI ltac:(auto)) as HS. cbn [rle_run held_run].
    destruct (rle_step c o) as [[c1 a]|e|]; cbn [rbind]; auto.
    + destruct HS as (s1 & -> & HI1 & HG1). specialize (IH c1 s1 HI1 ltac:(auto)).
      destruct (rle_run c1 os) as [[c2 l]|e|]; cbn [rbind]; auto.
      * destruct IH as (s2 & -> & HI2 & HG2). exists s2. split; auto. split; auto.
        intros HP G0 G1. inversion HP; subst. destruct (HG1 ltac:(auto) G0 G1). apply HG2; auto.
      * rewrite IH. reflexivity.
    + rewrite HS. reflexivity.
Qed.

(** ** Decoding *)
Lemma take_exact_app k a b : length a = k -> take_exact k (a ++ b) = Ok (a, b).
Proof.
  intros <-. unfold take_exact. rewrite app_length.
  replace (length a + length b <? length a)%nat with false by lia.
  rewrite firstn_app, Nat.sub_diag, firstn_all, skipn_app, Nat.sub_diag, skipn_all. cbn. rewrite app_nil_r. reflexivity.
Qed.

Lemma field_bytes_length f : length (field_bytes f) = 9%nat.
Proof. unfold field_bytes. rewrite app_length, !le_bytes_length. reflexivity. Qed.

Lemma field_bytes_parse f : run_ok f ->
  nth 0 (field_bytes f) 0 = fst f /\ le_val (skipn 1 (field_bytes f)) = snd f.
Proof.
  intros [H1 H2]. unfold field_bytes. cbn [le_bytes app nth skipn]. split.
  - apply N.mod_small. lia.
  - change (le_val (le_bytes 8 (snd f)) = snd f). apply le_val_bytes. exact H2.
Qed.

Lemma read_fields_ok fs fuel rest : (length fs <= fuel)%nat -> Forall run_ok fs ->
  rle_read_fields fuel (N.of_nat (length fs)) (flat_map field_bytes fs ++ rest) = (Ok (expand fs), rest).
Proof.
  revert fuel. induction fs as [|f fs IH]; intros fuel Hf HF.
  - destruct fuel; reflexivity.
  - destruct fuel as [|fuel]; [cbn in Hf; lia|]. inversion HF; subst. cbn [rle_read_fields].
    replace (N.of_nat (length (f :: fs)) =? 0) with false by (cbn [length]; lia).
    cbn [flat_map]. rewrite <- app_assoc, take_exact_app by apply field_bytes_length.
    destruct (field_bytes_parse f) as [-> ->]; auto.
    replace (N.of_nat (length (f :: fs)) - 1) with (N.of_nat (length fs)) by (cbn [length]; lia).
    rewrite IH; auto. cbn in Hf. lia.
Qed.

Lemma iter_collect_ok dbg fs fuel rest : (length fs <= fuel)%nat -> Forall run_ok fs ->
  rle_iter_collect dbg fuel (N.of_nat (length fs)) (flat_map field_bytes fs ++ rest) = Ok (expand fs).
Proof.
  revert fuel. induction fs as [|f fs IH]; intros fuel Hf HF.
  - destruct fuel; reflexivity.
  - destruct fuel as [|fuel]; [cbn in Hf; lia|]. inversion HF as [|? ? Hr HF']; subst. cbn [rle_iter_collect].
    replace (N.of_nat (length (f :: fs)) =? 0) with false by (cbn [length]; lia).
    cbn [flat_map]. rewrite <- app_assoc, take_exact_app by apply field_bytes_length. cbn [rbind].
    destruct (field_bytes_parse f) as [-> ->]; auto. destruct Hr as [Hr _].
    replace (fst f =? 0) with false by lia. rewrite andb_false_r.
    replace (N.of_nat (length (f :: fs)) - 1) with (N.of_nat (length fs)) by (cbn [length]; lia).
    rewrite IH; auto. cbn in Hf. lia.
Qed.

Lemma runs_le fs : Forall run_ok fs -> N.of_nat (length fs) <= N.of_nat (length (expand fs)).
Proof.
  induction 1 as [|f fs [Hf _] HF IH]; [reflexivity|].
  rewrite expand_cons, app_length, repeat_length. cbn [length]. lia.
Qed.

Lemma flat_fields_length fs : length (flat_map field_bytes fs) = (9 * length fs)%nat.
Proof.
  induction fs as [|f fs IH]; auto. cbn [flat_map]. rewrite app_length, IH, field_bytes_length. cbn [length]. lia.
Qed.

(** The reader on the chunk of a compressor satisfying the invariant. *)
Lemma rle_decode c s : rinv c s -> N.of_nat (length (records s)) < two64 ->
  let bs := rle_buffers (rle_prepare c) in
  bs = le_bytes 8 (N.of_nat (length (runs c))) ++ flat_map field_bytes (runs c) /\
  exists r, rle_open bs = Ok r /\ fst (rle_decompress r) = Ok (records s) /\
    rr_cache (snd (rle_decompress r)) = Some (records s) /\
    (forall dbg, rle_iter dbg r = Ok (records s)).
Proof.
  intros HI HL bs. destruct (prepare_ok c s HI) as ([P1 P2 P3 P4 P5] & PR & PF).
  assert (EB : bs = le_bytes 8 (N.of_nat (length (runs c))) ++ flat_map field_bytes (runs c)).
  { unfold bs, rle_buffers. rewrite P1, PF. reflexivity. }
  split; [exact EB|].
  rewrite PR in P2, P3. cbn [records] in P3.
  pose proof (runs_le _ P2) as HN. rewrite P3 in HN.
  rewrite EB. unfold rle_open. rewrite take_exact_app by apply le_bytes_length. cbn [rbind].
  rewrite le_val_bytes by (change (256 ^ N.of_nat 8) with two64; lia).
  eexists. split; [reflexivity|]. unfold rle_decompress, rle_iter. cbn [rr_cache rr_fields rr_cursor].
  pose proof (flat_fields_length (runs c)) as HLen.
  pose proof (read_fields_ok (runs c) (S (length (flat_map field_bytes (runs c)))) [] ltac:(lia) P2) as HR.
  rewrite app_nil_r in HR. rewrite HR. rewrite P3.
  split; [reflexivity|]. split; [reflexivity|]. intros dbg.
  pose proof (iter_collect_ok dbg (runs c) (S (length (flat_map field_bytes (runs c)))) [] ltac:(lia) P2) as HC.
  rewrite app_nil_r in HC. rewrite HC, P3. reflexivity.
Qed.

(** ** Greedy run lists are determined by what they stand for *)
Lemma expand_nil fs : Forall run_ok fs -> expand fs = [] -> fs = [].
Proof.
  intros HF E. pose proof (runs_le fs HF) as H. rewrite E in H. destruct fs; auto. cbn [length] in H. lia.
Qed.

Lemma expand_hd f fs : run_ok f -> hd_error (expand (f :: fs)) = Some (snd f).
Proof.
  intros [[H _] _]. rewrite expand_cons. destruct (N.to_nat (fst f)) as [|k] eqn:E; [lia|]. reflexivity.
Qed.

Lemma repeat_tail {A} (v : A) a b x y : (a <= b)%nat -> repeat v a ++ x = repeat v b ++ y -> x = repeat v (b - a) ++ y.
Proof.
  revert b. induction a as [|a IH]; intros b Hab E.
  - rewrite Nat.sub_0_r. exact E.
  - destruct b as [|b]; [lia|]. cbn [repeat app] in E. injection E as E. cbn [Nat.sub]. apply IH; auto. lia.
Qed.

Lemma greedy_head_le c1 v fs c2 y : greedy ((c1, v) :: fs) -> Forall run_ok ((c1, v) :: fs) -> c2 <= 255 ->
  c1 <= c2 -> repeat v (N.to_nat c1) ++ expand fs = repeat v (N.to_nat c2) ++ y -> c1 = c2.
Proof.
  intros HG HF H2 Hle E. apply repeat_tail in E; [|lia].
  destruct (N.eq_dec c1 c2) as [|Hne]; auto. exfalso.
  destruct (N.to_nat c2 - N.to_nat c1)%nat as [|k] eqn:Ek; [lia|].
  inversion HF as [|? ? Hf HF']; subst. destruct fs as [|g fs]; [discriminate E|].
  inversion HF' as [|? ? Hg _]; subst. pose proof (expand_hd g fs Hg) as Eh. rewrite E in Eh.
  cbn in Eh. injection Eh as Eh. destruct HG as [HG _]. cbn [fst snd] in HG. destruct HG as [HG|HG]; [congruence|lia].
Qed.

Lemma greedy_unique fs gs : Forall run_ok fs -> Forall run_ok gs -> greedy fs -> greedy gs ->
  expand fs = expand gs -> fs = gs.
Proof.
  revert gs. induction fs as [|[c1 v1] fs IH]; intros gs HF HG GF GG E.
  - symmetry in E. apply expand_nil in E; auto.
  - destruct gs as [|[c2 v2] gs].
    + apply expand_nil in E; auto.
    + inversion HF as [|? ? Hf HF']; subst. inversion HG as [|? ? Hg HG']; subst.
      assert (Ev : v1 = v2).
      { pose proof (expand_hd _ fs Hf) as E1. pose proof (expand_hd _ gs Hg) as E2. rewrite E in E1. cbn in *. congruence. }
      subst v2. rewrite !expand_cons in E. cbn [fst snd] in E.
      assert (Ec : c1 = c2).
      { destruct Hf as [Hf _], Hg as [Hg _]. cbn [fst] in *. destruct (N.le_ge_cases c1 c2).
        - eapply greedy_head_le; eauto. lia.
        - symmetry. symmetry in E. eapply greedy_head_le; eauto. lia. }
      subst c2. apply app_inv_head in E. f_equal. apply IH; auto.
      * destruct GF. auto.
      * destruct GG. auto.
Qed.

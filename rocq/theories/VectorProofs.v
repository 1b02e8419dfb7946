From Verif Require Import Base WordProofs BitIO Xor F64 F64Proofs F64SumProofs Format FormatProofs File FileSpec FileProofs Query QuerySpec QueryProofs
  Expr ExprSpec ExprProofs AggregateProofs.

(** ** Groups *)
Lemma concat_len k (vs : list (list N)) : Forall (fun v => length v = k) vs -> length (concat vs) = (k * length vs)%nat.
Proof. induction 1 as [|v vs E F IH]; cbn [concat length]; [lia|]. rewrite app_length, IH, E. lia. Qed.
Lemma grouped_total k xs : (0 < k)%nat -> exists vs rest, grouped k xs vs rest.
Proof.
  intros K. remember (length xs) as n eqn:E. revert xs E. induction n as [n IH] using lt_wf_ind. intros xs E.
  destruct (Nat.lt_ge_cases (length xs) k) as [L|L].
  - exists [], xs. split; [reflexivity|]. split; [constructor|exact L].
  - destruct (IH (n - k)%nat ltac:(lia) (skipn k xs)) as (vs & rest & C & F & R); [rewrite skipn_length; lia|].
    exists (firstn k xs :: vs), rest. split; [|split; [constructor; [rewrite firstn_length; lia|exact F]|exact R]].
    cbn [concat]. rewrite <- app_assoc, <- C. symmetry. apply firstn_skipn.
Qed.
Lemma grouped_fun k xs vs rest ws rest' : grouped k xs vs rest -> grouped k xs ws rest' -> vs = ws /\ rest = rest'.
Proof.
  revert xs ws. induction vs as [|v vs IH]; intros xs ws (C & F & R) (C' & F' & R').
  - destruct ws as [|w ws]; [cbn in C, C'; split; congruence|]. exfalso. inversion_clear F'. subst xs. apply (f_equal (@length N)) in C'.
    cbn [concat] in C'. rewrite !app_length in C'. cbn in C'. lia.
  - destruct ws as [|w ws].
    + exfalso. inversion_clear F. subst xs. apply (f_equal (@length N)) in C'. cbn [concat] in C'. rewrite !app_length in C'. cbn in C'. lia.
    + inversion_clear F. inversion_clear F'. subst xs. cbn [concat] in C'. rewrite <- !app_assoc in C'.
      assert (E : v = w /\ concat vs ++ rest = concat ws ++ rest').
      { assert (LE : length v = length w) by congruence. clear - C' LE. revert w LE C'. induction v as [|x v IH]; intros [|y w] LE C'; try discriminate LE; [auto|].
        cbn in C'. injection C' as -> C'. injection LE as LE. destruct (IH w LE C') as [-> ->]. auto. }
      destruct E as [-> E]. destruct (IH (concat vs ++ rest) ws) as [-> ->]; repeat split; auto.
Qed.
Lemma grouped_mod k xs vs rest : grouped k xs vs rest -> (Nat.modulo (length xs) k = length rest)%nat.
Proof.
  intros (-> & F & R). rewrite app_length, (concat_len k) by exact F. rewrite Nat.add_comm, Nat.mul_comm, Nat.mod_add by lia. now apply Nat.mod_small.
Qed.
Lemma grouped_app k xs vs ys ws rest : grouped k xs vs [] -> grouped k ys ws rest -> grouped k (xs ++ ys) (vs ++ ws) rest.
Proof.
  intros (C & F & _) (C' & F' & R). split; [|split; [apply Forall_app; auto|exact R]]. rewrite concat_app, <- app_assoc, <- C'. rewrite C, app_nil_r. reflexivity.
Qed.

Lemma combine_prefix {A B} (v : list A) more (w : list B) : length v = length w -> combine (v ++ more) w = combine v w.
Proof.
  revert w. induction v as [|x v IH]; intros [|y w] L; try discriminate L; [destruct more; reflexivity|]. cbn. f_equal. apply IH. now injection L.
Qed.
Lemma distance_prefix neg v more t : length v = length t -> squared_distance neg (v ++ more) t = squared_distance neg v t.
Proof. intros L. unfold squared_distance. now rewrite combine_prefix. Qed.
Lemma dot_prefix neg v more t : length v = length t -> dot neg (v ++ more) t = dot neg v t.
Proof. intros L. unfold dot. now rewrite combine_prefix. Qed.

(** ** Nearest neighbour *)
Lemma fle_nan_l x : fle S754_nan x = false.
Proof. reflexivity. Qed.
Lemma nearest_snoc neg vs target r v : nearest neg vs target r ->
  let d := squared_distance neg v target in
  nearest neg (vs ++ [v]) target (if fle d (k_distance r) then mkKnn (N.of_nat (length vs)) d else r).
Proof.
  intros H d. assert (NR : k_distance r <> S754_nan) by (destruct H as [[_ ->]|(i & w & _ & _ & N & _)]; [discriminate|exact N]).
  destruct (is_nan d) eqn:ND.
  - apply is_nan_iff in ND. rewrite ND, fle_nan_l.
    destruct H as [[F ->]|(i & w & E & -> & N & H)].
    + left. split; [|reflexivity]. apply Forall_app. auto.
    + right. exists i, w. assert (LI : (i < length vs)%nat) by (apply nth_error_Some; congruence). split; [now rewrite nth_error_app1|]. split; [reflexivity|]. split; [exact N|].
      intros j u EU NU. destruct (Nat.lt_ge_cases j (length vs)) as [LJ|LJ]; [rewrite nth_error_app1 in EU by lia; exact (H j u EU NU)|].
      rewrite nth_error_app2 in EU by lia. destruct (j - length vs)%nat as [|[|]] eqn:EJ; try discriminate EU. cbn in EU. injection EU as <-. now destruct NU.
  - assert (DN : d <> S754_nan) by (intros E; rewrite E in ND; discriminate ND). clear ND.
    destruct (fle d (k_distance r)) eqn:LE.
    + right. exists (length vs), v. split; [rewrite nth_error_app2, Nat.sub_diag by lia; reflexivity|]. split; [reflexivity|]. split; [exact DN|]. cbn [k_distance].
      intros j u EU NU. destruct (Nat.lt_ge_cases j (length vs)) as [LJ|LJ].
      * assert (X : (j <=? length vs)%nat = true) by (apply Nat.leb_le; lia). rewrite X. clear X. rewrite nth_error_app1 in EU by lia.
        apply fle_key; [exact DN|exact NU|]. apply fle_key in LE; [|exact DN|exact NR]. eapply key_le_trans; [exact LE|].
        destruct H as [[F ->]|(i & w & E & -> & N & H)].
        -- exfalso. apply NU. rewrite Forall_forall in F. apply F. eapply nth_error_In; eauto.
        -- specialize (H j u EU NU). destruct (j <=? i)%nat.
           ++ apply fle_key in H; auto.
           ++ apply flt_key in H; auto. destruct (key_le_total (key (k_distance (mkKnn (N.of_nat i) (squared_distance neg w target)))) (key (squared_distance neg u target))); tauto.
      * rewrite nth_error_app2 in EU by lia. destruct (j - length vs)%nat as [|[|]] eqn:EJ; try discriminate EU. cbn in EU. injection EU as <-.
        assert (X : (j <=? length vs)%nat = true) by (apply Nat.leb_le; lia). rewrite X. apply fle_key; auto. apply key_le_refl.
    + assert (LT : flt (k_distance r) d = true).
      { apply flt_key; auto. intros K. apply fle_key in K; auto. congruence. }
      destruct H as [[F ->]|(i & w & E & -> & N & H)].
      * exfalso. apply flt_key in LT; auto. apply LT. cbn [k_distance]. pose proof (key_inf d false DN) as K. exact K.
      * right. exists i, w. assert (LI : (i < length vs)%nat) by (apply nth_error_Some; congruence). split; [now rewrite nth_error_app1|]. split; [reflexivity|]. split; [exact N|].
        intros j u EU NU. destruct (Nat.lt_ge_cases j (length vs)) as [LJ|LJ]; [rewrite nth_error_app1 in EU by lia; exact (H j u EU NU)|].
        rewrite nth_error_app2 in EU by lia. destruct (j - length vs)%nat as [|[|]] eqn:EJ; try discriminate EU. cbn in EU. injection EU as <-.
        assert (X : (j <=? i)%nat = false) by (apply Nat.leb_gt; lia). rewrite X. exact LT.
Qed.

Section Knn.
  Variable dbg neg : bool.
  Variable target : list N.
  Hypothesis TL : target <> [].
  Let L := length target.

  Lemma knn_vectors_ok ex first part : forall fuel vs rest done seen best r partial,
    reads neg ex first r part -> part = done ++ concat vs ++ rest -> Forall (fun v => length v = L) vs -> (length rest < L)%nat ->
    nearest neg seen target best -> (length part - length done <= fuel)%nat ->
    exists partial' best', nearest neg (seen ++ vs) target best' /\
      knn_vectors fuel ex (N.of_nat (length part)) target r (N.of_nat (length done)) (N.of_nat (length seen)) partial best 0 =
        Some (Ok (N.of_nat (length (seen ++ vs)), partial', best', match rest with [] => 0 | _ => N.of_nat (L - length rest) end)).
  Proof using TL.
    assert (L0 : (0 < L)%nat) by (unfold L; destruct target; [congruence|cbn; lia]).
    induction fuel as [|fuel IH]; intros vs rest done seen best r partial R E F RL NB FU.
    - (* nothing left *)
      assert (LP : length part = (length done + length (concat vs) + length rest)%nat) by (rewrite E, !app_length; lia).
      destruct vs as [|v vs]; [|exfalso; inversion_clear F; cbn [concat] in LP; rewrite app_length in LP; lia].
      destruct rest as [|x rest]; [|exfalso; cbn [length] in LP; lia].
      exists partial, best. rewrite !app_nil_r. split; [exact NB|]. cbn [knn_vectors].
      cbn [concat length] in LP. destruct (N.of_nat (length done) <? N.of_nat (length part)) eqn:X; [apply N.ltb_lt in X; lia|]. reflexivity.
    - assert (LP : length part = (length done + length (concat vs) + length rest)%nat) by (rewrite E, !app_length; lia).
      destruct vs as [|v vs].
      + destruct rest as [|x rest].
        * exists partial, best. rewrite !app_nil_r. split; [exact NB|]. cbn [knn_vectors].
          cbn [concat length] in LP. destruct (N.of_nat (length done) <? N.of_nat (length part)) eqn:X; [apply N.ltb_lt in X; lia|]. reflexivity.
        * cbn [concat app] in *. cbn [knn_vectors].
          destruct (N.of_nat (length done) <? N.of_nat (length part)) eqn:X; [|apply N.ltb_ge in X; cbn [length] in LP; lia]. clear X.
          set (k := N.min (N.of_nat (length target)) (N.of_nat (length part) - N.of_nat (length done))).
          assert (KE : k = N.of_nat (length (x :: rest))) by (unfold k; fold L; cbn [length] in *; lia).
          destruct (reads_distance neg ex first r part (N.of_nat (length done)) (firstn (N.to_nat k) target) R) as (s & -> & R').
          destruct (k =? N.of_nat (length target)) eqn:X; [apply N.eqb_eq in X; fold L in X; lia|]. clear X.
          eexists _, best. split; [now rewrite app_nil_r|]. rewrite app_nil_r.
          assert (DONE : N.of_nat (length done) + k = N.of_nat (length part)) by (cbn [length] in *; lia).
          rewrite DONE. replace (N.of_nat (length target) - k) with (N.of_nat (L - length (x :: rest))) by (fold L; lia).
          destruct fuel; cbn [knn_vectors]; rewrite N.ltb_irrefl; reflexivity.
      + inversion_clear F as [|? ? LV F']. cbn [concat] in *. rewrite app_length in LP. cbn [knn_vectors].
        destruct (N.of_nat (length done) <? N.of_nat (length part)) eqn:X; [|apply N.ltb_ge in X; lia]. clear X.
        assert (KE : N.min (N.of_nat (length target)) (N.of_nat (length part) - N.of_nat (length done)) = N.of_nat (length target)) by (fold L; lia).
        rewrite KE, N.eqb_refl, Nat2N.id, firstn_all.
        destruct (reads_distance neg ex first r part (N.of_nat (length done)) target R) as (s & -> & R').
        assert (SK : squared_distance neg (skipn (N.to_nat (N.of_nat (length done))) part) target = squared_distance neg v target).
        { rewrite Nat2N.id, E, skipn_app, skipn_all, Nat.sub_diag. cbn [skipn app]. rewrite <- app_assoc. now apply distance_prefix. }
        rewrite SK. set (d := squared_distance neg v target).
        destruct (IH vs rest (done ++ v) (seen ++ [v]) (if fle d (k_distance best) then mkKnn (N.of_nat (length seen)) d else best) s d) as (partial' & best' & NB' & EQ); auto.
        * rewrite E, <- !app_assoc. reflexivity.
        * exact (nearest_snoc neg seen target best v NB).
        * rewrite app_length. lia.
        * exists partial', best'. rewrite <- app_assoc in NB'. split; [exact NB'|].
          rewrite !app_length in EQ. cbn [length] in EQ.
          replace (N.of_nat (length done) + N.of_nat (length target)) with (N.of_nat (length done + length v)) by (rewrite LV; fold L; lia).
          replace (N.of_nat (length seen) + 1) with (N.of_nat (length seen + 1)) by lia. rewrite EQ. rewrite app_length. cbn [length].
          replace (length seen + 1 + length vs)%nat with (length seen + S (length vs))%nat by lia. reflexivity.
  Qed.

  Variable d : decoder.
  Variable parts : list (list N).
  Hypothesis HD : holds dbg neg d parts.
  Hypothesis AL : aligned L parts.

  Lemma knn_chunks_ok fuel : (length (concat parts) <= fuel)%nat -> forall n i seen best partial vs rest, (i + n = length parts)%nat ->
    grouped L (concat (skipn i parts)) vs rest -> nearest neg seen target best ->
    exists best', knn_chunks dbg fuel d target (N.of_nat (length seen)) partial best 0 (seq i n) = Some (Ok best') /\
      nearest neg (seen ++ vs) target best'.
  Proof using TL HD AL.
    intros FU. assert (L0 : (0 < L)%nat) by (unfold L; destruct target; [congruence|cbn; lia]).
    induction n as [|n IH]; intros i seen best partial vs rest LE G NB.
    - exists best. rewrite skipn_all2 in G by lia. destruct G as (C & F & R). destruct vs as [|v vs]; [now rewrite app_nil_r|].
      exfalso. inversion_clear F. apply (f_equal (@length N)) in C. cbn [concat] in C. rewrite !app_length in C. cbn in C. lia.
    - destruct (nth_error parts i) as [part|] eqn:EP; [|apply nth_error_None in EP; lia].
      pose proof HD as (_ & _ & HC). destruct (HC i part EP) as (_ & _ & _ & CR & r & RD & RR).
      destruct (grouped_total L part L0) as (pvs & prest & GP). pose proof GP as (PC & PF & PR).
      assert (LPF : (length part <= fuel)%nat).
      { pose proof (first_bound parts i part EP). lia. }
      destruct (knn_vectors_ok (d_ex d) (first_of parts i) part fuel pvs prest [] seen best r partial RR) as (partial' & best' & NB' & EQ); auto.
      { cbn [length]. lia. }
      cbn [seq knn_chunks]. rewrite CR, RD. cbn [N.eqb]. change (N.of_nat (length (@nil N))) with 0 in EQ. rewrite EQ.
      rewrite (skipn_cons parts i part EP) in G. cbn [concat] in G.
      destruct (Nat.eq_dec n 0) as [->|NZ].
      + (* the last chunk *)
        rewrite skipn_all2 in G by lia. cbn [concat] in G. rewrite app_nil_r in G. destruct (grouped_fun _ _ _ _ _ _ GP G) as [-> ->].
        exists best'. split; [reflexivity|exact NB'].
      + assert (RE : prest = []).
        { pose proof (AL i part EP ltac:(lia)) as M. rewrite (grouped_mod _ _ _ _ GP) in M. destruct prest; [reflexivity|discriminate M]. }
        subst prest. destruct (grouped_total L (concat (skipn (S i) parts)) L0) as (ws & wrest & GW).
        pose proof (grouped_app _ _ _ _ _ _ GP GW) as GA. destruct (grouped_fun _ _ _ _ _ _ G GA) as [-> ->].
        destruct (IH (S i) (seen ++ pvs) best' partial' ws wrest ltac:(lia) GW NB') as (best2 & K & NB2).
        exists best2. rewrite app_assoc. auto.
  Qed.

  Lemma knn1_ok fuel vs rest : (length (concat parts) <= fuel)%nat -> grouped L (concat parts) vs rest ->
    exists r, knn1 dbg fuel d target = Some (Ok r) /\ nearest neg vs target r.
  Proof using TL HD AL.
    intros FU G. unfold knn1. pose proof HD as (NC & _ & _). rewrite NC, Nat2N.id.
    destruct (knn_chunks_ok fuel FU (length parts) 0%nat [] (mkKnn (two64 - 1) (f_inf false)) f_zero vs rest eq_refl G) as (best & K & NB).
    - left. split; [constructor|reflexivity].
    - exists best. auto.
  Qed.
End Knn.

Lemma knn1_empty_target dbg neg d parts fuel : holds dbg neg d parts -> parts <> [] -> knn1 dbg fuel d [] = None.
Proof.
  intros (NC & _ & HC) NE. destruct parts as [|p ps]; [congruence|]. destruct (HC 0%nat p eq_refl) as (PN & _ & _ & CR & r & RD & RR).
  unfold knn1. rewrite NC. cbn [length]. rewrite Nat2N.id. cbn [seq knn_chunks]. rewrite CR, RD. cbn [N.eqb].
  assert (G : forall fuel r index partial best, reads neg (d_ex d) (first_of (p :: ps) 0) r p ->
    knn_vectors fuel (d_ex d) (N.of_nat (length p)) [] r 0 index partial best 0 = None).
  { clear - PN. assert (X : 0 <? N.of_nat (length p) = true) by (destruct p; [congruence|apply N.ltb_lt; cbn; lia]).
    induction fuel as [|fuel IH]; intros r index partial best R; cbn [knn_vectors]; rewrite X; [reflexivity|].
    cbn [length]. change (N.of_nat 0) with 0. rewrite N.min_0_l, N.eqb_refl.
    destruct (reads_distance neg (d_ex d) _ r p 0 (firstn (N.to_nat 0) []) R) as (s & -> & R'). apply IH, R'. }
  now rewrite (G fuel r 0 f_zero _ RR).
Qed.

(** ** Matrix product *)
Lemma groups_grouped k : (0 < k)%nat -> forall vs xs rest, grouped k xs vs rest -> groups (length vs) k xs = vs.
Proof.
  intros K. induction vs as [|v vs IH]; intros xs rest (C & F & R); [reflexivity|]. inversion_clear F as [|? ? LV F']. cbn [length groups]. subst xs. cbn [concat].
  rewrite <- app_assoc, firstn_app, skipn_app, LV, Nat.sub_diag. cbn [firstn skipn]. rewrite firstn_all2, skipn_all2, app_nil_r by lia. cbn [app]. f_equal.
  apply (IH _ rest). split; [reflexivity|]. auto.
Qed.
Lemma chunks_exact_ok k xs vs rest : 0 < k -> grouped (N.to_nat k) xs vs rest -> chunks_exact k xs = vs.
Proof.
  intros K G. unfold chunks_exact. pose proof G as (C & F & R).
  assert (length xs / N.to_nat k = length vs)%nat as ->.
  { rewrite C, app_length, (concat_len (N.to_nat k)) by exact F. rewrite Nat.add_comm, Nat.mul_comm, Nat.div_add by lia. rewrite Nat.div_small by lia. lia. }
  eapply groups_grouped; [lia|exact G].
Qed.

Section Matmul.
  Variable dbg neg : bool.
  Variable d : decoder.
  Variable parts : list (list N).
  Hypothesis HD : holds dbg neg d parts.
  Variables rows columns : N.
  Hypothesis RP : 0 < rows.
  Hypothesis CP : 0 < columns.
  Hypothesis SMALL : rows * columns < two64.
  Variable cols : list (list N).
  Hypothesis CL : Forall (fun c => length c = N.to_nat columns) cols.
  Hypothesis WHOLE : Forall (fun p => N.of_nat (length p) mod (rows * columns) = 0) parts.

  Lemma dots_ok first part row more off : skipn (N.to_nat off) part = row ++ more -> length row = N.to_nat columns ->
    forall cs r, Forall (fun c => length c = N.to_nat columns) cs -> reads neg (d_ex d) first r part ->
    exists s, dots (d_ex d) off cs r = (Ok (map (dot neg row) cs), s) /\ reads neg (d_ex d) first s part.
  Proof using.
    clear. intros E LR. induction cs as [|c cs IH]; intros r F R; [exists r; auto|]. inversion_clear F as [|? ? LC F']. cbn [dots map].
    destruct (reads_dot neg (d_ex d) first r part off c R) as (s & -> & R'). destruct (IH s F' R') as (t & -> & R2). exists t. cbn [rbind]. split; [|exact R2].
    rewrite E, dot_prefix by congruence. reflexivity.
  Qed.
  Lemma dot_rows_ok first part : forall vs more off r, skipn (N.to_nat off) part = concat vs ++ more -> Forall (fun v => length v = N.to_nat columns) vs ->
    reads neg (d_ex d) first r part ->
    exists s, dot_rows (d_ex d) off (length vs) columns cols r = (Ok (flat_map (fun row => map (dot neg row) cols) vs), s) /\ reads neg (d_ex d) first s part.
  Proof using CL.
    clear HD RP CP SMALL WHOLE. induction vs as [|v vs IH]; intros more off r E F R; [exists r; auto|]. inversion_clear F as [|? ? LV F']. cbn [length dot_rows flat_map concat] in *.
    rewrite <- app_assoc in E. destruct (dots_ok first part v _ off E LV cols r CL R) as (s & -> & R1).
    destruct (IH more (off + columns) s) as (t & -> & R2); auto; [|exists t; auto].
    replace (N.to_nat (off + columns)) with (N.to_nat columns + N.to_nat off)%nat by lia.
    assert (SK : forall a b (l : list N), skipn (a + b) l = skipn a (skipn b l)).
    { intros a b l. revert b. induction l as [|x l IHl]; intros b; [now rewrite !skipn_nil|]. destruct b; [now rewrite Nat.add_0_r|]. rewrite Nat.add_succ_r. cbn [skipn]. apply IHl. }
    rewrite SK, E, skipn_app, LV, Nat.sub_diag. rewrite skipn_all2 by lia. reflexivity.
  Qed.

  Let size := rows * columns.
  Let K := N.to_nat size.
  Lemma K_pos : (0 < K)%nat.
  Proof using RP CP. clear - RP CP. unfold K, size. nia. Qed.

  (** From chunk [i] with the first [o] records consumed. *)
  Lemma matmul_batch_ok : forall batch i part o r vs, nth_error parts i = Some part -> (o <= length part)%nat -> (Nat.modulo o K = 0)%nat ->
    reads neg (d_ex d) (first_of parts i) r part ->
    (batch * K = length (skipn o part) + length (concat (skipn (S i) parts)))%nat ->
    grouped (N.to_nat columns) (skipn o part ++ concat (skipn (S i) parts)) vs [] ->
    matmul_batch dbg d rows columns cols batch i (N.of_nat o) r = Ok (flat_map (fun row => map (dot neg row) cols) vs).
  Proof using HD RP CP SMALL CL WHOLE.
    pose proof K_pos as KP.
    assert (NE : forall j p, nth_error parts j = Some p -> p <> [] /\ (Nat.modulo (length p) K = 0)%nat).
    { intros j p E. destruct HD as (_ & _ & HC). destruct (HC j p E) as (PN & _). split; [exact PN|]. rewrite Forall_forall in WHOLE.
      specialize (WHOLE p (nth_error_In _ _ E)). fold size in WHOLE. apply N.mod_divide in WHOLE; [|unfold size; nia]. destruct WHOLE as (q & Q).
      replace (length p) with (N.to_nat q * K)%nat by (unfold K; lia). apply Nat.mod_mul. lia. }
    assert (STEP : forall batch i part o r vs, nth_error parts i = Some part -> (o < length part)%nat -> (Nat.modulo o K = 0)%nat ->
      (forall i part o r vs, nth_error parts i = Some part -> (o <= length part)%nat -> (Nat.modulo o K = 0)%nat ->
        reads neg (d_ex d) (first_of parts i) r part -> (batch * K = length (skipn o part) + length (concat (skipn (S i) parts)))%nat ->
        grouped (N.to_nat columns) (skipn o part ++ concat (skipn (S i) parts)) vs [] ->
        matmul_batch dbg d rows columns cols batch i (N.of_nat o) r = Ok (flat_map (fun row => map (dot neg row) cols) vs)) ->
      reads neg (d_ex d) (first_of parts i) r part ->
      (S batch * K = length (skipn o part) + length (concat (skipn (S i) parts)))%nat ->
      grouped (N.to_nat columns) (skipn o part ++ concat (skipn (S i) parts)) vs [] ->
      (let '(x, r) := dot_rows (d_ex d) (N.of_nat o) (N.to_nat rows) columns cols r in
       do xs <- x ; do ys <- matmul_batch dbg d rows columns cols batch i (N.of_nat o + (rows * columns) mod two64) r ; Ok (xs ++ ys)) =
      Ok (flat_map (fun row => map (dot neg row) cols) vs)).
    { intros batch i part o r vs EP OL OM IH R LEN G. destruct (NE i part EP) as [PN PM].
      assert (OK : (o + K <= length part)%nat).
      { apply Nat.mod_divide in OM; [|lia]. apply Nat.mod_divide in PM; [|lia]. destruct OM as (a & A), PM as (b & B). clear - A B OL KP. assert (a < b)%nat by nia. nia. }
      (* the rows of this matrix come first *)
      set (here := firstn K (skipn o part)). set (after := skipn K (skipn o part)).
      assert (HA : skipn o part = here ++ after) by (symmetry; apply firstn_skipn).
      assert (LH : length here = K) by (unfold here; rewrite firstn_length, skipn_length; lia).
      assert (CP' : (0 < N.to_nat columns)%nat) by lia.
      destruct (grouped_total (N.to_nat columns) here CP') as (hvs & hrest & GH).
      assert (HR : hrest = []).
      { pose proof (grouped_mod _ _ _ _ GH) as M. rewrite LH in M. replace K with (N.to_nat rows * N.to_nat columns)%nat in M by (unfold K, size; lia).
        rewrite Nat.mod_mul in M by lia. destruct hrest; [reflexivity|discriminate M]. }
      subst hrest.
      destruct (grouped_total (N.to_nat columns) (after ++ concat (skipn (S i) parts)) CP') as (avs & arest & GA).
      pose proof (grouped_app _ _ _ _ _ _ GH GA) as GG. rewrite app_assoc, <- HA in GG. destruct (grouped_fun _ _ _ _ _ _ G GG) as [-> EA]. subst arest.
      assert (NV : length hvs = N.to_nat rows).
      { destruct GH as (C & F & _). apply (f_equal (@length N)) in C. rewrite app_length, (concat_len (N.to_nat columns)), LH in C by exact F. cbn [length] in C.
        unfold K, size in C. nia. }
      destruct (dot_rows_ok (first_of parts i) part hvs after (N.of_nat o) r) as (s & DR & R'); auto.
      { rewrite Nat2N.id, HA. destruct GH as (C & _ & _). now rewrite app_nil_r in C; rewrite C at 1. }
      { now destruct GH as (_ & F & _). }
      rewrite NV in DR. rewrite DR. cbn [rbind]. rewrite N.mod_small by exact SMALL.
      replace (N.of_nat o + rows * columns) with (N.of_nat (o + K)) by (unfold K, size; lia).
      assert (AF : after = skipn (o + K) part).
      { unfold after. clear. generalize part. intros l. revert l. induction o as [|o IH]; intros l; [reflexivity|]. destruct l; [now rewrite !skipn_nil|]. cbn [skipn Nat.add]. apply IH. }
      rewrite (IH i part (o + K)%nat s avs); auto.
      - cbn [rbind]. now rewrite flat_map_app.
      - rewrite <- Nat.add_mod_idemp_l, OM by lia. cbn. apply Nat.mod_same. lia.
      - rewrite <- AF. rewrite HA in LEN. rewrite app_length in LEN. lia.
      - now rewrite <- AF. }
    induction batch as [|batch IH]; intros i part o r vs EP OL OM R LEN G.
    - assert (VN : vs = []).
      { destruct G as (C & F & _). destruct vs as [|v vs]; [reflexivity|]. exfalso. inversion_clear F. apply (f_equal (@length N)) in C. cbn [concat] in C. rewrite !app_length in C. cbn in C, LEN. lia. }
      subst vs. cbn [matmul_batch flat_map].
      assert (LAST : is_last_chunk (d_meta d) i = true).
      { unfold is_last_chunk. destruct HD as (NC & _ & _). rewrite NC. apply N.eqb_eq.
        assert (LI : (i < length parts)%nat) by (apply nth_error_Some; congruence).
        destruct (nth_error parts (S i)) as [p|] eqn:EN.
        - exfalso. destruct (NE (S i) p EN) as [PN _]. rewrite (skipn_cons parts (S i) p EN) in LEN. cbn [concat] in LEN. rewrite app_length in LEN. destruct p; [congruence|cbn in LEN; lia].
        - apply nth_error_None in EN. lia. }
      rewrite LAST. now rewrite andb_false_r.
    - cbn [matmul_batch]. pose proof HD as (_ & _ & HC). destruct (HC i part EP) as (_ & _ & _ & CR & _). rewrite CR. cbn [rbind].
      destruct (N.of_nat (length part) <=? N.of_nat o) eqn:X.
      + apply N.leb_le in X. assert (o = length part) by lia. subst o. rewrite skipn_all in LEN, G. cbn [length app] in LEN, G.
        destruct (nth_error parts (S i)) as [p|] eqn:EN.
        2:{ exfalso. apply nth_error_None in EN. rewrite skipn_all2 in LEN by lia. cbn in LEN. nia. }
        destruct (HC (S i) p EN) as (PN & _ & _ & _ & q & RD & RR). rewrite RD. cbn [rbind].
        rewrite (skipn_cons parts (S i) p EN) in LEN, G. cbn [concat] in LEN, G.
        apply (STEP batch (S i) p 0%nat q vs EN); auto.
        * destruct p; [congruence|cbn; lia].
        * now rewrite Nat.mod_0_l by lia.
        * change (skipn 0 p) with p. rewrite app_length in LEN. lia.
      + apply N.leb_gt in X. cbn [rbind]. apply (STEP batch i part o r vs EP); auto. lia.
  Qed.
End Matmul.

Lemma matmul_ok dbg neg d parts rows columns target_columns target rws cols : holds dbg neg d parts -> parts <> [] -> 0 < rows -> 0 < columns ->
  N.of_nat (length (concat parts)) < 2 ^ 60 -> Forall (fun p => N.of_nat (length p) mod (rows * columns) = 0) parts ->
  grouped (N.to_nat columns) (concat parts) rws [] -> grouped (N.to_nat columns) target cols [] -> N.of_nat (length cols) = target_columns ->
  8 * (N.of_nat (length rws) * target_columns) < 2 ^ 63 ->
  matmul dbg d target (columns, target_columns) (rows, columns) = Ok (flat_map (fun row => map (dot neg row) cols) rws).
Proof.
  intros HD NE RP CP SZ WH G GT TC CAP. unfold matmul. pose proof HD as (NC & NR & HC).
  destruct parts as [|p ps] eqn:EPS; [congruence|]. rewrite <- EPS in *.
  destruct (HC 0%nat p ltac:(now rewrite EPS)) as (PN & _ & _ & _ & r & RD & RR).
  set (size := rows * columns) in *. set (total := N.of_nat (length (concat parts))) in *.
  assert (DV : (size | total)).
  { unfold total. clear - WH RP CP. induction WH as [|q qs M F IH]; [now exists 0|]. cbn [concat]. rewrite app_length, Nat2N.inj_add. apply N.divide_add_r; [|exact IH].
    apply N.mod_divide in M; [exact M|unfold size; nia]. }
  assert (TP : 0 < total).
  { unfold total. rewrite EPS. cbn [concat]. rewrite app_length. destruct p; [congruence|cbn [length]; lia]. }
  assert (SP : 0 < size) by (unfold size; nia).
  assert (SS : size < two64).
  { destruct DV as (q & Q). change two64 with 18446744073709551616. change (2 ^ 60) with 1152921504606846976 in SZ. assert (0 < q) by nia. nia. }
  assert (MU : mul_usize dbg rows columns = Ok size).
  { unfold mul_usize. fold size. apply N.ltb_lt in SS. now rewrite SS. }
  rewrite MU. cbn [rbind].
  destruct (size =? 0) eqn:X; [apply N.eqb_eq in X; lia|]. clear X. rewrite N.eqb_refl, NR. fold total.
  assert (MZ : total mod size = 0) by (apply N.mod_divide; [lia|exact DV]). rewrite MZ. cbn [N.eqb negb orb].
  assert (BR : total / size * rows = N.of_nat (length rws)).
  { destruct DV as (q & Q). rewrite Q, N.div_mul by lia. destruct G as (C & F & _). apply (f_equal (@length N)) in C. rewrite app_length, (concat_len (N.to_nat columns) rws) in C by exact F.
    unfold total in Q. cbn [length] in C. unfold size in Q. assert (q * rows * columns = N.of_nat (length rws) * columns) by lia. nia. }
  assert (CB : N.of_nat (length rws) <= total).
  { destruct G as (C & F & _). apply (f_equal (@length N)) in C. rewrite app_length, (concat_len (N.to_nat columns) rws) in C by exact F. unfold total. nia. }
  change (2 ^ 60) with 1152921504606846976 in SZ. change (2 ^ 63) with 9223372036854775808 in CAP.
  unfold mul_usize at 1. rewrite BR. change two64 with 18446744073709551616.
  destruct (N.of_nat (length rws) <? 18446744073709551616) eqn:X; [|apply N.ltb_ge in X; lia]. clear X. cbn [rbind].
  unfold mul_usize. change two64 with 18446744073709551616.
  destruct (N.of_nat (length rws) * target_columns <? 18446744073709551616) eqn:X; [|apply N.ltb_ge in X; lia]. clear X. cbn [rbind].
  change isize_limit with 9223372036854775808.
  destruct (9223372036854775808 <=? 8 * (N.of_nat (length rws) * target_columns)) eqn:X; [apply N.leb_le in X; lia|]. clear X.
  rewrite RD. cbn [rbind]. rewrite (chunks_exact_ok columns target cols [] CP GT).
  apply (matmul_batch_ok dbg neg d parts HD rows columns RP CP SS cols (proj1 (proj2 GT)) WH (N.to_nat (total / size)) 0%nat p 0%nat r rws); auto.
  - now rewrite EPS.
  - lia.
  - fold size. apply Nat.mod_0_l. lia.
  - cbn [skipn]. rewrite EPS. cbn [skipn]. fold size. destruct DV as (q & Q). rewrite Q, N.div_mul by lia.
    assert (T : total = N.of_nat (length p + length (concat ps))) by (unfold total; rewrite EPS; cbn [concat]; now rewrite app_length). lia.
  - cbn [skipn]. rewrite EPS in G |- *. exact G.
Qed.

Lemma matmul_rejects dbg d target target_rows target_columns rows columns :
  0 < rows * columns < 2 ^ 64 -> columns <> target_rows \/ f_records (m_footer (d_meta d)) mod (rows * columns) <> 0 ->
  matmul dbg d target (target_rows, target_columns) (rows, columns) = Err EPreconditionsNotMet.
Proof.
  intros [P B] H. unfold matmul, mul_usize. change two64 with 18446744073709551616. change (2 ^ 64) with 18446744073709551616 in B.
  apply N.ltb_lt in B. rewrite B. cbn [rbind]. destruct (rows * columns =? 0) eqn:X; [apply N.eqb_eq in X; lia|]. clear X.
  destruct H as [H|H]; apply N.eqb_neq in H; rewrite H; cbn [negb orb]; [reflexivity|]. now rewrite orb_true_r.
Qed.
Lemma matmul_zero dbg d target target_shape rows columns : rows = 0 \/ columns = 0 ->
  matmul dbg d target target_shape (rows, columns) = Panic.
Proof.
  intros H. unfold matmul. destruct target_shape as [tr tc]. assert (rows * columns = 0) as E by (destruct H; subst; lia).
  unfold mul_usize. rewrite E. reflexivity.
Qed.

(** Proofs about the loader of labelled series. *)
From Coq Require Import Reals Lra QArith Qabs.
From Flocq Require Import Core BinarySingleNaN.
From Verif Require Import Base WordProofs Xor F64 F64Proofs F64BitsProofs F64Flocq QuerySpec QueryProofs DecimalSpec DecimalFloatProofs
  Text TextSpec TextProofs PrecisionProofs PipelineProofs.
Local Open Scope Z_scope.

(** ** Labels *)
Lemma label_exact k n x : Z.abs k <= 2 ^ 53 -> (value n == inject_Z k)%Q -> nearest_f64 (value n) x -> as_i64 (of_bits x) = k.
Proof.
  intros K V N. assert (D : is_decimal 0 k (value n)) by (unfold is_decimal; rewrite V; change (inject_Z (10 ^ Z.of_N 0)) with 1%Q; apply Qmult_1_r).
  apply (nearest_decimal _ _ _ _ D) in N. change (2 ^ 53) with 9007199254740992 in K.
  assert (B : (Rabs (IZR k / IZR (10 ^ Z.of_N 0)) <= bpow radix2 60)%R).
  { change (IZR (10 ^ Z.of_N 0)) with 1%R. unfold Rdiv. rewrite Rinv_1, Rmult_1_r, <- abs_IZR. change (bpow radix2 60) with (IZR 1152921504606846976). apply IZR_le. lia. }
  destruct (nearest_any 0 k x N B) as [F R]. change (IZR (10 ^ Z.of_N 0)) with 1%R in R. unfold Rdiv in R. rewrite Rinv_1, Rmult_1_r in R.
  assert (RK : rnd (IZR k) = IZR k).
  { apply rnd_id. rewrite <- F2R_0e. apply format_Z; [|lia]. change (2 ^ 53) with 9007199254740992. lia. }
  rewrite RK, Rminus_eq_0, Rabs_R0 in R.
  assert (E : real (of_bits x) = IZR k).
  { pose proof (Rabs_pos (real (of_bits x) - IZR k)) as P. destruct (Req_dec (real (of_bits x) - IZR k) 0) as [Z|Z]; [lra|]. apply Rabs_no_R0 in Z. lra. }
  rewrite as_i64_finite, (ftruncZ_real _ F), E, Ztrunc_IZR by exact F. lia.
Qed.

(** ** Lines *)
Lemma trim_id s : match s with c :: _ => is_space c = false | [] => True end -> match rev s with c :: _ => is_space c = false | [] => True end -> trim s = s.
Proof. intros H T. unfold trim. rewrite (trim_start_stop s) by exact H. rewrite trim_start_stop by exact T. apply rev_involutive. Qed.
Definition plain_cell (w : text) : cell := Some (0%nat, w, 0%nat).
Lemma plain_text w : cell_text (plain_cell w) = w.
Proof. cbn. apply app_nil_r. Qed.
Lemma row_head sep w ws : is_word sep w -> match row_text sep (map plain_cell (w :: ws)) with c :: _ => is_space c = false | [] => True end.
Proof.
  intros W. pose proof (word_space sep w W) as S. destruct W as [NE _]. destruct w as [|c w]; [easy|]. cbn [map row_text]. inversion S; subst.
  destruct (map plain_cell ws); rewrite plain_text; cbn; assumption.
Qed.
Lemma row_tail sep ws : Forall (is_word sep) ws -> match rev (row_text sep (map plain_cell ws)) with c :: _ => is_space c = false | [] => True end.
Proof.
  induction ws as [|w ws IH]; intros F; [exact I|]. inversion F as [|? ? W F']; subst. specialize (IH F'). cbn [map row_text].
  assert (WT : match rev w with c :: _ => is_space c = false | [] => True end) by (apply head_ok, Forall_rev, (word_space sep w W)).
  destruct ws as [|w' ws]; cbn [map]; rewrite plain_text; [exact WT|].
  rewrite rev_app_distr. cbn [rev]. change (map plain_cell (w' :: ws)) with (plain_cell w' :: map plain_cell ws) in IH. 
  destruct (rev (row_text sep (plain_cell w' :: map plain_cell ws))) as [|c s] eqn:E; [|exact IH].
  exfalso. apply (f_equal (@rev _)) in E. rewrite rev_involutive in E. cbn [rev] in E.
  inversion F' as [|? ? [NE _] _]; subst. cbn [row_text] in E. destruct (map plain_cell ws) in E; rewrite plain_text in E; [now apply NE|]. apply app_eq_nil in E as [E _]. now apply NE.
Qed.
Lemma plain_cells sep ws : Forall (is_word sep) ws -> Forall (cell_ok sep) (map plain_cell ws).
Proof. intros F. apply Forall_map. exact F. Qed.
Lemma row_line ws : ws <> [] -> Forall (is_word 9) ws -> split_on 9 (trim (row_text 9 (map plain_cell ws))) = ws.
Proof.
  intros NE F. rewrite trim_id; [| |now apply row_tail].
  - rewrite row_split; [|now right|now apply plain_cells|now destruct ws]. rewrite map_map. erewrite map_ext; [apply map_id|]. apply plain_text.
  - destruct ws as [|w ws]; [easy|]. apply row_head. now inversion F.
Qed.

Section Load.
  Variable parse : text -> option N.

  Lemma unwrap_spec ws xs : Forall2 (fun w x => parse w = Some x) ws xs -> unwrap_all parse ws = Ok xs.
  Proof. induction 1 as [|w x ws xs E F IH]; [reflexivity|]. cbn [unwrap_all]. now rewrite E, IH. Qed.

  Definition good_series (p : N) (s : series) : Prop := Forall well_formed (series_numerals s) /\ Forall (reads parse) (series_numerals s) /\ Forall (smaller p (2 ^ 49)) (snd s).

  Lemma value_loaded p n x : (p <= 9)%N -> nearest_f64 (value n) x -> smaller p (2 ^ 49) n ->
    loaded_value p n (round_by_scale (nan_to_zero x) (10 ^ p)).
  Proof.
    intros Hp NX SM. pose proof (pow10_pos p) as PP.
    assert (NN : nan_to_zero x = of_bits x).
    { unfold nan_to_zero. destruct NX as (U & a & E & _). rewrite (number_scaled x U) in E. destruct (of_bits x); [reflexivity..|discriminate E|reflexivity]. }
    rewrite NN. split.
    - destruct (pixel_near p n x Hp NX SM) as (t & T & L). exists t, (inject_Z t / inject_Z (10 ^ Z.of_N p))%Q.
      assert (D : is_decimal p t (inject_Z t / inject_Z (10 ^ Z.of_N p))).
      { unfold is_decimal. field. pose proof (inject_pos _ PP) as Q. intros H. rewrite H in Q. now apply Qlt_irrefl in Q. }
      split; [exact D|]. split; [|exact L]. apply (nearest_decimal _ _ _ _ D). exact T.
    - intros L. destruct (value_decimal p n) as [t D]; [unfold digits_needed; lia|]. apply (nearest_decimal _ _ _ _ D). apply (nearest_decimal _ _ _ _ D) in NX.
      apply round_by_scale_keeps; [exact Hp| |exact NX]. unfold smaller in SM.
      unfold is_decimal in D. rewrite Zlt_Qlt, <- inject_abs, <- D, Qabs_Qmult. rewrite inject_abs, (Z.abs_eq (10 ^ Z.of_N p)) by lia. eapply Qlt_trans; [exact SM|]. now rewrite <- Zlt_Qlt.
  Qed.
  Lemma series_loaded p s : (p <= 9)%N -> good_series p s ->
    exists r, slurp_line parse (Z.of_N (10 ^ p)) (row_text 9 (map plain_cell (map spelling (series_numerals s)))) = Ok r /\ loaded p s r.
  Proof.
    intros Hp (W & R & SM). destruct s as [l ps]. unfold series_numerals in *. cbn [fst snd] in *. inversion W as [|? ? Wl Wp]; subst. inversion R as [|? ? (x & Ex & Nx) Rp]; subst.
    unfold slurp_line. rewrite row_line; [|discriminate|].
    2:{ apply Forall_map. cbn [map]. eapply Forall_impl; [|exact W]. intros n. apply spelling_word. now right. }
    cbn [map].
    assert (XS : exists xs, Forall2 (fun n x => parse (spelling n) = Some x /\ nearest_f64 (value n) x) ps xs).
    { clear - Rp. induction Rp as [|n ps (x & H) Rp (xs & IH)]; [exists []; constructor|]. exists (x :: xs). now constructor. }
    destruct XS as (xs & XS).
    rewrite (unwrap_spec _ (x :: xs)).
    2:{ constructor; [exact Ex|]. clear - XS. induction XS as [|n y ns ys [H _] XS IH]; constructor; auto. }
    cbn [rbind]. eexists. split; [reflexivity|]. split; cbn [fst snd].
    - intros k K V. exact (label_exact k l x K V Nx).
    - replace (Z.of_N (10 ^ p) <? 0) with false by lia. clear - Hp XS SM. revert SM. induction XS as [|n y ns ys [_ H] XS IH]; intros SM; [constructor|]. inversion SM; subst. cbn [map]. constructor; [|now apply IH].
      rewrite N2Z.id. now apply value_loaded.
  Qed.
  Lemma lines_loaded p ss : (p <= 9)%N -> Forall (good_series p) ss ->
    exists data, slurp_lines parse (Z.of_N (10 ^ p)) (map (fun s => row_text 9 (map plain_cell (map spelling (series_numerals s)))) ss) = Ok data /\ Forall2 (loaded p) ss data.
  Proof.
    intros Hp F. induction F as [|s ss G F (data & E & L)]; [exists []; now split; [|constructor]|]. destruct (series_loaded p s Hp G) as (r & Er & Lr).
    exists (r :: data). cbn [map slurp_lines]. rewrite Er. cbn [rbind]. rewrite E. split; [reflexivity|now constructor].
  Qed.
  Lemma series_lines rows : Forall (fun s => Forall well_formed (series_numerals (fst s))) rows ->
    lines (series_text rows) = map (fun s => row_text 9 (map plain_cell (map spelling (series_numerals (fst s))))) rows.
  Proof.
    intros F. unfold series_text. rewrite document_lines.
    - cbn. rewrite app_nil_r, map_map. apply map_ext. intros s. unfold series_row. cbn [fst]. now rewrite map_map.
    - now right.
    - rewrite app_nil_r. clear - F. induction F as [|s rows W F IH]; [constructor|]. cbn [map flat_map]. apply Forall_app. split; [|exact IH]. unfold series_row. cbn [fst].
      apply Forall_map. eapply Forall_impl; [|exact W]. intros n Wn. cbn. apply spelling_word; [now right|exact Wn].
  Qed.
  Lemma small_wrap p : (p <= 9)%N -> wrap_i32 (Z.of_N (10 ^ p)) = Z.of_N (10 ^ p).
  Proof.
    intros Hp. apply wrap_ok. destruct (pow10_scale p Hp) as [_ E]. rewrite E.
    assert (1 <= 10 ^ Z.of_N p <= 10 ^ 9) by (split; [change 1 with (10 ^ 0)|]; apply Z.pow_le_mono_r; lia). change (10 ^ 9) with 1000000000 in *. change (2 ^ 31) with 2147483648. lia.
  Qed.
  Theorem loader dbg train p rows : get_appropriate_precision dbg 9 false train = Ok p -> (p <= 9)%N -> Forall (good_series p) (map fst rows) ->
    exists data, load_dataset parse dbg train (series_text rows) = Ok ((10 ^ p)%N, data) /\ Forall2 (loaded p) (tl (map fst rows)) data.
  Proof.
    intros E Hp F. unfold load_dataset. rewrite E. cbn [rbind]. replace (19 <? p)%N with false by lia. rewrite small_wrap by exact Hp. unfold slurp_file.
    rewrite series_lines.
    2:{ apply Forall_forall. intros s I. rewrite Forall_forall in F. apply (F (fst s)). now apply in_map. }
    destruct (lines_loaded p (tl (map fst rows)) Hp) as (data & D & L).
    { destruct rows; [constructor|]. cbn [map tl]. now inversion F. }
    exists data. split; [|exact L]. destruct rows as [|s rows]; cbn [map skipn tl] in *; [now injection D as <-|].
    rewrite map_map in D. rewrite D. reflexivity.
  Qed.
End Load.

From Verif Require Import Base WordProofs BitIO Xor F64 F64Proofs F64SumProofs Format FormatProofs File FileSpec FileProofs Query QuerySpec QueryProofs Expr ExprSpec ExprProofs.

(** ** Comparing floats *)
Definition key (x : f64) : Z * Z * Z :=
  match x with
  | S754_infinity s => (if s then -2 else 2, 0, 0)%Z
  | S754_zero _ => (0, 0, 0)%Z
  | S754_nan => (0, 0, 0)%Z
  | S754_finite s m e => (if s then (-1, - e, - Zpos m) else (1, e, Zpos m))%Z
  end.
Definition key_le (a b : Z * Z * Z) : Prop :=
  let '(a1, a2, a3) := a in let '(b1, b2, b3) := b in
  (a1 < b1 \/ a1 = b1 /\ (a2 < b2 \/ a2 = b2 /\ a3 <= b3))%Z.
Lemma compare_key a b : a <> S754_nan -> b <> S754_nan ->
  exists c, SFcompare a b = Some c /\ (key_le (key a) (key b) <-> c <> Gt) /\ (key_le (key b) (key a) <-> c <> Lt).
Proof.
  intros NA NB. destruct a as [sa|sa| |sa ma ea], b as [sb|sb| |sb mb eb]; try congruence;
    try (destruct sa); try (destruct sb); cbn [SFcompare key key_le].
  all: try (match goal with |- context [(?x ?= ?y)%Z] => destruct (Z.compare_spec x y) end; cbn [CompOpp]).
  all: try (match goal with |- context [Pos.compare_cont Eq ?x ?y] => change (Pos.compare_cont Eq x y) with (Pos.compare x y); destruct (Pos.compare_spec x y) end; cbn [CompOpp]).
  all: eexists; split; [reflexivity|]; split; split; intros; try discriminate; try congruence; try lia.
Qed.
Lemma fle_key a b : a <> S754_nan -> b <> S754_nan -> (fle a b = true <-> key_le (key a) (key b)).
Proof.
  intros NA NB. destruct (compare_key a b NA NB) as (c & E & L & _). unfold fle, SFleb. rewrite E, L. destruct c; split; try discriminate; try reflexivity; try congruence.
Qed.
Lemma flt_key a b : a <> S754_nan -> b <> S754_nan -> (flt a b = true <-> ~ key_le (key b) (key a)).
Proof.
  intros NA NB. destruct (compare_key a b NA NB) as (c & E & _ & L). unfold flt, SFltb. rewrite E, L.
  destruct c; split; intros H; try reflexivity; try discriminate H; try (intros X; congruence); exfalso; apply H; discriminate.
Qed.
Lemma key_le_refl a : key_le a a.
Proof. destruct a as [[a b] c]. cbn. lia. Qed.
Lemma key_le_trans a b c : key_le a b -> key_le b c -> key_le a c.
Proof. destruct a as [[a1 a2] a3], b as [[b1 b2] b3], c as [[c1 c2] c3]. cbn. lia. Qed.
Lemma key_le_total a b : key_le a b \/ key_le b a.
Proof. destruct a as [[a1 a2] a3], b as [[b1 b2] b3]. cbn. lia. Qed.
Lemma key_inf a s : a <> S754_nan -> if s : bool then key_le (key (S754_infinity true)) (key a) else key_le (key a) (key (S754_infinity false)).
Proof. intros NA. destruct s, a as [sa|sa| |sa ma ea]; try congruence; try destruct sa; cbn; lia. Qed.
Lemma key_inf_eq a s : a <> S754_nan -> (if s : bool then key_le (key a) (key (S754_infinity true)) else key_le (key (S754_infinity false)) (key a)) -> a = S754_infinity s.
Proof. intros NA. destruct s, a as [sa|sa| |sa ma ea]; try congruence; try destruct sa; cbn; intros; try reflexivity; lia. Qed.
Lemma is_nan_iff a : is_nan a = true <-> a = S754_nan.
Proof. destruct a; cbn; split; congruence. Qed.
Lemma is_nan_not a : a <> S754_nan -> is_nan a = false.
Proof. destruct a; cbn; congruence. Qed.

(** ** Extremes *)
Definition above_key (up : bool) (a b : f64) : Prop := if up then key_le (key a) (key b) else key_le (key b) (key a).
Definition best (up : bool) (vs : list f64) (m : f64) : Prop :=
  (Forall (fun v => v = S754_nan) vs /\ m = S754_infinity up) \/
  (In m vs /\ m <> S754_nan /\ forall v, In v vs -> v <> S754_nan -> above_key up v m).
Lemma best_spec (up : bool) vs m : best up vs m -> if up then greatest_value vs m else least_value vs m.
Proof.
  intros [H|(I & N & H)]; destruct up; try (left; exact H); right; (split; [exact I|]; split; [exact N|]);
    intros v IV NV; apply fle_key; auto.
  - exact (H v IV NV).
  - exact (H v IV NV).
Qed.
Lemma best_not_nan up vs m : best up vs m -> m <> S754_nan.
Proof. intros [[_ ->]|(_ & N & _)]; [discriminate|exact N]. Qed.
Lemma fext_cases up tie a b : a <> S754_nan -> b <> S754_nan ->
  (fext up tie a b = a /\ above_key up b a) \/ (fext up tie a b = b /\ above_key up a b).
Proof.
  intros NA NB. unfold fext, fmax, fmin. destruct up; rewrite (is_nan_not a NA), (is_nan_not b NB); unfold above_key.
  - destruct (flt b a) eqn:E1; [left; split; [reflexivity|]; apply flt_key in E1; auto; destruct (key_le_total (key a) (key b)); tauto|].
    destruct (flt a b) eqn:E2; [right; split; [reflexivity|]; apply flt_key in E2; auto; destruct (key_le_total (key a) (key b)); tauto|].
    assert (A : key_le (key a) (key b)). { pose proof (flt_key b a NB NA) as F. rewrite E1 in F. destruct (key_le_total (key a) (key b)) as [X|X]; [exact X|].
      destruct (compare_key a b NA NB) as (c & _ & C1 & C2). destruct c; try (apply C1; discriminate). exfalso.
      assert (~ key_le (key a) (key b)) as NL by (rewrite C1; congruence). apply F in NL. discriminate NL. }
    assert (B : key_le (key b) (key a)). { pose proof (flt_key a b NA NB) as F. rewrite E2 in F.
      destruct (compare_key a b NA NB) as (c & _ & C1 & C2). destruct c; try (apply C2; discriminate). exfalso.
      assert (~ key_le (key b) (key a)) as NL by (rewrite C2; congruence). apply F in NL. discriminate NL. }
    destruct (tie a b); auto.
  - destruct (flt a b) eqn:E1; [left; split; [reflexivity|]; apply flt_key in E1; auto; destruct (key_le_total (key a) (key b)); tauto|].
    destruct (flt b a) eqn:E2; [right; split; [reflexivity|]; apply flt_key in E2; auto; destruct (key_le_total (key a) (key b)); tauto|].
    assert (B : key_le (key b) (key a)). { pose proof (flt_key a b NA NB) as F. rewrite E1 in F.
      destruct (compare_key a b NA NB) as (c & _ & C1 & C2). destruct c; try (apply C2; discriminate). exfalso.
      assert (~ key_le (key b) (key a)) as NL by (rewrite C2; congruence). apply F in NL. discriminate NL. }
    assert (A : key_le (key a) (key b)). { pose proof (flt_key b a NB NA) as F. rewrite E2 in F.
      destruct (compare_key a b NA NB) as (c & _ & C1 & C2). destruct c; try (apply C1; discriminate). exfalso.
      assert (~ key_le (key a) (key b)) as NL by (rewrite C1; congruence). apply F in NL. discriminate NL. }
    destruct (tie a b); auto.
Qed.
Lemma above_trans up a b c : above_key up a b -> above_key up b c -> above_key up a c.
Proof. destruct up; cbn; intros; eapply key_le_trans; eassumption. Qed.
Lemma above_inf up a : a <> S754_nan -> above_key up (S754_infinity up) a.
Proof. intros NA. pose proof (key_inf a up NA). destruct up; exact H. Qed.
Lemma inf_above up a : a <> S754_nan -> above_key up a (S754_infinity up) -> a = S754_infinity up.
Proof. intros NA H. apply key_inf_eq; [exact NA|]. destruct up; exact H. Qed.

Lemma best_join up tie vs ws a b : best up vs a -> best up ws b -> best up (vs ++ ws) (fext up tie a b).
Proof.
  intros BA BB. pose proof (best_not_nan _ _ _ BA) as NA. pose proof (best_not_nan _ _ _ BB) as NB.
  assert (IV : forall v, In v (vs ++ ws) -> v <> S754_nan -> (above_key up v a \/ above_key up v b)).
  { intros v I N. apply in_app_or in I as [I|I].
    - destruct BA as [[F _]|(_ & _ & H)]; [rewrite Forall_forall in F; now apply F in I|]. left. auto.
    - destruct BB as [[F _]|(_ & _ & H)]; [rewrite Forall_forall in F; now apply F in I|]. right. auto. }
  assert (G : forall m, (m = a \/ m = b) -> above_key up a m -> above_key up b m -> best up (vs ++ ws) m).
  { intros m MM AM BM. assert (NM : m <> S754_nan) by (destruct MM; congruence).
    destruct BA as [[FA EA]|(IA & _ & HA)], BB as [[FB EB]|(IB & _ & HB)].
    - left. split; [apply Forall_app; auto|]. destruct MM; congruence.
    - right. destruct MM as [->| ->]; [|split; [apply in_or_app; auto|]; split; [exact NM|]; intros v I N; destruct (IV v I N) as [H|H]; eapply above_trans; eauto].
      subst a. apply inf_above in BM; auto. subst b. split; [apply in_or_app; auto|]. split; [exact NM|].
      intros v I N. destruct (IV v I N) as [H|H]; exact H.
    - right. destruct MM as [->| ->]; [split; [apply in_or_app; auto|]; split; [exact NM|]; intros v I N; destruct (IV v I N) as [H|H]; eapply above_trans; eauto|].
      subst b. apply inf_above in AM; auto. subst a. split; [apply in_or_app; auto|]. split; [exact NM|].
      intros v I N. destruct (IV v I N) as [H|H]; exact H.
    - right. split; [apply in_or_app; destruct MM; subst; auto|]. split; [exact NM|]. intros v I N. destruct (IV v I N) as [H|H]; eapply above_trans; eauto. }
  assert (RF : forall x, above_key up x x) by (intros x; destruct up; apply key_le_refl).
  destruct (fext_cases up tie a b NA NB) as [[-> H]|[-> H]]; apply G; auto.
Qed.
Lemma best_one up v : v <> S754_nan -> best up [v] v.
Proof.
  intros N. right. split; [now left|]. split; [exact N|]. intros w [<-|[]] _. destruct up; apply key_le_refl.
Qed.
Lemma best_init up : best up [] (S754_infinity up).
Proof. left. split; [constructor|reflexivity]. Qed.
Lemma best_fold up tie ws : forall vs a, best up vs a -> best up (vs ++ ws) (fold_left (fext up tie) ws a).
Proof.
  induction ws as [|w ws IH]; intros vs a B; [now rewrite app_nil_r|]. cbn [fold_left].
  change (w :: ws) with ([w] ++ ws). rewrite app_assoc. apply IH.
  destruct (is_nan w) eqn:E.
  - apply is_nan_iff in E. subst w.
    assert (fext up tie a S754_nan = a) as ->.
    { pose proof (best_not_nan _ _ _ B) as NA. unfold fext, fmax, fmin. destruct up; cbn [is_nan]; rewrite (is_nan_not a NA); reflexivity. }
    destruct B as [[F E]|(I & N & H)]; [left; split; [apply Forall_app; auto|exact E]|right; split; [apply in_or_app; auto|]; split; [exact N|]].
    intros v IV NV. apply in_app_or in IV as [IV|[<-|[]]]; [auto|congruence].
  - apply best_join; [exact B|apply best_one]. intros ->. discriminate E.
Qed.

(** ** Sums: the sign of the initial zero does not matter *)
Definition zero_pair (a b : f64) : Prop := a = b \/ (exists s, a = S754_zero s) /\ (exists s, b = S754_zero s).
Lemma sum_signs l : forall a b, zero_pair a b -> zero_pair (fold_left fadd l a) (fold_left fadd l b).
Proof.
  induction l as [|x l IH]; intros a b Z; [exact Z|]. cbn [fold_left]. apply IH.
  destruct Z as [->|[(s & ->) (t & ->)]]; [now left|].
  destruct x as [u|u| |u m e]; try (left; reflexivity). right. split; destruct s, t, u; cbn; eauto.
Qed.
Lemma fadd_signs a x y : not_nz a -> zero_pair x y -> fadd a x = fadd a y.
Proof.
  intros NA [->|[(s & ->) (t & ->)]]; [reflexivity|]. destruct a as [[]|u| |u m e]; try reflexivity; [now destruct NA|]. destruct s, t; reflexivity.
Qed.
Lemma shr_fexp_low m e l mrs e' : shr_fexp fprec femax m e l = (mrs, e') -> (-1074 <= e')%Z.
Proof.
  intros E. unfold shr_fexp, shr in E.
  assert (F : (fexp fprec femax (Zdigits2 m + e) - e)%Z = (Z.max (Zdigits2 m + e - 53) (-1074) - e)%Z) by reflexivity.
  destruct (fexp fprec femax (Zdigits2 m + e) - e)%Z as [|n|n] eqn:N; injection E as <- <-; lia.
Qed.
Lemma round_aux_low_any s m e l : low (binary_round_aux fprec femax s m e l).
Proof.
  unfold binary_round_aux. destruct (shr_fexp fprec femax m e l) as [m1 e1] eqn:E1.
  destruct (shr_fexp fprec femax (round_nearest_even (shr_m m1) (loc_of_shr_record m1)) e1 loc_Exact) as [m2 e2] eqn:E2.
  pose proof (shr_fexp_low _ _ _ _ _ E2). destruct (shr_m m2) as [|k|k]; try exact I. destruct (Zle_bool e2 (femax - fprec)); [exact H|exact I].
Qed.
Lemma normalize_low m e s : low (binary_normalize fprec femax m e s).
Proof.
  unfold binary_normalize. destruct m; [exact I| |]; unfold binary_round; destruct (shl_align _ _ _); apply round_aux_low_any.
Qed.
Lemma arith_low o a b : low a -> low b -> low (arith o a b).
Proof.
  intros LA LB. destruct o, a as [sa|sa| |sa ma ea], b as [sb|sb| |sb mb eb]; cbn [arith SFadd SFsub SFmul SFdiv];
    try exact I; try assumption; try (destruct (Bool.eqb sa sb); exact I); try (destruct (xorb sa sb); exact I); try apply normalize_low;
    try apply round_aux_low_any; try (destruct sa; exact I).
  1, 2: destruct (Bool.eqb sa (negb sb)); exact I.
  match goal with |- context [SFdiv_core_binary ?a ?b ?c ?d ?e ?f] => destruct (SFdiv_core_binary a b c d e f) as [[? ?] ?] end; apply round_aux_low_any.
Qed.
Lemma of_bits_low x : low (of_bits x).
Proof.
  unfold of_bits. destruct (N.land (N.shiftr x 52) 2047 =? 0) eqn:E.
  - destruct (N.land x 4503599627370495); [exact I|cbn; lia].
  - destruct (N.land (N.shiftr x 52) 2047 =? 2047); [destruct (N.land x 4503599627370495); exact I|].
    destruct (N.land x 4503599627370495 + 4503599627370496); [exact I|]. cbn [low]. lia.
Qed.
Lemma value_low row e : low (value row e).
Proof. induction e; cbn [value]; [apply of_bits_low|now apply arith_low|apply of_bits_low]. Qed.

Lemma iter_sum_pair neg vs : zero_pair (iter_sum neg vs) (float_sum vs).
Proof. apply sum_signs. right. split; eauto. Qed.
Lemma iter_sum_low neg vs : Forall low vs -> low (iter_sum neg vs).
Proof.
  intros F. destruct (iter_sum_pair neg vs) as [->|[(s & ->) _]]; [|exact I].
  apply (fold_fadd_low vs); [exact F|exact I|discriminate].
Qed.

(** ** One aggregation *)
Definition kind_step (tie : f64 -> f64 -> bool) (neg : bool) (k : kind) (a : aggregate) (vs : list f64) : res derr aggregate :=
  agg_concat tie k a (agg_of_values neg tie k vs).
Definition partly (k : kind) (chunks : list (list f64)) (a : aggregate) : Prop :=
  match k with
  | KNone => a = Array (concat chunks)
  | KMax => exists m, a = Scalar m /\ best true (concat chunks) m
  | KMin => exists m, a = Scalar m /\ best false (concat chunks) m
  | KSum => a = Scalar (float_sum (map float_sum chunks)) /\ Forall (Forall low) chunks
  end.
Lemma partly_aggregated k chunks a : partly k chunks a -> aggregated k chunks a.
Proof.
  destruct k; cbn [partly aggregated]; [auto| | |now intros [-> _]]; intros (m & -> & B); exists m; (split; [reflexivity|]).
  - exact (best_spec true _ _ B).
  - exact (best_spec false _ _ B).
Qed.
Lemma partly_zero k : partly k [] (agg_zero k).
Proof. destruct k; cbn; [reflexivity| | |split; [reflexivity|constructor]]; eexists; (split; [reflexivity|]); apply best_init. Qed.
Lemma fold_left_snoc {A B} (f : A -> B -> A) l x a : fold_left f (l ++ [x]) a = f (fold_left f l a) x.
Proof. now rewrite fold_left_app. Qed.
Lemma partly_step tie neg k chunks a vs : Forall low vs -> partly k chunks a ->
  exists b, agg_concat tie k a (agg_of_values neg tie k vs) = Ok b /\ partly k (chunks ++ [vs]) b.
Proof.
  intros LV P. destruct k; cbn [partly agg_of_values] in *.
  - subst a. eexists. split; [reflexivity|]. now rewrite concat_app, <- app_nil_r with (l := vs) at 1.
  - destruct P as (m & -> & B). eexists. split; [reflexivity|]. eexists. split; [reflexivity|]. rewrite concat_app. cbn [concat]. rewrite app_nil_r.
    change (fmax tie) with (fext true tie). apply best_join; [exact B|]. apply (best_fold true tie vs [] _ (best_init true)).
  - destruct P as (m & -> & B). eexists. split; [reflexivity|]. eexists. split; [reflexivity|]. rewrite concat_app. cbn [concat]. rewrite app_nil_r.
    change (fmin tie) with (fext false tie). apply best_join; [exact B|]. apply (best_fold false tie vs [] _ (best_init false)).
  - destruct P as [-> F]. eexists. split; [reflexivity|]. split; [|apply Forall_app; auto]. f_equal. rewrite map_app. cbn [map].
    unfold float_sum at 3. rewrite fold_left_snoc. apply fadd_signs; [|apply iter_sum_pair].
    apply (fold_fadd_low (map float_sum chunks)); [|exact I|discriminate]. apply Forall_map. eapply Forall_impl; [|exact F].
    intros c LC. apply (fold_fadd_low c); [exact LC|exact I|discriminate].
Qed.

(** ** Tables *)
Lemma column_length k rows : length (column k rows) = length rows.
Proof. apply map_length. Qed.
Lemma columns_total k chunks : length (concat (map (column k) chunks)) = length (concat chunks).
Proof. induction chunks as [|c cs IH]; [reflexivity|]. cbn [map concat]. now rewrite !app_length, column_length, IH. Qed.
Definition row_number (chunks : list (list (list N))) (i : nat) : N := N.of_nat (length (concat (firstn i chunks))).
Lemma first_of_column k chunks i : first_of (map (column k) chunks) i = row_number chunks i.
Proof. unfold first_of, row_number. now rewrite firstn_map, columns_total. Qed.
Lemma row_number_bound chunks i rows : nth_error chunks i = Some rows ->
  row_number chunks i + N.of_nat (length rows) <= N.of_nat (length (concat chunks)).
Proof.
  intros E. rewrite <- (first_of_column 0 chunks i), <- (column_length 0 rows), <- (columns_total 0 chunks).
  apply first_bound. now apply map_nth_error.
Qed.

Section Table.
  Variable dbg neg : bool.
  Variable tie : f64 -> f64 -> bool.
  Variable mask : option bitmap.
  Variable ds : list decoder.
  Variable chunks : list (list (list N)).
  Hypothesis TB : table dbg neg ds chunks.
  Hypothesis DS : ds <> [].
  Hypothesis SM : mask = None \/ N.of_nat (length (concat chunks)) < 2 ^ 32.
  Hypothesis SZ : N.of_nat (length (concat chunks)) < 2 ^ 60.

  Lemma open_all_ok i rows : nth_error chunks i = Some rows ->
    exists rs, open_all dbg i ds = Ok rs /\ length rs = length ds /\ opened neg (row_number chunks i) rows rs.
  Proof using TB.
    intros E.
    assert (G : forall es j, (forall k d, nth_error es k = Some d -> holds dbg neg d (map (column (j + k)) chunks)) ->
      exists rs, open_all dbg i es = Ok rs /\ length rs = length es /\
        forall k r, nth_error rs k = Some r ->
          rd_records r = N.of_nat (length rows) /\ rd_offset r = row_number chunks i /\ Forall is_u64 (column (j + k) rows) /\
          reads neg (rd_ex r) (row_number chunks i) (rd_state r) (column (j + k) rows)).
    { induction es as [|d es IH]; intros j H.
      - exists []. split; [reflexivity|]. split; [reflexivity|]. intros [|k] r X; discriminate X.
      - destruct (IH (S j)) as (rs & O & L & R).
        { intros k d' X. specialize (H (S k) d' X). now rewrite Nat.add_succ_r in H. }
        destruct (H 0%nat d eq_refl) as (_ & _ & HC). rewrite Nat.add_0_r in HC.
        destruct (HC i (column j rows)) as (_ & U & OF & CR & r & RD & RR); [now apply map_nth_error|].
        rewrite first_of_column in OF, RR. rewrite column_length in CR.
        exists (mkRd (d_ex d) r (N.of_nat (length rows)) (row_number chunks i) :: rs).
        cbn [open_all]. unfold open_chunk. rewrite RD. cbn [rbind]. rewrite CR. cbn [rbind]. rewrite O, OF. cbn [rbind length].
        split; [reflexivity|]. split; [now rewrite L|]. intros [|k] q X; cbn [nth_error] in X.
        + injection X as <-. cbn [rd_records rd_offset rd_ex rd_state]. now rewrite Nat.add_0_r.
        + rewrite Nat.add_succ_r. exact (R k q X). }
    destruct (G ds 0%nat TB) as (rs & O & L & R). exists rs. auto.
  Qed.

  Lemma chunk_count : exists d, hd_error ds = Some d /\ N.to_nat (f_chunks (m_footer (d_meta d))) = length chunks.
  Proof using TB DS.
    clear SM SZ. destruct ds as [|d es]; [congruence|]. exists d. split; [reflexivity|]. destruct (TB 0%nat d eq_refl) as (-> & _). now rewrite map_length, Nat2N.id.
  Qed.

  Lemma chunk_facts i rows : nth_error chunks i = Some rows ->
    (mask = None \/ row_number chunks i + N.of_nat (length rows) < 2 ^ 32) /\ 8 * N.of_nat (length rows) < isize_limit.
  Proof using SM SZ.
    clear TB DS. intros E. pose proof (row_number_bound chunks i rows E) as B. split; [destruct SM; [auto|right; lia]|].
    change isize_limit with 9223372036854775808. change (2 ^ 60) with 1152921504606846976 in SZ. lia.
  Qed.

  Lemma skipn_cons {A} (l : list A) i x : nth_error l i = Some x -> skipn i l = x :: skipn (S i) l.
  Proof using. clear. revert i. induction l as [|y l IH]; intros [|i] E; try discriminate E; [cbn in E; injection E as ->; reflexivity|]. cbn [skipn]. now apply IH. Qed.
  Lemma firstn_snoc {A} (l : list A) i x : nth_error l i = Some x -> firstn (S i) l = firstn i l ++ [x].
  Proof using. clear. revert i. induction l as [|y l IH]; intros [|i] E; try discriminate E; [cbn in E; injection E as ->; reflexivity|]. cbn [firstn app]. f_equal. now apply IH. Qed.
  Lemma row_number_S i rows : nth_error chunks i = Some rows -> row_number chunks (S i) = row_number chunks i + N.of_nat (length rows).
  Proof using. clear. intros E. unfold row_number. rewrite (firstn_snoc chunks i rows E), concat_app, app_length. cbn [concat]. rewrite app_nil_r. lia. Qed.

  Lemma values_low ys e : Forall low (map (fun row : list N => value row e) ys).
  Proof using. clear. apply Forall_map, Forall_forall. intros row _. apply value_low. Qed.

  (** The loop of [compute], from chunk [i] on. *)
  Lemma agg_chunks_ok a : formula (length ds) (a_expr a) -> forall n i acc done, (i + n = length chunks)%nat ->
    partly (a_kind a) done acc ->
    exists yss r, selected mask (row_number chunks i) (skipn i chunks) yss /\
      agg_chunks dbg neg tie a ds mask acc (seq i n) = Ok r /\
      partly (a_kind a) (done ++ map (map (fun row => value row (a_expr a))) yss) r.
  Proof using TB SM SZ.
    intros F. induction n as [|n IH]; intros i acc done LE P.
    - exists [], acc. rewrite skipn_all2 by lia. split; [constructor|]. split; [reflexivity|]. now rewrite app_nil_r.
    - destruct (nth_error chunks i) as [rows|] eqn:E; [|apply nth_error_None in E; lia].
      destruct (open_all_ok i rows E) as (rs & O & L & OP). destruct (chunk_facts i rows E) as [B1 B2].
      destruct (choose_total mask rows (row_number chunks i)) as (ys & CH).
      destruct (compute_chunk_ok neg mask (row_number chunks i) rows B1 B2 ys CH (length ds) (a_expr a) F rs L OP) as (rs' & C & _).
      destruct (partly_step tie neg (a_kind a) done acc (map (fun row => value row (a_expr a)) ys) (values_low _ _) P) as (b & K & PB).
      destruct (IH (S i) b (done ++ [map (fun row => value row (a_expr a)) ys]) ltac:(lia) PB) as (yss & r & SEL & R & PR).
      exists (ys :: yss), r. cbn [seq agg_chunks]. rewrite O. cbn [rbind]. rewrite C. cbn [fst rbind]. rewrite K. cbn [rbind].
      split; [|split; [exact R|]].
      + rewrite (skipn_cons _ _ _ E). constructor; [exact CH|]. rewrite <- row_number_S by exact E. exact SEL.
      + cbn [map]. now rewrite <- app_assoc in PR.
  Qed.

  Lemma compute_ok a : formula (length ds) (a_expr a) -> ~ is_index (a_expr a) ->
    exists yss r, selected mask 0 chunks yss /\ compute dbg neg tie a ds mask = Ok r /\
      aggregated (a_kind a) (map (map (fun row => value row (a_expr a))) yss) r.
  Proof using TB DS SM SZ.
    intros F NI. destruct chunk_count as (d & HD & NC).
    destruct (agg_chunks_ok a F (length chunks) 0%nat (agg_zero (a_kind a)) [] eq_refl (partly_zero _)) as (yss & r & SEL & R & P).
    exists yss, r. split; [exact SEL|]. split; [|now apply partly_aggregated].
    unfold compute. destruct ds as [|d' es] eqn:ED; [discriminate HD|]. injection HD as ->. rewrite NC.
    destruct (a_expr a); [exact R|exact R|now destruct NI].
  Qed.

  (** [compute_multiple] against separate calls of [compute]. *)
  Definition flag (a : aggregation) : bool := match a_expr a with Index _ => true | _ => false end.
  Definition later (n i : nat) (a : aggregation) (v : aggregate * bool) (r : aggregate) : Prop :=
    snd v = flag a /\ if flag a then r = fst v else agg_chunks dbg neg tie a ds mask (fst v) (seq i n) = Ok r.
  Inductive all_later (n i : nat) : list aggregation -> list (aggregate * bool) -> list aggregate -> Prop :=
  | all_later_nil : all_later n i [] [] []
  | all_later_cons a v r aggs vs rs : later n i a v r -> all_later n i aggs vs rs -> all_later n i (a :: aggs) (v :: vs) (r :: rs).

  Lemma multi_chunk_ok n i rows : nth_error chunks i = Some rows -> forall aggs vs rs, Forall (fun a => formula (length ds) (a_expr a)) aggs ->
    all_later (S n) i aggs vs rs -> forall ors, length ors = length ds -> opened neg (row_number chunks i) rows ors ->
    exists vs', multi_chunk neg tie aggs vs mask ors = Ok vs' /\ all_later n (S i) aggs vs' rs.
  Proof using TB SM SZ.
    intros E. destruct (open_all_ok i rows E) as (frs & O & L & OP). destruct (chunk_facts i rows E) as [B1 B2].
    destruct (choose_total mask rows (row_number chunks i)) as (ys & CH).
    intros aggs vs rs FA AL. revert FA. induction AL as [|a [v fl] r aggs vs rs [FL LT] AL IH]; intros FA ors LO OO.
    - exists []. split; [reflexivity|constructor].
    - inversion_clear FA as [|? ? F FA']. cbn [snd fst] in *. subst fl. destruct (flag a) eqn:FG.
      + destruct (IH FA' ors LO OO) as (vs' & M & AL'). exists ((v, true) :: vs'). cbn [multi_chunk]. rewrite M. cbn [rbind].
        split; [reflexivity|]. constructor; [|exact AL']. split; [cbn; congruence|]. rewrite FG. exact LT.
      + cbn [seq agg_chunks] in LT. rewrite O in LT. cbn [rbind] in LT.
        destruct (compute_chunk_ok neg mask _ rows B1 B2 ys CH (length ds) (a_expr a) F frs L OP) as (frs' & C & _).
        destruct (compute_chunk_ok neg mask _ rows B1 B2 ys CH (length ds) (a_expr a) F ors LO OO) as (ors' & C' & LO' & OO').
        rewrite C in LT. cbn [fst rbind] in LT.
        cbn [multi_chunk]. rewrite C'. cbn [rbind].
        destruct (agg_concat tie (a_kind a) v _) as [b| |] eqn:K; cbn [rbind] in LT |- *; try discriminate LT.
        destruct (IH FA' ors' LO' OO') as (vs' & M & AL'). exists ((b, false) :: vs'). rewrite M. cbn [rbind]. split; [reflexivity|].
        constructor; [|exact AL']. split; [cbn; congruence|]. rewrite FG. exact LT.
  Qed.
  Lemma multi_chunks_ok : forall n i aggs vs rs, (i + n = length chunks)%nat -> Forall (fun a => formula (length ds) (a_expr a)) aggs ->
    all_later n i aggs vs rs ->
    exists vs', multi_chunks dbg neg tie aggs ds mask vs (seq i n) = Ok vs' /\ map fst vs' = rs.
  Proof using TB SM SZ.
    induction n as [|n IH]; intros i aggs vs rs LE FA AL.
    - exists vs. split; [reflexivity|]. clear - AL. induction AL as [|a [v fl] r aggs vs rs [FL LT] AL IH]; [reflexivity|].
      cbn [map fst] in *. f_equal; [|exact IH]. destruct (flag a); [now symmetry|]. cbn in LT. congruence.
    - destruct (nth_error chunks i) as [rows|] eqn:E; [|apply nth_error_None in E; lia].
      destruct (open_all_ok i rows E) as (ors & O & L & OP).
      destruct (multi_chunk_ok n i rows E aggs vs rs FA AL ors L OP) as (vs1 & M & AL1).
      destruct (IH (S i) aggs vs1 rs ltac:(lia) FA AL1) as (vs' & R & EQ). exists vs'. cbn [seq multi_chunks]. rewrite O. cbn [rbind]. rewrite M. cbn [rbind].
      auto.
  Qed.

  Lemma multi_ok aggs rs : Forall (fun a => formula (length ds) (a_expr a)) aggs ->
    Forall2 (fun a r => compute dbg neg tie a ds mask = Ok r) aggs rs -> compute_multiple dbg neg tie aggs ds mask = Ok rs.
  Proof using TB DS SM SZ.
    intros FA F2. destruct chunk_count as (d & HD & NC).
    assert (ST : exists vs, multi_start dbg tie aggs ds mask = Ok vs /\ all_later (length chunks) 0 aggs vs rs).
    { clear FA. induction F2 as [|a r aggs rs C F2 IH]; [exists []; split; [reflexivity|constructor]|].
      destruct IH as (vs & MS & AL). unfold compute in C. cbn [multi_start].
      destruct (a_expr a) as [v|o l q|k] eqn:EA.
      - exists ((agg_zero (a_kind a), false) :: vs). cbn [rbind]. rewrite MS. split; [reflexivity|]. constructor; [|exact AL].
        unfold later, flag. rewrite EA. cbn [fst snd]. split; [reflexivity|]. destruct ds as [|d' es]; [discriminate C|]. injection HD as ->. now rewrite NC in C.
      - exists ((agg_zero (a_kind a), false) :: vs). cbn [rbind]. rewrite MS. split; [reflexivity|]. constructor; [|exact AL].
        unfold later, flag. rewrite EA. cbn [fst snd]. split; [reflexivity|]. destruct ds as [|d' es]; [discriminate C|]. injection HD as ->. now rewrite NC in C.
      - destruct (nth_error ds k) as [e|]; [|discriminate C]. rewrite C. cbn [rbind]. rewrite MS. cbn [rbind]. exists ((r, true) :: vs). split; [reflexivity|].
        constructor; [|exact AL]. unfold later, flag. rewrite EA. split; reflexivity. }
    destruct ST as (vs & MS & AL). destruct (multi_chunks_ok (length chunks) 0%nat aggs vs rs eq_refl FA AL) as (vs' & MC & EQ).
    unfold compute_multiple. rewrite MS. cbn [rbind]. destruct ds as [|d' es]; [discriminate HD|]. injection HD as ->. rewrite NC, MC. cbn [rbind]. now rewrite EQ.
  Qed.
  Lemma multi_iff aggs rs : Forall (fun a => formula (length ds) (a_expr a)) aggs ->
    (compute_multiple dbg neg tie aggs ds mask = Ok rs <-> Forall2 (fun a r => compute dbg neg tie a ds mask = Ok r) aggs rs).
  Proof using TB DS SM SZ.
    intros FA. split; [|now apply multi_ok]. intros M.
    assert (EX : exists rs', Forall2 (fun a r => compute dbg neg tie a ds mask = Ok r) aggs rs').
    { unfold compute_multiple in M. destruct (multi_start dbg tie aggs ds mask) as [vs| |] eqn:MS; cbn [rbind] in M; try discriminate M. clear M rs.
      revert vs MS. induction FA as [|a aggs F FA IH]; intros vs MS; [exists []; constructor|]. cbn [multi_start] in MS.
      destruct (flag a) eqn:FG.
      - unfold flag in FG. destruct (a_expr a) as [|o l q|k] eqn:EA; try discriminate FG.
        destruct (nth_error ds k) as [e|] eqn:EN; [|discriminate MS]. destruct (agg_dispatch dbg tie (a_kind a) e mask) as [v| |] eqn:DP; cbn [rbind] in MS; try discriminate MS.
        destruct (multi_start dbg tie aggs ds mask) as [ws| |]; cbn [rbind] in MS; try discriminate MS.
        destruct (IH ws eq_refl) as (rs' & F2). exists (v :: rs'). constructor; [|exact F2]. unfold compute. now rewrite EA, EN.
      - assert (NI : ~ is_index (a_expr a)) by (unfold flag in FG; destruct (a_expr a); cbn; auto; discriminate FG).
        destruct (compute_ok a F NI) as (yss & r & _ & C & _).
        assert (MS' : exists ws, multi_start dbg tie aggs ds mask = Ok ws).
        { unfold flag in FG. destruct (a_expr a); try discriminate FG; cbn [rbind] in MS; destruct (multi_start dbg tie aggs ds mask); try discriminate MS; eauto. }
        destruct MS' as (ws & MS'). destruct (IH ws MS') as (rs' & F2). exists (r :: rs'). now constructor. }
    destruct EX as (rs' & F2). rewrite (multi_ok aggs rs' FA F2) in M. injection M as <-. exact F2.
  Qed.
End Table.

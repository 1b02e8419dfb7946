(** The accuracy of the classification experiment. *)
From Verif Require Import Base WordProofs ExprSummary Xor F64 F64Proofs F64BitsProofs Format FormatSpec File FileSpec FileSummary Codecs CodecSpec Query QuerySpec QueryProofs
  Expr ExprSpec VectorProofs Tpch TpchSpec TpchColumnProofs Text TextSpec Ucr UcrSpec UcrDistanceProofs UcrColumnProofs.
Local Open Scope N_scope.

Definition zero (x : f64) : Prop := exists s, x = S754_zero s.
Lemma signed_nonzero s z : (0 < z)%Z -> F64Proofs.signed s z <> 0%Z.
Proof. intros H E. unfold F64Proofs.signed in E. destruct s; lia. Qed.
Lemma number_zero x : is_u64 x -> number x = Some 0%Z -> zero (of_bits x).
Proof.
  intros U E. rewrite (number_scaled x U) in E. destruct (of_bits x) as [s|s| |s p e] eqn:D; cbn [scaled] in E; [now exists s| |discriminate E|].
  - apply (f_equal (fun o => match o with Some z => z | None => 1%Z end)) in E. cbv beta iota in E. exfalso. revert E. apply signed_nonzero. apply Z.pow_pos_nonneg; lia.
  - apply (f_equal (fun o => match o with Some z => z | None => 1%Z end)) in E. cbv beta iota in E. exfalso. revert E. apply signed_nonzero.
    pose proof (of_bits_canonical x U) as C. rewrite D in C. apply Z.mul_pos_pos; [reflexivity|]. apply Z.pow_pos_nonneg; [lia|]. unfold canonical in C. lia.
Qed.
Lemma alike_bits x y : is_u64 x -> is_u64 y -> alike x y -> of_bits x = of_bits y \/ (zero (of_bits x) /\ zero (of_bits y)).
Proof. intros X Y [->|[A B]]; [now left|right]. split; now apply number_zero. Qed.
Lemma square_alike a b c : a = b \/ (zero a /\ zero b) -> fmul (fsub a c) (fsub a c) = fmul (fsub b c) (fsub b c).
Proof.
  intros [->|[[s ->] [t ->]]]; [reflexivity|]. destruct c as [u|u| |u p e]; [|reflexivity|reflexivity|reflexivity].
  destruct s, t, u; reflexivity.
Qed.
Lemma distance_alike neg v v' : Forall is_u64 v -> Forall is_u64 v' -> Forall2 alike v v' -> forall w, squared_distance neg v w = squared_distance neg v' w.
Proof.
  intros U U' F w. unfold squared_distance. f_equal. revert w. induction F as [|x y v v' A F IH]; intros w; [reflexivity|]. destruct w as [|z w]; [reflexivity|].
  inversion U; inversion U'; subst. cbn [combine map]. f_equal; [|now apply IH]. apply square_alike. now apply alike_bits.
Qed.

Lemma Forall2_app_l {A B} (R : A -> B -> Prop) xs1 : forall xs2 ys, Forall2 R (xs1 ++ xs2) ys -> exists ys1 ys2, ys = ys1 ++ ys2 /\ Forall2 R xs1 ys1 /\ Forall2 R xs2 ys2.
Proof.
  induction xs1 as [|x xs1 IH]; intros xs2 ys F; [exists [], ys; repeat split; [constructor|exact F]|]. inversion F as [|? y ? ys' H F']; subst.
  destruct (IH _ _ F') as (y1 & y2 & -> & F1 & F2). exists (y :: y1), y2. repeat split; [now constructor|exact F2].
Qed.
Lemma regroup {A B} (R : A -> B -> Prop) ws : forall ys, Forall2 R (concat ws) ys -> exists vs, ys = concat vs /\ Forall2 (Forall2 R) ws vs.
Proof.
  induction ws as [|w ws IH]; intros ys F; cbn [concat] in F.
  - inversion F; subst. exists []. split; [reflexivity|constructor].
  - apply Forall2_app_l in F as (y1 & y2 & -> & F1 & F2). destruct (IH _ F2) as (vs & -> & FV). exists (y1 :: vs). split; [reflexivity|now constructor].
Qed.
Lemma Forall2_concat2 {A B} (R : A -> B -> Prop) ps vs : Forall2 (Forall2 R) ps vs -> Forall2 R (concat ps) (concat vs).
Proof. induction 1; cbn [concat]; [constructor|now apply Forall2_app]. Qed.
Lemma F2len {A B} (R : A -> B -> Prop) xs ys : Forall2 R xs ys -> length xs = length ys.
Proof. induction 1; cbn; congruence. Qed.

Lemma compare_swap a b : SFcompare a b = option_map CompOpp (SFcompare b a).
Proof.
  destruct a as [sa|sa| |sa pa ea], b as [sb|sb| |sb pb eb]; try (destruct sa); try (destruct sb); try reflexivity;
    cbn [SFcompare option_map CompOpp]; rewrite (Z.compare_antisym eb ea); destruct (eb ?= ea)%Z; cbn [CompOpp]; try reflexivity;
    rewrite (Pos.compare_cont_antisym pb pa); cbn [CompOpp]; now destruct (Pos.compare_cont Eq pb pa) eqn:X; unfold Pos.compare; rewrite ?X.
Qed.

Lemma parts_aligned len xs parts : (0 < len)%nat -> partition (records_per_chunk default_chunk_option) xs parts -> fitting len (N.of_nat (length xs)) -> aligned len parts.
Proof.
  intros LP (C & NE & L) F i part E LT. cbn [records_per_chunk default_chunk_option] in L. destruct (L i part E) as [_ LE]. specialize (LE LT). change (128 * 1024 * 1024 / 8) with 16777216 in *.
  destruct F as [F|F].
  - exfalso. destruct (nth_error parts (S i)) as [q|] eqn:Q; [|apply nth_error_None in Q; lia].
    assert (X : (length part + length q <= length (concat parts))%nat).
    { clear - E Q. revert i E Q. induction parts as [|p ps IH]; intros i E Q; [destruct i; discriminate E|]. cbn [concat]. rewrite app_length. destruct i as [|i].
      - injection E as ->. destruct ps as [|r ps]; [discriminate Q|]. cbn in Q. injection Q as ->. cbn [concat]. rewrite app_length. lia.
      - specialize (IH i E Q). lia. }
    rewrite C in X. rewrite Forall_forall in NE. specialize (NE q (nth_error_In _ _ Q)). change (2 ^ 24) with 16777216 in F. destruct q; [now destruct NE|]. cbn [length] in X. lia.
  - change (2 ^ 24) with 16777216 in F. rewrite <- LE in F. apply Nat2N.inj. rewrite Nat2N.inj_mod. exact F.
Qed.

Lemma vectors_length len (train : list (Z * list N)) : forall vs, Forall2 (Forall2 alike) (map snd train) vs ->
  Forall (fun x => length (snd x) = len /\ Forall finite_value (snd x)) train -> Forall (fun v => length v = len) vs.
Proof.
  induction train as [|x train IH]; intros vs F TF; cbn [map] in F; inversion F as [|? u ? us H F']; subst; [constructor|].
  inversion TF as [|? ? [L _] TF']; subst. constructor; [symmetry; eapply F2len, H|now apply IH].
Qed.
Lemma vectors_distance neg len v (train : list (Z * list N)) : forall vs, Forall2 (Forall2 alike) (map snd train) vs ->
  Forall (fun x => length (snd x) = len /\ Forall finite_value (snd x)) train -> Forall (Forall is_u64) vs ->
  forall i u, nth_error vs i = Some u -> exists l w, nth_error train i = Some (l, w) /\ squared_distance neg u v = squared_distance neg w v /\ Forall finite_value w.
Proof.
  induction train as [|[l w] train IH]; intros vs F TF HU i u EI; cbn [map snd] in F; inversion F as [|? u' ? us H F']; subst; [destruct i; discriminate EI|].
  inversion TF as [|? ? [L FF] TF']; subst. inversion HU as [|? ? U1 U2]; subst. cbn [snd] in *. destruct i as [|i].
  - injection EI as <-. exists l, w. split; [reflexivity|]. split; [|exact FF]. symmetry. apply distance_alike; [|exact U1|exact H]. eapply Forall_impl; [|exact FF]. intros y Y. apply Y.
  - exact (IH us F' TF' U2 i u EI).
Qed.

  Lemma label_unique neg train v l1 l2 : nearest_label neg train v l1 -> nearest_label neg train v l2 -> l1 = l2.
  Proof.
    intros (i & w & E & B) (j & u & F & C). pose proof (B j _ _ F) as X. pose proof (C i _ _ E) as Y.
    assert (i = j).
    { destruct (Nat.lt_trichotomy i j) as [L|[L|L]]; [|exact L|]; exfalso.
      - assert ((j <=? i)%nat = false) as J by (apply Nat.leb_gt; lia). rewrite J in X. assert ((i <=? j)%nat = true) as J2 by (apply Nat.leb_le; lia). rewrite J2 in Y. unfold SFltb, SFleb in *. rewrite compare_swap in Y. destruct (SFcompare (squared_distance neg w v) (squared_distance neg u v)) as [[]|]; discriminate.
      - assert ((i <=? j)%nat = false) as J by (apply Nat.leb_gt; lia). rewrite J in Y. assert ((j <=? i)%nat = true) as J2 by (apply Nat.leb_le; lia). rewrite J2 in X. unfold SFltb, SFleb in *. rewrite compare_swap in Y. destruct (SFcompare (squared_distance neg w v) (squared_distance neg u v)) as [[]|]; discriminate. }
    subst j. rewrite E in F. now injection F.
  Qed.

Section Classify.
  Variable P : platform.
  Let dbg := p_dbg P.
  Let neg := p_neg P.
  Variables (train : list (Z * list N)) (len : nat).
  Hypothesis LP : (0 < len)%nat.
  Hypothesis TR : vectors len train.
  Variables (d : decoder) (parts vss : list (list N)).
  Hypothesis PP : partition (records_per_chunk default_chunk_option) (values train) parts.
  Hypothesis AL : Forall2 (Forall2 alike) parts vss.
  Hypothesis HD : holds dbg neg d vss.
  Hypothesis FI : fitting len (N.of_nat (length (values train))).
  Variable fuel : nat.
  Hypothesis FU : (length (values train) <= fuel)%nat.

  Lemma holds_u64 : Forall is_u64 (concat vss).
  Proof using HD.
    destruct HD as (_ & _ & H). apply Forall_concat. apply Forall_forall. intros p I. apply In_nth_error in I as (i & E). now destruct (H i p E) as (_ & U & _).
  Qed.
  Lemma train_length : length (concat vss) = length (values train).
  Proof using All. rewrite <- (proj1 PP). symmetry. eapply F2len, Forall2_concat2, AL. Qed.
  Lemma vss_aligned : aligned len vss.
  Proof using All.
    pose proof (parts_aligned len _ _ LP PP FI) as A. intros i v E LT. pose proof (F2len _ _ _ AL) as L.
    destruct (nth_error parts i) as [p|] eqn:EP; [|apply nth_error_None in EP; assert (i < length vss)%nat by (apply nth_error_Some; congruence); lia].
    assert (LE : length v = length p).
    { clear - E EP AL. revert i E EP. induction AL as [|q w qs ws H F IH]; intros i E EP; [destruct i; discriminate E|]. destruct i; [injection E as <-; injection EP as <-; symmetry; eapply F2len, H|eauto]. }
    rewrite LE. apply (A i p EP). now rewrite L.
  Qed.
  Lemma found v : length v = len -> Forall finite_value v -> exists r l, knn1 dbg fuel d v = Some (Ok r) /\ label_at (map fst train) (k_index r) = Some l /\ nearest_label neg train v l.
  Proof using All.
    intros LV FV. pose proof (Forall2_concat2 _ _ _ AL) as A. rewrite (proj1 PP) in A. destruct (regroup _ _ _ A) as (vs & EV & FW).
    pose proof holds_u64 as HU. destruct TR as [TN TF].
    assert (VL : Forall (fun v => length v = len) vs).
    { exact (vectors_length len train vs FW TF). }
    assert (TGT : v <> []) by (intros ->; cbn in LV; lia). pose proof vss_aligned as VA. rewrite <- LV in VA, VL.
    destruct (knn1_ok dbg neg v TGT d vss HD VA fuel vs []) as (r & KN & NR).
    { rewrite train_length. exact FU. }
    { split; [now rewrite app_nil_r|]. split; [exact VL|]. cbn. destruct v; [congruence|cbn; lia]. }
    assert (DV : forall i u, nth_error vs i = Some u -> exists l w, nth_error train i = Some (l, w) /\ squared_distance neg u v = squared_distance neg w v /\ Forall finite_value w).
    { rewrite EV in HU. apply Forall_concat_inv in HU. exact (vectors_distance neg len v train vs FW TF HU). }
    assert (LT : length vs = length train) by (rewrite <- (F2len _ _ _ FW), map_length; reflexivity).
    destruct NR as [[NAN _]|(i & u & EI & ER & KD & B)].
    - exfalso. destruct vs as [|u vs]; [cbn in LT; destruct train; [now destruct TN|discriminate LT]|]. inversion NAN as [|? ? X _]; subst.
      destruct (DV O u eq_refl) as (l & w & _ & E & F). rewrite E in X. revert X. now apply distance_number.
    - destruct (DV i u EI) as (l & w & ET & EW & _). exists r, l. split; [exact KN|]. split.
      + rewrite ER. cbn [k_index]. unfold label_at. rewrite map_length. assert (i < length train)%nat by (apply nth_error_Some; congruence).
        assert (X : (N.of_nat i <? N.of_nat (length train)) = true) by (apply N.ltb_lt; lia). rewrite X, Nat2N.id, nth_error_map, ET. reflexivity.
      + exists i, w. split; [exact ET|]. intros j l' x EJ. destruct (nth_error vs j) as [y|] eqn:EY; [|apply nth_error_None in EY; assert (j < length train)%nat by (apply nth_error_Some; congruence); lia].
        destruct (DV j y EY) as (l2 & w2 & ET2 & EW2 & FF2). rewrite EJ in ET2. injection ET2 as <- <-.
        specialize (B j y EY). rewrite EW2, ER in B. cbn [k_distance] in B. rewrite EW in B. apply B. now apply distance_number.
  Qed.

  (** One vector, however often it is repeated. *)
  Lemma correct_decided label v : length v = len -> Forall finite_value v -> forall n, (0 < n)%nat -> forall b0,
    exists b, is_correct P fuel n d (map fst train) label v b0 = Some (Ok b) /\ (b = true <-> nearest_label neg train v label).
  Proof using All.
    intros LV FV. destruct (found v LV FV) as (r & l & KN & LA & NL). intros n NP b0. exists (label =? l)%Z. split.
    - assert (X : forall n, is_correct P fuel n d (map fst train) label v (label =? l)%Z = Some (Ok (label =? l)%Z)).
      { clear b0 n NP. induction n as [|n IH]; cbn [is_correct]; [reflexivity|]. fold dbg. rewrite KN, LA. exact IH. }
      destruct n; [lia|]. cbn [is_correct]. fold dbg. rewrite KN, LA. apply X.
    - rewrite Z.eqb_eq. split; [intros ->; exact NL|]. intros NL2. exact (label_unique _ _ _ _ _ NL2 NL).
  Qed.
  Lemma counted n tests : (0 < n)%nat -> Forall (fun x => length (snd x) = len /\ Forall finite_value (snd x)) tests -> forall k0,
    exists k, how_many (fun x => nearest_label neg train (snd x) (fst x)) tests k /\
      count_correct P fuel n d (map fst train) tests k0 = Some (Ok (k0 + N.of_nat k)).
  Proof using All.
    intros NP TF. induction TF as [|[label v] tests [LV FV] TF IH]; intros k0.
    - exists O. split; [constructor|]. cbn. now rewrite N.add_0_r.
    - cbn [snd] in LV, FV. destruct (correct_decided label v LV FV n NP false) as (b & E & B). cbn [count_correct]. rewrite E. destruct b.
      + destruct (IH (k0 + 1)) as (k & H & C). exists (S k). split; [constructor; [now apply B|exact H]|]. rewrite C. do 2 f_equal. lia.
      + destruct (IH k0) as (k & H & C). exists k. split; [|exact C]. constructor; [|exact H]. cbn [fst snd]. intros X. apply B in X. discriminate X.
  Qed.
End Classify.

Theorem accuracy_ok P scale c fuel n precision train test len :
  good_platform P -> 1 <= scale < 2 ^ 32 -> In c (experiment_configs false scale) -> config_scheme c <> SBuff ->
  (0 < len)%nat -> vectors len train -> vectors len test ->
  N.of_nat (length (values train)) < 2 ^ 32 -> fitting len (N.of_nat (length (values train))) ->
  Forall (keeps (p_log10 P) c) (values train) -> fits P c (values train) -> (0 < n)%nat -> (length (values train) <= fuel)%nat ->
  exists k, how_many (fun x => nearest_label (p_neg P) train (snd x) (fst x)) test k /\
    accuracy P fuel n precision c train test = Some (Ok (fdiv (of_Z (Z.of_nat k)) (of_Z (Z.of_nat (length test))))).
Proof.
  intros GP SB CI NB LP TR TE XL FI XK MEM NP FU. pose proof TR as [TN TF]. pose proof TE as [EN EF].
  assert (XU : Forall is_u64 (values train)).
  { unfold values. apply Forall_concat, Forall_map. eapply Forall_impl; [|exact TF]. intros x [_ F]. eapply Forall_impl; [|exact F]. intros y Y. apply Y. }
  assert (XN : values train <> []).
  { destruct train as [|x l]; [now destruct TN|]. inversion TF as [|? ? [L _] _]; subst. unfold values. cbn [map concat]. destruct (snd x); [cbn in LP; lia|discriminate]. }
  destruct (column_opens P GP scale SB c CI NB (values train) XU XN XL XK MEM) as (d & s & parts & vss & OP & CS & (PP & AL & HD)).
  destruct (HD precision) as (H & MT & _).
  destruct (counted P train len LP TR (with_precision d precision) parts vss PP AL H FI fuel FU n test NP EF 0) as (k & HM & C).
  exists k. split; [exact HM|]. unfold accuracy. destruct test as [|t test]; [now destruct EN|]. unfold values in OP. rewrite OP. cbn [rbind]. rewrite CS. cbn [rbind]. rewrite MT. cbn [snd rbind].
  rewrite C. rewrite N.add_0_l. now rewrite nat_N_Z.
Qed.


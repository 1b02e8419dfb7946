(** Proofs about the detection of precisions. *)
From Coq Require Import Reals Lra.
From Flocq Require Import Core BinarySingleNaN.
From Coq Require Import Sorted QArith Qabs.
From Verif Require Import Base Xor F64 F64Proofs F64Flocq QuerySpec Text TextSpec TextProofs.
Local Open Scope N_scope.

(** ** Groups *)
Definition weight (f : N -> bool) (g : groups) : nat := fold_right (fun x n => if f (fst x) then (length (snd x) + n)%nat else n) O g.
Definition count (f : N -> bool) (ps : list N) : nat := length (filter f ps).
Lemma push_weight f p s g : weight f (push_group p s g) = ((if f p then 1 else 0) + weight f g)%nat.
Proof.
  induction g as [|[q ss] g IH]; cbn [push_group]; [cbn; now destruct (f p)|]. destruct (N.compare_spec p q) as [->|L|L].
  - cbn [weight fold_right fst snd]. rewrite app_length. cbn [length]. destruct (f q); lia.
  - cbn [weight fold_right fst snd length]. destruct (f p); lia.
  - cbn [weight fold_right fst snd]. fold (weight f (push_group p s g)). fold (weight f g). rewrite IH. destruct (f q), (f p); lia.
Qed.
Lemma push_keys p s g q : In q (map fst (push_group p s g)) <-> q = p \/ In q (map fst g).
Proof.
  induction g as [|[r ss] g IH]; cbn [push_group map fst In]; [intuition|]. destruct (N.compare_spec p r) as [->|L|L]; cbn [map fst In]; [intuition..|]. rewrite IH. intuition.
Qed.
Lemma push_sorted p s g : StronglySorted N.lt (map fst g) -> StronglySorted N.lt (map fst (push_group p s g)).
Proof.
  induction g as [|[r ss] g IH]; cbn [push_group map fst]; intros S; [repeat constructor|]. destruct (N.compare_spec p r) as [->|L|L]; cbn [map fst]; [exact S| |].
  - constructor; [exact S|]. inversion S as [|? ? S' F]; subst. constructor; [exact L|]. revert F. apply Forall_impl. intros. lia.
  - inversion S as [|? ? S' F]; subst. constructor; [now apply IH|]. apply Forall_forall. intros q I. apply push_keys in I as [->|I]; [exact L|]. rewrite Forall_forall in F. auto.
Qed.
Lemma push_nonempty p s g : Forall (fun x => snd x <> []) g -> Forall (fun x => snd x <> []) (push_group p s g).
Proof.
  induction g as [|[r ss] g IH]; cbn [push_group]; intros F; [repeat constructor; discriminate|]. inversion F; subst.
  destruct (N.compare_spec p r); constructor; auto; cbn; [destruct ss; discriminate|discriminate].
Qed.
Definition groups_ok (g : groups) (ps : list N) : Prop :=
  StronglySorted N.lt (map fst g) /\ (forall q, In q (map fst g) <-> In q ps) /\ forall f, weight f g = count f ps.
Lemma count_app f a b : count f (a ++ b) = (count f a + count f b)%nat.
Proof. unfold count. now rewrite filter_app, app_length. Qed.
Lemma group_all dbg ss ps : Forall2 (fun s p => get_decimal_precision dbg s = Ok p) ss ps -> forall g qs, groups_ok g qs ->
  exists g', group_fields dbg g ss = Ok g' /\ groups_ok g' (qs ++ ps).
Proof.
  induction 1 as [|s p ss ps E FA IH]; intros g qs OK; cbn [group_fields].
  - exists g. now rewrite app_nil_r.
  - rewrite E. cbn [rbind]. destruct (IH (push_group p s g) (qs ++ [p])) as (g' & E' & OK').
    + destruct OK as (S & K & W). split; [now apply push_sorted|]. split.
      * intros q. rewrite push_keys, K, in_app_iff. cbn. intuition.
      * intros f. rewrite push_weight, W, count_app. unfold count at 3. cbn. destruct (f p); cbn; lia.
    + exists g'. split; [exact E'|]. now rewrite <- app_assoc in OK'.
Qed.
Lemma total_weight g : total_records g = N.of_nat (weight (fun _ => true) g).
Proof. induction g as [|[p ss] g IH]; [reflexivity|]. cbn [total_records fold_right snd weight fst]. fold (total_records g). fold (weight (fun _ => true) g). rewrite IH. lia. Qed.

(** ** The downward search *)
Lemma count_skip p pre acc rest : ~ In p (map fst pre) ->
  count_at p (counts_so_far acc (pre ++ rest)) = count_at p (counts_so_far (acc + N.of_nat (weight (fun _ => true) pre)) rest).
Proof.
  revert acc. induction pre as [|[q ss] pre IH]; intros acc N; cbn [app counts_so_far count_at weight fold_right fst snd]; [now rewrite N.add_0_r|].
  cbn in N. destruct (N.eqb_spec p q) as [->|]; [exfalso; apply N; now left|]. rewrite IH by tauto. f_equal. f_equal. fold (weight (fun _ => true) pre). lia.
Qed.
Lemma weight_app f a b : weight f (a ++ b) = (weight f a + weight f b)%nat.
Proof. induction a as [|[p ss] a IH]; cbn [app weight fold_right fst snd]; [reflexivity|]. fold (weight f (a ++ b)). fold (weight f a). rewrite IH. destruct (f p); lia. Qed.
Lemma weight_rev f g : weight f (rev g) = weight f g.
Proof. induction g as [|x g IH]; [reflexivity|]. cbn [rev]. rewrite weight_app, IH. cbn [weight fold_right]. fold (weight f g). destruct (f (fst x)); lia. Qed.
Lemma weight_all f g : Forall (fun x => f (fst x) = true) g -> weight f g = weight (fun _ => true) g.
Proof. induction 1 as [|x g H F IH]; [reflexivity|]. cbn [weight fold_right]. fold (weight f g). fold (weight (fun _ => true) g). now rewrite H, IH. Qed.
Lemma weight_none f g : Forall (fun x => f (fst x) = false) g -> weight f g = O.
Proof. induction 1 as [|x g H F IH]; [reflexivity|]. cbn [weight fold_right]. fold (weight f g). now rewrite H, IH. Qed.
Definition down (a b : N) : Prop := b < a.
Lemma sorted_app {A} (R : A -> A -> Prop) a b : StronglySorted R (a ++ b) -> StronglySorted R b /\ forall x y, In x a -> In y b -> R x y.
Proof.
  induction a as [|z a IH]; cbn [app]; intros S; [split; [exact S|intros x y []]|]. inversion S as [|? ? S' F]; subst. destruct (IH S') as [SB H]. split; [exact SB|].
  intros x y [<-|I] J; [|auto]. rewrite Forall_forall in F. apply F. apply in_or_app. now right.
Qed.
Lemma count_here pre p ss post : StronglySorted down (map fst (pre ++ (p, ss) :: post)) ->
  count_at p (counts_so_far 0 (pre ++ (p, ss) :: post)) = Ok (N.of_nat (weight (fun q => p <=? q) (pre ++ (p, ss) :: post))).
Proof.
  rewrite map_app. cbn [map fst]. intros S. destruct (sorted_app _ _ _ S) as [S1 H]. inversion S1 as [|? ? S2 F]; subst.
  rewrite count_skip; [|intros I; specialize (H p p I (or_introl eq_refl)); unfold down in H; lia]. cbn [counts_so_far count_at]. rewrite N.eqb_refl. f_equal.
  rewrite weight_app. cbn [weight fold_right fst snd]. fold (weight (fun q => p <=? q) post). rewrite N.leb_refl.
  rewrite (weight_all (fun q => p <=? q) pre), (weight_none (fun q => p <=? q) post); [lia| |].
  - apply Forall_forall. intros [q qs] I. rewrite Forall_forall in F. specialize (F q (in_map fst _ _ I)). unfold down in F. cbn. lia.
  - apply Forall_forall. intros [q qs] I. specialize (H q p (in_map fst _ _ I) (or_introl eq_refl)). unfold down in H. cbn. lia.
Qed.
Lemma sorted_rev (l : list N) : StronglySorted N.lt l -> StronglySorted down (rev l).
Proof.
  intros S. induction S as [|x l S IH F]; [constructor|]. cbn [rev]. clear S. assert (G : Forall (fun y => x < y) (rev l)) by now apply Forall_rev.
  induction IH as [|y m S IHS F']; cbn [app]; [repeat constructor|]. inversion G; subst. constructor; [now apply IHS|]. apply Forall_app. split; [exact F'|]. constructor; [assumption|constructor].
Qed.
Section Search.
  Variables (threshold : f64) (total : N) (all : groups).
  Let rare (p : N) : bool := flt (fdiv (of_Z (Z.of_nat (weight (fun q => p <=? q) all))) (of_Z (Z.of_N total))) threshold.
  Hypothesis SD : StronglySorted down (map fst all).
  Lemma search rest pre : all = pre ++ rest ->
    (first_not_rare threshold total (counts_so_far 0 all) rest = Ok None /\ Forall (fun p => rare p = true) (map fst rest)) \/
    (exists p, first_not_rare threshold total (counts_so_far 0 all) rest = Ok (Some p) /\ In p (map fst rest) /\ rare p = false /\
      forall q, In q (map fst rest) -> p < q -> rare q = true).
  Proof using SD.
    revert pre. induction rest as [|[p ss] rest IH]; intros pre E; [left; split; [reflexivity|constructor]|].
    assert (C : count_at p (counts_so_far 0 all) = Ok (N.of_nat (weight (fun q => p <=? q) all))) by (rewrite E in *; now apply count_here).
    cbn [first_not_rare map fst]. rewrite C. cbn [rbind]. rewrite nat_N_Z. fold (rare p). destruct (rare p) eqn:R.
    - destruct (IH (pre ++ [(p, ss)])) as [[E' F]|(q & E' & I & RQ & M)]; [now rewrite <- app_assoc| |].
      + left. split; [exact E'|]. now constructor.
      + right. exists q. split; [exact E'|]. split; [now right|]. split; [exact RQ|]. intros q' [<-|I'] L; auto.
    - right. exists p. split; [reflexivity|]. split; [now left|]. split; [exact R|]. intros q [<-|I] L; [lia|].
      exfalso. rewrite E, map_app in SD. cbn [map fst] in SD. destruct (sorted_app _ _ _ SD) as [S1 _]. inversion S1 as [|? ? _ F]; subst. rewrite Forall_forall in F. specialize (F q I). unfold down in F. lia.
  Qed.
End Search.

(** What [detect] returns, in terms of the precisions of the fields. *)
Definition at_least (p : N) (ps : list N) : nat := count (fun q => p <=? q) ps.
Definition is_rare (threshold : f64) (p : N) (ps : list N) : bool :=
  flt (fdiv (of_Z (Z.of_nat (at_least p ps))) (of_Z (Z.of_nat (length ps)))) threshold.
Lemma detect_spec dbg threshold pat content ps :
  Forall2 (fun s p => get_decimal_precision dbg s = Ok p) (fields_of pat content) ps ->
  (detect dbg threshold pat content = Ok None /\ Forall (fun p => is_rare threshold p ps = true) ps) \/
  (exists p, detect dbg threshold pat content = Ok (Some p) /\ In p ps /\ is_rare threshold p ps = false /\
    forall q, In q ps -> p < q -> is_rare threshold q ps = true).
Proof.
  intros FA. destruct (group_all dbg _ _ FA [] []) as (g & E & S & K & W); [split; [constructor|split; [reflexivity|reflexivity]]|]. cbn [app] in *.
  unfold detect. rewrite E. cbn [rbind].
  assert (SD : StronglySorted down (map fst (rev g))) by (rewrite map_rev; now apply sorted_rev).
  assert (T : total_records g = N.of_nat (length ps)).
  { rewrite total_weight, W. unfold count. f_equal. f_equal. clear. induction ps; cbn; congruence. }
  assert (R : forall p, flt (fdiv (of_Z (Z.of_nat (weight (fun q => p <=? q) (rev g)))) (of_Z (Z.of_N (total_records g)))) threshold = is_rare threshold p ps).
  { intros p. rewrite weight_rev, W, T, nat_N_Z. reflexivity. }
  assert (KR : forall q, In q (map fst (rev g)) <-> In q ps) by (intros q; rewrite map_rev, <- in_rev; apply K).
  destruct (search threshold (total_records g) (rev g) SD (rev g) [] eq_refl) as [[E' F]|(p & E' & I & RP & M)]; rewrite E'.
  - left. split; [reflexivity|]. apply Forall_forall. intros p I. rewrite Forall_forall in F. rewrite <- R. apply F. now apply KR.
  - right. exists p. split; [reflexivity|]. split; [now apply KR|]. rewrite <- R. split; [exact RP|]. intros q J L. rewrite <- R. apply M; [now apply KR|exact L].
Qed.

(** ** The thresholds *)
Lemma Z_exact z : (0 <= z <= 2 ^ 53)%Z -> real (of_Z z) = IZR z /\ finite (of_Z z) /\ canonical (of_Z z).
Proof.
  intros B. assert (A : (Z.abs z <= 2 ^ 53)%Z) by lia. split; [now apply of_Z_exact|]. apply (of_Z_real z). transitivity (2 ^ 53)%Z; [exact A|]. apply Z.pow_le_mono_r; lia.
Qed.
Lemma quotient_real n t : (0 <= n <= t)%Z -> (0 < t <= 2 ^ 53)%Z ->
  real (fdiv (of_Z n) (of_Z t)) = rnd (IZR n / IZR t) /\ finite (fdiv (of_Z n) (of_Z t)) /\ canonical (fdiv (of_Z n) (of_Z t)).
Proof.
  intros N T. destruct (Z_exact n) as (RN & FN & CN); [lia|]. destruct (Z_exact t) as (RT & FT & CT); [lia|].
  assert (TP : (0 < IZR t)%R) by (apply IZR_lt; lia). assert (NP : (0 <= IZR n <= IZR t)%R) by (split; apply IZR_le; lia).
  rewrite <- RN, <- RT. apply fdiv_real; auto; [rewrite RT; lra|]. rewrite RN, RT. apply Rle_lt_trans with (bpow radix2 0); [|apply bpow_lt; reflexivity].
  apply rnd_abs_le; [apply format_bpow; lia|]. assert (Q : (0 <= IZR n / IZR t <= 1)%R).
  { split; [apply Rmult_le_pos; [lra|]; apply Rlt_le, Rinv_0_lt_compat; lra|]. apply Rmult_le_reg_r with (IZR t); [lra|]. unfold Rdiv. rewrite Rmult_assoc, Rinv_l by lra. lra. }
  rewrite Rabs_pos_eq by lra. cbn. lra.
Qed.
Lemma rare_exact n t : (0 <= n <= t)%Z -> (0 < t <= 2 ^ 53)%Z -> flt (fdiv (of_Z n) (of_Z t)) (S754_zero false) = false.
Proof.
  intros N T. destruct (quotient_real n t N T) as (R & F & C). destruct (flt _ _) eqn:E; [|reflexivity]. exfalso.
  apply flt_real in E; auto; try exact Logic.I. rewrite R in E. change (real (S754_zero false)) with 0%R in E.
  assert (Q : (0 <= rnd (IZR n / IZR t))%R); [|lra]. rewrite <- rnd_0. apply rnd_mono. apply Rmult_le_pos; [apply IZR_le; lia|]. apply Rlt_le, Rinv_0_lt_compat, IZR_lt. lia.
Qed.
Lemma one_percent_real : real one_percent = rnd (1 / 100) /\ finite one_percent /\ canonical one_percent.
Proof. replace one_percent with (fdiv (of_Z 1) (of_Z 100)) by (vm_compute; reflexivity). apply quotient_real; [lia|]. split; [lia|]. vm_compute. discriminate. Qed.
Lemma below_one_percent : (rnd (IZR (2 ^ 46 - 1) / IZR (100 * 2 ^ 46)) < rnd (1 / 100))%R.
Proof.
  destruct (quotient_real (2 ^ 46 - 1) (100 * 2 ^ 46)) as (R & F & C); [split; vm_compute; discriminate|split; [reflexivity|vm_compute; discriminate]|].
  destruct one_percent_real as (R1 & F1 & C1). rewrite <- R, <- R1. apply flt_real; auto.
Qed.
Lemma ratio_le a b c d : (0 < b)%Z -> (0 < d)%Z -> (a * d <= c * b)%Z -> (IZR a / IZR b <= IZR c / IZR d)%R.
Proof.
  intros B D H. apply IZR_lt in B, D. apply IZR_le in H. rewrite !mult_IZR in H. apply Rmult_le_reg_r with (IZR b * IZR d)%R; [now apply Rmult_lt_0_compat|].
  replace (IZR a / IZR b * (IZR b * IZR d))%R with (IZR a * IZR d)%R by (field; lra). replace (IZR c / IZR d * (IZR b * IZR d))%R with (IZR c * IZR b)%R by (field; lra). exact H.
Qed.
Lemma rare_percent n t : (0 <= n <= t)%Z -> (0 < t <= 2 ^ 46)%Z -> flt (fdiv (of_Z n) (of_Z t)) one_percent = (100 * n <? t)%Z.
Proof.
  intros N T. change (2 ^ 46)%Z with 70368744177664%Z in T. destruct (quotient_real n t N) as (R & F & C); [change (2 ^ 53)%Z with 9007199254740992%Z; lia|].
  destruct one_percent_real as (R1 & F1 & C1). destruct (Z.ltb_spec (100 * n) t) as [L|L].
  - apply flt_real; auto. rewrite R, R1. apply Rle_lt_trans with (2 := below_one_percent). apply rnd_mono, ratio_le; [lia|reflexivity|].
    change (2 ^ 46 - 1)%Z with 70368744177663%Z. change (100 * 2 ^ 46)%Z with 7036874417766400%Z. nia.
  - destruct (flt _ _) eqn:E; [|reflexivity]. exfalso. apply flt_real in E; auto. rewrite R, R1 in E. apply Rlt_not_le in E. apply E. apply rnd_mono, ratio_le; lia.
Qed.

(** ** Documents *)
Lemma numeral_precisions dbg sep rows last ns : separator sep -> words rows last = map spelling ns -> Forall moderate ns ->
  Forall2 (fun s p => get_decimal_precision dbg s = Ok p) (fields_of sep (document sep rows last)) (map digits_needed ns).
Proof.
  intros S E M. assert (W : Forall well_formed ns) by (revert M; apply Forall_impl; now intros n []).
  rewrite document_fields, E; [|exact S|rewrite E; now apply spellings_words]. clear E W. induction M as [|n ns H M IH]; [constructor|]. constructor; [now apply precision_of_numeral|exact IH].
Qed.
Lemma needed_small n : moderate n -> digits_needed n < 2 ^ 31.
Proof. intros (_ & _ & _ & P). unfold digits_needed. change (2 ^ 31)%Z with 2147483648%Z in P. change (2 ^ 31) with 2147483648. lia. Qed.
Lemma at_least_le p ps : (at_least p ps <= length ps)%nat.
Proof. unfold at_least, count. induction ps as [|q ps IH]; cbn; [lia|]. destruct (p <=? q); cbn; lia. Qed.
Lemma least_all ps : ps <> [] -> exists p, In p ps /\ at_least p ps = length ps.
Proof.
  intros NE. assert (E : exists p, In p ps /\ Forall (fun q => p <= q) ps).
  { induction ps as [|p ps IH]; [easy|]. destruct ps as [|q ps]; [exists p; split; [now left|repeat constructor; lia]|].
    destruct IH as (r & I & F); [discriminate|]. destruct (N.le_gt_cases p r) as [L|L].
    - exists p. split; [now left|]. constructor; [lia|]. revert F. apply Forall_impl. intros. lia.
    - exists r. split; [now right|]. constructor; [lia|exact F]. }
  destruct E as (p & I & F). exists p. split; [exact I|]. unfold at_least, count. clear I NE. induction F as [|q ps H F IH]; [reflexivity|]. cbn [filter]. replace (p <=? q) with true by lia. cbn. now rewrite IH.
Qed.
Lemma count_how_many {A} (P : A -> Prop) (f : A -> bool) (l : list A) k : (forall x, In x l -> P x <-> f x = true) -> how_many P l k -> k = length (filter f l).
Proof.
  intros H C. induction C as [|x xs n Y C IH|x xs n Y C IH]; [reflexivity| |]; cbn [filter].
  - rewrite (proj1 (H x (or_introl eq_refl)) Y). cbn. f_equal. apply IH. intros z I. apply H. now right.
  - destruct (f x) eqn:E; [exfalso; apply Y, H; [now left|exact E]|]. apply IH. intros z I. apply H. now right.
Qed.
Lemma count_map {A} (g : A -> N) f l : count f (map g l) = length (filter (fun x => f (g x)) l).
Proof. unfold count. induction l as [|x l IH]; [reflexivity|]. cbn. destruct (f (g x)); cbn; now rewrite IH. Qed.

(** The precision chosen when no field may be ignored. *)
Theorem exact_precision dbg sep rows last ns : separator sep -> words rows last = map spelling ns -> Forall moderate ns -> ns <> [] ->
  N.of_nat (length (ns)) <= 2 ^ 46 ->
  exists p, get_appropriate_precision dbg sep true (document sep rows last) = Ok p /\ p < 2 ^ 31 /\
    In p (map digits_needed (ns)) /\ Forall (fun n => digits_needed n <= p) (ns).
Proof.
  intros S W M NE L. set (ps := map digits_needed ns).
  assert (T : (0 < Z.of_nat (length ps) <= 2 ^ 53)%Z).
  { unfold ps. rewrite map_length. change (2 ^ 46) with 70368744177664 in L. change (2 ^ 53)%Z with 9007199254740992%Z. destruct ns; [easy|]. cbn [length] in *. lia. }
  assert (NR : forall p, is_rare (S754_zero false) p ps = false).
  { intros p. apply rare_exact; [|exact T]. pose proof (at_least_le p ps). lia. }
  destruct (detect_spec dbg (S754_zero false) sep _ ps (numeral_precisions dbg sep rows last ns S W M)) as [[_ F]|(p & E & I & _ & Max)].
  - exfalso. unfold ps in F. destruct ns as [|n ns']; [easy|]. inversion F as [|? ? F1 _]; subst. change (is_rare (S754_zero false) (digits_needed n) ps = true) in F1. now rewrite NR in F1.
  - exists p. assert (P31 : p < 2 ^ 31).
    { apply in_map_iff in I as (n & <- & I). apply needed_small. rewrite Forall_forall in M. now apply M. }
    unfold get_appropriate_precision. rewrite E. cbn [rbind]. replace (p <? two32) with true by (unfold two32; change (2 ^ 31) with 2147483648 in P31; lia).
    split; [reflexivity|]. split; [exact P31|]. split; [exact I|]. apply Forall_forall. intros n J. destruct (N.le_gt_cases (digits_needed n) p) as [H|H]; [exact H|].
    exfalso. specialize (Max (digits_needed n) (in_map digits_needed _ _ J) H). now rewrite NR in Max.
Qed.

(** With the threshold of one percent. *)
Theorem common_precision dbg sep rows last ns : separator sep -> words rows last = map spelling ns -> Forall moderate ns -> ns <> [] ->
  N.of_nat (length (ns)) <= 2 ^ 46 ->
  exists p, detect dbg one_percent sep (document sep rows last) = Ok (Some p) /\ p < 2 ^ 31 /\
    In p (map digits_needed (ns)) /\
    (length (ns) <= 100 * length (filter (fun n => (p <=? digits_needed n)%N) (ns)))%nat /\
    (100 * length (filter (fun n => (p <? digits_needed n)%N) (ns)) < length (ns))%nat.
Proof.
  intros S W M NE L. set (ps := map digits_needed ns).
  assert (LP : length ps = length ns) by apply map_length.
  assert (T : (0 < Z.of_nat (length ps) <= 2 ^ 46)%Z).
  { rewrite LP. change (2 ^ 46) with 70368744177664 in L. change (2 ^ 46)%Z with 70368744177664%Z. destruct ns; [easy|]. cbn [length] in *. lia. }
  assert (R : forall p, is_rare one_percent p ps = (100 * Z.of_nat (at_least p ps) <? Z.of_nat (length ps))%Z).
  { intros p. apply rare_percent; [|exact T]. pose proof (at_least_le p ps). lia. }
  destruct (detect_spec dbg one_percent sep _ ps (numeral_precisions dbg sep rows last ns S W M)) as [[_ F]|(p & E & I & RP & Max)].
  - exfalso. destruct (least_all ps) as (p & I & A); [unfold ps; destruct ns; [easy|discriminate]|]. rewrite Forall_forall in F. specialize (F p I). rewrite R, A in F. lia.
  - exists p. split; [exact E|]. split; [apply in_map_iff in I as (n & <- & I); apply needed_small; rewrite Forall_forall in M; now apply M|]. split; [exact I|].
    rewrite R in RP. unfold at_least in RP. split.
    + unfold ps in RP. rewrite count_map in RP. fold ps in RP. lia.
    + destruct (filter (fun n => p <? digits_needed n) ns) as [|n0 rest] eqn:FE; [cbn; destruct ns; [easy|cbn; lia]|].
      (* the least precision above p *)
      set (hs := map digits_needed (filter (fun n => p <? digits_needed n) ns)).
      destruct (least_all hs) as (q & IQ & AQ); [unfold hs; rewrite FE; discriminate|].
      unfold hs in IQ. apply in_map_iff in IQ as (n & <- & IN). apply filter_In in IN as [IN LT].
      specialize (Max (digits_needed n) (in_map digits_needed _ _ IN) ltac:(lia)). rewrite R in Max.
      assert (GE : (length hs <= at_least (digits_needed n) ps)%nat).
      { rewrite <- AQ. unfold at_least, hs, ps. rewrite !count_map. clear. induction ns as [|m ns IH]; [cbn; lia|]. cbn [filter]. destruct (p <? digits_needed m); cbn [filter]; destruct (_ <=? digits_needed m); cbn [length]; lia. }
      rewrite <- FE. unfold hs in GE. rewrite map_length in GE. lia.
Qed.

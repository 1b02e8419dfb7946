(** Proofs about the generated filters. *)
From Coq Require Import String Sorted Permutation.
From Verif Require Import Base WordProofs Xor F64 F64Proofs Format Query QuerySpec QueryProofs Harness HarnessSpec.

Definition value_of (x : N) : Z := match number x with Some z => z | None => 0%Z end.
Definition proper (x : N) : Prop := is_u64 x /\ number x <> None.
Lemma related_value R x y : proper x -> proper y -> (related R x y <-> R (value_of x) (value_of y)).
Proof. intros (_ & X) (_ & Y). unfold related, value_of. destruct (number x), (number y); tauto. Qed.
Lemma flt_value x y : proper x -> proper y -> (flt (of_bits x) (of_bits y) = true <-> (value_of x < value_of y)%Z).
Proof. intros X Y. rewrite <- (related_value Z.lt x y X Y). apply flt_related; [apply X|apply Y]. Qed.

(** ** Sorting *)
Definition sorted (l : list N) : Prop := StronglySorted (fun x y => (value_of x <= value_of y)%Z) l.
Lemma insert_perm x l : Permutation (insert_sorted x l) (x :: l).
Proof.
  induction l as [|y l IH]; cbn [insert_sorted]; [reflexivity|]. destruct (flt (of_bits x) (of_bits y)); [reflexivity|].
  rewrite IH. apply perm_swap.
Qed.
Lemma insert_keeps x l : proper x -> Forall proper l -> sorted l -> sorted (insert_sorted x l).
Proof.
  intros PX PL S. induction S as [|y l S IH H]; cbn [insert_sorted]; [constructor; constructor|]. inversion PL as [|? ? PY PL']; subst.
  destruct (flt (of_bits x) (of_bits y)) eqn:E.
  - apply (flt_value x y PX PY) in E. constructor; [constructor; assumption|]. constructor; [lia|]. revert H. apply Forall_impl. intros z. lia.
  - assert (L : (value_of y <= value_of x)%Z).
    { destruct (Z.lt_ge_cases (value_of x) (value_of y)) as [C|C]; [|lia]. apply (flt_value x y PX PY) in C. congruence. }
    constructor; [now apply IH|]. apply (Permutation_Forall (Permutation_sym (insert_perm x l))). constructor; assumption.
Qed.
Lemma sort_fold xs : forall l, Forall proper xs -> Forall proper l -> sorted l ->
  let r := fold_left (fun l x => insert_sorted x l) xs l in Permutation r (xs ++ l) /\ sorted r.
Proof.
  induction xs as [|x xs IH]; intros l PX PL S; cbn [fold_left app]; [split; [reflexivity|exact S]|]. inversion PX as [|? ? P PX']; subst.
  assert (PI : Forall proper (insert_sorted x l)) by (apply (Permutation_Forall (Permutation_sym (insert_perm x l))); constructor; assumption).
  destruct (IH (insert_sorted x l) PX' PI (insert_keeps x l P PL S)) as (Q & S'). split; [|exact S'].
  rewrite Q, insert_perm. symmetry. apply Permutation_middle.
Qed.
Lemma sort_spec xs : Forall proper xs -> Permutation (sort_floats xs) xs /\ sorted (sort_floats xs).
Proof. intros P. destruct (sort_fold xs [] P (Forall_nil _) (SSorted_nil _)) as (Q & S). rewrite app_nil_r in Q. now split. Qed.

(** ** Counting *)
Lemma keep_count p : forall xs ys, keep p xs ys -> forall f, (forall x, In x xs -> f x = true <-> satisfies p x) -> length ys = length (filter f xs).
Proof.
  induction 1 as [|x xs ys H _ IH|x xs ys H _ IH]; intros f F; [reflexivity| |]; cbn [filter].
  - rewrite (proj2 (F x (in_eq _ _)) H). cbn [length]. f_equal. apply IH. intros z I. apply F. now right.
  - destruct (f x) eqn:E; [exfalso; apply H; now apply (F x (in_eq _ _))|]. apply IH. intros z I. apply F. now right.
Qed.
Lemma filter_perm {A} (f : A -> bool) l l' : Permutation l l' -> length (filter f l) = length (filter f l').
Proof.
  induction 1 as [|x l l' _ IH|x y l|l l' l'' _ IH _ IH']; cbn [filter]; [reflexivity| | |congruence].
  - destruct (f x); cbn [length]; congruence.
  - destruct (f x), (f y); reflexivity.
Qed.
Definition above_b (strict : bool) (v x : N) : bool := if strict then (value_of v <? value_of x)%Z else (value_of v <=? value_of x)%Z.
(** At most [n - 1 - k] elements lie above the k-th, at least [n - k] not below. *)
Lemma filter_sorted_strict l v : sorted l -> forall k, nth_error l k = Some v ->
  (length (filter (above_b true v) l) + k < length l)%nat /\ (length l <= length (filter (above_b false v) l) + k)%nat /\
  (NoDup (map value_of l) -> length (filter (above_b true v) l) + k + 1 = length l)%nat.
Proof.
  assert (LE : forall (f : N -> bool) l, (length (filter f l) <= length l)%nat).
  { intros f l0. induction l0 as [|a l0 IH]; cbn [filter length]; [lia|]. destruct (f a); cbn [length]; lia. }
  assert (ALL : forall (f : N -> bool) l, Forall (fun x => f x = true) l -> length (filter f l) = length l).
  { intros f l0. induction 1 as [|a l0 Ha _ IH]; cbn [filter]; [reflexivity|]. rewrite Ha. cbn [length]. lia. }
  intros S. induction S as [|y l S IH H]; intros k E; [destruct k; discriminate|]. destruct k as [|k]; cbn [nth_error] in E.
  - injection E as ->. cbn [filter length above_b]. rewrite Z.ltb_irrefl, Z.leb_refl. cbn [length].
    fold (above_b true v) (above_b false v). pose proof (LE (above_b true v) l). rewrite (ALL (above_b false v)).
    2:{ revert H. apply Forall_impl. intros z L. apply Z.leb_le, L. }
    split; [lia|]. split; [lia|]. intros ND. cbn [map] in ND. inversion ND as [|? ? NI _]; subst. rewrite ALL; [lia|].
    rewrite Forall_forall in *. intros z I. apply Z.ltb_lt. specialize (H z I).
    assert (value_of v <> value_of z) by (intros X; apply NI; rewrite X; now apply in_map). lia.
  - destruct (IH k E) as (A & B & C). assert (L : (value_of y <= value_of v)%Z).
    { rewrite Forall_forall in H. apply H. eapply nth_error_In; eassumption. }
    cbn [filter length]. replace (above_b true v y) with false by (symmetry; apply Z.ltb_ge; exact L).
    split; [lia|]. split; [destruct (above_b false v y); cbn [length]; lia|].
    intros ND. cbn [map] in ND. inversion ND as [|? ? NI ND']; subst. specialize (C ND'). lia.
Qed.

Lemma distinct_values xs : Forall proper xs -> NoDup (map number xs) -> NoDup (map value_of xs).
Proof.
  intros P ND. apply (NoDup_map_inv Some). replace (map Some (map value_of xs)) with (map number xs); [exact ND|].
  clear ND. induction P as [|x xs (_ & PX) P IH]; [reflexivity|]. cbn [map]. rewrite IH. f_equal. unfold value_of. destruct (number x); [reflexivity|congruence].
Qed.
Lemma percentile xs k v : Forall proper xs -> nth_error (sort_floats xs) k = Some v -> proper v /\ percentile_of xs v k.
Proof.
  intros P E. destruct (sort_spec xs P) as (Q & S).
  assert (IV : In v xs) by (apply (Permutation_in _ Q); eapply nth_error_In; eassumption).
  assert (PV : proper v) by (rewrite Forall_forall in P; now apply P).
  destruct (filter_sorted_strict _ _ S k E) as (A & B & C).
  rewrite (filter_perm _ _ _ Q), (Permutation_length Q) in A, C. rewrite (filter_perm _ _ _ Q), (Permutation_length Q) in B.
  split; [exact PV|]. split; [exact IV|]. pose proof P as PP. rewrite Forall_forall in P. split.
  - intros m (ys & K & <-). rewrite (keep_count _ _ _ K (above_b true v)).
    + split; [exact A|]. intros ND. apply C. apply (distinct_values xs PP) in ND. apply (Permutation_NoDup (Permutation_sym (Permutation_map value_of Q)) ND).
    + intros x I. cbn [satisfies above below above_b]. rewrite (related_value Z.lt v x PV (P x I)), Z.ltb_lt. tauto.
  - intros m (ys & K & <-). rewrite (keep_count _ _ _ K (above_b false v)); [exact B|].
    intros x I. cbn [satisfies above below above_b]. rewrite (related_value Z.le v x PV (P x I)), Z.leb_le. tauto.
Qed.
Lemma equal_ones xs v m k : Forall proper xs -> In v xs -> selects (PEq v) xs m -> selects (PNe v) xs k -> (1 <= m /\ m + k = length xs)%nat.
Proof.
  intros P I (ys & K & <-) (zs & K' & <-). rewrite Forall_forall in P.
  assert (R : forall x, In x xs -> satisfies (PEq v) x <-> (value_of x =? value_of v)%Z = true).
  { intros x J. cbn [satisfies]. rewrite (related_value eq x v (P x J) (P v I)), Z.eqb_eq. tauto. }
  rewrite (keep_count _ _ _ K (fun x => (value_of x =? value_of v)%Z)) by (intros x J; symmetry; now apply R).
  rewrite (keep_count _ _ _ K' (fun x => negb (value_of x =? value_of v)%Z)).
  2:{ intros x J. cbn [satisfies]. specialize (R x J). cbn [satisfies] in R. rewrite R, Bool.negb_true_iff. destruct (value_of x =? value_of v)%Z; split; congruence. }
  clear - I. split.
  - assert (J : In v (filter (fun x => (value_of x =? value_of v)%Z) xs)) by (apply filter_In; split; [exact I|apply Z.eqb_refl]).
    destruct (filter _ xs); [contradiction|]. cbn [length]. lia.
  - clear I. induction xs as [|x xs IH]; [reflexivity|]. cbn [filter]. destruct (value_of x =? value_of v)%Z; cbn [negb length]; lia.
Qed.

(** ** The five filters *)
Lemma nan_number x : is_u64 x -> (is_nan (of_bits x) = true <-> number x = None).
Proof.
  intros U. split; intros H; [|now apply number_none]. destruct (number x) as [a|] eqn:E; [|reflexivity].
  pose proof (number_some x a U E). congruence.
Qed.
Lemma filter_configs_ok xs : xs <> [] -> Forall proper xs -> exists ten half ninety,
  filter_configs xs = Ok [(PRange (Exclusive ten) Unbounded, "greater_10th_percentile"%string); (PRange (Exclusive half) Unbounded, "greater_50th_percentile"%string);
    (PRange (Exclusive ninety) Unbounded, "greater_90th_percentile"%string); (PEq half, "eq"%string); (PNe half, "ne"%string)] /\
  nth_error (sort_floats xs) (length xs * 10 / 100) = Some ten /\ nth_error (sort_floats xs) (length xs * 50 / 100) = Some half /\
  nth_error (sort_floats xs) (length xs * 90 / 100) = Some ninety.
Proof.
  intros NE P. unfold filter_configs.
  assert (NN : existsb (fun x => is_nan (of_bits x)) xs = false).
  { destruct (existsb (fun x => is_nan (of_bits x)) xs) eqn:E; [|reflexivity]. apply existsb_exists in E. destruct E as (x & I & E).
    rewrite Forall_forall in P. destruct (P x I) as (U & N). apply nan_number in E; [contradiction|exact U]. }
  rewrite NN. destruct (sort_spec xs P) as (Q & _). apply Permutation_length in Q.
  assert (L : (0 < length xs)%nat) by (destruct xs; [contradiction|cbn [length]; lia]).
  assert (G : forall k, (k < length xs)%nat -> exists v, nth_error (sort_floats xs) k = Some v).
  { intros k H. destruct (nth_error (sort_floats xs) k) eqn:E; [eauto|]. apply nth_error_None in E. lia. }
  assert (Q1 : (length xs * 10 / 100 < length xs)%nat) by (apply Nat.div_lt_upper_bound; lia).
  assert (Q2 : (length xs * 50 / 100 < length xs)%nat) by (apply Nat.div_lt_upper_bound; lia).
  assert (Q3 : (length xs * 90 / 100 < length xs)%nat) by (apply Nat.div_lt_upper_bound; lia).
  destruct (G _ Q1) as (a & A), (G _ Q2) as (b & B), (G _ Q3) as (c & C). exists a, b, c.
  replace (N.to_nat (N.of_nat (length xs) * 10 / 100)) with (length xs * 10 / 100)%nat by lia.
  replace (N.to_nat (N.of_nat (length xs) / 2)) with (length xs * 50 / 100)%nat by lia.
  replace (N.to_nat (N.of_nat (length xs) * 90 / 100)) with (length xs * 90 / 100)%nat by lia.
  unfold nth_float. rewrite A, B, C. repeat split.
Qed.

(** ** The directory *)
Lemma ordinary_finite x : ordinary x -> proper x /\ Harness.is_finite (of_bits x) = true.
Proof.
  intros (U & z & E & B). split; [split; [exact U|congruence]|]. destruct (of_bits x) as [|s| |] eqn:F; try reflexivity; exfalso.
  - pose proof (number_inf x s F U) as E'. rewrite E in E'. apply some_eq in E'. subst z. change (2 ^ 2098)%Z with top in B. clear - B.
    assert (T : (0 < top)%Z) by (apply Z.pow_pos_nonneg; lia). set (t := top) in *. clearbody t. destruct s; lia.
  - apply (number_some x z U) in E. rewrite F in E. discriminate.
Qed.
Lemma infinite_not x : proper x -> ~ ordinary x -> Harness.is_finite (of_bits x) = false.
Proof.
  intros (U & N) NO. destruct (of_bits x) as [s|s| |s m e] eqn:F; try reflexivity; exfalso; apply NO.
  - split; [exact U|]. destruct (number x) as [z|] eqn:E; [|contradiction]. exists z. split; [reflexivity|].
    assert (L := number_finite x z E U ltac:(intros ?; rewrite F; discriminate)). change (2 ^ 2098)%Z with top. set (t := top) in *. clearbody t. lia.
  - split; [exact U|]. destruct (number x) as [z|] eqn:E; [|contradiction]. exists z. split; [reflexivity|].
    assert (L := number_finite x z E U ltac:(intros ?; rewrite F; discriminate)). change (2 ^ 2098)%Z with top. set (t := top) in *. clearbody t. lia.
Qed.

Lemma remove_get k : forall m j, get String.eqb j (remove k m) = if String.eqb k j then None else get String.eqb j m.
Proof.
  intros m j. induction m as [|[a p] m IH]; cbn [remove filter get]; [now destruct (String.eqb k j)|]. fold (remove k m). cbn [fst].
  destruct (String.eqb_spec k a) as [->|NE]; cbn [negb].
  - rewrite IH. destruct (String.eqb_spec a j) as [->|NE]; [reflexivity|]. destruct (String.eqb_spec j a) as [X|_]; [congruence|reflexivity].
  - cbn [get]. destruct (String.eqb_spec j a) as [->|NJ]; [|exact IH]. destruct (String.eqb_spec k a); [contradiction|reflexivity].
Qed.
Lemma removes_get ks : forall m j, get String.eqb j (fold_left (fun m k => remove k m) ks m) = if in_dec string_dec j ks then None else get String.eqb j m.
Proof.
  induction ks as [|k ks IH]; intros m j; cbn [fold_left]; [reflexivity|]. rewrite IH, remove_get.
  destruct (in_dec string_dec j ks) as [I|I], (in_dec string_dec j (k :: ks)) as [J|J]; try reflexivity.
  - exfalso. apply J. now right.
  - destruct J as [->|J]; [now rewrite String.eqb_refl|contradiction].
  - destruct (String.eqb_spec k j) as [->|_]; [|reflexivity]. exfalso. apply J. apply in_eq.
Qed.
Lemma put_get j k (v : fpred) : forall m, get String.eqb j (put String.eqb k v m) = if string_dec j k then Some v else get String.eqb j m.
Proof.
  induction m as [|[a p] m IH]; cbn [put get].
  - destruct (String.eqb_spec j k), (string_dec j k); congruence.
  - destruct (String.eqb_spec k a) as [->|NE]; cbn [get].
    + destruct (String.eqb_spec j a), (string_dec j a); congruence.
    + rewrite IH. destruct (String.eqb_spec j a) as [->|NJ]; [|reflexivity]. destruct (string_dec a k); congruence.
Qed.
(** Everything is written, or the files up to the one that cannot be read are gone. *)
Lemma write_filters_spec : forall ps created files, NoDup (map snd ps) ->
  let '(ok, files') := write_filters ps created files in
  if forallb (fun pn => pred_readable (fst pn)) ps
  then ok = true /\ (forall p name, In (p, name) ps -> get String.eqb name files' = Some p) /\
    forall j, ~ In j (map snd ps) -> get String.eqb j files' = get String.eqb j files
  else ok = false /\ exists before p name after, ps = before ++ (p, name) :: after /\ pred_readable p = false /\
    Forall (fun pn => pred_readable (fst pn) = true) before /\
    forall j, get String.eqb j files' = if in_dec string_dec j (created ++ map snd before ++ [name]) then None else get String.eqb j files.
Proof.
  induction ps as [|[p name] ps IH]; intros created files ND; cbn [write_filters forallb fst].
  - split; [reflexivity|]. split; [intros p name []|reflexivity].
  - cbn [map snd] in ND. inversion ND as [|? ? NI ND']; subst. destruct (pred_readable p) eqn:PR; cbn [andb].
    + specialize (IH (created ++ [name]) (put String.eqb name p files) ND').
      destruct (write_filters ps (created ++ [name]) (put String.eqb name p files)) as [ok files'].
      destruct (forallb (fun pn => pred_readable (fst pn)) ps).
      * destruct IH as (O & IN & OUT). split; [exact O|]. split.
        -- intros q nm [E|I]; [|now apply IN]. injection E as <- <-. rewrite OUT by exact NI. rewrite put_get. destruct (string_dec name name); [reflexivity|contradiction].
        -- intros j NJ. cbn [map snd] in NJ. rewrite OUT by (intros I; apply NJ; now right). rewrite put_get.
           destruct (string_dec j name) as [->|_]; [|reflexivity]. exfalso. apply NJ. apply in_eq.
      * destruct IH as (O & before & q & nm & after & E & R & B & G). split; [exact O|]. exists ((p, name) :: before), q, nm, after.
        split; [cbn [app]; now rewrite E|]. split; [exact R|]. split; [constructor; assumption|].
        intros j. rewrite G. cbn [map snd app]. rewrite put_get, <- app_assoc. cbn [app].
        destruct (in_dec string_dec j (created ++ name :: map snd before ++ [nm])) as [J|J]; [reflexivity|].
        destruct (string_dec j name) as [->|_]; [|reflexivity]. exfalso. apply J. apply in_or_app. right. apply in_eq.
    + split; [reflexivity|]. exists [], p, name, ps. split; [reflexivity|]. split; [exact PR|]. split; [constructor|].
      intros j. rewrite removes_get, put_get. cbn [map app]. destruct (in_dec string_dec j (created ++ [name])) as [J|J]; [reflexivity|].
      destruct (string_dec j name) as [->|_]; [|reflexivity]. exfalso. apply J. apply in_or_app. right. apply in_eq.
Qed.

Lemma create_filters_ok xs files : xs <> [] -> Forall ordinary xs -> exists ten half ninety files',
  create_filters xs files = (Ok files', files') /\
  percentile_of xs ten (length xs * 10 / 100) /\ percentile_of xs half (length xs * 50 / 100) /\ percentile_of xs ninety (length xs * 90 / 100) /\
  map (fun name => get String.eqb name files') filter_files =
    [Some (PRange (Exclusive ten) Unbounded); Some (PRange (Exclusive half) Unbounded); Some (PRange (Exclusive ninety) Unbounded); Some (PEq half); Some (PNe half)] /\
  forall j, ~ In j filter_files -> get String.eqb j files' = get String.eqb j files.
Proof.
  intros NE OR. assert (P : Forall proper xs) by (revert OR; apply Forall_impl; intros x; apply ordinary_finite).
  destruct (filter_configs_ok xs NE P) as (a & b & c & E & A & B & C). unfold create_filters. rewrite E.
  set (ps := [(PRange (Exclusive a) Unbounded, _); _; _; _; _]) in *. clear E.
  assert (FIN : forall v k, nth_error (sort_floats xs) k = Some v -> Harness.is_finite (of_bits v) = true).
  { intros v k H. rewrite Forall_forall in OR. apply ordinary_finite, OR. destruct (sort_spec xs P) as (Q & _). apply (Permutation_in _ Q). eapply nth_error_In; exact H. }
  pose proof (FIN _ _ A) as FA. pose proof (FIN _ _ B) as FB. pose proof (FIN _ _ C) as FC.
  assert (ND : NoDup (map snd ps)).
  { cbn. repeat (constructor; [cbn; intuition discriminate|]). constructor. }
  pose proof (write_filters_spec ps [] files ND) as W. destruct (write_filters ps [] files) as [ok files'].
  assert (R : forallb (fun pn => pred_readable (fst pn)) ps = true) by (cbn; rewrite FA, FB, FC; reflexivity).
  rewrite R in W. destruct W as (-> & IN & OUT). exists a, b, c, files'. split; [reflexivity|].
  split; [apply (percentile xs _ a P A)|]. split; [apply (percentile xs _ b P B)|]. split; [apply (percentile xs _ c P C)|]. split.
  - cbn [filter_files map]. unfold ps in IN. cbn [In] in IN.
    rewrite (IN (PRange (Exclusive a) Unbounded) "greater_10th_percentile"%string ltac:(tauto)),
      (IN (PRange (Exclusive b) Unbounded) "greater_50th_percentile"%string ltac:(tauto)),
      (IN (PRange (Exclusive c) Unbounded) "greater_90th_percentile"%string ltac:(tauto)),
      (IN (PEq b) "eq"%string ltac:(tauto)), (IN (PNe b) "ne"%string ltac:(tauto)). reflexivity.
  - exact OUT.
Qed.
Lemma create_filters_nan xs files : Forall is_u64 xs -> (exists x, In x xs /\ number x = None) -> create_filters xs files = (Err tt, files).
Proof.
  intros U (x & I & E). unfold create_filters, filter_configs. rewrite Forall_forall in U.
  assert (X : existsb (fun x => is_nan (of_bits x)) xs = true) by (apply existsb_exists; exists x; split; [exact I|now apply nan_number, E; apply U]).
  rewrite X. reflexivity.
Qed.
Lemma create_filters_empty files : create_filters [] files = (Panic, files).
Proof. reflexivity. Qed.
(** The median is infinite, or the 10th or the 90th percentile. *)
Lemma create_filters_inf xs files v k : Forall proper xs -> In k [10; 50; 90]%nat -> nth_error (sort_floats xs) (length xs * k / 100) = Some v -> ~ ordinary v ->
  (forall name, In name filter_files -> get String.eqb name files = None) ->
  exists files', create_filters xs files = (Err tt, files') /\ forall j, get String.eqb j files' = get String.eqb j files.
Proof.
  intros P IK EV NO NONE. assert (NE : xs <> []) by (intros ->; destruct k; discriminate).
  destruct (filter_configs_ok xs NE P) as (a & b & c & E & A & B & C). unfold create_filters. rewrite E.
  set (ps := [(PRange (Exclusive a) Unbounded, _); _; _; _; _]) in *. clear E.
  assert (PV : Harness.is_finite (of_bits v) = false).
  { apply infinite_not; [|exact NO]. destruct (sort_spec xs P) as (Q & _). rewrite Forall_forall in P. apply P, (Permutation_in _ Q). eapply nth_error_In; exact EV. }
  assert (ND : NoDup (map snd ps)).
  { cbn. repeat (constructor; [cbn; intuition discriminate|]). constructor. }
  pose proof (write_filters_spec ps [] files ND) as W. destruct (write_filters ps [] files) as [ok files'].
  assert (R : forallb (fun pn => pred_readable (fst pn)) ps = false).
  { unfold ps. cbn [forallb pred_readable fst]. destruct IK as [<-|[<-|[<-|[]]]].
    - assert (v = a) by congruence. subst v. rewrite PV. reflexivity.
    - assert (v = b) by congruence. subst v. rewrite PV. destruct (Harness.is_finite (of_bits a)); reflexivity.
    - assert (v = c) by congruence. subst v. rewrite PV. destruct (Harness.is_finite (of_bits a)), (Harness.is_finite (of_bits b)); reflexivity. }
  rewrite R in W. destruct W as (-> & before & p & name & after & EP & _ & _ & G). exists files'. split; [reflexivity|].
  intros j. rewrite G. cbn [app]. destruct (in_dec string_dec j (map snd before ++ [name])) as [J|J]; [|reflexivity].
  symmetry. apply NONE. change filter_files with (map snd ps). rewrite EP, map_app. cbn [map snd]. apply in_app_iff in J. apply in_app_iff.
  destruct J as [J|[<-|[]]]; [now left|right; apply in_eq].
Qed.

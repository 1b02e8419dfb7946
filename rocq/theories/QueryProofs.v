From Coq Require Import Sorted.
From Verif Require Import Base WordProofs Xor F64 F64Proofs Format File FileSpec Query QuerySpec.

(** ** Predicates *)
Lemma number_scaled x : x < two64 -> number x = scaled (of_bits x).
Proof.
  intros H. unfold number, of_bits. destruct (bits_fields x H) as (EE&EM&ES). rewrite EE, EM, ES.
  assert (e_lt : (x / 2 ^ 52) mod 2 ^ 11 < 2048) by (apply N.mod_lt; discriminate).
  set (e := (x / 2 ^ 52) mod 2 ^ 11) in *. set (f := x mod 2 ^ 52) in *. set (s := x / 2 ^ 63 =? 0) in *. clearbody e f s.
  destruct (N.eqb_spec e 0) as [->|E0].
  - cbn [N.eqb andb]. destruct f as [|p]; cbn [scaled]; f_equal; destruct s; cbn [negb signed]; try reflexivity.
    + change (-1074 + 1074)%Z with 0%Z. rewrite Z.pow_0_r, Z.mul_1_r. reflexivity.
    + change (-1074 + 1074)%Z with 0%Z. rewrite Z.pow_0_r, Z.mul_1_r. reflexivity.
  - destruct (N.eqb_spec e 2047) as [->|E1].
    + destruct f as [|p]; cbn [N.eqb negb andb scaled]; [|reflexivity]. f_equal.
      change (2 ^ 52 + 0) with (2 ^ 52). change (2047 - 1) with 2046. rewrite <- N.pow_add_r, N2Z.inj_pow.
      change (Z.of_N 2) with 2%Z. change (Z.of_N (52 + 2046)) with 2098%Z.
      set (q := (2 ^ 2098)%Z). clearbody q. destruct s; reflexivity.
    + cbn [andb]. replace (f + 4503599627370496) with (2 ^ 52 + f) by (change (2 ^ 52) with 4503599627370496; lia).
      destruct (2 ^ 52 + f) as [|p] eqn:EF; [change (2 ^ 52) with 4503599627370496 in EF; lia|].
      cbn [scaled]. f_equal. rewrite N2Z.inj_mul, N2Z.inj_pow. change (Z.of_N (Npos p)) with (Zpos p).
      change (Z.of_N 2) with 2%Z. replace (Z.of_N (e - 1)) with (Z.of_N e - 1075 + 1074)%Z by lia.
      set (q := (2 ^ (Z.of_N e - 1075 + 1074))%Z). clearbody q.
      destruct s; reflexivity.
Qed.

Lemma related_bool (R : Z -> Z -> Prop) (f : f64 -> f64 -> bool) (g : Z -> Z -> bool) x y :
  x < two64 -> y < two64 -> (forall a b, g a b = true <-> R a b) ->
  (forall a b, canonical a -> canonical b -> f a b = match scaled a, scaled b with Some u, Some v => g u v | _, _ => false end) ->
  (f (of_bits x) (of_bits y) = true <-> related R x y).
Proof.
  intros HX HY G F. unfold related. rewrite (number_scaled x HX), (number_scaled y HY).
  rewrite (F _ _ (of_bits_canonical x HX) (of_bits_canonical y HY)).
  destruct (scaled (of_bits x)), (scaled (of_bits y)); try (split; [discriminate|contradiction]). apply G.
Qed.
Lemma feq_related x y : x < two64 -> y < two64 -> (feq (of_bits x) (of_bits y) = true <-> related eq x y).
Proof. intros. apply related_bool with Z.eqb; auto using Z.eqb_eq, feq_scaled. Qed.
Lemma flt_related x y : x < two64 -> y < two64 -> (flt (of_bits x) (of_bits y) = true <-> related Z.lt x y).
Proof. intros. apply related_bool with Z.ltb; auto using Z.ltb_lt, flt_scaled. Qed.
Lemma fle_related x y : x < two64 -> y < two64 -> (fle (of_bits x) (of_bits y) = true <-> related Z.le x y).
Proof. intros. apply related_bool with Z.leb; auto using Z.leb_le, fle_scaled. Qed.

Lemma fpred_satisfies p x : is_u64 x -> Forall is_u64 (pred_operands p) -> (fpred_eval p x = true <-> satisfies p x).
Proof.
  intros HX HP. unfold fpred_eval. destruct p as [v|v|lo hi]; cbn [pred_map pred_eval satisfies].
  - inversion_clear HP. now apply feq_related.
  - inversion_clear HP. rewrite Bool.negb_true_iff, <- Bool.not_true_iff_false. now rewrite feq_related.
  - cbn [pred_operands] in HP. apply Forall_app in HP. destruct HP as [HL HH]. unfold range_eval. rewrite Bool.andb_true_iff.
    apply and_iff_compat_l' || idtac.
    assert (A : match bound_map of_bits lo with
                | Inclusive b => fle b (of_bits x) | Exclusive b => flt b (of_bits x) | Unbounded => true end = true <-> above lo x).
    { destruct lo; cbn [bound_map above]; try (inversion_clear HL);
        [now apply fle_related|now apply flt_related|tauto]. }
    assert (B : match bound_map of_bits hi with
                | Inclusive b => fle (of_bits x) b | Exclusive b => flt (of_bits x) b | Unbounded => true end = true <-> below hi x).
    { destruct hi; cbn [bound_map below]; try (inversion_clear HH);
        [now apply fle_related|now apply flt_related|tauto]. }
    rewrite A, B. reflexivity.
Qed.

(** ** Bitmaps *)
Lemma bm_contains_In bm x : bm_contains bm x = true <-> In x bm.
Proof.
  unfold bm_contains. rewrite existsb_exists. split.
  - intros (y&I&E). apply N.eqb_eq in E. now subst.
  - intros I. exists x. split; [assumption|apply N.eqb_refl].
Qed.
Lemma allowed_in mask i : allowed mask i = true <-> in_mask mask i.
Proof. destruct mask as [bm|]; cbn; [apply bm_contains_In|tauto]. Qed.
Lemma bm_insert_In x y bm : In x (bm_insert y bm) <-> x = y \/ In x bm.
Proof.
  induction bm as [|z bm IH]; cbn [bm_insert In]; [intuition|].
  destruct (N.ltb_spec y z); [cbn [In]; intuition|]. destruct (N.eqb_spec y z); [subst; cbn [In]; intuition|].
  cbn [In]. rewrite IH. intuition.
Qed.
Lemma bm_insert_ok x bm : x < 2 ^ 32 -> is_bitmap bm -> is_bitmap (bm_insert x bm).
Proof.
  intros HX [S F]. split.
  - clear F HX. induction S as [|y bm S IH L]; cbn [bm_insert]; [repeat constructor|].
    destruct (N.ltb_spec x y) as [H|H].
    + constructor; [now constructor|]. constructor; [assumption|]. eapply Forall_impl; [|exact L]. cbn. intros; lia.
    + destruct (N.eqb_spec x y) as [E|E]; [now constructor|]. constructor; [assumption|].
      apply Forall_forall. intros z I. apply bm_insert_In in I. rewrite Forall_forall in L. destruct I as [->|I]; [lia|auto].
  - apply Forall_forall. intros z I. apply bm_insert_In in I. rewrite Forall_forall in F. destruct I as [->|I]; auto.
Qed.
Lemma bm_or_spec b : forall a x, In x (bm_or a b) <-> In x a \/ In x b.
Proof.
  unfold bm_or. induction b as [|y b IH]; intros a x; cbn [fold_left In]; [intuition|].
  rewrite IH, bm_insert_In. intuition.
Qed.
Lemma bm_or_ok b : forall a, Forall (fun i => i < 2 ^ 32) b -> is_bitmap a -> is_bitmap (bm_or a b).
Proof.
  unfold bm_or. induction b as [|y b IH]; intros a F A; cbn [fold_left]; [assumption|].
  inversion_clear F. apply IH; [assumption|]. now apply bm_insert_ok.
Qed.
Lemma is_bitmap_nil : is_bitmap [].
Proof. split; constructor. Qed.

(** ** Masked records *)
Lemma mod_small32 i : i < 2 ^ 32 -> i mod two32 = i.
Proof. intros. apply N.mod_small. exact H. Qed.
Lemma masked_choose mask vs : forall off, off + N.of_nat (length vs) < 2 ^ 32 ->
  choose mask off vs (map snd (masked mask off vs)).
Proof.
  induction vs as [|v vs IH]; intros off H; cbn [masked map]; [constructor|]. cbn [length] in H.
  rewrite mod_small32 by lia. destruct (allowed mask off) eqn:A.
  - cbn [map snd]. constructor; [now apply allowed_in|]. apply IH. lia.
  - constructor; [intros X; apply allowed_in in X; congruence|]. apply IH. lia.
Qed.
Lemma masked_In mask vs : forall off i v, off + N.of_nat (length vs) < 2 ^ 32 ->
  (In (i, v) (masked mask off vs) <-> off <= i /\ nth_error vs (N.to_nat (i - off)) = Some v /\ in_mask mask i).
Proof.
  induction vs as [|u vs IH]; intros off i v H; cbn [masked].
  - split; [contradiction|]. intros (_&E&_). destruct (N.to_nat _); discriminate E.
  - cbn [length] in H. rewrite mod_small32 by lia.
    assert (T : In (i, v) (masked mask (off + 1) vs) <-> off < i /\ nth_error (u :: vs) (N.to_nat (i - off)) = Some v /\ in_mask mask i).
    { rewrite IH by lia. split; intros (A&B&C).
      - split; [lia|]. split; [|assumption]. replace (N.to_nat (i - off)) with (S (N.to_nat (i - (off + 1)))) by lia. exact B.
      - split; [lia|]. split; [|assumption]. replace (N.to_nat (i - off)) with (S (N.to_nat (i - (off + 1)))) in B by lia. exact B. }
    destruct (allowed mask off) eqn:A.
    + cbn [In]. rewrite T. split.
      * intros [E|(B&C&D)]; [|split; [lia|auto]]. injection E as <- <-. split; [lia|]. rewrite N.sub_diag.
        split; [reflexivity|now apply allowed_in].
      * intros (B&C&D). destruct (N.eq_dec off i) as [->|NE]; [|right; split; [lia|auto]].
        left. rewrite N.sub_diag in C. change (Some u = Some v) in C. injection C as ->. reflexivity.
    + rewrite T. split; [intros (B&C&D); split; [lia|auto]|]. intros (B&C&D). split; [|auto].
      destruct (N.eq_dec off i) as [->|NE]; [|lia]. apply allowed_in in D. congruence.
Qed.
Lemma masked_fst mask vs off i v : In (i, v) (masked mask off vs) -> i < 2 ^ 32.
Proof.
  revert off. induction vs as [|u vs IH]; intros off; cbn [masked]; [contradiction|].
  destruct (allowed _ _); [|apply IH]. intros [E|I]; [|now apply IH in I]. injection E as <- _. apply N.mod_lt. discriminate.
Qed.
(** A chunk is skipped exactly when no record of it is chosen. *)
Lemma skip_iff bm vs off : off + N.of_nat (length vs) < 2 ^ 32 ->
  (bm_is_empty (bm_and_range bm (off mod 2 ^ 32) ((off + N.of_nat (length vs)) mod 2 ^ 32)) = true <->
   masked (Some bm) off vs = []).
Proof.
  intros H. rewrite !N.mod_small by lia. unfold bm_is_empty, bm_and_range. split.
  - intros E. destruct (masked (Some bm) off vs) as [|[i v] l] eqn:M; [reflexivity|].
    assert (I : In (i, v) (masked (Some bm) off vs)) by (rewrite M; now left).
    apply masked_In in I; [|assumption]. destruct I as (A&B&C). cbn [in_mask] in C.
    assert (N.to_nat (i - off) < length vs)%nat by (apply nth_error_Some; congruence).
    destruct (filter _ bm) eqn:F; [|discriminate E].
    assert (In i (filter (fun x => (off <=? x) && (x <? off + N.of_nat (length vs))) bm)) as I.
    { apply filter_In. split; [assumption|]. lia. }
    rewrite F in I. contradiction.
  - intros M. destruct (filter _ bm) as [|i l] eqn:F; [reflexivity|].
    assert (I : In i (filter (fun x => (off <=? x) && (x <? off + N.of_nat (length vs))) bm)) by (rewrite F; now left).
    apply filter_In in I. destruct I as [I R].
    destruct (nth_error vs (N.to_nat (i - off))) as [v|] eqn:E.
    + assert (X : In (i, v) (masked (Some bm) off vs)) by (apply masked_In; [assumption|]; split; [lia|]; auto).
      rewrite M in X. contradiction.
    + apply nth_error_None in E. lia.
Qed.
Lemma masked_none vs off : vs <> [] -> masked None off vs <> [].
Proof. destruct vs; [contradiction|]. cbn. discriminate. Qed.

(** ** The loop over the chunks *)
  Lemma filter_eqb_seq k n : forall a, filter (Nat.eqb k) (seq a n) = if (a <=? k)%nat && (k <? a + n)%nat then [k] else [].
  Proof.
    induction n as [|n IH]; intros a.
    - cbn [seq filter]. destruct (Nat.leb_spec a k), (Nat.ltb_spec k (a + 0)); try reflexivity; lia.
    - cbn [seq filter]. rewrite IH. destruct (Nat.eqb_spec k a) as [->|NE].
      + replace (S a <=? a)%nat with false by (symmetry; apply Nat.leb_gt; lia). cbn [andb].
        replace (a <=? a)%nat with true by (symmetry; apply Nat.leb_le; lia).
        replace (a <? a + S n)%nat with true by (symmetry; apply Nat.ltb_lt; lia). reflexivity.
      + destruct (Nat.leb_spec (S a) k), (Nat.leb_spec a k), (Nat.ltb_spec k (S a + n)), (Nat.ltb_spec k (a + S n));
          cbn [andb]; try reflexivity; lia.
  Qed.
Section Loop.
  Variable dbg : bool.
  Variable ex : executor.
  Variable m : metadata.
  Variable file : list N.
  Variable parts : list (list N).
  Variable precision : option N.
  Hypothesis ST : stored dbg ex m file precision parts.
  Variable mask : option bitmap.
  Hypothesis SM : mask = None \/ N.of_nat (length (concat parts)) < 2 ^ 32.

  Lemma first_bound i part : nth_error parts i = Some part ->
    first_of parts i + N.of_nat (length part) <= N.of_nat (length (concat parts)).
  Proof.
    clear. intros E. unfold first_of.
    rewrite <- (firstn_skipn i parts) at 2. rewrite concat_app, app_length.
    assert (skipn i parts = part :: skipn (S i) parts) as ->.
    { revert i E. induction parts as [|p ps IH]; intros [|i] E; try discriminate E.
      - cbn in E. injection E as ->. reflexivity.
      - cbn [skipn]. now apply IH. }
    cbn [concat]. rewrite app_length. lia.
  Qed.

  Lemma over_chunks_fold {A} (step : nat -> rstate ex -> A -> A * res derr unit)
      (F : N -> list N -> A -> A) :
    (forall i part r r' acc, nth_error parts i = Some part -> masked mask (first_of parts i) part <> [] ->
       chunk_offset m i = first_of parts i -> chunk_reader dbg ex m file precision i = Ok r -> ex_decompress ex r = (Ok part, r') ->
       step i r acc = (F (first_of parts i) part acc, Ok tt)) ->
    (forall off part acc, masked mask off part = [] -> F off part acc = acc) ->
    forall ids acc, Forall (fun i => (i < length parts)%nat) ids ->
    over_chunks dbg ex m file precision step mask acc ids =
    (fold_left (fun acc '(off, part) => F off part acc) (map (fun i => (first_of parts i, nth i parts [])) ids) acc, Ok tt).
  Proof using All.
    intros HS HF. induction ids as [|i ids IH]; intros acc HI; [reflexivity|].
    inversion_clear HI as [|? ? HL HI']. cbn [over_chunks map fold_left].
    destruct (nth_error parts i) as [part|] eqn:EP; [|apply nth_error_None in EP; lia].
    rewrite (nth_error_nth _ _ [] EP).
    destruct ST as (_&_&ST'). destruct (ST' i part EP) as (NE&U&OF&RG&_&RD). cbn zeta in RG, OF. fold (first_of parts i) in RG, OF. rewrite RG.
    pose proof (first_bound i part EP) as FB.
    destruct (match mask with Some bm => bm_is_empty (bm_and_range bm (first_of parts i mod 2 ^ 32)
      ((first_of parts i + N.of_nat (length part)) mod 2 ^ 32)) | None => false end) eqn:SK.
    - rewrite HF; [now apply IH|]. destruct mask as [bm|]; [|discriminate SK].
      destruct SM as [X|X]; [discriminate X|]. apply skip_iff in SK; [assumption|lia].
    - destruct RD as (r&RR&(r'&D)). rewrite RR.
      rewrite (HS i part r r' acc EP); auto.
      intros M. destruct mask as [bm|]; [|now apply masked_none in M].
      destruct SM as [X|X]; [discriminate X|]. apply skip_iff in M; [congruence|lia].
  Qed.

  Lemma selected_all : selected_chunks m None = seq 0 (length parts).
  Proof using ST.
    clear SM. unfold selected_chunks. destruct ST as [-> _]. rewrite Nnat.Nat2N.id.
    generalize 0%nat. induction (length parts) as [|k IH]; intros a; cbn; f_equal; auto.
  Qed.
  Lemma selected_one k : selected_chunks m (Some k) = if (k <? length parts)%nat then [k] else [].
  Proof using ST.
    clear SM. unfold selected_chunks. destruct ST as [-> _]. rewrite Nnat.Nat2N.id.
    rewrite filter_eqb_seq. reflexivity.
  Qed.
  Lemma looked_at_selected cid :
    map (fun i => (first_of parts i, nth i parts [])) (selected_chunks m cid) = looked_at parts cid /\
    Forall (fun i => (i < length parts)%nat) (selected_chunks m cid).
  Proof using ST.
    clear SM. destruct cid as [k|]; cbn [looked_at].
    - rewrite selected_one. destruct (nth_error parts k) as [part|] eqn:E.
      + assert (k < length parts)%nat as L by (apply nth_error_Some; congruence).
        apply Nat.ltb_lt in L. rewrite L. apply Nat.ltb_lt in L. cbn [map]. rewrite (nth_error_nth _ _ [] E). auto.
      + apply nth_error_None in E. apply Nat.ltb_ge in E. rewrite E. auto.
    - rewrite selected_all. split; [reflexivity|]. apply Forall_forall. intros i I. apply in_seq in I. lia.
  Qed.
End Loop.

(** ** The queries on a file whose readers keep the default methods *)
Definition default_like (tie : f64 -> f64 -> bool) (ex : executor) : Prop :=
  ex_materialize ex = default_materialize _ (ex_decompress ex) /\
  ex_filter ex = default_filter _ (ex_decompress ex) /\
  ex_filter_materialize ex = default_filter_materialize _ (ex_decompress ex) /\
  ex_sum ex = default_sum _ (ex_decompress ex) /\
  ex_min ex = default_min _ (ex_decompress ex) tie /\
  ex_max ex = default_max _ (ex_decompress ex) tie.

Definition chunk_filter (ev : N -> bool) (mask : option bitmap) (off : N) (part : list N) : bitmap :=
  fold_left (fun bm '(i, v) => if ev v then bm_insert i bm else bm) (masked mask off part) [].
Definition chunk_fold (f : f64 -> f64 -> f64) (init : f64) (mask : option bitmap) (off : N) (part : list N) : f64 :=
  fold_left (fun acc '(_, v) => f acc (of_bits v)) (masked mask off part) init.

Lemma fold_app_flat {X} (g : X -> list N) l : forall acc, fold_left (fun acc x => acc ++ g x) l acc = acc ++ flat_map g l.
Proof.
  induction l as [|x l IH]; intros acc; cbn [fold_left flat_map]; [now rewrite app_nil_r|].
  now rewrite IH, app_assoc.
Qed.
Lemma fold_left_ext {X Y} (f g : X -> Y -> X) l : (forall a b, f a b = g a b) -> forall acc, fold_left f l acc = fold_left g l acc.
Proof. intros E. induction l as [|x l IH]; intros acc; cbn [fold_left]; [reflexivity|]. now rewrite E, IH. Qed.
Lemma flat_map_map {X Y Z} (f : X -> Y) (g : Y -> list Z) l : flat_map g (map f l) = flat_map (fun x => g (f x)) l.
Proof. induction l; cbn; congruence. Qed.
Lemma flat_map_concat_ {X Y Z} (f : X -> list Y) (g : Y -> list Z) l :
  flat_map g (flat_map f l) = flat_map (fun x => flat_map g (f x)) l.
Proof. induction l; cbn; [reflexivity|]. now rewrite flat_map_app, IHl. Qed.

(** What the readers of a file have to answer for the queries to mean the same as
    over the decoded values; [ev] is the meaning given to the predicate. *)
Section Answers.
  Variable dbg : bool.
  Variable ex : executor.
  Variable m : metadata.
  Variable file : list N.
  Variable parts : list (list N).
  Variable precision : option N.
  Hypothesis ST : stored dbg ex m file precision parts.
  Variable mask : option bitmap.
  Hypothesis SM : mask = None \/ N.of_nat (length (concat parts)) < 2 ^ 32.

  Definition answering {A} (q : option bitmap -> N -> rstate ex -> res derr A * rstate ex)
      (f : option bitmap -> N -> list N -> A) : Prop :=
    forall i part r r', nth_error parts i = Some part -> masked mask (first_of parts i) part <> [] ->
      chunk_reader dbg ex m file precision i = Ok r -> ex_decompress ex r = (Ok part, r') ->
      fst (q mask (first_of parts i) r) = Ok (f mask (first_of parts i) part).

  Lemma answering_filter p ev cid : answering (ex_filter ex p) (chunk_filter ev) ->
    dec_filter dbg ex m file precision p mask cid =
    Ok (fold_left (fun acc '(off, part) => bm_or acc (chunk_filter ev mask off part)) (looked_at parts cid) []).
  Proof using ST SM.
    intros AN. unfold dec_filter, answer.
    destruct (looked_at_selected dbg ex m file parts precision ST cid) as [EL FL].
    rewrite (over_chunks_fold dbg ex m file parts precision ST mask SM _
      (fun off part acc => bm_or acc (chunk_filter ev mask off part))); [| | |exact FL].
    - rewrite EL. reflexivity.
    - intros i part r r' acc E M OF RR D. unfold combining. rewrite OF, (AN i part r r' E M RR D). reflexivity.
    - intros off part acc E. unfold chunk_filter. rewrite E. reflexivity.
  Qed.

  Lemma answering_fold (q : option bitmap -> N -> rstate ex -> res derr f64 * rstate ex) (f : f64 -> f64 -> f64) g (init : f64) cid :
    answering q g ->
    answer (over_chunks dbg ex m file precision (combining ex (fun i => q mask (chunk_offset m i)) f) mask init (selected_chunks m cid)) =
    Ok (fold_left (fun acc '(off, part) => match masked mask off part with [] => acc | _ => f acc (g mask off part) end)
          (looked_at parts cid) init).
  Proof using ST SM.
    intros AN. unfold answer.
    destruct (looked_at_selected dbg ex m file parts precision ST cid) as [EL FL].
    rewrite (over_chunks_fold dbg ex m file parts precision ST mask SM _
      (fun off part acc => match masked mask off part with [] => acc | _ => f acc (g mask off part) end)); [| | |exact FL].
    - rewrite EL. reflexivity.
    - intros i part r r' acc E M OF RR D. unfold combining. rewrite OF, (AN i part r r' E M RR D).
      destruct (masked mask (first_of parts i) part); [contradiction|reflexivity].
    - intros off part acc ->. reflexivity.
  Qed.

  (** Queries that write records: [f] gives the records written. *)
  Definition writing (q : option bitmap -> N -> rstate ex -> list N * res derr unit * rstate ex) (f : list (N * N) -> list N) : Prop :=
    forall i part r r', nth_error parts i = Some part -> masked mask (first_of parts i) part <> [] ->
      chunk_reader dbg ex m file precision i = Ok r -> ex_decompress ex r = (Ok part, r') ->
      fst (q mask (first_of parts i) r) = (bytes_of (f (masked mask (first_of parts i) part)), Ok tt).
  Lemma writing_all q f cid : f [] = [] -> writing q f ->
    over_chunks dbg ex m file precision
      (fun i r acc => let '(w, o, _) := q mask (chunk_offset m i) r in (acc ++ w, o)) mask [] (selected_chunks m cid) =
    (bytes_of (flat_map (fun '(off, part) => f (masked mask off part)) (looked_at parts cid)), Ok tt).
  Proof using ST SM.
    intros F0 WR.
    destruct (looked_at_selected dbg ex m file parts precision ST cid) as [EL FL].
    rewrite (over_chunks_fold dbg ex m file parts precision ST mask SM _
      (fun off part acc => acc ++ bytes_of (f (masked mask off part)))); [| | |exact FL].
    - rewrite EL. f_equal.
      transitivity (fold_left (fun acc (x : N * list N) => acc ++ (let '(off, part) := x in
         bytes_of (f (masked mask off part)))) (looked_at parts cid) []).
      + apply fold_left_ext. now intros ? [? ?].
      + rewrite fold_app_flat. cbn [app]. unfold bytes_of. rewrite flat_map_concat_.
        apply flat_map_ext. now intros [off part].
    - intros i part r r' acc E M OF RR D. rewrite OF. pose proof (WR i part r r' E M RR D) as W.
      destruct (q mask (first_of parts i) r) as [[bs e] r2]. cbn [fst] in W. injection W as -> ->. reflexivity.
    - intros off part acc ->. rewrite F0. apply app_nil_r.
  Qed.
End Answers.

Lemma default_writing R dec mask off (r r' : R) part : dec r = (Ok part, r') ->
  fst (default_materialize R dec mask off r) = (bytes_of (map snd (masked mask off part)), Ok tt).
Proof.
  intros D. unfold default_materialize. rewrite D. cbn [fst]. f_equal. unfold bytes_of. rewrite flat_map_map.
  apply flat_map_ext. now intros [? ?].
Qed.
Lemma default_filter_writing R dec p mask off (r r' : R) part : dec r = (Ok part, r') ->
  fst (default_filter_materialize R dec p mask off r) = (bytes_of (filter (fpred_eval p) (map snd (masked mask off part))), Ok tt).
Proof.
  intros D. unfold default_filter_materialize. rewrite D. cbn [fst]. f_equal. unfold bytes_of.
  generalize (masked mask off part). clear. induction l as [|[i v] l IH]; [reflexivity|].
  cbn [flat_map map snd filter]. rewrite IH. now destruct (fpred_eval p v).
Qed.
Lemma filter_flat (P : N -> bool) mask l :
  flat_map (fun '(off, part) => filter P (map snd (masked mask off part))) l =
  filter P (flat_map (fun '(off, part) => map snd (masked mask off part)) l).
Proof. induction l as [|[o p] l IH]; [reflexivity|]. cbn [flat_map]. now rewrite filter_app, IH. Qed.

Section Files.
  Variable dbg : bool.
  Variable tie : f64 -> f64 -> bool.
  Variable ex : executor.
  Variable m : metadata.
  Variable file : list N.
  Variable parts : list (list N).
  Variable precision : option N.
  Hypothesis DL : default_like tie ex.
  Hypothesis ST : stored dbg ex m file precision parts.
  Variable mask : option bitmap.
  Hypothesis SM : mask = None \/ N.of_nat (length (concat parts)) < 2 ^ 32.

  Lemma dec_materialize_eq cid :
    dec_materialize dbg ex m file precision mask cid =
    (bytes_of (flat_map (fun '(off, part) => map snd (masked mask off part)) (looked_at parts cid)), Ok tt).
  Proof using All.
    apply (writing_all dbg ex m file parts precision ST mask SM (ex_materialize ex) (map snd)); [reflexivity|].
    intros i part r r' E M RR D. destruct DL as (-> & _). now apply default_writing with r'.
  Qed.

  Lemma dec_filter_materialize_eq p cid :
    dec_filter_materialize dbg ex m file precision p mask cid =
    (bytes_of (filter (fpred_eval p) (flat_map (fun '(off, part) => map snd (masked mask off part)) (looked_at parts cid))), Ok tt).
  Proof using All.
    unfold dec_filter_materialize.
    rewrite (writing_all dbg ex m file parts precision ST mask SM (ex_filter_materialize ex p) (fun l => filter (fpred_eval p) (map snd l)));
      [|reflexivity|].
    - now rewrite filter_flat.
    - intros i part r r' E M RR D. destruct DL as (_ & _ & -> & _). now apply default_filter_writing with r'.
  Qed.

  Lemma dec_filter_eq p cid :
    dec_filter dbg ex m file precision p mask cid =
    Ok (fold_left (fun acc '(off, part) => bm_or acc (chunk_filter (fpred_eval p) mask off part)) (looked_at parts cid) []).
  Proof using All.
    apply answering_filter; try assumption. intros i part r r' E M RR D.
    destruct DL as (_ & -> & _). unfold default_filter. rewrite D. reflexivity.
  Qed.

  Lemma default_answering f init :
    answering dbg ex m file parts precision mask (default_fold _ (ex_decompress ex) f init) (chunk_fold f init).
  Proof using. intros i part r r' E M RR D. unfold default_fold. rewrite D. reflexivity. Qed.

  Lemma dec_sum_eq cid : dec_sum dbg ex m file precision mask cid =
    Ok (fold_left (fun acc '(off, part) => match masked mask off part with [] => acc | _ => fadd acc (chunk_fold fadd f_zero mask off part) end)
          (looked_at parts cid) f_zero).
  Proof using All. apply answering_fold; try assumption. destruct DL as (_&_&_&->&_). apply default_answering. Qed.
  Lemma dec_min_eq cid : dec_min dbg tie ex m file precision mask cid =
    Ok (fold_left (fun acc '(off, part) => match masked mask off part with [] => acc | _ => fmin tie acc (chunk_fold (fmin tie) (f_inf false) mask off part) end)
          (looked_at parts cid) (f_inf false)).
  Proof using All. apply answering_fold; try assumption. destruct DL as (_&_&_&_&->&_). apply default_answering. Qed.
  Lemma dec_max_eq cid : dec_max dbg tie ex m file precision mask cid =
    Ok (fold_left (fun acc '(off, part) => match masked mask off part with [] => acc | _ => fmax tie acc (chunk_fold (fmax tie) (f_inf true) mask off part) end)
          (looked_at parts cid) (f_inf true)).
  Proof using All. apply answering_fold; try assumption. destruct DL as (_&_&_&_&_&->). apply default_answering. Qed.
End Files.

(** ** From chunks to records *)
Fixpoint numbered (k : N) (parts : list (list N)) : list (N * list N) :=
  match parts with [] => [] | p :: ps => (k, p) :: numbered (k + N.of_nat (length p)) ps end.
Lemma looked_at_numbered parts : forall k,
  map (fun i => (k + first_of parts i, nth i parts [])) (seq 0 (length parts)) = numbered k parts.
Proof.
  induction parts as [|p ps IH]; intros k; [reflexivity|]. cbn [length seq map numbered nth].
  unfold first_of at 1. cbn [firstn concat length N.of_nat]. rewrite N.add_0_r. f_equal.
  rewrite <- seq_shift, map_map, <- IH. apply map_ext. intros i. cbn [nth]. f_equal.
  unfold first_of. cbn [firstn concat]. rewrite app_length. lia.
Qed.
Lemma masked_app mask xs : forall off ys, masked mask off (xs ++ ys) = masked mask off xs ++ masked mask (off + N.of_nat (length xs)) ys.
Proof.
  induction xs as [|x xs IH]; intros off ys; cbn [app masked length].
  - now rewrite N.add_0_r.
  - rewrite IH. replace (off + 1 + N.of_nat (length xs)) with (off + N.of_nat (S (length xs))) by lia.
    destruct (allowed _ _); reflexivity.
Qed.
Lemma masked_numbered mask parts : forall k,
  flat_map (fun '(off, part) => masked mask off part) (numbered k parts) = masked mask k (concat parts).
Proof.
  induction parts as [|p ps IH]; intros k; cbn [numbered flat_map concat]; [reflexivity|].
  now rewrite masked_app, IH.
Qed.
Lemma looked_at_all parts : looked_at parts None = numbered 0 parts.
Proof. cbn [looked_at]. rewrite <- looked_at_numbered. apply map_ext. intros i. now rewrite N.add_0_l. Qed.
Lemma scope_masked parts cid first xs mask : scope parts cid first xs ->
  flat_map (fun '(off, part) => masked mask off part) (looked_at parts cid) = masked mask first xs.
Proof.
  intros [|k part E|k E].
  - rewrite looked_at_all. apply masked_numbered.
  - cbn [looked_at]. rewrite E. cbn. apply app_nil_r.
  - cbn [looked_at]. rewrite E. reflexivity.
Qed.
Lemma map_flat_map {X Y Z} (f : Y -> Z) (g : X -> list Y) l : map f (flat_map g l) = flat_map (fun x => map f (g x)) l.
Proof. induction l; cbn; [reflexivity|]. now rewrite map_app, IHl. Qed.
Lemma scope_chosen parts cid first xs mask : scope parts cid first xs ->
  flat_map (fun '(off, part) => map snd (masked mask off part)) (looked_at parts cid) = map snd (masked mask first xs).
Proof.
  intros S. rewrite <- (scope_masked _ _ _ _ _ S), map_flat_map. apply flat_map_ext. now intros [? ?].
Qed.
Lemma scope_bound parts cid first xs : N.of_nat (length (concat parts)) < 2 ^ 32 -> scope parts cid first xs ->
  first + N.of_nat (length xs) < 2 ^ 32.
Proof.
  intros H [|k part E|k E]; [assumption| |reflexivity].
  assert (X : first_of parts k + N.of_nat (length part) <= N.of_nat (length (concat parts))); [|lia].
  unfold first_of. rewrite <- (firstn_skipn k parts) at 2. rewrite concat_app, app_length.
  assert (skipn k parts = part :: skipn (S k) parts) as ->.
  { clear H. revert k E. induction parts as [|p ps IH]; intros [|k] E; try discriminate E.
    - cbn in E. injection E as ->. reflexivity.
    - cbn [skipn]. now apply IH. }
  cbn [concat]. rewrite app_length. lia.
Qed.
Lemma choose_fun {T} mask (xs : list T) : forall first ys zs, choose mask first xs ys -> choose mask first xs zs -> ys = zs.
Proof.
  induction xs as [|x xs IH]; intros first ys zs A B; inversion A; inversion B; subst; try reflexivity; try contradiction.
  - f_equal. eauto.
  - eauto.
Qed.

Lemma chunk_filter_In ev mask off part i :
  In i (chunk_filter ev mask off part) <-> exists v, In (i, v) (masked mask off part) /\ ev v = true.
Proof.
  unfold chunk_filter. generalize (masked mask off part) as l. intros l.
  assert (G : forall bm, In i (fold_left (fun bm '(i, v) => if ev v then bm_insert i bm else bm) l bm) <->
     In i bm \/ exists v, In (i, v) l /\ ev v = true).
  { induction l as [|[j v] l IH]; intros bm; cbn [fold_left In].
    - split; [auto|]. intros [H|(v&[]&_)]. assumption.
    - rewrite IH. destruct (ev v) eqn:E.
      + rewrite bm_insert_In. split.
        * intros [[->|H]|(w&I&F)]; eauto 6.
        * intros [H|(w&[X|I]&F)]; [auto| |eauto 6]. injection X as -> ->. auto.
      + split.
        * intros [H|(w&I&F)]; eauto 6.
        * intros [H|(w&[X|I]&F)]; [auto| |eauto 6]. injection X as -> ->. congruence. }
  rewrite G. split; [intros [[]|H]; assumption|auto].
Qed.
Lemma fold_or_In ev mask l i : forall acc,
  In i (fold_left (fun acc '(off, part) => bm_or acc (chunk_filter ev mask off part)) l acc) <->
  In i acc \/ exists v, In (i, v) (flat_map (fun '(off, part) => masked mask off part) l) /\ ev v = true.
Proof.
  induction l as [|[off part] l IH]; intros acc; cbn [fold_left flat_map].
  - split; [auto|]. intros [H|(v&[]&_)]. assumption.
  - rewrite IH, bm_or_spec, chunk_filter_In. split.
    + intros [[H|(v&I&F)]|(v&I&F)]; [auto| |]; right; exists v; split; try assumption; apply in_or_app; auto.
    + intros [H|(v&I&F)]; [auto|]. apply in_app_or in I. destruct I as [I|I]; [left; right|right]; eauto.
Qed.
Lemma fold_or_ok ev mask l : forall acc, is_bitmap acc ->
  is_bitmap (fold_left (fun acc '(off, part) => bm_or acc (chunk_filter ev mask off part)) l acc).
Proof.
  induction l as [|[off part] l IH]; intros acc A; cbn [fold_left]; [assumption|]. apply IH.
  apply bm_or_ok; [|assumption]. apply Forall_forall. intros i I. apply chunk_filter_In in I. destruct I as (v&I&_).
  eapply masked_fst, I.
Qed.

(** ** Minimum and maximum *)
Definition top : Z := (2 ^ 2098)%Z.
Lemma number_below x a : number x = Some a -> x < two64 -> (- top <= a <= top)%Z.
Proof.
  intros E H. unfold number in E.
  assert (e_lt : (x / 2 ^ 52) mod 2 ^ 11 < 2048) by (apply N.mod_lt; discriminate).
  assert (f_lt : x mod 2 ^ 52 < 2 ^ 52) by (apply N.mod_lt; discriminate).
  set (e := (x / 2 ^ 52) mod 2 ^ 11) in *. set (f := x mod 2 ^ 52) in *. clearbody e f.
  set (mag := if e =? 0 then f else (2 ^ 52 + f) * 2 ^ (e - 1)) in *.
  assert (B : (e =? 2047) && negb (f =? 0) = false -> mag <= 2 ^ 2098).
  { intros C. unfold mag. destruct (N.eqb_spec e 0).
    - apply N.lt_le_incl. apply N.lt_le_trans with (2 ^ 52); [assumption|]. apply N.pow_le_mono_r; lia.
    - destruct (N.eqb_spec e 2047) as [->|NE].
      + cbn [andb] in C. apply Bool.negb_false_iff, N.eqb_eq in C. subst f. rewrite N.add_0_r, <- N.pow_add_r. reflexivity.
      + apply N.le_trans with (2 ^ 53 * 2 ^ (e - 1)).
        * apply N.mul_le_mono_r. change (2 ^ 53) with (2 ^ 52 + 2 ^ 52). lia.
        * rewrite <- N.pow_add_r. apply N.pow_le_mono_r; lia. }
  clearbody mag. destruct ((e =? 2047) && negb (f =? 0)); [discriminate E|]. specialize (B eq_refl).
  injection E as <-. apply N2Z.inj_le in B. rewrite N2Z.inj_pow in B. change (Z.of_N 2 ^ Z.of_N 2098)%Z with top in B.
  set (t := top) in *. clearbody t. destruct (x / 2 ^ 63 =? 0); lia.
Qed.
Lemma number_finite x a : number x = Some a -> x < two64 -> (forall s, of_bits x <> S754_infinity s) -> (- top < a < top)%Z.
Proof.
  intros E H NI. unfold number in E. unfold of_bits in NI. destruct (bits_fields x H) as (EE&EM&ES). rewrite EE, EM, ES in NI.
  assert (e_lt : (x / 2 ^ 52) mod 2 ^ 11 < 2048) by (apply N.mod_lt; discriminate).
  assert (f_lt : x mod 2 ^ 52 < 2 ^ 52) by (apply N.mod_lt; discriminate).
  set (e := (x / 2 ^ 52) mod 2 ^ 11) in *. set (f := x mod 2 ^ 52) in *. clearbody e f.
  set (mag := if e =? 0 then f else (2 ^ 52 + f) * 2 ^ (e - 1)) in *.
  assert (B : mag < 2 ^ 2098 \/ (e =? 2047) && negb (f =? 0) = true).
  { unfold mag. destruct (N.eqb_spec e 0) as [->|NE0].
    - left. apply N.lt_le_trans with (2 ^ 52); [assumption|]. apply N.pow_le_mono_r; lia.
    - destruct (N.eqb_spec e 2047) as [->|NE].
      + cbn [N.eqb] in NI. destruct f; [exfalso; eapply NI; reflexivity|]. now right.
      + left. apply N.lt_le_trans with (2 ^ 53 * 2 ^ (e - 1)).
        * apply N.mul_lt_mono_pos_r; [apply N.neq_0_lt_0, N.pow_nonzero; discriminate|]. change (2 ^ 53) with (2 ^ 52 + 2 ^ 52). lia.
        * rewrite <- N.pow_add_r. apply N.pow_le_mono_r; lia. }
  clearbody mag. destruct ((e =? 2047) && negb (f =? 0)); [discriminate E|]. destruct B as [B|B]; [|discriminate B].
  injection E as <-. apply N2Z.inj_lt in B. rewrite N2Z.inj_pow in B. change (Z.of_N 2 ^ Z.of_N 2098)%Z with top in B.
  assert (0 < top)%Z by reflexivity. set (t := top) in *. clearbody t. destruct (x / 2 ^ 63 =? 0); lia.
Qed.
Lemma number_inf x s : of_bits x = S754_infinity s -> x < two64 -> number x = Some (if s then - top else top)%Z.
Proof. intros E H. rewrite number_scaled, E by assumption. now destruct s. Qed.
Lemma number_top x (s : bool) : number x = Some (if s then - top else top)%Z -> x < two64 -> of_bits x = S754_infinity s.
Proof.
  intros E H. assert (0 < top)%Z by reflexivity.
  destruct (of_bits x) as [s'|s'| |s' m e] eqn:B;
    try (exfalso; assert (X := number_finite _ _ E H ltac:(intros ?; rewrite B; discriminate)); set (t := top) in *; clearbody t; destruct s; lia).
  pose proof (number_inf _ _ B H) as E'. rewrite E in E'. apply some_eq in E'. set (t := top) in *. clearbody t.
  destruct s, s'; try reflexivity; lia.
Qed.
Lemma number_none x : x < two64 -> number x = None -> is_nan (of_bits x) = true.
Proof. intros H E. rewrite number_scaled in E by assumption. destruct (of_bits x) as [| | |? ? ?]; cbn in *; congruence. Qed.
Lemma number_some x a : x < two64 -> number x = Some a -> is_nan (of_bits x) = false.
Proof. intros H E. rewrite number_scaled in E by assumption. destruct (of_bits x) as [| | |? ? ?]; cbn in *; congruence. Qed.

Definition extreme (up : bool) (vs : list N) (r : f64) (z : Z) : Prop :=
  canonical r /\ scaled r = Some z /\ is_nan r = false /\ (- top <= z <= top)%Z /\
  (forall w b, In w vs -> number w = Some b -> if up then (b <= z)%Z else (z <= b)%Z) /\
  ((Forall (fun v => number v = None) vs /\ r = S754_infinity up) \/
   exists v, In v vs /\ r = of_bits v /\ number v = Some z).
Definition fext (up : bool) tie := if up then fmax tie else fmin tie.

Lemma extreme_init up : extreme up [] (f_inf up) (if up then - top else top)%Z.
Proof.
  unfold extreme, f_inf. split; [exact I|]. split; [now destruct up|]. split; [reflexivity|].
  assert (0 < top)%Z by reflexivity. split; [set (t := top) in *; clearbody t; destruct up; lia|]. split; [contradiction|].
  left. split; [constructor|reflexivity].
Qed.
Lemma extreme_join up tie vs ws a b za zb : Forall is_u64 vs -> Forall is_u64 ws ->
  extreme up vs a za -> extreme up ws b zb ->
  exists z, extreme up (vs ++ ws) (fext up tie a b) z.
Proof.
  intros UV UW (CA&SA&NA&RA&BA&DA) (CB&SB&NB&RB&BB&DB).
  assert (E : fext up tie a b = a /\ (if up then (zb <= za)%Z else (za <= zb)%Z) \/
              fext up tie a b = b /\ (if up then (za <= zb)%Z else (zb <= za)%Z)).
  { unfold fext. destruct up; unfold fmax, fmin; rewrite NA, NB.
    - rewrite (flt_scaled b a), (flt_scaled a b), SA, SB by assumption.
      destruct (Z.ltb_spec zb za); [left; split; [reflexivity|lia]|]. destruct (Z.ltb_spec za zb); [right; split; [reflexivity|lia]|].
      destruct (tie a b); [left|right]; (split; [reflexivity|lia]).
    - rewrite (flt_scaled b a), (flt_scaled a b), SA, SB by assumption.
      destruct (Z.ltb_spec za zb); [left; split; [reflexivity|lia]|]. destruct (Z.ltb_spec zb za); [right; split; [reflexivity|lia]|].
      destruct (tie a b); [left|right]; (split; [reflexivity|lia]). }
  rewrite Forall_forall in UV, UW.
  destruct E as [[-> L]|[-> L]]; [exists za|exists zb];
    (split; [assumption|split; [assumption|split; [assumption|split; [assumption|]]]]); split.
  - intros w c I N. apply in_app_or in I. destruct I as [I|I]; [exact (BA w c I N)|]. specialize (BB w c I N). destruct up; lia.
  - destruct DA as [[FA EA]|(v&I&EV&NV)]; [|right; exists v; split; [apply in_or_app; auto|auto]].
    destruct DB as [[FB EB]|(v&I&EV&NV)]; [left; split; [apply Forall_app; auto|assumption]|].
    right. exists v. split; [apply in_or_app; auto|]. subst a. cbn [scaled] in SA.
    assert (za = zb) as EZ.
    { replace (signed up (2 ^ 2098)%Z) with (if up then - top else top)%Z in SA by (destruct up; reflexivity).
      apply some_eq in SA. set (t := top) in *. clearbody t. clear -SA L RB. destruct up; lia. }
    split; [|congruence]. symmetry. apply number_top; [|exact (UW v I)].
    rewrite NV, <- EZ, <- SA. destruct up; reflexivity.
  - intros w c I N. apply in_app_or in I. destruct I as [I|I]; [|exact (BB w c I N)]. specialize (BA w c I N). destruct up; lia.
  - destruct DB as [[FB EB]|(v&I&EV&NV)]; [|right; exists v; split; [apply in_or_app; auto|auto]].
    destruct DA as [[FA EA]|(v&I&EV&NV)]; [left; split; [apply Forall_app; auto|assumption]|].
    right. exists v. split; [apply in_or_app; auto|]. subst b. cbn [scaled] in SB.
    assert (za = zb) as EZ.
    { replace (signed up (2 ^ 2098)%Z) with (if up then - top else top)%Z in SB by (destruct up; reflexivity).
      apply some_eq in SB. set (t := top) in *. clearbody t. clear -SB L RA. destruct up; lia. }
    split; [|congruence]. symmetry. apply number_top; [|exact (UV v I)].
    rewrite NV, EZ, <- SB. destruct up; reflexivity.
Qed.
Lemma extreme_add up tie vs a za v : Forall is_u64 vs -> is_u64 v -> extreme up vs a za ->
  exists z, extreme up (vs ++ [v]) (fext up tie a (of_bits v)) z.
Proof.
  intros UV UW EA. destruct (number v) as [zb|] eqn:N.
  - assert (EB : extreme up [v] (of_bits v) zb).
    { split; [now apply of_bits_canonical|]. split; [rewrite <- number_scaled by assumption; assumption|].
      split; [eapply number_some; eassumption|]. split; [eapply number_below; eassumption|]. split.
      - intros w b [->|[]] E. rewrite N in E. apply some_eq in E. destruct up; lia.
      - right. exists v. split; [now left|auto]. }
    eapply extreme_join; eauto.
  - exists za. assert (NN : is_nan (of_bits v) = true) by (now apply number_none).
    destruct EA as (CA&SA&NA&RA&BA&DA).
    assert (fext up tie a (of_bits v) = a) as -> by (destruct up; cbn [fext]; unfold fmax, fmin; now rewrite NA, NN).
    split; [assumption|]. split; [assumption|]. split; [assumption|]. split; [assumption|]. split.
    + intros w b I E. apply in_app_or in I. destruct I as [I|[->|[]]]; [exact (BA w b I E)|congruence].
    + destruct DA as [[F E]|(w&I&E)]; [left; split; [apply Forall_app; auto|assumption]|right; exists w; split; [apply in_or_app; auto|auto]].
Qed.
Lemma extreme_fold up tie l : forall vs a za, Forall is_u64 vs -> Forall (fun x : N * N => is_u64 (snd x)) l -> extreme up vs a za ->
  exists z, extreme up (vs ++ map snd l) (fold_left (fun acc '(_, v) => fext up tie acc (of_bits v)) l a) z.
Proof.
  induction l as [|[i v] l IH]; intros vs a za UV UL EA; cbn [map fold_left].
  - rewrite app_nil_r. eauto.
  - inversion_clear UL. cbn [snd] in *. destruct (extreme_add up tie vs a za v) as (z&EZ); auto.
    edestruct (IH (vs ++ [v])) as (z'&E'); [apply Forall_app; auto|assumption|exact EZ|].
    rewrite <- app_assoc in E'. eauto.
Qed.
Lemma match_nonempty {X Y} (l : list X) (a b : Y) : l <> [] -> match l with [] => a | _ => b end = b.
Proof. destruct l; [contradiction|reflexivity]. Qed.
Lemma extreme_chunks up tie mask l : forall vs a za, Forall is_u64 vs ->
  Forall (fun x : N * list N => Forall (fun y : N * N => is_u64 (snd y)) (masked mask (fst x) (snd x))) l -> extreme up vs a za ->
  exists z, extreme up (vs ++ flat_map (fun '(off, part) => map snd (masked mask off part)) l)
    (fold_left (fun acc '(off, part) => match masked mask off part with [] => acc | _ => fext up tie acc (chunk_fold (fext up tie) (f_inf up) mask off part) end) l a) z.
Proof.
  induction l as [|[off part] l IH]; intros vs a za UV UL EA; cbn [flat_map fold_left].
  - rewrite app_nil_r. eauto.
  - inversion_clear UL as [|? ? U1 U2]. cbn [fst snd] in U1.
    assert (C : masked mask off part = [] \/ masked mask off part <> []) by (destruct (masked mask off part); [now left|now right]).
    destruct C as [C|C]; [rewrite C; cbn [map app]; eauto|]. rewrite match_nonempty by assumption. unfold chunk_fold at 2.
    destruct (extreme_fold up tie (masked mask off part) [] (f_inf up) _ (Forall_nil _) U1 (extreme_init up)) as (zb&EB).
    cbn [app] in EB.
    assert (UM : Forall is_u64 (map snd (masked mask off part))) by (apply Forall_map; exact U1).
    destruct (extreme_join up tie _ _ _ _ _ _ UV UM EA EB) as (z&EZ).
    edestruct (IH (vs ++ map snd (masked mask off part))) as (z'&E'); [apply Forall_app; auto|assumption|exact EZ|].
    rewrite <- app_assoc in E'. eauto.
Qed.
Lemma masked_Forall (P : N -> Prop) mask part : forall off, Forall P part -> Forall (fun y : N * N => P (snd y)) (masked mask off part).
Proof.
  induction part as [|v part IH]; intros off F; cbn [masked]; [constructor|]. inversion_clear F.
  destruct (allowed _ _); [constructor|]; auto.
Qed.
Lemma extreme_least vs r z : extreme false vs r z -> least vs r.
Proof. intros (_&_&_&_&B&[D|(v&I&E&N)]); [left; exact D|]. right. exists v, z. split; [exact I|]. split; [exact E|]. split; [exact N|exact B]. Qed.
Lemma extreme_greatest vs r z : extreme true vs r z -> greatest vs r.
Proof. intros (_&_&_&_&B&[D|(v&I&E&N)]); [left; exact D|]. right. exists v, z. split; [exact I|]. split; [exact E|]. split; [exact N|exact B]. Qed.

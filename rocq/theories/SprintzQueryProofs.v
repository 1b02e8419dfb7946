From Coq Require Import Sorted.
From Verif Require Import Base WordProofs BitIO BitIOProofs Xor F64 Query QuerySpec QueryProofs Sprintz SprintzProofs.

(** ** The compressor *)
Lemma compress_encodes dbg c xs : xs <> [] ->
  let qs := map (quantize (sp_scale c)) xs in steps_ok dbg (hd 0%Z qs) qs ->
  exists c', sp_compress dbg c xs = Ok c' /\ encodes dbg (sp_scale c) qs (sp_buffers c') /\ sp_scale c' = sp_scale c.
Proof.
  intros NE qs S. destruct (sp_write_ok dbg xs (sp_scale c) w_new NE wrep_new S) as (w & bits & zs & E & B & L & F & W).
  fold qs in L, W. unfold sp_compress. cbn [sp_reset sp_scale sp_w sp_in]. change (w_reset (sp_w c)) with w_new. rewrite E. cbn [rbind].
  eexists. split; [reflexivity|]. split; [|reflexivity]. destruct W as (FB & _ & BB). split; [exact FB|]. split.
  - unfold qs. apply Forall_forall. intros q Hq. apply in_map_iff in Hq. destruct Hq as (x & <- & _). apply quantize_range.
  - split; [unfold qs; destruct xs; [congruence|discriminate]|].
    eexists bits, zs, _. split; [exact B|]. split; [exact L|]. split; [exact F|]. exact BB.
Qed.
Lemma compress_panics c xs : xs <> [] ->
  let qs := map (quantize (sp_scale c)) xs in ~ steps_ok true (hd 0%Z qs) qs -> sp_compress true c xs = Panic.
Proof.
  intros NE qs S. unfold sp_compress, sp_write. cbn [sp_reset sp_scale]. fold qs.
  unfold zigzag_delta_num_bits. destruct qs as [|q qs'] eqn:E; [destruct xs; [congruence|discriminate]|].
  rewrite zigzag_deltas_panic; [reflexivity|exact S].
Qed.

(** ** Strictly increasing lists *)
Lemma sorted_ext a : forall b, StronglySorted N.lt a -> StronglySorted N.lt b -> (forall x, In x a <-> In x b) -> a = b.
Proof.
  induction a as [|x a IH]; intros b A B E.
  - destruct b as [|y b]; [reflexivity|]. destruct (E y) as [_ H]. destruct H; now left.
  - destruct b as [|y b]; [destruct (E x) as [H _]; destruct H; now left|].
    inversion A as [|? ? A1 A2]; inversion B as [|? ? B1 B2]; subst. rewrite Forall_forall in A2, B2.
    assert (x = y).
    { destruct (proj1 (E x) (or_introl eq_refl)) as [H|H]; [now subst|].
      destruct (proj2 (E y) (or_introl eq_refl)) as [H'|H']; [now subst|]. apply B2 in H. apply A2 in H'. lia. }
    subst y. f_equal. apply IH; try assumption. intros z. split; intros I.
    + destruct (proj1 (E z) (or_intror I)) as [H|H]; [|assumption]. apply A2 in I. lia.
    + destruct (proj2 (E z) (or_intror I)) as [H|H]; [|assumption]. apply B2 in I. lia.
Qed.

(** ** The integers a mask selects *)
Fixpoint pick {V} (mask : option bitmap) (off : N) (qs : list V) : list (N * V) :=
  match qs with
  | [] => []
  | q :: qs' => if allowed mask off then (off, q) :: pick mask (off + 1) qs' else pick mask (off + 1) qs'
  end.
Lemma masked_pick {V} (d : V -> N) mask (qs : list V) : forall off, off + N.of_nat (length qs) <= 2 ^ 32 ->
  masked mask off (map d qs) = map (fun '(i, q) => (i, d q)) (pick mask off qs).
Proof.
  induction qs as [|q qs IH]; intros off H; cbn [map masked pick]; [reflexivity|]. cbn [length] in H.
  rewrite mod_small32 by lia. rewrite IH by lia. now destruct (allowed mask off).
Qed.
Lemma pick_ge {V} mask (qs : list V) : forall off i q, In (i, q) (pick mask off qs) -> off <= i < off + N.of_nat (length qs).
Proof.
  induction qs as [|p qs IH]; intros off i q I; cbn [pick] in I; [contradiction|]. cbn [length].
  assert (T : In (i, q) (pick mask (off + 1) qs) -> off <= i < off + N.of_nat (S (length qs))) by (intros J; apply IH in J; lia).
  destruct (allowed mask off); [|auto]. destruct I as [E|I]; [|auto]. injection E as <- <-. lia.
Qed.
Lemma pick_sorted {V} mask (qs : list V) : forall off, StronglySorted N.lt (map fst (pick mask off qs)).
Proof.
  induction qs as [|p qs IH]; intros off; cbn [pick map]; [constructor|].
  destruct (allowed mask off); [|apply IH]. cbn [map fst]. constructor; [apply IH|].
  apply Forall_forall. intros i I. apply in_map_iff in I. destruct I as ([j q] & <- & I). apply pick_ge in I. cbn [fst]. lia.
Qed.
Lemma pick_indices {V} bm (qs : list V) : forall off i, In i (map fst (pick (Some bm) off qs)) <-> In i bm /\ off <= i < off + N.of_nat (length qs).
Proof.
  induction qs as [|p qs IH]; intros off i; cbn [pick map length].
  - split; [contradiction|lia].
  - destruct (allowed (Some bm) off) eqn:A; cbn [map fst In].
    + rewrite IH. apply allowed_in in A. cbn in A. split.
      * intros [<-|H]; [split; [assumption|lia]|split; [apply H|lia]].
      * intros [I L]. destruct (N.eq_dec off i); [now left|right]. split; [assumption|lia].
    + rewrite IH. split; [intros [I L]; split; [assumption|lia]|]. intros [I L]. split; [assumption|].
      destruct (N.eq_dec off i); [subst|lia]. apply (allowed_in (Some bm)) in I. congruence.
Qed.

Lemma pick_empty {V} (qs : list V) : forall off, pick (Some []) off qs = [].
Proof. induction qs as [|q qs IH]; intros off; cbn; auto. Qed.

(** ** Filter *)
Lemma insert_last x acc : Forall (fun y => y < x) acc -> bm_insert x acc = acc ++ [x].
Proof.
  induction 1 as [|y acc L F IH]; cbn [bm_insert app]; [reflexivity|].
  replace (x <? y) with false by lia. replace (x =? y) with false by lia. now rewrite IH.
Qed.
Lemma fold_insert {V} (P : V -> bool) (l : list (N * V)) : forall acc, StronglySorted N.lt (map fst l) ->
  (forall i, In i (map fst l) -> Forall (fun y => y < i) acc) ->
  fold_left (fun bm '(i, v) => if P v then bm_insert i bm else bm) l acc = acc ++ map fst (filter (fun x => P (snd x)) l).
Proof.
  induction l as [|[i v] l IH]; intros acc S F; cbn [fold_left map filter fst snd].
  - now rewrite app_nil_r.
  - cbn [map fst] in S, F. inversion S as [|? ? S1 S2]; subst. rewrite Forall_forall in S2. destruct (P v).
    + rewrite (insert_last i acc) by (apply F; now left). rewrite IH; [now rewrite <- app_assoc|assumption|].
      intros j J. apply Forall_app. split; [apply F; now right|]. constructor; [|constructor]. now apply S2.
    + apply IH; [assumption|]. intros j J. apply F. now right.
Qed.
Lemma filter_pick {V} bm (P : V -> bool) (qs : list V) : forall off,
  filter (bm_contains bm) (map fst (filter (fun x => P (snd x)) (pick None off qs))) =
  map fst (filter (fun x => P (snd x)) (pick (Some bm) off qs)).
Proof.
  induction qs as [|q qs IH]; intros off; cbn [pick allowed filter map]; [reflexivity|].
  cbn [filter snd]. destruct (P q) eqn:E.
  - cbn [map filter fst]. destruct (bm_contains bm off); cbn [filter snd map fst]; rewrite ?E; cbn [map fst]; now rewrite IH.
  - destruct (bm_contains bm off); cbn [filter snd map fst]; rewrite ?E; apply IH.
Qed.

Section Walks.
  Variable dbg : bool.

  Lemma add_u32_ok a b : a + b < 2 ^ 32 -> add_u32 dbg a b = Ok (a + b).
  Proof using. intros H. unfold add_u32. change two32 with (2 ^ 32). now rewrite (proj2 (N.ltb_lt _ _) H). Qed.

  Lemma filter_walk (P : Z -> bool) off : forall qs i acc, off + i + N.of_nat (length qs) <= 2 ^ 32 ->
    walk (fun i v bm => if P v then do k <- add_u32 dbg (off mod two32) (i mod two32) ; Ok (bm_insert k bm, true) else Ok (bm, true)) i qs acc =
    Ok (fold_left (fun bm '(i, v) => if P v then bm_insert i bm else bm) (pick None (off + i) qs) acc).
  Proof using.
    induction qs as [|q qs IH]; intros i acc H; cbn [walk pick allowed fold_left]; [reflexivity|]. cbn [length] in H.
    replace (add_u32 dbg (off mod two32) (i mod two32)) with (@Ok derr N (off + i))
      by (rewrite !mod_small32 by lia; now rewrite add_u32_ok by lia). cbn [rbind].
    destruct (P q); rewrite IH by lia; now rewrite N.add_assoc.
  Qed.

  Definition rfold (f : Z -> Z -> res derr Z) (a : Z) (qs : list Z) : res derr Z :=
    fold_left (fun a q => do a <- a ; f a q) qs (Ok a).
  Lemma rfold_stop (f : Z -> Z -> res derr Z) qs e : fold_left (fun a q => do a <- a ; f a q) qs (Err e) = @Err derr Z e.
  Proof using. induction qs; auto. Qed.
  Lemma rfold_panic (f : Z -> Z -> res derr Z) qs : fold_left (fun a q => do a <- a ; f a q) qs Panic = @Panic derr Z.
  Proof using. induction qs; auto. Qed.
  Lemma rfold_cons f a q qs : rfold f a (q :: qs) = do a <- f a q ; rfold f a qs.
  Proof using.
    unfold rfold. cbn [fold_left rbind]. destruct (f a q); cbn [rbind]; [reflexivity|apply rfold_stop|apply rfold_panic].
  Qed.

  Lemma all_walk f : forall qs i a, walk (fun _ q a => do a <- f a q ; Ok (a, true)) i qs a = rfold f a qs.
  Proof using.
    induction qs as [|q qs IH]; intros i a; [reflexivity|]. rewrite rfold_cons. cbn [walk].
    destruct (f a q); cbn [rbind]; auto.
  Qed.

  Lemma masked_walk f bm off : forall qs i a next rest, off + i + N.of_nat (length qs) <= 2 ^ 32 ->
    next :: rest = map fst (pick (Some bm) (off + i) qs) ->
    (do x <- walk (masked_step dbg f off) i qs (a, next, rest) ; let '(a, _, _) := x in Ok a) = rfold f a (map snd (pick (Some bm) (off + i) qs)).
  Proof using.
    induction qs as [|q qs IH]; intros i a next rest H E; cbn [pick] in *; [discriminate E|]. cbn [length] in H.
    cbn [walk masked_step]. rewrite !mod_small32 by lia. rewrite add_u32_ok by lia. cbn [rbind].
    rewrite (N.add_comm i off). destruct (allowed (Some bm) (off + i)) eqn:A.
    - cbn [map fst snd] in *. injection E as EN E. subst next. rewrite N.eqb_refl. cbn [negb]. rewrite rfold_cons.
      destruct (f a q) as [a'|e|]; cbn [rbind]; [|reflexivity|reflexivity].
      destruct rest as [|n rest].
      + destruct (pick (Some bm) (off + i + 1) qs) eqn:EP; [reflexivity|discriminate E].
      + rewrite <- N.add_assoc in *. now apply IH; [lia|].
    - assert (NX : (off + i =? next) = false).
      { apply N.eqb_neq. intros X. subst next. assert (I : In (off + i) (map fst (pick (Some bm) (off + i + 1) qs))) by (rewrite <- E; now left).
        rewrite pick_indices in I. lia. }
      rewrite NX. cbn [negb]. rewrite <- N.add_assoc in *. now apply IH; [lia|].
  Qed.

  Lemma chunk_mask_ok {A} bm off (qs : list A) : is_bitmap bm -> off + N.of_nat (length qs) < 2 ^ 32 ->
    chunk_mask dbg bm off (N.of_nat (length qs)) = Ok (map fst (pick (Some bm) off qs)).
  Proof using.
    intros [S F] H. unfold chunk_mask. rewrite !mod_small32 by lia. rewrite add_u32_ok by lia. cbn [rbind].
    assert (G : filter (fun x => (off <=? x) && (x <? off + N.of_nat (length qs))) bm = map fst (pick (Some bm) off qs)).
    { apply sorted_ext; [|apply pick_sorted|].
      - clear F. induction S as [|x bm S IH L]; cbn [filter]; [constructor|].
        destruct ((off <=? x) && (x <? off + N.of_nat (length qs))); [|assumption]. constructor; [assumption|].
        apply Forall_forall. intros y I. apply filter_In in I. rewrite Forall_forall in L. now apply L.
      - intros x. rewrite filter_In, pick_indices, Bool.andb_true_iff, N.leb_le, N.ltb_lt. tauto. }
    destruct (existsb (fun x => off <=? x) bm) eqn:X; [now rewrite G|].
    rewrite <- G. f_equal. symmetry. clear G S F. induction bm as [|x bm IH]; cbn [existsb filter] in *; [reflexivity|].
    apply Bool.orb_false_iff in X. destruct X as [X1 X2]. rewrite X1. cbn [andb]. auto.
  Qed.
End Walks.

(** ** The queries on a reader that has not decompressed *)
Section Queries.
  Variables (dbg neg : bool) (tie : f64 -> f64 -> bool).
  Variables (scale : N) (qs : list Z) (bytes : list N) (c : spreader).
  Hypothesis EN : encodes dbg scale qs bytes.
  Hypothesis FR : fresh bytes (N.of_nat (length qs)) c.
  Let s := scale mod 2 ^ 32.

  Lemma sp_filter_ok p mask off : off + N.of_nat (length qs) <= 2 ^ 32 ->
    fst (sp_filter dbg p mask off c) =
    Ok (map fst (filter (fun x => pred_eval Z Z.eqb Z.leb Z.ltb (pred_map (quantize s) p) (snd x)) (pick mask off qs))).
  Proof using EN FR.
    intros H. destruct FR as [OV CA]. pose proof OV as [BU RE]. unfold sp_filter. cbn [spr_set spr_cache spr_r spr_records]. rewrite CA.
    destruct (in_situ dbg scale qs bytes c EN OV) as (bits & r1 & E1 & B1 & LP). rewrite E1. fold s.
    replace (spr_records c =? 0) with false.
    2:{ symmetry. apply N.eqb_neq. rewrite RE. destruct EN as (_ & _ & NE & _). destruct qs; [congruence|cbn [length]; lia]. }
    set (P := pred_eval Z Z.eqb Z.leb Z.ltb (pred_map (quantize s) p)) in *.
    match goal with |- context [sp_loop _ ?st _ _ _ _ _ ?ac] => destruct (LP _ st ac) as (r2 & E2 & B2) end. rewrite E2. rewrite filter_walk by lia. rewrite N.add_0_r. cbn [rbind fst]. f_equal.
    rewrite (fold_insert P _ [] (pick_sorted None qs off)) by (intros; constructor). cbn [app].
    destruct mask as [bm|]; [|reflexivity]. unfold bm_and. apply filter_pick.
  Qed.

  Lemma sp_all_ok f init : fst (sp_fold_all dbg f init c) = do a <- rfold f init qs ; Ok (unquantize s a).
  Proof using EN FR.
    destruct FR as [OV CA]. unfold sp_fold_all.
    destruct (in_situ dbg scale qs bytes c EN OV) as (bits & r1 & E1 & B1 & LP). rewrite E1. fold s.
    match goal with |- context [sp_loop _ ?st _ _ _ _ _ ?ac] => destruct (LP _ st ac) as (r2 & E2 & B2) end.
    rewrite E2. cbn [fst]. now rewrite all_walk.
  Qed.
  Lemma sp_masked_ok f init bm off : is_bitmap bm -> off + N.of_nat (length qs) < 2 ^ 32 ->
    fst (sp_fold_masked dbg f init bm off c) =
    match pick (Some bm) off qs with [] => Ok S754_nan | l => do a <- rfold f init (map snd l) ; Ok (unquantize s a) end.
  Proof using EN FR.
    intros BM H. destruct FR as [OV CA]. pose proof OV as [BU RE]. unfold sp_fold_masked.
    pose proof (chunk_mask_ok dbg bm off qs BM H) as CM. rewrite <- RE in CM.
    destruct (pick (Some bm) off qs) as [|[i q] l] eqn:EP.
    - destruct (in_situ dbg scale qs bytes c EN OV) as (bits & r1 & E1 & B1 & _).
      rewrite E1, CM. reflexivity.
    - destruct (in_situ dbg scale qs bytes c EN OV) as (bits & r1 & E1 & B1 & LP). rewrite E1, CM. fold s.
      cbn [map fst]. match goal with |- context [sp_loop _ ?st _ _ _ _ _ ?ac] => destruct (LP _ st ac) as (r2 & E2 & B2) end.
      rewrite E2. cbn [fst].
      pose proof (masked_walk dbg f bm off qs 0 init i (map fst l) ltac:(lia)) as W. rewrite N.add_0_r, EP in W. specialize (W eq_refl).
      cbn [map snd] in *. rewrite <- W. destruct (walk _ _ _ _) as [[[a n] re]|e|]; reflexivity.
  Qed.

  Lemma pick_all off : map snd (pick None off qs) = qs.
  Proof using. clear EN FR. revert off. induction qs as [|q l IH]; intros off; cbn [pick allowed map snd]; [reflexivity|]. now rewrite IH. Qed.

  Lemma rfold_pure (g : Z -> Z -> Z) : forall l a, rfold (fun a q => Ok (g a q)) a l = Ok (fold_left g l a).
  Proof using. induction l as [|q l IH]; intros a; [reflexivity|]. rewrite rfold_cons. cbn [rbind fold_left]. apply IH. Qed.

  Variables (mask : option bitmap) (off : N).
  Hypothesis MO : mask_ok mask.
  Hypothesis SM : off + N.of_nat (length qs) < 2 ^ 32.
  Hypothesis NE : pick mask off qs <> [].
  Let chosen := map snd (pick mask off qs).

  Lemma sp_max_ok : fst (sp_max dbg tie mask off c) = Ok (unquantize s (fold_left Z.max chosen i64_min)).
  Proof using All.
    unfold sp_max. destruct FR as [OV CA]. rewrite CA. unfold chosen. destruct mask as [bm|].
    - destruct bm as [|b bm]. { exfalso. apply NE, pick_empty. }
      rewrite sp_masked_ok by assumption. destruct (pick _ _ _) as [|x l]; [congruence|].
      rewrite rfold_pure. reflexivity.
    - rewrite sp_all_ok, rfold_pure, pick_all. reflexivity.
  Qed.
  Lemma sp_min_ok : fst (sp_min dbg tie mask off c) = Ok (unquantize s (fold_left Z.min chosen i64_max)).
  Proof using All.
    unfold sp_min. destruct FR as [OV CA]. rewrite CA. unfold chosen. destruct mask as [bm|].
    - destruct bm as [|b bm]. { exfalso. apply NE, pick_empty. }
      rewrite sp_masked_ok by assumption. destruct (pick _ _ _) as [|x l]; [congruence|].
      rewrite rfold_pure. reflexivity.
    - rewrite sp_all_ok, rfold_pure, pick_all. reflexivity.
  Qed.
  Lemma sp_sum_ok : fst (sp_sum dbg mask off c) = do a <- rfold (add_i64 dbg) 0 chosen ; Ok (unquantize s a).
  Proof using All.
    unfold sp_sum. destruct FR as [OV CA]. rewrite CA. unfold chosen. destruct mask as [bm|].
    - destruct bm as [|b bm]. { exfalso. apply NE, pick_empty. }
      rewrite sp_masked_ok by assumption. destruct (pick _ _ _) as [|x l]; [congruence|]. reflexivity.
    - rewrite sp_all_ok, pick_all. reflexivity.
  Qed.
End Queries.

(** The sum, when it stays an i64 throughout. *)
Lemma rfold_sum dbg : forall qs a, (forall n, i64 (a + fold_right Z.add 0 (firstn n qs))%Z) ->
  rfold (add_i64 dbg) a qs = Ok (a + fold_right Z.add 0 qs)%Z.
Proof.
  induction qs as [|q qs IH]; intros a H.
  - unfold rfold. cbn. now rewrite Z.add_0_r.
  - rewrite rfold_cons. unfold add_i64 at 1, checked_i64.
    assert (I : i64 (a + q)) by (specialize (H 1%nat); cbn in H; now rewrite Z.add_0_r in H).
    rewrite (proj2 (fits_iff _) I). cbn [rbind]. rewrite IH.
    + cbn [fold_right]. f_equal. ring.
    + intros n. specialize (H (S n)). cbn [firstn fold_right] in H. now rewrite Z.add_assoc in H.
Qed.
(** In release builds, in every case. *)
Lemma rfold_wraps : forall qs a, i64 a -> rfold (add_i64 false) a qs = Ok (wrap_i64 (a + fold_right Z.add 0%Z qs)).
Proof.
  induction qs as [|q qs IH]; intros a I.
  - unfold rfold. cbn [fold_left fold_right]. now rewrite Z.add_0_r, wrap_id.
  - rewrite rfold_cons. unfold add_i64 at 1, checked_i64.
    assert (E : (if fits_i64 (a + q) then Ok (a + q)%Z else Ok (wrap_i64 (a + q))) = @Ok derr Z (wrap_i64 (a + q))).
    { destruct (fits_i64 (a + q)) eqn:F; [|reflexivity]. apply fits_iff in F. now rewrite wrap_id. }
    rewrite E. cbn [rbind]. rewrite IH by apply wrap_range. cbn [fold_right]. f_equal.
    rewrite Z.add_comm, wrap_wrap_add. f_equal. ring.
Qed.

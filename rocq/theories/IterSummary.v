(** Statements about record iterators in the form of the properties. *)
From Verif Require Import Base BitIO Xor XorSpec XorSummary F64 Gorilla GorillaProofs Chimp ChimpProofs ChimpN ChimpNProofs Elf ElfXor ElfProofs
  RawSpec Uncompressed UncompressedProofs RawSummary Rle Sprintz Iter IterSpec IterProofs.

Lemma c83_iterates_decompressed : forall bytes n vs,
  (fst (gorilla_decompress (xr_new bytes)) = Ok vs -> yields (xi_next gd_next) (xi_start gd_init bytes n) vs) /\
  (fst (chimp_decompress (xr_new bytes)) = Ok vs -> yields (xi_next cd_next) (xi_start cd_init bytes n) vs) /\
  (fst (chimp128_decompress (xr_new bytes)) = Ok vs -> yields (xi_next nd_next) (xi_start nd_init bytes n) vs) /\
  (fst (unc_decompress (mkUnr n bytes None)) = Ok vs -> yields ui_next (ui_start n bytes) vs) /\
  (forall dbg, fst (sp_decompress dbg (sp_open n bytes)) = Ok vs ->
     exists s, si_start (r_new bytes) n = Ok s /\ yields (si_next dbg) s vs) /\
  (forall dbg r, rle_open bytes = Ok r -> rle_iter dbg r = Ok vs -> yields (ri_next dbg) (ri_start r) vs).
Proof.
  intros bytes n vs. repeat split.
  - apply xor_yields, gorilla_fused.
  - apply xor_yields, chimp_fused.
  - apply xor_yields, chimp128_fused.
  - intros H. destruct (unc_decompress (mkUnr n bytes None)) as [o r] eqn:E. cbn [fst] in H. subst o. exact (unc_iterates _ _ _ _ E).
  - intros dbg H. unfold sp_decompress, sp_open in H. cbn [spr_cache spr_r spr_records] in H. unfold si_start.
    destruct (sp_header (r_new bytes)) as [[[[initial scale] bits]| |] r]; try discriminate H. eexists. split; [reflexivity|].
    destruct (sp_collect dbg (N.to_nat n) scale bits r initial) as [o r2] eqn:C. destruct o as [us| |]; cbn [fst] in H; try discriminate H. injection H as ->.
    replace n with (0 + N.of_nat (N.to_nat n)) by lia. exact (sprintz_yields _ _ _ _ _ _ _ _ _ C).
  - intros dbg r _ H. now apply rle_iterates.
Qed.
Lemma c83_elf_iterates_decompressed : forall log10 bytes n vs,
  (fst (elf_decompress log10 (xr_new bytes)) = Ok vs -> forall k, (k <= length vs)%nat ->
     call (xi_next (wd_next (elf_recover log10) ldec ld_next)) (xi_start (wd_init ldec ld_init) bytes n) k =
     match nth_error vs k with Some v => Value v | None => Finished end) /\
  (fst (elfc_decompress log10 (xr_new bytes)) = Ok vs -> forall k, (k <= length vs)%nat ->
     call (xi_next (wd_next (elf_recover log10) cdec cd_next)) (xi_start (wd_init cdec cd_init) bytes n) k =
     match nth_error vs k with Some v => Value v | None => Finished end).
Proof. intros. split; apply xor_first. Qed.

Lemma c83_stays_finished :
  (forall s, stays_finished (xi_next gd_next) s) /\ (forall s, stays_finished (xi_next cd_next) s) /\
  (forall s, stays_finished (xi_next nd_next) s) /\ (forall s, stays_finished ui_next s) /\
  (forall dbg s, stays_finished (ri_next dbg) s) /\ (forall dbg s, stays_finished (si_next dbg) s).
Proof.
  repeat split.
  - intros. apply xor_stays, gorilla_fused.
  - intros. apply xor_stays, chimp_fused.
  - intros. apply xor_stays, chimp128_fused.
  - exact unc_stays.
  - exact rle_stays.
  - exact sprintz_stays.
Qed.

(** The Elf decoders: no record after [None]. *)
Definition dead {D} (d_next : D -> breader -> drd (option N * D)) (d : D) : Prop := forall r, d_next d r = DOk (None, d) r.
Lemma chimp_dead d r d' r' : cd_next d r = DOk (None, d') r' -> dead cd_next d'.
Proof.
  intros E r2. unfold cd_next in E |- *. destruct (cd_eos d) eqn:G; [injection E as <- <-; now rewrite G|].
  match type of E with dbind ?x _ = _ => destruct x as [d1 r1|r1|] end; cbn [dbind] in E; try discriminate E.
  destruct (cd_eos d1) eqn:G1; [|discriminate E]. injection E as <- <-. now rewrite G1.
Qed.
Section Elf.
  Variable D : Type.
  Variable d_next : D -> breader -> drd (option N * D).
  Variable recover : Z -> N -> N.
  Hypothesis DEAD : forall d r d' r', d_next d r = DOk (None, d') r' -> dead d_next d'.
  Let next := xi_next (wd_next recover D d_next).
  Lemma wd_none d r d' r' : wd_next recover D d_next d r = DOk (None, d') r' -> dead d_next (wd_inner d').
  Proof using DEAD.
    assert (K : forall l i q, wd_keep D d_next l i q = DOk (None, d') r' -> dead d_next (wd_inner d')).
    { intros l i q. unfold wd_keep. destruct (d_next i q) as [[o d2] r2|r2|] eqn:E; cbn [dbind]; intros H; try discriminate H. injection H as -> <- <-. exact (DEAD _ _ _ _ E). }
    assert (R : forall l i q, wd_recover recover D d_next l i q = DOk (None, d') r' -> dead d_next (wd_inner d')).
    { intros l i q. unfold wd_recover. destruct (d_next i q) as [[o d2] r2|r2|] eqn:E; cbn [dbind]; intros H; try discriminate H. injection H as H <- <-. destruct o; [discriminate H|]. exact (DEAD _ _ _ _ E). }
    unfold wd_next. destruct (read_bit r) as [b1 r1|r1|]; cbn; try discriminate. destruct (negb b1); [apply R|].
    destruct (read_bit r1) as [b2 r2|r2|]; cbn; try discriminate. destruct (negb b2); [apply K|].
    destruct (read_bits r2 4) as [b4 r4|r4|]; cbn; try discriminate. apply R.
  Qed.
  Lemma wd_dead d r : dead d_next (wd_inner d) -> match wd_next recover D d_next d r with DOk (o, d') _ => o = None /\ dead d_next (wd_inner d') | _ => True end.
  Proof using.
    intros H. assert (K : forall l q, wd_keep D d_next l (wd_inner d) q = DOk (None, mkWD l (wd_inner d)) q) by (intros; unfold wd_keep; now rewrite H).
    assert (R : forall l q, wd_recover recover D d_next l (wd_inner d) q = DOk (None, mkWD l (wd_inner d)) q) by (intros; unfold wd_recover; now rewrite H).
    unfold wd_next. destruct (read_bit r) as [b1 r1|r1|]; cbn; auto. destruct (negb b1); [rewrite R; now split|].
    destruct (read_bit r1) as [b2 r2|r2|]; cbn; auto. destruct (negb b2); [rewrite K; now split|].
    destruct (read_bits r2 4) as [b4 r4|r4|]; cbn; auto. rewrite R. now split.
  Qed.
  Lemma no_more s j k v : call next s j = Finished -> (j <= k)%nat -> call next s k <> Value v.
  Proof using DEAD.
    intros F L. replace k with (j + (k - j))%nat by lia. destruct (k - j)%nat as [|n]; [rewrite Nat.add_0_r, F; discriminate|].
    rewrite call_after, call_S. assert (DD : dead d_next (wd_inner (xi_d (snd (next (after next j s)))))).
    { unfold call in F. revert F. generalize (after next j s). intros t. unfold next, xi_next. destruct (wd_next recover D d_next (xi_d t) (xi_r t)) as [[[x|] d] r|r|] eqn:E; cbn [fst]; try discriminate.
      intros _. cbn [snd xi_d]. exact (wd_none _ _ _ _ E). }
    revert DD. generalize (snd (next (after next j s))). clear F L. induction n as [|n IH]; intros t DD.
    - unfold call. cbn [after]. unfold next, xi_next. pose proof (wd_dead (xi_d t) (xi_r t) DD) as W. destruct (wd_next recover D d_next (xi_d t) (xi_r t)) as [[o d] r|r|]; [destruct W as [-> W]| |]; cbn [fst]; discriminate.
    - rewrite call_S. apply IH. unfold next, xi_next. pose proof (wd_dead (xi_d t) (xi_r t) DD) as W. destruct (wd_next recover D d_next (xi_d t) (xi_r t)) as [[o d] r|r|]; [destruct W as [-> W]| |]; cbn [snd xi_d]; assumption.
  Qed.
End Elf.
Lemma elf_dead d r d' r' : ld_next d r = DOk (None, d') r' -> dead ld_next d'.
Proof.
  assert (EOS : forall e, ld_eos e = true -> dead ld_next e) by (intros e H q; unfold ld_next; now rewrite H).
  assert (STORE : forall e lz tz x q, ld_store e lz tz x q = DOk (None, d') r' -> dead ld_next d').
  { intros e lz tz x q. unfold ld_store. destruct (N.lxor x (ld_val e) =? nan_bits); intros H; [|discriminate H]. injection H as <- _. now apply EOS. }
  assert (WIN : forall e lz c q, ld_window e lz c q = DOk (None, d') r' -> dead ld_next d').
  { intros e lz c q. unfold ld_window. destruct (read_bits q ((c - 1) mod 256)) as [b q2|q2|]; intros H; try discriminate H. exact (STORE _ _ _ _ _ H). }
  unfold ld_next. destruct (ld_eos d) eqn:E; [intros H; injection H as <- _; now apply EOS|]. destruct (ld_first d).
  - unfold ld_read_first. destruct (read_bits r 7) as [tz q|q|]; intros H; try discriminate H.
    assert (F : forall v q2, (if v =? nan_bits then DOk (None, mkLD v (ld_lz d) (ld_tz d) false true) q2 else DOk (Some v, mkLD v (ld_lz d) (ld_tz d) false (ld_eos d)) q2) = DOk (None, d') r' -> dead ld_next d').
    { intros v q2. destruct (v =? nan_bits); intros G; [|discriminate G]. injection G as <- _. now apply EOS. }
    destruct (tz <? 64); [|exact (F 0 q H)]. destruct (read_bits q (wsub8 63 tz)) as [b q2|q2|]; try discriminate H. exact (F (shl64m (N.lor (shl64 b 1) 1) tz) q2 H).
  - unfold ld_read_next. destruct (read_bits r 2) as [flag q|q|]; intros H; try discriminate H.
    assert (C0 : forall c, (match read_bits q c with Got b q2 => ld_store d (ld_lz d) (ld_tz d) (shl64m b (ld_tz d)) q2 | End_ q2 => DErr q2 | RPanic => DPanic end) = DOk (None, d') r' -> dead ld_next d').
    { intros c. destruct (read_bits q c) as [b q2|q2|]; intros G; try discriminate G. exact (STORE _ _ _ _ _ G). }
    destruct flag as [|[[p|p|]|[p|p|]|]]; try exact (C0 _ H); try discriminate H.
    + destruct (read_bits q 9) as [lac q2|q2|]; try discriminate H. exact (WIN _ _ _ _ H).
    + destruct (read_bits q 7) as [lac q2|q2|]; try discriminate H. cbv zeta in H. destruct (_ =? 1) in H; [exact (STORE _ _ _ _ _ H)|exact (WIN _ _ _ _ H)].
Qed.
Lemma c83_elf_no_more : forall log10 j k v, (j <= k)%nat ->
  (forall s, call (xi_next (wd_next (elf_recover log10) ldec ld_next)) s j = Finished ->
     call (xi_next (wd_next (elf_recover log10) ldec ld_next)) s k <> Value v) /\
  (forall s, call (xi_next (wd_next (elf_recover log10) cdec cd_next)) s j = Finished ->
     call (xi_next (wd_next (elf_recover log10) cdec cd_next)) s k <> Value v).
Proof. intros log10 j k v L. split; intros s F; [exact (no_more _ _ _ elf_dead s j k v F L)|exact (no_more _ _ _ chimp_dead s j k v F L)]. Qed.

Lemma c83_ends : forall bytes n dbg, Forall is_byte bytes ->
  (forall r, rle_open bytes = Ok r -> (exists k, call (ri_next dbg) (ri_start r) k = Panicked) \/ ends (ri_next dbg) (ri_start r)) /\
  (forall s, si_start (r_new bytes) n = Ok s -> (exists k, call (si_next dbg) s k = Panicked) \/ ends (si_next dbg) s).
Proof.
  intros bytes n dbg B. split.
  - intros r O. apply rle_ends; unfold ri_start; cbn [ri_run ri_cursor]; [lia|]. unfold rle_open, take_exact in O.
    destruct (length bytes <? 8)%nat; cbn [rbind] in O; [discriminate O|]. injection O as <-. cbn [rr_cursor]. rewrite <- (firstn_skipn 8 bytes) in B. now apply Forall_app in B.
  - intros s O. apply sprintz_ends. unfold si_start in O. destruct (sp_header (r_new bytes)) as [[[[i sc] b]| |] r]; try discriminate O. injection O as <-. cbn. lia.
Qed.
Lemma c83_rle_release_ends : forall bytes r, Forall is_byte bytes -> rle_open bytes = Ok r -> ends (ri_next false) (ri_start r).
Proof.
  intros bytes r B O. destruct (c83_ends bytes 0 false B) as [H _]. destruct (H r O) as [[k K]|E]; [|exact E]. exfalso. revert K. unfold call. generalize (after (ri_next false) k (ri_start r)).
  intros s. unfold ri_next, ri_take. destruct (ri_run s =? 0).
  - destruct (ri_fields s <? ri_field s + 1); [discriminate|]. destruct (take_exact 9 (ri_cursor s)) as [[b rest]| |]; try discriminate. cbn [ri_run]. destruct (nth 0 b 0 =? 0); discriminate.
  - discriminate.
Qed.
Lemma c83_truncated : forall bytes n k, N.of_nat (length bytes) < 8 * n -> call ui_next (ui_start n bytes) k <> Finished.
Proof. intros. apply unc_never. lia. Qed.
Lemma short_read bytes : (length bytes < 8)%nat -> read_bits (r_new bytes) 64 = End_ (r_new bytes).
Proof.
  intros L. unfold read_bits, r_new, rlen. cbn [rbuf rbyte rbit]. assert (A : (N.of_nat (length bytes) <? 0) = false) by (apply N.ltb_ge; lia).
  assert (B : ((N.of_nat (length bytes) - 0) * 8 <? 0) = false) by (apply N.ltb_ge; lia). assert (C : ((N.of_nat (length bytes) - 0) * 8 - 0 <? 64) = true) by (apply N.ltb_lt; lia).
  now rewrite A, B, C.
Qed.
Lemma failed_for_ever {S} (next : S -> item * S) s : next s = (Failed, s) -> forall k, call next s k = Failed.
Proof. intros H k. apply (stuck next (fun t => t = s)); [|reflexivity]. intros t ->. now rewrite H. Qed.
Lemma c83_short : forall bytes n k, (length bytes < 8)%nat ->
  call (xi_next gd_next) (xi_start gd_init bytes n) k = Failed /\ call (xi_next cd_next) (xi_start cd_init bytes n) k = Failed /\
  call (xi_next nd_next) (xi_start nd_init bytes n) k = Failed.
Proof.
  intros bytes n k L. pose proof (short_read bytes L) as R. repeat split; apply failed_for_ever; unfold xi_next, xi_start; cbn [xi_d xi_r].
  - unfold gd_next. cbn [gd_done gd_init gd_first]. unfold gd_read_first. rewrite R. reflexivity.
  - unfold cd_next. cbn [cd_eos cd_init]. rewrite R. reflexivity.
  - unfold nd_next. cbn [nd_eos nd_init]. rewrite R. reflexivity.
Qed.

(** ** The announced length *)
Lemma len_constant {D} (d_next : D -> breader -> drd (option N * D)) k : forall s, xi_len (after (xi_next d_next) k s) = xi_len s.
Proof.
  induction k as [|k IH]; intros s; [reflexivity|]. cbn [after]. rewrite IH. unfold xi_next. destruct (d_next (xi_d s) (xi_r s)) as [[[v|] d] r|r|]; reflexivity.
Qed.
Lemma nth_error_skipn' {A} k : forall (l : list A) j, nth_error l (k + j) = nth_error (skipn k l) j.
Proof. induction k as [|k IH]; intros l j; [reflexivity|]. destruct l as [|a l]; cbn; [now destruct j|apply IH]. Qed.
Lemma yields_after {S} (next : S -> item * S) s vs : yields next s vs -> forall k, yields next (after next k s) (skipn k vs).
Proof. intros Y k j. rewrite <- call_after, Y. now rewrite nth_error_skipn'. Qed.
Lemma c84_gorilla : forall c xs rest k, Forall is_u64 xs -> ~ In nan_bits xs -> Forall is_byte rest ->
  let s := xi_start gd_init (x_buffers (gorilla_prepare (gorilla_compress c xs)) ++ rest) (N.of_nat (length xs)) in
  let s' := after (xi_next gd_next) k s in
  yields (xi_next gd_next) s' (skipn k xs) /\ xi_len s' = N.of_nat (length xs).
Proof.
  intros c xs rest k U NN B s s'. split; [|unfold s'; now rewrite len_constant]. apply yields_after. apply c83_iterates_decompressed. now apply gorilla_lossless.
Qed.
Lemma c84_chimp : forall c xs rest k, Forall is_u64 xs -> ~ In nan_bits xs -> Forall is_byte rest ->
  let s := xi_start cd_init (x_buffers (chimp_prepare (chimp_compress c xs)) ++ rest) (N.of_nat (length xs)) in
  let s' := after (xi_next cd_next) k s in
  yields (xi_next cd_next) s' (skipn k xs) /\ xi_len s' = N.of_nat (length xs).
Proof.
  intros c xs rest k U NN B s s'. split; [|unfold s'; now rewrite len_constant]. apply yields_after. apply c83_iterates_decompressed. now apply chimp_lossless.
Qed.
Lemma c84_chimp128 : forall c xs rest k, Forall is_u64 xs -> ~ In nan_bits xs -> Forall is_byte rest ->
  let s := xi_start nd_init (x_buffers (chimp128_prepare (chimp128_compress c xs)) ++ rest) (N.of_nat (length xs)) in
  let s' := after (xi_next nd_next) k s in
  yields (xi_next nd_next) s' (skipn k xs) /\ xi_len s' = N.of_nat (length xs).
Proof.
  intros c xs rest k U NN B s s'. split; [|unfold s'; now rewrite len_constant]. apply yields_after. apply c83_iterates_decompressed. now apply chimp128_lossless.
Qed.
Lemma yields_unique {S} (next : S -> item * S) s vs : forall us, yields next s us -> yields next s vs -> us = vs.
Proof.
  revert s. induction vs as [|v vs IH]; intros s [|u us] A B; try reflexivity.
  - specialize (A 0%nat). specialize (B 0%nat). rewrite A in B. discriminate B.
  - specialize (A 0%nat). specialize (B 0%nat). rewrite A in B. discriminate B.
  - pose proof (A 0%nat) as A0. rewrite (B 0%nat) in A0. injection A0 as ->. f_equal. apply (IH (snd (next s))); intros k; [exact (A (Datatypes.S k))|exact (B (Datatypes.S k))].
Qed.
Lemma c84_initial : forall c xs rest, Forall is_u64 xs -> ~ In nan_bits xs -> Forall is_byte rest ->
  let s := xi_start gd_init (x_buffers (gorilla_prepare (gorilla_compress c xs)) ++ rest) (N.of_nat (length xs)) in
  forall vs, yields (xi_next gd_next) s vs -> xi_len s = N.of_nat (length vs).
Proof.
  intros c xs rest U NN B s vs Y. destruct (c84_gorilla c xs rest 0 U NN B) as [Y2 L]. cbn [after skipn] in Y2, L. rewrite (yields_unique _ _ _ _ Y Y2). exact L.
Qed.

(** ** Iterating again *)
Lemma bytes_skip : forall k xs, skipn (8 * k) (flat_map (le_bytes 8) xs) = flat_map (le_bytes 8) (skipn k xs).
Proof.
  induction k as [|k IH]; intros xs; [reflexivity|]. destruct xs as [|x xs]; [now rewrite !skipn_nil|]. replace (8 * S k)%nat with (8 + 8 * k)%nat by lia.
  rewrite <- skip_skip. exact (IH xs).
Qed.
Lemma bytes_length : forall xs, length (flat_map (le_bytes 8) xs) = (8 * length xs)%nat.
Proof. induction xs as [|x xs IH]; [reflexivity|]. cbn [flat_map]. rewrite app_length, IH. cbn [length le_bytes]. lia. Qed.
Lemma c85_uncompressed : forall c xs k, Forall is_u64 xs -> (0 < k <= length xs)%nat ->
  let n := N.of_nat (length xs) in
  let r := after ui_next k (ui_start n (unc_buffers (unc_prepare (unc_compress c xs)))) in
  (forall j, call ui_next (ui_start n (ui_cursor r)) j = match nth_error (skipn k xs) j with Some v => Value v | None => Failed end) /\
  exists e, fst (unc_decompress (mkUnr n (ui_cursor r) None)) = Err e.
Proof.
  intros c xs k U L n r. destruct (unc_lossless c xs U) as [B _]. unfold r. rewrite B. unfold ui_start. rewrite unc_after; [|rewrite bytes_length; lia|unfold n; lia].
  cbn [ui_cursor]. rewrite bytes_skip. assert (US : Forall is_u64 (skipn k xs)). { rewrite <- (firstn_skipn k xs) in U. now apply Forall_app in U. }
  pose proof (skipn_length k xs) as SL. split.
  - intros j. rewrite (unc_short (length (skipn k xs))); [|apply bytes_length|unfold n; lia]. rewrite <- (app_nil_r (flat_map _ _)), f64s_of_flat by assumption. reflexivity.
  - unfold unc_decompress. cbn [ur_cache ur_cursor ur_records]. assert (E : (N.of_nat (length (flat_map (le_bytes 8) (skipn k xs))) <? 8 * n) = true) by (apply N.ltb_lt; rewrite bytes_length; unfold n; lia).
    rewrite E. eexists. reflexivity.
Qed.

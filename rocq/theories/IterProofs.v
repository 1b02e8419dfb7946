(** Record iterators. *)
From Verif Require Import Base BitIO Xor F64 Gorilla Chimp ChimpN Elf ElfXor Uncompressed Rle Sprintz Iter IterSpec.

Lemma call_0 {S} (next : S -> item * S) s : call next s 0 = fst (next s).
Proof. reflexivity. Qed.
Lemma call_S {S} (next : S -> item * S) s k : call next s (Datatypes.S k) = call next (snd (next s)) k.
Proof. reflexivity. Qed.
Lemma after_S {S} (next : S -> item * S) k : forall s, after next (Datatypes.S k) s = snd (next (after next k s)).
Proof. induction k as [|k IH]; intros s; [reflexivity|]. cbn [after]. rewrite <- IH. reflexivity. Qed.
(** Stuck states. *)
Lemma stuck {S} (next : S -> item * S) (inv : S -> Prop) i : (forall s, inv s -> fst (next s) = i /\ inv (snd (next s))) ->
  forall k s, inv s -> call next s k = i.
Proof. intros H. induction k as [|k IH]; intros s I; [apply (H s I)|]. rewrite call_S. apply IH, (H s I). Qed.
Lemma reached {S} (next : S -> item * S) (inv : S -> Prop) : (forall s, inv s -> inv (snd (next s))) -> forall k s, inv s -> inv (after next k s).
Proof. intros H. induction k as [|k IH]; intros s I; [exact I|]. cbn [after]. apply IH, H, I. Qed.
Lemma call_after {S} (next : S -> item * S) s j : forall k, call next s (j + k) = call next (after next j s) k.
Proof. revert s. induction j as [|j IH]; intros s k; [reflexivity|]. cbn [plus after]. rewrite call_S. apply IH. Qed.
Lemma stays {S} (next : S -> item * S) (inv : S -> Prop) : (forall s, inv s -> inv (snd (next s))) ->
  (forall s, inv s -> fst (next s) = Finished -> fst (next (snd (next s))) = Finished) -> forall s, inv s -> stays_finished next s.
Proof.
  intros HI HF s I j k L F. replace k with (j + (k - j))%nat by lia. rewrite call_after. generalize (k - j)%nat. intros n.
  assert (IJ : inv (after next j s)) by (apply reached; assumption). change (fst (next (after next j s)) = Finished) in F.
  apply (stuck next (fun t => inv t /\ fst (next t) = Finished)); [|split; assumption]. intros t [IT FT]. split; [exact FT|]. split; [now apply HI|now apply HF].
Qed.
Lemma yields_nil {S} (next : S -> item * S) s : fst (next s) = Finished -> stays_finished next s -> yields next s [].
Proof. intros F H k. rewrite nth_error_nil || (destruct k; cbn [nth_error]). apply (H 0%nat); [lia|exact F]. all: apply (H 0%nat); [lia|exact F]. Qed.
Lemma yields_cons {S} (next : S -> item * S) s v vs : fst (next s) = Value v -> yields next (snd (next s)) vs -> yields next s (v :: vs).
Proof. intros F Y [|k]; [exact F|]. rewrite call_S. apply Y. Qed.

(** ** XOR schemes *)
Section Xor.
  Variable D : Type.
  Variable d_init : D.
  Variable d_next : D -> breader -> drd (option N * D).
  Definition fused : Prop := forall d r d' r' r2, d_next d r = DOk (None, d') r' -> exists d2 r3, d_next d' r2 = DOk (None, d2) r3.
  Hypothesis FU : fused.
  Lemma xor_stays s : stays_finished (xi_next d_next) s.
  Proof using FU.
    apply (stays _ (fun _ => True)); [trivial| |exact I]. intros t _ F. unfold xi_next in F |- *. destruct (d_next (xi_d t) (xi_r t)) as [[[v|] d] r|r|] eqn:E; try discriminate F.
    cbn [snd xi_d xi_r]. destruct (FU _ _ _ _ r E) as (d2 & r3 & E2). rewrite E2. reflexivity.
  Qed.
  Lemma xor_collects fuel n : forall d r vs r', x_collect D d_next fuel d r = (Ok vs, r') -> yields (xi_next d_next) (mkXI d r n) vs.
  Proof using FU.
    induction fuel as [|fuel IH]; intros d r vs r' H; cbn [x_collect] in H; [discriminate H|]. destruct (d_next d r) as [[[v|] d'] r2|r2|] eqn:E; try discriminate H.
    - destruct (x_collect D d_next fuel d' r2) as [o r3] eqn:C. destruct o as [us| |]; try discriminate H. injection H as <- <-.
      apply yields_cons; unfold xi_next; cbn [xi_d xi_r xi_n]; rewrite E; [reflexivity|]. cbn [snd]. exact (IH _ _ _ _ C).
    - injection H as <- <-. apply yields_nil; [unfold xi_next; cbn [xi_d xi_r]; now rewrite E|apply xor_stays].
  Qed.
  Lemma xor_yields bytes n vs : fst (x_decompress D d_init d_next (xr_new bytes)) = Ok vs -> yields (xi_next d_next) (xi_start d_init bytes n) vs.
  Proof using FU.
    unfold x_decompress, xr_new, xi_start. cbn [xcache xr]. destruct (x_collect D d_next (x_fuel (r_new bytes)) d_init (r_new bytes)) as [o r'] eqn:C. intros H.
    destruct o as [us| |]; cbn [fst] in H; try discriminate H. injection H as ->. exact (xor_collects _ n _ _ _ _ C).
  Qed.
End Xor.
Section Prefix.
  Variable D : Type.
  Variable d_init : D.
  Variable d_next : D -> breader -> drd (option N * D).
  (** Up to the first [None] for any decoder. *)
  Lemma xor_prefix fuel n : forall d r vs r', x_collect D d_next fuel d r = (Ok vs, r') ->
    forall k, (k <= length vs)%nat -> call (xi_next d_next) (mkXI d r n) k = match nth_error vs k with Some v => Value v | None => Finished end.
  Proof using.
    induction fuel as [|fuel IH]; intros d r vs r' H; cbn [x_collect] in H; [discriminate H|]. destruct (d_next d r) as [[[v|] d'] r2|r2|] eqn:E; try discriminate H.
    - destruct (x_collect D d_next fuel d' r2) as [o r3] eqn:C. destruct o as [us| |]; try discriminate H. injection H as <- <-. intros [|k] L.
      + unfold call, xi_next. cbn [after xi_d xi_r]. now rewrite E.
      + rewrite call_S. unfold xi_next at 2. cbn [xi_d xi_r xi_n]. rewrite E. cbn [snd nth_error]. apply (IH _ _ _ _ C). cbn [length] in L. lia.
    - injection H as <- <-. intros k L. cbn [length] in L. assert (k = 0)%nat by lia. subst k. unfold call, xi_next. cbn [after xi_d xi_r]. now rewrite E.
  Qed.
  Lemma xor_first bytes n vs : fst (x_decompress D d_init d_next (xr_new bytes)) = Ok vs ->
    forall k, (k <= length vs)%nat -> call (xi_next d_next) (xi_start d_init bytes n) k = match nth_error vs k with Some v => Value v | None => Finished end.
  Proof using.
    unfold x_decompress, xr_new, xi_start. cbn [xcache xr]. destruct (x_collect D d_next (x_fuel (r_new bytes)) d_init (r_new bytes)) as [o r'] eqn:C. intros H.
    destruct o as [us| |]; cbn [fst] in H; try discriminate H. injection H as ->. exact (xor_prefix _ n _ _ _ _ C).
  Qed.
End Prefix.

Lemma gorilla_fused : fused gdec gd_next.
Proof.
  intros d r d' r' r2 E. exists d', r2. unfold gd_next in *. destruct (gd_done d) eqn:G; [injection E as <- <-; now rewrite G|].
  destruct (if gd_first d then gd_read_first d r else gd_read_next d r) as [[v d1] r1|r1|]; cbn [dbind] in E; try discriminate E.
  destruct (v =? nan_bits); [|discriminate E]. injection E as <- <-. reflexivity.
Qed.
Lemma chimp_fused : fused cdec cd_next.
Proof.
  intros d r d' r' r2 E. exists d', r2. unfold cd_next in E |- *. destruct (cd_eos d) eqn:G; [injection E as <- <-; now rewrite G|].
  match type of E with dbind ?x _ = _ => destruct x as [d1 r1|r1|] end; cbn [dbind] in E; try discriminate E.
  destruct (cd_eos d1) eqn:G1; [|discriminate E]. injection E as <- <-. now rewrite G1.
Qed.
Lemma chimp128_fused : fused ndec nd_next.
Proof.
  intros d r d' r' r2 E. exists d', r2. unfold nd_next in E |- *. destruct (nd_eos d) eqn:G; [injection E as <- <-; now rewrite G|].
  match type of E with dbind ?x _ = _ => destruct x as [d1 r1|r1|] end; cbn [dbind] in E; try discriminate E.
  destruct (nd_eos d1) eqn:G1; [|discriminate E]. injection E as <- <-. now rewrite G1.
Qed.

(** ** Uncompressed *)
Lemma unc_stays s : stays_finished ui_next s.
Proof.
  apply (stays _ (fun _ => True)); [trivial| |exact I]. intros t _ F. unfold ui_next in F |- *. destruct (ui_records t <=? ui_count t) eqn:E; [cbn [snd]; now rewrite E|].
  destruct (take_exact 8 (ui_cursor t)) as [[b rest]| |]; discriminate F.
Qed.
Lemma unc_yields k : forall c bs, (8 * k <= length bs)%nat -> yields ui_next (mkUI c (c + N.of_nat k) bs) (f64s_of_bytes k bs).
Proof.
  induction k as [|k IH]; intros c bs L.
  - cbn [f64s_of_bytes]. apply yields_nil; [|apply unc_stays]. unfold ui_next. cbn [ui_records ui_count]. rewrite N.add_0_r, N.leb_refl. reflexivity.
  - cbn [f64s_of_bytes]. assert (E : (c + N.of_nat (S k) <=? c) = false) by (apply N.leb_gt; lia). assert (T : take_exact 8 bs = Ok (firstn 8 bs, skipn 8 bs)).
    { unfold take_exact. assert (X : (length bs <? 8)%nat = false) by (apply Nat.ltb_ge; lia). now rewrite X. }
    apply yields_cons; unfold ui_next; cbn [ui_records ui_count ui_cursor]; rewrite E, T; [reflexivity|]. cbn [snd].
    replace (c + N.of_nat (S k)) with (c + 1 + N.of_nat k) by lia. apply IH. rewrite skipn_length. lia.
Qed.
Lemma unc_iterates n bs vs r : unc_decompress (mkUnr n bs None) = (Ok vs, r) -> yields ui_next (ui_start n bs) vs.
Proof.
  unfold unc_decompress. cbn [ur_cache ur_cursor ur_records]. destruct (N.of_nat (length bs) <? 8 * n) eqn:E; intros H; [discriminate H|]. injection H as <- _. apply N.ltb_ge in E.
  unfold ui_start. replace n with (0 + N.of_nat (N.to_nat n)) at 1 by lia. apply unc_yields. lia.
Qed.
(** A chunk cut short: an error for ever. *)
Lemma unc_never k : forall c n bs, N.of_nat (length bs) < 8 * (n - c) -> call ui_next (mkUI c n bs) k <> Finished.
Proof.
  induction k as [|k IH]; intros c n bs L.
  - unfold call, ui_next. cbn [after ui_records ui_count ui_cursor]. assert (E : (n <=? c) = false) by (apply N.leb_gt; lia). rewrite E.
    destruct (take_exact 8 bs) as [[b rest]| |]; discriminate.
  - rewrite call_S. unfold ui_next at 2. cbn [ui_records ui_count ui_cursor]. assert (E : (n <=? c) = false) by (apply N.leb_gt; lia). rewrite E.
    unfold take_exact. destruct (length bs <? 8)%nat eqn:X; cbn [snd].
    + apply IH. cbn [length]. lia.
    + apply Nat.ltb_ge in X. apply IH. rewrite skipn_length. lia.
Qed.

(** ** Run-length *)
Lemma rle_stays dbg s : stays_finished (ri_next dbg) s.
Proof.
  apply (stays _ (fun _ => True)); [trivial| |exact I]. intros t _ F. unfold ri_next in F |- *. destruct (ri_run t =? 0) eqn:R.
  - destruct (ri_fields t <? ri_field t + 1) eqn:E.
    + cbn [snd ri_run ri_field ri_fields]. change (0 =? 0) with true. cbv iota. assert (X : (ri_fields t <? ri_field t + 1 + 1) = true) by (apply N.ltb_lt in E; apply N.ltb_lt; lia). now rewrite X.
    + exfalso. destruct (take_exact 9 (ri_cursor t)) as [[b rest]| |]; try discriminate F. unfold ri_take in F. cbn [ri_run] in F.
      destruct (nth 0 b 0 =? 0); [destruct dbg|]; discriminate F.
  - exfalso. unfold ri_take in F. rewrite R in F. discriminate F.
Qed.
Lemma rle_repeat dbg v f n bs vs : forall run, yields (ri_next dbg) (mkRI f 0 v n bs) vs -> yields (ri_next dbg) (mkRI f (N.of_nat run) v n bs) (repeat v run ++ vs).
Proof.
  induction run as [|run IH]; intros Y; [exact Y|]. cbn [repeat app]. assert (E : (N.of_nat (S run) =? 0) = false) by (apply N.eqb_neq; lia).
  apply yields_cons; unfold ri_next, ri_take; cbn [ri_run ri_value ri_field ri_fields ri_cursor]; rewrite !E; [reflexivity|]. cbn [snd].
  replace (N.of_nat (S run) - 1) with (N.of_nat run) by lia. now apply IH.
Qed.
Lemma rle_yields dbg : forall fuel n f v bs vs, f <= n -> rle_iter_collect dbg fuel (n - f) bs = Ok vs -> yields (ri_next dbg) (mkRI f 0 v n bs) vs.
Proof.
  induction fuel as [|fuel IH]; intros n f v bs vs L H; cbn [rle_iter_collect] in H.
  - destruct (n - f =? 0) eqn:E; [|discriminate H]. injection H as <-. apply N.eqb_eq in E. apply yields_nil; [|apply rle_stays]. unfold ri_next. cbn [ri_run ri_fields ri_field]. change (0 =? 0) with true. cbv iota.
    assert (X : (n <? f + 1) = true) by (apply N.ltb_lt; lia). now rewrite X.
  - destruct (n - f =? 0) eqn:E.
    + injection H as <-. apply N.eqb_eq in E. apply yields_nil; [|apply rle_stays]. unfold ri_next. cbn [ri_run ri_fields ri_field]. change (0 =? 0) with true. cbv iota.
      assert (X : (n <? f + 1) = true) by (apply N.ltb_lt; lia). now rewrite X.
    + apply N.eqb_neq in E. assert (X : (n <? f + 1) = false) by (apply N.ltb_ge; lia).
      destruct (take_exact 9 bs) as [[buf rest]| |] eqn:T; cbn [rbind] in H; try discriminate H. set (run := nth 0 buf 0) in *.
      destruct (dbg && (run =? 0)) eqn:DR; [discriminate H|]. replace (n - f - 1) with (n - (f + 1)) in H by lia.
      destruct (rle_iter_collect dbg fuel (n - (f + 1)) rest) as [us| |] eqn:C; cbn [rbind] in H; try discriminate H. injection H as <-.
      pose proof (IH n (f + 1) (le_val (skipn 1 buf)) rest us ltac:(lia) C) as Y.
      destruct (run =? 0) eqn:R0.
      * destruct dbg; [discriminate DR|]. change (repeat (le_val (skipn 1 buf)) 256 ++ us) with (le_val (skipn 1 buf) :: (repeat (le_val (skipn 1 buf)) 255 ++ us)).
        apply yields_cons; unfold ri_next, ri_take; cbn [ri_run ri_value ri_field ri_fields ri_cursor]; change (0 =? 0) with true; cbv iota zeta; rewrite X, T; cbn [ri_run]; fold run; rewrite R0; [reflexivity|].
        cbn [snd ri_value ri_field ri_fields ri_cursor]. apply (rle_repeat false _ _ _ _ _ 255 Y).
      * destruct (N.to_nat run) as [|k] eqn:K; [apply N.eqb_neq in R0; lia|]. cbn [repeat app].
        apply yields_cons; unfold ri_next, ri_take; cbn [ri_run ri_value ri_field ri_fields ri_cursor]; change (0 =? 0) with true; cbv iota zeta; rewrite X, T; cbn [ri_run]; fold run; rewrite R0; [reflexivity|].
        cbn [snd ri_value ri_field ri_fields ri_cursor]. replace (run - 1) with (N.of_nat k) by lia. apply (rle_repeat dbg _ _ _ _ _ k Y).
Qed.
Lemma rle_iterates dbg r vs : rle_iter dbg r = Ok vs -> yields (ri_next dbg) (ri_start r) vs.
Proof. unfold rle_iter, ri_start. intros H. apply (rle_yields dbg (S (length (rr_cursor r)))); [lia|]. now rewrite N.sub_0_r. Qed.

(** ** Ends by a measure *)
Lemma ends_measure {S} (next : S -> item * S) (inv : S -> Prop) (m : S -> nat) : (forall s, stays_finished next s) ->
  (forall s, inv s -> inv (snd (next s))) ->
  (forall s, inv s -> fst (next s) = Finished \/ fst (next s) = Panicked \/ (m (snd (next s)) < m s)%nat) ->
  forall s, inv s -> (exists k, call next s k = Panicked) \/ ends next s.
Proof.
  intros ST HI HM. assert (G : forall n s, inv s -> (m s < n)%nat -> exists k, call next s k = Finished \/ call next s k = Panicked).
  { induction n as [|n IH]; intros s I L; [lia|]. destruct (HM s I) as [F|[F|F]]; [exists 0%nat; now left|exists 0%nat; now right|].
    destruct (IH (snd (next s)) (HI s I) ltac:(lia)) as (k & K). exists (Datatypes.S k). rewrite call_S. exact K. }
  intros s I. destruct (G (Datatypes.S (m s)) s I ltac:(lia)) as (k & [K|K]); [right|left; eauto]. exists k. intros j L. exact (ST s k j L K).
Qed.
Lemma rle_ends dbg s : ri_run s < 256 -> Forall is_byte (ri_cursor s) -> (exists k, call (ri_next dbg) s k = Panicked) \/ ends (ri_next dbg) s.
Proof.
  intros R B. apply (ends_measure _ (fun s => ri_run s < 256 /\ Forall is_byte (ri_cursor s)) (fun s => N.to_nat (256 * (ri_fields s + 1 - ri_field s) + ri_run s)) (rle_stays dbg)); [| |split; assumption].
  - clear. intros s [R B]. unfold ri_next, ri_take. destruct (ri_run s =? 0) eqn:E.
    + destruct (ri_fields s <? ri_field s + 1); [cbn; split; [lia|exact B]|]. unfold take_exact. destruct (length (ri_cursor s) <? 9)%nat eqn:L; [cbn; split; [lia|constructor]|].
      cbn [ri_run]. assert (X : nth 0 (firstn 9 (ri_cursor s)) 0 < 256).
      { destruct (ri_cursor s) as [|b l]; [discriminate L|]. inversion B; subst. assumption. }
      assert (BS : Forall is_byte (skipn 9 (ri_cursor s))). { apply Forall_forall. intros b I. rewrite Forall_forall in B. apply B. rewrite <- (firstn_skipn 9 (ri_cursor s)). apply in_or_app. now right. }
      destruct (nth 0 (firstn 9 (ri_cursor s)) 0 =? 0); [destruct dbg|]; cbn [snd ri_run ri_cursor]; (split; [lia|exact BS]).
    + cbn [snd ri_run ri_cursor]. split; [lia|exact B].
  - clear. intros s [R B]. unfold ri_next, ri_take. destruct (ri_run s =? 0) eqn:E.
    + destruct (ri_fields s <? ri_field s + 1) eqn:F; [now left|]. apply N.ltb_ge in F. apply N.eqb_eq in E. right. unfold take_exact. destruct (length (ri_cursor s) <? 9)%nat eqn:L.
      * right. cbn [snd ri_run ri_fields ri_field]. lia.
      * cbn [ri_run]. assert (X : nth 0 (firstn 9 (ri_cursor s)) 0 < 256).
        { destruct (ri_cursor s) as [|b l]; [discriminate L|]. inversion B; subst. assumption. }
        destruct (nth 0 (firstn 9 (ri_cursor s)) 0 =? 0); [destruct dbg; [now left|]|]; right; cbn [snd ri_run ri_fields ri_field]; lia.
    + right. right. apply N.eqb_neq in E. cbn [snd ri_run ri_fields ri_field]. lia.
Qed.

(** ** DeltaSprintz *)
Lemma sprintz_stays dbg s : stays_finished (si_next dbg) s.
Proof.
  apply (stays _ (fun _ => True)); [trivial| |exact I]. intros t _ F. unfold si_next in F |- *. destruct (si_records t <=? si_index t) eqn:E.
  - destruct (dbg && negb (si_index t =? si_records t)) eqn:G; [discriminate F|]. cbn [snd]. now rewrite E, G.
  - exfalso. destruct (si_bits t =? 0); [discriminate F|]. destruct (read_bits (si_r t) (si_bits t)) as [x r|r|]; try discriminate F. destruct (add_i64 dbg (unzigzag x) (si_prev t)); discriminate F.
Qed.
Lemma sprintz_ends dbg s : si_index s <= si_records s -> (exists k, call (si_next dbg) s k = Panicked) \/ ends (si_next dbg) s.
Proof.
  intros L. apply (ends_measure _ (fun s => si_index s <= si_records s) (fun s => N.to_nat (si_records s - si_index s)) (sprintz_stays dbg)); [| |exact L]; clear; intros s L; unfold si_next.
  - destruct (si_records s <=? si_index s) eqn:E; [destruct (dbg && _); exact L|]. apply N.leb_gt in E. destruct (si_bits s =? 0); [cbn; lia|].
    destruct (read_bits (si_r s) (si_bits s)) as [x r|r|]; [destruct (add_i64 dbg (unzigzag x) (si_prev s))| |]; cbn; lia.
  - destruct (si_records s <=? si_index s) eqn:E; [destruct (dbg && _); [right; now left|now left]|]. apply N.leb_gt in E. right. right. destruct (si_bits s =? 0); [cbn; lia|].
    destruct (read_bits (si_r s) (si_bits s)) as [x r|r|]; [destruct (add_i64 dbg (unzigzag x) (si_prev s))| |]; cbn; lia.
Qed.
Lemma sprintz_yields dbg scale bits : forall left i r q vs r', sp_collect dbg left scale bits r q = (Ok vs, r') ->
  yields (si_next dbg) (mkSI r q scale bits (i + N.of_nat left) i) vs.
Proof.
  induction left as [|left IH]; intros i r q vs r' H; cbn [sp_collect] in H.
  - injection H as <- _. apply yields_nil; [|apply sprintz_stays]. unfold si_next. cbn [si_records si_index]. rewrite N.add_0_r, N.leb_refl, N.eqb_refl, Bool.andb_false_r. reflexivity.
  - assert (E : (i + N.of_nat (S left) <=? i) = false) by (apply N.leb_gt; lia). destruct (bits =? 0) eqn:B.
    + destruct (sp_collect dbg left scale bits r q) as [o r2] eqn:C. destruct o as [us| |]; cbn [rbind] in H; try discriminate H. injection H as <- _.
      apply yields_cons; unfold si_next; cbn [si_records si_index si_bits]; rewrite E, B; [reflexivity|]. cbn [snd si_r si_prev si_scale]. replace (i + N.of_nat (S left)) with (i + 1 + N.of_nat left) by lia. exact (IH _ _ _ _ _ C).
    + destruct (read_bits r bits) as [x r1|r1|] eqn:RB; try discriminate H. destruct (add_i64 dbg (unzigzag x) q) as [q1| |] eqn:A; try discriminate H.
      destruct (sp_collect dbg left scale bits r1 q1) as [o r2] eqn:C. destruct o as [us| |]; cbn [rbind] in H; try discriminate H. injection H as <- _.
      apply yields_cons; unfold si_next; cbn [si_records si_index si_bits si_r si_prev]; rewrite E, B, RB, A; [reflexivity|]. cbn [snd si_scale]. replace (i + N.of_nat (S left)) with (i + 1 + N.of_nat left) by lia. exact (IH _ _ _ _ _ C).
Qed.

(** ** Iterating again *)
Lemma unc_short : forall m c n bs, length bs = (8 * m)%nat -> c + N.of_nat m < n -> forall j,
  call ui_next (mkUI c n bs) j = match nth_error (f64s_of_bytes m bs) j with Some v => Value v | None => Failed end.
Proof.
  induction m as [|m IH]; intros c n bs L LT j.
  - cbn [f64s_of_bytes]. replace (nth_error (@nil N) j) with (@None N) by now destruct j. assert (bs = []) by (destruct bs; [reflexivity|discriminate L]). subst bs.
    apply (stuck ui_next (fun s => s = mkUI c n [])); [|reflexivity]. intros s ->. unfold ui_next. cbn [ui_records ui_count ui_cursor]. assert (E : (n <=? c) = false) by (apply N.leb_gt; lia). rewrite E. split; reflexivity.
  - cbn [f64s_of_bytes]. assert (E : (n <=? c) = false) by (apply N.leb_gt; lia). assert (T : take_exact 8 bs = Ok (firstn 8 bs, skipn 8 bs)).
    { unfold take_exact. assert (X : (length bs <? 8)%nat = false) by (apply Nat.ltb_ge; lia). now rewrite X. }
    destruct j as [|j].
    + unfold call, ui_next. cbn [after ui_records ui_count ui_cursor nth_error]. rewrite E, T. reflexivity.
    + rewrite call_S. unfold ui_next at 2. cbn [ui_records ui_count ui_cursor]. rewrite E, T. cbn [snd nth_error]. apply IH; [rewrite skipn_length; lia|lia].
Qed.
Lemma skip_skip {A} m : forall n (l : list A), skipn m (skipn n l) = skipn (n + m) l.
Proof. induction n as [|n IH]; intros l; [reflexivity|]. destruct l as [|a l]; [now destruct m|apply IH]. Qed.
Lemma unc_after : forall k c n bs, (8 * k <= length bs)%nat -> c + N.of_nat k <= n -> after ui_next k (mkUI c n bs) = mkUI (c + N.of_nat k) n (skipn (8 * k) bs).
Proof.
  induction k as [|k IH]; intros c n bs L LE; [cbn; f_equal; lia|]. cbn [after]. assert (E : (n <=? c) = false) by (apply N.leb_gt; lia). assert (T : take_exact 8 bs = Ok (firstn 8 bs, skipn 8 bs)).
  { unfold take_exact. assert (X : (length bs <? 8)%nat = false) by (apply Nat.ltb_ge; lia). now rewrite X. }
  unfold ui_next at 2. cbn [ui_records ui_count ui_cursor]. rewrite E, T. cbn [snd]. rewrite IH; [|rewrite skipn_length; lia|lia]. f_equal; [lia|]. rewrite skip_skip. f_equal. lia.
Qed.

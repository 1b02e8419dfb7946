From Verif Require Import Base BitSpec BitSpecProofs BitIO BitIOProofs BitOps BitOpsProofs.

Lemma firstn_repeat_len {A} (x : A) k n : firstn k (repeat x n) = repeat x (Nat.min k n).
Proof. revert n. induction k as [|k IH]; intros [|n]; cbn; f_equal; auto. Qed.
Lemma Forall_firstn_ {A} (P : A -> Prop) k l : Forall P l -> Forall P (firstn k l).
Proof. intros H. revert k. induction H; intros [|k]; cbn [firstn]; constructor; auto. Qed.

(** ** Moving the write cursor *)
Lemma firstn_bytes_bits buf i : firstn (8 * i) (bytes_bits buf) = bytes_bits (firstn i buf).
Proof.
  revert i. induction buf as [|y buf IH]; intros [|i].
  - reflexivity.
  - now rewrite !firstn_nil.
  - reflexivity.
  - cbn [firstn]. change (y :: buf) with ([y] ++ buf). change (y :: firstn i buf) with ([y] ++ firstn i buf).
    rewrite !bytes_bits_app, bytes_bits_one, <- IH.
    rewrite firstn_app, bits_of_length, firstn_all2 by (rewrite bits_of_length; lia).
    now replace (8 * S i - 8)%nat with (8 * i)%nat by lia.
Qed.
Lemma bytes_bits_zeros k : bytes_bits (repeat 0 k) = repeat false (8 * k).
Proof.
  induction k as [|k IH]; [reflexivity|]. cbn [repeat]. change (0 :: repeat 0 k) with ([0] ++ repeat 0 k).
  rewrite bytes_bits_app, bytes_bits_one, IH, bits_of_zero, <- repeat_app. f_equal. lia.
Qed.
Lemma byte_mask y p : (1 <= p <= 7)%nat ->
  bits_of 8 (N.land y (shl8 255 (8 - N.of_nat p))) = firstn p (bits_of 8 y) ++ repeat false (8 - p).
Proof.
  intros H. unfold bits_of.
  do 8 (destruct p as [|p]; [try lia; cbn [firstn repeat app Nat.sub];
    rewrite !N.land_spec;
    match goal with |- context [shl8 ?a ?b] => let v := eval vm_compute in (shl8 a b) in change (shl8 a b) with v end;
    repeat match goal with |- context [N.testbit (Npos ?a) ?b] =>
      let v := eval vm_compute in (N.testbit (Npos a) b) in change (N.testbit (Npos a) b) with v end;
    rewrite ?andb_true_r, ?andb_false_r; reflexivity|]). lia.
Qed.
Lemma set_cursor_rep w bs n : wrep w bs ->
  wrep (set_cursor_at_in_bit w n) (firstn (N.to_nat n) (bs ++ repeat false (N.to_nat n))).
Proof.
  intros H. pose proof (wrep_length _ _ H) as HL. destruct H as (HF & HP & HE).
  unfold set_cursor_at_in_bit.
  assert (DM : n = 8 * (n / 8) + n mod 8) by (apply N.div_mod; lia).
  assert (ML : n mod 8 < 8) by (apply N.mod_lt; lia).
  set (q := n / 8) in *. set (d := n mod 8) in *. clearbody q d.
  assert (BP : (n + 7) / 8 = if d =? 0 then q else q + 1).
  { symmetry. destruct (N.eqb_spec d 0).
    - apply (N.div_unique _ _ _ 7); lia.
    - apply (N.div_unique _ _ _ (d - 1)); lia. }
  rewrite BP. set (bp := N.to_nat (if d =? 0 then q else q + 1)).
  assert (BN : bp = N.to_nat (if d =? 0 then q else q + 1)) by reflexivity. clearbody bp.
  set (pos := if d =? 0 then 8 else d).
  assert (PN : pos = if d =? 0 then 8 else d) by reflexivity. clearbody pos.
  assert (SZ : (8 * bp = N.to_nat n + N.to_nat (8 - pos))%nat) by (destruct (N.eqb_spec d 0); lia).
  destruct (Nat.leb_spec bp (length (wbuf w))) as [LB|LB].
  - assert (FB : bytes_bits (firstn bp (wbuf w)) = firstn (8 * bp) (bs ++ repeat false (N.to_nat (8 - wpos w)))).
    { now rewrite <- firstn_bytes_bits, HE. }
    assert (FE : forall k, (k <= 8 * bp)%nat -> firstn k (bs ++ repeat false (N.to_nat (8 - wpos w))) =
      firstn k (bs ++ repeat false k)).
    { intros k Hk. rewrite !firstn_app, !firstn_repeat_len. f_equal. f_equal. lia. }
    destruct (N.eqb_spec pos 8) as [P8|P8].
    + split; [now apply Forall_firstn_|]. cbn [wbuf wpos]. split; [lia|].
      rewrite FB, P8. cbn [N.sub]. change (N.to_nat (8 - 8)) with 0%nat. cbn [repeat]. rewrite app_nil_r.
      rewrite FE by lia. f_equal; [lia|]. f_equal. f_equal. lia.
    + assert (NE : firstn bp (wbuf w) <> []).
      { intros E. apply (f_equal (@length N)) in E. rewrite firstn_length in E. cbn [length] in E.
        destruct (N.eqb_spec d 0); lia. }
      pose proof (app_removelast_last 0 NE) as EL.
      assert (FI : Forall is_byte (firstn bp (wbuf w))) by now apply Forall_firstn_.
      set (l := removelast (firstn bp (wbuf w))) in *. set (y := last (firstn bp (wbuf w)) 0) in *.
      assert (LL : length l = (bp - 1)%nat).
      { apply (f_equal (@length N)) in EL. rewrite firstn_length, app_length in EL. cbn [length] in EL. lia. }
      unfold and_last. fold l y. rewrite EL in FB, FI. apply Forall_app in FI. destruct FI as [Fl Fy].
      inversion_clear Fy. split; [|split; [cbn [wpos]; destruct (N.eqb_spec d 0); lia|]].
      * cbn [wbuf]. apply Forall_app. split; [assumption|]. constructor; [|constructor].
        unfold is_byte. change 256 with (2 ^ 8). now apply land_bound_l.
      * cbn [wbuf wpos]. rewrite bytes_bits_app in *. rewrite bytes_bits_one in *.
        assert (DP : d = pos) by (destruct (N.eqb_spec d 0); lia).
        replace (8 - pos) with (8 - N.of_nat (N.to_nat pos)) at 1 by lia.
        rewrite byte_mask by lia.
        rewrite app_assoc. f_equal; [|f_equal; lia].
        rewrite <- (FE (N.to_nat n)) by lia.
        replace (firstn (N.to_nat n) (bs ++ repeat false (N.to_nat (8 - wpos w)))) with
          (firstn (N.to_nat n) (firstn (8 * bp) (bs ++ repeat false (N.to_nat (8 - wpos w))))).
        2:{ rewrite firstn_firstn. f_equal. lia. }
        rewrite <- FB, firstn_app, bytes_bits_length.
        rewrite (firstn_all2 (bytes_bits l)) by (rewrite bytes_bits_length; lia).
        f_equal. f_equal. lia.
  - split; [cbn [wbuf]; apply Forall_app; split; [assumption|]|].
    { clear. induction (bp - length (wbuf w))%nat; constructor; [vm_compute; reflexivity|assumption]. }
    cbn [wbuf wpos]. split; [destruct (N.eqb_spec d 0); lia|].
    rewrite bytes_bits_app, bytes_bits_zeros, HE.
    rewrite firstn_app, firstn_repeat_len, (firstn_all2 bs).
    + rewrite <- !app_assoc, <- !repeat_app. f_equal. f_equal. destruct (N.eqb_spec d 0); lia.
    + destruct (N.eqb_spec d 0); lia.
Qed.

Lemma cursor_history ops1 n ops2 : Forall wop_ok ops1 -> Forall wop_ok ops2 ->
  let w := do_writes (set_cursor_at_in_bit (do_writes w_new ops1) n) ops2 in
  let before := flat_map wop_bits ops1 in
  let bits := firstn (N.to_nat n) (before ++ repeat false (N.to_nat n)) ++ flat_map wop_bits ops2 in
  number_of_bits_written w = N.of_nat (length bits) /\
  exists pad, bytes_bits (wbuf w) = bits ++ repeat false pad /\ (pad < 8)%nat.
Proof.
  intros O1 O2 w before bits.
  assert (R : wrep w bits).
  { apply (do_writes_rep ops2); [|assumption]. apply set_cursor_rep.
    pose proof (do_writes_rep ops1 w_new [] wrep_new O1) as R. exact R. }
  split; [now apply number_of_bits_written_rep|]. destruct R as (_&P&E).
  eexists. split; [exact E|lia].
Qed.

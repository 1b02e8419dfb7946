From Verif Require Import Base WordProofs BitIO Xor F64 Query QuerySpec Sprintz SprintzProofs Buff BuffBitsProofs.

(** ** A chunk *)
Definition column (s : N) (ds : list N) : list N := map (fun d => flip (N.shiftr d s mod 256)) ds.
Fixpoint columns (fuel : nat) (remaining : N) (ds : list N) : list N :=
  match fuel with
  | O => []
  | S fuel' => column (remaining - 8) ds ++ columns fuel' (remaining - 8) ds
  end.
Definition header (base : Z) (n bits fraction : N) : list N :=
  le_bytes 4 (i64_bits base mod two32) ++ le_bytes 4 (N.shiftr (i64_bits base) 32) ++ le_bytes 4 n ++ le_bytes 4 bits ++ le_bytes 4 fraction.
(** [bytes] holds the numbers [base + d], for the [ds], each [bits] wide. *)
Definition chunk_of (bytes : list N) (base : Z) (fraction bits : N) (ds : list N) : Prop :=
  let n := N.of_nat (length ds) in let r := bits mod 8 in
  i64 base /\ fraction < 2 ^ 32 /\ bits <= 64 /\ n < 2 ^ 32 /\ Forall (fun d => d < 2 ^ bits) ds /\
  exists tail, bytes = header base n bits fraction ++ columns (N.to_nat (bits / 8)) bits ds ++ tail /\
    bytes_ok tail /\ N.of_nat (length tail) = bytes_for (n * r) /\ le_val tail = packed r ds.

(** ** Smallest and largest number *)
Lemma extremes_ok : forall vs pre mn imin mx imax,
  Forall (fun v => mn <= v <= mx)%Z pre ->
  nth_error pre imin = Some mn \/ imin = O /\ mn = (2 ^ 63 - 1)%Z ->
  nth_error pre imax = Some mx \/ imax = O /\ mx = (- 2 ^ 63)%Z ->
  Forall i64 (pre ++ vs) -> pre ++ vs <> [] ->
  exists base top, let '(i, j) := extremes (length pre) vs mn imin mx imax in
    nth_error (pre ++ vs) i = Some base /\ nth_error (pre ++ vs) j = Some top /\ Forall (fun v => base <= v <= top)%Z (pre ++ vs).
Proof.
  induction vs as [|v vs IH]; intros pre mn imin mx imax F HN HX I NE; cbn [extremes].
  - rewrite app_nil_r in *. destruct pre as [|p pre]; [congruence|]. inversion I as [|? ? IP I']; subst. inversion F as [|? ? FP F']; subst.
    exists mn, mx. repeat split; [| |exact F].
    + destruct HN as [H|[-> ->]]; [exact H|]. cbn [nth_error]. f_equal. unfold i64 in IP. lia.
    + destruct HX as [H|[-> ->]]; [exact H|]. cbn [nth_error]. f_equal. unfold i64 in IP. lia.
  - replace (pre ++ v :: vs) with ((pre ++ [v]) ++ vs) in * by now rewrite <- app_assoc.
    replace (S (length pre)) with (length (pre ++ [v])) by (rewrite app_length; cbn [length]; lia).
    assert (LV : nth_error (pre ++ [v]) (length pre) = Some v) by (rewrite nth_error_app2, Nat.sub_diag by lia; reflexivity).
    assert (ST : forall i w, nth_error pre i = Some w -> nth_error (pre ++ [v]) i = Some w)
      by (intros i w H; rewrite nth_error_app1; [assumption|]; apply nth_error_Some; congruence).
    assert (IV : i64 v) by (apply Forall_app in I as [I _]; apply Forall_app in I as [_ I]; now inversion I).
    unfold i64 in IV.
    destruct (Z.ltb_spec v mn), (Z.ltb_spec mx v).
    + apply IH; auto. apply Forall_app. split; [|now repeat constructor; try lia]. eapply Forall_impl; [|exact F]. cbn beta. lia.
    + apply IH; auto; [|destruct HX as [HX|HX]; auto]. apply Forall_app. split; [|now repeat constructor; try lia]. eapply Forall_impl; [|exact F]. cbn beta. lia.
    + apply IH; auto; [|destruct HN as [HN|HN]; auto]. apply Forall_app. split; [|now repeat constructor; try lia]. eapply Forall_impl; [|exact F]. cbn beta. lia.
    + apply IH; auto; [|destruct HN as [HN|HN]; auto|destruct HX as [HX|HX]; auto]. apply Forall_app. split; [exact F|]. now repeat constructor; try lia.
Qed.

(** ** Differences *)
Lemma sub_bits dbg v b : (0 <= v - b < 2 ^ 64)%Z -> (dbg = true -> (v - b < 2 ^ 63)%Z) ->
  exists d, sub_i64 dbg v b = Ok d /\ i64_bits d = Z.to_N (v - b) /\ ((d =? 0) = (v =? b))%Z.
Proof.
  intros H D. unfold sub_i64, checked_i64. destruct (fits_i64 (v - b)) eqn:F.
  - apply fits_iff in F. exists (v - b)%Z. split; [reflexivity|]. split; [unfold i64_bits; now rewrite Z.mod_small by lia|].
    destruct (Z.eqb_spec (v - b) 0), (Z.eqb_spec v b); lia.
  - assert (G : ~ i64 (v - b)) by (intros G; apply fits_iff in G; congruence). unfold i64 in G.
    destruct dbg; [specialize (D eq_refl); lia|]. exists (v - b - 2 ^ 64)%Z. split.
    + f_equal. rewrite (wrap_unique _ (-1)); unfold i64; lia.
    + split.
      * unfold i64_bits. replace (v - b - 2 ^ 64)%Z with (v - b + (-1) * 2 ^ 64)%Z by ring. rewrite Z.mod_add by lia. now rewrite Z.mod_small.
      * destruct (Z.eqb_spec (v - b - 2 ^ 64) 0), (Z.eqb_spec v b); lia.
Qed.
Lemma size_le64 n : n < 2 ^ 64 -> N.size n <= 64.
Proof.
  intros H. destruct (N.eq_dec n 0) as [->|NZ]; [cbn; lia|]. rewrite N.size_log2 by assumption.
  apply N.log2_lt_pow2 in H; lia.
Qed.
Lemma width_size n : n < 2 ^ 64 -> (if n =? 0 then 0 else 64 - clz64 n) = N.size n.
Proof. intros H. apply size_le64 in H. destruct (N.eqb_spec n 0) as [->|]; [reflexivity|]. unfold clz64. lia. Qed.
Lemma below_size d n : d <= n -> d < 2 ^ N.size n.
Proof. intros H. apply N.le_lt_trans with n; [assumption|apply N.size_gt]. Qed.
Lemma map_res_ok {E A B} (f : A -> res E B) (g : A -> B) l : (forall x, In x l -> f x = Ok (g x)) -> map_res f l = Ok (map g l).
Proof.
  induction l as [|x l IH]; intros H; cbn [map_res map]; [reflexivity|]. rewrite (H x) by now left. cbn [rbind].
  rewrite IH by (intros; apply H; now right). reflexivity.
Qed.

(** ** Writing *)
Lemma flip_byte b : is_byte b -> is_byte (flip b).
Proof.
  unfold is_byte, flip. intros H. change 256 with (2 ^ 8) in *. destruct (N.eq_dec (N.lxor b 128) 0) as [->|NZ]; [reflexivity|].
  apply N.log2_lt_pow2; [lia|]. eapply N.le_lt_trans; [apply N.log2_lxor|]. apply N.max_lub_lt; [|reflexivity].
  destruct (N.eq_dec b 0) as [->|]; [reflexivity|]. apply N.log2_lt_pow2; lia.
Qed.
Lemma column_bytes s ds : bytes_ok (column s ds).
Proof.
  unfold column. apply Forall_forall. intros b I. apply in_map_iff in I as (d & <- & _). apply flip_byte. apply N.mod_lt. discriminate.
Qed.
Lemma column_length s ds : length (column s ds) = length ds.
Proof. apply map_length. Qed.
Lemma columns_bytes fuel : forall r ds, bytes_ok (columns fuel r ds).
Proof. induction fuel as [|f IH]; intros r ds; cbn [columns]; [constructor|]. apply Forall_app. split; [apply column_bytes|apply IH]. Qed.
Lemma columns_length fuel : forall r ds, length (columns fuel r ds) = (fuel * length ds)%nat.
Proof. induction fuel as [|f IH]; intros r ds; cbn [columns Nat.mul]; [reflexivity|]. now rewrite app_length, column_length, IH. Qed.

Lemma write_column_ok s ds : forall p, fold_left (fun p d => bp_write_byte (flip (N.shiftr d s mod 256)) p) ds p =
  mkBp (bp_buf p ++ column s ds) (bp_cursor p) (bp_bits p).
Proof.
  induction ds as [|d ds IH]; intros [buf c b]; cbn [fold_left bp_buf bp_cursor bp_bits].
  - unfold column. cbn [map]. now rewrite app_nil_r.
  - rewrite IH. unfold bp_write_byte. cbn [bp_buf bp_cursor bp_bits]. unfold column. cbn [map]. now rewrite <- app_assoc.
Qed.
Lemma write_columns_ok fuel : forall r ds p, write_columns fuel r ds p = mkBp (bp_buf p ++ columns fuel r ds) (bp_cursor p) (bp_bits p).
Proof.
  induction fuel as [|f IH]; intros r ds p; cbn [write_columns columns].
  - rewrite app_nil_r. now destruct p.
  - rewrite write_column_ok, IH. cbn [bp_buf bp_cursor bp_bits]. now rewrite <- app_assoc.
Qed.
Lemma packed_mod k ds : k <= 32 -> packed k (map (fun d => d mod two32) ds) = packed k ds.
Proof.
  intros H. induction ds as [|d ds IH]; cbn [packed map]; [reflexivity|]. rewrite IH. f_equal.
  change two32 with (2 ^ 32). bits_eq. rewrite !mod_bit. destruct (N.ltb_spec j k); cbn [andb]; [|reflexivity]. now replace (j <? 32) with true by lia.
Qed.
Lemma packed_zero ds : packed 0 ds = 0.
Proof.
  induction ds as [|d ds IH]; cbn [packed]; [reflexivity|]. rewrite IH, N.shiftl_0_r, N.lor_0_r. change (2 ^ 0) with 1. apply N.mod_1_r.
Qed.
Lemma header_length base n bits fraction : length (header base n bits fraction) = 20%nat.
Proof. unfold header. now rewrite !app_length, !le_bytes_length. Qed.
Lemma header_bytes base n bits fraction : bytes_ok (header base n bits fraction).
Proof. unfold header, bytes_ok. rewrite !Forall_app. repeat split; apply le_bytes_byte. Qed.

Lemma tail_ok buf k ds p : bytes_ok buf -> 1 <= k <= 7 -> ds <> [] -> bp_cursor p = N.of_nat (length buf) -> bp_bits p = 0 ->
  bp_buf p = buf \/ bp_buf p = buf ++ [0] ->
  exists p' tail, bp_writes (map (fun d => d mod two32) ds) k p = Ok p' /\ bp_buf p' = buf ++ tail /\ bytes_ok tail /\
    N.of_nat (length tail) = bytes_for (N.of_nat (length ds) * k) /\ le_val tail = packed k ds.
Proof.
  intros HB HK NE HC HU HP.
  assert (bytes_ok (bp_buf p) /\ le_val (bp_buf p) = le_val buf /\ (length buf <= length (bp_buf p) <= length buf + 1)%nat) as (BP & LP & LL).
  { destruct HP as [->| ->]; [split; [assumption|split; [reflexivity|lia]]|]. split; [|split].
    - apply Forall_app. split; [assumption|]. repeat constructor.
    - apply (le_app_zeros buf 1).
    - rewrite app_length. cbn [length]. lia. }
  assert (OK : bp_ok p).
  { split; [assumption|]. rewrite HU. split; [lia|]. unfold bp_pos. rewrite HC, HU. lia. }
  destruct (bp_writes_ok k (map (fun d => d mod two32) ds) p OK ltac:(lia)) as (p' & EW & (BP' & _ & _) & LN & LV).
  rewrite map_length in LN. rewrite packed_mod in LV by lia. unfold bp_pos in LN, LV. rewrite HC, HU, N.add_0_r in LN, LV. rewrite LP in LV.
  assert (LD : 1 <= N.of_nat (length ds)) by (destruct ds; [congruence|cbn [length]; lia]).
  set (w := N.of_nat (length ds) * k) in *. assert (1 <= w) by (subst w; nia).
  assert (BF : bytes_for (8 * N.of_nat (length buf) + w) = N.of_nat (length buf) + bytes_for w).
  { unfold bytes_for. replace (8 * N.of_nat (length buf) + w + 7) with (N.of_nat (length buf) * 8 + (w + 7)) by lia. now rewrite N.div_add_l by discriminate. }
  rewrite BF in LN. pose proof (bytes_for_spec w) as BS.
  destruct (split_buffer buf (bp_buf p') (packed k ds) HB BP' ltac:(lia) LV) as (tail & ET & VT & BT).
  exists p', tail. rewrite ET in LN. rewrite app_length in LN. repeat split; try assumption. lia.
Qed.

Lemma encode_ok dbg lg scale fraction xs vs : fraction_bits lg scale = Ok fraction -> fraction < 2 ^ 32 ->
  map_res (fun x => fixed_of dbg x fraction) xs = Ok vs -> Forall i64 vs -> vs <> [] -> N.of_nat (length vs) < 2 ^ 32 ->
  (dbg = true -> forall u v, In u vs -> In v vs -> (u - v < 2 ^ 63)%Z) ->
  exists bytes base top, bf_encode dbg lg scale xs = Ok bytes /\ In base vs /\ In top vs /\ Forall (fun v => base <= v <= top)%Z vs /\
    chunk_of bytes base fraction (N.size (Z.to_N (top - base))) (map (fun v => Z.to_N (v - base)) vs).
Proof.
  intros EF FR EV IV NE LN SP.
  destruct (extremes_ok vs [] (2 ^ 63 - 1) 0 (- 2 ^ 63) 0 ltac:(constructor) ltac:(now right) ltac:(now right) IV NE) as (base & top & EX).
  unfold bf_encode. rewrite EF. cbn [rbind]. rewrite EV. cbn [rbind]. cbn [length app] in EX.
  destruct (extremes 0 vs _ _ _ _) as [i j]. destruct EX as (EI & EJ & FB). rewrite EI, EJ.
  pose proof (nth_error_In _ _ EI) as IB. pose proof (nth_error_In _ _ EJ) as IT. rewrite Forall_forall in FB, IV.
  pose proof (IV _ IB) as I64B. pose proof (IV _ IT) as I64T.
  assert (DF : forall v, In v vs -> exists d, sub_i64 dbg v base = Ok d /\ i64_bits d = Z.to_N (v - base) /\ ((d =? 0) = (v =? base))%Z).
  { intros v HV. apply sub_bits; [|intros D; now apply SP]. specialize (FB _ HV). specialize (IV _ HV). unfold i64 in *. lia. }
  assert (ED : map_res (fun v => do d <- sub_i64 dbg v base ; Ok (i64_bits d)) vs = Ok (map (fun v => Z.to_N (v - base)) vs)).
  { apply map_res_ok. intros v HV. destruct (DF v HV) as (d & E1 & E2 & _). rewrite E1. cbn [rbind]. now rewrite E2. }
  rewrite ED. cbn [rbind]. set (ds := map (fun v => Z.to_N (v - base)) vs) in *.
  destruct (DF top IT) as (range & ER & RB & RZ). rewrite ER. cbn [rbind]. rewrite RB, RZ.
  set (spread := Z.to_N (top - base)) in *.
  assert (S64 : spread < 2 ^ 64) by (unfold spread, i64 in *; change (2 ^ 64) with 18446744073709551616; pose proof (FB _ IT); lia).
  replace (if (top =? base)%Z then 0 else 64 - clz64 spread) with (N.size spread).
  2:{ rewrite <- width_size by assumption. replace (top =? base)%Z with (spread =? 0); [reflexivity|].
      pose proof (FB _ IT). destruct (N.eqb_spec spread 0), (Z.eqb_spec top base); subst spread; lia. }
  set (bits := N.size spread). assert (B64 : bits <= 64) by now apply size_le64.
  assert (LD : length ds = length vs) by apply map_length.
  pose proof (i64_bits_bound base) as BB.
  assert (B1 : i64_bits base mod two32 < 2 ^ 32) by (apply N.mod_lt; discriminate).
  assert (B2 : N.shiftr (i64_bits base) 32 < 2 ^ 32).
  { rewrite N.shiftr_div_pow2. apply N.div_lt_upper_bound; [discriminate|]. exact BB. }
  change bp_new with (mkBp [] (N.of_nat (length (@nil N))) 0). rewrite (write_word [] (i64_bits base mod two32) ltac:(constructor) B1). cbn [rbind app].
  set (w1 := le_bytes 4 (i64_bits base mod two32)).
  rewrite (write_word w1 (N.shiftr (i64_bits base) 32) (le_bytes_byte _ _) B2). cbn [rbind].
  rewrite (write_word _ (N.of_nat (length vs) mod two32)); [|apply Forall_app; split; apply le_bytes_byte|apply N.mod_lt; discriminate].
  cbn [rbind]. rewrite (write_word _ bits); [|apply Forall_app; split; [apply Forall_app; split|]; apply le_bytes_byte|apply N.le_lt_trans with 64; [assumption|reflexivity]].
  cbn [rbind]. rewrite (write_word _ fraction); [|do 3 (apply Forall_app; split; [|apply le_bytes_byte]); apply le_bytes_byte|assumption].
  cbn [rbind]. rewrite N.mod_small by exact LN. rewrite <- LD.
  rewrite <- !app_assoc. change (w1 ++ le_bytes 4 (N.shiftr (i64_bits base) 32) ++ le_bytes 4 (N.of_nat (length ds)) ++ le_bytes 4 bits ++ le_bytes 4 fraction)
    with (header base (N.of_nat (length ds)) bits fraction).
  set (hd := header base (N.of_nat (length ds)) bits fraction).
  assert (HB : bytes_ok hd) by apply header_bytes.
  assert (NED : ds <> []) by (unfold ds; destruct vs; [congruence|discriminate]).
  assert (FD : Forall (fun d => d < 2 ^ bits) ds).
  { unfold ds. apply Forall_forall. intros d HD. apply in_map_iff in HD as (v & <- & HV). apply below_size. pose proof (FB _ HV). subst spread. lia. }
  assert (DM := N.div_mod bits 8 ltac:(discriminate)). assert (RM := N.mod_lt bits 8 ltac:(discriminate)).
  assert (GOAL : exists bytes tail,
     (do p <- (if (0 <? bits) && (bits <? 8) then bp_writes (map (fun d => d mod two32) ds) bits (mkBp hd (N.of_nat (length hd)) 0)
       else let p := write_columns (N.to_nat (bits / 8)) bits ds (mkBp hd (N.of_nat (length hd)) 0) in
            let remaining := bits mod 8 in
            if 0 <? remaining then bp_writes (map (fun d => d mod two32) ds) remaining (bp_finish_write_byte p) else Ok p) ; Ok (bp_buf p)) = @Ok derr _ bytes /\
     bytes = hd ++ columns (N.to_nat (bits / 8)) bits ds ++ tail /\ bytes_ok tail /\
     N.of_nat (length tail) = bytes_for (N.of_nat (length ds) * (bits mod 8)) /\ le_val tail = packed (bits mod 8) ds).
  { clear EI EJ FB IV IB IT DF ED ER RB RZ EV SP.
    destruct (N.ltb_spec 0 bits) as [P0|P0]; cbn [andb]; [destruct (N.ltb_spec bits 8) as [P8|P8]; cbn zeta|].
    - assert (bits mod 8 = bits) as -> by (apply N.mod_small; assumption). assert (bits / 8 = 0) as -> by (apply N.div_small; assumption).
      destruct (tail_ok hd bits ds (mkBp hd (N.of_nat (length hd)) 0) HB ltac:(lia) NED eq_refl eq_refl (or_introl eq_refl)) as (p' & tail & E1 & E2 & E3 & E4 & E5).
      rewrite E1. cbn [rbind]. exists (bp_buf p'), tail. repeat split; assumption.
    - rewrite write_columns_ok. cbn [bp_buf bp_cursor bp_bits]. destruct (N.ltb_spec 0 (bits mod 8)) as [P1|P1].
      + unfold bp_finish_write_byte. cbn [bp_buf].
        set (buf := hd ++ columns (N.to_nat (bits / 8)) bits ds).
        destruct (tail_ok buf (bits mod 8) ds (mkBp (buf ++ [0]) (N.of_nat (length buf)) 0)
          ltac:(apply Forall_app; split; [assumption|apply columns_bytes]) ltac:(lia) NED eq_refl eq_refl (or_intror eq_refl)) as (p' & tail & E1 & E2 & E3 & E4 & E5).
        rewrite E1. cbn [rbind]. exists (bp_buf p'), tail. split; [reflexivity|]. split; [rewrite E2; unfold buf; now rewrite <- app_assoc|]. repeat split; assumption.
      + assert (bits mod 8 = 0) as -> by lia. cbn [rbind bp_buf]. exists (hd ++ columns (N.to_nat (bits / 8)) bits ds), []. rewrite app_nil_r, N.mul_0_r, packed_zero.
        repeat split. constructor.
    - assert (bits = 0) as -> by lia. cbn. exists hd, []. rewrite app_nil_r. rewrite N.mul_0_r, packed_zero. repeat split. constructor. }
  destruct GOAL as (bytes & tail & E1 & E2 & E3 & E4 & E5). cbn zeta in E1. cbn zeta. rewrite E1.
  exists bytes, base, top. split; [reflexivity|]. split; [assumption|]. split; [assumption|]. split; [now apply Forall_forall|].
  split; [assumption|]. split; [assumption|]. split; [assumption|]. split; [fold ds; now rewrite LD|]. split; [assumption|].
  exists tail. repeat split; assumption.
Qed.

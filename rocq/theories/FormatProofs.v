From Verif Require Import Base WordProofs Xor Format FormatSpec.

Lemma read_n_app n a b : n = N.of_nat (length a) -> read_n n (a ++ b) = Ok (a, b).
Proof.
  intros ->. unfold read_n. rewrite app_length.
  replace (_ <? _) with false by lia.
  rewrite Nat2N.id, firstn_app, skipn_app, firstn_all, skipn_all.
  rewrite Nat.sub_diag. cbn. now rewrite app_nil_r.
Qed.

Lemma read_n_spec n bs a b : read_n n bs = Ok (a, b) ->
  bs = a ++ b /\ N.of_nat (length a) = n.
Proof.
  unfold read_n. destruct (_ <? _) eqn:E; intros H; inversion H; subst.
  split; [now rewrite firstn_skipn|]. rewrite firstn_length. lia.
Qed.

Lemma read_n_cases n bs :
  (N.of_nat (length bs) < n /\ read_n n bs = Err EIO) \/
  (n <= N.of_nat (length bs) /\ exists a b, bs = a ++ b /\ N.of_nat (length a) = n /\ read_n n bs = Ok (a, b)).
Proof.
  unfold read_n. destruct (_ <? _) eqn:E; [left; split; [lia|reflexivity]|right].
  split; [lia|]. exists (firstn (N.to_nat n) bs), (skipn (N.to_nat n) bs).
  repeat split; [now rewrite firstn_skipn|]. rewrite firstn_length. lia.
Qed.

Lemma drop_n_app n a b : n = N.of_nat (length a) -> drop_n n (a ++ b) = b.
Proof.
  intros ->. unfold drop_n. rewrite app_length. replace (_ <? _) with false by lia.
  rewrite Nat2N.id, skipn_app, skipn_all, Nat.sub_diag. reflexivity.
Qed.
Lemma drop_n_length n bs : N.of_nat (length (drop_n n bs)) = N.of_nat (length bs) - n.
Proof.
  unfold drop_n. destruct (_ <? _) eqn:E; [cbn [length]; lia|]. rewrite skipn_length. lia.
Qed.

(** ** Header *)
Lemma scheme_code_round s : scheme_of_code (scheme_code s) = Ok s.
Proof. destruct s; reflexivity. Qed.
Lemma scheme_code_bound s : scheme_code s <= 12.
Proof. destruct s; cbn; lia. Qed.
Lemma scheme_of_code_spec b :
  (b <= 12 /\ exists s, scheme_of_code b = Ok s /\ scheme_code s = b) \/
  (12 < b /\ scheme_of_code b = Err EConversion).
Proof.
  destruct (N.le_gt_cases b 12) as [H|H].
  - left; split; [exact H|].
    assert (b = 0 \/ b = 1 \/ b = 2 \/ b = 3 \/ b = 4 \/ b = 5 \/ b = 6 \/ b = 7 \/ b = 8 \/ b = 9
            \/ b = 10 \/ b = 11 \/ b = 12) as C by lia.
    repeat destruct C as [->|C]; try (eexists; split; reflexivity). subst b. eexists; split; reflexivity.
  - right; split; [exact H|].
    destruct b as [|p]; [lia|].
    do 4 (try (destruct p as [p|p|]; try lia; try reflexivity)).
Qed.

Lemma chunk_option_of_spec k v :
  (k <= 2 /\ exists o, chunk_option_of k v = Ok o /\ fst (chunk_option_fields o) = k /\
     (k <> 0 -> snd (chunk_option_fields o) = v)) \/
  (2 < k /\ chunk_option_of k v = Err EConversion).
Proof.
  destruct (N.le_gt_cases k 2) as [H|H].
  - left; split; [exact H|].
    assert (k = 0 \/ k = 1 \/ k = 2) as C by lia.
    destruct C as [->|[->| ->]]; eexists; (split; [reflexivity|]); split; try reflexivity; lia.
  - right; split; [exact H|].
    destruct k as [|p]; [lia|].
    do 2 (try (destruct p as [p|p|]; try lia; try reflexivity)).
Qed.

Lemma header_bytes_length h : valid_header h -> length (header_bytes h) = 30%nat.
Proof.
  intros (H1&_&_&_&H2&_). unfold header_bytes.
  destruct (h_version h) as [|a [|b [|c [|]]]]; try discriminate H2.
  rewrite !app_length, !le_bytes_length, H1. reflexivity.
Qed.

Lemma header_round_trip h rest : valid_header h -> fetch_header (header_bytes h ++ rest) = Ok h.
Proof.
  intros V. unfold fetch_header.
  rewrite read_n_app by (now rewrite header_bytes_length).
  cbn [rbind]. destruct V as (H1&B1&O&F&H2&V).
  destruct h as [mg s o off ver]. cbn [h_magic h_scheme h_option h_footer_offset h_version] in *.
  destruct mg as [|m0 [|m1 [|m2 [|m3 [|]]]]]; try discriminate H1.
  destruct ver as [|v0 [|v1 [|v2 [|]]]]; try discriminate H2.
  set (bs := header_bytes _).
  assert (E5: byte_at 5 bs = scheme_code s) by reflexivity.
  assert (E4: byte_at 4 bs = 0) by reflexivity.
  assert (E6: byte_at 6 bs = fst (chunk_option_fields o)) by reflexivity.
  assert (EM: firstn 4 bs = [m0; m1; m2; m3]) by reflexivity.
  assert (EV: firstn 8 (skipn 8 bs) = le_bytes 8 (snd (chunk_option_fields o))) by reflexivity.
  assert (EO: firstn 8 (skipn 16 bs) = le_bytes 8 off) by reflexivity.
  assert (A0: firstn 2 (skipn 24 bs) = le_bytes 2 v0) by reflexivity.
  assert (A1: firstn 2 (skipn 26 bs) = le_bytes 2 v1) by reflexivity.
  assert (A2: firstn 2 (skipn 28 bs) = le_bytes 2 v2) by reflexivity.
  clearbody bs.
  unfold parse_header. rewrite E4, E5, E6, EM, EV, EO, A0, A1, A2, scheme_code_round. cbn [negb N.eqb rbind].
  rewrite !le_val_bytes; try (pose proof (Forall_inv V); unfold is_u16 in *; cbn; lia);
    try (pose proof (Forall_inv (Forall_inv_tail V)); unfold is_u16 in *; cbn; lia);
    try (pose proof (Forall_inv (Forall_inv_tail (Forall_inv_tail V))); unfold is_u16 in *; cbn; lia).
  - destruct o; reflexivity.
  - exact F.
  - destruct o; cbn; [lia|exact O|exact O].
Qed.

Lemma header_rejects bs rest :
  length bs = 30%nat ->
  (exists h, fetch_header (bs ++ rest) = Ok h) <-> (nth 4 bs 0 = 0 /\ nth 5 bs 0 <= 12 /\ nth 6 bs 0 <= 2).
Proof.
  intros L. unfold fetch_header. rewrite read_n_app by (now rewrite L). cbn [rbind].
  unfold parse_header, byte_at.
  destruct (scheme_of_code_spec (nth 5 bs 0)) as [[H5 (s&E5&_)]|[H5 E5]]; rewrite E5;
  destruct (chunk_option_of_spec (nth 6 bs 0) (le_val (firstn 8 (skipn 8 bs)))) as [[H6 (o&E6&_)]|[H6 E6]];
  rewrite ?E6; cbn [rbind];
  destruct (nth 4 bs 0 =? 0) eqn:E4; cbn [negb];
  (split; [intros [h H]; first [discriminate H | split; [lia|split; assumption]]
          |intros (?&?&?); first [lia | eexists; reflexivity]]).
Qed.

Lemma fetch_header_total file :
  match fetch_header file with
  | Ok h => (30 <= length file)%nat /\ scheme_code (h_scheme h) = nth 5 file 0 /\
            fst (chunk_option_fields (h_option h)) = nth 6 file 0 /\
            h_footer_offset h = word_at 8 16 file
  | Err EIO => (length file < 30)%nat
  | Err EConversion => (30 <= length file)%nat /\ (nth 4 file 0 <> 0 \/ 12 < nth 5 file 0 \/ 2 < nth 6 file 0)
  | _ => False
  end.
Proof.
  unfold fetch_header.
  destruct (read_n_cases 30 file) as [[L E]|[L (a&b&E1&E2&E)]]; rewrite E; cbn [rbind]; [lia|].
  assert (length a = 30%nat) as La by lia.
  assert (N4: nth 4 file 0 = nth 4 a 0) by (subst file; rewrite app_nth1; [reflexivity|lia]).
  assert (N5: nth 5 file 0 = nth 5 a 0) by (subst file; rewrite app_nth1; [reflexivity|lia]).
  assert (N6: nth 6 file 0 = nth 6 a 0) by (subst file; rewrite app_nth1; [reflexivity|lia]).
  rewrite N4, N5, N6.
  unfold parse_header, byte_at.
  destruct (nth 4 a 0 =? 0) eqn:E4; cbn [negb]; [|split; [lia|left; lia]].
  destruct (scheme_of_code_spec (nth 5 a 0)) as [[H5 (s&E5&C5)]|[H5 E5]]; rewrite E5; cbn [rbind];
    [|split; [lia|right; left; lia]].
  destruct (chunk_option_of_spec (nth 6 a 0) (le_val (firstn 8 (skipn 8 a)))) as [[H6 (o&E6&C6&_)]|[H6 E6]];
    rewrite E6; cbn [rbind]; [|split; [lia|right; right; lia]].
  cbn [h_scheme h_option h_footer_offset]. split; [lia|]. split; [exact C5|]. split; [exact C6|].
  unfold word_at, drop_n. replace (_ <? 16) with false by lia.
  subst file. change (N.to_nat 16) with 16%nat.
  rewrite skipn_app, firstn_app. replace (8 - length (skipn 16 a))%nat with 0%nat by (rewrite skipn_length; lia).
  cbn [firstn]. now rewrite app_nil_r.
Qed.

(** ** Configuration *)
Lemma i32_round z : (-2147483648 <= z < 2147483648)%Z -> i32_of_bits (i32_bits z) = z.
Proof.
  intros H. unfold i32_of_bits, i32_bits.
  destruct (Z.le_gt_cases 0 z).
  - rewrite Z.mod_small by lia. replace (_ <? _) with true by lia. lia.
  - replace (z mod 4294967296)%Z with (z + 4294967296)%Z.
    + replace (_ <? _) with false by lia. lia.
    + apply Z.mod_unique with (-1)%Z; lia.
Qed.

Lemma config_body_length c : N.of_nat (length (config_body c)) = config_length (config_scheme c).
Proof. destruct c; cbn [config_body]; rewrite ?app_length, ?le_bytes_length; reflexivity. Qed.
Lemma config_bytes_length c : N.of_nat (length (config_bytes c)) = config_serialized_size c.
Proof.
  unfold config_bytes. cbn [length]. rewrite Nat2N.inj_succ, config_body_length.
  destruct c; reflexivity.
Qed.
Lemma config_size_byte c : byte_at 0 (config_bytes c) = N.of_nat (length (config_body c)).
Proof. unfold config_bytes, byte_at. cbn [nth]. rewrite config_body_length. destruct c; reflexivity. Qed.

Lemma cfg_field_app k v rest : v < 256 ^ N.of_nat k -> cfg_field k (le_bytes k v ++ rest) = Ok (v, rest).
Proof.
  intros H. unfold cfg_field. rewrite app_length, le_bytes_length.
  replace (_ <? _)%nat with false by lia.
  rewrite firstn_app, skipn_app, le_bytes_length, Nat.sub_diag. cbn [firstn skipn].
  rewrite app_nil_r. rewrite firstn_all2, skipn_all2 by (rewrite le_bytes_length; lia).
  cbn [app]. now rewrite le_val_bytes.
Qed.
Lemma cfg_field_exact k v : v < 256 ^ N.of_nat k -> cfg_field k (le_bytes k v) = Ok (v, []).
Proof. intros H. rewrite <- (app_nil_r (le_bytes k v)). now apply cfg_field_app. Qed.

Lemma config_round_trip c : valid_config c -> parse_config (config_scheme c) (config_body c) = Ok c.
Proof.
  destruct c; intros V; cbn [config_scheme config_body parse_config valid_config] in *;
    try (rewrite cfg_field_exact by exact V; reflexivity); try reflexivity.
  - destruct V as [V1 V2]. rewrite cfg_field_app by exact V1. cbn [rbind].
    rewrite cfg_field_exact by exact V2. reflexivity.
  - rewrite cfg_field_exact.
    + cbn [rbind]. now rewrite i32_round.
    + unfold i32_bits. pose proof (Z.mod_pos_bound level 4294967296). cbn. lia.
Qed.

Lemma parse_config_cases s bs :
  (N.of_nat (length bs) < config_length s /\ parse_config s bs = Panic) \/
  (config_length s <= N.of_nat (length bs) /\ exists c, parse_config s bs = Ok c).
Proof.
  destruct s; cbn [parse_config config_length];
    try (right; split; [lia|eexists; reflexivity]);
    unfold cfg_field;
    try (destruct (length bs <? _)%nat eqn:E; cbn [rbind]; [left; split; [lia|reflexivity]|right; split; [lia|eexists; reflexivity]]).
  destruct (length bs <? 8)%nat eqn:E; cbn [rbind]; [left; split; [lia|reflexivity]|].
  rewrite skipn_length. destruct (length bs - 8 <? 8)%nat eqn:E2; cbn [rbind];
    [left; split; [lia|reflexivity]|right; split; [lia|eexists; reflexivity]].
Qed.

(** ** Times *)
Lemma nanos_round d : d < duration_limit -> nanos_to_duration d = d.
Proof.
  intros H. unfold nanos_to_duration, duration_limit in *.
  assert (d / billion < two64) by (apply N.div_lt_upper_bound; [discriminate|lia]).
  rewrite (N.mod_small _ two64) by assumption.
  rewrite N.mul_comm. symmetry. apply N.div_mod. discriminate.
Qed.

Lemma nanos_to_duration_bound n : nanos_to_duration n < duration_limit.
Proof.
  unfold nanos_to_duration, duration_limit.
  assert ((n / billion) mod two64 < two64) by (apply N.mod_lt; discriminate).
  assert (n mod billion < billion) by (apply N.mod_lt; discriminate).
  set (a := (n / billion) mod two64) in *. set (b := n mod billion) in *. clearbody a b.
  assert (a * billion <= (two64 - 1) * billion) by (apply N.mul_le_mono_r; lia).
  change ((two64 - 1) * billion) with 18446744073709551615000000000 in *.
  change (two64 * billion) with 18446744073709551616000000000 in *.
  change billion with 1000000000 in *. lia.
Qed.

Lemma duration_u128 d : d < duration_limit -> d < 256 ^ N.of_nat 16.
Proof. unfold duration_limit. intros H. apply N.lt_trans with (1:=H). reflexivity. Qed.

Lemma parse_nanos_round t rest :
  Forall (fun d => d < duration_limit) t -> parse_nanos (length t) (times_bytes t ++ rest) = t.
Proof.
  induction 1 as [|d t Hd Ht IH]; [reflexivity|].
  cbn [length]. unfold times_bytes. cbn [flat_map parse_nanos].
  rewrite <- app_assoc.
  match goal with |- context [firstn 16 (le_bytes 16 d ++ ?r)] =>
    change (firstn 16 (le_bytes 16 d ++ r)) with (le_bytes 16 d);
    change (skipn 16 (le_bytes 16 d ++ r)) with r end.
  rewrite le_val_bytes by (now apply duration_u128).
  rewrite nanos_round by assumption. f_equal. exact IH.
Qed.

Lemma times_bytes_length t : length (times_bytes t) = (16 * length t)%nat.
Proof.
  induction t; [reflexivity|]. unfold times_bytes in *. cbn [flat_map length].
  rewrite app_length, le_bytes_length, IHt. lia.
Qed.

Lemma dur_add_comm a b : dur_add a b = dur_add b a.
Proof. unfold dur_add. now rewrite N.add_comm. Qed.

Lemma times_add_ok a b : length a = length b ->
  match times_add a b with
  | Ok r => length r = length a /\
      (forall i, nth i r 0 = nth i a 0 + nth i b 0) /\
      Forall (fun d => d < duration_limit) r
  | Err _ => False
  | Panic => exists i, duration_limit <= nth i a 0 + nth i b 0
  end.
Proof.
  revert b. induction a as [|x a IH]; intros [|y b] L; try discriminate L.
  - cbn. repeat split; [intros [|]; reflexivity|constructor].
  - cbn [times_add]. unfold dur_add. destruct (x + y <? duration_limit) eqn:E; cbn [rbind].
    + specialize (IH b ltac:(now injection L)).
      destruct (times_add a b) as [r| |]; cbn [rbind].
      * destruct IH as (IL&IN&IF). repeat split; [cbn; congruence| |constructor; [lia|assumption]].
        intros [|i]; cbn [nth]; [reflexivity|apply IN].
      * exact IH.
      * destruct IH as [i Hi]. exists (S i). exact Hi.
    + exists 0%nat. cbn [nth]. lia.
Qed.

(** ** Footer *)
Lemma cf_bytes_length f : length (cf_bytes f) = 16%nat.
Proof. unfold cf_bytes. now rewrite app_length, !le_bytes_length. Qed.
Lemma index_bytes_length l : length (flat_map cf_bytes l) = (16 * length l)%nat.
Proof.
  induction l; [reflexivity|]. cbn [flat_map length]. rewrite app_length, cf_bytes_length, IHl. lia.
Qed.
Lemma parse_cf_app f rest : is_u64 (cf_physical f) -> is_u64 (cf_logical f) ->
  parse_cf (cf_bytes f ++ rest) = f.
Proof.
  intros H1 H2. destruct f as [p l]. cbn [cf_physical cf_logical] in *.
  unfold parse_cf, cf_bytes. cbn [cf_physical cf_logical].
  change (firstn 8 ((le_bytes 8 p ++ le_bytes 8 l) ++ rest)) with (le_bytes 8 p).
  change (firstn 8 (skipn 8 ((le_bytes 8 p ++ le_bytes 8 l) ++ rest))) with (le_bytes 8 l).
  now rewrite !le_val_bytes.
Qed.
Lemma parse_cfs_round l : valid_index l -> parse_cfs (length l) (flat_map cf_bytes l) = l.
Proof.
  induction 1 as [|f l [Hp Hl] Ht IH]; [reflexivity|].
  cbn [length parse_cfs flat_map]. rewrite parse_cf_app by assumption. f_equal.
  rewrite skipn_app. rewrite skipn_all2 by (rewrite cf_bytes_length; lia).
  rewrite cf_bytes_length. cbn. exact IH.
Qed.

Lemma footer_bytes_length f : valid_footer f -> N.of_nat (length (footer_bytes f)) = footer_size f.
Proof.
  intros (_&_&_&_&_&_&[T _]&_). unfold footer_bytes, footer_size.
  rewrite !app_length, !le_bytes_length, index_bytes_length, times_bytes_length, T.
  pose proof (config_bytes_length (f_config f)). lia.
Qed.

Lemma footer_round_trip dbg f rest :
  valid_footer f -> f_index f <> [] ->
  fetch_footer dbg (config_scheme (f_config f)) (footer_bytes f ++ rest) = Ok f.
Proof.
  intros V NE. destruct V as (R&C&CB&I&CF&EL&[T TB]&CRC).
  destruct f as [recs n idx cfg el tm crc].
  cbn [f_records f_chunks f_index f_config f_elapsed f_times f_crc] in *.
  unfold fetch_footer, footer_bytes. cbn [f_records f_chunks f_index f_config f_elapsed f_times f_crc].
  assert (n < two64 /\ 16 * n < isize_limit /\ 0 < n) as (B1&B2&B3).
  { change (2 ^ 59) with 576460752303423488 in CB. unfold two64, isize_limit.
    destruct idx; [contradiction|]. cbn [length] in C. lia. }
  rewrite <- !app_assoc.
  match goal with |- context [read_n 16 (?a ++ ?b ++ ?c)] =>
    replace (a ++ b ++ c) with ((a ++ b) ++ c) by now rewrite <- app_assoc end.
  rewrite read_n_app by (now rewrite app_length, !le_bytes_length). cbn [rbind].
  change (firstn 8 (le_bytes 8 recs ++ le_bytes 8 n)) with (le_bytes 8 recs).
  change (skipn 8 (le_bytes 8 recs ++ le_bytes 8 n)) with (le_bytes 8 n).
  rewrite !le_val_bytes by assumption.
  replace (dbg && (two64 <=? 16 * n)) with false
    by (destruct dbg; cbn; unfold two64, isize_limit in *; lia).
  rewrite (N.mod_small (16 * n)) by (unfold two64, isize_limit in *; lia).
  replace (isize_limit <=? 16 * n) with false by lia.
  rewrite read_n_app by (rewrite index_bytes_length; lia). cbn [rbind].
  replace (16 * n =? 0) with false by lia.
  unfold config_bytes. cbn [app].
  match goal with |- context [read_n 1 (?a :: ?b)] => change (a :: b) with ([a] ++ b) end.
  rewrite read_n_app by reflexivity. cbn [rbind].
  unfold byte_at. cbn [nth].
  replace (N.of_nat (length (config_body cfg)) mod 256) with (N.of_nat (length (config_body cfg)))
    by (rewrite config_body_length; destruct cfg; reflexivity).
  rewrite read_n_app by reflexivity. cbn [rbind].
  rewrite config_round_trip by assumption. cbn [rbind].
  match goal with |- context [read_n 164 (?a ++ ?b ++ ?c ++ ?d)] =>
    replace (a ++ b ++ c ++ d) with ((a ++ b ++ c) ++ d) by now rewrite <- !app_assoc end.
  rewrite read_n_app by (rewrite !app_length, !le_bytes_length, times_bytes_length, T; reflexivity).
  cbn [rbind]. f_equal. f_equal.
  - rewrite index_bytes_length. rewrite Nat.mul_comm, Nat.div_mul by discriminate.
    now apply parse_cfs_round.
  - change (firstn 16 (le_bytes 16 el ++ times_bytes tm ++ le_bytes 4 crc)) with (le_bytes 16 el).
    now apply le_val_bytes.
  - change (skipn 16 (le_bytes 16 el ++ times_bytes tm ++ le_bytes 4 crc)) with (times_bytes tm ++ le_bytes 4 crc).
    unfold parse_times. rewrite <- T at 1. now apply parse_nanos_round.
  - rewrite !skipn_app, !le_bytes_length, times_bytes_length, T.
    rewrite skipn_all2 by (rewrite le_bytes_length; lia).
    rewrite skipn_all2 by (rewrite times_bytes_length, T; lia).
    cbn [app]. change (skipn _ (le_bytes 4 crc)) with (le_bytes 4 crc). now apply le_val_bytes.
Qed.

(** What opening arbitrary bytes does. *)
Lemma open_file_cases dbg file :
  match open_file dbg file with
  | Ok m =>
      let tail := drop_n (h_footer_offset (m_header m)) file in
      let n := word_at 8 8 tail in
      fetch_header file = Ok (m_header m) /\
      f_records (m_footer m) = word_at 8 0 tail /\ f_chunks (m_footer m) = n /\
      N.of_nat (length (f_index (m_footer m))) = n /\
      0 < n < 2 ^ 59 /\
      config_length (h_scheme (m_header m)) <= word_at 1 (16 + 16 * n) tail /\
      16 + 16 * n + 1 + word_at 1 (16 + 16 * n) tail + 164 <= N.of_nat (length tail)
  | Err EIO => True
  | Err EConversion => True
  | Err _ => False
  | Panic =>
      exists h, fetch_header file = Ok h /\
      let tail := drop_n (h_footer_offset h) file in
      let n := word_at 8 8 tail in
      16 <= N.of_nat (length tail) /\
      (n = 0 \/ 2 ^ 59 <= n \/
       (16 + 16 * n + 1 + word_at 1 (16 + 16 * n) tail <= N.of_nat (length tail) /\
        word_at 1 (16 + 16 * n) tail < config_length (h_scheme h)))
  end.
Proof.
  unfold open_file.
  pose proof (fetch_header_total file) as FH.
  destruct (fetch_header file) as [h|e|] eqn:EH; cbn [rbind]; [|destruct e; try exact I; contradiction|contradiction].
  clear FH. remember (drop_n (h_footer_offset h) file) as tail eqn:ET. unfold fetch_footer.
  destruct (read_n_cases 16 tail) as [[L E]|[L (f0&t1&E1&E2&E)]]; rewrite E; cbn [rbind]; [exact I|].
  assert (length f0 = 16%nat) as L0 by lia.
  assert (Wr : word_at 8 0 tail = le_val (firstn 8 f0)).
  { unfold word_at, drop_n. replace (_ <? 0) with false by lia. subst tail. cbn [N.to_nat skipn].
    change (N.to_nat 0) with 0%nat. cbn [skipn]. rewrite E1.
    rewrite firstn_app. replace (8 - length f0)%nat with 0%nat by lia. cbn [firstn]. now rewrite app_nil_r. }
  assert (Wn : word_at 8 8 tail = le_val (skipn 8 f0)).
  { unfold word_at, drop_n. replace (_ <? 8) with false by lia. rewrite E1. change (N.to_nat 8) with 8%nat.
    rewrite skipn_app. replace (8 - length f0)%nat with 0%nat by lia. rewrite skipn_O.
    pose proof (skipn_length 8 f0) as SL. set (q := skipn 8 f0) in *. clearbody q.
    rewrite firstn_app. replace (8 - length q)%nat with 0%nat by lia.
    rewrite firstn_O, app_nil_r. rewrite firstn_all2 by lia. reflexivity. }
  set (n := le_val (skipn 8 f0)) in *. clearbody n.
  set (records := le_val (firstn 8 f0)) in *. clearbody records.
  change (2 ^ 59) with 576460752303423488.
  destruct (dbg && (two64 <=? 16 * n)) eqn:ED.
  { exists h. split; [reflexivity|]. rewrite <- ET, Wn. split; [exact L|]. right; left.
    rewrite andb_true_iff in ED. unfold two64 in ED. lia. }
  set (size := (16 * n) mod two64).
  destruct (isize_limit <=? size) eqn:EI.
  { exists h. split; [reflexivity|]. rewrite <- ET, Wn. split; [exact L|]. right; left.
    assert (size <= 16 * n) by (apply N.mod_le; discriminate). unfold isize_limit in EI. lia. }
  destruct (read_n_cases size t1) as [[L1 R1]|[L1 (cfs&t2&Q1&Q2&R1)]]; rewrite R1; cbn [rbind]; [exact I|].
  destruct (N.lt_ge_cases n 576460752303423488) as [Hn|Hn].
  2:{ (* at least 2^59 chunks: never opened *)
    destruct (size =? 0);
      [exists h; split; [reflexivity|]; rewrite <- ET, Wn; split; [exact L|right; left; exact Hn]|].
    destruct (read_n 1 t2) as [[b t3]|e|] eqn:R3; cbn [rbind].
    2:{ destruct (read_n_cases 1 t2) as [[_ X]|[_ (?&?&_&_&X)]]; rewrite X in R3; inversion R3; exact I. }
    2:{ destruct (read_n_cases 1 t2) as [[_ X]|[_ (?&?&_&_&X)]]; rewrite X in R3; discriminate R3. }
    destruct (read_n_cases (byte_at 0 b) t3) as [[_ X]|[_ (cb&t4&_&_&X)]]; rewrite X; cbn [rbind]; [exact I|].
    destruct (parse_config_cases (h_scheme h) cb) as [[_ X2]|[_ (c&X2)]]; rewrite X2; cbn [rbind].
    - exists h; split; [reflexivity|]; rewrite <- ET, Wn; split; [exact L|right; left; exact Hn].
    - destruct (read_n_cases 164 t4) as [[_ X3]|[_ (f3&t5&_&_&X3)]]; rewrite X3; cbn [rbind]; [exact I|].
      cbn [f_chunks]. replace (isize_limit <=? 16 * n) with true by (unfold isize_limit; lia).
      exists h; split; [reflexivity|]; rewrite <- ET, Wn; split; [exact L|right; left; exact Hn]. }
  assert (ES : size = 16 * n) by (unfold size; apply N.mod_small; unfold two64; lia).
  clearbody size. rewrite ES in *. clear ES size.
  destruct (16 * n =? 0) eqn:E0.
  { exists h. split; [reflexivity|]. rewrite <- ET, Wn. split; [exact L|left; lia]. }
  assert (Lt : N.of_nat (length tail) = 16 + 16 * n + N.of_nat (length t2)).
  { rewrite E1, Q1, !app_length. lia. }
  destruct (read_n_cases 1 t2) as [[L2 R2]|[L2 (b&t3&S1&S2&R2)]]; rewrite R2; cbn [rbind]; [exact I|].
  destruct b as [|b0 [|]]; cbn [length] in S2; try (exfalso; lia).
  unfold byte_at. cbn [nth].
  assert (Wb : word_at 1 (16 + 16 * n) tail = b0).
  { unfold word_at. rewrite E1, Q1, app_assoc. rewrite drop_n_app by (rewrite app_length; lia).
    rewrite S1. cbn [app firstn le_val]. lia. }
  destruct (read_n_cases b0 t3) as [[L3 R3]|[L3 (cb&t4&T1&T2&R3)]]; rewrite R3; cbn [rbind]; [exact I|].
  assert (Lt2 : N.of_nat (length t2) = 1 + b0 + N.of_nat (length t4)).
  { rewrite S1, T1. cbn [app length]. rewrite app_length. lia. }
  destruct (parse_config_cases (h_scheme h) cb) as [[LC X2]|[LC (c&X2)]]; rewrite X2; cbn [rbind].
  { exists h. split; [reflexivity|]. rewrite <- ET, Wn. split; [exact L|]. right; right. rewrite Wb. lia. }
  destruct (read_n_cases 164 t4) as [[_ X3]|[L4 (f3&t5&U1&U2&X3)]]; rewrite X3; cbn [rbind]; [exact I|].
  cbn [f_chunks]. replace (isize_limit <=? 16 * n) with false by (unfold isize_limit; lia).
  cbn [m_header m_footer f_records f_chunks f_index]. rewrite <- ET, Wn, Wr, Wb.
  split; [reflexivity|]. split; [reflexivity|]. split; [reflexivity|].
  split; [|lia].
  assert (forall k bs, length (parse_cfs k bs) = k) as PL.
  { induction k; intros; [reflexivity|]. cbn. now rewrite IHk. }
  rewrite PL. replace (length cfs) with (N.to_nat n * 16)%nat by lia.
  rewrite Nat.div_mul by discriminate. lia.
Qed.

From Verif Require Import Base WordProofs Xor Format FormatSpec FormatProofs.

Lemma dur_add_assoc a b c :
  (do x <- dur_add a b ; dur_add x c) = (do y <- dur_add b c ; dur_add a y).
Proof.
  unfold dur_add.
  destruct (a + b <? duration_limit) eqn:E1; destruct (b + c <? duration_limit) eqn:E2; cbn [rbind];
    rewrite ?N.add_assoc; try reflexivity.
  - replace (a + b + c <? duration_limit) with false by lia. reflexivity.
  - replace (a + b + c <? duration_limit) with false by lia. reflexivity.
Qed.

Lemma times_add_comm a : forall b, length a = length b -> times_add a b = times_add b a.
Proof.
  induction a as [|x a IH]; intros [|y b] L; try discriminate L; [reflexivity|].
  cbn [times_add]. rewrite dur_add_comm, (IH b) by (now injection L). reflexivity.
Qed.

Lemma dur_add_never_err a b e : dur_add a b <> Err e.
Proof. unfold dur_add. destruct (_ <? _); discriminate. Qed.
Lemma times_add_never_err a : forall b e, times_add a b <> Err e.
Proof.
  induction a as [|x a IH]; intros [|y b] e; cbn [times_add]; try discriminate.
  destruct (dur_add x y) eqn:E; cbn [rbind]; try discriminate; [|now apply dur_add_never_err in E].
  destruct (times_add a b) eqn:E2; cbn [rbind]; try discriminate. now apply IH in E2.
Qed.

Lemma times_add_assoc a : forall b c, length a = length b -> length b = length c ->
  (do x <- times_add a b ; times_add x c) = (do y <- times_add b c ; times_add a y).
Proof.
  induction a as [|x a IH]; intros [|y b] [|z c] L1 L2; try discriminate; [reflexivity|].
  cbn [times_add].
  specialize (IH b c ltac:(now injection L1) ltac:(now injection L2)).
  pose proof (dur_add_assoc x y z) as D.
  destruct (dur_add x y) as [xy|e|] eqn:E1; [|now apply dur_add_never_err in E1|];
  destruct (dur_add y z) as [yz|e|] eqn:E2; try (now apply dur_add_never_err in E2); cbn [rbind] in *.
  - destruct (times_add a b) as [ab|e|] eqn:E3; [|now apply times_add_never_err in E3|];
    destruct (times_add b c) as [bc|e|] eqn:E4; try (now apply times_add_never_err in E4); cbn [rbind] in *;
    cbn [times_add].
    + now rewrite D, IH.
    + rewrite IH. destruct (dur_add xy z) eqn:E; [reflexivity|now apply dur_add_never_err in E|reflexivity].
    + rewrite <- IH. destruct (dur_add x yz) eqn:E; [reflexivity|now apply dur_add_never_err in E|reflexivity].
    + reflexivity.
  - destruct (times_add a b) as [ab|e|] eqn:E3; [|now apply times_add_never_err in E3|]; cbn [rbind]; cbn [times_add].
    + now rewrite D.
    + reflexivity.
  - destruct (times_add b c) as [bc|e|] eqn:E4; [|now apply times_add_never_err in E4|]; cbn [rbind]; cbn [times_add].
    + now rewrite <- D.
    + reflexivity.
  - reflexivity.
Qed.

Lemma times_add_new a : valid_times a -> times_add times_new a = Ok a.
Proof.
  intros [L F]. unfold times_new. change 9%nat with 9%nat. rewrite <- L. clear L.
  induction F as [|x a Hx F IH]; [reflexivity|].
  cbn [length repeat times_add]. unfold dur_add. rewrite N.add_0_l.
  replace (x <? duration_limit) with true by lia. cbn [rbind]. now rewrite IH.
Qed.

Lemma set_nth_length i x l : length (set_nth i x l) = length l.
Proof. revert i. induction l; intros [|i]; cbn; congruence. Qed.
Lemma set_nth_nth i x l j : (i < length l)%nat ->
  nth j (set_nth i x l) 0 = if (j =? i)%nat then x else nth j l 0.
Proof.
  revert i j. induction l as [|y l IH]; intros [|i] [|j] H; cbn [set_nth nth length Nat.eqb] in *; try lia; try reflexivity.
  apply IH. lia.
Qed.
Lemma segment_index_inj a b : segment_index a = segment_index b -> a = b.
Proof. destruct a, b; cbn; intros; congruence || discriminate. Qed.

Lemma times_add_at_spec t k d : valid_times t ->
  match times_add_at t k d with
  | Ok t' => valid_times t' /\ time_of t' k = time_of t k + d /\
      (forall j, j <> k -> time_of t' j = time_of t j)
  | Err _ => False
  | Panic => duration_limit <= time_of t k + d
  end.
Proof.
  intros [L F]. unfold times_add_at, dur_add.
  destruct (time_of t k + d <? duration_limit) eqn:E; cbn [rbind]; [|lia].
  assert (segment_index k < length t)%nat as I by (rewrite L; destruct k; cbn; lia).
  split; [split|split].
  - now rewrite set_nth_length.
  - apply Forall_nth. intros i dflt Hi. rewrite set_nth_length in Hi.
    rewrite (nth_indep _ dflt 0) by (now rewrite set_nth_length).
    rewrite set_nth_nth by assumption. destruct (i =? segment_index k)%nat; [lia|].
    revert i Hi. rewrite Forall_nth in F. intros. now apply F.
  - unfold time_of at 1. rewrite set_nth_nth by assumption. now rewrite Nat.eqb_refl.
  - intros j Hj. unfold time_of. rewrite set_nth_nth by assumption.
    destruct (Nat.eqb_spec (segment_index j) (segment_index k)) as [Eq|]; [|reflexivity].
    now apply segment_index_inj in Eq.
Qed.

Lemma times_round_trip t rest : valid_times t -> parse_times (times_bytes t ++ rest) = t.
Proof. intros [L F]. unfold parse_times. rewrite <- L at 1. now apply parse_nanos_round. Qed.

Lemma magic_ignored s o off v g rest :
  length g = 4%nat -> Forall is_byte g ->
  valid_header (mkHeader magic s o off v) ->
  exists h, fetch_header (g ++ skipn 4 (header_bytes (mkHeader magic s o off v)) ++ rest) = Ok h /\
    h_scheme h = s /\ h_option h = o /\ h_footer_offset h = off.
Proof.
  intros L B V.
  assert (V' : valid_header (mkHeader g s o off v)).
  { destruct V as (_&_&V1&V2&V3&V4). repeat split; assumption. }
  exists (mkHeader g s o off v). split; [|now repeat split].
  rewrite <- (header_round_trip _ rest V') at 1. f_equal.
  rewrite app_assoc. f_equal.
Qed.

Lemma no_chunks_panics dbg f rest : valid_footer f -> f_index f = [] ->
  fetch_footer dbg (config_scheme (f_config f)) (footer_bytes f ++ rest) = Panic.
Proof.
  intros (R&C&_) E. destruct f as [recs n idx cfg el tm crc].
  cbn [f_records f_chunks f_index f_config f_elapsed f_times f_crc] in *. subst idx. cbn in C.
  assert (n = 0) by lia. clear C. subst n.
  unfold fetch_footer, footer_bytes. cbn [f_records f_chunks f_index f_config f_elapsed f_times f_crc].
  rewrite <- !app_assoc.
  match goal with |- context [read_n 16 (?a ++ ?b ++ ?c)] =>
    replace (a ++ b ++ c) with ((a ++ b) ++ c) by now rewrite <- app_assoc end.
  rewrite read_n_app by (now rewrite app_length, !le_bytes_length). cbn [rbind].
  change (skipn 8 (le_bytes 8 recs ++ le_bytes 8 0)) with (le_bytes 8 0).
  replace (le_val (le_bytes 8 0)) with 0 by reflexivity.
  change (16 * 0) with 0. change (0 mod two64) with 0.
  replace (dbg && (two64 <=? 0)) with false by (now destruct dbg).
  change (isize_limit <=? 0) with false. cbv iota.
  change (flat_map cf_bytes []) with (@nil N). 
  pose proof (read_n_app 0 [] (config_bytes cfg ++ le_bytes 16 el ++ times_bytes tm ++ le_bytes 4 crc ++ rest) eq_refl) as R0.
  cbn [app] in *. rewrite R0. reflexivity.
Qed.

Lemma header_facts h rest : valid_header h ->
  header_bytes h = h_magic h ++ [0; scheme_code (h_scheme h); fst (chunk_option_fields (h_option h)); 0] ++
    le_bytes 8 (snd (chunk_option_fields (h_option h))) ++ le_bytes 8 (h_footer_offset h) ++
    flat_map (le_bytes 2) (h_version h) /\
  length (header_bytes h) = 30%nat /\
  fetch_header (header_bytes h ++ rest) = Ok h.
Proof.
  intros V. split; [reflexivity|]. split; [now apply header_bytes_length|now apply header_round_trip].
Qed.

Lemma footer_facts dbg f rest : valid_footer f -> f_index f <> [] ->
  N.of_nat (length (footer_bytes f)) = footer_size f /\
  fetch_footer dbg (config_scheme (f_config f)) (footer_bytes f ++ rest) = Ok f.
Proof.
  intros V NE. split; [now apply footer_bytes_length|now apply footer_round_trip].
Qed.

Lemma config_facts c : valid_config c ->
  config_bytes c = N.of_nat (length (config_body c)) :: config_body c /\
  N.of_nat (length (config_bytes c)) = config_serialized_size c /\
  parse_config (config_scheme c) (config_body c) = Ok c.
Proof.
  intros V. split; [|split; [apply config_bytes_length|now apply config_round_trip]].
  unfold config_bytes. rewrite config_body_length. now destruct c.
Qed.

Lemma times_facts t rest : valid_times t ->
  length (times_bytes t) = 144%nat /\ parse_times (times_bytes t ++ rest) = t.
Proof.
  intros V. split; [rewrite times_bytes_length; now rewrite (proj1 V)|now apply times_round_trip].
Qed.

Lemma times_algebra a b c : valid_times a -> valid_times b -> valid_times c ->
  times_add a b = times_add b a /\
  (do x <- times_add a b ; times_add x c) = (do y <- times_add b c ; times_add a y) /\
  times_add times_new a = Ok a.
Proof.
  intros Ha Hb Hc. split; [|split].
  - apply times_add_comm. destruct Ha, Hb; congruence.
  - apply times_add_assoc; destruct Ha, Hb, Hc; congruence.
  - now apply times_add_new.
Qed.

(** Corollaries of the XOR codec round trips, in the form of PropertiesXor.v. *)
From Verif Require Import Base BitIO Xor XorSpec XorProofs
  Gorilla GorillaProofs Chimp ChimpProofs ChimpN ChimpNProofs.

Lemma gorilla_lossless c xs after : Forall is_u64 xs -> ~ In nan_bits xs -> Forall is_byte after ->
  let bytes := x_buffers (gorilla_prepare (gorilla_compress c xs)) in
  fst (gorilla_decompress (xr_new (bytes ++ after))) = Ok xs.
Proof. intros HX HN HA bytes. subst bytes. rewrite gorilla_roundtrip, before_nan_id; auto. Qed.

Lemma chimp_lossless c xs after : Forall is_u64 xs -> ~ In nan_bits xs -> Forall is_byte after ->
  let bytes := x_buffers (chimp_prepare (chimp_compress c xs)) in
  fst (chimp_decompress (xr_new (bytes ++ after))) = Ok xs.
Proof. intros HX HN HA bytes. subst bytes. rewrite chimp_roundtrip, before_nan_id; auto. Qed.

Lemma chimp128_lossless c xs after : Forall is_u64 xs -> ~ In nan_bits xs -> Forall is_byte after ->
  let bytes := x_buffers (chimp128_prepare (chimp128_compress c xs)) in
  fst (chimp128_decompress (xr_new (bytes ++ after))) = Ok xs.
Proof. intros HX HN HA bytes. subst bytes. rewrite chimp128_roundtrip, before_nan_id; auto. Qed.

Lemma before_nan_app kept lost : ~ In nan_bits kept -> before_nan (kept ++ nan_bits :: lost) = kept.
Proof.
  induction kept as [|x k IH]; cbn [app before_nan In]; intros H.
  - rewrite N.eqb_refl. reflexivity.
  - destruct (N.eqb_spec x nan_bits) as [->|_]; [tauto|]. rewrite IH; tauto.
Qed.

Lemma nan_truncates cg cc cn :
  (forall kept lost, Forall is_u64 (kept ++ nan_bits :: lost) -> ~ In nan_bits kept ->
    fst (gorilla_decompress (xr_new (x_buffers (gorilla_prepare (gorilla_compress cg (kept ++ nan_bits :: lost)))))) = Ok kept) /\
  (forall kept lost, Forall is_u64 (kept ++ nan_bits :: lost) -> ~ In nan_bits kept ->
    fst (chimp_decompress (xr_new (x_buffers (chimp_prepare (chimp_compress cc (kept ++ nan_bits :: lost)))))) = Ok kept) /\
  (forall kept lost, Forall is_u64 (kept ++ nan_bits :: lost) -> ~ In nan_bits kept ->
    fst (chimp128_decompress (xr_new (x_buffers (chimp128_prepare (chimp128_compress cn (kept ++ nan_bits :: lost)))))) = Ok kept).
Proof.
  repeat split; intros kept lost HX HN;
  [ pose proof (gorilla_roundtrip cg _ [] HX (Forall_nil _)) as H
  | pose proof (chimp_roundtrip cc _ [] HX (Forall_nil _)) as H
  | pose proof (chimp128_roundtrip cn _ [] HX (Forall_nil _)) as H ];
  rewrite app_nil_r, before_nan_app in H; auto.
Qed.

Lemma every_sequence_roundtrips_refuted : exists xs, Forall is_u64 xs /\
  fst (gorilla_decompress (xr_new (x_buffers (gorilla_prepare
    (gorilla_compress (x_new genc ge_init) xs))))) <> Ok xs /\
  fst (chimp_decompress (xr_new (x_buffers (chimp_prepare
    (chimp_compress (x_new cenc ce_init) xs))))) <> Ok xs /\
  fst (chimp128_decompress (xr_new (x_buffers (chimp128_prepare
    (chimp128_compress (x_new nenc ne_init) xs))))) <> Ok xs.
Proof.
  exists [1; nan_bits; 2]. split; [repeat constructor|].
  vm_compute. repeat split; discriminate.
Qed.

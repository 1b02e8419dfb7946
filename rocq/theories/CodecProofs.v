From Verif Require Import Base WordProofs BitIO Xor XorSpec FileProofs XorProofs XorSummary Gorilla GorillaProofs Chimp ChimpProofs
  ChimpN ChimpNProofs F64 ElfXor Elf ElfProofs ElfSummary RawSpec Rle RleProofs Uncompressed UncompressedProofs RawSummary
  Format File FileSpec ByteCodec Alp Query Sprintz SprintzProofs SprintzQueryProofs Codecs CodecSpec.

Lemma uncompressed_ok : codec_ok uncompressed_codec (fun _ => True) bytes_of (fun xs => xs).
Proof.
  intros s xs NE U L _. exists (unc_compress (unc_reset s) xs).
  destruct (unc_lossless (unc_reset s) xs U) as [B D].
  split; [reflexivity|]. split; [reflexivity|]. split; [reflexivity|]. split; [exact B|].
  unfold bytes_of. rewrite <- B. exact D.
Qed.

Definition rle_image (xs : list N) : list N :=
  match rle_compress rle_new xs with Ok c => rle_buffers (rle_prepare c) | _ => [] end.

Lemma push_in xs : forall c, rl_in (fold_left rle_push xs c) = rl_in c.
Proof.
  induction xs as [|x xs IH]; intros c; [reflexivity|]. cbn [fold_left]. rewrite IH.
  unfold rle_push. destruct (_ && _); reflexivity.
Qed.
Lemma compress_in s xs c : rle_compress (rle_reset s) xs = Ok c -> rl_in c = 8 * N.of_nat (length xs).
Proof.
  unfold rle_compress, rle_append. cbn [rle_reset rl_run]. change (0 =? 0) with true. cbv iota.
  destruct xs as [|x xs]; [discriminate|]. intros E. injection E as <-. cbn [rl_in].
  rewrite push_in. reflexivity.
Qed.
Lemma prepare_in c : rl_in (rle_prepare c) = rl_in c.
Proof. unfold rle_prepare. destruct (_ =? _); reflexivity. Qed.

Lemma rle_ok : codec_ok rle_codec (fun _ => True) rle_image (fun xs => xs).
Proof.
  intros s xs NE U L _.
  assert (LT : N.of_nat (length xs) < two64).
  { change (2 ^ 60) with 1152921504606846976 in L. unfold two64. lia. }
  destruct (rle_lossless (rle_reset s) xs NE U LT) as (c'&runs&r&C&B&_&_&_&O&D&_).
  exists c'. cbn [rle_codec cd_compress cd_reset cd_total_in cd_prepare cd_buffers cd_decode].
  pose proof (compress_in s xs c' C) as T.
  assert (I : rle_buffers (rle_prepare c') = rle_image xs).
  { unfold rle_image. pose proof (rle_reuse (rle_reset s) xs) as RU. rewrite C in RU.
    destruct (rle_compress rle_new xs); [exact RU|contradiction|contradiction]. }
  split; [exact C|]. split; [exact T|]. split; [now rewrite prepare_in|]. split; [exact I|].
  rewrite <- I, O. exact D.
Qed.

(** The XOR codecs. *)
Section X.
  Variables (E D : Type) (e_init : E) (e_step : E -> bwriter -> N -> E * bwriter)
    (e_close : E -> bwriter -> E * bwriter) (d_init : D) (d_next : D -> breader -> drd (option N * D)).
  Definition x_image (xs : list N) : list N :=
    x_buffers (x_prepare E e_close (x_compress E e_init e_step (x_new E e_init) xs)).

  Lemma x_ok (good : list N -> Prop) view :
    (forall c xs, Forall is_u64 xs -> good xs ->
      fst (x_decompress D d_init d_next (xr_new (x_buffers (x_prepare E e_close (x_compress E e_init e_step c xs)) ++ []))) = Ok (view xs)) ->
    codec_ok (x_codec E D e_init e_step e_close d_init d_next) good x_image view.
  Proof using.
    intros RT s xs NE U L G. exists (x_compress E e_init e_step (x_reset E e_init s) xs).
    cbn [x_codec cd_compress cd_reset cd_total_in cd_prepare cd_buffers cd_decode].
    assert (T : xin (x_compress E e_init e_step (x_reset E e_init s) xs) = 8 * N.of_nat (length xs)).
    { unfold x_compress. destruct (x_steps _ _ _ _ _) as [e w]. reflexivity. }
    split; [reflexivity|]. split; [exact T|]. split; [|split].
    - rewrite <- T. unfold x_prepare. destruct (e_close _ _). reflexivity.
    - reflexivity.
    - unfold x_image. rewrite <- (app_nil_r (x_buffers _)). now apply RT.
  Qed.
End X.

Lemma gorilla_ok : codec_ok gorilla_codec (fun _ => True) (x_image genc ge_init ge_step ge_close) before_nan.
Proof. apply x_ok. intros c xs U _. now apply gorilla_roundtrip. Qed.
Lemma chimp_ok : codec_ok chimp_codec (fun _ => True) (x_image cenc ce_init ce_step ce_close) before_nan.
Proof. apply x_ok. intros c xs U _. now apply chimp_roundtrip. Qed.
Lemma chimp128_ok : codec_ok chimp128_codec (fun _ => True) (x_image nenc ne_init ne_step ne_close) before_nan.
Proof. apply x_ok. intros c xs U _. now apply chimp128_roundtrip. Qed.
Definition elf_good log10 xs := Forall (fun x => nan_pattern x = true \/ undone (elf_erase log10) (elf_recover log10) x) xs.
Lemma elf_ok log10 : codec_ok (elf_codec log10) (elf_good log10)
  (x_image _ (we_init lenc le_init) (we_step (elf_erase log10) lenc le_step) (we_close lenc le_close)) (fun xs => before_nan (map canon xs)).
Proof. apply x_ok. intros c xs U G. now apply elf_roundtrip. Qed.
Lemma elf_on_chimp_ok log10 : codec_ok (elf_on_chimp_codec log10) (elf_good log10)
  (x_image _ (we_init cenc ce_init) (we_step (elf_erase log10) cenc ce_step) (we_close cenc ce_close)) (fun xs => before_nan (map canon xs)).
Proof. apply x_ok. intros c xs U G. now apply elfc_roundtrip. Qed.

(** A weaker set of chunks and a pointwise equal view. *)
Lemma codec_ok_weaken cd (good : list N -> Prop) image view (good' : list N -> Prop) view' :
  codec_ok cd good image view -> (forall xs, good' xs -> good xs) -> (forall xs, good' xs -> view xs = view' xs) ->
  codec_ok cd good' image view'.
Proof.
  intros OK GW VW s xs NE U L G. destruct (OK s xs NE U L (GW xs G)) as (s'&H1&H2&H3&H4&H5).
  exists s'. rewrite <- (VW xs G). auto.
Qed.

(** The library-backed schemes. *)
Section Bytes.
  Variables pack unpack : list N -> res derr (list N).
  Variable packed : list N -> list N.
  Hypothesis P : forall b, pack b = Ok (packed b).
  Hypothesis PU : forall b, unpack (packed b) = Ok b.

  Lemma zstd_state s xs : zstd_compress pack (bc_reset s) xs = Ok (mkBc (8 * N.of_nat (length xs)) (Some (packed (bytes_of xs)))).
  Proof using All.
    unfold zstd_compress. fold (bytes_of xs). rewrite P. cbn [rbind bc_reset bc_in]. f_equal. f_equal.
    rewrite FileProofs.bytes_of_length. lia.
  Qed.

  Lemma zstd_ok : codec_ok (zstd_codec pack unpack) (fun _ => True) (fun xs => packed (bytes_of xs)) (fun xs => xs).
  Proof using P PU.
    intros s xs NE U L _. eexists. split; [exact (zstd_state s xs)|]. split; [reflexivity|]. split; [reflexivity|].
    split; [reflexivity|]. cbn [zstd_codec cd_decode]. unfold zstd_decode. rewrite PU. cbn [rbind].
    rewrite FileProofs.bytes_of_length, Nat2N.id.
    replace (_ <? _) with false by lia. now rewrite f64s_of_flat.
  Qed.
  Lemma gz_ok dbg : codec_ok (gz_codec pack unpack dbg) (fun _ => True) (fun xs => packed (bytes_of xs)) (fun xs => xs).
  Proof using P PU.
    intros s xs NE U L _. eexists. split; [exact (zstd_state (bc_reset s) xs)|]. split; [reflexivity|]. split; [reflexivity|].
    split; [reflexivity|]. cbn [gz_codec cd_decode]. unfold gz_decode. rewrite PU. cbn [rbind].
    rewrite FileProofs.bytes_of_length, Nat2N.id.
    replace (_ <? _) with false by lia. replace (8 * N.of_nat (length xs) <? N.of_nat (8 * length xs)) with false by lia.
    rewrite andb_false_r. rewrite <- (app_nil_r (bytes_of xs)). now rewrite f64s_of_flat.
  Qed.
End Bytes.

(** Alp. *)
Lemma alp_limit n : alp_worst_case n = alp_size_limit n.
Proof. unfold alp_worst_case, alp_size_limit. set (v := (n + 1023) / 1024). cbv zeta. rewrite N.div_mul by lia. destruct (n <? 1024); lia. Qed.
Lemma alp_ok pack unpack dbg :
  (forall xs, Forall is_u64 xs -> unpack (N.of_nat (length xs)) (pack xs) = xs /\ N.of_nat (length (pack xs)) <= alp_size_limit (N.of_nat (length xs))) ->
  codec_ok (alp_codec pack unpack dbg) (fun _ => True) pack (fun xs => xs).
Proof.
  intros F s xs NE U L _. destruct (F xs U) as [E S]. rewrite <- alp_limit in S. eexists. split.
  - cbn [alp_codec cd_compress]. unfold alp_compress. replace (_ <? _) with false by lia. rewrite andb_false_r. reflexivity.
  - split; [reflexivity|]. split; [reflexivity|]. split; [reflexivity|]. cbn [alp_codec cd_decode]. unfold alp_decode. now rewrite E.
Qed.

(** DeltaSprintz; the scale is truncated to 32 bits. *)
Definition sprintz_image (dbg : bool) (s : N) (xs : list N) : list N :=
  match sp_compress dbg (sp_new s) xs with Ok c => sp_buffers c | _ => [] end.
Definition sprintz_good (dbg : bool) (s : N) (xs : list N) : Prop :=
  steps_ok dbg (hd 0%Z (map (quantize s) xs)) (map (quantize s) xs).
Definition sprintz_view (s : N) (xs : list N) : list N :=
  map (fun x => to_bits (unquantize (s mod 2 ^ 32) (quantize s x))) xs.
Lemma sprintz_ok dbg s : codec_ok (sprintz_codec dbg s) (sprintz_good dbg s) (sprintz_image dbg s) (sprintz_view s).
Proof.
  intros st xs NE U L G.
  cbn [sprintz_codec cd_compress cd_reset cd_total_in cd_prepare cd_buffers cd_decode sp_reset sp_w sp_in fst snd].
  change (sp_compress dbg (mkSp (w_reset (fst st)) s 0) xs) with (sp_compress dbg (sp_new s) xs).
  destruct (compress_encodes dbg (sp_new s) xs NE G) as (c' & E & EN & SC). cbn [sp_new sp_scale] in EN, SC.
  rewrite E. cbn [rbind]. eexists. split; [reflexivity|]. cbn [fst snd sp_prepare].
  assert (T : sp_in c' = 8 * N.of_nat (length xs)).
  { unfold sp_compress in E. destruct (sp_write _ _ _ _); [|discriminate|discriminate]. cbn [rbind sp_reset sp_in] in E. injection E as <-. reflexivity. }
  split; [exact T|]. split; [exact T|]. split.
  - unfold sprintz_image. rewrite E. reflexivity.
  - unfold sprintz_image. rewrite E.
    destruct (decompress_ok dbg s (map (quantize s) xs) (sp_buffers c') (sp_open (N.of_nat (length xs)) (sp_buffers c')) EN) as (r' & D & _).
    + split; [split|]; cbn [sp_open spr_r spr_records spr_cache r_new rbuf]; [reflexivity|now rewrite map_length|reflexivity].
    + reflexivity.
    + rewrite D. cbn [fst]. unfold sprintz_view. now rewrite map_map.
Qed.

Lemma sprintz_small_steps dbg s : forall xs previous, (Z.abs previous < 2 ^ 62)%Z -> Forall (fun x => (Z.abs (quantize s x) < 2 ^ 62)%Z) xs ->
  steps_ok dbg previous (map (quantize s) xs).
Proof.
  induction xs as [|x xs IH]; intros p P F; [exact I|]. inversion_clear F as [|? ? F1 F2]. cbn [map steps_ok]. split; [|now apply IH].
  right. unfold i64. change (2 ^ 62)%Z with 4611686018427387904%Z in *. change (2 ^ 63)%Z with 9223372036854775808%Z. lia.
Qed.

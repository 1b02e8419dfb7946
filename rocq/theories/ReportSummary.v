(** Summary of tables of results and the embedding experiment: corollaries, samples
    and counterexamples. *)
From Coq Require Import String.
From Verif Require Import Base WordProofs Xor F64 F64Proofs Format FormatSpec File FileSpec FileSummary Codecs CodecSpec Query QuerySpec Sprintz SprintzSpec SprintzSummary Buff BuffSpec ElfRangeSpec ElfRangeSummary
  Expr Tpch TpchSpec Harness Ucr UcrSpec UcrSummary Report ReportSpec ReportProofs.
Local Open Scope N_scope.

(** ** Tables *)
Definition counted (k : N) : inner := mkInner (repeat (mkResult 0 (Max "x") CSnappy k 800 (of_Z 1)) 2) [] [] [] [].
(** The second data set has no result of ALP. *)
Definition two_tables : all_output :=
  [("a"%string, [(SRle, counted 1); (SAlp, counted 2)]); ("b"%string, [(SRle, counted 3)])].
Lemma two_tables_ok : table two_tables /\ entry two_tables "b" SRle (counted 3) /\ (forall i, ~ entry two_tables "b" SAlp i) /\
  transpose two_tables = [(SRle, [("a"%string, counted 1); ("b"%string, counted 3)]); (SAlp, [("a"%string, counted 2)])].
Proof.
  split. { split; [repeat (constructor; [cbn; intuition discriminate|]); constructor|repeat (constructor; [repeat (constructor; [cbn; intuition discriminate|]); constructor|]); constructor]. }
  split. { eexists. split; [right; left; reflexivity|left; reflexivity]. }
  split; [|reflexivity]. intros i (m & I & J). destruct I as [[= <-]|[[= <-]|[]]]. destruct J as [[= ]|[]].
Qed.

(** ** Embedding *)
Theorem command_right P precisions files : good_platform P -> NoDup (map fst files) ->
  (forall d data, In (d, data) files -> exists v k xs, get String.eqb d precisions = Some v /\ k < 2 ^ 32 /\ places k v /\ record_file data xs /\
    Forall (fun c => embeds P c xs /\ file_fits P c data) (tried k)) ->
  exists t, embedding P precisions files [] = Ok t /\
    Forall2 (fun (f : string * list N) x => fst x = fst f /\ forall v k xs, get String.eqb (fst f) precisions = Some v -> k < 2 ^ 32 -> places k v -> record_file (snd f) xs ->
      Forall (fun c => embeds P c xs /\ file_fits P c (snd f)) (tried k) ->
      map (fun y => fst (snd y)) (snd x) = tried k /\ Forall (right_reports P (snd f) xs) (snd x)) files t.
Proof. intros GP N H. exact (all_data_sets P GP precisions files [] N H). Qed.

(** 0.5 and -1.3, and three bytes more. *)
Definition embedding_values : list N := [grid_value 10 5; grid_value 10 (-13)].
Definition embedding_data : list N := bytes_of embedding_values ++ [1; 2; 3].
Lemma values_everyday : Forall everyday embedding_values.
Proof.
  assert (H : forall x, is_u64 x -> match number x with Some v => ((micro <=? Z.abs v) && (Z.abs v <? 10 ^ 9 * 2 ^ 1074))%Z = true | None => False end -> everyday x).
  { intros x U H. split; [exact U|]. destruct (number x) as [v|]; [|contradiction]. exists v. split; [reflexivity|]. right. right. apply andb_prop in H as [A B]. split; [now apply Z.leb_le|now apply Z.ltb_lt]. }
  repeat (constructor; [apply H; vm_compute; reflexivity|]). constructor.
Qed.
Lemma values_kept s : 1 <= s < 2 ^ 32 -> (forall x, In x embedding_values -> on_grid s x) -> forall log10 c, In c (experiment_configs false s) -> config_scheme c <> SBuff ->
  Forall (storable log10 c) embedding_values.
Proof.
  intros S G log10 c I NB. apply Forall_forall. intros x IX. pose proof values_everyday as E. rewrite Forall_forall in E.
  destruct (everyday_storable log10 default_capacity x (E x IX)) as [E1 E2].
  assert (NN : x <> nan_bits). { destruct IX as [<-|[<-|[]]]; vm_compute; discriminate. }
  cbn [experiment_configs In] in I. repeat (destruct I as [<-|I]; [first [exact Logic.I|exact NN|exact E1|exact E2|now destruct NB|idtac]|]); [|destruct I].
  apply grid_storable; [exact S|]. now apply G.
Qed.
Definition embedding_precisions : list (string * f64) := [("set"%string, of_Z 1)].
Lemma embedding_ready : Forall (fun c => embeds ucr_platform c embedding_values /\ file_fits ucr_platform c embedding_data) (tried 1).
Proof.
  assert (K : forall c, In c (experiment_configs false 10) -> config_scheme c <> SBuff -> Forall (storable (p_log10 ucr_platform) c) embedding_values).
  { apply values_kept; [split; [discriminate|reflexivity]|]. intros x [<-|[<-|[]]]; [exists 5%Z|exists (-13)%Z]; (split; [reflexivity|reflexivity]). }
  assert (F : forall c, (N.of_nat (length (encoded_file ucr_platform c embedding_data)) <? 2 ^ 63) = true -> file_fits ucr_platform c embedding_data) by (intros c H; now apply N.ltb_lt).
  change (tried 1) with (experiment_configs false 10). apply Forall_forall. intros c I. split; [|apply F; revert c I; apply Forall_forall; repeat (constructor; [vm_compute; reflexivity|]); constructor].
  specialize (K c I). cbn [experiment_configs In] in I. destruct I as [<-|I].
  - clear K. split; [reflexivity|]. exists 5. split; [reflexivity|]. split; [|discriminate].
    assert (R : forall x, match number x with Some a => (Z.abs a <? 2 ^ 63 * BuffSpec.step 5%N)%Z = true | None => False end -> in_range 5 x).
    { intros x H. unfold in_range. destruct (number x) as [a|]; [|contradiction]. exists a. split; [reflexivity|now apply Z.ltb_lt]. }
    repeat (constructor; [apply R; vm_compute; reflexivity|]). constructor.
  - repeat (destruct I as [<-|I]; [first [exact (K ltac:(discriminate))|split; [discriminate|exact (K ltac:(discriminate))]]|]). destruct I.
Qed.
Lemma places_one : places 1 (of_Z 1).
Proof. exists 0x3ff0000000000000, (2 ^ 1074)%Z. split; [reflexivity|]. split; [reflexivity|]. split; [vm_compute; reflexivity|]. left. vm_compute. reflexivity. Qed.
Lemma embedding_sample : good_platform ucr_platform /\ record_file embedding_data embedding_values /\ length (tried 1) = 13%nat /\ length (tried 13) = 11%nat /\
  get String.eqb "set"%string embedding_precisions = Some (of_Z 1) /\ places 1 (of_Z 1) /\
  Forall (fun c => embeds ucr_platform c embedding_values /\ file_fits ucr_platform c embedding_data) (tried 1).
Proof.
  split; [exact ucr_good|]. split. { split; [discriminate|]. split; [repeat constructor|]. split; [reflexivity|]. exists [1; 2; 3]. split; [reflexivity|]. split; [cbn; lia|repeat constructor]. }
  split; [reflexivity|]. split; [vm_compute; reflexivity|]. split; [reflexivity|]. split; [exact places_one|exact embedding_ready].
Qed.

(** *** A file too short for one record *)
Theorem short_fails P c data : good_platform P -> valid_config c -> config_scheme c <> SBuff -> data <> [] -> (length data < 8)%nat -> Forall is_byte data ->
  embed_once P c data = Panic.
Proof.
  intros GP VC NB ND L B. assert (CD : scheme_codec (p_dbg P) (p_log10 P) (p_lib P) c = Some (codec_of P c)) by (destruct c; try reflexivity; now destruct NB).
  destruct (c25 (p_dbg P) (p_log10 P) (p_lib P) c (codec_of P c) default_chunk_option (p_timer P) (p_elapsed P) [Data data] CD) as (ops & EN & OP).
  { destruct GP as (FL & VT & EL). split; [exact FL|]. split; [split; reflexivity|]. split.
    { constructor; [|constructor]. exists data. split; [reflexivity|exact ND]. }
    split. { exists data. split; [cbn; now rewrite app_nil_r|auto]. }
    split; [constructor|]. split; [reflexivity|]. split; [constructor|]. split; [exact VC|]. split; [reflexivity|]. now split. }
  unfold embed_once. rewrite EN. cbn [rbind]. rewrite OP. destruct (_ <=? _); reflexivity.
Qed.
Theorem short_data_set P precision data t : good_platform P -> data <> [] -> (length data < 8)%nat -> Forall is_byte data ->
  embed_dataset P (embedding_scale precision) embedding_configs data [] <> Ok t.
Proof.
  intros GP ND L B. generalize (embedding_scale precision). intros scale.
  assert (U : forall rest t0, embed_dataset P scale (CUncompressed default_capacity :: rest) data t0 <> Ok t).
  { intros rest t0. cbn [embed_dataset embedding_config embed_runs]. rewrite (short_fails P (CUncompressed default_capacity) data GP); [discriminate| |discriminate|exact ND|exact L|exact B].
    vm_compute. reflexivity. }
  change embedding_configs with (CBuff 0 :: CUncompressed default_capacity :: skipn 2 embedding_configs). generalize (skipn 2 embedding_configs). intros rest.
  assert (E : embed_dataset P scale (CBuff 0 :: CUncompressed default_capacity :: rest) data [] =
    match embedding_config scale (CBuff 0) with
    | None => embed_dataset P scale (CUncompressed default_capacity :: rest) data []
    | Some c => do rs <- embed_runs P 10 c data ; embed_dataset P scale (CUncompressed default_capacity :: rest) data (put scheme_eqb (config_scheme c) (c, rs) [])
    end) by reflexivity.
  rewrite E. destruct (embedding_config scale (CBuff 0)) as [c|]; [|apply U].
  destruct (embed_runs P 10 c data) as [rs| |]; cbn [rbind]; [|discriminate|discriminate]. apply U.
Qed.
Lemma short_example : exists P c data, good_platform P /\ In c (tried 1) /\ data <> [] /\ Forall is_byte data /\ embed_once P c data = Panic.
Proof.
  exists ucr_platform, (CZstd 3), [1; 2; 3; 4; 5; 6; 7]. split; [exact ucr_good|]. split; [vm_compute; tauto|]. split; [discriminate|]. split; [repeat constructor|]. vm_compute. reflexivity.
Qed.
(** *** Scales of ten and more places *)
Lemma wide_scale : exists P k xs r, good_platform P /\ k <= 12 /\ record_file (bytes_of xs) xs /\ xs = [to_bits (of_Z 3)] /\
  In (CDeltaSprintz default_capacity (10 ^ k)) (tried k) /\ file_fits P (CDeltaSprintz default_capacity (10 ^ k)) (bytes_of xs) /\
  embed_once P (CDeltaSprintz default_capacity (10 ^ k)) (bytes_of xs) = Ok r /\ e_output r <> firstn 5 (bytes_of xs).
Proof.
  exists ucr_platform, 10, [to_bits (of_Z 3)]. eexists. split; [exact ucr_good|]. split; [discriminate|]. split.
  { split; [discriminate|]. split; [repeat constructor|]. split; [reflexivity|]. exists []. split; [reflexivity|]. split; [cbn; lia|constructor]. }
  split; [reflexivity|]. split; [vm_compute; tauto|]. split; [vm_compute; reflexivity|]. split; [vm_compute; reflexivity|]. vm_compute. discriminate.
Qed.
(** *** Places beyond 32 bits *)
Lemma wide_places : places (2 ^ 32 + 2) (of_Z (2 ^ 32 + 2)) /\ embedding_scale (of_Z (2 ^ 32 + 2)) = Some 100.
Proof.
  split; [|vm_compute; reflexivity]. exists (to_bits (of_Z (2 ^ 32 + 2))), ((2 ^ 32 + 2) * 2 ^ 1074)%Z. split; [vm_compute; reflexivity|]. split; [vm_compute; reflexivity|]. split; [vm_compute; reflexivity|].
  left. vm_compute. reflexivity.
Qed.
Lemma special_places capacity :
  (forall c, In c [CBuff 0; CDeltaSprintz capacity 0] -> embedding_config (embedding_scale (S754_infinity false)) c = None) /\
  (forall v, In v [S754_infinity true; S754_nan] -> embedding_config (embedding_scale v) (CBuff 0) = Some (CBuff 1) /\
     embedding_config (embedding_scale v) (CDeltaSprintz capacity 0) = Some (CDeltaSprintz capacity 1)).
Proof.
  split.
  - intros c [<-|[<-|[]]]; vm_compute; reflexivity.
  - intros v [<-|[<-|[]]]; split; vm_compute; reflexivity.
Qed.
Lemma unlisted P precisions files d data :
  In (d, data) files -> get String.eqb d precisions = None -> forall t, embedding P precisions files [] <> Ok t.
Proof.
  intros I G. generalize (@nil (string * list (scheme * (config * list embedding_run)))). induction files as [|[d' data'] files IH]; [destruct I|].
  intros acc t. cbn [embedding]. destruct I as [E|I].
  - injection E as -> ->. rewrite G. discriminate.
  - destruct (get String.eqb d' precisions); [|discriminate]. destruct (embed_dataset _ _ _ _ _); [|discriminate|discriminate]. cbn [rbind]. now apply IH.
Qed.

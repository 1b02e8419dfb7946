(** C81 and C82: tables of results by scheme and the embedding experiment.  Each
    theorem is proved in ReportProofs.v or ReportSummary.v; the vocabulary is in
    ReportSpec.v. *)
From Coq Require Import String.
From Verif Require Import Base Xor F64 Format FormatSpec File FileSpec Codecs CodecSpec Query Sprintz SprintzSpec Buff BuffSpec Expr Tpch TpchSpec Harness Ucr UcrSummary Report ReportSpec ReportProofs ReportSummary.
Local Open Scope N_scope.

(** ** C81: the results by scheme are those of the data sets *)
Theorem C81_by_scheme :
  forall a, table a ->
  NoDup (map fst (transpose a)) /\
  (forall s, In s (map fst (transpose a)) <-> exists d i, entry a d s i) /\
  forall s m, In (s, m) (transpose a) -> NoDup (map fst m) /\ forall d i, In (d, i) m <-> entry a d s i.
Proof. exact transposed. Qed.
Print Assumptions C81_by_scheme.
(** A figure by scheme is that of exactly the results of the scheme, each once. *)
Theorem C81_aggregate :
  forall A (f : list inner -> A) a, table a ->
  NoDup (map fst (aggregate f a)) /\
  (forall s, In s (map fst (aggregate f a)) <-> exists d i, entry a d s i) /\
  forall s v, In (s, v) (aggregate f a) -> exists m, NoDup (map fst m) /\ (forall d i, In (d, i) m <-> entry a d s i) /\ v = f (map snd m).
Proof. exact @aggregated. Qed.
Print Assumptions C81_aggregate.
Example C81_example : table two_tables /\ entry two_tables "b" SRle (counted 3) /\ (forall i, ~ entry two_tables "b" SAlp i) /\
  transpose two_tables = [(SRle, [("a"%string, counted 1); ("b"%string, counted 3)]); (SAlp, [("a"%string, counted 2)])].
Proof. exact two_tables_ok. Qed.

(** ** C82: the embedding experiment reports the sizes and the output of every scheme *)
(** One run, any configuration. *)
Theorem C82_run_partial :
  forall P, good_platform P -> forall c, valid_config c -> forall data xs, record_file data xs -> file_fits P c data -> embeds P c xs ->
  exists r, embed_once P c data = Ok r /\ right_report P c data xs r.
Proof. exact run_right. Qed.
Print Assumptions C82_run_partial.
(** The command: for every data set the schemes in order, each with ten right reports;
    with more than 12 decimal places all but BUFF and DeltaSprintz.  Missing: records
    that a scheme does not keep (see C02, C30, C51, C61) and the cases below. *)
Theorem C82_command_partial :
  forall P precisions files, good_platform P -> NoDup (map fst files) ->
  (forall d data, In (d, data) files -> exists v k xs, get String.eqb d precisions = Some v /\ k < 2 ^ 32 /\ places k v /\ record_file data xs /\
    Forall (fun c => embeds P c xs /\ file_fits P c data) (tried k)) ->
  exists t, embedding P precisions files [] = Ok t /\
    Forall2 (fun (f : string * list N) x => fst x = fst f /\ forall v k xs, get String.eqb (fst f) precisions = Some v -> k < 2 ^ 32 -> places k v -> record_file (snd f) xs ->
      Forall (fun c => embeds P c xs /\ file_fits P c (snd f)) (tried k) ->
      map (fun y => fst (snd y)) (snd x) = tried k /\ Forall (right_reports P (snd f) xs) (snd x)) files t.
Proof. exact command_right. Qed.
Print Assumptions C82_command_partial.
(** 0.5, -1.3 and three bytes more, one decimal place. *)
Example C82_example : good_platform ucr_platform /\ record_file embedding_data embedding_values /\ length (tried 1) = 13%nat /\ length (tried 13) = 11%nat /\
  get String.eqb "set"%string embedding_precisions = Some (of_Z 1) /\ places 1 (of_Z 1) /\
  Forall (fun c => embeds ucr_platform c embedding_values /\ file_fits ucr_platform c embedding_data) (tried 1).
Proof. exact embedding_sample. Qed.
(** A file with less than one record ends the experiment, whatever the scheme. *)
Theorem C82_short_refuted :
  forall P precision data t, good_platform P -> data <> [] -> (length data < 8)%nat -> Forall is_byte data ->
  embed_dataset P (embedding_scale precision) embedding_configs data [] <> Ok t.
Proof. exact short_data_set. Qed.
Print Assumptions C82_short_refuted.
Example C82_short_example : exists P c data, good_platform P /\ In c (tried 1) /\ data <> [] /\ Forall is_byte data /\ embed_once P c data = Panic.
Proof. exact short_example. Qed.
(** With 10 to 12 decimal places DeltaSprintz is tried and gives other values. *)
Theorem C82_scale_refuted :
  exists P k xs r, good_platform P /\ k <= 12 /\ record_file (bytes_of xs) xs /\ xs = [to_bits (of_Z 3)] /\
  In (CDeltaSprintz default_capacity (10 ^ k)) (tried k) /\ file_fits P (CDeltaSprintz default_capacity (10 ^ k)) (bytes_of xs) /\
  embed_once P (CDeltaSprintz default_capacity (10 ^ k)) (bytes_of xs) = Ok r /\ e_output r <> firstn 5 (bytes_of xs).
Proof. exact wide_scale. Qed.
Print Assumptions C82_scale_refuted.
(** The number of places is cut to 32 bits. *)
Theorem C82_places_refuted : places (2 ^ 32 + 2) (of_Z (2 ^ 32 + 2)) /\ embedding_scale (of_Z (2 ^ 32 + 2)) = Some 100.
Proof. exact wide_places. Qed.
Print Assumptions C82_places_refuted.
(** What is not a number of places: an infinite one passes BUFF and DeltaSprintz over;
    minus infinity and NaN count as none, so that they round to integers. *)
Theorem C82_special_places_partial : forall capacity,
  (forall c, In c [CBuff 0; CDeltaSprintz capacity 0] -> embedding_config (embedding_scale (S754_infinity false)) c = None) /\
  (forall v, In v [S754_infinity true; S754_nan] -> embedding_config (embedding_scale v) (CBuff 0) = Some (CBuff 1) /\
     embedding_config (embedding_scale v) (CDeltaSprintz capacity 0) = Some (CDeltaSprintz capacity 1)).
Proof. exact special_places. Qed.
Print Assumptions C82_special_places_partial.
(** One data set whose number of places is not listed: nothing is reported, of the others
    neither. *)
Theorem C82_unlisted_refuted : forall P precisions files d data,
  In (d, data) files -> get String.eqb d precisions = None -> forall t, embedding P precisions files [] <> Ok t.
Proof. exact unlisted. Qed.
Print Assumptions C82_unlisted_refuted.
Example C82_unlisted_example : get String.eqb "other"%string embedding_precisions = None.
Proof. reflexivity. Qed.

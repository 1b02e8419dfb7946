(** Specification vocabulary for encoding and reading whole files. *)
From Verif Require Import Base Xor Format FormatSpec File.

(** The input as bytes, and the bytes of a list of records. *)
Definition delivered (input : list event) : list N :=
  concat (map (fun e => match e with Data bs => bs | _ => [] end) input).
Definition bytes_of (xs : list N) : list N := flat_map (le_bytes 8) xs.

(** A reader that never fails: every read returns at least one byte until the
    end.  [patient] readers may also be interrupted. *)
Definition steady (input : list event) : Prop :=
  Forall (fun e => exists bs, e = Data bs /\ bs <> []) input.
Definition patient (input : list event) : Prop :=
  Forall (fun e => e = Interrupted \/ exists bs, e = Data bs /\ bs <> []) input.

(** A reader the encoder copes with: with the option [Full] it may be interrupted. *)
Definition readable (o : chunk_option) (input : list event) : Prop :=
  match o with Full => patient input | _ => steady input end.

(** How many records go into one chunk ([None]: all of them). *)
Definition records_per_chunk (o : chunk_option) : option N :=
  match o with
  | Full => None
  | RecordCount n => Some n
  | ByteSizeBestEffort b => Some (best_effort_records b)
  end.

(** A usable chunk option: at least one record, and a buffer that can exist. *)
Definition usable (o : chunk_option) : Prop :=
  match records_per_chunk o with None => True | Some k => 0 < k /\ 8 * k < 2 ^ 63 end.

(** [parts] cuts [xs], in order and without loss, into non-empty chunks that are
    all full except possibly the last one. *)
Definition partition (limit : option N) (xs : list N) (parts : list (list N)) : Prop :=
  concat parts = xs /\ Forall (fun p => p <> []) parts /\
  match limit with
  | None => (length parts <= 1)%nat
  | Some k => forall i p, nth_error parts i = Some p ->
      N.of_nat (length p) <= k /\ ((S i < length parts)%nat -> N.of_nat (length p) = k)
  end.

(** A scheme is usable on the chunks [good]: whatever its compressor did before,
    compressing such a chunk yields bytes that depend on the chunk only
    ([image]), and reading those bytes gives [view] of the chunk. *)
Definition codec_ok (cd : codec) (good : list N -> Prop) (image view : list N -> list N) : Prop :=
  forall s xs, xs <> [] -> Forall is_u64 xs -> N.of_nat (length xs) < 2 ^ 60 -> good xs ->
  exists s', cd_compress cd (cd_reset cd s) xs = Ok s' /\
    cd_total_in cd s' = 8 * N.of_nat (length xs) /\
    cd_total_in cd (cd_prepare cd s') = 8 * N.of_nat (length xs) /\
    cd_buffers cd (cd_prepare cd s') = image xs /\
    cd_decode cd (N.of_nat (length xs)) (image xs) = Ok (view xs).

(** The chunk index of a file: where each chunk starts, in bytes and records. *)
Fixpoint index_of (image : list N -> list N) (physical logical : N) (parts : list (list N)) : list chunk_footer :=
  match parts with
  | [] => []
  | p :: rest =>
      mkCf physical logical ::
      index_of image (physical + N.of_nat (length (image p))) (logical + N.of_nat (length p)) rest
  end.

(** The file that holds the chunks [parts]. *)
Section Layout.
  Variable image : list N -> list N.
  Variable c : config.
  Variable o : chunk_option.
  Variable timer : times.
  Variable elapsed : N.
  Variable parts : list (list N).
  Definition layout_body : list N := concat (map image parts).
  Definition layout_header : header :=
    mkHeader magic (config_scheme c) o (30 + N.of_nat (length layout_body)) version.
  Definition layout_footer : footer :=
    mkFooter (N.of_nat (length (concat parts))) (N.of_nat (length parts))
      (index_of image 30 0 parts) c elapsed timer 0.
  Definition layout : list N := header_bytes layout_header ++ layout_body ++ footer_bytes layout_footer.
End Layout.

(** What a crash (or a failing output) can leave of a sequence of operations:
    the operations up to some point, the last write possibly torn. *)
Inductive cut : list wop -> list wop -> Prop :=
| cut_here os : cut os []
| cut_torn a b os : cut (WWrite (a ++ b) :: os) [WWrite a]
| cut_later op os os' : cut os os' -> cut (op :: os) (op :: os').

(** Configuration, option and measured times that fit their fields. *)
Definition valid_run (c : config) (o : chunk_option) (timer : times) (elapsed : N) : Prop :=
  valid_config c /\ valid_option o /\ valid_times timer /\ elapsed < 2 ^ 128.

(** The eight bytes of the header that hold the footer offset. *)
Definition offset_slot (file : list N) : N := le_val (firstn 8 (skipn 16 file)).

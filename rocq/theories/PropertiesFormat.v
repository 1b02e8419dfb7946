(** Property theorems for the file format (C18, C19, C50, C51, C53). *)
From Verif Require Import Base Xor Format FormatSpec FormatProofs FormatSummary.

(** C18: a header is the 30 bytes given here, and reading them back (whatever
    follows) gives the header. *)
Theorem C18_header_round_trip : forall h rest, valid_header h ->
  header_bytes h = h_magic h ++ [0; scheme_code (h_scheme h); fst (chunk_option_fields (h_option h)); 0] ++
    le_bytes 8 (snd (chunk_option_fields (h_option h))) ++ le_bytes 8 (h_footer_offset h) ++
    flat_map (le_bytes 2) (h_version h) /\
  length (header_bytes h) = 30%nat /\
  fetch_header (header_bytes h ++ rest) = Ok h.
Proof. exact header_facts. Qed.
Print Assumptions C18_header_round_trip.

(** The three code bytes decide whether 30 bytes are a header. *)
Theorem C18_header_rejection : forall bs rest, length bs = 30%nat ->
  (exists h, fetch_header (bs ++ rest) = Ok h) <->
  (nth 4 bs 0 = 0 /\ nth 5 bs 0 <= 12 /\ nth 6 bs 0 <= 2).
Proof. exact header_rejects. Qed.
Print Assumptions C18_header_rejection.

(** Every outcome of reading a header: the fields come from their places in the
    file, a short file is an IO error, an unknown code a conversion error. *)
Theorem C18_header_outcomes : forall file,
  match fetch_header file with
  | Ok h => (30 <= length file)%nat /\ scheme_code (h_scheme h) = nth 5 file 0 /\
            fst (chunk_option_fields (h_option h)) = nth 6 file 0 /\
            h_footer_offset h = word_at 8 16 file
  | Err EIO => (length file < 30)%nat
  | Err EConversion => (30 <= length file)%nat /\ (nth 4 file 0 <> 0 \/ 12 < nth 5 file 0 \/ 2 < nth 6 file 0)
  | _ => False
  end.
Proof. exact fetch_header_total. Qed.
Print Assumptions C18_header_outcomes.

Definition header_sample := mkHeader magic SElfOnChimp (ByteSizeBestEffort (two64 - 1)) 0x123456789abcdef0 version.
Example C18_example :
  valid_header header_sample /\
  fetch_header (header_bytes header_sample) = Ok header_sample /\
  fetch_header (set_nth 5 13 (header_bytes header_sample)) = Err EConversion /\
  fetch_header (set_nth 6 3 (header_bytes header_sample)) = Err EConversion /\
  fetch_header (set_nth 4 1 (header_bytes header_sample)) = Err EConversion /\
  fetch_header (firstn 29 (header_bytes header_sample)) = Err EIO.
Proof.
  split; [|vm_compute; repeat split].
  split; [reflexivity|]. split; [repeat constructor; vm_compute; reflexivity|].
  split; [vm_compute; reflexivity|]. split; [vm_compute; reflexivity|].
  split; [reflexivity|]. repeat constructor; vm_compute; reflexivity.
Qed.

(** C19: a footer with at least one chunk reads back as itself, and its size is
    the reported one. *)
Theorem C19_footer_round_trip : forall dbg f rest, valid_footer f -> f_index f <> [] ->
  N.of_nat (length (footer_bytes f)) = footer_size f /\
  fetch_footer dbg (config_scheme (f_config f)) (footer_bytes f ++ rest) = Ok f.
Proof. exact footer_facts. Qed.
Print Assumptions C19_footer_round_trip.

(** Any configuration of any scheme reads back as itself, from as many bytes as
    its size byte says. *)
Theorem C19_config_round_trip : forall c, valid_config c ->
  config_bytes c = N.of_nat (length (config_body c)) :: config_body c /\
  N.of_nat (length (config_bytes c)) = config_serialized_size c /\
  parse_config (config_scheme c) (config_body c) = Ok c.
Proof. exact config_facts. Qed.
Print Assumptions C19_config_round_trip.

Definition footer_sample :=
  mkFooter 1000 3 [mkCf 30 0; mkCf 5000 600; mkCf 7000 900] (CDeltaSprintz 8192 100)
    (2 ^ 100) [1; 2; 3; 4; 5; 6; 7; 8; duration_limit - 1] 0.
Example C19_example :
  valid_footer footer_sample /\ f_index footer_sample <> [] /\
  fetch_footer true SDeltaSprintz (footer_bytes footer_sample) = Ok footer_sample /\
  valid_config (CZstd (-7)) /\ config_bytes (CZstd (-7)) = [4; 249; 255; 255; 255].
Proof.
  split; [|split; [discriminate|split; [vm_compute; reflexivity|split; [cbn; lia|vm_compute; reflexivity]]]].
  split; [vm_compute; reflexivity|]. split; [reflexivity|]. split; [vm_compute; reflexivity|].
  split; [repeat constructor; vm_compute; reflexivity|].
  split; [split; vm_compute; reflexivity|]. split; [vm_compute; reflexivity|].
  split; [|vm_compute; reflexivity].
  split; [reflexivity|]. repeat constructor; vm_compute; reflexivity.
Qed.

(** A footer without chunks (the case C19 excludes) makes the reader panic. *)
Theorem C19_no_chunks_refuted : forall dbg f rest, valid_footer f -> f_index f = [] ->
  fetch_footer dbg (config_scheme (f_config f)) (footer_bytes f ++ rest) = Panic.
Proof. exact no_chunks_panics. Qed.
Print Assumptions C19_no_chunks_refuted.

(** C50: times survive the footer. *)
Theorem C50_times_round_trip : forall t rest, valid_times t ->
  length (times_bytes t) = 144%nat /\ parse_times (times_bytes t ++ rest) = t.
Proof. exact times_facts. Qed.
Print Assumptions C50_times_round_trip.

(** Accumulating is component-wise addition, which panics exactly on overflow. *)
Theorem C50_times_add : forall a b, length a = length b ->
  match times_add a b with
  | Ok r => length r = length a /\ (forall i, nth i r 0 = nth i a 0 + nth i b 0) /\
      Forall (fun d => d < duration_limit) r
  | Err _ => False
  | Panic => exists i, duration_limit <= nth i a 0 + nth i b 0
  end.
Proof. exact times_add_ok. Qed.
Print Assumptions C50_times_add.

(** It is commutative and associative, panics included, and a fresh record is
    neutral. *)
Theorem C50_times_add_algebra : forall a b c, valid_times a -> valid_times b -> valid_times c ->
  times_add a b = times_add b a /\
  (do x <- times_add a b ; times_add x c) = (do y <- times_add b c ; times_add a y) /\
  times_add times_new a = Ok a.
Proof. exact times_algebra. Qed.
Print Assumptions C50_times_add_algebra.

(** A measurement changes its own segment only. *)
Theorem C50_measurement : forall t k d, valid_times t ->
  match times_add_at t k d with
  | Ok t' => valid_times t' /\ time_of t' k = time_of t k + d /\
      (forall j, j <> k -> time_of t' j = time_of t j)
  | Err _ => False
  | Panic => duration_limit <= time_of t k + d
  end.
Proof. exact times_add_at_spec. Qed.
Print Assumptions C50_measurement.

Example C50_example :
  let t := [1; 2; 3; 4; 5; 6; 7; 8; 9] in
  valid_times t /\ times_add_at t BitPacking 100 = Ok [1; 2; 3; 4; 5; 106; 7; 8; 9] /\
  times_add t t = Ok [2; 4; 6; 8; 10; 12; 14; 16; 18] /\
  times_add_at t Sum (duration_limit - 8) = Panic.
Proof.
  split; [split; [reflexivity|repeat constructor; vm_compute; reflexivity]|vm_compute; repeat split].
Qed.

(** C51: what opening arbitrary bytes can do.  A file is opened only if the
    header is accepted and the footer it points to lies inside the file; errors
    are IO or conversion errors; a panic needs an accepted header pointing at a
    footer with no chunks, at least 2^59 chunks, or too few configuration
    bytes. *)
Theorem C51_open_outcomes : forall dbg file,
  match open_file dbg file with
  | Ok m =>
      let tail := drop_n (h_footer_offset (m_header m)) file in
      let n := word_at 8 8 tail in
      fetch_header file = Ok (m_header m) /\
      f_records (m_footer m) = word_at 8 0 tail /\ f_chunks (m_footer m) = n /\
      N.of_nat (length (f_index (m_footer m))) = n /\
      0 < n < 2 ^ 59 /\
      config_length (h_scheme (m_header m)) <= word_at 1 (16 + 16 * n) tail /\
      16 + 16 * n + 1 + word_at 1 (16 + 16 * n) tail + 164 <= N.of_nat (length tail)
  | Err EIO => True
  | Err EConversion => True
  | Err _ => False
  | Panic =>
      exists h, fetch_header file = Ok h /\
      let tail := drop_n (h_footer_offset h) file in
      let n := word_at 8 8 tail in
      16 <= N.of_nat (length tail) /\
      (n = 0 \/ 2 ^ 59 <= n \/
       (16 + 16 * n + 1 + word_at 1 (16 + 16 * n) tail <= N.of_nat (length tail) /\
        word_at 1 (16 + 16 * n) tail < config_length (h_scheme h)))
  end.
Proof. exact open_file_cases. Qed.
Print Assumptions C51_open_outcomes.

(** All four outcomes occur. *)
Definition file_of (h : header) (body : list N) (f : footer) : list N := header_bytes h ++ body ++ footer_bytes f.
Example C51_example :
  let h := mkHeader magic SUncompressed Full 30 version in
  let f := mkFooter 0 1 [mkCf 30 0] (CUncompressed 8192) 0 (repeat 0 9) 0 in
  open_file true (file_of h [] f) = Ok (mkMeta h f) /\
  open_file true (firstn 200 (file_of h [] f)) = Err EIO /\
  open_file true (set_nth 5 200 (file_of h [] f)) = Err EConversion /\
  open_file true (set_nth 38 0 (file_of h [] f)) = Panic /\
  open_file true (set_nth 45 255 (file_of h [] f)) = Panic /\
  open_file true (set_nth 62 7 (file_of h [] f)) = Panic.
Proof. vm_compute. repeat split. Qed.

(** C53 is false: the magic number is not looked at, so a file of another kind
    with plausible code bytes is read as a file of this one. *)
Theorem C53_magic_refuted : forall s o off v g rest,
  length g = 4%nat -> Forall is_byte g -> valid_header (mkHeader magic s o off v) ->
  exists h, fetch_header (g ++ skipn 4 (header_bytes (mkHeader magic s o off v)) ++ rest) = Ok h /\
    h_scheme h = s /\ h_option h = o /\ h_footer_offset h = off.
Proof. exact magic_ignored. Qed.
Print Assumptions C53_magic_refuted.

Example C53_example :
  let h := mkHeader magic SUncompressed Full 30 version in
  let f := mkFooter 0 1 [mkCf 30 0] (CUncompressed 8192) 0 (repeat 0 9) 0 in
  exists m, open_file true ([137; 80; 78; 71] ++ skipn 4 (file_of h [] f)) = Ok m /\ m_footer m = f.
Proof. eexists. vm_compute. split; reflexivity. Qed.

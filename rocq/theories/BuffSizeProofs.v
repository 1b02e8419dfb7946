(** Sizes of files encoded with BUFF. *)
From Verif Require Import Base WordProofs Xor Format FormatSpec File FileSpec FileSummary Codecs CodecSpec Readers Query QuerySpec QuerySummary Buff BuffCodec BuffSpec BuffSummary BuffFileSummary.
Local Open Scope N_scope.

Lemma buff_sizes dbg lg scale f o timer elapsed input xs :
  buff_encodable dbg lg scale f o timer elapsed input xs -> xs <> [] ->
  exists ops, encode dbg (buff_codec dbg lg scale) o (CBuff scale) timer elapsed input = (ops, Ok tt) /\
  (N.of_nat (length (written [] ops)) < 2 ^ 63 ->
  exists m sizes, open_file dbg (written [] ops) = Ok m /\
    total_file_size m = N.of_nat (length (written [] ops)) /\
    map (chunk_size dbg m) (seq 0 (N.to_nat (f_chunks (m_footer m)))) = map Ok sizes /\
    total_chunk_size dbg m = Ok (fold_right N.add 0 sizes) /\
    total_file_size m = 30 + fold_right N.add 0 sizes + footer_size (m_footer m) /\
    f_records (m_footer m) = N.of_nat (length xs) /\ f_config (m_footer m) = CBuff scale).
Proof.
  intros EC NE. pose proof (encodable_parts _ _ _ _ _ _ _ _ _ EC) as GD. destruct EC as (DG & US & RD & (tail & DL & TL & TB) & XU & XL & VR & XR & SP).
  destruct (whole_file dbg (buff_codec dbg lg scale) o (CBuff scale) timer elapsed _ _ _ input xs tail (buff_ok dbg lg scale f DG) US RD DL TL TB XU
    ltac:(change (2 ^ 60) with 1152921504606846976; change (2 ^ 32) with 4294967296 in XL; lia) GD VR NE) as (ops & parts & P & EN & W).
  exists ops. split; [exact EN|]. intros L. set (image := buff_image dbg lg scale) in *. destruct (W [] L) as (m & OP & MH & MF & CG & CH & _ & TF & TC).
  assert (SUM : fold_right N.add 0 (map (fun p => N.of_nat (length (image p))) parts) = N.of_nat (length (concat (map image parts)))).
  { clear. induction parts as [|p parts IH]; [reflexivity|]. cbn [map concat fold_right]. rewrite IH, app_length. lia. }
  exists m, (map (fun p => N.of_nat (length (image p))) parts).
  split; [exact OP|]. split; [apply TF; cbn [length]; lia|]. split; [|split; [|split; [|split]]].
  - rewrite MF. cbn [layout_footer f_chunks]. rewrite Nat2N.id, map_map. apply map_nth_seq. intros i part E. now destruct (CH i part E) as (_&B&_).
  - rewrite SUM. exact TC.
  - rewrite SUM. unfold total_file_size. rewrite MH. cbn [layout_header h_footer_offset]. reflexivity.
  - rewrite MF. cbn [layout_footer f_records]. now rewrite (proj1 P).
  - rewrite MF. reflexivity.
Qed.

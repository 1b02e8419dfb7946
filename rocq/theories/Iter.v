(** Model of the record iterators of a chunk, one call of [next] at a time:
    ebi/src/decoder/chunk_reader/{general_xor,chimp_n,uncompressed,run_length,sprintz}.rs. *)
From Verif Require Import Base BitIO Xor F64 Rle Sprintz.

(** What a call of [next] returns: [Some(Ok(x))], [Some(Err(_))], [None], or it
    panics. *)
Inductive item := Value (x : N) | Failed | Finished | Panicked.

(** ** XOR schemes *)
Section Xor.
  Variable D : Type.
  Variable d_init : D.
  Variable d_next : D -> breader -> drd (option N * D).
  (** chunk_reader/general_xor.rs:101-106; chimp_n.rs:92-96. *)
  Record xiter := mkXI { xi_d : D; xi_r : breader; xi_n : N }.
  (** chunk_reader/general_xor.rs:108-116 [new] on the reader of 34-53, and 66-71
      [decompress_iter]; chimp_n.rs:98-105. *)
  Definition xi_start (bytes : list N) (records : N) : xiter := mkXI d_init (r_new bytes) records.
  (** chunk_reader/general_xor.rs:127-133; chimp_n.rs:116-122.  After an error or a
      panic the decoder is taken to be as before; the code may have stored a window. *)
  Definition xi_next (s : xiter) : item * xiter :=
    match d_next (xi_d s) (xi_r s) with
    | DOk (Some v, d) r => (Value v, mkXI d r (xi_n s))
    | DOk (None, d) r => (Finished, mkXI d r (xi_n s))
    | DErr r => (Failed, mkXI (xi_d s) r (xi_n s))
    | DPanic => (Panicked, s)
    end.
  (** chunk_reader/general_xor.rs:118-122 [len] and 135-137 [size_hint];
      chimp_n.rs:107-111, 124-126. *)
  Definition xi_len (s : xiter) : N := xi_n s.
End Xor.
Arguments mkXI {D}.
Arguments xi_d {D}.
Arguments xi_r {D}.
Arguments xi_n {D}.
Arguments xi_start {D}.
Arguments xi_next {D}.
Arguments xi_len {D}.

(** ** Uncompressed *)
(** chunk_reader/uncompressed.rs:95-104. *)
Record uiter := mkUI { ui_count : N; ui_records : N; ui_cursor : list N }.
Definition ui_start (records : N) (bytes : list N) : uiter := mkUI 0 records bytes.
(** chunk_reader/uncompressed.rs:109-123.  A failed [read_exact] leaves the cursor at
    its end. *)
Definition ui_next (s : uiter) : item * uiter :=
  if ui_records s <=? ui_count s then (Finished, s)
  else match take_exact 8 (ui_cursor s) with
       | Ok (buf, rest) => (Value (le_val buf), mkUI (ui_count s + 1) (ui_records s) rest)
       | _ => (Failed, mkUI (ui_count s) (ui_records s) [])
       end.

(** ** Run-length *)
(** chunk_reader/run_length.rs:116-132. *)
Record riter := mkRI { ri_field : N; ri_run : N; ri_value : N; ri_fields : N; ri_cursor : list N }.
Definition ri_start (r : rlreader) : riter := mkRI 0 0 0 (rr_fields r) (rr_cursor r).
(** chunk_reader/run_length.rs:153-155: one copy of the current value. *)
Definition ri_take (dbg : bool) (s : riter) : item * riter :=
  if ri_run s =? 0 then
    if dbg then (Panicked, s)
    else (Value (ri_value s), mkRI (ri_field s) 255 (ri_value s) (ri_fields s) (ri_cursor s))
  else (Value (ri_value s), mkRI (ri_field s) (ri_run s - 1) (ri_value s) (ri_fields s) (ri_cursor s)).
(** chunk_reader/run_length.rs:137-156.  [current_field] is not bounded here: it would
    overflow after 2^64 calls. *)
Definition ri_next (dbg : bool) (s : riter) : item * riter :=
  if ri_run s =? 0 then
    let field := ri_field s + 1 in
    if ri_fields s <? field then (Finished, mkRI field 0 (ri_value s) (ri_fields s) (ri_cursor s))
    else match take_exact 9 (ri_cursor s) with
         | Ok (buf, rest) => ri_take dbg (mkRI field (nth 0 buf 0) (le_val (skipn 1 buf)) (ri_fields s) rest)
         | _ => (Failed, mkRI field 0 (ri_value s) (ri_fields s) [])
         end
  else ri_take dbg s.

(** ** DeltaSprintz *)
(** chunk_reader/sprintz.rs:448-455. *)
Record siter := mkSI { si_r : breader; si_prev : Z; si_scale : N; si_bits : N; si_records : N; si_index : N }.
(** chunk_reader/sprintz.rs:457-477 [new]. *)
Definition si_start (r : breader) (records : N) : res derr siter :=
  match sp_header r with
  | (Ok (initial, scale, bits), r) => Ok (mkSI r initial scale bits records 0)
  | (Err e, _) => Err e
  | (Panic, _) => Panic
  end.
(** chunk_reader/sprintz.rs:480-506 [next]. *)
Definition si_next (dbg : bool) (s : siter) : item * siter :=
  if si_records s <=? si_index s then
    if dbg && negb (si_index s =? si_records s) then (Panicked, s) else (Finished, s)
  else
    let index := si_index s + 1 in
    if si_bits s =? 0 then
      (Value (to_bits (unquantize (si_scale s) (si_prev s))), mkSI (si_r s) (si_prev s) (si_scale s) (si_bits s) (si_records s) index)
    else
      match read_bits (si_r s) (si_bits s) with
      | Got delta r =>
          match add_i64 dbg (unzigzag delta) (si_prev s) with
          | Ok q => (Value (to_bits (unquantize (si_scale s) q)), mkSI r q (si_scale s) (si_bits s) (si_records s) index)
          | _ => (Panicked, mkSI r (si_prev s) (si_scale s) (si_bits s) (si_records s) index)
          end
      | End_ r => (Failed, mkSI r (si_prev s) (si_scale s) (si_bits s) (si_records s) index)
      | RPanic => (Panicked, mkSI (si_r s) (si_prev s) (si_scale s) (si_bits s) (si_records s) index)
      end.

(** Model of the machinery shared by the XOR codecs:
    ebi/src/compressor/general_xor.rs and
    ebi/src/decoder/chunk_reader/general_xor.rs. *)
From Verif Require Import Base BitIO.

(** decoder/error.rs:7-21, without payloads; [OutOfFuel] exists only in the model
    and is proved unreachable. *)
Inductive derr := EIO | EConversion | EUnexpectedEndOfChunk | EPreconditionsNotMet | EOutOfFuel.

(** [f64::NAN.to_bits()]: the end marker of every XOR codec. *)
Definition nan_bits : N := 0x7ff8000000000000.

(** Result of one decoder call: a value, [Err(UnexpectedEndOfChunk)], or a panic;
    the bit reader is returned because the caller keeps it. *)
Inductive drd (A : Type) : Type := DOk (a : A) (r : breader) | DErr (r : breader) | DPanic.
Arguments DOk {A} a r.
Arguments DErr {A} r.
Arguments DPanic {A}.

(** [r.read_..(..).ok_or(DecoderError::UnexpectedEndOfChunk)?] *)
Notation "'rdo' x , r <- e ; f" :=
  (match e with Got x r => f | End_ r => DErr r | RPanic => DPanic end)
  (at level 60, x name, r name, e at level 200, f at level 200, right associativity).

(** Propagating [?] from a decoder sub-call. *)
Definition dbind {A B} (e : drd A) (f : A -> breader -> drd B) : drd B :=
  match e with DOk a r => f a r | DErr r => DErr r | DPanic => DPanic end.

(** u8 / u32 subtraction, release build (wraps). *)
Definition wsub8 (a b : N) : N := (a + 256 - b mod 256) mod 256.

(** [x << n] on u64 for an arbitrary amount, release build (amount masked). *)
Definition shl64m (x n : N) : N := shl64 x (n mod 64).

(** ** Encoder side *)
Section Compressor.
  Variable E : Type.
  (** [T::default()] / [reset] *)
  Variable e_init : E.
  (** [XorEncoder::compress_float], [close], [simulate_close] (general_xor.rs:17-30) *)
  Variable e_step : E -> bwriter -> N -> E * bwriter.
  Variable e_close : E -> bwriter -> E * bwriter.
  Variable e_simclose : E -> N.

  (** compressor/general_xor.rs:33-38; the timer is modelled in Format.v. *)
  Record xcomp := mkXC { xw : bwriter; xe : E; xin : N }.

  (** compressor/general_xor.rs:42-55 [new] / [with_capacity]. *)
  Definition x_new : xcomp := mkXC w_new e_init 0.

  (** compressor/general_xor.rs:165-170 [reset]. *)
  Definition x_reset (c : xcomp) : xcomp := mkXC (w_reset (xw c)) e_init 0.

  (** compressor/general_xor.rs:137-139: the loop over the input. *)
  Definition x_steps (e : E) (w : bwriter) (xs : list N) : E * bwriter :=
    fold_left (fun '(e, w) x => e_step e w x) xs (e, w).

  (** compressor/general_xor.rs:132-143 [compress]. *)
  Definition x_compress (c : xcomp) (xs : list N) : xcomp :=
    let c := x_reset c in
    let '(e, w) := x_steps (xe c) (xw c) xs in
    mkXC w e (xin c + 8 * N.of_nat (length xs)).

  (** compressor/general_xor.rs:149-154 [total_bytes_buffered]. *)
  Definition x_total_bytes_buffered (c : xcomp) : N :=
    let n_bits := N.of_nat (length (wbuf (xw c))) * 8 + e_simclose (xe c) in
    (n_bits + 7) / 8.

  (** compressor/general_xor.rs:156-158 [prepare]. *)
  Definition x_prepare (c : xcomp) : xcomp :=
    let '(e, w) := e_close (xe c) (xw c) in mkXC w e (xin c).

  (** compressor/general_xor.rs:160-163 [buffers] (one non-empty buffer). *)
  Definition x_buffers (c : xcomp) : list N := wbuf (xw c).
End Compressor.
Arguments mkXC {E}.
Arguments xw {E}.
Arguments xe {E}.
Arguments xin {E}.
Arguments x_buffers {E}.

(** ** Decoder side *)
Section Reader.
  Variable D : Type.
  Variable d_init : D.
  (** [XorDecoder::decompress_float]: [Ok(Some v)], [Ok(None)], [Err], panic. *)
  Variable d_next : D -> breader -> drd (option N * D).

  (** [Iterator::collect::<Result<Vec<f64>>>] over the iterator of
      chunk_reader/general_xor.rs:124-133: stops at the first [None] or error. *)
  Fixpoint x_collect (fuel : nat) (d : D) (r : breader) : res derr (list N) * breader :=
    match fuel with
    | O => (Err EOutOfFuel, r)
    | S f =>
        match d_next d r with
        | DOk (Some v, d') r' =>
            let '(o, r'') := x_collect f d' r' in
            (match o with Ok vs => Ok (v :: vs) | Err e => Err e | Panic => Panic end, r'')
        | DOk (None, _) r' => (Ok [], r')
        | DErr r' => (Err EUnexpectedEndOfChunk, r')
        | DPanic => (Panic, r)
        end
    end.

  (** chunk_reader/general_xor.rs:26-31; chimp_n.rs:19-23 has the same fields. *)
  Record xreader := mkXR { xr : breader; xcache : option (list N) }.

  (** chunk_reader/general_xor.rs:34-53 [new], once the chunk bytes are read. *)
  Definition xr_new (bytes : list N) : xreader := mkXR (r_new bytes) None.

  (** Enough iterations for any input: every record takes at least one bit. *)
  Definition x_fuel (r : breader) : nat := S (8 * length (rbuf r)).

  (** chunk_reader.rs:353-364 [default_decompress] with
      chunk_reader/general_xor.rs:66-88. *)
  Definition x_decompress (c : xreader) : res derr (list N) * xreader :=
    match xcache c with
    | Some vs => (Ok vs, c)
    | None =>
        let '(o, r') := x_collect (x_fuel (xr c)) d_init (xr c) in
        match o with
        | Ok vs => (Ok vs, mkXR r' (Some vs))
        | _ => (o, mkXR r' None)
        end
    end.
End Reader.

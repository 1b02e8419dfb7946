(** The classification and the matrix experiments (experimenter/src/main.rs). *)
From Verif Require Import Base Xor F64 Format File Codecs Query Expr Tpch Text.
Local Open Scope N_scope.

(** compressor.rs:292-308. *)
Definition set_scale (c : config) (s : N) : config :=
  match c with CBuff _ => CBuff s | CDeltaSprintz cap _ => CDeltaSprintz cap s | c => c end.
(** main.rs:2182-2207 and 2463-2486: BUFF, and the others unless only schemes with
    controlled precision are asked for; built with their defaults. *)
Definition experiment_configs (controlled : bool) (scale : N) : list config :=
  CBuff scale ::
  if controlled then []
  else [CUncompressed default_capacity; CChimp128 default_capacity; CChimp default_capacity; CElfOnChimp default_capacity;
        CElf default_capacity; CGorilla default_capacity; CRle default_capacity; CZstd 3; CGzip 6; CSnappy; CAlp;
        CDeltaSprintz default_capacity scale].
(** [Decoder::with_precision] (api/decoder.rs:184-187). *)
Definition with_precision (d : decoder) (p : option N) : decoder := mkDec (d_ex d) (d_meta d) (d_file d) p.

Section Experiments.
  Variable P : platform.
  Let dbg := p_dbg P.

  (** ** Classification by the nearest neighbour *)

  (** Indexing [train_labels]: [usize::MAX] if there is no neighbour. *)
  Definition label_at (labels : list Z) (i : N) : option Z :=
    if i <? N.of_nat (length labels) then nth_error labels (N.to_nat i) else None.
  (** main.rs:2338-2364: the last of [n] searches decides.  Each opens the file again;
      times are not modelled.  [None]: the search does not end within [fuel] steps. *)
  Fixpoint is_correct (fuel n : nat) (d : decoder) (labels : list Z) (label : Z) (v : list N) (correct : bool) : option (res derr bool) :=
    match n with
    | O => Some (Ok correct)
    | S n =>
        match knn1 dbg fuel d v with
        | None => None
        | Some (Ok r) =>
            match label_at labels (k_index r) with
            | Some l => is_correct fuel n d labels label v (label =? l)%Z
            | None => Some Panic
            end
        | Some (Err e) => Some (Err e)
        | Some Panic => Some Panic
        end
    end.
  (** main.rs:2327-2376: the number of vectors of [test] with the right label. *)
  Fixpoint count_correct (fuel n : nat) (d : decoder) (labels : list Z) (test : list (Z * list N)) (k : N) : option (res derr N) :=
    match test with
    | [] => Some (Ok k)
    | (label, v) :: test =>
        match is_correct fuel n d labels label v false with
        | Some (Ok b) => count_correct fuel n d labels test (if b then k + 1 else k)
        | Some (Err e) => Some (Err e)
        | Some Panic => Some Panic
        | None => None
        end
    end.
  (** main.rs:2226 and 2241-2377: one data set with one configuration.  The file is
      materialized five times, which gives the same each time.  [precision] is what
      [with_precision] gets, if it is called.  Times and other reports are not
      modelled. *)
  Definition accuracy (fuel n : nat) (precision : option N) (c : config) (train test : list (Z * list N)) : option (res derr f64) :=
    match test with
    | [] => Some Panic
    | _ =>
        let opened :=
          do d <- open_column P c (concat (map snd train)) ;
          do _ <- column_statistics P d ;
          let d := with_precision d precision in
          do _ <- snd (dec_materialize dbg (d_ex d) (d_meta d) (d_file d) (d_precision d) None None) ;
          Ok d in
        match opened with
        | Ok d =>
            match count_correct fuel n d (map fst train) test 0 with
            | Some (Ok k) => Some (Ok (fdiv (of_Z (Z.of_N k)) (of_Z (Z.of_nat (length test)))))
            | Some (Err e) => Some (Err e)
            | Some Panic => Some Panic
            | None => None
            end
        | Err e => Some (Err e)
        | Panic => Some Panic
        end
    end.
  (** main.rs:2153-2175, 2210-2227, 2241-2256: a data set and its two files.  [None]:
      it cannot be loaded. *)
  Variable parse : text -> option N.
  Definition bits_of (data : list (Z * list f64)) : list (Z * list N) := map (fun x => (fst x, map to_bits (snd x))) data.
  Definition ucr_dataset (fuel n : nat) (precision : option N) (c : config) (train test : text) : res unit (option (res derr f64)) :=
    do x <- load_dataset parse dbg train train ;
    do y <- load_dataset parse dbg train test ;
    Ok (accuracy fuel n precision (set_scale c (fst x)) (bits_of (snd x)) (bits_of (snd y))).

  (** ** Matrix products *)

  (** main.rs:2440-2448, 2450-2455: random numbers in [0, 1) are mapped and rounded. *)
  Definition matrix_scale : N := 10 ^ 8.
  Definition matrix_value (x : N) : N :=
    to_bits (round_by_scale (fmul (fsub (of_bits x) (of_bits 0x3fe0000000000000)) (of_bits 0x4020000000000000)) matrix_scale).
  (** main.rs:2457-2466, 2488-2521, for one configuration: [data] and [target] are the
      random numbers, 40 matrices and one.  The assertion also fails for size 0, by a
      division by zero. *)
  Definition matrix_product (precision : N) (size : N) (c : config) (data target : list N) : res derr (list f64) :=
    let data := map matrix_value data in
    let target := map matrix_value target in
    if size * size =? 0 then Panic
    else if negb (16777216 mod (size * size) =? 0) then Panic
    else
      do d <- open_column P c data ;
      let d := with_precision d (Some precision) in
      do _ <- column_statistics P d ;
      matmul dbg d target (size, size) (size, size).
End Experiments.

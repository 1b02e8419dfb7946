(** Tables of results by scheme (experimenter/src/lib.rs:215-263) and the embedding
    experiment (experimenter/src/main.rs:2542-2709). *)
From Coq Require Import String.
From Verif Require Import Base Xor F64 Format File Codecs Query Expr Tpch Harness Ucr.
Local Open Scope N_scope.

(** ** Results by scheme *)

(** lib.rs:255-263 [aggregate_per_compression_method]; [f] gets the values of a
    [HashMap], here in the order of insertion. *)
Definition aggregate {A} (f : list inner -> A) (a : all_output) : list (scheme * A) :=
  map (fun kv => (fst kv, f (map snd (snd kv)))) (transpose a).

(** ** The embedding experiment *)

(** main.rs:2558-2573: [v.round() as u64], [as u32], [10u64.checked_pow]. *)
Definition embedding_precision (v : f64) : N :=
  match fround v with
  | S754_zero _ | S754_nan => 0
  | S754_infinity s => if s then 0 else 2 ^ 64 - 1
  | r => Z.to_N (Z.min (Z.max (ftruncZ r) 0) (2 ^ 64 - 1))
  end.
Definition embedding_scale (v : f64) : option N :=
  let e := embedding_precision v mod 2 ^ 32 in if e <=? 19 then Some (10 ^ e) else None.
(** main.rs:2575-2590. *)
Definition embedding_configs : list config := experiment_configs false 0.
(** main.rs:2608-2637: the configuration with its scale; [None]: it is passed over. *)
Definition embedding_config (scale : option N) (c : config) : option config :=
  match c with
  | CBuff _ | CDeltaSprintz _ _ =>
      match scale with
      | Some s => if 10 ^ 12 <? s then None else Some (set_scale c s)
      | None => None
      end
  | _ => Some c
  end.
(** What is reported of one run: the statistics and the first bytes of the file and of
    the output.  Times are not modelled. *)
Record embedding_run := mkRun { e_file : list N; e_statistics : statistics; e_output : list N }.

Section Embedding.
  Variable P : platform.
  Let dbg := p_dbg P.

  (** main.rs:2648-2690: encodes and decodes once.  Slicing the output with the length
      of the file (2688) panics if it is shorter. *)
  Definition embed_once (c : config) (data : list N) : res derr embedding_run :=
    let '(ops, r) := encode dbg (codec_of P c) default_chunk_option c (p_timer P) (p_elapsed P) [Data data] in
    do _ <- r ;
    let encoded := written [] ops in
    if isize_limit <=? N.of_nat (length encoded) then Panic
    else
      do m <- open_file dbg encoded ;
      let ex := executor_of P (f_config (m_footer m)) in
      do s <- column_statistics P (mkDec ex m encoded None) ;
      let '(out, r) := dec_materialize dbg ex m encoded None None None in
      do _ <- r ;
      let k := Nat.min 5 (length encoded) in
      if (length out <? k)%nat then Panic
      else Ok (mkRun (firstn k encoded) s (firstn k out)).
  Fixpoint embed_runs (n : nat) (c : config) (data : list N) : res derr (list embedding_run) :=
    match n with
    | O => Ok []
    | S n => do r <- embed_once c data ; do rest <- embed_runs n c data ; Ok (r :: rest)
    end.
  (** main.rs:2606-2703: all configurations of a data set, ten times each; the results
      are kept by scheme. *)
  Fixpoint embed_dataset (scale : option N) (cs : list config) (data : list N) (t : list (scheme * (config * list embedding_run)))
      : res derr (list (scheme * (config * list embedding_run))) :=
    match cs with
    | [] => Ok t
    | c :: rest =>
        match embedding_config scale c with
        | None => embed_dataset scale rest data t
        | Some c => do rs <- embed_runs 10 c data ; embed_dataset scale rest data (put scheme_eqb (config_scheme c) (c, rs) t)
        end
    end.
  (** main.rs:2592-2708: all data sets: the stems and contents of the .bin files.  A
      data set without precision panics. *)
  Fixpoint embedding (precisions : list (string * f64)) (files : list (string * list N)) (t : list (string * list (scheme * (config * list embedding_run))))
      : res derr (list (string * list (scheme * (config * list embedding_run)))) :=
    match files with
    | [] => Ok t
    | (d, data) :: rest =>
        match get String.eqb d precisions with
        | None => Panic
        | Some v => do x <- embed_dataset (embedding_scale v) embedding_configs data [] ; embedding precisions rest (put String.eqb d x t)
        end
    end.
End Embedding.

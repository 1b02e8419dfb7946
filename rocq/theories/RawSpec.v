(** Specification vocabulary for the run-length and raw compressors. *)
From Verif Require Import Base.

(** The records a list of runs (length, value) stands for. *)
Definition expand (fs : list (N * N)) : list N :=
  flat_map (fun f => repeat (snd f) (N.to_nat (fst f))) fs.

(** Runs as long as an 8-bit counter allows: neighbours differ unless the first
    one is full. *)
Fixpoint greedy (fs : list (N * N)) : Prop :=
  match fs with
  | f :: rest =>
      match rest with g :: _ => snd f <> snd g \/ fst f = 255 | [] => True end /\ greedy rest
  | [] => True
  end.

(** Calls on a compressor that can be appended to and rewound. *)
Inductive rop :=
| OCompress (xs : list N) | OAppend (xs : list N) | ORewind (n : N) | OPrepare | OReset.

(** What the calls should do to the records held; [open_run] tells whether the
    last call that touched the contents left them open for rewinding.  [None] is
    a panic, the boolean is the answer of [rewind]. *)
Record held := mkHeld { records : list N; open_run : bool }.

Definition held_step (s : held) (o : rop) : option (held * option bool) :=
  match o with
  | OCompress [] => None
  | OCompress xs => Some (mkHeld xs true, None)
  | OAppend xs =>
      if negb (open_run s) && (length xs =? 0)%nat then None
      else Some (mkHeld (records s ++ xs) true, None)
  | ORewind n =>
      let m := N.of_nat (length (records s)) in
      if open_run s && (n <=? m)
      then Some (mkHeld (firstn (N.to_nat (m - n)) (records s)) (n <? m), Some true)
      else Some (s, Some false)
  | OPrepare => Some (mkHeld (records s) false, None)
  | OReset => Some (mkHeld [] false, None)
  end.

Fixpoint held_run (s : held) (os : list rop) : option (held * list (option bool)) :=
  match os with
  | [] => Some (s, [])
  | o :: os' =>
      match held_step s o with
      | None => None
      | Some (s', a) =>
          match held_run s' os' with
          | None => None
          | Some (s'', l) => Some (s'', a :: l)
          end
      end
  end.

(** The same for the raw compressor: rewinding needs no open run and nothing
    panics. *)
Definition raw_step (xs : list N) (o : rop) : list N * option bool :=
  match o with
  | OCompress ys => (ys, None)
  | OAppend ys => (xs ++ ys, None)
  | ORewind n =>
      let m := N.of_nat (length xs) in
      if n <=? m then (firstn (N.to_nat (m - n)) xs, Some true) else (xs, Some false)
  | OPrepare => (xs, None)
  | OReset => ([], None)
  end.

Fixpoint raw_run (xs : list N) (os : list rop) : list N * list (option bool) :=
  match os with
  | [] => (xs, [])
  | o :: os' =>
      let '(xs', a) := raw_step xs o in
      let '(xs'', l) := raw_run xs' os' in (xs'', a :: l)
  end.

(** All values given to the calls are 64-bit patterns. *)
Definition op_u64 (o : rop) : Prop :=
  match o with OCompress xs | OAppend xs => Forall is_u64 xs | _ => True end.
Definition is_prepare (o : rop) : Prop := match o with OPrepare => True | _ => False end.

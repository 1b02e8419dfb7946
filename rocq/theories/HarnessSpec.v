(** Specification vocabulary for the experiment runner. *)
From Coq Require Import String.
From Verif Require Import Base Xor F64 Format Query QuerySpec Harness.

(** [rs] are [n] results of the call [k], measured one after another by the [from]-th to
    the [to]-th call of the program, on a file written with the configuration [c]. *)
Definition fresh (from to n : nat) (k : call) (c : config) (rs : list result) : Prop :=
  exists start, (from <= start /\ start + n <= to)%nat /\ map r_number rs = seq start n /\
    Forall (fun r => r_call r = k /\ r_config r = c) rs.
(** [new] are [times] such groups. *)
Inductive groups (from to n : nat) (k : call) (c : config) : nat -> list result -> Prop :=
| groups_none : groups from to n k c 0 []
| groups_more times rs new : groups from to n k c times rs -> fresh from to n k c new -> groups from to n k c (S times) (rs ++ new).

(** What the results of data set [d] for the scheme of [c] must be after they have been
    measured: all compressions, filters and materializations are new. *)
Definition measured (from to n : nat) (d : string) (c : config) (fs : list string) (i : inner) : Prop :=
  fresh from to n (Compress d c) c (i_compress i) /\ fresh from to n (Materialize d) c (i_materialize i) /\
  forall f, match get String.eqb f (i_filters i) with
            | Some (a, b) => In f fs /\ fresh from to n (Filter d f) c a /\ fresh from to n (FilterMaterialize d f) c b
            | None => ~ In f fs
            end.

(** The results there were before. *)
Definition results_of (out : all_output) (d : string) (k : scheme) : inner :=
  match get String.eqb d out with
  | Some os => match get scheme_eqb k os with Some i => i | None => empty_inner end
  | None => empty_inner
  end.
Definition has_results (out : all_output) (d : string) (k : scheme) : bool :=
  match get String.eqb d out with
  | Some os => match get scheme_eqb k os with Some _ => true | None => false end
  | None => false
  end.

(** A directory listing: files in one directory have different stems if they have the
    same extension. *)
Definition listing (es : list entry) : Prop := NoDup (map e_stem es) /\ Forall (fun e => e_dir e <> []) es.
(** The data set has at most one configuration for a scheme. *)
Definition one_per_scheme (cs : list (string * config)) : Prop := NoDup (map (fun nc => config_scheme (snd nc)) cs).
(** All saved files were written by the program, or torn by a crash. *)
Definition saved_by_runs (members : result -> list (string * json)) (w : world) : Prop :=
  forall d j, get String.eqb d (w_saved w) = Some j -> j = JNull \/ exists i, j = json_of_inner members i.

(** Number of records of a list that satisfy a property (given by any list of them). *)
Definition selects (p : fpred) (xs : list N) (k : nat) : Prop := exists ys, keep p xs ys /\ length ys = k.

(** The five filter files, without extension. *)
Definition filter_files : list string :=
  ["greater_10th_percentile"; "greater_50th_percentile"; "greater_90th_percentile"; "eq"; "ne"]%string.
(** A finite number. *)
Definition ordinary (x : N) : Prop := is_u64 x /\ exists z, number x = Some z /\ (Z.abs z < 2 ^ 2098)%Z.

(** ** Runs of several programs *)
Definition all_done (ps : list proc) : Prop := Forall (fun p => p_step p = Done) ps.

(** [v] is the record with [k] others below it when [xs] are in order: fewer than
    [length xs - k] records are greater than it (all but [k + 1] if no two records are
    the same number), at least as many are greater or equal. *)
Definition percentile_of (xs : list N) (v : N) (k : nat) : Prop :=
  In v xs /\
  (forall m, selects (PRange (Exclusive v) Unbounded) xs m -> m + k < length xs /\ (NoDup (map number xs) -> m + k + 1 = length xs))%nat /\
  (forall m, selects (PRange (Inclusive v) Unbounded) xs m -> length xs <= m + k)%nat.

(** Specification vocabulary for expressions, aggregations, nearest neighbours and
    matrix products. *)
From Verif Require Import Base Xor F64 Format File FileSpec Codecs Readers Query QuerySpec Expr.

(** ** Readers and files *)

(** The squared distance and the dot product of two vectors, added up from left to
    right in f64 (for vectors of different lengths, of their common prefix). *)
Definition squared_distance (neg : bool) (v w : list N) : f64 :=
  iter_sum neg (map (fun '(a, b) => fmul (fsub (of_bits a) (of_bits b)) (fsub (of_bits a) (of_bits b))) (combine v w)).
Definition dot (neg : bool) (v w : list N) : f64 :=
  iter_sum neg (map (fun '(a, b) => fmul (of_bits a) (of_bits b)) (combine v w)).

(** The answer of a chunk with the records [xs], numbered from [first]. *)
Definition reading (q : qop) : Prop :=
  match q with QMaterialize _ | QDistance _ _ | QDot _ _ => True | _ => False end.
Definition answered (neg : bool) (first : N) (xs : list N) (q : qop) (a : qres) : Prop :=
  match q with
  | QMaterialize mask =>
      mask = None \/ first + N.of_nat (length xs) < 2 ^ 32 ->
      exists ys, choose mask first xs ys /\ a = RWritten (bytes_of ys) (Ok tt)
  | QDistance offset target => a = RNumber (Ok (squared_distance neg (skipn (N.to_nat offset) xs) target))
  | QDot offset target => a = RNumber (Ok (dot neg (skipn (N.to_nat offset) xs) target))
  | _ => True
  end.
(** The reader [r] gives these answers to any sequence of such calls. *)
Definition reads (neg : bool) (ex : executor) (first : N) (r : rstate ex) (xs : list N) : Prop :=
  forall qs, Forall reading qs -> Forall2 (answered neg first xs) qs (fst (q_run ex first r qs)).

(** The file of [d] holds the chunks [parts]. *)
Definition holds (dbg neg : bool) (d : decoder) (parts : list (list N)) : Prop :=
  f_chunks (m_footer (d_meta d)) = N.of_nat (length parts) /\
  f_records (m_footer (d_meta d)) = N.of_nat (length (concat parts)) /\
  forall i part, nth_error parts i = Some part ->
    part <> [] /\ Forall is_u64 part /\
    chunk_offset (d_meta d) i = first_of parts i /\
    chunk_records dbg (d_meta d) i = Ok (N.of_nat (length part)) /\
    exists r, chunk_reader dbg (d_ex d) (d_meta d) (d_file d) (d_precision d) i = Ok r /\
      reads neg (d_ex d) (first_of parts i) r part.

(** The files of [ds] are the columns of a table, cut into the chunks [chunks] of
    rows. *)
Definition column (k : nat) (rows : list (list N)) : list N := map (fun row => nth k row 0) rows.
Definition table (dbg neg : bool) (ds : list decoder) (chunks : list (list (list N))) : Prop :=
  forall k d, nth_error ds k = Some d -> holds dbg neg d (map (column k) chunks).
(** [rs] are readers of the columns of one chunk of rows. *)
Definition opened (neg : bool) (first : N) (rows : list (list N)) (rs : list open_reader) : Prop :=
  forall k r, nth_error rs k = Some r ->
    rd_records r = N.of_nat (length rows) /\ rd_offset r = first /\ Forall is_u64 (column k rows) /\
    reads neg (rd_ex r) first (rd_state r) (column k rows).

(** ** Expressions *)

(** The value of an expression on a row. *)
Definition arith (o : op) (a b : f64) : f64 :=
  match o with Add => SFadd 53 1024 a b | Sub => SFsub 53 1024 a b | Mul => SFmul 53 1024 a b | Div => SFdiv 53 1024 a b end.
Fixpoint value (row : list N) (e : expr) : f64 :=
  match e with
  | Literal v => of_bits v
  | Index k => of_bits (nth k row 0)
  | Binary o l r => arith o (value row l) (value row r)
  end.
(** Expressions over [n] columns in which every operation has an operand that is not
    a literal. *)
Inductive formula (n : nat) : expr -> Prop :=
| formula_index k : (k < n)%nat -> formula n (Index k)
| formula_both o l r : formula n l -> formula n r -> formula n (Binary o l r)
| formula_left o v r : formula n r -> formula n (Binary o (Literal v) r)
| formula_right o l v : formula n l -> formula n (Binary o l (Literal v)).
Inductive columns_below (n : nat) : expr -> Prop :=
| below_literal v : columns_below n (Literal v)
| below_index k : (k < n)%nat -> columns_below n (Index k)
| below_binary o l r : columns_below n l -> columns_below n r -> columns_below n (Binary o l r).
Definition is_index (e : expr) : Prop := match e with Index _ => True | _ => False end.

(** ** Aggregations *)

Definition greatest_value (vs : list f64) (m : f64) : Prop :=
  (Forall (fun v => v = S754_nan) vs /\ m = S754_infinity true) \/
  (In m vs /\ m <> S754_nan /\ forall v, In v vs -> v <> S754_nan -> SFleb v m = true).
Definition least_value (vs : list f64) (m : f64) : Prop :=
  (Forall (fun v => v = S754_nan) vs /\ m = S754_infinity false) \/
  (In m vs /\ m <> S754_nan /\ forall v, In v vs -> v <> S754_nan -> SFleb m v = true).
(** The aggregate of values that come in chunks: all values; the greatest; the
    least; the sum of the sums of the chunks. *)
Definition aggregated (k : kind) (chunks : list (list f64)) (r : aggregate) : Prop :=
  match k with
  | KNone => r = Array (concat chunks)
  | KMax => exists m, r = Scalar m /\ greatest_value (concat chunks) m
  | KMin => exists m, r = Scalar m /\ least_value (concat chunks) m
  | KSum => r = Scalar (float_sum (map float_sum chunks))
  end.
(** The rows of each chunk whose record number is in the mask. *)
Inductive selected (mask : option bitmap) : N -> list (list (list N)) -> list (list (list N)) -> Prop :=
| selected_nil first : selected mask first [] []
| selected_cons first rows ys chunks yss :
    choose mask first rows ys -> selected mask (first + N.of_nat (length rows)) chunks yss ->
    selected mask first (rows :: chunks) (ys :: yss).

(** ** Vectors and matrices *)

(** [vs] are the groups of [k] records that [xs] starts with; [rest] is left. *)
Definition grouped (k : nat) (xs : list N) (vs : list (list N)) (rest : list N) : Prop :=
  xs = concat vs ++ rest /\ Forall (fun v => length v = k) vs /\ (length rest < k)%nat.
(** The index and distance of the last vector at least distance from the target.
    Vectors whose distance is NaN are never chosen; [usize::MAX] if there is no
    other. *)
Definition nearest (neg : bool) (vs : list (list N)) (target : list N) (r : knn) : Prop :=
  (Forall (fun v => squared_distance neg v target = S754_nan) vs /\ r = mkKnn (2 ^ 64 - 1) (S754_infinity false)) \/
  exists i v, nth_error vs i = Some v /\ r = mkKnn (N.of_nat i) (squared_distance neg v target) /\
    k_distance r <> S754_nan /\
    forall j w, nth_error vs j = Some w -> squared_distance neg w target <> S754_nan ->
      if (j <=? i)%nat then SFleb (k_distance r) (squared_distance neg w target) = true
      else SFltb (k_distance r) (squared_distance neg w target) = true.
(** Every chunk but the last holds a multiple of [k] records. *)
Definition aligned (k : nat) (parts : list (list N)) : Prop :=
  forall i part, nth_error parts i = Some part -> (S i < length parts)%nat -> (Nat.modulo (length part) k = 0)%nat.

(** The columns are files of schemes whose queries work on the decoded records
    (all but DeltaSprintz and BUFF). *)
Definition plain_table (dbg neg : bool) (tie : f64 -> f64 -> bool) (ds : list decoder) (chunks : list (list (list N))) : Prop :=
  forall k d, nth_error ds k = Some d ->
    (exists log10 lib c, scheme_executor dbg neg tie log10 lib c = Some (d_ex d)) /\
    stored dbg (d_ex d) (d_meta d) (d_file d) (d_precision d) (map (column k) chunks).

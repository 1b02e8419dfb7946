(** Specification vocabulary for the TPC-H experiment. *)
From Coq Require Import String.
From Verif Require Import Base Xor F64 Format FormatSpec File FileSpec Codecs CodecSpec Query QuerySpec Expr Tpch.
Local Open Scope string_scope.

(** ** Tables *)

(** A row: an integer number of hundredths for every column. *)
Definition row := string -> Z.
Definition hundredths (f : field) (rows : list row) : Prop :=
  fd_scale f = Some 2%Z /\ fd_cells f = map (fun r : row => Some (r (fd_name f))) rows.
Definition other_column (f : field) : Prop :=
  fd_scale f = None /\ (fd_name f = "l_returnflag" \/ fd_name f = "l_linestatus").
Definition decimal_names (batch : list field) : list string :=
  map fd_name (filter (fun f => match fd_scale f with Some _ => true | None => false end) batch).
(** The batches of a Parquet file with the decimal columns [names], in any order,
    hold these rows. *)
Definition batch_holds (names : list string) (rows : list row) (batch : list field) : Prop :=
  Forall (fun f => hundredths f rows \/ other_column f) batch /\
  NoDup (decimal_names batch) /\ (forall n, In n (decimal_names batch) <-> In n names).
Definition parquet_holds (names : list string) (batches : list (list field)) (rows : list row) : Prop :=
  exists parts, Forall2 (batch_holds names) parts batches /\ concat parts = rows.

(** A table one can run the queries on: at least one row and fewer than 2^32, no
    value negative or above ten million, discounts up to 100%. *)
Definition usable_table (names : list string) (rows : list row) : Prop :=
  rows <> [] /\ N.of_nat (length rows) < 2 ^ 32 /\
  (forall r n, In r rows -> In n names -> (0 <= r n <= 10 ^ 9)%Z) /\
  (forall r, In r rows -> (r "l_discount" <= 100)%Z).

(** ** Platforms *)

Definition good_platform (P : platform) : Prop :=
  faithful_libraries (p_lib P) /\ valid_times (p_timer P) /\ p_elapsed P < 2 ^ 128.
(** The encoded columns fit into memory. *)
Definition fits_memory (P : platform) (c : config) (cols : columns) : Prop :=
  forall name values, In (name, values) cols ->
    N.of_nat (length (written [] (fst (encode_column P c values)))) < 2 ^ 63.

(** ** Answers *)

(** An f64 within a relative error of 2^-27 (less than 1e-8) of the fraction
    [e] / [d]. *)
Definition reports (e d : Z) (o : outcome) : Prop :=
  exists x a, o = Aggregated (Scalar (of_bits x)) /\ is_u64 x /\ number x = Some a /\
    (Z.abs (a * d - e * 2 ^ 1074) * 2 ^ 27 <= e * 2 ^ 1074)%Z.

Definition total (f : row -> Z) (rows : list row) : Z := fold_right Z.add 0%Z (map f rows).

(** Query 6: the discounted amounts of the rows with a discount of 5 to 7 hundredths
    and a quantity below 24, in units of 1/10^4. *)
Definition q6_selected (r : row) : bool :=
  ((5 <=? r "l_discount") && (r "l_discount" <=? 7) && (r "l_quantity" <? 2400))%Z.
Definition q6_revenue (rows : list row) : Z :=
  total (fun r => (r "l_extendedprice" * r "l_discount")%Z) (filter q6_selected rows).

(** Query 1, in units of 1/100, 1/10^4 and 1/10^6. *)
Definition sum_of_column (n : string) (rows : list row) : Z := total (fun r => r n) rows.
Definition sum_discounted (rows : list row) : Z :=
  total (fun r => (r "l_extendedprice" * (100 - r "l_discount"))%Z) rows.
Definition sum_charge (rows : list row) : Z :=
  total (fun r => (r "l_extendedprice" * (100 - r "l_discount") * (100 + r "l_tax"))%Z) rows.
Definition average_of_column (n : string) (rows : list row) (o : outcome) : Prop :=
  reports (sum_of_column n rows) (100 * Z.of_nat (length rows)) o.

(** What BUFF keeps of a number of hundredths: a number of 256ths, rounded down. *)
Definition kept_amount (z : Z) : Z := (z * 256 / 100)%Z.
(** The same answers from the amounts that are kept, in units of 1/2^8, 1/2^16 and
    1/2^24. *)
Definition q6_kept (rows : list row) : Z :=
  total (fun r => (kept_amount (r "l_extendedprice") * kept_amount (r "l_discount"))%Z) (filter q6_selected rows).
Definition kept_sum (n : string) (rows : list row) : Z := total (fun r => kept_amount (r n)) rows.
Definition kept_discounted (rows : list row) : Z :=
  total (fun r => (kept_amount (r "l_extendedprice") * (256 - kept_amount (r "l_discount")))%Z) rows.
Definition kept_charge (rows : list row) : Z :=
  total (fun r => (kept_amount (r "l_extendedprice") * (256 - kept_amount (r "l_discount")) * (256 + kept_amount (r "l_tax")))%Z) rows.
Definition kept_average (n : string) (rows : list row) (o : outcome) : Prop :=
  reports (kept_sum n rows) (256 * Z.of_nat (length rows)) o.
(** In every chunk (of 2^24 rows, the last may be shorter) some quantity is below 24
    and some is not. *)
Definition quantities_mixed (rows : list row) : Prop :=
  forall before chunk after, rows = (before ++ chunk ++ after)%list -> N.of_nat (length before) mod 2 ^ 24 = 0 ->
    N.of_nat (length chunk) = 2 ^ 24 \/ (0 < N.of_nat (length chunk) < 2 ^ 24 /\ after = []) ->
    (exists r, In r chunk /\ (r "l_quantity" < 2400)%Z) /\ (exists r, In r chunk /\ (2400 <= r "l_quantity")%Z).

(** The answers to query 1, in the order of its SELECT list: the sums of quantity,
    price, discounted price and charge, the averages of quantity, price and discount,
    and the count. *)
Definition q1_answers (rows : list row) (os : list outcome) : Prop :=
  exists sq sp sd sc aq ap ad, os = [sq; sp; sd; sc; aq; ap; ad; Integer (N.of_nat (length rows))] /\
    reports (sum_of_column "l_quantity" rows) 100 sq /\ reports (sum_of_column "l_extendedprice" rows) 100 sp /\
    reports (sum_discounted rows) (10 ^ 4) sd /\ reports (sum_charge rows) (10 ^ 6) sc /\
    average_of_column "l_quantity" rows aq /\ average_of_column "l_extendedprice" rows ap /\ average_of_column "l_discount" rows ad.
(** An average stands beside its name. *)
Definition named_average (rows : list row) (name : string) (o : outcome) : Prop :=
  exists n, name = "AVG(" ++ n ++ ")" /\ average_of_column n rows o.

(** A batch of these rows and one more, whose discount is NULL. *)
Definition null_discount (names : list string) (rows : list row) (batch : list field) : Prop :=
  exists before after r, rows = (before ++ after)%list /\
    batch = map (fun n => mkField n (Some 2%Z)
      (map (fun r : row => Some (r n)) before ++ (if String.eqb n "l_discount" then None else Some (r n)) :: map (fun r : row => Some (r n)) after)%list) names.

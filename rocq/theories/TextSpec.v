(** Specification vocabulary for decimal text. *)
From Coq Require Import QArith Qabs.
From Verif Require Import Base Xor F64 QuerySpec.
Local Open Scope N_scope.

(** ** Numerals: [sign] digits [. digits] [e [sign] digits] *)

(** Digits are the numbers 0 to 9; a sign is [true] for minus. *)
Record numeral := mkNumeral {
  n_sign : option bool; n_whole : list N; n_fraction : option (list N); n_exponent : option (option bool * list N) }.
Definition sign_text (s : option bool) : list N := match s with None => [] | Some true => [45] | Some false => [43] end.
Definition digit_text (ds : list N) : list N := map (fun d => 48 + d) ds.
(** How it is written, with a lower-case e. *)
Definition spelling (n : numeral) : list N :=
  sign_text (n_sign n) ++ digit_text (n_whole n) ++
  match n_fraction n with Some ds => 46 :: digit_text ds | None => [] end ++
  match n_exponent n with Some (s, ds) => 101 :: sign_text s ++ digit_text ds | None => [] end.
Definition digits_ok (ds : list N) : Prop := Forall (fun d => d < 10) ds.
Definition well_formed (n : numeral) : Prop :=
  digits_ok (n_whole n) /\
  match n_fraction n with Some ds => digits_ok ds | None => True end /\
  match n_exponent n with Some (_, ds) => digits_ok ds /\ ds <> [] | None => True end /\
  n_whole n ++ match n_fraction n with Some ds => ds | None => [] end <> [].

(** What it means. *)
Definition signed (s : option bool) (z : Z) : Z := match s with Some true => (- z)%Z | _ => z end.
Definition natural (ds : list N) : Z := fold_left (fun a d => 10 * a + Z.of_N d)%Z ds 0%Z.
Definition fraction_digits (n : numeral) : list N := match n_fraction n with Some ds => ds | None => [] end.
Definition power (n : numeral) : Z := match n_exponent n with Some (s, ds) => signed s (natural ds) | None => 0%Z end.
(** Digits after the point once the exponent has been worked in. *)
Definition places (n : numeral) : Z := (Z.of_nat (length (fraction_digits n)) - power n)%Z.
Definition value (n : numeral) : Q :=
  (inject_Z (signed (n_sign n) (natural (n_whole n ++ fraction_digits n))) * Qpower (10 # 1) (- places n))%Q.
(** Exponents and lengths an i32 can hold. *)
Definition moderate (n : numeral) : Prop :=
  well_formed n /\ (Z.abs (power n) < 2 ^ 31)%Z /\ (Z.of_nat (length (fraction_digits n)) < 2 ^ 31)%Z /\ (places n < 2 ^ 31)%Z.

(** [q] is t / 10^p. *)
Definition is_decimal (p : N) (t : Z) (q : Q) : Prop := (q * inject_Z (10 ^ Z.of_N p) == inject_Z t)%Q.

(** ** Documents *)

(** A word is printable ASCII without blanks and separators; a cell is empty or a
    word between blanks; lines end in LF or CR LF. *)
Definition is_word (sep : N) (w : list N) : Prop := w <> [] /\ Forall (fun c => 33 <= c < 127 /\ c <> sep) w.
Definition cell := option (nat * list N * nat).
Definition cell_text (c : cell) : list N :=
  match c with None => [] | Some (before, w, after) => repeat 32 before ++ w ++ repeat 32 after end.
Fixpoint row_text (sep : N) (cells : list cell) : list N :=
  match cells with
  | [] => []
  | [c] => cell_text c
  | c :: rest => cell_text c ++ sep :: row_text sep rest
  end.
Definition line_text (sep : N) (line : list cell * bool) : list N :=
  row_text sep (fst line) ++ (if snd line then [13; 10] else [10]).
(** Lines, and what follows the last line end. *)
Definition document (sep : N) (rows : list (list cell * bool)) (last : list cell) : list N :=
  flat_map (line_text sep) rows ++ row_text sep last.
(** The words in it, in reading order. *)
Definition words (rows : list (list cell * bool)) (last : list cell) : list (list N) :=
  flat_map (fun c : cell => match c with Some (_, w, _) => [w] | None => [] end) (flat_map fst rows ++ last).
(** Commas and tabs. *)
Definition separator (sep : N) : Prop := sep = 44 \/ sep = 9.

(** ** The f64 nearest to a number *)
Definition rational (a : Z) : Q := (inject_Z a / inject_Z (2 ^ 1074))%Q.
Definition nearest_f64 (q : Q) (x : N) : Prop :=
  is_u64 x /\ exists a, number x = Some a /\
  forall y b, is_u64 y -> number y = Some b -> (Qabs (rational a - q) <= Qabs (rational b - q))%Q.

(** How many of them. *)
Inductive how_many {A} (P : A -> Prop) : list A -> nat -> Prop :=
| how_many_nil : how_many P [] 0
| how_many_yes x xs n : P x -> how_many P xs n -> how_many P (x :: xs) (S n)
| how_many_no x xs n : ~ P x -> how_many P xs n -> how_many P (x :: xs) n.

(** [parse] rounds the numeral correctly. *)
Definition reads (parse : list N -> option N) (n : numeral) : Prop := exists x, parse (spelling n) = Some x /\ nearest_f64 (value n) x.
(** Its value, in units of the p-th digit after the point, is below [b]. *)
Definition smaller (p : N) (b : Z) (n : numeral) : Prop := (Qabs (value n) * inject_Z (10 ^ Z.of_N p) < inject_Z b)%Q.
(** The words of a document are these numerals. *)
Definition holds_numerals (sep : N) (rows : list (list cell * bool)) (last : list cell) (ns : list numeral) : Prop :=
  separator sep /\ words rows last = map spelling ns /\ Forall moderate ns /\ ns <> [] /\ N.of_nat (length ns) <= 2 ^ 46.

(** ** Tables of labelled series: a label and values, separated by tabs *)
Definition series := (numeral * list numeral)%type.
Definition series_numerals (s : series) : list numeral := fst s :: snd s.
Definition series_row (s : series * bool) : list cell * bool :=
  (map (fun n => Some (0%nat, spelling n, 0%nat)) (series_numerals (fst s)), snd s).
Definition series_text (rows : list (series * bool)) : list N := document 9 (map series_row rows) [].
(** A value loaded with p digits: the f64 of a decimal with p digits that is less than
    one unit of the last digit away; the f64 of the numeral if that has p digits. *)
Definition loaded_value (p : N) (n : numeral) (y : f64) : Prop :=
  (exists t q, is_decimal p t q /\ nearest_f64 q (to_bits y) /\ (Qabs (value n * inject_Z (10 ^ Z.of_N p) - inject_Z t) < 1)%Q) /\
  ((places n <= Z.of_N p)%Z -> nearest_f64 (value n) (to_bits y)).
(** A loaded series. *)
Definition loaded (p : N) (s : series) (r : Z * list f64) : Prop :=
  (forall k, (Z.abs k <= 2 ^ 53)%Z -> (value (fst s) == inject_Z k)%Q -> fst r = k) /\ Forall2 (loaded_value p) (snd s) (snd r).

(** ** Statistics *)
Definition greatest (xs : list N) (m : N) : Prop := In m xs /\ exists a, number m = Some a /\ forall x, In x xs -> exists b, number x = Some b /\ (b <= a)%Z.
Definition least (xs : list N) (m : N) : Prop := In m xs /\ exists a, number m = Some a /\ forall x, In x xs -> exists b, number x = Some b /\ (a <= b)%Z.
(** The unbiased exponent of an f64: -1023 for zeros and subnormal numbers, 1024 for
    infinities and NaN. *)
Definition exponent (x : N) : Z := (Z.of_N ((x / 2 ^ 52) mod 2 ^ 11) - 1023)%Z.
Definition total (zs : list Z) : Z := fold_right Z.add 0%Z zs.
(** Zero bits before the first and after the last one of a 64-bit word. *)
Definition leading_zeros (w k : N) : Prop := k <= 64 /\ w < 2 ^ (64 - k) /\ (k < 64 -> 2 ^ (63 - k) <= w).
Definition trailing_zeros (w k : N) : Prop := (w = 0 /\ k = 64) \/ (exists q, w = (2 * q + 1) * 2 ^ k).
(** The differences of neighbours, as words. *)
Definition neighbour_xors (xs : list N) : list N := map (fun xy => N.lxor (fst xy) (snd xy)) (combine xs (tl xs)).
Definition total_n (ns : list N) : Z := total (map Z.of_N ns).
(** The different ones among [xs]. *)
Definition different (xs ds : list N) : Prop := NoDup ds /\ forall x, In x ds <-> In x xs.

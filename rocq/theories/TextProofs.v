(** Proofs about decimal text: fields of documents and precisions of numerals. *)
From Coq Require Import QArith Qabs.
From Verif Require Import Base Xor F64 QuerySpec Text TextSpec.
Local Open Scope N_scope.

(** ** Cutting and splitting *)
Lemma cut_found c a b : ~ In c a -> cut_at c (a ++ c :: b) = Some (a, b).
Proof.
  induction a as [|x a IH]; cbn [app cut_at]; intros N; [now rewrite N.eqb_refl|].
  destruct (N.eqb_spec x c) as [->|]; [exfalso; apply N; now left|]. rewrite IH; [reflexivity|]. intros I. apply N. now right.
Qed.
Lemma cut_none c s : ~ In c s -> cut_at c s = None.
Proof.
  induction s as [|x s IH]; cbn [cut_at]; intros N; [reflexivity|].
  destruct (N.eqb_spec x c) as [->|]; [exfalso; apply N; now left|]. rewrite IH; [reflexivity|]. intros I. apply N. now right.
Qed.
Lemma split_step c a b : ~ In c a -> split_on c (a ++ c :: b) = a :: split_on c b.
Proof.
  induction a as [|x a IH]; cbn [app split_on]; intros N; [now rewrite N.eqb_refl|].
  destruct (N.eqb_spec x c) as [->|]; [exfalso; apply N; now left|]. rewrite IH; [reflexivity|]. intros I. apply N. now right.
Qed.
Lemma split_one c s : ~ In c s -> split_on c s = [s].
Proof.
  induction s as [|x s IH]; cbn [split_on]; intros N; [reflexivity|].
  destruct (N.eqb_spec x c) as [->|]; [exfalso; apply N; now left|]. rewrite IH; [reflexivity|]. intros I. apply N. now right.
Qed.
Lemma split_ne c s : split_on c s <> [].
Proof. destruct s as [|x s]; cbn; [discriminate|]. destruct (x =? c); [discriminate|]. destruct (split_on c s); discriminate. Qed.

(** ** Characters of numerals *)
Definition numeral_char (c : N) : Prop := c = 43 \/ c = 45 \/ c = 46 \/ c = 101 \/ 48 <= c <= 57.
Lemma digit_chars ds : digits_ok ds -> Forall (fun c => 48 <= c <= 57) (digit_text ds).
Proof. intros D. apply Forall_map. revert D. apply Forall_impl. intros. cbv beta. lia. Qed.
Lemma digit_numeral ds : digits_ok ds -> Forall numeral_char (digit_text ds).
Proof. intros D. generalize (digit_chars ds D). apply Forall_impl. unfold numeral_char. intros. tauto. Qed.
Lemma sign_chars s : Forall (fun c => c = 43 \/ c = 45) (sign_text s).
Proof. destruct s as [[]|]; cbn; [constructor; [now right|constructor]|constructor; [now left|constructor]|constructor]. Qed.
Lemma sign_numeral s : Forall numeral_char (sign_text s).
Proof. generalize (sign_chars s). apply Forall_impl. unfold numeral_char. intros. tauto. Qed.
Lemma spelling_chars n : well_formed n -> Forall numeral_char (spelling n).
Proof.
  intros (W & F & E & _). unfold spelling. apply Forall_app. split; [apply sign_numeral|]. apply Forall_app. split; [now apply digit_numeral|]. apply Forall_app. split.
  - destruct (n_fraction n); constructor; [unfold numeral_char; tauto|now apply digit_numeral].
  - destruct (n_exponent n) as [[s ds]|]; constructor; [unfold numeral_char; tauto|]. destruct E. apply Forall_app. split; [apply sign_numeral|now apply digit_numeral].
Qed.
Lemma spelling_ne n : well_formed n -> spelling n <> [].
Proof.
  intros (_ & _ & _ & NE) E. apply NE. unfold spelling in E. apply app_eq_nil in E as [_ E]. apply app_eq_nil in E as [W E]. apply app_eq_nil in E as [F _].
  apply map_eq_nil in W. rewrite W. destruct (n_fraction n); [discriminate|reflexivity].
Qed.
Lemma absent (P : N -> Prop) s c : Forall P s -> ~ P c -> ~ In c s.
Proof. intros F N I. rewrite Forall_forall in F. exact (N (F c I)). Qed.
Lemma space_not c : numeral_char c -> is_space c = false.
Proof. unfold numeral_char. intros H. unfold is_space. repeat (destruct H as [->|H]; [reflexivity|]). lia. Qed.

(** ** Trimming *)
Lemma trim_start_blanks k s : trim_start (repeat 32 k ++ s) = trim_start s.
Proof. induction k; cbn [repeat app trim_start]; auto. Qed.
Lemma trim_start_stop s : match s with c :: _ => is_space c = false | [] => True end -> trim_start s = s.
Proof. destruct s as [|c s]; cbn; [reflexivity|]. now intros ->. Qed.
Lemma rev_repeat {A} (x : A) k : rev (repeat x k) = repeat x k.
Proof. induction k; cbn; [reflexivity|]. rewrite IHk. symmetry. apply repeat_cons. Qed.
Lemma head_ok s : Forall (fun c => is_space c = false) s -> match s with c :: _ => is_space c = false | [] => True end.
Proof. intros F. destruct F; auto. Qed.
Lemma trim_padded k s j : s <> [] -> Forall (fun c => is_space c = false) s -> trim (repeat 32 k ++ s ++ repeat 32 j) = s.
Proof.
  intros NE F. unfold trim. rewrite trim_start_blanks. rewrite (trim_start_stop (s ++ repeat 32 j)).
  - rewrite rev_app_distr, rev_repeat, trim_start_blanks, trim_start_stop, rev_involutive; [reflexivity|]. apply head_ok, Forall_rev, F.
  - destruct s; [easy|]. cbn. now inversion F.
Qed.
Lemma word_space sep w : is_word sep w -> Forall (fun c => is_space c = false) w.
Proof. intros [_ F]. revert F. apply Forall_impl. intros c [H _]. unfold is_space. lia. Qed.
Lemma cell_trim sep k w j : is_word sep w -> trim (repeat 32 k ++ w ++ repeat 32 j) = w.
Proof. intros W. apply trim_padded; [apply W|exact (word_space sep w W)]. Qed.
Lemma spelling_word sep n : separator sep -> well_formed n -> is_word sep (spelling n).
Proof.
  intros S W. split; [now apply spelling_ne|]. generalize (spelling_chars n W). apply Forall_impl. unfold numeral_char, separator in *. intros c H. lia.
Qed.

(** ** Rows and lines *)
Definition cell_ok (sep : N) (c : cell) : Prop := match c with Some (_, w, _) => is_word sep w | None => True end.
Definition cell_words (c : cell) : list text := match c with Some (_, w, _) => [w] | None => [] end.
Definition plain (sep c : N) : Prop := (33 <= c < 127 /\ c <> sep) \/ c = 32.
Lemma cell_plain sep c : cell_ok sep c -> Forall (plain sep) (cell_text c).
Proof.
  destruct c as [[[k w] j]|]; cbn [cell_ok cell_text]; [|constructor]. intros [_ W].
  assert (B : forall i, Forall (plain sep) (repeat 32 i)) by (intros; induction i; constructor; [now right|assumption]).
  apply Forall_app. split; [apply B|]. apply Forall_app. split; [|apply B]. revert W. apply Forall_impl. now left.
Qed.
Lemma plain_sep sep : separator sep -> ~ plain sep sep.
Proof. unfold separator, plain. lia. Qed.
Definition row_char (sep c : N) : Prop := plain sep c \/ c = sep.
Lemma row_chars sep cells : Forall (cell_ok sep) cells -> Forall (row_char sep) (row_text sep cells).
Proof.
  assert (P : forall c, cell_ok sep c -> Forall (row_char sep) (cell_text c)) by (intros c C; generalize (cell_plain sep c C); apply Forall_impl; now left).
  intros F. induction F as [|c cells C F IH]; [constructor|]. cbn [row_text]. destruct cells; [now apply P|]. apply Forall_app. split; [now apply P|]. constructor; [now right|exact IH].
Qed.
Lemma row_not sep c : separator sep -> c = 10 \/ c = 13 -> ~ row_char sep c.
Proof. unfold separator, row_char, plain. lia. Qed.
Lemma row_split sep cells : separator sep -> Forall (cell_ok sep) cells -> cells <> [] -> split_on sep (row_text sep cells) = map cell_text cells.
Proof.
  intros S F. induction F as [|c cells C F IH]; [easy|]. intros _. cbn [row_text map].
  assert (N : ~ In sep (cell_text c)) by (apply (absent (plain sep)); [now apply cell_plain|now apply plain_sep]).
  destruct cells as [|c' cells]; [now apply split_one|]. rewrite split_step by exact N. rewrite IH by discriminate. reflexivity.
Qed.
Definition nonempty_text (s : text) : bool := match s with [] => false | _ => true end.
Lemma cell_fields sep cells : Forall (cell_ok sep) cells -> map trim (filter nonempty_text (map cell_text cells)) = flat_map cell_words cells.
Proof.
  intros F. induction F as [|c cells C F IH]; [reflexivity|]. cbn [map filter flat_map]. destruct c as [[[k w] j]|]; cbn [cell_text cell_words cell_ok] in *; [|exact IH].
  destruct (repeat 32 k ++ w ++ repeat 32 j) as [|x t] eqn:E.
  - exfalso. apply app_eq_nil in E as [_ E]. apply app_eq_nil in E as [E _]. now destruct C.
  - cbn [nonempty_text map app]. rewrite <- E. rewrite (cell_trim sep) by exact C. now f_equal.
Qed.
Lemma row_fields sep cells : separator sep -> Forall (cell_ok sep) cells ->
  map trim (filter nonempty_text (split_on sep (row_text sep cells))) = flat_map cell_words cells.
Proof.
  intros S F. destruct cells as [|c cells]; [reflexivity|]. rewrite row_split by (auto; discriminate). now apply (cell_fields sep).
Qed.
Lemma drop_none l : ~ In 13 l -> drop_cr l = l.
Proof.
  unfold drop_cr. intros N. destruct (rev l) as [|c r] eqn:E; [apply (f_equal (@rev _)) in E; rewrite rev_involutive in E; now subst|].
  destruct (N.eqb_spec c 13) as [->|]; [|reflexivity]. exfalso. apply N. apply in_rev. rewrite E. now left.
Qed.
Lemma drop_one l : drop_cr (l ++ [13]) = l.
Proof. unfold drop_cr. rewrite rev_app_distr. cbn. apply rev_involutive. Qed.
Lemma document_lines sep rows last : separator sep -> Forall (cell_ok sep) (flat_map fst rows ++ last) ->
  lines (document sep rows last) = map (fun r => row_text sep (fst r)) rows ++ match row_text sep last with [] => [] | t => [t] end.
Proof.
  intros S F. unfold lines, document. induction rows as [|[cells cr] rows IH]; cbn [flat_map app fst map] in *.
  - rewrite split_one; [|apply (absent (row_char sep)); [now apply row_chars|apply row_not; auto]]. cbn. now destruct (row_text sep last).
  - apply Forall_app in F as [F FL]. apply Forall_app in F as [F1 F2].
    assert (N10 : ~ In 10 (row_text sep cells)) by (apply (absent (row_char sep)); [now apply row_chars|apply row_not; auto]).
    assert (N13 : ~ In 13 (row_text sep cells)) by (apply (absent (row_char sep)); [now apply row_chars|apply row_not; auto]).
    assert (IH' := IH ltac:(apply Forall_app; now split)). clear IH. unfold line_text at 1. cbn [fst snd]. rewrite <- app_assoc. set (tail := flat_map _ rows ++ _) in *.
    assert (E : split_on 10 ((row_text sep cells ++ (if cr then [13; 10] else [10])) ++ tail) = (if cr then row_text sep cells ++ [13] else row_text sep cells) :: split_on 10 tail).
    { destruct cr.
      - replace ((row_text sep cells ++ [13; 10]) ++ tail) with ((row_text sep cells ++ [13]) ++ 10 :: tail) by (rewrite <- !app_assoc; reflexivity).
        apply split_step. intros I. apply in_app_or in I as [I|[I|[]]]; [now apply N10|discriminate].
      - rewrite <- app_assoc. now apply split_step. }
    rewrite E. pose proof (split_ne 10 tail) as NE. destruct (split_on 10 tail) as [|p ps]; [easy|].
    change (ended (?x :: p :: ps)) with (drop_cr x :: ended (p :: ps)). rewrite IH'. f_equal. destruct cr; [apply drop_one|now apply drop_none].
Qed.
Lemma words_cells sep rows last : Forall (is_word sep) (words rows last) -> Forall (cell_ok sep) (flat_map fst rows ++ last).
Proof.
  intros W. unfold words in W. apply Forall_forall. intros c I. destruct c as [[[k w] j]|]; [|exact Logic.I]. cbn. rewrite Forall_forall in W. apply W.
  apply in_flat_map. exists (Some (k, w, j)). split; [exact I|now left].
Qed.
Theorem document_fields sep rows last : separator sep -> Forall (is_word sep) (words rows last) -> fields_of sep (document sep rows last) = words rows last.
Proof.
  intros S W. pose proof (words_cells sep rows last W) as F. unfold fields_of. rewrite document_lines by assumption. rewrite flat_map_app.
  change (fun s : text => match s with [] => false | _ :: _ => true end) with nonempty_text.
  unfold words. rewrite flat_map_app. apply Forall_app in F as [F FL]. f_equal.
  - clear FL W. induction rows as [|r rows IH]; [reflexivity|]. cbn [flat_map map] in *. apply Forall_app in F as [F1 F2]. rewrite flat_map_app. f_equal; [|now apply IH].
    now apply row_fields.
  - pose proof (row_fields sep last S FL) as R. destruct (row_text sep last) as [|c t]; cbn [flat_map]; [exact R|]. rewrite app_nil_r. exact R.
Qed.
Lemma spellings_words sep ns : separator sep -> Forall well_formed ns -> Forall (is_word sep) (map spelling ns).
Proof. intros S W. apply Forall_map. revert W. apply Forall_impl. intros n. now apply spelling_word. Qed.

(** ** The precision of a numeral *)
Lemma digits_len ds : digits_ok ds -> str_len (digit_text ds) = N.of_nat (length ds).
Proof.
  intros D. induction D as [|d ds H D IH]; [reflexivity|]. cbv beta in H. cbn [digit_text map str_len fold_right length]. fold (digit_text ds). fold (str_len (digit_text ds)). rewrite IH.
  unfold utf8_len. destruct (N.ltb_spec (48 + d) 128); lia.
Qed.
Lemma digits_parse ds a : digits_ok ds -> digits_to_Z a (digit_text ds) = Some (fold_left (fun a d => 10 * a + Z.of_N d)%Z ds a).
Proof.
  intros D. revert a. induction D as [|d ds H D IH]; intros a; [reflexivity|]. cbv beta in H. cbn [digit_text map digits_to_Z fold_left]. fold (digit_text ds).
  unfold is_digit. replace ((48 <=? 48 + d) && (48 + d <=? 57)) with true by lia. replace (48 + d - 48) with d by lia. apply IH.
Qed.
Lemma natural_nonneg ds : (0 <= natural ds)%Z.
Proof.
  unfold natural. enough (H : forall a, (0 <= a -> 0 <= fold_left (fun a d => 10 * a + Z.of_N d)%Z ds a)%Z) by (apply H; lia).
  induction ds as [|d ds IH]; intros a A; cbn [fold_left]; [exact A|]. apply IH. lia.
Qed.
Lemma exponent_parse s ds : digits_ok ds -> ds <> [] -> (Z.abs (signed s (natural ds)) < 2 ^ 31)%Z ->
  parse_i32 (sign_text s ++ digit_text ds) = Some (signed s (natural ds)).
Proof.
  intros D NE B. change (2 ^ 31)%Z with 2147483648%Z in B. pose proof (natural_nonneg ds) as N0.
  assert (P := digits_parse ds 0 D). fold (natural ds) in P. destruct ds as [|d ds]; [easy|]. unfold parse_i32.
  assert (D0 := Forall_inv D). cbv beta in D0. cbn [digit_text map] in *.
  destruct s as [[]|]; cbn [sign_text app signed] in *.
  - cbn [N.eqb Pos.eqb]. rewrite P. replace ((-2147483648 <=? - natural (d :: ds)) && (- natural (d :: ds) <=? 2147483647))%Z with true by lia. reflexivity.
  - cbn [N.eqb Pos.eqb]. rewrite P. replace ((-2147483648 <=? natural (d :: ds)) && (natural (d :: ds) <=? 2147483647))%Z with true by lia. reflexivity.
  - replace (48 + d =? 43) with false by lia. replace (48 + d =? 45) with false by lia. rewrite P.
    replace ((-2147483648 <=? natural (d :: ds)) && (natural (d :: ds) <=? 2147483647))%Z with true by lia. reflexivity.
Qed.
Definition digits_needed (n : numeral) : N := Z.to_N (Z.max 0 (places n)).
Lemma i32_ok dbg z : (- 2 ^ 31 <= z < 2 ^ 31)%Z -> i32_result dbg z = Ok z.
Proof. intros B. change (2 ^ 31)%Z with 2147483648%Z in B. unfold i32_result. replace ((-2147483648 <=? z) && (z <=? 2147483647))%Z with true by lia. reflexivity. Qed.
Lemma wrap_ok z : (- 2 ^ 31 <= z < 2 ^ 31)%Z -> wrap_i32 z = z.
Proof. intros B. change (2 ^ 31)%Z with 2147483648%Z in B. unfold wrap_i32. rewrite Z.mod_small; lia. Qed.
Lemma usize_ok z : (0 <= z < 2 ^ 31)%Z -> i32_as_usize z = Z.to_N z.
Proof. intros B. change (2 ^ 31)%Z with 2147483648%Z in B. unfold i32_as_usize. rewrite Z.mod_small; lia. Qed.
Lemma base_chars n : well_formed n -> Forall (fun c => c = 43 \/ c = 45 \/ 48 <= c <= 57) (sign_text (n_sign n) ++ digit_text (n_whole n)).
Proof.
  intros (W & _). apply Forall_app. split; [generalize (sign_chars (n_sign n))|generalize (digit_chars _ W)]; apply Forall_impl; intros; tauto.
Qed.
Theorem precision_of_numeral dbg n : moderate n -> get_decimal_precision dbg (spelling n) = Ok (digits_needed n).
Proof.
  intros (WF & PB & FB & PL). pose proof (base_chars n WF) as BC. pose proof WF as (W & F & E & _). unfold get_decimal_precision, digits_needed, spelling, places, power, fraction_digits in *.
  set (base := sign_text (n_sign n) ++ digit_text (n_whole n)) in *.
  assert (N101 : ~ In 101 base) by (apply (absent _ _ _ BC); lia). assert (N46 : ~ In 46 base) by (apply (absent _ _ _ BC); lia).
  destruct (n_exponent n) as [[s ds]|].
  - destruct E as [ED EN]. destruct (n_fraction n) as [fs|].
    + assert (NF : ~ In 101 (base ++ 46 :: digit_text fs)).
      { intros I. apply in_app_or in I as [I|[I|I]]; [easy|discriminate|]. pose proof (digit_chars fs F) as DC. rewrite Forall_forall in DC. specialize (DC _ I). lia. }
      match goal with |- context [cut_at 101 ?t] => replace t with ((base ++ 46 :: digit_text fs) ++ 101 :: sign_text s ++ digit_text ds) by (unfold base; rewrite <- !app_assoc; reflexivity) end.
      rewrite cut_found by exact NF. rewrite exponent_parse by assumption. rewrite cut_found by exact N46. rewrite digits_len by exact F.
      rewrite nat_N_Z. rewrite wrap_ok by lia. rewrite i32_ok by lia. cbn [rbind]. rewrite usize_ok by lia. do 2 f_equal. lia.
    + cbn [app length] in *. rewrite app_assoc. fold base. rewrite cut_found by exact N101. rewrite exponent_parse by assumption. rewrite cut_none by exact N46.
      destruct (Z.ltb_spec (signed s (natural ds)) 0); [|f_equal; lia]. rewrite i32_ok by lia. cbn [rbind]. rewrite usize_ok by lia. do 2 f_equal. lia.
  - rewrite app_nil_r. destruct (n_fraction n) as [fs|].
    + rewrite app_assoc. fold base. rewrite cut_none.
      * rewrite cut_found by exact N46. rewrite digits_len by exact F. f_equal. lia.
      * intros I. apply in_app_or in I as [I|[I|I]]; [easy|discriminate|]. pose proof (digit_chars fs F) as DC. rewrite Forall_forall in DC. specialize (DC _ I). lia.
    + rewrite app_nil_r. fold base. rewrite !cut_none by assumption. reflexivity.
Qed.

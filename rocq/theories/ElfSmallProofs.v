(** A check that Elf is exact on a value below one, cheap enough for the kernel. *)
From Verif Require Import Base Xor F64 Elf ElfSpec.
Local Open Scope Z_scope.

(** The powers of ten below one, computed once. *)
Definition ten_powers : list N := [1; 2; 3; 4; 5; 6; 7; 8; 9; 10]%N.
Definition small_powers : list f64 := Eval vm_compute in map npow10 ten_powers.
Definition small_power (i : N) : f64 := nth (N.to_nat i - 1) small_powers S754_nan.
Lemma small_powers_ok : map npow10 ten_powers = small_powers.
Proof. vm_compute. reflexivity. Qed.
Lemma small_power_ok i : In i ten_powers -> map_sp_less_1 i = small_power i.
Proof.
  intros I. unfold map_sp_less_1, small_power. rewrite <- small_powers_ok. rewrite (nth_indep _ S754_nan (npow10 0)).
  - rewrite map_nth. f_equal. cbn [ten_powers In] in I. repeat (destruct I as [<-|I]; [reflexivity|]). destruct I.
  - rewrite map_length. cbn [ten_powers In] in I. repeat (destruct I as [<-|I]; [cbn; lia|]). destruct I.
Qed.
Definition decade (v : f64) : option N := find (fun i => fle (small_power i) v) ten_powers.
Lemma decade_ok v : sp_search_lt1 v = decade v.
Proof.
  unfold sp_search_lt1, decade. change [1; 2; 3; 4; 5; 6; 7; 8; 9; 10]%N with ten_powers. assert (G : forall l, incl l ten_powers -> find (fun i => fle (map_sp_less_1 i) v) l = find (fun i => fle (small_power i) v) l).
  { induction l as [|i l IH]; intros IN; [reflexivity|]. cbn [find]. rewrite (small_power_ok i) by (apply IN; now left). rewrite IH; [reflexivity|]. intros j J. apply IN. now right. }
  apply G. intros i I. exact I.
Qed.
Lemma decade_in v i : decade v = Some i -> In i ten_powers.
Proof. intros E. exact (proj1 (find_some _ _ E)). Qed.

Lemma some_same {A} (x y : A) : Some x = Some y -> x = y.
Proof. congruence. Qed.
(** [elf_recover] below one. *)
Definition recover_small (last : Z) (bits' : N) : option N :=
  let v' := of_bits bits' in
  if fle (of_Z 1) (fabs v') then None
  else match decade (fabs v') with
       | None => None
       | Some i => Some (to_bits (if last =? 0 then let v := get_10i_n (i32_as_u32 (Z.of_N i - 1)) in if flt v' (S754_zero false) then fneg v else v
                                  else round_up v' (i32_as_u32 (last + Z.of_N i - 1))))
       end.
Lemma recover_small_ok log10 last bits y : recover_small last bits = Some y -> elf_recover log10 last bits = y.
Proof.
  unfold recover_small, elf_recover, get_sp. destruct (fle (of_Z 1) (fabs (of_bits bits))); [discriminate|].
  destruct (decade (fabs (of_bits bits))) as [i|] eqn:D; [|discriminate]. rewrite decade_ok, D. cbn [option_map]. intros H. apply some_same in H. rewrite <- H. clear H.
  replace (- - Z.of_N i - 1) with (Z.of_N i - 1) by lia. replace (last - - Z.of_N i - 1) with (last + Z.of_N i - 1) by lia. reflexivity.
Qed.
(** Whether two values below one, equal but for their sign, are recovered after every
    other value. *)
Definition registers : list Z := 2147483647 :: map Z.of_nat (seq 0 16).
Definition same_finite (a b : f64) : bool :=
  match a, b with S754_finite false m e, S754_finite false m' e' => (m =? m')%positive && (e =? e') | _, _ => false end.
Lemma same_finite_ok a b : same_finite a b = true -> a = b.
Proof.
  destruct a as [| | |[] m e]; try discriminate. destruct b as [| | |[] m' e']; try discriminate. cbn [same_finite]. intros H.
  apply andb_true_iff in H as [A B]. apply Pos.eqb_eq in A. apply Z.eqb_eq in B. now subst.
Qed.
Definition recovers (a : f64) (xs : list N) : bool :=
  negb (fle (of_Z 1) a) &&
  match decade a with
  | None => false
  | Some i =>
      let sp := - Z.of_N i in
      let flag := feq a (small_power i) in
      let betas := nodup Z.eq_dec (map (significant_count a sp) registers) in
      forallb (fun x => same_finite (fabs (of_bits x)) a && forallb (fun beta =>
        let er := erase_bits x (i32_as_u32 (beta - sp - 1)) in
        let mask := wsub64 0 (shl64m 1 (Z.to_N (er mod 64))) in
        let b := if flag : bool then 0 else beta in
        if (b <? 16) && (4 <? er) && negb (N.ldiff x mask =? 0)%N
        then (0 <=? b) && match recover_small b (N.land mask x) with Some y => (y =? x)%N | None => false end
        else true) betas) xs
  end.
Lemma recovers_each log10 a xs x last b x' : recovers a xs = true -> In x xs -> last = 2147483647 \/ 0 <= last < 16 ->
  elf_erase log10 last x = Some (b, x') -> 0 <= b /\ elf_recover log10 b x' = x.
Proof.
  intros R IX L E. unfold recovers in R. apply andb_true_iff in R as [R1 R]. apply Bool.negb_true_iff in R1.
  assert (I : In last registers).
  { destruct L as [->|L]; [now left|right]. apply in_map_iff. exists (Z.to_nat last). split; [lia|]. apply in_seq. lia. }
  destruct (decade a) as [i|] eqn:D; [|discriminate]. cbv zeta in R. rewrite forallb_forall in R. specialize (R x IX). apply andb_true_iff in R as [FA R]. apply same_finite_ok in FA.
  rewrite forallb_forall in R. specialize (R (significant_count a (- Z.of_N i) last)). cbv zeta in R.
  unfold elf_erase, alpha_beta_star, get_sp_flag in E. rewrite FA, R1, decade_ok, D in E. cbn [option_map] in E. rewrite (small_power_ok i (decade_in _ _ D)) in E.
  cbv zeta beta iota in E. destruct (_ && _ && _); [|discriminate]. apply some_same in E. apply pair_equal_spec in E as [E1 E2]. rewrite <- E1, <- E2. clear E1 E2.
  assert (IB : In (significant_count a (- Z.of_N i) last) (nodup Z.eq_dec (map (significant_count a (- Z.of_N i)) registers))) by (apply nodup_In, in_map, I).
  specialize (R IB). apply andb_true_iff in R as [A B].
  split; [now apply Z.leb_le|]. destruct (recover_small _ _) as [y|] eqn:RS; [|discriminate]. apply N.eqb_eq in B. rewrite B in RS. exact (recover_small_ok log10 _ _ _ RS).
Qed.
Lemma recovers_sound log10 a xs x : recovers a xs = true -> In x xs -> recoverable log10 x.
Proof. intros R IX _ last b x' L E. exact (recovers_each log10 a xs x last b x' R IX L E). Qed.

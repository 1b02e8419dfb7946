(** Elf is exact on the smallest decimals of the matrix experiment, 1e-8 to 99e-8. *)
From Verif Require Import Base Xor F64 Elf ElfSpec ElfSmallProofs SprintzSpec.
Local Open Scope Z_scope.

Definition tiny : list Z := map (fun n => Z.of_nat n) (seq 1 99).
Lemma tiny_ok : forallb (fun t => let x := grid_value (10 ^ 8) t in recovers (of_bits x) [x; grid_value (10 ^ 8) (- t)]) tiny = true.
Proof. vm_compute. reflexivity. Qed.
Theorem tiny_recovered log10 t : 0 < Z.abs t < 100 -> recoverable log10 (grid_value (10 ^ 8) t).
Proof.
  intros T. assert (I : In (Z.abs t) tiny).
  { apply in_map_iff. exists (Z.to_nat (Z.abs t)). split; [lia|]. apply in_seq. lia. }
  pose proof tiny_ok as F. rewrite forallb_forall in F. specialize (F _ I). cbv zeta in F. apply (recovers_sound log10 _ _ _ F).
  destruct (Z.abs_eq_or_opp t) as [A|A]; rewrite A; [now left|]. right. left. now rewrite Z.opp_involutive.
Qed.

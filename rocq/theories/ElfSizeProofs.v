(** The size reported for Elf and ElfOnChimp, for any 64-bit patterns. *)
From Verif Require Import Base BitSpec BitSpecProofs BitIO BitIOProofs WordProofs
  Xor XorSpec XorProofs Chimp ChimpProofs ElfXor ElfXorProofs F64 Elf ElfProofs.

Section Size.
  Variable erase : Z -> N -> option (Z * N).
  Variables (E : Type) (e_init : E).
  Variable e_step : E -> bwriter -> N -> E * bwriter.
  Variable e_close : E -> bwriter -> E * bwriter.
  Variable e_simclose : E -> N.
  Variable EInv : E -> Prop.
  Hypothesis Hinit : EInv e_init.
  Hypothesis Hstep : forall e x, EInv e -> is_u64 x -> exists bs e',
    EInv e' /\ emits (fun e w => e_step e w x) e e' bs /\ (1 <= length bs)%nat.
  Hypothesis Hclose : forall e, EInv e -> exists bs e',
    emits e_close e e' bs /\ N.of_nat (length bs) = e_simclose e.
  Hypothesis Herase : forall last x b v', is_u64 x -> nan_pattern x = false -> erase last x = Some (b, v') -> is_u64 v'.

  Lemma ws_step e x : EInv (we_inner e) -> is_u64 x -> exists bs e',
    EInv (we_inner e') /\ emits (fun e w => we_step erase E e_step e w x) e e' bs /\ (1 <= length bs)%nat.
  Proof using Hstep Herase.
    clear Hinit Hclose e_init e_close e_simclose. intros HE Hx.
    assert (K : forall last' v' n b, is_u64 v' -> n <= 64 ->
      (forall w, we_step erase E e_step e w x = let '(e', w) := e_step (we_inner e) (write_bits w b n) v' in (mkWE last' e', w)) ->
      exists bs e', EInv (we_inner e') /\ emits (fun e w => we_step erase E e_step e w x) e e' bs /\ (1 <= length bs)%nat).
    { intros last' v' n b HV Hn Hw. destruct (Hstep (we_inner e) v' HE HV) as (b1 & e1 & HE1 & Em1 & L1).
      exists (bits_of (N.to_nat n) b ++ b1), (mkWE last' e1). split; [exact HE1|]. split; [|rewrite app_length; lia].
      intros w pre HW. rewrite Hw. destruct (Em1 (write_bits w b n) (pre ++ bits_of (N.to_nat n) b)) as (w1 & S1 & W1).
      { apply write_bits_rep; auto. }
      cbn beta in S1. rewrite S1. exists w1. rewrite app_assoc. auto. }
    destruct (feq (of_bits x) (S754_zero false) || is_infinite (of_bits x)) eqn:Hz.
    { apply (K (we_last e) x 2 2); [exact Hx|lia|]. intros w. unfold we_step. rewrite Hz. reflexivity. }
    destruct (is_nan (of_bits x)) eqn:Hn.
    { apply (K (we_last e) nan_bits 2 2); [reflexivity|lia|]. intros w. unfold we_step. rewrite Hz, Hn. reflexivity. }
    destruct (erase (we_last e) x) as [[b v']|] eqn:HE'.
    2:{ apply (K (we_last e) x 2 2); [exact Hx|lia|]. intros w. unfold we_step. rewrite Hz, Hn, HE'. reflexivity. }
    pose proof (Herase _ _ _ _ Hx Hn HE') as HV.
    destruct (Z.eqb b (we_last e)) eqn:Hb.
    - destruct (Hstep (we_inner e) v' HE HV) as (b1 & e1 & HE1 & Em1 & L1).
      exists ([false] ++ b1), (mkWE (we_last e) e1). split; [exact HE1|]. split; [|rewrite app_length; lia].
      intros w pre HW. unfold we_step. rewrite Hz, Hn, HE', Hb.
      destruct (Em1 (write_bit w false) (pre ++ [false])) as (w1 & S1 & W1); [apply write_bit_rep; auto|].
      cbn beta in S1. rewrite S1. exists w1. rewrite app_assoc. auto.
    - apply (K b v' 6 (Z.to_N (Z.lor b 48 mod 64))); [exact HV|lia|].
      intros w. unfold we_step. rewrite Hz, Hn, HE', Hb. reflexivity.
  Qed.

  Lemma ws_size c xs : Forall is_u64 xs ->
    let c1 := x_compress _ (we_init E e_init) (we_step erase E e_step) c xs in
    let real := N.of_nat (length (x_buffers (x_prepare _ (we_close E e_close) c1))) in
    real <= x_total_bytes_buffered _ (we_simclose E e_simclose) c1 <= real + 1.
  Proof using Hinit Hstep Hclose Herase.
    intros HP.
    apply (x_size_estimate (wenc E) unit (we_init E e_init)
      (we_step erase E e_step) (we_close E e_close) (we_simclose E e_simclose)
      (fun _ _ => DPanic) (fun e => EInv (we_inner e)) (fun _ _ => False) is_u64); auto.
    - intros e x HE Hx. destruct (ws_step e x HE Hx) as (bs & e' & A & B & C). exists bs, e'.
      split; [exact A|]. split; [exact B|]. split; [exact C|]. intros ? ? ? [].
    - intros e HE. destruct (Hclose (we_inner e) HE) as (b1 & e1 & Em1 & L1).
      exists (bits_of (N.to_nat 2) 2 ++ b1), (mkWE (we_last e) e1). split.
      + intros w pre HW. unfold we_close.
        destruct (Em1 (write_bits w 2 2) (pre ++ bits_of (N.to_nat 2) 2)) as (w1 & S1 & W1).
        { apply write_bits_rep; auto. }
        rewrite S1. exists w1. rewrite app_assoc. auto.
      + rewrite app_length, bits_of_length. unfold we_simclose. lia.
  Qed.
End Size.

Lemma elf_size log10 c xs : Forall is_u64 xs ->
  let c1 := elf_compress log10 c xs in
  let real := N.of_nat (length (x_buffers (elf_prepare c1))) in
  real <= elf_total_bytes_buffered c1 <= real + 1.
Proof.
  intros HX. apply (ws_size _ _ _ _ _ _ le_inv); auto.
  - split; cbn; [reflexivity|lia].
  - intros e x HE Hx. destruct (l_step e x HE Hx) as (bs & e' & H1 & H2 & [H3 _] & H4). eauto 10.
  - intros e HE. destruct (l_close e HE) as (bs & e' & H1 & H2 & H3). eauto 10.
  - intros last x b v' Hx Hn H. apply (elf_erase_ok log10 last x b v' Hx Hn H).
Qed.
Lemma elfc_size log10 c xs : Forall is_u64 xs ->
  let c1 := elfc_compress log10 c xs in
  let real := N.of_nat (length (x_buffers (elfc_prepare c1))) in
  real <= elfc_total_bytes_buffered c1 <= real + 1.
Proof.
  intros HX. apply (ws_size _ _ _ _ _ _ ce_inv); auto.
  - reflexivity.
  - intros e x HE Hx. destruct (c_step e x HE Hx) as (bs & e' & H1 & H2 & [H3 _] & H4). eauto 10.
  - intros e HE. destruct (c_close e HE) as (bs & e' & H1 & H2 & H3). eauto 10.
  - intros last x b v' Hx Hn H. apply (elf_erase_ok log10 last x b v' Hx Hn H).
Qed.

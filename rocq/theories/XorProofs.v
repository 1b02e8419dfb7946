(** Generic round trip of an XOR codec from a per-record simulation. *)
From Verif Require Import Base BitSpec BitSpecProofs BitIO BitIOProofs WordProofs Xor XorSpec.

Lemma before_nan_id xs : ~ In nan_bits xs -> before_nan xs = xs.
Proof.
  induction xs as [|x xs IH]; auto. cbn [before_nan In]. intros H.
  destruct (N.eqb_spec x nan_bits) as [->|?]; [tauto|]. rewrite IH; tauto.
Qed.

Lemma before_nan_spec xs : exists rest, xs = before_nan xs ++ rest /\
  ~ In nan_bits (before_nan xs) /\ (rest = [] \/ hd_error rest = Some nan_bits).
Proof.
  induction xs as [|x xs IH]; [exists []; cbn; auto|]. cbn [before_nan].
  destruct (N.eqb_spec x nan_bits) as [->|Hx].
  - exists (nan_bits :: xs). cbn. auto.
  - destruct IH as (rest & E & H1 & H2). exists rest. rewrite E at 1. cbn. repeat split; auto.
    intros [H|H]; auto.
Qed.

Lemma read_next r n v rest : rwf r -> rrem r = bits_of (N.to_nat n) v ++ rest -> n <= 64 -> v < 2 ^ n ->
  exists r', read_bits r n = Got v r' /\ rwf r' /\ rrem r' = rest.
Proof. intros. apply read_bits_val; auto. Qed.

(** A step that appends bits [bs]. *)
Definition emits {E} (f : E -> bwriter -> E * bwriter) (e e' : E) (bs : list bool) : Prop :=
  forall w pre, wrep w pre -> exists w', f e w = (e', w') /\ wrep w' (pre ++ bs).

Section Generic.
  Variables (E D : Type) (e_init : E) (d_init : D).
  Variable e_step : E -> bwriter -> N -> E * bwriter.
  Variable e_close : E -> bwriter -> E * bwriter.
  Variable e_simclose : E -> N.
  Variable d_next : D -> breader -> drd (option N * D).
  Variable EInv : E -> Prop.
  Variable Sim : E -> D -> Prop.
  (** [P x]: inputs the codec accepts. *)
  Variable P : N -> Prop.

  Hypothesis Hinit : EInv e_init.
  Hypothesis Hsim0 : Sim e_init d_init.
  Hypothesis Hstep : forall e x, EInv e -> P x -> exists bs e',
    EInv e' /\ emits (fun e w => e_step e w x) e e' bs /\
    (1 <= length bs)%nat /\
    forall d r rest, Sim e d -> rwf r -> rrem r = bs ++ rest ->
      exists d' r', d_next d r = DOk (if x =? nan_bits then None else Some x, d') r' /\
        rwf r' /\ rrem r' = rest /\ (x <> nan_bits -> Sim e' d').
  Hypothesis Hclose : forall e, EInv e -> exists bs e',
    emits e_close e e' bs /\
    forall d r rest, Sim e d -> rwf r -> rrem r = bs ++ rest ->
      exists d' r', d_next d r = DOk (None, d') r' /\ rwf r'.
  (** Only used for the size estimate. *)
  Hypothesis Hsize : forall e, EInv e -> exists bs e',
    emits e_close e e' bs /\ N.of_nat (length bs) = e_simclose e.

  Lemma x_steps_emit xs : forall e, EInv e -> Forall P xs ->
    exists bs e', EInv e' /\ emits (fun e w => x_steps E e_step e w xs) e e' bs /\
    (length xs <= length bs)%nat /\
    forall d r rest, Sim e d -> rwf r -> rrem r = bs ++ rest -> ~ In nan_bits xs ->
      exists d' r', rwf r' /\ rrem r' = rest /\ Sim e' d' /\
        forall fuel, x_collect D d_next (length xs + fuel) d r =
          let '(o, r'') := x_collect D d_next fuel d' r' in
          (match o with Ok vs => Ok (xs ++ vs) | Err e => Err e | Panic => Panic end, r'').
  Proof using Hstep.
    clear Hsize Hclose Hsim0 Hinit e_simclose e_close d_init e_init.
    induction xs as [|x xs IH]; intros e HE HP.
    - exists [], e. split; auto. split; [|split; [cbn; auto|]].
      { intros w pre HW. exists w. rewrite app_nil_r. auto. }
      intros d r rest HS HW HR _. exists d, r. cbn [app] in HR.
      repeat (split; auto; try apply HW). intros fuel. cbn [length Nat.add app].
      destruct (x_collect D d_next fuel d r) as [o r'']. destruct o; auto.
    - inversion HP as [|? ? Hx HP']; subst.
      destruct (Hstep e x HE Hx) as (b1 & e1 & HE1 & Em1 & L1 & D1).
      destruct (IH e1 HE1 HP') as (b2 & e2 & HE2 & Em2 & L2 & D2).
      exists (b1 ++ b2), e2. split; auto. split; [|split; [rewrite app_length; cbn [length]; lia|]].
      + intros w pre HW. destruct (Em1 w pre HW) as (w1 & S1 & W1).
        destruct (Em2 w1 _ W1) as (w2 & S2 & W2). exists w2. rewrite app_assoc. split; auto.
        unfold x_steps in *. cbn [fold_left]. rewrite S1. exact S2.
      + intros d r rest HS HW HR HN. rewrite <- app_assoc in HR.
        destruct (D1 d r _ HS HW HR) as (d1 & r1 & N1 & W1 & R1 & S1).
        assert (Hx0 : x <> nan_bits) by (intros ->; apply HN; left; auto).
        destruct (N.eqb_spec x nan_bits) as [|_]; [contradiction|].
        destruct (D2 d1 r1 rest (S1 Hx0) W1 R1) as (d2 & r2 & W2 & R2 & S2 & F2).
        { intros HI. apply HN. right. auto. }
        exists d2, r2. split; auto. split; auto. split; auto.
        intros fuel. cbn [length Nat.add x_collect]. rewrite N1.
        rewrite F2. destruct (x_collect D d_next fuel d2 r2) as [o r'']. destruct o; auto.
  Qed.

  (** Decoding the emitted bits followed by a NaN step or a close. *)
  Lemma x_steps_app e w xs ys : x_steps E e_step e w (xs ++ ys) =
    let '(e', w') := x_steps E e_step e w xs in x_steps E e_step e' w' ys.
  Proof.
    unfold x_steps. rewrite fold_left_app.
    destruct (fold_left (fun '(e0, w0) x => e_step e0 w0 x) xs (e, w)). reflexivity.
  Qed.

  Theorem x_roundtrip xs junk c : Forall P xs -> P nan_bits -> Forall is_byte junk ->
    fst (x_decompress D d_init d_next
      (xr_new (x_buffers (x_prepare E e_close (x_compress E e_init e_step c xs)) ++ junk)))
    = Ok (before_nan xs).
  Proof using Hinit Hsim0 Hstep Hclose.
    clear Hsize e_simclose.
    intros HP HPN HJ.
    destruct (before_nan_spec xs) as (rest & EX & HN & HR).
    set (ys := before_nan xs) in *. clearbody ys. subst xs.
    apply Forall_app in HP. destruct HP as [HPy HPr].
    destruct (x_steps_emit ys e_init Hinit HPy) as (b1 & e1 & HE1 & Em1 & L1 & D1).
    destruct (Em1 w_new [] wrep_new) as (w1 & S1 & W1). cbn [app] in W1.
    (* the rest of the chunk begins with something decoding to None *)
    assert (HT : exists b2 e2 w2,
      (let '(e, w) := x_steps E e_step e_init w_new (ys ++ rest) in e_close e w) = (e2, w2) /\
      wrep w2 (b1 ++ b2) /\
      forall d r rest', Sim e1 d -> rwf r -> rrem r = b2 ++ rest' ->
        exists d' r', d_next d r = DOk (None, d') r').
    { rewrite x_steps_app, S1. destruct HR as [->|HR].
      - destruct (Hclose e1 HE1) as (b2 & e2 & Em2 & D2).
        destruct (Em2 w1 _ W1) as (w2 & S2 & W2). exists b2, e2, w2. split; [exact S2|]. split; auto.
        intros d r rest' HS HW HRR. destruct (D2 d r rest' HS HW HRR) as (d' & r' & E1 & _). eauto.
      - destruct rest as [|z rest]; [discriminate|]. cbn in HR. inversion HR; subst z.
        inversion HPr as [|? ? _ HPr']; subst.
        destruct (Hstep e1 nan_bits HE1 HPN) as (b2 & e2 & HE2 & Em2 & L2 & D2).
        destruct (Em2 w1 _ W1) as (w2 & S2 & W2).
        destruct (x_steps_emit rest e2 HE2 HPr') as (b3 & e3 & HE3 & Em3 & _ & _).
        destruct (Em3 w2 _ W2) as (w3 & S3 & W3).
        destruct (Hclose e3 HE3) as (b4 & e4 & Em4 & _).
        destruct (Em4 w3 _ W3) as (w4 & S4 & W4).
        exists (b2 ++ b3 ++ b4), e4, w4. split; [|split].
        + unfold x_steps in *. cbn [fold_left]. rewrite S2.
          cbn beta in S3. rewrite S3. exact S4.
        + rewrite !app_assoc. auto.
        + intros d r rest' HS HW HRR. rewrite <- !app_assoc in HRR.
          destruct (D2 d r _ HS HW HRR) as (d' & r' & E1 & _). rewrite N.eqb_refl in E1. eauto. }
    destruct HT as (b2 & e2 & w2 & S2 & W2 & D2).
    assert (HB : x_buffers (x_prepare E e_close (x_compress E e_init e_step c (ys ++ rest))) = wbuf w2).
    { unfold x_buffers, x_prepare, x_compress, x_reset. cbn [xe xw xin].
      change (w_reset (xw c)) with w_new. destruct (x_steps E e_step e_init w_new (ys ++ rest)) as [e w] eqn:ES.
      cbn [xe xw xin]. rewrite S2. reflexivity. }
    rewrite HB. destruct W2 as (F2 & P2 & B2).
    set (r := r_new (wbuf w2 ++ junk)).
    assert (HW : rwf r) by (apply rwf_new; apply Forall_app; auto).
    assert (HRR : rrem r = b1 ++ b2 ++ (repeat false (N.to_nat (8 - wpos w2)) ++ bytes_bits junk)).
    { unfold r. rewrite rrem_new, bytes_bits_app, B2, <- !app_assoc. auto. }
    destruct (D1 d_init r _ Hsim0 HW HRR HN) as (d1 & r1 & HW1 & HR1 & HS1 & HF1).
    destruct (D2 d1 r1 _ HS1 HW1 HR1) as (d2 & r2 & N2).
    unfold x_decompress, xr_new. cbn [xcache xr]. fold r.
    assert (HFuel : exists f, x_fuel r = (length ys + S f)%nat).
    { exists (8 * length (rbuf r) - length ys)%nat. unfold x_fuel.
      assert (length ys <= 8 * length (rbuf r))%nat; [|lia].
      rewrite <- bytes_bits_length. change (bytes_bits (rbuf r)) with (rrem r).
      rewrite HRR, app_length. lia. }
    destruct HFuel as (f & ->). rewrite HF1. cbn [x_collect]. rewrite N2.
    rewrite app_nil_r. reflexivity.
  Qed.

  (** The size reported before closing is at least the real size, by at most one byte. *)
  Theorem x_size_estimate xs c : Forall P xs ->
    let c1 := x_compress E e_init e_step c xs in
    let real := N.of_nat (length (x_buffers (x_prepare E e_close c1))) in
    real <= x_total_bytes_buffered E e_simclose c1 <= real + 1.
  Proof using Hinit Hstep Hsize.
    clear Hclose Hsim0 d_init.
    intros HP. destruct (x_steps_emit xs e_init Hinit HP) as (b1 & e1 & HE1 & Em1 & _ & _).
    destruct (Em1 w_new [] wrep_new) as (w1 & S1 & W1). cbn [app] in W1.
    destruct (Hsize e1 HE1) as (b2 & e2 & Em2 & L2).
    destruct (Em2 w1 _ W1) as (w2 & S2 & W2).
    unfold x_total_bytes_buffered, x_buffers, x_prepare, x_compress, x_reset. cbn [xe xw xin].
    change (w_reset (xw c)) with w_new. rewrite S1. cbn [xe xw xin]. rewrite S2. cbn [xw].
    pose proof (wrep_length _ _ W1) as HL1. pose proof (wrep_length _ _ W2) as HL2.
    rewrite app_length in HL2. destruct W1 as (_ & P1 & _). destruct W2 as (_ & P2 & _).
    rewrite <- L2.
    pose proof (N.div_mod (N.of_nat (length (wbuf w1)) * 8 + N.of_nat (length b2) + 7) 8) as HD.
    pose proof (N.mod_lt (N.of_nat (length (wbuf w1)) * 8 + N.of_nat (length b2) + 7) 8).
    generalize dependent ((N.of_nat (length (wbuf w1)) * 8 + N.of_nat (length b2) + 7) / 8).
    generalize dependent ((N.of_nat (length (wbuf w1)) * 8 + N.of_nat (length b2) + 7) mod 8).
    lia.
  Qed.

  (** The bytes produced do not depend on what the compressor did before. *)
  Theorem x_reuse c1 c2 xs :
    x_compress E e_init e_step c1 xs = x_compress E e_init e_step c2 xs.
  Proof. reflexivity. Qed.
End Generic.

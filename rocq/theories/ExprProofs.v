From Verif Require Import Base WordProofs BitIO Xor F64 Format FormatProofs File FileSpec FileProofs Query QuerySpec QueryProofs Expr ExprSpec.

(** ** Readers *)
Lemma reads_step neg ex first r xs q : reads neg ex first r xs -> reading q ->
  answered neg first xs q (fst (q_step ex first r q)) /\ reads neg ex first (snd (q_step ex first r q)) xs.
Proof.
  intros R Q. split.
  - specialize (R [q] ltac:(auto)). cbn [q_run] in R. destruct (q_step ex first r q) as [a t]. cbn [fst snd] in *. now inversion R.
  - intros qs QS. specialize (R (q :: qs) ltac:(auto)). cbn [q_run] in R. destruct (q_step ex first r q) as [a t]. cbn [fst snd].
    destruct (q_run ex first t qs) as [l u]. cbn [fst] in *. now inversion R.
Qed.
Lemma reads_materialize neg ex first r xs mask : reads neg ex first r xs -> mask = None \/ first + N.of_nat (length xs) < 2 ^ 32 ->
  exists ys s, choose mask first xs ys /\ ex_materialize ex mask first r = (bytes_of ys, Ok tt, s) /\ reads neg ex first s xs.
Proof.
  intros R B. destruct (reads_step _ _ _ _ _ (QMaterialize mask) R I) as [A R']. cbn [q_step answered] in *.
  destruct (ex_materialize ex mask first r) as [[w o] s]. cbn [fst snd] in *. destruct (A B) as (ys & C & E). injection E as -> ->. eauto.
Qed.
Lemma reads_distance neg ex first r xs o t : reads neg ex first r xs ->
  exists s, ex_distance_squared ex o t r = (Ok (squared_distance neg (skipn (N.to_nat o) xs) t), s) /\ reads neg ex first s xs.
Proof.
  intros R. destruct (reads_step _ _ _ _ _ (QDistance o t) R I) as [A R']. cbn [q_step answered] in *.
  destruct (ex_distance_squared ex o t r) as [v s]. cbn [fst snd] in *. injection A as ->. eauto.
Qed.
Lemma reads_dot neg ex first r xs o t : reads neg ex first r xs ->
  exists s, ex_dot_product ex o t r = (Ok (dot neg (skipn (N.to_nat o) xs) t), s) /\ reads neg ex first s xs.
Proof.
  intros R. destruct (reads_step _ _ _ _ _ (QDot o t) R I) as [A R']. cbn [q_step answered] in *.
  destruct (ex_dot_product ex o t r) as [v s]. cbn [fst snd] in *. injection A as ->. eauto.
Qed.

(** ** Expressions *)
Lemma choose_map {A B} (f : A -> B) mask xs : forall first ys, choose mask first xs ys -> choose mask first (map f xs) (map f ys).
Proof. intros first ys C. induction C; cbn [map]; constructor; auto. Qed.
Lemma choose_total {A} mask (xs : list A) : forall first, exists ys, choose mask first xs ys.
Proof.
  induction xs as [|x xs IH]; intros first; [exists []; constructor|]. destruct (IH (first + 1)) as (ys & C).
  destruct (allowed mask first) eqn:E.
  - exists (x :: ys). constructor; [now apply allowed_in|exact C].
  - exists ys. constructor; [rewrite <- allowed_in; congruence|exact C].
Qed.
Lemma choose_incl {A} mask (xs : list A) first ys : choose mask first xs ys -> incl ys xs.
Proof. intros C. induction C; [apply incl_refl|apply incl_cons; [now left|apply incl_tl; auto]|apply incl_tl; auto]. Qed.
Lemma choose_le {A} mask (xs : list A) first ys : choose mask first xs ys -> (length ys <= length xs)%nat.
Proof. intros C. induction C; cbn [length]; lia. Qed.
Lemma values_of_bytes ys : forall rest, Forall is_u64 ys -> values_of (length ys) (bytes_of ys ++ rest) = map of_bits ys.
Proof.
  induction ys as [|y ys IH]; intros rest U; [reflexivity|]. inversion_clear U. cbn [length values_of map].
  change (bytes_of (y :: ys)) with (le_bytes 8 y ++ bytes_of ys). rewrite <- app_assoc.
  assert (L : length (le_bytes 8 y) = 8%nat) by apply le_bytes_length.
  rewrite (firstn_app 8 (le_bytes 8 y)), (skipn_app 8 (le_bytes 8 y)), L, Nat.sub_diag. change (firstn 0 ?l) with (@nil N).
  rewrite firstn_all2, skipn_all2, app_nil_r by (rewrite L; lia). cbn [skipn app]. rewrite IH by assumption. f_equal.
  f_equal. apply le_val_bytes. assumption.
Qed.

Lemma replace_nth {A} (l : list A) k x j : nth_error (replace l k x) j = if Nat.eqb j k then match nth_error l k with Some _ => Some x | None => None end else nth_error l j.
Proof.
  revert k j. induction l as [|y l IH]; intros k j; [destruct k, j; cbn; try reflexivity; now destruct (Nat.eqb _ _)|].
  destruct k, j; cbn [replace nth_error Nat.eqb]; auto.
Qed.
Lemma replace_length {A} (l : list A) k x : length (replace l k x) = length l.
Proof. revert k. induction l as [|y l IH]; intros [|k]; cbn; auto. Qed.

Section Chunk.
  Variable neg : bool.
  Variable mask : option bitmap.
  Variable first : N.
  Variable rows : list (list N).
  Hypothesis BD : mask = None \/ first + N.of_nat (length rows) < 2 ^ 32.
  Hypothesis SZ : 8 * N.of_nat (length rows) < isize_limit.
  Variable ys : list (list N).
  Hypothesis CH : choose mask first rows ys.

  Lemma read_column_ok k r : rd_records r = N.of_nat (length rows) -> rd_offset r = first -> Forall is_u64 (column k rows) ->
    reads neg (rd_ex r) first (rd_state r) (column k rows) ->
    exists s, read_column mask r = (Ok (map (fun row => of_bits (nth k row 0)) ys), mkRd (rd_ex r) s (rd_records r) first) /\
      reads neg (rd_ex r) first s (column k rows).
  Proof using BD SZ CH.
    intros RR RO U R. unfold read_column. rewrite RR, RO.
    destruct (isize_limit <=? 8 * N.of_nat (length rows)) eqn:E; [apply N.leb_le in E; lia|]. clear E.
    destruct (reads_materialize neg _ _ _ _ mask R) as (zs & s & C & M & R').
    { unfold column. rewrite map_length. exact BD. }
    rewrite M. assert (ZS : zs = column k ys) by (eapply choose_fun; [exact C|]; apply choose_map, CH). subst zs.
    pose proof (choose_le _ _ _ _ CH) as LE.
    assert (UY : Forall is_u64 (column k ys)).
    { rewrite Forall_forall in *. intros x I. apply U. unfold column in *. apply in_map_iff in I as (row & <- & I). apply in_map_iff.
      exists row. split; [reflexivity|]. eapply choose_incl; eauto. }
    assert (LB : length (bytes_of (column k ys)) = (8 * length ys)%nat).
    { rewrite bytes_of_length. unfold column. now rewrite map_length. }
    cbn [rd_records]. rewrite LB. destruct (8 * N.of_nat (length rows) <? N.of_nat (8 * length ys)) eqn:E; [apply N.ltb_lt in E; lia|]. clear E.
    cbn [rbind]. replace (8 * length ys / 8)%nat with (length (column k ys)).
    2:{ unfold column. rewrite map_length. rewrite Nat.mul_comm, Nat.div_mul; lia. }
    rewrite <- (app_nil_r (bytes_of (column k ys))), values_of_bytes by assumption.
    exists s. split; [|exact R']. f_equal. f_equal. unfold column. now rewrite map_map.
  Qed.

  Lemma combine_map {A B C D} (f : A -> B) (g : A -> C) (h : B * C -> D) l :
    map h (combine (map f l) (map g l)) = map (fun x => h (f x, g x)) l.
  Proof using. induction l; cbn; congruence. Qed.

  Lemma compute_chunk_ok n e : formula n e -> forall rs, length rs = n -> opened neg first rows rs ->
    exists rs', compute_chunk e mask rs = (Ok (map (fun row => value row e) ys), rs') /\ length rs' = n /\ opened neg first rows rs'.
  Proof using BD SZ CH.
    assert (LT : forall e, formula n e -> literal e = None) by (intros e0 F; destruct F; reflexivity).
    induction 1 as [k K|o l r FL IHL FR IHR|o v r FR IHR|o l v FL IHL]; intros rs L OP.
    - cbn [compute_chunk]. destruct (nth_error rs k) as [r|] eqn:E; [|apply nth_error_None in E; lia].
      destruct (OP k r E) as (A & B & U & R). destruct (read_column_ok k r A B U R) as (s & -> & R').
      eexists. split; [reflexivity|]. split; [now rewrite replace_length|].
      intros j q EQ. rewrite replace_nth in EQ. destruct (Nat.eqb j k) eqn:EJ; [|now apply OP].
      apply Nat.eqb_eq in EJ. subst j. rewrite E in EQ. injection EQ as <-. cbn [rd_records rd_offset rd_ex rd_state]. auto.
    - cbn [compute_chunk]. rewrite (LT _ FL), (LT _ FR).
      destruct (IHL rs L OP) as (rs1 & -> & L1 & O1). destruct (IHR rs1 L1 O1) as (rs2 & -> & L2 & O2). cbn [rbind].
      exists rs2. split; [|auto]. rewrite combine_map. reflexivity.
    - cbn [compute_chunk literal]. rewrite (LT _ FR). destruct (IHR rs L OP) as (rs1 & -> & L1 & O1). cbn [rbind].
      exists rs1. split; [|auto]. rewrite map_map. reflexivity.
    - cbn [compute_chunk literal]. rewrite (LT _ FL). destruct (IHL rs L OP) as (rs1 & -> & L1 & O1). cbn [rbind].
      exists rs1. split; [|auto]. rewrite map_map. reflexivity.
  Qed.

  Lemma formula_dec n e : formula n e \/ ~ formula n e.
  Proof using.
    clear. induction e as [v|o l IHL r IHR|k].
    - right. intros F. inversion F.
    - destruct IHL as [FL|NL].
      + destruct IHR as [FR|NR]; [left; now constructor|]. destruct r as [v| |]; [left; now constructor| |];
          (right; intros F; inversion F; subst; auto; try inversion FL).
      + destruct IHR as [FR|NR]; [destruct l as [v| |]; [left; now constructor| |]; (right; intros F; inversion F; subst; auto; try inversion FR)|].
        right. intros F. inversion F; subst; auto.
    - destruct (Nat.ltb k n) eqn:E; [left; constructor; now apply Nat.ltb_lt|]. right. intros F. inversion F; subst. apply Nat.ltb_ge in E. lia.
  Qed.
  Lemma compute_chunk_rejects n e : columns_below n e -> ~ formula n e -> forall rs, length rs = n -> opened neg first rows rs ->
    exists rs', compute_chunk e mask rs = (Err EPreconditionsNotMet, rs') /\ length rs' = n /\ opened neg first rows rs'.
  Proof using BD SZ CH.
    induction 1 as [v|k K|o l r BL IHL BR IHR]; intros NF rs L OP.
    - exists rs. auto.
    - destruct NF. now constructor.
    - assert (LIT : forall e, (exists v, e = Literal v) \/ literal e = None) by (intros [v| |]; eauto).
      cbn [compute_chunk]. destruct (LIT l) as [(v & ->)|LL], (LIT r) as [(w & ->)|LR].
      + cbn [literal]. exists rs. auto.
      + cbn [literal]. rewrite LR. destruct (IHR) with (rs := rs) as (rs' & -> & A); auto; [|exists rs'; auto].
        intros F. apply NF. now constructor.
      + rewrite LL. cbn [literal]. destruct (IHL) with (rs := rs) as (rs' & -> & A); auto; [|exists rs'; auto].
        intros F. apply NF. now constructor.
      + rewrite LL, LR. destruct (formula_dec n l) as [FL|NL].
        * destruct (compute_chunk_ok n l FL rs L OP) as (rs1 & -> & L1 & O1).
          destruct IHR with (rs := rs1) as (rs' & -> & A); auto; [|exists rs'; auto]. intros F. apply NF. now constructor.
        * destruct (IHL NL rs L OP) as (rs1 & -> & A). exists rs1. auto.
  Qed.
End Chunk.

(** No columns at all. *)
Lemma compute_chunk_literal e mask rs : max_index e = None -> compute_chunk e mask rs = (Err EPreconditionsNotMet, rs).
Proof.
  induction e as [v|o l IHL r IHR|k]; intros M; [reflexivity| |discriminate M].
  cbn [max_index] in M. destruct (max_index l) eqn:ML, (max_index r) eqn:MR; try discriminate M.
  cbn [compute_chunk]. specialize (IHL eq_refl). specialize (IHR eq_refl).
  destruct (literal l), (literal r); try reflexivity; rewrite ?IHL, ?IHR; reflexivity.
Qed.

(** Proofs about the files results are saved to. *)
From Coq Require Import Arith.
From Verif Require Import Base Harness HarnessSpec.
Local Open Scope nat_scope.

Lemma dget_put i j v : forall k, dget i (dput j v k) = if Nat.eq_dec i j then Some v else dget i k.
Proof.
  unfold dget, dput. induction k as [|[a p] k IH]; cbn [put get].
  - destruct (Nat.eqb_spec i j), (Nat.eq_dec i j); congruence.
  - destruct (Nat.eqb_spec j a) as [->|NE]; cbn [get].
    + destruct (Nat.eqb_spec i a), (Nat.eq_dec i a); congruence.
    + rewrite IH. destruct (Nat.eqb_spec i a) as [->|NJ]; [|reflexivity]. destruct (Nat.eq_dec a j); congruence.
Qed.
Lemma dget_key i k v : dget i k = Some v -> In i (map fst k).
Proof.
  unfold dget. induction k as [|[a p] k IH]; cbn [get map fst]; [discriminate|].
  destruct (Nat.eqb_spec i a) as [->|_]; [intros _; apply in_eq|]. intros E. right. now apply IH.
Qed.

(** ** One program alone *)
Lemma taken_or_free k m : (forall j, j < m -> dget j k <> None) \/ exists i, i < m /\ (forall j, j < i -> dget j k <> None) /\ dget i k = None.
Proof.
  induction m as [|m IH]; [left; intros j L; lia|]. destruct IH as [A|(i & L & A & B)].
  - destruct (dget m k) eqn:E.
    + left. intros j L. destruct (Nat.eq_dec j m) as [->|NE]; [congruence|]. apply A. lia.
    + right. exists m. split; [lia|]. split; [exact A|exact E].
  - right. exists i. split; [lia|]. split; assumption.
Qed.
Lemma least_free k : exists i, (forall j, j < i -> dget j k <> None) /\ dget i k = None.
Proof.
  destruct (taken_or_free k (S (length k))) as [A|(i & _ & X)]; [|now exists i]. exfalso.
  assert (L : length (seq 0 (S (length k))) <= length (map fst k)).
  { apply NoDup_incl_length; [apply seq_NoDup|]. intros j I. apply in_seq in I. specialize (A j ltac:(lia)).
    destruct (dget j k) eqn:E; [|contradiction]. now apply (dget_key j k l). }
  rewrite seq_length, map_length in L. lia.
Qed.
Lemma run_one m k p : run (0 :: repeat 0 m) k [p] = let '(k, p) := step_proc k p in run (repeat 0 m) k [p].
Proof. cbn [run nth_error firstn skipn]. destruct (step_proc k p). reflexivity. Qed.
Lemma run_done m : forall k c, run (repeat 0 m) k [mkProc c Done] = (k, [mkProc c Done]).
Proof. induction m as [|m IH]; intros k c; [reflexivity|]. cbn [repeat]. rewrite run_one. cbn [step_proc p_step]. apply IH. Qed.
Lemma run_probe c i k : (forall j, j < i -> dget j k <> None) -> dget i k = None ->
  forall d j m, i = j + d -> d + 3 <= m -> run (repeat 0 m) k [mkProc c (Probe j)] = (dput i c (dput i [] k), [mkProc c Done]).
Proof.
  intros T F. induction d as [|d IH]; intros j m E L; (destruct m as [|m]; [lia|]); cbn [repeat]; rewrite run_one; cbn [step_proc p_step p_content].
  - assert (j = i) by lia. subst j. rewrite F. destruct m as [|m]; [lia|]. cbn [repeat]. rewrite run_one. cbn [step_proc p_step p_content].
    destruct m as [|m]; [lia|]. cbn [repeat]. rewrite run_one. cbn [step_proc p_step p_content]. rewrite dget_put.
    destruct (Nat.eq_dec i i); [|contradiction]. apply run_done.
  - destruct (dget j k) eqn:G; [|exfalso; apply (T j ltac:(lia)); exact G]. apply IH; lia.
Qed.
Lemma save_alone k c : exists i, (forall j, j < i -> dget j k <> None) /\ dget i k = None /\
  forall m, i + 3 <= m -> exists k', run (repeat 0 m) k [start_save c] = (k', [mkProc c Done]) /\
    dget i k' = Some c /\ forall j, j <> i -> dget j k' = dget j k.
Proof.
  destruct (least_free k) as (i & T & F). exists i. split; [exact T|]. split; [exact F|]. intros m L. eexists.
  split; [apply (run_probe c i k T F i 0); lia|]. split; [rewrite dget_put; now destruct (Nat.eq_dec i i)|].
  intros j NE. rewrite !dget_put. now destruct (Nat.eq_dec j i).
Qed.

(** ** Any interleaving *)
Lemma nth_error_update {A} (l : list A) a x : a < length l -> forall b,
  nth_error (firstn a l ++ x :: skipn (S a) l) b = if Nat.eq_dec b a then Some x else nth_error l b.
Proof.
  revert a. induction l as [|y l IH]; intros a L b; cbn [length] in L; [lia|]. destruct a as [|a].
  - cbn [firstn app skipn]. destruct b as [|b]; [reflexivity|]. cbn [nth_error]. destruct (Nat.eq_dec (S b) 0); [discriminate|reflexivity].
  - change (skipn (S (S a)) (y :: l)) with (skipn (S a) l). cbn [firstn app]. destruct b as [|b]; [destruct (Nat.eq_dec 0 (S a)); [discriminate|reflexivity]|]. cbn [nth_error].
    rewrite (IH a ltac:(lia) b). destruct (Nat.eq_dec b a), (Nat.eq_dec (S b) (S a)); congruence || lia.
Qed.
(** An invariant of disk and processes that every step keeps holds after every schedule. *)
Lemma run_invariant (I : disk -> list proc -> Prop) :
  (forall k ps a p k' p', I k ps -> nth_error ps a = Some p -> step_proc k p = (k', p') -> I k' (firstn a ps ++ p' :: skipn (S a) ps)) ->
  forall schedule k ps k' ps', I k ps -> run schedule k ps = (k', ps') -> I k' ps'.
Proof.
  intros ST. induction schedule as [|a schedule IH]; intros k ps k' ps' H E; cbn [run] in E; [now injection E as <- <-|].
  destruct (nth_error ps a) as [p|] eqn:N; [|now apply (IH k ps)]. destruct (step_proc k p) as [k1 p1] eqn:S1.
  apply IH in E; [exact E|]. now apply (ST k ps a p).
Qed.

(** What was there before is never changed. *)
Lemma old_files_stay schedule k ps k' ps' : Forall (fun p => exists c, p = start_save c \/ exists name, p = start_save_safely c name) ps ->
  run schedule k ps = (k', ps') -> forall name c, dget name k = Some c -> dget name k' = Some c.
Proof.
  intros H E.
  cut ((forall name c, dget name k = Some c -> dget name k' = Some c) /\
       forall a p, nth_error ps' a = Some p -> match p_step p with Create i | Write i => dget i k = None | _ => True end); [tauto|].
  revert E. apply (run_invariant (fun k' ps' => (forall name c, dget name k = Some c -> dget name k' = Some c) /\
       forall a p, nth_error ps' a = Some p -> match p_step p with Create i | Write i => dget i k = None | _ => True end)).
  - intros k1 ps1 a p k2 p2 (O & W) N S.
    assert (L : a < length ps1) by (apply nth_error_Some; congruence). pose proof (W a p N) as WP.
    assert (NOLD : forall i, dget i k1 = None -> dget i k = None) by (intros i X; destruct (dget i k) eqn:G; [|reflexivity]; apply O in G; congruence).
    assert (STEP : (forall name c, dget name k = Some c -> dget name k2 = Some c) /\ match p_step p2 with Create i | Write i => dget i k = None | _ => True end).
    { unfold step_proc in S. destruct (p_step p) as [i|i|i|i| |] eqn:P.
      - injection S as <- <-. split; [exact O|]. cbn [p_step]. destruct (dget i k1) eqn:G; [exact Logic.I|now apply NOLD].
      - injection S as <- <-. split; [|exact WP]. intros name c G. rewrite dget_put. destruct (Nat.eq_dec name i) as [->|_]; [congruence|now apply O].
      - destruct (dget i k1) eqn:G; injection S as <- <-; (split; [|cbn [p_step]]); [exact O|exact Logic.I| |now apply NOLD].
        intros name c G'. rewrite dget_put. destruct (Nat.eq_dec name i) as [->|_]; [rewrite (NOLD _ G) in G'; discriminate|now apply O].
      - injection S as <- <-. split; [|exact Logic.I]. intros name c G. destruct (dget i k1); [|now apply O]. rewrite dget_put.
        destruct (Nat.eq_dec name i) as [->|_]; [congruence|now apply O].
      - injection S as <- <-. rewrite P. split; [exact O|exact Logic.I].
      - injection S as <- <-. rewrite P. split; [exact O|exact Logic.I]. }
    destruct STEP as (O2 & P2). split; [exact O2|]. intros b q. rewrite (nth_error_update ps1 a p2 L b).
    destruct (Nat.eq_dec b a) as [->|_]; [intros X; injection X as <-; exact P2|apply W].
  - split; [trivial|]. intros a p N. apply nth_error_In in N. rewrite Forall_forall in H. destruct (H p N) as (c & [->|(name & ->)]); exact Logic.I.
Qed.

(** [save_json_safely]: every result is in its file or was printed. *)
Definition safe_state (k0 k : disk) (jobs : list (list N * nat)) (ps : list proc) : Prop :=
  length ps = length jobs /\
  (forall a c name p, nth_error jobs a = Some (c, name) -> nth_error ps a = Some p ->
     p_content p = c /\
     match p_step p with
     | CreateNew i => i = name
     | Write i => i = name /\ dget name k = Some [] /\ dget name k0 = None
     | Done => dget name k = Some c /\ dget name k0 = None
     | Printed => dget name k <> None
     | _ => False
     end) /\
  (forall a b c d name p q, a <> b -> nth_error jobs a = Some (c, name) -> nth_error jobs b = Some (d, name) ->
     nth_error ps a = Some p -> nth_error ps b = Some q ->
     match p_step p, p_step q with (Write _ | Done), (Write _ | Done) => False | _, _ => True end).
Lemma safe_init k jobs : safe_state k k jobs (map (fun '(c, name) => start_save_safely c name) jobs).
Proof.
  split; [apply map_length|]. split.
  - intros a c name p J P. rewrite (map_nth_error _ _ _ J) in P. injection P as <-. split; reflexivity.
  - intros a b c d name p q NE J1 J2 P Q. rewrite (map_nth_error _ _ _ J1) in P. injection P as <-. exact Logic.I.
Qed.
Lemma safe_step k0 jobs k ps a p k' p' : (forall name c, dget name k0 = Some c -> dget name k = Some c) ->
  safe_state k0 k jobs ps -> nth_error ps a = Some p -> step_proc k p = (k', p') -> safe_state k0 k' jobs (firstn a ps ++ p' :: skipn (S a) ps).
Proof.
  intros OLD (LEN & EACH & TWO) N ST. assert (L : a < length ps) by (apply nth_error_Some; congruence).
  assert (J : exists c name, nth_error jobs a = Some (c, name)).
  { destruct (nth_error jobs a) as [[c name]|] eqn:E; [eauto|]. apply nth_error_None in E. lia. }
  destruct J as (c & name & J). destruct (EACH a c name p J N) as (PC & PS).
  assert (LEN' : length (firstn a ps ++ p' :: skipn (S a) ps) = length jobs).
  { rewrite app_length, firstn_length. cbn [length]. rewrite skipn_length. lia. }
  (* only the file called [name] changes, and only if nobody else owns it *)
  assert (OTHER : forall b d nm q, b <> a -> nth_error jobs b = Some (d, nm) -> nth_error ps b = Some q ->
            match p_step q with Write _ | Done => dget nm k' = dget nm k | Printed => dget nm k' <> None | _ => True end).
  { intros b d nm q NE JB NB. destruct (EACH b d nm q JB NB) as (_ & QS).
    destruct (Nat.eq_dec nm name) as [->|NN].
    - pose proof (TWO b a d c name q p NE JB J NB N) as T.
      unfold step_proc in ST. destruct (p_step p) as [i|i|i|i| |]; try contradiction.
      + subst i. destruct (dget name k) eqn:G; injection ST as <- <-.
        * destruct (p_step q); try exact Logic.I; try reflexivity; congruence.
        * destruct (p_step q); try exact Logic.I; try contradiction; destruct QS; try congruence; destruct H0; congruence.
      + destruct PS as (-> & G & _). rewrite G in ST. injection ST as <- <-. rewrite dget_put. destruct (Nat.eq_dec name name); [|contradiction].
        destruct (p_step q); try exact Logic.I; try contradiction. discriminate.
      + injection ST as <- <-. destruct (p_step q); try exact Logic.I; try contradiction; try reflexivity. exact QS.
      + injection ST as <- <-. destruct (p_step q); try exact Logic.I; try contradiction; try reflexivity. exact QS.
    - assert (SAME : dget nm k' = dget nm k).
      { unfold step_proc in ST. destruct (p_step p) as [i|i|i|i| |]; try contradiction.
        - subst i. destruct (dget name k); injection ST as <- <-; [reflexivity|]. rewrite dget_put. now destruct (Nat.eq_dec nm name).
        - destruct PS as (-> & G & _). rewrite G in ST. injection ST as <- <-. rewrite dget_put. now destruct (Nat.eq_dec nm name).
        - now injection ST as <- <-.
        - now injection ST as <- <-. }
      destruct (p_step q); try exact Logic.I; try exact SAME. now rewrite SAME. }
  (* the process itself *)
  assert (SELF : p_content p' = c /\
     match p_step p' with
     | CreateNew i => i = name
     | Write i => i = name /\ dget name k' = Some [] /\ dget name k0 = None
     | Done => dget name k' = Some c /\ dget name k0 = None
     | Printed => dget name k' <> None
     | _ => False
     end /\ (match p_step p' with Write _ | Done => True | _ => False end -> match p_step p with Write _ | Done => True | _ => dget name k = None end)).
  { unfold step_proc in ST. destruct (p_step p) as [i|i|i|i| |] eqn:P; try contradiction.
    - subst i. destruct (dget name k) eqn:G; injection ST as <- <-; cbn [p_content p_step].
      + split; [exact PC|]. split; [congruence|]. intros [].
      + split; [exact PC|]. split; [|intros _; reflexivity]. split; [reflexivity|]. rewrite dget_put. destruct (Nat.eq_dec name name); [|contradiction].
        split; [reflexivity|]. destruct (dget name k0) eqn:G0; [|reflexivity]. apply OLD in G0. congruence.
    - destruct PS as (-> & G & G0). rewrite G in ST. injection ST as <- <-. cbn [p_content p_step]. split; [exact PC|]. split; [|intros _; exact Logic.I].
      rewrite dget_put. destruct (Nat.eq_dec name name); [|contradiction]. split; [now rewrite PC|exact G0].
    - injection ST as <- <-. rewrite P. split; [exact PC|]. split; [exact PS|]. intros _; exact Logic.I.
    - injection ST as <- <-. rewrite P. split; [exact PC|]. split; [exact PS|]. intros []. }
  destruct SELF as (SC & SS & SO). split; [exact LEN'|]. split.
  - intros b d nm q JB NB. rewrite (nth_error_update ps a p' L b) in NB. destruct (Nat.eq_dec b a) as [->|NE].
    + injection NB as <-. rewrite J in JB. injection JB as <- <-. split; [exact SC|exact SS].
    + destruct (EACH b d nm q JB NB) as (QC & QS). split; [exact QC|]. pose proof (OTHER b d nm q NE JB NB) as O.
      destruct (p_step q); try contradiction; try exact QS; try exact O; rewrite O; exact QS.
  - assert (HALF : forall b d q, b <> a -> nth_error jobs b = Some (d, name) -> nth_error ps b = Some q ->
              match p_step p', p_step q with (Write _ | Done), (Write _ | Done) => False | _, _ => True end).
    { intros b d q NE JB NB. pose proof (TWO b a d c name q p NE JB J NB N) as T. destruct (EACH b d name q JB NB) as (_ & QS).
      destruct (p_step p'); try exact Logic.I; specialize (SO Logic.I); destruct (p_step q); try exact Logic.I;
        destruct (p_step p); try contradiction; destruct QS as [QS1 QS2]; try congruence; destruct QS2; congruence. }
    intros b1 b2 d1 d2 nm q1 q2 NE J1 J2 N1 N2. rewrite (nth_error_update ps a p' L) in N1, N2.
    destruct (Nat.eq_dec b1 a) as [->|NE1], (Nat.eq_dec b2 a) as [->|NE2]; [contradiction| | |].
    + injection N1 as <-. rewrite J in J1. injection J1 as <- <-. now apply (HALF b2 d2).
    + injection N2 as <-. rewrite J in J2. injection J2 as <- <-. pose proof (HALF b1 d1 q1 NE1 J1 N1) as H. destruct (p_step q1), (p_step p'); tauto.
    + now apply (TWO b1 b2 d1 d2 nm).
Qed.
Lemma safe_next k jobs k1 ps1 a p k2 p2 : (forall name c, dget name k = Some c -> dget name k1 = Some c) /\ safe_state k k1 jobs ps1 ->
  nth_error ps1 a = Some p -> step_proc k1 p = (k2, p2) ->
  (forall name c, dget name k = Some c -> dget name k2 = Some c) /\ safe_state k k2 jobs (firstn a ps1 ++ p2 :: skipn (S a) ps1).
Proof.
  intros (O & SF) N S0. split; [|now apply (safe_step k jobs k1 ps1 a p)].
  pose proof SF as (LEN & EACH & _). assert (L : a < length ps1) by (apply nth_error_Some; congruence).
  assert (J : exists c name, nth_error jobs a = Some (c, name)).
  { destruct (nth_error jobs a) as [[c name]|] eqn:E; [eauto|]. apply nth_error_None in E. lia. }
  destruct J as (c & name & J). destruct (EACH a c name p J N) as (_ & PS). intros nm d G. specialize (O nm d G).
  unfold step_proc in S0. destruct (p_step p) as [i|i|i|i| |]; try contradiction.
  + subst i. destruct (dget name k1) eqn:G1; injection S0 as <- <-; [exact O|]. rewrite dget_put. destruct (Nat.eq_dec nm name); [congruence|exact O].
  + destruct PS as (-> & G1 & G0). rewrite G1 in S0. injection S0 as <- <-. rewrite dget_put. destruct (Nat.eq_dec nm name); [congruence|exact O].
  + now injection S0 as <- <-.
  + now injection S0 as <- <-.
Qed.
Lemma safe_always schedule k jobs k' ps' : run schedule k (map (fun '(c, name) => start_save_safely c name) jobs) = (k', ps') -> safe_state k k' jobs ps'.
Proof.
  intros E. cut ((forall name c, dget name k = Some c -> dget name k' = Some c) /\ safe_state k k' jobs ps'); [tauto|]. revert E.
  apply (run_invariant (fun k' ps' => (forall name c, dget name k = Some c -> dget name k' = Some c) /\ safe_state k k' jobs ps')).
  - intros k1 ps1 a p k2 p2 H N ST. exact (safe_next k jobs k1 ps1 a p k2 p2 H N ST).
  - split; [trivial|apply safe_init].
Qed.

Definition owned (p : proc) : Prop := match p_step p with Write _ | Done => True | _ => False end.
Lemma safe_made schedule k jobs k' ps' : run schedule k (map (fun '(c, name) => start_save_safely c name) jobs) = (k', ps') ->
  forall name, dget name k' <> None -> dget name k <> None \/ exists b d q, nth_error jobs b = Some (d, name) /\ nth_error ps' b = Some q /\ owned q.
Proof.
  intros E. cut (((forall name c, dget name k = Some c -> dget name k' = Some c) /\ safe_state k k' jobs ps') /\
    forall name, dget name k' <> None -> dget name k <> None \/ exists b d q, nth_error jobs b = Some (d, name) /\ nth_error ps' b = Some q /\ owned q); [tauto|]. revert E.
  apply (run_invariant (fun k' ps' => ((forall name c, dget name k = Some c -> dget name k' = Some c) /\ safe_state k k' jobs ps') /\
    forall name, dget name k' <> None -> dget name k <> None \/ exists b d q, nth_error jobs b = Some (d, name) /\ nth_error ps' b = Some q /\ owned q)).
  - intros k1 ps1 a p k2 p2 (SF & MADE) N ST. split; [exact (safe_next k jobs k1 ps1 a p k2 p2 SF N ST)|].
    destruct SF as (O & LEN & EACH & _). assert (L : a < length ps1) by (apply nth_error_Some; congruence).
    assert (J : exists c name, nth_error jobs a = Some (c, name)).
    { destruct (nth_error jobs a) as [[c name]|] eqn:E; [eauto|]. apply nth_error_None in E. lia. }
    destruct J as (c & name & J). destruct (EACH a c name p J N) as (_ & PS).
    assert (KEEP : owned p -> owned p2).
    { unfold owned. unfold step_proc in ST. destruct (p_step p) as [i|i|i|i| |] eqn:P; try contradiction; intros _; injection ST as <- <-; [exact Logic.I|rewrite P; exact Logic.I]. }
    intros nm G. assert (NEW : dget nm k1 <> None \/ (nm = name /\ owned p2)).
    { unfold step_proc in ST. destruct (p_step p) as [i|i|i|i| |] eqn:P; try contradiction.
      - subst i. destruct (dget name k1) eqn:G1; injection ST as <- <-; [now left|]. rewrite dget_put in G. destruct (Nat.eq_dec nm name); [right; split; [assumption|exact Logic.I]|now left].
      - destruct PS as (-> & G1 & _). rewrite G1 in ST. injection ST as <- <-. rewrite dget_put in G. destruct (Nat.eq_dec nm name); [right; split; [assumption|exact Logic.I]|now left].
      - injection ST as <- <-. now left.
      - injection ST as <- <-. now left. }
    destruct NEW as [G1|(-> & OW)].
    + destruct (MADE nm G1) as [H|(b & d & q & JB & NB & OW)]; [now left|]. right. exists b, d.
      destruct (Nat.eq_dec b a) as [->|NE].
      * exists p2. rewrite (nth_error_update ps1 a p2 L). destruct (Nat.eq_dec a a); [|contradiction]. split; [exact JB|]. split; [reflexivity|]. apply KEEP. congruence.
      * exists q. rewrite (nth_error_update ps1 a p2 L). destruct (Nat.eq_dec b a); [contradiction|]. now split.
    + right. exists a, c, p2. rewrite (nth_error_update ps1 a p2 L). destruct (Nat.eq_dec a a); [|contradiction]. now split.
  - split; [split; [trivial|apply safe_init]|]. intros name G. now left.
Qed.
(** Every program has saved its results, or reported that it could not. *)
Lemma safe_finished schedule k jobs k' ps' : run schedule k (map (fun '(c, name) => start_save_safely c name) jobs) = (k', ps') ->
  Forall (fun p => p_step p = Done \/ p_step p = Printed) ps' -> forall a c name, nth_error jobs a = Some (c, name) ->
  match dget name k with
  | Some old => dget name k' = Some old /\ nth_error ps' a = Some (mkProc c Printed)
  | None => exists b d, nth_error jobs b = Some (d, name) /\ dget name k' = Some d /\
      nth_error ps' a = Some (mkProc c (if Nat.eqb a b then Done else Printed))
  end.
Proof.
  intros E FIN a c name J. pose proof (safe_always _ _ _ _ _ E) as (LEN & EACH & TWO). pose proof (safe_made _ _ _ _ _ E name) as MADE.
  assert (A : exists p, nth_error ps' a = Some p).
  { destruct (nth_error ps' a) as [p|] eqn:N; [eauto|]. apply nth_error_None in N. assert (a < length jobs) by (apply nth_error_Some; congruence). lia. }
  destruct A as (p & N). destruct (EACH a c name p J N) as (PC & PS).
  rewrite Forall_forall in FIN. assert (F : p_step p = Done \/ p_step p = Printed) by (apply FIN; eapply nth_error_In; exact N).
  assert (PE : forall st, p_step p = st -> p = mkProc c st) by (intros st <-; rewrite <- PC; destruct p; reflexivity).
  destruct (dget name k) as [old|] eqn:G.
  - assert (OLD : dget name k' = Some old).
    { refine (old_files_stay schedule k _ k' ps' _ E name old G). apply Forall_forall. intros q I. apply in_map_iff in I. destruct I as ([c1 n1] & <- & _). exists c1. right. now exists n1. }
    split; [exact OLD|]. destruct F as [F|F]; rewrite F in PS; [destruct PS as (_ & X); discriminate|]. rewrite N. f_equal. now apply PE.
  - assert (EXI : dget name k' <> None) by (destruct F as [F|F]; rewrite F in PS; [destruct PS; congruence|exact PS]).
    destruct (MADE EXI) as [X|(b & d & q & JB & NB & OW)]; [congruence|]. exists b, d. split; [exact JB|].
    assert (FQ : p_step q = Done \/ p_step q = Printed) by (apply FIN; eapply nth_error_In; exact NB).
    assert (DQ : p_step q = Done) by (destruct FQ as [FQ|FQ]; [exact FQ|]; unfold owned in OW; rewrite FQ in OW; contradiction).
    destruct (EACH b d name q JB NB) as (_ & QS). rewrite DQ in QS. split; [apply QS|]. rewrite N. f_equal. apply PE.
    destruct (Nat.eqb a b) eqn:AB; [apply Nat.eqb_eq in AB; subst b; congruence|]. apply Nat.eqb_neq in AB.
    destruct F as [F|F]; [|exact F]. pose proof (TWO a b c d name p q AB J JB N NB) as T. rewrite F, DQ in T. contradiction.
Qed.
(** ** Witnesses *)
(** Two programs look for a free number at the same time. *)
Lemma save_race : run [0; 1; 0; 0; 1; 1] [] [start_save [1%N]; start_save [2%N]] = ([(0, [2%N])], [mkProc [1%N] Done; mkProc [2%N] Done]).
Proof. reflexivity. Qed.
(** A crash between creating and writing, and a second run. *)
Lemma safely_torn : run [0; 1; 1] [] [start_save_safely [1%N] 7; start_save_safely [1%N] 7] = ([(7, [])], [mkProc [1%N] (Write 7); mkProc [1%N] Printed]).
Proof. reflexivity. Qed.

(** Proofs about measuring, patching and resuming. *)
From Coq Require Import String.
From Verif Require Import Base Xor F64 Format Query QuerySpec Harness HarnessSpec.

(** ** Maps *)
Section Maps.
  Context {K V : Type} (eqb : K -> K -> bool) (eqb_eq : forall a b, eqb a b = true <-> a = b).
  Lemma eqb_self a : eqb a a = true. Proof using eqb_eq. now apply eqb_eq. Qed.
  Lemma eqb_other a b : a <> b -> eqb a b = false.
  Proof using eqb_eq. intros H. destruct (eqb a b) eqn:E; [|reflexivity]. apply eqb_eq in E. contradiction. Qed.
  Lemma get_put_same k (v : V) m : get eqb k (put eqb k v m) = Some v.
  Proof using eqb_eq.
    induction m as [|[k' v'] m IH]; cbn [put get]; [now rewrite eqb_self|].
    destruct (eqb k k') eqn:E; cbn [get]; [now rewrite eqb_self|]. now rewrite E.
  Qed.
  Lemma get_put_other k k' (v : V) m : k <> k' -> get eqb k (put eqb k' v m) = get eqb k m.
  Proof using eqb_eq.
    intros H. induction m as [|[k2 v2] m IH]; cbn [put get]; [now rewrite (eqb_other k k' H)|].
    destruct (eqb k' k2) eqn:E; cbn [get].
    - apply eqb_eq in E. subst k2. now rewrite (eqb_other k k' H).
    - rewrite IH. reflexivity.
  Qed.
End Maps.
Lemma scheme_eqb_eq a b : scheme_eqb a b = true <-> a = b.
Proof. unfold scheme_eqb. rewrite N.eqb_eq. split; [|congruence]. destruct a, b; cbn; congruence. Qed.
Definition gps {V} := @get_put_same string V String.eqb String.eqb_eq.
Definition gpo {V} := @get_put_other string V String.eqb String.eqb_eq.
Definition sgps {V} := @get_put_same scheme V scheme_eqb scheme_eqb_eq.
Definition sgpo {V} := @get_put_other scheme V scheme_eqb scheme_eqb_eq.
Lemma mem_In x l : mem x l = true <-> In x l.
Proof.
  unfold mem. rewrite existsb_exists. split; [intros (y & H & E); apply String.eqb_eq in E; now subst|].
  intros H. exists x. split; [exact H|]. apply String.eqb_refl.
Qed.
Lemma mem_not x l : mem x l = false <-> ~ In x l.
Proof. rewrite <- mem_In. destruct (mem x l); split; congruence. Qed.

Lemma fresh_weaken from to n k c rs from' to' : (from' <= from)%nat -> (to <= to')%nat -> fresh from to n k c rs -> fresh from' to' n k c rs.
Proof. intros A B (st & R & E). exists st. split; [lia|exact E]. Qed.
Lemma measured_weaken from to n d c fs i from' to' : (from' <= from)%nat -> (to <= to')%nat -> measured from to n d c fs i -> measured from' to' n d c fs i.
Proof.
  intros A B (H1 & H2 & H3). split; [now apply (fresh_weaken from to)|]. split; [now apply (fresh_weaken from to)|].
  intros f. specialize (H3 f). destruct (get String.eqb f (i_filters i)) as [[a b]|]; [|exact H3].
  destruct H3 as (I & X & Y). repeat split; [exact I| |]; now apply (fresh_weaken from to).
Qed.
Lemma groups_weaken from to n k c t rs from' to' : (from' <= from)%nat -> (to <= to')%nat -> groups from to n k c t rs -> groups from' to' n k c t rs.
Proof. intros A B. induction 1 as [|t rs new _ IH F]; [constructor|]. constructor; [exact IH|]. now apply (fresh_weaken from to). Qed.
Lemma groups_one from to n k c rs : fresh from to n k c rs -> groups from to n k c 1 rs.
Proof. intros F. rewrite <- (app_nil_l rs). constructor; [constructor|exact F]. Qed.
Lemma groups_app from to n k c t rs t' rs' : groups from to n k c t rs -> groups from to n k c t' rs' -> groups from to n k c (t' + t) (rs ++ rs').
Proof.
  intros G. induction 1 as [|t' rs' new _ IH F]; [now rewrite app_nil_r|]. rewrite app_assoc. cbn [Nat.add]. now constructor.
Qed.
Lemma groups_length from to n k c t rs : groups from to n k c t rs -> length rs = (t * n)%nat.
Proof.
  induction 1 as [|t rs new _ IH (st & _ & E & _)]; [reflexivity|]. rewrite app_length, IH.
  apply (f_equal (@length nat)) in E. rewrite map_length, seq_length in E. lia.
Qed.

Section Saved.
  Context (members : result -> list (string * json)) (read_result : json -> option result) (scheme_of : string -> scheme).
  Local Notation ok_saved := (saved_by_runs members).

  (** ** Saved files never help *)
  Lemma read_results_rows rs : read_results read_result (JObject rs) = None. Proof. reflexivity. Qed.
  Lemma read_inner_results rs : read_inner read_result (json_of_results members rs) = None.
  Proof using Type.
    unfold json_of_results. destruct rs as [|a [|b [|c [|d [|e [|g rs]]]]]]; reflexivity.
  Qed.
  Lemma never_read i : read_outputs read_result scheme_of (json_of_inner members i) = None.
  Proof using Type.
    unfold read_outputs, json_of_inner. cbn [all_some fst snd]. rewrite read_inner_results. reflexivity.
  Qed.
  Lemma saved_none w d : ok_saved w -> saved_outputs read_result scheme_of w d = None.
  Proof using Type.
    intros H. unfold saved_outputs. destruct (get String.eqb d (w_saved w)) as [j|] eqn:E; [|reflexivity].
    destruct (H d j E) as [->|(i & ->)]; [reflexivity|apply never_read].
  Qed.

End Saved.

Section Run.
  Context (members : result -> list (string * json)) (measure : nat -> call -> option (N * N * f64)).
  Local Notation ok_saved := (saved_by_runs members).

  (** ** Calls *)
  Definition written (k : call) (files : list (string * config)) : list (string * config) :=
    match k with Compress d c => put String.eqb d c files | _ => files end.
  Lemma repeat_call_spec k : forall n w rs w' rs',
    repeat_call measure n k w rs = (w', Some rs') ->
    w_calls w' = (w_calls w + n)%nat /\ w_saved w' = w_saved w /\ (n = O -> w_files w' = w_files w) /\
    (n <> O -> forall d, get String.eqb d (w_files w') = get String.eqb d (written k (w_files w))) /\
    exists new, rs' = rs ++ new /\ map r_number new = seq (w_calls w) n /\
      Forall (fun r => r_call r = k /\ get String.eqb (dataset_of k) (written k (w_files w)) = Some (r_config r)) new.
  Proof using Type.
    induction n as [|n IH]; intros w rs w' rs' E; cbn [repeat_call] in E.
    - injection E as <- <-. repeat split; [lia|contradiction|]. exists []. rewrite app_nil_r. repeat split. constructor.
    - unfold run_call in E. fold (written k (w_files w)) in E.
      destruct (get String.eqb (dataset_of k) (written k (w_files w))) as [cfg|] eqn:G; [|discriminate].
      destruct (measure (w_calls w) k) as [[[el si] ra]|]; [|discriminate].
      apply IH in E. cbn [w_calls w_files w_saved] in E. destruct E as (C & S' & Z & F & new & R & NN & A).
      assert (W : forall d, get String.eqb d (written k (written k (w_files w))) = get String.eqb d (written k (w_files w))).
      { intros d. destruct k; cbn [written]; try reflexivity. destruct (string_dec d dataset) as [->|ND]; [now rewrite !gps|now rewrite !gpo]. }
      split; [lia|]. split; [exact S'|]. split; [discriminate|]. split.
      { intros _ d. destruct n; [now rewrite Z by reflexivity|]. rewrite F by discriminate. apply W. }
      exists (mkResult (w_calls w) k cfg el si ra :: new).
      split; [rewrite R, <- app_assoc; reflexivity|]. split; [cbn [map seq r_number]; now rewrite NN|].
      constructor; [split; reflexivity|]. revert A. apply Forall_impl. intros r. rewrite W, G. exact (fun x => x).
  Qed.

  (** The file of data set [d] was written with [c] (if anything was). *)
  Definition file_is (n : nat) (d : string) (c : config) (w : world) : Prop := n = O \/ get String.eqb d (w_files w) = Some c.
  (** A query call on [d]. *)
  Definition queries (k : call) (d : string) : Prop := dataset_of k = d /\ forall files, written k files = files.
  Lemma repeat_query k n d c w rs w' rs' : queries k d -> file_is n d c w -> repeat_call measure n k w rs = (w', Some rs') ->
    file_is n d c w' /\ w_calls w' = (w_calls w + n)%nat /\ w_saved w' = w_saved w /\
    exists new, rs' = rs ++ new /\ forall from to, (from <= w_calls w)%nat -> (w_calls w' <= to)%nat -> fresh from to n k c new.
  Proof using Type.
    intros (Q & Q') F E. apply repeat_call_spec in E. destruct E as (C & S' & Z & G & new & R & NN & A).
    split. { destruct F as [F|F]; [now left|]. destruct n; [now left|]. right. rewrite G by discriminate. now rewrite Q'. }
    split; [exact C|]. split; [exact S'|]. exists new. split; [exact R|]. intros from to L1 L2. exists (w_calls w).
    split; [lia|]. split; [exact NN|]. destruct F as [->|F].
    - destruct new; [constructor|discriminate].
    - revert A. apply Forall_impl. intros r (A & B). split; [exact A|]. rewrite Q', Q, F in B. congruence.
  Qed.
  Lemma repeat_compress n d c w rs w' rs' : repeat_call measure n (Compress d c) w rs = (w', Some rs') ->
    file_is n d c w' /\ w_calls w' = (w_calls w + n)%nat /\ w_saved w' = w_saved w /\
    exists new, rs' = rs ++ new /\ forall from to, (from <= w_calls w)%nat -> (w_calls w' <= to)%nat -> fresh from to n (Compress d c) c new.
  Proof using Type.
    intros E. apply repeat_call_spec in E. destruct E as (C & S' & Z & G & new & R & NN & A). cbn [written dataset_of] in *.
    split. { destruct n; [now left|]. right. rewrite G by discriminate. apply gps. }
    split; [exact C|]. split; [exact S'|]. exists new. split; [exact R|]. intros from to L1 L2. exists (w_calls w).
    split; [lia|]. split; [exact NN|]. revert A. apply Forall_impl. intros r (A & B). split; [exact A|]. rewrite gps in B. congruence.
  Qed.
  Lemma run_filters_spec n d c : forall fs w m w' m', NoDup fs -> (forall f, In f fs -> get String.eqb f m = None) -> file_is n d c w ->
    run_filters measure n d fs w m = (w', Some m') ->
    file_is n d c w' /\ (w_calls w <= w_calls w')%nat /\ w_saved w' = w_saved w /\
    (forall f, In f fs -> exists a b, get String.eqb f m' = Some (a, b) /\
       fresh (w_calls w) (w_calls w') n (Filter d f) c a /\ fresh (w_calls w) (w_calls w') n (FilterMaterialize d f) c b) /\
    (forall f, ~ In f fs -> get String.eqb f m' = get String.eqb f m).
  Proof using Type.
    induction fs as [|f fs IH]; intros w m w' m' ND NG F E; cbn [run_filters] in E.
    - injection E as <- <-. repeat split; [exact F|lia|]. intros f [].
    - rewrite (NG f (in_eq _ _)) in E. inversion ND as [|? ? NI ND']; subst.
      destruct (repeat_call measure n (Filter d f) w []) as [w1 [a|]] eqn:E1; [|discriminate].
      destruct (repeat_call measure n (FilterMaterialize d f) w1 []) as [w2 [b|]] eqn:E2; [|discriminate].
      apply (repeat_query _ _ d c) in E1; [|split; reflexivity|exact F]. destruct E1 as (F1 & C1 & S1 & a' & A & FA). cbn in A. subst a'.
      apply (repeat_query _ _ d c) in E2; [|split; reflexivity|exact F1]. destruct E2 as (F2 & C2 & S2 & b' & B & FB). cbn in B. subst b'.
      apply IH in E; [|exact ND'| |exact F2].
      2:{ intros g I. rewrite gpo; [apply NG; now right|]. intros ->. contradiction. }
      destruct E as (F' & C' & S' & IN & OUT). split; [exact F'|]. split; [lia|]. split; [congruence|]. split.
      + intros g [<-|I].
        * exists a, b. rewrite OUT by exact NI. rewrite gps. split; [reflexivity|]. split; [apply FA; lia|apply FB; lia].
        * destruct (IN g I) as (a2 & b2 & G & X & Y). exists a2, b2. split; [exact G|]. split; [apply (fresh_weaken (w_calls w2) (w_calls w')); try lia; exact X|apply (fresh_weaken (w_calls w2) (w_calls w')); try lia; exact Y].
      + intros g NI2. rewrite OUT by (intros I; apply NI2; now right). apply gpo. intros ->. apply NI2. apply in_eq.
  Qed.

  Context (lg64 : N -> N).
  Lemma process_compressor_spec n d c fs mv w i w' i' : NoDup fs -> ok_saved w -> i_compress i = [] -> i_filters i = [] -> i_materialize i = [] ->
    process_compressor members measure lg64 n d c fs mv w i = (w', Some i') ->
    (w_calls w <= w_calls w')%nat /\ ok_saved w' /\
    if skipped lg64 c mv then i' = i
    else measured (w_calls w) (w_calls w') n d c fs i' /\
      (exists new, i_max i' = i_max i ++ new /\ fresh (w_calls w) (w_calls w') n (Max d) c new) /\
      (exists new, i_sum i' = i_sum i ++ new /\ fresh (w_calls w) (w_calls w') n (Sum d) c new).
  Proof using Type.
    intros ND OK IC IF IM E. unfold process_compressor in E. rewrite IC, IF, IM in E. destruct (skipped lg64 c mv) eqn:SK.
    { injection E as <- <-. split; [lia|]. split; [exact OK|reflexivity]. }
    destruct (repeat_call measure n (Compress d c) w []) as [w1 [cs|]] eqn:E1; [|discriminate].
    destruct (run_filters measure n d fs w1 []) as [w2 [fm|]] eqn:E2; [|discriminate].
    destruct (repeat_call measure n (Materialize d) w2 []) as [w3 [mt|]] eqn:E3; [|discriminate].
    destruct (repeat_call measure n (Max d) w3 (i_max i)) as [w4 [mx|]] eqn:E4; [|discriminate].
    destruct (repeat_call measure n (Sum d) w4 (i_sum i)) as [w5 [sm|]] eqn:E5; [|discriminate].
    injection E as <- <-. cbn [w_calls i_compress i_filters i_materialize i_max i_sum].
    apply repeat_compress in E1. destruct E1 as (F1 & C1 & S1 & cs' & A1 & N1). cbn in A1. subst cs'.
    apply (run_filters_spec n d c) in E2; [|exact ND|reflexivity|exact F1]. destruct E2 as (F2 & C2 & S2 & IN & OUT).
    apply (repeat_query _ _ d c) in E3; [|split; reflexivity|exact F2]. destruct E3 as (F3 & C3 & S3 & mt' & A3 & N3). cbn in A3. subst mt'.
    apply (repeat_query _ _ d c) in E4; [|split; reflexivity|exact F3]. destruct E4 as (F4 & C4 & S4 & mx' & A4 & N4).
    apply (repeat_query _ _ d c) in E5; [|split; reflexivity|exact F4]. destruct E5 as (F5 & C5 & S5 & sm' & A5 & N5).
    split; [lia|]. split.
    { intros d' j G. cbn [w_saved] in G. destruct (string_dec d' d) as [->|NE].
      - rewrite gps in G. injection G as <-. right. eexists. reflexivity.
      - rewrite gpo in G by exact NE. apply (OK d'). congruence. }
    split; [|split].
    - split; [apply N1; lia|]. split; [apply N3; lia|]. intros f. cbn [i_filters].
      destruct (in_dec string_dec f fs) as [I|I].
      + destruct (IN f I) as (a & b & G & X & Y). rewrite G. split; [exact I|]. split; [apply (fresh_weaken (w_calls w1) (w_calls w2)); try lia; exact X|apply (fresh_weaken (w_calls w1) (w_calls w2)); try lia; exact Y].
      + rewrite OUT by exact I. exact I.
    - exists mx'. split; [exact A4|]. apply N4; lia.
    - exists sm'. split; [exact A5|]. apply N5; lia.
  Qed.

  (** ** One data set *)
  Definition old_of (os : outputs) (k : scheme) : inner := match get scheme_eqb k os with Some i => i | None => empty_inner end.
  Lemma process_dataset_spec n d fs mv : NoDup fs -> forall cs w os w' os', ok_saved w -> one_per_scheme cs ->
    process_dataset members measure lg64 n d cs fs mv w os = (w', Some os') ->
    (w_calls w <= w_calls w')%nat /\ ok_saved w' /\
    (forall k, ~ In k (map (fun nc => config_scheme (snd nc)) cs) -> get scheme_eqb k os' = get scheme_eqb k os) /\
    (forall name c, In (name, c) cs -> exists i, get scheme_eqb (config_scheme c) os' = Some i /\
       if skipped lg64 c mv then i = clear (old_of os (config_scheme c))
       else measured (w_calls w) (w_calls w') n d c fs i /\
         (exists new, i_max i = i_max (old_of os (config_scheme c)) ++ new /\ fresh (w_calls w) (w_calls w') n (Max d) c new) /\
         (exists new, i_sum i = i_sum (old_of os (config_scheme c)) ++ new /\ fresh (w_calls w) (w_calls w') n (Sum d) c new)).
  Proof using Type.
    intros ND. induction cs as [|[name c] cs IH]; intros w os w' os' OK ONE E; cbn [process_dataset] in E.
    - injection E as <- <-. repeat split; [lia|exact OK|]. intros name c [].
    - unfold one_per_scheme in ONE. cbn [map snd] in ONE. inversion ONE as [|? ? NI ONE']; subst.
      set (i0 := match get scheme_eqb (config_scheme c) os with Some i => clear i | None => empty_inner end) in E.
      assert (I0 : i0 = clear (old_of os (config_scheme c))).
      { unfold i0, old_of. destruct (get scheme_eqb (config_scheme c) os); reflexivity. }
      destruct (process_compressor members measure lg64 n d c fs mv w i0) as [w1 [i1|]] eqn:E1; [|discriminate].
      apply process_compressor_spec in E1; [|exact ND|exact OK|now rewrite I0|now rewrite I0|now rewrite I0].
      destruct E1 as (C1 & OK1 & P1). apply IH in E; [|exact OK1|exact ONE']. destruct E as (C2 & OK2 & OUT & IN).
      split; [lia|]. split; [exact OK2|]. split.
      + intros k NK. cbn [map snd] in NK. rewrite OUT by (intros I; apply NK; now right). apply sgpo. intros ->. apply NK. apply in_eq.
      + intros name' c' [E'|I].
        * injection E' as <- <-. exists i1. rewrite OUT by exact NI. rewrite sgps. split; [reflexivity|].
          destruct (skipped lg64 c mv); [congruence|]. rewrite I0 in P1. cbn [clear i_max i_sum] in P1.
          destruct P1 as (M & (nx & X1 & X2) & (ny & Y1 & Y2)). split; [apply (measured_weaken (w_calls w) (w_calls w1)); try lia; exact M|].
          split; [exists nx|exists ny]; (split; [assumption|]); apply (fresh_weaken (w_calls w) (w_calls w1)); try lia; assumption.
        * destruct (IN name' c' I) as (i & G & P). exists i. split; [exact G|].
          assert (O : old_of (put scheme_eqb (config_scheme c) i1 os) (config_scheme c') = old_of os (config_scheme c')).
          { unfold old_of. rewrite sgpo; [reflexivity|]. intros X. apply NI. rewrite <- X. apply in_map_iff. now exists (name', c'). }
          rewrite O in P. destruct (skipped lg64 c' mv); [exact P|].
          destruct P as (M & (nx & X1 & X2) & (ny & Y1 & Y2)). split; [apply (measured_weaken (w_calls w1) (w_calls w')); try lia; exact M|].
          split; [exists nx|exists ny]; (split; [assumption|]); apply (fresh_weaken (w_calls w1) (w_calls w')); try lia; assumption.
  Qed.

  (** ** The loops *)
  Context (s : setting) (n : nat).
  Definition step_of (cfgs : string -> list (string * config)) (d : string) (w : world) (out : all_output) :=
    process_dataset members measure lg64 n d (cfgs d) (s_filters s d) (s_max s d) w (match get String.eqb d out with Some os => os | None => [] end).
  Fixpoint loop (cfgs : string -> list (string * config)) (es : list entry) (w : world) (out : all_output) : world * option all_output :=
    match es with
    | [] => (w, Some out)
    | e :: rest =>
        if mem (e_stem e) (s_skip s) then loop cfgs rest w out
        else let '(w, x) := step_of cfgs (e_stem e) w out in
             match x with None => (w, None) | Some os => loop cfgs rest w (put String.eqb (e_stem e) os out) end
    end.
  Definition good_settings : Prop := forall d, NoDup (s_filters s d) /\ one_per_scheme (s_configs s d).
  Lemma one_filter p cs : one_per_scheme cs -> one_per_scheme (filter p cs).
  Proof using Type.
    unfold one_per_scheme. induction cs as [|a cs IH]; intros H; [exact H|]. cbn [map] in H. inversion H as [|? ? NI H']; subst. cbn [filter].
    destruct (p a); [|now apply IH]. cbn [map]. constructor; [|now apply IH]. intros I. apply NI.
    apply in_map_iff in I. destruct I as (b & E & I). apply filter_In in I. apply in_map_iff. now exists b.
  Qed.
  Definition chosen_first (compressors : list string) (d : string) := filter (fun nc : string * config => mem (fst nc) compressors) (s_configs s d).
  Lemma process_dataset_ok d cs fs mv : forall w os, ok_saved w -> ok_saved (fst (process_dataset members measure lg64 n d cs fs mv w os)).
  Proof using Type.
    assert (RC : forall k m w rs, w_saved (fst (repeat_call measure m k w rs)) = w_saved w).
    { intros k m. induction m as [|m IH]; intros w rs; [reflexivity|]. cbn [repeat_call].
      destruct (run_call measure w k) as [w1 [r|]] eqn:E; unfold run_call in E; injection E as <- E; [rewrite IH; reflexivity|reflexivity]. }
    assert (RF : forall l w m, w_saved (fst (run_filters measure n d l w m)) = w_saved w).
    { induction l as [|f l IH]; intros w m; [reflexivity|]. cbn [run_filters].
      destruct (match get String.eqb f m with Some ab => ab | None => ([], []) end) as [a b].
      pose proof (RC (Filter d f) n w a) as H1. destruct (repeat_call measure n (Filter d f) w a) as [w1 [a'|]]; cbn [fst] in *; [|exact H1].
      pose proof (RC (FilterMaterialize d f) n w1 b) as H2. destruct (repeat_call measure n (FilterMaterialize d f) w1 b) as [w2 [b'|]]; cbn [fst] in *; [|congruence].
      rewrite IH. congruence. }
    assert (EQ : forall w w', w_saved w' = w_saved w -> ok_saved w -> ok_saved w').
    { intros w w' E OK d' j G. apply (OK d'). congruence. }
    induction cs as [|[name c] cs IH]; intros w os OK; cbn [process_dataset]; [exact OK|].
    set (i0 := match get scheme_eqb (config_scheme c) os with Some i => clear i | None => empty_inner end).
    assert (PC : ok_saved (fst (process_compressor members measure lg64 n d c fs mv w i0))).
    { unfold process_compressor. destruct (skipped lg64 c mv); [exact OK|].
      pose proof (RC (Compress d c) n w (i_compress i0)) as H1. destruct (repeat_call measure n (Compress d c) w (i_compress i0)) as [w1 [x1|]]; cbn [fst] in *; [|now apply (EQ w)].
      pose proof (RF fs w1 (i_filters i0)) as H2. destruct (run_filters measure n d fs w1 (i_filters i0)) as [w2 [x2|]]; cbn [fst] in *; [|apply (EQ w); [congruence|exact OK]].
      pose proof (RC (Materialize d) n w2 (i_materialize i0)) as H3. destruct (repeat_call measure n (Materialize d) w2 (i_materialize i0)) as [w3 [x3|]]; cbn [fst] in *; [|apply (EQ w); [congruence|exact OK]].
      pose proof (RC (Max d) n w3 (i_max i0)) as H4. destruct (repeat_call measure n (Max d) w3 (i_max i0)) as [w4 [x4|]]; cbn [fst] in *; [|apply (EQ w); [congruence|exact OK]].
      pose proof (RC (Sum d) n w4 (i_sum i0)) as H5. destruct (repeat_call measure n (Sum d) w4 (i_sum i0)) as [w5 [x5|]]; cbn [fst] in *; [|apply (EQ w); [congruence|exact OK]].
      intros d' j G. cbn [w_saved] in G. destruct (string_dec d' d) as [->|NE].
      - rewrite gps in G. injection G as <-. right. eexists. reflexivity.
      - rewrite gpo in G by exact NE. apply (OK d'). congruence. }
    destruct (process_compressor members measure lg64 n d c fs mv w i0) as [w1 [i1|]]; cbn [fst] in *; [|exact PC]. now apply IH.
  Qed.
  Lemma loop_ok cfgs : forall es w out, ok_saved w -> ok_saved (fst (loop cfgs es w out)).
  Proof using Type.
    induction es as [|e es IH]; intros w out OK; cbn [loop]; [exact OK|]. destruct (mem (e_stem e) (s_skip s)); [now apply IH|].
    pose proof (process_dataset_ok (e_stem e) (cfgs (e_stem e)) (s_filters s (e_stem e)) (s_max s (e_stem e)) w (match get String.eqb (e_stem e) out with Some os => os | None => [] end) OK) as H.
    fold (step_of cfgs (e_stem e) w out) in H. destruct (step_of cfgs (e_stem e) w out) as [w1 [os|]]; cbn [fst] in *; [|exact H]. now apply IH.
  Qed.
  Lemma not_a_path d patching : Forall (fun e => e_dir e <> []) patching -> existsb (path_eqb [d]) (map entry_path patching) = false.
  Proof using Type.
    induction 1 as [|e l H _ IH]; [reflexivity|]. cbn [map existsb]. rewrite IH, orb_false_r. unfold path_eqb, entry_path.
    destruct (list_eq_dec string_dec [d] (e_dir e ++ [(e_stem e ++ ".bin")%string])) as [E|]; [|reflexivity].
    destruct (e_dir e) as [|a [|b r]]; [contradiction|discriminate|discriminate].
  Qed.
  Lemma first_is_loop read_result scheme_of patching compressors : Forall (fun e => e_dir e <> []) patching -> forall es w out, ok_saved w ->
    first_loop members read_result scheme_of measure lg64 s n patching compressors es w out = loop (chosen_first compressors) es w out.
  Proof using Type.
    intros D. induction es as [|e es IH]; intros w out OK; cbn [first_loop loop]; [reflexivity|].
    destruct (mem (e_stem e) (s_skip s)); [now apply IH|]. rewrite (not_a_path _ _ D), (saved_none members read_result scheme_of w _ OK).
    unfold step_of, chosen_first.
    pose proof (process_dataset_ok (e_stem e) (filter (fun nc => mem (fst nc) compressors) (s_configs s (e_stem e))) (s_filters s (e_stem e)) (s_max s (e_stem e)) w (match get String.eqb (e_stem e) out with Some os => os | None => [] end) OK) as H.
    destruct (process_dataset _ _ _ _ _ _ _ _ _ _) as [w1 [os|]]; cbn [fst] in *; [|reflexivity]. now apply IH.
  Qed.
  Lemma second_is_loop read_result scheme_of : forall es w out, ok_saved w ->
    second_loop members read_result scheme_of measure lg64 s n es w out = loop (s_configs s) es w out.
  Proof using Type.
    induction es as [|e es IH]; intros w out OK; cbn [second_loop loop]; [reflexivity|].
    destruct (mem (e_stem e) (s_skip s)); [now apply IH|]. rewrite (saved_none members read_result scheme_of w _ OK).
    unfold step_of.
    pose proof (process_dataset_ok (e_stem e) (s_configs s (e_stem e)) (s_filters s (e_stem e)) (s_max s (e_stem e)) w (match get String.eqb (e_stem e) out with Some os => os | None => [] end) OK) as H.
    destruct (process_dataset _ _ _ _ _ _ _ _ _ _) as [w1 [os|]]; cbn [fst] in *; [|reflexivity]. now apply IH.
  Qed.
  Lemma all_patch_loops read_result scheme_of es patching compressors w out : Forall (fun e => e_dir e <> []) patching -> ok_saved w ->
    all_patch members read_result scheme_of measure lg64 s n es patching compressors w out =
    let '(w, x) := loop (chosen_first compressors) es w out in
    match x with None => (w, None) | Some out => loop (s_configs s) patching w out end.
  Proof using Type.
    intros D OK. unfold all_patch. rewrite first_is_loop by assumption. pose proof (loop_ok (chosen_first compressors) es w out OK) as H.
    destruct (loop (chosen_first compressors) es w out) as [w1 [o1|]]; cbn [fst] in *; [|reflexivity]. now apply second_is_loop.
  Qed.

  Lemma loop_calls cfgs : (forall d, one_per_scheme (cfgs d)) -> (forall d, NoDup (s_filters s d)) -> forall es w out w' out', ok_saved w ->
    loop cfgs es w out = (w', Some out') -> (w_calls w <= w_calls w')%nat.
  Proof using Type.
    intros G NF. induction es as [|e es IH]; intros w out w' out' OK E; cbn [loop] in E; [now injection E as <- <-|].
    destruct (mem (e_stem e) (s_skip s)); [now apply (IH w out w' out')|].
    destruct (step_of cfgs (e_stem e) w out) as [w1 [os|]] eqn:E1; [|discriminate].
    apply process_dataset_spec in E1; [|apply NF|exact OK|apply G]. destruct E1 as (C1 & OK1 & _). apply IH in E; [lia|exact OK1].
  Qed.
  Lemma loop_spec cfgs : (forall d, one_per_scheme (cfgs d)) -> (forall d, NoDup (s_filters s d)) -> forall es w out w' out',
    NoDup (map e_stem es) -> ok_saved w -> loop cfgs es w out = (w', Some out') ->
    (w_calls w <= w_calls w')%nat /\ ok_saved w' /\
    (forall d, ~ In d (map e_stem es) \/ In d (s_skip s) -> get String.eqb d out' = get String.eqb d out) /\
    (forall e, In e es -> ~ In (e_stem e) (s_skip s) -> exists w1 w2 os, 
       (w_calls w <= w_calls w1)%nat /\ (w_calls w2 <= w_calls w')%nat /\ ok_saved w1 /\
       process_dataset members measure lg64 n (e_stem e) (cfgs (e_stem e)) (s_filters s (e_stem e)) (s_max s (e_stem e)) w1
         (match get String.eqb (e_stem e) out with Some os => os | None => [] end) = (w2, Some os) /\
       get String.eqb (e_stem e) out' = Some os).
  Proof using Type.
    intros G NF. induction es as [|e es IH]; intros w out w' out' ND OK E; cbn [loop] in E.
    - injection E as <- <-. split; [lia|]. split; [exact OK|]. split; [reflexivity|]. intros e [].
    - cbn [map] in ND. inversion ND as [|? ? NI ND']; subst. destruct (mem (e_stem e) (s_skip s)) eqn:SK.
      + apply IH in E; [|exact ND'|exact OK]. destruct E as (C & OK' & OUT & IN). split; [exact C|]. split; [exact OK'|]. split.
        * intros d [X|X]; apply OUT; [left|now right]. intros I. apply X. now right.
        * intros e' [<-|I] NS; [|now apply IN]. apply mem_In in SK. contradiction.
      + apply mem_not in SK. destruct (step_of cfgs (e_stem e) w out) as [w1 [os|]] eqn:E1; [|discriminate].
        pose proof (process_dataset_spec n (e_stem e) (s_filters s (e_stem e)) (s_max s (e_stem e)) (NF _) _ _ _ _ _ OK (G _) E1) as (C1 & OK1 & _).
        apply IH in E; [|exact ND'|exact OK1]. destruct E as (C & OK' & OUT & IN). split; [lia|]. split; [exact OK'|]. split.
        * intros d X. destruct (string_dec d (e_stem e)) as [->|NE].
          { destruct X as [X|X]; [|contradiction]. exfalso. apply X. apply in_eq. }
          rewrite OUT by (destruct X as [X|X]; [left; intros I; apply X; now right|now right]). now apply gpo.
        * intros e' [<-|I] NS.
          -- exists w, w1, os. split; [lia|]. split; [exact C|]. split; [exact OK|]. split; [exact E1|].
             rewrite OUT by (now left). apply gps.
          -- destruct (IN e' I NS) as (wa & wb & os' & L1 & L2 & OKa & P & Q). exists wa, wb, os'.
             rewrite gpo in P; [|intros X; apply NI; rewrite <- X; now apply in_map]. repeat split; try assumption; lia.
  Qed.
End Run.

(** ** Runs do not depend on the saved files *)
Section Alike.
  Context (members : result -> list (string * json)) (measure : nat -> call -> option (N * N * f64)).
  Definition alike (w1 w2 : world) : Prop := w_calls w1 = w_calls w2 /\ w_files w1 = w_files w2.
  Definition both {A} (x y : world * A) : Prop := alike (fst x) (fst y) /\ snd x = snd y.
  Lemma repeat_alike k : forall m w1 w2 rs, alike w1 w2 -> both (repeat_call measure m k w1 rs) (repeat_call measure m k w2 rs).
  Proof using Type.
    induction m as [|m IH]; intros w1 w2 rs A; cbn [repeat_call]; [now split|]. destruct A as (C & F). unfold run_call. rewrite C, F.
    set (x := match get _ _ _ with Some _ => _ | None => _ end). destruct x as [r|]; [apply IH|]; repeat split.
  Qed.
  Lemma filters_alike m d : forall fs w1 w2 l, alike w1 w2 -> both (run_filters measure m d fs w1 l) (run_filters measure m d fs w2 l).
  Proof using Type.
    induction fs as [|f fs IH]; intros w1 w2 l A; cbn [run_filters]; [now split|].
    destruct (match get String.eqb f l with Some ab => ab | None => ([], []) end) as [a b].
    destruct (repeat_alike (Filter d f) m w1 w2 a A) as (A1 & E1).
    destruct (repeat_call measure m (Filter d f) w1 a) as [v1 x1], (repeat_call measure m (Filter d f) w2 a) as [v2 x2]. cbn [fst snd] in *. subst x2.
    destruct x1 as [a1|]; [|now split]. destruct (repeat_alike (FilterMaterialize d f) m v1 v2 b A1) as (A2 & E2).
    destruct (repeat_call measure m (FilterMaterialize d f) v1 b) as [u1 y1], (repeat_call measure m (FilterMaterialize d f) v2 b) as [u2 y2]. cbn [fst snd] in *. subst y2.
    destruct y1; [now apply IH|now split].
  Qed.
  Context (lg64 : N -> N).
  Ltac next H := let A := fresh "A" in let E := fresh "E" in destruct H as (A & E); revert A E;
    match goal with |- alike (fst ?x) (fst ?y) -> _ => destruct x as [? ?], y as [? [?|]] end;
    cbn [fst snd]; intros A E; rewrite E; clear E; [|now split].
  Lemma compressor_alike m d c fs mv w1 w2 i : alike w1 w2 ->
    both (process_compressor members measure lg64 m d c fs mv w1 i) (process_compressor members measure lg64 m d c fs mv w2 i).
  Proof using Type.
    intros A. unfold process_compressor. destruct (skipped lg64 c mv); [now split|].
    next (repeat_alike (Compress d c) m w1 w2 (i_compress i) A).
    match goal with H : alike ?v1 ?v2 |- both (let '(_, _) := run_filters _ _ _ _ ?v1 _ in _) _ => next (filters_alike m d fs v1 v2 (i_filters i) H) end.
    match goal with H : alike ?v1 ?v2 |- both (let '(_, _) := repeat_call _ _ _ ?v1 _ in _) _ => next (repeat_alike (Materialize d) m v1 v2 (i_materialize i) H) end.
    match goal with H : alike ?v1 ?v2 |- both (let '(_, _) := repeat_call _ _ _ ?v1 _ in _) _ => next (repeat_alike (Max d) m v1 v2 (i_max i) H) end.
    match goal with H : alike ?v1 ?v2 |- both (let '(_, _) := repeat_call _ _ _ ?v1 _ in _) _ => next (repeat_alike (Sum d) m v1 v2 (i_sum i) H) end.
    split; [|reflexivity]. match goal with H : alike _ _ |- _ => destruct H; split; assumption end.
  Qed.
  Lemma dataset_alike m d fs mv : forall cs w1 w2 os, alike w1 w2 ->
    both (process_dataset members measure lg64 m d cs fs mv w1 os) (process_dataset members measure lg64 m d cs fs mv w2 os).
  Proof using Type.
    induction cs as [|[name c] cs IH]; intros w1 w2 os A; cbn [process_dataset]; [now split|].
    set (i0 := match get scheme_eqb (config_scheme c) os with Some i => clear i | None => empty_inner end).
    next (compressor_alike m d c fs mv w1 w2 i0 A). now apply IH.
  Qed.
  Lemma loop_alike s m cfgs : forall es w1 w2 out, alike w1 w2 -> both (loop members measure lg64 s m cfgs es w1 out) (loop members measure lg64 s m cfgs es w2 out).
  Proof using Type.
    induction es as [|e es IH]; intros w1 w2 out A; cbn [loop]; [now split|]. destruct (mem (e_stem e) (s_skip s)); [now apply IH|].
    unfold step_of. set (os := match get String.eqb (e_stem e) out with Some os => os | None => [] end).
    next (dataset_alike m (e_stem e) (s_filters s (e_stem e)) (s_max s (e_stem e)) (cfgs (e_stem e)) w1 w2 os A). now apply IH.
  Qed.
  Lemma patch_alike read_result scheme_of s m es patching compressors w1 w2 out :
    Forall (fun e => e_dir e <> []) patching -> saved_by_runs members w1 -> saved_by_runs members w2 -> alike w1 w2 ->
    both (all_patch members read_result scheme_of measure lg64 s m es patching compressors w1 out)
         (all_patch members read_result scheme_of measure lg64 s m es patching compressors w2 out).
  Proof using Type.
    intros D OK1 OK2 A. rewrite !all_patch_loops by assumption.
    next (loop_alike s m (chosen_first s compressors) es w1 w2 out A). now apply loop_alike.
  Qed.
  (** What is saved stays readable as what the program writes. *)
  Lemma patch_saved read_result scheme_of s m es patching compressors w out :
    Forall (fun e => e_dir e <> []) patching -> saved_by_runs members w ->
    saved_by_runs members (fst (all_patch members read_result scheme_of measure lg64 s m es patching compressors w out)).
  Proof using Type.
    intros D OK. rewrite all_patch_loops by assumption. pose proof (loop_ok members measure lg64 s m (chosen_first s compressors) es w out OK) as H.
    destruct (loop _ _ _ _ _ (chosen_first s compressors) es w out) as [w1 [o1|]]; cbn [fst] in *; [|exact H]. now apply loop_ok.
  Qed.
End Alike.

(** What is claimed about the experiment runner, derived; samples and witnesses. *)
From Coq Require Import String Lia.
From Verif Require Import Base Xor F64 Format Query QuerySpec Harness HarnessSpec HarnessProofs HarnessFilterProofs HarnessFileProofs.

Section Patch.
  Context (members : result -> list (string * json)) (read_result : json -> option result) (scheme_of : string -> scheme).
  Context (measure : nat -> call -> option (N * N * f64)) (lg64 : N -> N) (s : setting) (n : nat).

  Lemma scheme_unique cs name c name' c' : one_per_scheme cs -> In (name, c) cs -> In (name', c') cs -> config_scheme c' = config_scheme c -> name' = name /\ c' = c.
  Proof using Type.
    unfold one_per_scheme. induction cs as [|[a b] cs IH]; intros ND I I' E; [contradiction|]. cbn [map snd] in ND. inversion ND as [|? ? NI ND']; subst.
    destruct I as [X|I], I' as [Y|I'].
    - injection X as -> ->. injection Y as -> ->. now split.
    - injection X as -> ->. exfalso. apply NI. apply in_map_iff. exists (name', c'). now split.
    - injection Y as -> ->. exfalso. apply NI. apply in_map_iff. exists (name, c). now split.
    - now apply IH.
  Qed.

  Lemma patched_results es patching compressors w out w' out' :
    listing es -> listing patching -> incl patching es -> (forall d, NoDup (s_filters s d) /\ one_per_scheme (s_configs s d)) -> saved_by_runs members w ->
    all_patch members read_result scheme_of measure lg64 s n es patching compressors w out = (w', Some out') ->
    (forall d, ~ In d (map e_stem es) \/ In d (s_skip s) -> get String.eqb d out' = get String.eqb d out) /\
    forall d, In d (map e_stem es) -> ~ In d (s_skip s) ->
      (forall k, (forall name c, In (name, c) (s_configs s d) -> config_scheme c = k -> ~ In name compressors /\ ~ In d (map e_stem patching)) ->
         has_results out' d k = has_results out d k /\ results_of out' d k = results_of out d k) /\
      forall name c, In (name, c) (s_configs s d) -> In name compressors \/ In d (map e_stem patching) ->
        has_results out' d (config_scheme c) = true /\
        let old := results_of out d (config_scheme c) in
        let new := results_of out' d (config_scheme c) in
        if skipped lg64 c (s_max s d) then new = mkInner [] [] [] (i_max old) (i_sum old)
        else measured (w_calls w) (w_calls w') n d c (s_filters s d) new /\
          let times := ((if in_dec string_dec name compressors then 1 else 0) + (if in_dec string_dec d (map e_stem patching) then 1 else 0))%nat in
          (exists more, i_max new = i_max old ++ more /\ groups (w_calls w) (w_calls w') n (Max d) c times more) /\
          (exists more, i_sum new = i_sum old ++ more /\ groups (w_calls w) (w_calls w') n (Sum d) c times more).
  Proof using Type.
    intros (ND & _) (NDp & Dp) INC GS OK E. rewrite all_patch_loops in E by assumption.
    assert (G1 : forall d, one_per_scheme (chosen_first s compressors d)) by (intros d; apply one_filter, GS).
    assert (G2 : forall d, one_per_scheme (s_configs s d)) by (intros d; apply GS).
    assert (NF : forall d, NoDup (s_filters s d)) by (intros d; apply GS).
    destruct (loop members measure lg64 s n (chosen_first s compressors) es w out) as [w1 [out1|]] eqn:E1; [|discriminate].
    apply loop_spec in E1; [|exact G1|exact NF|exact ND|exact OK]. destruct E1 as (C1 & OK1 & OUT1 & IN1).
    apply loop_spec in E; [|exact G2|exact NF|exact NDp|exact OK1]. destruct E as (C2 & OK2 & OUT2 & IN2).
    assert (SUB : forall d, In d (map e_stem patching) -> In d (map e_stem es)).
    { intros d I. apply in_map_iff in I. destruct I as (e & <- & I). apply in_map. now apply INC. }
    split.
    { intros d X. rewrite OUT2, OUT1; [reflexivity|exact X|]. destruct X as [X|X]; [left|now right]. intros I. apply X. now apply SUB. }
    intros d I NS. apply in_map_iff in I. destruct I as (e & <- & I). set (d := e_stem e) in *.
    destruct (IN1 e I NS) as (wa & wb & os1 & La & Lb & OKa & P1 & Q1). fold d in P1, Q1.
    set (os0 := match get String.eqb d out with Some os => os | None => [] end) in P1.
    pose proof P1 as P1'. apply process_dataset_spec in P1'; [|apply NF|exact OKa|apply G1]. destruct P1' as (Cab & _ & U1 & V1). clear P1.
    assert (R0 : forall k, results_of out d k = old_of os0 k /\ has_results out d k = match get scheme_eqb k os0 with Some _ => true | None => false end).
    { intros k. unfold results_of, has_results, old_of, os0. destruct (get String.eqb d out); split; reflexivity. }
    assert (FIRST : forall name c, In (name, c) (s_configs s d) -> In (config_scheme c) (map (fun nc => config_scheme (snd nc)) (chosen_first s compressors d)) -> In name compressors).
    { intros name c J X. apply in_map_iff in X. destruct X as ([name' c'] & EQ & X). apply filter_In in X. destruct X as (X & M). cbn [fst snd] in *.
      destruct (scheme_unique _ _ _ _ _ (G2 d) J X EQ) as (-> & _). now apply mem_In. }
    destruct (in_dec string_dec d (map e_stem patching)) as [PA|PA].
    - (* patched in the second loop too *)
      assert (EX : In e patching).
      { pose proof PA as PA'. apply in_map_iff in PA'. destruct PA' as (e' & EQ & I'). replace e with e'; [exact I'|].
        pose proof (INC e' I') as I2. clear - ND I I2 EQ. subst d. induction es as [|x l IH]; [contradiction|]. cbn [map] in ND.
        inversion ND as [|? ? NI ND']; subst. destruct I as [<-|I], I2 as [<-|I2]; [reflexivity| | |now apply IH].
        - exfalso. apply NI. rewrite <- EQ. now apply in_map.
        - exfalso. apply NI. rewrite EQ. now apply in_map. }
      destruct (IN2 e EX NS) as (wc & wd & os2 & Lc & Ld & OKc & P2 & Q2). fold d in P2, Q2. rewrite Q1 in P2.
      apply process_dataset_spec in P2; [|apply NF|exact OKc|apply G2]. destruct P2 as (Ccd & _ & U2 & V2).
      assert (R2 : forall k, results_of out' d k = old_of os2 k /\ has_results out' d k = match get scheme_eqb k os2 with Some _ => true | None => false end).
      { intros k. unfold results_of, has_results, old_of. rewrite Q2. split; reflexivity. }
      split.
      + intros k NK. destruct (R0 k) as (-> & ->). destruct (R2 k) as (-> & ->).
        assert (NO : ~ In k (map (fun nc => config_scheme (snd nc)) (s_configs s d))).
        { intros X. apply in_map_iff in X. destruct X as ([name c] & EQ & X). destruct (NK name c X EQ) as (_ & Y). contradiction. }
        assert (NO1 : ~ In k (map (fun nc => config_scheme (snd nc)) (chosen_first s compressors d))).
        { intros X. apply NO. apply in_map_iff in X. destruct X as (nc & EQ & X). apply filter_In in X. apply in_map_iff. exists nc. tauto. }
        unfold old_of. rewrite U2, U1 by assumption. split; reflexivity.
      + intros name c J _. destruct (R0 (config_scheme c)) as (-> & _). destruct (R2 (config_scheme c)) as (-> & ->).
        destruct (V2 name c J) as (i & GI & PI). assert (OI : old_of os2 (config_scheme c) = i) by (unfold old_of; rewrite GI; reflexivity). rewrite OI, GI. split; [reflexivity|]. cbv zeta.
        destruct (in_dec string_dec name compressors) as [NC|NC].
        * assert (J1 : In (name, c) (chosen_first s compressors d)) by (apply filter_In; split; [exact J|now apply mem_In]).
          destruct (V1 name c J1) as (i1 & GI1 & PI1). assert (OI1 : old_of os1 (config_scheme c) = i1) by (unfold old_of; rewrite GI1; reflexivity). rewrite OI1 in PI.
          destruct (skipped lg64 c (s_max s d)); [subst i i1; reflexivity|].
          destruct PI as (M & (x2 & X2 & X2') & (y2 & Y2 & Y2')). destruct PI1 as (_ & (x1 & X1 & X1') & (y1 & Y1 & Y1')).
          split; [apply (measured_weaken (w_calls wc) (w_calls wd)); try lia; exact M|]. split.
          -- exists (x1 ++ x2). split; [rewrite X2, X1, app_assoc; reflexivity|]. apply (groups_app _ _ _ _ _ 1 x1 1 x2); apply groups_one.
             ++ apply (fresh_weaken (w_calls wa) (w_calls wb)); try lia; exact X1'.
             ++ apply (fresh_weaken (w_calls wc) (w_calls wd)); try lia; exact X2'.
          -- exists (y1 ++ y2). split; [rewrite Y2, Y1, app_assoc; reflexivity|]. apply (groups_app _ _ _ _ _ 1 y1 1 y2); apply groups_one.
             ++ apply (fresh_weaken (w_calls wa) (w_calls wb)); try lia; exact Y1'.
             ++ apply (fresh_weaken (w_calls wc) (w_calls wd)); try lia; exact Y2'.
        * assert (O1 : get scheme_eqb (config_scheme c) os1 = get scheme_eqb (config_scheme c) os0).
          { apply U1. intros X. apply NC. now apply (FIRST name c). }
          assert (OI1 : old_of os1 (config_scheme c) = old_of os0 (config_scheme c)) by (unfold old_of; rewrite O1; reflexivity). rewrite OI1 in PI.
          destruct (skipped lg64 c (s_max s d)); [subst i; reflexivity|].
          destruct PI as (M & (x2 & X2 & X2') & (y2 & Y2 & Y2')). split; [apply (measured_weaken (w_calls wc) (w_calls wd)); try lia; exact M|].
          split; [exists x2; split; [exact X2|]|exists y2; split; [exact Y2|]]; apply groups_one; apply (fresh_weaken (w_calls wc) (w_calls wd)); try lia; assumption.
    - (* only in the first loop *)
      assert (Q2 : get String.eqb d out' = Some os1) by (rewrite OUT2 by (now left); exact Q1).
      assert (R2 : forall k, results_of out' d k = old_of os1 k /\ has_results out' d k = match get scheme_eqb k os1 with Some _ => true | None => false end).
      { intros k. unfold results_of, has_results, old_of. rewrite Q2. split; reflexivity. }
      split.
      + intros k NK. destruct (R0 k) as (-> & ->). destruct (R2 k) as (-> & ->).
        assert (NO1 : ~ In k (map (fun nc => config_scheme (snd nc)) (chosen_first s compressors d))).
        { intros X. apply in_map_iff in X. destruct X as ([name c] & EQ & X). apply filter_In in X. destruct X as (X & M). apply mem_In in M.
          destruct (NK name c X EQ) as (Y & _). contradiction. }
        unfold old_of. rewrite U1 by assumption. split; reflexivity.
      + intros name c J [NC|NC]; [|contradiction]. destruct (R0 (config_scheme c)) as (-> & _). destruct (R2 (config_scheme c)) as (-> & ->).
        assert (J1 : In (name, c) (chosen_first s compressors d)) by (apply filter_In; split; [exact J|now apply mem_In]).
        destruct (V1 name c J1) as (i & GI & PI). assert (OI : old_of os1 (config_scheme c) = i) by (unfold old_of; rewrite GI; reflexivity). rewrite OI, GI. split; [reflexivity|]. cbv zeta.
        destruct (skipped lg64 c (s_max s d)); [exact PI|]. destruct (in_dec string_dec name compressors) as [_|X]; [|contradiction].
        destruct PI as (M & (x2 & X2 & X2') & (y2 & Y2 & Y2')). split; [apply (measured_weaken (w_calls wa) (w_calls wb)); try lia; exact M|].
        split; [exists x2; split; [exact X2|]|exists y2; split; [exact Y2|]]; apply groups_one; apply (fresh_weaken (w_calls wa) (w_calls wb)); try lia; assumption.
  Qed.
End Patch.

(** ** A small experiment: two data sets, two compressors, one filter, twice each *)
Definition sample_setting : setting :=
  mkSetting (fun _ => [("gorilla"%string, CGorilla 100); ("chimp"%string, CChimp 100)]) (fun _ => ["eq"%string]) (fun _ => S754_zero false) [].
Definition sample_entries : list entry := [mkEntry ["d"%string] "a"%string; mkEntry ["d"%string] "b"%string].
Definition sample_patching : list entry := [mkEntry ["d"%string] "b"%string].
Definition sample_measure (n : nat) (_ : call) : option (N * N * f64) := Some (N.of_nat (100 + n), 800%N, of_Z 1).
Definition sample_members (r : result) : list (string * json) := [("elapsed"%string, JNumber (r_elapsed r))].
Definition sample_patch (es patching : list entry) (compressors : list string) (w : world) (out : all_output) :=
  all_patch sample_members (fun _ => None) (fun _ => SGorilla) sample_measure (fun _ => 0%N) sample_setting 2 es patching compressors w out.
Definition first_world : world := mkWorld 0 [] [].
Definition world_of (x : world * option all_output) : world := fst x.
Definition output_of (x : world * option all_output) : all_output := match snd x with Some o => o | None => [] end.
(** Everything is measured, then Gorilla again for both data sets, and [b] once more. *)
Definition run1 := sample_patch sample_entries sample_entries [] first_world [].
Definition run2 := sample_patch sample_entries sample_patching ["gorilla"%string] (world_of run1) (output_of run1).

Lemma sample_listing : listing sample_entries /\ listing sample_patching /\ incl sample_patching sample_entries /\
  (forall d, NoDup (s_filters sample_setting d) /\ one_per_scheme (s_configs sample_setting d)) /\ (0 < length sample_patching)%nat.
Proof.
  split; [split; [repeat (constructor; [cbn; intuition discriminate|]); constructor|repeat constructor; discriminate]|].
  split; [split; [repeat (constructor; [cbn; intuition discriminate|]); constructor|repeat constructor; discriminate]|].
  split; [intros e [<-|[]]; right; left; reflexivity|]. split; [|repeat constructor].
  intros d. split; repeat (constructor; [cbn; intuition discriminate|]); constructor.
Qed.
Lemma empty_saved members w : w_saved w = [] -> saved_by_runs members w.
Proof. intros E d j H. rewrite E in H. discriminate. Qed.
Lemma run1_saved : saved_by_runs sample_members (world_of run1).
Proof.
  apply (patch_saved sample_members sample_measure (fun _ => 0%N) (fun _ => None) (fun _ => SGorilla) sample_setting 2 sample_entries sample_entries [] first_world []).
  - repeat constructor; discriminate.
  - now apply empty_saved.
Qed.
Lemma run2_ok : run2 = (world_of run2, Some (output_of run2)) /\ run1 = (world_of run1, Some (output_of run1)).
Proof. split; vm_compute; reflexivity. Qed.

Lemma c73_sample : run2 = (world_of run2, Some (output_of run2)) /\ saved_by_runs sample_members (world_of run1) /\
  (w_calls (world_of run1) < w_calls (world_of run2))%nat /\
  map r_number (i_compress (results_of (output_of run2) "a" SGorilla)) = [48; 49]%nat /\
  results_of (output_of run2) "a" SChimp = results_of (output_of run1) "a" SChimp.
Proof.
  split; [exact (proj1 run2_ok)|]. split; [exact run1_saved|]. split; [apply Nat.ltb_lt; vm_compute; reflexivity|]. split; vm_compute; reflexivity.
Qed.
(** The maxima and sums of earlier runs stay, and a data set that is patched for both
    reasons has them twice. *)
Lemma c73_refuted : exists w w' out out' d c, 
  saved_by_runs sample_members w /\ sample_patch sample_entries sample_patching ["gorilla"%string] w out = (w', Some out') /\
  In ("gorilla"%string, c) (s_configs sample_setting d) /\ In d (map e_stem sample_patching) /\
  i_max (results_of out d (config_scheme c)) <> [] /\
  map r_number (i_compress (results_of out' d (config_scheme c))) = [72; 73]%nat /\
  map r_number (i_max (results_of out' d (config_scheme c))) = [32; 33; 68; 69; 80; 81]%nat /\
  w_calls w = 48%nat.
Proof.
  exists (world_of run1), (world_of run2), (output_of run1), (output_of run2), "b"%string, (CGorilla 100).
  split; [exact run1_saved|]. split; [vm_compute; reflexivity|]. split; [now left|]. split; [now left|].
  split; [vm_compute; discriminate|]. split; [vm_compute; reflexivity|]. split; vm_compute; reflexivity.
Qed.

(** ** Resuming *)
Lemma c74 members read_result scheme_of measure lg64 s n es patching compressors w out : listing patching -> saved_by_runs members w ->
  let with_saved := all_patch members read_result scheme_of measure lg64 s n es patching compressors w out in
  let without := all_patch members read_result scheme_of measure lg64 s n es patching compressors (mkWorld (w_calls w) (w_files w) []) out in
  w_calls (fst with_saved) = w_calls (fst without) /\ snd with_saved = snd without.
Proof.
  intros (_ & D) OK. destruct (patch_alike members measure lg64 read_result scheme_of s n es patching compressors w (mkWorld (w_calls w) (w_files w) []) out D OK) as (A & B).
  - now apply empty_saved.
  - split; reflexivity.
  - split; [apply A|exact B].
Qed.
(** The thirty-first call fails. *)
Definition failing_measure (n : nat) (k : call) : option (N * N * f64) := if Nat.eqb n 30 then None else sample_measure n k.
Definition failing_patch (w : world) :=
  all_patch sample_members (fun _ => None) (fun _ => SGorilla) failing_measure (fun _ => 0%N) sample_setting 2 sample_entries sample_entries [] w [].
Lemma c74_refuted : 
  saved_by_runs sample_members (fst (failing_patch first_world)) /\ snd (failing_patch first_world) = None /\ w_calls (fst (failing_patch first_world)) = 31%nat /\
  get String.eqb "a"%string (w_saved (fst (failing_patch first_world))) <> None /\
  exists w out, failing_patch (fst (failing_patch first_world)) = (w, Some out) /\ w_calls w = (31 + 48)%nat /\
    Forall (fun r => 31 <= r_number r)%nat (i_compress (results_of out "a" SGorilla)) /\ Forall (fun r => 31 <= r_number r)%nat (i_compress (results_of out "a" SChimp)).
Proof.
  split.
  { apply (patch_saved sample_members failing_measure (fun _ => 0%N) (fun _ => None) (fun _ => SGorilla) sample_setting 2 sample_entries sample_entries [] first_world []).
    - repeat constructor; discriminate.
    - now apply empty_saved. }
  split; [vm_compute; reflexivity|]. split; [vm_compute; reflexivity|]. split; [vm_compute; discriminate|].
  exists (world_of (failing_patch (fst (failing_patch first_world)))), (output_of (failing_patch (fst (failing_patch first_world)))).
  split; [vm_compute; reflexivity|]. split; [vm_compute; reflexivity|].
  assert (B : forall l, forallb (fun r => Nat.leb 31 (r_number r)) l = true -> Forall (fun r => 31 <= r_number r)%nat l).
  { intros l H. rewrite forallb_forall in H. apply Forall_forall. intros r I. apply Nat.leb_le. now apply H. }
  split; apply B; vm_compute; reflexivity.
Qed.

(** ** Generated filters *)
Lemma c78 xs files : xs <> [] -> Forall ordinary xs -> exists ten half ninety files',
  create_filters xs files = (Ok files', files') /\
  percentile_of xs ten (length xs * 10 / 100) /\ percentile_of xs half (length xs * 50 / 100) /\ percentile_of xs ninety (length xs * 90 / 100) /\
  (forall m k, selects (PEq half) xs m -> selects (PNe half) xs k -> (1 <= m /\ m + k = length xs)%nat) /\
  map (fun name => get String.eqb name files') filter_files =
    [Some (PRange (Exclusive ten) Unbounded); Some (PRange (Exclusive half) Unbounded); Some (PRange (Exclusive ninety) Unbounded); Some (PEq half); Some (PNe half)] /\
  forall j, ~ In j filter_files -> get String.eqb j files' = get String.eqb j files.
Proof.
  intros NE F. destruct (create_filters_ok xs files NE F) as (a & b & c & f & E & A & B & C & D). exists a, b, c, f.
  split; [exact E|]. split; [exact A|]. split; [exact B|]. split; [exact C|]. split; [|exact D].
  intros m k. apply equal_ones; [|apply B]. revert F. apply Forall_impl. intros x H. apply (ordinary_finite x H).
Qed.
Lemma c78_failure xs files : Forall is_u64 xs ->
  (xs = [] -> create_filters xs files = (Panic, files)) /\ ((exists x, In x xs /\ number x = None) -> create_filters xs files = (Err tt, files)).
Proof. intros U. split; [intros ->; apply create_filters_empty|now apply create_filters_nan]. Qed.
(** 1.0, 2.0, 3.0, 4.0, 5.0, 6.0, 7.0, 8.0, 9.0, 10.0, not in order. *)
Definition ten_numbers : list N := map (fun z => to_bits (of_Z z)) [3; 1; 10; 7; 2; 9; 5; 8; 4; 6]%Z.
Lemma ordinary_check x : ((x <? two64)%N && match number x with Some z => (Z.abs z <? 2 ^ 2098)%Z | None => false end)%bool = true -> ordinary x.
Proof.
  intros H. apply andb_prop in H. destruct H as (U & H). split; [now apply N.ltb_lt|]. destruct (number x) as [z|]; [|discriminate]. exists z. split; [reflexivity|]. now apply Z.ltb_lt.
Qed.
Lemma c78_sample : Forall ordinary ten_numbers /\
  snd (create_filters ten_numbers []) =
    [("greater_10th_percentile", PRange (Exclusive (to_bits (of_Z 2))) Unbounded); ("greater_50th_percentile", PRange (Exclusive (to_bits (of_Z 6))) Unbounded);
     ("greater_90th_percentile", PRange (Exclusive (to_bits (of_Z 10))) Unbounded); ("eq", PEq (to_bits (of_Z 6))); ("ne", PNe (to_bits (of_Z 6)))]%string.
Proof.
  split; [|vm_compute; reflexivity]. apply Forall_forall. intros x I. apply ordinary_check. revert x I. apply forallb_forall. vm_compute. reflexivity.
Qed.
(** Nine infinities and a one: the filters of an earlier run stay, but the first. *)
Definition infinities : list N := to_bits (of_Z 1) :: repeat 0x7ff0000000000000%N 9.
Lemma c78_refuted : exists files files', snd (create_filters ten_numbers []) = files /\ Forall (fun x => is_u64 x /\ number x <> None) infinities /\
  create_filters infinities files = (Err tt, files') /\ get String.eqb "eq"%string files' = Some (PEq (to_bits (of_Z 6))) /\
  get String.eqb "greater_10th_percentile"%string files' = None.
Proof.
  eexists; eexists. split; [reflexivity|]. split.
  { apply Forall_forall. intros x I. assert (H : ((x <? two64)%N && match number x with Some _ => true | None => false end)%bool = true).
    { revert x I. apply forallb_forall. vm_compute. reflexivity. }
    apply andb_prop in H. destruct H as (U & H). split; [now apply N.ltb_lt|]. destruct (number x); [discriminate|discriminate]. }
  split; [vm_compute; reflexivity|]. split; vm_compute; reflexivity.
Qed.

(** ** Output files *)
Lemma c76_race : exists schedule k', run schedule [] [start_save [1%N]; start_save [2%N]] = (k', [mkProc [1%N] Done; mkProc [2%N] Done]) /\
  forall name, dget name k' <> Some [1%N].
Proof. eexists; eexists. split; [exact save_race|]. intros [|name]; cbn; discriminate. Qed.
Lemma c76_torn : exists schedule k' ps', run schedule [] [start_save_safely [1%N] 7; start_save_safely [1%N] 7] = (k', ps') /\
  map p_step ps' = [Write 7; Printed] /\ dget 7 k' = Some [].
Proof. eexists; eexists; eexists. split; [exact safely_torn|]. split; reflexivity. Qed.
Lemma c76_sample : dget 0 [(0, [5%N]); (2, [6%N])]%nat = Some [5%N] /\ 
  run [0; 0; 0; 0; 0]%nat [(0, [5%N]); (2, [6%N])]%nat [start_save [7%N]] = ([(0, [5%N]); (2, [6%N]); (1, [7%N])]%nat, [mkProc [7%N] Done]) /\
  run [0; 1; 1; 0; 2; 2]%nat [(3, [5%N])]%nat (map (fun '(c, name) => start_save_safely c name) [([1%N], 7); ([2%N], 7); ([3%N], 3)]%nat) =
    ([(3, [5%N]); (7, [1%N])]%nat, [mkProc [1%N] Done; mkProc [2%N] Printed; mkProc [3%N] Printed]).
Proof. repeat split; reflexivity. Qed.

(** The columns extracted from a Parquet file. *)
From Coq Require Import String Ascii Sorted.
From Verif Require Import Base Xor F64 Format File FileSpec Codecs Query QuerySpec SprintzSpec Expr Tpch TpchSpec.
Local Open Scope string_scope.

Definition before (a b : string) : Prop := String.compare a b = Lt.
Lemma before_trans a : forall b c, before a b -> before b c -> before a c.
Proof.
  unfold before. induction a as [|x a IH]; intros [|y b] [|z c]; cbn; try discriminate; auto.
  unfold Ascii.compare. destruct (N.compare_spec (N_of_ascii x) (N_of_ascii y)) as [E|E|E], (N.compare_spec (N_of_ascii y) (N_of_ascii z)) as [F|F|F];
    try discriminate; intros A B; destruct (N.compare_spec (N_of_ascii x) (N_of_ascii z)); try lia; try reflexivity. eauto.
Qed.
Lemma compare_refl a : String.compare a a = Eq.
Proof. induction a as [|x a IH]; [reflexivity|]. cbn. unfold Ascii.compare. rewrite N.compare_refl. exact IH. Qed.
Lemma before_irrefl a : ~ before a a.
Proof. unfold before. now rewrite compare_refl. Qed.

Fixpoint lookup (name : string) (cols : columns) : option (list N) :=
  match cols with
  | [] => None
  | (n, vs) :: rest => if String.eqb name n then Some vs else lookup name rest
  end.
Definition ascending (cols : columns) : Prop := StronglySorted before (map fst cols).
Lemma lookup_none name cols : ~ In name (map fst cols) -> lookup name cols = None.
Proof.
  induction cols as [|[n vs] cols IH]; [reflexivity|]. cbn. intros H. destruct (String.eqb_spec name n) as [->|_]; [now destruct H; left|]. apply IH. tauto.
Qed.
Lemma keys_extend name vs cols n : In n (map fst (extend_column name vs cols)) <-> n = name \/ In n (map fst cols).
Proof.
  induction cols as [|[m ws] cols IH]; cbn [extend_column map fst In]; [intuition|].
  destruct (String.compare name m) eqn:E; cbn [map fst In].
  - apply String.compare_eq_iff in E. subst. intuition.
  - intuition.
  - rewrite IH. intuition.
Qed.
Lemma extend_ascending name vs cols : ascending cols -> ascending (extend_column name vs cols).
Proof.
  unfold ascending. induction cols as [|[m ws] cols IH]; cbn [extend_column map fst]; intros A; [repeat constructor|].
  inversion A as [|? ? A' F]; subst. destruct (String.compare name m) eqn:E; cbn [map fst].
  - exact A.
  - constructor; [exact A|]. constructor; [exact E|]. eapply Forall_impl; [|exact F]. intros z Z. now apply before_trans with m.
  - constructor; [now apply IH|]. apply Forall_forall. intros z Z. apply keys_extend in Z. destruct Z as [->|Z].
    + unfold before. rewrite String.compare_antisym, E. reflexivity.
    + rewrite Forall_forall in F. now apply F.
Qed.
Lemma lookup_extend name vs cols n : ascending cols -> lookup n (extend_column name vs cols) =
  if String.eqb n name then Some ((match lookup name cols with Some ws => ws | None => [] end ++ vs)%list) else lookup n cols.
Proof.
  unfold ascending. induction cols as [|[m ws] cols IH]; cbn [extend_column map fst lookup]; intros A.
  - now destruct (String.eqb n name).
  - inversion A as [|? ? A' F]; subst. destruct (String.compare name m) eqn:E; cbn [lookup].
    + apply String.compare_eq_iff in E. subst m. rewrite String.eqb_refl. now destruct (String.eqb n name).
    + destruct (String.eqb_spec n name) as [EQ|NN]; [|reflexivity]. destruct (String.eqb_spec name m) as [EM|NM]; [rewrite EM in E; now destruct (before_irrefl m)|].
      rewrite lookup_none; [reflexivity|]. intros I. rewrite Forall_forall in F. specialize (F name I). destruct (before_irrefl m). now apply before_trans with name.
    + rewrite IH by exact A'. destruct (String.eqb_spec name m) as [->|NM].
      * rewrite compare_refl in E. discriminate E.
      * destruct (String.eqb_spec n m) as [->|NM2]; [|reflexivity]. destruct (String.eqb_spec m name) as [->|_]; [now destruct NM|reflexivity].
Qed.
Lemma ascending_nodup cols : ascending cols -> NoDup (map fst cols).
Proof.
  unfold ascending. induction 1 as [|n ns A IH F]; constructor; [|exact IH]. intros I. rewrite Forall_forall in F. now destruct (before_irrefl n (F n I)).
Qed.

Definition cell (n : string) (r : row) : N := grid_value 100 (r n).
Lemma extract_hundredths f rows : hundredths f rows -> extract_decimal 2 (fd_cells f) = map (cell (fd_name f)) rows.
Proof. intros [_ ->]. unfold extract_decimal. rewrite map_map. apply map_ext. intros r. reflexivity. Qed.

Definition known (n : string) (cols : columns) : list N := match lookup n cols with Some vs => vs | None => [] end.
Lemma extract_batch_ok rows : forall batch cols, Forall (fun f => hundredths f rows \/ other_column f) batch -> NoDup (decimal_names batch) -> ascending cols ->
  exists cols', extract_batch batch cols = Ok cols' /\ ascending cols' /\
    (forall n, In n (map fst cols') <-> In n (decimal_names batch) \/ In n (map fst cols)) /\
    forall n, known n cols' = (known n cols ++ if in_dec String.string_dec n (decimal_names batch) then map (cell n) rows else [])%list.
Proof.
  induction batch as [|f batch IH]; intros cols F D A.
  - exists cols. split; [reflexivity|]. split; [exact A|]. split; [intros n; cbn; tauto|]. intros n. cbn. now rewrite app_nil_r.
  - inversion F as [|? ? FF F']; subst. cbn [extract_batch]. destruct FF as [H|[S H]].
    + pose proof (extract_hundredths f rows H) as EX. destruct H as [S H]. unfold decimal_names in *. cbn [filter] in *. rewrite S in *. cbn [map] in *. inversion D as [|? ? NI D']; subst.
      rewrite EX. destruct (IH (extend_column (fd_name f) (map (cell (fd_name f)) rows) cols) F' D' (extend_ascending _ _ _ A)) as (cols' & E & A' & K & V).
      exists cols'. split; [exact E|]. split; [exact A'|]. split.
      * intros n. rewrite K, keys_extend. cbn [In]. intuition congruence.
      * intros n. rewrite V. unfold known at 1 2. rewrite lookup_extend by exact A. fold (known (fd_name f) cols).
        destruct (String.eqb_spec n (fd_name f)) as [->|NN].
        -- unfold known. destruct (in_dec _ (fd_name f) _) as [I|_]; [now destruct NI|]. destruct (in_dec _ (fd_name f) _) as [_|NX]; [|destruct NX; now left]. now rewrite app_nil_r.
        -- destruct (in_dec _ n _) as [I|NX], (in_dec _ n _) as [J|NJ]; try reflexivity; [destruct NJ; now right|destruct J as [J|J]; [congruence|contradiction]].
    + unfold decimal_names in *. cbn [filter] in *. rewrite S in *.
      assert (B : (String.eqb (fd_name f) "l_returnflag" || String.eqb (fd_name f) "l_linestatus") = true).
      { apply Bool.orb_true_iff. destruct H as [-> | ->]; [left|right]; apply String.eqb_refl. }
      rewrite B. now apply IH.
Qed.
Lemma extract_columns_ok names parts batches : Forall2 (batch_holds names) parts batches -> forall cols, ascending cols -> (forall n, In n (map fst cols) -> In n names) ->
  exists cols', extract_columns batches cols = Ok cols' /\ ascending cols' /\
    (forall n, In n (map fst cols') -> In n names) /\ (batches <> [] -> forall n, In n names -> In n (map fst cols')) /\
    forall n, In n names -> known n cols' = (known n cols ++ map (cell n) (concat parts))%list.
Proof.
  induction 1 as [|rows batch parts batches (F & D & N) FA IH]; intros cols A K.
  - exists cols. split; [reflexivity|]. split; [exact A|]. split; [exact K|]. split; [congruence|]. intros n _. cbn. now rewrite app_nil_r.
  - cbn [extract_columns]. destruct (extract_batch_ok rows batch cols F D A) as (c1 & E1 & A1 & K1 & V1). rewrite E1. cbn [rbind].
    destruct (IH c1 A1) as (c2 & E2 & A2 & K2 & L2 & V2); [intros n I; apply K1 in I as [I|I]; [now apply N|now apply K]|].
    exists c2. split; [exact E2|]. split; [exact A2|]. split; [exact K2|]. split.
    + intros _ n I. destruct batches as [|b bs]; [|apply L2; [discriminate|exact I]]. injection E2 as <-. apply K1. left. now apply N.
    + intros n I. rewrite V2, V1 by exact I. cbn [concat]. rewrite map_app, <- app_assoc. f_equal. f_equal. destruct (in_dec _ n _) as [_|NX]; [reflexivity|]. destruct NX. now apply N.
Qed.
Lemma known_all cols : NoDup (map fst cols) -> cols = map (fun n => (n, known n cols)) (map fst cols).
Proof.
  induction cols as [|[n vs] cols IH]; intros D; [reflexivity|]. cbn [map fst] in *. inversion D as [|? ? NI D']; subst. f_equal.
  - unfold known. cbn. now rewrite String.eqb_refl.
  - rewrite IH at 1 by exact D'. apply map_ext_in. intros m M. f_equal. unfold known. cbn. destruct (String.eqb_spec m n) as [->|_]; [contradiction|reflexivity].
Qed.
Lemma extracted names batches rows : parquet_holds names batches rows -> rows <> [] ->
  exists L, NoDup L /\ (forall n, In n L <-> In n names) /\ extract_columns batches [] = Ok (map (fun n => (n, map (cell n) rows)) L).
Proof.
  intros (parts & H & <-) NE. destruct (extract_columns_ok names parts batches H []) as (cols & E & A & K1 & K2 & V); [constructor|intros n []|].
  exists (map fst cols). pose proof (ascending_nodup cols A) as D. split; [exact D|]. assert (NB : batches <> []) by (inversion H; subst; [now destruct NE|discriminate]).
  split; [intros n; split; auto|]. rewrite E. f_equal. rewrite (known_all cols D) at 1. apply map_ext_in. intros n I. f_equal. rewrite V by auto. reflexivity.
Qed.

(** Positions. *)
Lemma index_of_nth name L : In name L -> exists k, Tpch.index_of name L = Some k /\ nth_error L k = Some name.
Proof.
  induction L as [|n L IH]; intros I; [destruct I|]. cbn. destruct (String.eqb_spec name n) as [->|NN]; [now exists O|].
  destruct I as [->|I]; [now destruct NN|]. destruct (IH I) as (k & -> & E). now exists (S k).
Qed.
Lemma column_index_nth L rows name : In name L ->
  exists k, column_index (map (fun n => (n, map (cell n) rows)) L) name = Ok k /\ nth_error L k = Some name.
Proof.
  intros I. unfold column_index. rewrite map_map. cbn [fst]. rewrite map_id. destruct (index_of_nth name L I) as (k & -> & E). eauto.
Qed.

(** Proofs about tables of results and the embedding experiment. *)
From Coq Require Import Reals Lra.
From Flocq Require Import Core BinarySingleNaN.
From Coq Require Import String.
From Verif Require Import Base WordProofs Xor F64 F64Proofs F64BitsProofs F64Flocq Format FormatSpec File FileSpec FileProofs FileSummary Codecs CodecSpec CodecProofs Readers Query QuerySpec QueryProofs QuerySummary
  Sprintz SprintzSpec SprintzFloatProofs SprintzOrderProofs SprintzSummary Buff BuffSpec BuffCodec BuffSummary BuffFileSummary Expr ExprSpec ExprProofs ExprSummary
  Tpch TpchSpec TpchColumnProofs Harness HarnessProofs Ucr UcrSpec UcrColumnProofs Report ReportSpec.
Local Open Scope N_scope.

(** ** Results by scheme *)
Section Maps.
  Context {K V : Type}.
  Variable eqb : K -> K -> bool.
  Hypothesis eqb_eq : forall a b, eqb a b = true <-> a = b.
  Lemma get_none k (m : list (K * V)) : get eqb k m = None <-> ~ In k (map fst m).
  Proof using eqb_eq.
    induction m as [|[k' v] m IH]; cbn [get map fst In]; [tauto|]. destruct (eqb k k') eqn:E.
    - apply eqb_eq in E. subst. split; [discriminate|tauto].
    - rewrite IH. split; [|tauto]. intros H [->|I]; [|tauto]. rewrite (proj2 (eqb_eq k k) eq_refl) in E. discriminate.
  Qed.
  Lemma get_in k v (m : list (K * V)) : get eqb k m = Some v -> In (k, v) m.
  Proof using eqb_eq.
    induction m as [|[k' v'] m IH]; cbn [get In]; [discriminate|]. destruct (eqb k k') eqn:E; [|auto].
    apply eqb_eq in E. subst. intros [= ->]. now left.
  Qed.
  Lemma in_get k v (m : list (K * V)) : NoDup (map fst m) -> In (k, v) m -> get eqb k m = Some v.
  Proof using eqb_eq.
    induction m as [|[k' v'] m IH]; cbn [get In map fst]; [tauto|]. intros N [[= -> ->]|I].
    - now rewrite (proj2 (eqb_eq k k) eq_refl).
    - inversion_clear N as [|? ? N1 N2]. destruct (eqb k k') eqn:E; [|auto]. apply eqb_eq in E. subst. destruct N1. apply in_map_iff. now exists (k', v).
  Qed.
  Lemma put_new k (v : V) m : ~ In k (map fst m) -> put eqb k v m = m ++ [(k, v)].
  Proof using eqb_eq.
    induction m as [|[k' v'] m IH]; cbn [put map fst In app]; [reflexivity|]. intros H.
    destruct (eqb k k') eqn:E; [apply eqb_eq in E; subst; tauto|]. rewrite IH by tauto. reflexivity.
  Qed.
  Lemma put_keys k k' (v : V) m : In k (map fst (put eqb k' v m)) <-> k = k' \/ In k (map fst m).
  Proof using eqb_eq.
    induction m as [|[k2 v2] m IH]; cbn [put map fst In]; [intuition|]. destruct (eqb k' k2) eqn:E; cbn [map fst In].
    - apply eqb_eq in E. subst. intuition.
    - rewrite IH. intuition.
  Qed.
  Lemma put_nodup k (v : V) m : NoDup (map fst m) -> NoDup (map fst (put eqb k v m)).
  Proof using eqb_eq.
    induction m as [|[k2 v2] m IH]; cbn [put map fst]; intros N; [repeat constructor; tauto|]. inversion_clear N as [|? ? N1 N2].
    destruct (eqb k k2) eqn:E; cbn [map fst].
    - apply eqb_eq in E. subst. now constructor.
    - constructor; [|now apply IH]. rewrite put_keys. intros [->|H]; [|tauto]. rewrite (proj2 (eqb_eq k k) eq_refl) in E. discriminate.
  Qed.
End Maps.

Definition found (s : scheme) (t : list (scheme * list (string * inner))) : list (string * inner) := match get scheme_eqb s t with Some m => m | None => [] end.
Definition sgn {V} := @get_none scheme V scheme_eqb scheme_eqb_eq.

Lemma inner_transposed d s (os : outputs) : NoDup (map fst os) -> forall t, (NoDup (map fst t)) ->
  let t' := fold_left (insert_transposed d) os t in
  NoDup (map fst t') /\ (forall x, In x (map fst t') <-> In x (map fst t) \/ In x (map fst os)) /\
  found s t' = match get scheme_eqb s os with Some i => put String.eqb d i (found s t) | None => found s t end.
Proof.
  induction os as [|[k i] os IH]; intros N t NT; cbn [fold_left]; cbv zeta.
  { split; [exact NT|]. split; [intros x; cbn; tauto|reflexivity]. }
  inversion_clear N as [|? ? N1 N2]. destruct (IH N2 (insert_transposed d t (k, i))) as (A & B & C).
  { unfold insert_transposed. apply put_nodup; [exact scheme_eqb_eq|exact NT]. }
  split; [exact A|]. split.
  { intros x. rewrite B. unfold insert_transposed. cbn [fst snd]. rewrite (put_keys scheme_eqb scheme_eqb_eq). cbn [map fst In]. intuition. }
  rewrite C. cbn [get]. unfold insert_transposed. cbn [fst snd].
  destruct (scheme_eqb s k) eqn:E.
  - apply scheme_eqb_eq in E. subst k. assert (G : get scheme_eqb s os = None) by (apply sgn; exact N1). rewrite G.
    unfold found at 1. now rewrite (get_put_same scheme_eqb scheme_eqb_eq).
  - assert (NE : s <> k). { intros ->. rewrite (proj2 (scheme_eqb_eq k k) eq_refl) in E. discriminate. }
    unfold found at 1 2. rewrite (get_put_other scheme_eqb scheme_eqb_eq) by exact NE. reflexivity.
Qed.

(** The results of a scheme, in the order of the data sets. *)
Definition results_of (s : scheme) (a : all_output) : list (string * inner) :=
  flat_map (fun dm => match get scheme_eqb s (snd dm) with Some i => [(fst dm, i)] | None => [] end) a.
Lemma results_keys s a x : In x (map fst (results_of s a)) -> In x (map fst a).
Proof.
  unfold results_of. induction a as [|[d m] a IH]; cbn [flat_map map fst snd]; [tauto|]. rewrite map_app, in_app_iff.
  destruct (get scheme_eqb s m); cbn; intuition.
Qed.
Lemma transpose_fold s : forall a t, table a -> NoDup (map fst t) -> (forall d, In d (map fst a) -> ~ In d (map fst (found s t))) ->
  let t' := fold_left (fun t dm => fold_left (insert_transposed (fst dm)) (snd dm) t) a t in
  NoDup (map fst t') /\ (forall x, In x (map fst t') <-> In x (map fst t) \/ exists dm, In dm a /\ In x (map fst (snd dm))) /\
  found s t' = found s t ++ results_of s a.
Proof.
  induction a as [|[d os] a IH]; intros t [N1 N2] NT H; cbn [fold_left]; cbv zeta.
  { split; [exact NT|]. split; [intros x; split; [tauto|intros [I|(dm & [] & _)]; exact I]|]. now rewrite app_nil_r. }
  inversion_clear N1 as [|? ? D1 D2]. inversion_clear N2 as [|? ? O1 O2]. cbn [fst snd] in *.
  destruct (inner_transposed d s os O1 t NT) as (A & B & C).
  destruct (IH (fold_left (insert_transposed d) os t) (conj D2 O2) A) as (A' & B' & C').
  { intros d' I. rewrite C. destruct (get scheme_eqb s os); [|apply H; now right]. rewrite (put_keys String.eqb String.eqb_eq). intros [->|J]; [tauto|]. revert J. apply H. now right. }
  split; [exact A'|]. split.
  { intros x. rewrite B', B. cbn [In]. split.
    - intros [[I|I]|(dm & I & J)]; [now left|right; exists (d, os); now split; [left|]|right; exists dm; now split; [right|]].
    - intros [I|(dm & [<-|I] & J)]; [tauto|cbn in J; tauto|]. right. eauto. }
  rewrite C', C. unfold results_of. cbn [flat_map fst snd]. destruct (get scheme_eqb s os); [|reflexivity].
  rewrite (put_new String.eqb String.eqb_eq) by (apply H; now left). now rewrite <- app_assoc.
Qed.

Lemma transpose_entry a s m : table a -> get scheme_eqb s (transpose a) = Some m -> m = results_of s a /\ results_of s a <> [].
Proof.
  intros T G. destruct (transpose_fold s a [] T (NoDup_nil _)) as (_ & K & F); [cbn; tauto|]. fold (transpose a) in *. 
  unfold found in F. rewrite G in F. cbn [get app] in F. split; [exact F|]. apply (get_in scheme_eqb scheme_eqb_eq) in G.
  assert (I : In s (map fst (transpose a))) by (apply in_map_iff; now exists (s, m)). apply K in I as [[]|([d os] & I & J)].
  intros E. cbn [snd] in J. apply in_map_iff in J as ([s' i] & ES & J). cbn in ES. subst s'.
  assert (O : NoDup (map fst os)) by (destruct T as [_ T]; rewrite Forall_forall in T; exact (T _ I)).
  assert (X : In (d, i) (results_of s a)). { unfold results_of. apply in_flat_map. exists (d, os). split; [exact I|]. cbn [snd fst]. rewrite (in_get scheme_eqb scheme_eqb_eq s i os O J). now left. }
  rewrite E in X. destruct X.
Qed.
Lemma results_entry a s d i : table a -> In (d, i) (results_of s a) <-> entry a d s i.
Proof.
  intros [_ T]. rewrite Forall_forall in T. unfold results_of, entry. rewrite in_flat_map. split.
  - intros ([d' m] & I & J). cbn [fst snd] in J. destruct (get scheme_eqb s m) as [i'|] eqn:G; [|destruct J]. destruct J as [[= -> ->]|[]].
    exists m. split; [exact I|]. exact (get_in scheme_eqb scheme_eqb_eq _ _ _ G).
  - intros (m & I & J). exists (d, m). split; [exact I|]. cbn [fst snd]. rewrite (in_get scheme_eqb scheme_eqb_eq s i m (T _ I) J). now left.
Qed.
Lemma results_nodup a s : table a -> NoDup (map fst (results_of s a)).
Proof.
  intros [N _]. unfold results_of. induction a as [|[d m] a IH]; cbn [flat_map map fst snd]; [constructor|]. cbn [map fst] in N. inversion_clear N as [|? ? N1 N2].
  rewrite map_app. destruct (get scheme_eqb s m); cbn [map app fst]; [|auto]. constructor; [|auto]. intros I. apply N1. now apply results_keys with s.
Qed.
Lemma transpose_keys a : table a -> NoDup (map fst (transpose a)) /\ forall s, In s (map fst (transpose a)) <-> exists d i, entry a d s i.
Proof.
  intros T. destruct (transpose_fold SUncompressed a [] T (NoDup_nil _)) as (N & K & _); [cbn; tauto|]. fold (transpose a) in *. split; [exact N|].
  intros s. rewrite K. unfold entry. split.
  - intros [[]|([d m] & I & J)]. cbn [snd] in J. apply in_map_iff in J as ([s' i] & <- & J). exists d, i, m. now split.
  - intros (d & i & m & I & J). right. exists (d, m). split; [exact I|]. cbn [snd]. apply in_map_iff. now exists (s, i).
Qed.
Theorem transposed a : table a ->
  NoDup (map fst (transpose a)) /\
  (forall s, In s (map fst (transpose a)) <-> exists d i, entry a d s i) /\
  forall s m, In (s, m) (transpose a) -> NoDup (map fst m) /\ forall d i, In (d, i) m <-> entry a d s i.
Proof.
  intros T. destruct (transpose_keys a T) as [N K]. split; [exact N|]. split; [exact K|]. intros s m I.
  pose proof (in_get scheme_eqb scheme_eqb_eq s m _ N I) as G. destruct (transpose_entry a s m T G) as [-> _].
  split; [now apply results_nodup|]. intros d i. now apply results_entry.
Qed.
Theorem aggregated {A} (f : list inner -> A) a : table a ->
  NoDup (map fst (aggregate f a)) /\
  (forall s, In s (map fst (aggregate f a)) <-> exists d i, entry a d s i) /\
  forall s v, In (s, v) (aggregate f a) -> exists m, NoDup (map fst m) /\ (forall d i, In (d, i) m <-> entry a d s i) /\ v = f (map snd m).
Proof.
  intros T. destruct (transposed a T) as (N & K & E). unfold aggregate.
  assert (KE : map fst (map (fun kv => (fst kv, f (map snd (snd kv)))) (transpose a)) = map fst (transpose a)) by (rewrite map_map; reflexivity).
  rewrite KE. split; [exact N|]. split; [exact K|]. intros s v I. apply in_map_iff in I as ([s' m] & [= -> <-] & I). cbn [fst snd].
  exists m. destruct (E s m I) as [E1 E2]. auto.
Qed.

(** ** Embedding *)
Lemma first_bytes file h : fetch_header file = Ok h -> h_magic h = magic -> firstn 5 file = [69; 66; 73; 49; 0].
Proof.
  unfold fetch_header, read_n. destruct (N.ltb_spec (N.of_nat (length file)) 30) as [|L]; [discriminate|]. cbn [rbind]. unfold parse_header.
  destruct file as [|a [|b [|c [|d [|e file]]]]]; try (cbn in L; lia). change (N.to_nat 30) with 30%nat. change (firstn 30 (a :: b :: c :: d :: e :: file)) with (a :: b :: c :: d :: e :: firstn 25 file).
  destruct (negb _) eqn:Z; [discriminate|]. apply Bool.negb_false_iff, N.eqb_eq in Z. change (e = 0) in Z. subst e.
  destruct (scheme_of_code _); [|discriminate|discriminate]. cbn [rbind]. destruct (chunk_option_of _ _); [|discriminate|discriminate]. cbn [rbind].
  intros [= <-]. cbn [h_magic firstn]. unfold magic. now intros [= -> -> -> ->].
Qed.
Lemma opened_header dbg file m : open_file dbg file = Ok m -> fetch_header file = Ok (m_header m).
Proof.
  unfold open_file. destruct (fetch_header file) as [h| |]; try discriminate. cbn [rbind]. destruct (fetch_footer _ _ _); try discriminate. cbn [rbind].
  destruct (_ <=? _); [discriminate|]. now intros [= <-].
Qed.
Lemma bytes_long (vs : list N) : vs <> [] -> (5 <= length (bytes_of vs))%nat.
Proof. destruct vs as [|v vs]; [congruence|]. intros _. cbn. lia. Qed.

Section Run.
  Variable P : platform.
  Hypothesis GP : good_platform P.
  Let dbg := p_dbg P.
  Variable c : config.
  Hypothesis VC : valid_config c.
  Variables data xs : list N.
  Hypothesis RF : record_file data xs.
  Hypothesis FF : file_fits P c data.

  Lemma run_valid : valid_run c default_chunk_option (p_timer P) (p_elapsed P).
  Proof using All. destruct GP as (_ & VT & EL). split; [exact VC|]. split; [reflexivity|]. split; assumption. Qed.
  Lemma run_input : readable default_chunk_option [Data data] /\ exists tail, delivered [Data data] = bytes_of xs ++ tail /\ (length tail < 8)%nat /\ Forall is_byte tail.
  Proof using All.
    destruct RF as (NE & _ & _ & tail & E & T & B). split; [|exists tail; split; [cbn; rewrite app_nil_r; exact E|auto]].
    constructor; [|constructor]. exists data. split; [reflexivity|]. rewrite E. destruct xs as [|x l]; [now destruct NE|]. cbn. discriminate.
  Qed.

  Lemma report ops m k vs :
    encode dbg (codec_of P c) default_chunk_option c (p_timer P) (p_elapsed P) [Data data] = (ops, Ok tt) ->
    open_file dbg (File.written [] ops) = Ok m -> h_magic (m_header m) = magic -> f_records (m_footer m) = N.of_nat (length xs) -> f_config (m_footer m) = c ->
    total_file_size m = N.of_nat (length (File.written [] ops)) -> total_chunk_size dbg m = Ok k ->
    dec_materialize dbg (executor_of P c) m (File.written [] ops) None None None = (bytes_of vs, Ok tt) -> vs <> [] -> gives P c xs vs ->
    exists r, embed_once P c data = Ok r /\ right_report P c data xs r.
  Proof using All.
    intros EN OP MG NR FC TF TC DM NV GV. pose proof FF as LM. unfold file_fits, encoded_file in LM. fold dbg in LM. rewrite EN in LM. cbn [fst] in LM.
    pose proof (first_bytes _ _ (opened_header _ _ _ OP) MG) as FB.
    assert (L5 : Nat.min 5 (length (File.written [] ops)) = 5%nat). { pose proof (firstn_length 5 (File.written [] ops)) as H. rewrite FB in H. cbn in H. symmetry. exact H. }
    assert (XL : (two64 <=? 8 * N.of_nat (length xs)) = false).
    { destruct RF as (_ & _ & L & _). apply N.leb_gt. change (2 ^ 32) with 4294967296 in L. change two64 with 18446744073709551616. lia. }
    exists (mkRun [69; 66; 73; 49; 0] (mkStats (8 * N.of_nat (length xs)) (N.of_nat (length (File.written [] ops))) k) (firstn 5 (bytes_of vs))). split.
    - unfold embed_once. fold dbg. rewrite EN. cbn [rbind]. assert (IL : (isize_limit <=? N.of_nat (length (File.written [] ops))) = false) by (apply N.leb_gt; exact LM). rewrite IL, OP. cbn [rbind].
      rewrite FC. unfold column_statistics. cbn [d_meta]. fold dbg. rewrite NR, TC, TF. unfold mul8. rewrite XL. cbn [rbind]. rewrite DM. cbn [rbind]. rewrite L5, FB.
      assert (LL : (length (bytes_of vs) <? 5)%nat = false) by (apply Nat.ltb_ge, bytes_long, NV). now rewrite LL.
    - split; [reflexivity|]. split; [reflexivity|]. split; [unfold encoded_file; fold dbg; rewrite EN; reflexivity|]. exists vs. split; [exact GV|reflexivity].
  Qed.

  Lemma exact_encodable : Forall (storable (p_log10 P) c) xs -> encodable (p_log10 P) (p_lib P) c default_chunk_option (p_timer P) (p_elapsed P) [Data data] xs.
  Proof using All.
    intros ST. destruct run_input as (R & D). destruct RF as (NE & XU & XL & _). split; [apply GP|]. split; [split; reflexivity|]. split; [exact R|]. split; [exact D|].
    split; [exact XU|]. split; [eapply N.lt_trans; [exact XL|reflexivity]|]. split; [exact ST|exact run_valid].
  Qed.

  Lemma plain_run ex : scheme_executor dbg (p_neg P) (p_tie P) (p_log10 P) (p_lib P) c = Some ex -> Forall (storable (p_log10 P) c) xs ->
    exists r, embed_once P c data = Ok r /\ right_report P c data xs r.
  Proof using All.
    intros EX ST. assert (CD : scheme_codec dbg (p_log10 P) (p_lib P) c = Some (codec_of P c)).
    { destruct c; cbn [scheme_executor] in EX; try discriminate EX; reflexivity. }
    assert (EE : executor_of P c = ex) by (destruct c; cbn [scheme_executor] in EX; try discriminate EX; injection EX as <-; reflexivity).
    assert (GX : gives P c xs xs) by (destruct c; cbn [scheme_executor] in EX; try discriminate EX; reflexivity).
    pose proof (exact_encodable ST) as EC. pose proof RF as (NE & XU & XL & _).
    destruct (scheme_whole dbg (p_log10 P) (p_lib P) c (codec_of P c) _ _ _ _ xs CD EC NE) as (image & ops & ps & PP & EN & W).
    destruct (encoded_stored dbg (p_neg P) (p_tie P) _ _ _ _ _ _ _ _ _ _ CD EX EC NE) as (parts & PS & ops3 & EN3 & W3). rewrite EN in EN3. injection EN3 as <-.
    pose proof FF as LM. unfold file_fits, encoded_file in LM. fold dbg in LM. rewrite EN in LM. cbn [fst] in LM.
    destruct (W [] LM) as (m & OP & MH & MF & _ & _ & _ & TF & TC). destruct (W3 [] LM) as (m3 & OP3 & SX). rewrite OP in OP3. injection OP3 as <-.
    assert (SM : N.of_nat (length (concat parts)) < 2 ^ 32) by (rewrite (proj1 PS); exact XL).
    destruct (materialize_chosen dbg (p_neg P) (p_tie P) _ _ _ _ _ _ None parts None None 0 (concat parts) EX (SX None) SM (scope_all parts) None) as (ys & CH & E).
    rewrite (choose_none _ _ _ CH), (proj1 PS) in E.
    apply (report ops m (N.of_nat (length (concat (map image ps)))) xs EN OP); [rewrite MH; reflexivity|rewrite MF; cbn [layout_footer f_records]; now rewrite (proj1 PP)|rewrite MF; reflexivity|apply TF; cbn; lia|exact TC|rewrite EE; exact E|exact NE|exact GX].
  Qed.

  Lemma sprintz_run capacity s : c = CDeltaSprintz capacity s -> 1 <= s -> Forall (storable (p_log10 P) c) xs ->
    exists r, embed_once P c data = Ok r /\ right_report P c data xs r.
  Proof using All.
    intros CE S1 ST. pose proof RF as (NE & XU & XL & _). rewrite CE in ST.
    assert (SB : 1 <= s < 2 ^ 32). { split; [exact S1|]. destruct xs as [|x l]; [now destruct NE|]. inversion_clear ST as [|? ? H _]. exact (proj1 H). }
    assert (CD : scheme_codec dbg (p_log10 P) (p_lib P) c = Some (codec_of P c)) by (rewrite CE; reflexivity).
    assert (EC : encodable (p_log10 P) (p_lib P) c default_chunk_option (p_timer P) (p_elapsed P) [Data data] xs) by (apply exact_encodable; rewrite CE; exact ST).
    destruct (scheme_whole dbg (p_log10 P) (p_lib P) c (codec_of P c) _ _ _ _ xs CD EC NE) as (image & ops & ps & PP & EN & W).
    assert (STEPS : steps_fit s xs).
    { intros before x y after p q E SP SQ. rewrite Forall_forall in ST, XU. assert (Ix : In x xs /\ In y xs) by (rewrite E; split; apply in_or_app; right; [left|right; left]; reflexivity).
      pose proof (proj1 (stored_quantize s x p (XU x (proj1 Ix))) SP) as Ep. pose proof (proj1 (stored_quantize s y q (XU y (proj2 Ix))) SQ) as Eq.
      pose proof (ST x (proj1 Ix)) as (_ & Bx & _). pose proof (ST y (proj2 Ix)) as (_ & By & _). rewrite Ep in Bx. rewrite Eq in By.
      change (2 ^ 62)%Z with 4611686018427387904%Z in *. change (2 ^ 63)%Z with 9223372036854775808%Z. lia. }
    destruct run_input as (R & D).
    assert (SE : sprintz_encodable dbg capacity s default_chunk_option (p_timer P) (p_elapsed P) [Data data] xs).
    { split; [exact SB|]. split; [split; reflexivity|]. split; [exact R|]. split; [exact D|]. split; [exact XU|]. split; [eapply N.lt_trans; [exact XL|reflexivity]|].
      split; [rewrite <- CE; exact run_valid|]. intros _. exact STEPS. }
    destruct (sprintz_file dbg (p_neg P) (p_tie P) _ _ _ _ _ _ _ SE NE) as (ops2 & parts & PS & EN2 & W2).
    rewrite CE in EN. change (codec_of P (CDeltaSprintz capacity s)) with (sprintz_codec dbg s) in EN. rewrite EN in EN2. injection EN2 as <-.
    assert (EN' : encode dbg (codec_of P c) default_chunk_option c (p_timer P) (p_elapsed P) [Data data] = (ops, Ok tt)) by (rewrite CE; exact EN).
    pose proof FF as LM. unfold file_fits, encoded_file in LM. fold dbg in LM. rewrite EN' in LM. cbn [fst] in LM.
    destruct (W [] LM) as (m & OP & MH & MF & _ & _ & _ & TF & TC). destruct (W2 [] LM) as (m2 & vss & OP2 & SX). rewrite OP in OP2. injection OP2 as <-.
    assert (VE : vss = parts).
    { destruct (SX None) as (_ & _ & F & _). destruct PS as (CC & _). rewrite <- CC in ST, XU. clear - F ST XU. induction F as [|p v ps vs H F IH]; [reflexivity|].
      cbn [concat] in ST, XU. apply Forall_app in ST as [Q1 Q2]. apply Forall_app in XU as [U1 U2]. f_equal; [|now apply IH]. clear - H Q1 U1. induction H as [|x y xs ys DE H IH]; [reflexivity|].
      inversion_clear Q1 as [|? ? A Q]. inversion_clear U1 as [|? ? B U]. f_equal; [|now apply IH]. apply (decodes_eq s x y) in DE; [|exact B]. rewrite DE. exact (proj2 (proj2 A)). }
    subst vss. assert (SM : N.of_nat (length (concat parts)) < 2 ^ 32) by (rewrite (proj1 PS); exact XL).
    destruct (c30_materialize dbg (p_neg P) (p_tie P) s m (File.written [] ops) None parts parts (SX None) None SM None 0 (concat parts) (scope_all parts) (PEq 0)) as (ys & zs & CH & _ & E & _).
    { repeat constructor. }
    rewrite (choose_none _ _ _ CH), (proj1 PS) in E.
    apply (report ops m (N.of_nat (length (concat (map image ps)))) xs EN' OP); [rewrite MH; reflexivity|rewrite MF; cbn [layout_footer f_records]; now rewrite (proj1 PP)|rewrite MF; reflexivity|apply TF; cbn; lia|exact TC| |exact NE|rewrite CE; reflexivity].
    rewrite CE. exact E.
  Qed.

  Lemma buff_run s f : c = CBuff s -> bits_of_digits (digits_of (p_lg P) s) = Some f -> Forall (in_range f) xs -> (dbg = true -> spread_fits f xs xs) ->
    exists r, embed_once P c data = Ok r /\ right_report P c data xs r.
  Proof using All.
    intros CE DG XR SP. pose proof RF as (NE & XU & XL & _). destruct run_input as (R & D).
    assert (BE : buff_encodable dbg (p_lg P) s f default_chunk_option (p_timer P) (p_elapsed P) [Data data] xs).
    { split; [exact DG|]. split; [split; reflexivity|]. split; [exact R|]. split; [exact D|]. split; [exact XU|]. split; [exact XL|]. split; [rewrite <- CE; exact run_valid|]. split; [exact XR|exact SP]. }
    destruct (buff_file dbg (p_simd P) (p_neg P) _ _ _ _ _ _ _ _ BE NE) as (ops & parts & PS & EN & W).
    pose proof (encodable_parts _ _ _ _ _ _ _ _ _ BE) as GD. destruct D as (tail & DL & TL & TB).
    destruct (whole_file dbg (buff_codec dbg (p_lg P) s) default_chunk_option c (p_timer P) (p_elapsed P) _ _ _ [Data data] xs tail
      (buff_ok dbg (p_lg P) s f DG) (conj eq_refl eq_refl) R DL TL TB XU ltac:(eapply N.lt_trans; [exact XL|reflexivity]) GD run_valid NE) as (ops2 & parts2 & P2 & EN2 & W2).
    rewrite CE in EN2. rewrite EN in EN2. injection EN2 as <-.
    assert (EN' : encode dbg (codec_of P c) default_chunk_option c (p_timer P) (p_elapsed P) [Data data] = (ops, Ok tt)) by (rewrite CE; exact EN).
    pose proof FF as LM. unfold file_fits, encoded_file in LM. fold dbg in LM. rewrite EN' in LM. cbn [fst] in LM.
    destruct (W [] LM) as (m & OP & SX). destruct (W2 [] LM) as (m2 & OP2 & MH & MF & _ & _ & _ & TF & TC). rewrite OP in OP2. injection OP2 as <-.
    destruct (SX None ltac:(discriminate)) as (vss & SS).
    assert (SM : N.of_nat (length (concat parts)) < 2 ^ 32) by (rewrite (proj1 PS); exact XL).
    destruct (file_materialize dbg (p_simd P) (p_neg P) (p_lg P) s f m (File.written [] ops) None parts vss SS SM None 0 (concat vss) (scope_all vss) None) as (ys & CH & E).
    rewrite (choose_none _ _ _ CH) in E.
    assert (TR : Forall2 (truncated f) xs (concat vss)).
    { destruct SS as (_ & _ & (g & KB & F) & _). cbn [kept_bits] in KB. injection KB as <-. rewrite <- (proj1 PS). clear - F. induction F as [|p v ps vs H F IH]; [constructor|].
      cbn [concat]. apply Forall2_app; [|exact IH]. eapply BuffSummary.Forall2_weaken; [|exact H]. intros x y (a & b & A & -> & B). rewrite N.sub_diag in B. exists a. split; [exact A|]. f_equal. cbn in B. lia. }
    eapply (report ops m _ (concat vss) EN' OP); [rewrite MH; reflexivity|rewrite MF; cbn [layout_footer f_records]; now rewrite (proj1 P2)|rewrite MF; reflexivity|apply TF; cbn; lia|exact TC| | |].
    - rewrite CE. exact E.
    - intros V. rewrite V in TR. inversion TR. subst. now apply NE.
    - rewrite CE. exists f. now split.
  Qed.

  Theorem run_right : embeds P c xs -> exists r, embed_once P c data = Ok r /\ right_report P c data xs r.
  Proof using All.
    intros E. destruct (scheme_executor dbg (p_neg P) (p_tie P) (p_log10 P) (p_lib P) c) as [ex|] eqn:EX.
    - apply (plain_run ex EX). destruct c; cbn [scheme_executor] in EX; try discriminate EX; exact E.
    - pose proof buff_run as BR. pose proof sprintz_run as SR. clear VC FF. destruct c; cbn [scheme_executor] in EX; try discriminate EX; cbn [embeds] in E.
      + destruct E as (_ & f & DG & XR & SP). exact (BR _ f eq_refl DG XR SP).
      + destruct E as (S1 & ST). exact (SR _ _ eq_refl S1 ST).
  Qed.
End Run.

(** ** Data sets *)
Lemma configs_valid_all s c : is_u64 s -> In c (experiment_configs false s) -> valid_config c.
Proof.
  intros US I. cbn [experiment_configs In] in I.
  repeat (destruct I as [<-|I]; [first [exact US|exact Logic.I|split; [reflexivity|exact US]|vm_compute; split; [intros H; discriminate H|reflexivity]|reflexivity]|]). destruct I.
Qed.
Section DataSet.
  Variable P : platform.
  Hypothesis GP : good_platform P.
  Variables data xs : list N.
  Hypothesis RF : record_file data xs.

  Definition ready (c : config) : Prop := valid_config c /\ embeds P c xs /\ file_fits P c data.
  Lemma runs_right c : ready c -> forall n, exists rs, embed_runs P n c data = Ok rs /\ length rs = n /\ Forall (right_report P c data xs) rs.
  Proof using All.
    intros (V & E & F). destruct (run_right P GP c V data xs RF F E) as (r & R1 & R2). induction n as [|n (rs & I1 & I2 & I3)]; cbn [embed_runs].
    - exists []. repeat split. constructor.
    - rewrite R1. cbn [rbind]. rewrite I1. cbn [rbind]. exists (r :: rs). split; [reflexivity|]. split; [cbn; now rewrite I2|now constructor].
  Qed.
  Definition kept (scale : option N) (cs : list config) : list config := flat_map (fun c => match embedding_config scale c with Some c' => [c'] | None => [] end) cs.
  Lemma dataset_right scale : forall cs t, Forall ready (kept scale cs) -> NoDup (map fst t ++ map config_scheme (kept scale cs)) ->
    exists new, embed_dataset P scale cs data t = Ok (t ++ new) /\ map (fun x => fst (snd x)) new = kept scale cs /\ Forall (right_reports P data xs) new.
  Proof using All.
    induction cs as [|c cs IH]; intros t R N; cbn [embed_dataset kept flat_map].
    { exists []. rewrite app_nil_r. repeat split. constructor. }
    fold (kept scale cs). cbn [kept flat_map] in R, N. fold (kept scale cs) in R, N. destruct (embedding_config scale c) as [c'|]; [|now apply IH].
    cbn [app] in R, N |- *. inversion_clear R as [|? ? R1 R2]. destruct (runs_right c' R1 10) as (rs & E1 & E2 & E3). rewrite E1. cbn [rbind].
    cbn [map] in N. assert (NI : ~ In (config_scheme c') (map fst t)). { intros I. apply NoDup_remove_2 in N. apply N. apply in_or_app. now left. }
    rewrite (put_new scheme_eqb scheme_eqb_eq) by exact NI.
    destruct (IH (t ++ [(config_scheme c', (c', rs))]) R2) as (new & D1 & D2 & D3).
    { rewrite map_app. cbn [map fst]. rewrite <- app_assoc. exact N. }
    exists ((config_scheme c', (c', rs)) :: new). rewrite D1, <- app_assoc. split; [reflexivity|]. split; [cbn [map fst snd]; now rewrite D2|].
    constructor; [|exact D3]. split; [reflexivity|]. split; [exact E2|exact E3].
  Qed.
End DataSet.

(** The scale of a data set. *)
Lemma places_finite k v a : k < 2 ^ 32 -> scaled v = Some a -> nearest_integer a (Z.of_N k) -> finite v.
Proof.
  intros K E H. destruct v as [s|s| |s p e]; try exact I; [exfalso|discriminate].
  assert (A : (Z.abs a = 2 ^ 2098)%Z). { destruct scaled_inf as [SI SJ]. destruct s; [rewrite SJ in E|rewrite SI in E]; apply some_eq in E; subst a; [rewrite Z.abs_opp|]; rewrite Z.abs_eq; try reflexivity; apply Z.pow_nonneg; lia. }
  unfold nearest_integer in H. cbv zeta in H. assert (U : (2 ^ 2098 = 2 ^ 1024 * 2 ^ 1074)%Z) by (rewrite <- Z.pow_add_r by lia; reflexivity).
  assert (B : (2 ^ 34 <= 2 ^ 1024)%Z) by (apply Z.pow_le_mono_r; lia). assert (UP : (0 < 2 ^ 1074)%Z) by (apply Z.pow_pos_nonneg; lia).
  rewrite U in A. clear U E. set (u := (2 ^ 1074)%Z) in *. set (w := (2 ^ 1024)%Z) in *. clearbody u w. change (2 ^ 34)%Z with 17179869184%Z in B. change (2 ^ 32) with 4294967296 in K.
  assert (L : (17179869184 * u <= Z.abs a)%Z) by nia. assert (M : (Z.of_N k * u <= 4294967296 * u)%Z) by nia. assert (M0 : (0 <= Z.of_N k * u)%Z) by nia.
  set (ku := (Z.of_N k * u)%Z) in *. destruct H as [H|[H _]]; lia.
Qed.
Lemma places_scale k v : k < 2 ^ 32 -> places k v -> embedding_scale v = if k <=? 19 then Some (10 ^ k) else None.
Proof.
  intros K (b & a & -> & U & NA & NI). unfold embedding_scale. assert (E : embedding_precision (of_bits b) = k); [|rewrite E, N.mod_small by exact K; reflexivity].
  rewrite (number_scaled b U) in NA. pose proof (of_bits_canonical b U) as C. set (v := of_bits b) in *. clearbody v.
  assert (F : finite v). { apply (places_finite k v a K NA NI). }
  destruct (fround_int v a C F NA) as [FF NR]. unfold embedding_precision.
  assert (Z : ftruncZ (fround v) = Z.of_N k) by (eapply nearest_unique; [|exact NR|exact NI]; apply Z.pow_pos_nonneg; lia).
  destruct (fround v) as [s|s| |s p e]; try contradiction.
  - cbn [ftruncZ] in Z. lia.
  - rewrite Z. change (2 ^ 64 - 1)%Z with 18446744073709551615%Z. change (2 ^ 32) with 4294967296 in K. lia.
Qed.

Lemma kept_tried k : (k <= 12 -> kept (if k <=? 19 then Some (10 ^ k) else None) embedding_configs = tried k) /\
  (12 < k -> kept (if k <=? 19 then Some (10 ^ k) else None) embedding_configs = tried k).
Proof.
  split; intros K.
  - assert (E : (k <=? 19) = true) by (apply N.leb_le; lia). assert (E2 : (k <=? 12) = true) by (apply N.leb_le; lia).
    assert (L : (10 ^ 12 <? 10 ^ k) = false). { apply N.ltb_ge. apply N.pow_le_mono_r; lia. }
    unfold kept, embedding_configs, tried, experiment_configs. cbn [flat_map embedding_config filter app]. rewrite E, E2. set (s := 10 ^ k) in *. clearbody s. rewrite L. reflexivity.
  - assert (E2 : (k <=? 12) = false) by (apply N.leb_gt; lia).
    unfold kept, embedding_configs, tried, experiment_configs. cbn [flat_map embedding_config filter app]. rewrite E2.
    destruct (k <=? 19); [|reflexivity]. assert (L : (10 ^ 12 <? 10 ^ k) = true). { apply N.ltb_lt. apply N.pow_lt_mono_r; lia. }
    set (s := 10 ^ k) in *. clearbody s. rewrite L. reflexivity.
Qed.
Lemma tried_valid k c : In c (tried k) -> valid_config c.
Proof.
  intros I. unfold tried in I. apply filter_In in I as [I F]. destruct (N.leb_spec k 12) as [L|L].
  - apply (configs_valid_all (10 ^ k)); [|exact I]. unfold is_u64, two64. apply N.le_lt_trans with (10 ^ 12); [apply N.pow_le_mono_r; lia|reflexivity].
  - assert (J : In c (experiment_configs false 0)).
    { set (s := 10 ^ k) in *. clearbody s. cbn [experiment_configs In] in I |- *.
      repeat (destruct I as [<-|I]; [first [discriminate F|tauto]|]). destruct I. }
    apply (configs_valid_all 0); [reflexivity|exact J].
Qed.
Lemma tried_schemes k : NoDup (map config_scheme (tried k)).
Proof. unfold tried, experiment_configs. cbn [filter map config_scheme app]. destruct (k <=? 12); cbn [map config_scheme]; repeat (constructor; [cbn; intuition discriminate|]); constructor. Qed.

Section Command.
  Variable P : platform.
  Hypothesis GP : good_platform P.
  Lemma one_data_set k v data xs : k < 2 ^ 32 -> places k v -> record_file data xs -> Forall (fun c => embeds P c xs /\ file_fits P c data) (tried k) ->
    exists t, embed_dataset P (embedding_scale v) embedding_configs data [] = Ok t /\ map (fun x => fst (snd x)) t = tried k /\ Forall (right_reports P data xs) t.
  Proof using All.
    intros K PL RF F. rewrite (places_scale k v K PL). assert (KT : kept (if k <=? 19 then Some (10 ^ k) else None) embedding_configs = tried k).
    { destruct (kept_tried k) as [A B]. destruct (N.le_gt_cases k 12); [now apply A|now apply B]. }
    destruct (dataset_right P GP data xs RF (if k <=? 19 then Some (10 ^ k) else None) embedding_configs []) as (t & E & M & R).
    - rewrite KT. apply Forall_forall. intros c I. split; [now apply tried_valid with k|]. rewrite Forall_forall in F. now apply F.
    - rewrite KT. cbn [map app]. apply tried_schemes.
    - exists t. rewrite KT in M. now split.
  Qed.
  Lemma all_data_sets (precisions : list (string * f64)) : forall (files : list (string * list N)) t,
    NoDup (map fst t ++ map fst files) ->
    (forall d data, In (d, data) files -> exists v k xs, get String.eqb d precisions = Some v /\ k < 2 ^ 32 /\ places k v /\ record_file data xs /\ Forall (fun c => embeds P c xs /\ file_fits P c data) (tried k)) ->
    exists new, embedding P precisions files t = Ok (t ++ new) /\
      Forall2 (fun (f : string * list N) x => fst x = fst f /\ forall v k xs, get String.eqb (fst f) precisions = Some v -> k < 2 ^ 32 -> places k v -> record_file (snd f) xs ->
        Forall (fun c => embeds P c xs /\ file_fits P c (snd f)) (tried k) ->
        map (fun y => fst (snd y)) (snd x) = tried k /\ Forall (right_reports P (snd f) xs) (snd x)) files new.
  Proof using All.
    induction files as [|[d data] files IH]; intros t N H; cbn [embedding].
    { exists []. rewrite app_nil_r. split; [reflexivity|constructor]. }
    destruct (H d data (or_introl eq_refl)) as (v & k & xs & G & K & PL & RF & F). rewrite G.
    destruct (one_data_set k v data xs K PL RF F) as (x & E & M & R). rewrite E. cbn [rbind]. cbn [map fst] in N.
    assert (NI : ~ In d (map fst t)). { intros I. apply NoDup_remove_2 in N. apply N. apply in_or_app. now left. }
    rewrite (put_new String.eqb String.eqb_eq) by exact NI.
    destruct (IH (t ++ [(d, x)])) as (new & E2 & F2).
    { rewrite map_app. cbn [map fst]. rewrite <- app_assoc. exact N. }
    { intros d' data' I. apply H. now right. }
    exists ((d, x) :: new). rewrite E2, <- app_assoc. split; [reflexivity|]. constructor; [|exact F2]. cbn [fst snd]. split; [reflexivity|].
    intros v' k' xs' G' K' PL' RF' F'. rewrite G in G'. injection G' as <-. destruct (one_data_set k' v data xs' K' PL' RF' F') as (x' & E' & M' & R').
    rewrite E in E'. injection E' as <-. now split.
  Qed.
End Command.

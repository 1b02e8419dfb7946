(** DeltaSprintz: corollaries in the form the properties are stated in. *)
From Coq Require Import Sorted.
From Verif Require Import Base WordProofs BitIO BitIOProofs BitIOTotalProofs Xor F64 F64Proofs F64BitsProofs F64Flocq Format FormatSpec File FileSpec FileProofs Query QuerySpec QueryProofs
  Sprintz SprintzProofs SprintzFloatProofs SprintzQueryProofs SprintzSpec SprintzOrderProofs Codecs CodecSpec CodecProofs FileSummary Readers QuerySummary.

(** ** Quantised integers and the specification *)
Lemma scale_bounds s : 1 <= s < 2 ^ 32 -> scale_ok s.
Proof. unfold scale_ok. change (2 ^ 32)%N with 4294967296. change (2 ^ 32)%Z with 4294967296%Z. lia. Qed.
Lemma decodes_eq s x v : is_u64 x -> (decodes s x v <-> v = dec s (quantize s x)).
Proof.
  intros U. split.
  - intros (q & Q & ->). pose proof (proj1 (stored_quantize s x q U) Q) as E. rewrite <- E. reflexivity.
  - intros ->. exists (quantize s x). split; [exact (proj2 (stored_quantize s x _ U) eq_refl)|reflexivity].
Qed.
Lemma decodes_all s xs : Forall is_u64 xs -> forall vs, Forall2 (decodes s) xs vs <-> vs = map (dec s) (map (quantize s) xs).
Proof.
  induction 1 as [|x xs U F IH]; intros vs; split.
  - inversion 1; reflexivity.
  - intros ->. constructor.
  - inversion 1 as [|? v ? vs' D DS]; subst. cbn [map]. apply decodes_eq in D; [|assumption]. apply IH in DS. now subst.
  - intros ->. cbn [map]. constructor; [now apply decodes_eq|]. now apply IH.
Qed.
Lemma steps_pairs dbg : forall qs previous,
  steps_ok dbg previous qs <-> dbg = false \/ forall before p q after, previous :: qs = before ++ p :: q :: after -> i64 (q - p).
Proof.
  induction qs as [|q qs IH]; intros previous; cbn [steps_ok].
  - split; [|auto]. intros _. right. intros before p q after E. exfalso. apply (f_equal (@length Z)) in E. rewrite app_length in E. cbn in E. lia.
  - rewrite IH. split.
    + intros [[D|D] [H|H]]; auto. right. intros before p r after E. destruct before as [|b before].
      * injection E as -> -> _. exact D.
      * injection E as _ E. exact (H _ _ _ _ E).
    + intros [D|H]; [auto|]. split; right; [exact (H [] previous q qs eq_refl)|].
      intros before p r after E. apply (H (previous :: before) p r after). cbn [app]. now f_equal.
Qed.
Lemma map_split {A B} (f : A -> B) : forall l a b1 b2 c, map f l = a ++ b1 :: b2 :: c ->
  exists a' x y c', l = a' ++ x :: y :: c' /\ f x = b1 /\ f y = b2.
Proof.
  induction l as [|x l IH]; intros [|a0 a] b1 b2 c E; try discriminate E.
  - destruct l as [|y l]; [discriminate E|]. injection E as E1 E2 _. now exists [], x, y, l.
  - injection E as _ E. destruct (IH a b1 b2 c E) as (a'&y&z&c'&->&H). now exists (x :: a'), y, z, c'.
Qed.
Lemma steps_fit_good s xs dbg : Forall is_u64 xs -> (dbg = true -> steps_fit s xs) -> sprintz_good dbg s xs.
Proof.
  intros U SF. unfold sprintz_good. destruct xs as [|x xs]; [exact I|]. cbn [map hd steps_ok].
  split; [right; rewrite Z.sub_diag; unfold i64; lia|]. apply steps_pairs. destruct dbg; [|now left]. right. specialize (SF eq_refl).
  intros before p q after E. change (map (quantize s) (x :: xs) = before ++ p :: q :: after) in E.
  destruct (map_split _ _ _ _ _ _ E) as (a&y&z&c&E'&Ey&Ez). rewrite Forall_forall in U.
  assert (In y (x :: xs) /\ In z (x :: xs)) as [Iy Iz] by (rewrite E'; split; apply in_or_app; right; [left|right; left]; reflexivity).
  apply (SF a y z c p q E').
  - exact (proj2 (stored_quantize s y p (U y Iy)) Ey).
  - exact (proj2 (stored_quantize s z q (U z Iz)) Ez).
Qed.
Lemma good_steps_fit s xs : Forall is_u64 xs -> sprintz_good true s xs -> steps_fit s xs.
Proof.
  intros U G before x y after p q ->. rewrite Forall_forall in U.
  assert (Up : is_u64 x) by (apply U, in_or_app; right; now left).
  assert (Uq : is_u64 y) by (apply U, in_or_app; right; right; now left).
  intros Hp Hq. pose proof (proj1 (stored_quantize s x p Up) Hp) as Ep. pose proof (proj1 (stored_quantize s y q Uq) Hq) as Eq.
  clear Hp Hq. subst p q.
  unfold sprintz_good in G. apply steps_pairs in G. destruct G as [G|G]; [discriminate G|].
  set (h := hd 0%Z (map (quantize s) (before ++ x :: y :: after))) in *. clearbody h.
  apply (G (h :: map (quantize s) before) _ _ (map (quantize s) after)). rewrite map_app. reflexivity.
Qed.
Lemma steps_fit_part s parts part : In part parts -> steps_fit s (concat parts) -> steps_fit s part.
Proof.
  intros I SF before x y after p q E. apply in_split in I. destruct I as (l1&l2&->). rewrite concat_app in SF. cbn [concat] in SF.
  apply (SF (concat l1 ++ before) x y (after ++ concat l2)). rewrite E, <- !app_assoc. reflexivity.
Qed.

(** ** One chunk *)
Lemma sprintz_opened dbg s part c : part <> [] -> Forall is_u64 part -> sprintz_good dbg s part -> sp_compress dbg (sp_new s) part = Ok c ->
  encodes dbg s (map (quantize s) part) (sp_buffers c) /\
  fresh (sp_buffers c) (N.of_nat (length (map (quantize s) part))) (sp_open (N.of_nat (length part)) (sp_buffers c)).
Proof.
  intros NE U G E. destruct (compress_encodes dbg (sp_new s) part NE G) as (c' & E' & EN & _). rewrite E in E'. injection E' as X; subst c'.
  split; [exact EN|]. split; [split|]; cbn; [reflexivity|now rewrite map_length|reflexivity].
Qed.
Lemma sprintz_decodes dbg s xs : xs <> [] -> Forall is_u64 xs -> sprintz_good dbg s xs ->
  exists c, sp_compress dbg (sp_new s) xs = Ok c /\
    fst (sp_decompress dbg (sp_open (N.of_nat (length xs)) (sp_buffers c))) = Ok (sprintz_view s xs).
Proof.
  intros NE U G. destruct (compress_encodes dbg (sp_new s) xs NE G) as (c & E & EN & _). exists c. split; [exact E|].
  destruct (sprintz_opened dbg s xs c NE U G E) as [_ FR].
  destruct (decompress_ok dbg s (map (quantize s) xs) (sp_buffers c) _ EN FR) as (r' & D & _).
  - reflexivity.
  - rewrite D. cbn [fst]. unfold sprintz_view. now rewrite map_map.
Qed.
Lemma view_dec s xs : s < 2 ^ 32 -> sprintz_view s xs = map (dec s) (map (quantize s) xs).
Proof. intros H. unfold sprintz_view. rewrite N.mod_small by exact H. now rewrite map_map. Qed.

Lemma c13 dbg s xs : 1 <= s < 2 ^ 32 -> xs <> [] -> Forall is_u64 xs -> (dbg = true -> steps_fit s xs) ->
  exists c vs, sp_compress dbg (sp_new s) xs = Ok c /\
    fst (sp_decompress dbg (sp_open (N.of_nat (length xs)) (sp_buffers c))) = Ok vs /\
    Forall2 (fun x v => exists q, stored_integer s x q /\ v = grid_value s q) xs vs.
Proof.
  intros S NE U SF. destruct (sprintz_decodes dbg s xs NE U (steps_fit_good _ _ _ U SF)) as (c&E&D).
  exists c, (sprintz_view s xs). split; [exact E|]. split; [exact D|]. change (Forall2 (decodes s) xs (sprintz_view s xs)).
  apply decodes_all; [assumption|]. apply view_dec, S.
Qed.
Lemma c13_panics s xs : xs <> [] -> Forall is_u64 xs -> ~ steps_fit s xs -> sp_compress true (sp_new s) xs = Panic.
Proof.
  intros NE U SF. apply (compress_panics (sp_new s) xs NE). intros G. apply SF. now apply good_steps_fit.
Qed.

(** ** Whole files *)
Lemma sprintz_reader_ok dbg neg tie s part : s < 2 ^ 32 -> part <> [] -> Forall is_u64 part -> sprintz_good dbg s part ->
  length (sprintz_view s part) = length part /\ Forall is_u64 (sprintz_view s part) /\
  exists r, ex_open (sprintz_executor dbg neg tie) (N.of_nat (length part)) (sprintz_image dbg s part) = Ok r /\
    (forall k, ex_precision (sprintz_executor dbg neg tie) k r = r) /\
    exists r', ex_decompress (sprintz_executor dbg neg tie) r = (Ok (sprintz_view s part), r').
Proof.
  intros S NE U G. split; [unfold sprintz_view; now rewrite map_length|]. split.
  { unfold sprintz_view. apply Forall_forall. intros v I. apply in_map_iff in I. destruct I as (x&<-&_). apply to_bits_bound, fdiv_canonical; apply of_Z_canonical. }
  destruct (sprintz_decodes dbg s part NE U G) as (c&E&D). unfold sprintz_image. rewrite E.
  cbn [sprintz_executor ex_open ex_precision ex_decompress]. eexists. split; [reflexivity|]. split; [reflexivity|].
  destruct (sp_decompress dbg (sp_open (N.of_nat (length part)) (sp_buffers c))) as [r r'] eqn:X. cbn [fst] in D. subst r. eauto.
Qed.
Lemma sprintz_file dbg neg tie capacity s o timer elapsed input xs :
  sprintz_encodable dbg capacity s o timer elapsed input xs -> xs <> [] ->
  exists ops parts, partition (records_per_chunk o) xs parts /\
    encode dbg (sprintz_codec dbg s) o (CDeltaSprintz capacity s) timer elapsed input = (ops, Ok tt) /\
  forall old, let file := written old ops in N.of_nat (length file) < 2 ^ 63 ->
  exists m vss, open_file dbg file = Ok m /\
    forall precision, sprintz_stored dbg neg tie s m file precision parts vss.
Proof.
  intros (S&US&RD&(tail&DL&TL&TB)&XU&XL&VR&SF) NE.
  assert (GD : forall parts, partition (records_per_chunk o) xs parts -> Forall (sprintz_good dbg s) parts).
  { intros parts P. pose proof (partition_Forall _ _ _ P XU) as PU. rewrite Forall_forall in PU. destruct P as (CC&_).
    apply Forall_forall. intros part I. apply steps_fit_good; [auto|]. intros D. specialize (SF D). rewrite <- CC in SF.
    now apply steps_fit_part with parts. }
  destruct (whole_stored dbg (sprintz_codec dbg s) (sprintz_executor dbg neg tie) o (CDeltaSprintz capacity s) timer elapsed _ _ _ input xs tail
    (sprintz_ok dbg s) US RD DL TL TB XU XL GD VR (fun part => sprintz_reader_ok dbg neg tie s part (proj2 S)) NE) as (ops&parts&P&EN&W).
  exists ops, parts. split; [exact P|]. split; [exact EN|]. intros old file L. destruct (W old L) as (m&OP&ST).
  exists m, (map (sprintz_view s) parts). split; [exact OP|]. intros precision. destruct (ST precision) as [ST1 ST2].
  pose proof (partition_Forall _ _ _ P XU) as PU. pose proof (GD _ P) as PG. destruct P as (_&PN&_).
  split; [exact S|]. split; [exact ST1|]. split.
  - clear - PU S. induction PU as [|p ps U F IH]; cbn [map]; [apply Forall2_nil|apply Forall2_cons; [|exact IH]].
    apply decodes_all; [exact U|]. apply view_dec, S.
  - intros i part E. pose proof (nth_error_In _ _ E) as I. rewrite Forall_forall in PU, PG, PN. split; [auto|].
    destruct (sprintz_decodes dbg s part (PN _ I) (PU _ I) (PG _ I)) as (c&EC&_). exists c. split; [exact EC|].
    specialize (ST2 i part E). unfold sprintz_image in ST2. rewrite EC in ST2. exact ST2.
Qed.

(** ** Queries *)
Lemma deltas_steps : forall qs previous acc r, zigzag_deltas true previous acc qs = Ok r -> steps_ok true previous qs.
Proof.
  induction qs as [|q qs IH]; intros previous acc r E; [exact I|]. cbn [zigzag_deltas] in E. unfold sub_i64, checked_i64 in E.
  destruct (fits_i64 (q - previous)) eqn:F; [|discriminate E]. cbn [rbind] in E. cbn [steps_ok]. split; [right; now apply fits_iff|].
  destruct (zigzag_deltas true q _ qs) as [[zs o]|e|] eqn:D; cbn [rbind] in E; try discriminate E. eapply IH, D.
Qed.
Lemma compress_good dbg s part c : sp_compress dbg (sp_new s) part = Ok c -> sprintz_good dbg s part.
Proof.
  intros E. unfold sprintz_good. destruct dbg.
  - unfold sp_compress, sp_write in E. cbn [sp_reset sp_new sp_scale] in E. unfold zigzag_delta_num_bits in E.
    destruct (map (quantize s) part) as [|q qs]; [exact I|]. cbn [hd].
    destruct (zigzag_deltas true q 0 (q :: qs)) as [[zs o]|e|] eqn:D; cbn [rbind] in E; try discriminate E.
    eapply deltas_steps, D.
  - generalize (map (quantize s) part) as qs. intros qs. generalize (hd 0%Z qs) as p. induction qs as [|q qs IH]; intros p; cbn; auto.
Qed.

Lemma nth_map {A B} (f : A -> B) l i : nth_error (map f l) i = option_map f (nth_error l i).
Proof. revert i. induction l as [|x l IH]; intros [|i]; cbn; auto. Qed.
Lemma first_of_map (f : list N -> list N) parts i : (forall p, In p parts -> length (f p) = length p) -> first_of (map f parts) i = first_of parts i.
Proof.
  intros H. unfold first_of. rewrite firstn_map, concat_length_view; [reflexivity|]. apply Forall_forall. intros p I. apply H.
  rewrite <- (firstn_skipn i parts). apply in_or_app. now left.
Qed.
Lemma looked_at_map (f : list N -> list N) parts cid : f [] = [] -> (forall p, In p parts -> length (f p) = length p) ->
  looked_at (map f parts) cid = map (fun '(o, p) => (o, f p)) (looked_at parts cid).
Proof.
  intros F0 H. destruct cid as [k|]; cbn [looked_at].
  - rewrite nth_map. destruct (nth_error parts k); [|reflexivity]. cbn [option_map map]. now rewrite first_of_map.
  - rewrite map_length, map_map. apply map_ext. intros i. rewrite first_of_map by assumption. f_equal. rewrite <- F0 at 1. apply map_nth.
Qed.

Lemma and_iff_compat_both_ (A B C D : Prop) : (A <-> C) -> (B <-> D) -> (A /\ B <-> C /\ D).
Proof. tauto. Qed.
Section Stored.
  Variables (dbg neg : bool) (tie : f64 -> f64 -> bool) (s : N) (m : metadata) (file : list N) (precision : option N).
  Variables (parts vss : list (list N)).
  Let ex := sprintz_executor dbg neg tie.
  Hypothesis SS : sprintz_stored dbg neg tie s m file precision parts vss.
  Let qs (part : list N) : list Z := map (quantize s) part.

  Lemma S_ok : scale_ok s.
  Proof using SS. destruct SS as (S&_). now apply scale_bounds. Qed.
  Lemma parts_u64 : Forall (Forall is_u64) parts.
  Proof using SS. destruct SS as (_&_&_&H). apply Forall_forall. intros part I. apply In_nth_error in I. destruct I as (i&E). now destruct (H i part E). Qed.
  Lemma vss_eq : vss = map (fun part => map (dec s) (qs part)) parts.
  Proof using SS.
    pose proof parts_u64 as PU. destruct SS as (_&_&F&_). clear SS. induction F as [|p v ps vs D F IH]; [reflexivity|]. inversion_clear PU. cbn [map]. f_equal; [|auto].
    now apply decodes_all.
  Qed.
  Lemma lens : length (concat vss) = length (concat parts).
  Proof using SS. rewrite vss_eq. apply (concat_length_view (fun part => map (dec s) (qs part))). apply Forall_forall. intros p _. unfold qs. now rewrite !map_length. Qed.
  Lemma nth_vss i vs : nth_error vss i = Some vs ->
    exists part bytes, nth_error parts i = Some part /\ vs = map (dec s) (qs part) /\ part <> [] /\ Forall is_u64 part /\
      chunk_reader dbg ex m file precision i = Ok (sp_open (N.of_nat (length part)) bytes) /\
      encodes dbg s (qs part) bytes /\ fresh bytes (N.of_nat (length (qs part))) (sp_open (N.of_nat (length part)) bytes).
  Proof using SS.
    intros E. rewrite vss_eq in E. rewrite nth_map in E. destruct (nth_error parts i) as [part|] eqn:EP; [|discriminate E].
    cbn [option_map] in E. apply some_eq in E. pose proof SS as (S&ST&_&H). destruct (H i part EP) as (U&c&C&R).
    exists part, (sp_buffers c). assert (NE : part <> []).
    { destruct ST as (_&_&ST). destruct (ST i vs) as (NV&_).
      - rewrite vss_eq, nth_map, EP. cbn [option_map]. now rewrite E.
      - intros ->. apply NV. rewrite E. reflexivity. }
    destruct (sprintz_opened dbg s part c NE U (compress_good _ _ _ _ C) C) as [EN FR]. auto 8.
  Qed.
  Lemma i64_qs part : Forall i64 (qs part).
  Proof using. unfold qs. apply Forall_forall. intros q I. apply in_map_iff in I. destruct I as (x&<-&_). apply quantize_range. Qed.
  Lemma pick_i64 mask off part : Forall i64 (map snd (pick mask off (qs part))).
  Proof using.
    apply Forall_forall. intros q I. apply in_map_iff in I. destruct I as ([i p]&<-&I). cbn [snd].
    pose proof (i64_qs part) as F. rewrite Forall_forall in F. apply F. clear F. revert off I. generalize (qs part). induction l as [|q l IH]; intros off I; [exact I|].
    cbn [pick] in I. destruct (allowed mask off); [destruct I as [E|I]; [injection E as _ ->; now left|]|]; right; eapply IH, I.
  Qed.

  Variable mask : option bitmap.
  Hypothesis SM : N.of_nat (length (concat vss)) < 2 ^ 32.
  Variables (cid : option nat) (first : N) (vs : list N).
  Hypothesis SC : scope vss cid first vs.

  Lemma part_bound i part : nth_error parts i = Some part -> first_of vss i + N.of_nat (length (qs part)) < 2 ^ 32.
  Proof using SS SM.
    intros E. assert (EV : nth_error vss i = Some (map (dec s) (qs part))) by (rewrite vss_eq, nth_map, E; reflexivity).
    pose proof (scope_bound vss (Some i) _ _ SM (scope_chunk _ _ _ EV)) as B. now rewrite map_length in B.
  Qed.

  Lemma min_answering : mask_ok mask -> answering dbg ex m file vss precision mask (sp_min dbg tie) (chunk_fold (fmin tie) (f_inf false)).
  Proof using SS SM.
    intros MO i w r r' E M RR D. destruct (nth_vss i w E) as (part&bytes&EP&->&NE&U&R&EN&FR). rewrite R in RR. injection RR as X; subst r.
    pose proof (part_bound i part EP) as B.
    rewrite (masked_pick (dec s)) in M by lia.
    assert (NP : pick mask (first_of vss i) (qs part) <> []) by (destruct (pick _ _ _); [contradiction|discriminate]).
    etransitivity; [exact (sp_min_ok dbg neg tie s (qs part) bytes _ EN FR mask _ MO B NP)|].
    f_equal. unfold chunk_fold. rewrite (masked_pick (dec s)) by lia. symmetry.
    assert (SE : s mod 2 ^ 32 = s) by (apply N.mod_small; now destruct SS as ((_&?)&_)).
    rewrite SE. apply (fold_min_first s S_ok tie); [exact NP|apply pick_i64].
  Qed.
  Lemma max_answering : mask_ok mask -> answering dbg ex m file vss precision mask (sp_max dbg tie) (chunk_fold (fmax tie) (f_inf true)).
  Proof using SS SM.
    intros MO i w r r' E M RR D. destruct (nth_vss i w E) as (part&bytes&EP&->&NE&U&R&EN&FR). rewrite R in RR. injection RR as X; subst r.
    pose proof (part_bound i part EP) as B.
    rewrite (masked_pick (dec s)) in M by lia.
    assert (NP : pick mask (first_of vss i) (qs part) <> []) by (destruct (pick _ _ _); [contradiction|discriminate]).
    etransitivity; [exact (sp_max_ok dbg neg tie s (qs part) bytes _ EN FR mask _ MO B NP)|].
    f_equal. unfold chunk_fold. rewrite (masked_pick (dec s)) by lia. symmetry.
    assert (SE : s mod 2 ^ 32 = s) by (apply N.mod_small; now destruct SS as ((_&?)&_)).
    rewrite SE. apply (fold_max_first s S_ok tie); [exact NP|apply pick_i64].
  Qed.

  Lemma sprintz_u64 : Forall (fun x : N * list N => Forall is_u64 (snd x)) (looked_at vss cid).
  Proof using SS. destruct SS as (_&ST&_). exact (looked_u64 dbg ex m file precision vss cid ST). Qed.

  Lemma c36_min_max : mask_ok mask -> exists ys lo hi, choose mask first vs ys /\
    dec_min dbg tie ex m file precision mask cid = Ok lo /\ least ys lo /\
    dec_max dbg tie ex m file precision mask cid = Ok hi /\ greatest ys hi.
  Proof using All.
    intros MO. pose proof SS as (_&ST&_).
    assert (LU : Forall (fun x : N * list N => Forall (fun y : N * N => is_u64 (snd y)) (masked mask (fst x) (snd x))) (looked_at vss cid)).
    { eapply Forall_impl; [|exact sprintz_u64]. intros [o p]. cbn [fst snd]. apply masked_Forall. }
    destruct (extreme_chunks false tie mask (looked_at vss cid) [] _ _ (Forall_nil _) LU (extreme_init false)) as (zl&EL).
    destruct (extreme_chunks true tie mask (looked_at vss cid) [] _ _ (Forall_nil _) LU (extreme_init true)) as (zh&EH).
    cbn [app] in EL, EH. rewrite (scope_chosen _ _ _ _ _ SC) in EL, EH.
    exists (map snd (masked mask first vs)). eexists. eexists.
    split; [apply masked_choose, (scope_bound _ _ _ _ SM SC)|].
    split; [exact (answering_fold dbg ex m file vss precision ST mask (or_intror SM) _ _ _ _ cid (min_answering MO))|].
    split; [exact (extreme_least _ _ _ EL)|].
    split; [exact (answering_fold dbg ex m file vss precision ST mask (or_intror SM) _ _ _ _ cid (max_answering MO))|].
    exact (extreme_greatest _ _ _ EH).
  Qed.

  (** *** Materialising *)
  Lemma c30_materialize p : Forall is_u64 (pred_operands p) -> exists ys zs, choose mask first vs ys /\ keep p ys zs /\
    dec_materialize dbg ex m file precision mask cid = (bytes_of ys, Ok tt) /\
    dec_filter_materialize dbg ex m file precision p mask cid = (bytes_of zs, Ok tt).
  Proof using All.
    intros PO. pose proof SS as (_&ST&_).
    pose proof (masked_choose mask vs first (scope_bound _ _ _ _ SM SC)) as CH.
    exists (map snd (masked mask first vs)), (filter (fpred_eval p) (map snd (masked mask first vs))).
    split; [exact CH|]. split.
    { apply filter_keep; [exact PO|]. apply (choose_u64 _ _ _ _ CH). exact (scope_u64 dbg ex m file precision vss cid first vs ST SC). }
    split.
    - unfold dec_materialize. rewrite (writing_all dbg ex m file vss precision ST mask (or_intror SM) (ex_materialize ex) (map snd)); [|reflexivity|].
      + now rewrite (scope_chosen _ _ _ _ _ SC).
      + intros i w r r' E M RR D. destruct (nth_vss i w E) as (part&bytes&_&_&_&_&R&_&_). rewrite R in RR. injection RR as X; subst r.
        apply (default_writing spreader (sp_decompress dbg) mask (first_of vss i) (sp_open (N.of_nat (length part)) bytes) r' w D).
    - unfold dec_filter_materialize. rewrite (writing_all dbg ex m file vss precision ST mask (or_intror SM) (ex_filter_materialize ex p) (fun l => filter (fpred_eval p) (map snd l))); [|reflexivity|].
      + now rewrite filter_flat, (scope_chosen _ _ _ _ _ SC).
      + intros i w r r' E M RR D.
        apply (default_filter_writing spreader (sp_decompress dbg) p mask (first_of vss i) r r' w D).
  Qed.

  (** *** Filtering *)
  Hypothesis SMALL : small_integers s parts.
  Lemma small_qs part : In part parts -> Forall small (qs part).
  Proof using SS SMALL.
    intros I. pose proof parts_u64 as PU. rewrite Forall_forall in PU. specialize (PU _ I). rewrite Forall_forall in PU.
    unfold qs. apply Forall_forall. intros q Q. apply in_map_iff in Q. destruct Q as (x&E&X). unfold small.
    apply (SMALL x q); [apply in_concat; eauto|]. exact (proj2 (stored_quantize s x q (PU x X)) E).
  Qed.
  Lemma pick_In off i q (l : list Z) : In (i, q) (pick mask off l) -> In q l.
  Proof using.
    revert off. induction l as [|p l IH]; intros off I; [exact I|]. cbn [pick] in I.
    destruct (allowed mask off); [destruct I as [E|I]; [injection E as _ ->; now left|]|]; right; eapply IH, I.
  Qed.
  Lemma filter_map_ {X Y} (f : X -> Y) (P : Y -> bool) l : filter P (map f l) = map f (filter (fun x => P (f x)) l).
  Proof using. clear. induction l as [|x l IH]; [reflexivity|]. cbn [map filter]. rewrite IH. now destruct (P (f x)). Qed.
  Lemma filter_ext_in_ {X} (P Q : X -> bool) l : (forall x, In x l -> P x = Q x) -> filter P l = filter Q l.
  Proof using.
    clear. induction l as [|x l IH]; intros H; [reflexivity|]. cbn [filter]. rewrite (H x) by now left.
    rewrite IH; [reflexivity|]. intros y I. apply H. now right.
  Qed.
  Lemma filter_answering p ev : (forall q, small q -> pred_eval Z Z.eqb Z.leb Z.ltb (pred_map (quantize s) p) q = ev (dec s q)) ->
    answering dbg ex m file vss precision mask (sp_filter dbg p) (chunk_filter ev).
  Proof using SS SM SMALL.
    intros AG i w r r' E M RR D. destruct (nth_vss i w E) as (part&bytes&EP&->&NE&U&R&EN&FR). rewrite R in RR. injection RR as X; subst r.
    pose proof (part_bound i part EP) as B.
    etransitivity; [exact (sp_filter_ok dbg s (qs part) bytes _ EN FR p mask (first_of vss i) ltac:(lia))|].
    assert (SE : s mod 2 ^ 32 = s) by (apply N.mod_small; now destruct SS as ((_&?)&_)). rewrite SE.
    f_equal. unfold chunk_filter. rewrite (masked_pick (dec s)) by lia.
    rewrite (fold_insert ev).
    - cbn [app]. rewrite filter_map_, map_map.
      rewrite (filter_ext_in_ _ (fun x => ev (snd (let '(i, q) := x in (i, dec s q))))).
      + apply map_ext. now intros [? ?].
      + intros [j q] I. cbn [snd]. apply AG. pose proof (small_qs part (nth_error_In _ _ EP)) as F. rewrite Forall_forall in F. apply F.
        eapply pick_In, I.
    - rewrite map_map. rewrite (map_ext _ fst) by (now intros [? ?]). apply pick_sorted.
    - intros. constructor.
  Qed.
  Lemma filter_general p ev : (forall q, small q -> pred_eval Z Z.eqb Z.leb Z.ltb (pred_map (quantize s) p) q = ev (dec s q)) ->
    exists bm, dec_filter dbg ex m file precision p mask cid = Ok bm /\ is_bitmap bm /\
    forall i, In i bm <-> in_mask mask i /\ first <= i /\ exists v, nth_error vs (N.to_nat (i - first)) = Some v /\ ev v = true.
  Proof using All.
    intros AG. pose proof SS as (_&ST&_). eexists.
    split; [exact (answering_filter dbg ex m file vss precision ST mask (or_intror SM) p ev cid (filter_answering p ev AG))|].
    split; [apply fold_or_ok, is_bitmap_nil|]. intros i. rewrite (fold_or_In ev).
    rewrite (scope_masked _ _ _ _ _ SC). pose proof (scope_bound _ _ _ _ SM SC) as B. split.
    - intros [[]|(v&I&F)]. apply masked_In in I; [|exact B]. destruct I as (L&E&M). eauto 6.
    - intros (M&L&x&E&S). right. exists x. split; [apply masked_In; auto|exact S].
  Qed.
  Lemma c35_grid p : Forall is_u64 (pred_operands p) -> Forall (grid_operand s) (pred_operands p) ->
    exists bm, dec_filter dbg ex m file precision p mask cid = Ok bm /\ is_bitmap bm /\
    forall i, In i bm <-> in_mask mask i /\ first <= i /\ exists v, nth_error vs (N.to_nat (i - first)) = Some v /\ satisfies p v.
  Proof using All.
    intros PO GO. destruct (filter_general p (fpred_eval p)) as (bm&E&BM&BI); [intros q Q; now apply (pred_agrees s S_ok)|].
    exists bm. split; [exact E|]. split; [exact BM|]. intros i. rewrite BI.
    pose proof SS as (_&ST&_). pose proof (scope_u64 dbg ex m file precision vss cid first vs ST SC) as U. rewrite Forall_forall in U.
    split; intros (M&L&v&N&F); (split; [exact M|]; split; [exact L|]; exists v; split; [exact N|]);
      apply fpred_satisfies; auto; apply U; eapply nth_error_In, N.
  Qed.
  Lemma scope_small v : In v vs -> exists q, small q /\ v = dec s q.
  Proof using SS SMALL SC.
    intros I. assert (J : In v (concat vss)).
    { destruct SC as [|k part E|k E]; [exact I| |contradiction]. apply in_concat. exists part. split; [eapply nth_error_In, E|exact I]. }
    rewrite vss_eq in J. apply in_concat in J. destruct J as (w&J1&J2). apply in_map_iff in J1. destruct J1 as (part&<-&P).
    apply in_map_iff in J2. destruct J2 as (q&<-&Q). exists q. split; [|reflexivity]. pose proof (small_qs part P) as F. rewrite Forall_forall in F. auto.
  Qed.
  Lemma rounded_pred p q : Forall is_u64 (pred_operands p) ->
    (rounded_satisfies s p q <-> pred_eval Z Z.eqb Z.leb Z.ltb (pred_map (quantize s) p) q = true).
  Proof using.
    clear. intros PO.
    assert (SQ : forall v, is_u64 v -> forall w, stored_integer s v w <-> quantize s v = w) by (intros; now apply stored_quantize).
    destruct p as [v|v|lo hi]; cbn [rounded_satisfies pred_map pred_eval pred_operands] in *.
    - inversion_clear PO as [|? ? P1 _]. rewrite (SQ v P1), Z.eqb_eq. split; congruence.
    - inversion_clear PO as [|? ? P1 _]. rewrite (SQ v P1), Bool.negb_true_iff, Z.eqb_neq. split; congruence.
    - apply Forall_app in PO. destruct PO as [PL PH]. unfold range_eval. rewrite Bool.andb_true_iff.
      apply and_iff_compat_both_.
      + destruct lo as [v|v|]; cbn [bound_map]; [inversion_clear PL as [|? ? P1 _]..|tauto]; rewrite ?Z.leb_le, ?Z.ltb_lt.
        * split; [intros (w&W&H); rewrite (SQ v P1) in W; lia|]. intros H. exists (quantize s v). rewrite (SQ v P1). split; [reflexivity|lia].
        * split; [intros (w&W&H); rewrite (SQ v P1) in W; lia|]. intros H. exists (quantize s v). rewrite (SQ v P1). split; [reflexivity|lia].
      + destruct hi as [v|v|]; cbn [bound_map]; [inversion_clear PH as [|? ? P1 _]..|tauto]; rewrite ?Z.leb_le, ?Z.ltb_lt.
        * split; [intros (w&W&H); rewrite (SQ v P1) in W; lia|]. intros H. exists (quantize s v). rewrite (SQ v P1). split; [reflexivity|lia].
        * split; [intros (w&W&H); rewrite (SQ v P1) in W; lia|]. intros H. exists (quantize s v). rewrite (SQ v P1). split; [reflexivity|lia].
  Qed.
  Lemma c35_rounded p : Forall is_u64 (pred_operands p) ->
    exists bm, dec_filter dbg ex m file precision p mask cid = Ok bm /\ is_bitmap bm /\
    forall i, In i bm <-> in_mask mask i /\ first <= i /\
      exists q, nth_error vs (N.to_nat (i - first)) = Some (grid_value s q) /\ (Z.abs q < 2 ^ 51)%Z /\ rounded_satisfies s p q.
  Proof using All.
    intros PO. destruct (filter_general p (fun v => pred_eval Z Z.eqb Z.leb Z.ltb (pred_map (quantize s) p) (quantize s v))) as (bm&E&BM&BI).
    { intros q Q. unfold dec. now rewrite (grid_back s S_ok q Q). }
    exists bm. split; [exact E|]. split; [exact BM|]. intros i. rewrite BI. split.
    - intros (M&L&v&N&F). split; [exact M|]. split; [exact L|]. destruct (scope_small v (nth_error_In _ _ N)) as (q&Q&->).
      unfold dec in F. rewrite (grid_back s S_ok q Q) in F. exists q. split; [exact N|]. split; [exact Q|]. now apply rounded_pred.
    - intros (M&L&q&N&Q&F). split; [exact M|]. split; [exact L|]. exists (grid_value s q). split; [exact N|].
      change (grid_value s q) with (to_bits (unquantize s q)). rewrite (grid_back s S_ok q Q). now apply rounded_pred.
  Qed.

  (** *** Sums *)
  Definition int_sum (l : list Z) : Z := fold_right Z.add 0%Z l.
  Lemma sum_bound B l : Forall (fun q => (Z.abs q <= B)%Z) l -> (Z.abs (int_sum l) <= B * Z.of_nat (length l))%Z.
  Proof using.
    clear. induction 1 as [|q l Q F IH]; cbn [int_sum fold_right length]; [lia|]. fold (int_sum l). lia.
  Qed.
  Lemma rfold_bound B l : Forall (fun q => (Z.abs q <= B)%Z) l -> (B * Z.of_nat (length l) < 2 ^ 63)%Z -> (0 <= B)%Z ->
    rfold (add_i64 dbg) 0 l = Ok (int_sum l).
  Proof using.
    clear. intros F H B0. rewrite (rfold_sum dbg l 0); [reflexivity|]. intros n. rewrite Z.add_0_l.
    assert (F' : Forall (fun q => (Z.abs q <= B)%Z) (firstn n l)).
    { rewrite <- (firstn_skipn n l) in F. apply Forall_app in F. apply F. }
    pose proof (sum_bound B _ F') as SB. unfold int_sum in SB. unfold i64.
    assert (length (firstn n l) <= length l)%nat by (rewrite firstn_length; lia). change (2 ^ 63)%Z with 9223372036854775808%Z in *. nia.
  Qed.
  Lemma pick_choose (l : list Z) : forall off, choose mask off l (map snd (pick mask off l)).
  Proof using.
    clear. induction l as [|q l IH]; intros off; cbn [pick map]; [constructor|]. destruct (allowed mask off) eqn:A.
    - cbn [map snd]. apply choose_take; [now apply allowed_in|apply IH].
    - apply choose_skip; [|apply IH]. intros I. apply allowed_in in I. congruence.
  Qed.
  Variable B : Z.
  Hypothesis BB : forall x q, In x (concat parts) -> stored_integer s x q -> (Z.abs q <= B)%Z.
  Hypothesis BS : (B * Z.of_nat (length (concat parts)) < 2 ^ 63)%Z.
  Lemma bound_qs part : In part parts -> Forall (fun q => (Z.abs q <= B)%Z) (qs part).
  Proof using SS BB.
    intros I. pose proof parts_u64 as PU. rewrite Forall_forall in PU. specialize (PU _ I). rewrite Forall_forall in PU.
    unfold qs. apply Forall_forall. intros q Q. apply in_map_iff in Q. destruct Q as (x&E&X).
    apply (BB x q); [apply in_concat; eauto|]. exact (proj2 (stored_quantize s x q (PU x X)) E).
  Qed.
  Definition back (ys : list N) : list Z := map (quantize s) ys.
  Lemma pick_length off (l : list Z) : (length (pick mask off l) <= length l)%nat.
  Proof using. clear. revert off. induction l as [|q l IH]; intros off; cbn [pick length]; [lia|]. specialize (IH (off + 1)). destruct (allowed _ _); cbn [length]; lia. Qed.
  Lemma back_pick off part : In part parts ->
    map (quantize s) (map snd (map (fun '(i, q) => (i, dec s q)) (pick mask off (qs part)))) = map snd (pick mask off (qs part)).
  Proof using SS SMALL.
    intros P. rewrite !map_map. apply map_ext_in. intros [i q] I. cbn [snd]. apply (grid_back s S_ok).
    pose proof (small_qs part P) as F. rewrite Forall_forall in F. apply F. eapply pick_In, I.
  Qed.
  Lemma sum_answering : mask_ok mask ->
    answering dbg ex m file vss precision mask (sp_sum dbg) (fun mk off w => unquantize s (int_sum (back (map snd (masked mk off w))))).
  Proof using SS SM SMALL BB BS.
    clear SC first vs. intros MO i w r r' E M RR D. destruct (nth_vss i w E) as (part&bytes&EP&->&NE&U&R&EN&FR). rewrite R in RR. injection RR as X; subst r.
    pose proof (part_bound i part EP) as PB. pose proof (nth_error_In _ _ EP) as IP.
    rewrite (masked_pick (dec s)) in * by lia.
    assert (NP : pick mask (first_of vss i) (qs part) <> []) by (destruct (pick _ _ _); [contradiction|discriminate]).
    etransitivity; [exact (sp_sum_ok dbg neg tie s (qs part) bytes _ EN FR mask _ MO PB NP)|].
    assert (SE : s mod 2 ^ 32 = s) by (apply N.mod_small; now destruct SS as ((_&?)&_)). rewrite SE.
    unfold back. rewrite back_pick by exact IP.
    assert (F : Forall (fun q => (Z.abs q <= B)%Z) (map snd (pick mask (first_of vss i) (qs part)))).
    { apply Forall_forall. intros q Q. apply in_map_iff in Q. destruct Q as ([j p]&<-&Q). pose proof (bound_qs part IP) as FB.
      rewrite Forall_forall in FB. apply FB. eapply pick_In, Q. }
    assert (B0 : (0 <= B)%Z).
    { destruct (pick mask (first_of vss i) (qs part)) as [|[j q] l]; [congruence|]. inversion_clear F. lia. }
    assert (LP : (length (map snd (pick mask (first_of vss i) (qs part))) <= length (concat parts))%nat).
    { rewrite map_length. pose proof (pick_length (first_of vss i) (qs part)) as PL. unfold qs in PL at 2. rewrite map_length in PL.
      apply in_split in IP. destruct IP as (l1&l2&->). rewrite concat_app. cbn [concat]. rewrite !app_length. lia. }
    rewrite (rfold_bound B _ F); [reflexivity| |exact B0]. change (2 ^ 63)%Z with 9223372036854775808%Z in *. nia.
  Qed.
  Lemma nth_looked o w : In (o, w) (looked_at vss cid) -> exists i, nth_error vss i = Some w /\ o = first_of vss i.
  Proof using.
    clear. intros I. destruct cid as [k|]; cbn [looked_at] in I.
    - destruct (nth_error vss k) as [p|] eqn:E; [|contradiction]. destruct I as [X|[]]. injection X as <- <-. eauto.
    - apply in_map_iff in I. destruct I as (i&E&I). injection E as <- <-. apply in_seq in I. exists i. split; [|reflexivity].
      destruct (nth_error vss i) as [q|] eqn:Q; [|apply nth_error_None in Q; lia]. now rewrite (nth_error_nth _ _ [] Q).
  Qed.
  Lemma sum_fold l : forall acc,
    fold_left (fun acc '(off, part) => match masked mask off part with [] => acc | _ => fadd acc (unquantize s (int_sum (back (map snd (masked mask off part))))) end) l acc =
    fold_left fadd (map (fun zs => fdiv (of_Z (int_sum zs)) (of_Z (Z.of_N s))) (filter nonempty (map (fun '(off, part) => back (map snd (masked mask off part))) l))) acc.
  Proof using.
    clear. induction l as [|[o p] l IH]; intros acc; cbn [map filter fold_left]; [reflexivity|]. rewrite IH.
    destruct (masked mask o p) as [|y ys]; reflexivity.
  Qed.
  Lemma c36_sum : mask_ok mask -> exists chosen,
    Forall2 (fun '(off, w) zs => exists ys, choose mask off w ys /\ Forall2 (fun v q => v = grid_value s q /\ (Z.abs q < 2 ^ 51)%Z) ys zs)
      (looked_at vss cid) chosen /\
    dec_sum dbg ex m file precision mask cid =
    Ok (float_sum (map (fun zs => fdiv (of_Z (fold_right Z.add 0%Z zs)) (of_Z (Z.of_N s))) (filter nonempty chosen))).
  Proof using All.
    intros MO. pose proof SS as (_&ST&_).
    exists (map (fun '(off, part) => back (map snd (masked mask off part))) (looked_at vss cid)). split.
    - pose proof nth_looked as LN. clear SC. induction (looked_at vss cid) as [|[o w] l IH]; cbn [map]; constructor.
      + destruct (LN o w (or_introl eq_refl)) as (i&E&->). destruct (nth_vss i w E) as (part&bytes&EP&->&_).
        pose proof (part_bound i part EP) as PB. pose proof (nth_error_In _ _ EP) as IP.
        exists (map snd (masked mask (first_of vss i) (map (dec s) (qs part)))). split.
        * apply masked_choose. rewrite map_length. lia.
        * rewrite (masked_pick (dec s)) by lia. unfold back. rewrite back_pick by exact IP. rewrite map_map.
          pose proof (small_qs part IP) as F. rewrite Forall_forall in F.
          assert (G : forall x, In x (pick mask (first_of vss i) (qs part)) -> small (snd x)) by (intros [j q] I; apply F; eapply pick_In, I).
          clear - G. induction (pick mask (first_of vss i) (qs part)) as [|[j q] l IH]; cbn [map snd]; constructor.
          -- split; [reflexivity|]. exact (G (j, q) (or_introl eq_refl)).
          -- apply IH. intros x I. apply G. now right.
      + apply IH. intros o' w' I. apply LN. now right.
    - unfold dec_sum.
      etransitivity; [exact (answering_fold dbg ex m file vss precision ST mask (or_intror SM) _ fadd _ f_zero cid (sum_answering MO))|].
      f_equal. apply sum_fold.
  Qed.
End Stored.

(** ** Arbitrary bytes *)
Lemma collect_total : forall left scale bits r previous, rwf r ->
  match fst (sp_collect false left scale bits r previous) with
  | Ok vs => length vs = left
  | Err EUnexpectedEndOfChunk => True
  | _ => False
  end.
Proof.
  induction left as [|left IH]; intros scale bits r previous W; cbn [sp_collect]; [reflexivity|].
  assert (R : forall r q, rwf r -> match fst (let '(vs, r) := sp_collect false left scale bits r q in
      (do vs <- vs ; Ok (to_bits (unquantize scale q) :: vs), r)) with
    | Ok vs => length vs = S left | Err EUnexpectedEndOfChunk => True | _ => False end).
  { intros r0 q W0. specialize (IH scale bits r0 q W0). destruct (sp_collect false left scale bits r0 q) as [[vs|e|] r1]; cbn [fst rbind] in *; [|exact IH..].
    cbn [length]. now rewrite IH. }
  destruct (bits =? 0); [now apply R|].
  destruct (read_bits_total r bits W) as [(v&r'&E&V&W'&_)|[E _]]; rewrite E; [|exact I].
  unfold add_i64, checked_i64. destruct (fits_i64 _); now apply R.
Qed.
Lemma header_total r : rwf r ->
  match sp_header r with
  | (Ok (initial, scale, bits), r') => rwf r' /\ i64 initial /\ bits < 256
  | (Err EUnexpectedEndOfChunk, _) => True
  | _ => False
  end.
Proof.
  intros W. unfold sp_header.
  destruct (read_bits_total r 64 W) as [(v&r1&E1&V1&W1&_)|[E1 _]]; rewrite E1; [|exact I].
  destruct (read_bits_total r1 32 W1) as [(v2&r2&E2&V2&W2&_)|[E2 _]]; rewrite E2; [|exact I].
  destruct (read_byte_total r2 W2) as [(v3&r3&E3&V3&W3&_)|E3]; rewrite E3; [|exact I].
  split; [exact W3|]. split; [|exact V3]. unfold bits_i64, wrap_i64, i64.
  pose proof (Z.mod_pos_bound (Z.of_N v + 2 ^ 63) (2 ^ 64) ltac:(reflexivity)). change (2 ^ 64)%Z with 18446744073709551616%Z in *.
  change (2 ^ 63)%Z with 9223372036854775808%Z in *. lia.
Qed.
Lemma c52_sprintz bs n : Forall is_byte bs ->
  match fst (sp_decompress false (sp_open n bs)) with
  | Ok vs => N.of_nat (length vs) = n
  | Err EUnexpectedEndOfChunk => True
  | _ => False
  end.
Proof.
  intros F. unfold sp_decompress. cbn [sp_open spr_cache spr_r spr_records].
  pose proof (header_total (r_new bs) (rwf_new bs F)) as H.
  destruct (sp_header (r_new bs)) as [[[[initial scale] bits]|e|] r]; [|exact H|exact H].
  destruct H as (W&_&_). pose proof (collect_total (N.to_nat n) scale bits r initial W) as C.
  destruct (sp_collect false (N.to_nat n) scale bits r initial) as [[vs|e|] r2]; cbn [fst] in *; [|exact C..]. rewrite C. lia.
Qed.
Lemma loop_total {A} (P : res derr A -> Prop) (step : N -> Z -> A -> res derr (A * bool)) : forall left i bits r previous acc, rwf r ->
  P (Err EUnexpectedEndOfChunk) -> (forall a, P (Ok a)) ->
  (forall i q a, exists x, step i q a = Ok x) ->
  P (fst (sp_loop false step left i bits r previous acc)).
Proof.
  induction left as [|left IH]; intros i bits r previous acc W PE PO ST; cbn [sp_loop]; [apply PO|].
  destruct (read_bits_total r bits W) as [(v&r'&E&V&W'&_)|[E _]]; rewrite E; [|exact PE].
  unfold add_i64, checked_i64.
  assert (G : forall q, P (fst match step i q acc with Ok (acc, true) => sp_loop false step left (i + 1) bits r' q acc
     | Ok (acc, false) => (Ok acc, r') | Err e => (Err e, r') | Panic => (Panic, r') end)).
  { intros q. destruct (ST i q acc) as ([a b]&->). destruct b; [|apply PO]. now apply IH. }
  destruct (fits_i64 _); apply G.
Qed.

(** ** Numbers on the grid *)
Lemma grid_storable log10 capacity s x : 1 <= s < 2 ^ 32 -> on_grid s x -> storable log10 (CDeltaSprintz capacity s) x.
Proof.
  intros S (k&K&->). pose proof (grid_back s (scale_bounds s S) k K) as B. change (to_bits (unquantize s k)) with (grid_value s k) in B.
  cbn [storable]. split; [apply S|]. rewrite B. split; [|reflexivity].
  change (2 ^ 51)%Z with 2251799813685248%Z in K. change (2 ^ 62)%Z with 4611686018427387904%Z. lia.
Qed.
Lemma grid_u64 s x : on_grid s x -> is_u64 x.
Proof. intros (k&_&->). apply to_bits_bound, fdiv_canonical; apply of_Z_canonical. Qed.
Lemma c57 dbg s xs : 1 <= s < 2 ^ 32 -> xs <> [] -> Forall (on_grid s) xs ->
  exists c, sp_compress dbg (sp_new s) xs = Ok c /\
    fst (sp_decompress dbg (sp_open (N.of_nat (length xs)) (sp_buffers c))) = Ok xs.
Proof.
  intros S NE G. pose proof (scale_bounds s S) as SO. assert (U : Forall is_u64 xs) by (eapply Forall_impl; [|exact G]; intros x; apply grid_u64).
  assert (Q : forall x, In x xs -> (Z.abs (quantize s x) < 2 ^ 51)%Z /\ dec s (quantize s x) = x).
  { intros x I. rewrite Forall_forall in G. destruct (G x I) as (k&K&->). pose proof (grid_back s SO k K) as B.
    change (to_bits (unquantize s k)) with (grid_value s k) in B. rewrite B. split; [exact K|reflexivity]. }
  destruct (sprintz_decodes dbg s xs NE U) as (c&E&D).
  - unfold sprintz_good. destruct xs as [|x xs]; [congruence|]. cbn [hd map].
    apply (sprintz_small_steps dbg s (x :: xs)).
    + destruct (Q x (or_introl eq_refl)) as [B _]. change (2 ^ 51)%Z with 2251799813685248%Z in B. change (2 ^ 62)%Z with 4611686018427387904%Z. lia.
    + apply Forall_forall. intros y Y. destruct (Q y Y) as [B _]. change (2 ^ 51)%Z with 2251799813685248%Z in B. change (2 ^ 62)%Z with 4611686018427387904%Z. lia.
  - exists c. split; [exact E|]. rewrite D. f_equal. rewrite view_dec by apply S. rewrite map_map. rewrite <- (map_id xs) at 2.
    apply map_ext_in. intros x I. apply (Q x I).
Qed.

(** ** The scale field *)
Lemma c14 dbg s xs : xs <> [] -> Forall is_u64 xs -> (dbg = true -> steps_fit s xs) ->
  exists c vs, sp_compress dbg (sp_new s) xs = Ok c /\
    fst (sp_decompress dbg (sp_open (N.of_nat (length xs)) (sp_buffers c))) = Ok vs /\
    Forall2 (fun x v => exists q, stored_integer s x q /\ v = grid_value (s mod 2 ^ 32) q) xs vs.
Proof.
  intros NE U SF. destruct (sprintz_decodes dbg s xs NE U (steps_fit_good _ _ _ U SF)) as (c&E&D).
  exists c, (sprintz_view s xs). split; [exact E|]. split; [exact D|]. unfold sprintz_view. clear E D SF NE.
  induction U as [|x xs U F IH]; cbn [map]; constructor; [|exact IH].
  exists (quantize s x). split; [exact (proj2 (stored_quantize s x _ U) eq_refl)|reflexivity].
Qed.

(** ** Histories *)
Lemma header_keeps r : rwf r -> rwf (snd (sp_header r)) /\ rbuf (snd (sp_header r)) = rbuf r.
Proof.
  intros W. unfold sp_header.
  destruct (read_bits_total r 64 W) as [(v&r1&E1&V1&W1&B1&_)|[E1 _]]; rewrite E1; [|auto].
  destruct (read_bits_total r1 32 W1) as [(v2&r2&E2&V2&W2&B2&_)|[E2 _]]; rewrite E2; [|auto].
  destruct (read_byte_total r2 W2) as [(v3&r3&E3&V3&W3&B3&_)|E3]; rewrite E3; cbn [snd]; split; try assumption; congruence.
Qed.
Lemma loop_keeps {A} dbg (step : N -> Z -> A -> res derr (A * bool)) : forall left i bits r previous acc, rwf r ->
  rbuf (snd (sp_loop dbg step left i bits r previous acc)) = rbuf r.
Proof.
  induction left as [|left IH]; intros i bits r previous acc W; cbn [sp_loop]; [reflexivity|].
  destruct (read_bits_total r bits W) as [(v&r'&E&V&W'&B&_)|[E _]]; rewrite E; [|reflexivity].
  destruct (add_i64 dbg previous (unzigzag v)) as [q|e|]; [|exact B..].
  destruct (step i q acc) as [[a [|]]|e|]; [|exact B..]. rewrite IH; auto.
Qed.
Definition untouched (bs : list N) (n : N) (r : spreader) : Prop := rbuf (spr_r r) = bs /\ spr_records r = n /\ spr_cache r = None.
Section History.
  Variables (dbg neg : bool) (tie : f64 -> f64 -> bool) (off n : N) (bs : list N).
  Hypothesis F : Forall is_byte bs.
  Let ex := sprintz_executor dbg neg tie.
  Lemma untouched_reset r : untouched bs n r -> r_reset (spr_r r) = r_new bs.
  Proof using. intros (B&_). unfold r_reset. now rewrite B. Qed.
  Lemma fold_masked_same f init bm r : untouched bs n r ->
    fst (sp_fold_masked dbg f init bm off r) = fst (sp_fold_masked dbg f init bm off (sp_open n bs)) /\
    untouched bs n (snd (sp_fold_masked dbg f init bm off r)).
  Proof using F.
    intros U. pose proof (untouched_reset r U) as R. destruct U as (B&N&C). unfold sp_fold_masked.
    change (r_reset (spr_r (sp_open n bs))) with (r_new bs). change (spr_records (sp_open n bs)) with n. rewrite R, N.
    pose proof (header_keeps (r_new bs) (rwf_new bs F)) as [W K].
    destruct (sp_header (r_new bs)) as [[[[i s] b]|e|] r1]; cbn [snd] in W, K; [|split; [reflexivity|]; unfold untouched, spr_set; cbn; auto..].
    destruct (chunk_mask dbg bm off n) as [[|x l]|e|]; try (split; [reflexivity|]; unfold untouched, spr_set; cbn; auto; fail).
    pose proof (loop_keeps dbg (masked_step dbg f off) (N.to_nat n) 0 b r1 i (init, x, l) W) as LK.
    destruct (sp_loop dbg (masked_step dbg f off) (N.to_nat n) 0 b r1 i (init, x, l)) as [a r2]. cbn [snd] in LK.
    split; [reflexivity|]. unfold untouched, spr_set. cbn. rewrite LK. auto.
  Qed.
  Lemma fold_all_same f init r : untouched bs n r ->
    fst (sp_fold_all dbg f init r) = fst (sp_fold_all dbg f init (sp_open n bs)) /\
    untouched bs n (snd (sp_fold_all dbg f init r)).
  Proof using F.
    intros U. pose proof (untouched_reset r U) as R. destruct U as (B&N&C). unfold sp_fold_all.
    change (r_reset (spr_r (sp_open n bs))) with (r_new bs). change (spr_records (sp_open n bs)) with n. rewrite R, N.
    pose proof (header_keeps (r_new bs) (rwf_new bs F)) as [W K].
    destruct (sp_header (r_new bs)) as [[[[i s] b]|e|] r1]; cbn [snd] in W, K; [|split; [reflexivity|]; unfold untouched, spr_set; cbn; auto..].
    match goal with |- context [sp_loop dbg ?st ?l 0 b r1 i init] => pose proof (loop_keeps dbg st l 0 b r1 i init W) as LK;
      destruct (sp_loop dbg st l 0 b r1 i init) as [a r2] end. cbn [snd] in LK.
    split; [reflexivity|]. unfold untouched, spr_set. cbn. rewrite LK. auto.
  Qed.
  Lemma filter_same p mask r : untouched bs n r ->
    fst (sp_filter dbg p mask off r) = fst (sp_filter dbg p mask off (sp_open n bs)) /\
    untouched bs n (snd (sp_filter dbg p mask off r)).
  Proof using F.
    intros U. pose proof (untouched_reset r U) as R. destruct U as (B&N&C). unfold sp_filter.
    cbn [spr_set spr_cache spr_r spr_records sp_open]. change (r_reset (r_new bs)) with (r_new bs). rewrite R, N, C.
    pose proof (header_keeps (r_new bs) (rwf_new bs F)) as [W K].
    destruct (sp_header (r_new bs)) as [[[[i s] b]|e|] r1]; cbn [snd] in W, K; [|split; [reflexivity|]; unfold untouched, spr_set; cbn; auto..].
    destruct (n =? 0); [split; [reflexivity|]; unfold untouched, spr_set; cbn; auto|].
    match goal with |- context [sp_loop dbg ?st ?l 0 b r1 i ?ac] => pose proof (loop_keeps dbg st l 0 b r1 i ac W) as LK;
      destruct (sp_loop dbg st l 0 b r1 i ac) as [a r2] end. cbn [snd] in LK.
    split; [reflexivity|]. unfold untouched, spr_set. cbn. rewrite LK. auto.
  Qed.
  Lemma step_same q r : in_situ_query q -> untouched bs n r ->
    fst (q_step ex off r q) = fst (q_step ex off (sp_open n bs) q) /\ untouched bs n (snd (q_step ex off r q)).
  Proof using F.
    intros Q U.
    assert (L : forall (X : Type) (g : res derr X -> qres) (a b : res derr X * spreader), fst a = fst b /\ untouched bs n (snd a) ->
       fst (let '(v, r) := a in (g v, r)) = fst (let '(v, r) := b in (g v, r)) /\ untouched bs n (snd (let '(v, r) := a in (g v, r)))).
    { intros X g [a1 a2] [b1 b2]. cbn [fst snd]. intros [-> H]. auto. }
    pose proof U as (B&N&C).
    destruct q as [|p mask| |mask|mask|mask| | |]; cbn [in_situ_query] in Q; try contradiction;
      cbn [q_step sprintz_executor ex_filter ex_sum ex_min ex_max ex rstate]; apply L.
    - now apply filter_same.
    - unfold sp_sum. rewrite C. cbn [sp_open spr_cache]. destruct mask as [[|x l]|]; [auto|now apply fold_masked_same|now apply fold_all_same].
    - unfold sp_min. rewrite C. cbn [sp_open spr_cache]. destruct mask as [[|x l]|]; [auto|now apply fold_masked_same|now apply fold_all_same].
    - unfold sp_max. rewrite C. cbn [sp_open spr_cache]. destruct mask as [[|x l]|]; [auto|now apply fold_masked_same|now apply fold_all_same].
  Qed.
  Lemma materialize_same mask r : untouched bs n r ->
    fst (q_step ex off r (QMaterialize mask)) = fst (q_step ex off (sp_open n bs) (QMaterialize mask)).
  Proof using.
    intros U. pose proof (untouched_reset r U) as R. destruct U as (B&N&C).
    cbn [q_step sprintz_executor ex_materialize ex rstate]. unfold sp_materialize, spr_set. rewrite R, N, C. reflexivity.
  Qed.
  Lemma c42_sprintz qs mask : Forall in_situ_query qs ->
    fst (q_run ex off (sp_open n bs) (qs ++ [QMaterialize mask])) =
    map (fun q => fst (q_step ex off (sp_open n bs) q)) (qs ++ [QMaterialize mask]).
  Proof using F.
    intros Q. assert (U0 : untouched bs n (sp_open n bs)) by (split; [|split]; reflexivity).
    assert (G : forall r, untouched bs n r -> fst (q_run ex off r (qs ++ [QMaterialize mask])) =
       map (fun q => fst (q_step ex off (sp_open n bs) q)) (qs ++ [QMaterialize mask])); [|now apply G].
    induction Q as [|q qs Q1 Q2 IH]; intros r U; cbn [app map].
    - rewrite <- (materialize_same mask r U). cbn [q_run]. destruct (q_step ex off r (QMaterialize mask)) as [a t]. reflexivity.
    - destruct (step_same q r Q1 U) as [A B]. rewrite <- A. cbn [q_run]. destruct (q_step ex off r q) as [a t]. cbn [fst snd] in *.
      specialize (IH t B). destruct (q_run ex off t (qs ++ [QMaterialize mask])) as [l t']. cbn [fst] in *. now rewrite IH.
  Qed.
End History.

(** ** Samples and witnesses *)
Definition sp_sample_records : list N := map (grid_value 10) [3; 15; -25; 0; 3; 70; -1]%Z.
Lemma grid_steps s xs : 1 <= s < 2 ^ 32 -> Forall (on_grid s) xs -> steps_fit s xs.
Proof.
  intros S G before x y after p q E. rewrite Forall_forall in G.
  assert (Q : forall x r, In x xs -> stored_integer s x r -> (Z.abs r < 2 ^ 51)%Z).
  { intros z r I. destruct (G z I) as (k&K&EZ). intros SI. pose proof (proj1 (stored_quantize s z r (grid_u64 s z (G z I))) SI) as QE.
    pose proof (grid_back s (scale_bounds s S) k K) as B. change (to_bits (unquantize s k)) with (grid_value s k) in B.
    rewrite <- QE, EZ, B. exact K. }
  assert (Ix : In x xs /\ In y xs) by (rewrite E; split; apply in_or_app; right; [left|right; left]; reflexivity).
  intros Sp Sq. pose proof (Q x p (proj1 Ix) Sp). pose proof (Q y q (proj2 Ix) Sq).
  change (2 ^ 51)%Z with 2251799813685248%Z in *. change (2 ^ 63)%Z with 9223372036854775808%Z. lia.
Qed.
Lemma sp_sample : sprintz_encodable true 1024 10 (RecordCount 3) (repeat 5 9) 77 [Data (bytes_of sp_sample_records)] sp_sample_records.
Proof.
  assert (G : Forall (on_grid 10) sp_sample_records).
  { unfold sp_sample_records. apply Forall_forall. intros x I. apply in_map_iff in I. destruct I as (q&<-&Q).
    exists q. split; [|reflexivity]. change (2 ^ 51)%Z with 2251799813685248%Z. repeat (destruct Q as [<-|Q]; [reflexivity|]). contradiction. }
  split; [split; [discriminate|reflexivity]|]. split; [split; vm_compute; reflexivity|]. split.
  { constructor; [|constructor]. eexists. split; [reflexivity|]. vm_compute. discriminate. }
  split; [exists []; split; [vm_compute; reflexivity|]; split; [cbn; lia|constructor]|].
  split; [eapply Forall_impl; [|exact G]; intros x; apply grid_u64|]. split; [vm_compute; reflexivity|]. split.
  - pose proof (encodable_simple (CDeltaSprintz 1024 10) (RecordCount 3) [] [] []) as ES.
    assert (EN : encodable (fun x => x) simple_libraries (CDeltaSprintz 1024 10) (RecordCount 3) (repeat 5 9) 77 [] []).
    { apply ES; try constructor; try (vm_compute; reflexivity); try (vm_compute; discriminate). cbn. lia. }
    apply EN.
  - intros _. apply grid_steps; [split; [discriminate|reflexivity]|exact G].
Qed.

Lemma c14_refuted : exists s x c v, is_u64 s /\ is_u64 x /\ sp_compress true (sp_new s) [x] = Ok c /\
    fst (sp_decompress true (sp_open 1 (sp_buffers c))) = Ok [v] /\
    ~ exists q, stored_integer s x q /\ v = grid_value s q.
Proof.
  exists (2 ^ 32 + 10), 0x3ff0000000000000. eexists. exists 0x41b999999a99999a.
  assert (U : is_u64 0x3ff0000000000000) by (vm_compute; reflexivity).
  split; [vm_compute; reflexivity|]. split; [exact U|]. split; [vm_compute; reflexivity|]. split; [vm_compute; reflexivity|].
  intros (q&Q&E). pose proof (proj1 (stored_quantize _ _ q U) Q) as QE. subst q. clear Q. revert E. vm_compute. discriminate.
Qed.
Lemma c57_sample : on_grid 100 0x40091eb851eb851f /\ ~ on_grid 100 0x400921fb54442d18.
Proof.
  split.
  - exists 314%Z. split; [reflexivity|]. vm_compute. reflexivity.
  - intros G. assert (S : 1 <= 100 < 2 ^ 32) by (split; [discriminate|reflexivity]).
    destruct (c57 true 100 [0x400921fb54442d18] S ltac:(discriminate) ltac:(constructor; [exact G|constructor])) as (c&C&D).
    vm_compute in C. injection C as <-. vm_compute in D. discriminate.
Qed.
Lemma c35_refuted :
  (exists x p bm, on_sprintz_chunk [x] (fun r => fst (sp_filter true p None 0 r)) = Some (Ok bm) /\
     on_sprintz_chunk [x] (fun r => fst (sp_decompress true r)) = Some (Ok [x]) /\ In 0 bm /\
     (exists v, p = PRange Unbounded (Inclusive v)) /\ ~ satisfies p x) /\
  (exists x bm, on_sprintz_chunk [x] (fun r => fst (sp_filter true (PEq nan_bits) None 0 r)) = Some (Ok bm) /\
     on_sprintz_chunk [x] (fun r => fst (sp_decompress true r)) = Some (Ok [x]) /\ In 0 bm /\ ~ satisfies (PEq nan_bits) x).
Proof.
  split.
  - exists 0x3fd3333333333333, (PRange Unbounded (Inclusive 0x3fd0000000000000)), [0].
    split; [vm_compute; reflexivity|]. split; [vm_compute; reflexivity|]. split; [now left|]. split; [eexists; reflexivity|].
    rewrite <- fpred_satisfies by (repeat constructor). vm_compute. discriminate.
  - exists 0, [0]. split; [vm_compute; reflexivity|]. split; [vm_compute; reflexivity|]. split; [now left|].
    rewrite <- fpred_satisfies by (repeat constructor). vm_compute. discriminate.
Qed.
Lemma c36_min_refuted :
  exists xs lo, on_sprintz_chunk xs (fun r => fst (sp_min true (fun _ _ => true) None 0 (snd (sp_decompress true r)))) = Some (Ok lo) /\
    on_sprintz_chunk xs (fun r => fst (sp_decompress true r)) = Some (Ok xs) /\ ~ least xs lo.
Proof.
  exists [0x3ff0000000000000; 0x4000000000000000]. eexists. split; [vm_compute; reflexivity|]. split; [vm_compute; reflexivity|].
  intros [[F E]|(v&a&I&E&N&L)]; [discriminate E|].
  specialize (L 0x3ff0000000000000 _ (or_introl eq_refl) eq_refl).
  destruct I as [<-|[<-|[]]]; [vm_compute in E; discriminate E|].
  assert (A : number 0x4000000000000000 = Some (2 ^ 1075)%Z) by (vm_compute; reflexivity). rewrite A in N. injection N as <-.
  revert L. vm_compute. intros L. now apply L.
Qed.
Lemma c36_sum_refuted :
  exists xs mask, on_sprintz_chunk xs (fun r => fst (sp_sum true (Some mask) 0 r)) = Some (Ok S754_nan) /\
    on_sprintz_chunk xs (fun r => fst (sp_sum true (Some mask) 0 (snd (sp_decompress true r)))) = Some (Ok (S754_zero false)) /\
    is_bitmap mask.
Proof.
  exists [0x3ff0000000000000], [9]. split; [vm_compute; reflexivity|]. split; [vm_compute; reflexivity|].
  split; repeat constructor.
Qed.
Lemma c36_overflow_refuted :
  exists x total c, is_u64 x /\ (exists a, number x = Some a /\ (0 < a)%Z) /\
    sp_compress false (sp_new 1) [x; x] = Ok c /\
    fst (sp_decompress false (sp_open 2 (sp_buffers c))) = Ok [x; x] /\
    fst (sp_sum false None 0 (sp_open 2 (sp_buffers c))) = Ok total /\ flt total (S754_zero false) = true /\
    fst (sp_sum true None 0 (sp_open 2 (sp_buffers c))) = Panic.
Proof.
  exists 0x43dbc16d674ec800. do 2 eexists. split; [vm_compute; reflexivity|].
  split; [eexists; split; [vm_compute; reflexivity|reflexivity]|].
  split; [vm_compute; reflexivity|]. split; [vm_compute; reflexivity|]. split; [vm_compute; reflexivity|].
  split; vm_compute; reflexivity.
Qed.
Lemma c42_refuted :
  exists xs, let ex := sprintz_executor true false (fun _ _ => true) in
    on_sprintz_chunk xs (fun r => fst (q_run ex 0 r [QDecompress])) = Some [RValues (Ok xs)] /\
    on_sprintz_chunk xs (fun r => fst (q_run ex 0 r [QSum None; QDecompress])) =
      Some [RNumber (Ok (of_bits (hd 0 xs))); RValues (Err EUnexpectedEndOfChunk)].
Proof. exists [0x3ff0000000000000]. split; vm_compute; reflexivity. Qed.
Lemma zigzag_no_err dbg zs e : zigzag_delta_num_bits dbg zs = Err e -> False.
Proof.
  assert (D : forall fs previous acc, zigzag_deltas dbg previous acc fs = Err e -> False).
  { induction fs as [|f fs IH]; cbn [zigzag_deltas]; intros previous acc; [discriminate|].
    destruct (sub_i64 dbg f previous) as [d|e0|] eqn:SU; cbn [rbind]; [|revert SU; unfold sub_i64, checked_i64; destruct (fits_i64 _); [discriminate|destruct dbg; discriminate]|discriminate].
    destruct (zigzag_deltas dbg f _ fs) as [[z o]|e'|] eqn:Z; cbn [rbind]; try discriminate.
    injection 1 as ->. exact (IH _ _ Z). }
  destruct zs as [|z zs]; [discriminate|]. unfold zigzag_delta_num_bits.
  destruct (zigzag_deltas _ _ _ _) as [[z' o]|e'|] eqn:Z; cbn [rbind]; try discriminate.
  injection 1 as ->. exact (D _ _ _ Z).
Qed.
Lemma sprintz_reuse dbg c xs :
  match sp_compress dbg c xs, sp_compress dbg (sp_new (sp_scale c)) xs with
  | Ok a, Ok b => sp_buffers (sp_prepare a) = sp_buffers (sp_prepare b) /\ sp_scale a = sp_scale c
  | Panic, Panic => True
  | _, _ => False
  end.
Proof.
  assert (E : sp_compress dbg c xs = sp_compress dbg (sp_new (sp_scale c)) xs) by reflexivity.
  rewrite E. unfold sp_compress. cbn [sp_new sp_reset sp_scale sp_w].
  destruct (sp_write _ _ _ _) as [w|e|] eqn:W; cbn [rbind]; [split; reflexivity| |exact I].
  revert W. unfold sp_write. destruct (zigzag_delta_num_bits _ _) as [[[i b] z]|e'|] eqn:Z; cbn [rbind]; try discriminate.
  intros _. exact (zigzag_no_err dbg _ _ Z).
Qed.
Lemma sprintz_size c : sp_total_bytes_buffered c = N.of_nat (length (sp_buffers (sp_prepare c))).
Proof. reflexivity. Qed.
Lemma c52_sprintz_refuted :
  exists bs, Forall is_byte bs /\ fst (sp_decompress true (sp_open 1 bs)) = Panic /\
    exists v, fst (sp_decompress false (sp_open 1 bs)) = Ok [v].
Proof.
  exists ([0x7f] ++ repeat 255 7 ++ [0; 0; 0; 1; 64] ++ repeat 0 7 ++ [2]).
  split; [repeat constructor|]. split; [vm_compute; reflexivity|]. eexists. vm_compute. reflexivity.
Qed.

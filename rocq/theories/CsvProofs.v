(** Proofs about the CSV converter. *)
From Verif Require Import Base Xor F64 Format File FileSpec QuerySpec Text TextSpec TextProofs.
Local Open Scope N_scope.

Lemma le8_length x : length (le_bytes 8 x) = 8%nat.
Proof. reflexivity. Qed.
Lemma bytes_app xs ys : bytes_of (xs ++ ys) = bytes_of xs ++ bytes_of ys.
Proof. unfold bytes_of. apply flat_map_app. Qed.
Lemma bytes_len xs : length (bytes_of xs) = (8 * length xs)%nat.
Proof. induction xs as [|x xs IH]; [reflexivity|]. unfold bytes_of in *. cbn [flat_map]. rewrite app_length, IH, le8_length. cbn [length]. lia. Qed.

Section Parse.
  Variable parse : text -> option N.
  Definition parsed (w : text) (x : N) : Prop := parse w = Some x.

  Lemma parse_all_spec ss xs : Forall2 parsed (map trim ss) xs -> parse_all parse ss = Some xs.
  Proof.
    revert xs. induction ss as [|s ss IH]; cbn [map parse_all]; intros xs F; inversion F as [|? x ? ys P F']; subst; [reflexivity|]. unfold parsed in P. now rewrite P, (IH ys).
  Qed.
  Lemma parse_all_inv ss xs : parse_all parse ss = Some xs -> Forall2 parsed (map trim ss) xs.
  Proof.
    revert xs. induction ss as [|s ss IH]; cbn [map parse_all]; intros xs E; [injection E as <-; constructor|].
    destruct (parse (trim s)) eqn:P; [|discriminate]. destruct (parse_all parse ss); [|discriminate]. injection E as <-. constructor; auto.
  Qed.

  (** The state of the writer after the numbers [xs]. *)
  Definition holds (room : nat) (w : bufwriter) (xs : list N) : Prop :=
    bw_disk w ++ bw_buf w = bytes_of xs /\ (length (bw_disk w) <= room)%nat /\ N.of_nat (length (bw_buf w)) <= 8192.
  Lemma write_ok room w xs x : holds room w xs ->
    (exists w', bw_write room w (le_bytes 8 x) = (w', true) /\ holds room w' (xs ++ [x])) \/
    (exists w', bw_write room w (le_bytes 8 x) = (w', false) /\ (room < length (bytes_of xs))%nat).
  Proof.
    intros (E & D & B). unfold bw_write. rewrite le8_length. change (N.of_nat 8) with 8.
    assert (X : bytes_of (xs ++ [x]) = bytes_of xs ++ le_bytes 8 x) by (rewrite bytes_app; f_equal; cbn; now rewrite app_nil_r).
    destruct (N.ltb_spec (8192 - N.of_nat (length (bw_buf w))) 8) as [L|L].
    - unfold bw_flush. cbn [bw_buf bw_disk]. destruct (Nat.leb_spec (length (bw_buf w)) (room - length (bw_disk w))) as [K|K].
      + left. eexists. split; [reflexivity|]. rewrite skipn_all2, firstn_all2 by exact K. cbn [bw_buf bw_disk app]. unfold holds. cbn [bw_buf bw_disk].
        split; [now rewrite E, X|]. rewrite app_length, le8_length. change (N.of_nat 8) with 8. lia.
      + right. eexists. split; [reflexivity|]. rewrite <- E, app_length. lia.
    - left. eexists. split; [reflexivity|]. unfold holds. cbn [bw_buf bw_disk]. split; [now rewrite app_assoc, E, X|]. split; [exact D|]. rewrite app_length, le8_length. lia.
  Qed.
  Lemma numbers_ok room ys : forall w xs, holds room w xs ->
    (exists w', bw_numbers room w ys = (w', true) /\ holds room w' (xs ++ ys)) \/
    (exists w', bw_numbers room w ys = (w', false) /\ (room < length (bytes_of (xs ++ ys)))%nat).
  Proof.
    induction ys as [|y ys IH]; intros w xs H; cbn [bw_numbers]; [left; exists w; now rewrite app_nil_r|].
    destruct (write_ok room w xs y H) as [(w' & E & H')|(w' & E & L)]; rewrite E.
    - destruct (IH w' _ H') as [(w2 & E2 & H2)|(w2 & E2 & L2)]; rewrite <- app_assoc in *; [left|right]; exists w2; auto.
    - right. exists w'. split; [reflexivity|]. rewrite bytes_app, app_length. lia.
  Qed.
  (** The fields of some lines. *)
  Definition line_fields (ls : list text) : list text :=
    flat_map (fun line => map trim (filter (fun s => match s with [] => false | _ => true end) (split_on 44 line))) ls.
  Lemma lines_ok room ls ys : Forall2 parsed (line_fields ls) ys -> forall w xs, holds room w xs ->
    (exists w', csv_lines parse room w ls = (w', true) /\ holds room w' (xs ++ ys)) \/
    (exists w', csv_lines parse room w ls = (w', false) /\ (room < length (bytes_of (xs ++ ys)))%nat).
  Proof.
    revert ys. induction ls as [|l ls IH]; intros ys F w xs H; cbn [csv_lines line_fields flat_map] in *; [inversion F; subst; left; exists w; now rewrite app_nil_r|].
    apply Forall2_app_inv_l in F as (ys1 & ys2 & F1 & F2 & ->). unfold parse_line. rewrite (parse_all_spec _ ys1 F1).
    destruct (numbers_ok room ys1 w xs H) as [(w' & E & H')|(w' & E & L)]; rewrite E.
    - destruct (IH ys2 F2 w' _ H') as [(w2 & E2 & H2)|(w2 & E2 & L2)]; rewrite <- app_assoc in *; [left|right]; exists w2; auto.
    - right. exists w'. split; [reflexivity|]. rewrite app_assoc, bytes_app, app_length. lia.
  Qed.
  Lemma lines_parsed room ls : forall w w', csv_lines parse room w ls = (w', true) -> exists ys, Forall2 parsed (line_fields ls) ys.
  Proof.
    induction ls as [|l ls IH]; intros w w' E; cbn [csv_lines line_fields flat_map] in *; [exists []; constructor|].
    destruct (parse_line parse l) as [ys1|] eqn:P; [|discriminate]. destruct (bw_numbers room w ys1) as [w1 []]; [|discriminate].
    destruct (IH _ _ E) as (ys2 & F2). exists (ys1 ++ ys2). apply Forall2_app; [|exact F2]. now apply parse_all_inv.
  Qed.
  Lemma new_holds room : holds room (mkBw [] []) [].
  Proof. split; [reflexivity|]. cbn. lia. Qed.

  (** Everything about a run. *)
  Theorem csv2bin_success room content out : csv2bin parse room content = (true, out) ->
    exists xs, Forall2 parsed (fields_of 44 content) xs /\ out = Some (firstn room (bytes_of xs)) /\ N.of_nat (length (bytes_of xs)) <= N.of_nat room + 8192.
  Proof.
    unfold csv2bin. destruct (csv_lines parse room (mkBw [] []) (lines content)) as [w []] eqn:E; [|discriminate]. destruct (lines_parsed _ _ _ _ E) as (xs & F).
    destruct (lines_ok room _ xs F _ [] (new_holds room)) as [(w' & E' & H & D & B)|(w' & E' & _)]; rewrite E' in E; [injection E as <-|discriminate].
    intros R. injection R as <-. exists xs. split; [exact F|]. cbn [app] in H. rewrite <- H. unfold bw_flush. cbn [fst bw_disk]. rewrite firstn_app, (firstn_all2 (bw_disk w')) by exact D.
    split; [reflexivity|]. rewrite app_length. lia.
  Qed.
  Theorem csv2bin_complete room content xs : Forall2 parsed (fields_of 44 content) xs -> (length (bytes_of xs) <= room)%nat ->
    csv2bin parse room content = (true, Some (bytes_of xs)).
  Proof.
    intros F L. unfold csv2bin. destruct (lines_ok room _ xs F _ [] (new_holds room)) as [(w' & E' & H & D & B)|(w' & E' & K)]; [|cbn [app] in K; lia].
    rewrite E'. cbn [app] in H. unfold bw_flush. cbn [fst bw_disk]. rewrite firstn_all2; [now rewrite H|]. apply (f_equal (@length N)) in H. rewrite app_length in H. lia.
  Qed.
  Theorem csv2bin_failure room content w : In w (fields_of 44 content) -> parse w = None -> csv2bin parse room content = (false, None).
  Proof.
    intros I P. destruct (csv2bin parse room content) as [ok out] eqn:E. destruct ok.
    - exfalso. destruct (csv2bin_success _ _ _ E) as (xs & F & _). clear E. induction F as [|s x ss xs Q F IH]; [easy|]. destruct I as [->|I]; [unfold parsed in Q; congruence|auto].
    - revert E. unfold csv2bin. destruct (csv_lines parse room _ _) as [w' []]; intros E; now injection E.
  Qed.
End Parse.

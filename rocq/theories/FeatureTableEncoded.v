(** The table of mix9, mix9s, mix10 and mix9svq holds the feature of every window, at its line encoding. *)
From Verif Require Import Base BaseFacts LineEncoding LineEncodingSpec Prop_LineEncoding FeatureTable FeatureTableSpec FeatureTableFacts FeatureTableMixed.
Set Implicit Arguments. Unset Strict Implicit.

(** Every possible window is the window of a line of at most 2h+1 cells; the cells seen suffice. *)
Definition stone (p : point) : Z := match p with Mine => 1 | Theirs => 2 | _ => 0 end.
Lemma seen_whole h l s r : shape h l s r -> seen h s (h - l) = s /\ walls_left h (h - l) = l /\ walls_right h (List.length s) (h - l) = r /\ (h - l < List.length s)%nat
  /\ (1 <= List.length s <= 2 * h + 1)%nat.
Proof.
  intros (A & B & C & _). split; [apply (seen_both (h := h) (line := s) (l := l) (r := r)); lia|].
  unfold walls_left, walls_right. repeat split; lia.
Qed.
Lemma legal_line h w : legal h w -> exists line x, cells line /\ (1 <= List.length line <= 2 * h + 1)%nat /\ (x < List.length line)%nat /\ line_window line h (Z.of_nat x) = w.
Proof.
  intros (l & vis & r & -> & A & B & N & V). rewrite !app_length, !repeat_length in N.
  assert (Sh : shape h l (map stone vis) r).
  { split; [exact A|]. split; [exact B|]. rewrite map_length. split; [lia|]. apply Forall_forall. intros v I. apply in_map_iff in I. destruct I as (p & <- & _). destruct p; cbn; lia. }
  destruct (seen_whole Sh) as (E1 & E2 & E3 & E4 & E5). exists (map stone vis), (h - l)%nat. split; [destruct Sh as (_ & _ & _ & D); exact D|]. split; [exact E5|]. split; [exact E4|].
  rewrite window_shape by exact E4. rewrite E1, E2, E3. f_equal. f_equal. rewrite map_map. rewrite <- (map_id vis) at 2. apply map_ext_in.
  intros p I. destruct p; try reflexivity. exfalso. apply V. exact I.
Qed.
Lemma window_short h line x : cells line -> (x < List.length line)%nat ->
  exists line' x', cells line' /\ (1 <= List.length line' <= 2 * h + 1)%nat /\ (x' < List.length line')%nat /\ line_window line' h (Z.of_nat x') = line_window line h (Z.of_nat x).
Proof.
  intros C X. pose proof (seen_shape h C X) as Sh. destruct (seen_whole Sh) as (E1 & E2 & E3 & E4 & E5).
  exists (seen h line x), (h - walls_left h x)%nat. split; [destruct Sh as (_ & _ & _ & D); exact D|]. split; [exact E5|]. split; [exact E4|].
  rewrite !window_shape by assumption. rewrite E1, E2, E3. reflexivity.
Qed.

Section Encoded.
Variable F : Type.
Variable mapping : list Z -> list F.
Hypothesis shape_of_mapping : one_per_cell mapping.
Variable h : nat.
Let L := (2 * h + 1)%nat.
Variable code : list point -> Z.
Variable total : Z.
Hypothesis in_total : forall w, legal h w -> 0 <= code w < total.

Definition stored (lines : list (list Z)) (w : Z * F) : Prop :=
  exists line x, In line lines /\ (x < List.length line)%nat /\ fst w = code (line_window line h (Z.of_nat x)) /\ nth_error (mapping line) x = Some (snd w).
Lemma in_combine_nth (A B : Type) (a : list A) : forall (b : list B) w, In w (combine a b) <-> exists i, nth_error a i = Some (fst w) /\ nth_error b i = Some (snd w).
Proof.
  induction a as [|x a IH]; intros [|y b] w; cbn [combine In].
  - split; [intros []|intros (i & X & _); destruct i; discriminate].
  - split; [intros []|intros (i & X & _); destruct i; discriminate].
  - split; [intros []|intros (i & _ & X); destruct i; discriminate].
  - rewrite IH. split.
    + intros [<-|(i & X & Y)]; [exists 0%nat; auto|exists (S i); auto].
    + intros ([|i] & X & Y); [left; cbn in X, Y; destruct w; cbn in *; congruence|right; exists i; auto].
Qed.
Lemma body_ok l lines outs :
  Forall (fun line => List.length line = l) lines ->
  Forall2 (fun line out => List.length out = l /\ forall i, (i < l)%nat -> legal h (line_window line h (Z.of_nat i)) /\ nth_error out i = Some (code (line_window line h (Z.of_nat i)))) lines outs ->
  exists ws, mapM (fun '(i, row) => pairs i row total) (combine outs (map mapping lines)) = Ok ws
    /\ forall w, In w (List.concat ws) <-> stored lines w.
Proof.
  intros HL H. induction H as [|line out lines outs (Lo & Ho) H IH].
  - exists []. split; [reflexivity|]. intros w. split; [intros []|intros (a & x & [] & _)].
  - pose proof (Forall_inv HL) as Ll. pose proof (Forall_inv_tail HL) as HL'. cbv beta in Ll. rewrite <- Ll in Lo, Ho. destruct (IH HL') as (ws & E & W). cbn [map combine mapM]. rewrite E.
    assert (P : pairs out (mapping line) total = Ok (combine out (mapping line))).
    { unfold pairs. rewrite shape_of_mapping, Lo, Nat.eqb_refl. cbn [negb]. replace (forallb _ out) with true; [reflexivity|]. symmetry. apply forallb_forall. intros k K.
      apply In_nth_error in K. destruct K as (i & K). assert (Hi : (i < List.length line)%nat) by (rewrite <- Lo; apply nth_error_Some; congruence).
      destruct (Ho i Hi) as (Lg & K'). rewrite K in K'. injection K' as ->. specialize (in_total Lg). lia. }
    rewrite P. cbn [bind]. eexists. split; [reflexivity|]. intros w. cbn [List.concat]. rewrite in_app_iff, W, in_combine_nth. split.
    + intros [(i & X & Y)|(a & x & I & Hx & X)].
      * assert (Hi : (i < List.length line)%nat) by (rewrite <- Lo; apply nth_error_Some; congruence). destruct (Ho i Hi) as (_ & K). rewrite X in K. injection K as K.
        exists line, i. split; [left; reflexivity|]. auto.
      * exists a, x. split; [right; exact I|auto].
    + intros (a & x & [<-|I] & Hx & X & Y); [left; exists x; destruct (Ho x Hx) as (_ & K); rewrite K, X; auto|right; exists a, x; auto].
Qed.
Hypothesis small : (h <= 8)%nat.
Hypothesis total_is : get_total_num_encoding (2 * Z.of_nat h + 1) = Ok total.
Hypothesis lines_ok : forall lines l, lines <> [] -> (0 < l <= 32 - h)%nat ->
          Forall (fun line => List.length line = l /\ Forall (fun v => 0 <= v <= 2) line) lines ->
          exists outs, transform_lines lines l (2 * Z.of_nat h + 1) = Ok outs
            /\ Forall2 (fun line out => List.length out = l
                  /\ forall i, (i < l)%nat -> let w := line_window line h (Z.of_nat i) in
                       legal h w /\ nth_error out i = Some (code w)) lines outs.
Theorem encoded_writes batch : (0 < batch)%nat -> exists writes, encoded_feature_map mapping batch L = Ok (total, writes)
  /\ forall w, In w writes <-> exists line x, cells line /\ (1 <= List.length line <= L)%nat /\ (x < List.length line)%nat
       /\ fst w = code (line_window line h (Z.of_nat x)) /\ nth_error (mapping line) x = Some (snd w).
Proof.
  intros B. unfold encoded_feature_map. replace (Z.of_nat L) with (2 * Z.of_nat h + 1) by (unfold L; lia). rewrite total_is. cbn [bind].
  destruct (@collect nat (Z * F) (fun l =>
      idxs <- transform_lines (base3 l) l (2 * Z.of_nat h + 1) ;;
      ws <- mapM (fun '(i, row) => pairs i row total) (combine idxs (map_table mapping batch (base3 l))) ;;
      Ok (List.concat ws)) (fun l w => stored (base3 l) w) (rev (seq 1 L))) as (bs & E & W).
  - intros l I. apply in_rev in I. apply in_seq in I.
    destruct (@lines_ok (base3 l) l (@base3_nonempty l)) as (outs & E & H); [unfold L in I; lia| |].
    { apply Forall_forall. intros line Il. apply base3_all in Il. exact Il. }
    rewrite E. cbn [bind]. rewrite (map_table_rows mapping B (@base3_nonempty l)).
    destruct (@body_ok l (base3 l) outs) as (ws & E' & W'); [apply Forall_forall; intros line Il; apply base3_all in Il; apply Il|exact H|].
    rewrite E'. cbn [bind]. eexists. split; [reflexivity|exact W'].
  - rewrite E. cbn [bind]. eexists. split; [reflexivity|]. intros w. rewrite W. split.
    + intros (l & I & line & x & Il & X & K & N). apply in_rev in I. apply in_seq in I. apply base3_all in Il. destruct Il as (Len & C).
      exists line, x. split; [exact C|]. split; [lia|]. auto.
    + intros (line & x & C & Len & X & K & N). exists (List.length line). split; [apply -> in_rev; apply in_seq; lia|]. exists line, x.
      split; [apply base3_all; auto|]. auto.
Qed.
End Encoded.

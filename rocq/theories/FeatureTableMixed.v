(** The table of mix6, mix7 and mix8 holds the feature of every position of every line. *)
From Verif Require Import Base BaseFacts DecoderFacts LineEncodingOut LineEncodingSpec FeatureTable FeatureTableSpec FeatureTableFacts.
Set Implicit Arguments. Unset Strict Implicit.

(** Collecting the results of a loop. *)
Lemma collect (A W : Type) (f : A -> res (list W)) (P : A -> W -> Prop) l :
  (forall a, In a l -> exists b, f a = Ok b /\ forall w, In w b <-> P a w) ->
  exists bs, mapM f l = Ok bs /\ forall w, In w (List.concat bs) <-> exists a, In a l /\ P a w.
Proof.
  induction l as [|a l IH]; intros H; cbn [mapM].
  - exists []. split; [reflexivity|]. intros w. split; [intros []|intros (a & [] & _)].
  - destruct (H a (or_introl eq_refl)) as (b & E & B). destruct IH as (bs & E' & Bs); [intros; apply H; right; assumption|].
    rewrite E, E'. cbn [bind]. exists (b :: bs). split; [reflexivity|]. intros w. cbn [List.concat]. rewrite in_app_iff, B, Bs. split.
    + intros [X|(a' & I & X)]; [exists a; split; [left; reflexivity|exact X]|exists a'; split; [right; exact I|exact X]].
    + intros (a' & [->|I] & X); [left; exact X|right; exists a'; auto].
Qed.
Lemma collect2 (A C W : Type) (f : A -> C -> res (list W)) (P : A -> C -> W -> Prop) l m :
  (forall a c, In a l -> In c m -> exists b, f a c = Ok b /\ forall w, In w b <-> P a c w) ->
  exists bs, mapM (fun a => mapM (f a) m) l = Ok bs
    /\ forall w, In w (List.concat (map (@List.concat _) bs)) <-> exists a c, In a l /\ In c m /\ P a c w.
Proof.
  induction l as [|a l IH]; intros H; cbn [mapM].
  - exists []. split; [reflexivity|]. intros w. split; [intros []|intros (a & c & [] & _)].
  - destruct (@collect C W (f a) (P a) m) as (b & E & B); [intros c Ic; apply H; [left; reflexivity|exact Ic]|].
    destruct IH as (bs & E' & Bs); [intros; apply H; [right; assumption|assumption]|].
    rewrite E, E'. cbn [bind]. exists (b :: bs). split; [reflexivity|]. intros w. cbn [map List.concat]. rewrite in_app_iff, B, Bs. split.
    + intros [(c & I & X)|(a' & c & I & J & X)]; [exists a, c; split; [left; reflexivity|auto]|exists a', c; split; [right; exact I|auto]].
    + intros (a' & c & [->|I] & J & X); [left; exists c; auto|right; exists a', c; auto].
Qed.

Lemma dot_pows_n xs n a : List.length xs = n -> dot xs (map (fun k => 3 ^ Z.of_nat k) (seq a n)) = Ok (3 ^ Z.of_nat a * value3 xs).
Proof. intros <-. apply dot_pows. Qed.

Lemma base3_nonempty n : base3 n <> [].
Proof.
  intros E. assert (I : In (repeat 0 n) (base3 n)).
  { apply base3_all. split; [apply repeat_length|]. apply Forall_forall. intros v V. apply repeat_spec in V. lia. }
  rewrite E in I. destruct I.
Qed.

Section Mixed.
Variable F : Type.
Variable mapping : list Z -> list F.
Hypothesis shape_of_mapping : one_per_cell mapping.
Lemma stores_ok L sel weights offset column num lines :
  (forall line, In line lines -> (column < List.length line)%nat
     /\ (exists d, dot (sel line) weights = Ok d /\ d + offset = num line) /\ 0 <= num line < 4 * 3 ^ Z.of_nat L) ->
  exists ws, stores L sel weights offset column lines (map mapping lines) = Ok ws
    /\ forall w, In w ws <-> exists line, In line lines /\ fst w = num line /\ nth_error (mapping line) column = Some (snd w).
Proof.
  induction lines as [|line lines IH]; intros H; unfold stores in *; cbn [map combine mapM].
  - exists []. split; [reflexivity|]. intros w. split; [intros []|intros (a & [] & _)].
  - destruct (H line (or_introl eq_refl)) as (C & (d & E & D) & R). destruct IH as (ws & E' & W); [intros; apply H; right; assumption|].
    rewrite E. cbn [bind]. rewrite D. replace ((0 <=? num line) && (num line <? 4 * 3 ^ Z.of_nat L)) with true by lia. cbn [negb].
    rewrite <- (shape_of_mapping line) in C. destruct (nth_error (mapping line) column) as [f|] eqn:N; [|apply nth_error_None in N; lia].
    unfold py_get at 1. rewrite N. cbn [bind]. rewrite E'. cbn [bind]. exists ((num line, f) :: ws). split; [reflexivity|].
    intros w. cbn [In]. rewrite W. split.
    + intros [<-|(a & I & X)]; [exists line; cbn; auto|exists a; auto].
    + intros (a & [<-|I] & X & Y); [left; rewrite N in Y; injection Y as Y; rewrite <- X, Y; destruct w; reflexivity|right; exists a; auto].
Qed.

(** One loop body writes, for each of its lines, the feature of one position under the number of its window. *)
Variable h : nat.
Let L := (2 * h + 1)%nat.
Definition written (column : nat) (lines : list (list Z)) (w : Z * F) : Prop :=
  exists line, In line lines
    /\ fst w = shape_number h (walls_left h column) (seen h line column) (walls_right h (List.length line) column)
    /\ nth_error (mapping line) column = Some (snd w).
Lemma seen_right line r : (r <= h)%nat -> List.length line = L -> seen h line (h + r) = skipn r line.
Proof.
  intros R N. unfold seen. replace (h + r - h)%nat with r by lia. apply firstn_all2. rewrite skipn_length. unfold L in N. lia.
Qed.
Lemma seen_left line l : (l <= h)%nat -> List.length line = L -> seen h line (h - l) = firstn (L - l) line.
Proof. intros R N. unfold seen. replace (h - l - h)%nat with 0%nat by lia. cbn [skipn]. f_equal. unfold L. lia. Qed.
Lemma seen_both line l r : (l <= h)%nat -> (r <= h)%nat -> List.length line = (L - l - r)%nat -> seen h line (h - l) = line.
Proof. intros A B N. unfold seen. replace (h - l - h)%nat with 0%nat by lia. cbn [skipn]. apply firstn_all2. unfold L in N. lia. Qed.
Lemma tail_pows r : (r <= L)%nat -> skipn (L + 1 - r) (pow3s L) = map (fun k => 3 ^ Z.of_nat k) (seq (L + 1 - r) r).
Proof.
  intros R. rewrite <- (@pow3s_slice L (L + 1 - r) r) by lia. symmetry. apply firstn_all2. rewrite skipn_length. unfold pow3s. rewrite map_length, seq_length. lia.
Qed.
Lemma head_pows n : (n <= L + 1)%nat -> firstn n (pow3s L) = map (fun k => 3 ^ Z.of_nat k) (seq 0 n).
Proof. intros R. rewrite <- (@pow3s_slice L 0 n) by lia. reflexivity. Qed.
Lemma value_shape l line r : (l <= L)%nat ->
  value3 (lead l ++ line ++ trail r) = value3 (lead l) + 3 ^ Z.of_nat l * (value3 line + 3 ^ zlen line * value3 (trail r)).
Proof.
  intros _. rewrite value3_app. unfold zlen at 1. rewrite lead_length, value3_app. reflexivity.
Qed.
Lemma lead_value m : value3 (lead (S m)) = value3 (repeat 1 m).
Proof. cbn [lead]. rewrite value3_app. cbn [value3]. lia. Qed.
Lemma trail_value m : value3 (trail (S m)) = 3 * value3 (repeat 1 m).
Proof. cbn [trail value3]. lia. Qed.
Lemma L_pow : 3 ^ (2 * Z.of_nat h + 1) = 3 ^ Z.of_nat L.
Proof. f_equal. unfold L. lia. Qed.
Lemma right_body r : (r <= h)%nat ->
  exists ws, stores L (skipn r) (firstn (L - r) (pow3s L)) (zsum (skipn (L + 1 - r) (pow3s L))) (h + r) (base3 L) (map mapping (base3 L)) = Ok ws
    /\ forall w, In w ws <-> written (h + r) (base3 L) w.
Proof.
  intros R. apply stores_ok with (num := fun line => shape_number h (walls_left h (h + r)) (seen h line (h + r)) (walls_right h (List.length line) (h + r))).
  intros line I. apply base3_all in I. destruct I as (N & C). assert (X : (h + r < List.length line)%nat) by (unfold L in N; lia).
  split; [exact X|]. pose proof (seen_shape h C X) as Sh. split; [|rewrite <- L_pow; apply shape_range; exact Sh].
  rewrite seen_right by assumption. assert (WL : walls_left h (h + r) = 0%nat) by (unfold walls_left; lia).
  assert (WR : walls_right h (List.length line) (h + r) = r) by (unfold walls_right, L in *; lia). rewrite WL, WR.
  assert (N' : List.length (skipn r line) = (L - r)%nat) by (rewrite skipn_length; lia).
  rewrite head_pows by (unfold L; lia). rewrite (dot_pows_n _ N'). eexists. split; [reflexivity|].
  rewrite tail_pows, sum_pows by (unfold L; lia). rewrite shape_number_eq, L_pow. cbn [lead app]. rewrite value3_app. unfold zlen. rewrite N'.
  change (3 ^ Z.of_nat 0) with 1. destruct r as [|m]; [cbn; lia|]. cbn [sides]. rewrite trail_value, ones_snoc.
  replace (L + 1 - S m)%nat with (S (L - S m)) by (unfold L; lia). rewrite pow_succ.
  assert (P : 3 ^ Z.of_nat L = 3 * 3 ^ Z.of_nat (L - S m) * 3 ^ Z.of_nat m).
  { rewrite <- pow_succ, <- Z.pow_add_r by lia. f_equal. unfold L. lia. }
  rewrite P. ring.
Qed.
Lemma left_body l : (1 <= l <= h)%nat ->
  exists ws, stores L (firstn (L - l)) (cut (pow3s L) l L) (2 * 3 ^ Z.of_nat L + zsum (firstn (l - 1) (pow3s L))) (h - l) (base3 L) (map mapping (base3 L)) = Ok ws
    /\ forall w, In w ws <-> written (h - l) (base3 L) w.
Proof.
  intros R. apply stores_ok with (num := fun line => shape_number h (walls_left h (h - l)) (seen h line (h - l)) (walls_right h (List.length line) (h - l))).
  intros line I. apply base3_all in I. destruct I as (N & C). assert (X : (h - l < List.length line)%nat) by (unfold L in N; lia).
  split; [exact X|]. pose proof (seen_shape h C X) as Sh. split; [|rewrite <- L_pow; apply shape_range; exact Sh].
  rewrite seen_left by (try assumption; lia). assert (WL : walls_left h (h - l) = l) by (unfold walls_left; lia).
  assert (WR : walls_right h (List.length line) (h - l) = 0%nat) by (unfold walls_right, L in *; lia). rewrite WL, WR.
  assert (N' : List.length (firstn (L - l) line) = (L - l)%nat) by (rewrite firstn_length; lia).
  unfold cut. rewrite pow3s_slice by (unfold L; lia). rewrite (dot_pows_n _ N'). eexists. split; [reflexivity|].
  rewrite head_pows, sum_pows by (unfold L; lia). rewrite shape_number_eq, L_pow, value_shape by (unfold L; lia).
  destruct l as [|m]; [lia|]. cbn [sides trail value3]. rewrite lead_value. replace (S m - 1)%nat with m by lia. change (3 ^ Z.of_nat 0) with 1. ring.
Qed.
Lemma both_body l r : (1 <= l <= h)%nat -> (1 <= r <= h)%nat ->
  exists ws, stores L (fun x => x) (cut (pow3s L) l (L - r))
        (3 * 3 ^ Z.of_nat L + zsum (firstn (l - 1) (pow3s L)) + zsum (cut (pow3s L) (L + 1 - r) L)) (h - l)
        (base3 (L - l - r)) (map mapping (base3 (L - l - r))) = Ok ws
    /\ forall w, In w ws <-> written (h - l) (base3 (L - l - r)) w.
Proof.
  intros Hl Hr. apply stores_ok with (num := fun line => shape_number h (walls_left h (h - l)) (seen h line (h - l)) (walls_right h (List.length line) (h - l))).
  intros line I. apply base3_all in I. destruct I as (N & C). assert (X : (h - l < List.length line)%nat) by (unfold L in N; lia).
  split; [exact X|]. pose proof (seen_shape h C X) as Sh. split; [|rewrite <- L_pow; apply shape_range; exact Sh].
  rewrite seen_both with (r := r) by (try assumption; lia). assert (WL : walls_left h (h - l) = l) by (unfold walls_left; lia).
  assert (WR : walls_right h (List.length line) (h - l) = r) by (unfold walls_right, L in *; lia). rewrite WL, WR.
  unfold cut. replace (L - r - l)%nat with (List.length line) by lia. rewrite pow3s_slice by (unfold L in *; lia). rewrite dot_pows. eexists. split; [reflexivity|].
  rewrite head_pows, sum_pows by (unfold L; lia). rewrite pow3s_slice, sum_pows by (unfold L; lia). rewrite shape_number_eq, L_pow, value_shape by (unfold L; lia).
  destruct l as [|m]; [lia|]. destruct r as [|m']; [lia|]. cbn [sides]. rewrite lead_value, trail_value. replace (S m - 1)%nat with m by lia.
  replace (L - (L + 1 - S m'))%nat with m' by (unfold L; lia). unfold zlen. rewrite N. change (3 ^ Z.of_nat 0) with 1.
  assert (P : 3 ^ Z.of_nat (L + 1 - S m') = 3 * (3 ^ Z.of_nat (S m) * 3 ^ Z.of_nat (L - S m - S m'))).
  { rewrite <- Z.pow_add_r by lia. replace 3 with (3 ^ 1) at 2 by reflexivity. rewrite <- Z.pow_add_r by lia. f_equal. unfold L in *. lia. }
  rewrite P. ring.
Qed.

Theorem mixed_writes batch : (0 < batch)%nat -> exists writes, mixed_feature_map mapping batch L = Ok writes
  /\ forall w, In w writes <->
       (exists r, (r <= h)%nat /\ written (h + r) (base3 L) w)
       \/ (exists l, (1 <= l <= h)%nat /\ written (h - l) (base3 L) w)
       \/ (exists l r, (1 <= l <= h)%nat /\ (1 <= r <= h)%nat /\ written (h - l) (base3 (L - l - r)) w).
Proof.
  intros B. unfold mixed_feature_map. assert (HL : (L / 2 = h)%nat).
  { unfold L. replace (2 * h + 1)%nat with (1 + h * 2)%nat by lia. rewrite Nat.div_add by lia. reflexivity. }
  assert (HL' : ((L + 1) / 2 = h + 1)%nat).
  { unfold L. replace (2 * h + 1 + 1)%nat with ((h + 1) * 2)%nat by lia. apply Nat.div_mul. lia. }
  rewrite HL, HL'. replace (h + 1 - 1)%nat with h by lia. rewrite (map_table_rows mapping B (@base3_nonempty L)).
  destruct (@collect nat (Z * F) (fun r => stores L (skipn r) (firstn (L - r) (pow3s L)) (zsum (skipn (L + 1 - r) (pow3s L))) (h + r) (base3 L) (map mapping (base3 L)))
    (fun r w => written (h + r) (base3 L) w) (seq 0 (h + 1))) as (rs & E1 & W1).
  { intros r I. apply in_seq in I. apply right_body. lia. }
  rewrite E1. cbn [bind].
  destruct (@collect nat (Z * F) (fun l => stores L (firstn (L - l)) (cut (pow3s L) l L) (2 * 3 ^ Z.of_nat L + zsum (firstn (l - 1) (pow3s L))) (h - l) (base3 L) (map mapping (base3 L)))
    (fun l w => written (h - l) (base3 L) w) (seq 1 h)) as (ls & E2 & W2).
  { intros r I. apply in_seq in I. apply left_body. lia. }
  rewrite E2. cbn [bind].
  destruct (@collect2 nat nat (Z * F) (fun l r => stores L (fun x => x) (cut (pow3s L) l (L - r))
        (3 * 3 ^ Z.of_nat L + zsum (firstn (l - 1) (pow3s L)) + zsum (cut (pow3s L) (L + 1 - r) L)) (h - l)
        (base3 (L - l - r)) (map_table mapping batch (base3 (L - l - r))))
    (fun l r w => written (h - l) (base3 (L - l - r)) w) (seq 1 h) (seq 1 h)) as (bs & E3 & W3).
  { intros l r I J. apply in_seq in I. apply in_seq in J. rewrite (map_table_rows mapping B (@base3_nonempty _)). apply both_body; lia. }
  rewrite E3. cbn [bind]. eexists. split; [reflexivity|]. intros w. rewrite !in_app_iff, W1, W2, W3. split.
  - intros [(r & I & X)|[(l & I & X)|(l & r & I & J & X)]].
    + left. exists r. apply in_seq in I. split; [lia|exact X].
    + right. left. exists l. apply in_seq in I. split; [lia|exact X].
    + right. right. exists l, r. apply in_seq in I. apply in_seq in J. split; [lia|]. split; [lia|exact X].
  - intros [(r & I & X)|[(l & I & X)|(l & r & I & J & X)]].
    + left. exists r. split; [apply in_seq; lia|exact X].
    + right. left. exists l. split; [apply in_seq; lia|exact X].
    + right. right. exists l, r. split; [apply in_seq; lia|]. split; [apply in_seq; lia|exact X].
Qed.
Lemma written_real column lines w : (forall line, In line lines -> cells line /\ (column < List.length line)%nat) -> written column lines w ->
  exists line x, cells line /\ (x < List.length line)%nat /\ nth_error (mapping line) x = Some (snd w)
    /\ fst w = shape_number h (walls_left h x) (seen h line x) (walls_right h (List.length line) x).
Proof. intros H (line & I & K & N). destruct (H _ I). exists line, column. auto. Qed.
Theorem mixed_write_real batch writes w : (0 < batch)%nat -> mixed_feature_map mapping batch L = Ok writes -> In w writes ->
  exists line x, cells line /\ (x < List.length line)%nat /\ nth_error (mapping line) x = Some (snd w)
    /\ fst w = shape_number h (walls_left h x) (seen h line x) (walls_right h (List.length line) x).
Proof.
  intros B E I. destruct (mixed_writes B) as (ws & E' & W). rewrite E in E'. injection E' as <-. apply W in I.
  destruct I as [(r & R & X)|[(l & R & X)|(l & r & R & R' & X)]]; (eapply written_real; [|exact X]); intros line Il; apply base3_all in Il; destruct Il as (N & C);
    (split; [exact C|unfold L in *; lia]).
Qed.
(** Every position of every line has the same window as one of the stored positions. *)
Lemma zeros_cells n : cells (repeat 0 n).
Proof. apply Forall_forall. intros v V. apply repeat_spec in V. lia. Qed.
Theorem mixed_covers batch writes line x : (0 < batch)%nat -> mixed_feature_map mapping batch L = Ok writes -> cells line -> (x < List.length line)%nat ->
  exists line' x' f, cells line' /\ line_window line' h (Z.of_nat x') = line_window line h (Z.of_nat x) /\ nth_error (mapping line') x' = Some f
    /\ In (shape_number h (walls_left h x) (seen h line x) (walls_right h (List.length line) x), f) writes.
Proof.
  intros B E C X. destruct (mixed_writes B) as (ws & E' & W). rewrite E in E'. injection E' as <-.
  pose proof (seen_shape h C X) as (S1 & S2 & S3 & S4). set (s := seen h line x) in *. set (l := walls_left h x) in *. set (r := walls_right h (List.length line) x) in *.
  assert (Go : forall line' x', cells line' -> (x' < List.length line')%nat -> seen h line' x' = s -> walls_left h x' = l -> walls_right h (List.length line') x' = r ->
    (forall f, nth_error (mapping line') x' = Some f -> In (shape_number h l s r, f) writes) ->
    exists line' x' f, cells line' /\ line_window line' h (Z.of_nat x') = line_window line h (Z.of_nat x) /\ nth_error (mapping line') x' = Some f
    /\ In (shape_number h l s r, f) writes).
  { intros line' x' C' X' Es El Er I. assert (X2 : (x' < List.length (mapping line'))%nat) by (rewrite shape_of_mapping; exact X').
    destruct (nth_error (mapping line') x') as [f|] eqn:N; [|apply nth_error_None in N; lia]. exists line', x', f. split; [exact C'|].
    split; [|split; [exact N|apply I; reflexivity]]. rewrite !window_shape by assumption. fold s l r. rewrite Es, El, Er. reflexivity. }
  destruct (Nat.eq_dec l 0) as [L0|L0].
  - assert (Len : List.length (repeat 0 r ++ s) = L) by (rewrite app_length, repeat_length; unfold L; lia).
    assert (Cl : cells (repeat 0 r ++ s)) by (apply Forall_app; split; [apply zeros_cells|exact S4]).
    assert (Se : seen h (repeat 0 r ++ s) (h + r) = s).
    { rewrite seen_right by assumption. rewrite skipn_app, repeat_length, Nat.sub_diag, skipn_all2 by (rewrite repeat_length; lia). reflexivity. }
    assert (Wl : walls_left h (h + r) = l) by (unfold walls_left; lia).
    assert (Wr : walls_right h (List.length (repeat 0 r ++ s)) (h + r) = r) by (unfold walls_right; rewrite Len; unfold L; lia).
    apply (Go (repeat 0 r ++ s) (h + r)%nat); auto; [rewrite Len; unfold L; lia|]. intros f N. apply W. left. exists r. split; [assumption|].
    exists (repeat 0 r ++ s). split; [apply base3_all; auto|]. cbn [fst snd]. rewrite Se, Wl, Wr. auto.
  - destruct (Nat.eq_dec r 0) as [R0|R0].
    + assert (Len : List.length (s ++ repeat 0 l) = L) by (rewrite app_length, repeat_length; unfold L; lia).
      assert (Cl : cells (s ++ repeat 0 l)) by (apply Forall_app; split; [exact S4|apply zeros_cells]).
      assert (Se : seen h (s ++ repeat 0 l) (h - l) = s).
      { rewrite seen_left by assumption. replace (L - l)%nat with (List.length s) by (unfold L; lia). rewrite firstn_app, Nat.sub_diag, firstn_all. cbn. apply app_nil_r. }
      assert (Wl : walls_left h (h - l) = l) by (unfold walls_left; lia).
      assert (Wr : walls_right h (List.length (s ++ repeat 0 l)) (h - l) = r) by (unfold walls_right; rewrite Len; unfold L; lia).
      apply (Go (s ++ repeat 0 l) (h - l)%nat); auto; [rewrite Len; unfold L; lia|]. intros f N. apply W. right. left. exists l. split; [lia|].
      exists (s ++ repeat 0 l). split; [apply base3_all; auto|]. cbn [fst snd]. rewrite Se, Wl, Wr. auto.
    + assert (Len : List.length s = (L - l - r)%nat) by (unfold L; lia).
      assert (Se : seen h s (h - l) = s) by (apply (@seen_both s l r); assumption).
      assert (Wl : walls_left h (h - l) = l) by (unfold walls_left; lia).
      assert (Wr : walls_right h (List.length s) (h - l) = r) by (unfold walls_right; rewrite Len; unfold L; lia).
      apply (Go s (h - l)%nat); auto; [rewrite Len; unfold L; lia|]. intros f N. apply W. right. right. exists l, r. split; [lia|]. split; [lia|].
      exists s. split; [apply base3_all; auto|]. cbn [fst snd]. rewrite Se, Wl, Wr. auto.
Qed.
End Mixed.

(** Facts about base-3 numbers, windows and the tables. *)
From Verif Require Import Base BaseFacts LineEncodingSpec FeatureTable FeatureTableSpec.
Set Implicit Arguments. Unset Strict Implicit.

(** ** Base 3 *)
Definition digits3 (l : list Z) : Prop := Forall (fun d => 0 <= d <= 2) l.
Lemma value3_app a b : value3 (a ++ b) = value3 a + 3 ^ zlen a * value3 b.
Proof.
  induction a as [|d a IH]; cbn [value3 app]; [change (zlen (@nil Z)) with 0; rewrite Z.pow_0_r; lia|].
  rewrite IH, zlen_cons. pose proof (zlen_nonneg a). rewrite Z.pow_add_r by lia. change (3 ^ 1) with 3. nia.
Qed.
Lemma value3_range l : digits3 l -> 0 <= value3 l < 3 ^ zlen l.
Proof.
  induction 1 as [|d l D _ IH]; cbn [value3]; [change (zlen (@nil Z)) with 0; lia|]. rewrite zlen_cons. pose proof (zlen_nonneg l).
  rewrite Z.pow_add_r by lia. change (3 ^ 1) with 3. lia.
Qed.
Lemma value3_inj a : forall b, digits3 a -> digits3 b -> List.length a = List.length b -> value3 a = value3 b -> a = b.
Proof.
  induction a as [|x a IH]; intros [|y b] A B L E; try discriminate; [reflexivity|]. inversion A; inversion B; subst. cbn in L. cbn [value3] in E.
  assert (x = y) by lia. subst. f_equal. apply IH; auto; lia.
Qed.
Lemma pow3s_slice L a n : (a + n <= L + 1)%nat -> firstn n (skipn a (pow3s L)) = map (fun k => 3 ^ Z.of_nat k) (seq a n).
Proof.
  intros H. unfold pow3s. rewrite skipn_map, firstn_map. f_equal.
  replace (L + 1)%nat with (a + (n + (L + 1 - a - n)))%nat by lia. rewrite seq_app, skipn_app, seq_length, Nat.sub_diag.
  rewrite (skipn_all2 (seq 0 a)) by (rewrite seq_length; lia). cbn [skipn app]. rewrite seq_app, firstn_app, seq_length, Nat.sub_diag.
  rewrite firstn_all2 by (rewrite seq_length; lia). cbn [firstn]. apply app_nil_r.
Qed.
Lemma pow_succ (a : nat) : 3 ^ Z.of_nat (S a) = 3 * 3 ^ Z.of_nat a.
Proof. rewrite Nat2Z.inj_succ, Z.pow_succ_r by lia. reflexivity. Qed.
Lemma dot_pows xs : forall a, dot xs (map (fun k => 3 ^ Z.of_nat k) (seq a (List.length xs))) = Ok (3 ^ Z.of_nat a * value3 xs).
Proof.
  intros a. unfold dot. rewrite map_length, seq_length, Nat.eqb_refl. f_equal. revert a.
  induction xs as [|x xs IH]; intros a; cbn [List.length seq map combine zsum fold_right value3 fst snd]; [lia|].
  change (fold_right Z.add 0 ?l) with (zsum l). rewrite IH, pow_succ. lia.
Qed.
Lemma sum_pows m : forall a, zsum (map (fun k => 3 ^ Z.of_nat k) (seq a m)) = 3 ^ Z.of_nat a * value3 (repeat 1 m).
Proof.
  induction m as [|m IH]; intros a; cbn [seq map zsum fold_right repeat value3]; [lia|]. change (fold_right Z.add 0 ?l) with (zsum l).
  rewrite IH, pow_succ. lia.
Qed.
Lemma ones_snoc m : value3 (repeat 1 (S m)) = value3 (repeat 1 m) + 3 ^ Z.of_nat m.
Proof.
  induction m as [|m IH]; [reflexivity|]. change (repeat 1 (S (S m))) with (1 :: repeat 1 (S m)). change (repeat 1 (S m)) with (1 :: repeat 1 m) at 2.
  cbn [value3]. rewrite IH, pow_succ. lia.
Qed.
Lemma repeat_len (A : Type) (a : A) n : zlen (repeat a n) = Z.of_nat n.
Proof. unfold zlen. rewrite repeat_length. reflexivity. Qed.

(** ** The numbering of windows is one-to-one *)
Definition shape (h l : nat) (line : list Z) (r : nat) : Prop :=
  (l <= h)%nat /\ (r <= h)%nat /\ (List.length line + l + r = 2 * h + 1)%nat /\ digits3 line.
Definition lead (l : nat) : list Z := match l with O => [] | S m => repeat 1 m ++ [0] end.
Definition trail (r : nat) : list Z := match r with O => [] | S m => 0 :: repeat 1 m end.
Definition sides (l r : nat) : Z := match l, r with O, O => 0 | O, _ => 1 | _, O => 2 | _, _ => 3 end.
Lemma shape_number_eq h l line r : shape_number h l line r = value3 (lead l ++ line ++ trail r) + sides l r * 3 ^ (2 * Z.of_nat h + 1).
Proof. reflexivity. Qed.
Lemma lead_length l : List.length (lead l) = l.
Proof. destruct l; cbn [lead]; [reflexivity|]. rewrite app_length, repeat_length. cbn. lia. Qed.
Lemma trail_length r : List.length (trail r) = r.
Proof. destruct r; cbn [trail]; [reflexivity|]. cbn [List.length]. rewrite repeat_length. reflexivity. Qed.
Lemma digits3_app a b : digits3 (a ++ b) <-> digits3 a /\ digits3 b.
Proof. apply Forall_app. Qed.
Lemma digits3_ones m : digits3 (repeat 1 m).
Proof. apply Forall_forall. intros x X. apply repeat_spec in X. lia. Qed.
Lemma lead_digits l : digits3 (lead l).
Proof. destruct l; cbn [lead]; [constructor|]. apply digits3_app. split; [apply digits3_ones|repeat constructor; lia]. Qed.
Lemma trail_digits r : digits3 (trail r).
Proof. destruct r; cbn [trail]; [constructor|]. constructor; [lia|apply digits3_ones]. Qed.
Lemma shape_code h l line r : shape h l line r ->
  digits3 (lead l ++ line ++ trail r) /\ List.length (lead l ++ line ++ trail r) = (2 * h + 1)%nat.
Proof.
  intros (A & B & C & D). split; [rewrite !digits3_app; auto using lead_digits, trail_digits|]. rewrite !app_length, lead_length, trail_length. lia.
Qed.
Lemma shape_value h l line r : shape h l line r -> 0 <= value3 (lead l ++ line ++ trail r) < 3 ^ (2 * Z.of_nat h + 1).
Proof.
  intros S. destruct (shape_code S) as (D & L). pose proof (value3_range D) as R. unfold zlen in R. rewrite L in R.
  replace (2 * Z.of_nat h + 1) with (Z.of_nat (2 * h + 1)) by lia. exact R.
Qed.
Lemma shape_range h l line r : shape h l line r -> 0 <= shape_number h l line r < 4 * 3 ^ (2 * Z.of_nat h + 1).
Proof.
  intros S. pose proof (shape_value S). rewrite shape_number_eq. assert (0 <= sides l r <= 3) by (destruct l, r; cbn; lia).
  assert (0 < 3 ^ (2 * Z.of_nat h + 1)) by (apply Z.pow_pos_nonneg; lia). nia.
Qed.
(** The spelling 1..10 of the number of walls can be read off the front of a list. *)
Lemma ones_zero m : forall m' x y, repeat 1 m ++ 0 :: x = repeat 1 m' ++ 0 :: y -> m = m' /\ x = y.
Proof.
  induction m as [|m IH]; intros [|m'] x y H; cbn [repeat app] in H; try discriminate; [injection H as H; auto|].
  injection H as H. destruct (IH _ _ _ H). auto.
Qed.
Lemma lead_inj l l' x y : (l = 0 <-> l' = 0)%nat -> lead l ++ x = lead l' ++ y -> l = l' /\ x = y.
Proof.
  intros E0 H. destruct l as [|m], l' as [|m']; cbn [lead app] in H; try (exfalso; destruct E0; lia); [auto|].
  rewrite <- !app_assoc in H. cbn [app] in H. apply ones_zero in H. destruct H. auto.
Qed.
Lemma trail_inj r r' x y : (r = 0 <-> r' = 0)%nat -> x ++ trail r = y ++ trail r' -> r = r' /\ x = y.
Proof.
  intros E0 H. destruct r as [|m], r' as [|m']; cbn [trail] in H; try (exfalso; destruct E0; lia); [rewrite !app_nil_r in H; auto|].
  apply (f_equal (@rev Z)) in H. rewrite !rev_app_distr in H. cbn [rev] in H. 
  assert (R : forall n, rev (repeat 1 n) = repeat 1 n).
  { induction n as [|n IH]; [reflexivity|]. cbn [repeat rev]. rewrite IH. symmetry. apply (repeat_cons n 1). }
  rewrite !R, <- !app_assoc in H. cbn [app] in H. apply ones_zero in H. destruct H as (-> & H). split; [reflexivity|].
  rewrite <- (rev_involutive x), <- (rev_involutive y), H. reflexivity.
Qed.
Theorem shape_number_inj h l line r l' line' r' : shape h l line r -> shape h l' line' r' ->
  shape_number h l line r = shape_number h l' line' r' -> l = l' /\ line = line' /\ r = r'.
Proof.
  intros S S' E. rewrite !shape_number_eq in E. pose proof (shape_value S) as V. pose proof (shape_value S') as V'.
  assert (SD : sides l r = sides l' r') by nia. rewrite SD in E.
  destruct (shape_code S) as (D & L). destruct (shape_code S') as (D' & L').
  assert (C : lead l ++ line ++ trail r = lead l' ++ line' ++ trail r') by (apply value3_inj; [exact D|exact D'|congruence|lia]).
  assert (Zs : (l = 0 <-> l' = 0)%nat /\ (r = 0 <-> r' = 0)%nat).
  { destruct l, r, l', r'; cbn in SD; try discriminate; split; split; intros; try reflexivity; try discriminate; lia. }
  destruct Zs as (Z1 & Z2). apply (lead_inj Z1) in C. destruct C as (-> & C). apply (trail_inj Z2) in C. destruct C as (-> & ->). auto.
Qed.

(** ** Windows *)
Definition pt (v : Z) : point := if v =? 1 then Mine else if v =? 2 then Theirs else Vacant.
Lemma seen_length h line x : (x < List.length line)%nat ->
  (List.length (seen h line x) + walls_left h x + walls_right h (List.length line) x = 2 * h + 1)%nat.
Proof. intros X. unfold seen, walls_left, walls_right. rewrite firstn_length, skipn_length. lia. Qed.
Lemma map_const (A B : Type) (f : A -> B) b l : (forall a, In a l -> f a = b) -> map f l = repeat b (List.length l).
Proof. induction l as [|a l IH]; intros H; [reflexivity|]. cbn. rewrite (H a (or_introl eq_refl)), IH by (intros; apply H; right; assumption). reflexivity. Qed.
Lemma list_nth (l : list Z) a : l = map (fun k => nth (k - a) l 0) (seq a (List.length l)).
Proof.
  revert a. induction l as [|x l IH]; intros a; [reflexivity|]. cbn [List.length seq map]. rewrite Nat.sub_diag. cbn [nth]. f_equal.
  rewrite (IH (S a)) at 1. apply map_ext_in. intros k K. apply in_seq in K. replace (k - a)%nat with (S (k - S a)) by lia. reflexivity.
Qed.
Lemma nth_skipn (l : list Z) a : forall k, nth k (skipn a l) 0 = nth (a + k) l 0.
Proof.
  revert l. induction a as [|a IH]; intros [|x l] k; cbn [skipn Nat.add nth]; try reflexivity; [destruct k; reflexivity|apply IH].
Qed.
Lemma nth_firstn (l : list Z) n : forall k, (k < n)%nat -> nth k (firstn n l) 0 = nth k l 0.
Proof. revert l. induction n as [|n IH]; intros [|x l] [|k] K; cbn; try lia; try reflexivity. apply IH. lia. Qed.
Lemma window_shape h line x : (x < List.length line)%nat ->
  line_window line h (Z.of_nat x) = repeat Wall (walls_left h x) ++ map pt (seen h line x) ++ repeat Wall (walls_right h (List.length line) x).
Proof.
  intros X. pose proof (seen_length h X) as S. unfold line_window.
  replace (2 * h + 1)%nat with (walls_left h x + (List.length (seen h line x) + walls_right h (List.length line) x))%nat by lia.
  rewrite seq_app, map_app. f_equal.
  - rewrite (map_const (b := Wall)); [rewrite seq_length; reflexivity|]. intros k K. apply in_seq in K. unfold line_at. unfold walls_left in K.
    replace (0 <=? Z.of_nat x + (Z.of_nat k - Z.of_nat h)) with false by lia. reflexivity.
  - rewrite seq_app, map_app. cbn [Nat.add]. f_equal.
    + rewrite (list_nth (seen h line x) (walls_left h x)) at 2. rewrite map_map. apply map_ext_in. intros k K. apply in_seq in K.
      unfold seen in *. rewrite firstn_length, skipn_length in K. unfold walls_left in *. unfold line_at, zlen.
      replace ((0 <=? Z.of_nat x + (Z.of_nat k - Z.of_nat h)) && (Z.of_nat x + (Z.of_nat k - Z.of_nat h) <? Z.of_nat (List.length line))) with true by lia.
      rewrite nth_firstn by lia. rewrite nth_skipn. replace (Z.to_nat (Z.of_nat x + (Z.of_nat k - Z.of_nat h))) with (x - h + (k - (h - x)))%nat by lia. reflexivity.
    + rewrite (map_const (b := Wall)); [rewrite seq_length; reflexivity|]. intros k K. apply in_seq in K. unfold line_at, zlen.
      unfold seen in *. rewrite firstn_length, skipn_length in K. unfold walls_left, walls_right in *.
      replace (Z.of_nat x + (Z.of_nat k - Z.of_nat h) <? Z.of_nat (List.length line)) with false by lia. rewrite andb_false_r. reflexivity.
Qed.
Lemma in_firstn (A : Type) (x : A) n : forall l, In x (firstn n l) -> In x l.
Proof. induction n; intros [|y l] H; cbn in H; try contradiction. destruct H; [left; assumption|right; apply IHn; assumption]. Qed.
Lemma in_skipn (A : Type) (x : A) n : forall l, In x (skipn n l) -> In x l.
Proof. induction n; intros [|y l] H; cbn in H; try contradiction; try assumption. right. apply IHn. assumption. Qed.
Lemma seen_shape h line x : cells line -> (x < List.length line)%nat ->
  shape h (walls_left h x) (seen h line x) (walls_right h (List.length line) x).
Proof.
  intros C X. pose proof (seen_length h X) as S. repeat split; [unfold walls_left; lia|unfold walls_right; lia|lia|].
  apply Forall_forall. intros v V. unfold cells in C. rewrite Forall_forall in C. apply C. unfold seen in V. apply in_firstn in V. apply in_skipn in V. exact V.
Qed.

(** ** All lines *)
Lemma upd_same (l : list Z) i : (i < List.length l)%nat -> upd l i (nth i l 0) = l.
Proof. revert i. induction l as [|x l IH]; intros [|i] H; cbn in *; try lia; [reflexivity|]. rewrite IH by lia. reflexivity. Qed.
Lemma upd_upd (l : list Z) i a b : upd (upd l i a) i b = upd l i b.
Proof. revert i. induction l as [|x l IH]; intros [|i]; cbn; try reflexivity. rewrite IH. reflexivity. Qed.
Lemma upd_len (l : list Z) i a : List.length (upd l i a) = List.length l.
Proof. revert i. induction l as [|x l IH]; intros [|i]; cbn; try reflexivity. rewrite IH. reflexivity. Qed.
Lemma upd_cells (l : list Z) i a : cells l -> 0 <= a <= 2 -> cells (upd l i a).
Proof. unfold cells. intros H A. revert i. induction H as [|x l X HF IH]; intros [|i]; cbn; constructor; auto. Qed.
Lemma nth_upd (l : list Z) i a : (i < List.length l)%nat -> nth i (upd l i a) 0 = a.
Proof. revert i. induction l as [|x l IH]; intros [|i] H; cbn in *; try lia. apply IH. lia. Qed.
Lemma nth_upd_other (l : list Z) i j a : i <> j -> nth j (upd l i a) 0 = nth j l 0.
Proof. revert i j. induction l as [|x l IH]; intros [|i] [|j] H; cbn in *; try reflexivity; try (exfalso; lia). apply IH. lia. Qed.
Definition so_far (n i : nat) (row : list Z) : Prop :=
  List.length row = n /\ cells row /\ forall j, (i <= j < n)%nat -> nth j row 0 = 0.
Lemma grow_all n : forall todo i x, (i + todo = n)%nat -> (forall row, In row x <-> so_far n i row) -> forall row, In row (grow x todo i) <-> so_far n n row.
Proof.
  induction todo as [|todo IH]; intros i x E H row; cbn [grow].
  - replace n with i at 2 by lia. rewrite H. reflexivity.
  - apply (IH (S i)); [lia|]. clear row. intros row. rewrite !in_app_iff, !in_map_iff, H. split.
    + intros [(A & B & C)|[(row' & <- & Hr)|(row' & <- & Hr)]].
      * split; [exact A|]. split; [exact B|]. intros j J. apply C. lia.
      * apply H in Hr. destruct Hr as (A & B & C). split; [rewrite upd_len; exact A|]. split; [apply upd_cells; [exact B|lia]|]. intros j J. rewrite nth_upd_other by lia. apply C. lia.
      * apply H in Hr. destruct Hr as (A & B & C). split; [rewrite upd_len; exact A|]. split; [apply upd_cells; [exact B|lia]|]. intros j J. rewrite nth_upd_other by lia. apply C. lia.
    + intros (A & B & C). assert (V : 0 <= nth i row 0 <= 2).
      { unfold cells in B. rewrite Forall_forall in B. apply B. apply nth_In. lia. }
      assert (Base : so_far n i (upd row i 0)).
      { split; [rewrite upd_len; exact A|]. split; [apply upd_cells; [exact B|lia]|]. intros j J. destruct (Nat.eq_dec i j) as [->|N]; [apply nth_upd; lia|].
        rewrite nth_upd_other by exact N. apply C. lia. }
      assert (Cs : nth i row 0 = 0 \/ nth i row 0 = 1 \/ nth i row 0 = 2) by lia. destruct Cs as [Q|[Q|Q]].
      * left. split; [exact A|]. split; [exact B|]. intros j J. destruct (Nat.eq_dec j i) as [->|N]; [exact Q|apply C; lia].
      * right. left. exists (upd row i 0). split; [|apply H; exact Base]. rewrite upd_upd, <- Q. apply upd_same. lia.
      * right. right. exists (upd row i 0). split; [|apply H; exact Base]. rewrite upd_upd, <- Q. apply upd_same. lia.
Qed.
Theorem base3_all n line : In line (base3 n) <-> List.length line = n /\ cells line.
Proof.
  unfold base3. rewrite (@grow_all n); [|reflexivity|].
  - unfold so_far. split; [tauto|]. intros (A & B). split; [exact A|]. split; [exact B|]. intros j J. lia.
  - intros row. cbn [In]. unfold so_far. split.
    + intros [<-|[]]. split; [apply repeat_length|]. split; [apply Forall_forall; intros v V; apply repeat_spec in V; lia|]. intros j J. apply nth_repeat.
    + intros (A & _ & C). left. symmetry. apply nth_ext with 0 0; [rewrite repeat_length; exact A|]. intros j J. rewrite nth_repeat. apply C. lia.
Qed.

(** ** Batches *)
Lemma cut_split (A : Type) (l : list A) a b : (a <= b)%nat -> firstn a l ++ cut l a b = firstn b l.
Proof.
  intros H. unfold cut. revert b H l. induction a as [|a IH]; intros b H l; cbn [firstn skipn app]; [rewrite Nat.sub_0_r; reflexivity|].
  destruct b as [|b]; [lia|]. destruct l as [|x l]; [cbn [skipn firstn app]; rewrite firstn_nil; reflexivity|]. cbn [firstn skipn app]. f_equal. apply IH. lia.
Qed.
Theorem map_table_rows (F : Type) (mapping : list Z -> list F) bs lines : (0 < bs)%nat -> lines <> [] -> map_table mapping bs lines = map mapping lines.
Proof.
  intros B NE. unfold map_table. set (N := List.length lines).
  assert (G : forall k, flat_map (fun i => map mapping (cut lines (i * bs) (Nat.min ((i + 1) * bs) N))) (seq 0 k) = map mapping (firstn (Nat.min (k * bs) N) lines)).
  { induction k as [|k IH]; [reflexivity|]. rewrite seq_S, flat_map_app, IH. cbn [flat_map Nat.add]. rewrite app_nil_r, <- map_app. f_equal.
    destruct (Nat.le_gt_cases N (k * bs)) as [L|L].
    - rewrite (Nat.min_r (k * bs) N) by lia. unfold cut. replace (Nat.min ((k + 1) * bs) N - k * bs)%nat with 0%nat by lia. cbn [firstn]. rewrite app_nil_r.
      f_equal. cbn. lia.
    - rewrite (Nat.min_l (k * bs) N) by lia. replace (S k * bs)%nat with ((k + 1) * bs)%nat by lia. apply cut_split. apply Nat.min_glb; nia. }
  rewrite G, Nat.min_r; [unfold N; rewrite firstn_all; reflexivity|].
  assert (N0 : (0 < N)%nat) by (unfold N; destruct lines; [congruence|cbn; lia]).
  pose proof (Nat.div_mod (N - 1) bs ltac:(lia)) as D. pose proof (Nat.mod_upper_bound (N - 1) bs ltac:(lia)). nia.
Qed.

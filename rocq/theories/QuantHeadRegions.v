(** C79, C80: the nine regions of the board; the depthwise convolution in 16 bits. *)
From Coq Require Import QArith Qcanon Qround Permutation FinFun.
From Verif Require Import Base BaseFacts Rng FeatureTable FlatNet FlatNetFacts QuantHead QuantHeadSpec QuantHeadFacts QuantHeadWhole.
Set Implicit Arguments. Unset Strict Implicit.
Local Open Scope nat_scope.

Lemma in_block y0 y1 x0 x1 y x : In (y, x) (block_cells y0 y1 x0 x1) <-> y0 <= y < y1 /\ x0 <= x < x1.
Proof.
  unfold block_cells. rewrite in_flat_map. split.
  - intros (y' & Y & X). apply in_map_iff in X. destruct X as (x' & [= <- <-] & X). apply in_seq in Y, X. lia.
  - intros [Y X]. exists y. split; [apply in_seq; lia|]. apply in_map. apply in_seq. lia.
Qed.
Lemma NoDup_block y0 y1 x0 x1 : NoDup (block_cells y0 y1 x0 x1).
Proof.
  unfold block_cells. pose proof (seq_NoDup (y1 - y0) y0) as N. induction N as [|y l H N IH]; cbn; [constructor|].
  assert (A : NoDup (map (pair y) (seq x0 (x1 - x0)))). { apply Injective_map_NoDup; [intros a b; congruence|apply seq_NoDup]. }
  assert (B : forall p, In p (map (pair y) (seq x0 (x1 - x0))) -> ~ In p (flat_map (fun y => map (pair y) (seq x0 (x1 - x0))) l)).
  { intros p P Q. apply in_map_iff in P. destruct P as (x & <- & _). apply in_flat_map in Q. destruct Q as (y' & Y & Q). apply in_map_iff in Q. destruct Q as (x' & E & _). injection E as E1 _. subst y'. contradiction. }
  clear H N. revert A B. generalize (map (pair y) (seq x0 (x1 - x0))). intros u A B. induction A as [|p u P A IHu]; cbn; [exact IH|]. constructor.
  - rewrite in_app_iff. intros [C|C]; [contradiction|]. apply (B p); [now left|exact C].
  - apply IHu. intros q Q. apply B. now right.
Qed.
Lemma block_rows y0 ym y1 x0 x1 : y0 <= ym <= y1 -> block_cells y0 y1 x0 x1 = block_cells y0 ym x0 x1 ++ block_cells ym y1 x0 x1.
Proof. intros H. unfold block_cells. replace (y1 - y0) with ((ym - y0) + (y1 - ym)) by lia. rewrite seq_app, flat_map_app. replace (y0 + (ym - y0)) with ym by lia. reflexivity. Qed.
Lemma block_columns y0 y1 x0 xm x1 : x0 <= xm <= x1 -> Permutation (block_cells y0 y1 x0 x1) (block_cells y0 y1 x0 xm ++ block_cells y0 y1 xm x1).
Proof.
  intros H. unfold block_cells. induction (seq y0 (y1 - y0)) as [|y l IH]; cbn; [constructor|]. replace (x1 - x0) with ((xm - x0) + (x1 - xm)) at 1 by lia.
  rewrite seq_app, map_app. replace (x0 + (xm - x0)) with xm by lia. rewrite <- !app_assoc. apply Permutation_app_head.
  rewrite IH. rewrite !app_assoc. apply Permutation_app_tail. apply Permutation_app_comm.
Qed.
Lemma third_le n : third n <= n - third n.
Proof. unfold third. pose proof (Nat.div_mod (n + 1) 3 ltac:(lia)). destruct n as [|[|n]]; [cbn; lia|cbn; lia|lia]. Qed.
Lemma third_even n : n - third n - third n <= third n + 1 /\ third n <= n - third n - third n + 1.
Proof. unfold third. pose proof (Nat.div_mod (n + 1) 3 ltac:(lia)). pose proof (Nat.mod_upper_bound (n + 1) 3 ltac:(lia)). lia. Qed.
Theorem regions_partition h w : Permutation (List.concat (regions h w)) (block_cells 0 h 0 w).
Proof.
  unfold regions. cbv zeta. rewrite !cut1_third, !cut2_third. generalize (third_le h) (third_le w). generalize (third h) (third w). intros a b Ha Hb.
  cbn [List.concat]. rewrite app_nil_r. symmetry.
  rewrite (@block_rows 0 a h 0 w) by lia. rewrite (@block_rows a (h - a) h 0 w) by lia.
  assert (R : forall u v, Permutation (block_cells u v 0 w) (block_cells u v 0 b ++ block_cells u v b (w - b) ++ block_cells u v (w - b) w)).
  { intros u v. rewrite (@block_columns u v 0 b w) by lia. apply Permutation_app_head. apply block_columns. lia. }
  rewrite (R 0 a), (R a (h - a)), (R (h - a) h). rewrite <- !app_assoc. reflexivity.
Qed.

(** ** Mirror images *)
Lemma sumq_perm l l' : Permutation l l' -> sumq l = sumq l'.
Proof. unfold sumq. induction 1; cbn; [reflexivity|now f_equal| |congruence]. rewrite !Qcplus_assoc. f_equal. apply Qcplus_comm. Qed.
Lemma region_image (f g : nat -> nat -> Qc) (phi : nat * nat -> nat * nat) (A B : list (nat * nat)) :
  NoDup A -> NoDup B -> (forall p q, In p A -> In q A -> phi p = phi q -> p = q) -> (forall p, In p A -> In (phi p) B) -> (forall p, In p B -> exists q, In q A /\ phi q = p) ->
  (forall y x, In (y, x) A -> g y x = f (fst (phi (y, x))) (snd (phi (y, x)))) -> region_sum g A = region_sum f B.
Proof.
  intros NA NB I F S E. unfold region_sum. transitivity (sumq (map (fun '(y, x) => f y x) (map phi A))).
  - f_equal. rewrite map_map. apply map_ext_in. intros [y x] P. rewrite (E y x P). destruct (phi (y, x)) as [a b]. reflexivity.
  - apply sumq_perm. apply Permutation_map. apply NoDup_Permutation; [|exact NB|].
    + clear - NA I. induction NA as [|p l H N IH]; cbn; [constructor|]. constructor.
      * intros C. apply in_map_iff in C. destruct C as (q & Eq & Q). apply H. rewrite (I p q); [exact Q|now left|now right|now symmetry].
      * apply IH. intros a b Pa Pb. apply I; now right.
    + intros p. rewrite in_map_iff. split; [intros (q & <- & Q); now apply F|]. intros P. destruct (S p P) as (q & Q & Eq). now exists q.
Qed.
Lemma flip_rows_sum (f : nat -> nat -> Qc) h y0 y1 x0 x1 : y1 <= h ->
  region_sum (fun y x => f (h - 1 - y) x) (block_cells y0 y1 x0 x1) = region_sum f (block_cells (h - y1) (h - y0) x0 x1).
Proof.
  intros H. apply (@region_image _ _ (fun '(y, x) => (h - 1 - y, x))); try apply NoDup_block; try reflexivity.
  - intros [a b] [c d] P Q [= E ->]. apply in_block in P, Q. f_equal. lia.
  - intros [y x] P. apply in_block in P. apply in_block. lia.
  - intros [y x] P. apply in_block in P. exists (h - 1 - y, x). split; [apply in_block; lia|]. f_equal. lia.
Qed.
Lemma transpose_sum (f : nat -> nat -> Qc) y0 y1 x0 x1 :
  region_sum (fun y x => f x y) (block_cells y0 y1 x0 x1) = region_sum f (block_cells x0 x1 y0 y1).
Proof.
  apply (@region_image _ _ (fun '(y, x) => (x, y))); try apply NoDup_block; try reflexivity.
  - intros [a b] [c d] _ _ [= -> ->]. reflexivity.
  - intros [y x] P. apply in_block in P. apply in_block. lia.
  - intros [y x] P. apply in_block in P. exists (x, y). split; [apply in_block; lia|reflexivity].
Qed.
Lemma flip_columns_sum (f : nat -> nat -> Qc) w y0 y1 x0 x1 : x1 <= w ->
  region_sum (fun y x => f y (w - 1 - x)) (block_cells y0 y1 x0 x1) = region_sum f (block_cells y0 y1 (w - x1) (w - x0)).
Proof.
  intros H. rewrite (transpose_sum (fun x y => f y (w - 1 - x)) y0 y1 x0 x1). rewrite (flip_rows_sum (fun x y => f y x)) by exact H. now rewrite transpose_sum.
Qed.
Definition pick A (d : A) (order : list nat) (l : list A) : list A := map (fun i => nth i l d) order.
Section Mirror.
Variables (F h w : nat) (f : nat -> nat -> nat -> Qc).
Ltac open := unfold quantized_region_sums, regions, pick; cbv zeta; rewrite !cut1_third, !cut2_third; pose proof (third_le h); pose proof (third_le w); cbn [map nth].
Lemma columns_ext (g g' : nat -> nat -> Qc) A A' : region_sum g A = region_sum g' A' -> fake_quant 128 32 true (region_sum g A / Qz 32)%Qc = fake_quant 128 32 true (region_sum g' A' / Qz 32)%Qc.
Proof. now intros ->. Qed.
Theorem mirror_rows : quantized_region_sums F h w (fun c y x => f c (h - 1 - y) x) = pick [] [6; 7; 8; 3; 4; 5; 0; 1; 2] (quantized_region_sums F h w f).
Proof.
  open. repeat (apply (f_equal2 cons); [apply map_ext; intros c; apply columns_ext; rewrite flip_rows_sum by lia; apply (f_equal (region_sum (f c))); f_equal; lia|]). reflexivity.
Qed.
Theorem mirror_columns : quantized_region_sums F h w (fun c y x => f c y (w - 1 - x)) = pick [] [2; 1; 0; 5; 4; 3; 8; 7; 6] (quantized_region_sums F h w f).
Proof.
  open. repeat (apply (f_equal2 cons); [apply map_ext; intros c; apply columns_ext; rewrite flip_columns_sum by lia; apply (f_equal (region_sum (f c))); f_equal; lia|]). reflexivity.
Qed.
Theorem mirror_diagonal : quantized_region_sums F w h (fun c y x => f c x y) = pick [] [0; 3; 6; 1; 4; 7; 2; 5; 8] (quantized_region_sums F h w f).
Proof.
  open. repeat (apply (f_equal2 cons); [apply map_ext; intros c; apply columns_ext; rewrite transpose_sum; reflexivity|]). reflexivity.
Qed.
End Mirror.

(** ** Sizes *)
Lemma flat_map_const A B (f : A -> list B) n l : (forall a, List.length (f a) = n) -> List.length (flat_map f l) = List.length l * n.
Proof. intros H. induction l as [|a l IH]; cbn; [reflexivity|]. now rewrite app_length, H, IH. Qed.
Lemma block_length y0 y1 x0 x1 : List.length (block_cells y0 y1 x0 x1) = (y1 - y0) * (x1 - x0).
Proof. unfold block_cells. rewrite (@flat_map_const _ _ _ (x1 - x0)), seq_length; [reflexivity|]. intros. now rewrite map_length, seq_length. Qed.
Theorem regions_sizes h w : exists a b c d, h = 2 * a + b /\ w = 2 * c + d /\ a <= b + 1 /\ b <= a + 1 /\ c <= d + 1 /\ d <= c + 1 /\
  map (@List.length _) (regions h w) = [a * c; a * d; a * c; b * c; b * d; b * c; a * c; a * d; a * c].
Proof.
  exists (third h), (h - third h - third h), (third w), (w - third w - third w). pose proof (third_le h). pose proof (third_le w). pose proof (third_even h). pose proof (third_even w).
  repeat (split; [lia|]). unfold regions. cbv zeta. rewrite !cut1_third, !cut2_third. cbn [map]. rewrite !block_length.
  replace (h - (h - third h)) with (third h) by lia. replace (w - (w - third w)) with (third w) by lia. rewrite !Nat.sub_0_r. reflexivity.
Qed.

(** ** The depthwise convolution in 16 bits *)
Local Open Scope Z_scope.
Lemma absq_half w : (absq (np_clip (Qz (-32768) / Qz 65536) (Qz 32767 / Qz 65536) w) <= frac 2 1)%Qc.
Proof.
  unfold np_clip. set (lo := (Qz (-32768) / Qz 65536)%Qc). set (hi := (Qz 32767 / Qz 65536)%Qc).
  assert (L : (- lo)%Qc = frac 2 1) by (apply Qc_is_canon; vm_compute; reflexivity).
  assert (H : (hi <= frac 2 1)%Qc) by (vm_compute; discriminate).
  assert (LH : (lo <= hi)%Qc) by (vm_compute; discriminate).
  assert (B : (lo <= clamp lo hi w)%Qc /\ (clamp lo hi w <= hi)%Qc).
  { destruct (clamp_cases w LH) as [[_ E]|[(A & B & E)|[_ E]]]; rewrite E; split; try assumption; apply Qcle_refl. }
  destruct B as [B1 B2]. unfold absq. destruct (Qclt_le_dec _ _).
  - rewrite <- L. now apply Qcopp_le_compat.
  - now apply (Qcle_trans _ hi).
Qed.
Lemma abs_sum_le row : (sumq (map absq (map (np_clip (Qz (-32768) / Qz 65536) (Qz 32767 / Qz 65536)) row)) <= frac 2 (Z.of_nat (List.length row)))%Qc.
Proof.
  induction row as [|a row IH]; [cbn; rewrite frac_0 by lia; apply Qcle_refl|].
  cbn [map sumq fold_right]. change (fold_right Qcplus 0%Qc ?l) with (sumq l). replace (Z.of_nat (List.length (a :: row))) with (1 + Z.of_nat (List.length row)) by (cbn [List.length]; lia).
  rewrite <- frac_add by lia. apply Qcplus_le_compat; [apply absq_half|exact IH].
Qed.
Theorem export_accepts m : Forall (fun r => List.length r = 9%nat) (dw_weight m) -> exists r, export_dwconv m = Ok r.
Proof.
  intros L. unfold export_dwconv. cbv zeta. match goal with |- context [forallb ?p ?l] => assert (E : forallb p l = true) end; [|rewrite E; eexists; reflexivity].
  apply forallb_forall. intros row R. apply in_map_iff in R. destruct R as (r & <- & R). rewrite Forall_forall in L. specialize (L r R).
  pose proof (@abs_sum_le r) as S. rewrite L in S. destruct (Qclt_le_dec _ _) as [C|C]; [reflexivity|exfalso]. revert C. apply Qclt_not_le.
  set (s := sumq _) in *. change (Z.of_nat 9) with 9 in S.
  replace (s / Qz 2 * Qz 16 * Qz 4 * Qz 128)%Qc with (s * Qz 4096)%Qc.
  2:{ replace (Qz 16 * Qz 4 * Qz 128)%Qc with (Qz 8192) by (rewrite !Qz_mul; reflexivity) || idtac.
      replace (s / Qz 2 * Qz 16 * Qz 4 * Qz 128)%Qc with (s * (Qz 16 * Qz 4 * Qz 128 / Qz 2))%Qc by (field; apply Qz_nz; lia). f_equal.
      apply Qc_is_canon. vm_compute. reflexivity. }
  apply (Qcle_lt_trans _ (frac 2 9 * Qz 4096)%Qc); [|vm_compute; reflexivity]. now apply (proj1 (@scale_le 4096 _ _ ltac:(lia))).
Qed.

Lemma tap_bound e h w d c y x k : 65536 * Z.abs (e_tap e h w (tables d) c y x k) <= 8176 * Z.abs (nth c (nth k (f_dw e) []) 0) + 65535.
Proof.
  unfold e_tap. change (e_padded h w (e_reduced (tables d) c) (Z.of_nat y + Z.of_nat (k / 3) - 1) (Z.of_nat x + Z.of_nat (k mod 3) - 1)) with (pad h w (e_reduced (tables d) c) y x k).
  pose proof (@pad_range h w (e_reduced (tables d) c) y x k (fun y x => e_reduced_range d c y x)) as P. set (p := pad _ _ _ _ _ _) in *. set (v := nth c _ 0).
  pose proof (Z.div_mod (4 * p * v) 65536 ltac:(lia)) as E. pose proof (Z.mod_pos_bound (4 * p * v) 65536 ltac:(lia)). set (q := 4 * p * v / 65536) in *.
  assert (A : Z.abs (4 * p * v) <= 8176 * Z.abs v) by (rewrite Z.abs_mul; nia). lia.
Qed.
Lemma taps_bound e h w d c y x n : 65536 * Z.abs (zsum (map (e_tap e h w (tables d) c y x) (seq 0 n))) <=
  8176 * zsum (map (fun k => Z.abs (nth c (nth k (f_dw e) []) 0)) (seq 0 n)) + Z.of_nat n * 65535.
Proof.
  induction n as [|n IH]; [cbn; lia|]. rewrite seq_S, !map_app, !zsum_app. cbn [map Nat.add]. rewrite !BaseFacts.zsum_cons. pose proof (@tap_bound e h w d c y x n). unfold zsum at 2 4. cbn [fold_right]. lia.
Qed.
Lemma abs_prefix (f : nat -> Z) n : (n <= 9)%nat -> zsum (map (fun k => Z.abs (f k)) (seq 0 n)) <= zsum (map (fun k => Z.abs (f k)) (seq 0 9)).
Proof.
  intros H. replace 9%nat with (n + (9 - n))%nat at 1 by lia. rewrite seq_app, map_app, zsum_app.
  pose proof (@zsum_nonneg (map (fun k => Z.abs (f k)) (seq (0 + n) (9 - n)))) as P.
  assert (Q : 0 <= zsum (map (fun k => Z.abs (f k)) (seq (0 + n) (9 - n)))); [|lia]. apply P. apply Forall_forall. intros z Hz. apply in_map_iff in Hz. destruct Hz as (k & <- & _). lia.
Qed.
Theorem fits16 e h w d c y x n : (n <= 9)%nat ->
  8176 * zsum (map (fun k => Z.abs (nth c (nth k (f_dw e) []) 0)) (seq 0 9)) <= 65536 * (32758 - Z.abs (nth c (f_dw_bias e) 0)) ->
  -32768 <= nth c (f_dw_bias e) 0 + zsum (map (e_tap e h w (tables d) c y x) (seq 0 n)) <= 32767.
Proof.
  intros N H. pose proof (@taps_bound e h w d c y x n) as T. pose proof (@abs_prefix (fun k => nth c (nth k (f_dw e) []) 0) n N) as A. cbv beta in A. lia.
Qed.

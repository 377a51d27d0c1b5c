(** Proofs about the quantised heads: values on the grid of a scale are integers. *)
From Coq Require Import QArith Qcanon Qround.
From Verif Require Import Base BaseFacts Rng FeatureTable FlatNet FlatNetFacts QuantHead QuantHeadSpec.
Set Implicit Arguments. Unset Strict Implicit.
Local Open Scope Z_scope.

Definition frac (s z : Z) : Qc := (Qz z / Qz s)%Qc.

(** ** Single numbers *)
Lemma frac_0 s : 0 < s -> frac s 0 = 0%Qc. Proof. intros. unfold frac. rewrite Qz_0. field. now apply Qz_nz. Qed.
Lemma frac_add s a b : 0 < s -> (frac s a + frac s b)%Qc = frac s (a + b).
Proof. intros. unfold frac. rewrite <- Qz_add. field. now apply Qz_nz. Qed.
Lemma frac_mul s t a b : 0 < s -> 0 < t -> (frac s a * frac t b)%Qc = frac (s * t) (a * b).
Proof. intros. unfold frac. rewrite <- !Qz_mul. field. split; now apply Qz_nz. Qed.
Lemma frac_over s t a : 0 < s -> 0 < t -> (frac s a / Qz t)%Qc = frac (s * t) a.
Proof. intros. unfold frac. rewrite <- Qz_mul. field. split; now apply Qz_nz. Qed.
Lemma frac_times s t a : 0 < s -> (frac s a * Qz t)%Qc = frac s (a * t).
Proof. intros. unfold frac. rewrite <- Qz_mul. field. now apply Qz_nz. Qed.
Lemma frac_up s t a : 0 < s -> 0 < t -> (frac (s * t) a * Qz s)%Qc = frac t a.
Proof. intros. unfold frac. rewrite <- Qz_mul. field. split; now apply Qz_nz. Qed.
Lemma fq_frac s bits f z : 0 < s -> 1 <= bits -> fake_quant s bits f (frac s z) = frac s (clip (- 2 ^ (bits - 1)) (2 ^ (bits - 1) - 1) z).
Proof. intros. rewrite fake_quant_eq by assumption. unfold frac. now rewrite over_mul, rnd_Qz by assumption. Qed.
Lemma fq_down s t bits z : 0 < s -> 0 < t -> 1 <= bits -> fake_quant s bits true (frac (s * t) z) = frac s (clip (- 2 ^ (bits - 1)) (2 ^ (bits - 1) - 1) (z / t)).
Proof. intros. rewrite fake_quant_eq by assumption. rewrite frac_up by assumption. cbn [rnd]. unfold frac. now rewrite floor_over by assumption. Qed.
Lemma fq8 z : fake_quant 128 8 true (frac 16384 z) = frac 128 (sat8 (z / 128)).
Proof. change 16384 with (128 * 128). now rewrite fq_down by lia. Qed.
Lemma fq8_same z : fake_quant 128 8 true (frac 128 z) = frac 128 (sat8 z).
Proof. now rewrite fq_frac by lia. Qed.
Lemma frac_neg s a : 0 < s -> (frac s a < 0)%Qc <-> a < 0.
Proof.
  intros S. rewrite <- (@frac_0 s S). unfold frac. split.
  - intros H. apply (Qcmult_lt_compat_r _ _ (Qz s)) in H; [|now apply Qz_pos]. rewrite !over_mul in H by exact S. now apply Qz_lt.
  - intros H. destruct (Qclt_le_dec (Qz a / Qz s) (Qz 0 / Qz s))%Qc as [L|L]; [exact L|]. apply (proj1 (@scale_le s _ _ S)) in L. rewrite !over_mul in L by exact S. apply (proj1 (Qz_le _ _)) in L. lia.
Qed.
Lemma relu_frac s a : 0 < s -> relu (frac s a) = frac s (Z.max 0 a).
Proof.
  intros S. unfold relu. destruct (Qclt_le_dec (frac s a) 0%Qc) as [L|L].
  - apply (proj1 (@frac_neg s a S)) in L. rewrite Z.max_l by lia. symmetry. now apply frac_0.
  - rewrite Z.max_r; [reflexivity|]. destruct (Z_lt_le_dec a 0) as [C|C]; [|exact C]. apply (proj2 (@frac_neg s a S)) in C. exfalso. now apply (Qclt_not_le _ _ C).
Qed.
Lemma sumq_frac s l : 0 < s -> sumq (map (frac s) l) = frac s (zsum l).
Proof. intros S. induction l as [|a l IH]; cbn; [symmetry; now apply frac_0|]. change (fold_right Qcplus 0%Qc (map (frac s) l)) with (sumq (map (frac s) l)). rewrite IH. now apply frac_add. Qed.

(** ** Layers *)
Lemma sat8_idem z : sat8 (sat8 z) = sat8 z. Proof. unfold sat8, clip. lia. Qed.
Lemma in_ints_128 xs : in_ints (map (frac 128) xs) = map sat8 xs.
Proof. unfold in_ints. rewrite map_map. apply map_ext. intros a. unfold frac. rewrite over_mul by lia. now rewrite floor_Qz. Qed.
Lemma in_ints_16384 xs : in_ints (map (frac 16384) xs) = e_shift8 xs.
Proof.
  unfold in_ints, e_shift8. rewrite map_map. apply map_ext. intros a. change 16384 with (128 * 128). rewrite frac_up by lia. unfold frac. now rewrite floor_over by lia.
Qed.
Lemma linear_ints l x : weight_scale l = 128 -> linear_block l x = map (frac 16384) (e_linear (export_linear l) (in_ints x)).
Proof.
  intros S. rewrite linear_block_ints by lia. unfold exported, export_linear. rewrite S. reflexivity.
Qed.
Lemma linear_relu_ints l x : weight_scale l = 128 -> linear_relu l x = map (frac 16384) (e_relu (e_linear (export_linear l) (in_ints x))).
Proof.
  intros S. unfold linear_relu, e_relu. rewrite linear_ints by exact S. rewrite !map_map. apply map_ext. intros a. now apply relu_frac.
Qed.
Lemma fq8_map xs : map (fake_quant 128 8 true) (map (frac 16384) xs) = map (frac 128) (e_shift8 xs).
Proof. unfold e_shift8. rewrite !map_map. apply map_ext. intros. apply fq8. Qed.
Lemma mul_pairs us : forall vs, pair_sums (map2 Qcmult (map (frac 128) us) (map (frac 128) vs)) = map (frac 16384) (e_pairs (map2 Z.mul us vs)).
Proof.
  intros vs. rewrite map2_map. assert (E : map2 (fun a b => (frac 128 a * frac 128 b)%Qc) us vs = map (frac 16384) (map2 Z.mul us vs)).
  { rewrite map_map2. apply map2_ext. intros a b. change 16384 with (128 * 128). apply frac_mul; lia. }
  rewrite E. generalize (map2 Z.mul us vs). intros l. clear us vs E.
  assert (G : forall n l, (List.length l <= n)%nat -> pair_sums (map (frac 16384) l) = map (frac 16384) (e_pairs l)).
  { clear l. induction n as [|n IH]; intros [|a [|b l]] L; cbn in *; try reflexivity; try lia. rewrite frac_add by lia. f_equal. apply IH. lia. }
  now apply (G (List.length l)).
Qed.
(** A block before the last shift *)
Definition raw_block (b : block_ints) (xs : list Z) : list Z :=
  match b with
  | PlainInts l => e_relu (e_linear l xs)
  | StarInts up1 up2 down =>
      e_relu (e_linear down (e_shift8 (e_pairs (map2 Z.mul (e_shift8 (e_relu (e_linear up1 xs))) (e_shift8 (e_linear up2 xs))))))
  end.
Lemma e_block_raw b xs : e_block b xs = e_shift8 (raw_block b xs). Proof. now destruct b. Qed.
Definition scale_ok (b : block) : Prop := match b with Plain l => weight_scale l = 128 | Star u v d => weight_scale u = 128 /\ weight_scale v = 128 /\ weight_scale d = 128 end.
Lemma map_sat8_shift8 xs : map sat8 (e_shift8 xs) = e_shift8 xs.
Proof. unfold e_shift8. rewrite map_map. apply map_ext. intros. apply sat8_idem. Qed.
Lemma block_ints_eq b x : scale_ok b -> block_forward b x = map (frac 16384) (raw_block (export_block b) (in_ints x)).
Proof.
  destruct b as [u v d|l]; cbn [scale_ok block_forward export_block raw_block].
  - intros (U & V & D). rewrite (linear_relu_ints _ U), (linear_ints _ V), !fq8_map. rewrite mul_pairs, fq8_map, (linear_relu_ints _ D).
    now rewrite in_ints_128, map_sat8_shift8.
  - intros S. now apply linear_relu_ints.
Qed.

(** ** Averages *)
Lemma avg_ints a b : fake_quant 128 8 true ((frac 128 (sat8 a) + frac 128 (sat8 b) + 1 / Qz 128) / Qz 2)%Qc = frac 128 (e_avg (sat8 a) (sat8 b)).
Proof.
  replace (1 / Qz 128)%Qc with (frac 128 1) by (unfold frac; now rewrite Qz_1). rewrite !frac_add, frac_over, fq_down by lia. f_equal. unfold e_avg. apply clip_id.
  unfold sat8, clip. change (8 - 1) with 7. change (2 ^ 7) with 128. pose proof (Z.div_mod (Z.min (Z.max a (-128)) 127 + Z.min (Z.max b (-128)) 127 + 1) 2 ltac:(lia)).
  pose proof (Z.mod_pos_bound (Z.min (Z.max a (-128)) 127 + Z.min (Z.max b (-128)) 127 + 1) 2 ltac:(lia)). lia.
Qed.
Lemma e_avg_sat a b : e_avg (sat8 a) (sat8 b) = sat8 (e_avg (sat8 a) (sat8 b)).
Proof.
  symmetry. unfold sat8 at 1. apply clip_id. unfold e_avg, sat8, clip. pose proof (Z.div_mod (Z.min (Z.max a (-128)) 127 + Z.min (Z.max b (-128)) 127 + 1) 2 ltac:(lia)).
  pose proof (Z.mod_pos_bound (Z.min (Z.max a (-128)) 127 + Z.min (Z.max b (-128)) 127 + 1) 2 ltac:(lia)). lia.
Qed.
Lemma quantized_avg4_ints a b c d :
  quantized_avg4 (frac 16384 a) (frac 16384 b) (frac 16384 c) (frac 16384 d) =
  frac 128 (e_avg (e_avg (sat8 (a / 128)) (sat8 (b / 128))) (e_avg (sat8 (c / 128)) (sat8 (d / 128)))).
Proof. unfold quantized_avg4. cbv zeta. rewrite !fq8, !avg_ints. rewrite (e_avg_sat (a / 128)), (e_avg_sat (c / 128)). apply avg_ints. Qed.
Lemma avg4_ints a b c d :
  avg4 (map (frac 16384) a) (map (frac 16384) b) (map (frac 16384) c) (map (frac 16384) d) = map (frac 128) (e_avg4 (e_shift8 a) (e_shift8 b) (e_shift8 c) (e_shift8 d)).
Proof.
  unfold avg4, e_avg4, e_shift8. revert b c d. induction a as [|a1 a IH]; intros [|b1 b] [|c1 c] [|d1 d]; cbn; try reflexivity.
  rewrite quantized_avg4_ints. f_equal. apply IH.
Qed.
Lemma e_avg4_sat a b c d : map sat8 (e_avg4 (e_shift8 a) (e_shift8 b) (e_shift8 c) (e_shift8 d)) = e_avg4 (e_shift8 a) (e_shift8 b) (e_shift8 c) (e_shift8 d).
Proof.
  unfold e_avg4, e_shift8. revert b c d. induction a as [|a1 a IH]; intros [|b1 b] [|c1 c] [|d1 d]; cbn; try reflexivity. f_equal; [|apply IH].
  rewrite (e_avg_sat (a1 / 128)), (e_avg_sat (c1 / 128)). symmetry. apply e_avg_sat.
Qed.
Lemma quad_ints q a b c d : scale_ok q ->
  block_forward q (avg4 (map (frac 16384) a) (map (frac 16384) b) (map (frac 16384) c) (map (frac 16384) d)) =
  map (frac 16384) (raw_block (export_block q) (e_avg4 (e_shift8 a) (e_shift8 b) (e_shift8 c) (e_shift8 d))).
Proof. intros S. rewrite avg4_ints, block_ints_eq by exact S. now rewrite in_ints_128, e_avg4_sat. Qed.

(** ** Regions *)
Lemma cut1_third n : cut1 n = third n.
Proof.
  unfold cut1, third. pose proof (Nat.div_mod n 3 ltac:(lia)). pose proof (Nat.mod_upper_bound n 3 ltac:(lia)).
  destruct (Nat.eqb_spec (n mod 3) 2).
  - apply (Nat.div_unique (n + 1) 3 (n / 3 + 1) 0); lia.
  - rewrite Nat.add_0_r. apply (Nat.div_unique (n + 1) 3 (n / 3) (n mod 3 + 1)); lia.
Qed.
Lemma cut2_third n : cut2 n = (n - third n)%nat.
Proof.
  rewrite <- cut1_third. unfold cut1, cut2. pose proof (Nat.div_mod n 3 ltac:(lia)). pose proof (Nat.mod_upper_bound n 3 ltac:(lia)).
  destruct (Nat.eqb_spec (n mod 3) 2); destruct (Nat.ltb_spec 0 (n mod 3)); lia.
Qed.
Lemma region_ints f g y0 y1 x0 x1 : (forall y x, f y x = frac 128 (g y x)) -> region_sum f (block_cells y0 y1 x0 x1) = frac 128 (over_block g y0 y1 x0 x1).
Proof.
  intros E. unfold region_sum, block_cells, over_block. rewrite <- sumq_frac by lia. induction (seq y0 (y1 - y0)) as [|y l IH]; [reflexivity|].
  cbn [flat_map map]. rewrite map_app, map_map. cbn [sumq fold_right]. change (fold_right Qcplus 0%Qc (map (frac 128) ?l)) with (sumq (map (frac 128) l)). rewrite <- IH.
  rewrite <- sumq_frac, map_map by lia. rewrite (map_ext _ _ (E y)). generalize (map (fun x => frac 128 (g y x)) (seq x0 (x1 - x0))). intros u. clear IH.
  induction u as [|a u IH]; cbn; [symmetry; apply Qcplus_0_l|]. change (fold_right Qcplus 0%Qc ?l) with (sumq l). rewrite IH. unfold sumq. ring.
Qed.
Lemma sat8_clip32 z : sat8 (clip (- 2 ^ 31) (2 ^ 31 - 1) z) = sat8 z.
Proof. change (2 ^ 31) with 2147483648. unfold sat8, clip. lia. Qed.
Lemma group_ints F f g y0 y1 x0 x1 t : 0 < t -> (forall c y x, f c y x = frac 128 (g c y x)) ->
  in_ints (map (fun c => fake_quant 128 32 true (region_sum (f c) (block_cells y0 y1 x0 x1) / Qz t)%Qc) (seq 0 F)) =
  map (fun c => sat8 (over_block (g c) y0 y1 x0 x1 / t)) (seq 0 F).
Proof.
  intros T E. rewrite <- (map_map (fun c => clip (- 2 ^ 31) (2 ^ 31 - 1) (over_block (g c) y0 y1 x0 x1 / t)) sat8) || idtac.
  rewrite (map_ext _ (fun c => frac 128 (clip (- 2 ^ 31) (2 ^ 31 - 1) (over_block (g c) y0 y1 x0 x1 / t)))).
  - rewrite <- (map_map (fun c => clip (- 2 ^ 31) (2 ^ 31 - 1) (over_block (g c) y0 y1 x0 x1 / t)) (frac 128)), in_ints_128, map_map. apply map_ext. intros. apply sat8_clip32.
  - intros c. rewrite (region_ints _ _ _ _ (E c)), frac_over, fq_down by lia. reflexivity.
Qed.
Lemma in_ints_app x y : in_ints (x ++ y) = in_ints x ++ in_ints y. Proof. unfold in_ints. apply map_app. Qed.

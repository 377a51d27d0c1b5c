(** C78: the features, the value and the policy of an exported Mix9 network are the inference program's integers. *)
From Coq Require Import QArith Qcanon Qround.
From Verif Require Import Base BaseFacts Rng FeatureTable FlatNet FlatNetFacts QuantHead QuantHeadSpec QuantHeadFacts.
Set Implicit Arguments. Unset Strict Implicit.
Local Open Scope Z_scope.

Lemma Ok_inj A (a b : A) : Ok a = Ok b -> a = b. Proof. congruence. Qed.
(** ** Features before the depthwise convolution *)
Definition tables (d : nat -> nat -> nat -> nat -> Qc) (i c y x : nat) : Z := export_map (d i c y x).
Lemma low_eq : Qz (-16) = (Qz (-512) / Qz 32)%Qc.
Proof. rewrite <- (@mul_over 32 (Qz (-16))) by lia. now rewrite Qz_mul. Qed.
Lemma export_map_range v : -512 <= export_map v <= 511.
Proof.
  unfold export_map, feature_top. rewrite low_eq. pose proof (@rnd_clamp false 32 (-512) 511 v ltac:(lia) ltac:(lia)) as E. cbn [rnd] in E. rewrite E. apply clip_in. lia.
Qed.
Lemma fq_map v : fake_quant 32 16 false (clamp (Qz (-16)) feature_top v) = frac 32 (export_map v).
Proof.
  rewrite fake_quant_eq by lia. change (Qz (clip (- 2 ^ (16 - 1)) (2 ^ (16 - 1) - 1) (export_map v)) / Qz 32 = frac 32 (export_map v))%Qc.
  rewrite clip_id; [reflexivity|]. change (2 ^ (16 - 1)) with 32768. pose proof (export_map_range v). lia.
Qed.
Lemma reduced_ints d c y x : reduced d c y x = frac 128 (e_reduced (tables d) c y x).
Proof.
  unfold reduced, e_reduced, tables. cbn [seq map]. rewrite !fq_map. set (a := export_map _). set (b := export_map _). set (e := export_map _). set (f := export_map _).
  change [frac 32 a; frac 32 b; frac 32 e; frac 32 f] with (map (frac 32) [a; b; e; f]). rewrite sumq_frac, frac_over, relu_frac by lia. change (32 * 4) with 128.
  f_equal. unfold zsum. cbn [fold_right]. lia.
Qed.
Lemma e_reduced_range d c y x : 0 <= e_reduced (tables d) c y x <= 2044.
Proof.
  unfold e_reduced, tables. pose proof (export_map_range (d 0%nat c y x)). pose proof (export_map_range (d 1%nat c y x)). pose proof (export_map_range (d 2%nat c y x)).
  pose proof (export_map_range (d 3%nat c y x)). lia.
Qed.

(** ** The depthwise convolution *)
Lemma fq16 z : -32768 <= z <= 32767 -> fake_quant 128 16 false (frac 128 z) = frac 128 z.
Proof. intros H. rewrite fq_frac by lia. rewrite clip_id; [reflexivity|]. change (2 ^ (16 - 1)) with 32768. lia. Qed.
Definition pad (h w : nat) (f : nat -> nat -> Z) (y x k : nat) : Z := e_padded h w f (Z.of_nat y + Z.of_nat (k / 3) - 1) (Z.of_nat x + Z.of_nat (k mod 3) - 1).
Lemma window_ints h w f g y x k : (forall y x, f y x = frac 128 (4 * g y x)) -> window 0%Qc h w f y x k = frac 128 (4 * pad h w g y x k).
Proof.
  intros E. unfold window, pad, e_padded. generalize (k / 3)%nat (k mod 3)%nat. intros a b. cbv zeta.
  destruct (Nat.leb_spec 1 (y + a)), (Nat.leb_spec (y + a) h), (Nat.leb_spec 1 (x + b)), (Nat.leb_spec (x + b) w); cbn [andb];
    destruct (Z.leb_spec 0 (Z.of_nat y + Z.of_nat a - 1)), (Z.ltb_spec (Z.of_nat y + Z.of_nat a - 1) (Z.of_nat h)),
             (Z.leb_spec 0 (Z.of_nat x + Z.of_nat b - 1)), (Z.ltb_spec (Z.of_nat x + Z.of_nat b - 1) (Z.of_nat w)); cbn [andb]; try lia;
    try (rewrite Z.mul_0_r; symmetry; now apply frac_0).
  rewrite E. do 3 f_equal; lia.
Qed.
Lemma pad_range h w f y x k : (forall y x, 0 <= f y x <= 2044) -> 0 <= pad h w f y x k <= 2044.
Proof. intros H. unfold pad, e_padded. destruct (_ && _); [apply H|lia]. Qed.
Definition dw_int (w : Qc) : Z := clip (-32768) 32767 (round_q (w * Qz 65536)%Qc).
Lemma fq_weight w : fake_quant 65536 16 false w = frac 65536 (dw_int w).
Proof. rewrite fake_quant_eq by lia. reflexivity. Qed.
Lemma dw_export w : clip (-32768) 32767 (round_q (np_clip (Qz (-32768) / Qz 65536)%Qc (Qz 32767 / Qz 65536)%Qc w * Qz 65536)%Qc) = dw_int w.
Proof.
  unfold np_clip. pose proof (@rnd_clamp false 65536 (-32768) 32767 w ltac:(lia) ltac:(lia)) as E. cbn [rnd] in E. rewrite E. apply clip_clip; lia.
Qed.
Lemma dw_int_range w : -32768 <= dw_int w <= 32767. Proof. apply clip_in. lia. Qed.
Lemma tap_value a w : 0 <= a <= 2044 -> -32768 <= w <= 32767 -> fake_quant 128 16 true (frac 128 (4 * a) * frac 65536 w)%Qc = frac 128 (4 * a * w / 65536).
Proof.
  intros A W. rewrite frac_mul, fq_down by lia. rewrite clip_id; [reflexivity|]. change (2 ^ (16 - 1)) with 32768.
  assert (-32768 * 65536 <= 4 * a * w < 32768 * 65536) by nia. pose proof (Z.div_le_lower_bound (4 * a * w) 65536 (-32768)). pose proof (Z.div_lt_upper_bound (4 * a * w) 65536 32768). lia.
Qed.

Lemma export_dwconv_ok m r : export_dwconv m = Ok r ->
  r = (map (fun k => map (fun row => nth k row 0) (map (map dw_int) (dw_weight m))) (seq 0 9),
       map (fun b => clip (-32768) 32767 (round_q (np_clip (Qz (-64)) (Qz 64) b * Qz 128)%Qc)) (dw_bias m)).
Proof.
  unfold export_dwconv. cbv zeta. destruct (forallb _ _); [|discriminate]. intros E. apply Ok_inj in E. subst r. f_equal; [|now rewrite map_map].
  apply map_ext. intros k. f_equal. rewrite map_map. apply map_ext. intros row. rewrite map_map. apply map_ext. intros a. apply dw_export.
Qed.
Lemma dw_nth m c k : (c < List.length (dw_weight m))%nat -> (k < 9)%nat ->
  nth c (nth k (map (fun k => map (fun row => nth k row 0) (map (map dw_int) (dw_weight m))) (seq 0 9)) []) 0 = dw_int (nth k (nth c (dw_weight m) []) 0%Qc).
Proof.
  intros C K. set (F := fun k => map (fun row => nth k row 0) (map (map dw_int) (dw_weight m))).
  rewrite (nth_indep _ [] (F 0%nat)) by (rewrite map_length, seq_length; exact K). rewrite map_nth, seq_nth by exact K. unfold F. cbn [Nat.add].
  rewrite map_map. rewrite (nth_indep _ 0 (nth k (map dw_int []) 0)) by (rewrite map_length; exact C).
  rewrite (map_nth (fun row => nth k (map dw_int row) 0)). assert (Z0 : dw_int 0%Qc = 0).
  { unfold dw_int. replace (0 * Qz 65536)%Qc with (Qz 0) by (rewrite Qz_0; ring). rewrite round_Qz. reflexivity. }
  rewrite <- Z0 at 1. apply map_nth.
Qed.
Lemma zero_dw : dw_int 0%Qc = 0.
Proof. unfold dw_int. replace (0 * Qz 65536)%Qc with (Qz 0) by (rewrite Qz_0; ring). rewrite round_Qz. reflexivity. Qed.

Section WithFile.
Variables (m : mix9) (e : mix9_file) (h w : nat) (d : nat -> nat -> nat -> nat -> Qc).
Hypothesis exported : serialize m = Ok e.
Hypothesis kept : bias_kept m.
Hypothesis biases : List.length (dw_bias m) = List.length (dw_weight m).
Notation D := (List.length (dw_weight m)).
Notation t := (tables d).

Lemma dwconv_split : exists r, export_dwconv m = Ok r /\ f_dw e = fst r /\ f_dw_bias e = snd r /\
  f_groups e = (match groups m with None => None | Some g => Some (export_block (corner g), export_block (edge g), export_block (center g), export_block (quad g)) end) /\
  f_value1 e = export_linear (value1 m) /\ f_value2 e = export_linear (value2 m) /\ f_value3 e = export_linear (value3 m) /\ f_policy e = export_policy (policy m) /\
  f_out_weight e = map (fun x => x / Qz (128 * 128 * 128))%Qc (out_weight m) /\ f_out_bias e = out_bias m.
Proof. pose proof exported as E. unfold serialize in E. destruct (export_dwconv m) as [[a b]|]; [|discriminate]. exists (a, b). apply Ok_inj in E. subst e. cbn. repeat split. Qed.

Lemma dwconv_ints c y x : (c < D)%nat -> feature_dwconv m h w (reduced d) c y x = frac 128 (Z.max 0 (Z.min 32767 (e_dwconv e h w t c y x))).
Proof.
  intros C. destruct dwconv_split as (r & Er & W & B & _). pose proof (export_dwconv_ok Er) as R. rewrite R in W, B. cbn [fst snd] in W, B.
  unfold feature_dwconv. cbv zeta.
  assert (IN : forall y x, fake_quant 128 16 false (reduced d c y x * Qz 4)%Qc = frac 128 (4 * e_reduced t c y x)).
  { intros y1 x1. rewrite reduced_ints, frac_times by lia. rewrite (Z.mul_comm _ 4). apply fq16. pose proof (e_reduced_range d c y1 x1). lia. }
  assert (P : map (fun k => fake_quant 128 16 true (window 0%Qc h w (fun y x => fake_quant 128 16 false (reduced d c y x * Qz 4)%Qc) y x k * fake_quant 65536 16 false (nth k (nth c (dw_weight m) []) 0%Qc))%Qc) (seq 0 9)
              = map (frac 128) (map (e_tap e h w t c y x) (seq 0 9))).
  { rewrite map_map. apply map_ext_in. intros k K. apply in_seq in K. rewrite (@window_ints h w _ (e_reduced t c) y x k IN), fq_weight, tap_value;
      [|apply pad_range; intros; apply e_reduced_range|apply dw_int_range]. unfold e_tap. rewrite W, dw_nth by (assumption || lia). reflexivity. }
  rewrite P, sumq_frac by lia.
  assert (Bb : fake_quant 128 16 false (nth c (dw_bias m) 0%Qc) = frac 128 (nth c (f_dw_bias e) 0)).
  { rewrite B. set (G := fun b => clip (-32768) 32767 (round_q (np_clip (Qz (-64)) (Qz 64) b * Qz 128)%Qc)).
    assert (L : (c < List.length (dw_bias m))%nat) by (rewrite biases; exact C).
    rewrite (nth_indep _ 0 (G 0%Qc)) by (now rewrite map_length). rewrite map_nth. rewrite fake_quant_eq by lia. unfold G, frac. f_equal. f_equal.
    change (- 2 ^ (16 - 1)) with (-32768). change (2 ^ (16 - 1) - 1) with 32767. cbn [rnd]. f_equal. f_equal. f_equal.
    destruct (proj1 (Forall_nth _ (dw_bias m)) kept c 0%Qc L) as [Lo Hi]. symmetry. unfold np_clip, clamp.
    destruct (Qclt_le_dec (nth c (dw_bias m) 0%Qc) (Qz (-64))) as [X|X]; [exfalso; now apply (Qclt_not_le _ _ X)|].
    destruct (Qclt_le_dec (Qz 64) (nth c (dw_bias m) 0%Qc)) as [X2|X2]; [exfalso; now apply (Qclt_not_le _ _ X2)|reflexivity]. }
  rewrite Bb, frac_add, relu_frac, fq_frac by lia. f_equal. change (- 2 ^ (16 - 1)) with (-32768). change (2 ^ (16 - 1) - 1) with 32767. unfold e_dwconv, clip. lia.
Qed.
Lemma e_feature_range c y x : 0 <= e_feature D e h w t c y x <= 32767.
Proof. unfold e_feature. destruct (_ <? _)%nat; [lia|]. pose proof (e_reduced_range d c y x). lia. Qed.
Lemma feature_ints c y x : get_feature m h w d c y x = frac 128 (e_feature D e h w t c y x).
Proof.
  unfold get_feature, e_feature. cbv zeta. destruct (Nat.ltb_spec c D) as [C|C]; [now apply dwconv_ints|]. rewrite reduced_ints. apply fq16. pose proof (e_reduced_range d c y x). lia.
Qed.
Lemma whole_ints : in_ints (feature_sum m h w (get_feature m h w d)) = map sat8 (e_whole e D (dim_feature m) h w t).
Proof.
  unfold feature_sum, e_whole. rewrite (@group_ints (dim_feature m) _ (e_feature D e h w t)); [|lia|apply feature_ints]. rewrite map_map. reflexivity.
Qed.
Lemma mlp_ints x : weight_scale (value1 m) = 128 -> weight_scale (value2 m) = 128 -> weight_scale (value3 m) = 128 -> value_mlp m x = map (frac 16384) (e_mlp e (in_ints x)).
Proof.
  destruct dwconv_split as (r & _ & _ & _ & _ & V1 & V2 & V3 & _). intros S1 S2 S3. unfold value_mlp, e_mlp.
  rewrite (linear_relu_ints _ S1), (linear_relu_ints _ S2), (linear_ints _ S3), !in_ints_16384, V1, V2, V3. reflexivity.
Qed.
Lemma region_nth (i j : nat) : (i < 3)%nat -> (j < 3)%nat ->
  in_ints (nth (3 * i + j) (quantized_region_sums (dim_feature m) h w (get_feature m h w d)) []) = e_group e D (dim_feature m) h w t i j.
Proof.
  intros I J. unfold quantized_region_sums, regions. cbv zeta. rewrite !cut1_third, !cut2_third.
  destruct i as [|[|[|i]]]; [| | |lia]; (destruct j as [|[|[|j]]]; [| | |lia]); cbn [Nat.mul Nat.add nth map]; unfold e_group, bounds; cbn [nth];
    rewrite (@group_ints (dim_feature m) _ (e_feature D e h w t)); first [lia|apply feature_ints|reflexivity].
Qed.
Theorem value_ints :
  weight_scale (value1 m) = 128 -> weight_scale (value2 m) = 128 -> weight_scale (value3 m) = 128 ->
  match groups m with None => True | Some g => scale_ok (corner g) /\ scale_ok (edge g) /\ scale_ok (center g) /\ scale_ok (quad g) end ->
  value m h w d = map (frac 16384) (e_value e D (dim_feature m) h w t).
Proof.
  intros S1 S2 S3 G. unfold value, e_value. cbv zeta. destruct dwconv_split as (r & _ & _ & _ & FG & _). rewrite FG. destruct (groups m) as [g|]; cbn iota in *.
  2:{ rewrite mlp_ints by assumption. now rewrite whole_ints. }
  destruct G as (Gc & Ge & Gm & Gq). unfold grouped_value. cbv zeta. rewrite mlp_ints by assumption. rewrite !in_ints_app, whole_ints.
  pose proof (region_nth (i := 0) (j := 0) ltac:(lia) ltac:(lia)) as R00. pose proof (region_nth (i := 0) (j := 1) ltac:(lia) ltac:(lia)) as R01.
  pose proof (region_nth (i := 0) (j := 2) ltac:(lia) ltac:(lia)) as R02. pose proof (region_nth (i := 1) (j := 0) ltac:(lia) ltac:(lia)) as R10.
  pose proof (region_nth (i := 1) (j := 1) ltac:(lia) ltac:(lia)) as R11. pose proof (region_nth (i := 1) (j := 2) ltac:(lia) ltac:(lia)) as R12.
  pose proof (region_nth (i := 2) (j := 0) ltac:(lia) ltac:(lia)) as R20. pose proof (region_nth (i := 2) (j := 1) ltac:(lia) ltac:(lia)) as R21.
  pose proof (region_nth (i := 2) (j := 2) ltac:(lia) ltac:(lia)) as R22. cbn [Nat.mul Nat.add] in *.
  rewrite !(@block_ints_eq (corner g)), !(@block_ints_eq (edge g)), !(@block_ints_eq (center g)) by assumption.
  rewrite R00, R01, R02, R10, R11, R12, R20, R21, R22. clear R00 R01 R02 R10 R11 R12 R20 R21 R22.
  rewrite !quad_ints, !in_ints_16384 by assumption. rewrite !e_block_raw. cbn [Nat.eqb Nat.add]. reflexivity.
Qed.

(** ** Policy *)
Lemma feature16 c y x : fake_quant 128 16 false (get_feature m h w d c y x) = frac 128 (e_feature D e h w t c y x).
Proof. rewrite feature_ints. apply fq16. pose proof (e_feature_range c y x). lia. Qed.
Lemma nth_firstn_lt A (l : list A) z j n : (j < n)%nat -> nth j (firstn n l) z = nth j l z.
Proof. revert j n. induction l as [|a l IH]; intros [|j] [|n] H; cbn; try lia; try reflexivity. apply IH. lia. Qed.
Lemma nth_skipn A (l : list A) z n j : nth j (skipn n l) z = nth (n + j) l z.
Proof. revert n. induction l as [|a l IH]; intros [|n]; cbn; try reflexivity; [now destruct j|]. apply IH. Qed.
Lemma nth_frac s zs j : 0 < s -> nth j (map (frac s) zs) 0%Qc = frac s (nth j zs 0).
Proof. intros S. rewrite <- (@frac_0 s S) at 1. apply map_nth. Qed.
Lemma dot_frac s u xs ws : 0 < s -> 0 < u -> dotq (map (frac s) xs) (map (frac u) ws) = frac (u * s) (zsum (map2 Z.mul xs ws)).
Proof. intros. now apply dotq_scaled. Qed.
Lemma policy_ints_eq y x o : match policy m with Static _ _ => True | Dynamic l1 l2 => weight_scale l1 = 128 /\ weight_scale l2 = 128 end -> (o < 16)%nat ->
  policy_activated m (feature_sum m h w (get_feature m h w d)) (get_feature m h w d) y x o = frac 2097152 (e_policy e D (dim_feature m) (dim_policy m) h w t y x o).
Proof.
  intros S O. unfold policy_activated, e_policy. cbv zeta. destruct dwconv_split as (r & _ & _ & _ & _ & _ & _ & _ & FP & _). rewrite FP.
  assert (IN : map (fun c => fake_quant 128 16 false (get_feature m h w d c y x)) (seq 0 (dim_policy m)) = map (frac 128) (map (fun c => e_feature D e h w t c y x) (seq 0 (dim_policy m)))).
  { rewrite map_map. apply map_ext. intros c. apply feature16. }
  rewrite IN. clear IN. destruct (policy m) as [l1 l2|ws b]; cbn [export_policy].
  - destruct S as [S1 S2]. rewrite (linear_relu_ints _ S1), (linear_ints _ S2), in_ints_16384, whole_ints. set (out := e_linear (export_linear l2) _).
    rewrite skipn_map, nth_frac, nth_skipn by lia. unfold policy_middle.
    assert (WW : map (fun c => nth (o * dim_policy m + c) (map (fake_quant 16384 16 true) (firstn (16 * dim_policy m) (map (frac 16384) out))) 0%Qc) (seq 0 (dim_policy m)) =
                 map (frac 16384) (map (fun c => clip (-32768) 32767 (nth (o * dim_policy m + c) out 0)) (seq 0 (dim_policy m)))).
    { rewrite map_map. apply map_ext_in. intros c Cc. apply in_seq in Cc. rewrite firstn_map, map_map.
      rewrite (map_ext _ (fun z => frac 16384 (clip (-32768) 32767 z))) by (intros a; rewrite fq_frac by lia; reflexivity).
      rewrite <- (map_map (fun z => clip (-32768) 32767 z) (frac 16384)), nth_frac by lia. f_equal.
      change 0 with (clip (-32768) 32767 0) at 1. rewrite map_nth. f_equal. apply nth_firstn_lt. nia. }
    rewrite WW, dot_frac by lia. replace (frac 16384 (nth (16 * dim_policy m + o) out 0)) with (frac (16384 * 128) (128 * nth (16 * dim_policy m + o) out 0)).
    + change (16384 * 128) with 2097152. rewrite frac_add, relu_frac by lia. do 3 f_equal. f_equal. clear WW.
      induction (seq 0 (dim_policy m)) as [|c l IH]; cbn [map map2]; [reflexivity|now rewrite IH].
    + unfold frac. rewrite <- !Qz_mul. field. split; apply Qz_nz; lia.
  - assert (EW : map (fake_quant 16384 16 false) (nth o ws []) = map (frac 16384) (nth o (map (map (fun x0 => clip (-32768) 32767 (round_q (x0 * Qz (128 * 128))%Qc))) ws) [])).
    { change (@nil Z) with (map (fun x0 => clip (-32768) 32767 (round_q (x0 * Qz (128 * 128))%Qc)) []). rewrite map_nth, map_map. apply map_ext. intros a. rewrite fake_quant_eq by lia. reflexivity. }
    assert (EB : fake_quant 2097152 32 false (nth o b 0%Qc) = frac 2097152 (nth o (map (fun x0 => clip (- 2 ^ 31) (2 ^ 31 - 1) (round_q (x0 * Qz (128 * 128 * 128))%Qc)) b) 0)).
    { set (G := fun x0 => clip (- 2 ^ 31) (2 ^ 31 - 1) (round_q (x0 * Qz (128 * 128 * 128))%Qc)).
      assert (G0 : G 0%Qc = 0). { unfold G. replace (0 * Qz (128 * 128 * 128))%Qc with (Qz 0) by (rewrite Qz_0; ring). rewrite round_Qz. reflexivity. }
      rewrite <- G0 at 2. rewrite map_nth, fake_quant_eq by lia. reflexivity. }
    rewrite EW, EB, dot_frac by lia. change (16384 * 128) with 2097152. now rewrite frac_add, relu_frac by lia.
Qed.
Lemma out_layer zs ws : dotq (map (frac 2097152) zs) ws = dotq (map Qz zs) (map (fun x => x / Qz (128 * 128 * 128))%Qc ws).
Proof.
  revert ws. induction zs as [|a zs IH]; intros [|b ws]; try reflexivity. unfold dotq in *. cbn [map map2 fold_right]. rewrite IH. f_equal. unfold frac.
  change (128 * 128 * 128) with 2097152. field. apply Qz_nz. lia.
Qed.
Theorem policy_ints_whole y x : match policy m with Static _ _ => True | Dynamic l1 l2 => weight_scale l1 = 128 /\ weight_scale l2 = 128 end ->
  policy_at m h w d y x = (dotq (map (fun o => Qz (e_policy e D (dim_feature m) (dim_policy m) h w t y x o)) (seq 0 16)) (f_out_weight e) + f_out_bias e)%Qc.
Proof.
  intros S. unfold policy_at. cbv zeta. destruct dwconv_split as (r & _ & _ & _ & _ & _ & _ & _ & _ & OW & OB). rewrite OW, OB. f_equal.
  rewrite (map_ext_in _ (fun o => frac 2097152 (e_policy e D (dim_feature m) (dim_policy m) h w t y x o))).
  - rewrite <- (map_map _ (frac 2097152)), out_layer, map_map. reflexivity.
  - intros o Oo. apply in_seq in Oo. apply policy_ints_eq; [exact S|]. unfold policy_middle in Oo. lia.
Qed.
End WithFile.

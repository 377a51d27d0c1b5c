(** The quantised part of the networks Mix9 and Mix9s and its export: model/mixnet.py (get_feature, forward), model/mixnet_components.py (QuantizedHeadMixin),
    model/ops/aggregation.py, model/ops/dynamic.py, model/layers/star.py, model/layers/convolution.py, model/serialization/mixnet.py.

    Numbers are exact rationals, as in FlatNet.v.  One sample of a batch.  The features of the four directions at each point (the convolutions of [Mapping])
    are any numbers: [d i c y x] is direction i, channel c.  Not modelled: gradients (the training branch of the depthwise convolution computes the same
    products with another derivative), traces, vector quantization of Mix9sVQ (C70-C73), the order in which the exported arrays are written to the file. *)
From Coq Require Import QArith Qcanon.
From Verif Require Import Base Rng FeatureTable FlatNet.
Set Implicit Arguments. Unset Strict Implicit.
Local Open Scope Z_scope.

(** [F.relu], [torch.clamp(x, min=0)] *)
Definition relu (x : Qc) : Qc := if Qclt_le_dec x 0%Qc then 0%Qc else x.
Definition sumq (l : list Qc) : Qc := fold_right Qcplus 0%Qc l.
(** [x[:, :, y0:y1, x0:x1]]: the cells of a slice, row by row *)
Definition block_cells (y0 y1 x0 x1 : nat) : list (nat * nat) := flat_map (fun y => map (pair y) (seq x0 (x1 - x0))) (seq y0 (y1 - y0)).

(** ** model/ops/aggregation.py *)
(** lines 16-20, the bounds of rows or of columns *)
Definition cut1 (n : nat) : nat := (n / 3 + (if n mod 3 =? 2 then 1 else 0))%nat.
Definition cut2 (n : nat) : nat := (n / 3 * 2 + (if 0 <? n mod 3 then 1 else 0))%nat.
(** [split_3x3_regions], lines 9-31 *)
Definition regions (h w : nat) : list (list (nat * nat)) :=
  let h1 := cut1 h in let w1 := cut1 w in let h2 := cut2 h in let w2 := cut2 w in
  [block_cells 0 h1 0 w1; block_cells 0 h1 w1 w2; block_cells 0 h1 w2 w;
   block_cells h1 h2 0 w1; block_cells h1 h2 w1 w2; block_cells h1 h2 w2 w;
   block_cells h2 h 0 w1; block_cells h2 h w1 w2; block_cells h2 h w2 w].
(** [sum_3x3_regions] then [quantized_sum_3x3_regions], lines 34-50: for each region the vector of F channels *)
Definition region_sum (f : nat -> nat -> Qc) (cells : list (nat * nat)) : Qc := sumq (map (fun '(y, x) => f y x) cells).
Definition quantized_region_sums (F h w : nat) (f : nat -> nat -> nat -> Qc) : list vec :=
  map (fun r => map (fun c => fake_quant 128 32 true (region_sum (f c) r / Qz 32)%Qc) (seq 0 F)) (regions h w).
(** [quantized_avg4], lines 53-61 *)
Definition quantized_avg4 (a b c d : Qc) : Qc :=
  let fq := fake_quant 128 8 true in
  let a := fq a in let b := fq b in let c := fq c in let d := fq d in
  let ab := fq ((a + b + 1 / Qz 128) / Qz 2)%Qc in
  let cd := fq ((c + d + 1 / Qz 128) / Qz 2)%Qc in
  fq ((ab + cd + 1 / Qz 128) / Qz 2)%Qc.
Definition avg4 (a b c d : vec) : vec := map2 (fun ab cd => quantized_avg4 (fst ab) (snd ab) (fst cd) (snd cd)) (combine a b) (combine c d).

(** ** model/layers/star.py lines 17-32; without star blocks (no_star_block) a LinearBlock with relu *)
Inductive block := Star (up1 up2 down : linear) | Plain (l : linear).
(** LinearBlock with activation "relu" (model/layers/linear.py lines 70-91) *)
Definition linear_relu (l : linear) (x : vec) : vec := map relu (linear_block l x).
(** [.view(..., -1, 2).sum(-1)] *)
Fixpoint pair_sums (x : vec) : vec := match x with a :: b :: r => (a + b)%Qc :: pair_sums r | _ => [] end.
Definition block_forward (b : block) (x : vec) : vec :=
  match b with
  | Plain l => linear_relu l x
  | Star up1 up2 down =>
      let x1 := map (fake_quant 128 8 true) (linear_relu up1 x) in
      let x2 := map (fake_quant 128 8 true) (linear_block up2 x) in
      linear_relu down (map (fake_quant 128 8 true) (pair_sums (map2 Qcmult x1 x2)))
  end.

(** ** The networks (model/mixnet.py) and their heads (mixnet_components.py lines 112-162) *)
Record value_groups := Groups { corner : block; edge : block; center : block; quad : block }.
Inductive policy_conv :=
  | Dynamic (l1 l2 : linear)                     (* policy_pwconv_weight_linear *)
  | Static (w : list vec) (b : vec).             (* policy_pwconv, no_dynamic_pwconv *)
Record mix9 := Mix9 {
  dw_weight : list vec; dw_bias : vec;           (* feature_dwconv: one row of 3 * 3 weights for each of its channels *)
  groups : option value_groups;                  (* None: no_value_group *)
  value1 : linear; value2 : linear; value3 : linear;
  policy : policy_conv;
  out_weight : vec; out_bias : Qc;               (* policy_output *)
  dim_feature : nat; dim_policy : nat }.
Definition policy_middle : nat := 16.

(** ** [get_feature]: mixnet.py lines 510-535, 680-705 *)
Definition feature_top := (Qz 511 / Qz 32)%Qc.
Definition reduced (d : nat -> nat -> nat -> nat -> Qc) (c y x : nat) : Qc :=
  relu (sumq (map (fun i => fake_quant 32 16 false (clamp (Qz (-16)) feature_top (d i c y x))) (seq 0 4)) / Qz 4)%Qc.
(** [F.unfold] with padding 1: tap k of the 3x3 window around (y, x); zero outside of the board *)
Definition window A (zero : A) (h w : nat) (f : nat -> nat -> A) (y x k : nat) : A :=
  let y := (y + k / 3)%nat in let x := (x + k mod 3)%nat in
  if ((1 <=? y) && (y <=? h) && (1 <=? x) && (x <=? w))%nat then f (y - 1)%nat (x - 1)%nat else zero.
(** Conv2dBlock, quant "pixel-dwconv-floor", relu: convolution.py lines 201-247; then the [fake_quant] of mixnet.py line 527 *)
Definition feature_dwconv (m : mix9) (h w : nat) (red : nat -> nat -> nat -> Qc) (c y x : nat) : Qc :=
  let input y x := fake_quant 128 16 false (red c y x * Qz 4)%Qc in
  let weight k := fake_quant 65536 16 false (nth k (nth c (dw_weight m) []) 0%Qc) in
  let products := map (fun k => fake_quant 128 16 true (window 0%Qc h w input y x k * weight k)%Qc) (seq 0 9) in
  let bias := fake_quant 128 16 false (nth c (dw_bias m) 0%Qc) in
  fake_quant 128 16 false (relu (sumq products + bias)%Qc).
Definition get_feature (m : mix9) (h w : nat) (d : nat -> nat -> nat -> nat -> Qc) (c y x : nat) : Qc :=
  let red := reduced d in
  if (c <? List.length (dw_weight m))%nat then feature_dwconv m h w red c y x else fake_quant 128 16 false (red c y x).

(** ** [forward]: mixnet.py lines 537-577 *)
Definition feature_sum (m : mix9) (h w : nat) (f : nat -> nat -> nat -> Qc) : vec :=
  map (fun c => fake_quant 128 32 true (region_sum (f c) (block_cells 0 h 0 w) / Qz 256)%Qc) (seq 0 (dim_feature m)).
(** [_forward_quantized_grouped_value]: mixnet_components.py lines 205-262 *)
Definition value_mlp (m : mix9) (x : vec) : vec := linear_block (value3 m) (linear_relu (value2 m) (linear_relu (value1 m) x)).
Definition grouped_value (m : mix9) (g : value_groups) (fsum : vec) (r : list vec) : vec :=
  let at_region i := nth i r [] in
  let v00 := block_forward (corner g) (at_region 0%nat) in let v01 := block_forward (edge g) (at_region 1%nat) in
  let v02 := block_forward (corner g) (at_region 2%nat) in let v10 := block_forward (edge g) (at_region 3%nat) in
  let v11 := block_forward (center g) (at_region 4%nat) in let v12 := block_forward (edge g) (at_region 5%nat) in
  let v20 := block_forward (corner g) (at_region 6%nat) in let v21 := block_forward (edge g) (at_region 7%nat) in
  let v22 := block_forward (corner g) (at_region 8%nat) in
  let q00 := block_forward (quad g) (avg4 v00 v01 v10 v11) in
  let q01 := block_forward (quad g) (avg4 v01 v02 v11 v12) in
  let q10 := block_forward (quad g) (avg4 v10 v11 v20 v21) in
  let q11 := block_forward (quad g) (avg4 v11 v12 v21 v22) in
  value_mlp m (fsum ++ q00 ++ q01 ++ q10 ++ q11).
Definition value (m : mix9) (h w : nat) (d : nat -> nat -> nat -> nat -> Qc) : vec :=
  let f := get_feature m h w d in
  let fsum := feature_sum m h w f in
  match groups m with
  | None => value_mlp m fsum
  | Some g => grouped_value m g fsum (quantized_region_sums (dim_feature m) h w f)
  end.
(** [_forward_quantized_policy] at (y, x), before [policy_output]: lines 169-201; [dynamic_pointwise_conv2d] reads its weights as rows of dim_policy *)
Definition policy_activated (m : mix9) (fsum : vec) (f : nat -> nat -> nat -> Qc) (y x o : nat) : Qc :=
  let p := dim_policy m in
  let input := map (fun c => fake_quant 128 16 false (f c y x)) (seq 0 p) in
  match policy m with
  | Static w b =>
      relu (dotq input (map (fake_quant 16384 16 false) (nth o w [])) + fake_quant 2097152 32 false (nth o b 0%Qc))%Qc
  | Dynamic l1 l2 =>
      let out := linear_block l2 (linear_relu l1 fsum) in
      let weight := map (fake_quant 16384 16 true) (firstn (policy_middle * p) out) in
      let bias := skipn (policy_middle * p) out in
      relu (dotq input (map (fun c => nth (o * p + c) weight 0%Qc) (seq 0 p)) + nth o bias 0%Qc)%Qc
  end.
Definition policy_at (m : mix9) (h w : nat) (d : nat -> nat -> nat -> nat -> Qc) (y x : nat) : Qc :=
  let f := get_feature m h w d in
  (dotq (map (policy_activated m (feature_sum m h w f) f y x) (seq 0 policy_middle)) (out_weight m) + out_bias m)%Qc.

(** ** model/serialization/mixnet.py: Mix9NetSerializer *)
(** [_export_feature_map], lines 1592-1596: one entry of the tables that replace the mapping *)
Definition export_map (x : Qc) : Z := round_q (clamp (Qz (-16)) feature_top x * Qz 32)%Qc.
Definition np_clip := clamp.
Definition absq (x : Qc) : Qc := if Qclt_le_dec x 0%Qc then (- x)%Qc else x.
(** [_export_feature_dwconv], lines 1604-1634: rows of taps, each with one entry for each channel *)
Definition export_dwconv (m : mix9) : res (list (list Z) * list Z) :=
  let lo := (Qz (-32768) / Qz 65536)%Qc in let hi := (Qz 32767 / Qz 65536)%Qc in
  let clipped := map (map (np_clip lo hi)) (dw_weight m) in
  let bias := map (np_clip (Qz (-64)) (Qz 64)) (dw_bias m) in
  let weight_quant := map (map (fun x => clip (-32768) 32767 (round_q (x * Qz 65536)%Qc))) clipped in
  let bias_quant := map (fun x => clip (-32768) 32767 (round_q (x * Qz 128)%Qc)) bias in
  if forallb (fun row => if Qclt_le_dec (sumq (map absq row) / Qz 2 * Qz 16 * Qz 4 * Qz 128)%Qc (Qz 32767) then true else false) clipped
  then Ok (map (fun k => map (fun row => nth k row 0) weight_quant) (seq 0 9), bias_quant)
  else Err AssertionError.
(** [_export_linear], [_export_star_block], [_export_value], [_export_policy_pwconv]: lines 1636-1730 *)
Definition export_linear (l : linear) : layer_ints := export_layer 128 l.
Inductive block_ints := StarInts (up1 up2 down : layer_ints) | PlainInts (l : layer_ints).
Definition export_block (b : block) : block_ints :=
  match b with Star u v d => StarInts (export_linear u) (export_linear v) (export_linear d) | Plain l => PlainInts (export_linear l) end.
Inductive policy_ints := DynamicInts (l1 l2 : layer_ints) | StaticInts (w : list (list Z)) (b : list Z).
Definition export_policy (p : policy_conv) : policy_ints :=
  match p with
  | Dynamic l1 l2 => DynamicInts (export_linear l1) (export_linear l2)
  | Static w b => StaticInts (map (map (fun x => clip (-32768) 32767 (round_q (x * Qz (128 * 128))%Qc))) w)
                             (map (fun x => clip (- 2 ^ 31) (2 ^ 31 - 1) (round_q (x * Qz (128 * 128 * 128))%Qc)) b)
  end.
Record mix9_file := Mix9File {
  f_dw : list (list Z); f_dw_bias : list Z;
  f_groups : option (block_ints * block_ints * block_ints * block_ints);
  f_value1 : layer_ints; f_value2 : layer_ints; f_value3 : layer_ints;
  f_policy : policy_ints;
  f_out_weight : vec; f_out_bias : Qc }.
(** [serialize]: the arrays that it writes (after the tables of the mapping); policy_output's weights are divided by 128 * 128 * 128 *)
Definition serialize (m : mix9) : res mix9_file :=
  match export_dwconv m with
  | Err e => Err e
  | Ok (dw, dwb) =>
      Ok (Mix9File dw dwb
            (match groups m with None => None | Some g => Some (export_block (corner g), export_block (edge g), export_block (center g), export_block (quad g)) end)
            (export_linear (value1 m)) (export_linear (value2 m)) (export_linear (value3 m)) (export_policy (policy m))
            (map (fun x => x / Qz (128 * 128 * 128))%Qc (out_weight m)) (out_bias m))
  end.

(** Flat 7x7 networks and their export: model/flatnet.py, model/serialization/flatnet.py, model/layers/linear.py, utils/quant_utils.py.

    Numbers are rationals and exact (see C75: on the quantised path every float32 operation is exact as long as the biases are not large).
    The learned mapping from a chunk of the board to features is any function of the input tensor (convolutions in evaluation mode, F.normalize);
    for the ladder networks the convolutions are modelled as far as they decide which cells matter.  Not modelled: the policy head (it is not
    exported), gradients, histograms, torch.compile, half precision (enable_amp of the v4 serializers: see F48), widths of the integer types where
    no value leaves them. *)
From Coq Require Import QArith Qcanon Qround.
From Verif Require Import Base Rng FeatureTable.
Set Implicit Arguments. Unset Strict Implicit.
Local Open Scope Z_scope.

(** ** utils/quant_utils.py lines 4-18 *)
Definition Qz (z : Z) : Qc := Q2Qc (inject_Z z).
(** [Tensor.floor] *)
Definition floor_q (x : Qc) : Z := Qfloor (this x).
(** [Tensor.round], [np.around]: ties to even *)
Definition round_q (x : Qc) : Z := around (Qnum (this x)) (Zpos (Qden (this x))).
(** [torch.clamp(x, min, max)] *)
Definition clamp (lo hi x : Qc) : Qc :=
  let m := if Qclt_le_dec x lo then lo else x in
  if Qclt_le_dec hi m then hi else m.
(** lines 4-18, signed, zero_point 0: the value (the gradient trick of line 17 adds and subtracts the same number) *)
Definition fake_quant (scale bits : Z) (floor : bool) (x : Qc) : Qc :=
  let qmin := - 2 ^ (bits - 1) in
  let qmax := 2 ^ (bits - 1) - 1 in
  let x := clamp (Qz qmin / Qz scale)%Qc (Qz qmax / Qz scale)%Qc x in
  let quant := if floor then floor_q (x * Qz scale)%Qc else round_q (x * Qz scale)%Qc in
  (Qz quant / Qz scale)%Qc.

(** ** model/layers/linear.py lines 71-88 (quant=True, no norm, activation "none") *)
Fixpoint map2 A B C (f : A -> B -> C) (l : list A) (m : list B) : list C := match l, m with x :: l, y :: m => f x y :: map2 f l m | _, _ => [] end.
Definition vec := list Qc.
Definition dotq (x y : vec) : Qc := fold_right Qcplus 0%Qc (map2 Qcmult x y).
Record linear := Linear { weight : list vec; bias : vec; weight_scale : Z }.
Definition linear_block (l : linear) (x : vec) : vec :=
  let x := map (fake_quant 128 8 true) x in
  let w := map (map (fake_quant (weight_scale l) 8 false)) (weight l) in
  let b := map (fake_quant (weight_scale l * 128) 32 false) (bias l) in
  map2 (fun row b => (dotq x row + b)%Qc) w b.

(** ** model/flatnet.py lines 17-24: [_forward_value_linears] *)
Definition top := (Qz 127 / Qz 128)%Qc.
Definition bottom := Qz (-1).
Fixpoint value_linears (first : Qc) (ls : list linear) (x : vec) : vec :=
  match ls with
  | [] => x
  | l :: r => value_linears 0%Qc r (linear_block l (map (clamp first top) x))
  end.

(** ** Planes, chunks and torch's views of the last two dimensions *)
Record plane (A : Type) := Plane { height : nat; width : nat; at_ : nat -> nat -> A }.
Definition slice A (y0 y1 x0 x1 : nat) (p : plane A) : plane A := Plane (y1 - y0) (x1 - x0) (fun y x => at_ p (y0 + y) (x0 + x)).
Definition transpose A (p : plane A) : plane A := Plane (width p) (height p) (fun y x => at_ p x y).
Definition flip_rows A (p : plane A) : plane A := Plane (height p) (width p) (fun y x => at_ p (height p - 1 - y) x).
Definition flip_cols A (p : plane A) : plane A := Plane (height p) (width p) (fun y x => at_ p y (width p - 1 - x)).
(** [torch.rot90(p, k, (2, 3))] *)
Definition rot90 A (k : Z) (p : plane A) : plane A :=
  match k mod 4 with
  | 1 => transpose (flip_cols p)
  | 2 => flip_rows (flip_cols p)
  | 3 => transpose (flip_rows p)
  | _ => p
  end.
Definition rows A (p : plane A) : list (list A) := map (fun y => map (at_ p y) (seq 0 (width p))) (seq 0 (height p)).
(** One sample of a batch: channels, rows, columns *)
Definition tensor := list (list (list Z)).
(** Input "basic-nostm" (model/input.py lines 45-72): the planes of the stones of the two sides. *)
Definition stones (side : Z) (board : plane Z) : plane Z := Plane (height board) (width board) (fun y x => if at_ board y x =? side then 1 else 0).
Definition input_plane (board : plane Z) : list (plane Z) := [stones 1 board; stones 2 board].

(** One entry of the tables of chunks: [y0, y1, x0, x1, k, t] *)
Record pattern := Pattern { y0 : nat; y1 : nat; x0 : nat; x1 : nat; rot : Z; tr : bool }.
(** Square networks: rotated first, then transposed (lines 989-990, 1211-1213) *)
Definition square_chunk A (q : pattern) (p : plane A) : plane A :=
  let chunk := rot90 (rot q) (slice (y0 q) (y1 q) (x0 q) (x1 q) p) in
  if tr q then transpose chunk else chunk.
(** Ladder networks: transposed first (lines 181-184) *)
Definition ladder_chunk A (q : pattern) (p : plane A) : plane A :=
  let chunk := slice (y0 q) (y1 q) (x0 q) (x1 q) p in
  rot90 (rot q) (if tr q then transpose chunk else chunk).
Definition chunk_input (cut : pattern -> plane Z -> plane Z) (q : pattern) (board : plane Z) : tensor :=
  map (fun p => rows (cut q p)) (input_plane board).
Definition vadd : vec -> vec -> vec := map2 Qcplus.
(** [torch.sum(torch.stack(features), dim=0)] *)
Definition vsum (l : list vec) : vec := match l with [] => [] | v :: r => fold_left vadd r v end.

(** ** FlatSquare7x7NNUEv4 and v4VQ: lines 1139-1248, 1257-1372 *)
Definition v4_indices : list (list pattern) :=
  [[Pattern 0 4 0 4 0%Z false; Pattern 0 4 3 7 1%Z false; Pattern 3 7 3 7 2%Z false; Pattern 3 7 0 4 3%Z false];
   [Pattern 0 4 1 5 0%Z false; Pattern 1 5 3 7 1%Z false; Pattern 3 7 2 6 2%Z false; Pattern 2 6 0 4 3%Z false;
    Pattern 1 5 0 4 0%Z true; Pattern 0 4 2 6 1%Z true; Pattern 2 6 3 7 2%Z true; Pattern 3 7 1 5 3%Z true];
   [Pattern 1 5 1 5 0%Z false; Pattern 1 5 2 6 1%Z false; Pattern 2 6 2 6 2%Z false; Pattern 2 6 1 5 3%Z false]]%nat.
Record v4 := V4 {
  v4_mapping : nat -> tensor -> vec;    (* mapping4x4[j], then F.normalize if unit_feature_vector *)
  v4_linears : list linear;
  v4_no_draw : bool }.
(** [get_features]: lines 1180-1222 *)
Definition v4_features (m : v4) (board : plane Z) : list (list vec) :=
  map (fun jg => map (fun q => map (clamp bottom top) (v4_mapping m (fst jg) (chunk_input (@square_chunk Z) q board))) (snd jg))
      (combine (seq 0 3) v4_indices).
(** [_do_vector_quantize] in evaluation: the row of the codebook that the search chooses (v4VQ), or the feature itself (v4) *)
Inductive quantizer := NoVq | Vq (codebook : nat -> list vec) (search : nat -> vec -> nat).
Definition do_vq (vq : quantizer) (j : nat) (f : vec) : vec :=
  match vq with NoVq => f | Vq codebook search => nth (search j f) (codebook j) [] end.
(** [forward]: lines 1224-1248, "value" *)
Definition v4_forward (m : v4) (vq : quantizer) (board : plane Z) : vec :=
  let groups := v4_features m board in
  let groups := map (fun jg => map (do_vq vq (fst jg)) (snd jg)) (combine (seq 0 3) groups) in
  let feature := vsum (map (map (fake_quant 128 8 false)) (List.concat groups)) in
  value_linears bottom (v4_linears m) feature.

(** ** FlatSquare7x7NNUEv2: lines 937-1031 *)
Definition corner_index : list pattern := [Pattern 0 4 0 4 0%Z false; Pattern 0 4 3 7 1%Z false; Pattern 3 7 3 7 2%Z false; Pattern 3 7 0 4 3%Z false]%nat.
Definition middle_index : list pattern := [Pattern 0 4 2 5 0%Z false; Pattern 2 5 3 7 1%Z false; Pattern 3 7 2 5 2%Z false; Pattern 2 5 0 4 (-1)%Z false]%nat.
Record v2 := V2 { v2_mapping4x4 : tensor -> vec; v2_mapping4x3 : tensor -> vec; v2_int4 : bool; v2_linears : list linear; v2_no_draw : bool }.
(** lines 992-995, also 1093-1096 of v3 *)
Definition quant_feature (int4 : bool) : vec -> vec :=
  map (fun x => if int4 then fake_quant 8 4 false (clamp bottom (Qz 7 / Qz 8)%Qc x) else fake_quant 128 8 false (clamp bottom top x)).
Definition v2_forward (m : v2) (board : plane Z) : vec :=
  let corner := flat_map (fun q => quant_feature (v2_int4 m) (v2_mapping4x4 m (chunk_input (@square_chunk Z) q board))) corner_index in
  let middle := flat_map (fun q => quant_feature false (v2_mapping4x3 m (chunk_input (@square_chunk Z) q board))) middle_index in
  value_linears bottom (v2_linears m) (vadd corner middle).

(** ** FlatSquare7x7NNUEv3: lines 1040-1119 *)
Definition v3_corner1 : list pattern := [Pattern 0 3 0 4 0%Z false; Pattern 0 4 4 7 1%Z false; Pattern 4 7 3 7 2%Z false; Pattern 3 7 0 3 3%Z false]%nat.
Definition v3_corner2 : list pattern := [Pattern 0 4 0 3 3%Z false; Pattern 0 3 3 7 0%Z false; Pattern 3 7 4 7 1%Z false; Pattern 4 7 0 4 2%Z false]%nat.
Definition v3_middle : list pattern := [Pattern 0 4 2 5 3%Z false; Pattern 2 5 3 7 0%Z false; Pattern 3 7 2 5 1%Z false; Pattern 2 5 0 4 2%Z false]%nat.
Record v3 := V3 { v3_mapping : nat -> tensor -> vec; v3_int4 : bool; v3_linears : list linear; v3_no_draw : bool }.   (* mapping 0: corner1, 1: corner2, 2: middle *)
Definition v3_features (m : v3) (j : nat) (l : list pattern) (board : plane Z) : vec :=
  flat_map (fun q => quant_feature (v3_int4 m) (v3_mapping m j (chunk_input (@square_chunk Z) q board))) l.
Definition v3_forward (m : v3) (board : plane Z) : vec :=
  let f1 := v3_features m 0 v3_corner1 board in
  let f2 := v3_features m 1 v3_corner2 board in
  let f3 := v3_features m 2 v3_middle board in
  let avg := map2 (fun a b => fake_quant 128 8 true ((a + b + 1 / Qz 128) / Qz 2)%Qc) f1 f2 in
  value_linears bottom (v3_linears m) (vadd avg f3).

(** ** Ladder networks: lines 103-122 ([LadderConvLayer]), 125-211, 220-320 *)
Record ladder_conv := LadderConv { lc_w : list vec * list vec * list vec; lc_b : vec }.
(** The 2x2 kernel [[w0, zero], [w1, w2]] on a plane of channel vectors *)
Definition ladder_layer (c : ladder_conv) (p : plane vec) : plane vec :=
  let '(w0, w1, w2) := lc_w c in
  Plane (height p - 1) (width p - 1) (fun y x =>
    map2 (fun '(r0, r1, r2) b =>
            (dotq r0 (at_ p y x) + dotq (map (fun _ => 0%Qc) r0) (at_ p y (x + 1)) + dotq r1 (at_ p (y + 1) x) + dotq r2 (at_ p (y + 1) (x + 1)) + b)%Qc)
         (map2 (fun r0 r12 => (r0, fst r12, snd r12)) w0 (map2 pair w1 w2)) (lc_b c)).
(** Activations and 1x1 convolutions with batch norm in evaluation act on each position. *)
Definition pointwise (f : vec -> vec) (p : plane vec) : plane vec := Plane (height p) (width p) (fun y x => f (at_ p y x)).
Record ladder_mapping := LadderMapping { lm_convs : list (ladder_conv * (vec -> vec)) }.
Definition channels (t : tensor) : plane vec :=
  Plane 4 4 (fun y x => map (fun p => Qz (nth x (nth y p []) 0)) t).
Definition run_mapping (m : ladder_mapping) (t : tensor) : vec :=
  at_ (fold_left (fun p cf => pointwise (snd cf) (ladder_layer (fst cf) p)) (lm_convs m) (channels t)) 0 0.
(** lines 170-179 = 268-277, and 287-292 *)
Definition mapping1_index : list pattern :=
  [Pattern 0 4 0 4 0%Z false; Pattern 0 4 0 4 0%Z true; Pattern 0 4 3 7 1%Z false; Pattern 0 4 3 7 (-1)%Z true;
   Pattern 3 7 3 7 2%Z false; Pattern 3 7 3 7 2%Z true; Pattern 3 7 0 4 (-1)%Z false; Pattern 3 7 0 4 1%Z true]%nat.
Definition mapping2_index : list pattern := [Pattern 0 4 0 4 1%Z false; Pattern 0 4 3 7 2%Z false; Pattern 3 7 3 7 (-1)%Z false; Pattern 3 7 0 4 0%Z false]%nat.
Definition ladder_features (m : ladder_mapping) (l : list pattern) (board : plane Z) : list vec :=
  map (fun q => map (fun x => fake_quant 128 8 false (clamp bottom top x)) (run_mapping m (chunk_input (@ladder_chunk Z) q board))) l.
(** Version 1 has one mapping, version 2 two.  The value head sees the features behind the first dim_policy. *)
Record ladder := Ladder { ld_mapping1 : ladder_mapping; ld_mapping2 : option ladder_mapping; ld_dim_policy : nat; ld_linears : list linear; ld_no_draw : bool }.
Definition ladder_sum (m : ladder) (board : plane Z) : vec :=
  vsum (ladder_features (ld_mapping1 m) mapping1_index board ++ match ld_mapping2 m with Some m2 => ladder_features m2 mapping2_index board | None => [] end).
Definition ladder_forward (m : ladder) (board : plane Z) : vec :=
  value_linears 0%Qc (ld_linears m) (skipn (ld_dim_policy m) (ladder_sum m board)).

(** ** Export: model/serialization/flatnet.py *)
Definition bytes := list Z.
(** numpy: astype("<i1").tobytes(), astype("<u1"), astype("<i4"), astype("<u2") *)
Definition i1 (l : list Z) : bytes := map (fun z => z mod 256) l.
Definition u1 (l : list Z) : bytes := map (fun z => z mod 256) l.
Definition i4 (l : list Z) : bytes := flat_map (fun z => le_bytes 4 (z mod 2 ^ 32)) l.
Definition u2 (l : list Z) : bytes := flat_map (fun z => le_bytes 2 (z mod 2 ^ 16)) l.
(** np.clip *)
Definition clip (lo hi z : Z) : Z := Z.min (Z.max z lo) hi.
(** np.clip(np.around(x * s), -128, 127), np.clip(np.around(x * s * 128), -(2**31), 2**31 - 1) *)
Definition export_weight (s : Z) (w : list vec) : list (list Z) := map (map (fun x => clip (-128) 127 (round_q (x * Qz s)%Qc))) w.
Definition export_bias (s : Z) (b : vec) : list Z := map (fun x => clip (- 2 ^ 31) (2 ^ 31 - 1) (round_q (x * Qz s * Qz 128)%Qc)) b.
Definition pad_rows (no_draw : bool) : nat := if no_draw then 3 else 1.
(** Rows of zeros for the outputs that the network does not have *)
Definition pad_layer (no_draw : bool) (l : linear) : linear :=
  Linear (weight l ++ repeat (repeat 0%Qc 32) (pad_rows no_draw)) (bias l ++ repeat 0%Qc (pad_rows no_draw)) (weight_scale l).
Definition layer_ints := (list (list Z) * list Z)%type.
Definition export_layer (s : Z) (l : linear) : layer_ints := (export_weight s (weight l), export_bias s (bias l)).
(** lines 112-150: [_export_square_value] *)
Definition export_square_value (no_draw : bool) (s_input s_weight : Z) (ls : list linear) : res (list layer_ints) :=
  match ls with
  | [l1; l2; l3] =>
      let l3 := pad_layer no_draw l3 in
      let quant := map (fun x => round_q (x * Qz s_input)%Qc) (List.concat (weight l1)) in
      guard (forallb (fun z => (-128 <=? z) && (z <=? 127)) quant) else AssertionError ;;
      Ok [export_layer s_input l1; export_layer s_weight l2; export_layer s_weight l3]
  | _ => Err IndexError
  end.
(** Python's int(x): towards zero *)
Definition trunc (x : Qc) : Z := if Qclt_le_dec x 0%Qc then - floor_q (- x)%Qc else floor_q x.
(** assert int(w.min() * s) >= -128, assert int(w.max() * s) <= 127: monotone, so the same as for every weight *)
Definition in_range (s : Z) (w : list vec) : bool := forallb (fun x => (-128 <=? trunc (x * Qz s)%Qc) && (trunc (x * Qz s)%Qc <=? 127)) (List.concat w).
(** lines 65-109: [_export_ladder_value] *)
Definition export_ladder_value (no_draw : bool) (s_weight s_output : Z) (ls : list linear) : res (list layer_ints) :=
  match ls with
  | [l1; l2; l3; l4] =>
      guard (in_range s_weight (weight l1)) else AssertionError ;;
      guard (in_range s_weight (weight l2)) else AssertionError ;;
      guard (in_range s_weight (weight l3)) else AssertionError ;;
      guard (in_range s_output (weight l4)) else AssertionError ;;
      let l4 := pad_layer no_draw l4 in
      Ok [export_layer s_weight l1; export_layer s_weight l2; export_layer s_weight l3; export_layer s_output l4]
  | _ => Err IndexError
  end.

(** lines 43-62: [_make_base3_mapping_input], one row of the batch; the loop writes both planes at each cell *)
Definition write3 (t : nat -> nat -> nat -> Z) (c y x : nat) (v : Z) : nat -> nat -> nat -> Z :=
  fun c' y' x' => if ((c' =? c) && (y' =? y) && (x' =? x))%nat then v else t c' y' x'.
Definition base3_input (h w : nat) (index : Z) : tensor :=
  let t := fold_left (fun t i =>
    let digit := (index / 3 ^ Z.of_nat i) mod 3 in
    let t := write3 t 0 (i / w) (i mod w) (if digit =? 1 then 1 else 0) in
    write3 t 1 (i / w) (i mod w) (if digit =? 2 then 1 else 0)) (seq 0 (h * w)) (fun _ _ _ => 0) in
  map (fun c => map (fun y => map (t c y) (seq 0 w)) (seq 0 h)) [0; 1]%nat.
Definition zrange (a b : Z) : list Z := map (fun k => a + Z.of_nat k) (seq 0 (Z.to_nat (b - a))).
(** [for i_start in range(0, N, batch_size): i_end = min(i_start + batch_size, N)], and torch.cat; lines 402-419 and the like *)
Definition export_rows A (batch N : Z) (row : Z -> A) : list A :=
  flat_map (fun k => let i_start := k * batch in map row (zrange i_start (Z.min (i_start + batch) N))) (zrange 0 ((N + batch - 1) / batch)).
(** clamp, then clip(around(x * s)): lines 421-435, 538-552 *)
Definition table_row (int4 : bool) : vec -> list Z :=
  map (fun x => if int4 then clip (-8) 7 (round_q (clamp bottom (Qz 7 / Qz 8)%Qc x * Qz 8)%Qc)
                else clip (-128) 127 (round_q (clamp bottom top x * Qz 128)%Qc)).
(** Pairs of int4 features in one byte: lines 449-457, 572-583 (int8 arithmetic wraps at the shift) *)
Fixpoint evens A (l : list A) : list A := match l with [] => [] | x :: r => x :: match r with [] => [] | _ :: r' => evens r' end end.
Definition odds A (l : list A) : list A := match l with [] => [] | _ :: r => evens r end.
Definition pack4 (row : list Z) : res bytes :=
  let lo := map (fun z => z + 8) (evens row) in
  let hi := map (fun z => z + 8) (odds row) in
  guard (forallb (fun z => (0 <=? z) && (z <=? 15)) lo) else AssertionError ;;
  guard (forallb (fun z => (0 <=? z) && (z <=? 15)) hi) else AssertionError ;;
  guard (List.length lo =? List.length hi)%nat else ValueError ;;
  Ok (map2 (fun h l => Z.lor ((h * 16) mod 256) l) hi lo).
Definition write_table (int4 : bool) (rows : list (list Z)) : res bytes :=
  if int4 then bs <- mapM pack4 rows ;; Ok (List.concat bs) else Ok (i1 (List.concat rows)).
Definition write_layer (l : layer_ints) : list bytes := [i1 (List.concat (fst l)); i4 (snd l)].

(** *** FlatSquare7x7NNUEv2Serializer: lines 359-480 (batch_size = 4096) *)
Definition serialize_v2 (s_input s_weight batch : Z) (m : v2) : res (list bytes) :=
  let t44 := export_rows batch (3 ^ 16) (fun i => table_row (v2_int4 m) (v2_mapping4x4 m (base3_input 4 4 i))) in
  let t43 := export_rows batch (3 ^ 12) (fun i => table_row false (v2_mapping4x3 m (base3_input 4 3 i))) in
  ls <- export_square_value (v2_no_draw m) s_input s_weight (v2_linears m) ;;
  b44 <- write_table (v2_int4 m) t44 ;;
  Ok (b44 :: i1 (List.concat t43) :: flat_map write_layer ls).

(** *** FlatSquare7x7NNUEv3Serializer: lines 482-604 *)
Definition serialize_v3 (s_input s_weight batch : Z) (m : v3) : res (list bytes) :=
  let table j := export_rows batch (3 ^ 12) (fun i => table_row (v3_int4 m) (v3_mapping m j (base3_input 3 4 i))) in
  ls <- export_square_value (v3_no_draw m) s_input s_weight (v3_linears m) ;;
  ts <- (if v3_int4 m then mapM (fun j => write_table true (table j)) [0; 1; 2]%nat
         else Ok [u1 (map (fun z => z + 128) (List.concat (table 0%nat))); u1 (map (fun z => z + 128) (List.concat (table 1%nat))); i1 (List.concat (table 2%nat))]) ;;
  Ok (ts ++ flat_map write_layer ls).

(** *** [aligned_write], utils/misc_utils.py lines 144-147 *)
Definition aligned_write (alignment : Z) (buffer : bytes) : bytes :=
  buffer ++ repeat 0 (Z.to_nat ((alignment - zlen buffer mod alignment) mod alignment)).

(** *** FlatSquare7x7NNUEv4Serializer: lines 606-705; features are rounded, then clamped *)
Definition serialize_v4 (s_input s_weight batch : Z) (m : v4) : res (list bytes) :=
  let table j := export_rows batch (3 ^ 16) (fun i => map (fun x => clip (-128) 127 (round_q (x * Qz 128)%Qc)) (v4_mapping m j (base3_input 4 4 i))) in
  ls <- export_square_value (v4_no_draw m) s_input s_weight (v4_linears m) ;;
  Ok (map (aligned_write 32) (i1 (List.concat (List.concat (map table [0; 1; 2]%nat))) :: flat_map write_layer ls)).

(** *** FlatSquare7x7NNUEv4VQSerializer: lines 708-828 *)
Definition serialize_v4vq (s_input s_weight batch : Z) (m : v4) (num_codes : Z) (codebook : nat -> list vec) (search : nat -> vec -> nat) : res (list bytes) :=
  guard (num_codes <=? 2 ^ 16) else AssertionError ;;
  let indices j := export_rows batch (3 ^ 16) (fun i => Z.of_nat (search j (map (clamp bottom top) (v4_mapping m j (base3_input 4 4 i))))) in
  let all := List.concat (map indices [0; 1; 2]%nat) in
  guard (forallb (fun i => (0 <=? i) && (i <? num_codes)) all) else AssertionError ;;
  let features j := map (map (fun x => clip (-128) 127 (round_q (fake_quant 128 8 false x * Qz 128)%Qc))) (codebook j) in
  ls <- export_square_value (v4_no_draw m) s_input s_weight (v4_linears m) ;;
  Ok (map (aligned_write 32) (u2 all :: i1 (List.concat (List.concat (map features [0; 1; 2]%nat))) :: flat_map write_layer ls)).

(** *** Ladder serializers: lines 19-40, 153-251, 253-357 *)
Fixpoint digits (fuel : nat) (index : Z) : list Z :=
  match fuel with
  | O => []
  | S n => let q := index / 3 in index mod 3 :: if q =? 0 then [] else digits n q
  end.
Definition index_to_ladder_chunk (index : Z) : list Z :=
  let chunk := rev (digits (Z.to_nat index + 1) index) in
  fold_left (fun c _ => 0 :: c) (seq 0 (10 - List.length chunk)) chunk.
Definition lower_triangle_index : list nat := [0; 4; 5; 8; 9; 10; 12; 13; 14; 15]%nat.
Definition make_ladder_mapping_input (chunk : list Z) : tensor :=
  let t := fold_left (fun t i =>
    let k := nth i lower_triangle_index 0%nat in
    let c := nth i chunk 0 in
    if 0 <? c then write3 t (Z.to_nat (c - 1)) (k / 4) (k mod 4) 1 else t) (seq 0 10) (fun _ _ _ => 0) in
  map (fun c => map (fun y => map (t c y) (seq 0 4)) (seq 0 4)) [0; 1]%nat.
Definition ladder_table (m : ladder_mapping) : list (list Z) :=
  map (fun i => table_row false (run_mapping m (make_ladder_mapping_input (index_to_ladder_chunk i)))) (zrange 0 (3 ^ 10)).
Definition serialize_ladder (s_weight s_output : Z) (m : ladder) : res (list bytes) :=
  ls <- export_ladder_value (ld_no_draw m) s_weight s_output (ld_linears m) ;;
  Ok (i1 (List.concat (ladder_table (ld_mapping1 m))) ::
      match ld_mapping2 m with Some m2 => [i1 (List.concat (ladder_table m2))] | None => [] end ++ flat_map write_layer ls).

(** The inference program for an exported Mix9 network (C78): integers, products of 16-bit numbers of which the high half is kept, arithmetic shifts,
    saturation to 8 bits, averages that round up. *)
From Coq Require Import QArith Qcanon.
From Verif Require Import Base FlatNet QuantHead.
Set Implicit Arguments. Unset Strict Implicit.
Local Open Scope Z_scope.

Definition sat8 (z : Z) : Z := clip (-128) 127 z.
Definition over_block (f : nat -> nat -> Z) (y0 y1 x0 x1 : nat) : Z :=
  zsum (map (fun y => zsum (map (f y) (seq x0 (x1 - x0)))) (seq y0 (y1 - y0))).

(** ** Features: [t i c y x] is the entry of the tables for direction i and channel c at (y, x) *)
Definition e_reduced (t : nat -> nat -> nat -> nat -> Z) (c y x : nat) : Z := Z.max 0 (t 0%nat c y x + t 1%nat c y x + t 2%nat c y x + t 3%nat c y x).
(** Cells outside of the board count as zero *)
Definition e_padded (h w : nat) (f : nat -> nat -> Z) (y x : Z) : Z :=
  if (0 <=? y) && (y <? Z.of_nat h) && (0 <=? x) && (x <? Z.of_nat w) then f (Z.to_nat y) (Z.to_nat x) else 0.
(** Tap k of the depthwise convolution: (a * b) >> 16 *)
Definition e_tap (e : mix9_file) (h w : nat) (t : nat -> nat -> nat -> nat -> Z) (c y x k : nat) : Z :=
  4 * e_padded h w (e_reduced t c) (Z.of_nat y + Z.of_nat (k / 3) - 1) (Z.of_nat x + Z.of_nat (k mod 3) - 1) * nth c (nth k (f_dw e) []) 0 / 65536.
Definition e_dwconv (e : mix9_file) (h w : nat) (t : nat -> nat -> nat -> nat -> Z) (c y x : nat) : Z :=
  nth c (f_dw_bias e) 0 + zsum (map (e_tap e h w t c y x) (seq 0 9)).
(** Channels of the convolution (D of them): saturated to 16 bits, relu; the others as they are *)
Definition e_feature (D : nat) (e : mix9_file) (h w : nat) (t : nat -> nat -> nat -> nat -> Z) (c y x : nat) : Z :=
  if (c <? D)%nat then Z.max 0 (Z.min 32767 (e_dwconv e h w t c y x)) else e_reduced t c y x.

(** ** Layers *)
Definition e_linear (l : layer_ints) (xs : list Z) : list Z := map2 (fun row b => zsum (map2 Z.mul xs row) + b) (fst l) (snd l).
Definition e_shift8 (xs : list Z) : list Z := map (fun a => sat8 (a / 128)) xs.
Definition e_relu (xs : list Z) : list Z := map (Z.max 0) xs.
Fixpoint e_pairs (xs : list Z) : list Z := match xs with a :: b :: r => (a + b) :: e_pairs r | _ => [] end.
(** From 8-bit inputs to 8-bit outputs *)
Definition e_block (b : block_ints) (xs : list Z) : list Z :=
  match b with
  | PlainInts l => e_shift8 (e_relu (e_linear l xs))
  | StarInts up1 up2 down =>
      let u := e_shift8 (e_relu (e_linear up1 xs)) in
      let v := e_shift8 (e_linear up2 xs) in
      e_shift8 (e_relu (e_linear down (e_shift8 (e_pairs (map2 Z.mul u v)))))
  end.
Definition e_avg (a b : Z) : Z := (a + b + 1) / 2.
Definition e_avg4 (a b c d : list Z) : list Z := map2 e_avg (map2 e_avg a b) (map2 e_avg c d).
Definition e_mlp (e : mix9_file) (xs : list Z) : list Z :=
  e_linear (f_value3 e) (e_shift8 (e_relu (e_linear (f_value2 e) (e_shift8 (e_relu (e_linear (f_value1 e) xs)))))).

(** ** Nine groups: n rows (columns) are cut after the first third, rounded to the nearest, and before as many at the end *)
Definition third (n : nat) : nat := ((n + 1) / 3)%nat.
Definition bounds (n : nat) : list (nat * nat) := [(0, third n); (third n, n - third n); (n - third n, n)]%nat.
Definition e_group (e : mix9_file) (D F h w : nat) (t : nat -> nat -> nat -> nat -> Z) (i j : nat) : list Z :=
  let '(y0, y1) := nth i (bounds h) (0, 0)%nat in let '(x0, x1) := nth j (bounds w) (0, 0)%nat in
  map (fun c => sat8 (over_block (e_feature D e h w t c) y0 y1 x0 x1 / 32)) (seq 0 F).
Definition e_whole (e : mix9_file) (D F h w : nat) (t : nat -> nat -> nat -> nat -> Z) : list Z :=
  map (fun c => over_block (e_feature D e h w t c) 0 h 0 w / 256) (seq 0 F).
(** The three outputs in units of 2^-14 *)
Definition e_value (e : mix9_file) (D F h w : nat) (t : nat -> nat -> nat -> nat -> Z) : list Z :=
  let whole := map sat8 (e_whole e D F h w t) in
  match f_groups e with
  | None => e_mlp e whole
  | Some (corner, edge, center, quad) =>
      let v i j := e_block (if Nat.eqb i 1 then (if Nat.eqb j 1 then center else edge) else (if Nat.eqb j 1 then edge else corner)) (e_group e D F h w t i j) in
      let q i j := e_block quad (e_avg4 (v i j) (v i (j + 1)) (v (i + 1) j) (v (i + 1) (j + 1)))%nat in
      e_mlp e (whole ++ q 0 0 ++ q 0 1 ++ q 1 0 ++ q 1 1)%nat
  end.
(** Policy: sixteen accumulators for each cell, in units of 2^-21, then the last layer in floating point *)
Definition e_policy (e : mix9_file) (D F P h w : nat) (t : nat -> nat -> nat -> nat -> Z) (y x o : nat) : Z :=
  let input := map (fun c => e_feature D e h w t c y x) (seq 0 P) in
  Z.max 0 (match f_policy e with
           | StaticInts ws b => zsum (map2 Z.mul input (nth o ws [])) + nth o b 0
           | DynamicInts l1 l2 =>
               let out := e_linear l2 (e_shift8 (e_relu (e_linear l1 (map sat8 (e_whole e D F h w t))))) in
               zsum (map (fun c => e_feature D e h w t c y x * clip (-32768) 32767 (nth (o * P + c) out 0)) (seq 0 P)) + 128 * nth (16 * P + o) out 0
           end).

(** ** Well-formed networks: the shapes that the constructor makes *)
Definition linear_ok (outputs inputs : nat) (l : linear) : Prop :=
  List.length (weight l) = outputs /\ Forall (fun r => List.length r = inputs) (weight l) /\ List.length (bias l) = outputs /\ weight_scale l = 128.
Definition block_ok (outputs inputs : nat) (b : block) : Prop :=
  match b with
  | Plain l => linear_ok outputs inputs l
  | Star u v d => linear_ok (2 * outputs) inputs u /\ linear_ok (2 * outputs) inputs v /\ linear_ok outputs outputs d
  end.
(** F features, V for each group, D of the depthwise convolution, P for the policy *)
Definition mix9_ok (F V D P : nat) (m : mix9) : Prop :=
  dim_feature m = F /\ dim_policy m = P /\ (P <= D <= F)%nat /\
  List.length (dw_weight m) = D /\ Forall (fun r => List.length r = 9%nat) (dw_weight m) /\ List.length (dw_bias m) = D /\
  match groups m with
  | None => linear_ok V F (value1 m)
  | Some g => block_ok V F (corner g) /\ block_ok V F (edge g) /\ block_ok V F (center g) /\ block_ok V V (quad g) /\ linear_ok V (F + 4 * V) (value1 m)
  end /\ linear_ok V V (value2 m) /\ linear_ok 3 V (value3 m) /\
  match policy m with
  | Static w b => List.length w = 16%nat /\ Forall (fun r => List.length r = P) w /\ List.length b = 16%nat
  | Dynamic l1 l2 => linear_ok (2 * P) F l1 /\ linear_ok (16 * P + 16) (2 * P) l2
  end /\ List.length (out_weight m) = 16%nat.
(** The biases of the depthwise convolution that the export does not change *)
Definition bias_kept (m : mix9) : Prop := Forall (fun b => (Qz (-64) <= b)%Qc /\ (b <= Qz 64)%Qc) (dw_bias m).

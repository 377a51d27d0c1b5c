(** The inference program that reads an exported flat network (C74, C75): only integers, bytes of the file at the offsets that C gives to the
    members of the documented structs, tables indexed by base-3 codes of cells, integer layers with arithmetic shifts. *)
From Coq Require Import QArith Qcanon.
From Verif Require Import Base FlatNet.
Set Implicit Arguments. Unset Strict Implicit.
Local Open Scope Z_scope.

(** ** Reading integers from a file *)
Definition byte (file : list Z) (off : Z) : Z := nth (Z.to_nat off) file 0.
Definition signed (bits v : Z) : Z := if v <? 2 ^ (bits - 1) then v else v - 2 ^ bits.
Definition int8_at (file : list Z) (off : Z) : Z := signed 8 (byte file off).
Definition uint16_at (file : list Z) (off : Z) : Z := byte file off + 256 * byte file (off + 1).
Definition int32_at (file : list Z) (off : Z) : Z :=
  signed 32 (byte file off + 256 * byte file (off + 1) + 65536 * byte file (off + 2) + 16777216 * byte file (off + 3)).
(** A signed 4-bit value with offset 8: even features in the low half of the byte, odd ones in the high half *)
Definition int4_at (file : list Z) (off j : Z) : Z :=
  let b := byte file (off + j / 2) in (if Z.even j then b mod 16 else b / 16) - 8.

(** ** Structs: each member (alignment, size) starts at the next multiple of its alignment *)
Fixpoint offsets (off : Z) (members : list (Z * Z)) : list Z :=
  match members with
  | [] => []
  | (align, size) :: r => let o := (off + align - 1) / align * align in o :: offsets (o + size) r
  end.
Definition offset (members : list (Z * Z)) (i : nat) : Z := nth i (offsets 0 members) 0.

(** ** Integer layers *)
(** Row o: the weights at woff + o * (number of inputs) against the inputs, plus the bias *)
Definition dense (file : list Z) (woff boff : Z) (outputs : nat) (xs : list Z) : list Z :=
  map (fun o => zsum (map (fun j => int8_at file (woff + Z.of_nat o * zlen xs + Z.of_nat j) * nth j xs 0) (seq 0 (List.length xs)))
                + int32_at file (boff + 4 * Z.of_nat o)) (seq 0 outputs).
(** The layers (offset of weights, of biases, number of outputs, scale of the weights); between layers the accumulators are divided by the scale
    of the weights (a shift, rounding down) and clipped to [0, 127]. *)
Fixpoint value_head (file : list Z) (lowest : Z) (layers : list (Z * Z * nat * Z)) (xs : list Z) : list Z :=
  match layers with
  | [] => xs
  | (woff, boff, outputs, scale) :: r =>
      let acc := dense file woff boff outputs (map (clip lowest 127) xs) in
      match r with [] => acc | _ => value_head file 0 r (map (fun a => a / scale) acc) end
  end.

(** ** Tables *)
(** The number with digits [cells], the first cell lowest *)
Fixpoint code (cells : list Z) : Z := match cells with [] => 0 | c :: r => c + 3 * code r end.
Definition cells (p : plane Z) : list Z := List.concat (rows p).
Definition columns (l : list (list Z)) (F : nat) : list Z := map (fun j => zsum (map (fun r => nth j r 0) l)) (seq 0 F).
Definition indexed A (l : list A) : list (nat * A) := combine (seq 0 (List.length l)) l.

(** struct FlatSquare7x7NNUEv4Weight: every member aligned to 32 bytes *)
Definition v4_struct (F : Z) : list (Z * Z) :=
  [(32, 3 * 3 ^ 16 * F); (32, 32 * F); (32, 32 * 4); (32, 32 * 32); (32, 32 * 4); (32, 4 * 32); (32, 4 * 4)].
(** The rows that the sixteen chunks select *)
Definition v4_rows (F : nat) (file : list Z) (board : plane Z) : list (list Z) :=
  let f := Z.of_nat F in
  let off := offset (v4_struct f) in
  let row j q := let i := code (cells (square_chunk q board)) in map (fun k => int8_at file (off 0%nat + (Z.of_nat j * 3 ^ 16 + i) * f + Z.of_nat k)) (seq 0 F) in
  flat_map (fun '(j, l) => map (row j) l) (indexed v4_indices).
Definition v4_engine (F : nat) (file : list Z) (board : plane Z) : list Z :=
  let off := offset (v4_struct (Z.of_nat F)) in
  let feature := columns (v4_rows F file board) F in
  value_head file (-128) [(off 1, off 2, 32, 256%Z); (off 3, off 4, 32, 128%Z); (off 5, off 6, 4, 128%Z)]%nat feature.

(** struct FlatSquare7x7NNUEv4VQWeight *)
Definition v4vq_struct (C F : Z) : list (Z * Z) :=
  [(32, 3 * 3 ^ 16 * 2); (32, 3 * C * F); (32, 32 * F); (32, 32 * 4); (32, 32 * 32); (32, 32 * 4); (32, 4 * 32); (32, 4 * 4)].
Definition v4vq_rows (C : Z) (F : nat) (file : list Z) (board : plane Z) : list (list Z) :=
  let f := Z.of_nat F in
  let off := offset (v4vq_struct C f) in
  let row j q := let i := uint16_at file (off 0%nat + 2 * (Z.of_nat j * 3 ^ 16 + code (cells (square_chunk q board)))) in
                 map (fun k => int8_at file (off 1%nat + (Z.of_nat j * C + i) * f + Z.of_nat k)) (seq 0 F) in
  flat_map (fun '(j, l) => map (row j) l) (indexed v4_indices).
Definition v4vq_engine (C : Z) (F : nat) (file : list Z) (board : plane Z) : list Z :=
  let off := offset (v4vq_struct C (Z.of_nat F)) in
  let feature := columns (v4vq_rows C F file board) F in
  value_head file (-128) [(off 2, off 3, 32, 256%Z); (off 4, off 5, 32, 128%Z); (off 6, off 7, 4, 128%Z)]%nat feature.

(** struct FlatSquare7x7NNUEv2Weight: natural alignment.  With 4-bit features of the corners one unit is 1/8, so 16/128. *)
Definition v2_struct (int4 : bool) (F : Z) : list (Z * Z) :=
  [(1, 3 ^ 16 * (if int4 then F / 2 else F)); (1, 3 ^ 12 * F); (1, 32 * (F * 4)); (4, 32 * 4); (1, 32 * 32); (4, 32 * 4); (1, 4 * 32); (4, 4 * 4)].
Definition v2_engine (int4 : bool) (F : nat) (file : list Z) (board : plane Z) : list Z :=
  let f := Z.of_nat F in
  let off := offset (v2_struct int4 f) in
  let corner q := let i := code (cells (square_chunk q board)) in
    map (fun k => if int4 then 16 * int4_at file (off 0%nat + i * (f / 2)) (Z.of_nat k) else int8_at file (off 0%nat + i * f + Z.of_nat k)) (seq 0 F) in
  let middle q := let i := code (cells (square_chunk q board)) in map (fun k => int8_at file (off 1%nat + i * f + Z.of_nat k)) (seq 0 F) in
  value_head file (-128) [(off 2, off 3, 32, 256%Z); (off 4, off 5, 32, 128%Z); (off 6, off 7, 4, 128%Z)]%nat
    (map2 Z.add (flat_map corner corner_index) (flat_map middle middle_index)).

(** struct FlatSquare7x7NNUEv3Weight.  With 8-bit features the corner tables are unsigned with offset 128 and averaged by the instruction that
    rounds up: (a + b + 1) / 2 of two unsigned bytes. *)
Definition v3_struct (int4 : bool) (F : Z) : list (Z * Z) :=
  [(1, 3 * 3 ^ 12 * (if int4 then F / 2 else F)); (1, 64 * (F * 4)); (4, 64 * 4); (1, 32 * 64); (4, 32 * 4); (1, 4 * 32); (4, 4 * 4)].
Definition v3_engine (int4 : bool) (F : nat) (file : list Z) (board : plane Z) : list Z :=
  let f := Z.of_nat F in
  let off := offset (v3_struct int4 f) in
  let entry j q := Z.of_nat j * 3 ^ 12 + code (cells (square_chunk q board)) in
  let nibbles j q := map (fun k => 16 * int4_at file (off 0%nat + entry j q * (f / 2)) (Z.of_nat k)) (seq 0 F) in
  let unsigned j q := map (fun k => byte file (off 0%nat + entry j q * f + Z.of_nat k)) (seq 0 F) in
  let plain j q := map (fun k => int8_at file (off 0%nat + entry j q * f + Z.of_nat k)) (seq 0 F) in
  let corner := if int4 then map2 (fun a b => (a + b) / 2) (flat_map (nibbles 0%nat) v3_corner1) (flat_map (nibbles 1%nat) v3_corner2)
                else map2 (fun a b => (a + b + 1) / 2 - 128) (flat_map (unsigned 0%nat) v3_corner1) (flat_map (unsigned 1%nat) v3_corner2) in
  let middle := if int4 then flat_map (nibbles 2%nat) v3_middle else flat_map (plain 2%nat) v3_middle in
  value_head file (-128) [(off 1, off 2, 64, 256%Z); (off 3, off 4, 32, 128%Z); (off 5, off 6, 4, 128%Z)]%nat (map2 Z.add corner middle).

(** struct FlatLadder7x7NNUEv1Weight and v2 (T = 1, 2 tables): cells on and below the diagonal, row by row, the first cell the highest digit *)
Definition ladder_struct (T P V : Z) : list (Z * Z) :=
  [(1, T * 3 ^ 10 * (P + V)); (1, 32 * V); (4, 32 * 4); (1, 32 * 32); (4, 32 * 4); (1, 32 * 32); (4, 32 * 4); (1, 4 * 32); (4, 4 * 4)].
Definition triangle (p : plane Z) : list Z := flat_map (fun y => map (at_ p y) (seq 0 (y + 1))) (seq 0 4).
Definition ladder_engine (T P V : nat) (file : list Z) (board : plane Z) : list Z :=
  let w := Z.of_nat (P + V) in
  let off := offset (ladder_struct (Z.of_nat T) (Z.of_nat P) (Z.of_nat V)) in
  let row t q := let i := code (rev (triangle (ladder_chunk q board))) in map (fun k => int8_at file (off 0%nat + (Z.of_nat t * 3 ^ 10 + i) * w + Z.of_nat k)) (seq 0 (P + V)) in
  let feature := columns (map (row 0%nat) mapping1_index ++ (if (T =? 2)%nat then map (row 1%nat) mapping2_index else [])) (P + V) in
  value_head file 0 [(off 1, off 2, 32, 128%Z); (off 3, off 4, 32, 128%Z); (off 5, off 6, 32, 128%Z); (off 7, off 8, 4, 128%Z)]%nat (skipn P feature).

(** ** Shapes and boards *)
Definition shaped (outputs inputs : nat) (l : linear) : Prop :=
  List.length (weight l) = outputs /\ Forall (fun r => List.length r = inputs) (weight l) /\ List.length (bias l) = outputs.
Definition outputs (no_draw : bool) : nat := if no_draw then 1 else 3.
(** The layers of the square networks with their scales of weights; F inputs, H hidden *)
Definition square_shape (inputs hidden : nat) (no_draw : bool) (ls : list linear) : Prop :=
  exists l1 l2 l3, ls = [l1; l2; l3] /\ shaped hidden inputs l1 /\ shaped 32 hidden l2 /\ shaped (outputs no_draw) 32 l3 /\
    weight_scale l1 = 256 /\ weight_scale l2 = 128 /\ weight_scale l3 = 128.
Definition ladder_shape (inputs : nat) (no_draw : bool) (ls : list linear) : Prop :=
  exists l1 l2 l3 l4, ls = [l1; l2; l3; l4] /\ shaped 32 inputs l1 /\ shaped 32 32 l2 /\ shaped 32 32 l3 /\ shaped (outputs no_draw) 32 l4 /\
    weight_scale l1 = 128 /\ weight_scale l2 = 128 /\ weight_scale l3 = 128 /\ weight_scale l4 = 128.
(** A 7x7 board of empty (0) cells and stones of two sides (1, 2) *)
Definition board7 (b : plane Z) : Prop := height b = 7%nat /\ width b = 7%nat /\ forall y x, (y < 7)%nat -> (x < 7)%nat -> 0 <= at_ b y x <= 2.
(** The engine's integers are the values in units of 2^-14; the outputs that the network does not have are zero. *)
Definition same_value (no_draw : bool) (value : vec) (ints : list Z) : Prop :=
  exists zs, ints = zs ++ repeat 0 (4 - outputs no_draw) /\ List.length zs = outputs no_draw /\ value = map (fun z => Q2Qc (z # 16384)) zs.

(** C74-C77: flat 7x7 networks and the files that engines read (FlatNet.v, FlatNetSpec.v). *)
From Coq Require Import QArith Qcanon Permutation.
From Verif Require Import Base BaseFacts Rng FlatNet FlatNetSpec FlatNetFacts FlatNetTables FlatNetFile FlatNetWhole FlatNetV4 FlatNetV2 FlatNetV3 FlatNetMore FlatNetLadder.
Set Implicit Arguments. Unset Strict Implicit.
Local Open Scope Z_scope.

(** ** C74: the engine computes from the file what the network computes, on every board *)
Theorem C74_v4_file_gives_the_value_of_the_network F m batch bufs b : 0 < batch ->
  (forall j t, List.length (v4_mapping m j t) = F) -> square_shape F 32 (v4_no_draw m) (v4_linears m) -> board7 b ->
  serialize_v4 256 128 batch m = Ok bufs ->
  same_value (v4_no_draw m) (v4_forward m NoVq b) (v4_engine F (List.concat bufs) b).
Proof. exact (@v4_exact F m batch bufs b). Qed.
Theorem C74_v4vq_file_gives_the_value_of_the_network F C m batch codebook search bufs b : 0 < batch ->
  (forall j t, List.length (v4_mapping m j t) = F) -> square_shape F 32 (v4_no_draw m) (v4_linears m) -> board7 b ->
  (forall j, zlen (codebook j) = C /\ Forall (fun r : vec => List.length r = F) (codebook j)) ->
  serialize_v4vq 256 128 batch m C codebook search = Ok bufs ->
  same_value (v4_no_draw m) (v4_forward m (Vq codebook search) b) (v4vq_engine C F (List.concat bufs) b).
Proof. exact (@v4vq_exact F C m batch codebook search bufs b). Qed.
(** Without a multiple of 4 (8 for 4-bit features) the file lacks the padding of the struct: F49. *)
Theorem C74_v2_file_gives_the_value_of_the_network F m batch bufs b : 0 < batch ->
  (forall t, List.length (v2_mapping4x4 m t) = F) -> (forall t, List.length (v2_mapping4x3 m t) = F) ->
  (F mod (if v2_int4 m then 8 else 4))%nat = 0%nat -> square_shape (4 * F) 32 (v2_no_draw m) (v2_linears m) -> board7 b ->
  serialize_v2 256 128 batch m = Ok bufs ->
  same_value (v2_no_draw m) (v2_forward m b) (v2_engine (v2_int4 m) F (List.concat bufs) b).
Proof.
  intros HB M1 M2 D SS B E. assert (H : exists h, F = (2 * h)%nat /\ (if v2_int4 m then (h mod 4)%nat = 0%nat else (h mod 2)%nat = 0%nat)).
  { destruct (v2_int4 m); apply Nat.mod_divides in D; try lia; destruct D as [c ->]; [exists (4 * c)%nat|exists (2 * c)%nat]; (split; [lia|rewrite Nat.mul_comm; apply Nat.mod_mul; lia]). }
  destruct H as (h & -> & H). exact (@v2_exact h m batch bufs b HB M1 M2 H SS B E).
Qed.
Theorem C74_v3_file_gives_the_value_of_the_network F m batch bufs b : 0 < batch ->
  (forall j t, List.length (v3_mapping m j t) = F) ->
  (F mod (if v3_int4 m then 8 else 4))%nat = 0%nat -> square_shape (4 * F) 64 (v3_no_draw m) (v3_linears m) -> board7 b ->
  serialize_v3 256 128 batch m = Ok bufs ->
  same_value (v3_no_draw m) (v3_forward m b) (v3_engine (v3_int4 m) F (List.concat bufs) b).
Proof.
  intros HB M1 D SS B E. assert (H : exists h, F = (2 * h)%nat /\ (if v3_int4 m then (h mod 4)%nat = 0%nat else (h mod 2)%nat = 0%nat)).
  { destruct (v3_int4 m); apply Nat.mod_divides in D; try lia; destruct D as [c ->]; [exists (4 * c)%nat|exists (2 * c)%nat]; (split; [lia|rewrite Nat.mul_comm; apply Nat.mod_mul; lia]). }
  destruct H as (h & -> & H). exact (@v3_exact h m batch bufs b HB M1 H SS B E).
Qed.

(** The ladder networks: rows have the features of both heads, of which the value head uses those behind the first P (F50). *)
Theorem C74_ladder_file_gives_the_value_of_the_network P V m bufs b : ((P + V) mod 4 = 0)%nat -> ld_dim_policy m = P ->
  (forall mapping t, mapping = ld_mapping1 m \/ ld_mapping2 m = Some mapping -> List.length (run_mapping mapping t) = (P + V)%nat) ->
  ladder_shape V (ld_no_draw m) (ld_linears m) -> board7 b ->
  serialize_ladder 128 128 m = Ok bufs ->
  same_value (ld_no_draw m) (ladder_forward m b) (ladder_engine (match ld_mapping2 m with Some _ => 2 | None => 1 end) P V (List.concat bufs) b).
Proof. exact (@ladder_exact P V m bufs b). Qed.

(** ** C75: no integer of the engine overflows *)
(** Sums of the rows' entries, after any number of rows *)
Theorem C75_v4_feature_sums_fit_16_bits F m batch bufs b n j : serialize_v4 256 128 batch m = Ok bufs ->
  -2048 <= zsum (map (fun r => nth j r 0) (firstn n (v4_rows F (List.concat bufs) b))) <= 2032.
Proof. intros E. apply v4_rows_fit. exact (v4_file_bytes E). Qed.
Theorem C75_v4vq_feature_sums_fit_16_bits F C m batch codebook search bufs b n j : serialize_v4vq 256 128 batch m C codebook search = Ok bufs ->
  -2048 <= zsum (map (fun r => nth j r 0) (firstn n (v4vq_rows C F (List.concat bufs) b))) <= 2032.
Proof. intros E. apply v4vq_rows_fit. exact (v4vq_file_bytes E). Qed.
(** Any row of any exported layer, its products added to its bias in any order *)
Theorem C75_layers_fit_32_bits s l lowest xs row c products n : 0 < s <= 256 -> Forall (fun x => (Qz (-1000) <= x)%Qc /\ (x <= Qz 1000)%Qc) (bias l) ->
  zlen xs <= 65536 -> -128 <= lowest <= 127 -> List.In (row, c) (combine (fst (export_layer s l)) (snd (export_layer s l))) ->
  Permutation products (map2 Z.mul row (map (clip lowest 127) xs)) -> - 2 ^ 31 <= c + zsum (firstn n products) <= 2 ^ 31 - 1.
Proof.
  intros S B N L I P. apply (@layer_fits s l (map (clip lowest 127) xs) row c products n S B); try assumption.
  - unfold zlen in *. now rewrite map_length.
  - apply Forall_map, Forall_forall. intros x _. pose proof (@clip_in lowest 127 x ltac:(lia)). unfold int8. lia.
Qed.

(** ** C76: the value does not depend on how the board is turned *)
Theorem C76_v4_value_is_the_same_on_the_rotated_board m vq b k : board7 b -> v4_forward m vq (rot90 k b) = v4_forward m vq b.
Proof. exact (@v4_forward_turn m vq b k). Qed.
Theorem C76_ladder_value_is_the_same_on_the_rotated_board m b k : board7 b -> ladder_forward m (rot90 k b) = ladder_forward m b.
Proof. exact (@ladder_forward_turn m b k). Qed.
Theorem C76_ladder_v1_value_is_the_same_on_the_mirrored_board m b : ld_mapping2 m = None -> board7 b -> ladder_forward m (transpose b) = ladder_forward m b.
Proof. exact (@ladder_forward_mirror m b). Qed.

(** ** C77: exactly the networks whose first layer is representable are exported *)
Definition representable (l : linear) : Prop := forall row w, List.In row (weight l) -> List.In w row -> (Q2Qc (-257 # 512) <= w)%Qc /\ (w < Q2Qc (255 # 512))%Qc.
Lemma representable_storable l : representable l <-> storable l.
Proof.
  unfold representable, storable. split.
  - intros H. apply Forall_forall. intros r R. apply Forall_forall. intros w W. exact (H r w R W).
  - intros H r w R W. rewrite Forall_forall in H. specialize (H r R). rewrite Forall_forall in H. now apply H.
Qed.
Theorem C77_v4_exports_exactly_representable_networks batch m l1 l2 l3 : v4_linears m = [l1; l2; l3] ->
  (representable l1 -> exists bufs, serialize_v4 256 128 batch m = Ok bufs) /\ (~ representable l1 -> serialize_v4 256 128 batch m = Err AssertionError).
Proof. rewrite representable_storable. exact (@v4_exportable batch m l1 l2 l3). Qed.
Theorem C77_v2_exports_exactly_representable_networks h batch m l1 l2 l3 : 0 < batch -> v2_linears m = [l1; l2; l3] -> (forall t, List.length (v2_mapping4x4 m t) = (2 * h)%nat) ->
  (representable l1 -> exists bufs, serialize_v2 256 128 batch m = Ok bufs) /\ (~ representable l1 -> serialize_v2 256 128 batch m = Err AssertionError).
Proof. rewrite representable_storable. exact (@v2_exportable h batch m l1 l2 l3). Qed.
Theorem C77_v3_exports_exactly_representable_networks h batch m l1 l2 l3 : 0 < batch -> v3_linears m = [l1; l2; l3] -> (forall j t, List.length (v3_mapping m j t) = (2 * h)%nat) ->
  (representable l1 -> exists bufs, serialize_v3 256 128 batch m = Ok bufs) /\ (~ representable l1 -> serialize_v3 256 128 batch m = Err AssertionError).
Proof. rewrite representable_storable. exact (@v3_exportable h batch m l1 l2 l3). Qed.
(** The ladder networks check all four layers, but against int(w * 128): weights from 255/256 up to 1 are stored as 127, as the network itself uses them. *)
Theorem C77_ladder_exports_exactly_networks_within_one m l1 l2 l3 l4 : ld_linears m = [l1; l2; l3; l4] ->
  let fits := forall l row w, List.In l [l1; l2; l3; l4] -> List.In row (weight l) -> List.In w row -> (Q2Qc (-129 # 128) < w)%Qc /\ (w < 1)%Qc in
  (fits -> exists bufs, serialize_ladder 128 128 m = Ok bufs) /\ (~ fits -> serialize_ladder 128 128 m = Err AssertionError).
Proof.
  intros E fits. assert (H : fits <-> Forall fits128 [l1; l2; l3; l4]).
  { unfold fits, fits128. rewrite Forall_forall. split.
    - intros H l L. apply Forall_forall. intros r R. apply Forall_forall. intros w W. exact (H l r w L R W).
    - intros H l r w L R W. specialize (H l L). rewrite Forall_forall in H. specialize (H r R). rewrite Forall_forall in H. now apply H. }
  rewrite H. exact (@ladder_exportable m l1 l2 l3 l4 E).
Qed.
(** What v3 clips its first layer to is representable. *)
Theorem C77_clipped_weights_are_representable l : (forall row w, List.In row (weight l) -> List.In w row -> (Q2Qc (-128 # 256) <= w)%Qc /\ (w <= Q2Qc (127 # 256))%Qc) -> representable l.
Proof.
  intros H row w R W. destruct (H row w R W) as [A B]. split.
  - apply Qcle_trans with (Q2Qc (-128 # 256)); [discriminate|exact A].
  - apply Qcle_lt_trans with (Q2Qc (127 # 256)); [exact B|reflexivity].
Qed.

(** ** Toys *)
(** Two features: how many stones of each side a chunk has, divided by 8; the layers copy, mix and pad. *)
Definition count (p : list (list Z)) : Qc := (Qz (zsum (List.concat p)) / Qz 8)%Qc.
Definition toy_mapping (j : nat) (t : tensor) : vec := match j with O => [count (nth 0 t []); count (nth 1 t []); 0; 0]%Qc | _ => [0; 0; count (nth 0 t []); - count (nth 1 t [])]%Qc end.
Definition row_of (n : nat) (l : list (nat * Qc)) : vec := map (fun i => fold_right Qcplus 0%Qc (map snd (filter (fun p => (fst p =? i)%nat) l))) (seq 0 n).
Definition toy_layer (outputs inputs : nat) (s : Z) (w : Qc) : linear := Linear (map (fun o => row_of inputs [(o mod inputs, w)])%nat (seq 0 outputs)) (repeat (1 / Qz 4)%Qc outputs) s.
Definition toy_v4 (w : Qc) : v4 := V4 toy_mapping [toy_layer 32 4 256 w; toy_layer 32 32 128 (1 / Qz 2)%Qc; toy_layer 3 32 128 (Qz (-1) / Qz 2)%Qc] false.
Definition toy_board (s : Z) : plane Z := Plane 7 7 (fun y x => if ((y =? 0) && (x =? 2))%nat then 1 else if ((y =? 5) && (x =? 3))%nat then s else 0).
Lemma toy_mapping_length j t : List.length (toy_mapping j t) = 4%nat. Proof. destruct j; reflexivity. Qed.
Lemma toy_board7 s : 0 <= s <= 2 -> board7 (toy_board s).
Proof. intros H. split; [reflexivity|split; [reflexivity|]]. intros y x _ _. cbn [at_ toy_board]. repeat match goal with |- context [if ?c then _ else _] => destruct c end; lia. Qed.
Lemma toy_shape w : square_shape 4 32 false (v4_linears (toy_v4 w)).
Proof. do 3 eexists. split; [reflexivity|]. repeat split; try reflexivity; repeat (constructor; [reflexivity|]); constructor. Qed.
Definition toy_weight : Qc := (1 / Qz 4)%Qc.
Lemma toy_representable : representable (toy_layer 32 4 256 toy_weight).
Proof.
  intros row w R W. assert (E : forallb (fun r => forallb (fun w => Qle_bool 0 (this w) && Qle_bool (this w) (1 # 4)) r) (weight (toy_layer 32 4 256 toy_weight)) = true) by (vm_compute; reflexivity).
  rewrite forallb_forall in E. specialize (E _ R). rewrite forallb_forall in E. specialize (E _ W). apply andb_true_iff in E. destruct E as [A B]. apply Qle_bool_iff in A, B. split.
  - apply Qcle_trans with 0%Qc; [discriminate|exact A].
  - apply Qcle_lt_trans with (Q2Qc (1 # 4)); [exact B|reflexivity].
Qed.
(** The toy is exported, so its file gives its value, which is not a constant. *)
Example toy_file s : 0 <= s <= 2 -> exists bufs, serialize_v4 256 128 4096 (toy_v4 toy_weight) = Ok bufs /\ same_value false (v4_forward (toy_v4 toy_weight) NoVq (toy_board s)) (v4_engine 4 (List.concat bufs) (toy_board s)).
Proof.
  intros S. destruct (@C77_v4_exports_exactly_representable_networks 4096 (toy_v4 toy_weight) _ _ _ eq_refl) as [H _]. destruct (H toy_representable) as [bufs E]. exists bufs. split; [exact E|].
  apply (@C74_v4_file_gives_the_value_of_the_network 4 (toy_v4 toy_weight) 4096 bufs (toy_board s) ltac:(lia) toy_mapping_length (toy_shape toy_weight) (toy_board7 S) E).
Qed.
Example toy_values : map (fun s => map this (v4_forward (toy_v4 toy_weight) NoVq (toy_board s))) [0; 1; 2] = [[7 # 128; 1 # 16; 3 # 64]; [5 # 128; 1 # 16; 1 # 256]; [7 # 128; 3 # 64; 3 # 64]]%Q.
Proof. vm_compute. reflexivity. Qed.
(** F47: 1/2 is within the limits (-1 and 127/128) to which v2 and v4 clip their first layer in training, but cannot be exported. *)
Example toy_not_exported : (bottom <= 1 / Qz 2)%Qc /\ (1 / Qz 2 <= top)%Qc /\ serialize_v4 256 128 4096 (toy_v4 (1 / Qz 2)%Qc) = Err AssertionError.
Proof.
  split; [discriminate|]. split; [discriminate|].
  destruct (@C77_v4_exports_exactly_representable_networks 4096 (toy_v4 (1 / Qz 2)%Qc) _ _ _ eq_refl) as [_ H]. apply H. intros R.
  destruct (R (row_of 4 [(0%nat, (1 / Qz 2)%Qc)]) (1 / Qz 2)%Qc) as [_ L]; [left; reflexivity|left; vm_compute; f_equal; apply Qc_is_canon; reflexivity|]. vm_compute in L. discriminate.
Qed.
(** The same chunk values on the turned board; the accumulators of the toy's first layer *)
Example toy_turned : map this (v4_forward (toy_v4 toy_weight) NoVq (rot90 3 (toy_board 2))) = [7 # 128; 3 # 64; 3 # 64]%Q.
Proof. rewrite C76_v4_value_is_the_same_on_the_rotated_board by (apply toy_board7; lia). vm_compute. reflexivity. Qed.
Example toy_layer_ints : let e := export_layer 256 (toy_layer 32 4 256 toy_weight) in nth 5 (fst e) [] = [0; 64; 0; 0] /\ nth 5 (snd e) 0 = 8192.
Proof. vm_compute. split; reflexivity. Qed.
(** v2 and v3 with the same kind of layers: a board's file and value *)
Definition toy_v2 : v2 := V2 (fun t => toy_mapping 0 t ++ toy_mapping 1 t) (fun t => toy_mapping 1 t ++ toy_mapping 0 t) true
  [toy_layer 32 32 256 toy_weight; toy_layer 32 32 128 (1 / Qz 2)%Qc; toy_layer 1 32 128 (Qz (-1) / Qz 2)%Qc] true.
Example toy_v2_file s : 0 <= s <= 2 -> exists bufs, serialize_v2 256 128 4096 toy_v2 = Ok bufs /\ same_value true (v2_forward toy_v2 (toy_board s)) (v2_engine true 8 (List.concat bufs) (toy_board s)).
Proof.
  intros S. assert (L4 : forall t, List.length (v2_mapping4x4 toy_v2 t) = 8%nat) by reflexivity.
  destruct (@C77_v2_exports_exactly_representable_networks 4 4096 toy_v2 _ _ _ ltac:(lia) eq_refl L4) as [H _]. destruct H as [bufs E].
  - intros row w R W. assert (X : forallb (fun r => forallb (fun w => Qle_bool 0 (this w) && Qle_bool (this w) (1 # 4)) r) (weight (toy_layer 32 32 256 toy_weight)) = true) by (vm_compute; reflexivity).
    rewrite forallb_forall in X. specialize (X _ R). rewrite forallb_forall in X. specialize (X _ W). apply andb_true_iff in X. destruct X as [A B]. apply Qle_bool_iff in A, B. split.
    + apply Qcle_trans with 0%Qc; [discriminate|exact A].
    + apply Qcle_lt_trans with (Q2Qc (1 # 4)); [exact B|reflexivity].
  - exists bufs. split; [exact E|].
    assert (SS : square_shape (4 * 8) 32 (v2_no_draw toy_v2) (v2_linears toy_v2)).
    { do 3 eexists. split; [reflexivity|]. repeat split; try reflexivity; repeat (constructor; [reflexivity|]); constructor. }
    exact (@C74_v2_file_gives_the_value_of_the_network 8 toy_v2 4096 bufs (toy_board s) ltac:(lia) L4 (fun t => eq_refl) eq_refl SS (toy_board7 S) E).
Qed.
(** Ladder networks: cells of each side travel to the corner through three layers. *)
Definition toy_conv (i : nat) (w0 w1 w2 : Qc) : ladder_conv := LadderConv (map (fun o => row_of i [(o mod i, w0)])%nat (seq 0 4), map (fun o => row_of i [(o mod i, w1)])%nat (seq 0 4), map (fun o => row_of i [((o + o / 2) mod i, w2)])%nat (seq 0 4)) (repeat 0%Qc 4).
Definition toy_ladder_mapping (w : Qc) : ladder_mapping :=
  LadderMapping [(toy_conv 2 (1 / Qz 2) (1 / Qz 4) w, fun v => v); (toy_conv 4 (1 / Qz 2) w (1 / Qz 4), fun v => v); (toy_conv 4 w (1 / Qz 2) (1 / Qz 4), fun v => v)]%Qc.
Definition toy_ladder (second : option ladder_mapping) : ladder :=
  Ladder (toy_ladder_mapping 1) second 2 [toy_layer 32 2 128 toy_weight; toy_layer 32 32 128 (1 / Qz 2)%Qc; toy_layer 32 32 128 (1 / Qz 2)%Qc; toy_layer 3 32 128 (Qz (-1) / Qz 2)%Qc] false.
Example toy_ladder_file second s : List.In second [None; Some (toy_ladder_mapping (1 / Qz 4)%Qc)] -> 0 <= s <= 2 ->
  exists bufs, serialize_ladder 128 128 (toy_ladder second) = Ok bufs /\
    same_value false (ladder_forward (toy_ladder second) (toy_board s)) (ladder_engine (match second with Some _ => 2 | None => 1 end) 2 2 (List.concat bufs) (toy_board s)).
Proof.
  intros I S. destruct (@C77_ladder_exports_exactly_networks_within_one (toy_ladder second) _ _ _ _ eq_refl) as [H _]. destruct H as [bufs E].
  - intros l row w L R W. assert (X : forallb (fun l => forallb (fun r => forallb (fun w => Qle_bool (-1 # 2) (this w) && Qle_bool (this w) (1 # 2)) r) (weight l)) (ld_linears (toy_ladder second)) = true) by (vm_compute; reflexivity).
    rewrite forallb_forall in X. specialize (X l L). rewrite forallb_forall in X. specialize (X _ R). rewrite forallb_forall in X. specialize (X _ W). apply andb_true_iff in X. destruct X as [A B]. apply Qle_bool_iff in A, B. split.
    + apply Qclt_le_trans with (Q2Qc (-1 # 2)); [reflexivity|exact A].
    + apply Qcle_lt_trans with (Q2Qc (1 # 2)); [exact B|reflexivity].
  - exists bufs. split; [exact E|]. apply (@C74_ladder_file_gives_the_value_of_the_network 2 2 (toy_ladder second) bufs (toy_board s) eq_refl eq_refl); [| |exact (toy_board7 S)|exact E].
    + intros mapping t M. destruct I as [<-|[<-|[]]]; destruct M as [->|M]; try discriminate M; try (apply (f_equal (fun o => match o with Some x => x | None => mapping end)) in M; cbn in M; subst mapping); reflexivity.
    + do 4 eexists. split; [reflexivity|]. repeat split; try reflexivity; repeat (constructor; [reflexivity|]); constructor.
Qed.
Example toy_ladder_values : map (fun s => map this (ladder_forward (toy_ladder None) (toy_board s))) [0; 1; 2] = [[1 # 64; 1 # 32; 1 # 64]; [1 # 64; 1 # 256; 1 # 64]; [1 # 256; 1 # 32; 1 # 256]]%Q.
Proof. vm_compute. reflexivity. Qed.

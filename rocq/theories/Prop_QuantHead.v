(** C78-C81: the quantised value and policy heads of Mix9 and Mix9s against the inference program (QuantHead.v, QuantHeadSpec.v). *)
From Coq Require Import QArith Qcanon Permutation.
From Verif Require Import Base BaseFacts Rng FlatNet FlatNetFacts QuantHead QuantHeadSpec QuantHeadFacts QuantHeadWhole QuantHeadRegions QuantHeadBits.
Set Implicit Arguments. Unset Strict Implicit.
Local Open Scope Z_scope.

(** The directional features as the exported tables have them *)
Definition exported_features (d : nat -> nat -> nat -> nat -> Qc) (i c y x : nat) : Z := export_map (d i c y x).
(** z in units of 1/s *)
Definition in_units (s : positive) (z : Z) : Qc := Q2Qc (z # s).
Lemma frac_units s z : 0 < s -> frac s z = in_units (Z.to_pos s) z. Proof. intros. now apply over_frac. Qed.

(** ** C78 *)
Theorem C78_features_are_the_engines_integers F V D P m e h w d c y x : mix9_ok F V D P m -> bias_kept m -> serialize m = Ok e ->
  get_feature m h w d c y x = in_units 128 (e_feature D e h w (exported_features d) c y x) /\ 0 <= e_feature D e h w (exported_features d) c y x <= 32767.
Proof.
  intros shape kept exported. destruct shape as (HF & HP & _ & HD & _ & HB & _). rewrite <- HD in *. split; [|exact (@e_feature_range m e h w d HB c y x)].
  rewrite (@feature_ints m e h w d exported kept HB c y x). now apply frac_units.
Qed.
Theorem C78_value_is_the_engines_integers F V D P m e h w d : mix9_ok F V D P m -> bias_kept m -> serialize m = Ok e ->
  value m h w d = map (in_units 16384) (e_value e D F h w (exported_features d)) /\ List.length (e_value e D F h w (exported_features d)) = 3%nat.
Proof.
  intros shape kept exported. destruct shape as (HF & HP & _ & HD & _ & HB & HG & H2 & H3 & _). rewrite <- HD, <- HF in *.
  assert (S : weight_scale (value1 m) = 128 /\ match groups m with None => True | Some g => scale_ok (corner g) /\ scale_ok (edge g) /\ scale_ok (center g) /\ scale_ok (quad g) end).
  { destruct (groups m) as [g|]; [|split; [apply HG|exact I]]. destruct HG as (A & B & C & Q & L). split; [apply L|].
    assert (K : forall o i b, block_ok o i b -> scale_ok b) by (intros o i [u v dn|l]; cbn; unfold linear_ok; tauto). repeat split; eapply K; eassumption. }
  destruct S as [S1 SG]. split.
  - rewrite (@value_ints m e h w d exported kept HB S1 (proj2 (proj2 (proj2 H2))) (proj2 (proj2 (proj2 H3))) SG). apply map_ext. intros z. now apply frac_units.
  - destruct (@dwconv_split m e exported) as (r & _ & _ & _ & _ & _ & _ & V3 & _).
    assert (L : forall xs, List.length (e_mlp e xs) = 3%nat).
    { intros xs. unfold e_mlp, e_linear. rewrite map2_length, V3. unfold export_linear, export_layer, export_weight, export_bias. cbn [fst snd]. rewrite !map_length.
      destruct H3 as (A & _ & B & _). exact (f_equal2 Nat.min A B). }
    unfold e_value. cbv zeta. destruct (f_groups e) as [[[[g1 g2] g3] g4]|]; apply L.
Qed.
Theorem C78_policy_is_the_engines_integers F V D P m e h w d y x : mix9_ok F V D P m -> bias_kept m -> serialize m = Ok e ->
  policy_at m h w d y x =
  (dotq (map (fun o => Qz (e_policy e D F P h w (exported_features d) y x o)) (seq 0 16)) (f_out_weight e) + f_out_bias e)%Qc.
Proof.
  intros shape kept exported. destruct shape as (HF & HP & _ & HD & _ & HB & _ & _ & _ & PP & _). rewrite <- HD, <- HF, <- HP in *. apply (@policy_ints_whole m e h w d exported kept HB y x).
  destruct (policy m); [|exact I]. unfold linear_ok in PP. tauto.
Qed.

(** ** C79 *)
Theorem C79_nine_regions_partition_the_board h w :
  List.length (regions h w) = 9%nat /\ NoDup (List.concat (regions h w)) /\
  forall y x, List.In (y, x) (List.concat (regions h w)) <-> (y < h)%nat /\ (x < w)%nat.
Proof.
  split; [reflexivity|]. pose proof (regions_partition h w) as P. split; [apply (Permutation_NoDup (Permutation_sym P)), NoDup_block|].
  intros y x. assert (E : List.In (y, x) (List.concat (regions h w)) <-> List.In (y, x) (block_cells 0 h 0 w)) by (split; apply Permutation_in; [exact P|now symmetry]).
  rewrite E, in_block. lia.
Qed.
(** Three bands of rows of which the outer two are equal and the middle one differs by at most one, likewise columns *)
Theorem C79_nine_regions_are_balanced h w : exists a b c d, (h = 2 * a + b /\ w = 2 * c + d /\ a <= b + 1 /\ b <= a + 1 /\ c <= d + 1 /\ d <= c + 1)%nat /\
  forall i j, (i < 3)%nat -> (j < 3)%nat -> List.length (nth (3 * i + j) (regions h w) []) = ((if Nat.eqb i 1 then b else a) * (if Nat.eqb j 1 then d else c))%nat.
Proof.
  destruct (regions_sizes h w) as (a & b & c & d & H1 & H2 & H3 & H4 & H5 & H6 & E). exists a, b, c, d. split; [repeat split; assumption|].
  intros i j I J. change (List.length (nth (3 * i + j) (regions h w) [])) with (List.length (nth (3 * i + j) (regions h w) (@nil (nat * nat)))).
  rewrite <- (map_nth (@List.length (nat * nat))). rewrite E. destruct i as [|[|[|i]]]; [| | |lia]; (destruct j as [|[|[|j]]]; [reflexivity..|lia]).
Qed.
(** Mirror images and transposition only permute the nine sums, and corners stay corners, edges edges *)
Definition region_at (i j : nat) (r : list vec) : vec := nth (3 * i + j) r [].
Theorem C79_mirrored_boards_have_mirrored_regions F h w f i j : (i < 3)%nat -> (j < 3)%nat ->
  region_at i j (quantized_region_sums F h w (fun c y x => f c (h - 1 - y)%nat x)) = region_at (2 - i) j (quantized_region_sums F h w f) /\
  region_at i j (quantized_region_sums F h w (fun c y x => f c y (w - 1 - x)%nat)) = region_at i (2 - j) (quantized_region_sums F h w f) /\
  region_at i j (quantized_region_sums F w h (fun c y x => f c x y)) = region_at j i (quantized_region_sums F h w f).
Proof.
  intros I J. rewrite (mirror_rows F h w f), (mirror_columns F h w f), (mirror_diagonal F h w f). unfold region_at, pick. generalize (quantized_region_sums F h w f). intros r.
  destruct i as [|[|[|i]]]; [| | |lia]; (destruct j as [|[|[|j]]]; [repeat split|repeat split|repeat split|lia]).
Qed.

(** ** C80 *)
(** The check of the exporter, meant to stop networks whose depthwise convolution leaves 16 bits, never stops anything (F51) *)
Theorem C80_the_overflow_check_never_stops_an_export m : Forall (fun r => List.length r = 9%nat) (dw_weight m) -> exists e, serialize m = Ok e.
Proof. intros H. destruct (export_accepts H) as [[a b] E]. unfold serialize. rewrite E. eexists. reflexivity. Qed.
(** A bound that does suffice: then the accumulator, bias first, stays within 16 bits after every tap, on every board *)
Theorem C80_sixteen_bits_suffice_for_small_weights e h w d c y x n : (n <= 9)%nat ->
  8176 * zsum (map (fun k => Z.abs (nth c (nth k (f_dw e) []) 0)) (seq 0 9)) <= 65536 * (32758 - Z.abs (nth c (f_dw_bias e) 0)) ->
  -32768 <= nth c (f_dw_bias e) 0 + zsum (map (e_tap e h w (exported_features d) c y x) (seq 0 n)) <= 32767.
Proof. exact (@fits16 e h w d c y x n). Qed.

(** ** C81 *)
(** Sums of features over the board or a region, before the shifts *)
Theorem C81_feature_sums_fit_32_bits D e h w d c y0 y1 x0 x1 : Z.of_nat h * Z.of_nat w <= 65536 -> (y1 <= h)%nat -> (x1 <= w)%nat ->
  0 <= over_block (e_feature D e h w (exported_features d) c) y0 y1 x0 x1 <= 2 ^ 31 - 1.
Proof. exact (@sums32 D e h w d c y0 y1 x0 x1). Qed.
(** The star blocks' sums of two products of an unsigned and a signed byte: the instruction that saturates them to 16 bits never does *)
Theorem C81_star_products_fit_16_bits us vs z : List.In z (e_pairs (map2 Z.mul (e_shift8 (e_relu us)) (e_shift8 vs))) -> -32768 <= z <= 32767.
Proof. exact (@pairs16 us vs z). Qed.
(** A row of the policy convolution, its products added to its bias in any order *)
Theorem C81_policy_accumulators_fit_32_bits_for_small_weights D e h w d y x P ws bias products n :
  32767 * zsum (map Z.abs ws) + Z.abs bias <= 2 ^ 31 - 1 ->
  Permutation products (map2 Z.mul (map (fun c => e_feature D e h w (exported_features d) c y x) (seq 0 P)) ws) ->
  - 2 ^ 31 <= bias + zsum (firstn n products) <= 2 ^ 31 - 1.
Proof. exact (@policy32 D e h w d y x P ws bias products n). Qed.

(** ** Instances *)
Definition toy_linear (outputs inputs : nat) (a : Q) (b : Q) : linear := Linear (repeat (repeat (Q2Qc a) inputs) outputs) (repeat (Q2Qc b) outputs) 128.
Definition toy_star (outputs inputs : nat) : block := Star (toy_linear (2 * outputs) inputs (1 # 3) (1 # 10)) (toy_linear (2 * outputs) inputs (1 # 5) (-1 # 10)) (toy_linear outputs outputs (2 # 3) (1 # 7)).
Definition toy (dw bias : Q) : mix9 :=
  Mix9 [repeat (Q2Qc dw) 9] [Q2Qc bias] (Some (Groups (toy_star 2 2) (toy_star 2 2) (toy_star 2 2) (toy_star 2 2)))
       (toy_linear 2 10 (1 # 4) (1 # 9)) (toy_linear 2 2 (3 # 4) 0) (Linear [[Q2Qc (1 # 2); Q2Qc (1 # 3)]; [Q2Qc (-1 # 2); Q2Qc (1 # 5)]; [Q2Qc (1 # 8); Q2Qc (-2 # 3)]] [0%Qc; Q2Qc (1 # 50); 0%Qc] 128)
       (Dynamic (toy_linear 2 2 (1 # 2) (1 # 20)) (toy_linear 32 2 (1 # 6) (1 # 30))) (repeat (Q2Qc (1 # 2)) 16) (Q2Qc (1 # 3)) 2 1.
Definition toy_d (i c y x : nat) : Qc := Q2Qc ((Z.of_nat (3 * i + 2 * c + 5 * y + x) - 6) # 7).
Ltac ok := repeat (split || constructor || reflexivity || (cbn; lia) || (unfold toy, toy_linear, linear_ok; cbn)).
Example toy_ok : mix9_ok 2 2 1 1 (toy (1 # 3) (1 # 2)).
Proof. unfold mix9_ok. ok. Qed.
Example toy_kept : bias_kept (toy (1 # 3) (1 # 2)).
Proof. constructor; [|constructor]. split; vm_compute; discriminate. Qed.
(** The engine's outputs on a 4x5 board: none of the steps degenerates *)
Example toy_value : match serialize (toy (1 # 3) (1 # 2)) with Ok e => e_value e 1 2 4 5 (exported_features toy_d) | Err _ => [] end <> [0; 0; 0].
Proof. vm_compute. discriminate. Qed.
(** The largest weights that training allows and the largest features: exported without complaint, and the convolution is beyond 16 bits *)
Definition big_d (_ _ _ _ : nat) : Qc := Q2Qc (100 # 1).
Theorem C80_an_exported_convolution_can_leave_16_bits :
  match serialize (toy (32767 # 65536) 0) with Ok e => e_dwconv e 3 3 (exported_features big_d) 0 1 1 = 36783 | Err _ => False end.
Proof. vm_compute. reflexivity. Qed.
(** Beyond the limits of C78's biases the file differs from the network: 100 is exported as 64 (F52) *)
Example large_bias_differs :
  match serialize (toy (1 # 3) 100) with Ok e => f_dw_bias e = [8192] | Err _ => False end /\ this (get_feature (toy (1 # 3) 100) 1 1 (fun _ _ _ _ => 0%Qc) 0 0 0) = 100 # 1.
Proof. split; vm_compute; reflexivity. Qed.
(** Three policy channels suffice to leave 32 bits: the weights and features are within all limits of the code (F53) *)
Definition big_policy : mix9 :=
  Mix9 (repeat (repeat (Q2Qc (32767 # 65536)) 9) 3) (repeat 0%Qc 3) None (toy_linear 2 3 (1 # 4) 0) (toy_linear 2 2 (1 # 4) 0) (toy_linear 3 2 (1 # 4) 0)
       (Static (repeat (repeat (Q2Qc (32767 # 16384)) 3) 16) (repeat 0%Qc 16)) (repeat (Q2Qc (1 # 2)) 16) 0%Qc 3 3.
Example big_policy_ok : mix9_ok 3 2 3 3 big_policy.
Proof. unfold mix9_ok, big_policy. ok. Qed.
Theorem C81_an_exported_policy_can_leave_32_bits :
  match serialize big_policy with Ok e => 2 ^ 31 <= e_policy e 3 3 3 3 3 (exported_features big_d) 1 1 0 | Err _ => False end.
Proof. vm_compute. discriminate. Qed.
(** A row within the bound: sixteen weights of 1/4, as fresh networks have *)
Example small_policy : 32767 * zsum (map Z.abs (repeat 4096 15)) + 2097152 <= 2 ^ 31 - 1.
Proof. vm_compute. discriminate. Qed.
(** Weights within the bound of C80, larger than fresh networks' *)
Example small_dwconv : 8176 * (9 * 20000) <= 65536 * (32758 - 8192).
Proof. vm_compute. discriminate. Qed.

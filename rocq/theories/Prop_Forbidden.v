(** C41: the forbidden-point flags are the Renju rule.
    Independent specification: ForbiddenSpec.v (rows, fours, threes on the plane). *)
From Verif Require Import Base BaseFacts Forbidden ForbiddenSpec ForbiddenFacts ForbiddenModel ForbiddenExist ForbiddenBoard ForbiddenSym.
From Verif Require Symmetry.
Set Implicit Arguments.
Unset Strict Implicit.

(** The recursive rule for double threes determines one predicate. *)
Theorem C41_double_three_rule_has_one_solution :
  (exists D, is_double_three_predicate D) /\
  (forall D1 D2, is_double_three_predicate D1 -> is_double_three_predicate D2 ->
     forall b p, finite b -> (D1 b p <-> D2 b p)).
Proof. split; [exists double_three; exact double_three_exists|]. intros. apply double_three_unique; assumption. Qed.

(** Every flag is 0 or 1, and it is 1 exactly on the forbidden points. *)
Definition flags_are (D : plane -> Z * Z -> Prop) (b : plane) (H W : nat) (out : list Z) : Prop :=
  List.length out = (H * W)%nat /\
  forall x y, (x < W)%nat -> (y < H)%nat ->
    (forbidden D b (Z.of_nat x, Z.of_nat y) -> nth_error out (y * W + x) = Some 1)
    /\ (~ forbidden D b (Z.of_nat x, Z.of_nat y) -> nth_error out (y * W + x) = Some 0).

Theorem C41_forbidden_points D : is_double_three_predicate D ->
  forall (fuel : nat) (board : list Z) (H W : nat),
  List.length board = (2 * (H * W))%nat -> (H <= 22)%nat -> (W <= 22)%nat -> (H * W < fuel)%nat ->
  exists out, transform_board_to_forbidden_point fuel board H W = Ok out
    /\ flags_are D (stones board H W) H W out.
Proof.
  intros HD fuel board H W HB H22 W22 HF. destruct (transform_ok HD HB H22 W22 HF) as (out & E & Hl & X).
  exists out. split; [exact E|]. split; [exact Hl|]. intros x y Hx Hy. destruct (X x y Hx Hy) as (v & -> & Hv & Hi). split.
  - intros F. apply Hi in F. congruence.
  - intros N. destruct Hv as [->| ->]; [reflexivity|]. exfalso. apply N. apply Hi. reflexivity.
Qed.

Lemma filter_le {A} (f : A -> bool) l : (List.length (filter f l) <= List.length l)%nat.
Proof. induction l as [|a l IH]; cbn [filter]; [lia|]. destruct (f a); cbn [List.length]; lia. Qed.
(** Which kind of forbidden move a point is, and the board is left as it was. *)
Theorem C41_kinds D : is_double_three_predicate D ->
  forall (fuel : nat) (L : list color) (b : plane) (x y : Z),
  rep L b -> 0 <= x < 22 -> 0 <= y < 22 -> (1024 < fuel)%nat ->
  exists t, is_forbidden fuel L (make_pos x y) = Ok (t, L)
    /\ (t = DOUBLE_THREE <-> D b (x, y))
    /\ (t = DOUBLE_FOUR <-> ~ D b (x, y) /\ double_four b (x, y))
    /\ (t = OVERLINE <-> ~ D b (x, y) /\ ~ double_four b (x, y) /\ look b (x, y) = EMPTY /\ overline b (x, y))
    /\ (t <> FORBIDDEN_NONE <-> forbidden D b (x, y)).
Proof.
  intros HD fuel L b x y HR Hx Hy HF. assert (OB : onb (x, y)) by (split; assumption). rewrite (make_pos_ok OB).
  apply is_forbidden_ok; auto. destruct HR as (HL & _). unfold empties.
  pose proof (filter_le (fun c => color_eqb c EMPTY) L). lia.
Qed.

Theorem C41_too_large_rejected (fuel : nat) (board : list Z) (H W : nat) :
  (22 < H)%nat \/ (22 < W)%nat -> transform_board_to_forbidden_point fuel board H W = Err ValueError.
Proof. intros X. unfold transform_board_to_forbidden_point. replace (negb _) with false by lia. reflexivity. Qed.

(** Occupied points are never flagged, nor are points where black makes five and no overline. *)
Lemma forbidden_not_five D b p : is_double_three_predicate D -> finite b -> forbidden D b p -> ~ overline b p -> ~ five b p.
Proof.
  intros HD F (E & [X|[X|X]]) N5; [|destruct X as ((_ & Q & _) & _); exact Q|contradiction].
  apply (HD b F p) in X. destruct X as ((_ & Q & _) & _). exact Q.
Qed.
Theorem C41_never_flagged D : is_double_three_predicate D ->
  forall (fuel : nat) (board : list Z) (H W : nat) out (x y : nat),
  List.length board = (2 * (H * W))%nat -> (H <= 22)%nat -> (W <= 22)%nat -> (H * W < fuel)%nat ->
  transform_board_to_forbidden_point fuel board H W = Ok out -> (x < W)%nat -> (y < H)%nat ->
  let b := stones board H W in let p := (Z.of_nat x, Z.of_nat y) in
  look b p <> EMPTY \/ (five b p /\ ~ overline b p) -> nth_error out (y * W + x) = Some 0.
Proof.
  intros HD fuel board H W out x y HB H22 W22 HF E Hx Hy b p C.
  destruct (C41_forbidden_points HD HB H22 W22 HF) as (out' & E' & _ & X). rewrite E in E'. injection E' as <-.
  apply (X x y Hx Hy). fold b p. intros F. destruct C as [C|[C1 C2]]; [apply C; apply F|].
  destruct (placed HB H22 W22) as (L & _ & HR & _).
  exact (forbidden_not_five HD (rep_finite HR) F C2 C1).
Qed.

(** Process looks at black's stones: channel 0 with fixed sides or black to move, channel 1 otherwise. *)
Theorem C41_process_uses_black D : is_double_three_predicate D ->
  forall (fuel : nat) (fixed stm_negative : bool) (c0 c1 : list Z) (H W : nat),
  List.length c0 = (H * W)%nat -> List.length c1 = (H * W)%nat -> (H <= 22)%nat -> (W <= 22)%nat -> (H * W < fuel)%nat ->
  exists out, process fuel fixed stm_negative (c0 ++ c1) H W = Ok out
    /\ flags_are D (stones (if fixed || stm_negative then c0 ++ c1 else c1 ++ c0) H W) H W out.
Proof.
  intros HD fuel fixed neg c0 c1 H W H0 H1 H22 W22 HF. unfold process.
  assert (E : (if fixed || neg then c0 ++ c1 else skipn (H * W) (c0 ++ c1) ++ firstn (H * W) (c0 ++ c1))
              = (if fixed || neg then c0 ++ c1 else c1 ++ c0)).
  { destruct (fixed || neg); [reflexivity|]. rewrite skipn_app, firstn_app, H0, Nat.sub_diag, skipn_all2, firstn_all2 by lia.
    cbn [skipn firstn app]. rewrite app_nil_r. reflexivity. }
  rewrite E. apply C41_forbidden_points; auto. destruct (fixed || neg); rewrite app_length; lia.
Qed.

(** A batch is its samples, in order. *)
Theorem C41_batch_is_samples (fuel : nat) (fixed : bool) (samples : list (bool * list Z)) (H W : nat) outs :
  process_batch fuel fixed samples H W = Ok outs <->
  Forall2 (fun s out => process fuel fixed (fst s) (snd s) H W = Ok out) samples outs.
Proof.
  unfold process_batch. split.
  - apply mapM_Ok_Forall2.
  - intros F. induction F as [|s out ss os E F IH]; [reflexivity|]. cbn [mapM]. rewrite E. cbn [bind]. rewrite IH. reflexivity.
Qed.

(** Turning the sample turns the flags: [board2] is [board] under the symmetry [sy] (the coordinates
    of utils/data_utils.py, which C24 shows are those of the arrays). *)
Definition swaps (sy : Symmetry.symmetry) : bool :=
  match sy with Symmetry.ROTATE_90 | Symmetry.ROTATE_270 | Symmetry.FLIP_XY | Symmetry.FLIP_YX => true | _ => false end.
Definition image (sy : Symmetry.symmetry) (H W : nat) (v v2 : list Z) (n : nat) : Prop :=
  forall c x y x2 y2, (c < n)%nat -> (x < W)%nat -> (y < H)%nat ->
    (Z.of_nat x2, Z.of_nat y2) = Symmetry.mapping sy (Z.of_nat W) (Z.of_nat H) (Z.of_nat x) (Z.of_nat y) ->
    nth_error v2 (c * (H * W) + (y2 * W + x2)) = nth_error v (c * (H * W) + (y * W + x)).

Definition map_matrix (sy : Symmetry.symmetry) : Z * Z * Z * Z :=
  match sy with
  | Symmetry.IDENTITY => (1,0,0,1) | Symmetry.ROTATE_90 => (0,1,-1,0) | Symmetry.ROTATE_180 => (-1,0,0,-1)
  | Symmetry.ROTATE_270 => (0,-1,1,0) | Symmetry.FLIP_X => (1,0,0,-1) | Symmetry.FLIP_Y => (-1,0,0,1)
  | Symmetry.FLIP_XY => (0,1,1,0) | Symmetry.FLIP_YX => (0,-1,-1,0)
  end.
Definition map_shift (sy : Symmetry.symmetry) (W H : Z) : Z * Z :=
  match sy with
  | Symmetry.IDENTITY => (0,0) | Symmetry.ROTATE_90 => (0, W - 1) | Symmetry.ROTATE_180 => (W - 1, H - 1)
  | Symmetry.ROTATE_270 => (H - 1, 0) | Symmetry.FLIP_X => (0, H - 1) | Symmetry.FLIP_Y => (W - 1, 0)
  | Symmetry.FLIP_XY => (0,0) | Symmetry.FLIP_YX => (H - 1, W - 1)
  end.
Lemma mapping_affine sy W H x y : Symmetry.mapping sy W H x y = shift (map_shift sy W H) (matrix (map_matrix sy) (x, y)).
Proof. destruct sy; cbn [Symmetry.mapping map_shift map_matrix]; unfold shift, matrix; cbn [fst snd]; f_equal; lia. Qed.
Lemma map_matrix_in sy : In (map_matrix sy) matrices.
Proof. destruct sy; cbn; tauto. Qed.

Definition inside (H W : nat) (x y : Z) : Prop := 0 <= x < Z.of_nat W /\ 0 <= y < Z.of_nat H.
Lemma mapping_inside sy (H W : nat) x y x2 y2 : (swaps sy = true -> H = W) ->
  (x2, y2) = Symmetry.mapping sy (Z.of_nat W) (Z.of_nat H) x y -> inside H W x y <-> inside H W x2 y2.
Proof.
  intros Sq E. unfold inside. destruct sy; cbn [swaps Symmetry.mapping] in *; try (specialize (Sq eq_refl)); injection E as -> ->; lia.
Qed.

Theorem C41_symmetric D : is_double_three_predicate D ->
  forall (sy : Symmetry.symmetry) (fuel : nat) (board board2 : list Z) (H W : nat) out out2,
  (swaps sy = true -> H = W) -> (H <= 22)%nat -> (W <= 22)%nat -> (H * W < fuel)%nat ->
  List.length board = (2 * (H * W))%nat -> List.length board2 = (2 * (H * W))%nat ->
  image sy H W board board2 2 ->
  transform_board_to_forbidden_point fuel board H W = Ok out ->
  transform_board_to_forbidden_point fuel board2 H W = Ok out2 ->
  image sy H W out out2 1.
Proof.
  intros HD sy fuel board board2 H W out out2 Sq H22 W22 HF HB HB2 IM E1 E2.
  destruct (transform_ok HD HB H22 W22 HF) as (o1 & X1 & _ & F1). rewrite E1 in X1. injection X1 as <-.
  destruct (transform_ok HD HB2 H22 W22 HF) as (o2 & X2 & _ & F2). rewrite E2 in X2. injection X2 as <-.
  assert (T : turned (map_matrix sy) (map_shift sy (Z.of_nat W) (Z.of_nat H)) (stones board H W) (stones board2 H W)).
  { intros [x y]. rewrite <- mapping_affine. destruct (Symmetry.mapping sy (Z.of_nat W) (Z.of_nat H) x y) as [x2 y2] eqn:M.
    pose proof (@mapping_inside sy H W x y x2 y2 Sq (eq_sym M)) as MI. unfold inside in MI.
    unfold look, stones. cbn [fst snd].
    destruct ((0 <=? x) && (x <? Z.of_nat W) && (0 <=? y) && (y <? Z.of_nat H)) eqn:I1.
    - replace ((0 <=? x2) && (x2 <? Z.of_nat W) && (0 <=? y2) && (y2 <? Z.of_nat H)) with true by lia.
      assert (K : forall c, (c < 2)%nat -> nth (c * (H * W) + Z.to_nat (y2 * Z.of_nat W + x2)) board2 0 = nth (c * (H * W) + Z.to_nat (y * Z.of_nat W + x)) board 0).
      { intros c Hc. pose proof (IM c (Z.to_nat x) (Z.to_nat y) (Z.to_nat x2) (Z.to_nat y2) Hc ltac:(lia) ltac:(lia)) as Q.
        rewrite !Z2Nat.id in Q by lia. specialize (Q (eq_sym M)).
        replace (Z.to_nat (y2 * Z.of_nat W + x2)) with (Z.to_nat y2 * W + Z.to_nat x2)%nat by nia.
        replace (Z.to_nat (y * Z.of_nat W + x)) with (Z.to_nat y * W + Z.to_nat x)%nat by nia.
        rewrite <- !nth_default_eq. unfold nth_default. rewrite Q. reflexivity. }
      pose proof (K 0%nat ltac:(lia)) as K0. pose proof (K 1%nat ltac:(lia)) as K1. cbn [Nat.mul Nat.add] in K0. rewrite Nat.mul_1_l in K1.
      rewrite K0.
      replace (Z.to_nat (Z.of_nat H * Z.of_nat W + y2 * Z.of_nat W + x2)) with (H * W + Z.to_nat (y2 * Z.of_nat W + x2))%nat by nia.
      replace (Z.to_nat (Z.of_nat H * Z.of_nat W + y * Z.of_nat W + x)) with (H * W + Z.to_nat (y * Z.of_nat W + x))%nat by nia.
      rewrite K1. reflexivity.
    - replace ((0 <=? x2) && (x2 <? Z.of_nat W) && (0 <=? y2) && (y2 <? Z.of_nat H)) with false by lia. reflexivity. }
  destruct (placed HB H22 W22) as (L & _ & HR & _).
  intros c x y x2 y2 Hc Hx Hy M. assert (c = 0%nat) by lia. subst c. cbn [Nat.mul Nat.add].
  pose proof (@mapping_inside sy H W _ _ _ _ Sq M) as MI. unfold inside in MI.
  destruct (F1 x y Hx Hy) as (v & -> & Hv & Iv). destruct (F2 x2 y2 ltac:(lia) ltac:(lia)) as (v2 & -> & Hv2 & Iv2).
  rewrite M, mapping_affine in Iv2.
  rewrite <- (turned_forbidden (map_matrix_in sy) _ HD (rep_finite HR) T), <- Iv in Iv2.
  f_equal. destruct Hv as [->| ->], Hv2 as [->| ->]; auto; exfalso; [assert (0 = 1) by tauto|assert (0 = 1) by tauto]; discriminate.
Qed.

(** The rule book lets a five win even if the same stone also makes an overline: the flags do not. *)
Definition row_of (n : nat) (xs : list nat) : list Z := map (fun i => if existsb (Nat.eqb i) xs then 1 else 0) (seq 0 n).
(** 6 rows of 5; black (c0): four on row 5 at x = 0..3 and five on column 4 at y = 0..4; the point is (4, 5). *)
Definition five_and_overline : list Z :=
  row_of 30 [5*5+0; 5*5+1; 5*5+2; 5*5+3; 0*5+4; 1*5+4; 2*5+4; 3*5+4; 4*5+4]%nat ++ row_of 30 [].
Theorem C41_five_is_never_flagged_refuted :
  exists (board : list Z) out, List.length board = (2 * (6 * 5))%nat
    /\ transform_board_to_forbidden_point 31 board 6 5 = Ok out
    /\ five (stones board 6 5) (4, 5) /\ nth_error out (5 * 5 + 4) = Some 1.
Proof.
  exists five_and_overline.
  assert (E : exists out, transform_board_to_forbidden_point 31 five_and_overline 6 5 = Ok out /\ nth_error out (5 * 5 + 4) = Some 1).
  { eexists. split; [vm_compute; reflexivity|vm_compute; reflexivity]. }
  destruct E as (out & E & Hn). exists out. conj; auto.
  exists (1, 0). split; [cbn; tauto|]. exists (-4). split; [lia|]. unfold exact_row. conj.
  - intros k Hk. assert (C : k = -4 \/ k = -3 \/ k = -2 \/ k = -1 \/ k = 0) by lia.
    destruct C as [->|[->|[->|[->| ->]]]]; vm_compute; reflexivity.
  - vm_compute. discriminate.
  - vm_compute. discriminate.
Qed.

(** Non-vacuity: a double three, a double four and an overline, each the only flag of a small board. *)
Example C41_example_double_three : exists out,
  transform_board_to_forbidden_point 37 (row_of 36 [1*6+1; 1*6+2; 2*6+3; 3*6+3]%nat ++ row_of 36 []) 6 6 = Ok out
  /\ nth_error out (1*6+3) = Some 1 /\ zsum out = 1.
Proof. eexists. split; [vm_compute; reflexivity|]. conj; vm_compute; reflexivity. Qed.
Example C41_example_double_four : exists out,
  transform_board_to_forbidden_point 26 (row_of 25 [0*5+1; 0*5+2; 0*5+3; 1*5+0; 2*5+0; 3*5+0]%nat ++ row_of 25 []) 5 5 = Ok out
  /\ nth_error out 0 = Some 1 /\ zsum out = 1.
Proof. eexists. split; [vm_compute; reflexivity|]. conj; vm_compute; reflexivity. Qed.
Example C41_example_overline : exists out,
  transform_board_to_forbidden_point 7 (row_of 6 [0; 1; 2; 4; 5]%nat ++ row_of 6 []) 1 6 = Ok out
  /\ nth_error out 3 = Some 1 /\ zsum out = 1.
Proof. eexists. split; [vm_compute; reflexivity|]. conj; vm_compute; reflexivity. Qed.
(** The mirror image of the double-three board, and the mirrored flag. *)
Example C41_example_symmetric : exists out2,
  transform_board_to_forbidden_point 37 (row_of 36 [4*6+1; 4*6+2; 3*6+3; 2*6+3]%nat ++ row_of 36 []) 6 6 = Ok out2
  /\ nth_error out2 (4*6+3) = Some 1 /\ zsum out2 = 1.
Proof. eexists. split; [vm_compute; reflexivity|]. conj; vm_compute; reflexivity. Qed.

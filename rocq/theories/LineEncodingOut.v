(** The transforms as a whole. *)
From Verif Require Import Base BaseFacts LineEncoding LineEncodingFacts LineEncodingCode LineEncodingSpec
  LineEncodingBoard LineEncodingFlags.
Set Implicit Arguments.
Unset Strict Implicit.

Lemma mapM_map {A B} (f : A -> res B) (g : A -> B) l : (forall x, In x l -> f x = Ok (g x)) -> mapM f l = Ok (map g l).
Proof.
  induction l as [|x l IH]; intros H; cbn; [reflexivity|].
  rewrite (H x (or_introl eq_refl)). cbn [bind]. rewrite IH; [reflexivity|]. intros y Iy. apply H. right. exact Iy.
Qed.
Lemma nth_flat_map {A B} (f : A -> list B) n l : (forall a, In a l -> List.length (f a) = n) ->
  forall i a j, nth_error l i = Some a -> (j < n)%nat -> nth_error (flat_map f l) (i * n + j) = nth_error (f a) j.
Proof.
  induction l as [|x l IH]; intros Hn i a j Hi Hj; [destruct i; discriminate|].
  cbn [flat_map]. pose proof (Hn x (or_introl eq_refl)) as Hx. destruct i as [|i]; cbn [nth_error] in Hi.
  - injection Hi as ->. rewrite nth_error_app1 by lia. reflexivity.
  - rewrite nth_error_app2 by lia. replace (S i * n + j - List.length (f x))%nat with (i * n + j)%nat by lia.
    apply IH; auto. intros y Iy. apply Hn. right. exact Iy.
Qed.
Lemma flat_map_len {A B} (f : A -> list B) n l : (forall a, In a l -> List.length (f a) = n) ->
  List.length (flat_map f l) = (List.length l * n)%nat.
Proof.
  induction l as [|x l IH]; intros Hn; cbn; [reflexivity|]. rewrite app_length, (Hn x (or_introl eq_refl)), IH; [reflexivity|].
  intros y Iy. apply Hn. right. exact Iy.
Qed.
Lemma nth_seq a n i : (i < n)%nat -> nth_error (seq a n) i = Some (a + i)%nat.
Proof.
  intros H. rewrite nth_error_nth' with (d := 0%nat) by (rewrite seq_length; exact H). rewrite seq_nth by exact H. reflexivity.
Qed.
Lemma cells_length H W : List.length (cells H W) = (H * W)%nat.
Proof. unfold cells. rewrite (@flat_map_len _ _ _ W), seq_length; [reflexivity|]. intros. rewrite map_length, seq_length. reflexivity. Qed.
Lemma cells_nth H W y x : (y < H)%nat -> (x < W)%nat -> nth_error (cells H W) (y * W + x) = Some (Z.of_nat y, Z.of_nat x).
Proof.
  intros Hy Hx. unfold cells. rewrite (@nth_flat_map _ _ _ W _) with (a := y).
  - rewrite nth_error_map, nth_seq by exact Hx. reflexivity.
  - intros. rewrite map_length, seq_length. reflexivity.
  - rewrite nth_seq by exact Hy. reflexivity.
  - exact Hx.
Qed.

Section Transform.
  Variables (h : nat) (raw : bool).
  Hypothesis Hh : (h <= if raw then 7 else 8)%nat.
  Variables (board : list Z) (H W : nat).
  Hypothesis Hboard : (2 * H * W <= List.length board)%nat.
  Hypothesis BH : (H <= 32 - h)%nat.
  Hypothesis BW : (W <= 32 - h)%nat.

  Definition number (w : list point) : Z := if raw then raw_code w else window_code w.
  Let win x y d := window (point_at board H W) h x y d.
  Let K := keys_of board H W (cells H W) no_keys.

  Lemma Hh8 : (h <= 8)%nat.
  Proof. destruct raw; lia. Qed.

  Lemma point_wall x y : point_at board H W x y <> Wall <-> on_board H W x y = true.
  Proof.
    unfold point_at, on_board. destruct ((0 <=? x) && (x <? Z.of_nat W) && (0 <=? y) && (y <? Z.of_nat H)).
    - split; auto. intros _. destruct (negb _); [discriminate|]. destruct (negb _); discriminate.
    - split; [congruence|discriminate].
  Qed.

  (** One direction at one point. *)
  Definition out_code (key lft rgt : Z) : res Z :=
    if raw then Ok (s32 (w32 (Z.land key (2 ^ (2 * (2 * Z.of_nat h + 1)) - 1))))
    else e <- encode_contiguous (2 * Z.of_nat h + 1) key lft rgt ;; Ok (s32 e).

  Lemma dir_ok (f g : Z -> Z -> Z) size dx dy lft rgt x y :
    (forall x y m, f (x + m * dx) (y + m * dy) = f x y) ->
    (forall x y m, g (x + m * dx) (y + m * dy) = g x y + m) ->
    (forall x y x' y', f x y = f x' y' -> g x y = g x' y' -> x = x' /\ y = y') ->
    (forall x y, on_board H W x y = true -> 0 <= f x y < Z.of_nat size) ->
    (forall x y, on_board H W x y = true -> 0 <= g x y < 32 - Z.of_nat h) ->
    on_board H W x y = true -> 0 <= lft <= Z.of_nat h -> 0 <= rgt <= Z.of_nat h ->
    (forall m, - Z.of_nat h <= m <= Z.of_nat h -> on_board H W (x + m * dx) (y + m * dy) = true <-> - lft <= m <= rgt) ->
    legal h (win x y (dx, dy)) /\
    out_code (rotate_right (nth (Z.to_nat (f x y)) (ors f g (cell_code board H W) (cells H W) (repeat 0 size)) 0) (2 * (g x y - Z.of_nat h))) lft rgt
    = Ok (number (win x y (dx, dy))).
  Proof.
    intros F1 F2 F3 F4 F5 Ho Hl Hr Hon. pose proof Hh8 as H8.
    set (key := rotate_right _ _).
    set (at_ := fun k => point_at board H W (x + (Z.of_nat k - Z.of_nat h) * dx) (y + (Z.of_nat k - Z.of_nat h) * dy)).
    assert (Hf : forall k, (k < 2 * h + 1)%nat -> fld key (Z.of_nat k) = bits (at_ k)).
    { intros k Hk. subst key at_. cbv beta. apply window_fld; auto. }
    destruct (@encode_window h key at_ lft rgt H8 Hl Hr Hf) as (Hleg & He & Hs).
    { intros k Hk. subst at_. cbv beta. rewrite point_wall. apply Hon. lia. }
    change (map at_ (seq 0 (2 * h + 1))) with (win x y (dx, dy)) in *.
    split; [exact Hleg|]. unfold out_code, number. destruct raw eqn:Er.
    - f_equal. replace (2 * (2 * Z.of_nat h + 1)) with (2 * Z.of_nat (2 * h + 1)) by lia.
      rewrite land_mod. rewrite (@raw_key (2 * h + 1) key at_ Hf).
      change (map at_ (seq 0 (2 * h + 1))) with (win x y (dx, dy)). apply s32_id.
      pose proof (raw_code_bounds (win x y (dx, dy))) as B.
      assert (Lw : List.length (win x y (dx, dy)) = (2 * h + 1)%nat) by (unfold win, window; rewrite map_length, seq_length; reflexivity).
      rewrite Lw in B.
      split; [apply B|]. eapply Z.lt_trans; [apply B|].
      apply Z.le_lt_trans with (4 ^ 15); [apply Z.pow_le_mono_r; lia|reflexivity].
    - rewrite He. cbn [bind]. rewrite Hs. reflexivity.
  Qed.

  Lemma nth_repeat_len n : List.length (repeat 0 n) = n.
  Proof. apply repeat_length. Qed.

  Lemma codes_at_ok y x : In (y, x) (cells H W) ->
    Forall (fun d => legal h (win x y d)) directions /\
    codes_at (2 * Z.of_nat h + 1) raw (Z.of_nat H) (Z.of_nat W) K (y, x)
    = Ok (map (fun d => number (win x y d)) directions).
  Proof.
    intros I. apply in_cells in I. pose proof Hh8 as H8.
    assert (Ho : on_board H W x y = true) by (unfold on_board; lia).
    unfold codes_at. replace ((2 * Z.of_nat h + 1) / 2) with (Z.of_nat h) by lia.
    unfold K, keys_of, no_keys. cbn [k0 k1 k2 k3].
    rewrite !z_get_ok by (unfold zlen; rewrite ors_length, repeat_length; lia). cbn [bind].
    pose proof (@dir_ok row_of col_of 32 1 0 (Z.min (Z.of_nat h) x) (Z.min (Z.of_nat h) (Z.of_nat W - 1 - x)) x y) as D0.
    pose proof (@dir_ok col_of row_of 32 0 1 (Z.min (Z.of_nat h) y) (Z.min (Z.of_nat h) (Z.of_nat H - 1 - y)) x y) as D1.
    pose proof (@dir_ok sum_of col_of 63 1 (-1) (min3 (Z.of_nat h) x (Z.of_nat H - 1 - y)) (min3 (Z.of_nat h) (Z.of_nat W - 1 - x) y) x y) as D2.
    pose proof (@dir_ok dif_of col_of 63 1 1 (min3 (Z.of_nat h) x y) (min3 (Z.of_nat h) (Z.of_nat W - 1 - x) (Z.of_nat H - 1 - y)) x y) as D3.
    unfold row_of, col_of, sum_of, dif_of, on_board, min3 in D0, D1, D2, D3.
    destruct D0 as [L0 E0]; try (intros; lia). destruct D1 as [L1 E1]; try (intros; lia).
    destruct D2 as [L2 E2]; try (intros; lia). destruct D3 as [L3 E3]; try (intros; lia).
    split; [repeat constructor; assumption|].
    cbn [map directions]. unfold out_code in *. unfold row_of, col_of, sum_of, dif_of, min3.
    destruct raw.
    - injection E0 as <-. injection E1 as <-. injection E2 as <-. injection E3 as <-. reflexivity.
    - apply bind_Ok in E0, E1, E2, E3.
      destruct E0 as (e0 & -> & E0), E1 as (e1 & -> & E1), E2 as (e2 & -> & E2), E3 as (e3 & -> & E3).
      cbn [bind]. injection E0 as <-. injection E1 as <-. injection E2 as <-. injection E3 as <-. reflexivity.
  Qed.

  Definition board_out : list Z :=
    flat_map (fun d => map (fun yx => number (win (snd yx) (fst yx) d)) (cells H W)) directions.
  Lemma impl_ok : transform_board_impl board H W (2 * Z.of_nat h + 1) raw = Ok board_out.
  Proof.
    pose proof Hh8. unfold transform_board_impl. rewrite set_keys_ok; auto; try lia.
    2:{ unfold sized, no_keys. cbn [k0 k1 k2 k3]. rewrite !repeat_length. auto. }
    cbn [bind]. rewrite (mapM_map (g := fun yx => map (fun d => number (win (snd yx) (fst yx) d)) directions)).
    2:{ intros [y x] I. apply codes_at_ok in I. apply I. }
    cbn [bind]. f_equal. unfold by_direction, board_out. cbn [flat_map seq directions].
    rewrite !map_map. reflexivity.
  Qed.
  Lemma board_out_length : List.length board_out = (4 * H * W)%nat.
  Proof.
    unfold board_out. rewrite (@flat_map_len _ _ _ (H * W)); [cbn [directions List.length]; lia|].
    intros d _. rewrite map_length. apply cells_length.
  Qed.
  Lemma board_out_nth i d y x : nth_error directions i = Some d -> (y < H)%nat -> (x < W)%nat ->
    nth_error board_out (i * (H * W) + (y * W + x)) = Some (number (win (Z.of_nat x) (Z.of_nat y) d))
    /\ legal h (win (Z.of_nat x) (Z.of_nat y) d).
  Proof.
    intros Hd Hy Hx. split.
    - unfold board_out. rewrite (@nth_flat_map _ _ _ (H * W)) with (a := d).
      + rewrite nth_error_map, cells_nth by assumption. reflexivity.
      + intros a _. rewrite map_length. apply cells_length.
      + exact Hd.
      + nia.
    - assert (I : In (Z.of_nat y, Z.of_nat x) (cells H W)) by (apply in_cells; lia).
      apply codes_at_ok in I. destruct I as [F _]. rewrite Forall_forall in F. apply F. eapply nth_error_In; exact Hd.
  Qed.
  Lemma transform_ok : transform_board board H W (2 * Z.of_nat h + 1) raw = Ok board_out.
  Proof.
    pose proof Hh8. unfold transform_board. rewrite validate_ok by exact Hh. cbn [bind]. replace ((2 * Z.of_nat h + 1) / 2) with (Z.of_nat h) by lia.
    replace (32 - Z.of_nat h <? Z.of_nat H) with false by lia. replace (32 - Z.of_nat h <? Z.of_nat W) with false by lia.
    cbn [orb negb]. apply impl_ok.
  Qed.
End Transform.

(** ** Lines *)
Lemma line_key_bit line : forall x key j t, 0 <= x -> x + zlen line <= 32 -> 0 <= j < 32 -> t = 0 \/ t = 1 ->
  Z.testbit (line_key line x key) (2 * j + t)
  = Z.testbit key (2 * j + t) || ((x <=? j) && (j <? x + zlen line) && Z.testbit (bits (line_at line (j - x))) t).
Proof.
  induction line as [|v rest IH]; intros x key j t Hx Hlen Hj Ht; cbn [line_key].
  - change (zlen []) with 0. replace ((x <=? j) && (j <? x + 0)) with false by lia. rewrite orb_false_r. reflexivity.
  - assert (E : zlen (v :: rest) = 1 + zlen rest) by (unfold zlen; cbn [List.length]; lia). pose proof (zlen_nonneg rest) as Hz.
    rewrite IH by lia. rewrite Z.lor_spec, w64_low, Z.shiftl_spec by lia. rewrite <- orb_assoc. f_equal.
    set (c := cell_bits _ _). assert (Hc : 0 <= c < 4) by (subst c; unfold cell_bits; destruct (v =? 1); [lia|]; destruct (v =? 2); lia).
    assert (Ec : c = bits (line_at (v :: rest) 0)).
    { unfold line_at. replace ((0 <=? 0) && (0 <? zlen (v :: rest))) with true by lia. change (nth (Z.to_nat 0) (v :: rest) 0) with v. subst c. unfold cell_bits.
      destruct (v =? 1); [reflexivity|]. destruct (v =? 2); reflexivity. }
    destruct (Z.eq_dec j x) as [->|N].
    + replace (x + 1 <=? x) with false by lia. cbn [andb]. rewrite orb_false_r.
      replace ((x <=? x) && (x <? x + zlen (v :: rest))) with true by lia. cbn [andb].
      rewrite Z.sub_diag, <- Ec. f_equal. lia.
    + replace (Z.testbit c (2 * j + t - 2 * x)) with false.
      2:{ symmetry. destruct (Z.lt_ge_cases (2 * j + t - 2 * x) 0) as [L|L]; [apply Z.testbit_neg_r; lia|].
          destruct (Z.eq_dec c 0) as [->|N0]; [apply Z.bits_0|].
          apply Z.bits_above_log2; [lia|]. apply (Z.lt_le_trans _ 2); [|lia]. apply Z.log2_lt_pow2; lia. }
      cbn [orb]. destruct (Z.le_gt_cases x j) as [L|L].
      * replace ((x + 1 <=? j) && (j <? x + 1 + zlen rest)) with ((x <=? j) && (j <? x + zlen (v :: rest))) by lia.
        destruct ((x <=? j) && (j <? x + zlen (v :: rest))) eqn:Eb; [|reflexivity]. cbn [andb]. f_equal. f_equal.
        unfold line_at. replace ((0 <=? j - (x + 1)) && (j - (x + 1) <? zlen rest)) with true by lia.
        replace ((0 <=? j - x) && (j - x <? zlen (v :: rest))) with true by lia.
        replace (Z.to_nat (j - x)) with (S (Z.to_nat (j - (x + 1)))) by lia. reflexivity.
      * replace (x + 1 <=? j) with false by lia. replace (x <=? j) with false by lia. reflexivity.
Qed.
Lemma line_key_word line : forall x key, word key -> word (line_key line x key).
Proof.
  induction line as [|v rest IH]; intros x key Hk; cbn [line_key]; [exact Hk|]. apply IH. apply lor_word; [exact Hk|apply w64_word].
Qed.
Lemma line_key_fld line j : zlen line <= 32 -> 0 <= j < 32 -> fld (line_key line 0 0) j = bits (line_at line j).
Proof.
  intros Hl Hj. apply fld_bits; [destruct (line_at line j); cbn; lia|lia|].
  intros t Ht. rewrite line_key_bit by (auto; lia). rewrite Z.bits_0. cbn [orb]. rewrite Z.sub_0_r, Z.add_0_l.
  unfold line_at. destruct ((0 <=? j) && (j <? zlen line)); [reflexivity|]. symmetry. apply Z.bits_0.
Qed.
Lemma line_wall line x : line_at line x <> Wall <-> 0 <= x < zlen line.
Proof.
  unfold line_at. destruct ((0 <=? x) && (x <? zlen line)) eqn:E.
  - split; [lia|]. intros _. destruct (_ =? 1); [discriminate|]. destruct (_ =? 2); discriminate.
  - split; [congruence|lia].
Qed.
Lemma line_ok h line : (h <= 8)%nat -> (List.length line <= 32 - h)%nat ->
  transform_line (2 * Z.of_nat h + 1) line
  = Ok (map (fun i => window_code (line_window line h (Z.of_nat i))) (seq 0 (List.length line)))
  /\ forall i, (i < List.length line)%nat -> legal h (line_window line h (Z.of_nat i)).
Proof.
  intros Hh Hl.
  assert (Key : forall i, (i < List.length line)%nat ->
    legal h (line_window line h (Z.of_nat i)) /\
    (e <- encode_contiguous (2 * Z.of_nat h + 1) (rotate_right (line_key line 0 0) (2 * (Z.of_nat i - Z.of_nat h)))
            (Z.min (Z.of_nat h) (Z.of_nat i)) (Z.min (Z.of_nat h) (zlen line - 1 - Z.of_nat i)) ;; Ok (s32 e))
    = Ok (window_code (line_window line h (Z.of_nat i)))).
  { intros i Hi. set (x := Z.of_nat i). assert (Hx : 0 <= x < zlen line) by (unfold zlen; lia).
    assert (Hz : zlen line <= 32 - Z.of_nat h) by (unfold zlen; lia).
    set (key := rotate_right _ _).
    set (at_ := fun k => line_at line (x + (Z.of_nat k - Z.of_nat h))).
    destruct (@encode_window h key at_ (Z.min (Z.of_nat h) x) (Z.min (Z.of_nat h) (zlen line - 1 - x)) Hh) as (L & E & S); try lia.
    - intros k Hk. subst key at_. cbv beta.
      rewrite rotate_fld by (try (apply line_key_word; split; lia); lia).
      rewrite line_key_fld by lia. set (m := x + (Z.of_nat k - Z.of_nat h)).
      replace (Z.of_nat k + (x - Z.of_nat h)) with m by lia.
      destruct (Z.lt_ge_cases m 0) as [Lm|Lm]; [|rewrite Z.mod_small by lia; reflexivity].
      replace (m mod 32) with (m + 32) by lia. unfold line_at.
      replace ((0 <=? m + 32) && (m + 32 <? zlen line)) with false by lia.
      replace ((0 <=? m) && (m <? zlen line)) with false by lia. reflexivity.
    - intros k Hk. subst at_. cbv beta. rewrite line_wall. lia.
    - change (map at_ (seq 0 (2 * h + 1))) with (line_window line h x) in *. split; [exact L|].
      rewrite E. cbn [bind]. rewrite S. reflexivity. }
  split; [|intros i Hi; apply Key; exact Hi].
  unfold transform_line. replace ((2 * Z.of_nat h + 1) / 2) with (Z.of_nat h) by lia. unfold range.
  apply mapM_map. intros i Ii. apply in_seq in Ii. cbv zeta. apply Key. lia.
Qed.

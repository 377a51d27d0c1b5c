(** The compressed stream is a plain little-endian bit stream; quantisation rounds to the nearest 1/32. *)
From Verif Require Import Base BaseFacts Rng RngFacts Codec ExportMasks FeatureTable FeatureTableSpec.
Set Implicit Arguments. Unset Strict Implicit.

Fixpoint stacked (bits : Z) (values : list Z) : Z :=
  match values with [] => 0 | x :: r => x mod 2 ^ bits + 2 ^ bits * stacked bits r end.
Fixpoint words (ws : list Z) : Z := match ws with [] => 0 | w :: r => w + 2 ^ 64 * words r end.
Lemma pow_pos n : 0 <= n -> 0 < 2 ^ n. Proof. intros. apply Z.pow_pos_nonneg; lia. Qed.
Lemma stacked_range bits values : 0 <= bits -> 0 <= stacked bits values < 2 ^ (bits * zlen values).
Proof.
  intros B. pose proof (pow_pos B) as P. induction values as [|x r IH]; cbn [stacked]; [change (zlen (@nil Z)) with 0; rewrite Z.mul_0_r; cbn; lia|].
  rewrite zlen_cons. pose proof (zlen_nonneg r). replace (bits * (1 + zlen r)) with (bits + bits * zlen r) by lia. rewrite Z.pow_add_r by nia.
  pose proof (Z.mod_pos_bound x (2 ^ bits) P). nia.
Qed.
Lemma lor_low acc v used : 0 <= used -> 0 <= acc < 2 ^ used -> Z.lor acc (v * 2 ^ used) = acc + v * 2 ^ used.
Proof. intros U A. pose proof (@lor_shift v acc used U A) as E. rewrite Z.shiftl_mul_pow2 in E by exact U. rewrite Z.lor_comm, E. lia. Qed.
Lemma masked x bits : 0 <= bits <= 64 -> Z.land (x mod 2 ^ 64) (2 ^ bits - 1) = x mod 2 ^ bits.
Proof.
  intros B. replace (2 ^ bits - 1) with (Z.ones bits) by (rewrite Z.ones_equiv; lia). rewrite Z.land_ones by lia.
  replace (2 ^ 64) with (2 ^ bits * 2 ^ (64 - bits)) by (rewrite <- Z.pow_add_r by lia; f_equal; lia). rewrite Z.rem_mul_r by (try apply Z.pow_nonzero; try apply pow_pos; lia).
  rewrite (Z.mul_comm (2 ^ bits) (_ mod _)), Z.mod_add by (apply Z.pow_nonzero; lia). apply Z.mod_mod. apply Z.pow_nonzero; lia.
Qed.
Lemma compress_ok bits values : 1 <= bits <= 64 -> forall acc used, 0 <= used <= 64 -> 0 <= acc < 2 ^ used ->
  let out := compress bits values acc used in
  words out = acc + 2 ^ used * stacked bits values /\ Forall (fun w => 0 <= w < 2 ^ 64) out /\ zlen out = (used + bits * zlen values + 63) / 64.
Proof.
  intros B. induction values as [|x r IH]; intros acc used U A; cbn [compress stacked].
  - change (zlen (@nil Z)) with 0. rewrite !Z.mul_0_r. destruct (0 <? used) eqn:E; cbn zeta.
    + cbn [words]. split; [lia|]. split; [|change (zlen [acc]) with 1; lia]. constructor; [|constructor]. split; [lia|]. apply Z.lt_le_trans with (2 ^ used); [lia|]. apply Z.pow_le_mono_r; lia.
    + assert (used = 0) by lia. subst. cbn [words]. change (2 ^ 0) with 1 in *. split; [lia|]. split; [constructor|]. change (zlen (@nil Z)) with 0. reflexivity.
  - rewrite masked by lia. set (v := x mod 2 ^ bits). assert (V : 0 <= v < 2 ^ bits) by (apply Z.mod_pos_bound, pow_pos; lia).
    cbv zeta. destruct (bits <=? 64 - used) eqn:E.
    + assert (S64 : shl64 v used = v * 2 ^ used).
      { unfold shl64. replace (used <? 64) with true by lia. apply Z.mod_small. split; [pose proof (@pow_pos used); nia|].
        apply Z.lt_le_trans with (2 ^ (bits + used)); [rewrite Z.pow_add_r by lia; pose proof (@pow_pos used); nia|apply Z.pow_le_mono_r; lia]. }
      rewrite S64, lor_low by lia. destruct (IH (acc + v * 2 ^ used) (used + bits)) as (W & R & N); [lia| |].
      { rewrite Z.pow_add_r by lia. pose proof (@pow_pos used). pose proof (@pow_pos bits). nia. }
      split; [rewrite W, Z.pow_add_r by lia; ring|]. split; [exact R|]. rewrite N, zlen_cons. f_equal. lia.
    + assert (D : v = v mod 2 ^ (64 - used) + 2 ^ (64 - used) * (v / 2 ^ (64 - used))) by (pose proof (Z.div_mod v (2 ^ (64 - used))) as D; rewrite D at 1 by (apply Z.pow_nonzero; lia); lia).
      assert (P64 : 2 ^ 64 = 2 ^ used * 2 ^ (64 - used)) by (rewrite <- Z.pow_add_r by lia; f_equal; lia).
      pose proof (Z.mod_pos_bound v (2 ^ (64 - used)) (@pow_pos (64 - used) ltac:(lia))) as M.
      assert (S64 : shl64 v used = (v mod 2 ^ (64 - used)) * 2 ^ used).
      { unfold shl64. destruct (used <? 64) eqn:E2; [rewrite P64, (Z.mul_comm (2 ^ used)), Z.mul_mod_distr_r by (apply Z.pow_nonzero; lia); reflexivity|].
        assert (used = 64) by lia. subst used. change (2 ^ (64 - 64)) with 1. rewrite Z.mod_1_r. reflexivity. }
      assert (R64 : shr64 v (64 - used) = v / 2 ^ (64 - used)).
      { unfold shr64. replace (64 - used <? 64) with true by lia. reflexivity. }
      rewrite S64, R64, lor_low by lia. destruct (IH (v / 2 ^ (64 - used)) (bits - (64 - used))) as (W & R & N); [lia| |].
      { split; [apply Z.div_pos; [lia|apply pow_pos; lia]|]. apply Z.div_lt_upper_bound; [apply pow_pos; lia|].
        rewrite <- Z.pow_add_r by lia. replace (64 - used + (bits - (64 - used))) with bits by lia. lia. }
      cbn [words]. split; [|split].
      * rewrite W. replace (2 ^ bits) with (2 ^ (64 - used) * 2 ^ (bits - (64 - used))) by (rewrite <- Z.pow_add_r by lia; f_equal; lia).
        rewrite P64. rewrite D at 3. ring.
      * constructor; [|exact R]. rewrite P64. pose proof (@pow_pos used). nia.
      * rewrite zlen_cons, N, zlen_cons. replace (used + bits * (1 + zlen r) + 63) with ((bits - (64 - used) + bits * zlen r + 63) + 1 * 64) by lia. rewrite Z.div_add by lia. lia.
Qed.
Lemma stacked_field bits values : 1 <= bits -> forall i v, nth_error values i = Some v -> (stacked bits values / 2 ^ (bits * Z.of_nat i)) mod 2 ^ bits = v mod 2 ^ bits.
Proof.
  intros B. pose proof (@pow_pos bits ltac:(lia)) as P. induction values as [|x r IH]; intros [|i] v N; cbn [nth_error] in N; try discriminate; cbn [stacked].
  - injection N as ->. rewrite Z.mul_0_r. change (2 ^ 0) with 1. rewrite Z.div_1_r, Z.mul_comm, Z.mod_add by lia. apply Z.mod_mod. lia.
  - rewrite <- (IH _ _ N). f_equal. replace (bits * Z.of_nat (S i)) with (bits + bits * Z.of_nat i) by lia. rewrite Z.pow_add_r by nia. rewrite <- Z.div_div by (try apply Z.pow_nonzero; try apply pow_pos; nia).
    f_equal. rewrite Z.mul_comm, Z.div_add by lia. rewrite Z.div_small; [lia|]. apply Z.mod_pos_bound. exact P.
Qed.
Lemma signed_field bits v : 1 <= bits -> - 2 ^ (bits - 1) <= v < 2 ^ (bits - 1) ->
  (if v mod 2 ^ bits <? 2 ^ (bits - 1) then v mod 2 ^ bits else v mod 2 ^ bits - 2 ^ bits) = v.
Proof.
  intros B V. assert (P : 2 ^ bits = 2 * 2 ^ (bits - 1)) by (rewrite <- Z.pow_succ_r by lia; f_equal; lia). pose proof (@pow_pos (bits - 1) ltac:(lia)).
  destruct (Z_lt_le_dec v 0) as [N|N].
  - assert (E : v mod 2 ^ bits = v + 2 ^ bits) by (rewrite <- (Z.mod_add v 1) by lia; rewrite Z.mul_1_l; apply Z.mod_small; lia). rewrite E. replace (v + 2 ^ bits <? 2 ^ (bits - 1)) with false by lia. lia.
  - rewrite Z.mod_small by lia. replace (v <? 2 ^ (bits - 1)) with true by lia. reflexivity.
Qed.
Lemma spelled_app a b : spelled (a ++ b) = spelled a + 256 ^ zlen a * spelled b.
Proof.
  induction a as [|x a IH]; cbn [app spelled]; [change (zlen (@nil Z)) with 0; rewrite Z.pow_0_r; lia|]. rewrite IH, zlen_cons.
  pose proof (zlen_nonneg a). rewrite Z.pow_add_r by lia. change (256 ^ 1) with 256. ring.
Qed.
Lemma spelled_le n : forall v, 0 <= v < 256 ^ Z.of_nat n -> spelled (le_bytes n v) = v.
Proof.
  induction n as [|n IH]; intros v V; cbn [le_bytes spelled]; [change (256 ^ Z.of_nat 0) with 1 in V; lia|].
  rewrite IH; [pose proof (Z.div_mod v 256); lia|]. rewrite Nat2Z.inj_succ, Z.pow_succ_r in V by lia. split; [apply Z.div_pos; lia|apply Z.div_lt_upper_bound; lia].
Qed.
Lemma spelled_words ws : Forall (fun w => 0 <= w < 2 ^ 64) ws -> spelled (flat_map (le_bytes 8) ws) = words ws /\ zlen (flat_map (le_bytes 8) ws) = 8 * zlen ws.
Proof.
  induction 1 as [|w ws W _ (IH & IL)]; [split; reflexivity|]. cbn [flat_map words]. rewrite spelled_app, zlen_app, zlen_cons, IH, IL.
  assert (N : zlen (le_bytes 8 w) = 8) by (unfold zlen; rewrite le_bytes_length; reflexivity). rewrite N. rewrite spelled_le by (change (256 ^ Z.of_nat 8) with (2 ^ 64); exact W).
  split; [reflexivity|lia].
Qed.
(** ** Rounding *)
Lemma around_near n d : 0 < d -> Z.abs (2 * (around n d * d - n)) <= d.
Proof.
  intros D. unfold around. pose proof (Z.div_mod n d ltac:(lia)) as E. pose proof (Z.mod_pos_bound n d D) as M.
  destruct (2 * (n mod d) <? d) eqn:A; [|destruct (d <? 2 * (n mod d)) eqn:A2; [|destruct (Z.even (n / d))]]; nia.
Qed.
Lemma around_tie n d : 0 < d -> Z.abs (2 * (around n d * d - n)) = d -> Z.even (around n d) = true.
Proof.
  intros D. unfold around. pose proof (Z.div_mod n d ltac:(lia)) as E. pose proof (Z.mod_pos_bound n d D) as M.
  destruct (2 * (n mod d) <? d) eqn:A; [intros; nia|]. destruct (d <? 2 * (n mod d)) eqn:A2; [intros; nia|].
  destruct (Z.even (n / d)) eqn:V; [auto|]. intros _. rewrite Z.even_add, V. reflexivity.
Qed.
Lemma around_whole n : around n 1 = n.
Proof. unfold around. rewrite Z.div_1_r, Z.mod_1_r. reflexivity. Qed.
Lemma around_range n d a b : 0 < d -> a * d <= n -> n <= b * d -> a <= around n d <= b.
Proof. intros D A B. pose proof (@around_near n d D). nia. Qed.
Lemma around_mono n d n' d' : 0 < d -> 0 < d' -> n * d' <= n' * d -> around n d <= around n' d'.
Proof.
  intros D D' H. destruct (Z_le_gt_dec (around n d) (around n' d')) as [L|G]; [exact L|exfalso].
  pose proof (@around_near n d D) as N. pose proof (@around_near n' d' D') as N'. set (a := around n d) in *. set (b := around n' d') in *.
  (* a >= b + 1, n/d >= a - 1/2, n'/d' <= b + 1/2 *)
  assert (L1 : 2 * n >= (2 * a - 1) * d) by nia. assert (L2 : 2 * n' <= (2 * b + 1) * d') by nia.
  assert (M1 : (2 * a - 1) * d * d' <= 2 * n * d') by (apply Z.mul_le_mono_nonneg_r; lia).
  assert (M2 : 2 * n' * d <= (2 * b + 1) * d' * d) by (apply Z.mul_le_mono_nonneg_r; lia).
  assert (DD : 0 < d * d') by (apply Z.mul_pos_pos; assumption).
  assert (M3 : (2 * a - 1) * (d * d') <= (2 * b + 1) * (d * d')) by lia. apply Z.mul_le_mono_pos_r in M3; [|exact DD].
  assert (E : a = b + 1) by lia.
  assert (M4 : (2 * n - (2 * a - 1) * d) * d' <= 0) by (rewrite E in *; lia). assert (M5 : 2 * n = (2 * a - 1) * d) by nia.
  assert (M6 : ((2 * b + 1) * d' - 2 * n') * d <= 0) by (rewrite E in *; lia). assert (M7 : 2 * n' = (2 * b + 1) * d') by nia.
  assert (T1 : Z.abs (2 * (a * d - n)) = d) by lia. assert (T2 : Z.abs (2 * (b * d' - n')) = d') by lia.
  pose proof (@around_tie n d D T1) as V1. pose proof (@around_tie n' d' D' T2) as V2. fold a in V1. fold b in V2. rewrite E, Z.even_add, V2 in V1. discriminate.
Qed.

(** What encode_contiguous computes: the base-3 number of LineEncodingFacts.v. *)
From Verif Require Import Base BaseFacts LineEncoding LineEncodingFacts.
Set Implicit Arguments.
Unset Strict Implicit.

(** ** Two-bit fields *)
Definition fld (key j : Z) : Z := Z.land (Z.shiftr key (2 * j)) 3.
Lemma fld_ext a b i j : 0 <= i -> 0 <= j ->
  (forall t, t = 0 \/ t = 1 -> Z.testbit a (2 * i + t) = Z.testbit b (2 * j + t)) -> fld a i = fld b j.
Proof.
  intros Hi Hj H. unfold fld. apply Z.bits_inj'. intros n Hn. rewrite !Z.land_spec.
  destruct (Z.le_gt_cases 2 n) as [L|L].
  - change 3 with (Z.ones 2). rewrite Z.ones_spec_high by lia. rewrite !andb_false_r. reflexivity.
  - rewrite !Z.shiftr_spec by lia. rewrite !(Z.add_comm n). rewrite H by lia. reflexivity.
Qed.
Lemma fld_bits c j key : 0 <= c < 4 -> 0 <= j ->
  (forall t, t = 0 \/ t = 1 -> Z.testbit key (2 * j + t) = Z.testbit c t) -> fld key j = c.
Proof.
  intros Hc Hj H. transitivity (fld c 0).
  - apply fld_ext; [lia|lia|]. intros t Ht. rewrite H by exact Ht. f_equal.
  - unfold fld. rewrite Z.shiftr_0_r. change 3 with (Z.ones 2). rewrite Z.land_ones by lia. apply Z.mod_small. exact Hc.
Qed.
Lemma ones_bit n i : 0 <= i < n -> Z.testbit (2 ^ n - 1) i = true.
Proof. intros H. replace (2 ^ n - 1) with (Z.ones n) by (rewrite Z.ones_equiv; lia). apply Z.ones_spec_low. lia. Qed.
Lemma fld_mask key n j : 0 <= j < n -> fld (Z.land key (2 ^ (2 * n) - 1)) j = fld key j.
Proof.
  intros H. apply fld_ext; [lia|lia|]. intros t Ht. rewrite Z.land_spec, ones_bit by lia. apply andb_true_r.
Qed.
Lemma fld_chunk key c j : 0 <= c -> 0 <= j < 6 -> fld (Z.land (Z.shiftr key (12 * c)) 4095) j = fld key (6 * c + j).
Proof.
  intros Hc Hj. apply fld_ext; [lia|lia|]. intros t Ht. rewrite Z.land_spec. change 4095 with (2 ^ 12 - 1).
  rewrite ones_bit by lia. rewrite andb_true_r, Z.shiftr_spec by lia. f_equal. lia.
Qed.

Definition dg (state : Z) : Z := if state =? 1 then 1 else if state =? 2 then 2 else 0.
Lemma dg_digit s : digit3 (dg s).
Proof. unfold dg, digit3. destruct (s =? 1); [lia|]. destruct (s =? 2); lia. Qed.

(** ** The loops *)
Lemma add_pows_ok n c at_ : forall i code, (forall j, i <= j < i + Z.of_nat n -> 0 <= at_ j < 20) ->
  add_pows n i c at_ (w32 code) = Ok (w32 (code + c * dsum n i (fun j => 3 ^ at_ j))).
Proof.
  induction n as [|n IH]; intros i code H; cbn [add_pows dsum].
  - rewrite Z.mul_0_r, Z.add_0_r. reflexivity.
  - rewrite pow3_ok by (apply H; lia). cbn [bind]. rewrite w32_add2, IH by (intros j Hj; apply H; lia).
    f_equal. f_equal. lia.
Qed.
Lemma add_range_ok from to c at_ code n : n = Z.to_nat (to - from) ->
  (forall j, from <= j < from + Z.of_nat n -> 0 <= at_ j < 20) ->
  add_range from to c at_ (w32 code) = Ok (w32 (code + c * dsum n from (fun j => 3 ^ at_ j))).
Proof. intros -> H. apply add_pows_ok. exact H. Qed.

Lemma val3_pad twos dist : (twos <= dist)%nat ->
  val3 (pad twos dist) = 2 * geo twos * 3 ^ Z.of_nat (dist - twos)
    + geo (dist - 1 - twos) * 3 ^ Z.of_nat (dist - twos - (dist - 1 - twos)).
Proof.
  intros H. unfold pad. rewrite !val3_app, !val3_repeat. unfold zlen. rewrite app_length, !repeat_length.
  replace (dist - 1 - twos + (dist - twos - (dist - 1 - twos)))%nat with (dist - twos)%nat by lia. lia.
Qed.
Lemma val3_rev_pad twos dist : (twos <= dist)%nat ->
  val3 (rev (pad twos dist)) = 2 * geo twos + geo (dist - 1 - twos) * 3 ^ Z.of_nat twos.
Proof.
  intros H. unfold pad. rewrite !rev_app_distr.
  assert (Hr : forall (c : Z) n, rev (repeat c n) = repeat c n).
  { intros c n. induction n as [|n IH]; cbn; [reflexivity|]. rewrite IH. symmetry. apply (repeat_cons n c). }
  rewrite !Hr, !val3_app, !val3_repeat. unfold zlen. rewrite !repeat_length. lia.
Qed.

(** The border code, with no visible stones. *)
Lemma border_ok h ld rd : (h <= 8)%nat -> (ld <= h)%nat -> (rd <= h)%nat ->
  border_encoding (2 * Z.of_nat h + 1) (Z.of_nat h - Z.of_nat ld) (Z.of_nat h - Z.of_nat rd)
  = Ok (w32 (code_value ld (repeat 0 (2 * h + 1 - ld - rd)) rd)).
Proof.
  intros Hh Hl Hr. unfold border_encoding.
  replace ((2 * Z.of_nat h + 1) / 2) with (Z.of_nat h) by lia.
  unfold code_value, digits. rewrite repeat_length. set (v := (2 * h + 1 - ld - rd)%nat).
  replace (ld + v + rd)%nat with (2 * h + 1)%nat by lia.
  rewrite !val3_app, val3_repeat. unfold zlen. rewrite app_length, rev_length, repeat_length, right_pad_length.
  replace (Z.of_nat (2 * h + 1)) with (2 * Z.of_nat h + 1) by lia.
  destruct rd as [|rd].
  - replace (Z.of_nat h - Z.of_nat 0 =? Z.of_nat h) with true by lia.
    destruct ld as [|ld].
    + replace (Z.of_nat h - Z.of_nat 0 =? Z.of_nat h) with true by lia. reflexivity.
    + replace (Z.of_nat h - Z.of_nat (S ld) =? Z.of_nat h) with false by lia. cbn [andb].
      rewrite pow3_ok by lia. cbn [bind].
      rewrite (@add_range_ok 1 _ 1 _ _ ld) by lia. f_equal. f_equal.
      change (marker (S ld) 0) with 2.
      rewrite (@dsum_down ld 1 (2 * Z.of_nat h + 1)) by lia.
      unfold left_pad, right_pad. rewrite val3_pad, val3_rev_pad by lia.
      change (geo 0) with 0. replace (S ld - 1 - 0)%nat with ld by lia.
      replace (S ld - 0 - ld)%nat with 1%nat by lia. change (0 - 1 - 0)%nat with 0%nat. change (geo 0) with 0.
      change (3 ^ Z.of_nat 1) with 3.
      replace (2 * Z.of_nat h + 1 - 1 - Z.of_nat ld + 1) with (Z.succ (Z.of_nat (v + 0))) by lia.
      rewrite Z.pow_succ_r by lia. change (geo (Nat.min (S ld) 0)) with 0. change (geo (0 - 1 - Nat.min (S ld) 0)) with 0. ring.
  - replace (Z.of_nat h - Z.of_nat (S rd) =? Z.of_nat h) with false by lia. rewrite andb_false_r.
    rewrite pow3_ok by lia. cbn [bind].
    replace (Z.of_nat h - (Z.of_nat h - Z.of_nat ld)) with (Z.of_nat ld) by lia.
    replace (Z.of_nat h - (Z.of_nat h - Z.of_nat (S rd))) with (Z.of_nat (S rd)) by lia.
    set (rt := Nat.min ld (S rd)). set (lt := Nat.min ld (S rd - 1)).
    replace (Z.min (Z.of_nat ld) (Z.of_nat (S rd))) with (Z.of_nat rt) by lia.
    replace (Z.min (Z.of_nat ld) (Z.of_nat (S rd) - 1)) with (Z.of_nat lt) by lia.
    rewrite (@add_range_ok 0 _ 2 _ _ rt) by lia. cbn [bind].
    rewrite (@add_range_ok 0 _ 2 _ _ lt) by lia. cbn [bind].
    rewrite (@add_range_ok _ _ 1 _ _ (S rd - 1 - rt)) by lia. cbn [bind].
    rewrite (@add_range_ok _ _ 1 _ _ (ld - 1 - lt)) by lia. f_equal. f_equal.
    change (marker ld (S rd)) with 1.
    unfold left_pad, right_pad. fold rt lt. rewrite val3_pad, val3_rev_pad by lia.
    rewrite !dsum_up by lia.
    rewrite (@dsum_down lt 0 (2 * Z.of_nat h + 1 - 1)) by lia.
    rewrite (@dsum_down (ld - 1 - lt) (Z.of_nat lt) (2 * Z.of_nat h + 1 - 1)) by lia.
    change (3 ^ 0) with 1.
    rewrite Z.mul_add_distr_r. rewrite <- !(Z.mul_assoc _ (3 ^ _) (3 ^ _)). rewrite <- !Z.pow_add_r by lia.
    replace (Z.of_nat (ld - lt) + Z.of_nat (v + S rd)) with (2 * Z.of_nat h + 1 - 1 - 0 - Z.of_nat lt + 1) by lia.
    destruct (Nat.eq_dec (ld - 1 - lt) 0) as [Ez|Ez].
    + rewrite Ez. change (geo 0) with 0. lia.
    + replace (Z.of_nat (ld - lt - (ld - 1 - lt)) + Z.of_nat (v + S rd))
        with (2 * Z.of_nat h + 1 - 1 - Z.of_nat lt - Z.of_nat (ld - 1 - lt) + 1) by lia. lia.
Qed.

Section Key.
  Variables (len key : Z).
  Let F (k : Z) : Z := dg (fld key k) * 3 ^ (len - 1 - k).
  Lemma chunk_cells_ok n : forall chunk offset c, 0 <= chunk -> 0 <= offset -> offset + Z.of_nat n <= 6 -> len <= 20 ->
    chunk_cells n len chunk offset (Z.land (Z.shiftr key (12 * chunk)) 4095) (w32 c)
    = Ok (w32 (c + dsum (Nat.min n (Z.to_nat (len - (6 * chunk + offset)))) (6 * chunk + offset) F)).
  Proof.
    induction n as [|n IH]; intros chunk offset c Hc Ho Hn Hlen; cbn [chunk_cells].
    - cbn [Nat.min dsum]. rewrite Z.add_0_r. reflexivity.
    - destruct (Z.leb_spec len (chunk * 6 + offset)) as [L|L].
      + replace (Z.to_nat _) with 0%nat by lia. rewrite Nat.min_0_r. cbn [dsum]. rewrite Z.add_0_r. reflexivity.
      + rewrite pow3_ok by lia. cbn [bind].
        change (Z.land (Z.shiftr ?v (2 * offset)) 3) with (fld v offset). rewrite fld_chunk by lia.
        fold (dg (fld key (6 * chunk + offset))). rewrite w32_add2, IH by lia.
        replace (Z.to_nat (len - (6 * chunk + offset))) with (S (Z.to_nat (len - (6 * chunk + (offset + 1))))) by lia.
        cbn [Nat.min dsum]. f_equal. f_equal.
        replace (6 * chunk + offset + 1) with (6 * chunk + (offset + 1)) by lia.
        unfold F at 2. replace (len - 1 - (chunk * 6 + offset)) with (len - 1 - (6 * chunk + offset)) by lia. lia.
  Qed.
  Lemma add_chunks_ok n : forall chunk c, 0 <= chunk -> len <= 20 ->
    add_chunks n len chunk key (w32 c)
    = Ok (w32 (c + dsum (Nat.min (6 * n) (Z.to_nat (len - 6 * chunk))) (6 * chunk) F)).
  Proof.
    induction n as [|n IH]; intros chunk c Hc Hlen; cbn [add_chunks].
    - cbn. rewrite Z.add_0_r. reflexivity.
    - unfold chunk_entry. change 0 with (w32 0) at 2. rewrite chunk_cells_ok by lia. cbn [bind].
      rewrite w32_add2, IH by lia. f_equal. f_equal.
      replace (6 * chunk + 0) with (6 * chunk) by lia.
      destruct (Z.le_gt_cases (len - 6 * chunk) 6) as [L|L].
      + replace (Nat.min (6 * n) _) with 0%nat by lia. cbn [dsum].
        replace (Nat.min 6 (Z.to_nat (len - 6 * chunk))) with (Nat.min (6 * S n) (Z.to_nat (len - 6 * chunk))) by lia. lia.
      + replace (Nat.min 6 (Z.to_nat (len - 6 * chunk))) with 6%nat by lia.
        replace (Nat.min (6 * S n) (Z.to_nat (len - 6 * chunk)))
          with (6 + Nat.min (6 * n) (Z.to_nat (len - 6 * (chunk + 1))))%nat by lia.
        rewrite dsum_app. replace (6 * chunk + Z.of_nat 6) with (6 * (chunk + 1)) by lia. lia.
  Qed.
End Key.

(** A digit string as a sum. *)
Lemma dsum_val3 (d : Z -> Z) n : forall i m, m = i + Z.of_nat n ->
  dsum n i (fun k => d k * 3 ^ (m - 1 - k)) = val3 (map (fun k => d (Z.of_nat k + i)) (seq 0 n)).
Proof.
  induction n as [|n IH]; intros i m Hm; [reflexivity|].
  cbn [dsum seq map val3]. rewrite (@IH (i + 1) m) by lia.
  unfold zlen. rewrite map_length, seq_length. change (Z.of_nat 0 + i) with i.
  replace (m - 1 - i) with (Z.of_nat n) by lia. f_equal.
  rewrite <- seq_shift, map_map. f_equal. apply map_ext. intros k. f_equal. lia.
Qed.

Lemma digits_split ld vis rd n : List.length vis = n ->
  val3 (digits ld vis rd) = val3 (digits ld (repeat 0 n) rd) + val3 (repeat 0 ld ++ vis ++ repeat 0 rd).
Proof.
  intros <-. unfold digits. rewrite !val3_app, !val3_repeat. unfold zlen.
  rewrite !app_length, !rev_length, !repeat_length, right_pad_length. ring.
Qed.

Lemma map_const {A} (f : A -> Z) l c : (forall x, In x l -> f x = c) -> map f l = repeat c (List.length l).
Proof. induction l as [|x l IH]; intros H; cbn; [reflexivity|].
  rewrite (H x (or_introl eq_refl)), IH; [reflexivity|]. intros y Hy. apply H. right. exact Hy. Qed.

(** The code of a key whose fields are walls outside [ld, len - rd). *)
Lemma encode_ok h ld rd key : (h <= 8)%nat -> (ld <= h)%nat -> (rd <= h)%nat ->
  (forall k, (k < ld)%nat -> dg (fld key (Z.of_nat k)) = 0) ->
  (forall k, (2 * h + 1 - rd <= k < 2 * h + 1)%nat -> dg (fld key (Z.of_nat k)) = 0) ->
  encode_contiguous (2 * Z.of_nat h + 1) key (Z.of_nat h - Z.of_nat ld) (Z.of_nat h - Z.of_nat rd)
  = Ok (w32 (code_value ld (map (fun k => dg (fld key (Z.of_nat k))) (seq ld (2 * h + 1 - ld - rd))) rd)).
Proof.
  intros Hh Hl Hr Z1 Z2. unfold encode_contiguous. rewrite border_ok by assumption. cbn [bind].
  rewrite add_chunks_ok by lia. f_equal. f_equal.
  set (len := 2 * Z.of_nat h + 1).
  replace (Nat.min _ _) with (2 * h + 1)%nat.
  2:{ unfold num_chunks. assert (len <= 6 * ((len + 6 - 1) / 6)) by lia. lia. }
  rewrite (@dsum_ext (2 * h + 1) _ _ (fun k => dg (fld key k) * 3 ^ (len - 1 - k))).
  2:{ intros j Hj. rewrite fld_mask by lia. reflexivity. }
  replace (6 * 0) with 0 by lia. rewrite (@dsum_val3 (fun k => dg (fld key k)) (2 * h + 1) 0 len) by lia.
  unfold code_value. rewrite map_length, seq_length, repeat_length.
  rewrite (@digits_split ld (map _ _) rd (2 * h + 1 - ld - rd)) by (rewrite map_length, seq_length; reflexivity).
  enough (E : map (fun k => dg (fld key (Z.of_nat k + 0))) (seq 0 (2 * h + 1))
          = repeat 0 ld ++ map (fun k => dg (fld key (Z.of_nat k))) (seq ld (2 * h + 1 - ld - rd)) ++ repeat 0 rd).
  { rewrite E. lia. }
  replace (2 * h + 1)%nat with (ld + (2 * h + 1 - ld - rd + rd))%nat at 1 by lia.
  rewrite !seq_app, !map_app. cbn [Nat.add].
  rewrite (@map_const _ _ (seq 0 ld) 0), seq_length.
  2:{ intros k Hk. apply in_seq in Hk. rewrite Z.add_0_r. apply Z1. lia. }
  f_equal. f_equal.
  - apply map_ext. intros k. rewrite Z.add_0_r. reflexivity.
  - rewrite (@map_const _ _ _ 0), seq_length; [reflexivity|].
    intros k Hk. apply in_seq in Hk. rewrite Z.add_0_r. apply Z2. lia.
Qed.

Lemma max_encoding_ok h : (h <= 8)%nat -> max_encoding (2 * Z.of_nat h + 1)
  = Ok (2 * 3 ^ (2 * Z.of_nat h + 1) + 2 * geo (h + 1) + 3 ^ (Z.of_nat h + 2) * geo (h - 1))
  /\ 2 * 3 ^ (2 * Z.of_nat h + 1) + 2 * geo (h + 1) + 3 ^ (Z.of_nat h + 2) * geo (h - 1) < 3 ^ 18.
Proof.
  intros H. do 9 (destruct h as [|h]; [vm_compute; auto|]). lia.
Qed.

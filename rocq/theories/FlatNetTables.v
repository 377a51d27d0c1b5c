(** Facts for C74: every chunk of a board has its row in the exported tables. *)
From Coq Require Import QArith Qcanon.
From Verif Require Import Base BaseFacts Rng FlatNet FlatNetSpec FlatNetFacts.
Set Implicit Arguments. Unset Strict Implicit.
Local Open Scope Z_scope.

(** ** Ranges in batches *)
Lemma zrange_nil a b : b <= a -> zrange a b = []. Proof. intros H. unfold zrange. now replace (Z.to_nat (b - a)) with 0%nat by lia. Qed.
Lemma zrange_split a b c : a <= b <= c -> zrange a c = zrange a b ++ zrange b c.
Proof.
  intros H. unfold zrange. replace (Z.to_nat (c - a)) with (Z.to_nat (b - a) + Z.to_nat (c - b))%nat by lia. rewrite seq_app, map_app. f_equal.
  cbn [Nat.add]. rewrite <- (Nat.add_0_r (Z.to_nat (b - a))) at 1.
  assert (G : forall n k o, map (fun j => a + Z.of_nat j) (seq (n + o) k) = map (fun j => (a + Z.of_nat n) + Z.of_nat j) (seq o k)).
  { intros n k. induction k as [|k IH]; intros o; [reflexivity|]. cbn [seq map]. rewrite <- IH, Nat.add_succ_r. f_equal. lia. }
  rewrite G. apply map_ext. intros j. lia.
Qed.
Lemma zrange_length a b : List.length (zrange a b) = Z.to_nat (b - a). Proof. unfold zrange. now rewrite map_length, seq_length. Qed.
Lemma zrange_nth a b i d : 0 <= i < b - a -> nth (Z.to_nat i) (zrange a b) d = a + i.
Proof.
  intros H. rewrite (nth_indep _ d (a + Z.of_nat 0)) by (rewrite zrange_length; lia). unfold zrange. rewrite map_nth with (f := fun k => a + Z.of_nat k), seq_nth by lia. lia.
Qed.
Lemma zrange_In a b i : List.In i (zrange a b) -> a <= i < b.
Proof. unfold zrange. rewrite in_map_iff. intros (k & <- & K). apply in_seq in K. lia. Qed.
Lemma batches A (row : Z -> A) batch N : 0 < batch -> 0 <= N -> forall n, flat_map (fun k => map row (zrange (k * batch) (Z.min (k * batch + batch) N))) (zrange 0 (Z.of_nat n)) = map row (zrange 0 (Z.min (Z.of_nat n * batch) N)).
Proof.
  intros B HN. induction n as [|n IH].
  - change (Z.of_nat 0) with 0. rewrite !zrange_nil by lia. reflexivity.
  - rewrite (@zrange_split 0 (Z.of_nat n) (Z.of_nat (S n))) by lia. rewrite flat_map_app, IH.
    assert (E : zrange (Z.of_nat n) (Z.of_nat (S n)) = [Z.of_nat n]). { unfold zrange. replace (Z.to_nat (Z.of_nat (S n) - Z.of_nat n)) with 1%nat by lia. cbn [seq map]. f_equal. lia. }
    rewrite E. cbn [flat_map]. rewrite app_nil_r. destruct (Z_le_gt_dec N (Z.of_nat n * batch)) as [L|G].
    + rewrite (@zrange_nil (Z.of_nat n * batch)) by lia. cbn [map]. rewrite app_nil_r. f_equal. f_equal. nia.
    + rewrite (Z.min_l (Z.of_nat n * batch)) by lia. rewrite <- map_app, <- zrange_split by lia. f_equal. f_equal. lia.
Qed.
Lemma export_rows_all A (row : Z -> A) batch N : 0 < batch -> 0 <= N -> export_rows batch N row = map row (zrange 0 N).
Proof.
  intros B HN. unfold export_rows. cbv zeta. pose proof (Z.div_mod (N + batch - 1) batch ltac:(lia)) as D. pose proof (Z.mod_pos_bound (N + batch - 1) batch B) as M.
  set (n := (N + batch - 1) / batch) in *. assert (P : 0 <= n) by nia. rewrite <- (Z2Nat.id n) by exact P. rewrite batches by lia. f_equal. f_equal. rewrite Z2Nat.id by exact P. nia.
Qed.

(** ** Codes *)
Definition cell (z : Z) : Prop := 0 <= z <= 2.
Lemma code_range l : Forall cell l -> 0 <= code l < 3 ^ Z.of_nat (List.length l).
Proof.
  induction 1 as [|c l C _ IH]; cbn [code List.length]; [cbn; lia|]. rewrite Nat2Z.inj_succ, Z.pow_succ_r by lia. unfold cell in C. lia.
Qed.
Lemma code_digit l : Forall cell l -> forall i, (code l / 3 ^ Z.of_nat i) mod 3 = nth i l 0.
Proof.
  induction 1 as [|c l C _ IH]; intros i; cbn [code]; [rewrite Z.div_0_l by (apply Z.pow_nonzero; lia); now destruct i|]. unfold cell in C. destruct i as [|i].
  - change (Z.of_nat 0) with 0. rewrite Z.pow_0_r, Z.div_1_r. cbn [nth]. rewrite (Z.mul_comm 3), Z.mod_add by lia. apply Z.mod_small. lia.
  - cbn [nth]. rewrite <- IH, Nat2Z.inj_succ, Z.pow_succ_r by lia. rewrite <- Z.div_div by (try apply Z.pow_pos_nonneg; lia).
    rewrite (Z.mul_comm 3), Z.div_add by lia. now rewrite (Z.div_small c) by lia.
Qed.
Lemma code_inj l : Forall cell l -> forall m, Forall cell m -> List.length l = List.length m -> code l = code m -> l = m.
Proof.
  intros L m M N E. apply (nth_ext _ _ 0 0 N). intros i _. rewrite <- (code_digit L), <- (code_digit M). now rewrite E.
Qed.

(** ** Cells of a plane in row-major order *)
Lemma concat_rows_nth A (f : nat -> nat -> A) w d : forall h y x, (y < h)%nat -> (x < w)%nat ->
  nth (y * w + x) (List.concat (map (fun y => map (f y) (seq 0 w)) (seq 0 h))) d = f y x.
Proof.
  intros h. assert (G : forall n o y x, (y < n)%nat -> (x < w)%nat -> nth (y * w + x) (List.concat (map (fun y => map (f y) (seq 0 w)) (seq o n))) d = f (o + y)%nat x).
  { induction n as [|n IH]; intros o y x Y X; [lia|]. cbn [seq map List.concat]. destruct y as [|y].
    - cbn [Nat.mul Nat.add]. rewrite app_nth1 by (rewrite map_length, seq_length; lia). rewrite (nth_indep _ d (f o 0%nat)) by (rewrite map_length, seq_length; lia).
      rewrite map_nth, seq_nth by lia. now rewrite Nat.add_0_r.
    - rewrite app_nth2 by (rewrite map_length, seq_length; cbn; lia). rewrite map_length, seq_length. replace (S y * w + x - w)%nat with (y * w + x)%nat by (cbn; lia).
      rewrite IH by lia. f_equal. lia. }
  intros. now rewrite G.
Qed.
Lemma cells_nth p y x : (y < height p)%nat -> (x < width p)%nat -> nth (y * width p + x) (cells p) 0 = at_ p y x.
Proof. intros. unfold cells, rows. now apply concat_rows_nth. Qed.
Definition all_cells (p : plane Z) : Prop := forall y x, (y < height p)%nat -> (x < width p)%nat -> cell (at_ p y x).
Lemma cells_Forall p : all_cells p -> Forall cell (cells p).
Proof.
  intros H. unfold cells, rows. apply Forall_concat. apply Forall_forall. intros r R. apply in_map_iff in R. destruct R as (y & <- & Y). apply in_seq in Y.
  apply Forall_forall. intros c C. apply in_map_iff in C. destruct C as (x & <- & X). apply in_seq in X. apply H; lia.
Qed.
Lemma cells_length p : List.length (cells p) = (height p * width p)%nat.
Proof.
  unfold cells, rows. assert (G : forall n o, List.length (List.concat (map (fun y => map (at_ p y) (seq 0 (width p))) (seq o n))) = (n * width p)%nat).
  { induction n as [|n IH]; intros o; [reflexivity|]. cbn [seq map List.concat]. rewrite app_length, map_length, seq_length, IH. reflexivity. }
  apply G.
Qed.

(** ** The inputs written by the exporter *)
Lemma map_map_ext A (f g : nat -> nat -> A) h w : (forall y x, (y < h)%nat -> (x < w)%nat -> f y x = g y x) -> map (fun y => map (f y) (seq 0 w)) (seq 0 h) = map (fun y => map (g y) (seq 0 w)) (seq 0 h).
Proof. intros H. apply map_ext_in. intros y Y. apply in_seq in Y. apply map_ext_in. intros x X. apply in_seq in X. apply H; lia. Qed.
Definition digit_at (w : nat) (index : Z) (y x : nat) : Z := (index / 3 ^ Z.of_nat (y * w + x)) mod 3.
Lemma base3_writes (w : nat) index n : (0 < w)%nat -> forall c y x, (x < w)%nat -> (c < 2)%nat ->
  fold_left (fun t i =>
    let digit := (index / 3 ^ Z.of_nat i) mod 3 in
    let t := write3 t 0 (i / w) (i mod w) (if digit =? 1 then 1 else 0) in
    write3 t 1 (i / w) (i mod w) (if digit =? 2 then 1 else 0)) (seq 0 n) (fun _ _ _ => 0) c y x =
  if (y * w + x <? n)%nat then (if digit_at w index y x =? Z.of_nat (S c) then 1 else 0) else 0.
Proof.
  intros W. induction n as [|n IH]; intros c y x X C; [reflexivity|]. rewrite seq_S, fold_left_app. cbn [fold_left Nat.add]. cbv zeta.
  pose proof (Nat.div_mod n w ltac:(lia)) as D. pose proof (Nat.mod_upper_bound n w ltac:(lia)) as M.
  unfold write3. destruct (Nat.eqb_spec (y * w + x) n) as [E|E].
  - assert (Y : y = (n / w)%nat) by (apply (Nat.div_unique n w y x); lia). assert (XX : x = (n mod w)%nat) by (apply (Nat.mod_unique n w y x); lia).
    rewrite <- Y, <- XX, !Nat.eqb_refl, !andb_true_r. replace (y * w + x <? S n)%nat with true by (symmetry; apply Nat.ltb_lt; lia). unfold digit_at. rewrite E.
    destruct c as [|[|c]]; [reflexivity|reflexivity|lia].
  - assert (N : ((y =? n / w) && (x =? n mod w))%nat = false).
    { destruct (Nat.eqb_spec y (n / w)) as [Y|Y]; [|reflexivity]. destruct (Nat.eqb_spec x (n mod w)) as [XX|XX]; [|reflexivity]. exfalso. apply E. rewrite Y, XX. lia. }
    rewrite <- !andb_assoc, N, !andb_false_r. rewrite IH by assumption. destruct (Nat.ltb_spec (y * w + x) n); destruct (Nat.ltb_spec (y * w + x) (S n)); try reflexivity; lia.
Qed.
Lemma base3_ok p h w : height p = h -> width p = w -> (0 < w)%nat -> all_cells p -> base3_input h w (code (cells p)) = map (@rows Z) [stones 1 p; stones 2 p].
Proof.
  intros H W W0 A. unfold base3_input. cbv zeta. cbn [map]. unfold rows, stones. cbn [height width at_]. rewrite H, W.
  f_equal; [|f_equal].
  all: apply map_map_ext; intros y x Y X; rewrite base3_writes by lia; replace (y * w + x <? h * w)%nat with true by (symmetry; apply Nat.ltb_lt; nia).
  all: unfold digit_at; rewrite (code_digit (cells_Forall A)); rewrite <- W; rewrite cells_nth by lia; reflexivity.
Qed.

(** ** Chunks *)
Lemma rot90_stones s k p : rot90 k (stones s p) = stones s (rot90 k p).
Proof. unfold rot90. destruct (k mod 4) as [|[[]|[]|]|]; reflexivity. Qed.
Lemma square_stones s q b : square_chunk q (stones s b) = stones s (square_chunk q b).
Proof. unfold square_chunk. change (slice (y0 q) (y1 q) (x0 q) (x1 q) (stones s b)) with (stones s (slice (y0 q) (y1 q) (x0 q) (x1 q) b)). rewrite rot90_stones. now destruct (tr q). Qed.
Lemma ladder_stones s q b : ladder_chunk q (stones s b) = stones s (ladder_chunk q b).
Proof.
  unfold ladder_chunk. change (slice (y0 q) (y1 q) (x0 q) (x1 q) (stones s b)) with (stones s (slice (y0 q) (y1 q) (x0 q) (x1 q) b)).
  destruct (tr q); [change (transpose (stones s ?p)) with (stones s (transpose p))|]; now rewrite rot90_stones.
Qed.
Lemma slice_cells q b : board7 b -> (y1 q <= 7)%nat -> (x1 q <= 7)%nat -> all_cells (slice (y0 q) (y1 q) (x0 q) (x1 q) b).
Proof. intros (H & W & A) Y X y x Hy Hx. cbn in *. apply A; lia. Qed.
Lemma transpose_cells p : all_cells p -> all_cells (transpose p). Proof. intros A y x Y X. cbn in *. now apply A. Qed.
Lemma rot90_cells k p : all_cells p -> all_cells (rot90 k p).
Proof. intros A. unfold rot90. destruct (k mod 4) as [|[[]|[]|]|]; try exact A; intros y x Y X; cbn in *; apply A; lia. Qed.
Definition within (q : pattern) : Prop := (y1 q <= 7)%nat /\ (x1 q <= 7)%nat.
Lemma square_cells q b : board7 b -> within q -> all_cells (square_chunk q b).
Proof. intros B (Y & X). unfold square_chunk. pose proof (slice_cells B Y X) as S. apply (@rot90_cells (rot q)) in S. destruct (tr q); [now apply transpose_cells|exact S]. Qed.
Lemma ladder_cells q b : board7 b -> within q -> all_cells (ladder_chunk q b).
Proof. intros B (Y & X). unfold ladder_chunk. pose proof (slice_cells B Y X) as S. apply rot90_cells. destruct (tr q); [now apply transpose_cells|exact S]. Qed.
Definition square_size (h w : nat) (q : pattern) : Prop := within q /\ forall b : plane Z, height (square_chunk q b) = h /\ width (square_chunk q b) = w.
Lemma square_base3 h w q b : (0 < w)%nat -> square_size h w q -> board7 b -> base3_input h w (code (cells (square_chunk q b))) = chunk_input (@square_chunk Z) q b.
Proof.
  intros W (I & D) B. destruct (D b) as [DH DW]. rewrite (base3_ok DH DW W (square_cells B I)). unfold chunk_input, input_plane. cbn [map]. now rewrite !square_stones.
Qed.
Lemma square_code h w q b : square_size h w q -> board7 b -> 0 <= code (cells (square_chunk q b)) < 3 ^ Z.of_nat (h * w).
Proof. intros (I & D) B. destruct (D b) as [DH DW]. pose proof (code_range (cells_Forall (square_cells B I))) as R. rewrite cells_length, DH, DW in R. exact R. Qed.
Lemma v4_sizes l : List.In l v4_indices -> Forall (square_size 4 4) l.
Proof. intros [<-|[<-|[<-|[]]]]; repeat (constructor; [split; [split; cbn; lia|intros; split; reflexivity]|]); constructor. Qed.
Lemma corner_sizes : Forall (square_size 4 4) corner_index.
Proof. repeat (constructor; [split; [split; cbn; lia|intros; split; reflexivity]|]); constructor. Qed.
Lemma middle_sizes : Forall (square_size 4 3) middle_index.
Proof. repeat (constructor; [split; [split; cbn; lia|intros; split; reflexivity]|]); constructor. Qed.
Lemma v3_sizes l : List.In l [v3_corner1; v3_corner2; v3_middle] -> Forall (square_size 3 4) l.
Proof. intros [<-|[<-|[<-|[]]]]; repeat (constructor; [split; [split; cbn; lia|intros; split; reflexivity]|]); constructor. Qed.

(** ** Quantised features *)
Definition q8 (x : Qc) : Z := clip (-128) 127 (round_q (x * Qz 128)%Qc).
Definition q4 (x : Qc) : Z := clip (-8) 7 (round_q (x * Qz 8)%Qc).
Lemma bottom8 : bottom = (Qz (-8) / Qz 8)%Qc.
Proof. unfold bottom. rewrite <- (@mul_over 8 (Qz (-1))) by lia. now rewrite Qz_mul. Qed.
Lemma clamp_q8 x : clip (-128) 127 (round_q (clamp bottom top x * Qz 128)%Qc) = q8 x.
Proof. unfold q8, top. rewrite bottom_eq. pose proof (@rnd_clamp false 128 (-128) 127 x ltac:(lia) ltac:(lia)) as E. cbn [rnd] in E. rewrite E. apply clip_clip; lia. Qed.
Lemma clamp_q4 x : clip (-8) 7 (round_q (clamp bottom (Qz 7 / Qz 8)%Qc x * Qz 8)%Qc) = q4 x.
Proof. unfold q4. rewrite bottom8. pose proof (@rnd_clamp false 8 (-8) 7 x ltac:(lia) ltac:(lia)) as E. cbn [rnd] in E. rewrite E. apply clip_clip; lia. Qed.
Lemma table_row_q int4 v : table_row int4 v = map (if int4 then q4 else q8) v.
Proof. unfold table_row. destruct int4; apply map_ext; intros; [apply clamp_q4|apply clamp_q8]. Qed.
Lemma fq8 x : fake_quant 128 8 false x = (Qz (q8 x) / Qz 128)%Qc. Proof. now rewrite fake_quant_eq by lia. Qed.
Lemma fq8_clamp x : fake_quant 128 8 false (clamp bottom top x) = (Qz (q8 x) / Qz 128)%Qc.
Proof. rewrite fq8. f_equal. f_equal. unfold q8 at 1. apply clamp_q8. Qed.
Lemma fq4_clamp x : fake_quant 8 4 false (clamp bottom (Qz 7 / Qz 8)%Qc x) = (Qz (16 * q4 x) / Qz 128)%Qc.
Proof.
  rewrite fake_quant_eq by lia. change (- 2 ^ (4 - 1)) with (-8). change (2 ^ (4 - 1) - 1) with 7. cbn [rnd]. rewrite clamp_q4, <- Qz_mul. change 128 with (16 * 8) at 1. rewrite <- Qz_mul. field. split; apply Qz_nz; lia.
Qed.
Definition unit (int4 : bool) (z : Z) : Z := if int4 then 16 * z else z.
Lemma quant_feature_ints int4 v : quant_feature int4 v = map (fun z => Qz z / Qz 128)%Qc (map (unit int4) (table_row int4 v)).
Proof.
  rewrite table_row_q, !map_map. unfold quant_feature, unit. destruct int4; apply map_ext; intros x; [apply fq4_clamp|apply fq8_clamp].
Qed.
Lemma q8_range x : -128 <= q8 x <= 127. Proof. apply clip_in. lia. Qed.
Lemma q4_range x : -8 <= q4 x <= 7. Proof. apply clip_in. lia. Qed.

(** ** Sums of features *)
Lemma vadd_ints s xs ys : 0 < s -> vadd (map (fun z => Qz z / Qz s)%Qc xs) (map (fun z => Qz z / Qz s)%Qc ys) = map (fun z => Qz z / Qz s)%Qc (map2 Z.add xs ys).
Proof.
  intros S. unfold vadd. rewrite map2_map, map_map2. apply map2_ext. intros a b. rewrite <- Qz_add. field. now apply Qz_nz.
Qed.
Lemma vsum_ints s F l : 0 < s -> l <> [] -> Forall (fun r => List.length r = F) l -> vsum (map (map (fun z => Qz z / Qz s)%Qc) l) = map (fun z => Qz z / Qz s)%Qc (columns l F).
Proof.
  intros S N FL. destruct l as [|v r]; [now destruct N|]. inversion FL as [|? ? Hv Fr]; subst. cbn [map vsum].
  assert (G : forall r, Forall (fun r => List.length r = List.length v) r -> forall acc, List.length acc = List.length v ->
    fold_left vadd (map (map (fun z => Qz z / Qz s)%Qc) r) (map (fun z => Qz z / Qz s)%Qc acc) = map (fun z => Qz z / Qz s)%Qc (map (fun j => nth j acc 0 + zsum (map (fun r => nth j r 0) r)) (seq 0 (List.length v)))).
  { clear - S. induction 1 as [|a r Ha _ IH]; intros acc L; cbn [map fold_left].
    - f_equal. apply (nth_ext _ _ 0 0); [rewrite map_length, seq_length; exact L|]. intros j J. rewrite (nth_indep (map _ (seq _ _)) 0 (nth 0 acc 0 + 0)) by (rewrite map_length, seq_length; lia).
      rewrite (map_nth (fun j => nth j acc 0 + zsum [])), seq_nth by lia. cbn. lia.
    - rewrite vadd_ints by exact S. rewrite IH by (rewrite map2_length; lia). f_equal. apply map_ext_in. intros j J. apply in_seq in J. rewrite zsum_cons.
      assert (E : forall (l m : list Z) j, List.length l = List.length m -> nth j (map2 Z.add l m) 0 = nth j l 0 + nth j m 0).
      { clear. induction l as [|x l IH]; intros [|y m] j H; try discriminate; [now destruct j|]. destruct j; [reflexivity|]. cbn. apply IH. cbn in H. lia. }
      rewrite E by lia. lia. }
  rewrite G by auto. f_equal. 
Qed.

(** Facts for C74: reading the integers of an exported file back. *)
From Coq Require Import QArith Qcanon.
From Verif Require Import Base BaseFacts Rng RngFacts FlatNet FlatNetSpec FlatNetFacts FlatNetTables.
Set Implicit Arguments. Unset Strict Implicit.
Local Open Scope Z_scope.

Definition located (file : list Z) (off : Z) (buf : list Z) : Prop := exists pre post, file = pre ++ buf ++ post /\ zlen pre = off.
Lemma located_byte file off buf i : located file off buf -> 0 <= i < zlen buf -> byte file (off + i) = nth (Z.to_nat i) buf 0.
Proof.
  intros (pre & post & -> & L) I. unfold byte, zlen in *. rewrite app_nth2 by lia. rewrite app_nth1 by lia. f_equal. lia.
Qed.
Lemma located_off file off buf : located file off buf -> 0 <= off.
Proof. intros (pre & post & _ & L). unfold zlen in L. lia. Qed.
Lemma located_app file off a b : located file off (a ++ b) -> located file off a /\ located file (off + zlen a) b.
Proof.
  intros (pre & post & -> & L). split; [exists pre, (b ++ post); rewrite <- app_assoc; auto|].
  exists (pre ++ a), post. rewrite <- !app_assoc. split; [reflexivity|]. rewrite zlen_app. lia.
Qed.

(** ** Integers *)
Definition int8 (z : Z) : Prop := -128 <= z <= 127.
Definition int32 (z : Z) : Prop := - 2 ^ 31 <= z <= 2 ^ 31 - 1.
Lemma i1_len l : zlen (i1 l) = zlen l. Proof. unfold zlen, i1. now rewrite map_length. Qed.
Lemma i4_len l : zlen (i4 l) = 4 * zlen l.
Proof. unfold i4. induction l as [|a l IH]; [reflexivity|]. cbn [flat_map]. rewrite zlen_app, zlen_cons, IH. assert (E : zlen (le_bytes 4 (a mod 2 ^ 32)) = 4) by (unfold zlen; now rewrite le_bytes_length). lia. Qed.
Lemma u2_len l : zlen (u2 l) = 2 * zlen l.
Proof. unfold u2. induction l as [|a l IH]; [reflexivity|]. cbn [flat_map]. rewrite zlen_app, zlen_cons, IH. assert (E : zlen (le_bytes 2 (a mod 2 ^ 16)) = 2) by (unfold zlen; now rewrite le_bytes_length). lia. Qed.
Lemma Forall_nth_in A (P : A -> Prop) l d i : Forall P l -> (i < List.length l)%nat -> P (nth i l d).
Proof. intros H L. rewrite Forall_forall in H. apply H. now apply nth_In. Qed.
Lemma read_i1 file off l j : located file off (i1 l) -> Forall int8 l -> (j < List.length l)%nat -> int8_at file (off + Z.of_nat j) = nth j l 0.
Proof.
  intros L F J. unfold int8_at. rewrite (located_byte L) by (rewrite i1_len; unfold zlen; lia). rewrite Nat2Z.id. unfold i1.
  rewrite (nth_indep _ 0 (0 mod 256)) by (rewrite map_length; lia). rewrite (map_nth (fun z => z mod 256)). pose proof (Forall_nth_in 0 F J) as R. unfold int8 in R. set (z := nth j l 0) in *.
  unfold signed. change (2 ^ (8 - 1)) with 128. change (2 ^ 8) with 256.
  destruct (Z_lt_le_dec z 0) as [N|N].
  - replace (z mod 256) with (z + 256) by (apply (Z.mod_unique_pos z 256 (-1)); lia). replace (z + 256 <? 128) with false by lia. lia.
  - rewrite Z.mod_small by lia. replace (z <? 128) with true by lia. reflexivity.
Qed.
Lemma read_i4 l : forall file off j, located file off (i4 l) -> Forall int32 l -> (j < List.length l)%nat -> int32_at file (off + 4 * Z.of_nat j) = nth j l 0.
Proof.
  induction l as [|z l IH]; intros file off j L F J; [cbn in J; lia|]. inversion F as [|? ? Z0 F']; subst.
  change (i4 (z :: l)) with (le_bytes 4 (z mod 2 ^ 32) ++ i4 l) in L. apply located_app in L. destruct L as [L1 L2].
  assert (E : zlen (le_bytes 4 (z mod 2 ^ 32)) = 4) by (unfold zlen; now rewrite le_bytes_length). rewrite E in L2. destruct j as [|j].
  - cbn [nth]. unfold int32_at. rewrite Z.mul_0_r, Z.add_0_r. rewrite <- (Z.add_0_r off) at 1. rewrite !(located_byte L1) by (rewrite E; lia).
    set (v := z mod 2 ^ 32) in *. assert (V : 0 <= v < 2 ^ 32) by (apply Z.mod_pos_bound; lia).
    change (Z.to_nat 0) with 0%nat. change (Z.to_nat 1) with 1%nat. change (Z.to_nat 2) with 2%nat. change (Z.to_nat 3) with 3%nat. cbn [le_bytes nth].
    replace (v mod 256 + 256 * (v / 256 mod 256) + 65536 * (v / 256 / 256 mod 256) + 16777216 * (v / 256 / 256 / 256 mod 256)) with v.
    2: { rewrite !Z.div_div by lia. change (256 * 256) with 65536. change (65536 * 256) with 16777216.
         change (2 ^ 32) with 4294967296 in V. lia. }
    unfold signed. change (2 ^ (32 - 1)) with (2 ^ 31). unfold int32 in Z0. subst v. destruct (Z_lt_le_dec z 0) as [N|N].
    + replace (z mod 2 ^ 32) with (z + 2 ^ 32) by (apply (Z.mod_unique_pos z (2 ^ 32) (-1)); lia). replace (z + 2 ^ 32 <? 2 ^ 31) with false by lia. lia.
    + rewrite Z.mod_small by lia. replace (z <? 2 ^ 31) with true by lia. reflexivity.
  - cbn [nth]. rewrite <- (IH _ _ j L2 F') by (cbn in J; lia). f_equal. lia.
Qed.
Lemma read_u2 l : forall file off j, located file off (u2 l) -> Forall (fun z => 0 <= z < 2 ^ 16) l -> (j < List.length l)%nat -> uint16_at file (off + 2 * Z.of_nat j) = nth j l 0.
Proof.
  induction l as [|z l IH]; intros file off j L F J; [cbn in J; lia|]. inversion F as [|? ? Z0 F']; subst.
  change (u2 (z :: l)) with (le_bytes 2 (z mod 2 ^ 16) ++ u2 l) in L. apply located_app in L. destruct L as [L1 L2].
  assert (E : zlen (le_bytes 2 (z mod 2 ^ 16)) = 2) by (unfold zlen; now rewrite le_bytes_length). rewrite E in L2. destruct j as [|j].
  - cbn [nth]. unfold uint16_at. rewrite Z.mul_0_r, Z.add_0_r. rewrite <- (Z.add_0_r off) at 1. rewrite !(located_byte L1) by (rewrite E; lia).
    rewrite Z.mod_small by lia. change (Z.to_nat 0) with 0%nat. change (Z.to_nat 1) with 1%nat. cbn [le_bytes nth]. change (2 ^ 16) with 65536 in Z0. lia.
  - cbn [nth]. rewrite <- (IH _ _ j L2 F') by (cbn in J; lia). f_equal. lia.
Qed.

(** ** Matrices *)
Definition matrix_of (n m : nat) (rows : list (list Z)) : Prop := List.length rows = n /\ Forall (fun r => List.length r = m) rows.
Lemma concat_nth (A : Type) (d : A) m (ls : list (list A)) : Forall (fun r => List.length r = m) ls -> forall i k, (k < m)%nat -> (i < List.length ls)%nat -> nth (i * m + k) (List.concat ls) d = nth k (nth i ls []) d.
Proof.
  induction 1 as [|r ls R _ IH]; intros i k K I; cbn in I; [lia|]. cbn [List.concat]. destruct i as [|i].
  - cbn [Nat.mul Nat.add nth]. apply app_nth1. lia.
  - rewrite app_nth2 by (cbn; lia). cbn [nth]. rewrite <- IH by lia. f_equal. cbn. lia.
Qed.
Lemma concat_len (A : Type) m (ls : list (list A)) : Forall (fun r => List.length r = m) ls -> List.length (List.concat ls) = (List.length ls * m)%nat.
Proof. induction 1 as [|r l R _ IH]; [reflexivity|]. cbn [List.concat List.length]. rewrite app_length, IH, R. reflexivity. Qed.
Lemma read_matrix file off n m ls i k : located file off (i1 (List.concat ls)) -> Forall (Forall int8) ls -> matrix_of n m ls -> (i < n)%nat -> (k < m)%nat ->
  int8_at file (off + Z.of_nat i * Z.of_nat m + Z.of_nat k) = nth k (nth i ls []) 0.
Proof.
  intros L B (N & M) I K. rewrite <- (@concat_nth _ 0 m) by (try assumption; lia). rewrite <- (@read_i1 file off); [f_equal; lia|exact L|now apply Forall_concat|].
  rewrite (concat_len M). nia.
Qed.
Lemma read_row file off n m ls i : located file off (i1 (List.concat ls)) -> Forall (Forall int8) ls -> matrix_of n m ls -> (i < n)%nat ->
  map (fun k => int8_at file (off + Z.of_nat i * Z.of_nat m + Z.of_nat k)) (seq 0 m) = nth i ls [].
Proof.
  intros L B N I. assert (W : List.length (nth i ls []) = m) by (destruct N as [N1 N2]; apply (@Forall_nth_in _ (fun r => List.length r = m)); [exact N2|lia]).
  apply (nth_ext _ _ 0 0); [rewrite map_length, seq_length; now rewrite W|]. intros k K. rewrite map_length, seq_length in K.
  rewrite (nth_indep _ 0 (int8_at file (off + Z.of_nat i * Z.of_nat m + Z.of_nat 0))) by (rewrite map_length, seq_length; lia).
  rewrite (map_nth (fun k => int8_at file (off + Z.of_nat i * Z.of_nat m + Z.of_nat k))), seq_nth by lia. apply (read_matrix L B N I K).
Qed.

(** ** Layers *)
Lemma dotz_seq xs : forall row, List.length row = List.length xs -> zsum (map (fun j => nth j row 0 * nth j xs 0) (seq 0 (List.length xs))) = dotz xs row.
Proof.
  unfold dotz. induction xs as [|x xs IH]; intros [|r row] L; try discriminate; [reflexivity|]. cbn [List.length seq map map2]. rewrite !zsum_cons. cbn [nth].
  rewrite <- seq_shift, map_map. cbn [nth]. rewrite IH by (cbn in L; lia). lia.
Qed.
Lemma dense_ok file woff boff n m (l : layer_ints) xs : located file woff (i1 (List.concat (fst l))) -> located file boff (i4 (snd l)) -> Forall (Forall int8) (fst l) -> Forall int32 (snd l) ->
  matrix_of n m (fst l) -> List.length (snd l) = n -> List.length xs = m -> dense file woff boff n xs = int_layer l xs.
Proof.
  intros LW LB BW BB M N X. unfold dense, int_layer. destruct l as [W B]. cbn [fst snd] in *. apply (nth_ext _ _ 0 0); [rewrite map_length, seq_length, map2_length; destruct M as [M _]; lia|].
  intros o O. rewrite map_length, seq_length in O. set (g := fun o : nat => zsum (map (fun j => int8_at file (woff + Z.of_nat o * zlen xs + Z.of_nat j) * nth j xs 0) (seq 0 (List.length xs))) + int32_at file (boff + 4 * Z.of_nat o)).
  rewrite (nth_indep _ 0 (g 0%nat)) by (rewrite map_length, seq_length; lia). rewrite (map_nth g), seq_nth by lia. unfold g. cbn [Nat.add].
  assert (E : forall (W : list (list Z)) (B : list Z) o, (o < List.length W)%nat -> (o < List.length B)%nat -> nth o (map2 (fun row b => dotz xs row + b) W B) 0 = dotz xs (nth o W []) + nth o B 0).
  { clear. induction W as [|w W IH]; intros [|b B] o H1 H2; cbn in H1, H2; try lia. destruct o; [reflexivity|]. cbn. apply IH; lia. }
  destruct M as [M1 M2]. rewrite E by lia. f_equal; [|apply (read_i4 LB BB); lia].
  rewrite <- (@dotz_seq xs (nth o W [])) by (rewrite X; apply (@Forall_nth_in _ (fun r => List.length r = m)); [exact M2|lia]).
  f_equal. apply map_ext_in. intros j J. apply in_seq in J. f_equal. unfold zlen. rewrite X. apply (@read_matrix file woff n m W o j LW BW (conj M1 M2)); lia.
Qed.
(** The layers of the file are those of the list. *)
Inductive layers_at (file : list Z) : nat -> list (Z * Z * nat * Z) -> list (Z * layer_ints) -> Prop :=
| layers_nil m : layers_at file m [] []
| layers_cons woff boff n s m l r r' : located file woff (i1 (List.concat (fst l))) -> located file boff (i4 (snd l)) -> Forall (Forall int8) (fst l) -> Forall int32 (snd l) ->
    matrix_of n m (fst l) -> List.length (snd l) = n -> layers_at file n r r' -> layers_at file m ((woff, boff, n, s) :: r) ((s, l) :: r').
Lemma value_head_ok file m ls ls' : layers_at file m ls ls' -> forall lo xs, List.length xs = m -> value_head file lo ls xs = int_head lo ls' xs.
Proof.
  induction 1 as [m|woff boff n s m l r r' LW LB BW BB M N T IH]; intros lo xs X; [reflexivity|]. cbn [value_head int_head].
  rewrite (dense_ok LW LB BW BB M N) by (now rewrite map_length). destruct T; [reflexivity|]. apply IH. rewrite map_length. unfold int_layer. rewrite map2_length. destruct M as [M _]. lia.
Qed.
(** Padding the last layer with zeros *)
Lemma dotz_zeros xs k : dotz xs (repeat 0 k) = 0.
Proof. unfold dotz. revert k. induction xs as [|x xs IH]; intros [|k]; try reflexivity. cbn [repeat map2]. rewrite zsum_cons, IH. lia. Qed.
Lemma int_layer_pad W B k w xs : List.length W = List.length B -> int_layer (W ++ repeat (repeat 0 w) k, B ++ repeat 0 k) xs = int_layer (W, B) xs ++ repeat 0 k.
Proof.
  unfold int_layer. cbn [fst snd]. revert B. induction W as [|r W IH]; intros [|b B] L; try discriminate.
  - cbn. induction k as [|k IHk]; [reflexivity|]. cbn [repeat map2]. rewrite IHk, dotz_zeros. reflexivity.
  - cbn [app map2]. rewrite IH by (cbn in L; lia). reflexivity.
Qed.
Lemma map_rep A B (f : A -> B) a n : map f (repeat a n) = repeat (f a) n. Proof. induction n as [|n IH]; cbn; congruence. Qed.
Lemma export_pad nd l : 0 < weight_scale l -> export_layer (weight_scale l) (pad_layer nd l) =
  (fst (exported l) ++ repeat (repeat 0 32) (pad_rows nd), snd (exported l) ++ repeat 0 (pad_rows nd)).
Proof.
  intros S. unfold exported, export_layer, pad_layer, export_weight, export_bias. cbn [weight bias fst snd]. rewrite !map_app, !map_rep. f_equal.
Qed.
Lemma export_int8 s w : Forall (Forall int8) (export_weight s w).
Proof. unfold export_weight. apply Forall_map, Forall_forall. intros r _. apply Forall_map, Forall_forall. intros x _. apply clip_in. lia. Qed.
Lemma export_int32 s b : Forall int32 (export_bias s b).
Proof. unfold export_bias. apply Forall_map, Forall_forall. intros x _. apply clip_in. lia. Qed.
Lemma export_matrix s n m w : List.length w = n -> Forall (fun r => List.length r = m) w -> matrix_of n m (export_weight s w).
Proof. intros N M. unfold export_weight. split; [now rewrite map_length|]. apply Forall_map. revert M. apply Forall_impl. intros r R. now rewrite map_length. Qed.

(** ** Structs *)
Lemma round_up_id a off : 0 < a -> off mod a = 0 -> (off + a - 1) / a * a = off.
Proof. intros A M. pose proof (Z.div_mod off a ltac:(lia)) as D. rewrite M in D. replace (off + a - 1) with ((a - 1) + off / a * a) by lia. rewrite Z.div_add, Z.div_small by lia. lia. Qed.
Fixpoint naturally (off : Z) (ms : list (Z * Z)) : Prop := match ms with [] => True | (a, s) :: r => 0 < a /\ off mod a = 0 /\ naturally (off + s) r end.
Lemma packed_located ms bufs : Forall2 (fun m b => zlen b = snd m) ms bufs -> forall pre, naturally (zlen pre) ms -> Forall2 (located (pre ++ List.concat bufs)) (offsets (zlen pre) ms) bufs.
Proof.
  induction 1 as [|[a s] b ms bufs E _ IH]; intros pre N; [constructor|]. cbn [offsets]. cbn in N, E. destruct N as (A & M & N). rewrite round_up_id by assumption. constructor.
  - exists pre, (List.concat bufs). split; [reflexivity|reflexivity].
  - cbn [List.concat]. rewrite app_assoc. rewrite <- E, <- zlen_app. apply IH. rewrite zlen_app, E. exact N.
Qed.
Lemma aligned_len b a : 0 < a -> zlen (aligned_write a b) = (zlen b + a - 1) / a * a.
Proof.
  intros A. unfold aligned_write. rewrite zlen_app. pose proof (Z.div_mod (zlen b) a ltac:(lia)) as D. pose proof (Z.mod_pos_bound (zlen b) a A) as M. set (r := zlen b mod a) in *. set (q := zlen b / a) in *.
  assert (R : zlen (repeat 0 (Z.to_nat ((a - r) mod a))) = (a - r) mod a) by (unfold zlen; rewrite repeat_length, Z2Nat.id; [reflexivity|apply Z.mod_pos_bound, A]).
  rewrite R. destruct (Z.eq_dec r 0) as [Z0|Z0].
  - rewrite Z0, Z.sub_0_r, Z.mod_same by lia. replace (zlen b + a - 1) with ((a - 1) + q * a) by lia. rewrite Z.div_add, Z.div_small by lia. lia.
  - rewrite Z.mod_small by lia. replace (zlen b + a - 1) with ((r - 1) + (q + 1) * a) by lia. rewrite Z.div_add, Z.div_small by lia. lia.
Qed.
Lemma aligned_located a ms bufs : 0 < a -> Forall2 (fun m b => fst m = a /\ zlen b = snd m) ms bufs -> forall pre off, zlen pre = (off + a - 1) / a * a ->
  Forall2 (located (pre ++ List.concat (map (aligned_write a) bufs))) (offsets off ms) bufs.
Proof.
  intros A. induction 1 as [|[a' s] b ms bufs E _ IH]; intros pre off N; [constructor|]. cbn [offsets]. cbn [fst snd] in E. destruct E as [-> E]. constructor.
  - exists pre, (repeat 0 (Z.to_nat ((a - zlen b mod a) mod a)) ++ List.concat (map (aligned_write a) bufs)). split; [|exact N]. cbn [map List.concat]. unfold aligned_write at 1. now rewrite <- app_assoc.
  - cbn [map List.concat]. rewrite app_assoc. apply IH. rewrite zlen_app, aligned_len, E, N by exact A.
    set (q := (off + a - 1) / a). replace (q * a + s + a - 1) with ((s + a - 1) + q * a) by lia. rewrite Z.div_add by lia. lia.
Qed.

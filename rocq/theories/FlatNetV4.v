(** Facts for C74: FlatSquare7x7NNUEv4 and v4VQ, from the exported file to the value. *)
From Coq Require Import QArith Qcanon.
From Verif Require Import Base BaseFacts Rng FlatNet FlatNetSpec FlatNetFacts FlatNetTables FlatNetFile FlatNetWhole.
Set Implicit Arguments. Unset Strict Implicit.
Local Open Scope Z_scope.

Lemma Ok_inj A (a b : A) : Ok a = Ok b -> a = b. Proof. congruence. Qed.
Lemma Forall2_head A B (P : A -> B -> Prop) os b bs : Forall2 P os (b :: bs) -> exists o os', os = o :: os' /\ P o b /\ Forall2 P os' bs.
Proof. intros H. inversion H; subst. eauto. Qed.
(** ** Several tables of N rows in one buffer *)
Definition tables (A : Type) (row : nat -> Z -> list A) (n : nat) (N : Z) : list (list A) := List.concat (map (fun j => map (row j) (zrange 0 N)) (seq 0 n)).
Lemma tables_shape (A : Type) (row : nat -> Z -> list A) n N F : 0 <= N -> (forall j i, List.length (row j i) = F) -> List.length (tables row n N) = (n * Z.to_nat N)%nat /\ Forall (fun r => List.length r = F) (tables row n N).
Proof.
  intros HN R. unfold tables. split.
  - rewrite (@concat_len _ (Z.to_nat N)); [now rewrite map_length, seq_length|]. apply Forall_map, Forall_forall. intros j _. rewrite map_length, zrange_length. f_equal. lia.
  - apply Forall_concat, Forall_map, Forall_forall. intros j _. apply Forall_map, Forall_forall. intros i _. apply R.
Qed.
Lemma tables_nth (A : Type) (row : nat -> Z -> list A) n N j i : 0 <= i < N -> (j < n)%nat -> nth (Z.to_nat (Z.of_nat j * N + i)) (tables row n N) [] = row j i.
Proof.
  intros I J. unfold tables. replace (Z.to_nat (Z.of_nat j * N + i)) with (j * Z.to_nat N + Z.to_nat i)%nat by nia.
  rewrite (@concat_nth _ [] (Z.to_nat N)).
  - rewrite (nth_indep _ [] (map (row 0%nat) (zrange 0 N))) by (rewrite map_length, seq_length; lia). rewrite (map_nth (fun j => map (row j) (zrange 0 N))), seq_nth by lia. cbn [Nat.add].
    rewrite (nth_indep _ [] (row j 0)) by (rewrite map_length, zrange_length; lia). rewrite map_nth. f_equal. rewrite zrange_nth by lia. lia.
  - apply Forall_map, Forall_forall. intros k _. rewrite map_length, zrange_length. f_equal. lia.
  - lia.
  - now rewrite map_length, seq_length.
Qed.
Lemma read_table file off row n N F j i : 0 <= N -> (forall j i, List.length (row j i) = F) -> (forall j i, Forall int8 (row j i)) -> located file off (i1 (List.concat (tables row n N))) ->
  0 <= i < N -> (j < n)%nat -> map (fun k => int8_at file (off + (Z.of_nat j * N + i) * Z.of_nat F + Z.of_nat k)) (seq 0 F) = row j i.
Proof.
  intros HN R B L I J. rewrite <- (@tables_nth _ row n N j i I J). destruct (@tables_shape _ row n N F HN R) as [T1 T2].
  rewrite <- (@read_row file off (n * Z.to_nat N) F (tables row n N) (Z.to_nat (Z.of_nat j * N + i)) L); [| |split; assumption|nia].
  - rewrite Z2Nat.id by nia. reflexivity.
  - unfold tables. apply Forall_concat, Forall_map, Forall_forall. intros k _. apply Forall_map, Forall_forall. intros z _. apply B.
Qed.
Lemma table_bytes_len row n N F : 0 <= N -> (forall j i, List.length (row j i) = F) -> zlen (i1 (List.concat (tables row n N))) = Z.of_nat n * N * Z.of_nat F.
Proof. intros HN R. destruct (@tables_shape _ row n N F HN R) as [T1 T2]. rewrite i1_len. unfold zlen. rewrite (concat_len T2), T1. nia. Qed.

(** ** Sizes of the layers *)
Lemma matrix_bytes s n m w : List.length w = n -> Forall (fun r : vec => List.length r = m) w -> zlen (i1 (List.concat (export_weight s w))) = Z.of_nat n * Z.of_nat m.
Proof. intros N M. destruct (export_matrix s N M) as [E1 E2]. rewrite i1_len. unfold zlen. rewrite (concat_len E2), E1. lia. Qed.
Lemma bias_bytes s b : zlen (i4 (export_bias s b)) = 4 * Z.of_nat (List.length b).
Proof. rewrite i4_len. unfold zlen, export_bias. now rewrite map_length. Qed.
Lemma pad_shaped nd l : shaped (outputs nd) 32 l -> shaped 4 32 (pad_layer nd l).
Proof.
  intros (W & R & B). unfold pad_layer. split; [|split]; cbn [weight bias].
  - rewrite app_length, repeat_length, W. apply pad_len.
  - apply Forall_app. split; [exact R|]. apply Forall_forall. intros r I. apply repeat_spec in I. subst. apply repeat_length.
  - rewrite app_length, repeat_length, B. apply pad_len.
Qed.
Lemma layer_bytes s n m l : shaped n m l -> map (@zlen Z) (write_layer (export_layer s l)) = [Z.of_nat n * Z.of_nat m; 4 * Z.of_nat n].
Proof. intros (W & R & B). unfold write_layer, export_layer. cbn [map fst snd]. rewrite (matrix_bytes s W R), bias_bytes, B. reflexivity. Qed.
Lemma square_bytes inputs hidden nd ls Ls : square_shape inputs hidden nd ls -> export_square_value nd 256 128 ls = Ok Ls ->
  map (@zlen Z) (flat_map write_layer Ls) = [Z.of_nat hidden * Z.of_nat inputs; 4 * Z.of_nat hidden; 32 * Z.of_nat hidden; 128; 128; 16].
Proof.
  intros (l1 & l2 & l3 & -> & S1 & S2 & S3 & _) E. unfold export_square_value in E. cbv zeta in E. apply guard_Ok in E. destruct E as [_ E]. injection E as <-.
  set (e1 := export_layer 256 l1). set (e2 := export_layer 128 l2). set (e3 := export_layer 128 (pad_layer nd l3)).
  assert (F : flat_map write_layer [e1; e2; e3] = write_layer e1 ++ write_layer e2 ++ write_layer e3) by (cbn [flat_map]; now rewrite app_nil_r). rewrite F, !map_app. unfold e1, e2, e3.
  exact (f_equal2 (@app Z) (layer_bytes 256 S1) (f_equal2 (@app Z) (layer_bytes 128 S2) (layer_bytes 128 (pad_shaped S3)))).
Qed.
Lemma sizes_Forall2 a ms bufs : map fst ms = map (fun _ : list Z => a) bufs -> map snd ms = map (@zlen Z) bufs -> Forall2 (fun (m : Z * Z) b => fst m = a /\ zlen b = snd m) ms bufs.
Proof.
  revert bufs. induction ms as [|m ms IH]; intros [|b bufs] E F; try discriminate; constructor; cbn in E, F; [split; congruence|]. apply IH; congruence.
Qed.

(** ** The features of v4 *)
Definition v4_turned (R : nat -> pattern -> list Z) : list (list Z) := flat_map (fun '(j, l) => map (R j) l) (indexed v4_indices).
Lemma v4_turned_ext R R' : (forall j q, (j < 3)%nat -> square_size 4 4 q -> R j q = R' j q) -> v4_turned R = v4_turned R'.
Proof.
  intros H. assert (G : forall j l, List.In l v4_indices -> (j < 3)%nat -> map (R j) l = map (R' j) l).
  { intros j l L J. apply map_ext_in. intros q Q. apply H; [exact J|]. pose proof (v4_sizes L) as S. rewrite Forall_forall in S. now apply S. }
  unfold v4_turned. rewrite !flat_map_concat_map. f_equal. apply map_ext_in. intros [j l] JL. unfold indexed in JL. pose proof (in_combine_l _ _ _ _ JL) as J. pose proof (in_combine_r _ _ _ _ JL) as I. apply in_seq in J. apply G; [exact I|cbn in J; lia].
Qed.
Lemma v4_turned_forall (P : list Z -> Prop) R : (forall j q, P (R j q)) -> Forall P (v4_turned R).
Proof. intros H. unfold v4_turned. apply Forall_forall. intros r I. apply in_flat_map in I. destruct I as ([j l] & _ & I). apply in_map_iff in I. destruct I as (q & <- & _). apply H. Qed.
Lemma v4_turned_nil R : v4_turned R <> []. Proof. discriminate. Qed.
Definition v4_value (m : v4) (R : nat -> pattern -> vec) : vec :=
  value_linears bottom (v4_linears m) (vsum (flat_map (fun '(j, l) => map (fun q => map (fake_quant 128 8 false) (R j q)) l) (indexed v4_indices))).
Lemma v4_forward_value m vq b : v4_forward m vq b = v4_value m (fun j q => do_vq vq j (map (clamp bottom top) (v4_mapping m j (chunk_input (@square_chunk Z) q b)))).
Proof. reflexivity. Qed.
Lemma ints_floor xs : map (fun v => floor_q (v * Qz 128)%Qc) (map (fun z => Qz z / Qz 128)%Qc xs) = xs.
Proof. rewrite map_map. rewrite <- (map_id xs) at 2. apply map_ext. intros z. rewrite over_mul by lia. apply floor_Qz. Qed.
(** The value of integer rows *)
Lemma v4_value_ints m R r F : (forall j q, (j < 3)%nat -> square_size 4 4 q -> map (fake_quant 128 8 false) (R j q) = map (fun z => Qz z / Qz 128)%Qc (r j q)) -> (forall j q, (j < 3)%nat -> square_size 4 4 q -> List.length (r j q) = F) ->
  v4_value m R = value_linears bottom (v4_linears m) (map (fun z => Qz z / Qz 128)%Qc (columns (v4_turned r) F)).
Proof.
  intros E L. unfold v4_value. rewrite <- vsum_ints; [|lia|apply v4_turned_nil|].
  - f_equal. f_equal. unfold v4_turned. rewrite !flat_map_concat_map, concat_map, !map_map. f_equal.
    assert (G : forall j l, List.In l v4_indices -> (j < 3)%nat -> map (fun q => map (fake_quant 128 8 false) (R j q)) l = map (map (fun z => Qz z / Qz 128)%Qc) (map (r j) l)).
    { intros j l I J. rewrite map_map. apply map_ext_in. intros q Q. apply E; [exact J|]. pose proof (v4_sizes I) as S. rewrite Forall_forall in S. now apply S. }
    apply map_ext_in. intros [j l] JL. unfold indexed in JL. pose proof (in_combine_l _ _ _ _ JL) as J. pose proof (in_combine_r _ _ _ _ JL) as I. apply in_seq in J. apply G; [exact I|cbn in J; lia].
  - unfold v4_turned. apply Forall_forall. intros x I. apply in_flat_map in I. destruct I as ([j l] & JL & I). apply in_map_iff in I. destruct I as (q & <- & Q). unfold indexed in JL.
    pose proof (in_combine_l _ _ _ _ JL) as J. pose proof (in_combine_r _ _ _ _ JL) as I. apply in_seq in J. apply L; [cbn in J; lia|]. pose proof (v4_sizes I) as S. rewrite Forall_forall in S. now apply S.
Qed.

Definition N16 : Z := 3 ^ 16.
Lemma N16_pos : 0 <= N16. Proof. unfold N16. lia. Qed.
Lemma code16 q b : square_size 4 4 q -> board7 b -> 0 <= code (cells (square_chunk q b)) < N16.
Proof. intros S B. exact (square_code S B). Qed.
Lemma v4_exact F m batch bufs b : 0 < batch -> (forall j t, List.length (v4_mapping m j t) = F) -> square_shape F 32 (v4_no_draw m) (v4_linears m) -> board7 b ->
  serialize_v4 256 128 batch m = Ok bufs -> same_value (v4_no_draw m) (v4_forward m NoVq b) (v4_engine F (List.concat bufs) b).
Proof.
  intros HB MF SS B7 E. unfold serialize_v4 in E. cbv zeta in E. apply bind_Ok in E. destruct E as (Ls & EL & E). apply Ok_inj in E. subst bufs.
  set (row := fun j i => map q8 (v4_mapping m j (base3_input 4 4 i))) in *.
  assert (T : List.concat (map (fun j => export_rows batch (3 ^ 16) (fun i => map (fun x => clip (-128) 127 (round_q (x * Qz 128)%Qc)) (v4_mapping m j (base3_input 4 4 i)))) [0; 1; 2]%nat) = tables row 3 N16).
  { unfold tables. f_equal. cbn [seq]. apply map_ext. intros j. rewrite export_rows_all by (try exact N16_pos; exact HB). reflexivity. }
  rewrite T. clear T. set (bufs := i1 (List.concat (tables row 3 N16)) :: flat_map write_layer Ls).
  assert (RF : forall j i, List.length (row j i) = F) by (intros; unfold row; now rewrite map_length).
  assert (RB : forall j i, Forall int8 (row j i)) by (intros; unfold row; apply Forall_map, Forall_forall; intros x _; apply q8_range).
  assert (LOC : Forall2 (located (List.concat (map (aligned_write 32) bufs))) (offsets 0 (v4_struct (Z.of_nat F))) bufs).
  { apply (@aligned_located 32 (v4_struct (Z.of_nat F)) bufs ltac:(lia)) with (pre := []) (off := 0); [|reflexivity]. apply sizes_Forall2.
    - unfold bufs. destruct SS as (l1 & l2 & l3 & EQ & _). rewrite EQ in EL. cbn in EL. apply guard_Ok in EL. destruct EL as [_ EL]. injection EL as <-. reflexivity.
    - unfold bufs. cbn [map]. rewrite (square_bytes SS EL), (table_bytes_len 3 N16_pos RF). unfold v4_struct. cbn [map snd]. unfold N16. repeat (f_equal; try lia). }
  set (file := List.concat (map (aligned_write 32) bufs)) in *. unfold v4_engine, v4_rows. unfold offset. set (offs := offsets 0 (v4_struct (Z.of_nat F))) in *. 
  unfold bufs in LOC. clearbody offs file. destruct (Forall2_head LOC) as (o0 & os & -> & L0 & LS). cbn [nth].
  rewrite v4_forward_value. rewrite (@v4_value_ints m _ (fun j q => row j (code (cells (square_chunk q b)))) F).
  - match goal with |- same_value _ (value_linears _ _ (map _ ?xs)) (value_head _ _ _ ?ys) => assert (XY : ys = xs) end.
    { f_equal. apply v4_turned_ext. intros j q J S. apply (@read_table file o0 row 3 N16 F j (code (cells (square_chunk q b))) N16_pos RF RB L0 (code16 S B7) J). }
    rewrite XY. apply (square_head SS EL LS); [unfold columns; now rewrite map_length, seq_length|]. now rewrite ints_floor.
  - intros j q J S. cbn [do_vq]. unfold row. rewrite (@square_base3 4 4 q b ltac:(lia) S B7), !map_map. apply map_ext. intros x. apply fq8_clamp.
  - intros. apply RF.
Qed.

(** ** v4VQ *)
Lemma flat_nth (f : nat -> Z -> Z) n N j i : 0 <= i < N -> (j < n)%nat -> nth (Z.to_nat (Z.of_nat j * N + i)) (List.concat (map (fun j => map (f j) (zrange 0 N)) (seq 0 n))) 0 = f j i.
Proof.
  intros I J. replace (Z.to_nat (Z.of_nat j * N + i)) with (j * Z.to_nat N + Z.to_nat i)%nat by nia. rewrite (@concat_nth _ 0 (Z.to_nat N)).
  - rewrite (nth_indep _ [] (map (f 0%nat) (zrange 0 N))) by (rewrite map_length, seq_length; lia). rewrite (map_nth (fun j => map (f j) (zrange 0 N))), seq_nth by lia. cbn [Nat.add].
    rewrite (nth_indep _ 0 (f j 0)) by (rewrite map_length, zrange_length; lia). rewrite map_nth. f_equal. rewrite zrange_nth by lia. lia.
  - apply Forall_map, Forall_forall. intros k _. rewrite map_length, zrange_length. f_equal. lia.
  - lia.
  - now rewrite map_length, seq_length.
Qed.
Lemma flat_length (f : nat -> Z -> Z) n N : 0 <= N -> List.length (List.concat (map (fun j => map (f j) (zrange 0 N)) (seq 0 n))) = (n * Z.to_nat N)%nat.
Proof.
  intros H. rewrite (@concat_len _ (Z.to_nat N)); [now rewrite map_length, seq_length|]. apply Forall_map, Forall_forall. intros j _. rewrite map_length, zrange_length. f_equal. lia.
Qed.
Lemma q8_fake x : clip (-128) 127 (round_q (fake_quant 128 8 false x * Qz 128)%Qc) = q8 x.
Proof. rewrite fq8, over_mul, round_Qz by lia. apply clip_id. apply q8_range. Qed.
Lemma list_zrange (A : Type) (l : list A) d C : zlen l = C -> l = map (fun i => nth (Z.to_nat i) l d) (zrange 0 C).
Proof.
  intros L. unfold zrange. rewrite map_map. unfold zlen in L. replace (Z.to_nat (C - 0)) with (List.length l) by lia. clear. apply (nth_ext _ _ d d); [now rewrite map_length, seq_length|]. intros n H.
  rewrite (nth_indep (map _ _) d (nth (Z.to_nat (0 + Z.of_nat 0)) l d)) by (rewrite map_length, seq_length; exact H). rewrite (map_nth (fun x => nth (Z.to_nat (0 + Z.of_nat x)) l d)), seq_nth by exact H. f_equal. lia.
Qed.
Lemma v4vq_exact F C m batch codebook search bufs b : 0 < batch -> (forall j t, List.length (v4_mapping m j t) = F) -> square_shape F 32 (v4_no_draw m) (v4_linears m) -> board7 b ->
  (forall j, zlen (codebook j) = C /\ Forall (fun r : vec => List.length r = F) (codebook j)) ->
  serialize_v4vq 256 128 batch m C codebook search = Ok bufs -> same_value (v4_no_draw m) (v4_forward m (Vq codebook search) b) (v4vq_engine C F (List.concat bufs) b).
Proof.
  intros HB MF SS B7 CB E. unfold serialize_v4vq in E. cbv zeta in E. apply guard_Ok in E. destruct E as [C16 E]. apply guard_Ok in E. destruct E as [RG E]. apply bind_Ok in E. destruct E as (Ls & EL & E). apply Ok_inj in E. subst bufs.
  assert (CP : 0 <= C) by (destruct (CB 0%nat) as [<- _]; apply zlen_nonneg).
  set (f := fun j i => map (clamp bottom top) (v4_mapping m j (base3_input 4 4 i))) in *.
  set (ix := fun j i => Z.of_nat (search j (f j i))).
  assert (T : List.concat (map (fun j => export_rows batch (3 ^ 16) (fun i => Z.of_nat (search j (map (clamp bottom top) (v4_mapping m j (base3_input 4 4 i)))))) [0; 1; 2]%nat)
     = List.concat (map (fun j => map (ix j) (zrange 0 N16)) (seq 0 3))).
  { f_equal. cbn [seq]. apply map_ext. intros j. rewrite export_rows_all by (try exact N16_pos; exact HB). reflexivity. }
  rewrite T in *. clear T. set (row := fun j i => map q8 (nth (Z.to_nat i) (codebook j) (repeat 0%Qc F))).
  assert (T : List.concat (map (fun j => map (map (fun x => clip (-128) 127 (round_q (fake_quant 128 8 false x * Qz 128)%Qc))) (codebook j)) [0; 1; 2]%nat) = tables row 3 C).
  { unfold tables. f_equal. cbn [seq]. apply map_ext. intros j. destruct (CB j) as [CL _]. etransitivity; [apply (f_equal (map _) (@list_zrange _ (codebook j) (repeat 0%Qc F) C CL))|]. rewrite map_map. apply map_ext. intros i. unfold row. apply map_ext. intros x. apply q8_fake. }
  rewrite T. clear T. set (all := List.concat (map (fun j => map (ix j) (zrange 0 N16)) (seq 0 3))) in *. set (bufs := u2 all :: i1 (List.concat (tables row 3 C)) :: flat_map write_layer Ls).
  assert (RF : forall j i, List.length (row j i) = F).
  { intros j i. unfold row. rewrite map_length. destruct (CB j) as [_ CR]. destruct (Nat.ltb_spec (Z.to_nat i) (List.length (codebook j))) as [L|L]; [apply (@Forall_nth_in _ (fun r : vec => List.length r = F)); assumption|rewrite nth_overflow by exact L; apply repeat_length]. }
  assert (RB : forall j i, Forall int8 (row j i)) by (intros; unfold row; apply Forall_map, Forall_forall; intros x _; apply q8_range).
  assert (IR : forall j i, 0 <= i < N16 -> (j < 3)%nat -> 0 <= ix j i < C).
  { intros j i I J. rewrite forallb_forall in RG. assert (IN : List.In (ix j i) all).
    { rewrite <- (@flat_nth ix 3 N16 j i I J). apply nth_In. pose proof (@flat_length ix 3 N16 N16_pos) as FL. fold all in FL. rewrite FL. nia. }
    specialize (RG _ IN). lia. }
  assert (LOC : Forall2 (located (List.concat (map (aligned_write 32) bufs))) (offsets 0 (v4vq_struct C (Z.of_nat F))) bufs).
  { apply (@aligned_located 32 (v4vq_struct C (Z.of_nat F)) bufs ltac:(lia)) with (pre := []) (off := 0); [|reflexivity]. apply sizes_Forall2.
    - unfold bufs. destruct SS as (l1 & l2 & l3 & EQ & _). rewrite EQ in EL. cbn in EL. apply guard_Ok in EL. destruct EL as [_ EL]. injection EL as <-. reflexivity.
    - unfold bufs. cbn [map]. rewrite (square_bytes SS EL), (table_bytes_len 3 CP RF), u2_len. unfold v4vq_struct. cbn [map snd].
      assert (AL : zlen all = 3 * N16) by (unfold zlen, all; rewrite flat_length by exact N16_pos; pose proof N16_pos; lia). rewrite AL. unfold N16. repeat (f_equal; try lia). }
  set (file := List.concat (map (aligned_write 32) bufs)) in *. unfold v4vq_engine, v4vq_rows. unfold offset. set (offs := offsets 0 (v4vq_struct C (Z.of_nat F))) in *.
  unfold bufs in LOC. clearbody offs file. destruct (Forall2_head LOC) as (o0 & os & -> & L0 & LS0). destruct (Forall2_head LS0) as (o1 & os' & -> & L1 & LS). cbn [nth].
  rewrite v4_forward_value. rewrite (@v4_value_ints m _ (fun j q => row j (ix j (code (cells (square_chunk q b))))) F).
  - match goal with |- same_value _ (value_linears _ _ (map _ ?xs)) (value_head _ _ _ ?ys) => assert (XY : ys = xs) end.
    { f_equal. apply v4_turned_ext. intros j q J S. pose proof (code16 S B7) as CR. set (c := code (cells (square_chunk q b))) in *.
      assert (U : uint16_at file (o0 + 2 * (Z.of_nat j * 3 ^ 16 + c)) = ix j c).
      { change (3 ^ 16) with N16. rewrite <- (@flat_nth ix 3 N16 j c CR J). fold all. rewrite <- (Z2Nat.id (Z.of_nat j * N16 + c)) by (pose proof N16_pos; nia). rewrite Nat2Z.id || idtac. apply read_u2; [exact L0| |].
        - rewrite forallb_forall in RG. apply Forall_forall. intros z Hz. specialize (RG _ Hz). change (2 ^ 16) with 65536 in *. lia.
        - unfold all. rewrite flat_length by exact N16_pos. nia. }
      rewrite U. apply (@read_table file o1 row 3 C F j (ix j c) CP RF RB L1 (IR j c CR J) J). }
    rewrite XY. apply (square_head SS EL LS); [unfold columns; now rewrite map_length, seq_length|]. now rewrite ints_floor.
  - intros j q J S. cbn [do_vq]. unfold row. pose proof (code16 S B7) as CR. specialize (IR j _ CR J). unfold ix in *. unfold f in *. rewrite (@square_base3 4 4 q b ltac:(lia) S B7) in *. rewrite Nat2Z.id.
    destruct (CB j) as [CL _]. rewrite (nth_indep (codebook j) [] (repeat 0%Qc F)) by (unfold zlen in CL; lia). rewrite map_map. apply map_ext. intros x. apply fq8.
  - intros. apply RF.
Qed.

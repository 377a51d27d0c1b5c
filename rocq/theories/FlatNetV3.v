(** Facts for C74: FlatSquare7x7NNUEv3 with 8-bit and with 4-bit features. *)
From Coq Require Import QArith Qcanon.
From Verif Require Import Base BaseFacts Rng FeatureTableStream FlatNet FlatNetSpec FlatNetFacts FlatNetTables FlatNetFile FlatNetWhole FlatNetV4 FlatNetV2.
Set Implicit Arguments. Unset Strict Implicit.
Local Open Scope Z_scope.

(** The average of two features in units of 1/128 *)
Lemma half_up x y : int8 x -> int8 y -> fake_quant 128 8 true ((Qz x / Qz 128 + Qz y / Qz 128 + 1 / Qz 128) / Qz 2)%Qc = (Qz ((x + y + 1) / 2) / Qz 128)%Qc.
Proof.
  intros X Y. unfold int8 in *. rewrite fake_quant_eq by lia. cbn [rnd].
  assert (E : ((Qz x / Qz 128 + Qz y / Qz 128 + 1 / Qz 128) / Qz 2 * Qz 128)%Qc = (Qz (x + y + 1) / Qz 2)%Qc).
  { rewrite <- !Qz_add, Qz_1. field. split; apply Qz_nz; lia. }
  rewrite E, floor_over by lia. change (- 2 ^ (8 - 1)) with (-128). change (2 ^ (8 - 1) - 1) with 127. rewrite clip_id by lia. reflexivity.
Qed.
Lemma map2_Forall (A B C : Type) (P : A -> Prop) (Q : B -> Prop) (f g : A -> B -> C) l : forall m, Forall P l -> Forall Q m -> (forall a b, P a -> Q b -> f a b = g a b) -> map2 f l m = map2 g l m.
Proof.
  induction l as [|a l IH]; intros [|b m] F G H; try reflexivity. inversion F; subst. inversion G; subst. cbn [map2]. f_equal; auto.
Qed.
Lemma Forall_flat (A B : Type) (P : B -> Prop) (f : A -> list B) l : (forall a, Forall P (f a)) -> Forall P (flat_map f l).
Proof. intros H. apply Forall_forall. intros b I. apply in_flat_map in I. destruct I as (a & _ & I). specialize (H a). rewrite Forall_forall in H. auto. Qed.
Lemma map_flat (A B C : Type) (g : B -> C) (f : A -> list B) l : map g (flat_map f l) = flat_map (fun a => map g (f a)) l.
Proof. induction l as [|a l IH]; [reflexivity|]. cbn [flat_map]. now rewrite map_app, IH. Qed.

(** ** The bytes of a row of table j *)
Definition brow3 (int4 : bool) (j : nat) (row : list Z) : list Z := if int4 then nibbled row else if (j <? 2)%nat then u1 (map (fun z => z + 128) row) else i1 row.
Lemma brow3_length (int4 : bool) h j row : List.length row = (2 * h)%nat -> (int4 = true -> Forall int4r row) -> List.length (brow3 int4 j row) = if int4 then h else (2 * h)%nat.
Proof. intros L F. unfold brow3. destruct int4; [apply pack4_ok; auto|]. destruct (j <? 2)%nat; unfold u1, i1; now rewrite !map_length. Qed.
Lemma three_tables (row : nat -> Z -> list Z) N : List.concat (tables row 3 N) = List.concat [List.concat (map (row 0%nat) (zrange 0 N)); List.concat (map (row 1%nat) (zrange 0 N)); List.concat (map (row 2%nat) (zrange 0 N))].
Proof. unfold tables. cbn [seq map]. generalize (map (row 0%nat) (zrange 0 N)) (map (row 1%nat) (zrange 0 N)) (map (row 2%nat) (zrange 0 N)). intros a c d. cbn [List.concat]. rewrite !concat_app. reflexivity. Qed.
Lemma stored_tables (int4 : bool) h (row : nat -> Z -> list Z) batch N ts : 0 <= N -> 0 < batch -> (forall j i, List.length (row j i) = (2 * h)%nat) -> (int4 = true -> forall j i, Forall int4r (row j i)) ->
  (if int4 then mapM (fun j => write_table true (export_rows batch N (row j))) [0; 1; 2]%nat
   else Ok [u1 (map (fun z => z + 128) (List.concat (export_rows batch N (row 0%nat)))); u1 (map (fun z => z + 128) (List.concat (export_rows batch N (row 1%nat)))); i1 (List.concat (export_rows batch N (row 2%nat)))]) = Ok ts ->
  List.concat ts = List.concat (tables (fun j i => brow3 int4 j (row j i)) 3 N).
Proof.
  intros HN HB L F E. rewrite three_tables. rewrite !export_rows_all in E by assumption. destruct int4.
  - assert (W : forall j, write_table true (map (row j) (zrange 0 N)) = Ok (List.concat (map (fun i => nibbled (row j i)) (zrange 0 N)))).
    { intros j. pose proof (@write_table_ok true h (fun _ => row j) 1 N HN (fun _ i => L j i) (fun _ _ i => F eq_refl j i)) as W. rewrite one_table in W. cbn [stored] in W. now rewrite one_table in W. }
    cbn [mapM] in E. rewrite !export_rows_all in E by assumption. rewrite !W in E. cbn in E. injection E as <-. reflexivity.
  - apply Ok_inj in E. subst ts. unfold brow3. cbn [Nat.ltb Nat.leb]. unfold u1, i1. rewrite !concat_map, !map_map. reflexivity.
Qed.

Lemma read_plain file off row n N w j i : 0 <= N -> (forall j i, List.length (row j i) = w) -> located file off (List.concat (tables row n N)) -> 0 <= i < N -> (j < n)%nat ->
  map (fun k => byte file (off + (Z.of_nat j * N + i) * Z.of_nat w + Z.of_nat k)) (seq 0 w) = row j i.
Proof.
  intros HN W L I J. transitivity (map (fun k => byte file (off + (Z.of_nat j * N + i) * Z.of_nat w + Z.of_nat k)) (seq 0 (List.length (row j i)))); [now rewrite W|].
  apply (map_seq_nth (d := 0)). intros k K. rewrite W in K. rewrite (@read_bytes file off row n N w j i (Z.of_nat k) HN W L I J) by lia. now rewrite Nat2Z.id.
Qed.

Lemma nth_map_lt (f : Z -> Z) l k : (k < List.length l)%nat -> nth k (map f l) 0 = f (nth k l 0).
Proof. intros K. rewrite (nth_indep _ 0 (f 0)) by (rewrite map_length; exact K). apply map_nth. Qed.
Lemma read_int8 file base row : Forall int8 row -> (forall k, (k < List.length row)%nat -> byte file (base + Z.of_nat k) = nth k row 0 mod 256) ->
  map (fun k => int8_at file (base + Z.of_nat k)) (seq 0 (List.length row)) = row.
Proof. intros F B. apply (map_seq_nth (d := 0)). intros k K. unfold int8_at. rewrite B by exact K. apply signed_mod. now apply Forall_nth_in. Qed.
Lemma read_offset file base row : Forall int8 row -> (forall k, (k < List.length row)%nat -> byte file (base + Z.of_nat k) = (nth k row 0 + 128) mod 256) ->
  map (fun k => byte file (base + Z.of_nat k)) (seq 0 (List.length row)) = map (fun z => z + 128) row.
Proof.
  intros F B. rewrite <- (map_length (fun z => z + 128) row). apply (map_seq_nth (d := 0)). intros k K. rewrite ?map_length in K. rewrite B by exact K.
  rewrite (@nth_map_lt (fun z => z + 128)) by exact K. pose proof (Forall_nth_in 0 F K) as R. unfold int8 in R. apply Z.mod_small. lia.
Qed.
Lemma v3_exact h m batch bufs b : let F := (2 * h)%nat in 0 < batch ->
  (forall j t, List.length (v3_mapping m j t) = F) -> (if v3_int4 m then (h mod 4)%nat = 0%nat else (h mod 2)%nat = 0%nat) ->
  square_shape (4 * F) 64 (v3_no_draw m) (v3_linears m) -> board7 b ->
  serialize_v3 256 128 batch m = Ok bufs -> same_value (v3_no_draw m) (v3_forward m b) (v3_engine (v3_int4 m) F (List.concat bufs) b).
Proof.
  intros F HB MF HF SS B7 E. unfold serialize_v3 in E. cbv zeta in E. apply bind_Ok in E. destruct E as (Ls & EL & E). apply bind_Ok in E. destruct E as (ts & ET & E). apply Ok_inj in E. subst bufs.
  set (int4 := v3_int4 m) in *. set (r := fun (j : nat) i => table_row int4 (v3_mapping m j (base3_input 3 4 i))).
  assert (L : forall j i, List.length (r j i) = (2 * h)%nat) by (intros; unfold r; now rewrite table_row_length).
  assert (I : forall j i, Forall (fun z => if int4 then int4r z else int8 z) (r j i)) by (intros; apply row_ints).
  assert (I4 : int4 = true -> forall j i, Forall int4r (r j i)) by (intros H j i; specialize (I j i); now rewrite H in I).
  assert (BL : forall j i, List.length (brow3 int4 j (r j i)) = if int4 then h else (2 * h)%nat) by (intros; apply brow3_length; auto).
  apply (@stored_tables int4 h r batch N12 ts N12_pos HB L I4) in ET.
  set (T := List.concat (tables (fun j i => brow3 int4 j (r j i)) 3 N12)) in *. set (bufs := T :: flat_map write_layer Ls).
  assert (FE : List.concat (ts ++ flat_map write_layer Ls) = List.concat bufs).
  { transitivity (List.concat ts ++ List.concat (flat_map write_layer Ls)); [exact (concat_app _ _)|]. rewrite ET. reflexivity. }
  assert (LOC : Forall2 (located (List.concat bufs)) (offsets 0 (v3_struct int4 (Z.of_nat F))) bufs).
  { apply (@packed_located (v3_struct int4 (Z.of_nat F)) bufs) with (pre := []).
    - apply sizes_packed. unfold bufs. cbn [map]. rewrite (square_bytes SS EL). unfold T. rewrite (@bytes_len _ 3 N12 _ N12_pos BL).
      assert (W : Z.of_nat (if int4 then h else (2 * h)%nat) = if int4 then Z.of_nat F / 2 else Z.of_nat F) by (unfold F; destruct int4; lia). rewrite W. unfold v3_struct. cbn [map snd]. unfold N12. repeat (f_equal; try lia).
    - unfold v3_struct, F. clear - HF.
      assert (W : exists x, Z.of_nat (2 * h) = 4 * x /\ (if int4 then Z.of_nat (2 * h) / 2 else Z.of_nat (2 * h)) = 4 * (if int4 then x / 2 else x)).
      { destruct int4.
        - apply Nat.mod_divides in HF; [|lia]. destruct HF as [x ->]. exists (2 * Z.of_nat x). split; [lia|]. replace (Z.of_nat (2 * (4 * x))) with (4 * Z.of_nat x * 2) by lia. rewrite (Z.mul_comm 2), !Z.div_mul by lia. reflexivity.
        - apply Nat.mod_divides in HF; [|lia]. destruct HF as [x ->]. exists (Z.of_nat x). lia. }
      destruct W as (x & -> & ->). set (y := if int4 then x / 2 else x). clearbody y. cbn [naturally]. change (3 ^ 12) with 531441.
      change (zlen (@nil Z)) with 0. repeat split; try exact Logic.I; try apply Z.mod_1_r; lia. }
  cbn [app] in LOC. change (zlen (@nil Z)) with 0 in LOC.
  match goal with |- context [v3_engine _ _ ?f _] => replace f with (List.concat bufs) by (symmetry; exact FE) end.
  clear FE ET. set (file := List.concat bufs) in *. unfold v3_engine. unfold offset. cbv zeta. fold int4. set (offs := offsets 0 (v3_struct int4 (Z.of_nat F))) in *.
  unfold bufs in LOC. clearbody offs file. destruct (Forall2_head LOC) as (o0 & os & -> & L0 & LS). cbn [nth].
  set (c := fun q : pattern => code (cells (square_chunk q b))). set (z := fun (j : nat) (q : pattern) => map (unit int4) (r j (c q))).
  assert (CR : forall l q, List.In l [v3_corner1; v3_corner2; v3_middle] -> List.In q l -> square_size 3 4 q).
  { intros l q IL IQ. pose proof (v3_sizes IL) as S. rewrite Forall_forall in S. now apply S. }
  assert (I8 : forall j q, Forall int8 (z j q)).
  { intros j q. unfold z. apply Forall_map. specialize (I j (c q)). revert I. apply Forall_impl. intros a. unfold unit, int4r, int8. destruct int4; lia. }
  assert (FEAT : forall j l, List.In l [v3_corner1; v3_corner2; v3_middle] -> v3_features m j l b = map (fun z => Qz z / Qz 128)%Qc (flat_map (z j) l)).
  { intros j l IL. unfold v3_features. apply flat_map_ints. intros q Q. unfold z, r, c. fold int4. rewrite (@square_base3 3 4 q b ltac:(lia) (CR l q IL Q) B7). apply quant_feature_ints. }
  unfold v3_forward. cbv zeta. rewrite !FEAT by (cbn; auto). rewrite map2_map.
  rewrite (@map2_Forall _ _ _ int8 int8 _ (fun x y => Qz ((x + y + 1) / 2) / Qz 128)%Qc) by (try (apply Forall_flat; apply I8); exact half_up).
  rewrite <- (map_map2 (fun z => Qz z / Qz 128)%Qc (fun x y => (x + y + 1) / 2)). rewrite vadd_ints by lia.
  (* what the engine reads *)
  assert (NB : int4 = true -> forall j l, (j < 3)%nat -> List.In l [v3_corner1; v3_corner2; v3_middle] ->
    flat_map (fun q => map (fun k => 16 * int4_at file (o0 + (Z.of_nat j * 3 ^ 12 + code (cells (square_chunk q b))) * (Z.of_nat F / 2)) (Z.of_nat k)) (seq 0 F)) l = flat_map (z j) l).
  { intros I4' j l J IL. apply flat_map_ext_list. intros q Q. unfold z. fold (c q). assert (CQ : 0 <= c q < N12) by exact (square_code (CR l q IL Q) B7).
    unfold unit. rewrite I4'. rewrite <- (map_map (fun k => int4_at file _ (Z.of_nat k)) (fun z => 16 * z)). f_equal. apply (read_nibbles (L j (c q)) (I4 I4' j (c q))). intros k K.
    change (3 ^ 12) with N12. assert (HH : Z.of_nat F / 2 = Z.of_nat h) by (unfold F; lia). rewrite HH.
    pose proof (@read_bytes file o0 (fun j i => brow3 int4 j (r j i)) 3 N12 _ j (c q) k N12_pos BL L0 CQ J) as RB. cbv beta in RB. rewrite I4' in RB. cbn [brow3] in RB. apply RB. exact K. }
  assert (RB8 : int4 = false -> forall j l q, (j < 3)%nat -> List.In l [v3_corner1; v3_corner2; v3_middle] -> List.In q l -> forall k, (k < F)%nat ->
    byte file (o0 + (Z.of_nat j * 3 ^ 12 + code (cells (square_chunk q b))) * Z.of_nat F + Z.of_nat k) = (nth k (z j q) 0 + (if (j <? 2)%nat then 128 else 0)) mod 256).
  { intros I4' j l q J IL Q k K. fold (c q). assert (CQ : 0 <= c q < N12) by exact (square_code (CR l q IL Q) B7). change (3 ^ 12) with N12.
    pose proof (@read_bytes file o0 (fun j i => brow3 int4 j (r j i)) 3 N12 _ j (c q) (Z.of_nat k) N12_pos BL L0 CQ J) as RB. cbv beta in RB. rewrite I4' in RB. cbn [brow3] in RB.
    unfold F in *. rewrite RB by lia. rewrite Nat2Z.id. unfold z, unit. rewrite I4', map_id. unfold brow3, u1, i1. destruct (j <? 2)%nat.
    - rewrite (@nth_map_lt (fun z => z mod 256)) by (rewrite map_length, L; lia). rewrite nth_map_lt by (rewrite L; lia). reflexivity.
    - rewrite (@nth_map_lt (fun z => z mod 256)) by (rewrite L; lia). now rewrite Z.add_0_r. }
  assert (ZL : forall j q, List.length (z j q) = F) by (intros; unfold z; rewrite map_length; exact (L _ _)).
  assert (U8 : int4 = false -> forall j l, (j < 2)%nat -> List.In l [v3_corner1; v3_corner2; v3_middle] ->
    flat_map (fun q => map (fun k => byte file (o0 + (Z.of_nat j * 3 ^ 12 + code (cells (square_chunk q b))) * Z.of_nat F + Z.of_nat k)) (seq 0 F)) l = map (fun z => z + 128) (flat_map (z j) l)).
  { intros I4' j l J IL. rewrite map_flat. apply flat_map_ext_list. intros q Q. rewrite <- (@read_offset file (o0 + (Z.of_nat j * 3 ^ 12 + code (cells (square_chunk q b))) * Z.of_nat F) (z j q) (I8 j q)); [now rewrite ZL|].
    intros k K. rewrite ZL in K. rewrite (RB8 I4' j l q ltac:(lia) IL Q k K). replace (j <? 2)%nat with true by (symmetry; apply Nat.ltb_lt; exact J). reflexivity. }
  assert (P8 : int4 = false -> flat_map (fun q => map (fun k => int8_at file (o0 + (Z.of_nat 2 * 3 ^ 12 + code (cells (square_chunk q b))) * Z.of_nat F + Z.of_nat k)) (seq 0 F)) v3_middle = flat_map (z 2%nat) v3_middle).
  { intros I4'. apply flat_map_ext_list. intros q Q. rewrite <- (@read_int8 file (o0 + (Z.of_nat 2 * 3 ^ 12 + code (cells (square_chunk q b))) * Z.of_nat F) (z 2%nat q) (I8 2%nat q)) at 1; [now rewrite ZL|].
    intros k K. rewrite ZL in K. rewrite (RB8 I4' 2%nat v3_middle q ltac:(lia) ltac:(cbn; auto) Q k K). cbn [Nat.ltb Nat.leb]. now rewrite Z.add_0_r. }
  match goal with |- same_value _ (value_linears _ _ (map _ ?xs)) (value_head _ _ _ ?ys) => assert (XY : ys = xs) end.
  { destruct int4 eqn:I4'.
    - rewrite !NB by (try reflexivity; try lia; cbn; auto). f_equal.
      assert (EV : forall l, Forall (fun x => x mod 2 = 0) (flat_map (z 0%nat) l)). { intros l. apply Forall_flat. intros q. unfold z, unit. apply Forall_map, Forall_forall. intros x _. replace (16 * x) with (8 * x * 2) by lia. now rewrite Z.mod_mul. }
      assert (EV' : forall l, Forall (fun x => x mod 2 = 0) (flat_map (z 1%nat) l)). { intros l. apply Forall_flat. intros q. unfold z, unit. apply Forall_map, Forall_forall. intros x _. replace (16 * x) with (8 * x * 2) by lia. now rewrite Z.mod_mul. }
      apply (@map2_Forall _ _ _ _ _ _ _ _ _ (EV v3_corner1) (EV' v3_corner2)). intros x y X Y. lia.
    - rewrite !U8 by (try reflexivity; try lia; cbn; auto). rewrite P8 by reflexivity. f_equal. rewrite map2_map. apply map2_ext. intros x y. lia. }
  rewrite XY. apply (square_head SS EL LS); [|now rewrite ints_floor].
  rewrite !map2_length. rewrite !(@flat_map_len _ _ (z _) F) by (intros q; apply ZL). change (List.length v3_corner1) with 4%nat. change (List.length v3_corner2) with 4%nat. change (List.length v3_middle) with 4%nat. now rewrite !Nat.min_id.
Qed.

(** Facts for C74: FlatSquare7x7NNUEv2 with 8-bit and with 4-bit features. *)
From Coq Require Import QArith Qcanon.
From Verif Require Import Base BaseFacts Rng FeatureTableStream FlatNet FlatNetSpec FlatNetFacts FlatNetTables FlatNetFile FlatNetWhole FlatNetV4.
Set Implicit Arguments. Unset Strict Implicit.
Local Open Scope Z_scope.

(** ** Tables of bytes *)
Lemma read_bytes file off brow n N w j i k : 0 <= N -> (forall j i, List.length (brow j i) = w) -> located file off (List.concat (tables brow n N)) ->
  0 <= i < N -> (j < n)%nat -> 0 <= k < Z.of_nat w -> byte file (off + (Z.of_nat j * N + i) * Z.of_nat w + k) = nth (Z.to_nat k) (brow j i) 0.
Proof.
  intros HN W L I J K. destruct (@tables_shape _ brow n N w HN W) as [T1 T2]. rewrite <- (@tables_nth _ brow n N j i I J).
  rewrite <- (@concat_nth _ 0 w (tables brow n N) T2) by nia. rewrite <- Z.add_assoc. rewrite (located_byte L).
  - f_equal. nia.
  - unfold zlen. rewrite (concat_len T2), T1. assert (Z.of_nat j * N + i < Z.of_nat n * N) by nia. nia.
Qed.
Lemma tables_map (A B : Type) (g : list A -> list B) (row : nat -> Z -> list A) n N : map g (tables row n N) = tables (fun j i => g (row j i)) n N.
Proof. unfold tables. rewrite concat_map, map_map. f_equal. apply map_ext. intros j. now rewrite map_map. Qed.
Lemma bytes_len (brow : nat -> Z -> list Z) n N w : 0 <= N -> (forall j i, List.length (brow j i) = w) -> zlen (List.concat (tables brow n N)) = Z.of_nat n * N * Z.of_nat w.
Proof. intros HN W. destruct (@tables_shape _ brow n N w HN W) as [T1 T2]. unfold zlen. rewrite (concat_len T2), T1. nia. Qed.
Lemma signed_mod z : int8 z -> signed 8 (z mod 256) = z.
Proof.
  intros R. unfold int8 in R. unfold signed. change (2 ^ (8 - 1)) with 128. change (2 ^ 8) with 256. destruct (Z_lt_le_dec z 0) as [N|N].
  - replace (z mod 256) with (z + 256) by (apply (Z.mod_unique_pos z 256 (-1)); lia). replace (z + 256 <? 128) with false by lia. lia.
  - rewrite Z.mod_small by lia. replace (z <? 128) with true by lia. reflexivity.
Qed.
Lemma map_seq_nth (A : Type) (f : nat -> A) (l : list A) d : (forall k, (k < List.length l)%nat -> f k = nth k l d) -> map f (seq 0 (List.length l)) = l.
Proof.
  intros H. apply (nth_ext _ _ d d); [now rewrite map_length, seq_length|]. intros k K. rewrite map_length, seq_length in K.
  rewrite (nth_indep _ d (f 0%nat)) by (rewrite map_length, seq_length; exact K). rewrite map_nth, seq_nth by exact K. now apply H.
Qed.

(** ** Nibbles *)
Lemma evens_nth (l : list Z) : forall k, nth k (evens l) 0 = nth (2 * k) l 0 /\ nth k (odds l) 0 = nth (2 * k + 1) l 0.
Proof.
  assert (G : forall n (l : list Z), (List.length l <= n)%nat -> forall k, nth k (evens l) 0 = nth (2 * k) l 0).
  { induction n as [|n IH]; intros [|a [|b r]] H k; cbn in H; try lia; try (now destruct k); [destruct k as [|[|k]]; reflexivity|].
    destruct k as [|k]; [reflexivity|]. cbn [evens]. replace (2 * S k)%nat with (S (S (2 * k))) by lia. cbn [nth]. apply IH. lia. }
  intros k. split; [now apply (G (List.length l))|]. destruct l as [|a r]; [cbn [odds]; rewrite !nth_overflow by (cbn [List.length]; lia); reflexivity|]. cbn [odds]. rewrite (G (List.length r)) by lia. now rewrite Nat.add_1_r.
Qed.
Lemma evens_length (A : Type) : forall h (l : list A), List.length l = (2 * h)%nat -> List.length (evens l) = h /\ List.length (odds l) = h.
Proof.
  induction h as [|h IH]; intros l L; [destruct l; [now split|discriminate]|]. destruct l as [|a [|b r]]; cbn in L; try lia. destruct (IH r) as [I1 I2]; [lia|].
  cbn [evens odds List.length]. split; [now rewrite I1|]. destruct r as [|c r]; cbn in *; [lia|]. rewrite I2. destruct h; [discriminate|reflexivity].
Qed.
Lemma Forall_evens (A : Type) (P : A -> Prop) (l : list A) : Forall P l -> Forall P (evens l) /\ Forall P (odds l).
Proof.
  assert (G : forall n (l : list A), (List.length l <= n)%nat -> Forall P l -> Forall P (evens l)).
  { induction n as [|n IH]; intros [|a [|b r]] H F; cbn in H; try lia; cbn [evens]; inversion F as [|? ? Pa F1]; subst; repeat constructor; auto.
    apply IH; [lia|]. now inversion F1. }
  intros F. split; [now apply (G (List.length l))|]. destruct l as [|a r]; [constructor|]. cbn [odds]. apply (G (List.length r)); [lia|now inversion F].
Qed.
Definition int4r (z : Z) : Prop := -8 <= z <= 7.
Definition nibbled (row : list Z) : list Z := map2 (fun h l => Z.lor ((h * 16) mod 256) l) (map (fun z => z + 8) (odds row)) (map (fun z => z + 8) (evens row)).
Lemma pack4_ok h row : List.length row = (2 * h)%nat -> Forall int4r row -> pack4 row = Ok (nibbled row) /\ List.length (nibbled row) = h.
Proof.
  intros L F. destruct (evens_length L) as [E1 E2]. destruct (Forall_evens F) as [F1 F2].
  assert (B : forall l, Forall int4r l -> forallb (fun z => (0 <=? z) && (z <=? 15)) (map (fun z => z + 8) l) = true).
  { intros l H. apply forallb_forall. intros z I. apply in_map_iff in I. destruct I as (y & <- & Y). rewrite Forall_forall in H. specialize (H _ Y). unfold int4r in H. lia. }
  split; [|unfold nibbled; rewrite map2_length, !map_length; lia]. unfold pack4. cbv zeta. rewrite !B by assumption. rewrite !map_length, E1, E2, Nat.eqb_refl. reflexivity.
Qed.
Lemma nibble_byte h row k : List.length row = (2 * h)%nat -> Forall int4r row -> (k < h)%nat -> nth k (nibbled row) 0 = 16 * (nth (2 * k + 1) row 0 + 8) + (nth (2 * k) row 0 + 8).
Proof.
  intros L F K. destruct (evens_length L) as [E1 E2]. destruct (evens_nth row k) as [N1 N2]. unfold nibbled.
  assert (G : forall (f : Z -> Z -> Z) l m k, (k < List.length l)%nat -> (k < List.length m)%nat -> nth k (map2 f l m) 0 = f (nth k l 0) (nth k m 0)).
  { clear. intros f. induction l as [|a l IH]; intros [|b m] k H1 H2; cbn in H1, H2; try lia. destruct k; [reflexivity|]. cbn. apply IH; lia. }
  assert (M : forall l : list Z, (k < List.length l)%nat -> nth k (map (fun z => z + 8) l) 0 = nth k l 0 + 8).
  { intros l H. rewrite (nth_indep _ 0 (0 + 8)) by (rewrite map_length; exact H). apply (map_nth (fun z => z + 8)). }
  rewrite G by (rewrite map_length; lia). rewrite !M by lia. rewrite N1, N2.
  assert (R1 : int4r (nth (2 * k + 1) row 0)) by (apply Forall_nth_in; [exact F|lia]). assert (R2 : int4r (nth (2 * k) row 0)) by (apply Forall_nth_in; [exact F|lia]).
  unfold int4r in *. set (a := nth (2 * k + 1) row 0) in *. set (c := nth (2 * k) row 0) in *. rewrite Z.mod_small by lia. rewrite Z.lor_comm. change 16 with (2 ^ 4) at 1. rewrite lor_low by (change (2 ^ 4) with 16; lia). change (2 ^ 4) with 16. lia.
Qed.
(** Reading a row of nibbles *)
Lemma read_nibbles file base h row : List.length row = (2 * h)%nat -> Forall int4r row -> (forall k, 0 <= k < Z.of_nat h -> byte file (base + k) = nth (Z.to_nat k) (nibbled row) 0) ->
  map (fun k => int4_at file base (Z.of_nat k)) (seq 0 (2 * h)) = row.
Proof.
  intros L F B. rewrite <- L. apply (map_seq_nth (d := 0)). intros k K. unfold int4_at. rewrite B by lia.
  assert (D : Z.to_nat (Z.of_nat k / 2) = (k / 2)%nat) by (change 2 with (Z.of_nat 2); rewrite <- Nat2Z.inj_div, Nat2Z.id; reflexivity).
  rewrite D, (nibble_byte L F) by (apply Nat.div_lt_upper_bound; lia).
  pose proof (Nat.div_mod k 2 ltac:(lia)) as DM. pose proof (Nat.mod_upper_bound k 2 ltac:(lia)) as MB.
  assert (R1 : int4r (nth (2 * (k / 2)) row 0)) by (apply Forall_nth_in; [exact F|lia]). unfold int4r in R1.
  destruct (Z.even (Z.of_nat k)) eqn:EV.
  - apply Z.even_spec in EV. destruct EV as [x X]. assert (Q : (2 * (k / 2))%nat = k) by lia. rewrite Q in *. set (a := nth (k + 1) row 0). set (c := nth k row 0) in *.
    replace (16 * (a + 8) + (c + 8)) with ((c + 8) + (a + 8) * 16) by lia. rewrite Z.mod_add, Z.mod_small by lia. lia.
  - assert (O : Z.odd (Z.of_nat k) = true) by (rewrite <- Z.negb_even, EV; reflexivity). apply Z.odd_spec in O. destruct O as [x X]. assert (Q : (2 * (k / 2) + 1)%nat = k) by lia. rewrite Q in *.
    set (a := nth k row 0) in *. set (c := nth (2 * (k / 2)) row 0) in *. replace (16 * (a + 8) + (c + 8)) with ((c + 8) + (a + 8) * 16) by lia. rewrite Z.div_add, Z.div_small by lia. lia.
Qed.
Lemma mapM_map_ok (A B : Type) (f : A -> res B) (g : A -> B) l : (forall x, List.In x l -> f x = Ok (g x)) -> mapM f l = Ok (map g l).
Proof. induction l as [|a l IH]; intros H; [reflexivity|]. cbn [mapM map]. rewrite (H a) by now left. cbn. rewrite IH by (intros; apply H; now right). reflexivity. Qed.

(** ** A table as the exporter writes it *)
Definition stored (int4 : bool) (row : list Z) : list Z := if int4 then nibbled row else i1 row.
Lemma concat_i1 ls : i1 (List.concat ls) = List.concat (map i1 ls). Proof. apply concat_map. Qed.
Lemma write_table_ok int4 h row n N : 0 <= N -> (forall j i, List.length (row j i) = (2 * h)%nat) -> (int4 = true -> forall j i, Forall int4r (row j i)) ->
  write_table int4 (tables row n N) = Ok (List.concat (tables (fun j i => stored int4 (row j i)) n N)).
Proof.
  intros HN L F. unfold write_table. destruct int4.
  - rewrite (@mapM_map_ok _ _ pack4 nibbled).
    + exact (f_equal (fun l => Ok (List.concat l)) (tables_map nibbled row n N)).
    + intros r R. unfold tables in R. apply in_concat in R. destruct R as (t & T & R). apply in_map_iff in T. destruct T as (j & <- & _). apply in_map_iff in R. destruct R as (i & <- & _).
      apply (@pack4_ok h); [apply L|now apply F].
  - rewrite concat_i1. exact (f_equal (fun l => Ok (List.concat l)) (tables_map i1 row n N)).
Qed.
Lemma stored_length int4 h row : List.length row = (2 * h)%nat -> (int4 = true -> Forall int4r row) -> List.length (stored int4 row) = if int4 then h else (2 * h)%nat.
Proof. intros L F. unfold stored. destruct int4; [apply pack4_ok; auto|unfold i1; now rewrite map_length]. Qed.
(** Both widths read back, in units of 1/128 *)
Definition read_unit (int4 : bool) (file : list Z) (base : Z) (k : nat) : Z := if int4 then 16 * int4_at file base (Z.of_nat k) else int8_at file (base + Z.of_nat k).
Lemma read_stored (int4 : bool) file off h row n N j i : 0 <= N -> (forall j i, List.length (row j i) = (2 * h)%nat) -> (forall j i, Forall (fun z => if int4 then int4r z else int8 z) (row j i)) ->
  located file off (List.concat (tables (fun j i => stored int4 (row j i)) n N)) -> 0 <= i < N -> (j < n)%nat ->
  map (read_unit int4 file (off + (Z.of_nat j * N + i) * Z.of_nat (if int4 then h else (2 * h)%nat))) (seq 0 (2 * h)) = map (unit int4) (row j i).
Proof.
  intros HN L F LOC I J. unfold read_unit, unit.
  assert (SL : forall j i, List.length (stored int4 (row j i)) = if int4 then h else (2 * h)%nat).
  { intros j' i'. apply stored_length; [apply L|]. intros ->. apply F. }
  pose proof (fun k => @read_bytes file off (fun j i => stored int4 (row j i)) n N _ j i k HN SL LOC I J) as RB.
  specialize (L j i). specialize (F j i). cbv beta in RB. set (r := row j i) in *. clearbody r. destruct int4.
  - rewrite <- (map_map (fun k => int4_at file (off + (Z.of_nat j * N + i) * Z.of_nat h) (Z.of_nat k)) (fun z => 16 * z)). f_equal. apply (read_nibbles L F). intros k K. apply RB. exact K.
  - rewrite map_id. transitivity (map (fun k => int8_at file (off + (Z.of_nat j * N + i) * Z.of_nat (2 * h) + Z.of_nat k)) (seq 0 (List.length r))); [now rewrite L|]. apply (map_seq_nth (d := 0)). intros k K. unfold int8_at. rewrite RB by lia. rewrite Nat2Z.id. unfold stored, i1.
    rewrite (nth_indep _ 0 (0 mod 256)) by (rewrite map_length; exact K). rewrite (map_nth (fun z => z mod 256)). apply signed_mod. now apply Forall_nth_in.
Qed.
Lemma one_table (A : Type) (row : Z -> list A) N : tables (fun _ => row) 1 N = map row (zrange 0 N).
Proof. unfold tables. cbn [seq map List.concat]. apply app_nil_r. Qed.
Lemma one_i1 (row : Z -> list Z) N : i1 (List.concat (map row (zrange 0 N))) = List.concat (tables (fun (_ : nat) i => stored false (row i)) 1 N).
Proof. rewrite concat_i1, map_map. unfold stored. now rewrite one_table. Qed.
Lemma row_ints (int4 : bool) v : Forall (fun z => if int4 then int4r z else int8 z) (table_row int4 v).
Proof. rewrite table_row_q. apply Forall_map, Forall_forall. intros x _. destruct int4; [apply q4_range|apply q8_range]. Qed.
Lemma table_row_length int4 v : List.length (table_row int4 v) = List.length v. Proof. unfold table_row. apply map_length. Qed.
Lemma flat_map_ints (R : pattern -> vec) (r : pattern -> list Z) l : (forall q, List.In q l -> R q = map (fun z => Qz z / Qz 128)%Qc (r q)) -> flat_map R l = map (fun z => Qz z / Qz 128)%Qc (flat_map r l).
Proof. induction l as [|q l IH]; intros H; [reflexivity|]. cbn [flat_map]. rewrite map_app, (H q) by now left. f_equal. apply IH. intros; apply H; now right. Qed.
Lemma flat_map_ext_list (A B : Type) (f g : A -> list B) l : (forall q, List.In q l -> f q = g q) -> flat_map f l = flat_map g l.
Proof. induction l as [|q l IH]; intros H; [reflexivity|]. cbn [flat_map]. rewrite (H q) by now left. f_equal. apply IH. intros; apply H; now right. Qed.
Lemma flat_map_len (A B : Type) (f : A -> list B) m l : (forall q, List.length (f q) = m) -> List.length (flat_map f l) = (List.length l * m)%nat.
Proof. intros H. induction l as [|q l IH]; [reflexivity|]. cbn [flat_map List.length]. rewrite app_length, H, IH. reflexivity. Qed.

(** ** v2 *)
Definition N12 : Z := 3 ^ 12.
Lemma N12_pos : 0 <= N12. Proof. unfold N12. lia. Qed.
Lemma sizes_packed ms bufs : map snd ms = map (@zlen Z) bufs -> Forall2 (fun (m : Z * Z) b => zlen b = snd m) ms bufs.
Proof. revert bufs. induction ms as [|m ms IH]; intros [|b bufs] F; try discriminate; constructor; cbn in F; [congruence|]. apply IH; congruence. Qed.
Lemma v2_exact h m batch bufs b : let F := (2 * h)%nat in 0 < batch ->
  (forall t, List.length (v2_mapping4x4 m t) = F) -> (forall t, List.length (v2_mapping4x3 m t) = F) -> (if v2_int4 m then (h mod 4)%nat = 0%nat else (h mod 2)%nat = 0%nat) ->
  square_shape (4 * F) 32 (v2_no_draw m) (v2_linears m) -> board7 b ->
  serialize_v2 256 128 batch m = Ok bufs -> same_value (v2_no_draw m) (v2_forward m b) (v2_engine (v2_int4 m) F (List.concat bufs) b).
Proof.
  intros F HB M44 M43 HF SS B7 E. unfold serialize_v2 in E. cbv zeta in E. apply bind_Ok in E. destruct E as (Ls & EL & E). apply bind_Ok in E. destruct E as (b44 & E44 & E). apply Ok_inj in E. subst bufs.
  set (int4 := v2_int4 m) in *. set (r44 := fun (_ : nat) i => table_row int4 (v2_mapping4x4 m (base3_input 4 4 i))). set (r43 := fun (_ : nat) i => table_row false (v2_mapping4x3 m (base3_input 4 3 i))).
  assert (L44 : forall j i, List.length (r44 j i) = (2 * h)%nat) by (intros; unfold r44; now rewrite table_row_length).
  assert (L43 : forall j i, List.length (r43 j i) = (2 * h)%nat) by (intros; unfold r43; now rewrite table_row_length).
  assert (I44 : forall j i, Forall (fun z => if int4 then int4r z else int8 z) (r44 j i)) by (intros; apply row_ints).
  assert (I43 : forall j i, Forall int8 (r43 j i)) by (intros; exact (row_ints false _)).
  rewrite export_rows_all in E44 by (try exact N16_pos; exact HB).
  assert (T44 : write_table int4 (tables r44 1 N16) = Ok (List.concat (tables (fun j i => stored int4 (r44 j i)) 1 N16))).
  { apply (@write_table_ok int4 h); [exact N16_pos|exact L44|]. intros H j i. specialize (I44 j i). now rewrite H in I44. }
  unfold r44 at 1 in T44. rewrite one_table in T44. change (3 ^ 16) with N16 in E44. rewrite T44 in E44. apply Ok_inj in E44. subst b44. clear T44.
  rewrite export_rows_all by (try exact N12_pos; exact HB). change (3 ^ 12) with N12. 
  assert (T43 : i1 (List.concat (map (fun i => table_row false (v2_mapping4x3 m (base3_input 4 3 i))) (zrange 0 N12))) = List.concat (tables (fun j i => stored false (r43 j i)) 1 N12)).
  { exact (one_i1 _ N12). }
  rewrite T43. clear T43.
  set (bufs := List.concat (tables (fun j i => stored int4 (r44 j i)) 1 N16) :: List.concat (tables (fun j i => stored false (r43 j i)) 1 N12) :: flat_map write_layer Ls).
  set (w := if int4 then h else (2 * h)%nat).
  assert (LOC : Forall2 (located (List.concat bufs)) (offsets 0 (v2_struct int4 (Z.of_nat F))) bufs).
  { apply (@packed_located (v2_struct int4 (Z.of_nat F)) bufs) with (pre := []).
    - apply sizes_packed. unfold bufs. cbn [map]. rewrite (square_bytes SS EL). 
      rewrite (@bytes_len _ 1 N16 w N16_pos) by (intros; apply stored_length; [apply L44|intros H; specialize (I44 j i); now rewrite H in I44]).
      rewrite (@bytes_len _ 1 N12 (2 * h) N12_pos) by (intros; apply (@stored_length false); [apply L43|discriminate]).
      assert (W : Z.of_nat w = if int4 then Z.of_nat F / 2 else Z.of_nat F) by (unfold w, F; destruct int4; lia). rewrite W. unfold v2_struct. cbn [map snd]. unfold N16, N12. repeat (f_equal; try lia).
    - cbn [zlen List.length Z.of_nat]. unfold v2_struct, F. clear - HF.
      assert (W : exists x, Z.of_nat (2 * h) = 4 * x /\ (if int4 then Z.of_nat (2 * h) / 2 else Z.of_nat (2 * h)) = 4 * (if int4 then x / 2 else x)).
      { destruct int4.
        - apply Nat.mod_divides in HF; [|lia]. destruct HF as [x ->]. exists (2 * Z.of_nat x). split; [lia|]. replace (Z.of_nat (2 * (4 * x))) with (4 * Z.of_nat x * 2) by lia. rewrite (Z.mul_comm 2), !Z.div_mul by lia. reflexivity.
        - apply Nat.mod_divides in HF; [|lia]. destruct HF as [x ->]. exists (Z.of_nat x). lia. }
      destruct W as (x & -> & ->). set (y := if int4 then x / 2 else x). clearbody y. cbn [naturally]. change (3 ^ 16) with 43046721. change (3 ^ 12) with 531441.
      change (zlen (@nil Z)) with 0. repeat split; try exact I; try apply Z.mod_1_r; lia. }
  cbn [app] in LOC. change (zlen (@nil Z)) with 0 in LOC.
  match goal with |- context [v2_engine _ _ ?f _] => change f with (List.concat bufs) end.
  set (file := List.concat bufs) in *. unfold v2_engine. unfold offset. cbv zeta. fold int4. set (offs := offsets 0 (v2_struct int4 (Z.of_nat F))) in *.
  unfold bufs in LOC. clearbody offs file. destruct (Forall2_head LOC) as (o0 & os & -> & L0 & LS0). destruct (Forall2_head LS0) as (o1 & os' & -> & L1 & LS). cbn [nth].
  set (z44 := fun q : pattern => map (unit int4) (r44 0%nat (code (cells (square_chunk q b))))). set (z43 := fun q : pattern => r43 0%nat (code (cells (square_chunk q b)))).
  unfold v2_forward. cbv zeta.
  rewrite (@flat_map_ints _ z44 corner_index). 2: { intros q Q. unfold z44, r44. pose proof corner_sizes as S. rewrite Forall_forall in S. rewrite (@square_base3 4 4 q b ltac:(lia) (S q Q) B7). apply quant_feature_ints. }
  rewrite (@flat_map_ints _ z43 middle_index). 2: { intros q Q. unfold z43, r43. pose proof middle_sizes as S. rewrite Forall_forall in S. rewrite (@square_base3 4 3 q b ltac:(lia) (S q Q) B7). rewrite quant_feature_ints. unfold unit. now rewrite map_id. }
  rewrite vadd_ints by lia.
  match goal with |- same_value _ (value_linears _ _ (map _ ?xs)) (value_head _ _ _ ?ys) => assert (XY : ys = xs) end.
  { f_equal.
    - apply flat_map_ext_list. intros q Q. unfold z44. pose proof corner_sizes as S. rewrite Forall_forall in S.
      rewrite <- (@read_stored int4 file o0 h r44 1 N16 0 (code (cells (square_chunk q b))) N16_pos L44 I44 L0 (code16 (S q Q) B7) ltac:(lia)).
      apply map_ext. intros k. unfold read_unit. change (Z.of_nat 0) with 0. rewrite Z.mul_0_l, Z.add_0_l. destruct int4; [|reflexivity].
      assert (HH : Z.of_nat F / 2 = Z.of_nat h) by (unfold F; lia). rewrite HH. reflexivity.
    - apply flat_map_ext_list. intros q Q. unfold z43. pose proof middle_sizes as S. rewrite Forall_forall in S.
      transitivity (map (unit false) (r43 0%nat (code (cells (square_chunk q b))))); [|unfold unit; apply map_id].
      rewrite <- (@read_stored false file o1 h r43 1 N12 0 (code (cells (square_chunk q b))) N12_pos L43 I43 L1 (square_code (S q Q) B7) ltac:(lia)).
      apply map_ext. intros k. unfold read_unit. change (Z.of_nat 0) with 0. rewrite Z.mul_0_l, Z.add_0_l. reflexivity. }
  rewrite XY. apply (square_head SS EL LS); [|now rewrite ints_floor].
  rewrite map2_length. rewrite (@flat_map_len _ _ z44 F) by (intros q; unfold z44; rewrite map_length; exact (L44 _ _)). rewrite (@flat_map_len _ _ z43 F) by (intros q; exact (L43 0%nat _)).
  change (List.length corner_index) with 4%nat. change (List.length middle_index) with 4%nat. apply Nat.min_id.
Qed.

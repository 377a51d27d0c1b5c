(** Facts for C75-C77: widths, symmetry of the features, what can be exported. *)
From Coq Require Import QArith Qcanon Permutation.
From Verif Require Import Base BaseFacts Rng FeatureTable FeatureTableStream FlatNet FlatNetSpec FlatNetFacts FlatNetTables FlatNetFile FlatNetWhole FlatNetV4 FlatNetV2 FlatNetV3.
Set Implicit Arguments. Unset Strict Implicit.
Local Open Scope Z_scope.

(** ** Widths *)
Definition is_byte (z : Z) : Prop := 0 <= z <= 255.
Lemma byte_range file off : Forall is_byte file -> is_byte (byte file off).
Proof.
  intros F. unfold byte. destruct (Nat.ltb_spec (Z.to_nat off) (List.length file)) as [L|L]; [now apply Forall_nth_in|]. rewrite nth_overflow by exact L. unfold is_byte. lia.
Qed.
Lemma int8_at_range file off : Forall is_byte file -> int8 (int8_at file off).
Proof.
  intros F. pose proof (byte_range off F) as B. unfold is_byte, int8, int8_at, signed in *. change (2 ^ (8 - 1)) with 128. change (2 ^ 8) with 256. destruct (Z.ltb_spec (byte file off) 128); lia.
Qed.
Lemma zsum_bound lo hi l : Forall (fun z => lo <= z <= hi) l -> zlen l * lo <= zsum l <= zlen l * hi.
Proof. induction 1 as [|a l A _ IH]; [change (zlen (@nil Z)) with 0; change (zsum []) with 0; lia|]. rewrite zlen_cons, zsum_cons. nia. Qed.
Lemma Forall_firstn (A : Type) (P : A -> Prop) n l : Forall P l -> Forall P (firstn n l).
Proof. intros F. revert n. induction F as [|a l A0 _ IH]; intros [|n]; cbn; constructor; auto. Qed.
Lemma rows_bound file F rows n j : Forall is_byte file -> Forall (fun r => exists f, r = map (fun k => int8_at file (f k)) (seq 0 F)) rows -> 
  -128 * zlen rows <= zsum (map (fun r => nth j r 0) (firstn n rows)) <= 127 * zlen rows.
Proof.
  intros B R. set (l := map (fun r => nth j r 0) (firstn n rows)).
  assert (FL : Forall (fun z => -128 <= z <= 127) l).
  { unfold l. apply Forall_map. apply Forall_firstn. revert R. apply Forall_impl. intros r (f & ->). destruct (Nat.ltb_spec j F) as [J|J].
    - rewrite (nth_indep _ 0 (int8_at file (f 0%nat))) by (rewrite map_length, seq_length; exact J). rewrite (map_nth (fun k => int8_at file (f k))), seq_nth by exact J. exact (@int8_at_range file (f j) B).
    - rewrite nth_overflow by (rewrite map_length, seq_length; exact J). split; discriminate. }
  pose proof (zsum_bound FL) as Z0. assert (L : zlen l <= zlen rows) by (unfold l, zlen; rewrite map_length, firstn_length; clear; lia). pose proof (zlen_nonneg l). nia.
Qed.
Lemma v4_rows_fit F file b n j : Forall is_byte file -> -2048 <= zsum (map (fun r => nth j r 0) (firstn n (v4_rows F file b))) <= 2032.
Proof.
  intros B. pose proof (@rows_bound file F (v4_rows F file b) n j B) as Z0. change (zlen (v4_rows F file b)) with 16 in Z0. apply Z0.
  unfold v4_rows. cbv zeta. apply Forall_forall. intros r I. apply in_flat_map in I. destruct I as ([j' l] & _ & I). apply in_map_iff in I. destruct I as (q & <- & _). eexists. reflexivity.
Qed.
Lemma v4vq_rows_fit C F file b n j : Forall is_byte file -> -2048 <= zsum (map (fun r => nth j r 0) (firstn n (v4vq_rows C F file b))) <= 2032.
Proof.
  intros B. pose proof (@rows_bound file F (v4vq_rows C F file b) n j B) as Z0. change (zlen (v4vq_rows C F file b)) with 16 in Z0. apply Z0.
  unfold v4vq_rows. cbv zeta. apply Forall_forall. intros r I. apply in_flat_map in I. destruct I as ([j' l] & _ & I). apply in_map_iff in I. destruct I as (q & <- & _). eexists. reflexivity.
Qed.
(** Accumulators of a layer, added in any order *)
Lemma products_fit (row xs : list Z) : Forall int8 row -> Forall int8 xs -> forall ts n, Permutation ts (map2 Z.mul row xs) -> - (16384 * zlen xs) <= zsum (firstn n ts) <= 16384 * zlen xs.
Proof.
  intros R X ts n P.
  assert (F : Forall (fun z => -16384 <= z <= 16384) (map2 Z.mul row xs)).
  { clear P. revert xs X. induction R as [|a row A _ IH]; intros [|x xs] X; cbn [map2]; try constructor; inversion X; subst; [unfold int8 in *; nia|apply IH; assumption]. }
  apply (Permutation_Forall (Permutation_sym P)) in F. apply Permutation_length in P. rewrite map2_length in P. 
  pose proof (zsum_bound (Forall_firstn n F)) as B. unfold zlen in *. rewrite firstn_length in B. nia.
Qed.
Lemma round_bound x n : (Qz (- n) <= x)%Qc -> (x <= Qz n)%Qc -> - n <= round_q x <= n.
Proof. intros A B. apply round_mono in A, B. rewrite round_Qz in A, B. lia. Qed.
Lemma export_bias_small s B b : 0 < s <= 256 -> 0 <= B <= 1000 -> Forall (fun x => (Qz (- B) <= x)%Qc /\ (x <= Qz B)%Qc) b -> Forall (fun z => - (s * 128 * B) <= z <= s * 128 * B) (export_bias s b).
Proof.
  intros S HB F. unfold export_bias. apply Forall_map. revert F. apply Forall_impl. intros x [X1 X2].
  assert (M : 0 < s * 128) by lia. assert (E : (x * Qz s * Qz 128)%Qc = (x * Qz (s * 128))%Qc) by (rewrite <- Qz_mul; ring). rewrite E.
  apply (proj1 (@scale_le (s * 128) _ _ M)) in X1, X2. rewrite Qz_mul in X1, X2.
  assert (R : - (s * 128 * B) <= round_q (x * Qz (s * 128))%Qc <= s * 128 * B).
  { apply round_bound; [replace (- (s * 128 * B)) with (- B * (s * 128)) by ring; exact X1|replace (s * 128 * B) with (B * (s * 128)) by ring; exact X2]. }
  unfold clip. change (2 ^ 31) with 2147483648. nia.
Qed.

(** ** Symmetry *)
Lemma vadd_comm x y : vadd x y = vadd y x.
Proof. unfold vadd. revert y. induction x as [|a x IH]; intros [|c y]; try reflexivity. cbn. rewrite IH. f_equal. ring. Qed.
Lemma vadd_assoc x y z : vadd x (vadd y z) = vadd (vadd x y) z.
Proof. unfold vadd. revert y z. induction x as [|a x IH]; intros [|c y] [|d z]; try reflexivity. cbn. rewrite IH. f_equal. ring. Qed.
Lemma fold_vadd_perm l l' : Permutation l l' -> forall a, fold_left vadd l a = fold_left vadd l' a.
Proof.
  induction 1 as [|x l l' _ IH|x y l|l l' l'' _ IH1 _ IH2]; intros a; cbn [fold_left]; auto.
  - now rewrite <- !vadd_assoc, (vadd_comm y x).
  - now rewrite IH1.
Qed.
Lemma vsum_perm l l' : Permutation l l' -> vsum l = vsum l'.
Proof.
  induction 1 as [|x l l' P _|x y l|l l' l'' _ IH1 _ IH2]; cbn [vsum]; auto.
  - now apply fold_vadd_perm.
  - cbn [fold_left]. now rewrite (vadd_comm y x).
  - congruence.
Qed.
Lemma rot90_mod (A : Type) k (p : plane A) : rot90 k p = rot90 (k mod 4) p.
Proof. unfold rot90. now rewrite Z.mod_mod by lia. Qed.
Lemma cyc1 (A : Type) (a b c d : A) : Permutation [a; b; c; d] [b; c; d; a]. Proof. exact (Permutation_app_comm [a] [b; c; d]). Qed.
Lemma cyc2 (A : Type) (a b c d : A) : Permutation [a; b; c; d] [c; d; a; b]. Proof. exact (Permutation_app_comm [a; b] [c; d]). Qed.
Lemma cyc3 (A : Type) (a b c d : A) : Permutation [a; b; c; d] [d; a; b; c]. Proof. exact (Permutation_app_comm [a; b; c] [d]). Qed.
Definition turns (cut : pattern -> plane Z -> plane Z) (l : list pattern) : Prop :=
  forall b k, board7 b -> Permutation (map (fun q => chunk_input cut q (rot90 k b)) l) (map (fun q => chunk_input cut q b) l).
Ltac turn4 := intros [h w f] k (H & W & _); cbn in H, W; subst h w; rewrite rot90_mod;
  let M := fresh in pose proof (Z.mod_pos_bound k 4 ltac:(lia)) as M;
  let E := fresh in assert (E : k mod 4 = 0 \/ k mod 4 = 1 \/ k mod 4 = 2 \/ k mod 4 = 3) by lia; clear M;
  destruct E as [E|[E|[E|E]]]; rewrite E; clear E k; vm_compute; first [apply Permutation_refl|apply cyc1|apply cyc2|apply cyc3].
Lemma turns_app cut l m : turns cut l -> turns cut m -> turns cut (l ++ m).
Proof. intros L M b k B. rewrite !map_app. apply Permutation_app; auto. Qed.
Lemma v4_turns l : List.In l v4_indices -> turns (@square_chunk Z) l.
Proof.
  intros [<-|[<-|[<-|[]]]]; [turn4| |turn4].
  match goal with |- turns _ ?l => change l with (firstn 4 l ++ skipn 4 l) end. apply turns_app; cbn [firstn skipn]; turn4.
Qed.
Lemma v4_forward_turn m vq b k : board7 b -> v4_forward m vq (rot90 k b) = v4_forward m vq b.
Proof.
  intros B. rewrite !v4_forward_value. unfold v4_value. f_equal. apply vsum_perm.
  set (H := fun (j : nat) (t : tensor) => map (fake_quant 128 8 false) (do_vq vq j (map (clamp bottom top) (v4_mapping m j t)))).
  assert (G : forall ls : list (nat * list pattern), Forall (fun jl => turns (@square_chunk Z) (snd jl)) ls ->
    Permutation (flat_map (fun '(j, l) => map (fun q => H j (chunk_input (@square_chunk Z) q (rot90 k b))) l) ls) (flat_map (fun '(j, l) => map (fun q => H j (chunk_input (@square_chunk Z) q b)) l) ls)).
  { induction 1 as [|[j l] ls L _ IH]; [constructor|]. cbn [flat_map]. apply Permutation_app; [|exact IH]. rewrite <- !(map_map (fun q => chunk_input (@square_chunk Z) q _) (H j)). apply Permutation_map, L, B. }
  apply G. unfold indexed. cbn [v4_indices List.length seq combine]. repeat (constructor; [apply v4_turns; cbn; auto|]). constructor.
Qed.
Ltac same_elements :=
  match goal with
  | |- Permutation [] [] => apply perm_nil
  | |- @Permutation ?T (?a :: ?l) ?r =>
      let rec go pre suf := lazymatch suf with
        | a :: ?s => change r with (pre ++ a :: s); apply Permutation_cons_app; cbn [app]; same_elements
        | ?x :: ?s => go constr:(pre ++ [x]) s end in
      go constr:(@nil T) r
  end.
Lemma mapping1_turns : turns (@ladder_chunk Z) mapping1_index.
Proof.
  intros [h w f] k (H & W & _); cbn in H, W; subst h w; rewrite rot90_mod. pose proof (Z.mod_pos_bound k 4 ltac:(lia)) as M.
  assert (E : k mod 4 = 0 \/ k mod 4 = 1 \/ k mod 4 = 2 \/ k mod 4 = 3) by lia. destruct E as [E|[E|[E|E]]]; rewrite E; clear E M k; vm_compute; same_elements.
Qed.
Lemma mapping1_mirror b : board7 b -> Permutation (map (fun q => chunk_input (@ladder_chunk Z) q (transpose b)) mapping1_index) (map (fun q => chunk_input (@ladder_chunk Z) q b) mapping1_index).
Proof. destruct b as [h w f]. intros (H & W & _); cbn in H, W; subst h w. vm_compute. same_elements. Qed.
Lemma mapping2_turns : turns (@ladder_chunk Z) mapping2_index.
Proof. turn4. Qed.
Lemma ladder_sum_perm (m : ladder) b b' : (forall l, l = mapping1_index \/ (l = mapping2_index /\ ld_mapping2 m <> None) -> Permutation (map (fun q => chunk_input (@ladder_chunk Z) q b') l) (map (fun q => chunk_input (@ladder_chunk Z) q b) l)) ->
  ladder_forward m b' = ladder_forward m b.
Proof.
  intros H. unfold ladder_forward. f_equal. f_equal. unfold ladder_sum. apply vsum_perm.
  assert (G : forall mp l, Permutation (map (fun q => chunk_input (@ladder_chunk Z) q b') l) (map (fun q => chunk_input (@ladder_chunk Z) q b) l) -> Permutation (ladder_features mp l b') (ladder_features mp l b)).
  { intros mp l P. unfold ladder_features. rewrite <- !(map_map (fun q => chunk_input (@ladder_chunk Z) q _) (fun t => map (fun x => fake_quant 128 8 false (clamp bottom top x)) (run_mapping mp t))). now apply Permutation_map. }
  apply Permutation_app; [apply G, H; now left|]. destruct (ld_mapping2 m) as [m2|] eqn:E; [|constructor]. apply G, H. right. split; [reflexivity|congruence].
Qed.
Lemma ladder_forward_turn m b k : board7 b -> ladder_forward m (rot90 k b) = ladder_forward m b.
Proof. intros B. apply ladder_sum_perm. intros l [->|[-> _]]; [now apply mapping1_turns|now apply mapping2_turns]. Qed.
Lemma ladder_forward_mirror m b : ld_mapping2 m = None -> board7 b -> ladder_forward m (transpose b) = ladder_forward m b.
Proof. intros N B. apply ladder_sum_perm. intros l [->|[-> X]]; [now apply mapping1_mirror|congruence]. Qed.

(** ** What can be exported *)
Lemma round_half x : (Qz (2 * round_q x - 1) <= x * Qz 2)%Qc /\ (x * Qz 2 <= Qz (2 * round_q x + 1))%Qc.
Proof.
  unfold Qcle. rewrite !this_Qz. unfold Qcmult, Q2Qc. cbn [this]. rewrite Qred_correct, this_Qz. unfold round_q. destruct (this x) as [n d]. cbn [Qnum Qden].
  pose proof (@around_near n (Z.pos d) ltac:(lia)) as A. unfold Qle, Qmult. cbn [Qnum Qden]. set (r := around n (Z.pos d)) in *. clearbody r. split; nia.
Qed.
(** Ties go to the even integer: -128.5 is stored as -128, 127.5 would be 128. *)
Lemma stored_exactly w : (-128 <= round_q (w * Qz 256)%Qc <= 127) <-> (Q2Qc (-257 # 512) <= w)%Qc /\ (w < Q2Qc (255 # 512))%Qc.
Proof.
  assert (L : (Q2Qc (-257 # 512) * Qz 256)%Qc = (Qz (-257) / Qz 2)%Qc) by (apply Qc_is_canon; vm_compute; reflexivity).
  assert (U : (Q2Qc (255 # 512) * Qz 256)%Qc = (Qz 255 / Qz 2)%Qc) by (apply Qc_is_canon; vm_compute; reflexivity).
  assert (P : forall x y, (x <= y)%Qc <-> (x * Qz 256 <= y * Qz 256)%Qc) by (intros; apply scale_le; lia).
  assert (P2 : forall x y, (x <= y)%Qc <-> (x * Qz 2 <= y * Qz 2)%Qc) by (intros; apply scale_le; lia).
  destruct (round_half (w * Qz 256)%Qc) as [H1 H2]. set (r := round_q (w * Qz 256)%Qc) in *. split; intros [A B].
  - split.
    + apply P. rewrite L. apply P2. rewrite over_mul by lia. apply Qcle_trans with (Qz (2 * r - 1)); [apply Qz_le; lia|exact H1].
    + apply Qcnot_le_lt. intros C. apply P in C. rewrite U in C. apply round_mono in C. assert (E : round_q (Qz 255 / Qz 2)%Qc = 128) by (vm_compute; reflexivity). rewrite E in C. fold r in C. lia.
  - split.
    + apply P in A. rewrite L in A. apply round_mono in A. assert (E : round_q (Qz (-257) / Qz 2)%Qc = -128) by (vm_compute; reflexivity). rewrite E in A. exact A.
    + destruct (Z_le_gt_dec r 127) as [C|C]; [exact C|exfalso]. apply (Qclt_not_le _ _ B). apply P. rewrite U. apply P2. rewrite over_mul by lia. apply Qcle_trans with (Qz (2 * r - 1)); [apply Qz_le; lia|exact H1].
Qed.
Definition storable (l : linear) : Prop := Forall (Forall (fun w => (Q2Qc (-257 # 512) <= w)%Qc /\ (w < Q2Qc (255 # 512))%Qc)) (weight l).
Lemma export_square_spec nd l1 l2 l3 : (storable l1 /\ exists Ls, export_square_value nd 256 128 [l1; l2; l3] = Ok Ls /\ List.length Ls = 3%nat) \/ (~ storable l1 /\ export_square_value nd 256 128 [l1; l2; l3] = Err AssertionError).
Proof.
  unfold export_square_value. cbv zeta. destruct (forallb _ _) eqn:E.
  - left. split; [|eexists; split; reflexivity]. unfold storable. apply Forall_concat. rewrite forallb_forall in E. apply Forall_forall. intros w W. apply stored_exactly.
    assert (I : List.In (round_q (w * Qz 256)%Qc) (map (fun x => round_q (x * Qz 256)%Qc) (List.concat (weight l1)))) by (apply in_map_iff; eauto). apply E in I. lia.
  - right. split; [|reflexivity]. intros S. assert (T : forallb (fun z => (-128 <=? z) && (z <=? 127)) (map (fun x => round_q (x * Qz 256)%Qc) (List.concat (weight l1))) = true); [|congruence].
    apply forallb_forall. intros z I. apply in_map_iff in I. destruct I as (w & <- & W). apply Forall_concat in S. rewrite Forall_forall in S. apply S in W. apply stored_exactly in W. lia.
Qed.

(** ** Serializers *)
Lemma v4_exportable batch m l1 l2 l3 : v4_linears m = [l1; l2; l3] -> (storable l1 -> exists bufs, serialize_v4 256 128 batch m = Ok bufs) /\ (~ storable l1 -> serialize_v4 256 128 batch m = Err AssertionError).
Proof.
  intros E. unfold serialize_v4. cbv zeta. rewrite E. destruct (export_square_spec (v4_no_draw m) l1 l2 l3) as [(S & Ls & X & _)|(S & X)]; rewrite X; split; intros H; try contradiction; [eexists; reflexivity|reflexivity].
Qed.
Lemma v2_exportable h batch m l1 l2 l3 : 0 < batch -> v2_linears m = [l1; l2; l3] -> (forall t, List.length (v2_mapping4x4 m t) = (2 * h)%nat) ->
  (storable l1 -> exists bufs, serialize_v2 256 128 batch m = Ok bufs) /\ (~ storable l1 -> serialize_v2 256 128 batch m = Err AssertionError).
Proof.
  intros HB E M. unfold serialize_v2. cbv zeta. rewrite E. destruct (export_square_spec (v2_no_draw m) l1 l2 l3) as [(S & Ls & X & _)|(S & X)]; rewrite X; split; intros H; try contradiction; [|reflexivity].
  change (3 ^ 16) with N16. rewrite export_rows_all by (try exact N16_pos; exact HB).
  set (row := fun (_ : nat) i => table_row (v2_int4 m) (v2_mapping4x4 m (base3_input 4 4 i))).
  assert (W : write_table (v2_int4 m) (tables row 1 N16) = Ok (List.concat (tables (fun j i => stored (v2_int4 m) (row j i)) 1 N16))).
  { apply (@write_table_ok _ h); [exact N16_pos|intros; unfold row; now rewrite table_row_length|]. intros I4 j i. pose proof (row_ints (v2_int4 m) (v2_mapping4x4 m (base3_input 4 4 i))) as R. rewrite I4 in R. unfold row. rewrite I4. exact R. }
  unfold row at 1 in W. rewrite one_table in W. rewrite W. cbn [bind]. eexists. reflexivity.
Qed.
Lemma v3_exportable h batch m l1 l2 l3 : 0 < batch -> v3_linears m = [l1; l2; l3] -> (forall j t, List.length (v3_mapping m j t) = (2 * h)%nat) ->
  (storable l1 -> exists bufs, serialize_v3 256 128 batch m = Ok bufs) /\ (~ storable l1 -> serialize_v3 256 128 batch m = Err AssertionError).
Proof.
  intros HB E M. unfold serialize_v3. cbv zeta. rewrite E. destruct (export_square_spec (v3_no_draw m) l1 l2 l3) as [(S & Ls & X & _)|(S & X)]; rewrite X; split; intros H; try contradiction; [|reflexivity].
  cbn [bind]. change (3 ^ 12) with N12. destruct (v3_int4 m) eqn:I4; [|eexists; reflexivity]. cbn [mapM].
  assert (W : forall j, exists bs, write_table true (export_rows batch N12 (fun i => table_row true (v3_mapping m j (base3_input 3 4 i)))) = Ok bs).
  { intros j. rewrite export_rows_all by (try exact N12_pos; exact HB). eexists.
    pose proof (@write_table_ok true h (fun (_ : nat) i => table_row true (v3_mapping m j (base3_input 3 4 i))) 1 N12 N12_pos ltac:(intros; cbv beta; rewrite table_row_length; apply M) ltac:(intros; exact (row_ints true _))) as W. rewrite one_table in W. exact W. }
  destruct (W 0%nat) as [b0 ->]. destruct (W 1%nat) as [b1 ->]. destruct (W 2%nat) as [b2 ->]. cbn [bind]. eexists. reflexivity.
Qed.

(** ** Exported files are bytes *)
Lemma mod_byte z : is_byte (z mod 256). Proof. pose proof (Z.mod_pos_bound z 256). unfold is_byte. lia. Qed.
Lemma i1_bytes l : Forall is_byte (i1 l). Proof. apply Forall_map, Forall_forall. intros. apply mod_byte. Qed.
Lemma le_is_bytes n : forall z, Forall is_byte (le_bytes n z). Proof. induction n as [|n IH]; intros z; constructor; [apply mod_byte|apply IH]. Qed.
Lemma i4_bytes l : Forall is_byte (i4 l). Proof. apply Forall_flat_map, Forall_forall. intros. apply le_is_bytes. Qed.
Lemma u2_bytes l : Forall is_byte (u2 l). Proof. apply Forall_flat_map, Forall_forall. intros. apply le_is_bytes. Qed.
Lemma aligned_bytes a b : Forall is_byte b -> Forall is_byte (aligned_write a b).
Proof. intros F. apply Forall_app. split; [exact F|]. apply Forall_forall. intros x I. apply repeat_spec in I. subst. unfold is_byte. lia. Qed.
Lemma layers_bytes Ls : Forall (Forall is_byte) (flat_map write_layer Ls).
Proof. apply Forall_flat_map, Forall_forall. intros l _. constructor; [apply i1_bytes|]. constructor; [apply i4_bytes|constructor]. Qed.
Lemma v4_file_bytes s t batch m bufs : serialize_v4 s t batch m = Ok bufs -> Forall is_byte (List.concat bufs).
Proof.
  intros E. unfold serialize_v4 in E. cbv zeta in E. apply bind_Ok in E. destruct E as (Ls & _ & E). apply Ok_inj in E. subst bufs. apply Forall_concat, Forall_map.
  refine (@Forall_impl _ (Forall is_byte) _ (fun b => @aligned_bytes 32 b) _ _). constructor; [apply i1_bytes|apply layers_bytes].
Qed.
Lemma v4vq_file_bytes s t batch m C cb search bufs : serialize_v4vq s t batch m C cb search = Ok bufs -> Forall is_byte (List.concat bufs).
Proof.
  intros E. unfold serialize_v4vq in E. cbv zeta in E. apply guard_Ok in E. destruct E as [_ E]. apply guard_Ok in E. destruct E as [_ E]. apply bind_Ok in E. destruct E as (Ls & _ & E). apply Ok_inj in E. subst bufs. apply Forall_concat, Forall_map.
  refine (@Forall_impl _ (Forall is_byte) _ (fun b => @aligned_bytes 32 b) _ _). constructor; [apply u2_bytes|]. constructor; [apply i1_bytes|apply layers_bytes].
Qed.
(** No step of a layer's sum leaves 32 bits. *)
Lemma layer_fits s l xs r c ts n : 0 < s <= 256 -> Forall (fun x => (Qz (-1000) <= x)%Qc /\ (x <= Qz 1000)%Qc) (bias l) -> zlen xs <= 65536 -> Forall int8 xs ->
  List.In (r, c) (combine (fst (export_layer s l)) (snd (export_layer s l))) -> Permutation ts (map2 Z.mul r xs) -> - 2 ^ 31 <= c + zsum (firstn n ts) <= 2 ^ 31 - 1.
Proof.
  intros S B N X I P. pose proof (in_combine_l _ _ _ _ I) as I1. pose proof (in_combine_r _ _ _ _ I) as I2. cbn [export_layer fst snd] in I1, I2.
  pose proof (@export_int8 s (weight l)) as W. rewrite Forall_forall in W. apply W in I1.
  pose proof (@export_bias_small s 1000 (bias l) S ltac:(lia) B) as BB. rewrite Forall_forall in BB. apply BB in I2.
  pose proof (@products_fit r xs I1 X ts n P) as Z0. change (2 ^ 31) with 2147483648. nia.
Qed.

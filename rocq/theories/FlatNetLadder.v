(** Facts for C74: FlatLadder7x7NNUEv1 and v2. *)
From Coq Require Import QArith Qcanon Qround.
From Verif Require Import Base BaseFacts Rng FeatureTableStream FlatNet FlatNetSpec FlatNetFacts FlatNetTables FlatNetFile FlatNetWhole FlatNetV4 FlatNetV2.
Set Implicit Arguments. Unset Strict Implicit.
Local Open Scope Z_scope.

(** ** The mapping sees only the cells on and below the diagonal *)
Definition agree (p p' : plane vec) : Prop := forall y x, (x <= y)%nat -> at_ p y x = at_ p' y x.
Lemma dotq_zero (r v : vec) : dotq (map (fun _ => 0%Qc) r) v = 0%Qc.
Proof. unfold dotq. revert v. induction r as [|a r IH]; intros [|x v]; cbn; try reflexivity. rewrite IH. ring. Qed.
Lemma agree_layer c p p' : agree p p' -> agree (ladder_layer c p) (ladder_layer c p').
Proof.
  intros A y x H. unfold ladder_layer. destruct (lc_w c) as [[w0 w1] w2]. cbn [at_]. apply map2_ext. intros [[r0 r1] r2] b.
  rewrite !dotq_zero, (A y x), (A (y + 1)%nat x), (A (y + 1)%nat (x + 1)%nat) by lia. reflexivity.
Qed.
Lemma agree_pointwise f p p' : agree p p' -> agree (pointwise f p) (pointwise f p').
Proof. intros A y x H. cbn. now rewrite A. Qed.
Lemma run_mapping_ext m t t' : agree (channels t) (channels t') -> run_mapping m t = run_mapping m t'.
Proof.
  unfold run_mapping. generalize (channels t) (channels t'). induction (lm_convs m) as [|[c f] l IH]; intros p p' A; cbn [fold_left]; [apply A; lia|].
  apply IH. cbn [fst snd]. now apply agree_pointwise, agree_layer.
Qed.

(** ** Digits *)
Lemma code_zero l : Forall cell l -> code l = 0 -> l = repeat 0 (List.length l).
Proof.
  induction 1 as [|c l C F IH]; intros E; [reflexivity|]. cbn [code] in E. pose proof (code_range F) as R. unfold cell in C.
  assert (c = 0) by lia. subst c. cbn [List.length repeat]. f_equal. apply IH. lia.
Qed.
Lemma digits_code l : Forall cell l -> l <> [] -> forall fuel, code l < Z.of_nat fuel -> exists k, l = digits fuel (code l) ++ repeat 0 k.
Proof.
  induction 1 as [|c l C F IH]; intros N fuel H; [now destruct N|]. cbn [code] in *. unfold cell in C. pose proof (code_range F) as R.
  destruct fuel as [|n]; [lia|]. cbn [digits]. cbv zeta.
  assert (Q : (c + 3 * code l) / 3 = code l) by lia. assert (M : (c + 3 * code l) mod 3 = c) by lia. rewrite Q, M.
  destruct (Z.eqb_spec (code l) 0) as [E|E].
  - exists (List.length l). cbn [app]. f_equal. now apply code_zero.
  - destruct (IH ltac:(intros ->; now apply E) n ltac:(lia)) as [k K]. exists k. cbn [app]. f_equal. exact K.
Qed.
Lemma fold_zeros n (chunk : list Z) : fold_left (fun c _ => 0 :: c) (seq 0 n) chunk = repeat 0 n ++ chunk.
Proof.
  generalize 0%nat. revert chunk. induction n as [|n IH]; intros chunk o; [reflexivity|]. cbn [seq fold_left]. rewrite IH.
  change (0 :: chunk) with ([0] ++ chunk). rewrite app_assoc. f_equal. rewrite <- repeat_cons. reflexivity.
Qed.
Lemma rev_repeat0 n : rev (repeat 0 n) = repeat 0 n.
Proof. induction n as [|n IH]; [reflexivity|]. cbn [repeat rev]. rewrite IH. symmetry. apply repeat_cons. Qed.
Lemma index_chunk l : Forall cell l -> List.length l = 10%nat -> index_to_ladder_chunk (code (rev l)) = l.
Proof.
  intros F L. unfold index_to_ladder_chunk. cbv zeta. rewrite fold_zeros.
  assert (FR : Forall cell (rev l)) by now apply Forall_rev. assert (NE : rev l <> []) by (intros E; apply (f_equal (@List.length Z)) in E; rewrite rev_length, L in E; discriminate).
  pose proof (code_range FR) as R. destruct (@digits_code (rev l) FR NE (Z.to_nat (code (rev l)) + 1) ltac:(lia)) as [k K].
  set (d := digits (Z.to_nat (code (rev l)) + 1) (code (rev l))) in *. clearbody d.
  assert (KL : (List.length d + k = 10)%nat) by (apply (f_equal (@List.length Z)) in K; rewrite rev_length, app_length, repeat_length in K; lia).
  rewrite rev_length. replace (10 - List.length d)%nat with k by lia. rewrite <- (rev_involutive l), K, rev_app_distr. now rewrite rev_repeat0.
Qed.

(** ** The planes written from the digits *)
Definition spot (k : nat) : nat * nat := (nth k lower_triangle_index 0 / 4, nth k lower_triangle_index 0 mod 4)%nat.
Lemma spot_inj n k : (n < 10)%nat -> (k < 10)%nat -> spot n = spot k -> n = k.
Proof.
  intros N K E. do 10 (destruct n as [|n]; [do 10 (destruct k as [|k]; [first [reflexivity|discriminate E]|]); lia|]). lia.
Qed.
Lemma ladder_writes chunk c k n : Forall cell chunk -> (c < 2)%nat -> (k < 10)%nat -> (n <= 10)%nat ->
  fold_left (fun t i =>
    let j := nth i lower_triangle_index 0%nat in
    let v := nth i chunk 0 in
    if 0 <? v then write3 t (Z.to_nat (v - 1)) (j / 4) (j mod 4) 1 else t) (seq 0 n) (fun _ _ _ => 0) c (fst (spot k)) (snd (spot k)) =
  if (k <? n)%nat then (if nth k chunk 0 =? Z.of_nat (S c) then 1 else 0) else 0.
Proof.
  intros F C K. induction n as [|n IH]; intros N; [reflexivity|]. rewrite seq_S, fold_left_app. cbn [fold_left Nat.add]. cbv zeta in IH |- *.
  assert (V : cell (nth n chunk 0)). { destruct (Nat.ltb_spec n (List.length chunk)) as [L|L]; [now apply Forall_nth_in|rewrite nth_overflow by exact L; unfold cell; lia]. }
  destruct (Nat.eq_dec k n) as [->|NE].
  - replace (n <? S n)%nat with true by (symmetry; apply Nat.ltb_lt; lia). unfold cell in V. destruct (Z.ltb_spec 0 (nth n chunk 0)) as [P|P].
    + unfold write3. cbn [spot fst snd]. rewrite !Nat.eqb_refl, !andb_true_r. replace (n <? n)%nat with false in IH by (symmetry; apply Nat.ltb_ge; lia).
      destruct (Nat.eqb_spec c (Z.to_nat (nth n chunk 0 - 1))) as [E|E].
      * replace (nth n chunk 0 =? Z.of_nat (S c)) with true by lia. reflexivity.
      * replace (nth n chunk 0 =? Z.of_nat (S c)) with false by lia. exact (IH ltac:(lia)).
    + rewrite IH by lia. replace (n <? n)%nat with false by (symmetry; apply Nat.ltb_ge; lia). replace (nth n chunk 0 =? Z.of_nat (S c)) with false by lia. reflexivity.
  - assert (B : (k <? S n)%nat = (k <? n)%nat) by (destruct (Nat.ltb_spec k n); destruct (Nat.ltb_spec k (S n)); try reflexivity; lia). rewrite B, <- IH by lia.
    destruct (0 <? nth n chunk 0); [|reflexivity]. unfold write3 at 1.
    assert (X : ((fst (spot k) =? nth n lower_triangle_index 0 / 4) && (snd (spot k) =? nth n lower_triangle_index 0 mod 4))%nat = false).
    { destruct (Nat.eqb_spec (fst (spot k)) (nth n lower_triangle_index 0 / 4)%nat) as [Y|Y]; [|reflexivity]. destruct (Nat.eqb_spec (snd (spot k)) (nth n lower_triangle_index 0 mod 4)%nat) as [Z0|Z0]; [|reflexivity].
      exfalso. apply NE. apply spot_inj; [exact K|lia|]. unfold spot at 2. rewrite <- Y, <- Z0. now destruct (spot k). }
    rewrite <- andb_assoc, X, andb_false_r. reflexivity.
Qed.
Lemma triangle_length p : List.length (triangle p) = 10%nat. Proof. reflexivity. Qed.
Lemma triangle_nth p k : (k < 10)%nat -> nth k (triangle p) 0 = at_ p (fst (spot k)) (snd (spot k)).
Proof. intros K. do 10 (destruct k as [|k]; [reflexivity|]). lia. Qed.
Lemma triangle_cells p : height p = 4%nat -> width p = 4%nat -> all_cells p -> Forall cell (triangle p).
Proof.
  intros H W A. unfold triangle. apply Forall_forall. intros z I. apply in_flat_map in I. destruct I as (y & Y & I). apply in_map_iff in I. destruct I as (x & <- & X). apply in_seq in Y, X. apply A; lia.
Qed.
Lemma spot_of y x : (x <= y)%nat -> (y < 4)%nat -> exists k, (k < 10)%nat /\ spot k = (y, x).
Proof.
  intros X Y. assert (E : exists k, (k <? 10)%nat && ((fst (spot k) =? y) && (snd (spot k) =? x))%nat = true).
  { do 4 (destruct y as [|y]; [do 4 (destruct x as [|x]; [first [lia|exists 0%nat; reflexivity|exists 1%nat; reflexivity|exists 2%nat; reflexivity|exists 3%nat; reflexivity|exists 4%nat; reflexivity|exists 5%nat; reflexivity|exists 6%nat; reflexivity|exists 7%nat; reflexivity|exists 8%nat; reflexivity|exists 9%nat; reflexivity]|]); lia|]). lia. }
  destruct E as [k E]. apply andb_true_iff in E. destruct E as [K E]. apply andb_true_iff in E. destruct E as [E1 E2]. apply Nat.ltb_lt in K. apply Nat.eqb_eq in E1, E2. exists k. split; [exact K|]. destruct (spot k). cbn in *. congruence.
Qed.
Lemma grid_nth (f : nat -> nat -> Z) y x : (y < 4)%nat -> (x < 4)%nat -> nth x (nth y (map (fun y => map (f y) (seq 0 4)) (seq 0 4)) []) 0 = f y x.
Proof. intros Y X. do 4 (destruct y as [|y]; [do 4 (destruct x as [|x]; [reflexivity|]); lia|]). lia. Qed.
Lemma grid_out (f : nat -> nat -> Z) y x : (4 <= y)%nat -> nth x (nth y (map (fun y => map (f y) (seq 0 4)) (seq 0 4)) []) 0 = 0.
Proof. intros Y. rewrite (nth_overflow (map _ _)) by (rewrite map_length, seq_length; exact Y). now destruct x. Qed.
Lemma ladder_planes p : height p = 4%nat -> width p = 4%nat -> all_cells p ->
  agree (channels (make_ladder_mapping_input (triangle p))) (channels (map (@rows Z) [stones 1 p; stones 2 p])).
Proof.
  intros H W A y x X. pose proof (triangle_cells H W A) as F. unfold channels. cbn [at_]. unfold make_ladder_mapping_input. cbv zeta. cbn [map].
  unfold rows. cbn [height width stones]. rewrite H, W. unfold stones. cbn [at_].
  destruct (Nat.ltb_spec y 4) as [Y|Y].
  - destruct (spot_of X Y) as (k & K & S). rewrite !grid_nth by lia.
    pose proof (fun c CC => @ladder_writes (triangle p) c k 10 F CC K (le_n 10)) as LW. cbv zeta in LW. rewrite S in LW. cbn [fst snd] in LW.
    replace (k <? 10)%nat with true in LW by (symmetry; apply Nat.ltb_lt; lia). rewrite triangle_nth in LW by exact K. rewrite S in LW. cbn [fst snd] in LW.
    rewrite (LW 0%nat) by lia. rewrite (LW 1%nat) by lia. reflexivity.
  - rewrite !grid_out by exact Y. reflexivity.
Qed.
Definition ladder_size (q : pattern) : Prop := within q /\ forall b : plane Z, height (ladder_chunk q b) = 4%nat /\ width (ladder_chunk q b) = 4%nat.
Lemma mapping1_sizes : Forall ladder_size mapping1_index.
Proof. repeat (constructor; [split; [split; cbn; lia|intros; split; reflexivity]|]); constructor. Qed.
Lemma mapping2_sizes : Forall ladder_size mapping2_index.
Proof. repeat (constructor; [split; [split; cbn; lia|intros; split; reflexivity]|]); constructor. Qed.
Definition ladder_code (q : pattern) (b : plane Z) : Z := code (rev (triangle (ladder_chunk q b))).
Lemma ladder_entry m q b : ladder_size q -> board7 b -> run_mapping m (make_ladder_mapping_input (index_to_ladder_chunk (ladder_code q b))) = run_mapping m (chunk_input (@ladder_chunk Z) q b).
Proof.
  intros (I & D) B. destruct (D b) as [H W]. pose proof (ladder_cells B I) as A. unfold ladder_code. rewrite index_chunk by (try reflexivity; now apply triangle_cells).
  apply run_mapping_ext. unfold chunk_input, input_plane. cbn [map]. rewrite !ladder_stones. now apply ladder_planes.
Qed.
Definition N10 : Z := 3 ^ 10.
Lemma N10_pos : 0 <= N10. Proof. unfold N10. lia. Qed.
Lemma ladder_code_range q b : ladder_size q -> board7 b -> 0 <= ladder_code q b < N10.
Proof.
  intros (I & D) B. destruct (D b) as [H W]. pose proof (code_range (Forall_rev (triangle_cells H W (ladder_cells B I)))) as R. rewrite rev_length, triangle_length in R. exact R.
Qed.

(** ** The value head: eight buffers *)
Lemma export_ladder_inv nd ls Ls : export_ladder_value nd 128 128 ls = Ok Ls -> exists l1 l2 l3 l4, ls = [l1; l2; l3; l4] /\ Ls = [export_layer 128 l1; export_layer 128 l2; export_layer 128 l3; export_layer 128 (pad_layer nd l4)].
Proof.
  intros E. destruct ls as [|l1 [|l2 [|l3 [|l4 [|l5 ls]]]]]; try discriminate. cbn [export_ladder_value] in E. do 4 (apply guard_Ok in E; destruct E as [_ E]). cbv zeta in E. apply Ok_inj in E. subst Ls.
  do 4 eexists. split; reflexivity.
Qed.
Lemma ladder_head V nd ls Ls file offs x xs : ladder_shape V nd ls -> export_ladder_value nd 128 128 ls = Ok Ls ->
  Forall2 (located file) offs (flat_map write_layer Ls) -> List.length xs = V -> xs = map (fun v => floor_q (v * Qz 128)%Qc) x ->
  same_value nd (value_linears 0%Qc ls x)
    (value_head file 0 [(nth 0 offs 0, nth 1 offs 0, 32%nat, 128); (nth 2 offs 0, nth 3 offs 0, 32%nat, 128); (nth 4 offs 0, nth 5 offs 0, 32%nat, 128); (nth 6 offs 0, nth 7 offs 0, 4%nat, 128)] xs).
Proof.
  intros (l1 & l2 & l3 & l4 & -> & S1 & S2 & S3 & S4 & W1 & W2 & W3 & W4) E L X XS. apply export_ladder_inv in E. destruct E as (k1 & k2 & k3 & k4 & EQ & ->). injection EQ as <- <- <- <-.
  cbn [flat_map write_layer app] in L. repeat match goal with H : Forall2 _ _ (_ :: _) |- _ => inversion H; subst; clear H end. match goal with H : Forall2 _ _ [] |- _ => inversion H; subst; clear H end. cbn [nth].
  rewrite zero_eq.
  pose proof (@same_value_head nd 0 [l1; l2; l3] l4 x _ ltac:(lia) ltac:(repeat (constructor; [lia|]); constructor) W4 S4 eq_refl) as VV. cbn [app map] in VV.
  rewrite (@value_head_ok _ (List.length (map (fun v => floor_q (v * Qz 128)%Qc) x)) _ [(128, export_layer 128 l1); (128, export_layer 128 l2); (128, export_layer 128 l3); (128, export_layer 128 (pad_layer nd l4))]); [|..|reflexivity].
  - unfold exported in VV. rewrite W1, W2, W3 in VV. exact VV.
  - rewrite map_length, <- (map_length (fun v => floor_q (v * Qz 128)%Qc) x). do 3 (apply layer_at_exported; try assumption). apply layer_at_pad; assumption.
Qed.
Lemma ladder_bytes V nd ls Ls : ladder_shape V nd ls -> export_ladder_value nd 128 128 ls = Ok Ls ->
  map (@zlen Z) (flat_map write_layer Ls) = [32 * Z.of_nat V; 128; 1024; 128; 1024; 128; 128; 16].
Proof.
  intros (l1 & l2 & l3 & l4 & -> & S1 & S2 & S3 & S4 & _) E. apply export_ladder_inv in E. destruct E as (k1 & k2 & k3 & k4 & EQ & ->). injection EQ as <- <- <- <-.
  set (e1 := export_layer 128 l1). set (e2 := export_layer 128 l2). set (e3 := export_layer 128 l3). set (e4 := export_layer 128 (pad_layer nd l4)).
  assert (F : flat_map write_layer [e1; e2; e3; e4] = write_layer e1 ++ write_layer e2 ++ write_layer e3 ++ write_layer e4) by (cbn [flat_map]; now rewrite app_nil_r). rewrite F, !map_app. unfold e1, e2, e3, e4.
  exact (f_equal2 (@app Z) (layer_bytes 128 S1) (f_equal2 (@app Z) (layer_bytes 128 S2) (f_equal2 (@app Z) (layer_bytes 128 S3) (layer_bytes 128 (pad_shaped S4))))).
Qed.

(** ** The whole file *)
Definition ladder_map (m : ladder) (j : nat) : ladder_mapping := match j with O => ld_mapping1 m | _ => match ld_mapping2 m with Some m2 => m2 | None => ld_mapping1 m end end.
Definition ladder_tables (m : ladder) : nat := match ld_mapping2 m with Some _ => 2 | None => 1 end.
Definition ladder_row (m : ladder) (j : nat) (i : Z) : list Z := table_row false (run_mapping (ladder_map m j) (make_ladder_mapping_input (index_to_ladder_chunk i))).
Lemma serialize_ladder_file m bufs : serialize_ladder 128 128 m = Ok bufs -> exists Ls, export_ladder_value (ld_no_draw m) 128 128 (ld_linears m) = Ok Ls /\
  List.concat bufs = List.concat (i1 (List.concat (tables (ladder_row m) (ladder_tables m) N10)) :: flat_map write_layer Ls).
Proof.
  intros E. unfold serialize_ladder in E. apply bind_Ok in E. destruct E as (Ls & EL & E). apply Ok_inj in E. subst bufs. exists Ls. split; [exact EL|].
  unfold tables, ladder_tables, ladder_row, ladder_map, ladder_table. change (3 ^ 10) with N10. destruct (ld_mapping2 m) as [m2|]; cbn [seq map List.concat app].
  - rewrite app_nil_r. unfold i1. rewrite concat_app, map_app, <- app_assoc. reflexivity.
  - rewrite app_nil_r. reflexivity.
Qed.
Lemma map_skipn A B (f : A -> B) n l : map f (skipn n l) = skipn n (map f l).
Proof. revert n. induction l as [|a l IH]; intros [|n]; try reflexivity. cbn. apply IH. Qed.
Lemma ladder_features_ints m j l b F : Forall ladder_size l -> board7 b -> (forall t, List.length (run_mapping (ladder_map m j) t) = F) ->
  ladder_features (ladder_map m j) l b = map (map (fun z => Qz z / Qz 128)%Qc) (map (fun q => ladder_row m j (ladder_code q b)) l).
Proof.
  intros S B _. unfold ladder_features. rewrite map_map. apply map_ext_in. intros q Q. rewrite Forall_forall in S. unfold ladder_row. rewrite (ladder_entry (ladder_map m j) (S q Q) B), table_row_q, map_map.
  apply map_ext. intros x. apply fq8_clamp.
Qed.
Lemma ladder_exact P V m bufs b : ((P + V) mod 4 = 0)%nat -> ld_dim_policy m = P ->
  (forall mp t, mp = ld_mapping1 m \/ ld_mapping2 m = Some mp -> List.length (run_mapping mp t) = (P + V)%nat) ->
  ladder_shape V (ld_no_draw m) (ld_linears m) -> board7 b -> serialize_ladder 128 128 m = Ok bufs ->
  same_value (ld_no_draw m) (ladder_forward m b) (ladder_engine (ladder_tables m) P V (List.concat bufs) b).
Proof.
  intros D DP ML SS B7 E. apply serialize_ladder_file in E. destruct E as (Ls & EL & EB). rewrite EB. clear EB.
  assert (ML' : forall j t, List.length (run_mapping (ladder_map m j) t) = (P + V)%nat).
  { intros j t. unfold ladder_map. destruct j as [|j]; [apply ML; now left|]. destruct (ld_mapping2 m) as [m2|] eqn:E2; apply ML; [now right|now left]. }
  assert (RF : forall j i, List.length (ladder_row m j i) = (P + V)%nat) by (intros; unfold ladder_row; now rewrite table_row_length).
  assert (RB : forall j i, Forall int8 (ladder_row m j i)) by (intros; exact (row_ints false _)).
  set (T := ladder_tables m) in *. set (bufs' := i1 (List.concat (tables (ladder_row m) T N10)) :: flat_map write_layer Ls).
  assert (LOC : Forall2 (located (List.concat bufs')) (offsets 0 (ladder_struct (Z.of_nat T) (Z.of_nat P) (Z.of_nat V))) bufs').
  { apply (@packed_located (ladder_struct (Z.of_nat T) (Z.of_nat P) (Z.of_nat V)) bufs') with (pre := []).
    - apply sizes_packed. unfold bufs'. cbn [map]. rewrite (ladder_bytes SS EL), (table_bytes_len T N10_pos RF). unfold ladder_struct. cbn [map snd]. unfold N10. repeat (f_equal; try lia).
    - unfold ladder_struct. change (zlen (@nil Z)) with 0. cbn [naturally]. change (3 ^ 10) with 59049. apply Nat.mod_divides in D; [|lia]. destruct D as [x D].
      assert (W : Z.of_nat P + Z.of_nat V = 4 * Z.of_nat x) by lia. rewrite W. set (y := Z.of_nat x). set (tt := Z.of_nat T). set (v := Z.of_nat V). clearbody y tt v. clear.
      replace (tt * 59049 * (4 * y)) with (4 * (tt * 59049 * y)) by ring. set (w := tt * 59049 * y). clearbody w. repeat split; try exact I; try apply Z.mod_1_r; lia. }
  cbn [app] in LOC. change (zlen (@nil Z)) with 0 in LOC. set (file := List.concat bufs') in *.
  unfold ladder_engine. unfold offset. cbv zeta. set (offs := offsets 0 (ladder_struct (Z.of_nat T) (Z.of_nat P) (Z.of_nat V))) in *.
  unfold bufs' in LOC. clearbody offs file. destruct (Forall2_head LOC) as (o0 & os & -> & L0 & LS). cbn [nth].
  set (ir := fun j q => ladder_row m j (ladder_code q b)).
  assert (RD : forall j q, (j < T)%nat -> ladder_size q -> map (fun k => int8_at file (o0 + (Z.of_nat j * 3 ^ 10 + code (rev (triangle (ladder_chunk q b)))) * Z.of_nat (P + V) + Z.of_nat k)) (seq 0 (P + V)) = ir j q).
  { intros j q J S. exact (@read_table file o0 (ladder_row m) T N10 (P + V) j (ladder_code q b) N10_pos RF RB L0 (ladder_code_range S B7) J). }
  set (rws := map (ir 0%nat) mapping1_index ++ (if (T =? 2)%nat then map (ir 1%nat) mapping2_index else [])).
  assert (RW : map (fun q => map (fun k => int8_at file (o0 + (Z.of_nat 0 * 3 ^ 10 + code (rev (triangle (ladder_chunk q b)))) * Z.of_nat (P + V) + Z.of_nat k)) (seq 0 (P + V))) mapping1_index ++
     (if (T =? 2)%nat then map (fun q => map (fun k => int8_at file (o0 + (Z.of_nat 1 * 3 ^ 10 + code (rev (triangle (ladder_chunk q b)))) * Z.of_nat (P + V) + Z.of_nat k)) (seq 0 (P + V))) mapping2_index else []) = rws).
  { unfold rws. f_equal.
    - apply map_ext_in. intros q Q. apply RD; [unfold T, ladder_tables; destruct (ld_mapping2 m); lia|]. pose proof mapping1_sizes as S. rewrite Forall_forall in S. now apply S.
    - destruct (Nat.eqb_spec T 2) as [T2|T2]; [|reflexivity]. apply map_ext_in. intros q Q. apply RD; [lia|]. pose proof mapping2_sizes as S. rewrite Forall_forall in S. now apply S. }
  rewrite RW. unfold ladder_forward, ladder_sum. rewrite DP.
  assert (SUM : ladder_features (ld_mapping1 m) mapping1_index b ++ match ld_mapping2 m with Some m2 => ladder_features m2 mapping2_index b | None => [] end = map (map (fun z => Qz z / Qz 128)%Qc) rws).
  { unfold rws. rewrite map_app. f_equal.
    - exact (@ladder_features_ints m 0 mapping1_index b (P + V) mapping1_sizes B7 (ML' 0%nat)).
    - pose proof (@ladder_features_ints m 1 mapping2_index b (P + V) mapping2_sizes B7 (ML' 1%nat)) as G. unfold T, ladder_tables. unfold ladder_map in G. destruct (ld_mapping2 m) as [m2|]; [exact G|reflexivity]. }
  rewrite SUM. rewrite (@vsum_ints 128 (P + V) rws ltac:(lia)).
  - rewrite <- map_skipn. apply (ladder_head SS EL LS); [|now rewrite ints_floor]. rewrite skipn_length. unfold columns. rewrite map_length, seq_length. lia.
  - unfold rws. discriminate.
  - unfold rws. apply Forall_app. split; [apply Forall_map, Forall_forall; intros q _; apply RF|]. destruct (T =? 2)%nat; [apply Forall_map, Forall_forall; intros q _; apply RF|constructor].
Qed.

(** ** What can be exported *)
Lemma floor_ge x n : n <= floor_q x <-> (Qz n <= x)%Qc.
Proof.
  split; intros H.
  - apply Qcle_trans with (Qz (floor_q x)); [now apply Qz_le|]. unfold Qcle. rewrite this_Qz. exact (Qfloor_le (this x)).
  - apply floor_mono in H. now rewrite floor_Qz in H.
Qed.
Lemma floor_lt x n : floor_q x < n <-> (x < Qz n)%Qc.
Proof.
  split; intros H.
  - apply Qcnot_le_lt. intros C. apply floor_ge in C. lia.
  - destruct (Z_lt_le_dec (floor_q x) n) as [L|L]; [exact L|]. apply floor_ge in L. exfalso. now apply (Qclt_not_le _ _ H).
Qed.
Lemma Qcopp_lt x n : (- x < Qz n)%Qc <-> (Qz (- n) < x)%Qc.
Proof.
  assert (E : Qz (- n) = (- Qz n)%Qc) by (apply Qc_is_canon; unfold Qcopp, Q2Qc; cbn [this]; rewrite Qred_correct, !this_Qz; reflexivity). rewrite E.
  assert (G : forall a b, (a < b)%Qc -> (- b < - a)%Qc).
  { intros a c H. apply Qcnot_le_lt. intros C. apply Qcopp_le_compat in C. rewrite !Qcopp_involutive in C. now apply (Qclt_not_le _ _ H). }
  split; intros H; apply G in H; now rewrite ?Qcopp_involutive in H.
Qed.
Lemma trunc_range x : (-128 <=? trunc x) && (trunc x <=? 127) = true <-> (Qz (-129) < x)%Qc /\ (x < Qz 128)%Qc.
Proof.
  unfold trunc. destruct (Qclt_le_dec x 0%Qc) as [N|N].
  - assert (P : 0 <= floor_q (- x)%Qc). { apply floor_ge. rewrite Qz_0. apply Qclt_le_weak in N. apply Qcopp_le_compat in N. exact N. }
    assert (U : (x < Qz 128)%Qc) by (apply Qclt_le_trans with 0%Qc; [exact N|discriminate]).
    pose proof (floor_lt (- x)%Qc 129) as F. rewrite Qcopp_lt in F. change (- (129)) with (-129) in F. set (f := floor_q (- x)%Qc) in *. split.
    + intros H. split; [apply F; lia|exact U].
    + intros [H _]. apply F in H. lia.
  - assert (P : 0 <= floor_q x) by (apply floor_ge; rewrite Qz_0; exact N).
    assert (L : (Qz (-129) < x)%Qc) by (apply Qclt_le_trans with 0%Qc; [reflexivity|exact N]).
    pose proof (floor_lt x 128) as F. set (f := floor_q x) in *. split.
    + intros H. split; [exact L|apply F; lia].
    + intros [_ H]. apply F in H. lia.
Qed.
Definition fits128 (l : linear) : Prop := Forall (Forall (fun w => (Q2Qc (-129 # 128) < w)%Qc /\ (w < 1)%Qc)) (weight l).
Lemma scale_lt s x y : 0 < s -> (x < y)%Qc <-> (x * Qz s < y * Qz s)%Qc.
Proof.
  intros S. split; intros H.
  - apply Qcmult_lt_compat_r; [now apply Qz_pos|exact H].
  - apply Qcnot_le_lt. intros C. apply (proj1 (@scale_le s y x S)) in C. now apply (Qclt_not_le _ _ H).
Qed.
Lemma in_range_spec l : in_range 128 (weight l) = true <-> fits128 l.
Proof.
  assert (A : (Q2Qc (-129 # 128) * Qz 128)%Qc = Qz (-129)) by (apply Qc_is_canon; vm_compute; reflexivity).
  assert (G : forall w, ((Qz (-129) < w * Qz 128)%Qc /\ (w * Qz 128 < Qz 128)%Qc) <-> ((Q2Qc (-129 # 128) < w)%Qc /\ (w < 1)%Qc)).
  { intros w. pose proof (@scale_lt 128 (Q2Qc (-129 # 128)) w ltac:(lia)) as G1. pose proof (@scale_lt 128 w 1%Qc ltac:(lia)) as G2. rewrite Qcmult_1_l in G2. rewrite A in G1. tauto. }
  unfold in_range, fits128. rewrite forallb_forall. split.
  - intros H. apply Forall_concat, Forall_forall. intros w W. apply H in W. apply trunc_range in W. now apply G.
  - intros H w W. apply Forall_concat in H. rewrite Forall_forall in H. apply H in W. apply trunc_range. now apply G.
Qed.
Lemma ladder_exportable m l1 l2 l3 l4 : ld_linears m = [l1; l2; l3; l4] ->
  (Forall fits128 [l1; l2; l3; l4] -> exists bufs, serialize_ladder 128 128 m = Ok bufs) /\ (~ Forall fits128 [l1; l2; l3; l4] -> serialize_ladder 128 128 m = Err AssertionError).
Proof.
  intros E. unfold serialize_ladder. rewrite E. unfold export_ladder_value. split.
  - intros F. inversion F as [|? ? F1 G1]; subst. inversion G1 as [|? ? F2 G2]; subst. inversion G2 as [|? ? F3 G3]; subst. inversion G3 as [|? ? F4 _]; subst.
    apply in_range_spec in F1, F2, F3, F4. rewrite F1, F2, F3, F4. cbn [bind]. eexists. reflexivity.
  - intros N. destruct (in_range 128 (weight l1)) eqn:E1; [|reflexivity]. destruct (in_range 128 (weight l2)) eqn:E2; [|reflexivity]. destruct (in_range 128 (weight l3)) eqn:E3; [|reflexivity].
    destruct (in_range 128 (weight l4)) eqn:E4; [|reflexivity]. exfalso. apply N. repeat (constructor; [now apply in_range_spec|]). constructor.
Qed.

(** Facts for C74-C77: quantised values as integers. *)
From Coq Require Import QArith Qcanon Qround.
From Verif Require Import Base BaseFacts Rng FeatureTable FeatureTableStream FlatNet FlatNetSpec.
Set Implicit Arguments. Unset Strict Implicit.
Local Open Scope Z_scope.

(** ** Integers among the rationals *)
Lemma this_Qz z : this (Qz z) = (z # 1)%Q.
Proof. unfold Qz, Q2Qc. cbn [this]. apply Qred_identity. cbn. apply Z.gcd_1_r. Qed.
Lemma Qz_add a b : (Qz a + Qz b)%Qc = Qz (a + b).
Proof. apply Qc_is_canon. unfold Qcplus, Q2Qc. cbn [this]. rewrite Qred_correct, !this_Qz. unfold Qplus, Qeq. cbn. lia. Qed.
Lemma Qz_mul a b : (Qz a * Qz b)%Qc = Qz (a * b).
Proof. apply Qc_is_canon. unfold Qcmult, Q2Qc. cbn [this]. rewrite Qred_correct, !this_Qz. unfold Qmult, Qeq. cbn. lia. Qed.
Lemma Qz_le a b : (Qz a <= Qz b)%Qc <-> a <= b.
Proof. unfold Qcle. rewrite !this_Qz. unfold Qle. cbn. lia. Qed.
Lemma Qz_lt a b : (Qz a < Qz b)%Qc <-> a < b.
Proof. unfold Qclt. rewrite !this_Qz. unfold Qlt. cbn. lia. Qed.
Lemma Qz_inj a b : Qz a = Qz b -> a = b.
Proof. intros E. apply (f_equal this) in E. rewrite !this_Qz in E. congruence. Qed.
Lemma Qz_0 : Qz 0 = 0%Qc. Proof. apply Qc_is_canon. rewrite this_Qz. reflexivity. Qed.
Lemma Qz_1 : Qz 1 = 1%Qc. Proof. apply Qc_is_canon. rewrite this_Qz. reflexivity. Qed.
Lemma Qz_pos s : 0 < s -> (0 < Qz s)%Qc. Proof. intros. rewrite <- Qz_0. now apply Qz_lt. Qed.
Lemma Qz_nz s : 0 < s -> Qz s <> 0%Qc. Proof. intros H E. rewrite <- Qz_0 in E. apply Qz_inj in E. lia. Qed.
Lemma over_mul s x : 0 < s -> (x / Qz s * Qz s)%Qc = x. Proof. intros H. field. now apply Qz_nz. Qed.
Lemma mul_over s x : 0 < s -> (x * Qz s / Qz s)%Qc = x. Proof. intros H. field. now apply Qz_nz. Qed.
Lemma over_frac a s : 0 < s -> (Qz a / Qz s)%Qc = Q2Qc (a # Z.to_pos s).
Proof.
  intros H. assert (E : (Q2Qc (a # Z.to_pos s) * Qz s)%Qc = Qz a).
  { apply Qc_is_canon. unfold Qcmult, Q2Qc. cbn [this]. rewrite !Qred_correct, !this_Qz. unfold Qmult, Qeq. cbn. rewrite ?Pos.mul_1_r, ?Z.mul_1_r. pose proof (Z2Pos.id s H). nia. }
  rewrite <- E. now apply mul_over.
Qed.

(** ** Rounding *)
Lemma round_Qz z : round_q (Qz z) = z. Proof. unfold round_q. rewrite this_Qz. cbn [Qnum Qden]. apply around_whole. Qed.
Lemma floor_Qz z : floor_q (Qz z) = z. Proof. unfold floor_q. rewrite this_Qz. cbn. apply Z.div_1_r. Qed.
Lemma round_mono x y : (x <= y)%Qc -> round_q x <= round_q y.
Proof. intros H. unfold round_q. apply around_mono; [lia..|exact H]. Qed.
Lemma floor_mono x y : (x <= y)%Qc -> floor_q x <= floor_q y.
Proof. intros H. apply Qfloor_resp_le. exact H. Qed.
Lemma floor_over a s : 0 < s -> floor_q (Qz a / Qz s)%Qc = a / s.
Proof.
  intros H. rewrite over_frac by exact H. unfold floor_q, Q2Qc. cbn [this]. rewrite (Qfloor_comp _ (a # Z.to_pos s)) by apply Qred_correct.
  cbn. now rewrite Z2Pos.id by lia.
Qed.
Definition rnd (floor : bool) (x : Qc) : Z := if floor then floor_q x else round_q x.
Lemma rnd_Qz f z : rnd f (Qz z) = z. Proof. destruct f; [apply floor_Qz|apply round_Qz]. Qed.
Lemma rnd_mono f x y : (x <= y)%Qc -> rnd f x <= rnd f y. Proof. destruct f; [apply floor_mono|apply round_mono]. Qed.

(** ** Clamping before and after rounding *)
Lemma scale_le s x y : 0 < s -> (x <= y)%Qc <-> (x * Qz s <= y * Qz s)%Qc.
Proof.
  intros H. split; [intros; apply Qcmult_le_compat_r; [assumption|apply Qclt_le_weak, Qz_pos, H]|].
  intros L. destruct (Qclt_le_dec y x) as [C|C]; [exfalso|exact C]. apply (Qcmult_lt_compat_r _ _ (Qz s)) in C; [|now apply Qz_pos]. now apply (Qclt_not_le _ _ C).
Qed.
Lemma clamp_cases lo hi x : (lo <= hi)%Qc -> ((x <= lo)%Qc /\ clamp lo hi x = lo) \/ ((lo <= x)%Qc /\ (x <= hi)%Qc /\ clamp lo hi x = x) \/ ((hi <= x)%Qc /\ clamp lo hi x = hi).
Proof.
  intros H. unfold clamp. destruct (Qclt_le_dec x lo) as [L|L].
  - left. split; [now apply Qclt_le_weak|]. destruct (Qclt_le_dec hi lo) as [C|C]; [|reflexivity]. exfalso. now apply (Qclt_not_le _ _ C).
  - right. destruct (Qclt_le_dec hi x) as [C|C]; [right; split; [now apply Qclt_le_weak|reflexivity]|left; auto].
Qed.
Lemma rnd_clamp f s a b x : 0 < s -> a <= b -> rnd f (clamp (Qz a / Qz s) (Qz b / Qz s) x * Qz s)%Qc = clip a b (rnd f (x * Qz s)%Qc).
Proof.
  intros S AB. assert (LH : (Qz a / Qz s <= Qz b / Qz s)%Qc).
  { apply (proj2 (@scale_le s (Qz a / Qz s)%Qc (Qz b / Qz s)%Qc S)). rewrite !over_mul by exact S. now apply Qz_le. }
  destruct (clamp_cases x LH) as [[L E]|[(L & L2 & E)|[L E]]]; rewrite E; unfold clip; rewrite ?over_mul, ?rnd_Qz by exact S.
  - apply (proj1 (@scale_le s x (Qz a / Qz s)%Qc S)) in L. rewrite over_mul in L by exact S. apply (@rnd_mono f) in L. rewrite rnd_Qz in L. lia.
  - apply (proj1 (@scale_le s (Qz a / Qz s)%Qc x S)) in L. apply (proj1 (@scale_le s x (Qz b / Qz s)%Qc S)) in L2. rewrite over_mul in L, L2 by exact S.
    apply (@rnd_mono f) in L, L2. rewrite rnd_Qz in L, L2. lia.
  - apply (proj1 (@scale_le s (Qz b / Qz s)%Qc x S)) in L. rewrite over_mul in L by exact S. apply (@rnd_mono f) in L. rewrite rnd_Qz in L. lia.
Qed.
Lemma fake_quant_eq s bits f x : 0 < s -> 1 <= bits ->
  fake_quant s bits f x = (Qz (clip (- 2 ^ (bits - 1)) (2 ^ (bits - 1) - 1) (rnd f (x * Qz s)%Qc)) / Qz s)%Qc.
Proof.
  intros S B. unfold fake_quant. cbv zeta. assert (P : 0 < 2 ^ (bits - 1)) by (apply Z.pow_pos_nonneg; lia).
  f_equal. f_equal. change (rnd f (clamp (Qz (- 2 ^ (bits - 1)) / Qz s) (Qz (2 ^ (bits - 1) - 1) / Qz s) x * Qz s)%Qc = clip (- 2 ^ (bits - 1)) (2 ^ (bits - 1) - 1) (rnd f (x * Qz s)%Qc)).
  apply rnd_clamp; lia.
Qed.
Lemma clip_in lo hi z : lo <= hi -> lo <= clip lo hi z <= hi. Proof. unfold clip. lia. Qed.
Lemma clip_id lo hi z : lo <= z <= hi -> clip lo hi z = z. Proof. unfold clip. lia. Qed.
Lemma clip_clip lo hi lo' hi' z : lo' <= lo -> lo <= hi -> hi <= hi' -> clip lo' hi' (clip lo hi z) = clip lo hi z. Proof. unfold clip. lia. Qed.

(** ** Layers *)
Definition dotz (x y : list Z) : Z := zsum (map2 Z.mul x y).
Lemma zsum_cons a l : zsum (a :: l) = a + zsum l. Proof. reflexivity. Qed.
Lemma dotq_scaled s t xs ws : 0 < s -> 0 < t -> dotq (map (fun z => Qz z / Qz s)%Qc xs) (map (fun z => Qz z / Qz t)%Qc ws) = (Qz (dotz xs ws) / Qz (t * s))%Qc.
Proof.
  intros S T. assert (N : Qz (t * s) <> 0%Qc) by (apply Qz_nz; nia). unfold dotq, dotz. revert ws. induction xs as [|a xs IH]; intros ws; [cbn; rewrite Qz_0; now field|].
  destruct ws as [|w ws]; [cbn; rewrite Qz_0; now field|]. cbn [map map2 fold_right]. rewrite IH, zsum_cons, <- !Qz_add, <- !Qz_mul.
  field. split; apply Qz_nz; assumption.
Qed.
Definition int_layer (l : layer_ints) (xs : list Z) : list Z := map2 (fun row b => dotz xs row + b) (fst l) (snd l).
Definition exported (l : linear) : layer_ints := export_layer (weight_scale l) l.
Definition in_ints (x : vec) : list Z := map (fun v => clip (-128) 127 (floor_q (v * Qz 128)%Qc)) x.
Lemma map2_map A B C A' B' (f : A -> B -> C) (g : A' -> A) (h : B' -> B) l m : map2 f (map g l) (map h m) = map2 (fun a b => f (g a) (h b)) l m.
Proof. revert m. induction l as [|a l IH]; intros [|b m]; cbn; congruence. Qed.
Lemma map_map2 A B C D (g : C -> D) (f : A -> B -> C) l m : map g (map2 f l m) = map2 (fun a b => g (f a b)) l m.
Proof. revert m. induction l as [|a l IH]; intros [|b m]; cbn; congruence. Qed.
Lemma map2_ext A B C (f g : A -> B -> C) l m : (forall a b, f a b = g a b) -> map2 f l m = map2 g l m.
Proof. intros H. revert m. induction l as [|a l IH]; intros [|b m]; cbn; congruence. Qed.
Lemma map2_length A B C (f : A -> B -> C) l m : List.length (map2 f l m) = Nat.min (List.length l) (List.length m).
Proof. revert m. induction l as [|a l IH]; intros [|b m]; cbn; auto. Qed.
Lemma linear_block_ints l x : 0 < weight_scale l -> linear_block l x = map (fun a => Qz a / Qz (weight_scale l * 128))%Qc (int_layer (exported l) (in_ints x)).
Proof.
  intros S. unfold linear_block, int_layer, exported, export_layer, export_weight, export_bias, in_ints. cbn [fst snd]. set (s := weight_scale l) in *.
  rewrite !map2_map, map_map2. apply map2_ext. intros row b.
  assert (E1 : map (fake_quant 128 8 true) x = map (fun z => Qz z / Qz 128)%Qc (map (fun v => clip (-128) 127 (floor_q (v * Qz 128)%Qc)) x)).
  { rewrite map_map. apply map_ext. intros v. rewrite fake_quant_eq by lia. reflexivity. }
  assert (E2 : map (fake_quant s 8 false) row = map (fun z => Qz z / Qz s)%Qc (map (fun v => clip (-128) 127 (round_q (v * Qz s)%Qc)) row)).
  { rewrite map_map. apply map_ext. intros v. rewrite fake_quant_eq by lia. reflexivity. }
  rewrite E1, E2, dotq_scaled by lia. rewrite fake_quant_eq by lia. change (rnd false) with round_q.
  replace (b * Qz (s * 128))%Qc with (b * Qz s * Qz 128)%Qc by (rewrite <- Qz_mul; ring). change (32 - 1) with 31. set (B := clip (- 2 ^ 31) (2 ^ 31 - 1) _).
  set (D := dotz _ _). rewrite <- Qz_add. field. apply Qz_nz. lia.
Qed.

(** ** The value head *)
Fixpoint int_head (lowest : Z) (ls : list (Z * layer_ints)) (xs : list Z) : list Z :=
  match ls with
  | [] => xs
  | (s, l) :: r =>
      let acc := int_layer l (map (clip lowest 127) xs) in
      match r with [] => acc | _ => int_head 0 r (map (fun a => a / s) acc) end
  end.
Lemma in_ints_clamp lo x : -128 <= lo <= 127 -> in_ints (map (clamp (Qz lo / Qz 128) top) x) = map (clip lo 127) (map (fun v => floor_q (v * Qz 128)%Qc) x).
Proof.
  intros H. unfold in_ints. rewrite !map_map. apply map_ext. intros v. unfold top.
  pose proof (@rnd_clamp true 128 lo 127 v ltac:(lia) ltac:(lia)) as E. cbn [rnd] in E. rewrite E. apply clip_clip; lia.
Qed.
Lemma bottom_eq : bottom = (Qz (-128) / Qz 128)%Qc.
Proof. unfold bottom. rewrite <- (@mul_over 128 (Qz (-1))) by lia. now rewrite Qz_mul. Qed.
Lemma zero_eq : 0%Qc = (Qz 0 / Qz 128)%Qc.
Proof. rewrite Qz_0. field. now apply Qz_nz. Qed.
Lemma value_linears_ints ls : Forall (fun l => 0 < weight_scale l) ls -> forall lo x, -128 <= lo <= 127 -> ls <> [] ->
  value_linears (Qz lo / Qz 128)%Qc ls x =
  map (fun a => Qz a / Qz (weight_scale (last ls (Linear [] [] 0)) * 128))%Qc (int_head lo (map (fun l => (weight_scale l, exported l)) ls) (map (fun v => floor_q (v * Qz 128)%Qc) x)).
Proof.
  induction 1 as [|l r S _ IH]; intros lo x H N; [now destruct N|]. cbn [value_linears map int_head].
  rewrite linear_block_ints by exact S. rewrite in_ints_clamp by exact H. set (acc := int_layer _ _). destruct r as [|l2 r]; [reflexivity|].
  rewrite zero_eq, IH; [|lia|discriminate]. cbn [map]. rewrite map_map. assert (L : forall d, last (l :: l2 :: r) d = last (l2 :: r) d) by reflexivity. rewrite L. f_equal. f_equal.
  apply map_ext. intros a. rewrite <- Qz_mul. replace (Qz a / (Qz (weight_scale l) * Qz 128) * Qz 128)%Qc with (Qz a / Qz (weight_scale l))%Qc by (field; split; apply Qz_nz; lia).
  now apply floor_over.
Qed.

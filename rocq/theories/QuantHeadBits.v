(** C81: the other accumulators of the inference program. *)
From Coq Require Import QArith Qcanon Permutation.
From Verif Require Import Base BaseFacts Rng FeatureTable FlatNet FlatNetFacts QuantHead QuantHeadSpec QuantHeadFacts QuantHeadWhole.
Set Implicit Arguments. Unset Strict Implicit.
Local Open Scope Z_scope.

Lemma feature_range D e h w d c y x : 0 <= e_feature D e h w (tables d) c y x <= 32767.
Proof. unfold e_feature. destruct (_ <? _)%nat; [lia|]. pose proof (@e_reduced_range d c y x). lia. Qed.
Lemma zsum_between b l : (forall z, List.In z l -> 0 <= z <= b) -> 0 <= zsum l <= b * Z.of_nat (List.length l).
Proof.
  intros H. induction l as [|z l IH]; [cbn; lia|]. rewrite BaseFacts.zsum_cons. cbn [List.length]. pose proof (H z (or_introl eq_refl)).
  destruct IH as [I1 I2]; [intros; apply H; now right|]. nia.
Qed.
Lemma block_sum_range D e h w d c y0 y1 x0 x1 :
  0 <= over_block (e_feature D e h w (tables d) c) y0 y1 x0 x1 <= 32767 * (Z.of_nat (y1 - y0) * Z.of_nat (x1 - x0)).
Proof.
  unfold over_block. assert (R : forall y, 0 <= zsum (map (e_feature D e h w (tables d) c y) (seq x0 (x1 - x0))) <= 32767 * Z.of_nat (x1 - x0)).
  { intros y. pose proof (@zsum_between 32767 (map (e_feature D e h w (tables d) c y) (seq x0 (x1 - x0)))) as B. rewrite map_length, seq_length in B. apply B.
    intros z Hz. apply in_map_iff in Hz. destruct Hz as (x & <- & _). apply feature_range. }
  pose proof (@zsum_between (32767 * Z.of_nat (x1 - x0)) (map (fun y => zsum (map (e_feature D e h w (tables d) c y) (seq x0 (x1 - x0)))) (seq y0 (y1 - y0)))) as B.
  rewrite map_length, seq_length in B. replace (32767 * (Z.of_nat (y1 - y0) * Z.of_nat (x1 - x0))) with (32767 * Z.of_nat (x1 - x0) * Z.of_nat (y1 - y0)) by ring. apply B.
  intros z Hz. apply in_map_iff in Hz. destruct Hz as (y & <- & _). apply R.
Qed.
Theorem sums32 D e h w d c y0 y1 x0 x1 : Z.of_nat h * Z.of_nat w <= 65536 -> (y1 <= h)%nat -> (x1 <= w)%nat ->
  0 <= over_block (e_feature D e h w (tables d) c) y0 y1 x0 x1 <= 2 ^ 31 - 1.
Proof.
  intros A Y X. pose proof (@block_sum_range D e h w d c y0 y1 x0 x1). change (2 ^ 31) with 2147483648.
  assert (Z.of_nat (y1 - y0) * Z.of_nat (x1 - x0) <= Z.of_nat h * Z.of_nat w) by (apply Z.mul_le_mono_nonneg; lia). lia.
Qed.

(** Pairs of products of an unsigned and a signed byte *)
Lemma pairs_range n : forall l, (List.length l <= n)%nat -> (forall z, List.In z l -> -16256 <= z <= 16129) -> forall z, List.In z (e_pairs l) -> -32512 <= z <= 32258.
Proof.
  induction n as [|n IH]; intros [|a [|b l]] L H z Hz; cbn in L, Hz; try contradiction; try lia.
  destruct Hz as [<-|Hz].
  - pose proof (H a (or_introl eq_refl)). pose proof (H b (or_intror (or_introl eq_refl))). lia.
  - apply (IH l); [lia| |exact Hz]. intros y Hy. apply H. now right; right.
Qed.
Lemma in_map2 A B C (f : A -> B -> C) l m z : List.In z (map2 f l m) -> exists a b, List.In a l /\ List.In b m /\ z = f a b.
Proof.
  revert m. induction l as [|a l IH]; intros [|b m] H; cbn in H; try contradiction. destruct H as [<-|H]; [exists a, b; cbn; auto|].
  destruct (IH m H) as (a' & b' & P & Q & E). exists a', b'. cbn. auto.
Qed.
Theorem pairs16 us vs z : List.In z (e_pairs (map2 Z.mul (e_shift8 (e_relu us)) (e_shift8 vs))) -> -32768 <= z <= 32767.
Proof.
  intros H. assert (-32512 <= z <= 32258); [|lia]. refine (@pairs_range _ _ (Nat.le_refl _) _ z H). intros p Hp. apply in_map2 in Hp. destruct Hp as (a & b & Ha & Hb & ->).
  unfold e_shift8, e_relu in Ha, Hb. rewrite map_map in Ha. apply in_map_iff in Ha, Hb. destruct Ha as (u & <- & _). destruct Hb as (v & <- & _).
  assert (0 <= sat8 (Z.max 0 u / 128) <= 127). { pose proof (Z.div_pos (Z.max 0 u) 128 ltac:(lia) ltac:(lia)). unfold sat8, clip. lia. }
  assert (-128 <= sat8 (v / 128) <= 127) by (apply clip_in; lia). nia.
Qed.

(** Policy *)
Lemma firstn_abs n l : Z.abs (zsum (firstn n l)) <= zsum (map Z.abs l).
Proof.
  revert n. induction l as [|a l IH]; intros [|n]; cbn [firstn map]; rewrite ?BaseFacts.zsum_cons.
  - cbn; lia.
  - cbn; lia.
  - assert (0 <= zsum (map Z.abs l)); [apply zsum_nonneg; apply Forall_forall; intros z Hz; apply in_map_iff in Hz; destruct Hz as (b & <- & _); lia|]. cbn [zsum fold_right Z.abs]. change (zsum []) with 0. lia.
  - specialize (IH n). lia.
Qed.
Lemma products_abs fs ws : Forall (fun z => 0 <= z <= 32767) fs -> zsum (map Z.abs (map2 Z.mul fs ws)) <= 32767 * zsum (map Z.abs ws).
Proof.
  intros H. revert ws. induction H as [|f fs R _ IH]; intros ws.
  - cbn. assert (0 <= zsum (map Z.abs ws)); [apply zsum_nonneg; apply Forall_forall; intros z Hz; apply in_map_iff in Hz; destruct Hz as (b & <- & _); lia|lia].
  - destruct ws as [|v ws]; [cbn; lia|]. cbn [map map2]. rewrite !BaseFacts.zsum_cons. specialize (IH ws). rewrite Z.abs_mul. nia.
Qed.
Theorem policy32 D e h w d y x P ws bias products n :
  32767 * zsum (map Z.abs ws) + Z.abs bias <= 2 ^ 31 - 1 ->
  Permutation products (map2 Z.mul (map (fun c => e_feature D e h w (tables d) c y x) (seq 0 P)) ws) ->
  - 2 ^ 31 <= bias + zsum (firstn n products) <= 2 ^ 31 - 1.
Proof.
  intros B Pm. pose proof (@firstn_abs n products) as A. rewrite (zsum_perm (Permutation_map Z.abs Pm)) in A.
  pose proof (@products_abs (map (fun c => e_feature D e h w (tables d) c y x) (seq 0 P)) ws) as Q.
  assert (F : Forall (fun z => 0 <= z <= 32767) (map (fun c => e_feature D e h w (tables d) c y x) (seq 0 P))).
  { apply Forall_forall. intros z Hz. apply in_map_iff in Hz. destruct Hz as (c & <- & _). apply feature_range. }
  specialize (Q F). lia.
Qed.

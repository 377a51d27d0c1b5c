(** Facts for C74: the value head of the square networks, and the whole of v4 and v4VQ. *)
From Coq Require Import QArith Qcanon.
From Verif Require Import Base BaseFacts Rng FlatNet FlatNetSpec FlatNetFacts FlatNetTables FlatNetFile.
Set Implicit Arguments. Unset Strict Implicit.
Local Open Scope Z_scope.

(** ** The value head of a file *)
Lemma frac_eq z : (Qz z / Qz (128 * 128))%Qc = Q2Qc (z # 16384).
Proof. now rewrite over_frac by lia. Qed.
Lemma pad_len nd : (outputs nd + pad_rows nd = 4)%nat. Proof. now destruct nd. Qed.
Lemma pad_out nd : pad_rows nd = (4 - outputs nd)%nat. Proof. now destruct nd. Qed.
Lemma layer_at_exported file woff boff n m l s : weight_scale l = s -> shaped n m l ->
  located file woff (i1 (List.concat (fst (export_layer s l)))) -> located file boff (i4 (snd (export_layer s l))) -> forall r r', layers_at file n r r' ->
  layers_at file m ((woff, boff, n, s) :: r) ((s, export_layer s l) :: r').
Proof.
  intros _ (W & R & B) LW LB r r' T. constructor; try assumption; unfold export_layer; cbn [fst snd].
  - apply export_int8.
  - apply export_int32.
  - now apply export_matrix.
  - unfold export_bias. now rewrite map_length.
Qed.
Lemma layer_at_pad file woff boff nd l s : shaped (outputs nd) 32 l ->
  located file woff (i1 (List.concat (fst (export_layer s (pad_layer nd l))))) -> located file boff (i4 (snd (export_layer s (pad_layer nd l)))) ->
  layers_at file 32 [(woff, boff, 4%nat, s)] [(s, export_layer s (pad_layer nd l))].
Proof.
  intros (W & R & B) LW LB. constructor; try assumption; try constructor; unfold export_layer, pad_layer; cbn [fst snd weight bias].
  - apply export_int8.
  - apply export_int32.
  - unfold export_weight. rewrite map_length, app_length, repeat_length, W. apply pad_len.
  - unfold export_weight. apply Forall_map, Forall_app. split; [revert R; apply Forall_impl; intros r E; now rewrite map_length|].
    apply Forall_forall. intros r I. apply repeat_spec in I. subst. now rewrite map_length, repeat_length.
  - unfold export_bias. rewrite map_length, app_length, repeat_length, B. apply pad_len.
Qed.
Lemma int_head_cons lo t l ls xs : ls <> [] -> int_head lo ((t, l) :: ls) xs = int_head 0 ls (map (fun a => a / t) (int_layer l (map (clip lo 127) xs))).
Proof. destruct ls; [now intros []|reflexivity]. Qed.
Lemma int_head_last lo ls s W B k xs : List.length W = List.length B -> int_head lo (ls ++ [(s, (W ++ repeat (repeat 0 32) k, B ++ repeat 0 k))]) xs = int_head lo (ls ++ [(s, (W, B))]) xs ++ repeat 0 k.
Proof.
  intros L. revert lo xs. induction ls as [|[t l] ls IH]; intros lo xs; [cbn [app int_head]; now apply int_layer_pad|]. cbn [app].
  rewrite !int_head_cons by (destruct ls; discriminate). apply IH.
Qed.
Lemma int_layer_length l xs : List.length (int_layer l xs) = Nat.min (List.length (fst l)) (List.length (snd l)). Proof. apply map2_length. Qed.
Lemma int_head_length ls s l : forall lo xs, List.length (int_head lo (ls ++ [(s, l)]) xs) = Nat.min (List.length (fst l)) (List.length (snd l)).
Proof.
  induction ls as [|[t k] ls IH]; intros lo xs; [cbn [app int_head]; apply int_layer_length|]. cbn [app].
  rewrite int_head_cons by (destruct ls; discriminate). apply IH.
Qed.
(** The integers of the last layer against the value *)
Lemma same_value_head nd lo front l x xs : -128 <= lo <= 127 -> Forall (fun l => 0 < weight_scale l) front -> weight_scale l = 128 -> shaped (outputs nd) 32 l ->
  xs = map (fun v => floor_q (v * Qz 128)%Qc) x ->
  same_value nd (value_linears (Qz lo / Qz 128)%Qc (front ++ [l]) x)
    (int_head lo (map (fun l => (weight_scale l, exported l)) front ++ [(128, export_layer 128 (pad_layer nd l))]) xs).
Proof.
  intros LO FR S (W & R & B) ->. set (ys := map (fun v => floor_q (v * Qz 128)%Qc) x). exists (int_head lo (map (fun l => (weight_scale l, exported l)) (front ++ [l])) ys).
  rewrite map_app. cbn [map]. rewrite S.
  assert (SH : List.length (fst (exported l)) = outputs nd /\ List.length (snd (exported l)) = outputs nd).
  { unfold exported, export_layer, export_weight, export_bias. cbn [fst snd]. rewrite !map_length. split; assumption. }
  destruct SH as [S1 S2]. split; [|split].
  - rewrite <- S at 2. rewrite export_pad by lia. rewrite <- pad_out. rewrite int_head_last by lia. reflexivity.
  - rewrite int_head_length. lia.
  - rewrite value_linears_ints; [|apply Forall_app; split; [exact FR|constructor; [lia|constructor]]|exact LO|destruct front; discriminate].
    rewrite map_app. cbn [map]. rewrite last_last, S. apply map_ext. intros z. apply frac_eq.
Qed.
(** The six buffers of a square network *)
Lemma square_head inputs hidden nd ls Ls file offs x xs : square_shape inputs hidden nd ls -> export_square_value nd 256 128 ls = Ok Ls ->
  Forall2 (located file) offs (flat_map write_layer Ls) -> List.length xs = inputs -> xs = map (fun v => floor_q (v * Qz 128)%Qc) x ->
  same_value nd (value_linears bottom ls x)
    (value_head file (-128) [(nth 0 offs 0, nth 1 offs 0, hidden, 256); (nth 2 offs 0, nth 3 offs 0, 32%nat, 128); (nth 4 offs 0, nth 5 offs 0, 4%nat, 128)] xs).
Proof.
  intros (l1 & l2 & l3 & -> & S1 & S2 & S3 & W1 & W2 & W3) E L X XS. cbn in E. apply guard_Ok in E. destruct E as [_ E]. injection E as <-.
  cbn [flat_map write_layer app] in L. repeat match goal with H : Forall2 _ _ (_ :: _) |- _ => inversion H; subst; clear H end. match goal with H : Forall2 _ _ [] |- _ => inversion H; subst; clear H end. cbn [nth].
  rewrite bottom_eq.
  pose proof (@same_value_head nd (-128) [l1; l2] l3 x _ ltac:(lia) ltac:(repeat (constructor; [lia|]); constructor) W3 S3 eq_refl) as V. cbn [app map] in V.
  rewrite (@value_head_ok _ (List.length (map (fun v => floor_q (v * Qz 128)%Qc) x)) _ [(256, export_layer 256 l1); (128, export_layer 128 l2); (128, export_layer 128 (pad_layer nd l3))]); [|..|reflexivity].
  - unfold exported in V. rewrite W1, W2 in V. exact V.
  - rewrite map_length, <- (map_length (fun v => floor_q (v * Qz 128)%Qc) x). apply layer_at_exported; try assumption. apply layer_at_exported; try assumption. apply layer_at_pad; assumption.
Qed.

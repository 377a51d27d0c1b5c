(** The file operations of an export. *)
From Verif Require Import Base BaseFacts Json JsonFacts Rng RngFacts Codec Prop_Codec Export ExportSpec ExportFacts ExportMasks ComposerFacts.
Set Implicit Arguments. Unset Strict Implicit.

Lemma set_same (s : fs) p v : obj_get (obj_set s p v) p = Some v.
Proof. induction s as [|[k x] s IH]; cbn; [rewrite ustr_eqb_refl; reflexivity|]. destruct (ustr_eqb p k) eqn:E; cbn; rewrite E; [reflexivity|exact IH]. Qed.
Lemma set_other (s : fs) p q v : p <> q -> obj_get (obj_set s p v) q = obj_get s q.
Proof.
  intros N. assert (E : ustr_eqb q p = false) by (apply ustr_eqb_neq; congruence).
  induction s as [|[k x] s IH]; cbn; [rewrite E; reflexivity|]. destruct (ustr_eqb p k) eqn:K; cbn.
  - apply ustr_eqb_eq in K. subst k. rewrite E. reflexivity.
  - destruct (ustr_eqb q k); [reflexivity|exact IH].
Qed.
Lemma removed_other (s : fs) p q : p <> q -> obj_get (filter (fun e => negb (ustr_eqb p (fst e))) s) q = obj_get s q.
Proof.
  intros N. induction s as [|[k x] s IH]; cbn [filter obj_get fst]; [reflexivity|]. destruct (ustr_eqb p k) eqn:K; cbn [negb obj_get].
  - apply ustr_eqb_eq in K. subst k. replace (ustr_eqb q p) with false by (symmetry; apply ustr_eqb_neq; congruence). exact IH.
  - destruct (ustr_eqb q k); [reflexivity|exact IH].
Qed.
Lemma removed_same (s : fs) p : obj_get (filter (fun e => negb (ustr_eqb p (fst e))) s) p = None.
Proof.
  induction s as [|[k x] s IH]; cbn [filter fst]; [reflexivity|]. destruct (ustr_eqb p k) eqn:K; cbn [negb obj_get]; [exact IH|]. rewrite K. exact IH.
Qed.
Lemma appends p ws : forall s old, obj_get s p = Some old ->
  obj_get (applied s (map (Append p) ws)) p = Some (old ++ List.concat ws)
  /\ forall q, q <> p -> obj_get (applied s (map (Append p) ws)) q = obj_get s q.
Proof.
  induction ws as [|w ws IH]; intros s old H; cbn [map applied fold_left List.concat].
  - rewrite app_nil_r. auto.
  - unfold applied in IH. cbn [apply]. rewrite H. destruct (IH (obj_set s p (old ++ w)) (old ++ w)) as (I1 & I2); [apply set_same|]. split.
    + rewrite I1, <- app_assoc. reflexivity.
    + intros q Q. rewrite (I2 q Q). apply set_other. congruence.
Qed.
Lemma written p ws s : obj_get (applied s (Open p :: map (Append p) ws)) p = Some (List.concat ws)
  /\ forall q, q <> p -> obj_get (applied s (Open p :: map (Append p) ws)) q = obj_get s q.
Proof.
  change (applied s (Open p :: map (Append p) ws)) with (applied (obj_set s p []) (map (Append p) ws)).
  destruct (@appends p ws (obj_set s p []) []) as (A1 & A2); [apply set_same|]. split; [exact A1|]. intros q Q. rewrite (A2 q Q). apply set_other. congruence.
Qed.
Lemma tmp_differs output : dot_tmp output <> output.
Proof. intros H. apply (f_equal (@List.length Z)) in H. unfold dot_tmp in H. rewrite app_length in H. cbn in H. lia. Qed.
Lemma applied_app s a b : applied s (a ++ b) = applied (applied s a) b.
Proof. apply fold_left_app. Qed.
Lemma applied_snoc s l o : applied s (l ++ [o]) = apply (applied s l) o.
Proof. rewrite applied_app. reflexivity. Qed.
Lemma only_tmp p ops : Forall (fun o => match o with Open q | Append q _ => q = p | _ => False end) ops ->
  forall s q, q <> p -> obj_get (applied s ops) q = obj_get s q.
Proof.
  induction 1 as [|o ops H _ IH]; intros s q Q; [reflexivity|]. change (applied s (o :: ops)) with (applied (apply s o) ops). rewrite (IH _ q Q).
  destruct o; try contradiction; subst; cbn [apply]; [apply set_other; congruence|]. destruct (obj_get s p); [apply set_other; congruence|reflexivity].
Qed.

Lemma word_bytes v r : 0 <= v < 2 ^ 32 -> word (le_bytes 4 v ++ r) = Some (v, r).
Proof.
  intros H. pose proof (@le_value_le_bytes 4 v H) as L. pose proof (le_bytes_length 4 v) as N.
  destruct (le_bytes 4 v) as [|b0 [|b1 [|b2 [|b3 [|? ?]]]]]; try discriminate. cbn [app word]. rewrite L. reflexivity.
Qed.
Lemma low32_range n : 0 <= low32 n < 2 ^ 32.
Proof. rewrite low32_mod. apply Z.mod_pos_bound. lia. Qed.

(** A complete header, read back. *)
Lemma header_ok s stamp ws : header s stamp = (ws, None) ->
  exists hash sizes text encoded, arch_hash (s_traits s) = Ok hash /\ boardsizes_to_mask (s_sizes s) = Ok sizes
  /\ description (s_traits s) = Ok text /\ utf8_encode (text ++ stamp) = Ok encoded /\ is_binary (s_traits s) = true
  /\ forall weights, read_file (List.concat ws ++ weights)
      = Some (WeightFile 2899889258 (hash mod 2 ^ 32) (rules_to_mask (s_rules s)) (sizes mod 2 ^ 32) encoded weights).
Proof.
  unfold header. intros H. destruct (arch_hash (s_traits s)) as [hash|] eqn:E1; [|discriminate]. cbn [bind] in H.
  destruct (boardsizes_to_mask (s_sizes s)) as [sizes|] eqn:E2; [|discriminate]. cbn [bind] in H.
  destruct (description (s_traits s)) as [text|] eqn:E3; [|discriminate]. cbn [bind] in H.
  destruct (utf8_encode (text ++ stamp)) as [encoded|] eqn:E4; [|discriminate]. cbn [bind] in H.
  destruct (is_binary (s_traits s)) eqn:E5; [|discriminate]. cbn [negb] in H.
  destruct (to_bytes4 (zlen encoded)) as [n|] eqn:E6; [|discriminate].
  assert (W : ws = [le_bytes 4 magic; le_bytes 4 (low32 hash); le_bytes 4 (low32 (rules_to_mask (s_rules s))); le_bytes 4 (low32 sizes); n; encoded]).
  { apply (f_equal fst) in H. cbn [fst app] in H. symmetry. exact H. }
  clear H. exists hash, sizes, text, encoded. repeat split; auto. intros weights.
  unfold to_bytes4 in E6. apply guard_Ok in E6. destruct E6 as (G & E6). assert (N : n = le_bytes 4 (zlen encoded)) by congruence. clear E6.
  assert (C : List.concat ws ++ weights = le_bytes 4 magic ++ le_bytes 4 (low32 hash) ++ le_bytes 4 (low32 (rules_to_mask (s_rules s)))
     ++ le_bytes 4 (low32 sizes) ++ le_bytes 4 (zlen encoded) ++ encoded ++ weights).
  { rewrite W, N. cbn [List.concat]. rewrite <- !app_assoc. cbn [app]. reflexivity. }
  rewrite C. clear C W. unfold read_file. rewrite (@word_bytes magic) by (vm_compute; split; congruence). rewrite !word_bytes by (try apply low32_range; lia).
  rewrite rules_low32, !low32_mod, zlen_app. pose proof (zlen_nonneg weights) as P. replace (zlen encoded <=? zlen encoded + zlen weights) with true by lia.
  unfold zlen at 1 2. rewrite Nat2Z.id, firstn_app, firstn_all, Nat.sub_diag, skipn_app, skipn_all, Nat.sub_diag. cbn [firstn skipn app]. rewrite app_nil_r. reflexivity.
Qed.

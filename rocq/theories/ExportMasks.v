(** The bit masks of an export. *)
From Coq Require Import Sorted.
From Verif Require Import Base BaseFacts Json JsonFacts MetricsFacts Rng RngFacts Codec Export ExportSpec ExportFacts.
Set Implicit Arguments. Unset Strict Implicit.

Lemma bits_from_3 m k : 0 <= m < 8 -> 3 <= k -> Z.testbit m k = false.
Proof.
  intros M K. destruct (Z.eq_dec m 0) as [->|N]; [apply Z.testbit_0_l|]. apply Z.bits_above_log2; [lia|].
  assert (Z.log2 m < 3) by (apply Z.log2_lt_pow2; lia). lia.
Qed.
Lemma rules_mask_range rs : 0 <= rules_to_mask rs < 8.
Proof. unfold rules_to_mask. destruct (mem freestyle rs), (mem standard rs), (mem renju rs); cbn; lia. Qed.
Lemma rules_mask_bits rs : advertises_rules (rules_to_mask rs) rs.
Proof.
  split; [apply rules_mask_range|]. intros k K.
  assert (B : Z.testbit (rules_to_mask rs) k = ((k =? 0) && mem freestyle rs || (k =? 1) && mem standard rs || (k =? 2) && mem renju rs)).
  { destruct (Z_lt_le_dec k 3) as [L|L].
    - assert (C : k = 0 \/ k = 1 \/ k = 2) by lia. unfold rules_to_mask.
      destruct C as [->|[->| ->]]; destruct (mem freestyle rs), (mem standard rs), (mem renju rs); reflexivity.
    - rewrite bits_from_3 by (try apply rules_mask_range; lia). replace (k =? 0) with false by lia. replace (k =? 1) with false by lia.
      replace (k =? 2) with false by lia. reflexivity. }
  rewrite B, !orb_true_iff, !andb_true_iff, !mem_in, !Z.eqb_eq. unfold rule_bit. split.
  - intros [[(-> & H)|(-> & H)]|(-> & H)]; eexists; (split; [exact H|]); auto.
  - intros (r & H & [(-> & ->)|[(-> & ->)|(-> & ->)]]); auto.
Qed.
Lemma rules_low32 rs : low32 (rules_to_mask rs) = rules_to_mask rs.
Proof. unfold rules_to_mask. destruct (mem freestyle rs), (mem standard rs), (mem renju rs); reflexivity. Qed.

Lemma sizes_mask_bits ns : forall m, 0 <= m -> Forall (fun n => 1 <= n <= 32) ns ->
  exists m', sizes_mask_from m ns = Ok m' /\ 0 <= m' /\ forall k, 0 <= k -> (Z.testbit m' k = true <-> Z.testbit m k = true \/ In (k + 1) ns).
Proof.
  induction ns as [|n ns IH]; intros m M F.
  - exists m. split; [reflexivity|]. split; [exact M|]. intros k K. cbn [In]. tauto.
  - inversion F as [|? ? N F']; subst. cbn [sizes_mask_from]. replace ((1 <=? n) && (n <=? 32)) with true by lia.
    destruct (IH (Z.lor m (Z.shiftl 1 (n - 1)))) as (m' & E & P & B); [apply Z.lor_nonneg; split; [exact M|apply Z.shiftl_nonneg; lia]|exact F'|].
    exists m'. split; [exact E|]. split; [exact P|]. intros k K. rewrite (B k K), Z.lor_spec, orb_true_iff, Z.shiftl_1_l, (Z.pow2_bits_eqb (n - 1) k ltac:(lia)), Z.eqb_eq.
    cbn [In]. assert (Q : (n - 1 = k <-> n = k + 1)) by lia. rewrite Q. tauto.
Qed.
Lemma low32_mod n : low32 n = n mod 2 ^ 32.
Proof. unfold low32. change 4294967295 with (Z.ones 32). apply Z.land_ones. lia. Qed.
Lemma sizes_mask ns P : Forall (fun n => 1 <= n <= 32) ns -> (forall n, P n <-> In n ns) ->
  exists m, boardsizes_to_mask ns = Ok m /\ 0 <= m < 2 ^ 32 /\ advertises_sizes m P.
Proof.
  intros F E. destruct (@sizes_mask_bits ns 0) as (m & H & M & B); [lia|exact F|]. exists m. split; [exact H|].
  assert (A : forall k, 0 <= k -> (Z.testbit m k = true <-> P (k + 1))).
  { intros k K. rewrite (B k K), E, Z.testbit_0_l. intuition discriminate. }
  split; [|split; assumption]. assert (Q : low32 m = m).
  { apply Z.bits_inj'. intros k K. unfold low32. rewrite Z.land_spec. destruct (Z.testbit m k) eqn:T; [|reflexivity].
    rewrite (A k K), E in T. rewrite Forall_forall in F. specialize (F _ T). change 4294967295 with (Z.ones 32). rewrite Z.ones_spec_low by lia. reflexivity. }
  rewrite low32_mod in Q. rewrite <- Q. apply Z.mod_pos_bound. lia.
Qed.

Lemma lor_shift a b n : 0 <= n -> 0 <= b < 2 ^ n -> Z.lor (Z.shiftl a n) b = a * 2 ^ n + b.
Proof.
  intros N B. assert (D : Z.land (Z.shiftl a n) b = 0).
  { apply Z.bits_inj'. intros k K. rewrite Z.land_spec, Z.testbit_0_l. destruct (Z_lt_le_dec k n) as [L|L].
    - rewrite Z.shiftl_spec_low by exact L. reflexivity.
    - replace (Z.testbit b k) with false; [apply andb_false_r|]. symmetry. destruct (Z.eq_dec b 0) as [->|Z]; [apply Z.testbit_0_l|].
      apply Z.bits_above_log2; [lia|]. assert (Z.log2 b < n) by (apply Z.log2_lt_pow2; lia). lia. }
  rewrite <- (Z.lxor_lor _ _ D), <- (Z.add_nocarry_lxor _ _ D), Z.shiftl_mul_pow2 by exact N. reflexivity.
Qed.
Lemma version_sum io rs ns v : make_onnx_model_version io rs ns = Ok v ->
  exists m, boardsizes_to_mask ns = Ok m /\ 0 < io < 2 ^ 15 /\ (0 <= m < 2 ^ 32 -> v = (io * 2 ^ 16 + rules_to_mask rs) * 2 ^ 32 + m).
Proof.
  unfold make_onnx_model_version. intros H. apply guard_Ok in H. destruct H as (G & H). apply bind_Ok in H. destruct H as (m & M & H).
  assert (V : v = Z.lor (Z.lor (Z.shiftl io 48) (Z.shiftl (rules_to_mask rs) 32)) m) by congruence. rewrite V. clear H V.
  exists m. split; [exact M|]. split; [change (2 ^ 15) with 32768; lia|]. intros R.
  replace (Z.shiftl io 48) with (Z.shiftl (Z.shiftl io 16) 32) by (rewrite Z.shiftl_shiftl by lia; reflexivity).
  rewrite <- Z.shiftl_lor, lor_shift by (try exact R; lia). rewrite lor_shift; [reflexivity|lia|].
  pose proof (rules_mask_range rs). change (2 ^ 16) with 65536. lia.
Qed.
Lemma land_pow2 m i : 0 <= i -> (Z.land m (Z.shiftl 1 i) =? 0) = negb (Z.testbit m i).
Proof.
  intros I. rewrite Z.shiftl_1_l. destruct (Z.testbit m i) eqn:T; cbn [negb].
  - apply Z.eqb_neq. intros E. assert (Q : Z.testbit (Z.land m (2 ^ i)) i = false) by (rewrite E; apply Z.testbit_0_l).
    rewrite Z.land_spec, T, Z.pow2_bits_true in Q by exact I. discriminate.
  - apply Z.eqb_eq. apply Z.bits_inj'. intros k K. rewrite Z.land_spec, Z.testbit_0_l, (Z.pow2_bits_eqb i k I). destruct (i =? k) eqn:E; [|apply andb_false_r].
    apply Z.eqb_eq in E. subst k. rewrite T. reflexivity.
Qed.
Lemma listed_sizes m : flat_map (fun i => if Z.land m (Z.shiftl 1 i) =? 0 then [] else [i + 1]) (int_range 0 32)
  = filter (fun n => Z.testbit m (n - 1)) (int_range 1 33).
Proof.
  assert (G : forall j n, flat_map (fun i => if Z.land m (Z.shiftl 1 i) =? 0 then [] else [i + 1]) (map (fun k => 0 + Z.of_nat k) (seq j n))
      = filter (fun x => Z.testbit m (x - 1)) (map (fun k => 1 + Z.of_nat k) (seq j n))).
  { intros j n. revert j. induction n as [|n IH]; intros j; [reflexivity|]. cbn [seq map flat_map filter]. rewrite land_pow2 by lia.
    rewrite IH. replace (1 + Z.of_nat j - 1) with (0 + Z.of_nat j) by lia. destruct (Z.testbit m (0 + Z.of_nat j)); cbn [negb app]; [f_equal; lia|reflexivity]. }
  apply (G 0%nat 32%nat).
Qed.
Lemma int_range_sorted lo hi : StronglySorted Z.lt (int_range lo hi).
Proof.
  unfold int_range. generalize (Z.to_nat (hi - lo)) at 1. intros n. generalize 0%nat. induction n as [|n IH]; intros j; cbn [seq map]; constructor; [apply IH|].
  apply Forall_forall. intros x X. apply in_map_iff in X. destruct X as (y & <- & Y). apply in_seq in Y. lia.
Qed.
Lemma filter_sorted (f : Z -> bool) l : StronglySorted Z.lt l -> StronglySorted Z.lt (filter f l).
Proof.
  induction 1 as [|x l S IH F]; cbn [filter]; [constructor|]. destruct (f x); [|exact IH]. constructor; [exact IH|].
  apply Forall_forall. intros y Y. apply filter_In in Y. rewrite Forall_forall in F. apply F. apply Y.
Qed.
Definition rules_of_mask (m : Z) : list ustr :=
  (if Z.land m 1 =? 0 then [] else [freestyle]) ++ (if Z.land m 2 =? 0 then [] else [standard]) ++ (if Z.land m 4 =? 0 then [] else [renju]).
Lemma listed_rules rs : rules_of_mask (rules_to_mask rs) = filter (fun r => mem r rs) legal_rules.
Proof.
  unfold legal_rules. cbn [filter]. change (ulit "freestyle") with freestyle. change (ulit "standard") with standard. change (ulit "renju") with renju.
  unfold rules_to_mask. destruct (mem freestyle rs), (mem standard rs), (mem renju rs); reflexivity.
Qed.

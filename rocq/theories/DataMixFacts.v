(** Facts about combined data sets, blend weights and split files. *)
From Coq Require Import Permutation.
From Verif Require Import Base BaseFacts Json JsonFacts DecoderFacts DataMix.
Set Implicit Arguments. Unset Strict Implicit.

(** ** Concatenation *)
Lemma multi_get_concat (A : Type) (children : list (list A)) : forall i, 0 <= i -> multi_get children i = child_get (List.concat children) i.
Proof.
  induction children as [|c rest IH]; intros i I; cbn [multi_get List.concat].
  - unfold child_get. replace (i <? 0) with false by lia. change (zlen (@nil A)) with 0. replace ((0 <=? i) && (i <? 0)) with false by lia. reflexivity.
  - destruct (i <? zlen c) eqn:E.
    + unfold child_get. replace (i <? 0) with false by lia. rewrite zlen_app. pose proof (zlen_nonneg (List.concat rest)).
      replace ((0 <=? i) && (i <? zlen c)) with true by lia. replace ((0 <=? i) && (i <? zlen c + zlen (List.concat rest))) with true by lia.
      unfold py_get. rewrite nth_error_app1; [reflexivity|]. unfold zlen in E. lia.
    + rewrite IH by lia. unfold child_get. replace (i - zlen c <? 0) with false by lia. replace (i <? 0) with false by lia. rewrite zlen_app.
      replace ((0 <=? i) && (i <? zlen c + zlen (List.concat rest))) with ((0 <=? i - zlen c) && (i - zlen c <? zlen (List.concat rest))) by (pose proof (zlen_nonneg c); lia).
      destruct ((0 <=? i - zlen c) && (i - zlen c <? zlen (List.concat rest))); [|reflexivity]. unfold py_get. rewrite nth_error_app2 by (unfold zlen in *; lia).
      replace (Z.to_nat (i - zlen c)) with (Z.to_nat i - List.length c)%nat by (unfold zlen in *; lia). reflexivity.
Qed.
Lemma multi_len_concat (A : Type) (children : list (list A)) : multi_len children = zlen (List.concat children).
Proof. unfold multi_len. induction children as [|c rest IH]; [reflexivity|]. cbn [map List.concat]. rewrite zlen_app, <- IH. reflexivity. Qed.

(** ** Weights *)
Lemma pow10 n : 0 <= n -> 0 < 10 ^ n. Proof. intros. apply Z.pow_pos_nonneg; lia. Qed.
Lemma fraction_ok m e n d : 0 < m -> fraction m e = (n, d) ->
  0 < n /\ 0 < d /\ Z.gcd n d = 1 /\ forall K, 0 <= K -> 0 <= e + K -> n * 10 ^ K = m * 10 ^ (e + K) * d.
Proof.
  intros M H. unfold fraction in H. destruct (0 <=? e) eqn:E.
  - assert (n = m * 10 ^ e /\ d = 1) as (-> & ->) by (split; congruence). pose proof (@pow10 e ltac:(lia)). split; [nia|]. split; [lia|]. split; [apply Z.gcd_1_r|].
    intros K K0 _. rewrite Z.pow_add_r by lia. ring.
  - set (p := 10 ^ (- e)) in *. assert (P : 0 < p) by (apply pow10; lia). set (g := Z.gcd m p) in *.
    assert (En : n = m / g) by (subst g p; congruence). assert (Ed : d = p / g) by (subst g p; congruence).
    assert (G : 0 < g) by (pose proof (Z.gcd_nonneg m p); assert (g <> 0) by (unfold g; intros Q; apply Z.gcd_eq_0_l in Q; lia); lia).
    destruct (Z.gcd_divide_l m p) as (a & Ha). destruct (Z.gcd_divide_r m p) as (b & Hb). fold g in Ha, Hb.
    rewrite Ha, Z.div_mul in En by lia. rewrite Hb, Z.div_mul in Ed by lia. subst a b.
    split; [nia|]. split; [nia|]. split.
    + assert (Q : Z.gcd (n * g) (d * g) = g) by (rewrite <- Ha, <- Hb; reflexivity). rewrite Z.gcd_mul_mono_r_nonneg in Q by lia. nia.
    + intros K K0 EK. replace (10 ^ K) with (10 ^ (e + K) * p) by (unfold p; rewrite <- Z.pow_add_r by lia; f_equal; lia). rewrite Hb, Ha. ring.
Qed.
Lemma fold_lcm l : forall a, 0 < a -> Forall (fun d => 0 < d) l -> let D := fold_left Z.lcm l a in 0 < D /\ (a | D) /\ Forall (fun d => (d | D)) l.
Proof.
  induction l as [|x l IH]; intros a A H; cbn [fold_left]; [split; [exact A|split; [apply Z.divide_refl|constructor]]|].
  inversion H as [|? ? X H']; subst. assert (P : 0 < Z.lcm a x).
  { pose proof (Z.lcm_nonneg a x). assert (Z.lcm a x <> 0); [|lia]. intros Q. apply Z.lcm_eq_0 in Q. lia. }
  destruct (IH _ P H') as (Q & D & F). split; [exact Q|]. split; [eapply Z.divide_trans; [apply Z.divide_lcm_l|exact D]|]. constructor; [eapply Z.divide_trans; [apply Z.divide_lcm_r|exact D]|exact F].
Qed.
Lemma fold_gcd l : forall a, 0 < a -> let g := fold_left Z.gcd l a in 0 < g /\ (g | a) /\ Forall (fun w => (g | w)) l
  /\ forall x b, 0 <= b -> (x | b * a) -> Forall (fun w => (x | b * w)) l -> (x | b * g).
Proof.
  induction l as [|w l IH]; intros a A; cbn [fold_left].
  - split; [exact A|]. split; [apply Z.divide_refl|]. split; [constructor|]. intros x b _ H _. exact H.
  - assert (P : 0 < Z.gcd a w) by (pose proof (Z.gcd_nonneg a w); assert (Z.gcd a w <> 0) by (intros Q; apply Z.gcd_eq_0_l in Q; lia); lia).
    destruct (IH _ P) as (G & D & F & U). split; [exact G|]. split; [eapply Z.divide_trans; [exact D|apply Z.gcd_divide_l]|].
    split; [constructor; [eapply Z.divide_trans; [exact D|apply Z.gcd_divide_r]|exact F]|]. intros x b B Ha Hw. inversion Hw as [|? ? H1 H2]; subst.
    apply U; [exact B| |exact H2]. rewrite <- Z.gcd_mul_mono_l_nonneg by exact B. apply Z.gcd_greatest; assumption.
Qed.

(** ** Every step-th row *)
Section Split.
Variable row : Type.
Lemma nth_error_skipn (l : list row) a : forall j, nth_error (skipn a l) j = nth_error l (a + j).
Proof. revert l. induction a as [|a IH]; intros [|x l] j; cbn [skipn Nat.add nth_error]; try reflexivity; [destruct j; reflexivity|apply IH]. Qed.
Lemma every_nth step : (0 < step)%nat -> forall fuel (l : list row) j, (List.length l <= fuel)%nat -> nth_error (every fuel l step) j = nth_error l (j * step).
Proof.
  intros P fuel. induction fuel as [|f IH]; intros l j H; cbn [every].
  - destruct l; [|cbn in H; lia]. rewrite !(proj2 (nth_error_None _ _)) by (cbn; lia). reflexivity.
  - destruct l as [|x l]; [destruct j; [reflexivity|]; symmetry; apply nth_error_None; cbn; lia|]. destruct j as [|j]; [reflexivity|]. cbn [nth_error].
    rewrite IH by (rewrite skipn_length; cbn [List.length] in *; lia). rewrite nth_error_skipn. f_equal.
Qed.
Lemma strided_nth (l : list row) start step j : (0 < step)%nat -> nth_error (strided l start step) j = nth_error l (start + j * step).
Proof. intros P. unfold strided. rewrite every_nth; [apply nth_error_skipn|exact P|rewrite skipn_length; lia]. Qed.
Lemma strided_length (l : list row) start step : (0 < step)%nat -> (start < step)%nat ->
  (List.length (strided l start step) = (List.length l + (step - 1 - start)) / step)%nat.
Proof.
  intros P Hs. set (n := List.length l). assert (C : forall j, (j < List.length (strided l start step))%nat <-> (start + j * step < n)%nat).
  { intros j. rewrite <- nth_error_Some, strided_nth by exact P. unfold n. apply nth_error_Some. }
  assert (C2 : forall j, (j < (n + (step - 1 - start)) / step)%nat <-> (start + j * step < n)%nat).
  { intros j. pose proof (Nat.div_mod (n + (step - 1 - start)) step ltac:(lia)) as D. pose proof (Nat.mod_upper_bound (n + (step - 1 - start)) step ltac:(lia)).
    set (q := ((n + (step - 1 - start)) / step)%nat) in *. set (r := ((n + (step - 1 - start)) mod step)%nat) in *. split; intros H1.
    - assert (step * (j + 1) <= step * q)%nat by (apply Nat.mul_le_mono_l; lia). nia.
    - destruct (Nat.lt_ge_cases j q) as [L|L]; [exact L|exfalso]. assert (step * q <= step * j)%nat by (apply Nat.mul_le_mono_l; lia). nia. }
  destruct (Nat.lt_trichotomy (List.length (strided l start step)) ((n + (step - 1 - start)) / step)) as [L|[L|L]]; [|exact L|].
  - apply C2 in L. apply C in L. lia.
  - apply C in L. apply C2 in L. lia.
Qed.
End Split.
Lemma every_map (A B : Type) (f : A -> B) step fuel : forall l, every fuel (map f l) step = map f (every fuel l step).
Proof. induction fuel as [|n IH]; intros l; cbn [every]; [reflexivity|]. destruct l as [|x l]; [reflexivity|]. cbn [map]. f_equal. rewrite <- IH. f_equal. change (f x :: map f l) with (map f (x :: l)). apply skipn_map. Qed.
Lemma strided_map (A B : Type) (f : A -> B) l start step : strided (map f l) start step = map f (strided l start step).
Proof. unfold strided. rewrite map_length, skipn_map. apply every_map. Qed.
Lemma NoDup_flat_map (A B : Type) (f : A -> list B) l : NoDup l -> (forall a, In a l -> NoDup (f a)) ->
  (forall a a' b, In a l -> In a' l -> In b (f a) -> In b (f a') -> a = a') -> NoDup (flat_map f l).
Proof.
  induction 1 as [|a l NI ND IH]; intros H1 H2; [constructor|]. cbn [flat_map].
  assert (R : NoDup (flat_map f l)) by (apply IH; [intros; apply H1; right; assumption|intros x y b X Y; apply H2; right; assumption]).
  assert (D : forall b, In b (f a) -> ~ In b (flat_map f l)).
  { intros b Hb Q. apply List.in_flat_map in Q. destruct Q as (a' & I & Hb'). apply NI. rewrite (H2 a a' b); auto; [left; reflexivity|right; exact I]. }
  clear IH H2. specialize (H1 a (or_introl eq_refl)). induction H1 as [|b t NB NT IHt]; [exact R|]. cbn [app]. constructor.
  - rewrite in_app_iff. intros [Q|Q]; [exact (NB Q)|]. apply (D b); [left; reflexivity|exact Q].
  - apply IHt. intros x X. apply D. right. exact X.
Qed.
Lemma strided_seq n start step : (0 < step)%nat -> forall i, In i (strided (seq 0 n) start step) <-> (i < n)%nat /\ exists j, i = (start + j * step)%nat.
Proof.
  intros P i. split.
  - intros I. apply In_nth_error in I. destruct I as (j & E). rewrite strided_nth in E by exact P.
    assert (X : (start + j * step < n)%nat) by (rewrite <- (seq_length n 0); apply nth_error_Some; congruence).
    apply nth_error_nth with (d := 0%nat) in E. rewrite seq_nth in E by exact X. cbn in E. split; [lia|]. exists j. lia.
  - intros (X & j & ->). apply nth_error_In with j. rewrite strided_nth by exact P. rewrite (nth_error_nth' _ 0%nat) by (rewrite seq_length; exact X). rewrite seq_nth by exact X. reflexivity.
Qed.
Lemma as_map (row : Type) (d : row) l : l = map (fun i => nth i l d) (seq 0 (List.length l)).
Proof. induction l as [|x l IH]; [reflexivity|]. cbn [List.length seq map nth]. f_equal. rewrite <- seq_shift, map_map. exact IH. Qed.
Lemma strided_perm (row : Type) (l : list row) step : (0 < step)%nat -> Permutation (flat_map (fun k => strided l k step) (seq 0 step)) l.
Proof.
  intros P. destruct l as [|d l']; [assert (E : forall s, flat_map (fun k => strided (@nil row) k step) s = []) by (induction s; [reflexivity|cbn; exact IHs]); rewrite E; constructor|].
  set (l := d :: l'). assert (El : l = map (fun i => nth i l d) (seq 0 (List.length l))).
  { apply as_map. }
  assert (E : forall s, flat_map (fun k => strided (map (fun i => nth i l d) (seq 0 (List.length l))) k step) s
    = map (fun i => nth i l d) (flat_map (fun k => strided (seq 0 (List.length l)) k step) s)).
  { induction s as [|k s IH]; [reflexivity|]. cbn [flat_map]. rewrite IH, strided_map, map_app. reflexivity. }
  specialize (E (seq 0 step)). rewrite <- El in E. rewrite E. apply Permutation_trans with (map (fun i => nth i l d) (seq 0 (List.length l))); [|rewrite <- El; apply Permutation_refl]. apply Permutation_map. apply NoDup_Permutation; [|apply seq_NoDup|].
  - apply NoDup_flat_map; [apply seq_NoDup| |].
    + intros k _. apply NoDup_nth_error. intros i j I Ej. apply nth_error_Some in I. rewrite !strided_nth in * by exact P.
      assert (X : (k + i * step < List.length l)%nat) by (rewrite <- (seq_length (List.length l) 0); apply nth_error_Some; exact I).
      assert (Y : (k + j * step < List.length l)%nat) by (rewrite <- (seq_length (List.length l) 0); apply nth_error_Some; rewrite <- Ej; exact I).
      rewrite !(nth_error_nth' _ 0%nat) in Ej by (rewrite seq_length; assumption). rewrite !seq_nth in Ej by assumption. injection Ej as Ej. nia.
    + intros k k' i K K' I I'. apply in_seq in K. apply in_seq in K'. apply (strided_seq (List.length l) k P) in I. apply (strided_seq (List.length l) k' P) in I'. destruct I as (_ & j & ->). destruct I' as (_ & j' & E').
      assert (M1 : ((k + j * step) mod step = k)%nat) by (rewrite Nat.mod_add by lia; apply Nat.mod_small; lia). rewrite E', Nat.mod_add in M1 by lia. rewrite Nat.mod_small in M1 by lia. lia.
  - intros i. rewrite List.in_flat_map. split.
    + intros (k & K & I). apply (strided_seq (List.length l) k P) in I. apply in_seq. lia.
    + intros I. apply in_seq in I. exists (i mod step)%nat. split; [apply in_seq; pose proof (Nat.mod_upper_bound i step); lia|]. apply (strided_seq (List.length l) _ P). split; [lia|].
      exists (i / step)%nat. pose proof (Nat.div_mod i step). lia.
Qed.

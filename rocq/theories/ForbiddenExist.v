(** The recursive double-three rule has exactly one solution on boards with finitely many empty
    points. *)
From Verif Require Import Base BaseFacts Forbidden ForbiddenSpec ForbiddenFacts.
Set Implicit Arguments.
Unset Strict Implicit.

Definition covers (l : list (Z * Z)) (b : plane) : Prop := forall p, look b p = EMPTY -> In p l.
Definition agree (D1 D2 : plane -> Z * Z -> Prop) (b : plane) : Prop := forall q, D1 b q <-> D2 b q.

Lemma three_agree D1 D2 b p d : agree D1 D2 (put b p) -> three D1 b p d -> three D2 b p d.
Proof.
  intros A (k & a & Q & S & H & N1 & N2). exists k, a. cbv zeta.
  split; [exact Q|]. split; [exact S|]. split; [exact H|]. split; [exact N1|].
  intros X. apply N2. apply A. exact X.
Qed.
Lemma rule_agree D1 D2 b p : (look b p = EMPTY -> agree D1 D2 (put b p)) -> double_three_rule D1 b p -> double_three_rule D2 b p.
Proof.
  intros A (Q & d1 & d2 & N & I1 & I2 & T1 & T2). specialize (A (proj1 Q)). split; [exact Q|].
  exists d1, d2. conj; auto; eapply three_agree; eauto.
Qed.
Lemma agree_sym D1 D2 b : agree D1 D2 b -> agree D2 D1 b.
Proof. intros A q. symmetry. apply A. Qed.
Lemma rule_agree_iff D1 D2 b p : (look b p = EMPTY -> agree D1 D2 (put b p)) -> (double_three_rule D1 b p <-> double_three_rule D2 b p).
Proof. intros A. split; apply rule_agree; intros E; [|apply agree_sym]; auto. Qed.

Definition point_dec (p q : Z * Z) : {p = q} + {p <> q}.
Proof. decide equality; apply Z.eq_dec. Defined.
Lemma covers_put l b p : covers l b -> covers (remove point_dec p l) (put b p).
Proof.
  intros C q E. destruct (look_put b p q) as [[X _]|[X N]]; [congruence|]. apply in_in_remove; [exact N|]. apply C. congruence.
Qed.
Lemma covers_put_le l b p : covers l b -> covers l (put b p).
Proof. intros C q E. apply (@covers_put l b p C) in E. apply in_remove in E. apply E. Qed.
Lemma remove_shorter l p : In p l -> (List.length (remove point_dec p l) < List.length l)%nat.
Proof. apply remove_length_lt. Qed.

(** At most one. *)
Lemma unique_upto D1 D2 : is_double_three_predicate D1 -> is_double_three_predicate D2 ->
  forall n l b, (List.length l <= n)%nat -> covers l b -> agree D1 D2 b.
Proof.
  intros H1 H2. induction n as [|n IH]; intros l b Hl C p.
  - destruct l; [|cbn in Hl; lia]. assert (F : finite b) by (exists []; exact C).
    rewrite (H1 b F p), (H2 b F p). split; intros (Q & _); destruct (C p (proj1 Q)).
  - assert (F : finite b) by (exists l; exact C). rewrite (H1 b F p), (H2 b F p). apply rule_agree_iff. intros E.
    apply (IH (remove point_dec p l)); [|apply covers_put; exact C]. pose proof (@remove_shorter l p (C p E)). lia.
Qed.
Lemma double_three_unique D1 D2 : is_double_three_predicate D1 -> is_double_three_predicate D2 ->
  forall b p, finite b -> D1 b p <-> D2 b p.
Proof. intros H1 H2 b p (l & C). exact (unique_upto H1 H2 (le_n _) C p). Qed.

(** At least one: look n moves ahead. *)
Fixpoint ahead (n : nat) : plane -> Z * Z -> Prop :=
  match n with O => fun _ _ => False | S m => double_three_rule (ahead m) end.
Lemma ahead_stable : forall n m l b, (List.length l <= n)%nat -> (n <= m)%nat -> covers l b -> agree (ahead n) (ahead m) b.
Proof.
  induction n as [|n IH]; intros m l b Hl Hm C p.
  - destruct l; [|cbn in Hl; lia]. cbn [ahead]. split; [tauto|]. destruct m; cbn [ahead]; [tauto|]. intros (Q & _). destruct (C p (proj1 Q)).
  - destruct m as [|m]; [lia|]. cbn [ahead]. apply rule_agree_iff. intros E.
    apply (IH m (remove point_dec p l)); [|lia|apply covers_put; exact C]. pose proof (@remove_shorter l p (C p E)). lia.
Qed.
Definition double_three (b : plane) (p : Z * Z) : Prop :=
  exists l n, covers l b /\ (List.length l <= n)%nat /\ ahead n b p.
Lemma double_three_ahead l b p n : covers l b -> (List.length l <= n)%nat -> double_three b p <-> ahead n b p.
Proof.
  intros C H. split; [|intros X; exists l, n; auto].
  intros (l' & n' & C' & H' & X).
  apply (ahead_stable H (Nat.le_max_l n n') C p). apply (ahead_stable H' (Nat.le_max_r n n') C' p). exact X.
Qed.
Lemma double_three_exists : is_double_three_predicate double_three.
Proof.
  intros b (l & C) p. rewrite (double_three_ahead p C (Nat.le_succ_diag_r _)). cbn [ahead].
  apply rule_agree_iff. intros E q. symmetry. apply (@double_three_ahead l); [apply covers_put_le; exact C|lia].
Qed.

(** Rows of stones on a line: facts about the specification only. *)
From Verif Require Import Base BaseFacts Forbidden ForbiddenSpec.
Set Implicit Arguments.
Unset Strict Implicit.

Lemma color_eqb_spec a b : Bool.reflect (a = b) (color_eqb a b).
Proof. destruct a, b; constructor; congruence. Qed.
Lemma color_dec (a b : color) : a = b \/ a <> b.
Proof. destruct (color_eqb_spec a b); auto. Qed.

Lemma along_0 p d : along p d 0 = p.
Proof. destruct p as [x y]. unfold along. cbn [fst snd]. f_equal; lia. Qed.
Lemma along_along p d k m : along (along p d k) d m = along p d (k + m).
Proof. unfold along. cbn [fst snd]. f_equal; ring. Qed.
Lemma lines_nonzero d : In d lines -> fst d = 1 \/ (fst d = 0 /\ snd d = 1).
Proof. cbn. intros [<-|[<-|[<-|[<-|[]]]]]; cbn; auto. Qed.
Lemma along_inj p d k m : In d lines -> along p d k = along p d m -> k = m.
Proof.
  intros Hd E. unfold along in E. apply pair_equal_spec in E. destruct E as [E1 E2].
  destruct (lines_nonzero Hd) as [H|[H1 H2]]; [rewrite H in E1; lia|rewrite H2 in E2; lia].
Qed.
Lemma look_put b p q : look (put b p) q = BLACK /\ q = p \/ look (put b p) q = look b q /\ q <> p.
Proof.
  unfold look, put. destruct q as [x y], p as [u v]. cbn [fst snd].
  destruct (Z.eqb_spec x u) as [->|N]; cbn [andb]; [destruct (Z.eqb_spec y v) as [->|N]|]; [left; auto|right|right];
    split; auto; congruence.
Qed.
Lemma look_put_same b p : look (put b p) p = BLACK.
Proof. destruct (look_put b p p) as [[H _]|[_ H]]; auto; congruence. Qed.
Lemma look_put_other b p q : q <> p -> look (put b p) q = look b q.
Proof. intros H. destruct (look_put b p q) as [[_ E]|[E _]]; auto; congruence. Qed.
Lemma look_put_line b p d k j : In d lines -> j <> k -> look (put b (along p d k)) (along p d j) = look b (along p d j).
Proof. intros Hd N. apply look_put_other. intros E. apply N. eapply along_inj; eauto. Qed.
Lemma look_put_line0 b p d j : In d lines -> j <> 0 -> look (put b p) (along p d j) = look b (along p d j).
Proof. intros Hd N. rewrite <- (along_0 p d) at 1. apply look_put_line; auto. Qed.

Section Line.
  Variables (b : plane) (p d : Z * Z).
  Hypothesis Hd : In d lines.
  Let b1 := put b p.
  Definition bl (c : plane) (k : Z) : Prop := look c (along p d k) = BLACK.
  Lemma bl_dec c k : bl c k \/ ~ bl c k.
  Proof. apply color_dec. Qed.
  Lemma bl_0 : bl b1 0.
  Proof. unfold bl. rewrite along_0. apply look_put_same. Qed.

  (** The first point that is not black, going up or down from offset 0. *)
  Lemma first_other (s : Z) (n : nat) :
    (forall k, 1 <= k <= Z.of_nat n -> bl b1 (s * k))
    \/ exists e, 1 <= e <= Z.of_nat n /\ (forall k, 1 <= k < e -> bl b1 (s * k)) /\ ~ bl b1 (s * e).
  Proof.
    induction n as [|n IH]; [left; lia|]. destruct IH as [A|(e & He & A & N)].
    - destruct (bl_dec b1 (s * Z.of_nat (S n))) as [Y|N].
      + left. intros k Hk. destruct (Z.eq_dec k (Z.of_nat (S n))) as [->|]; [exact Y|apply A; lia].
      + right. exists (Z.of_nat (S n)). conj; try lia; auto. intros k Hk. apply A. lia.
    - right. exists e. conj; auto; lia.
  Qed.
  Lemma row5_loud a : a <= 0 < a + 5 -> black_row b1 p d a 5 -> five b p \/ overline b p.
  Proof.
    intros Ha Hr. destruct (bl_dec b1 (a - 1)) as [Y|N1].
    - right. exists d, (a - 1). conj; auto; try lia. intros k Hk. destruct (Z.eq_dec k (a - 1)) as [->|]; [exact Y|apply Hr; lia].
    - destruct (bl_dec b1 (a + 5)) as [Y|N2].
      + right. exists d, a. conj; auto; try lia. intros k Hk. destruct (Z.eq_dec k (a + 5)) as [->|]; [exact Y|apply Hr; lia].
      + left. exists d. split; auto. exists a. split; auto. split; auto.
  Qed.
  (** The row of black stones through p when p is quiet: offsets -el+1 .. er-1. *)
  Definition ends (el er : Z) : Prop :=
    1 <= el /\ 1 <= er /\ el + er <= 5 /\ (forall k, - el < k < er -> bl b1 k) /\ ~ bl b1 (- el) /\ ~ bl b1 er.
  Lemma quiet_ends : quiet b p -> exists el er, ends el er.
  Proof.
    intros (_ & N5 & N6).
    destruct (first_other (-1) 4) as [A|(el & Hel & A & NA)].
    { exfalso. destruct (@row5_loud (-4)) as [H|H]; auto; [lia|]. intros k Hk.
      destruct (Z.eq_dec k 0) as [->|]; [apply bl_0|]. replace k with (-1 * - k) by lia. apply A. lia. }
    destruct (first_other 1 (Z.to_nat (5 - el))) as [B|(er & Her & B & NB)].
    { exfalso. destruct (@row5_loud (- el + 1)) as [H|H]; auto; [lia|]. intros k Hk.
      destruct (Z.eq_dec k 0) as [->|]; [apply bl_0|].
      destruct (Z.lt_ge_cases k 0); [replace k with (-1 * - k) by lia; apply A; lia|].
      replace k with (1 * k) by lia. apply B. lia. }
    exists el, er. unfold ends. conj; try lia.
    - intros k Hk. destruct (Z.eq_dec k 0) as [->|]; [apply bl_0|].
      destruct (Z.lt_ge_cases k 0); [replace k with (-1 * - k) by lia; apply A; lia|].
      replace k with (1 * k) by lia. apply B. lia.
    - replace (- el) with (-1 * el) by lia. exact NA.
    - replace er with (1 * er) by lia. exact NB.
  Qed.

  Variables (el er : Z).
  Hypothesis Hends : ends el er.
  (** A point not black in b1 that lies in a row with p after it is filled is one of the ends. *)
  Lemma filled_end k a n : ~ bl b1 k -> a <= 0 < a + n -> a <= k < a + n ->
    black_row (put b1 (along p d k)) p d a n -> k = - el \/ k = er.
  Proof.
    destruct Hends as (H1 & H2 & H3 & HB & NL & NR). intros Nk H0 Hk Hr.
    assert (Hin : forall j, a <= j < a + n -> j <> k -> bl b1 j).
    { intros j Hj Nj. unfold bl. rewrite <- (look_put_line b1 p Hd Nj). apply Hr. exact Hj. }
    destruct (Z.lt_trichotomy k 0) as [L|[->|L]].
    - left. destruct (Z.lt_trichotomy k (- el)) as [C|[C|C]]; auto; exfalso.
      + apply NL. apply Hin; lia.
      + apply Nk. apply HB. lia.
    - exfalso. apply Nk. apply bl_0.
    - right. destruct (Z.lt_trichotomy k er) as [C|[C|C]]; auto; exfalso.
      + apply Nk. apply HB. lia.
      + apply NR. apply Hin; lia.
  Qed.

  (** Shifting the base point. *)
  Lemma row_shift (c : plane) k a n : black_row c (along p d k) d a n <-> black_row c p d (a + k) n.
  Proof.
    unfold black_row. split; intros H j Hj.
    - specialize (H (j - k)). rewrite along_along in H. replace (k + (j - k)) with j in H by lia. apply H. lia.
    - rewrite along_along. apply H. lia.
  Qed.
  Lemma exact_shift (c : plane) k a n : exact_row c (along p d k) d a n <-> exact_row c p d (a + k) n.
  Proof.
    unfold exact_row. rewrite row_shift, !along_along.
    replace (k + (a - 1)) with (a + k - 1) by lia. replace (k + (a + n)) with (a + k + n) by lia. reflexivity.
  Qed.

  (** If the filled end lies in a maximal row, p lies in it too. *)
  Lemma end_row_has_p k a n : (k = - el \/ k = er) -> a <= k < a + n ->
    ~ bl (put b1 (along p d k)) (a - 1) -> ~ bl (put b1 (along p d k)) (a + n) -> 0 < n -> a <= 0 < a + n.
  Proof.
    destruct Hends as (H1 & H2 & H3 & HB & NL & NR). intros Hk Ha N1 N2 Hn.
    assert (HB' : forall j, - el < j < er -> bl (put b1 (along p d k)) j).
    { intros j Hj. destruct (look_put b1 (along p d k) (along p d j)) as [[E _]|[E _]]; unfold bl; [exact E|].
      rewrite E. apply HB. exact Hj. }
    destruct Hk as [->| ->].
    - split; [lia|]. destruct (Z.lt_ge_cases 0 (a + n)) as [|L]; auto. exfalso. apply N2. apply HB'. lia.
    - split; [|lia]. destruct (Z.le_gt_cases a 0) as [|L]; auto. exfalso. apply N1. apply HB'. lia.
  Qed.

  Lemma completes_iff k : completes b p d k <->
    (k = - el \/ k = er) /\ look b1 (along p d k) = EMPTY /\ five_on b1 (along p d k) d.
  Proof.
    unfold completes. fold b1. cbv zeta. split.
    - intros (He & a & H0 & Hk & Hex). conj.
      + apply (@filled_end k a 5); auto; [unfold bl; congruence|apply Hex].
      + exact He.
      + exists (a - k). split; [lia|]. apply exact_shift. replace (a - k + k) with a by lia. exact Hex.
    - intros (Hk & He & a & Ha & Hex). split; [exact He|]. apply exact_shift in Hex. exists (a + k).
      assert (a + k <= 0 < a + k + 5) by (destruct Hex as (_ & N1 & N2); apply (@end_row_has_p k (a + k) 5 Hk); auto; lia).
      conj; auto; lia.
  Qed.
  Lemma four_iff : four b p d <->
    (look b1 (along p d (- el)) = EMPTY /\ five_on b1 (along p d (- el)) d)
    \/ (look b1 (along p d er) = EMPTY /\ five_on b1 (along p d er) d).
  Proof.
    unfold four. split.
    - intros (k & H). apply completes_iff in H. destruct H as ([->| ->] & H); auto.
    - intros [H|H]; eexists; apply completes_iff; [split; [left; reflexivity|exact H]|split; [right; reflexivity|exact H]].
  Qed.
  Lemma both_iff : (exists k1 k2, k1 <> k2 /\ completes b p d k1 /\ completes b p d k2) <->
    completes b p d (- el) /\ completes b p d er.
  Proof.
    destruct Hends as (H1 & H2 & _). split.
    - intros (k1 & k2 & N & C1 & C2). pose proof C1 as X1. pose proof C2 as X2. apply completes_iff in X1, X2.
      destruct X1 as ([->| ->] & _), X2 as ([->| ->] & _); auto; lia.
    - intros [C1 C2]. exists (- el), er. conj; auto. lia.
  Qed.
  Lemma straight_ends a : straight_four_at b p d a -> a = - el + 1 /\ el + er = 5.
  Proof.
    unfold straight_four_at. fold b1. cbv zeta. intros (H0 & Hr & E1 & E2 & _). destruct Hends as (H1 & H2 & H3 & HB & NL & NR).
    assert (A : a - 1 = - el).
    { destruct (Z.lt_trichotomy (a - 1) (- el)) as [C|[C|C]]; auto; exfalso.
      - apply NL. apply Hr. lia.
      - assert (bl b1 (a - 1)) by (apply HB; lia). unfold bl in H. congruence. }
    assert (B : a + 4 = er).
    { destruct (Z.lt_trichotomy (a + 4) er) as [C|[C|C]]; auto; exfalso.
      - assert (bl b1 (a + 4)) by (apply HB; lia). unfold bl in H. congruence.
      - apply NR. apply Hr. lia. }
    lia.
  Qed.
  Lemma straight_iff : straight_four b p d <-> completes b p d (- el) /\ completes b p d er /\ el + er = 5.
  Proof.
    split.
    - intros (a & Hs). destruct (straight_ends Hs) as [Ea E5]. destruct Hs as (H0 & Hr & E1 & E2 & N1 & N2). change (put b p) with b1 in Hr, E1, E2, N1, N2.
      pose proof Hends as (_ & _ & _ & HB & NL & NR).
      assert (D1 : a - 1 = - el) by lia. assert (D2 : a + 4 = er) by lia. rewrite D1 in E1. rewrite D2 in E2.
      assert (G : forall k j, j <> k -> look (put b1 (along p d k)) (along p d j) = look b1 (along p d j)) by (intros; apply look_put_line; auto).
      split; [|split; [|exact E5]].
      + split; [exact E1|]. exists (- el). conj; try lia. split; [|split].
        * intros k Hk. destruct (Z.eq_dec k (- el)) as [->|N]; [apply look_put_same|]. fold b1. rewrite G by auto. apply Hr. lia.
        * fold b1. rewrite G by lia. replace (- el - 1) with (a - 2) by lia. exact N1.
        * fold b1. rewrite G by lia. replace (- el + 5) with er by lia. exact NR.
      + split; [exact E2|]. exists a. conj; try lia. split; [|split].
        * intros k Hk. destruct (Z.eq_dec k er) as [->|N]; [apply look_put_same|]. fold b1. rewrite G by auto. apply Hr. lia.
        * fold b1. rewrite G by lia. rewrite D1. exact NL.
        * fold b1. rewrite G by lia. exact N2.
    - intros (C1 & C2 & E5). exists (- el + 1).
      destruct C1 as (E1 & a1 & H01 & Hk1 & R1 & N11 & N12). destruct C2 as (E2 & a2 & H02 & Hk2 & R2 & N21 & N22). change (put b p) with b1 in E1, R1, N11, N12, E2, R2, N21, N22.
      pose proof Hends as (P1 & P2 & _ & HB & NL & NR).
      assert (G : forall k j, j <> k -> look (put b1 (along p d k)) (along p d j) = look b1 (along p d j)) by (intros; apply look_put_line; auto).
      assert (A1 : a1 = - el).
      { destruct (Z.lt_trichotomy a1 (- el)) as [C|[C|C]]; auto; [|lia]. exfalso.
        (* the row would not reach er - 1 *)
        apply N12. rewrite G by lia. apply HB. lia. }
      assert (A2 : a2 + 4 = er).
      { destruct (Z.lt_trichotomy (a2 + 4) er) as [C|[C|C]]; auto; [lia|]. exfalso.
        apply N21. rewrite G by lia. apply HB. lia. }
      unfold straight_four_at. fold b1. cbv zeta. conj; try lia.
      + intros k Hk. apply HB. lia.
      + replace (- el + 1 - 1) with (- el) by lia. exact E1.
      + replace (- el + 1 + 4) with er by lia. exact E2.
      + replace (- el + 1 - 2) with (a1 - 1) by lia. rewrite G in N11 by lia. exact N11.
      + replace (- el + 1 + 5) with (a2 + 5) by lia. rewrite G in N22 by lia. exact N22.
  Qed.
  Lemma two_fours_iff : two_fours_on b p d <-> completes b p d (- el) /\ completes b p d er /\ el + er <> 5.
  Proof.
    unfold two_fours_on. rewrite both_iff, straight_iff. tauto.
  Qed.

  (** A three looks at the two ends only. *)
  Lemma three_iff (D : plane -> Z * Z -> Prop) : three D b p d <->
    exists k, (k = - el \/ k = er) /\ quiet b1 (along p d k) /\ straight_four b1 (along p d k) d
      /\ ~ double_four b1 (along p d k) /\ ~ D b1 (along p d k).
  Proof.
    unfold three. fold b1. cbv zeta. split.
    - intros (k & a & Q & S & Hp & N1 & N2). exists k. conj; auto; [|exists a; exact S].
      destruct S as (H0 & Hr & _). apply row_shift in Hr.
      apply (@filled_end k (a + k) 4); auto; try lia. destruct Q as [E _]. unfold bl. congruence.
    - intros (k & Hk & Q & (a & S) & N1 & N2). exists k, a. conj; auto.
      + destruct S as (H0 & _ & E1 & E2 & _). rewrite along_along in E1, E2.
        destruct (@end_row_has_p k (a + k) 4 Hk) as [? ?]; try lia; unfold bl.
        * replace (a + k - 1) with (k + (a - 1)) by lia. congruence.
        * replace (a + k + 4) with (k + (a + 4)) by lia. congruence.
      + destruct S as (H0 & _ & E1 & E2 & _). rewrite along_along in E1, E2.
        destruct (@end_row_has_p k (a + k) 4 Hk) as [? ?]; try lia; unfold bl.
        * replace (a + k - 1) with (k + (a - 1)) by lia. congruence.
        * replace (a + k + 4) with (k + (a + 4)) by lia. congruence.
  Qed.
End Line.

(** The rules do not depend on the orientation of the board. *)
From Verif Require Import Base BaseFacts Forbidden ForbiddenSpec ForbiddenFacts ForbiddenExist.
Set Implicit Arguments.
Unset Strict Implicit.

Definition neg (d : Z * Z) : Z * Z := (- fst d, - snd d).
Lemma along_neg p d k : along p (neg d) k = along p d (- k).
Proof. unfold along, neg. cbn [fst snd]. f_equal; ring. Qed.
Lemma black_row_neg b p d a n : black_row b p (neg d) a n <-> black_row b p d (1 - a - n) n.
Proof.
  unfold black_row. split; intros H k Hk.
  - specialize (H (- k)). rewrite along_neg, Z.opp_involutive in H. apply H. lia.
  - rewrite along_neg. apply H. lia.
Qed.
Lemma exact_row_neg b p d a n : exact_row b p (neg d) a n <-> exact_row b p d (1 - a - n) n.
Proof.
  unfold exact_row. rewrite black_row_neg, !along_neg.
  replace (- (a - 1)) with (1 - a - n + n) by lia. replace (- (a + n)) with (1 - a - n - 1) by lia. tauto.
Qed.
Lemma five_on_neg b p d : five_on b p (neg d) -> five_on b p d.
Proof. intros (a & H & X). apply exact_row_neg in X. exists (1 - a - 5). split; [lia|exact X]. Qed.
Lemma six_neg b p d : (exists a, a <= 0 < a + 6 /\ black_row b p (neg d) a 6) -> exists a, a <= 0 < a + 6 /\ black_row b p d a 6.
Proof. intros (a & H & X). apply black_row_neg in X. exists (1 - a - 6). split; [lia|exact X]. Qed.
Lemma completes_neg b p d k : completes b p (neg d) k -> completes b p d (- k).
Proof.
  unfold completes. cbv zeta. rewrite along_neg. intros (E & a & H0 & Hk & X). split; [exact E|].
  apply exact_row_neg in X. exists (1 - a - 5). conj; try lia. exact X.
Qed.
Lemma four_neg b p d : four b p (neg d) -> four b p d.
Proof. intros (k & H). exists (- k). apply completes_neg. exact H. Qed.
Lemma straight_at_neg b p d a : straight_four_at b p (neg d) a -> straight_four_at b p d (1 - a - 4).
Proof.
  unfold straight_four_at. cbv zeta. rewrite black_row_neg, !along_neg. intros (H & R & E1 & E2 & N1 & N2).
  replace (1 - a - 4 - 1) with (- (a + 4)) by lia. replace (1 - a - 4 + 4) with (- (a - 1)) by lia.
  replace (1 - a - 4 - 2) with (- (a + 5)) by lia. replace (1 - a - 4 + 5) with (- (a - 2)) by lia.
  split; [lia|]. auto.
Qed.
Lemma neg_neg d : neg (neg d) = d.
Proof. destruct d as [u v]. unfold neg. cbn [fst snd]. f_equal; lia. Qed.
Lemma straight_neg b p d : straight_four b p (neg d) -> straight_four b p d.
Proof. intros (a & H). eexists. apply straight_at_neg. exact H. Qed.
Lemma two_fours_neg b p d : two_fours_on b p (neg d) -> two_fours_on b p d.
Proof.
  intros ((k1 & k2 & N & C1 & C2) & NS). split.
  - exists (- k1), (- k2). conj; [lia|apply completes_neg; exact C1|apply completes_neg; exact C2].
  - intros S. apply NS. apply straight_neg. rewrite neg_neg. exact S.
Qed.
Lemma three_neg D b p d : three D b p (neg d) -> three D b p d.
Proof.
  intros (k & a & Q & S & H & N1 & N2). rewrite along_neg in Q, S, N1, N2. exists (- k), (1 - a - 4). cbv zeta.
  split; [exact Q|]. split; [apply straight_at_neg; exact S|]. split; [lia|]. auto.
Qed.

(** A signed permutation matrix and a translation. *)
Definition matrix (m : Z * Z * Z * Z) (d : Z * Z) : Z * Z :=
  let '(a, b, c, e) := m in (a * fst d + b * snd d, c * fst d + e * snd d).
Definition shift (o p : Z * Z) : Z * Z := (fst o + fst p, snd o + snd p).
Definition matrices : list (Z * Z * Z * Z) :=
  [(1,0,0,1); (1,0,0,-1); (-1,0,0,1); (-1,0,0,-1); (0,1,1,0); (0,1,-1,0); (0,-1,1,0); (0,-1,-1,0)].
Definition transpose (m : Z * Z * Z * Z) : Z * Z * Z * Z := let '(a, b, c, e) := m in (a, c, b, e).

Section Sym.
  Variables (m : Z * Z * Z * Z) (o : Z * Z).
  Hypothesis Hm : In m matrices.
  Let s (p : Z * Z) : Z * Z := shift o (matrix m p).
  Let lin := matrix m.

  Lemma s_along p d k : s (along p d k) = along (s p) (lin d) k.
  Proof. destruct m as [[[a b] c] e]. unfold s, lin, shift, along, matrix. cbn [fst snd]. f_equal; ring. Qed.
  Lemma s_inj p q : s p = s q -> p = q.
  Proof.
    destruct p as [x y], q as [u v]. unfold s, shift. cbn in Hm.
    destruct Hm as [<-|[<-|[<-|[<-|[<-|[<-|[<-|[<-|[]]]]]]]]]; cbn [matrix fst snd]; intros E; apply pair_equal_spec in E; f_equal; lia.
  Qed.
  Definition s_inv (p : Z * Z) : Z * Z := matrix (transpose m) (fst p - fst o, snd p - snd o).
  Lemma s_surj p : s (s_inv p) = p.
  Proof.
    destruct p as [x y]. unfold s, s_inv, shift. cbn in Hm.
    destruct Hm as [<-|[<-|[<-|[<-|[<-|[<-|[<-|[<-|[]]]]]]]]]; cbn [matrix transpose fst snd]; f_equal; lia.
  Qed.
  Lemma some_lin (P : Z * Z -> Prop) : (forall d, P (neg d) -> P d) ->
    (exists d, In d lines /\ P (lin d)) <-> (exists d, In d lines /\ P d).
  Proof.
    intros HN. assert (HN' : forall d, P d -> P (neg d)) by (intros d X; apply HN; rewrite neg_neg; exact X). unfold lin. cbn in Hm.
    destruct Hm as [<-|[<-|[<-|[<-|[<-|[<-|[<-|[<-|[]]]]]]]]];
    split; intros (d & I & X); cbn in I; destruct I as [<-|[<-|[<-|[<-|[]]]]];
    match goal with |- exists d, In d lines /\ ?G => idtac end;
    first
      [ exists (0,1); split; [cbn; tauto|]; first [exact X|exact (HN _ X)|exact (HN' _ X)]
      | exists (1,-1); split; [cbn; tauto|]; first [exact X|exact (HN _ X)|exact (HN' _ X)]
      | exists (1,0); split; [cbn; tauto|]; first [exact X|exact (HN _ X)|exact (HN' _ X)]
      | exists (1,1); split; [cbn; tauto|]; first [exact X|exact (HN _ X)|exact (HN' _ X)] ].
  Qed.
  Lemma two_lin (P : Z * Z -> Prop) : (forall d, P (neg d) -> P d) ->
    (exists d1 d2, d1 <> d2 /\ In d1 lines /\ In d2 lines /\ P (lin d1) /\ P (lin d2)) <->
    (exists d1 d2, d1 <> d2 /\ In d1 lines /\ In d2 lines /\ P d1 /\ P d2).
  Proof.
    intros HN. assert (HN' : forall d, P d -> P (neg d)) by (intros d X; apply HN; rewrite neg_neg; exact X).
    assert (K : exists f g, (forall d, In d lines -> In (f d) lines /\ In (g d) lines /\ f (g d) = d /\ g (f d) = d
      /\ (P (lin d) <-> P (f d)))).
    { unfold lin. cbn in Hm.
      set (F := fun d : Z * Z => let q := matrix m d in if existsb (fun l => (fst l =? fst q) && (snd l =? snd q)) lines then q else neg q).
      set (G := fun d : Z * Z => let q := matrix (transpose m) d in if existsb (fun l => (fst l =? fst q) && (snd l =? snd q)) lines then q else neg q).
      exists F, G. unfold F, G. clear F G.
      destruct Hm as [<-|[<-|[<-|[<-|[<-|[<-|[<-|[<-|[]]]]]]]]];
      intros d I; cbn in I; destruct I as [<-|[<-|[<-|[<-|[]]]]]; cbn; conj; auto;
      split; intros X; first [exact X|exact (HN _ X)|exact (HN' _ X)]. }
    destruct K as (f & g & K). split; intros (d1 & d2 & N & I1 & I2 & P1 & P2).
    - exists (f d1), (f d2). destruct (K d1 I1) as (F1 & G1 & FG1 & GF1 & X1). destruct (K d2 I2) as (F2 & G2 & FG2 & GF2 & X2).
      split; [congruence|]. split; [exact F1|]. split; [exact F2|]. split; [apply X1; exact P1|apply X2; exact P2].
    - exists (g d1), (g d2). destruct (K d1 I1) as (F1 & G1 & FG1 & GF1 & X1). destruct (K d2 I2) as (F2 & G2 & FG2 & GF2 & X2).
      destruct (K (g d1) G1) as (_ & _ & _ & _ & Y1). destruct (K (g d2) G2) as (_ & _ & _ & _ & Y2).
      split; [congruence|]. split; [exact G1|]. split; [exact G2|]. rewrite Y1, Y2, FG1, FG2. split; assumption.
  Qed.

  (** [b2] is [b] turned by s. *)
  Definition turned (b b2 : plane) : Prop := forall p, look b p = look b2 (s p).
  Lemma turned_put b b2 p : turned b b2 -> turned (put b p) (put b2 (s p)).
  Proof.
    intros T q. destruct (look_put b p q) as [[E1 ->]|[E1 N1]]; [rewrite E1, look_put_same; reflexivity|].
    rewrite E1, look_put_other; [apply T|]. intros E. apply N1. apply s_inj. exact E.
  Qed.
  Lemma turned_row b b2 p d a n : turned b b2 -> black_row b p d a n <-> black_row b2 (s p) (lin d) a n.
  Proof.
    intros T. unfold black_row. split; intros H k Hk; specialize (H k Hk).
    - rewrite <- s_along, <- T. exact H.
    - rewrite <- s_along, <- T in H. exact H.
  Qed.
  Lemma turned_exact b b2 p d a n : turned b b2 -> exact_row b p d a n <-> exact_row b2 (s p) (lin d) a n.
  Proof. intros T. unfold exact_row. rewrite (turned_row p d a n T), <- !s_along, <- !T. reflexivity. Qed.
  Lemma turned_five_on b b2 p d : turned b b2 -> five_on b p d <-> five_on b2 (s p) (lin d).
  Proof.
    intros T. pose proof (turned_put p T) as T1. unfold five_on. split; intros (a & H & X); exists a; (split; [exact H|]); apply (turned_exact p d a 5 T1); exact X.
  Qed.
  Lemma turned_five b b2 p : turned b b2 -> five b p <-> five b2 (s p).
  Proof.
    intros T. unfold five. rewrite <- (some_lin (P := five_on b2 (s p))) by (intros d; apply five_on_neg).
    split; intros (d & I & X); exists d; (split; [exact I|]); apply (turned_five_on p d T); exact X.
  Qed.
  Lemma overline_six b p : overline b p <-> exists d, In d lines /\ exists a, a <= 0 < a + 6 /\ black_row (put b p) p d a 6.
  Proof. unfold overline. split; [intros (d & a & I & X); exists d; split; [exact I|]; exists a; exact X|intros (d & I & a & X); exists d, a; split; assumption]. Qed.
  Lemma turned_overline b b2 p : turned b b2 -> overline b p <-> overline b2 (s p).
  Proof.
    intros T. rewrite !overline_six. pose proof (turned_put p T) as T1.
    rewrite <- (some_lin (P := fun d => exists a, a <= 0 < a + 6 /\ black_row (put b2 (s p)) (s p) d a 6)) by (intros d; apply six_neg).
    split; intros (d & I & a & H & X); exists d; (split; [exact I|]); exists a; (split; [exact H|]); apply (turned_row p d a 6 T1); exact X.
  Qed.
  Lemma turned_quiet b b2 p : turned b b2 -> quiet b p <-> quiet b2 (s p).
  Proof. intros T. unfold quiet. rewrite (turned_five p T), (turned_overline p T), (T p). reflexivity. Qed.
  Lemma turned_completes b b2 p d k : turned b b2 -> completes b p d k <-> completes b2 (s p) (lin d) k.
  Proof.
    intros T. pose proof (turned_put p T) as T1. pose proof (turned_put (along p d k) T1) as T2. rewrite s_along in T2.
    unfold completes. cbv zeta. rewrite (T1 (along p d k)), s_along.
    split; intros (E & a & H0 & Hk & X); (split; [exact E|]); exists a; (split; [exact H0|]); (split; [exact Hk|]); apply (turned_exact p d a 5 T2); exact X.
  Qed.
  Lemma turned_four b b2 p d : turned b b2 -> four b p d <-> four b2 (s p) (lin d).
  Proof. intros T. unfold four. split; intros (k & X); exists k; apply (turned_completes p d k T); exact X. Qed.
  Lemma turned_straight_at b b2 p d a : turned b b2 -> straight_four_at b p d a <-> straight_four_at b2 (s p) (lin d) a.
  Proof.
    intros T. pose proof (turned_put p T) as T1. unfold straight_four_at. cbv zeta.
    rewrite (turned_row p d a 4 T1), <- !s_along, <- !(T1 _). reflexivity.
  Qed.
  Lemma turned_straight b b2 p d : turned b b2 -> straight_four b p d <-> straight_four b2 (s p) (lin d).
  Proof. intros T. unfold straight_four. split; intros (a & X); exists a; apply (turned_straight_at p d a T); exact X. Qed.
  Lemma turned_two_fours b b2 p d : turned b b2 -> two_fours_on b p d <-> two_fours_on b2 (s p) (lin d).
  Proof.
    intros T. unfold two_fours_on. rewrite (turned_straight p d T).
    split; intros ((k1 & k2 & N & C1 & C2) & X); (split; [|exact X]); exists k1, k2; (split; [exact N|]); split;
      [apply (turned_completes p d k1 T)|apply (turned_completes p d k2 T)|apply (turned_completes p d k1 T)|apply (turned_completes p d k2 T)]; assumption.
  Qed.
  Lemma turned_double_four b b2 p : turned b b2 -> double_four b p <-> double_four b2 (s p).
  Proof.
    intros T. unfold double_four. rewrite (turned_quiet p T).
    rewrite <- (two_lin (P := four b2 (s p))) by (intros d; apply four_neg).
    rewrite <- (some_lin (P := two_fours_on b2 (s p))) by (intros d; apply two_fours_neg).
    assert (A : (exists d1 d2, d1 <> d2 /\ In d1 lines /\ In d2 lines /\ four b p d1 /\ four b p d2) <->
      (exists d1 d2, d1 <> d2 /\ In d1 lines /\ In d2 lines /\ four b2 (s p) (lin d1) /\ four b2 (s p) (lin d2))).
    { split; intros (d1 & d2 & N & I1 & I2 & X1 & X2); exists d1, d2; conj; auto; first [apply (turned_four p d1 T)|apply (turned_four p d2 T)]; assumption. }
    assert (B : (exists d, In d lines /\ two_fours_on b p d) <-> (exists d, In d lines /\ two_fours_on b2 (s p) (lin d))).
    { split; intros (d & I & X); exists d; (split; [exact I|]); apply (turned_two_fours p d T); exact X. }
    tauto.
  Qed.
  Lemma turned_three D b b2 p d : turned b b2 -> (forall q, D (put b p) q <-> D (put b2 (s p)) (s q)) ->
    three D b p d <-> three D b2 (s p) (lin d).
  Proof.
    intros T HD. pose proof (turned_put p T) as T1. unfold three. cbv zeta.
    split; intros (k & a & X); exists k, a.
    - rewrite <- s_along. rewrite <- (turned_quiet (along p d k) T1), <- (turned_straight_at (along p d k) d a T1), <- (turned_double_four (along p d k) T1), <- HD. exact X.
    - rewrite <- s_along in X. rewrite <- (turned_quiet (along p d k) T1), <- (turned_straight_at (along p d k) d a T1), <- (turned_double_four (along p d k) T1), <- HD in X. exact X.
  Qed.
  Lemma turned_rule D b b2 p : turned b b2 -> (look b p = EMPTY -> forall q, D (put b p) q <-> D (put b2 (s p)) (s q)) ->
    double_three_rule D b p <-> double_three_rule D b2 (s p).
  Proof.
    intros T HD. unfold double_three_rule. rewrite <- (turned_quiet p T).
    rewrite <- (two_lin (P := three D b2 (s p))) by (intros d; apply three_neg).
    split; intros (Q & d1 & d2 & N & I1 & I2 & X1 & X2); (split; [exact Q|]); specialize (HD (proj1 Q)); exists d1, d2; conj; auto;
      first [apply (turned_three d1 T HD)|apply (turned_three d2 T HD)]; assumption.
  Qed.
  Lemma turned_finite b b2 : turned b b2 -> finite b -> finite b2.
  Proof.
    intros T (l & C). exists (map s l). intros q E. apply in_map_iff. exists (s_inv q). split; [apply s_surj|].
    apply C. rewrite T, s_surj. exact E.
  Qed.
  Lemma turned_double_three D : is_double_three_predicate D -> forall n l b b2, (List.length l <= n)%nat -> covers l b -> turned b b2 ->
    forall p, D b p <-> D b2 (s p).
  Proof.
    intros HD. induction n as [|n IH]; intros l b b2 Hl C T p.
    - destruct l; [|cbn in Hl; lia]. assert (F : finite b) by (exists []; exact C).
      rewrite (HD b F p), (HD b2 (turned_finite T F) (s p)).
      split; intros (Q & _); [destruct (C p (proj1 Q))|]. destruct Q as (E & _). rewrite <- T in E. destruct (C p E).
    - assert (F : finite b) by (exists l; exact C). rewrite (HD b F p), (HD b2 (turned_finite T F) (s p)).
      apply turned_rule; [exact T|]. intros E. apply (IH (remove point_dec p l)); [|apply covers_put; exact C|apply turned_put; exact T].
      pose proof (@remove_shorter l p (C p E)). lia.
  Qed.
  Theorem turned_forbidden D b b2 p : is_double_three_predicate D -> finite b -> turned b b2 ->
    forbidden D b p <-> forbidden D b2 (s p).
  Proof.
    intros HD (l & C) T. unfold forbidden.
    rewrite (turned_double_three HD (le_n _) C T p), (turned_double_four p T), (turned_overline p T), (T p). reflexivity.
  Qed.
End Sym.

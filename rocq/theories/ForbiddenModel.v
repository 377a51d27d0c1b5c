(** The functions of Board compute the rules of ForbiddenSpec.v. *)
From Verif Require Import Base BaseFacts Forbidden ForbiddenSpec ForbiddenFacts.
Set Implicit Arguments.
Unset Strict Implicit.

Definition posz (p : Z * Z) : Z := (fst p + 5) * 32 + (snd p + 5).
Definition onb (p : Z * Z) : Prop := 0 <= fst p < 22 /\ 0 <= snd p < 22.
Definition dirz (d : Z * Z) : Z := 32 * fst d + snd d.

(** The array [L] holds the plane [b]. *)
Definition rep (L : list color) (b : plane) : Prop :=
  List.length L = 1024%nat
  /\ (forall x y, -5 <= x <= 26 -> -5 <= y <= 26 -> nth_error L (Z.to_nat (posz (x, y))) = Some (b x y))
  /\ (forall x y, b x y <> WALL -> onb (x, y)).

Lemma make_pos_ok x y : onb (x, y) -> make_pos x y = posz (x, y).
Proof.
  unfold onb, make_pos, posz, u16. cbn [fst snd]. intros H. rewrite Z.shiftl_mul_pow2 by lia. change (2 ^ 5) with 32.
  apply Z.mod_small. change (2 ^ 16) with 65536. lia.
Qed.
Lemma u16_id z : 0 <= z < 1024 -> u16 z = z.
Proof. intros H. apply Z.mod_small. change (2 ^ 16) with 65536. lia. Qed.
Lemma posz_inj p q : -5 <= fst p <= 26 -> -5 <= snd p <= 26 -> -5 <= fst q <= 26 -> -5 <= snd q <= 26 -> posz p = posz q -> p = q.
Proof. destruct p as [x y], q as [u v]. unfold posz. cbn [fst snd]. intros. f_equal; lia. Qed.

Lemma posz_along p d k : posz (along p d k) = posz p + dirz d * k.
Proof. unfold posz, along, dirz. cbn [fst snd]. ring. Qed.
Lemma lines_small d : In d lines -> -1 <= fst d <= 1 /\ -1 <= snd d <= 1.
Proof. cbn. intros [<-|[<-|[<-|[<-|[]]]]]; cbn; lia. Qed.
Lemma along_range p d k : onb p -> In d lines -> -5 <= k <= 5 ->
  -5 <= fst (along p d k) <= 26 /\ -5 <= snd (along p d k) <= 26.
Proof. intros [H1 H2] Hd Hk. apply lines_small in Hd. unfold along. cbn [fst snd]. nia. Qed.
Lemma posz_range p : -5 <= fst p <= 26 -> -5 <= snd p <= 26 -> 0 <= posz p < 1024.
Proof. unfold posz. lia. Qed.

Section Rep.
  Variables (L : list color) (b : plane).
  Hypothesis HR : rep L b.

  Lemma cell_ok p : -5 <= fst p <= 26 -> -5 <= snd p <= 26 -> cell L (posz p) = Ok (look b p).
  Proof.
    intros H1 H2. unfold cell. pose proof (posz_range H1 H2). replace (0 <=? posz p) with true by lia.
    destruct HR as (_ & HC & _). unfold py_get. destruct p as [x y]. rewrite HC by assumption. reflexivity.
  Qed.
  Lemma cell_onb p : onb p -> cell L (posz p) = Ok (look b p).
  Proof. intros [H1 H2]. apply cell_ok; lia. Qed.
  Lemma cell_line p d k : onb p -> In d lines -> -5 <= k <= 5 -> cell L (posz p + dirz d * k) = Ok (look b (along p d k)).
  Proof. intros Hp Hd Hk. rewrite <- posz_along. destruct (along_range Hp Hd Hk). apply cell_ok; assumption. Qed.
  Lemma look_onb p : look b p <> WALL -> onb p.
  Proof. destruct HR as (_ & _ & HW). destruct p as [x y]. apply HW. Qed.
  Lemma empty_onb p : look b p = EMPTY -> onb p.
  Proof. intros H. apply look_onb. congruence. Qed.

  Lemma count_loop_ok n : forall at_ f i c,
    (forall j, i <= j < i + Z.of_nat n -> cell L (at_ j) = Ok (f j)) ->
    exists k, 0 <= k <= Z.of_nat n /\ count_loop n L BLACK at_ i c = Ok (i + k, c + k)
      /\ (forall j, i <= j < i + k -> f j = BLACK) /\ (k < Z.of_nat n -> f (i + k) <> BLACK).
  Proof.
    induction n as [|n IH]; intros at_ f i c Hc; cbn [count_loop].
    - exists 0. conj; try lia. f_equal. f_equal; lia.
    - rewrite (Hc i) by lia. cbn [bind]. destruct (color_eqb_spec (f i) BLACK) as [E|N].
      + destruct (IH at_ f (i + 1) (c + 1)) as (k & Hk & E1 & E2 & E3); [intros j Hj; apply Hc; lia|].
        exists (k + 1). conj; try lia.
        * rewrite E1. f_equal. f_equal; lia.
        * intros j Hj. destruct (Z.eq_dec j i) as [->|]; auto. apply E2. lia.
        * intros Hlt. replace (i + (k + 1)) with (i + 1 + k) by lia. apply E3. lia.
      + exists 0. conj; try lia; [f_equal; f_equal; lia|]. intros _. rewrite Z.add_0_r. exact N.
  Qed.

  Lemma row_count_ok p d : onb p -> In d lines ->
    exists c, row_count L (posz p) BLACK (dirz d) = Ok c
      /\ (c = 5 <-> five_on b p d)
      /\ (5 < c <-> exists a, a <= 0 < a + 6 /\ black_row (put b p) p d a 6).
  Proof.
    intros Hp Hd. unfold row_count.
    destruct (@count_loop_ok 5 (fun i => posz p - dirz d * i) (fun i => look b (along p d (- i))) 1 1) as (l & Hl & E1 & L1 & L2).
    { intros j Hj. replace (posz p - dirz d * j) with (posz p + dirz d * - j) by lia. apply cell_line; auto. lia. }
    rewrite E1. cbn [bind].
    destruct (@count_loop_ok (Z.to_nat (7 - (1 + l) - 1)) (fun j => posz p + dirz d * j) (fun j => look b (along p d j)) 1 (1 + l)) as (r & Hr & E2 & R1 & R2).
    { intros j Hj. apply cell_line; auto. lia. }
    rewrite E2. cbn [bind]. exists (1 + l + r). split; [reflexivity|].
    assert (P : forall k, k <> 0 -> look (put b p) (along p d k) = look b (along p d k)) by (intros; apply look_put_line0; auto).
    assert (P0 : look (put b p) (along p d 0) = BLACK) by (rewrite along_0; apply look_put_same).
    assert (A : forall k, - l <= k <= r -> look (put b p) (along p d k) = BLACK).
    { intros k Hk. destruct (Z.eq_dec k 0) as [->|N]; [exact P0|]. rewrite P by exact N.
      destruct (Z.lt_ge_cases k 0); [replace k with (- - k) by lia; apply L1; lia|apply R1; lia]. }
    assert (B1 : l < 5 -> look (put b p) (along p d (- l - 1)) <> BLACK).
    { intros Hlt. rewrite P by lia. replace (- l - 1) with (- (1 + l)) by lia. apply L2. lia. }
    assert (B2 : l + r < 5 -> look (put b p) (along p d (r + 1)) <> BLACK).
    { intros Hlt. rewrite P by lia. replace (r + 1) with (1 + r) by lia. apply R2. lia. }
    split; split.
    - intros E. exists (- l). split; [lia|]. split; [intros k Hk; apply A; lia|].
      split; [apply B1; lia|]. replace (- l + 5) with (r + 1) by lia. apply B2. lia.
    - intros (a & Ha & Hrow & N1 & N2).
      assert (l = - a).
      { destruct (Z.lt_trichotomy l (- a)) as [C|[C|C]]; auto; exfalso.
        - apply B1; [lia|]. apply Hrow. lia.
        - apply N1. apply A. lia. }
      assert (r = a + 4); [|lia].
      destruct (Z.lt_trichotomy r (a + 4)) as [C|[C|C]]; auto; exfalso.
      + apply B2; [lia|]. apply Hrow. lia.
      + apply N2. apply A. lia.
    - intros E. exists (- l). split; [lia|]. intros k Hk. apply A. lia.
    - intros (a & Ha & Hrow).
      destruct (Z.lt_ge_cases (l + r) 5) as [C|C]; [|lia]. exfalso.
      destruct (Z.lt_ge_cases l (- a)) as [C1|C1].
      + apply B1; [lia|]. apply Hrow. lia.
      + apply B2; [lia|]. apply Hrow. lia.
  Qed.

  Definition dline (i : nat) : Z * Z := nth i lines (0, 0).
  Lemma direction_ok i : (i < 4)%nat -> direction i = Ok (dirz (dline i)) /\ In (dline i) lines.
  Proof. intros H. do 4 (destruct i as [|i]; [split; [reflexivity|cbn; tauto]|]). lia. Qed.

  Lemma is_five_dir_ok p i : onb p -> (i < 4)%nat ->
    exists r, is_five_dir L (posz p) BLACK i = Ok r /\ (r = true <-> look b p = EMPTY /\ five_on b p (dline i)).
  Proof.
    intros Hp Hi. unfold is_five_dir. rewrite cell_onb by exact Hp. cbn [bind].
    destruct (color_eqb_spec (look b p) EMPTY) as [E|N]; cbn [negb].
    - destruct (direction_ok Hi) as [Ed Hd]. rewrite Ed. cbn [bind].
      destruct (row_count_ok Hp Hd) as (c & Ec & H5 & _). rewrite Ec. cbn [bind]. exists (c =? 5). split; [reflexivity|].
      rewrite Z.eqb_eq. tauto.
    - exists false. split; [reflexivity|]. split; [discriminate|tauto].
  Qed.
  Lemma five_iff p : five b p <-> five_on b p (dline 0) \/ five_on b p (dline 1) \/ five_on b p (dline 2) \/ five_on b p (dline 3).
  Proof.
    unfold five. split.
    - intros (d & I & H). cbn in I. destruct I as [<-|[<-|[<-|[<-|[]]]]]; auto.
    - intros [H|[H|[H|H]]]; eexists; (split; [|exact H]); cbn; tauto.
  Qed.
  Lemma is_five_ok p : onb p -> exists r, is_five L (posz p) BLACK = Ok r /\ (r = true <-> look b p = EMPTY /\ five b p).
  Proof.
    intros Hp. unfold is_five. rewrite cell_onb by exact Hp. cbn [bind].
    destruct (color_eqb_spec (look b p) EMPTY) as [E|N]; cbn [negb].
    2:{ exists false. split; [reflexivity|]. split; [discriminate|tauto]. }
    destruct (@is_five_dir_ok p 0 Hp ltac:(lia)) as (r0 & E0 & H0). destruct (@is_five_dir_ok p 1 Hp ltac:(lia)) as (r1 & E1 & H1).
    destruct (@is_five_dir_ok p 2 Hp ltac:(lia)) as (r2 & E2 & H2). destruct (@is_five_dir_ok p 3 Hp ltac:(lia)) as (r3 & E3 & H3).
    cbn [five_dirs]. rewrite E0. cbn [bind]. pose proof (five_iff p) as F5.
    destruct r0; [exists true; split; [reflexivity|]; tauto|]. rewrite E1. cbn [bind].
    destruct r1; [exists true; split; [reflexivity|]; tauto|]. rewrite E2. cbn [bind].
    destruct r2; [exists true; split; [reflexivity|]; tauto|]. rewrite E3. cbn [bind].
    destruct r3; [exists true; split; [reflexivity|]; tauto|].
    exists false. split; [reflexivity|]. split; [discriminate|]. intros [_ H]. apply F5 in H. destruct H as [H|[H|[H|H]]]; [apply H0|apply H1|apply H2|apply H3]; auto.
  Qed.
  Definition six_on p d := exists a, a <= 0 < a + 6 /\ black_row (put b p) p d a 6.
  Lemma overline_iff p : overline b p <-> six_on p (dline 0) \/ six_on p (dline 1) \/ six_on p (dline 2) \/ six_on p (dline 3).
  Proof.
    unfold overline. split.
    - intros (d & a & I & H). assert (S : six_on p d) by (exists a; exact H). cbn in I. destruct I as [<-|[<-|[<-|[<-|[]]]]]; auto.
    - intros [(a & H)|[(a & H)|[(a & H)|(a & H)]]]; eexists; exists a; (split; [|exact H]); cbn; tauto.
  Qed.
  Lemma is_overline_ok p : onb p -> exists r, is_overline L (posz p) BLACK = Ok r /\ (r = true <-> look b p = EMPTY /\ overline b p).
  Proof.
    intros Hp. unfold is_overline. rewrite cell_onb by exact Hp. cbn [bind].
    destruct (color_eqb_spec (look b p) EMPTY) as [E|N]; cbn [negb].
    2:{ exists false. split; [reflexivity|]. split; [discriminate|tauto]. }
    destruct (@row_count_ok p (dline 0) Hp ltac:(cbn; tauto)) as (c0 & E0 & _ & H0). destruct (@row_count_ok p (dline 1) Hp ltac:(cbn; tauto)) as (c1 & E1 & _ & H1).
    destruct (@row_count_ok p (dline 2) Hp ltac:(cbn; tauto)) as (c2 & E2 & _ & H2). destruct (@row_count_ok p (dline 3) Hp ltac:(cbn; tauto)) as (c3 & E3 & _ & H3).
    fold (six_on p (dline 0)) in H0. fold (six_on p (dline 1)) in H1. fold (six_on p (dline 2)) in H2. fold (six_on p (dline 3)) in H3.
    unfold DIRECTION. change (dirz (dline 0)) with 1 in E0. change (dirz (dline 1)) with (32 - 1) in E1. change (dirz (dline 2)) with 32 in E2. change (dirz (dline 3)) with (32 + 1) in E3.
    cbn [overline_dirs]. rewrite E0. cbn [bind]. pose proof (overline_iff p) as F6.
    destruct (Z.ltb_spec 5 c0) as [C0|C0]; [exists true; split; [reflexivity|]; tauto|]. rewrite E1. cbn [bind].
    destruct (Z.ltb_spec 5 c1) as [C1|C1]; [exists true; split; [reflexivity|]; tauto|]. rewrite E2. cbn [bind].
    destruct (Z.ltb_spec 5 c2) as [C2|C2]; [exists true; split; [reflexivity|]; tauto|]. rewrite E3. cbn [bind].
    destruct (Z.ltb_spec 5 c3) as [C3|C3]; [exists true; split; [reflexivity|]; tauto|].
    exists false. split; [reflexivity|]. split; [discriminate|]. intros [_ H]. apply F6 in H. destruct H as [H|[H|[H|H]]]; [apply H0 in H|apply H1 in H|apply H2 in H|apply H3 in H]; lia.
  Qed.
  Lemma playable_ok p : onb p -> exists r, playable L (posz p) BLACK = Ok r /\ (r = true <-> quiet b p).
  Proof.
    intros Hp. unfold playable, quiet. rewrite cell_onb by exact Hp. cbn [bind].
    destruct (color_eqb_spec (look b p) EMPTY) as [E|N]; cbn [negb].
    2:{ exists false. split; [reflexivity|]. split; [discriminate|tauto]. }
    destruct (is_five_ok Hp) as (f & Ef & Hf). rewrite Ef. cbn [bind].
    destruct f; [exists false; split; [reflexivity|]; split; [discriminate|tauto]|].
    change (color_eqb BLACK BLACK) with true. cbv iota.
    destruct (is_overline_ok Hp) as (o & Eo & Ho). rewrite Eo. cbn [bind].
    destruct o; [exists false; split; [reflexivity|]; split; [discriminate|tauto]|].
    exists true. split; [reflexivity|]. split; auto. intros _. conj; auto; intros X; [assert (false = true) by tauto|assert (false = true) by tauto]; discriminate.
  Qed.
End Rep.

(** ** Placing and taking back a stone *)
Definition with_black (L : list color) (p : Z * Z) : list color := upd L (Z.to_nat (posz p)) BLACK.
Lemma rep_put L b p : rep L b -> onb p -> rep (with_black L p) (put b p).
Proof.
  intros (HL & HC & HW) Hp. unfold with_black, rep. conj.
  - rewrite upd_length. exact HL.
  - intros x y Hx Hy. rewrite nth_error_upd. pose proof (@posz_range (x, y) Hx Hy) as B1.
    destruct Hp as [P1 P2]. pose proof (@posz_range p ltac:(lia) ltac:(lia)) as B2.
    unfold put. destruct (Nat.eqb_spec (Z.to_nat (posz (x, y))) (Z.to_nat (posz p))) as [E|N].
    + assert (Ep : (x, y) = p) by (apply posz_inj; cbn; lia). subst p. cbn [fst snd]. rewrite !Z.eqb_refl.
      replace (_ <? _)%nat with true by (symmetry; apply Nat.ltb_lt; lia). reflexivity.
    + replace ((x =? fst p) && (y =? snd p)) with false; [apply HC; assumption|].
      symmetry. apply andb_false_iff. destruct p as [u v]. cbn [fst snd] in *.
      destruct (Z.eqb_spec x u) as [->|]; auto. destruct (Z.eqb_spec y v) as [->|]; auto. congruence.
  - intros x y. unfold put. destruct (Z.eqb_spec x (fst p)) as [->|]; cbn [andb]; [|apply HW].
    destruct (Z.eqb_spec y (snd p)) as [->|]; [|apply HW]. intros _. destruct p; exact Hp.
Qed.
Lemma set_black L b p : rep L b -> look b p = EMPTY -> set_cell L (posz p) BLACK = Ok (with_black L p).
Proof.
  intros HR E. pose proof (empty_onb HR E) as Hp. unfold set_cell. destruct Hp as [P1 P2].
  pose proof (@posz_range p ltac:(lia) ltac:(lia)) as B. replace (posz p <? 1024) with true by lia.
  rewrite (cell_onb HR) by (split; assumption). cbn [bind]. rewrite E. cbn [color_eqb negb].
  unfold py_set. destruct HR as (HL & _). replace (_ <? _)%nat with true by (symmetry; apply Nat.ltb_lt; lia). reflexivity.
Qed.
Lemma upd_upd_back (L : list color) : forall n, nth_error L n = Some EMPTY -> upd (upd L n BLACK) n EMPTY = L.
Proof.
  induction L as [|c L IH]; intros [|n] H; cbn in *; try congruence. f_equal. apply IH. exact H.
Qed.
Lemma rep_nth L b p : rep L b -> onb p -> nth_error L (Z.to_nat (posz p)) = Some (look b p).
Proof. intros (_ & HC & _) [H1 H2]. destruct p as [x y]. apply HC; cbn [fst snd] in *; lia. Qed.
Lemma unset_black L b p : rep L b -> look b p = EMPTY -> set_cell (with_black L p) (posz p) EMPTY = Ok L.
Proof.
  intros HR E. pose proof (empty_onb HR E) as Hp. pose proof (rep_put HR Hp) as HR1.
  unfold set_cell. rewrite (cell_onb HR1) by exact Hp. cbn [bind]. rewrite look_put_same. cbn [color_eqb negb].
  pose proof (rep_nth HR Hp) as Hn. destruct Hp as [P1 P2].
  pose proof (@posz_range p ltac:(lia) ltac:(lia)) as B. replace (posz p <? 1024) with true by lia.
  unfold py_set. destruct HR1 as (HL & _). replace (_ <? _)%nat with true by (symmetry; apply Nat.ltb_lt; lia).
  f_equal. unfold with_black. apply upd_upd_back. rewrite Hn, E. reflexivity.
Qed.

(** ** Walking to the ends of the row *)
Lemma seek_ok n test : forall L at_ f i e,
  (forall j, i <= j < i + Z.of_nat n -> 0 <= at_ j < 1024 /\ cell L (at_ j) = Ok (f j)) ->
  i <= e < i + Z.of_nat n -> (forall j, i <= j < e -> f j = BLACK) -> f e <> BLACK ->
  seek n L BLACK at_ i test
  = if color_eqb (f e) EMPTY then '(hit, b1) <- test L (at_ e) ;; Ok (e, hit, b1) else Ok (e, false, L).
Proof.
  induction n as [|n IH]; intros L at_ f i e Hc He Hb Hn; cbn [seek]; [lia|].
  destruct (Hc i ltac:(lia)) as [Hr Ec]. rewrite u16_id by exact Hr. rewrite Ec. cbn [bind].
  destruct (color_eqb_spec (f i) BLACK) as [E|N].
  - assert (i <> e) by congruence. apply IH; try lia; auto; intros j Hj; [apply Hc; lia|apply Hb; lia].
  - assert (i = e). { destruct (Z.eq_dec i e); auto. exfalso. apply N. apply Hb. lia. } subst e. reflexivity.
Qed.
Lemma seek_count_ok n iDir : forall L at_ f i e c v,
  (forall j, i <= j < i + Z.of_nat n -> 0 <= at_ j < 1024 /\ cell L (at_ j) = Ok (f j)) ->
  i <= e < i + Z.of_nat n -> (forall j, i <= j < e -> f j = BLACK) -> f e <> BLACK ->
  seek_count n L BLACK iDir at_ i c v
  = if color_eqb (f e) EMPTY then h <- is_five_dir L (at_ e) BLACK iDir ;; Ok (e, c + (e - i), v + (if h then 1 else 0))
    else Ok (e, c + (e - i), v).
Proof.
  induction n as [|n IH]; intros L at_ f i e c v Hc He Hb Hn; cbn [seek_count]; [lia|].
  destruct (Hc i ltac:(lia)) as [Hr Ec]. rewrite u16_id by exact Hr. rewrite Ec. cbn [bind].
  destruct (color_eqb_spec (f i) BLACK) as [E|N].
  - assert (i <> e) by congruence. rewrite (IH L at_ f (i + 1) e (c + 1) v); try lia; auto.
    + replace (c + 1 + (e - (i + 1))) with (c + (e - i)) by lia. reflexivity.
    + intros j Hj. apply Hc. lia.
    + intros j Hj. apply Hb. lia.
  - assert (i = e). { destruct (Z.eq_dec i e); auto. exfalso. apply N. apply Hb. lia. } subst e.
    rewrite Z.sub_diag, Z.add_0_r. reflexivity.
Qed.

Section Walk.
  Variables (L : list color) (b : plane) (p : Z * Z) (iDir : nat).
  Hypothesis HR : rep L b.
  Hypothesis Hi : (iDir < 4)%nat.
  Hypothesis Hp : onb p.
  Let d := dline iDir.
  Let L1 := with_black L p.
  Let b1 := put b p.
  Variables (el er : Z).
  Hypothesis Hends : ends b p d el er.
  Lemma Hdl : In d lines.
  Proof. apply (direction_ok Hi). Qed.
  Lemma HR1 : rep L1 b1.
  Proof. apply rep_put; assumption. Qed.
  Lemma walk_left j : 1 <= j < 1 + Z.of_nat 4 -> 0 <= posz p - dirz d * j < 1024 /\ cell L1 (posz p - dirz d * j) = Ok (look b1 (along p d (- j))).
  Proof.
    intros Hj. replace (posz p - dirz d * j) with (posz p + dirz d * - j) by lia. split.
    - rewrite <- posz_along. destruct (@along_range p d (- j) Hp Hdl ltac:(lia)). apply posz_range; assumption.
    - apply (cell_line HR1); auto; [apply Hdl|lia].
  Qed.
  Lemma walk_right j : 1 <= j < 1 + Z.of_nat (Z.to_nat (6 - el - 1)) -> 0 <= posz p + dirz d * j < 1024 /\ cell L1 (posz p + dirz d * j) = Ok (look b1 (along p d j)).
  Proof.
    destruct Hends as (G1 & G2 & G3 & _). intros Hj. split.
    - rewrite <- posz_along. destruct (@along_range p d j Hp Hdl ltac:(lia)). apply posz_range; assumption.
    - apply (cell_line HR1); auto; [apply Hdl|lia].
  Qed.
  Lemma el_facts : 1 <= el < 1 + Z.of_nat 4 /\ (forall j, 1 <= j < el -> look b1 (along p d (- j)) = BLACK) /\ look b1 (along p d (- el)) <> BLACK.
  Proof. destruct Hends as (G1 & G2 & G3 & HB & NL & NR). conj; try lia; auto. intros j Hj. apply HB. lia. Qed.
  Lemma er_facts : 1 <= er < 1 + Z.of_nat (Z.to_nat (6 - el - 1)) /\ (forall j, 1 <= j < er -> look b1 (along p d j) = BLACK) /\ look b1 (along p d er) <> BLACK.
  Proof. destruct Hends as (G1 & G2 & G3 & HB & NL & NR). conj; try lia; auto. intros j Hj. apply HB. lia. Qed.

  Variable test : list color -> Z -> res (bool * list color).
  Variable T : Z -> Prop.
  Hypothesis Htest : forall k, k = - el \/ k = er -> look b1 (along p d k) = EMPTY ->
    exists h, test L1 (posz (along p d k)) = Ok (h, L1) /\ (h = true <-> T k).
  Lemma seek_both_ok : exists r, seek_both L1 BLACK (posz p) (dirz d) test = Ok (r, L1)
    /\ (r = true <-> exists k, (k = - el \/ k = er) /\ look b1 (along p d k) = EMPTY /\ T k).
  Proof.
    unfold seek_both. destruct el_facts as (F1 & F2 & F3). destruct er_facts as (F4 & F5 & F6).
    rewrite (@seek_ok 4 test L1 _ (fun j => look b1 (along p d (- j))) 1 el walk_left F1 F2 F3).
    assert (Left : exists h, (if color_eqb (look b1 (along p d (- el))) EMPTY
        then '(hit, b0) <- test L1 (posz p - dirz d * el) ;; Ok (el, hit, b0) else Ok (el, false, L1)) = Ok (el, h, L1)
        /\ (h = true <-> look b1 (along p d (- el)) = EMPTY /\ T (- el))).
    { destruct (color_eqb_spec (look b1 (along p d (- el))) EMPTY) as [E|N].
      - destruct (Htest (or_introl eq_refl) E) as (h & Eh & Hh).
        replace (posz p - dirz d * el) with (posz (along p d (- el))) by (rewrite posz_along; lia).
        rewrite Eh. cbn [bind]. exists h. split; [reflexivity|tauto].
      - exists false. split; [reflexivity|]. split; [discriminate|tauto]. }
    destruct Left as (h & -> & Hh). cbn [bind]. destruct h.
    { exists true. split; [reflexivity|]. split; auto. intros _. exists (- el). tauto. }
    rewrite (@seek_ok _ test L1 _ (fun j => look b1 (along p d j)) 1 er walk_right F4 F5 F6).
    assert (Right : exists h, (if color_eqb (look b1 (along p d er)) EMPTY
        then '(hit, b0) <- test L1 (posz p + dirz d * er) ;; Ok (er, hit, b0) else Ok (er, false, L1)) = Ok (er, h, L1)
        /\ (h = true <-> look b1 (along p d er) = EMPTY /\ T er)).
    { destruct (color_eqb_spec (look b1 (along p d er)) EMPTY) as [E|N].
      - destruct (Htest (or_intror eq_refl) E) as (h & Eh & Hh').
        replace (posz p + dirz d * er) with (posz (along p d er)) by (rewrite posz_along; lia).
        rewrite Eh. cbn [bind]. exists h. split; [reflexivity|tauto].
      - exists false. split; [reflexivity|]. split; [discriminate|tauto]. }
    destruct Right as (h & -> & Hr). cbn [bind]. exists h. split; [reflexivity|]. split.
    - intros E. exists er. tauto.
    - intros (k & [->| ->] & H); [|tauto]. assert (false = true) by tauto. discriminate.
  Qed.
End Walk.

(** ** Fours *)
Lemma is_four_ok L b p i : rep L b -> onb p -> (i < 4)%nat ->
  exists r, is_four L (posz p) BLACK i = Ok (r, L) /\ (r = true <-> quiet b p /\ four b p (dline i)).
Proof.
  intros HR Hp Hi. unfold is_four. destruct (playable_ok HR Hp) as (ok & Eok & Hok). rewrite Eok. cbn [bind].
  destruct ok; cbn [negb].
  2:{ exists false. split; [reflexivity|]. split; [discriminate|]. intros [Q _]. apply Hok in Q. exact Q. }
  assert (Q : quiet b p) by tauto. destruct (direction_ok Hi) as [Ed Hd]. rewrite Ed. cbn [bind].
  destruct Q as (Ee & N5 & N6). rewrite (set_black HR Ee). cbn [bind].
  destruct (@quiet_ends b p (dline i) Hd) as (el & er & Hends); [split; auto|].
  pose proof (rep_put HR Hp) as HR1.
  destruct (@seek_both_ok L b p i HR Hi Hp el er Hends
    (fun b' posi => f <- is_five_dir b' posi BLACK i ;; Ok (f, b'))
    (fun k => five_on (put b p) (along p (dline i) k) (dline i))) as (r & Er & Hr).
  { intros k Hk Ek. destruct (@is_five_dir_ok _ _ HR1 (along p (dline i) k) i) as (h & Eh & Hh); auto.
    - apply (empty_onb HR1). exact Ek.
    - rewrite Eh. cbn [bind]. exists h. split; [reflexivity|]. tauto. }
  rewrite Er. cbn [bind]. rewrite (unset_black HR Ee). cbn [bind]. exists r. split; [reflexivity|].
  rewrite Hr, (@four_iff b p (dline i) Hd el er Hends). unfold quiet. split.
  - intros (k & [->| ->] & H); auto.
  - intros (_ & [H|H]); eexists; (split; [|exact H]); auto.
Qed.

Lemma is_open_four_ok L b p i : rep L b -> onb p -> (i < 4)%nat ->
  exists t, is_open_four L (posz p) BLACK i = Ok (t, L)
    /\ (t = OF_TRUE <-> quiet b p /\ straight_four b p (dline i))
    /\ (t = OF_LONG <-> quiet b p /\ two_fours_on b p (dline i)).
Proof.
  intros HR Hp Hi. unfold is_open_four. destruct (playable_ok HR Hp) as (ok & Eok & Hok). rewrite Eok. cbn [bind].
  destruct ok; cbn [negb].
  2:{ exists OF_NONE. split; [reflexivity|]. split; (split; [discriminate|]); intros [Q _]; apply Hok in Q; discriminate. }
  assert (Q : quiet b p) by tauto. destruct (direction_ok Hi) as [Ed Hd]. rewrite Ed. cbn [bind].
  pose proof Q as (Ee & N5 & N6). rewrite (set_black HR Ee). cbn [bind].
  destruct (@quiet_ends b p (dline i) Hd Q) as (el & er & Hends).
  pose proof (rep_put HR Hp) as HR1. set (b1 := put b p) in *. set (L1 := with_black L p) in *. set (d := dline i) in *.
  destruct (@el_facts b p i Hi el er Hends) as (F1 & F2 & F3). destruct (@er_facts b p i Hi el er Hends) as (F4 & F5 & F6).
  fold b1 d in F2, F3, F5, F6.
  rewrite (@seek_count_ok 4 i L1 (fun j => posz p - dirz d * j) (fun j => look b1 (along p d (- j))) 1 el 1 0 (@walk_left L b p i HR Hi Hp) F1 F2 F3).
  assert (V : forall k, k = - el \/ k = er ->
    exists v, 0 <= v <= 1 /\ (v = 1 <-> completes b p d k) /\ forall (e c w : Z),
      (if color_eqb (look b1 (along p d k)) EMPTY then h <- is_five_dir L1 (posz (along p d k)) BLACK i ;; Ok (e, c, w + (if h then 1 else 0))
       else Ok (e, c, w)) = Ok (e, c, w + v)).
  { intros k Hk. pose proof (@completes_iff b p d Hd el er Hends k) as CI. change (put b p) with b1 in CI.
    destruct (color_eqb_spec (look b1 (along p d k)) EMPTY) as [E|N].
    - destruct (@is_five_dir_ok L1 b1 HR1 (along p d k) i (empty_onb HR1 E) Hi) as (h & Eh & Hh). rewrite Eh.
      exists (if h then 1 else 0). conj.
      + destruct h; lia.
      + destruct h; lia.
      + fold d in Hh. rewrite CI. destruct h.
        * split; auto. intros _. split; [exact Hk|]. apply Hh. reflexivity.
        * split; [lia|]. intros (_ & X). apply Hh in X. discriminate.
      + intros e c w. reflexivity.
    - exists 0. conj; try lia.
      + rewrite CI. split; [lia|]. intros (_ & X & _). contradiction.
      + intros e c w. rewrite Z.add_0_r. reflexivity. }
  destruct (V (- el) (or_introl eq_refl)) as (v1 & B1 & H1 & X1). destruct (V er (or_intror eq_refl)) as (v2 & B2 & H2 & X2).
  replace (posz p - dirz d * el) with (posz (along p d (- el))) by (rewrite posz_along; lia).
  rewrite X1. cbn [bind].
  assert (D1 : straight_four b p d <-> completes b p d (- el) /\ completes b p d er /\ el + er = 5) by (apply straight_iff; auto).
  assert (D2 : two_fours_on b p d <-> completes b p d (- el) /\ completes b p d er /\ el + er <> 5) by (apply two_fours_iff; auto).
  destruct (Z.eqb_spec (0 + v1) 0) as [Z1|Z1]; cbn [negb bind].
  - unfold L1. rewrite (unset_black HR Ee). cbn [bind]. replace (0 + v1 =? 2) with false by lia.
    exists OF_NONE. split; [reflexivity|]. assert (~ completes b p d (- el)) by (rewrite <- H1; lia).
    split; (split; [discriminate|]); tauto.
  - rewrite (@seek_count_ok (Z.to_nat (6 - el - 1)) i L1 (fun j => posz p + dirz d * j) (fun j => look b1 (along p d j)) 1 er _ _ (@walk_right L b p i HR Hi Hp el er Hends) F4 F5 F6).
    replace (posz p + dirz d * er) with (posz (along p d er)) by (rewrite posz_along; lia).
    rewrite X2. cbn [bind]. unfold L1. rewrite (unset_black HR Ee). cbn [bind].
    eexists. split; [reflexivity|]. rewrite D1, D2, <- H1, <- H2.
    destruct (Z.eqb_spec (0 + v1 + v2) 2) as [Y|Y].
    + destruct (Z.eqb_spec (1 + (el - 1) + (er - 1)) 4) as [W|W].
      * split; split; try discriminate; auto; [intros _; conj; auto; lia|intros (_ & _ & _ & X); lia].
      * split; split; try discriminate; auto; [intros (_ & _ & _ & X); lia|intros _; conj; auto; lia].
    + split; (split; [discriminate|]); intros (_ & X & Y' & _); lia.
Qed.

(** Two different directions out of four. *)
Lemma two_lines (P : Z * Z -> Prop) :
  (exists d1 d2, d1 <> d2 /\ In d1 lines /\ In d2 lines /\ P d1 /\ P d2) <->
  (P (dline 0) /\ P (dline 1)) \/ (P (dline 0) /\ P (dline 2)) \/ (P (dline 0) /\ P (dline 3))
  \/ (P (dline 1) /\ P (dline 2)) \/ (P (dline 1) /\ P (dline 3)) \/ (P (dline 2) /\ P (dline 3)).
Proof.
  split.
  - intros (d1 & d2 & N & I1 & I2 & P1 & P2). cbn in I1, I2. unfold dline. cbn [nth lines].
    destruct I1 as [<-|[<-|[<-|[<-|[]]]]], I2 as [<-|[<-|[<-|[<-|[]]]]]; try congruence; tauto.
  - assert (I : forall i, (i < 4)%nat -> In (dline i) lines) by (intros i Hi; apply direction_ok; exact Hi).
    intros [[A B]|[[A B]|[[A B]|[[A B]|[[A B]|[A B]]]]]];
      [exists (dline 0), (dline 1)|exists (dline 0), (dline 2)|exists (dline 0), (dline 3)
      |exists (dline 1), (dline 2)|exists (dline 1), (dline 3)|exists (dline 2), (dline 3)];
      conj; try (apply I; lia); auto; discriminate.
Qed.
Lemma some_line (P : Z * Z -> Prop) :
  (exists d, In d lines /\ P d) <-> P (dline 0) \/ P (dline 1) \/ P (dline 2) \/ P (dline 3).
Proof.
  split.
  - intros (d & I & H). cbn in I. destruct I as [<-|[<-|[<-|[<-|[]]]]]; auto.
  - intros [H|[H|[H|H]]]; eexists; (split; [|exact H]); cbn; tauto.
Qed.

Lemma count_fours_step L b p : rep L b -> onb p -> forall i n rest, (i < 4)%nat ->
  exists v, 0 <= v <= 2 /\ (v = 2 <-> quiet b p /\ two_fours_on b p (dline i)) /\ (1 <= v <-> quiet b p /\ four b p (dline i))
    /\ count_fours L (posz p) BLACK (i :: rest) n = if 2 <=? n + v then Ok (true, L) else count_fours L (posz p) BLACK rest (n + v).
Proof.
  intros HR Hp i n rest Hi. cbn [count_fours].
  destruct (is_open_four_ok HR Hp Hi) as (t & Et & _ & Ht). rewrite Et. cbn [bind].
  destruct (is_four_ok HR Hp Hi) as (f & Ef & Hf).
  assert (LF : two_fours_on b p (dline i) -> four b p (dline i)).
  { intros ((k1 & _ & _ & C & _) & _). exists k1. exact C. }
  destruct (match t with OF_LONG => true | _ => false end) eqn:El.
  - destruct t; try discriminate. cbn [bind]. exists 2. conj; try lia; [tauto| |reflexivity]. split; [|lia]. intros _.
    destruct Ht as [Ht _]. specialize (Ht eq_refl). tauto.
  - assert (Nl : t <> OF_LONG) by (intros ->; discriminate).
    exists (if f then 1 else 0). conj; try (destruct f; lia).
    + split; [destruct f; lia|]. intros X. apply Ht in X. contradiction.
    + rewrite <- Hf. destruct f; split; auto; try lia; discriminate.
    + destruct t; try contradiction; rewrite Ef; cbn [bind]; reflexivity.
Qed.
Lemma is_double_four_ok L b p : rep L b -> onb p ->
  exists r, is_double_four L (posz p) BLACK = Ok (r, L) /\ (r = true <-> double_four b p).
Proof.
  intros HR Hp. unfold is_double_four. rewrite (cell_onb HR Hp). cbn [bind].
  assert (DF : double_four b p <-> quiet b p /\
    (((four b p (dline 0) /\ four b p (dline 1)) \/ (four b p (dline 0) /\ four b p (dline 2)) \/ (four b p (dline 0) /\ four b p (dline 3))
      \/ (four b p (dline 1) /\ four b p (dline 2)) \/ (four b p (dline 1) /\ four b p (dline 3)) \/ (four b p (dline 2) /\ four b p (dline 3)))
     \/ (two_fours_on b p (dline 0) \/ two_fours_on b p (dline 1) \/ two_fours_on b p (dline 2) \/ two_fours_on b p (dline 3)))).
  { unfold double_four. rewrite (two_lines (four b p)), (some_line (two_fours_on b p)). reflexivity. }
  destruct (color_eqb_spec (look b p) EMPTY) as [E|N]; cbn [negb].
  2:{ exists false. split; [reflexivity|]. split; [discriminate|]. intros [(Q & _) _]. contradiction. }
  destruct (is_five_ok HR Hp) as (f & Ef & Hf). rewrite Ef. cbn [bind].
  destruct f. { exists false. split; [reflexivity|]. split; [discriminate|]. intros [(_ & Q & _) _]. tauto. }
  destruct (count_fours_step HR Hp 0 [1; 2; 3]%nat (ltac:(lia) : (0 < 4)%nat)) as (v0 & B0 & L0 & F0 & ->).
  destruct (count_fours_step HR Hp (0 + v0) [2; 3]%nat (ltac:(lia) : (1 < 4)%nat)) as (v1 & B1 & L1 & F1 & ->).
  destruct (count_fours_step HR Hp (0 + v0 + v1) [3]%nat (ltac:(lia) : (2 < 4)%nat)) as (v2 & B2 & L2 & F2 & ->).
  destruct (count_fours_step HR Hp (0 + v0 + v1 + v2) [] (ltac:(lia) : (3 < 4)%nat)) as (v3 & B3 & L3 & F3 & ->).
  cbn [count_fours].
  assert (Z : double_four b p <-> 2 <= v0 + v1 + v2 + v3).
  { rewrite DF. clear DF. set (f0 := four b p (dline 0)) in *. set (f1 := four b p (dline 1)) in *. set (f2 := four b p (dline 2)) in *. set (f3 := four b p (dline 3)) in *.
    set (t0 := two_fours_on b p (dline 0)) in *. set (t1 := two_fours_on b p (dline 1)) in *. set (t2 := two_fours_on b p (dline 2)) in *. set (t3 := two_fours_on b p (dline 3)) in *.
    clearbody f0 f1 f2 f3 t0 t1 t2 t3. split.
    - intros (Q & [[[X Y]|[[X Y]|[[X Y]|[[X Y]|[[X Y]|[X Y]]]]]]|[X|[X|[X|X]]]]);
        repeat match goal with
        | H : ?f, H2 : 1 <= ?v <-> _ /\ ?f |- _ => apply (conj Q) in H; apply H2 in H
        | H : ?f, H2 : ?v = 2 <-> _ /\ ?f |- _ => apply (conj Q) in H; apply H2 in H
        end; lia.
    - intros H.
      assert (C : forall v, 0 <= v <= 2 -> v = 0 \/ 1 <= v) by (intros; lia).
      assert (C' : forall v, 0 <= v <= 2 -> v = 2 \/ v <= 1) by (intros; lia).
      assert (A1 : v0 = 2 \/ v1 = 2 \/ v2 = 2 \/ v3 = 2 \/ (1 <= v0 /\ 1 <= v1) \/ (1 <= v0 /\ 1 <= v2) \/ (1 <= v0 /\ 1 <= v3)
        \/ (1 <= v1 /\ 1 <= v2) \/ (1 <= v1 /\ 1 <= v3) \/ (1 <= v2 /\ 1 <= v3)) by lia.
      tauto. }
  destruct (Z.leb_spec 2 (0 + v0)); [exists true; split; [reflexivity|]; split; auto; intros _; apply Z; lia|].
  destruct (Z.leb_spec 2 (0 + v0 + v1)); [exists true; split; [reflexivity|]; split; auto; intros _; apply Z; lia|].
  destruct (Z.leb_spec 2 (0 + v0 + v1 + v2)); [exists true; split; [reflexivity|]; split; auto; intros _; apply Z; lia|].
  destruct (Z.leb_spec 2 (0 + v0 + v1 + v2 + v3)); [exists true; split; [reflexivity|]; split; auto; intros _; apply Z; lia|].
  exists false. split; [reflexivity|]. split; [discriminate|]. intros X. apply Z in X. lia.
Qed.

(** ** Threes *)
Definition empties (L : list color) : nat := List.length (filter (fun c => color_eqb c EMPTY) L).
Lemma empties_upd L : forall n, nth_error L n = Some EMPTY -> S (empties (upd L n BLACK)) = empties L.
Proof.
  unfold empties. induction L as [|c L IH]; intros [|n] H; cbn in *; try congruence.
  - injection H as ->. reflexivity.
  - destruct (color_eqb c EMPTY); cbn [List.length]; rewrite <- (IH _ H); reflexivity.
Qed.
Lemma empties_put L b p : rep L b -> look b p = EMPTY -> S (empties (with_black L p)) = empties L.
Proof. intros HR E. apply empties_upd. rewrite (rep_nth HR (empty_onb HR E)), E. reflexivity. Qed.

Lemma rep_finite L b : rep L b -> finite b.
Proof.
  intros HR. exists (flat_map (fun x => map (fun y => (Z.of_nat x, Z.of_nat y)) (seq 0 22)) (seq 0 22)).
  intros [x y] E. destruct (empty_onb HR E) as [H1 H2]. cbn [fst snd] in *. apply in_flat_map. exists (Z.to_nat x).
  split; [apply in_seq; lia|]. apply in_map_iff. exists (Z.to_nat y). split; [f_equal; lia|apply in_seq; lia].
Qed.

Section DoubleThree.
  Variable D : plane -> Z * Z -> Prop.
  Hypothesis HD : is_double_three_predicate D.

  Lemma is_open_three_ok rec L b p i : rep L b -> onb p -> (i < 4)%nat ->
    (forall q, look b p = EMPTY -> onb q ->
       exists r, rec (with_black L p) (posz q) = Ok (r, with_black L p) /\ (r = true <-> D (put b p) q)) ->
    exists r, is_open_three rec L (posz p) BLACK i = Ok (r, L) /\ (r = true <-> quiet b p /\ three D b p (dline i)).
  Proof.
    intros HR Hp Hi Hrec. unfold is_open_three. destruct (playable_ok HR Hp) as (ok & Eok & Hok). rewrite Eok. cbn [bind].
    destruct ok; cbn [negb].
    2:{ exists false. split; [reflexivity|]. split; [discriminate|]. intros [Q _]. apply Hok in Q. exact Q. }
    assert (Q : quiet b p) by tauto. destruct (direction_ok Hi) as [Ed Hd]. rewrite Ed. cbn [bind].
    pose proof Q as (Ee & N5 & N6). rewrite (set_black HR Ee). cbn [bind].
    destruct (@quiet_ends b p (dline i) Hd Q) as (el & er & Hends).
    pose proof (rep_put HR Hp) as HR1. pose proof (@three_iff b p (dline i) Hd el er Hends D) as TI.
    cbv zeta.
    match goal with |- context [seek_both _ _ _ _ ?t] => set (test := t) end.
    destruct (@seek_both_ok L b p i HR Hi Hp el er Hends test
      (fun k => quiet (put b p) (along p (dline i) k) /\ straight_four (put b p) (along p (dline i) k) (dline i)
         /\ ~ double_four (put b p) (along p (dline i) k) /\ ~ D (put b p) (along p (dline i) k))) as (r & Er & Hr).
    { intros k Hk Ek. pose proof (empty_onb HR1 Ek) as Hq. unfold test. set (q := along p (dline i) k) in *.
      destruct (is_open_four_ok HR1 Hq Hi) as (t & Et & Ht & _). rewrite Et. cbn [bind].
      destruct t.
      - exists false. split; [reflexivity|]. split; [discriminate|]. intros (X & Y & _). apply (conj X) in Y. apply Ht in Y. discriminate.
      - destruct (is_double_four_ok HR1 Hq) as (df & Edf & Hdf). rewrite Edf. cbn [bind].
        destruct df.
        + exists false. split; [reflexivity|]. split; [discriminate|]. tauto.
        + destruct (Hrec q Ee Hq) as (dt & Edt & Hdt). rewrite Edt. cbn [bind].
          exists (negb dt). split; [reflexivity|]. assert (X : quiet (put b p) q /\ straight_four (put b p) q (dline i)) by tauto.
          assert (Y : ~ double_four (put b p) q) by (intros C; apply Hdf in C; discriminate).
          destruct dt; cbn [negb]; [split; [discriminate|tauto]|]. split; auto. intros _.
          assert (~ D (put b p) q) by (intros C; apply Hdt in C; discriminate). tauto.
      - exists false. split; [reflexivity|]. split; [discriminate|]. intros (X & Y & _). apply (conj X) in Y. apply Ht in Y. discriminate. }
    rewrite Er. cbn [bind]. rewrite (unset_black HR Ee). cbn [bind]. exists r. split; [reflexivity|].
    rewrite Hr, TI. split.
    - intros (k & Hk & _ & X). split; [exact Q|]. exists k. split; [exact Hk|exact X].
    - intros (_ & k & Hk & X). exists k. split; [exact Hk|]. split; [apply X|exact X].
  Qed.

  Lemma count_threes_step L (three_ : list color -> nat -> res (bool * list color)) (P : nat -> Prop) :
    (forall i, (i < 4)%nat -> exists r, three_ L i = Ok (r, L) /\ (r = true <-> P i)) ->
    forall i n rest, (i < 4)%nat ->
    exists v, 0 <= v <= 1 /\ (1 <= v <-> P i)
      /\ count_threes three_ L (i :: rest) n = if 2 <=? n + v then Ok (true, L) else count_threes three_ L rest (n + v).
  Proof.
    intros H i n rest Hi. cbn [count_threes]. destruct (H i Hi) as (r & Er & Hr). rewrite Er. cbn [bind].
    exists (if r then 1 else 0). conj; try (destruct r; lia); [|reflexivity].
    rewrite <- Hr. destruct r; split; auto; try lia; discriminate.
  Qed.

  Lemma is_double_three_ok : forall fuel L b p, rep L b -> onb p -> (empties L < fuel)%nat ->
    exists r, is_double_three fuel L (posz p) BLACK = Ok (r, L) /\ (r = true <-> D b p).
  Proof.
    induction fuel as [|fuel IH]; intros L b p HR Hp HF; [lia|]. cbn [is_double_three].
    rewrite (cell_onb HR Hp). cbn [bind].
    assert (DT : D b p <-> quiet b p /\
      ((three D b p (dline 0) /\ three D b p (dline 1)) \/ (three D b p (dline 0) /\ three D b p (dline 2)) \/ (three D b p (dline 0) /\ three D b p (dline 3))
      \/ (three D b p (dline 1) /\ three D b p (dline 2)) \/ (three D b p (dline 1) /\ three D b p (dline 3)) \/ (three D b p (dline 2) /\ three D b p (dline 3)))).
    { rewrite (HD (rep_finite HR) p). unfold double_three_rule. rewrite (two_lines (three D b p)). reflexivity. }
    destruct (color_eqb_spec (look b p) EMPTY) as [E|N]; cbn [negb].
    2:{ exists false. split; [reflexivity|]. split; [discriminate|]. intros X. apply DT in X. destruct X as [(Q & _) _]. contradiction. }
    destruct (is_five_ok HR Hp) as (f & Ef & Hf). rewrite Ef. cbn [bind].
    destruct f. { exists false. split; [reflexivity|]. split; [discriminate|]. intros X. apply DT in X. destruct X as [(_ & Q & _) _]. tauto. }
    match goal with |- context [count_threes ?t _ _ _] => set (three_ := t) end.
    pose proof (@count_threes_step L three_ (fun i => quiet b p /\ three D b p (dline i))) as ST.
    assert (G : forall i, (i < 4)%nat -> exists r, three_ L i = Ok (r, L) /\ (r = true <-> quiet b p /\ three D b p (dline i))).
    { intros i Hi. apply is_open_three_ok; auto. intros q _ Hq. apply IH; auto; [apply rep_put; auto|].
      pose proof (empties_put HR E). lia. }
    specialize (ST G).
    destruct (ST 0%nat 0 [1; 2; 3]%nat ltac:(lia)) as (v0 & B0 & F0 & ->).
    destruct (ST 1%nat (0 + v0) [2; 3]%nat ltac:(lia)) as (v1 & B1 & F1 & ->).
    destruct (ST 2%nat (0 + v0 + v1) [3]%nat ltac:(lia)) as (v2 & B2 & F2 & ->).
    destruct (ST 3%nat (0 + v0 + v1 + v2) [] ltac:(lia)) as (v3 & B3 & F3 & ->).
    cbn [count_threes].
    assert (Z : D b p <-> 2 <= v0 + v1 + v2 + v3).
    { rewrite DT. split.
      - intros (Q & X). assert (C : (1 <= v0 /\ 1 <= v1) \/ (1 <= v0 /\ 1 <= v2) \/ (1 <= v0 /\ 1 <= v3)
          \/ (1 <= v1 /\ 1 <= v2) \/ (1 <= v1 /\ 1 <= v3) \/ (1 <= v2 /\ 1 <= v3)) by tauto. lia.
      - intros H. assert (C : (1 <= v0 /\ 1 <= v1) \/ (1 <= v0 /\ 1 <= v2) \/ (1 <= v0 /\ 1 <= v3)
          \/ (1 <= v1 /\ 1 <= v2) \/ (1 <= v1 /\ 1 <= v3) \/ (1 <= v2 /\ 1 <= v3)) by lia. tauto. }
    destruct (Z.leb_spec 2 (0 + v0)); [exists true; split; [reflexivity|]; split; auto; intros _; apply Z; lia|].
    destruct (Z.leb_spec 2 (0 + v0 + v1)); [exists true; split; [reflexivity|]; split; auto; intros _; apply Z; lia|].
    destruct (Z.leb_spec 2 (0 + v0 + v1 + v2)); [exists true; split; [reflexivity|]; split; auto; intros _; apply Z; lia|].
    destruct (Z.leb_spec 2 (0 + v0 + v1 + v2 + v3)); [exists true; split; [reflexivity|]; split; auto; intros _; apply Z; lia|].
    exists false. split; [reflexivity|]. split; [discriminate|]. intros X. apply Z in X. lia.
  Qed.

  Lemma is_forbidden_ok fuel L b p : rep L b -> onb p -> (empties L < fuel)%nat ->
    exists t, is_forbidden fuel L (posz p) = Ok (t, L)
      /\ (t = DOUBLE_THREE <-> D b p)
      /\ (t = DOUBLE_FOUR <-> ~ D b p /\ double_four b p)
      /\ (t = OVERLINE <-> ~ D b p /\ ~ double_four b p /\ look b p = EMPTY /\ overline b p)
      /\ (t <> FORBIDDEN_NONE <-> forbidden D b p).
  Proof.
    intros HR Hp HF. unfold is_forbidden.
    destruct (is_double_three_ok HR Hp HF) as (dt & E1 & H1). rewrite E1. cbn [bind].
    destruct (is_double_four_ok HR Hp) as (df & E2 & H2).
    destruct (is_overline_ok HR Hp) as (o & E3 & H3).
    assert (QD : D b p -> look b p = EMPTY). { intros X. apply (HD (rep_finite HR) p) in X. apply X. }
    assert (QF : double_four b p -> look b p = EMPTY). { intros X. apply X. }
    unfold forbidden.
    destruct dt; [|rewrite E2; cbn [bind]; destruct df; [|rewrite E3; cbn [bind]; destruct o]]; eexists; (split; [reflexivity|]).
    - assert (D b p) by tauto. conj; split; try discriminate; tauto.
    - assert (~ D b p) by (intros X; apply H1 in X; discriminate). assert (double_four b p) by tauto. conj; split; try discriminate; tauto.
    - assert (~ D b p) by (intros X; apply H1 in X; discriminate). assert (~ double_four b p) by (intros X; apply H2 in X; discriminate).
      assert (look b p = EMPTY /\ overline b p) by tauto. conj; split; try discriminate; tauto.
    - assert (~ D b p) by (intros X; apply H1 in X; discriminate). assert (~ double_four b p) by (intros X; apply H2 in X; discriminate).
      assert (~ (look b p = EMPTY /\ overline b p)) by (intros X; apply H3 in X; discriminate). conj; split; try discriminate; tauto.
  Qed.
End DoubleThree.

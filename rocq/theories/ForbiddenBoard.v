(** From the sample to the flags. *)
From Verif Require Import Base BaseFacts Forbidden ForbiddenSpec ForbiddenFacts ForbiddenModel.
From Verif Require LineEncoding LineEncodingBoard LineEncodingOut.
Set Implicit Arguments.
Unset Strict Implicit.

Lemma in_points H W y x : In (y, x) (points H W) <-> 0 <= y < Z.of_nat H /\ 0 <= x < Z.of_nat W.
Proof. apply LineEncodingBoard.in_cells. Qed.
Lemma points_length H W : List.length (points H W) = (H * W)%nat.
Proof. apply LineEncodingOut.cells_length. Qed.
Lemma points_nth H W y x : (y < H)%nat -> (x < W)%nat -> nth_error (points H W) (y * W + x) = Some (Z.of_nat y, Z.of_nat x).
Proof. apply LineEncodingOut.cells_nth. Qed.
Lemma NoDup_flat {A B} (f : A -> list B) (l : list A) : NoDup l -> (forall a, In a l -> NoDup (f a)) ->
  (forall a a' x, In a l -> In a' l -> In x (f a) -> In x (f a') -> a = a') -> NoDup (flat_map f l).
Proof.
  induction l as [|a l IH]; intros N F X; cbn [flat_map]; [constructor|]. inversion N as [|? ? Na Nl]; subst.
  assert (NF : NoDup (flat_map f l)) by (apply IH; auto; [intros; apply F; right; auto|intros; eapply X; eauto; right; auto]).
  assert (Fa : NoDup (f a)) by (apply F; left; reflexivity).
  assert (Dis : forall x, In x (f a) -> ~ In x (flat_map f l)).
  { intros x Hx Hx'. apply in_flat_map in Hx'. destruct Hx' as (a' & Ha' & Hx'). apply Na.
    rewrite (X a a' x); auto; [left; reflexivity|right; exact Ha']. }
  clear - NF Fa Dis. induction (f a) as [|x xs IHx]; cbn [app]; [exact NF|]. inversion Fa; subst. constructor.
  - rewrite in_app_iff. intros [H|H]; [contradiction|]. apply (Dis x); [left; reflexivity|exact H].
  - apply IHx; auto. intros y Hy. apply Dis. right. exact Hy.
Qed.
Lemma points_nodup H W : NoDup (points H W).
Proof.
  unfold points. apply NoDup_flat.
  - apply seq_NoDup.
  - intros y _. apply FinFun.Injective_map_NoDup; [intros a b E; injection E; lia|apply seq_NoDup].
  - intros a a' x _ _ H1 H2. apply in_map_iff in H1, H2. destruct H1 as (u & <- & _), H2 as (v & E & _). injection E as E1 E2. lia.
Qed.

Lemma seq_rows n : forall m, seq 0 (n * m) = flat_map (fun r => map (fun c => r * m + c)%nat (seq 0 m)) (seq 0 n).
Proof.
  intros m. induction n as [|n IH]; [reflexivity|].
  rewrite seq_S, flat_map_app, <- IH. cbn [flat_map]. rewrite app_nil_r.
  replace (S n * m)%nat with (n * m + m)%nat by lia. rewrite seq_app. f_equal. cbn [plus].
  generalize (n * m)%nat as q. intros q. clear. revert q.
  assert (A : forall q k, seq (q + k) m = map (fun c => q + c)%nat (seq k m)).
  { induction m as [|m IH]; intros q k; [reflexivity|]. cbn [seq map]. f_equal. rewrite <- Nat.add_succ_r. apply IH. }
  intros q. rewrite <- (Nat.add_0_r q) at 1. apply A.
Qed.
Lemma count_window (lo n m : nat) : (lo + n <= m)%nat ->
  List.length (filter (fun r => (lo <=? r) && (r <? lo + n))%nat (seq 0 m)) = n.
Proof.
  intros H. replace m with (lo + (n + (m - lo - n)))%nat by lia. rewrite !seq_app, !filter_app, !app_length. cbn [plus].
  assert (A : forall b s k, (forall x, (s <= x < s + k)%nat -> ((lo <=? x) && (x <? lo + n))%nat = b) ->
            List.length (filter (fun r => (lo <=? r) && (r <? lo + n))%nat (seq s k)) = if b then k else 0%nat).
  { clear. intros b s k. revert s. induction k as [|k IH]; intros s A; [destruct b; reflexivity|]. cbn [seq filter].
    rewrite (A s ltac:(lia)). specialize (IH (S s) ltac:(intros x Hx; apply A; lia)).
    destruct b; cbn [List.length]; rewrite IH; reflexivity. }
  rewrite (A false 0%nat), (A true lo), (A false (lo + n)%nat); [lia|..]; intros x Hx.
  - apply andb_false_iff. right. apply Nat.ltb_ge. lia.
  - apply andb_true_iff. rewrite Nat.leb_le, Nat.ltb_lt. lia.
  - apply andb_false_iff. left. apply Nat.leb_gt. lia.
Qed.
Lemma filter_map_len (A B : Type) (f : A -> B) (p : B -> bool) l :
  List.length (filter p (map f l)) = List.length (filter (fun x => p (f x)) l).
Proof. induction l as [|a l IH]; [reflexivity|]. cbn [map filter]. destruct (p (f a)); cbn [List.length]; rewrite IH; reflexivity. Qed.
Lemma count_flat (A B : Type) (f : A -> list B) (p : B -> bool) (q : A -> bool) (k : nat) l :
  (forall a, In a l -> List.length (filter p (f a)) = if q a then k else 0%nat) ->
  List.length (filter p (flat_map f l)) = (List.length (filter q l) * k)%nat.
Proof.
  induction l as [|a l IH]; intros F; [reflexivity|]. cbn [flat_map filter]. rewrite filter_app, app_length, (F a (or_introl eq_refl)), IH by (intros; apply F; right; auto).
  destruct (q a); cbn [List.length]; lia.
Qed.
Lemma count_new_board (W H : nat) : (W <= 22)%nat -> (H <= 22)%nat -> empties (new_board (Z.of_nat W) (Z.of_nat H)) = (W * H)%nat.
Proof.
  intros HW HH. unfold empties, new_board. rewrite filter_map_len.
  change 1024%nat with (32 * 32)%nat. rewrite seq_rows.
  rewrite (@count_flat _ _ _ _ (fun r => (5 <=? r) && (r <? 5 + W))%nat H); [rewrite count_window by lia; reflexivity|].
  intros r Hr. apply in_seq in Hr. rewrite filter_map_len.
  assert (E : forall l, (forall c, In c l -> (c < 32)%nat) ->
    List.length (filter (fun c => color_eqb (let pos := Z.of_nat (r * 32 + c) in
      if (0 <=? coord_x pos) && (coord_x pos <? Z.of_nat W) && (0 <=? coord_y pos) && (coord_y pos <? Z.of_nat H) then EMPTY else WALL) EMPTY) l)
    = if ((5 <=? r) && (r <? 5 + W))%nat then List.length (filter (fun c => (5 <=? c) && (c <? 5 + H))%nat l) else 0%nat).
  { induction l as [|c l IH]; intros Hl; [destruct ((5 <=? r) && (r <? 5 + W))%nat; reflexivity|]. cbn [filter].
    specialize (IH ltac:(intros; apply Hl; right; auto)). specialize (Hl c (or_introl eq_refl)). cbv zeta in *.
    assert (Ex : coord_x (Z.of_nat (r * 32 + c)) = Z.of_nat r - 5).
    { unfold coord_x. rewrite Z.shiftr_div_pow2 by lia. change (2 ^ 5) with 32.
      replace (Z.of_nat (r * 32 + c)) with (Z.of_nat r * 32 + Z.of_nat c) by lia.
      rewrite Z.div_add_l by lia. rewrite Z.div_small by lia. lia. }
    assert (Ey : coord_y (Z.of_nat (r * 32 + c)) = Z.of_nat c - 5).
    { unfold coord_y. change 31 with (Z.ones 5). rewrite Z.land_ones by lia. change (2 ^ 5) with 32.
      replace (Z.of_nat (r * 32 + c)) with (Z.of_nat c + Z.of_nat r * 32) by lia.
      rewrite Z.mod_add by lia. rewrite Z.mod_small by lia. lia. }
    rewrite Ex, Ey.
    replace ((0 <=? Z.of_nat r - 5) && (Z.of_nat r - 5 <? Z.of_nat W) && (0 <=? Z.of_nat c - 5) && (Z.of_nat c - 5 <? Z.of_nat H))
      with (((5 <=? r) && (r <? 5 + W)) && ((5 <=? c) && (c <? 5 + H)))%nat.
    2:{ apply eq_true_iff_eq. rewrite !andb_true_iff, !Nat.leb_le, !Nat.ltb_lt, !Z.leb_le, !Z.ltb_lt. lia. }
    destruct ((5 <=? r) && (r <? 5 + W))%nat; cbn [andb color_eqb].
    - destruct ((5 <=? c) && (c <? 5 + H))%nat; cbn [color_eqb List.length]; rewrite IH; reflexivity.
    - exact IH. }
  rewrite E by (intros c Hc; apply in_seq in Hc; lia). rewrite count_window by lia. reflexivity.
Qed.

Section Place.
  Variables (board : list Z) (H W : nat).
  Hypothesis HB : List.length board = (2 * (H * W))%nat.
  Hypothesis H22 : (H <= 22)%nat.
  Hypothesis W22 : (W <= 22)%nat.
  Let b := stones board H W.

  Lemma z_at_ok i : 0 <= i < Z.of_nat (2 * (H * W)) -> z_at board i = Ok (nth (Z.to_nat i) board 0).
  Proof.
    intros Hi. unfold z_at, py_get. replace (0 <=? i) with true by lia.
    destruct (nth_error board (Z.to_nat i)) as [v|] eqn:E; [rewrite (nth_error_nth board _ 0 E); reflexivity|].
    apply nth_error_None in E. lia.
  Qed.

  Lemma new_board_nth x y : -5 <= x <= 26 -> -5 <= y <= 26 ->
    nth_error (new_board (Z.of_nat W) (Z.of_nat H)) (Z.to_nat (posz (x, y)))
    = Some (if (0 <=? x) && (x <? Z.of_nat W) && (0 <=? y) && (y <? Z.of_nat H) then EMPTY else WALL).
  Proof.
    intros Hx Hy. pose proof (@posz_range (x, y) Hx Hy) as B. unfold new_board. rewrite nth_error_map, LineEncodingOut.nth_seq by lia.
    cbn [option_map]. cbv zeta. rewrite Nat.add_0_l, Z2Nat.id by lia.
    assert (Ex : coord_x (posz (x, y)) = x).
    { unfold coord_x, posz. cbn [fst snd]. rewrite Z.shiftr_div_pow2 by lia. change (2 ^ 5) with 32.
      rewrite Z.div_add_l by lia. rewrite Z.div_small by lia. lia. }
    assert (Ey : coord_y (posz (x, y)) = y).
    { unfold coord_y, posz. cbn [fst snd]. change 31 with (Z.ones 5). rewrite Z.land_ones by lia. change (2 ^ 5) with 32.
      rewrite Z.add_comm, Z.mod_add by lia. rewrite Z.mod_small by lia. lia. }
    rewrite Ex, Ey. reflexivity.
  Qed.
  Lemma new_board_length : List.length (new_board (Z.of_nat W) (Z.of_nat H)) = 1024%nat.
  Proof. unfold new_board. rewrite map_length, seq_length. reflexivity. Qed.

  Lemma empties_upd_le L c : c <> EMPTY -> forall n, (empties (upd L n c) <= empties L)%nat.
  Proof.
    intros Hc. unfold empties. induction L as [|a L IH]; intros [|n]; cbn [upd filter]; try lia.
    - destruct (color_eqb_spec c EMPTY); [contradiction|]. destruct (color_eqb a EMPTY); cbn [List.length]; lia.
    - specialize (IH n). destruct (color_eqb a EMPTY); cbn [List.length]; lia.
  Qed.

  Lemma place_ok todo : forall L, NoDup todo -> (forall y x, In (y, x) todo -> 0 <= y < Z.of_nat H /\ 0 <= x < Z.of_nat W) ->
    List.length L = 1024%nat -> (forall y x, In (y, x) todo -> nth_error L (Z.to_nat (posz (x, y))) = Some EMPTY) ->
    exists L', place board (Z.of_nat H) (Z.of_nat W) todo L = Ok L' /\ List.length L' = 1024%nat
      /\ (forall y x, In (y, x) todo -> nth_error L' (Z.to_nat (posz (x, y))) = Some (b x y))
      /\ (forall n, (forall y x, In (y, x) todo -> n <> Z.to_nat (posz (x, y))) -> nth_error L' n = nth_error L n)
      /\ (empties L' <= empties L)%nat.
  Proof.
    induction todo as [|[y x] todo IH]; intros L ND Hin HL HE; cbn [place].
    - exists L. conj; auto. intros y x [].
    - destruct (Hin y x (or_introl eq_refl)) as [Hy Hx]. inversion ND as [|? ? Nin ND']; subst.
      assert (0 <= y * Z.of_nat W + x < Z.of_nat (H * W)) by nia.
      rewrite !z_at_ok by nia. cbn [bind]. cbv zeta.
      set (c := if negb (nth (Z.to_nat (y * Z.of_nat W + x)) board 0 =? 0) then BLACK
                else if negb (nth (Z.to_nat (Z.of_nat H * Z.of_nat W + y * Z.of_nat W + x)) board 0 =? 0) then WHITE else EMPTY).
      assert (Ec : b x y = c).
      { unfold b, stones. replace ((0 <=? x) && (x <? Z.of_nat W) && (0 <=? y) && (y <? Z.of_nat H)) with true by lia. reflexivity. }
      assert (NW : c <> WALL) by (unfold c; destruct (negb _); [discriminate|]; destruct (negb _); discriminate).
      clearbody c.
      assert (OB : onb (x, y)) by (unfold onb; cbn [fst snd]; lia).
      rewrite (make_pos_ok OB).
      assert (B : 0 <= posz (x, y) < 1024) by (apply posz_range; cbn [fst snd]; lia).
      pose proof (HE y x (or_introl eq_refl)) as Hn.
      assert (Set_ : exists L1, (if color_eqb c EMPTY then Ok L else set_cell L (posz (x, y)) c) = Ok L1
        /\ List.length L1 = 1024%nat /\ nth_error L1 (Z.to_nat (posz (x, y))) = Some c
        /\ (forall n, n <> Z.to_nat (posz (x, y)) -> nth_error L1 n = nth_error L n) /\ (empties L1 <= empties L)%nat).
      { destruct (color_eqb_spec c EMPTY) as [->|Nc]; [exists L; conj; auto|].
        exists (upd L (Z.to_nat (posz (x, y))) c). unfold set_cell, cell, py_get.
        replace (posz (x, y) <? 1024) with true by lia. replace (0 <=? posz (x, y)) with true by lia. rewrite Hn. cbn [bind color_eqb negb].
        unfold py_set. replace (_ <? _)%nat with true by (symmetry; apply Nat.ltb_lt; lia). conj; auto.
        - rewrite upd_length. exact HL.
        - rewrite nth_error_upd, Nat.eqb_refl. replace (_ <? _)%nat with true by (symmetry; apply Nat.ltb_lt; lia). reflexivity.
        - intros n Nn. rewrite nth_error_upd. destruct (Nat.eqb_spec n (Z.to_nat (posz (x, y)))); [contradiction|reflexivity].
        - apply empties_upd_le. exact Nc. }
      destruct Set_ as (L1 & -> & HL1 & E1 & O1 & M1). cbn [bind].
      assert (Sep : forall y' x', In (y', x') todo -> Z.to_nat (posz (x', y')) <> Z.to_nat (posz (x, y))).
      { intros y' x' I' E. destruct (Hin y' x' (or_intror I')) as [Hy' Hx'].
        assert (B' : 0 <= posz (x', y') < 1024) by (apply posz_range; cbn [fst snd]; lia).
        assert (X : (x', y') = (x, y)) by (apply posz_inj; cbn [fst snd]; lia). injection X as -> ->. contradiction. }
      destruct (IH L1) as (L' & E' & HL' & C' & O' & M'); auto.
      + intros y' x' I'. apply Hin. right. exact I'.
      + intros y' x' I'. rewrite O1 by (apply Sep; exact I'). apply HE. right. exact I'.
      + exists L'. conj; auto; [| |lia].
        * intros y' x' [E|I']; [injection E as <- <-|apply C'; exact I']. rewrite O', E1, Ec; [reflexivity|].
          intros y' x' I' E. apply (Sep y' x' I'). symmetry. exact E.
        * intros n Hn'. rewrite O'; [apply O1; apply Hn'; left; reflexivity|]. intros y' x' I'. apply Hn'. right. exact I'.
  Qed.

  Lemma new_board_empties : empties (new_board (Z.of_nat W) (Z.of_nat H)) = (H * W)%nat.
  Proof. rewrite Nat.mul_comm. apply count_new_board; lia. Qed.

  Lemma placed : exists L, place board (Z.of_nat H) (Z.of_nat W) (points H W) (new_board (Z.of_nat W) (Z.of_nat H)) = Ok L
    /\ rep L b /\ (empties L <= H * W)%nat.
  Proof.
    destruct (@place_ok (points H W) (new_board (Z.of_nat W) (Z.of_nat H))) as (L & E & HL & C & O & M).
    - apply points_nodup.
    - intros y x I. apply in_points. exact I.
    - apply new_board_length.
    - intros y x I. apply in_points in I. rewrite new_board_nth by lia.
      replace ((0 <=? x) && (x <? Z.of_nat W) && (0 <=? y) && (y <? Z.of_nat H)) with true by lia. reflexivity.
    - exists L. split; [exact E|]. split; [|rewrite new_board_empties in M; exact M]. unfold rep. conj.
      + exact HL.
      + intros x y Hx Hy. destruct ((0 <=? x) && (x <? Z.of_nat W) && (0 <=? y) && (y <? Z.of_nat H)) eqn:In_.
        * apply C. apply in_points. lia.
        * rewrite O; [rewrite new_board_nth by lia; rewrite In_; unfold b, stones; rewrite In_; reflexivity|].
          intros y' x' I' En. apply in_points in I'.
          assert (B1 : 0 <= posz (x, y) < 1024) by (apply posz_range; cbn [fst snd]; lia).
          assert (B2 : 0 <= posz (x', y') < 1024) by (apply posz_range; cbn [fst snd]; lia).
          assert (X : (x, y) = (x', y')) by (apply posz_inj; cbn [fst snd]; lia). injection X as -> ->. lia.
      + intros x y. unfold b, stones. destruct ((0 <=? x) && (x <? Z.of_nat W) && (0 <=? y) && (y <? Z.of_nat H)) eqn:In_; [|congruence].
        intros _. unfold onb. cbn [fst snd]. lia.
  Qed.

  Lemma flags_ok D fuel : is_double_three_predicate D -> (H * W < fuel)%nat -> forall L todo, rep L b -> (empties L <= H * W)%nat ->
    (forall y x, In (y, x) todo -> onb (x, y)) ->
    exists fs, flags fuel L todo = Ok fs /\ List.length fs = List.length todo
      /\ forall i y x, nth_error todo i = Some (y, x) ->
           exists v, nth_error fs i = Some v /\ (v = 0 \/ v = 1) /\ (v = 1 <-> forbidden D b (x, y)).
  Proof.
    intros HD HF L todo HR HE. induction todo as [|[y x] todo IH]; intros Hin; cbn [flags].
    - exists []. conj; auto. intros [|i] y x X; discriminate.
    - pose proof (Hin y x (or_introl eq_refl)) as OB. rewrite (make_pos_ok OB).
      destruct (is_forbidden_ok HD HR OB (ltac:(lia) : (empties L < fuel)%nat)) as (t & Et & _ & _ & _ & Ht). rewrite Et. cbn [bind].
      destruct IH as (fs & Efs & Hl & Hf); [intros y' x' I; apply Hin; right; exact I|]. rewrite Efs. cbn [bind].
      eexists. split; [reflexivity|]. split; [cbn [List.length]; congruence|].
      intros [|i] y' x' Hi; cbn [nth_error] in Hi.
      + injection Hi as <- <-. eexists. split; [reflexivity|]. split; [destruct t; auto|]. rewrite <- Ht.
        destruct t; split; intros; congruence || lia.
      + cbn [nth_error]. apply Hf. exact Hi.
  Qed.
End Place.

Theorem transform_ok D : is_double_three_predicate D -> forall fuel board H W,
  List.length board = (2 * (H * W))%nat -> (H <= 22)%nat -> (W <= 22)%nat -> (H * W < fuel)%nat ->
  exists out, transform_board_to_forbidden_point fuel board H W = Ok out /\ List.length out = (H * W)%nat
    /\ forall x y, (x < W)%nat -> (y < H)%nat ->
         exists v, nth_error out (y * W + x) = Some v /\ (v = 0 \/ v = 1)
           /\ (v = 1 <-> forbidden D (stones board H W) (Z.of_nat x, Z.of_nat y)).
Proof.
  intros HD fuel board H W HB H22 W22 HF. unfold transform_board_to_forbidden_point.
  replace (negb _) with true by lia. cbv iota.
  destruct (placed HB H22 W22) as (L & -> & HR & HE). cbn [bind].
  destruct (@flags_ok board H W HB H22 W22 D fuel HD HF L (points H W) HR HE) as (out & E & Hl & Hf).
  - intros y x I. apply in_points in I. unfold onb. cbn [fst snd]. lia.
  - exists out. split; [exact E|]. split; [rewrite Hl; apply points_length|]. intros x y Hx Hy. apply Hf. apply points_nth; assumption.
Qed.

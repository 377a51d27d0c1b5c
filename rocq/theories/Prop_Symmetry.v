(** C24: symmetries and sample post-processing.  The code is modelled in Symmetry.v. *)
From Verif Require Import Base BaseFacts Symmetry.
Set Implicit Arguments.
Unset Strict Implicit.

(** ** Vocabulary *)
Definition on_board (bs : Z * Z) (m : move) : Prop :=
  0 <= mv_x m < snd bs /\ 0 <= mv_y m < fst bs.
(** The value a plane holds at a move. *)
Definition at_move A (p : plane A) (m : move) : A := p_at p (mv_y m) (mv_x m).
Definition has_shape A (p : plane A) (bs : Z * Z) : Prop := p_h p = fst bs /\ p_w p = snd bs.
(** Squared distance of two moves. *)
Definition dist2 (a b : move) : Z := (mv_x a - mv_x b) ^ 2 + (mv_y a - mv_y b) ^ 2.
Definition offered (bs : Z * Z) (kind : sym_kind) (s : symmetry) : Prop :=
  exists l, available_symmetries bs kind = Ok l /\ In s l.

Lemma offered_default bs kind s : offered bs kind s -> offered bs KDefault s.
Proof.
  destruct bs as [h w]. intros (l & E & Hin). unfold offered, available_symmetries in *.
  destruct kind; [eauto| | | |discriminate]; (destruct (h =? w); [|discriminate]);
    inversion E; subst l; eexists; (split; [reflexivity|]); cbn in *; tauto.
Qed.

Lemma sym_in_In s l : In s l -> sym_in s l = true.
Proof. intros H. apply existsb_exists. exists s. split; [exact H|]. apply Z.eqb_refl. Qed.

Lemma apply_on_board bs s m : offered bs KDefault s -> on_board bs m ->
  exists m', apply_to_move s m bs = Ok m' /\ on_board bs m'
    /\ mapping s (snd bs) (fst bs) (mv_x m) (mv_y m) = (mv_x m', mv_y m').
Proof.
  destruct bs as [h w], m as [x y]. intros (l & E & Hin) [Hx Hy]. cbn [fst snd mv_x mv_y] in *.
  unfold apply_to_move, is_pass. cbn [mv_x mv_y].
  assert (E1 : (x <? 0) && (y <? 0) = false) by lia. rewrite E1, E. cbn [bind].
  rewrite (sym_in_In Hin).
  assert (E2 : (0 <=? x) && (x <? w) && (0 <=? y) && (y <? h) = true) by lia. rewrite E2.
  unfold available_symmetries in E. unfold on_board. cbn [fst snd].
  destruct (Z.eqb_spec h w); inversion E; subst l; cbn in Hin;
    repeat (destruct Hin as [<-|Hin]; [eexists; split; [reflexivity|]; cbn; split; [lia|reflexivity]|]);
    contradiction.
Qed.

(** ** C24: one symmetry *)
(** Reading the transformed plane at the transformed move gives the value of the
    original plane at the original move; the plane keeps its shape. *)
Theorem C24_planes_and_moves_agree :
  forall A (p : plane A) bs kind s m,
  offered bs kind s -> has_shape p bs -> on_board bs m ->
  exists m', apply_to_move s m bs = Ok m' /\ on_board bs m'
    /\ at_move (apply_to_array s p) m' = at_move p m
    /\ has_shape (apply_to_array s p) bs.
Proof.
  intros A p bs kind s m Hoff Hsh Hm. apply offered_default in Hoff.
  destruct (apply_on_board Hoff Hm) as (m' & E & Hb & Hmap). exists m'. split; [exact E|]. split; [exact Hb|].
  destruct bs as [h w], m as [x y], m' as [x' y'], p as [ph pw f]. unfold has_shape in *. cbn [fst snd p_h p_w mv_x mv_y] in *.
  destruct Hsh as [-> ->]. destruct Hoff as (l & El & Hin). unfold available_symmetries in El.
  unfold at_move, apply_to_array. cbn [mv_x mv_y].
  destruct (Z.eqb_spec h w) as [->|Hne]; inversion El; subst l; cbn in Hin;
    repeat (destruct Hin as [<-|Hin];
      [cbn in Hmap; inversion Hmap; subst; cbn; split; [f_equal; lia|lia]|]); contradiction.
Qed.

(** Every offered symmetry is a bijection of the board: its inverse is offered too
    (by the default kind), on moves and on planes. *)
Definition inverse (s : symmetry) : symmetry :=
  match s with ROTATE_90 => ROTATE_270 | ROTATE_270 => ROTATE_90 | _ => s end.

Theorem C24_symmetries_are_invertible :
  forall bs kind s, offered bs kind s ->
  exists t, offered bs KDefault t
  /\ (forall m, on_board bs m -> exists m', apply_to_move s m bs = Ok m' /\ apply_to_move t m' bs = Ok m)
  /\ (forall m, on_board bs m -> exists m', apply_to_move t m bs = Ok m' /\ apply_to_move s m' bs = Ok m)
  /\ forall A (p : plane A), has_shape p bs -> forall m, on_board bs m ->
       at_move (apply_to_array t (apply_to_array s p)) m = at_move p m.
Proof.
  intros bs kind s Hoff. apply offered_default in Hoff.
  assert (Hinv : offered bs KDefault (inverse s)).
  { destruct bs as [h w]. destruct Hoff as (l & E & Hin). unfold offered, available_symmetries in *.
    destruct (h =? w); inversion E; subst l; eexists; (split; [reflexivity|]); cbn in *;
      repeat (destruct Hin as [<-|Hin]; [cbn; tauto|]); contradiction. }
  exists (inverse s). split; [exact Hinv|].
  assert (G : forall s t, offered bs KDefault s -> offered bs KDefault t -> t = inverse s -> forall m, on_board bs m ->
              exists m', apply_to_move s m bs = Ok m' /\ apply_to_move t m' bs = Ok m).
  { clear. intros s t Hs Ht -> m Hm. destruct (apply_on_board Hs Hm) as (m' & E & Hb & Hmap).
    exists m'. split; [exact E|]. destruct (apply_on_board Ht Hb) as (m2 & E2 & _ & Hmap2). rewrite E2. f_equal.
    destruct m as [x y], m' as [x' y'], m2 as [x2 y2]. cbn [mv_x mv_y] in *.
    destruct bs as [h w]. cbn [fst snd] in *. destruct Hs as (l & El & Hin). unfold available_symmetries in El.
    destruct (Z.eqb_spec h w); inversion El; subst; cbn in Hin;
      repeat (destruct Hin as [<-|Hin]; [cbn in *; inversion Hmap; subst; inversion Hmap2; f_equal; lia|]); contradiction. }
  split; [apply G; auto|]. split; [apply G; auto; destruct s; reflexivity|].
  intros A p Hsh m Hm.
  destruct bs as [h w], m as [x y], p as [ph pw f]. unfold has_shape, on_board, at_move in *. cbn [fst snd p_h p_w mv_x mv_y] in *.
  destruct Hsh as [-> ->]. destruct Hoff as (l & El & Hin). unfold available_symmetries in El.
  destruct (Z.eqb_spec h w) as [->|Hne]; inversion El; subst l; cbn in Hin;
    repeat (destruct Hin as [<-|Hin]; [cbn; f_equal; lia|]); contradiction.
Qed.

(** Symmetries preserve distances, so lines stay lines; different moves stay different. *)
Theorem C24_symmetries_preserve_distances :
  forall bs kind s m1 m2 n1 n2, offered bs kind s -> on_board bs m1 -> on_board bs m2 ->
  apply_to_move s m1 bs = Ok n1 -> apply_to_move s m2 bs = Ok n2 -> dist2 n1 n2 = dist2 m1 m2.
Proof.
  intros bs kind s m1 m2 n1 n2 Hoff H1 H2 E1 E2. apply offered_default in Hoff.
  destruct (apply_on_board Hoff H1) as (k1 & F1 & _ & M1). destruct (apply_on_board Hoff H2) as (k2 & F2 & _ & M2).
  rewrite E1 in F1. rewrite E2 in F2. inversion F1; inversion F2; subst k1 k2. clear F1 F2 E1 E2.
  destruct m1 as [a b], m2 as [c d], n1 as [e f], n2 as [g h']. unfold dist2. cbn [mv_x mv_y] in *.
  destruct s; cbn in M1, M2; inversion M1; inversion M2; ring.
Qed.

Lemma opposite_corners k a b c d : 1 <= k -> 0 <= a <= k -> 0 <= b <= k -> 0 <= c <= k -> 0 <= d <= k ->
  (a - c) ^ 2 + (b - d) ^ 2 = (0 - k) ^ 2 + (0 - k) ^ 2 ->
  (a = 0 /\ c = k \/ a = k /\ c = 0) /\ (b = 0 /\ d = k \/ b = k /\ d = 0).
Proof.
  intros Hk Ha Hb Hc Hd H.
  assert ((a - c) ^ 2 <= k ^ 2 /\ (b - d) ^ 2 <= k ^ 2) as [H1 H2] by nia.
  assert (E1 : (a - c) ^ 2 = k ^ 2) by nia. assert (E2 : (b - d) ^ 2 = k ^ 2) by nia.
  split.
  - assert (a - c = k \/ a - c = - k) by nia. lia.
  - assert (b - d = k \/ b - d = - k) by nia. lia.
Qed.

Lemma locate k u v x y : 1 <= k -> (u - 0) ^ 2 + (v - 0) ^ 2 = x ^ 2 + y ^ 2 ->
  (u - k) ^ 2 + (v - 0) ^ 2 = (x - k) ^ 2 + y ^ 2 -> (u - 0) ^ 2 + (v - k) ^ 2 = x ^ 2 + (y - k) ^ 2 -> u = x /\ v = y.
Proof.
  intros Hk E1 E2 E3.
  assert (2 * k * (u - x) = 0).
  { replace (2 * k * (u - x)) with (((u - 0) ^ 2 + (v - 0) ^ 2) - ((u - k) ^ 2 + (v - 0) ^ 2)
      - ((x ^ 2 + y ^ 2) - ((x - k) ^ 2 + y ^ 2))) by ring. rewrite E1, E2. ring. }
  assert (2 * k * (v - y) = 0).
  { replace (2 * k * (v - y)) with (((u - 0) ^ 2 + (v - 0) ^ 2) - ((u - 0) ^ 2 + (v - k) ^ 2)
      - ((x ^ 2 + y ^ 2) - (x ^ 2 + (y - k) ^ 2))) by ring. rewrite E1, E3. ring. }
  clear E1 E2 E3. apply Z.mul_eq_0 in H, H0. lia.
Qed.

Lemma adjacent_corners k ox oy rx ry u v : 1 <= k ->
  ox = 0 /\ rx = k \/ ox = k /\ rx = 0 -> oy = 0 /\ ry = k \/ oy = k /\ ry = 0 ->
  0 <= u <= k -> 0 <= v <= k -> (u - ox) ^ 2 + (v - oy) ^ 2 = k ^ 2 -> (u - rx) ^ 2 + (v - ry) ^ 2 = k ^ 2 ->
  u = ox /\ v = ry \/ u = rx /\ v = oy.
Proof.
  assert (Main : forall k a b, 1 <= k -> 0 <= a <= k -> 0 <= b <= k -> a ^ 2 + b ^ 2 = k ^ 2 ->
            (k - a) ^ 2 + (k - b) ^ 2 = k ^ 2 -> a = 0 /\ b = k \/ a = k /\ b = 0).
  { clear. intros k a b Hk Ha Hb E1 E2.
    assert (E : 2 * k * (k - a - b) = 0).
    { replace (2 * k * (k - a - b)) with ((k - a) ^ 2 + (k - b) ^ 2 - (a ^ 2 + b ^ 2)) by ring. rewrite E1, E2. ring. }
    apply Z.mul_eq_0 in E. assert (k = a + b) by lia. subst k.
    assert (E3 : 2 * a * b = 0) by (replace (2 * a * b) with ((a + b) ^ 2 - (a ^ 2 + b ^ 2)) by ring; lia).
    apply Z.mul_eq_0 in E3. lia. }
  intros Hk [[-> ->]|[-> ->]] [[-> ->]|[-> ->]] Hu Hv E1 E2.
  - destruct (Main k u v) as [[]|[]]; try lia; rewrite <- ?E1, <- ?E2; ring.
  - destruct (Main k u (k - v)) as [[]|[]]; try lia; rewrite <- ?E1, <- ?E2; ring.
  - destruct (Main k (k - u) v) as [[]|[]]; try lia; rewrite <- ?E1, <- ?E2; ring.
  - destruct (Main k (k - u) (k - v)) as [[]|[]]; try lia; rewrite <- ?E1, <- ?E2; ring.
Qed.

(** On a square board with at least two rows the default kind offers exactly the
    eight distance-preserving maps of the board (the dihedral group), so no symmetry
    is missing and none is listed twice.  Stated on the images of moves: any map of
    the board into itself that preserves distances acts like an offered symmetry. *)
Theorem C24_default_kind_is_complete :
  forall n f, 2 <= n ->
  (forall m, on_board (n, n) m -> on_board (n, n) (f m)) ->
  (forall a b, on_board (n, n) a -> on_board (n, n) b -> dist2 (f a) (f b) = dist2 a b) ->
  exists s, offered (n, n) KDefault s /\ forall m, on_board (n, n) m -> apply_to_move s m (n, n) = Ok (f m).
Proof.
  intros n f Hn Hf Hd. assert (En : exists k, n = k + 1 /\ 1 <= k) by (exists (n - 1); lia).
  destruct En as (k & -> & Hk). clear Hn. set (n := k + 1) in *.
  assert (Hc : forall x y, 0 <= x <= k -> 0 <= y <= k -> on_board (n, n) {| mv_x := x; mv_y := y |}).
  { intros x y Hx Hy. unfold on_board; cbn; lia. }
  pose proof (Hf _ (Hc 0 0 ltac:(lia) ltac:(lia))) as HO. pose proof (Hf _ (Hc k 0 ltac:(lia) ltac:(lia))) as HP.
  pose proof (Hf _ (Hc 0 k ltac:(lia) ltac:(lia))) as HQ. pose proof (Hf _ (Hc k k ltac:(lia) ltac:(lia))) as HR.
  pose proof (Hd _ _ (Hc 0 0 ltac:(lia) ltac:(lia)) (Hc k k ltac:(lia) ltac:(lia))) as DOR.
  pose proof (Hd _ _ (Hc k 0 ltac:(lia) ltac:(lia)) (Hc 0 0 ltac:(lia) ltac:(lia))) as DPO.
  pose proof (Hd _ _ (Hc k 0 ltac:(lia) ltac:(lia)) (Hc k k ltac:(lia) ltac:(lia))) as DPR.
  pose proof (Hd _ _ (Hc 0 k ltac:(lia) ltac:(lia)) (Hc 0 0 ltac:(lia) ltac:(lia))) as DQO.
  pose proof (Hd _ _ (Hc 0 k ltac:(lia) ltac:(lia)) (Hc k k ltac:(lia) ltac:(lia))) as DQR.
  pose proof (Hd _ _ (Hc k 0 ltac:(lia) ltac:(lia)) (Hc 0 k ltac:(lia) ltac:(lia))) as DPQ.
  assert (Hm : forall x y, 0 <= x <= k -> 0 <= y <= k ->
    dist2 (f {| mv_x := x; mv_y := y |}) (f {| mv_x := 0; mv_y := 0 |}) = x ^ 2 + y ^ 2 /\
    dist2 (f {| mv_x := x; mv_y := y |}) (f {| mv_x := k; mv_y := 0 |}) = (x - k) ^ 2 + y ^ 2 /\
    dist2 (f {| mv_x := x; mv_y := y |}) (f {| mv_x := 0; mv_y := k |}) = x ^ 2 + (y - k) ^ 2).
  { intros x y Hx Hy. rewrite !Hd by (apply Hc; lia). unfold dist2. cbn [mv_x mv_y]. repeat split; ring. }
  unfold dist2 in *. cbn [mv_x mv_y] in *. unfold on_board in HO, HP, HQ, HR. cbn [fst snd] in *.
  destruct (f {| mv_x := 0; mv_y := 0 |}) as [ox oy]. destruct (f {| mv_x := k; mv_y := 0 |}) as [px py].
  destruct (f {| mv_x := 0; mv_y := k |}) as [qx qy]. destruct (f {| mv_x := k; mv_y := k |}) as [rx ry].
  cbn [mv_x mv_y] in *.
  assert (HC : (ox = 0 /\ rx = k \/ ox = k /\ rx = 0) /\ (oy = 0 /\ ry = k \/ oy = k /\ ry = 0)).
  { apply (opposite_corners Hk); [subst n; clear -HO; lia|subst n; clear -HO; lia|subst n; clear -HR; lia|subst n; clear -HR; lia|exact DOR]. }
  destruct HC as [Ca Cb].
  assert (Fin : forall s, offered (n, n) KDefault s ->
     mapping s n n 0 0 = (ox, oy) -> mapping s n n k 0 = (px, py) -> mapping s n n 0 k = (qx, qy) ->
     exists s, offered (n, n) KDefault s /\ forall m, on_board (n, n) m -> apply_to_move s m (n, n) = Ok (f m)).
  { intros s Hs MO MP MQ. exists s. split; [exact Hs|]. intros [x y] Hxy.
    destruct (apply_on_board Hs Hxy) as ([x' y'] & E & _ & M). rewrite E. f_equal.
    unfold on_board in Hxy. cbn [fst snd mv_x mv_y] in *.
    assert (Hx : 0 <= x <= k /\ 0 <= y <= k) by (subst n; clear -Hxy; lia). destruct Hx as [Hx Hy].
    destruct (Hm x y Hx Hy) as (D1 & D2 & D3).
    destruct (f {| mv_x := x; mv_y := y |}) as [u v]. cbn [mv_x mv_y] in *.
    clear Hm Ca Cb Hc Hf Hd HO HP HQ HR DOR DPO DPR DQO DQR DPQ Hs E Hxy Hx Hy.
    assert (Ek : n - 1 = k) by (subst n; lia).
    assert (G : forall u' v', (u' - 0) ^ 2 + (v' - 0) ^ 2 = (u - ox) ^ 2 + (v - oy) ^ 2 ->
       (u' - k) ^ 2 + (v' - 0) ^ 2 = (u - px) ^ 2 + (v - py) ^ 2 ->
       (u' - 0) ^ 2 + (v' - k) ^ 2 = (u - qx) ^ 2 + (v - qy) ^ 2 -> u' = x /\ v' = y).
    { intros u' v' G1 G2 G3. apply (locate (k := k) Hk); congruence. }
    clearbody n.
    destruct s; cbn in MO, MP, MQ, M; rewrite ?Ek in MO, MP, MQ, M; clear Ek; inversion MO; inversion MP; inversion MQ; inversion M;
      [destruct (G u v)|destruct (G (k - v) u)|destruct (G (k - u) (k - v))|destruct (G v (k - u))
      |destruct (G u (k - v))|destruct (G (k - u) v)|destruct (G v u)|destruct (G (k - v) (k - u))];
      subst; try ring; clear D1 D2 D3 G MO MP MQ M; f_equal; lia. }
  assert (All : forall s, offered (n, n) KDefault s).
  { intros s. eexists. split; [unfold available_symmetries; rewrite Z.eqb_refl; reflexivity|]. destruct s; cbn; tauto. }
  assert (Hpq : (px = ox /\ py = ry /\ qx = rx /\ qy = oy) \/ (px = rx /\ py = oy /\ qx = ox /\ qy = ry)).
  { clear Fin All Hm Hf Hd Hc HR HO.
    assert (G : forall u v, 0 <= u <= k -> 0 <= v <= k -> (u - ox) ^ 2 + (v - oy) ^ 2 = k ^ 2 ->
              (u - rx) ^ 2 + (v - ry) ^ 2 = k ^ 2 -> u = ox /\ v = ry \/ u = rx /\ v = oy).
    { clear -Hk Ca Cb. intros u v Hu Hv G1 G2. apply (adjacent_corners (k := k)); assumption. }
    assert (HP1 : 0 <= px <= k /\ 0 <= py <= k) by (subst n; clear -HP; lia). destruct HP1 as [HP1 HP2].
    assert (HQ1 : 0 <= qx <= k /\ 0 <= qy <= k) by (subst n; clear -HQ; lia). destruct HQ1 as [HQ1 HQ2].
    assert (Ne : ~ (px = qx /\ py = qy)).
    { intros [-> ->]. clear -DPQ Hk. assert (k * k = 0).
      { replace ((qx - qx) ^ 2 + (qy - qy) ^ 2) with 0 in DPQ by ring.
        replace ((k - 0) ^ 2 + (0 - k) ^ 2) with (2 * (k * k)) in DPQ by ring. clear Hk. lia. }
      apply Z.mul_eq_0 in H. lia. }
    destruct (G px py HP1 HP2 ltac:(rewrite DPO; ring) ltac:(rewrite DPR; ring)) as [[-> ->]|[-> ->]];
    destruct (G qx qy HQ1 HQ2 ltac:(rewrite DQO; ring) ltac:(rewrite DQR; ring)) as [[-> ->]|[-> ->]];
    auto; exfalso; apply Ne; auto. }
  clear DOR DPO DPR DQO DQR DPQ Hm HO HP HQ HR Hd Hf Hc.
  assert (Ek : n - 1 = k) by (subst n; clear; lia).
  destruct Ca as [[-> ->]|[-> ->]], Cb as [[-> ->]|[-> ->]], Hpq as [(-> & -> & -> & ->)|(-> & -> & -> & ->)];
    first [ apply (Fin IDENTITY); [apply All|cbn; rewrite ?Ek; f_equal; clear; lia..] | apply (Fin ROTATE_90); [apply All|cbn; rewrite ?Ek; f_equal; clear; lia..]
          | apply (Fin ROTATE_180); [apply All|cbn; rewrite ?Ek; f_equal; clear; lia..] | apply (Fin ROTATE_270); [apply All|cbn; rewrite ?Ek; f_equal; clear; lia..]
          | apply (Fin FLIP_X); [apply All|cbn; rewrite ?Ek; f_equal; clear; lia..] | apply (Fin FLIP_Y); [apply All|cbn; rewrite ?Ek; f_equal; clear; lia..]
          | apply (Fin FLIP_XY); [apply All|cbn; rewrite ?Ek; f_equal; clear; lia..] | apply (Fin FLIP_YX); [apply All|cbn; rewrite ?Ek; f_equal; clear; lia..] ].
Qed.

(** ** C24: a whole sample *)
Section Sample.
  Variables (B F P V E : Type) (bz : B) (fz : F) (pz : P).
  Variable fallback : Z -> sample B F P V E -> Z.
  Notation sample := (sample B F P V E).
  Notation process := (process_sample bz fz pz fallback).

  (** What channel [c] of an array holds at a move. *)
  Definition cell A (k : stack A) (c : nat) (m : move) : option A :=
    option_map (fun g => g (mv_y m) (mv_x m)) (nth_error (k_ch k) c).
  (** What the policy target holds at a move, given the width of the board array,
      and at the pass move. *)
  Definition policy_at (width : Z) (p : policy P) (m : move) : P :=
    match p with PPlane q => at_move q m | PFlat v => v_at v (mv_y m * width + mv_x m) end.
  Definition policy_pass (p : policy P) : option P :=
    match p with PPlane _ => None | PFlat v => Some (np_last v) end.
  Definition dims A (k : stack A) : Z * Z := (k_h k, k_w k).

  (** A sample as the readers produce it: all arrays have the size of the board and
      the moves of the position are on the board or passes. *)
  Record plain (s : sample) : Prop := {
    pl_pos : 0 < fst (sm_board_size s) /\ 0 < snd (sm_board_size s);
    pl_board : dims (sm_board s) = sm_board_size s;
    pl_sparse : forall k, sm_sparse s = Some k -> dims k = sm_board_size s;
    pl_policy : policy_fits (sm_policy s) (fst (sm_board_size s)) (snd (sm_board_size s)) = true;
    pl_moves : forall l m, sm_position s = Some l -> In m l -> on_board (sm_board_size s) m \/ is_pass m = true
  }.

  (** [moved size f chan k k1]: k1 is k with every cell of the board moved by f (and its
      channel by chan), in an array of shape [size] that is [z] elsewhere. *)
  Record moved A (z : A) (bs size : Z * Z) (f : move -> move) (chan : nat -> nat) (n : nat) (k k1 : stack A) : Prop := {
    md_dims : dims k1 = size;
    md_count : List.length (k_ch k1) = n;
    md_cell : forall c m, (c < n)%nat -> on_board bs m -> cell k1 c (f m) = cell k (chan c) m;
    md_pad : forall c m, (c < n)%nat -> on_board size m -> ~ on_board bs m -> cell k1 c m = Some z
  }.

  Definition side_channel (c : nat) : nat := nth c [4; 5; 6; 7; 0; 1; 2; 3; 9; 8; 11; 10]%nat 0%nat.

  Record moved_together (o : post_options) (s out : sample) (f : move -> move) : Prop := {
    mt_size : sm_board_size out = sm_board_size s;
    mt_stm : sm_stm out = sm_stm s;
    mt_board :
      let n := List.length (k_ch (sm_board s)) in
      let flipped := po_fixed_side o && (0 <? sm_stm s) in
      let size := match po_fixed_board_size o with Some p => p | None => sm_board_size s end in
      moved bz (sm_board_size s) size f (fun c => if flipped then (n - 1 - c)%nat else c) n (sm_board s) (sm_board out)
      /\ (forall m, on_board (sm_board_size s) m ->
            policy_at (snd size) (sm_policy out) (f m) = policy_at (snd (sm_board_size s)) (sm_policy s) m)
      /\ (forall m, on_board size m -> ~ on_board (sm_board_size s) m -> policy_at (snd size) (sm_policy out) m = pz)
      /\ policy_fits (sm_policy out) (fst size) (snd size) = true
      /\ policy_pass (sm_policy out) = policy_pass (sm_policy s)
      /\ (forall k, sm_sparse s = Some k -> po_drop_extra o = false ->
            exists k1, sm_sparse out = Some k1 /\
              moved fz (sm_board_size s) size f (fun c => if flipped then side_channel c else c)
                    (if flipped then 12%nat else List.length (k_ch k)) k k1)
      /\ (if flipped then exists win loss rest, sm_value s = win :: loss :: rest /\ sm_value out = loss :: win :: rest
          else sm_value out = sm_value s);
    mt_position : forall l, sm_position s = Some l -> po_drop_extra o = false ->
      sm_position_string out = Some (map f l) /\ sm_last_move out = Some (last (map f l) move_pass);
    mt_extra : po_drop_extra o = false -> sm_extra out = sm_extra s
  }.

  (** the map a symmetry acts by *)
  Definition move_to (bs : Z * Z) (sym : symmetry) (m : move) : move :=
    if is_pass m then m else
    let '(x, y) := mapping sym (snd bs) (fst bs) (mv_x m) (mv_y m) in {| mv_x := x; mv_y := y |}.

  Lemma on_board_not_pass bs m : on_board bs m -> is_pass m = false.
  Proof. unfold on_board, is_pass. lia. Qed.

  Lemma move_to_spec bs sym m : offered bs KDefault sym -> on_board bs m ->
    apply_to_move sym m bs = Ok (move_to bs sym m) /\ on_board bs (move_to bs sym m).
  Proof.
    intros Hs Hm. destruct (apply_on_board Hs Hm) as (m' & E1 & Hb & Hmap).
    assert (Em : move_to bs sym m = m').
    { unfold move_to. rewrite (on_board_not_pass Hm), Hmap. destruct m'; reflexivity. }
    rewrite Em. auto.
  Qed.

  Lemma apply_to_stack_plane A (k : stack A) sym c g : nth_error (k_ch k) c = Some g ->
    nth_error (k_ch (apply_to_stack sym k)) c = Some (p_at (apply_to_array sym {| p_h := k_h k; p_w := k_w k; p_at := g |})).
  Proof.
    intros H. unfold apply_to_stack. destruct (op_list sym) as [[a b] d]. cbn [k_ch].
    rewrite (map_nth_error _ _ _ H). reflexivity.
  Qed.

  Lemma apply_to_stack_dims A (k : stack A) sym bs : offered bs KDefault sym -> dims k = bs ->
    dims (apply_to_stack sym k) = bs.
  Proof.
    intros (l & E1 & Hin) <-. unfold dims in *. cbn in E1.
    destruct (Z.eqb_spec (k_h k) (k_w k)) as [Hq|Hq]; inversion E1; subst l; cbn in Hin;
      repeat (destruct Hin as [<-|Hin]; [cbn; congruence|]); contradiction.
  Qed.

  Lemma moved_apply A (z : A) bs sym k : offered bs KDefault sym -> dims k = bs ->
    moved z bs bs (move_to bs sym) (fun c => c) (List.length (k_ch k)) k (apply_to_stack sym k).
  Proof.
    intros Hs Hd. constructor.
    - apply apply_to_stack_dims; assumption.
    - unfold apply_to_stack. destruct (op_list sym) as [[a b] d]. cbn. apply map_length.
    - intros c m Hc Hm. unfold cell. destruct (nth_error (k_ch k) c) as [g|] eqn:Eg.
      + rewrite (apply_to_stack_plane sym Eg). cbn [option_map]. f_equal.
        destruct (@C24_planes_and_moves_agree A {| p_h := k_h k; p_w := k_w k; p_at := g |} bs KDefault sym m Hs)
          as (m' & E1 & _ & E2 & _); [unfold has_shape; cbn; rewrite <- Hd; auto|exact Hm|].
        rewrite (proj1 (move_to_spec Hs Hm)) in E1. inversion E1; subst m'. exact E2.
      + apply nth_error_None in Eg. lia.
    - intros c m Hc Hm Hn. contradiction.
  Qed.

  Lemma moved_id A (z : A) bs k : dims k = bs -> moved z bs bs (fun m => m) (fun c => c) (List.length (k_ch k)) k k.
  Proof. intros H. constructor; auto. intros; contradiction. Qed.

  Lemma moved_chan A (z : A) bs size f n chan k0 k k1 :
    (forall c m, (c < n)%nat -> cell k c m = cell k0 (chan c) m) ->
    moved z bs size f (fun c => c) n k k1 -> moved z bs size f chan n k0 k1.
  Proof.
    intros Hc [H1 H2 H3 H4]. constructor; auto. intros c m Hlt Hm. rewrite H3 by assumption. apply Hc. exact Hlt.
  Qed.

  Lemma moved_pad A (z : A) bs padded f chan n k0 k k1 :
    (forall m, on_board bs m -> on_board bs (f m)) ->
    moved z bs bs f chan n k0 k ->
    np_pad3 z (fst padded - k_h k) (snd padded - k_w k) k = Ok k1 ->
    moved z bs padded f chan n k0 k1.
  Proof.
    intros Hf [H1 H2 H3 H4] H. unfold np_pad3 in H.
    destruct ((0 <=? fst padded - k_h k) && (0 <=? snd padded - k_w k)) eqn:Eg; [|discriminate].
    inversion H; subst k1; clear H. unfold dims in H1. rewrite <- H1 in *. cbn [fst snd] in *. constructor.
    - unfold dims. cbn. destruct padded; cbn. f_equal; lia.
    - cbn. rewrite map_length. exact H2.
    - intros c m Hlt Hm. rewrite <- H3 by assumption. unfold cell. cbn.
      destruct (nth_error (k_ch k) c) as [g|] eqn:En; [|apply nth_error_None in En; lia].
      rewrite (map_nth_error _ _ _ En). cbn. f_equal. unfold pad_at.
      specialize (Hf _ Hm). unfold on_board in Hf. cbn in Hf.
      assert (X : (mv_y (f m) <? k_h k) && (mv_x (f m) <? k_w k) = true) by lia. rewrite X. reflexivity.
    - intros c m Hlt Hm Hn. unfold cell. cbn.
      destruct (nth_error (k_ch k) c) as [g|] eqn:En; [|apply nth_error_None in En; lia].
      rewrite (map_nth_error _ _ _ En). cbn. f_equal. unfold pad_at.
      unfold on_board in *. cbn in *.
      assert (X : (mv_y m <? k_h k) && (mv_x m <? k_w k) = false) by lia. rewrite X. reflexivity.
  Qed.

  (** policies *)
  Lemma div_mod_cell w x y : 0 <= x < w -> (y * w + x) / w = y /\ (y * w + x) mod w = x.
  Proof.
    intros Hx. split.
    - rewrite Z.div_add_l by lia. rewrite Z.div_small by lia. lia.
    - rewrite Z.add_comm, Z.mod_add by lia. apply Z.mod_small. lia.
  Qed.

  Lemma ravel_at (q : plane P) last m : on_board (p_h q, p_w q) m ->
    v_at (np_snoc (np_ravel q) last) (mv_y m * p_w q + mv_x m) = at_move q m.
  Proof.
    intros [Hx Hy]. cbn [fst snd] in *. unfold np_snoc, np_ravel. cbn [v_at v_len].
    assert (X : (mv_y m * p_w q + mv_x m =? p_h q * p_w q) = false) by nia. rewrite X.
    destruct (div_mod_cell (mv_y m) Hx) as [-> ->]. reflexivity.
  Qed.

  Lemma snoc_last (v : vec P) a : np_last (np_snoc v a) = a.
  Proof. unfold np_last, np_snoc. cbn. replace (v_len v + 1 - 1) with (v_len v) by lia. rewrite Z.eqb_refl. reflexivity. Qed.

  Lemma transform_policy_spec bs sym p p1 :
    0 < fst bs -> 0 < snd bs -> offered bs KDefault sym -> policy_fits p (fst bs) (snd bs) = true ->
    transform_policy sym bs p = Ok p1 ->
    policy_fits p1 (fst bs) (snd bs) = true /\ policy_pass p1 = policy_pass p
    /\ forall m, on_board bs m -> policy_at (snd bs) p1 (move_to bs sym m) = policy_at (snd bs) p m.
  Proof.
    intros Hh Hw Hs Hfit H. destruct p as [q|v]; cbn [transform_policy policy_fits] in *.
    - inversion H; subst p1. cbn.
      assert (Hsh : has_shape q bs) by (unfold has_shape; lia).
      assert (Hon : forall m, on_board bs m -> at_move (apply_to_array sym q) (move_to bs sym m) = at_move q m
                     /\ has_shape (apply_to_array sym q) bs).
      { intros m Hm. destruct (C24_planes_and_moves_agree Hs Hsh Hm) as (m' & E1 & _ & E2 & E3).
        rewrite (proj1 (move_to_spec Hs Hm)) in E1. inversion E1; subst m'. auto. }
      split; [|split; [reflexivity|intros m Hm; apply Hon, Hm]].
      destruct (Hon {| mv_x := 0; mv_y := 0 |}) as [_ [X1 X2]]; [unfold on_board; cbn; lia|]. lia.
    - destruct bs as [h w]. cbn [fst snd] in *. rewrite Hfit in H. inversion H; subst p1; clear H.
      set (q := np_reshape2 h w (np_init v)).
      assert (Hsh : has_shape q (h, w)) by (split; reflexivity).
      assert (Hon : forall m, on_board (h, w) m -> at_move (apply_to_array sym q) (move_to (h, w) sym m) = at_move q m
                     /\ has_shape (apply_to_array sym q) (h, w)).
      { intros m Hm. destruct (C24_planes_and_moves_agree Hs Hsh Hm) as (m' & E1 & _ & E2 & E3).
        rewrite (proj1 (move_to_spec Hs Hm)) in E1. inversion E1; subst m'. auto. }
      destruct (Hon {| mv_x := 0; mv_y := 0 |}) as [_ [X1 X2]]; [unfold on_board; cbn; lia|]. cbn [fst snd] in *.
      split; [|split].
      + cbn [policy_fits]. unfold np_snoc, np_ravel. cbn [v_len]. rewrite X1, X2. lia.
      + cbn [policy_pass]. rewrite snoc_last. reflexivity.
      + intros m Hm. cbn [policy_at snd]. transitivity (at_move q m); [|reflexivity]. destruct (Hon m Hm) as [<- _].
        pose proof (@ravel_at (apply_to_array sym q) (np_last v) (move_to (h, w) sym m)) as R.
        rewrite X1, X2 in R. apply R. apply move_to_spec; assumption.
  Qed.

  Lemma pad_policy_spec bs padded p p1 :
    0 < fst bs -> 0 < snd bs -> policy_fits p (fst bs) (snd bs) = true ->
    pad_policy pz bs (fst bs) (snd bs) (fst padded) (snd padded) p = Ok p1 ->
    policy_fits p1 (fst padded) (snd padded) = true /\ policy_pass p1 = policy_pass p
    /\ (forall m, on_board bs m -> policy_at (snd padded) p1 m = policy_at (snd bs) p m)
    /\ (forall m, on_board padded m -> ~ on_board bs m -> policy_at (snd padded) p1 m = pz).
  Proof.
    intros Hh Hw Hfit H. destruct bs as [h w], padded as [ph pw]. cbn [fst snd] in *.
    assert (Hpad : forall q : plane P, p_h q = h -> p_w q = w -> forall q1, np_pad pz (ph - h) (pw - w) q = Ok q1 ->
              p_h q1 = ph /\ p_w q1 = pw /\ h <= ph /\ w <= pw
              /\ (forall m, on_board (h, w) m -> at_move q1 m = at_move q m)
              /\ (forall m, on_board (ph, pw) m -> ~ on_board (h, w) m -> at_move q1 m = pz)).
    { intros q <- <- q1 Hq. unfold np_pad in Hq. destruct ((0 <=? _) && (0 <=? _)) eqn:Eg; [|discriminate].
      inversion Hq; subst q1; cbn. split; [lia|]. split; [lia|]. split; [lia|]. split; [lia|].
      unfold at_move, pad_at, on_board; cbn. split; intros m Hm.
      - assert (X : (mv_y m <? p_h q) && (mv_x m <? p_w q) = true) by lia. rewrite X. reflexivity.
      - intros Hn. assert (X : (mv_y m <? p_h q) && (mv_x m <? p_w q) = false) by lia. rewrite X. reflexivity. }
    destruct p as [q|v]; cbn [pad_policy policy_fits] in *.
    - inv_bind H. inversion H; subst p1. cbn [policy_fits policy_pass policy_at].
      destruct (Hpad q ltac:(lia) ltac:(lia) _ Hm) as (A1 & A2 & _ & _ & A3 & A4).
      split; [lia|]. split; [reflexivity|]. auto.
    - rewrite Hfit, Z.eqb_refl in H. inv_bind H. inversion H; subst p1. clear H.
      destruct (Hpad (np_reshape2 h w (np_init v)) eq_refl eq_refl _ Hm) as (A1 & A2 & B1 & B2 & A3 & A4).
      split; [|split; [|split]].
      + cbn. rewrite A1, A2. apply Z.eqb_refl.
      + cbn [policy_pass]. rewrite snoc_last. reflexivity.
      + intros m Hb. cbn [policy_at snd]. pose proof (@ravel_at v0 (np_last v) m) as R. rewrite A1, A2 in R. rewrite R.
        * rewrite A3 by exact Hb. reflexivity.
        * unfold on_board in *. cbn in *. lia.
      + intros m Hb Hn. cbn [policy_at snd]. pose proof (@ravel_at v0 (np_last v) m) as R. rewrite A1, A2 in R. rewrite R.
        * apply A4; assumption.
        * exact Hb.
  Qed.

  (** positions *)
  Lemma mapM_moves bs sym l : offered bs KDefault sym ->
    (forall m, In m l -> on_board bs m \/ is_pass m = true) ->
    mapM (fun m => apply_to_move sym m bs) l = Ok (map (move_to bs sym) l).
  Proof.
    intros Hs. induction l as [|m l IH]; intros Hl; [reflexivity|]. cbn [mapM map].
    assert (Hm : apply_to_move sym m bs = Ok (move_to bs sym m)).
    { destruct (Hl m (or_introl eq_refl)) as [Hb|Hb].
      - apply move_to_spec; assumption.
      - unfold apply_to_move, move_to. rewrite Hb. reflexivity. }
    rewrite Hm. cbn [bind]. rewrite IH by (intros; apply Hl; right; assumption). reflexivity.
  Qed.

  (** the side flip *)
  Lemma nth_error_rev A (l : list A) c : (c < List.length l)%nat ->
    nth_error (rev l) c = nth_error l (List.length l - 1 - c).
  Proof.
    intros Hc. destruct l as [|d l0]; [cbn in Hc; lia|]. set (l := d :: l0) in *.
    rewrite !(nth_error_nth' _ d) by (rewrite ?rev_length; lia). rewrite rev_nth by exact Hc.
    replace (List.length l - S c)%nat with (List.length l - 1 - c)%nat by lia. reflexivity.
  Qed.

  Lemma mapM_nth A C (g : A -> res C) : forall l r, mapM g l = Ok r ->
    List.length r = List.length l /\ forall i a, nth_error l i = Some a -> exists b, nth_error r i = Some b /\ g a = Ok b.
  Proof.
    induction l as [|a l IH]; intros r H; cbn [mapM] in H.
    - inversion H; subst. split; [reflexivity|]. intros [|i] a; discriminate.
    - inv_bind H. inv_bind H. inversion H; subst. destruct (IH _ Hm0) as [H1 H2].
      split; [cbn; lia|]. intros [|i] b Hb; cbn in *; [inversion Hb; subst; eauto|auto].
  Qed.

  Lemma take_channels_spec (k k1 : stack F) : take_channels k = Ok k1 ->
    dims k1 = dims k /\ List.length (k_ch k1) = 12%nat
    /\ forall c m, (c < 12)%nat -> cell k1 c m = cell k (side_channel c) m.
  Proof.
    intros H. unfold take_channels in H. inv_bind H. inversion H; subst k1; clear H.
    destruct (mapM_nth Hm) as [H1 H2]. split; [reflexivity|]. split; [exact H1|].
    intros c m Hc. unfold cell. cbn [k_ch].
    assert (X : nth_error sparse_indices c = Some (Z.of_nat (side_channel c))).
    { do 12 (destruct c as [|c]; [reflexivity|]). lia. }
    destruct (H2 _ _ X) as (b & E1 & E2). rewrite E1. unfold py_index, py_get in E2.
    assert (Y : (0 <=? Z.of_nat (side_channel c)) = true) by lia. rewrite Y, Nat2Z.id in E2.
    destruct (nth_error (k_ch k) (side_channel c)); [|discriminate]. inversion E2. reflexivity.
  Qed.

  Definition flips (o : post_options) (s : sample) : bool := po_fixed_side o && (0 <? sm_stm s).

  (** The first stage: sides. *)
  Record sided (o : post_options) (s s1 : sample) : Prop := {
    sd_size : sm_board_size s1 = sm_board_size s;
    sd_stm : sm_stm s1 = sm_stm s;
    sd_dims : dims (sm_board s1) = sm_board_size s;
    sd_count : List.length (k_ch (sm_board s1)) = List.length (k_ch (sm_board s));
    sd_cell : forall c m, (c < List.length (k_ch (sm_board s)))%nat ->
      cell (sm_board s1) c m
      = cell (sm_board s) (if flips o s then (List.length (k_ch (sm_board s)) - 1 - c)%nat else c) m;
    sd_policy : sm_policy s1 = sm_policy s;
    sd_sparse : match sm_sparse s with
      | None => sm_sparse s1 = None
      | Some k => exists k1, sm_sparse s1 = Some k1 /\ dims k1 = sm_board_size s
          /\ List.length (k_ch k1) = (if flips o s then 12%nat else List.length (k_ch k))
          /\ forall c m, (c < if flips o s then 12 else List.length (k_ch k))%nat ->
               cell k1 c m = cell k (if flips o s then side_channel c else c) m
      end;
    sd_value : if flips o s then exists win loss rest, sm_value s = win :: loss :: rest /\ sm_value s1 = loss :: win :: rest
               else sm_value s1 = sm_value s;
    sd_position : sm_position s1 = sm_position s;
    sd_extra : sm_extra s1 = sm_extra s
  }.

  Lemma sided_spec o s s1 : plain s ->
    (if flips o s then fix_side s else Ok s) = Ok s1 -> sided o s s1.
  Proof.
    intros Hp H. destruct (flips o s) eqn:Ef.
    - unfold fix_side in H. inv_bind H. inv_bind H. inversion H; subst s1; clear H.
      constructor; cbn [sm_board_size sm_stm sm_board sm_policy sm_sparse sm_value sm_position sm_extra]; rewrite ?Ef; auto.
      + apply (pl_board Hp).
      + cbn. apply rev_length.
      + intros c m Hc. unfold cell. cbn [k_ch]. rewrite nth_error_rev by exact Hc. reflexivity.
      + destruct (sm_sparse s) as [k|] eqn:Es.
        * inv_bind Hm0. inversion Hm0; subst v0. destruct (take_channels_spec Hm1) as (D1 & D2 & D3).
          exists v1. split; [reflexivity|]. split; [rewrite D1; apply (pl_sparse Hp); exact Es|]. auto.
        * inversion Hm0. reflexivity.
      + unfold swap_win_loss in Hm. destruct (sm_value s) as [|a [|b rest]]; try discriminate.
        inversion Hm. eauto.
    - inversion H; subst s1. constructor; rewrite ?Ef; auto.
      + apply (pl_board Hp).
      + destruct (sm_sparse s) as [k|] eqn:Es; [|reflexivity].
        exists k. split; [reflexivity|]. split; [apply (pl_sparse Hp); exact Es|]. auto.
  Qed.

  (** The later stages. *)
  Record progress (o : post_options) (s cur : sample) (f : move -> move) (size : Z * Z) : Prop := {
    pg_size : sm_board_size cur = sm_board_size s;
    pg_stm : sm_stm cur = sm_stm s;
    pg_board : moved bz (sm_board_size s) size f
      (fun c => if flips o s then (List.length (k_ch (sm_board s)) - 1 - c)%nat else c)
      (List.length (k_ch (sm_board s))) (sm_board s) (sm_board cur);
    pg_policy : (forall m, on_board (sm_board_size s) m ->
            policy_at (snd size) (sm_policy cur) (f m) = policy_at (snd (sm_board_size s)) (sm_policy s) m)
      /\ (forall m, on_board size m -> ~ on_board (sm_board_size s) m -> policy_at (snd size) (sm_policy cur) m = pz)
      /\ policy_fits (sm_policy cur) (fst size) (snd size) = true
      /\ policy_pass (sm_policy cur) = policy_pass (sm_policy s);
    pg_sparse : match sm_sparse s with
      | None => sm_sparse cur = None
      | Some k => exists k1, sm_sparse cur = Some k1 /\
              moved fz (sm_board_size s) size f (fun c => if flips o s then side_channel c else c)
                    (if flips o s then 12%nat else List.length (k_ch k)) k k1
      end;
    pg_value : if flips o s then exists win loss rest, sm_value s = win :: loss :: rest /\ sm_value cur = loss :: win :: rest
               else sm_value cur = sm_value s;
    pg_position : sm_position cur = option_map (map f) (sm_position s);
    pg_extra : sm_extra cur = sm_extra s
  }.

  Lemma sided_progress o s s1 : plain s -> sided o s s1 -> progress o s s1 (fun m => m) (sm_board_size s).
  Proof.
    intros Hp H. destruct H. constructor; auto.
    - apply (moved_chan sd_cell0). rewrite <- sd_count0. apply moved_id. exact sd_dims0.
    - rewrite sd_policy0. split; [reflexivity|]. split; [intros; contradiction|]. split; [apply (pl_policy Hp)|reflexivity].
    - destruct (sm_sparse s) as [k|]; [|exact sd_sparse0]. destruct sd_sparse0 as (k1 & E1 & D & L & Hc).
      exists k1. split; [exact E1|]. apply (moved_chan Hc). rewrite <- L. apply moved_id. exact D.
    - rewrite sd_position0. destruct (sm_position s); cbn; rewrite ?map_id; reflexivity.
  Qed.

  Lemma transform_progress o s s1 s2 sym : plain s -> sided o s s1 -> offered (sm_board_size s) KDefault sym ->
    transform sym s1 = Ok s2 -> progress o s s2 (move_to (sm_board_size s) sym) (sm_board_size s).
  Proof.
    intros Hp H Hs Ht. unfold transform in Ht. inv_bind Ht. inv_bind Ht. inversion Ht; subst s2; clear Ht.
    destruct H. rewrite sd_size0 in *. rewrite sd_policy0 in Hm. rewrite sd_position0 in Hm0.
    destruct (pl_pos Hp) as [Hh Hw].
    destruct (transform_policy_spec Hh Hw Hs (pl_policy Hp) Hm) as (P1 & P2 & P3).
    constructor; cbn [sm_board_size sm_stm sm_board sm_policy sm_sparse sm_value sm_position sm_extra]; auto.
    - apply (moved_chan sd_cell0). rewrite <- sd_count0. apply moved_apply; assumption.
    - split; [exact P3|]. split; [intros; contradiction|]. auto.
    - destruct (sm_sparse s) as [k|]; [|rewrite sd_sparse0; reflexivity]. destruct sd_sparse0 as (k1 & E1 & D & L & Hc).
      rewrite E1. cbn [option_map]. eexists. split; [reflexivity|].
      apply (moved_chan Hc). rewrite <- L. apply moved_apply; assumption.
    - destruct (sm_position s) as [l|] eqn:El.
      + rewrite (mapM_moves Hs) in Hm0 by (intros m Hin; apply (pl_moves Hp (l := l)); assumption).
        cbn in Hm0. inversion Hm0. reflexivity.
      + inversion Hm0. reflexivity.
  Qed.

  Lemma pad_progress o s cur f padded s3 : plain s ->
    (forall m, on_board (sm_board_size s) m -> on_board (sm_board_size s) (f m)) ->
    (forall m, on_board (sm_board_size s) m -> exists m', on_board (sm_board_size s) m' /\ f m' = m) ->
    progress o s cur f (sm_board_size s) -> pad_fields bz fz pz padded cur = Ok s3 -> progress o s s3 f padded.
  Proof.
    intros Hp Hf Hsurj H Hpad. unfold pad_fields in Hpad. rewrite (surjective_pairing padded) in Hpad. cbn beta iota zeta in Hpad.
    inv_bind Hpad. inv_bind Hpad. inv_bind Hpad. apply guard_Ok in Hpad. destruct Hpad as [_ Hpad].
    apply guard_Ok in Hpad. destruct Hpad as [_ Hpad]. inversion Hpad; subst s3; clear Hpad.
    destruct H. rewrite pg_size0 in *.
    destruct (pl_pos Hp) as [Hh Hw]. destruct pg_policy0 as (P1 & P2 & P3 & P4).
    assert (Hd : k_h (sm_board cur) = fst (sm_board_size s) /\ k_w (sm_board cur) = snd (sm_board_size s)).
    { rewrite <- (md_dims pg_board0). split; reflexivity. }
    destruct Hd as [Hd1 Hd2]. pose proof Hm as Hm'. rewrite Hd1, Hd2 in Hm'.
    rewrite Hd1, Hd2 in Hm1.
    destruct (pad_policy_spec Hh Hw P3 Hm1) as (Q1 & Q2 & Q3 & Q4).
    constructor; cbn [sm_board_size sm_stm sm_board sm_policy sm_sparse sm_value sm_position sm_extra]; auto.
    - eapply moved_pad; [exact Hf|exact pg_board0|]. rewrite Hd1, Hd2. exact Hm'.
    - split; [|split; [exact Q4|split; [exact Q1|congruence]]].
      intros m Hb. rewrite Q3 by (apply Hf; exact Hb). apply P1. exact Hb.
    - destruct (sm_sparse s) as [k|].
      + destruct pg_sparse0 as (k1 & E1 & M1). rewrite E1 in Hm0. inv_bind Hm0. inversion Hm0; subst v0.
        exists v2. split; [reflexivity|]. eapply moved_pad; [exact Hf|exact M1|exact Hm2].
      + rewrite pg_sparse0 in Hm0. inversion Hm0. reflexivity.
  Qed.

  (** What post-processing does to a sample, in one statement: there is a map of the
      board (the chosen symmetry, or the identity when none is asked for) by which
      board planes, sparse planes, policy target and the moves of the position all
      move together; the rest of a padded array is zero; the pass entry stays; the
      sides are swapped exactly when asked for and white is to move. *)
  Theorem C24_all_fields_move_together :
    forall o s out, plain s -> process o s = Ok out ->
    exists f,
      match po_symmetry o with
      | None => f = (fun m => m)
      | Some kind => exists sym, offered (sm_board_size s) kind sym
          /\ forall m, on_board (sm_board_size s) m -> apply_to_move sym m (sm_board_size s) = Ok (f m)
      end
      /\ (forall m, on_board (sm_board_size s) m -> on_board (sm_board_size s) (f m))
      /\ moved_together o s out f.
  Proof.
    intros o s out Hp H. unfold process_sample in H. apply guard_Ok in H. destruct H as [_ H].
    inv_bind H. inv_bind H. inv_bind H. inversion H; subst out; clear H.
    pose proof (sided_spec Hp Hm) as Hsd.
    assert (St : exists f, match po_symmetry o with
      | None => f = (fun m => m)
      | Some kind => exists sym, offered (sm_board_size s) kind sym
          /\ forall m, on_board (sm_board_size s) m -> apply_to_move sym m (sm_board_size s) = Ok (f m)
      end /\ (forall m, on_board (sm_board_size s) m -> on_board (sm_board_size s) (f m))
        /\ (forall m, on_board (sm_board_size s) m -> exists m', on_board (sm_board_size s) m' /\ f m' = m)
        /\ progress o s v0 f (sm_board_size s)).
    { destruct (po_symmetry o) as [kind|].
      - inv_bind Hm0. inv_bind Hm0. rewrite (sd_size Hsd) in Hm2.
        assert (Hoff : offered (sm_board_size s) kind v3).
        { exists v2. split; [exact Hm2|]. unfold py_index, py_get in Hm3.
          destruct (0 <=? _); [|destruct (_ <=? _); [|discriminate]];
            (destruct (nth_error v2 _) eqn:En; [|discriminate]); apply nth_error_In in En; congruence. }
        pose proof (offered_default Hoff) as Hoff0.
        exists (move_to (sm_board_size s) v3). split; [|split; [|split]].
        + exists v3. split; [exact Hoff|]. intros m Hb. apply move_to_spec; assumption.
        + intros m Hb. apply move_to_spec; assumption.
        + intros m Hb. destruct (C24_symmetries_are_invertible Hoff) as (t & Ht & _ & Hinv & _).
          destruct (Hinv m Hb) as (m' & E1 & E2). exists m'.
          destruct (move_to_spec Ht Hb) as [E3 Hb']. rewrite E3 in E1. inversion E1; subst m'.
          split; [exact Hb'|]. destruct (move_to_spec Hoff0 Hb') as [E4 _]. congruence.
        + eapply transform_progress; eauto.
      - inversion Hm0; subst v0. exists (fun m => m). split; [reflexivity|]. split; [auto|]. split; [eauto|].
        apply sided_progress; assumption. }
    destruct St as (f & Hf1 & Hf2 & Hf3 & Hpg). exists f. split; [exact Hf1|]. split; [exact Hf2|].
    set (size := match po_fixed_board_size o with Some p => p | None => sm_board_size s end).
    assert (Hpg2 : progress o s v1 f size).
    { subst size. destruct (po_fixed_board_size o) as [padded|].
      - eapply pad_progress; eauto.
      - inversion Hm1; subst v1. exact Hpg. }
    clear Hpg Hm Hm0 Hm1. destruct Hpg2.
    destruct (po_drop_extra o) eqn:Ed.
    - constructor; cbn; rewrite ?Ed; auto; try discriminate.
      change (po_fixed_side o && (0 <? sm_stm s)) with (flips o s). fold size.
      repeat (split; [solve [auto | apply pg_policy0 | discriminate]|]). exact pg_value0.
    - assert (Hsp : let out := spell_position v1 in sm_board_size out = sm_board_size v1 /\ sm_stm out = sm_stm v1
        /\ sm_board out = sm_board v1 /\ sm_policy out = sm_policy v1 /\ sm_sparse out = sm_sparse v1
        /\ sm_value out = sm_value v1 /\ sm_extra out = sm_extra v1).
      { unfold spell_position. destruct (sm_position v1); cbn; auto 10. }
      destruct Hsp as (Y1 & Y2 & Y3 & Y4 & Y5 & Y6 & Y7).
      constructor; rewrite ?Y1, ?Y2, ?Y3, ?Y4, ?Y5, ?Y6, ?Y7; auto.
      + change (po_fixed_side o && (0 <? sm_stm s)) with (flips o s). fold size. cbv zeta.
        split; [exact pg_board0|]. destruct pg_policy0 as (P1 & P2 & P3 & P4).
        split; [exact P1|]. split; [exact P2|]. split; [exact P3|]. split; [exact P4|]. split; [|exact pg_value0].
        intros k Ek _. rewrite Ek in pg_sparse0. exact pg_sparse0.
      + intros l El _. unfold spell_position. rewrite pg_position0, El. cbn. auto.
  Qed.
End Sample.

(** ** Processing succeeds, and rows of a batch are independent *)
Section Total.
  Variables (B F P V E : Type) (bz : B) (fz : F) (pz : P).
  Variable fallback : Z -> sample B F P V E -> Z.
  Notation sample := (sample B F P V E).
  Notation process := (process_sample bz fz pz fallback).

  (** On a sample as the readers produce it, nothing is refused but a symmetry kind
      that does not fit the board, a symmetry index out of range, a fixed size
      smaller than the board, and too few channels to swap. *)
  Theorem C24_readers_samples_are_accepted :
    forall o (s : sample), plain s ->
    (forall kind, po_symmetry o = Some kind -> exists l, available_symmetries (sm_board_size s) kind = Ok l
       /\ match po_symmetry_index o with
          | Some i => 0 <= i < zlen l
          | None => forall s', 0 <= fallback (zlen l) s' < zlen l
          end) ->
    (forall padded, po_fixed_board_size o = Some padded ->
       fst (sm_board_size s) <= fst padded /\ snd (sm_board_size s) <= snd padded) ->
    2 <= zlen (sm_value s) -> (forall k, sm_sparse s = Some k -> 12 <= zlen (k_ch k)) ->
    exists out, process o s = Ok out.
  Proof.
    intros o s Hp Hsym Hpad Hval Hsp.
    destruct (pl_pos Hp) as [Hh Hw].
    unfold process_sample.
    assert (Hv : validate s = true).
    { unfold validate. destruct (sm_board_size s) as [h w] eqn:Eb. cbn [fst snd] in *.
      pose proof (pl_board Hp) as D. rewrite Eb in D. unfold dims in D.
      assert (D1 : k_h (sm_board s) = h) by congruence. assert (D2 : k_w (sm_board s) = w) by congruence.
      pose proof (pl_policy Hp) as Q. rewrite Eb in Q. cbn [fst snd] in Q. rewrite Q.
      destruct (sm_sparse s) as [k|] eqn:Es.
      - pose proof (pl_sparse Hp Es) as D3. rewrite Eb in D3. unfold dims in D3.
        assert (D4 : k_h k = h) by congruence. assert (D5 : k_w k = w) by congruence. lia.
      - lia. }
    rewrite Hv.
    assert (H1 : exists s1, (if po_fixed_side o && (0 <? sm_stm s) then fix_side s else Ok s) = Ok s1).
    { destruct (po_fixed_side o && (0 <? sm_stm s)); [|eauto]. unfold fix_side.
      destruct (sm_value s) as [|a [|b rest]]; try (unfold zlen in Hval; cbn in Hval; lia). cbn [swap_win_loss bind].
      destruct (sm_sparse s) as [k|]; [|cbn; eauto]. specialize (Hsp k eq_refl). unfold take_channels.
      assert (G : forall il, Forall (fun i => 0 <= i < 12) il -> exists r, mapM (fun i => py_index (k_ch k) i) il = Ok r).
      { induction 1 as [|i il Hi Hl IH]; [cbn; eauto|]. cbn [mapM]. unfold py_index at 1, py_get.
        assert (X : (0 <=? i) = true) by lia. rewrite X.
        destruct (nth_error (k_ch k) (Z.to_nat i)) as [g|] eqn:En.
        - cbn [bind]. destruct IH as [r ->]. cbn. eauto.
        - apply nth_error_None in En. unfold zlen in Hsp. lia. }
      destruct (G sparse_indices) as [r Er]; [repeat (constructor; [lia|]); constructor|].
      rewrite Er. cbn. eauto. }
    destruct H1 as [s1 E1]. rewrite E1. cbn [bind].
    pose proof (sided_spec fallback Hp E1) as Hsd.
    assert (H2 : exists s2 f, (match po_symmetry o with
         | None => Ok s1
         | Some kind =>
             symmetries <- available_symmetries (sm_board_size s1) kind ;;
             let index := match po_symmetry_index o with
                          | Some i => i
                          | None => fallback (zlen symmetries) s1
                          end in
             sym <- py_index symmetries index ;;
             transform sym s1
         end) = Ok s2 /\ progress bz fz pz o s s2 f (sm_board_size s)).
    { destruct (po_symmetry o) as [kind|].
      - destruct (Hsym kind eq_refl) as (l & El & Hi). rewrite (sd_size Hsd), El. cbn [bind].
        assert (Hi2 : exists i, match po_symmetry_index o with Some i => i | None => fallback (zlen l) s1 end = i
                   /\ 0 <= i < zlen l).
        { destruct (po_symmetry_index o); eauto. }
        destruct Hi2 as (i & -> & Hi3). unfold py_index, py_get.
        assert (X : (0 <=? i) = true) by lia. rewrite X.
        destruct (nth_error l (Z.to_nat i)) as [sym|] eqn:En; [|apply nth_error_None in En; unfold zlen in Hi3; lia].
        cbn [bind]. assert (Hoff : offered (sm_board_size s) kind sym).
        { exists l. split; [exact El|]. eapply nth_error_In; eauto. }
        apply offered_default in Hoff.
        assert (Ht : exists s2, transform sym s1 = Ok s2).
        { unfold transform. rewrite (sd_size Hsd), (sd_policy Hsd), (sd_position Hsd).
          assert (Hq : exists q, transform_policy sym (sm_board_size s) (sm_policy s) = Ok q).
          { pose proof (pl_policy Hp) as Q. destruct (sm_policy s) as [q|v]; [cbn; eauto|]. cbn in *.
            destruct (sm_board_size s) as [h w]. cbn [fst snd] in *. rewrite Q. eauto. }
          destruct Hq as [q ->]. cbn [bind]. destruct (sm_position s) as [ms|] eqn:Em.
          - rewrite (mapM_moves Hoff) by (intros m Hin; apply (pl_moves Hp (l := ms)); assumption). cbn. eauto.
          - cbn. eauto. }
        destruct Ht as [s2 Es2]. exists s2, (move_to (sm_board_size s) sym). split; [exact Es2|].
        eapply transform_progress; eauto.
      - exists s1, (fun m => m). split; [reflexivity|]. apply sided_progress; assumption. }
    destruct H2 as (s2 & f & E2 & Hpg). cbv zeta in E2 |- *. rewrite E2. cbn [bind].
    assert (H3 : exists s3, match po_fixed_board_size o with
         | None => Ok s2
         | Some padded => pad_fields bz fz pz padded s2
         end = Ok s3).
    { destruct (po_fixed_board_size o) as [[ph pw]|]; [|eauto]. destruct (Hpad _ eq_refl) as [Hp1 Hp2]. cbn [fst snd] in *.
      unfold pad_fields. destruct Hpg. destruct pg_policy0 as (P1 & P2 & P3 & P4).
      pose proof (md_dims pg_board0) as D. unfold dims in D.
      assert (D1 : k_h (sm_board s2) = fst (sm_board_size s)) by (rewrite <- D; reflexivity).
      assert (D2 : k_w (sm_board s2) = snd (sm_board_size s)) by (rewrite <- D; reflexivity).
      rewrite D1, D2.
      assert (HP : forall A (z : A) k, dims k = sm_board_size s -> exists k1, np_pad3 z (ph - k_h k) (pw - k_w k) k = Ok k1
                 /\ k_h k1 = ph /\ k_w k1 = pw).
      { intros A z k Dk. unfold np_pad3. unfold dims in Dk. rewrite <- Dk in *. cbn [fst snd] in *.
        assert (X : (0 <=? ph - k_h k) && (0 <=? pw - k_w k) = true) by lia. rewrite X.
        eexists. split; [reflexivity|]. cbn. lia. }
      destruct (HP B bz (sm_board s2) D) as (b1 & Eb & Eb1 & Eb2). rewrite D1, D2 in Eb. rewrite Eb. cbn [bind].
      assert (Hs2 : exists x, match sm_sparse s2 with
          | Some k => k1 <- np_pad3 fz (ph - k_h k) (pw - k_w k) k ;; Ok (Some k1)
          | None => Ok None end = Ok x).
      { destruct (sm_sparse s) as [k|].
        - destruct pg_sparse0 as (k1 & -> & M1). destruct (HP F fz k1 (md_dims M1)) as (x & -> & _). cbn. eauto.
        - rewrite pg_sparse0. eauto. }
      destruct Hs2 as [x ->]. cbn [bind].
      assert (Hq : exists q, pad_policy pz (sm_board_size s2) (fst (sm_board_size s)) (snd (sm_board_size s)) ph pw (sm_policy s2) = Ok q).
      { rewrite pg_size0. destruct (sm_policy s2) as [q|v]; cbn in *.
        - unfold np_pad. assert (X : (0 <=? ph - fst (sm_board_size s)) && (0 <=? pw - snd (sm_board_size s)) = true) by lia.
          rewrite X. cbn. eauto.
        - destruct (sm_board_size s) as [h w]. cbn [fst snd] in *. rewrite P3, Z.eqb_refl. unfold np_pad.
          assert (X : (0 <=? ph - h) && (0 <=? pw - w) = true) by lia. rewrite X. cbn. eauto. }
      destruct Hq as [q Eq]. rewrite Eq. cbn [bind].
      assert (X : (k_h b1 =? ph) && (k_w b1 =? pw) = true) by lia. rewrite X. rewrite pg_size0 in Eq.
      destruct (pad_policy_spec (padded := (ph, pw)) fallback Hh Hw P3 Eq) as (Q1 & _). cbn [fst snd] in Q1.
      rewrite Q1. eauto. }
    destruct H3 as [s3 ->]. cbn. eauto.
  Qed.

  (** A batch is processed row by row: row i of the result is row i of the batch,
      processed with index i of the list. *)
  Theorem C24_batch_rows_are_independent :
    forall fixed_side kind indices (rows out : list sample),
    process_batch bz fz pz fallback fixed_side kind (Some indices) rows = Ok out ->
    (fixed_side = false /\ kind = None /\ out = rows) \/
    List.length out = List.length rows /\
    forall i s, nth_error rows i = Some s -> exists idx s1, nth_error indices i = Some idx /\ nth_error out i = Some s1
      /\ process {| po_fixed_side := fixed_side; po_fixed_board_size := None; po_symmetry := kind;
                    po_symmetry_index := Some idx; po_drop_extra := false |} s = Ok s1.
  Proof.
    intros fixed_side kind indices rows out H. unfold process_batch in H.
    destruct (negb fixed_side && _) eqn:En.
    - left. inversion H. destruct fixed_side, kind; auto; discriminate.
    - right. apply guard_Ok in H. destruct H as [Hl H]. unfold zlen in Hl.
      destruct (mapM_nth H) as [L N]. rewrite combine_length in L. split; [lia|].
      intros i s Hi. assert (Hlt : (i < List.length indices)%nat) by (assert (nth_error rows i <> None) by congruence; apply nth_error_Some in H0; lia).
      destruct (nth_error indices i) as [idx|] eqn:Ei; [|apply nth_error_None in Ei; lia].
      assert (Ec : nth_error (combine indices rows) i = Some (idx, s)).
      { clear -Hi Ei. revert rows i Hi Ei. induction indices as [|a l IH]; intros [|b r] [|i]; cbn; try discriminate; auto; congruence. }
      destruct (N _ _ Ec) as (b & E1 & E2). eauto.
  Qed.
End Total.

(** ** Findings *)
(** The binary readers pad a sample first and transform it afterwards
    (simple_binary.py:167-186, packed_binary.py:310-329): the board then leaves the
    corner it was padded into, so reading the result at the transformed move is wrong. *)
Section Findings.
  Definition ones_sample (n : Z) : sample Z Z Z Z Z :=
    {| sm_board_size := (n, n);
       sm_board := {| k_h := n; k_w := n; k_ch := [fun _ _ => 1; fun _ _ => 0] |};
       sm_stm := 1; sm_value := [1; 0; 0];
       sm_policy := PPlane {| p_h := n; p_w := n; p_at := fun y x => if (y =? 0) && (x =? 0) then 1 else 0 |};
       sm_sparse := None; sm_position := Some [{| mv_x := 1; mv_y := 0 |}];
       sm_position_string := None; sm_last_move := None; sm_extra := Some 7 |}.

  Lemma ones_plain n : 2 <= n -> plain (ones_sample n).
  Proof.
    intros Hn. constructor; cbn; auto; try lia; try discriminate.
    intros l m E H. inversion E; subst l. cbn in H. destruct H as [<-|[]].
    left. unfold on_board. cbn. lia.
  Qed.

  Definition pad_only (size : Z) := {| po_fixed_side := false; po_fixed_board_size := Some (size, size);
    po_symmetry := None; po_symmetry_index := None; po_drop_extra := false |}.
  Definition no_options := {| po_fixed_side := false; po_fixed_board_size := None;
    po_symmetry := None; po_symmetry_index := None; po_drop_extra := false |}.

  Theorem C24_binary_readers_keep_the_board_in_its_corner_refuted :
    ~ forall o kind index (s out : sample Z Z Z Z Z), plain s ->
      materialize_with_symmetry 0 0 0 (fun _ _ => 0) o kind index s = Ok out ->
      exists sym, offered (sm_board_size s) kind sym /\
        forall c m, on_board (sm_board_size s) m ->
        exists m', apply_to_move sym m (sm_board_size s) = Ok m' /\ cell (sm_board out) c m' = cell (sm_board s) c m.
  Proof.
    intros H. specialize (H (pad_only 3) KDefault 2 (ones_sample 2)).
    destruct (materialize_with_symmetry 0 0 0 (fun _ _ => 0) (pad_only 3) KDefault 2 (ones_sample 2)) as [out|e] eqn:Eo;
      [|vm_compute in Eo; discriminate].
    specialize (H out (@ones_plain 2 ltac:(lia)) eq_refl). destruct H as (sym & _ & H).
    assert (Hz : cell (sm_board out) 0 {| mv_x := 0; mv_y := 0 |} = Some 0).
    { vm_compute in Eo. inversion Eo; subst. reflexivity. }
    clear Eo.
    assert (G : forall x y, 0 <= x < 2 -> 0 <= y < 2 ->
      apply_to_move sym {| mv_x := x; mv_y := y |} (2, 2) <> Ok {| mv_x := 0; mv_y := 0 |}).
    { intros x y Hx Hy E1. destruct (H 0%nat {| mv_x := x; mv_y := y |}) as (m' & E2 & E3).
      - unfold on_board. cbn. lia.
      - cbn [sm_board_size ones_sample] in E2. rewrite E1 in E2. inversion E2; subst m'. rewrite Hz in E3. discriminate E3. }
    pose proof (G 0 0 ltac:(lia) ltac:(lia)) as G1. pose proof (G 1 0 ltac:(lia) ltac:(lia)) as G2.
    pose proof (G 0 1 ltac:(lia) ltac:(lia)) as G3. pose proof (G 1 1 ltac:(lia) ltac:(lia)) as G4.
    destruct sym; first [apply G1; reflexivity | apply G2; reflexivity | apply G3; reflexivity | apply G4; reflexivity].
  Qed.

  (** The last move and the spelled position are not transformed with the planes. *)
  Theorem C24_binary_readers_move_the_last_move_refuted :
    ~ forall o kind index (s out : sample Z Z Z Z Z) moves, plain s ->
      sm_position s = Some moves -> moves <> [] -> po_fixed_board_size o = None -> po_drop_extra o = false ->
      materialize_with_symmetry 0 0 0 (fun _ _ => 0) o kind index s = Ok out ->
      exists l sym, available_symmetries (sm_board_size s) kind = Ok l /\ nth_error l (Z.to_nat index) = Some sym
        /\ exists m, sm_last_move out = Some m /\ apply_to_move sym (last moves move_pass) (sm_board_size s) = Ok m.
  Proof.
    intros H. specialize (H no_options KDefault 2 (ones_sample 2)).
    destruct (materialize_with_symmetry 0 0 0 (fun _ _ => 0) no_options KDefault 2 (ones_sample 2)) as [out|e] eqn:Eo;
      [|vm_compute in Eo; discriminate].
    specialize (H out [{| mv_x := 1; mv_y := 0 |}] (@ones_plain 2 ltac:(lia)) eq_refl ltac:(discriminate) eq_refl eq_refl eq_refl).
    destruct H as (l & sym & E0 & E1 & m & E2 & E3). cbn in E0. inversion E0; subst l. cbn in E1. inversion E1; subst sym.
    vm_compute in Eo. inversion Eo; subst out. cbn in E2. inversion E2; subst m. vm_compute in E3. discriminate E3.
  Qed.

  (** The one-step processing does both right on the same samples, so the hypotheses
      of the theorems above are met. *)
  Definition all_at_once := {| po_fixed_side := true; po_fixed_board_size := Some (3, 3);
    po_symmetry := Some KDefault; po_symmetry_index := Some 2; po_drop_extra := false |}.
  Example ex_process : exists out,
    process_sample 0 0 0 (fun _ _ => 0) all_at_once (ones_sample 2) = Ok out /\
    plain (ones_sample 2) /\
    cell (sm_board out) 1 {| mv_x := 1; mv_y := 1 |} = Some 1 /\
    cell (sm_board out) 1 {| mv_x := 2; mv_y := 2 |} = Some 0 /\
    sm_last_move out = Some {| mv_x := 0; mv_y := 1 |} /\ sm_value out = [0; 1; 0] /\
    policy_at 3 (sm_policy out) {| mv_x := 1; mv_y := 1 |} = 1.
  Proof.
    destruct (process_sample 0 0 0 (fun _ _ => 0) all_at_once (ones_sample 2)) as [out|e] eqn:Eo;
      [|vm_compute in Eo; discriminate].
    exists out. split; [reflexivity|]. split; [apply ones_plain; lia|].
    vm_compute in Eo. inversion Eo; subst out. repeat split; reflexivity.
  Qed.
End Findings.

(** Bit keys of a board, rotation, and the code of a window. *)
From Verif Require Import Base BaseFacts LineEncoding LineEncodingFacts LineEncodingCode LineEncodingSpec.
Set Implicit Arguments.
Unset Strict Implicit.

(** ** Rotation of a 64-bit word *)
Definition word (x : Z) : Prop := 0 <= x < 2 ^ 64.
Lemma word_high x i : word x -> 64 <= i -> Z.testbit x i = false.
Proof.
  intros [H1 H2] Hi. destruct (Z.eq_dec x 0) as [->|Hx]; [apply Z.bits_0|].
  apply Z.bits_above_log2; [lia|]. apply Z.log2_lt_pow2; [lia|].
  apply (Z.lt_le_trans _ (2 ^ 64)); [lia|]. apply Z.pow_le_mono_r; lia.
Qed.
Lemma land63 s : Z.land s 63 = s mod 64.
Proof. change 63 with (Z.ones 6). rewrite Z.land_ones by lia. reflexivity. Qed.
Lemma w64_low x i : 0 <= i < 64 -> Z.testbit (w64 x) i = Z.testbit x i.
Proof. intros H. unfold w64. apply Z.mod_pow2_bits_low. lia. Qed.
Lemma w64_word x : word (w64 x).
Proof. unfold word, w64. apply Z.mod_pos_bound. lia. Qed.
Lemma rotate_bit x s i : word x -> 0 <= i < 64 ->
  Z.testbit (rotate_right x s) i = Z.testbit x ((i + s) mod 64).
Proof.
  intros Hx Hi. unfold rotate_right. cbv zeta. rewrite !land63, Z.lor_spec, w64_low by lia.
  rewrite Z.shiftr_spec, Z.shiftl_spec by lia.
  rewrite <- (Z.add_mod_idemp_r i s 64) by lia. set (r := s mod 64). assert (Hr : 0 <= r < 64) by (apply Z.mod_pos_bound; lia).
  clearbody r. destruct (Z.eq_dec r 0) as [->|Hr0].
  - change (-0 mod 64) with 0. rewrite Z.add_0_r, Z.sub_0_r, orb_diag, Z.mod_small by lia. reflexivity.
  - replace (- r mod 64) with (64 - r) by lia.
    destruct (Z.lt_ge_cases (i + r) 64) as [L|L].
    + rewrite (Z.testbit_neg_r x (i - (64 - r))) by lia. rewrite orb_false_r. f_equal. lia.
    + rewrite (@word_high x (i + r)) by (auto; lia). cbn [orb]. f_equal. lia.
Qed.
Lemma rotate_fld x s k : word x -> 0 <= k < 32 -> fld (rotate_right x (2 * s)) k = fld x ((k + s) mod 32).
Proof.
  intros Hx Hk. apply fld_ext; [lia|lia|]. intros t Ht. rewrite rotate_bit by (auto; lia). f_equal. lia.
Qed.

(** ** Filling one array of keys *)
Lemma upd_nth (l : list Z) : forall i r x, ((i < List.length l)%nat -> r = i -> nth r (upd l i x) 0 = x)
  /\ (r <> i -> nth r (upd l i x) 0 = nth r l 0).
Proof.
  induction l as [|a l IH]; intros i r x; (split; [intros Hi ->|intros N]).
  - cbn in Hi. lia.
  - reflexivity.
  - destruct i as [|i]; [reflexivity|]. cbn. cbn in Hi. apply (IH i i x); auto. lia.
  - destruct i as [|i], r as [|r]; cbn; auto; [lia|]. apply IH. lia.
Qed.
  Lemma lor_word a b : word a -> word b -> word (Z.lor a b).
  Proof.
    intros Ha Hb. split; [apply Z.lor_nonneg; split; [apply Ha|apply Hb]|].
    destruct (Z.eq_dec (Z.lor a b) 0) as [->|N]; [lia|].
    apply Z.log2_lt_pow2; [assert (0 <= Z.lor a b) by (apply Z.lor_nonneg; split; [apply Ha|apply Hb]); lia|].
    rewrite Z.log2_lor by (apply Ha || apply Hb).
    destruct Ha as [A1 A2], Hb as [B1 B2].
    apply Z.max_lub_lt.
    - destruct (Z.eq_dec a 0) as [->|]; [cbn; lia|]. apply Z.log2_lt_pow2; lia.
    - destruct (Z.eq_dec b 0) as [->|]; [cbn; lia|]. apply Z.log2_lt_pow2; lia.
  Qed.
Section Ors.
  Variables (f g c : Z -> Z -> Z).
  Definition or_pure (l : list Z) (i v : Z) : list Z := upd l (Z.to_nat i) (Z.lor (nth (Z.to_nat i) l 0) v).
  Fixpoint ors (todo : list (Z * Z)) (l : list Z) : list Z :=
    match todo with
    | [] => l
    | (y, x) :: rest => ors rest (or_pure l (f x y) (w64 (Z.shiftl (c x y) (2 * g x y))))
    end.
  Definition hit (r j t : Z) (yx : Z * Z) : bool :=
    let '(y, x) := yx in (f x y =? r) && (g x y =? j) && Z.testbit (c x y) t.
  Lemma ors_length todo : forall l, List.length (ors todo l) = List.length l.
  Proof. induction todo as [|[y x] rest IH]; intros l; cbn [ors]; [reflexivity|]. rewrite IH. apply upd_length. Qed.
  Definition dim (n : nat) (yx : Z * Z) : Prop :=
    let '(y, x) := yx in 0 <= f x y < Z.of_nat n /\ 0 <= g x y < 32 /\ 0 <= c x y < 4.
  Lemma or_pure_nth l i v r : (Z.to_nat i < List.length l)%nat ->
    nth r (or_pure l i v) 0 = if (r =? Z.to_nat i)%nat then Z.lor (nth r l 0) v else nth r l 0.
  Proof.
    intros H. unfold or_pure. destruct (Nat.eqb_spec r (Z.to_nat i)) as [->|N]; apply upd_nth; auto.
  Qed.
  Lemma ors_words todo : forall l, Forall word l -> (forall yx, In yx todo -> dim (List.length l) yx) -> Forall word (ors todo l).
  Proof.
    induction todo as [|[y x] rest IH]; intros l Hl Hd; cbn [ors]; [exact Hl|].
    pose proof (Hd (y, x) (or_introl eq_refl)) as D. cbn in D. apply IH.
    - apply Forall_forall. intros z Hz. apply In_nth_error in Hz. destruct Hz as [n Hn].
      apply nth_error_nth with (d := 0) in Hn. rewrite or_pure_nth in Hn by lia.
      assert (Hw : word (nth n l 0)).
      { destruct (Nat.lt_ge_cases n (List.length l)) as [L|L].
        - rewrite Forall_forall in Hl. apply Hl. apply nth_In. exact L.
        - rewrite nth_overflow by lia. split; lia. }
      destruct (n =? Z.to_nat (f x y))%nat; subst z; [|exact Hw]. apply lor_word; [exact Hw|apply w64_word].
    - intros yx H. unfold or_pure. rewrite upd_length. apply Hd. right. exact H.
  Qed.
  Lemma ors_bit todo : forall l r j t, (forall yx, In yx todo -> dim (List.length l) yx) ->
    0 <= j < 32 -> t = 0 \/ t = 1 -> 0 <= r ->
    Z.testbit (nth (Z.to_nat r) (ors todo l) 0) (2 * j + t)
    = Z.testbit (nth (Z.to_nat r) l 0) (2 * j + t) || existsb (hit r j t) todo.
  Proof.
    induction todo as [|[y x] rest IH]; intros l r j t Hd Hj Ht Hr; cbn [ors existsb]; [rewrite orb_false_r; reflexivity|].
    pose proof (Hd (y, x) (or_introl eq_refl)) as D. cbn in D.
    rewrite IH; auto.
    2:{ intros yx H. unfold or_pure. rewrite upd_length. apply Hd. right. exact H. }
    rewrite or_pure_nth by lia. rewrite orb_assoc. f_equal. unfold hit.
    destruct (Z.eqb_spec (f x y) r) as [Ef|Ef].
    2:{ replace (Z.to_nat r =? Z.to_nat (f x y))%nat with false by (symmetry; apply Nat.eqb_neq; lia).
        cbn [andb]. rewrite orb_false_r. reflexivity. }
    replace (Z.to_nat r =? Z.to_nat (f x y))%nat with true by (symmetry; apply Nat.eqb_eq; lia).
    rewrite Z.lor_spec, w64_low, Z.shiftl_spec by lia. f_equal.
    destruct (Z.eqb_spec (g x y) j) as [Eg|Eg]; cbn [andb].
    - f_equal. lia.
    - destruct (Z.lt_ge_cases (2 * j + t - 2 * g x y) 0) as [L|L]; [apply Z.testbit_neg_r; lia|].
      destruct (Z.eq_dec (c x y) 0) as [->|N]; [apply Z.bits_0|].
      apply Z.bits_above_log2; [lia|]. apply (Z.lt_le_trans _ 2); [|lia]. apply Z.log2_lt_pow2; lia.
  Qed.
End Ors.

Lemma in_cells H W y x : In (y, x) (cells H W) <-> 0 <= y < Z.of_nat H /\ 0 <= x < Z.of_nat W.
Proof.
  unfold cells. rewrite in_flat_map. split.
  - intros (a & Ha & Hb). apply in_map_iff in Hb. destruct Hb as (b & E & Hb). injection E as <- <-.
    apply in_seq in Ha, Hb. lia.
  - intros [Hy Hx]. exists (Z.to_nat y). rewrite in_seq, in_map_iff. split; [lia|]. exists (Z.to_nat x).
    rewrite in_seq. split; [f_equal; lia|lia].
Qed.

  Lemma z_get_ok l i : 0 <= i < zlen l -> z_get l i = Ok (nth (Z.to_nat i) l 0).
  Proof.
    intros Hi. unfold z_get. replace (0 <=? i) with true by lia. unfold py_get.
    unfold zlen in Hi. rewrite (nth_error_nth' l 0) by lia. reflexivity.
  Qed.
  Lemma or_at_ok l i v : 0 <= i < zlen l -> or_at l i v = Ok (or_pure l i v).
  Proof.
    intros Hi. unfold or_at. replace (0 <=? i) with true by lia. unfold zlen in Hi. unfold py_get.
    rewrite (nth_error_nth' l 0) by lia. cbn [bind]. unfold py_set. replace (_ <? _)%nat with true by (symmetry; apply Nat.ltb_lt; lia).
    reflexivity.
  Qed.

(** ** The filled keys *)
Section Board.
  Variables (board : list Z) (H W : nat).
  Hypothesis Hboard : (2 * H * W <= List.length board)%nat.
  Let Hz := Z.of_nat H.
  Let Wz := Z.of_nat W.
  Definition cell_code (x y : Z) : Z :=
    cell_bits (negb (nth (Z.to_nat (y * Z.of_nat W + x)) board 0 =? 0))
              (negb (nth (Z.to_nat (Z.of_nat H * Z.of_nat W + y * Z.of_nat W + x)) board 0 =? 0)).
  Definition on_board (x y : Z) : bool := (0 <=? x) && (x <? Z.of_nat W) && (0 <=? y) && (y <? Z.of_nat H).
  Lemma bits_point x y : bits (point_at board H W x y) = if on_board x y then cell_code x y else 0.
  Proof.
    unfold point_at, on_board, cell_code, cell_bits.
    destruct ((0 <=? x) && (x <? Z.of_nat W) && (0 <=? y) && (y <? Z.of_nat H)); [|reflexivity].
    destruct (nth _ board 0 =? 0); cbn [negb]; [|reflexivity]. destruct (nth _ board 0 =? 0); reflexivity.
  Qed.
  Lemma cell_code_range x y : 0 <= cell_code x y < 4.
  Proof. unfold cell_code, cell_bits. destruct (negb _); [lia|]. destruct (negb _); lia. Qed.

  Definition row_of (x y : Z) := y.      Definition col_of (x y : Z) := x.
  Definition sum_of (x y : Z) := x + y.  Definition dif_of (x y : Z) := 32 - 1 - x + y.
  Definition keys_of (todo : list (Z * Z)) (k : bit_keys) : bit_keys :=
    {| k0 := ors row_of col_of cell_code todo (k0 k); k1 := ors col_of row_of cell_code todo (k1 k);
       k2 := ors sum_of col_of cell_code todo (k2 k); k3 := ors dif_of col_of cell_code todo (k3 k) |}.
  Definition sized (k : bit_keys) : Prop :=
    List.length (k0 k) = 32%nat /\ List.length (k1 k) = 32%nat /\ List.length (k2 k) = 63%nat /\ List.length (k3 k) = 63%nat.
  Lemma set_keys_ok todo : (H <= 32)%nat -> (W <= 32)%nat ->
    forall k, sized k -> (forall yx, In yx todo -> In yx (cells H W)) ->
    set_keys board (Z.of_nat H) (Z.of_nat W) todo k = Ok (keys_of todo k).
  Proof.
    intros BH BW. induction todo as [|[y x] rest IH]; intros k (S0 & S1 & S2 & S3) Hin; cbn [set_keys].
    - unfold keys_of. cbn [ors]. destruct k; reflexivity.
    - pose proof (Hin (y, x) (or_introl eq_refl)) as C. apply in_cells in C.
      assert (y * Z.of_nat W + x < Z.of_nat H * Z.of_nat W) by nia. assert (0 <= y * Z.of_nat W) by nia.
      rewrite z_get_ok by (unfold zlen; lia). cbn [bind].
      rewrite z_get_ok by (unfold zlen; lia). cbn [bind]. unfold set_bit_key.
      rewrite !or_at_ok by (unfold zlen; lia). cbn [bind].
      rewrite IH.
      + reflexivity.
      + unfold sized, or_pure. cbn. rewrite !upd_length. auto.
      + intros yx I. apply Hin. right. exact I.
  Qed.

  (** One family of parallel lines: [f] numbers the line, [g] the place on it. *)
  Variables (f g : Z -> Z -> Z) (size h : nat) (dx dy : Z).
  Hypothesis f_line : forall x y m, f (x + m * dx) (y + m * dy) = f x y.
  Hypothesis g_line : forall x y m, g (x + m * dx) (y + m * dy) = g x y + m.
  Hypothesis fg_inj : forall x y x' y', f x y = f x' y' -> g x y = g x' y' -> x = x' /\ y = y'.
  Hypothesis f_size : forall x y, on_board x y = true -> 0 <= f x y < Z.of_nat size.
  Hypothesis g_size : forall x y, on_board x y = true -> 0 <= g x y < 32 - Z.of_nat h.

  Let keys := ors f g cell_code (cells H W) (repeat 0 size).
  Lemma on_board_cells x y : on_board x y = true <-> In (y, x) (cells H W).
  Proof. rewrite in_cells. unfold on_board. lia. Qed.
  Lemma cells_dim yx : In yx (cells H W) -> dim f g cell_code (List.length (repeat 0 size)) yx.
  Proof.
    destruct yx as [y x]. intros I. apply on_board_cells in I. rewrite repeat_length. unfold dim.
    pose proof (f_size I). pose proof (g_size I). pose proof (cell_code_range x y). lia.
  Qed.
  Lemma keys_word r : word (nth r keys 0).
  Proof.
    destruct (Nat.lt_ge_cases r (List.length keys)) as [L|L].
    - pose proof (@ors_words f g cell_code (cells H W) (repeat 0 size)) as Hw.
      specialize (Hw ltac:(apply Forall_forall; intros z Iz; apply repeat_spec in Iz; subst z; split; lia) cells_dim).
      rewrite Forall_forall in Hw. apply Hw. apply nth_In. exact L.
    - rewrite nth_overflow by lia. split; lia.
  Qed.
  Lemma keys_fld x y : 0 <= g x y < 32 -> 0 <= f x y -> fld (nth (Z.to_nat (f x y)) keys 0) (g x y)
    = bits (point_at board H W x y).
  Proof.
    intros Hg Hf. rewrite bits_point. pose proof (cell_code_range x y) as Cr.
    apply fld_bits; [destruct (on_board x y); lia|lia|]. intros t Ht. unfold keys.
    rewrite ors_bit by (auto using cells_dim).
    rewrite nth_repeat, Z.bits_0. cbn [orb].
    destruct (existsb (hit f g cell_code (f x y) (g x y) t) (cells H W)) eqn:E.
    - apply existsb_exists in E. destruct E as ([y' x'] & I & Hh). unfold hit in Hh.
      apply andb_true_iff in Hh. destruct Hh as [Hh Hb]. apply andb_true_iff in Hh. destruct Hh as [E1 E2].
      apply Z.eqb_eq in E1, E2. destruct (fg_inj E1 E2) as [-> ->]. apply on_board_cells in I. rewrite I. auto.
    - destruct (on_board x y) eqn:Eo; [|rewrite Z.bits_0; reflexivity].
      destruct (Z.testbit (cell_code x y) t) eqn:Et; [|reflexivity].
      enough (existsb (hit f g cell_code (f x y) (g x y) t) (cells H W) = true) by congruence.
      apply existsb_exists. exists (y, x). split; [apply on_board_cells; exact Eo|].
      unfold hit. rewrite !Z.eqb_refl, Et. reflexivity.
  Qed.
  (** The fields of the rotated key are the cells of the window. *)
  Lemma window_fld x y k : on_board x y = true -> (k < 2 * h + 1)%nat -> (h <= 8)%nat ->
    fld (rotate_right (nth (Z.to_nat (f x y)) keys 0) (2 * (g x y - Z.of_nat h))) (Z.of_nat k)
    = bits (point_at board H W (x + (Z.of_nat k - Z.of_nat h) * dx) (y + (Z.of_nat k - Z.of_nat h) * dy)).
  Proof.
    intros Ho Hk Hh. pose proof (g_size Ho) as Hg. pose proof (f_size Ho) as Hf.
    rewrite rotate_fld by (try apply keys_word; lia).
    set (m := Z.of_nat k - Z.of_nat h). replace (Z.of_nat k + (g x y - Z.of_nat h)) with (g x y + m) by lia.
    destruct (Z.lt_ge_cases (g x y + m) 0) as [L|L].
    - (* wrapped around: both are off the board *)
      replace ((g x y + m) mod 32) with (g x y + (m + 32)) by lia.
      rewrite <- (g_line x y (m + 32)), <- (f_line x y (m + 32)).
      rewrite keys_fld by (rewrite ?g_line, ?f_line; lia). rewrite !bits_point.
      destruct (on_board (x + (m + 32) * dx) (y + (m + 32) * dy)) eqn:E1.
      { apply g_size in E1. rewrite g_line in E1. lia. }
      destruct (on_board (x + m * dx) (y + m * dy)) eqn:E2; [|reflexivity].
      apply g_size in E2. rewrite g_line in E2. lia.
    - rewrite Z.mod_small by lia. rewrite <- (g_line x y m), <- (f_line x y m).
      apply keys_fld; rewrite ?g_line, ?f_line; lia.
  Qed.
End Board.

(** ** Codes of windows *)
Definition pdigit (p : point) : Z := match p with Mine => 1 | Theirs => 2 | _ => 0 end.
Lemma dg_bits p : dg (bits p) = pdigit p.
Proof. destruct p; reflexivity. Qed.
Lemma pdigit_digit p : digit3 (pdigit p).
Proof. unfold digit3. destruct p; cbn; lia. Qed.
Lemma pdigit_inj p q : p <> Wall -> q <> Wall -> pdigit p = pdigit q -> p = q.
Proof. destruct p, q; cbn; intros; try congruence; discriminate. Qed.

Fixpoint lead_walls (w : list point) : nat :=
  match w with Wall :: t => S (lead_walls t) | _ => 0%nat end.
(** The number of a window, read off the window itself. *)
Definition window_code (w : list point) : Z :=
  let ld := lead_walls w in
  let rd := lead_walls (rev w) in
  code_value ld (map pdigit (firstn (List.length w - ld - rd) (skipn ld w))) rd.

Lemma lead_walls_repeat n v t : (forall p, In p v -> p <> Wall) -> v <> [] -> lead_walls (repeat Wall n ++ v ++ t) = n.
Proof.
  intros Hv Hn. induction n as [|n IH]; cbn; [|congruence].
  destruct v as [|p v]; [congruence|]. cbn. pose proof (Hv p (or_introl eq_refl)). destruct p; congruence.
Qed.
Lemma rev_repeat {A} (c : A) n : rev (repeat c n) = repeat c n.
Proof. induction n as [|n IH]; cbn; [reflexivity|]. rewrite IH. symmetry. apply (repeat_cons n c). Qed.
Lemma window_code_split ld vis rd : vis <> [] -> ~ In Wall vis ->
  window_code (repeat Wall ld ++ vis ++ repeat Wall rd) = code_value ld (map pdigit vis) rd.
Proof.
  intros Hn Hv. unfold window_code.
  assert (Hv' : forall p, In p vis -> p <> Wall) by (intros p Ip ->; contradiction).
  rewrite lead_walls_repeat by assumption.
  rewrite !rev_app_distr, !rev_repeat, <- app_assoc. rewrite lead_walls_repeat.
  2:{ intros p Ip. apply Hv'. apply in_rev. exact Ip. }
  2:{ intros E. apply Hn. apply (f_equal (@rev _)) in E. rewrite rev_involutive in E. exact E. }
  f_equal. f_equal. rewrite skipn_app, skipn_all2 by (rewrite repeat_length; lia).
  rewrite repeat_length, Nat.sub_diag. cbn [skipn app]. rewrite !app_length, !repeat_length.
  rewrite firstn_app. replace (_ - _ - _)%nat with (List.length vis) by lia.
  rewrite Nat.sub_diag, firstn_all. cbn [firstn]. apply app_nil_r.
Qed.
Lemma legal_vis h ld vis rd : (ld <= h)%nat -> (rd <= h)%nat ->
  List.length (repeat Wall ld ++ vis ++ repeat Wall rd) = (2 * h + 1)%nat ->
  vis <> [] /\ (ld + List.length vis + rd = 2 * h + 1)%nat.
Proof.
  intros H1 H2 H3. rewrite !app_length, !repeat_length in H3. split; [|lia].
  intros ->. cbn in H3. lia.
Qed.
Lemma map_pdigit_inj v : forall v', ~ In Wall v -> ~ In Wall v' -> map pdigit v = map pdigit v' -> v = v'.
Proof.
  induction v as [|p v IH]; intros [|q v'] H1 H2 E; cbn in E; try discriminate; auto.
  injection E as E1 E2. f_equal; [apply pdigit_inj; auto; intros ->; [apply H1|apply H2]; left; reflexivity|].
  apply IH; auto; intros I; [apply H1|apply H2]; right; exact I.
Qed.
Lemma window_code_inj h w w' : legal h w -> legal h w' -> window_code w = window_code w' -> w = w'.
Proof.
  intros (ld & vis & rd & -> & L1 & R1 & N1 & V1) (ld' & vis' & rd' & -> & L2 & R2 & N2 & V2) E.
  destruct (legal_vis L1 R1 N1) as [A1 B1]. destruct (legal_vis L2 R2 N2) as [A2 B2].
  rewrite !window_code_split in E by assumption. apply code_value_inj in E.
  - destruct E as (-> & Em & ->). rewrite (map_pdigit_inj V1 V2 Em). reflexivity.
  - apply Forall_forall. intros z I. apply in_map_iff in I. destruct I as (p & <- & _). apply pdigit_digit.
  - apply Forall_forall. intros z I. apply in_map_iff in I. destruct I as (p & <- & _). apply pdigit_digit.
  - rewrite !map_length. lia.
Qed.
Definition max_code (h : nat) : Z := 2 * 3 ^ (2 * Z.of_nat h + 1) + 2 * geo (h + 1) + 3 ^ (Z.of_nat h + 2) * geo (h - 1).
Lemma window_code_bounds h w : legal h w -> 0 <= window_code w <= max_code h.
Proof.
  intros (ld & vis & rd & -> & L1 & R1 & N1 & V1). destruct (legal_vis L1 R1 N1) as [A1 B1].
  rewrite window_code_split by assumption. apply code_value_bounds; auto.
  - apply Forall_forall. intros z I. apply in_map_iff in I. destruct I as (p & <- & _). apply pdigit_digit.
  - rewrite map_length. lia.
Qed.

Lemma map_repeat_const {A B} (f : A -> B) l c : (forall x, In x l -> f x = c) -> map f l = repeat c (List.length l).
Proof.
  induction l as [|x l IH]; intros H; cbn; [reflexivity|].
  rewrite (H x (or_introl eq_refl)), IH; [reflexivity|]. intros y Hy. apply H. right. exact Hy.
Qed.

(** encode_contiguous on a key whose fields are a window. *)
Lemma encode_window h key (at_ : nat -> point) lft rgt : (h <= 8)%nat ->
  0 <= lft <= Z.of_nat h -> 0 <= rgt <= Z.of_nat h ->
  (forall k, (k < 2 * h + 1)%nat -> fld key (Z.of_nat k) = bits (at_ k)) ->
  (forall k, (k < 2 * h + 1)%nat -> at_ k <> Wall <-> - lft <= Z.of_nat k - Z.of_nat h <= rgt) ->
  let w := map at_ (seq 0 (2 * h + 1)) in
  legal h w /\ encode_contiguous (2 * Z.of_nat h + 1) key lft rgt = Ok (w32 (window_code w))
  /\ s32 (w32 (window_code w)) = window_code w.
Proof.
  intros Hh Hl Hr Hfld Hwall w.
  set (ld := Z.to_nat (Z.of_nat h - lft)). set (rd := Z.to_nat (Z.of_nat h - rgt)).
  set (vis := map at_ (seq ld (2 * h + 1 - ld - rd))).
  assert (Ew : w = repeat Wall ld ++ vis ++ repeat Wall rd).
  { subst w. replace (2 * h + 1)%nat with (ld + ((2 * h + 1 - ld - rd) + rd))%nat by lia.
    rewrite !seq_app, !map_app. cbn [Nat.add]. f_equal; [|f_equal].
    - rewrite (@map_repeat_const _ _ _ _ Wall), seq_length; [reflexivity|].
      intros k Ik. apply in_seq in Ik. pose proof (Hwall k ltac:(lia)) as Hk.
      destruct (at_ k); auto; exfalso; assert (- lft <= Z.of_nat k - Z.of_nat h <= rgt) by (apply Hk; discriminate); lia.
    - rewrite (@map_repeat_const _ _ _ _ Wall), seq_length; [reflexivity|].
      intros k Ik. apply in_seq in Ik. pose proof (Hwall k ltac:(lia)) as Hk.
      destruct (at_ k); auto; exfalso; assert (- lft <= Z.of_nat k - Z.of_nat h <= rgt) by (apply Hk; discriminate); lia. }
  assert (Hleg : legal h w).
  { exists ld, vis, rd. conj; auto; try lia.
    - subst w. rewrite map_length, seq_length. reflexivity.
    - intros I. subst vis. apply in_map_iff in I. destruct I as (k & E & Ik). apply in_seq in Ik.
      assert (at_ k <> Wall) by (apply Hwall; lia). contradiction. }
  split; [exact Hleg|]. split.
  2:{ apply s32_id. pose proof (window_code_bounds Hleg) as B. destruct (max_encoding_ok Hh) as [_ M]. unfold max_code in B.
      change (3 ^ 18) with 387420489 in M. change (2 ^ 31) with 2147483648. lia. }
  replace lft with (Z.of_nat h - Z.of_nat ld) by lia. replace rgt with (Z.of_nat h - Z.of_nat rd) by lia.
  rewrite encode_ok; try lia.
  - f_equal. f_equal. rewrite Ew. rewrite window_code_split.
    + f_equal. subst vis. rewrite map_map. apply map_ext_in. intros k Ik. apply in_seq in Ik.
      rewrite Hfld by lia. apply dg_bits.
    + subst vis. intros E. apply (f_equal (@List.length _)) in E. rewrite map_length, seq_length in E. cbn in E. lia.
    + intros I. subst vis. apply in_map_iff in I. destruct I as (k & E & Ik). apply in_seq in Ik.
      assert (at_ k <> Wall) by (apply Hwall; lia). contradiction.
  - intros k Hk. rewrite Hfld by lia. rewrite dg_bits. pose proof (Hwall k ltac:(lia)) as Hk'.
    destruct (at_ k); auto; exfalso; assert (- lft <= Z.of_nat k - Z.of_nat h <= rgt) by (apply Hk'; discriminate); lia.
  - intros k Hk. rewrite Hfld by lia. rewrite dg_bits. pose proof (Hwall k ltac:(lia)) as Hk'.
    destruct (at_ k); auto; exfalso; assert (- lft <= Z.of_nat k - Z.of_nat h <= rgt) by (apply Hk'; discriminate); lia.
Qed.

(** The raw code. *)
Lemma land_mod key n : Z.land key (2 ^ (2 * Z.of_nat n) - 1) = key mod 4 ^ Z.of_nat n.
Proof.
  replace (2 ^ (2 * Z.of_nat n) - 1) with (Z.ones (2 * Z.of_nat n)) by (rewrite Z.ones_equiv; lia).
  rewrite Z.land_ones by lia. rewrite Z.pow_mul_r by lia. reflexivity.
Qed.
Lemma raw_key n : forall key (at_ : nat -> point), (forall k, (k < n)%nat -> fld key (Z.of_nat k) = bits (at_ k)) ->
  key mod 4 ^ Z.of_nat n = raw_code (map at_ (seq 0 n)).
Proof.
  induction n as [|n IH]; intros key at_ Hk; [cbn [seq map raw_code]; change (4 ^ Z.of_nat 0) with 1; apply Z.mod_1_r|].
  rewrite Nat2Z.inj_succ, Z.pow_succ_r by lia. rewrite Z.rem_mul_r by lia.
  cbn [seq map raw_code]. f_equal.
  - rewrite <- (Hk 0%nat) by lia. unfold fld. rewrite Z.shiftr_0_r. change 3 with (Z.ones 2). rewrite Z.land_ones by lia. reflexivity.
  - f_equal. rewrite <- seq_shift, map_map. apply IH. intros k Hlt.
    rewrite <- (Hk (S k)) by lia. unfold fld. f_equal.
    replace (2 * Z.of_nat (S k)) with (2 + 2 * Z.of_nat k) by lia. rewrite <- Z.shiftr_shiftr by lia. f_equal.
    rewrite Z.shiftr_div_pow2 by lia. reflexivity.
Qed.
Lemma raw_code_bounds w : 0 <= raw_code w < 4 ^ Z.of_nat (List.length w).
Proof.
  induction w as [|p w IH]; [cbn; lia|]. cbn [raw_code List.length]. rewrite Nat2Z.inj_succ, Z.pow_succ_r by lia.
  assert (0 <= bits p < 4) by (destruct p; cbn; lia). lia.
Qed.
Lemma raw_code_inj w : forall w', List.length w = List.length w' -> raw_code w = raw_code w' -> w = w'.
Proof.
  induction w as [|p w IH]; intros [|q w'] HL E; cbn in HL; try discriminate; auto.
  cbn [raw_code] in E. assert (0 <= bits p < 4) by (destruct p; cbn; lia). assert (0 <= bits q < 4) by (destruct q; cbn; lia).
  f_equal; [|apply IH; lia]. assert (Eb : bits p = bits q) by lia. destruct p, q; cbn in Eb; congruence.
Qed.

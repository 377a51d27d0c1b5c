(** The compact line code: digits, injectivity, bounds. *)
From Verif Require Import Base BaseFacts LineEncoding.
Set Implicit Arguments.
Unset Strict Implicit.

(** ** uint32 *)
Lemma w32_add a b : w32 (w32 a + b) = w32 (a + b).
Proof. unfold w32. apply Zplus_mod_idemp_l. Qed.
Lemma w32_add2 a b : w32 (w32 a + w32 b) = w32 (a + b).
Proof. unfold w32. symmetry. apply Zplus_mod. Qed.
Lemma w32_id a : 0 <= a < 2 ^ 32 -> w32 a = a.
Proof. apply Z.mod_small. Qed.
Lemma s32_id a : 0 <= a < 2 ^ 31 -> s32 (w32 a) = a.
Proof. intros H. rewrite w32_id by lia. unfold s32. replace (a <? 2 ^ 31) with true by lia. reflexivity. Qed.

Lemma pow3_ok i : 0 <= i < 20 -> pow3 i = Ok (3 ^ i).
Proof.
  intros H. assert (E : exists n, i = Z.of_nat n /\ (n < 20)%nat) by (exists (Z.to_nat i); lia).
  destruct E as (n & -> & Hn). clear H.
  do 20 (destruct n as [|n]; [vm_compute; reflexivity|]). lia.
Qed.

(** ** Sums of powers *)
Fixpoint dsum (n : nat) (i : Z) (f : Z -> Z) : Z :=
  match n with O => 0 | S m => f i + dsum m (i + 1) f end.
Lemma dsum_app a : forall b i f, dsum (a + b) i f = dsum a i f + dsum b (i + Z.of_nat a) f.
Proof.
  induction a as [|a IH]; intros b i f; cbn [dsum Nat.add].
  - rewrite Z.add_0_r. lia.
  - rewrite IH. replace (i + Z.of_nat (S a)) with (i + 1 + Z.of_nat a) by lia. lia.
Qed.
Lemma dsum_ext n : forall i f g, (forall j, i <= j < i + Z.of_nat n -> f j = g j) -> dsum n i f = dsum n i g.
Proof.
  induction n as [|n IH]; intros i f g H; cbn [dsum]; [reflexivity|].
  rewrite (H i) by lia. f_equal. apply IH. intros j Hj. apply H. lia.
Qed.
Definition geo (n : nat) : Z := dsum n 0 (fun i => 3 ^ i).
Lemma dsum_shift n : forall i k f, dsum n (i + k) f = dsum n i (fun j => f (j + k)).
Proof.
  induction n as [|n IH]; intros i k f; cbn [dsum]; [reflexivity|].
  f_equal. rewrite <- IH. f_equal. lia.
Qed.
Lemma dsum_scale n c : forall i f, dsum n i (fun j => c * f j) = c * dsum n i f.
Proof. induction n as [|n IH]; intros i f; cbn [dsum]; [lia|]. rewrite IH. lia. Qed.
Lemma dsum_up n a : 0 <= a -> dsum n a (fun i => 3 ^ i) = 3 ^ a * geo n.
Proof.
  intros Ha. replace a with (0 + a) at 1 by lia. rewrite dsum_shift.
  rewrite (@dsum_ext n 0 _ (fun j => 3 ^ a * 3 ^ j)).
  - apply dsum_scale.
  - intros j Hj. rewrite <- Z.pow_add_r by lia. f_equal. lia.
Qed.
Lemma geo_S n : geo (S n) = 3 ^ Z.of_nat n + geo n.
Proof.
  unfold geo. replace (S n) with (n + 1)%nat by lia. rewrite dsum_app. cbn [dsum]. rewrite Z.add_0_l. lia.
Qed.
Lemma geo_S' n : geo (S n) = 1 + 3 * geo n.
Proof.
  unfold geo at 1. cbn [dsum]. rewrite (@dsum_up n (0 + 1)) by lia.
  change (3 ^ 0) with 1. change (3 ^ (0 + 1)) with 3. reflexivity.
Qed.
Lemma geo_2 n : 2 * geo n + 1 = 3 ^ Z.of_nat n.
Proof.
  induction n as [|n IH]; [reflexivity|]. rewrite geo_S', Nat2Z.inj_succ, Z.pow_succ_r by lia. lia.
Qed.
Lemma dsum_down n : forall a m, a + Z.of_nat n <= m + 1 ->
  dsum n a (fun i => 3 ^ (m - i)) = 3 ^ (m - a - Z.of_nat n + 1) * geo n.
Proof.
  induction n as [|n IH]; intros a m H; cbn [dsum].
  - change (geo 0) with 0. lia.
  - rewrite IH by lia. rewrite geo_S. rewrite Nat2Z.inj_succ.
    replace (m - (a + 1) - Z.of_nat n + 1) with (m - a - Z.succ (Z.of_nat n) + 1) by lia.
    rewrite Z.mul_add_distr_l, <- Z.pow_add_r by lia.
    replace (m - a - Z.succ (Z.of_nat n) + 1 + Z.of_nat n) with (m - a) by lia. reflexivity.
Qed.

(** ** Base-3 numbers, most significant digit first *)
Fixpoint val3 (l : list Z) : Z :=
  match l with [] => 0 | d :: t => d * 3 ^ zlen t + val3 t end.
Lemma val3_app a b : val3 (a ++ b) = val3 a * 3 ^ zlen b + val3 b.
Proof.
  induction a as [|d a IH]; cbn [app val3]; [lia|]. rewrite IH. unfold zlen. rewrite app_length, Nat2Z.inj_add.
  rewrite Z.pow_add_r by lia. ring.
Qed.
Lemma val3_repeat c n : val3 (repeat c n) = c * geo n.
Proof.
  induction n as [|n IH]; cbn [repeat val3]; [unfold geo; cbn; lia|].
  rewrite IH, geo_S. unfold zlen. rewrite repeat_length. ring.
Qed.
Definition digit3 (d : Z) : Prop := 0 <= d <= 2.
Lemma val3_bounds l : Forall digit3 l -> 0 <= val3 l < 3 ^ zlen l.
Proof.
  induction 1 as [|d t Hd Ht IH]; [cbn [val3]; change (3 ^ zlen []) with 1; lia|]. cbn [val3]. unfold digit3 in Hd.
  unfold zlen in *. cbn [List.length]. rewrite Nat2Z.inj_succ, Z.pow_succ_r by lia.
  set (P := 3 ^ Z.of_nat (List.length t)) in *. assert (0 < P) by (subst P; apply Z.pow_pos_nonneg; lia).
  split; [nia|]. nia.
Qed.
Lemma val3_inj l : forall m, Forall digit3 l -> Forall digit3 m -> List.length l = List.length m ->
  val3 l = val3 m -> l = m.
Proof.
  induction l as [|d l IH]; intros [|e m] Hl Hm HL HV; cbn in HL; try discriminate; auto.
  inversion Hl as [|? ? Hd Hl']; inversion Hm as [|? ? He Hm']; subst.
  cbn [val3] in HV. injection HL as HL. unfold zlen in HV. rewrite HL in HV.
  pose proof (val3_bounds Hl') as B1. pose proof (val3_bounds Hm') as B2. unfold zlen in B1, B2. rewrite HL in B1.
  set (P := 3 ^ Z.of_nat (List.length m)) in *. assert (0 < P) by (subst P; apply Z.pow_pos_nonneg; lia).
  assert (d = e) by nia. subst e. f_equal. apply IH; auto. lia.
Qed.
(** Comparison by the first difference. *)
Lemma val3_lt p d e l m : Forall digit3 l -> Forall digit3 m -> List.length l = List.length m -> d < e ->
  val3 (p ++ d :: l) < val3 (p ++ e :: m).
Proof.
  intros Hl Hm HL Hd. rewrite !val3_app. cbn [val3]. unfold zlen. cbn [List.length]. rewrite HL.
  pose proof (val3_bounds Hl) as B1. pose proof (val3_bounds Hm) as B2. unfold zlen in B1, B2. rewrite HL in B1. nia.
Qed.
Lemma val3_le l m : Forall2 (fun d e => 0 <= d <= e) l m -> val3 l <= val3 m.
Proof.
  induction 1 as [|d e l m Hd H IH]; [lia|]. cbn [val3]. assert (E : List.length l = List.length m) by (clear -H; induction H; cbn; congruence). unfold zlen. rewrite E.
  assert (0 < 3 ^ Z.of_nat (List.length m)) by (apply Z.pow_pos_nonneg; lia). nia.
Qed.

(** ** Border digits.  [ld], [rd]: numbers of wall cells on the left and on the right. *)
Definition pad (twos dist : nat) : list Z :=
  repeat 2 twos ++ repeat 1 (dist - 1 - twos) ++ repeat 0 (dist - twos - (dist - 1 - twos)).
Lemma pad_length twos dist : (twos <= dist)%nat -> List.length (pad twos dist) = dist.
Proof. intros H. unfold pad. rewrite !app_length, !repeat_length. lia. Qed.
Definition marker (ld rd : nat) : Z :=
  match rd with O => match ld with O => 0 | _ => 2 end | _ => 1 end.
Definition left_pad (ld rd : nat) : list Z :=
  match rd with
  | O => match ld with O => [] | _ => pad 0 ld end
  | _ => pad (Nat.min ld (rd - 1)) ld
  end.
Definition right_pad (ld rd : nat) : list Z := pad (Nat.min ld rd) rd.
Definition digits (ld : nat) (vis : list Z) (rd : nat) : list Z :=
  left_pad ld rd ++ vis ++ rev (right_pad ld rd).
Definition code_value (ld : nat) (vis : list Z) (rd : nat) : Z :=
  marker ld rd * 3 ^ Z.of_nat (ld + List.length vis + rd) + val3 (digits ld vis rd).

Lemma pad_digits twos dist : Forall digit3 (pad twos dist).
Proof.
  unfold pad. rewrite !Forall_app. conj; apply Forall_forall; intros x Hx; apply repeat_spec in Hx; subst; unfold digit3; lia.
Qed.
Lemma left_pad_length ld rd : List.length (left_pad ld rd) = ld.
Proof. unfold left_pad. destruct rd; [destruct ld; [reflexivity|]|]; apply pad_length; lia. Qed.
Lemma right_pad_length ld rd : List.length (right_pad ld rd) = rd.
Proof. apply pad_length. lia. Qed.
Lemma digits_length ld vis rd : List.length (digits ld vis rd) = (ld + List.length vis + rd)%nat.
Proof. unfold digits. rewrite !app_length, rev_length, left_pad_length, right_pad_length. lia. Qed.
Lemma digits_ok ld vis rd : Forall digit3 vis -> Forall digit3 (digits ld vis rd).
Proof.
  intros H. unfold digits. rewrite !Forall_app. conj.
  - unfold left_pad. destruct rd; [destruct ld; [constructor|]|]; apply pad_digits.
  - exact H.
  - apply Forall_rev. apply pad_digits.
Qed.
Lemma marker_digit ld rd : digit3 (marker ld rd).
Proof. unfold marker, digit3. destruct rd; [destruct ld|]; lia. Qed.

(** ** The walls can be read off the digits *)
Fixpoint lead (d : Z) (l : list Z) : nat :=
  match l with [] => 0%nat | x :: t => if x =? d then S (lead d t) else 0%nat end.
Lemma lead_repeat d n l : lead d (repeat d n ++ l) = (n + lead d l)%nat.
Proof. induction n as [|n IH]; cbn; [reflexivity|]. rewrite Z.eqb_refl, IH. reflexivity. Qed.
Lemma lead_stop d x l : x <> d -> lead d (x :: l) = 0%nat.
Proof. intros H. cbn. apply Z.eqb_neq in H. rewrite H. reflexivity. Qed.
Lemma lead_app d a b : (lead d a < List.length a)%nat -> lead d (a ++ b) = lead d a.
Proof.
  induction a as [|x a IH]; cbn; [lia|]. destruct (x =? d); [|reflexivity].
  intros H. rewrite IH by lia. reflexivity.
Qed.
Lemma lead_app_ge d a b : (lead d a <= lead d (a ++ b))%nat.
Proof.
  induction a as [|x a IH]; cbn; [lia|]. destruct (x =? d); lia.
Qed.
Lemma pad_lead twos dist : (twos < dist)%nat ->
  lead 2 (pad twos dist) = twos /\ skipn twos (pad twos dist) = repeat 1 (dist - 1 - twos) ++ [0].
Proof.
  intros H. unfold pad. replace (dist - twos - (dist - 1 - twos))%nat with 1%nat by lia. split.
  - rewrite lead_repeat. destruct (dist - 1 - twos)%nat as [|n]; apply Nat.add_0_r.
  - rewrite skipn_app, skipn_all2 by (rewrite repeat_length; lia). rewrite repeat_length, Nat.sub_diag. reflexivity.
Qed.
Lemma pad_full n : pad n n = repeat 2 n.
Proof. unfold pad. replace (n - 1 - n)%nat with 0%nat by lia. rewrite Nat.sub_diag. cbn. apply app_nil_r. Qed.

(** Reading the number of walls back. *)
Definition walls (mk : Z) (D : list Z) : nat * nat :=
  if mk =? 0 then (0, 0)%nat
  else if mk =? 2 then (S (lead 1 D), 0)%nat
  else let p := lead 2 D in
       let q := lead 2 (rev D) in
       if (p <? q)%nat then ((S p + lead 1 (skipn p D)), S p)%nat
       else (q, (S q + lead 1 (skipn q (rev D))))%nat.

Lemma skipn_app_le {A} n (a b : list A) : (n <= List.length a)%nat -> skipn n (a ++ b) = skipn n a ++ b.
Proof. intros H. rewrite skipn_app. replace (n - List.length a)%nat with 0%nat by lia. reflexivity. Qed.
Lemma lead_ones n l : lead 1 ((repeat 1 n ++ [0]) ++ l) = n.
Proof. rewrite <- app_assoc, lead_repeat. apply Nat.add_0_r. Qed.

Lemma walls_digits ld vis rd : walls (marker ld rd) (digits ld vis rd) = (ld, rd).
Proof.
  unfold walls, digits, marker. destruct rd as [|rd].
  - destruct ld as [|ld]; [reflexivity|]. cbn [Z.eqb].
    unfold left_pad, pad. cbn [repeat app].
    replace (S ld - 1 - 0)%nat with ld by lia. replace (S ld - 0 - ld)%nat with 1%nat by lia.
    replace (lead 1 _) with ld; [reflexivity|]. cbn [repeat]. symmetry. apply lead_ones.
  - change (1 =? 0) with false. change (1 =? 2) with false. cbv iota beta zeta. unfold left_pad, right_pad.
    rewrite !rev_app_distr, rev_involutive.
    destruct (Nat.le_gt_cases (S rd) ld) as [H|H].
    + (* the right padding is all twos *)
      rewrite (Nat.min_r ld (S rd - 1)) by lia. rewrite (Nat.min_r ld (S rd)) by lia.
      replace (S rd - 1)%nat with rd by lia.
      destruct (@pad_lead rd ld ltac:(lia)) as [L1 L2].
      assert (Hl : List.length (pad rd ld) = ld) by (apply pad_length; lia).
      rewrite (lead_app (d := 2) (a := pad rd ld)) by (rewrite Hl, L1; lia). rewrite L1.
      rewrite pad_full, <- app_assoc. rewrite lead_repeat.
      replace (rd <? S rd + _)%nat with true by (symmetry; apply Nat.ltb_lt; lia).
      rewrite skipn_app_le by (rewrite Hl; lia). rewrite L2, lead_ones.
      f_equal. lia.
    + rewrite (Nat.min_l ld (S rd - 1)) by lia. rewrite (Nat.min_l ld (S rd)) by lia.
      destruct (@pad_lead ld (S rd) ltac:(lia)) as [L1 L2].
      assert (Hl : List.length (pad ld (S rd)) = S rd) by (apply pad_length; lia).
      rewrite <- app_assoc. rewrite (lead_app (d := 2) (a := pad ld (S rd))) by (rewrite Hl, L1; lia). rewrite L1.
      rewrite pad_full, lead_repeat.
      replace (ld + _ <? ld)%nat with false by (symmetry; apply Nat.ltb_ge; lia).
      rewrite (skipn_app_le (a := pad ld (S rd))) by (rewrite Hl; lia). rewrite L2, lead_ones.
      f_equal. lia.
Qed.

Lemma app_inj_len {A} (a b c d : list A) : List.length a = List.length b -> a ++ c = b ++ d -> a = b /\ c = d.
Proof.
  revert b; induction a as [|x a IH]; intros [|y b]; cbn; intros HL H; try discriminate; auto.
  injection H as -> H. apply IH in H; [|congruence]. destruct H; subst; auto.
Qed.

Lemma code_value_inj ld vis rd ld' vis' rd' :
  Forall digit3 vis -> Forall digit3 vis' -> (ld + List.length vis + rd = ld' + List.length vis' + rd')%nat ->
  code_value ld vis rd = code_value ld' vis' rd' -> ld = ld' /\ vis = vis' /\ rd = rd'.
Proof.
  intros Hv Hv' HL E. unfold code_value in E. rewrite <- HL in E.
  pose proof (val3_bounds (digits_ok ld rd Hv)) as B1. pose proof (val3_bounds (digits_ok ld' rd' Hv')) as B2.
  unfold zlen in B1, B2. rewrite digits_length in B1, B2. rewrite <- HL in B2.
  pose proof (marker_digit ld rd) as M1. pose proof (marker_digit ld' rd') as M2. unfold digit3 in M1, M2.
  set (P := 3 ^ Z.of_nat (ld + List.length vis + rd)) in *.
  assert (Em : marker ld rd = marker ld' rd') by nia.
  assert (Ed : digits ld vis rd = digits ld' vis' rd').
  { apply val3_inj; try (apply digits_ok; assumption).
    - rewrite !digits_length. exact HL.
    - rewrite Em in E. lia. }
  pose proof (walls_digits ld vis rd) as W1. pose proof (walls_digits ld' vis' rd') as W2.
  rewrite Em, Ed in W1. rewrite W2 in W1. injection W1 as <- <-.
  conj; auto. unfold digits in Ed. apply app_inj_len in Ed; [|reflexivity]. destruct Ed as [_ Ed].
  apply app_inj_len in Ed; [tauto|]. lia.
Qed.

(** ** Bounds *)
Lemma code_value_bounds h ld vis rd : Forall digit3 vis -> (ld <= h)%nat -> (rd <= h)%nat ->
  (ld + List.length vis + rd = 2 * h + 1)%nat ->
  0 <= code_value ld vis rd <= 2 * 3 ^ (2 * Z.of_nat h + 1) + 2 * geo (h + 1) + 3 ^ (Z.of_nat h + 2) * geo (h - 1).
Proof.
  intros Hv Hl Hr HL. unfold code_value. rewrite HL.
  replace (Z.of_nat (2 * h + 1)) with (2 * Z.of_nat h + 1) by lia.
  pose proof (val3_bounds (digits_ok ld rd Hv)) as B. unfold zlen in B. rewrite digits_length, HL in B.
  replace (Z.of_nat (2 * h + 1)) with (2 * Z.of_nat h + 1) in B by lia.
  set (P := 3 ^ (2 * Z.of_nat h + 1)) in *.
  assert (Hg : forall n, 0 <= geo n). { intros n. pose proof (geo_2 n). pose proof (Z.pow_pos_nonneg 3 (Z.of_nat n) ltac:(lia) ltac:(lia)). lia. }
  pose proof (Hg (h + 1)%nat) as G1. pose proof (Hg (h - 1)%nat) as G2.
  assert (HP : 0 < 3 ^ (Z.of_nat h + 2)) by (apply Z.pow_pos_nonneg; lia).
  pose proof (marker_digit ld rd) as M. unfold digit3 in M.
  split; [nia|].
  destruct rd as [|rd]; [destruct ld as [|ld]|].
  - change (marker 0 0) with 0. nia.
  - change (marker (S ld) 0) with 2.
    enough (val3 (digits (S ld) vis 0) <= val3 (repeat 1 (h - 1) ++ 0 :: repeat 2 (h + 1))) as E.
    { rewrite val3_app in E. cbn [val3] in E. rewrite !val3_repeat in E. unfold zlen in E.
      cbn [List.length] in E. rewrite repeat_length in E.
      replace (Z.of_nat (S (h + 1))) with (Z.of_nat h + 2) in E by lia. lia. }
    unfold digits, right_pad. cbn [pad repeat rev app Nat.min]. rewrite app_nil_r.
    unfold left_pad, pad. cbn [repeat app].
    replace (S ld - 1 - 0)%nat with ld by lia. replace (S ld - 0 - ld)%nat with 1%nat by lia. cbn [repeat].
    rewrite <- app_assoc. cbn [app].
    destruct (Nat.eq_dec (S ld) h) as [E|E].
    + replace (h - 1)%nat with ld by lia. rewrite !val3_app. cbn [val3].
      assert (List.length vis = h + 1)%nat by lia.
      unfold zlen. cbn [List.length]. rewrite repeat_length, H.
      assert (val3 vis <= val3 (repeat 2 (h + 1))).
      { apply val3_le. rewrite <- H. clear -Hv. induction Hv as [|d t Hd _ IH]; cbn; constructor; auto. }
      lia.
    + assert (Eh : (h - 1 = ld + S (h - 2 - ld))%nat) by lia. rewrite Eh, repeat_app. cbn [repeat].
      rewrite <- app_assoc. cbn [app]. apply Z.lt_le_incl. apply val3_lt; [exact Hv| | |lia].
      * apply Forall_app. split; [|constructor; [unfold digit3; lia|]]; apply Forall_forall; intros x Hx; apply repeat_spec in Hx; subst; unfold digit3; lia.
      * rewrite app_length. cbn [List.length]. rewrite !repeat_length. lia.
  - change (marker ld (S rd)) with 1. nia.
Qed.

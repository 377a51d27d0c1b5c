From Verif Require Import Base BaseFacts Rng.
Set Implicit Arguments.

(** * TLV encoding *)

Lemma le_bytes_length n v : List.length (le_bytes n v) = n.
Proof. revert v; induction n as [|n IH]; intros v; simpl; auto. Qed.

Lemma le_bytes_inj n v w :
  le_bytes n v = le_bytes n w -> v mod 256 ^ Z.of_nat n = w mod 256 ^ Z.of_nat n.
Proof.
  revert v w; induction n as [|n IH]; intros v w H.
  - simpl. rewrite !Z.mod_1_r. reflexivity.
  - cbn [le_bytes] in H. injection H as H1 H2.
    apply IH in H2. rewrite Nat2Z.inj_succ, Z.pow_succ_r by lia.
    rewrite (Z.rem_mul_r v 256), (Z.rem_mul_r w 256) by (try lia; apply Z.pow_pos_nonneg; lia).
    congruence.
Qed.

Lemma le_bytes_inj_u32 a b :
  0 <= a < 2 ^ 32 -> 0 <= b < 2 ^ 32 -> le_bytes 4 a = le_bytes 4 b -> a = b.
Proof.
  intros Ha Hb H. apply le_bytes_inj in H.
  change (256 ^ Z.of_nat 4) with (2 ^ 32) in H.
  rewrite !Z.mod_small in H by assumption. exact H.
Qed.

Lemma le_bytes_inj_s64 a b :
  - two63 <= a < two63 -> - two63 <= b < two63 -> le_bytes 8 a = le_bytes 8 b -> a = b.
Proof.
  intros Ha Hb H. apply le_bytes_inj in H.
  change (256 ^ Z.of_nat 8) with (2 ^ 64) in H. unfold two63 in *.
  assert (Hd : (a - b) mod 2 ^ 64 = 0).
  { rewrite Zminus_mod, H, Z.sub_diag. reflexivity. }
  apply Z.mod_divide in Hd; [|lia]. destruct Hd as [q Hq].
  assert (q = 0) by lia. lia.
Qed.

Lemma app_inj_length {A} (a b c d : list A) :
  List.length a = List.length b -> a ++ c = b ++ d -> a = b /\ c = d.
Proof.
  revert b; induction a as [|x a IH]; intros [|y b]; simpl; intros HL H;
    try discriminate; auto.
  injection H as -> H. apply IH in H; [|congruence]. destruct H; subst; auto.
Qed.

Lemma cons_tail {A} (a b : A) l m : a :: l = b :: m -> l = m.
Proof. intros H; congruence. Qed.

Local Opaque le_bytes.

(** Induction principle for keys with nested lists. *)
Lemma key_ind' (P : key -> Prop) :
  P KNone -> (forall b, P (KBool b)) -> (forall z, P (KInt z)) ->
  (forall s, P (KStr s)) -> (forall s, P (KBytes s)) ->
  (forall l, Forall P l -> P (KTuple l)) -> forall k, P k.
Proof.
  intros H0 H1 H2 H3 H4 H5.
  fix IH 1. intros [ | b | z | s | s | l].
  - exact H0.
  - apply H1.
  - apply H2.
  - apply H3.
  - apply H4.
  - apply H5. induction l as [|a l IHl]; constructor; [apply IH|exact IHl].
Qed.

Lemma tlv_tuple l :
  tlv (KTuple l) = (n <- pack_u32 (zlen l) ;; body <- tlv_join l ;; Ok (5 :: n ++ body)).
Proof.
  reflexivity.
Qed.

Lemma pack_u32_Ok n b : pack_u32 n = Ok b -> 0 <= n < 2 ^ 32 /\ b = le_bytes 4 n.
Proof.
  unfold pack_u32. destruct ((0 <=? n) && (n <? 2 ^ 32)) eqn:E; intros H; [|discriminate].
  inversion H; split; auto. lia.
Qed.

Definition prefix_free_at (a : key) : Prop :=
  forall b x y r s, tlv a = Ok x -> tlv b = Ok y -> x ++ r = y ++ s -> a = b /\ r = s.

Lemma tlv_join_prefix_free l :
  Forall prefix_free_at l ->
  forall m x y r s, List.length l = List.length m -> tlv_join l = Ok x -> tlv_join m = Ok y ->
  x ++ r = y ++ s -> l = m /\ r = s.
Proof.
  induction 1 as [|a l Ha Hl IH]; intros [|b m] x y r s HL Hx Hy E; simpl in HL;
    try discriminate.
  - simpl in Hx, Hy. inversion Hx; inversion Hy; subst. auto.
  - cbn [tlv_join] in Hx, Hy. inv_bind Hx. inv_bind Hx. inv_bind Hy. inv_bind Hy.
    inversion Hx; inversion Hy; subst.
    rewrite <- !app_assoc in E.
    destruct (Ha _ _ _ _ _ Hm Hm1 E) as [-> E2].
    destruct (IH m v0 v2 r s ltac:(congruence) Hm0 Hm2 E2) as [-> ->]. auto.
Qed.

Lemma le4_head_inj a b (r s : bytes) :
  0 <= a < 2 ^ 32 -> 0 <= b < 2 ^ 32 -> le_bytes 4 a ++ r = le_bytes 4 b ++ s -> a = b /\ r = s.
Proof.
  intros Ha Hb E. apply app_inj_length in E; [|rewrite !le_bytes_length; reflexivity].
  destruct E as [E ->]. split; auto. apply le_bytes_inj_u32; auto.
Qed.

Lemma zlen_length_inj {A B} (l : list A) (m : list B) :
  zlen l = zlen m -> List.length l = List.length m.
Proof. unfold zlen; lia. Qed.

Lemma tlv_prefix_free_all a : prefix_free_at a.
Proof.
  induction a as [|b|z|s0|s0|l IH] using key_ind'; intros c x y r s Hx Hy E.
  - simpl in Hx. inversion Hx; subst. destruct c as [|b2|z2|s2|s2|l2]; try (cbn [tlv] in Hy).
    + inversion Hy; subst; simpl in E; inversion E; auto.
    + inversion Hy; subst; discriminate E.
    + apply guard_Ok in Hy as [_ Hy]; inversion Hy; subst; discriminate E.
    + inv_bind Hy; inversion Hy; subst; discriminate E.
    + inv_bind Hy; inversion Hy; subst; discriminate E.
    + inv_bind Hy; inv_bind Hy; inversion Hy; subst; discriminate E.
  - cbn [tlv] in Hx. inversion Hx; subst. destruct c as [|b2|z2|s2|s2|l2]; try (cbn [tlv] in Hy).
    + inversion Hy; subst; discriminate E.
    + inversion Hy; subst. simpl in E. injection E as E1 E2. split; auto.
      destruct b, b2; congruence.
    + apply guard_Ok in Hy as [_ Hy]; inversion Hy; subst; discriminate E.
    + inv_bind Hy; inversion Hy; subst; discriminate E.
    + inv_bind Hy; inversion Hy; subst; discriminate E.
    + inv_bind Hy; inv_bind Hy; inversion Hy; subst; discriminate E.
  - cbn [tlv] in Hx. apply guard_Ok in Hx as [Hr Hx]. inversion Hx; subst.
    destruct c as [|b2|z2|s2|s2|l2]; try (cbn [tlv] in Hy).
    + inversion Hy; subst; discriminate E.
    + inversion Hy; subst; discriminate E.
    + apply guard_Ok in Hy as [Hr2 Hy]; inversion Hy; subst.
      rewrite <- !app_comm_cons in E. apply cons_tail in E.
      apply app_inj_length in E; [|rewrite !le_bytes_length; reflexivity].
      destruct E as [E ->]. split; auto. f_equal. apply le_bytes_inj_s64; auto; lia.
    + inv_bind Hy; inversion Hy; subst; discriminate E.
    + inv_bind Hy; inversion Hy; subst; discriminate E.
    + inv_bind Hy; inv_bind Hy; inversion Hy; subst; discriminate E.
  - cbn [tlv] in Hx. inv_bind Hx. inversion Hx; subst.
    apply pack_u32_Ok in Hm as [Hr ->].
    destruct c as [|b2|z2|s2|s2|l2]; try (cbn [tlv] in Hy).
    + inversion Hy; subst; discriminate E.
    + inversion Hy; subst; discriminate E.
    + apply guard_Ok in Hy as [_ Hy]; inversion Hy; subst; discriminate E.
    + inv_bind Hy. apply pack_u32_Ok in Hm as [Hr2 ->]. inversion Hy; subst.
      rewrite <- !app_comm_cons, <- !app_assoc in E. apply cons_tail in E.
      apply le4_head_inj in E; auto. destruct E as [E1 E2].
      apply app_inj_length in E2; [|apply zlen_length_inj; auto].
      destruct E2; subst; auto.
    + inv_bind Hy; inversion Hy; subst; discriminate E.
    + inv_bind Hy; inv_bind Hy; inversion Hy; subst; discriminate E.
  - cbn [tlv] in Hx. inv_bind Hx. inversion Hx; subst.
    apply pack_u32_Ok in Hm as [Hr ->].
    destruct c as [|b2|z2|s2|s2|l2]; try (cbn [tlv] in Hy).
    + inversion Hy; subst; discriminate E.
    + inversion Hy; subst; discriminate E.
    + apply guard_Ok in Hy as [_ Hy]; inversion Hy; subst; discriminate E.
    + inv_bind Hy; inversion Hy; subst; discriminate E.
    + inv_bind Hy. apply pack_u32_Ok in Hm as [Hr2 ->]. inversion Hy; subst.
      rewrite <- !app_comm_cons, <- !app_assoc in E. apply cons_tail in E.
      apply le4_head_inj in E; auto. destruct E as [E1 E2].
      apply app_inj_length in E2; [|apply zlen_length_inj; auto].
      destruct E2; subst; auto.
    + inv_bind Hy; inv_bind Hy; inversion Hy; subst; discriminate E.
  - rewrite tlv_tuple in Hx. inv_bind Hx. inv_bind Hx. inversion Hx; subst.
    apply pack_u32_Ok in Hm as [Hr ->].
    destruct c as [|b2|z2|s2|s2|l2]; try (rewrite tlv_tuple in Hy); try (cbn [tlv] in Hy).
    + inversion Hy; subst; discriminate E.
    + inversion Hy; subst; discriminate E.
    + apply guard_Ok in Hy as [_ Hy]; inversion Hy; subst; discriminate E.
    + inv_bind Hy; inversion Hy; subst; discriminate E.
    + inv_bind Hy; inversion Hy; subst; discriminate E.
    + inv_bind Hy. inv_bind Hy. apply pack_u32_Ok in Hm as [Hr2 ->]. inversion Hy; subst.
      rewrite <- !app_comm_cons, <- !app_assoc in E. apply cons_tail in E.
      apply le4_head_inj in E; auto. destruct E as [E1 E2].
      destruct (tlv_join_prefix_free IH l2 r s (zlen_length_inj _ _ E1) Hm0 Hm1 E2); subst; auto.
Qed.

Lemma tlv_injective a b x : tlv a = Ok x -> tlv b = Ok x -> a = b.
Proof.
  intros Ha Hb. apply (tlv_prefix_free_all a b [] [] Ha Hb eq_refl).
Qed.

(** * Rejection loop *)

Lemma reject_step_spec n raw c :
  match reject_step n raw c with
  | inl c' => 0 <= c < two63 /\ c' = c + 1
              /\ exists v, raw c = Ok v /\ two64 - two64 mod n <= v
  | inr (Ok (x, c')) => 0 <= c < two63 /\ c' = c + 1
              /\ exists v, raw c = Ok v /\ v < two64 - two64 mod n /\ x = v mod n
  | inr (Err e) => e = ValueError /\ ~ (0 <= c < two63) \/ raw c = Err e
  end.
Proof.
  unfold reject_step.
  destruct ((0 <=? c) && (c <? two63)) eqn:E; simpl.
  - destruct (raw c) as [v|e] eqn:R; auto.
    destruct (Z.ltb_spec v (two64 - two64 mod n)).
    + split; [lia|]. split; auto. exists v; auto.
    + split; [lia|]. split; auto. exists v; auto.
  - left. split; auto. lia.
Qed.

(** What the rejection loop computes: the first accepted raw value at a counter
    [>= c]; all the values at counters from [c] up to it were rejected. *)
Lemma reject_loop_Ok n raw c x c' :
  reject_loop n raw c = Ok (x, c') ->
  0 <= c < c' /\ c' <= two63 /\
  (exists v, raw (c' - 1) = Ok v /\ v < two64 - two64 mod n /\ x = v mod n) /\
  (forall k, c <= k < c' - 1 -> exists v, raw k = Ok v /\ two64 - two64 mod n <= v).
Proof.
  unfold reject_loop. intros H.
  pose (P := fun k => c <= k /\ (k = c \/ 0 <= c /\ k <= two63) /\
              forall k', c <= k' < k -> exists v, raw k' = Ok v /\ two64 - two64 mod n <= v).
  pose (Q := fun r : res (Z * Z) => forall x c', r = Ok (x, c') ->
     0 <= c < c' /\ c' <= two63 /\
     (exists v, raw (c' - 1) = Ok v /\ v < two64 - two64 mod n /\ x = v mod n) /\
     (forall k, c <= k < c' - 1 -> exists v, raw k = Ok v /\ two64 - two64 mod n <= v)).
  assert (I := @loop_pos_ind _ _ P Q (reject_step n raw)).
  assert (Hstep : forall s, P s ->
     match reject_step n raw s with inl s' => P s' | inr b => Q b end).
  { intros s [Hs1 [Hs2 Hs3]]. generalize (reject_step_spec n raw s).
    destruct (reject_step n raw s) as [s'|[[x1 c1]|e]].
    - intros [Hc [-> [v [Hv1 Hv2]]]]. unfold P. split; [lia|]. split; [lia|].
      intros k' Hk. destruct (Z.eq_dec k' s) as [->|]; [exists v; auto|].
      apply Hs3; lia.
    - intros [Hc [-> [v [Hv1 [Hv2 ->]]]]]. intros x2 c2 E. inversion E; subst.
      split; [lia|]. split; [lia|]. split.
      + exists v. replace (s + 1 - 1) with s by lia. auto.
      + intros k Hk. apply Hs3; lia.
    - intros _. unfold Q. intros; discriminate. }
  specialize (I Hstep loop_bound c).
  assert (P c) as Pc. { unfold P. split; [lia|]. split; auto. intros; lia. }
  specialize (I Pc). destruct (loop_pos loop_bound (reject_step n raw) c) as [s|r];
    [discriminate|]. subst r. apply I. reflexivity.
Qed.

Lemma loop_nat_counter n raw k c c' :
  loop_nat k (reject_step n raw) c = inl c' -> c' = c + Z.of_nat k /\ (k = O \/ 0 <= c /\ c + Z.of_nat k <= two63).
Proof.
  revert c; induction k as [|k IH]; intros c H; cbn [loop_nat] in H.
  - inversion H; lia.
  - generalize (reject_step_spec n raw c). destruct (reject_step n raw c) as [s|r]; [|discriminate].
    intros [Hc [-> _]]. apply IH in H. unfold two63 in *. lia.
Qed.

(** The loop bound of the model is never hit. *)
Lemma reject_loop_fuel n raw c : (forall k, raw k <> Err OutOfFuel) -> reject_loop n raw c <> Err OutOfFuel.
Proof.
  intros Hraw. unfold reject_loop. rewrite loop_pos_nat.
  destruct (loop_nat (Pos.to_nat loop_bound) (reject_step n raw) c) as [s|r] eqn:E.
  - apply loop_nat_counter in E. exfalso.
    assert (Z.of_nat (Pos.to_nat loop_bound) = 2 ^ 63 + 1) as HB
      by (rewrite positive_nat_Z; reflexivity).
    unfold two63 in E. rewrite HB in E. destruct E as [_ [E|E]]; lia.
  - revert E. generalize (Pos.to_nat loop_bound). intros m; revert c.
    induction m as [|m IH]; intros c E; cbn [loop_nat] in E; [discriminate|].
    generalize (reject_step_spec n raw c).
    destruct (reject_step n raw c) as [s|r0].
    + intros _. apply (IH s); exact E.
    + inversion E; subst. destruct r as [[]|e]; [intros; discriminate|].
      intros [[-> _]|He]; [discriminate|]. intros Heq; apply (Hraw c); congruence.
Qed.

Lemma reject_loop_raw_ext n raw1 raw2 c :
  (forall k, 0 <= k < two63 -> raw1 k = raw2 k) -> reject_loop n raw1 c = reject_loop n raw2 c.
Proof.
  intros H. unfold reject_loop. rewrite !loop_pos_nat.
  assert (E : forall m s, loop_nat m (reject_step n raw1) s = loop_nat m (reject_step n raw2) s).
  { induction m as [|m IH]; intros s; cbn [loop_nat]; auto.
    assert (Es : reject_step n raw1 s = reject_step n raw2 s).
    { unfold reject_step. destruct ((0 <=? s) && (s <? two63)) eqn:Es; simpl; auto.
      rewrite H by lia. reflexivity. }
    rewrite Es. destruct (reject_step n raw2 s); auto. }
  rewrite E. reflexivity.
Qed.

Section Hash.
  Variable header : bytes.
  Variable hash64 : bytes -> Z.

  Lemma tlv_join_app l m x :
    tlv_join (l ++ m) = Ok x <-> exists a b, tlv_join l = Ok a /\ tlv_join m = Ok b /\ x = a ++ b.
  Proof.
    revert x; induction l as [|h t IH]; intros x; cbn [tlv_join app].
    - split.
      + intros H; exists [], x; auto.
      + intros [a [b [Ha [Hb ->]]]]. inversion Ha; subst; exact Hb.
    - split.
      + intros H. inv_bind H. inv_bind H. inversion H; subst.
        apply IH in Hm0 as [a [b [Ha [Hb ->]]]].
        exists (v ++ a), b. rewrite Hm, Ha; simpl. rewrite app_assoc. auto.
      + intros [a [b [Ha [Hb ->]]]]. inv_bind Ha. inv_bind Ha. inversion Ha; subst.
        rewrite Hm; simpl. assert (tlv_join (t ++ m) = Ok (v0 ++ b)) as ->.
        { apply IH. exists v0, b; auto. }
        simpl. rewrite app_assoc. reflexivity.
  Qed.

  (** The cached prefix plus the 8 counter bytes are the bytes of the reference payload. *)
  Lemma counter_base_payload seed domain k c base :
    counter_rng_base header seed domain k = Ok base -> - two63 <= c < two63 ->
    exists payload, tlv (KTuple [domain; KInt seed; k; KInt c]) = Ok payload
      /\ base ++ le_bytes 8 c = header ++ payload.
  Proof.
    unfold counter_rng_base. intros H Hc. inv_bind H. inv_bind H. inv_bind H.
    inversion H; subst. rewrite tlv_tuple.
    change (pack_u32 (zlen [domain; KInt seed; k; KInt c])) with (Ok (le_bytes 4 4)).
    cbn [bind tlv_join].
    assert (tlv (KInt c) = Ok (2 :: le_bytes 8 c)) as Hi.
    { cbn [tlv]. replace ((- two63 <=? c) && (c <? two63)) with true by lia. reflexivity. }
    rewrite Hm, Hm0, Hm1, Hi. cbn [bind]. eexists; split; [reflexivity|].
    rewrite <- !app_assoc. f_equal. rewrite <- !app_comm_cons. f_equal.
    rewrite <- !app_assoc. rewrite app_nil_r. reflexivity.
  Qed.

  Lemma uniform_below_base_eq n seed domain k c base :
    counter_rng_base header seed domain k = Ok base ->
    uniform_below header hash64 n seed domain k c = uniform_below_from_base hash64 n base c.
  Proof.
    intros Hb. unfold uniform_below, uniform_below_from_base.
    destruct (bound_ok n); [|reflexivity]. apply reject_loop_raw_ext. intros j Hj.
    unfold rng_u64. replace ((0 <=? j) && (j <? two63)) with true by lia.
    destruct (@counter_base_payload seed domain k j base Hb ltac:(lia)) as [p [Hp E]].
    rewrite Hp. cbn [bind]. rewrite E. reflexivity.
  Qed.

  Lemma uniform_below_from_base_range n base c x c' :
    uniform_below_from_base hash64 n base c = Ok (x, c') -> 0 <= x < n /\ c < c' <= two63.
  Proof.
    unfold uniform_below_from_base. intros H. apply guard_Ok in H as [Hn H].
    unfold bound_ok in Hn. apply reject_loop_Ok in H.
    destruct H as [Hc [Hc' [[v [_ [_ ->]]] _]]].
    split; [apply Z.mod_pos_bound; lia|lia].
  Qed.

  Lemma swap_perm {A} (l l' : list A) i j : swap l i j = Ok l' -> Permutation l l'.
  Proof.
    unfold swap. intros H. inv_bind H. inv_bind H. inv_bind H.
    apply py_get_Ok in Hm. apply py_get_Ok in Hm0.
    apply py_set_Ok in Hm1 as [Hi ->]. apply py_set_Ok in H as [Hj ->].
    rewrite upd_length in Hj.
    destruct (Nat.eq_dec i j) as [->|Hne].
    - assert (v = v0) by congruence. subst.
      apply nth_error_split in Hm as [l1 [l2 [-> <-]]].
      rewrite upd_app, upd_app. reflexivity.
    - apply Permutation_nth_error. split.
      + rewrite !upd_length. reflexivity.
      + exists (fun k => if (k =? i)%nat then j else if (k =? j)%nat then i else k).
        split.
        * intros a b. destruct (Nat.eqb_spec a i), (Nat.eqb_spec a j),
            (Nat.eqb_spec b i), (Nat.eqb_spec b j); subst; try congruence; lia.
        * intros k. rewrite !nth_error_upd, upd_length.
          destruct (Nat.eqb_spec k i), (Nat.eqb_spec k j); subst; try congruence.
          -- destruct (Nat.ltb_spec i (List.length l)); [auto|lia].
          -- destruct (Nat.ltb_spec j (List.length l)); [auto|lia].
  Qed.

  Lemma fisher_yates_perm i base values c out :
    fisher_yates hash64 i base values c = Ok out -> Permutation values out.
  Proof.
    revert values c; induction i as [|i IH]; intros values c H; cbn [fisher_yates] in H.
    - inversion H; reflexivity.
    - inv_bind H. destruct v as [j c2]. inv_bind H.
      apply swap_perm in Hm0. apply IH in H. eapply Permutation_trans; eauto.
  Qed.

  Lemma deterministic_permutation_perm n seed domain k out :
    deterministic_permutation header hash64 n seed domain k = Ok out ->
    Permutation (range n) out.
  Proof.
    unfold deterministic_permutation. intros H. inv_bind H.
    eapply fisher_yates_perm; eauto.
  Qed.

  Lemma swap_ok {A} (l : list A) i j :
    (i < List.length l)%nat -> (j < List.length l)%nat -> exists l', swap l i j = Ok l'.
  Proof.
    intros Hi Hj. unfold swap.
    destruct (nth_error l i) as [x|] eqn:Ei; [|apply nth_error_None in Ei; lia].
    destruct (nth_error l j) as [y|] eqn:Ej; [|apply nth_error_None in Ej; lia].
    unfold py_get. rewrite Ei, Ej. cbn [bind].
    unfold py_set. replace ((i <? List.length l)%nat) with true by lia. cbn [bind].
    rewrite upd_length. replace ((j <? List.length l)%nat) with true by lia. eauto.
  Qed.

  (** The only way a permutation draw can fail: the RNG counter runs out. *)
  Lemma fisher_yates_errors i base values c e :
    (i < List.length values \/ i = 0)%nat -> Z.of_nat i < two64 ->
    fisher_yates hash64 i base values c = Err e -> e = ValueError.
  Proof.
    revert values c; induction i as [|i IH]; intros values c Hl Hi H;
      cbn [fisher_yates] in H; [discriminate|].
    destruct (uniform_below_from_base hash64 (Z.of_nat (S i) + 1) base c) as [[j c2]|e0] eqn:U;
      cbn [bind] in H.
    - apply uniform_below_from_base_range in U as [Hj _].
      destruct (@swap_ok _ values (S i) (Z.to_nat j)) as [l' Hl']; [lia|lia|].
      rewrite Hl' in H; cbn [bind] in H. apply IH in H; auto; [|lia].
      apply swap_perm in Hl'. apply Permutation_length in Hl'. lia.
    - inversion H; subst.
      unfold uniform_below_from_base in U.
      replace (bound_ok (Z.of_nat (S i) + 1)) with true in U by (unfold bound_ok; lia).
      unfold reject_loop in U. rewrite loop_pos_nat in U.
      revert U. assert (F := @reject_loop_fuel (Z.of_nat (S i) + 1)
        (fun c => Ok (hash64 (base ++ le_bytes 8 c))) c ltac:(discriminate)).
      unfold reject_loop in F. rewrite loop_pos_nat in F. revert F.
      generalize (Pos.to_nat loop_bound). intros m; revert c H.
      induction m as [|m IHm]; intros c H F U; cbn [loop_nat] in U, F.
      + congruence.
      + generalize (reject_step_spec (Z.of_nat (S i) + 1)
           (fun c => Ok (hash64 (base ++ le_bytes 8 c))) c).
        destruct (reject_step _ _ c) as [s|r0].
        * intros _. apply (IHm s); auto.
        * subst r0. intros [[-> _]|]; [reflexivity|discriminate].
  Qed.
End Hash.

(** * Unbiasedness *)

Lemma accepted_residues n r :
  1 <= n <= two64 -> 0 <= r < n ->
  forall v, (0 <= v < two64 - two64 mod n /\ v mod n = r)
            <-> exists k, 0 <= k < two64 / n /\ v = r + n * k.
Proof.
  intros Hn Hr v.
  assert (HD : two64 = n * (two64 / n) + two64 mod n) by (apply Z.div_mod; lia).
  split.
  - intros [Hv <-]. exists (v / n).
    assert (HV : v = n * (v / n) + v mod n) by (apply Z.div_mod; lia).
    assert (0 <= v / n) by (apply Z.div_pos; lia).
    assert (v / n < two64 / n).
    { apply Z.div_lt_upper_bound; lia. }
    lia.
  - intros [k [Hk ->]]. split.
    + split; [nia|]. assert (n * k + n <= n * (two64 / n)) by nia. lia.
    + rewrite Z.mul_comm, Z.mod_add by lia. apply Z.mod_small; lia.
Qed.

(** * SplitMix finaliser is a bijection of 64-bit words *)

Definition xorshift (k v : Z) : Z := Z.lxor v (Z.shiftr v k).

Lemma xorshift_range k v : 0 < k -> 0 <= v < two64 -> 0 <= xorshift k v < two64.
Proof.
  intros Hk Hv. unfold xorshift, two64 in *.
  assert (0 <= Z.shiftr v k) by (apply Z.shiftr_nonneg; lia).
  assert (Z.shiftr v k < 2 ^ 64).
  { rewrite Z.shiftr_div_pow2 by lia.
    assert (0 < 2 ^ k) by (apply Z.pow_pos_nonneg; lia).
    apply Z.div_lt_upper_bound; nia. }
  split; [apply Z.lxor_nonneg; lia|].
  destruct (Z.eq_dec (Z.lxor v (Z.shiftr v k)) 0) as [->|Hne]; [lia|].
  apply Z.log2_lt_pow2.
  - assert (0 <= Z.lxor v (Z.shiftr v k)) by (apply Z.lxor_nonneg; lia). lia.
  - eapply Z.le_lt_trans; [apply Z.log2_lxor; lia|].
    apply Z.max_lub_lt.
    + destruct (Z.eq_dec v 0) as [->|]; [simpl; lia|]. apply Z.log2_lt_pow2; lia.
    + destruct (Z.eq_dec (Z.shiftr v k) 0) as [->|]; [simpl; lia|].
      apply Z.log2_lt_pow2; lia.
Qed.

(** [v ^ (v >> k)] determines [v] (top bits first). *)
Lemma xorshift_inj k v w :
  0 < k -> 0 <= v < two64 -> 0 <= w < two64 -> xorshift k v = xorshift k w -> v = w.
Proof.
  intros Hk Hv Hw E. apply Z.bits_inj'. intros n Hn.
  assert (Hhigh : forall u m, 0 <= u < two64 -> 64 <= m -> Z.testbit u m = false).
  { intros u m Hu Hm. destruct (Z.eq_dec u 0) as [->|Hu0]; [apply Z.bits_0|].
    apply Z.bits_above_log2; [lia|].
    apply Z.lt_le_trans with 64; [|lia]. apply Z.log2_lt_pow2; unfold two64 in *; lia. }
  (* strong induction on 64 - n *)
  assert (HI : forall m, (forall j, Z.of_nat (64 - m) <= j -> (m <= 64)%nat -> 0 <= j -> Z.testbit v j = Z.testbit w j)).
  { induction m as [|m IH]; intros j Hj Hm Hj0.
    - rewrite !Hhigh by (auto; lia). reflexivity.
    - destruct (Z_le_gt_dec (Z.of_nat (64 - m)) j) as [Hle|Hgt]; [apply IH; lia|].
      assert (Hb := f_equal (fun u => Z.testbit u j) E). cbn beta in Hb.
      unfold xorshift in Hb. rewrite !Z.lxor_spec, !Z.shiftr_spec in Hb by lia.
      assert (Z.testbit v (j + k) = Z.testbit w (j + k)) as Hjk by (apply IH; lia).
      rewrite Hjk in Hb. destruct (Z.testbit v j), (Z.testbit w j), (Z.testbit w (j + k)); 
        simpl in Hb; congruence. }
  apply (HI 64%nat); lia.
Qed.

Lemma mul_odd_inj m minv v w :
  (m * minv) mod two64 = 1 -> 0 <= v < two64 -> 0 <= w < two64 ->
  (v * m) mod two64 = (w * m) mod two64 -> v = w.
Proof.
  intros Hm Hv Hw E.
  assert (E2 : ((v * m) mod two64 * minv) mod two64 = ((w * m) mod two64 * minv) mod two64)
    by (rewrite E; reflexivity).
  rewrite !Z.mul_mod_idemp_l in E2 by (unfold two64; lia).
  rewrite <- !Z.mul_assoc in E2.
  rewrite <- (Z.mul_mod_idemp_r v), <- (Z.mul_mod_idemp_r w) in E2 by (unfold two64; lia).
  rewrite Hm, !Z.mul_1_r, !Z.mod_small in E2 by assumption. exact E2.
Qed.

Definition splitmix_m1_inv : Z := 0x96de1b173f119089.
Definition splitmix_m2_inv : Z := 0x319642b2d24d8ec3.
Definition splitmix_gamma_inv : Z := 0xf1de83e19937733d.

Lemma m1_inv_ok : (splitmix_m1 * splitmix_m1_inv) mod two64 = 1.
Proof. vm_compute. reflexivity. Qed.
Lemma m2_inv_ok : (splitmix_m2 * splitmix_m2_inv) mod two64 = 1.
Proof. vm_compute. reflexivity. Qed.
Lemma gamma_inv_ok : (splitmix_gamma * splitmix_gamma_inv) mod two64 = 1.
Proof. vm_compute. reflexivity. Qed.

Lemma two64_pos : 0 < two64. Proof. reflexivity. Qed.

Lemma splitmix_finalize_range v : 0 <= splitmix_finalize v < two64.
Proof.
  unfold splitmix_finalize. apply (@xorshift_range 31); [lia|].
  apply Z.mod_pos_bound. exact two64_pos.
Qed.

Lemma splitmix_finalize_inj v w :
  0 <= v < two64 -> 0 <= w < two64 -> splitmix_finalize v = splitmix_finalize w -> v = w.
Proof.
  intros Hv Hw E. unfold splitmix_finalize in E.
  assert (P := two64_pos).
  apply (@xorshift_inj 31) in E; try lia; try (apply Z.mod_pos_bound; lia).
  fold (xorshift 30 v) in E. fold (xorshift 30 w) in E.
  set (a := (xorshift 30 v * splitmix_m1) mod two64) in *.
  set (b := (xorshift 30 w * splitmix_m1) mod two64) in *.
  assert (Ha : 0 <= a < two64) by (apply Z.mod_pos_bound; lia).
  assert (Hb : 0 <= b < two64) by (apply Z.mod_pos_bound; lia).
  apply (mul_odd_inj _ _ m2_inv_ok) in E; try (apply (@xorshift_range 27); auto; lia).
  apply (@xorshift_inj 27) in E; auto; try lia.
  apply (mul_odd_inj _ _ m1_inv_ok) in E; try (apply xorshift_range; auto; lia).
  apply (@xorshift_inj 30) in E; auto; lia.
Qed.

(** Draws of one stream at different counters never repeat a raw value. *)
Lemma splitmix_raw_counter_inj base c d :
  0 <= c < two64 -> 0 <= d < two64 -> splitmix_raw base c = splitmix_raw base d -> c = d.
Proof.
  intros Hc Hd E. unfold splitmix_raw in E. assert (P := two64_pos).
  apply splitmix_finalize_inj in E; try (apply Z.mod_pos_bound; lia).
  assert (E2 : (c * splitmix_gamma) mod two64 = (d * splitmix_gamma) mod two64).
  { replace (c * splitmix_gamma) with (base + c * splitmix_gamma - base) by lia.
    replace (d * splitmix_gamma) with (base + d * splitmix_gamma - base) by lia.
    rewrite Zminus_mod, E, <- Zminus_mod. reflexivity. }
  apply (mul_odd_inj _ _ gamma_inv_ok) in E2; auto.
Qed.

Lemma splitmix_raw_base_inj a b c :
  0 <= a < two64 -> 0 <= b < two64 -> splitmix_raw a c = splitmix_raw b c -> a = b.
Proof.
  intros Ha Hb E. unfold splitmix_raw in E. assert (P := two64_pos).
  apply splitmix_finalize_inj in E; try (apply Z.mod_pos_bound; lia).
  assert (E2 : (a + c * splitmix_gamma - c * splitmix_gamma) mod two64
             = (b + c * splitmix_gamma - c * splitmix_gamma) mod two64).
  { rewrite Zminus_mod, E, <- Zminus_mod. reflexivity. }
  replace (a + c * splitmix_gamma - c * splitmix_gamma) with a in E2 by lia.
  replace (b + c * splitmix_gamma - c * splitmix_gamma) with b in E2 by lia.
  rewrite !Z.mod_small in E2 by assumption. exact E2.
Qed.

Lemma zlist_eqb_eq a b : zlist_eqb a b = true <-> a = b.
Proof.
  revert b; induction a as [|x a IH]; intros [|y b]; simpl; split; intros H; try congruence.
  - apply andb_true_iff in H as [H1 H2]. apply IH in H2. f_equal; [lia|auto].
  - inversion H; subst. apply andb_true_iff; split; [lia|]. apply IH; auto.
Qed.

Lemma key_eqb_refl k : key_eqb k k = true.
Proof.
  induction k as [|b|z|s|s|l IH] using key_ind'; simpl; auto.
  - apply Bool.eqb_reflx.
  - lia.
  - apply zlist_eqb_eq; auto.
  - apply zlist_eqb_eq; auto.
  - induction IH as [|a l Ha Hl IHl]; auto. rewrite Ha; exact IHl.
Qed.

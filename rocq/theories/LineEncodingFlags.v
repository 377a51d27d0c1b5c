(** The usage flags: exactly the numbers of the possible windows are marked. *)
From Verif Require Import Base BaseFacts LineEncoding LineEncodingFacts LineEncodingCode LineEncodingSpec LineEncodingBoard.
Set Implicit Arguments.
Unset Strict Implicit.

Definition marks (P : Z -> Prop) (f f' : list Z) : Prop :=
  List.length f' = List.length f
  /\ (forall c, nth_error f' c = Some 1 <-> P (Z.of_nat c) \/ nth_error f c = Some 1)
  /\ (forall c, nth_error f' c = nth_error f c \/ nth_error f' c = Some 1).
Lemma marks_comp P Q f f' f'' : marks P f f' -> marks Q f' f'' -> marks (fun c => P c \/ Q c) f f''.
Proof.
  intros (L1 & M1 & U1) (L2 & M2 & U2). unfold marks. conj; [congruence| |].
  - intros c. rewrite M2, M1. tauto.
  - intros c. destruct (U2 c) as [->|]; auto.
Qed.
Lemma marks_ext (P Q : Z -> Prop) f f' : (forall c, P c <-> Q c) -> marks P f f' -> marks Q f f'.
Proof. intros H (L1 & M1 & U1). unfold marks. conj; auto. intros c. rewrite M1, H. reflexivity. Qed.

(** Digit strings, least significant digit first. *)
Fixpoint low3 (ds : list Z) : Z := match ds with [] => 0 | d :: t => d + 3 * low3 t end.
Lemma low3_val3 ds : low3 ds = val3 (rev ds).
Proof.
  induction ds as [|d t IH]; [reflexivity|]. cbn [low3 rev]. rewrite val3_app, IH. cbn [val3]. unfold zlen. cbn [List.length].
  change (3 ^ Z.of_nat 1) with 3. change (3 ^ Z.of_nat 0) with 1. lia.
Qed.

Lemma fill_rec_ok n : forall idx code f, 0 <= idx -> idx + Z.of_nat n <= 20 -> 0 <= code ->
  code + 3 ^ idx * (3 ^ Z.of_nat n - 1) < zlen f -> zlen f <= 2 ^ 32 ->
  exists f', fill_rec n idx code f = Ok f'
    /\ marks (fun c => exists ds, List.length ds = n /\ Forall digit3 ds /\ c = code + 3 ^ idx * low3 ds) f f'.
Proof.
  induction n as [|n IH]; intros idx code f Hi Hn Hc Hb Hf; cbn [fill_rec].
  - change (3 ^ Z.of_nat 0 - 1) with 0 in Hb. unfold zlen in Hb. unfold py_set.
    replace (_ <? _)%nat with true by (symmetry; apply Nat.ltb_lt; lia).
    eexists; split; [reflexivity|]. unfold marks. conj.
    + apply upd_length.
    + intros c. rewrite nth_error_upd. destruct (Nat.eqb_spec c (Z.to_nat code)) as [->|N].
      * replace (_ <? _)%nat with true by (symmetry; apply Nat.ltb_lt; lia). split; auto. intros _. left.
        exists []. conj; auto. cbn [low3]. lia.
      * split; auto. intros [(ds & L & _ & E)|]; auto. destruct ds; [|discriminate L]. cbn [low3] in E. lia.
    + intros c. rewrite nth_error_upd. destruct (Nat.eqb_spec c (Z.to_nat code)) as [->|N]; auto.
      replace (_ <? _)%nat with true by (symmetry; apply Nat.ltb_lt; lia). auto.
  - assert (P0 : 0 < 3 ^ idx) by (apply Z.pow_pos_nonneg; lia).
    assert (P1 : 3 ^ (idx + 1) = 3 * 3 ^ idx) by (rewrite Z.add_1_r, Z.pow_succ_r by lia; reflexivity).
    assert (P2 : 3 ^ Z.of_nat (S n) = 3 * 3 ^ Z.of_nat n) by (rewrite Nat2Z.inj_succ, Z.pow_succ_r by lia; reflexivity).
    assert (P3 : 0 < 3 ^ Z.of_nat n) by (apply Z.pow_pos_nonneg; lia).
    set (A := 3 ^ idx) in *. set (B := 3 ^ Z.of_nat n) in *.
    assert (Hb' : forall d, 0 <= d <= 2 -> code + d * A + 3 ^ (idx + 1) * (B - 1) < zlen f).
    { intros d Hd. rewrite P1, P2 in *. nia. }
    assert (Hw : forall d, 0 <= d <= 2 -> w32 (code + d * A) = code + d * A).
    { intros d Hd. apply w32_id. specialize (Hb' d Hd). rewrite P1 in Hb'. nia. }
    destruct (IH (idx + 1) code f ltac:(lia) ltac:(lia) Hc ltac:(specialize (Hb' 0); lia) Hf) as (f1 & E1 & M1).
    rewrite E1. cbn [bind]. rewrite pow3_ok by lia. cbn [bind]. fold A.
    assert (L1 : zlen f1 = zlen f) by (unfold zlen; destruct M1 as (-> & _); reflexivity).
    replace (w32 (code + A)) with (code + 1 * A) by (rewrite <- (Hw 1) by lia; f_equal; lia).
    destruct (IH (idx + 1) (code + 1 * A) f1 ltac:(lia) ltac:(lia) ltac:(nia) ltac:(rewrite L1; specialize (Hb' 1); lia) ltac:(lia)) as (f2 & E2 & M2).
    rewrite E2. cbn [bind].
    assert (L2 : zlen f2 = zlen f) by (unfold zlen; destruct M2 as (-> & _); unfold zlen in L1; lia).
    replace (w32 (code + w32 (2 * A))) with (code + 2 * A).
    2:{ rewrite Z.add_comm, (Z.add_comm code (w32 _)), w32_add, (Z.add_comm (2 * A) code). symmetry. apply Hw. lia. }
    destruct (IH (idx + 1) (code + 2 * A) f2 ltac:(lia) ltac:(lia) ltac:(nia) ltac:(rewrite L2; specialize (Hb' 2); lia) ltac:(lia)) as (f3 & E3 & M3).
    exists f3. split; [exact E3|].
    eapply marks_ext; [|exact (marks_comp (marks_comp M1 M2) M3)]. intros c. cbv beta. rewrite P1. split.
    + intros [[(ds & L & F & E)|(ds & L & F & E)]|(ds & L & F & E)].
      * exists (0 :: ds). cbn [List.length low3]. conj; [congruence| |lia]. constructor; auto. unfold digit3; lia.
      * exists (1 :: ds). cbn [List.length low3]. conj; [congruence| |lia]. constructor; auto. unfold digit3; lia.
      * exists (2 :: ds). cbn [List.length low3]. conj; [congruence| |lia]. constructor; auto. unfold digit3; lia.
    + intros (ds & L & F & E). destruct ds as [|d ds]; [discriminate L|]. cbn [low3] in E. injection L as L.
      inversion F as [|? ? Hd Fd]; subst. unfold digit3 in Hd.
      assert (d = 0 \/ d = 1 \/ d = 2) as [->|[->| ->]] by lia.
      * left. left. exists ds. conj; auto. lia.
      * left. right. exists ds. conj; auto. lia.
      * right. exists ds. conj; auto. lia.
Qed.

Lemma code_value_low h ld rd ds : (ld <= h)%nat -> (rd <= h)%nat -> List.length ds = (2 * h + 1 - ld - rd)%nat ->
  code_value ld (repeat 0 (2 * h + 1 - ld - rd)) rd + 3 ^ Z.of_nat rd * low3 ds = code_value ld (rev ds) rd.
Proof.
  intros H1 H2 HL. unfold code_value. rewrite rev_length, repeat_length, HL.
  rewrite (@digits_split ld (rev ds) rd (2 * h + 1 - ld - rd)) by (rewrite rev_length; exact HL).
  rewrite !val3_app, !val3_repeat, low3_val3. unfold zlen. rewrite repeat_length. lia.
Qed.

Lemma fill_pairs_ok h pairs : (h <= 8)%nat -> forall f,
  (forall l r, In (l, r) pairs -> 0 <= l <= Z.of_nat h /\ 0 <= r <= Z.of_nat h) ->
  zlen f = max_code h + 1 ->
  exists f', fill_pairs (2 * Z.of_nat h + 1) pairs f = Ok f'
    /\ marks (fun c => exists l r ld rd vis, In (l, r) pairs /\ l = Z.of_nat h - Z.of_nat ld /\ r = Z.of_nat h - Z.of_nat rd
                /\ (ld <= h)%nat /\ (rd <= h)%nat
                /\ List.length vis = (2 * h + 1 - ld - rd)%nat /\ Forall digit3 vis /\ c = code_value ld vis rd) f f'.
Proof.
  intros Hh. destruct (max_encoding_ok Hh) as [_ Mx]. change (3 ^ 18) with 387420489 in Mx.
  induction pairs as [|[l r] rest IH]; intros f Hp Hf; cbn [fill_pairs].
  - exists f. split; [reflexivity|]. unfold marks. conj; auto. intros c. split; auto.
    intros [(l & r & ld & rd & vis & I & _)|]; [contradiction I|]; auto.
  - destruct (Hp l r (or_introl eq_refl)) as [Hl Hr].
    assert (Xl : exists ld, (ld <= h)%nat /\ l = Z.of_nat h - Z.of_nat ld) by (exists (Z.to_nat (Z.of_nat h - l)); lia).
    assert (Xr : exists rd, (rd <= h)%nat /\ r = Z.of_nat h - Z.of_nat rd) by (exists (Z.to_nat (Z.of_nat h - r)); lia).
    destruct Xl as (ld & Bl & El), Xr as (rd & Br & Er).
    rewrite El, Er. rewrite border_ok by lia. cbn [bind].
    replace ((2 * Z.of_nat h + 1) / 2) with (Z.of_nat h) by lia.
    set (n := (2 * h + 1 - ld - rd)%nat).
    replace (Z.to_nat _) with n by lia.
    replace (Z.of_nat h - (Z.of_nat h - Z.of_nat rd)) with (Z.of_nat rd) by lia.
    assert (B0 : 0 <= code_value ld (repeat 0 n) rd <= max_code h).
    { apply code_value_bounds; try lia.
      - apply Forall_forall. intros z Iz. apply repeat_spec in Iz. subst. unfold digit3; lia.
      - rewrite repeat_length. lia. }
    assert (B2 : 0 <= code_value ld (rev (repeat 2 n)) rd <= max_code h).
    { apply code_value_bounds; try lia.
      - apply Forall_rev. apply Forall_forall. intros z Iz. apply repeat_spec in Iz. subst. unfold digit3; lia.
      - rewrite rev_length, repeat_length. lia. }
    rewrite <- (@code_value_low h ld rd (repeat 2 n)) in B2 by (try rewrite repeat_length; lia).
    rewrite low3_val3, rev_repeat, val3_repeat in B2. pose proof (geo_2 n) as G. fold n in B2.
    unfold max_code in *. rewrite w32_id by lia.
    destruct (@fill_rec_ok n (Z.of_nat rd) (code_value ld (repeat 0 n) rd) f) as (f1 & E1 & M1); try lia.
    rewrite E1. cbn [bind].
    destruct (IH f1) as (f2 & E2 & M2).
    { intros l' r' I. apply Hp. right. exact I. }
    { rewrite <- Hf. unfold zlen. destruct M1 as (-> & _). reflexivity. }
    exists f2. split; [exact E2|].
    eapply marks_ext; [|exact (marks_comp M1 M2)]. intros c. cbv beta. split.
    + intros [(ds & L & F & E)|(l' & r' & ld' & rd' & vis & I & R)].
      * exists (Z.of_nat h - Z.of_nat ld), (Z.of_nat h - Z.of_nat rd), ld, rd, (rev ds). conj; auto; try lia.
        -- left. reflexivity.
        -- rewrite rev_length. exact L.
        -- apply Forall_rev. exact F.
        -- rewrite E. apply code_value_low with (h := h); try lia.
      * exists l', r', ld', rd', vis. split; [right; exact I|exact R].
    + intros (l' & r' & ld' & rd' & vis & [I|I] & R).
      * injection I as <- <-. left. destruct R as (El' & Er' & L1 & L2 & Lv & Fv & E).
        assert (ld' = ld) by lia. assert (rd' = rd) by lia. subst ld' rd'.
        exists (rev vis). conj.
        -- rewrite rev_length. exact Lv.
        -- apply Forall_rev. exact Fv.
        -- rewrite E. symmetry. replace vis with (rev (rev vis)) at 2 by apply rev_involutive.
           apply code_value_low with (h := h); try lia. rewrite rev_length. exact Lv.
      * right. exists l', r', ld', rd', vis. split; [exact I|exact R].
Qed.

Lemma digits_points vis : Forall digit3 vis -> exists ps, map pdigit ps = vis /\ ~ In Wall ps.
Proof.
  induction 1 as [|d t Hd Ht (ps & E & Hw)]; [exists []; auto|]. unfold digit3 in Hd.
  exists ((if d =? 1 then Mine else if d =? 2 then Theirs else Vacant) :: ps). cbn [map]. rewrite E. split.
  - f_equal. destruct (Z.eqb_spec d 1); [subst; reflexivity|]. destruct (Z.eqb_spec d 2); [subst; reflexivity|]. cbn; lia.
  - intros [I|I]; [|contradiction]. destruct (d =? 1); [discriminate|]. destruct (d =? 2); discriminate.
Qed.

Lemma in_border_pairs h l r : In (l, r) (border_pairs (Z.of_nat h)) <-> 0 <= l <= Z.of_nat h /\ 0 <= r <= Z.of_nat h.
Proof.
  unfold border_pairs. rewrite in_flat_map. split.
  - intros (a & Ia & Ib). apply in_map_iff in Ib. destruct Ib as (b & E & Ib). injection E as <- <-. apply in_seq in Ia, Ib. lia.
  - intros [Hl Hr]. exists (Z.to_nat l). rewrite in_seq, in_map_iff. split; [lia|]. exists (Z.to_nat r). rewrite in_seq. split; [f_equal; lia|lia].
Qed.

Lemma validate_ok h (raw : bool) : (h <= if raw then 7 else 8)%nat -> validate_line_length (2 * Z.of_nat h + 1) raw = Ok tt.
Proof.
  intros H. unfold validate_line_length. replace (2 * Z.of_nat h + 1 <? 1) with false by lia.
  replace ((2 * Z.of_nat h + 1) mod 2 =? 0) with false by lia. cbn [orb negb].
  destruct raw; [replace (15 <? _) with false by lia|replace (17 <? _) with false by lia]; reflexivity.
Qed.

Lemma usage_ok h : (h <= 8)%nat ->
  get_total_num_encoding (2 * Z.of_nat h + 1) = Ok (max_code h + 1) /\ 0 < max_code h + 1 /\
  exists flags, get_encoding_usage_flag (repeat 0 (Z.to_nat (max_code h + 1))) (2 * Z.of_nat h + 1) = Ok flags
    /\ zlen flags = max_code h + 1
    /\ (forall c, nth_error flags c = Some 1 <-> exists w, legal h w /\ window_code w = Z.of_nat c)
    /\ (forall c v, nth_error flags c = Some v -> v = 0 \/ v = 1).
Proof.
  intros Hh. destruct (max_encoding_ok Hh) as [Em Mx]. change (3 ^ 18) with 387420489 in Mx. fold (max_code h) in Em, Mx.
  assert (Hpos : 0 <= max_code h).
  { unfold max_code. assert (forall n, 0 <= geo n). { intros n. pose proof (geo_2 n). pose proof (Z.pow_pos_nonneg 3 (Z.of_nat n) ltac:(lia) ltac:(lia)). lia. }
    pose proof (H (h + 1)%nat). pose proof (H (h - 1)%nat). pose proof (Z.pow_nonneg 3 (2 * Z.of_nat h + 1)). pose proof (Z.pow_nonneg 3 (Z.of_nat h + 2)). nia. }
  conj; [|lia|].
  - unfold get_total_num_encoding. rewrite validate_ok by lia. cbn [bind]. rewrite Em. cbn [bind]. rewrite s32_id; [reflexivity|].
    change (2 ^ 31) with 2147483648. lia.
  - unfold get_encoding_usage_flag. rewrite validate_ok by lia. cbn [bind]. rewrite Em. cbn [bind].
    rewrite w32_id by lia. unfold zlen at 1. rewrite repeat_length, Z2Nat.id, Z.eqb_refl by lia.
    replace ((2 * Z.of_nat h + 1) / 2) with (Z.of_nat h) by lia.
    destruct (@fill_pairs_ok h (border_pairs (Z.of_nat h)) Hh (repeat 0 (Z.to_nat (max_code h + 1)))) as (f & E & L & M & U).
    { intros l r I. apply in_border_pairs. exact I. }
    { unfold zlen. rewrite repeat_length. lia. }
    exists f. conj.
    + exact E.
    + unfold zlen. rewrite L, repeat_length. lia.
    + intros c. rewrite M. split.
      * intros [(l & r & ld & rd & vis & _ & _ & _ & H1 & H2 & H3 & H4 & H5)|Hz].
        -- destruct (digits_points H4) as (ps & Ep & Hw).
           assert (Lp : List.length ps = List.length vis) by (rewrite <- Ep, map_length; reflexivity).
           exists (repeat Wall ld ++ ps ++ repeat Wall rd). split.
           ++ exists ld, ps, rd. conj; auto. rewrite !app_length, !repeat_length. lia.
           ++ rewrite window_code_split; auto; [congruence|]. intros ->. cbn in Lp. lia.
        -- apply nth_error_In, repeat_spec in Hz. discriminate.
      * intros (w & (ld & vis & rd & -> & H1 & H2 & H3 & H4) & Ec). destruct (legal_vis H1 H2 H3) as [A B].
        rewrite window_code_split in Ec by assumption.
        left. exists (Z.of_nat h - Z.of_nat ld), (Z.of_nat h - Z.of_nat rd), ld, rd, (map pdigit vis). conj; auto.
        -- apply in_border_pairs. lia.
        -- rewrite map_length. lia.
        -- apply Forall_forall. intros z I. apply in_map_iff in I. destruct I as (p & <- & _). apply pdigit_digit.
    + intros c v Hv. destruct (U c) as [E'|E']; rewrite E' in Hv; [|right; congruence].
      apply nth_error_In, repeat_spec in Hv. auto.
Qed.

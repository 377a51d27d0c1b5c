From Verif Require Import Base BaseFacts Rng RngFacts Reservoir ReservoirFacts PackedReservoir.
Set Implicit Arguments.

(** The C++ draw equals the Python draw (which raises ValueError instead of
    std::runtime_error when the counter is exhausted). *)
Lemma p_reject_step_eq base upper c :
  0 < upper <= two64 -> 0 <= c ->
  match p_reject_step base upper c with
  | inl c' => reject_step upper (fun c => Ok (splitmix_raw base c)) c = inl c'
  | inr (Ok x) => reject_step upper (fun c => Ok (splitmix_raw base c)) c = inr (Ok x)
  | inr (Err e) => e = RuntimeError
       /\ reject_step upper (fun c => Ok (splitmix_raw base c)) c = inr (Err ValueError)
  end.
Proof.
  intros Hu Hc. unfold p_reject_step, reject_step.
  destruct (Z.leb_spec two63 c) as [H|H].
  - replace ((0 <=? c) && (c <? two63)) with false by lia. cbn; auto.
  - replace ((0 <=? c) && (c <? two63)) with true by lia. cbn [negb].
    assert (Hv : splitmix_raw base c < two64) by apply splitmix_finalize_range.
    assert (Hr : 0 <= two64 mod upper < upper) by (apply Z.mod_pos_bound; lia).
    assert (Hacc : ((two64 mod upper =? 0) || (splitmix_raw base c <? (0 - two64 mod upper) mod two64))
                   = (splitmix_raw base c <? two64 - two64 mod upper)).
    { destruct (Z.eqb_spec (two64 mod upper) 0) as [E|E].
      - rewrite E. cbn [orb]. lia.
      - cbn [orb]. replace (0 - two64 mod upper) with (two64 - two64 mod upper + (-1) * two64) by lia.
        rewrite Z.mod_add by (unfold two64; lia). rewrite Z.mod_small by lia. reflexivity. }
    rewrite Hacc. destruct (splitmix_raw base c <? two64 - two64 mod upper); reflexivity.
Qed.

Lemma p_random_slot_eq base upper c :
  0 < upper <= two64 -> 0 <= c ->
  match p_random_slot base c upper with
  | Ok x => random_slot base c upper = Ok x
  | Err e => exists e', random_slot base c upper = Err e'
  end.
Proof.
  intros Hu Hc. unfold p_random_slot, random_slot, reject_loop. rewrite !loop_pos_nat.
  generalize (Pos.to_nat loop_bound). intros n; revert c Hc.
  induction n as [|n IH]; intros c Hc; cbn [loop_nat]; [eauto|].
  generalize (p_reject_step_eq base Hu Hc).
  destruct (p_reject_step base upper c) as [c'|[x|e]] eqn:E.
  - intros ->. apply IH. unfold p_reject_step in E.
    destruct (two63 <=? c); [discriminate|]. destruct (_ || _); inversion E; lia.
  - intros ->. reflexivity.
  - intros [_ ->]. eauto.
Qed.

Lemma random_slot_Ok_range base c upper i c' :
  0 < upper -> random_slot base c upper = Ok (i, c') -> 0 <= i < upper /\ 0 <= c < c' /\ c' <= two63.
Proof.
  intros Hu H. unfold random_slot in H. apply reject_loop_Ok in H as [H1 [H2 [[v [_ [_ ->]]] _]]].
  split; [apply Z.mod_pos_bound; lia|lia].
Qed.

(** slots[index] = back; back = item  is  swap-with-last, pop, append. *)
Lemma replace_slot (l : list Z) i a back item s1 s2 pre :
  py_get l i = Ok a -> py_get l (List.length l - 1) = Ok back ->
  py_set l i back = Ok s1 -> py_set s1 (List.length s1 - 1) item = Ok s2 ->
  py_pop l = Ok (pre, back) ->
  s2 = (if (i <? List.length pre)%nat then upd pre i back else pre) ++ [item].
Proof.
  intros H1 H2 H3 H4 H5. apply py_pop_spec in H5. subst l.
  apply py_set_Ok in H3 as [Hi ->]. apply py_set_Ok in H4 as [_ ->].
  rewrite upd_length. rewrite app_length in *. cbn [List.length] in *.
  replace (List.length pre + 1 - 1)%nat with (List.length pre) by lia.
  destruct (Nat.ltb_spec i (List.length pre)) as [Hlt|Hge].
  - assert (E : upd (pre ++ [back]) i back = upd pre i back ++ [back]).
    { clear -Hlt. revert i Hlt. induction pre as [|x pre IH]; intros [|i] Hlt; simpl in *; try lia; auto.
      f_equal. apply IH. lia. }
    rewrite E. rewrite <- (upd_length pre i back) at 1. apply upd_app.
  - assert (i = List.length pre) by lia. subst i. rewrite upd_app, upd_app. reflexivity.
Qed.

Section Sim.
  Variable cf : rconfig.
  Hypothesis Hcap : 0 < cf_capacity cf <= two64.
  Hypothesis Hmb : cf_max_bytes cf = None.

  (** Packed state [p] represents generic state [r]. *)
  Record Sim (p : prsv) (r : rsv Z) : Prop := {
    s_slots : p_slots p = slots r;
    s_sizes : slot_sizes r = repeat 0 (List.length (slots r));
    s_rng : p_rng_counter p = rng_counter r;
    s_off : p_offered p = offered r mod two64;
    s_emit : p_emitted p = emitted r mod two64;
    s_peak : p_peak p = peak_occupancy r;
    s_closed : p_closed p = closed r
  }.

  Lemma py_pop_repeat n : py_pop (repeat 0 (S n)) = Ok (repeat 0 n, 0).
  Proof. apply py_pop_spec. induction n as [|n IH]; cbn in *; congruence. Qed.

  Lemma upd_repeat n i : upd (repeat 0 n) i 0 = repeat 0 n.
  Proof. revert i; induction n as [|n IH]; intros [|i]; simpl; congruence. Qed.

  Lemma nth_repeat0 n i : (i < n)%nat -> py_get (repeat 0 n) i = Ok 0.
  Proof.
    intros H. apply py_get_Ok. rewrite nth_error_nth' with (d := 0) by (rewrite repeat_length; auto).
    rewrite nth_repeat. reflexivity.
  Qed.

  (** One full-reservoir admission step. *)
  Lemma p_step_eq (r : rsv Z) i c :
    slot_sizes r = repeat 0 (List.length (slots r)) -> (i < List.length (slots r))%nat ->
    exists a back pre s2 s1,
      py_get (slots r) i = Ok a /\ py_get (slots r) (List.length (slots r) - 1) = Ok back /\
      py_pop (slots r) = Ok (pre, back) /\
      py_set (slots r) i back = Ok s1 /\
      (forall item, py_set s1 (List.length s1 - 1) item = Ok (s2 ++ [item])) /\
      evict_slot r c i = Ok ({| slots := s2; slot_sizes := repeat 0 (List.length s2);
           resident_bytes := resident_bytes r;
           rng_counter := c; offered := offered r; emitted := emitted r + 1;
           peak_occupancy := peak_occupancy r;
           peak_resident_bytes := peak_resident_bytes r; closed := closed r |}, a)
      /\ List.length (slots r) = S (List.length s2).
  Proof.
    intros Hs Hi.
    destruct (@py_pop_nonempty _ (slots r)) as [pre [back Hp]]. { intros E; rewrite E in Hi; simpl in Hi; lia. }
    pose proof Hp as Hp'. apply py_pop_spec in Hp'.
    destruct (nth_error (slots r) i) as [a|] eqn:Ea; [|apply nth_error_None in Ea; lia].
    assert (HL : List.length (slots r) = S (List.length pre)) by (rewrite Hp', app_length; simpl; lia).
    set (s2 := if (i <? List.length pre)%nat then upd pre i back else pre).
    assert (Hs2 : List.length s2 = List.length pre) by (unfold s2; destruct (i <? _)%nat; rewrite ?upd_length; auto).
    assert (Hb : py_get (slots r) (List.length (slots r) - 1) = Ok back).
    { apply py_get_Ok. rewrite HL. rewrite Hp'. rewrite nth_error_app2 by lia.
      replace (S (List.length pre) - 1 - List.length pre)%nat with O by lia. reflexivity. }
    exists a, back, pre, s2, (upd (slots r) i back).
    assert (Ga : py_get (slots r) i = Ok a) by (apply py_get_Ok; auto).
    assert (Gs : py_set (slots r) i back = Ok (upd (slots r) i back)) by (apply py_set_Ok; auto).
    conj; auto.
    - intros item.
      assert (Gset : py_set (upd (slots r) i back) (List.length (upd (slots r) i back) - 1) item
             = Ok (upd (upd (slots r) i back) (List.length (upd (slots r) i back) - 1) item)).
      { apply py_set_Ok. split; auto. rewrite upd_length. lia. }
      rewrite Gset. f_equal. eapply replace_slot; eauto.
    - unfold evict_slot. rewrite Ga. cbn [bind]. rewrite Hs, nth_repeat0 by lia. cbn [bind].
      rewrite Hp. cbn [bind]. rewrite HL, py_pop_repeat. cbn [bind].
      fold s2. unfold s2 in *. destruct (Nat.ltb_spec i (List.length pre)) as [Hlt|Hge].
      + assert (py_set pre i back = Ok (upd pre i back)) as -> by (apply py_set_Ok; auto). cbn [bind].
        assert (py_set (repeat 0 (List.length pre)) i 0 = Ok (repeat 0 (List.length pre))) as ->.
        { apply py_set_Ok. rewrite repeat_length, upd_repeat. auto. }
        cbn [bind]. rewrite Hs2, Z.sub_0_r. reflexivity.
      + cbn [bind]. rewrite Z.sub_0_r. reflexivity.
    - lia.
  Qed.

  Lemma repeat_snoc n : repeat 0 n ++ [0] = repeat 0 (S n).
  Proof. induction n as [|n IH]; simpl in *; congruence. Qed.

  (** The packed loop from the same slots and counter computes what the generic
      loop computes. *)
  Lemma p_loop_sim input : forall (r : rsv Z),
    slot_sizes r = repeat 0 (List.length (slots r)) -> 0 <= rng_counter r ->
    zlen (slots r) <= cf_capacity cf ->
    match p_loop (cf_capacity cf) (cf_rng_base cf) (slots r) (rng_counter r) input with
    | Ok (s, c, outs) =>
        exists r1, offer_zero_loop cf r input = Ok (r1, outs) /\ slots r1 = s /\ rng_counter r1 = c
          /\ slot_sizes r1 = repeat 0 (List.length (slots r1))
          /\ offered r1 = offered r /\ emitted r1 = emitted r + zlen outs
          /\ peak_occupancy r1 = peak_occupancy r /\ closed r1 = closed r
          /\ zlen s <= cf_capacity cf
          /\ zlen outs = Z.max 0 (zlen input - (cf_capacity cf - zlen (slots r)))
          /\ preflight (List.length outs) (cf_rng_base cf) (rng_counter r) (cf_capacity cf) = Ok c
    | Err _ => exists e, offer_zero_loop cf r input = Err e
    end.
  Proof.
    induction input as [|item rest IH]; intros r Hs Hc Hle; cbn [p_loop offer_zero_loop].
    - exists r. cbn -[zlen]. change (zlen (@nil Z)) with 0. conj; auto; lia.
    - rewrite Z.ltb_antisym. destruct (Z.leb_spec (cf_capacity cf) (zlen (slots r))) as [Hfull|Hroom];
        cbn [negb].
      + unfold evict_random.
        assert (Hz : zlen (slots r) = cf_capacity cf) by lia. rewrite Hz.
        generalize (p_random_slot_eq (cf_rng_base cf) Hcap Hc).
        destruct (p_random_slot (cf_rng_base cf) (rng_counter r) (cf_capacity cf)) as [[i c]|e] eqn:Ep.
        * intros Er. rewrite Er. cbn [bind].
          apply random_slot_Ok_range in Er; [|lia]. destruct Er as [Hi [Hc1 Hc2]].
          destruct (@p_step_eq r (Z.to_nat i) c Hs) as [a [back [pre [s2 [s1 [G1 [G2 [G3 [G4 [G5 [G6 G7]]]]]]]]]]].
          { unfold zlen in *. lia. }
          rewrite G1. cbn [bind]. rewrite G2. cbn [bind]. rewrite G4. cbn [bind]. rewrite G5. cbn [bind]. rewrite G6. cbn [bind].
          match goal with |- context [offer_zero_loop cf (push_zero ?R item) rest] => set (r1 := R) end.
          assert (HS1 : slots (push_zero r1 item) = s2 ++ [item]) by reflexivity.
          specialize (IH (push_zero r1 item)).
          assert (Hlen1 : zlen (s2 ++ [item]) = cf_capacity cf).
          { unfold zlen in *. rewrite app_length. cbn [List.length]. lia. }
          change (rng_counter (push_zero r1 item)) with c in IH.
          rewrite HS1 in IH.
          assert (P1 : slot_sizes (push_zero r1 item) = repeat 0 (List.length (s2 ++ [item]))).
          { cbn. rewrite app_length. cbn [List.length]. rewrite repeat_snoc. f_equal. lia. }
          specialize (IH P1 ltac:(lia) ltac:(lia)).
          destruct (p_loop (cf_capacity cf) (cf_rng_base cf) (s2 ++ [item]) c rest) as [[[s3 c3] outs]|e] eqn:El.
          -- cbn [bind]. destruct IH as [r3 [E3 [Q1 [Q2 [Q3 [Q4 [Q5 [Q6 [Q7 [Q8 [Q9 Q10]]]]]]]]]]].
             exists r3. rewrite E3. cbn [bind]. cbn in Q4, Q5, Q6, Q7. cbn [app].
             rewrite !zlen_cons. pose proof (zlen_nonneg rest). conj; auto; try lia.
             cbn [List.length preflight]. rewrite Ep. cbn [bind]. exact Q10.
          -- cbn [bind]. destruct IH as [e' ->]. cbn. eauto.
        * intros [e' Er]. rewrite Er. cbn. eauto.
      + cbn [bind]. specialize (IH (push_zero r item)).
        change (rng_counter (push_zero r item)) with (rng_counter r) in IH.
        change (slots (push_zero r item)) with (slots r ++ [item]) in IH.
        assert (P1 : slot_sizes (push_zero r item) = repeat 0 (List.length (slots r ++ [item]))).
        { cbn. rewrite app_length, Hs. cbn [List.length]. rewrite repeat_snoc. f_equal. lia. }
        assert (Hl1 : zlen (slots r ++ [item]) = zlen (slots r) + 1) by (rewrite zlen_app; reflexivity).
        specialize (IH P1 Hc ltac:(lia)).
        destruct (p_loop (cf_capacity cf) (cf_rng_base cf) (slots r ++ [item]) (rng_counter r) rest) as [[[s3 c3] outs]|e].
        * destruct IH as [r3 [E3 [Q1 [Q2 [Q3 [Q4 [Q5 [Q6 [Q7 [Q8 [Q9 Q10]]]]]]]]]]].
          exists r3. rewrite E3. cbn [bind app]. cbn in Q4, Q5, Q6, Q7. rewrite zlen_cons.
          conj; auto; try lia.
        * destruct IH as [e' ->]. cbn. eauto.
  Qed.

  Lemma preflight_mono n : forall c c', 0 <= c ->
    preflight n (cf_rng_base cf) c (cf_capacity cf) = Ok c' -> c <= c'.
  Proof.
    induction n as [|n IH]; intros c c' Hc H; cbn [preflight] in H.
    - inversion H; lia.
    - inv_bind H. destruct v as [i c1].
      generalize (p_random_slot_eq (cf_rng_base cf) Hcap Hc). rewrite Hm. intros E.
      apply random_slot_Ok_range in E; [|lia]. apply IH in H; lia.
  Qed.

  Lemma p_offer_sim p r block p1 out :
    Sim p r -> Inv cf r ->
    p_offer (cf_capacity cf) (cf_rng_base cf) p block = Ok (p1, out) ->
    exists r1, offer_zero_core cf r block = Ok (r1, out) /\ Sim p1 r1 /\ rng_counter r1 < two63.
  Proof.
    intros [S1 S2 S3 S4 S5 S6 S7] HI H. unfold p_offer in H. rewrite S1, S3, S7 in H.
    apply guard_Ok in H as [Hc H]. cbv zeta in H. inv_bind H. apply guard_Ok in H as [Hpre H].
    inv_bind H. destruct v0 as [[s c] outs]. apply guard_Ok in H as [Hcount H]. inversion H; subst p1 out. clear H.
    generalize (p_loop_sim block r S2 (proj1 (inv_rng HI)) (inv_cap HI)). rewrite Hm0.
    intros [r1 [E [Q1 [Q2 [Q3 [Q4 [Q5 [Q6 [Q7 [Q8 [Q9 Q10]]]]]]]]]]].
    assert (Hc63 : rng_counter r1 < two63).
    { rewrite Q2. assert (EL : List.length outs =
        Z.to_nat (if cf_capacity cf - zlen (slots r) <? zlen block
                  then zlen block - (cf_capacity cf - zlen (slots r)) else 0)).
      { unfold zlen at 1 in Hcount. lia. }
      rewrite <- EL in Hm. assert (v = c) by congruence. lia. }
    unfold offer_zero_core. rewrite Hc.
    destruct block as [|b0 block].
    - cbn in E. inversion E; subst r1 outs. exists r. conj; auto.
      cbn in Hm0. inversion Hm0; subst. 
      replace (cf_capacity cf - zlen (slots r) <? zlen (@nil Z)) with false in *
        by (rewrite zlen_nil; generalize (inv_cap HI); lia).
      constructor; cbn; auto; rewrite ?zlen_nil, ?S4, ?S5, ?Z.add_0_r.
      + apply Z.mod_mod; unfold two64; lia.
      + apply Z.mod_mod; unfold two64; lia.
      + rewrite S6. generalize (inv_peak HI). intros.
        destruct (Z.ltb_spec (peak_occupancy r) (zlen (slots r))); lia.
    - rewrite E. cbn [bind]. eexists; split; [reflexivity|]. split; [|cbn; exact Hc63].
      constructor; cbn [slots slot_sizes rng_counter offered emitted peak_occupancy closed
         p_slots p_rng_counter p_offered p_emitted p_peak p_closed]; auto.
      + rewrite S4, Q4. rewrite Z.add_mod_idemp_l by (unfold two64; lia). reflexivity.
      + rewrite S5, Q5. rewrite Z.add_mod_idemp_l by (unfold two64; lia). f_equal. f_equal. lia.
      + rewrite S6, Q1, Q6. destruct (Z.ltb_spec (peak_occupancy r) (zlen s)); lia.
  Qed.

  Lemma p_offer_complete p r block r1 out :
    Sim p r -> Inv cf r -> closed r = false ->
    offer_zero_core cf r block = Ok (r1, out) -> rng_counter r1 < two63 ->
    exists p1, p_offer (cf_capacity cf) (cf_rng_base cf) p block = Ok (p1, out).
  Proof.
    intros [S1 S2 S3 S4 S5 S6 S7] HI Hcl H Hrng. unfold p_offer. rewrite S1, S3, S7, Hcl. cbn [negb].
    cbv zeta.
    generalize (p_loop_sim block r S2 (proj1 (inv_rng HI)) (inv_cap HI)).
    assert (Hloop : exists r2, offer_zero_loop cf r block = Ok (r2, out) /\ rng_counter r2 = rng_counter r1).
    { unfold offer_zero_core in H. rewrite Hcl in H. cbn [negb] in H. destruct block as [|b block].
      - inversion H; subst. cbn. eauto.
      - inv_bind H. destruct v as [r2 o2]. inversion H; subst. cbn [rng_counter]. eauto. }
    destruct Hloop as [r2 [El Er]]. rewrite El.
    destruct (p_loop (cf_capacity cf) (cf_rng_base cf) (slots r) (rng_counter r) block) as [[[s c] outs]|e].
    - intros [r3 [E [Q1 [Q2 [Q3 [Q4 [Q5 [Q6 [Q7 [Q8 [Q9 Q10]]]]]]]]]]]. inversion E; subst r3 outs.
      set (oc := if cf_capacity cf - zlen (slots r) <? zlen block
                  then zlen block - (cf_capacity cf - zlen (slots r)) else 0).
      assert (Hoc : zlen out = oc) by (unfold oc; destruct (Z.ltb_spec (cf_capacity cf - zlen (slots r)) (zlen block)); lia).
      assert (EL : Z.to_nat oc = List.length out) by (unfold zlen in Hoc; lia).
      rewrite EL, Q10. cbn [bind].
      replace (two63 <=? c) with false by lia. cbn [negb bind].
      replace (zlen out =? oc) with true by lia. eauto.
    - intros [e' He]. congruence.
  Qed.

  Lemma p_gather_spec slots0 : forall order seen out,
    mapM (py_get slots0) order = Ok out -> NoDup order ->
    (forall i, In i order -> nth_error seen i = Some false) ->
    p_gather slots0 seen order = Ok out.
  Proof.
    induction order as [|i order IH]; intros seen out H Hnd Hseen; cbn [mapM p_gather] in *; auto.
    inv_bind H. inv_bind H. inversion H; subst. apply py_get_Ok in Hm. rewrite Hm.
    rewrite (Hseen i) by (left; auto). inversion Hnd; subst.
    rewrite (IH (upd seen i true) v0); auto.
    intros j Hj. rewrite nth_error_upd. destruct (Nat.eqb_spec j i); [subst; contradiction|].
    apply Hseen. right; auto.
  Qed.

  Lemma p_gather_inv slots0 : forall order seen out,
    p_gather slots0 seen order = Ok out -> mapM (py_get slots0) order = Ok out.
  Proof.
    induction order as [|i order IH]; intros seen out H; cbn [mapM p_gather] in *; auto.
    destruct (nth_error slots0 i) as [x|] eqn:E; [|discriminate].
    destruct (nth_error seen i) as [[|]|]; try discriminate.
    inv_bind H. inversion H; subst. unfold py_get at 1. rewrite E. cbn [bind].
    rewrite (IH _ _ Hm). reflexivity.
  Qed.

  Lemma w_drain_sim header hash64 p r p1 out :
    Sim p r -> Inv cf r -> offered r < two64 ->
    w_drain header hash64 cf p = Ok (p1, out) ->
    exists r1, drain_core cf header hash64 r = Ok (r1, out) /\ Sim p1 r1 /\ rng_counter r1 = rng_counter r.
  Proof.
    intros [S1 S2 S3 S4 S5 S6 S7] HI Hoff H. unfold w_drain in H. unfold drain_core.
    rewrite S7 in H. destruct (closed r) eqn:Hc.
    - inversion H; subst. exists r. conj; auto. constructor; auto; congruence.
    - rewrite S1, S3, S4 in H.
      rewrite Z.mod_small in H by (generalize (inv_once HI) (inv_emitted HI) (zlen_nonneg (slots r)); lia).
      inv_bind H. rewrite Hm. cbn [bind].
      unfold p_drain in H. rewrite S7 in H. apply guard_Ok in H as [_ H]. inv_bind H.
      inversion H; subst p1 v0. rewrite S1 in Hm0. apply p_gather_inv in Hm0. rewrite Hm0. cbn [bind].
      eexists; split; [reflexivity|]. split; auto.
      apply mapM_Ok_length in Hm0. apply deterministic_permutation_perm in Hm.
      apply Permutation_length in Hm. unfold range in Hm. rewrite seq_length in Hm.
      constructor; cbn; auto. rewrite S5, Z.add_mod_idemp_l by (unfold two64; lia).
      f_equal. f_equal. unfold zlen. rewrite S1. lia.
  Qed.

  Lemma w_drain_complete header hash64 p r r1 out :
    Sim p r -> Inv cf r -> offered r < two64 ->
    drain_core cf header hash64 r = Ok (r1, out) ->
    exists p1, w_drain header hash64 cf p = Ok (p1, out).
  Proof.
    intros [S1 S2 S3 S4 S5 S6 S7] HI Hoff H. unfold w_drain. unfold drain_core in H.
    rewrite S7. destruct (closed r) eqn:Hc.
    - inversion H; subst. eauto.
    - rewrite S1, S3, S4.
      rewrite Z.mod_small by (generalize (inv_once HI) (inv_emitted HI) (zlen_nonneg (slots r)); lia).
      inv_bind H. rewrite Hm. cbn [bind]. inv_bind H. inversion H; subst out.
      pose proof Hm as Hp. apply deterministic_permutation_perm in Hp.
      unfold p_drain. rewrite S7, S1.
      pose proof (Permutation_length Hp) as HL. unfold range in HL. rewrite seq_length in HL.
      rewrite <- HL, Nat.eqb_refl.
      assert (G : p_gather (slots r) (repeat false (List.length v)) v = Ok v0).
      { apply p_gather_spec; auto.
        - eapply Permutation_NoDup; [exact Hp|apply seq_NoDup].
        - intros i Hi. apply Permutation_sym in Hp. apply (Permutation_in _ Hp) in Hi.
          unfold range in Hi. apply in_seq in Hi.
          rewrite nth_error_nth' with (d := false) by (rewrite repeat_length; lia).
          rewrite nth_repeat. reflexivity. }
      rewrite HL, G. cbn [bind]. eauto.
  Qed.

  Definition generic_op (o : pop) : rop Z :=
    match o with POffer b => OfferZero b | PDrain => Drain Z end.

  Definition blocks (ops : list pop) : list Z :=
    List.concat (map (fun o => match o with POffer b => b | PDrain => [] end) ops).

  Lemma p_run_sim header hash64 ops : forall p o p1 out,
    Sim p (core o) -> OInv cf o -> offered (core o) + zlen (blocks ops) < two64 ->
    p_run header hash64 cf p ops = Ok (p1, out) ->
    exists o1, run cf header hash64 o (map generic_op ops) = Ok (o1, out) /\ Sim p1 (core o1).
  Proof.
    induction ops as [|q ops IH]; intros p o p1 out HS HI Hoff H; cbn [p_run run map] in *.
    - inversion H; subst. eauto.
    - inv_bind H. destruct v as [p2 out1]. inv_bind H. destruct v as [p3 out2]. inversion H; subst.
      assert (Hb : blocks (q :: ops) = match q with POffer b => b | PDrain => [] end ++ blocks ops) by reflexivity.
      rewrite Hb, zlen_app in Hoff.
      assert (Hstep : exists o2, apply_op cf header hash64 o (generic_op q) = Ok (o2, out1) /\ Sim p2 (core o2)).
      { destruct q as [b|]; cbn [p_apply generic_op apply_op] in *.
        - apply (p_offer_sim _ HS) in Hm; [|apply HI]. destruct Hm as [r1 [E [HS1 _]]].
          unfold offer_zero_sized. rewrite E. cbn [bind]. eexists; split; [reflexivity|exact HS1].
        - apply (w_drain_sim header hash64 HS) in Hm; [|apply HI|].
          2:{ generalize (zlen_nonneg (blocks ops)); rewrite zlen_nil in Hoff; lia. }
          destruct Hm as [r1 [E [HS1 _]]].
          unfold drain. rewrite E. cbn [bind]. eexists; split; [reflexivity|exact HS1]. }
      destruct Hstep as [o2 [E2 HS2]]. rewrite E2. cbn [bind].
      pose proof E2 as E2'. apply apply_op_spec in E2'; [|lia|auto].
      destruct E2' as [HI2 [_ [Ho2 _]]].
      destruct (IH p2 o2 p1 out2 HS2 HI2) as [o3 [E3 HS3]]; auto.
      + rewrite Ho2. assert (zlen (items_of (generic_op q)) = zlen match q with POffer b => b | PDrain => [] end) by (destruct q; reflexivity). lia.
      + rewrite E3. cbn [bind]. eauto.
  Qed.
  Lemma p_run_complete header hash64 ops : forall p o o1 out,
    Sim p (core o) -> OInv cf o -> offered (core o) + zlen (blocks ops) < two64 ->
    run cf header hash64 o (map generic_op ops) = Ok (o1, out) -> rng_counter (core o1) < two63 ->
    exists p1, p_run header hash64 cf p ops = Ok (p1, out) /\ Sim p1 (core o1).
  Proof.
    assert (Mono : forall l o o1 out, OInv cf o -> run cf header hash64 o (map generic_op l) = Ok (o1, out) ->
              rng_counter (core o) <= rng_counter (core o1)).
    { induction l as [|q l IH]; intros o o1 out HI H; cbn [run map] in H.
      - inversion H; lia.
      - inv_bind H. destruct v as [o2 out1]. inv_bind H. destruct v as [o3 out2]. inversion H; subst.
        pose proof Hm as Hm'. apply apply_op_spec in Hm'; [|lia|auto]. destruct Hm' as [HI2 _].
        apply IH in Hm0; auto.
        assert (rng_counter (core o) <= rng_counter (core o2)); [|lia].
        destruct q as [b|]; cbn [generic_op apply_op] in Hm.
        + unfold offer_zero_sized in Hm. rewrite offer_zero_core_many in Hm by (try lia; apply HI).
          inv_bind Hm. destruct v as [r1 x]. inversion Hm; subst. cbn [core].
          unfold offer_many_core in Hm1. apply guard_Ok in Hm1 as [Hc Hm1]. apply guard_Ok in Hm1 as [Hsz Hm1].
          assert (Hc' : closed (core o) = false) by (destruct (closed (core o)); [discriminate|auto]).
          clear -Hm1 HI Hcap Hsz Hc'. destruct HI as [HI _]. revert HI Hm1 Hsz Hc'.
          generalize (core o) as r. generalize (map (fun x : Z => (x, 0)) b) as items.
          intros items; revert r1 out1. induction items as [|[y z] items IHi]; intros r1 out1 r HI H Hsz Hc;
            cbn [offer_many_loop] in H.
          * inversion H; lia.
          * inv_bind H. destruct v as [r2 o2]. inv_bind H. destruct v as [r3 o3]. inversion H; subst.
            cbn [forallb snd] in Hsz. apply andb_true_iff in Hsz as [Hs1 Hs2].
            apply evict_loop_spec in Hm; auto. destruct Hm as [HI2 [_ [_ [Hc2 [_ [_ [Hn Hle]]]]]]].
            apply IHi in Hm0; auto; [cbn in Hm0; lia| |cbn; congruence].
            apply admit_inv; auto; [lia|congruence].
        + unfold drain in Hm. inv_bind Hm. destruct v as [r1 x]. inversion Hm; subst. cbn [core].
          unfold drain_core in Hm1. destruct (closed (core o)); [inversion Hm1; lia|].
          inv_bind Hm1. inv_bind Hm1. inversion Hm1; subst. cbn. lia. }
    induction ops as [|q ops IH]; intros p o o1 out HS HI Hoff H Hrng; cbn [p_run run map] in *.
    - inversion H; subst. eauto.
    - inv_bind H. destruct v as [o2 out1]. inv_bind H. destruct v as [o3 out2]. inversion H; subst.
      assert (Hb : blocks (q :: ops) = match q with POffer b => b | PDrain => [] end ++ blocks ops) by reflexivity.
      rewrite Hb, zlen_app in Hoff.
      pose proof Hm as Hm'. apply apply_op_spec in Hm'; [|lia|auto]. destruct Hm' as [HI2 [_ [Ho2 [_ [_ [Hclosed _]]]]]].
      assert (Hr2 : rng_counter (core o2) < two63) by (apply Mono in Hm0; auto; lia).
      assert (Hstep : exists p2, p_apply header hash64 cf p q = Ok (p2, out1) /\ Sim p2 (core o2)).
      { destruct q as [b|]; cbn [p_apply generic_op apply_op] in *.
        - unfold offer_zero_sized in Hm. inv_bind Hm. destruct v as [r1 x]. inversion Hm; subst. cbn [core] in *.
          assert (Hcl : closed (core o) = false).
          { unfold offer_zero_core in Hm1. apply guard_Ok in Hm1 as [Hm1 _].
            destruct (closed (core o)); [discriminate|auto]. }
          pose proof Hm1 as Hm2. apply (p_offer_complete _ HS) in Hm2; auto; [|apply HI].
          destruct Hm2 as [p2 E]. exists p2. split; auto.
          apply (p_offer_sim _ HS) in E; [|apply HI]. destruct E as [r2 [E2 [HS2 _]]]. congruence.
        - unfold drain in Hm. inv_bind Hm. destruct v as [r1 x]. inversion Hm; subst. cbn [core] in *.
          assert (Ho : offered (core o) < two64) by (generalize (zlen_nonneg (blocks ops)); rewrite zlen_nil in Hoff; lia).
          pose proof Hm1 as Hm2. apply (w_drain_complete header hash64 HS) in Hm2; auto; [|apply HI].
          destruct Hm2 as [p2 E]. exists p2. split; auto.
          apply (w_drain_sim header hash64 HS) in E; auto; [|apply HI]. destruct E as [r2 [E2 [HS2 _]]]. congruence. }
      destruct Hstep as [p2 [E2 HS2]]. rewrite E2. cbn [bind].
      destruct (IH p2 o2 o1 out2 HS2 HI2) as [p3 [E3 HS3]]; auto.
      + rewrite Ho2. assert (zlen (items_of (generic_op q)) = zlen match q with POffer b => b | PDrain => [] end) by (destruct q; reflexivity). lia.
      + rewrite E3. cbn [bind]. eauto.
  Qed.

  Lemma Sim_init : Sim prsv_init (rsv_init Z).
  Proof. constructor; reflexivity. Qed.
End Sim.

(** * Ready buffer is a FIFO *)
Record RInv (b : ready) : Prop := {
  ri_size : (rsize b + head b)%nat = List.length (List.concat (chunks b));
  ri_head : match chunks b with [] => head b = O | c :: _ => (head b < List.length c)%nat end;
  ri_ne : Forall (fun c => c <> []) (chunks b)
}.
Definition contents (b : ready) : list Z := skipn (head b) (List.concat (chunks b)).

Lemma RInv_empty : RInv ready_empty.
Proof. constructor; cbn; auto. Qed.

Lemma contents_length b : RInv b -> List.length (contents b) = rsize b.
Proof. intros [H1 _ _]. unfold contents. rewrite skipn_length. lia. Qed.

Lemma head_le b : RInv b -> (head b <= List.length (List.concat (chunks b)))%nat.
Proof. intros [H1 _ _]. lia. Qed.

Lemma skipn_app_le {A} n (l m : list A) : (n <= List.length l)%nat -> skipn n (l ++ m) = skipn n l ++ m.
Proof.
  intros H. rewrite skipn_app. replace (n - List.length l)%nat with O by lia. reflexivity.
Qed.

Lemma ready_extend_spec b v : RInv b -> RInv (ready_extend b v) /\ contents (ready_extend b v) = contents b ++ v.
Proof.
  intros HI. destruct v as [|x v]; cbn [ready_extend].
  - rewrite app_nil_r. auto.
  - pose proof (head_le HI) as Hh. destruct HI as [H1 H2 H3]. split.
    + constructor; cbn [chunks head rsize].
      * rewrite concat_app, app_length. cbn [List.concat]. rewrite app_nil_r. lia.
      * destruct (chunks b) as [|c cs]; cbn [app]; [rewrite H2; cbn; lia|auto].
      * apply Forall_app; split; auto. constructor; [discriminate|auto].
    + unfold contents. cbn [chunks head]. rewrite concat_app. cbn [List.concat].
      rewrite app_nil_r. apply skipn_app_le; auto.
Qed.

Lemma pop_parts_spec fuel : forall cs hd remaining,
  Forall (fun c => c <> []) cs ->
  match cs with [] => hd = O | c :: _ => (hd < List.length c)%nat end ->
  (remaining + hd <= List.length (List.concat cs))%nat -> (List.length cs < fuel)%nat ->
  exists cs2 hd2 parts, pop_parts fuel cs hd remaining = Ok (cs2, hd2, parts)
    /\ skipn hd (List.concat cs) = parts ++ skipn hd2 (List.concat cs2)
    /\ List.length parts = remaining
    /\ Forall (fun c => c <> []) cs2
    /\ match cs2 with [] => hd2 = O | c :: _ => (hd2 < List.length c)%nat end
    /\ (hd2 <= List.length (List.concat cs2))%nat.
Proof.
  induction fuel as [|n IH]; intros cs hd remaining Hne Hhd Hrem Hf; [lia|].
  destruct remaining as [|rem].
  - cbn [pop_parts]. exists cs, hd, []. conj; auto; lia.
  - destruct cs as [|chunk rest]; [cbn in Hrem; lia|].
    change (pop_parts (S n) (chunk :: rest) hd (S rem)) with
     (let take := Nat.min (S rem) (List.length chunk - hd) in
      let part := firstn take (skipn hd chunk) in
      let hd1 := (hd + take)%nat in
      let rem1 := (S rem - take)%nat in
      '(cs2, hd2, parts) <-
        (if (hd1 =? List.length chunk)%nat then pop_parts n rest O rem1
         else pop_parts n (chunk :: rest) hd1 rem1) ;;
      Ok (cs2, hd2, part ++ parts)).
    cbv zeta. set (take := Nat.min (S rem) (List.length chunk - hd)).
    inversion Hne as [|? ? Hc Hrest]; subst.
    cbn [List.concat] in *. rewrite app_length in Hrem. cbn [List.length] in Hf.
    destruct (Nat.eqb_spec (hd + take) (List.length chunk)) as [Heq|Hneq].
    + assert (Htake : take = (List.length chunk - hd)%nat) by lia.
      assert (Hpart : firstn take (skipn hd chunk) = skipn hd chunk).
      { apply firstn_all2. rewrite skipn_length. lia. }
      destruct (IH rest O (S rem - take)%nat Hrest) as [cs2 [hd2 [parts [E [E1 [E2 [E3 [E4 E5]]]]]]]].
      * destruct rest as [|c rest]; auto. inversion Hrest; subst. destruct c; [congruence|cbn; lia].
      * lia.
      * lia.
      * rewrite E. cbn [bind]. exists cs2, hd2, (firstn take (skipn hd chunk) ++ parts). conj; auto.
        -- rewrite skipn_app_le by lia. rewrite Hpart. cbn [skipn] in E1. rewrite E1, app_assoc. reflexivity.
        -- rewrite app_length, Hpart, skipn_length. lia.
    + (* the whole request is satisfied by this chunk *)
      assert (Htake : take = S rem) by lia.
      assert (Hz : (S rem - take)%nat = O) by lia. rewrite Hz.
      assert (Hn : exists m, n = S m \/ n = O) by (exists (n - 1)%nat; lia).
      assert (Epop : pop_parts n (chunk :: rest) (hd + take) 0 = Ok (chunk :: rest, (hd + take)%nat, []))
        by (destruct n; reflexivity).
      rewrite Epop. cbn [bind]. rewrite app_nil_r.
      exists (chunk :: rest), (hd + take)%nat, (firstn take (skipn hd chunk)). conj; auto.
      * cbn [List.concat]. rewrite !skipn_app_le by lia.
        rewrite app_assoc. f_equal. rewrite (Nat.add_comm hd take), <- skipn_skipn.
        symmetry. apply firstn_skipn.
      * rewrite firstn_length, skipn_length. lia.
      * lia.
      * cbn [List.concat]. rewrite app_length. lia.
Qed.

Lemma ready_pop_spec b count :
  RInv b ->
  if (count <=? List.length (contents b))%nat then
    exists b' values, ready_pop b count = Ok (b', values) /\ RInv b'
      /\ contents b = values ++ contents b' /\ List.length values = count
  else ready_pop b count = Err ValueError.
Proof.
  intros HI. rewrite contents_length by auto. unfold ready_pop.
  pose proof (head_le HI) as Hh.
  destruct (Nat.leb_spec count (rsize b)) as [Hle|Hgt]; auto.
  destruct count as [|count].
  - exists b, []. auto.
  - pose proof HI as [H1 H2 H3]. destruct (chunks b) as [|first rest] eqn:Ec; [cbn in *; lia|].
    cbn [List.concat] in H1. rewrite app_length in H1.
    destruct (Nat.leb_spec (S count) (List.length first - head b)) as [Hav|Hav].
    + assert (Hval : List.length (firstn (S count) (skipn (head b) first)) = S count)
        by (rewrite firstn_length, skipn_length; lia).
      inversion H3 as [|? ? Hf Hr]; subst.
      destruct (Nat.eqb_spec (head b + S count) (List.length first)) as [Heq|Hneq].
      * eexists _, _; split; [reflexivity|]. split; [|split; auto].
        -- constructor; cbn [chunks head rsize]; auto; [lia|].
           destruct rest as [|c rest]; auto. inversion Hr; subst. destruct c; [congruence|cbn; lia].
        -- unfold contents. rewrite Ec. cbn [chunks head List.concat skipn].
           rewrite skipn_app_le by lia. f_equal.
           symmetry. apply firstn_all2. rewrite skipn_length. lia.
      * eexists _, _; split; [reflexivity|]. split; [|split; auto].
        -- constructor; cbn [chunks head rsize]; auto; [|lia].
           cbn [List.concat]. rewrite app_length. lia.
        -- unfold contents. rewrite Ec. cbn [chunks head List.concat].
           rewrite !skipn_app_le by lia. rewrite app_assoc. f_equal.
           rewrite (Nat.add_comm (head b)), <- skipn_skipn. symmetry. apply firstn_skipn.
    + destruct (@pop_parts_spec (S (List.length (first :: rest))) (first :: rest) (head b) (S count) H3 H2)
        as [cs2 [hd2 [parts [E [E1 [E2 [E3 [E4 E5]]]]]]]].
      * cbn [List.concat]. rewrite app_length. lia.
      * lia.
      * rewrite E. cbn [bind]. eexists _, _; split; [reflexivity|].
        assert (HL : List.length (skipn (head b) (List.concat (first :: rest))) =
                     (S count + (List.length (List.concat cs2) - hd2))%nat).
        { rewrite E1, app_length, skipn_length. lia. }
        rewrite skipn_length in HL. cbn [List.concat] in HL. rewrite app_length in HL.
        split; [|split; auto].
        -- constructor; cbn [chunks head rsize]; auto. lia.
        -- unfold contents. rewrite Ec. cbn [chunks head]. exact E1.
Qed.

Lemma ready_state_spec b : RInv b -> ready_state b = contents b.
Proof.
  intros HI. pose proof (contents_length HI) as HL. unfold ready_state.
  destruct (rsize b) as [|n] eqn:E.
  - destruct (contents b); [auto|discriminate].
  - destruct HI as [H1 H2 H3]. unfold contents. destruct (chunks b) as [|c cs]; cbn in *; [lia|].
    rewrite skipn_app_le by lia. reflexivity.
Qed.

From Verif Require Import Base BaseFacts Rng RngFacts Reservoir.
Set Implicit Arguments.

(** Swap-with-last-and-pop removes exactly the chosen element. *)
Lemma swap_remove_perm {A} (l l1 l2 : list A) (a b : A) i :
  nth_error l i = Some a -> py_pop l = Ok (l1, b) ->
  l2 = (if (i <? List.length l1)%nat then upd l1 i b else l1) ->
  Permutation l (a :: l2).
Proof.
  intros Hn Hp ->. apply py_pop_spec in Hp. subst l.
  destruct (Nat.ltb_spec i (List.length l1)) as [Hlt|Hge].
  - rewrite nth_error_app1 in Hn by lia.
    apply nth_error_split in Hn as [p [q [-> <-]]].
    rewrite upd_app. rewrite <- app_assoc. cbn [app].
    rewrite <- Permutation_middle. constructor.
    apply Permutation_app_head. rewrite <- Permutation_cons_append. reflexivity.
  - rewrite nth_error_app2 in Hn by lia.
    destruct (i - List.length l1)%nat as [|d] eqn:Ed; simpl in Hn; [|destruct d; discriminate].
    inversion Hn; subst. rewrite <- Permutation_cons_append. reflexivity.
Qed.

Section Item.
  Variable A : Type.
  Variable cf : rconfig.
  Notation rsv := (rsv A).

  (** The class invariant of the reservoir. *)
  Record Inv (r : rsv) : Prop := {
    inv_len : List.length (slots r) = List.length (slot_sizes r);
    inv_cap : zlen (slots r) <= cf_capacity cf;
    inv_sizes : Forall (fun z => 0 <= z) (slot_sizes r);
    inv_sum : zsum (slot_sizes r) = resident_bytes r;
    inv_bytes : forall m, cf_max_bytes cf = Some m ->
                  resident_bytes r <= m;
    inv_once : offered r = emitted r + zlen (slots r);
    inv_emitted : 0 <= emitted r;
    inv_closed : closed r = true -> slots r = [];
    inv_peak : zlen (slots r) <= peak_occupancy r <= cf_capacity cf;
    inv_peak_bytes : resident_bytes r <= peak_resident_bytes r;
    inv_rng : 0 <= rng_counter r <= two63
  }.

  (** What one successful random eviction does. *)
  Record evicted (r r1 : rsv) (x : A) : Prop := {
    ev_perm : Permutation (slots r) (x :: slots r1);
    ev_size : exists z, Permutation (slot_sizes r) (z :: slot_sizes r1)
                        /\ resident_bytes r1 = resident_bytes r - z;
    ev_len : List.length (slots r1) = List.length (slot_sizes r1);
    ev_off : offered r1 = offered r;
    ev_emit : emitted r1 = emitted r + 1;
    ev_po : peak_occupancy r1 = peak_occupancy r;
    ev_pb : peak_resident_bytes r1 = peak_resident_bytes r;
    ev_closed : closed r1 = closed r;
    ev_rng : rng_counter r < rng_counter r1 <= two63
  }.

  Lemma evict_random_spec (r : rsv) r1 x :
    List.length (slots r) = List.length (slot_sizes r) ->
    evict_random cf r = Ok (r1, x) -> evicted r r1 x.
  Proof.
    intros HL H. unfold evict_random in H. inv_bind H. destruct v as [i c].
    unfold random_slot in Hm. apply reject_loop_Ok in Hm as [Hc [Hc2 [[w [_ [_ ->]]] _]]].
    unfold evict_slot in H. inv_bind H. inv_bind H.
    inv_bind H. destruct v1 as [s1 li]. inv_bind H. destruct v1 as [z1 lz].
    apply py_get_Ok in Hm. apply py_get_Ok in Hm0.
    pose proof Hm1 as Hp1. pose proof Hm2 as Hp2.
    apply py_pop_spec in Hp1. apply py_pop_spec in Hp2.
    assert (Hl1 : List.length s1 = List.length z1).
    { rewrite Hp1, Hp2, !app_length in HL. simpl in HL. lia. }
    inv_bind H. destruct v1 as [s2 z2]. inversion H; subst r1 v. clear H.
    set (k := Z.to_nat (w mod zlen (slots r))) in *.
    assert (E : s2 = (if (k <? List.length s1)%nat then upd s1 k li else s1) /\
                z2 = (if (k <? List.length z1)%nat then upd z1 k lz else z1)).
    { rewrite <- Hl1. destruct (Nat.ltb_spec k (List.length s1)) as [Hlt|Hge].
      - inv_bind Hm3. inv_bind Hm3. inversion Hm3; subst.
        apply py_set_Ok in Hm4 as [_ ->]. apply py_set_Ok in Hm5 as [_ ->]. auto.
      - inversion Hm3; auto. }
    destruct E as [E1 E2].
    constructor; cbn; auto.
    - eapply swap_remove_perm; eauto.
    - exists v0. split; auto. eapply swap_remove_perm; eauto.
    - subst s2 z2. rewrite Hl1. destruct (k <? List.length z1)%nat; rewrite ?upd_length; auto.
    - lia.
  Qed.

  Lemma evicted_inv (r : rsv) r1 x : Inv r -> evicted r r1 x -> Inv r1.
  Proof.
    intros HI [Hp [z [Hz Hres]] HL Hoff Hem Hpo Hpb Hcl Hrng].
    destruct HI as [I1 I2 I3 I4 I5 I6 I7 I8 I9 I10 I11].
    assert (HF : Forall (fun z => 0 <= z) (z :: slot_sizes r1))
      by (eapply Permutation_Forall; eauto).
    assert (Hz0 : 0 <= z) by (inversion HF; auto).
    assert (HZ : zlen (slots r) = 1 + zlen (slots r1)).
    { rewrite (zlen_perm Hp), zlen_cons. reflexivity. }
    assert (HS : zsum (slot_sizes r) = z + zsum (slot_sizes r1)).
    { rewrite (zsum_perm Hz), zsum_cons. reflexivity. }
    constructor; auto; try lia.
    - inversion HF; auto.
    - intros Hc. rewrite Hcl in Hc. apply I8 in Hc. rewrite Hc in HZ.
      rewrite zlen_nil in HZ. generalize (zlen_nonneg (slots r1)). lia.
  Qed.

  Definition needs_evict (r : rsv) (size : Z) : bool :=
    (match slots r with [] => false | _ => true end)
           && ((cf_capacity cf <=? zlen (slots r)) || negb (fits cf r size)).

  Lemma evict_loop_spec fuel r size r1 out :
    Inv r -> evict_loop cf fuel r size = Ok (r1, out) ->
    Inv r1 /\ Permutation (slots r) (out ++ slots r1)
    /\ offered r1 = offered r /\ closed r1 = closed r
    /\ peak_occupancy r1 = peak_occupancy r /\ peak_resident_bytes r1 = peak_resident_bytes r
    /\ needs_evict r1 size = false
    /\ rng_counter r <= rng_counter r1.
  Proof.
    revert r r1 out; induction fuel as [|n IH]; intros r r1 out HI H; cbn [evict_loop] in H;
      [discriminate|].
    fold (needs_evict r size) in H.
    destruct (needs_evict r size) eqn:E.
    - inv_bind H. destruct v as [r' x]. inv_bind H. destruct v as [r2 xs]. inversion H; subst.
      apply evict_random_spec in Hm; [|apply HI].
      pose proof (evicted_inv HI Hm) as HI'. destruct Hm as [Hp _ _ Ho _ Hpo Hpb Hc Hr].
      apply IH in Hm0; auto.
      destruct Hm0 as [HI1 [Hp1 [Ho1 [Hc1 [Hpo1 [Hpb1 [Hn Hr1]]]]]]].
      rewrite Hp, Hp1. conj; auto; try congruence; try lia.
    - inversion H; subst. conj; auto; try lia; apply HI.
  Qed.

  Lemma evict_loop_fuel fuel (r : rsv) size :
    List.length (slots r) = List.length (slot_sizes r) ->
    (List.length (slots r) < fuel)%nat -> evict_loop cf fuel r size <> Err OutOfFuel.
  Proof.
    revert r; induction fuel as [|n IH]; intros r HL Hf; [lia|].
    cbn [evict_loop]. fold (needs_evict r size). destruct (needs_evict r size); [|discriminate].
    destruct (evict_random cf r) as [[r1 x]|e] eqn:E; cbn [bind].
    - apply evict_random_spec in E; auto.
      assert (List.length (slots r1) < n)%nat as Hf1.
      { generalize (Permutation_length (ev_perm E)). simpl. lia. }
      specialize (IH r1 (ev_len E) Hf1).
      destruct (evict_loop cf n r1 size) as [[r2 xs]|e]; cbn [bind]; congruence.
    - intros HE. injection HE as ->. unfold evict_random in E.
      destruct (random_slot (cf_rng_base cf) (rng_counter r) (zlen (slots r))) as [[i c]|e] eqn:R.
      + cbn [bind] in E. unfold evict_slot in E.
        assert (Gen : forall T (l : list T) k, py_get l k <> Err OutOfFuel).
        { intros T l k. unfold py_get. destruct (nth_error l k); discriminate. }
        assert (Gen2 : forall T (l : list T) k x, py_set l k x <> Err OutOfFuel).
        { intros T l k x. unfold py_set. destruct (k <? List.length l)%nat; discriminate. }
        assert (Gen3 : forall T (l : list T), py_pop l <> Err OutOfFuel).
        { intros T l. induction l as [|a [|b l] IHl]; simpl; try discriminate.
          simpl in IHl. destruct l; [discriminate|].
          destruct (py_pop (t :: l)) as [[]|e]; [discriminate|congruence]. }
        destruct (py_get (slots r) (Z.to_nat i)) eqn:G1; cbn [bind] in E; [|apply (Gen _ (slots r) (Z.to_nat i)); congruence].
        destruct (py_get (slot_sizes r) (Z.to_nat i)) eqn:G2; cbn [bind] in E; [|apply (Gen _ (slot_sizes r) (Z.to_nat i)); congruence].
        destruct (py_pop (slots r)) as [[s1 li]|] eqn:G3; cbn [bind] in E; [|apply (Gen3 _ (slots r)); congruence].
        destruct (py_pop (slot_sizes r)) as [[z1 lz]|] eqn:G4; cbn [bind] in E; [|apply (Gen3 _ (slot_sizes r)); congruence].
        destruct ((Z.to_nat i <? List.length s1)%nat).
        * destruct (py_set s1 (Z.to_nat i) li) eqn:G5; cbn [bind] in E; [|apply (Gen2 _ s1 (Z.to_nat i) li); congruence].
          destruct (py_set z1 (Z.to_nat i) lz) eqn:G6; cbn [bind] in E; [discriminate|apply (Gen2 _ z1 (Z.to_nat i) lz); congruence].
        * discriminate.
      + cbn [bind] in E. injection E as ->. unfold random_slot in R.
        revert R. apply reject_loop_fuel. discriminate.
  Qed.

  Lemma size_ok_spec size :
    size_ok cf size = true ->
    0 <= size /\ forall m, cf_max_bytes cf = Some m -> size <= m.
  Proof.
    unfold size_ok. intros H. apply andb_true_iff in H as [H1 H2]. split; [lia|].
    intros m Hm. rewrite Hm in H2. lia.
  Qed.

  Lemma admit_inv (r : rsv) item size :
    0 < cf_capacity cf ->
    Inv r -> closed r = false -> size_ok cf size = true -> needs_evict r size = false ->
    Inv (admit r item size).
  Proof.
    intros Hcap HI Hc Hs Hn. apply size_ok_spec in Hs as [Hs0 Hs1].
    destruct HI as [I1 I2 I3 I4 I5 I6 I7 I8 I9 I10 I11].
    assert (HZ : zlen (slots r ++ [item]) = zlen (slots r) + 1).
    { rewrite zlen_app. reflexivity. }
    assert (Hroom : zlen (slots r) + 1 <= cf_capacity cf /\
        forall m, cf_max_bytes cf = Some m -> resident_bytes r + size <= m).
    { unfold needs_evict in Hn. destruct (slots r) as [|a l] eqn:Es.
      - split; [rewrite zlen_nil; lia|].
        intros m Hm. destruct (slot_sizes r); [|discriminate I1]. unfold zsum in I4; simpl in I4.
        specialize (Hs1 m Hm). lia.
      - apply orb_false_iff in Hn as [Hn1 Hn2]. split; [lia|].
        intros m Hm. unfold fits in Hn2. rewrite Hm in Hn2.
        destruct (Z.leb_spec (resident_bytes r + size) m); [lia|discriminate]. }
    destruct Hroom as [Hr1 Hr2].
    constructor; cbn; auto; try lia.
    - rewrite !app_length; simpl; lia.
    - apply Forall_app; split; auto.
    - rewrite zsum_app. unfold zsum at 2; simpl. lia.
  Qed.

  Lemma offer_many_loop_spec (r : rsv) items r1 out :
    0 < cf_capacity cf -> Inv r -> closed r = false ->
    forallb (fun it => size_ok cf (snd it)) items = true ->
    offer_many_loop cf r items = Ok (r1, out) ->
    Inv r1 /\ closed r1 = false /\ Permutation (slots r ++ map fst items) (out ++ slots r1)
    /\ offered r1 = offered r + zlen items
    /\ peak_occupancy r <= peak_occupancy r1 /\ peak_resident_bytes r <= peak_resident_bytes r1
    /\ (forall m, cf_max_bytes cf = Some m -> peak_resident_bytes r <= m -> peak_resident_bytes r1 <= m).
  Proof.
    intros Hcap. revert r r1 out; induction items as [|[x z] items IH]; intros r r1 out HI Hc Hs H;
      cbn [offer_many_loop] in H.
    - inversion H; subst. simpl. rewrite app_nil_r. rewrite zlen_nil. conj; auto; try lia; apply HI.
    - cbn [forallb snd] in Hs. apply andb_true_iff in Hs as [Hs1 Hs2].
      inv_bind H. destruct v as [r' out1]. inv_bind H. destruct v as [r'' out2]. inversion H; subst.
      apply evict_loop_spec in Hm; auto.
      destruct Hm as [HI1 [Hp1 [Ho1 [Hc1 [Hpo1 [Hpb1 [Hn Hr]]]]]]].
      assert (HIa : Inv (admit r' x z)) by (apply admit_inv; auto; congruence).
      apply IH in Hm0; auto.
      + destruct Hm0 as [HI2 [Hc2 [Hp2 [Ho2 [Hpo2 [Hpb2 Hpk]]]]]]. split; auto. split; auto.
        split; [|cbn in Ho2, Hpo2, Hpb2, Hpk; rewrite zlen_cons; conj; try lia].
        * cbn [map fst]. cbn in Hp2. rewrite <- app_assoc in *. cbn [app] in *.
          rewrite <- Hp2. rewrite Hp1. rewrite <- !app_assoc. reflexivity.
        * intros m Hmb Hle. apply Hpk; auto. generalize (inv_bytes HIa Hmb). cbn. lia.
      + cbn. congruence.
  Qed.

  Lemma offer_core_many (r : rsv) x z : offer_core cf r x z = offer_many_core cf r [(x, z)].
  Proof.
    unfold offer_core, offer_many_core. destruct (closed r); cbn [negb]; auto.
    cbn [forallb snd]. rewrite andb_true_r. destruct (size_ok cf z); auto.
    cbn [offer_many_loop].
    destruct (evict_loop cf (S (List.length (slots r))) r z) as [[r1 out]|e]; cbn [bind]; auto.
    rewrite app_nil_r. reflexivity.
  Qed.

  Lemma offer_many_core_spec (r : rsv) items r1 out :
    0 < cf_capacity cf -> Inv r -> offer_many_core cf r items = Ok (r1, out) ->
    Inv r1 /\ closed r = false /\ closed r1 = false
    /\ Permutation (slots r ++ map fst items) (out ++ slots r1)
    /\ offered r1 = offered r + zlen items
    /\ peak_occupancy r <= peak_occupancy r1 /\ peak_resident_bytes r <= peak_resident_bytes r1
    /\ (forall m, cf_max_bytes cf = Some m -> peak_resident_bytes r <= m -> peak_resident_bytes r1 <= m).
  Proof.
    intros Hcap HI H. unfold offer_many_core in H.
    apply guard_Ok in H as [Hc H]. apply guard_Ok in H as [Hs H].
    assert (closed r = false) as Hc' by (destruct (closed r); [discriminate|auto]).
    apply offer_many_loop_spec in H; auto. destruct H as [? [? [? [? ?]]]]. auto 10.
  Qed.

  (** Splitting a bulk offer. *)
  Lemma offer_many_loop_app (r : rsv) xs ys :
    offer_many_loop cf r (xs ++ ys) =
    ('(r1, o1) <- offer_many_loop cf r xs ;;
     '(r2, o2) <- offer_many_loop cf r1 ys ;; Ok (r2, o1 ++ o2)).
  Proof.
    revert r; induction xs as [|[x z] xs IH]; intros r; cbn [offer_many_loop app].
    - cbn [bind]. destruct (offer_many_loop cf r ys) as [[r2 o2]|e]; reflexivity.
    - destruct (evict_loop cf (S (List.length (slots r))) r z) as [[r1 o1]|e]; cbn [bind]; auto.
      rewrite IH. destruct (offer_many_loop cf (admit r1 x z) xs) as [[r2 o2]|e]; cbn [bind]; auto.
      destruct (offer_many_loop cf r2 ys) as [[r3 o3]|e]; cbn [bind]; auto.
      rewrite app_assoc. reflexivity.
  Qed.

  Lemma offer_many_core_app (r : rsv) xs ys x :
    0 < cf_capacity cf -> Inv r ->
    (offer_many_core cf r (xs ++ ys) = Ok x <->
     ('(r1, o1) <- offer_many_core cf r xs ;;
      '(r2, o2) <- offer_many_core cf r1 ys ;; Ok (r2, o1 ++ o2)) = Ok x).
  Proof.
    intros Hcap HI. unfold offer_many_core at 1 2.
    destruct (closed r) eqn:Hc; cbn [negb bind]; [split; discriminate|].
    rewrite forallb_app.
    destruct (forallb (fun it => size_ok cf (snd it)) xs) eqn:Ex; cbn [andb bind];
      [|split; discriminate].
    destruct (offer_many_loop cf r xs) as [[r1 o1]|e] eqn:E1; cbn [bind].
    - pose proof E1 as E1'. apply offer_many_loop_spec in E1'; auto.
      unfold offer_many_core. destruct E1' as [_ [Hc1 _]]. rewrite Hc1. cbn [negb].
      destruct (forallb (fun it => size_ok cf (snd it)) ys); [|split; discriminate].
      rewrite offer_many_loop_app, E1. cbn [bind]. reflexivity.
    - split; intros H; [|discriminate].
      destruct (forallb (fun it => size_ok cf (snd it)) ys); [|discriminate].
      rewrite offer_many_loop_app, E1 in H. discriminate.
  Qed.

  (** The zero-sized fast path is offer_many with zero sizes. *)
  Definition with_peaks (r : rsv) (off po : Z) : rsv :=
    {| slots := slots r; slot_sizes := slot_sizes r; resident_bytes := resident_bytes r;
       rng_counter := rng_counter r; offered := off; emitted := emitted r;
       peak_occupancy := po; peak_resident_bytes := peak_resident_bytes r; closed := closed r |}.

  Lemma evict_random_with_peaks (r : rsv) off po :
    evict_random cf (with_peaks r off po) =
    ('(r1, x) <- evict_random cf r ;; Ok (with_peaks r1 off po, x)).
  Proof.
    unfold evict_random. cbn [with_peaks slots rng_counter].
    destruct (random_slot (cf_rng_base cf) (rng_counter r) (zlen (slots r))) as [[i c]|e];
      cbn [bind]; auto.
    unfold evict_slot. cbn [with_peaks slots slot_sizes].
    destruct (py_get (slots r) (Z.to_nat i)); cbn [bind]; auto.
    destruct (py_get (slot_sizes r) (Z.to_nat i)); cbn [bind]; auto.
    destruct (py_pop (slots r)) as [[s1 li]|]; cbn [bind]; auto.
    destruct (py_pop (slot_sizes r)) as [[z1 lz]|]; cbn [bind]; auto.
    destruct (Z.to_nat i <? List.length s1)%nat.
    - destruct (py_set s1 (Z.to_nat i) li); cbn [bind]; auto.
      destruct (py_set z1 (Z.to_nat i) lz); cbn [bind]; auto.
    - cbn [bind]. reflexivity.
  Qed.

  Lemma evict_loop_zero (r : rsv) :
    0 < cf_capacity cf -> Inv r -> forall n, (0 < n)%nat ->
    evict_loop cf (S n) r 0 =
    (if cf_capacity cf <=? zlen (slots r)
     then '(r1, x) <- evict_random cf r ;; Ok (r1, [x]) else Ok (r, [])).
  Proof.
    intros Hcap HI n Hn. cbn [evict_loop].
    assert (Hfit : forall r', Inv r' -> fits cf r' 0 = true).
    { intros r' HI'. unfold fits. destruct (cf_max_bytes cf) as [m|] eqn:Em; auto.
      generalize (inv_bytes HI' Em). lia. }
    rewrite Hfit by auto. cbn [negb]. rewrite orb_false_r.
    destruct (Z.leb_spec (cf_capacity cf) (zlen (slots r))) as [Hle|Hgt].
    - destruct (slots r) as [|a l] eqn:Es; [rewrite zlen_nil in Hle; lia|]. cbn [andb].
      destruct (evict_random cf r) as [[r1 x]|e] eqn:E; cbn [bind]; auto.
      apply evict_random_spec in E; [|apply HI].
      pose proof (evicted_inv HI E) as HI1.
      destruct n as [|n]; [lia|]. cbn [evict_loop]. rewrite Hfit by auto. cbn [negb].
      rewrite orb_false_r.
      assert (zlen (slots r) = 1 + zlen (slots r1)).
      { rewrite (zlen_perm (ev_perm E)), zlen_cons. reflexivity. }
      generalize (inv_cap HI). intros.
      replace (cf_capacity cf <=? zlen (slots r1)) with false by lia.
      rewrite andb_false_r. reflexivity.
    - rewrite andb_false_r. reflexivity.
  Qed.

  Lemma offer_zero_loop_many (r : rsv) items off po :
    0 < cf_capacity cf -> Inv r -> closed r = false ->
    offer_zero_loop cf (with_peaks r off po) items =
    ('(r1, out) <- offer_many_loop cf r (map (fun x => (x, 0)) items) ;;
     Ok (with_peaks r1 off po, out)).
  Proof.
    intros Hcap. revert r; induction items as [|x items IH]; intros r HI Hc;
      cbn [offer_zero_loop map offer_many_loop bind]; auto.
    cbn [with_peaks slots]. fold (with_peaks r off po).
    destruct (List.length (slots r)) as [|n] eqn:En.
    - assert (Es : slots r = []) by (destruct (slots r); [auto|discriminate]).
      assert (El : evict_loop cf 1 r 0 = Ok (r, [])).
      { cbn [evict_loop]. rewrite Es. reflexivity. }
      rewrite El. rewrite Es. rewrite zlen_nil.
      replace (cf_capacity cf <=? 0) with false by lia. cbn [bind].
      assert (Epz : push_zero (with_peaks r off po) x = with_peaks (admit r x 0) off po).
      { unfold push_zero, with_peaks, admit. cbn. f_equal; try lia.
        generalize (inv_peak_bytes HI). lia. }
      rewrite Epz, IH; auto.
      + destruct (offer_many_loop cf (admit r x 0) (map (fun x0 => (x0, 0)) items)) as [[]|]; reflexivity.
      + apply admit_inv; auto.
        * unfold size_ok. destruct (cf_max_bytes cf) as [m|] eqn:Em; auto.
          generalize (inv_bytes HI Em). destruct (slot_sizes r) eqn:Ez.
          -- generalize (inv_sum HI). rewrite Ez. unfold zsum; simpl. lia.
          -- generalize (inv_len HI). rewrite Es, Ez. discriminate.
        * unfold needs_evict. rewrite Es. reflexivity.
    - rewrite evict_loop_zero by (auto; lia).
      destruct (cf_capacity cf <=? zlen (slots r)) eqn:Ecap.
      + rewrite evict_random_with_peaks.
        destruct (evict_random cf r) as [[r1 y]|e] eqn:E; cbn [bind]; auto.
        apply evict_random_spec in E; [|apply HI].
        pose proof (evicted_inv HI E) as HI1.
        assert (Epz : push_zero (with_peaks r1 off po) x = with_peaks (admit r1 x 0) off po).
        { unfold push_zero, with_peaks, admit. cbn. f_equal; try lia.
          generalize (inv_peak_bytes HI1). lia. }
        rewrite Epz, IH; auto.
        * destruct (offer_many_loop cf (admit r1 x 0) (map (fun x0 => (x0, 0)) items)) as [[]|]; reflexivity.
        * assert (Hz : zlen (slots r) = 1 + zlen (slots r1)).
          { rewrite (zlen_perm (ev_perm E)), zlen_cons. reflexivity. }
          generalize (inv_cap HI). intros.
          apply admit_inv; auto.
          -- rewrite (ev_closed E). auto.
          -- unfold size_ok. destruct (cf_max_bytes cf) as [m|] eqn:Em; auto.
             generalize (inv_bytes HI1 Em) (zsum_nonneg (inv_sizes HI1)) (inv_sum HI1). lia.
          -- unfold needs_evict. replace (cf_capacity cf <=? zlen (slots r1)) with false by lia.
             unfold fits. destruct (cf_max_bytes cf) as [m|] eqn:Em;
               [|destruct (slots r1); reflexivity].
             generalize (inv_bytes HI1 Em). intros.
             replace (resident_bytes r1 + 0 <=? m) with true by lia.
             destruct (slots r1); reflexivity.
        * cbn. rewrite (ev_closed E). auto.
      + cbn [bind].
        assert (Epz : push_zero (with_peaks r off po) x = with_peaks (admit r x 0) off po).
        { unfold push_zero, with_peaks, admit. cbn. f_equal; try lia.
          generalize (inv_peak_bytes HI). lia. }
        rewrite Epz, IH; auto.
        * destruct (offer_many_loop cf (admit r x 0) (map (fun x0 => (x0, 0)) items)) as [[]|]; reflexivity.
        * apply admit_inv; auto.
          -- unfold size_ok. destruct (cf_max_bytes cf) as [m|] eqn:Em; auto.
             generalize (inv_bytes HI Em) (zsum_nonneg (inv_sizes HI)) (inv_sum HI). lia.
          -- unfold needs_evict. rewrite Ecap.
             unfold fits. destruct (cf_max_bytes cf) as [m|] eqn:Em;
               [|destruct (slots r); reflexivity].
             generalize (inv_bytes HI Em). intros.
             replace (resident_bytes r + 0 <=? m) with true by lia.
             destruct (slots r); reflexivity.
  Qed.

  (** Occupancy never shrinks over an admitted element. *)
  Lemma offer_many_loop_zero_peak (r : rsv) items r1 out :
    0 < cf_capacity cf -> Inv r -> closed r = false ->
    offer_many_loop cf r (map (fun x => (x, 0)) items) = Ok (r1, out) ->
    peak_occupancy r1 = Z.max (peak_occupancy r) (zlen (slots r1))
    /\ zlen (slots r) <= zlen (slots r1).
  Proof.
    intros Hcap. revert r r1 out; induction items as [|x items IH]; intros r r1 out HI Hc H;
      cbn [map offer_many_loop] in H.
    - inversion H; subst. generalize (inv_peak HI). lia.
    - inv_bind H. destruct v as [r' o1]. inv_bind H. destruct v as [r2 o2]. inversion H; subst.
      assert (Hsz : size_ok cf 0 = true).
      { unfold size_ok. destruct (cf_max_bytes cf) as [m|] eqn:Em; auto.
        generalize (inv_bytes HI Em) (zsum_nonneg (inv_sizes HI)) (inv_sum HI). lia. }
      pose proof Hm as Hm'. apply evict_loop_spec in Hm'; auto.
      destruct Hm' as [HI1 [Hp1 [Ho1 [Hc1 [Hpo1 [Hpb1 [Hn Hr]]]]]]].
      assert (Hlen : zlen (slots r) <= zlen (slots r') + 1).
      { destruct (List.length (slots r)) as [|n] eqn:En.
        - unfold zlen. lia.
        - rewrite evict_loop_zero in Hm by (auto; lia).
          destruct (cf_capacity cf <=? zlen (slots r)).
          + inv_bind Hm. destruct v as [r3 y]. inversion Hm; subst.
            apply evict_random_spec in Hm1; [|apply HI].
            rewrite (zlen_perm (ev_perm Hm1)), zlen_cons. lia.
          + inversion Hm; subst. lia. }
      apply IH in Hm0; auto.
      + cbn in Hm0. rewrite zlen_app in Hm0. change (zlen [x]) with 1 in Hm0. lia.
      + apply admit_inv; auto. congruence.
      + cbn. congruence.
  Qed.

  Lemma offer_zero_core_many (r : rsv) items :
    0 < cf_capacity cf -> Inv r ->
    offer_zero_core cf r items = offer_many_core cf r (map (fun x => (x, 0)) items).
  Proof.
    intros Hcap HI. unfold offer_zero_core, offer_many_core.
    destruct (closed r) eqn:Hc; cbn [negb]; auto.
    assert (Hsz : forallb (fun it => size_ok cf (snd it)) (map (fun x : A => (x, 0)) items) = true).
    { apply forallb_forall. intros it Hin. apply in_map_iff in Hin as [x [<- _]]. cbn [snd].
      unfold size_ok. destruct (cf_max_bytes cf) as [m|] eqn:Em; auto.
      generalize (inv_bytes HI Em) (zsum_nonneg (inv_sizes HI)) (inv_sum HI). lia. }
    rewrite Hsz. destruct items as [|x items]; auto.
    assert (Hr : r = with_peaks r (offered r) (peak_occupancy r)) by (destruct r; reflexivity).
    rewrite Hr at 1. rewrite offer_zero_loop_many by auto.
    destruct (offer_many_loop cf r (map (fun x0 => (x0, 0)) (x :: items))) as [[r1 out]|e] eqn:E;
      cbn [bind]; auto.
    pose proof E as E1. apply offer_many_loop_zero_peak in E1; auto.
    pose proof E as E2. apply offer_many_loop_spec in E2; auto.
    destruct E2 as [_ [_ [_ [Ho _]]]].
    do 2 f_equal. unfold with_peaks; cbn. destruct r1; cbn in *. f_equal.
    - rewrite Ho. f_equal. unfold zlen. cbn [List.length map]. rewrite map_length. reflexivity.
    - lia.
  Qed.

  Lemma drain_core_spec header hash64 (r : rsv) r1 out :
    Inv r -> drain_core cf header hash64 r = Ok (r1, out) ->
    Inv r1 /\ closed r1 = true /\ slots r1 = [] /\ Permutation (slots r) out
    /\ offered r1 = offered r /\ emitted r1 = emitted r + zlen out
    /\ peak_occupancy r1 = peak_occupancy r /\ peak_resident_bytes r1 = peak_resident_bytes r.
  Proof.
    intros HI H. unfold drain_core in H. destruct (closed r) eqn:Hc.
    - inversion H; subst. pose proof (inv_closed HI Hc) as Es. rewrite Es, zlen_nil.
      conj; auto; try lia; apply HI.
    - inv_bind H. inv_bind H. inversion H; subst. clear H.
      apply deterministic_permutation_perm in Hm.
      assert (Hp : Permutation (slots r) out) by (eapply mapM_get_perm; eauto).
      pose proof (zlen_perm Hp) as Hz.
      split; [|conj; auto].
      destruct HI as [I1 I2 I3 I4 I5 I6 I7 I8 I9 I10 I11].
      pose proof (zlen_nonneg (slots r)).
      pose proof (zsum_nonneg I3).
      constructor; cbn; rewrite ?zlen_nil; auto; try lia.
  Qed.

  (** * The public object *)
  (** The cached snapshot, if any, is current. *)
  Definition OInv (o : reservoir A) : Prop :=
    Inv (core o) /\ forall s, cache o = Some s -> s = snapshot cf (core o).

  Lemma OInv_init : 0 < cf_capacity cf -> (forall m, cf_max_bytes cf = Some m -> 0 < m) ->
    OInv (reservoir_init A).
  Proof.
    intros Hcap Hmb. split; [|discriminate].
    constructor; cbn; auto; try (unfold zlen; simpl; unfold two63; lia).
  Qed.

  Lemma offer_spec (o : reservoir A) x z :
    offer cf o x z =
    ('(r, out) <- offer_many_core cf (core o) [(x, z)] ;; Ok ({| core := r; cache := None |}, out)).
  Proof. unfold offer. rewrite offer_core_many. reflexivity. Qed.

  Lemma apply_op_spec header hash64 (o : reservoir A) p o1 out :
    0 < cf_capacity cf -> OInv o -> apply_op cf header hash64 o p = Ok (o1, out) ->
    OInv o1
    /\ Permutation (slots (core o) ++ items_of p) (out ++ slots (core o1))
    /\ offered (core o1) = offered (core o) + zlen (items_of p)
    /\ peak_occupancy (core o) <= peak_occupancy (core o1)
    /\ peak_resident_bytes (core o) <= peak_resident_bytes (core o1)
    /\ (closed (core o) = true -> items_of p = [] /\ closed (core o1) = true)
    /\ (forall m, cf_max_bytes cf = Some m -> peak_resident_bytes (core o) <= m ->
          peak_resident_bytes (core o1) <= m).
  Proof.
    intros Hcap [HI HC] H. destruct p as [x z|xs|xs| |]; cbn [apply_op items_of] in *.
    - rewrite offer_spec in H. inv_bind H. destruct v as [r1 out1]. inversion H; subst.
      apply offer_many_core_spec in Hm; auto. destruct Hm as [H1 [H2 [H3 [H4 [H5 [H6 [H7 H7k]]]]]]].
      cbn [core]. split; [split; [auto|discriminate]|]. cbn [map fst] in H4.
      split; auto. split; [rewrite H5; reflexivity|]. split; [lia|]. split; [lia|].
      split; [intros; congruence|auto].
    - unfold offer_many in H. inv_bind H. destruct v as [r1 out1]. inversion H; subst.
      pose proof Hm as Hm0.
      apply offer_many_core_spec in Hm; auto. destruct Hm as [H1 [H2 [H3 [H4 [H5 [H6 [H7 H7k]]]]]]].
      cbn [core]. split.
      { split; [auto|]. cbn. destruct xs; [|discriminate]. intros s Hs. apply HC in Hs.
        unfold offer_many_core in Hm0. rewrite H2 in Hm0. simpl in Hm0. inversion Hm0; subst; auto. }
      split; auto. split; [rewrite H5; f_equal; unfold zlen; rewrite map_length; reflexivity|].
      split; [lia|]. split; [lia|]. split; [intros; congruence|auto].
    - unfold offer_zero_sized in H. rewrite offer_zero_core_many in H by auto.
      inv_bind H. destruct v as [r1 out1]. inversion H; subst. pose proof Hm as Hm0.
      apply offer_many_core_spec in Hm; auto. destruct Hm as [H1 [H2 [H3 [H4 [H5 [H6 [H7 H7k]]]]]]].
      cbn [core]. split.
      { split; [auto|]. cbn. destruct xs; [|discriminate]. intros s Hs. apply HC in Hs.
        unfold offer_many_core in Hm0. rewrite H2 in Hm0. simpl in Hm0. inversion Hm0; subst; auto. }
      assert (Em : map fst (map (fun x : A => (x, 0)) xs) = xs).
      { rewrite map_map. cbn. apply map_id. }
      rewrite Em in H4. split; auto.
      split; [rewrite H5; f_equal; unfold zlen; rewrite map_length; reflexivity|].
      split; [lia|]. split; [lia|]. split; [intros; congruence|auto].
    - unfold drain in H. inv_bind H. destruct v as [r1 out1]. inversion H; subst. pose proof Hm as Hm0.
      apply drain_core_spec in Hm; auto. destruct Hm as [H1 [H2 [H3 [H4 [H5 [H6 [H7 H8]]]]]]].
      cbn [core]. split.
      { split; auto. cbn. destruct (closed (core o)) eqn:Ec; [|discriminate].
        intros s Hs. apply HC in Hs. unfold drain_core in Hm0. rewrite Ec in Hm0.
        inversion Hm0; subst; auto. }
      rewrite H3, !app_nil_r. rewrite zlen_nil. conj; auto; lia.
    - inversion H; subst. rewrite app_nil_r. cbn [app]. rewrite zlen_nil.
      assert (Ec : core (fst (state cf o)) = core o) by (unfold state; destruct (cache o); reflexivity).
      rewrite Ec. split; [|conj; auto; lia].
      split; [rewrite Ec; exact HI|].
      unfold state. destruct (cache o) as [s|] eqn:Eo; cbn [fst core cache].
      + intros s' Hs'. rewrite Eo in Hs'. apply HC in Hs'. exact Hs'.
      + intros s' Hs'. inversion Hs'; auto.
  Qed.

  Lemma run_spec header hash64 ops (o : reservoir A) o1 out :
    0 < cf_capacity cf -> OInv o -> run cf header hash64 o ops = Ok (o1, out) ->
    OInv o1
    /\ Permutation (slots (core o) ++ List.concat (map items_of ops)) (out ++ slots (core o1))
    /\ offered (core o1) = offered (core o) + zlen (List.concat (map items_of ops))
    /\ peak_occupancy (core o) <= peak_occupancy (core o1)
    /\ peak_resident_bytes (core o) <= peak_resident_bytes (core o1)
    /\ (forall m, cf_max_bytes cf = Some m -> peak_resident_bytes (core o) <= m ->
          peak_resident_bytes (core o1) <= m).
  Proof.
    intros Hcap. revert o o1 out; induction ops as [|p ops IH]; intros o o1 out HI H; cbn [run] in H.
    - inversion H; subst. cbn. rewrite app_nil_r, zlen_nil. split; [exact HI|conj; auto; lia].
    - inv_bind H. destruct v as [o' out1]. inv_bind H. destruct v as [o'' out2]. inversion H; subst.
      apply apply_op_spec in Hm; auto. destruct Hm as [H1 [H2 [H3 [H4 [H5 [H6 H7]]]]]].
      apply IH in Hm0; auto. destruct Hm0 as [K1 [K2 [K3 [K4 [K5 K6]]]]].
      cbn [map List.concat]. rewrite zlen_app. split; auto. split; [|conj; auto; lia].
      rewrite app_assoc, H2, <- !app_assoc, K2. reflexivity.
  Qed.

  Lemma run_app header hash64 (o : reservoir A) ops1 ops2 :
    run cf header hash64 o (ops1 ++ ops2) =
    ('(o1, out1) <- run cf header hash64 o ops1 ;;
     '(o2, out2) <- run cf header hash64 o1 ops2 ;; Ok (o2, out1 ++ out2)).
  Proof.
    revert o; induction ops1 as [|p ops IH]; intros o; cbn [run app].
    - cbn [bind]. destruct (run cf header hash64 o ops2) as [[]|]; reflexivity.
    - destruct (apply_op cf header hash64 o p) as [[o1 out1]|e]; cbn [bind]; auto.
      rewrite IH. destruct (run cf header hash64 o1 ops) as [[o2 out2]|e]; cbn [bind]; auto.
      destruct (run cf header hash64 o2 ops2) as [[o3 out3]|e]; cbn [bind]; auto.
      rewrite app_assoc. reflexivity.
  Qed.

  (** * Chunk independence *)
  Lemma apply_op_as_many header hash64 (o : reservoir A) p r1 out :
    0 < cf_capacity cf -> OInv o -> closed (core o) = false -> is_drain p = false ->
    ((exists o1, apply_op cf header hash64 o p = Ok (o1, out) /\ core o1 = r1)
     <-> offer_many_core cf (core o) (sized_items p) = Ok (r1, out)).
  Proof.
    intros Hcap [HI HC] Hcl Hd. destruct p as [x z|xs|xs| |]; cbn [apply_op sized_items]; try discriminate.
    - rewrite offer_spec. destruct (offer_many_core cf (core o) [(x, z)]) as [[r out1]|e]; cbn [bind].
      + split; [intros [o1 [H1 H2]]; inversion H1; subst; reflexivity|].
        intros H; inversion H; subst. eexists; split; reflexivity.
      + split; [intros [o1 [H1 H2]]|intros H]; discriminate.
    - unfold offer_many. destruct (offer_many_core cf (core o) xs) as [[r out1]|e]; cbn [bind].
      + split; [intros [o1 [H1 H2]]; inversion H1; subst; reflexivity|].
        intros H; inversion H; subst. eexists; split; reflexivity.
      + split; [intros [o1 [H1 H2]]|intros H]; discriminate.
    - unfold offer_zero_sized. rewrite offer_zero_core_many by auto.
      destruct (offer_many_core cf (core o) (map (fun x => (x, 0)) xs)) as [[r out1]|e]; cbn [bind].
      + split; [intros [o1 [H1 H2]]; inversion H1; subst; reflexivity|].
        intros H; inversion H; subst. eexists; split; reflexivity.
      + split; [intros [o1 [H1 H2]]|intros H]; discriminate.
    - unfold offer_many_core. rewrite Hcl. cbn.
      assert (Ec : core (fst (state cf o)) = core o) by (unfold state; destruct (cache o); reflexivity).
      split.
      + intros [o1 [H1 H2]]. inversion H1; subst. congruence.
      + intros H; inversion H; subst. eexists; split; [reflexivity|auto].
  Qed.

  Lemma run_as_many header hash64 ops (o : reservoir A) r1 out :
    0 < cf_capacity cf -> OInv o -> closed (core o) = false ->
    forallb (fun p => negb (is_drain p)) ops = true ->
    ((exists o1, run cf header hash64 o ops = Ok (o1, out) /\ core o1 = r1)
     <-> offer_many_core cf (core o) (List.concat (map sized_items ops)) = Ok (r1, out)).
  Proof.
    intros Hcap. revert o r1 out; induction ops as [|p ops IH]; intros o r1 out HI Hcl Hd.
    - cbn [run map List.concat]. unfold offer_many_core. rewrite Hcl. cbn.
      split; [intros [o1 [H1 H2]]|intros H]; [inversion H1; subst; auto|].
      inversion H; subst. eexists; split; reflexivity.
    - cbn [forallb] in Hd. apply andb_true_iff in Hd as [Hd1 Hd2].
      assert (is_drain p = false) as Hd1' by (destruct (is_drain p); [discriminate|auto]).
      cbn [map List.concat]. rewrite offer_many_core_app by (auto; apply HI). cbn [run].
      split.
      + intros [o1 [H Ho]]. inv_bind H. destruct v as [o' out1]. inv_bind H. destruct v as [o'' out2].
        inversion H; subst o'' out.
        assert (E1 : offer_many_core cf (core o) (sized_items p) = Ok (core o', out1)).
        { apply (apply_op_as_many header hash64); auto. exists o'; auto. }
        rewrite E1. cbn [bind].
        pose proof E1 as E1'. apply offer_many_core_spec in E1'; auto; [|apply HI].
        apply apply_op_spec in Hm; auto. destruct Hm as [HI' _]. destruct E1' as [_ [_ [Hcl' _]]].
        assert (E2 : offer_many_core cf (core o') (List.concat (map sized_items ops)) = Ok (r1, out2)).
        { apply IH; auto. exists o1; auto. }
        rewrite E2. reflexivity.
      + intros H. inv_bind H. destruct v as [r' out1]. inv_bind H. destruct v as [r'' out2].
        inversion H; subst.
        pose proof Hm as E1'. apply offer_many_core_spec in E1'; auto; [|apply HI].
        destruct E1' as [_ [_ [Hcl' _]]].
        apply (apply_op_as_many header hash64) in Hm; auto. destruct Hm as [o' [H1 H2]].
        pose proof H1 as H1'. apply apply_op_spec in H1'; auto. destruct H1' as [HI' _]. subst r'.
        apply (IH o' r1 out2) in Hm0; auto. destruct Hm0 as [o1 [H3 H4]].
        exists o1. rewrite H1. cbn [bind]. rewrite H3. cbn [bind]. auto.
  Qed.

  Lemma state_snapshot (o : reservoir A) : OInv o -> snd (state cf o) = snapshot cf (core o).
  Proof.
    intros [_ HC]. unfold state. destruct (cache o) as [s|] eqn:E; cbn [snd]; auto.
  Qed.

  Lemma chunk_independence header hash64 ops1 ops2 (o : reservoir A) o1 out :
    0 < cf_capacity cf -> OInv o -> closed (core o) = false ->
    forallb (fun p => negb (is_drain p)) ops1 = true ->
    forallb (fun p => negb (is_drain p)) ops2 = true ->
    List.concat (map sized_items ops1) = List.concat (map sized_items ops2) ->
    run cf header hash64 o ops1 = Ok (o1, out) ->
    exists o2, run cf header hash64 o ops2 = Ok (o2, out)
               /\ snd (state cf o2) = snd (state cf o1).
  Proof.
    intros Hcap HI Hcl Hd1 Hd2 E H.
    assert (H' : exists o1', run cf header hash64 o ops1 = Ok (o1', out) /\ core o1' = core o1)
      by (exists o1; auto).
    apply run_as_many in H'; auto. rewrite E in H'.
    apply (run_as_many header hash64) in H'; auto. destruct H' as [o2 [H1 H2]].
    exists o2. split; auto.
    rewrite !state_snapshot, H2; auto.
    - apply run_spec in H; auto. apply H.
    - apply run_spec in H1; auto. apply H1.
  Qed.

  (** * Snapshots *)
  Definition same_outcome (a b : res (reservoir A * list A)) : Prop :=
    match a, b with
    | Ok (o1, x), Ok (o2, y) => core o1 = core o2 /\ x = y
    | Err e, Err e' => e = e'
    | _, _ => False
    end.

  Lemma apply_op_core header hash64 (o o' : reservoir A) p :
    core o = core o' -> same_outcome (apply_op cf header hash64 o p) (apply_op cf header hash64 o' p).
  Proof.
    intros E. destruct p as [x z|xs|xs| |]; cbn [apply_op].
    - unfold offer. rewrite <- E. destruct (offer_core cf (core o) x z) as [[]|]; cbn; auto.
    - unfold offer_many. rewrite <- E. destruct (offer_many_core cf (core o) xs) as [[]|]; cbn; auto.
    - unfold offer_zero_sized. rewrite <- E. destruct (offer_zero_core cf (core o) xs) as [[]|]; cbn; auto.
    - unfold drain. rewrite <- E. destruct (drain_core cf header hash64 (core o)) as [[]|]; cbn; auto.
    - cbn. split; auto. unfold state. destruct (cache o), (cache o'); cbn; auto.
  Qed.

  Lemma run_core header hash64 ops (o o' : reservoir A) :
    core o = core o' -> same_outcome (run cf header hash64 o ops) (run cf header hash64 o' ops).
  Proof.
    revert o o'; induction ops as [|p ops IH]; intros o o' E; cbn [run].
    - cbn; auto.
    - generalize (apply_op_core header hash64 _ _ p E).
      destruct (apply_op cf header hash64 o p) as [[o1 x]|e], (apply_op cf header hash64 o' p) as [[o2 y]|e'];
        cbn [same_outcome bind]; try contradiction; auto.
      intros [E1 ->]. specialize (IH o1 o2 E1).
      destruct (run cf header hash64 o1 ops) as [[o3 u]|e], (run cf header hash64 o2 ops) as [[o4 w]|e'];
        cbn [same_outcome bind] in *; try contradiction; auto.
      destruct IH as [E2 ->]. auto.
  Qed.

  Lemma restore_state (o : reservoir A) :
    OInv o -> rng_counter (core o) < two63 ->
    exists o', restore cf (snd (state cf o)) = Ok o' /\ core o' = core o /\ OInv o'.
  Proof.
    intros HO Hr. rewrite state_snapshot by auto. destruct HO as [HI HC].
    destruct HI as [I1 I2 I3 I4 I5 I6 I7 I8 I9 I10 I11].
    unfold restore, snapshot. cbn -[key_eqb zsum zlen forallb Nat.eqb two63 andb negb].
    change (String.eqb RESERVOIR_ALGORITHM RESERVOIR_ALGORITHM) with true. cbv iota.
    rewrite !Z.eqb_refl, key_eqb_refl. cbn [andb].
    assert (Emb : match cf_max_bytes cf with
          | Some a => match cf_max_bytes cf with Some b => a =? b | None => false end
          | None => match cf_max_bytes cf with Some _ => false | None => true end end = true).
    { destruct (cf_max_bytes cf); auto. lia. }
    rewrite Emb. rewrite I1, Nat.eqb_refl.
    replace (zlen (slots (core o)) <=? cf_capacity cf) with true by lia.
    replace (forallb (fun z => 0 <=? z) (slot_sizes (core o))) with true.
    2:{ symmetry. apply forallb_forall. intros z Hz. rewrite Forall_forall in I3. apply I3 in Hz. lia. }
    rewrite I4, Z.eqb_refl.
    pose proof (zsum_nonneg I3). pose proof (zlen_nonneg (slots (core o))).
    replace ((0 <=? resident_bytes (core o)) && (0 <=? rng_counter (core o)) &&
       (0 <=? offered (core o)) && (0 <=? emitted (core o)) &&
       (0 <=? peak_occupancy (core o)) && (0 <=? peak_resident_bytes (core o))) with true by lia.
    assert (Emb2 : match cf_max_bytes cf with Some m => resident_bytes (core o) <=? m | None => true end = true).
    { destruct (cf_max_bytes cf) as [m|] eqn:Em; auto. specialize (I5 m eq_refl). lia. }
    rewrite Emb2. rewrite I6, Z.eqb_refl.
    assert (Ecl : negb (closed (core o) && match slots (core o) with [] => false | _ :: _ => true end) = true).
    { destruct (closed (core o)) eqn:Ec; auto. rewrite I8 by auto. reflexivity. }
    rewrite Ecl.
    replace ((0 <=? rng_counter (core o)) && (rng_counter (core o) <? two63)) with true by lia.
    replace (zlen (slots (core o)) <=? peak_occupancy (core o)) with true by lia.
    replace (peak_occupancy (core o) <=? cf_capacity cf) with true by lia.
    replace (resident_bytes (core o) <=? peak_resident_bytes (core o)) with true by lia.
    eexists; split; [reflexivity|].
    assert (Ecore : core o = {| slots := slots (core o); slot_sizes := slot_sizes (core o);
      resident_bytes := resident_bytes (core o); rng_counter := rng_counter (core o);
      offered := emitted (core o) + zlen (slots (core o)); emitted := emitted (core o);
      peak_occupancy := peak_occupancy (core o);
      peak_resident_bytes := peak_resident_bytes (core o); closed := closed (core o) |})
      by (rewrite <- I6; destruct (core o); reflexivity).
    cbn [core]. rewrite <- Ecore. split; auto. split.
    - cbn [core]. constructor; auto.
    - cbn [core cache]. intros s Hs. inversion Hs. unfold snapshot. rewrite I6. reflexivity.
  Qed.

  (** Everything [restore] accepts. *)
  Lemma restore_sound (s : rstate A) o :
    restore cf s = Ok o ->
    Inv (core o) /\ rng_counter (core o) < two63
    /\ st_algorithm s = RESERVOIR_ALGORITHM
    /\ st_seed s = cf_seed cf /\ st_epoch s = cf_epoch cf /\ st_capacity s = cf_capacity cf
    /\ st_max_bytes s = cf_max_bytes cf
    /\ key_eqb (KTuple (st_stream_key s)) (KTuple (cf_stream_key cf)) = true
    /\ slots (core o) = st_slots s /\ slot_sizes (core o) = st_slot_sizes s
    /\ offered (core o) = st_offered s /\ emitted (core o) = st_emitted s
    /\ rng_counter (core o) = st_rng_counter s /\ closed (core o) = st_closed s.
  Proof.
    unfold restore. intros H.
    apply guard_Ok in H as [G1 H]. apply guard_Ok in H as [G2 H]. apply guard_Ok in H as [G3 H].
    apply guard_Ok in H as [G4 H]. apply guard_Ok in H as [G5 H]. apply guard_Ok in H as [G6 H].
    apply guard_Ok in H as [G7 H]. apply guard_Ok in H as [G8 H]. apply guard_Ok in H as [G9 H].
    apply guard_Ok in H as [G10 H]. apply guard_Ok in H as [G11 H]. apply guard_Ok in H as [G12 H].
    apply guard_Ok in H as [G13 H]. apply guard_Ok in H as [G14 H].
    inversion H; subst o. clear H. cbn [core slots slot_sizes offered emitted rng_counter closed].
    apply andb_true_iff in G2 as [G2 G2e]. apply andb_true_iff in G2 as [G2 G2d].
    apply andb_true_iff in G2 as [G2 G2c]. apply andb_true_iff in G2 as [G2a G2b].
    apply String.eqb_eq in G1. apply Nat.eqb_eq in G3.
    split; [|conj; auto; try lia].
    - constructor; cbn; auto; try lia.
      + apply Forall_forall. intros z Hz. rewrite forallb_forall in G5. apply G5 in Hz. lia.
      + unfold zsum in G6. lia.
      + intros m Hm. rewrite Hm in G8. lia.
      + intros Hc. rewrite Hc in G10. destruct (st_slots s); auto. discriminate.
    - destruct (st_max_bytes s), (cf_max_bytes cf); try discriminate; auto. f_equal. lia.
  Qed.

  (** * Which errors can occur *)
  Lemma reject_loop_errors n raw c e :
    (forall k, exists v, raw k = Ok v) -> reject_loop n raw c = Err e -> e = ValueError.
  Proof.
    intros Hraw. assert (Hf := @reject_loop_fuel n raw c). unfold reject_loop in *.
    rewrite loop_pos_nat in *. intros U.
    assert (F : match loop_nat (Pos.to_nat loop_bound) (reject_step n raw) c with
                | inl _ => Err OutOfFuel | inr r => r end <> Err OutOfFuel).
    { apply Hf. intros k. destruct (Hraw k) as [v ->]. discriminate. }
    clear Hf. revert c U F. generalize (Pos.to_nat loop_bound). intros m.
    induction m as [|m IHm]; intros c U F; cbn [loop_nat] in U, F.
    - congruence.
    - generalize (reject_step_spec n raw c).
      destruct (reject_step n raw c) as [s|r0].
      + intros _. apply (IHm s); auto.
      + subst r0. intros [[-> _]|Hr]; [reflexivity|]. destruct (Hraw c) as [v Hv]. congruence.
  Qed.

  Lemma evict_slot_ok (r : rsv) c i :
    List.length (slots r) = List.length (slot_sizes r) -> (i < List.length (slots r))%nat ->
    exists r1 x, evict_slot r c i = Ok (r1, x).
  Proof.
    intros HL Hi. unfold evict_slot.
    destruct (nth_error (slots r) i) as [x|] eqn:E1; [|apply nth_error_None in E1; lia].
    destruct (nth_error (slot_sizes r) i) as [z|] eqn:E2; [|apply nth_error_None in E2; lia].
    unfold py_get. rewrite E1, E2. cbn [bind].
    destruct (@py_pop_nonempty _ (slots r)) as [s1 [l1 P1]]; [destruct (slots r); cbn in *; [lia|discriminate]|].
    destruct (@py_pop_nonempty _ (slot_sizes r)) as [z1 [l2 P2]]; [destruct (slot_sizes r); cbn in *; [lia|discriminate]|].
    rewrite P1, P2. cbn [bind]. apply py_pop_spec in P1. apply py_pop_spec in P2.
    assert (List.length s1 = List.length z1) as HL1.
    { rewrite P1, P2, !app_length in HL. cbn in HL. lia. }
    destruct (Nat.ltb_spec i (List.length s1)).
    - unfold py_set. rewrite <- HL1. destruct (Nat.ltb_spec i (List.length s1)); [|lia]. cbn [bind]. eauto.
    - cbn [bind]. eauto.
  Qed.

  Lemma evict_random_errors (r : rsv) e :
    List.length (slots r) = List.length (slot_sizes r) -> slots r <> [] ->
    evict_random cf r = Err e -> e = ValueError.
  Proof.
    intros HL Hne H. unfold evict_random in H.
    destruct (random_slot (cf_rng_base cf) (rng_counter r) (zlen (slots r))) as [[i c]|e0] eqn:R; cbn [bind] in H.
    - unfold random_slot in R. apply reject_loop_Ok in R as [_ [_ [[v [_ [_ ->]]] _]]].
      assert (0 < zlen (slots r)) by (unfold zlen; destruct (slots r); [congruence|cbn [List.length]; lia]).
      assert (0 <= v mod zlen (slots r) < zlen (slots r)) by (apply Z.mod_pos_bound; auto).
      destruct (@evict_slot_ok r c (Z.to_nat (v mod zlen (slots r))) HL) as [r1 [x E]].
      + unfold zlen in *. lia.
      + congruence.
    - inversion H; subst. unfold random_slot in R. eapply reject_loop_errors; [|exact R]. cbn; eauto.
  Qed.

  Lemma evict_loop_errors fuel (r : rsv) size e :
    List.length (slots r) = List.length (slot_sizes r) ->
    (List.length (slots r) < fuel)%nat -> evict_loop cf fuel r size = Err e -> e = ValueError.
  Proof.
    revert r; induction fuel as [|n IH]; intros r HL Hf H; [lia|].
    cbn [evict_loop] in H. fold (needs_evict r size) in H.
    destruct (needs_evict r size) eqn:En; [|discriminate].
    destruct (evict_random cf r) as [[r1 x]|e0] eqn:E; cbn [bind] in H.
    - apply evict_random_spec in E; auto.
      assert (List.length (slots r1) < n)%nat as Hf1.
      { generalize (Permutation_length (ev_perm E)). simpl. lia. }
      destruct (evict_loop cf n r1 size) as [[r2 xs]|e1] eqn:E1; cbn [bind] in H; [discriminate|].
      inversion H; subst. apply (IH r1 (ev_len E) Hf1 E1).
    - inversion H; subst. eapply evict_random_errors; eauto.
      unfold needs_evict in En. destruct (slots r); [discriminate|discriminate].
  Qed.

  Lemma offer_many_core_errors (r : rsv) items e :
    0 < cf_capacity cf -> Inv r -> offer_many_core cf r items = Err e ->
    (closed r = true /\ e = RuntimeError) \/ (closed r = false /\ e = ValueError).
  Proof.
    intros Hcap HI H. unfold offer_many_core in H. destruct (closed r) eqn:Hc; cbn [negb] in H.
    - inversion H; auto.
    - right. split; auto. destruct (forallb (fun it => size_ok cf (snd it)) items) eqn:Es; [|inversion H; auto].
      revert r HI Hc H. induction items as [|[x z] items IH]; intros r HI Hc H; cbn [offer_many_loop] in H;
        [discriminate|].
      cbn [forallb snd] in Es. apply andb_true_iff in Es as [Es1 Es2].
      destruct (evict_loop cf (S (List.length (slots r))) r z) as [[r1 o1]|e1] eqn:E1; cbn [bind] in H.
      + apply evict_loop_spec in E1; auto. destruct E1 as [HI1 [_ [_ [Hc1 [_ [_ [Hn _]]]]]]].
        destruct (offer_many_loop cf (admit r1 x z) items) as [[r2 o2]|e2] eqn:E2; cbn [bind] in H; [discriminate|].
        inversion H; subst. apply (IH Es2 (admit r1 x z)); auto.
        * apply admit_inv; auto. congruence.
        * cbn. congruence.
      + inversion H; subst. eapply evict_loop_errors; [| |exact E1]; [apply HI|lia].
  Qed.
End Item.

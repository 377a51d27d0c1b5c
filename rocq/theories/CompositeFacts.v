(** Facts about the composite source (C10). *)
From Verif Require Import Base BaseFacts Rng Source Composite CompositeSpec WeightedFacts.
Set Implicit Arguments.

Section SpecFacts.
  Variable E : Type.
  Implicit Types rems : list (list E).

  Lemma nth_upd_list A (l : list A) i j x d : (i < List.length l)%nat ->
    nth j (upd l i x) d = if (j =? i)%nat then x else nth j l d.
  Proof.
    revert i j; induction l as [|a l IH]; intros i j Hi; cbn in Hi; [lia|].
    destruct i as [|i], j as [|j]; cbn [upd nth Nat.eqb]; auto. apply IH. lia.
  Qed.

  Lemma deal_length sched : forall rems, List.length (snd (deal sched rems)) = List.length rems.
  Proof.
    induction sched as [|c t IH]; intros rems; cbn [deal]; auto.
    destruct (nth c rems []) as [|x r]; auto.
    specialize (IH (upd rems c r)). destruct (deal t (upd rems c r)) as [o rs]. cbn in *.
    rewrite IH. apply upd_length.
  Qed.

  Lemma from_child_app i (a b : list (nat * E)) : from_child i (a ++ b) = from_child i a ++ from_child i b.
  Proof. unfold from_child. rewrite filter_app, map_app. reflexivity. Qed.

  Lemma deal_child sched : forall rems i, (i < List.length rems)%nat ->
    from_child i (fst (deal sched rems)) = firstn (count sched i) (nth i rems [])
    /\ nth i (snd (deal sched rems)) [] = skipn (count sched i) (nth i rems []).
  Proof.
    induction sched as [|c t IH]; intros rems i Hi; cbn [deal count_occ]; [auto|].
    destruct (nth c rems []) as [|x r] eqn:Ec.
    - destruct (IH rems i Hi) as [H1 H2]. rewrite H1, H2.
      destruct (Nat.eq_dec c i) as [->|]; [|auto]. rewrite Ec, !firstn_nil, !skipn_nil. auto.
    - assert (Hc : (c < List.length rems)%nat).
      { destruct (Nat.ltb_spec c (List.length rems)); auto. rewrite nth_overflow in Ec by lia. discriminate. }
      specialize (IH (upd rems c r) i). rewrite upd_length in IH. specialize (IH Hi).
      rewrite nth_upd_list in IH by auto.
      destruct (deal t (upd rems c r)) as [o rs]. cbn [fst snd] in *. destruct IH as [H1 H2].
      unfold from_child in *. cbn [filter fst].
      destruct (Nat.eq_dec c i) as [->|Hn].
      + rewrite Nat.eqb_refl in *. rewrite Ec. cbn [map snd firstn skipn]. rewrite H1. auto.
      + replace (i =? c)%nat with false in * by lia. replace (c =? i)%nat with false by lia. auto.
  Qed.

  Lemma rounds_length sched n : forall rems, List.length (snd (rounds n sched rems)) = List.length rems.
  Proof.
    induction n as [|n IH]; intros rems; cbn [rounds]; auto.
    pose proof (deal_length sched rems) as Hd. destruct (deal sched rems) as [o rs].
    specialize (IH rs). destruct (rounds n sched rs) as [o2 rs2]. cbn in *. lia.
  Qed.

  Lemma rounds_child sched n : forall rems i, (i < List.length rems)%nat ->
    from_child i (fst (rounds n sched rems)) = firstn (n * count sched i) (nth i rems [])
    /\ nth i (snd (rounds n sched rems)) [] = skipn (n * count sched i) (nth i rems []).
  Proof.
    induction n as [|n IH]; intros rems i Hi; cbn [rounds]; [auto|].
    pose proof (deal_length sched rems) as Hl. pose proof (deal_child sched rems Hi) as [H1 H2].
    destruct (deal sched rems) as [o rs]. cbn [fst snd] in *.
    specialize (IH rs i). rewrite Hl in IH. specialize (IH Hi).
    destruct (rounds n sched rs) as [o2 rs2]. cbn [fst snd] in *.
    rewrite from_child_app, H1. destruct IH as [-> ->]. rewrite H2.
    cbn [Nat.mul]. set (k := count sched i). set (l := nth i rems []). split.
    - rewrite <- (firstn_skipn k l) at 3. rewrite firstn_app.
      rewrite firstn_firstn. rewrite firstn_length.
      destruct (Nat.le_gt_cases k (List.length l)) as [Hk|Hk].
      + rewrite Nat.min_r by lia. f_equal. f_equal. lia.
      + rewrite (skipn_all2 l) by lia. rewrite !firstn_nil, !app_nil_r. f_equal. lia.
    - rewrite skipn_skipn. f_equal. lia.
  Qed.

  Lemma rounds_add sched a b rems :
    rounds (a + b) sched rems =
    (fst (rounds a sched rems) ++ fst (rounds b sched (snd (rounds a sched rems))),
     snd (rounds b sched (snd (rounds a sched rems)))).
  Proof.
    revert rems; induction a as [|a IH]; intros rems; cbn [rounds Nat.add].
    - cbn [fst snd app]. destruct (rounds b sched rems); reflexivity.
    - destruct (deal sched rems) as [o rs]. rewrite IH.
      destruct (rounds a sched rs) as [o2 rs2]. cbn [fst snd].
      destruct (rounds b sched rs2) as [o3 rs3]. cbn [fst snd]. rewrite app_assoc. reflexivity.
  Qed.

  Lemma total_ge rems : forall i, (List.length (nth i rems []) <= total_records rems)%nat.
  Proof.
    induction rems as [|r t IH]; intros [|i]; cbn; try lia.
    specialize (IH i). unfold total_records in IH. lia.
  Qed.

  Lemma deal_empty sched rems : (forall i, nth i rems [] = []) -> deal sched rems = ([], rems).
  Proof. intros H. induction sched as [|c t IH]; cbn [deal]; auto. rewrite H. auto. Qed.
  Lemma rounds_empty sched n rems : (forall i, nth i rems [] = []) -> rounds n sched rems = ([], rems).
  Proof. intros H. induction n as [|n IH]; cbn [rounds]; auto. rewrite deal_empty, IH by auto. reflexivity. Qed.

  (** Every child appears in the schedule. *)
  Definition covers (sched : list nat) (n : nat) := forall i, (i < n)%nat -> (1 <= count sched i)%nat.

  Lemma rounds_all_empty sched n rems : covers sched (List.length rems) ->
    (total_records rems <= n)%nat -> forall i, nth i (snd (rounds n sched rems)) [] = [].
  Proof.
    intros Hc Hn i. destruct (Nat.ltb_spec i (List.length rems)) as [Hi|Hi].
    - destruct (rounds_child sched n rems Hi) as [_ ->]. apply skipn_all2.
      specialize (Hc i Hi). pose proof (total_ge rems i). nia.
    - apply nth_overflow. rewrite rounds_length. lia.
  Qed.

  Lemma rounds_stable sched n rems : covers sched (List.length rems) ->
    (total_records rems <= n)%nat ->
    fst (rounds n sched rems) = fst (rounds (total_records rems) sched rems).
  Proof.
    intros Hc Hn. replace n with (total_records rems + (n - total_records rems))%nat by lia.
    rewrite rounds_add. cbn [fst].
    rewrite (@rounds_empty sched (n - total_records rems) (snd (rounds (total_records rems) sched rems))).
    - cbn [fst]. apply app_nil_r.
    - apply rounds_all_empty; auto.
  Qed.

  Lemma total_deal sched rems : (total_records (snd (deal sched rems)) <= total_records rems)%nat.
  Proof.
    revert rems; induction sched as [|c t IH]; intros rems; cbn [deal]; auto.
    destruct (nth c rems []) as [|x r] eqn:Ec; auto.
    specialize (IH (upd rems c r)). destruct (deal t (upd rems c r)) as [o rs]. cbn [snd] in *.
    assert (total_records (upd rems c r) <= total_records rems)%nat; [|lia].
    clear - Ec. revert c Ec. induction rems as [|a l IHl]; intros [|c] Ec; cbn in *; try lia.
    - subst. cbn. lia.
    - apply IHl in Ec. unfold total_records in Ec. lia.
  Qed.
  Lemma total_rounds sched n rems : (total_records (snd (rounds n sched rems)) <= total_records rems)%nat.
  Proof.
    revert rems; induction n as [|n IH]; intros rems; cbn [rounds]; auto.
    pose proof (total_deal sched rems) as H. destruct (deal sched rems) as [o rs].
    specialize (IH rs). destruct (rounds n sched rs) as [o2 rs2]. cbn [fst snd] in *. lia.
  Qed.

  (** Unsynchronised: dealing [k] rounds peels them off the stream. *)
  Lemma mixed_free_split ws sched k rems : covers sched (List.length rems) ->
    mixed_stream false ws sched rems
    = fst (rounds k sched rems) ++ mixed_stream false ws sched (snd (rounds k sched rems)).
  Proof.
    intros Hc. unfold mixed_stream.
    rewrite <- (@rounds_stable sched (k + total_records rems)) by (auto; lia).
    rewrite rounds_add. cbn [fst]. f_equal. apply rounds_stable.
    - rewrite rounds_length. exact Hc.
    - apply total_rounds.
  Qed.

  (** complete_cycles as a lower bound characterisation. *)
  Lemma complete_cycles_ge ws rems k : ws <> [] -> List.length ws = List.length rems ->
    Forall (fun w => 0 < w) ws ->
    (k <= complete_cycles ws rems)%nat <->
    forall i w, nth_error ws i = Some w -> (k * Z.to_nat w <= List.length (nth i rems []))%nat.
  Proof.
    revert rems; induction ws as [|w ws IH]; intros rems Hne Hl Hw; [congruence|].
    destruct rems as [|r rems]; [discriminate|]. inversion Hw as [|? ? Hw1 Hw2]; subst.
    assert (Hq : (k <= Z.to_nat (zlen r / w))%nat <-> (k * Z.to_nat w <= List.length r)%nat).
    { unfold zlen.
      assert (0 <= Z.of_nat (List.length r) / w) by (apply Z.div_pos; lia).
      split; intros H'.
      - assert (Z.of_nat k <= Z.of_nat (List.length r) / w) by lia.
        assert (w * (Z.of_nat (List.length r) / w) <= Z.of_nat (List.length r)) by (apply Z.mul_div_le; lia).
        nia.
      - assert (Z.of_nat k <= Z.of_nat (List.length r) / w); [|lia].
        apply Z.div_le_lower_bound; [lia|]. nia. }
    destruct ws as [|w2 ws2].
    - destruct rems as [|r2 rems]; [|discriminate]. cbn [complete_cycles]. rewrite Hq. split.
      + intros H [|i] w' Ew; cbn in *; [inversion Ew; subst; auto|destruct i; discriminate].
      + intros H. exact (H 0%nat w eq_refl).
    - destruct rems as [|r2 rems]; [discriminate|].
      specialize (IH (r2 :: rems) ltac:(congruence) ltac:(cbn in *; lia) Hw2).
      change (complete_cycles (w :: w2 :: ws2) (r :: r2 :: rems))
        with (Nat.min (Z.to_nat (zlen r / w)) (complete_cycles (w2 :: ws2) (r2 :: rems))).
      rewrite Nat.min_glb_iff, Hq, IH. split.
      + intros [H1 H2] [|i] w' Ew; cbn [nth_error nth] in *; [inversion Ew; subst; auto|].
        apply H2; auto.
      + intros H. split; [exact (H 0%nat w eq_refl)|]. intros i w' Ew. exact (H (S i) w' Ew).
  Qed.

  Definition counted (ws : list Z) (sched : list nat) :=
    forall i w, nth_error ws i = Some w -> Z.of_nat (count sched i) = w.

  Lemma counted_covers ws sched : counted ws sched -> Forall (fun w => 0 < w) ws ->
    covers sched (List.length ws).
  Proof.
    intros Hc Hw i Hi. destruct (nth_error ws i) as [w|] eqn:Ew.
    - pose proof (Hc i w Ew). rewrite Forall_forall in Hw.
      pose proof (Hw w (nth_error_In _ _ Ew)). lia.
    - apply nth_error_None in Ew. lia.
  Qed.

  (** Synchronised: dealing [k] <= complete_cycles rounds peels them off. *)
  Lemma mixed_sync_split ws sched k rems : ws <> [] -> List.length ws = List.length rems ->
    Forall (fun w => 0 < w) ws -> counted ws sched ->
    (k <= complete_cycles ws rems)%nat ->
    mixed_stream true ws sched rems
    = fst (rounds k sched rems) ++ mixed_stream true ws sched (snd (rounds k sched rems)).
  Proof.
    intros Hne Hl Hw Hcnt Hk. unfold mixed_stream.
    assert (Hcc : complete_cycles ws (snd (rounds k sched rems)) = (complete_cycles ws rems - k)%nat).
    { set (K := complete_cycles ws rems) in *.
      assert (G : forall m, (m <= complete_cycles ws (snd (rounds k sched rems)))%nat <-> (m + k <= K)%nat).
      { intros m. rewrite complete_cycles_ge; auto; [|rewrite rounds_length; auto].
        unfold K. rewrite complete_cycles_ge; auto. unfold K in Hk.
        rewrite complete_cycles_ge in Hk by auto.
        split; intros H i w Ew; specialize (H i w Ew); pose proof (Hcnt i w Ew) as Hci;
          assert (Hi : (i < List.length rems)%nat) by (rewrite <- Hl; apply nth_error_Some; congruence);
          destruct (rounds_child sched k rems Hi) as [_ Hs]; rewrite ?Hs in *;
          specialize (Hk i w Ew); rewrite skipn_length in *; nia. }
      pose proof (proj1 (G _) (le_n _)). pose proof (proj2 (G (K - k)%nat) ltac:(lia)). lia. }
    rewrite Hcc. replace (complete_cycles ws rems) with (k + (complete_cycles ws rems - k))%nat at 1 by lia.
    rewrite rounds_add. reflexivity.
  Qed.

  (** [deal]/[rounds] look only at the records they consume. *)
  Definition ext (need : nat -> nat) (es rems : list (list E)) :=
    List.length es = List.length rems /\
    forall i, exists r, nth i rems [] = nth i es [] ++ r
                        /\ (r = [] \/ (need i <= List.length (nth i es []))%nat).

  Lemma deal_ext sched : forall es rems extra,
    ext (fun i => count sched i + extra i)%nat es rems ->
    fst (deal sched es) = fst (deal sched rems) /\ ext extra (snd (deal sched es)) (snd (deal sched rems)).
  Proof.
    induction sched as [|c t IH]; intros es rems extra [Hl H]; cbn [deal].
    - split; auto. split; auto.
    - destruct (H c) as [rc [Ec Hc]]. cbn [count_occ] in Hc.
      destruct (Nat.eq_dec c c) as [_|]; [|congruence].
      destruct (nth c es []) as [|x r] eqn:Ees.
      + assert (rc = []) by (destruct Hc as [|Hc]; [auto|cbn in Hc; lia]). subst rc. cbn in Ec. rewrite Ec.
        apply IH. split; auto. intros i. destruct (H i) as [ri [Ei Hi]]. exists ri. split; auto.
        destruct Hi as [Hi|Hi]; auto. right. cbn [count_occ] in Hi. destruct (Nat.eq_dec c i); lia.
      + cbn in Ec. rewrite Ec.
        assert (Lc : (c < List.length es)%nat).
        { destruct (Nat.ltb_spec c (List.length es)); auto. rewrite nth_overflow in Ees by lia. discriminate. }
        destruct (IH (upd es c r) (upd rems c (r ++ rc)) extra) as [H1 H2].
        { split; [rewrite !upd_length; auto|]. intros i. rewrite !nth_upd_list by lia.
          destruct (Nat.eqb_spec i c) as [->|Hn].
          - exists rc. split; auto. destruct Hc as [|Hc]; auto. right. cbn in Hc. lia.
          - destruct (H i) as [ri [Ei Hi]]. exists ri. split; auto. destruct Hi as [|Hi]; auto.
            right. cbn [count_occ] in Hi. destruct (Nat.eq_dec c i); [congruence|lia]. }
        destruct (deal t (upd es c r)) as [o1 s1], (deal t (upd rems c (r ++ rc))) as [o2 s2].
        cbn [fst snd] in *. split; [congruence|auto].
  Qed.

  Lemma rounds_ext sched n : forall es rems,
    ext (fun i => n * count sched i)%nat es rems ->
    fst (rounds n sched es) = fst (rounds n sched rems).
  Proof.
    induction n as [|n IH]; intros es rems H; cbn [rounds]; auto.
    destruct (@deal_ext sched es rems (fun i => n * count sched i)%nat H) as [H1 H2].
    destruct (deal sched es) as [o1 s1], (deal sched rems) as [o2 s2]. cbn [fst snd] in *.
    apply IH in H2. destruct (rounds n sched s1), (rounds n sched s2). cbn [fst] in *. congruence.
  Qed.

  Lemma deal_nil_all_empty sched rems : covers sched (List.length rems) ->
    fst (deal sched rems) = [] -> forall i, nth i rems [] = [].
  Proof.
    intros Hc H i. destruct (Nat.ltb_spec i (List.length rems)) as [Hi|Hi]; [|apply nth_overflow; lia].
    destruct (deal_child sched rems Hi) as [H1 _]. rewrite H in H1. cbn in H1.
    specialize (Hc i Hi). destruct (nth i rems []) as [|x r]; auto.
    destruct (count sched i); [lia|discriminate].
  Qed.
End SpecFacts.

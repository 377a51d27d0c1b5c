(** Facts for C47. *)
From Verif Require Import Base BaseFacts Rng Sequential Planner Transactions Prefetch PrefetchFacts Observed.
Set Implicit Arguments. Unset Strict Implicit.

(** ** Statuses *)
Lemma count_app f a b : count f (a ++ b) = count f a + count f b.
Proof. unfold count. rewrite filter_app. apply zlen_app. Qed.
Lemma count_cons f x l : count f (x :: l) = (if f x then 1 else 0) + count f l.
Proof. unfold count. cbn [filter]. destruct (f x); [rewrite zlen_cons; lia|reflexivity]. Qed.
Lemma count_nonneg f l : 0 <= count f l.
Proof. apply zlen_nonneg. Qed.
Lemma count_notify f l : f Waiting = f AtGate -> count f (notify l) = count f l.
Proof. intros E. induction l as [|w l IH]; [reflexivity|]. unfold notify in *. cbn [map]. rewrite !count_cons, IH. destruct w; try reflexivity. rewrite E. reflexivity. Qed.
Lemma notify_length l : List.length (notify l) = List.length l.
Proof. apply map_length. Qed.
Lemma notify_waiting l : ~ In Waiting (notify l).
Proof. unfold notify. rewrite in_map_iff. intros (w & E & _). destruct w; discriminate. Qed.
Lemma count_zero f l : count f l = 0 -> forall x, In x l -> f x = false.
Proof.
  induction l as [|w l IH]; intros E x H; [destruct H|]. rewrite count_cons in E. pose proof (@count_nonneg f l). destruct (f w) eqn:Ew; [lia|].
  destruct H as [<-|H]; [exact Ew|apply IH; [lia|exact H]].
Qed.
Lemma count_le f g l : (forall x, f x = true -> g x = true) -> count f l <= count g l.
Proof. intros H. induction l as [|w l IH]; [reflexivity|]. rewrite !count_cons. specialize (H w). destruct (f w); [rewrite H by reflexivity; lia|]. destruct (g w); lia. Qed.
Lemma count_repeat f x n : f x = false -> count f (repeat x n) = 0.
Proof. intros E. induction n as [|n IH]; [reflexivity|]. cbn [repeat]. rewrite count_cons, E. exact IH. Qed.
Lemma first_queued l : In Queued l -> exists a b, l = a ++ Queued :: b /\ ~ In Queued a.
Proof.
  induction l as [|w l IH]; intros H; [destruct H|]. destruct (match w with Queued => true | _ => false end) eqn:E.
  - destruct w; try discriminate. exists [], l. split; [reflexivity|intros []].
  - destruct H as [->|H]; [discriminate|]. destruct (IH H) as (a & b & -> & N). exists (w :: a), b. split; [reflexivity|]. intros [->|K]; [discriminate|exact (N K)].
Qed.

Lemma wstat_dec (x y : wstat) : {x = y} + {x <> y}.
Proof. decide equality. Defined.

Section Facts.
  Variables X A T O : Type.
  Variable fd : feed X A T.
  Variable shape : A -> Z.
  Variable cf : pconfig.
  Variable is_resumable : bool.
  Variable token_digest : bytes -> batch A -> bytes -> bytes.
  Variable state_eqb : pstate A T -> pstate A T -> bool.
  Variable train early : bool.
  Variable decode : list A -> list bool -> res O.
  Variable decode_many : list (list A * list bool) -> res (list O).
  Variable finalize_batch : O -> res O.
  Variable fuel : nat.
  Variable slots : Z.
  Hypothesis Hslots : 1 <= slots.
  Hypothesis Hmany : forall l, match decode_many l with
    | Ok ds => mapM (fun b => decode (fst b) (snd b)) l = Ok ds
    | Err _ => exists e, mapM (fun b => decode (fst b) (snd b)) l = Err e
    end.
  Notation mkdc := (mkdc train early).
  Notation sruns w d := (sruns fd shape cf is_resumable (@None (composer A O)) token_digest state_eqb (mkdc w d) decode finalize_batch fuel).
  Notation pstep w d := (pstep fd shape cf is_resumable (@None (composer A O)) token_digest state_eqb (mkdc w d) decode_many finalize_batch fuel).
  Notation pinv w d := (pinv fd shape cf is_resumable token_digest state_eqb (mkdc w d) decode decode_many finalize_batch fuel).
  Notation istep := (istep fd shape cf is_resumable token_digest state_eqb train early finalize_batch fuel).
  Notation wstep := (@wstep X A T O train early decode_many finalize_batch slots).
  Notation cstep := (@cstep X A T O is_resumable state_eqb train).
  Notation ostep := (ostep fd shape cf is_resumable token_digest state_eqb train early decode_many finalize_batch fuel slots).
  Notation oruns := (oruns fd shape cf is_resumable token_digest state_eqb train early decode_many finalize_batch fuel slots).
  Notation obs := (obs X A T O).

  Lemma sruns_dc w d w' d' s es s' : sruns w d s es s' -> sruns w' d' s es s'.
  Proof.
    intros H. induction H as [s|s e s1 es s2 Hs _ IH]; [constructor|]. apply sr_cons with (s1 := s1); [|exact IH].
    destruct Hs as [s e s1 H|s n t' H1 H2]; [apply ss_yield; exact H|apply ss_commit; [exact H1|exact H2]].
  Qed.
  Lemma pinv_dc w d w' d' t0 es p : pinv w d t0 es p -> 0 <= pf_count p <= d' ->
    (~ failed (pf_ctl p) -> pf_ctl p = PPop A T O -> (pf_count p <? d') && negb (pf_exhausted p) = false) -> pinv w' d' t0 es p.
  Proof.
    intros [HB (s & Hr & Ho & Hs & Hf & Hh)] B P. constructor; [exact B|]. exists s. split; [apply (sruns_dc w' d' Hr)|]. split; [exact Ho|]. split; [exact Hs|]. split.
    - intros F es2 s2 H2. apply (Hf F es2 s2). apply (sruns_dc w d H2).
    - intros F. specialize (Hh F). destruct Hh as [H1 H2 H3 H4 H5 H6 H7]. constructor; auto.
  Qed.

  Definition aligned (jobs : list (list (token A T) * job O)) (st : list wstat) : Prop :=
    Forall2 (fun j w => snd j = None <-> w <> Finished) jobs st.
  Record oinv (t0 : txn X A T) (es : list (event A T O)) (s : obs) : Prop := {
    oi_pos : 1 <= o_workers s /\ 1 <= o_depth s /\ (forall l, o_limit s = Some l -> 1 <= l);
    oi_pref : exists d, 1 <= d /\ pinv 0 d t0 es (o_p s);
    oi_align : aligned (pf_pending (o_p s)) (o_stat s);
    oi_wait : In Waiting (o_stat s) -> exists l, o_limit s = Some l /\ l <= count is_active (o_stat s);
    oi_busy : count is_busy (o_stat s) <= slots
  }.

  Lemma aligned_len j st : aligned j st -> List.length j = List.length st.
  Proof. intros H. induction H; cbn; congruence. Qed.
  Lemma aligned_set (jobs : list (list (token A T) * job O)) a w w' b : aligned jobs (a ++ w :: b) -> w <> Finished -> w' <> Finished -> aligned jobs (a ++ w' :: b).
  Proof.
    revert jobs. induction a as [|x a IH]; intros jobs H N N'; cbn [app] in *; inversion H as [|? ? ? ? H1 H2]; subst; constructor; try assumption; [tauto|apply IH; assumption].
  Qed.
  Lemma aligned_notify (jobs : list (list (token A T) * job O)) st : aligned jobs st -> aligned jobs (notify st).
  Proof. intros H. induction H as [|j w jobs st E _ IH]; [constructor|]. constructor; [|exact IH]. destruct w; try exact E. split; [discriminate|intros _; apply E; discriminate]. Qed.
  Lemma aligned_done a w b : forall pa (items : list (token A T)) (r : res (list O)) pb, List.length pa = List.length a ->
    aligned (pa ++ (items, None) :: pb) (a ++ w :: b) -> aligned (pa ++ (items, Some r) :: pb) (a ++ Finished :: b).
  Proof.
    induction a as [|x a IH]; intros [|y pa] items r pb L H; try discriminate; cbn [app] in *; inversion H as [|? ? ? ? H1 H2]; subst; constructor; try assumption.
    - cbn. split; congruence.
    - apply (IH pa items r pb); [cbn in L; lia|exact H2].
  Qed.
  Lemma aligned_more jobs st (items : list (token A T)) : aligned jobs st -> aligned (jobs ++ [(items, @None (res (list O)))]) (st ++ [Queued]).
  Proof. intros H. apply Forall2_app; [exact H|]. constructor; [cbn; split; [discriminate|reflexivity]|constructor]. Qed.

  (** What filling does to the list of chunks. *)
  Lemma fill_pending s p' : p' = match submit_chunk fd shape cf is_resumable token_digest (mkdc (o_workers s) (o_depth s)) fuel (o_p s) with Ok p' => p' | Err e => goto (o_p s) (PFailed A T O e) end ->
    pf_pending p' = pf_pending (o_p s) \/ exists items, pf_pending p' = pf_pending (o_p s) ++ [(items, None)].
  Proof.
    intros ->. unfold submit_chunk. destruct (_ || _); [left; reflexivity|].
    destruct (take_planned _ _ _ _ _ _ _ _ _) as [[[[items ex] g1] t1]|e]; cbn [bind]; [|left; reflexivity].
    destruct items as [|i0 items]; [left; reflexivity|right; exists (i0 :: items); reflexivity].
  Qed.
  Lemma fill_aligned jobs st jobs' : aligned jobs st -> (jobs' = jobs \/ exists items, jobs' = jobs ++ [(items, None)]) ->
    aligned jobs' (st ++ repeat Queued (List.length jobs' - List.length jobs)).
  Proof.
    intros H [->|(items & ->)]; [rewrite Nat.sub_diag; cbn; rewrite app_nil_r; exact H|]. rewrite app_length. cbn [List.length].
    replace (List.length jobs + 1 - List.length jobs)%nat with 1%nat by lia. apply aligned_more. exact H.
  Qed.

  Lemma istep_inv t0 es s es1 s' : oinv t0 es s -> istep s es1 s' -> oinv t0 (es ++ es1) s'.
  Proof.
    intros [(P1 & P2 & P3) (d & Hd & Hp) HA HW HB] Hst.
    destruct Hst as [s p' Hc Hg E|s Hc Hg|s items r rest Hc Hpend|s Hc Hpend|s tok dd rest e p' Hc Hpub|s tok dd rest e Hc Hpub|s Hc].
    - assert (Hq : pinv (o_workers s) (o_depth s) t0 es (o_p s)).
      { apply (pinv_dc (w := 0) (d := d)); [exact Hp| |rewrite Hc; discriminate]. apply andb_true_iff in Hg. destruct Hg as (G & _). apply Z.ltb_lt in G.
        destruct Hp as [HB' _]. lia. }
      assert (Hs : pstep (o_workers s) (o_depth s) (o_p s) [] p') by (rewrite E; apply ps_fill; [exact Hc|exact Hg]).
      pose proof (pstep_inv (dc := mkdc (o_workers s) (o_depth s)) ltac:(cbn; lia) Hmany Hq Hs) as Hq'.
      pose proof (fill_pending E) as Fp.
      constructor; cbn [with_p o_p o_workers o_depth o_limit o_stat]; auto.
      + exists (o_depth s). split; [lia|]. destruct Hq' as [HB' R]. apply (pinv_dc (w := o_workers s) (d := o_depth s)); [constructor; [exact HB'|exact R]|exact HB'|].
        intros F Hpop. destruct R as (y & _ & _ & _ & _ & Hh). destruct (Hh F) as [_ _ _ _ _ H6 _]. exact (H6 Hpop).
      + apply fill_aligned; assumption.
      + intros H. apply in_app_iff in H. destruct H as [H|H]; [|apply repeat_spec in H; discriminate]. destruct (HW H) as (l & E1 & E2). exists l. split; [exact E1|].
        rewrite count_app. pose proof (@count_nonneg is_active (repeat Queued (List.length (pf_pending p') - List.length (pf_pending (o_p s))))). lia.
      + rewrite count_app, count_repeat by reflexivity. lia.
    - rewrite app_nil_r. constructor; cbn [with_p o_p o_workers o_depth o_limit o_stat]; auto.
      assert (Hpos : 0 < pf_count (o_p s) \/ pf_exhausted (o_p s) = true).
      { destruct (pf_exhausted (o_p s)); [auto|]. left. rewrite andb_true_r in Hg. apply Z.ltb_ge in Hg. lia. }
      destruct Hp as [HB' R]. exists (Z.max 1 (pf_count (o_p s))). split; [lia|].
      assert (Hq : pinv 0 (Z.max 1 (pf_count (o_p s))) t0 es (o_p s)).
      { apply (pinv_dc (w := 0) (d := d)); [constructor; [exact HB'|exact R]|lia|rewrite Hc; discriminate]. }
      assert (Hs : pstep 0 (Z.max 1 (pf_count (o_p s))) (o_p s) [] (goto (o_p s) (PPop A T O))).
      { apply ps_filled; [exact Hc|]. cbn [dc_depth Observed.mkdc]. destruct Hpos as [Hpos| ->]; [|apply andb_false_r].
        replace (pf_count (o_p s) <? Z.max 1 (pf_count (o_p s))) with false by lia. reflexivity. }
      pose proof (pstep_inv (dc := mkdc 0 (Z.max 1 (pf_count (o_p s)))) ltac:(cbn; lia) Hmany Hq Hs) as Hq'. rewrite app_nil_r in Hq'. exact Hq'.
    - constructor; cbn [with_p o_p o_workers o_depth o_limit o_stat]; auto.
      + exists d. split; [exact Hd|]. apply (pstep_inv (dc := mkdc 0 d) ltac:(cbn; lia) Hmany Hp). apply (ps_pop _ _ _ _ _ _ _ _ _ _ _ Hc Hpend).
      + unfold aligned in *. rewrite Hpend in HA. inversion HA as [|? w ? st _ H2]; subst. cbn. exact H2.
      + unfold aligned in *. rewrite Hpend in HA. inversion HA as [|? w ? st H1 H2 H3 Est]; subst. cbn [tl]. rewrite <- Est in HW. cbn [snd] in H1.
        assert (w = Finished) as -> by (destruct w; try reflexivity; exfalso; assert (@Some (res (list O)) r = None) by (apply H1; discriminate); discriminate).
        intros H. destruct (HW (or_intror H)) as (l & E1 & E2). rewrite count_cons in E2. cbn in E2. eauto.
      + destruct (o_stat s) as [|w st]; [exact HB|]. cbn [tl]. rewrite count_cons in HB. destruct (is_busy w); lia.
    - constructor; cbn [with_p o_p o_workers o_depth o_limit o_stat]; auto.
      exists d. split; [exact Hd|]. apply (pstep_inv (dc := mkdc 0 d) ltac:(cbn; lia) Hmany Hp). apply ps_end; assumption.
    - assert (Epend : pf_pending p' = pf_pending (o_p s)).
      { unfold publish in Hpub. inv_bind Hpub. unfold prepare_pipeline in Hpub. cbn [bind] in Hpub. inv_bind Hpub. injection Hpub as _ <-. reflexivity. }
      constructor; cbn [with_p o_p o_workers o_depth o_limit o_stat]; auto; [|rewrite Epend; exact HA].
      exists d. split; [exact Hd|]. apply (pstep_inv (dc := mkdc 0 d) ltac:(cbn; lia) Hmany Hp). eapply ps_yield; [exact Hc|exact Hpub].
    - constructor; cbn [with_p o_p o_workers o_depth o_limit o_stat]; auto.
      exists d. split; [exact Hd|]. apply (pstep_inv (dc := mkdc 0 d) ltac:(cbn; lia) Hmany Hp). eapply ps_yield_err; [exact Hc|exact Hpub].
    - constructor; cbn [with_p o_p o_workers o_depth o_limit o_stat].
      + split; [exact P1|]. split; [exact P2|]. intros l E. destruct (o_limit s); cbn in E; [injection E as <-; exact P1|discriminate].
      + exists d. split; [exact Hd|]. apply (pstep_inv (dc := mkdc 0 d) ltac:(cbn; lia) Hmany Hp). apply ps_served; assumption.
      + destruct (o_limit s); [apply aligned_notify|]; exact HA.
      + destruct (o_limit s); cbn [option_map]; [intros H; exfalso; exact (notify_waiting H)|]. intros H. destruct (HW H) as (l & E & _). discriminate.
      + destruct (o_limit s); [rewrite count_notify by reflexivity|]; exact HB.
  Qed.
  Lemma wstep_inv t0 es s s' : oinv t0 es s -> wstep s s' -> oinv t0 es s'.
  Proof.
    intros [(P1 & P2 & P3) (d & Hd & Hp) HA HW HB] Hst.
    destruct Hst as [s a b E N C|s a b l E El C|s a b E C|s a b E|s a b pa items pb E Ep L]; (constructor; cbn [with_p o_p o_workers o_depth o_limit o_stat]; [auto|try (exists d; auto; fail)|..]); rewrite E in *.
    - apply (aligned_set HA); discriminate.
    - intros H. destruct HW as (l & E1 & E2); [|exists l; split; [exact E1|]; rewrite !count_app, !count_cons in *; cbn in *; lia].
      rewrite in_app_iff in *. cbn in *. intuition discriminate.
    - rewrite !count_app, !count_cons in *. cbn in *. lia.
    - apply (aligned_set HA); discriminate.
    - intros _. exists l. split; [exact El|]. rewrite !count_app, !count_cons in *. cbn in *. lia.
    - rewrite !count_app, !count_cons in *. cbn in *. lia.
    - apply (aligned_set HA); discriminate.
    - intros H. destruct HW as (l & E1 & E2); [|exists l; split; [exact E1|]; rewrite !count_app, !count_cons in *; cbn in *; lia].
      rewrite in_app_iff in *. cbn in *. intuition discriminate.
    - rewrite !count_app, !count_cons in *. cbn in *. lia.
    - apply aligned_notify. apply (aligned_set HA); discriminate.
    - intros H. exfalso. exact (notify_waiting H).
    - rewrite count_notify by reflexivity. rewrite !count_app, !count_cons in *. cbn in *. lia.
    - exists d. split; [exact Hd|]. rewrite <- (app_nil_r es). apply (pstep_inv (dc := mkdc 0 d) ltac:(cbn; lia) Hmany Hp).
      change (run_job (mkdc (o_workers s) (o_depth s)) decode_many finalize_batch items) with (run_job (mkdc 0 d) decode_many finalize_batch items). eapply ps_work. exact Ep.
    - rewrite Ep in HA. eapply aligned_done; [exact L|exact HA].
    - intros H. destruct HW as (l & E1 & E2); [|exists l; split; [exact E1|]; rewrite !count_app, !count_cons in *; cbn in *; lia].
      rewrite in_app_iff in *. cbn in *. intuition discriminate.
    - rewrite !count_app, !count_cons in *. cbn in *. lia.
  Qed.
  Lemma cstep_inv t0 es s es1 s' : oinv t0 es s -> cstep s es1 s' -> oinv t0 (es ++ es1) s'.
  Proof.
    intros [(P1 & P2 & P3) (d & Hd & Hp) HA HW HB] Hst. destruct Hst as [s n t' Ht Hc|s w dd Hl Hw Hdd]; constructor; cbn [with_p o_p o_workers o_depth o_limit o_stat pf_pending]; auto.
    - exists d. split; [exact Hd|]. apply (pstep_inv (dc := mkdc 0 d) ltac:(cbn; lia) Hmany Hp). apply ps_commit; [exact Ht|exact Hc].
    - split; [exact Hw|]. split; [exact Hdd|]. intros l E. injection E as <-. exact Hw.
    - rewrite app_nil_r. exists d. auto.
    - apply aligned_notify. exact HA.
    - intros H. exfalso. exact (notify_waiting H).
    - rewrite count_notify by reflexivity. exact HB.
  Qed.
  Lemma oinit_inv t0 tuned w d : 1 <= w -> 1 <= d -> oinv t0 [] (obs_init O t0 tuned w d).
  Proof.
    intros Hw Hd. constructor; cbn.
    - split; [exact Hw|]. split; [exact Hd|]. intros l E. destruct tuned; [injection E as <-; exact Hw|discriminate].
    - exists d. split; [exact Hd|]. apply pinit_inv. cbn. lia.
    - constructor.
    - intros [].
    - unfold count. cbn. unfold zlen. cbn. lia.
  Qed.
  Lemma oruns_inv t0 tuned w d es s : 1 <= w -> 1 <= d -> oruns (obs_init O t0 tuned w d) es s -> oinv t0 es s.
  Proof.
    intros Hw Hd H. remember (obs_init O t0 tuned w d) as s0 eqn:E. induction H as [s|s es s1 es1 s2 H IH Hst]; subst.
    - apply oinit_inv; assumption.
    - specialize (IH eq_refl). destruct Hst as [s es1 s' Hs|s s' Hs|s es1 s' Hs]; [apply (istep_inv IH Hs)|rewrite app_nil_r; apply (wstep_inv IH Hs)|apply (cstep_inv IH Hs)].
  Qed.

  (** ** Decode threads finish *)
  Definition weight (n : Z) (w : wstat) : Z :=
    match w with Finished => 0 | Leaving => 1 | Active => n + 1 | Waiting => n + 2 | AtGate => n + 3 | Queued => n + 4 end.
  Definition work (n : Z) (l : list wstat) : Z := zsum (map (weight n) l).
  Lemma work_app n a b : work n (a ++ b) = work n a + work n b.
  Proof. unfold work. rewrite map_app. apply zsum_app. Qed.
  Lemma work_cons n x l : work n (x :: l) = weight n x + work n l.
  Proof. reflexivity. Qed.
  Lemma work_notify n l : work n (notify l) <= work n l + count (fun w => match w with Waiting => true | _ => false end) l.
  Proof. induction l as [|w l IH]; [unfold work, count, zlen; cbn; lia|]. unfold notify in *. cbn [map]. rewrite !work_cons, count_cons. destruct w; cbn [weight]; lia. Qed.
  Lemma count_len f l : count f l <= zlen l.
  Proof. unfold count, zlen. induction l as [|w l IH]; [cbn; lia|]. cbn [filter List.length]. destruct (f w); cbn [List.length]; lia. Qed.
  Lemma wstep_work s s' : wstep s s' -> forall n, zlen (o_stat s) <= n ->
    work n (o_stat s') < work n (o_stat s) /\ zlen (o_stat s') = zlen (o_stat s).
  Proof.
    intros Hst n Hn. destruct Hst as [s a b E N C|s a b l E El C|s a b E C|s a b E|s a b pa items pb E Ep L]; cbn [with_p o_stat]; rewrite E in *;
      try (split; [rewrite !work_app, !work_cons; cbn [weight]; rewrite zlen_app, zlen_cons in Hn; pose proof (zlen_nonneg a); pose proof (zlen_nonneg b); lia|rewrite !zlen_app, !zlen_cons; reflexivity]).
    split; [|unfold zlen; rewrite notify_length, !app_length; reflexivity].
    pose proof (@work_notify n (a ++ Leaving :: b)) as W. rewrite count_app, count_cons in W. cbn [weight] in W.
    pose proof (@count_len (fun w => match w with Waiting => true | _ => false end) a). pose proof (@count_len (fun w => match w with Waiting => true | _ => false end) b).
    rewrite !work_app, !work_cons in *. cbn [weight] in *. rewrite zlen_app, zlen_cons in Hn. lia.
  Qed.
  Lemma work_nonneg n l : 0 <= n -> 0 <= work n l <= zlen l * (n + 4).
  Proof. intros Hn. induction l as [|w l IH]; [unfold work, zlen; cbn; lia|]. rewrite work_cons, zlen_cons. destruct w; cbn [weight]; nia. Qed.
  (** If no decode thread can take a step, all chunks are done. *)
  Lemma wstep_possible t0 es s : oinv t0 es s -> (exists s', wstep s s') \/ Forall (fun w => w = Finished) (o_stat s).
  Proof.
    intros [(P1 & P2 & P3) _ HA HW HB].
    assert (Dec : forall w, In w (o_stat s) \/ ~ In w (o_stat s)) by (intros w; destruct (in_dec wstat_dec w (o_stat s)); auto).
    destruct (Dec Leaving) as [H|N1].
    { left. apply in_split in H. destruct H as (a & b & E). rewrite E in HA.
      assert (Sp : forall a pend b, aligned pend (a ++ Leaving :: b) -> exists pa items pb, pend = pa ++ (items, @None (res (list O))) :: pb /\ List.length pa = List.length a).
      { clear. induction a as [|x a IH]; intros pend b H; cbn [app] in H; inversion H as [|[items j] ? ? ? H1 H2]; subst.
        - cbn in H1. assert (j = None) as -> by (apply H1; discriminate). exists [], items. eexists. split; reflexivity.
        - destruct (IH _ _ H2) as (pa & i & pb & -> & L). exists ((items, j) :: pa), i, pb. split; [reflexivity|]. cbn. lia. }
      destruct (Sp _ _ _ HA) as (pa & items & pb & Ep & L). eexists. apply (ow_done _ _ _ _ _ E Ep L). }
    destruct (Dec Active) as [H|N2].
    { left. apply in_split in H. destruct H as (a & b & E). eexists. apply (ow_leave _ _ _ _ _ E). }
    assert (C0 : count is_active (o_stat s) = 0).
    { unfold count. replace (filter is_active (o_stat s)) with (@nil wstat); [reflexivity|]. symmetry. clear - N2. induction (o_stat s) as [|w l IH]; [reflexivity|].
      cbn [filter]. destruct w; cbn [is_active]; try (apply IH; intros H; apply N2; right; exact H). exfalso. apply N2. left. reflexivity. }
    destruct (Dec AtGate) as [H|N3].
    { left. apply in_split in H. destruct H as (a & b & E). eexists. eapply ow_enter; [exact E|]. destruct (o_limit s) as [l|]; [|exact I]. rewrite C0. specialize (P3 l eq_refl). lia. }
    destruct (Dec Waiting) as [H|N4]; [destruct (HW H) as (l & E1 & E2); rewrite C0 in E2; specialize (P3 l E1); lia|].
    destruct (Dec Queued) as [H|N5].
    { left. destruct (first_queued H) as (a & b & E & N). eexists. eapply ow_start; [exact E|exact N|].
      unfold count. replace (filter is_busy (o_stat s)) with (@nil wstat); [unfold zlen; cbn; lia|]. symmetry. clear - N1 N2 N3 N4. induction (o_stat s) as [|w l IH]; [reflexivity|].
      cbn [filter]. cbn [In] in *. destruct w; cbn [is_busy]; try tauto; apply IH; tauto. }
    right. apply Forall_forall. intros w Hin. destruct w; tauto.
  Qed.
End Facts.

(** C47: the measured prefetching iterator (dataset/telemetry.py), whose depth, number of
    workers and decode limit the tuner changes while it runs, against the synchronous
    iterator of SourceBatchDataset.
    A run is any interleaving of the iterator, the decode threads with their gate, and a
    consumer that commits batches and changes the parameters. *)
From Verif Require Import Base BaseFacts Rng Reservoir Source Sequential Planner PlannerFeed Transactions TransactionsObs Prefetch PrefetchFacts Observed ObservedFacts.
From Verif Require Import Prop_Planner Prop_Transactions Prop_Prefetch.
Set Implicit Arguments. Unset Strict Implicit.

(** Decode calls that run; chunks whose thread sleeps in Condition.wait. *)
Definition decoding {X A T O} (s : obs X A T O) : Z := zlen (filter (fun w => match w with Active => true | _ => false end) (o_stat s)).
Definition sleeping {X A T O} (s : obs X A T O) : Z := zlen (filter (fun w => match w with Waiting => true | _ => false end) (o_stat s)).

Section C47.
  Variables X A T O : Type.
  Variable fd : feed X A T.
  Variable shape : A -> Z.
  Variable cf : pconfig.
  Variable is_resumable : bool.
  Variable token_digest : bytes -> batch A -> bytes -> bytes.
  Variable state_eqb : pstate A T -> pstate A T -> bool.
  Variable train early : bool.
  Variable decode : list A -> list bool -> res O.
  Variable decode_many : list (list A * list bool) -> res (list O).
  Variable finalize_batch : O -> res O.
  Variable fuel : nat.
  Variable slots : Z.
  Hypothesis Hslots : 1 <= slots.
  Hypothesis Hmany : forall l, match decode_many l with
    | Ok ds => mapM (fun b => decode (fst b) (snd b)) l = Ok ds
    | Err _ => exists e, mapM (fun b => decode (fst b) (snd b)) l = Err e
    end.
  (** The synchronous iterator of the same mode (its depth does not matter). *)
  Notation sync_runs w d := (sruns fd shape cf is_resumable (@None (composer A O)) token_digest state_eqb
    {| dc_workers := w; dc_depth := d; dc_train := train; dc_final_early := early |} decode finalize_batch fuel).
  Notation iterates := (istep fd shape cf is_resumable token_digest state_eqb train early finalize_batch fuel).
  Notation works := (@wstep X A T O train early decode_many finalize_batch slots).
  Notation steps := (ostep fd shape cf is_resumable token_digest state_eqb train early decode_many finalize_batch fuel slots).
  Notation runs := (oruns fd shape cf is_resumable token_digest state_eqb train early decode_many finalize_batch fuel slots).
  Notation start := (@obs_init X A T O).

  Lemma runs_inv t0 tuned w d es s : 1 <= w -> 1 <= d -> runs (start t0 tuned w d) es s ->
    oinv fd shape cf is_resumable token_digest state_eqb train early decode decode_many finalize_batch fuel slots t0 es s.
  Proof. intros Hw Hd H. eapply oruns_inv; [exact Hslots|exact Hmany|exact Hw|exact Hd|exact H]. Qed.

  (** Whatever the tuner does to the parameters and whatever the threads do: the batches
      handed out and the effect of the commits are those of the synchronous iterator. *)
  Theorem C47_tuned_prefetching_is_synchronous_iteration : forall t0 tuned w d es s, 1 <= w -> 1 <= d ->
    runs (start t0 tuned w d) es s ->
    exists y, sync_runs w d (sync_init t0) es y
      /\ t_committed_state (pf_t (o_p s)) = t_committed_state (sy_t y)
      /\ t_committed_digest (pf_t (o_p s)) = t_committed_digest (sy_t y)
      /\ t_committed_blob (pf_t (o_p s)) = t_committed_blob (sy_t y)
      /\ pf_open (o_p s) = sy_open y
      /\ (pf_ctl (o_p s) = PDone A T O -> sy_ctl y = SEnd A T)
      /\ (forall e, pf_ctl (o_p s) = PFailed A T O e -> forall es' y', sync_runs w d y es' y' -> sy_ctl y' <> SEnd A T).
  Proof.
    intros t0 tuned w d es s Hw Hd H. destruct (runs_inv Hw Hd H) as [_ (d' & Hd' & [_ (y & Hr & Ho & Hs & Hf & Hh)]) _ _ _].
    exists y. unfold same in Hs. split; [exact (sruns_dc w d Hr)|].
    split; [rewrite Hs; reflexivity|]. split; [rewrite Hs; reflexivity|]. split; [rewrite Hs; reflexivity|]. split; [symmetry; exact Ho|]. split.
    - intros E. apply (he_done (Hh ltac:(rewrite E; auto)) E).
    - intros e E es' y' H2. apply (Hf ltac:(rewrite E; exact I) es' y'). exact (sruns_dc 0 d' H2).
  Qed.

  (** A batch is only taken in while fewer than the depth then in force are held: a step
      lets the number of batches held grow to at most the depth in force. *)
  Lemma runs_held t0 tuned w d es s : runs (start t0 tuned w d) es s -> zlen (queue (o_p s)) <= pf_count (o_p s).
  Proof.
    intros H. remember (start t0 tuned w d) as s0 eqn:E. induction H as [s|s es s1 es1 s2 H IH Hst]; subst; [reflexivity|]. specialize (IH eq_refl).
    destruct Hst as [s es1 s' Hs|s s' Hs|s es1 s' Hs]; [destruct Hs as [s p' Hc Hg Ep|s Hc Hg|s items r rest Hc Hpend|s Hc Hpend|s tok dd rest e p' Hc Hpub|s tok dd rest e Hc Hpub|s Hc]|destruct Hs|destruct Hs as [s n t' Ht Hc|s w' d' Hl Hw' Hd']]; cbn [with_p o_p] in *; try exact IH.
    all: try (match goal with |- zlen (queue ?p') <= _ => refine (@pstep_held X A T O fd shape cf is_resumable token_digest state_eqb (mkdc train early (o_workers s) (o_depth s)) decode_many finalize_batch fuel (o_p s) _ p' _ IH) end).
    - rewrite Ep. apply ps_fill; assumption.
    - apply ps_filled; assumption.
    - eapply ps_pop; eassumption.
    - apply ps_end; assumption.
    - eapply ps_yield; eassumption.
    - eapply ps_yield_err; eassumption.
    - apply ps_served; assumption.
    - eapply ps_work; eassumption.
  Qed.
  Lemma queue_pending_none (p : pref X A T O) l : queue (with_pending p l) = map fst (serving (pf_ctl p)) ++ List.concat (map fst l).
  Proof. reflexivity. Qed.
  Lemma fill_held dc (p p' : pref X A T O) : submit_chunk fd shape cf is_resumable token_digest dc fuel p = Ok p' -> zlen (queue p) <= pf_count p ->
    (pf_count p <? dc_depth dc) && negb (pf_exhausted p) = true -> zlen (queue p') <= dc_depth dc \/ zlen (queue p') = zlen (queue p).
  Proof.
    intros E H G. apply andb_true_iff in G. destruct G as (G1 & G2). apply Z.ltb_lt in G1. unfold submit_chunk in E. destruct (pf_exhausted p || _); [injection E as <-; auto|].
    inv_bind E. destruct v as [[[items ex] g1] t1]. destruct (take_plans Hm) as (_ & _ & Hlen & _). clear Hm.
    destruct items as [|i0 items]; injection E as <-; [auto|]. left. unfold queue in *. cbn [pf_ctl pf_pending] in *.
    rewrite map_app, concat_app, app_assoc, zlen_app. cbn [map fst List.concat]. rewrite app_nil_r. unfold zlen in *. lia.
  Qed.
  Theorem C47_depth_in_force_bounds_what_is_held : forall t0 tuned w d es s, 1 <= w -> 1 <= d ->
    runs (start t0 tuned w d) es s -> forall es1 s', steps s es1 s' -> held (o_p s') <= Z.max (held (o_p s)) (o_depth s).
  Proof.
    intros t0 tuned w d es s Hw Hd H es1 s' Hst. rewrite !held_queue. pose proof (runs_held H) as Q. clear H.
    destruct Hst as [s es1 s' Hs|s s' Hs|s es1 s' Hs]; [destruct Hs as [s p' Hc Hg Ep|s Hc Hg|s items r rest Hc Hpend|s Hc Hpend|s tok dd rest e p' Hc Hpub|s tok dd rest e Hc Hpub|s Hc]|destruct Hs as [s a b E N C|s a b l E El C|s a b E C|s a b E|s a b pa items pb E Ep L]|destruct Hs as [s n t' Ht Hc|s w' d' Hl Hw' Hd']]; cbn [with_p o_p] in *; try lia.
    - destruct (submit_chunk _ _ _ _ _ _ _ _) as [p1|e] eqn:E1; subst p'.
      + destruct (fill_held E1 Q Hg) as [K|K]; cbn [mkdc dc_depth] in K; lia.
      + unfold queue. cbn [goto pf_ctl pf_pending serving map app]. rewrite zlen_app. pose proof (zlen_nonneg (map fst (serving (pf_ctl (o_p s))))). lia.
    - unfold queue. cbn [goto pf_ctl pf_pending]. rewrite Hc. cbn. lia.
    - unfold queue. cbn [goto with_pending pf_ctl pf_pending]. rewrite Hc, Hpend. cbn [serving map app fst List.concat]. rewrite !zlen_app. destruct r as [ds|e].
      + destruct (Nat.eqb_spec (List.length ds) (List.length items)).
        * cbn [serving]. rewrite map_fst_combine by assumption. lia.
        * cbn [serving map]. pose proof (zlen_nonneg items). unfold zlen in *. cbn [List.length]. lia.
      + cbn [serving map]. pose proof (zlen_nonneg items). unfold zlen in *. cbn [List.length]. lia.
    - unfold queue. cbn [goto pf_ctl pf_pending]. rewrite Hc. cbn. lia.
    - unfold queue at 2. rewrite Hc. cbn [serving map app fst]. rewrite zlen_cons. unfold publish in Hpub.
      inv_bind Hpub. unfold prepare_pipeline in Hpub. cbn [bind] in Hpub. inv_bind Hpub. injection Hpub as <- <-. unfold queue. cbn [pf_ctl pf_pending serving]. lia.
    - unfold queue. cbn [goto pf_ctl pf_pending]. rewrite Hc. cbn [serving map app fst]. rewrite zlen_cons, zlen_app. pose proof (zlen_nonneg (map fst rest)). lia.
    - unfold queue. cbn [goto pf_ctl pf_pending]. rewrite Hc. cbn. lia.
    - rewrite queue_pending_none. unfold queue. rewrite Ep, !map_app. cbn. lia.
    - unfold queue. cbn. lia.
  Qed.

  (** As long as no depth above [D] is set, no more than [D] batches are held. *)
  Inductive runs_within (P : obs X A T O -> Prop) : obs X A T O -> list (event A T O) -> obs X A T O -> Prop :=
  | within_nil s : P s -> runs_within P s [] s
  | within_snoc s es s1 es1 s2 : runs_within P s es s1 -> steps s1 es1 s2 -> P s2 -> runs_within P s (es ++ es1) s2.
  Lemma within_runs P s es s' : runs_within P s es s' -> runs s es s'.
  Proof. intros H. induction H; [constructor|econstructor; eassumption]. Qed.
  Theorem C47_prefetching_is_bounded : forall t0 tuned w d D es s, 1 <= w -> 1 <= d ->
    runs_within (fun s => o_depth s <= D) (start t0 tuned w d) es s -> held (o_p s) <= D.
  Proof.
    intros t0 tuned w d D es s Hw Hd H. remember (start t0 tuned w d) as s0 eqn:E. induction H as [s Hp|s es s1 es1 s2 H IH Hst Hp]; subst.
    - cbn in Hp |- *. unfold held. cbn. lia.
    - specialize (IH eq_refl). pose proof (C47_depth_in_force_bounds_what_is_held Hw Hd (within_runs H) Hst).
      assert (o_depth s1 <= D) by (clear - H; destruct H; assumption). lia.
  Qed.

  (** Decoding starts only below the limit in force, and never on more threads than the
      executor has. *)
  Lemma decoding_count (s : obs X A T O) : decoding s = count is_active (o_stat s).
  Proof. unfold decoding, count, zlen. reflexivity. Qed.
  Theorem C47_decodes_respect_the_limit : forall t0 tuned w d es s, 1 <= w -> 1 <= d ->
    runs (start t0 tuned w d) es s -> decoding s <= slots /\
    forall es1 s', steps s es1 s' -> decoding s' <= decoding s \/
      decoding s' = decoding s + 1 /\ match o_limit s with Some l => decoding s < l | None => True end.
  Proof.
    intros t0 tuned w d es s Hw Hd H. pose proof (runs_inv Hw Hd H) as Hi. split.
    { rewrite decoding_count. destruct Hi as [_ _ _ _ HB]. pose proof (@count_le is_active is_busy (o_stat s) ltac:(intros []; cbn; congruence)). lia. }
    intros es1 s' Hst. rewrite !decoding_count. destruct Hi as [_ _ HA _ _]. clear H.
    destruct Hst as [s es1 s' Hs|s s' Hs|s es1 s' Hs]; [destruct Hs as [s p' Hc Hg Ep|s Hc Hg|s items r rest Hc Hpend|s Hc Hpend|s tok dd rest e p' Hc Hpub|s tok dd rest e Hc Hpub|s Hc]|destruct Hs as [s a b E N C|s a b l E El C|s a b E C|s a b E|s a b pa items pb E Ep L]|destruct Hs as [s n t' Ht Hc|s w' d' Hl Hw' Hd']]; cbn [with_p o_stat o_limit] in *; try (left; lia).
    - left. rewrite count_app, count_repeat by reflexivity. lia.
    - left. destruct (o_stat s) as [|x l]; [cbn; lia|]. cbn [tl]. rewrite count_cons. destruct (is_active x); lia.
    - left. destruct (o_limit s); [rewrite count_notify by reflexivity|]; lia.
    - left. rewrite E, !count_app, !count_cons. cbn. lia.
    - left. rewrite E, !count_app, !count_cons. cbn. lia.
    - right. rewrite E in *. rewrite !count_app, !count_cons in *. cbn in *. split; [lia|]. destruct (o_limit s); [lia|exact I].
    - left. rewrite count_notify by reflexivity. rewrite E, !count_app, !count_cons. cbn. lia.
    - left. rewrite E, !count_app, !count_cons. cbn. lia.
    - left. rewrite count_notify by reflexivity. lia.
  Qed.

  (** No wake-up is lost: a thread sleeps at the gate only while as many decodes as the
      limit allows run. *)
  Theorem C47_nobody_sleeps_while_there_is_room : forall t0 tuned w d es s, 1 <= w -> 1 <= d ->
    runs (start t0 tuned w d) es s -> 0 < sleeping s -> exists l, o_limit s = Some l /\ 1 <= l <= decoding s.
  Proof.
    intros t0 tuned w d es s Hw Hd H Hs. destruct (runs_inv Hw Hd H) as [(_ & _ & P3) _ _ HW _]. rewrite decoding_count.
    destruct HW as (l & E & L); [|exists l; split; [exact E|split; [apply P3; exact E|exact L]]].
    unfold sleeping in Hs. destruct (filter _ (o_stat s)) as [|x l] eqn:F; [unfold zlen in Hs; cbn in Hs; lia|].
    assert (I : In x (filter (fun w => match w with Waiting => true | _ => false end) (o_stat s))) by (rewrite F; left; reflexivity).
    apply filter_In in I. destruct I as (I & Ex). destruct x; try discriminate. exact I.
  Qed.

  (** No deadlock: the decode threads, left alone, stop after a bounded number of steps,
      and then every submitted chunk has its result; and unless it has ended or raised,
      the iterator can go on as soon as the oldest chunk has its result. *)
  Inductive worked : nat -> obs X A T O -> obs X A T O -> Prop :=
  | worked_0 s : worked 0 s s
  | worked_S n s s1 s2 : worked n s s1 -> works s1 s2 -> worked (S n) s s2.
  Lemma worked_runs n s s' : worked n s s' -> forall s0 es, runs s0 es s -> runs s0 es s'.
  Proof.
    intros H. induction H as [|n s s1 s2 H IH Hst]; intros s0 es H0; [exact H0|]. rewrite <- (app_nil_r es). eapply or_snoc; [apply IH; exact H0|apply o_work; exact Hst].
  Qed.
  Lemma worked_work n s s' : worked n s s' -> zlen (o_stat s') = zlen (o_stat s) /\ work (zlen (o_stat s)) (o_stat s') + Z.of_nat n <= work (zlen (o_stat s)) (o_stat s).
  Proof.
    intros H. induction H as [s|n s s1 s2 H (IH1 & IH2) Hst]; [split; [reflexivity|lia]|].
    destruct (wstep_work Hst (n := zlen (o_stat s)) ltac:(lia)) as (W1 & W2). split; [lia|lia].
  Qed.
  Theorem C47_decode_threads_finish : forall t0 tuned w d es s n s', 1 <= w -> 1 <= d ->
    runs (start t0 tuned w d) es s -> worked n s s' ->
    let k := zlen (pf_pending (o_p s)) in Z.of_nat n <= k * (k + 4)
    /\ ((exists s'', works s' s'') \/ Forall (fun c => snd c <> None) (pf_pending (o_p s'))).
  Proof.
    intros t0 tuned w d es s n s' Hw Hd H Hn k. pose proof (runs_inv Hw Hd H) as Hi. pose proof (runs_inv Hw Hd (worked_runs Hn H)) as Hi'.
    assert (Hlen : zlen (o_stat s) = k) by (destruct Hi as [_ _ HA _ _]; unfold k, zlen; rewrite (aligned_len HA); reflexivity).
    split.
    - destruct (worked_work Hn) as (_ & W). rewrite Hlen in *. pose proof (zlen_nonneg (o_stat s)).
      pose proof (@work_nonneg k (o_stat s) ltac:(lia)) as (_ & B). pose proof (@work_nonneg k (o_stat s') ltac:(lia)) as (B' & _). rewrite Hlen in B. lia.
    - destruct (wstep_possible (decode := decode) Hslots Hi') as [K|K]; [left; exact K|right]. destruct Hi' as [_ _ HA _ _].
      clear - HA K. unfold aligned in HA. induction HA as [|c x l st E HA IH]; [constructor|]. inversion K as [|? ? E2 K2]; subst. constructor; [|apply IH; exact K2].
      intros Ec. apply E in Ec. congruence.
  Qed.
  Theorem C47_the_iterator_goes_on : forall t0 tuned w d es s, 1 <= w -> 1 <= d ->
    runs (start t0 tuned w d) es s ->
    pf_ctl (o_p s) = PDone A T O \/ (exists e, pf_ctl (o_p s) = PFailed A T O e)
    \/ (exists es1 s', iterates s es1 s' /\ (pf_ctl (o_p s) = PFill A T O -> pf_ctl (o_p s') = PFill A T O ->
                                             pf_count (o_p s) < pf_count (o_p s') \/ pf_exhausted (o_p s') = true))
    \/ exists items rest s', pf_pending (o_p s) = (items, None) :: rest /\ works s s'.
  Proof.
    intros t0 tuned w d es s Hw Hd H. pose proof (runs_inv Hw Hd H) as Hi.
    destruct (pf_ctl (o_p s)) as [| |[|[tok dd] rest]| |e] eqn:Hc; eauto.
    - right. right. left. destruct ((pf_count (o_p s) <? o_depth s) && negb (pf_exhausted (o_p s))) eqn:Hg.
      + exists []. eexists. split; [eapply os_fill; [exact Hc|exact Hg|reflexivity]|]. cbn [with_p o_p]. intros _.
        pose proof (submit_progress (dc := mkdc train early (o_workers s) (o_depth s)) fd shape cf is_resumable token_digest fuel Hc Hg) as Hp.
        destruct (submit_chunk _ _ _ _ _ _ _ (o_p s)) as [p'|e]; [intros _; exact Hp|discriminate].
      + exists []. eexists. split; [apply os_filled; assumption|]. discriminate.
    - right. right. destruct (pf_pending (o_p s)) as [|[items [r|]] rest] eqn:Hp.
      + left. exists []. eexists. split; [apply os_end; assumption|discriminate].
      + left. exists []. eexists. split; [eapply os_pop; eassumption|discriminate].
      + right. destruct (wstep_possible (decode := decode) Hslots Hi) as [(s' & K)|K]; [exists items, rest, s'; split; [reflexivity|exact K]|exfalso].
        destruct Hi as [_ _ HA _ _]. unfold aligned in HA. rewrite Hp in HA. destruct (o_stat s) as [|x st]; [inversion HA|]. inversion HA as [|? ? ? ? E _]; subst. inversion K as [|? ? Ex _]; subst.
        destruct E as (E & _). exact (E eq_refl eq_refl).
    - right. right. left. exists []. eexists. split; [apply os_served; assumption|discriminate].
    - right. right. left. destruct (publish is_resumable None token_digest state_eqb (mkdc train early (o_workers s) (o_depth s)) finalize_batch (o_p s) tok dd rest) as [[e p']|e] eqn:Hpub.
      + exists [e]. eexists. split; [eapply os_yield; eassumption|discriminate].
      + exists []. eexists. split; [eapply os_yield_err; eassumption|discriminate].
  Qed.
End C47.
Print Assumptions C47_tuned_prefetching_is_synchronous_iteration.
Print Assumptions C47_prefetching_is_bounded.
Print Assumptions C47_decodes_respect_the_limit.
Print Assumptions C47_nobody_sleeps_while_there_is_room.
Print Assumptions C47_decode_threads_finish.
Print Assumptions C47_the_iterator_goes_on.
Print Assumptions C47_depth_in_force_bounds_what_is_held.

(** ** A concrete run *)
Inductive ochoice := OGo | OThread (i : nat) | OCommit (n : nat) | OTune (w d : Z).
Section Drive.
  Variable slots : Z.
  Notation cf := (pairs false None).
  Notation state := (obs (ofeed (list (envelope Z)) Z) (envelope Z) (list (envelope Z) * rstate (envelope Z)) (list Z * list bool)).
  Notation dcs s := (mkdc true true (o_workers s) (o_depth s)).
  Definition thread_step (s : state) (i : nat) : option state :=
    match nth_error (o_stat s) i with
    | Some w =>
        let a := firstn i (o_stat s) in let b := skipn (S i) (o_stat s) in
        match w with
        | Queued => if negb (existsb (fun w => match w with Queued => true | _ => false end) a) && (count is_busy (o_stat s) <? slots) then Some (with_p s (o_p s) (a ++ AtGate :: b)) else None
        | AtGate => if match o_limit s with Some l => count is_active (o_stat s) <? l | None => true end
                    then Some (with_p s (o_p s) (a ++ Active :: b)) else Some (with_p s (o_p s) (a ++ Waiting :: b))
        | Active => Some (with_p s (o_p s) (notify (a ++ Leaving :: b)))
        | Leaving => match nth_error (pf_pending (o_p s)) i with
                     | Some (items, None) => Some (with_p s (with_pending (o_p s) (firstn i (pf_pending (o_p s)) ++ (items, Some (run_job (dcs s) decode_pays fin items)) :: skipn (S i) (pf_pending (o_p s)))) (a ++ Finished :: b))
                     | _ => None
                     end
        | _ => None
        end
    | None => None
    end.
  Definition odrive1 (c : ochoice) (s : state) : option (list (event _ _ _) * state) :=
    match c with
    | OGo => match pf_ctl (o_p s) with
            | PFill _ _ _ => if (pf_count (o_p s) <? o_depth s) && negb (pf_exhausted (o_p s))
                       then let p' := match submit_chunk tape_feed (@e_shape Z) cf true count_digest (dcs s) 100 (o_p s) with Ok p' => p' | Err e => goto (o_p s) (PFailed _ _ _ e) end in
                            Some ([], with_p s p' (o_stat s ++ repeat Queued (List.length (pf_pending p') - List.length (pf_pending (o_p s)))))
                       else Some ([], with_p s (goto (o_p s) (PPop _ _ _)) (o_stat s))
            | PPop _ _ _ => match pf_pending (o_p s) with
                      | [] => Some ([], with_p s (goto (o_p s) (PDone _ _ _)) (o_stat s))
                      | (items, Some r) :: rest => Some ([], with_p s (goto (with_pending (o_p s) rest)
                          match r with
                          | Ok ds => if (List.length ds =? List.length items)%nat then PServe (combine items ds) else PFailed _ _ _ RuntimeError
                          | Err e => PFailed _ _ _ e
                          end) (tl (o_stat s)))
                      | _ => None
                      end
            | PServe [] => Some ([], {| o_p := goto (o_p s) (PFill _ _ _); o_workers := o_workers s; o_depth := o_depth s;
                    o_limit := option_map (fun _ => o_workers s) (o_limit s);
                    o_stat := match o_limit s with Some _ => notify (o_stat s) | None => o_stat s end |})
            | PServe ((tok, d) :: rest) => match publish true None count_digest eqb_any (dcs s) fin (o_p s) tok d rest with
                                           | Ok (e, p') => Some ([e], with_p s p' (o_stat s))
                                           | Err e => Some ([], with_p s (goto (o_p s) (PFailed _ _ _ e)) (o_stat s))
                                           end
            | _ => None
            end
    | OThread i => match thread_step s i with Some s' => Some ([], s') | None => None end
    | OCommit n => match commit_all (O := list Z * list bool) true None eqb_any (pf_t (o_p s)) (firstn n (pf_open (o_p s))) with
                  | Ok t' => Some ([Committed _ _ _ n], with_p s
                     {| pf_t := t'; pf_gen := pf_gen (o_p s); pf_pending := pf_pending (o_p s); pf_count := pf_count (o_p s);
                        pf_exhausted := pf_exhausted (o_p s); pf_ctl := pf_ctl (o_p s); pf_open := skipn n (pf_open (o_p s)) |} (o_stat s))
                  | Err _ => None
                  end
    | OTune w d => match o_limit s with
                   | Some _ => if (1 <=? w) && (1 <=? d) then Some ([], {| o_p := o_p s; o_workers := w; o_depth := d; o_limit := Some w; o_stat := notify (o_stat s) |}) else None
                   | None => None
                   end
    end.
  Fixpoint odrive (cs : list ochoice) (p : state) : option (list (event _ _ _) * state) :=
    match cs with
    | [] => Some ([], p)
    | c :: cs => match odrive1 c p with
                 | Some (es, p1) => match odrive cs p1 with Some (es2, p2) => Some (es ++ es2, p2) | None => None end
                 | None => None
                 end
    end.
  Notation runs := (oruns tape_feed (@e_shape Z) cf true count_digest eqb_any true true decode_pays fin 100 slots).
  Notation step := (ostep tape_feed (@e_shape Z) cf true count_digest eqb_any true true decode_pays fin 100 slots).

  Lemma nth_cut {U} (l : list U) i x : nth_error l i = Some x -> l = firstn i l ++ x :: skipn (S i) l.
  Proof. revert l. induction i as [|i IH]; intros [|y l] H; try discriminate; cbn in *; [congruence|f_equal; apply IH; exact H]. Qed.
  Lemma odrive1_step c s es s' : odrive1 c s = Some (es, s') -> step s es s'.
  Proof.
    destruct c as [|i|n|w d]; cbn [odrive1].
    - intros H. apply o_iter. revert H. destruct (pf_ctl (o_p s)) as [| |[|[tok d] rest]| |e] eqn:Hc; try discriminate.
      + destruct ((pf_count (o_p s) <? o_depth s) && negb (pf_exhausted (o_p s))) eqn:Hg; intros E; injection E as <- <-.
        * apply os_fill; [assumption|assumption|reflexivity].
        * apply os_filled; assumption.
      + destruct (pf_pending (o_p s)) as [|[items [r|]] rest] eqn:Hp; try discriminate; intros E; injection E as <- <-.
        * apply os_end; assumption.
        * eapply os_pop; eassumption.
      + intros E. injection E as <- <-. apply os_served; assumption.
      + destruct (publish _ _ _ _ _ _ (o_p s) tok d rest) as [[e p']|e] eqn:Hpub; intros E; injection E as <- <-.
        * eapply os_yield; eassumption.
        * eapply os_yield_err; eassumption.
    - destruct (thread_step s i) as [s1|] eqn:Ht; [|discriminate]. intros E. injection E as <- <-. apply o_work. revert Ht. unfold thread_step.
      destruct (nth_error (o_stat s) i) as [x|] eqn:En; [|discriminate]. pose proof (nth_cut En) as Ec. destruct x; try discriminate.
      + destruct (negb _ && _) eqn:G; [|discriminate]. apply andb_true_iff in G. destruct G as (G1 & G2). intros E. injection E as <-. eapply ow_start; [exact Ec| |lia].
        intros K. apply negb_true_iff in G1. assert (existsb (fun w => match w with Queued => true | _ => false end) (firstn i (o_stat s)) = true) by (apply existsb_exists; exists Queued; auto). congruence.
      + destruct (o_limit s) as [l|] eqn:El.
        * destruct (count is_active (o_stat s) <? l) eqn:G; intros E; injection E as <-; [eapply ow_enter; [exact Ec|rewrite El; lia]|eapply ow_wait; [exact Ec|exact El|lia]].
        * intros E; injection E as <-. eapply ow_enter; [exact Ec|rewrite El; exact I].
      + intros E; injection E as <-. eapply ow_leave. exact Ec.
      + destruct (nth_error (pf_pending (o_p s)) i) as [[items [r|]]|] eqn:Ep; try discriminate. intros E; injection E as <-. eapply ow_done; [exact Ec|exact (nth_cut Ep)|].
        assert (i < List.length (pf_pending (o_p s)))%nat by (apply nth_error_Some; congruence). assert (i < List.length (o_stat s))%nat by (apply nth_error_Some; congruence).
        rewrite !firstn_length_le by lia. reflexivity.
    - destruct (commit_all _ _ _ _ _) as [t'|e] eqn:Hc; [|discriminate]. intros E. injection E as <- <-. apply o_user. apply oc_commit; [reflexivity|exact Hc].
    - destruct (o_limit s) eqn:El; [|discriminate]. destruct (_ && _) eqn:G; [|discriminate]. apply andb_true_iff in G. destruct G as (G1 & G2). intros E. injection E as <- <-. apply o_user. apply oc_tune; [congruence|lia|lia].
  Qed.
  Lemma odrive_runs cs : forall s0 es0 s es s', runs s0 es0 s -> odrive cs s = Some (es, s') -> runs s0 (es0 ++ es) s'.
  Proof.
    induction cs as [|c cs IH]; intros s0 es0 s es s' H Hd; cbn [odrive] in Hd.
    - injection Hd as <- <-. rewrite app_nil_r. exact H.
    - destruct (odrive1 c s) as [[es1 p1]|] eqn:E1; [|discriminate].
      destruct (odrive cs p1) as [[es2 p2]|] eqn:E2; [|discriminate]. injection Hd as <- <-.
      rewrite app_assoc. eapply IH; [|exact E2]. eapply or_snoc; [exact H|]. eapply odrive1_step. exact E1.
  Qed.
End Drive.

(** Three chunks on three threads with a limit of 1: the second thread has to sleep; the
    tuner raises the limit to 2 and lowers the depth to 1; the third chunk is decoded
    first.  The batches come out in order, and the consumer commits two of them. *)
Definition sleepy : list ochoice :=
  [OGo; OGo; OGo; OGo; OThread 0; OThread 0; OThread 1; OThread 1; OThread 2; OThread 2].
Definition rest_of_run : list ochoice :=
  [OTune 2 1; OThread 2; OThread 2; OThread 2; OThread 1; OThread 0; OThread 0; OThread 1; OThread 1;
   OGo; OGo; OGo; OGo; OGo; OGo; OGo; OCommit 2; OGo; OGo; OGo; OGo; OGo; OGo; OGo].
Example C47_example : exists t0 s1 es s,
  txn_init tape_feed (pairs false None) true (@None (composer (envelope Z) (list Z))) (fun ep _ => a_digest ep) = Ok t0
  /\ odrive 3 sleepy (obs_init _ t0 true 1 3) = Some ([], s1) /\ (sleeping s1, decoding s1, held (o_p s1)) = (2, 1, 3)
  /\ odrive 3 rest_of_run s1 = Some (es, s)
  /\ shown_events es = [([101; 103], [true; true], false); ([102; 105], [true; true], false); ([104; 104], [true; false], true)]
  /\ pf_ctl (o_p s) = PDone _ _ _ /\ List.length (pf_open (o_p s)) = 1%nat
  /\ oruns tape_feed (@e_shape Z) (pairs false None) true count_digest eqb_any true true decode_pays fin 100 3 (obs_init _ t0 true 1 3) es s.
Proof.
  do 4 eexists. split; [vm_compute; reflexivity|].
  match goal with |- ?G /\ _ => assert (H : G) by (vm_compute; reflexivity) end. split; [exact H|]. split; [vm_compute; reflexivity|].
  match goal with |- ?G /\ _ => assert (H2 : G) by (vm_compute; reflexivity) end. split; [exact H2|].
  split; [vm_compute; reflexivity|]. split; [vm_compute; reflexivity|]. split; [vm_compute; reflexivity|].
  pose proof (odrive_runs (or_nil _ _ _ _ _ _ _ _ _ _ _ _ _) H) as K. pose proof (odrive_runs K H2) as K2. exact K2.
Qed.
